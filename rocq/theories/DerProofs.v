(** * DER signatures: proofs (see PropSignature.v for the statements) *)
From Coq Require Import ZArith List Bool Lia.
From Verif Require Import Spec Go Wire Big CodecProofs SpecZk SpecBtc ZkBase Koblitz FieldProofs KobMul PubKey PubKeyProofs Signature.
Import ListNotations.
Open Scope Z_scope.

Lemma bytes_app a b : bytes_ok (a ++ b) <-> bytes_ok a /\ bytes_ok b.
Proof. apply Forall_app. Qed.
Lemma bytes_firstn n s : bytes_ok s -> bytes_ok (firstn n s).
Proof. intros B. rewrite <- (firstn_skipn n s) in B. apply bytes_app in B. apply B. Qed.
Lemma bytes_skipn n s : bytes_ok s -> bytes_ok (skipn n s).
Proof. intros B. rewrite <- (firstn_skipn n s) in B. apply bytes_app in B. apply B. Qed.

Lemma top80 b : is_byte b -> (Z.land b 0x80 =? 0x80) = (128 <=? b).
Proof. intros B. apply Bool.eqb_prop. apply (byte_check (fun b => Bool.eqb (Z.land b 0x80 =? 0x80) (128 <=? b))); [vm_compute; reflexivity|exact B]. Qed.
Lemma top80n b : is_byte b -> negb (Z.land b 0x80 =? 0) = (128 <=? b).
Proof. intros B. apply Bool.eqb_prop. apply (byte_check (fun b => Bool.eqb (negb (Z.land b 0x80 =? 0)) (128 <=? b))); [vm_compute; reflexivity|exact B]. Qed.

Lemma bigBytes_head v : 0 < v -> exists b t, bigBytes v = b :: t /\ 0 < b < 256.
Proof.
  intros H. destruct (bigBytes v) as [|b t] eqn:E.
  - pose proof (beval_bigBytes v) as V. rewrite E, beval_nil in V. lia.
  - exists b, t. split; [reflexivity|]. pose proof (bigBytes_ok v) as B. rewrite E in B. inversion B as [|? ? Bb Bt]; subst.
    pose proof (beval_bigBytes v) as V. rewrite E, beval_cons in V. rewrite Z.abs_eq in V by lia.
    pose proof (beval_range t Bt) as Rt. unfold is_byte in Bb.
    assert (b <> 0); [|lia]. intros ->.
    assert (L : Z.of_nat (byteLen v) <= blen t) by (apply byteLen_min; [lia|unfold blen; lia]).
    assert (LE : length (bigBytes v) = byteLen v) by (unfold bigBytes; rewrite Z.abs_eq by lia; apply be_bytes_len).
    rewrite E in LE. cbn [length] in LE. unfold blen in L. lia.
Qed.

Lemma canonicalize_der v : 0 <= v < 2 ^ 256 -> der_int (canonicalizeInt v) v /\ 1 <= blen (canonicalizeInt v) <= 33.
Proof.
  intros B. unfold canonicalizeInt.
  assert (L : blen (bigBytes v) <= 32).
  { apply bigBytes_blen; [discriminate|]. rewrite Z.abs_eq by lia. exact (proj2 B). }
  pose proof (bigBytes_ok v) as BO. pose proof (beval_bigBytes v) as V. rewrite Z.abs_eq in V by lia.
  destruct (Z.eq_dec v 0) as [->|NZ].
  - change (der_int [0] 0 /\ 1 <= blen [0] <= 33). split; [|split; discriminate].
    split; [constructor; [split; [discriminate|reflexivity]|constructor]|]. split; reflexivity.
  - destruct (bigBytes_head v) as (b & t & E & Hb); [lia|]. rewrite E in *. inversion BO as [|? ? Bb Bt]; subst.
    replace (blen (b :: t) =? 0) with false by (symmetry; apply Z.eqb_neq; unfold blen; cbn [length]; lia).
    cbn [nth]. rewrite (top80n b Bb). destruct (128 <=? b) eqn:T.
    + apply Z.leb_le in T. split; [|unfold blen in *; cbn [length] in *; lia].
      split; [constructor; [split; [discriminate|reflexivity]|exact BO]|]. split; [rewrite beval_cons; lia|]. lia.
    + apply Z.leb_gt in T. split; [|unfold blen in *; cbn [length] in *; lia].
      split; [exact BO|]. split; [reflexivity|]. destruct t; lia.
Qed.

(** a DER integer has one encoding *)
Lemma der_len b v : der_int b v -> v < 128 * 256 ^ (blen b - 1) /\ (2 <= blen b -> 128 * 256 ^ (blen b - 2) <= v).
Proof.
  intros (BO & V & H). destruct b as [|b0 t]; [destruct H|]. inversion BO as [|? ? B0 Bt]; subst.
  rewrite beval_cons. pose proof (beval_range t Bt) as Rt. replace (blen (b0 :: t) - 1) with (blen t) by (unfold blen; cbn [length]; lia).
  assert (Pt : 0 < 256 ^ blen t) by (apply Z.pow_pos_nonneg; unfold blen; lia). unfold is_byte in B0.
  destruct t as [|b1 u].
  - change (blen []) with 0 in *. rewrite beval_nil. split; [lia|]. unfold blen. cbn [length]. lia.
  - destruct H as [H1 H2]. split; [nia|]. intros _. replace (blen (b0 :: b1 :: u) - 2) with (blen u) by (unfold blen; cbn [length]; lia).
    inversion Bt as [|? ? B1 Bu]; subst. pose proof (beval_range u Bu) as Ru.
    assert (EL : 256 ^ blen (b1 :: u) = 256 * 256 ^ blen u).
    { replace (blen (b1 :: u)) with (1 + blen u) by (unfold blen; cbn [length]; lia). rewrite Z.pow_add_r; [reflexivity|lia|unfold blen; lia]. }
    assert (Pu : 0 < 256 ^ blen u) by (apply Z.pow_pos_nonneg; unfold blen; lia).
    rewrite EL in *. rewrite beval_cons in *. unfold is_byte in B1. destruct (Z.eq_dec b0 0) as [->|]; [specialize (H2 eq_refl)|]; nia.
Qed.
Lemma der_pos b v : der_int b v -> 1 <= blen b.
Proof. intros (_ & _ & H). destruct b; [destruct H|]. unfold blen. cbn [length]. lia. Qed.
Lemma der_unique b b' v : der_int b v -> der_int b' v -> b = b'.
Proof.
  assert (Half : forall b b' v, der_int b v -> der_int b' v -> blen b <= blen b').
  { clear. intros b b' v H H'. destruct (der_len b v H) as [_ L]. destruct (der_len b' v H') as [U _]. pose proof (der_pos b v H). pose proof (der_pos b' v H').
    destruct (Z_le_gt_dec (blen b) (blen b')) as [|G]; [assumption|exfalso]. specialize (L ltac:(lia)).
    assert (256 ^ (blen b' - 1) <= 256 ^ (blen b - 2)) by (apply Z.pow_le_mono_r; lia). lia. }
  intros H H'. pose proof (Half _ _ _ H H'). pose proof (Half _ _ _ H' H).
  assert (L : length b = length b') by (unfold blen in *; lia).
  destruct H as (B & V & _). destruct H' as (B' & V' & _).
  rewrite <- (be_bytes_beval b B), <- (be_bytes_beval b' B'), L, V, V'. reflexivity.
Qed.

(** *** the parser, structurally *)
Definition body (der : bool) (u : list Z) : R (ret sig) :=
  match u with
  | m :: rl :: t =>
      if negb (m =? 2) then Ok (Fail ESigMarker1)
      else if (rl <=? 0) || (blen t - 3 <? rl) then Ok (Fail ESigRLen)
      else checkPadding der (firstn (Z.to_nat rl) t) ESigRNeg ESigRPad
        (match skipn (Z.to_nat rl) t with
         | m2 :: sl :: w =>
             if negb (m2 =? 2) then Ok (Fail ESigMarker2)
             else if (sl <=? 0) || (blen w <? sl) then Ok (Fail ESigSLen)
             else checkPadding der (firstn (Z.to_nat sl) w) ESigSNeg ESigSPad
               (if negb (sl =? blen w) then Ok (Fail ESigFinal)
                else Ok (checkRange (beval (firstn (Z.to_nat rl) t)) (beval (firstn (Z.to_nat sl) w))))
         | _ => Panic
         end)
  | _ => Panic
  end.

Lemma index_cons x s i : 0 <= i -> index (x :: s) (1 + i) = index s i.
Proof.
  intros H. unfold index. replace (blen (x :: s) <=? 1 + i) with (blen s <=? i).
  2:{ apply Bool.eq_true_iff_eq. rewrite !Z.leb_le. unfold blen. cbn [length]. lia. }
  rewrite (proj2 (Z.ltb_ge i 0)) by lia. rewrite (proj2 (Z.ltb_ge (1 + i) 0)) by lia.
  replace (Z.to_nat (1 + i)) with (S (Z.to_nat i)) by lia. reflexivity.
Qed.
Lemma index_0 x s : index (x :: s) 0 = Ok x.
Proof. unfold index. replace (blen (x :: s) <=? 0) with false; [reflexivity|]. symmetry. apply Z.leb_gt. unfold blen. cbn [length]. lia. Qed.
Lemma index_out s i : blen s <= i -> index s i = Panic.
Proof. intros H. unfold index. rewrite (proj2 (Z.leb_le _ _)) by exact H. rewrite orb_true_r. reflexivity. Qed.
Lemma blen_cons x s : blen (x :: s) = 1 + blen s. Proof. unfold blen. cbn [length]. lia. Qed.
Lemma index_skip s i : 0 <= i -> forall j, 0 <= j -> index s (i + j) = index (skipn (Z.to_nat i) s) j.
Proof.
  intros Hi j Hj. rewrite <- (Z2Nat.id i) at 1 by exact Hi. revert s. induction (Z.to_nat i) as [|n IH]; intros s.
  - reflexivity.
  - destruct s as [|x s]; [rewrite !index_out; [reflexivity|change (blen []) with 0; exact Hj|change (blen []) with 0; lia]|].
    replace (Z.of_nat (S n) + j) with (1 + (Z.of_nat n + j)) by lia. rewrite index_cons by lia. apply IH.
Qed.
Lemma checkPadding_ext der b e1 e2 k k' : k = k' -> checkPadding der b e1 e2 k = checkPadding der b e1 e2 k'.
Proof. intros ->. reflexivity. Qed.
Lemma slice_4 a b m l t r : slice (a :: b :: m :: l :: t) 4 (4 + r) = firstn (Z.to_nat r) t.
Proof. unfold slice. replace (4 + r - 4) with r by ring. reflexivity. Qed.

Lemma skipn_add {A} m n (l : list A) : skipn n (skipn m l) = skipn (m + n) l.
Proof. revert l. induction m as [|m IH]; intros l; [reflexivity|]. destruct l; [rewrite !skipn_nil; reflexivity|apply IH]. Qed.

(** the part after the length check, for an input already trimmed *)
Definition tail (der : bool) (s : list Z) : R (ret sig) :=
  m <- index s 2 ;
  if negb (m =? 0x02) then Ok (Fail ESigMarker1)
  else
  rLen <- index s 3 ;
  if (rLen <=? 0) || (blen s - 4 - 3 <? rLen) then Ok (Fail ESigRLen)
  else
  let rBytes := slice s 4 (4 + rLen) in
  checkPadding der rBytes ESigRNeg ESigRPad (
  let i := 4 + rLen in
  m <- index s i ;
  if negb (m =? 0x02) then Ok (Fail ESigMarker2)
  else
  sLen <- index s (i + 1) ;
  let i := i + 2 in
  if (sLen <=? 0) || (blen s - i <? sLen) then Ok (Fail ESigSLen)
  else
  let sBytes := slice s i (i + sLen) in
  checkPadding der sBytes ESigSNeg ESigSPad (
  if negb (i + sLen =? blen s) then Ok (Fail ESigFinal)
  else Ok (checkRange (beval rBytes) (beval sBytes)))).

Lemma tail_body der a b u : (2 <= length u)%nat -> tail der (a :: b :: u) = body der u.
Proof.
  intros L. destruct u as [|m [|rl t]]; [cbn in L; lia|cbn in L; lia|].
  unfold tail, body. change 2 with (1 + (1 + 0)) at 1. rewrite !index_cons, index_0 by lia. cbn [bind].
  destruct (negb (m =? 2)); [reflexivity|].
  change 3 with (1 + (1 + (1 + 0))) at 1. rewrite !index_cons, index_0 by lia. cbn [bind].
  replace (blen (a :: b :: m :: rl :: t) - 4 - 3) with (blen t - 3) by (rewrite !blen_cons; ring).
  destruct ((rl <=? 0) || _) eqn:E; [reflexivity|]. apply orb_false_iff in E. destruct E as [E1 E2]. apply Z.leb_gt in E1. apply Z.ltb_ge in E2.
  rewrite slice_4. apply checkPadding_ext. cbv zeta.
  rewrite <- (Z.add_0_r (4 + rl)) at 1. rewrite !index_skip by lia.
  replace (Z.to_nat (4 + rl)) with (4 + Z.to_nat rl)%nat by lia. cbn [plus skipn].
  assert (LT : length (skipn (Z.to_nat rl) t) = (length t - Z.to_nat rl)%nat) by apply skipn_length.
  destruct (skipn (Z.to_nat rl) t) as [|m2 [|sl w]] eqn:ES; [cbn [length] in LT; unfold blen in E2; lia|cbn [length] in LT; unfold blen in E2; lia|].
  rewrite index_0. cbn [bind]. destruct (negb (m2 =? 2)); [reflexivity|].
  change 1 with (1 + 0) at 1. rewrite index_cons, index_0 by lia. cbn [bind].
  assert (LB : blen (a :: b :: m :: rl :: t) = 4 + rl + 2 + blen w).
  { rewrite !blen_cons. unfold blen in *. cbn [length] in LT. lia. }
  rewrite LB. replace (4 + rl + 2 + blen w - (4 + rl + 2)) with (blen w) by ring.
  destruct ((sl <=? 0) || _) eqn:F; [reflexivity|]. apply orb_false_iff in F. destruct F as [F1 F2]. apply Z.leb_gt in F1. apply Z.ltb_ge in F2.
  assert (SL : slice (a :: b :: m :: rl :: t) (4 + rl + 2) (4 + rl + 2 + sl) = firstn (Z.to_nat sl) w).
  { unfold slice. replace (4 + rl + 2 + sl - (4 + rl + 2)) with sl by ring. f_equal.
    replace (Z.to_nat (4 + rl + 2)) with (4 + (Z.to_nat rl + 2))%nat by lia. rewrite <- (skipn_add 4). cbn [skipn].
    replace w with (skipn 2 (m2 :: sl :: w)) by reflexivity. rewrite <- ES, skipn_add. reflexivity. }
  rewrite SL. apply checkPadding_ext.
  replace (4 + rl + 2 + sl =? 4 + rl + 2 + blen w) with (sl =? blen w); [reflexivity|].
  apply Bool.eq_true_iff_eq. rewrite !Z.eqb_eq. lia.
Qed.

Lemma parse_head h sl rest der : is_byte sl -> 6 <= blen rest ->
  parseSig (h :: sl :: rest) der =
    if negb (h =? 0x30) then Ok (Fail ESigHeader)
    else let n := (sl + 2) mod 256 in
         if blen (h :: sl :: rest) <? n then Ok (Fail ESigLength) else tail der (firstn (Z.to_nat n) (h :: sl :: rest)).
Proof.
  intros B L. unfold parseSig, tail.
  replace (blen (h :: sl :: rest) <? 8) with false by (symmetry; apply Z.ltb_ge; rewrite !blen_cons; lia).
  rewrite index_0. cbn [bind]. destruct (negb (h =? 48)); [reflexivity|].
  change 1 with (1 + 0) at 1. rewrite index_cons, index_0 by lia. reflexivity.
Qed.

Lemma parse_body sl rest der : 2 <= sl <= 253 -> 6 <= blen rest ->
  parseSig (0x30 :: sl :: rest) der = if blen rest <? sl then Ok (Fail ESigLength) else body der (firstn (Z.to_nat sl) rest).
Proof.
  intros B L. rewrite parse_head by (unfold is_byte; lia). change (negb (0x30 =? 0x30)) with false. cbv iota zeta.
  rewrite Z.mod_small by lia. replace (blen (48 :: sl :: rest) <? sl + 2) with (blen rest <? sl).
  2:{ apply Bool.eq_true_iff_eq. rewrite !Z.ltb_lt, !blen_cons. lia. }
  destruct (blen rest <? sl) eqn:E; [reflexivity|]. apply Z.ltb_ge in E.
  replace (Z.to_nat (sl + 2)) with (S (S (Z.to_nat sl))) by lia. cbn [firstn]. apply tail_body.
  rewrite firstn_length. unfold blen in *. lia.
Qed.

Lemma firstn_blen (a b : list Z) : firstn (Z.to_nat (blen a)) (a ++ b) = a.
Proof. unfold blen. rewrite Nat2Z.id, firstn_app, Nat.sub_diag, app_nil_r, firstn_all. reflexivity. Qed.
Lemma skipn_blen (a b : list Z) : skipn (Z.to_nat (blen a)) (a ++ b) = b.
Proof. unfold blen. rewrite Nat2Z.id, skipn_app, Nat.sub_diag, skipn_all. reflexivity. Qed.

Lemma body_ok der rb sb : 1 <= blen rb -> 1 <= blen sb ->
  body der (2 :: blen rb :: rb ++ 2 :: blen sb :: sb) =
  checkPadding der rb ESigRNeg ESigRPad (checkPadding der sb ESigSNeg ESigSPad (Ok (checkRange (beval rb) (beval sb)))).
Proof.
  intros L1 L2. unfold body. change (negb (2 =? 2)) with false. cbv iota.
  rewrite firstn_blen, skipn_blen.
  replace (blen rb <=? 0) with false by (symmetry; apply Z.leb_gt; lia).
  replace (_ - 3 <? blen rb) with false by (symmetry; apply Z.ltb_ge; rewrite blen_app, !blen_cons; lia).
  cbn [orb]. apply checkPadding_ext. change (negb (2 =? 2)) with false. cbv iota.
  replace (blen sb <=? 0) with false by (symmetry; apply Z.leb_gt; lia). rewrite Z.ltb_irrefl. cbn [orb].
  replace (firstn (Z.to_nat (blen sb)) sb) with sb by (rewrite <- (app_nil_r sb) at 3; rewrite firstn_blen; reflexivity).
  rewrite Z.eqb_refl. reflexivity.
Qed.

Lemma checkPadding_der der b v e1 e2 k : der_int b v -> checkPadding der b e1 e2 k = k.
Proof.
  intros (B & _ & H). unfold checkPadding. destruct der; [|reflexivity]. unfold canonicalPadding.
  destruct b as [|b0 t]; [destruct H|]. inversion B as [|? ? B0 Bt]; subst. rewrite (top80 b0 B0).
  destruct t as [|b1 u].
  - rewrite (proj2 (Z.leb_gt 128 b0)) by exact H. reflexivity.
  - inversion Bt as [|? ? B1 Bu]; subst. destruct H as [H1 H2]. rewrite (proj2 (Z.leb_gt 128 b0)) by exact H1. rewrite (top80 b1 B1).
    destruct (b0 =? 0) eqn:E; [|reflexivity]. apply Z.eqb_eq in E. rewrite (proj2 (Z.leb_le 128 b1)) by (apply H2, E). reflexivity.
Qed.
Lemma checkPadding_inv b e1 e2 k sg : bytes_ok b -> b <> [] -> checkPadding true b e1 e2 k = Ok (Val sg) -> der_int b (beval b) /\ k = Ok (Val sg).
Proof.
  intros B NE. unfold checkPadding, canonicalPadding. destruct b as [|b0 t]; [congruence|]. inversion B as [|? ? B0 Bt]; subst. rewrite (top80 b0 B0).
  destruct (128 <=? b0) eqn:T; [discriminate|]. apply Z.leb_gt in T. destruct t as [|b1 u].
  - cbn [bind]. intros H. split; [|exact H]. split; [exact B|]. split; [reflexivity|exact T].
  - inversion Bt as [|? ? B1 Bu]; subst. rewrite (top80 b1 B1). destruct (_ && _) eqn:E; [discriminate|]. cbn [bind]. intros H. split; [|exact H].
    split; [exact B|]. split; [reflexivity|]. split; [exact T|]. intros ->. rewrite Z.eqb_refl in E. cbn [andb] in E. rewrite negb_false_iff in E. apply Z.leb_le, E.
Qed.

Lemma checkRange_ok r s : 0 < r < N -> 0 < s < N -> checkRange r s = Val {| sR := r; sS := s |}.
Proof.
  intros Hr Hs. unfold checkRange. rewrite !Z.sgn_pos by lia. change curveN with N.
  rewrite (proj2 (Z.leb_gt N r)), (proj2 (Z.leb_gt N s)) by lia. reflexivity.
Qed.
Lemma checkRange_inv r s sg : checkRange r s = Val sg -> 0 < r < N /\ 0 < s < N /\ sg = {| sR := r; sS := s |}.
Proof.
  unfold checkRange. change curveN with N.
  destruct (Z.sgn r =? 1) eqn:E1; [|discriminate]. destruct (Z.sgn s =? 1) eqn:E2; [|discriminate]. cbn [negb].
  destruct (N <=? r) eqn:E3; [discriminate|]. destruct (N <=? s) eqn:E4; [discriminate|]. intros H. injection H as <-.
  apply Z.eqb_eq in E1, E2. apply Z.leb_gt in E3, E4. apply Z.sgn_pos_iff in E1. apply Z.sgn_pos_iff in E2. auto.
Qed.

Lemma parse_seq der rb sb junk : 1 <= blen rb -> 1 <= blen sb -> 4 + blen rb + blen sb <= 253 ->
  parseSig (der_seq rb sb ++ junk) der =
  checkPadding der rb ESigRNeg ESigRPad (checkPadding der sb ESigSNeg ESigSPad (Ok (checkRange (beval rb) (beval sb)))).
Proof.
  intros L1 L2 L3. unfold der_seq.
  set (u := 2 :: blen rb :: rb ++ 2 :: blen sb :: sb).
  assert (LU : blen u = 4 + blen rb + blen sb) by (unfold u; rewrite !blen_cons, blen_app, !blen_cons; ring).
  replace (([48; 4 + blen rb + blen sb; 2; blen rb] ++ rb ++ [2; blen sb] ++ sb) ++ junk) with (48 :: blen u :: (u ++ junk)).
  2:{ rewrite LU. unfold u. cbn [app]. rewrite <- !app_assoc. reflexivity. }
  assert (LB : blen (u ++ junk) = blen u + blen junk) by apply blen_app. assert (0 <= blen junk) by (unfold blen; lia).
  rewrite parse_body by lia. replace (blen (u ++ junk) <? blen u) with false by (symmetry; apply Z.ltb_ge; lia).
  rewrite firstn_blen. apply body_ok; assumption.
Qed.

Lemma half_N : halfOrder = N / 2. Proof. reflexivity. Qed.
Lemma low_range s : 0 < s < N -> 0 < low s <= N / 2.
Proof.
  intros H. unfold low. assert (E : N = 2 * (N / 2) + 1) by reflexivity. set (h := N / 2) in *. clearbody h.
  destruct (s <=? h) eqn:L; [apply Z.leb_le in L; lia|apply Z.leb_gt in L]. lia.
Qed.
Lemma N_256 : N < 2 ^ 256. Proof. reflexivity. Qed.
Lemma half_lt : N / 2 < N. Proof. reflexivity. Qed.

Lemma serialize_der s : 0 <= sR s < N -> 0 < sS s < N ->
  SigSerialize s = der_seq (canonicalizeInt (sR s)) (canonicalizeInt (low (sS s))).
Proof.
  intros Hr Hs. unfold SigSerialize, der_seq. rewrite half_N. change curveN with N.
  assert (EL : (if N / 2 <? sS s then N - sS s else sS s) = low (sS s)).
  { unfold low. destruct (sS s <=? N / 2) eqn:E.
    - apply Z.leb_le in E. rewrite (proj2 (Z.ltb_ge _ _)) by exact E. reflexivity.
    - apply Z.leb_gt in E. rewrite (proj2 (Z.ltb_lt _ _)) by exact E. reflexivity. }
  rewrite EL. pose proof (low_range _ Hs) as LR. pose proof N_256. pose proof half_lt.
  destruct (canonicalize_der (sR s)) as [_ L1]; [lia|]. destruct (canonicalize_der (low (sS s))) as [_ L2]; [lia|].
  rewrite !Z.mod_small by lia. replace (6 + _ + _ - 2) with (4 + blen (canonicalizeInt (sR s)) + blen (canonicalizeInt (low (sS s)))) by ring. reflexivity.
Qed.

Lemma der_roundtrip der s junk : 0 < sR s < N -> 0 < sS s < N ->
  parseSig (SigSerialize s ++ junk) der = Ok (Val {| sR := sR s; sS := low (sS s) |}).
Proof.
  intros Hr Hs. rewrite serialize_der by lia. pose proof (low_range _ Hs) as LR. pose proof N_256. pose proof half_lt.
  destruct (canonicalize_der (sR s)) as [D1 L1]; [lia|]. destruct (canonicalize_der (low (sS s))) as [D2 L2]; [lia|].
  rewrite parse_seq by lia. rewrite (checkPadding_der _ _ _ _ _ _ D1), (checkPadding_der _ _ _ _ _ _ D2).
  destruct D1 as (_ & -> & _). destruct D2 as (_ & -> & _). rewrite checkRange_ok by lia. reflexivity.
Qed.

(** *** what an accepted string looks like *)
Lemma body_inv der u sg : bytes_ok u -> body der u = Ok (Val sg) -> exists rb sb,
  u = 2 :: blen rb :: rb ++ 2 :: blen sb :: sb /\ 1 <= blen rb /\ 1 <= blen sb /\
  (der = true -> der_int rb (sR sg) /\ der_int sb (sS sg)) /\
  beval rb = sR sg /\ beval sb = sS sg /\ 0 < sR sg < N /\ 0 < sS sg < N.
Proof.
  intros B. destruct u as [|m [|rl t]]; [discriminate|discriminate|]. unfold body.
  destruct (m =? 2) eqn:Em; [|discriminate]. cbn [negb]. apply Z.eqb_eq in Em. subst m.
  destruct ((rl <=? 0) || _) eqn:E; [discriminate|]. apply orb_false_iff in E. destruct E as [E1 E2]. apply Z.leb_gt in E1. apply Z.ltb_ge in E2.
  inversion B as [|? ? _ B']; subst. inversion B' as [|? ? Brl Bt]; subst.
  set (rb := firstn (Z.to_nat rl) t).
  assert (Lrb : blen rb = rl). { unfold rb, blen. rewrite firstn_length. unfold blen in E2. lia. }
  pose proof (bytes_firstn (Z.to_nat rl) t Bt) as Brb. fold rb in Brb. pose proof (bytes_skipn (Z.to_nat rl) t Bt) as Bsk.
  assert (Et : t = rb ++ skipn (Z.to_nat rl) t) by (symmetry; apply firstn_skipn).
  destruct (skipn (Z.to_nat rl) t) as [|m2 [|sl w]] eqn:ES.
  { intros H. exfalso. destruct der; [|discriminate]. apply checkPadding_inv in H; [destruct H; discriminate|exact Brb|intros F; rewrite F in Lrb; change (blen []) with 0 in Lrb; lia]. }
  { intros H. exfalso. destruct der; [|discriminate]. apply checkPadding_inv in H; [destruct H; discriminate|exact Brb|intros F; rewrite F in Lrb; change (blen []) with 0 in Lrb; lia]. }
  pose proof (Forall_inv_tail (Forall_inv_tail Bsk)) as Bw.
  assert (NEr : rb <> []) by (intros F; rewrite F in Lrb; change (blen []) with 0 in Lrb; lia).
  intros H.
  assert (K : (der = true -> der_int rb (beval rb)) /\
     (if negb (m2 =? 2) then Ok (Fail ESigMarker2) else if (sl <=? 0) || (blen w <? sl) then Ok (Fail ESigSLen)
      else checkPadding der (firstn (Z.to_nat sl) w) ESigSNeg ESigSPad (if negb (sl =? blen w) then Ok (Fail ESigFinal)
                else Ok (checkRange (beval rb) (beval (firstn (Z.to_nat sl) w))))) = Ok (Val sg)).
  { destruct der.
    - apply checkPadding_inv in H; [|exact Brb|exact NEr]. destruct H as [H1 H2]. split; [intros _; exact H1|exact H2].
    - split; [discriminate|exact H]. }
  clear H. destruct K as [Kd H].
  destruct (m2 =? 2) eqn:Em; [|discriminate]. cbn [negb] in H. apply Z.eqb_eq in Em. subst m2.
  destruct ((sl <=? 0) || _) eqn:F; [discriminate|]. apply orb_false_iff in F. destruct F as [F1 F2]. apply Z.leb_gt in F1. apply Z.ltb_ge in F2.
  set (sb := firstn (Z.to_nat sl) w) in *.
  assert (Lsb : blen sb = sl). { unfold sb, blen. rewrite firstn_length. unfold blen in F2. lia. }
  pose proof (bytes_firstn (Z.to_nat sl) w Bw) as Bsb. fold sb in Bsb.
  assert (NEs : sb <> []) by (intros Z0; rewrite Z0 in Lsb; change (blen []) with 0 in Lsb; lia).
  assert (K : (der = true -> der_int sb (beval sb)) /\ (if negb (sl =? blen w) then Ok (Fail ESigFinal) else Ok (checkRange (beval rb) (beval sb))) = Ok (Val sg)).
  { destruct der.
    - apply checkPadding_inv in H; [|exact Bsb|exact NEs]. destruct H as [H1 H2]. split; [intros _; exact H1|exact H2].
    - split; [discriminate|exact H]. }
  clear H. destruct K as [Ks H]. destruct (sl =? blen w) eqn:EF; [|discriminate]. cbn [negb] in H. apply Z.eqb_eq in EF.
  injection H as H. apply checkRange_inv in H. destruct H as (Hr & Hs & ->). cbn [sR sS].
  assert (Ew : sb = w). { unfold sb. apply firstn_all2. unfold blen in EF. lia. }
  exists rb, sb. split; [rewrite Et at 1; rewrite Lrb, Lsb, Ew; reflexivity|].
  split; [lia|]. split; [lia|]. split; [intros D; split; auto|]. auto.
Qed.

Lemma parse_inv der s sg : bytes_ok s -> parseSig s der = Ok (Val sg) -> exists rb sb junk,
  s = der_seq rb sb ++ junk /\ 1 <= blen rb /\ 1 <= blen sb /\ 4 + blen rb + blen sb <= 253 /\
  (der = true -> der_int rb (sR sg) /\ der_int sb (sS sg)) /\
  beval rb = sR sg /\ beval sb = sS sg /\ 0 < sR sg < N /\ 0 < sS sg < N.
Proof.
  intros B H. destruct (Z_lt_le_dec (blen s) 8) as [L|L].
  { unfold parseSig in H. rewrite (proj2 (Z.ltb_lt _ _)) in H by exact L. discriminate. }
  destruct s as [|h [|sl rest]]; [unfold blen in L; cbn in L; lia|unfold blen in L; cbn in L; lia|].
  inversion B as [|? ? _ B']; subst. inversion B' as [|? ? Bsl Br]; subst. rewrite !blen_cons in L.
  assert (HB : 2 <= sl <= 253 \/ sl = 0 \/ sl = 1 \/ sl = 254 \/ sl = 255) by (unfold is_byte in Bsl; lia).
  destruct HB as [HB|HB].
  2:{ exfalso. rewrite parse_head in H by (assumption || lia). destruct (negb _); [discriminate|]. cbv zeta in H. destruct (_ <? _); [discriminate|].
      destruct HB as [->|[->|[->| ->]]]; change ((0 + 2) mod 256) with 2 in H; change ((1 + 2) mod 256) with 3 in H;
        change ((254 + 2) mod 256) with 0 in H; change ((255 + 2) mod 256) with 1 in H; unfold tail in H.
      - rewrite index_out in H; [discriminate|unfold blen; rewrite firstn_length; lia].
      - change 3 with (1 + (1 + (1 + 0))) in H at 2. rewrite (index_out _ (1 + (1 + (1 + 0)))) in H; [|unfold blen; rewrite firstn_length; lia].
        destruct (index _ 2) as [m|]; [|discriminate]. cbn [bind] in H. destruct (negb _) in H; discriminate.
      - rewrite index_out in H; [discriminate|unfold blen; rewrite firstn_length; lia].
      - rewrite index_out in H; [discriminate|unfold blen; rewrite firstn_length; lia]. }
  assert (Eh : h = 0x30).
  { rewrite parse_head in H by (assumption || lia). destruct (h =? 48) eqn:E; [apply Z.eqb_eq, E|discriminate]. }
  subst h. rewrite parse_body in H by lia. destruct (blen rest <? sl) eqn:E; [discriminate|]. apply Z.ltb_ge in E.
  apply body_inv in H; [|apply bytes_firstn; exact Br]. destruct H as (rb & sb & Eu & L1 & L2 & D & V).
  assert (LU : sl = 4 + blen rb + blen sb).
  { apply (f_equal blen) in Eu. rewrite !blen_cons, blen_app, !blen_cons in Eu. unfold blen at 1 in Eu. rewrite firstn_length in Eu. unfold blen in E. lia. }
  exists rb, sb, (skipn (Z.to_nat sl) rest). split.
  - rewrite <- (firstn_skipn (Z.to_nat sl) rest) at 1. rewrite Eu. unfold der_seq. rewrite LU at 1. cbn [app]. rewrite <- !app_assoc. reflexivity.
  - split; [exact L1|]. split; [exact L2|]. split; [lia|]. split; [exact D|exact V].
Qed.

(** *** when it crashes *)
Lemma checkPadding_np der b e1 e2 k : b <> [] -> k <> Panic -> checkPadding der b e1 e2 k <> Panic.
Proof.
  intros NE K. unfold checkPadding, canonicalPadding. destruct der; [|exact K]. destruct b as [|b0 t]; [congruence|].
  destruct (_ =? _); [discriminate|]. destruct t; [exact K|]. destruct (_ && _); [discriminate|exact K].
Qed.
Lemma body_np der u : (2 <= length u)%nat -> body der u <> Panic.
Proof.
  intros L. destruct u as [|m [|rl t]]; [cbn in L; lia|cbn in L; lia|]. unfold body.
  destruct (negb _); [discriminate|]. destruct ((rl <=? 0) || _) eqn:E; [discriminate|].
  apply orb_false_iff in E. destruct E as [E1 E2]. apply Z.leb_gt in E1. apply Z.ltb_ge in E2. unfold blen in E2.
  assert (LT : length (skipn (Z.to_nat rl) t) = (length t - Z.to_nat rl)%nat) by apply skipn_length.
  apply checkPadding_np.
  - intros F. apply (f_equal (@length Z)) in F. rewrite firstn_length in F. cbn [length] in F. lia.
  - destruct (skipn (Z.to_nat rl) t) as [|m2 [|sl w]]; [cbn [length] in LT; lia|cbn [length] in LT; lia|].
    destruct (negb _); [discriminate|]. destruct ((sl <=? 0) || _) eqn:F; [discriminate|].
    apply orb_false_iff in F. destruct F as [F1 F2]. apply Z.leb_gt in F1. apply Z.ltb_ge in F2. unfold blen in F2.
    apply checkPadding_np; [|destruct (negb _); discriminate].
    intros Z0. apply (f_equal (@length Z)) in Z0. rewrite firstn_length in Z0. cbn [length] in Z0. lia.
Qed.

Lemma parse_panic der s : bytes_ok s ->
  parseSig s der = Panic <-> 8 <= blen s /\ nth 0 s 0 = 0x30 /\ (In (nth 1 s 0) [0; 254; 255] \/ (nth 1 s 0 = 1 /\ nth 2 s 0 = 2)).
Proof.
  intros B. destruct (Z_lt_le_dec (blen s) 8) as [L|L].
  { unfold parseSig. rewrite (proj2 (Z.ltb_lt _ _)) by exact L. split; [discriminate|lia]. }
  destruct s as [|h [|sl rest]]; [unfold blen in L; cbn in L; lia|unfold blen in L; cbn in L; lia|].
  inversion B as [|? ? _ B']; subst. inversion B' as [|? ? Bsl Br]; subst. rewrite !blen_cons in L. cbn [nth].
  rewrite parse_head by (assumption || lia). destruct (h =? 48) eqn:E.
  2:{ cbn [negb]. apply Z.eqb_neq in E. split; [discriminate|intros (_ & F & _); lia]. }
  apply Z.eqb_eq in E. subst h. cbn [negb]. cbv zeta. rewrite !blen_cons.
  assert (HB : 2 <= sl <= 253 \/ sl = 1 \/ sl = 0 \/ sl = 254 \/ sl = 255) by (unfold is_byte in Bsl; lia).
  destruct HB as [HB|[->|HB]].
  - split; [|intros (_ & _ & [F|F]); [cbn [In] in F; lia|lia]]. intros H. exfalso. rewrite Z.mod_small in H by lia.
    destruct (_ <? _) eqn:EL; [discriminate|]. apply Z.ltb_ge in EL.
    replace (Z.to_nat (sl + 2)) with (S (S (Z.to_nat sl))) in H by lia. cbn [firstn] in H.
    assert (LF : (2 <= length (firstn (Z.to_nat sl) rest))%nat) by (rewrite firstn_length; unfold blen in *; lia).
    rewrite tail_body in H by exact LF. exact (body_np der _ LF H).
  - change ((1 + 2) mod 256) with 3. rewrite (proj2 (Z.ltb_ge _ _)) by lia.
    destruct rest as [|m t]; [unfold blen in L; cbn in L; lia|]. change (Z.to_nat 3) with 3%nat. cbn [firstn nth]. unfold tail.
    change 2 with (1 + (1 + 0)) at 1. rewrite !index_cons, index_0 by lia. cbn [bind].
    destruct (m =? 2) eqn:Em; cbn [negb].
    + apply Z.eqb_eq in Em. rewrite index_out by (cbn; lia). cbn [bind]. split; [intros _|reflexivity]. split; [lia|]. split; [reflexivity|]. right. auto.
    + apply Z.eqb_neq in Em. split; [discriminate|]. intros (_ & _ & [F|[_ F]]); [cbn [In] in F; lia|lia].
  - split; [intros _; split; [lia|]; split; [reflexivity|]; left; cbn [In]; lia|]. intros _.
    rewrite (proj2 (Z.ltb_ge _ _)) by (destruct HB as [->|[->| ->]]; vm_compute ((_ + 2) mod 256); lia).
    unfold tail. rewrite index_out; [reflexivity|]. unfold blen. rewrite firstn_length.
    destruct HB as [->|[->| ->]]; vm_compute ((_ + 2) mod 256); lia.
Qed.
