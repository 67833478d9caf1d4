(** * Proofs about error texts: the parsers of btcec (proof only) *)
From Coq Require Import String ZArith List Bool Lia Znumtheory.
From Verif Require Import Spec NumTheory FieldP CurveZ Order Go Wire Big CodecProofs SpecZk SpecBtc ZkBase Koblitz FieldProofs KobMul
  PubKey PubKeyProofs Signature DerProofs Text Errors SpecErrors ErrorsProofs.
Import ListNotations.
Open Scope Z_scope.

Lemma ps_ok A text (a : A) l : firstFailing l None -> parses text (Ok (Val a)) l.
Proof. intros H. exists (Val a). split; [reflexivity|exact H]. Qed.
Lemma ps_err A text e l : firstFailing l (Some (text e)) -> parses text (Ok (@Fail A e)) l.
Proof. intros H. exists (Fail e). split; [reflexivity|exact H]. Qed.

Lemma Val_inj A (a b : A) : Val a = Val b -> a = b.
Proof. intros E. injection E as E. exact E. Qed.

(** ** Public keys *)
Lemma on_curve_y_pos p : on_curve p -> 0 < snd p < P.
Proof. intros H. pose proof (on_curve_y_nz p H). destruct H as (_ & Hy & _). lia. Qed.
Lemma check_text c x y : curve_ok c -> 0 <= x < 2 ^ 256 -> 0 <= y < 2 ^ 256 ->
  checkPubKey c x y = (if P <=? x then Ok (Fail EXRange) else if P <=? y then Ok (Fail EYRange)
                       else if (y ^ 2 - (x ^ 3 + 7)) mod P =? 0 then Ok (Val (x, y)) else Ok (Fail EOffCurve)).
Proof.
  intros C Hx Hy. unfold checkPubKey. rewrite (ok_P c C). destruct (P <=? x); [reflexivity|]. destruct (P <=? y); [reflexivity|].
  rewrite (ok_onc c C) by assumption. cbn [bind]. destruct (_ =? 0); reflexivity.
Qed.
Lemma sub_mod_0 a b : (a - b) mod P = 0 <-> a mod P = b mod P.
Proof.
  split; intros H.
  - apply Z.mod_divide in H; [|discriminate]. destruct H as [k H]. replace a with (b + k * P) by lia. apply Z.mod_add. discriminate.
  - rewrite Zminus_mod, H, Z.sub_diag. reflexivity.
Qed.
Lemma on_curve_iff x y : 0 <= x < P -> 0 <= y < P -> on_curve (x, y) <-> (y ^ 2 - (x ^ 3 + 7)) mod P = 0.
Proof.
  intros Hx Hy. rewrite sub_mod_0. split; [intros (_ & _ & H); exact H|].
  intros H. split; [exact Hx|]. split; [exact Hy|exact H].
Qed.
Lemma sq_neg a b : a mod P = (- b) mod P -> (a ^ 2) mod P = (b ^ 2) mod P.
Proof.
  intros E. rewrite !Z.pow_2_r. rewrite Zmult_mod, E, <- Zmult_mod. f_equal. ring.
Qed.
Lemma sq_same a b : a mod P = b mod P -> (a ^ 2) mod P = (b ^ 2) mod P.
Proof. intros E. rewrite !Z.pow_2_r. rewrite Zmult_mod, E, <- Zmult_mod. reflexivity. Qed.
(** if any second coordinate fits x, the computed one does *)
Lemma decompress_root x y0 y b : decompressPoint x b = Val y -> on_curve (x, y0) -> on_curve (x, y).
Proof.
  intros D H. pose proof (decompress_ok _ H) as D0. cbn [fst snd] in D0.
  assert (HP : on_curve (pneg (x, y0))) by (apply on_curve_pneg; exact H).
  pose proof (decompress_ok _ HP) as D1. pose proof (on_curve_y_pos _ H) as Y. cbn [snd] in Y.
  assert (E : snd (pneg (x, y0)) = P - y0).
  { unfold pneg. cbn [fst snd]. replace (- y0) with (P - y0 + -1 * P) by ring. rewrite Z.mod_add by discriminate. apply Z.mod_small. lia. }
  rewrite E in D1. change (fst (pneg (x, y0))) with x in D1. rewrite odd_PminusY in D1 by lia.
  assert (F : pneg (x, y0) = (x, P - y0)) by (rewrite <- E; reflexivity). rewrite F in HP.
  destruct (Bool.bool_dec b (Z.odd y0)) as [->|NE].
  - rewrite D0 in D. apply Val_inj in D. rewrite <- D. exact H.
  - assert (b = negb (Z.odd y0)) by (destruct b, (Z.odd y0); congruence || reflexivity). subst b. rewrite D1 in D. apply Val_inj in D. rewrite <- D. exact HP.
Qed.
(** the computed one is never P *)
Lemma prime_pow p z n : prime p -> 0 <= n -> (p | z ^ n) -> (p | z).
Proof.
  intros Hp Hn. pattern n. apply natlike_ind; [| |exact Hn].
  - rewrite Z.pow_0_r. intros D. apply Z.divide_1_r_nonneg in D; [|pose proof (prime_ge_2 p Hp); lia]. pose proof (prime_ge_2 p Hp). lia.
  - intros m Hm IH D. rewrite Z.pow_succ_r in D by exact Hm. apply prime_mult in D; [|exact Hp]. destruct D as [D|D]; [exact D|exact (IH D)].
Qed.
Lemma root_nz x : (x * x * x + 7) ^ curveQ mod P <> 0.
Proof.
  intros E. apply Z.mod_divide in E; [|discriminate]. apply prime_pow in E; [|exact prime_P|exact Q_nn].
  apply (no_two_torsion_Z x). replace (x ^ 3) with (x * x * x) by ring. apply Z.mod_divide; [discriminate|exact E].
Qed.
Lemma decompress_range x b y : decompressPoint x b = Val y -> 0 <= y < P.
Proof.
  intros D. destruct (decompress_val x b) as (y' & D' & R & _ & E). rewrite D in D'. apply Val_inj in D'. subst y'. split; [lia|].
  destruct (Z.eq_dec y P) as [->|NE]; [|lia]. exfalso. rewrite Z_mod_same_full in E. pose proof (root_nz x) as NZ.
  revert NZ E. generalize ((x * x * x + 7) ^ curveQ). intros z NZ [E|E]; [congruence|]. apply NZ.
  symmetry in E. apply Z.mod_divide in E; [|discriminate]. apply (proj1 (Z.divide_opp_r _ _)) in E. apply Z.mod_divide; [discriminate|exact E].
Qed.

Ltac num := eexists; split; [apply decimal_ok|reflexivity].
Lemma magic_long b : is_byte b -> negb (clearBit0 b =? 4) && negb (clearBit0 b =? 6) = negb ((4 <=? b) && (b <=? 7)).
Proof. intros H. apply Bool.eqb_prop. revert b H. apply byte_check. vm_compute. reflexivity. Qed.
Lemma magic_hybrid b : is_byte b -> (clearBit0 b =? 6) = ((6 =? b) || (b =? 7)).
Proof. intros H. apply Bool.eqb_prop. revert b H. apply byte_check. vm_compute. reflexivity. Qed.
Lemma magic_short b : is_byte b -> (clearBit0 b =? 2) = ((2 <=? b) && (b <=? 3)).
Proof. intros H. apply Bool.eqb_prop. revert b H. apply byte_check. vm_compute. reflexivity. Qed.
Lemma even_bool y : Z.odd y = false <-> Z.Even y.
Proof. rewrite <- Z.even_spec, <- Z.negb_odd. destruct (Z.odd y); split; intros H; try reflexivity; discriminate H. Qed.
Lemma hybrid_ok b0 y : 4 <= b0 <= 7 ->
  ((6 =? b0) || (b0 =? 7)) && negb (Bool.eqb (Z.odd b0) (Z.odd y)) = false <-> (b0 = 6 -> Z.Even y) /\ (b0 = 7 -> Z.Odd y).
Proof.
  intros H. rewrite <- even_bool, <- Z.odd_spec.
  assert (Q : b0 = 4 \/ b0 = 5 \/ b0 = 6 \/ b0 = 7) by lia.
  destruct Q as [->|[->|[->| ->]]]; change (Z.odd 4) with false; change (Z.odd 5) with true; change (Z.odd 6) with false; change (Z.odd 7) with true;
    destruct (Z.odd y); cbn; split; intros K; try reflexivity; try discriminate K; try (split; intros; lia || reflexivity);
    destruct K as [K1 K2]; [discriminate (K1 eq_refl)|discriminate (K2 eq_refl)].
Qed.
Lemma pubkey_text c s : curve_ok c -> bytes_ok s -> parses (pubKeyText s) (ParsePubKey c s) (pubKeyChecks s).
Proof.
  intros C B. unfold pubKeyChecks, ParsePubKey. cbv zeta. destruct s as [|b0 body]; [apply ps_err; fl (intros K; exact (K eq_refl))|].
  assert (NE : b0 :: body <> []) by discriminate.
  change (skipn 33 (b0 :: body)) with (skipn 32 body). change (skipn 1 (b0 :: body)) with body. change (nth 0 (b0 :: body) 0) with b0.
  fold (blen (b0 :: body)).
  change lenUncompressed with 65. change lenCompressed with 33. inversion B as [|? ? B0 Bb]; subst.
  assert (BO := bit0_odd b0 B0).
  destruct (Z.eqb_spec (blen (b0 :: body)) 65) as [L|L]; [|destruct (Z.eqb_spec (blen (b0 :: body)) 33) as [L2|L2]].
  - assert (LB : length body = 64%nat) by (unfold blen in L; cbn [length] in L; lia).
    destruct (split32 body Bb LB) as (_ & R1 & R2). set (x := beval (firstn 32 body)) in *. set (y := beval (skipn 32 body)) in *.
    rewrite BO. change pubkeyUncompressed with 4. change pubkeyHybrid with 6. unfold isOdd. rewrite magic_long, magic_hybrid by exact B0.
    destruct ((4 <=? b0) && (b0 <=? 7)) eqn:M; cbn [negb].
    2:{ apply ps_err. nx (exact NE). nx (right; exact L). apply FailsHere.
        - intros K. rewrite !(proj2 (Z.leb_le _ _)) in M by lia. discriminate M.
        - unfold pubKeyText. rewrite L. num. }
    apply andb_true_iff in M. destruct M as [M1 M2]. apply Z.leb_le in M1, M2. assert (MM : 4 <= b0 <= 7) by lia.
    pose proof (hybrid_ok b0 y MM) as HO. destruct (((6 =? b0) || (b0 =? 7)) && _) eqn:HY.
    { apply ps_err. nx (exact NE). nx (right; exact L). nx (exact MM). fl (intros K; apply HO in K; discriminate K). }
    apply proj1 in HO. specialize (HO eq_refl). rewrite check_text by assumption.
    destruct (Z.leb_spec P x) as [X|X]; [apply ps_err; nx (exact NE); nx (right; exact L); nx (exact MM); nx (exact HO); fl lia|].
    destruct (Z.leb_spec P y) as [Y|Y]; [apply ps_err; nx (exact NE); nx (right; exact L); nx (exact MM); nx (exact HO); nx (exact X); fl lia|].
    assert (OC := on_curve_iff x y (conj (proj1 R1) X) (conj (proj1 R2) Y)). destruct (Z.eqb_spec ((y ^ 2 - (x ^ 3 + 7)) mod P) 0) as [E|E].
    + apply ps_ok. nx (exact NE). nx (right; exact L). nx (exact MM). nx (exact HO). nx (exact X). nx (exact Y). nx (apply OC; exact E). constructor.
    + apply ps_err. nx (exact NE). nx (right; exact L). nx (exact MM). nx (exact HO). nx (exact X). nx (exact Y). fl (intros K; apply E, OC; exact K).
  - assert (LB : length body = 32%nat) by (unfold blen in L2; cbn [length] in L2; lia).
    rewrite (firstn_all2 body) by (rewrite LB; apply le_n). destruct (len32_be body Bb LB) as (_ & R1). set (x := beval body) in *.
    rewrite BO. change pubkeyCompressed with 2. rewrite magic_short by exact B0.
    destruct ((2 <=? b0) && (b0 <=? 3)) eqn:M; cbn [negb].
    2:{ apply ps_err. nx (exact NE). nx (left; exact L2). apply FailsHere.
        - intros K. rewrite !(proj2 (Z.leb_le _ _)) in M by lia. discriminate M.
        - unfold pubKeyText. rewrite L2. num. }
    apply andb_true_iff in M. destruct M as [M1 M2]. apply Z.leb_le in M1, M2. assert (MM : 2 <= b0 <= 3) by lia.
    destruct (decompress_val x (Z.odd b0)) as (y & D & _). rewrite D. pose proof (decompress_range x _ y D) as YR.
    rewrite check_text; [|exact C|exact R1|split; [lia|apply Z.lt_trans with (1 := proj2 YR); exact P_lt_256]].
    destruct (Z.leb_spec P x) as [X|X]; [apply ps_err; nx (exact NE); nx (left; exact L2); nx (exact MM); fl lia|].
    destruct (Z.leb_spec P y) as [Y|Y]; [lia|].
    assert (OC := on_curve_iff x y (conj (proj1 R1) X) YR). destruct (Z.eqb_spec ((y ^ 2 - (x ^ 3 + 7)) mod P) 0) as [E|E].
    + apply ps_ok. nx (exact NE). nx (left; exact L2). nx (exact MM). nx (exact X). nx (exists y; apply OC; exact E). constructor.
    + apply ps_err. nx (exact NE). nx (left; exact L2). nx (exact MM). nx (exact X).
      fl (intros [y0 K]; apply E, OC; exact (decompress_root x y0 y _ D K)).
  - apply ps_err. nx (exact NE). apply FailsHere; [lia|]. num.
Qed.

(** ** Signatures *)
Lemma index_in s i : 0 <= i < blen s -> index s i = Ok (nth (Z.to_nat i) s 0).
Proof. intros H. unfold index. rewrite (proj2 (Z.ltb_ge _ _)), (proj2 (Z.leb_gt _ _)) by lia. reflexivity. Qed.
Lemma nth_firstn (s : list Z) : forall n i, (i < n)%nat -> nth i (firstn n s) 0 = nth i s 0.
Proof.
  induction s as [|a r IH]; intros n i H; [rewrite firstn_nil; reflexivity|].
  destruct n as [|n]; [lia|]. destruct i as [|i]; [reflexivity|]. cbn [firstn nth]. apply IH. lia.
Qed.
Lemma nth_skipn (s : list Z) : forall a i, nth i (skipn a s) 0 = nth (a + i) s 0.
Proof.
  induction s as [|b r IH]; intros a i; [rewrite skipn_nil; destruct i, (a + _)%nat; reflexivity|].
  destruct a as [|a]; [reflexivity|]. cbn [skipn Nat.add nth]. apply IH.
Qed.
Lemma nth_byte s i : bytes_ok s -> 0 <= nth i s 0 < 256.
Proof.
  intros B. destruct (nth_in_or_default i s 0) as [H| ->]; [|lia]. unfold bytes_ok in B. rewrite Forall_forall in B. apply B in H. exact H.
Qed.
Lemma cut (s : list Z) n a r : (a + r <= n)%nat -> firstn r (skipn a (firstn n s)) = firstn r (skipn a s).
Proof. intros H. rewrite skipn_firstn_comm, firstn_firstn. f_equal. lia. Qed.
Lemma padding_at s a r : bytes_ok s -> (1 <= r)%nat -> (a + r <= length s)%nat ->
  canonicalPadding (firstn r (skipn a s)) =
  Ok (if 128 <=? nth a s 0 then PadNegative
      else if (2 <=? Z.of_nat r) && ((nth a s 0 =? 0) && negb (128 <=? nth (S a) s 0)) then PadExcess else PadFine).
Proof.
  intros B Hr Ha. replace (nth a s 0) with (nth 0 (skipn a s) 0) by (rewrite nth_skipn; f_equal; lia).
  replace (nth (S a) s 0) with (nth 1 (skipn a s) 0) by (rewrite nth_skipn; f_equal; lia).
  assert (L : (r <= length (skipn a s))%nat) by (rewrite skipn_length; lia).
  assert (BB : bytes_ok (skipn a s)) by (apply bytes_skipn; exact B). revert L BB Hr. generalize (skipn a s). clear. intros t L BB Hr.
  destruct r as [|r]; [lia|]. destruct t as [|b0 t]; [cbn [length] in L; lia|]. cbn [firstn canonicalPadding nth].
  inversion BB as [|? ? B0 B1]; subst. rewrite top80 by exact B0. destruct (128 <=? b0); [reflexivity|].
  destruct r as [|r]; [reflexivity|]. destruct t as [|b1 t]; [cbn [length] in L; lia|]. cbn [firstn nth].
  inversion B1; subst. rewrite top80 by assumption.
  replace (2 <=? Z.of_nat (Datatypes.S (Datatypes.S r))) with true by (symmetry; apply Z.leb_le; lia). cbn [andb]. destruct (_ && _); reflexivity.
Qed.
Lemma pad_text s der a r e1 e2 k (t1 t2 : list Z -> Prop) l (text : berr -> list Z) : bytes_ok s -> 1 <= r -> 0 <= a -> a + r <= blen s ->
  t1 (text e1) -> t2 (text e2) ->
  ((der = true -> nth (Z.to_nat a) s 0 < 128) -> (der = true -> r = 1 \/ nth (Z.to_nat a) s 0 <> 0 \/ 128 <= nth (Z.to_nat (a + 1)) s 0) -> parses text k l) ->
  parses text (checkPadding der (firstn (Z.to_nat r) (skipn (Z.to_nat a) s)) e1 e2 k)
    ((der = true -> nth (Z.to_nat a) s 0 < 128, t1) ::
     (der = true -> r = 1 \/ nth (Z.to_nat a) s 0 <> 0 \/ 128 <= nth (Z.to_nat (a + 1)) s 0, t2) :: l).
Proof.
  intros B Hr Ha L T1 T2 K. unfold checkPadding. destruct der.
  2:{ assert (D : false = true -> False) by discriminate. destruct K as (x & E & F); [intros X; destruct (D X)|intros X; destruct (D X)|].
      exists x. split; [exact E|]. nx (intros X; destruct (D X)). nx (intros X; destruct (D X)). exact F. }
  rewrite padding_at; [|exact B|lia|unfold blen in L; lia]. cbn [bind].
  replace (S (Z.to_nat a)) with (Z.to_nat (a + 1)) by lia. rewrite Z2Nat.id by lia.
  destruct (Z.leb_spec 128 (nth (Z.to_nat a) s 0)) as [P1|P1].
  { apply ps_err. apply FailsHere; [intros X; specialize (X eq_refl); lia|exact T1]. }
  destruct ((2 <=? r) && _) eqn:Q.
  - apply andb_true_iff in Q. destruct Q as [Q1 Q]. apply andb_true_iff in Q. destruct Q as [Q2 Q3].
    apply Z.leb_le in Q1. apply Z.eqb_eq in Q2. apply negb_true_iff, Z.leb_gt in Q3.
    apply ps_err. nx (intros _; exact P1). apply FailsHere; [intros X; specialize (X eq_refl); lia|exact T2].
  - assert (Q' : r = 1 \/ nth (Z.to_nat a) s 0 <> 0 \/ 128 <= nth (Z.to_nat (a + 1)) s 0).
    { destruct (Z.eq_dec r 1) as [R1|R1]; [left; exact R1|]. right.
      destruct (Z.eq_dec (nth (Z.to_nat a) s 0) 0) as [E0|E0]; [|left; exact E0]. right.
      destruct (Z_le_gt_dec 128 (nth (Z.to_nat (a + 1)) s 0)) as [G|G]; [exact G|]. exfalso.
      rewrite (proj2 (Z.leb_le _ _)), (proj2 (Z.eqb_eq _ _) E0), (proj2 (Z.leb_gt _ _)) in Q by lia. discriminate Q. }
    destruct K as (x & E & F); [intros _; exact P1|intros _; exact Q'|]. exists x. split; [exact E|].
    nx (intros _; exact P1). nx (intros _; exact Q'). exact F.
Qed.
Lemma range_text R S (text : berr -> list Z) : 0 <= R -> 0 <= S ->
  text ESigRSmall = ascii "signature R isn't 1 or more" -> text ESigSSmall = ascii "signature S isn't 1 or more" ->
  text ESigRBig = ascii "signature R is >= curve.N" -> text ESigSBig = ascii "signature S is >= curve.N" ->
  parses text (Ok (checkRange R S))
  [(1 <= R, says' "signature R isn't 1 or more"); (1 <= S, says' "signature S isn't 1 or more");
   (R < N, says' "signature R is >= curve.N"); (S < N, says' "signature S is >= curve.N")].
Proof.
  intros HR HS T1 T2 T3 T4. unfold checkRange. change curveN with N.
  destruct (Z.eqb_spec (Z.sgn R) 1) as [E1|E1]; cbn [negb]; [|apply ps_err; apply FailsHere; [lia|exact T1]].
  destruct (Z.eqb_spec (Z.sgn S) 1) as [E2|E2]; cbn [negb]; [|apply ps_err; nx lia; apply FailsHere; [lia|exact T2]].
  destruct (Z.leb_spec N R) as [L1|L1]; [apply ps_err; nx lia; nx lia; apply FailsHere; [lia|exact T3]|].
  destruct (Z.leb_spec N S) as [L2|L2]; [apply ps_err; nx lia; nx lia; nx lia; apply FailsHere; [lia|exact T4]|].
  apply ps_ok. nx lia. nx lia. nx lia. nx lia. constructor.
Qed.
Lemma ps_nx A text (r : R (ret A)) (c : Prop) t l : c -> parses text r l -> parses text r ((c, t) :: l).
Proof. intros H (a & E & F). exists a. split; [exact E|]. nx (exact H). exact F. Qed.
Lemma sig_text s der : bytes_ok s -> parseSig s der <> Panic -> parses (sigText s) (parseSig s der) (signatureChecks s der).
Proof.
  intros B NP. unfold signatureChecks. cbv zeta. change (nth (Z.to_nat 0) s 0) with (nth 0 s 0).
  change (nth (Z.to_nat 1) s 0) with (nth 1 s 0). change (nth (Z.to_nat 2) s 0) with (nth 2 s 0).
  change (nth (Z.to_nat 3) s 0) with (nth 3 s 0). fold (blen s).
  set (n := (nth 1 s 0 + 2) mod 256). set (r := nth 3 s 0). set (t := nth (Z.to_nat (5 + r)) s 0).
  assert (Nn : 0 <= n < 256) by (apply Z.mod_pos_bound; lia).
  assert (Rr : 0 <= r < 256) by (apply nth_byte; exact B). assert (Tt : 0 <= t < 256) by (apply nth_byte; exact B).
  revert NP. unfold parseSig. destruct (Z.ltb_spec (blen s) 8) as [L|L]; [intros _; apply ps_err; fl lia|].
  rewrite (index_in s 0) by lia. cbn [bind]. change (Z.to_nat 0) with 0%nat.
  destruct (Z.eqb_spec (nth 0 s 0) 0x30) as [E0|E0]; cbn [negb]; [|intros _; apply ps_err; nx lia; fl (exact E0)].
  rewrite (index_in s 1) by lia. cbn [bind]. change (Z.to_nat 1) with 1%nat. cbv zeta. fold n.
  destruct (Z.ltb_spec (blen s) n) as [L1|L1]; [intros _; apply ps_err; nx lia; nx (exact E0); fl lia|].
  assert (BL : blen (firstn (Z.to_nat n) s) = n) by (unfold blen in *; rewrite firstn_length; lia).
  assert (IX : forall i, 0 <= i < n -> index (firstn (Z.to_nat n) s) i = Ok (nth (Z.to_nat i) s 0)).
  { intros i Hi. rewrite index_in by lia. rewrite nth_firstn by lia. reflexivity. }
  intros NP. do 3 (apply ps_nx; [assumption|]).
  destruct (Z_lt_le_dec n 3) as [N3|N3]; [exfalso; apply NP; rewrite index_out by lia; reflexivity|].
  rewrite IX in * by lia. cbn [bind] in *. change (nth (Z.to_nat 2) s 0) with (nth 2 s 0) in *.
  destruct (Z.eqb_spec (nth 2 s 0) 2) as [E2|E2]; cbn [negb] in *; [|apply ps_err; fl (exact E2)].
  apply ps_nx; [exact E2|].
  destruct (Z_lt_le_dec n 4) as [N4|N4]; [exfalso; apply NP; rewrite index_out by lia; reflexivity|].
  clear NP. rewrite IX by lia. cbn [bind]. change (nth (Z.to_nat 3) s 0) with r. rewrite BL.
  destruct ((r <=? 0) || (n - 4 - 3 <? r)) eqn:ER.
  { apply orb_true_iff in ER. rewrite Z.leb_le, Z.ltb_lt in ER. apply ps_err. fl lia. }
  apply orb_false_iff in ER. rewrite Z.leb_gt, Z.ltb_ge in ER. destruct ER as [R1 R2]. apply ps_nx; [lia|].
  unfold slice. replace (4 + r - 4) with r by lia. rewrite cut by lia.
  change 4%nat with (Z.to_nat 4). change (nth 4 s 0) with (nth (Z.to_nat 4) s 0). change (nth (Z.to_nat 5) s 0) with (nth (Z.to_nat (4 + 1)) s 0).
  apply pad_text; [exact B|lia|lia|lia|reflexivity|reflexivity|]. intros _ _.
  rewrite IX by lia. cbn [bind]. destruct (Z.eqb_spec (nth (Z.to_nat (4 + r)) s 0) 2) as [E4|E4]; cbn [negb]; [|apply ps_err; fl (exact E4)].
  apply ps_nx; [exact E4|]. rewrite IX by lia. cbn [bind]. replace (4 + r + 1) with (5 + r) by lia. fold t.
  replace (4 + r + 2) with (6 + r) by lia.
  destruct ((t <=? 0) || (n - (6 + r) <? t)) eqn:ET.
  { apply orb_true_iff in ET. rewrite Z.leb_le, Z.ltb_lt in ET. apply ps_err. fl lia. }
  apply orb_false_iff in ET. rewrite Z.leb_gt, Z.ltb_ge in ET. destruct ET as [T1 T2]. apply ps_nx; [lia|].
  replace (6 + r + t - (6 + r)) with t by lia. rewrite cut by lia.
  replace (7 + r) with (6 + r + 1) by lia.
  apply pad_text; [exact B|lia|lia|lia|reflexivity|reflexivity|]. intros _ _.
  destruct (Z.eqb_spec (6 + r + t) n) as [EF|EF]; cbn [negb].
  - apply ps_nx; [exact EF|]. apply range_text; try reflexivity; apply (proj1 (beval_range _ (bytes_firstn _ _ (bytes_skipn _ _ B)))).
  - apply ps_err. apply FailsHere; [exact EF|]. eexists. eexists. split; [apply decimal_ok|]. split; [apply decimal_ok|]. reflexivity.
Qed.
