(** * Public keys: proofs (see PropPubKey.v for the statements) *)
From Coq Require Import ZArith List Bool Lia Znumtheory.
From Verif Require Import Spec NumTheory FieldP CurveZ Order Go Wire Big CodecProofs SpecZk ZkBase Koblitz KobProofs FieldProofs KobMul PubKey.
Import ListNotations.
Open Scope Z_scope.

Lemma bigExp_P b e : 0 <= e -> bigExp b e P = b ^ e mod P.
Proof. destruct e; intros H; cbn [bigExp]; [reflexivity|apply powMod_ok|lia]. Qed.

Lemma P_pos : 0 < P. Proof. reflexivity. Qed.
Lemma P_odd : Z.odd P = true. Proof. reflexivity. Qed.
Lemma Q_P : 4 * curveQ = P + 1. Proof. reflexivity. Qed.
Lemma Q_nn : 0 <= curveQ. Proof. vm_compute. discriminate. Qed.

(** squares have roots +-y *)
Lemma sq_roots a b : (a * a) mod P = (b * b) mod P -> a mod P = b mod P \/ a mod P = (- b) mod P.
Proof.
  intros H.
  assert (D : (P | (a - b) * (a + b))).
  { apply Z.mod_divide; [discriminate|]. replace ((a - b) * (a + b)) with (a * a - b * b) by ring.
    rewrite Zminus_mod, H, Z.sub_diag. apply Zmod_0_l. }
  destruct (prime_mult P prime_P _ _ D) as [[k E]|[k E]].
  - left. replace a with (b + k * P) by lia. apply Z.mod_add. discriminate.
  - right. replace a with (- b + k * P) by lia. apply Z.mod_add. discriminate.
Qed.

Lemma sqrt_pow y : (y * y) ^ curveQ mod P = y mod P \/ (y * y) ^ curveQ mod P = (- y) mod P.
Proof.
  destruct (Z.eq_dec (y mod P) 0) as [Z0|NZ].
  { left. rewrite Z0. rewrite <- (pow_mod_idemp (y * y)) by exact Q_nn.
    replace ((y * y) mod P) with 0 by (rewrite Zmult_mod, Z0; reflexivity).
    rewrite Z.pow_0_l by reflexivity. reflexivity. }
  pose proof (fermat P y prime_P NZ) as F.
  assert (S : ((y * y) ^ curveQ * (y * y) ^ curveQ) mod P = (y * y) mod P).
  { rewrite <- Z.pow_2_r with (a := y), <- Z.pow_mul_r by (try discriminate; exact Q_nn).
    rewrite <- Z.pow_add_r by (vm_compute; discriminate).
    replace (2 * curveQ + 2 * curveQ) with ((P - 1) + 2) by reflexivity.
    rewrite Z.pow_add_r by discriminate. rewrite Zmult_mod, F, Z.mul_1_l. apply Zmod_mod. }
  destruct (sq_roots _ _ S) as [E|E]; rewrite E; auto.
Qed.

Lemma odd_PminusY y : 0 <= y -> Z.odd (P - y) = negb (Z.odd y).
Proof. intros _. rewrite Z.odd_sub, P_odd. destruct (Z.odd y); reflexivity. Qed.

Lemma decompress_val x b : exists y, decompressPoint x b = Val y /\ 0 <= y <= P /\ Z.odd y = b /\
  (y mod P = (x * x * x + 7) ^ curveQ mod P \/ y mod P = (- (x * x * x + 7) ^ curveQ) mod P).
Proof.
  unfold decompressPoint, isOdd. change curveP with P. change curveB with 7. rewrite bigExp_P by exact Q_nn.
  set (z := (x * x * x + 7) ^ curveQ). cbv zeta.
  pose proof (Z.mod_pos_bound z P P_pos) as B.
  destruct (Bool.eqb b (Z.odd (z mod P))) eqn:E.
  - rewrite E. exists (z mod P). apply Bool.eqb_prop in E. rewrite Zmod_mod.
    split; [reflexivity|]. split; [lia|]. split; [symmetry; exact E|]. left; reflexivity.
  - assert (E2 : Bool.eqb b (Z.odd (P - z mod P)) = true).
    { rewrite odd_PminusY by lia. apply Bool.eqb_true_iff. apply Bool.eqb_false_iff in E.
      destruct b, (Z.odd (z mod P)); congruence || reflexivity. }
    rewrite E2. exists (P - z mod P). apply Bool.eqb_prop in E2.
    split; [reflexivity|]. split; [lia|]. split; [symmetry; exact E2|]. right.
    replace (P - z mod P) with (- (z mod P) + 1 * P) by ring. rewrite Z.mod_add by discriminate.
    rewrite <- !(Z.sub_0_l). rewrite Zminus_mod_idemp_r. reflexivity.
Qed.

Lemma decompress_ok p : on_curve p -> decompressPoint (fst p) (Z.odd (snd p)) = Val (snd p).
Proof.
  intros H. pose proof (on_curve_y_nz p H) as NZ.
  destruct (decompress_val (fst p) (Z.odd (snd p))) as (y & E & B & O & C). rewrite E. apply f_equal.
  destruct H as (_ & Hy & Eq).
  assert (A : (fst p * fst p * fst p + 7) ^ curveQ mod P = (snd p * snd p) ^ curveQ mod P).
  { rewrite <- (pow_mod_idemp (fst p * fst p * fst p + 7)), <- (pow_mod_idemp (snd p * snd p)) by exact Q_nn.
    replace (snd p * snd p) with (snd p ^ 2) by ring. replace (fst p * fst p * fst p + 7) with (fst p ^ 3 + 7) by ring.
    rewrite Eq. reflexivity. }
  assert (C2 : y mod P = snd p mod P \/ y mod P = (- snd p) mod P).
  { rewrite <- (Z.sub_0_l (_ ^ _)), <- Zminus_mod_idemp_r, A in C.
    destruct (sqrt_pow (snd p)) as [S|S]; rewrite S in C.
    - destruct C as [C|C]; [left; exact C|right]. rewrite C, Zminus_mod_idemp_r. apply f_equal2; [ring|reflexivity].
    - destruct C as [C|C]; [right; exact C|left]. rewrite C, Zminus_mod_idemp_r. apply f_equal2; [ring|reflexivity]. }
  clear A Eq C E. rewrite (Z.mod_small (snd p)) in C2 by exact Hy.
  replace (- snd p) with ((P - snd p) + (-1) * P) in C2 by ring. rewrite Z.mod_add in C2 by discriminate.
  rewrite (Z.mod_small (P - snd p)) in C2 by lia.
  assert (y <> P). { intros ->. rewrite Z.mod_same in C2 by discriminate. lia. }
  rewrite Z.mod_small in C2 by lia. destruct C2 as [C2|C2]; [exact C2|].
  rewrite C2, odd_PminusY in O by lia. destruct (Z.odd (snd p)); discriminate.
Qed.

(** *** padding *)
Lemma blen_app (a b : list Z) : blen (a ++ b) = blen a + blen b.
Proof. unfold blen. rewrite app_length. lia. Qed.
Lemma pad32 v : 0 <= v < 2 ^ 256 -> repeat 0 (Z.to_nat (32 - blen (bigBytes v))) ++ bigBytes v = be_bytes 32 v.
Proof.
  intros B.
  assert (L : blen (bigBytes v) <= 32).
  { apply bigBytes_blen; [discriminate|]. rewrite Z.abs_eq by lia. change (256 ^ 32) with (2 ^ 256). lia. }
  set (s := _ ++ _).
  assert (Ls : length s = 32%nat).
  { unfold s. rewrite app_length, repeat_length. unfold blen in *. lia. }
  assert (Vs : beval s = v).
  { unfold s. rewrite beval_zeros, beval_bigBytes. apply Z.abs_eq. lia. }
  assert (Bs : bytes_ok s).
  { apply Forall_app. split; [|apply bigBytes_ok]. apply Forall_forall. intros x I. apply repeat_spec in I. subst x. split; [discriminate|reflexivity]. }
  transitivity (be_bytes (length s) (beval s)); [symmetry; apply be_bytes_beval; exact Bs|rewrite Ls, Vs; reflexivity].
Qed.
Lemma paddedAppend_32 d v : 0 <= v < 2 ^ 256 -> paddedAppend 32 d (bigBytes v) = d ++ be_bytes 32 v.
Proof. intros B. unfold paddedAppend. rewrite pad32 by exact B. reflexivity. Qed.

Lemma serU p : is_point p -> SerializeUncompressed p = 4 :: be_bytes 32 (fst p) ++ be_bytes 32 (snd p).
Proof.
  intros H. destruct (coord_range_256 p H) as [Bx By]. unfold SerializeUncompressed.
  rewrite !paddedAppend_32 by assumption. reflexivity.
Qed.
Lemma serC p : is_point p -> SerializeCompressed p = (if Z.odd (snd p) then 3 else 2) :: be_bytes 32 (fst p).
Proof.
  intros H. destruct (coord_range_256 p H) as [Bx By]. unfold SerializeCompressed.
  rewrite !paddedAppend_32 by assumption. unfold isOdd. destruct (Z.odd (snd p)); reflexivity.
Qed.
Lemma serH p : is_point p -> SerializeHybrid p = (if Z.odd (snd p) then 7 else 6) :: be_bytes 32 (fst p) ++ be_bytes 32 (snd p).
Proof.
  intros H. destruct (coord_range_256 p H) as [Bx By]. unfold SerializeHybrid.
  rewrite !paddedAppend_32 by assumption. unfold isOdd. destruct (Z.odd (snd p)); reflexivity.
Qed.

Lemma firstn_be v t : firstn 32 (be_bytes 32 v ++ t) = be_bytes 32 v.
Proof. rewrite firstn_app, be_bytes_len, Nat.sub_diag, app_nil_r, firstn_all2 by (rewrite be_bytes_len; apply le_n). reflexivity. Qed.
Lemma skipn_be v t : skipn 32 (be_bytes 32 v ++ t) = t.
Proof. rewrite skipn_app, be_bytes_len, Nat.sub_diag, skipn_all2 by (rewrite be_bytes_len; apply le_n). reflexivity. Qed.
Lemma beval_be32 v : 0 <= v < 2 ^ 256 -> beval (be_bytes 32 v) = v.
Proof. intros B. rewrite beval_be_bytes by lia. apply Z.mod_small. exact B. Qed.

Section C.
Context (c : curve) (C : curve_ok c).

Lemma check_on p : on_curve p -> checkPubKey c (fst p) (snd p) = Ok (Val p).
Proof.
  intros H. destruct (coord_range_256 p (or_intror H)) as [B1 B2]. destruct H as (Hx & Hy & E).
  unfold checkPubKey. rewrite (ok_P c C).
  rewrite (proj2 (Z.leb_gt P (fst p))) by lia. rewrite (proj2 (Z.leb_gt P (snd p))) by lia.
  rewrite (ok_onc c C) by assumption. cbn [bind].
  rewrite Zminus_mod, E, Z.sub_diag, Zmod_0_l. cbn [Z.eqb]. destruct p; reflexivity.
Qed.
Lemma check_sound x y r : 0 <= x < 2 ^ 256 -> 0 <= y < 2 ^ 256 -> checkPubKey c x y = Ok (Val r) -> r = (x, y) /\ on_curve r.
Proof.
  intros B1 B2. unfold checkPubKey. rewrite (ok_P c C).
  destruct (P <=? x) eqn:E1; [discriminate|]. destruct (P <=? y) eqn:E2; [discriminate|].
  rewrite (ok_onc c C) by assumption. cbn [bind]. destruct (_ =? 0) eqn:E3; [|discriminate].
  intros E. injection E as <-. split; [reflexivity|].
  apply Z.leb_gt in E1, E2. apply Z.eqb_eq in E3. split; [cbn [fst]; lia|]. split; [cbn [snd]; lia|]. cbn [fst snd].
  assert (D : (P | y ^ 2 - (x ^ 3 + 7))) by (apply Z.mod_divide; [discriminate|exact E3]).
  destruct D as [k D]. replace (y ^ 2) with ((x ^ 3 + 7) + k * P) by lia. apply Z.mod_add. discriminate.
Qed.
Lemma check_total x y : 0 <= x < 2 ^ 256 -> 0 <= y < 2 ^ 256 -> exists r, checkPubKey c x y = Ok r.
Proof.
  intros B1 B2. unfold checkPubKey. destruct (_ <=? _); [eexists; reflexivity|]. destruct (_ <=? _); [eexists; reflexivity|].
  rewrite (ok_onc c C) by assumption. eexists; reflexivity.
Qed.

Lemma blen_U b x y : (blen (b :: be_bytes 32 x ++ be_bytes 32 y) =? lenUncompressed) = true.
Proof. unfold blen. cbn [length]. rewrite app_length, !be_bytes_len. reflexivity. Qed.
Lemma blen_C b x : blen (b :: be_bytes 32 x) = 33.
Proof. unfold blen. cbn [length]. rewrite be_bytes_len. reflexivity. Qed.

Lemma parse_U p b : on_curve p -> b = 4 \/ b = 5 -> ParsePubKey c (b :: be_bytes 32 (fst p) ++ be_bytes 32 (snd p)) = Ok (Val p).
Proof.
  intros H Hb. destruct (coord_range_256 p (or_intror H)) as [B1 B2]. unfold ParsePubKey.
  rewrite blen_U, firstn_be, skipn_be, !beval_be32 by assumption.
  destruct Hb; subst b; cbn; apply check_on; exact H.
Qed.
Lemma parse_H p : on_curve p -> ParsePubKey c ((if Z.odd (snd p) then 7 else 6) :: be_bytes 32 (fst p) ++ be_bytes 32 (snd p)) = Ok (Val p).
Proof.
  intros H. destruct (coord_range_256 p (or_intror H)) as [B1 B2]. unfold ParsePubKey.
  rewrite blen_U, firstn_be, skipn_be, !beval_be32 by assumption. unfold isOdd.
  destruct (Z.odd (snd p)); cbn; apply check_on; exact H.
Qed.
Lemma parse_C p : on_curve p -> ParsePubKey c ((if Z.odd (snd p) then 3 else 2) :: be_bytes 32 (fst p)) = Ok (Val p).
Proof.
  intros H. destruct (coord_range_256 p (or_intror H)) as [B1 B2]. unfold ParsePubKey. rewrite blen_C.
  change (33 =? lenUncompressed) with false. change (33 =? lenCompressed) with true. cbv iota.
  rewrite <- (app_nil_r (be_bytes 32 (fst p))), firstn_be, beval_be32 by assumption.
  replace (Z.land (if Z.odd (snd p) then 3 else 2) 1 =? 1) with (Z.odd (snd p)) by (destruct (Z.odd (snd p)); reflexivity).
  replace (clearBit0 (if Z.odd (snd p) then 3 else 2) =? pubkeyCompressed) with true by (destruct (Z.odd (snd p)); reflexivity).
  cbn [negb]. rewrite decompress_ok by exact H. apply check_on. exact H.
Qed.

Lemma byte_check (f : Z -> bool) : forallb f range256 = true -> forall b, is_byte b -> f b = true.
Proof. intros H b B. rewrite forallb_forall in H. apply H, in_range256, B. Qed.
Lemma bit0_odd b : is_byte b -> (Z.land b 1 =? 1) = Z.odd b.
Proof. intros B. apply Bool.eqb_prop. apply (byte_check (fun b => Bool.eqb (Z.land b 1 =? 1) (Z.odd b))); [vm_compute; reflexivity|exact B]. Qed.
Lemma clear_odd b : is_byte b -> b = clearBit0 b + (if Z.odd b then 1 else 0).
Proof. intros B. apply Z.eqb_eq. apply (byte_check (fun b => b =? clearBit0 b + (if Z.odd b then 1 else 0))); [vm_compute; reflexivity|exact B]. Qed.

Lemma len32_be s : bytes_ok s -> length s = 32%nat -> s = be_bytes 32 (beval s) /\ 0 <= beval s < 2 ^ 256.
Proof.
  intros B L. split; [rewrite <- L; symmetry; apply be_bytes_beval; exact B|].
  pose proof (beval_range s B) as H. unfold blen in H. rewrite L in H. exact H.
Qed.
Lemma split32 s : bytes_ok s -> length s = 64%nat -> s = be_bytes 32 (beval (firstn 32 s)) ++ be_bytes 32 (beval (skipn 32 s)) /\
  0 <= beval (firstn 32 s) < 2 ^ 256 /\ 0 <= beval (skipn 32 s) < 2 ^ 256.
Proof.
  intros B L.
  destruct (len32_be (firstn 32 s)) as [E1 R1]; [apply Forall_forall; intros x I; apply (proj1 (Forall_forall _ _) B); rewrite <- (firstn_skipn 32 s); apply in_or_app; left; exact I| rewrite firstn_length, L; reflexivity|].
  destruct (len32_be (skipn 32 s)) as [E2 R2]; [apply Forall_forall; intros x I; apply (proj1 (Forall_forall _ _) B); rewrite <- (firstn_skipn 32 s); apply in_or_app; right; exact I| rewrite skipn_length, L; reflexivity|].
  rewrite <- E1, <- E2, firstn_skipn. auto.
Qed.

Lemma parse_sound s p : bytes_ok s -> ParsePubKey c s = Ok (Val p) -> on_curve p /\
  (s = 4 :: be_bytes 32 (fst p) ++ be_bytes 32 (snd p) \/ s = 5 :: be_bytes 32 (fst p) ++ be_bytes 32 (snd p) \/
   s = (if Z.odd (snd p) then 7 else 6) :: be_bytes 32 (fst p) ++ be_bytes 32 (snd p) \/
   s = (if Z.odd (snd p) then 3 else 2) :: be_bytes 32 (fst p)).
Proof.
  intros B. unfold ParsePubKey. destruct s as [|b0 body]; [discriminate|].
  inversion B as [|? ? B0 Bb]; subst. rewrite (bit0_odd b0 B0). pose proof (clear_odd b0 B0) as CO.
  destruct (_ =? lenUncompressed) eqn:L1.
  - apply Z.eqb_eq in L1. assert (L : length body = 64%nat) by (unfold blen, lenUncompressed in L1; cbn [length] in L1; lia).
    destruct (split32 body Bb L) as (E & R1 & R2). destruct (negb _ && _) eqn:F; [discriminate|].
    destruct ((_ =? pubkeyHybrid) && _) eqn:F2; [discriminate|]. intros H.
    destruct (check_sound _ _ _ R1 R2 H) as [Ep On]. split; [exact On|]. subst p. cbn [fst snd]. rewrite <- E.
    apply andb_false_iff in F. rewrite !negb_false_iff, !Z.eqb_eq in F. destruct F as [F|F]; rewrite F in CO, F2.
    + destruct (Z.odd b0); subst b0; auto.
    + rewrite Z.eqb_refl in F2. cbn [andb] in F2. rewrite negb_false_iff in F2. apply Bool.eqb_prop in F2. unfold isOdd in F2.
      rewrite <- F2. right; right; left. rewrite CO at 1. destruct (Z.odd b0); reflexivity.
  - destruct (_ =? lenCompressed) eqn:L2; [|discriminate].
    apply Z.eqb_eq in L2. assert (L : length body = 32%nat) by (unfold blen, lenCompressed in L2; cbn [length] in L2; lia).
    rewrite (firstn_all2 body) by (rewrite L; apply le_n). destruct (len32_be body Bb L) as (E & R1).
    destruct (negb _) eqn:F; [discriminate|]. rewrite negb_false_iff, Z.eqb_eq in F. rewrite F in CO.
    destruct (decompress_val (beval body) (Z.odd b0)) as (y & Ed & By & Oy & _). rewrite Ed. intros H.
    destruct (check_sound _ _ _ R1 (conj (proj1 By) (Z.le_lt_trans _ _ _ (proj2 By) P_lt_256)) H) as [Ep On]. split; [exact On|].
    subst p. cbn [fst snd]. rewrite <- E, Oy. right; right; right. rewrite CO at 1. destruct (Z.odd b0); reflexivity.
Qed.

Lemma parse_total s : bytes_ok s -> exists r, ParsePubKey c s = Ok r.
Proof.
  intros B. unfold ParsePubKey. destruct s as [|b0 body]; [eexists; reflexivity|].
  inversion B as [|? ? B0 Bb]; subst.
  destruct (_ =? lenUncompressed) eqn:L1.
  - apply Z.eqb_eq in L1. assert (L : length body = 64%nat) by (unfold blen, lenUncompressed in L1; cbn [length] in L1; lia).
    destruct (split32 body Bb L) as (E & R1 & R2). destruct (negb _ && _); [eexists; reflexivity|].
    destruct (_ && _); [eexists; reflexivity|]. apply check_total; assumption.
  - destruct (_ =? lenCompressed) eqn:L2; [|eexists; reflexivity].
    apply Z.eqb_eq in L2. assert (L : length body = 32%nat) by (unfold blen, lenCompressed in L2; cbn [length] in L2; lia).
    rewrite (firstn_all2 body) by (rewrite L; apply le_n). destruct (len32_be body Bb L) as (E & R1).
    destruct (negb _); [eexists; reflexivity|].
    destruct (decompress_val (beval body) (Z.land b0 1 =? 1)) as (y & Ed & By & Oy & _). rewrite Ed.
    apply check_total; [assumption|]. split; [apply By|apply Z.le_lt_trans with (1 := proj2 By), P_lt_256].
Qed.

Lemma privFromBytes pk : bytes_ok pk -> PrivKeyFromBytes c pk = Ok ({| kD := beval pk; kPub := smul (beval pk) G |}, smul (beval pk) G).
Proof. intros B. unfold PrivKeyFromBytes. rewrite (ok_base c C) by exact B. reflexivity. Qed.
End C.
