(** * Proofs about the limb arithmetic of Field.v *)
From Coq Require Import ZArith List Bool Lia Znumtheory.
From Verif Require Import Spec Go Wire Big CodecProofs Field FieldP SpecField.
Import ListNotations.
Open Scope Z_scope.
Ltac Zify.zify_post_hook ::= Z.div_mod_to_equations.

Lemma land26 x : Z.land x 0x3ffffff = x mod 2 ^ 26.
Proof. change 0x3ffffff with (Z.ones 26). apply Z.land_ones. lia. Qed.
Lemma land22 x : Z.land x 0x3fffff = x mod 2 ^ 22.
Proof. change 0x3fffff with (Z.ones 22). apply Z.land_ones. lia. Qed.
Lemma shr26 x : Z.shiftr x 26 = x / 2 ^ 26.
Proof. apply Z.shiftr_div_pow2. lia. Qed.
Lemma shr22 x : Z.shiftr x 22 = x / 2 ^ 22.
Proof. apply Z.shiftr_div_pow2. lia. Qed.
Lemma u32_small x : 0 <= x < 2 ^ 32 -> u32 x = x.
Proof. apply Z.mod_small. Qed.
Lemma u64_small x : 0 <= x < 2 ^ 64 -> u64 x = x.
Proof. apply Z.mod_small. Qed.

Fixpoint eval26 (l : list Z) : Z := match l with [] => 0 | x :: r => x + 2 ^ 26 * eval26 r end.

Definition in26 (t : Z) := 0 <= t < 2 ^ 26.

Lemma chain_ok C Q cols : C + Q <= 2 ^ 26 * Q -> C + Q < 2 ^ 64 ->
  forall q, 0 <= q <= Q -> Forall (fun c => 0 <= c <= C) cols ->
  exists ts q', chain26 q cols = ts ++ [q'] /\ length ts = length cols /\ Forall in26 ts /\ 0 <= q' <= Q /\
    eval26 (ts ++ [q']) = q + eval26 cols.
Proof.
  intros HQ H64. induction cols as [|c r IH]; intros q Hq Hc.
  - exists [], q. cbn. repeat split; try lia. constructor.
  - inversion Hc as [|? ? Hc1 Hc2]; subst.
    cbn [chain26]. unfold fieldBaseMask, fieldBase. rewrite u64_small by lia. rewrite land26, shr26.
    assert (Hq2 : 0 <= (q + c) / 2 ^ 26 <= Q).
    { split; [apply Z.div_pos; lia|]. apply Z.div_le_upper_bound; lia. }
    destruct (IH _ Hq2 Hc2) as (ts & q' & E1 & E2 & E3 & E4 & E5).
    exists ((q + c) mod 2 ^ 26 :: ts), q'. rewrite E1. split; [reflexivity|].
    split; [cbn; congruence|]. split. { constructor; [|exact E3]. apply Z.mod_pos_bound; lia. }
    split; [exact E4|]. cbn [app eval26]. rewrite E5.
    pose proof (Z.div_mod (q + c) (2 ^ 26)). lia.
Qed.
Lemma chain_app q cols ts q' c : chain26 q cols = ts ++ [q'] -> length ts = length cols ->
  chain26 q (cols ++ [c]) = ts ++ [Z.land (u64 (q' + c)) fieldBaseMask; Z.shiftr (u64 (q' + c)) fieldBase].
Proof.
  revert q ts. induction cols as [|d r IH]; intros q ts E L.
  - destruct ts; [|discriminate]. cbn in E. injection E as <-. reflexivity.
  - destruct ts as [|t ts]; [discriminate|]. cbn [chain26 app] in *.
    set (m := u64 (q + d)) in *. injection E as E1 E2.
    rewrite (IH _ _ E2) by (cbn in L; congruence). rewrite E1. reflexivity.
Qed.

Ltac len_destruct ts H :=
  match type of H with length ts = _ => idtac end;
  repeat (let t := fresh "t" in let ts' := fresh "ts" in
          destruct ts as [|t ts']; [discriminate H|]; clear ts; rename ts' into ts; cbn [length] in H; apply Nat.succ_inj in H);
  destruct ts; [clear H|discriminate H].

Lemma reduce_ok t0 t1 t2 t3 t4 t5 t6 t7 t8 t9 t10 t11 t12 t13 t14 t15 t16 t17 t18 t19 :
  in26 t0 -> in26 t1 -> in26 t2 -> in26 t3 -> in26 t4 -> in26 t5 -> in26 t6 -> in26 t7 -> in26 t8 -> in26 t9 ->
  in26 t10 -> in26 t11 -> in26 t12 -> in26 t13 -> in26 t14 -> in26 t15 -> in26 t16 -> in26 t17 -> in26 t18 ->
  0 <= t19 <= 2 ^ 24 + 2 ^ 12 ->
  let f := fReduce [t0;t1;t2;t3;t4;t5;t6;t7;t8;t9;t10;t11;t12;t13;t14;t15;t16;t17;t18;t19] in
  fits 1 f /\ exists k, eval26 [t0;t1;t2;t3;t4;t5;t6;t7;t8;t9;t10;t11;t12;t13;t14;t15;t16;t17;t18;t19] = val f + k * P.
Proof.
  cbv zeta. unfold in26. intros. unfold fReduce.
  match goal with |- context [chain26 0 ?l] => set (cols := l) end.
  destruct (chain_ok (2 ^ 42) (2 ^ 17) cols) with (q := 0) as (ts & q & E1 & E2 & E3 & E4 & E5);
    [lia|lia|lia| |].
  { unfold cols. repeat constructor; lia. }
  rewrite E1. clear E1. unfold cols in E2, E5. clear cols. cbn [length] in E2.
  destruct ts as [|r0 ts]; [discriminate|]. destruct ts as [|r1 ts]; [discriminate|]. destruct ts as [|r2 ts]; [discriminate|].
  destruct ts as [|r3 ts]; [discriminate|]. destruct ts as [|r4 ts]; [discriminate|]. destruct ts as [|r5 ts]; [discriminate|].
  destruct ts as [|r6 ts]; [discriminate|]. destruct ts as [|r7 ts]; [discriminate|]. destruct ts as [|r8 ts]; [discriminate|].
  destruct ts; [|discriminate]. clear E2.
  repeat match goal with H : Forall _ (_ :: _) |- _ => inversion H; clear H; subst end.
  clear E3 || idtac. unfold in26 in *. cbn [app eval26] in *.
  unfold fieldMSBMask, fieldMSBBits, fieldBaseMask, fieldBase.
  set (M := q + t9 + t18 * 1024 + t19 * 68719492368).
  assert (HM : 0 <= M < 2 ^ 61) by (unfold M; lia).
  rewrite (u64_small M) by lia. rewrite !shr22, !land22.
  assert (HMd : M = 2 ^ 22 * (M / 2 ^ 22) + M mod 2 ^ 22) by (apply Z.div_mod; lia).
  assert (HMm : 0 <= M mod 2 ^ 22 < 2 ^ 22) by (apply Z.mod_pos_bound; lia).
  set (m := M / 2 ^ 22) in *. set (s9 := M mod 2 ^ 22) in *.
  assert (Hm : 0 <= m < 2 ^ 39) by lia.
  clearbody m s9.
  set (d := r0 + m * 977). assert (Hd : 0 <= d < 2 ^ 50) by (unfold d; lia).
  rewrite (u64_small d) by lia. rewrite !shr26, !land26.
  assert (Hdd : d = 2 ^ 26 * (d / 2 ^ 26) + d mod 2 ^ 26) by (apply Z.div_mod; lia).
  assert (Hdm : 0 <= d mod 2 ^ 26 < 2 ^ 26) by (apply Z.mod_pos_bound; lia).
  set (dq := d / 2 ^ 26) in *. set (dr := d mod 2 ^ 26) in *.
  assert (Hdq : 0 <= dq < 2 ^ 24) by lia. clearbody dq dr.
  set (e := dq + r1 + m * 64). assert (He : 0 <= e < 2 ^ 45 + 2 ^ 27) by (unfold e; lia).
  rewrite (u64_small e) by lia.
  assert (Hed : e = 2 ^ 26 * (e / 2 ^ 26) + e mod 2 ^ 26) by (apply Z.div_mod; lia).
  assert (Hem : 0 <= e mod 2 ^ 26 < 2 ^ 26) by (apply Z.mod_pos_bound; lia).
  set (eq := e / 2 ^ 26) in *. set (er := e mod 2 ^ 26) in *.
  assert (Heq : 0 <= eq <= 2 ^ 19) by lia. clearbody eq er.
  rewrite !u32_small by lia.
  split.
  - unfold fits. cbn [n0 n1 n2 n3 n4 n5 n6 n7 n8 n9]. lia.
  - exists (m + 16 * eval26 [t10;t11;t12;t13;t14;t15;t16;t17;t18;t19]).
    unfold val. cbn [n0 n1 n2 n3 n4 n5 n6 n7 n8 n9 eval26]. unfold P. unfold M, d, e in *. lia.
Qed.

Definition W2 : Z := 64 * ((2 ^ 26 + 2 ^ 19) * (2 ^ 26 + 2 ^ 19)).
Lemma mul_bound k1 k2 U V x y : 0 <= k1 -> 0 <= k2 -> k1 * k2 <= 64 -> 0 <= U -> 0 <= V ->
  0 <= x <= k1 * U -> 0 <= y <= k2 * V -> 0 <= x * y <= 64 * (U * V).
Proof.
  intros H1 H2 H3 H4 H5 H6 H7. split; [apply Z.mul_nonneg_nonneg; lia|].
  apply Z.le_trans with ((k1 * U) * (k2 * V)); [apply Z.mul_le_mono_nonneg; lia|].
  replace (k1 * U * (k2 * V)) with ((k1 * k2) * (U * V)) by ring.
  apply Z.mul_le_mono_nonneg_r; [apply Z.mul_nonneg_nonneg; lia|exact H3].
Qed.
Definition cb (n x : Z) : Prop := 0 <= x <= n * W2.
Lemma cb_add n m x y : cb n x -> cb m y -> cb (n + m) (x + y).
Proof. unfold cb. lia. Qed.
Lemma cb_dbl x y : cb 1 (x * y) -> cb 2 (2 * x * y).
Proof. unfold cb. rewrite <- Z.mul_assoc. lia. Qed.
Lemma cb_le n x : n <= 10 -> cb n x -> 0 <= x <= 10 * W2.
Proof.
  unfold cb. intros Hn [H1 H2]. split; [exact H1|]. apply Z.le_trans with (n * W2); [exact H2|].
  apply Z.mul_le_mono_nonneg_r; [discriminate|exact Hn].
Qed.

(** a limb that is at most k times (2^26 + 2^19) *)
Definition lb (k x : Z) : Prop := 0 <= x <= k * (2 ^ 26 + 2 ^ 19).
Lemma fits_lb k f : 0 <= k -> fits k f ->
  lb k (n0 f) /\ lb k (n1 f) /\ lb k (n2 f) /\ lb k (n3 f) /\ lb k (n4 f) /\ lb k (n5 f) /\ lb k (n6 f) /\ lb k (n7 f)
  /\ lb k (n8 f) /\ lb k (n9 f) /\ 0 <= n9 f <= k * 2 ^ 22.
Proof. unfold fits, lb. intros Hk (?&?&?&?&?&?&?&?&?&?). repeat split; lia. Qed.
Lemma cb_mul k1 k2 x y : 0 <= k1 -> 0 <= k2 -> k1 * k2 <= 64 -> lb k1 x -> lb k2 y -> cb 1 (x * y).
Proof.
  unfold lb, cb, W2. intros H1 H2 H3 H4 H5. rewrite Z.mul_1_l. apply (mul_bound k1 k2); auto; lia.
Qed.

Lemma eval26_app l c : eval26 (l ++ [c]) = eval26 l + 2 ^ (26 * Z.of_nat (length l)) * c.
Proof.
  induction l as [|x l IH]; [cbn [app eval26 length]; change (2 ^ (26 * Z.of_nat 0)) with 1; lia|]. cbn [app eval26 length]. rewrite IH.
  rewrite Nat2Z.inj_succ, Z.mul_succ_r, Z.pow_add_r; [ring|lia|lia].
Qed.
(** the common core of Mul2 and SquareVal *)
Lemma product_ok cols c : length cols = 18%nat -> Forall (fun x => 0 <= x <= 10 * W2) cols -> 0 <= c <= 64 * 2 ^ 44 ->
  fits 1 (fReduce (chain26 0 (cols ++ [c]))) /\
  exists k, eval26 (cols ++ [c]) = val (fReduce (chain26 0 (cols ++ [c]))) + k * P.
Proof.
  intros L F Hc.
  destruct (chain_ok (10 * W2) (2 ^ 38) cols) with (q := 0) as (ts & q & E1 & E2 & E3 & E4 & E5);
    [unfold W2; lia|unfold W2; lia|lia|exact F|].
  rewrite (chain_app _ _ _ _ c E1 E2).
  assert (E6 : eval26 (cols ++ [c]) = eval26 (ts ++ [Z.land (u64 (q + c)) fieldBaseMask; Z.shiftr (u64 (q + c)) fieldBase])).
  { rewrite Z.add_0_l in E5. unfold fieldBaseMask, fieldBase. rewrite u64_small by lia. rewrite land26, shr26.
    pose proof eval26_app as A.
    replace (ts ++ [(q + c) mod 2 ^ 26; (q + c) / 2 ^ 26]) with ((ts ++ [(q + c) mod 2 ^ 26]) ++ [(q + c) / 2 ^ 26])
      by (rewrite <- app_assoc; reflexivity).
    rewrite !A in *. rewrite <- E5. rewrite app_length. cbn [length]. rewrite E2, L.
    assert (H : q + c = 2 ^ 26 * ((q + c) / 2 ^ 26) + (q + c) mod 2 ^ 26) by (apply Z.div_mod; lia).
    change (2 ^ (26 * Z.of_nat (18 + 1))) with (2 ^ (26 * 18) * 2 ^ 26). change (Z.of_nat 18) with 18.
    set (a := (q + c) / 2 ^ 26) in *. set (b := (q + c) mod 2 ^ 26) in *. clearbody a b.
    generalize (2 ^ (26 * 18)). intros X.
    replace (eval26 ts + X * q + X * c) with (eval26 ts + X * (q + c)) by ring. rewrite H. ring. }
  rewrite E6.
  unfold fieldBaseMask, fieldBase. rewrite u64_small by lia. rewrite land26, shr26.
  assert (G1 : 0 <= (q + c) mod 2 ^ 26 < 2 ^ 26) by (apply Z.mod_pos_bound; lia).
  assert (G2 : 0 <= (q + c) / 2 ^ 26 <= 2 ^ 24 + 2 ^ 12) by lia.
  rewrite L in E2. clear E1 E4 E5 E6 F L Hc. clear cols.
  set (a := (q + c) / 2 ^ 26) in *. set (b := (q + c) mod 2 ^ 26) in *. clearbody a b.
  do 18 (destruct ts as [|? ts]; [discriminate|]). destruct ts; [|discriminate]. clear E2.
  repeat match goal with H : Forall _ (_ :: _) |- _ => apply Forall_cons_iff in H; destruct H end.
  cbn [app]. apply reduce_ok; assumption.
Qed.

Ltac cbmul := eapply cb_mul; [| | |eassumption|eassumption]; assumption.
Ltac colbounds :=
  repeat (apply Forall_cons; [eapply cb_le; [|repeat (eapply cb_add); first [eapply cb_dbl; cbmul | cbmul]]; lia|]);
  apply Forall_nil.

Lemma mul_ok k1 k2 a b : 0 <= k1 -> 0 <= k2 -> k1 * k2 <= 64 -> fits k1 a -> fits k2 b ->
  fits 1 (fMul a b) /\ val (fMul a b) mod P = (val a * val b) mod P.
Proof.
  intros H1 H2 H3 Ha Hb.
  apply fits_lb in Ha; [|exact H1]. apply fits_lb in Hb; [|exact H2].
  destruct Ha as (A0&A1&A2&A3&A4&A5&A6&A7&A8&A9&A10), Hb as (B0&B1&B2&B3&B4&B5&B6&B7&B8&B9&B10).
  unfold fMul.
  match goal with |- context [chain26 0 ?l] => set (cc := l) end.
  assert (Hc : exists cols c, cc = cols ++ [c] /\ length cols = 18%nat /\
    Forall (fun x => 0 <= x <= 10 * W2) cols /\ 0 <= c <= 64 * 2 ^ 44).
  { exists (removelast cc), (last cc 0). unfold cc. cbn [removelast last app]. split; [reflexivity|]. split; [reflexivity|].
    split; [colbounds|].
    change (64 * 2 ^ 44) with (64 * (2 ^ 22 * 2 ^ 22)). apply (mul_bound k1 k2); auto; lia. }
  destruct Hc as (cols & c & E & L & F & G).
  assert (V : eval26 cc = val a * val b).
  { unfold cc. clear. cbn [eval26]. unfold val. ring. }
  rewrite E in *. destruct (product_ok cols c L F G) as [R1 [k R2]].
  split; [exact R1|]. rewrite <- V, R2. symmetry. apply Z_mod_plus_full.
Qed.
Lemma square_ok k a : 0 <= k -> k * k <= 64 -> fits k a ->
  fits 1 (fSquare a) /\ val (fSquare a) mod P = (val a * val a) mod P.
Proof.
  intros H1 H3 Ha.
  apply fits_lb in Ha; [|exact H1].
  destruct Ha as (A0&A1&A2&A3&A4&A5&A6&A7&A8&A9&A10).
  unfold fSquare.
  match goal with |- context [chain26 0 ?l] => set (cc := l) end.
  assert (Hc : exists cols c, cc = cols ++ [c] /\ length cols = 18%nat /\
    Forall (fun x => 0 <= x <= 10 * W2) cols /\ 0 <= c <= 64 * 2 ^ 44).
  { exists (removelast cc), (last cc 0). unfold cc. cbn [removelast last app]. split; [reflexivity|]. split; [reflexivity|].
    split; [colbounds|].
    change (64 * 2 ^ 44) with (64 * (2 ^ 22 * 2 ^ 22)). apply (mul_bound k k); auto; lia. }
  destruct Hc as (cols & c & E & L & F & G).
  assert (V : eval26 cc = val a * val a).
  { unfold cc. clear. cbn [eval26]. unfold val. ring. }
  rewrite E in *. destruct (product_ok cols c L F G) as [R1 [q R2]].
  split; [exact R1|]. rewrite <- V, R2. symmetry. apply Z_mod_plus_full.
Qed.

(** ** Linear operations *)
Ltac fcbn := cbn [n0 n1 n2 n3 n4 n5 n6 n7 n8 n9].
Lemma add_ok k1 k2 a b : 0 <= k1 -> 0 <= k2 -> k1 + k2 <= 63 -> fits k1 a -> fits k2 b ->
  fits (k1 + k2) (fAdd a b) /\ val (fAdd a b) = val a + val b.
Proof.
  intros H1 H2 H3 (A0&A1&A2&A3&A4&A5&A6&A7&A8&A9) (B0&B1&B2&B3&B4&B5&B6&B7&B8&B9).
  unfold fAdd. rewrite !u32_small by lia. unfold fits, val. fcbn. split; [lia|ring].
Qed.
Lemma addInt_ok k a ui : 0 <= k -> 0 <= ui <= 2 ^ 26 -> k <= 62 -> fits k a ->
  fits (k + 1) (fAddInt a ui) /\ val (fAddInt a ui) = val a + ui.
Proof.
  intros H1 H2 H3 (A0&A1&A2&A3&A4&A5&A6&A7&A8&A9).
  unfold fAddInt. rewrite (u32_small ui) by lia. rewrite !u32_small by lia. unfold fits, val. fcbn. split; [lia|ring].
Qed.
Lemma limb_mul k j x W : 0 <= k -> 0 <= j -> k * j <= 63 -> 0 <= W <= 2 ^ 26 + 2 ^ 19 -> 0 <= x <= k * W ->
  u32 (x * j) = x * j /\ 0 <= x * j <= (k * j) * W.
Proof.
  intros H1 H2 H3 H4 H5.
  assert (A : 0 <= x * j <= (k * j) * W).
  { split; [apply Z.mul_nonneg_nonneg; lia|]. replace (k * j * W) with (k * W * j) by ring.
    apply Z.mul_le_mono_nonneg_r; lia. }
  split; [|exact A]. apply u32_small. split; [lia|].
  apply Z.le_lt_trans with (63 * W); [|lia]. apply Z.le_trans with (k * j * W); [lia|].
  apply Z.mul_le_mono_nonneg_r; lia.
Qed.
Lemma mulInt_ok k j a : 0 <= k -> 0 <= j < 2 ^ 32 -> k * j <= 63 -> fits k a ->
  fits (k * j) (fMulInt a j) /\ val (fMulInt a j) = val a * j.
Proof.
  intros H1 H2 H3 (A0&A1&A2&A3&A4&A5&A6&A7&A8&A9). unfold fMulInt. rewrite (u32_small j) by lia.
  apply (limb_mul k j) in A0; [|lia..]. apply (limb_mul k j) in A1; [|lia..]. apply (limb_mul k j) in A2; [|lia..].
  apply (limb_mul k j) in A3; [|lia..]. apply (limb_mul k j) in A4; [|lia..]. apply (limb_mul k j) in A5; [|lia..].
  apply (limb_mul k j) in A6; [|lia..]. apply (limb_mul k j) in A7; [|lia..]. apply (limb_mul k j) in A8; [|lia..].
  apply (limb_mul k j) in A9; [|lia..].
  destruct A0 as [-> A0], A1 as [-> A1], A2 as [-> A2], A3 as [-> A3], A4 as [-> A4], A5 as [-> A5], A6 as [-> A6],
    A7 as [-> A7], A8 as [-> A8], A9 as [-> A9].
  unfold fits, val. fcbn. split; [tauto|ring].
Qed.
Lemma fits_le k k' f : k <= k' -> fits k f -> fits k' f.
Proof. unfold fits. intros. lia. Qed.
Lemma negate_ok k m a : 0 <= k <= m -> m <= 62 -> fits k a ->
  fits (m + 1) (fNegate a m) /\ val (fNegate a m) = (m + 1) * P - val a.
Proof.
  intros H1 H2 Ha. apply (fits_le k m) in Ha; [|lia]. destruct Ha as (A0&A1&A2&A3&A4&A5&A6&A7&A8&A9).
  unfold fNegate, fieldPrimeWordZero, fieldPrimeWordOne, fieldBaseMask, fieldMSBMask.
  rewrite (u32_small (m + 1)) by lia. rewrite !u32_small by lia. unfold fits, val, P. fcbn. split; lia.
Qed.
Lemma setInt_ok ui : 0 <= ui <= 2 ^ 26 -> fits 1 (fSetInt ui) /\ val (fSetInt ui) = ui.
Proof. intros. unfold fSetInt. rewrite u32_small by lia. unfold fits, val. fcbn. split; [lia|ring]. Qed.
Lemma zero_ok : fits 1 fZero /\ val fZero = 0.
Proof. unfold fits, val, fZero. fcbn. split; [lia|reflexivity]. Qed.

(** ** Normalize *)
Lemma land_mask x y : in26 x -> in26 y -> (Z.land x y = 0x3ffffff <-> x = 0x3ffffff /\ y = 0x3ffffff).
Proof.
  unfold in26. intros Hx Hy. split; [|intros [-> ->]; reflexivity]. intros H.
  assert (forall a b, 0 <= a < 2 ^ 26 -> Z.land a b = 0x3ffffff -> a = 0x3ffffff) as A.
  { intros a b Ha E. assert (E2 : Z.land a 0x3ffffff = 0x3ffffff) by (rewrite <- E, Z.land_assoc, Z.land_diag; reflexivity).
    rewrite land26, Z.mod_small in E2 by exact Ha. exact E2. }
  split; [apply (A x y)|apply (A y x)]; auto. rewrite Z.land_comm. exact H.
Qed.
Lemma land_in26 x y : in26 x -> in26 y -> in26 (Z.land x y).
Proof.
  unfold in26. intros Hx Hy. rewrite <- (Z.mod_small y (2 ^ 26)) by lia. rewrite <- land26, Z.land_assoc, land26.
  apply Z.mod_pos_bound. lia.
Qed.
Lemma land7 a b c d e f g : in26 a -> in26 b -> in26 c -> in26 d -> in26 e -> in26 f -> in26 g ->
  (Z.land (Z.land (Z.land (Z.land (Z.land (Z.land a b) c) d) e) f) g =? 0x3ffffff) = true <->
  (a = 0x3ffffff /\ b = 0x3ffffff /\ c = 0x3ffffff /\ d = 0x3ffffff /\ e = 0x3ffffff /\ f = 0x3ffffff /\ g = 0x3ffffff).
Proof.
  intros. rewrite Z.eqb_eq. rewrite !land_mask by (repeat apply land_in26; assumption). tauto.
Qed.

(** one step of the carry propagation *)
Ltac carry t q r Hd Hm :=
  let x := fresh "x" in
  rewrite ?shr26, ?land26;
  assert (Hd : t = 2 ^ 26 * (t / 2 ^ 26) + t mod 2 ^ 26) by (apply Z.div_mod; lia);
  assert (Hm : 0 <= t mod 2 ^ 26 < 2 ^ 26) by (apply Z.mod_pos_bound; lia);
  set (q := t / 2 ^ 26) in *; set (r := t mod 2 ^ 26) in *; clearbody q r.

Lemma pass_ok W a0 a1 a2 a3 a4 a5 a6 a7 a8 a9 m :
  0 <= W <= 2 ^ 32 - 2 ^ 24 -> 0 <= m <= 63 ->
  0 <= a0 <= W -> 0 <= a1 <= W -> 0 <= a2 <= W -> 0 <= a3 <= W -> 0 <= a4 <= W -> 0 <= a5 <= W -> 0 <= a6 <= W ->
  0 <= a7 <= W -> 0 <= a8 <= W -> 0 <= a9 <= 2 ^ 22 + 2 ^ 20 ->
  exists r0 r1 r2 r3 r4 r5 r6 r7 r8 r9,
  in26 r0 /\ in26 r1 /\ in26 r2 /\ in26 r3 /\ in26 r4 /\ in26 r5 /\ in26 r6 /\ in26 r7 /\ in26 r8 /\ a9 <= r9 <= a9 + 64 /\
  val (FV r0 r1 r2 r3 r4 r5 r6 r7 r8 r9) = val (FV a0 a1 a2 a3 a4 a5 a6 a7 a8 a9) + m * (977 + 2 ^ 32) /\
  fCarry (FV a0 a1 a2 a3 a4 a5 a6 a7 a8 a9) m = FV r0 r1 r2 r3 r4 r5 r6 r7 r8 r9.
Proof.
  intros HW Hm H0 H1 H2 H3 H4 H5 H6 H7 H8 H9.
  unfold fCarry, carry26, low26, fieldBaseMask, fieldBase. fcbn. rewrite (Z.shiftl_mul_pow2 m 6) by lia.
  set (s0 := a0 + m * 977). rewrite (u32_small s0) by lia. rewrite !shr26, !land26.
  assert (D0 : s0 = 2 ^ 26 * (s0 / 2 ^ 26) + s0 mod 2 ^ 26) by (apply Z.div_mod; lia).
  assert (M0 : 0 <= s0 mod 2 ^ 26 < 2 ^ 26) by (apply Z.mod_pos_bound; lia).
  set (q0 := s0 / 2 ^ 26) in *; set (r0 := s0 mod 2 ^ 26) in *; clearbody q0 r0.
  assert (Q0 : 0 <= q0 <= 63) by lia.
  set (s1 := q0 + a1 + m * 2 ^ 6). rewrite (u32_small s1) by lia.
  assert (D1 : s1 = 2 ^ 26 * (s1 / 2 ^ 26) + s1 mod 2 ^ 26) by (apply Z.div_mod; lia).
  assert (M1 : 0 <= s1 mod 2 ^ 26 < 2 ^ 26) by (apply Z.mod_pos_bound; lia).
  set (q1 := s1 / 2 ^ 26) in *; set (r1 := s1 mod 2 ^ 26) in *; clearbody q1 r1.
  assert (Q1 : 0 <= q1 <= 63) by lia.
  set (s2 := q1 + a2). rewrite (u32_small s2) by lia.
  assert (D2 : s2 = 2 ^ 26 * (s2 / 2 ^ 26) + s2 mod 2 ^ 26) by (apply Z.div_mod; lia).
  assert (M2 : 0 <= s2 mod 2 ^ 26 < 2 ^ 26) by (apply Z.mod_pos_bound; lia).
  set (q2 := s2 / 2 ^ 26) in *; set (r2 := s2 mod 2 ^ 26) in *; clearbody q2 r2.
  assert (Q2 : 0 <= q2 <= 63) by lia.
  set (s3 := q2 + a3). rewrite (u32_small s3) by lia.
  assert (D3 : s3 = 2 ^ 26 * (s3 / 2 ^ 26) + s3 mod 2 ^ 26) by (apply Z.div_mod; lia).
  assert (M3 : 0 <= s3 mod 2 ^ 26 < 2 ^ 26) by (apply Z.mod_pos_bound; lia).
  set (q3 := s3 / 2 ^ 26) in *; set (r3 := s3 mod 2 ^ 26) in *; clearbody q3 r3.
  assert (Q3 : 0 <= q3 <= 63) by lia.
  set (s4 := q3 + a4). rewrite (u32_small s4) by lia.
  assert (D4 : s4 = 2 ^ 26 * (s4 / 2 ^ 26) + s4 mod 2 ^ 26) by (apply Z.div_mod; lia).
  assert (M4 : 0 <= s4 mod 2 ^ 26 < 2 ^ 26) by (apply Z.mod_pos_bound; lia).
  set (q4 := s4 / 2 ^ 26) in *; set (r4 := s4 mod 2 ^ 26) in *; clearbody q4 r4.
  assert (Q4 : 0 <= q4 <= 63) by lia.
  set (s5 := q4 + a5). rewrite (u32_small s5) by lia.
  assert (D5 : s5 = 2 ^ 26 * (s5 / 2 ^ 26) + s5 mod 2 ^ 26) by (apply Z.div_mod; lia).
  assert (M5 : 0 <= s5 mod 2 ^ 26 < 2 ^ 26) by (apply Z.mod_pos_bound; lia).
  set (q5 := s5 / 2 ^ 26) in *; set (r5 := s5 mod 2 ^ 26) in *; clearbody q5 r5.
  assert (Q5 : 0 <= q5 <= 63) by lia.
  set (s6 := q5 + a6). rewrite (u32_small s6) by lia.
  assert (D6 : s6 = 2 ^ 26 * (s6 / 2 ^ 26) + s6 mod 2 ^ 26) by (apply Z.div_mod; lia).
  assert (M6 : 0 <= s6 mod 2 ^ 26 < 2 ^ 26) by (apply Z.mod_pos_bound; lia).
  set (q6 := s6 / 2 ^ 26) in *; set (r6 := s6 mod 2 ^ 26) in *; clearbody q6 r6.
  assert (Q6 : 0 <= q6 <= 63) by lia.
  set (s7 := q6 + a7). rewrite (u32_small s7) by lia.
  assert (D7 : s7 = 2 ^ 26 * (s7 / 2 ^ 26) + s7 mod 2 ^ 26) by (apply Z.div_mod; lia).
  assert (M7 : 0 <= s7 mod 2 ^ 26 < 2 ^ 26) by (apply Z.mod_pos_bound; lia).
  set (q7 := s7 / 2 ^ 26) in *; set (r7 := s7 mod 2 ^ 26) in *; clearbody q7 r7.
  assert (Q7 : 0 <= q7 <= 63) by lia.
  set (s8 := q7 + a8). rewrite (u32_small s8) by lia.
  assert (D8 : s8 = 2 ^ 26 * (s8 / 2 ^ 26) + s8 mod 2 ^ 26) by (apply Z.div_mod; lia).
  assert (M8 : 0 <= s8 mod 2 ^ 26 < 2 ^ 26) by (apply Z.mod_pos_bound; lia).
  set (q8 := s8 / 2 ^ 26) in *; set (r8 := s8 mod 2 ^ 26) in *; clearbody q8 r8.
  assert (Q8 : 0 <= q8 <= 63) by lia.
  rewrite (u32_small (q8 + a9)) by lia.
  exists r0, r1, r2, r3, r4, r5, r6, r7, r8, (q8 + a9). unfold in26.
  do 9 (split; [assumption|]). split; [lia|]. split; [|reflexivity].
  unfold val. fcbn. unfold s0, s1, s2, s3, s4, s5, s6, s7, s8 in *. lia.
Qed.

Lemma normalize_ok k f : 0 <= k <= 63 -> fits k f -> canonical (fNormalize f) /\ val (fNormalize f) = val f mod P.
Proof.
  intros Hk (A0&A1&A2&A3&A4&A5&A6&A7&A8&A9). destruct f as [f0 f1 f2 f3 f4 f5 f6 f7 f8 f9].
  cbn [n0 n1 n2 n3 n4 n5 n6 n7 n8 n9] in *. unfold fNormalize.
  assert (D : f9 = 2 ^ 22 * (f9 / 2 ^ 22) + f9 mod 2 ^ 22) by (apply Z.div_mod; lia).
  assert (M : 0 <= f9 mod 2 ^ 22 < 2 ^ 22) by (apply Z.mod_pos_bound; lia).
  unfold fieldMSBMask, fieldMSBBits. rewrite shr22, land22.
  set (m := f9 / 2 ^ 22) in *; set (t9 := f9 mod 2 ^ 22) in *. clearbody m t9.
  destruct (pass_ok (63 * (2 ^ 26 + 2 ^ 19)) f0 f1 f2 f3 f4 f5 f6 f7 f8 t9 m)
    as (r0&r1&r2&r3&r4&r5&r6&r7&r8&r9&I0&I1&I2&I3&I4&I5&I6&I7&I8&I9&V&E); [lia..|].
  rewrite E. clear E. set (f := FV f0 f1 f2 f3 f4 f5 f6 f7 f8 f9).
  assert (V2 : val (FV r0 r1 r2 r3 r4 r5 r6 r7 r8 r9) = val f - m * P).
  { rewrite V. unfold f, val, P. fcbn. lia. }
  clear V.
  pose proof (land7 r2 r3 r4 r5 r6 r7 r8 I2 I3 I4 I5 I6 I7 I8) as L7.
  unfold fieldBaseMask, fieldBase.
  match goal with |- context [if negb ?b then _ else _] => set (mm := if negb b then _ else _) end.
  assert (Hmm : (mm = 0 /\ val (FV r0 r1 r2 r3 r4 r5 r6 r7 r8 r9) < P) \/ (mm = 1 /\ P <= val (FV r0 r1 r2 r3 r4 r5 r6 r7 r8 r9))).
  { subst mm. unfold in26 in *. rewrite shr22, shr26. rewrite !(u32_small (r0 + 977)) by lia.
    assert (S : 0 <= (r0 + 977) / 2 ^ 26 <= 1) by lia.
    rewrite u32_small by lia. unfold val, P in *. fcbn.
    destruct (r9 / 2 ^ 22 =? 0) eqn:Z9.
    - apply Z.eqb_eq in Z9. cbn [negb].
      destruct (r9 =? 4194303) eqn:Y9.
      + apply Z.eqb_eq in Y9.
        match goal with |- context [?b =? 67108863] => destruct (b =? 67108863) eqn:YL end.
        * apply proj1 in L7. specialize (L7 eq_refl).
          destruct (0x3ffffff <? (r0 + 977) / 2 ^ 26 + r1 + 64) eqn:YC;
            [apply Z.ltb_lt in YC; right|apply Z.ltb_ge in YC; left]; (split; [reflexivity|lia]).
        * left. split. { destruct (_ <? _); reflexivity. }
          assert (~ (r2 = 67108863 /\ r3 = 67108863 /\ r4 = 67108863 /\ r5 = 67108863 /\ r6 = 67108863 /\ r7 = 67108863 /\ r8 = 67108863)) as L8
            by (intros L8; apply L7 in L8; discriminate). lia.
      + apply Z.eqb_neq in Y9. left. split. { destruct (_ =? 0x3ffffff), (_ <? _); reflexivity. } lia.
    - apply Z.eqb_neq in Z9. right. split.
      { cbn [negb]. destruct (r9 =? _), (_ =? 0x3ffffff), (_ <? _); reflexivity. }
      assert (2 ^ 22 <= r9) by lia. lia. }
  clearbody mm.
  destruct (pass_ok (2 ^ 26) r0 r1 r2 r3 r4 r5 r6 r7 r8 r9 mm)
    as (s0&s1&s2&s3&s4&s5&s6&s7&s8&s9&J0&J1&J2&J3&J4&J5&J6&J7&J8&J9&V&E); unfold in26 in *; [lia..|].
  rewrite E. clear E.
  rewrite land22.
  assert (D2 : s9 = 2 ^ 22 * (s9 / 2 ^ 22) + s9 mod 2 ^ 22) by (apply Z.div_mod; lia).
  assert (M2 : 0 <= s9 mod 2 ^ 22 < 2 ^ 22) by (apply Z.mod_pos_bound; lia).
  set (w := s9 / 2 ^ 22) in *; set (w9 := s9 mod 2 ^ 22) in *. clearbody w w9.
  set (vr := val (FV r0 r1 r2 r3 r4 r5 r6 r7 r8 r9)) in *.
  assert (V3 : val (FV s0 s1 s2 s3 s4 s5 s6 s7 s8 w9) = vr - mm * P /\ vr - mm * P < P).
  { assert (Hvr : 0 <= vr < 2 ^ 256 + 2 ^ 241) by (unfold vr, val; fcbn; lia).
    assert (V4 : val (FV s0 s1 s2 s3 s4 s5 s6 s7 s8 w9) = vr + mm * (977 + 2 ^ 32) - w * 2 ^ 256).
    { rewrite <- V. unfold val. fcbn. lia. }
    assert (V5 : 0 <= val (FV s0 s1 s2 s3 s4 s5 s6 s7 s8 w9) < 2 ^ 256) by (unfold val; fcbn; lia).
    clearbody vr. unfold P in *. split; [|lia].
    assert (w = mm) by (destruct Hmm as [[-> ?]|[-> ?]]; lia). subst w. lia. }
  assert (V5 : 0 <= val (FV s0 s1 s2 s3 s4 s5 s6 s7 s8 w9)) by (unfold val; fcbn; lia).
  destruct V3 as [V3 V4].
  split.
  - unfold canonical. fcbn. unfold in26 in *. repeat (split; [assumption|]). lia.
  - rewrite V3 in *. symmetry.
    replace (val f) with (vr - mm * P + (m + mm) * P) by lia.
    rewrite Z_mod_plus_full. apply Z.mod_small. lia.
Qed.

(** ** Comparisons *)
Lemma canonical_fits f : canonical f -> fits 1 f.
Proof. unfold canonical, fits. intros (?&?&?&?&?&?&?&?&?&?&?). lia. Qed.
Lemma canonical_range f : canonical f -> 0 <= val f < P.
Proof. unfold canonical. intros (?&?&?&?&?&?&?&?&?&?&?). split; [unfold val; lia|assumption]. Qed.
Lemma digit a b x y M : 0 <= a < M -> 0 <= b < M -> a + M * x = b + M * y -> a = b /\ x = y.
Proof.
  intros Ha Hb E. assert (x = y) by nia. subst. lia.
Qed.
Lemma canonical_inj f g : canonical f -> canonical g -> val f = val g -> f = g.
Proof.
  destruct f as [f0 f1 f2 f3 f4 f5 f6 f7 f8 f9], g as [g0 g1 g2 g3 g4 g5 g6 g7 g8 g9].
  unfold canonical, val. fcbn. intros (A0&A1&A2&A3&A4&A5&A6&A7&A8&A9&_) (B0&B1&B2&B3&B4&B5&B6&B7&B8&B9&_) E.
  assert (E' : eval26 [f0;f1;f2;f3;f4;f5;f6;f7;f8;f9] = eval26 [g0;g1;g2;g3;g4;g5;g6;g7;g8;g9]).
  { cbn [eval26]. lia. }
  clear E. cbn [eval26] in E'.
  do 9 (apply digit in E'; [|assumption|assumption]; destruct E' as [-> E']).
  assert (f9 = g9) by lia. subst. reflexivity.
Qed.
Lemma isZero_iff f : fIsZero f = true <-> f = fZero.
Proof.
  destruct f as [f0 f1 f2 f3 f4 f5 f6 f7 f8 f9]. unfold fIsZero, fZero. fcbn. rewrite Z.eqb_eq, !Z.lor_eq_0_iff.
  split; [intros H; decompose [and] H; subst; reflexivity|]. intros H. injection H. tauto.
Qed.
Lemma equals_iff f g : fEquals f g = true <-> f = g.
Proof.
  destruct f as [f0 f1 f2 f3 f4 f5 f6 f7 f8 f9], g as [g0 g1 g2 g3 g4 g5 g6 g7 g8 g9]. unfold fEquals. fcbn.
  rewrite Z.eqb_eq, !Z.lor_eq_0_iff, !Z.lxor_eq_0_iff.
  split; [intros H; decompose [and] H; subst; reflexivity|]. intros H. injection H. tauto.
Qed.
Lemma isZero_val f : canonical f -> (fIsZero f = true <-> val f = 0).
Proof.
  intros Hf. rewrite isZero_iff. split; [intros ->; reflexivity|]. intros E. apply canonical_inj; [exact Hf| |rewrite E; reflexivity].
  unfold canonical, fZero. fcbn. unfold val. fcbn. repeat split; lia.
Qed.
Lemma equals_val f g : canonical f -> canonical g -> (fEquals f g = true <-> val f = val g).
Proof.
  intros Hf Hg. rewrite equals_iff. split; [intros ->; reflexivity|]. apply canonical_inj; assumption.
Qed.
Lemma isOdd_val f : fIsOdd f = Z.odd (val f).
Proof.
  unfold fIsOdd. change 1 with (Z.ones 1) at 1. rewrite Z.land_ones by lia. change (2 ^ 1) with 2.
  assert (E : Z.odd (val f) = Z.odd (n0 f)).
  { unfold val. rewrite !Z.odd_add, !Z.odd_mul. rewrite !Z.odd_pow by lia. cbn [Z.odd].
    rewrite !andb_false_r, !xorb_false_r. reflexivity. }
  rewrite E, (Zmod_odd (n0 f)). destruct (Z.odd (n0 f)); reflexivity.
Qed.

(** ** Inverse *)
Global Opaque fMul fSquare.
Definition rpow (v e : Z) (f : fieldVal) : Prop := 0 <= e /\ fits 1 f /\ val f mod P = v ^ e mod P.
Lemma rpow_mul v a b f g : rpow v a f -> rpow v b g -> rpow v (a + b) (fMul f g).
Proof.
  intros (Ha&Fa&Va) (Hb&Fb&Vb). destruct (mul_ok 1 1 f g) as [F V]; [discriminate|discriminate|discriminate|exact Fa|exact Fb|].
  split; [clear - Ha Hb; lia|]. split; [exact F|]. rewrite V, Z.mul_mod, Va, Vb, <- Z.mul_mod by discriminate.
  rewrite Z.pow_add_r by assumption. reflexivity.
Qed.
Lemma rpow_square v a f : rpow v a f -> rpow v (2 * a) (fSquare f).
Proof.
  intros (Ha&Fa&Va). destruct (square_ok 1 f) as [F V]; [discriminate|discriminate|exact Fa|].
  split; [clear - Ha; lia|]. split; [exact F|]. rewrite V, Z.mul_mod, Va, <- Z.mul_mod by discriminate.
  replace (2 * a) with (a + a) by ring. rewrite Z.pow_add_r by assumption. reflexivity.
Qed.
Lemma rpow_squares v n : forall a f, rpow v a f -> rpow v (2 ^ Z.of_nat n * a) (fSquares n f).
Proof.
  induction n as [|n IH]; intros a f H; cbn [fSquares].
  - change (2 ^ Z.of_nat 0) with 1. rewrite Z.mul_1_l. exact H.
  - rewrite Nat2Z.inj_succ, Z.pow_succ_r by lia. replace (2 * 2 ^ Z.of_nat n * a) with (2 ^ Z.of_nat n * (2 * a)) by ring.
    apply IH, rpow_square, H.
Qed.
Lemma rpow_step v a b f g : rpow v a f -> rpow v b g -> rpow v (1024 * a + b) (fMul (fSquares 10 f) g).
Proof. intros Hf Hg. apply rpow_mul; [|exact Hg]. change 1024 with (2 ^ Z.of_nat 10). apply rpow_squares, Hf. Qed.

Lemma inverse_pow k f : 0 <= k <= 8 -> fits k f -> fits 1 (fInverse f) /\ val (fInverse f) mod P = val f ^ (P - 2) mod P.
Proof.
  intros Hk F. set (v := val f).
  assert (R2 : rpow v 2 (fSquare f)).
  { destruct (square_ok k f) as [A B]; [clear - Hk; lia|clear - Hk; nia|exact F|]. split; [discriminate|]. split; [exact A|]. rewrite B. fold v.
    rewrite Z.pow_2_r. reflexivity. }
  assert (M1 : forall e g, rpow v e g -> rpow v (e + 1) (fMul g f)).
  { intros e g (He&Fg&Vg). destruct (mul_ok 1 k g f) as [A B]; [discriminate|clear - Hk; lia|clear - Hk; lia|exact Fg|exact F|].
    split; [clear - He; lia|]. split; [exact A|]. rewrite B. fold v. rewrite Z.mul_mod, Vg, <- Z.mul_mod by discriminate.
    rewrite Z.pow_add_r, Z.pow_1_r by (first [exact He|discriminate]). reflexivity. }
  unfold fInverse.
  pose proof (M1 _ _ R2) as R3. pose proof (rpow_square _ _ _ R2) as R4.
  pose proof (rpow_mul _ _ _ _ _ (rpow_square _ _ _ R4) R2) as R10.
  pose proof (M1 _ _ R10) as R11. pose proof (rpow_mul _ _ _ _ _ R10 R11) as R21. pose proof (rpow_square _ _ _ R21) as R42.
  pose proof (rpow_mul _ _ _ _ _ R42 R3) as R45. pose proof (rpow_mul _ _ _ _ _ R42 R21) as R63.
  pose proof (rpow_mul _ _ _ _ _ (rpow_squares _ 4 _ _ R63) R11) as R1019.
  pose proof (rpow_mul _ _ _ _ _ R1019 R4) as R1023.
  change (2 ^ Z.of_nat 4) with 16 in *.
  set (a2 := fSquare f) in *. set (a3 := fMul a2 f) in *. set (a4 := fSquare a2) in *. set (a10 := fMul (fSquare a4) a2) in *.
  set (a11 := fMul a10 f) in *. set (a21 := fMul a10 a11) in *. set (a42 := fSquare a21) in *. set (a45 := fMul a42 a3) in *.
  set (a63 := fMul a42 a21) in *. set (a1019 := fMul (fSquares 4 a63) a11) in *. set (a1023 := fMul a1019 a4) in *.
  cbv beta zeta. clearbody a45 a63 a1019 a1023. clear - R45 R63 R1019 R1023.
  match goal with |- fits 1 ?g /\ _ => assert (exists e, e = P - 2 /\ rpow v e g) as (e & -> & _ & A & B) end.
  { eexists. split; [|repeat first [exact R45|exact R63|exact R1019|exact R1023|apply rpow_step]]. reflexivity. }
  split; assumption.
Qed.

(** ** Bytes *)
Lemma lor_shl x y n : 0 <= n -> 0 <= x < 2 ^ n -> Z.lor x (Z.shiftl y n) = x + y * 2 ^ n.
Proof.
  intros Hn Hx. rewrite <- Z.shiftl_mul_pow2 by exact Hn.
  rewrite <- Z.lxor_lor, Z.add_nocarry_lxor; [reflexivity| |].
  - apply Z.bits_inj'. intros i Hi. rewrite Z.land_spec, Z.bits_0.
    destruct (Z.lt_ge_cases i n) as [L|L].
    + rewrite Z.shiftl_spec_low by exact L. apply andb_false_r.
    + assert (Z.testbit x i = false) as ->; [|reflexivity].
      destruct (Z.eq_dec x 0) as [->|Nz]; [apply Z.bits_0|].
      apply Z.bits_above_log2; [lia|]. apply Z.lt_le_trans with n; [|exact L]. apply Z.log2_lt_pow2; lia.
  - apply Z.bits_inj'. intros i Hi. rewrite Z.land_spec, Z.bits_0.
    destruct (Z.lt_ge_cases i n) as [L|L].
    + rewrite Z.shiftl_spec_low by exact L. apply andb_false_r.
    + assert (Z.testbit x i = false) as ->; [|reflexivity].
      destruct (Z.eq_dec x 0) as [->|Nz]; [apply Z.bits_0|].
      apply Z.bits_above_log2; [lia|]. apply Z.lt_le_trans with n; [|exact L]. apply Z.log2_lt_pow2; lia.
Qed.
Lemma lor_u32 x y n : 0 <= n -> 0 <= x < 2 ^ n -> 0 <= y * 2 ^ n < 2 ^ 32 ->
  Z.lor x (u32 (Z.shiftl y n)) = x + y * 2 ^ n.
Proof.
  intros Hn Hx Hy. rewrite u32_small by (rewrite Z.shiftl_mul_pow2; assumption). apply lor_shl; assumption.
Qed.
Lemma land_3 x : Z.land x 3 = x mod 4. Proof. change 3 with (Z.ones 2). apply Z.land_ones. lia. Qed.
Lemma land_15 x : Z.land x 15 = x mod 16. Proof. change 15 with (Z.ones 4). apply Z.land_ones. lia. Qed.
Lemma land_63 x : Z.land x 63 = x mod 64. Proof. change 63 with (Z.ones 6). apply Z.land_ones. lia. Qed.
Lemma land_255 x : Z.land x 0xff = x mod 256. Proof. change 0xff with (Z.ones 8). apply Z.land_ones. lia. Qed.
Lemma shr_div x n : 0 <= n -> Z.shiftr x n = x / 2 ^ n. Proof. apply Z.shiftr_div_pow2. Qed.

Definition small_limbs (f : fieldVal) : Prop :=
  in26 (n0 f) /\ in26 (n1 f) /\ in26 (n2 f) /\ in26 (n3 f) /\ in26 (n4 f) /\ in26 (n5 f) /\ in26 (n6 f) /\ in26 (n7 f)
  /\ in26 (n8 f) /\ 0 <= n9 f < 2 ^ 22.
Lemma small_fits f : small_limbs f -> fits 1 f.
Proof. unfold small_limbs, in26, fits. lia. Qed.
Lemma canonical_small f : canonical f <-> small_limbs f /\ val f < P.
Proof. unfold canonical, small_limbs, in26. tauto. Qed.

Lemma beval_cons0 x l : beval (x :: l) = x * 256 ^ Z.of_nat (length l) + beval l.
Proof. apply beval_cons. Qed.

Ltac setlimb :=
  repeat match goal with |- context [Z.lor ?x (u32 (Z.shiftl ?y ?n))] =>
    lazymatch x with context [Z.lor] => fail | _ => rewrite (lor_u32 x y n); [|lia|lia|lia] end end.

Lemma setBytes_ok bs : length bs = 32%nat -> bytes_ok bs ->
  small_limbs (fSetBytes bs) /\ val (fSetBytes bs) = beval bs.
Proof.
  intros L B. unfold bytes_ok in B.
  do 32 (destruct bs as [|? bs]; [discriminate|]). destruct bs; [|discriminate]. clear L.
  repeat match goal with H : Forall _ (_ :: _) |- _ => apply Forall_cons_iff in H; destruct H end.
  unfold is_byte in *. unfold fSetBytes. cbn [nth].
  rewrite ?land_3, ?land_15, ?land_63. rewrite !shr_div by lia.
  repeat match goal with |- context [?x mod ?m] =>
     assert (x = m * (x / m) + x mod m) by (apply Z.div_mod; discriminate);
     assert (0 <= x mod m < m) by (apply Z.mod_pos_bound; reflexivity);
     let r := fresh "r" in set (r := x mod m) in *; clearbody r;
     let q := fresh "q" in set (q := x / m) in *; 
     change (x / 2 ^ Z.log2 m) with q; clearbody q end.
  setlimb.
  split.
  - unfold small_limbs, in26. fcbn. repeat split; lia.
  - unfold val. fcbn. rewrite !beval_cons0. cbn [length]. change (beval []) with 0.
    repeat match goal with |- context [256 ^ Z.of_nat ?n] => let v := eval vm_compute in (256 ^ Z.of_nat n) in change (256 ^ Z.of_nat n) with v end.
    lia.
Qed.
Lemma dec0 n : in26 n -> n = n mod 256 + 2 ^ 8 * ((n / 2 ^ 8) mod 256) + 2 ^ 16 * ((n / 2 ^ 16) mod 256) + 2 ^ 24 * ((n / 2 ^ 24) mod 4).
Proof. unfold in26. lia. Qed.
Lemma dec1 n : in26 n -> n = n mod 64 + 2 ^ 6 * ((n / 2 ^ 6) mod 256) + 2 ^ 14 * ((n / 2 ^ 14) mod 256) + 2 ^ 22 * ((n / 2 ^ 22) mod 16).
Proof. unfold in26. lia. Qed.
Lemma dec2 n : in26 n -> n = n mod 16 + 2 ^ 4 * ((n / 2 ^ 4) mod 256) + 2 ^ 12 * ((n / 2 ^ 12) mod 256) + 2 ^ 20 * ((n / 2 ^ 20) mod 64).
Proof. unfold in26. lia. Qed.
Lemma dec3 n : in26 n -> n = n mod 4 + 2 ^ 2 * ((n / 2 ^ 2) mod 256) + 2 ^ 10 * ((n / 2 ^ 10) mod 256) + 2 ^ 18 * ((n / 2 ^ 18) mod 256).
Proof. unfold in26. lia. Qed.
Lemma dec9 n : 0 <= n < 2 ^ 22 -> n = n mod 64 + 2 ^ 6 * ((n / 2 ^ 6) mod 256) + 2 ^ 14 * ((n / 2 ^ 14) mod 256).
Proof. intros. lia. Qed.
Lemma bytes_bytes f : bytes_ok (fBytes f) /\ length (fBytes f) = 32%nat.
Proof.
  split; [|reflexivity]. unfold fBytes, bytes_ok, is_byte.
  repeat (apply Forall_cons; [apply Z.mod_pos_bound; reflexivity|]). apply Forall_nil.
Qed.
Lemma orbyte x y a n : 0 <= n -> a = 2 ^ n -> 0 <= x < a -> 0 <= y -> (y + 1) * a <= 256 ->
  Z.lor x (u32 (Z.shiftl y n)) mod 256 = x + y * a.
Proof.
  intros Hn -> Hx Hy Hy2. assert (0 <= y * 2 ^ n) by (apply Z.mul_nonneg_nonneg; lia).
  rewrite lor_u32 by lia. apply Z.mod_small. lia.
Qed.
Lemma bytes_val f : small_limbs f -> beval (fBytes f) = val f.
Proof.
  destruct f as [f0 f1 f2 f3 f4 f5 f6 f7 f8 f9]. unfold small_limbs. fcbn. intros (I0&I1&I2&I3&I4&I5&I6&I7&I8&I9).
  unfold fBytes. fcbn. rewrite ?land_3, ?land_15, ?land_63, ?land_255, ?Z.mod_mod by discriminate. rewrite !shr_div by lia.
  rewrite !(orbyte _ _ 4 2) by (try apply Z.mod_pos_bound; lia).
  rewrite !(orbyte _ _ 64 6) by (try apply Z.mod_pos_bound; lia).
  rewrite !(orbyte _ _ 16 4) by (try apply Z.mod_pos_bound; lia).
  unfold val. fcbn.
  rewrite !beval_cons0. cbn [length]. change (beval []) with 0.
  repeat match goal with |- context [256 ^ Z.of_nat ?n] => let v := eval vm_compute in (256 ^ Z.of_nat n) in change (256 ^ Z.of_nat n) with v end.
  apply dec0 in I0. apply dec1 in I1. apply dec2 in I2. apply dec3 in I3. apply dec0 in I4. apply dec1 in I5. apply dec2 in I6.
  apply dec3 in I7. apply dec0 in I8. apply dec9 in I9.
  repeat match goal with
  | H : ?f = ?a + _ * ?b + _ * ?c + _ * ?d |- _ =>
      let x := fresh "x" in let y := fresh "x" in let z := fresh "x" in let w := fresh "x" in
      set (x := a) in *; set (y := b) in *; set (z := c) in *; set (w := d) in *; clearbody x y z w; subst f
  | H : ?f = ?a + _ * ?b + _ * ?c |- _ =>
      let x := fresh "x" in let y := fresh "x" in let z := fresh "x" in
      set (x := a) in *; set (y := b) in *; set (z := c) in *; clearbody x y z; subst f
  end. ring.
Qed.

Lemma small_inj f g : small_limbs f -> small_limbs g -> val f = val g -> f = g.
Proof.
  intros A B E.
  assert (T : forall h, small_limbs h -> eval26 [n0 h;n1 h;n2 h;n3 h;n4 h;n5 h;n6 h;n7 h;n8 h;n9 h] = val h).
  { intros h _. cbn [eval26]. unfold val. ring. }
  pose proof (T f A) as TA. pose proof (T g B) as TB. rewrite E, <- TB in TA. clear T TB E.
  destruct f as [f0 f1 f2 f3 f4 f5 f6 f7 f8 f9], g as [g0 g1 g2 g3 g4 g5 g6 g7 g8 g9].
  unfold small_limbs, in26 in *. cbn [n0 n1 n2 n3 n4 n5 n6 n7 n8 n9 eval26] in *.
  destruct A as (A0&A1&A2&A3&A4&A5&A6&A7&A8&A9), B as (B0&B1&B2&B3&B4&B5&B6&B7&B8&B9).
  do 9 (apply digit in TA; [|assumption|assumption]; destruct TA as [-> TA]).
  assert (f9 = g9) by lia. subst. reflexivity.
Qed.
Lemma be_bytes_beval bs : bytes_ok bs -> be_bytes (length bs) (beval bs) = bs.
Proof.
  induction bs as [|x bs IH] using rev_ind; intros B; [reflexivity|].
  apply Forall_app in B. destruct B as [B1 B2]. apply Forall_cons_iff in B2. destruct B2 as [B2 _]. unfold is_byte in B2.
  rewrite app_length, beval_snoc. cbn [length]. rewrite Nat.add_1_r. cbn [be_bytes].
  replace ((beval bs * 256 + x) / 256) with (beval bs) by lia. replace ((beval bs * 256 + x) mod 256) with x by lia.
  rewrite IH by exact B1. reflexivity.
Qed.
Lemma setBytes_bytes bs : length bs = 32%nat -> bytes_ok bs ->
  val (fSetBytes bs) = beval bs /\ fBytes (fNormalize (fSetBytes bs)) = be_bytes 32 (beval bs mod P).
Proof.
  intros L B. destruct (setBytes_ok bs L B) as [S V]. split; [exact V|].
  destruct (normalize_ok 1 (fSetBytes bs)) as [C N]; [lia|apply small_fits, S|].
  apply canonical_small in C. destruct C as [C _].
  destruct (bytes_bytes (fNormalize (fSetBytes bs))) as [B1 L1].
  rewrite <- V, <- N, <- (bytes_val _ C). rewrite <- L1. symmetry. apply be_bytes_beval, B1.
Qed.
Lemma bytes_setBytes f : canonical f ->
  length (fBytes f) = 32%nat /\ bytes_ok (fBytes f) /\ beval (fBytes f) = val f /\ fSetBytes (fBytes f) = f.
Proof.
  intros C. apply canonical_small in C. destruct C as [C _].
  destruct (bytes_bytes f) as [B L]. split; [exact L|]. split; [exact B|]. pose proof (bytes_val f C) as V. split; [exact V|].
  destruct (setBytes_ok _ L B) as [S V2]. apply small_inj; [exact S|exact C|congruence].
Qed.
Lemma beval_zeros n bs : beval (repeat 0 n ++ bs) = beval bs.
Proof. induction n as [|n IH]; cbn [repeat app]; [reflexivity|]. rewrite beval_cons, IH. lia. Qed.
Lemma setByteSlice_small bs : bytes_ok bs -> blen bs <= 32 ->
  exists f, fSetByteSlice bs = Ok f /\ val f = beval bs /\ small_limbs f.
Proof.
  intros B H. unfold blen in *. unfold fSetByteSlice, blen. destruct (32 <? Z.of_nat (length bs)) eqn:E; [apply Z.ltb_lt in E; lia|].
  eexists. split; [reflexivity|].
  destruct (setBytes_ok (repeat 0 (32 - length bs) ++ bs)) as [S V].
  - rewrite app_length, repeat_length. lia.
  - apply Forall_app. split; [|exact B]. apply Forall_forall. intros x Hx. apply repeat_spec in Hx. subst. unfold is_byte. lia.
  - rewrite V, beval_zeros. split; [reflexivity|exact S].
Qed.
Lemma setByteSlice_ok bs : bytes_ok bs ->
  (blen bs <= 32 -> exists f, fSetByteSlice bs = Ok f /\ val f = beval bs /\ fits 1 f) /\
  (32 < blen bs -> fSetByteSlice bs = Panic).
Proof.
  intros B. split.
  - intros H. destruct (setByteSlice_small bs B H) as (f&?&?&?). exists f. auto using small_fits.
  - intros H. unfold fSetByteSlice. apply Z.ltb_lt in H. rewrite H. reflexivity.
Qed.
