(** * The secp256k1 endomorphism, N * G = O and the point H (proof only) *)
From Coq Require Import ZArith Znumtheory List Lia Bool.
From Verif Require Import NumTheory Primes Spec FieldP CurveZ CurveGroup FastMul GMult.
From Verif Require ECGroup Endo.
Import ListNotations.
Open Scope Z_scope.

Definition beta : Z := 0x7AE96A2B657C07106E64479EAC3434E99CF0497512F58995C1396C28719501EE.
Definition phi (p : point) : point := ((beta * fst p) mod P, snd p).

Lemma beta_sq : (beta * beta) mod P = (- beta - 1) mod P.
Proof. apply eqP_ok. vm_compute. reflexivity. Qed.
Notation fbeta := (fz beta).
Lemma fbeta_sq : fmul fbeta fbeta = fsub (fopp fbeta) f1.
Proof. unfold f1. rewrite <- fz_mul, <- fz_opp, <- fz_sub. apply fz_eq. exact beta_sq. Qed.
Lemma fbeta_3 : fmul (fmul fbeta fbeta) fbeta = f1.
Proof.
  rewrite fbeta_sq. unfold f1. rewrite <- fz_opp, <- fz_sub, <- fz_mul. apply fz_eq.
  pose proof beta_sq as H. revert H. generalize beta. intros t H. pose proof P_pos as HP.
  assert (E : (t * t - (- t - 1)) mod P = 0).
  { rewrite Zminus_mod, H, Z.sub_diag. reflexivity. }
  apply Z.mod_divide in E; [|lia]. destruct E as [k E].
  replace ((- t - 1) * t) with (1 + (- k) * P) by lia. apply Z.mod_add. lia.
Qed.
Lemma beta_bound : 1 < beta < P. Proof. split; reflexivity. Qed.
Lemma fbeta_nz : fbeta <> f0.
Proof. intros E. apply fz_small_inj in E; pose proof beta_bound; pose proof P_gt2; lia. Qed.
Lemma fbeta_1 : fbeta <> f1.
Proof. intros E. apply fz_small_inj in E; pose proof beta_bound; pose proof P_gt2; lia. Qed.
Definition ephi : ept -> ept := Endo.phi Fp fmul fbeta.
Definition ephi_add p q := Endo.phi_add Fp f0 f1 fadd fmul fsub fopp fdiv finv Fp_field Feq_dec fb fbeta f_two_nz f_no_two_torsion fbeta_3 fbeta_nz p q.
Definition ephi_onc p := Endo.phi_onc Fp f0 f1 fadd fmul fsub fopp fdiv finv Fp_field fb fbeta fbeta_3 p.
Definition ephi_sum x y := Endo.phi_sum Fp f0 f1 fadd fmul fsub fopp fdiv finv Fp_field Feq_dec fb fbeta fbeta_sq fbeta_1 x y.

Lemma phi_O : phi O = O.
Proof. reflexivity. Qed.
Lemma phi_fromE p : is_point p -> phi p = fromE (ephi (toE p)).
Proof.
  intros [->|H]; [reflexivity|]. rewrite on_curve_toE by exact H. destruct H as (Hx & Hy & _).
  unfold phi. cbn [ephi Endo.phi fromE]. rewrite <- fz_mul, !fv_fz. f_equal. symmetry. apply Z.mod_small; exact Hy.
Qed.
Lemma is_point_phi p : is_point p -> is_point (phi p).
Proof. intros H. rewrite phi_fromE by exact H. apply fromE_is_point, ephi_onc, is_point_eonc, H. Qed.
#[export] Hint Resolve is_point_phi : pt.
Lemma toE_phi p : is_point p -> toE (phi p) = ephi (toE p).
Proof. intros H. rewrite phi_fromE by exact H. apply toE_fromE, ephi_onc, is_point_eonc, H. Qed.
Lemma phi_padd p q : is_point p -> is_point q -> phi (padd p q) = padd (phi p) (phi q).
Proof.
  intros Hp Hq. apply toE_inj; auto with pt.
  rewrite toE_phi, toE_padd by auto with pt. rewrite toE_padd, !toE_phi by auto with pt.
  apply ephi_add; apply is_point_eonc; assumption.
Qed.
Lemma phi_pneg p : phi (pneg p) = pneg (phi p).
Proof. reflexivity. Qed.
Lemma phi_sum p : on_curve p -> fst p <> 0 -> padd p (phi p) = pneg (phi (phi p)).
Proof.
  intros H Hx. assert (Hp : is_point p) by (right; exact H). apply toE_inj; auto with pt.
  rewrite toE_padd, toE_phi by auto with pt.
  rewrite (pneg_fromE (phi (phi p))), toE_fromE, !toE_phi by auto using eonc_neg, is_point_eonc with pt.
  rewrite on_curve_toE by exact H. apply ephi_sum.
  - apply on_curve_eonc. exact H.
  - intros E. apply fz_small_inj in E; [contradiction|apply H|pose proof P_gt2; lia].
Qed.
Lemma phi_smul k p : is_point p -> phi (smul k p) = smul k (phi p).
Proof.
  intros Hp. assert (A : forall n, phi (smul (Zpos n) p) = smul (Zpos n) (phi p)).
  { intros n. induction n as [|n IH] using Pos.peano_ind.
    - rewrite !smul_1. reflexivity.
    - rewrite !smul_pos_succ, phi_padd, IH by auto with pt. reflexivity. }
  destruct k as [|n|n]; [reflexivity|apply A|]. change (Zneg n) with (- Zpos n).
  rewrite !smul_opp by auto with pt. rewrite phi_pneg, A. reflexivity.
Qed.

Definition a1 : Z := 0x3086D221A7D46BCDE86C90E49284EB15.
Definition b1 : Z := -0xE4437ED6010E88286F547FA90ABFE4C3.

Lemma is_point_G0 : is_point G. Proof. right. exact G_on_curve. Qed.
#[local] Hint Resolve is_point_G0 : pt.
(** a1 * G + b1 * phi(G) = O *)
Lemma rel1 : padd (smul a1 G) (smul b1 (phi G)) = O.
Proof.
  destruct (multG_ok _ _ _ _ mg_a1) as [HA EA]. destruct (multG_ok _ _ _ _ mg_b1) as [HB EB].
  unfold b1. change (-0xE4437ED6010E88286F547FA90ABFE4C3) with (Z.opp 0xE4437ED6010E88286F547FA90ABFE4C3).
  rewrite smul_opp, <- phi_smul, EB by auto with pt.
  assert (E : smul a1 G = phi (smul 0xE4437ED6010E88286F547FA90ABFE4C3 G)).
  { unfold a1. rewrite EA, EB. unfold phi. cbn [fst snd]. f_equal. }
  rewrite E, EB. apply padd_pneg_r. apply is_point_phi. right. exact HB.
Qed.
Lemma phi2_G : phi (phi G) = padd (pneg G) (pneg (phi G)).
Proof.
  rewrite <- pneg_padd by auto with pt. rewrite phi_sum; [|exact G_on_curve|discriminate].
  rewrite pneg_invol by auto with pt. reflexivity.
Qed.
Definition cpt (i j : Z) : point := padd (smul i G) (smul j (phi G)).
Lemma is_point_cpt i j : is_point (cpt i j).
Proof. unfold cpt. auto with pt. Qed.
Lemma cpt_smul k i j : smul k (cpt i j) = cpt (k * i) (k * j).
Proof. unfold cpt. rewrite smul_padd, !smul_mul by auto with pt. reflexivity. Qed.
Lemma padd4 p q r s : is_point p -> is_point q -> is_point r -> is_point s ->
  padd (padd p q) (padd r s) = padd (padd p r) (padd q s).
Proof.
  intros. rewrite !padd_assoc by auto with pt. f_equal. rewrite <- !padd_assoc by auto with pt.
  f_equal. apply padd_comm; assumption.
Qed.
Lemma cpt_add i j i' j' : padd (cpt i j) (cpt i' j') = cpt (i + i') (j + j').
Proof. unfold cpt. rewrite padd4, !smul_add by auto with pt. reflexivity. Qed.
Lemma phi_cpt i j : phi (cpt i j) = cpt (- j) (i - j).
Proof.
  unfold cpt. rewrite phi_padd, !phi_smul, phi2_G by auto with pt.
  rewrite smul_padd, !smul_pneg by auto with pt.
  replace (i - j) with (- j + i) by ring. rewrite smul_add, !smul_opp by auto with pt.
  rewrite <- padd_assoc by auto with pt.
  rewrite (padd_comm (smul i (phi G))) by auto with pt.
  rewrite !padd_assoc by auto with pt. f_equal. apply padd_comm; auto with pt.
Qed.
Lemma cpt_norm a b : padd (smul (a - b) (cpt a b)) (smul (- b) (phi (cpt a b))) = cpt (a * (a - b) + b * b) 0.
Proof.
  rewrite phi_cpt, !cpt_smul, cpt_add.
  replace ((a - b) * a + - b * - b) with (a * (a - b) + b * b) by ring.
  replace ((a - b) * b + - b * (a - b)) with 0 by ring. reflexivity.
Qed.
Lemma norm_N : a1 * (a1 - b1) + b1 * b1 = N. Proof. reflexivity. Qed.
Lemma rel1' : cpt a1 b1 = O. Proof. unfold cpt. exact rel1. Qed.
Lemma norm_kill x y : cpt x y = O -> smul (x * (x - y) + y * y) G = O.
Proof.
  intros E. pose proof (cpt_norm x y) as H. rewrite E, phi_O, !smul_O, padd_O_l in H.
  unfold cpt in H. rewrite smul_0, padd_O_r in H. symmetry. exact H.
Qed.
Lemma NG : smul N G = O.
Proof. rewrite <- norm_N. exact (norm_kill a1 b1 rel1'). Qed.

(** the point of zksigma.go l.49-59, and its discrete logarithm as computed there *)
Definition hk : Z := 0x94e35037c3705ca047e88b2bd1f3207987dba1fb4c817b9ebc943566dd637134.
Definition Hpt : point := (0x35ca4c6f77dcfb43606326491ce0333e251954ca12295a8cdccbaf5c91720e6e,
  0xb8fa9185eef6c9468920e9bba7aaa2cf3ea5cbea07de683372737825640b9d46).
Lemma glv_add a b pa pb l r : on_curve pa -> smul a G = pa -> on_curve pb -> smul b G = pb ->
  (inPb (norm (beta * fst pb)) && negb (norm (beta * fst pb) =? 0))%bool = true ->
  cadd l (snegb false pa) (norm (beta * fst pb), snd pb) = Some r -> cpt (- a) b = r /\ on_curve r.
Proof.
  intros Ha Ea Hb Eb. rewrite andb_true_iff, negb_true_iff, Z.eqb_neq. intros [B1 B2] C. unfold cpt.
  rewrite smul_opp, <- phi_smul, Ea, Eb by auto with pt.
  assert (Eq : phi pb = (norm (beta * fst pb), snd pb)) by (unfold phi; rewrite norm_ok by exact B1; reflexivity).
  rewrite <- Eq in C. rewrite <- snegb_pneg by exact Ha. apply (cadd_ok l); [| |exact C].
  - rewrite snegb_pneg by exact Ha. apply on_curve_pneg. exact Ha.
  - apply is_point_on_curve; [apply is_point_phi; right; exact Hb|]. rewrite Eq. exact B2.
Qed.
Lemma Hpt_glv : cpt (-0x6c33635008e7786e14085f345efc858a) 0x36ffd29a265a5d13be850a973ede79a3 = Hpt /\ on_curve Hpt.
Proof.
  destruct (multG_ok _ _ _ _ mg_k1) as [HA EA]. destruct (multG_ok _ _ _ _ mg_k2) as [HB EB].
  refine (glv_add _ _ _ _ 0x74d8ca147561e0d2acf739e06fb30e8d24ea17f973889aa6eeab2df296504913 _ HA EA HB EB _ _); vm_compute; reflexivity.
Qed.
