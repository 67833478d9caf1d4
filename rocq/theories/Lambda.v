(** * phi is multiplication by lambda; H = hk * G (proof only) *)
From Coq Require Import ZArith Znumtheory Lia.
From Verif Require Import NumTheory Primes Spec FieldP CurveZ CurveGroup EndoP Order.
Open Scope Z_scope.

Definition lambda : Z := 0x5363AD4CC05C30E0A5261C028812645A122E22EA20816678DF02967C1B23BD72.
Lemma lambda_rel : (a1 + b1 * lambda) mod N = 0. Proof. vm_compute. reflexivity. Qed.
Lemma b1_nz : b1 mod N <> 0. Proof. vm_compute. discriminate. Qed.
Lemma phi_G : phi G = smul lambda G.
Proof.
  destruct (cyclic (phi G)) as [m [_ E]]; [auto with pt|]. rewrite E. apply smul_G_inj.
  pose proof rel1 as R. rewrite E, <- smul_mul, <- smul_add in R by auto with pt. apply smul_G_O in R.
  pose proof lambda_rel as L. pose proof b1_nz as B. revert R L B. generalize a1 b1 lambda. intros a b l R L B.
  pose proof N_pos as HN. apply (mul_cancel_mod N b); [exact prime_N|exact B|].
  apply Z.mod_divide in R, L; try lia. destruct R as [u R], L as [v L].
  replace (b * m) with (b * l + (u - v) * N) by lia. apply Z.mod_add. lia.
Qed.
Lemma phi_lambda p : is_point p -> phi p = smul lambda p.
Proof.
  intros H. destruct (cyclic p H) as [k [_ ->]]. rewrite phi_smul, phi_G by auto with pt.
  rewrite <- !smul_mul by auto with pt. f_equal. apply Z.mul_comm.
Qed.
Lemma hk_glv : (-0x6c33635008e7786e14085f345efc858a + 0x36ffd29a265a5d13be850a973ede79a3 * lambda) mod N = hk mod N.
Proof. vm_compute. reflexivity. Qed.
Lemma H_on_curve : on_curve Hpt. Proof. exact (proj2 Hpt_glv). Qed.
Lemma H_dlog : Hpt = smul hk G.
Proof.
  destruct Hpt_glv as [E _]. rewrite <- E. pose proof hk_glv as K. revert K.
  generalize (-0x6c33635008e7786e14085f345efc858a) 0x36ffd29a265a5d13be850a973ede79a3 hk. intros a b h K.
  unfold cpt. rewrite phi_G, <- smul_mul, <- smul_add by auto with pt. apply smul_G_inj. exact K.
Qed.
Lemma is_point_H : is_point Hpt. Proof. right. exact H_on_curve. Qed.
#[export] Hint Resolve is_point_H : pt.
