(** * The field of integers modulo P as a Coq field (proof infrastructure) *)
From Coq Require Import ZArith Znumtheory List Lia Bool Field Ring Eqdep_dec.
From Verif Require Import NumTheory Primes Spec.
Open Scope Z_scope.

Lemma prime_P : prime P.
Proof. exact prime_P_lit. Qed.
Lemma prime_N : prime N.
Proof. exact prime_N_lit. Qed.
Lemma P_pos : 0 < P. Proof. reflexivity. Qed.
Lemma P_gt2 : 2 < P. Proof. reflexivity. Qed.
Lemma N_pos : 0 < N. Proof. reflexivity. Qed.
Lemma N_gt2 : 2 < N. Proof. reflexivity. Qed.

Definition inF (z : Z) : bool := (0 <=? z) && (z <? P).
Definition Fp : Type := {z : Z | inF z = true}.

Lemma inF_mod z : inF (z mod P) = true.
Proof.
  unfold inF. pose proof (Z.mod_pos_bound z P P_pos). apply andb_true_iff. split; [apply Z.leb_le|apply Z.ltb_lt]; lia.
Qed.
Definition fz (z : Z) : Fp := exist _ (z mod P) (inF_mod z).
Definition fv (a : Fp) : Z := proj1_sig a.

Lemma fv_bound a : 0 <= fv a < P.
Proof. destruct a as [z H]; cbn. unfold inF in H. apply andb_true_iff in H. destruct H as [H1 H2]. apply Z.leb_le in H1. apply Z.ltb_lt in H2. lia. Qed.
Lemma fv_fz z : fv (fz z) = z mod P. Proof. reflexivity. Qed.
Lemma fv_inj a b : fv a = fv b -> a = b.
Proof.
  destruct a as [x Hx], b as [y Hy]; cbn. intros ->. f_equal. apply UIP_dec. apply bool_dec.
Qed.
Lemma fz_fv a : fz (fv a) = a.
Proof. apply fv_inj. rewrite fv_fz. apply Z.mod_small, fv_bound. Qed.
Lemma fz_eq x y : x mod P = y mod P -> fz x = fz y.
Proof. intros H. apply fv_inj. exact H. Qed.
Lemma fz_eq_iff x y : fz x = fz y <-> x mod P = y mod P.
Proof. split; [|apply fz_eq]. intros H. apply (f_equal fv) in H. exact H. Qed.
Lemma fz_mod x : fz (x mod P) = fz x.
Proof. apply fz_eq. apply Zmod_mod. Qed.

Definition f0 : Fp := fz 0.
Definition f1 : Fp := fz 1.
Definition fadd (a b : Fp) : Fp := fz (fv a + fv b).
Definition fmul (a b : Fp) : Fp := fz (fv a * fv b).
Definition fsub (a b : Fp) : Fp := fz (fv a - fv b).
Definition fopp (a : Fp) : Fp := fz (- fv a).
Definition finv (a : Fp) : Fp := fz (inv (fv a)).
Definition fdiv (a b : Fp) : Fp := fmul a (finv b).

Lemma fz_add x y : fz (x + y) = fadd (fz x) (fz y).
Proof. unfold fadd. apply fz_eq. rewrite !fv_fz. apply Zplus_mod. Qed.
Lemma fz_mul x y : fz (x * y) = fmul (fz x) (fz y).
Proof. unfold fmul. apply fz_eq. rewrite !fv_fz. apply Zmult_mod. Qed.
Lemma fz_sub x y : fz (x - y) = fsub (fz x) (fz y).
Proof. unfold fsub. apply fz_eq. rewrite !fv_fz. apply Zminus_mod. Qed.
Lemma fz_opp x : fz (- x) = fopp (fz x).
Proof.
  unfold fopp. apply fz_eq. rewrite fv_fz. rewrite <- (Z.sub_0_l x), <- (Z.sub_0_l (x mod P)), Zminus_mod_idemp_r. reflexivity.
Qed.

Lemma pow_mod_powm m a e : pow_mod m a e = powm_pos m a e.
Proof. induction e as [e IH|e IH|]; cbn [pow_mod powm_pos]; rewrite ?IH; reflexivity. Qed.
Lemma inv_pow a : inv a = a ^ (P - 2) mod P.
Proof. unfold inv. rewrite pow_mod_powm, powm_pos_ok. reflexivity. Qed.
Lemma inv_ok a : a mod P <> 0 -> (inv a * a) mod P = 1.
Proof.
  intros H. rewrite inv_pow. rewrite Zmult_mod_idemp_l.
  rewrite Z.mul_comm, <- Z.pow_succ_r by (pose proof P_gt2; lia).
  replace (Z.succ (P - 2)) with (P - 1) by lia. apply fermat; [apply prime_P|exact H].
Qed.
Lemma inv_mod a : inv (a mod P) = inv a.
Proof. rewrite !inv_pow. apply pow_mod_idemp. pose proof P_gt2; lia. Qed.
Lemma fz_inv a : fz (inv a) = finv (fz a).
Proof. unfold finv. rewrite fv_fz, inv_mod. reflexivity. Qed.

Lemma Fp_field : field_theory f0 f1 fadd fmul fsub fopp fdiv finv (@eq Fp).
Proof.
  constructor.
  - constructor; intros; apply fv_inj; unfold f0, f1, fadd, fmul, fsub, fopp; rewrite ?fv_fz;
      repeat first [rewrite Zplus_mod_idemp_l | rewrite Zplus_mod_idemp_r | rewrite Zmult_mod_idemp_l | rewrite Zmult_mod_idemp_r].
    + rewrite Z.add_0_l. apply Z.mod_small, fv_bound.
    + f_equal; ring.
    + f_equal; ring.
    + rewrite Z.mul_1_l. apply Z.mod_small, fv_bound.
    + f_equal; ring.
    + f_equal; ring.
    + f_equal; ring.
    + f_equal; ring.
    + f_equal; ring.
  - intros E. apply (f_equal fv) in E. unfold f0, f1 in E. rewrite !fv_fz in E.
    rewrite !Z.mod_small in E by (pose proof P_gt2; lia). lia.
  - reflexivity.
  - intros a Ha. apply fv_inj. unfold fmul, finv, f1. rewrite !fv_fz. rewrite Zmult_mod_idemp_l.
    rewrite inv_ok; [symmetry; apply Z.mod_small; pose proof P_gt2; lia|].
    intros E. apply Ha. apply fv_inj. unfold f0. rewrite fv_fz, Zmod_0_l.
    rewrite Z.mod_small in E by apply fv_bound. exact E.
Qed.

Definition Feq_dec (a b : Fp) : {a = b} + {a <> b}.
Proof.
  destruct (Z.eq_dec (fv a) (fv b)) as [e|n]; [left; apply fv_inj; exact e|right; congruence].
Defined.
