(** * The field of integers modulo N as a Coq field (proof infrastructure) *)
From Coq Require Import ZArith Znumtheory List Lia Bool Field Ring Eqdep_dec.
From Verif Require Import NumTheory Primes Spec FieldP SpecZk.
Open Scope Z_scope.


Definition inN (z : Z) : bool := (0 <=? z) && (z <? N).
Definition Fn : Type := {z : Z | inN z = true}.

Lemma inN_mod z : inN (z mod N) = true.
Proof.
  unfold inN. pose proof (Z.mod_pos_bound z N N_pos). apply andb_true_iff. split; [apply Z.leb_le|apply Z.ltb_lt]; lia.
Qed.
Definition nz (z : Z) : Fn := exist _ (z mod N) (inN_mod z).
Definition nv (a : Fn) : Z := proj1_sig a.

Lemma nv_bound a : 0 <= nv a < N.
Proof. destruct a as [z H]; cbn. unfold inN in H. apply andb_true_iff in H. destruct H as [H1 H2]. apply Z.leb_le in H1. apply Z.ltb_lt in H2. lia. Qed.
Lemma nv_nz z : nv (nz z) = z mod N. Proof. reflexivity. Qed.
Lemma nv_inj a b : nv a = nv b -> a = b.
Proof.
  destruct a as [x Hx], b as [y Hy]; cbn. intros ->. f_equal. apply UIP_dec. apply bool_dec.
Qed.
Lemma nz_nv a : nz (nv a) = a.
Proof. apply nv_inj. rewrite nv_nz. apply Z.mod_small, nv_bound. Qed.
Lemma nz_eq x y : x mod N = y mod N -> nz x = nz y.
Proof. intros H. apply nv_inj. exact H. Qed.
Lemma nz_eq_iff x y : nz x = nz y <-> x mod N = y mod N.
Proof. split; [|apply nz_eq]. intros H. apply (f_equal nv) in H. exact H. Qed.
Lemma nz_mod x : nz (x mod N) = nz x.
Proof. apply nz_eq. apply Zmod_mod. Qed.

Definition n0 : Fn := nz 0.
Definition n1 : Fn := nz 1.
Definition nadd (a b : Fn) : Fn := nz (nv a + nv b).
Definition nmul (a b : Fn) : Fn := nz (nv a * nv b).
Definition nsub (a b : Fn) : Fn := nz (nv a - nv b).
Definition nopp (a : Fn) : Fn := nz (- nv a).
Definition ninvF (a : Fn) : Fn := nz (ninv (nv a)).
Definition ndiv (a b : Fn) : Fn := nmul a (ninvF b).

Lemma nz_add x y : nz (x + y) = nadd (nz x) (nz y).
Proof. unfold nadd. apply nz_eq. rewrite !nv_nz. apply Zplus_mod. Qed.
Lemma nz_mul x y : nz (x * y) = nmul (nz x) (nz y).
Proof. unfold nmul. apply nz_eq. rewrite !nv_nz. apply Zmult_mod. Qed.
Lemma nz_sub x y : nz (x - y) = nsub (nz x) (nz y).
Proof. unfold nsub. apply nz_eq. rewrite !nv_nz. apply Zminus_mod. Qed.
Lemma nz_opp x : nz (- x) = nopp (nz x).
Proof.
  unfold nopp. apply nz_eq. rewrite nv_nz. rewrite <- (Z.sub_0_l x), <- (Z.sub_0_l (x mod N)), Zminus_mod_idemp_r. reflexivity.
Qed.

Lemma pow_mod_powm m a e : pow_mod m a e = powm_pos m a e.
Proof. induction e as [e IH|e IH|]; cbn [pow_mod powm_pos]; rewrite ?IH; reflexivity. Qed.
Lemma ninv_pow a : ninv a = a ^ (N - 2) mod N.
Proof. unfold ninv. rewrite pow_mod_powm, powm_pos_ok. reflexivity. Qed.
Lemma ninv_ok a : a mod N <> 0 -> (ninv a * a) mod N = 1.
Proof.
  intros H. rewrite ninv_pow. rewrite Zmult_mod_idemp_l.
  rewrite Z.mul_comm, <- Z.pow_succ_r by (pose proof N_gt2; lia).
  replace (Z.succ (N - 2)) with (N - 1) by lia. apply fermat; [apply prime_N|exact H].
Qed.
Lemma ninv_mod a : ninv (a mod N) = ninv a.
Proof. rewrite !ninv_pow. apply pow_mod_idemp. pose proof N_gt2; lia. Qed.
Lemma nz_inv a : nz (ninv a) = ninvF (nz a).
Proof. unfold ninvF. rewrite nv_nz, ninv_mod. reflexivity. Qed.

Lemma Fn_field : field_theory n0 n1 nadd nmul nsub nopp ndiv ninvF (@eq Fn).
Proof.
  constructor.
  - constructor; intros; apply nv_inj; unfold n0, n1, nadd, nmul, nsub, nopp; rewrite ?nv_nz;
      repeat first [rewrite Zplus_mod_idemp_l | rewrite Zplus_mod_idemp_r | rewrite Zmult_mod_idemp_l | rewrite Zmult_mod_idemp_r].
    + rewrite Z.add_0_l. apply Z.mod_small, nv_bound.
    + f_equal; ring.
    + f_equal; ring.
    + rewrite Z.mul_1_l. apply Z.mod_small, nv_bound.
    + f_equal; ring.
    + f_equal; ring.
    + f_equal; ring.
    + f_equal; ring.
    + f_equal; ring.
  - intros E. apply (f_equal nv) in E. unfold n0, n1 in E. rewrite !nv_nz in E.
    rewrite !Z.mod_small in E by (pose proof N_gt2; lia). lia.
  - reflexivity.
  - intros a Ha. apply nv_inj. unfold nmul, ninvF, n1. rewrite !nv_nz. rewrite Zmult_mod_idemp_l.
    rewrite ninv_ok; [symmetry; apply Z.mod_small; pose proof N_gt2; lia|].
    intros E. apply Ha. apply nv_inj. unfold n0. rewrite nv_nz, Zmod_0_l.
    rewrite Z.mod_small in E by apply nv_bound. exact E.
Qed.

Definition Fneq_dec (a b : Fn) : {a = b} + {a <> b}.
Proof.
  destruct (Z.eq_dec (nv a) (nv b)) as [e|n]; [left; apply nv_inj; exact e|right; congruence].
Defined.
Add Field FnF : Fn_field.
(** to prove an equality modulo N, prove it in the field *)
Lemma nz_goal a b : nz a = nz b -> a mod N = b mod N. Proof. apply nz_eq_iff. Qed.
Lemma nz_0 : nz 0 = n0. Proof. reflexivity. Qed.
Lemma nz_1 : nz 1 = n1. Proof. reflexivity. Qed.
Lemma nz_m1 : nz (-1) = nopp n1. Proof. change (-1) with (Z.opp 1). rewrite nz_opp. reflexivity. Qed.
Ltac nzpush := repeat first
  [rewrite nz_mod|rewrite nz_add|rewrite nz_mul|rewrite nz_sub|rewrite nz_opp|rewrite nz_inv|rewrite nz_0|rewrite nz_1|rewrite nz_m1].
Ltac nzpush_in H := repeat first
  [rewrite nz_mod in H|rewrite nz_add in H|rewrite nz_mul in H|rewrite nz_sub in H|rewrite nz_opp in H|rewrite nz_inv in H|rewrite nz_0 in H|rewrite nz_1 in H|rewrite nz_m1 in H].
Lemma nz_neq a b : a mod N <> b mod N -> nsub (nz a) (nz b) <> n0.
Proof.
  intros H E. apply H. apply nz_eq_iff. transitivity (nadd (nsub (nz a) (nz b)) (nz b)); [ring|rewrite E; ring].
Qed.
Lemma nz_nz a : a mod N <> 0 -> nz a <> n0.
Proof. intros H E. apply H. apply nz_eq_iff in E. rewrite E. reflexivity. Qed.
Lemma nv_scalar a : scalar (nv a). Proof. apply nv_bound. Qed.
Lemma nv_mod_eq u z : scalar u -> nz z = nz u -> z mod N = u.
Proof. intros Hu E. apply nz_eq_iff in E. rewrite E. apply Z.mod_small. exact Hu. Qed.

(** linear combinations of hypotheses *)
Lemma ncomb l r e a b : l = r -> nsub a b = nmul e (nsub l r) -> a = b.
Proof. intros -> H. transitivity (nadd (nsub a b) b); [ring|rewrite H; ring]. Qed.
Lemma ncomb2 l r e l' r' e' a b : l = r -> l' = r' -> nsub a b = nadd (nmul e (nsub l r)) (nmul e' (nsub l' r')) -> a = b.
Proof. intros -> -> H. transitivity (nadd (nsub a b) b); [ring|rewrite H; ring]. Qed.
Ltac lin E e := apply (ncomb _ _ e _ _ E); ring.
Ltac lin2 E e E' e' := apply (ncomb2 _ _ e _ _ e' _ _ E E'); ring.
