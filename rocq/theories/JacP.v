(** * The Jacobian formulas instantiated at the field Z/P (proof only) *)
From Coq Require Import ZArith Lia.
From Verif Require Import NumTheory Primes Spec FieldP CurveZ CurveGroup Jac FastMul.
From Verif Require ECGroup.
Open Scope Z_scope.

Notation ejaff := (jaff Fp fmul fdiv).
Definition ejdbl_ok := jdbl_ok Fp f0 f1 fadd fmul fsub fopp fdiv finv Fp_field Feq_dec f_two_nz.
Definition ejadd_ok := jadd_ok Fp f0 f1 fadd fmul fsub fopp fdiv finv Fp_field Feq_dec f_two_nz.
Definition ejadd_opp := jadd_opp Fp f0 f1 fadd fmul fsub fopp fdiv finv Fp_field Feq_dec fb.
Definition ejadd_eq := jadd_eq Fp f0 f1 fadd fmul fsub fopp fdiv finv Fp_field Feq_dec.
Definition ejcoz_ok := jcoz_ok Fp f0 f1 fadd fmul fsub fopp fdiv finv Fp_field Feq_dec.
Definition ejaff_1 := jaff_1 Fp f0 f1 fadd fmul fsub fopp fdiv finv Fp_field.
Definition ejaff_nz X Y Z := jaff_onc_nz Fp f0 f1 fadd fmul fsub fopp fdiv finv Fp_field fb X Y Z f_no_two_torsion.
Definition ediv_eq_iff := j_div_eq_iff Fp f0 f1 fadd fmul fsub fopp fdiv finv Fp_field Feq_dec.
Definition emul_nz := j_mul_nz Fp f0 f1 fadd fmul fsub fopp fdiv finv Fp_field Feq_dec.

(** [X,Y,Z] represents the point [e] *)
Definition jrep (X Y Z : Fp) (e : ept) : Prop :=
  (Z = f0 /\ e = EInf) \/ (Z <> f0 /\ e = ejaff X Y Z).

Lemma fz_2 : fz 2 = fadd f1 f1. Proof. unfold f1. rewrite <- fz_add. reflexivity. Qed.
Lemma fz_3 : fz 3 = fadd (fadd f1 f1) f1. Proof. rewrite <- fz_2. unfold f1. rewrite <- fz_add. reflexivity. Qed.
Lemma fz_4 : fz 4 = fmul (fadd f1 f1) (fadd f1 f1). Proof. rewrite <- fz_2, <- fz_mul. reflexivity. Qed.
Lemma fz_8 : fz 8 = fmul (fmul (fadd f1 f1) (fadd f1 f1)) (fadd f1 f1). Proof. rewrite <- fz_2, <- !fz_mul. reflexivity. Qed.
Lemma fz_eq0 x : fz x = f0 <-> x mod P = 0.
Proof. unfold f0. rewrite fz_eq_iff. rewrite (Z.mod_0_l P) by (pose proof P_pos; lia). reflexivity. Qed.

