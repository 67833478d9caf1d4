(** * Jacobian-coordinate formulas over an arbitrary field (proof only)

    [jaff X Y Z] is the affine point (X/Z^2, Y/Z^3).  The lemmas say that the
    Jacobian doubling and addition formulas used in /repo/btcec/btcec.go compute
    the chord-and-tangent addition of [ECGroup]. *)
From Coq Require Import Ring Field.
From Verif Require Import ECGroup.

Section Jac.
Variable F : Type.
Variables (f0 f1 : F) (fadd fmul fsub : F -> F -> F) (fopp : F -> F)
          (fdiv : F -> F -> F) (finv : F -> F).
Variable Fth : field_theory f0 f1 fadd fmul fsub fopp fdiv finv (@eq F).
Variable Fdec : forall x y : F, {x = y} + {x <> y}.
Add Field jac_field : Fth.
Local Infix "+" := fadd. Local Infix "*" := fmul. Local Infix "-" := fsub.
Local Infix "/" := fdiv. Local Notation "- x" := (fopp x).
Local Notation "0" := f0. Local Notation "1" := f1.
Variable b : F.
Hypothesis two_nz : 1 + 1 <> 0.

Local Notation "2" := (1 + 1).
Local Notation "3" := (1 + 1 + 1).
Local Notation "4" := ((1 + 1) * (1 + 1)).
Local Notation "8" := ((1 + 1) * (1 + 1) * (1 + 1)).
Local Notation pt := (pt F).
Local Notation Aff := (Aff F).
Local Notation Inf := (Inf F).
Local Notation padd := (padd F f0 f1 fadd fmul fsub fdiv Fdec).
Local Notation onc := (onc F fadd fmul b).

Definition jaff (X Y Z : F) : pt := Aff (X / (Z * Z)) (Y / (Z * Z * Z)).

Lemma j_integral x y : x * y = 0 -> x = 0 \/ y = 0.
Proof. apply (f_integral F f0 f1 fadd fmul fsub fopp fdiv finv Fth Fdec). Qed.
Lemma j_mul_nz x y : x <> 0 -> y <> 0 -> x * y <> 0.
Proof. intros Hx Hy E. destruct (j_integral _ _ E); contradiction. Qed.
Lemma j_cancel x y z : z <> 0 -> x * z = y * z -> x = y.
Proof. intros Hz E. transitivity (x * z / z); [field; exact Hz|]. rewrite E. field; exact Hz. Qed.
Lemma j_sub_eq x y : x - y = 0 -> x = y.
Proof. intros E. transitivity (x - y + y); [ring|]. rewrite E. ring. Qed.
Lemma j_sub_nz x y : x <> y -> x - y <> 0.
Proof. intros H E. apply H, j_sub_eq; exact E. Qed.
Lemma j_div_eq_iff a b' c d : b' <> 0 -> d <> 0 -> (a / b' = c / d <-> a * d = c * b').
Proof.
  intros Hb Hd. split; intros E.
  - transitivity (a / b' * (b' * d)); [field; exact Hb|]. rewrite E. field; exact Hd.
  - apply (j_cancel _ _ (b' * d)); [apply j_mul_nz; assumption|].
    transitivity (a * d); [field; exact Hb|]. rewrite E. field; exact Hd.
Qed.
Lemma aff_eq a b' c d : a = c -> b' = d -> Aff a b' = Aff c d.
Proof. intros -> ->. reflexivity. Qed.
Lemma aff_inj a b' c d : Aff a b' = Aff c d -> a = c /\ b' = d.
Proof. intros E. inversion E. split; reflexivity. Qed.

Ltac fnz := repeat (assumption || match goal with
  | |- _ /\ _ => split
  | |- fmul _ _ <> f0 => apply j_mul_nz end).

Lemma jdbl_ok X Y Z : Z <> 0 -> Y <> 0 ->
  let X3 := (3 * (X * X)) * (3 * (X * X)) - 8 * (X * (Y * Y)) in
  let Y3 := (3 * (X * X)) * (4 * (X * (Y * Y)) - X3) - 8 * (Y * Y * (Y * Y)) in
  let Z3 := 2 * (Y * Z) in
  padd (jaff X Y Z) (jaff X Y Z) = jaff X3 Y3 Z3 /\ Z3 <> 0.
Proof.
  intros HZ HY X3 Y3 Z3. split; [|unfold Z3; fnz]. unfold jaff. cbn [ECGroup.padd].
  destruct (Fdec (X / (Z * Z)) (X / (Z * Z))) as [_|n]; [|congruence].
  destruct (Fdec (Y / (Z * Z * Z) + Y / (Z * Z * Z)) 0) as [e|n].
  - exfalso. assert (E : 2 * Y = 0).
    { transitivity ((Y / (Z * Z * Z) + Y / (Z * Z * Z)) * (Z * Z * Z)); [field; fnz|]. rewrite e. ring. }
    destruct (j_integral _ _ E); contradiction.
  - unfold Z3, Y3, X3. apply aff_eq; field; fnz.
Qed.

Lemma jadd_ok X1 Y1 Z1 X2 Y2 Z2 : Z1 <> 0 -> Z2 <> 0 ->
  let U1 := X1 * (Z2 * Z2) in let U2 := X2 * (Z1 * Z1) in
  let S1 := Y1 * (Z2 * Z2 * Z2) in let S2 := Y2 * (Z1 * Z1 * Z1) in
  let H := U2 - U1 in let I := 4 * (H * H) in let J := H * I in
  let r := 2 * (S2 - S1) in let V := U1 * I in
  let X3 := r * r - J - 2 * V in
  let Y3 := r * (V - X3) - 2 * (S1 * J) in
  let Z3 := 2 * (Z1 * Z2 * H) in
  U1 <> U2 ->
  padd (jaff X1 Y1 Z1) (jaff X2 Y2 Z2) = jaff X3 Y3 Z3 /\ Z3 <> 0.
Proof.
  intros HZ1 HZ2 U1 U2 S1 S2 H I J r V X3 Y3 Z3 HU.
  assert (HH : H <> 0) by (apply j_sub_nz; congruence).
  split; [|unfold Z3; fnz].
  unfold jaff. cbn [ECGroup.padd].
  destruct (Fdec (X1 / (Z1 * Z1)) (X2 / (Z2 * Z2))) as [e|n].
  - exfalso. apply HU. apply j_div_eq_iff in e; [exact e|fnz|fnz].
  - assert (N1 : X2 * (Z1 * Z1) - X1 * (Z2 * Z2) <> 0) by exact HH.
    unfold Z3, Y3, X3, V, r, J, I, H, S1, S2, U1, U2.
    apply aff_eq; field; fnz.
Qed.

(** the co-Z formula of addZ1EqualsZ2 *)
Lemma jcoz_ok X1 Y1 X2 Y2 Z : Z <> 0 -> X1 <> X2 ->
  let A := X2 - X1 in let B := A * A in let C := Y2 - Y1 in let D := C * C in
  let E := X1 * B in let F' := X2 * B in
  let X3 := D - E - F' in let Y3 := C * (E - X3) - Y1 * (F' - E) in let Z3 := Z * A in
  padd (jaff X1 Y1 Z) (jaff X2 Y2 Z) = jaff X3 Y3 Z3 /\ Z3 <> 0.
Proof.
  intros HZ HX A B C D E F' X3 Y3 Z3.
  assert (HA : A <> 0) by (apply j_sub_nz; congruence).
  split; [|unfold Z3; fnz].
  unfold jaff. cbn [ECGroup.padd].
  destruct (Fdec (X1 / (Z * Z)) (X2 / (Z * Z))) as [e|n].
  - exfalso. apply HX. apply j_div_eq_iff in e; [|fnz|fnz]. apply (j_cancel _ _ (Z * Z)); [fnz|exact e].
  - unfold Z3, Y3, X3, F', E, D, C, B, A in *. apply aff_eq; field; fnz.
Qed.

Lemma padd_opp x y1 y2 : onc (Aff x y1) -> onc (Aff x y2) -> y1 <> y2 -> padd (Aff x y1) (Aff x y2) = Inf.
Proof.
  intros H1 H2 N. cbn [ECGroup.padd].
  destruct (Fdec x x) as [_|n]; [|congruence].
  destruct (Fdec (y1 + y2) 0) as [e|n]; [reflexivity|exfalso]. cbn in H1, H2.
  assert (E : (y1 - y2) * (y1 + y2) = 0).
  { transitivity (y1 * y1 - y2 * y2); [ring|]. rewrite H1, H2. ring. }
  destruct (j_integral _ _ E) as [E'|E']; [apply N, j_sub_eq; exact E'|contradiction].
Qed.

Lemma jadd_opp X1 Y1 Z1 X2 Y2 Z2 : Z1 <> 0 -> Z2 <> 0 ->
  onc (jaff X1 Y1 Z1) -> onc (jaff X2 Y2 Z2) ->
  X1 * (Z2 * Z2) = X2 * (Z1 * Z1) -> Y1 * (Z2 * Z2 * Z2) <> Y2 * (Z1 * Z1 * Z1) ->
  padd (jaff X1 Y1 Z1) (jaff X2 Y2 Z2) = Inf.
Proof.
  intros H1 H2 O1 O2 EX NY. unfold jaff in *.
  assert (E : X1 / (Z1 * Z1) = X2 / (Z2 * Z2)) by (apply j_div_eq_iff; fnz).
  rewrite E in *. apply padd_opp; try assumption. intros E'. apply NY.
  apply j_div_eq_iff in E'; [exact E'|fnz|fnz].
Qed.
Lemma jadd_eq X1 Y1 Z1 X2 Y2 Z2 : Z1 <> 0 -> Z2 <> 0 ->
  X1 * (Z2 * Z2) = X2 * (Z1 * Z1) -> Y1 * (Z2 * Z2 * Z2) = Y2 * (Z1 * Z1 * Z1) ->
  jaff X1 Y1 Z1 = jaff X2 Y2 Z2.
Proof. intros H1 H2 EX EY. unfold jaff. apply aff_eq; apply j_div_eq_iff; fnz. Qed.
Lemma jaff_1 X Y : jaff X Y 1 = Aff X Y.
Proof. unfold jaff. assert (1 <> 0) by (apply (F_1_neq_0 Fth)). apply aff_eq; field; fnz. Qed.
Lemma jaff_onc_nz X Y Z : (forall x, x * x * x + b <> 0) -> Z <> 0 -> onc (jaff X Y Z) -> Y <> 0.
Proof.
  intros T HZ HO E. cbn in HO. apply (T (X / (Z * Z))). rewrite <- HO. rewrite E. field; fnz.
Qed.
Lemma jaff_eq_aff x y X Y Z : Z <> 0 -> x * (Z * Z) = X -> y * (Z * Z * Z) = Y -> Aff x y = jaff X Y Z.
Proof. intros HZ <- <-. unfold jaff. apply aff_eq; field; fnz. Qed.
End Jac.
