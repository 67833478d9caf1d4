(** * Specification for the curve operations of btcec

    [represents q p]: the Jacobian coordinates [q], three field values as btcec keeps
    them, stand for the group element [p] of Spec.v: x = X/Z^2, y = Y/Z^3, or the
    identity when Z is zero or both X and Y are.  [fits] bounds the words. *)
From Coq Require Import ZArith List Bool.
From Verif Require Import Spec Go Field SpecField Koblitz.
Import ListNotations.
Open Scope Z_scope.

Definition represents (q : jpt) (p : point) : Prop :=
  let '(x, y, z) := q in
  fits 1 x /\ fits 2 y /\ fits 1 z /\
  ((p = O /\ (z = fZero \/ (x = fZero /\ y = fZero))) \/
   (on_curve p /\ val z mod P <> 0 /\
    (fst p * val z ^ 2) mod P = val x mod P /\ (snd p * val z ^ 3) mod P = val y mod P)).

(** row [i], column [b] of a table stands for b * 256^(31-i) * B *)
Definition table_ok (t : table) (B : point) : Prop :=
  forall i b, (i < 32)%nat -> is_byte b ->
  exists q, lookup t i b = Ok q /\ represents q (smul (b * 256 ^ (31 - Z.of_nat i)) B).

(** the digit at position [i] of a signed-digit number given by its 1s and its -1s *)
Definition digit_set (pos neg i : Z) : bool := Z.testbit pos i || Z.testbit neg i.
