(** * Specification: curve operations that return

    [coord z]: a coordinate the field of btcec can hold.  [curve_total c]: on such
    coordinates, on the curve or not, every operation returns and its result is
    again such a pair. *)
From Coq Require Import ZArith List Bool.
From Verif Require Import Go Big Spec Crypto.
Import ListNotations.
Open Scope Z_scope.

Definition coord (z : Z) : Prop := Z.abs z < 2 ^ 256.
Definition returns_pair (r : R (Z * Z)) : Prop := exists x y, r = Ok (x, y) /\ coord x /\ coord y.
Record curve_total (c : curve) : Prop := {
  tot_add : forall x1 y1 x2 y2, coord x1 -> coord y1 -> coord x2 -> coord y2 -> returns_pair (cAdd c x1 y1 x2 y2);
  tot_mul : forall x y k, coord x -> coord y -> returns_pair (cScalarMult c x y k);
  tot_base : forall k, bytes_ok k -> returns_pair (cScalarBaseMult c k);
  tot_baseH : forall k, bytes_ok k -> returns_pair (cScalarBaseMultH c k);
  tot_onc : forall x y, coord x -> coord y -> exists b, cIsOnCurve c x y = Ok b
}.

(** a point a caller can hold: both coordinates present and of at most 256 bits, on the
    curve or not *)
Definition wf_point (p : ECPoint) : Prop :=
  exists x y, p = EP (Some x) (Some y) /\ coord x /\ coord y.
Definition present (s : option Z) : Prop := exists z, s = Some z.
(** a verifier's answer: true without error, or false with an error *)
Definition answers (r : R (bool * option goerr)) : Prop :=
  r = Ok (true, None) \/ exists e, r = Ok (false, Some e).
