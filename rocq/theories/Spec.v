(** * Specification: the textbook secp256k1 group

    This file is the yardstick, not a model of the code: the affine curve
    y^2 = x^3 + 7 over the integers modulo P, its chord-and-tangent addition and
    the multiples of a point.  A point is a pair of integers; (0,0), which is not
    on the curve, stands for the identity (the convention used throughout
    /repo/btcec/btcec.go and crypto/elliptic). *)
From Coq Require Import ZArith List Bool.
Import ListNotations.
Open Scope Z_scope.

(** Field prime, group order, generator (SEC 2, section 2.4.1). *)
Definition P : Z := 0xFFFFFFFFFFFFFFFFFFFFFFFFFFFFFFFFFFFFFFFFFFFFFFFFFFFFFFFEFFFFFC2F.
Definition N : Z := 0xFFFFFFFFFFFFFFFFFFFFFFFFFFFFFFFEBAAEDCE6AF48A03BBFD25E8CD0364141.
Definition Gx : Z := 0x79BE667EF9DCBBAC55A06295CE870B07029BFCDB2DCE28D959F2815B16F81798.
Definition Gy : Z := 0x483ADA7726A3C4655DA4FBFC0E1108A8FD17B448A68554199C47D08FFB10D4B8.

Definition point : Type := (Z * Z)%type.
Definition O : point := (0, 0).
Definition G : point := (Gx, Gy).

(** [(x,y)] satisfies the curve equation and has reduced coordinates. *)
Definition on_curve (p : point) : Prop :=
  0 <= fst p < P /\ 0 <= snd p < P /\ (snd p ^ 2) mod P = (fst p ^ 3 + 7) mod P.

(** Group elements: curve points and the identity. *)
Definition is_point (p : point) : Prop := p = O \/ on_curve p.

(** [a] to the power [e] modulo [m] by repeated squaring; [inv a] is the inverse
    of [a] modulo the prime P (Fermat). *)
Fixpoint pow_mod (m a : Z) (e : positive) : Z :=
  match e with
  | xH => a mod m
  | xO e' => let r := pow_mod m a e' in (r * r) mod m
  | xI e' => let r := pow_mod m a e' in (((r * r) mod m) * a) mod m
  end.
Definition inv (a : Z) : Z := pow_mod P a (Z.to_pos (P - 2)).

(** Chord-and-tangent addition. *)
Definition padd (p q : point) : point :=
  let '(x1, y1) := p in let '(x2, y2) := q in
  if (x1 =? 0) && (y1 =? 0) then q
  else if (x2 =? 0) && (y2 =? 0) then p
  else if (x1 =? x2) && ((y1 + y2) mod P =? 0) then O
  else
    let l := if x1 =? x2 then (3 * x1 * x1 * inv (2 * y1)) mod P
             else ((y2 - y1) * inv (x2 - x1)) mod P in
    let x3 := (l * l - x1 - x2) mod P in
    (x3, (l * (x1 - x3) - y1) mod P).

Definition pneg (p : point) : point := (fst p, (- snd p) mod P).

(** The multiple [k * p], by repeated addition. *)
Definition smul (k : Z) (p : point) : point :=
  match k with
  | Z0 => O
  | Zpos n => Pos.iter (padd p) O n
  | Zneg n => pneg (Pos.iter (padd p) O n)
  end.
