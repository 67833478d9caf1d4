(** * math/big as used by /repo, and the elliptic.Curve interface

    Nothing here models a file of /repo: these are the standard-library facts the
    model relies on.  A *big.Int is [option Z] ([None] is the nil pointer; using
    it panics, Go 1.12 semantics). *)
From Coq Require Import ZArith List Bool.
From Verif Require Import Go Wire.
Import ListNotations.
Open Scope Z_scope.

(** [n] bytes of [z], most significant first *)
Fixpoint be_bytes (n : nat) (z : Z) : list Z :=
  match n with 0%nat => [] | S n' => be_bytes n' (z / 256) ++ [z mod 256] end.
(** number of bytes of the minimal representation *)
Definition byteLen (z : Z) : nat := if z <=? 0 then 0%nat else Z.to_nat (Z.log2 z / 8 + 1).
(** big.Int.Bytes: the absolute value, big-endian, no leading zero byte *)
Definition bigBytes (z : Z) : list Z := be_bytes (byteLen (Z.abs z)) (Z.abs z).
(** big.Int.SetBytes: [beval] of Wire.v. *)

(** dereferencing a *big.Int *)
Definition need {A} (o : option A) : R A := match o with Some a => Ok a | None => Panic end.

(** a^e mod m by square and multiply *)
Fixpoint powMod (m a : Z) (e : positive) : Z :=
  match e with
  | xH => a mod m
  | xO e' => let r := powMod m a e' in (r * r) mod m
  | xI e' => let r := powMod m a e' in (r * r * a) mod m
  end.
(** big.Int.Exp(b, e, m) for e >= 0 and m > 1 *)
Definition bigExp (b e m : Z) : Z := match e with Zpos p => powMod m b p | _ => 1 mod m end.

(** big.Int.ModInverse(g, n): the inverse of g in [0, n), or nil when there is
    none.  All uses in /repo have a prime n, for which the unique candidate is
    g^(n-2); the library computes the same number with Euclid's algorithm. *)
Definition modInverse (g n : Z) : option Z :=
  let x := bigExp g (n - 2) n in
  if (g * x) mod n =? 1 then Some x else None.

(** *** The parts of the interface elliptic.Curve (and of *btcec.KoblitzCurve) that
    the zksigma package calls.  Coordinates are big integers, scalars byte slices. *)
Record curve := {
  cP : Z;                                             (* Params().P *)
  cN : Z;                                             (* Params().N *)
  cAdd : Z -> Z -> Z -> Z -> R (Z * Z);
  cScalarMult : Z -> Z -> list Z -> R (Z * Z);
  cScalarBaseMult : list Z -> R (Z * Z);
  cScalarBaseMultH : list Z -> R (Z * Z);             (* not in elliptic.Curve *)
  cIsOnCurve : Z -> Z -> R bool
}.
