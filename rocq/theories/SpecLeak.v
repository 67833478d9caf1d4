(** * What somebody who sees only the published proof can compute from it *)
From Coq Require Import ZArith List Bool.
From Verif Require Import Go Wire Big Crypto Spec SpecZk Range SpecRange.
Import ListNotations.
Open Scope Z_scope.

(** the bit of a ring, read off the size of its response *)
Definition readBit (s : Z) : Z := if N * N <=? s then 0 else 1.
(** the number written by the bits of a list of rings, the first ring having weight 2^i *)
Fixpoint readValue (i : nat) (cs : list (point * Z)) : Z :=
  match cs with
  | [] => 0
  | (_, s) :: t => readBit s * 2 ^ Z.of_nat i + readValue (S i) t
  end.
(** a candidate for the blinding factor of ring i, by division of the response *)
Definition readBlind (sha : list Z -> list Z) (e : Z) (i : nat) (C : point) (s : Z) : Z :=
  if N * N <=? s then let q := ninv (hs sha [ringT e i C s]) in q * (s / (e * q)) else s / e.
