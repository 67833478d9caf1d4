(** * Specification: a forger who uses only public values

    [logH] is the public logarithm of the parameter H (C20).  Nothing below uses a
    secret: the forger picks the blindings [x] and the nonces [k] themselves. *)
From Coq Require Import ZArith List.
From Verif Require Import Spec SpecZk SpecRange.
Import ListNotations.
Open Scope Z_scope.

Definition logH : Z := 0x94e35037c3705ca047e88b2bd1f3207987dba1fb4c817b9ebc943566dd637134.

(** the commitments of a forged range proof: the first is G + H, the i-th is the
    Pedersen commitment to 2^i with blinding x i *)
Definition forgeC (x : nat -> Z) (i : nat) : point :=
  match i with 0%nat => padd G Hgen | _ => ped (2 ^ Z.of_nat i) (x i) end.
(** the common challenge, computed from nonces k *)
Definition forgeE (sha : list Z -> list Z) (m : nat) (x k : nat -> Z) : Z :=
  hs sha (map (fun i => smul (hs sha [smul (k i) Htab]) (forgeC x i)) (seq 0 m)).
(** the responses *)
Definition forgeS (e : Z) (x k : nat -> Z) (i : nat) : Z :=
  match i with 0%nat => k i + e | _ => k i + e * x i end.
(** the forged tuples, and what their commitments really commit to *)
Definition forgeCs (sha : list Z -> list Z) (m : nat) (x k : nat -> Z) : list (point * Z) :=
  map (fun i => (forgeC x i, forgeS (forgeE sha m x k) x k i)) (seq 0 m).
Definition forgeValue (m : nat) : Z := 2 ^ Z.of_nat m - 1 + logH.
Definition forgeBlind (m : nat) (x : nat -> Z) : Z := zsum (map x (seq 1 (m - 1))).
