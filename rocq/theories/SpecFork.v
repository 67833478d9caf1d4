(** * Specification for rewinding a range proof at its common challenge

    A run is what one rewound prover hands out for ring i: the hash function of the run,
    the common challenge, and the commitment and response of the ring. *)
From Coq Require Import ZArith List.
From Verif Require Import Go Wire Big Crypto Spec SpecZk Range SpecRange.
Import ListNotations.
Open Scope Z_scope.

Record run := MkRun { rnSha : list Z -> list Z; rnE : Z; rnC : point; rnS : Z }.
(** the point that ring i of the run hashes, and the point in which it ends *)
Definition rnT (i : nat) (r : run) : point := ringT (rnE r) i (rnC r) (rnS r).
Definition rnEnd (i : nat) (r : run) : point := ringR (rnSha r) (rnE r) i (rnC r) (rnS r).
(** The common challenge is the hash of the points in which the rings end, so all runs
    that are rewound to that query end ring i in the same point [last].  [early] are the
    points whose hash was asked before that query; those answers, [h0], stay the same. *)
Definition sameStart (i : nat) (last : point) (early : list point) (h0 : point -> Z) (r : run) : Prop :=
  is_point (rnC r) /\ plain (rnC r) /\ plain (padd (rnC r) (pneg (smul (2 ^ Z.of_nat i) G))) /\
  rnEnd i r = last /\ In (rnT i r) early /\
  hs (rnSha r) [rnT i r] = h0 (rnT i r) /\ h0 (rnT i r) mod N <> 0.
