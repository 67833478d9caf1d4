(** * Rewinding a range proof at its common challenge (part of C45) *)
From Coq Require Import ZArith List Lia.
From Verif Require Import Go Wire Big Crypto Spec SpecZk ZkBase Range SpecRange RangeProofs SpecFork ForkProofs.
Import ListNotations.
Open Scope Z_scope.

(** C45: the prover may choose the commitment, the response and the hashed point of a ring
    after the common challenge is known.  If in every run the hashed point was hashed
    before, then more runs than points hashed before suffice: two runs have the same
    commitment, and it is a commitment to 2^i whose blinding is computed from the two. *)
Theorem C45_fork_early : forall i last early h0 (runs : list run),
  (forall r, In r runs -> sameStart i last early h0 r) -> NoDup (map (fun r => rnE r mod N) runs) ->
  (length early < length runs)%nat ->
  exists r r', In r runs /\ In r' runs /\ rnE r mod N <> rnE r' mod N /\ rnC r = rnC r' /\
    rnC r = ped (2 ^ Z.of_nat i) (slope 1 1 (rnS r) (rnE r) (rnS r') (rnE r')).
Proof. exact fork_early. Qed.
Print Assumptions C45_fork_early.
Example C45_fork_early_nonvacuous : exists x, smul 6 G = ped 2 x /\
  let r1 := MkRun (shaC 1) 1 (smul 6 G) (7 + x) in let r2 := MkRun (shaC 1) 2 (smul 6 G) (7 + 2 * x) in
  (forall r, In r [r1; r2] -> sameStart 1 (smul 6 G) [smul 7 Htab] (fun _ => 1) r) /\
  NoDup (map (fun r => rnE r mod N) [r1; r2]) /\ (length [smul 7 Htab] < length [r1; r2])%nat.
Proof.
  destruct early_case as (x & E & H & D). exists x. split; [exact E|]. cbv zeta. split; [exact H|]. split; [exact D|]. cbn. lia.
Qed.
