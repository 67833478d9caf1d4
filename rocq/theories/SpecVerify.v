(** * Specification: proofs with all their parts present

    What the verifiers of zksigma need of a proof in order to answer: points with
    coordinates of at most 256 bits (on the curve or not), scalars that are there. *)
From Coq Require Import ZArith List Bool.
From Verif Require Import Go Big Spec Crypto SpecTotal Gspfs Equivalence Consistency Disjunctive Abc Range.
Import ListNotations.
Open Scope Z_scope.

Definition full_gspfs (p : GSPFSProof) : Prop :=
  wf_point (gsBase p) /\ wf_point (gsRandCommit p) /\ present (gsHiddenValue p) /\ present (gsChallenge p).
Definition full_equivalence (p : EquivalenceProof) : Prop :=
  wf_point (eqUG p) /\ wf_point (eqUH p) /\ present (eqChallenge p) /\ present (eqHiddenValue p).
Definition full_consistency (p : ConsistencyProof) : Prop :=
  wf_point (cnT1 p) /\ wf_point (cnT2 p) /\ present (cnChallenge p) /\ present (cnS1 p) /\ present (cnS2 p).
Definition full_disjunctive (p : DisjunctiveProof) : Prop :=
  wf_point (djT1 p) /\ wf_point (djT2 p) /\ present (djC p) /\ present (djC1 p) /\ present (djC2 p) /\
  present (djS1 p) /\ present (djS2 p).
(** the inner disjunctive proof may be missing, and CToken is not used *)
Definition full_abc (p : ABCProof) : Prop :=
  wf_point (abB p) /\ wf_point (abC p) /\ wf_point (abT1 p) /\ wf_point (abT2 p) /\
  present (abChallenge p) /\ present (abj p) /\ present (abk p) /\ present (abl p) /\
  (forall d, abDisj p = Some d -> full_disjunctive d).
(** at most 64 bits; the responses of the tuples may be missing *)
Definition full_range (p : RangeProof) : Prop :=
  wf_point (rpAggregate p) /\ present (rpE p) /\ (length (rpTuples p) <= 64)%nat /\
  Forall (fun t => wf_point (rtC t)) (rpTuples p).
