(** * Specification of the serialised points, integers and proofs

    [varbytes] (SpecWire.v) is the length-prefixed byte string. *)
From Coq Require Import ZArith List Bool.
From Verif Require Import Go Wire SpecWire Big Crypto Gspfs Equivalence Consistency Disjunctive Abc Range.
Import ListNotations.
Open Scope Z_scope.

(** integers of at most 2^40 bits (128 GB), so that every buffer fits in memory *)
Definition small (z : Z) : Prop := Z.log2 (Z.abs z) < 2 ^ 40.

(** a point: both coordinates as unsigned big-endian byte strings *)
Definition encPoint (x y : Z) : list Z := varbytes (bigBytes x) ++ varbytes (bigBytes y).
(** an integer: a sign byte (1 for negative) and the magnitude *)
Definition encInt (z : Z) : list Z := varbytes ((if z <? 0 then 1 else 0) :: bigBytes z).

(** a point whose coordinates are present and not negative; an integer that is present *)
Definition wfPoint (p : ECPoint) : Prop :=
  exists x y, p = EP (Some x) (Some y) /\ 0 <= x /\ 0 <= y /\ small x /\ small y.
Definition wfInt (o : option Z) : Prop := exists z, o = Some z /\ small z.

Definition wfGSPFS (p : GSPFSProof) : Prop :=
  wfPoint (gsBase p) /\ wfPoint (gsRandCommit p) /\ wfInt (gsHiddenValue p) /\ wfInt (gsChallenge p).
Definition wfEquivalence (p : EquivalenceProof) : Prop :=
  wfPoint (eqUG p) /\ wfPoint (eqUH p) /\ wfInt (eqChallenge p) /\ wfInt (eqHiddenValue p).
Definition wfConsistency (p : ConsistencyProof) : Prop :=
  wfPoint (cnT1 p) /\ wfPoint (cnT2 p) /\ wfInt (cnChallenge p) /\ wfInt (cnS1 p) /\ wfInt (cnS2 p).
Definition wfDisjunctive (p : DisjunctiveProof) : Prop :=
  wfPoint (djT1 p) /\ wfPoint (djT2 p) /\ wfInt (djC p) /\ wfInt (djC1 p) /\ wfInt (djC2 p) /\
  wfInt (djS1 p) /\ wfInt (djS2 p).
Definition wfABC (p : ABCProof) : Prop :=
  wfPoint (abB p) /\ wfPoint (abC p) /\ wfPoint (abT1 p) /\ wfPoint (abT2 p) /\ wfInt (abChallenge p) /\
  wfInt (abj p) /\ wfInt (abk p) /\ wfInt (abl p) /\ wfPoint (abCToken p) /\
  (exists d, abDisj p = Some d /\ wfDisjunctive d).
Definition wfTuple (t : rangeProofTuple) : Prop := wfPoint (rtC t) /\ wfInt (rtS t).
Definition wfRange (p : RangeProof) : Prop :=
  wfPoint (rpAggregate p) /\ wfInt (rpE p) /\ Forall wfTuple (rpTuples p) /\
  Z.of_nat (length (rpTuples p)) < 2 ^ 43.
