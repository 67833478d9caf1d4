(** * Specification: decoded proofs without missing numbers *)
From Coq Require Import ZArith List.
From Verif Require Import Go Crypto Gspfs Equivalence Consistency Disjunctive Abc Range.
Import ListNotations.
Open Scope Z_scope.

(** the number is there (not a nil pointer) *)
Definition there (o : option Z) : Prop := o <> None.
Definition allThere (l : list (option Z)) : Prop := Forall there l.

(** every number of the proof is there; points always have both coordinates after decoding *)
Definition completeGSPFS (p : GSPFSProof) := allThere [gsHiddenValue p; gsChallenge p].
Definition completeEquivalence (p : EquivalenceProof) := allThere [eqChallenge p; eqHiddenValue p].
Definition completeConsistency (p : ConsistencyProof) := allThere [cnChallenge p; cnS1 p; cnS2 p].
Definition completeDisjunctive (p : DisjunctiveProof) := allThere [djC p; djC1 p; djC2 p; djS1 p; djS2 p].
Definition completeABC (p : ABCProof) := exists d, abDisj p = Some d /\ completeDisjunctive d.
Definition completeRange (p : RangeProof) := allThere (rpE p :: map rtS (rpTuples p)).

(** an input: bytes, fewer than 64 GB of them *)
Definition input (b : list Z) : Prop := bytes_ok b /\ blen b < 2 ^ 36.
