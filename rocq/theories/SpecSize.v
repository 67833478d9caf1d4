(** * Specification: how many bytes a number takes, and a run without leading zero bytes *)
From Coq Require Import ZArith List Bool.
From Verif Require Import Go Big Crypto Range.
Import ListNotations.
Open Scope Z_scope.

(** [z] has at most [n] bytes; [z] has exactly [n] bytes, the first of them not zero *)
Definition fits (n z : Z) : Prop := Z.abs z < 256 ^ n.
Definition takes (n z : Z) : Prop := 256 ^ (n - 1) <= Z.abs z < 256 ^ n.
Definition takesPt (n : Z) (p : ECPoint) : Prop := exists x y, p = EP (Some x) (Some y) /\ takes n x /\ takes n y.

(** the number of 1 bits of a value of 40 bits *)
Definition ones (v : Z) : Z := Z.of_nat (length (filter (fun i => Z.testbit v (Z.of_nat i)) (seq 0 40))).

(** a range proof for [v] none of whose numbers happens to begin with a zero byte: the
    coordinates and the challenge have 32 bytes, the response of bit i has 64 bytes if
    the bit is 1 and 96 if it is 0 *)
Definition fullRange (v : Z) (pf : RangeProof) : Prop :=
  takesPt 32 (rpAggregate pf) /\ (exists e, rpE pf = Some e /\ takes 32 e) /\
  length (rpTuples pf) = 40%nat /\
  forall i t, nth_error (rpTuples pf) i = Some t ->
    takesPt 32 (rtC t) /\ exists s, rtS t = Some s /\ takes (if Z.testbit v (Z.of_nat i) then 64 else 96) s.
