(** * C81: memory asked for while decoding

    [gspfsA b] and the like are the decoders of Alloc.v: the result, and the number of bytes
    asked for with make on the way. *)
From Coq Require Import ZArith List Lia Bool.
From Verif Require Import Go Wire SpecWire Big Crypto Gspfs Equivalence Consistency Disjunctive Abc Range SpecCanon Alloc AllocProofs.
Import ListNotations.
Open Scope Z_scope.

(** Apart from the count they are the decoders proved about elsewhere. *)
Theorem C81_same :
  forall b, (forall m, fst (ReadVarBytesA m b) = ReadVarBytes m b) /\ fst (ReadECPointA b) = ReadECPoint b /\ fst (ReadBigIntA b) = ReadBigInt b /\
    fst (gspfsA b) = NewGSPFSProofFromBytes b /\ fst (equivalenceA b) = NewEquivalenceProofFromBytes b /\
    fst (consistencyA b) = NewConsistencyProofFromBytes b /\ fst (disjunctiveA b) = NewDisjunctiveProofFromBytes b /\
    fst (abcA b) = NewABCProofFromBytes b /\ fst (rangeA b) = NewRangeProofFromBytes b.
Proof.
  intros b. split; [intros m; apply same_bytes|]. split; [apply same_point|]. split; [apply same_int|]. split; [apply same_gspfs|]. split; [apply same_equivalence|].
  split; [apply same_consistency|]. split; [apply same_disjunctive|]. split; [apply same_abc|apply same_range].
Qed.
Print Assumptions C81_same.

(** A read that reports no error asked for fewer bytes than it took from the stream. *)
Theorem C81_read_bounded :
  forall s rest c, bytes_ok s ->
    (forall m a, ReadVarBytesA m s = (ROk a rest, c) -> 0 <= c < blen s - blen rest) /\
    (forall p, ReadECPointA s = (ROk p rest, c) -> 0 <= c < blen s - blen rest) /\
    (forall z, ReadBigIntA s = (ROk z rest, c) -> 0 <= c < blen s - blen rest).
Proof.
  intros s rest c B. split; [|split].
  - intros m a E. destruct (bytes_cost _ _ _ _ _ B E) as (_ & C & L). unfold blen in *. lia.
  - intros p E. destruct (point_cost _ _ _ _ B E) as (_ & L & C). lia.
  - intros z E. destruct (int_cost _ _ _ _ B E) as (_ & L & C). lia.
Qed.
Print Assumptions C81_read_bounded.

(** An input that decodes to a proof with all its numbers made the decoder ask for no more
    than a small multiple of its own length. *)
Theorem C81_complete_bounded :
  forall b c, bytes_ok b ->
    (forall p, gspfsA b = (Ok (Some p, None), c) -> completeGSPFS p -> c <= blen b) /\
    (forall p, equivalenceA b = (Ok (Some p, None), c) -> completeEquivalence p -> c <= blen b) /\
    (forall p, consistencyA b = (Ok (Some p, None), c) -> completeConsistency p -> c <= blen b) /\
    (forall p, disjunctiveA b = (Ok (Some p, None), c) -> completeDisjunctive p -> c <= blen b) /\
    (forall p, abcA b = (Ok (Some p, None), c) -> completeABC p -> c <= 2 * blen b) /\
    (forall p, rangeA b = (Ok (Some p, None), c) -> completeRange p -> c <= 13 * blen b /\ 2 * Z.of_nat (length (rpTuples p)) <= blen b).
Proof.
  intros b c B. split; [intros p; exact (gspfs_cost b p c B)|]. split; [intros p; exact (equivalence_cost b p c B)|]. split; [intros p; exact (consistency_cost b p c B)|].
  split; [intros p; exact (disjunctive_cost b p c B)|]. split; [intros p; exact (abc_cost b p c B)|intros p; exact (range_cost b p c B)].
Qed.
Print Assumptions C81_complete_bounded.

(** The expectation that a decoder asks for memory in proportion to its input fails: for
    every k up to 2^48 nine bytes are enough to make every decoder ask for k bytes, and five
    of them report no error afterwards. *)
Theorem C81_amplified_refuted :
  forall k, 1 <= k <= 2 ^ 48 ->
    exists b, bytes_ok b /\ (length b <= 9)%nat /\
      gspfsA b = (Ok (Some (MkGSPFS ZeroPoint ZeroPoint None None), None), k) /\
      equivalenceA b = (Ok (Some (MkEquiv ZeroPoint ZeroPoint None None), None), k) /\
      consistencyA b = (Ok (Some (MkCons ZeroPoint ZeroPoint None None None), None), k) /\
      disjunctiveA b = (Ok (Some (MkDisj ZeroPoint ZeroPoint None None None None None), None), k) /\
      (exists e, abcA b = (Ok (None, Some e), k)) /\
      (exists p, rangeA b = (Ok (Some p, None), k)).
Proof.
  intros k K. exists (varint k). split; [apply WireProofs.varint_ok; unfold uint64; lia|]. split; [apply varint9|]. split; [apply big_gspfs, K|]. split; [apply big_equivalence, K|].
  split; [apply big_consistency, K|]. split; [apply big_disjunctive, K|]. split; [eexists; apply big_abc, K|eexists; apply big_range, K].
Qed.
Print Assumptions C81_amplified_refuted.

(** Nor is the size of a decoded range proof bounded by the input: thirteen bytes decode,
    without an error, to a proof of any number of digits. *)
Theorem C81_digits_refuted :
  forall n, 0 <= n -> 24 * n <= 2 ^ 48 ->
    exists b p, bytes_ok b /\ (length b <= 13)%nat /\
      rangeA b = (Ok (Some p, None), 1 + 24 * n) /\ length (rpTuples p) = Z.to_nat n.
Proof.
  intros n N M. exists ([0; 0; 1; 0] ++ varint n), (MkRange ZeroPoint (Some 0) (repeat (MkTuple ZeroPoint None) (Z.to_nat n))).
  split; [apply WireProofs.bytes_ok_app; split; [repeat constructor; lia|apply WireProofs.varint_ok; unfold uint64; lia]|]. split; [pose proof (varint9 n); rewrite app_length; cbn [length]; lia|].
  split; [apply many_tuples; assumption|]. cbn [rpTuples]. apply repeat_length.
Qed.
Print Assumptions C81_digits_refuted.

(** A case: a complete proof with two digits, asking for 61 bytes. *)
Example C81_case :
  let b := [1; 5; 1; 6; 2; 0; 7; 2; 1; 8; 1; 9; 2; 0; 10; 1; 11; 1; 12; 3; 0; 13; 14] in
  exists p, rangeA b = (Ok (Some p, None), 61) /\ completeRange p /\ length (rpTuples p) = 2%nat.
Proof. eexists. split; [vm_compute; reflexivity|]. split; [unfold completeRange, allThere, there; cbn; repeat constructor; discriminate|reflexivity]. Qed.
