(** * Properties of the serialisation of points, integers and proofs (C06-C08) *)
From Coq Require Import ZArith List Lia.
From Verif Require Import Go Wire SpecWire Big Crypto Gspfs Equivalence Consistency Disjunctive Abc Range
  SpecCodec CodecProofs TruncProofs.
Import ListNotations.
Open Scope Z_scope.

(** C06: points with non-negative coordinates and integers of either sign survive
    writing and reading, whatever was written before and whatever follows. *)
Theorem C06_point_roundtrip : forall x y before after, 0 <= x -> 0 <= y -> small x -> small y ->
  exists w, WriteECPoint {| wout := before; wroom := None |} (EP (Some x) (Some y)) = Ok (w, false) /\
            wout w = before ++ encPoint x y /\
            ReadECPoint (encPoint x y ++ after) = ROk (EP (Some x) (Some y)) after.
Proof.
  intros x y before after Hx Hy Sx Sy. eexists. split; [apply WriteECPoint_buf; auto|].
  split; [reflexivity|]. apply ReadECPoint_enc; assumption.
Qed.
Print Assumptions C06_point_roundtrip.
Theorem C06_bigint_roundtrip : forall z before after, small z ->
  exists w, WriteBigInt {| wout := before; wroom := None |} (Some z) = Ok (w, false) /\
            wout w = before ++ encInt z /\
            ReadBigInt (encInt z ++ after) = ROk z after.
Proof.
  intros z before after Hz. eexists. split; [apply WriteBigInt_buf; auto|].
  split; [reflexivity|]. apply ReadBigInt_enc; assumption.
Qed.
Print Assumptions C06_bigint_roundtrip.
Example C06_nonvacuous : small (- 2 ^ 256) /\ ReadBigInt (encInt (- 2 ^ 256) ++ [9]) = ROk (- 2 ^ 256) [9] /\
  ReadECPoint (encPoint 255 256 ++ [9]) = ROk (EP (Some 255) (Some 256)) [9] /\ encPoint 255 256 = [1; 255; 2; 1; 0].
Proof. repeat split; reflexivity. Qed.
(** a negative coordinate does not survive: only its magnitude is written *)
Theorem C06_negative_coordinate : forall x y, 0 < x -> small x -> small y -> exists w,
  WriteECPoint newBuffer (EP (Some (- x)) (Some y)) = Ok (w, false) /\
  exists p, ReadECPoint (wout w) = ROk p [] /\ p <> EP (Some (- x)) (Some y).
Proof.
  intros x y Hx Sx Sy. eexists. split; [apply WriteECPoint_buf; auto; unfold small; rewrite Z.abs_opp; exact Sx|].
  cbn [wout newBuffer app]. exists (EP (Some x) (Some (Z.abs y))). split.
  - rewrite <- (app_nil_r (encPoint _ _)). unfold encPoint.
    replace (bigBytes (- x)) with (bigBytes x) by (unfold bigBytes; rewrite Z.abs_opp; reflexivity).
    replace (bigBytes y) with (bigBytes (Z.abs y)) by (unfold bigBytes; rewrite Z.abs_involutive; reflexivity).
    apply ReadECPoint_enc; [apply Z.lt_le_incl; exact Hx|apply Z.abs_nonneg|exact Sx|unfold small; rewrite Z.abs_involutive; exact Sy].
  - intros E. injection E as E _. lia.
Qed.
Print Assumptions C06_negative_coordinate.

(** C07: every proof value survives Bytes and NewXProofFromBytes; bytes that follow
    are ignored. *)
Theorem C07_gspfs_roundtrip : forall p, wfGSPFS p -> exists b, GSPFSBytes p = Ok b /\
  forall after, NewGSPFSProofFromBytes (b ++ after) = Ok (Some p, None).
Proof. exact GSPFS_rt. Qed.
Print Assumptions C07_gspfs_roundtrip.
Theorem C07_equivalence_roundtrip : forall p, wfEquivalence p -> exists b, EquivalenceBytes p = Ok b /\
  forall after, NewEquivalenceProofFromBytes (b ++ after) = Ok (Some p, None).
Proof. exact Equivalence_rt. Qed.
Print Assumptions C07_equivalence_roundtrip.
Theorem C07_consistency_roundtrip : forall p, wfConsistency p -> exists b, ConsistencyBytes p = Ok b /\
  forall after, NewConsistencyProofFromBytes (b ++ after) = Ok (Some p, None).
Proof. exact Consistency_rt. Qed.
Print Assumptions C07_consistency_roundtrip.
Theorem C07_disjunctive_roundtrip : forall p, wfDisjunctive p -> exists b, DisjunctiveBytes p = Ok b /\
  forall after, NewDisjunctiveProofFromBytes (b ++ after) = Ok (Some p, None).
Proof. intros p Hp. destruct (Disjunctive_rt p Hp) as (b & Hb & _ & Hr). exists b. split; assumption. Qed.
Print Assumptions C07_disjunctive_roundtrip.
Theorem C07_abc_roundtrip : forall p, wfABC p -> exists b, ABCBytes p = Ok b /\
  forall after, NewABCProofFromBytes (b ++ after) = Ok (Some p, None).
Proof. exact ABC_rt. Qed.
Print Assumptions C07_abc_roundtrip.
Theorem C07_range_roundtrip : forall p, wfRange p -> exists b, RangeBytes p = Ok b /\
  forall after, NewRangeProofFromBytes (b ++ after) = Ok (Some p, None).
Proof. exact Range_rt. Qed.
Print Assumptions C07_range_roundtrip.
(** Hence Bytes is injective, and no encoding is a proper prefix of another one of the
    same type. *)
Theorem C07_gspfs_injective : forall p q b bq after, wfGSPFS p -> wfGSPFS q ->
  GSPFSBytes p = Ok b -> GSPFSBytes q = Ok bq -> bq = b ++ after -> p = q.
Proof.
  intros p q b bq after Hp Hq Ep Eq E. destruct (C07_gspfs_roundtrip p Hp) as (b1 & E1 & R1). destruct (C07_gspfs_roundtrip q Hq) as (b2 & E2 & R2).
  rewrite Ep in E1. rewrite Eq in E2. injection E1 as <-. injection E2 as <-.
  specialize (R1 after). specialize (R2 []). rewrite app_nil_r in R2. subst bq. rewrite R1 in R2. injection R2 as ->. reflexivity.
Qed.
Print Assumptions C07_gspfs_injective.
Theorem C07_equivalence_injective : forall p q b bq after, wfEquivalence p -> wfEquivalence q ->
  EquivalenceBytes p = Ok b -> EquivalenceBytes q = Ok bq -> bq = b ++ after -> p = q.
Proof.
  intros p q b bq after Hp Hq Ep Eq E. destruct (C07_equivalence_roundtrip p Hp) as (b1 & E1 & R1). destruct (C07_equivalence_roundtrip q Hq) as (b2 & E2 & R2).
  rewrite Ep in E1. rewrite Eq in E2. injection E1 as <-. injection E2 as <-.
  specialize (R1 after). specialize (R2 []). rewrite app_nil_r in R2. subst bq. rewrite R1 in R2. injection R2 as ->. reflexivity.
Qed.
Print Assumptions C07_equivalence_injective.
Theorem C07_consistency_injective : forall p q b bq after, wfConsistency p -> wfConsistency q ->
  ConsistencyBytes p = Ok b -> ConsistencyBytes q = Ok bq -> bq = b ++ after -> p = q.
Proof.
  intros p q b bq after Hp Hq Ep Eq E. destruct (C07_consistency_roundtrip p Hp) as (b1 & E1 & R1). destruct (C07_consistency_roundtrip q Hq) as (b2 & E2 & R2).
  rewrite Ep in E1. rewrite Eq in E2. injection E1 as <-. injection E2 as <-.
  specialize (R1 after). specialize (R2 []). rewrite app_nil_r in R2. subst bq. rewrite R1 in R2. injection R2 as ->. reflexivity.
Qed.
Print Assumptions C07_consistency_injective.
Theorem C07_disjunctive_injective : forall p q b bq after, wfDisjunctive p -> wfDisjunctive q ->
  DisjunctiveBytes p = Ok b -> DisjunctiveBytes q = Ok bq -> bq = b ++ after -> p = q.
Proof.
  intros p q b bq after Hp Hq Ep Eq E. destruct (C07_disjunctive_roundtrip p Hp) as (b1 & E1 & R1). destruct (C07_disjunctive_roundtrip q Hq) as (b2 & E2 & R2).
  rewrite Ep in E1. rewrite Eq in E2. injection E1 as <-. injection E2 as <-.
  specialize (R1 after). specialize (R2 []). rewrite app_nil_r in R2. subst bq. rewrite R1 in R2. injection R2 as ->. reflexivity.
Qed.
Print Assumptions C07_disjunctive_injective.
Theorem C07_abc_injective : forall p q b bq after, wfABC p -> wfABC q ->
  ABCBytes p = Ok b -> ABCBytes q = Ok bq -> bq = b ++ after -> p = q.
Proof.
  intros p q b bq after Hp Hq Ep Eq E. destruct (C07_abc_roundtrip p Hp) as (b1 & E1 & R1). destruct (C07_abc_roundtrip q Hq) as (b2 & E2 & R2).
  rewrite Ep in E1. rewrite Eq in E2. injection E1 as <-. injection E2 as <-.
  specialize (R1 after). specialize (R2 []). rewrite app_nil_r in R2. subst bq. rewrite R1 in R2. injection R2 as ->. reflexivity.
Qed.
Print Assumptions C07_abc_injective.
Theorem C07_range_injective : forall p q b bq after, wfRange p -> wfRange q ->
  RangeBytes p = Ok b -> RangeBytes q = Ok bq -> bq = b ++ after -> p = q.
Proof.
  intros p q b bq after Hp Hq Ep Eq E. destruct (Range_rt p Hp) as (b1 & E1 & R1). destruct (Range_rt q Hq) as (b2 & E2 & R2).
  rewrite Ep in E1. rewrite Eq in E2. injection E1 as <-. injection E2 as <-.
  specialize (R1 after). specialize (R2 []). rewrite app_nil_r in R2. subst bq. rewrite R1 in R2. injection R2 as ->. reflexivity.
Qed.
Print Assumptions C07_range_injective.
Example C07_nonvacuous :
  let t := MkTuple (EP (Some 3) (Some 4)) (Some (- 5)) in
  let p := MkRange (EP (Some 1) (Some 2)) (Some 7) [t; t] in
  wfRange p /\ RangeBytes p = Ok [1;1;1;2; 2;0;7; 2; 1;3;1;4;2;1;5; 1;3;1;4;2;1;5].
Proof.
  cbv zeta. split; [|reflexivity].
  assert (S : forall z, Z.abs z < 2 ^ 10 -> small z).
  { intros z Hz. apply small_lt. eapply Z.lt_trans; [exact Hz|reflexivity]. }
  assert (T : wfTuple (MkTuple (EP (Some 3) (Some 4)) (Some (- 5)))).
  { split; cbn [rtC rtS]; [exists 3, 4; repeat split; try discriminate; apply S; reflexivity|exists (-5); split; [reflexivity|apply S; reflexivity]]. }
  repeat split; cbn [rpAggregate rpE rpTuples].
  - exists 1, 2. repeat split; try discriminate; apply S; reflexivity.
  - exists 7. split; [reflexivity|apply S; reflexivity].
  - repeat constructor; apply T.
Qed.

(** C08 (refuted): every decoder crashes the process on some byte strings,
    whatever follows them ... *)
Theorem C08_decoders_crash_refuted : forall after,
  NewGSPFSProofFromBytes ([0;0; 0;0; 0] ++ after) = Panic /\
  NewEquivalenceProofFromBytes ([0;0; 0;0; 0] ++ after) = Panic /\
  NewConsistencyProofFromBytes ([0;0; 0;0; 0] ++ after) = Panic /\
  NewDisjunctiveProofFromBytes ([0;0; 0;0; 0] ++ after) = Panic /\
  NewABCProofFromBytes ([0;0; 0;0; 0;0; 0;0; 0] ++ after) = Panic /\
  NewRangeProofFromBytes ([0;0; 0] ++ after) = Panic.
Proof.
  intros after. cbn [app]. repeat split.
  - unfold NewGSPFSProofFromBytes. rewrite !ReadECPoint__zero; cbn [bind snd]; rewrite ReadECPoint__zero; cbn [bind snd]; rewrite ReadBigInt__zero; reflexivity.
  - unfold NewEquivalenceProofFromBytes. rewrite !ReadECPoint__zero; cbn [bind snd]; rewrite ReadECPoint__zero; cbn [bind snd]; rewrite ReadBigInt__zero; reflexivity.
  - unfold NewConsistencyProofFromBytes. rewrite !ReadECPoint__zero; cbn [bind snd]; rewrite ReadECPoint__zero; cbn [bind snd]; rewrite ReadBigInt__zero; reflexivity.
  - unfold NewDisjunctiveProofFromBytes. rewrite !ReadECPoint__zero; cbn [bind snd]; rewrite ReadECPoint__zero; cbn [bind snd]; rewrite ReadBigInt__zero; reflexivity.
  - unfold NewABCProofFromBytes. do 4 (rewrite ReadECPoint_zero; cbn [rdR]). rewrite ReadBigInt_zero. reflexivity.
  - unfold NewRangeProofFromBytes. rewrite ReadECPoint__zero; cbn [bind snd]; rewrite ReadBigInt__zero; reflexivity.
Qed.
Print Assumptions C08_decoders_crash_refuted.
(** ... and apart from crashing, five of them never report an error, on any input. *)
Theorem C08_errors_never_reported : forall b,
  (NewGSPFSProofFromBytes b = Panic \/ exists p, NewGSPFSProofFromBytes b = Ok (Some p, None)) /\
  (NewEquivalenceProofFromBytes b = Panic \/ exists p, NewEquivalenceProofFromBytes b = Ok (Some p, None)) /\
  (NewConsistencyProofFromBytes b = Panic \/ exists p, NewConsistencyProofFromBytes b = Ok (Some p, None)) /\
  (NewDisjunctiveProofFromBytes b = Panic \/ exists p, NewDisjunctiveProofFromBytes b = Ok (Some p, None)) /\
  (NewRangeProofFromBytes b = Panic \/ exists p, NewRangeProofFromBytes b = Ok (Some p, None)).
Proof.
  intros b. repeat split;
  [unfold NewGSPFSProofFromBytes|unfold NewEquivalenceProofFromBytes|unfold NewConsistencyProofFromBytes
  |unfold NewDisjunctiveProofFromBytes|unfold NewRangeProofFromBytes];
  repeat match goal with
  | |- context [bind ?r _] => destruct r; cbn [bind]
  | |- context [if ?c then _ else _] => destruct c
  end; try (left; reflexivity); right; eexists; reflexivity.
Qed.
Print Assumptions C08_errors_never_reported.
(** The empty input decodes, with a nil error, to a proof whose Verify crashes for
    every hash function, parameter set and statement. *)
Theorem C08_empty_input_decodes_to_crashing_proof :
  (exists p, NewGSPFSProofFromBytes [] = Ok (Some p, None) /\ forall sha zk A, GSPFSVerify sha (Some p) zk A = Panic) /\
  (exists p, NewEquivalenceProofFromBytes [] = Ok (Some p, None) /\ forall sha zk b1 r1 b2 r2, EquivalenceVerify sha (Some p) zk b1 r1 b2 r2 = Panic) /\
  (exists p, NewConsistencyProofFromBytes [] = Ok (Some p, None) /\ forall sha zk cm tok pk, ConsistencyVerify sha (Some p) zk cm tok pk = Panic) /\
  (exists p, NewDisjunctiveProofFromBytes [] = Ok (Some p, None) /\ forall sha zk b1 r1 b2 r2, DisjunctiveVerify sha (Some p) zk b1 r1 b2 r2 = Panic) /\
  (exists p, NewRangeProofFromBytes [] = Ok (Some p, None) /\ forall sha zk cm, RangeVerify sha (Some p) zk cm = Panic).
Proof.
  repeat split; eexists; (split; [reflexivity|]); intros;
  [unfold GSPFSVerify|unfold EquivalenceVerify|unfold ConsistencyVerify|unfold DisjunctiveVerify|reflexivity];
  match goal with |- bind ?r _ = _ => destruct r; reflexivity end.
Qed.
Print Assumptions C08_empty_input_decodes_to_crashing_proof.
(** The other five never report truncation: for every proof and every proper prefix of
    its bytes, the decoder returns a nil error and a proof in which a number is missing
    (for a range proof: the hash, one of the responses, or all the digits) ... *)
Theorem C08_truncation_unreported_refuted : 
  (forall p b s, wfGSPFS p -> GSPFSBytes p = Ok b -> prefix s b -> s <> b ->
     exists p', NewGSPFSProofFromBytes s = Ok (Some p', None) /\ gsChallenge p' = None) /\
  (forall p b s, wfEquivalence p -> EquivalenceBytes p = Ok b -> prefix s b -> s <> b ->
     exists p', NewEquivalenceProofFromBytes s = Ok (Some p', None) /\ eqHiddenValue p' = None) /\
  (forall p b s, wfConsistency p -> ConsistencyBytes p = Ok b -> prefix s b -> s <> b ->
     exists p', NewConsistencyProofFromBytes s = Ok (Some p', None) /\ cnS2 p' = None) /\
  (forall p b s, wfDisjunctive p -> DisjunctiveBytes p = Ok b -> prefix s b -> s <> b ->
     exists p', NewDisjunctiveProofFromBytes s = Ok (Some p', None) /\ djS2 p' = None) /\
  (forall p b s, wfRange p -> RangeBytes p = Ok b -> prefix s b -> s <> b ->
     exists p', NewRangeProofFromBytes s = Ok (Some p', None) /\
       (rpE p' = None \/ rpTuples p' = [] \/ Exists (fun t => rtS t = None) (rpTuples p'))).
Proof. exact (conj gspfs_trunc (conj equiv_trunc (conj cons_trunc (conj disj_trunc range_trunc)))). Qed.
Print Assumptions C08_truncation_unreported_refuted.
(** ... which no verifier accepts, for any hash function, parameters and statement, with
    one exception: a truncated range proof could be accepted for the zero commitment. *)
Theorem C08_truncated_never_accepted :
  (forall p b s p', wfGSPFS p -> GSPFSBytes p = Ok b -> prefix s b -> s <> b -> NewGSPFSProofFromBytes s = Ok (Some p', None) ->
     forall sha zk A, GSPFSVerify sha (Some p') zk A <> Ok (true, None)) /\
  (forall p b s p', wfEquivalence p -> EquivalenceBytes p = Ok b -> prefix s b -> s <> b -> NewEquivalenceProofFromBytes s = Ok (Some p', None) ->
     forall sha zk b1 r1 b2 r2, EquivalenceVerify sha (Some p') zk b1 r1 b2 r2 <> Ok (true, None)) /\
  (forall p b s p', wfConsistency p -> ConsistencyBytes p = Ok b -> prefix s b -> s <> b -> NewConsistencyProofFromBytes s = Ok (Some p', None) ->
     forall sha zk cm tok pk, ConsistencyVerify sha (Some p') zk cm tok pk <> Ok (true, None)) /\
  (forall p b s p', wfDisjunctive p -> DisjunctiveBytes p = Ok b -> prefix s b -> s <> b -> NewDisjunctiveProofFromBytes s = Ok (Some p', None) ->
     forall sha zk b1 r1 b2 r2, DisjunctiveVerify sha (Some p') zk b1 r1 b2 r2 <> Ok (true, None)) /\
  (forall p b s p', wfRange p -> RangeBytes p = Ok b -> prefix s b -> s <> b -> NewRangeProofFromBytes s = Ok (Some p', None) ->
     forall sha zk cm, RangeVerify sha (Some p') zk cm = Ok (true, None) -> pX cm = Some 0).
Proof.
  repeat split; intros p b s p' W B P N D sha zk.
  - intros A. destruct (gspfs_trunc p b s W B P N) as (q & E & M). rewrite D in E. injection E as <-. apply gspfs_missing; exact M.
  - intros b1 r1 b2 r2. destruct (equiv_trunc p b s W B P N) as (q & E & M). rewrite D in E. injection E as <-. apply equiv_missing; exact M.
  - intros cm tok pk. destruct (cons_trunc p b s W B P N) as (q & E & M). rewrite D in E. injection E as <-. apply cons_missing; exact M.
  - intros b1 r1 b2 r2. destruct (disj_trunc p b s W B P N) as (q & E & M). rewrite D in E. injection E as <-. apply disj_missing; exact M.
  - intros cm V. destruct (range_trunc p b s W B P N) as (q & E & [M|[M|M]]); rewrite D in E; injection E as <-.
    + destruct (range_missing_e sha zk p' cm M V).
    + apply (range_empty sha zk p' cm M V).
    + destruct (range_missing_s sha zk p' cm M V).
Qed.
Print Assumptions C08_truncated_never_accepted.
Example C08_truncation_nonvacuous :
  let p := MkGSPFS (EP (Some 1) (Some 2)) (EP (Some 3) (Some 4)) (Some 5) (Some 6) in
  wfGSPFS p /\ GSPFSBytes p = Ok [1;1;1;2; 1;3;1;4; 2;0;5; 2;0;6] /\ prefix [1;1;1;2; 1;3;1] [1;1;1;2; 1;3;1;4; 2;0;5; 2;0;6] /\
  NewGSPFSProofFromBytes [1;1;1;2; 1;3;1] = Ok (Some (MkGSPFS (EP (Some 1) (Some 2)) ZeroPoint None None), None).
Proof.
  cbv zeta. assert (S : forall z, Z.abs z < 2 ^ 10 -> small z).
  { intros z Hz. apply small_lt. eapply Z.lt_trans; [exact Hz|reflexivity]. }
  split; [|split; [reflexivity|split; [exists [4; 2;0;5; 2;0;6]; reflexivity|reflexivity]]].
  unfold wfGSPFS, wfPoint, wfInt. cbn [gsBase gsRandCommit gsHiddenValue gsChallenge].
  split; [exists 1, 2|split; [exists 3, 4|split; [exists 5|exists 6]]]; repeat split; try discriminate; apply S; reflexivity.
Qed.
(** Only the ABC decoder reports truncation: every proper prefix of the bytes of
    an ABC proof is an error. *)
Theorem C08_abc_truncation_reported : forall p b, wfABC p -> ABCBytes p = Ok b ->
  forall s, prefix s b -> s <> b -> exists e, NewABCProofFromBytes s = Ok (None, Some (ERead e)).
Proof. exact ABC_trunc. Qed.
Print Assumptions C08_abc_truncation_reported.
Example C08_abc_nonvacuous :
  let P := EP (Some 1) (Some 2) in let D := MkDisj P P (Some 1) (Some 2) (Some 3) (Some 4) (Some 5) in
  let p := MkABC P P P P (Some 7) (Some 8) (Some 9) (Some 10) P (Some D) in wfABC p.
Proof.
  cbv zeta. assert (S : forall z, Z.abs z < 2 ^ 10 -> small z).
  { intros z Hz. apply small_lt. eapply Z.lt_trans; [exact Hz|reflexivity]. }
  assert (P : wfPoint (EP (Some 1) (Some 2))) by (exists 1, 2; repeat split; try discriminate; apply S; reflexivity).
  assert (I : forall z, Z.abs z < 2 ^ 10 -> wfInt (Some z)) by (intros z Hz; exists z; split; [reflexivity|apply S; exact Hz]).
  unfold wfABC, wfDisjunctive. cbn [abB abC abT1 abT2 abChallenge abj abk abl abCToken abDisj].
  repeat split; try exact P; try (apply I; reflexivity). eexists. split; [reflexivity|].
  repeat split; cbn; try exact P; apply I; reflexivity.
Qed.
Example C08_nonvacuous : NewABCProofFromBytes [1; 2; 1] = Ok (None, Some (ERead EEOF)).
Proof. reflexivity. Qed.
