(** * Property C65: decoded proofs can be written again, and encodings are not unique *)
From Coq Require Import ZArith List Lia Bool.
From Verif Require Import Go Wire SpecWire WireProofs Big Crypto Gspfs Equivalence Consistency Disjunctive Abc Range
  SpecCodec CodecProofs SpecCanon CanonProofs.
Import ListNotations.
Open Scope Z_scope.

(** C65: from whatever bytes a complete proof was decoded, it serialises, and the
    bytes written (followed by anything) decode to the same proof. *)
Theorem C65_gspfs_rewrite : forall b p, input b -> NewGSPFSProofFromBytes b = Ok (Some p, None) -> completeGSPFS p ->
  exists b', GSPFSBytes p = Ok b' /\ forall after, NewGSPFSProofFromBytes (b' ++ after) = Ok (Some p, None).
Proof. intros b p H E C. exact (GSPFS_rt p (gspfs_in b p H E C)). Qed.
Print Assumptions C65_gspfs_rewrite.
Theorem C65_equivalence_rewrite : forall b p, input b -> NewEquivalenceProofFromBytes b = Ok (Some p, None) -> completeEquivalence p ->
  exists b', EquivalenceBytes p = Ok b' /\ forall after, NewEquivalenceProofFromBytes (b' ++ after) = Ok (Some p, None).
Proof. intros b p H E C. exact (Equivalence_rt p (equiv_in b p H E C)). Qed.
Print Assumptions C65_equivalence_rewrite.
Theorem C65_consistency_rewrite : forall b p, input b -> NewConsistencyProofFromBytes b = Ok (Some p, None) -> completeConsistency p ->
  exists b', ConsistencyBytes p = Ok b' /\ forall after, NewConsistencyProofFromBytes (b' ++ after) = Ok (Some p, None).
Proof. intros b p H E C. exact (Consistency_rt p (cons_in b p H E C)). Qed.
Print Assumptions C65_consistency_rewrite.
Theorem C65_disjunctive_rewrite : forall b p, input b -> NewDisjunctiveProofFromBytes b = Ok (Some p, None) -> completeDisjunctive p ->
  exists b', DisjunctiveBytes p = Ok b' /\ forall after, NewDisjunctiveProofFromBytes (b' ++ after) = Ok (Some p, None).
Proof. intros b p H E C. destruct (Disjunctive_rt p (disj_in b p H E C)) as (b' & K1 & _ & K2). exists b'. split; assumption. Qed.
Print Assumptions C65_disjunctive_rewrite.
Theorem C65_abc_rewrite : forall b p, input b -> NewABCProofFromBytes b = Ok (Some p, None) -> completeABC p ->
  exists b', ABCBytes p = Ok b' /\ forall after, NewABCProofFromBytes (b' ++ after) = Ok (Some p, None).
Proof. intros b p H E C. exact (ABC_rt p (abc_in b p H E C)). Qed.
Print Assumptions C65_abc_rewrite.
Theorem C65_range_rewrite : forall b p, input b -> NewRangeProofFromBytes b = Ok (Some p, None) -> completeRange p ->
  exists b', RangeBytes p = Ok b' /\ forall after, NewRangeProofFromBytes (b' ++ after) = Ok (Some p, None).
Proof. intros b p H E C. exact (Range_rt p (range_in b p H E C)). Qed.
Print Assumptions C65_range_rewrite.
(** bytes with a leading zero, sign byte 7, and a trailing byte: decoded, rewritten shorter *)
Example C65_case : let b := [2;0;1;1;2; 2;7;9; 1; 1;3;1;4;2;1;5; 255] in
  let p := MkRange (EP (Some 1) (Some 2)) (Some 9) [MkTuple (EP (Some 3) (Some 4)) (Some (- 5))] in
  input b /\ NewRangeProofFromBytes b = Ok (Some p, None) /\ completeRange p /\
  RangeBytes p = Ok [1;1;1;2; 2;0;9; 1; 1;3;1;4;2;1;5].
Proof.
  cbv zeta. split; [split; [repeat constructor; discriminate|reflexivity]|]. split; [reflexivity|].
  split; [repeat constructor; discriminate|reflexivity].
Qed.

(** C65 (refuted): encodings are not unique.  Any sign byte but 1 means "positive"
    and leading zeros are dropped ... *)
Lemma beval_lead k mag : beval (repeat 0 k ++ mag) = beval mag.
Proof. induction k as [|k IH]; [reflexivity|]. cbn [repeat app]. rewrite beval_cons, IH. reflexivity. Qed.
Theorem C65_integer_encodings_refuted : forall sgn k mag after, sgn <> 1 -> bytes_ok mag -> blen mag + Z.of_nat k < 2 ^ 36 ->
  ReadBigInt (varbytes (sgn :: repeat 0 k ++ mag) ++ after) = ReadBigInt (encInt (beval mag) ++ after).
Proof.
  intros sgn k mag after H1 Hm L. pose proof (beval_range mag Hm) as [H0 _].
  rewrite ReadBigInt_enc by (apply (beval_small mag Hm); lia).
  unfold ReadBigInt. rewrite ReadVarBytes_varbytes.
  - cbn [rbind]. destruct (sgn =? 1) eqn:E; [apply Z.eqb_eq in E; contradiction|]. rewrite beval_lead. reflexivity.
  - unfold blen in *. cbn [length]. rewrite app_length, repeat_length. unfold maxAlloc. lia.
Qed.
Print Assumptions C65_integer_encodings_refuted.
(** ... so every proof of every type has many encodings: the first coordinate may
    carry any number of leading zeros. *)
Theorem C65_many_encodings_refuted : forall k x y rest, 0 <= x -> 0 <= y -> Z.of_nat k < 2 ^ 36 -> small x -> small y ->
  let canonical := encPoint x y ++ rest in
  let other := varbytes (repeat 0 k ++ bigBytes x) ++ varbytes (bigBytes y) ++ rest in
  (k <> 0%nat -> other <> canonical) /\
  NewGSPFSProofFromBytes other = NewGSPFSProofFromBytes canonical /\
  NewEquivalenceProofFromBytes other = NewEquivalenceProofFromBytes canonical /\
  NewConsistencyProofFromBytes other = NewConsistencyProofFromBytes canonical /\
  NewDisjunctiveProofFromBytes other = NewDisjunctiveProofFromBytes canonical /\
  NewABCProofFromBytes other = NewABCProofFromBytes canonical /\
  NewRangeProofFromBytes other = NewRangeProofFromBytes canonical.
Proof.
  intros k x y rest Hx Hy Hk Sx Sy. cbv zeta.
  pose proof (small_blen x Sx) as Lx. pose proof (small_blen y Sy) as Ly.
  assert (La : blen (repeat 0 k ++ bigBytes x) <= maxAlloc).
  { unfold blen in *. rewrite app_length, repeat_length. unfold maxAlloc. lia. }
  assert (E : ReadECPoint (varbytes (repeat 0 k ++ bigBytes x) ++ varbytes (bigBytes y) ++ rest) = ReadECPoint (encPoint x y ++ rest)).
  { rewrite ReadECPoint_enc by assumption. unfold ReadECPoint. rewrite ReadVarBytes_varbytes by exact La. cbn [rbind].
    rewrite ReadVarBytes_varbytes by (eapply Z.le_trans; [exact Ly|discriminate]). cbn [rbind].
    rewrite beval_lead, !beval_bigBytes, !Z.abs_eq by assumption. reflexivity. }
  assert (E' : ReadECPoint_ (varbytes (repeat 0 k ++ bigBytes x) ++ varbytes (bigBytes y) ++ rest) = ReadECPoint_ (encPoint x y ++ rest))
    by (unfold ReadECPoint_; rewrite E; reflexivity).
  split.
  - intros K Q. unfold encPoint in Q. rewrite <- app_assoc in Q.
    assert (V : ReadVarBytes 32 (varbytes (repeat 0 k ++ bigBytes x) ++ varbytes (bigBytes y) ++ rest) = ReadVarBytes 32 (varbytes (bigBytes x) ++ varbytes (bigBytes y) ++ rest))
      by (rewrite Q; reflexivity).
    rewrite !ReadVarBytes_varbytes in V by (exact La || (eapply Z.le_trans; [exact Lx|discriminate])).
    injection V as V. apply (f_equal (@length Z)) in V. rewrite app_length, repeat_length in V. lia.
  - unfold NewGSPFSProofFromBytes, NewEquivalenceProofFromBytes, NewConsistencyProofFromBytes, NewDisjunctiveProofFromBytes,
      NewABCProofFromBytes, NewRangeProofFromBytes. rewrite E, E'. repeat split.
Qed.
Print Assumptions C65_many_encodings_refuted.
