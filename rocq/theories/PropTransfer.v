(** * Honest proofs verify after having been sent as bytes (C64) *)
From Coq Require Import ZArith List Lia Bool.
From Verif Require Import Go Wire SpecWire Big Crypto Spec FieldP CurveGroup Order FieldN CurveZ SpecZk SpecCodec CodecProofs ZkBase PointProofs
  Gspfs GspfsProofs Equivalence Consistency EqConsProofs Disjunctive DisjProofs Abc AbcProofs Range SpecRange RangeProofs WireProofsZk
  PropCodec PropGspfs PropEqCons PropDisj PropAbc PropRange.
Import ListNotations.
Open Scope Z_scope.

(** The prover's proof is turned into bytes, the bytes arrive (with anything after
    them), are decoded without an error, and the decoded proof is accepted. *)
Theorem C64_gspfs : forall sha zk B x u, std zk -> is_point B -> plain B -> plain (smul x B) ->
  exists pf b, NewGSPFSProofBase sha zk (pt B) (pt (smul x B)) (Some x) (Some u) = Ok (Some pf, None) /\ GSPFSBytes pf = Ok b /\
  forall after, exists pf', NewGSPFSProofFromBytes (b ++ after) = Ok (Some pf', None) /\ accepts (GSPFSVerify sha (Some pf') zk (pt (smul x B))).
Proof.
  intros sha zk B x u S HB PB PA. destruct (C22_gspfs_complete sha zk B x u S HB PB PA) as (pf & E & A).
  destruct (C07_gspfs_roundtrip pf) as (b & Eb & Rt); [eapply (gspfs_wf sha zk S); [ | |exact E]; isp|].
  exists pf, b. split; [exact E|]. split; [exact Eb|]. intros after. exists pf. split; [apply Rt|exact A].
Qed.
Print Assumptions C64_gspfs.
Theorem C64_equivalence : forall sha zk B1 B2 x u, std zk -> is_point B1 -> is_point B2 ->
  let R1 := smul x (eff B1) in let R2 := smul x (eff B2) in plain R1 -> plain R2 ->
  exists pf b, NewEquivalenceProof sha zk (pt B1) (pt R1) (pt B2) (pt R2) (Some x) (Some u) = Ok (Some pf, None) /\ EquivalenceBytes pf = Ok b /\
  forall after, exists pf', NewEquivalenceProofFromBytes (b ++ after) = Ok (Some pf', None) /\
    accepts (EquivalenceVerify sha (Some pf') zk (pt B1) (pt R1) (pt B2) (pt R2)).
Proof.
  intros sha zk B1 B2 x u S H1 H2 R1 R2 P1 P2. destruct (C27_equivalence_complete sha zk B1 B2 x u S H1 H2 P1 P2) as (pf & E & A).
  destruct (C07_equivalence_roundtrip pf) as (b & Eb & Rt); [eapply (equiv_wf sha zk S); [ | | | |exact E]; isp|].
  exists pf, b. split; [exact E|]. split; [exact Eb|]. intros after. exists pf. split; [apply Rt|exact A].
Qed.
Print Assumptions C64_equivalence.
Theorem C64_consistency : forall sha zk PK v r u1 u2, std zk -> is_point PK ->
  let CM := ped v r in let CMTok := smul r (eff PK) in plain CM -> plain CMTok ->
  exists pf b, NewConsistencyProof sha zk (pt CM) (pt CMTok) (pt PK) (Some v) (Some r) (Some u1) (Some u2) = Ok (Some pf, None) /\
    ConsistencyBytes pf = Ok b /\
  forall after, exists pf', NewConsistencyProofFromBytes (b ++ after) = Ok (Some pf', None) /\
    accepts (ConsistencyVerify sha (Some pf') zk (pt CM) (pt CMTok) (pt PK)).
Proof.
  intros sha zk PK v r u1 u2 S H CM CT P1 P2. destruct (C29_consistency_complete sha zk PK v r u1 u2 S H P1 P2) as (pf & E & A).
  destruct (C07_consistency_roundtrip pf) as (b & Eb & Rt); [eapply (cons_wf sha zk S); [ | | |exact E]; isp|].
  exists pf, b. split; [exact E|]. split; [exact Eb|]. intros after. exists pf. split; [apply Rt|exact A].
Qed.
Print Assumptions C64_consistency.
Theorem C64_disjunctive : forall sha zk B1 R1 B2 R2 x side u1 u2 u3, std zk ->
  is_point B1 -> is_point R1 -> is_point B2 -> is_point R2 -> scalar u1 -> scalar u2 -> scalar u3 ->
  (side = Left /\ R1 = smul x (eff B1) /\ plain R1 \/ side = Right /\ R2 = smul x (eff B2) /\ plain R2) ->
  exists pf b, NewDisjunctiveProof sha zk (pt B1) (pt R1) (pt B2) (pt R2) (Some x) side (Some u1) (Some u2) (Some u3) = Ok (Some pf, None) /\
    DisjunctiveBytes pf = Ok b /\
  forall after, exists pf', NewDisjunctiveProofFromBytes (b ++ after) = Ok (Some pf', None) /\
    accepts (DisjunctiveVerify sha (Some pf') zk (pt B1) (pt R1) (pt B2) (pt R2)).
Proof.
  intros sha zk B1 R1 B2 R2 x side u1 u2 u3 S H1 H2 H3 H4 U1 U2 U3 Hs.
  assert (K : exists pf, NewDisjunctiveProof sha zk (pt B1) (pt R1) (pt B2) (pt R2) (Some x) side (Some u1) (Some u2) (Some u3) = Ok (Some pf, None) /\
     accepts (DisjunctiveVerify sha (Some pf) zk (pt B1) (pt R1) (pt B2) (pt R2))).
  { destruct Hs as [(-> & -> & Pl)|(-> & -> & Pl)]; [apply C32_disjunctive_complete_left|apply C32_disjunctive_complete_right]; assumption. }
  destruct K as (pf & E & A).
  destruct (C07_disjunctive_roundtrip pf) as (b & Eb & Rt);
    [exact (disj_wf sha zk S B1 R1 B2 R2 x side u1 u2 u3 pf H1 H2 H3 H4 U1 U2 U3 E)|].
  exists pf, b. split; [exact E|]. split; [exact Eb|]. intros after. exists pf. split; [apply Rt|exact A].
Qed.
Print Assumptions C64_disjunctive.
Theorem C64_abc : forall sha zk v r sk u1 u2 u3 ub uc d1 d2 d3, std zk -> sk mod N <> 0 -> (v = 0 \/ v mod N <> 0) -> Z.abs v < 2 ^ 256 ->
  let CM := ped v r in let CMTok := smul r (smul sk Htab) in
  scalar u3 -> scalar ub -> scalar uc -> scalar d1 -> scalar d2 -> scalar d3 ->
  plain CM -> plain CMTok ->
  (v = 0 -> plain (ped 0 ub) /\ plain (ped 0 uc)) -> (v <> 0 -> plain (ped (ninv v) ub) /\ plain (ped 1 uc) /\ plain (smul uc Htab)) ->
  exists pf b, NewABCProof sha zk (pt CM) (pt CMTok) (Some v) (Some sk) (if v =? 0 then Left else Right)
      (Build_abcRand (Some u1) (Some u2) (Some u3) (Some ub) (Some uc) (Some d1) (Some d2) (Some d3)) = Ok (Some pf, None) /\
    ABCBytes pf = Ok b /\
  forall after, exists pf', NewABCProofFromBytes (b ++ after) = Ok (Some pf', None) /\ accepts (ABCVerify sha (Some pf') zk (pt CM) (pt CMTok)).
Proof.
  intros sha zk v r sk u1 u2 u3 ub uc d1 d2 d3 S Hs Hv Bv CM CT U3 Ub Uc D1 D2 D3 P1 P2 PL PR.
  assert (K : exists pf, NewABCProof sha zk (pt CM) (pt CT) (Some v) (Some sk) (if v =? 0 then Left else Right)
      (Build_abcRand (Some u1) (Some u2) (Some u3) (Some ub) (Some uc) (Some d1) (Some d2) (Some d3)) = Ok (Some pf, None) /\
      accepts (ABCVerify sha (Some pf) zk (pt CM) (pt CT))).
  { unfold CM, CT in *. destruct (Z.eqb_spec v 0) as [->|V].
    - destruct (PL eq_refl) as [A B]. apply C35_abc_complete_left; assumption.
    - destruct (PR V) as (A & B & C). destruct Hv as [Hv|Hv]; [contradiction|]. apply C35_abc_complete_right; assumption. }
  destruct K as (pf & E & A). assert (I1 : is_point CM) by (unfold CM; isp). assert (I2 : is_point CT) by (unfold CT; isp).
  destruct (C07_abc_roundtrip pf) as (b & Eb & Rt);
    [exact (abc_wf sha zk S CM CT v sk _ u1 u2 u3 ub uc d1 d2 d3 pf I1 I2 Bv U3 Ub Uc D1 D2 D3 E)|].
  exists pf, b. split; [exact E|]. split; [exact Eb|]. intros after. exists pf. split; [apply Rt|exact A].
Qed.
Print Assumptions C64_abc.
Theorem C64_range : forall sha zk value d1 d2 j, std zk -> 0 <= value < 2 ^ 40 ->
  goodDraws sha 40 value d1 d2 j -> (forall i, scalar (d1 i) /\ scalar (d2 i) /\ scalar (j i)) ->
  0 <= honDigest sha 40 value d1 d2 < N ->
  exists pf vt b, NewRangeProof sha zk (Some value) (draws d1 d2 j) = Ok (Some pf, Some vt, None) /\ RangeBytes pf = Ok b /\
  forall after, exists pf', NewRangeProofFromBytes (b ++ after) = Ok (Some pf', None) /\
    accepts (RangeVerify sha (Some pf') zk (pt (ped value vt))).
Proof.
  intros sha zk value d1 d2 j S Hv H D Dg. destruct (C42_range_complete sha zk value d1 d2 j S Hv H Dg) as (pf & vt & E & A).
  destruct (C07_range_roundtrip pf) as (b & Eb & Rt); [exact (range_wf sha zk S value d1 d2 j pf (Some vt) Hv H D E)|].
  exists pf, vt, b. split; [exact E|]. split; [exact Eb|]. intros after. exists pf. split; [apply Rt|exact A].
Qed.
Print Assumptions C64_range.

(** cases: the hypotheses other than those on the size of the draws are those of C22,
    C27, C29, C32, C35 and C42, whose examples apply; a full one for ABC and range: *)
Example C64_case : std specZk /\
  (1 mod N <> 0 /\ plain (ped 0 1) /\ plain (smul 1 (smul 1 Htab)) /\ scalar 1) /\
  (goodDraws (shaC 1) 40 (2 ^ 40 - 1) (fun _ => 0) (fun _ => 5) (fun _ => 6) /\
   (scalar 0 /\ scalar 5 /\ scalar 6) /\ 0 <= honDigest (shaC 1) 40 (2 ^ 40 - 1) (fun _ => 0) (fun _ => 5) < N).
Proof.
  assert (Sc : forall z, 0 <= z < 10 -> scalar z) by (intros z [L M]; split; [exact L|eapply Z.lt_trans; [exact M|reflexivity]]).
  split; [exact specZk_std|]. split.
  - destruct plain_3 as (A & _ & B). split; [discriminate|]. split; [exact A|]. split; [exact B|]. apply Sc. lia.
  - destruct C42_nonvacuous as (_ & _ & A & B). split; [exact A|]. split; [|exact B]. split; [apply Sc; lia|]. split; apply Sc; lia.
Qed.
