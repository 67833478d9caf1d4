(** * What range proofs and ABC proofs reveal (C61, C62) *)
From Coq Require Import ZArith List Lia Bool.
From Verif Require Import Go Wire Big Crypto Spec FieldP CurveGroup Order FieldN CurveZ SpecZk ZkBase PointProofs GspfsProofs
  EqConsProofs Range SpecRange RangeProofs SpecLeak LeakProofs Disjunctive DisjProofs Abc AbcProofs PropDisj PropAbc.
Import ListNotations.
Open Scope Z_scope.

(** C61 (refuted).  The responses are published without reduction modulo N, and a
    response of a 1 bit is below N*N.  So a larger response shows a 0 bit, in every
    run whatever the draws are ... *)
Theorem C61_zero_bit_visible_refuted : forall sha zk value d1 d2 j, std zk -> 0 <= value < 2 ^ 40 ->
  goodDraws sha 40 value d1 d2 j -> (forall i, scalar (d1 i) /\ scalar (d2 i) /\ scalar (j i)) ->
  exists pf vt cs, NewRangeProof sha zk (Some value) (draws d1 d2 j) = Ok (Some pf, Some vt, None) /\
    rpTuples pf = tuples cs /\ length cs = 40%nat /\
    forall i C s, nth_error cs i = Some (C, s) -> N * N <= s -> Z.testbit value (Z.of_nat i) = false.
Proof.
  intros sha zk value d1 d2 j S Hv H D. pose proof (run_ok sha zk S 40 value d1 d2 j ltac:(lia) H eq_refl ltac:(lia)) as R.
  eexists. eexists. exists (honCs sha (honDigest sha 40 value d1 d2 mod N) 40 value d1 d2 j). split; [exact R|]. split; [reflexivity|].
  split; [reflexivity|]. clear R. intros i C s E L. fold (rangeBit value i). unfold honCs in E.
  assert (Hi : (i < 40)%nat). { assert (Q : nth_error (map (fun i : nat => (honC sha (honDigest sha 40 value d1 d2 mod N) i (rangeBit value i) (d1 i) (j i), honS sha (honDigest sha 40 value d1 d2 mod N) i (rangeBit value i) (d1 i) (d2 i) (j i))) (seq 0 40)) i <> None) by congruence. apply nth_error_Some in Q. rewrite map_length, seq_length in Q. exact Q. }
  rewrite nth_error_map in E. rewrite (nth_error_nth' _ 0%nat) in E by (rewrite seq_length; exact Hi). rewrite seq_nth in E by exact Hi. cbn [option_map Nat.add] in E.
  destruct (rangeBit value i) eqn:B; [exfalso|reflexivity].
  assert (Es : s = honS sha (honDigest sha 40 value d1 d2 mod N) i true (d1 i) (d2 i) (j i)) by congruence. rewrite Es in L.
  destruct (D i) as (D1 & D2 & _).
  pose proof (honS_one sha (honDigest sha 40 value d1 d2 mod N) i (d1 i) (d2 i) (j i) ltac:(apply Z.mod_pos_bound; reflexivity) D1 D2). lia.
Qed.
Print Assumptions C61_zero_bit_visible_refuted.

(** ... and when the responses of the 0 bits are that large, which is the rule since
    they are products of three numbers of the size of N, and the challenge exceeds
    N/2, the published proof gives the value and an opening of every bit commitment,
    its blinding factor up to 1. *)
Theorem C61_proof_opens_refuted : forall sha zk value d1 d2 j, std zk -> 0 <= value < 2 ^ 40 ->
  goodDraws sha 40 value d1 d2 j -> (forall i, scalar (d1 i) /\ scalar (d2 i) /\ scalar (j i)) ->
  let e := honDigest sha 40 value d1 d2 mod N in
  N < 2 * e -> (forall i, (i < 40)%nat -> rangeBit value i = false -> N * N <= honS sha e i false (d1 i) (d2 i) (j i)) ->
  exists A cs vt, NewRangeProof sha zk (Some value) (draws d1 d2 j) = Ok (Some (MkRange A (Some e) (tuples cs)), Some vt, None) /\
    value = readValue 0 cs /\
    forall i C s, nth_error cs i = Some (C, s) ->
      C = ped (readBit s * 2 ^ Z.of_nat i) (readBlind sha e i C s) \/ C = ped (readBit s * 2 ^ Z.of_nat i) (readBlind sha e i C s - 1).
Proof.
  intros sha zk value d1 d2 j S Hv H D e He Big.
  pose proof (run_ok sha zk S 40 value d1 d2 j ltac:(lia) H eq_refl ltac:(lia)) as R. fold e in R.
  eexists. exists (honCs sha e 40 value d1 d2 j). eexists. split; [exact R|]. clear R.
  assert (K : forall i, (i < 40)%nat -> _) by (intros i Hi; destruct (D i) as (D1 & D2 & D3);
    exact (ring_read sha e i (rangeBit value i) (d1 i) (d2 i) (j i) ltac:(apply Z.mod_pos_bound; reflexivity) He D1 D2 D3 (H i Hi)
      ltac:(intros Hb; rewrite Hb; apply Big; assumption))).
  split.
  - unfold honCs. rewrite readValue_run by (intros i Hi; apply K; lia). rewrite testbit_sum. symmetry. apply Z.mod_small. exact Hv.
  - intros i C s E. unfold honCs in E.
    assert (Hi : (i < 40)%nat). { assert (Q : nth_error (map (fun i : nat => (honC sha e i (rangeBit value i) (d1 i) (j i), honS sha e i (rangeBit value i) (d1 i) (d2 i) (j i))) (seq 0 40)) i <> None) by congruence. apply nth_error_Some in Q. rewrite map_length, seq_length in Q. exact Q. }
    rewrite nth_error_map in E. rewrite (nth_error_nth' _ 0%nat) in E by (rewrite seq_length; exact Hi). rewrite seq_nth in E by exact Hi. cbn [option_map Nat.add] in E.
    assert (EC : C = honC sha e i (rangeBit value i) (d1 i) (j i)) by congruence.
    assert (Es : s = honS sha e i (rangeBit value i) (d1 i) (d2 i) (j i)) by congruence. clear E.
    destruct (K i Hi) as [K1 K2]. rewrite <- EC, <- Es in K2. rewrite <- Es in K1. rewrite K1.
    assert (W : (if rangeBit value i then 1 else 0) * 2 ^ Z.of_nat i = if rangeBit value i then 2 ^ Z.of_nat i else 0) by (destruct (rangeBit value i); lia).
    rewrite W. pose proof (hon_C_ped sha e i (rangeBit value i) (d1 i) (j i)) as Q. rewrite <- EC in Q.
    destruct K2 as [K2|K2]; rewrite K2 in Q; [left|right]; exact Q.
Qed.
Print Assumptions C61_proof_opens_refuted.
Example C61_nonvacuous : exists d1, std specZk /\ goodDraws (shaC (N - 1)) 40 (2 ^ 40 - 2) d1 (fun _ => 5) (fun _ => 7) /\
  (forall i, scalar (d1 i)) /\ honDigest (shaC (N - 1)) 40 (2 ^ 40 - 2) d1 (fun _ => 5) mod N = N - 1 /\ N < 2 * (N - 1) /\
  rangeBit (2 ^ 40 - 2) 0 = false /\
  forall i, rangeBit (2 ^ 40 - 2) i = false -> (i < 40)%nat -> N * N <= honS (shaC (N - 1)) (N - 1) i false (d1 i) 5 7.
Proof.
  destruct leak_example as (k & Sk & Gd & Big). eexists. split; [exact specZk_std|]. split; [exact Gd|].
  split; [intros [|i]; [exact Sk|split; [discriminate|reflexivity]]|].
  split; [rewrite digest_shaC by (split; [discriminate|reflexivity]); reflexivity|].
  split; [reflexivity|]. split; [reflexivity|]. exact Big.
Qed.

(** C62 (refuted): the disjunctive proof inside an ABC proof for the value 0 proves
    knowledge of the private key, and shows the private key: it is a quotient of two
    published numbers, up to 1. *)
Theorem C62_private_key_leaks_refuted : forall sha zk CM CMTok sk u1 u2 u3 ub uc d1 d2 d3 B C T1 T2 c j k l tok D1 D2 dc c1 c2 s1 s2, std zk ->
  is_point CM -> is_point CMTok -> scalar d1 -> scalar d2 -> scalar d3 ->
  NewABCProof sha zk (pt CM) (pt CMTok) (Some 0) (Some sk) Left
    (Build_abcRand (Some u1) (Some u2) (Some u3) (Some ub) (Some uc) (Some d1) (Some d2) (Some d3)) =
    Ok (Some (MkABC B C T1 T2 c j k l tok (Some (MkDisj D1 D2 (Some dc) (Some c1) (Some c2) (Some s1) (Some s2)))), None) ->
  N < 2 * c1 -> sk mod N = s1 / c1 \/ sk mod N = s1 / c1 - 1.
Proof.
  intros sha zk CM CT sk u1 u2 u3 ub uc d1 d2 d3 B C T1 T2 c j k l tok D1 D2 dc c1 c2 s1 s2 S H1 H2 S1 S2 S3 E L.
  fold (abcRn u1 u2 u3 ub uc (Some d1) (Some d2) (Some d3)) in E. rewrite (abc_left sha zk S) in E by assumption.
  destruct (NewDisjunctiveProof _ _ _ _ _ _ _ _ _ _ _) as [[d [er|]]|] eqn:ED; try discriminate E. cbn [abcDisj bind snd fst] in E.
  destruct (sk mod N =? 0); [discriminate E|]. apply Ok_inj in E. unfold abcOut in E.
  assert (Q : d = Some (MkDisj D1 D2 (Some dc) (Some c1) (Some c2) (Some s1) (Some s2))) by congruence. rewrite Q in ED.
  assert (P1 : is_point Hgen) by isp. assert (P2 : is_point (padd (ped 0 uc) (pneg G))) by isp.
  exact (proj1 (C34_secret_leaks_refuted sha zk CM CT Hgen (padd (ped 0 uc) (pneg G)) sk d1 d2 d3 D1 D2 dc c1 c2 s1 s2 S H1 H2 P1 P2 S1 S2 S3) ED L).
Qed.
Print Assumptions C62_private_key_leaks_refuted.
(** whether the value is 0 shows as well, by the sizes of the two responses *)
Theorem C62_zero_visible_refuted : forall sha zk CM CMTok v sk side u1 u2 u3 ub uc d1 d2 d3 B C T1 T2 c j k l tok D1 D2 dc c1 c2 s1 s2, std zk ->
  is_point CM -> is_point CMTok -> scalar d1 -> scalar d2 -> scalar d3 ->
  NewABCProof sha zk (pt CM) (pt CMTok) (Some v) (Some sk) side
    (Build_abcRand (Some u1) (Some u2) (Some u3) (Some ub) (Some uc) (Some d1) (Some d2) (Some d3)) =
    Ok (Some (MkABC B C T1 T2 c j k l tok (Some (MkDisj D1 D2 (Some dc) (Some c1) (Some c2) (Some s1) (Some s2)))), None) ->
  (N <= s1 -> v = 0) /\ (N <= s2 -> v <> 0) /\
  (v = 0 -> 2 <= sk mod N -> N < 2 * c1 -> N <= s1) /\ (v <> 0 -> 2 <= uc mod N -> N < 2 * c2 -> N <= s2).
Proof.
  intros sha zk CM CT v sk side u1 u2 u3 ub uc d1 d2 d3 B C T1 T2 c j k l tok D1 D2 dc c1 c2 s1 s2 S H1 H2 S1 S2 S3 E.
  fold (abcRn u1 u2 u3 ub uc (Some d1) (Some d2) (Some d3)) in E.
  assert (P1 : is_point Hgen) by isp.
  destruct (Z.eq_dec side Left) as [->|NL]; [|destruct (Z.eq_dec side Right) as [->|NR]].
  - destruct (Z.eq_dec v 0) as [->|V].
    + rewrite (abc_left sha zk S) in E by assumption.
      destruct (NewDisjunctiveProof _ _ _ _ _ _ _ _ _ _ _) as [[d [er|]]|] eqn:ED; try discriminate E. cbn [abcDisj bind snd fst] in E.
      destruct (sk mod N =? 0); [discriminate E|]. apply Ok_inj in E. unfold abcOut in E.
      assert (Q : d = Some (MkDisj D1 D2 (Some dc) (Some c1) (Some c2) (Some s1) (Some s2))) by congruence. rewrite Q in ED.
      assert (P2 : is_point (padd (ped 0 uc) (pneg G))) by isp.
      destruct (C34_side_visible_refuted sha zk CM CT Hgen (padd (ped 0 uc) (pneg G)) sk Left d1 d2 d3 D1 D2 dc c1 c2 s1 s2 S H1 H2 P1 P2 S1 S2 S3 ED)
        as (A1 & A2 & A3 & A4).
      split; [reflexivity|]. split; [intros X; specialize (A2 X); discriminate A2|]. split; [|congruence].
      intros _ X Y. exact (A3 X eq_refl Y).
    + exfalso. unfold NewABCProof, abcRn in E. cbn [ar1 ar2 ar3 arb arc] in E. revert E. zk S.
      change ((Left =? Left) || (Left =? Right)) with true. cbv iota. cbn [need bind]. apply Z.eqb_neq in V. rewrite V.
      change (Left =? Left) with true. change (Left =? Right) with false. cbn [andb]. discriminate.
  - destruct (Z.eq_dec v 0) as [->|V].
    + exfalso. unfold NewABCProof, abcRn in E. cbn [ar1 ar2 ar3 arb arc] in E. revert E. zk S.
      change ((Right =? Left) || (Right =? Right)) with true. cbv iota. cbn [need bind].
      change (Right =? Left) with false. change (0 =? 0) with true. cbn [andb negb]. rewrite andb_false_r. discriminate.
    + destruct (Z.eq_dec (v mod N) 0) as [VN|VN].
      { rewrite (abc_right_panic sha zk S) in E by assumption. discriminate E. }
      rewrite (abc_right sha zk S) in E by assumption.
      destruct (NewDisjunctiveProof _ _ _ _ _ _ _ _ _ _ _) as [[d [er|]]|] eqn:ED; try discriminate E. cbn [abcDisj bind snd fst] in E.
      destruct (sk mod N =? 0); [discriminate E|]. apply Ok_inj in E. unfold abcOut in E.
      assert (Q : d = Some (MkDisj D1 D2 (Some dc) (Some c1) (Some c2) (Some s1) (Some s2))) by congruence. rewrite Q in ED.
      assert (P2 : is_point (padd (ped 1 uc) (pneg G))) by isp.
      destruct (C34_side_visible_refuted sha zk CM CT Hgen (padd (ped 1 uc) (pneg G)) uc Right d1 d2 d3 D1 D2 dc c1 c2 s1 s2 S H1 H2 P1 P2 S1 S2 S3 ED)
        as (A1 & A2 & A3 & A4).
      split; [intros X; specialize (A1 X); discriminate A1|]. split; [intros _; exact V|]. split; [congruence|].
      intros _ X Y. exact (A4 X eq_refl Y).
  - exfalso. unfold NewABCProof, abcRn in E. cbn [ar1 ar2 ar3 arb arc] in E. revert E. zk S.
    apply Z.eqb_neq in NL, NR. rewrite NL, NR. cbn [orb andb bind]. discriminate.
Qed.
Print Assumptions C62_zero_visible_refuted.
Example C62_nonvacuous : exists B C T1 T2 c j k l tok D1 D2,
  NewABCProof (shaC (N - 1)) specZk (pt (ped 0 1)) (pt (smul 1 (smul 3 Htab))) (Some 0) (Some 3) Left
    (Build_abcRand (Some 2) (Some 3) (Some 5) (Some 1) (Some 1) (Some 4) (Some 6) (Some 9)) =
    Ok (Some (MkABC B C T1 T2 c j k l tok (Some (MkDisj D1 D2 (Some (N - 1)) (Some (N - 10)) (Some 9) (Some (4 + (N - 10) * 3)) (Some 6)))), None) /\
  N < 2 * (N - 10) /\ 3 mod N = (4 + (N - 10) * 3) / (N - 10).
Proof.
  assert (P1 : is_point (ped 0 1)) by isp. assert (P2 : is_point (smul 1 (smul 3 Htab))) by isp.
  assert (Q : fst (smul 3 (eff (ped 0 1))) = fst (smul 1 (smul 3 Htab)))
    by (rewrite (eff_plain (ped 0 1)) by (isp || exact (proj1 plain_3)); rewrite ped_0_1, smul_1; reflexivity).
  destruct (abc_left_run (shaC (N - 1)) specZk (ped 0 1) (smul 1 (smul 3 Htab)) 3 2 3 5 1 1 4 6 9 (N - 1) (N - 10) 3 specZk_std P1 P2 Q)
    as (B & C & T1 & T2 & c & j & k & l & tok & D1 & D2 & E);
    [intros; apply fs_shaC; split; [discriminate|reflexivity]|reflexivity|reflexivity|discriminate|].
  do 11 eexists. split; [exact E|]. split; reflexivity.
Qed.

(** An inequality proof shows which of the two committed values is the larger one: its
    response l is not reduced, and a negative l shows a > b.  l is negative in every
    run in which a - b, times the random ub, exceeds N + uc. *)
Theorem C62_order_visible_refuted : forall sha zk A B TA TB a b sk u1 u2 u3 ub uc d1 d2 d3 B' C T1 T2 c j k l tok dj, std zk ->
  is_point A -> is_point B -> is_point TA -> is_point TB -> scalar u3 -> scalar ub -> scalar uc ->
  NewInequalityProof sha zk (pt A) (pt B) (pt TA) (pt TB) (Some a) (Some b) (Some sk)
    (Build_abcRand (Some u1) (Some u2) (Some u3) (Some ub) (Some uc) d1 d2 d3) =
    Ok (Some (MkABC B' C T1 T2 (Some c) j k (Some l) tok dj), None) ->
  (l < 0 -> b < a) /\ (N + uc <= (a - b) * ub -> 0 < c -> l < 0).
Proof.
  intros sha zk A B TA TB a b sk u1 u2 u3 ub uc d1 d2 d3 B' C T1 T2 c j k l tok dj S HA HB HTA HTB H3 Hb Hu E.
  destruct (ineq_l sha zk A B TA TB a b sk u1 u2 u3 ub uc d1 d2 d3 B' C T1 T2 c j k l tok dj S HA HB HTA HTB E) as [El Hc]. clear E.
  destruct (sign_gen N u3 uc c (a - b) ub H3 (proj1 Hu) (proj1 Hc) (proj1 Hb)) as [K1 K2]. rewrite El. split; [|exact K2].
  intros L. apply Z.lt_0_sub. exact (K1 L).
Qed.
Print Assumptions C62_order_visible_refuted.
Example C62_order_nonvacuous : exists B' C T1 T2 j k l tok dj,
  NewInequalityProof (shaC 3) specZk (pt (ped 9 3)) (pt (ped 4 3)) (pt (smul 3 (smul 1 Htab))) (pt (smul 3 (smul 1 Htab))) (Some 9) (Some 4) (Some 1)
    (Build_abcRand (Some 2) (Some 3) (Some 5) (Some (N - 1)) (Some 1) (Some 4) (Some 6) (Some 9)) =
    Ok (Some (MkABC B' C T1 T2 (Some 3) j k (Some l) tok dj), None) /\ N + 1 <= (9 - 4) * (N - 1) /\ l < 0.
Proof.
  destruct (ineq_run (shaC 3) specZk (ped 9 3) (ped 4 3) (smul 3 (smul 1 Htab)) (smul 3 (smul 1 Htab)) 9 4 1 2 3 5 (N - 1) 1 4 6 9 3 specZk_std)
    as (B' & C & T1 & T2 & j & k & tok & dj & E);
    [isp|isp|isp|isp|discriminate|discriminate|intros; apply fs_shaC; split; [discriminate|reflexivity]|].
  do 9 eexists. split; [exact E|]. split; [discriminate|reflexivity].
Qed.
