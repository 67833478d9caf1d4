(** * Properties of range proofs (C41-C43, C45) *)
From Coq Require Import ZArith List Lia Bool.
From Verif Require Import Go Wire Big Crypto Spec FieldP CurveGroup Order FieldN CurveZ SpecZk ZkBase PointProofs GspfsProofs
  EqConsProofs Range SpecRange RangeProofs.
Import ListNotations.
Open Scope Z_scope.

(** C41: values outside 0 .. 2^40 give an error, whatever the random source does. *)
Theorem C41_range_error : forall sha zk value rn, value < 0 \/ 2 ^ 40 < value ->
  NewRangeProof sha zk (Some value) rn = Ok (None, None, Some ERange).
Proof.
  intros sha zk value rn H. unfold NewRangeProof. cbn [need bind]. change 1099511627776 with (2 ^ 40).
  destruct (Z.ltb_spec (2 ^ 40) value); [reflexivity|]. destruct (Z.ltb_spec value 0); [reflexivity|lia].
Qed.
Print Assumptions C41_range_error.
(** 2^40 is outside the range but gives no error.  The proof commits to 0, and it does
    not verify against a commitment to 2^40 with the randomness returned (unless that
    commitment happens to be the negation of the one to 0). *)
Theorem C41_boundary_refuted : forall sha zk d1 d2 j, std zk -> goodDraws sha 40 (2 ^ 40) d1 d2 j ->
  exists pf vt, NewRangeProof sha zk (Some (2 ^ 40)) (draws d1 d2 j) = Ok (Some pf, Some vt, None) /\
    rpAggregate pf = pt (ped 0 vt) /\
    (ped (2 ^ 40) vt <> pneg (ped 0 vt) -> rejects (RangeVerify sha (Some pf) zk (pt (ped (2 ^ 40) vt)))).
Proof.
  intros sha zk d1 d2 j S H. pose proof (run_ok sha zk S 40 (2 ^ 40) d1 d2 j ltac:(lia) H eq_refl ltac:(lia)) as R.
  eexists. eexists. split; [exact R|]. split; [reflexivity|]. intros D.
  pose proof (run_verify sha zk S 40 (2 ^ 40) d1 d2 j ltac:(lia) H) as V. cbv zeta in V. change (Z.of_nat 40) with 40 in V.
  rewrite V by isp. clear R V. rewrite Z_mod_same_full in *. revert D. generalize (honVt sha (honDigest sha 40 (2 ^ 40) d1 d2 mod N) 40 (2 ^ 40) d1 j).
  intros v D. replace (fst (ped (2 ^ 40) v) =? fst (ped 0 v)) with false; [rewrite andb_false_r; reflexivity|]. symmetry.
  apply x_eq_false; [isp|isp|]. intros [E|E].
  - symmetry in E. revert E. apply ped_value_neq. discriminate.
  - apply D. rewrite E, pneg_invol by isp. reflexivity.
Qed.
Print Assumptions C41_boundary_refuted.
Example C41_nonvacuous : exists d1 : nat -> Z, goodDraws (shaC 1) 40 (2 ^ 40) d1 (fun _ => 0) (fun _ => 7) /\
  let vt := honVt (shaC 1) 1 40 (2 ^ 40) d1 (fun _ => 7) in ped (2 ^ 40) vt <> pneg (ped 0 vt).
Proof. exact zeros_good. Qed.

(** C42 *)
Theorem C42_range_complete : forall sha zk value d1 d2 j, std zk -> 0 <= value < 2 ^ 40 ->
  goodDraws sha 40 value d1 d2 j -> 0 <= honDigest sha 40 value d1 d2 < N ->
  exists pf vt, NewRangeProof sha zk (Some value) (draws d1 d2 j) = Ok (Some pf, Some vt, None) /\
    accepts (RangeVerify sha (Some pf) zk (pt (ped value vt))).
Proof.
  intros sha zk value d1 d2 j S Hv H D. pose proof (run_ok sha zk S 40 value d1 d2 j ltac:(lia) H eq_refl ltac:(lia)) as R.
  eexists. eexists. split; [exact R|].
  pose proof (run_verify sha zk S 40 value d1 d2 j ltac:(lia) H) as V. cbv zeta in V. change (Z.of_nat 40) with 40 in V.
  rewrite V by isp. rewrite (Z.mod_small value) by exact Hv. rewrite (Z.mod_small _ N) by exact D.
  rewrite !Z.eqb_refl. reflexivity.
Qed.
Print Assumptions C42_range_complete.
Example C42_nonvacuous : std specZk /\ 0 <= 2 ^ 40 - 1 < 2 ^ 40 /\
  goodDraws (shaC 1) 40 (2 ^ 40 - 1) (fun _ => 0) (fun _ => 5) (fun _ => 6) /\
  0 <= honDigest (shaC 1) 40 (2 ^ 40 - 1) (fun _ => 0) (fun _ => 5) < N.
Proof.
  split; [exact specZk_std|]. split; [lia|]. split; [apply (ones_good (shaC 1) 40); lia|].
  unfold honDigest. rewrite hs_shaC by lia. split; [discriminate|reflexivity].
Qed.

(** C43: an honest proof whose digest is at least N is rejected, against any commitment. *)
Theorem C43_large_digest_refuted : forall sha zk value d1 d2 j comm, std zk -> 0 <= value < 2 ^ 40 -> is_point comm ->
  goodDraws sha 40 value d1 d2 j -> N <= honDigest sha 40 value d1 d2 ->
  exists pf vt, NewRangeProof sha zk (Some value) (draws d1 d2 j) = Ok (Some pf, Some vt, None) /\
    rejects (RangeVerify sha (Some pf) zk (pt comm)).
Proof.
  intros sha zk value d1 d2 j comm S Hv Hc H D. pose proof (run_ok sha zk S 40 value d1 d2 j ltac:(lia) H eq_refl ltac:(lia)) as R.
  eexists. eexists. split; [exact R|].
  pose proof (run_verify sha zk S 40 value d1 d2 j ltac:(lia) H) as V. cbv zeta in V. change (Z.of_nat 40) with 40 in V.
  rewrite V by exact Hc. revert D. generalize (honDigest sha 40 value d1 d2). intros g D.
  destruct (Z.eqb_spec (g mod N) g) as [E|E]; [|reflexivity].
  pose proof (Z.mod_pos_bound g N N_pos). exfalso. apply (Z.lt_irrefl N). rewrite E in *. eapply Z.le_lt_trans; [exact D|]. apply H0.
Qed.
Print Assumptions C43_large_digest_refuted.
Example C43_nonvacuous : std specZk /\ is_point G /\
  goodDraws (shaC (2 ^ 256 - 1)) 40 (2 ^ 40 - 1) (fun _ => 0) (fun _ => 5) (fun _ => 6) /\
  N <= honDigest (shaC (2 ^ 256 - 1)) 40 (2 ^ 40 - 1) (fun _ => 0) (fun _ => 5).
Proof.
  split; [exact specZk_std|]. split; [isp|]. split; [apply (ones_good _ 40); lia|].
  unfold honDigest. rewrite hs_shaC by lia. discriminate.
Qed.

(** C45: what an accepted proof says.  The rings close on the challenge, and the
    commitment is, up to sign, the sum of the ring commitments. *)
Theorem C45_accept_iff : forall sha zk A e cs comm, std zk -> is_point A -> is_point comm ->
  Forall (fun c => is_point (fst c)) cs -> (length cs <= 64)%nat ->
  (accepts (RangeVerify sha (Some (MkRange (pt A) (Some e) (tuples cs))) zk (pt comm)) <->
   e = hs sha (rings sha e 0 cs) /\ pm (psum (map fst cs)) A /\ pm comm (psum (map fst cs))).
Proof. intros. apply range_accepts; assumption. Qed.
Print Assumptions C45_accept_iff.
(** Two accepted proofs in which ring i hashes the same point for the same commitment
    but different challenges: the commitment opens to 2^i. *)
Theorem C45_extract_one : forall e e' i C s s', is_point C -> plain (padd C (pneg (smul (2 ^ Z.of_nat i) G))) ->
  e mod N <> e' mod N -> ringT e i C s = ringT e' i C s' ->
  C = ped (2 ^ Z.of_nat i) (slope 1 1 s e s' e').
Proof. exact ring_extract_one. Qed.
Print Assumptions C45_extract_one.
Example C45_extract_one_nonvacuous : let C := ped 2 1 in is_point C /\ plain (padd C (pneg (smul (2 ^ Z.of_nat 1) G))) /\
  1 mod N <> 2 mod N /\ ringT 1 1 C 8 = ringT 2 1 C 9.
Proof. exact one_fork. Qed.
(** Two accepted proofs with the same challenge in which ring i hashes the same point
    with different hash functions and ends in the same point: the commitment opens to 0. *)
Theorem C45_extract_zero : forall sha sha' e i C s C' s', is_point C -> is_point C' -> plain C -> plain C' ->
  plain (padd C (pneg (smul (2 ^ Z.of_nat i) G))) -> plain (padd C' (pneg (smul (2 ^ Z.of_nat i) G))) ->
  let h := hs sha [ringT e i C s] in let h' := hs sha' [ringT e i C' s'] in
  e mod N <> 0 -> h mod N <> h' mod N -> ringT e i C s = ringT e i C' s' -> ringR sha e i C s = ringR sha' e i C' s' ->
  C = ped 0 (((s - s') * h' * ninv (e * (h' - h))) mod N).
Proof.
  intros sha sha' e i C s C' s' HC HC' P P' Q Q' h h' De Dh ET ER. unfold ringR in ER. fold h in ER. fold h' in ER.
  rewrite (eff_plain C), (eff_plain C') in ER by assumption. apply (ring_extract_zero e i C s C' s'); assumption.
Qed.
Print Assumptions C45_extract_zero.
Example C45_extract_zero_nonvacuous : exists y, let C := smul 6 G in let C' := smul 3 G in
  plain C /\ plain C' /\ plain (padd C (pneg (smul (2 ^ Z.of_nat 0) G))) /\ plain (padd C' (pneg (smul (2 ^ Z.of_nat 0) G))) /\
  hs (shaC 1) [ringT 1 0 C y] mod N <> hs (shaC 2) [ringT 1 0 C' 0] mod N /\
  ringT 1 0 C y = ringT 1 0 C' 0 /\ ringR (shaC 1) 1 0 C y = ringR (shaC 2) 1 0 C' 0.
Proof. exact zero_fork. Qed.
(** If every ring of an accepted proof opens to 0 or 2^i, the commitment opens, up to
    sign, to a value below 2^(number of rings). *)
Theorem C45_range_sound : forall sha zk A e cs comm (b x : nat -> Z), std zk -> is_point A -> is_point comm ->
  Forall (fun c => is_point (fst c)) cs -> (length cs <= 64)%nat ->
  accepts (RangeVerify sha (Some (MkRange (pt A) (Some e) (tuples cs))) zk (pt comm)) ->
  (forall i, b i = 0 \/ b i = 1) ->
  map fst cs = map (fun i => ped (b i * 2 ^ Z.of_nat i) (x i)) (seq 0 (length cs)) ->
  let v := zsum (map (fun i => b i * 2 ^ Z.of_nat i) (seq 0 (length cs))) in
  let r := zsum (map x (seq 0 (length cs))) in
  0 <= v < 2 ^ Z.of_nat (length cs) /\ pm comm (ped v r).
Proof.
  intros sha zk A e cs comm b x S HA Hc Hcs L Acc Hb E v r. split; [apply bits_bound; exact Hb|].
  apply range_accepts in Acc; try assumption. destruct Acc as (_ & _ & Q). rewrite E, psum_ped in Q. exact Q.
Qed.
Print Assumptions C45_range_sound.
(** Together: from an accepted proof and one fork per ring, the bits and blindings
    computed from the forks give an opening, up to sign, of the commitment to a value below
    2^(number of rings). *)
Theorem C45_fork_sound : forall sha zk A e cs comm (f : nat -> fork), std zk -> is_point A -> is_point comm ->
  Forall (fun c => is_point (fst c)) cs -> (length cs <= 64)%nat ->
  accepts (RangeVerify sha (Some (MkRange (pt A) (Some e) (tuples cs))) zk (pt comm)) ->
  (forall i C s, nth_error cs i = Some (C, s) -> forkOk sha e i C s (f i)) ->
  let v := zsum (map (fun i => forkBit (f i) * 2 ^ Z.of_nat i) (seq 0 (length cs))) in
  let r := zsum (map (fun i => let (C, s) := nth i cs (O, 0) in forkBlind sha e i C s (f i)) (seq 0 (length cs))) in
  0 <= v < 2 ^ Z.of_nat (length cs) /\ pm comm (ped v r).
Proof.
  intros sha zk A e cs comm f S HA Hc Hcs L Acc F.
  apply (C45_range_sound sha zk A e cs comm (fun i => forkBit (f i))
    (fun i => let (C, s) := nth i cs (O, 0) in forkBlind sha e i C s (f i)) S HA Hc Hcs L Acc).
  - intros i. destruct (f i); [right|left]; reflexivity.
  - apply nth_ext with (d := O) (d' := O); [rewrite !map_length, seq_length; reflexivity|].
    intros i Hi. rewrite map_length in Hi.
    assert (E : nth_error cs i = Some (nth i cs (O, 0))) by (apply nth_error_nth'; exact Hi).
    rewrite (nth_indep _ O (fst (O, 0))) by (rewrite map_length; exact Hi). rewrite map_nth.
    set (g := fun i0 => ped _ _). rewrite (nth_indep _ O (g Datatypes.O)) by (rewrite map_length, seq_length; exact Hi).
    rewrite map_nth, seq_nth by exact Hi. cbn [Nat.add]. unfold g.
    destruct (nth i cs (O, 0)) as [C s] eqn:En. cbn [fst]. specialize (F i C s E). destruct F as [Pl F].
    assert (HC : is_point C).
    { rewrite Forall_forall in Hcs. apply (Hcs (C, s)). rewrite <- En. apply nth_In. exact Hi. }
    destruct (f i) as [e' s'|sha' C' s']; cbn [forkBit forkBlind].
    + destruct F as [D T]. rewrite Z.mul_1_l. rewrite (C45_extract_one e e' i C s s' HC Pl D T) at 1. unfold slope. rewrite !Z.mul_1_l. reflexivity.
    + destruct F as (HC' & P1 & P2 & P3 & De & Dh & T & R). rewrite Z.mul_0_l.
      exact (C45_extract_zero sha sha' e i C s C' s' HC HC' P1 P2 Pl P3 De Dh T R).
Qed.
Print Assumptions C45_fork_sound.
Lemma two_nth {A B} a b a' b' (P : nat -> A -> B -> Prop) : P 0%nat a b -> P 1%nat a' b' ->
  forall i C s, nth_error [(a, b); (a', b')] i = Some (C, s) -> P i C s.
Proof.
  intros P0 P1 i C s E. destruct i as [|[|i]]; cbn in E; [congruence|congruence|destruct i; discriminate E].
Qed.
(** two rings, one fork of each kind *)
Example C45_fork_nonvacuous : exists y, let cs := [(smul 6 G, y); (ped 2 1, 8)] in let A := psum (map fst cs) in
  let f := fun i => match i with 0%nat => ForkH (shaC 2) (smul 3 G) 0 | _ => ForkE 2 9 end in
  accepts (RangeVerify (shaC 1) (Some (MkRange (pt A) (Some 1) (tuples cs))) specZk (pt A)) /\
  (forall i C s, nth_error cs i = Some (C, s) -> forkOk (shaC 1) 1 i C s (f i)).
Proof.
  destruct zero_fork as [y (P1 & P2 & P3 & P4 & D & T & R)]. destruct one_fork as (HC & Q1 & Q2 & Q3).
  exists y. cbv zeta. set (cs := [(smul 6 G, y); (ped 2 1, 8)]).
  assert (Hcs : Forall (fun c => is_point (fst c)) cs) by (unfold cs; apply Forall_cons; [cbn [fst]; isp|apply Forall_cons; [cbn [fst]; isp|apply Forall_nil]]).
  assert (HA : is_point (psum (map fst cs))) by (cbn [cs map psum fst]; isp).
  split.
  - assert (L : (length cs <= 64)%nat) by (unfold cs; cbn [length]; apply Nat.leb_le; reflexivity). clearbody cs.
    apply (proj2 (C45_accept_iff (shaC 1) specZk (psum (map fst cs)) 1 cs (psum (map fst cs)) specZk_std HA HA Hcs L)).
    split; [rewrite hs_shaC by (split; [discriminate|reflexivity]); reflexivity|]. split; left; reflexivity.
  - apply (two_nth (smul 6 G) y (ped 2 1) 8 (fun i C s => forkOk (shaC 1) 1 i C s
      match i with 0%nat => ForkH (shaC 2) (smul 3 G) 0 | _ => ForkE 2 9 end)).
    + split; [exact P3|]. split; [isp|]. split; [exact P1|]. split; [exact P2|]. split; [exact P4|].
      split; [discriminate|]. split; [exact D|]. split; [exact T|exact R].
    + split; [exact Q1|]. split; [exact Q2|exact Q3].
Qed.
(** The number of rings is not checked: for every m up to 64, a proof with m rings is
    accepted for a value below 2^m; the bound 2^40 is not enforced. *)
Theorem C45_length_refuted : forall sha zk m value d1 d2 j, std zk -> (m <= 64)%nat -> 0 <= value < 2 ^ Z.of_nat m ->
  goodDraws sha m value d1 d2 j -> 0 <= honDigest sha m value d1 d2 < N ->
  exists pf vt, length (rpTuples pf) = m /\ accepts (RangeVerify sha (Some pf) zk (pt (ped value vt))).
Proof.
  intros sha zk m value d1 d2 j S Hm Hv H D.
  pose proof (run_verify sha zk S m value d1 d2 j Hm H) as V. cbv zeta in V.
  eexists. eexists. split; [|rewrite V by isp].
  - cbn [rpTuples]. unfold tuples, honCs. rewrite !map_length. apply seq_length.
  - rewrite (Z.mod_small value) by exact Hv. rewrite (Z.mod_small _ N) by exact D. rewrite !Z.eqb_refl. reflexivity.
Qed.
Print Assumptions C45_length_refuted.
(** ... so 2^64 - 1 has an accepted range proof *)
Example C45_length_nonvacuous : exists pf vt, length (rpTuples pf) = 64%nat /\
  accepts (RangeVerify (shaC 1) (Some pf) specZk (pt (ped (2 ^ 64 - 1) vt))).
Proof.
  apply (C45_length_refuted (shaC 1) specZk 64 (2 ^ 64 - 1) (fun _ => 0) (fun _ => 0) (fun _ => 0) specZk_std); [lia|lia|apply (ones_good _ 64); lia|].
  unfold honDigest. rewrite hs_shaC by lia. split; [discriminate|reflexivity].
Qed.
(** More than 64 rings crash the verifier, whatever is in them. *)
Theorem C45_long_refuted : forall sha zk A E ts comm, std zk -> (64 < length ts)%nat -> existsb tupleNil ts = false ->
  RangeVerify sha (Some (MkRange A E ts)) zk comm = Panic.
Proof.
  intros sha zk A E ts comm S L Nn. unfold RangeVerify. cbn [rpTuples rpE]. rewrite Nn, (verifyAll_high sha zk S) by lia. reflexivity.
Qed.
Print Assumptions C45_long_refuted.
