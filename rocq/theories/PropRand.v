(** * Drawing from the bytes of the random source (C84) *)
From Coq Require Import ZArith List Bool Lia.
From Verif Require Import Go Wire Big Crypto Spec SpecZk CurveGroup Order ZkBase PointProofs GspfsProofs Gspfs Equivalence Consistency Disjunctive Range PubKey Rand SpecRand
  RandProofs RandSched RandCount RandSeq RandTape RandCall RandMore.
Import ListNotations.
Open Scope Z_scope.

(** C84: a draw is the first attempt that is small enough; it fails exactly when the source
    ends before that. *)
Theorem C84_rand_int : forall max s, 1 < max -> bytes_ok s ->
  (forall v rest, randInt max s = ROk v rest <-> firstGood max s v rest) /\
  (forall v rest, randInt max s = ROk v rest -> 0 <= v < max) /\
  ((exists e rest, randInt max s = RErr e rest) <-> noGood max s) /\ randInt max s <> RPanic.
Proof.
  intros max s H Hs. destruct (randInt_spec max s H Hs) as (A & B & C). split; [exact A|]. split; [|split; assumption].
  intros v rest E. apply A in E. exact (firstGood_range max s v rest E).
Qed.
Print Assumptions C84_rand_int.
Example C84_rand_int_case : randInt 200 [255; 7; 3] = ROk 7 [3] /\ randInt 5 [253; 252] = ROk 4 [] /\ randInt 700 [255; 255] = RErr EEOF [] /\
  randInt 700 [254; 9] = ROk 521 [] /\ (exists e, randInt 200 [255; 201] = RErr e []).
Proof. repeat split; try reflexivity. exists EEOF. reflexivity. Qed.

(** C84: every number below the limit is drawn in equally many cases, and in how many. *)
Theorem C84_uniform : forall max, 1 < max ->
  (forall L v w, 0 <= v < max -> 0 <= w < max ->
     cases L (fun t => isDraw v (randInt max t)) = cases L (fun t => isDraw w (randInt max t))) /\
  (forall m v, 0 <= v < max ->
     max * cases (m * block max) (fun t => isDraw v (randInt max t)) = 256 ^ Z.of_nat (m * block max) - tooLarge max ^ Z.of_nat m) /\
  (forall m, cases (m * block max) (fun t => failed (randInt max t)) = tooLarge max ^ Z.of_nat m) /\
  (forall m, 2 ^ Z.of_nat m * tooLarge max ^ Z.of_nat m <= 256 ^ Z.of_nat (m * block max)) /\
  (forall L, cases L (fun _ => true) = 256 ^ Z.of_nat L).
Proof.
  intros max H. split; [exact (uniform_count max H)|]. split; [exact (exact_count max H)|]. split; [exact (fail_count max H)|].
  split; [|exact cases_all]. intros m. pose proof (fail_seldom max H m 1 ltac:(lia)) as F. rewrite Z.mul_1_l in F. apply F.
  change (2 ^ 1) with 2. apply (half max H).
Qed.
Print Assumptions C84_uniform.
(** C84: for the order of the curve: 32 bytes an attempt, of which fewer than one in 2^127
    fail. *)
Theorem C84_order : block N = 32%nat /\ tooLarge N = 2 ^ 256 - N /\
  forall m, 2 ^ (127 * Z.of_nat m) * cases (m * 32) (fun t => failed (randInt N t)) <= 256 ^ Z.of_nat (m * 32).
Proof.
  assert (B : block N = 32%nat) by reflexivity. split; [exact B|]. split; [vm_compute; reflexivity|].
  intros m. pose proof (fail_seldom N N_gt1 m 127 ltac:(lia)) as F. rewrite <- (fail_count N N_gt1 m), B in F. apply F.
  apply Z.leb_le. vm_compute. reflexivity.
Qed.
Print Assumptions C84_order.
Example C84_uniform_case : 1 < 200 /\ block 200 = 1%nat /\ tooLarge 200 = 56 /\ tooLarge 700 = 256 ^ 2 - 700 * 64 /\
  cases 2 (fun t => isDraw 7 (randInt 200 t)) = 256 + 56.
Proof.
  do 4 (split; [reflexivity|]). pose proof (exact_count 200 ltac:(lia) 2 7 ltac:(lia)) as E.
  change (2 * block 200)%nat with 2%nat in E. change (256 ^ Z.of_nat 2 - tooLarge 200 ^ Z.of_nat 2) with (200 * 312) in E. lia.
Qed.

(** C84: the same for any number of draws that any number of goroutines make from one
    source, whatever the scheduler: no outcome is likelier than another, and the scheduler
    does not change the chances. *)
Theorem C84_schedules : forall max n pick pick' L, 1 < max -> scheduler max n pick -> scheduler max n pick' ->
  (forall d d', below max n d -> below max n d' ->
     asMany L (fun t => exists rest, draws pick max n t = ROk d rest) (fun t => exists rest, draws pick' max n t = ROk d' rest)) /\
  (forall t d rest, bytes_ok t -> draws pick max n t = ROk d rest -> below max n d).
Proof.
  intros max n pick pick' L H S S'.
  assert (X : forall p t d, (exists rest, draws p max n t = ROk d rest) <-> numbers max p n t = Some d).
  { intros p t d. unfold numbers. destruct (draws p max n t) as [x r| |]; split; try discriminate; try (intros [r' E]; discriminate E).
    - intros [r' E]. injection E as -> ->. reflexivity.
    - intros E. injection E as ->. exists r. reflexivity. }
  split.
  - intros d d' Hd Hd'. apply (asMany_ext L (fun t => numbers max pick n t = Some d) (fun t => numbers max pick' n t = Some d')).
    1, 2: intros t _; apply X.
    apply (asMany_draws max H pick pick' n (swapv d d') (swapv d d') L (fun r => r = Some d) (fun r => r = Some d') S S').
    + intros x Hx. apply (swapv_below max n); assumption.
    + intros x Hx. apply (swapv_below max n); assumption.
    + split; discriminate.
    + intros x Hx. split.
      * intros E. injection E as ->. rewrite (swapv_eq max n) by assumption. reflexivity.
      * intros E. injection E as E. destruct (swapv_below max n d d' x Hd Hd' Hx) as [_ I]. rewrite E in I. rewrite <- I.
        rewrite <- (swapv_eq max n d d') at 2 by assumption. destruct (swapv_below max n d d' d Hd Hd' Hd) as [_ I2]. rewrite I2. reflexivity.
  - intros t d rest Ht E. apply (numbers_below max H pick n t); [exact Ht|]. apply X. exists rest. exact E.
Qed.
Print Assumptions C84_schedules.
(** one draw after the other *)
Theorem C84_sequence : forall max n L d d', 1 < max -> below max n d -> below max n d' ->
  asMany L (fun t => drawN n max t = map Some d) (fun t => drawN n max t = map Some d').
Proof.
  intros max n L d d' H Hd Hd'. apply (asMany_ext L (fun t => numbers max (seqPick max n) n t = Some d) (fun t => numbers max (seqPick max n) n t = Some d')).
  1, 2: intros t _; rewrite (numbers_seq max H); rewrite allSome_eq; reflexivity.
  apply (asMany_uniform max H); try assumption. apply seqPick_ok.
Qed.
Print Assumptions C84_sequence.
(** equally many cases means that their counts are equal *)
Theorem C84_counts : forall L P Q p q, asMany L P Q ->
  (forall t, tape L t -> (p t = true <-> P t)) -> (forall t, tape L t -> (q t = true <-> Q t)) -> cases L p = cases L q.
Proof. exact asMany_cases. Qed.
Print Assumptions C84_counts.
Example C84_schedules_case : scheduler 200 2 (listPick 200 [0%nat; 1%nat]) /\ scheduler 200 2 (listPick 200 [1%nat; 0%nat]) /\
  draws (listPick 200 [0%nat; 1%nat]) 200 2 [5; 255; 6; 9] = ROk [5; 6] [9] /\
  draws (listPick 200 [1%nat; 0%nat]) 200 2 [5; 255; 6; 9] = ROk [6; 5] [9] /\ below 200 2 [5; 6] /\ drawN 2 200 [5; 255; 6; 9] = [Some 5; Some 6].
Proof.
  split; [apply listPick_ok; cbn; lia|]. split; [apply listPick_ok; cbn; lia|]. split; [reflexivity|]. split; [reflexivity|].
  split; [|reflexivity]. split; [reflexivity|]. constructor; [lia|constructor; [lia|constructor]].
Qed.

(** C84: a commitment to any value is any given point in equally many cases. *)
Theorem C84_commit : forall zk L v v' c c', std zk -> is_point c -> is_point c' ->
  asMany L (fun t => exists u, PedCommitT zk (Some v) t = Ok (pt c, u, None)) (fun t => exists u, PedCommitT zk (Some v') t = Ok (pt c', u, None)).
Proof. intros zk L v v' c c' S. exact (commit_many zk S L v v' c c'). Qed.
Print Assumptions C84_commit.
(** C84: for any challenge that the hash function returns, the prover that knows the secret
    and the simulator that does not give any proof, and any failure, in equally many cases. *)
Theorem C84_zero_knowledge : forall sha zk c L, std zk -> (forall ps, fs sha ps = c) ->
  (forall B x r, is_point B -> plain B ->
     asMany L (fun t => NewGSPFSProofBaseT sha zk (pt B) (pt (smul x B)) (Some x) t = r) (fun t => simGSPFS B (smul x B) c t = r)) /\
  (forall B1 B2 x r, is_point B1 -> is_point B2 ->
     asMany L (fun t => NewEquivalenceProofT sha zk (pt B1) (pt (smul x (eff B1))) (pt B2) (pt (smul x (eff B2))) (Some x) t = r)
       (fun t => simEquivalence B1 (smul x (eff B1)) B2 (smul x (eff B2)) c t = r)) /\
  (forall PK v r0 r, is_point PK ->
     asMany L (fun t => NewConsistencyProofT sha zk (pt (ped v r0)) (pt (smul r0 (eff PK))) (pt PK) (Some v) (Some r0) t = r)
       (fun t => simConsistency (ped v r0) (smul r0 (eff PK)) PK c t = r)).
Proof.
  intros sha zk c L S H. split; [intros B x r; exact (gspfs_many zk S sha c H L B x r)|].
  split; [intros B1 B2 x r; exact (equiv_many zk S sha c H L B1 B2 x r)|intros PK v r0 r; exact (cons_many zk S sha c H L PK v r0 r)].
Qed.
Print Assumptions C84_zero_knowledge.
Example C84_zero_knowledge_case : std specZk /\ (forall ps, fs (shaC 5) ps = 5) /\ is_point Htab /\ plain Htab /\
  exists pf, NewGSPFSProofBaseT (shaC 5) specZk (pt Htab) (pt (smul 3 Htab)) (Some 3) (repeat 0 31 ++ [20]) = Ok (Some pf, None).
Proof.
  split; [exact specZk_std|]. split; [intros ps; apply fs_shaC; split; [discriminate|reflexivity]|]. split; [isp|]. split; [exact plain_Htab|].
  unfold NewGSPFSProofBaseT. rewrite (cN_ok specZk specZk_std). assert (E : fst (draw N (repeat 0 31 ++ [20])) = Some 20) by (vm_compute; reflexivity).
  rewrite E. rewrite (gspfs_prove (shaC 5) specZk specZk_std) by isp. rewrite Z.eqb_refl. cbv zeta. eexists. reflexivity.
Qed.

(** C84: the order in which the goroutines of the range prover read the source does not
    change how likely any result is. *)
Theorem C84_range_schedule : forall sha zk L value pick pick' r, std zk ->
  scheduler N (2 * proofSize) pick -> scheduler N (2 * proofSize) pick' ->
  asMany L (fun t => NewRangeProofT sha zk value pick t = r) (fun t => NewRangeProofT sha zk value pick' t = r).
Proof. exact range_many. Qed.
Print Assumptions C84_range_schedule.
Example C84_range_schedule_case : std specZk /\ scheduler N (2 * proofSize) (listPick N (seq 0 80)) /\ scheduler N (2 * proofSize) (listPick N (rev (seq 0 80))).
Proof.
  split; [exact specZk_std|]. split; apply listPick_ok; intros i; rewrite <- ?in_rev, in_seq; change (2 * proofSize)%nat with 80%nat; lia.
Qed.

(** C84: whatever the schedule, the range prover works with 80 numbers, two for each ring,
    and no choice of them is likelier than another. *)
Theorem C84_range_draws : forall pick, scheduler N (2 * proofSize) pick -> exists rr : list Z -> option rangeRand,
  (forall sha zk value t, std zk -> NewRangeProofT sha zk value pick t = option_map (NewRangeProof sha zk value) (rr t)) /\
  (forall L a b a' b', (forall i, scalar (a i) /\ scalar (b i)) -> (forall i, scalar (a' i) /\ scalar (b' i)) ->
     asMany L (fun t => exists r, rr t = Some r /\ usesDraws a b r) (fun t => exists r, rr t = Some r /\ usesDraws a' b' r)).
Proof. exact range_draws. Qed.
Print Assumptions C84_range_draws.

(** C84: KeyGen gives every point as public key in equally many cases, for every base but
    the point at infinity. *)
Theorem C84_keys : forall c L B P P', curve_ok c -> is_point B -> B <> O -> is_point P -> is_point P' ->
  asMany L (fun t => exists sk, KeyGenT c (pt B) t = Ok (pt P, sk)) (fun t => exists sk, KeyGenT c (pt B) t = Ok (pt P', sk)).
Proof. exact key_many. Qed.
Print Assumptions C84_keys.
Example C84_keys_case : curve_ok specCurve /\ is_point Htab /\ Htab <> O /\ KeyGenT specCurve (pt G) (repeat 0 31 ++ [1; 9]) = Ok (pt G, 1).
Proof.
  split; [exact specCurve_ok|]. split; [isp|]. split; [intros E; apply (f_equal fst) in E; vm_compute in E; discriminate E|].
  unfold KeyGenT. rewrite (ok_N specCurve specCurve_ok). assert (E : fst (draw N (repeat 0 31 ++ [1; 9])) = Some 1) by (vm_compute; reflexivity).
  rewrite E, keygen_ok; [rewrite smul_1; reflexivity|exact specCurve_ok|isp|split; [discriminate|reflexivity]].
Qed.

(** C84: disjunctive proofs, once the responses are reduced modulo N, which makes no
    difference to the verifier, are as likely from the prover of the left side as from a
    simulator that knows no secret, and as likely from the prover of the right side. *)
Theorem C84_disjunctive : forall sha zk c L, std zk -> (forall ps, fs sha ps = c) ->
  (forall B1 B2 R2 x r, is_point B1 -> is_point B2 -> is_point R2 -> plain (smul x (eff B1)) ->
     asMany L (fun t => reduced (NewDisjunctiveProofT sha zk (pt B1) (pt (smul x (eff B1))) (pt B2) (pt R2) (Some x) Left t) = r)
       (fun t => simDisjunctive B1 (smul x (eff B1)) B2 R2 c t = r)) /\
  (forall B1 R1 B2 x r, is_point B1 -> is_point R1 -> is_point B2 -> plain (smul x (eff B2)) ->
     asMany L (fun t => reduced (NewDisjunctiveProofT sha zk (pt B1) (pt R1) (pt B2) (pt (smul x (eff B2))) (Some x) Right t) = r)
       (fun t => simDisjunctive B1 R1 B2 (smul x (eff B2)) c t = r)) /\
  (forall B1 R1 B2 R2 T1 T2 c c1 c2 s1 s2, is_point B1 -> is_point R1 -> is_point B2 -> is_point R2 -> is_point T1 -> is_point T2 ->
     DisjunctiveVerify sha (Some (MkDisj (pt T1) (pt T2) (Some c) (Some c1) (Some c2) (Some (s1 mod N)) (Some (s2 mod N)))) zk (pt B1) (pt R1) (pt B2) (pt R2) =
     DisjunctiveVerify sha (Some (MkDisj (pt T1) (pt T2) (Some c) (Some c1) (Some c2) (Some s1) (Some s2))) zk (pt B1) (pt R1) (pt B2) (pt R2)).
Proof.
  intros sha zk c L S H. split; [intros B1 B2 R2 x r; exact (disj_left_many zk sha c S H L B1 B2 R2 x r)|].
  split; [intros B1 R1 B2 x r; exact (disj_right_many zk sha c S H L B1 R1 B2 x r)|].
  intros B1 R1 B2 R2 T1 T2 c' c1 c2 s1 s2. exact (reduced_verify sha zk B1 R1 B2 R2 T1 T2 c' c1 c2 s1 s2 S).
Qed.
Print Assumptions C84_disjunctive.
(** C84 (refuted for the proofs as they are published): in at least one of three cases in
    which the prover succeeds, the proof shows its side, and the secret up to one. *)
Theorem C84_disjunctive_reveals_refuted : forall sha zk c L x, std zk -> (forall ps, fs sha ps = c) -> 2 <= x mod N ->
  (forall B1 B2 R2, is_point B1 -> is_point B2 -> is_point R2 ->
     let run := fun t => NewDisjunctiveProofT sha zk (pt B1) (pt (smul x (eff B1))) (pt B2) (pt R2) (Some x) Left t in
     cases L (fun t => proved (run t)) <= 3 * cases L (fun t => revealsLeft x (run t))) /\
  (forall B1 R1 B2, is_point B1 -> is_point R1 -> is_point B2 ->
     let run := fun t => NewDisjunctiveProofT sha zk (pt B1) (pt R1) (pt B2) (pt (smul x (eff B2))) (Some x) Right t in
     cases L (fun t => proved (run t)) <= 3 * cases L (fun t => revealsRight x (run t))).
Proof.
  intros sha zk c L x S H Hx. split; [intros B1 B2 R2 H1 H2 H3; exact (left_leak zk sha c S H L B1 B2 R2 x H1 H2 H3 Hx)|].
  intros B1 R1 B2 H1 H2 H3. exact (right_leak zk sha c S H L B1 R1 B2 x H1 H2 H3 Hx).
Qed.
Print Assumptions C84_disjunctive_reveals_refuted.
Example C84_disjunctive_case : std specZk /\ (forall ps, fs (shaC 5) ps = 5) /\ is_point Htab /\ 2 <= 3 mod N /\ plain (smul 1 (eff G)) /\
  let run := fun t => NewDisjunctiveProofT (shaC 5) specZk (pt G) (pt (smul 3 (eff G))) (pt Htab) (pt Htab) (Some 3) Left t in
  proved (run (repeat 0 95 ++ [6])) = true /\ revealsLeft 3 (run (repeat 0 95 ++ [6])) = true /\ proved (run (repeat 0 95)) = false.
Proof.
  split; [exact specZk_std|]. split; [intros ps; apply fs_shaC; split; [discriminate|reflexivity]|]. split; [isp|]. split; [vm_compute; discriminate|].
  split; [rewrite eff_G, smul_1; exact plain_G|]. cbv zeta.
  assert (H : forall ps, fs (shaC 5) ps = 5) by (intros ps; apply fs_shaC; split; [discriminate|reflexivity]).
  assert (P1 : is_point Htab) by isp. assert (P2 : is_point G) by isp.
  rewrite !(left_tape specZk (shaC 5) 5 specZk_std H G Htab Htab 3) by assumption.
  assert (E : RandSeq.allSome (drawN 3 N (repeat 0 95 ++ [6])) = Some [0; 0; 6]) by (vm_compute; reflexivity).
  assert (E2 : RandSeq.allSome (drawN 3 N (repeat 0 95)) = None) by (vm_compute; reflexivity). rewrite E, E2.
  split; [reflexivity|]. split; [|reflexivity]. cbv beta iota delta [three leftOut revealsLeft]. vm_compute. reflexivity.
Qed.

(** C84: private keys are drawn from 1 to N-1, each in one of two numbers of cases that
    differ by one; all 2^64 numbers of RandomUint64 are equally likely. *)
Theorem C84_private_key : forall c, curve_ok c ->
  (forall t, tape 40 t -> exists d, 1 <= d < N /\ randFieldElement N t = ROk d [] /\ NewPrivateKeyT c t = Ok (Some {| kD := d; kPub := smul d G |})) /\
  (forall d, 1 <= d < N -> let k := cases 40 (fun t => isDraw d (randFieldElement N t)) in k = 2 ^ 320 / (N - 1) \/ k = 2 ^ 320 / (N - 1) + 1) /\
  2 ^ 64 <= 2 ^ 320 / (N - 1).
Proof.
  intros c C. split; [intros t Ht; exact (new_key_tape c t C Ht)|]. split; [exact key_count|]. apply Z.leb_le. vm_compute. reflexivity.
Qed.
Print Assumptions C84_private_key.
Theorem C84_uint64 : forall v, 0 <= v < 2 ^ 64 -> exists! t, tape 8 t /\ randomUint64 t = ROk v [].
Proof. exact uint64_tape. Qed.
Print Assumptions C84_uint64.
Example C84_private_key_case : curve_ok specCurve /\ tape 40 (repeat 7 40).
Proof. split; [exact specCurve_ok|]. split; [|reflexivity]. apply Forall_forall. intros x Hx. apply repeat_spec in Hx. subst x. split; [discriminate|reflexivity]. Qed.
