(** * Range proofs under every interleaving (C44, and C42 with schedules) *)
From Coq Require Import ZArith List Bool Arith Lia.
From Verif Require Import Go Wire Big Crypto Spec CurveGroup SpecZk ZkBase PointProofs Range SpecRange RangeProofs PropRange RangeConc RangeConcProofs.
Import ListNotations.
Open Scope nat_scope.

(** ** The verifier *)

(** Whatever the schedule, a verdict that is returned is the one of the sequential
    function, and a crash happens only where the sequential function crashes. *)
Theorem C44_verify_schedule_independent : forall sha zk pf comm sched,
  match exec (vnext sha zk pf comm) sched (vinit pf) with
  | Run s => forall r, vm s = VDone r -> RangeVerify sha (Some pf) zk comm = Ok r
  | Crash => existsb tupleNil (rpTuples pf) = false -> RangeVerify sha (Some pf) zk comm = Panic
  end.
Proof.
  intros sha zk pf comm sched. pose proof (vreach sha zk pf comm sched) as H. destruct (exec _ _ _) as [s|].
  - intros r E. destruct H as [_ _ _ _ _ _ M]. unfold goodM in M. rewrite E in M. apply M.
  - intros Ni. apply crash_panic; assumption.
Qed.
Print Assumptions C44_verify_schedule_independent.
(** There is no deadlock: until Verify has returned, some thread can move. *)
Theorem C44_verify_no_deadlock : forall sha zk pf comm sched s, exec (vnext sha zk pf comm) sched (vinit pf) = Run s ->
  (exists r, vm s = VDone r) \/ exists t c, vnext sha zk pf comm t s = Some c.
Proof. intros sha zk pf comm sched s E. pose proof (vreach sha zk pf comm sched) as H. rewrite E in H. apply vprogress. exact H. Qed.
Print Assumptions C44_verify_no_deadlock.
(** At most 4n+2 steps are taken, so Verify returns (or crashes) in every fair schedule. *)
Theorem C44_verify_terminates : forall sha zk pf comm sched,
  nsteps (vnext sha zk pf comm) sched (vinit pf) <= 4 * length (rpTuples pf) + 2.
Proof. intros. rewrite <- (vmeasure_init pf). apply vsteps_bound. apply vinit_inv. Qed.
Print Assumptions C44_verify_terminates.
Theorem C44_verify_can_finish : forall sha zk pf comm sched, exists more,
  match exec (vnext sha zk pf comm) (sched ++ more) (vinit pf) with Run s => exists r, vm s = VDone r | Crash => True end.
Proof.
  intros sha zk pf comm sched. pose proof (vreach sha zk pf comm sched) as H. destruct (exec _ sched _) as [s|] eqn:E.
  - destruct (vfinish_gen sha zk pf comm (fun s => exists r, vm s = VDone r) (vprogress sha zk pf comm) s H) as [more M]. exists more. rewrite exec_app, E.
    destruct (exec _ more s); [apply M|exact I].
  - exists []. rewrite exec_app, E. exact I.
Qed.
Print Assumptions C44_verify_can_finish.
(** Without nil entries no goroutine is left behind. *)
Theorem C44_verify_no_leak : forall sha zk pf comm sched s r, existsb tupleNil (rpTuples pf) = false ->
  exec (vnext sha zk pf comm) sched (vinit pf) = Run s -> vm s = VDone r ->
  vch s = [] /\ forall i g, nth_error (vg s) i = Some g -> g = GSent.
Proof.
  intros sha zk pf comm sched s r Ni E Er. pose proof (vreach sha zk pf comm sched) as H. rewrite E in H. destruct H as [L _ _ _ _ _ M].
  unfold goodM in M. rewrite Er in M. destruct M as (_ & [(k & F & _)|(_ & Sn & Ch)]).
  - apply firstNil_nil in F. congruence.
  - split; [exact Ch|]. intros i g Hg. assert (Q : isSent g = true) by (apply (cnt_all isSent (vg s)) with (i := i); [unfold sentN in Sn; lia|exact Hg]).
    destruct g; try discriminate. reflexivity.
Qed.
Print Assumptions C44_verify_no_leak.
(** With a nil entry at k > 10 Verify returns at once and leaves at least k-10
    goroutines blocked on the channel for ever: nothing can move any more. *)
Theorem C44_leak_refuted : forall sha zk pf comm k e, nth_error (rpTuples pf) k = Some e -> tupleNil e = true -> chanCap < k ->
  existsb tupleNil (firstn k (rpTuples pf)) = false ->
  (forall j t, j < k -> nth_error (rpTuples pf) j = Some t -> exists p, verifyGen sha zk j (rpE pf) t = Ok p) ->
  forall sched, exists more s, exec (vnext sha zk pf comm) (sched ++ more) (vinit pf) = Run s /\
    vm s = VDone (false, Some EProof) /\ (forall t, vnext sha zk pf comm t s = None) /\
    k - chanCap <= length (filter (fun g => match g with GReady _ => true | _ => false end) (vg s)).
Proof.
  intros sha zk pf comm k e Ek Te Lk Nk NP sched. assert (F : firstNil (rpTuples pf) k) by (split; [exists e; auto|exact Nk]).
  assert (NC : ~ crashCause sha zk pf comm).
  { intros [(j & t & E1 & E2 & E3)|[E1 _]]; [|apply firstNil_nil in F; congruence].
    apply (nil_first _ k _ F) in E2. destruct (NP j t ltac:(lia) E1) as [p Ep]. congruence. }
  assert (R : forall s0, exec (vnext sha zk pf comm) s0 (vinit pf) <> Crash).
  { intros s0 Q. pose proof (vreach sha zk pf comm s0) as H. rewrite Q in H. contradiction. }
  pose proof (vreach sha zk pf comm sched) as H. destruct (exec _ sched _) as [s|] eqn:E; [|contradiction].
  destruct (vfinish_gen sha zk pf comm (stuck sha zk pf comm) (any_step sha zk pf comm) s H) as [more M]. exists more.
  specialize (R (sched ++ more)). rewrite exec_app, E in *. destruct (exec _ more s) as [b|]; [|exfalso; apply R; reflexivity].
  exists b. split; [reflexivity|]. destruct M as [Ib Sb]. destruct (stuck_leak sha zk pf comm b k F Ib Sb) as (D & C & _).
  split; [exact D|]. split; [exact Sb|]. unfold cnt, isReady in C. lia.
Qed.
Print Assumptions C44_leak_refuted.
Definition leakProof : RangeProof := MkRange (pt O) (Some 1%Z) (tuples (repeat (G, 1%Z) 12) ++ [MkTuple (EP None None) None]).
Example C44_leak_nonvacuous : forall sha, let ts := rpTuples leakProof in
  nth_error ts 12 = Some (MkTuple (EP None None) None) /\ chanCap < 12 /\ existsb tupleNil (firstn 12 ts) = false /\
  (forall j t, j < 12 -> nth_error ts j = Some t -> exists p, verifyGen sha specZk j (rpE leakProof) t = Ok p).
Proof.
  intros sha ts. split; [reflexivity|]. split; [unfold chanCap; lia|]. split; [reflexivity|]. intros j t Hj E.
  assert (Et : t = MkTuple (pt G) (Some 1%Z)).
  { assert (Q : nth_error ts j = nth_error (repeat (MkTuple (pt G) (Some 1%Z)) 12) j) by (unfold ts; cbn [rpTuples leakProof]; rewrite nth_error_app1 by exact Hj; reflexivity).
    rewrite Q in E. apply nth_repeat in E. exact E. }
  subst t. cbn [rpE leakProof]. rewrite (verifyGen_ok sha specZk specZk_std) by (lia || isp). eexists. reflexivity.
Qed.
Lemma Add_nil_y zk q : Add zk (EP (Some 1%Z) None) q = Panic.
Proof.
  unfold Add, andR, Equal, isOnCurve, curveAdd, ZeroPoint. cbn [pX pY need bind]. cbn.
  destruct q as [[x|] [y|]]; cbn; repeat (match goal with |- context [if ?b then _ else _] => destruct b end; cbn); reflexivity.
Qed.
(** A nil entry behind an entry that crashes its goroutine: whether Verify returns an
    error or the program crashes depends on the schedule. *)
Definition raceProof : RangeProof :=
  MkRange ZeroPoint (Some 0%Z) [MkTuple (EP (Some 1%Z) None) (Some 0%Z); MkTuple (EP None None) None].
Theorem C44_nil_race_refuted : forall sha zk comm, exists sched sched' s,
  exec (vnext sha zk raceProof comm) sched (vinit raceProof) = Run s /\ vm s = VDone (false, Some EProof) /\
  exec (vnext sha zk raceProof comm) sched' (vinit raceProof) = Crash.
Proof.
  intros sha zk comm. exists [Main; Main], [Main; Gor 0], (VS (VDone (false, Some EProof)) [] [GStart; GUnborn]).
  split; [reflexivity|]. split; [reflexivity|]. cbn [exec vnext vinit raceProof rpTuples rpE vm vch vg length repeat nth_error tupleNil pX rtC rtS upd].
  replace (verifyGen sha zk 0 (Some 0%Z) (MkTuple (EP (Some 1%Z) None) (Some 0%Z))) with (@Panic ECPoint); [reflexivity|].
  symmetry. unfold verifyGen. cbn [rtC rtS]. destruct (Mult zk (zH zk) (Some 0%Z)); cbn [bind]; [|reflexivity].
  destruct (hpoint zk 0); cbn [bind]; [|reflexivity]. destruct (Neg zk _); cbn [bind]; [|reflexivity]. rewrite Add_nil_y. reflexivity.
Qed.
Print Assumptions C44_nil_race_refuted.

(** ** The prover *)

(** Whatever the two schedules, what NewRangeProof comes to is what the sequential
    function comes to, for the same draws. *)
Theorem C44_prover_schedule_independent : forall sha zk value rn schA schB r,
  NewRangeProofSched sha zk value rn schA schB = Some r -> r = NewRangeProof sha zk value rn.
Proof.
  intros sha zk value rn schA schB r. unfold NewRangeProofSched, NewRangeProof. destruct value as [v|]; cbn [need bind]; [|congruence].
  destruct (1099511627776 <? v)%Z; [congruence|]. destruct (v <? 0)%Z; [congruence|].
  destruct (phaseSched _ schA _) as [ra|] eqn:EA; [|discriminate]. apply phase_det in EA. rewrite <- EA. destruct ra as [ssA|]; cbn [bind]; [|congruence].
  destruct (challengeE0 sha zk ssA) as [e0|]; cbn [bind]; [|congruence].
  destruct (phaseSched _ schB _) as [rb|] eqn:EB; [|discriminate]. apply phase_det in EB. rewrite <- EB. destruct rb as [ssB|]; cbn [bind]; congruence.
Qed.
Print Assumptions C44_prover_schedule_independent.
(** No deadlock and termination: any two schedules can be continued to an outcome. *)
Theorem C44_prover_can_finish : forall sha zk value rn schA schB, exists moreA moreB r,
  NewRangeProofSched sha zk value rn (schA ++ moreA) (schB ++ moreB) = Some r.
Proof.
  intros sha zk value rn schA schB. unfold NewRangeProofSched. destruct value as [v|]; [|exists [], []; eexists; reflexivity].
  destruct (1099511627776 <? v)%Z; [exists [], []; eexists; reflexivity|]. destruct (v <? 0)%Z; [exists [], []; eexists; reflexivity|].
  destruct (phase_extends (phaseA sha zk v rn) (repeat emptySlot proofSize) schA) as (moreA & ra & EA). exists moreA. rewrite EA.
  destruct ra as [ssA|]; [|exists []; eexists; reflexivity]. destruct (challengeE0 sha zk ssA) as [e0|]; [|exists []; eexists; reflexivity].
  destruct (phase_extends (phaseB sha zk v e0 rn) ssA schB) as (moreB & rb & EB). exists moreB. rewrite EB. destruct rb; eexists; reflexivity.
Qed.
Print Assumptions C44_prover_can_finish.
Theorem C44_phase_no_deadlock : forall f ss sched s, exec (pnext f) sched (pinit ss) = Run s ->
  pm_ s = PPassed \/ exists t c, pnext f t s = Some c.
Proof. intros f ss sched s E. pose proof (preach f ss sched) as H. rewrite E in H. eapply pprogress. exact H. Qed.
Print Assumptions C44_phase_no_deadlock.
Theorem C44_phase_terminates : forall f ss, exists bound, forall sched, nsteps (pnext f) sched (pinit ss) <= bound.
Proof. intros f ss. eexists. intros sched. apply (psteps_bound f ss). apply pinit_inv. Qed.
Print Assumptions C44_phase_terminates.

Lemma ok3 (A B C : Type) (a a' : A) (b b' : B) (c c' : C) : Ok (Some a, Some b, c) = Ok (Some a', Some b', c') -> a = a'.
Proof. congruence. Qed.
(** C42 under every schedule of prover and verifier: an honest proof is produced and
    accepted, and nothing crashes. *)
Theorem C42_range_complete_scheduled : forall sha zk value d1 d2 j schA schB r, std zk -> (0 <= value < 2 ^ 40)%Z ->
  goodDraws sha 40 value d1 d2 j -> (0 <= honDigest sha 40 value d1 d2 < N)%Z ->
  NewRangeProofSched sha zk (Some value) (draws d1 d2 j) schA schB = Some r ->
  exists pf vt, r = Ok (Some pf, Some vt, None) /\
    forall sched, match exec (vnext sha zk pf (pt (ped value vt))) sched (vinit pf) with
                  | Run s => forall v, vm s = VDone v -> v = (true, None)
                  | Crash => False
                  end.
Proof.
  intros sha zk value d1 d2 j schA schB r S Hv H D E. apply C44_prover_schedule_independent in E.
  destruct (C42_range_complete sha zk value d1 d2 j S Hv H D) as (pf & vt & E1 & E2). exists pf, vt. split; [congruence|].
  intros sched. pose proof (C44_verify_schedule_independent sha zk pf (pt (ped value vt)) sched) as Q. destruct (exec _ sched _) as [s|].
  - intros v Ev. specialize (Q v Ev). unfold accepts in E2. congruence.
  - pose proof (run_ok sha zk S 40 value d1 d2 j ltac:(lia) H eq_refl ltac:(lia)) as R. rewrite R in E1. apply ok3 in E1.
    assert (Nn : existsb tupleNil (rpTuples pf) = false) by (rewrite <- E1; cbn [rpTuples]; apply tuples_not_nil).
    specialize (Q Nn). clear R E1. unfold accepts in E2. congruence.
Qed.
Print Assumptions C42_range_complete_scheduled.
