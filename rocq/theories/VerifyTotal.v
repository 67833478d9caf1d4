(** * The verifiers return (proofs for C46) *)
From Coq Require Import ZArith List Bool Lia.
From Verif Require Import Spec Go Wire Big CurveGroup Order Crypto Zksigma SpecZk ZkBase SpecTotal TotalProofs CodecProofs
  Gspfs Equivalence Consistency Disjunctive Abc Range SpecVerify.
Import ListNotations.
Open Scope Z_scope.

Lemma init_curve sha c gx gy zk : initTestCurve sha c gx gy = Ok zk -> zC zk = c.
Proof.
  unfold initTestCurve. destruct (cScalarMult _ _ _ _) as [h|]; [|discriminate]. cbn [bind].
  destruct (generateH2tothe _) as [hp|]; [|discriminate]. cbn [bind]. intros E. apply Ok_inj in E. rewrite <- E. reflexivity.
Qed.

Section Tot.
Context (sha : list Z -> list Z) (zk : zkparams) (ST : std zk) (CT : curve_total (zC zk)).

Lemma wf_pt p : is_point p -> wf_point (pt p).
Proof.
  intros H. destruct (point_pair p H) as (x & y & E & Hx & Hy). injection E as ->. exists x, y. auto.
Qed.
Lemma wf_G : wf_point (zG zk). Proof. rewrite (std_G zk ST). apply wf_pt. exact is_point_G. Qed.
Lemma wf_H : wf_point (zH zk). Proof. rewrite (std_H zk ST). apply wf_pt. isp. Qed.
Lemma wf_0 : wf_point ZeroPoint. Proof. exists 0, 0. split; [reflexivity|]. split; reflexivity. Qed.
Lemma wf_pair r : returns_pair r -> exists xy, r = Ok xy /\ wf_point (mkPoint xy).
Proof. intros (x & y & -> & Hx & Hy). eexists. split; [reflexivity|]. exists x, y. auto. Qed.

Lemma Equal_tot p q : wf_point p -> wf_point q -> exists b, Equal p q = Ok b.
Proof. intros (x & y & -> & _) (x' & y' & -> & _). unfold Equal. cbn. destruct (x =? x'); eexists; reflexivity. Qed.
Lemma onc_tot p : wf_point p -> exists b, isOnCurve zk p = Ok b.
Proof. intros (x & y & -> & Hx & Hy). exact (tot_onc _ CT x y Hx Hy). Qed.
Lemma andR_tot a b : (exists x, a = Ok x) -> (exists y, b = Ok y) -> exists z, andR a b = Ok z.
Proof. intros [x ->] [y ->]. unfold andR. cbn. destruct x; eexists; reflexivity. Qed.
Lemma curveAdd_tot p q : wf_point p -> wf_point q -> exists r, curveAdd zk p q = Ok r /\ wf_point r.
Proof.
  intros (x & y & -> & Hx & Hy) (x' & y' & -> & Hx' & Hy'). unfold curveAdd. cbn [pX pY need bind].
  destruct (wf_pair _ (tot_add _ CT x y x' y' Hx Hy Hx' Hy')) as (xy & -> & W). eexists. split; [reflexivity|exact W].
Qed.
Lemma Neg_tot p : wf_point p -> exists r, Neg zk p = Ok r /\ wf_point r.
Proof.
  intros (x & y & -> & Hx & Hy). unfold Neg. cbn [pX pY need bind]. eexists. split; [reflexivity|].
  exists x, ((- y) mod cP (zC zk)). split; [reflexivity|]. split; [exact Hx|]. rewrite (ok_P _ (std_curve zk ST)).
  unfold coord. pose proof (Z.mod_pos_bound (- y) P ltac:(reflexivity)) as B. clear - B. change P with (2 ^ 256 - 4294968273) in *. lia.
Qed.
Lemma Add_tot p q : wf_point p -> wf_point q -> exists r, Crypto.Add zk p q = Ok r /\ wf_point r.
Proof.
  intros Wp Wq. unfold Crypto.Add.
  destruct (andR_tot _ _ (Equal_tot p _ Wp wf_0) (onc_tot q Wq)) as [b ->]. cbn [bind]. destruct b; [eexists; auto|].
  destruct (andR_tot _ _ (Equal_tot q _ Wq wf_0) (onc_tot p Wp)) as [b ->]. cbn [bind]. destruct b; [eexists; auto|].
  apply curveAdd_tot; assumption.
Qed.
Lemma Sub_tot p q : wf_point p -> wf_point q -> exists r, Crypto.Sub zk p q = Ok r /\ wf_point r.
Proof.
  intros Wp Wq. unfold Crypto.Sub.
  destruct (andR_tot _ _ (Equal_tot p _ Wp wf_0) (onc_tot q Wq)) as [b ->]. cbn [bind]. destruct b; [apply Neg_tot; exact Wq|].
  destruct (andR_tot _ _ (Equal_tot q _ Wq wf_0) (onc_tot p Wp)) as [b ->]. cbn [bind]. destruct b; [eexists; auto|].
  destruct (Neg_tot q Wq) as (n & -> & Wn). cbn [bind]. apply curveAdd_tot; assumption.
Qed.
Lemma Mult_tot p s : wf_point p -> present s -> exists r, Mult zk p s = Ok r /\ wf_point r.
Proof.
  intros W [z ->]. pose proof W as (x & y & -> & Hx & Hy). unfold Mult. cbn [pX pY need bind].
  destruct (Equal_tot _ _ W wf_G) as [b ->]. cbn [bind]. destruct b.
  - destruct (wf_pair _ (tot_base _ CT _ (bigBytes_ok (z mod cN (zC zk))))) as (xy & -> & Wr). eexists. split; [reflexivity|exact Wr].
  - destruct (Equal_tot _ _ W wf_H) as [b ->]. cbn [bind]. destruct b.
    + destruct (wf_pair _ (tot_baseH _ CT _ (bigBytes_ok (z mod cN (zC zk))))) as (xy & -> & Wr). eexists. split; [reflexivity|exact Wr].
    + destruct (wf_pair _ (tot_mul _ CT x y (bigBytes (z mod cN (zC zk))) Hx Hy)) as (xy & -> & Wr). eexists. split; [reflexivity|exact Wr].
Qed.
Lemma Ped_tot v r : present v -> present r -> exists q, PedCommitR zk v r = Ok q /\ wf_point q.
Proof.
  intros [a ->] [b ->]. unfold PedCommitR. cbn [need bind].
  destruct (Mult_tot (zG zk) (Some (a mod cN (zC zk))) wf_G (ex_intro _ _ eq_refl)) as (p & -> & Wp). cbn [bind].
  destruct (Mult_tot (zH zk) (Some (b mod cN (zC zk))) wf_H (ex_intro _ _ eq_refl)) as (q & -> & Wq). cbn [bind].
  apply Add_tot; assumption.
Qed.
Lemma pBytes_tot p : wf_point p -> exists b, pBytes p = Ok b.
Proof. intros (x & y & -> & _). eexists. reflexivity. Qed.
Lemma allBytes_tot ps : Forall wf_point ps -> exists bs, allBytes ps = Ok bs.
Proof.
  induction 1 as [|p ps W _ [bs IH]]; [eexists; reflexivity|]. cbn [allBytes].
  destruct (pBytes_tot p W) as [b ->]. rewrite IH. eexists. reflexivity.
Qed.
Lemma Challenge_tot ps : Forall wf_point ps -> exists c, Challenge sha zk ps = Ok c.
Proof. intros F. unfold Challenge. destruct (allBytes_tot ps F) as [bs ->]. eexists. reflexivity. Qed.
Lemma hashPoint_tot p : wf_point p -> exists c, hashPoint sha p = Ok c.
Proof. intros W. unfold hashPoint. destruct (pBytes_tot p W) as [b ->]. eexists. reflexivity. Qed.

Lemma some_present z : present (Some z). Proof. exists z. reflexivity. Qed.
Ltac wf := first [assumption | apply wf_G | apply wf_H | apply wf_0 | apply some_present
  | repeat (apply Forall_cons; [wf|]); apply Forall_nil].
(** step through the calls of a verifier *)
Ltac stp := match goal with
  | |- answers (bind (Challenge sha zk ?l) _) => let c := fresh "c" in destruct (Challenge_tot l) as [c ->]; [wf|]
  | |- answers (bind (Mult zk ?p ?s) _) => let q := fresh "q" in let W := fresh "W" in destruct (Mult_tot p s) as (q & -> & W); [wf|wf|]
  | |- answers (bind (Crypto.Add zk ?p ?s) _) => let q := fresh "q" in let W := fresh "W" in destruct (Add_tot p s) as (q & -> & W); [wf|wf|]
  | |- answers (bind (Crypto.Sub zk ?p ?s) _) => let q := fresh "q" in let W := fresh "W" in destruct (Sub_tot p s) as (q & -> & W); [wf|wf|]
  | |- answers (bind (PedCommitR zk ?p ?s) _) => let q := fresh "q" in let W := fresh "W" in destruct (Ped_tot p s) as (q & -> & W); [wf|wf|]
  | |- answers (bind (Equal ?p ?s) _) => let b := fresh "b" in destruct (Equal_tot p s) as [b ->]; [wf|wf|]
  | H : present ?s |- answers (bind (need ?s) _) => let E := fresh "E" in destruct H as [? E]; rewrite E in *; cbn [need]
  | |- answers (if negb ?b then _ else _) => destruct b; cbn [negb]
  | |- answers (Ok (true, None)) => left; reflexivity
  | |- answers (Ok (false, Some ?e)) => right; exists e; reflexivity
  end; cbn [bind].

Lemma gspfs_tot pf A : wf_point A -> wf_point (gsBase pf) -> wf_point (gsRandCommit pf) ->
  present (gsHiddenValue pf) -> present (gsChallenge pf) -> answers (GSPFSVerify sha (Some pf) zk A).
Proof. intros. unfold GSPFSVerify. repeat stp. Qed.

Lemma equiv_tot pf B1 R1 B2 R2 : wf_point B1 -> wf_point R1 -> wf_point B2 -> wf_point R2 ->
  wf_point (eqUG pf) -> wf_point (eqUH pf) -> present (eqChallenge pf) -> present (eqHiddenValue pf) ->
  answers (EquivalenceVerify sha (Some pf) zk B1 R1 B2 R2).
Proof. intros. unfold EquivalenceVerify. repeat stp. Qed.

Lemma cons_tot pf CM CMTok PK : wf_point CM -> wf_point CMTok -> wf_point PK ->
  wf_point (cnT1 pf) -> wf_point (cnT2 pf) -> present (cnChallenge pf) -> present (cnS1 pf) -> present (cnS2 pf) ->
  answers (ConsistencyVerify sha (Some pf) zk CM CMTok PK).
Proof. intros. unfold ConsistencyVerify. repeat stp. Qed.

Lemma disj_tot pf B1 R1 B2 R2 : wf_point B1 -> wf_point R1 -> wf_point B2 -> wf_point R2 ->
  wf_point (djT1 pf) -> wf_point (djT2 pf) -> present (djC pf) -> present (djC1 pf) -> present (djC2 pf) ->
  present (djS1 pf) -> present (djS2 pf) -> answers (DisjunctiveVerify sha (Some pf) zk B1 R1 B2 R2).
Proof. intros. unfold DisjunctiveVerify. cbv zeta. repeat stp. Qed.
Lemma disj_nil B1 R1 B2 R2 : answers (DisjunctiveVerify sha None zk B1 R1 B2 R2).
Proof. right. eexists. reflexivity. Qed.

Lemma abc_tot pf CM CMTok : full_abc pf -> wf_point CM -> wf_point CMTok -> answers (ABCVerify sha (Some pf) zk CM CMTok).
Proof.
  intros (W1 & W2 & W3 & W4 & P1 & P2 & P3 & P4 & PD) WC WT. unfold ABCVerify. cbn [need bind]. stp.
  assert (AD : answers (DisjunctiveVerify sha (abDisj pf) zk CM CMTok (zH zk) q)).
  { destruct (abDisj pf) as [d|]; [|apply disj_nil]. destruct (PD d eq_refl) as (? & ? & ? & ? & ? & ? & ?).
    apply disj_tot; wf. }
  destruct AD as [->|[e ->]]; cbn [bind snd]; [|right; eexists; reflexivity]. repeat stp.
Qed.

Lemma hpoint_tot i : (i < 64)%nat -> exists p, hpoint zk i = Ok p /\ wf_point p.
Proof.
  intros L. unfold hpoint. rewrite (std_HP zk ST). rewrite nth_error_map.
  rewrite (nth_error_nth' _ 0%nat) by (rewrite seq_length; exact L). rewrite seq_nth by exact L. cbn [option_map need].
  eexists. split; [reflexivity|]. apply wf_pt. isp.
Qed.
Lemma verifyGen_tot i e t : (i < 64)%nat -> wf_point (rtC t) -> present e -> present (rtS t) ->
  exists p, verifyGen sha zk i e t = Ok p /\ wf_point p.
Proof.
  intros L Wt Pe Ps. unfold verifyGen.
  destruct (Mult_tot (zH zk) (rtS t) wf_H Ps) as (l & -> & Wl). cbn [bind].
  destruct (hpoint_tot i L) as (h & -> & Wh). cbn [bind].
  destruct (Neg_tot h Wh) as (nh & -> & Wnh). cbn [bind].
  destruct (Add_tot (rtC t) nh Wt Wnh) as (r & -> & Wr). cbn [bind].
  destruct (Mult_tot r e Wr Pe) as (m & -> & Wm). cbn [bind].
  destruct (Neg_tot m Wm) as (nm & -> & Wnm). cbn [bind].
  destruct (Add_tot l nm Wl Wnm) as (o & -> & Wo). cbn [bind].
  destruct (hashPoint_tot o Wo) as (c & ->). cbn [bind]. apply Mult_tot; wf.
Qed.
Lemma verifyAll_tot e ts : present e -> forall n, (n + length ts <= 64)%nat -> Forall (fun t => wf_point (rtC t)) ts -> existsb tupleNil ts = false ->
  exists ps, verifyAll sha zk e n ts = Ok ps /\ Forall wf_point ps.
Proof.
  intros Pe. induction ts as [|t ts IH]; intros n L F Nn; [eexists; split; [reflexivity|constructor]|].
  cbn [existsb] in Nn. apply orb_false_iff in Nn. destruct Nn as [N1 N2]. cbn [length] in L. cbn [verifyAll].
  destruct (verifyGen_tot n e t) as (p & -> & Wp); [lia|exact (Forall_inv F)|exact Pe| |].
  { unfold tupleNil in N1. destruct (pX (rtC t)); [|discriminate]. destruct (rtS t); [apply some_present|discriminate]. }
  cbn [bind]. destruct (IH (S n)) as (ps & -> & Wps); [lia|exact (Forall_inv_tail F)|exact N2|]. cbn [bind].
  eexists. split; [reflexivity|]. constructor; assumption.
Qed.
Lemma sumC_tot ts : Forall (fun t => wf_point (rtC t)) ts -> forall acc, wf_point acc -> exists p, sumC zk acc ts = Ok p /\ wf_point p.
Proof.
  induction 1 as [|t ts W _ IH]; intros acc Wa; [eexists; split; [reflexivity|exact Wa]|]. cbn [sumC].
  destruct (Add_tot acc (rtC t) Wa W) as (a & -> & Wa'). cbn [bind]. apply IH. exact Wa'.
Qed.
Lemma range_tot pf comm : full_range pf -> wf_point comm -> answers (RangeVerify sha (Some pf) zk comm).
Proof.
  intros (Wa & Pe & L & F) Wc. unfold RangeVerify. destruct (existsb tupleNil (rpTuples pf)) eqn:Nn; [right; eexists; reflexivity|].
  destruct (verifyAll_tot (rpE pf) (rpTuples pf) Pe 0%nat L F Nn) as (ps & -> & Wps). cbn [bind].
  destruct (sumC_tot (rpTuples pf) F ZeroPoint wf_0) as (tp & -> & Wt). cbn [bind].
  unfold rangeDecide, hashPoints. destruct (allBytes_tot ps Wps) as [bs ->]. cbn [bind]. repeat stp.
Qed.
End Tot.
