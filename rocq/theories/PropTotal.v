(** * The verifiers never crash, on proofs with all their parts (C46)

    [std zk]: the curve parameters of the package; [curve_total]: the curve operations
    return on coordinates of at most 256 bits, on the curve or not (proved of the
    modelled btcec curve, S256_total). *)
From Coq Require Import ZArith List Bool Lia.
From Verif Require Import Spec Go Wire Big CurveGroup Order GMult Crypto Zksigma Sha256 SpecZk ZkBase SpecCodec SpecCurve SpecTotal SpecVerify
  TotalProofs Koblitz KobTab CodecProofs Gspfs Equivalence Consistency Disjunctive Abc Range PropCodec PropCurve PubKeyProofs VerifyTotal.
Import ListNotations.
Open Scope Z_scope.

(** C46: on a nil proof, and on a proof with all its parts, whatever the points and
    numbers in it, Verify answers true without error or false with an error. *)
Theorem C46_gspfs_answers sha zk proof A : std zk -> curve_total (zC zk) -> wf_point A ->
  (forall p, proof = Some p -> full_gspfs p) -> answers (GSPFSVerify sha proof zk A).
Proof.
  intros S T WA F. destruct proof as [p|]; [|right; eexists; reflexivity].
  destruct (F p eq_refl) as (? & ? & ? & ?). apply gspfs_tot; assumption.
Qed.
Print Assumptions C46_gspfs_answers.

Theorem C46_equivalence_answers sha zk proof B1 R1 B2 R2 : std zk -> curve_total (zC zk) ->
  wf_point B1 -> wf_point R1 -> wf_point B2 -> wf_point R2 ->
  (forall p, proof = Some p -> full_equivalence p) -> answers (EquivalenceVerify sha proof zk B1 R1 B2 R2).
Proof.
  intros S T W1 W2 W3 W4 F. destruct proof as [p|]; [|right; eexists; reflexivity].
  destruct (F p eq_refl) as (? & ? & ? & ?). apply equiv_tot; assumption.
Qed.
Print Assumptions C46_equivalence_answers.

Theorem C46_consistency_answers sha zk proof CM CMTok PK : std zk -> curve_total (zC zk) ->
  wf_point CM -> wf_point CMTok -> wf_point PK ->
  (forall p, proof = Some p -> full_consistency p) -> answers (ConsistencyVerify sha proof zk CM CMTok PK).
Proof.
  intros S T W1 W2 W3 F. destruct proof as [p|]; [|right; eexists; reflexivity].
  destruct (F p eq_refl) as (? & ? & ? & ? & ?). apply cons_tot; assumption.
Qed.
Print Assumptions C46_consistency_answers.

Theorem C46_disjunctive_answers sha zk proof B1 R1 B2 R2 : std zk -> curve_total (zC zk) ->
  wf_point B1 -> wf_point R1 -> wf_point B2 -> wf_point R2 ->
  (forall p, proof = Some p -> full_disjunctive p) -> answers (DisjunctiveVerify sha proof zk B1 R1 B2 R2).
Proof.
  intros S T W1 W2 W3 W4 F. destruct proof as [p|]; [|right; eexists; reflexivity].
  destruct (F p eq_refl) as (? & ? & ? & ? & ? & ? & ?). apply disj_tot; assumption.
Qed.
Print Assumptions C46_disjunctive_answers.

(** (a nil ABC proof is excluded: see C46_nil_abc_refuted) *)
Theorem C46_abc_answers sha zk p CM CMTok : std zk -> curve_total (zC zk) ->
  wf_point CM -> wf_point CMTok -> full_abc p -> answers (ABCVerify sha (Some p) zk CM CMTok).
Proof. intros S T W1 W2 F. apply abc_tot; assumption. Qed.
Print Assumptions C46_abc_answers.

Theorem C46_inequality_answers sha zk proof CM CMTok : std zk -> curve_total (zC zk) ->
  wf_point CM -> wf_point CMTok -> (forall p, proof = Some p -> full_abc p) -> answers (InequalityVerify sha proof zk CM CMTok).
Proof.
  intros S T W1 W2 F. destruct proof as [p|]; [|right; eexists; reflexivity]. unfold InequalityVerify. apply abc_tot; auto.
Qed.
Print Assumptions C46_inequality_answers.

Theorem C46_range_answers sha zk proof comm : std zk -> curve_total (zC zk) -> wf_point comm ->
  (forall p, proof = Some p -> full_range p) -> answers (RangeVerify sha proof zk comm).
Proof.
  intros S T W F. destruct proof as [p|]; [|right; eexists; reflexivity]. apply range_tot; auto.
Qed.
Print Assumptions C46_range_answers.

(** C46: the expectation "for any proof" fails.  A nil ABC proof crashes the verifier, *)
Theorem C46_nil_abc_refuted sha zk CM CMTok : ABCVerify sha None zk CM CMTok = Panic.
Proof. reflexivity. Qed.
Print Assumptions C46_nil_abc_refuted.

(** so does a proof without its challenge, *)
Theorem C46_missing_challenge_refuted sha zk : 
  (forall p A, gsChallenge p = None -> GSPFSVerify sha (Some p) zk A = Panic) /\
  (forall p B1 R1 B2 R2, eqChallenge p = None -> EquivalenceVerify sha (Some p) zk B1 R1 B2 R2 = Panic) /\
  (forall p CM CMTok PK, cnChallenge p = None -> ConsistencyVerify sha (Some p) zk CM CMTok PK = Panic) /\
  (forall p B1 R1 B2 R2, djC p = None -> DisjunctiveVerify sha (Some p) zk B1 R1 B2 R2 = Panic).
Proof.
  repeat split; intros p; intros;
  [unfold GSPFSVerify|unfold EquivalenceVerify|unfold ConsistencyVerify|unfold DisjunctiveVerify];
  match goal with |- bind ?r _ = _ => destruct r; [|reflexivity] end; cbn [bind];
  match goal with H : _ = None |- _ => rewrite H end; reflexivity.
Qed.
Print Assumptions C46_missing_challenge_refuted.

(** and so does, on the modelled curve, a proof with all its scalars whose base has a
    coordinate of 257 bits; the decoder produces such a proof from bytes. *)
Theorem C46_oversized_refuted sha zk t tH A : std zk -> zC zk = S256 t tH -> is_point A ->
  exists bs p, NewGSPFSProofFromBytes bs = Ok (Some p, None) /\
    present (gsHiddenValue p) /\ present (gsChallenge p) /\ wf_point (gsRandCommit p) /\
    GSPFSVerify sha (Some p) zk (pt A) = Panic.
Proof.
  intros S EC HA.
  assert (WA : wf_point (pt A)) by (apply wf_pt; exact HA).
  assert (WG : wf_point (pt G)) by (apply wf_pt; exact is_point_G).
  destruct (Challenge_tot sha zk [pt A; pt G]) as [ch Ech]; [constructor; [exact WA|constructor; [exact WG|constructor]]|].
  assert (Sch : 0 <= ch < N).
  { unfold Challenge in Ech. destruct (allBytes _) as [l|]; [|discriminate]. cbn [bind] in Ech. apply Ok_inj in Ech. subst ch.
    unfold GenerateChallenge. rewrite (ok_N _ (std_curve zk S)). apply Z.mod_pos_bound. reflexivity. }
  set (p := MkGSPFS (EP (Some (2 ^ 256)) (Some 1)) (pt G) (Some 1) (Some ch)).
  assert (Sm : forall z, 0 <= z <= 2 ^ 256 -> small z).
  { intros z Hz. unfold small. rewrite Z.abs_eq by lia. apply Z.le_lt_trans with 256; [|reflexivity].
    change 256 with (Z.log2 (2 ^ 256)). apply Z.log2_le_mono. lia. }
  assert (W : wfGSPFS p).
  { unfold wfGSPFS, wfPoint, wfInt. cbn [gsBase gsRandCommit gsHiddenValue gsChallenge p].
    assert (HN : N <= 2 ^ 256) by discriminate.
    split; [exists (2 ^ 256), 1; repeat split; try discriminate; apply Sm; split; discriminate|].
    split; [exists Gx, Gy; repeat split; try discriminate; apply Sm; split; discriminate|].
    split; [exists 1; split; [reflexivity|]; apply Sm; split; discriminate|].
    exists ch. split; [reflexivity|]. apply Sm. lia. }
  destruct (C07_gspfs_roundtrip p W) as (b & _ & Dec). specialize (Dec []). exists (b ++ []), p.
  split; [exact Dec|]. split; [exists 1; reflexivity|]. split; [exists ch; reflexivity|]. split; [exact WG|].
  unfold GSPFSVerify. cbn [gsRandCommit p]. rewrite Ech. cbn [bind gsChallenge p need]. rewrite Z.eqb_refl. cbn [negb].
  cbn [gsBase gsHiddenValue p]. unfold Mult. cbn [pX pY need bind]. unfold Equal. rewrite (std_G zk S), (std_H zk S).
  cbn [pX pY pt need bind]. unfold pt. cbn [pX pY need bind].
  replace (2 ^ 256 =? fst G) with false by reflexivity. cbn [bind].
  assert (HH : (2 ^ 256 =? fst Hgen) = false).
  { apply Z.eqb_neq. assert (HP : is_point Hgen) by isp. destruct (ZkBase.coord_range_256 _ HP) as [B _]. lia. }
  rewrite HH. cbn [bind]. rewrite EC. reflexivity.
Qed.
Print Assumptions C46_oversized_refuted.

(** the hypotheses hold: parameters, and a range proof full of arbitrary numbers *)
Example C46_case : exists zk, std zk /\ curve_total (zC zk) /\
  full_range (MkRange (EP (Some 1) (Some (-3))) (Some 7) (repeat (MkTuple (EP (Some 5) (Some 5)) (Some (-1))) 64)) /\
  full_abc (MkABC (EP (Some 1) (Some 1)) (EP (Some 0) (Some 0)) (EP (Some 2) (Some 3)) (EP (Some 2) (Some 3))
              (Some 1) (Some (2 ^ 300)) (Some 0) (Some (-5)) (EP None None) None).
Proof.
  destruct (C51_testcurve_std (mkTable G) (mkTable Htab) (mkTable_ok G is_point_G) (mkTable_ok Htab is_point_Htab)) as (zk & E & S).
  exists zk. split; [exact S|]. split.
  { assert (EC : zC zk = S256 (mkTable G) (mkTable Htab)).
    { exact (init_curve _ _ _ _ _ E). }
    rewrite EC. apply S256_total; [exact (mkTable_ok G is_point_G)|exact (mkTable_ok Htab is_point_Htab)]. }
  assert (K : forall x y, coord x -> coord y -> wf_point (EP (Some x) (Some y))) by (intros; do 2 eexists; eauto).
  split.
  - split; [apply K; reflexivity|]. split; [eexists; reflexivity|]. split; [apply le_n|].
    apply Forall_forall. intros u I. apply repeat_spec in I. subst u. apply K; reflexivity.
  - repeat (split; [first [apply K; reflexivity|eexists; reflexivity]|]). intros d Ed. discriminate Ed.
Qed.
