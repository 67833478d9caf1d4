(** * Proofs about error texts, continued (proof only) *)
From Coq Require Import String ZArith List Bool Lia Znumtheory.
From Verif Require Import NumTheory Go Wire Big Crypto Spec FieldP FieldN CurveZ CurveGroup EndoP Order Lambda
  SpecZk SpecBtc CodecProofs ZkBase PointProofs Gspfs GspfsProofs Equivalence Consistency EqConsProofs Disjunctive DisjProofs
  Abc AbcProofs Range SpecRange RangeProofs FieldProofs KobMul PubKey PubKeyProofs Signature DerProofs Text Errors SpecErrors ErrorsProofs.
Import ListNotations.
Open Scope Z_scope.

Section P.
Variables (sha : list Z -> list Z) (zk : zkparams).
Hypothesis S : std zk.

(** ** ABC *)
Lemma disjE dj B1 R1 B2 R2 : DisjunctiveVerify sha dj zk B1 R1 B2 R2 <> Panic -> exists e,
  DisjunctiveVerifyE sha dj zk B1 R1 B2 R2 = Ok (match e with None => true | Some _ => false end, e) /\
  (accepts (DisjunctiveVerify sha dj zk B1 R1 B2 R2) <-> e = None).
Proof.
  intros NP. pose proof (forget_disj sha dj zk B1 R1 B2 R2) as F.
  destruct (DisjunctiveVerifyE sha dj zk B1 R1 B2 R2) as [[b e]|] eqn:E; cbn [forget] in F; [|congruence].
  exists e. unfold accepts. rewrite <- F. destruct e as [e|]; cbn [option_map].
  - split; [|split; intros K; discriminate K].
    enough (b = false) by congruence. clear F NP.
    unfold DisjunctiveVerifyE in E. destruct dj as [pf|]; [|congruence]. unfold bind, need in E.
    repeat match type of E with context [match ?x with _ => _ end] => destruct x; try discriminate E end; congruence.
  - assert (b = true) by (symmetry in F; exact (disj_verdict sha zk _ _ _ _ _ _ F)). subst b. split; [reflexivity|]. split; reflexivity.
Qed.
Lemma abc_reports CM CT B C T1 T2 c j k l tok dj : is_point CM -> is_point CT -> is_point B -> is_point C -> is_point T1 -> is_point T2 ->
  DisjunctiveVerify sha dj zk (pt CM) (pt CT) (pt Hgen) (pt (padd C (pneg G))) <> Panic ->
  reports (ABCVerifyE sha (Some (MkABC (pt B) (pt C) (pt T1) (pt T2) (Some c) (Some j) (Some k) (Some l) tok dj)) zk (pt CM) (pt CT))
    [(accepts (DisjunctiveVerify sha dj zk (pt CM) (pt CT) (pt Hgen) (pt (padd C (pneg G)))),
        says "ABCVerify - ABCProof for disjuncAC is false or not generated properly");
     (fs sha [G; Hgen; CM; CT; B; C; T1; T2] = c, says "ABCVerify - proof contains incorrect challenge");
     (pm (padd (smul c (eff CM)) T1) (padd (smul j G) (smul k (eff CT))), says "ABCProof - cCM + T1 != jG + kCMTok");
     (pm (padd (smul c (eff C)) T2) (padd (smul j (eff B)) (smul l Htab)), says "ABCVerify - cC + T2 != jB + lH")].
Proof.
  intros H1 H2 H3 H4 H5 H6 NP. unfold ABCVerifyE. cbn [need bind abB abC abT1 abT2 abChallenge abj abk abl abDisj].
  rewrite (std_G _ S), (std_H _ S). zk S. destruct (disjE _ _ _ _ _ NP) as (e & E & A). rewrite E. cbn [bind snd].
  destruct e as [e|]; [apply rep_false; fl (intros K; apply A in K; discriminate K)|].
  apply proj2 in A. specialize (A eq_refl).
  chal S. cbn [need bind].
  destruct (Z.eqb_spec (fs sha [G; Hgen; CM; CT; B; C; T1; T2]) c) as [F|F]; cbn [negb]; [|apply rep_false; nx (exact A); fl (exact F)].
  rewrite F. zk S. rewrite eff_G. destruct (_ =? _) eqn:X; cbn [negb]; [|apply rep_false; nx (exact A); nx (reflexivity); fl pno].
  zk S. rewrite eff_Hgen. destruct (fst (padd (smul c (eff C)) T2) =? _) eqn:Y; cbn [negb].
  - apply rep_true. nx (exact A). nx (reflexivity). nx ppos. nx ppos. constructor.
  - apply rep_false. nx (exact A). nx (reflexivity). nx ppos. fl pno.
Qed.
Lemma right_related uc : fst (smul uc Htab) =? fst (padd (ped 1 uc) (pneg G)) = true.
Proof.
  apply Z.eqb_eq. f_equal. unfold ped. rewrite smul_1. rewrite (padd_comm G) by isp. rewrite padd_assoc by isp.
  rewrite padd_pneg_r by isp. rewrite padd_O_r. reflexivity.
Qed.
Lemma disj_proves_case (src : list Z) B1 R1 B2 R2 x side d1 d2 d3 : is_point B1 -> is_point R1 -> is_point B2 -> is_point R2 ->
  exists p e, NewDisjunctiveProofE sha zk (pt B1) (pt R1) (pt B2) (pt R2) (Some x) side d1 d2 d3 = Ok (p, e) /\
  (e = None <-> (side = Left \/ side = Right) /\ pm (smul x (eff (if side =? Left then B1 else B2))) (if side =? Left then R1 else R2) /\
                d1 <> None /\ d2 <> None /\ d3 <> None).
Proof.
  intros H1 H2 H3 H4. destruct (disj_proves sha zk S src B1 R1 B2 R2 x side d1 d2 d3 H1 H2 H3 H4) as (p & e & E & _ & F).
  exists p, e. split; [exact E|]. destruct e as [e|]; cbn [option_map] in F.
  - split; [intros K; discriminate K|]. intros (K1 & K2 & K3). exfalso.
    inversion F as [|? ? ? ? N1 _|? ? ? ? _ F1]; subst; [contradiction|]. inversion F1 as [|? ? ? ? N1 _|? ? ? ? _ F2]; subst; [contradiction|].
    inversion F2 as [|? ? ? ? N1 _|? ? ? ? _ F3]; subst; [contradiction|]. inversion F3.
  - split; [intros _|reflexivity].
    inversion F as [| |? ? ? ? K1 F1]; subst. inversion F1 as [| |? ? ? ? K2 F2]; subst. inversion F2 as [| |? ? ? ? K3 F3]; subst.
    split; [exact K1|]. split; [exact K2|exact K3].
Qed.
Lemma abc_proves src CM CT v sk side rn : is_point CM -> is_point CT -> sk mod N <> 0 -> (side = Right -> v <> 0 -> v mod N <> 0) ->
  provesOr src (NewABCProofE sha zk (pt CM) (pt CT) (Some v) (Some sk) side rn)
    [(ar1 rn <> None /\ ar2 rn <> None /\ ar3 rn <> None /\ arb rn <> None /\ arc rn <> None, eq src);
     ((side = Left /\ v = 0) \/ (side = Right /\ v <> 0), says "ABCProof - invalid side-value pair passed");
     ((side = Left -> pm (smul sk (eff CM)) CT) /\ ard1 rn <> None /\ ard2 rn <> None /\ ard3 rn <> None,
        says "ABCProof - disjunctiveProve within ABCProve failed to generate")].
Proof.
  intros H1 H2 Hs Hv. destruct rn as [r1 r2 r3 rb rc d1 d2 d3]. unfold NewABCProofE. cbn [ar1 ar2 ar3 arb arc ard1 ard2 ard3].
  destruct r1 as [u1|]; [|apply pr_err; fl (intros (K & _); exact (K eq_refl))].
  destruct r2 as [u2|]; [|apply pr_err; fl (intros (_ & K & _); exact (K eq_refl))].
  destruct r3 as [u3|]; [|apply pr_err; fl (intros (_ & _ & K & _); exact (K eq_refl))].
  destruct rb as [ub|]; [|apply pr_err; fl (intros (_ & _ & _ & K & _); exact (K eq_refl))].
  destruct rc as [uc|]; [|apply pr_err; fl (intros (_ & _ & _ & _ & K); exact (K eq_refl))].
  assert (D : Some u1 <> None /\ Some u2 <> None /\ Some u3 <> None /\ Some ub <> None /\ Some uc <> None)
    by (do 4 (split; [discriminate|]); discriminate).
  zk S.
  destruct (Z.eqb_spec side Left) as [EL|EL]; [|destruct (Z.eqb_spec side Right) as [ER|ER]]; cbn [orb need bind andb].
  - destruct (Z.eqb_spec v 0) as [V|V]; cbn [andb].
    + assert (NR : (side =? Right) = false) by (rewrite EL; reflexivity).
      zk S. rewrite (std_G _ S), (std_H _ S). zk S.
      destruct (disj_proves_case src CM CT Hgen (padd (ped 0 uc) (pneg G)) sk Left d1 d2 d3) as (p & e & E & C); [isp|isp|isp|isp|].
      rewrite E. cbn [bind fst snd]. change (Left =? Left) with true in C. cbv iota in C.
      destruct e as [e|].
      * apply pr_err. nx (exact D). nx (left; split; assumption). fl idtac. intros (K1 & K2).
        assert (Some e = None) by (apply C; split; [left; reflexivity|split; [exact (K1 EL)|exact K2]]). discriminate.
      * cbn [need bind]. rewrite (abcFinish_ok sha zk S) by isp. rewrite (proj2 (Z.eqb_neq _ _) Hs). cbn [bind fst].
        apply pr_ok. nx (exact D). nx (left; split; assumption). destruct (proj1 C eq_refl) as (_ & K1 & K2).
        nx (split; [intros _; exact K1|exact K2]). constructor.
    + assert (NR : (side =? Right) = false) by (rewrite EL; reflexivity). rewrite NR. cbn [andb].
      apply pr_err. nx (exact D). fl idtac. intros [[_ K]|[K _]]; [contradiction|]. rewrite EL in K. discriminate K.
  - destruct (Z.eqb_spec v 0) as [V|V]; cbn [andb negb].
    + apply pr_err. nx (exact D). fl idtac. intros [[K _]|[_ K]]; contradiction.
    + rewrite ?(cN_ok zk S), modInverse_some by (exact (Hv ER V)). zk S. rewrite (std_G _ S), (std_H _ S). zk S.
      destruct (disj_proves_case src CM CT Hgen (padd (ped 1 uc) (pneg G)) uc Right d1 d2 d3) as (p & e & E & C); [isp|isp|isp|isp|].
      rewrite E. cbn [bind fst snd]. change (Right =? Left) with false in C. cbv iota in C. rewrite eff_Hgen in C.
      destruct e as [e|].
      * apply pr_err. nx (exact D). nx (right; split; assumption). fl idtac. intros (_ & K2).
        assert (Some e = None) by (apply C; split; [right; reflexivity|split; [apply pm_fst; [isp|isp|apply right_related]|exact K2]]). discriminate.
      * cbn [need bind]. rewrite (abcFinish_ok sha zk S) by isp. rewrite (proj2 (Z.eqb_neq _ _) Hs). cbn [bind fst].
        apply pr_ok. nx (exact D). nx (right; split; assumption). destruct (proj1 C eq_refl) as (_ & _ & K2).
        nx (split; [intros K; contradiction|exact K2]). constructor.
  - apply pr_err. nx (exact D). fl (intros [[K _]|[K _]]; contradiction).
Qed.

(** ** Range *)
Lemma range_reports A e cs comm : is_point A -> is_point comm -> Forall (fun c => is_point (fst c)) cs -> (length cs <= 64)%nat ->
  reports (RangeVerifyE sha (Some (MkRange (pt A) (Some e) (tuples cs))) zk (pt comm))
    [(e = hs sha (rings sha e 0 cs), says "RangeProof.Verify - calculatedE0 does not match");
     (pm (psum (map fst cs)) A, says "RangeProof.Verify - ProofAggregate does not match totalPoint");
     (pm comm (psum (map fst cs)), says "RangeProof.Verify - ProofAggregate does not match commitment")].
Proof.
  intros HA Hc Hcs L. assert (HP : is_point (psum (map fst cs))) by (apply is_point_psum, points_fst; exact Hcs).
  unfold RangeVerifyE. cbn [rpTuples rpE].
  pose proof (entry_nil (tuples cs) 0) as EN. destruct (entryError 0 (tuples cs)); [rewrite tuples_not_nil in EN; destruct EN; discriminate|].
  rewrite (verifyAll_ok sha zk S) by (assumption || lia). cbn [bind].
  rewrite ZeroPoint_pt, (sumC_ok zk S) by (assumption || isp). cbn [bind]. rewrite padd_O_l.
  unfold rangeDecideE. cbn [rpAggregate rpE]. rewrite hashPoints_ok. cbn [bind need].
  destruct (Z.eqb_spec e (hs sha (rings sha e 0 cs))) as [E|E]; cbn [negb]; [|apply rep_false; fl (exact E)].
  rewrite Equal_ok. cbn [bind]. destruct (_ =? _) eqn:X; cbn [negb]; [|apply rep_false; nx (exact E); fl (apply pm_fst_no; assumption)].
  rewrite Equal_ok. cbn [bind]. destruct (fst comm =? _) eqn:Y; cbn [negb].
  - apply rep_true. nx (exact E). nx (apply pm_fst; assumption). nx (apply pm_fst; assumption). constructor.
  - apply rep_false. nx (exact E). nx (apply pm_fst; assumption). fl (apply pm_fst_no; assumption).
Qed.
End P.

Lemma entry_reports ts : forall i, firstFailing (complete i ts) (option_map (Error []) (entryError i ts)).
Proof.
  induction ts as [|t r IH]; intros i; cbn [complete entryError]; [constructor|].
  destruct (pX (rtC t)) eqn:E1.
  - nx discriminate. destruct (rtS t).
    + nx discriminate. apply IH.
    + apply FailsHere; [intros K; exact (K eq_refl)|]. eexists. split; [apply decimal_ok|]. unfold Error. rewrite <- !app_assoc. reflexivity.
  - apply FailsHere; [intros K; exact (K eq_refl)|]. eexists. split; [apply decimal_ok|]. unfold Error. rewrite <- !app_assoc. reflexivity.
Qed.
Lemma range_incomplete sha zk pf comm : existsb tupleNil (rpTuples pf) = true ->
  reports (RangeVerifyE sha (Some pf) zk comm) (complete 0 (rpTuples pf)).
Proof.
  intros H. unfold RangeVerifyE. pose proof (entry_nil (rpTuples pf) 0) as E. pose proof (entry_reports (rpTuples pf) 0) as F.
  destruct (entryError 0 (rpTuples pf)) as [e|]; [|congruence]. apply rep_false. exact F.
Qed.
Lemma range_prove_text sha zk v rn p o e src : NewRangeProofE sha zk (Some v) rn = Ok (p, o, e) ->
  firstFailing [(v <= 2 ^ 40, saysNumber "val " v " too big, can only prove up to 1099511627776");
                (0 <= v, says "** Trying to get a value that is out of range! Range Proof will not work!")]
    (option_map (Error src) e).
Proof.
  unfold NewRangeProofE. cbn [need bind]. change (2 ^ 40) with 1099511627776.
  destruct (Z.ltb_spec 1099511627776 v) as [L|L].
  - intros E. injection E as _ _ <-. apply FailsHere; [lia|]. eexists. split; [apply decimal_ok|]. reflexivity.
  - destruct (Z.ltb_spec v 0) as [M|M].
    + intros E. injection E as _ _ <-. nx (exact L). fl lia.
    + intros E. nx (exact L). nx (exact M). apply ff_nil.
      destruct (runAll _ _ _) as [ssA|] in E; [|discriminate E]. cbn [bind] in E. destruct (challengeE0 _ _ _) as [e0|] in E; [|discriminate E].
      cbn [bind] in E. destruct (runAll _ _ _) as [ssB|] in E; [|discriminate E]. cbn [bind] in E.
      destruct (rangeFinish _ _ _) as [r|] in E; [|discriminate E]. cbn [bind] in E. injection E as _ <-. reflexivity.
Qed.
