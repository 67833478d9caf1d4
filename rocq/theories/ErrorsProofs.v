(** * Proofs about error texts (proof only) *)
From Coq Require Import String ZArith List Bool Lia.
From Verif Require Import NumTheory Go Wire Big Crypto Spec FieldP FieldN CurveZ CurveGroup EndoP Order Lambda
  SpecZk CodecProofs ZkBase PointProofs Gspfs GspfsProofs Equivalence Consistency EqConsProofs Disjunctive DisjProofs
  Abc AbcProofs Range SpecRange RangeProofs PubKey Signature Text Errors SpecErrors.
Import ListNotations.
Open Scope Z_scope.

(** ** Decimal *)
Lemma fold_digits ds : forall a, fold_left (fun a d => 10 * a + d) ds a = a * 10 ^ Z.of_nat (length ds) + digitsValue ds.
Proof.
  induction ds as [|d r IH]; intros a; cbn [fold_left length].
  - unfold digitsValue. cbn [fold_left]. change (Z.of_nat 0) with 0. rewrite Z.pow_0_r. lia.
  - unfold digitsValue. cbn [fold_left]. rewrite IH, (IH (10 * 0 + d)).
    rewrite Nat2Z.inj_succ, Z.pow_succ_r by lia. ring.
Qed.
Lemma digits_snoc ds d : digitsValue (ds ++ [d]) = 10 * digitsValue ds + d.
Proof. unfold digitsValue. rewrite fold_left_app. reflexivity. Qed.
Lemma decRev_ok : forall f n, 0 <= n < 2 ^ Z.of_nat f -> exists ds,
  rev (decRev f n) = map (fun d => 48 + d) ds /\ Forall (fun d => 0 <= d <= 9) ds /\ digitsValue ds = n /\
  (f = 0%nat \/ ds = [0] \/ exists d r, ds = d :: r /\ d <> 0).
Proof.
  induction f as [|f IH]; intros n Hn; cbn [decRev].
  - exists []. cbn [Z.of_nat] in Hn. rewrite Z.pow_0_r in Hn. split; [reflexivity|]. split; [constructor|]. split; [cbn; lia|]. left. reflexivity.
  - destruct (Z.ltb_spec n 10) as [L|L].
    + exists [n]. split; [reflexivity|]. split; [repeat constructor; lia|]. split; [unfold digitsValue; cbn [fold_left]; lia|]. right.
      destruct (Z.eq_dec n 0) as [->|NE]; [left; reflexivity|right; exists n, []; split; [reflexivity|exact NE]].
    + destruct (IH (n / 10)) as (ds & E & F & V & H).
      { rewrite Nat2Z.inj_succ, Z.pow_succ_r in Hn by lia. split; [apply Z.div_pos; lia|apply Z.div_lt_upper_bound; lia]. }
      exists (ds ++ [n mod 10]). cbn [rev]. rewrite E, map_app. split; [reflexivity|].
      assert (M : 0 <= n mod 10 < 10) by (apply Z.mod_pos_bound; lia).
      split; [apply Forall_app; split; [exact F|repeat constructor; lia]|].
      split; [rewrite digits_snoc, V; symmetry; apply Z.div_mod; lia|]. right. right.
      assert (Q : 1 <= n / 10) by (apply Z.div_le_lower_bound; lia).
      destruct H as [->|[->|(d & r & -> & Hd)]].
      * cbn [Z.of_nat] in *. change (2 ^ Z.of_nat 1) with 2 in Hn. lia.
      * unfold digitsValue in V. cbn [fold_left] in V. lia.
      * exists d, (r ++ [n mod 10]). split; [reflexivity|exact Hd].
Qed.
Lemma decimal_ok z : isDecimal (decimal z) z.
Proof.
  unfold isDecimal, decimal.
  destruct (decRev_ok (S (Z.to_nat (Z.log2 (Z.abs z)))) (Z.abs z)) as (ds & E & F & V & H).
  { rewrite Nat2Z.inj_succ, Z2Nat.id by apply Z.log2_nonneg. split; [lia|].
    destruct (Z.eq_dec (Z.abs z) 0) as [->|NE]; [reflexivity|apply Z.log2_spec; lia]. }
  exists ds. rewrite E. split; [destruct (z <? 0); reflexivity|]. split; [exact F|]. split; [exact V|].
  destruct H as [H|H]; [discriminate H|exact H].
Qed.
(** different numbers have different texts *)
Lemma digit_inj : forall ds es, Forall (fun d => 0 <= d <= 9) ds -> Forall (fun d => 0 <= d <= 9) es ->
  map (fun d => 48 + d) ds = map (fun d => 48 + d) es -> ds = es.
Proof.
  induction ds as [|d r IH]; intros [|e t] Hd He E; try discriminate E; [reflexivity|].
  assert (E1 : 48 + d = 48 + e) by exact (f_equal (hd 0) E). assert (E2 := f_equal (@tl Z) E). cbn [map tl] in E2.
  inversion_clear Hd. inversion_clear He. f_equal; [lia|apply IH; assumption].
Qed.
Lemma isDecimal_inj s z w : isDecimal s z -> isDecimal s w -> z = w.
Proof.
  intros (ds & E1 & F1 & V1 & _) (es & E2 & F2 & V2 & _).
  assert (M : forall d r (l : list Z), Forall (fun d => 0 <= d <= 9) (d :: r) -> 45 :: l = map (fun d => 48 + d) (d :: r) -> False).
  { intros d r l F E. assert (K : 45 = 48 + d) by exact (f_equal (hd 0) E). inversion_clear F. lia. }
  rewrite E1 in E2. change (ascii "-") with [45] in E2.
  destruct (Z.ltb_spec z 0), (Z.ltb_spec w 0); cbn [app] in E2.
  - injection E2 as E2. apply digit_inj in E2; [|assumption|assumption]. subst. lia.
  - destruct es as [|e t]; [discriminate E2|]. exfalso. exact (M _ _ _ F2 E2).
  - destruct ds as [|e t]; [discriminate E2|]. exfalso. exact (M _ _ _ F1 (eq_sym E2)).
  - apply digit_inj in E2; [|assumption|assumption]. subst. lia.
Qed.

(** ** Forgetting the texts *)
Lemma forget_bind A B (m : R B) (f : B -> R (A * option err)) : forget (bind m f) = bind m (fun b => forget (f b)).
Proof. destruct m; reflexivity. Qed.
Lemma bind_ext A B (m : R A) (f g : A -> R B) : (forall a, f a = g a) -> bind m f = bind m g.
Proof. intros H. destruct m; cbn [bind]; [apply H|reflexivity]. Qed.
Ltac fg := repeat first
  [ reflexivity
  | rewrite forget_bind; apply bind_ext; intros
  | match goal with |- forget (if ?b then _ else _) = _ => destruct b end
  | match goal with |- forget (match ?b with Some _ => _ | None => _ end) = _ => destruct b end
  | progress cbv zeta ].

Section Hash.
Variable sha : list Z -> list Z.
Lemma forget_gspfs_prove zk b A x r : forget (NewGSPFSProofBaseE sha zk b A x r) = NewGSPFSProofBase sha zk b A x r.
Proof. unfold NewGSPFSProofBaseE, NewGSPFSProofBase. fg. Qed.
Lemma forget_gspfs pf zk A : forget (GSPFSVerifyE sha pf zk A) = GSPFSVerify sha pf zk A.
Proof. unfold GSPFSVerifyE, GSPFSVerify. fg. Qed.
Lemma forget_equiv_prove zk b1 r1 b2 r2 x r : forget (NewEquivalenceProofE sha zk b1 r1 b2 r2 x r) = NewEquivalenceProof sha zk b1 r1 b2 r2 x r.
Proof. unfold NewEquivalenceProofE, NewEquivalenceProof. fg. Qed.
Lemma forget_equiv pf zk b1 r1 b2 r2 : forget (EquivalenceVerifyE sha pf zk b1 r1 b2 r2) = EquivalenceVerify sha pf zk b1 r1 b2 r2.
Proof. unfold EquivalenceVerifyE, EquivalenceVerify. fg. Qed.
Lemma forget_cons_prove zk cm tok pk v r d1 d2 : forget (NewConsistencyProofE sha zk cm tok pk v r d1 d2) = NewConsistencyProof sha zk cm tok pk v r d1 d2.
Proof. unfold NewConsistencyProofE, NewConsistencyProof. fg. Qed.
Lemma forget_cons pf zk cm tok pk : forget (ConsistencyVerifyE sha pf zk cm tok pk) = ConsistencyVerify sha pf zk cm tok pk.
Proof. unfold ConsistencyVerifyE, ConsistencyVerify. fg. Qed.
Lemma forget_disj_prove zk b1 r1 b2 r2 x s d1 d2 d3 :
  forget (NewDisjunctiveProofE sha zk b1 r1 b2 r2 x s d1 d2 d3) = NewDisjunctiveProof sha zk b1 r1 b2 r2 x s d1 d2 d3.
Proof. unfold NewDisjunctiveProofE, NewDisjunctiveProof, disjProveE, disjProve. fg. Qed.
Lemma forget_disj pf zk b1 r1 b2 r2 : forget (DisjunctiveVerifyE sha pf zk b1 r1 b2 r2) = DisjunctiveVerify sha pf zk b1 r1 b2 r2.
Proof. unfold DisjunctiveVerifyE, DisjunctiveVerify. fg. Qed.
Lemma via A B (m : R (A * option err)) m' (f : A * option err -> R (B * option err)) (g : A * option goerr -> R (B * option goerr)) :
  forget m = m' -> (forall a e, forget (f (a, e)) = g (a, option_map class e)) -> forget (bind m f) = bind m' g.
Proof. intros <- H. destruct m as [[a e]|]; cbn [bind forget]; [apply H|reflexivity]. Qed.
Lemma abcFinish_none zk cm tok v sk u1 u2 u3 ub uc B C T dj :
  (forget (r <- abcFinish sha zk cm tok v sk u1 u2 u3 ub uc B C T dj; Ok (fst r, None))) = abcFinish sha zk cm tok v sk u1 u2 u3 ub uc B C T dj.
Proof.
  unfold abcFinish.
  repeat first [reflexivity | match goal with |- context [bind ?m _] => lazymatch m with bind _ _ => fail | _ => destruct m; cbn [bind] end end | progress cbv zeta].
Qed.
Lemma forget_abc_prove zk cm tok v sk s rn : forget (NewABCProofE sha zk cm tok v sk s rn) = NewABCProof sha zk cm tok v sk s rn.
Proof.
  unfold NewABCProofE, NewABCProof. fg.
  - apply via with (1 := forget_disj_prove _ _ _ _ _ _ _ _ _ _). intros a5 [e|]; cbn [snd fst option_map]; [reflexivity|].
    rewrite forget_bind. apply bind_ext. intros. apply abcFinish_none.
  - apply via with (1 := forget_disj_prove _ _ _ _ _ _ _ _ _ _). intros a5 [e|]; cbn [snd fst option_map]; [reflexivity|].
    rewrite forget_bind. apply bind_ext. intros. apply abcFinish_none.
Qed.
Lemma forget_abc pf zk cm tok : forget (ABCVerifyE sha pf zk cm tok) = ABCVerify sha pf zk cm tok.
Proof.
  unfold ABCVerifyE, ABCVerify. rewrite forget_bind. apply bind_ext. intros p. rewrite forget_bind. apply bind_ext. intros cg.
  apply via with (1 := forget_disj _ _ _ _ _ _). intros b [e|]; cbn [snd fst option_map]; [reflexivity|]. fg.
Qed.
Lemma forget_ineq_prove zk A B ta tb a b sk rn : forget (NewInequalityProofE sha zk A B ta tb a b sk rn) = NewInequalityProof sha zk A B ta tb a b sk rn.
Proof.
  unfold NewInequalityProofE, NewInequalityProof. do 2 (rewrite forget_bind; apply bind_ext; intros).
  destruct (_ =? _); [reflexivity|]. cbv zeta. do 2 (rewrite forget_bind; apply bind_ext; intros).
  apply via with (1 := forget_abc_prove _ _ _ _ _ _ _). intros p [e|]; reflexivity.
Qed.
Lemma forget_ineq pf zk cm tok : forget (InequalityVerifyE sha pf zk cm tok) = InequalityVerify sha pf zk cm tok.
Proof. destruct pf; [apply forget_abc|reflexivity]. Qed.
Lemma forget_range_prove zk v rn : forget (NewRangeProofE sha zk v rn) = NewRangeProof sha zk v rn.
Proof.
  unfold NewRangeProofE, NewRangeProof. fg. unfold rangeFinish. destruct (gather _ _ _ _) as [[[? ?] ?]|]; reflexivity.
Qed.
Lemma entry_nil ts : forall i, match entryError i ts with Some e => existsb tupleNil ts = true /\ class e = EProof | None => existsb tupleNil ts = false end.
Proof.
  induction ts as [|t r IH]; intros i; cbn [entryError existsb]; [reflexivity|]. unfold tupleNil at 1 3.
  destruct (pX (rtC t)); [destruct (rtS t)|]; cbn [orb]; [apply IH|split; reflexivity|split; reflexivity].
Qed.
Lemma forget_range pf zk cm : forget (RangeVerifyE sha pf zk cm) = RangeVerify sha pf zk cm.
Proof.
  unfold RangeVerifyE, RangeVerify. destruct pf as [pf|]; [|reflexivity]. pose proof (entry_nil (rpTuples pf) 0) as E.
  destruct (entryError 0 (rpTuples pf)) as [e|]; [destruct E as [-> C]; cbn [forget option_map]; rewrite C; reflexivity|]. rewrite E.
  unfold rangeDecideE, rangeDecide. fg.
Qed.
End Hash.

(** ** The first failing check *)
Lemma ff_nil r : r = None -> firstFailing [] r. Proof. intros ->. constructor. Qed.
Lemma pm_fst p q : is_point p -> is_point q -> (fst p =? fst q) = true -> pm p q.
Proof. intros Hp Hq H. apply pm_x; assumption. Qed.
Lemma pm_fst_no p q : is_point p -> is_point q -> (fst p =? fst q) = false -> ~ pm p q.
Proof. intros Hp Hq H K. apply pm_x in K; [|assumption|assumption]. rewrite H in K. discriminate K. Qed.
Lemma rep_true l : firstFailing l None -> reports (Ok (true, None)) l.
Proof. intros H. exists None. split; [reflexivity|exact H]. Qed.
Lemma rep_false e l : firstFailing l (Some (Error [] e)) -> reports (Ok (false, Some e)) l.
Proof. intros H. exists (Some e). split; [reflexivity|exact H]. Qed.
Lemma pr_ok A src (a : A) l : firstFailing l None -> provesOr src (Ok (Some a, None)) l.
Proof. intros H. exists (Some a), None. split; [reflexivity|]. split; [intros _; exists a; reflexivity|exact H]. Qed.
Lemma pr_err A src (p : option A) e l : firstFailing l (Some (Error src e)) -> provesOr src (Ok (p, Some e)) l.
Proof. intros H. exists p, (Some e). split; [reflexivity|]. split; [intros K; discriminate K|exact H]. Qed.
Tactic Notation "nx" tactic3(tac) := apply HoldsHere; [tac|].
Tactic Notation "fl" tactic3(tac) := apply FailsHere; [tac|reflexivity].
Ltac ppos := apply pm_fst; [isp|isp|assumption].
Ltac pno := apply pm_fst_no; [isp|isp|assumption].
Lemma neq_none A (a : A) : Some a <> None. Proof. discriminate. Qed.
Lemma not_neq_none A : ~ (@None A <> None). Proof. intros H. apply H. reflexivity. Qed.

Section P.
Variables (sha : list Z -> list Z) (zk : zkparams).
Hypothesis S : std zk.

Lemma gspfs_reports A B R v c : is_point A -> is_point B -> is_point R ->
  reports (GSPFSVerifyE sha (Some (MkGSPFS (pt B) (pt R) (Some v) (Some c))) zk (pt A))
    [(fs sha [A; R] = c, says "GSPFSProof.Verify - calculated challenge and proof's challenge do not agree!");
     (pm R (padd (smul v (eff B)) (smul c (eff A))), says "GSPFSProof.Verify - proof's final value and verification final value do not agree!")].
Proof.
  intros HA HB HR. unfold GSPFSVerifyE. cbn [gsBase gsRandCommit gsHiddenValue gsChallenge].
  change [pt A; pt R] with (map pt [A; R]). zk S.
  destruct (Z.eqb_spec (fs sha [A; R]) c) as [E|E]; cbn [negb]; [|apply rep_false; fl (exact E)].
  zk S. destruct (_ =? _) eqn:X; cbn [negb].
  - apply rep_true. nx (exact E). nx ppos. constructor.
  - apply rep_false. nx (exact E). fl pno.
Qed.
Lemma gspfs_proves src B A x rnd : is_point B -> is_point A ->
  provesOr src (NewGSPFSProofBaseE sha zk (pt B) (pt A) (Some x) rnd)
    [(pm (smul x B) A, says "GSPFSProve: - the point given is not xG"); (rnd <> None, eq src)].
Proof.
  intros HB HA. unfold NewGSPFSProofBaseE. cbn [need bind].
  change (pX (pt B)) with (Some (fst B)). change (pY (pt B)) with (Some (snd B)). cbn [need bind].
  rewrite (cN_ok zk S), (scalarMult_ok zk S) by isp. cbn [bind]. rewrite mkPoint_pt, Equal_ok. cbn [bind].
  destruct (fst (smul x B) =? fst A) eqn:X; cbn [negb]; [|apply pr_err; fl pno].
  destruct rnd as [u|]; [|apply pr_err; nx ppos; fl (apply not_neq_none)].
  zk S. change [pt A; pt (smul u (eff B))] with (map pt [A; smul u (eff B)]). zk S.
  apply pr_ok. nx ppos. nx (apply neq_none). constructor.
Qed.

Lemma equiv_reports B1 R1 B2 R2 U1 U2 c s : is_point B1 -> is_point R1 -> is_point B2 -> is_point R2 -> is_point U1 -> is_point U2 ->
  reports (EquivalenceVerifyE sha (Some (MkEquiv (pt U1) (pt U2) (Some c) (Some s))) zk (pt B1) (pt R1) (pt B2) (pt R2))
    [(fs sha [B1; R1; B2; R2; U1; U2] = c,
        saysNumbers "EquivalenceVerify - challenge comparison failed. proof: " c " calculated: " (fs sha [B1; R1; B2; R2; U1; U2]));
     (pm (smul s (eff B1)) (padd U1 (smul c (eff R1))), says "EquivalenceVerify - sG comparison did not pass");
     (pm (smul s (eff B2)) (padd U2 (smul c (eff R2))), says "EquivalenceVerify - sH comparison did not pass")].
Proof.
  intros. unfold EquivalenceVerifyE. cbn [eqUG eqUH eqChallenge eqHiddenValue]. chal S. cbn [need bind].
  destruct (Z.eqb_spec (fs sha [B1; R1; B2; R2; U1; U2]) c) as [E|E]; cbn [negb].
  2:{ apply rep_false. apply FailsHere; [exact E|]. eexists. eexists. split; [apply decimal_ok|]. split; [apply decimal_ok|].
      unfold Error. rewrite <- !app_assoc. reflexivity. }
  zk S. destruct (_ =? _) eqn:X; cbn [negb]; [|apply rep_false; nx (exact E); fl pno].
  zk S. destruct (fst (smul s (eff B2)) =? _) eqn:Y; cbn [negb].
  - apply rep_true. nx (exact E). nx ppos. nx ppos. constructor.
  - apply rep_false. nx (exact E). nx ppos. fl pno.
Qed.
Lemma equiv_proves src B1 R1 B2 R2 x rnd : is_point B1 -> is_point R1 -> is_point B2 -> is_point R2 ->
  provesOr src (NewEquivalenceProofE sha zk (pt B1) (pt R1) (pt B2) (pt R2) (Some x) rnd)
    [(pm (smul x (eff B1)) R1, says "EquivalenceProve - Base1 and Result1 are not related by x");
     (pm (smul x (eff B2)) R2, says "EquivalenceProve - Base2 and Result2 are not related by x"); (rnd <> None, eq src)].
Proof.
  intros H1 H2 H3 H4. unfold NewEquivalenceProofE. cbn [need bind]. zk S. rewrite smul_mod by isp.
  destruct (_ =? _) eqn:X; cbn [negb]; [|apply pr_err; fl pno]. zk S. rewrite smul_mod by isp.
  destruct (fst (smul x (eff B2)) =? _) eqn:Y; cbn [negb]; [|apply pr_err; nx ppos; fl pno].
  destruct rnd as [u|]; [|apply pr_err; nx ppos; nx ppos; fl (apply not_neq_none)].
  zk S. chal S. apply pr_ok. nx ppos. nx ppos. nx (apply neq_none). constructor.
Qed.

Lemma cons_reports CM CMTok PK T1 T2 c s1 s2 : is_point CM -> is_point CMTok -> is_point PK -> is_point T1 -> is_point T2 ->
  reports (ConsistencyVerifyE sha (Some (MkCons (pt T1) (pt T2) (Some c) (Some s1) (Some s2))) zk (pt CM) (pt CMTok) (pt PK))
    [(fs sha [G; Hgen; CM; CMTok; PK; T1; T2] = c,
        saysNumbers "ConsistencyVerify - c comparison failed. proof: " c " calculated: " (fs sha [G; Hgen; CM; CMTok; PK; T1; T2]));
     (pm (ped s1 s2) (padd T1 (smul c (eff CM))), says "ConsistencyVerify - CM check is failing");
     (pm (smul s2 (eff PK)) (padd T2 (smul c (eff CMTok))), says "ConsistencyVerify - CMTok check is failing")].
Proof.
  intros. unfold ConsistencyVerifyE. cbn [cnT1 cnT2 cnChallenge cnS1 cnS2]. chal S. cbn [need bind].
  destruct (Z.eqb_spec (fs sha [G; Hgen; CM; CMTok; PK; T1; T2]) c) as [E|E]; cbn [negb].
  2:{ apply rep_false. apply FailsHere; [exact E|]. eexists. eexists. split; [apply decimal_ok|]. split; [apply decimal_ok|].
      unfold Error. rewrite <- !app_assoc. reflexivity. }
  rewrite E. zk S. destruct (_ =? _) eqn:X; cbn [negb]; [|apply rep_false; nx (reflexivity); fl pno].
  zk S. destruct (fst (smul s2 (eff PK)) =? _) eqn:Y; cbn [negb].
  - apply rep_true. nx (reflexivity). nx ppos. nx ppos. constructor.
  - apply rep_false. nx (reflexivity). nx ppos. fl pno.
Qed.
Lemma cons_proves src CM CMTok PK v r rnd1 rnd2 : is_point CM -> is_point CMTok -> is_point PK ->
  provesOr src (NewConsistencyProofE sha zk (pt CM) (pt CMTok) (pt PK) (Some v) (Some r) rnd1 rnd2)
    [(pm CM (ped v r), says "ConsistencyProve - value and randomVal does not produce CM");
     (pm CMTok (smul r (eff PK)), says "ConsistencyProve - Pubkey and randomVal does not produce CMTok");
     (rnd1 <> None, eq src); (rnd2 <> None, eq src)].
Proof.
  intros H1 H2 H3. unfold NewConsistencyProofE. cbn [need bind]. zk S.
  destruct (_ =? _) eqn:X; cbn [negb]; [|apply pr_err; fl pno]. zk S.
  destruct (fst CMTok =? _) eqn:Y; cbn [negb]; [|apply pr_err; nx ppos; fl pno].
  destruct rnd1 as [u1|]; [|apply pr_err; nx ppos; nx ppos; fl (apply not_neq_none)].
  destruct rnd2 as [u2|]; [|apply pr_err; nx ppos; nx ppos; nx (apply neq_none); fl (apply not_neq_none)].
  zk S. chal S. apply pr_ok. nx ppos. nx ppos. nx (apply neq_none). nx (apply neq_none). constructor.
Qed.

Lemma disj_reports B1 R1 B2 R2 T1 T2 c c1 c2 s1 s2 : is_point B1 -> is_point R1 -> is_point B2 -> is_point R2 ->
  is_point T1 -> is_point T2 ->
  reports (DisjunctiveVerifyE sha (Some (MkDisj (pt T1) (pt T2) (Some c) (Some c1) (Some c2) (Some s1) (Some s2))) zk
    (pt B1) (pt R1) (pt B2) (pt R2))
    [(fs sha [B1; R1; B2; R2; T1; T2] = c, says "DisjunctiveVerify - checkC does not agree with proofC");
     ((c1 + c2) mod N = c, says "DisjunctiveVerify - totalC does not agree with proofC");
     (pm (padd T1 (smul c1 (eff R1))) (smul s1 (eff B1)), says "DisjunctiveVerify - s1G not equal to T1 + c1A");
     (pm (padd (smul c2 (eff R2)) T2) (smul s2 (eff B2)), says "DisjunctiveVerify - s2G not equal to T2 + c2B")].
Proof.
  intros. unfold DisjunctiveVerifyE. cbn [djT1 djT2 djC djC1 djC2 djS1 djS2]. chal S. cbn [need bind].
  destruct (Z.eqb_spec (fs sha [B1; R1; B2; R2; T1; T2]) c) as [E|E]; cbn [negb]; [|apply rep_false; fl (exact E)].
  rewrite (cN_ok zk S).
  destruct (Z.eqb_spec ((c1 + c2) mod N) c) as [F|F]; cbn [negb]; [|apply rep_false; nx (exact E); fl (exact F)].
  zk S. destruct (_ =? _) eqn:X; cbn [negb]; [|apply rep_false; nx (exact E); nx (exact F); fl pno].
  zk S. destruct (fst (padd (smul c2 (eff R2)) T2) =? _) eqn:Y; cbn [negb].
  - apply rep_true. nx (exact E). nx (exact F). nx ppos. nx ppos. constructor.
  - apply rep_false. nx (exact E). nx (exact F). nx ppos. fl pno.
Qed.
Lemma disj_proves src B1 R1 B2 R2 x side d1 d2 d3 : is_point B1 -> is_point R1 -> is_point B2 -> is_point R2 ->
  provesOr src (NewDisjunctiveProofE sha zk (pt B1) (pt R1) (pt B2) (pt R2) (Some x) side d1 d2 d3)
    [(side = Left \/ side = Right, says "DisjunctiveProve - invalid side provided");
     (pm (smul x (eff (if side =? Left then B1 else B2))) (if side =? Left then R1 else R2),
        says "DisjunctiveProve - Base and Result to be proved not related by x");
     (d1 <> None /\ d2 <> None /\ d3 <> None, eq src)].
Proof.
  intros H1 H2 H3 H4. unfold NewDisjunctiveProofE, disjProveE. cbn [need bind].
  destruct (Z.eqb_spec side Left) as [E|E]; [|destruct (Z.eqb_spec side Right) as [F|F]].
  - zk S. destruct (_ =? _) eqn:X; cbn [negb]; [|apply pr_err; nx (left; exact E); fl pno].
    destruct d1 as [u1|]; [|apply pr_err; nx (left; exact E); nx ppos; fl (intros (K & _); exact (K eq_refl))].
    destruct d2 as [u2|]; [|apply pr_err; nx (left; exact E); nx ppos; fl (intros (_ & K & _); exact (K eq_refl))].
    destruct d3 as [u3|]; [|apply pr_err; nx (left; exact E); nx ppos; fl (intros (_ & _ & K); exact (K eq_refl))].
    zk S. chal S. apply pr_ok. nx (left; exact E). nx ppos. nx (split; [apply neq_none|split; apply neq_none]). constructor.
  - zk S. destruct (_ =? _) eqn:X; cbn [negb]; [|apply pr_err; nx (right; exact F); fl pno].
    destruct d1 as [u1|]; [|apply pr_err; nx (right; exact F); nx ppos; fl (intros (K & _); exact (K eq_refl))].
    destruct d2 as [u2|]; [|apply pr_err; nx (right; exact F); nx ppos; fl (intros (_ & K & _); exact (K eq_refl))].
    destruct d3 as [u3|]; [|apply pr_err; nx (right; exact F); nx ppos; fl (intros (_ & _ & K); exact (K eq_refl))].
    zk S. chal S. apply pr_ok. nx (right; exact F). nx ppos. nx (split; [apply neq_none|split; apply neq_none]). constructor.
  - apply pr_err. fl (intros [K|K]; contradiction).
Qed.
End P.
