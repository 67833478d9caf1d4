(** * Proofs about error texts: consequences and cases (proof only) *)
From Coq Require Import String ZArith List Bool Lia.
From Verif Require Import Go Wire Big Crypto Spec CurveZ CurveGroup Order SpecZk SpecBtc ZkBase PointProofs Gspfs Equivalence Consistency EqConsProofs
  Disjunctive DisjProofs Abc Range SpecRange RangeProofs FieldProofs PubKey Signature Text Errors SpecErrors ErrorsProofs ErrorsProofs2 ErrorsProofs3.
Import ListNotations.
Open Scope Z_scope.

Lemma reports_at r l1 c t l2 : reports r (l1 ++ (c, t) :: l2) -> Forall fst l1 -> ~ c -> exists e, r = Ok (false, Some e) /\ t (Error [] e).
Proof.
  intros (e & E & F) H N. revert F. induction H as [|[c' t'] l' H0 H IH]; intros F; cbn [app] in F.
  - inversion F as [|? ? ? m N' T E'|? ? ? r' K F' E']; subst; [|contradiction].
    destruct e as [e|]; [|discriminate]. exists e. split; [reflexivity|].
    match goal with K : Some _ = option_map _ _ |- _ => injection K as -> end. assumption.
  - inversion F as [|? ? ? m N' T E'|? ? ? r' K F' E']; subst; [contradiction|]. apply IH; assumption.
Qed.
Lemma gives_at r l1 c line l2 : reports r (l1 ++ (c, says line) :: l2) -> Forall fst l1 -> ~ c -> gives r line.
Proof. intros H F N. exact (reports_at r l1 c (says line) l2 H F N). Qed.

Lemma abc_source_lost sha zk CM CT v sk rn : std zk -> is_point CM -> is_point CT -> sk mod N <> 0 -> v mod N <> 0 ->
  ar1 rn <> None -> ar2 rn <> None -> ar3 rn <> None -> arb rn <> None -> arc rn <> None ->
  ard1 rn = None \/ ard2 rn = None \/ ard3 rn = None ->
  exists p e, NewABCProofE sha zk (pt CM) (pt CT) (Some v) (Some sk) Right rn = Ok (p, Some e) /\
  forall src, says "ABCProof - disjunctiveProve within ABCProve failed to generate" (Error src e).
Proof.
  intros S H1 H2 Hs Hv A1 A2 A3 A4 A5 D.
  assert (V0 : v <> 0) by (intros ->; apply Hv; reflexivity).
  assert (Q : forall src, exists p e, NewABCProofE sha zk (pt CM) (pt CT) (Some v) (Some sk) Right rn = Ok (p, Some e) /\
    says "ABCProof - disjunctiveProve within ABCProve failed to generate" (Error src e)).
  { intros src. destruct (abc_proves sha zk S src CM CT v sk Right rn H1 H2 Hs (fun _ _ => Hv)) as (p & e & E & _ & F).
    inversion F as [|? ? ? ? N1 _|? ? ? ? _ F1]; subst; [exfalso; apply N1; tauto|].
    inversion F1 as [|? ? ? ? N1 _|? ? ? ? _ F2]; subst; [exfalso; apply N1; right; split; [reflexivity|exact V0]|].
    inversion F2 as [|? ? ? m N1 T E2|? ? ? ? K F3]; subst; [|exfalso; destruct K as (_ & K1 & K2 & K3); destruct D as [D|[D|D]]; contradiction].
    destruct e as [e|]; [|discriminate]. exists p, e. split; [exact E|].
    assert (m = Error src e) as -> by (cbn [option_map] in *; congruence). exact T. }
  destruct (Q []) as (p & e & E & _). exists p, e. split; [exact E|].
  intros src. destruct (Q src) as (p' & e' & E' & T). rewrite E in E'. injection E' as _ ->. exact T.
Qed.

Lemma ineq_proves sha zk src A B TA TB a b sk rn : std zk ->
  is_point A -> is_point B -> is_point TA -> is_point TB -> sk mod N <> 0 -> (a <> b -> (a - b) mod N <> 0) ->
  provesOr src (NewInequalityProofE sha zk (pt A) (pt B) (pt TA) (pt TB) (Some a) (Some b) (Some sk) rn)
    [(a <> b, says "InequalityProve - a and b should not be equal...");
     (ar1 rn <> None /\ ar2 rn <> None /\ ar3 rn <> None /\ arb rn <> None /\ arc rn <> None, eq src);
     (ard1 rn <> None /\ ard2 rn <> None /\ ard3 rn <> None,
        says "ABCProof - disjunctiveProve within ABCProve failed to generate")].
Proof.
  intros S HA HB HTA HTB Hs Hv. unfold NewInequalityProofE. cbn [need bind].
  destruct (Z.eqb_spec a b) as [E|E]; [apply pr_err; fl (intros K; contradiction)|]. specialize (Hv E).
  zk S.
  assert (V0 : a - b <> 0) by (intros K; rewrite K in Hv; apply Hv; reflexivity).
  destruct (abc_proves sha zk S src (padd A (pneg B)) (padd TA (pneg TB)) (a - b) sk Right rn) as (p & e & X & PO & F);
    [isp|isp|exact Hs|intros _ _; exact Hv|].
  rewrite X. cbn [bind fst snd].
  assert (F' : firstFailing [(ar1 rn <> None /\ ar2 rn <> None /\ ar3 rn <> None /\ arb rn <> None /\ arc rn <> None, eq src);
     (ard1 rn <> None /\ ard2 rn <> None /\ ard3 rn <> None,
        says "ABCProof - disjunctiveProve within ABCProve failed to generate")] (option_map (Error src) e)).
  { revert F. generalize (option_map (Error src) e). intros oe F.
    inversion F as [|? ? ? m N1 T E1|? ? ? r1 K1 F1 E1]; subst; [apply FailsHere; [assumption|reflexivity]|]. apply HoldsHere; [exact K1|].
    inversion F1 as [|? ? ? m N2 T E2|? ? ? r2 K2 F2 E2]; subst; [exfalso; apply N2; right; split; [reflexivity|exact V0]|].
    inversion F2 as [|? ? ? m N3 T E3|? ? ? r3 K3 F3 E3]; subst.
    - apply FailsHere; [|exact T]. intros K. apply N3. split; [intros K'; discriminate K'|exact K].
    - apply HoldsHere; [exact (proj2 K3)|exact F3]. }
  destruct e as [e|].
  - apply pr_err. nx (exact E). exact F'.
  - destruct (PO eq_refl) as (q & ->). apply pr_ok. nx (exact E). exact F'.
Qed.

Lemma app_same A (x y z w : list A) : x ++ y ++ z = x ++ w ++ z -> y = w.
Proof. intros H. apply app_inv_head in H. apply app_inv_tail in H. exact H. Qed.
Lemma range_text_reveals sha zk v rn : 2 ^ 40 < v ->
  exists e, NewRangeProofE sha zk (Some v) rn = Ok (None, None, Some e) /\
  forall sha' zk' v' rn' p o e', NewRangeProofE sha' zk' (Some v') rn' = Ok (p, o, Some e') -> Error [] e' = Error [] e -> v' = v.
Proof.
  intros H. eexists. split.
  - unfold NewRangeProofE. cbn [need bind]. change (2 ^ 40) with 1099511627776 in H. rewrite (proj2 (Z.ltb_lt _ _) H). reflexivity.
  - intros sha' zk' v' rn' p o e' E T. pose proof (range_prove_text _ _ _ _ _ _ _ [] E) as F. cbn [option_map] in F. rewrite T in F. cbn [Error] in F.
    inversion F as [|? ? ? m N1 X E1|? ? ? r K F1 E1]; subst.
    + destruct X as (s & D & X). apply (app_same Z (ascii "val ") (decimal v) (ascii " too big, can only prove up to 1099511627776" ++ [10]) s) in X. subst s. exact (isDecimal_inj _ _ _ D (decimal_ok v)).
    + inversion F1 as [|? ? ? m N1 X E2|? ? ? r' K' F2 E2]; subst; [discriminate X|inversion F2].
Qed.

Lemma proof_status DEBUG src e :
  (fst (proofStatus DEBUG src e) = -1 <-> DEBUG = true /\ e <> None) /\
  (snd (proofStatus DEBUG src e) <> [] <-> DEBUG = true /\ e <> None) /\
  (forall e', e = Some e' -> DEBUG = true -> snd (proofStatus DEBUG src e) = ascii "ERROR: " ++ Error src e' ++ ascii " " ++ [10]).
Proof.
  unfold proofStatus. destruct e as [e|]; [destruct DEBUG|]; cbn [fst snd].
  - split; [split; [intros _; split; [reflexivity|discriminate]|reflexivity]|].
    split; [split; [intros _; split; [reflexivity|discriminate]|intros _; discriminate]|].
    intros e' K _. injection K as ->. reflexivity.
  - split; [split; [discriminate|intros (K & _); discriminate K]|].
    split; [split; [intros K; exfalso; apply K; reflexivity|intros (K & _); discriminate K]|]. intros ? _ K; discriminate K.
  - split; [split; [discriminate|intros (_ & K); exfalso; apply K; reflexivity]|].
    split; [split; [intros K; exfalso; apply K; reflexivity|intros (_ & K); exfalso; apply K; reflexivity]|]. intros ? K; discriminate K.
Qed.

(** ** Cases *)
Ltac ff := repeat (apply Forall_cons; [cbn [fst]|]); [..|apply Forall_nil].
Lemma pm_OO : pm O O. Proof. apply pm_refl. Qed.
Lemma pm_OG : ~ pm O G. Proof. apply pm_fst_no; [isp|isp|reflexivity]. Qed.
Lemma pm_GO : ~ pm G O. Proof. apply pm_fst_no; [isp|isp|reflexivity]. Qed.
Ltac red0 := rewrite ?eff_G, ?eff_O, ?smul_0, ?smul_O, ?padd_O_l, ?padd_O_r.
Lemma succ_no (a : Z) : a <> a + 1. Proof. lia. Qed.
Lemma mod_same a : scalar a -> (a + 0) mod N = a.
Proof. intros [H1 H2]. rewrite Z.add_0_r. apply Z.mod_small. split; assumption. Qed.
Lemma mod_other a : scalar a -> (a + 1 + 0) mod N <> a.
Proof.
  intros H K. rewrite Z.add_0_r in K.
  assert (D : 1 mod N = 0).
  { replace 1 with ((a + 1) - a) by lia. rewrite Zminus_mod, K. rewrite (Z.mod_small a N) by (destruct H; split; assumption).
    rewrite Z.sub_diag. reflexivity. }
  discriminate D.
Qed.
Lemma reached : forall sha, std specZk /\
  let gsp U c := GSPFSVerifyE sha (Some (MkGSPFS (pt G) (pt U) (Some 0) (Some c))) specZk (pt O) in
  gives (gsp G (fs sha [O; G] + 1)) "GSPFSProof.Verify - calculated challenge and proof's challenge do not agree!" /\
  gives (gsp G (fs sha [O; G])) "GSPFSProof.Verify - proof's final value and verification final value do not agree!" /\
  let eqv U1 U2 := EquivalenceVerifyE sha (Some (MkEquiv (pt U1) (pt U2) (Some (fs sha [G; O; G; O; U1; U2])) (Some 0))) specZk (pt G) (pt O) (pt G) (pt O) in
  gives (eqv G O) "EquivalenceVerify - sG comparison did not pass" /\
  gives (eqv O G) "EquivalenceVerify - sH comparison did not pass" /\
  let con T1 T2 := ConsistencyVerifyE sha (Some (MkCons (pt T1) (pt T2) (Some (fs sha [G; Hgen; O; O; G; T1; T2])) (Some 0) (Some 0))) specZk (pt O) (pt O) (pt G) in
  gives (con G O) "ConsistencyVerify - CM check is failing" /\
  gives (con O G) "ConsistencyVerify - CMTok check is failing" /\
  let dis T1 T2 c c1 := DisjunctiveVerifyE sha (Some (MkDisj (pt T1) (pt T2) (Some c) (Some c1) (Some 0) (Some 0) (Some 0))) specZk (pt G) (pt O) (pt G) (pt O) in
  let c T1 T2 := fs sha [G; O; G; O; T1; T2] in
  gives (dis G O (c G O + 1) 0) "DisjunctiveVerify - checkC does not agree with proofC" /\
  gives (dis G O (c G O) (c G O + 1)) "DisjunctiveVerify - totalC does not agree with proofC" /\
  gives (dis G O (c G O) (c G O)) "DisjunctiveVerify - s1G not equal to T1 + c1A" /\
  gives (dis O G (c O G) (c O G)) "DisjunctiveVerify - s2G not equal to T2 + c2B" /\
  let rng A e cm := RangeVerifyE sha (Some (MkRange (pt A) (Some e) [])) specZk (pt cm) in
  gives (rng O (hs sha [] + 1) O) "RangeProof.Verify - calculatedE0 does not match" /\
  gives (rng G (hs sha []) O) "RangeProof.Verify - ProofAggregate does not match totalPoint" /\
  gives (rng O (hs sha []) G) "RangeProof.Verify - ProofAggregate does not match commitment" /\
  gives (RangeVerifyE sha (Some (MkRange (pt O) None [MkTuple (pt G) (Some 1); MkTuple (EP None (Some 1)) None])) specZk (pt G)) "RangeProof.Verify - entry 1 has nil point" /\
  gives (RangeVerifyE sha (Some (MkRange (pt O) None [MkTuple (pt G) (Some 1); MkTuple (pt G) None])) specZk (pt G)) "RangeProof.Verify - entry 1 has nil scalar".
Proof.
  intros sha. split; [exact specZk_std|]. pose proof specZk_std as S. intros gsp.
  split; [eapply (gives_at _ []); [apply gspfs_reports; [exact S|isp|isp|isp]|ff|apply succ_no]|].
  split; [eapply (gives_at _ [_]); [apply gspfs_reports; [exact S|isp|isp|isp]|ff; reflexivity|red0; exact pm_GO]|]. intros eqv.
  split; [eapply (gives_at _ [_]); [apply equiv_reports; [exact S|isp|isp|isp|isp|isp|isp]|ff; reflexivity|red0; exact pm_OG]|].
  split; [eapply (gives_at _ [_; _]); [apply equiv_reports; [exact S|isp|isp|isp|isp|isp|isp]|ff; [reflexivity|red0; exact pm_OO]|red0; exact pm_OG]|].
  intros con.
  split; [eapply (gives_at _ [_]); [apply cons_reports; [exact S|isp|isp|isp|isp|isp]|ff; reflexivity|unfold ped; red0; exact pm_OG]|].
  split; [eapply (gives_at _ [_; _]); [apply cons_reports; [exact S|isp|isp|isp|isp|isp]|ff; [reflexivity|unfold ped; red0; exact pm_OO]|red0; exact pm_OG]|].
  intros dis c.
  split; [eapply (gives_at _ []); [apply disj_reports; [exact S|isp|isp|isp|isp|isp|isp]|ff|apply succ_no]|].
  split; [eapply (gives_at _ [_]); [apply disj_reports; [exact S|isp|isp|isp|isp|isp|isp]|ff; reflexivity|apply mod_other, fs_scalar]|].
  split; [eapply (gives_at _ [_; _]); [apply disj_reports; [exact S|isp|isp|isp|isp|isp|isp]|ff; [reflexivity|apply mod_same, fs_scalar]|red0; exact pm_GO]|].
  split; [eapply (gives_at _ [_; _; _]); [apply disj_reports; [exact S|isp|isp|isp|isp|isp|isp]|ff; [reflexivity|apply mod_same, fs_scalar|red0; exact pm_OO]|red0; exact pm_GO]|].
  intros rng. assert (L : (length (@nil (Z * Z * Z)) <= 64)%nat) by (cbn [length]; lia).
  pose proof (fun A e comm HA Hc => range_reports sha specZk S A e [] comm HA Hc (Forall_nil _) L) as RR.
  split; [eapply (gives_at _ []); [apply (RR O (hs sha [] + 1) O); isp|ff|intros K; symmetry in K; exact (succ_no _ K)]|].
  split; [eapply (gives_at _ [_]); [apply (RR G (hs sha []) O); isp|ff; reflexivity|exact pm_OG]|].
  split; [eapply (gives_at _ [_; _]); [apply (RR O (hs sha []) G); isp|ff; [reflexivity|exact pm_OO]|exact pm_GO]|].
  split; eexists; (split; [reflexivity|reflexivity]).
Qed.
Lemma reached_abc : forall sha,
  let dj := Some (MkDisj (pt O) (pt O) (Some (fs sha [O; O; Hgen; O; O; O])) (Some (fs sha [O; O; Hgen; O; O; O])) (Some 0) (Some 0) (Some 0)) in
  let abc T1 T2 c d := ABCVerifyE sha (Some (MkABC (pt G) (pt G) (pt T1) (pt T2) (Some c) (Some 0) (Some 0) (Some 0) (pt O) d)) specZk (pt O) (pt O) in
  let c T1 T2 := fs sha [G; Hgen; O; O; G; G; T1; T2] in
  gives (abc O O 0 None) "ABCVerify - ABCProof for disjuncAC is false or not generated properly" /\
  gives (abc O O (c O O + 1) dj) "ABCVerify - proof contains incorrect challenge" /\
  gives (abc G O (c G O) dj) "ABCProof - cCM + T1 != jG + kCMTok" /\
  exists h, gives (ABCVerifyE h (Some (MkABC (pt G) (pt G) (pt O) (pt O) (Some 1) (Some 0) (Some 0) (Some 0) (pt O)
                    (Some (MkDisj (pt O) (pt O) (Some 1) (Some 1) (Some 0) (Some 0) (Some 0))))) specZk (pt O) (pt O)) "ABCVerify - cC + T2 != jB + lH".
Proof.
  pose proof specZk_std as S. pose proof is_point_G as PG.
  assert (CG : padd G (pneg G) = O) by (apply padd_pneg_r; isp).
  (* an inner proof that is accepted *)
  assert (DJ : forall h c, fs h [O; O; Hgen; O; O; O] = c -> scalar c ->
    DisjunctiveVerify h (Some (MkDisj (pt O) (pt O) (Some c) (Some c) (Some 0) (Some 0) (Some 0))) specZk (pt O) (pt O) (pt Hgen) (pt (padd G (pneg G)))
      = Ok (true, None)).
  { intros h c E Sc. rewrite CG. rewrite <- forget_disj.
    destruct (disj_reports h specZk S O O Hgen O O O c c 0 0 0) as (e & X & F); [isp|isp|isp|isp|isp|isp|].
    rewrite X. destruct e as [e|]; [|reflexivity]. exfalso. cbn [option_map] in F.
    inversion F as [|? ? ? m N1 T E1|? ? ? r1 K1 F1 E1]; subst; [apply N1; reflexivity|].
    inversion F1 as [|? ? ? m N1 T E1|? ? ? r2 K2 F2 E1]; subst; [apply N1, mod_same, Sc|].
    inversion F2 as [|? ? ? m N1 T E1|? ? ? r3 K3 F3 E1]; subst; [apply N1; red0; exact pm_OO|].
    inversion F3 as [|? ? ? m N1 T E1|? ? ? r4 K4 F4 E1]; subst; [apply N1; red0; exact pm_OO|]. inversion F4. }
  assert (NP : forall r : R (bool * option goerr), r = Ok (true, None) -> r <> Panic) by (intros r ->; discriminate).
  assert (AC : forall r : R (bool * option goerr), r = Ok (true, None) -> accepts r) by (intros r ->; split; reflexivity || reflexivity).
  intros sha dj abc c.
  assert (Q := DJ sha _ eq_refl (fs_scalar sha _)).
  split; [eapply (gives_at _ []); [apply abc_reports; [exact S|isp|isp|isp|isp|isp|isp|discriminate]|ff|intros K; discriminate K]|].
  split; [eapply (gives_at _ [_]); [apply abc_reports; [exact S|isp|isp|isp|isp|isp|isp|exact (NP _ Q)]|ff; exact (AC _ Q)|apply succ_no]|].
  split; [eapply (gives_at _ [_; _]); [apply abc_reports; [exact S|isp|isp|isp|isp|isp|isp|exact (NP _ Q)]|ff; [exact (AC _ Q)|reflexivity]|red0; exact pm_GO]|].
  exists (shaC 1). assert (S1 : scalar 1) by (split; [discriminate|reflexivity]).
  assert (Q1 := DJ (shaC 1) 1 (fs_shaC 1 _ S1) S1).
  eapply (gives_at _ [_; _; _]); [apply abc_reports; [exact S|isp|isp|isp|isp|isp|isp|exact (NP _ Q1)]
    |ff; [exact (AC _ Q1)|apply fs_shaC, S1|red0; exact pm_OO]|rewrite smul_1; red0; exact pm_GO].
Qed.
Lemma parsers_reached :
  pubKeyText [9] EPubLength = ascii "invalid pub key length 1" /\ decimal (-120) = ascii "-120" /\
  (exists c, curve_ok c) /\ bytes_ok [0x30; 6; 2; 1; 0; 2; 1; 1] /\
  ParseSignature [0x30; 6; 2; 1; 0; 2; 1; 1] = Ok (Fail ESigRSmall) /\
  ParseSignature [0x30; 7; 2; 1; 1; 2; 1; 1; 1] = Ok (Fail ESigFinal) /\
  sigText [0x30; 7; 2; 1; 1; 2; 1; 1; 1] ESigFinal = ascii "malformed signature: bad final length 8 != 9" /\
  ParseDERSignature [0x30; 7; 2; 2; 0; 1; 2; 1; 1] = Ok (Fail ESigRPad).
Proof.
  do 2 (split; [reflexivity|]). split; [exists specCurve; exact specCurve_ok|]. split; [repeat constructor; lia|].
  do 3 (split; [reflexivity|]). reflexivity.
Qed.
