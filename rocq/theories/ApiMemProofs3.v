(** * The proofs of gspfs.go, equivalence.go, consistency.go and disjunctive.go on pointers *)
From Coq Require Import ZArith List Bool Lia.
From Verif Require Import Go Wire Big Crypto Gspfs Equivalence Consistency Disjunctive Abc Range BigMem ApiMem SpecApiMem ApiMemProofs ApiMemProofs2.
Import ListNotations.
Open Scope Z_scope.

Lemma sim_cmp : forall (A B : Type) t m0 m x y a v (k : bool -> prog A) (f : Z -> R B) rel, unchanged m0 m -> intAt t m x (Some a) -> intAt t m y v ->
  (forall b, v = Some b -> sim t m0 m (k (a =? b)) (f b) rel) -> sim t m0 m (pbind (cmpEq x y) k) (bind (need v) f) rel.
Proof.
  intros A B t m0 m x y a v k f rel E X Y K. unfold cmpEq. apply sim_assoc_inv. eapply sim_deref; [exact X|]. apply sim_assoc_inv. apply sim_need; [exact E|exact Y|].
  intros b Eb. apply K, Eb.
Qed.
Lemma sim_cmpv : forall (A B : Type) t m0 m x y a b (k : bool -> prog A) (r : R B) rel, intAt t m x (Some a) -> intAt t m y (Some b) ->
  sim t m0 m (k (a =? b)) r rel -> sim t m0 m (pbind (cmpEq x y) k) r rel.
Proof. intros A B t m0 m x y a b k r rel X Y K. unfold cmpEq. apply sim_assoc_inv. eapply sim_deref; [exact X|]. apply sim_assoc_inv. eapply sim_deref; [exact Y|]. exact K. Qed.

Ltac rebase := repeat match goal with |- sim _ ?m0 _ _ _ _ =>
  match goal with
  | F : freshPoint ?m ?x, U : unchanged m0 ?m |- _ => tryif constr_eq m m0 then fail else apply (freshP_back m0 m x U) in F
  | F : freshInt ?m ?x, U : unchanged m0 ?m |- _ => tryif constr_eq m m0 then fail else apply (fresh_back m0 m x U) in F
  end end.
(** one statement of the code and one of the model *)
Tactic Notation "bnd" uconstr(L) "as" simple_intropattern(a) simple_intropattern(b) simple_intropattern(H) :=
  eapply sim_bind; [eassumption|exact L|];
  let m1 := fresh "m" in let E := fresh "E" in let U := fresh "U" in intros m1 a b E U H; forward E; clear E; rebase.
(** one or two statements that make an integer the model has no name for *)
Tactic Notation "val" uconstr(L) "as" simple_intropattern(a) simple_intropattern(H) simple_intropattern(F) :=
  eapply sim_blk; [eassumption|exact L|];
  let m1 := fresh "m" in let E := fresh "E" in let U := fresh "U" in intros m1 a E U H F; forward E; clear E; rebase.
Tactic Notation "val2" uconstr(L) "as" simple_intropattern(a) simple_intropattern(H) simple_intropattern(F) :=
  eapply sim_blk2; [eassumption|exact L|];
  let m1 := fresh "m" in let E := fresh "E" in let U := fresh "U" in intros m1 a E U H F; forward E; clear E; rebase.
Ltac pt HP := first [eassumption | exact (p_G _ _ _ _ HP) | exact (p_H _ _ _ _ HP)].
Ltac pts HP := repeat (apply Forall2_cons; [pt HP|]); apply Forall2_nil.
Tactic Notation "chal" constr(HP) "as" simple_intropattern(a) simple_intropattern(b) simple_intropattern(H) :=
  eapply sim_bind; [eassumption|apply ChallengeM_ok; [exact HP|pts HP]|];
  let m1 := fresh "m" in let E := fresh "E" in let U := fresh "U" in intros m1 a b E U H; forward E; clear E; rebase.
Ltac fin := eapply sim_ret; [eassumption|].
Ltac fails := fin; split; [exact I|split; [reflexivity|intros ? ?; discriminate]].

(** *** Storing into an integer made some statements ago *)
Definition apart (x y : bigint) : Prop := match x, y with Some p, Some q => p <> q | _, _ => True end.
Definition own (t : nat) (x : bigint) : Prop := match x with Some p => fst p = t | None => True end.
Definition keeps (x : bigint) (m m' : bmem) : Prop := forall q, x <> Some q -> cell m' q = cell m q.
Lemma ap_int : forall t m x y w, freshInt m x -> intAt t m y w -> apart x y.
Proof. intros t m [p|] [q|] [w|] F H; try exact I; try contradiction. destruct H as [_ H]. cbn [freshInt apart] in *. intros ->. rewrite H in F. discriminate F. Qed.
Lemma ap_pt : forall t m x p P, freshInt m x -> pointAt t m p P -> apart x (hX p) /\ apart x (hY p).
Proof. intros t m x p P F [A B]. split; eapply ap_int; eassumption. Qed.
Lemma ap_sym : forall x y, apart x y -> apart y x.
Proof. intros [p|] [q|] H; try exact I. exact (not_eq_sym H). Qed.
Lemma int_keep : forall t x m m' y w, keeps x m m' -> apart x y -> intAt t m y w -> intAt t m' y w.
Proof.
  intros t x m m' [q|] [w|] K A H; try exact H. destruct H as [H1 H2]. split; [exact H1|]. rewrite (K q); [exact H2|]. intros ->. exact (A eq_refl).
Qed.
Lemma pt_keep : forall t x m m' p P, keeps x m m' -> apart x (hX p) /\ apart x (hY p) -> pointAt t m p P -> pointAt t m' p P.
Proof. intros t x m m' p P K [A B] [X Y]. split; eapply int_keep; eassumption. Qed.
Lemma sim_store : forall (A B : Type) t m0 m x v w (k : bigint -> prog A) (r : R B) rel, unchanged m0 m -> intAt t m x (Some w) -> own t x -> freshInt m0 x ->
  (forall m1, keeps x m m1 -> unchanged m0 m1 -> intAt t m1 x (Some v) -> sim t m0 m1 (k x) r rel) -> sim t m0 m (pbind (assign x v) k) r rel.
Proof.
  intros A B t m0 m [p|] v w k r rel E H O F K; [|contradiction]. destruct H as [H1 H2]. cbn [own freshInt] in *.
  destruct (K (put m p v)) as [C S].
  - intros q N. apply cell_put_other. intros ->. exact (N eq_refl).
  - apply ext_put; assumption.
  - split; [exact H1|eapply cell_put_same; exact H2].
  - unfold sim. cbn [assign pbind confined exec]. rewrite H2. split; [split; assumption|exact S].
Qed.
Lemma sim_inmod : forall (A B : Type) t m0 m x n v nv (k : bigint -> prog A) (r : R B) rel, unchanged m0 m -> intAt t m x (Some v) -> intAt t m n (Some nv) -> own t x -> freshInt m0 x ->
  (forall m1, keeps x m m1 -> unchanged m0 m1 -> intAt t m1 x (Some (v mod nv)) -> sim t m0 m1 (k x) r rel) -> sim t m0 m (pbind (intMod x x n) k) r rel.
Proof.
  intros A B t m0 m x n v nv k r rel E X N O F K. unfold intMod. apply sim_assoc_inv. eapply sim_deref; [exact X|]. apply sim_assoc_inv. eapply sim_deref; [exact N|].
  eapply sim_store; eassumption.
Qed.
Lemma sim_inadd : forall (A B : Type) t m0 m x y v w (k : bigint -> prog A) (r : R B) rel, unchanged m0 m -> intAt t m x (Some v) -> intAt t m y (Some w) -> own t x -> freshInt m0 x ->
  (forall m1, keeps x m m1 -> unchanged m0 m1 -> intAt t m1 x (Some (v + w)) -> sim t m0 m1 (k x) r rel) -> sim t m0 m (pbind (intAdd x x y) k) r rel.
Proof.
  intros A B t m0 m x y v w k r rel E X N O F K. unfold intAdd. apply sim_assoc_inv. eapply sim_deref; [exact X|]. apply sim_assoc_inv. eapply sim_deref; [exact N|].
  eapply sim_store; eassumption.
Qed.
Lemma sim_blk_own : forall (A B : Type) t m0 m c v (k : bigint -> prog A) (r : R B) rel, unchanged m0 m -> blk t m c v ->
  (forall m1 x, unchanged m m1 -> unchanged m0 m1 -> intAt t m1 x (Some v) -> freshInt m x -> own t x -> sim t m0 m1 (k x) r rel) ->
  sim t m0 m (pbind c k) r rel.
Proof.
  intros A B t m0 m c v k r rel E H K. unfold blk in H. eapply sim_bind_val; [exact E|exact H|]. intros m1 x E1 E2 (_ & N1 & N2 & N3). apply K; assumption.
Qed.

Section Api.
Variables (sha : list Z -> list Z) (t : nat) (h : hparams) (zk : zkparams).

Lemma AddM_new : forall m0 m p p2 P P2, unchanged m0 m -> paramsAt t m h zk -> pointAt t m p P -> pointAt t m p2 P2 -> freshPoint m0 p -> freshPoint m0 p2 ->
  sim t m m (AddM h p p2) (Add zk P P2) (fun m' a b => pointAt t m' a b /\ freshPoint m0 a).
Proof.
  intros m0 m p p2 P P2 U HP A B FA FB. eapply sim_weaken; [exact (AddM_ok t h zk _ _ _ _ _ HP A B)|]. intros m' a b _ [X Y]. split; [exact X|].
  destruct Y as [Y|[->| ->]]; try assumption. exact (freshP_back _ _ _ U Y).
Qed.
(** *** gspfs.go *)
Lemma gspfs_new_ok : forall m base A x Base A' X rnd, paramsAt t m h zk -> pointAt t m base Base -> pointAt t m A A' -> intAt t m x X ->
  sim t m m (NewGSPFSProofBaseM sha h base A x rnd) (NewGSPFSProofBase sha zk Base A' X rnd)
    (newProof (gspfsAt t) (fun p => freshGSPFS m p /\ hgBase p = base)).
Proof.
  intros m base A x Base A' X rnd HP HB HA HX. pose proof (ext_refl m) as U0. unfold NewGSPFSProofBaseM, NewGSPFSProofBase.
  destruct X as [x'|]; cbn [need bind]; [|apply sim_newMod_nil; [exact U0|exact HX]]. cbv zeta.
  val (blk_mod _ _ _ _ _ _ HX (p_N _ _ _ _ HP)) as mv MV FMV.
  eapply intBytes_ok; [exact MV|].
  assert (EQ : forall k : ECPoint -> R (option GSPFSProof * option goerr),
    (bx <- need (pX Base); by_ <- need (pY Base); c0 <- cScalarMult (zC zk) bx by_ (bigBytes (x' mod cN (zC zk))); k (mkPoint c0))
    = (C <- (bx <- need (pX Base); by_ <- need (pY Base); c0 <- cScalarMult (zC zk) bx by_ (bigBytes (x' mod cN (zC zk))); Ok (mkPoint c0)); k C)).
  { intros k. destruct (need (pX Base)); [|reflexivity]. destruct (need (pY Base)); [|reflexivity]. cbn [bind]. destruct (cScalarMult (zC zk) a a0 (bigBytes (x' mod cN (zC zk)))); reflexivity. }
  rewrite (EQ (fun C => eq <- Equal C A'; if negb eq then Ok (None, Some EProof) else _)). clear EQ.
  bnd (scalarMultM_ok t _ h zk base Base _ HP HB) as C C' [HC FC].
  bnd (EqualM_ok _ _ _ _ _ _ HC HA) as e e' <-.
  destruct e; cbn [negb]; [|fails]. destruct rnd as [u0|]; [|fails].
  val (blk_new _ _ u0) as u HU FU.
  bnd (MultM_ok t h zk _ _ _ _ _ HP HB HU) as uG uG' [HUG FUG].
  chal HP as c c' [HCh FCh].
  val (blk_mul _ _ _ _ _ _ HCh MV) as tm HT FT.
  val2 (blk_inplace _ _ _ _ (p_N _ _ _ _ HP) _ _ (blk_sub _ _ _ _ _ _ HU HT)) as v HV FV.
  fin. split; [|split; [reflexivity|]].
  - split; [exact HB|]. split; [exact HUG|]. split; [exact HV|exact HCh].
  - intros p Ep. injection Ep as <-. split; [|reflexivity]. split; [exact FUG|]. split; [exact FV|exact FCh].
Qed.

Ltac no := eapply sim_ret; [eassumption|reflexivity].
Lemma gspfs_verify_ok : forall m pf A Pf A', paramsAt t m h zk -> optAt (gspfsAt t m) pf Pf -> pointAt t m A A' ->
  sim t m m (GSPFSVerifyM sha pf h A) (GSPFSVerify sha Pf zk A') (fun _ r v => r = v).
Proof.
  intros m [pf|] A [Pf|] A' HP HF HA; try contradiction; pose proof (ext_refl m) as U0; cbn [GSPFSVerifyM GSPFSVerify]; [|no].
  destruct HF as (HB & HR & HV & HCh).
  chal HP as c c' [HC _].
  eapply sim_cmp; [eassumption|exact HC|exact HCh|]. intros ch Ech. destruct (c' =? ch); cbn [negb]; [|no].
  bnd (MultM_ok t h zk _ _ _ _ _ HP HB HV) as s s' [HS _].
  bnd (MultM_ok t h zk _ _ _ _ _ HP HA HCh) as d d' [HD _].
  bnd (AddM_ok t h zk _ _ _ _ _ HP HS HD) as tot tot' [HT _].
  bnd (EqualM_ok _ _ _ _ _ _ HR HT) as e e' <-. destruct e; cbn [negb]; no.
Qed.

(** *** equivalence.go *)
Lemma equiv_new_ok : forall m b1 r1 b2 r2 x B1 R1 B2 R2 X rnd, paramsAt t m h zk -> pointAt t m b1 B1 -> pointAt t m r1 R1 -> pointAt t m b2 B2 -> pointAt t m r2 R2 ->
  intAt t m x X ->
  sim t m m (NewEquivalenceProofM sha h b1 r1 b2 r2 x rnd) (NewEquivalenceProof sha zk B1 R1 B2 R2 X rnd) (newProof (equivAt t) (freshEquiv m)).
Proof.
  intros m b1 r1 b2 r2 x B1 R1 B2 R2 X rnd HP HB1 HR1 HB2 HR2 HX. pose proof (ext_refl m) as U0. unfold NewEquivalenceProofM, NewEquivalenceProof.
  destruct X as [x'|]; cbn [need bind]; [|apply sim_newMod_nil; [exact U0|exact HX]]. cbv zeta.
  val (blk_mod _ _ _ _ _ _ HX (p_N _ _ _ _ HP)) as mv MV FMV.
  bnd (MultM_ok t h zk _ _ _ _ _ HP HB1 MV) as c1 c1' [HC1 _].
  bnd (EqualM_ok _ _ _ _ _ _ HC1 HR1) as e1 e1' <-. destruct e1; cbn [negb]; [|fails].
  bnd (MultM_ok t h zk _ _ _ _ _ HP HB2 MV) as c2 c2' [HC2 _].
  bnd (EqualM_ok _ _ _ _ _ _ HC2 HR2) as e2 e2' <-. destruct e2; cbn [negb]; [|fails].
  destruct rnd as [u0|]; [|fails].
  val (blk_new _ _ u0) as u HU FU.
  bnd (MultM_ok t h zk _ _ _ _ _ HP HB1 HU) as ub1 ub1' [HU1 FU1].
  bnd (MultM_ok t h zk _ _ _ _ _ HP HB2 HU) as ub2 ub2' [HU2 FU2].
  chal HP as c c' [HCh FCh].
  val (blk_mul _ _ _ _ _ _ HCh MV) as tm HT FT.
  val2 (blk_inplace _ _ _ _ (p_N _ _ _ _ HP) _ _ (blk_add _ _ _ _ _ _ HU HT)) as v HV FV.
  fin. split; [|split; [reflexivity|]].
  - split; [exact HU1|]. split; [exact HU2|]. split; [exact HCh|exact HV].
  - intros p Ep. injection Ep as <-. split; [exact FU1|]. split; [exact FU2|]. split; [exact FCh|exact FV].
Qed.
Lemma equiv_verify_ok : forall m pf b1 r1 b2 r2 Pf B1 R1 B2 R2, paramsAt t m h zk -> optAt (equivAt t m) pf Pf -> pointAt t m b1 B1 -> pointAt t m r1 R1 -> pointAt t m b2 B2 -> pointAt t m r2 R2 ->
  sim t m m (EquivalenceVerifyM sha pf h b1 r1 b2 r2) (EquivalenceVerify sha Pf zk B1 R1 B2 R2) (fun _ r v => r = v).
Proof.
  intros m [pf|] b1 r1 b2 r2 [Pf|] B1 R1 B2 R2 HP HF HB1 HR1 HB2 HR2; try contradiction; pose proof (ext_refl m) as U0; cbn [EquivalenceVerifyM EquivalenceVerify]; [|no].
  destruct HF as (HG & HH & HCh & HV).
  chal HP as c c' [HC _].
  eapply sim_cmp; [eassumption|exact HC|exact HCh|]. intros ch Ech. destruct (c' =? ch); cbn [negb]; [|no].
  bnd (MultM_ok t h zk _ _ _ _ _ HP HB1 HV) as s s' [HS _].
  bnd (MultM_ok t h zk _ _ _ _ _ HP HR1 HCh) as d d' [HD _].
  bnd (AddM_ok t h zk _ _ _ _ _ HP HG HD) as tot tot' [HT _].
  bnd (EqualM_ok _ _ _ _ _ _ HS HT) as e e' <-. destruct e; cbn [negb]; [|no].
  bnd (MultM_ok t h zk _ _ _ _ _ HP HB2 HV) as s2 s2' [HS2 _].
  bnd (MultM_ok t h zk _ _ _ _ _ HP HR2 HCh) as d2 d2' [HD2 _].
  bnd (AddM_ok t h zk _ _ _ _ _ HP HH HD2) as tot2 tot2' [HT2 _].
  bnd (EqualM_ok _ _ _ _ _ _ HS2 HT2) as e2 e2' <-. destruct e2; cbn [negb]; no.
Qed.

(** *** consistency.go *)
Lemma nilPt_at : forall m, pointAt t m nilPt (EP None None).
Proof. intros m. split; exact I. Qed.
Lemma cons_empty : forall m m0 E, newProof (consAt t) (freshCons m0) m (Some emptyHCons, E) (Some emptyConsistency, E : option goerr).
Proof.
  intros m m0 E. split; [repeat split|]. split; [reflexivity|]. intros p Ep. injection Ep as <-. repeat split.
Qed.
Lemma cons_new_ok : forall m cm tok pk v r CM Tok PK V Rr rnd1 rnd2, paramsAt t m h zk -> pointAt t m cm CM -> pointAt t m tok Tok -> pointAt t m pk PK ->
  intAt t m v V -> intAt t m r Rr ->
  sim t m m (NewConsistencyProofM sha h cm tok pk v r rnd1 rnd2) (NewConsistencyProof sha zk CM Tok PK V Rr rnd1 rnd2) (newProof (consAt t) (freshCons m)).
Proof.
  intros m cm tok pk v r CM Tok PK V Rr rnd1 rnd2 HP HCM HTok HPK HV HR. pose proof (ext_refl m) as U0. unfold NewConsistencyProofM, NewConsistencyProof.
  destruct V as [v'|]; cbn [need bind]; [|apply sim_newMod_nil; [exact U0|exact HV]]. cbv zeta.
  val (blk_mod _ _ _ _ _ _ HV (p_N _ _ _ _ HP)) as mv MV FMV.
  bnd (PedCommitRM_ok t h zk _ _ _ _ _ HP HV HR) as com com' [HCom _].
  bnd (EqualM_ok _ _ _ _ _ _ HCM HCom) as e1 e1' <-. destruct e1; cbn [negb]; [|fin; apply cons_empty].
  bnd (MultM_ok t h zk _ _ _ _ _ HP HPK HR) as tk tk' [HTk _].
  bnd (EqualM_ok _ _ _ _ _ _ HTok HTk) as e2 e2' <-. destruct e2; cbn [negb]; [|fin; apply cons_empty].
  destruct rnd1 as [v1|]; [|fails]. val (blk_new _ _ v1) as u1 HU1 FU1.
  destruct rnd2 as [v2|]; [|fails]. val (blk_new _ _ v2) as u2 HU2 FU2.
  bnd (PedCommitRM_ok t h zk _ _ _ _ _ HP HU1 HU2) as T1 T1' [HT1 FT1].
  bnd (MultM_ok t h zk _ _ _ _ _ HP HPK HU2) as T2 T2' [HT2 FT2].
  chal HP as c c' [HCh FCh].
  val (blk_mul _ _ _ _ _ _ MV HCh) as t1 Ht1 _.
  pose proof (p_N _ _ _ _ HP) as HN.
  eapply sim_blk_own; [eassumption|exact (blk_add _ _ _ _ _ _ HU1 Ht1)|]. intros mB s1 EB UB HS1 FS1 OS1.
  pose proof (ap_pt _ _ _ _ _ FS1 HT1) as A1. pose proof (ap_pt _ _ _ _ _ FS1 HT2) as A2. pose proof (ap_int _ _ _ _ _ FS1 HCh) as A3. pose proof (ap_int _ _ _ _ _ FS1 HN) as A4.
  forward EB. clear EB. rebase.
  destruct Rr as [r'|]; cbn [need bind].
  2:{ destruct r as [q|]; [contradiction|]. unfold newMul, intMul. split; [exact I|]. cbn [pbind newInt exec deref]. split; [exact (ext_trans _ _ _ UB (push_ext _ _ _))|exact I]. }
  val (blk_mul _ _ _ _ _ _ HR HCh) as t2 Ht2 _.
  eapply sim_blk_own; [eassumption|exact (blk_add _ _ _ _ _ _ HU2 Ht2)|]. intros mC s2 EC UC HS2 FS2 OS2.
  pose proof (ap_pt _ _ _ _ _ FS2 HT1) as B1. pose proof (ap_pt _ _ _ _ _ FS2 HT2) as B2. pose proof (ap_int _ _ _ _ _ FS2 HCh) as B3. pose proof (ap_int _ _ _ _ _ FS2 HN) as B4.
  pose proof (ap_int _ _ _ _ _ FS2 HS1) as B5. pose proof (ap_sym _ _ B5) as A5.
  forward EC. clear EC. rebase.
  eapply sim_inmod; [exact UC|exact HS1|exact HN|exact OS1|exact FS1|]. intros mD KD UD HS1'.
  apply (pt_keep _ _ _ _ _ _ KD A1) in HT1. apply (pt_keep _ _ _ _ _ _ KD A2) in HT2. apply (int_keep _ _ _ _ _ _ KD A3) in HCh. apply (int_keep _ _ _ _ _ _ KD A4) in HN. apply (int_keep _ _ _ _ _ _ KD A5) in HS2.
  eapply sim_inmod; [exact UD|exact HS2|exact HN|exact OS2|exact FS2|]. intros mE KE UE HS2'.
  apply (pt_keep _ _ _ _ _ _ KE B1) in HT1. apply (pt_keep _ _ _ _ _ _ KE B2) in HT2. apply (int_keep _ _ _ _ _ _ KE B3) in HCh. apply (int_keep _ _ _ _ _ _ KE B5) in HS1'.
  fin. split; [|split; [reflexivity|]].
  - split; [exact HT1|]. split; [exact HT2|]. split; [exact HCh|]. split; [exact HS1'|exact HS2'].
  - intros p Ep. injection Ep as <-. split; [exact FT1|]. split; [exact FT2|]. split; [exact FCh|]. split; [exact FS1|exact FS2].
Qed.
Lemma cons_verify_ok : forall m pf cm tok pk Pf CM Tok PK, paramsAt t m h zk -> optAt (consAt t m) pf Pf -> pointAt t m cm CM -> pointAt t m tok Tok -> pointAt t m pk PK ->
  sim t m m (ConsistencyVerifyM sha pf h cm tok pk) (ConsistencyVerify sha Pf zk CM Tok PK) (fun _ r v => r = v).
Proof.
  intros m [pf|] cm tok pk [Pf|] CM Tok PK HP HF HCM HTok HPK; try contradiction; pose proof (ext_refl m) as U0; cbn [ConsistencyVerifyM ConsistencyVerify]; [|no].
  destruct HF as (HT1 & HT2 & HCh & HS1 & HS2).
  chal HP as c c' [HC _].
  eapply sim_cmp; [eassumption|exact HC|exact HCh|]. intros ch Ech. destruct (c' =? ch); cbn [negb]; [|no].
  bnd (PedCommitRM_ok t h zk _ _ _ _ _ HP HS1 HS2) as l l' [HL _].
  bnd (MultM_ok t h zk _ _ _ _ _ HP HCM HC) as d d' [HD _].
  bnd (AddM_ok t h zk _ _ _ _ _ HP HT1 HD) as tot tot' [HT _].
  bnd (EqualM_ok _ _ _ _ _ _ HL HT) as e e' <-. destruct e; cbn [negb]; [|no].
  bnd (MultM_ok t h zk _ _ _ _ _ HP HPK HS2) as l2 l2' [HL2 _].
  bnd (MultM_ok t h zk _ _ _ _ _ HP HTok HC) as d2 d2' [HD2 _].
  bnd (AddM_ok t h zk _ _ _ _ _ HP HT2 HD2) as tot2 tot2' [HTt2 _].
  bnd (EqualM_ok _ _ _ _ _ _ HL2 HTt2) as e2 e2' <-. destruct e2; cbn [negb]; no.
Qed.

(** *** disjunctive.go *)
Lemma disj_empty : forall m m0 E, newProof (disjAt t) (freshDisj m0) m (Some emptyHDisj, E) (Some emptyDisjunctive, E : option goerr).
Proof. intros m m0 E. split; [repeat split|]. split; [reflexivity|]. intros p Ep. injection Ep as <-. repeat split. Qed.
Lemma disj_prove_ok : forall m b1 r1 b2 r2 left pb pr ob or x mv B1 R1 B2 R2 PB PR OB OR x' rnd1 rnd2 rnd3, paramsAt t m h zk ->
  pointAt t m b1 B1 -> pointAt t m r1 R1 -> pointAt t m b2 B2 -> pointAt t m r2 R2 -> pointAt t m pb PB -> pointAt t m pr PR -> pointAt t m ob OB -> pointAt t m or OR ->
  intAt t m x (Some x') -> intAt t m mv (Some (x' mod cN (zC zk))) ->
  sim t m m (disjProveM sha h b1 r1 b2 r2 left pb pr ob or x mv rnd1 rnd2 rnd3) (disjProve sha zk B1 R1 B2 R2 left PB PR OB OR x' rnd1 rnd2 rnd3) (newProof (disjAt t) (freshDisj m)).
Proof.
  intros m b1 r1 b2 r2 left pb pr ob or x mv B1 R1 B2 R2 PB PR OB OR x' rnd1 rnd2 rnd3 HP HB1 HR1 HB2 HR2 HPB HPR HOB HOR HX MV.
  pose proof (ext_refl m) as U0. unfold disjProveM, disjProve. cbv zeta.
  bnd (MultM_ok t h zk _ _ _ _ _ HP HPB HX) as q q' [HQ _].
  bnd (EqualM_ok _ _ _ _ _ _ HQ HPR) as e e' <-. destruct e; cbn [negb]; [|fin; apply disj_empty].
  destruct rnd1 as [v1|]; [|fails]. val (blk_new _ _ v1) as u1 HU1 FU1.
  destruct rnd2 as [v2|]; [|fails]. val (blk_new _ _ v2) as u2 HU2 FU2.
  destruct rnd3 as [v3|]; [|fails]. val (blk_new _ _ v3) as u3 HU3 FU3.
  val2 (blk_inplace _ _ _ _ (p_N _ _ _ _ HP) _ _ (blk_neg _ _ _ _ HU3)) as u3n HU3n _.
  bnd (MultM_ok t h zk _ _ _ _ _ HP HPB HU1) as T1 T1' [HT1 FT1].
  bnd (MultM_ok t h zk _ _ _ _ _ HP HOB HU2) as w w' [HW FW].
  bnd (MultM_ok t h zk _ _ _ _ _ HP HOR HU3n) as w2 w2' [HW2 FW2].
  bnd (AddM_new _ _ _ _ _ _ ltac:(eassumption) HP HW HW2 FW FW2) as T2 T2' [HT2 FT2].
  destruct left.
  - chal HP as c c' [HCh FCh].
    val2 (blk_inplace _ _ _ _ (p_N _ _ _ _ HP) _ _ (blk_sub _ _ _ _ _ _ HCh HU3)) as dc HDC FDC.
    val (blk_mul _ _ _ _ _ _ HDC MV) as tm HT _.
    val (blk_add _ _ _ _ _ _ HU1 HT) as s HS FS.
    fin. split; [|split; [reflexivity|]].
    + split; [exact HT1|]. split; [exact HT2|]. split; [exact HCh|]. split; [exact HDC|]. split; [exact HU3|]. split; [exact HS|exact HU2].
    + intros p Ep. injection Ep as <-. split; [exact FT1|]. split; [exact FT2|]. split; [exact FCh|]. split; [exact FDC|]. split; [exact FU3|]. split; [exact FS|exact FU2].
  - chal HP as c c' [HCh FCh].
    val2 (blk_inplace _ _ _ _ (p_N _ _ _ _ HP) _ _ (blk_sub _ _ _ _ _ _ HCh HU3)) as dc HDC FDC.
    val (blk_mul _ _ _ _ _ _ HDC MV) as tm HT _.
    val (blk_add _ _ _ _ _ _ HU1 HT) as s HS FS.
    fin. split; [|split; [reflexivity|]].
    + split; [exact HT2|]. split; [exact HT1|]. split; [exact HCh|]. split; [exact HU3|]. split; [exact HDC|]. split; [exact HU2|exact HS].
    + intros p Ep. injection Ep as <-. split; [exact FT2|]. split; [exact FT1|]. split; [exact FCh|]. split; [exact FU3|]. split; [exact FDC|]. split; [exact FU2|exact FS].
Qed.
Lemma newProof_back : forall (A B E : Type) (at_ : bmem -> A -> B -> Prop) (fr : bmem -> A -> Prop) m m1 m' a b,
  (forall p, fr m1 p -> fr m p) -> newProof (E := E) at_ (fr m1) m' a b -> newProof at_ (fr m) m' a b.
Proof. intros A B E at_ fr m m1 m' a b H (X & Y & Z). split; [exact X|]. split; [exact Y|]. intros p Ep. apply H, Z, Ep. Qed.
Lemma freshDisj_back : forall m m1 p, unchanged m m1 -> freshDisj m1 p -> freshDisj m p.
Proof. intros m m1 p E (A & B & C & D & F & G & H). repeat split; try (eapply fresh_back; [exact E|]); try assumption; try apply A; try apply B. Qed.
Lemma disj_new_ok : forall m b1 r1 b2 r2 x B1 R1 B2 R2 X side rnd1 rnd2 rnd3, paramsAt t m h zk ->
  pointAt t m b1 B1 -> pointAt t m r1 R1 -> pointAt t m b2 B2 -> pointAt t m r2 R2 -> intAt t m x X ->
  sim t m m (NewDisjunctiveProofM sha h b1 r1 b2 r2 x side rnd1 rnd2 rnd3) (NewDisjunctiveProof sha zk B1 R1 B2 R2 X side rnd1 rnd2 rnd3) (newProof (disjAt t) (freshDisj m)).
Proof.
  intros m b1 r1 b2 r2 x B1 R1 B2 R2 X side rnd1 rnd2 rnd3 HP HB1 HR1 HB2 HR2 HX.
  pose proof (ext_refl m) as U0. unfold NewDisjunctiveProofM, NewDisjunctiveProof.
  destruct X as [x'|]; cbn [need bind]; [|apply sim_newMod_nil; [exact U0|exact HX]].
  val (blk_mod _ _ _ _ _ _ HX (p_N _ _ _ _ HP)) as mv MV _.
  destruct (side =? Left); [|destruct (side =? Right); [|fin; apply disj_empty]].
  - eapply sim_from; [eassumption|eapply disj_prove_ok; eassumption|]. intros m' a b _. apply newProof_back. intros p. apply freshDisj_back. assumption.
  - eapply sim_from; [eassumption|eapply disj_prove_ok; eassumption|]. intros m' a b _. apply newProof_back. intros p. apply freshDisj_back. assumption.
Qed.
Lemma newAdd_nil : forall (A B : Type) m0 m x y X Y (k : bigint -> prog A) (rel : bmem -> A -> B -> Prop), unchanged m0 m -> intAt t m x X -> intAt t m y Y -> X = None \/ Y = None ->
  sim t m0 m (pbind (newAdd x y) k) Panic rel.
Proof.
  intros A B m0 m x y X Y k rel E HX HY N. unfold newAdd, intAdd. apply sim_assoc_inv. eapply sim_blk; [exact E|apply blk_new|]. intros m1 z E1 U1 _ _. apply sim_assoc_inv.
  destruct X as [a|].
  - destruct N as [N|N]; [discriminate N|]. subst Y. eapply sim_deref; [exact (intAt_ext _ _ _ _ _ E1 HX)|]. apply sim_assoc_inv.
    apply sim_deref_nil; [exact U1|exact (intAt_ext _ _ _ _ _ E1 HY)].
  - apply sim_deref_nil; [exact U1|exact (intAt_ext _ _ _ _ _ E1 HX)].
Qed.
Lemma disj_verify_ok : forall m pf b1 r1 b2 r2 Pf B1 R1 B2 R2, paramsAt t m h zk -> optAt (disjAt t m) pf Pf -> pointAt t m b1 B1 -> pointAt t m r1 R1 -> pointAt t m b2 B2 -> pointAt t m r2 R2 ->
  sim t m m (DisjunctiveVerifyM sha pf h b1 r1 b2 r2) (DisjunctiveVerify sha Pf zk B1 R1 B2 R2) (fun _ r v => r = v).
Proof.
  intros m [pf|] b1 r1 b2 r2 [Pf|] B1 R1 B2 R2 HP HF HB1 HR1 HB2 HR2; try contradiction; pose proof (ext_refl m) as U0; cbn [DisjunctiveVerifyM DisjunctiveVerify]; [|no].
  destruct HF as (HT1 & HT2 & HCh & HC1 & HC2 & HS1 & HS2).
  chal HP as c c' [HC _].
  eapply sim_cmp; [eassumption|exact HC|exact HCh|]. intros ch Ech. destruct (c' =? ch); cbn [negb]; [|no].
  destruct (djC1 Pf) as [C1|] eqn:EC1; cbn [need bind]; [|eapply newAdd_nil; [eassumption|exact HC1|exact HC2|left; reflexivity]].
  destruct (djC2 Pf) as [C2|] eqn:EC2; cbn [need bind]; [|eapply newAdd_nil; [eassumption|exact HC1|exact HC2|right; reflexivity]]. cbv zeta.
  val2 (blk_inplace _ _ _ _ (p_N _ _ _ _ HP) _ _ (blk_add _ _ _ _ _ _ HC1 HC2)) as tc HTC _.
  rewrite Ech in HCh. eapply sim_cmpv; [exact HTC|exact HCh|]. destruct ((C1 + C2) mod cN (zC zk) =? ch); cbn [negb]; [|no].
  bnd (MultM_ok t h zk _ _ _ _ _ HP HR1 HC1) as d d' [HD _].
  bnd (AddM_ok t h zk _ _ _ _ _ HP HT1 HD) as tot tot' [HT _].
  bnd (MultM_ok t h zk _ _ _ _ _ HP HB1 HS1) as s s' [HS _].
  bnd (EqualM_ok _ _ _ _ _ _ HT HS) as e e' <-. destruct e; cbn [negb]; [|no].
  bnd (MultM_ok t h zk _ _ _ _ _ HP HR2 HC2) as d2 d2' [HD2 _].
  bnd (AddM_ok t h zk _ _ _ _ _ HP HD2 HT2) as tot2 tot2' [HTt2 _].
  bnd (MultM_ok t h zk _ _ _ _ _ HP HB2 HS2) as s2 s2' [HSs2 _].
  bnd (EqualM_ok _ _ _ _ _ _ HTt2 HSs2) as e2 e2' <-. destruct e2; cbn [negb]; no.
Qed.

(** *** abc.go, inequality.go *)
Lemma abc_empty : forall m m0 E, newProof (abcAt t) (freshABC m0) m (Some emptyHABC, E) (Some emptyABC, E : option goerr).
Proof. intros m m0 E. split; [repeat split|]. split; [reflexivity|]. intros p Ep. injection Ep as <-. repeat split; discriminate. Qed.
Lemma modInverse_ok : forall m g n G N', intAt t m g (Some G) -> intAt t m n (Some N') ->
  sim t m m (newModInverse g n) (Ok (modInverse G N')) (fun m' x v => intAt t m' x v /\ freshInt m x).
Proof.
  intros m g n G N' HG HN. unfold newModInverse, intModInverse. eapply sim_blk_own; [apply ext_refl|apply blk_new|]. intros m1 z E1 U1 HZ FZ OZ. forward E1.
  eapply sim_deref; [exact HG|]. eapply sim_deref; [exact HN|]. destruct (modInverse G N') as [i|].
  - eapply sim_weaken; [|intros m' a b _ H; exact H].
    assert (X : sim t m m1 (pbind (assign z i) (fun a => Return a)) (Ok (Some i)) (fun m' x v => intAt t m' x v /\ freshInt m x)).
    { eapply sim_store; [exact U1|exact HZ|exact OZ|exact FZ|]. intros m2 _ U2 H2. apply sim_ret; [exact U2|]. split; assumption. }
    destruct X as [X1 X2]. destruct z as [p|]; [|contradiction]. split; [exact X1|exact X2].
  - apply sim_ret; [exact U1|]. split; exact I.
Qed.
Lemma newMul_nil : forall (A B : Type) m0 m x y (k : bigint -> prog A) (rel : bmem -> A -> B -> Prop), unchanged m0 m -> intAt t m x None -> sim t m0 m (pbind (newMul x y) k) Panic rel.
Proof.
  intros A B m0 m [p|] y k rel E HX; [contradiction|]. unfold newMul, intMul. apply sim_assoc_inv. eapply sim_blk; [exact E|apply blk_new|]. intros m1 z E1 U1 _ _. apply sim_crash, U1.
Qed.
Lemma abc_finish_ok : forall m0 m cm tok v sk u1 u2 u3 ub uc B C ct dj CM Tok V SK U1 U2 U3 UB UC B' C' CT DJ, unchanged m0 m -> paramsAt t m h zk ->
  pointAt t m cm CM -> pointAt t m tok Tok -> intAt t m v (Some V) -> intAt t m sk (Some SK) -> intAt t m u1 (Some U1) -> intAt t m u2 (Some U2) -> intAt t m u3 (Some U3) ->
  intAt t m ub (Some UB) -> intAt t m uc (Some UC) -> pointAt t m B B' -> pointAt t m C C' -> pointAt t m ct CT -> optAt (disjAt t m) dj DJ ->
  freshPoint m0 B -> freshPoint m0 C -> freshPoint m0 ct -> (forall d, dj = Some d -> freshDisj m0 d) ->
  sim t m0 m (abcFinishM sha h cm tok v sk u1 u2 u3 ub uc B C ct dj) (abcFinish sha zk CM Tok V SK U1 U2 U3 UB UC B' C' CT DJ) (newProof (abcAt t) (freshABC m0)).
Proof.
  intros m0 m cm tok v sk u1 u2 u3 ub uc B C ct dj CM Tok V SK U1 U2 U3 UB UC B' C' CT DJ W0 HP HCM HTok HV HSK HU1 HU2 HU3 HUB HUC HB HC HCT HDJ FB FC FCT FDJ.
  unfold abcFinishM, abcFinish. cbv zeta.
  bnd (MultM_ok t h zk _ _ _ _ _ HP (p_G _ _ _ _ HP) HU1) as a1 a1' [HA1 FA1].
  bnd (MultM_ok t h zk _ _ _ _ _ HP HTok HU2) as a2 a2' [HA2 FA2].
  bnd (AddM_new _ _ _ _ _ _ ltac:(eassumption) HP HA1 HA2 FA1 FA2) as T1 T1' [HT1 FT1].
  bnd (MultM_ok t h zk _ _ _ _ _ HP HB HU1) as b1 b1' [HB1 FB1].
  bnd (MultM_ok t h zk _ _ _ _ _ HP (p_H _ _ _ _ HP) HU3) as b2 b2' [HB2 FB2].
  bnd (AddM_new _ _ _ _ _ _ ltac:(eassumption) HP HB1 HB2 FB1 FB2) as T2 T2' [HT2 FT2].
  chal HP as c c' [HCh FCh].
  val (blk_mul _ _ _ _ _ _ HV HCh) as t1 Ht1 _.
  val (blk_add _ _ _ _ _ _ HU1 Ht1) as j0 Hj0 _.
  val (blk_mod _ _ _ _ _ _ Hj0 (p_N _ _ _ _ HP)) as j Hj Fj.
  eapply sim_bind_val; [eassumption|exact (modInverse_ok _ _ _ _ _ HSK (p_N _ _ _ _ HP))|]. intros mI isk EI UI [HI _]. forward EI. clear EI.
  destruct (modInverse SK (cN (zC zk))) as [i|]; cbn [need bind]; [|apply newMul_nil; assumption].
  val (blk_mul _ _ _ _ _ _ HI HCh) as t2 Ht2 _.
  val (blk_add _ _ _ _ _ _ HU2 Ht2) as k0 Hk0 _.
  val (blk_mod _ _ _ _ _ _ Hk0 (p_N _ _ _ _ HP)) as k Hk Fk.
  val (blk_mul _ _ _ _ _ _ HV HUB) as t3 Ht3 _.
  val (blk_sub _ _ _ _ _ _ HUC Ht3) as tm Htm _.
  val (blk_mul _ _ _ _ _ _ Htm HCh) as t4 Ht4 _.
  val (blk_add _ _ _ _ _ _ HU3 Ht4) as l Hl Fl.
  fin. split; [|split; [reflexivity|]].
  - split; [exact HB|]. split; [exact HC|]. split; [exact HT1|]. split; [exact HT2|]. split; [exact HCh|]. split; [exact Hj|]. split; [exact Hk|]. split; [exact Hl|]. split; [exact HCT|exact HDJ].
  - intros p Ep. injection Ep as <-. split; [exact FB|]. split; [exact FC|]. split; [exact FT1|]. split; [exact FT2|]. split; [exact FCh|]. split; [exact Fj|]. split; [exact Fk|]. split; [exact Fl|]. split; [exact FCT|exact FDJ].
Qed.
End Api.
