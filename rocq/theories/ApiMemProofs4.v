(** * The proofs of abc.go and inequality.go on pointers, and the Bytes methods *)
From Coq Require Import ZArith List Bool Lia.
From Verif Require Import Go Wire Big Crypto Gspfs Equivalence Consistency Disjunctive Abc Range BigMem ApiMem SpecApiMem ApiMemProofs ApiMemProofs2 ApiMemProofs3.
Import ListNotations.
Open Scope Z_scope.

(** the code still has something to do, and whatever that is it panics *)
Lemma sim_bind_dead : forall (A B A' B' : Type) t m0 m (c : prog A) (r : R B) (k : A -> prog A') rel1 (rel : bmem -> A' -> B' -> Prop),
  unchanged m0 m -> sim t m m c r rel1 ->
  (forall m1 a b, unchanged m m1 -> unchanged m0 m1 -> rel1 m1 a b -> sim t m0 m1 (k a) Panic rel) -> sim t m0 m (pbind c k) Panic rel.
Proof.
  intros A B A' B' t m0 m c r k rel1 rel E S K.
  replace (@Panic B') with (bind r (fun _ : B => @Panic B')) by (destruct r; reflexivity).
  eapply sim_bind; [exact E|exact S|]. intros m1 a b U1 U2 H. eapply K; eassumption.
Qed.
Tactic Notation "dead" uconstr(L) "as" simple_intropattern(a) simple_intropattern(b) simple_intropattern(H) :=
  eapply sim_bind_dead; [eassumption|exact L|];
  let m1 := fresh "m" in let E := fresh "E" in let U := fresh "U" in intros m1 a b E U H; forward E; clear E; rebase.

Section Api.
Variables (sha : list Z -> list Z) (t : nat) (h : hparams) (zk : zkparams).

Lemma abc_finish_nil : forall (B : Type) m0 m cm tok v sk u1 u2 u3 ub uc b c ct dj CM Tok V U1 U2 U3 UB UC B' C' (rel : bmem -> option HABC * option goerr -> B -> Prop), unchanged m0 m -> paramsAt t m h zk ->
  pointAt t m cm CM -> pointAt t m tok Tok -> intAt t m v (Some V) -> intAt t m sk None -> intAt t m u1 (Some U1) -> intAt t m u2 (Some U2) -> intAt t m u3 (Some U3) ->
  intAt t m ub (Some UB) -> intAt t m uc (Some UC) -> pointAt t m b B' -> pointAt t m c C' ->
  sim t m0 m (abcFinishM sha h cm tok v sk u1 u2 u3 ub uc b c ct dj) Panic rel.
Proof.
  intros B m0 m cm tok v sk u1 u2 u3 ub uc b c ct dj CM Tok V U1 U2 U3 UB UC B' C' rel W0 HP HCM HTok HV HSK HU1 HU2 HU3 HUB HUC HB HC.
  unfold abcFinishM.
  dead (MultM_ok t h zk _ _ _ _ _ HP (p_G _ _ _ _ HP) HU1) as a1 a1' [HA1 _].
  dead (MultM_ok t h zk _ _ _ _ _ HP HTok HU2) as a2 a2' [HA2 _].
  dead (AddM_ok t h zk _ _ _ _ _ HP HA1 HA2) as T1 T1' [HT1 _].
  dead (MultM_ok t h zk _ _ _ _ _ HP HB HU1) as b1 b1' [HB1 _].
  dead (MultM_ok t h zk _ _ _ _ _ HP (p_H _ _ _ _ HP) HU3) as b2 b2' [HB2 _].
  dead (AddM_ok t h zk _ _ _ _ _ HP HB1 HB2) as T2 T2' [HT2 _].
  eapply sim_bind_dead; [eassumption|apply (ChallengeM_ok sha t h zk); [exact HP|pts HP]|]. intros mc ch ch' Ec Uc [HCh _]. forward Ec.
  val (blk_mul _ _ _ _ _ _ HV HCh) as t1 Ht1 _.
  val (blk_add _ _ _ _ _ _ HU1 Ht1) as j0 Hj0 _.
  val (blk_mod _ _ _ _ _ _ Hj0 (p_N _ _ _ _ HP)) as j Hj _.
  unfold newModInverse. apply sim_assoc_inv. val (blk_new t _ 0) as z HZ _.
  unfold intModInverse. apply sim_assoc_inv. apply sim_deref_nil; assumption.
Qed.
Lemma freshABC_back : forall m m1 p, unchanged m m1 -> freshABC m1 p -> freshABC m p.
Proof.
  intros m m1 p E (A & B & C & D & F & G & H & J & K & L).
  pose proof (fun x => freshP_back _ _ x E) as P. pose proof (fun x => fresh_back _ _ x E) as Q.
  split; [exact (P _ A)|]. split; [exact (P _ B)|]. split; [exact (P _ C)|]. split; [exact (P _ D)|]. split; [exact (Q _ F)|]. split; [exact (Q _ G)|].
  split; [exact (Q _ H)|]. split; [exact (Q _ J)|]. split; [exact (P _ K)|]. intros d Ed. exact (freshDisj_back _ _ _ E (L _ Ed)).
Qed.
Ltac fbd U :=
  match goal with F : forall p, _ = Some p -> freshDisj _ p |- _ =>
    let F' := fresh in assert (F' := F); clear F; pose proof (fun p Ep => freshDisj_back _ _ p U (F' p Ep)) as F; clear F' end.
Lemma abc_new_ok : forall m cm tok v sk CM Tok V SK side rn, paramsAt t m h zk ->
  pointAt t m cm CM -> pointAt t m tok Tok -> intAt t m v V -> intAt t m sk SK ->
  sim t m m (NewABCProofM sha h cm tok v sk side rn) (NewABCProof sha zk CM Tok V SK side rn) (newProof (abcAt t) (freshABC m)).
Proof.
  intros m cm tok v sk CM Tok V SK side rn HP HCM HTok HV HSK. pose proof (ext_refl m) as U0. unfold NewABCProofM, NewABCProof.
  destruct (ar1 rn) as [v1|]; [|fails]. val (blk_new t _ v1) as u1 HU1 FU1.
  destruct (ar2 rn) as [v2|]; [|fails]. val (blk_new t _ v2) as u2 HU2 FU2.
  destruct (ar3 rn) as [v3|]; [|fails]. val (blk_new t _ v3) as u3 HU3 FU3.
  destruct (arb rn) as [vb|]; [|fails]. val (blk_new t _ vb) as ub HUB FUB.
  destruct (arc rn) as [vc|]; [|fails]. val (blk_new t _ vc) as uc HUC FUC.
  bnd (MultM_ok t h zk _ _ _ _ _ HP (p_H _ _ _ _ HP) HSK) as hs hs' [HHS FHS].
  bnd (MultM_ok t h zk _ _ _ _ _ HP HHS HUC) as ct ct' [HCT FCT].
  unfold andM. cbn [pbind].
  destruct (side =? Left) eqn:SL; cbn [orb andb].
  - (* Left *)
    unfold cmpEq. apply sim_assoc_inv. apply sim_need; [eassumption|exact HV|]. intros v0 EV. subst V. apply sim_assoc_inv. eapply sim_deref; [exact (p_0 _ _ _ _ HP)|]. cbn [pbind].
    destruct (v0 =? 0) eqn:EZ.
    + val (blk_new t _ 0) as z1 HZ1 _.
      bnd (PedCommitRM_ok t h zk _ _ _ _ _ HP HZ1 HUB) as B B' [HB FB].
      val (blk_new t _ 0) as z2 HZ2 _.
      bnd (PedCommitRM_ok t h zk _ _ _ _ _ HP HZ2 HUC) as C C' [HC FC].
      bnd (SubM_ok t h zk _ _ _ _ _ HP HC (p_G _ _ _ _ HP)) as CG CG' HCG.
      eapply sim_bind; [eassumption|exact (disj_new_ok sha t h zk _ _ _ _ _ _ _ _ _ _ _ Left (ard1 rn) (ard2 rn) (ard3 rn) HP HCM HTok (p_H _ _ _ _ HP) HCG HSK)|].
      intros md d d' Ed Ud (Hd1 & Hd2 & Hd3). rewrite Hd2. match goal with U : unchanged m ?x |- _ => match type of Ed with unchanged x _ => fbd U end end. forward Ed.
      destruct (snd d'); [fin; apply abc_empty|].
      destruct SK as [sk'|]; cbn [need bind]; [eapply abc_finish_ok; eassumption|eapply abc_finish_nil; eassumption].
    + destruct (side =? Right) eqn:SR; [|fin; apply abc_empty].
      apply Z.eqb_eq in SL, SR. subst side. discriminate SR.
  - destruct (side =? Right) eqn:SR; cbn [andb]; cbn [bind need]; [|fin; apply abc_empty].
    unfold cmpEq. apply sim_assoc_inv. apply sim_assoc_inv. apply sim_need; [eassumption|exact HV|]. intros v0 EV. subst V. apply sim_assoc_inv. eapply sim_deref; [exact (p_0 _ _ _ _ HP)|]. cbn [pbind].
    destruct (v0 =? 0) eqn:EZ; cbn [negb]; [fin; apply abc_empty|].
    eapply sim_bind_val; [eassumption|exact (modInverse_ok t _ _ _ _ _ HV (p_N _ _ _ _ HP))|]. intros mI iv EI UI [HI _]. forward EI. clear EI.
    bnd (PedCommitRM_ok t h zk _ _ _ _ _ HP HI HUB) as B B' [HB FB].
    val (blk_new t _ 1) as z2 HZ2 _.
    bnd (PedCommitRM_ok t h zk _ _ _ _ _ HP HZ2 HUC) as C C' [HC FC].
    bnd (SubM_ok t h zk _ _ _ _ _ HP HC (p_G _ _ _ _ HP)) as CG CG' HCG.
    eapply sim_bind; [eassumption|exact (disj_new_ok sha t h zk _ _ _ _ _ _ _ _ _ _ _ Right (ard1 rn) (ard2 rn) (ard3 rn) HP HCM HTok (p_H _ _ _ _ HP) HCG HUC)|].
    intros md d d' Ed Ud (Hd1 & Hd2 & Hd3). rewrite Hd2. match goal with U : unchanged m ?x |- _ => match type of Ed with unchanged x _ => fbd U end end. forward Ed.
    destruct (snd d'); [fin; apply abc_empty|].
    destruct SK as [sk'|]; cbn [need bind]; [eapply abc_finish_ok; eassumption|eapply abc_finish_nil; eassumption].
Qed.
Lemma abc_verify_ok : forall m pf cm tok Pf CM Tok, paramsAt t m h zk -> optAt (abcAt t m) pf Pf -> pointAt t m cm CM -> pointAt t m tok Tok ->
  sim t m m (ABCVerifyM sha pf h cm tok) (ABCVerify sha Pf zk CM Tok) (fun _ r v => r = v).
Proof.
  intros m [pf|] cm tok [Pf|] CM Tok HP HF HCM HTok; try contradiction; pose proof (ext_refl m) as U0; cbn [ABCVerifyM]; unfold ABCVerify; cbn [need bind]; [|apply sim_crash; exact U0].
  destruct HF as (HB & HC & HT1 & HT2 & HCh & Hj & Hk & Hl & HCT & HD).
  bnd (SubM_ok t h zk _ _ _ _ _ HP HC (p_G _ _ _ _ HP)) as CG CG' HCG.
  bnd (disj_verify_ok sha t h zk _ _ _ _ _ _ _ _ _ _ _ HP HD HCM HTok (p_H _ _ _ _ HP) HCG) as st st' <-.
  destruct (snd st); [fin; reflexivity|].
  chal HP as c c' [HCc _].
  eapply sim_cmp; [eassumption|exact HCc|exact HCh|]. intros ch Ech. destruct (c' =? ch); cbn [negb]; [|fin; reflexivity].
  bnd (MultM_ok t h zk _ _ _ _ _ HP HCM HCc) as d d' [HDd _].
  bnd (AddM_ok t h zk _ _ _ _ _ HP HDd HT1) as l1 l1' [HL1 _].
  bnd (MultM_ok t h zk _ _ _ _ _ HP (p_G _ _ _ _ HP) Hj) as jg jg' [HJG _].
  bnd (MultM_ok t h zk _ _ _ _ _ HP HTok Hk) as kt kt' [HKT _].
  bnd (AddM_ok t h zk _ _ _ _ _ HP HJG HKT) as r1 r1' [HR1 _].
  bnd (EqualM_ok _ _ _ _ _ _ HL1 HR1) as e e' <-. destruct e; cbn [negb]; [|fin; reflexivity].
  bnd (MultM_ok t h zk _ _ _ _ _ HP HC HCc) as d2 d2' [HDd2 _].
  bnd (AddM_ok t h zk _ _ _ _ _ HP HDd2 HT2) as l2 l2' [HL2 _].
  bnd (MultM_ok t h zk _ _ _ _ _ HP HB Hj) as jb jb' [HJB _].
  bnd (MultM_ok t h zk _ _ _ _ _ HP (p_H _ _ _ _ HP) Hl) as lh lh' [HLH _].
  bnd (AddM_ok t h zk _ _ _ _ _ HP HJB HLH) as r2 r2' [HR2 _].
  bnd (EqualM_ok _ _ _ _ _ _ HL2 HR2) as e2 e2' <-. destruct e2; cbn [negb]; fin; reflexivity.
Qed.
Lemma inequality_new_ok : forall m a b ta tb va vb sk A B TA TB VA VB SK rn, paramsAt t m h zk ->
  pointAt t m a A -> pointAt t m b B -> pointAt t m ta TA -> pointAt t m tb TB -> intAt t m va VA -> intAt t m vb VB -> intAt t m sk SK ->
  sim t m m (NewInequalityProofM sha h a b ta tb va vb sk rn) (NewInequalityProof sha zk A B TA TB VA VB SK rn) (newProof (abcAt t) (freshABC m)).
Proof.
  intros m a b ta tb va vb sk A B TA TB VA VB SK rn HP HA HB HTA HTB HVA HVB HSK. pose proof (ext_refl m) as U0. unfold NewInequalityProofM, NewInequalityProof, cmpEq.
  apply sim_assoc_inv. apply sim_need; [exact U0|exact HVA|]. intros x EX. subst VA. apply sim_assoc_inv. apply sim_need; [exact U0|exact HVB|]. intros y EY. subst VB. cbn [pbind].
  destruct (x =? y); [fails|]. cbv zeta.
  val (blk_sub _ _ _ _ _ _ HVA HVB) as v HV _.
  bnd (SubM_ok t h zk _ _ _ _ _ HP HA HB) as cm CM HCM.
  bnd (SubM_ok t h zk _ _ _ _ _ HP HTA HTB) as tok Tok HTok.
  eapply sim_bind; [eassumption|exact (abc_new_ok _ _ _ _ _ _ _ _ _ Right rn HP HCM HTok HV HSK)|].
  intros m' r r' Er Ur (H1 & H2 & H3). rewrite H2. destruct (snd r') as [e|]; [fails|].
  fin. split; [exact H1|split; [reflexivity|]]. intros p Ep. cbn [fst] in Ep. eapply freshABC_back; [|exact (H3 _ Ep)]. assumption.
Qed.
Lemma inequality_verify_ok : forall m pf cm tok Pf CM Tok, paramsAt t m h zk -> optAt (abcAt t m) pf Pf -> pointAt t m cm CM -> pointAt t m tok Tok ->
  sim t m m (InequalityVerifyM sha pf h cm tok) (InequalityVerify sha Pf zk CM Tok) (fun _ r v => r = v).
Proof.
  intros m pf cm tok Pf CM Tok HP HF HCM HTok. pose proof (abc_verify_ok _ _ _ _ _ _ _ HP HF HCM HTok) as V. destruct pf as [pf|], Pf as [Pf|]; try contradiction; [exact V|].
  apply sim_ret; [apply ext_refl|reflexivity].
Qed.
End Api.
