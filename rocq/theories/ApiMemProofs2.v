(** * Points, commitments and challenges on pointers (proofs) *)
From Coq Require Import ZArith List Bool Lia.
From Verif Require Import Go Wire Big Crypto Gspfs Equivalence Consistency Disjunctive Abc Range BigMem ApiMem SpecApiMem ApiMemProofs.
Import ListNotations.
Open Scope Z_scope.

Definition newPt (t : nat) (m m' : bmem) (h : hpt) (p : ECPoint) : Prop := pointAt t m' h p /\ freshPoint m h.
(** a result that is new, or one of the operands *)
Definition newOr (t : nat) (m : bmem) (p p2 : hpt) (m' : bmem) (h : hpt) (v : ECPoint) : Prop :=
  pointAt t m' h v /\ (freshPoint m h \/ h = p \/ h = p2).

Lemma newPoint_ok : forall t m xy, sim t m m (newPoint xy) (Ok (mkPoint xy)) (newPt t m).
Proof.
  intros t m xy. unfold newPoint. eapply sim_blk; [apply ext_refl|apply blk_new|]. intros m1 x E1 _ X F1.
  eapply sim_blk; [exact E1|apply blk_new|]. intros m2 y E2 E3 Y F2. apply sim_ret; [exact E3|].
  split; [split; [exact (intAt_ext _ _ _ _ _ E2 X)|exact Y]|]. split; [exact F1|exact (fresh_back _ _ _ E1 F2)].
Qed.
Lemma lift_newPoint : forall t m r, sim t m m (xy <~ lift r; newPoint xy) (xy <- r; Ok (mkPoint xy)) (newPt t m).
Proof. intros t m r. apply sim_lift; [apply ext_refl|]. intros xy _. apply newPoint_ok. Qed.
Lemma cmpEq_ok : forall t m0 m x y a b, unchanged m0 m -> intAt t m x a -> intAt t m y b ->
  sim t m0 m (cmpEq x y) (a' <- need a; b' <- need b; Ok (a' =? b')) (fun _ r v => r = v).
Proof.
  intros t m0 m x y a b E X Y. unfold cmpEq. apply sim_need; [exact E|exact X|]. intros a' _. apply sim_need; [exact E|exact Y|]. intros b' _. apply sim_ret; [exact E|reflexivity].
Qed.
Lemma intBytes_ok : forall (A B : Type) t m0 m x v (k : list Z -> prog A) (r : R B) rel, intAt t m x (Some v) ->
  sim t m0 m (k (bigBytes v)) r rel -> sim t m0 m (pbind (intBytes x) k) r rel.
Proof.
  intros A B t m0 m [p|] v k r rel X [C S]; [|contradiction]. destruct X as [X1 X2]. unfold sim, intBytes. cbn [deref pbind confined exec]. rewrite X2.
  split; [split; assumption|exact S].
Qed.
Lemma intBytes_need : forall (A B : Type) t m0 m x v (k : list Z -> prog A) (f : Z -> R B) rel, unchanged m0 m -> intAt t m x v ->
  (forall z, v = Some z -> sim t m0 m (k (bigBytes z)) (f z) rel) -> sim t m0 m (pbind (intBytes x) k) (bind (need v) f) rel.
Proof.
  intros A B t m0 m x [z|] k f rel E X K; cbn [need bind].
  - eapply intBytes_ok; [exact X|]. apply K. reflexivity.
  - destruct x as [p|]; [contradiction|]. apply sim_crash, E.
Qed.
Lemma EqualM_ok : forall t m p p2 P P2, pointAt t m p P -> pointAt t m p2 P2 -> sim t m m (EqualM p p2) (Equal P P2) (fun _ r v => r = v).
Proof.
  intros t m p p2 P P2 [X1 Y1] [X2 Y2]. unfold EqualM, Equal, cmpEq.
  assert (A : forall c, c = (x1 <- need (pX P); x2 <- need (pX P2); Ok (x1 =? x2)) ->
    sim t m m (a <~ deref (hX p); b <~ deref (hX p2); Return (a =? b)) c (fun _ r v => r = v)).
  { intros c ->. apply (cmpEq_ok t m m _ _ _ _ (ext_refl m) X1 X2). }
  assert (B : (x1 <- need (pX P); x2 <- need (pX P2); if x1 =? x2 then (y2 <- need (pY P2); Ok (y2 =? y2)) else Ok false)
            = (e <- (x1 <- need (pX P); x2 <- need (pX P2); Ok (x1 =? x2)); if (e : bool) then (y2 <- need (pY P2); Ok (y2 =? y2)) else Ok false)).
  { destruct (need (pX P)); [|reflexivity]. destruct (need (pX P2)); reflexivity. }
  rewrite B. eapply sim_bind; [apply ext_refl|apply A; reflexivity|]. intros m1 a b E1 _ <-. destruct a.
  - apply sim_need; [exact E1|exact (intAt_ext _ _ _ _ _ E1 Y2)|]. intros z Ez. eapply sim_deref; [rewrite <- Ez; exact (intAt_ext _ _ _ _ _ E1 Y2)|]. apply sim_ret; [exact E1|reflexivity].
  - apply sim_ret; [exact E1|reflexivity].
Qed.
Lemma isOnCurveM_ok : forall t m h zk p P, paramsAt t m h zk -> pointAt t m p P -> sim t m m (isOnCurveM h p) (isOnCurve zk P) (fun _ r v => r = v).
Proof.
  intros t m h zk p P (C & _) [X Y]. unfold isOnCurveM, isOnCurve. rewrite C.
  apply sim_need; [apply ext_refl|exact X|]. intros x _. apply sim_need; [apply ext_refl|exact Y|]. intros y _.
  destruct (cIsOnCurve (zC zk) x y); [apply sim_ret; [apply ext_refl|reflexivity]|apply sim_crash, ext_refl].
Qed.
Lemma andM_ok : forall t m (a b : prog bool) (ra rb : R bool), sim t m m a ra (fun _ r v => r = v) ->
  (forall m', unchanged m m' -> sim t m' m' b rb (fun _ r v => r = v)) -> sim t m m (andM a b) (andR ra rb) (fun _ r v => r = v).
Proof.
  intros t m a b ra rb A B. unfold andM, andR. eapply sim_bind; [apply ext_refl|exact A|]. intros m1 x y E1 _ <-. destruct x.
  - destruct (B m1 E1) as [C S]. split; [exact C|]. destruct (exec t b m1) as [o m2]. destruct S as [S1 S2]. split; [exact (ext_trans _ _ _ E1 S1)|exact S2].
  - apply sim_ret; [exact E1|reflexivity].
Qed.
(** run from a later memory *)
Lemma sim_from : forall (A B : Type) t m0 m (c : prog A) (r : R B) rel1 (rel : bmem -> A -> B -> Prop), unchanged m0 m -> sim t m m c r rel1 ->
  (forall m' a b, unchanged m m' -> rel1 m' a b -> rel m' a b) -> sim t m0 m c r rel.
Proof.
  intros A B t m0 m c r rel1 rel E [C H] K. split; [exact C|]. destruct (exec t c m) as [o m']. destruct H as [E1 H]. split; [exact (ext_trans _ _ _ E E1)|].
  destruct o, r; try contradiction; try exact I. apply K; assumption.
Qed.
Lemma newPt_back : forall t m m' m'' h p, unchanged m m' -> newPt t m' m'' h p -> newPt t m m'' h p.
Proof. intros t m m' m'' h p E [A B]. split; [exact A|exact (freshP_back _ _ _ E B)]. Qed.
Lemma newOr_back : forall t m m' p p2 m'' h v, unchanged m m' -> newOr t m' p p2 m'' h v -> newOr t m p p2 m'' h v.
Proof. intros t m m' p p2 m'' h v E [A B]. split; [exact A|]. destruct B as [B|B]; [left; exact (freshP_back _ _ _ E B)|right; exact B]. Qed.

Lemma scalarMultM_ok : forall t m h zk p P k, paramsAt t m h zk -> pointAt t m p P ->
  sim t m m (scalarMultM h (hX p) (hY p) k) (x <- need (pX P); y <- need (pY P); xy <- cScalarMult (zC zk) x y k; Ok (mkPoint xy)) (newPt t m).
Proof.
  intros t m h zk p P k (C & _) [X Y]. unfold scalarMultM. rewrite C.
  apply sim_need; [apply ext_refl|exact X|]. intros x _. apply sim_need; [apply ext_refl|exact Y|]. intros y _. apply lift_newPoint.
Qed.
Lemma curveAddM_ok : forall t m h zk p p2 P P2, paramsAt t m h zk -> pointAt t m p P -> pointAt t m p2 P2 ->
  sim t m m (curveAddM h p p2) (curveAdd zk P P2) (newOr t m p p2).
Proof.
  intros t m h zk p p2 P P2 (C & _ & _ & _ & _ & _ & _ & _ & S) PT PT2. pose proof PT as [X Y]. pose proof PT2 as [X2 Y2]. unfold curveAddM, curveAdd. rewrite C.
  apply sim_need; [apply ext_refl|exact X|]. intros x1 Ex1. apply sim_need; [apply ext_refl|exact Y|]. intros y1 Ey1.
  apply sim_need; [apply ext_refl|exact X2|]. intros x2 Ex2. apply sim_need; [apply ext_refl|exact Y2|]. intros y2 Ey2.
  assert (MP : forall Q x y, pX Q = Some x -> pY Q = Some y -> Q = mkPoint (x, y)).
  { intros [qx qy] x y A B. cbn [pX pY] in A, B. rewrite A, B. reflexivity. }
  destruct (hShares h) eqn:SH; cbn [andb].
  - specialize (S eq_refl). destruct ((x1 =? 0) && (y1 =? 0))%bool eqn:Z1.
    + apply andb_true_iff in Z1. destruct Z1 as [Z1 Z2]. apply Z.eqb_eq in Z1, Z2. subst x1 y1. rewrite (proj1 (S x2 y2)). cbn [bind].
      apply sim_ret; [apply ext_refl|]. split; [rewrite <- (MP P2 x2 y2 Ex2 Ey2); exact PT2|right; right; reflexivity].
    + destruct ((x2 =? 0) && (y2 =? 0))%bool eqn:Z2.
      * apply andb_true_iff in Z2. destruct Z2 as [Z2 Z3]. apply Z.eqb_eq in Z2, Z3. subst x2 y2. rewrite (proj2 (S x1 y1)). cbn [bind].
        apply sim_ret; [apply ext_refl|]. split; [rewrite <- (MP P x1 y1 Ex1 Ey1); exact PT|right; left; reflexivity].
      * eapply sim_from; [apply ext_refl|apply lift_newPoint|]. intros m' a b _ [A B]. split; [exact A|left; exact B].
  - eapply sim_from; [apply ext_refl|apply lift_newPoint|]. intros m' a b _ [A B]. split; [exact A|left; exact B].
Qed.

Lemma p_N : forall t m h zk, paramsAt t m h zk -> intAt t m (hN h) (Some (cN (zC zk))).
Proof. intros t m h zk H. apply H. Qed.
Lemma p_P : forall t m h zk, paramsAt t m h zk -> intAt t m (hP h) (Some (cP (zC zk))).
Proof. intros t m h zk H. apply H. Qed.
Lemma p_G : forall t m h zk, paramsAt t m h zk -> pointAt t m (hG h) (zG zk).
Proof. intros t m h zk H. apply H. Qed.
Lemma p_H : forall t m h zk, paramsAt t m h zk -> pointAt t m (hH h) (zH zk).
Proof. intros t m h zk H. apply H. Qed.
Lemma p_Z : forall t m h zk, paramsAt t m h zk -> pointAt t m (hZero h) ZeroPoint.
Proof. intros t m h zk H. apply H. Qed.
Lemma p_0 : forall t m h zk, paramsAt t m h zk -> intAt t m (hBigZero h) (Some 0).
Proof. intros t m h zk H. apply H. Qed.
Lemma p_C : forall t m h zk, paramsAt t m h zk -> hC h = zC zk.
Proof. intros t m h zk H. apply H. Qed.

Section Mult.
Variables (t : nat) (h : hparams) (zk : zkparams).
Lemma mult_tail : forall m p s P S, paramsAt t m h zk -> pointAt t m p P -> intAt t m s S ->
  sim t m m (modS <~ newMod s (hN h);
      e1 <~ EqualM p (hG h);
      if (e1 : bool) then (b <~ intBytes modS; scalarBaseMultM h b)
      else
        e2 <~ EqualM p (hH h);
        if (e2 : bool) then (b <~ intBytes modS; scalarBaseMultHM h b)
        else b <~ intBytes modS; scalarMultM h (hX p) (hY p) b)
    (s' <- need S;
      let modS := s' mod cN (zC zk) in
      e1 <- Equal P (zG zk);
      if (e1 : bool) then (xy <- cScalarBaseMult (zC zk) (bigBytes modS); Ok (mkPoint xy))
      else
        e2 <- Equal P (zH zk);
        if (e2 : bool) then (xy <- cScalarBaseMultH (zC zk) (bigBytes modS); Ok (mkPoint xy))
        else
          x <- need (pX P); y <- need (pY P);
          xy <- cScalarMult (zC zk) x y (bigBytes modS); Ok (mkPoint xy)) (newPt t m).
Proof.
  intros m p s P S HP PT ST. destruct S as [s'|]; cbn [need bind]; [|apply sim_newMod_nil; [apply ext_refl|exact ST]]. cbv zeta.
  pose proof (p_C _ _ _ _ HP) as HCe.
  eapply sim_blk; [apply ext_refl|exact (blk_mod _ _ _ _ _ _ ST (p_N _ _ _ _ HP))|]. intros m1 ms E1 _ MS _. forward E1.
  eapply sim_bind; [exact E1|exact (EqualM_ok _ _ _ _ _ _ PT (p_G _ _ _ _ HP))|]. intros m2 e1 e1' E2 E3 <-. forward E2. destruct e1.
  - eapply intBytes_ok; [exact MS|]. unfold scalarBaseMultM. rewrite HCe. eapply sim_from; [exact E3|apply lift_newPoint|]. intros m' a b _. apply newPt_back, E3.
  - eapply sim_bind; [exact E3|exact (EqualM_ok _ _ _ _ _ _ PT (p_H _ _ _ _ HP))|]. intros m3 e2 e2' E4 E5 <-. forward E4. destruct e2.
    + eapply intBytes_ok; [exact MS|]. unfold scalarBaseMultHM. rewrite HCe. eapply sim_from; [exact E5|apply lift_newPoint|]. intros m' a b _. apply newPt_back, E5.
    + eapply intBytes_ok; [exact MS|]. eapply sim_from; [exact E5|exact (scalarMultM_ok _ _ _ _ _ _ _ HP PT)|]. intros m' a b _. apply newPt_back, E5.
Qed.
Lemma MultM_ok : forall m p s P S, paramsAt t m h zk -> pointAt t m p P -> intAt t m s S -> sim t m m (MultM h p s) (Mult zk P S) (newPt t m).
Proof.
  intros m p s P S HP PT ST. pose proof (mult_tail m p s P S HP PT ST) as T. unfold MultM, Mult. destruct PT as [X Y]. revert X Y T.
  destruct (hX p) as [hx|] eqn:A, (pX P) as [x|] eqn:B; try contradiction; destruct (hY p) as [hy|] eqn:C, (pY P) as [y|] eqn:D; try contradiction; intros X Y T; try exact T.
  apply sim_ret; [apply ext_refl|]. split; split; exact I.
Qed.
Lemma AddM_ok : forall m p p2 P P2, paramsAt t m h zk -> pointAt t m p P -> pointAt t m p2 P2 -> sim t m m (AddM h p p2) (Add zk P P2) (newOr t m p p2).
Proof.
  intros m p p2 P P2 HP A B. unfold AddM, Add.
  eapply sim_bind; [apply ext_refl|apply andM_ok; [exact (EqualM_ok _ _ _ _ _ _ A (p_Z _ _ _ _ HP))|]|].
  { intros m' E. eapply isOnCurveM_ok; [exact (paramsAt_ext _ _ _ _ _ E HP)|exact (pointAt_ext _ _ _ _ _ E B)]. }
  intros m1 c1 c1' E1 _ <-. forward E1. destruct c1; [apply sim_ret; [exact E1|split; [exact B|right; right; reflexivity]]|].
  eapply sim_bind; [exact E1|apply andM_ok; [exact (EqualM_ok _ _ _ _ _ _ B (p_Z _ _ _ _ HP))|]|].
  { intros m' E. eapply isOnCurveM_ok; [exact (paramsAt_ext _ _ _ _ _ E HP)|exact (pointAt_ext _ _ _ _ _ E A)]. }
  intros m2 c2 c2' E2 E3 <-. forward E2. destruct c2; [apply sim_ret; [exact E3|split; [exact A|right; left; reflexivity]]|].
  eapply sim_from; [exact E3|exact (curveAddM_ok _ _ _ _ _ _ _ _ HP A B)|]. intros m' a b _. apply newOr_back, E3.
Qed.
Lemma NegM_ok : forall m p P, paramsAt t m h zk -> pointAt t m p P -> sim t m m (NegM h p) (Neg zk P) (fun m' a b => pointAt t m' a b /\ hX a = hX p /\ freshInt m (hY a)).
Proof.
  intros m p P HP A. unfold NegM, Neg. pose proof A as [X Y]. destruct (pY P) as [y|] eqn:EY; cbn [need bind].
  - eapply sim_blk; [apply ext_refl|exact (blk_neg _ _ _ _ Y)|]. intros m1 ny E1 _ NY _. forward E1.
    eapply sim_blk; [exact E1|exact (blk_mod _ _ _ _ _ _ NY (p_P _ _ _ _ HP))|]. intros m2 my E2 E3 MY F. forward E2.
    apply sim_ret; [exact E3|]. split; [split; [exact X|exact MY]|split; [reflexivity|exact (fresh_back _ _ _ E1 F)]].
  - destruct (hY p) as [q|]; [contradiction|]. unfold newNeg, intNeg. split; [exact I|]. cbn [pbind newInt exec deref]. split; [apply push_ext|exact I].
Qed.
Lemma SubM_ok : forall m p p2 P P2, paramsAt t m h zk -> pointAt t m p P -> pointAt t m p2 P2 -> sim t m m (SubM h p p2) (Sub zk P P2) (pointAt t).
Proof.
  intros m p p2 P P2 HP A B. unfold SubM, Sub.
  eapply sim_bind; [apply ext_refl|apply andM_ok; [exact (EqualM_ok _ _ _ _ _ _ A (p_Z _ _ _ _ HP))|]|].
  { intros m' E. eapply isOnCurveM_ok; [exact (paramsAt_ext _ _ _ _ _ E HP)|exact (pointAt_ext _ _ _ _ _ E B)]. }
  intros m1 c1 c1' E1 _ <-. forward E1. destruct c1; [eapply sim_from; [exact E1|exact (NegM_ok _ _ _ HP B)|intros m' a b _ H; apply H]|].
  eapply sim_bind; [exact E1|apply andM_ok; [exact (EqualM_ok _ _ _ _ _ _ B (p_Z _ _ _ _ HP))|]|].
  { intros m' E. eapply isOnCurveM_ok; [exact (paramsAt_ext _ _ _ _ _ E HP)|exact (pointAt_ext _ _ _ _ _ E A)]. }
  intros m2 c2 c2' E2 E3 <-. forward E2. destruct c2; [apply sim_ret; [exact E3|exact A]|].
  eapply sim_bind; [exact E3|exact (NegM_ok _ _ _ HP B)|]. intros m3 tm tm' E4 E5 [T _]. forward E4.
  eapply sim_from; [exact E5|exact (curveAddM_ok _ _ _ _ _ _ _ _ HP A T)|]. intros m' a b _ H. apply H.
Qed.
Lemma pBytesM_ok : forall m0 m p P, unchanged m0 m -> pointAt t m p P -> sim t m0 m (pBytesM p) (pBytes P) (fun _ r v => r = v).
Proof.
  intros m0 m p P E [X Y]. unfold pBytesM, pBytes. apply intBytes_need; [exact E|exact X|]. intros x _. apply intBytes_need; [exact E|exact Y|]. intros y _. apply sim_ret; [exact E|reflexivity].
Qed.
Lemma allBytesM_ok : forall ps Ps m, Forall2 (pointAt t m) ps Ps -> sim t m m (allBytesM ps) (allBytes Ps) (fun _ r v => r = v).
Proof.
  induction ps as [|p ps IH]; intros Ps m F; inversion F as [|? P ? Ps' A B]; subst; cbn [allBytesM allBytes].
  - apply sim_ret; [apply ext_refl|reflexivity].
  - eapply sim_bind; [apply ext_refl|apply pBytesM_ok; [apply ext_refl|exact A]|]. intros m1 b b' E1 _ <-. forward E1.
    eapply sim_bind; [exact E1|apply IH; exact B|]. intros m2 bs bs' E2 E3 <-. apply sim_ret; [exact E3|reflexivity].
Qed.
Lemma CommitRM_ok : forall m p r P Rr, paramsAt t m h zk -> pointAt t m p P -> intAt t m r Rr -> sim t m m (CommitRM h p r) (CommitR zk P Rr) (newPt t m).
Proof.
  intros m p r P Rr HP PT RT. unfold CommitRM, CommitR. destruct Rr as [r'|]; cbn [need bind]; [|apply sim_newMod_nil; [apply ext_refl|exact RT]]. cbv zeta.
  eapply sim_blk; [apply ext_refl|exact (blk_mod _ _ _ _ _ _ RT (p_N _ _ _ _ HP))|]. intros m1 ms E1 _ MS _. forward E1.
  eapply intBytes_ok; [exact MS|]. eapply sim_from; [exact E1|exact (scalarMultM_ok _ _ _ _ _ _ _ HP PT)|]. intros m' a b _. apply newPt_back, E1.
Qed.
Lemma newOr_fresh : forall m m0 p p2 m' a b, unchanged m m0 -> newOr t m0 p p2 m' a b -> freshPoint m p -> freshPoint m p2 -> newPt t m m' a b.
Proof.
  intros m m0 p p2 m' a b E [A [B|[->| ->]]] F1 F2; split; try exact A; try assumption. exact (freshP_back _ _ _ E B).
Qed.
Lemma PedCommitRM_ok : forall m v r V Rr, paramsAt t m h zk -> intAt t m v V -> intAt t m r Rr -> sim t m m (PedCommitRM h v r) (PedCommitR zk V Rr) (newPt t m).
Proof.
  intros m v r V Rr HP VT RT. unfold PedCommitRM, PedCommitR. destruct V as [v'|]; cbn [need bind]; [|apply sim_newMod_nil; [apply ext_refl|exact VT]].
  destruct Rr as [r'|]; cbn [need bind].
  2:{ eapply sim_blk; [apply ext_refl|exact (blk_mod _ _ _ _ _ _ VT (p_N _ _ _ _ HP))|]. intros m1 ms E1 _ MS _. apply sim_newMod_nil; [exact E1|exact (intAt_ext _ _ _ _ _ E1 RT)]. }
  cbv zeta.
  eapply sim_blk; [apply ext_refl|exact (blk_mod _ _ _ _ _ _ VT (p_N _ _ _ _ HP))|]. intros m1 ms E1 _ MS _. forward E1.
  eapply sim_blk; [exact E1|exact (blk_mod _ _ _ _ _ _ RT (p_N _ _ _ _ HP))|]. intros m2 mr E2 U2 MR _. forward E2.
  eapply sim_bind; [exact U2|exact (MultM_ok _ _ _ _ _ HP (p_G _ _ _ _ HP) MS)|]. intros m3 lhs lhs' E3 U3 [L FL]. forward E3. apply (freshP_back _ _ _ U2) in FL.
  eapply sim_bind; [exact U3|exact (MultM_ok _ _ _ _ _ HP (p_H _ _ _ _ HP) MR)|]. intros m4 rhs rhs' E4 U4 [Rh FR]. forward E4. apply (freshP_back _ _ _ U3) in FR.
  eapply sim_from; [exact U4|exact (AddM_ok _ _ _ _ _ HP L Rh)|]. intros m' a b _ H. exact (newOr_fresh _ _ _ _ _ _ _ U4 H FL FR).
Qed.
End Mult.

Section Challenge.
Variables (sha : list Z -> list Z) (t : nat) (h : hparams) (zk : zkparams).
Lemma GenerateChallengeM_ok : forall m arr, paramsAt t m h zk ->
  sim t m m (GenerateChallengeM sha h arr) (Ok (GenerateChallenge sha zk arr)) (fun m' x v => intAt t m' x (Some v) /\ freshInt m x).
Proof.
  intros m arr HP. unfold GenerateChallengeM, GenerateChallenge.
  eapply sim_blk; [apply ext_refl|apply blk_bytes|]. intros m2 c E2 U2 C _. forward E2.
  pose proof (blk_mod _ _ _ _ _ _ C (p_N _ _ _ _ HP)) as BM. unfold blk in BM. eapply sim_from; [exact U2|exact BM|]. intros m' a b _ (-> & I1 & I2 & _). split; [exact I1|exact (fresh_back _ _ _ U2 I2)].
Qed.
Lemma ChallengeM_ok : forall m ps Ps, paramsAt t m h zk -> Forall2 (pointAt t m) ps Ps ->
  sim t m m (ChallengeM sha h ps) (Challenge sha zk Ps) (fun m' x v => intAt t m' x (Some v) /\ freshInt m x).
Proof.
  intros m ps Ps HP F. unfold ChallengeM, Challenge.
  eapply sim_bind; [apply ext_refl|exact (allBytesM_ok t _ _ _ F)|]. intros m1 bs bs' E1 _ <-. forward E1.
  eapply sim_from; [exact E1|exact (GenerateChallengeM_ok _ _ HP)|]. intros m' a b _ [I1 I2]. split; [exact I1|exact (fresh_back _ _ _ E1 I2)].
Qed.
End Challenge.
