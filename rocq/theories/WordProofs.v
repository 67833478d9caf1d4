(** * Word-by-word calls compute what the calls of KoblitzConc.v compute *)
From Coq Require Import ZArith List Bool Lia.
From Verif Require Import Go Wire Big Field Koblitz KoblitzMem SpecMem KoblitzConc SpecConc FieldMem FieldMemProofs KoblitzWord SpecWord MemProofs MemProofs2 ConcProofs.
Import ListNotations.
Open Scope Z_scope.
Local Open Scope wcode_scope.

Lemma alone_run {A : Type} (c : wcode A) : forall m, aloneW c m = runW c m.
Proof. induction c as [a|p i k IH|p i w k IH]; intros m; cbn [aloneW runW]; [reflexivity|apply IH|apply IH]. Qed.

(** ** Same result, same memory *)
Definition sim {A : Type} (w : wcode A) (c : code A) : Prop := forall m, fst (runW w m) = fst (run c m) /\ meq (snd (runW w m)) (snd (run c m)).
Definition simr {A : Type} (w : wcode A) (c : code A) : Prop := forall m, fst (runW w m) = fst (run c m).
Lemma sim_seq {A B : Type} (w : wcode A) c (w' : A -> wcode B) c' : sim w c -> (forall a, sim (w' a) (c' a)) -> sim (seqW w w') (seqC c c').
Proof.
  intros H K m. rewrite runW_seq, run_seq. destruct (H m) as [E M]. rewrite E. destruct (runW_ext (w' (fst (run c m))) _ _ M) as [E1 M1].
  destruct (K (fst (run c m)) (snd (run c m))) as [E2 M2]. split; [congruence|eapply meq_trans; eassumption].
Qed.
Lemma simr_seq {A B : Type} (w : wcode A) c (w' : A -> wcode B) c' : sim w c -> (forall a, simr (w' a) (c' a)) -> simr (seqW w w') (seqC c c').
Proof.
  intros H K m. rewrite runW_seq, run_seq. destruct (H m) as [E M]. rewrite E. destruct (runW_ext (w' (fst (run c m))) _ _ M) as [E1 M1].
  rewrite E1. apply K.
Qed.
Lemma sim_simr {A : Type} (w : wcode A) c : sim w c -> simr w c. Proof. intros H m. apply H. Qed.
Lemma simr_ret {A B : Type} (w : wcode A) c (f : A -> B) : simr w c -> simr (x <- w ;; WRet (f x)) (seqC c (fun x => Ret (f x))).
Proof. intros H m. rewrite runW_seq, run_seq. cbn [runW run fst]. rewrite (H m). reflexivity. Qed.
Lemma sim_ret {A : Type} (a : A) : sim (WRet a) (Ret a). Proof. intros m. split; [reflexivity|apply meq_refl]. Qed.
Lemma sim_unit w f F c : effect w f F -> (forall m, run c m = (tt, upd m f (F m))) -> sim w c.
Proof. intros E R m. rewrite R. cbn [fst snd]. split; [destruct (fst (runW w m)); reflexivity|apply E]. Qed.
Definition plain (i : ins) : bool := match i with Inverse _ => false | _ => true end.
Lemma sim_ins fr e i : plain i = true -> sim (insW fr e i) (insC e i).
Proof.
  intros P. destruct i; cbn [plain] in P; try discriminate P; clear P; cbn [insW].
  - apply (sim_unit _ (e d) (fun m => m (e s))); [intros m; apply set_ok|reflexivity].
  - apply (sim_unit _ (e d) (fun m => fSetInt n)); [intros m; apply setInt_ok|reflexivity].
  - apply (sim_unit _ (e d) (fun m => fNormalize (m (e d)))); [intros m; apply normalize_ok|reflexivity].
  - apply (sim_unit _ (e d) (fun m0 => fNegate (m0 (e d)) m)); [intros m0; apply negate_ok|reflexivity].
  - apply (sim_unit _ (e d) (fun m0 => fNegate (m0 (e s)) m)); [intros m0; apply negate_ok|reflexivity].
  - apply (sim_unit _ (e d) (fun m => fAdd (m (e d)) (m (e s)))); [intros m; apply add_ok|reflexivity].
  - apply (sim_unit _ (e d) (fun m => fAdd (m (e s)) (m (e t)))); [intros m; apply add2_ok|reflexivity].
  - apply (sim_unit _ (e d) (fun m => fMulInt (m (e d)) n)); [intros m; apply mulInt_ok|reflexivity].
  - apply (sim_unit _ (e d) (fun m => fMul (m (e d)) (m (e s)))); [intros m; apply mul_ok|reflexivity].
  - apply (sim_unit _ (e d) (fun m => fMul (m (e s)) (m (e t)))); [intros m; apply mul_ok|reflexivity].
  - apply (sim_unit _ (e d) (fun m => fSquare (m (e d)))); [intros m; apply square_ok|reflexivity].
  - apply (sim_unit _ (e d) (fun m => fSquare (m (e s)))); [intros m; apply square_ok|reflexivity].
Qed.
Lemma sim_exec fr e l : forallb plain l = true -> sim (execW fr e l) (execC e l).
Proof.
  induction l as [|i l IH]; intros P; [apply sim_ret|]. cbn [forallb] in P. apply andb_true_iff in P. destruct P as [P Q].
  cbn [execW execC]. apply sim_seq; [apply sim_ins, P|intros _; apply IH, Q].
Qed.
Lemma sim_pure {A : Type} w c (F : mem -> A) : (forall m, runW w m = (F m, m)) -> (forall m, run c m = (F m, m)) -> sim w c.
Proof. intros H K m. rewrite H, K. split; [reflexivity|apply meq_refl]. Qed.
Lemma sim_isZero p : sim (IsZeroW p) (isZeroC p).
Proof. apply (sim_pure _ _ (fun m => fIsZero (m p))); intros m; [apply isZero_ok|apply run_isZero]. Qed.
Lemma sim_equals p q : sim (EqualsW p q) (equalsC p q).
Proof. apply (sim_pure _ _ (fun m => fEquals (m p) (m q))); intros m; [apply equals_ok|apply run_equals]. Qed.
Lemma sim_load p : sim (loadW p) (rd p).
Proof. apply (sim_pure _ _ (fun m => m p)); intros m; [apply load_ok|reflexivity]. Qed.
Lemma sim_put p v : sim (putW p v) (wr p v).
Proof. apply (sim_unit _ p (fun _ => v)); [intros m; apply put_ok|reflexivity]. Qed.
Lemma sim_zero p : sim (ZeroW p) (wr p fZero).
Proof. apply (sim_unit _ p (fun _ => fZero)); [intros m; apply zero_ok|reflexivity]. Qed.
Lemma sim_zeros a b c : sim (zerosW a b c) (zeros a b c).
Proof. unfold zerosW, zeros. apply sim_seq; [apply sim_zero|intros _]. apply sim_seq; [apply sim_zero|intros _]. apply sim_zero. Qed.
Ltac ex := apply sim_exec; reflexivity.
(** || and && *)
Lemma run_or y z m : runW (a <- IsZeroW y ;; (if a : bool then WRet true else IsZeroW z)) m = (fIsZero (m y) || fIsZero (m z), m).
Proof. rewrite runW_seq, isZero_ok. cbn [fst snd]. destruct (fIsZero (m y)); [reflexivity|apply isZero_ok]. Qed.
Lemma seq_assoc {A B C : Type} (w : wcode A) (f : A -> wcode B) (g : B -> wcode C) m : runW (seqW w (fun a => seqW (f a) g)) m = runW (seqW (seqW w f) g) m.
Proof. rewrite !runW_seq. reflexivity. Qed.
Lemma sim_dbl one sp x1 y1 z1 x3 y3 z3 : sim (doubleJacobianW one sp x1 y1 z1 x3 y3 z3) (doubleJacobianC one sp x1 y1 z1 x3 y3 z3).
Proof.
  unfold doubleJacobianW, doubleJacobianC. cbv zeta. intros m. rewrite seq_assoc, runW_seq, run_or. cbn [fst snd].
  rewrite run_seq, run_isZero. cbn [fst snd]. rewrite run_seq, run_isZero. cbn [fst snd]. revert m.
  intros m. destruct (_ || _); [apply sim_exec; reflexivity|]. revert m.
  apply (sim_seq (execW (sp + frame) _ [Normalize Z1]) (execC _ [Normalize Z1])); [ex|intros _]. apply sim_seq; [apply sim_equals|intros b]. destruct b; ex.
Qed.
Ltac four := cbv zeta; apply sim_seq; [ex|intros _]; apply sim_seq; [apply sim_equals|intros []; [|ex]];
  apply sim_seq; [apply sim_equals|intros []; [apply sim_dbl|ex]].
Lemma sim_add1 one sp x1 y1 z1 x2 y2 x3 y3 z3 : sim (addZ1AndZ2EqualsOneW one sp x1 y1 z1 x2 y2 x3 y3 z3) (addZ1AndZ2EqualsOneC one sp x1 y1 z1 x2 y2 x3 y3 z3).
Proof. unfold addZ1AndZ2EqualsOneW, addZ1AndZ2EqualsOneC. four. Qed.
Lemma sim_addEq one sp x1 y1 z1 x2 y2 x3 y3 z3 : sim (addZ1EqualsZ2W one sp x1 y1 z1 x2 y2 x3 y3 z3) (addZ1EqualsZ2C one sp x1 y1 z1 x2 y2 x3 y3 z3).
Proof. unfold addZ1EqualsZ2W, addZ1EqualsZ2C. four. Qed.
Lemma sim_addZ2 one sp x1 y1 z1 x2 y2 x3 y3 z3 : sim (addZ2EqualsOneW one sp x1 y1 z1 x2 y2 x3 y3 z3) (addZ2EqualsOneC one sp x1 y1 z1 x2 y2 x3 y3 z3).
Proof. unfold addZ2EqualsOneW, addZ2EqualsOneC. four. Qed.
Lemma sim_gen one sp x1 y1 z1 x2 y2 z2 x3 y3 z3 : sim (addGenericW one sp x1 y1 z1 x2 y2 z2 x3 y3 z3) (addGenericC one sp x1 y1 z1 x2 y2 z2 x3 y3 z3).
Proof. unfold addGenericW, addGenericC. four. Qed.
Lemma sim_inf x y z : sim (isInfW x y z) (isInfC x y z).
Proof.
  apply (sim_pure _ _ (fun m => (fIsZero (m x) && fIsZero (m y)) || fIsZero (m z))); intros m.
  - unfold isInfW. rewrite runW_seq, isZero_ok. cbn [fst snd]. destruct (fIsZero (m x)); cbn [andb].
    + rewrite runW_seq, isZero_ok. cbn [fst snd]. destruct (fIsZero (m y)); [reflexivity|apply isZero_ok].
    + apply isZero_ok.
  - unfold isInfC. rewrite run_seq, run_isZero. cbn [fst snd]. rewrite run_seq, run_isZero. cbn [fst snd]. rewrite run_seq, run_isZero. reflexivity.
Qed.
Lemma sim_addJ one sp x1 y1 z1 x2 y2 z2 x3 y3 z3 : sim (addJacobianW one sp x1 y1 z1 x2 y2 z2 x3 y3 z3) (addJacobianC one sp x1 y1 z1 x2 y2 z2 x3 y3 z3).
Proof.
  unfold addJacobianW, addJacobianC. cbv zeta. apply sim_seq; [apply sim_inf|intros b]. destruct b; [ex|].
  apply sim_seq; [apply sim_inf|intros b]. destruct b; [ex|]. apply sim_seq; [ex|intros _]. apply sim_seq; [apply sim_equals|intros b1]. apply sim_seq; [apply sim_equals|intros b2].
  destruct (b1 && b2); [apply sim_add1|]. apply sim_seq; [apply sim_equals|intros b]. destruct b; [apply sim_addEq|]. destruct b2; [apply sim_addZ2|apply sim_gen].
Qed.
Lemma sim_from px py x y : simr (fromAffineW px py x y) (fromAffineC px py x y) /\
  forall m, fst (run (fromAffineC px py x y) m) = true -> meq (snd (runW (fromAffineW px py x y) m)) (snd (run (fromAffineC px py x y) m)).
Proof.
  unfold fromAffineW, fromAffineC.
  pose proof (fun m => setByteSlice_ok px (bigBytes x) m) as Hx. pose proof (fun m => setByteSlice_ok py (bigBytes y) m) as Hy.
  destruct (fSetByteSlice (bigBytes x)) as [vx|].
  - destruct (fSetByteSlice (bigBytes y)) as [vy|].
    + assert (E : forall m, fst (runW (okx <- SetByteSliceW px (bigBytes x) ;; if okx : bool then SetByteSliceW py (bigBytes y) else WRet false) m) = true /\
        meq (snd (runW (okx <- SetByteSliceW px (bigBytes x) ;; if okx : bool then SetByteSliceW py (bigBytes y) else WRet false) m)) (upd (upd m px vx) py vy)).
      { intros m. rewrite runW_seq. destruct (Hx m) as [Ex Mx]. rewrite Ex. destruct (Hy (snd (runW (SetByteSliceW px (bigBytes x)) m))) as [Ey My].
        split; [exact Ey|]. eapply meq_trans; [exact My|]. apply upd_meq; [exact Mx|reflexivity]. }
      split; intros m; [apply E|intros _; apply E].
    + split; intros m; [rewrite runW_seq; destruct (Hx m) as [Ex Mx]; rewrite Ex, Hy; reflexivity|intros F; discriminate F].
  - split; intros m; [rewrite runW_seq, Hx; reflexivity|intros F; discriminate F].
Qed.
(** after bigAffineToField: panic in both, or go on *)
Lemma simr_from {B : Type} px py x y (w : bool -> wcode B) c : w false = WRet (fst (run (c false) (fun _ => fZero))) -> (exists r, c false = Ret r) ->
  simr (w true) (c true) -> simr (seqW (fromAffineW px py x y) w) (seqC (fromAffineC px py x y) c).
Proof.
  intros F (r & G) T m. destruct (sim_from px py x y) as [E M]. rewrite runW_seq, run_seq, (E m). specialize (M m). destruct (fst (run (fromAffineC px py x y) m)).
  - destruct (runW_ext (w true) _ _ (M eq_refl)) as [-> _]. apply T.
  - rewrite F, G. reflexivity.
Qed.
(** code that stays away from some variables does not see them *)
Lemma within_ins (own ro : ptr -> Prop) e i : (forall r, own (e r)) -> within own ro (insC e i).
Proof. intros O. destruct i; cbn; repeat split; auto. Qed.
Lemma within_exec (own ro : ptr -> Prop) e l : (forall r, own (e r)) -> within own ro (execC e l).
Proof. intros O. induction l as [|i l IH]; [exact I|]. cbn [execC]. apply within_seq; [apply within_ins, O|intros _; exact IH]. Qed.
Lemma sim_bytes x : sim (b <- BytesW x ;; WRet b) (seqC (rd x) (fun v => Ret (fBytes v))).
Proof. apply (sim_pure _ _ (fun m => fBytes (m x))); intros m; [rewrite runW_seq, bytes_ok_W; reflexivity|reflexivity]. Qed.
Lemma simr_aff sp x y z : x < sp -> y < sp -> z < sp -> simr (toAffineW sp x y z) (toAffineC sp x y z).
Proof.
  intros Lx Ly Lz m. unfold toAffineW, toAffineC. cbv zeta. set (e := env sp _).
  assert (Oe : forall r, ~ (sp + frame <= e r < sp + frame + invFrame)).
  { intros r. unfold e, env. assert (D : sp + idx r < sp + frame) by (pose proof (idx_range r); unfold frame in *; lia).
    destruct r; cbn; unfold frame, invFrame in *; try lia. }
  assert (T : sim (bx <- BytesW x ;; b_y <- BytesW y ;; WRet (beval bx, beval b_y)) (seqC (rd x) (fun vx => seqC (rd y) (fun vy => Ret (beval (fBytes vx), beval (fBytes vy)))))).
  { apply (sim_pure _ _ (fun m => (beval (fBytes (m x)), beval (fBytes (m y))))); intros m'; [|reflexivity]. rewrite runW_seq, bytes_ok_W. cbn [fst snd]. rewrite runW_seq, bytes_ok_W. reflexivity. }
  set (rest := skipn 2 affineProg). set (tw := bx <- _ ;; _) in *. set (tc := seqC (rd x) _) in *.
  assert (RW : runW (execW (sp + frame) e affineProg ;; tw) m =
    runW (execW (sp + frame) e rest ;; tw) (snd (runW (InverseW (sp + frame) (e zInv)) (snd (runW (insW (sp + frame) e (Set_ zInv Z1)) m))))).
  { change affineProg with (Set_ zInv Z1 :: Inverse zInv :: rest). cbn [execW]. rewrite !runW_seq. reflexivity. }
  assert (RC : run (seqC (execC e affineProg) (fun _ => tc)) m = run (seqC (execC e rest) (fun _ => tc)) (snd (run (insC e (Inverse zInv)) (snd (run (insC e (Set_ zInv Z1)) m))))).
  { change affineProg with (Set_ zInv Z1 :: Inverse zInv :: rest). cbn [execC]. rewrite !run_seq. reflexivity. }
  rewrite RW, RC. clear RW RC.
  set (m1 := snd (runW (insW _ _ _) m)). assert (M1 : meq m1 (snd (run (insC e (Set_ zInv Z1)) m))) by apply (sim_ins (sp + frame) e (Set_ zInv Z1) eq_refl m).
  set (c1 := snd (run (insC e (Set_ zInv Z1)) m)) in *. clearbody m1 c1.
  destruct (inverse_ok (sp + frame) (e zInv) m1 (Oe zInv)) as [V Q]. set (m2 := snd (runW (InverseW _ _) m1)) in *. clearbody m2.
  rewrite run_ins. cbn [snd step]. set (c2 := upd c1 _ _).
  assert (Ag : forall p, ~ (sp + frame <= p < sp + frame + invFrame) -> m2 p = c2 p).
  { intros p N. unfold c2. destruct (Z.eq_dec p (e zInv)) as [->|D]; [rewrite upd_at, V, (M1 (e zInv)); reflexivity|rewrite upd_off by exact D; rewrite (Q p D N); apply M1]. }
  assert (S : sim (execW (sp + frame) e rest ;; tw) (seqC (execC e rest) (fun _ => tc))) by (apply sim_seq; [ex|intros _; exact T]).
  destruct (S m2) as [-> _].
  apply (run_ext (fun p => ~ (sp + frame <= p < sp + frame + invFrame)) (fun _ => False)).
  - apply within_seq; [apply within_exec, Oe|intros _]. unfold tc. repeat split; left; unfold frame, invFrame; lia.
  - intros p [N|[]]. apply Ag, N.
Qed.
Ltac from := apply simr_from; [reflexivity|eexists; reflexivity|cbn [negb]].
Lemma simr_Add one sp x1 y1 x2 y2 : simr (curveAddW one sp x1 y1 x2 y2) (AddC one sp x1 y1 x2 y2).
Proof.
  unfold curveAddW, AddC. destruct (_ && _); [apply sim_simr, sim_ret|]. destruct (_ && _); [apply sim_simr, sim_ret|]. cbv zeta. from. from.
  apply simr_seq; [apply sim_zeros|intros _]. apply simr_seq; [ex|intros _]. apply simr_seq; [apply sim_addJ|intros _]. apply simr_ret, simr_aff; unfold locals, frame; cbn [idx]; lia.
Qed.
Lemma simr_Double one sp x1 y1 : simr (curveDoubleW one sp x1 y1) (DoubleC one sp x1 y1).
Proof.
  unfold curveDoubleW, DoubleC. destruct (_ =? _); [apply sim_simr, sim_ret|]. cbv zeta. from.
  apply simr_seq; [apply sim_zeros|intros _]. apply simr_seq; [ex|intros _]. apply simr_seq; [apply sim_dbl|intros _]. apply simr_ret, simr_aff; unfold locals, frame; cbn [idx]; lia.
Qed.
Lemma sim_addP one sp x y yn z pos neg : sim (addPW one sp x y yn z pos neg) (addPC one sp x y yn z pos neg).
Proof. unfold addPW, addPC. cbv zeta. destruct (_ =? _); [apply sim_addJ|]. destruct (_ =? _); [apply sim_addJ|apply sim_ret]. Qed.
Lemma sim_bits one sp ps n : forall p1 n1 p2 n2, sim (smBitsW one sp ps n p1 n1 p2 n2) (smBitsC one sp ps n p1 n1 p2 n2).
Proof.
  induction n as [|n IH]; intros p1 n1 p2 n2; [apply sim_ret|]. cbn [smBitsW smBitsC]. cbv zeta.
  apply sim_seq; [apply sim_dbl|intros _]. apply sim_seq; [apply sim_addP|intros _]. apply sim_seq; [apply sim_addP|intros _]. apply IH.
Qed.
Lemma sim_loop one sp ps : forall p1 n1 p2 n2, sim (smLoopW one sp ps p1 n1 p2 n2) (smLoopC one sp ps p1 n1 p2 n2).
Proof.
  induction p1 as [|a p1 IH]; intros n1 p2 n2; [apply sim_ret|]. cbn [smLoopW smLoopC].
  destruct n1 as [|b n1]; [apply sim_ret|]. destruct p2 as [|c p2]; [apply sim_ret|]. destruct n2 as [|d n2]; [apply sim_ret|].
  apply sim_seq; [apply sim_bits|intros _]. apply IH.
Qed.
Lemma simr_Mult one beta sp Bx By k : simr (ScalarMultW one beta sp Bx By k) (ScalarMultC one beta sp Bx By k).
Proof.
  unfold ScalarMultW, ScalarMultC. cbv zeta. apply simr_seq; [apply sim_zeros|intros _]. destruct (splitK (moduloReduce k)) as [[[k1 k2] g1] g2].
  from. apply simr_seq; [ex|intros _]. apply simr_seq; [ex|intros _]. apply simr_seq; [ex|intros _].
  destruct (if g1 =? -1 then _ else _) as [y1 yn1]. destruct (if g2 =? -1 then _ else _) as [y2 yn2]. destruct (NAF k1) as [a1 b1]. destruct (NAF k2) as [a2 b2].
  apply simr_seq; [apply sim_loop|intros _]. apply simr_ret, simr_aff; unfold locals, frame; cbn [idx]; lia.
Qed.
Lemma sim_sbm one sp tab : forall k i, sim (sbmLoopW one sp tab i k) (sbmLoopC one sp tab i k).
Proof.
  induction k as [|b k IH]; intros i; [apply sim_ret|]. cbn [sbmLoopW sbmLoopC]. cbv zeta. destruct (_ && _); [|apply sim_ret].
  apply sim_seq; [apply sim_load|intros v]. apply sim_seq; [apply sim_load|intros w]. apply sim_seq; [apply sim_load|intros x].
  apply sim_seq; [apply sim_put|intros _]. apply sim_seq; [apply sim_put|intros _]. apply sim_seq; [apply sim_put|intros _].
  apply sim_seq; [apply sim_addJ|intros _]. apply IH.
Qed.
Lemma simr_Table one sp tab k : simr (scalarTableMultW one sp tab k) (scalarTableMultC one sp tab k).
Proof.
  unfold scalarTableMultW, scalarTableMultC. cbv zeta. apply simr_seq; [apply sim_zeros|intros _]. apply simr_seq; [apply sim_sbm|intros b]. destruct b; cbn [negb].
  - apply simr_ret, simr_aff; unfold locals, frame; cbn [idx]; lia.
  - apply sim_simr, sim_ret.
Qed.
Lemma run_OnCurve sp x y m : fst (runW (IsOnCurveW sp x y) m) = IsOnCurve x y.
Proof.
  unfold IsOnCurveW, IsOnCurve, bigAffineToField. cbv zeta. destruct (sim_from (locals sp fx1) (locals sp fy1) x y) as [E M]. rewrite runW_seq, (E m). specialize (M m).
  unfold fromAffineC in *. destruct (fSetByteSlice (bigBytes x)) as [vx|]; cbn [bind]; [|reflexivity]. destruct (fSetByteSlice (bigBytes y)) as [vy|]; cbn [bind]; [|reflexivity].
  cbn [run seqC wr fst snd negb] in *. specialize (M eq_refl). set (m1 := snd (runW (fromAffineW _ _ x y) m)) in *. clearbody m1.
  rewrite runW_seq.
  set (p1 := [SquareVal rA fy1; Normalize rA; SquareVal rB fx1; Mul rB fx1]). destruct (sim_exec (sp + frame) (locals sp) p1 eq_refl m1) as [_ M1].
  set (m2 := snd (runW (execW (sp + frame) (locals sp) p1) m1)) in *. rewrite run_exec in M1. cbn [snd] in M1. clearbody m2.
  rewrite runW_seq. pose proof (addInt_ok (locals sp rB) 7 m2) as M2. set (m3 := snd (runW (AddIntW (locals sp rB) 7) m2)) in *. clearbody m3.
  rewrite runW_seq. destruct (sim_exec (sp + frame) (locals sp) [Normalize rB] eq_refl m3) as [_ M3].
  set (m4 := snd (runW (execW (sp + frame) (locals sp) [Normalize rB]) m3)) in *. rewrite run_exec in M3. cbn [snd] in M3. clearbody m4.
  rewrite runW_seq, equals_ok. cbn [runW fst snd]. f_equal. unfold p1, exec in *. cbn [fold_left step] in *.
  assert (A : locals sp rA <> locals sp rB /\ locals sp rA <> locals sp fx1 /\ locals sp rB <> locals sp fx1 /\ locals sp rA <> locals sp fy1 /\ locals sp fx1 <> locals sp fy1).
  { unfold locals. cbn [idx]. lia. }
  destruct A as (A1 & A2 & A3 & A4 & A5).
  repeat (rewrite ?M3, ?M2, ?M1, ?M; repeat first [rewrite upd_at|rewrite upd_off by congruence]). reflexivity.
Qed.
