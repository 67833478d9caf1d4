(** * In-place arithmetic on aliased pointers computes the functions of Koblitz.v *)
From Coq Require Import ZArith List Bool Lia.
From Verif Require Import Go Wire Big Field Koblitz KoblitzMem.
Import ListNotations.
Open Scope Z_scope.

Lemma idx_inj r d : idx r = idx d -> r = d.
Proof. destruct r; cbn [idx]; destruct d; cbn [idx]; intros E; first [reflexivity|discriminate E]. Qed.
Definition reg_beq (r d : reg) : bool := idx r =? idx d.
Lemma beq_eq r d : reg_beq r d = true -> r = d. Proof. intros E. apply idx_inj, Z.eqb_eq, E. Qed.
Lemma eq_beq r d : r = d -> reg_beq r d = true. Proof. intros ->. apply Z.eqb_refl. Qed.
Lemma idx_range r : 0 <= idx r < frame. Proof. destruct r; cbn [idx frame]; unfold frame; lia. Qed.

Lemma upd_eq m p v : upd m p v p = v. Proof. unfold upd. rewrite Z.eqb_refl. reflexivity. Qed.
Lemma upd_ne m p v q : q <> p -> upd m p v q = m q. Proof. intros H. unfold upd. destruct (Z.eqb_spec q p); [contradiction|reflexivity]. Qed.

(** ** Values instead of pointers: every register is its own variable *)
Definition rupd (f : reg -> fieldVal) (d : reg) (v : fieldVal) : reg -> fieldVal := fun r => if reg_beq r d then v else f r.
Definition dst (i : ins) : reg :=
  match i with Set_ d _ | SetInt d _ | Normalize d | Negate d _ | NegateVal d _ _ | Add_ d _ | Add2 d _ _ | MulInt d _
             | Mul d _ | Mul2 d _ _ | Square d | SquareVal d _ | Inverse d => d end.
Definition srcs (i : ins) : list reg :=
  match i with
  | Set_ _ s | NegateVal _ s _ | SquareVal _ s => [s]
  | SetInt _ _ => []
  | Normalize d | Negate d _ | MulInt d _ | Square d | Inverse d => [d]
  | Add_ d s | Mul d s => [d; s]
  | Add2 _ s t | Mul2 _ s t => [s; t]
  end.
Definition op (i : ins) (g : reg -> fieldVal) : fieldVal :=
  match i with
  | Set_ d s => g s
  | SetInt d n => fSetInt n
  | Normalize d => fNormalize (g d)
  | Negate d k => fNegate (g d) k
  | NegateVal d s k => fNegate (g s) k
  | Add_ d s => fAdd (g d) (g s)
  | Add2 d s t => fAdd (g s) (g t)
  | MulInt d n => fMulInt (g d) n
  | Mul d s => fMul (g d) (g s)
  | Mul2 d s t => fMul (g s) (g t)
  | Square d => fSquare (g d)
  | SquareVal d s => fSquare (g s)
  | Inverse d => fInverse (g d)
  end.
Fixpoint pexec (l : list ins) (f : reg -> fieldVal) : reg -> fieldVal :=
  match l with [] => f | i :: t => pexec t (rupd f (dst i) (op i f)) end.
Lemma step_op e i m : step e i m = upd m (e (dst i)) (op i (fun r => m (e r))).
Proof. destruct i; cbn [step op dst]; exact eq_refl. Qed.
Lemma op_ext i f g : (forall r, In r (srcs i) -> f r = g r) -> op i f = op i g.
Proof. intros H. destruct i; cbn [op]; repeat (rewrite H by (cbn [srcs In]; auto)); reflexivity. Qed.

(** ** The check: no register is read after a write through a pointer that may be its own *)
Section check.
Context (may : reg -> reg -> bool).
Definition mem_reg (r : reg) (V : list reg) : bool := existsb (reg_beq r) V.
Fixpoint check (l : list ins) (V : list reg) : option (list reg) :=
  match l with
  | [] => Some V
  | i :: t =>
      if forallb (fun s => mem_reg s V) (srcs i)
      then check t (dst i :: filter (fun r => negb (may r (dst i))) V)
      else None
  end.
Lemma mem_reg_in r V : mem_reg r V = true <-> In r V.
Proof.
  unfold mem_reg. rewrite existsb_exists. split.
  - intros (x & I & E). apply beq_eq in E. subst. exact I.
  - intros I. exists r. split; [exact I|apply eq_beq; reflexivity].
Qed.
Lemma check_ok e l : (forall r d, r <> d -> may r d = false -> e r <> e d) ->
  forall V V' m f, check l V = Some V' -> (forall r, In r V -> m (e r) = f r) ->
  forall r, In r V' -> exec e l m (e r) = pexec l f r.
Proof.
  intros S. induction l as [|i t IH]; intros V V' m f C A r I.
  - cbn in C. injection C as <-. cbn. apply A, I.
  - cbn [check] in C. destruct (forallb _ _) eqn:F; [|discriminate C]. cbn [exec fold_left pexec]. change (fold_left _ t ?x) with (exec e t x).
    apply (IH _ _ _ _ C); [|exact I]. intros q [<-|Iq].
    + rewrite step_op, upd_eq. unfold rupd. rewrite eq_beq by reflexivity. apply op_ext.
      intros s Is. apply A. rewrite forallb_forall in F. apply mem_reg_in. apply F, Is.
    + apply filter_In in Iq. destruct Iq as [Iq M]. unfold rupd. destruct (reg_beq q (dst i)) eqn:Q.
      * apply beq_eq in Q. subst q. rewrite step_op, upd_eq. apply op_ext.
        intros s Is. apply A. rewrite forallb_forall in F. apply mem_reg_in. apply F, Is.
      * rewrite step_op, upd_ne; [apply A, Iq|]. apply S.
        -- intros E. subst q. rewrite eq_beq in Q by reflexivity. discriminate Q.
        -- apply negb_true_iff. exact M.
Qed.
End check.
Lemma exec_frame e l q : forall m, (forall i, In i l -> q <> e (dst i)) -> exec e l m q = m q.
Proof.
  induction l as [|i t IH]; intros m H; [reflexivity|]. cbn [exec fold_left]. change (fold_left _ t ?x) with (exec e t x).
  rewrite IH by (intros j J; apply H; right; exact J). rewrite step_op. apply upd_ne. apply H. left. reflexivity.
Qed.

(** ** Which pointers may be equal *)
Definition apart (l l' : list ptr) : Prop := forall p q, In p l -> In q l' -> p <> q.
Definition may (r d : reg) : bool :=
  match r, d with
  | X3, X1 | X1, X3 | X3, X2 | X2, X3 | Y3, Y1 | Y1, Y3 | Y3, Y2 | Y2, Y3 | Z3, Z1 | Z1, Z3 | Z3, Z2 | Z2, Z3 => true
  | _, _ => false
  end.
(** the same when the output does not overlap the second point *)
Definition may1 (r d : reg) : bool :=
  match r, d with
  | X3, X1 | X1, X3 | Y3, Y1 | Y1, Y3 | Z3, Z1 | Z1, Z3 => true
  | _, _ => false
  end.
Definition sep (e : reg -> ptr) (mm : reg -> reg -> bool) : Prop := forall r d, r <> d -> mm r d = false -> e r <> e d.

(** to separate all registers it is enough to separate the pointer arguments *)
Lemma sep_env sp a mm : (forall r p, a r = Some p -> p < sp) ->
  (forall r d p, r <> d -> mm r d = false -> a r = Some p -> a d = Some p -> False) -> sep (env sp a) mm.
Proof.
  intros L D r d H M. unfold env. pose proof (idx_range r). pose proof (idx_range d).
  destruct (a r) as [p|] eqn:R; destruct (a d) as [q|] eqn:Q.
  - intros E. subst q. exact (D r d p H M R Q).
  - pose proof (L _ _ R). lia.
  - pose proof (L _ _ Q). lia.
  - intros E. apply H, idx_inj. lia.
Qed.

Ltac in_list := cbn [In]; tauto.
(** from E : a = p and E' : b = p with a and b in two lists that are apart *)
Ltac clash H E E' := first [ refine (H _ _ _ _ (eq_trans E (eq_sym E'))); in_list | refine (H _ _ _ _ (eq_trans E' (eq_sym E))); in_list ].

Definition after (mm : reg -> reg -> bool) (l : list ins) (V : list reg) : list reg := match check mm l V with Some V' => V' | None => [] end.
Lemma run mm e l V m : sep e mm -> (if check mm l V then true else false) = true ->
  forall r, mem_reg r (after mm l V) = true -> exec e l m (e r) = pexec l (fun r => m (e r)) r.
Proof.
  intros S C r I. unfold after in I. apply mem_reg_in in I. destruct (check mm l V) as [V'|] eqn:E; [|discriminate C].
  apply (check_ok mm e l S V V' m _ E); [reflexivity|exact I].
Qed.
Lemma run2 mm e l1 l2 V m : sep e mm -> (if check mm (l1 ++ l2) V then true else false) = true ->
  forall r, mem_reg r (after mm (l1 ++ l2) V) = true -> exec e l2 (exec e l1 m) (e r) = pexec (l1 ++ l2) (fun r => m (e r)) r.
Proof. intros S C r I. rewrite <- (run mm e (l1 ++ l2) V m S C r I). unfold exec. rewrite fold_left_app. reflexivity. Qed.
(** evaluate a straight-line program on values *)
Ltac peval := cbv [pexec app rupd reg_beq idx dst op Z.eqb Pos.eqb infProg dbl1Prog dblProg normProg addOneProg addEqProg likeProg addZ2Prog likeProg2 addProg affineProg
  doubleZ1EqualsOne doubleGeneric jInf]; exact eq_refl.
Ltac in_run := vm_compute; exact eq_refl.

(** memory that is neither in the frame nor written through an argument *)
Definition isArg (r : reg) : bool := idx r <? 9.
Lemma frame_env sp a l W q m : q < sp -> (forall r, isArg r = false -> a r = None) ->
  forallb (fun i => negb (isArg (dst i)) || mem_reg (dst i) W) l = true -> (forall r, In r W -> env sp a r <> q) ->
  exec (env sp a) l m q = m q.
Proof.
  intros Q A F H. apply exec_frame. intros i I. rewrite forallb_forall in F. specialize (F i I).
  apply orb_true_iff in F. destruct F as [F|F].
  - apply negb_true_iff in F. unfold env. rewrite (A _ F). pose proof (idx_range (dst i)). lia.
  - apply mem_reg_in in F. intros E. exact (H _ F (eq_sym E)).
Qed.
Lemma args6_none x1 y1 z1 x3 y3 z3 r : isArg r = false -> args6 x1 y1 z1 x3 y3 z3 r = None. Proof. destruct r; (reflexivity || discriminate). Qed.
Lemma args8_none x1 y1 z1 x2 y2 x3 y3 z3 r : isArg r = false -> args8 x1 y1 z1 x2 y2 x3 y3 z3 r = None. Proof. destruct r; (reflexivity || discriminate). Qed.
Lemma args9_none x1 y1 z1 x2 y2 z2 x3 y3 z3 r : isArg r = false -> args9 x1 y1 z1 x2 y2 z2 x3 y3 z3 r = None. Proof. destruct r; (reflexivity || discriminate). Qed.
(** [H : ~ In q ptrs] rules out the listed registers *)
Ltac not_in H := let E := fresh in cbn [In]; intros ? E; repeat (destruct E as [<-|E]; [let K := fresh in intros K; apply H; rewrite <- K; cbn; tauto|]); destruct E.

Section dbl.
Context (one sp x1 y1 z1 x3 y3 z3 : ptr) (m : mem).
Hypothesis (L : forall p, In p [one; x1; y1; z1; x3; y3; z3] -> p < sp) (O1 : apart [one] [z1]) (One : m one = fieldOne).
Hypothesis (XY : apart [x1; x3] [y1; y3]) (XZ : apart [x1; x3] [z1; z3]) (YZ : apart [y1; y3] [z1; z3]).
Let e := env sp (args6 x1 y1 z1 x3 y3 z3).
Lemma dbl_sep : sep e may1.
Proof.
  apply sep_env.
  - intros r p E. apply L. destruct r; try discriminate E; injection E as <-; in_list.
  - intros r d p H M E E'. 
    destruct r; try discriminate E; destruct d; try discriminate E'; try (exact (H eq_refl)); try discriminate M;
      injection E as E; injection E' as E'; first [clash XY E E' | clash XZ E E' | clash YZ E E'].
Qed.
Lemma dblM_ok : let m' := doubleJacobianM one sp x1 y1 z1 x3 y3 z3 m in
  (m' x3, m' y3, m' z3) = doubleJacobian (m x1, m y1, m z1).
Proof.
  cbv zeta. unfold doubleJacobianM, doubleJacobian. fold e. change x1 with (e X1). change y1 with (e Y1). change z1 with (e Z1).
  change x3 with (e X3). change y3 with (e Y3). change z3 with (e Z3).
  destruct (fIsZero (m (e Y1)) || fIsZero (m (e Z1))).
  - rewrite !(run may1 e infProg [] m dbl_sep eq_refl) by in_run. exact eq_refl.
  - rewrite (run may1 e [Normalize Z1] [Z1] m dbl_sep eq_refl Z1) by in_run.
    rewrite (exec_frame e [Normalize Z1] one) by (intros i [<-|[]]; apply O1; in_list).
    rewrite One. change (pexec [Normalize Z1] (fun r => m (e r)) Z1) with (fNormalize (m (e Z1))). destruct (fEquals _ _).
    + rewrite !(run2 may1 e [Normalize Z1] dbl1Prog [X1; Y1; Z1] m dbl_sep eq_refl) by in_run. peval.
    + rewrite !(run2 may1 e [Normalize Z1] dblProg [X1; Y1; Z1] m dbl_sep eq_refl) by in_run. peval.
Qed.
Lemma dblM_frame q : q < sp -> ~ In q [z1; x3; y3; z3] -> doubleJacobianM one sp x1 y1 z1 x3 y3 z3 m q = m q.
Proof.
  intros Q H. unfold doubleJacobianM. pose proof (args6_none x1 y1 z1 x3 y3 z3) as A.
  destruct (_ || _); [|destruct (fEquals _ _)];
  repeat rewrite (frame_env sp (args6 x1 y1 z1 x3 y3 z3) _ [Z1; X3; Y3; Z3] q _ Q A) by (exact eq_refl || not_in H); reflexivity.
Qed.
End dbl.

Section add8.
Context (one sp x1 y1 z1 x2 y2 x3 y3 z3 : ptr) (m : mem).
Hypothesis (L : forall p, In p [one; x1; y1; z1; x2; y2; x3; y3; z3] -> p < sp).
Hypothesis (O1 : apart [one] [x1; y1; z1; x2; y2; x3; y3; z3]) (One : m one = fieldOne).
Hypothesis (XY : apart [x1; x2; x3] [y1; y2; y3]) (XZ : apart [x1; x2; x3] [z1; z3]) (YZ : apart [y1; y2; y3] [z1; z3]).
Hypothesis (X12 : apart [x1] [x2]) (Y12 : apart [y1] [y2]).
Let e := env sp (args8 x1 y1 z1 x2 y2 x3 y3 z3).
Lemma add8_sep : sep e may.
Proof.
  apply sep_env.
  - intros r p E. apply L. destruct r; try discriminate E; injection E as <-; in_list.
  - intros r d p H M E E'. 
    destruct r; try discriminate E; destruct d; try discriminate E'; try (exact (H eq_refl)); try discriminate M;
      injection E as E; injection E' as E'; first [clash XY E E' | clash XZ E E' | clash YZ E E' | clash X12 E E' | clash Y12 E E'].
Qed.
Lemma add8_sep1 : apart [x3] [x2] -> apart [y3] [y2] -> sep e may1.
Proof.
  intros X32 Y32. apply sep_env.
  - intros r p E. apply L. destruct r; try discriminate E; injection E as <-; in_list.
  - intros r d p H M E E'. 
    destruct r; try discriminate E; destruct d; try discriminate E'; try (exact (H eq_refl)); try discriminate M;
      injection E as E; injection E' as E'; first [clash XY E E' | clash XZ E E' | clash YZ E E' | clash X12 E E' | clash Y12 E E' | clash X32 E E' | clash Y32 E E'].
Qed.
(** the doubling inside the additions *)
Lemma dbl_in m1 : m1 one = fieldOne -> let m' := doubleJacobianM one (sp + frame) x1 y1 z1 x3 y3 z3 m1 in
  (m' x3, m' y3, m' z3) = doubleJacobian (m1 x1, m1 y1, m1 z1).
Proof.
  intros E. apply dblM_ok; [|intros p q P Q; apply O1; cbn [In] in *; tauto|exact E| | |];
    [|intros p q P Q; apply XY; cbn [In] in *; tauto|intros p q P Q; apply XZ; cbn [In] in *; tauto|intros p q P Q; apply YZ; cbn [In] in *; tauto].
  intros p P. assert (p < sp) by (apply L; cbn [In] in *; tauto). unfold frame. lia.
Qed.
Lemma add8_low q : In q [one; x1; y1; z1; x2; y2; x3; y3; z3] -> q < sp + frame.
Proof. intros P. pose proof (L q P). unfold frame. lia. Qed.

Ltac names := change x1 with (e X1); change y1 with (e Y1); change z1 with (e Z1); change x2 with (e X2); change y2 with (e Y2);
  change x3 with (e X3); change y3 with (e Y3); change z3 with (e Z3).
Lemma pre_one pre : forallb (fun i => negb (isArg (dst i)) || mem_reg (dst i) [X1; Y1; X2; Y2]) pre = true -> exec e pre m one = fieldOne.
Proof.
  intros F. unfold e. rewrite (frame_env sp (args8 x1 y1 z1 x2 y2 x3 y3 z3) pre [X1; Y1; X2; Y2] one m); [exact One|apply L; in_list|apply args8_none|exact F|].
  intros r I K. symmetry in K. revert K. apply O1; [in_list|]. repeat (destruct I as [<-|I]; [cbn; tauto|]). destruct I.
Qed.
Ltac dbl_names D := cbv zeta in D; change x1 with (e X1) in D; change y1 with (e Y1) in D; change z1 with (e Z1) in D;
  change x3 with (e X3) in D; change y3 with (e Y3) in D; change z3 with (e Z3) in D.
Let V8 := [X1; Y1; Z1; X2; Y2].
(** the values that the tests see *)
Lemma norm_vals : let m1 := exec e normProg m in m1 (e X1) = fNormalize (m (e X1)) /\ m1 (e Y1) = fNormalize (m (e Y1)) /\ m1 (e Z1) = m (e Z1) /\
  m1 (e X2) = fNormalize (m (e X2)) /\ m1 (e Y2) = fNormalize (m (e Y2)).
Proof. cbv zeta. rewrite !(run may e normProg V8 m add8_sep eq_refl) by in_run. repeat split; peval. Qed.
Lemma like_vals : let m1 := exec e likeProg m in m1 (e X1) = fNormalize (m (e X1)) /\ m1 (e Y1) = fNormalize (m (e Y1)) /\ m1 (e Z1) = m (e Z1) /\
  m1 (e u2) = fNormalize (fMul (m (e X2)) (fSquare (m (e Z1)))) /\
  m1 (e s2) = fNormalize (fMul (fMul (m (e Y2)) (fSquare (m (e Z1)))) (m (e Z1))).
Proof. cbv zeta. rewrite !(run may e likeProg V8 m add8_sep eq_refl) by in_run. repeat split; peval. Qed.
Lemma addOneM_ok : let m' := addZ1AndZ2EqualsOneM one sp x1 y1 z1 x2 y2 x3 y3 z3 m in
  (m' x3, m' y3, m' z3) = addZ1AndZ2EqualsOne (m x1) (m y1) (m z1) (m x2) (m y2).
Proof.
  cbv zeta. unfold addZ1AndZ2EqualsOneM, addZ1AndZ2EqualsOne. fold e. pose proof (dbl_in _ (pre_one normProg eq_refl)) as D. dbl_names D. names.
  destruct norm_vals as (E1 & E2 & E3 & E4 & E5). cbv zeta in *. rewrite ?E1, ?E2, ?E3 in D. rewrite E1, E2, E4, E5. clear E1 E2 E3 E4 E5.
  destruct (fEquals (fNormalize (m (e X1))) _); [destruct (fEquals (fNormalize (m (e Y1))) _)|].
  - exact D.
  - rewrite !(run2 may e normProg infProg V8 m add8_sep eq_refl) by in_run. peval.
  - rewrite !(run2 may e normProg addOneProg V8 m add8_sep eq_refl) by in_run. peval.
Qed.
Lemma addEqM_ok : let m' := addZ1EqualsZ2M one sp x1 y1 z1 x2 y2 x3 y3 z3 m in
  (m' x3, m' y3, m' z3) = addZ1EqualsZ2 (m x1) (m y1) (m z1) (m x2) (m y2).
Proof.
  cbv zeta. unfold addZ1EqualsZ2M, addZ1EqualsZ2. fold e. pose proof (dbl_in _ (pre_one normProg eq_refl)) as D. dbl_names D. names.
  destruct norm_vals as (E1 & E2 & E3 & E4 & E5). cbv zeta in *. rewrite ?E1, ?E2, ?E3 in D. rewrite E1, E2, E4, E5. clear E1 E2 E3 E4 E5.
  destruct (fEquals (fNormalize (m (e X1))) _); [destruct (fEquals (fNormalize (m (e Y1))) _)|].
  - exact D.
  - rewrite !(run2 may e normProg infProg V8 m add8_sep eq_refl) by in_run. peval.
  - rewrite !(run2 may e normProg addEqProg V8 m add8_sep eq_refl) by in_run. peval.
Qed.
Lemma addZ2M_ok : let m' := addZ2EqualsOneM one sp x1 y1 z1 x2 y2 x3 y3 z3 m in
  (m' x3, m' y3, m' z3) = addZ2EqualsOne (m x1) (m y1) (m z1) (m x2) (m y2).
Proof.
  cbv zeta. unfold addZ2EqualsOneM, addZ2EqualsOne. fold e. pose proof (dbl_in _ (pre_one likeProg eq_refl)) as D. dbl_names D. names.
  destruct like_vals as (E1 & E2 & E3 & E4 & E5). cbv zeta in *. rewrite ?E1, ?E2, ?E3 in D. rewrite E1, E2, E4, E5. clear E1 E2 E3 E4 E5.
  destruct (fEquals (fNormalize (m (e X1))) _); [destruct (fEquals (fNormalize (m (e Y1))) _)|].
  - exact D.
  - rewrite !(run2 may e likeProg infProg V8 m add8_sep eq_refl) by in_run. peval.
  - rewrite !(run2 may e likeProg addZ2Prog V8 m add8_sep eq_refl) by in_run. peval.
Qed.

(** the second point after the call *)
Lemma dbl_keeps q m1 : In q [x2; y2] -> apart [x3] [x2] -> apart [y3] [y2] -> doubleJacobianM one (sp + frame) x1 y1 z1 x3 y3 z3 m1 q = m1 q.
Proof.
  intros I X32 Y32. apply dblM_frame; [apply add8_low; cbn [In] in *; tauto|]. intros K.
  destruct I as [<-|[<-|[]]]; destruct K as [K|[K|[K|[K|[]]]]]; symmetry in K; revert K;
  first [apply X12; in_list|apply Y12; in_list|apply XZ; in_list|apply YZ; in_list|intros K; symmetry in K; revert K; first [apply X32; in_list|apply Y32; in_list|apply XY; in_list]|apply XY; in_list].
Qed.
Lemma addOneM_second : apart [x3] [x2] -> apart [y3] [y2] -> let m' := addZ1AndZ2EqualsOneM one sp x1 y1 z1 x2 y2 x3 y3 z3 m in
  m' x2 = fNormalize (m x2) /\ m' y2 = fNormalize (m y2).
Proof.
  intros X32 Y32. cbv zeta. unfold addZ1AndZ2EqualsOneM. fold e. pose proof (add8_sep1 X32 Y32) as S1.
  destruct (fEquals _ _); [destruct (fEquals _ _)|].
  - rewrite !dbl_keeps by (assumption || in_list). apply norm_vals.
  - names. rewrite !(run2 may1 e normProg infProg V8 m S1 eq_refl) by in_run. split; peval.
  - names. rewrite !(run2 may1 e normProg addOneProg V8 m S1 eq_refl) by in_run. split; peval.
Qed.
Lemma addEqM_second : apart [x3] [x2] -> apart [y3] [y2] -> let m' := addZ1EqualsZ2M one sp x1 y1 z1 x2 y2 x3 y3 z3 m in
  m' x2 = fNormalize (m x2) /\ m' y2 = fNormalize (m y2).
Proof.
  intros X32 Y32. cbv zeta. unfold addZ1EqualsZ2M. fold e. pose proof (add8_sep1 X32 Y32) as S1.
  destruct (fEquals _ _); [destruct (fEquals _ _)|].
  - rewrite !dbl_keeps by (assumption || in_list). apply norm_vals.
  - names. rewrite !(run2 may1 e normProg infProg V8 m S1 eq_refl) by in_run. split; peval.
  - names. rewrite !(run2 may1 e normProg addEqProg V8 m S1 eq_refl) by in_run. split; peval.
Qed.
Lemma addZ2M_second : apart [x3] [x2] -> apart [y3] [y2] -> let m' := addZ2EqualsOneM one sp x1 y1 z1 x2 y2 x3 y3 z3 m in
  m' x2 = m x2 /\ m' y2 = m y2.
Proof.
  intros X32 Y32. cbv zeta. unfold addZ2EqualsOneM. fold e. pose proof (add8_sep1 X32 Y32) as S1.
  destruct (fEquals _ _); [destruct (fEquals _ _)|].
  - rewrite !dbl_keeps by (assumption || in_list). names. rewrite !(run may1 e likeProg V8 m S1 eq_refl) by in_run. split; peval.
  - names. rewrite !(run2 may1 e likeProg infProg V8 m S1 eq_refl) by in_run. split; peval.
  - names. rewrite !(run2 may1 e likeProg addZ2Prog V8 m S1 eq_refl) by in_run. split; peval.
Qed.
(** everything else *)
Lemma dbl_frame8 q m1 : q < sp -> ~ In q [x1; y1; z1; x2; y2; x3; y3; z3] -> doubleJacobianM one (sp + frame) x1 y1 z1 x3 y3 z3 m1 q = m1 q.
Proof. intros Q H. apply dblM_frame; [unfold frame; lia|]. intros K. apply H. cbn [In] in *. tauto. Qed.
Lemma add8_frame q : q < sp -> ~ In q [x1; y1; z1; x2; y2; x3; y3; z3] ->
  addZ1AndZ2EqualsOneM one sp x1 y1 z1 x2 y2 x3 y3 z3 m q = m q /\ addZ1EqualsZ2M one sp x1 y1 z1 x2 y2 x3 y3 z3 m q = m q /\
  addZ2EqualsOneM one sp x1 y1 z1 x2 y2 x3 y3 z3 m q = m q.
Proof.
  intros Q H. pose proof (args8_none x1 y1 z1 x2 y2 x3 y3 z3) as A.
  assert (Fr : forall l m1, forallb (fun i => negb (isArg (dst i)) || mem_reg (dst i) [X1; Y1; Z1; X2; Y2; X3; Y3; Z3]) l = true -> exec e l m1 q = m1 q).
  { intros l m1 F. apply (frame_env sp _ l [X1; Y1; Z1; X2; Y2; X3; Y3; Z3] q m1 Q A F). not_in H. }
  unfold addZ1AndZ2EqualsOneM, addZ1EqualsZ2M, addZ2EqualsOneM. fold e.
  split; [|split]; (destruct (fEquals _ _); [destruct (fEquals _ _)|]); rewrite ?dbl_frame8 by assumption; rewrite !Fr by exact eq_refl; reflexivity.
Qed.
End add8.

Section add9.
Context (one sp x1 y1 z1 x2 y2 z2 x3 y3 z3 : ptr) (m : mem).
Hypothesis (L : forall p, In p [one; x1; y1; z1; x2; y2; z2; x3; y3; z3] -> p < sp).
Hypothesis (O1 : apart [one] [x1; y1; z1; x2; y2; z2; x3; y3; z3]) (One : m one = fieldOne).
Hypothesis (XY : apart [x1; x2; x3] [y1; y2; y3]) (XZ : apart [x1; x2; x3] [z1; z2; z3]) (YZ : apart [y1; y2; y3] [z1; z2; z3]).
Hypothesis (X12 : apart [x1] [x2]) (Y12 : apart [y1] [y2]).
Let e := env sp (args9 x1 y1 z1 x2 y2 z2 x3 y3 z3).
Let V9 := [X1; Y1; Z1; X2; Y2; Z2].
Ltac names9 := change x1 with (e X1); change y1 with (e Y1); change z1 with (e Z1); change x2 with (e X2); change y2 with (e Y2); change z2 with (e Z2);
  change x3 with (e X3); change y3 with (e Y3); change z3 with (e Z3).
Lemma low9 q : In q [one; x1; y1; z1; x2; y2; z2; x3; y3; z3] -> q < sp + frame.
Proof. intros P. pose proof (L q P). unfold frame. lia. Qed.
Lemma add9_sep : apart [z1] [z2] -> sep e may.
Proof.
  intros Z12. apply sep_env.
  - intros r p E. apply L. destruct r; try discriminate E; injection E as <-; in_list.
  - intros r d p H M E E'. 
    destruct r; try discriminate E; destruct d; try discriminate E'; try (exact (H eq_refl)); try discriminate M;
      injection E as E; injection E' as E'; first [clash XY E E' | clash XZ E E' | clash YZ E E' | clash X12 E E' | clash Y12 E E' | clash Z12 E E'].
Qed.
Lemma add9_sep1 : apart [z1] [z2] -> apart [x3] [x2] -> apart [y3] [y2] -> apart [z3] [z2] -> sep e may1.
Proof.
  intros Z12 X32 Y32 Z32. apply sep_env.
  - intros r p E. apply L. destruct r; try discriminate E; injection E as <-; in_list.
  - intros r d p H M E E'. 
    destruct r; try discriminate E; destruct d; try discriminate E'; try (exact (H eq_refl)); try discriminate M;
      injection E as E; injection E' as E'; first [clash XY E E' | clash XZ E E' | clash YZ E E' | clash X12 E E' | clash Y12 E E' | clash Z12 E E' | clash X32 E E' | clash Y32 E E' | clash Z32 E E'].
Qed.
Lemma dbl_in9 m1 : m1 one = fieldOne -> let m' := doubleJacobianM one (sp + frame) x1 y1 z1 x3 y3 z3 m1 in
  (m' x3, m' y3, m' z3) = doubleJacobian (m1 x1, m1 y1, m1 z1).
Proof.
  intros E. apply dblM_ok; [|intros p q P Q; apply O1; cbn [In] in *; tauto|exact E| | |];
    [|intros p q P Q; apply XY; cbn [In] in *; tauto|intros p q P Q; apply XZ; cbn [In] in *; tauto|intros p q P Q; apply YZ; cbn [In] in *; tauto].
  intros p P. apply low9. cbn [In] in *. tauto.
Qed.
Lemma like2_one : exec e likeProg2 m one = fieldOne.
Proof.
  unfold e. rewrite (frame_env sp (args9 x1 y1 z1 x2 y2 z2 x3 y3 z3) likeProg2 [] one m); [exact One|apply L; in_list|apply args9_none|reflexivity|intros r []].
Qed.
Lemma genM_ok : apart [z1] [z2] -> let m' := addGenericM one sp x1 y1 z1 x2 y2 z2 x3 y3 z3 m in
  (m' x3, m' y3, m' z3) = addGeneric (m x1) (m y1) (m z1) (m x2) (m y2) (m z2).
Proof.
  intros Z12. pose proof (add9_sep Z12) as S. cbv zeta. unfold addGenericM, addGeneric. fold e. pose proof (dbl_in9 _ like2_one) as D. cbv zeta in D.
  assert (K : forall q, In q [x1; y1; z1] -> exec e likeProg2 m q = m q).
  { intros q I. apply (frame_env sp (args9 x1 y1 z1 x2 y2 z2 x3 y3 z3) likeProg2 []); [apply L; cbn [In] in *; tauto|apply args9_none|reflexivity|intros r []]. }
  rewrite !K in D by in_list. clear K. names9.
  rewrite !(run may e likeProg2 V9 m S eq_refl) by in_run.
  replace (pexec likeProg2 (fun r => m (e r)) u1) with (fNormalize (fMul (m (e X1)) (fSquare (m (e Z2))))) by peval.
  replace (pexec likeProg2 (fun r => m (e r)) u2) with (fNormalize (fMul (m (e X2)) (fSquare (m (e Z1))))) by peval.
  replace (pexec likeProg2 (fun r => m (e r)) s1) with (fNormalize (fMul (fMul (m (e Y1)) (fSquare (m (e Z2)))) (m (e Z2)))) by peval.
  replace (pexec likeProg2 (fun r => m (e r)) s2) with (fNormalize (fMul (fMul (m (e Y2)) (fSquare (m (e Z1)))) (m (e Z1)))) by peval.
  destruct (fEquals (fNormalize (fMul (m (e X1)) _)) _); [destruct (fEquals (fNormalize (fMul (fMul (m (e Y1)) _) _)) _)|].
  - exact D.
  - rewrite !(run2 may e likeProg2 infProg V9 m S eq_refl) by in_run. peval.
  - rewrite !(run2 may e likeProg2 addProg V9 m S eq_refl) by in_run. peval.
Qed.
Lemma frame9 l q m1 : q < sp -> ~ In q [x1; y1; z1; x2; y2; z2; x3; y3; z3] ->
  forallb (fun i => negb (isArg (dst i)) || mem_reg (dst i) [X1; Y1; Z1; X2; Y2; Z2; X3; Y3; Z3]) l = true -> exec e l m1 q = m1 q.
Proof.
  intros Q H F. apply (frame_env sp _ l [X1; Y1; Z1; X2; Y2; Z2; X3; Y3; Z3] q m1 Q (args9_none x1 y1 z1 x2 y2 z2 x3 y3 z3) F). not_in H.
Qed.
Lemma genM_frame q : q < sp -> ~ In q [x1; y1; z1; x2; y2; z2; x3; y3; z3] -> addGenericM one sp x1 y1 z1 x2 y2 z2 x3 y3 z3 m q = m q.
Proof.
  intros Q H. unfold addGenericM. fold e. (destruct (fEquals _ _); [destruct (fEquals _ _)|]).
  - rewrite dblM_frame; [apply frame9; (assumption || exact eq_refl)|unfold frame; lia|]. intros K. apply H. cbn [In] in *. tauto.
  - rewrite !frame9 by (assumption || exact eq_refl). reflexivity.
  - rewrite !frame9 by (assumption || exact eq_refl). reflexivity.
Qed.
Lemma genM_second : apart [z1] [z2] -> apart [x3] [x2] -> apart [y3] [y2] -> apart [z3] [z2] ->
  let m' := addGenericM one sp x1 y1 z1 x2 y2 z2 x3 y3 z3 m in m' x2 = m x2 /\ m' y2 = m y2 /\ m' z2 = m z2.
Proof.
  intros Z12 X32 Y32 Z32. pose proof (add9_sep1 Z12 X32 Y32 Z32) as S1. cbv zeta. unfold addGenericM. fold e. (destruct (fEquals _ _); [destruct (fEquals _ _)|]).
  - assert (K : forall q, In q [x2; y2; z2] -> ~ In q [z1; x3; y3; z3]).
    { intros q I K. destruct I as [<-|[<-|[<-|[]]]]; destruct K as [K|[K|[K|[K|[]]]]];
      first [exact (X32 _ _ ltac:(in_list) ltac:(in_list) K)|exact (Y32 _ _ ltac:(in_list) ltac:(in_list) K)|exact (Z32 _ _ ltac:(in_list) ltac:(in_list) K)
            |exact (Z12 _ _ ltac:(in_list) ltac:(in_list) K)|clash XY K (eq_refl x2)|clash XY K (eq_refl y2)|clash XZ K (eq_refl x2)|clash XZ K (eq_refl z2)|clash YZ K (eq_refl y2)|clash YZ K (eq_refl z2)]. }
    rewrite !dblM_frame by (first [apply low9; in_list | apply K; in_list]). names9. rewrite !(run may1 e likeProg2 V9 m S1 eq_refl) by in_run. repeat split; peval.
  - names9. rewrite !(run2 may1 e likeProg2 infProg V9 m S1 eq_refl) by in_run. repeat split; peval.
  - names9. rewrite !(run2 may1 e likeProg2 addProg V9 m S1 eq_refl) by in_run. repeat split; peval.
Qed.
End add9.

(** z1 and z2 may be one pointer *)
Definition mayz (r d : reg) : bool := match r, d with Z1, Z2 | Z2, Z1 => true | _, _ => may r d end.
Definition may1z (r d : reg) : bool := match r, d with Z1, Z2 | Z2, Z1 => true | _, _ => may1 r d end.
Section addJ.
Context (one sp x1 y1 z1 x2 y2 z2 x3 y3 z3 : ptr) (m : mem).
Hypothesis (L : forall p, In p [one; x1; y1; z1; x2; y2; z2; x3; y3; z3] -> p < sp).
Hypothesis (O1 : apart [one] [x1; y1; z1; x2; y2; z2; x3; y3; z3]) (One : m one = fieldOne).
Hypothesis (XY : apart [x1; x2; x3] [y1; y2; y3]) (XZ : apart [x1; x2; x3] [z1; z2; z3]) (YZ : apart [y1; y2; y3] [z1; z2; z3]).
Hypothesis (X12 : apart [x1] [x2]) (Y12 : apart [y1] [y2]).
Hypothesis (Z12 : z1 <> z2 \/ z1 = z2 /\ m z1 = fieldOne).
Let e := env sp (args9 x1 y1 z1 x2 y2 z2 x3 y3 z3).
Let V9 := [X1; Y1; Z1; X2; Y2; Z2].
Ltac names9 := change x1 with (e X1); change y1 with (e Y1); change z1 with (e Z1); change x2 with (e X2); change y2 with (e Y2); change z2 with (e Z2);
  change x3 with (e X3); change y3 with (e Y3); change z3 with (e Z3).
Lemma addJ_sep : sep e mayz.
Proof.
  apply sep_env.
  - intros r p E. apply L. destruct r; try discriminate E; injection E as <-; in_list.
  - intros r d p H M E E'. 
    destruct r; try discriminate E; destruct d; try discriminate E'; try (exact (H eq_refl)); try discriminate M;
      injection E as E; injection E' as E'; first [clash XY E E' | clash XZ E E' | clash YZ E E' | clash X12 E E' | clash Y12 E E'].
Qed.
Lemma addJ_sep1 : apart [x3] [x2] -> apart [y3] [y2] -> apart [z3] [z2] -> sep e may1z.
Proof.
  intros X32 Y32 Z32. apply sep_env.
  - intros r p E. apply L. destruct r; try discriminate E; injection E as <-; in_list.
  - intros r d p H M E E'. 
    destruct r; try discriminate E; destruct d; try discriminate E'; try (exact (H eq_refl)); try discriminate M;
      injection E as E; injection E' as E'; first [clash XY E E' | clash XZ E E' | clash YZ E E' | clash X12 E E' | clash Y12 E E' | clash X32 E E' | clash Y32 E E' | clash Z32 E E'].
Qed.
Let m1 := exec e [Normalize Z1; Normalize Z2] m.
Lemma norm_one : fNormalize fieldOne = fieldOne. Proof. vm_compute. exact eq_refl. Qed.
Lemma m1_eq q : m1 q = if (q =? z1) || (q =? z2) then fNormalize (m q) else m q.
Proof.
  subst m1. cbn [exec fold_left step]. change (e Z1) with z1. change (e Z2) with z2.
  destruct (Z.eqb_spec q z2) as [E|E].
  - rewrite orb_true_r. subst q. rewrite upd_eq. destruct (Z.eqb_spec z2 z1) as [F|F].
    + destruct Z12 as [N|[_ N]]; [symmetry in F; contradiction|]. rewrite F, upd_eq, N, norm_one. apply norm_one.
    + rewrite upd_ne by exact F. reflexivity.
  - rewrite upd_ne by exact E. rewrite orb_false_r. destruct (Z.eqb_spec q z1) as [F|F]; [subst q; apply upd_eq|apply upd_ne, F].
Qed.
Lemma m1_z1 : m1 z1 = fNormalize (m z1). Proof. rewrite m1_eq, Z.eqb_refl. reflexivity. Qed.
Lemma m1_z2 : m1 z2 = fNormalize (m z2). Proof. rewrite m1_eq, Z.eqb_refl, orb_true_r. reflexivity. Qed.
Lemma m1_ne q : q <> z1 -> q <> z2 -> m1 q = m q.
Proof. intros A B. rewrite m1_eq. destruct (Z.eqb_spec q z1); [contradiction|]. destruct (Z.eqb_spec q z2); [contradiction|]. reflexivity. Qed.
Lemma m1_xy q : In q [one; x1; y1; x2; y2] -> m1 q = m q.
Proof.
  intros [<-|[<-|[<-|[<-|[<-|[]]]]]]; apply m1_ne;
  first [apply O1; in_list|apply XZ; in_list|apply YZ; in_list].
Qed.
Lemma sub_apart l l' k k' : apart l l' -> incl k l -> incl k' l' -> apart k k'.
Proof. intros A I J p q P Q. apply A; [apply I, P|apply J, Q]. Qed.
Lemma L8 p : In p [one; x1; y1; z1; x2; y2; x3; y3; z3] -> p < sp + frame.
Proof. intros P. assert (p < sp) by (apply L; cbn [In] in *; tauto). unfold frame. lia. Qed.
Lemma L9 p : In p [one; x1; y1; z1; x2; y2; z2; x3; y3; z3] -> p < sp + frame.
Proof. intros P. pose proof (L p P). unfold frame. lia. Qed.
Lemma O8 : apart [one] [x1; y1; z1; x2; y2; x3; y3; z3]. Proof. intros p q P Q. apply O1; cbn [In] in *; tauto. Qed.
Lemma XZ8 : apart [x1; x2; x3] [z1; z3]. Proof. intros p q P Q. apply XZ; cbn [In] in *; tauto. Qed.
Lemma YZ8 : apart [y1; y2; y3] [z1; z3]. Proof. intros p q P Q. apply YZ; cbn [In] in *; tauto. Qed.
Lemma One1 : m1 one = fieldOne. Proof. rewrite m1_xy by in_list. exact One. Qed.
Lemma Z12' : (fEquals (m1 z1) fieldOne && fEquals (m1 z2) fieldOne) = false -> apart [z1] [z2].
Proof.
  intros F p q [<-|[]] [<-|[]] E. destruct Z12 as [N|[_ N]]; [exact (N E)|].
  rewrite <- E, m1_z1, N, norm_one in F. vm_compute in F. discriminate F.
Qed.
Ltac side := first [exact L8|exact L9|exact O8|exact O1|exact One1|exact XY|exact XZ8|exact XZ|exact YZ8|exact YZ|exact X12|exact Y12].

Lemma addJM_ok : let m' := addJacobianM one sp x1 y1 z1 x2 y2 z2 x3 y3 z3 m in
  (m' x3, m' y3, m' z3) = fst (addJacobian (m x1, m y1, m z1) (m x2, m y2, m z2)).
Proof.
  cbv zeta. unfold addJacobianM, addJacobian. fold e. cbv zeta. fold m1.
  destruct (_ || _); [|destruct (_ || _)].
  - names9. rewrite !(run mayz e [Set_ X3 X2; Set_ Y3 Y2; Set_ Z3 Z2] V9 m addJ_sep eq_refl) by in_run. cbn [fst]. peval.
  - names9. rewrite !(run mayz e [Set_ X3 X1; Set_ Y3 Y1; Set_ Z3 Z1] V9 m addJ_sep eq_refl) by in_run. cbn [fst]. peval.
  - rewrite One1. pose proof Z12' as Z'. 
    pose proof (addOneM_ok one (sp + frame) x1 y1 z1 x2 y2 x3 y3 z3 m1 L8 O8 One1 XY XZ8 YZ8 X12 Y12) as A1.
    pose proof (addEqM_ok one (sp + frame) x1 y1 z1 x2 y2 x3 y3 z3 m1 L8 O8 One1 XY XZ8 YZ8 X12 Y12) as A2.
    pose proof (addZ2M_ok one (sp + frame) x1 y1 z1 x2 y2 x3 y3 z3 m1 L8 O8 One1 XY XZ8 YZ8 X12 Y12) as A3.
    pose proof (fun K => genM_ok one (sp + frame) x1 y1 z1 x2 y2 z2 x3 y3 z3 m1 L9 O1 One1 XY XZ YZ X12 Y12 K) as A4.
    cbv zeta in A1, A2, A3, A4. rewrite m1_z1, m1_z2 in *. rewrite !m1_xy in A1, A2, A3, A4 by in_list.
    destruct (_ && _); [exact A1|]. destruct (fEquals (fNormalize (m z1)) (fNormalize (m z2))); [exact A2|].
    destruct (fEquals (fNormalize (m z2)) fieldOne); [exact A3|]. exact (A4 (Z' eq_refl)).
Qed.
Lemma addJM_second : z1 <> z2 -> apart [x3] [x2] -> apart [y3] [y2] -> apart [z3] [z2] -> let m' := addJacobianM one sp x1 y1 z1 x2 y2 z2 x3 y3 z3 m in
  (m' x2, m' y2, m' z2) = snd (addJacobian (m x1, m y1, m z1) (m x2, m y2, m z2)).
Proof.
  intros ZZ X32 Y32 Z32. pose proof (addJ_sep1 X32 Y32 Z32) as S1. cbv zeta. unfold addJacobianM, addJacobian. fold e. cbv zeta. fold m1.
  destruct (_ || _); [|destruct (_ || _)].
  - names9. rewrite !(run may1z e [Set_ X3 X2; Set_ Y3 Y2; Set_ Z3 Z2] V9 m S1 eq_refl) by in_run. cbn [snd]. peval.
  - names9. rewrite !(run may1z e [Set_ X3 X1; Set_ Y3 Y1; Set_ Z3 Z1] V9 m S1 eq_refl) by in_run. cbn [snd]. peval.
  - rewrite One1. pose proof Z12' as Z'. 
    assert (Nz : ~ In z2 [x1; y1; z1; x2; y2; x3; y3; z3]).
    { intros I. cbn [In] in I. 
      destruct I as [I|[I|[I|[I|[I|[I|[I|[I|[]]]]]]]]]; first [exact (ZZ I)|refine (Z32 _ _ _ _ I); in_list|refine (XZ _ _ _ _ I); in_list|refine (YZ _ _ _ _ I); in_list]. }
    pose proof (addOneM_second one (sp + frame) x1 y1 z1 x2 y2 x3 y3 z3 m1 L8 XY XZ8 YZ8 X12 Y12 X32 Y32) as (A1 & A1').
    pose proof (addEqM_second one (sp + frame) x1 y1 z1 x2 y2 x3 y3 z3 m1 L8 XY XZ8 YZ8 X12 Y12 X32 Y32) as (A2 & A2').
    pose proof (addZ2M_second one (sp + frame) x1 y1 z1 x2 y2 x3 y3 z3 m1 L8 XY XZ8 YZ8 X12 Y12 X32 Y32) as (A3 & A3').
    pose proof (fun K => genM_second one (sp + frame) x1 y1 z1 x2 y2 z2 x3 y3 z3 m1 L9 XY XZ YZ X12 Y12 K X32 Y32 Z32) as A4.
    pose proof (add8_frame one (sp + frame) x1 y1 z1 x2 y2 x3 y3 z3 m1 z2 (L9 z2 ltac:(in_list)) Nz) as (F1 & F2 & F3).
    cbv zeta in A4. rewrite m1_z1, m1_z2 in *. rewrite !m1_xy in A1, A1', A2, A2', A3, A3', A4 by in_list.
    destruct (_ && _); [cbn [snd]; rewrite A1, A1', F1; exact eq_refl|]. destruct (fEquals (fNormalize (m z1)) (fNormalize (m z2))); [cbn [snd]; rewrite A2, A2', F2; exact eq_refl|].
    destruct (fEquals (fNormalize (m z2)) fieldOne); [cbn [snd]; rewrite A3, A3', F3; exact eq_refl|]. destruct (A4 (Z' eq_refl)) as (-> & -> & ->). rewrite m1_xy by in_list. exact eq_refl.
Qed.
Lemma addJM_frame q : q < sp -> ~ In q [x1; y1; z1; x2; y2; z2; x3; y3; z3] -> addJacobianM one sp x1 y1 z1 x2 y2 z2 x3 y3 z3 m q = m q.
Proof.
  intros Q H. unfold addJacobianM. fold e. cbv zeta. fold m1.
  assert (Q' : q < sp + frame) by (unfold frame; lia).
  assert (H8 : ~ In q [x1; y1; z1; x2; y2; x3; y3; z3]) by (intros K; apply H; cbn [In] in *; tauto).
  assert (M : m1 q = m q) by (apply m1_ne; intros K; apply H; rewrite K; in_list).
  pose proof (add8_frame one (sp + frame) x1 y1 z1 x2 y2 x3 y3 z3 m1 q Q' H8) as (F1 & F2 & F3).
  destruct (_ || _); [|destruct (_ || _)].
  - apply frame9; (assumption || exact eq_refl).
  - apply frame9; (assumption || exact eq_refl).
  - destruct (_ && _); [rewrite F1; exact M|]. destruct (fEquals (m1 z1) (m1 z2)); [rewrite F2; exact M|]. destruct (fEquals (m1 z2) _); [rewrite F3; exact M|].
    rewrite genM_frame by assumption. exact M.
Qed.
End addJ.

(** ** Back to affine coordinates *)
Definition args3 (x y z : ptr) (r : reg) : option ptr := match r with X1 => Some x | Y1 => Some y | Z1 => Some z | _ => None end.
Lemma toAffineM_ok sp x y z m : x < sp -> y < sp -> z < sp -> x <> y -> x <> z -> y <> z ->
  fst (toAffineM sp x y z m) = fieldJacobianToBigAffine (m x, m y, m z).
Proof.
  intros Lx Ly Lz XY XZ YZ. unfold toAffineM. change (fun r => match r with X1 => Some x | Y1 => Some y | Z1 => Some z | _ => None end) with (args3 x y z). set (e := env sp (args3 x y z)).
  assert (S : sep e (fun _ _ => false)).
  { apply sep_env.
    - intros r p E. destruct r; try discriminate E; injection E as <-; assumption.
    - intros r d p H _ E E'. destruct r; try discriminate E; destruct d; try discriminate E'; try (exact (H eq_refl));
      injection E as E; injection E' as E'; congruence. }
  cbv zeta. cbn [fst]. replace (m x) with (m (e X1)) by exact eq_refl. replace (m y) with (m (e Y1)) by exact eq_refl. replace (m z) with (m (e Z1)) by exact eq_refl.
  change x with (e X1). change y with (e Y1). rewrite !(run _ e affineProg [X1; Y1; Z1] m S eq_refl) by in_run.
  unfold fieldJacobianToBigAffine. 
  replace (pexec affineProg (fun r => m (e r)) X1) with (fNormalize (fMul (m (e X1)) (fSquare (fInverse (m (e Z1)))))) by peval.
  replace (pexec affineProg (fun r => m (e r)) Y1) with (fNormalize (fMul (m (e Y1)) (fMul (fSquare (fInverse (m (e Z1)))) (fInverse (m (e Z1)))))) by peval.
  exact eq_refl.
Qed.
Lemma toAffineM_frame sp x y z m q : q < sp -> ~ In q [x; y; z] -> snd (toAffineM sp x y z m) q = m q.
Proof.
  intros Q H. unfold toAffineM. cbn [snd]. apply (frame_env sp (args3 x y z) affineProg [X1; Y1; Z1] q m Q); [intros r; destruct r; (reflexivity || discriminate)|exact eq_refl|].
  not_in H.
Qed.
