(** * Scalar multiplication: the accesses give the scalar *)
From Coq Require Import ZArith List Bool Lia.
From Verif Require Import Go Wire Big CodecProofs Field Koblitz KoblitzMem SpecMem MemProofs MemProofs2 KoblitzConc SpecConc ConcProofs FieldMem FieldMemProofs KoblitzWord WordProofs SpecTrace TraceProofs TraceProofs2 KobProofs KobMul TraceProofs3.
From Verif Require Spec Lambda.
Import ListNotations.
Open Scope Z_scope.
Local Open Scope wcode_scope.

Lemma from_ok px py x y m : 0 <= x < 2 ^ 256 -> 0 <= y < 2 ^ 256 ->
  fst (runW (fromAffineW px py x y) m) = true /\ exists vx vy, meq (snd (runW (fromAffineW px py x y) m)) (upd (upd m px vx) py vy).
Proof.
  intros X Y. destruct (sim_from px py x y) as [E M]. specialize (M m). rewrite (E m).
  destruct (toField x y X Y) as (fx & fy & T & _). unfold bigAffineToField in T.
  unfold fromAffineC in *. destruct (fSetByteSlice (bigBytes x)) as [vx|]; [|discriminate T]. destruct (fSetByteSlice (bigBytes y)) as [vy|]; [|discriminate T].
  split; [reflexivity|]. exists vx, vy. exact (M eq_refl).
Qed.
Lemma from_tr px py x y : 0 <= x < 2 ^ 256 -> 0 <= y < 2 ^ 256 -> tr (fromAffineW px py x y) (stores px ++ stores py).
Proof.
  intros X Y m. assert (B : forall z, 0 <= z < 2 ^ 256 -> (32 <? blen (bigBytes z)) = false).
  { intros z Hz. apply Z.ltb_ge. apply bigBytes_blen; [lia|]. rewrite Z.abs_eq by lia. rewrite pow256 by lia. exact (proj2 Hz). }
  unfold fromAffineW, SetByteSliceW. rewrite !B by assumption. rewrite trace_seq, runW_seq, trace_seq, tr_setBytes. cbn [traceW runW fst snd]. rewrite app_nil_r. reflexivity.
Qed.

Lemma sg_abs k : sg (Z.sgn k =? -1) * beval (bigBytes k) = k.
Proof. rewrite beval_bigBytes. destruct (Z.eqb_spec (Z.sgn k) (-1)) as [G|G]; unfold sg; lia. Qed.
Lemma max_len {A : Type} (a b : list A) : (length a <= Nat.max (length a) (length b) /\ length b <= Nat.max (length a) (length b))%nat.
Proof. lia. Qed.

Section mult.
Context (one beta sp : ptr) (Lo : one < sp) (m : mem) (M1 : m one = fieldOne) (x y : Z) (X : 0 <= x < 2 ^ 256) (Y : 0 <= y < 2 ^ 256).
Notation e := (locals sp).
Notation fin := (r <- toAffineW (sp + frame) (e qx) (e qy) (e qz) ;; WRet (Ok r)).
Lemma mult_trace : exists pre m1, ones one sp m1 /\ forall k, bytes_ok k -> exists L, okL sp L /\
  (fst (valL sp L (0, 0)) + snd (valL sp L (0, 0)) * Lambda.lambda) mod Spec.N = beval k mod Spec.N /\
  traceW (ScalarMultW one beta sp x y k) m = pre ++ traceW (doK one sp L fin) m1.
Proof.
  set (c0 := zerosW (e qx) (e qy) (e qz)). set (ma := snd (runW c0 m)).
  set (c1 := fromAffineW (e p1x) (e p1y) x y). set (mb := snd (runW c1 ma)).
  set (c2 := execW (sp + frame) e [NegateVal p1yNeg p1y 1; SetInt p1z 1]). set (mc := snd (runW c2 mb)).
  set (c3 := execW (sp + frame) (fun r => match r with X1 => beta | _ => e r end) [Mul2 p2x p1x X1]). set (md := snd (runW c3 mc)).
  set (c4 := execW (sp + frame) e [Set_ p2y p1y; NegateVal p2yNeg p2y 1; SetInt p2z 1]). set (me := snd (runW c4 md)).
  destruct (from_ok (e p1x) (e p1y) x y ma X Y) as [F1 (vx & vy & F2)]. fold c1 in F1, F2. fold mb in F2.
  exists (traceW c0 m ++ traceW c1 ma ++ traceW c2 mb ++ traceW c3 mc ++ traceW c4 md), me. split.
  - destruct (sim_zeros (e qx) (e qy) (e qz) m) as [_ A]. fold c0 in A. fold ma in A. cbn [zeros run seqC wr fst snd] in A.
    destruct (sim_exec (sp + frame) e [NegateVal p1yNeg p1y 1; SetInt p1z 1] eq_refl mb) as [_ C]. fold c2 in C. fold mc in C. rewrite run_exec in C. cbn [snd] in C.
    destruct (sim_exec (sp + frame) (fun r => match r with X1 => beta | _ => e r end) [Mul2 p2x p1x X1] eq_refl mc) as [_ D]. fold c3 in D. fold md in D. rewrite run_exec in D. cbn [snd] in D.
    destruct (sim_exec (sp + frame) e [Set_ p2y p1y; NegateVal p2yNeg p2y 1; SetInt p2z 1] eq_refl md) as [_ E]. fold c4 in E. fold me in E. rewrite run_exec in E. cbn [snd] in E.
    clearbody ma mb mc md me. unfold exec in C, D, E. cbn [fold_left step] in C, D, E.
    assert (NE : forall r, e r <> one) by (intros r; unfold locals; pose proof (idx_range r); lia).
    assert (P : forall a b, Z.eqb (idx a) (idx b) = false -> e a <> e b) by (intros a b H; apply Z.eqb_neq in H; unfold locals; lia).
    split; [|split].
    + rewrite (E one), !upd_off by (apply not_eq_sym, NE). rewrite (D one), upd_off by (apply not_eq_sym, NE). rewrite (C one), !upd_off by (apply not_eq_sym, NE).
      rewrite (F2 one), !upd_off by (apply not_eq_sym, NE). rewrite (A one), !upd_off by (apply not_eq_sym, NE). exact M1.
    + rewrite (E (e p1z)), !upd_off by (apply P; reflexivity). rewrite (D (e p1z)), upd_off by (apply P; reflexivity). rewrite (C (e p1z)), upd_at. reflexivity.
    + rewrite (E (e p2z)), upd_at. reflexivity.
  - intros k Bk. destruct (splitK_ok (moduloReduce k)) as (k1 & k2 & ES & EK & _). destruct (moduloReduce_ok k Bk) as (MV & _ & _).
    destruct (NAF_ok (bigBytes k1) (bigBytes_ok k1)) as (a1 & b1 & N1 & L1 & P1 & Q1 & V1 & D1 & _).
    destruct (NAF_ok (bigBytes k2) (bigBytes_ok k2)) as (a2 & b2 & N2 & L2 & P2 & Q2 & V2 & D2 & _).
    set (n := Nat.max (length a1) (length a2)).
    set (g1 := Z.sgn k1 =? -1). set (g2 := Z.sgn k2 =? -1).
    exists (loopL (ptrsOf sp g1 g2) (padTo n a1) (padTo n b1) (padTo n a2) (padTo n b2)).
    destruct (loop_val sp g1 g2 (padTo n a1) (padTo n b1) (padTo n a2) (padTo n b2) 0 0) as [OL VL];
      try (rewrite !padTo_len by (unfold n; rewrite ?L1, ?L2; apply max_len); reflexivity); try (apply padTo_bytes; assumption); try (apply padTo_disj; assumption).
    split; [exact OL|]. split.
    + rewrite VL. cbn [fst snd]. rewrite !padTo_val, V1, V2, !Z.mul_0_r, !Z.add_0_l, <- MV, <- EK.
      unfold g1, g2. rewrite !sg_abs. reflexivity.
    + unfold ScalarMultW. cbv zeta. rewrite ES, trace_seq. fold c0. fold ma. rewrite trace_seq. fold c1. rewrite F1. fold mb. cbn [negb].
      rewrite trace_seq. fold c2. fold mc. rewrite trace_seq. fold c3. fold md. rewrite trace_seq. fold c4. fold me.
      rewrite <- !app_assoc. do 5 apply f_equal. fold g1 g2. clearbody me g1 g2. rewrite N1, N2. fold n.
      destruct g1, g2; (etransitivity; [|apply same_loop]); reflexivity.
Qed.
Lemma mult_leak k k' : bytes_ok k -> bytes_ok k' ->
  traceW (ScalarMultW one beta sp x y k) m = traceW (ScalarMultW one beta sp x y k') m -> beval k mod Spec.N = beval k' mod Spec.N.
Proof.
  intros B B' E. destruct mult_trace as (pre & m1 & O & H). destruct (H k B) as (L & OL & V & T). destruct (H k' B') as (L' & OL' & V' & T').
  rewrite T, T' in E. apply app_inv_head in E. rewrite <- V, <- V'.
  rewrite (digits_eq one sp Lo fin (first_seq _ _ _ (aff_first _ _ _ _)) L L' m1 O OL OL' E). reflexivity.
Qed.
End mult.

Section table.
Context (one sp : ptr) (tab : nat -> Z -> nat -> ptr).
Notation e := (locals sp).
Context (I : forall i b i' b', (i < 32)%nat -> (i' < 32)%nat -> 0 <= b < 256 -> 0 <= b' < 256 -> tab i b 0%nat = tab i' b' 0%nat -> i = i' /\ b = b').
Context (Q : forall i b, tab i b 0%nat <> e qz).
Notation fin := (r <- toAffineW (sp + frame) (e qx) (e qy) (e qz) ;; WRet (Ok r)).
Notation go i k := (ok <- sbmLoopW one sp tab i k ;; if negb ok then WRet Panic else fin).
Lemma go_nil m : exists t, forall i, traceW (go i []) m = Loads (e qz) 0 :: t.
Proof. destruct (first_seq _ (fun r => WRet (Ok r)) _ (aff_first (sp + frame) (e qx) (e qy) (e qz)) m) as (t & E). exists t. intros i. exact E. Qed.
Definition body (i : nat) (b : Z) : wcode unit :=
  v <- loadW (tab i b 0%nat) ;; w <- loadW (tab i b 1%nat) ;; x <- loadW (tab i b 2%nat) ;;
  putW (e pE0) v ;; putW (e pE1) w ;; putW (e pE2) x ;;
  addJacobianW one (sp + frame) (e qx) (e qy) (e qz) (e pE0) (e pE1) (e pE2) (e qx) (e qy) (e qz).
Lemma go_cons i b k : (i < 32)%nat -> is_byte b -> same (go i (b :: k)) (body i b ;; go (S i) k).
Proof.
  intros Hi Hb m. unfold is_byte in Hb. cbn [sbmLoopW]. cbv zeta. replace (Nat.ltb i 32 && (0 <=? b) && (b <? 256)) with true.
  - unfold body. rewrite !trace_seq, !runW_seq, <- !app_assoc. reflexivity.
  - symmetry. apply andb_true_intro. split; [apply andb_true_intro; split; [apply Nat.ltb_lt, Hi|apply Z.leb_le, Hb]|apply Z.ltb_lt, Hb].
Qed.
Lemma body_first i b : first (body i b) (Loads (tab i b 0%nat) 0). Proof. apply first_seq, first_load. Qed.
Lemma table_digits : forall k k' i i' m, (i + length k = 32)%nat -> (i' + length k' = 32)%nat -> bytes_ok k -> bytes_ok k' ->
  traceW (go i k) m = traceW (go i' k') m -> k = k'.
Proof.
  induction k as [|b k IH]; intros [|b' k'] i i' m Li Li' B B' E.
  - reflexivity.
  - exfalso. cbn [length] in Li'. apply Forall_inv in B'. rewrite (go_cons i' b' k') in E by (exact B' || lia). destruct (go_nil m) as (t & T). rewrite T in E.
    destruct (first_seq _ (fun _ => go (S i') k') _ (body_first i' b') m) as (u & U). rewrite U in E. injection E as E _. exact (Q i' b' (eq_sym E)).
  - exfalso. cbn [length] in Li. apply Forall_inv in B. rewrite (go_cons i b k) in E by (exact B || lia). destruct (go_nil m) as (t & T). rewrite T in E.
    destruct (first_seq _ (fun _ => go (S i) k) _ (body_first i b) m) as (u & U). rewrite U in E. injection E as E _. exact (Q i b E).
  - cbn [length] in Li, Li'. pose proof (Forall_inv B) as Hb. pose proof (Forall_inv B') as Hb'.
    rewrite (go_cons i b k), (go_cons i' b' k') in E by (assumption || lia).
    assert (EQ : i = i' /\ b = b').
    { destruct (first_seq _ (fun _ => go (S i) k) _ (body_first i b) m) as (u & U). destruct (first_seq _ (fun _ => go (S i') k') _ (body_first i' b') m) as (u' & U').
      rewrite U, U' in E. injection E as E _. apply I; try assumption; lia. }
    destruct EQ as [<- <-]. rewrite (trace_seq (body i b)), (trace_seq (body i b)) in E. apply app_inv_head in E. f_equal.
    apply (IH k' (S i) (S i) (snd (runW (body i b) m))); try lia; [exact (Forall_inv_tail B)|exact (Forall_inv_tail B')|exact E].
Qed.
Lemma table_leak k k' m : bytes_ok k -> bytes_ok k' -> traceW (scalarTableMultW one sp tab k) m = traceW (scalarTableMultW one sp tab k') m -> moduloReduce k = moduloReduce k'.
Proof.
  intros B B' E. destruct (moduloReduce_ok k B) as (_ & B1 & L1). destruct (moduloReduce_ok k' B') as (_ & B2 & L2). unfold blen in *.
  unfold scalarTableMultW in E. cbv zeta in E. rewrite (trace_seq (zerosW _ _ _)), (trace_seq (zerosW _ _ _)) in E. apply app_inv_head in E.
  apply (table_digits _ _ _ _ _) in E; [exact E|lia|lia|exact B1|exact B2].
Qed.
End table.

Lemma known_eq (a b : ptr) : known (r <- EqualsW a b ;; WRet (Ok r)).
Proof. eexists. apply tr_seq; [apply tr_equals|intros r; apply tr_ret]. Qed.
Lemma on_curve_trace sp x y x' y' m m' : 0 <= x < 2 ^ 256 -> 0 <= y < 2 ^ 256 -> 0 <= x' < 2 ^ 256 -> 0 <= y' < 2 ^ 256 ->
  traceW (IsOnCurveW sp x y) m = traceW (IsOnCurveW sp x' y') m'.
Proof.
  intros X Y X' Y'. cbv beta zeta delta [IsOnCurveW].
  match goal with |- traceW (seqW _ (fun ok => if negb ok then _ else ?c)) _ = _ => assert (K : known c); [|set (k := c) in *] end.
  { apply known_seq; [apply known_exec|]. apply known_seq; [eexists; apply tr_addInt|]. apply known_seq; [apply known_exec|]. apply known_eq. }
  clearbody k. destruct K as (l & K).
  rewrite (trace_seq (fromAffineW _ _ x y)), (trace_seq (fromAffineW _ _ x' y')), !from_tr by assumption.
  rewrite (proj1 (from_ok _ _ x y m X Y)), (proj1 (from_ok _ _ x' y' m' X' Y')). cbn [negb]. rewrite !K. reflexivity.
Qed.
Lemma known_affine sp x y z : known (toAffineW sp x y z).
Proof.
  unfold toAffineW. cbv zeta. apply known_seq; [apply known_exec|]. eexists. apply tr_seq; [apply tr_bytes|intros bx].
  apply tr_seq; [apply tr_bytes|intros b]. apply tr_ret.
Qed.
