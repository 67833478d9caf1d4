(** * Where word-by-word calls load and store; schedules of words *)
From Coq Require Import ZArith List Bool Lia.
From Verif Require Import Go Wire Big Field Koblitz KoblitzMem SpecMem KoblitzConc SpecConc FieldMem FieldMemProofs KoblitzWord SpecWord MemProofs MemProofs2 ConcProofs WordProofs.
Import ListNotations.
Open Scope Z_scope.
Local Open Scope wcode_scope.

Fixpoint stepsW {A : Type} (c : wcode A) (m : mem) : nat :=
  match c with WRet a => 0%nat | WLd p i k => S (stepsW (k (getw i (m p))) m) | WSt p i w k => S (stepsW k (upd m p (setw i w (m p)))) end.
Fixpoint withinW {A : Type} (own ro : ptr -> Prop) (c : wcode A) : Prop :=
  match c with
  | WRet _ => True
  | WLd p i k => (own p \/ ro p) /\ forall v, withinW own ro (k v)
  | WSt p i w k => own p /\ withinW own ro k
  end.
Lemma runW_within {A : Type} (own ro : ptr -> Prop) (c : wcode A) : forall m m', withinW own ro c -> (forall p, own p \/ ro p -> m p = m' p) ->
  fst (runW c m) = fst (runW c m') /\ stepsW c m = stepsW c m'.
Proof.
  induction c as [a|p i k IH|p i w k IH]; intros m m' W E; [split; reflexivity|..].
  - destruct W as [P W]. cbn [runW stepsW]. rewrite (E p P). destruct (IH (getw i (m' p)) m m' (W _) E) as [-> ->]. split; reflexivity.
  - destruct W as [P W]. cbn [runW stepsW]. destruct (IH (upd m p (setw i w (m p))) (upd m' p (setw i w (m' p))) W) as [-> ->]; [|split; reflexivity].
    intros q Q. unfold upd. destruct (q =? p); [rewrite (E p (or_introl P)); reflexivity|apply E, Q].
Qed.
Lemma stepsW_0 {A : Type} (c : wcode A) m : stepsW c m = 0%nat -> exists a, c = WRet a.
Proof. destruct c; cbn [stepsW]; intros H; [eexists; reflexivity|discriminate H..]. Qed.

(** ** Any schedule *)
Section inter.
Context {A : Type} (own : nat -> ptr -> Prop) (ro : ptr -> Prop).
Hypothesis (Apart : forall i j p, i <> j -> own i p -> ~ own j p) (Ro : forall i p, own i p -> ~ ro p).
Lemma stepW_inv (t : nat -> wcode A) m i : (forall j, withinW (own j) ro (t j)) ->
  let t' := fun j => if Nat.eqb j i then fst (stepW (t i) m) else t j in let m' := snd (stepW (t i) m) in
  (forall j, withinW (own j) ro (t' j)) /\ (forall j, fst (runW (t' j) m') = fst (runW (t j) m)) /\
  (forall j, stepsW (t' j) m' = (stepsW (t j) m - if Nat.eqb j i then 1 else 0)%nat) /\ (forall p, (forall j, ~ own j p) -> m' p = m p).
Proof.
  intros W. cbv zeta.
  assert (Ch : forall p, ~ own i p -> snd (stepW (t i) m) p = m p).
  { intros p N. specialize (W i). destruct (t i) as [a|q x k|q x v k]; cbn [stepW snd]; try reflexivity. apply upd_off. intros E. subst q. destruct W as [W _]. exact (N W). }
  split; [|split; [|split]].
  - intros j. destruct (Nat.eqb_spec j i) as [->|N]; [|apply W]. specialize (W i). destruct (t i) as [a|q x k|q x v k]; cbn [stepW fst]; [exact W|apply W|apply W].
  - intros j. destruct (Nat.eqb_spec j i) as [->|N]; [destruct (t i); reflexivity|].
    apply (runW_within (own j) ro); [apply W|]. intros p [P|P]; apply Ch; [apply (Apart j i); auto|intros Q; exact (Ro i p Q P)].
  - intros j. destruct (Nat.eqb_spec j i) as [->|N]; [destruct (t i); cbn [stepW fst snd stepsW]; lia|]. rewrite Nat.sub_0_r.
    apply (runW_within (own j) ro); [apply W|]. intros p [P|P]; apply Ch; [apply (Apart j i); auto|intros Q; exact (Ro i p Q P)].
  - intros p N. apply Ch, N.
Qed.
Lemma interW_inv s : forall (t : nat -> wcode A) m, (forall j, withinW (own j) ro (t j)) ->
  let t' := fst (interleaveW s t m) in let m' := snd (interleaveW s t m) in
  (forall j, withinW (own j) ro (t' j)) /\ (forall j, fst (runW (t' j) m') = fst (runW (t j) m)) /\
  (forall j, stepsW (t' j) m' = (stepsW (t j) m - count_occ Nat.eq_dec s j)%nat) /\ (forall p, (forall j, ~ own j p) -> m' p = m p).
Proof.
  induction s as [|i s IH]; intros t m W.
  - cbn. repeat split; auto. intros j. lia.
  - pose proof (stepW_inv t m i W) as (W1 & R1 & S1 & M1). cbn [interleaveW]. destruct (stepW (t i) m) as [c m1]. cbn [fst snd] in *.
    destruct (IH _ m1 W1) as (W2 & R2 & S2 & M2). cbv zeta in *. split; [exact W2|]. split; [|split].
    + intros j. rewrite R2. apply R1.
    + intros j. rewrite S2, S1. cbn [count_occ]. destruct (Nat.eqb_spec j i) as [->|N]; destruct (Nat.eq_dec i _) as [E|E]; try congruence; lia.
    + intros p P. rewrite M2, M1 by exact P. reflexivity.
Qed.
End inter.

(** ** Where the code loads and stores *)
Lemma withinW_seq {A B : Type} (own ro : ptr -> Prop) (c : wcode A) (f : A -> wcode B) : withinW own ro c -> (forall a, withinW own ro (f a)) -> withinW own ro (seqW c f).
Proof. intros W F. induction c as [a|p i k IH|p i v k IH]; cbn [seqW withinW] in *; [apply F|split; [apply W|intros v; apply IH, W]|split; [apply W|apply IH, W]]. Qed.
Section where_.
Context (lo hi base : ptr).
Let own p := lo <= p < hi.
Let ro p := p < base.
Notation wi := (withinW own ro).
Lemma wi_ld p i : own p \/ ro p -> wi (ld p i). Proof. intros H. split; [exact H|intros v; exact I]. Qed.
Lemma wi_st p i w : own p -> wi (st p i w). Proof. intros H. split; [exact H|exact I]. Qed.
Lemma wi_each l c : (forall i, wi (c i)) -> wi (eachW l c).
Proof. intros H. induction l as [|i l IH]; [exact I|]. cbn [eachW]. apply withinW_seq; [apply H|intros; exact IH]. Qed.
Lemma wi_put p v : own p -> wi (putW p v). Proof. intros H. apply wi_each. intros i. apply wi_st, H. Qed.
Lemma wi_clear p : own p -> wi (ZeroW p). Proof. intros H. apply wi_each. intros i. apply wi_st, H. Qed.
Lemma wi_load p : own p \/ ro p -> wi (loadW p).
Proof. intros H. unfold loadW. repeat (apply withinW_seq; [apply wi_ld, H|intros]). exact I. Qed.
Lemma wi_normalize p : own p -> wi (NormalizeW p).
Proof.
  intros H. unfold NormalizeW. cbv zeta. repeat (apply withinW_seq; [apply wi_ld; left; exact H|intros]). destruct (carryW _ _ _ _ _ _ _ _ _ _ _). destruct (carryW _ _ _ _ _ _ _ _ _ _ _).
  apply wi_put, H.
Qed.
Lemma wi_column a b l : own a \/ ro a -> own b \/ ro b -> forall q, wi (columnW a b l q).
Proof. intros H K. induction l as [|[[c i] j] l IH]; intros q; [exact I|]. cbn [columnW]. apply withinW_seq; [apply wi_ld, H|intros]. apply withinW_seq; [apply wi_ld, K|intros; apply IH]. Qed.
Lemma wi_columns a b l : own a \/ ro a -> own b \/ ro b -> forall q, wi (columnsW a b q l).
Proof.
  intros H K. induction l as [|c l IH]; intros q; [exact I|]. cbn [columnsW]. apply withinW_seq; [apply wi_column; assumption|intros].
  apply withinW_seq; [apply IH|intros; exact I].
Qed.
Lemma wi_reduce f t : own f -> wi (reduceW f t).
Proof.
  intros H. pose proof (wi_clear f H) as Z. unfold reduceW. do 20 (destruct t as [|? t]; [exact Z|]). destruct t; [|exact Z]. cbv zeta.
  destruct (foldW _ _) as [|? l]; [exact Z|]. do 8 (destruct l as [|? l]; [exact Z|]). destruct l; [|exact Z].
  repeat (apply withinW_seq; [apply wi_st, H|intros]). apply wi_st, H.
Qed.
Lemma wi_mul f a b : own f -> own a \/ ro a -> own b \/ ro b -> wi (Mul2W f a b).
Proof. intros F H K. apply withinW_seq; [apply wi_columns; assumption|intros; apply wi_reduce, F]. Qed.
Lemma wi_square f a : own f -> own a \/ ro a -> wi (SquareValW f a).
Proof. intros F H. apply withinW_seq; [apply wi_columns; assumption|intros; apply wi_reduce, F]. Qed.
Lemma wi_squares n f : own f -> wi (squaresW n f).
Proof. intros F. induction n as [|n IH]; [exact I|]. cbn [squaresW]. apply withinW_seq; [apply wi_square; [exact F|left; exact F]|intros; exact IH]. Qed.
Lemma wi_rounds f l : own f -> (forall p, In p l -> own p) -> wi (rounds f l).
Proof.
  intros F. induction l as [|p l IH]; intros L; [exact I|]. cbn [rounds]. apply withinW_seq; [apply wi_squares, F|intros].
  apply withinW_seq; [apply wi_mul; [exact F|left; exact F|left; apply L; left; reflexivity]|intros]. apply IH. intros q Q. apply L. right. exact Q.
Qed.
Lemma wi_set f a : own f -> own a \/ ro a -> wi (SetW f a).
Proof. intros F H. apply withinW_seq; [apply wi_load, H|intros; apply wi_put, F]. Qed.
Ltac fo := try left; first [assumption|match goal with O : forall k, _ |- _ => apply O; lia end].
Lemma wi_inverse fr f : own f -> (forall p, fr <= p < fr + invFrame -> own p) -> wi (InverseW fr f).
Proof.
  intros F L. unfold invFrame in L. assert (O : forall k, 0 <= k < 11 -> own (fr + k)) by (intros k K; apply L; lia). assert (O0 : own fr) by (apply L; lia).
  unfold InverseW. cbv zeta.
  apply withinW_seq; [apply wi_square; fo|intros].
  apply withinW_seq; [apply wi_mul; fo|intros].
  apply withinW_seq; [apply wi_square; fo|intros].
  apply withinW_seq; [apply wi_square; fo|intros].
  apply withinW_seq; [apply wi_mul; fo|intros].
  apply withinW_seq; [apply wi_mul; fo|intros].
  apply withinW_seq; [apply wi_mul; fo|intros].
  apply withinW_seq; [apply wi_square; fo|intros].
  apply withinW_seq; [apply wi_mul; fo|intros].
  apply withinW_seq; [apply wi_mul; fo|intros].
  apply withinW_seq; [apply wi_square; fo|intros].
  apply withinW_seq; [apply wi_squares; fo|intros].
  apply withinW_seq; [apply wi_mul; fo|intros].
  apply withinW_seq; [apply wi_mul; fo|intros].
  apply withinW_seq; [apply wi_set; fo|intros].
  apply wi_rounds; [exact F|]. intros p P. cbn [In] in P. repeat (destruct P as [<-|P]; [apply O; lia|]). destruct P.
Qed.
Lemma wi_ins fr e i : plain i = true -> own (e (dst i)) -> (forall s, In s (srcs i) -> own (e s) \/ ro (e s)) -> wi (insW fr e i).
Proof.
  intros P D S. destruct i; cbn [plain] in P; try discriminate P; clear P; cbn [dst] in D; cbn [srcs] in S; cbn [insW].
  - apply wi_set; [exact D|apply S; in_list].
  - apply withinW_seq; [apply wi_clear, D|intros; apply wi_st, D].
  - apply wi_normalize, D.
  - apply wi_each. intros i. apply withinW_seq; [apply wi_ld; left; exact D|intros; apply wi_st, D].
  - apply wi_each. intros i. apply withinW_seq; [apply wi_ld; apply S; in_list|intros; apply wi_st, D].
  - apply wi_each. intros i. apply withinW_seq; [apply wi_ld; left; exact D|intros]. apply withinW_seq; [apply wi_ld; apply S; in_list|intros; apply wi_st, D].
  - apply wi_each. intros i. apply withinW_seq; [apply wi_ld; apply S; in_list|intros]. apply withinW_seq; [apply wi_ld; apply S; in_list|intros; apply wi_st, D].
  - apply wi_each. intros i. apply withinW_seq; [apply wi_ld; left; exact D|intros; apply wi_st, D].
  - apply wi_mul; [exact D|left; exact D|apply S; in_list].
  - apply wi_mul; [exact D|apply S; in_list|apply S; in_list].
  - apply wi_square; [exact D|left; exact D].
  - apply wi_square; [exact D|apply S; in_list].
Qed.
Lemma wi_exec fr e l : forallb plain l = true -> (forall i, In i l -> own (e (dst i))) -> (forall i s, In i l -> In s (srcs i) -> own (e s) \/ ro (e s)) -> wi (execW fr e l).
Proof.
  induction l as [|i l IH]; intros P D S; [exact I|]. cbn [forallb] in P. apply andb_true_iff in P. destruct P as [P Q]. cbn [execW]. apply withinW_seq.
  - apply wi_ins; [exact P|apply D; left; reflexivity|intros s; apply S; left; reflexivity].
  - intros _. apply IH; [exact Q|intros j J; apply D; right; exact J|intros j s J; apply S; right; exact J].
Qed.
Lemma own_env sp a l r : (forall r p, a r = Some p -> In p l) -> (forall p, In p l -> own p) -> lo <= sp -> sp + frame <= hi -> own (env sp a r).
Proof.
  intros A L S1 S2. unfold env. destruct (a r) as [p|] eqn:E; [apply L, (A r), E|]. unfold own. pose proof (idx_range r). lia.
Qed.
Lemma wi_env sp a pl l : forallb plain l = true -> (forall r p, a r = Some p -> In p pl) -> (forall p, In p pl -> own p) -> lo <= sp -> sp + frame <= hi -> wi (execW (sp + frame) (env sp a) l).
Proof. intros PL A L S1 S2. apply wi_exec; [exact PL|..]; intros; [apply (own_env sp a pl); assumption|left; apply (own_env sp a pl); assumption]. Qed.
Lemma wi_or p l : own p \/ ro p -> forall x, wi (orW p l x).
Proof. intros H. induction l as [|i l IH]; intros x; [exact I|]. cbn [orW]. apply withinW_seq; [apply wi_ld, H|intros; apply IH]. Qed.
Lemma wi_zero p : own p \/ ro p -> wi (IsZeroW p).
Proof. intros H. apply withinW_seq; [apply wi_ld, H|intros]. apply withinW_seq; [apply wi_or, H|intros; exact I]. Qed.
Lemma wi_xor p q l : own p \/ ro p -> own q \/ ro q -> forall x, wi (xorW p q l x).
Proof. intros H K. induction l as [|i l IH]; intros x; [exact I|]. cbn [xorW]. apply withinW_seq; [apply wi_ld, H|intros]. apply withinW_seq; [apply wi_ld, K|intros; apply IH]. Qed.
Lemma wi_eq p q : own p \/ ro p -> own q \/ ro q -> wi (EqualsW p q).
Proof.
  intros H K. apply withinW_seq; [apply wi_ld, H|intros]. apply withinW_seq; [apply wi_ld, K|intros]. apply withinW_seq; [apply wi_xor; assumption|intros; exact I].
Qed.
Ltac argsl := let r := fresh in let p := fresh in let E := fresh in intros r p E; destruct r; try discriminate E; injection E as <-; in_list.
Lemma wi_dbl one sp x1 y1 z1 x3 y3 z3 : ro one -> (forall p, In p [x1; y1; z1; x3; y3; z3] -> own p) -> lo <= sp -> sp + frame <= hi ->
  wi (doubleJacobianW one sp x1 y1 z1 x3 y3 z3).
Proof.
  intros O L S1 S2. unfold doubleJacobianW. cbv zeta.
  assert (X : forall l, forallb plain l = true -> wi (execW (sp + frame) (env sp (args6 x1 y1 z1 x3 y3 z3)) l)) by (intros l PL; apply (wi_env sp _ [x1; y1; z1; x3; y3; z3]); [assumption|argsl|assumption..]).
  apply withinW_seq; [apply wi_zero; left; apply L; in_list|intros c]. apply withinW_seq; [destruct c; [exact I|apply wi_zero; left; apply L; in_list]|intros c'].
  destruct c'; [(apply X; reflexivity)|]. apply withinW_seq; [(apply X; reflexivity)|intros]. apply withinW_seq; [apply wi_eq; [left; apply L; in_list|right; exact O]|intros b].
  destruct b; (apply X; reflexivity).
Qed.
Ltac add8 sp x1 y1 z1 x2 y2 x3 y3 z3 L :=
  assert (X : forall l, forallb plain l = true -> wi (execW (sp + frame) (env sp (args8 x1 y1 z1 x2 y2 x3 y3 z3)) l)) by (intros l PL; apply (wi_env sp _ [x1; y1; z1; x2; y2; x3; y3; z3]); [assumption|argsl|first [assumption|unfold frame in *; lia]..]);
  assert (D : forall r, own (env sp (args8 x1 y1 z1 x2 y2 x3 y3 z3) r)) by (intros r; apply (own_env sp _ [x1; y1; z1; x2; y2; x3; y3; z3]); [argsl|first [assumption|unfold frame in *; lia]..]);
  apply withinW_seq; [(apply X; reflexivity)|intros];
  apply withinW_seq; [apply wi_eq; left; first [apply D|apply L; in_list]|intros b; destruct b; [|(apply X; reflexivity)]];
  apply withinW_seq; [apply wi_eq; left; first [apply D|apply L; in_list]|intros b; destruct b; [|(apply X; reflexivity)]];
  apply wi_dbl; [assumption|intros p P; apply L; cbn [In] in *; tauto|unfold frame in *; lia|unfold frame in *; lia].
Lemma wi_add1 one sp x1 y1 z1 x2 y2 x3 y3 z3 : ro one -> (forall p, In p [x1; y1; z1; x2; y2; x3; y3; z3] -> own p) -> lo <= sp -> sp + 2 * frame <= hi ->
  wi (addZ1AndZ2EqualsOneW one sp x1 y1 z1 x2 y2 x3 y3 z3).
Proof. intros O L S1 S2. unfold addZ1AndZ2EqualsOneW. cbv zeta. add8 sp x1 y1 z1 x2 y2 x3 y3 z3 L. Qed.
Lemma wi_addEq one sp x1 y1 z1 x2 y2 x3 y3 z3 : ro one -> (forall p, In p [x1; y1; z1; x2; y2; x3; y3; z3] -> own p) -> lo <= sp -> sp + 2 * frame <= hi ->
  wi (addZ1EqualsZ2W one sp x1 y1 z1 x2 y2 x3 y3 z3).
Proof. intros O L S1 S2. unfold addZ1EqualsZ2W. cbv zeta. add8 sp x1 y1 z1 x2 y2 x3 y3 z3 L. Qed.
Lemma wi_addZ2 one sp x1 y1 z1 x2 y2 x3 y3 z3 : ro one -> (forall p, In p [x1; y1; z1; x2; y2; x3; y3; z3] -> own p) -> lo <= sp -> sp + 2 * frame <= hi ->
  wi (addZ2EqualsOneW one sp x1 y1 z1 x2 y2 x3 y3 z3).
Proof. intros O L S1 S2. unfold addZ2EqualsOneW. cbv zeta. add8 sp x1 y1 z1 x2 y2 x3 y3 z3 L. Qed.
Lemma wi_gen one sp x1 y1 z1 x2 y2 z2 x3 y3 z3 : ro one -> (forall p, In p [x1; y1; z1; x2; y2; z2; x3; y3; z3] -> own p) -> lo <= sp -> sp + 2 * frame <= hi ->
  wi (addGenericW one sp x1 y1 z1 x2 y2 z2 x3 y3 z3).
Proof.
  intros O L S1 S2. unfold addGenericW. cbv zeta.
  assert (X : forall l, forallb plain l = true -> wi (execW (sp + frame) (env sp (args9 x1 y1 z1 x2 y2 z2 x3 y3 z3)) l)) by (intros l PL; apply (wi_env sp _ [x1; y1; z1; x2; y2; z2; x3; y3; z3]); [assumption|argsl|first [assumption|unfold frame in *; lia]..]).
  assert (D : forall r, own (env sp (args9 x1 y1 z1 x2 y2 z2 x3 y3 z3) r)) by (intros r; apply (own_env sp _ [x1; y1; z1; x2; y2; z2; x3; y3; z3]); [argsl|first [assumption|unfold frame in *; lia]..]).
  apply withinW_seq; [(apply X; reflexivity)|intros].
  apply withinW_seq; [apply wi_eq; left; apply D|intros b; destruct b; [|(apply X; reflexivity)]].
  apply withinW_seq; [apply wi_eq; left; apply D|intros b; destruct b; [|(apply X; reflexivity)]].
  apply wi_dbl; [assumption|intros p P; apply L; cbn [In] in *; tauto|unfold frame in *; lia|unfold frame in *; lia].
Qed.
Lemma wi_addJ one sp x1 y1 z1 x2 y2 z2 x3 y3 z3 : ro one -> (forall p, In p [x1; y1; z1; x2; y2; z2; x3; y3; z3] -> own p) -> lo <= sp -> sp + 3 * frame <= hi ->
  wi (addJacobianW one sp x1 y1 z1 x2 y2 z2 x3 y3 z3).
Proof.
  intros O L S1 S2. unfold addJacobianW. cbv zeta.
  assert (X : forall l, forallb plain l = true -> wi (execW (sp + frame) (env sp (args9 x1 y1 z1 x2 y2 z2 x3 y3 z3)) l)) by (intros l PL; apply (wi_env sp _ [x1; y1; z1; x2; y2; z2; x3; y3; z3]); [assumption|argsl|first [assumption|unfold frame in *; lia]..]).
  assert (L8 : forall p, In p [x1; y1; z1; x2; y2; x3; y3; z3] -> own p) by (intros p P; apply L; cbn [In] in *; tauto).
  assert (F : forall x y z, In x [x1; x2] -> In y [y1; y2] -> In z [z1; z2] -> wi (isInfW x y z)).
  { intros x y z Hx Hy Hz. unfold isInfW. apply withinW_seq; [apply wi_zero; left; apply L; cbn [In] in *; tauto|intros c].
    apply withinW_seq; [destruct c; [apply wi_zero; left; apply L; cbn [In] in *; tauto|exact I]|intros c']. destruct c'; [exact I|apply wi_zero; left; apply L; cbn [In] in *; tauto]. }
  apply withinW_seq; [apply F; in_list|intros b; destruct b; [(apply X; reflexivity)|]].
  apply withinW_seq; [apply F; in_list|intros b; destruct b; [(apply X; reflexivity)|]].
  apply withinW_seq; [(apply X; reflexivity)|intros].
  apply withinW_seq; [apply wi_eq; [left; apply L; in_list|right; exact O]|intros].
  apply withinW_seq; [apply wi_eq; [left; apply L; in_list|right; exact O]|intros].
  destruct (_ && _); [apply wi_add1; first [assumption|unfold frame in *; lia]|].
  apply withinW_seq; [apply wi_eq; left; apply L; in_list|intros b; destruct b; [apply wi_addEq; first [assumption|unfold frame in *; lia]|]].
  match goal with |- context [if ?b then _ else _] => destruct b end; [apply wi_addZ2|apply wi_gen]; first [assumption|unfold frame in *; lia].
Qed.
Lemma wi_bytes p : own p \/ ro p -> wi (BytesW p).
Proof. intros H. apply withinW_seq; [apply wi_load, H|intros; exact I]. Qed.
Lemma wi_aff sp x y z : (forall p, In p [x; y; z] -> own p) -> lo <= sp -> sp + 2 * frame <= hi -> wi (toAffineW sp x y z).
Proof.
  intros L S1 S2. unfold toAffineW. cbv zeta. set (e := env sp _).
  assert (O : forall r, own (e r)) by (intros r; apply (own_env sp _ [x; y; z]); [argsl|assumption|assumption|unfold frame in *; lia]).
  apply withinW_seq; [|intros; apply withinW_seq; [apply wi_bytes; left; apply L; in_list|intros]; apply withinW_seq; [apply wi_bytes; left; apply L; in_list|intros; exact I]].
  unfold affineProg. cbn [execW].
  apply withinW_seq; [apply wi_ins; [reflexivity|apply O|intros; left; apply O]|intros].
  apply withinW_seq; [apply wi_inverse; [apply O|intros p P; unfold own, invFrame, frame in *; lia]|intros].
  repeat (apply withinW_seq; [apply wi_ins; [reflexivity|apply O|intros; left; apply O]|intros]). exact I.
Qed.
Lemma wi_slice p b : own p -> wi (SetByteSliceW p b).
Proof. intros H. unfold SetByteSliceW. destruct (_ <? _); [exact I|]. apply withinW_seq; [apply wi_put, H|intros; exact I]. Qed.
Lemma wi_from px py x y : own px -> own py -> wi (fromAffineW px py x y).
Proof. intros A B. apply withinW_seq; [apply wi_slice, A|intros []; [apply wi_slice, B|exact I]]. Qed.
Lemma wi_zeros a b c : own a -> own b -> own c -> wi (zerosW a b c).
Proof. intros A B C. unfold zerosW. apply withinW_seq; [apply wi_clear, A|intros]. apply withinW_seq; [apply wi_clear, B|intros]. apply wi_clear, C. Qed.

(** the calls, in a stack of four frames *)
Context (one beta : ptr) (tab : nat -> Z -> nat -> ptr).
Hypothesis (RO : ro one) (RB : ro beta) (RT : forall i b c, ro (tab i b c)) (Size : lo + 4 * frame <= hi).
Notation e := (locals lo).
Lemma own_loc r : own (e r). Proof. unfold own, locals. pose proof (idx_range r). unfold frame in *. lia. Qed.
Lemma wi_locs l : forallb plain l = true -> wi (execW (lo + frame) e l). Proof. intros PL. apply wi_exec; [exact PL|..]; intros; [apply own_loc|left; apply own_loc]. Qed.
Ltac locs := intros ? K; cbn [In] in K; repeat (destruct K as [<-|K]; [apply own_loc|]); destruct K.
Ltac fin := first [assumption|apply own_loc|locs|unfold frame in *; lia].
Lemma wi_Add x1 y1 x2 y2 : wi (curveAddW one lo x1 y1 x2 y2).
Proof.
  unfold curveAddW. destruct (_ && _); [exact I|]. destruct (_ && _); [exact I|]. cbv zeta.
  apply withinW_seq; [apply wi_from; fin|intros b; destruct b; [cbn [negb]|exact I]].
  apply withinW_seq; [apply wi_from; fin|intros b; destruct b; [cbn [negb]|exact I]].
  apply withinW_seq; [apply wi_zeros; fin|intros]. apply withinW_seq; [apply wi_locs; reflexivity|intros].
  apply withinW_seq; [apply wi_addJ; fin|intros]. apply withinW_seq; [apply wi_aff; fin|intros]. exact I.
Qed.
Lemma wi_Double x1 y1 : wi (curveDoubleW one lo x1 y1).
Proof.
  unfold curveDoubleW. destruct (_ =? _); [exact I|]. cbv zeta.
  apply withinW_seq; [apply wi_from; fin|intros b; destruct b; [cbn [negb]|exact I]].
  apply withinW_seq; [apply wi_zeros; fin|intros]. apply withinW_seq; [apply wi_locs; reflexivity|intros].
  apply withinW_seq; [apply wi_dbl; fin|intros]. apply withinW_seq; [apply wi_aff; fin|intros]. exact I.
Qed.
Lemma wi_OnCurve x y : wi (IsOnCurveW lo x y).
Proof.
  unfold IsOnCurveW. cbv zeta. apply withinW_seq; [apply wi_from; fin|intros b; destruct b; [cbn [negb]|exact I]].
  apply withinW_seq; [apply wi_locs; reflexivity|intros]. apply withinW_seq; [apply withinW_seq; [apply wi_ld; left; apply own_loc|intros; apply wi_st, own_loc]|intros].
  apply withinW_seq; [apply wi_locs; reflexivity|intros]. apply withinW_seq; [apply wi_eq; left; apply own_loc|intros; exact I].
Qed.
Lemma wi_addP x y yn z pos neg : own x -> own y -> own yn -> own z -> wi (addPW one lo x y yn z pos neg).
Proof.
  intros A B C D. unfold addPW. cbv zeta.
  assert (K : forall w, own w -> wi (addJacobianW one (lo + frame) (e qx) (e qy) (e qz) x w z (e qx) (e qy) (e qz))).
  { intros w W. apply wi_addJ; [assumption| |unfold frame in *; lia..]. intros p P. cbn [In] in P. repeat (destruct P as [<-|P]; [first [assumption|apply own_loc]|]). destruct P. }
  destruct (_ =? _); [apply K, B|]. destruct (_ =? _); [apply K, C|exact I].
Qed.
Lemma wi_bits ps n : own (py1 ps) -> own (pyn1 ps) -> own (py2 ps) -> own (pyn2 ps) -> forall p1 n1 p2 n2, wi (smBitsW one lo ps n p1 n1 p2 n2).
Proof.
  intros A B C D. induction n as [|n IH]; intros p1 n1 p2 n2; [exact I|]. cbn [smBitsW]. cbv zeta.
  apply withinW_seq; [apply wi_dbl; fin|intros]. apply withinW_seq; [apply wi_addP; fin|intros]. apply withinW_seq; [apply wi_addP; fin|intros]. apply IH.
Qed.
Lemma wi_loop ps : own (py1 ps) -> own (pyn1 ps) -> own (py2 ps) -> own (pyn2 ps) -> forall p1 n1 p2 n2, wi (smLoopW one lo ps p1 n1 p2 n2).
Proof.
  intros A B C D. induction p1 as [|a p1 IH]; intros n1 p2 n2; [exact I|]. cbn [smLoopW].
  destruct n1 as [|b n1]; [exact I|]. destruct p2 as [|c p2]; [exact I|]. destruct n2 as [|d n2]; [exact I|].
  apply withinW_seq; [apply wi_bits; assumption|intros]. apply IH.
Qed.
Lemma wi_Mult Bx By k : wi (ScalarMultW one beta lo Bx By k).
Proof.
  unfold ScalarMultW. cbv zeta. apply withinW_seq; [apply wi_zeros; fin|intros]. destruct (splitK (moduloReduce k)) as [[[k1 k2] g1] g2].
  apply withinW_seq; [apply wi_from; fin|intros b; destruct b; [cbn [negb]|exact I]].
  apply withinW_seq; [apply wi_locs; reflexivity|intros].
  apply withinW_seq; [apply wi_exec; [reflexivity|intros i [<-|[]]; apply own_loc|intros i s [<-|[]] [<-|[<-|[]]]; [left; apply own_loc|right; exact RB]]|intros].
  apply withinW_seq; [apply wi_locs; reflexivity|intros].
  destruct (if g1 =? -1 then _ else _) as [y1 yn1] eqn:E1. destruct (if g2 =? -1 then _ else _) as [y2 yn2] eqn:E2. destruct (NAF k1) as [c1 d1]. destruct (NAF k2) as [c2 d2].
  assert (own y1 /\ own yn1) by (destruct (g1 =? -1); injection E1 as <- <-; split; apply own_loc).
  assert (own y2 /\ own yn2) by (destruct (g2 =? -1); injection E2 as <- <-; split; apply own_loc).
  apply withinW_seq; [apply wi_loop; cbn [py1 pyn1 py2 pyn2]; tauto|intros]. apply withinW_seq; [apply wi_aff; fin|intros]. exact I.
Qed.
Lemma wi_sbm : forall k i, wi (sbmLoopW one lo tab i k).
Proof.
  induction k as [|b k IH]; intros i; [exact I|]. cbn [sbmLoopW]. cbv zeta. destruct (_ && _); [|exact I].
  repeat (apply withinW_seq; [first [apply wi_load; right; apply RT|apply wi_put; apply own_loc]|intros]).
  apply withinW_seq; [apply wi_addJ; fin|intros]. apply IH.
Qed.
Lemma wi_Table k : wi (scalarTableMultW one lo tab k).
Proof.
  unfold scalarTableMultW. cbv zeta. apply withinW_seq; [apply wi_zeros; fin|intros]. apply withinW_seq; [apply wi_sbm|intros b; destruct b; [cbn [negb]|exact I]].
  apply withinW_seq; [apply wi_aff; fin|intros]. exact I.
Qed.
End where_.

(** ** Goroutines with their own stacks *)
Section threads.
Context (g : globals) (base : ptr) (stack : nat -> ptr) (m : mem) (H : layout g base stack m).
Lemma servePoint_within i r : withinW (owns stack i) (shared base) (servePoint g (stack i) r).
Proof.
  assert (S : stack i + 4 * frame <= stack i + stackSize) by (unfold frame, stackSize; lia).
  pose proof (proj1 (lOne _ _ _ _ H)) as A. pose proof (proj1 (lBeta _ _ _ _ H)) as B.
  destruct r; cbn [servePoint].
  - apply (wi_Add _ _ base (gOne g) (gBeta g) (gTab g)); [assumption|intros; apply (lTab _ _ _ _ H)|assumption].
  - apply (wi_Double _ _ base (gOne g) (gBeta g) (gTab g)); [assumption|intros; apply (lTab _ _ _ _ H)|assumption].
  - apply (wi_Mult _ _ base (gOne g) (gBeta g) (gTab g)); [assumption|assumption|intros; apply (lTab _ _ _ _ H)|assumption].
  - apply (wi_Table _ _ base (gOne g) (gBeta g) (gTab g)); try assumption; intros; apply (lTab _ _ _ _ H).
  - apply (wi_Table _ _ base (gOne g) (gBeta g) (gTabH g)); try assumption; intros; apply (lTab _ _ _ _ H).
Qed.
Lemma serveW_within i r : withinW (owns stack i) (shared base) (serveW g (stack i) r).
Proof.
  assert (S : stack i + 4 * frame <= stack i + stackSize) by (unfold frame, stackSize; lia).
  destruct r as [r|x y]; cbn [serveW]; (apply withinW_seq; [|intros; exact I]).
  - apply servePoint_within.
  - apply (wi_OnCurve _ _ base (gOne g) (gTab g)); try assumption; intros; apply (lTab _ _ _ _ H).
Qed.
Lemma servePoint_answer i r : request_ok r -> fst (runW (servePoint g (stack i) r) m) = answer (tableOf (gTab g) m) (tableOf (gTabH g) m) r.
Proof.
  intros K. rewrite <- (serve_answer g base stack m H i r K). destruct r; cbn [servePoint serve]; [apply simr_Add|apply simr_Double|apply simr_Mult|apply simr_Table|apply simr_Table].
Qed.
Lemma serveW_answer i r : wrequest_ok r -> fst (runW (serveW g (stack i) r) m) = answerW (tableOf (gTab g) m) (tableOf (gTabH g) m) r.
Proof.
  intros K. destruct r as [r|x y]; cbn [serveW answerW]; rewrite runW_seq; cbn [runW fst]; f_equal; [apply servePoint_answer, K|apply run_OnCurve].
Qed.
End threads.
