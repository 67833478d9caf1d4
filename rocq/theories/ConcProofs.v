(** * Interleaved calls return what they return alone *)
From Coq Require Import ZArith List Bool Lia.
From Verif Require Import Go Wire Big Field Koblitz KoblitzMem SpecMem KoblitzConc SpecConc MemProofs MemProofs2.
Import ListNotations.
Open Scope Z_scope.
Local Open Scope code_scope.

(** ** Running code alone *)
Fixpoint run {A : Type} (c : code A) (m : mem) : A * mem :=
  match c with Ret a => (a, m) | Rd p k => run (k (m p)) m | Wr p v k => run k (upd m p v) end.
Fixpoint steps {A : Type} (c : code A) (m : mem) : nat :=
  match c with Ret a => O | Rd p k => S (steps (k (m p)) m) | Wr p v k => S (steps k (upd m p v)) end.
Fixpoint within {A : Type} (own ro : ptr -> Prop) (c : code A) : Prop :=
  match c with
  | Ret _ => True
  | Rd p k => (own p \/ ro p) /\ forall v, within own ro (k v)
  | Wr p v k => own p /\ within own ro k
  end.
Lemma run_ext {A : Type} own ro (c : code A) : forall m m', within own ro c -> (forall p, own p \/ ro p -> m p = m' p) ->
  fst (run c m) = fst (run c m') /\ steps c m = steps c m'.
Proof.
  induction c as [a|p k IH|p v k IH]; intros m m' W E; [split; reflexivity|..].
  - destruct W as [P W]. cbn [run steps]. rewrite (E p P). destruct (IH (m' p) m m' (W _) E) as [-> ->]. split; reflexivity.
  - destruct W as [P W]. cbn [run steps]. destruct (IH (upd m p v) (upd m' p v) W) as [-> ->]; [|split; reflexivity].
    intros q Q. unfold upd. destruct (q =? p); [reflexivity|apply E, Q].
Qed.
Lemma steps_0 {A : Type} (c : code A) m : steps c m = O -> exists a, c = Ret a.
Proof. destruct c; cbn [steps]; intros H; [eexists; reflexivity|discriminate H..]. Qed.

(** ** Any schedule *)
Section inter.
Context {A : Type} (own : nat -> ptr -> Prop) (ro : ptr -> Prop).
Hypothesis (Apart : forall i j p, i <> j -> own i p -> ~ own j p) (Ro : forall i p, own i p -> ~ ro p).
Lemma step_inv (t : nat -> code A) m i : (forall j, within (own j) ro (t j)) ->
  let t' := fun j => if Nat.eqb j i then fst (stepC (t i) m) else t j in let m' := snd (stepC (t i) m) in
  (forall j, within (own j) ro (t' j)) /\ (forall j, fst (run (t' j) m') = fst (run (t j) m)) /\
  (forall j, steps (t' j) m' = (steps (t j) m - if Nat.eqb j i then 1 else 0)%nat) /\ (forall p, (forall j, ~ own j p) -> m' p = m p).
Proof.
  intros W. cbv zeta.
  assert (Ch : forall p, ~ own i p -> snd (stepC (t i) m) p = m p).
  { intros p N. specialize (W i). destruct (t i) as [a|q k|q v k]; cbn [stepC snd]; try reflexivity. apply upd_ne. intros E. subst q. destruct W as [W _]. exact (N W). }
  split; [|split; [|split]].
  - intros j. destruct (Nat.eqb_spec j i) as [->|N]; [|apply W]. specialize (W i). destruct (t i) as [a|q k|q v k]; cbn [stepC fst]; [exact W|apply W|apply W].
  - intros j. destruct (Nat.eqb_spec j i) as [->|N]; [destruct (t i); reflexivity|].
    apply (run_ext (own j) ro); [apply W|]. intros p [P|P]; apply Ch; [apply (Apart j i); auto|intros Q; exact (Ro i p Q P)].
  - intros j. destruct (Nat.eqb_spec j i) as [->|N]; [destruct (t i); cbn [stepC fst snd steps]; lia|]. rewrite Nat.sub_0_r.
    apply (run_ext (own j) ro); [apply W|]. intros p [P|P]; apply Ch; [apply (Apart j i); auto|intros Q; exact (Ro i p Q P)].
  - intros p N. apply Ch, N.
Qed.
Lemma inter_inv s : forall (t : nat -> code A) m, (forall j, within (own j) ro (t j)) ->
  let t' := fst (interleave s t m) in let m' := snd (interleave s t m) in
  (forall j, within (own j) ro (t' j)) /\ (forall j, fst (run (t' j) m') = fst (run (t j) m)) /\
  (forall j, steps (t' j) m' = (steps (t j) m - count_occ Nat.eq_dec s j)%nat) /\ (forall p, (forall j, ~ own j p) -> m' p = m p).
Proof.
  induction s as [|i s IH]; intros t m W.
  - cbn. repeat split; auto. intros j. lia.
  - pose proof (step_inv t m i W) as (W1 & R1 & S1 & M1). cbn [interleave]. destruct (stepC (t i) m) as [c m1]. cbn [fst snd] in *.
    destruct (IH _ m1 W1) as (W2 & R2 & S2 & M2). cbv zeta in *. split; [exact W2|]. split; [|split].
    + intros j. rewrite R2. apply R1.
    + intros j. rewrite S2, S1. cbn [count_occ]. destruct (Nat.eqb_spec j i) as [->|N]; destruct (Nat.eq_dec i _) as [E|E]; try congruence; lia.
    + intros p P. rewrite M2, M1 by exact P. reflexivity.
Qed.
End inter.

(** ** The code computes what KoblitzMem.v computes *)
Lemma run_seq {A B : Type} (c : code A) (f : A -> code B) : forall m, run (seqC c f) m = run (f (fst (run c m))) (snd (run c m)).
Proof. induction c as [a|p k IH|p v k IH]; intros m; cbn [seqC run]; [reflexivity|apply IH|apply IH]. Qed.
Lemma run_ret {A : Type} (a : A) m : run (Ret a) m = (a, m). Proof. reflexivity. Qed.
Lemma run_rd p m : run (rd p) m = (m p, m). Proof. reflexivity. Qed.
Lemma run_wr p v m : run (wr p v) m = (tt, upd m p v). Proof. reflexivity. Qed.
Lemma run_ins e i m : run (insC e i) m = (tt, step e i m). Proof. destruct i; reflexivity. Qed.
Lemma run_exec e l : forall m, run (execC e l) m = (tt, exec e l m).
Proof. induction l as [|i l IH]; intros m; [reflexivity|]. cbn [execC]. rewrite run_seq, run_ins. cbn [fst snd]. rewrite IH. reflexivity. Qed.
Lemma run_isZero p m : run (isZeroC p) m = (fIsZero (m p), m). Proof. reflexivity. Qed.
Lemma run_equals p q m : run (equalsC p q) m = (fEquals (m p) (m q), m). Proof. reflexivity. Qed.
Ltac runs := repeat (rewrite ?run_seq, ?run_exec, ?run_isZero, ?run_equals, ?run_rd, ?run_wr, ?run_ret; cbn [fst snd]).
Lemma run_dbl one sp x1 y1 z1 x3 y3 z3 m : run (doubleJacobianC one sp x1 y1 z1 x3 y3 z3) m = (tt, doubleJacobianM one sp x1 y1 z1 x3 y3 z3 m).
Proof. unfold doubleJacobianC, doubleJacobianM. cbv zeta. runs. destruct (_ || _); runs; [reflexivity|]. destruct (fEquals _ _); rewrite run_exec; exact eq_refl. Qed.
Lemma run_add1 one sp x1 y1 z1 x2 y2 x3 y3 z3 m : run (addZ1AndZ2EqualsOneC one sp x1 y1 z1 x2 y2 x3 y3 z3) m = (tt, addZ1AndZ2EqualsOneM one sp x1 y1 z1 x2 y2 x3 y3 z3 m).
Proof. unfold addZ1AndZ2EqualsOneC, addZ1AndZ2EqualsOneM. cbv zeta. runs. destruct (fEquals _ _); [|apply run_exec]. runs. destruct (fEquals _ _); [apply run_dbl|apply run_exec]. Qed.
Lemma run_addEq one sp x1 y1 z1 x2 y2 x3 y3 z3 m : run (addZ1EqualsZ2C one sp x1 y1 z1 x2 y2 x3 y3 z3) m = (tt, addZ1EqualsZ2M one sp x1 y1 z1 x2 y2 x3 y3 z3 m).
Proof. unfold addZ1EqualsZ2C, addZ1EqualsZ2M. cbv zeta. runs. destruct (fEquals _ _); [|apply run_exec]. runs. destruct (fEquals _ _); [apply run_dbl|apply run_exec]. Qed.
Lemma run_addZ2 one sp x1 y1 z1 x2 y2 x3 y3 z3 m : run (addZ2EqualsOneC one sp x1 y1 z1 x2 y2 x3 y3 z3) m = (tt, addZ2EqualsOneM one sp x1 y1 z1 x2 y2 x3 y3 z3 m).
Proof. unfold addZ2EqualsOneC, addZ2EqualsOneM. cbv zeta. runs. destruct (fEquals _ _); [|apply run_exec]. runs. destruct (fEquals _ _); [apply run_dbl|apply run_exec]. Qed.
Lemma run_gen one sp x1 y1 z1 x2 y2 z2 x3 y3 z3 m : run (addGenericC one sp x1 y1 z1 x2 y2 z2 x3 y3 z3) m = (tt, addGenericM one sp x1 y1 z1 x2 y2 z2 x3 y3 z3 m).
Proof. unfold addGenericC, addGenericM. cbv zeta. rewrite run_seq, run_exec. cbn [fst snd]. generalize (exec (env sp (args9 x1 y1 z1 x2 y2 z2 x3 y3 z3)) likeProg2 m). intros m1. runs. destruct (fEquals _ _); [|apply run_exec]. runs. destruct (fEquals _ _); [apply run_dbl|apply run_exec]. Qed.
Lemma run_addJ one sp x1 y1 z1 x2 y2 z2 x3 y3 z3 m : run (addJacobianC one sp x1 y1 z1 x2 y2 z2 x3 y3 z3) m = (tt, addJacobianM one sp x1 y1 z1 x2 y2 z2 x3 y3 z3 m).
Proof.
  unfold addJacobianC, addJacobianM, isInfC. cbv zeta. runs. destruct (_ || _); runs; [reflexivity|]. destruct (_ || _); runs; [reflexivity|].
  destruct (_ && _); [apply run_add1|]. runs. destruct (fEquals _ _); [apply run_addEq|]. destruct (fEquals _ _); [apply run_addZ2|apply run_gen].
Qed.
Lemma run_aff sp x y z m : run (toAffineC sp x y z) m = toAffineM sp x y z m.
Proof. unfold toAffineC, toAffineM. cbv zeta. runs. reflexivity. Qed.
Lemma run_zeros a b c m : run (zeros a b c) m = (tt, upd (upd (upd m a fZero) b fZero) c fZero). Proof. reflexivity. Qed.
Lemma run_from {B : Type} px py x y (f : bool -> code (R B)) m : f false = Ret Panic ->
  fst (run (seqC (fromAffineC px py x y) f) m) = match fromAffineM px py x y m with Ok m' => fst (run (f true) m') | Panic => Panic end.
Proof.
  intros F. unfold fromAffineC, fromAffineM. destruct (fSetByteSlice (bigBytes x)) as [v|]; cbn [bind]; [|cbn [seqC]; rewrite F; reflexivity].
  destruct (fSetByteSlice (bigBytes y)) as [w|]; cbn [bind]; [|cbn [seqC]; rewrite F; reflexivity]. reflexivity.
Qed.
Lemma result_ok {B : Type} (q : B * mem) : result (Ok q) = Ok (fst q). Proof. reflexivity. Qed.
Lemma run_Add one sp x1 y1 x2 y2 m : fst (run (AddC one sp x1 y1 x2 y2) m) = result (AddM one sp x1 y1 x2 y2 m).
Proof.
  unfold AddC, AddM. destruct (_ && _); [reflexivity|]. destruct (_ && _); [reflexivity|]. cbv zeta.
  rewrite run_from by reflexivity. destruct (fromAffineM _ _ x1 y1 m) as [m1|]; cbn [bind]; [|reflexivity]. cbn [negb].
  rewrite run_from by reflexivity. destruct (fromAffineM _ _ x2 y2 m1) as [m2|]; cbn [bind]; [|reflexivity]. cbn [negb].
  rewrite run_seq, run_zeros. runs. rewrite run_addJ. runs. rewrite run_aff. reflexivity.
Qed.
Lemma run_Double one sp x1 y1 m : fst (run (DoubleC one sp x1 y1) m) = result (DoubleM one sp x1 y1 m).
Proof.
  unfold DoubleC, DoubleM. destruct (_ =? _); [reflexivity|]. cbv zeta.
  rewrite run_from by reflexivity. destruct (fromAffineM _ _ x1 y1 m) as [m1|]; cbn [bind]; [|reflexivity]. cbn [negb].
  rewrite run_seq, run_zeros. runs. rewrite run_dbl. runs. rewrite run_aff. reflexivity.
Qed.
Lemma run_addP one sp x y yn z pos neg m : run (addPC one sp x y yn z pos neg) m = (tt, addPM one sp x y yn z pos neg m).
Proof. unfold addPC, addPM. cbv zeta. destruct (_ =? _); [apply run_addJ|]. destruct (_ =? _); [apply run_addJ|reflexivity]. Qed.
Lemma run_bits one sp ps n : forall p1 n1 p2 n2 m, run (smBitsC one sp ps n p1 n1 p2 n2) m = (tt, smBitsM one sp ps n p1 n1 p2 n2 m).
Proof.
  induction n as [|n IH]; intros p1 n1 p2 n2 m; [reflexivity|]. cbn [smBitsC smBitsM]. cbv zeta.
  rewrite run_seq, run_dbl. cbn [fst snd]. rewrite run_seq, run_addP. cbn [fst snd]. rewrite run_seq, run_addP. cbn [fst snd]. apply IH.
Qed.
Lemma run_loop one sp ps : forall p1 n1 p2 n2 m, run (smLoopC one sp ps p1 n1 p2 n2) m = (tt, smLoopM one sp ps p1 n1 p2 n2 m).
Proof.
  induction p1 as [|a p1 IH]; intros n1 p2 n2 m; [reflexivity|]. cbn [smLoopC smLoopM].
  destruct n1 as [|b n1]; [reflexivity|]. destruct p2 as [|c p2]; [reflexivity|]. destruct n2 as [|d n2]; [reflexivity|].
  rewrite run_seq, run_bits. cbn [fst snd]. apply IH.
Qed.
Lemma run_Mult one beta sp Bx By k m : fst (run (ScalarMultC one beta sp Bx By k) m) = result (ScalarMultM one beta sp Bx By k m).
Proof.
  unfold ScalarMultC, ScalarMultM. cbv zeta. rewrite run_seq, run_zeros. cbn [fst snd]. destruct (splitK (moduloReduce k)) as [[[k1 k2] g1] g2].
  rewrite run_from by reflexivity. destruct (fromAffineM _ _ Bx By _) as [m1|]; cbn [bind]; [|reflexivity]. cbn [negb].
  destruct (if g1 =? -1 then _ else _) as [y1 yn1]. destruct (if g2 =? -1 then _ else _) as [y2 yn2]. destruct (NAF k1) as [a1 b1]. destruct (NAF k2) as [a2 b2].
  runs. rewrite run_loop. runs. rewrite run_aff. reflexivity.
Qed.
Lemma run_sbm one sp tab : forall k i m, match sbmLoopM one sp tab i k m with
  | Ok m' => run (sbmLoopC one sp tab i k) m = (true, m') | Panic => fst (run (sbmLoopC one sp tab i k) m) = false end.
Proof.
  induction k as [|b k IH]; intros i m; [reflexivity|]. cbn [sbmLoopM sbmLoopC]. cbv zeta. destruct (_ && _); [|reflexivity].
  runs. rewrite run_addJ. cbn [snd]. apply IH.
Qed.
Lemma run_Table one sp tab k m : fst (run (scalarTableMultC one sp tab k) m) = result (scalarTableMultM one sp tab k m).
Proof.
  unfold scalarTableMultC, scalarTableMultM. cbv zeta. rewrite run_seq, run_zeros. cbn [fst snd]. rewrite run_seq.
  set (m1 := upd _ _ _). pose proof (run_sbm one sp tab (moduloReduce k) (32 - length (moduloReduce k)) m1) as H.
  destruct (sbmLoopM _ _ _ _ _ _) as [m2|]; cbn [bind].
  - rewrite H. cbn [fst snd negb]. runs. rewrite run_aff. reflexivity.
  - rewrite H. reflexivity.
Qed.

(** ** Where the code reads and writes *)
Lemma within_seq {A B : Type} own ro (c : code A) (f : A -> code B) : within own ro c -> (forall a, within own ro (f a)) -> within own ro (seqC c f).
Proof. intros W F. induction c as [a|p k IH|p v k IH]; cbn [seqC within] in *; [apply F|split; [apply W|intros v; apply IH, W]|split; [apply W|apply IH, W]]. Qed.
Section where_.
Context (lo hi base : ptr).
Let own p := lo <= p < hi.
Let ro p := p < base.
Notation wi := (within own ro).
Lemma wi_rd p : own p \/ ro p -> wi (rd p). Proof. intros H. split; [exact H|intros v; exact I]. Qed.
Lemma wi_wr p v : own p -> wi (wr p v). Proof. intros H. split; [exact H|exact I]. Qed.
Lemma wi_ins e i : own (e (dst i)) -> (forall s, In s (srcs i) -> own (e s) \/ ro (e s)) -> wi (insC e i).
Proof.
  intros D S. destruct i; cbn [dst] in D; cbn [srcs] in S; cbn [insC];
  repeat first [apply wi_wr; exact D|apply within_seq; [apply wi_rd; apply S; in_list|intros]].
Qed.
Lemma wi_exec e l : (forall i, In i l -> own (e (dst i))) -> (forall i s, In i l -> In s (srcs i) -> own (e s) \/ ro (e s)) -> wi (execC e l).
Proof.
  induction l as [|i l IH]; intros D S; [exact I|]. cbn [execC]. apply within_seq.
  - apply wi_ins; [apply D; left; reflexivity|intros s; apply S; left; reflexivity].
  - intros _. apply IH; [intros j J; apply D; right; exact J|intros j s J; apply S; right; exact J].
Qed.
Lemma own_env sp a l r : (forall r p, a r = Some p -> In p l) -> (forall p, In p l -> own p) -> lo <= sp -> sp + frame <= hi -> own (env sp a r).
Proof.
  intros A L S1 S2. unfold env. destruct (a r) as [p|] eqn:E; [apply L, (A r), E|]. unfold own. pose proof (idx_range r). lia.
Qed.
Lemma wi_env sp a pl l : (forall r p, a r = Some p -> In p pl) -> (forall p, In p pl -> own p) -> lo <= sp -> sp + frame <= hi -> wi (execC (env sp a) l).
Proof. intros A L S1 S2. apply wi_exec; intros; [apply (own_env sp a pl); assumption|left; apply (own_env sp a pl); assumption]. Qed.
Lemma wi_zero p : own p \/ ro p -> wi (isZeroC p). Proof. intros H. apply within_seq; [apply wi_rd, H|intros; exact I]. Qed.
Lemma wi_eq p q : own p \/ ro p -> own q \/ ro q -> wi (equalsC p q).
Proof. intros H K. apply within_seq; [apply wi_rd, H|intros]. apply within_seq; [apply wi_rd, K|intros; exact I]. Qed.
Ltac argsl := let r := fresh in let p := fresh in let E := fresh in intros r p E; destruct r; try discriminate E; injection E as <-; in_list.
Lemma wi_dbl one sp x1 y1 z1 x3 y3 z3 : ro one -> (forall p, In p [x1; y1; z1; x3; y3; z3] -> own p) -> lo <= sp -> sp + frame <= hi ->
  wi (doubleJacobianC one sp x1 y1 z1 x3 y3 z3).
Proof.
  intros O L S1 S2. unfold doubleJacobianC. cbv zeta.
  assert (X : forall l, wi (execC (env sp (args6 x1 y1 z1 x3 y3 z3)) l)) by (intros l; apply (wi_env sp _ [x1; y1; z1; x3; y3; z3]); [argsl|assumption..]).
  apply within_seq; [apply wi_zero; left; apply L; in_list|intros]. apply within_seq; [apply wi_zero; left; apply L; in_list|intros].
  destruct (_ || _); [apply X|]. apply within_seq; [apply X|intros]. apply within_seq; [apply wi_eq; [left; apply L; in_list|right; exact O]|intros b].
  destruct b; apply X.
Qed.
Ltac add8 sp x1 y1 z1 x2 y2 x3 y3 z3 L :=
  assert (X : forall l, wi (execC (env sp (args8 x1 y1 z1 x2 y2 x3 y3 z3)) l)) by (intros l; apply (wi_env sp _ [x1; y1; z1; x2; y2; x3; y3; z3]); [argsl|first [assumption|unfold frame in *; lia]..]);
  assert (D : forall r, own (env sp (args8 x1 y1 z1 x2 y2 x3 y3 z3) r)) by (intros r; apply (own_env sp _ [x1; y1; z1; x2; y2; x3; y3; z3]); [argsl|first [assumption|unfold frame in *; lia]..]);
  apply within_seq; [apply X|intros];
  apply within_seq; [apply wi_eq; left; first [apply D|apply L; in_list]|intros b; destruct b; [|apply X]];
  apply within_seq; [apply wi_eq; left; first [apply D|apply L; in_list]|intros b; destruct b; [|apply X]];
  apply wi_dbl; [assumption|intros p P; apply L; cbn [In] in *; tauto|unfold frame in *; lia|unfold frame in *; lia].
Lemma wi_add1 one sp x1 y1 z1 x2 y2 x3 y3 z3 : ro one -> (forall p, In p [x1; y1; z1; x2; y2; x3; y3; z3] -> own p) -> lo <= sp -> sp + 2 * frame <= hi ->
  wi (addZ1AndZ2EqualsOneC one sp x1 y1 z1 x2 y2 x3 y3 z3).
Proof. intros O L S1 S2. unfold addZ1AndZ2EqualsOneC. cbv zeta. add8 sp x1 y1 z1 x2 y2 x3 y3 z3 L. Qed.
Lemma wi_addEq one sp x1 y1 z1 x2 y2 x3 y3 z3 : ro one -> (forall p, In p [x1; y1; z1; x2; y2; x3; y3; z3] -> own p) -> lo <= sp -> sp + 2 * frame <= hi ->
  wi (addZ1EqualsZ2C one sp x1 y1 z1 x2 y2 x3 y3 z3).
Proof. intros O L S1 S2. unfold addZ1EqualsZ2C. cbv zeta. add8 sp x1 y1 z1 x2 y2 x3 y3 z3 L. Qed.
Lemma wi_addZ2 one sp x1 y1 z1 x2 y2 x3 y3 z3 : ro one -> (forall p, In p [x1; y1; z1; x2; y2; x3; y3; z3] -> own p) -> lo <= sp -> sp + 2 * frame <= hi ->
  wi (addZ2EqualsOneC one sp x1 y1 z1 x2 y2 x3 y3 z3).
Proof. intros O L S1 S2. unfold addZ2EqualsOneC. cbv zeta. add8 sp x1 y1 z1 x2 y2 x3 y3 z3 L. Qed.
Lemma wi_gen one sp x1 y1 z1 x2 y2 z2 x3 y3 z3 : ro one -> (forall p, In p [x1; y1; z1; x2; y2; z2; x3; y3; z3] -> own p) -> lo <= sp -> sp + 2 * frame <= hi ->
  wi (addGenericC one sp x1 y1 z1 x2 y2 z2 x3 y3 z3).
Proof.
  intros O L S1 S2. unfold addGenericC. cbv zeta.
  assert (X : forall l, wi (execC (env sp (args9 x1 y1 z1 x2 y2 z2 x3 y3 z3)) l)) by (intros l; apply (wi_env sp _ [x1; y1; z1; x2; y2; z2; x3; y3; z3]); [argsl|first [assumption|unfold frame in *; lia]..]).
  assert (D : forall r, own (env sp (args9 x1 y1 z1 x2 y2 z2 x3 y3 z3) r)) by (intros r; apply (own_env sp _ [x1; y1; z1; x2; y2; z2; x3; y3; z3]); [argsl|first [assumption|unfold frame in *; lia]..]).
  apply within_seq; [apply X|intros].
  apply within_seq; [apply wi_eq; left; apply D|intros b; destruct b; [|apply X]].
  apply within_seq; [apply wi_eq; left; apply D|intros b; destruct b; [|apply X]].
  apply wi_dbl; [assumption|intros p P; apply L; cbn [In] in *; tauto|unfold frame in *; lia|unfold frame in *; lia].
Qed.
Lemma wi_addJ one sp x1 y1 z1 x2 y2 z2 x3 y3 z3 : ro one -> (forall p, In p [x1; y1; z1; x2; y2; z2; x3; y3; z3] -> own p) -> lo <= sp -> sp + 3 * frame <= hi ->
  wi (addJacobianC one sp x1 y1 z1 x2 y2 z2 x3 y3 z3).
Proof.
  intros O L S1 S2. unfold addJacobianC. cbv zeta.
  assert (X : forall l, wi (execC (env sp (args9 x1 y1 z1 x2 y2 z2 x3 y3 z3)) l)) by (intros l; apply (wi_env sp _ [x1; y1; z1; x2; y2; z2; x3; y3; z3]); [argsl|first [assumption|unfold frame in *; lia]..]).
  assert (L8 : forall p, In p [x1; y1; z1; x2; y2; x3; y3; z3] -> own p) by (intros p P; apply L; cbn [In] in *; tauto).
  assert (F : forall x y z, In x [x1; x2] -> In y [y1; y2] -> In z [z1; z2] -> wi (isInfC x y z)).
  { intros x y z Hx Hy Hz. unfold isInfC. repeat (apply within_seq; [apply wi_zero; left; apply L; cbn [In] in *; tauto|intros]). exact I. }
  apply within_seq; [apply F; in_list|intros b; destruct b; [apply X|]].
  apply within_seq; [apply F; in_list|intros b; destruct b; [apply X|]].
  apply within_seq; [apply X|intros].
  apply within_seq; [apply wi_eq; [left; apply L; in_list|right; exact O]|intros].
  apply within_seq; [apply wi_eq; [left; apply L; in_list|right; exact O]|intros].
  destruct (_ && _); [apply wi_add1; first [assumption|unfold frame in *; lia]|].
  apply within_seq; [apply wi_eq; left; apply L; in_list|intros b; destruct b; [apply wi_addEq; first [assumption|unfold frame in *; lia]|]].
  match goal with |- context [if ?b then _ else _] => destruct b end; [apply wi_addZ2|apply wi_gen]; first [assumption|unfold frame in *; lia].
Qed.
Lemma wi_aff sp x y z : (forall p, In p [x; y; z] -> own p) -> lo <= sp -> sp + frame <= hi -> wi (toAffineC sp x y z).
Proof.
  intros L S1 S2. unfold toAffineC. cbv zeta. apply within_seq; [apply (wi_env sp _ [x; y; z]); [argsl|assumption..]|intros].
  apply within_seq; [apply wi_rd; left; apply L; in_list|intros]. apply within_seq; [apply wi_rd; left; apply L; in_list|intros]. exact I.
Qed.
Lemma wi_from px py x y : own px -> own py -> wi (fromAffineC px py x y).
Proof.
  intros A B. unfold fromAffineC. destruct (fSetByteSlice (bigBytes x)) as [v|]; [|exact I]. destruct (fSetByteSlice (bigBytes y)) as [w|]; [|exact I].
  apply within_seq; [apply wi_wr, A|intros]. apply within_seq; [apply wi_wr, B|intros]. exact I.
Qed.
Lemma wi_zeros a b c : own a -> own b -> own c -> wi (zeros a b c).
Proof. intros A B C. unfold zeros. repeat (apply within_seq; [apply wi_wr; assumption|intros]). apply wi_wr, C. Qed.

(** the calls, in a stack of four frames *)
Context (one beta : ptr) (tab : nat -> Z -> nat -> ptr).
Hypothesis (RO : ro one) (RB : ro beta) (RT : forall i b c, ro (tab i b c)) (Size : lo + 4 * frame <= hi).
Notation e := (locals lo).
Lemma own_loc r : own (e r). Proof. unfold own, locals. pose proof (idx_range r). unfold frame in *. lia. Qed.
Lemma wi_locs l : wi (execC e l). Proof. apply wi_exec; intros; [apply own_loc|left; apply own_loc]. Qed.
Ltac locs := intros ? K; cbn [In] in K; repeat (destruct K as [<-|K]; [apply own_loc|]); destruct K.
Ltac fin := first [assumption|apply own_loc|locs|unfold frame in *; lia].
Lemma wi_Add x1 y1 x2 y2 : wi (AddC one lo x1 y1 x2 y2).
Proof.
  unfold AddC. destruct (_ && _); [exact I|]. destruct (_ && _); [exact I|]. cbv zeta.
  apply within_seq; [apply wi_from; fin|intros b; destruct b; [cbn [negb]|exact I]].
  apply within_seq; [apply wi_from; fin|intros b; destruct b; [cbn [negb]|exact I]].
  apply within_seq; [apply wi_zeros; fin|intros]. apply within_seq; [apply wi_locs|intros].
  apply within_seq; [apply wi_addJ; fin|intros]. apply within_seq; [apply wi_aff; fin|intros]. exact I.
Qed.
Lemma wi_Double x1 y1 : wi (DoubleC one lo x1 y1).
Proof.
  unfold DoubleC. destruct (_ =? _); [exact I|]. cbv zeta.
  apply within_seq; [apply wi_from; fin|intros b; destruct b; [cbn [negb]|exact I]].
  apply within_seq; [apply wi_zeros; fin|intros]. apply within_seq; [apply wi_locs|intros].
  apply within_seq; [apply wi_dbl; fin|intros]. apply within_seq; [apply wi_aff; fin|intros]. exact I.
Qed.
Lemma wi_addP x y yn z pos neg : own x -> own y -> own yn -> own z -> wi (addPC one lo x y yn z pos neg).
Proof.
  intros A B C D. unfold addPC. cbv zeta.
  assert (K : forall w, own w -> wi (addJacobianC one (lo + frame) (e qx) (e qy) (e qz) x w z (e qx) (e qy) (e qz))).
  { intros w W. apply wi_addJ; [assumption| |unfold frame in *; lia..]. intros p P. cbn [In] in P. repeat (destruct P as [<-|P]; [first [assumption|apply own_loc]|]). destruct P. }
  destruct (_ =? _); [apply K, B|]. destruct (_ =? _); [apply K, C|exact I].
Qed.
Lemma wi_bits ps n : own (py1 ps) -> own (pyn1 ps) -> own (py2 ps) -> own (pyn2 ps) -> forall p1 n1 p2 n2, wi (smBitsC one lo ps n p1 n1 p2 n2).
Proof.
  intros A B C D. induction n as [|n IH]; intros p1 n1 p2 n2; [exact I|]. cbn [smBitsC]. cbv zeta.
  apply within_seq; [apply wi_dbl; fin|intros]. apply within_seq; [apply wi_addP; fin|intros]. apply within_seq; [apply wi_addP; fin|intros]. apply IH.
Qed.
Lemma wi_loop ps : own (py1 ps) -> own (pyn1 ps) -> own (py2 ps) -> own (pyn2 ps) -> forall p1 n1 p2 n2, wi (smLoopC one lo ps p1 n1 p2 n2).
Proof.
  intros A B C D. induction p1 as [|a p1 IH]; intros n1 p2 n2; [exact I|]. cbn [smLoopC].
  destruct n1 as [|b n1]; [exact I|]. destruct p2 as [|c p2]; [exact I|]. destruct n2 as [|d n2]; [exact I|].
  apply within_seq; [apply wi_bits; assumption|intros]. apply IH.
Qed.
Lemma wi_Mult Bx By k : wi (ScalarMultC one beta lo Bx By k).
Proof.
  unfold ScalarMultC. cbv zeta. apply within_seq; [apply wi_zeros; fin|intros]. destruct (splitK (moduloReduce k)) as [[[k1 k2] g1] g2].
  apply within_seq; [apply wi_from; fin|intros b; destruct b; [cbn [negb]|exact I]].
  apply within_seq; [apply wi_locs|intros].
  apply within_seq; [apply wi_exec; [intros i [<-|[]]; apply own_loc|intros i s [<-|[]] [<-|[<-|[]]]; [left; apply own_loc|right; exact RB]]|intros].
  apply within_seq; [apply wi_locs|intros].
  destruct (if g1 =? -1 then _ else _) as [y1 yn1] eqn:E1. destruct (if g2 =? -1 then _ else _) as [y2 yn2] eqn:E2. destruct (NAF k1) as [c1 d1]. destruct (NAF k2) as [c2 d2].
  assert (own y1 /\ own yn1) by (destruct (g1 =? -1); injection E1 as <- <-; split; apply own_loc).
  assert (own y2 /\ own yn2) by (destruct (g2 =? -1); injection E2 as <- <-; split; apply own_loc).
  apply within_seq; [apply wi_loop; cbn [py1 pyn1 py2 pyn2]; tauto|intros]. apply within_seq; [apply wi_aff; fin|intros]. exact I.
Qed.
Lemma wi_sbm : forall k i, wi (sbmLoopC one lo tab i k).
Proof.
  induction k as [|b k IH]; intros i; [exact I|]. cbn [sbmLoopC]. cbv zeta. destruct (_ && _); [|exact I].
  repeat (apply within_seq; [first [apply wi_rd; right; apply RT|apply wi_wr; apply own_loc]|intros]).
  apply within_seq; [apply wi_addJ; fin|intros]. apply IH.
Qed.
Lemma wi_Table k : wi (scalarTableMultC one lo tab k).
Proof.
  unfold scalarTableMultC. cbv zeta. apply within_seq; [apply wi_zeros; fin|intros]. apply within_seq; [apply wi_sbm|intros b; destruct b; [cbn [negb]|exact I]].
  apply within_seq; [apply wi_aff; fin|intros]. exact I.
Qed.
End where_.

(** ** Goroutines with their own stacks *)
Section threads.
Context (g : globals) (base : ptr) (stack : nat -> ptr) (m : mem) (H : layout g base stack m).
Definition owns (i : nat) (p : ptr) : Prop := stack i <= p < stack i + stackSize.
Definition shared (p : ptr) : Prop := p < base.
Lemma owns_apart i j p : i <> j -> owns i p -> ~ owns j p.
Proof. intros N A B. unfold owns in *. destruct (lApart _ _ _ _ H i j N); lia. Qed.
Lemma owns_shared i p : owns i p -> ~ shared p.
Proof. intros A B. unfold owns, shared in *. pose proof (lStack _ _ _ _ H i). lia. Qed.
Lemma serve_within i r : within (owns i) shared (serve g (stack i) r).
Proof.
  assert (S : stack i + 4 * frame <= stack i + stackSize) by (unfold frame, stackSize; lia).
  pose proof (proj1 (lOne _ _ _ _ H)) as A. pose proof (proj1 (lBeta _ _ _ _ H)) as B.
  destruct r; cbn [serve].
  - apply (wi_Add _ _ base (gOne g) (gBeta g) (gTab g)); [assumption|intros; apply (lTab _ _ _ _ H)|assumption].
  - apply (wi_Double _ _ base (gOne g) (gBeta g) (gTab g)); [assumption|intros; apply (lTab _ _ _ _ H)|assumption].
  - apply (wi_Mult _ _ base (gOne g) (gBeta g) (gTab g)); [assumption|assumption|intros; apply (lTab _ _ _ _ H)|assumption].
  - apply (wi_Table _ _ base (gOne g) (gBeta g) (gTab g)); try assumption; intros; apply (lTab _ _ _ _ H).
  - apply (wi_Table _ _ base (gOne g) (gBeta g) (gTabH g)); try assumption; intros; apply (lTab _ _ _ _ H).
Qed.
Lemma serve_answer i r : request_ok r -> fst (run (serve g (stack i) r) m) = answer (tableOf (gTab g) m) (tableOf (gTabH g) m) r.
Proof.
  intros K. destruct (lOne _ _ _ _ H) as [A A']. destruct (lBeta _ _ _ _ H) as [B B']. pose proof (lStack _ _ _ _ H i) as S.
  assert (Lo : gOne g < stack i) by lia. destruct r; cbn [serve answer].
  - rewrite run_Add. apply (AddM_ok _ _ Lo); assumption.
  - rewrite run_Double. apply (DoubleM_ok _ _ Lo); assumption.
  - rewrite run_Mult. apply (ScalarMultM_ok _ _ Lo); [lia|assumption..].
  - rewrite run_Table. apply (scalarTableMultM_ok _ _ Lo); [intros j b c; pose proof (lTab _ _ _ _ H j b c); lia|assumption..].
  - rewrite run_Table. apply (scalarTableMultM_ok _ _ Lo); [intros j b c; pose proof (lTab _ _ _ _ H j b c); lia|assumption..].
Qed.
End threads.
