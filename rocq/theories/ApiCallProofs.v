(** * Every call is simulated; interleaved calls return what they return alone (proofs) *)
From Coq Require Import ZArith List Bool Lia Eqdep_dec.
From Verif Require Import Go Wire Big Crypto Gspfs Equivalence Consistency Disjunctive Abc Range BigMem ApiMem SpecApiMem SpecApiCalls
  ApiMemProofs ApiMemProofs2 ApiMemProofs3 ApiMemProofs4 ApiMemProofs5 ApiMemProofs6.
Import ListNotations.
Open Scope Z_scope.

Lemma none_ext : forall m, unchanged (fun _ => []) m.
Proof. intros m [o n] z E. unfold cell in E. cbn [fst snd] in E. destruct n; discriminate E. Qed.
Lemma int_none : forall x, freshInt (fun _ => []) x.
Proof. intros [[o n]|]; [|exact I]. unfold freshInt, cell. cbn [fst snd]. destruct n; reflexivity. Qed.
Lemma slot_none : forall h s, slotNew h (fun _ => []) s.
Proof. intros h s. split; [left; split; apply int_none|split; apply int_none]. Qed.

Lemma call_sim : forall sha h zk t m A B (c : prog A) (r : R B) rel, paramsAt t m h zk -> call sha h zk t m c r rel -> sim t m m c r rel.
Proof.
  intros sha h zk t m A B c r rel HP C. destruct C.
  - eapply sim_weaken; [apply keygen_ok; eassumption|]. intros m' a r _ (X & Y & Z). split; [exact X|split; assumption].
  - eapply EqualM_ok; try eassumption.
  - eapply MultM_ok; try eassumption.
  - eapply sim_weaken; [apply AddM_ok; eassumption|]. intros m' a b _ [X Y]. split; [exact X|]. destruct Y as [Y|[->| ->]]; [left; exact Y|right; left; reflexivity|right; right; left; reflexivity].
  - eapply SubM_ok; try eassumption.
  - eapply NegM_ok; try eassumption.
  - apply pBytesM_ok; [apply ext_refl|assumption].
  - eapply writePoint_ok; try eassumption.
  - eapply sim_weaken; [apply (readPoint_ok t h zk); exact HP|]. intros m' [[a e] s1] [[b e'] s1'] _ (X & Y & Z & F1 & F2). split; [split; [split; assumption|assumption]|split; assumption].
  - eapply writeInt_ok; try eassumption.
  - eapply sim_weaken; [apply readInt_ok|]. intros m' [[a e] s1] [[b e'] s1'] _ (X & Y & Z & F). split; [split; [split; assumption|assumption]|assumption].
  - eapply CommitRM_ok; try eassumption.
  - eapply verifyR_ok; try eassumption.
  - eapply sim_weaken; [apply pedCommit_ok; eassumption|]. intros m' a b _ (X & Y & Z & F1 & F2). split; [split; [split; assumption|exact Z]|split; assumption].
  - eapply PedCommitRM_ok; try eassumption.
  - eapply open_ok; try eassumption.
  - eapply GenerateChallengeM_ok; try eassumption.
  - eapply gspfs_new_ok; try eassumption. exact (p_G _ _ _ _ HP).
  - eapply gspfs_new_ok; try eassumption.
  - eapply gspfs_verify_ok; try eassumption.
  - eapply gspfs_bytes_ok; try eassumption.
  - eapply gspfs_decode_ok; try eassumption.
  - eapply equiv_new_ok; try eassumption.
  - eapply equiv_verify_ok; try eassumption.
  - eapply equiv_bytes_ok; try eassumption.
  - eapply equiv_decode_ok; try eassumption.
  - eapply cons_new_ok; try eassumption.
  - eapply cons_verify_ok; try eassumption.
  - eapply cons_bytes_ok; try eassumption.
  - eapply cons_decode_ok; try eassumption.
  - eapply disj_new_ok; try eassumption.
  - eapply disj_verify_ok; try eassumption.
  - eapply disj_bytes_ok; try eassumption.
  - eapply disj_decode_ok; try eassumption.
  - eapply abc_new_ok; try eassumption.
  - eapply abc_verify_ok; try eassumption.
  - eapply abc_bytes_ok; try eassumption.
  - eapply abc_decode_ok; try eassumption.
  - eapply inequality_new_ok; try eassumption.
  - eapply inequality_verify_ok; try eassumption.
  - eapply range_new_ok; try eassumption.
  - eapply range_verify_ok; try eassumption.
  - eapply range_bytes_ok; try eassumption.
  - eapply range_decode_ok; try eassumption.
  - eapply sim_weaken; [apply (proofGenA_ok sha t h zk (fun _ => []) m); try eassumption|].
    + apply none_ext.
    + apply slot_none.
    + intros m' a b _ [X _]. exact X.
  - eapply sim_weaken; [apply (proofGenB_ok sha t h zk (fun _ => []) m); try eassumption|].
    + apply none_ext.
    + apply slot_none.
    + intros m' a b _ [X _]. exact X.
  - eapply verifyGen_ok; try eassumption.
Qed.

(** ** Programs *)
Lemma bind_ret : forall A (r : R A), bind r (fun a => Ok a) = r.
Proof. intros A [a|]; reflexivity. Qed.
(** a last call *)
Lemma program_last : forall sha h zk t m A B (c : prog A) (r : R B) rel, call sha h zk t m c r rel -> program sha h zk t m (a <~ c; Return a) r rel.
Proof. intros sha h zk t m A B c r rel C. rewrite <- (bind_ret _ r). eapply programCall; [exact C|]. intros m1 a b _ H. apply programReturn, H. Qed.
Lemma sim_later : forall A B t m0 m1 (c : prog A) (r : R B) rel, unchanged m0 m1 -> sim t m1 m1 c r rel -> sim t m0 m1 c r rel.
Proof.
  intros A B t m0 m1 c r rel E [C H]. split; [exact C|]. destruct (exec t c m1) as [o m']. destruct H as [H1 H2]. split; [|exact H2]. eapply ext_trans; eassumption.
Qed.
Lemma program_sim : forall sha h zk t m A B (c : prog A) (r : R B) rel, paramsAt t m h zk -> program sha h zk t m c r rel -> sim t m m c r rel.
Proof.
  intros sha h zk t m A B c r rel HP X. induction X as [m A B a b rel H|m A B rel|m A B z k r rel H IH|m A B C D c r rel1 k f rel H0 H IH].
  - apply sim_ret; [apply ext_refl|exact H].
  - apply sim_crash, ext_refl.
  - cbn [pbind newInt]. specialize (IH (push m t z) (Some (t, length (m t)))). destruct IH as [I1 I2].
    + apply push_ext.
    + split; [right; reflexivity|apply cell_new].
    + eapply paramsAt_ext; [apply push_ext|exact HP].
    + split; [exact I1|]. cbn [exec]. destruct (exec t _ _) as [o m']. destruct I2 as [E I2]. split; [|exact I2]. eapply ext_trans; [apply push_ext|exact E].
  - eapply sim_bind; [apply ext_refl|eapply call_sim; eassumption|]. intros m1 a b E _ Q. apply sim_later with (m1 := m1); [exact E|].
    apply IH; [exact E|exact Q|]. eapply paramsAt_ext; eassumption.
Qed.

(** ** Regions *)
Definition agree (t : nat) (m1 m2 : bmem) : Prop := m1 0%nat = m2 0%nat /\ m1 t = m2 t.
Lemma agree_refl : forall t m, agree t m m.
Proof. intros. split; reflexivity. Qed.
Lemma agree_sym : forall t m1 m2, agree t m1 m2 -> agree t m2 m1.
Proof. intros t m1 m2 [A B]. split; symmetry; assumption. Qed.
Lemma agree_cell : forall t m1 m2 p, agree t m1 m2 -> fst p = 0%nat \/ fst p = t -> cell m1 p = cell m2 p.
Proof. intros t m1 m2 p [A B] [E|E]; unfold cell; rewrite E; [rewrite A|rewrite B]; reflexivity. Qed.
Lemma agree_put : forall t m1 m2 p z, agree t m1 m2 -> agree t (put m1 p z) (put m2 p z).
Proof. intros t m1 m2 p z [A B]. unfold put. split; [rewrite A|rewrite B]; reflexivity. Qed.
Lemma agree_push : forall t m1 m2 u z, agree t m1 m2 -> agree t (push m1 u z) (push m2 u z).
Proof. intros t m1 m2 u z [A B]. unfold push. split; [rewrite A|rewrite B]; reflexivity. Qed.
Lemma exec_agree : forall A t (c : prog A) m1 m2, agree t m1 m2 -> confined t c m1 ->
  confined t c m2 /\ fst (exec t c m1) = fst (exec t c m2) /\ agree t (snd (exec t c m1)) (snd (exec t c m2)).
Proof.
  intros A t c. induction c as [a| |p k IH|p z k IH|z k IH]; intros m1 m2 G C; cbn [confined exec] in *.
  - split; [exact I|split; [reflexivity|exact G]].
  - split; [exact I|split; [reflexivity|exact G]].
  - destruct C as [C1 C2]. rewrite <- (agree_cell t m1 m2 p G C1). destruct (cell m1 p) as [z|].
    + destruct (IH z m1 m2 G C2) as (X & Y & Z). split; [split; [exact C1|exact X]|split; assumption].
    + split; [split; [exact C1|exact I]|split; [reflexivity|exact G]].
  - destruct C as [C1 C2]. rewrite <- (agree_cell t m1 m2 p G (or_intror C1)). destruct (cell m1 p) as [w|].
    + destruct (IH _ _ (agree_put t m1 m2 p z G) C2) as (X & Y & Z). split; [split; [exact C1|exact X]|split; assumption].
    + split; [split; [exact C1|exact I]|split; [reflexivity|exact G]].
  - pose proof (proj2 G) as L. rewrite L in C. rewrite L. exact (IH _ _ _ (agree_push t m1 m2 t z G) C).
Qed.
(** a step keeps the outcome, and touches nothing but the goroutine's own variables *)
Lemma step_exec : forall A t (c : prog A) m, confined t c m -> let '(c', m') := step t c m in
  confined t c' m' /\ exec t c' m' = exec t c m.
Proof.
  intros A t [a| |p k|p z k|z k] m C; cbn [step confined exec] in *; try (split; [exact I|reflexivity]).
  - destruct C as [_ C]. destruct (cell m p); [split; [exact C|reflexivity]|split; [exact I|reflexivity]].
  - destruct C as [_ C]. destruct (cell m p); [split; [exact C|reflexivity]|split; [exact I|reflexivity]].
  - split; [exact C|reflexivity].
Qed.
Lemma step_others : forall A t (c : prog A) m o, confined t c m -> o <> t -> snd (step t c m) o = m o.
Proof.
  intros A t [a| |p k|p z k|z k] m o C N; cbn [step confined snd] in *; try reflexivity.
  - destruct (cell m p); reflexivity.
  - destruct C as [C _]. destruct (cell m p); [|reflexivity]. cbn [snd]. unfold put. rewrite C. apply Nat.eqb_neq in N. rewrite N. reflexivity.
  - unfold push. apply Nat.eqb_neq in N. rewrite N. reflexivity.
Qed.
(** how many steps are left *)
Fixpoint stepsOf {A : Type} (t : nat) (c : prog A) (m : bmem) : nat :=
  match c with
  | Return _ | Crash => 0
  | Load p k => S (match cell m p with Some z => stepsOf t (k z) m | None => 0 end)
  | Store p z k => S (match cell m p with Some _ => stepsOf t k (put m p z) | None => 0 end)
  | New z k => S (stepsOf t (k (t, length (m t))) (push m t z))
  end%nat.
Lemma stepsOf_step : forall A t (c : prog A) m, let '(c', m') := step t c m in stepsOf t c' m' = (stepsOf t c m - 1)%nat.
Proof.
  intros A t [a| |p k|p z k|z k] m; cbn [step stepsOf]; try reflexivity.
  - destruct (cell m p); cbn [stepsOf]; lia.
  - destruct (cell m p); cbn [stepsOf]; lia.
  - lia.
Qed.
Lemma stepsOf_agree : forall A t (c : prog A) m1 m2, agree t m1 m2 -> confined t c m1 -> stepsOf t c m1 = stepsOf t c m2.
Proof.
  intros A t c. induction c as [a| |p k IH|p z k IH|z k IH]; intros m1 m2 G C; cbn [confined stepsOf] in *; try reflexivity.
  - destruct C as [C1 C2]. rewrite <- (agree_cell t m1 m2 p G C1). destruct (cell m1 p) as [z|]; [|reflexivity]. f_equal. apply IH; assumption.
  - destruct C as [C1 C2]. rewrite <- (agree_cell t m1 m2 p G (or_intror C1)). destruct (cell m1 p) as [w|]; [|reflexivity]. f_equal. apply IH; [apply agree_put, G|exact C2].
  - pose proof (proj2 G) as L. rewrite L in *. f_equal. apply IH; [apply agree_push, G|exact C].
Qed.
Lemma stepsOf_0 : forall A t (c : prog A) m, stepsOf t c m = 0%nat -> finished c.
Proof. intros A t [a| |p k|p z k|z k] m; cbn [stepsOf finished]; intros H; try discriminate H; exact I. Qed.

(** ** Schedules *)
Lemma set_same : forall (A : nat -> Type) (th : forall i, prog (A i)) i c, setThread th i c i = c.
Proof.
  intros A th i c. unfold setThread. destruct (Nat.eq_dec i i) as [e|n]; [|contradiction].
  rewrite (UIP_dec Nat.eq_dec e eq_refl). reflexivity.
Qed.
Lemma set_other : forall (A : nat -> Type) (th : forall i, prog (A i)) i j c, i <> j -> setThread th i c j = th j.
Proof. intros A th i j c N. unfold setThread. destruct (Nat.eq_dec i j); [contradiction|reflexivity]. Qed.
Lemma schedule_inv : forall (A : nat -> Type) s (th : forall i, prog (A i)) m, (forall i, confined (S i) (th i) m) ->
  let '(th', m') := schedule s th m in
  m' 0%nat = m 0%nat /\ forall i,
    confined (S i) (th' i) m' /\ fst (exec (S i) (th' i) m') = fst (exec (S i) (th i) m) /\
    agree (S i) (snd (exec (S i) (th' i) m')) (snd (exec (S i) (th i) m)) /\
    stepsOf (S i) (th' i) m' = (stepsOf (S i) (th i) m - count_occ Nat.eq_dec s i)%nat.
Proof.
  intros A s. induction s as [|j s IH]; intros th m C; cbn [schedule].
  - split; [reflexivity|]. intros i. split; [apply C|]. split; [reflexivity|]. split; [apply agree_refl|]. cbn [count_occ]. lia.
  - destruct (step (S j) (th j) m) as [c m1] eqn:E.
    pose proof (step_exec _ (S j) (th j) m (C j)) as SE. rewrite E in SE. destruct SE as [S1 S2].
    pose proof (stepsOf_step _ (S j) (th j) m) as SN. rewrite E in SN.
    assert (SO : forall o, o <> S j -> m1 o = m o). { intros o N. pose proof (step_others _ (S j) (th j) m o (C j) N) as X. rewrite E in X. exact X. }
    assert (G : forall i, i <> j -> agree (S i) m m1). { intros i N. split; symmetry; apply SO; [discriminate|]. intros X. apply N. congruence. }
    specialize (IH (setThread th j c) m1). destruct (schedule s (setThread th j c) m1) as [th' m'].
    destruct IH as [I0 I1].
    { intros i. destruct (Nat.eq_dec j i) as [<-|N]; [rewrite set_same; exact S1|]. rewrite set_other by exact N.
      exact (proj1 (exec_agree _ _ _ _ _ (G i (not_eq_sym N)) (C i))). }
    split; [rewrite I0; apply SO; discriminate|]. intros i. specialize (I1 i). destruct I1 as (J1 & J2 & J3 & J4).
    split; [exact J1|]. destruct (Nat.eq_dec j i) as [<-|N].
    + rewrite set_same in J2, J3, J4. rewrite S2 in J2, J3. split; [exact J2|]. split; [exact J3|]. rewrite J4, SN, count_occ_cons_eq by reflexivity. lia.
    + rewrite set_other in J2, J3, J4 by exact N. destruct (exec_agree _ _ _ _ _ (G i (not_eq_sym N)) (C i)) as (_ & X & Y).
      rewrite J2, <- X. split; [reflexivity|]. split; [destruct J3 as [J3 J3'], Y as [Y Y']; split; [rewrite J3, Y|rewrite J3', Y']; reflexivity|].
      rewrite J4, <- (stepsOf_agree _ _ _ _ _ (G i (not_eq_sym N)) (C i)), count_occ_cons_neq by exact N. reflexivity.
Qed.

(** ** Results are read in the goroutine's own variables and shared ones *)
Lemma intAt_local : forall t x v m1 m2, agree t m1 m2 -> intAt t m1 x v -> intAt t m2 x v.
Proof.
  intros t x v m1 m2 G X. destruct x as [p|], v as [z|]; cbn [intAt] in *; try contradiction; try exact I.
  destruct X as [H E]. split; [exact H|]. rewrite <- (agree_cell t m1 m2 p G H). exact E.
Qed.
Lemma pointAt_local : forall t x v m1 m2, agree t m1 m2 -> pointAt t m1 x v -> pointAt t m2 x v.
Proof. intros t x v m1 m2 G [X Y]. split; eapply intAt_local; eassumption. Qed.

Lemma opt_local : forall A B (f : bmem -> A -> B -> Prop) t m1 m2, (forall a b, f m1 a b -> f m2 a b) -> agree t m1 m2 -> forall x v, optAt (f m1) x v -> optAt (f m2) x v.
Proof. intros A B f t m1 m2 H G [x|] [v|]; cbn [optAt]; intros X; try contradiction; try exact I. apply H, X. Qed.
Ltac loc := repeat match goal with
  | H : _ /\ _ |- _ => destruct H
  | |- _ /\ _ => split
  | G : agree ?t ?m1 ?m2 |- intAt ?t ?m2 _ _ => apply (intAt_local t _ _ m1 m2 G)
  | G : agree ?t ?m1 ?m2 |- pointAt ?t ?m2 _ _ => apply (pointAt_local t _ _ m1 m2 G)
  end; try assumption.
Lemma gspfsAt_local : forall t m1 m2, agree t m1 m2 -> forall x v, gspfsAt t m1 x v -> gspfsAt t m2 x v.
Proof. intros t m1 m2 G x v H. unfold gspfsAt in *. loc. Qed.
Lemma equivAt_local : forall t m1 m2, agree t m1 m2 -> forall x v, equivAt t m1 x v -> equivAt t m2 x v.
Proof. intros t m1 m2 G x v H. unfold equivAt in *. loc. Qed.
Lemma consAt_local : forall t m1 m2, agree t m1 m2 -> forall x v, consAt t m1 x v -> consAt t m2 x v.
Proof. intros t m1 m2 G x v H. unfold consAt in *. loc. Qed.
Lemma disjAt_local : forall t m1 m2, agree t m1 m2 -> forall x v, disjAt t m1 x v -> disjAt t m2 x v.
Proof. intros t m1 m2 G x v H. unfold disjAt in *. loc. Qed.
Lemma abcAt_local : forall t m1 m2, agree t m1 m2 -> forall x v, abcAt t m1 x v -> abcAt t m2 x v.
Proof. intros t m1 m2 G x v H. unfold abcAt in *. loc. eapply (opt_local _ _ (disjAt t)); [apply disjAt_local; exact G|exact G|assumption]. Qed.
Lemma tuplesAt_local : forall t m1 m2, agree t m1 m2 -> forall x v, Forall2 (tupleAt t m1) x v -> Forall2 (tupleAt t m2) x v.
Proof. intros t m1 m2 G x v H. induction H as [|a b x v H X IH]; constructor; [unfold tupleAt in *; loc|exact IH]. Qed.
Lemma rangeAt_local : forall t m1 m2, agree t m1 m2 -> forall x v, rangeAt t m1 x v -> rangeAt t m2 x v.
Proof. intros t m1 m2 G x v H. unfold rangeAt in *. loc. eapply tuplesAt_local; eassumption. Qed.
Lemma slotAt_local : forall t m1 m2, agree t m1 m2 -> forall x v, slotAt t m1 x v -> slotAt t m2 x v.
Proof. intros t m1 m2 G x v H. unfold slotAt in *. loc. Qed.
Lemma proof_local : forall A B E (f : bmem -> A -> B -> Prop) (fr : A -> Prop) t, (forall m1 m2, agree t m1 m2 -> forall a b, f m1 a b -> f m2 a b) -> local t (newProof (E := E) f fr).
Proof.
  intros A B E f fr t H m1 m2 a b A0 A1 (X & Y & Z). split; [|split; assumption].
  eapply opt_local; [apply (H m1 m2)|apply (conj A0 A1)|exact X]. split; assumption.
Qed.
Lemma decode_local : forall A B E (f : bmem -> A -> B -> Prop) t, (forall m1 m2, agree t m1 m2 -> forall a b, f m1 a b -> f m2 a b) -> local t (withErr (E := E) (fun m' => optAt (f m'))).
Proof.
  intros A B E f t H m1 m2 a b A0 A1 (X & Y). split; [|assumption].
  eapply opt_local; [apply (H m1 m2)|apply (conj A0 A1)|exact X]. split; assumption.
Qed.
Lemma call_local : forall sha h zk t m A B (c : prog A) (r : R B) rel, call sha h zk t m c r rel -> local t rel.
Proof.
  intros sha h zk t m A B c r rel C.
  destruct C; try (intros m1 m2 a0 b0 _ _ XX; exact XX);
    try (apply proof_local; first [apply gspfsAt_local|apply equivAt_local|apply consAt_local|apply disjAt_local|apply abcAt_local|apply rangeAt_local]);
    try (apply decode_local; first [apply gspfsAt_local|apply equivAt_local|apply consAt_local|apply disjAt_local|apply abcAt_local|apply rangeAt_local]);
    intros m1 m2 a0 b0 A0 A1 XX; pose proof (conj A0 A1 : agree t m1 m2) as GG;
    try (unfold newPointAt, newIntAt, withErr in *; loc; fail).
  - unfold newRange in *. destruct XX as (X & Y & Z). split; [|split; [eapply intAt_local; eassumption|exact Z]].
    apply (proof_local _ _ _ (rangeAt t) (freshRange m h) t (rangeAt_local t) m1 m2 _ _ A0 A1 X).
  - eapply slotAt_local; eassumption.
  - eapply slotAt_local; eassumption.
Qed.

(** ** Parameters that were there before the goroutines *)
Lemma int_shared : forall t m x v, intAt 0 m x v -> intAt t m x v.
Proof. intros t m x v X. destruct x as [p|], v as [z|]; cbn [intAt] in *; try contradiction; try exact I. destruct X as [[H|H] E]; (split; [left; exact H|exact E]). Qed.
Lemma point_shared : forall t m x v, pointAt 0 m x v -> pointAt t m x v.
Proof. intros t m x v [A B]. split; apply int_shared; assumption. Qed.
Lemma params_shared : forall t m h zk, paramsAt 0 m h zk -> paramsAt t m h zk.
Proof.
  intros t m h zk (A & B & C & D & E & F & G & H & K). split; [exact A|]. split; [apply int_shared, B|]. split; [apply int_shared, C|].
  split; [apply point_shared, D|]. split; [apply point_shared, E|]. split; [induction F; constructor; [apply point_shared; assumption|assumption]|].
  split; [apply point_shared, G|]. split; [apply int_shared, H|exact K].
Qed.

Section Goroutines.
Variables (sha : list Z -> list Z) (h : hparams) (zk : zkparams) (m : bmem).
Variables (A B : nat -> Type) (c : forall i, prog (A i)) (r : forall i, R (B i)) (rel : forall i, bmem -> A i -> B i -> Prop).
Hypothesis HP : paramsAt 0 m h zk.
Hypothesis HC : forall i, program sha h zk (S i) m (c i) (r i) (rel i).
Hypothesis HL : forall i, local (S i) (rel i).
Lemma go_sim : forall i, sim (S i) m m (c i) (r i) (rel i).
Proof. intros i. eapply program_sim; [apply params_shared; exact HP|apply HC]. Qed.
Lemma go_inv : forall s, let '(th, m') := schedule s c m in
  m' 0%nat = m 0%nat /\ forall i,
    confined (S i) (th i) m' /\ fst (exec (S i) (th i) m') = fst (exec (S i) (c i) m) /\
    agree (S i) (snd (exec (S i) (th i) m')) (snd (exec (S i) (c i) m)) /\
    stepsOf (S i) (th i) m' = (stepsOf (S i) (c i) m - count_occ Nat.eq_dec s i)%nat.
Proof. intros s. apply schedule_inv. intros i. exact (proj1 (go_sim i)). Qed.
Lemma go_answers : forall s, let '(th, m') := schedule s c m in
  (forall p z, fst p = 0%nat -> cell m p = Some z -> cell m' p = Some z) /\
  (forall i, finished (th i) -> answered m' (th i) (r i) (rel i) /\ forall p z, fst p = S i -> cell m p = Some z -> cell m' p = Some z).
Proof.
  intros s. pose proof (go_inv s) as V. destruct (schedule s c m) as [th m']. destruct V as [V0 V]. split.
  - intros p z E H. unfold cell in *. rewrite E in *. rewrite V0. exact H.
  - intros i F. destruct (V i) as (_ & V1 & V2 & _). destruct (go_sim i) as [_ S1]. destruct (exec (S i) (c i) m) as [o mf]. cbn [fst snd] in V1, V2. destruct S1 as [U S1].
    assert (W : snd (exec (S i) (th i) m') = m'). { destruct (th i); cbn [finished] in F; try contradiction; reflexivity. }
    rewrite W in V2. split.
    + destruct (th i) as [a| |p k|p z k|z k]; cbn [finished exec fst] in *; try contradiction; subst o; destruct (r i) as [b|]; try contradiction; cbn [answered].
      * apply (HL i mf m' a b); [symmetry; exact (proj1 V2)|symmetry; exact (proj2 V2)|exact S1].
      * exact I.
    + intros p z E H. apply U in H. unfold cell in *. rewrite E in *. rewrite (proj2 V2). exact H.
Qed.
Lemma go_finishes : forall i, exists n, forall s, (n <= count_occ Nat.eq_dec s i)%nat -> finished (fst (schedule s c m) i).
Proof.
  intros i. exists (stepsOf (S i) (c i) m). intros s L. pose proof (go_inv s) as V. destruct (schedule s c m) as [th m']. destruct V as [_ V].
  destruct (V i) as (_ & _ & _ & N). apply (stepsOf_0 _ (S i) _ m'). cbn [fst]. rewrite N. apply Nat.sub_0_le. exact L.
Qed.
Lemma go_no_race : forall s i p, let th := fst (schedule s c m) in nextStore (th i) = Some p -> fst p = S i /\ forall j, j <> i -> nextTouch (th j) <> Some p.
Proof.
  intros s i p. pose proof (go_inv s) as V. destruct (schedule s c m) as [th m']. destruct V as [_ V]. cbn [fst]. intros E.
  assert (W : fst p = S i). { destruct (V i) as [W _]. destruct (th i); cbn [nextStore confined] in *; try discriminate E. injection E as <-. exact (proj1 W). }
  split; [exact W|]. intros j N T. destruct (V j) as [X _]. destruct (th j); cbn [nextTouch confined] in *; try discriminate T; injection T as <-; destruct X as [X _]; rewrite W in X.
  - destruct X as [X|X]; [discriminate X|]. apply N. congruence.
  - apply N. congruence.
Qed.
End Goroutines.
