(** * The pointer level code computes what the value-level model computes (proofs) *)
From Coq Require Import ZArith List Bool Lia.
From Verif Require Import Go Wire Big Crypto Gspfs Equivalence Consistency Disjunctive Abc Range BigMem ApiMem SpecApiMem.
Import ListNotations.
Open Scope Z_scope.

(** ** Memory *)
Lemma nth_setNth : forall l n k z, nth_error (setNth n z l) k = if Nat.eqb k n then (match nth_error l n with Some _ => Some z | None => None end) else nth_error l k.
Proof.
  induction l as [|a l IH]; intros [|n] [|k] z; cbn [setNth nth_error Nat.eqb]; try reflexivity; try (destruct (Nat.eqb k n); reflexivity).
  apply IH.
Qed.
Lemma cell_put : forall m p z q, cell (put m p z) q = if (Nat.eqb (fst q) (fst p) && Nat.eqb (snd q) (snd p))%bool then (match cell m p with Some _ => Some z | None => None end) else cell m q.
Proof.
  intros m [o n] z [o' n']. unfold cell, put. cbn [fst snd]. destruct (Nat.eqb o' o) eqn:E; cbn [andb]; [|reflexivity].
  apply Nat.eqb_eq in E. subst o'. apply nth_setNth.
Qed.
Lemma cell_put_same : forall m p z w, cell m p = Some w -> cell (put m p z) p = Some z.
Proof. intros m p z w H. rewrite cell_put, !Nat.eqb_refl, H. reflexivity. Qed.
Lemma cell_put_other : forall m p z q, q <> p -> cell (put m p z) q = cell m q.
Proof.
  intros m p z q N. rewrite cell_put. destruct (Nat.eqb (fst q) (fst p)) eqn:A; [|reflexivity]. destruct (Nat.eqb (snd q) (snd p)) eqn:B; [|reflexivity].
  apply Nat.eqb_eq in A, B. destruct p, q; cbn [fst snd] in *; subst. contradiction.
Qed.
Lemma cell_new : forall m t z, cell (push m t z) (t, length (m t)) = Some z.
Proof. intros m t z. unfold cell, push. cbn [fst snd]. rewrite Nat.eqb_refl, nth_error_app2, Nat.sub_diag by apply Nat.le_refl. reflexivity. Qed.
Lemma cell_fresh : forall m t, cell m (t, length (m t)) = None.
Proof. intros m t. apply nth_error_None. apply Nat.le_refl. Qed.
Lemma push_ext : forall m t z, unchanged m (push m t z).
Proof.
  intros m t z [o n] w H. unfold cell, push in *. cbn [fst snd] in *. destruct (Nat.eqb o t); [|exact H].
  rewrite nth_error_app1; [exact H|]. apply nth_error_Some. rewrite H. discriminate.
Qed.
Lemma ext_refl : forall m, unchanged m m.
Proof. intros m p z H. exact H. Qed.
Lemma ext_trans : forall m1 m2 m3, unchanged m1 m2 -> unchanged m2 m3 -> unchanged m1 m3.
Proof. intros m1 m2 m3 A B p z H. apply B, A, H. Qed.
Lemma ext_put : forall m0 m p z, unchanged m0 m -> cell m0 p = None -> unchanged m0 (put m p z).
Proof.
  intros m0 m p z E F q w H. rewrite cell_put_other; [apply E, H|]. intros ->. rewrite F in H. discriminate H.
Qed.

(** ** Accesses *)
Fixpoint confined {A : Type} (t : nat) (c : prog A) (m : bmem) : Prop :=
  match c with
  | Return _ | Crash => True
  | Load p k => (fst p = 0%nat \/ fst p = t) /\ match cell m p with Some z => confined t (k z) m | None => True end
  | Store p z k => fst p = t /\ match cell m p with Some _ => confined t k (put m p z) | None => True end
  | New z k => confined t (k (t, length (m t))) (push m t z)
  end.
Lemma exec_bind : forall (A B : Type) t (c : prog A) (k : A -> prog B) m,
  exec t (pbind c k) m = match exec t c m with (Ok a, m') => exec t (k a) m' | (Panic, m') => (Panic, m') end.
Proof.
  intros A B t c k. induction c as [a| |p f IH|p z c IH|z f IH]; intros m; cbn [pbind exec]; try reflexivity.
  - destruct (cell m p); [apply IH|reflexivity].
  - destruct (cell m p); [apply IH|reflexivity].
  - apply IH.
Qed.
Lemma confined_bind : forall (A B : Type) t (c : prog A) (k : A -> prog B) m, confined t c m ->
  (forall a m', exec t c m = (Ok a, m') -> confined t (k a) m') -> confined t (pbind c k) m.
Proof.
  intros A B t c k. induction c as [a| |p f IH|p z c IH|z f IH]; intros m H K; cbn [pbind confined exec] in *.
  - apply K. reflexivity.
  - exact I.
  - destruct H as [H1 H2]. split; [exact H1|]. destruct (cell m p); [apply IH; assumption|exact I].
  - destruct H as [H1 H2]. split; [exact H1|]. destruct (cell m p); [apply IH; assumption|exact I].
  - apply IH; assumption.
Qed.

(** ** Simulation: what is known to have existed at [m0] stays; the code is at [m] *)
Definition sim {A B : Type} (t : nat) (m0 m : bmem) (c : prog A) (r : R B) (rel : bmem -> A -> B -> Prop) : Prop :=
  confined t c m /\
  let '(o, m') := exec t c m in
  unchanged m0 m' /\ match o, r with Ok a, Ok b => rel m' a b | Panic, Panic => True | _, _ => False end.
Lemma sim_value : forall (A B : Type) t m (c : prog A) (r : R B) rel, sim t m m c r rel -> valueCall t m c r rel.
Proof. intros A B t m c r rel [_ H]. exact H. Qed.
Lemma sim_ret : forall (A B : Type) t m0 m (a : A) (b : B) (rel : bmem -> A -> B -> Prop), unchanged m0 m -> rel m a b -> sim t m0 m (Return a) (Ok b) rel.
Proof. intros A B t m0 m a b rel E H. split; [exact I|]. split; assumption. Qed.
Lemma sim_crash : forall (A B : Type) t m0 m (rel : bmem -> A -> B -> Prop), unchanged m0 m -> sim t m0 m Crash Panic rel.
Proof. intros A B t m0 m rel E. split; [exact I|]. split; [assumption|exact I]. Qed.
Lemma sim_bind : forall (A B A' B' : Type) t m0 m (c : prog A) (r : R B) (k : A -> prog A') (f : B -> R B') rel1 rel,
  unchanged m0 m -> sim t m m c r rel1 ->
  (forall m1 a b, unchanged m m1 -> unchanged m0 m1 -> rel1 m1 a b -> sim t m0 m1 (k a) (f b) rel) ->
  sim t m0 m (pbind c k) (bind r f) rel.
Proof.
  intros A B A' B' t m0 m c r k f rel1 rel E [C H] K.
  destruct (exec t c m) as [o m1] eqn:X. destruct H as [E1 H].
  pose proof (ext_trans _ _ _ E E1) as E2.
  destruct o as [a|]; destruct r as [b|]; try contradiction; cbn [bind].
  - specialize (K m1 a b E1 E2 H). destruct K as [K1 K2]. split.
    + apply confined_bind; [exact C|]. intros a' m' X'. rewrite X in X'. injection X' as <- <-. exact K1.
    + rewrite exec_bind, X. exact K2.
  - split.
    + apply confined_bind; [exact C|]. intros a' m' X'. rewrite X in X'. discriminate X'.
    + rewrite exec_bind, X. split; [exact E2|exact I].
Qed.
(** the code goes on where the model has a value already *)
Lemma sim_bind_val : forall (A B A' B' : Type) t m0 m (c : prog A) (b : B) (k : A -> prog A') (r : R B') rel1 rel,
  unchanged m0 m -> sim t m m c (Ok b) rel1 ->
  (forall m1 a, unchanged m m1 -> unchanged m0 m1 -> rel1 m1 a b -> sim t m0 m1 (k a) r rel) ->
  sim t m0 m (pbind c k) r rel.
Proof.
  intros A B A' B' t m0 m c b k r rel1 rel E S K.
  apply (sim_bind A B A' B' t m0 m c (Ok b) k (fun _ => r) (fun m1 a b' => b' = b /\ rel1 m1 a b) rel E).
  - destruct S as [C S]. split; [exact C|]. destruct (exec t c m) as [o m1]. destruct S as [S1 S2]. split; [exact S1|].
    destruct o; [split; [reflexivity|exact S2]|exact S2].
  - intros m1 a b' U1 U2 [_ H]. apply K; assumption.
Qed.
Lemma sim_bind_panic : forall (A B A' B' : Type) t m0 m (c : prog A) (k : A -> prog A') (rel1 : bmem -> A -> B -> Prop) (rel : bmem -> A' -> B' -> Prop),
  unchanged m0 m -> sim t m m c Panic rel1 -> sim t m0 m (pbind c k) Panic rel.
Proof.
  intros A B A' B' t m0 m c k rel1 rel E S.
  apply (sim_bind A B A' B' t m0 m c Panic k (fun _ => Panic) (fun _ _ _ => False) rel E).
  - destruct S as [C S]. split; [exact C|]. destruct (exec t c m) as [o m1]. destruct S as [S1 S2]. split; [exact S1|].
    destruct o; [contradiction|exact I].
  - intros m1 a b _ _ [].
Qed.
(** a weaker conclusion *)
Lemma sim_weaken : forall (A B : Type) t m0 m (c : prog A) (r : R B) (rel1 rel2 : bmem -> A -> B -> Prop), sim t m0 m c r rel1 ->
  (forall m' a b, unchanged m0 m' -> rel1 m' a b -> rel2 m' a b) -> sim t m0 m c r rel2.
Proof.
  intros A B t m0 m c r rel1 rel2 [C H] K. split; [exact C|]. destruct (exec t c m) as [o m']. destruct H as [E H]. split; [exact E|].
  destruct o, r; try contradiction; try exact I. apply K; assumption.
Qed.
Lemma sim_assoc : forall (A A' A2 B : Type) t m0 m (c : prog A) (k : A -> prog A') (k2 : A' -> prog A2) (r : R B) rel,
  sim t m0 m (pbind (pbind c k) k2) r rel -> sim t m0 m (pbind c (fun a => pbind (k a) k2)) r rel.
Proof.
  intros A A' A2 B t m0 m c k k2 r rel [C H]. split.
  - clear H. revert m C. induction c as [a| |p f IH|p z c IH|z f IH]; intros m C; cbn [pbind confined] in *.
    + exact C.
    + exact I.
    + destruct C as [C1 C2]. split; [exact C1|]. destruct (cell m p); [apply IH, C2|exact I].
    + destruct C as [C1 C2]. split; [exact C1|]. destruct (cell m p); [apply IH, C2|exact I].
    + apply IH, C.
  - rewrite exec_bind in H. rewrite exec_bind in H. rewrite exec_bind. destruct (exec t c m) as [[a|] m']; [rewrite exec_bind; exact H|exact H].
Qed.

Lemma sim_assoc_inv : forall (A A' A2 B : Type) t m0 m (c : prog A) (k : A -> prog A') (k2 : A' -> prog A2) (r : R B) rel,
  sim t m0 m (pbind c (fun a => pbind (k a) k2)) r rel -> sim t m0 m (pbind (pbind c k) k2) r rel.
Proof.
  intros A A' A2 B t m0 m c k k2 r rel [C H]. split.
  - clear H. revert m C. induction c as [a| |p f IH|p z c IH|z f IH]; intros m C; cbn [pbind confined] in *.
    + exact C.
    + exact I.
    + destruct C as [C1 C2]. split; [exact C1|]. destruct (cell m p); [apply IH, C2|exact I].
    + destruct C as [C1 C2]. split; [exact C1|]. destruct (cell m p); [apply IH, C2|exact I].
    + apply IH, C.
  - rewrite exec_bind in H. rewrite exec_bind, exec_bind. destruct (exec t c m) as [[a|] m']; [rewrite exec_bind in H; exact H|exact H].
Qed.

(** ** What is known survives *)
Lemma intAt_ext : forall t m m' x v, unchanged m m' -> intAt t m x v -> intAt t m' x v.
Proof. intros t m m' [p|] [z|] E H; try exact H. destruct H as [H1 H2]. split; [exact H1|apply E, H2]. Qed.
Lemma pointAt_ext : forall t m m' x v, unchanged m m' -> pointAt t m x v -> pointAt t m' x v.
Proof. intros t m m' x v E [A B]. split; eapply intAt_ext; eassumption. Qed.
Lemma Forall2_imp : forall (A B : Type) (P Q : A -> B -> Prop), (forall a b, P a b -> Q a b) -> forall l l', Forall2 P l l' -> Forall2 Q l l'.
Proof. intros A B P Q H l l' F. induction F; constructor; auto. Qed.
Lemma paramsAt_ext : forall t m m' x v, unchanged m m' -> paramsAt t m x v -> paramsAt t m' x v.
Proof.
  intros t m m' x v E (A & B & C & D & F & G & H & J & K).
  split; [exact A|]. split; [eapply intAt_ext; eassumption|]. split; [eapply intAt_ext; eassumption|]. split; [eapply pointAt_ext; eassumption|].
  split; [eapply pointAt_ext; eassumption|]. split; [|split; [eapply pointAt_ext; eassumption|split; [eapply intAt_ext; eassumption|exact K]]].
  revert G. apply Forall2_imp. intros a b. apply pointAt_ext, E.
Qed.
Lemma disjAt_ext : forall t m m' x v, unchanged m m' -> disjAt t m x v -> disjAt t m' x v.
Proof. intros t m m' x v E (A & B & C & D & F & G & H). repeat split; try (eapply intAt_ext; [exact E|]); try assumption; try (apply A); try (apply B). Qed.
Lemma optAt_imp : forall (A B : Type) (P Q : A -> B -> Prop), (forall a b, P a b -> Q a b) -> forall x y, optAt P x y -> optAt Q x y.
Proof. intros A B P Q H [x|] [y|] F; try exact F. apply H, F. Qed.
Lemma fresh_back : forall m m' x, unchanged m m' -> freshInt m' x -> freshInt m x.
Proof.
  intros m m' [p|] E H; [|exact I]. cbn [freshInt] in *. destruct (cell m p) as [z|] eqn:X; [|reflexivity]. rewrite (E _ _ X) in H. discriminate H.
Qed.
Lemma freshP_back : forall m m' x, unchanged m m' -> freshPoint m' x -> freshPoint m x.
Proof. intros m m' x E [A B]. split; eapply fresh_back; eassumption. Qed.

Lemma optDisjAt_ext : forall t m m' x v, unchanged m m' -> optAt (disjAt t m) x v -> optAt (disjAt t m') x v.
Proof. intros t m m' [x|] [v|] E H; try exact H. exact (disjAt_ext _ _ _ _ _ E H). Qed.
Lemma pointsAt_ext : forall t m m' x v, unchanged m m' -> Forall2 (pointAt t m) x v -> Forall2 (pointAt t m') x v.
Proof. intros t m m' x v E H. revert H. apply Forall2_imp. intros a b. apply pointAt_ext, E. Qed.
(** move everything that is known to the memory after a step *)
Ltac forward E :=
  repeat match goal with
  | H : intAt _ ?m _ _ |- _ => match type of E with unchanged m _ => apply (intAt_ext _ _ _ _ _ E) in H end
  | H : pointAt _ ?m _ _ |- _ => match type of E with unchanged m _ => apply (pointAt_ext _ _ _ _ _ E) in H end
  | H : paramsAt _ ?m _ _ |- _ => match type of E with unchanged m _ => apply (paramsAt_ext _ _ _ _ _ E) in H end
  | H : disjAt _ ?m _ _ |- _ => match type of E with unchanged m _ => apply (disjAt_ext _ _ _ _ _ E) in H end
  | H : optAt (disjAt _ ?m) _ _ |- _ => match type of E with unchanged m _ => apply (optDisjAt_ext _ _ _ _ _ E) in H end
  | H : Forall2 (pointAt _ ?m) _ _ |- _ => match type of E with unchanged m _ => apply (pointsAt_ext _ _ _ _ _ E) in H end
  end.

(** ** Reads *)
Lemma sim_deref : forall (A B : Type) t m0 m x v (k : Z -> prog A) (r : R B) rel, intAt t m x (Some v) ->
  sim t m0 m (k v) r rel -> sim t m0 m (pbind (deref x) k) r rel.
Proof.
  intros A B t m0 m [p|] v k r rel H S; [|contradiction]. destruct H as [H1 H2]. destruct S as [C S]. unfold sim. cbn [deref pbind confined exec]. rewrite H2.
  split; [split; assumption|exact S].
Qed.
Lemma sim_deref_nil : forall (A B : Type) t m0 m x (k : Z -> prog A) (rel : bmem -> A -> B -> Prop), unchanged m0 m -> intAt t m x None ->
  sim t m0 m (pbind (deref x) k) Panic rel.
Proof. intros A B t m0 m [p|] k rel E H; [contradiction|]. apply sim_crash, E. Qed.
Lemma sim_need : forall (A B : Type) t m0 m x v (k : Z -> prog A) (f : Z -> R B) rel, unchanged m0 m -> intAt t m x v ->
  (forall z, v = Some z -> sim t m0 m (k z) (f z) rel) -> sim t m0 m (pbind (deref x) k) (bind (need v) f) rel.
Proof.
  intros A B t m0 m x [z|] k f rel E H K; cbn [need bind].
  - eapply sim_deref; [exact H|]. apply K. reflexivity.
  - apply sim_deref_nil; assumption.
Qed.
Lemma sim_lift : forall (A B : Type) t m0 m (r : R A) (k : A -> prog B) (B' : Type) (f : A -> R B') rel, unchanged m0 m ->
  (forall a, r = Ok a -> sim t m0 m (k a) (f a) rel) -> sim t m0 m (pbind (lift r) k) (bind r f) rel.
Proof. intros A B t m0 m [a|] k B' f rel E K; cbn [lift bind pbind]; [apply K; reflexivity|apply sim_crash, E]. Qed.

(** ** Blocks that allocate an integer and leave a value in it *)
Definition newly t m (m' : bmem) (x : bigint) (v : Z) : Prop := intAt t m' x (Some v) /\ freshInt m x /\ match x with Some p => fst p = t | None => True end.
Definition blk (t : nat) (m : bmem) (c : prog bigint) (v : Z) : Prop := sim t m m c (Ok v) (fun m' x z => z = v /\ newly t m m' x v).
Lemma blk_new : forall t m v, blk t m (newInt v) v.
Proof.
  intros t m v. unfold blk, sim, newInt. cbn [exec confined]. split; [exact I|]. split; [apply push_ext|].
  split; [reflexivity|]. split; [split; [right; reflexivity|apply cell_new]|split; [apply cell_fresh|reflexivity]].
Qed.
(** storing into such an integer *)
Lemma sim_assign : forall t m m1 x w v, unchanged m m1 -> newly t m m1 x w ->
  sim t m m1 (assign x v) (Ok v) (fun m' y z => z = v /\ newly t m m' y v /\ y = x).
Proof.
  intros t m m1 [p|] w v E (H & F & O); [|contradiction]. destruct H as [H1 H2]. unfold sim. cbn [assign exec confined freshInt] in *. rewrite H2.
  split; [split; [exact O|exact I]|]. split; [apply ext_put; assumption|]. split; [reflexivity|]. split; [|reflexivity].
  split; [split; [exact H1|eapply cell_put_same; exact H2]|split; [exact F|exact O]].
Qed.
Lemma blk_then : forall t m c w k v, blk t m c w ->
  (forall m1 x, unchanged m m1 -> newly t m m1 x w -> sim t m m1 (k x) (Ok v) (fun m' y z => z = v /\ newly t m m' y v)) ->
  blk t m (pbind c k) v.
Proof.
  intros t m c w k v H K. unfold blk in *. eapply sim_bind_val; [apply ext_refl|exact H|]. intros m1 x _ E [_ N]. apply K; assumption.
Qed.
Lemma blk_assign : forall t m m1 x w v, unchanged m m1 -> newly t m m1 x w -> sim t m m1 (assign x v) (Ok v) (fun m' y z => z = v /\ newly t m m' y v).
Proof.
  intros t m m1 x w v E N. eapply sim_weaken; [eapply sim_assign; eassumption|]. intros m' a b _ (H1 & H2 & _). split; assumption.
Qed.
Lemma newly_int : forall t m m1 x v, newly t m m1 x v -> intAt t m1 x (Some v).
Proof. intros t m m1 x v H. apply H. Qed.
Section Blocks.
Variables (t : nat) (m : bmem) (x y : bigint) (a b : Z).
Hypothesis X : intAt t m x (Some a).
Hypothesis Y : intAt t m y (Some b).
Ltac blk2 := apply blk_then with (w := 0); [apply blk_new|intros m1 z E N]; unfold intAdd, intSub, intMul, intMod, intNeg, intSetBytes;
  try (apply sim_deref with (v := a); [match goal with E : unchanged _ _ |- _ => exact (intAt_ext _ _ _ _ _ E X) end|]); try (apply sim_deref with (v := b); [match goal with E : unchanged _ _ |- _ => exact (intAt_ext _ _ _ _ _ E Y) end|]);
  eapply blk_assign; eassumption.
Lemma blk_add : blk t m (newAdd x y) (a + b).
Proof. unfold newAdd. blk2. Qed.
Lemma blk_sub : blk t m (newSub x y) (a - b).
Proof. unfold newSub. blk2. Qed.
Lemma blk_mul : blk t m (newMul x y) (a * b).
Proof. unfold newMul. blk2. Qed.
Lemma blk_mod : blk t m (newMod x y) (a mod b).
Proof. unfold newMod. blk2. Qed.
Lemma blk_neg : blk t m (newNeg x) (- a).
Proof. unfold newNeg. blk2. Qed.
Lemma blk_bytes : forall bs, blk t m (newSetBytes bs) (beval bs).
Proof. intros bs. unfold newSetBytes. apply blk_then with (w := 0); [apply blk_new|intros m1 z E N]. eapply blk_assign; eassumption. Qed.
(** z.Mod(z, y) right after z was made *)
Lemma blk_inplace : forall c v, blk t m c v -> blk t m (z <~ c; intMod z z y) (v mod b).
Proof.
  intros c v H. eapply blk_then; [exact H|]. intros m1 z E N. unfold intMod. eapply sim_deref; [exact (newly_int _ _ _ _ _ N)|].
  eapply sim_deref; [exact (intAt_ext _ _ _ _ _ E Y)|]. eapply blk_assign; eassumption.
Qed.
Lemma blk_inneg : forall c v, blk t m c v -> blk t m (z <~ c; intNeg z z) (- v).
Proof.
  intros c v H. eapply blk_then; [exact H|]. intros m1 z E N. unfold intNeg. eapply sim_deref; [exact (newly_int _ _ _ _ _ N)|]. eapply blk_assign; eassumption.
Qed.
End Blocks.
(** using a block: the rest runs with a new integer *)
Lemma sim_blk : forall (A B : Type) t m0 m c v (k : bigint -> prog A) (r : R B) rel, unchanged m0 m -> blk t m c v ->
  (forall m1 x, unchanged m m1 -> unchanged m0 m1 -> intAt t m1 x (Some v) -> freshInt m x -> sim t m0 m1 (k x) r rel) ->
  sim t m0 m (pbind c k) r rel.
Proof.
  intros A B t m0 m c v k r rel E H K. unfold blk in H. eapply sim_bind_val; [exact E|exact H|]. intros m1 x E1 E2 (_ & N1 & N2 & _). apply K; assumption.
Qed.
(** the same when the block is two statements of the code *)
Lemma sim_blk2 : forall (A B : Type) t m0 m (C0 : Type) (c : prog C0) (f : C0 -> prog bigint) v (k : bigint -> prog A) (r : R B) rel, unchanged m0 m -> blk t m (pbind c f) v ->
  (forall m1 x, unchanged m m1 -> unchanged m0 m1 -> intAt t m1 x (Some v) -> freshInt m x -> sim t m0 m1 (k x) r rel) ->
  sim t m0 m (pbind c (fun a => pbind (f a) k)) r rel.
Proof. intros A B t m0 m C0 c f v k r rel E H K. apply sim_assoc. eapply sim_blk; eassumption. Qed.
(** x.Op(nil, ...) *)
Lemma sim_newMod_nil : forall (A B : Type) t m0 m x n (k : bigint -> prog A) (rel : bmem -> A -> B -> Prop), unchanged m0 m -> intAt t m x None -> sim t m0 m (pbind (newMod x n) k) Panic rel.
Proof.
  intros A B t m0 m [p|] n k rel E H; [contradiction|]. unfold newMod, intMod. split; [exact I|]. cbn [pbind newInt exec deref]. split; [exact (ext_trans _ _ _ E (push_ext _ _ _))|exact I].
Qed.
