(** * Games with a hash function that is answered from a tape: lemmas *)
From Coq Require Import ZArith List Bool Lia Permutation.
From Verif Require Import Go Wire SpecRand RandCount SpecOracle.
Import ListNotations.
Open Scope Z_scope.

(** ** Finite sums *)
Definition zs {A} (l : list A) (f : A -> Z) : Z := fold_right (fun a acc => f a + acc) 0 l.
Lemma zs_ext {A} (l : list A) f g : (forall x, In x l -> f x = g x) -> zs l f = zs l g.
Proof. induction l as [|a l IH]; intros H; [reflexivity|]. unfold zs in *. cbn [fold_right]. rewrite H by (left; reflexivity). rewrite IH by (intros x Hx; apply H; right; exact Hx). reflexivity. Qed.
Lemma zs_le {A} (l : list A) f g : (forall x, In x l -> f x <= g x) -> zs l f <= zs l g.
Proof.
  induction l as [|a l IH]; intros H; [reflexivity|]. unfold zs in *. cbn [fold_right].
  apply Z.add_le_mono; [apply H; left; reflexivity|apply IH; intros x Hx; apply H; right; exact Hx].
Qed.
Lemma zs_plus {A} (l : list A) f g : zs l (fun x => f x + g x) = zs l f + zs l g.
Proof. induction l as [|a l IH]; [reflexivity|]. unfold zs in *. cbn [fold_right]. rewrite IH. ring. Qed.
Lemma zs_scale {A} (l : list A) f c : zs l (fun x => c * f x) = c * zs l f.
Proof. induction l as [|a l IH]; [unfold zs; cbn [fold_right]; ring|]. unfold zs in *. cbn [fold_right]. rewrite IH. ring. Qed.
Lemma zs_const {A} (l : list A) c : zs l (fun _ => c) = Z.of_nat (length l) * c.
Proof. induction l as [|a l IH]; [reflexivity|]. unfold zs in *. cbn [fold_right length]. rewrite IH, Nat2Z.inj_succ. ring. Qed.
Lemma zs_nonneg {A} (l : list A) f : (forall x, In x l -> 0 <= f x) -> 0 <= zs l f.
Proof. intros H. rewrite <- (Z.mul_0_r (Z.of_nat (length l))), <- (zs_const l 0). apply zs_le. exact H. Qed.
Lemma zs_app {A} (l l' : list A) f : zs (l ++ l') f = zs l f + zs l' f.
Proof. induction l as [|a l IH]; [reflexivity|]. unfold zs in *. cbn [app fold_right]. rewrite IH. ring. Qed.
Lemma zs_map {A B} (g : A -> B) (l : list A) f : zs (map g l) f = zs l (fun x => f (g x)).
Proof. induction l as [|a l IH]; [reflexivity|]. unfold zs in *. cbn [map fold_right]. rewrite IH. reflexivity. Qed.
Lemma zs_flat {A B} (g : A -> list B) (l : list A) f : zs (flat_map g l) f = zs l (fun x => zs (g x) f).
Proof. induction l as [|a l IH]; [reflexivity|]. cbn [flat_map]. rewrite zs_app, IH. reflexivity. Qed.
Lemma zs_swap {A B} (l : list A) (l' : list B) f : zs l (fun x => zs l' (fun y => f x y)) = zs l' (fun y => zs l (fun x => f x y)).
Proof.
  induction l as [|a l IH].
  - unfold zs at 1. cbn [fold_right]. symmetry. rewrite <- (Z.mul_0_r (Z.of_nat (length l'))), <- (zs_const l' 0). reflexivity.
  - change (zs (a :: l) (fun x => zs l' (fun y => f x y))) with (zs l' (fun y => f a y) + zs l (fun x => zs l' (fun y => f x y))). rewrite IH, <- zs_plus. reflexivity.
Qed.
Lemma zs_perm {A} (l l' : list A) f : Permutation l l' -> zs l f = zs l' f.
Proof. induction 1; unfold zs in *; cbn [fold_right]; lia. Qed.
(** only one term counts *)
Lemma zs_single {A} (l : list A) (f : A -> Z) j : NoDup l -> (forall x, In x l -> x <> j -> f x = 0) -> 0 <= f j -> zs l f <= f j.
Proof.
  induction l as [|a l IH]; intros D H P; [exact P|]. inversion D as [|x y Na D']; subst. unfold zs in *. cbn [fold_right].
  assert (X : forall l', (forall x, In x l' -> f x = 0) -> fold_right (fun a acc => f a + acc) 0 l' = 0).
  { induction l' as [|b l' IH']; intros H'; [reflexivity|]. cbn [fold_right]. rewrite (H' b) by (left; reflexivity). rewrite IH'; [reflexivity|]. intros x Hx. apply H'. right. exact Hx. }
  assert (Z0 : f a = 0 \/ forall x, In x l -> x <> j -> f x = 0 /\ True) by (right; intros x Hx Nx; split; [apply H; [right; exact Hx|exact Nx]|exact I]).
  destruct (Z.eq_dec (f a) 0) as [E|E].
  - rewrite E. apply IH; [exact D'|intros x Hx; apply H; right; exact Hx|exact P].
  - rewrite (X l).
    + destruct (Z_le_dec (f a) (f j)) as [L|L]; [lia|]. exfalso. apply E. apply H; [left; reflexivity|]. intros ->. apply L. reflexivity.
    + intros x Hx. apply H; [right; exact Hx|]. intros ->. apply E. apply H; [left; reflexivity|]. intros ->. exact (Na Hx).
Qed.
Lemma zs_in {A} (l : list A) (f : A -> Z) j : (forall x, In x l -> 0 <= f x) -> In j l -> f j <= zs l f.
Proof.
  induction l as [|a l IH]; intros P [].
  - subst. unfold zs. cbn [fold_right]. pose proof (zs_nonneg l f (fun x Hx => P x (or_intror Hx))) as Q. unfold zs in Q. lia.
  - unfold zs in *. cbn [fold_right]. pose proof (IH (fun x Hx => P x (or_intror Hx)) H). pose proof (P a (or_introl eq_refl)). lia.
Qed.
(** Cauchy-Schwarz *)
Lemma zs_square {A} (l : list A) f : zs l f * zs l f <= Z.of_nat (length l) * zs l (fun x => f x * f x).
Proof.
  assert (M : forall x l', 2 * x * zs l' f <= Z.of_nat (length l') * (x * x) + zs l' (fun y => f y * f y)).
  { intros x. induction l' as [|b l' IH]; [unfold zs; cbn [fold_right length]; lia|]. unfold zs in *. cbn [fold_right length]. rewrite Nat2Z.inj_succ.
    pose proof (Z.square_nonneg (x - f b)). lia. }
  induction l as [|a l IH]; [unfold zs; cbn [fold_right length]; lia|]. pose proof (M (f a) l) as Ma. unfold zs in *. cbn [fold_right length]. rewrite Nat2Z.inj_succ.
  set (s := fold_right (fun a acc => f a + acc) 0 l) in *. set (q := fold_right _ 0 l) in *. set (k := Z.of_nat (length l)) in *. clearbody s q k. nia.
Qed.

(** ** Sums over tapes *)
Lemma tapes_length L : Z.of_nat (length (allTapes L)) = 256 ^ Z.of_nat L.
Proof. rewrite <- cases_all. unfold cases. f_equal. f_equal. induction (allTapes L) as [|a l IH]; [reflexivity|]. cbn [filter]. rewrite <- IH. reflexivity. Qed.
Lemma cases_zs L p : cases L p = zs (allTapes L) (fun t => if p t then 1 else 0).
Proof.
  unfold cases. induction (allTapes L) as [|a l IH]; [reflexivity|]. unfold zs in *. cbn [filter fold_right]. rewrite <- IH.
  destruct (p a); [cbn [length]; rewrite Nat2Z.inj_succ; ring|reflexivity].
Qed.
Lemma cases_le L p q : (forall t, tape L t -> p t = true -> q t = true) -> cases L p <= cases L q.
Proof.
  intros H. rewrite !cases_zs. apply zs_le. intros t Ht. apply in_tapes in Ht. specialize (H t Ht). destruct (p t); [rewrite H by reflexivity; reflexivity|].
  destruct (q t); discriminate.
Qed.
Lemma tsum_app a b f : zs (allTapes (a + b)) f = zs (allTapes a) (fun x => zs (allTapes b) (fun y => f (x ++ y))).
Proof.
  revert f. induction a as [|a IH]; intros f.
  - cbn [Nat.add allTapes]. change (zs [[]] (fun x => zs (allTapes b) (fun y => f (x ++ y)))) with (zs (allTapes b) f + 0). ring.
  - cbn [Nat.add allTapes]. rewrite !zs_flat. apply zs_ext. intros c _. rewrite !zs_map, IH. reflexivity.
Qed.
Lemma cases_pre a b p : cases (a + b) p = zs (allTapes a) (fun x => cases b (fun y => p (x ++ y))).
Proof. rewrite cases_zs, tsum_app. apply zs_ext. intros x _. rewrite cases_zs. reflexivity. Qed.
Lemma cases_bound L p : 0 <= cases L p <= 256 ^ Z.of_nat L.
Proof. pose proof (cases_neg L p). split; [unfold cases; lia|]. assert (0 <= cases L (fun t => negb (p t))) by (unfold cases; lia). lia. Qed.
Lemma cases_none L p : (forall t, tape L t -> p t = false) -> cases L p = 0.
Proof.
  intros H. rewrite cases_zs. rewrite (zs_ext _ _ (fun _ => 0)); [rewrite zs_const; ring|]. intros t Ht. rewrite H by (apply in_tapes; exact Ht). reflexivity.
Qed.

(** ** Runs *)
Section Run.
Context {A : Type}.
Fixpoint asked (f : forger A) (w : answers) (t : list Z) : list (list Z) :=
  match f with
  | Say _ => []
  | Ask m next =>
      match known w m with
      | Some h => asked (next h) w t
      | None => m :: asked (next (firstn 32 t)) ((m, firstn 32 t) :: w) (skipn 32 t)
      end
  end.
Lemma asked_same (f : forger A) : forall w t t' i m m', nth_error (asked f w t) i = Some m -> nth_error (asked f w t') i = Some m' ->
  firstn (32 * i) t = firstn (32 * i) t' -> m = m'.
Proof.
  induction f as [m0 next IH|a]; intros w t t' i m m' H H' E.
  - cbn [asked] in H, H'. destruct (known w m0) as [h|]; [exact (IH h _ _ _ _ _ _ H H' E)|].
    destruct i as [|i]; [cbn [nth_error] in H, H'; congruence|]. cbn [nth_error] in H, H'.
    replace (32 * S i)%nat with (32 + 32 * i)%nat in E by lia.
    assert (E1 : firstn 32 t = firstn 32 t').
    { pose proof (f_equal (firstn 32) E) as X. rewrite !firstn_firstn, !Nat.min_l in X by lia. exact X. }
    rewrite <- E1 in H'. refine (IH _ _ _ _ _ _ _ H H' _).
    pose proof (f_equal (skipn 32) E) as X. rewrite !skipn_firstn_comm in X. replace (32 + 32 * i - 32)%nat with (32 * i)%nat in X by lia. exact X.
  - destruct i; discriminate H.
Qed.
Lemma known_cons w m m' h h' : known w m = Some h -> known w m' = None -> known ((m', h') :: w) m = Some h.
Proof. intros K N. cbn [known]. destruct (list_eq_dec Z.eq_dec m m') as [->|]; [congruence|exact K]. Qed.
Lemma play_known (f : forger A) : forall (w : answers) t m h, known w m = Some h ->
  let w' := snd (fst (play f w t)) in known w' m = Some h /\ older w' m = older w m.
Proof.
  induction f as [m0 next IH|a]; intros w t m h K; [|split; [exact K|reflexivity]]. cbn [play].
  destruct (known w m0) as [h0|] eqn:K0; [exact (IH _ _ _ _ _ K)|].
  destruct (IH (firstn 32 t) ((m0, firstn 32 t) :: w) (skipn 32 t) m h (known_cons _ _ _ _ _ K K0)) as [E1 E2]. split; [exact E1|].
  etransitivity; [exact E2|]. cbn [older]. destruct (list_eq_dec Z.eq_dec m m0) as [->|]; [congruence|reflexivity].
Qed.
Lemma skipn_add (t : list Z) a b : skipn a (skipn b t) = skipn (b + a) t.
Proof. revert t. induction b as [|b IH]; intros t; [reflexivity|]. destruct t; [cbn [Nat.add skipn]; destruct a; reflexivity|apply IH]. Qed.
Lemma skip32 i t : skipn (32 * i) (skipn 32 t) = skipn (32 * S i) (t : list Z).
Proof. rewrite skipn_add. f_equal. lia. Qed.
Lemma asked_answer (f : forger A) : forall (w : answers) t i m, nth_error (asked f w t) i = Some m ->
  let w' := snd (fst (play f w t)) in known w' m = Some (firstn 32 (skipn (32 * i) t)) /\ length (older w' m) = (length w + i)%nat.
Proof.
  induction f as [m0 next IH|a]; intros w t i m H; [|destruct i; discriminate H]. cbn [asked] in H. cbn [play].
  destruct (known w m0) as [h0|] eqn:K0; [exact (IH _ _ _ _ _ H)|]. destruct i as [|i]; cbn [nth_error] in H.
  - assert (Q : m0 = m) by congruence. subst m0.
    assert (K : known ((m, firstn 32 t) :: w) m = Some (firstn 32 t)) by (cbn [known]; destruct (list_eq_dec Z.eq_dec m m); [reflexivity|contradiction]).
    destruct (play_known (next (firstn 32 t)) _ (skipn 32 t) _ _ K) as [E1 E2]. split; [exact E1|]. cbv zeta in E2. rewrite E2. cbn [older].
    destruct (list_eq_dec Z.eq_dec m m); [lia|contradiction].
  - destruct (IH _ _ _ _ _ H) as [E1 E2]. split; [rewrite skip32 in E1; exact E1|]. cbv zeta in E2. rewrite E2. cbn [length]. lia.
Qed.
Lemma play_shape (f : forger A) : forall (w : answers) t, let r := play f w t in
  length (snd (fst r)) = (length w + length (asked f w t))%nat /\ snd r = skipn (32 * length (asked f w t)) t.
Proof.
  induction f as [m0 next IH|a]; intros w t; [|cbn [play asked snd fst length]; split; [lia|reflexivity]]. cbn [play asked].
  destruct (known w m0) as [h0|]; [apply IH|]. destruct (IH (firstn 32 t) ((m0, firstn 32 t) :: w) (skipn 32 t)) as [E1 E2]. cbv zeta in *.
  rewrite E1, E2. cbn [length]. split; [lia|]. apply skip32.
Qed.
Lemma asked_in (f : forger A) : forall (w : answers) t m h, known (snd (fst (play f w t))) m = Some h -> known w m = None ->
  exists i, (i < length (asked f w t))%nat /\ nth_error (asked f w t) i = Some m.
Proof.
  induction f as [m0 next IH|a]; intros w t m h K N; [|cbn [play fst snd] in K; congruence]. cbn [play] in K. cbn [asked].
  destruct (known w m0) as [h0|] eqn:K0; [exact (IH _ _ _ _ _ K N)|].
  destruct (list_eq_dec Z.eq_dec m m0) as [->|D]; [exists 0%nat; cbn [length nth_error]; split; [lia|reflexivity]|].
  destruct (IH _ _ _ _ _ K) as (i & L & E); [cbn [known]; destruct (list_eq_dec Z.eq_dec m m0); [contradiction|exact N]|].
  exists (S i). cbn [length nth_error]. split; [lia|exact E].
Qed.
Lemma asked_few (f : forger A) : forall q (w : answers) t, asks q f -> (length (asked f w t) <= q)%nat.
Proof.
  induction f as [m0 next IH|a]; intros q w t H; [|cbn [asked length]; lia]. destruct q as [|q]; [destruct H|]. cbn [asks] in H. cbn [asked].
  destruct (known w m0) as [h0|]; [|cbn [length]]; [specialize (IH h0 q w t (H _))|specialize (IH (firstn 32 t) q ((m0, firstn 32 t) :: w) (skipn 32 t) (H _))]; lia.
Qed.

(** what a run is about: the string [tr a] of what the forger says *)
Variable tr : A -> list Z.
Definition about (f : forger A) (t : list Z) : list Z := tr (says f t).
Definition ix (f : forger A) (t : list Z) : nat := before (snd (fst (play f [] t))) (about f t).
Definition block_of (i : nat) (t : list Z) : list Z := firstn 32 (skipn (32 * i) t).
Fixpoint ended (f : forger A) : forger A := match f with Ask m next => Ask m (fun h => ended (next h)) | Say a => Ask (tr a) (fun _ => Say a) end.
Lemma ended_asked (f : forger A) : forall w t, let r := play f w t in asked (ended f) w t = asked f w t ++ (if known (snd (fst r)) (tr (fst (fst r))) then [] else [tr (fst (fst r))]).
Proof.
  induction f as [m0 next IH|a]; intros w t; cbn [ended asked play fst snd].
  - destruct (known w m0) as [h0|]; [apply IH|]. cbv zeta in *. rewrite IH. reflexivity.
  - destruct (known w (tr a)); reflexivity.
Qed.
Lemma run_ix (f : forger A) q t : asks q f -> (ix f t <= q)%nat /\ sha f t (about f t) = block_of (ix f t) t /\ nth_error (asked (ended f) [] t) (ix f t) = Some (about f t).
Proof.
  intros H. pose proof (asked_few f q [] t H) as F. pose proof (play_shape f [] t) as [L R]. cbv zeta in L, R.
  unfold ix, sha, hashOf, before. pose proof (ended_asked f [] t) as E. cbv zeta in E. fold (says f t) in E. fold (about f t) in E.
  destruct (known (snd (fst (play f [] t))) (about f t)) as [h|] eqn:K.
  - destruct (asked_in f [] t _ _ K eq_refl) as (i & Li & Ei). destruct (asked_answer f [] t i _ Ei) as [E1 E2]. cbv zeta in E1, E2. cbn [length Nat.add] in E2.
    rewrite E2. split; [lia|]. split; [rewrite E1 in K; unfold block_of; congruence|]. rewrite E, app_nil_r. exact Ei.
  - rewrite L, R. cbn [length Nat.add]. split; [exact F|]. split; [reflexivity|]. rewrite E, nth_error_app2, Nat.sub_diag by lia. reflexivity.
Qed.
(** the string is settled by the tape before its answer *)
Lemma run_same (f : forger A) q t t' : asks q f -> ix f t = ix f t' -> firstn (32 * ix f t) t = firstn (32 * ix f t) t' -> about f t = about f t'.
Proof.
  intros H E P. destruct (run_ix f q t H) as (_ & _ & N1). destruct (run_ix f q t' H) as (_ & _ & N2). rewrite <- E in N2. exact (asked_same _ _ _ _ _ _ _ N1 N2 P).
Qed.
End Run.
