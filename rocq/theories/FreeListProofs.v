(** * Proofs about the serializer free list (proof only) *)
From Coq Require Import ZArith List Bool Arith Lia Permutation.
From Verif Require Import Go Wire FreeList.
Import ListNotations.
Open Scope nat_scope.

Section L.
Context {A : Type}.
Lemma setNth_length (l : list A) i x : length (setNth l i x) = length l.
Proof. revert i. induction l as [|a l IH]; intros [|i]; cbn; [reflexivity..|]. rewrite IH. reflexivity. Qed.
Lemma setNth_same (l : list A) i x : i < length l -> nth_error (setNth l i x) i = Some x.
Proof. revert i. induction l as [|a l IH]; intros [|i] H; cbn in *; [lia|lia|reflexivity|]. apply IH. lia. Qed.
Lemma setNth_other (l : list A) i j x : i <> j -> nth_error (setNth l i x) j = nth_error l j.
Proof. revert i j. induction l as [|a l IH]; intros [|i] [|j] H; cbn; try reflexivity; [lia|]. apply IH. lia. Qed.
Lemma nth_lt (l : list A) i x : nth_error l i = Some x -> i < length l.
Proof. intros H. apply nth_error_Some. congruence. Qed.
Lemma setNth_cases (l : list A) i x j y : nth_error (setNth l i x) j = Some y -> (j = i /\ y = x) \/ (j <> i /\ nth_error l j = Some y).
Proof.
  intros H. destruct (Nat.eq_dec i j) as [->|D].
  - left. assert (L : j < length l) by (rewrite <- (setNth_length l j x); exact (nth_lt _ _ _ H)). rewrite setNth_same in H by exact L. split; congruence.
  - right. rewrite setNth_other in H by exact D. split; [lia|exact H].
Qed.
Lemma firstn_nth (l : list A) k e : nth_error l k = Some e -> firstn (S k) l = firstn k l ++ [e].
Proof. revert k. induction l as [|a l IH]; intros [|k] H; cbn in H; try discriminate; [injection H as ->; reflexivity|]. cbn. f_equal. apply IH. exact H. Qed.
Lemma firstn_setNth (l : list A) k x : k < length l -> firstn (S k) (setNth l k x) = firstn k l ++ [x].
Proof. revert k. induction l as [|a l IH]; intros [|k] H; cbn in *; [lia|lia|reflexivity|]. f_equal. apply IH. lia. Qed.
Lemma skipn_cons (l : list A) k v t : skipn k l = v :: t -> nth_error l k = Some v /\ skipn (S k) l = t.
Proof. revert k. induction l as [|a l IH]; intros [|k] H; cbn in H; try discriminate; [injection H as -> ->; split; reflexivity|]. apply IH. exact H. Qed.
Lemma nth_firstn_eq (l m : list A) n k : firstn n l = m -> k < n -> nth_error l k = nth_error m k.
Proof. intros <-. revert n k. induction l as [|a l IH]; intros [|n] [|k] H; cbn; try reflexivity; try lia. apply IH. lia. Qed.
Lemma nodup_r (l m : list A) : NoDup (l ++ m) -> NoDup m.
Proof. induction l as [|a l IH]; [auto|]. cbn. intros H. inversion H; auto. Qed.
End L.

Local Arguments firstn : simpl never.
Local Arguments skipn : simpl never.
Local Arguments maxItems : simpl never.
Local Arguments Z.of_nat : simpl never.
Definition held {A} (g : gstate A) : list nat := match holding g with Some b => [b] | None => [] end.
Lemma held_in {A} (g : gstate A) b : In b (held g) <-> holding g = Some b.
Proof. unfold held. destruct (holding g); cbn; split; intros H; [destruct H as [->|[]]; reflexivity|injection H as ->; left; reflexivity|destruct H|discriminate]. Qed.

Section Inv.
Context {A : Type}.
Implicit Types (p : prog A).

Lemma perm_set (gs : list (gstate A)) i g g' : nth_error gs i = Some g ->
  Permutation (held g ++ flat_map held (setNth gs i g')) (held g' ++ flat_map held gs).
Proof.
  revert i. induction gs as [|a gs IH]; intros [|i] H; cbn in H; try discriminate.
  - injection H as ->. cbn. rewrite !app_assoc. apply Permutation_app_tail, Permutation_app_comm.
  - specialize (IH i H). cbn.
    rewrite (Permutation_app_comm (held g)), <- app_assoc, (Permutation_app_comm _ (held g)), IH.
    rewrite !app_assoc. apply Permutation_app_tail, Permutation_app_comm.
Qed.
Lemma held_all (gs : list (gstate A)) i g b : nth_error gs i = Some g -> holding g = Some b -> In b (flat_map held gs).
Proof. intros H E. apply in_flat_map. exists g. split; [exact (nth_error_In _ _ H)|apply held_in; exact E]. Qed.
Lemma held_two (gs : list (gstate A)) i j g h b : NoDup (flat_map held gs) -> nth_error gs i = Some g -> nth_error gs j = Some h ->
  holding g = Some b -> holding h = Some b -> i = j.
Proof.
  revert i j. induction gs as [|a gs IH]; intros i j ND Hi Hj Eg Eh; [destruct i; discriminate|].
  cbn in ND. destruct i as [|i], j as [|j]; cbn in Hi, Hj; [reflexivity| | |f_equal; apply (IH i j); auto].
  - injection Hi as ->. exfalso. unfold held in ND at 1. rewrite Eg in ND. cbn in ND. inversion ND; subst. apply H1. exact (held_all _ _ _ _ Hj Eh).
  - injection Hj as ->. exfalso. unfold held in ND at 1. rewrite Eh in ND. cbn in ND. inversion ND; subst. apply H1. exact (held_all _ _ _ _ Hi Eg).
  - unfold held in ND at 1. destruct (holding a); cbn in ND; [inversion ND; assumption|exact ND].
Qed.

(** buffer b has length 8 and contents l *)
Definition okG (m : list (list Z)) (g : gstate A) : Prop :=
  match g with
  | GProg p => small p
  | GFill b n k s0 s c => n <= 8 /\ k <= n /\ k <= length s0 /\ s = skipn k s0 /\ (forall r, small (c r)) /\
      exists l, nth_error m b = Some l /\ firstn k l = firstn k s0
  | GTake b n acc s c => n <= 8 /\ length acc <= n /\ (forall r, small (c r)) /\ exists l, nth_error m b = Some l /\ acc = firstn (length acc) l
  | GPut b bs k w c => length bs <= 8 /\ k <= length bs /\ (forall r, small (c r)) /\ exists l, nth_error m b = Some l /\ firstn k l = firstn k bs
  | GSend b bs acc w c => length bs <= 8 /\ length acc <= length bs /\ (forall r, small (c r)) /\ (exists l, nth_error m b = Some l /\ firstn (length bs) l = bs) /\ acc = firstn (length acc) bs
  | GGive b n p => small p
  end.
Definition resG (m : list (list Z)) (g : gstate A) : A :=
  match g with
  | GProg p | GGive _ _ p => alone p
  | GFill b n k s0 s c => alone (c (readFull (Z.of_nat n) s0))
  | GTake b n acc s c => alone (c (ROk (firstn n (nth b m [])) s))
  | GPut b bs k w c => alone (c (wwrite w bs))
  | GSend b bs acc w c => alone (c (wwrite w bs))
  end.
Definition costG (m : list (list Z)) (g : gstate A) : nat :=
  match g with
  | GProg p => cost p
  | GGive _ _ p => S (cost p)
  | GFill b n k s0 s c => (n - k) + n + 3 + cost (c (readFull (Z.of_nat n) s0))
  | GTake b n acc s c => (n - length acc) + 2 + cost (c (ROk (firstn n (nth b m [])) s))
  | GPut b bs k w c => (length bs - k) + length bs + 3 + cost (c (wwrite w bs))
  | GSend b bs acc w c => (length bs - length acc) + 2 + cost (c (wwrite w bs))
  end.
Definition total (s : fstate A) : nat := list_sum (map (costG (mem s)) (gors s)).

Record finv (ps : list (prog A)) (s : fstate A) : Prop := {
  i_nodup : NoDup (map fst (chan s) ++ flat_map held (gors s));
  i_mem : forall b, In b (map fst (chan s) ++ flat_map held (gors s)) -> b < length (mem s);
  i_len : forall b l, nth_error (mem s) b = Some l -> length l = 8;
  i_cap : length (chan s) <= maxItems;
  i_num : length (gors s) = length ps;
  i_ok : forall i g, nth_error (gors s) i = Some g -> okG (mem s) g;
  i_res : forall i g p, nth_error (gors s) i = Some g -> nth_error ps i = Some p -> resG (mem s) g = alone p
}.

(** nothing a goroutine knows changes when a buffer it does not hold is written or a buffer is added *)
Lemma ok_mem m m' g : (forall b, holding g = Some b -> nth_error m' b = nth_error m b) -> okG m g -> okG m' g.
Proof. intros H. destruct g; cbn in *; try tauto; try (rewrite (H _ eq_refl); tauto). Qed.
Lemma res_mem m m' g : (forall b, holding g = Some b -> nth b m' [] = nth b m []) -> resG m' g = resG m g.
Proof. intros H. destruct g; cbn in *; try reflexivity. rewrite (H _ eq_refl). reflexivity. Qed.
Lemma cost_mem m m' g : (forall b, holding g = Some b -> nth b m' [] = nth b m []) -> costG m' g = costG m g.
Proof. intros H. destruct g; cbn in *; try reflexivity. rewrite (H _ eq_refl). reflexivity. Qed.
Lemma nth_of (m m' : list (list Z)) b : nth_error m' b = nth_error m b -> nth b m' [] = nth b m [].
Proof. intros H. destruct (nth_error m b) as [l|] eqn:E.
  - rewrite (nth_error_nth _ _ _ H), (nth_error_nth _ _ _ E). reflexivity.
  - apply nth_error_None in E, H. rewrite !nth_overflow by assumption. reflexivity.
Qed.

Lemma sum_set (f : gstate A -> nat) gs i g g' : nth_error gs i = Some g ->
  list_sum (map f (setNth gs i g')) + f g = list_sum (map f gs) + f g'.
Proof.
  revert i. induction gs as [|a gs IH]; intros [|i] H; cbn in H; try discriminate; [injection H as ->; cbn; lia|].
  specialize (IH i H). cbn. unfold list_sum in IH. lia.
Qed.

(** One step keeps the invariant and lowers the measure: the common part. *)
Lemma step_inv ps s i g g' m' ch' : finv ps s -> nth_error (gors s) i = Some g ->
  (forall j h b, j <> i -> nth_error (gors s) j = Some h -> holding h = Some b -> nth_error m' b = nth_error (mem s) b) ->
  NoDup (map fst ch' ++ flat_map held (setNth (gors s) i g')) ->
  (forall b, In b (map fst ch' ++ flat_map held (setNth (gors s) i g')) -> b < length m') ->
  (forall b l, nth_error m' b = Some l -> length l = 8) ->
  length ch' <= maxItems -> okG m' g' -> resG m' g' = resG (mem s) g -> costG m' g' < costG (mem s) g ->
  finv ps (FS m' ch' (setNth (gors s) i g')) /\ total (FS m' ch' (setNth (gors s) i g')) < total s.
Proof.
  intros I Hi Hm ND Hb Hl Hc Hok Hres Hcost. split.
  - constructor; cbn [mem chan gors]; try assumption.
    + rewrite setNth_length. apply I.
    + intros j h Hj. apply setNth_cases in Hj. destruct Hj as [[-> ->]|[D Hj]]; [exact Hok|].
      apply (ok_mem (mem s)); [intros b Eb; exact (Hm j h b D Hj Eb)|exact (i_ok _ _ I j h Hj)].
    + intros j h p Hj Hp. apply setNth_cases in Hj. destruct Hj as [[-> ->]|[D Hj]].
      * rewrite Hres. exact (i_res _ _ I i g p Hi Hp).
      * rewrite (res_mem (mem s)); [exact (i_res _ _ I j h p Hj Hp)|]. intros b Eb. apply nth_of. exact (Hm j h b D Hj Eb).
  - unfold total. cbn [mem gors].
    assert (E : list_sum (map (costG m') (setNth (gors s) i g')) + costG (mem s) g = list_sum (map (costG (mem s)) (gors s)) + costG m' g').
    { revert Hi Hm. clear. generalize (gors s) as gs. intros gs. revert i. induction gs as [|a gs IH]; intros [|i] H Hm; cbn in H; try discriminate.
      - injection H as ->. cbn. assert (Q : map (costG m') gs = map (costG (mem s)) gs).
        { apply map_ext_in. intros h Hh. apply In_nth_error in Hh. destruct Hh as [j Hj]. apply cost_mem. intros b Eb. apply nth_of.
          exact (Hm (S j) h b ltac:(lia) Hj Eb). }
        rewrite Q. lia.
      - specialize (IH i H). cbn. unfold list_sum in IH. rewrite (cost_mem (mem s) m' a).
        + rewrite <- Nat.add_assoc, IH; [lia|]. intros j h b D Hj Eb. exact (Hm (S j) h b ltac:(lia) Hj Eb).
        + intros b Eb. apply nth_of. exact (Hm 0 a b ltac:(lia) eq_refl Eb). }
    lia.
Qed.

(** a step that keeps channel and holding, writing at most the buffer held *)
Lemma step_keep ps s i g g' m' b : finv ps s -> nth_error (gors s) i = Some g -> holding g = Some b -> holding g' = Some b ->
  (forall b', b' <> b -> nth_error m' b' = nth_error (mem s) b') -> length m' = length (mem s) ->
  (forall b l, nth_error m' b = Some l -> length l = 8) ->
  okG m' g' -> resG m' g' = resG (mem s) g -> costG m' g' < costG (mem s) g ->
  finv ps (FS m' (chan s) (setNth (gors s) i g')) /\ total (FS m' (chan s) (setNth (gors s) i g')) < total s.
Proof.
  intros I Hi Hg Hg' Hm Lm Hl. 
  assert (P : Permutation (flat_map held (setNth (gors s) i g')) (flat_map held (gors s))).
  { pose proof (perm_set (gors s) i g g' Hi) as Q. unfold held at 1 3 in Q. rewrite Hg, Hg' in Q. cbn in Q. exact (Permutation_cons_inv Q). }
  apply step_inv; try assumption.
  - intros j h b' D Hj Eb. apply Hm. intros ->. apply D. apply (held_two (gors s) j i h g b); try assumption.
    exact (nodup_r _ _ (i_nodup _ _ I)).
  - apply (Permutation_NoDup (l := map fst (chan s) ++ flat_map held (gors s))); [|apply I]. apply Permutation_app_head. symmetry. exact P.
  - intros b' Hb. rewrite Lm. apply (i_mem _ _ I). apply in_app_iff in Hb. apply in_app_iff. destruct Hb as [Hb|Hb]; [left; exact Hb|].
    right. apply (Permutation_in _ P). exact Hb.
  - apply I.
Qed.
(** Return *)
Lemma step_give ps s i b n p : finv ps s -> nth_error (gors s) i = Some (GGive b n p) ->
  let s' := FS (mem s) (giveBack b n (chan s)) (setNth (gors s) i (GProg p)) in finv ps s' /\ total s' < total s.
Proof.
  intros I Hi. cbn zeta.
  pose proof (perm_set (gors s) i (GGive b n p) (GProg p) Hi) as Q. unfold held at 1 3 in Q. cbn [holding app] in Q.
  pose proof (i_nodup _ _ I) as ND.
  assert (P : Permutation (map fst (chan s) ++ flat_map held (gors s)) ((map fst (chan s) ++ [b]) ++ flat_map held (setNth (gors s) i (GProg p)))).
  { rewrite <- app_assoc. apply Permutation_app_head. symmetry. exact Q. }
  assert (NDb := Permutation_NoDup P ND).
  apply (step_inv ps s i (GGive b n p)); try assumption.
  - reflexivity.
  - unfold giveBack. destruct (_ <? _); [rewrite map_app; exact NDb|].
    rewrite <- app_assoc in NDb. cbn in NDb. exact (NoDup_remove_1 _ _ _ NDb).
  - intros b' Hb. apply (i_mem _ _ I). apply (Permutation_in _ (Permutation_sym P)). unfold giveBack in Hb. destruct (_ <? _).
    + rewrite map_app in Hb. exact Hb.
    + rewrite !in_app_iff in *. tauto.
  - apply I.
  - unfold giveBack. destruct (length (chan s) <? maxItems) eqn:E; [apply Nat.ltb_lt in E; rewrite app_length; cbn [length]; lia|apply I].
  - exact (i_ok _ _ I i _ Hi).
  - reflexivity.
  - cbn. lia.
Qed.
(** Borrow *)
Lemma step_borrow ps s i p (g' : nat -> gstate A) : finv ps s -> nth_error (gors s) i = Some (GProg p) ->
  let '(b, m, ch) := borrow s in
  (forall b, holding (g' b) = Some b) ->
  (forall l, nth_error m b = Some l -> okG m (g' b) /\ resG m (g' b) = alone p /\ costG m (g' b) < cost p) ->
  let s' := FS m ch (setNth (gors s) i (g' b)) in finv ps s' /\ total s' < total s.
Proof.
  intros I Hi. unfold borrow. pose proof (i_nodup _ _ I) as ND. pose proof (i_mem _ _ I) as HM. pose proof (i_cap _ _ I) as HC. destruct (chan s) as [|[b n] c] eqn:Ec; intros Hh HP.
  - set (b := length (mem s)) in *.
    pose proof (perm_set (gors s) i (GProg p) (g' b) Hi) as Q. unfold held at 1 3 in Q. rewrite Hh in Q. cbn [holding app] in Q.
    assert (Hb : nth_error (mem s ++ [newBuf]) b = Some newBuf) by (rewrite nth_error_app2, Nat.sub_diag by reflexivity; reflexivity).
    destruct (HP _ Hb) as (H1 & H2 & H3). cbn in ND, HM. 
    apply (step_inv ps s i (GProg p)); try assumption.
    + intros j h b' D Hj Eb. apply nth_error_app1. apply HM. exact (held_all _ _ _ _ Hj Eb).
    + cbn. apply (Permutation_NoDup (l := b :: flat_map held (gors s))); [symmetry; exact Q|]. constructor; [|exact ND].
      intros H. apply HM in H. unfold b in H. lia.
    + intros b' Hb'. cbn in Hb'. apply (Permutation_in _ Q) in Hb'. rewrite app_length. cbn [length]. destruct Hb' as [<-|Hb']; [unfold b; lia|]. apply HM in Hb'. lia.
    + intros b' l Hl. destruct (Nat.lt_ge_cases b' (length (mem s))) as [L|L].
      * rewrite nth_error_app1 in Hl by exact L. exact (i_len _ _ I _ _ Hl).
      * rewrite nth_error_app2 in Hl by exact L. destruct (b' - length (mem s)) as [|d]; cbn in Hl; [injection Hl as <-; reflexivity|destruct d; discriminate].
  - pose proof (perm_set (gors s) i (GProg p) (g' b) Hi) as Q. unfold held at 1 3 in Q. rewrite Hh in Q. cbn [holding app] in Q.
    cbn [map fst app] in ND, HM. cbn [length] in HC.
    assert (P : Permutation (b :: map fst c ++ flat_map held (gors s)) (map fst c ++ flat_map held (setNth (gors s) i (g' b)))).
    { rewrite Q. apply Permutation_middle. }
    assert (Lb : b < length (mem s)) by (apply HM; left; reflexivity).
    destruct (nth_error (mem s) b) as [l|] eqn:El; [|apply nth_error_None in El; lia].
    destruct (HP _ eq_refl) as (H1 & H2 & H3).
    apply (step_inv ps s i (GProg p)); try assumption.
    + reflexivity.
    + exact (Permutation_NoDup P ND).
    + intros b' Hb'. apply HM. apply (Permutation_in _ (Permutation_sym P)) in Hb'. exact Hb'.
    + apply I.
    + lia.
Qed.

Lemma readFull_all n (s : list Z) : n <= length s -> readFull (Z.of_nat n) s = ROk (firstn n s) (skipn n s).
Proof. intros H. unfold readFull, blen. rewrite Nat2Z.id. replace (Z.of_nat n <=? Z.of_nat (length s))%Z with true; [reflexivity|]. symmetry. apply Z.leb_le. lia. Qed.
Lemma readFull_short n k (s : list Z) : k < n -> length s = k -> readFull (Z.of_nat n) s = RErr (if k =? 0 then EEOF else EUnexpectedEOF) [].
Proof.
  intros H <-. unfold readFull, blen. replace (Z.of_nat n <=? Z.of_nat (length s))%Z with false by (symmetry; apply Z.leb_gt; lia).
  destruct s; reflexivity.
Qed.
Lemma load_ok (m : list (list Z)) b n k l : nth_error m b = Some l -> length l = 8 -> k < n -> n <= 8 ->
  exists v, load m b n k = Some v /\ nth_error l k = Some v.
Proof.
  intros E L H H8. unfold load. rewrite E. destruct (k <? n) eqn:Ek; [|apply Nat.ltb_ge in Ek; lia].
  destruct (nth_error l k) as [v|] eqn:Ev; [exists v; split; reflexivity|]. apply nth_error_None in Ev. lia.
Qed.
Lemma store_ok (m : list (list Z)) b n k v l : nth_error m b = Some l -> length l = 8 -> k < n -> n <= 8 ->
  store m b n k v = Some (setNth m b (setNth l k v)).
Proof.
  intros E L H H8. unfold store. rewrite E, L. destruct (k <? n) eqn:Ek; [|apply Nat.ltb_ge in Ek; lia].
  destruct (k <? 8) eqn:E8; [reflexivity|apply Nat.ltb_ge in E8; lia].
Qed.

Lemma fstep ps s i : finv ps s ->
  match nth_error (gors s) i with
  | None | Some (GProg (Ret _)) => fnext i s = None
  | Some _ => exists s', fnext i s = Some (FRun s') /\ finv ps s' /\ total s' < total s
  end.
Proof.
  intros I. unfold fnext. destruct (nth_error (gors s) i) as [g|] eqn:Hi; [|reflexivity]. pose proof (i_ok _ _ I i g Hi) as OK.
  pose proof (i_len _ _ I) as HL.
  destruct g as [[a|n st c|bs w c]|b n k s0 st c|b n acc st c|b bs k w c|b bs acc w c|b n p]; [reflexivity|..].
  - pose proof (step_borrow ps s i _ (fun b => GFill b n 0 st st c) I Hi) as H. destruct (borrow s) as [[b m] ch]. eexists. split; [reflexivity|].
    apply H; [reflexivity|]. intros l El. cbn in OK |- *. split; [|split; [reflexivity|lia]]. repeat split; try lia; try apply OK. exists l. split; [exact El|reflexivity].
  - pose proof (step_borrow ps s i _ (fun b => GPut b bs 0 w c) I Hi) as H. destruct (borrow s) as [[b m] ch]. eexists. split; [reflexivity|].
    apply H; [reflexivity|]. intros l El. cbn in OK |- *. split; [|split; [reflexivity|lia]]. repeat split; try lia; try apply OK. exists l. split; [exact El|reflexivity].
  - cbn in OK. destruct OK as (N8 & Kn & Ks & Es & Sm & l & El & Fl). pose proof (HL _ _ El) as Ll. destruct (Nat.eqb_spec k n) as [->|Nk].
    + eexists. split; [reflexivity|]. eapply step_keep; try exact Hi; try exact I; try reflexivity; try exact HL.
      * cbn. repeat split; try lia; [exact Sm|]. exists l. split; [exact El|reflexivity].
      * cbn. rewrite (nth_error_nth _ _ _ El), readFull_all by exact Ks. rewrite Fl, Es. reflexivity.
      * cbn. rewrite (nth_error_nth _ _ _ El), readFull_all by exact Ks. rewrite Fl, Es. lia.
    + destruct st as [|v st].
      * assert (L0 : length s0 = k) by (assert (Q : length (skipn k s0) = 0) by (rewrite <- Es; reflexivity); rewrite skipn_length in Q; lia).
        eexists. split; [reflexivity|]. eapply step_keep; try exact Hi; try exact I; try reflexivity; try exact HL.
        -- cbn. apply Sm.
        -- cbn. rewrite (readFull_short n k) by (try exact L0; lia). reflexivity.
        -- cbn. rewrite (readFull_short n k) by (try exact L0; lia). lia.
      * symmetry in Es. apply skipn_cons in Es. destruct Es as [En Es].
        rewrite (store_ok _ _ _ _ _ _ El Ll) by lia. eexists. split; [reflexivity|].
        assert (Eb : nth_error (setNth (mem s) b (setNth l k v)) b = Some (setNth l k v)) by (apply setNth_same; exact (nth_lt _ _ _ El)).
        eapply step_keep; try exact Hi; try exact I; try reflexivity.
        -- intros b' D. apply setNth_other. congruence.
        -- apply setNth_length.
        -- intros b' l' H. apply setNth_cases in H. destruct H as [[-> ->]|[_ H]]; [rewrite setNth_length; exact Ll|exact (HL _ _ H)].
        -- cbn. repeat split; try lia; [exact (nth_lt _ _ _ En)|symmetry; exact Es|exact Sm|].
           eexists. split; [exact Eb|]. rewrite (firstn_nth _ _ _ En), firstn_setNth by lia. rewrite Fl. reflexivity.
        -- cbn. lia.
  - cbn in OK. destruct OK as (N8 & Kn & Sm & l & El & Fl). pose proof (HL _ _ El) as Ll. destruct (Nat.eqb_spec (length acc) n) as [En|Nk].
    + eexists. split; [reflexivity|]. eapply step_keep; try exact Hi; try exact I; try reflexivity; try exact HL.
      * cbn. apply Sm.
      * cbn. rewrite (nth_error_nth _ _ _ El), <- En, <- Fl. reflexivity.
      * cbn. rewrite (nth_error_nth _ _ _ El), <- En, <- Fl. lia.
    + destruct (load_ok _ _ n (length acc) _ El Ll) as (v & Ev & Nv); [lia|exact N8|]. rewrite Ev.
      eexists. split; [reflexivity|]. eapply step_keep; try exact Hi; try exact I; try reflexivity; try exact HL.
      * cbn. rewrite app_length. cbn [length]. repeat split; try lia; [exact Sm|]. exists l. split; [exact El|].
        rewrite Nat.add_1_r, (firstn_nth _ _ _ Nv), <- Fl. reflexivity.
      * cbn. rewrite app_length. cbn [length]. lia.
  - cbn in OK. destruct OK as (N8 & Kn & Sm & l & El & Fl). pose proof (HL _ _ El) as Ll. destruct (nth_error bs k) as [v|] eqn:Ev.
    + pose proof (nth_lt _ _ _ Ev) as Lk. rewrite (store_ok _ _ _ _ _ _ El Ll) by lia. eexists. split; [reflexivity|].
      assert (Eb : nth_error (setNth (mem s) b (setNth l k v)) b = Some (setNth l k v)) by (apply setNth_same; exact (nth_lt _ _ _ El)).
      eapply step_keep; try exact Hi; try exact I; try reflexivity.
      * intros b' D. apply setNth_other. congruence.
      * apply setNth_length.
      * intros b' l' H. apply setNth_cases in H. destruct H as [[-> ->]|[_ H]]; [rewrite setNth_length; exact Ll|exact (HL _ _ H)].
      * cbn. repeat split; try lia; [exact Sm|]. eexists. split; [exact Eb|]. rewrite (firstn_nth _ _ _ Ev), firstn_setNth by lia. rewrite Fl. reflexivity.
      * cbn. lia.
    + apply nth_error_None in Ev. assert (k = length bs) as -> by lia. eexists. split; [reflexivity|].
      eapply step_keep; try exact Hi; try exact I; try reflexivity; try exact HL.
      * cbn. repeat split; try lia; [exact Sm|]. exists l. split; [exact El|]. rewrite Fl. apply firstn_all.
      * cbn. lia.
  - cbn in OK. destruct OK as (N8 & Kn & Sm & (l & El & Fl) & Fa). pose proof (HL _ _ El) as Ll. destruct (Nat.eqb_spec (length acc) (length bs)) as [En|Nk].
    + rewrite En, firstn_all in Fa. subst acc. eexists. split; [reflexivity|]. eapply step_keep; try exact Hi; try exact I; try reflexivity; try exact HL.
      * cbn. apply Sm.
      * cbn. lia.
    + destruct (load_ok _ _ (length bs) (length acc) _ El Ll) as (v & Ev & Nv); [lia|exact N8|]. rewrite Ev.
      eexists. split; [reflexivity|]. eapply step_keep; try exact Hi; try exact I; try reflexivity; try exact HL.
      * cbn. rewrite app_length. cbn [length]. repeat split; try lia; [exact Sm|exists l; split; [exact El|exact Fl]|].
        rewrite (nth_firstn_eq _ _ _ _ Fl) in Nv by lia.
        rewrite Nat.add_1_r, (firstn_nth _ _ _ Nv), <- Fa. reflexivity.
      * cbn. rewrite app_length. cbn [length]. lia.
  - eexists. split; [reflexivity|]. apply step_give; assumption.
Qed.

Lemma finit_inv ps : Forall small ps -> finv ps (finit ps).
Proof.
  intros F. assert (E : flat_map held (map (@GProg A) ps) = []) by (induction ps; [reflexivity|apply IHps; inversion F; assumption]).
  constructor; cbn [finit mem chan gors map app]; rewrite ?E.
  - constructor.
  - intros b [].
  - intros [|b] l H; discriminate.
  - cbn [length]. lia.
  - apply map_length.
  - intros i g H. rewrite nth_error_map in H. destruct (nth_error ps i) as [p|] eqn:Ep; [|discriminate]. injection H as <-. cbn.
    rewrite Forall_forall in F. apply F. exact (nth_error_In _ _ Ep).
  - intros i g p H Hp. rewrite nth_error_map, Hp in H. injection H as <-. reflexivity.
Qed.
Lemma fexec_inv ps sched : forall s, finv ps s -> exists s', fexec sched s = FRun s' /\ finv ps s' /\ fsteps sched s + total s' <= total s.
Proof.
  induction sched as [|i r IH]; intros s I; cbn [fexec fsteps]; [exists s; split; [reflexivity|split; [exact I|lia]]|].
  pose proof (fstep ps s i I) as H. destruct (fnext i s) as [c|].
  - assert (H' : exists s', Some c = Some (FRun s') /\ finv ps s' /\ total s' < total s).
    { destruct (nth_error (gors s) i) as [[[a|n st c0|bs w c0]|b n k s0 st c0|b n acc st c0|b bs k w c0|b bs acc w c0|b n p]|]; try discriminate; exact H. }
    destruct H' as (s1 & E & I1 & L1). injection E as ->. destruct (IH s1 I1) as (s2 & E2 & I2 & L2). exists s2. split; [exact E2|split; [exact I2|lia]].
  - apply IH. exact I.
Qed.
Lemma reach ps sched : Forall small ps -> exists s, fexec sched (finit ps) = FRun s /\ finv ps s /\ fsteps sched (finit ps) + total s <= total (finit ps).
Proof. intros F. apply fexec_inv, finit_inv, F. Qed.
Lemma reach_run ps sched s : Forall small ps -> fexec sched (finit ps) = FRun s -> finv ps s.
Proof. intros F E. destruct (reach ps sched F) as (s' & E' & I & _). rewrite E in E'. injection E' as <-. exact I. Qed.
Lemma total_init ps : total (finit ps) = list_sum (map cost ps).
Proof. unfold total, finit. cbn [mem gors]. rewrite map_map. reflexivity. Qed.
Lemma fexec_app a : forall (s : fstate A) b, fexec (a ++ b) s = match fexec a s with FRun s' => fexec b s' | FCrash => FCrash end.
Proof. induction a as [|i a IH]; intros s b; cbn; [reflexivity|]. destruct (fnext i s) as [[s'|]|]; [apply IH|reflexivity|apply IH]. Qed.
Lemma finish_gen ps : forall n s, total s <= n -> finv ps s -> exists more s', fexec more s = FRun s' /\
  forall i g, nth_error (gors s') i = Some g -> exists a, g = GProg (Ret a).
Proof.
  assert (D : forall s, (forall i g, nth_error (gors s) i = Some g -> exists a, g = GProg (Ret a)) \/ exists i, @fnext A i s <> None).
  { intros s. assert (Q : forall k, (forall i g, i < k -> nth_error (gors s) i = Some g -> exists a, g = GProg (Ret a)) \/ exists i g, nth_error (gors s) i = Some g /\ forall a, g <> GProg (Ret a)).
    { induction k as [|k [H|H]]; [left; intros; lia| |right; exact H].
      destruct (nth_error (gors s) k) as [g|] eqn:E.
      - assert (Hg : (exists a, g = GProg (Ret a)) \/ forall a, g <> GProg (Ret a)).
        { destruct g as [[a| |]| | | | |]; [left; exists a; reflexivity|right; intros; discriminate..]. }
        destruct Hg as [Hg|Hg]; [|right; exists k, g; auto].
        left. intros i h L Hh. destruct (Nat.eq_dec i k) as [->|]; [rewrite E in Hh; injection Hh as <-; exact Hg|apply (H i); [lia|exact Hh]].
      - left. intros i h L Hh. destruct (Nat.eq_dec i k) as [->|]; [congruence|apply (H i); [lia|exact Hh]]. }
    destruct (Q (length (gors s))) as [H|(i & g & E & H)].
    - left. intros i g E. exact (H i g (nth_lt _ _ _ E) E).
    - right. exists i. unfold fnext. rewrite E. destruct g as [[a|n st c|bs w c]|b n k s0 st c|b n acc st c|b bs k w c|b bs acc w c|b n p];
        [destruct (H a eq_refl)|destruct (borrow s) as [[? ?] ?]; discriminate|destruct (borrow s) as [[? ?] ?]; discriminate|..|discriminate].
      + destruct (k =? n); [discriminate|]. destruct st; [discriminate|]. destruct (store _ _ _ _ _); discriminate.
      + destruct (length acc =? n); [discriminate|]. destruct (load _ _ _ _); discriminate.
      + destruct (nth_error bs k); [|discriminate]. destruct (store _ _ _ _ _); discriminate.
      + destruct (length acc =? length bs); [discriminate|]. destruct (load _ _ _ _); discriminate. }
  induction n as [|n IH]; intros s L I; (destruct (D s) as [H|(i & H)]; [exists [], s; split; [reflexivity|exact H]|]);
    pose proof (fstep ps s i I) as Q; (assert (H' : exists s', fnext i s = Some (FRun s') /\ finv ps s' /\ total s' < total s) by
     (destruct (nth_error (gors s) i) as [[[a|m st c0|bs w c0]|b m k s0 st c0|b m acc st c0|b bs k w c0|b bs acc w c0|b m p]|]; try contradiction; exact Q));
    destruct H' as (s1 & E1 & I1 & L1); [lia|].
  destruct (IH s1 ltac:(lia) I1) as (more & s2 & E2 & F2). exists (i :: more), s2. split; [|exact F2]. cbn. rewrite E1. exact E2.
Qed.
End Inv.

(** ** The functions of the package *)
Lemma small_bind {A B} (p : prog A) (f : A -> prog B) : small p -> (forall a, small (f a)) -> small (pbind p f).
Proof. intros H F. induction p as [a|n s k IH|bs w k IH]; cbn in *; [apply F|..]; (split; [apply H|]; intros r; apply IH, H). Qed.
Lemma alone_bind {A B} (p : prog A) (f : A -> prog B) : alone (pbind p f) = alone (f (alone p)).
Proof. induction p as [a|n s k IH|bs w k IH]; cbn; [reflexivity|apply IH..]. Qed.
Lemma small_uint {A} n conv s (k : rd Z -> prog A) : n <= 8 -> (forall r, small (k r)) -> small (pUint n conv s k).
Proof. intros H F. cbn. split; [exact H|]. intros r. apply F. Qed.
Lemma small_rtry {A B} (r : rd A) e (f : A -> list Z -> prog (rd B)) : (forall x, small (e x)) -> (forall a s, small (f a s)) -> small (rtry r e f).
Proof. intros He Hf. destruct r; cbn; auto. Qed.
Lemma small_ReadVarInt s : small (pReadVarInt s).
Proof.
  unfold pReadVarInt. apply small_uint; [lia|]. intros r. apply small_rtry; [exact (fun _ => I)|]. intros d s1.
  repeat (destruct (_ =? _)%Z); try exact I; (apply small_uint; [lia|]; intros r'; apply small_rtry; [exact (fun _ => I)|exact (fun _ _ => I)]).
Qed.
Lemma small_WriteVarInt w v : small (pWriteVarInt w v).
Proof.
  unfold pWriteVarInt. destruct (v <? 0xfd)%Z; [cbn; split; [lia|exact (fun _ => I)]|].
  repeat (destruct (_ <=? _)%Z); (cbn; split; [lia|]; intros [? []]; cbn; [exact I|split; [lia|exact (fun _ => I)]]).
Qed.
Lemma alone_ReadVarInt s : alone (pReadVarInt s) = ReadVarInt s.
Proof.
  unfold pReadVarInt, ReadVarInt, pUint, Uint8, Uint16, Uint32, Uint64. cbn [alone].
  change (Z.of_nat 1) with 1%Z. destruct (rbind (readFull 1 s) _) as [d s1|e s1|]; cbn [rtry rbind alone]; [|reflexivity|reflexivity].
  destruct (d =? 0xff)%Z; [|destruct (d =? 0xfe)%Z; [|destruct (d =? 0xfd)%Z; [|reflexivity]]]; cbn [alone].
  - change (Z.of_nat 8) with 8%Z. destruct (rbind (readFull 8 s1) _); reflexivity.
  - change (Z.of_nat 4) with 4%Z. destruct (rbind (readFull 4 s1) _); reflexivity.
  - change (Z.of_nat 2) with 2%Z. destruct (rbind (readFull 2 s1) _); reflexivity.
Qed.
Lemma alone_WriteVarInt w v : alone (pWriteVarInt w v) = WriteVarInt w v.
Proof.
  unfold pWriteVarInt, WriteVarInt, PutUint8, PutUint16, PutUint32, PutUint64.
  destruct (v <? 0xfd)%Z; [reflexivity|]. destruct (v <=? 65535)%Z; [|destruct (v <=? 4294967295)%Z]; cbn [alone];
    destruct (wwrite w _) as [w1 []]; reflexivity.
Qed.
Lemma alone_ReadVarBytes m s : alone (pReadVarBytes m s) = ReadVarBytes m s.
Proof. unfold pReadVarBytes. rewrite alone_bind, alone_ReadVarInt. reflexivity. Qed.
Lemma alone_WriteVarBytes w bs : alone (pWriteVarBytes w bs) = WriteVarBytes w bs.
Proof. unfold pWriteVarBytes. rewrite alone_bind, alone_WriteVarInt. unfold WriteVarBytes. destruct (WriteVarInt w (blen bs)). reflexivity. Qed.
Lemma small_ReadVarBytes m s : small (pReadVarBytes m s).
Proof. apply small_bind; [apply small_ReadVarInt|exact (fun _ => I)]. Qed.
Lemma small_WriteVarBytes w bs : small (pWriteVarBytes w bs).
Proof. apply small_bind; [apply small_WriteVarInt|intros []; exact I]. Qed.
