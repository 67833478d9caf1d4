(** * Counting the cases of a random source *)
From Coq Require Import ZArith List Bool Lia Permutation.
From Verif Require Import Go Wire Big CodecProofs FieldProofs Precompute Rand SpecRand RandProofs.
Import ListNotations.
Open Scope Z_scope.

(** ** All strings *)
Lemma in_bytes b : In b (map Z.of_nat (seq 0 256)) <-> is_byte b.
Proof.
  rewrite in_map_iff. unfold is_byte. split.
  - intros (i & <- & Hi). apply in_seq in Hi. lia.
  - intros H. exists (Z.to_nat b). split; [apply Z2Nat.id; lia|]. apply in_seq. lia.
Qed.
Lemma nodup_bytes : NoDup (map Z.of_nat (seq 0 256)).
Proof. apply FinFun.Injective_map_NoDup; [intros x y; apply Nat2Z.inj|apply seq_NoDup]. Qed.
Lemma in_tapes L t : In t (allTapes L) <-> tape L t.
Proof.
  revert t. induction L as [|L IH]; intros t.
  - cbn [allTapes In]. unfold tape. split.
    + intros [<-|[]]. split; [constructor|reflexivity].
    + intros [_ E]. left. destruct t; [reflexivity|discriminate E].
  - cbn [allTapes]. rewrite in_flat_map. unfold tape. split.
    + intros (b & Hb & Ht). apply in_bytes in Hb. apply in_map_iff in Ht. destruct Ht as (u & <- & Hu). apply IH in Hu. destruct Hu as [O E].
      split; [constructor; assumption|cbn [length]; rewrite E; reflexivity].
    + intros [O E]. destruct t as [|b u]; [discriminate E|]. inversion O; subst. exists b. split; [apply in_bytes; assumption|].
      apply in_map_iff. exists u. split; [reflexivity|]. apply IH. split; [assumption|]. cbn [length] in E. lia.
Qed.
Lemma nodup_flat {A B} (f : A -> list B) : forall l, NoDup l -> (forall a, In a l -> NoDup (f a)) ->
  (forall a b x, In a l -> In b l -> In x (f a) -> In x (f b) -> a = b) -> NoDup (flat_map f l).
Proof.
  induction l as [|a l IH]; intros D F X; [constructor|]. cbn [flat_map]. apply NoDup_cons_iff in D. destruct D as [Na D].
  assert (D2 : NoDup (flat_map f l)).
  { apply IH; [exact D|intros b Hb; apply F; now right|]. intros b c x Hb Hc. apply X; now right. }
  assert (X2 : forall x, In x (f a) -> ~ In x (flat_map f l)).
  { intros x Hx I. apply in_flat_map in I. destruct I as (b & Hb & Hx'). apply Na.
    rewrite (X a b x (or_introl eq_refl) (or_intror Hb) Hx Hx'). exact Hb. }
  specialize (F a (or_introl eq_refl)). clear X. induction (f a) as [|x t IHt]; [exact D2|]. cbn [app].
  apply NoDup_cons_iff in F. destruct F as [Nx F]. constructor.
  - intros I. apply in_app_or in I. destruct I as [I|I]; [exact (Nx I)|]. apply (X2 x); [now left|exact I].
  - apply IHt; [exact F|]. intros y Hy. apply X2. now right.
Qed.
Lemma nodup_tapes L : NoDup (allTapes L).
Proof.
  induction L as [|L IH]; cbn [allTapes]; [constructor; [intros []|constructor]|].
  apply nodup_flat; [exact nodup_bytes| |].
  - intros b _. apply FinFun.Injective_map_NoDup; [intros x y E; injection E; auto|exact IH].
  - intros a b x _ _ H1 H2. apply in_map_iff in H1, H2. destruct H1 as (u & <- & _), H2 as (v & E & _). injection E; auto.
Qed.

Lemma filter_map {A B} (f : A -> B) (p : B -> bool) l : filter p (map f l) = map f (filter (fun x => p (f x)) l).
Proof. induction l as [|x l IH]; [reflexivity|]. cbn [map filter]. destruct (p (f x)); cbn [map]; rewrite IH; reflexivity. Qed.
Lemma perm_filter {A} (p : A -> bool) l l' : Permutation l l' -> length (filter p l) = length (filter p l').
Proof.
  induction 1 as [|x l l' _ IH|x y l|l l' l'' _ IH1 _ IH2]; [reflexivity| | |congruence].
  - cbn [filter]. destruct (p x); cbn [length]; congruence.
  - cbn [filter]. destruct (p x), (p y); reflexivity.
Qed.
Lemma cases_ext L p q : (forall t, tape L t -> p t = q t) -> cases L p = cases L q.
Proof. intros H. unfold cases. do 2 f_equal. apply filter_ext_in. intros t Ht. apply H. apply in_tapes. exact Ht. Qed.
(** equally many cases, counted *)
Lemma asMany_cases L P Q p q : asMany L P Q -> (forall t, tape L t -> (p t = true <-> P t)) -> (forall t, tape L t -> (q t = true <-> Q t)) ->
  cases L p = cases L q.
Proof.
  intros (f & g & H) Hp Hq.
  rewrite (cases_ext L p (fun t => q (f t))).
  - unfold cases. f_equal. rewrite <- (map_length f), <- filter_map. apply perm_filter. apply NoDup_Permutation.
    + assert (X : forall l, (forall t, In t l -> tape L t) -> NoDup l -> NoDup (map f l)).
      { induction l as [|a l IH]; intros T D; [constructor|]. cbn [map]. apply NoDup_cons_iff in D. destruct D as [Na D]. constructor.
        - intros I. apply in_map_iff in I. destruct I as (b & E & Hb). apply Na.
          destruct (H a (T a (or_introl eq_refl))) as (_ & _ & Ea & _). destruct (H b (T b (or_intror Hb))) as (_ & _ & Eb & _).
          rewrite <- Ea, <- E, Eb. exact Hb.
        - apply IH; [|exact D]. intros t Ht. apply T. now right. }
      apply X; [|apply nodup_tapes]. intros t Ht. apply in_tapes. exact Ht.
    + apply nodup_tapes.
    + intros t. rewrite in_map_iff. split.
      * intros (u & <- & Hu). apply in_tapes. apply in_tapes in Hu. apply (H u Hu).
      * intros Ht. apply in_tapes in Ht. exists (g t). destruct (H t Ht) as (_ & T & _ & E & _). split; [exact E|]. apply in_tapes. exact T.
  - intros t Ht. destruct (H t Ht) as (T & _ & _ & _ & E). apply eq_true_iff_eq. rewrite (Hp t Ht), (Hq (f t) T). exact E.
Qed.

(** ** Sums and counts *)
Fixpoint sumTo (n : nat) (f : Z -> Z) : Z := match n with 0%nat => 0 | S n' => sumTo n' f + f (Z.of_nat n') end.
Definition cnt (n : nat) (p : Z -> bool) : Z := sumTo n (fun z => if p z then 1 else 0).
Lemma sum_ext n f g : (forall z, 0 <= z < Z.of_nat n -> f z = g z) -> sumTo n f = sumTo n g.
Proof. induction n as [|n IH]; intros H; [reflexivity|]. cbn [sumTo]. rewrite IH by (intros z Hz; apply H; lia). rewrite H by lia. reflexivity. Qed.
Lemma sum_const n c : sumTo n (fun _ => c) = Z.of_nat n * c.
Proof. induction n as [|n IH]; [reflexivity|]. cbn [sumTo]. rewrite IH. lia. Qed.
Lemma sum_app a b f : sumTo (a + b) f = sumTo a f + sumTo b (fun z => f (Z.of_nat a + z)).
Proof.
  induction b as [|b IH]; [rewrite Nat.add_0_r; cbn [sumTo]; lia|]. rewrite Nat.add_succ_r. cbn [sumTo]. rewrite IH, Nat2Z.inj_add. lia.
Qed.
Lemma sum_mul a b f : sumTo (a * b) f = sumTo a (fun i => sumTo b (fun z => f (i * Z.of_nat b + z))).
Proof.
  induction a as [|a IH]; [reflexivity|]. cbn [sumTo]. rewrite Nat.mul_succ_l, sum_app, IH. f_equal.
  apply sum_ext. intros z _. f_equal. rewrite Nat2Z.inj_mul. reflexivity.
Qed.
Lemma sum_plus n f g : sumTo n (fun z => f z + g z) = sumTo n f + sumTo n g.
Proof. induction n as [|n IH]; [reflexivity|]. cbn [sumTo]. rewrite IH. lia. Qed.
Lemma sum_scale n f c : sumTo n (fun z => f z * c) = sumTo n f * c.
Proof. induction n as [|n IH]; [reflexivity|]. cbn [sumTo]. rewrite IH. lia. Qed.
Lemma length_flat {A B} (f : A -> list B) l : Z.of_nat (length (flat_map f l)) = fold_right (fun a acc => Z.of_nat (length (f a)) + acc) 0 l.
Proof. induction l as [|a l IH]; [reflexivity|]. cbn [flat_map fold_right]. rewrite app_length, Nat2Z.inj_add, IH. reflexivity. Qed.
Lemma filter_flat {A B} (p : B -> bool) (f : A -> list B) l : filter p (flat_map f l) = flat_map (fun a => filter p (f a)) l.
Proof. induction l as [|a l IH]; [reflexivity|]. cbn [flat_map]. rewrite filter_app, IH. reflexivity. Qed.
Lemma fold_seq (g : Z -> Z) : forall n, fold_right (fun a acc => g a + acc) 0 (map Z.of_nat (seq 0 n)) = sumTo n g.
Proof.
  assert (X : forall l x, fold_right (fun a acc => g a + acc) 0 (l ++ [x]) = fold_right (fun a acc => g a + acc) 0 l + g x).
  { induction l as [|a l IH]; intros x; cbn [app fold_right]; [lia|rewrite IH; lia]. }
  induction n as [|n IH]; [reflexivity|]. rewrite seq_S, map_app. cbn [map]. rewrite X, IH. reflexivity.
Qed.
Lemma cases_S L p : cases (S L) p = sumTo 256 (fun b => cases L (fun t => p (b :: t))).
Proof.
  unfold cases. cbn [allTapes]. rewrite filter_flat, length_flat.
  rewrite <- (fold_seq (fun b => Z.of_nat (length (filter (fun t => p (b :: t)) (allTapes L)))) 256).
  generalize (map Z.of_nat (seq 0 256)). induction l as [|b l IH]; [reflexivity|]. cbn [fold_right]. rewrite IH. rewrite filter_map, map_length. reflexivity.
Qed.
Lemma pow256 L : Z.to_nat (256 ^ Z.of_nat (S L)) = (256 * Z.to_nat (256 ^ Z.of_nat L))%nat.
Proof. rewrite Nat2Z.inj_succ, Z.pow_succ_r by lia. rewrite Z2Nat.inj_mul by lia. reflexivity. Qed.
(** a condition on the number that the bytes denote *)
Lemma cases_beval L p : cases L (fun t => p (beval t)) = cnt (Z.to_nat (256 ^ Z.of_nat L)) p.
Proof.
  revert p. induction L as [|L IH]; intros p.
  - unfold cases. cbn [allTapes filter]. change (256 ^ Z.of_nat 0) with 1. unfold cnt. change (Z.to_nat 1) with 1%nat. cbn [sumTo].
    rewrite beval_nil. change (Z.of_nat 0) with 0. destruct (p 0); reflexivity.
  - rewrite cases_S, pow256. unfold cnt. rewrite sum_mul. apply sum_ext. intros b _.
    transitivity (cases L (fun t => p (b * Z.of_nat (Z.to_nat (256 ^ Z.of_nat L)) + beval t)));
      [|exact (IH (fun z => p (b * Z.of_nat (Z.to_nat (256 ^ Z.of_nat L)) + z)))].
    apply cases_ext. intros t [_ Lt]. rewrite beval_cons. unfold blen. rewrite Lt. rewrite Z2Nat.id by lia. reflexivity.
Qed.
Lemma cases_all L : cases L (fun _ => true) = 256 ^ Z.of_nat L.
Proof.
  induction L as [|L IH]; [reflexivity|]. rewrite cases_S. rewrite (sum_ext 256 _ (fun _ => 256 ^ Z.of_nat L)) by (intros; exact IH).
  rewrite sum_const. rewrite (Nat2Z.inj_succ L), Z.pow_succ_r by lia. reflexivity.
Qed.
(** a condition on the first part times a condition on the rest *)
Lemma cases_app a b p q : cases (a + b) (fun t => p (firstn a t) && q (skipn a t)) = cases a p * cases b q.
Proof.
  revert p. induction a as [|a IH]; intros p.
  - assert (E : cases 0 p = if p [] then 1 else 0) by (unfold cases; cbn [allTapes filter]; destruct (p []); reflexivity).
    rewrite E. cbn [Nat.add firstn skipn]. destruct (p []); cbn [andb]; [rewrite Z.mul_1_l; reflexivity|].
    rewrite Z.mul_0_l. unfold cases. induction (allTapes b) as [|t l IHl]; [reflexivity|exact IHl].
  - cbn [Nat.add]. rewrite !cases_S. rewrite <- sum_scale. apply sum_ext. intros x _. exact (IH (fun t => p (x :: t))).
Qed.
Lemma cases_or L p q : (forall t, tape L t -> p t = true -> q t = false) -> cases L (fun t => p t || q t) = cases L p + cases L q.
Proof.
  intros H. unfold cases. assert (X : forall l, (forall t, In t l -> tape L t) -> Z.of_nat (length (filter (fun t => p t || q t) l)) =
    Z.of_nat (length (filter p l)) + Z.of_nat (length (filter q l))).
  { induction l as [|t l IH]; intros T; [reflexivity|]. cbn [filter]. specialize (IH (fun u Hu => T u (or_intror Hu))).
    specialize (H t (T t (or_introl eq_refl))). destruct (p t); [rewrite H by reflexivity|]; cbn [orb]; [|destruct (q t)]; cbn [length]; lia. }
  apply X. intros t Ht. apply in_tapes. exact Ht.
Qed.
Lemma cases_neg L p : cases L p + cases L (fun t => negb (p t)) = 256 ^ Z.of_nat L.
Proof.
  rewrite <- cases_all. rewrite <- cases_or; [apply cases_ext; intros t _; apply orb_negb_r|]. intros t _ ->. reflexivity.
Qed.
(** a condition on the remainder *)
Lemma cnt_mod q m p : (0 < m)%nat -> cnt (q * m) (fun z => p (z mod Z.of_nat m)) = Z.of_nat q * cnt m p.
Proof.
  intros Hm. unfold cnt. rewrite sum_mul. rewrite <- sum_const. apply sum_ext. intros i Hi. apply sum_ext. intros z Hz.
  rewrite Z.add_comm, Z.mod_add, Z.mod_small by lia. reflexivity.
Qed.
Lemma cnt_lt n k : 0 <= k <= Z.of_nat n -> cnt n (fun z => z <? k) = k.
Proof.
  unfold cnt. induction n as [|n IH]; intros H; [cbn [sumTo]; lia|]. cbn [sumTo].
  destruct (Z.eq_dec k (Z.of_nat (S n))) as [E|E].
  - rewrite (sum_ext n _ (fun _ => 1)) by (intros z Hz; destruct (Z.ltb_spec z k); [reflexivity|lia]).
    rewrite sum_const. destruct (Z.ltb_spec (Z.of_nat n) k); lia.
  - rewrite IH by lia. destruct (Z.ltb_spec (Z.of_nat n) k); lia.
Qed.
(** how many numbers below [n] have remainder [r] *)
Lemma cnt_residue m r : 0 <= r < m -> forall n, cnt n (fun z => z mod m =? r) = (Z.of_nat n - r + m - 1) / m.
Proof.
  intros H. unfold cnt. induction n as [|n IH].
  - cbn [sumTo]. symmetry. apply Z.div_small. lia.
  - cbn [sumTo]. rewrite IH. set (x := Z.of_nat n). assert (0 <= x) by (unfold x; lia).
    replace (Z.of_nat (S n) - r + m - 1) with (x - r + m) by lia.
    pose proof (Z.div_mod x m ltac:(lia)) as D. pose proof (Z.mod_pos_bound x m ltac:(lia)) as B. set (a := x / m) in *. set (b := x mod m) in *.
    destruct (Z.eqb_spec b r) as [E|E].
    + replace ((x - r + m - 1) / m) with a by (apply (Z.div_unique _ m a (m - 1)); lia).
      replace ((x - r + m) / m) with (a + 1) by (apply (Z.div_unique _ m (a + 1) 0); lia). lia.
    + destruct (Z.lt_ge_cases b r).
      * replace ((x - r + m - 1) / m) with a by (apply (Z.div_unique _ m a (b - r + m - 1)); lia).
        replace ((x - r + m) / m) with a by (apply (Z.div_unique _ m a (b - r + m)); lia). lia.
      * replace ((x - r + m - 1) / m) with (a + 1) by (apply (Z.div_unique _ m (a + 1) (b - r - 1)); lia).
        replace ((x - r + m) / m) with (a + 1) by (apply (Z.div_unique _ m (a + 1) (b - r)); lia). lia.
Qed.
Lemma residue_two m r T : 0 <= r < m -> 0 <= T -> cnt (Z.to_nat T) (fun z => z mod m =? r) = T / m \/ cnt (Z.to_nat T) (fun z => z mod m =? r) = T / m + 1.
Proof.
  intros H HT. rewrite cnt_residue by exact H. rewrite Z2Nat.id by exact HT.
  pose proof (Z.div_mod T m ltac:(lia)) as D. pose proof (Z.mod_pos_bound T m ltac:(lia)) as B. set (a := T / m) in *. set (b := T mod m) in *.
  destruct (Z.lt_ge_cases r b).
  - right. symmetry. apply (Z.div_unique _ m (a + 1) (b - r - 1)); lia.
  - left. symmetry. apply (Z.div_unique _ m a (b - r + m - 1)); lia.
Qed.
