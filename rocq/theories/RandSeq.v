(** * One draw after the other *)
From Coq Require Import ZArith List Bool Lia.
From Verif Require Import Go Wire Big CodecProofs FieldProofs Precompute Rand SpecRand RandProofs RandSched RandCount.
Import ListNotations.
Open Scope Z_scope.

Section Max.
Variable max : Z.
Hypothesis Hmax : 1 < max.
Notation blk := (block max).

(** the scheduler that serves the first draw that waits *)
Definition seqPick (n : nat) (h : attempts) : nat :=
  hd 0%nat (filter (fun i => negb (existsb (Nat.eqb i) (map fst (got max h)))) (seq 0 n)).
Lemma not_existsb i l : existsb (Nat.eqb i) l = false -> ~ In i l.
Proof.
  intros E I. assert (existsb (Nat.eqb i) l = true); [|congruence]. apply existsb_exists. exists i. split; [exact I|apply Nat.eqb_refl].
Qed.
(** serving the draws in the order of any list of all of them *)
Definition listPick (l : list nat) (h : attempts) : nat :=
  hd 0%nat (filter (fun i => negb (existsb (Nat.eqb i) (map fst (got max h)))) l).
Lemma listPick_ok n l : (forall i, In i l <-> (i < n)%nat) -> scheduler max n (listPick l).
Proof.
  intros HL h L D. unfold listPick. set (q := fun i => negb (existsb (Nat.eqb i) (map fst (got max h)))).
  destruct (filter q l) as [|i t] eqn:E.
  - exfalso. assert (I : incl (seq 0 n) (map fst (got max h))).
    { intros i Hi. apply in_seq in Hi. destruct (existsb (Nat.eqb i) (map fst (got max h))) eqn:X.
      - apply existsb_exists in X. destruct X as (j & Hj & Ej). apply Nat.eqb_eq in Ej. subst j. exact Hj.
      - assert (In i (filter q l)) by (apply filter_In; split; [apply HL; lia|unfold q; rewrite X; reflexivity]). rewrite E in H. destruct H. }
    apply NoDup_incl_length in I; [|apply seq_NoDup]. rewrite seq_length, map_length in I. lia.
  - cbn [hd]. assert (I : In i (filter q l)) by (rewrite E; left; reflexivity). apply filter_In in I. destruct I as [I Q].
    apply HL in I. split; [exact I|]. unfold q in Q. apply negb_true_iff in Q. apply not_existsb. exact Q.
Qed.
Lemma seqPick_ok n : scheduler max n (seqPick n).
Proof. apply (listPick_ok n (seq 0 n)). intros i. rewrite in_seq. lia. Qed.
Lemma seqPick_next n m h : map fst (got max h) = rev (seq 0 m) -> (m < n)%nat -> seqPick n h = m.
Proof.
  intros E L. unfold seqPick. rewrite E.
  replace n with (m + S (n - m - 1))%nat by lia. rewrite seq_app, filter_app. cbn [Nat.add seq].
  assert (F : filter (fun i => negb (existsb (Nat.eqb i) (rev (seq 0 m)))) (seq 0 m) = []).
  { assert (X : forall l, (forall i, In i l -> (i < m)%nat) -> filter (fun i => negb (existsb (Nat.eqb i) (rev (seq 0 m)))) l = []).
    { induction l as [|i l IH]; intros H; [reflexivity|]. cbn [filter].
      replace (existsb (Nat.eqb i) (rev (seq 0 m))) with true; [cbn [negb]; apply IH; intros j Hj; apply H; now right|].
      symmetry. apply existsb_exists. exists i. split; [|apply Nat.eqb_refl]. apply -> in_rev. apply in_seq. specialize (H i (or_introl eq_refl)). lia. }
    apply X. intros i Hi. apply in_seq in Hi. lia. }
  rewrite F. cbn [app filter].
  replace (existsb (Nat.eqb m) (rev (seq 0 m))) with false; [reflexivity|].
  symmetry. apply not_true_is_false. intros X. apply existsb_exists in X. destruct X as (j & Hj & Ej). apply Nat.eqb_eq in Ej. subst j.
  apply in_rev in Hj. apply in_seq in Hj. lia.
Qed.

Lemma randLoop_fuel : forall f f' s, (length s < f)%nat -> (length s < f')%nat -> randLoop f max s = randLoop f' max s.
Proof.
  induction f as [|f IH]; intros f' s L L'; [lia|]. destruct f' as [|f']; [lia|]. cbn [randLoop].
  destruct (read_block max s Hmax) as [(b & r & -> & Lb & ->)|[_ [e ->]]]; cbn [rbind]; [|reflexivity].
  destruct (attempt max b); [reflexivity|]. destruct (riBytes_block max Hmax) as [_ P]. rewrite app_length in L, L'. apply IH; lia.
Qed.
Lemma randInt_step b r : length b = blk -> randInt max (b ++ r) = match attempt max b with Some v => ROk v r | None => randInt max r end.
Proof.
  intros L. rewrite !randInt_loop by exact Hmax. cbn [randLoop]. rewrite readFull_app by assumption. cbn [rbind].
  destruct (attempt max b) eqn:A; [reflexivity|]. destruct (riBytes_block max Hmax) as [_ P].
  rewrite (randLoop_fuel (length (b ++ r)) (S (length r))) by (rewrite ?app_length; lia). reflexivity.
Qed.
Lemma randInt_short s : (length s < blk)%nat -> exists e, randInt max s = RErr e [].
Proof. intros L. rewrite randInt_loop by exact Hmax. cbn [randLoop]. destruct (readFull_short max s Hmax L) as [e ->]. exists e. reflexivity. Qed.

Fixpoint allSome (l : list (option Z)) : option (list Z) :=
  match l with
  | [] => Some []
  | Some v :: t => match allSome t with Some vs => Some (v :: vs) | None => None end
  | None :: _ => None
  end.
Definition numOf (r : rd (list Z)) : option (list Z) := match r with ROk ds _ => Some ds | _ => None end.
Lemma fill_seq n : forall f m h s, (length s < f)%nat -> (m <= n)%nat -> map fst (got max h) = rev (seq 0 m) ->
  numOf (fill f (seqPick n) max n h s) =
  option_map (fun vs => map (fun i => lookup i (got max h)) (seq 0 m) ++ vs) (allSome (drawN (n - m) max s)).
Proof.
  induction f as [|f IH]; intros m h s L Lm E; [lia|].
  assert (Lg : length (got max h) = m) by (rewrite <- (map_length fst), E, rev_length, seq_length; reflexivity).
  cbn [fill]. rewrite Lg. destruct (Nat.eqb_spec m n) as [->|Ne].
  - rewrite Nat.sub_diag. cbn [drawN allSome option_map numOf]. rewrite app_nil_r. reflexivity.
  - replace (n - m)%nat with (S (n - S m)) by lia. cbn [drawN].
    destruct (read_block max s Hmax) as [(b & r & -> & Lb & ->)|[Ls [e ->]]]; cbn [rbind].
    + destruct (riBytes_block max Hmax) as [_ P]. rewrite app_length in L.
      rewrite (seqPick_next n m h E) by lia. unfold draw at 1 2. rewrite randInt_step by exact Lb.
      destruct (attempt max b) as [v|] eqn:A.
      * assert (Eg : got max ((m, b) :: h) = (m, v) :: got max h) by (cbn [got]; rewrite A; reflexivity).
        rewrite (IH (S m)); [|lia|lia|rewrite Eg, seq_S, rev_app_distr; cbn [map fst app rev]; rewrite E; reflexivity].
        cbn [fst snd allSome]. destruct (allSome (drawN (n - S m) max r)) as [vs|]; cbn [option_map]; [|reflexivity].
        f_equal. rewrite seq_S, map_app, <- app_assoc. cbn [map app Nat.add]. rewrite Eg. cbn [lookup]. rewrite Nat.eqb_refl. f_equal.
        apply map_ext_in. intros i Hi. apply in_seq in Hi. destruct (Nat.eqb_spec i m); [lia|reflexivity].
      * assert (Eg : got max ((m, b) :: h) = got max h) by (cbn [got]; rewrite A; reflexivity).
        rewrite (IH m); [|lia|lia|rewrite Eg; exact E]. rewrite Eg.
        replace (n - m)%nat with (S (n - S m)) by lia. cbn [drawN]. unfold draw. destruct (randInt max r); reflexivity.
    + cbn [numOf]. unfold draw at 1. destruct (randInt_short s Ls) as [e' ->]. reflexivity.
Qed.
Lemma numbers_seq n s : numbers max (seqPick n) n s = allSome (drawN n max s).
Proof.
  change (numbers max (seqPick n) n s) with (numOf (fill (S (length s)) (seqPick n) max n [] s)).
  rewrite (fill_seq n (S (length s)) 0 [] s) by (reflexivity || lia). rewrite Nat.sub_0_r. destruct (allSome _); reflexivity.
Qed.
Lemma allSome_eq l ds : allSome l = Some ds <-> l = map Some ds.
Proof.
  revert ds. induction l as [|[v|] l IH]; intros ds; cbn [allSome].
  - split; [intros E; injection E as <-; reflexivity|]. destruct ds; [reflexivity|discriminate].
  - destruct (allSome l) as [vs|] eqn:A.
    + split; [intros E; injection E as <-; cbn [map]; f_equal; apply IH; reflexivity|]. intros E. destruct ds as [|d ds]; [discriminate E|].
      cbn [map] in E. injection E as -> E. apply IH in E. injection E as ->. reflexivity.
    + split; [discriminate|]. intros E. destruct ds as [|d ds]; [discriminate E|]. cbn [map] in E. injection E as -> E. apply IH in E. discriminate E.
  - split; [discriminate|]. destruct ds; discriminate.
Qed.

(** ** One draw after the other: any one-to-one change of the numbers *)
Lemma asMany_seq n beta beta' L (P Q : option (list Z) -> Prop) :
  (forall d, below max n d -> below max n (beta d) /\ beta' (beta d) = d) ->
  (forall d, below max n d -> below max n (beta' d) /\ beta (beta' d) = d) ->
  (P None <-> Q None) -> (forall d, below max n d -> (P (Some d) <-> Q (Some (beta d)))) ->
  asMany L (fun t => P (allSome (drawN n max t))) (fun t => Q (allSome (drawN n max t))).
Proof.
  intros B1 B2 HN HS. destruct (asMany_draws max Hmax (seqPick n) (seqPick n) n beta beta' L P Q (seqPick_ok n) (seqPick_ok n) B1 B2 HN HS) as (f & g & H).
  exists f, g. intros t Ht. specialize (H t Ht). rewrite !numbers_seq in H. exact H.
Qed.

(** exchanging two vectors, place by place *)
Fixpoint swapv (a b d : list Z) : list Z :=
  match a, b, d with
  | x :: a', y :: b', z :: d' => (if z =? x then y else if z =? y then x else z) :: swapv a' b' d'
  | _, _, _ => d
  end.
Lemma swapv_below : forall n a b d, below max n a -> below max n b -> below max n d -> below max n (swapv a b d) /\ swapv a b (swapv a b d) = d.
Proof.
  unfold below. induction n as [|n IH]; intros a b d [La Fa] [Lb Fb] [Ld Fd].
  - destruct a; [|discriminate]. destruct d; [|discriminate]. split; [split; [reflexivity|constructor]|reflexivity].
  - destruct a as [|x a]; [discriminate|]. destruct b as [|y b]; [discriminate|]. destruct d as [|z d]; [discriminate|].
    apply Forall_cons_iff in Fa, Fb, Fd. destruct Fa as [Hx Fa], Fb as [Hy Fb], Fd as [Hz Fd]. cbn [length] in *.
    destruct (IH a b d) as [[L1 F1] E1]; [split; [lia|assumption]..|]. cbn [swapv length]. rewrite E1. split.
    + split; [lia|]. constructor; [|exact F1]. destruct (z =? x); [exact Hy|]. destruct (z =? y); assumption.
    + f_equal. destruct (Z.eqb_spec z x) as [->|N1].
      * destruct (Z.eqb_spec y x) as [->|N2]; [reflexivity|]. rewrite Z.eqb_refl. reflexivity.
      * destruct (Z.eqb_spec z y) as [->|N2]; [rewrite Z.eqb_refl; reflexivity|].
        destruct (Z.eqb_spec z x); [contradiction|]. destruct (Z.eqb_spec z y); [contradiction|reflexivity].
Qed.
Lemma swapv_eq : forall n a b, below max n a -> below max n b -> swapv a b a = b.
Proof.
  unfold below. induction n as [|n IH]; intros a b [La Fa] [Lb Fb].
  - destruct a; [|discriminate]. destruct b; [|discriminate]. reflexivity.
  - destruct a as [|x a]; [discriminate|]. destruct b as [|y b]; [discriminate|]. cbn [length] in *. apply Forall_cons_iff in Fa, Fb.
    cbn [swapv]. rewrite Z.eqb_refl. f_equal. apply IH; split; try lia; tauto.
Qed.
Lemma asMany_uniform pick n L d d' : scheduler max n pick -> below max n d -> below max n d' ->
  asMany L (fun t => numbers max pick n t = Some d) (fun t => numbers max pick n t = Some d').
Proof.
  intros S Hd Hd'. apply (asMany_draws max Hmax pick pick n (swapv d d') (swapv d d') L (fun r => r = Some d) (fun r => r = Some d') S S).
  1, 2: intros x Hx; apply (swapv_below n); assumption.
  - split; discriminate.
  - intros x Hx. split.
    + intros E. injection E as ->. rewrite (swapv_eq n) by assumption. reflexivity.
    + intros E. injection E as E. destruct (swapv_below n d d' x Hd Hd' Hx) as [_ I]. rewrite E in I. rewrite <- I.
      f_equal. destruct (swapv_below n d d' d' Hd Hd' Hd') as [_ I']. rewrite <- (swapv_eq n d d') at 2 by assumption.
      destruct (swapv_below n d d' d Hd Hd' Hd) as [_ I2]. exact I2.
Qed.
End Max.
