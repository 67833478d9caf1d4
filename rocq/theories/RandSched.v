(** * Schedules: a correspondence of sources under which any two schedulers hand out the
      same numbers, or numbers changed one-to-one *)
From Coq Require Import ZArith List Bool Lia.
From Verif Require Import Go Wire Big CodecProofs FieldProofs Precompute Rand SpecRand RandProofs.
Import ListNotations.
Open Scope Z_scope.

Section Max.
Variable max : Z.
Hypothesis Hmax : 1 < max.
Notation blk := (block max).

(** the attempt [b], made to denote [d] *)
Definition setVal (b : list Z) (d : Z) : list Z := be_bytes (length b) (beval b - denotes max b + d).
Lemma pow_split : exists q, 0 < q /\ 256 ^ Z.of_nat blk = q * 2 ^ bits max.
Proof.
  destruct (riBits_spec max Hmax) as (k & _ & Hk & E). destruct (riBytes_block max Hmax) as [_ P].
  exists (2 ^ (8 - k)). split; [apply Z.pow_pos_nonneg; lia|]. rewrite <- Z.pow_add_r by lia. change 256 with (2 ^ 8).
  rewrite <- Z.pow_mul_r by lia. f_equal. lia.
Qed.
Lemma setVal_val b d : bytes_ok b -> length b = blk -> 0 <= d < max ->
  beval (setVal b d) = beval b - denotes max b + d /\ denotes max (setVal b d) = d.
Proof.
  intros Hb Lb Hd. destruct pow_split as (q & Pq & Eq). pose proof (beval_range b Hb) as Rb. unfold blen in Rb. rewrite Lb, Eq in Rb.
  destruct (max_bits max Hmax) as [_ Mb]. unfold setVal, denotes. rewrite Lb.
  assert (P2 : 0 < 2 ^ bits max) by (apply Z.pow_pos_nonneg; [lia|apply Z.log2_up_nonneg]).
  set (M := 2 ^ bits max) in *. pose proof (Z.div_mod (beval b) M ltac:(lia)) as D. pose proof (Z.mod_pos_bound (beval b) M P2) as Bd.
  set (a := beval b / M) in *. assert (0 <= a < q) by (unfold a; split; [apply Z.div_pos; lia|apply Z.div_lt_upper_bound; lia]).
  replace (beval b - beval b mod M + d) with (d + a * M) by lia.
  rewrite beval_be_bytes by nia. rewrite Eq. rewrite Z.mod_small by nia.
  split; [reflexivity|]. rewrite Z.mod_add by lia. apply Z.mod_small. lia.
Qed.
Lemma setVal_len b d : length (setVal b d) = length b.
Proof. apply be_bytes_len. Qed.
Lemma setVal_ok b d : bytes_ok (setVal b d).
Proof. apply be_bytes_ok. Qed.
Lemma setVal_twice b d d' : bytes_ok b -> length b = blk -> 0 <= d < max -> setVal (setVal b d) d' = setVal b d'.
Proof.
  intros Hb Lb Hd. destruct (setVal_val b d Hb Lb Hd) as [E1 E2]. unfold setVal at 1. rewrite E1, E2, setVal_len.
  unfold setVal. f_equal. lia.
Qed.
Lemma setVal_same b : bytes_ok b -> setVal b (denotes max b) = b.
Proof. intros Hb. unfold setVal. replace (beval b - denotes max b + denotes max b) with (beval b) by lia. apply be_bytes_beval. exact Hb. Qed.

(** the source [s], with the accepted attempts changed so that [pick] hands out [d] *)
Fixpoint redo (fuel : nat) (pick : attempts -> nat) (n : nat) (d : list Z) (h : attempts) (s : list Z) : list Z :=
  if Nat.eqb (length (got max h)) n then s
  else match fuel with
       | 0%nat => s
       | S f =>
           if Nat.ltb (length s) blk then s
           else let b := firstn blk s in
                let b' := match attempt max b with Some _ => setVal b (nth (pick h) d 0) | None => b end in
                b' ++ redo f pick n d ((pick h, b') :: h) (skipn blk s)
       end.
Lemma redo_S f pick n d h b r : (length (got max h) =? n)%nat = false -> length b = blk ->
  redo (S f) pick n d h (b ++ r) =
  let b' := match attempt max b with Some _ => setVal b (nth (pick h) d 0) | None => b end in
  b' ++ redo f pick n d ((pick h, b') :: h) r.
Proof.
  intros E L. cbn [redo]. rewrite E. rewrite app_length, L. destruct (Nat.ltb_spec (blk + length r) blk); [lia|].
  rewrite <- L, firstn_app, Nat.sub_diag, firstn_all, firstn_O, app_nil_r, skipn_app, skipn_all, Nat.sub_diag. reflexivity.
Qed.
Lemma redo_short f pick n d h s : (length s < blk)%nat -> redo f pick n d h s = s.
Proof. intros L. destruct f; cbn [redo]; destruct (_ =? _)%nat; try reflexivity. destruct (Nat.ltb_spec (length s) blk); [reflexivity|lia]. Qed.
Lemma split_block (s : list Z) : (length s < blk)%nat \/ exists b r, s = b ++ r /\ length b = blk.
Proof.
  destruct (Nat.ltb_spec (length s) blk); [left; assumption|right]. exists (firstn blk s), (skipn blk s).
  rewrite firstn_skipn, firstn_length. split; [reflexivity|lia].
Qed.
(** the replaced attempt is accepted exactly when the old one was *)
Lemma newBlock b d i n : bytes_ok b -> length b = blk -> below max n d ->
  let b' := match attempt max b with Some _ => setVal b (nth i d 0) | None => b end in
  bytes_ok b' /\ length b' = blk /\
  attempt max b' = match attempt max b with Some _ => Some (nth i d 0) | None => None end.
Proof.
  intros Hb Lb Hd. cbv zeta. rewrite (attempt_spec max b) by assumption.
  destruct (Z.ltb_spec (denotes max b) max).
  - assert (Hi : 0 <= nth i d 0 < max).
    { destruct Hd as [_ F]. destruct (nth_in_or_default i d 0) as [I|E]; [|rewrite E; lia]. rewrite Forall_forall in F. apply F. exact I. }
    split; [apply setVal_ok|]. split; [rewrite setVal_len; exact Lb|].
    destruct (setVal_val b (nth i d 0) Hb Lb Hi) as [_ E].
    rewrite attempt_spec; [|assumption|apply setVal_ok|rewrite setVal_len; exact Lb]. rewrite E.
    destruct (Z.ltb_spec (nth i d 0) max); [reflexivity|lia].
  - split; [exact Hb|]. split; [exact Lb|]. rewrite attempt_spec by assumption.
    destruct (Z.ltb_spec (denotes max b) max); [lia|reflexivity].
Qed.
Lemma got_cons i b h : length (got max ((i, b) :: h)) = match attempt max b with Some _ => S (length (got max h)) | None => length (got max h) end.
Proof. cbn [got]. destruct (attempt max b); reflexivity. Qed.

Lemma redo_tape pick n d : below max n d -> forall f h s, bytes_ok s -> bytes_ok (redo f pick n d h s) /\ length (redo f pick n d h s) = length s.
Proof.
  intros Hd. induction f as [|f IH]; intros h s Hs.
  - cbn [redo]. destruct (_ =? _)%nat; auto.
  - destruct (split_block s) as [L|(b & r & -> & Lb)]; [rewrite redo_short by exact L; auto|].
    destruct (length (got max h) =? n)%nat eqn:E; [cbn [redo]; rewrite E; auto|].
    apply Forall_app in Hs. destruct Hs as [Hb Hr]. rewrite redo_S by assumption. cbv zeta.
    destruct (newBlock b d (pick h) n Hb Lb Hd) as (Ob & Lb' & _). cbv zeta in *.
    set (b' := match attempt max b with Some _ => _ | None => b end) in *.
    destruct (IH ((pick h, b') :: h) r Hr) as [O1 L1]. split; [apply Forall_app; split; assumption|].
    rewrite !app_length, L1. lia.
Qed.
Lemma redo_twice pick1 pick2 n d1 d2 : below max n d1 -> below max n d2 -> forall f h1 h2 s, bytes_ok s ->
  length (got max h1) = length (got max h2) ->
  redo f pick2 n d2 h2 (redo f pick1 n d1 h1 s) = redo f pick2 n d2 h2 s.
Proof.
  intros Hd1 Hd2. induction f as [|f IH]; intros h1 h2 s Hs E.
  - cbn [redo]. rewrite E. destruct (_ =? _)%nat; reflexivity.
  - destruct (split_block s) as [L|(b & r & -> & Lb)]; [rewrite (redo_short (S f) pick1) by exact L; reflexivity|].
    destruct (length (got max h1) =? n)%nat eqn:E1; [cbn [redo]; rewrite E1; reflexivity|].
    assert (E2 : (length (got max h2) =? n)%nat = false) by (rewrite <- E; exact E1).
    apply Forall_app in Hs. destruct Hs as [Hb Hr]. rewrite (redo_S f pick1) by assumption. cbv zeta.
    destruct (newBlock b d1 (pick1 h1) n Hb Lb Hd1) as (Ob & Lb' & Ab). cbv zeta in *.
    set (b' := match attempt max b with Some _ => setVal b (nth (pick1 h1) d1 0) | None => b end) in *.
    rewrite !redo_S by assumption. cbv zeta.
    assert (Eb : match attempt max b' with Some _ => setVal b' (nth (pick2 h2) d2 0) | None => b' end =
                 match attempt max b with Some _ => setVal b (nth (pick2 h2) d2 0) | None => b end).
    { rewrite Ab. unfold b'. rewrite (attempt_spec max b) by assumption. destruct (Z.ltb_spec (denotes max b) max); [|reflexivity].
      apply setVal_twice; try assumption. destruct Hd1 as [_ F]. destruct (nth_in_or_default (pick1 h1) d1 0) as [I|X]; [|rewrite X; lia].
      rewrite Forall_forall in F. apply F. exact I. }
    rewrite Eb. f_equal. apply IH; [exact Hr|]. rewrite !got_cons, Ab.
    destruct (newBlock b d2 (pick2 h2) n Hb Lb Hd2) as (_ & _ & Ab2). cbv zeta in Ab2. rewrite Ab2. destruct (attempt max b); lia.
Qed.

(** ** Filling *)
Definition isOk {A} (r : rd A) : bool := match r with ROk _ _ => true | _ => false end.
Lemma fill_S f pick n h b r : (length (got max h) =? n)%nat = false -> length b = blk ->
  fill (S f) pick max n h (b ++ r) = fill f pick max n ((pick h, b) :: h) r.
Proof. intros E L. cbn [fill]. rewrite E, readFull_app by assumption. reflexivity. Qed.
Lemma fill_short f pick n h s : (length (got max h) =? n)%nat = false -> (length s < blk)%nat -> isOk (fill f pick max n h s) = false.
Proof.
  intros E L. destruct f; cbn [fill]; rewrite E; [reflexivity|]. destruct (readFull_short max s Hmax L) as [e ->]. reflexivity.
Qed.
Lemma fill_same pick1 pick2 n : forall f h1 h2 s, length (got max h1) = length (got max h2) ->
  isOk (fill f pick1 max n h1 s) = isOk (fill f pick2 max n h2 s).
Proof.
  induction f as [|f IH]; intros h1 h2 s E; cbn [fill]; rewrite E; (destruct (_ =? _)%nat eqn:E2; [reflexivity|]); [reflexivity|].
  destruct (readFull (riBytes max) s) as [b r|e r|]; cbn [rbind]; try reflexivity.
  apply IH. rewrite !got_cons, E. reflexivity.
Qed.

(** draws are numbered below [n], each with one number *)
Definition inv (n : nat) (h : attempts) : Prop := NoDup (map fst (got max h)) /\ Forall (fun i => (i < n)%nat) (map fst (got max h)).
Lemma inv_step pick n h b : scheduler max n pick -> inv n h -> (length (got max h) =? n)%nat = false -> inv n ((pick h, b) :: h).
Proof.
  intros S [D F] E. unfold inv. cbn [got]. destruct (attempt max b); [|split; assumption]. cbn [map fst].
  assert (L : (length (got max h) < n)%nat).
  { apply Nat.eqb_neq in E. assert (length (map fst (got max h)) <= length (seq 0 n))%nat.
    { apply NoDup_incl_length; [exact D|]. intros i Hi. apply in_seq. rewrite Forall_forall in F. specialize (F i Hi). lia. }
    rewrite map_length, seq_length in H. lia. }
  destruct (S h L D) as [P Q]. split; constructor; assumption.
Qed.
Lemma lookup_in i v l : NoDup (map fst l) -> In (i, v) l -> lookup i l = v.
Proof.
  induction l as [|[j w] t IH]; intros D I; [destruct I|]. cbn [lookup map fst] in *. apply NoDup_cons_iff in D. destruct D as [D1 D2].
  destruct I as [E|I]; [injection E as -> ->; rewrite Nat.eqb_refl; reflexivity|].
  destruct (Nat.eqb_spec i j) as [->|_]; [exfalso; apply D1; apply in_map_iff; exists (j, v); auto|]. apply IH; assumption.
Qed.
Lemma nth_vec n h i : (i < n)%nat -> nth i (vec max n h) 0 = lookup i (got max h).
Proof.
  intros L. unfold vec. rewrite (nth_indep _ 0 (lookup 0 (got max h))) by (rewrite map_length, seq_length; exact L).
  rewrite (map_nth (fun i => lookup i (got max h))). rewrite seq_nth by exact L. reflexivity.
Qed.
(** what was drawn stays *)
Lemma fill_keeps pick n : scheduler max n pick -> forall f h s ds rest, inv n h -> fill f pick max n h s = ROk ds rest ->
  forall i v, In (i, v) (got max h) -> nth i ds 0 = v.
Proof.
  intros S. induction f as [|f IH]; intros h s ds rest I E i v Hi; cbn [fill] in E; destruct (length (got max h) =? n)%nat eqn:En.
  1, 3: injection E as <- _; destruct I as [D F]; rewrite nth_vec;
    [apply lookup_in; assumption|rewrite Forall_forall in F; apply F; apply in_map_iff; exists (i, v); auto].
  - discriminate E.
  - destruct (readFull (riBytes max) s) as [b r|e r|]; cbn [rbind] in E; try discriminate E.
    apply (IH _ _ _ _ (inv_step pick n h b S I En) E). cbn [got]. destruct (attempt max b); [right|]; exact Hi.
Qed.
Lemma redo_same pick n : scheduler max n pick -> forall f h s ds rest, bytes_ok s -> inv n h -> fill f pick max n h s = ROk ds rest ->
  redo f pick n ds h s = s.
Proof.
  intros S. induction f as [|f IH]; intros h s ds rest Hs I E; [cbn [redo]; destruct (_ =? _)%nat; reflexivity|].
  destruct (length (got max h) =? n)%nat eqn:En; [cbn [redo]; rewrite En; reflexivity|].
  destruct (split_block s) as [L|(b & r & -> & Lb)]; [apply redo_short; exact L|].
  rewrite redo_S by assumption. rewrite fill_S in E by assumption. cbv zeta. apply Forall_app in Hs. destruct Hs as [Hb Hr].
  assert (Eb : match attempt max b with Some _ => setVal b (nth (pick h) ds 0) | None => b end = b).
  { destruct (attempt max b) as [v|] eqn:A; [|reflexivity].
    assert (nth (pick h) ds 0 = v) as ->.
    { apply (fill_keeps pick n S _ _ _ _ _ (inv_step pick n h b S I En) E). cbn [got]. rewrite A. left. reflexivity. }
    rewrite attempt_spec in A by assumption. destruct (Z.ltb_spec (denotes max b) max); [|discriminate A].
    injection A as <-. apply setVal_same. exact Hb. }
  rewrite Eb. f_equal. apply (IH _ _ _ rest); [exact Hr|apply inv_step; assumption|exact E].
Qed.
(** when all draws have a number, and it is that of [d], the result is [d] *)
Lemma vec_full n h d : length d = n -> inv n h -> length (got max h) = n -> (forall i v, In (i, v) (got max h) -> nth i d 0 = v) -> vec max n h = d.
Proof.
  intros Ld [D F] L A. apply (nth_ext _ _ 0 0); [unfold vec; rewrite map_length, seq_length; symmetry; exact Ld|].
  unfold vec at 1. rewrite map_length, seq_length. intros i Hi. rewrite nth_vec by exact Hi.
  assert (In i (map fst (got max h))).
  { assert (Q : incl (seq 0 n) (map fst (got max h))).
    { apply NoDup_length_incl; [exact D|rewrite seq_length, map_length; lia|].
      intros j Hj. apply in_seq. rewrite Forall_forall in F. specialize (F j Hj). lia. }
    apply Q. apply in_seq. lia. }
  apply in_map_iff in H. destruct H as ([j v] & Ej & Hj). cbn [fst] in Ej. subst j. rewrite (A i v Hj). apply lookup_in; assumption.
Qed.
Lemma redo_fill pick n d : scheduler max n pick -> below max n d -> forall f h s, bytes_ok s -> inv n h ->
  (forall i v, In (i, v) (got max h) -> nth i d 0 = v) -> isOk (fill f pick max n h s) = true ->
  exists rest, fill f pick max n h (redo f pick n d h s) = ROk d rest.
Proof.
  intros S Hd. induction f as [|f IH]; intros h s Hs I A K; destruct (length (got max h) =? n)%nat eqn:En.
  - exists s. cbn [redo fill]. rewrite En. f_equal. apply vec_full; try assumption; [apply Hd|]. apply Nat.eqb_eq. exact En.
  - cbn [fill] in K. rewrite En in K. discriminate K.
  - exists s. cbn [redo fill]. rewrite En. f_equal. apply vec_full; try assumption; [apply Hd|]. apply Nat.eqb_eq. exact En.
  - destruct (split_block s) as [L|(b & r & -> & Lb)]; [rewrite fill_short in K by assumption; discriminate K|].
    rewrite redo_S by assumption. rewrite fill_S in K by assumption. cbv zeta. apply Forall_app in Hs. destruct Hs as [Hb Hr].
    destruct (newBlock b d (pick h) n Hb Lb Hd) as (Ob & Lb' & Ab). cbv zeta in *.
    set (b' := match attempt max b with Some _ => setVal b (nth (pick h) d 0) | None => b end) in *.
    rewrite fill_S by assumption. apply IH; [exact Hr|apply inv_step; assumption| |].
    + intros i v Hi. cbn [got] in Hi. rewrite Ab in Hi. destruct (attempt max b); [|apply A; exact Hi].
      destruct Hi as [Q|Hi]; [injection Q as <- <-; reflexivity|apply A; exact Hi].
    + rewrite <- K. apply fill_same. rewrite !got_cons, Ab. destruct (attempt max b); reflexivity.
Qed.
Lemma got_range h : Forall (fun b => bytes_ok (snd b) /\ length (snd b) = blk) h -> forall i v, In (i, v) (got max h) -> 0 <= v < max.
Proof.
  induction h as [|[j b] t IH]; intros F i v Hi; [destruct Hi|]. apply Forall_cons_iff in F. destruct F as [[Hb Lb] F]. cbn [snd] in *.
  cbn [got] in Hi. rewrite attempt_spec in Hi by assumption. destruct (Z.ltb_spec (denotes max b) max); [|apply (IH F i); exact Hi].
  destruct Hi as [E|Hi]; [injection E as _ <-; split; [apply denotes_nonneg|assumption]|apply (IH F i); exact Hi].
Qed.
Lemma lookup_range l i : (forall j v, In (j, v) l -> 0 <= v < max) -> 0 <= lookup i l < max.
Proof.
  induction l as [|[j w] t IH]; intros H; [cbn; lia|]. cbn [lookup]. destruct (Nat.eqb i j); [apply (H j); left; reflexivity|].
  apply IH. intros k v Hk. apply (H k). right. exact Hk.
Qed.
Lemma fill_below pick n : forall f h s ds rest, bytes_ok s -> Forall (fun b => bytes_ok (snd b) /\ length (snd b) = blk) h ->
  fill f pick max n h s = ROk ds rest -> below max n ds.
Proof.
  induction f as [|f IH]; intros h s ds rest Hs F E; destruct (length (got max h) =? n)%nat eqn:En.
  1, 3: cbn [fill] in E; rewrite En in E; injection E as <- _; split; [unfold vec; rewrite map_length, seq_length; reflexivity|];
    unfold vec; apply Forall_forall; intros x Hx; apply in_map_iff in Hx; destruct Hx as (i & <- & _);
    apply lookup_range; apply got_range; exact F.
  - cbn [fill] in E. rewrite En in E. discriminate E.
  - destruct (split_block s) as [L|(b & r & -> & Lb)].
    + pose proof (fill_short (S f) pick n h s En L) as Q. rewrite E in Q. discriminate Q.
    + rewrite fill_S in E by assumption. apply Forall_app in Hs. destruct Hs as [Hb Hr].
      apply (IH _ _ _ _ Hr) in E; [exact E|]. constructor; [split; assumption|exact F].
Qed.

(** ** The correspondence *)
Definition numbers (pick : attempts -> nat) (n : nat) (s : list Z) : option (list Z) :=
  match draws pick max n s with ROk ds _ => Some ds | _ => None end.
Definition change (pick1 pick2 : attempts -> nat) (n : nat) (beta : list Z -> list Z) (s : list Z) : list Z :=
  match numbers pick1 n s with Some ds => redo (S (length s)) pick2 n (beta ds) [] s | None => s end.
Lemma inv_nil n : inv n []. Proof. split; constructor. Qed.
Lemma numbers_below pick n s ds : bytes_ok s -> numbers pick n s = Some ds -> below max n ds.
Proof.
  intros Hs. unfold numbers, draws. destruct (fill _ _ _ _ _ _) as [d r|e r|] eqn:E; try discriminate. intros Q. injection Q as <-.
  apply (fill_below pick n _ _ _ _ _ Hs (Forall_nil _) E).
Qed.
Lemma numbers_same pick1 pick2 n s : numbers pick1 n s = None <-> numbers pick2 n s = None.
Proof.
  unfold numbers, draws. pose proof (fill_same pick1 pick2 n (S (length s)) [] [] s eq_refl) as E.
  destruct (fill _ pick1 _ _ _ _), (fill _ pick2 _ _ _ _); cbn in E; split; try discriminate; reflexivity.
Qed.
Lemma numbers_redo pick n d s ds : scheduler max n pick -> below max n d -> bytes_ok s -> numbers pick n s = Some ds ->
  numbers pick n (redo (S (length s)) pick n d [] s) = Some d.
Proof.
  intros S Hd Hs E. unfold numbers, draws in *. destruct (redo_tape pick n d Hd (Datatypes.S (length s)) [] s Hs) as [_ ->].
  destruct (redo_fill pick n d S Hd (Datatypes.S (length s)) [] s Hs (inv_nil n)) as [rest ->]; [intros i v []| |reflexivity].
  destruct (fill _ _ _ _ _ _); [reflexivity|discriminate E|discriminate E].
Qed.
Lemma redo_numbers pick n s ds : scheduler max n pick -> bytes_ok s -> numbers pick n s = Some ds -> redo (S (length s)) pick n ds [] s = s.
Proof.
  intros S Hs E. unfold numbers, draws in E. destruct (fill _ _ _ _ _ _) as [d r|e r|] eqn:Q; try discriminate. injection E as <-.
  apply (redo_same pick n S _ _ _ _ r Hs (inv_nil n) Q).
Qed.
Lemma change_ok pick1 pick2 n beta beta' L s : scheduler max n pick1 -> scheduler max n pick2 ->
  (forall d, below max n d -> below max n (beta d) /\ beta' (beta d) = d) -> tape L s ->
  tape L (change pick1 pick2 n beta s) /\ numbers pick2 n (change pick1 pick2 n beta s) = option_map beta (numbers pick1 n s) /\
  change pick2 pick1 n beta' (change pick1 pick2 n beta s) = s.
Proof.
  intros S1 S2 Hb [Hs Ls]. unfold change at 1 2 4. destruct (numbers pick1 n s) as [ds|] eqn:E1; cbn [option_map].
  - pose proof (numbers_below pick1 n s ds Hs E1) as Bd. destruct (Hb ds Bd) as [Bb Eb].
    destruct (redo_tape pick2 n (beta ds) Bb (S (length s)) [] s Hs) as [O1 L1].
    destruct (numbers pick2 n s) as [ds2|] eqn:E2; [|apply (numbers_same pick1 pick2) in E2; rewrite E2 in E1; discriminate E1].
    pose proof (numbers_redo pick2 n (beta ds) s ds2 S2 Bb Hs E2) as E3.
    split; [split; [exact O1|lia]|]. split; [exact E3|].
    unfold change. rewrite E3, Eb, L1. rewrite redo_twice; [|exact Bb|exact Bd|exact Hs|reflexivity].
    apply (redo_numbers pick1 n s ds S1 Hs E1).
  - assert (E2 : numbers pick2 n s = None) by (apply (numbers_same pick1 pick2); exact E1).
    split; [split; assumption|]. split; [exact E2|]. unfold change. rewrite E2. reflexivity.
Qed.
(** any two schedulers and any one-to-one change of the numbers *)
Lemma asMany_draws pick1 pick2 n beta beta' L (P Q : option (list Z) -> Prop) : scheduler max n pick1 -> scheduler max n pick2 ->
  (forall d, below max n d -> below max n (beta d) /\ beta' (beta d) = d) ->
  (forall d, below max n d -> below max n (beta' d) /\ beta (beta' d) = d) ->
  (P None <-> Q None) -> (forall d, below max n d -> (P (Some d) <-> Q (Some (beta d)))) ->
  asMany L (fun t => P (numbers pick1 n t)) (fun t => Q (numbers pick2 n t)).
Proof.
  intros S1 S2 B1 B2 HN HS. exists (change pick1 pick2 n beta), (change pick2 pick1 n beta'). intros t Ht.
  destruct (change_ok pick1 pick2 n beta beta' L t S1 S2 B1 Ht) as (T1 & E1 & C1).
  destruct (change_ok pick2 pick1 n beta' beta L t S2 S1 B2 Ht) as (T2 & _ & C2).
  split; [exact T1|]. split; [exact T2|]. split; [exact C1|]. split; [exact C2|]. rewrite E1.
  destruct (numbers pick1 n t) as [d|] eqn:E; [|exact HN]. apply HS. apply (numbers_below pick1 n t d); [apply Ht|exact E].
Qed.
End Max.
