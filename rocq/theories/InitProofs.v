(** * Proofs about initS256 and sync.Once *)
From Coq Require Import String ZArith List Bool Lia.
From Verif Require Import Spec Go Wire Big CodecProofs Field SpecField FieldProofs Koblitz Precompute Text TextProofs Init SpecInit.
Import ListNotations.
Open Scope Z_scope.

(** ** the statements one after the other *)
Fixpoint runAll (l : list stmt) (o : object) : object * bool :=
  match l with
  | [] => (o, false)
  | st :: r => match st o with Ok o' => runAll r o' | Panic => (o, true) end
  end.
Lemma runAll_app a : forall b o, runAll (a ++ b) o = match runAll a o with (o', false) => runAll b o' | (o', true) => (o', true) end.
Proof. induction a as [|st a IH]; intros b o; [reflexivity|]. cbn [app runAll]. destruct (st o) as [o'|]; [apply IH|reflexivity]. Qed.
Definition first11 : list stmt := firstn 11 (initS256 (fun _ => None) [] []).
Definition last6 : list stmt := skipn 13 (initS256 (fun _ => None) [] []).
Lemma init_split d bp bpH : initS256 d bp bpH = first11 ++ [load d bp setTable; load d bpH setTableH] ++ last6.
Proof. reflexivity. Qed.
Definition half1 : object := fst (runAll first11 blank).
Lemma first_ok : runAll first11 blank = (half1, false).
Proof. vm_compute. reflexivity. Qed.
Definition filled (t tH : option table) : object := fst (runAll last6 (setTableH tH (setTable t half1))).
Lemma last_ok t tH : runAll last6 (setTableH tH (setTable t half1)) = (filled t tH, false).
Proof. vm_compute. reflexivity. Qed.
(** leaving a nil field alone is setting it to nil *)
Lemma set_nil1 : setTable None half1 = half1. Proof. vm_compute. reflexivity. Qed.
Lemma set_nil2 t : setTableH None (setTable t half1) = setTable t half1. Proof. vm_compute. reflexivity. Qed.
Lemma load1 d bp : load d bp setTable half1 = match loadBytePoints d bp with Ok (Loaded t) => Ok (setTable t half1) | _ => Panic end.
Proof. unfold load. destruct (loadBytePoints d bp) as [[[t|]|]|]; cbn [bind]; rewrite ?set_nil1; reflexivity. Qed.
Lemma load2 d bp t : load d bp setTableH (setTable t half1) = match loadBytePoints d bp with Ok (Loaded tH) => Ok (setTableH tH (setTable t half1)) | _ => Panic end.
Proof. unfold load. destruct (loadBytePoints d bp) as [[[tH|]|]|]; cbn [bind]; rewrite ?set_nil2; reflexivity. Qed.
Lemma init_ok d bp bpH c : startS256 d bp bpH = Ok c ->
  exists t tH, runAll (initS256 d bp bpH) blank = (filled t tH, false) /\ c = S256 (tableOf t) (tableOf tH) /\
    loadBytePoints d bp = Ok (Loaded t) /\ loadBytePoints d bpH = Ok (Loaded tH).
Proof.
  unfold startS256. destruct (loadBytePoints d bp) as [[t|]|] eqn:E; cbn [bind]; try discriminate.
  destruct (loadBytePoints d bpH) as [[tH|]|] eqn:EH; cbn [bind]; try discriminate. intros X. injection X as <-. exists t, tH. split; [|auto].
  rewrite init_split, runAll_app, first_ok. cbn [app]. cbn [runAll]. rewrite load1, E, load2, EH. apply last_ok.
Qed.
Lemma init_panic d bp bpH : startS256 d bp bpH = Panic ->
  exists t, runAll (initS256 d bp bpH) blank = (setTable t half1, true).
Proof.
  unfold startS256. rewrite init_split, runAll_app, first_ok. cbn [app]. cbn [runAll]. rewrite load1.
  destruct (loadBytePoints d bp) as [[t|]|] eqn:E; cbn [bind].
  - rewrite load2. destruct (loadBytePoints d bpH) as [[tH|]|] eqn:EH; cbn [bind]; [discriminate| |]; intros _; exists t; reflexivity.
  - intros _. exists None. rewrite set_nil1. reflexivity.
  - intros _. exists None. rewrite set_nil1. reflexivity.
Qed.
Lemma filled_complete t tH : complete (filled t tH) /\ oTable (filled t tH) = t /\ oTableH (filled t tH) = tH.
Proof.
  split; [|split; vm_compute; reflexivity]. constructor; [vm_compute; reflexivity..| |vm_compute; reflexivity|vm_compute; reflexivity|vm_compute; reflexivity|vm_compute; reflexivity].
  exists curveBeta. split; [vm_compute; reflexivity|]. split; [|vm_compute; reflexivity].
  unfold curveBeta. destruct (setBytes_ok (be_bytes 32 0x7AE96A2B657C07106E64479EAC3434E99CF0497512F58995C1396C28719501EE)) as [S _]; [apply be_bytes_len|apply be_bytes_ok|apply small_fits, S].
Qed.
Lemma half_nil t : oBeta (setTable t half1) = None /\ oLambda (setTable t half1) = None /\ oTableH (setTable t half1) = None.
Proof. vm_compute. auto. Qed.

(** ** sync.Once *)
Lemma nth_replace i c : forall l j, (i < length l)%nat -> nth_error (replace i c l) j = if Nat.eqb j i then Some c else nth_error l j.
Proof.
  unfold replace. induction i as [|i IH]; intros [|x l] j L; cbn [length] in L; try lia.
  - destruct j; reflexivity.
  - destruct j as [|j]; [reflexivity|]. cbn [firstn skipn app nth_error Nat.eqb]. apply (IH l j). lia.
Qed.
Lemma len_replace i c l : (i < length l)%nat -> length (replace i c l) = length l.
Proof. intros L. unfold replace. rewrite app_length. cbn [length]. rewrite firstn_length, skipn_length. lia. Qed.
Lemma nth_lt {A : Type} (l : list A) i c : nth_error l i = Some c -> (i < length l)%nat.
Proof. intros H. apply nth_error_Some. congruence. Qed.

Definition holds (c : call) : bool := match c with Check | Body _ | SetDone _ | Unlock _ => true | _ => false end.
Definition bad (c : call) : bool := match c with SetDone p | Unlock p | End p => p | _ => false end.
Section Once.
  Variable body : list stmt.
  Let R0 : object * bool := runAll body blank.
  Definition okCall (o : object) (d : bool) (c : call) : Prop :=
    match c with
    | Start | Locking | Check => True
    | Body rest => d = false /\ runAll rest o = R0
    | SetDone p => d = false /\ (o, p) = R0
    | Unlock p | End p => d = true /\ (p = true -> snd R0 = true)
    end.
  Definition inv (s : state) : Prop :=
    (forall i c, nth_error (calls s) i = Some c -> okCall (obj s) (done s) c) /\
    (forall i j c e, nth_error (calls s) i = Some c -> nth_error (calls s) j = Some e -> holds c = true -> holds e = true -> i = j) /\
    (forall i c, nth_error (calls s) i = Some c -> holds c = true -> locked s = true) /\
    (locked s = true -> exists i c, nth_error (calls s) i = Some c /\ holds c = true) /\
    (done s = false -> (forall i c, nth_error (calls s) i = Some c -> c = Start \/ c = Locking \/ c = Check) -> obj s = blank) /\
    (done s = true -> obj s = fst R0) /\
    (forall i j c e, nth_error (calls s) i = Some c -> nth_error (calls s) j = Some e -> bad c = true -> bad e = true -> i = j) /\
    (done s = true -> snd R0 = true -> exists i c, nth_error (calls s) i = Some c /\ bad c = true).
  Lemma inv_fresh n : inv (fresh n).
  Proof.
    assert (S : forall i c, nth_error (calls (fresh n)) i = Some c -> c = Start).
    { intros i c H. apply nth_error_In in H. apply repeat_spec in H. exact H. }
    split; [intros i c H; rewrite (S i c H); exact I|]. split; [intros i j c e Hi Hj A; rewrite (S i c Hi) in A; discriminate A|].
    split; [intros i c H A; rewrite (S i c H) in A; discriminate A|]. split; [discriminate|]. split; [reflexivity|]. split; [discriminate|].
    split; [intros i j c e Hi Hj A; rewrite (S i c Hi) in A; discriminate A|discriminate].
  Qed.
  (** the state after call [i] moved from [c0] to [c1] *)
  Lemma inv_step i s s' : inv s -> stepCall body i s = Some s' -> inv s'.
  Proof.
    intros (I1 & I2 & I3 & I4 & I5 & I6 & I7 & I8) E. unfold stepCall in E. destruct (nth_error (calls s) i) as [c0|] eqn:C; [|discriminate].
    pose proof (nth_lt _ _ _ C) as L. pose proof (I1 i c0 C) as OK0.
    (* what the others are *)
    assert (OT : holds c0 = true -> forall j c, nth_error (calls s) j = Some c -> j <> i -> holds c = false).
    { intros H j c J N. destruct (holds c) eqn:HC; [|reflexivity]. elim N. exact (I2 j i c c0 J C HC H). }
    assert (GEN : forall o d k c1, s' = with_ o d k (replace i c1 (calls s)) ->
      okCall o d c1 ->
      (forall j c, j <> i -> nth_error (calls s) j = Some c -> okCall o d c) ->
      (holds c1 = true -> forall j c, nth_error (calls s) j = Some c -> j <> i -> holds c = false) ->
      (forall c, (c = c1 \/ exists j, j <> i /\ nth_error (calls s) j = Some c) -> holds c = true -> k = true) ->
      (k = true -> holds c1 = true \/ exists j c, j <> i /\ nth_error (calls s) j = Some c /\ holds c = true) ->
      (d = false -> (forall j c, nth_error (replace i c1 (calls s)) j = Some c -> c = Start \/ c = Locking \/ c = Check) -> o = blank) ->
      (d = true -> o = fst R0) ->
      (bad c1 = true -> forall j c, nth_error (calls s) j = Some c -> j <> i -> bad c = false) ->
      (d = true -> snd R0 = true -> bad c1 = true \/ exists j c, j <> i /\ nth_error (calls s) j = Some c /\ bad c = true) -> inv s').
    { intros o d k c1 -> G1 G2 G3 G4 G5 G6 G7 G8 G9. unfold inv. cbn [obj done locked calls with_].
      assert (N : forall j c, nth_error (replace i c1 (calls s)) j = Some c -> (j = i /\ c = c1) \/ (j <> i /\ nth_error (calls s) j = Some c)).
      { intros j c J. rewrite nth_replace in J by exact L. destruct (Nat.eqb_spec j i) as [->|NE]; [left; split; [reflexivity|congruence]|right; auto]. }
      assert (N1 : nth_error (replace i c1 (calls s)) i = Some c1) by (rewrite nth_replace, Nat.eqb_refl by exact L; reflexivity).
      assert (N2 : forall j c, j <> i -> nth_error (calls s) j = Some c -> nth_error (replace i c1 (calls s)) j = Some c).
      { intros j c NE J. rewrite nth_replace by exact L. destruct (Nat.eqb_spec j i); [congruence|exact J]. }
      split; [|split; [|split; [|split; [|split; [|split; [|split]]]]]].
      - intros j c J. destruct (N j c J) as [[-> ->]|[NE J']]; [exact G1|exact (G2 j c NE J')].
      - intros a b c e A B HC HE. destruct (N a c A) as [[-> ->]|[NA A']], (N b e B) as [[-> ->]|[NB B']]; [reflexivity| | |].
        + rewrite (G3 HC b e B' NB) in HE. discriminate HE.
        + rewrite (G3 HE a c A' NA) in HC. discriminate HC.
        + exact (I2 a b c e A' B' HC HE).
      - intros j c J HC. apply (G4 c); [|exact HC]. destruct (N j c J) as [[-> ->]|[NE J']]; [left; reflexivity|right; exists j; auto].
      - intros K. destruct (G5 K) as [HC|(j & c & NE & J & HC)]; [exists i, c1; auto|exists j, c; split; [exact (N2 j c NE J)|exact HC]].
      - exact G6.
      - exact G7.
      - intros a b c e A B HC HE. destruct (N a c A) as [[-> ->]|[NA A']], (N b e B) as [[-> ->]|[NB B']]; [reflexivity| | |].
        + rewrite (G8 HC b e B' NB) in HE. discriminate HE.
        + rewrite (G8 HE a c A' NA) in HC. discriminate HC.
        + exact (I7 a b c e A' B' HC HE).
      - intros D B. destruct (G9 D B) as [HC|(j & c & NE & J & HC)]; [exists i, c1; auto|exists j, c; split; [exact (N2 j c NE J)|exact HC]]. }
    (* facts about the others that do not depend on the step *)
    assert (O1 : forall j c, j <> i -> nth_error (calls s) j = Some c -> okCall (obj s) (done s) c) by (intros j c _ J; exact (I1 j c J)).
    assert (O2 : forall c, (exists j, j <> i /\ nth_error (calls s) j = Some c) -> holds c = true -> locked s = true) by (intros c (j & _ & J) H; exact (I3 j c J H)).
    assert (O3 : holds c0 = false -> locked s = true -> exists j c, j <> i /\ nth_error (calls s) j = Some c /\ holds c = true).
    { intros H K. destruct (I4 K) as (j & c & J & HC). exists j, c. split; [|auto]. intros ->. congruence. }
    assert (O4 : bad c0 = false -> done s = true -> snd R0 = true -> exists j c, j <> i /\ nth_error (calls s) j = Some c /\ bad c = true).
    { intros H D B. destruct (I8 D B) as (j & c & J & HC). exists j, c. split; [|auto]. intros ->. congruence. }
    (* the blank object, when only [i] changed among the three first places *)
    assert (O5 : forall c1, (c0 = Start \/ c0 = Locking \/ c0 = Check) -> done s = false ->
      (forall j c, nth_error (replace i c1 (calls s)) j = Some c -> c = Start \/ c = Locking \/ c = Check) -> obj s = blank).
    { intros c1 H D A. apply I5; [exact D|]. intros j c J. destruct (Nat.eq_dec j i) as [->|NE]; [replace c with c0 by congruence; exact H|].
      apply (A j). rewrite nth_replace by exact L. destruct (Nat.eqb_spec j i); [congruence|exact J]. }
    destruct c0 as [| | |rest|p|p|p].
    - (* Start *)
      injection E as <-. destruct (done s) eqn:D.
      + apply (GEN _ _ _ _ eq_refl); cbn [okCall holds bad]; try discriminate; auto; try (intros; congruence).
        * split; [reflexivity|discriminate].
        * intros c [->|X] H; [discriminate H|exact (O2 c X H)].
      + apply (GEN _ _ _ _ eq_refl); cbn [okCall holds bad]; try discriminate; auto; try (intros; congruence).
        * intros c [->|X] H; [discriminate H|exact (O2 c X H)].
        * intros _ A. exact (O5 _ (or_introl eq_refl) eq_refl A).
    - (* Locking *)
      destruct (locked s) eqn:K; [discriminate|]. injection E as <-. apply (GEN _ _ _ _ eq_refl); cbn [okCall holds bad]; try discriminate; auto; try (intros; congruence).
      + intros _ j c J N. destruct (holds c) eqn:H; [|reflexivity]. pose proof (I3 j c J H). congruence.
      + intros D A. exact (O5 _ (or_intror (or_introl eq_refl)) D A).
    - (* Check *)
      pose proof (I3 i Check C eq_refl) as K. injection E as <-. destruct (done s) eqn:D.
      + apply (GEN _ _ _ _ eq_refl); cbn [okCall holds bad]; try discriminate; auto; try (intros; congruence).
        * split; [reflexivity|discriminate].
      + assert (BL : obj s = blank).
        { apply I5; [reflexivity|]. intros j c J. destruct (Nat.eq_dec j i) as [->|NE]; [replace c with Check by congruence; auto|].
          pose proof (OT eq_refl j c J NE) as H. pose proof (I1 j c J) as OK. destruct c; auto; try discriminate H. destruct OK as [X _]. discriminate X. }
        apply (GEN _ _ _ _ eq_refl); cbn [okCall holds bad]; try discriminate; auto; try (intros; congruence).
        * split; [reflexivity|]. rewrite BL. reflexivity.
    - (* Body *)
      destruct OK0 as [D RR]. pose proof (I3 i _ C eq_refl) as K.
      assert (BF : forall j c, nth_error (calls s) j = Some c -> j <> i -> bad c = false).
      { intros j c J NE. pose proof (OT eq_refl j c J NE) as H. pose proof (I1 j c J) as OK. destruct c; try reflexivity; try discriminate H. destruct OK as [X _]. congruence. }
      assert (OK' : forall o d j c, j <> i -> nth_error (calls s) j = Some c -> okCall o d c).
      { intros o d j c NE J. pose proof (OT eq_refl j c J NE) as H. pose proof (I1 j c J) as OK. destruct c; try exact I; try discriminate H. destruct OK as [X _]. congruence. }
      assert (NB : forall o c1, (c1 <> Start /\ c1 <> Locking /\ c1 <> Check) ->
        (forall j c, nth_error (replace i c1 (calls s)) j = Some c -> c = Start \/ c = Locking \/ c = Check) -> o = blank).
      { intros o c1 (X1 & X2 & X3) A. assert (N1 : nth_error (replace i c1 (calls s)) i = Some c1) by (rewrite nth_replace, Nat.eqb_refl by exact L; reflexivity).
        destruct (A i c1 N1) as [Y|[Y|Y]]; contradiction. }
      destruct rest as [|st rest].
      + injection E as <-. apply (GEN _ _ _ _ eq_refl); cbn [okCall holds bad]; try discriminate; auto; try (intros; congruence).
        * intros _ A. apply (NB _ (SetDone false)); [repeat split; discriminate|exact A].
      + cbn [runAll] in RR. destruct (st (obj s)) as [o|] eqn:ST.
        * injection E as <-. apply (GEN _ _ _ _ eq_refl); cbn [okCall holds bad]; try discriminate; auto; try (intros; congruence).
          -- exact (OK' o (done s)).
          -- intros _ A. apply (NB _ (Body rest)); [repeat split; discriminate|exact A].
        * injection E as <-. apply (GEN _ _ _ _ eq_refl); cbn [okCall holds bad]; try discriminate; auto; try (intros; congruence).
          -- intros _ A. apply (NB _ (SetDone true)); [repeat split; discriminate|exact A].
    - (* SetDone *)
      destruct OK0 as [D RR]. pose proof (I3 i _ C eq_refl) as K. injection E as <-.
      assert (BF : forall j c, nth_error (calls s) j = Some c -> j <> i -> bad c = false).
      { intros j c J NE. pose proof (OT eq_refl j c J NE) as H. pose proof (I1 j c J) as OK. destruct c; try reflexivity; try discriminate H. destruct OK as [X _]. congruence. }
      apply (GEN _ _ _ _ eq_refl); cbn [okCall holds bad]; try discriminate; auto; try (intros; congruence).
      + split; [reflexivity|]. intros ->. rewrite <- RR. reflexivity.
      + intros j c NE J. pose proof (OT eq_refl j c J NE) as H. pose proof (I1 j c J) as OK. destruct c; try exact I; try discriminate H. destruct OK as [X _]. congruence.
      + intros _. rewrite <- RR. reflexivity.
      + intros _ B. left. rewrite <- RR in B. exact B.
    - (* Unlock *)
      destruct OK0 as [D PP]. injection E as <-.
      apply (GEN _ _ _ _ eq_refl); cbn [okCall holds bad]; try discriminate; auto; try (intros; congruence).
      + intros c [->|(j & NE & J)] H; [discriminate H|]. rewrite (OT eq_refl j c J NE) in H. discriminate H.
      + intros B j c J NE. destruct (bad c) eqn:BC; [|reflexivity]. elim NE. exact (I7 j i c (Unlock p) J C BC B).
      + intros _ B. destruct (I8 D B) as (j & c & J & BC). destruct (Nat.eq_dec j i) as [->|NE]; [left; replace c with (Unlock p) in BC by congruence; exact BC|right; exists j, c; auto].
    - discriminate.
  Qed.
End Once.

Lemma inv_execute body sched : forall s, inv body s -> inv body (execute body sched s).
Proof.
  induction sched as [|i r IH]; intros s I; [exact I|]. cbn [execute]. apply IH. destruct (stepCall body i s) as [s'|] eqn:E; [exact (inv_step body i s s' I E)|exact I].
Qed.
Lemma inv_reach body sched n : inv body (execute body sched (fresh n)).
Proof. apply inv_execute, inv_fresh. Qed.
Lemma execute_app body a : forall b s, execute body (a ++ b) s = execute body b (execute body a s).
Proof. induction a as [|i a IH]; intros b s; [reflexivity|]. cbn [app execute]. apply IH. Qed.

(** nothing is written once a call has ended *)
Lemma end_stays body i s s' : stepCall body i s = Some s' -> forall j p, nth_error (calls s) j = Some (End p) -> nth_error (calls s') j = Some (End p).
Proof.
  unfold stepCall. intros E j p J. destruct (nth_error (calls s) i) as [c0|] eqn:C; [|discriminate]. pose proof (nth_lt _ _ _ C) as L.
  assert (X : forall c1 o d k, Some (with_ o d k (replace i c1 (calls s))) = Some s' -> c0 <> End p -> nth_error (calls s') j = Some (End p)).
  { intros c1 o d k H N. injection H as <-. cbn [calls with_]. rewrite nth_replace by exact L. destruct (Nat.eqb_spec j i) as [->|_]; [congruence|exact J]. }
  destruct c0 as [| | |[|st rest]|q|q|q].
  - exact (X _ _ _ _ E ltac:(discriminate)).
  - destruct (locked s); [discriminate|exact (X _ _ _ _ E ltac:(discriminate))].
  - exact (X _ _ _ _ E ltac:(discriminate)).
  - exact (X _ _ _ _ E ltac:(discriminate)).
  - destruct (st (obj s)); exact (X _ _ _ _ E ltac:(discriminate)).
  - exact (X _ _ _ _ E ltac:(discriminate)).
  - exact (X _ _ _ _ E ltac:(discriminate)).
  - discriminate.
Qed.
Lemma end_stays_all body sched : forall s j p, nth_error (calls s) j = Some (End p) -> nth_error (calls (execute body sched s)) j = Some (End p).
Proof.
  induction sched as [|i r IH]; intros s j p J; [exact J|]. cbn [execute]. apply IH. destruct (stepCall body i s) as [s'|] eqn:E; [exact (end_stays body i s s' E j p J)|exact J].
Qed.
Lemma ended_obj body s j p : inv body s -> nth_error (calls s) j = Some (End p) -> obj s = fst (runAll body blank).
Proof. intros (I1 & _ & _ & _ & _ & I6 & _) J. destruct (I1 j _ J) as [D _]. exact (I6 D). Qed.
Lemma ended_no_body body s j p i rest : inv body s -> nth_error (calls s) j = Some (End p) -> nth_error (calls s) i <> Some (Body rest).
Proof. intros (I1 & _) J I. destruct (I1 j _ J) as [D _]. destruct (I1 i _ I) as [D' _]. congruence. Qed.
Lemma one_body body s i j r1 r2 : inv body s -> nth_error (calls s) i = Some (Body r1) -> nth_error (calls s) j = Some (Body r2) -> i = j.
Proof. intros (_ & I2 & _) A B. exact (I2 i j _ _ A B eq_refl eq_refl). Qed.
Lemma no_panic body s i : inv body s -> snd (runAll body blank) = false -> nth_error (calls s) i <> Some (End true).
Proof. intros (I1 & _) E J. destruct (I1 i _ J) as [_ P]. rewrite (P eq_refl) in E. discriminate. Qed.
(** a state without a possible step *)
Lemma progress body s : inv body s -> (forall i, (i < length (calls s))%nat -> ended s i) \/ exists i s', stepCall body i s = Some s'.
Proof.
  intros (I1 & I2 & I3 & I4 & _).
  destruct (locked s) eqn:K.
  - destruct (I4 eq_refl) as (i & c & C & H). right. exists i. unfold stepCall. rewrite C. destruct c as [| | |[|st rest]|p|p|p]; try discriminate H; try (eexists; reflexivity).
    destruct (st (obj s)); eexists; reflexivity.
  - destruct (Exists_dec (fun c => match c with End _ => False | _ => True end) (calls s)) as [X|X].
    { intros c. destruct c; auto. }
    + apply Exists_exists in X. destruct X as (c & IN & NE). apply In_nth_error in IN. destruct IN as (i & C). right. exists i. unfold stepCall. rewrite C.
      destruct c as [| | |[|st rest]|p|p|p]; try (eexists; reflexivity); [rewrite K; eexists; reflexivity|destruct (st (obj s)); eexists; reflexivity|contradiction].
    + left. intros i L. destruct (nth_error (calls s) i) as [c|] eqn:C; [|apply nth_error_None in C; lia].
      destruct c as [| | |rest|p|p|[|]]; [..|right; exact C|left; exact C]; elim X; apply Exists_exists; eexists; (split; [exact (nth_error_In _ _ C)|exact I]).
Qed.
(** ** the number of steps *)
Definition weight (n : nat) (c : call) : nat :=
  match c with Start => n + 6 | Locking => n + 5 | Check => n + 4 | Body rest => length rest + 3 | SetDone _ => 2 | Unlock _ => 1 | End _ => 0 end.
Definition total (n : nat) (l : list call) : nat := fold_right (fun c a => (weight n c + a)%nat) 0%nat l.
Lemma total_replace n i c1 : forall l c0, nth_error l i = Some c0 -> (total n (replace i c1 l) + weight n c0 = total n l + weight n c1)%nat.
Proof.
  unfold replace. induction i as [|i IH]; intros [|x l] c0 C; try discriminate C.
  - injection C as <-. cbn [firstn skipn app total fold_right]. fold (total n l). lia.
  - specialize (IH l c0 C). unfold total in *. cbn [firstn skipn app fold_right] in *. lia.
Qed.
Lemma step_less body i s s' : stepCall body i s = Some s' -> (total (length body) (calls s') < total (length body) (calls s))%nat.
Proof.
  unfold stepCall. intros E. destruct (nth_error (calls s) i) as [c0|] eqn:C; [|discriminate].
  assert (X : forall c1 o d k, Some (with_ o d k (replace i c1 (calls s))) = Some s' -> (weight (length body) c1 < weight (length body) c0)%nat -> (total (length body) (calls s') < total (length body) (calls s))%nat).
  { intros c1 o d k H W. injection H as <-. cbn [calls with_]. pose proof (total_replace (length body) i c1 _ _ C). lia. }
  destruct c0 as [| | |[|st rest]|q|q|q].
  - apply (X _ _ _ _ E). destruct (done s); cbn [weight]; lia.
  - destruct (locked s); [discriminate|]. apply (X _ _ _ _ E). cbn [weight]. lia.
  - apply (X _ _ _ _ E). destruct (done s); cbn [weight]; lia.
  - apply (X _ _ _ _ E). cbn [weight length]. lia.
  - destruct (st (obj s)); apply (X _ _ _ _ E); cbn [weight length]; lia.
  - apply (X _ _ _ _ E). cbn [weight]. lia.
  - apply (X _ _ _ _ E). cbn [weight]. lia.
  - discriminate.
Qed.
Lemma moves_less body sched : forall s s', moves body sched s = Some s' -> (length sched + total (length body) (calls s') <= total (length body) (calls s))%nat.
Proof.
  induction sched as [|i r IH]; intros s s' E; cbn [moves length] in *.
  - injection E as <-. lia.
  - destruct (stepCall body i s) as [s1|] eqn:S; [|discriminate]. apply step_less in S. apply IH in E. lia.
Qed.
Lemma total_fresh n k : total n (repeat Start k) = (k * (n + 6))%nat.
Proof. induction k as [|k IH]; [reflexivity|]. cbn [repeat total fold_right weight]. unfold total in IH. rewrite IH. lia. Qed.
Lemma moves_bound body sched n s' : moves body sched (fresh n) = Some s' -> (length sched <= n * (length body + 6))%nat.
Proof. intros E. apply moves_less in E. change (calls (fresh n)) with (repeat Start n) in E. rewrite total_fresh in E. lia. Qed.
(** so every state can be driven to the end *)
Lemma drive body : forall k s, (total (length body) (calls s) <= k)%nat -> inv body s ->
  exists sched, forall i, (i < length (calls (execute body sched s)))%nat -> ended (execute body sched s) i.
Proof.
  induction k as [|k IH]; intros s W I.
  - destruct (progress body s I) as [E|(i & s' & E)]; [exists []; exact E|]. apply step_less in E. lia.
  - destruct (progress body s I) as [E|(i & s' & E)]; [exists []; exact E|].
    destruct (IH s') as (sched & H); [apply step_less in E; lia|exact (inv_step body i s s' I E)|]. exists (i :: sched). cbn [execute]. rewrite E. exact H.
Qed.
Lemma len_step body i s s' : stepCall body i s = Some s' -> length (calls s') = length (calls s).
Proof.
  unfold stepCall. intros E. destruct (nth_error (calls s) i) as [c0|] eqn:C; [|discriminate]. pose proof (nth_lt _ _ _ C) as L.
  assert (X : forall c1 o d k, Some (with_ o d k (replace i c1 (calls s))) = Some s' -> length (calls s') = length (calls s)).
  { intros c1 o d k H. injection H as <-. exact (len_replace i c1 _ L). }
  destruct c0 as [| | |[|st rest]|q|q|q]; try exact (X _ _ _ _ E); try discriminate; [destruct (locked s); [discriminate|]|destruct (st (obj s))]; exact (X _ _ _ _ E).
Qed.
Lemma len_execute body sched : forall s, length (calls (execute body sched s)) = length (calls s).
Proof.
  induction sched as [|i r IH]; intros s; [reflexivity|]. cbn [execute]. rewrite IH. destruct (stepCall body i s) as [s'|] eqn:E; [exact (len_step body i s s' E)|reflexivity].
Qed.
Lemma one_panics body s : inv body s -> snd (runAll body blank) = true -> (forall i, (i < length (calls s))%nat -> ended s i) -> (0 < length (calls s))%nat ->
  exists i, panicked s i /\ forall j, (j < length (calls s))%nat -> j <> i -> returned s j.
Proof.
  intros (I1 & I2 & I3 & I4 & I5 & I6 & I7 & I8) B A L.
  assert (D : done s = true) by (destruct (A 0%nat L) as [E|E]; destruct (I1 _ _ E) as [D _]; exact D).
  destruct (I8 D B) as (i & c & C & BC). exists i. destruct (A i (nth_lt _ _ _ C)) as [E|E].
  - unfold returned in E. rewrite C in E. injection E as ->. discriminate BC.
  - split; [exact E|]. intros j Lj NE. destruct (A j Lj) as [F|F]; [exact F|]. elim NE. exact (I7 j i _ _ F E eq_refl eq_refl).
Qed.
