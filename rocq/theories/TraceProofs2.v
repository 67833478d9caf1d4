(** * The accesses of scalar multiplication determine the scalar *)
From Coq Require Import ZArith List Bool Lia.
From Verif Require Import Go Wire Big Field Koblitz KoblitzMem SpecMem MemProofs MemProofs2 KoblitzConc ConcProofs FieldMem FieldMemProofs KoblitzWord WordProofs SpecTrace TraceProofs.
Import ListNotations.
Open Scope Z_scope.
Local Open Scope wcode_scope.

(** ** sequences that differ at some place, after a common beginning *)
Definition forks (s t : list access) : Prop := exists p a b u v, s = p ++ a :: u /\ t = p ++ b :: v /\ a <> b.
Lemma forks_ne s t : forks s t -> s <> t.
Proof. intros (p & a & b & u & v & -> & -> & N) E. apply app_inv_head in E. injection E as E _. contradiction. Qed.
Lemma forks_app s t u v : forks s t -> forks (s ++ u) (t ++ v).
Proof. intros (p & a & b & x & y & -> & -> & N). exists p, a, b, (x ++ u), (y ++ v). rewrite <- !app_assoc. repeat split. exact N. Qed.
Lemma forks_pre p s t : forks s t -> forks (p ++ s) (p ++ t).
Proof. intros (q & a & b & x & y & -> & -> & N). exists (p ++ q), a, b, x, y. rewrite <- !app_assoc. repeat split. exact N. Qed.
Lemma forks_hd a b s t : a <> b -> forks (a :: s) (b :: t).
Proof. intros N. exists [], a, b, s, t. repeat split. exact N. Qed.
Lemma forks_sym s t : forks s t -> forks t s.
Proof. intros (p & a & b & u & v & E & F & N). exists p, b, a, v, u. repeat split; [exact F|exact E|congruence]. Qed.

Definition part {A B : Type} (c : wcode A) (d : wcode B) (m : mem) : Prop := forks (traceW c m) (traceW d m).
Lemma part_sym {A B : Type} (c : wcode A) (d : wcode B) m : part c d m -> part d c m. Proof. apply forks_sym. Qed.
Lemma part_here {A B C D : Type} (c : wcode A) (d : wcode B) (f : A -> wcode C) (g : B -> wcode D) m : part c d m -> part (seqW c f) (seqW d g) m.
Proof. intros H. unfold part. rewrite !trace_seq. apply forks_app, H. Qed.
Lemma part_later {A C D : Type} (c : wcode A) (f : A -> wcode C) (g : A -> wcode D) m :
  part (f (fst (runW c m))) (g (fst (runW c m))) (snd (runW c m)) -> part (seqW c f) (seqW c g) m.
Proof. intros H. unfold part. rewrite !trace_seq. apply forks_pre, H. Qed.
(** the first access *)
Definition first {A : Type} (c : wcode A) (a : access) : Prop := forall m, exists t, traceW c m = a :: t.
Lemma first_seq {A B : Type} (c : wcode A) (f : A -> wcode B) a : first c a -> first (seqW c f) a.
Proof. intros H m. destruct (H m) as (t & E). rewrite trace_seq, E. eexists. reflexivity. Qed.
Lemma part_first {A B : Type} (c : wcode A) (d : wcode B) a b m : first c a -> first d b -> a <> b -> part c d m.
Proof. intros C D N. destruct (C m) as (s & E). destruct (D m) as (t & F). unfold part. rewrite E, F. apply forks_hd, N. Qed.
Lemma tr_first {A : Type} (c : wcode A) a t : tr c (a :: t) -> first c a. Proof. intros H m. exists t. apply H. Qed.
Lemma first_load p : first (loadW p) (Loads p 0). Proof. exact (tr_first _ _ _ (tr_load p)). Qed.
Lemma first_isZero p : first (IsZeroW p) (Loads p 0). Proof. exact (tr_first _ _ _ (tr_isZero p)). Qed.
Lemma first_norm p : first (NormalizeW p) (Loads p 9). Proof. exact (tr_first _ _ _ (tr_normalize p)). Qed.
Lemma first_set f a : first (SetW f a) (Loads a 0). Proof. exact (tr_first _ _ _ (tr_set f a)). Qed.
Ltac br := match goal with |- part (if ?b then _ else _) _ _ => destruct b end.
Ltac ldne := let E := fresh in intros E; injection E; congruence.

Section add.
Context (one sp x1 y1 z1 x3 y3 z3 : ptr).
Notation add x y z := (addJacobianW one sp x1 y1 z1 x y z x3 y3 z3).
Lemma add_first x y z : first (add x y z) (Loads x1 0).
Proof. apply first_seq. apply first_seq, first_isZero. Qed.
(** two additions with different second operands fork, the X pointers differing *)
Lemma add_part_x x y z x' y' z' m : x <> x' -> part (add x y z) (add x' y' z') m.
Proof.
  intros N. unfold addJacobianW. cbv zeta. apply part_later. br.
  - cbn [execW insW env args9]. apply part_here. apply (part_first _ _ (Loads x 0) (Loads x' 0)); [apply first_set|apply first_set|ldne].
  - apply part_here. apply part_here. apply (part_first _ _ (Loads x 0) (Loads x' 0)); [apply first_isZero|apply first_isZero|ldne].
Qed.
(** or the Y pointers differing *)
Lemma add_part_y x y y' z m : y <> y' -> fIsZero (m z) = false -> part (add x y z) (add x y' z) m.
Proof.
  intros N Z. unfold addJacobianW. cbv zeta. apply part_later.
  assert (E1 : snd (runW (isInfW x1 y1 z1) m) = m).
  { unfold isInfW. rewrite runW_seq, isZero_ok. cbn [fst snd]. destruct (fIsZero (m x1)); rewrite runW_seq; [rewrite isZero_ok; cbn [fst snd]; destruct (fIsZero (m y1)); [reflexivity|]|cbn [runW fst snd]]; rewrite isZero_ok; reflexivity. }
  rewrite E1. br.
  - cbn [execW insW env args9]. apply part_later. apply part_here. apply (part_first _ _ (Loads y 0) (Loads y' 0)); [apply first_set|apply first_set|ldne].
  - destruct (fIsZero (m x)) eqn:Ex.
    + apply part_here. unfold isInfW. apply part_later. rewrite isZero_ok. cbn [fst snd]. rewrite Ex. apply part_here.
      apply (part_first _ _ (Loads y 0) (Loads y' 0)); [apply first_isZero|apply first_isZero|ldne].
    + assert (E2 : forall w, traceW (isInfW x w z) m = loads x ++ loads z /\ runW (isInfW x w z) m = (false, m)).
      { intros w. unfold isInfW. rewrite trace_seq, runW_seq, tr_isZero, isZero_ok. cbn [fst snd]. rewrite Ex. rewrite trace_seq, runW_seq. cbn [runW traceW fst snd app].
        rewrite tr_isZero, isZero_ok, Z. split; reflexivity. }
      unfold part. rewrite (trace_seq (isInfW x y z)), (trace_seq (isInfW x y' z)). destruct (E2 y) as [-> ->]. destruct (E2 y') as [-> ->]. cbn [fst snd]. apply forks_pre.
      match goal with |- forks (traceW ?c _) (traceW ?d _) => change (part c d m) end.
      change (execW (sp + frame) (env sp (args9 x1 y1 z1 x y' z x3 y3 z3)) [Normalize Z1; Normalize Z2])
        with (execW (sp + frame) (env sp (args9 x1 y1 z1 x y z x3 y3 z3)) [Normalize Z1; Normalize Z2]).
      apply part_later. apply part_later. apply part_later. br.
      * unfold addZ1AndZ2EqualsOneW. cbv zeta. apply part_here. unfold normProg. cbn [execW insW env args8]. do 3 apply part_later. apply part_here.
        apply (part_first _ _ (Loads y 9) (Loads y' 9)); [apply first_norm|apply first_norm|ldne].
      * apply part_later. cbv beta. br; [|br].
        -- unfold addZ1EqualsZ2W. cbv zeta. apply part_here. unfold normProg. cbn [execW insW env args8]. do 3 apply part_later. apply part_here.
           apply (part_first _ _ (Loads y 9) (Loads y' 9)); [apply first_norm|apply first_norm|ldne].
        -- unfold addZ2EqualsOneW. cbv zeta. apply part_here. unfold likeProg. cbn [execW insW env args8]. do 6 apply part_later. apply part_here.
           apply (part_first _ _ (Loads y 0) (Loads y' 0)); [apply first_set|apply first_set|ldne].
        -- unfold addGenericW. cbv zeta. apply part_here. unfold likeProg2. cbn [execW insW env args9]. do 12 apply part_later. apply part_here.
           apply (part_first _ _ (Loads y 0) (Loads y' 0)); [apply first_set|apply first_set|ldne].
Qed.
End add.
Lemma dbl_first one sp x1 y1 z1 x3 y3 z3 : first (doubleJacobianW one sp x1 y1 z1 x3 y3 z3) (Loads y1 0).
Proof. apply first_seq, first_isZero. Qed.
Lemma aff_first sp x y z : first (toAffineW sp x y z) (Loads z 0).
Proof. unfold toAffineW. cbv zeta. apply first_seq. unfold affineProg. cbn [execW insW env]. apply first_seq, first_set. Qed.
