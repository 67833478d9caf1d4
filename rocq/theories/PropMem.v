(** * Property C72: in-place arithmetic through shared pointers *)
From Coq Require Import ZArith List Bool Lia.
From Verif Require Import Spec SpecZk Order ZkBase Go Wire Big Field Koblitz SpecCurve KobProofs KobMul KobTab KoblitzMem SpecMem MemProofs MemProofs2 PropCurve.
Import ListNotations.
Open Scope Z_scope.

(** two groups of pointers with no pointer in common *)
Definition disjoint (l l' : list ptr) : Prop := forall p q, In p l -> In q l' -> p <> q.

(** ** C72: the additions and doublings in Jacobian coordinates.
    The result may be written over the first point, over the second one, or elsewhere:
    the only demands are that x, y and z coordinates are different variables and that
    the two points do not share theirs.  The memory the callee finds in its frame is
    arbitrary. *)
Theorem C72_addJacobian : forall one sp x1 y1 z1 x2 y2 z2 x3 y3 z3 m,
  (forall p, In p [one; x1; y1; z1; x2; y2; z2; x3; y3; z3] -> p < sp) ->
  disjoint [one] [x1; y1; z1; x2; y2; z2; x3; y3; z3] -> m one = fieldOne ->
  disjoint [x1; x2; x3] [y1; y2; y3] -> disjoint [x1; x2; x3] [z1; z2; z3] -> disjoint [y1; y2; y3] [z1; z2; z3] ->
  x1 <> x2 -> y1 <> y2 -> z1 <> z2 ->
  let m' := addJacobianM one sp x1 y1 z1 x2 y2 z2 x3 y3 z3 m in
  (m' x3, m' y3, m' z3) = fst (addJacobian (m x1, m y1, m z1) (m x2, m y2, m z2)) /\
  (x3 <> x2 -> y3 <> y2 -> z3 <> z2 -> (m' x2, m' y2, m' z2) = snd (addJacobian (m x1, m y1, m z1) (m x2, m y2, m z2))) /\
  (forall p, p < sp -> ~ In p [x1; y1; z1; x2; y2; z2; x3; y3; z3] -> m' p = m p).
Proof.
  intros one sp x1 y1 z1 x2 y2 z2 x3 y3 z3 m L O1 One XY XZ YZ X12 Y12 Z12. cbv zeta.
  assert (A : forall p q, p <> q -> apart [p] [q]) by (intros p q H a b [<-|[]] [<-|[]]; exact H).
  split; [apply addJM_ok; auto|]. split; [intros; apply addJM_second; auto|]. intros p P I. apply addJM_frame; auto.
Qed.
Print Assumptions C72_addJacobian.
Theorem C72_doubleJacobian : forall one sp x1 y1 z1 x3 y3 z3 m,
  (forall p, In p [one; x1; y1; z1; x3; y3; z3] -> p < sp) -> one <> z1 -> m one = fieldOne ->
  disjoint [x1; x3] [y1; y3] -> disjoint [x1; x3] [z1; z3] -> disjoint [y1; y3] [z1; z3] ->
  let m' := doubleJacobianM one sp x1 y1 z1 x3 y3 z3 m in
  (m' x3, m' y3, m' z3) = doubleJacobian (m x1, m y1, m z1) /\
  (forall p, p < sp -> ~ In p [z1; x3; y3; z3] -> m' p = m p).
Proof.
  intros one sp x1 y1 z1 x3 y3 z3 m L O1 One XY XZ YZ. cbv zeta.
  split; [apply dblM_ok; auto; intros p q [<-|[]] [<-|[]]; exact O1|]. intros p P I. apply dblM_frame; auto.
Qed.
Print Assumptions C72_doubleJacobian.

(** ** C72: the exported operations return what the functions of Koblitz.v return, and
    whatever was in memory before the call (constants, tables, variables of the callers)
    is as it was.  [sp] is where the frame of the call starts. *)
Theorem C72_add : forall one sp x1 y1 x2 y2 m, one < sp -> m one = fieldOne ->
  pureCall sp m (AddM one sp x1 y1 x2 y2 m) (Add x1 y1 x2 y2).
Proof. intros one sp x1 y1 x2 y2 m L. exact (AddM_ok one sp L m x1 y1 x2 y2). Qed.
Print Assumptions C72_add.
Theorem C72_double : forall one sp x y m, one < sp -> m one = fieldOne ->
  pureCall sp m (DoubleM one sp x y m) (Double x y).
Proof. intros one sp x y m L. exact (DoubleM_ok one sp L m x y). Qed.
Print Assumptions C72_double.
Theorem C72_scalar_mult : forall one beta sp x y k m, one < sp -> beta < sp -> m one = fieldOne -> m beta = curveBeta ->
  pureCall sp m (ScalarMultM one beta sp x y k m) (ScalarMult x y k).
Proof. intros one beta sp x y k m L. exact (ScalarMultM_ok one sp L beta m x y k). Qed.
Print Assumptions C72_scalar_mult.
(** ScalarBaseMult and ScalarBaseMultH, on the table in memory *)
Theorem C72_table_mult : forall one sp tab k m, one < sp -> (forall i b c, tab i b c < sp) -> m one = fieldOne -> bytes_ok k ->
  pureCall sp m (scalarTableMultM one sp tab k m) (scalarTableMult (tableOf tab m) k).
Proof. intros one sp tab k m L. exact (scalarTableMultM_ok one sp L tab m k). Qed.
Print Assumptions C72_table_mult.

(** ** C72: with C50 and C51, on points of the curve the code at this level computes the
    group operation *)
Theorem C72_group : forall one beta sp p q k m, one < sp -> beta < sp -> m one = fieldOne -> m beta = curveBeta ->
  is_point p -> is_point q -> bytes_ok k ->
  (exists m', AddM one sp (fst p) (snd p) (fst q) (snd q) m = Ok (padd p q, m') /\ callerUnchanged sp m m') /\
  (exists m', DoubleM one sp (fst p) (snd p) m = Ok (padd p p, m') /\ callerUnchanged sp m m') /\
  (exists m', ScalarMultM one beta sp (fst p) (snd p) k m = Ok (smul (beval k) p, m') /\ callerUnchanged sp m m').
Proof.
  intros one beta sp p q k m L Lb One Be Hp Hq Bk.
  assert (K : forall (c : R ((Z * Z) * mem)) v, pureCall sp m c (Ok v) -> exists m' : mem, c = Ok (v, m') /\ callerUnchanged sp m m').
  { intros c v [A B]. destruct c as [[v' m']|]; [|discriminate A]. cbn in A. injection A as A. subst v'. exists m'. split; [reflexivity|exact (B v m' eq_refl)]. }
  split; [|split]; apply K.
  - pose proof (C72_add one sp (fst p) (snd p) (fst q) (snd q) m L One) as H. rewrite (C50_add p q Hp Hq) in H. exact H.
  - pose proof (C72_double one sp (fst p) (snd p) m L One) as H. rewrite (C50_double p Hp) in H. exact H.
  - pose proof (C72_scalar_mult one beta sp (fst p) (snd p) k m L Lb One Be) as H. rewrite (C51_scalar_mult p k Hp Bk) in H. exact H.
Qed.
Print Assumptions C72_group.

(** a memory with the two constants, and the aliasing of Q += P, P += Q and Q += Q *)
Definition caseMem : mem := fun p => if p =? 1 then curveBeta else fieldOne.
Example C72_case : 0 < 2 /\ 1 < 2 /\ caseMem 0 = fieldOne /\ caseMem 1 = curveBeta /\ n0 curveBeta <> n0 fieldOne /\
  is_point G /\ is_point Htab /\ bytes_ok [2; 255] /\ (forall i b c, (fun (_ : nat) (_ : Z) (_ : nat) => 1) i b c < 2).
Proof.
  split; [reflexivity|]. split; [reflexivity|]. split; [reflexivity|]. split; [reflexivity|]. split; [vm_compute; discriminate|].
  split; [apply is_point_G|]. split; [apply is_point_Htab|]. split; [repeat constructor; discriminate|]. intros. reflexivity.
Qed.
Example C72_alias_case : forall x3 y3 z3, (x3, y3, z3) = (10, 11, 12) \/ (x3, y3, z3) = (13, 14, 15) \/ (x3, y3, z3) = (16, 17, 18) ->
  disjoint [0] [10; 11; 12; 13; 14; 15; x3; y3; z3] /\
  disjoint [10; 13; x3] [11; 14; y3] /\ disjoint [10; 13; x3] [12; 15; z3] /\ disjoint [11; 14; y3] [12; 15; z3].
Proof.
  intros x3 y3 z3 H. destruct H as [H|[H|H]]; injection H as -> -> ->; repeat split; intros p q P Q;
  cbn [In] in P, Q; lia.
Qed.
