(** * Property C78: which words a method touches

    field.go says of Normalize, IsZero, Equals and others that they run in constant time
    (l.306-309, 432, 454, 864, 1097).  Here: the sequence of the words they load and store is
    the same whatever the words hold.  Multiplication by a scalar is not like that: from the
    words it touches an observer who knows the point gets the scalar. *)
From Coq Require Import ZArith List Bool Lia.
From Verif Require Import Go Wire Big Field Koblitz KoblitzMem SpecMem KoblitzConc SpecConc FieldMem KoblitzWord SpecWord SpecTrace TraceProofs TraceProofs4 KobMul PropWord.
From Verif Require Spec.
Import ListNotations.
Open Scope Z_scope.

(** every method of fieldVal, for all pointers, equal or not *)
Theorem C78_field_oblivious : forall f a b n k bs sp,
  oblivious (ZeroW f) /\ oblivious (SetW f a) /\ oblivious (SetIntW f n) /\ oblivious (SetBytesW f bs) /\
  oblivious (NormalizeW f) /\ oblivious (BytesW f) /\ oblivious (IsZeroW f) /\ oblivious (IsOddW f) /\ oblivious (EqualsW f a) /\
  oblivious (NegateValW f a k) /\ oblivious (AddIntW f n) /\ oblivious (AddW f a) /\ oblivious (Add2W f a b) /\ oblivious (MulIntW f n) /\
  oblivious (Mul2W f a b) /\ oblivious (SquareValW f a) /\ oblivious (InverseW sp f).
Proof.
  intros f a b n k bs sp.
  split; [exact (tr_obl _ _ (tr_zero f))|]. split; [exact (tr_obl _ _ (tr_set f a))|]. split; [exact (tr_obl _ _ (tr_setInt f n))|].
  split; [exact (tr_obl _ _ (tr_setBytes f bs))|]. split; [exact (tr_obl _ _ (tr_normalize f))|]. split; [exact (tr_obl _ _ (tr_bytes f))|].
  split; [exact (tr_obl _ _ (tr_isZero f))|]. split; [exact (tr_obl _ _ (tr_isOdd f))|]. split; [exact (tr_obl _ _ (tr_equals f a))|].
  split; [exact (tr_obl _ _ (tr_negate f a k))|]. split; [exact (tr_obl _ _ (tr_addInt f n))|]. split; [exact (tr_obl _ _ (tr_add f a))|].
  split; [exact (tr_obl _ _ (tr_add2 f a b))|]. split; [exact (tr_obl _ _ (tr_mulInt f n))|]. split; [exact (known_obl _ (known_mul f a b))|].
  split; [exact (known_obl _ (known_square f a))|]. exact (known_obl _ (known_inverse sp f)).
Qed.
Print Assumptions C78_field_oblivious.
(** nor do the numbers that go in matter: bytes, small integers *)
Theorem C78_arguments : forall f n n' k k' a bs bs' m m',
  traceW (SetIntW f n) m = traceW (SetIntW f n') m' /\ traceW (AddIntW f n) m = traceW (AddIntW f n') m' /\
  traceW (MulIntW f n) m = traceW (MulIntW f n') m' /\ traceW (NegateValW f a k) m = traceW (NegateValW f a k') m' /\
  (length bs = length bs' -> traceW (SetByteSliceW f bs) m = traceW (SetByteSliceW f bs') m').
Proof.
  intros f n n' k k' a bs bs' m m'. split; [rewrite !tr_setInt; reflexivity|]. split; [rewrite !tr_addInt; reflexivity|].
  split; [rewrite !tr_mulInt; reflexivity|]. split; [rewrite !tr_negate; reflexivity|].
  intros L. unfold SetByteSliceW, blen. rewrite L. destruct (_ <? _); [reflexivity|]. rewrite !trace_seq, !tr_setBytes. reflexivity.
Qed.
Print Assumptions C78_arguments.
(** checking that a point is on the curve touches the same words for every point that fits *)
Theorem C78_on_curve : forall sp x y x' y' m m', 0 <= x < 2 ^ 256 -> 0 <= y < 2 ^ 256 -> 0 <= x' < 2 ^ 256 -> 0 <= y' < 2 ^ 256 ->
  traceW (IsOnCurveW sp x y) m = traceW (IsOnCurveW sp x' y') m'.
Proof. exact on_curve_trace. Qed.
Print Assumptions C78_on_curve.
(** the last step of every curve operation, back to affine coordinates *)
Theorem C78_affine : forall sp x y z, oblivious (toAffineW sp x y z).
Proof. intros sp x y z. exact (known_obl _ (known_affine sp x y z)). Qed.
Print Assumptions C78_affine.

(** ScalarMult: equal sequences mean equal scalars.  So "the words touched do not depend on
    the scalar" is false for any two scalars that differ modulo the order. *)
Theorem C78_scalar_mult_refuted : forall g base stack m i x y k k', layout g base stack m ->
  0 <= x < 2 ^ 256 -> 0 <= y < 2 ^ 256 -> bytes_ok k -> bytes_ok k' -> beval k mod Spec.N <> beval k' mod Spec.N ->
  traceW (ScalarMultW (gOne g) (gBeta g) (stack i) x y k) m <> traceW (ScalarMultW (gOne g) (gBeta g) (stack i) x y k') m.
Proof.
  intros g base stack m i x y k k' [O _ _ S _] X Y B B' N E. apply N. destruct O as [O1 O2]. pose proof (S i) as Si.
  apply (mult_leak (gOne g) (gBeta g) (stack i) (Z.lt_le_trans _ _ _ O1 Si) m O2 x y X Y k k' B B' E).
Qed.
Print Assumptions C78_scalar_mult_refuted.
(** ScalarBaseMult and ScalarBaseMultH: the entries of the table that are read are the bytes
    of the scalar.  The entries of a table are different variables. *)
Definition entries_apart (tab : nat -> Z -> nat -> ptr) : Prop :=
  forall i b i' b', (i < 32)%nat -> (i' < 32)%nat -> 0 <= b < 256 -> 0 <= b' < 256 -> tab i b 0%nat = tab i' b' 0%nat -> i = i' /\ b = b'.
Theorem C78_base_mult_refuted : forall g base stack m i k k', layout g base stack m -> entries_apart (gTab g) -> entries_apart (gTabH g) ->
  bytes_ok k -> bytes_ok k' -> beval k mod Spec.N <> beval k' mod Spec.N ->
  traceW (scalarTableMultW (gOne g) (stack i) (gTab g) k) m <> traceW (scalarTableMultW (gOne g) (stack i) (gTab g) k') m /\
  traceW (scalarTableMultW (gOne g) (stack i) (gTabH g) k) m <> traceW (scalarTableMultW (gOne g) (stack i) (gTabH g) k') m.
Proof.
  intros g base stack m i k k' [_ _ T S _] A AH B B' N.
  assert (F : forall tab, entries_apart tab -> (forall i b, tab i b 0%nat < base) ->
    traceW (scalarTableMultW (gOne g) (stack i) tab k) m <> traceW (scalarTableMultW (gOne g) (stack i) tab k') m).
  { intros tab I J E. apply N. destruct (moduloReduce_ok k B) as (<- & _). destruct (moduloReduce_ok k' B') as (<- & _).
    rewrite (table_leak (gOne g) (stack i) tab I) with (k' := k') (m := m); [reflexivity| |exact B|exact B'|exact E].
    intros j b F. specialize (J j b). specialize (S i). rewrite F in J. unfold locals in J. cbn [idx] in J. lia. }
  split; apply F; try assumption; intros j b; apply T.
Qed.
Print Assumptions C78_base_mult_refuted.

(** the layout of C77_case, scalars 1 and 2; the two multiplications part after the same beginning *)
Example C78_case : layout wordGlobals (2 ^ 20) (fun i => 2 ^ 20 + 256 * Z.of_nat i) (fun p => if p =? 1 then curveBeta else fieldOne) /\
  entries_apart (gTab wordGlobals) /\ entries_apart (gTabH wordGlobals) /\ beval [1] mod Spec.N <> beval [2] mod Spec.N /\
  traceW (EqualsW 3 4) (fun p => fSetInt p) = traceW (EqualsW 3 4) (fun _ => fieldOne) /\ length (traceW (EqualsW 3 4) (fun p => fSetInt p)) = 20%nat.
Proof.
  split; [exact (proj1 C77_case)|]. split; [|split; [|split; [discriminate|vm_compute; split; reflexivity]]]; intros i b i' b' I I' B B'; cbn [gTab gTabH wordGlobals];
    rewrite !Nat.min_l, !Z.min_r by lia; intros E; split; lia.
Qed.
