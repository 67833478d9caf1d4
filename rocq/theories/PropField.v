(** * C48, C49: the field arithmetic of btcec/field.go, for all words within the magnitudes *)
From Coq Require Import ZArith List Lia.
From Verif Require Import Spec Go Wire Big CodecProofs Field SpecField FieldP FieldProofs.
Import ListNotations.
Open Scope Z_scope.

(** Normalize: the unique reduced form, for every value of magnitude up to 63 *)
Theorem C48_normalize : forall k f, 0 <= k <= 63 -> fits k f ->
  canonical (fNormalize f) /\ val (fNormalize f) = val f mod P.
Proof. exact normalize_ok. Qed.
Print Assumptions C48_normalize.
Theorem C48_canonical_unique : forall f g, canonical f -> canonical g -> val f = val g -> f = g.
Proof. exact canonical_inj. Qed.
Print Assumptions C48_canonical_unique.

Theorem C48_add : forall k1 k2 a b, 0 <= k1 -> 0 <= k2 -> k1 + k2 <= 63 -> fits k1 a -> fits k2 b ->
  fits (k1 + k2) (fAdd a b) /\ val (fAdd a b) = val a + val b.
Proof. exact add_ok. Qed.
Print Assumptions C48_add.
Theorem C48_addInt : forall k a ui, 0 <= k -> 0 <= ui <= 2 ^ 26 -> k <= 62 -> fits k a ->
  fits (k + 1) (fAddInt a ui) /\ val (fAddInt a ui) = val a + ui.
Proof. exact addInt_ok. Qed.
Print Assumptions C48_addInt.
Theorem C48_mulInt : forall k j a, 0 <= k -> 0 <= j < 2 ^ 32 -> k * j <= 63 -> fits k a ->
  fits (k * j) (fMulInt a j) /\ val (fMulInt a j) = val a * j.
Proof. exact mulInt_ok. Qed.
Print Assumptions C48_mulInt.
Theorem C48_negate : forall k m a, 0 <= k <= m -> m <= 62 -> fits k a ->
  fits (m + 1) (fNegate a m) /\ (val (fNegate a m) + val a) mod P = 0.
Proof.
  intros k m a H1 H2 H3. destruct (negate_ok k m a H1 H2 H3) as [F V]. split; [exact F|].
  rewrite V. replace ((m + 1) * P - val a + val a) with ((m + 1) * P) by ring. apply Z_mod_mult.
Qed.
Print Assumptions C48_negate.
(** Mul and Square: magnitudes up to 8 each, as documented (and any whose product is at most 64) *)
Theorem C48_mul : forall k1 k2 a b, 0 <= k1 -> 0 <= k2 -> k1 * k2 <= 64 -> fits k1 a -> fits k2 b ->
  fits 1 (fMul a b) /\ val (fMul a b) mod P = (val a * val b) mod P.
Proof. exact mul_ok. Qed.
Print Assumptions C48_mul.
Theorem C48_square : forall k a, 0 <= k <= 8 -> fits k a ->
  fits 1 (fSquare a) /\ val (fSquare a) mod P = (val a * val a) mod P.
Proof. intros k a Hk. apply square_ok; nia. Qed.
Print Assumptions C48_square.
Theorem C48_inverse : forall k a, 0 <= k <= 8 -> fits k a ->
  fits 1 (fInverse a) /\
  (val a mod P <> 0 -> (val (fInverse a) * val a) mod P = 1) /\
  (val a mod P = 0 -> val (fInverse a) mod P = 0).
Proof.
  intros k a Hk Fa. destruct (inverse_pow k a Hk Fa) as [F V]. split; [exact F|].
  rewrite <- inv_pow in V. split.
  - intros Hn. rewrite Z.mul_mod, V, Zmult_mod_idemp_r by discriminate. apply inv_ok. exact Hn.
  - intros Hz. rewrite V, <- inv_mod, Hz. reflexivity.
Qed.
Print Assumptions C48_inverse.
(** comparisons are meant for normalized values *)
Theorem C48_isZero : forall f, canonical f -> (fIsZero f = true <-> val f = 0).
Proof. exact isZero_val. Qed.
Print Assumptions C48_isZero.
Theorem C48_equals : forall f g, canonical f -> canonical g -> (fEquals f g = true <-> val f = val g).
Proof. exact equals_val. Qed.
Print Assumptions C48_equals.
Theorem C48_isOdd : forall f, canonical f -> fIsOdd f = Z.odd (val f).
Proof. intros f _. apply isOdd_val. Qed.
Print Assumptions C48_isOdd.

(** a value of magnitude 8 with every word at its maximum *)
Definition big8 : fieldVal :=
  let w := 8 * (2 ^ 26 + 2 ^ 19) in FV w w w w w w w w w (8 * 2 ^ 22).
Example C48_big8 : fits 8 big8 /\ fits 1 (fSetInt 7) /\
  val (fNormalize (fMul big8 big8)) = (val big8 * val big8) mod P /\
  val (fNormalize big8) = val big8 mod P /\ fEquals (fNormalize big8) big8 = false /\
  fEquals (fMul big8 big8) (fSquare big8) = true /\
  val big8 mod P =? 0 = false /\
  fIsZero (fNormalize (fAdd (fNegate big8 8) big8)) = true /\ fIsZero (fAdd (fNegate big8 8) big8) = false.
Proof.
  split. { unfold fits, big8. cbn [n0 n1 n2 n3 n4 n5 n6 n7 n8 n9]. lia. }
  split. { unfold fits. cbn [n0 n1 n2 n3 n4 n5 n6 n7 n8 n9 fSetInt]. change (u32 7) with 7. lia. }
  repeat (apply conj; [vm_compute; reflexivity|]). vm_compute; reflexivity.
Qed.

(** ** C49 *)
(** SetBytes then Normalize then Bytes: reduction modulo P *)
Theorem C49_setBytes : forall bs, length bs = 32%nat -> bytes_ok bs ->
  val (fSetBytes bs) = beval bs /\ fBytes (fNormalize (fSetBytes bs)) = be_bytes 32 (beval bs mod P).
Proof. exact setBytes_bytes. Qed.
Print Assumptions C49_setBytes.
Theorem C49_bytes : forall f, canonical f ->
  length (fBytes f) = 32%nat /\ bytes_ok (fBytes f) /\ beval (fBytes f) = val f /\ fSetBytes (fBytes f) = f.
Proof. exact bytes_setBytes. Qed.
Print Assumptions C49_bytes.
(** SetByteSlice: up to 32 bytes; more crash *)
Theorem C49_setByteSlice : forall bs, bytes_ok bs ->
  (blen bs <= 32 -> exists f, fSetByteSlice bs = Ok f /\ val f = beval bs /\ fits 1 f) /\
  (32 < blen bs -> fSetByteSlice bs = Panic).
Proof. exact setByteSlice_ok. Qed.
Print Assumptions C49_setByteSlice.
Example C49_nonvacuous :
  fBytes (fNormalize (fSetBytes (repeat 255 32))) = repeat 0 27 ++ [1; 0; 0; 3; 208] /\
  fBytes (fSetBytes (repeat 255 32)) = repeat 255 32 /\
  fSetByteSlice (repeat 0 33) = Panic /\ fSetByteSlice [1; 2] = Ok (fSetInt 258).
Proof. repeat (apply conj; [vm_compute; reflexivity|]). vm_compute; reflexivity. Qed.
