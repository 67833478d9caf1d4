(** * Properties of the wire codec (C01-C05, C58) *)
From Coq Require Import ZArith List.
From Verif Require Import Go Wire SpecWire WireProofs.
Import ListNotations.
Open Scope Z_scope.

(** C01: what WriteVarInt writes for any 64-bit value is the Bitcoin varint of
    that value, and ReadVarInt reads it back, leaving what follows. *)
Theorem C01_varint_roundtrip : forall v before after, uint64 v ->
  exists w', WriteVarInt {| wout := before; wroom := None |} v = (w', false) /\
             wout w' = before ++ varint v /\
             ReadVarInt (varint v ++ after) = ROk v after.
Proof.
  intros v before after Hv. eexists. split; [exact (WriteVarInt_buf {| wout := before; wroom := None |} v eq_refl Hv)|].
  split; [reflexivity|exact (ReadVarInt_varint v after Hv)].
Qed.
Print Assumptions C01_varint_roundtrip.
Example C01_nonvacuous : uint64 (2^64 - 1) /\ ReadVarInt (varint (2^64 - 1) ++ [7]) = ROk (2^64 - 1) [7].
Proof. split; [split; [discriminate|reflexivity]|reflexivity]. Qed.

(** C02: every byte string ReadVarInt accepts begins with the one shortest
    encoding of the value it returns; so encodings are unique and prefix-free. *)
Theorem C02_varint_canonical : forall s v rest, bytes_ok s ->
  ReadVarInt s = ROk v rest -> uint64 v /\ s = varint v ++ rest.
Proof. exact ReadVarInt_inv. Qed.
Print Assumptions C02_varint_canonical.
Theorem C02_varint_truncated : forall v p, uint64 v -> prefix p (varint v) -> p <> varint v ->
  exists e rest, ReadVarInt p = RErr e rest.
Proof. exact ReadVarInt_trunc. Qed.
Print Assumptions C02_varint_truncated.
Theorem C02_varint_never_panics : forall s, ReadVarInt s <> RPanic.
Proof. exact ReadVarInt_no_panic. Qed.
Print Assumptions C02_varint_never_panics.
Example C02_nonvacuous : bytes_ok [0xfd; 0xfd; 0] /\ ReadVarInt [0xfd; 0xfd; 0] = ROk 253 [] /\
  ReadVarInt [0xfd; 0xfc; 0] = RErr ENonCanonical [].
Proof. split; [repeat constructor; discriminate|split; reflexivity]. Qed.

(** C03: VarIntSerializeSize is the number of bytes WriteVarInt writes. *)
Theorem C03_serialize_size : forall v, uint64 v ->
  exists w', WriteVarInt newBuffer v = (w', false) /\ blen (wout w') = VarIntSerializeSize v.
Proof.
  intros v Hv. eexists. split; [exact (WriteVarInt_buf newBuffer v eq_refl Hv)|exact (varint_len v Hv)].
Qed.
Print Assumptions C03_serialize_size.
Example C03_nonvacuous : uint64 65536 /\ VarIntSerializeSize 65536 = 5.
Proof. split; [split; [discriminate|reflexivity]|reflexivity]. Qed.

(** C04: byte strings round trip (up to the largest slice Go can allocate), and a
    successful read consumed exactly the encoding of what it returned. *)
Theorem C04_varbytes_roundtrip : forall m bs before after, blen bs <= maxAlloc ->
  exists w', WriteVarBytes {| wout := before; wroom := None |} bs = (w', false) /\
             wout w' = before ++ varbytes bs /\
             ReadVarBytes m (varbytes bs ++ after) = ROk bs after.
Proof.
  intros m bs before after Hb. eexists. split.
  - exact (WriteVarBytes_buf {| wout := before; wroom := None |} bs eq_refl (Z.le_lt_trans _ _ (2^64) Hb eq_refl)).
  - split; [reflexivity|exact (ReadVarBytes_varbytes m bs after Hb)].
Qed.
Print Assumptions C04_varbytes_roundtrip.
Theorem C04_varbytes_canonical : forall m s bs rest, bytes_ok s ->
  ReadVarBytes m s = ROk bs rest -> s = varbytes bs ++ rest /\ blen bs <= maxAlloc.
Proof. exact ReadVarBytes_inv. Qed.
Print Assumptions C04_varbytes_canonical.
Theorem C04_varbytes_truncated : forall m bs p, bytes_ok bs -> blen bs <= maxAlloc -> prefix p (varbytes bs) -> p <> varbytes bs ->
  exists e rest, ReadVarBytes m p = RErr e rest.
Proof.
  intros m bs p Hb L [t Ht] NE. assert (U : uint64 (blen bs)).
  { split; [apply Zle_0_nat|]. exact (Z.le_lt_trans _ _ (2^64) L eq_refl). }
  assert (Hp : bytes_ok p).
  { assert (H : bytes_ok (varbytes bs)) by (apply bytes_ok_app; split; [exact (varint_ok _ U)|exact Hb]).
    rewrite Ht in H. apply bytes_ok_app in H. tauto. }
  destruct (ReadVarBytes m p) as [b r|e r|] eqn:E; [exfalso| |exfalso].
  - apply ReadVarBytes_inv in E; [|exact Hp]. destruct E as [E Lb].
    pose proof (ReadVarBytes_varbytes m bs [] L) as A. rewrite app_nil_r, Ht, E, <- app_assoc, ReadVarBytes_varbytes in A by exact Lb.
    injection A as -> A. apply app_eq_nil in A. destruct A as [-> ->]. apply NE. rewrite E, app_nil_r. reflexivity.
  - exists e, r. reflexivity.
  - apply ReadVarBytes_panics in E; [|exact Hp]. destruct E as (v & r & E & B & V).
    rewrite E in Ht. unfold varbytes in Ht. rewrite <- app_assoc in Ht.
    pose proof (ReadVarInt_varint (blen bs) bs U) as A. unfold blen in A at 1. rewrite Ht in A.
    rewrite ReadVarInt_varint in A by (split; [apply Z.lt_le_incl; exact (Z.le_lt_trans 0 maxAlloc v ltac:(discriminate) B)|exact V]).
    injection A as A _. rewrite A in B. exact (Z.lt_irrefl _ (Z.lt_le_trans _ _ _ B L)).
Qed.
Print Assumptions C04_varbytes_truncated.
Example C04_nonvacuous : ReadVarBytes 32 ([3; 1; 2; 3] ++ [9]) = ROk [1; 2; 3] [9].
Proof. reflexivity. Qed.

(** C05: the documented limit does not hold.  Whatever the limit, a string one byte
    longer is accepted; and a nine-byte input makes the call panic. *)
Theorem C05_limit_refuted : forall maxAllowed, 0 <= maxAllowed < 2^32 ->
  exists s bs, ReadVarBytes maxAllowed s = ROk bs [] /\ blen bs = maxAllowed + 1.
Proof.
  intros m Hm. exists (varbytes (repeat 0 (Z.to_nat (m + 1)))), (repeat 0 (Z.to_nat (m + 1))).
  assert (L : blen (repeat 0 (Z.to_nat (m + 1))) = m + 1)
    by (unfold blen; rewrite repeat_length; apply Z2Nat.id; destruct Hm; apply Z.le_le_succ_r; assumption).
  split; [|exact L]. rewrite <- (app_nil_r (varbytes _)). apply ReadVarBytes_varbytes. rewrite L.
  apply Z.le_trans with (2^32); [apply Zlt_le_succ; apply Hm|discriminate].
Qed.
Print Assumptions C05_limit_refuted.
Theorem C05_panic_refuted : forall maxAllowed,
  exists s, bytes_ok s /\ blen s = 9 /\ ReadVarBytes maxAllowed s = RPanic.
Proof.
  intros m. exists [0xff; 0xff; 0xff; 0xff; 0xff; 0xff; 0xff; 0xff; 0xff].
  split; [repeat constructor; discriminate|split; reflexivity].
Qed.
Print Assumptions C05_panic_refuted.
(** The inputs that make it panic are exactly those that announce more than the 2^48
    bytes Go can allocate; up to that length the buffer is allocated before any byte of it
    is read. *)
Theorem C05_panic_exact : forall maxAllowed s, bytes_ok s ->
  (ReadVarBytes maxAllowed s = RPanic <-> exists v rest, s = varint v ++ rest /\ 2^48 < v < 2^64).
Proof. exact ReadVarBytes_panics. Qed.
Print Assumptions C05_panic_exact.

(** C58: with a writer that may fail at any byte, WriteVarInt and WriteVarBytes
    report success exactly when the writer had room for the whole encoding and then
    wrote exactly it; otherwise they report an error having written an initial part
    of it. *)
Theorem C58_write_varint_faulty : forall w v, wroom_ok w -> uint64 v ->
  let '(w', err) := WriteVarInt w v in
  (err = false <-> room_for w (blen (varint v))) /\
  exists p, wout w' = wout w ++ p /\ prefix p (varint v) /\ (err = false -> p = varint v).
Proof.
  intros w v Hw Hv. pose proof (WriteVarInt_spec w v Hw Hv) as S.
  destruct (WriteVarInt w v) as [w' [|]].
  - destruct S as [_ [N [p [Hp E]]]]. split; [split; [discriminate|intros C; destruct (N C)]|].
    exists p. split; [exact E|split; [exact Hp|discriminate]].
  - destruct S as [_ [N [E _]]]. split; [split; auto|]. exists (varint v).
    split; [exact E|split; [exists []; symmetry; apply app_nil_r|reflexivity]].
Qed.
Print Assumptions C58_write_varint_faulty.
Theorem C58_write_varbytes_faulty : forall w bs, wroom_ok w -> blen bs < 2^64 ->
  let '(w', err) := WriteVarBytes w bs in
  (err = false <-> room_for w (blen (varbytes bs))) /\
  exists p, wout w' = wout w ++ p /\ prefix p (varbytes bs) /\ (err = false -> p = varbytes bs).
Proof.
  intros w bs Hw Hb. pose proof (WriteVarBytes_spec w bs Hw Hb) as S.
  destruct (WriteVarBytes w bs) as [w' [|]].
  - destruct S as [N [p [Hp E]]]. split; [split; [discriminate|intros C; destruct (N C)]|].
    exists p. split; [exact E|split; [exact Hp|discriminate]].
  - destruct S as [N E]. split; [split; auto|]. exists (varbytes bs).
    split; [exact E|split; [exists []; symmetry; apply app_nil_r|reflexivity]].
Qed.
Print Assumptions C58_write_varbytes_faulty.
Example C58_nonvacuous : WriteVarInt {| wout := []; wroom := Some 2 |} 300 = ({| wout := [253; 44]; wroom := Some 0 |}, true).
Proof. reflexivity. Qed.
