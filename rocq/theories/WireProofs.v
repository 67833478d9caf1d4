(** * Proofs about the wire codec *)
From Coq Require Import ZArith List Bool Lia ZifyBool ZifyNat.
From Verif Require Import Go Wire SpecWire.
Import ListNotations.
Open Scope Z_scope.
Ltac Zify.zify_post_hook ::= Z.div_mod_to_equations.

Lemma le16_spec v : le16 v = le_bytes 2 v.
Proof. reflexivity. Qed.
Lemma le32_spec v : le32 v = le_bytes 4 v.
Proof. unfold le32. cbn [le_bytes]. rewrite !Z.div_div by lia. reflexivity. Qed.
Lemma le64_spec v : le64 v = le_bytes 8 v.
Proof. unfold le64. cbn [le_bytes]. rewrite !Z.div_div by lia. reflexivity. Qed.

Lemma le_bytes_len n v : length (le_bytes n v) = n.
Proof. revert v; induction n; intros; cbn; [reflexivity|f_equal; apply IHn]. Qed.
Lemma le_bytes_ok n v : bytes_ok (le_bytes n v).
Proof. revert v; induction n; intros; cbn [le_bytes]; constructor; [unfold is_byte; lia|apply IHn]. Qed.
Lemma leval_le_bytes n v : 0 <= v -> leval (le_bytes n v) = v mod 256 ^ Z.of_nat n.
Proof.
  revert v; induction n as [|n IH]; intros v Hv; cbn [le_bytes leval].
  - rewrite Z.mod_1_r. reflexivity.
  - rewrite IH by lia. rewrite Nat2Z.inj_succ, Z.pow_succ_r by lia.
    rewrite Z.rem_mul_r by lia. reflexivity.
Qed.
Lemma le_bytes_leval bs : bytes_ok bs -> le_bytes (length bs) (leval bs) = bs.
Proof.
  induction 1 as [|b t Hb Ht IH]; cbn [length le_bytes leval]; [reflexivity|]. unfold is_byte in Hb.
  f_equal; [lia|]. replace ((b + 256 * leval t) / 256) with (leval t) by lia. exact IH.
Qed.
Lemma leval_range bs : bytes_ok bs -> 0 <= leval bs < 256 ^ blen bs.
Proof.
  unfold blen. induction 1 as [|b t Hb Ht IH]; cbn [length leval]; [lia|]. unfold is_byte in Hb.
  rewrite Nat2Z.inj_succ, Z.pow_succ_r by lia. nia.
Qed.

Lemma readFull_app n bs s : blen bs = n -> readFull n (bs ++ s) = ROk bs s.
Proof.
  intros <-. unfold readFull, blen. rewrite app_length, Nat2Z.inj_add.
  destruct (Z.leb_spec (Z.of_nat (length bs)) (Z.of_nat (length bs) + Z.of_nat (length s))); [|lia].
  rewrite Nat2Z.id, firstn_app, skipn_app, firstn_all, skipn_all, Nat.sub_diag. cbn.
  rewrite app_nil_r. reflexivity.
Qed.
Lemma readFull_inv n s b r : 0 <= n -> readFull n s = ROk b r -> s = b ++ r /\ blen b = n.
Proof.
  unfold readFull. intros Hn. destruct (Z.leb_spec n (blen s)) as [L|L]; [|destruct s; discriminate].
  intros E. injection E as <- <-. rewrite firstn_skipn. split; [reflexivity|].
  unfold blen in *. rewrite firstn_length. lia.
Qed.
Lemma bytes_ok_app a b : bytes_ok (a ++ b) <-> bytes_ok a /\ bytes_ok b.
Proof. apply Forall_app. Qed.

(** writers that never fail *)
Lemma wwrite_buf w bs : wroom w = None -> wwrite w bs = ({| wout := wout w ++ bs; wroom := None |}, false).
Proof. intros H. unfold wwrite. rewrite H. reflexivity. Qed.

Lemma varint_eq v : uint64 v ->
  varint v = if v <? 253 then [v mod 2^8] else if v <=? 65535 then 0xfd :: le16 (v mod 2^16)
             else if v <=? 4294967295 then 0xfe :: le32 (v mod 2^32) else 0xff :: le64 v.
Proof.
  unfold uint64. intros H. rewrite le16_spec, le32_spec, le64_spec. unfold varint.
  destruct (Z.ltb_spec v 253); [f_equal; rewrite Z.mod_small; lia|].
  destruct (Z.ltb_spec v (2^16)), (Z.leb_spec v 65535); try lia; [f_equal; rewrite Z.mod_small by lia; reflexivity|].
  destruct (Z.ltb_spec v (2^32)), (Z.leb_spec v 4294967295); try lia; [f_equal; rewrite Z.mod_small by lia; reflexivity|].
  reflexivity.
Qed.

Lemma WriteVarInt_buf w v : wroom w = None -> uint64 v ->
  WriteVarInt w v = ({| wout := wout w ++ varint v; wroom := None |}, false).
Proof.
  intros Hw Hv. rewrite varint_eq by exact Hv. unfold WriteVarInt, PutUint8, PutUint16, PutUint32, PutUint64.
  change (v <? 0xfd) with (v <? 253).
  destruct (v <? 253); [apply wwrite_buf; exact Hw|].
  destruct (v <=? 65535); [rewrite wwrite_buf by exact Hw; cbn [wwrite wroom wout]; rewrite <- app_assoc; reflexivity|].
  destruct (v <=? 4294967295); rewrite wwrite_buf by exact Hw; cbn [wwrite wroom wout]; rewrite <- app_assoc; reflexivity.
Qed.

Lemma Uint8_cons b s : Uint8 (b :: s) = ROk b s.
Proof. unfold Uint8. change (b :: s) with ([b] ++ s). rewrite readFull_app by reflexivity. reflexivity. Qed.
Lemma Uint16_le v s : 0 <= v < 2^16 -> Uint16 (le_bytes 2 v ++ s) = ROk v s.
Proof. intros H. unfold Uint16. rewrite readFull_app by reflexivity. cbn [rbind]. rewrite leval_le_bytes by lia. rewrite Z.mod_small by (change (256 ^ Z.of_nat 2) with (2^16); lia). reflexivity. Qed.
Lemma Uint32_le v s : 0 <= v < 2^32 -> Uint32 (le_bytes 4 v ++ s) = ROk v s.
Proof. intros H. unfold Uint32. rewrite readFull_app by reflexivity. cbn [rbind]. rewrite leval_le_bytes by lia. rewrite Z.mod_small by (change (256 ^ Z.of_nat 4) with (2^32); lia). reflexivity. Qed.
Lemma Uint64_le v s : 0 <= v < 2^64 -> Uint64 (le_bytes 8 v ++ s) = ROk v s.
Proof. intros H. unfold Uint64. rewrite readFull_app by reflexivity. cbn [rbind]. rewrite leval_le_bytes by lia. rewrite Z.mod_small by (change (256 ^ Z.of_nat 8) with (2^64); lia). reflexivity. Qed.

Lemma ReadVarInt_varint v s : uint64 v -> ReadVarInt (varint v ++ s) = ROk v s.
Proof.
  unfold uint64. intros H. unfold varint, ReadVarInt.
  destruct (Z.ltb_spec v 253).
  { change ([v] ++ s) with (v :: s). rewrite Uint8_cons. cbn [rbind].
    destruct (Z.eqb_spec v 0xff); [lia|]. destruct (Z.eqb_spec v 0xfe); [lia|]. destruct (Z.eqb_spec v 0xfd); [lia|]. reflexivity. }
  destruct (Z.ltb_spec v (2^16)).
  { cbn [app]. rewrite Uint8_cons. cbn [rbind]. change (253 =? 0xff) with false. change (253 =? 0xfe) with false. change (253 =? 0xfd) with true. cbn iota.
    change (v mod 256 :: v / 256 mod 256 :: s) with (le_bytes 2 v ++ s). rewrite Uint16_le by lia. cbn [rbind].
    destruct (Z.ltb_spec v 0xfd); [lia|reflexivity]. }
  destruct (Z.ltb_spec v (2^32)).
  { change ((254 :: le_bytes 4 v) ++ s) with (254 :: (le_bytes 4 v ++ s)). rewrite Uint8_cons. cbn [rbind]. change (254 =? 0xff) with false. change (254 =? 0xfe) with true. cbn iota.
    rewrite Uint32_le by lia. cbn [rbind].
    destruct (Z.ltb_spec v 0x10000); [lia|reflexivity]. }
  change ((255 :: le_bytes 8 v) ++ s) with (255 :: (le_bytes 8 v ++ s)). rewrite Uint8_cons. cbn [rbind]. change (255 =? 0xff) with true. cbn iota.
  rewrite Uint64_le by lia. cbn [rbind]. destruct (Z.ltb_spec v 0x100000000); [lia|reflexivity].
Qed.

Lemma Uint8_inv s v r : Uint8 s = ROk v r -> s = v :: r.
Proof.
  unfold Uint8. destruct (readFull 1 s) eqn:E; try discriminate. cbn [rbind]. intros X; injection X as <- <-.
  apply readFull_inv in E; [|lia]. destruct E as [-> L]. destruct a as [|x [|]]; unfold blen in L; cbn in L; try lia. reflexivity.
Qed.
Lemma Uint_inv (n : nat) s v r : bytes_ok s ->
  rbind (readFull (Z.of_nat n) s) (fun b s' => ROk (leval b) s') = ROk v r ->
  s = le_bytes n v ++ r /\ 0 <= v < 256 ^ Z.of_nat n.
Proof.
  intros Hs. destruct (readFull (Z.of_nat n) s) eqn:E; try discriminate. cbn [rbind]. intros X; injection X as <- <-.
  apply readFull_inv in E; [|lia]. destruct E as [-> L]. apply bytes_ok_app in Hs. destruct Hs as [Ha _].
  assert (length a = n) by (unfold blen in L; lia). subst n. rewrite le_bytes_leval by exact Ha. split; [reflexivity|].
  apply leval_range. exact Ha.
Qed.

Lemma ReadVarInt_inv s v r : bytes_ok s -> ReadVarInt s = ROk v r -> uint64 v /\ s = varint v ++ r.
Proof.
  intros Hs. unfold ReadVarInt. destruct (Uint8 s) as [d s1| |] eqn:E8; try discriminate. cbn [rbind].
  apply Uint8_inv in E8. subst s. inversion Hs as [|? ? Hd Hs1]; subst. unfold is_byte in Hd. unfold uint64.
  destruct (Z.eqb_spec d 0xff) as [->|N1].
  { destruct (Uint64 s1) as [rv s2| |] eqn:E; try discriminate. cbn [rbind].
    apply (Uint_inv 8) in E; [|exact Hs1]. destruct E as [-> Hr]. change (256 ^ Z.of_nat 8) with (2^64) in Hr.
    destruct (Z.ltb_spec rv 0x100000000); [discriminate|]. intros X; injection X as <- <-. split; [lia|].
    unfold varint. destruct (Z.ltb_spec rv 253); [lia|]. destruct (Z.ltb_spec rv (2^16)); [lia|]. destruct (Z.ltb_spec rv (2^32)); [lia|]. reflexivity. }
  destruct (Z.eqb_spec d 0xfe) as [->|N2].
  { destruct (Uint32 s1) as [rv s2| |] eqn:E; try discriminate. cbn [rbind].
    apply (Uint_inv 4) in E; [|exact Hs1]. destruct E as [-> Hr]. change (256 ^ Z.of_nat 4) with (2^32) in Hr.
    destruct (Z.ltb_spec rv 0x10000); [discriminate|]. intros X; injection X as <- <-. split; [lia|].
    unfold varint. destruct (Z.ltb_spec rv 253); [lia|]. destruct (Z.ltb_spec rv (2^16)); [lia|]. destruct (Z.ltb_spec rv (2^32)); [|lia]. reflexivity. }
  destruct (Z.eqb_spec d 0xfd) as [->|N3].
  { destruct (Uint16 s1) as [rv s2| |] eqn:E; try discriminate. cbn [rbind].
    apply (Uint_inv 2) in E; [|exact Hs1]. destruct E as [-> Hr]. change (256 ^ Z.of_nat 2) with (2^16) in Hr.
    destruct (Z.ltb_spec rv 0xfd); [discriminate|]. intros X; injection X as <- <-. split; [lia|].
    unfold varint. destruct (Z.ltb_spec rv 253); [lia|]. destruct (Z.ltb_spec rv (2^16)); [|lia]. reflexivity. }
  intros X; injection X as <- <-. split; [lia|]. unfold varint. destruct (Z.ltb_spec d 253); [reflexivity|lia].
Qed.

Lemma ReadVarInt_no_panic s : ReadVarInt s <> RPanic.
Proof.
  unfold ReadVarInt, Uint8, Uint16, Uint32, Uint64, readFull.
  repeat match goal with
  | |- context[rbind (if ?c then _ else _) _] => destruct c; cbn [rbind]
  | |- context[match ?s with [] => _ | _ => _ end] => destruct s; cbn [rbind]
  | |- context[if ?c then _ else _] => destruct c end; discriminate.
Qed.

Lemma varint_len v : uint64 v -> blen (varint v) = VarIntSerializeSize v.
Proof.
  unfold uint64. intros H. unfold varint, VarIntSerializeSize.
  destruct (Z.ltb_spec v 253), (Z.ltb_spec v 0xfd); try lia; [reflexivity|].
  destruct (Z.ltb_spec v (2^16)), (Z.leb_spec v 65535); try lia; [reflexivity|].
  destruct (Z.ltb_spec v (2^32)), (Z.leb_spec v 4294967295); try lia; reflexivity.
Qed.
Lemma varint_ok v : uint64 v -> bytes_ok (varint v).
Proof.
  unfold uint64. intros H. unfold varint. destruct (Z.ltb_spec v 253).
  { constructor; [unfold is_byte; lia|constructor]. }
  destruct (v <? 2^16); [constructor; [unfold is_byte; lia|apply le_bytes_ok]|].
  destruct (v <? 2^32); constructor; solve [unfold is_byte; lia|apply le_bytes_ok].
Qed.

Lemma WriteVarBytes_buf w bs : wroom w = None -> blen bs < 2^64 ->
  WriteVarBytes w bs = ({| wout := wout w ++ varbytes bs; wroom := None |}, false).
Proof.
  intros Hw Hb. unfold WriteVarBytes. rewrite WriteVarInt_buf; [|exact Hw|unfold uint64, blen in *; lia].
  cbn [wwrite wroom wout]. rewrite <- app_assoc. reflexivity.
Qed.
Lemma ReadVarBytes_varbytes m bs s : blen bs <= maxAlloc -> ReadVarBytes m (varbytes bs ++ s) = ROk bs s.
Proof.
  intros Hb. unfold ReadVarBytes, varbytes. rewrite <- app_assoc. rewrite ReadVarInt_varint.
  2:{ unfold uint64. unfold maxAlloc, blen in Hb. lia. }
  cbn [rbind]. change (Z.of_nat (length bs)) with (blen bs).
  destruct (Z.ltb_spec maxAlloc (blen bs)); [lia|]. apply readFull_app. reflexivity.
Qed.
Lemma ReadVarBytes_inv m s b r : bytes_ok s -> ReadVarBytes m s = ROk b r -> s = varbytes b ++ r /\ blen b <= maxAlloc.
Proof.
  intros Hs. unfold ReadVarBytes. destruct (ReadVarInt s) as [c s1| |] eqn:E; try discriminate. cbn [rbind].
  destruct (Z.ltb_spec maxAlloc c); [discriminate|]. intros Hr. apply ReadVarInt_inv in E; [|exact Hs].
  destruct E as [Hc ->]. unfold uint64 in Hc. apply readFull_inv in Hr; [|lia]. destruct Hr as [-> L].
  unfold varbytes. rewrite <- app_assoc. change (Z.of_nat (length b)) with (blen b). rewrite L. split; [reflexivity|lia].
Qed.
Lemma ReadVarBytes_panics m s : bytes_ok s ->
  (ReadVarBytes m s = RPanic <-> exists v rest, s = varint v ++ rest /\ maxAlloc < v < 2^64).
Proof.
  intros Hs. unfold ReadVarBytes. split.
  - destruct (ReadVarInt s) as [v r|e r|] eqn:E; cbn [rbind]; intros H; [|discriminate H|exfalso; exact (ReadVarInt_no_panic _ E)].
    apply ReadVarInt_inv in E; [|exact Hs]. destruct E as [U E]. exists v, r. split; [exact E|]. unfold uint64 in U.
    destruct (Z.ltb_spec maxAlloc v); [lia|]. exfalso. revert H. unfold readFull. destruct (v <=? blen r); [discriminate|]. destruct r; discriminate.
  - intros (v & r & -> & B & V). rewrite ReadVarInt_varint by (unfold uint64, maxAlloc in *; lia). cbn [rbind].
    destruct (Z.ltb_spec maxAlloc v); [reflexivity|lia].
Qed.

(** *** failing writers *)
Definition wroom_ok (w : writer) : Prop := match wroom w with Some n => 0 <= n | None => True end.
Definition room_for (w : writer) (n : Z) : Prop := match wroom w with Some r => n <= r | None => True end.
Lemma wwrite_spec w bs : wroom_ok w ->
  let '(w', e) := wwrite w bs in
  wroom_ok w' /\
  (if e then ~ room_for w (blen bs) /\ exists p, prefix p bs /\ wout w' = wout w ++ p
   else room_for w (blen bs) /\ wout w' = wout w ++ bs /\ forall n, room_for w (blen bs + n) <-> room_for w' n).
Proof.
  unfold wwrite, wroom_ok, room_for. destruct w as [o [n|]]; cbn [wroom wout]; intros H.
  - destruct (Z.leb_spec (blen bs) n); cbn [wroom wout].
    + repeat split; intros; lia.
    + split; [lia|]. split; [lia|]. exists (firstn (Z.to_nat n) bs). split; [|reflexivity].
      exists (skipn (Z.to_nat n) bs). symmetry. apply firstn_skipn.
  - repeat split; auto.
Qed.
Lemma prefix_cons x p s : prefix p s -> prefix (x :: p) (x :: s).
Proof. intros [t ->]. exists t. reflexivity. Qed.
Lemma prefix_app a p s : prefix p s -> prefix (a ++ p) (a ++ s).
Proof. intros [t ->]. exists t. apply app_assoc. Qed.
Lemma prefix_app_r p s t : prefix p s -> prefix p (s ++ t).
Proof. intros [u ->]. exists (u ++ t). symmetry. apply app_assoc. Qed.

(** two consecutive writes *)
Lemma wwrite_two w a b : wroom_ok w ->
  let '(w', e) := (let '(w1, e1) := wwrite w a in if e1 then (w1, true) else wwrite w1 b) in
  wroom_ok w' /\
  (if e then ~ room_for w (blen (a ++ b)) /\ exists p, prefix p (a ++ b) /\ wout w' = wout w ++ p
   else room_for w (blen (a ++ b)) /\ wout w' = wout w ++ (a ++ b) /\ forall n, room_for w (blen (a ++ b) + n) <-> room_for w' n).
Proof.
  intros H. pose proof (wwrite_spec w a H) as S1. destruct (wwrite w a) as [w1 e1].
  assert (L : blen (a ++ b) = blen a + blen b) by (unfold blen; rewrite app_length; lia).
  destruct e1.
  - destruct S1 as [K [N [p [Hp E]]]]. split; [exact K|]. split.
    + rewrite L. intros C. apply N. revert C. unfold room_for. destruct (wroom w); [|auto]. unfold blen in *. lia.
    + exists p. split; [apply prefix_app_r; exact Hp|exact E].
  - destruct S1 as [K [Rm [E Q]]]. pose proof (wwrite_spec w1 b K) as S2. destruct (wwrite w1 b) as [w2 e2].
    destruct e2.
    + destruct S2 as [K2 [N [p [Hp E2]]]]. split; [exact K2|]. split.
      * rewrite L. intros C. apply N, Q. exact C.
      * exists (a ++ p). split; [apply prefix_app; exact Hp|]. rewrite E2, E, app_assoc. reflexivity.
    + destruct S2 as [K2 [N [E2 Q2]]]. split; [exact K2|]. split; [rewrite L; apply Q; exact N|].
      split; [rewrite E2, E, app_assoc; reflexivity|]. intros n. rewrite L, <- Q2, <- Q, Z.add_assoc. reflexivity.
Qed.

Lemma WriteVarInt_spec w v : wroom_ok w -> uint64 v ->
  let '(w', e) := WriteVarInt w v in
  wroom_ok w' /\
  (if e then ~ room_for w (blen (varint v)) /\ exists p, prefix p (varint v) /\ wout w' = wout w ++ p
   else room_for w (blen (varint v)) /\ wout w' = wout w ++ varint v /\ forall n, room_for w (blen (varint v) + n) <-> room_for w' n).
Proof.
  intros Hw Hv. rewrite varint_eq by exact Hv. unfold WriteVarInt, PutUint8, PutUint16, PutUint32, PutUint64.
  change (v <? 0xfd) with (v <? 253).
  destruct (v <? 253); [apply wwrite_spec; exact Hw|].
  destruct (v <=? 65535); [apply (wwrite_two w [0xfd]); exact Hw|].
  destruct (v <=? 4294967295); [apply (wwrite_two w [0xfe])|apply (wwrite_two w [0xff])]; exact Hw.
Qed.

Lemma WriteVarBytes_spec w bs : wroom_ok w -> blen bs < 2^64 ->
  let '(w', e) := WriteVarBytes w bs in
  (if e then ~ room_for w (blen (varbytes bs)) /\ exists p, prefix p (varbytes bs) /\ wout w' = wout w ++ p
   else room_for w (blen (varbytes bs)) /\ wout w' = wout w ++ varbytes bs).
Proof.
  intros Hw Hb. unfold WriteVarBytes, varbytes. change (Z.of_nat (length bs)) with (blen bs).
  assert (Hv : uint64 (blen bs)) by (unfold uint64, blen in *; lia).
  pose proof (WriteVarInt_spec w (blen bs) Hw Hv) as S1. destruct (WriteVarInt w (blen bs)) as [w1 e1].
  set (v := varint (blen bs)) in *.
  assert (L : blen (v ++ bs) = blen v + blen bs) by (unfold blen; rewrite app_length; lia).
  destruct e1.
  - destruct S1 as [_ [N [p [Hp E]]]]. split.
    + rewrite L. intros C. apply N. revert C. unfold room_for. destruct (wroom w); [|auto]. unfold blen in *. lia.
    + exists p. split; [apply prefix_app_r; exact Hp|exact E].
  - destruct S1 as [K [Rm [E Q]]]. pose proof (wwrite_spec w1 bs K) as S2. destruct (wwrite w1 bs) as [w2 e2].
    destruct e2.
    + destruct S2 as [_ [N [p [Hp E2]]]]. split.
      * rewrite L. intros C. apply N, Q. exact C.
      * exists (v ++ p). split; [apply prefix_app; exact Hp|]. rewrite E2, E, app_assoc. reflexivity.
    + destruct S2 as [_ [N [E2 _]]]. split; [rewrite L; apply Q; exact N|]. rewrite E2, E, app_assoc. reflexivity.
Qed.

(** readers on truncated input *)
Lemma ReadVarInt_trunc v p : uint64 v -> prefix p (varint v) -> p <> varint v -> exists e r, ReadVarInt p = RErr e r.
Proof.
  intros Hv [t Ht] Hne. destruct (ReadVarInt p) as [v' r|e r|] eqn:E.
  - exfalso. assert (Hp : bytes_ok p).
    { pose proof (varint_ok v Hv) as H. rewrite Ht in H. apply bytes_ok_app in H. tauto. }
    destruct (ReadVarInt_inv _ _ _ Hp E) as [Hv' E'].
    pose proof (ReadVarInt_varint v [] Hv) as A. rewrite app_nil_r, Ht, E', <- app_assoc in A.
    rewrite ReadVarInt_varint in A by exact Hv'. injection A as <- A. apply app_eq_nil in A. destruct A as [-> ->].
    apply Hne. rewrite E', app_nil_r. reflexivity.
  - eauto.
  - exfalso. exact (ReadVarInt_no_panic _ E).
Qed.
