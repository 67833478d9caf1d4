(** * Proofs about drawing numbers: one attempt, one draw, schedules *)
From Coq Require Import ZArith List Bool Lia.
From Verif Require Import Go Wire Big CodecProofs FieldProofs Precompute Rand SpecRand.
Import ListNotations.
Open Scope Z_scope.

(** ** One attempt *)
Lemma bitLen_bits max : 1 < max -> bigBitLen (max - 1) = bits max /\ 0 < bits max.
Proof.
  intros H. unfold bigBitLen, bits. destruct (Z.eqb_spec (max - 1) 0); [lia|]. rewrite Z.abs_eq by lia.
  unfold Z.log2_up. destruct (Z.compare_spec 1 max); try lia.
  replace (Z.pred max) with (max - 1) by lia. pose proof (Z.log2_nonneg (max - 1)). lia.
Qed.
Lemma max_bits max : 1 < max -> 2 ^ (bits max - 1) < max <= 2 ^ bits max.
Proof. intros H. unfold bits. replace (Z.log2_up max - 1) with (Z.pred (Z.log2_up max)) by lia. apply Z.log2_up_spec. exact H. Qed.
Lemma riBytes_block max : 1 < max -> riBytes max = Z.of_nat (block max) /\ (0 < block max)%nat.
Proof.
  intros H. destruct (bitLen_bits max H) as [E P]. unfold riBytes, block. rewrite E.
  pose proof (Z.div_le_mono 8 (bits max + 7) 8). rewrite Z.div_same in H0 by lia. lia.
Qed.
Lemma riBits_spec max : 1 < max -> exists b, riBits max = b /\ 0 < b <= 8 /\ bits max = 8 * (Z.of_nat (block max) - 1) + b.
Proof.
  intros H. destruct (bitLen_bits max H) as [E P]. destruct (riBytes_block max H) as [Eb _]. exists (riBits max). split; [reflexivity|].
  rewrite <- Eb. unfold riBits, riBytes. rewrite E. pose proof (Z.div_mod (bits max) 8 ltac:(lia)). pose proof (Z.mod_pos_bound (bits max) 8 ltac:(lia)).
  destruct (Z.eqb_spec (bits max mod 8) 0) as [Z0|Z0].
  - replace (bits max + 7) with (7 + (bits max / 8) * 8) by lia. rewrite Z.div_add by lia. change (7 / 8) with 0. lia.
  - replace (bits max + 7) with ((bits max mod 8 + 7) + (bits max / 8) * 8) by lia. rewrite Z.div_add by lia.
    replace ((bits max mod 8 + 7) / 8) with 1 by (apply (Z.div_unique _ 8 1 (bits max mod 8 - 1)); lia). lia.
Qed.
Lemma mask_denotes max b : 1 < max -> bytes_ok b -> length b = block max -> beval (maskFirst (riBits max) b) = denotes max b.
Proof.
  intros H Hb Lb. destruct (riBytes_block max H) as [_ P]. destruct (riBits_spec max H) as (k & Ek & Hk & Es).
  rewrite Ek. destruct b as [|x t]; [cbn in Lb; lia|]. cbn [maskFirst]. rewrite !beval_cons. unfold denotes. rewrite beval_cons.
  inversion Hb as [|? ? Hx Ht]; subst. pose proof (beval_range t Ht) as Rt. unfold is_byte in Hx.
  replace (2 ^ riBits max - 1) with (Z.ones (riBits max)) by (rewrite Z.ones_equiv; lia). rewrite Z.land_ones by lia.
  assert (Et : Z.of_nat (block max) - 1 = blen t) by (unfold blen; cbn [length] in Lb; lia).
  rewrite Es, Et. assert (0 <= blen t) by (unfold blen; lia).
  rewrite Z.pow_add_r by lia. replace (2 ^ (8 * blen t)) with (256 ^ blen t) by (rewrite Z.pow_mul_r by lia; reflexivity).
  set (M := 256 ^ blen t) in *. set (K := 2 ^ riBits max). assert (0 < K) by (unfold K; apply Z.pow_pos_nonneg; lia).
  assert (0 < M) by (unfold M; apply Z.pow_pos_nonneg; lia).
  rewrite Z.rem_mul_r by lia.
  replace ((x * M + beval t) mod M) with (beval t) by (rewrite Z.add_comm, Z.mod_add, Z.mod_small by lia; reflexivity).
  replace ((x * M + beval t) / M) with x by (rewrite Z.div_add_l by lia; rewrite Z.div_small by lia; lia). lia.
Qed.
Lemma attempt_spec max b : 1 < max -> bytes_ok b -> length b = block max ->
  attempt max b = if denotes max b <? max then Some (denotes max b) else None.
Proof. intros H Hb Lb. unfold attempt. rewrite mask_denotes by assumption. reflexivity. Qed.
Lemma denotes_nonneg max b : 0 <= denotes max b.
Proof. unfold denotes. apply Z.mod_pos_bound. apply Z.pow_pos_nonneg; [lia|]. apply Z.log2_up_nonneg. Qed.

(** ** Reading *)
Lemma read_block max s : 1 < max ->
  (exists b r, s = b ++ r /\ length b = block max /\ readFull (riBytes max) s = ROk b r) \/
  ((length s < block max)%nat /\ exists e, readFull (riBytes max) s = RErr e []).
Proof.
  intros H. destruct (riBytes_block max H) as [E P]. unfold readFull. rewrite E, Nat2Z.id. unfold blen.
  destruct (Z.leb_spec (Z.of_nat (block max)) (Z.of_nat (length s))) as [C|C].
  - left. exists (firstn (block max) s), (skipn (block max) s). rewrite firstn_skipn. rewrite firstn_length. split; [reflexivity|].
    split; [lia|reflexivity].
  - right. split; [lia|]. destruct s; eauto.
Qed.
Lemma readFull_app max b r : 1 < max -> length b = block max -> readFull (riBytes max) (b ++ r) = ROk b r.
Proof.
  intros H L. destruct (riBytes_block max H) as [E P]. unfold readFull. rewrite E, Nat2Z.id. unfold blen. rewrite app_length, L.
  destruct (Z.leb_spec (Z.of_nat (block max)) (Z.of_nat (block max + length r))); [|lia].
  rewrite <- L, firstn_app, Nat.sub_diag, firstn_all, firstn_O, app_nil_r, skipn_app, skipn_all, Nat.sub_diag. reflexivity.
Qed.
Lemma readFull_short max s : 1 < max -> (length s < block max)%nat -> exists e, readFull (riBytes max) s = RErr e [].
Proof. intros H L. destruct (read_block max s H) as [(b & r & -> & Lb & _)|[_ X]]; [rewrite app_length in L; lia|exact X]. Qed.

Lemma randLoop_good max : 1 < max -> forall s v rest, bytes_ok s -> firstGood max s v rest ->
  forall fuel, (length s < fuel)%nat -> randLoop fuel max s = ROk v rest.
Proof.
  intros H s v rest Hs G. induction G as [b rest Lb Hv|b s v rest Lb Hv G IH]; intros fuel Hf;
    (destruct fuel as [|f]; [lia|]); cbn [randLoop]; rewrite readFull_app by assumption; cbn [rbind];
    apply Forall_app in Hs; destruct Hs as [Hb Hs]; rewrite attempt_spec by assumption.
  - destruct (Z.ltb_spec (denotes max b) max); [reflexivity|lia].
  - destruct (Z.ltb_spec (denotes max b) max); [lia|]. apply IH; [exact Hs|].
    destruct (riBytes_block max H). rewrite app_length in Hf. lia.
Qed.
Lemma randLoop_none max : 1 < max -> forall s, bytes_ok s -> noGood max s ->
  forall fuel, (length s < fuel)%nat -> exists e, randLoop fuel max s = RErr e [].
Proof.
  intros H s Hs G. induction G as [s Ls|b s Lb Hv G IH]; intros fuel Hf; (destruct fuel as [|f]; [lia|]); cbn [randLoop].
  - destruct (readFull_short max s H Ls) as [e ->]. exists e. reflexivity.
  - rewrite readFull_app by assumption. cbn [rbind]. apply Forall_app in Hs. destruct Hs as [Hb Hs]. rewrite attempt_spec by assumption.
    destruct (Z.ltb_spec (denotes max b) max); [lia|]. apply IH; [exact Hs|]. destruct (riBytes_block max H). rewrite app_length in Hf. lia.
Qed.
(** every string is one or the other *)
Lemma good_or_none max : 1 < max -> forall n s, (length s < n)%nat -> (exists v rest, firstGood max s v rest) \/ noGood max s.
Proof.
  intros H. induction n as [|n IH]; intros s L; [lia|].
  destruct (Nat.ltb_spec (length s) (block max)) as [C|C]; [right; now constructor|].
  destruct (riBytes_block max H) as [_ P].
  rewrite <- (firstn_skipn (block max) s). set (b := firstn (block max) s). set (r := skipn (block max) s).
  assert (Lb : length b = block max) by (unfold b; rewrite firstn_length; lia).
  assert (Lr : (length r < n)%nat) by (unfold r; rewrite skipn_length; lia).
  destruct (Z.ltb_spec (denotes max b) max) as [D|D].
  - left. exists (denotes max b), r. now constructor.
  - destruct (IH r Lr) as [(v & rest & G)|G]; [left; exists v, rest; now constructor|right; now constructor].
Qed.
Lemma randInt_loop max s : 1 < max -> randInt max s = randLoop (S (length s)) max s.
Proof.
  intros H. unfold randInt. destruct (Z.leb_spec max 0); [lia|]. destruct (bitLen_bits max H) as [-> P].
  destruct (Z.eqb_spec (bits max) 0); [lia|reflexivity].
Qed.
Lemma randInt_spec max s : 1 < max -> bytes_ok s ->
  (forall v rest, randInt max s = ROk v rest <-> firstGood max s v rest) /\
  ((exists e rest, randInt max s = RErr e rest) <-> noGood max s) /\ randInt max s <> RPanic.
Proof.
  intros H Hs. rewrite randInt_loop by exact H.
  destruct (good_or_none max H (S (length s)) s ltac:(lia)) as [(v & rest & G)|G].
  - pose proof (randLoop_good max H s v rest Hs G (S (length s)) ltac:(lia)) as E. rewrite E. split; [|split].
    + intros v' rest'. split; [intros Q; injection Q as <- <-; exact G|]. intros G'.
      rewrite <- (randLoop_good max H s v' rest' Hs G' (S (length s)) ltac:(lia)). symmetry. exact E.
    + split; [intros (e & r & Q); discriminate Q|]. intros G'. destruct (randLoop_none max H s Hs G' (S (length s)) ltac:(lia)) as [e Q].
      rewrite E in Q. discriminate Q.
    + discriminate.
  - destruct (randLoop_none max H s Hs G (S (length s)) ltac:(lia)) as [e E]. rewrite E. split; [|split].
    + intros v rest. split; [discriminate|]. intros G'. rewrite (randLoop_good max H s v rest Hs G' (S (length s)) ltac:(lia)) in E. discriminate E.
    + split; [intros _; exact G|]. intros _. exists e, []. reflexivity.
    + discriminate.
Qed.
Lemma firstGood_range max s v rest : firstGood max s v rest -> 0 <= v < max.
Proof. induction 1 as [b rest Lb Hv|]; [split; [apply denotes_nonneg|exact Hv]|assumption]. Qed.
