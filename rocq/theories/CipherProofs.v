(** * Proofs about the encryption of btcec *)
From Coq Require Import ZArith List Bool Lia.
From Verif Require Import Spec Go Wire Big CurveGroup Order GMult SpecZk ZkBase SpecBtc SpecCurve SpecTotal Koblitz KobTab
  CodecProofs PubKey PubKeyProofs Signature DerProofs EcdsaProofs SpecCipher Ciphering.
Import ListNotations.
Open Scope Z_scope.

(** *** lists *)
Lemma bytesEqual_eq a b : bytesEqual a b = true <-> a = b.
Proof.
  revert b. induction a as [|x a IH]; intros [|y b]; cbn [bytesEqual]; try (split; [discriminate|discriminate]).
  - split; reflexivity.
  - rewrite andb_true_iff, Z.eqb_eq, IH. split; [intros [-> ->]; reflexivity|intros E; injection E as -> ->; auto].
Qed.
Lemma bytesEqual_refl a : bytesEqual a a = true. Proof. apply bytesEqual_eq. reflexivity. Qed.

Lemma copyTo_id n s : length s = n -> copyTo n s = s.
Proof. intros <-. unfold copyTo. rewrite firstn_all, Nat.sub_diag. apply app_nil_r. Qed.

Lemma xorBytes_spec a b : xorBytes a b = xor_blocks a b.
Proof. revert b. induction a; intros [|y b]; cbn; [reflexivity..|]. rewrite IHa. reflexivity. Qed.

Lemma xor_byte x y : is_byte x -> is_byte y -> is_byte (Z.lxor x y).
Proof.
  intros [Hx Lx] [Hy Ly]. split; [apply Z.lxor_nonneg; tauto|].
  assert (0 <= Z.lxor x y) by (apply Z.lxor_nonneg; tauto).
  destruct (Z.eq_dec (Z.lxor x y) 0) as [->|Nz]; [reflexivity|].
  change 256 with (2 ^ 8). apply Z.log2_lt_pow2; [lia|].
  pose proof (Z.log2_lxor x y Hx Hy) as L.
  assert (forall z, 0 <= z < 256 -> Z.log2 z < 8).
  { intros z Hz. destruct (Z.eq_dec z 0) as [->|]; [reflexivity|]. apply Z.log2_lt_pow2; [lia|]. change (2 ^ 8) with 256. lia. }
  pose proof (H0 x (conj Hx Lx)). pose proof (H0 y (conj Hy Ly)). lia.
Qed.
Lemma xor_block a b : block a -> block b -> block (xor_blocks a b).
Proof.
  assert (G0 : forall (a b : list Z), length a = length b -> bytes_ok a -> bytes_ok b ->
    length (xor_blocks a b) = length a /\ bytes_ok (xor_blocks a b)).
  { clear. induction a as [|x a IH]; intros [|y b] L A B; try discriminate L; cbn [xor_blocks]; [auto|].
    injection L as L. destruct (IH b L (Forall_inv_tail A) (Forall_inv_tail B)) as [E F]. cbn [length]. rewrite E.
    split; [reflexivity|]. constructor; [apply xor_byte; [exact (Forall_inv A)|exact (Forall_inv B)]|exact F]. }
  intros [La Ba] [Lb Bb]. destruct (G0 a b) as [E F]; [congruence|assumption..|]. split; [congruence|exact F].
Qed.
Lemma xor_xor a b : block a -> block b -> xor_blocks (xor_blocks a b) b = a.
Proof.
  intros [La _] [Lb _]. rewrite <- Lb in La. clear Lb. revert b La.
  induction a as [|x a IH]; intros [|y b] L; try discriminate L; cbn [xor_blocks]; [reflexivity|].
  rewrite IH by (injection L as L; exact L). rewrite Z.lxor_assoc, Z.lxor_nilpotent, Z.lxor_0_r. reflexivity.
Qed.

(** *** blocks of a byte string *)
Fixpoint split16 (n : nat) (s : list Z) : list (list Z) :=
  match n with 0%nat => [] | S m => firstn 16 s :: split16 m (skipn 16 s) end.
Lemma split16_blocks n s : length s = (16 * n)%nat -> bytes_ok s -> Forall block (split16 n s).
Proof.
  revert s. induction n as [|n IH]; intros s L B; cbn [split16]; [constructor|]. constructor.
  - split; [rewrite firstn_length; lia|apply bytes_firstn; exact B].
  - apply IH; [rewrite skipn_length; lia|apply bytes_skipn; exact B].
Qed.
Lemma split16_concat n s : length s = (16 * n)%nat -> concat (split16 n s) = s.
Proof.
  revert s. induction n as [|n IH]; intros s L; cbn [split16 concat].
  - destruct s; [reflexivity|discriminate L].
  - rewrite IH by (rewrite skipn_length; lia). apply firstn_skipn.
Qed.
Lemma concat_len bs : Forall block bs -> length (concat bs) = (16 * length bs)%nat.
Proof. induction 1 as [|b bs [L _] _ IH]; [reflexivity|]. cbn [concat length]. rewrite app_length, IH, L. lia. Qed.
Lemma concat_bytes bs : Forall block bs -> bytes_ok (concat bs).
Proof. induction 1 as [|b bs [_ B] _ IH]; [constructor|]. cbn [concat]. apply Forall_app. auto. Qed.
Lemma firstn_blk n (b s : list Z) : length b = n -> firstn n (b ++ s) = b.
Proof. intros <-. rewrite firstn_app, Nat.sub_diag, firstn_all. apply app_nil_r. Qed.
Lemma skipn_blk n (b s : list Z) : length b = n -> skipn n (b ++ s) = s.
Proof. intros <-. rewrite skipn_app, Nat.sub_diag, skipn_all. reflexivity. Qed.
Lemma split_concat bs : Forall block bs -> split16 (length bs) (concat bs) = bs.
Proof.
  induction 1 as [|b bs [L _] _ IH]; [reflexivity|]. cbn [concat length split16].
  rewrite firstn_blk, skipn_blk by exact L. rewrite IH. reflexivity.
Qed.

(** *** CBC *)
Lemma cbcEnc_spec E n iv s : cbcEnc E n iv s = concat (cbc E iv (split16 n s)).
Proof.
  revert iv s. induction n as [|n IH]; intros iv s; [reflexivity|]. cbn [cbcEnc split16 cbc concat].
  change aesBlock with 16%nat. rewrite xorBytes_spec, IH. reflexivity.
Qed.

Section Cipher.
Variables (E D : list Z -> list Z -> list Z) (k : list Z).
Hypothesis BC : block_cipher E D.
Hypothesis Lk : length k = 32%nat.

Lemma cbc_blocks iv bs : block iv -> Forall block bs -> Forall block (cbc (E k) iv bs).
Proof.
  intros Hi F. revert iv Hi. induction F as [|b bs Hb _ IH]; intros iv Hi; cbn [cbc]; [constructor|].
  assert (block (E k (xor_blocks b iv))) by (apply BC; [exact Lk|apply xor_block; assumption]).
  constructor; [assumption|apply IH; assumption].
Qed.
Lemma cbc_len F iv bs : length (cbc F iv bs) = length bs.
Proof. revert iv. induction bs; intros iv; [reflexivity|]. cbn [cbc length]. rewrite IHbs. reflexivity. Qed.

Lemma cbcDec_enc iv bs : block iv -> Forall block bs ->
  cbcDec (D k) (length bs) iv (concat (cbc (E k) iv bs)) = concat bs.
Proof.
  intros Hi F. revert iv Hi. induction F as [|b bs Hb _ IH]; intros iv Hi; [reflexivity|].
  cbn [cbc concat length cbcDec]. change aesBlock with 16%nat. set (c := E k (xor_blocks b iv)).
  assert (X : block (xor_blocks b iv)) by (apply xor_block; assumption).
  destruct (BC k _ Lk X) as (Bc & _ & ED & _). fold c in Bc, ED. destruct Bc as [Lc Bc].
  rewrite firstn_blk, skipn_blk by exact Lc.
  rewrite ED, xorBytes_spec, xor_xor by assumption. rewrite IH by (split; assumption). reflexivity.
Qed.

(** every ciphertext is the encryption of its decryption *)
Lemma cbcDec_inv iv cs : block iv -> Forall block cs -> exists bs, Forall block bs /\ length bs = length cs /\
  cbcDec (D k) (length cs) iv (concat cs) = concat bs /\ cs = cbc (E k) iv bs.
Proof.
  intros Hi F. revert iv Hi. induction F as [|c cs Hc _ IH]; intros iv Hi.
  - exists []. repeat split. constructor.
  - destruct (IH c Hc) as (bs & Fb & L & Ed & Ec). destruct (BC k c Lk Hc) as (_ & Bd & _ & DE).
    exists (xor_blocks (D k c) iv :: bs). split; [constructor; [apply xor_block; assumption|exact Fb]|].
    split; [cbn [length]; congruence|]. destruct Hc as [Lc Bc]. split.
    + cbn [concat length cbcDec]. change aesBlock with 16%nat. rewrite firstn_blk, skipn_blk by exact Lc. rewrite xorBytes_spec, Ed. reflexivity.
    + cbn [cbc]. rewrite xor_xor by assumption. rewrite DE. cbv zeta. rewrite <- Ec. reflexivity.
Qed.
End Cipher.

(** *** slices *)
Lemma slice_mid (a b c : list Z) i j : i = Z.of_nat (length a) -> j = i + Z.of_nat (length b) ->
  slice (a ++ b ++ c) i j = b.
Proof.
  intros -> ->. unfold slice. rewrite Nat2Z.id. replace (Z.to_nat _) with (length b) by lia.
  rewrite skipn_blk by reflexivity. apply firstn_blk. reflexivity.
Qed.
Lemma cut n (s : list Z) : (n <= length s)%nat -> exists a b, s = a ++ b /\ length a = n.
Proof. intros L. exists (firstn n s), (skipn n s). split; [symmetry; apply firstn_skipn|rewrite firstn_length; lia]. Qed.

(** *** padding *)
Lemma pad_len n : (1 <= aesBlock - n mod aesBlock <= 16)%nat /\ ((n + (aesBlock - n mod aesBlock)) mod 16 = 0)%nat.
Proof.
  change aesBlock with 16%nat. pose proof (Nat.mod_upper_bound n 16 ltac:(discriminate)). split; [lia|].
  pose proof (Nat.div_mod n 16 ltac:(discriminate)) as DM.
  replace (n + (16 - n mod 16))%nat with ((n / 16 + 1) * 16)%nat by lia. apply Nat.mod_mul. discriminate.
Qed.
Lemma mod16 n : (n mod 16 = 0)%nat -> n = (16 * (n / 16))%nat.
Proof. intros H. pose proof (Nat.div_mod n 16 ltac:(discriminate)). lia. Qed.

Lemma addPKCS_pkcs buf n : (n <= length buf)%nat -> pkcs7 (firstn n buf) (snd (addPKCSPadding buf n)).
Proof.
  intros L. cbn [addPKCSPadding snd]. destruct (pad_len n) as [H1 H2]. exists (aesBlock - n mod aesBlock)%nat.
  split; [exact H1|]. split; [reflexivity|]. eexists. rewrite app_length, firstn_length, repeat_length.
  rewrite Nat.min_l by exact L. apply mod16. exact H2.
Qed.
Lemma pkcs7_bytes m p : bytes_ok m -> pkcs7 m p -> bytes_ok p.
Proof.
  intros B (k & Hk & -> & _). apply Forall_app. split; [exact B|]. apply Forall_forall. intros x I. apply repeat_spec in I. subst x.
  split; lia.
Qed.

Lemma remove_add m p : pkcs7 m p -> removePKCSPadding p = Ok (Val m).
Proof.
  intros (k & Hk & -> & j & L). unfold removePKCSPadding. rewrite blen_app. unfold blen. rewrite repeat_length.
  rewrite app_length, repeat_length in L. unfold index, blen. rewrite app_length, repeat_length.
  replace (_ || _) with false by (symmetry; apply orb_false_iff; split; [apply Z.ltb_ge|apply Z.leb_gt]; lia).
  cbn [bind]. replace (Z.to_nat _) with (length m + (k - 1))%nat by lia.
  rewrite app_nth2 by lia. replace (length m + (k - 1) - length m)%nat with (k - 1)%nat by lia.
  assert (NR : nth (k - 1) (repeat (Z.of_nat k) k) 0 = Z.of_nat k).
  { apply (repeat_spec k (Z.of_nat k)). apply nth_In. rewrite repeat_length. lia. }
  rewrite NR. change (Z.of_nat aesBlock) with 16.
  replace (_ || _) with false by (symmetry; apply orb_false_iff; split; apply Z.ltb_ge; lia).
  replace (_ <? 0) with false by (symmetry; apply Z.ltb_ge; lia).
  do 2 f_equal. apply (slice_mid [] m (repeat (Z.of_nat k) k) 0); [reflexivity|lia].
Qed.

(** what removePKCSPadding accepts, on a non-empty string of whole blocks *)
Lemma remove_inv p : bytes_ok p -> (16 <= length p)%nat ->
  (exists m q, removePKCSPadding p = Ok (Val m) /\ p = m ++ q /\ blen q = last p 0 /\ last p 0 <= 16) \/
  (removePKCSPadding p = Ok (Fail EInvalidPadding) /\ 16 < last p 0).
Proof.
  intros B L. unfold removePKCSPadding, index, blen.
  replace (_ || _) with false by (symmetry; apply orb_false_iff; split; [apply Z.ltb_ge|apply Z.leb_gt]; lia).
  cbn [bind]. change (Z.of_nat aesBlock) with 16.
  replace (nth _ p 0) with (last p 0).
  2:{ destruct (exists_last (l := p)) as (a & x & ->); [intros ->; cbn in L; lia|]. rewrite last_last, app_length. cbn [length].
      rewrite app_nth2 by lia. replace (Z.to_nat _ - length a)%nat with 0%nat by lia. reflexivity. }
  assert (Bl : is_byte (last p 0)).
  { destruct (exists_last (l := p)) as (a & x & ->); [intros ->; cbn in L; lia|]. rewrite last_last.
    apply Forall_app in B. exact (Forall_inv (proj2 B)). }
  destruct Bl as [B0 _]. rewrite orb_comm. replace (Z.of_nat (length p) <? 16) with false by (symmetry; apply Z.ltb_ge; lia). cbn [orb].
  destruct (16 <? last p 0) eqn:C.
  - right. apply Z.ltb_lt in C. auto.
  - left. apply Z.ltb_ge in C. replace (_ <? 0) with false by (symmetry; apply Z.ltb_ge; lia).
    destruct (cut (Z.to_nat (Z.of_nat (length p) - last p 0)) p) as (m & q & E & Lm); [lia|]. exists m, q.
    assert (Lq : Z.of_nat (length q) = last p 0) by (pose proof (app_length m q) as AL; rewrite <- E in AL; lia).
    split; [|split; [exact E|split; [exact Lq|exact C]]]. do 2 f_equal.
    unfold slice. rewrite Z.sub_0_r. cbn [skipn Z.to_nat]. rewrite <- Lm, E at 1.
    apply firstn_blk. reflexivity.
Qed.

(** *** the secret *)
Lemma secret_ok c (C : curve_ok c) k Q : is_point Q ->
  GenerateSharedSecret c k Q = Ok (bigBytes (fst (smul (Z.abs (kD k)) Q))).
Proof.
  intros HQ. unfold GenerateSharedSecret. rewrite (ok_mul c C Q (bigBytes (kD k)) HQ (bigBytes_ok _)), beval_bigBytes. reflexivity.
Qed.

(** *** Decrypt on a string cut at the field boundaries *)
Definition finish (sha256 sha512 : list Z -> list Z) (D : list Z -> list Z -> list Z) (c : curve) (priv : privkey)
    (iv body ct mac : list Z) (Q : point) : R (ret (list Z)) :=
  if negb (length ct mod 16 =? 0)%nat then Ok (Fail EInvalidPadding)
  else
  s <- GenerateSharedSecret c priv Q ;
  if negb (bytesEqual mac (hmac sha256 (skipn 32 (sha512 s)) body)) then Ok (Fail EInvalidMAC)
  else
  plaintext <- CryptBlocks (cbcDec (D (firstn 32 (sha512 s)))) iv ct ; removePKCSPadding plaintext.

Lemma Decrypt_parts sha256 sha512 D c priv iv cc xl X yl Y ct mac :
  length iv = 16%nat -> length cc = 2%nat -> length xl = 2%nat -> length X = 32%nat -> length yl = 2%nat ->
  length Y = 32%nat -> (16 <= length ct)%nat -> length mac = 32%nat ->
  Decrypt sha256 sha512 D c priv (iv ++ cc ++ xl ++ X ++ yl ++ Y ++ ct ++ mac) =
  if negb (bytesEqual cc ciphCurveBytes) then Ok (Fail EUnsupportedCurve)
  else if negb (bytesEqual xl ciphCoordLength) then Ok (Fail EInvalidXLength)
  else if negb (bytesEqual yl ciphCoordLength) then Ok (Fail EInvalidYLength)
  else
  q <- ParsePubKey c (4 :: X ++ Y) ;
  match q with
  | Fail e => Ok (Fail e)
  | Val Q => finish sha256 sha512 D c priv iv (iv ++ cc ++ xl ++ X ++ yl ++ Y ++ ct) ct mac Q
  end.
Proof.
  intros L1 L2 L3 L4 L5 L6 L7 L8. unfold Decrypt.
  set (inp := iv ++ cc ++ xl ++ X ++ yl ++ Y ++ ct ++ mac).
  assert (Li : blen inp = 118 + Z.of_nat (length ct)) by (unfold blen, inp; rewrite !app_length; lia).
  rewrite Li. replace (_ <? 16 + 70 + 16 + 32) with false by (symmetry; apply Z.ltb_ge; lia).
  assert (S1 : slice inp 0 16 = iv) by (apply (slice_mid [] iv); [reflexivity|lia]).
  assert (S2 : slice inp 16 18 = cc) by (apply (slice_mid iv cc); lia).
  assert (S3 : slice inp 18 20 = xl).
  { unfold inp. rewrite (app_assoc iv). apply slice_mid; rewrite ?app_length; lia. }
  assert (S4 : slice inp 20 52 = X).
  { unfold inp. rewrite (app_assoc iv), (app_assoc (iv ++ cc)). apply slice_mid; rewrite ?app_length; lia. }
  assert (S5 : slice inp 52 54 = yl).
  { unfold inp. rewrite (app_assoc iv), (app_assoc (iv ++ cc)), (app_assoc ((iv ++ cc) ++ xl)). apply slice_mid; rewrite ?app_length; lia. }
  assert (S6 : slice inp 54 86 = Y).
  { unfold inp. rewrite (app_assoc iv), (app_assoc (iv ++ cc)), (app_assoc ((iv ++ cc) ++ xl)), (app_assoc (((iv ++ cc) ++ xl) ++ X)).
    apply slice_mid; rewrite ?app_length; lia. }
  assert (S7 : slice inp 86 (118 + Z.of_nat (length ct) - 32) = ct).
  { unfold inp. rewrite (app_assoc iv), (app_assoc (iv ++ cc)), (app_assoc ((iv ++ cc) ++ xl)), (app_assoc (((iv ++ cc) ++ xl) ++ X)),
      (app_assoc ((((iv ++ cc) ++ xl) ++ X) ++ yl)).
    apply slice_mid; rewrite ?app_length; lia. }
  assert (Ei : inp = (iv ++ cc ++ xl ++ X ++ yl ++ Y ++ ct) ++ mac ++ []) by (unfold inp; rewrite app_nil_r, <- !app_assoc; reflexivity).
  assert (S8 : slice inp (118 + Z.of_nat (length ct) - 32) (118 + Z.of_nat (length ct)) = mac).
  { rewrite Ei. apply slice_mid; rewrite ?app_length; lia. }
  assert (S9 : slice inp 0 (118 + Z.of_nat (length ct) - 32) = iv ++ cc ++ xl ++ X ++ yl ++ Y ++ ct).
  { rewrite Ei. apply (slice_mid [] (iv ++ cc ++ xl ++ X ++ yl ++ Y ++ ct)); [reflexivity|]. rewrite !app_length. lia. }
  rewrite S1, S2, S3, S4, S5, S6, S7, S8, S9. clearbody inp. clear S1 S2 S3 S4 S5 S6 S7 S8 S9 Ei Li inp.
  rewrite !copyTo_id by assumption. cbv zeta.
  destruct (negb _); [reflexivity|]. destruct (negb _); [reflexivity|]. destruct (negb _); [reflexivity|].
  destruct (ParsePubKey c (4 :: X ++ Y)) as [[Q|e]|]; [|reflexivity|reflexivity]. cbn [bind]. unfold finish.
  replace ((118 + Z.of_nat (length ct) - 16 - 86 - 32) mod 16 =? 0) with (length ct mod 16 =? 0)%nat; [reflexivity|].
  replace (118 + Z.of_nat (length ct) - 16 - 86 - 32) with (Z.of_nat (length ct) + -1 * 16) by lia.
  rewrite Z_mod_plus_full. change (Z.of_nat (length ct) mod 16) with (Z.of_nat (length ct) mod Z.of_nat 16). rewrite <- Nat2Z.inj_mod.
  destruct (Nat.eqb_spec (length ct mod 16) 0) as [->|Nz]; [reflexivity|]. symmetry. apply Z.eqb_neq. lia.
Qed.

Lemma Decrypt_short sha256 sha512 D c priv inp : blen inp < 134 ->
  Decrypt sha256 sha512 D c priv inp = Ok (Fail EInputTooShort).
Proof. intros L. unfold Decrypt. change (16 + 70 + 16 + 32) with 134. rewrite (proj2 (Z.ltb_lt _ _)) by exact L. reflexivity. Qed.

(** every longer string can be cut so *)
Lemma inp_cut (inp : list Z) : (134 <= length inp)%nat -> exists iv cc xl X yl Y ct mac,
  inp = iv ++ cc ++ xl ++ X ++ yl ++ Y ++ ct ++ mac /\
  length iv = 16%nat /\ length cc = 2%nat /\ length xl = 2%nat /\ length X = 32%nat /\ length yl = 2%nat /\
  length Y = 32%nat /\ (16 <= length ct)%nat /\ length mac = 32%nat.
Proof.
  intros L. destruct (cut 16 inp) as (iv & s1 & -> & L1); [lia|]. rewrite app_length in L.
  destruct (cut 2 s1) as (cc & s2 & -> & L2); [lia|]. rewrite app_length in L.
  destruct (cut 2 s2) as (xl & s3 & -> & L3); [lia|]. rewrite app_length in L.
  destruct (cut 32 s3) as (X & s4 & -> & L4); [lia|]. rewrite app_length in L.
  destruct (cut 2 s4) as (yl & s5 & -> & L5); [lia|]. rewrite app_length in L.
  destruct (cut 32 s5) as (Y & s6 & -> & L6); [lia|]. rewrite app_length in L.
  destruct (cut (length s6 - 32) s6) as (ct & mac & E & L7); [lia|].
  assert (LL : length s6 = (length ct + length mac)%nat) by (rewrite E; apply app_length).
  exists iv, cc, xl, X, yl, Y, ct, mac. rewrite E. repeat (split; [first [reflexivity|assumption|lia]|]). lia.
Qed.

Section Msg.
Variables (sha256 sha512 : list Z -> list Z) (E D : list Z -> list Z -> list Z) (c : curve).
Hypotheses (BC : block_cipher E D) (H256 : hash_to 32 sha256) (H512 : hash_to 64 sha512) (C : curve_ok c).
Notation Decrypt := (Decrypt sha256 sha512 D c).
Notation message := (ecies_message sha256 sha512 E).
Definition shared (k : privkey) (Q : point) : list Z := bigBytes (fst (smul (Z.abs (kD k)) Q)).

Lemma keyE_len s : length (firstn 32 (sha512 s)) = 32%nat.
Proof. rewrite firstn_length, (proj1 (H512 s)). reflexivity. Qed.
Lemma mac_len k m : length (hmac sha256 k m) = 32%nat.
Proof. apply H256. Qed.

(** the message, cut at the field boundaries *)
Lemma message_parts s iv Q bs : message s iv Q bs =
  iv ++ ciphCurveBytes ++ ciphCoordLength ++ be32 (fst Q) ++ ciphCoordLength ++ be32 (snd Q) ++
  concat (cbc (E (firstn 32 (sha512 s))) iv bs) ++
  hmac sha256 (skipn 32 (sha512 s)) (iv ++ ciphCurveBytes ++ ciphCoordLength ++ be32 (fst Q) ++ ciphCoordLength ++ be32 (snd Q) ++ concat (cbc (E (firstn 32 (sha512 s))) iv bs)).
Proof.
  unfold ecies_message. unfold ciphCurveBytes, ciphCoordLength. rewrite <- !app_assoc. reflexivity.
Qed.

Lemma be32_len v : length (be32 v) = 32%nat. Proof. apply be_bytes_len. Qed.

Lemma crypt_blocks f iv cs : block iv -> Forall block cs ->
  CryptBlocks f iv (concat cs) = Ok (f (length cs) iv (concat cs)).
Proof.
  intros [Li _] F. unfold CryptBlocks. change aesBlock with 16%nat. rewrite Li, (concat_len _ F).
  rewrite (Nat.mul_comm 16), Nat.mod_mul, Nat.div_mul by discriminate. reflexivity.
Qed.

Lemma decrypt_message priv iv Q bs : on_curve Q -> block iv -> Forall block bs -> bs <> [] ->
  Decrypt priv (message (shared priv Q) iv Q bs) = removePKCSPadding (concat bs).
Proof.
  intros HQ Hi F Ne. rewrite message_parts. set (s := shared priv Q).
  assert (Fc : Forall block (cbc (E (firstn 32 (sha512 s))) iv bs)) by (apply (cbc_blocks E D); [exact BC|apply keyE_len|assumption..]).
  rewrite Decrypt_parts; [|exact (proj1 Hi)|reflexivity|reflexivity|apply be32_len|reflexivity|apply be32_len| |apply mac_len].
  2:{ rewrite (concat_len _ Fc), cbc_len. destruct bs; [congruence|]. cbn [length]. lia. }
  rewrite !bytesEqual_refl. cbn [negb]. unfold be32 at 1 2. rewrite (parse_U c C Q 4 HQ (or_introl eq_refl)). cbn [bind].
  unfold finish. rewrite (secret_ok c C) by (right; exact HQ). fold (shared priv Q). fold s. cbn [bind].
  rewrite (concat_len _ Fc), (Nat.mul_comm 16), Nat.mod_mul by discriminate. cbn [Nat.eqb negb].
  rewrite bytesEqual_refl. cbn [negb]. rewrite (crypt_blocks _ _ _ Hi Fc). cbn [bind]. rewrite cbc_len.
  rewrite (cbcDec_enc E D); [reflexivity|exact BC|apply keyE_len|assumption..].
Qed.

(** whatever is not rejected before the padding check is such a message *)
Lemma decrypt_cases priv inp : bytes_ok inp ->
  (exists e, Decrypt priv inp = Ok (Fail e)) \/
  exists iv Q bs, block iv /\ on_curve Q /\ Forall block bs /\ bs <> [] /\ inp = message (shared priv Q) iv Q bs.
Proof.
  intros B. destruct (Z_lt_ge_dec (blen inp) 134) as [Sh|Ge].
  { left. eexists. apply Decrypt_short. exact Sh. }
  destruct (inp_cut inp) as (iv & cc & xl & X & yl & Y & ct & mac & E0 & L1 & L2 & L3 & L4 & L5 & L6 & L7 & L8); [unfold blen in Ge; lia|].
  rewrite E0 in B. apply Forall_app in B. destruct B as [B1 B]. apply Forall_app in B. destruct B as [B2 B].
  apply Forall_app in B. destruct B as [B3 B]. apply Forall_app in B. destruct B as [B4 B]. apply Forall_app in B. destruct B as [B5 B].
  apply Forall_app in B. destruct B as [B6 B]. apply Forall_app in B. destruct B as [B7 B8].
  rewrite E0. rewrite Decrypt_parts by assumption.
  destruct (bytesEqual cc ciphCurveBytes) eqn:Ecc; cbn [negb]; [|left; eexists; reflexivity]. apply bytesEqual_eq in Ecc.
  destruct (bytesEqual xl ciphCoordLength) eqn:Exl; cbn [negb]; [|left; eexists; reflexivity]. apply bytesEqual_eq in Exl.
  destruct (bytesEqual yl ciphCoordLength) eqn:Eyl; cbn [negb]; [|left; eexists; reflexivity]. apply bytesEqual_eq in Eyl.
  assert (BP : bytes_ok (4 :: X ++ Y)) by (constructor; [split; [discriminate|reflexivity]|apply Forall_app; auto]).
  destruct (parse_total c C _ BP) as [[Q|e] EP]; rewrite EP; cbn [bind]; [|left; eexists; reflexivity].
  destruct (parse_sound c C _ _ BP EP) as [HQ Fm].
  assert (XY : X = be32 (fst Q) /\ Y = be32 (snd Q)).
  { assert (XY : X ++ Y = be_bytes 32 (fst Q) ++ be_bytes 32 (snd Q)).
    { destruct Fm as [H|[H|[H|H]]]; try (injection H as H; exact H).
      - discriminate H.
      - exfalso. destruct (Z.odd (snd Q)); discriminate H.
      - exfalso. destruct (Z.odd (snd Q)); discriminate H. }
    apply (f_equal (firstn 32)) in XY as X1. apply (f_equal (skipn 32)) in XY as X2.
    rewrite !firstn_blk in X1 by (assumption || apply be_bytes_len). rewrite !skipn_blk in X2 by (assumption || apply be_bytes_len).
    split; assumption. }
  destruct XY as [EX EY]. unfold finish. destruct (Nat.eqb_spec (length ct mod 16) 0) as [M|M]; cbn [negb]; [|left; eexists; reflexivity].
  rewrite (secret_ok c C) by (right; exact HQ). fold (shared priv Q). cbn [bind].
  destruct (bytesEqual mac _) eqn:Em; cbn [negb]; [|left; eexists; reflexivity]. apply bytesEqual_eq in Em.
  right. apply mod16 in M. set (n := (length ct / 16)%nat) in *.
  destruct (cbcDec_inv E D (firstn 32 (sha512 (shared priv Q))) BC (keyE_len _) iv (split16 n ct) (conj L1 B1) (split16_blocks n ct M B7))
    as (bs & Fb & Lb & _ & Ec).
  exists iv, Q, bs. split; [split; assumption|]. split; [exact HQ|]. split; [exact Fb|]. split.
  - intros ->. apply (f_equal (@length (list Z))) in Ec. cbn [cbc length] in Ec. destruct n; [lia|discriminate Ec].
  - rewrite message_parts. rewrite <- Ec, (split16_concat n ct M), <- EX, <- EY. rewrite Ecc, Exl, Eyl in Em |- *. rewrite <- Em. reflexivity.
Qed.

Lemma concat_ge bs : Forall block bs -> bs <> [] -> (16 <= length (concat bs))%nat.
Proof. intros F Ne. rewrite (concat_len _ F). destruct bs; [congruence|]. cbn [length]. lia. Qed.

Lemma decrypt_total priv inp : bytes_ok inp -> exists r, Decrypt priv inp = Ok r.
Proof.
  intros B. destruct (decrypt_cases priv inp B) as [[e H]|(iv & Q & bs & Hi & HQ & F & Ne & ->)]; [eexists; exact H|].
  rewrite decrypt_message by assumption.
  destruct (remove_inv _ (concat_bytes _ F) (concat_ge _ F Ne)) as [(m & q & H & _)|[H _]]; eexists; exact H.
Qed.

(** *** Encrypt *)
Lemma encrypt_ok Q buf n d iv : is_point Q -> (n <= length buf)%nat -> 0 < d < N -> block iv -> bytes_ok buf ->
  exists bs, Forall block bs /\ bs <> [] /\ pkcs7 (firstn n buf) (concat bs) /\
  Encrypt sha256 sha512 E c Q buf n (Some d) (Some iv) =
  Ok (fst (addPKCSPadding buf n), Val (message (bigBytes (fst (smul d Q))) iv (smul d G) bs)).
Proof.
  intros HQ Ln Hd Hi Bb. pose proof (addPKCS_pkcs buf n Ln) as PK. unfold Encrypt.
  destruct (addPKCSPadding buf n) as [buf' p]. cbn [fst snd] in PK |- *.
  assert (Bp : bytes_ok p) by (eapply pkcs7_bytes; [|exact PK]; apply bytes_firstn; exact Bb).
  destruct PK as (k & Hk & Ep & j & Lj). exists (split16 j p).
  assert (Fb : Forall block (split16 j p)) by (apply split16_blocks; assumption).
  split; [exact Fb|]. split.
  { intros E0. apply (f_equal (@length (list Z))) in E0. destruct j; [|discriminate E0]. rewrite Ep, app_length, repeat_length in Lj. lia. }
  split; [rewrite split16_concat by exact Lj; exists k; eauto|].
  unfold NewPrivateKey. rewrite (ok_base c C _ (bigBytes_ok d)), beval_bigBytes, Z.abs_eq by lia. cbn [bind].
  rewrite (secret_ok c C) by exact HQ. cbn [bind kD PubKey kPub]. rewrite Z.abs_eq by lia.
  rewrite (serU (smul d G)) by (apply is_point_smul; exact is_point_G).
  fold (be32 (fst (smul d G))) (be32 (snd (smul d G))). set (X := be32 (fst _)). set (Y := be32 (snd _)).
  assert (LX : length X = 32%nat) by apply be32_len. assert (LY : length Y = 32%nat) by apply be32_len.
  replace (slice (4 :: X ++ Y) 1 33) with X.
  2:{ symmetry. apply (slice_mid [4] X Y); [reflexivity|]. rewrite LX. reflexivity. }
  replace (skipn 33 (4 :: X ++ Y)) with Y by (symmetry; exact (skipn_blk 32 X Y LX)).
  rewrite !copyTo_id by (assumption || reflexivity || apply mac_len).
  pose proof (split16_concat j p Lj) as Pc. revert Fb Pc. generalize (split16 j p). intros bs Fb Pc. rewrite <- Pc.
  rewrite (crypt_blocks _ _ _ Hi Fb). cbn [bind]. rewrite cbcEnc_spec, split_concat by exact Fb.
  rewrite (copyTo_id 32) by apply mac_len. do 3 f_equal. unfold ecies_message. rewrite <- !app_assoc. reflexivity.
Qed.

Lemma encrypt_decrypt priv buf n d iv : kPub priv = smul (kD priv) G -> 0 <= kD priv -> (n <= length buf)%nat -> 0 < d < N -> block iv -> bytes_ok buf ->
  exists buf' out, Encrypt sha256 sha512 E c (kPub priv) buf n (Some d) (Some iv) = Ok (buf', Val out) /\
  Decrypt priv out = Ok (Val (firstn n buf)).
Proof.
  intros HK HD Ln Hd Hi Bb.
  destruct (encrypt_ok (kPub priv) buf n d iv) as (bs & Fb & Ne & PK & EE); try assumption.
  { rewrite HK. apply is_point_smul. exact is_point_G. }
  do 2 eexists. split; [exact EE|].
  replace (bigBytes (fst (smul d (kPub priv)))) with (shared priv (smul d G)).
  - rewrite decrypt_message; [apply remove_add; exact PK| |assumption..].
    apply kG_on. exact Hd.
  - unfold shared. rewrite HK, Z.abs_eq by exact HD. rewrite <- !smul_mul by exact is_point_G. rewrite Z.mul_comm. reflexivity.
Qed.
End Msg.
