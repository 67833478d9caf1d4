(** * C89: what Decrypt, RecoverCompact, ReadVarInt and Sign report, and that Decrypt is no padding oracle *)
From Coq Require Import String ZArith List Bool Lia.
From Verif Require Import Spec Go Wire Big Order CurveGroup CurveZ SpecZk ZkBase SpecBtc SpecCurve SpecTotal Koblitz KobTab CodecProofs PubKey PubKeyProofs
  Signature EcdsaProofs SpecCipher Ciphering CipherProofs SpecRfc6979 RfcProofs TotalProofs PropRfc6979 Text Errors SpecErrors ErrorsProofs ErrorsProofs3 Reports SpecReports ReportsProofs.
Import ListNotations.
Open Scope Z_scope.

(** C89: Decrypt checks, in this order, the length, the curve number, the lengths of the
    coordinates, the sender's point, that there are whole blocks, the MAC of everything
    before it, and the padding; the text is that of the first that fails, and it succeeds
    if none does. *)
Theorem C89_decrypt : forall sha256 sha512 E D c priv inp, hash_to 64 sha512 -> block_cipher E D -> curve_ok c -> 0 <= kD priv -> bytes_ok inp ->
  parses (decryptText inp) (Decrypt sha256 sha512 D c priv inp) (decryptChecks sha256 sha512 D (kD priv) inp).
Proof. intros sha256 sha512 E D c priv inp H C. exact (fun K => decrypt_text sha256 sha512 E D c H K priv inp C). Qed.
Print Assumptions C89_decrypt.

(** C89: a message whose MAC is wrong is not decrypted: what Decrypt returns for it is the
    same whatever the private key and the block cipher are, so it tells nothing about
    the key or about the text of a message somebody has tampered with. *)
Theorem C89_no_padding_oracle : forall sha256 sha512 D D' c priv priv' inp, curve_ok c -> 0 <= kD priv -> 0 <= kD priv' -> bytes_ok inp ->
  ~ macRight sha256 sha512 (kD priv) inp -> ~ macRight sha256 sha512 (kD priv') inp ->
  Decrypt sha256 sha512 D c priv inp = Decrypt sha256 sha512 D' c priv' inp.
Proof. intros sha256 sha512 D D' c priv priv' inp C. exact (no_oracle sha256 sha512 D D c C D' priv priv' inp). Qed.
Print Assumptions C89_no_padding_oracle.

(** C89: RecoverCompact, when it does not crash (C56_recover_crash_refuted tells when it
    does), checks the length and then that R belongs to a point. *)
Theorem C89_recover_compact : forall c bs h, curve_ok c -> curve_total c -> bytes_ok bs -> RecoverCompact c bs h <> Panic ->
  parses compactText (RecoverCompact c bs h) (compactChecks bs).
Proof. exact compact_text. Qed.
Print Assumptions C89_recover_compact.

(** C89: ReadVarInt, for every string: the end of the input is told from an input cut off
    in the middle of a number, and a number that is too long is reported with its value,
    its first byte and the smallest value allowed. *)
Theorem C89_read_varint : forall s, readsOr (varIntText s) (ReadVarInt s) (varIntChecks s).
Proof. exact varint_text. Qed.
Print Assumptions C89_read_varint.

(** C89: the only error of Sign is that S is zero, for the nonce [k] RFC 6979 prescribes. *)
Theorem C89_sign : forall sha fuel c key h r k, hash_to 32 sha -> curve_ok c -> 0 <= kD key < 2 ^ 256 -> bytes_ok h ->
  signRFC6979 sha fuel c key h = Some r -> rfc6979 sha (kD key) (digest h) k -> fst (smul k G) <> N ->
  parses signText r [(ecdsa_s (kD key) (digest h) k <> 0, says' "calculated S is zero")].
Proof.
  intros sha fuel c key h r k HS C Hx B E K Hn. destruct (C70_sign_is_rfc6979 sha c key h k HS C Hx B K Hn) as (f0 & Hf).
  rewrite (C70_deterministic sha fuel f0 c key h h r _ HS Hx B B eq_refl E (Hf f0 (le_n f0))).
  destruct (Z.eqb_spec (ecdsa_s (kD key) (digest h) k) 0) as [Z0|Z1].
  - apply ps_err. apply FailsHere; [intros H; exact (H Z0)|]. reflexivity.
  - apply ps_ok. nx (exact Z1). constructor.
Qed.
Print Assumptions C89_sign.

(** ** The hypotheses can be met *)
Definition tampered : list Z := repeat 7 16 ++ [0x02; 0xCA; 0; 32] ++ be32 (fst G) ++ [0; 32] ++ be32 (snd G) ++ repeat 1 16 ++ repeat 0 32.
Example C89_decrypt_case : let c := S256 (mkTable G) (mkTable Htab) in let sha256 := fun _ : list Z => be_bytes 32 2 in let sha512 := fun m => be_bytes 64 (beval m) in
  let E := fun (_ b : list Z) => rev b in let priv := {| kD := 5; kPub := smul 5 G |} in
  curve_ok c /\ block_cipher E E /\ hash_to 64 sha512 /\ bytes_ok tampered /\ ~ macRight sha256 sha512 (kD priv) tampered /\
  firstFailing (decryptChecks sha256 sha512 E (kD priv) tampered) (Some (ascii "invalid mac hash")).
Proof.
  intros c sha256 sha512 E priv.
  assert (C : curve_ok c) by (apply S256_ok; [exact (mkTable_ok G is_point_G)|exact (mkTable_ok Htab is_point_Htab)]).
  assert (BC : block_cipher E E).
  { intros k b _ [L B]. unfold E. rewrite rev_involutive. assert (block (rev b)); [|auto]. split; [rewrite rev_length; exact L|apply Forall_rev; exact B]. }
  assert (H2 : hash_to 64 sha512) by (intros m; split; [apply be_bytes_len|apply be_bytes_ok]).
  assert (B : bytes_ok tampered).
  { apply Forall_forall. intros b I. assert (F : forallb (fun b => (0 <=? b) && (b <? 256)) tampered = true) by (vm_compute; reflexivity).
    rewrite forallb_forall in F. specialize (F b I). apply andb_true_iff in F. destruct F as [F1 F2]. apply Z.leb_le in F1. apply Z.ltb_lt in F2. split; assumption. }
  assert (NM : ~ macRight sha256 sha512 (kD priv) tampered).
  { unfold macRight. cbv zeta. generalize (sharedKeys sha512 (kD priv) tampered). intros k. unfold hmac, sha256. intros K. discriminate K. }
  repeat (split; [assumption|]).
  unfold decryptChecks. cbv zeta. replace (senderPoint tampered) with G by reflexivity.
    nx (cbv; discriminate). nx reflexivity. nx reflexivity. nx reflexivity. nx reflexivity. nx reflexivity. nx (exact GMult.G_on_curve). nx reflexivity. fl (exact NM).
Qed.
Example C89_varint_case : ReadVarInt [0xfd; 1; 0] = RErr ENonCanonical [] /\ varIntText [0xfd; 1; 0] ENonCanonical = ascii "ReadVarInt: errNonCanonicalVarInt: 1 253 253".
Proof. split; reflexivity. Qed.
