(** * Properties of ECDH and the encryption of btcec (C57)

    [sha256], [sha512]: any functions with 32- and 64-byte results.  [E], [D]: any
    block cipher, that is, mutually inverse permutations of the blocks for every key. *)
From Coq Require Import ZArith List Bool Lia.
From Verif Require Import Spec Go Wire Big Order GMult CurveGroup SpecZk ZkBase SpecBtc SpecCurve SpecTotal Koblitz KobTab FastMul
  CodecProofs PubKey PubKeyProofs Signature DerProofs EcdsaProofs SpecCipher Ciphering CipherProofs TotalProofs.
Import ListNotations.
Open Scope Z_scope.

(** C57: both parties of a Diffie-Hellman exchange get the same secret, the minimal
    big-endian bytes of the x coordinate of a*b*G. *)
Theorem C57_shared_secret c a b : curve_ok c -> 0 <= kD a -> 0 <= kD b ->
  kPub a = smul (kD a) G -> kPub b = smul (kD b) G ->
  exists s, GenerateSharedSecret c a (kPub b) = Ok s /\ GenerateSharedSecret c b (kPub a) = Ok s /\
            beval s = fst (smul (kD a * kD b) G).
Proof.
  intros C Ha Hb Ea Eb. eexists. rewrite !(secret_ok c C) by (rewrite ?Ea, ?Eb; apply is_point_smul; exact is_point_G).
  split; [reflexivity|]. rewrite Ea, Eb, !Z.abs_eq by assumption. rewrite <- !smul_mul by exact is_point_G.
  split; [rewrite Z.mul_comm; reflexivity|]. rewrite beval_bigBytes, Z.abs_eq; [reflexivity|].
  assert (Hp : is_point (smul (kD a * kD b) G)) by (apply is_point_smul; exact is_point_G).
  exact (proj1 (proj1 (coord_range_256 _ Hp))).
Qed.
Print Assumptions C57_shared_secret.

(** C57: the secret is not the fixed-length encoding of the coordinate (RFC 5903): it is
    shorter when the coordinate is small. *)
Theorem C57_secret_length_refuted c : curve_ok c -> exists k Q s,
  on_curve Q /\ 0 < kD k < N /\ GenerateSharedSecret c k Q = Ok s /\ length s = 1%nat.
Proof.
  intros C. set (Q := (1, 0x4218f20ae6c646b363db68605822fb14264ca8d2587fdd6fbc750d587e76a7ee) : point).
  assert (HQ : on_curve Q) by (apply oncb_ok; vm_compute; reflexivity).
  exists {| kD := 1; kPub := G |}, Q. eexists. split; [exact HQ|]. split; [split; reflexivity|].
  rewrite (secret_ok c C) by (right; exact HQ). cbn [kD]. change (Z.abs 1) with 1. rewrite smul_1.
  split; reflexivity.
Qed.
Print Assumptions C57_secret_length_refuted.

(** C57: Encrypt produces the documented structure: IV, curve number, ephemeral public
    key d*G, CBC encryption of the PKCS#7-padded message, MAC; the keys come from the
    secret d*Q. *)
Theorem C57_encrypt_is_ecies sha256 sha512 E D c Q buf n d iv : curve_ok c ->
  block_cipher E D -> hash_to 32 sha256 -> hash_to 64 sha512 ->
  is_point Q -> (n <= length buf)%nat -> bytes_ok buf -> 0 < d < N -> block iv ->
  exists buf' blocks, Forall block blocks /\ pkcs7 (firstn n buf) (concat blocks) /\
  Encrypt sha256 sha512 E c Q buf n (Some d) (Some iv) =
    Ok (buf', Val (ecies_message sha256 sha512 E (bigBytes (fst (smul d Q))) iv (smul d G) blocks)).
Proof.
  intros C BC H1 H2 HQ Ln Bb Hd Hi. destruct (encrypt_ok sha256 sha512 E c H1 C Q buf n d iv HQ Ln Hd Hi Bb) as (bs & F & _ & PK & EE).
  do 2 eexists. split; [exact F|]. split; [exact PK|]. exact EE.
Qed.
Print Assumptions C57_encrypt_is_ecies.

(** C57: Decrypt inverts Encrypt, for every message, key pair, ephemeral key and IV. *)
Theorem C57_roundtrip sha256 sha512 E D c priv buf n d iv : curve_ok c ->
  block_cipher E D -> hash_to 32 sha256 -> hash_to 64 sha512 ->
  0 <= kD priv -> kPub priv = smul (kD priv) G ->
  (n <= length buf)%nat -> bytes_ok buf -> 0 < d < N -> block iv ->
  exists buf' out, Encrypt sha256 sha512 E c (kPub priv) buf n (Some d) (Some iv) = Ok (buf', Val out) /\
                   Decrypt sha256 sha512 D c priv out = Ok (Val (firstn n buf)).
Proof. intros C BC H1 H2 HD HK Ln Bb Hd Hi. apply (encrypt_decrypt sha256 sha512 E D c BC H1 H2 C); assumption. Qed.
Print Assumptions C57_roundtrip.

(** C57: what Decrypt accepts carries a correct MAC under the key derived from D and the
    enclosed curve point, and decrypts to the returned bytes followed by as many bytes
    as the last of them says, at most sixteen. *)
Theorem C57_decrypt_sound sha256 sha512 E D c priv inp m : curve_ok c ->
  block_cipher E D -> hash_to 32 sha256 -> hash_to 64 sha512 -> 0 <= kD priv -> bytes_ok inp ->
  Decrypt sha256 sha512 D c priv inp = Ok (Val m) ->
  exists iv Q blocks pad, block iv /\ on_curve Q /\ Forall block blocks /\
    inp = ecies_message sha256 sha512 E (bigBytes (fst (smul (kD priv) Q))) iv Q blocks /\
    concat blocks = m ++ pad /\ blen pad = last (concat blocks) 0 /\ blen pad <= 16.
Proof.
  intros C BC H1 H2 HD B H.
  destruct (decrypt_cases sha256 sha512 E D c BC H2 C priv inp B) as [[e H']|(iv & Q & bs & Hi & HQ & F & Ne & E0)]; [congruence|].
  rewrite E0 in H. rewrite (decrypt_message sha256 sha512 E D c BC H1 H2 C) in H by assumption.
  destruct (remove_inv _ (concat_bytes _ F) (concat_ge _ F Ne)) as [(m' & q & Em & Ec & Lq & Le)|[Em _]]; [|congruence].
  rewrite Em in H. injection H as <-. exists iv, Q, bs, q. unfold shared in E0. rewrite Z.abs_eq in E0 by exact HD.
  repeat (split; [assumption|]). rewrite Lq. exact Le.
Qed.
Print Assumptions C57_decrypt_sound.

(** C57: the padding is not checked: Decrypt accepts, under the right key, strings that
    no run of Encrypt for that key produces. *)
Theorem C57_padding_unchecked_refuted sha256 sha512 E D c priv : curve_ok c ->
  block_cipher E D -> hash_to 32 sha256 -> hash_to 64 sha512 -> 0 <= kD priv -> kPub priv = smul (kD priv) G ->
  exists inp m, Decrypt sha256 sha512 D c priv inp = Ok (Val m) /\
    forall buf n d iv buf', (n <= length buf)%nat -> bytes_ok buf -> 0 < d < N -> block iv ->
      Encrypt sha256 sha512 E c (kPub priv) buf n (Some d) (Some iv) <> Ok (buf', Val inp).
Proof.
  intros C BC H1 H2 HD HK. set (z := repeat 0 16).
  assert (Bz : block z) by (split; [reflexivity|]; apply Forall_forall; intros x I; apply repeat_spec in I; subst x; split; [discriminate|reflexivity]).
  assert (Fz : Forall block [z]) by (constructor; [exact Bz|constructor]).
  assert (DZ : Decrypt sha256 sha512 D c priv (ecies_message sha256 sha512 E (shared priv G) z G [z]) = Ok (Val z)).
  { rewrite (decrypt_message sha256 sha512 E D c BC H1 H2 C); [reflexivity|exact G_on_curve|exact Bz|exact Fz|discriminate]. }
  exists (ecies_message sha256 sha512 E (shared priv G) z G [z]), z. split.
  - exact DZ.
  - intros buf n d iv buf' Ln Bb Hd Hi EE.
    assert (Em : firstn n buf = z).
    { destruct (encrypt_decrypt sha256 sha512 E D c BC H1 H2 C priv buf n d iv) as (b' & o & EO & DO); try assumption.
      rewrite EE in EO. apply Ok_inj in EO. assert (EO' : ecies_message sha256 sha512 E (shared priv G) z G [z] = o) by congruence.
      rewrite <- EO', DZ in DO. congruence. }
    destruct (encrypt_ok sha256 sha512 E c H1 C (kPub priv) buf n d iv) as (bs & F & Ne & PK & E0); try assumption.
    { rewrite HK. apply is_point_smul. exact is_point_G. }
    rewrite EE in E0. apply Ok_inj in E0.
    assert (E1 : ecies_message sha256 sha512 E (shared priv G) z G [z] =
                 ecies_message sha256 sha512 E (bigBytes (fst (smul d (kPub priv)))) iv (smul d G) bs) by congruence.
    apply (f_equal (@length Z)) in E1. unfold ecies_message in E1. rewrite !app_length in E1.
    rewrite !(mac_len sha256 H1) in E1. rewrite !be32_len in E1. rewrite (proj1 Hi), (proj1 Bz) in E1.
    rewrite !concat_len in E1 by (apply (cbc_blocks E D); try assumption; apply keyE_len; exact H2). rewrite !cbc_len in E1.
    destruct PK as (k & Hk & Ep & _). apply (f_equal (@length Z)) in Ep. rewrite (concat_len _ F), app_length, Em, repeat_length in Ep.
    cbn [length] in E1. rewrite (proj1 Bz) in Ep. lia.
Qed.
Print Assumptions C57_padding_unchecked_refuted.

(** C57: Decrypt never crashes, whatever the bytes. *)
Theorem C57_decrypt_total sha256 sha512 E D c priv inp : curve_ok c ->
  block_cipher E D -> hash_to 32 sha256 -> hash_to 64 sha512 -> bytes_ok inp ->
  exists r, Decrypt sha256 sha512 D c priv inp = Ok r.
Proof. intros C BC H1 H2 B. exact (decrypt_total sha256 sha512 E D c BC H1 H2 C priv inp B). Qed.
Print Assumptions C57_decrypt_total.

(** C57: Encrypt leaves the message itself alone, and nothing but (at most sixteen bytes
    of) the spare capacity behind it changes ... *)
Theorem C57_input_preserved sha256 sha512 E c Q buf n draw iv buf' r : (n <= length buf)%nat ->
  Encrypt sha256 sha512 E c Q buf n draw iv = Ok (buf', r) ->
  firstn n buf' = firstn n buf /\ skipn (n + 16) buf' = skipn (n + 16) buf /\ length buf' = length buf.
Proof.
  intros Ln H.
  assert (K : buf' = buf \/ buf' = fst (addPKCSPadding buf n)).
  { unfold Encrypt in H. destruct draw as [d|]; [|injection H as <- _; auto].
    destruct (NewPrivateKey c d) as [e|]; [|discriminate]. cbn [bind] in H.
    destruct (GenerateSharedSecret c e Q) as [s|]; [|discriminate]. cbn [bind] in H.
    destruct (addPKCSPadding buf n) as [b p]. destruct iv as [iv|]; [|injection H as <- _; auto].
    destruct (CryptBlocks _ _ _) as [ct|]; [|discriminate]. cbn [bind] in H. injection H as <- _. auto. }
  destruct K as [->| ->]; [auto|]. cbn [addPKCSPadding fst]. destruct (Nat.leb_spec (n + (aesBlock - n mod aesBlock)) (length buf)) as [L|L]; [|auto].
  destruct (pad_len n) as [Hp _]. set (k := (aesBlock - n mod aesBlock)%nat) in *.
  assert (Lf : length (firstn n buf) = n) by (rewrite firstn_length; lia).
  split; [apply firstn_blk; exact Lf|]. split.
  - rewrite app_assoc. rewrite skipn_app. rewrite app_length, repeat_length, Lf. rewrite skipn_all2 by (rewrite app_length, repeat_length, Lf; lia).
    cbn [app]. rewrite DerProofs.skipn_add. f_equal. lia.
  - rewrite !app_length, repeat_length, skipn_length, Lf. lia.
Qed.
Print Assumptions C57_input_preserved.

(** C57: ... but that spare capacity is overwritten: a caller that passes a prefix of a
    larger buffer loses the bytes behind it. *)
Theorem C57_overwrites_caller_refuted sha256 sha512 E D c Q d iv : curve_ok c ->
  block_cipher E D -> hash_to 32 sha256 -> hash_to 64 sha512 ->
  is_point Q -> 0 < d < N -> block iv -> exists buf n buf' out, (n <= length buf)%nat /\ bytes_ok buf /\
  Encrypt sha256 sha512 E c Q buf n (Some d) (Some iv) = Ok (buf', Val out) /\ nth n buf 0 <> nth n buf' 0.
Proof.
  intros C BC H1 H2 HQ Hd Hi. exists (repeat 0 32), 3%nat.
  destruct (encrypt_ok sha256 sha512 E c H1 C Q (repeat 0 32) 3 d iv) as (bs & F & _ & PK & EE); try assumption.
  - cbn. lia.
  - apply Forall_forall. intros x I. apply repeat_spec in I. subst x. split; [discriminate|reflexivity].
  - do 2 eexists. split; [cbn; lia|]. split; [|split; [exact EE|discriminate]].
    apply Forall_forall. intros x I. apply repeat_spec in I. subst x. split; [discriminate|reflexivity].
Qed.
Print Assumptions C57_overwrites_caller_refuted.

(** the hypotheses hold of the modelled curve, simple hash functions and a permutation *)
Example C57_case : let c := S256 (mkTable G) (mkTable Htab) in
  let E := fun (_ b : list Z) => rev b in
  let sha256 := fun m => be_bytes 32 (beval m) in let sha512 := fun m => be_bytes 64 (beval m) in
  let priv := {| kD := 5; kPub := smul 5 G |} in let iv := repeat 7 16 in
  curve_ok c /\ block_cipher E E /\ hash_to 32 sha256 /\ hash_to 64 sha512 /\ block iv /\
  exists buf' out, Encrypt sha256 sha512 E c (kPub priv) [1; 2; 3; 4] 4 (Some 9) (Some iv) = Ok (buf', Val out) /\
    Decrypt sha256 sha512 E c priv out = Ok (Val [1; 2; 3; 4]).
Proof.
  intros c E sha256 sha512 priv iv.
  assert (C : curve_ok c) by (apply S256_ok; [exact (mkTable_ok G is_point_G)|exact (mkTable_ok Htab is_point_Htab)]).
  assert (BC : block_cipher E E).
  { intros k b _ [L B]. unfold E. rewrite rev_involutive. assert (block (rev b)); [|auto].
    split; [rewrite rev_length; exact L|apply Forall_rev; exact B]. }
  assert (H1 : hash_to 32 sha256) by (intros m; split; [apply be_bytes_len|apply be_bytes_ok]).
  assert (H2 : hash_to 64 sha512) by (intros m; split; [apply be_bytes_len|apply be_bytes_ok]).
  assert (Bi : block iv).
  { split; [reflexivity|]. apply Forall_forall. intros x I. apply repeat_spec in I. subst x. split; [discriminate|reflexivity]. }
  repeat (split; [assumption|]).
  apply (C57_roundtrip sha256 sha512 E E c priv [1; 2; 3; 4] 4 9 iv C BC H1 H2); [discriminate|reflexivity|cbn; lia| |split; reflexivity|exact Bi].
  repeat (constructor; [split; [discriminate|reflexivity]|]). constructor.
Qed.
