(** * Further properties of keys and signatures (C54, C63) *)
From Coq Require Import ZArith List Bool Lia Field.
From Verif Require Import Spec Go Wire Big CurveGroup GMult Order FieldN SpecZk ZkBase SpecBtc SpecTotal SpecCurve CodecProofs Sha256 Koblitz KobTab TotalProofs
  PubKey PubKeyProofs Signature DerProofs EcdsaProofs CurveZ FastMul PropPubKey PropDer PropEcdsa.
Import ListNotations.
Open Scope Z_scope.

(** C54: IsCompressedPubKey looks at the length and the first byte only ... *)
Theorem C54_is_compressed s : bytes_ok s ->
  (IsCompressedPubKey s = true <-> length s = 33%nat /\ (nth 0 s 0 = 2 \/ nth 0 s 0 = 3)).
Proof.
  intros B. unfold IsCompressedPubKey, blen, lenCompressed, pubkeyCompressed. rewrite andb_true_iff, Z.eqb_eq, Z.eqb_eq.
  destruct s as [|b t]; [cbn; lia|]. cbn [nth]. assert (Hb : is_byte b) by (inversion B; assumption).
  assert (K : (clearBit0 b =? 2) = (b =? 2) || (b =? 3)).
  { apply Bool.eqb_prop. apply (byte_check (fun b => Bool.eqb (clearBit0 b =? 2) ((b =? 2) || (b =? 3)))); [vm_compute; reflexivity|exact Hb]. }
  rewrite <- Z.eqb_eq with (n := clearBit0 b), K, orb_true_iff, !Z.eqb_eq. lia.
Qed.
Print Assumptions C54_is_compressed.
(** ... so that of the three serialisations it recognises exactly the compressed one. *)
Theorem C54_is_compressed_format p : on_curve p ->
  IsCompressedPubKey (SerializeCompressed p) = true /\
  IsCompressedPubKey (SerializeUncompressed p) = false /\ IsCompressedPubKey (SerializeHybrid p) = false.
Proof.
  intros H. destruct (C54_format p H) as (-> & -> & ->). unfold IsCompressedPubKey, blen, sec_compressed, sec_uncompressed, sec_hybrid, be32.
  cbn [length]. rewrite !app_length, !be_bytes_len. cbn [Nat.add]. split; [|split; reflexivity].
  destruct (Z.odd (snd p)); reflexivity.
Qed.
Print Assumptions C54_is_compressed_format.
(** C54: two keys are equal for IsEqual exactly when they serialise to the same bytes. *)
Theorem C54_is_equal p q : on_curve p -> on_curve q ->
  (PubKeyIsEqual p q = true <-> p = q) /\ (PubKeyIsEqual p q = true <-> SerializeCompressed p = SerializeCompressed q).
Proof.
  intros Hp Hq. assert (K : PubKeyIsEqual p q = true <-> p = q).
  { unfold PubKeyIsEqual. rewrite andb_true_iff, !Z.eqb_eq. destruct p, q. cbn [fst snd]. split; [intros [-> ->]; reflexivity|].
    intros E. split; congruence. }
  split; [exact K|]. rewrite K. split; [intros ->; reflexivity|]. intros E.
  apply (C54_injective p q (SerializeCompressed p) (SerializeCompressed q) Hp Hq); [right; left; reflexivity|right; left; reflexivity|exact E].
Qed.
Print Assumptions C54_is_equal.
(** a key and its negation share a compressed body, differ in the prefix, and IsEqual tells them apart *)
Example C54_equal_case : on_curve G /\ on_curve (pneg G) /\ PubKeyIsEqual G G = true /\ PubKeyIsEqual G (pneg G) = false.
Proof. split; [exact G_on_curve|]. split; [apply on_curve_pneg, G_on_curve|]. split; reflexivity. Qed.

(** C63: IsEqual compares both numbers of a signature. *)
Theorem C63_is_equal a b : SigIsEqual a b = true <-> a = b.
Proof.
  unfold SigIsEqual. rewrite andb_true_iff, !Z.eqb_eq. destruct a as [r s], b as [r' s']. cbn [sR sS].
  split; [intros [-> ->]; reflexivity|]. intros E. split; congruence.
Qed.
Print Assumptions C63_is_equal.

Lemma low_flip_gen n t : Z.odd n = true -> 0 < t < n ->
  (if n - t <=? n / 2 then n - t else n - (n - t)) = (if t <=? n / 2 then t else n - t).
Proof.
  intros Od Ht. pose proof (Z.div_mod n 2 ltac:(lia)) as D. rewrite Zmod_odd, Od in D.
  destruct (Z.leb_spec (n - t) (n / 2)), (Z.leb_spec t (n / 2)); lia.
Qed.
Lemma low_flip t : 0 < t < N -> low (N - t) = low t.
Proof. exact (low_flip_gen N t eq_refl). Qed.
Lemma ecdsa_neg Q e r s : is_point Q -> ecdsa_valid Q e r s -> ecdsa_valid Q e r (N - s).
Proof.
  intros HQ (Hr & Hs & NO & E). unfold ecdsa_valid. split; [exact Hr|]. split; [clear -Hs; lia|].
  assert (K : padd (smul (e * ninv (N - s)) G) (smul (r * ninv (N - s)) Q) = pneg (padd (smul (e * ninv s) G) (smul (r * ninv s) Q))).
  { pose proof (nz_nz s (mod_range s Hs)) as NZ. destruct (dlog Q HQ) as [q Eq]. rewrite Eq. clear Eq E NO. gpush. apply smul_G_eq. nzpush.
    replace (nz N) with n0 by (apply nz_eq; reflexivity). assert (NZ' : nopp (nz s) <> n0) by (intros F; apply NZ; replace (nz s) with (nopp (nopp (nz s))) by ring; rewrite F; ring).
    field. split; assumption. }
  rewrite K. cbv zeta. assert (IR : is_point (padd (smul (e * ninv s) G) (smul (r * ninv s) Q))) by isp.
  revert NO E IR. generalize (padd (smul (e * ninv s) G) (smul (r * ninv s) Q)). intros R NO E IR. split; [|exact E].
  intros F. apply NO. rewrite <- (pneg_invol R IR), F. reflexivity.
Qed.

(** C63 (refuted): a valid signature is not the only one somebody without the key can
    show: negating S gives another one for the same digest and key ... *)
Theorem C63_malleable_refuted c s h Q : curve_ok c -> is_point Q -> Verify c s h Q = Ok true ->
  let s' := {| sR := sR s; sS := N - sS s |} in Verify c s' h Q = Ok true /\ SigIsEqual s s' = false.
Proof.
  intros C HQ V. cbv zeta. destruct (C56_verify_is_ecdsa c s h Q C HQ) as (b & Eb & Hb).
  destruct (C56_verify_is_ecdsa c {| sR := sR s; sS := N - sS s |} h Q C HQ) as (b' & Eb' & Hb'). cbn [sR sS] in Hb'.
  rewrite Eb in V. assert (T : b = true) by congruence. pose proof (proj1 Hb T) as D.
  split.
  - rewrite Eb'. f_equal. apply Hb'. apply ecdsa_neg; assumption.
  - destruct D as (_ & Hs & _). unfold SigIsEqual. cbn [sR sS]. rewrite Z.eqb_refl. apply Z.eqb_neq. intros F.
    assert (F2 : N = 2 * sS s) by (clear -F; lia). apply (f_equal Z.odd) in F2. rewrite Z.odd_mul in F2. discriminate F2.
Qed.
Print Assumptions C63_malleable_refuted.
(** ... while Serialize writes both in the same way; what it writes verifies for both
    parsers whenever the signature does. *)
Theorem C63_serialize_verifies c s h Q junk : curve_ok c -> is_point Q -> Verify c s h Q = Ok true ->
  SigSerialize {| sR := sR s; sS := N - sS s |} = SigSerialize s /\
  exists s', ParseDERSignature (SigSerialize s ++ junk) = Ok (Val s') /\ ParseSignature (SigSerialize s ++ junk) = Ok (Val s') /\
    sS s' <= N / 2 /\ Verify c s' h Q = Ok true.
Proof.
  intros C HQ V. pose proof (proj1 (C63_malleable_refuted c s h Q C HQ V)) as V'.
  assert (B : 0 < sR s < N /\ 0 < sS s < N).
  { destruct (C56_verify_is_ecdsa c s h Q C HQ) as (b & Eb & Hb). rewrite Eb in V.
    assert (T : b = true) by congruence. destruct (proj1 Hb T) as (Hr & Hs & _). split; assumption. }
  destruct B as [Hr Hs]. assert (Hs' : 0 < N - sS s < N) by (clear -Hs; lia).
  destruct s as [r t]. cbn [sR sS] in *. split.
  - rewrite !serialize_der by (cbn [sR sS]; (assumption || (clear -Hr; lia))). cbn [sR sS]. rewrite low_flip by exact Hs. reflexivity.
  - destruct (C55_roundtrip {| sR := r; sS := t |} junk Hr Hs) as [E1 E2]. cbn [sR sS] in E1, E2.
    exists {| sR := r; sS := low t |}. split; [exact E1|]. split; [exact E2|]. clear E1 E2. cbn [sS].
    split; [exact (proj2 (low_range t Hs))|]. unfold low. destruct (t <=? N / 2); assumption.
Qed.
Print Assumptions C63_serialize_verifies.

(** C63: signing and verifying look at the first 32 bytes of the digest only. *)
Theorem C63_digest_prefix sha fuel c key s h Q :
  Verify c s h Q = Verify c s (firstn 32 h) Q /\ signRFC6979 sha fuel c key h = signRFC6979 sha fuel c key (firstn 32 h).
Proof.
  assert (E : hashToInt (firstn 32 h) = hashToInt h) by (rewrite !hashToInt_digest; unfold digest; rewrite firstn_firstn; reflexivity).
  split.
  - unfold Verify. rewrite E. reflexivity.
  - unfold signRFC6979, nonceRFC6979, bits2octets, signNonce. rewrite E. reflexivity.
Qed.
Print Assumptions C63_digest_prefix.
(** a signature of the modelled signer, to which the theorems apply *)
Example C63_case : let c := S256 (mkTable G) (mkTable Htab) in
  exists s, curve_ok c /\ is_point G /\ Verify c s [1; 2; 3] G = Ok true.
Proof.
  cbv zeta. destruct C56_case as (C & _ & Hk & s & Sg & HN).
  exists s. split; [exact C|]. split; [isp|].
  exact (proj1 (C56_sign_verifies _ _ _ _ _ _ C Hk Sg HN)).
Qed.
