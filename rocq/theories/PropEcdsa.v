(** * Properties of btcec signatures (C56) *)
From Coq Require Import ZArith List Bool Lia.
From Verif Require Import Spec Go Wire Big CurveGroup GMult Order FieldN SpecZk ZkBase SpecBtc SpecTotal SpecCurve CodecProofs Sha256 Koblitz KobTab TotalProofs
  PubKey PubKeyProofs Signature DerProofs EcdsaProofs.
Import ListNotations.
Open Scope Z_scope.

(** C56: Verify decides the ECDSA relation, for every key and every pair of numbers. *)
Theorem C56_verify_is_ecdsa c s h Q : curve_ok c -> is_point Q -> exists b,
  Verify c s h Q = Ok b /\ (b = true <-> ecdsa_valid Q (digest h) (sR s) (sS s)).
Proof. intros C. exact (verify_ok c C s h Q). Qed.
Print Assumptions C56_verify_is_ecdsa.

(** C56: Sign returns a signature or an error (S = 0), never crashes, for every hash
    function used by the nonce generator.  (The Go loop looking for a nonce has no bound;
    [fuel] is any number of its iterations after which it has found one.) *)
Theorem C56_sign_total sha fuel c key h r : curve_ok c -> signRFC6979 sha fuel c key h = Some r ->
  (exists s, r = Ok (Val s)) \/ r = Ok (Fail ESZero).
Proof.
  intros C. unfold signRFC6979. destruct (nonceRFC6979 sha fuel (kD key) h) as [k|] eqn:K; [|discriminate].
  intros E. injection E as <-. rewrite (signNonce_ok c C) by (eapply nonce_range; exact K).
  destruct (_ =? 0); [right; reflexivity|left; eexists; reflexivity].
Qed.
Print Assumptions C56_sign_total.

(** C56: a signature of Sign verifies under the key it was made with and has low S -
    except when its R is the group order itself. *)
Theorem C56_sign_verifies sha fuel c key h s : curve_ok c -> kPub key = smul (kD key) G ->
  signRFC6979 sha fuel c key h = Some (Ok (Val s)) -> sR s <> N ->
  Verify c s h (kPub key) = Ok true /\ 0 < sR s < N /\ 0 < sS s <= N / 2.
Proof.
  intros C Hp. unfold signRFC6979. destruct (nonceRFC6979 sha fuel (kD key) h) as [k|] eqn:K; [|discriminate].
  intros E HN. injection E as E. pose proof (nonce_range _ _ _ _ _ K) as Hk.
  destruct (sign_valid c C (kD key) k h s Hk E HN) as (L & Hr & V). split; [|auto]. rewrite Hp.
  destruct (verify_ok c C s h (smul (kD key) G)) as (b & Eb & Hb); [isp|]. rewrite Eb. apply f_equal. apply Hb. exact V.
Qed.
Print Assumptions C56_sign_verifies.

(** C56: the exception exists.  The reduction of the nonce point's X compares with
    "> N" where "< N" is needed, and N is the X coordinate of a curve point: some nonce
    gives a signature that does not verify, and crashes SignCompact. *)
Theorem C56_sign_boundary_refuted c : curve_ok c -> curve_total c -> exists sha key h s,
  kPub key = smul (kD key) G /\ bytes_ok h /\ signRFC6979 sha 1 c key h = Some (Ok (Val s)) /\
  Verify c s h (kPub key) = Ok false /\ SignCompact sha 1 c key h true = Some Panic.
Proof.
  intros C T. destruct nonceN as (k & Hk & Ek).
  set (sha := fun _ : list Z => be_bytes 32 k). set (key := {| kD := 1; kPub := smul 1 G |}). set (h := [1]).
  set (s := {| sR := N; sS := low (sig0 1 k h) |}).
  assert (K : nonceRFC6979 sha 1 (kD key) h = Some k).
  { unfold nonceRFC6979. cbn [nonceLoop]. replace (hashToInt _) with k.
    - rewrite (proj2 (Z.leb_le 1 k)) by lia. rewrite (proj2 (Z.ltb_lt k curveN)) by (change curveN with N; lia). reflexivity.
    - rewrite hashToInt_digest. unfold hmac, sha, digest. pose proof N_256.
      replace (firstn 32 (be_bytes 32 k)) with (be_bytes 32 k) by (rewrite firstn_all2; [reflexivity|rewrite be_bytes_len; apply le_n]).
      rewrite beval_be32 by lia. reflexivity. }
  assert (E : signNonce c (kD key) k h = Ok (Val s)).
  { rewrite (signNonce_ok c C) by exact Hk. change (kD key) with 1. unfold s. rewrite Ek.
    change (redx (fst ptN)) with N. replace (sig0 1 k h =? 0) with false; [reflexivity|]. symmetry. apply Z.eqb_neq.
    unfold sig0. rewrite Ek. change (redx (fst ptN)) with N. change (digest h) with 1.
    pose proof (ninv_ok k (mod_range k Hk)) as I. generalize dependent (ninv k). intros w I.
    replace ((1 * N + 1) * w) with (w + w * N) by ring. rewrite Z.mod_add by discriminate.
    intros F. rewrite Zmult_mod, F, Z.mul_0_l, Zmod_0_l in I. discriminate. }
  exists sha, key, h, s. split; [reflexivity|]. split; [repeat constructor; discriminate|].
  assert (Sg : signRFC6979 sha 1 c key h = Some (Ok (Val s))).
  { unfold signRFC6979. rewrite K, E. reflexivity. }
  split; [exact Sg|]. split.
  - unfold Verify. rewrite (ok_N c C). change (sR s) with N. rewrite Z.leb_refl. change (N <=? 0) with false. cbn [orb]. destruct (_ <=? _); reflexivity.
  - unfold SignCompact. rewrite Sg. cbn [bind]. apply f_equal. change (Z.to_nat ((curveH + 1) * 2)) with 4%nat.
    cbn [compactLoop]. rewrite (recover_N c s h C) by reflexivity. reflexivity.
Qed.
Print Assumptions C56_sign_boundary_refuted.

(** C56: SignCompact of a signature succeeds with 65 bytes, and RecoverCompact gives
    back the signer's key and the compression flag. *)
Theorem C56_compact_roundtrip sha fuel c key h comp s : curve_ok c -> curve_total c -> kPub key = smul (kD key) G ->
  signRFC6979 sha fuel c key h = Some (Ok (Val s)) -> sR s <> N ->
  exists bs, SignCompact sha fuel c key h comp = Some (Ok (Val bs)) /\ length bs = 65%nat /\
    RecoverCompact c bs h = Ok (Val (kPub key, comp)).
Proof.
  intros C T Hp E HN. unfold SignCompact. rewrite E. cbn [bind]. unfold signRFC6979 in E.
  destruct (nonceRFC6979 sha fuel (kD key) h) as [k|] eqn:K; [|discriminate]. injection E as E.
  destruct (compact_ok c C T (kD key) k key h comp s (nonce_range _ _ _ _ _ K) Hp E HN) as (bs & A & B & D).
  exists bs. split; [apply f_equal; exact A|]. auto.
Qed.
Print Assumptions C56_compact_roundtrip.

(** C56: a key recovered from numbers in range, whose point candidate
    x = N * (iteration / 2) + R is on the curve, is a key the signature verifies under. *)
Theorem C56_recover_sound c b s h q comp p : curve_ok c -> is_byte b -> 0 < sR s < N -> 0 < sS s < N ->
  on_curve p -> fst p = N * (Z.land ((b - 27) mod 256) 0xfb / 2) + sR s ->
  RecoverCompact c (b :: be32 (sR s) ++ be32 (sS s)) h = Ok (Val (q, comp)) ->
  ecdsa_valid q (digest h) (sR s) (sS s).
Proof.
  intros C Hb Hr Hs On Ex E. pose proof N_256. unfold be32 in E. rewrite recoverCompact_enc in E by lia.
  destruct (recoverKeyFromSignature _ _ _ _ _) as [[q'|e]|] eqn:ER; [|discriminate|discriminate].
  cbn [bind] in E. apply OkVal_inj in E. injection E as <- _.
  eapply (recover_sound c C s h _ false q' p); try eassumption. apply Z.land_nonneg. left. apply Z.mod_pos_bound. reflexivity.
Qed.
Print Assumptions C56_recover_sound.

(** C56: RecoverCompact does not verify: it returns a key, without error, for numbers
    that are a signature under no key at all ... *)
Theorem C56_recover_verifies_refuted c : curve_ok c -> curve_total c -> exists bs h q comp s,
  bytes_ok bs /\ RecoverCompact c bs h = Ok (Val (q, comp)) /\
  bs = 27 :: be32 (sR s) ++ be32 (sS s) /\ forall Q, is_point Q -> Verify c s h Q = Ok false.
Proof.
  intros C T. set (s := {| sR := rBad; sS := 1 |}).
  assert (Hr : 0 < sR s < N) by (split; reflexivity).
  destruct (recover_val c C T s [] 0 Hr (Z.le_refl 0)) as [q Eq]; [reflexivity|].
  exists (27 :: be32 (sR s) ++ be32 (sS s)), [], q, false, s. split.
  - constructor; [split; [discriminate|reflexivity]|]. apply Forall_app; split; apply be_bytes_ok.
  - split; [|split; [reflexivity|]].
    + unfold be32. rewrite recoverCompact_enc by (split; [discriminate|reflexivity]).
      change (Z.land ((27 - 27) mod 256) 251) with 0. rewrite Eq. reflexivity.
    + intros Q HQ. destruct (verify_ok c C s [] Q HQ) as (b & Eb & Hb). rewrite Eb. destruct b; [|reflexivity].
      exfalso. exact (rBad_invalid Q _ _ HQ (proj1 Hb eq_refl)).
Qed.
Print Assumptions C56_recover_verifies_refuted.

(** ... and it crashes.  Exactly these strings do it: 65 bytes with R = 0 and an
    iteration (the first byte less 27, without bit 2) below 4, or with R equal to the
    group order and an iteration below 2. *)
Theorem C56_recover_crash_refuted c bs h : curve_ok c -> curve_total c -> bytes_ok bs ->
  let iteration := Z.land ((nth 0 bs 0 - 27) mod 256) 0xfb in
  let r := beval (firstn 32 (skipn 1 bs)) in
  (RecoverCompact c bs h = Panic <->
   length bs = 65%nat /\ ((r = 0 /\ iteration < 4) \/ (r = N /\ iteration < 2))).
Proof. exact (recoverCompact_panics c bs h). Qed.
Print Assumptions C56_recover_crash_refuted.

Example C56_crash_case : let bs := 27 :: be32 0 ++ be32 1 in
  bytes_ok bs /\ length bs = 65%nat /\ beval (firstn 32 (skipn 1 bs)) = 0 /\ Z.land ((nth 0 bs 0 - 27) mod 256) 0xfb < 4.
Proof.
  cbv zeta. split; [|repeat split; reflexivity].
  constructor; [split; [discriminate|reflexivity]|]. apply Forall_app; split; apply be_bytes_ok.
Qed.

(** the hypotheses hold of the modelled curve *)
Example C56_case : let c := S256 (mkTable G) (mkTable Htab) in
  let key := {| kD := 1; kPub := G |} in let sha := fun _ => be_bytes 32 2 in
  curve_ok c /\ curve_total c /\ kPub key = smul (kD key) G /\
  exists s, signRFC6979 sha 1 c key [1; 2; 3] = Some (Ok (Val s)) /\ sR s <> N.
Proof.
  cbv zeta. pose proof (mkTable_ok G is_point_G) as T. pose proof (mkTable_ok Htab is_point_Htab) as TH.
  pose proof (S256_ok _ _ T TH) as C. split; [exact C|]. split; [exact (S256_total _ _ T TH)|].
  split; [symmetry; apply smul_1|].
  assert (K : nonceRFC6979 (fun _ => be_bytes 32 2) 1 1 [1; 2; 3] = Some 2) by reflexivity.
  unfold signRFC6979. cbn [kD]. rewrite K. rewrite (signNonce_ok _ C) by (split; reflexivity).
  assert (X : smul 2 G = (0xC6047F9441ED7D6D3045406E95C07CD85C778E4B8CEF3CA7ABAC09B95C709EE5, 0x1AE168FEA63DC339A3C58419466CEAEEF7F632653266D0E1236431A950CFE52A)).
  { Transparent smul padd. vm_compute. reflexivity. Opaque smul padd. }
  assert (Z0 : (sig0 1 2 [1; 2; 3] =? 0) = false).
  { cbv beta delta [sig0]. rewrite X. cbn [fst]. vm_compute. reflexivity. }
  rewrite Z0. eexists. split; [reflexivity|]. cbn [sR]. rewrite X. cbn [fst]. discriminate.
Qed.
