(** * Signatures are deterministic: RFC 6979 (C70) *)
From Coq Require Import ZArith List Bool Lia.
From Verif Require Import Spec Go Wire Big SpecZk SpecBtc SpecCurve SpecCipher ZkBase Sha256 Koblitz KobTab CodecProofs PubKey PubKeyProofs Signature EcdsaProofs SpecRfc6979 RfcProofs.
Import ListNotations.
Open Scope Z_scope.

(** C70: with [k] the nonce RFC 6979 prescribes for the key and the digest, Sign returns
    the ECDSA signature of SEC 1 made with [k], with S lowered, or reports S = 0.  (The Go
    loop that looks for the nonce has no bound; [fuel] is any large enough bound.) *)
Theorem C70_sign_is_rfc6979 : forall sha c key h k, hash_to 32 sha -> curve_ok c -> 0 <= kD key < 2 ^ 256 -> bytes_ok h ->
  rfc6979 sha (kD key) (digest h) k -> fst (smul k G) <> N ->
  exists fuel0, forall fuel, (fuel0 <= fuel)%nat -> signRFC6979 sha fuel c key h =
    Some (Ok (if ecdsa_s (kD key) (digest h) k =? 0 then Fail ESZero
              else Val {| sR := ecdsa_r k; sS := low (ecdsa_s (kD key) (digest h) k) |})).
Proof. intros sha c key h k HS. exact (sign_rfc sha HS c key h k). Qed.
Print Assumptions C70_sign_is_rfc6979.

(** C70: Sign returns only if there is such a nonce, and there is at most one. *)
Theorem C70_sign_only_rfc6979 : forall sha fuel c key h r, hash_to 32 sha -> 0 <= kD key < 2 ^ 256 -> bytes_ok h ->
  signRFC6979 sha fuel c key h = Some r -> exists k, rfc6979 sha (kD key) (digest h) k /\ 0 < k < N /\
    forall k', rfc6979 sha (kD key) (digest h) k' -> k' = k.
Proof.
  intros sha fuel c key h r HS Hx B E. unfold signRFC6979 in E. destruct (nonceRFC6979 sha fuel (kD key) h) as [k|] eqn:K; [|discriminate E].
  pose proof (nonce_to sha HS _ _ _ _ Hx B K) as R. exists k. split; [exact R|]. split; [exact (search_range sha _ _ _ R)|].
  intros k' R'. exact (search_det sha _ _ _ R' _ R).
Qed.
Print Assumptions C70_sign_only_rfc6979.

(** C70: so the signature is a function of the key and of the digest: two calls that
    return, return the same, however long their searches for a nonce took. *)
Theorem C70_deterministic : forall sha fuel fuel' c key h h' r r', hash_to 32 sha -> 0 <= kD key < 2 ^ 256 ->
  bytes_ok h -> bytes_ok h' -> digest h = digest h' ->
  signRFC6979 sha fuel c key h = Some r -> signRFC6979 sha fuel' c key h' = Some r' -> r = r'.
Proof.
  intros sha fuel fuel' c key h h' r r' HS Hx B B' D E E'. unfold signRFC6979 in E, E'.
  destruct (nonceRFC6979 sha fuel (kD key) h) as [k|] eqn:K; [|discriminate E].
  destruct (nonceRFC6979 sha fuel' (kD key) h') as [k'|] eqn:K'; [|discriminate E'].
  pose proof (nonce_to sha HS _ _ _ _ Hx B K) as R. pose proof (nonce_to sha HS _ _ _ _ Hx B' K') as R'. rewrite <- D in R'.
  rewrite <- (search_det sha _ _ _ R _ R') in E'. injection E as <-. injection E' as <-.
  unfold signNonce. rewrite !hashToInt_digest, D. reflexivity.
Qed.
Print Assumptions C70_deterministic.

(** the published test vector for secp256k1, SHA-256, the private key 1 and the message
    "Satoshi Nakamoto" *)
Example C70_case :
  let h := sha256 [83; 97; 116; 111; 115; 104; 105; 32; 78; 97; 107; 97; 109; 111; 116; 111] in
  hash_to 32 sha256 /\ bytes_ok h /\
  rfc6979 sha256 1 (digest h) 0x8F8A276C19F4149656B280621E358CCE24F5F52542772691EE69063B74F15D15.
Proof.
  cbv zeta. assert (HS : hash_to 32 sha256) by exact sha256_hash_to. split; [exact HS|]. split; [apply HS|].
  apply (nonce_to sha256 HS 1); [split; [discriminate|reflexivity]|apply HS|]. vm_compute. reflexivity.
Qed.
