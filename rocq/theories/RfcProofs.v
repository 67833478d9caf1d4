(** * The signer of Signature.v uses the nonces of RFC 6979 *)
From Coq Require Import ZArith List Bool Lia.
From Verif Require Import Spec Go Wire Big CurveGroup GMult Order FieldN SpecZk ZkBase SpecBtc SpecCurve SpecCipher CodecProofs FieldProofs Koblitz
  PubKey PubKeyProofs Signature DerProofs EcdsaProofs CipherProofs SpecRfc6979.
From Verif Require Sha256.
Import ListNotations.
Open Scope Z_scope.

Lemma HMAC_hmac H key msg : HMAC H key msg = hmac H key msg.
Proof.
  unfold HMAC, hmac, hmac_block. replace (Nat.ltb 64 (length key)) with (64 <? blen key); [reflexivity|].
  apply Bool.eq_true_iff_eq. rewrite Z.ltb_lt, Nat.ltb_lt. unfold blen. lia.
Qed.
Lemma int2octets_be v : 0 <= v < 2 ^ 256 -> int2octets v 32 = be32 v.
Proof.
  intros B. unfold int2octets, be32. rewrite <- pad32 by exact B.
  assert (L : blen (bigBytes v) <= 32) by (apply bigBytes_blen; [lia|rewrite Z.abs_eq by lia; exact (proj2 B)]).
  destruct (blen (bigBytes v) <? 32) eqn:E; [reflexivity|]. apply Z.ltb_ge in E.
  replace (32 <? blen (bigBytes v)) with false by (symmetry; apply Z.ltb_ge; exact L).
  replace (Z.to_nat (32 - blen (bigBytes v))) with 0%nat by lia. reflexivity.
Qed.
Lemma digest_range h : bytes_ok h -> 0 <= digest h < 2 ^ 256.
Proof.
  intros B. unfold digest. assert (B1 : bytes_ok (firstn 32 h)).
  { apply Forall_forall. intros x I. apply (proj1 (Forall_forall _ _) B). rewrite <- (firstn_skipn 32 h). apply in_or_app. left. exact I. }
  pose proof (beval_range _ B1) as R. split; [apply R|]. eapply Z.lt_le_trans; [apply R|].
  replace (2 ^ 256) with (256 ^ 32) by reflexivity. apply Z.pow_le_mono_r; [lia|]. unfold blen. rewrite firstn_length. lia.
Qed.
Lemma bits2octets_be h : bytes_ok h -> bits2octets h 32 = be32 (digest h mod N).
Proof.
  intros B. pose proof (digest_range h B) as R. unfold bits2octets. rewrite hashToInt_digest. cbv zeta. change curveN with N.
  assert (N2 : 2 ^ 256 < 2 * N) by reflexivity. assert (N0 : 0 < N < 2 ^ 256) by (split; reflexivity).
  destruct (Z.ltb_spec (digest h - N) 0) as [L|L].
  - rewrite int2octets_be by exact R. rewrite Z.mod_small by lia. reflexivity.
  - rewrite int2octets_be by lia. f_equal. replace (digest h) with (digest h - N + 1 * N) at 2 by ring.
    rewrite Z.mod_add by lia. symmetry. apply Z.mod_small. lia.
Qed.
Lemma digest_32 v : length v = 32%nat -> digest v = beval v.
Proof. intros L. unfold digest. rewrite firstn_all2 by lia. reflexivity. Qed.

Section rfc.
Context (sha : list Z -> list Z) (HS : hash_to 32 sha).
Lemma loop_to f : forall K V k, nonceLoop sha f K V = Some k -> rfc_search sha K V k.
Proof.
  induction f as [|f IH]; intros K V k; [discriminate|]. cbn [nonceLoop]. cbv zeta. rewrite <- !HMAC_hmac, hashToInt_digest.
  rewrite digest_32 by apply HS. change curveN with N.
  destruct ((1 <=? beval (HMAC sha K V)) && (beval (HMAC sha K V) <? N)) eqn:E.
  - intros Q. assert (Q' : beval (HMAC sha K V) = k) by congruence. rewrite <- Q'. apply rfc_found.
    apply andb_true_iff in E. destruct E as [E1 E2]. apply Z.leb_le in E1. apply Z.ltb_lt in E2. lia.
  - intros Q. apply rfc_next; [|apply IH; exact Q]. intros [L1 L2]. rewrite (proj2 (Z.leb_le _ _) L1) in E.
    rewrite (proj2 (Z.ltb_lt _ _)) in E by lia. discriminate E.
Qed.
Lemma loop_of K V k : rfc_search sha K V k -> exists f, forall g, (f <= g)%nat -> nonceLoop sha g K V = Some k.
Proof.
  intros S. induction S as [K V R|K V k R V' K' S [f IH]].
  - exists 1%nat. intros [|g] L; [lia|]. cbn [nonceLoop]. cbv zeta. rewrite <- !HMAC_hmac, hashToInt_digest. rewrite digest_32 by apply HS.
    change curveN with N. rewrite (proj2 (Z.leb_le _ _) (proj1 R)), (proj2 (Z.ltb_lt _ _)) by lia. reflexivity.
  - exists (Datatypes.S f). intros [|g] L; [lia|]. cbn [nonceLoop]. cbv zeta. rewrite <- !HMAC_hmac, hashToInt_digest. rewrite digest_32 by apply HS.
    change curveN with N. replace ((1 <=? beval (HMAC sha K V)) && (beval (HMAC sha K V) <? N)) with false; [apply IH; lia|].
    symmetry. apply andb_false_iff. rewrite Z.leb_gt, Z.ltb_ge. lia.
Qed.
Lemma nonce_unfold f x h : 0 <= x < 2 ^ 256 -> bytes_ok h ->
  let m := be32 x ++ be32 (digest h mod N) in
  let K1 := HMAC sha (repeat 0 32) (repeat 1 32 ++ [0] ++ m) in let V1 := HMAC sha K1 (repeat 1 32) in
  let K2 := HMAC sha K1 (V1 ++ [1] ++ m) in nonceRFC6979 sha f x h = nonceLoop sha f K2 (HMAC sha K2 V1).
Proof.
  intros Hx B. cbv zeta. unfold nonceRFC6979. rewrite int2octets_be by exact Hx. rewrite bits2octets_be by exact B.
  cbv zeta. rewrite <- !HMAC_hmac. reflexivity.
Qed.
Lemma nonce_to f x h k : 0 <= x < 2 ^ 256 -> bytes_ok h -> nonceRFC6979 sha f x h = Some k -> rfc6979 sha x (digest h) k.
Proof. intros Hx B E. rewrite nonce_unfold in E by assumption. exact (loop_to _ _ _ _ E). Qed.
Lemma nonce_of x h k : 0 <= x < 2 ^ 256 -> bytes_ok h -> rfc6979 sha x (digest h) k ->
  exists f, forall g, (f <= g)%nat -> nonceRFC6979 sha g x h = Some k.
Proof.
  intros Hx B E. destruct (loop_of _ _ _ E) as [f F]. exists f. intros g L. rewrite nonce_unfold by assumption. exact (F g L).
Qed.
Lemma nonce_r k : 0 < k < N -> fst (smul k G) <> N -> redx (fst (smul k G)) = ecdsa_r k /\ 0 < ecdsa_r k < N.
Proof.
  intros Hk NE. pose proof (kG_on k Hk) as On. pose proof On as (Rx & _ & _). destruct (redx_mod _ Rx NE) as [E L]. split; [exact E|].
  unfold ecdsa_r. rewrite <- E. split; [|exact L]. pose proof (x_nz _ (kG_on k Hk)) as NZ.
  unfold redx in *. destruct (N <? fst (smul k G)) eqn:Q; [apply Z.ltb_lt in Q; lia|lia].
Qed.
Lemma search_range K V k : rfc_search sha K V k -> 0 < k < N.
Proof. intros S. induction S; [lia|assumption]. Qed.
Lemma search_det K V k : rfc_search sha K V k -> forall k', rfc_search sha K V k' -> k = k'.
Proof.
  intros S. induction S as [K V R|K V k R V' K' S IH]; intros k' S'; inversion S'; subst; try contradiction; [reflexivity|apply IH; assumption].
Qed.
Lemma sign_rfc c key h k : curve_ok c -> 0 <= kD key < 2 ^ 256 -> bytes_ok h ->
  rfc6979 sha (kD key) (digest h) k -> fst (smul k G) <> N ->
  exists fuel0, forall fuel, (fuel0 <= fuel)%nat -> signRFC6979 sha fuel c key h =
    Some (Ok (if ecdsa_s (kD key) (digest h) k =? 0 then Fail ESZero
              else Val {| sR := ecdsa_r k; sS := low (ecdsa_s (kD key) (digest h) k) |})).
Proof.
  intros C Hx B R NE. destruct (nonce_of _ _ _ Hx B R) as [f F]. exists f. intros g L. unfold signRFC6979. rewrite (F g L).
  assert (Hk : 0 < k < N) by exact (search_range _ _ _ R). rewrite (signNonce_ok c C) by exact Hk.
  assert (E : sig0 (kD key) k h = ecdsa_s (kD key) (digest h) k).
  { unfold sig0, ecdsa_s. rewrite (proj1 (nonce_r k Hk NE)). apply (f_equal (fun z => z mod N)). generalize (ninv k) (ecdsa_r k) (digest h) (kD key). intros. ring. }
  rewrite E, (proj1 (nonce_r k Hk NE)). reflexivity.
Qed.
End rfc.

(** ** SHA-256 has 32-byte results *)
Lemma round_len st kw : length st = 8%nat -> length (Sha256.round st kw) = 8%nat.
Proof. intros L. do 8 (destruct st as [|? st]; [discriminate L|]). destruct st; [reflexivity|discriminate L]. Qed.
Lemma rounds_len kws : forall st, length st = 8%nat -> length (fold_left Sha256.round kws st) = 8%nat.
Proof. induction kws as [|kw t IH]; intros st L; [exact L|]. cbn [fold_left]. apply IH, round_len, L. Qed.
Lemma blocks_len n : forall H bs, length H = 8%nat -> length (Sha256.blocks n H bs) = 8%nat.
Proof.
  induction n as [|n IH]; intros H bs L; [exact L|]. cbn [Sha256.blocks]. apply IH. unfold Sha256.compress. cbv zeta.
  rewrite map_length, combine_length, rounds_len by exact L. rewrite L. reflexivity.
Qed.
Lemma words_len l : length (concat (map (be_bytes 4) l)) = (4 * length l)%nat.
Proof. induction l as [|x l IH]; [reflexivity|]. cbn [map concat length]. rewrite app_length, be_bytes_len, IH. lia. Qed.
Lemma words_ok l : bytes_ok (concat (map (be_bytes 4) l)).
Proof. induction l as [|x l IH]; [constructor|]. cbn [map concat]. apply Forall_app; split; [apply be_bytes_ok|exact IH]. Qed.
Lemma sha256_hash_to : hash_to 32 Sha256.sha256.
Proof.
  intros m. unfold Sha256.sha256. cbv zeta. split; [|apply words_ok]. rewrite words_len, blocks_len; reflexivity.
Qed.
