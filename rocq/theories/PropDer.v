(** * Properties of the signature encodings of btcec (C55) *)
From Coq Require Import ZArith List Bool Lia.
From Verif Require Import Spec Go Wire Big SpecZk SpecBtc CodecProofs PubKey Signature DerProofs.
Import ListNotations.
Open Scope Z_scope.

(** C55: Serialize writes the DER encoding of (R, low S). *)
Theorem C55_serialize_is_der s : 0 <= sR s < N -> 0 < sS s < N -> exists rb sb,
  der_int rb (sR s) /\ der_int sb (low (sS s)) /\ SigSerialize s = der_seq rb sb /\ blen (SigSerialize s) <= 72.
Proof.
  intros Hr Hs. exists (canonicalizeInt (sR s)), (canonicalizeInt (low (sS s))).
  pose proof (low_range _ Hs). pose proof N_256. pose proof half_lt.
  destruct (canonicalize_der (sR s)) as [D1 L1]; [lia|]. destruct (canonicalize_der (low (sS s))) as [D2 L2]; [lia|].
  rewrite (serialize_der s Hr Hs). split; [exact D1|]. split; [exact D2|]. split; [reflexivity|].
  unfold der_seq. rewrite !PubKeyProofs.blen_app. change (blen [_; _; _; _]) with 4. change (blen [_; _]) with 2. lia.
Qed.
Print Assumptions C55_serialize_is_der.

(** C55: the strict parser and the lax one give back R and the low S, whatever bytes
    follow the encoding. *)
Theorem C55_roundtrip s junk : 0 < sR s < N -> 0 < sS s < N ->
  ParseDERSignature (SigSerialize s ++ junk) = Ok (Val {| sR := sR s; sS := low (sS s) |}) /\
  ParseSignature (SigSerialize s ++ junk) = Ok (Val {| sR := sR s; sS := low (sS s) |}).
Proof. intros Hr Hs. exact (conj (der_roundtrip true s junk Hr Hs) (der_roundtrip false s junk Hr Hs)). Qed.
Print Assumptions C55_roundtrip.

(** C55: whatever ParseDERSignature accepts starts with the DER encoding of the numbers
    it returns, and those are in range; only trailing bytes are ignored. *)
Theorem C55_der_sound bs s : bytes_ok bs -> ParseDERSignature bs = Ok (Val s) ->
  0 < sR s < N /\ 0 < sS s < N /\
  exists rb sb junk, bs = der_seq rb sb ++ junk /\ der_int rb (sR s) /\ der_int sb (sS s).
Proof.
  intros B H. destruct (parse_inv true bs s B H) as (rb & sb & junk & E & _ & _ & _ & D & _ & _ & Hr & Hs).
  destruct (D eq_refl) as [D1 D2]. split; [exact Hr|]. split; [exact Hs|]. exists rb, sb, junk. auto.
Qed.
Print Assumptions C55_der_sound.

(** C55: so two accepted strings with the same numbers differ only in the bytes after
    the encoding, and an accepted low-S string is what Serialize writes. *)
Theorem C55_der_unique bs s : bytes_ok bs -> ParseDERSignature bs = Ok (Val s) -> sS s <= N / 2 ->
  exists junk, bs = SigSerialize s ++ junk.
Proof.
  intros B H L. destruct (C55_der_sound bs s B H) as (Hr & Hs & rb & sb & junk & E & D1 & D2).
  exists junk. rewrite E. rewrite (serialize_der s (conj (Z.lt_le_incl _ _ (proj1 Hr)) (proj2 Hr)) Hs). unfold low.
  rewrite (proj2 (Z.leb_le _ _)) by exact L. pose proof N_256.
  destruct (canonicalize_der (sR s)) as [C1 _]; [lia|]. destruct (canonicalize_der (sS s)) as [C2 _]; [lia|].
  rewrite (der_unique _ _ _ D1 C1), (der_unique _ _ _ D2 C2). reflexivity.
Qed.
Print Assumptions C55_der_unique.

(** C55: conversely every DER encoding of two numbers in range is accepted by both
    parsers, whether or not its S is low; and the lax parser accepts any (non-empty,
    short) big-endian contents. *)
Theorem C55_der_complete rb sb r s junk : der_int rb r -> der_int sb s -> 0 < r < N -> 0 < s < N ->
  ParseDERSignature (der_seq rb sb ++ junk) = Ok (Val {| sR := r; sS := s |}).
Proof.
  intros D1 D2 Hr Hs. pose proof N_256.
  destruct (canonicalize_der r) as [E1 L1]; [lia|]. destruct (canonicalize_der s) as [E2 L2]; [lia|].
  rewrite <- (der_unique _ _ _ D1 E1) in L1. rewrite <- (der_unique _ _ _ D2 E2) in L2.
  unfold ParseDERSignature. rewrite parse_seq by lia. rewrite (checkPadding_der _ _ _ _ _ _ D1), (checkPadding_der _ _ _ _ _ _ D2).
  destruct D1 as (_ & -> & _). destruct D2 as (_ & -> & _). rewrite checkRange_ok by lia. reflexivity.
Qed.
Print Assumptions C55_der_complete.

Theorem C55_ber_complete rb sb junk : rb <> [] -> sb <> [] -> 4 + blen rb + blen sb <= 253 ->
  0 < beval rb < N -> 0 < beval sb < N ->
  ParseSignature (der_seq rb sb ++ junk) = Ok (Val {| sR := beval rb; sS := beval sb |}).
Proof.
  intros D1 D2 L Hr Hs.
  assert (1 <= blen rb) by (destruct rb; [congruence|]; unfold blen; cbn [length]; lia).
  assert (1 <= blen sb) by (destruct sb; [congruence|]; unfold blen; cbn [length]; lia).
  unfold ParseSignature. rewrite parse_seq by assumption. unfold checkPadding. rewrite checkRange_ok by assumption. reflexivity.
Qed.
Print Assumptions C55_ber_complete.

(** C55: the lax parser accepts only sequences of two integers in range. *)
Theorem C55_ber_sound bs s : bytes_ok bs -> ParseSignature bs = Ok (Val s) ->
  0 < sR s < N /\ 0 < sS s < N /\
  exists rb sb junk, bs = der_seq rb sb ++ junk /\ beval rb = sR s /\ beval sb = sS s.
Proof.
  intros B H. destruct (parse_inv false bs s B H) as (rb & sb & junk & E & _ & _ & _ & _ & V1 & V2 & Hr & Hs).
  split; [exact Hr|]. split; [exact Hs|]. exists rb, sb, junk. auto.
Qed.
Print Assumptions C55_ber_sound.

(** C55: the parsers do crash.  Exactly these strings do it: eight bytes or more, the
    right first byte, and a length byte of 0, 254 or 255, or of 1 before a 2. *)
Definition crashes (bs : list Z) : Prop :=
  8 <= blen bs /\ nth 0 bs 0 = 0x30 /\
  (In (nth 1 bs 0) [0; 254; 255] \/ (nth 1 bs 0 = 1 /\ nth 2 bs 0 = 2)).
Theorem C55_crash_iff bs : bytes_ok bs ->
  (ParseSignature bs = Panic <-> crashes bs) /\ (ParseDERSignature bs = Panic <-> crashes bs).
Proof. intros B. exact (conj (parse_panic false bs B) (parse_panic true bs B)). Qed.
Print Assumptions C55_crash_iff.

Theorem C55_never_crashes_refuted : ~ (forall bs, bytes_ok bs -> exists r, ParseSignature bs = Ok r).
Proof.
  intros H. destruct (H [0x30; 255; 2; 1; 1; 2; 1; 1]) as [r E]; [|discriminate].
  repeat (constructor; [split; [discriminate|reflexivity]|]). constructor.
Qed.
Print Assumptions C55_never_crashes_refuted.

(** the smallest signature *)
Example C55_case : SigSerialize {| sR := 1; sS := 1 |} = [0x30; 6; 2; 1; 1; 2; 1; 1] /\
  ParseDERSignature [0x30; 6; 2; 1; 1; 2; 1; 1; 99] = Ok (Val {| sR := 1; sS := 1 |}) /\
  (* a high S is replaced by N - S; a leading zero keeps the sign bit clear *)
  SigSerialize {| sR := 255; sS := N - 3 |} = [0x30; 7; 2; 2; 0; 255; 2; 1; 3] /\
  ParseDERSignature [0x30; 7; 2; 2; 0; 1; 2; 1; 3] = Ok (Fail ESigRPad) /\
  ParseSignature [0x30; 7; 2; 2; 0; 1; 2; 1; 3] = Ok (Val {| sR := 1; sS := 3 |}).
Proof. vm_compute. repeat split. Qed.
