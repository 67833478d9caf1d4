(** * Properties of the texts of btcec (C79): hexadecimal numbers and the generated tables *)
From Coq Require Import String ZArith List Bool Lia.
From Verif Require Import Go Wire Big Spec SpecZk SpecCurve Sha256 CodecProofs Field SpecField FieldProofs Koblitz KobTab Precompute PrecompProofs PropPrecomp Text SpecText TextProofs TextProofs2.
Import ListNotations.
Open Scope Z_scope.

(** C79: SetHex of a hexadecimal numeral of up to 64 digits, of either case and of even or odd
    length, is the field value of the number; *)
Theorem C79_set_hex s n : reads s n -> (length s <= 64)%nat ->
  exists f, fSetHex s = Ok f /\ val f = n /\ fits 1 f.
Proof. intros H. exact (proj1 (setHex_reads s n H)). Qed.
Print Assumptions C79_set_hex.
(** with more digits it panics, although its comment says that only the first 32 bytes are
    used; *)
Theorem C79_set_hex_long_refuted s n : reads s n -> (64 < length s)%nat -> fSetHex s = Panic.
Proof. intros H. exact (proj2 (setHex_reads s n H)). Qed.
Print Assumptions C79_set_hex_long_refuted.
(** and a text with another character in it is not refused: of an even number of characters,
    what stands before the first bad pair is taken for the whole. *)
Theorem C79_set_hex_invalid_refuted a n x y r : reads a n -> Nat.even (length a) = true -> Nat.even (length r) = true ->
  (forall v, ~ digitOf x v) \/ (forall v, ~ digitOf y v) ->
  fSetHex (a ++ x :: y :: r) = fSetHex a.
Proof. exact (setHex_stops a n x y r). Qed.
Print Assumptions C79_set_hex_invalid_refuted.

(** C79: String of any field value within the limits of the type is 64 digits that denote its
    residue modulo P, and SetHex of that text is the normalised field value. *)
Theorem C79_string k f : 0 <= k <= 63 -> fits k f ->
  length (fString f) = 64%nat /\ reads (fString f) (val f mod P) /\ fSetHex (fString f) = Ok (fNormalize f).
Proof. exact (string_ok k f). Qed.
Print Assumptions C79_string.

(** C79: the constants' fromHex accepts exactly the signed hexadecimal numerals, with their
    values, and panics on any other text; *)
Theorem C79_from_hex s : (forall n, fromHex s = Ok n <-> readsSigned s n) /\ (fromHex s = Panic <-> ~ exists n, readsSigned s n).
Proof.
  unfold fromHex. split.
  - intros n. rewrite <- bigSetHex_reads. destruct (bigSetHex s); split; congruence.
  - destruct (bigSetHex s) as [r|] eqn:E.
    + split; [discriminate|]. intros H. elim H. exists r. apply bigSetHex_reads, E.
    + split; [|reflexivity]. intros _ (n & H). apply bigSetHex_reads in H. congruence.
Qed.
Print Assumptions C79_from_hex.
(** and what the generator prints for a number, fromHex reads back. *)
Theorem C79_printed_number n : fromHex (bigHex n) = Ok n.
Proof. apply (proj1 (C79_from_hex _)), bigHex_ok. Qed.
Print Assumptions C79_printed_number.

(** C79: so copying the four printed vectors into the source gives the constants of the curve. *)
Theorem C79_vectors fuel : (200 <= fuel)%nat ->
  exists a1 b1 a2 b2 l1 l2 l3 l4, EndomorphismVectors fuel N curveLambda = Ok (Some (a1, b1, a2, b2)) /\
    printVectors a1 b1 a2 b2 = [ascii "a1: " ++ l1; ascii "b1: " ++ l2; ascii "a2: " ++ l3; ascii "b2: " ++ l4] /\
    fromHex l1 = Ok curveA1 /\ fromHex l2 = Ok curveB1 /\ fromHex l3 = Ok curveA2 /\ fromHex l4 = Ok curveB2.
Proof.
  intros L. exists curveA1, curveB1, curveA2, curveB2, (bigHex curveA1), (bigHex curveB1), (bigHex curveA2), (bigHex curveB2).
  split; [destruct (C60_constants_derived fuel L) as [E ->]; exact E|]. split; [reflexivity|]. auto using C79_printed_number.
Qed.
Print Assumptions C79_vectors.

(** C79: base64 loses nothing, and the generator's buffer has exactly the length needed. *)
Theorem C79_base64 bs : bytes_ok bs -> b64Decode (b64Encode bs) = Some bs /\ blen (b64Encode bs) = b64EncodedLen (blen bs).
Proof. intros B. split; [exact (b64_round bs B)|exact (b64_len bs)]. Qed.
Print Assumptions C79_base64.
(** C79: an ASCII text written with %q is read back by the compiler. *)
Theorem C79_quote s rest : Forall (fun c => 0 <= c < 128) s ->
  exists q, quote s ++ rest = 34 :: q /\ literal q = Some (s, rest).
Proof. intros B. exists (flat_map quoteChar s ++ 34 :: rest). split; [|exact (quote_literal s rest B)]. unfold quote. cbn [app]. rewrite <- app_assoc. reflexivity. Qed.
Print Assumptions C79_quote.

(** C79: regenerating the tables works: for any compression that can be undone and never
    yields nothing, the generator writes two files; each file declares its variable, as a text
    that is not empty; and a package built with the two files starts and computes the group. *)
Theorem C79_regenerate compress decompress :
  (forall b, bytes_ok b -> decompress (compress b) = Some b) -> (forall b, bytes_ok b -> bytes_ok (compress b) /\ compress b <> []) ->
  exists file fileH text textH c, genprecomps compress sha256 = Ok (file, fileH) /\
    variableIn "secp256k1BytePoints" file = Some text /\ variableIn "secp256k1BytePointsH" fileH = Some textH /\
    text <> [] /\ textH <> [] /\
    startS256 (unpack decompress) text textH = Ok c /\ curve_ok c.
Proof.
  intros DC BO. destruct C59_generator_total as [(b & E & L) (bH & EH & LH)].
  pose proof (serialized_bytes b E) as B. pose proof (serializedH_bytes _ bH EH) as BH.
  destruct (BO b B) as [B1 N1]. destruct (BO bH BH) as [B1H N1H].
  destruct (C59_start (unpack decompress) (b64Encode (compress b)) (b64Encode (compress bH)) b bH) as (c & S & C).
  - apply b64_nonempty, N1.
  - apply b64_nonempty, N1H.
  - unfold unpack. rewrite (b64_round _ B1). apply DC, B.
  - exact E.
  - unfold unpack. rewrite (b64_round _ B1H). apply DC, BH.
  - exact EH.
  - exists (sourceFile compress "secp256k1BytePoints" b), (sourceFile compress "secp256k1BytePointsH" bH), (b64Encode (compress b)), (b64Encode (compress bH)), c.
    split; [unfold genprecomps; rewrite E, EH; reflexivity|]. split; [exact (variable_ok _ _ _ B1)|]. split; [exact (variable_ok _ _ _ B1H)|].
    split; [apply b64_nonempty, N1|]. split; [apply b64_nonempty, N1H|]. split; [exact S|exact C].
Qed.
Print Assumptions C79_regenerate.

(** cases: both cases of digits and an odd length; a text with a bad pair; a signed number; a
    compression that only adds a byte in front *)
Example C79_case :
  (exists f, fSetHex (ascii "0aB") = Ok f /\ val f = 0xab /\ fString f = ascii "00000000000000000000000000000000000000000000000000000000000000ab") /\
  fSetHex (ascii "12zz34") = fSetHex (ascii "12") /\ fits 1 (fZero) /\
  fromHex (ascii "-E4437ED6010E88286F547FA90ABFE4C3") = Ok curveB1 /\ fromHex (ascii "0x1") = Panic /\ bigHex (-255) = ascii "-ff" /\
  b64Encode (ascii "zk") = ascii "ems=" /\
  (forall b, bytes_ok b -> (fun l => match l with [] => None | _ :: t => Some t end) ((fun b => 120 :: b) b) = Some b) /\
  (forall b, bytes_ok b -> bytes_ok ((fun b => 120 :: b) b) /\ (fun b => 120 :: b) b <> []).
Proof.
  split; [eexists; split; [vm_compute; reflexivity|split; vm_compute; reflexivity]|].
  split; [vm_compute; reflexivity|]. split; [exact (proj1 FieldProofs.zero_ok)|]. split; [vm_compute; reflexivity|]. split; [vm_compute; reflexivity|].
  split; [vm_compute; reflexivity|]. split; [vm_compute; reflexivity|]. split; [intros b _; reflexivity|].
  intros b B. split; [constructor; [split; [discriminate|reflexivity]|exact B]|discriminate].
Qed.
