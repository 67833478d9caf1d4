(** * Model of the error texts of Decrypt, RecoverCompact and ReadVarInt

    The functions themselves are modelled in Ciphering.v, Signature.v and Wire.v. *)
From Coq Require Import String ZArith List Bool.
From Verif Require Import Go Wire Big PubKey Signature Ciphering Text Errors.
Import ListNotations.
Open Scope Z_scope.

(** btcec/ciphering.go l.23-35: the text of the error [e] of Decrypt on [inp]; errors of
    ParsePubKey on the 65 bytes that l.153-156 put together are passed on (l.159) *)
Definition decryptText (inp : list Z) (e : berr) : list Z :=
  match e with
  | EInvalidMAC => ascii "invalid mac hash"
  | EInputTooShort => ascii "ciphertext too short"
  | EUnsupportedCurve => ascii "unsupported curve"
  | EInvalidXLength => ascii "invalid X length, must be 32"
  | EInvalidYLength => ascii "invalid Y length, must be 32"
  | EInvalidPadding => ascii "invalid PKCS#7 padding"
  | _ => pubKeyText (4 :: copyTo 32 (slice inp 20 52) ++ copyTo 32 (slice inp 54 86)) e
  end.

(** btcec/signature.go l.286, l.396 and btcec/pubkey.go l.46: the text of the error [e] of
    RecoverCompact *)
Definition compactText (e : berr) : list Z :=
  match e with
  | ECompactSize => ascii "invalid compact signature size"
  | ERxRange => ascii "calculated Rx is larger than curve P"
  | EOddness => ascii "ybit doesn't match oddness"
  | _ => []                                          (* not an error of this function *)
  end.

(** btcec/signature.go l.429, l.442, l.385: the text of the error [e] of Sign and SignCompact *)
Definition signText (e : berr) : list Z :=
  match e with
  | ERZero => ascii "calculated R is zero"
  | ESZero => ascii "calculated S is zero"
  | ENoSolution => ascii "no valid solution for pubkey found"
  | _ => []                                          (* not an error of these functions *)
  end.

(** wire/common.go l.191, l.205, l.219 and Go's io.EOF, io.ErrUnexpectedEOF: the text of the
    error [e] of ReadVarInt on [s] *)
Definition varIntText (s : list Z) (e : rerr) : list Z :=
  match e with
  | EEOF => ascii "EOF"
  | EUnexpectedEOF => ascii "unexpected EOF"
  | ENonCanonical =>
      let discriminant := nth 0 s 0 in
      let '(n, min) := if discriminant =? 0xff then (8%nat, 0x100000000)
                       else if discriminant =? 0xfe then (4%nat, 0x10000) else (2%nat, 0xfd) in
      let rv := leval (firstn n (skipn 1 s)) in
      ascii "ReadVarInt" ++ ascii ": " ++ ascii "errNonCanonicalVarInt: " ++ decimal rv ++ ascii " " ++ decimal discriminant ++ ascii " " ++ decimal min
  end.
