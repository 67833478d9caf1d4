(** * Model of /repo/btcec/ciphering.go

    The primitives of the Go library are parameters of the model: [sha512] and
    [sha256] (hash functions), and the AES-256 block functions [E] and [D] (key, block).
    CBC mode and HMAC are modelled concretely.  A []byte argument that the code appends
    to is modelled as its backing array [buf] (from the start of the slice to the end of
    its capacity) and its length [n]. *)
From Coq Require Import ZArith List Bool.
From Verif Require Import Go Wire Big Spec Koblitz PubKey Signature.
Import ListNotations.
Open Scope Z_scope.

(** crypto/aes, crypto/sha256 *)
Definition aesBlock : nat := 16.
Definition shaSize : nat := 32.

(** btcec/ciphering.go l.37-40 *)
Definition ciphCurveBytes : list Z := [0x02; 0xCA].
Definition ciphCoordLength : list Z := [0x00; 0x20].

(** bytes.Equal, hmac.Equal *)
Fixpoint bytesEqual (a b : list Z) : bool :=
  match a, b with
  | [], [] => true
  | x :: a, y :: b => (x =? y) && bytesEqual a b
  | _, _ => false
  end.

(** copy(dst[:n], src) into fresh zero bytes *)
Definition copyTo (n : nat) (src : list Z) : list Z := firstn n src ++ repeat 0 (n - length src).

(** crypto/cipher: the xor of two blocks *)
Fixpoint xorBytes (a b : list Z) : list Z :=
  match a, b with x :: a, y :: b => Z.lxor x y :: xorBytes a b | _, _ => [] end.
(** crypto/cipher: CBC over [n] blocks *)
Fixpoint cbcEnc (E : list Z -> list Z) (n : nat) (prev src : list Z) : list Z :=
  match n with
  | 0%nat => []
  | S m => let c := E (xorBytes (firstn aesBlock src) prev) in c ++ cbcEnc E m c (skipn aesBlock src)
  end.
Fixpoint cbcDec (D : list Z -> list Z) (n : nat) (prev src : list Z) : list Z :=
  match n with
  | 0%nat => []
  | S m => let c := firstn aesBlock src in xorBytes (D c) prev ++ cbcDec D m c (skipn aesBlock src)
  end.
(** CryptBlocks panics unless the input is a whole number of blocks; NewCBC... panics
    unless the IV is one block *)
Definition CryptBlocks (f : nat -> list Z -> list Z -> list Z) (iv src : list Z) : R (list Z) :=
  if (length iv =? aesBlock)%nat && (length src mod aesBlock =? 0)%nat
  then Ok (f (length src / aesBlock)%nat iv src) else Panic.

(** btcec/ciphering.go l.46-49 *)
Definition GenerateSharedSecret (c : curve) (priv : privkey) (pub : point) : R (list Z) :=
  q <- cScalarMult c (fst pub) (snd pub) (bigBytes (kD priv)) ; Ok (bigBytes (fst q)).

(** btcec/ciphering.go l.201-205: append(src, padtext...) writes into the backing array
    of [src] when its capacity suffices.  The result is the backing array afterwards
    and the padded bytes. *)
Definition addPKCSPadding (buf : list Z) (n : nat) : list Z * list Z :=
  let src := firstn n buf in
  let padding := (aesBlock - n mod aesBlock)%nat in
  let padtext := repeat (Z.of_nat padding) padding in
  (if (n + padding <=? length buf)%nat then src ++ padtext ++ skipn (n + padding) buf else buf, src ++ padtext).

(** btcec/ciphering.go l.208-216 *)
Definition removePKCSPadding (src : list Z) : R (ret (list Z)) :=
  let len := blen src in
  padLength <- index src (len - 1) ;
  if (Z.of_nat aesBlock <? padLength) || (len <? Z.of_nat aesBlock) then Ok (Fail EInvalidPadding)
  else if (len - padLength <? 0) then Panic
  else Ok (Val (slice src 0 (len - padLength))).

(** btcec/ciphering.go l.70-118.  [draw] is what NewPrivateKey draws, [iv] the 16 bytes
    read from rand.Reader; [None] is a failure of the random source.  The result is the
    backing array of [in] afterwards, and the value or the error. *)
Definition Encrypt (sha256 sha512 : list Z -> list Z) (E : list Z -> list Z -> list Z) (c : curve)
    (pub : point) (buf : list Z) (n : nat) (draw : option Z) (iv : option (list Z)) : R (list Z * ret (list Z)) :=
  match draw with
  | None => Ok (buf, Fail ERandom)
  | Some d =>
      ephemeral <- NewPrivateKey c d ;
      ecdhKey <- GenerateSharedSecret c ephemeral pub ;
      let derivedKey := sha512 ecdhKey in
      let keyE := firstn 32 derivedKey in
      let keyM := skipn 32 derivedKey in
      let (buf, paddedIn) := addPKCSPadding buf n in
      match iv with
      | None => Ok (buf, Fail ERandom)
      | Some iv =>
          let pb := SerializeUncompressed (PubKey ephemeral) in
          let head := iv ++ copyTo 4 (ciphCurveBytes ++ ciphCoordLength) ++ copyTo 32 (slice pb 1 33) ++
                      copyTo 2 ciphCoordLength ++ copyTo 32 (skipn 33 pb) in
          ct <- CryptBlocks (cbcEnc (E keyE)) iv paddedIn ;
          let body := head ++ ct in
          Ok (buf, Val (body ++ copyTo 32 (hmac sha256 keyM body)))
      end
  end.

(** btcec/ciphering.go l.121-196 *)
Definition Decrypt (sha256 sha512 : list Z -> list Z) (D : list Z -> list Z -> list Z) (c : curve)
    (priv : privkey) (inp : list Z) : R (ret (list Z)) :=
  let len := blen inp in
  if len <? 16 + 70 + 16 + 32 then Ok (Fail EInputTooShort)
  else
  let iv := slice inp 0 16 in
  if negb (bytesEqual (slice inp 16 18) ciphCurveBytes) then Ok (Fail EUnsupportedCurve)
  else if negb (bytesEqual (slice inp 18 20) ciphCoordLength) then Ok (Fail EInvalidXLength)
  else
  let xBytes := slice inp 20 52 in
  if negb (bytesEqual (slice inp 52 54) ciphCoordLength) then Ok (Fail EInvalidYLength)
  else
  let yBytes := slice inp 54 86 in
  let pb := 4 :: copyTo 32 xBytes ++ copyTo 32 yBytes in
  pubkey <- ParsePubKey c pb ;
  match pubkey with
  | Fail e => Ok (Fail e)
  | Val pubkey =>
      if negb ((len - 16 - 86 - 32) mod 16 =? 0) then Ok (Fail EInvalidPadding)
      else
      let messageMAC := slice inp (len - 32) len in
      ecdhKey <- GenerateSharedSecret c priv pubkey ;
      let derivedKey := sha512 ecdhKey in
      let keyE := firstn 32 derivedKey in
      let keyM := skipn 32 derivedKey in
      let expectedMAC := hmac sha256 keyM (slice inp 0 (len - 32)) in
      if negb (bytesEqual messageMAC expectedMAC) then Ok (Fail EInvalidMAC)
      else
      plaintext <- CryptBlocks (cbcDec (D keyE)) iv (slice inp 86 (len - 32)) ;
      removePKCSPadding plaintext
  end.
