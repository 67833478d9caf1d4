(** * Model of /repo/btcec/pubkey.go and /repo/btcec/privkey.go

    A *PublicKey is its pair of coordinates (the Curve field is always the one object
    S256()).  A *PrivateKey is its number D together with its public key.  A function
    returning (value, error) returns [ret]: a value or the error, which is named after
    its message. *)
From Coq Require Import ZArith List Bool.
From Verif Require Import Go Wire Big Spec Koblitz.
Import ListNotations.
Open Scope Z_scope.

(** the errors of btcec *)
Inductive berr :=
| EPubEmpty | EMagic | EOddness | EPubLength | EXRange | EYRange | EOffCurve
| ESigShort | ESigHeader | ESigLength | ESigMarker1 | ESigRLen | ESigRNeg | ESigRPad
| ESigMarker2 | ESigSLen | ESigSNeg | ESigSPad | ESigFinal | ESigRSmall | ESigSSmall
| ESigRBig | ESigSBig | ERxRange | ENRInf | ENoSolution | ECompactSize | ERZero | ESZero
| EInvalidMAC | EInputTooShort | EUnsupportedCurve | EInvalidXLength | EInvalidYLength
| EInvalidPadding | ERandom.
Inductive ret (A : Type) : Type := Val (a : A) | Fail (e : berr).
Arguments Val {A} a. Arguments Fail {A} e.

Record privkey := { kD : Z; kPub : point }.

(** btcec/pubkey.go l.16-19, l.52-56: lengths and format bytes *)
Definition pubkeyCompressed : Z := 2.
Definition pubkeyUncompressed : Z := 4.
Definition pubkeyHybrid : Z := 6.
Definition lenCompressed : Z := 33.
Definition lenUncompressed : Z := 65.

(** btcec/pubkey.go l.21-23 *)
Definition isOdd (a : Z) : bool := Z.odd a.

(** btcec/pubkey.go l.27-50 *)
Definition decompressPoint (x : Z) (ybit : bool) : ret Z :=
  let x3 := x * x * x + curveB in
  let y := bigExp x3 curveQ curveP in
  let y := if Bool.eqb ybit (isOdd y) then y else curveP - y in
  if Bool.eqb ybit (isOdd y) then Val y else Fail EOddness.

(** x &^ 1 on a byte *)
Definition clearBit0 (b : Z) : Z := Z.land b 0xfe.

(** btcec/pubkey.go l.59-64 *)
Definition IsCompressedPubKey (pubKey : list Z) : bool :=
  (blen pubKey =? lenCompressed) && (clearBit0 (nth 0 pubKey 0) =? pubkeyCompressed).

(** btcec/pubkey.go l.105-114: the checks at the end of ParsePubKey *)
Definition checkPubKey (c : curve) (x y : Z) : R (ret point) :=
  if cP c <=? x then Ok (Fail EXRange)
  else if cP c <=? y then Ok (Fail EYRange)
  else on <- cIsOnCurve c x y ; Ok (if on : bool then Val (x, y) else Fail EOffCurve).

(** btcec/pubkey.go l.69-116 *)
Definition ParsePubKey (c : curve) (s : list Z) : R (ret point) :=
  match s with
  | [] => Ok (Fail EPubEmpty)
  | b0 :: body =>
      let ybit := Z.land b0 1 =? 1 in
      let format := clearBit0 b0 in
      if blen s =? lenUncompressed then
        if negb (format =? pubkeyUncompressed) && negb (format =? pubkeyHybrid) then Ok (Fail EMagic)
        else
          let x := beval (firstn 32 body) in
          let y := beval (skipn 32 body) in
          if (format =? pubkeyHybrid) && negb (Bool.eqb ybit (isOdd y)) then Ok (Fail EOddness)
          else checkPubKey c x y
      else if blen s =? lenCompressed then
        if negb (format =? pubkeyCompressed) then Ok (Fail EMagic)
        else
          let x := beval (firstn 32 body) in
          match decompressPoint x ybit with
          | Fail e => Ok (Fail e)
          | Val y => checkPubKey c x y
          end
      else Ok (Fail EPubLength)
  end.

(** btcec/pubkey.go l.176-181: paddedAppend(size, dst, src) *)
Definition paddedAppend (size : Z) (dst src : list Z) : list Z :=
  dst ++ repeat 0 (Z.to_nat (size - blen src)) ++ src.

(** btcec/pubkey.go l.129-134 *)
Definition SerializeUncompressed (p : point) : list Z :=
  paddedAppend 32 (paddedAppend 32 [pubkeyUncompressed] (bigBytes (fst p))) (bigBytes (snd p)).

(** btcec/pubkey.go l.137-145 *)
Definition SerializeCompressed (p : point) : list Z :=
  let format := if isOdd (snd p) then Z.lor pubkeyCompressed 1 else pubkeyCompressed in
  paddedAppend 32 [format] (bigBytes (fst p)).

(** btcec/pubkey.go l.148-157 *)
Definition SerializeHybrid (p : point) : list Z :=
  let format := if isOdd (snd p) then Z.lor pubkeyHybrid 1 else pubkeyHybrid in
  paddedAppend 32 (paddedAppend 32 [format] (bigBytes (fst p))) (bigBytes (snd p)).

(** btcec/pubkey.go l.162-165 *)
Definition PubKeyIsEqual (p q : point) : bool := (fst p =? fst q) && (snd p =? snd q).

(** btcec/privkey.go l.21-36 *)
Definition PrivKeyFromBytes (c : curve) (pk : list Z) : R (privkey * point) :=
  q <- cScalarBaseMult c pk ; Ok ({| kD := beval pk; kPub := q |}, q).

(** btcec/privkey.go l.40-46: ecdsa.GenerateKey draws a number in [1, N-1]; the
    argument is that draw.  (Rand.v draws it from the bytes of the source, which may fail.) *)
Definition NewPrivateKey (c : curve) (draw : Z) : R privkey :=
  q <- cScalarBaseMult c (bigBytes draw) ; Ok {| kD := draw; kPub := q |}.

(** btcec/privkey.go l.49-51 *)
Definition PubKey (k : privkey) : point := kPub k.

(** btcec/privkey.go l.71-74 *)
Definition PrivKeySerialize (k : privkey) : list Z := paddedAppend 32 [] (bigBytes (kD k)).
