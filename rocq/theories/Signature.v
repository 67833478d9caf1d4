(** * Model of /repo/btcec/signature.go

    HMAC and crypto/ecdsa.Verify are standard-library functions, written here from
    their documentation (RFC 2104; crypto/ecdsa of Go 1.12). *)
From Coq Require Import ZArith List Bool.
From Verif Require Import Go Wire Big Spec Koblitz PubKey.
Import ListNotations.
Open Scope Z_scope.

Record sig := { sR : Z; sS : Z }.

(** btcec/signature.go l.222-233; [b\[0\]] exists because of the first test *)
Definition canonicalizeInt (v : Z) : list Z :=
  let b := bigBytes v in
  let b := if blen b =? 0 then [0] else b in
  if negb (Z.land (nth 0 b 0) 0x80 =? 0) then 0 :: b else b.

(** btcec/signature.go l.47-72; byte(n) is n mod 256 *)
Definition SigSerialize (s : sig) : list Z :=
  let sigS := if halfOrder <? sS s then curveN - sS s else sS s in
  let rb := canonicalizeInt (sR s) in
  let sb := canonicalizeInt sigS in
  let len := 6 + blen rb + blen sb in
  [0x30; (len - 2) mod 256; 0x02; blen rb mod 256] ++ rb ++ [0x02; blen sb mod 256] ++ sb.

(** btcec/signature.go l.83-86 *)
Definition SigIsEqual (a b : sig) : bool := (sR a =? sR b) && (sS a =? sS b).

(** btcec/signature.go l.239-248, for a non-empty slice; [b\[0\]] of an empty one panics *)
Inductive padding := PadNegative | PadExcess | PadFine.
Definition canonicalPadding (b : list Z) : R padding :=
  match b with
  | [] => Panic
  | b0 :: t =>
      if Z.land b0 0x80 =? 0x80 then Ok PadNegative
      else match t with
           | b1 :: _ => if (b0 =? 0) && negb (Z.land b1 0x80 =? 0x80) then Ok PadExcess else Ok PadFine
           | [] => Ok PadFine
           end
  end.

(** indexing s[i]: panics outside *)
Definition index (s : list Z) (i : Z) : R Z :=
  if (i <? 0) || (blen s <=? i) then Panic else Ok (nth (Z.to_nat i) s 0).
(** slicing s[i:j] with j at most the length *)
Definition slice (s : list Z) (i j : Z) : list Z := firstn (Z.to_nat (j - i)) (skipn (Z.to_nat i) s).

(** btcec/signature.go l.139-146 / l.165-172 *)
Definition checkPadding (der : bool) (b : list Z) (eneg epad : berr) (k : R (ret sig)) : R (ret sig) :=
  if der then
    p <- canonicalPadding b ;
    match p with PadNegative => Ok (Fail eneg) | PadExcess => Ok (Fail epad) | PadFine => k end
  else k.

(** btcec/signature.go l.182-199: range checks on the two numbers *)
Definition checkRange (r s : Z) : ret sig :=
  if negb (Z.sgn r =? 1) then Fail ESigRSmall
  else if negb (Z.sgn s =? 1) then Fail ESigSSmall
  else if curveN <=? r then Fail ESigRBig
  else if curveN <=? s then Fail ESigSBig
  else Val {| sR := r; sS := s |}.

(** btcec/signature.go l.88-200.  [siglen + 2] is computed in a byte. *)
Definition parseSig (s : list Z) (der : bool) : R (ret sig) :=
  if blen s <? 8 then Ok (Fail ESigShort)
  else
  h <- index s 0 ;
  if negb (h =? 0x30) then Ok (Fail ESigHeader)
  else
  siglen <- index s 1 ;
  let n := (siglen + 2) mod 256 in
  if blen s <? n then Ok (Fail ESigLength)
  else
  let s := firstn (Z.to_nat n) s in
  m <- index s 2 ;
  if negb (m =? 0x02) then Ok (Fail ESigMarker1)
  else
  rLen <- index s 3 ;
  if (rLen <=? 0) || (blen s - 4 - 3 <? rLen) then Ok (Fail ESigRLen)
  else
  let rBytes := slice s 4 (4 + rLen) in
  checkPadding der rBytes ESigRNeg ESigRPad (
  let i := 4 + rLen in
  m <- index s i ;
  if negb (m =? 0x02) then Ok (Fail ESigMarker2)
  else
  sLen <- index s (i + 1) ;
  let i := i + 2 in
  if (sLen <=? 0) || (blen s - i <? sLen) then Ok (Fail ESigSLen)
  else
  let sBytes := slice s i (i + sLen) in
  checkPadding der sBytes ESigSNeg ESigSPad (
  if negb (i + sLen =? blen s) then Ok (Fail ESigFinal)
  else Ok (checkRange (beval rBytes) (beval sBytes)))).

(** btcec/signature.go l.205-207, l.212-214 *)
Definition ParseSignature (s : list Z) : R (ret sig) := parseSig s false.
Definition ParseDERSignature (s : list Z) : R (ret sig) := parseSig s true.

(** btcec/signature.go l.257-270 *)
Definition hashToInt (hash : list Z) : Z :=
  let orderBits := 256 in
  let orderBytes := (orderBits + 7) / 8 in
  let hash := if orderBytes <? blen hash then firstn (Z.to_nat orderBytes) hash else hash in
  let excess := blen hash * 8 - orderBits in
  if 0 <? excess then Z.shiftr (beval hash) excess else beval hash.

(** crypto/ecdsa.Verify of the Go standard library, the body of Signature.Verify
    (btcec/signature.go l.76-78) *)
Definition Verify (c : curve) (s : sig) (hash : list Z) (pub : point) : R bool :=
  if (sR s <=? 0) || (sS s <=? 0) then Ok false
  else if (cN c <=? sR s) || (cN c <=? sS s) then Ok false
  else
  w <- need (modInverse (sS s) (cN c)) ;
  let u1 := (hashToInt hash * w) mod cN c in
  let u2 := (sR s * w) mod cN c in
  p1 <- cScalarBaseMult c (bigBytes u1) ;
  p2 <- cScalarMult c (fst pub) (snd pub) (bigBytes u2) ;
  q <- cAdd c (fst p1) (snd p1) (fst p2) (snd p2) ;
  if (fst q =? 0) && (snd q =? 0) then Ok false
  else Ok (fst q mod cN c =? sR s).

(** btcec/signature.go l.279-336 *)
Definition recoverKeyFromSignature (c : curve) (s : sig) (msg : list Z) (iter : Z) (doChecks : bool)
  : R (ret point) :=
  let Rx := cN c * (iter / 2) + sR s in
  if cP c <=? Rx then Ok (Fail ERxRange)
  else
  match decompressPoint Rx (iter mod 2 =? 1) with
  | Fail e => Ok (Fail e)
  | Val Ry =>
      bad <- (if doChecks
              then nR <- cScalarMult c Rx Ry (bigBytes (cN c)) ;
                   Ok (negb (fst nR =? 0) || negb (snd nR =? 0))
              else Ok false) ;
      if bad : bool then Ok (Fail ENRInf)
      else
      let e := hashToInt msg in
      invr <- need (modInverse (sR s) (cN c)) ;
      let invrS := (invr * sS s) mod cN c in
      sRp <- cScalarMult c Rx Ry (bigBytes invrS) ;
      let e := ((- e) mod cN c * invr) mod cN c in
      eG <- cScalarBaseMult c (bigBytes e) ;
      q <- cAdd c (fst sRp) (snd sRp) (fst eG) (snd eG) ;
      Ok (Val q)
  end.

(** btcec/signature.go l.508-526 *)
Definition int2octets (v : Z) (rolen : Z) : list Z :=
  let out := bigBytes v in
  if blen out <? rolen then repeat 0 (Z.to_nat (rolen - blen out)) ++ out
  else if rolen <? blen out then skipn (Z.to_nat (blen out - rolen)) out
  else out.

(** btcec/signature.go l.529-536 *)
Definition bits2octets (inp : list Z) (rolen : Z) : list Z :=
  let z1 := hashToInt inp in
  let z2 := z1 - curveN in
  if z2 <? 0 then int2octets z1 rolen else int2octets z2 rolen.

(** RFC 2104 (crypto/hmac) over a hash with 64-byte blocks: mac, btcec/signature.go
    l.501-505, and the HMAC of ciphering.go *)
Definition hmac (sha : list Z -> list Z) (key msg : list Z) : list Z :=
  let k := if 64 <? blen key then sha key else key in
  let k := k ++ repeat 0 (64 - length k) in
  sha (map (Z.lxor 0x5c) k ++ sha (map (Z.lxor 0x36) k ++ msg)).

(** btcec/signature.go l.480-497, the loop of step H; the inner loop runs once because
    a digest has the 32 bytes it asks for (the model takes the digest size to be 32).
    [None] when [fuel] candidates were all out of range: the Go loop has no bound. *)
Fixpoint nonceLoop (sha : list Z -> list Z) (fuel : nat) (k v : list Z) : option Z :=
  match fuel with
  | 0%nat => None
  | S f =>
      let v := hmac sha k v in
      let secret := hashToInt v in
      if (1 <=? secret) && (secret <? curveN) then Some secret
      else let k := hmac sha k (v ++ [0]) in nonceLoop sha f k (hmac sha k v)
  end.

(** btcec/signature.go l.449-498 *)
Definition nonceRFC6979 (sha : list Z -> list Z) (fuel : nat) (x : Z) (hash : list Z) : option Z :=
  let rolen := 32 in
  let bx := int2octets x rolen ++ bits2octets hash rolen in
  let v := repeat 1 32 in
  let k := repeat 0 32 in
  let k := hmac sha k (v ++ [0] ++ bx) in
  let v := hmac sha k v in
  let k := hmac sha k (v ++ [1] ++ bx) in
  let v := hmac sha k v in
  nonceLoop sha fuel k v.

(** btcec/signature.go l.422-444: the signature, given the nonce k *)
Definition signNonce (c : curve) (D k : Z) (hash : list Z) : R (ret sig) :=
  rp <- cScalarBaseMult c (bigBytes k) ;
  let r := if curveN <? fst rp then fst rp - curveN else fst rp in
  if r =? 0 then Ok (Fail ERZero)
  else
  inv <- need (modInverse k curveN) ;
  let s := ((D * r + hashToInt hash) * inv) mod curveN in
  let s := if halfOrder <? s then curveN - s else s in
  if s =? 0 then Ok (Fail ESZero)
  else Ok (Val {| sR := r; sS := s |}).

(** btcec/signature.go l.416-445; [None]: the nonce loop ran out of fuel *)
Definition signRFC6979 (sha : list Z -> list Z) (fuel : nat) (c : curve) (key : privkey) (hash : list Z)
  : option (R (ret sig)) :=
  match nonceRFC6979 sha fuel (kD key) hash with
  | None => None
  | Some k => Some (signNonce c (kD key) k hash)
  end.

(** btcec/signature.go l.366-379: R or S padded to curvelen *)
Definition padCompact (v : Z) : list Z :=
  let curvelen := (curveBitSize + 7) / 8 in
  let b := bigBytes v in
  (if blen b <? curvelen then repeat 0 (Z.to_nat (curvelen - blen b)) else []) ++ b.

(** btcec/signature.go l.355-385: the loop of SignCompact, from iteration [i] *)
Fixpoint compactLoop (c : curve) (key : privkey) (s : sig) (hash : list Z) (isCompressed : bool)
    (n : nat) (i : Z) : R (ret (list Z)) :=
  match n with
  | 0%nat => Ok (Fail ENoSolution)
  | S n' =>
      pk <- recoverKeyFromSignature c s hash i true ;
      match pk with
      | Val q =>
          if (fst q =? fst (kPub key)) && (snd q =? snd (kPub key)) then
            let b := (27 + i) mod 256 in
            let b := if isCompressed then (b + 4) mod 256 else b in
            Ok (Val (b :: padCompact (sR s) ++ padCompact (sS s)))
          else compactLoop c key s hash isCompressed n' (i + 1)
      | Fail _ => compactLoop c key s hash isCompressed n' (i + 1)
      end
  end.

(** btcec/signature.go l.345-386 *)
Definition SignCompact (sha : list Z -> list Z) (fuel : nat) (c : curve) (key : privkey) (hash : list Z)
    (isCompressed : bool) : option (R (ret (list Z))) :=
  match signRFC6979 sha fuel c key hash with
  | None => None
  | Some r =>
      Some (s <- r ;
            match s with
            | Fail e => Ok (Fail e)
            | Val s => compactLoop c key s hash isCompressed (Z.to_nat ((curveH + 1) * 2)) 0
            end)
  end.

(** btcec/signature.go l.392-413; signature[0]-27 is a byte subtraction *)
Definition RecoverCompact (c : curve) (signature hash : list Z) : R (ret (point * bool)) :=
  let bitlen := (curveBitSize + 7) / 8 in
  if negb (blen signature =? 1 + bitlen * 2) then Ok (Fail ECompactSize)
  else
  let b := (nth 0 signature 0 - 27) mod 256 in
  let iteration := Z.land b 0xfb in
  let s := {| sR := beval (slice signature 1 (bitlen + 1));
              sS := beval (skipn (Z.to_nat (bitlen + 1)) signature) |} in
  key <- recoverKeyFromSignature c s hash iteration false ;
  match key with
  | Fail e => Ok (Fail e)
  | Val q => Ok (Val (q, Z.land b 4 =? 4))
  end.
