(** * Model of /repo/zksigma.go *)
From Coq Require Import ZArith List Bool.
From Verif Require Import Go Wire Big Crypto.
Import ListNotations.
Open Scope Z_scope.

(** zksigma.go l.51: []byte("This is the new random point in zksigma") *)
Definition initString : list Z := [84; 104; 105; 115; 32; 105; 115; 32; 116; 104; 101; 32; 110; 101; 119; 32; 114; 97; 110; 100; 111; 109; 32; 112; 111; 105; 110; 116; 32; 105; 110; 32; 122; 107; 115; 105; 103; 109; 97].

(** int64(1) << i: the untyped constant 1 becomes an int64, the argument of big.NewInt *)
Definition shlInt64 (i : Z) : Z := let m := (2 ^ i) mod 2 ^ 64 in if m <? 2 ^ 63 then m else m - 2 ^ 64.

Fixpoint mapR {A B} (f : A -> R B) (l : list A) : R (list B) :=
  match l with [] => Ok [] | a :: t => b <- f a; bs <- mapR f t; Ok (b :: bs) end.

(** zksigma.go l.40-47 generateH2tothe *)
Definition generateH2tothe (c : curve) : R (list ECPoint) :=
  mapR (fun i => xy <- cScalarBaseMult c (bigBytes (shlInt64 (Z.of_nat i))); Ok (mkPoint xy)) (seq 0 64).

(** zksigma.go l.49-59 init: s256.Sum(b) appends the digest of nothing to b.
    [c] is btcec.S256() and (gx, gy) its generator. *)
Definition initTestCurve (sha : list Z -> list Z) (c : curve) (gx gy : Z) : R zkparams :=
  h <- cScalarMult c gx gy (initString ++ sha []);
  hp <- generateH2tothe c;
  Ok (ZK c (mkPoint (gx, gy)) (mkPoint h) hp).
