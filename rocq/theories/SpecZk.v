(** * Specification for the zero-knowledge layer

    Group elements are the points of Spec.v.  [pt] turns one into the ECPoint the
    API handles; [std] says what the theorems assume about the curve parameters
    (that TestCurve meets it is shown in the btcec part of the development). *)
From Coq Require Import ZArith List Bool.
From Verif Require Import Go Wire Big Crypto Spec.
Import ListNotations.
Open Scope Z_scope.

(** an ECPoint with both coordinates present *)
Definition pt (p : point) : ECPoint := EP (Some (fst p)) (Some (snd p)).

(** the point H of TestCurve (zksigma.go l.49-59), and the point H' whose multiples
    are tabulated in btcec/secp256k1H.go and which ScalarBaseMultH multiplies *)
Definition Hgen : point :=
  (0x35ca4c6f77dcfb43606326491ce0333e251954ca12295a8cdccbaf5c91720e6e,
   0xb8fa9185eef6c9468920e9bba7aaa2cf3ea5cbea07de683372737825640b9d46).
Definition Htab : point :=
  (0x891df6526b0a564e83e6399b469a6b1f3a60d14f4845ab365a294868998e3daf,
   0x2e683e7f3f68a40dac174b344284ca4233921aee723da913799f94d4a15c78dc).

(** the curve object computes the group of Spec.v on group elements *)
Record curve_ok (c : curve) : Prop := {
  ok_P : cP c = P;
  ok_N : cN c = N;
  ok_add : forall p q, is_point p -> is_point q ->
    cAdd c (fst p) (snd p) (fst q) (snd q) = Ok (padd p q);
  ok_mul : forall p k, is_point p -> bytes_ok k ->
    cScalarMult c (fst p) (snd p) k = Ok (smul (beval k) p);
  ok_base : forall k, bytes_ok k -> cScalarBaseMult c k = Ok (smul (beval k) G);
  ok_baseH : forall k, bytes_ok k -> cScalarBaseMultH c k = Ok (smul (beval k) Htab);
  ok_onc : forall x y, 0 <= x < 2 ^ 256 -> 0 <= y < 2 ^ 256 ->
    cIsOnCurve c x y = Ok ((y ^ 2 - (x ^ 3 + 7)) mod P =? 0)
}.

(** the parameters of the package: generator G, H, the table of 2^i * G *)
Record std (zk : zkparams) : Prop := {
  std_curve : curve_ok (zC zk);
  std_G : zG zk = pt G;
  std_H : zH zk = pt Hgen;
  std_HP : zHPoints zk = map (fun i => pt (smul (2 ^ Z.of_nat i) G)) (seq 0 64)
}.

(** a draw of the random source *)
Definition scalar (u : Z) : Prop := 0 <= u < N.

(** the inverse modulo the prime N *)
Definition ninv (a : Z) : Z := pow_mod N a (Z.to_pos (N - 2)).

(** the same point up to sign, i.e. the same X *)
Definition pm (p q : point) : Prop := q = p \/ q = pneg p.

(** the point Mult multiplies when given [p] (C12, C13): the X coordinate alone
    selects the G table, the H' table, or [p] itself *)
Definition eff (p : point) : point :=
  if fst p =? Gx then G else if fst p =? fst Hgen then Htab else p.
(** the points on which Mult is scalar multiplication *)
Definition plain (p : point) : Prop := p <> pneg G /\ p <> Hgen /\ p <> pneg Hgen.

(** the Fiat-Shamir challenge of a list of points: the hash of the concatenated
    minimal big-endian coordinates, reduced modulo N *)
Definition fs (sha : list Z -> list Z) (ps : list point) : Z :=
  beval (sha (concat (map (fun p => bigBytes (fst p) ++ bigBytes (snd p)) ps))) mod N.

(** Pedersen commitment as the code computes it *)
Definition ped (v r : Z) : point := padd (smul v G) (smul r Htab).

(** outcomes of a verifier *)
Definition accepts (r : R (bool * option goerr)) : Prop := r = Ok (true, None).
Definition rejects (r : R (bool * option goerr)) : Prop := r = Ok (false, Some EProof).

(** extraction: the slope of the line through two (challenge, response) pairs whose
    responses are taken with signs [e] and [f] *)
Definition sgn (e : Z) : Prop := e = 1 \/ e = -1.
Definition slope (e f s1 c1 s2 c2 : Z) : Z := ((e * s1 - f * s2) * ninv (c1 - c2)) mod N.
