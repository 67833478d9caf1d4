(** * Model of /repo/abc.go and /repo/inequality.go *)
From Coq Require Import ZArith List Bool.
From Verif Require Import Go Wire Big Crypto Disjunctive.
Import ListNotations.
Open Scope Z_scope.

(** abc.go l.44-55 *)
Record ABCProof := MkABC {
  abB : ECPoint; abC : ECPoint; abT1 : ECPoint; abT2 : ECPoint; abChallenge : option Z;
  abj : option Z; abk : option Z; abl : option Z; abCToken : ECPoint;
  abDisj : option DisjunctiveProof }.
(** &ABCProof{} *)
Definition emptyABC : ABCProof :=
  MkABC (EP None None) (EP None None) (EP None None) (EP None None) None None None None (EP None None) None.

(** the eight draws of one NewABCProof call: l.65 (u1), l.69 (u2), l.74 (u3), l.79 (ub),
    l.83 (uc), and the three of the inner disjunctive proof *)
Record abcRand := { ar1 : option Z; ar2 : option Z; ar3 : option Z; arb : option Z; arc : option Z;
                    ard1 : option Z; ard2 : option Z; ard3 : option Z }.

Section Hash.
Variable sha : list Z -> list Z.

(** abc.go l.126-169: everything after the disjunctive proof *)
Definition abcFinish (zk : zkparams) (CM CMTok : ECPoint) (value sk : Z) (u1 u2 u3 ub uc : Z)
  (B C CToken : ECPoint) (dj : option DisjunctiveProof) : R (option ABCProof * option goerr) :=
  let N := cN (zC zk) in
  u1G <- Mult zk (zG zk) (Some u1);
  u2Ta <- Mult zk CMTok (Some u2);
  T1 <- Add zk u1G u2Ta;
  u1B <- Mult zk B (Some u1);
  u3H <- Mult zk (zH zk) (Some u3);
  T2 <- Add zk u1B u3H;
  c <- Challenge sha zk [zG zk; zH zk; CM; CMTok; B; C; T1; T2];
  let j := (u1 + value * c) mod N in
  isk <- need (modInverse sk N);                    (* nil *big.Int in Mul panics *)
  let k := (u2 + isk * c) mod N in
  let l := u3 + (uc - value * ub) * c in
  Ok (Some (MkABC B C T1 T2 (Some c) (Some j) (Some k) (Some l) CToken dj), None).

(** abc.go l.61-170 NewABCProof *)
Definition NewABCProof (zk : zkparams) (CM CMTok : ECPoint) (value sk : option Z) (side : Z) (rn : abcRand)
  : R (option ABCProof * option goerr) :=
  match ar1 rn, ar2 rn, ar3 rn, arb rn, arc rn with
  | Some u1, Some u2, Some u3, Some ub, Some uc =>
      Hsk <- Mult zk (zH zk) sk;
      CToken <- Mult zk Hsk (Some uc);
      v <- (if (side =? Left) || (side =? Right) then need value else Ok 0);   (* value.Cmp *)
      if (side =? Left) && (v =? 0) then
        B <- PedCommitR zk (Some 0) (Some ub);
        C <- PedCommitR zk (Some 0) (Some uc);
        CG <- Sub zk C (zG zk);
        d <- NewDisjunctiveProof sha zk CM CMTok (zH zk) CG sk Left (ard1 rn) (ard2 rn) (ard3 rn);
        match snd d with
        | Some _ => Ok (Some emptyABC, Some EProof)
        | None => sk' <- need sk; abcFinish zk CM CMTok v sk' u1 u2 u3 ub uc B C CToken (fst d)
        end
      else if (side =? Right) && negb (v =? 0) then
        B <- PedCommitR zk (modInverse v (cN (zC zk))) (Some ub);
        C <- PedCommitR zk (Some 1) (Some uc);
        CG <- Sub zk C (zG zk);
        d <- NewDisjunctiveProof sha zk CM CMTok (zH zk) CG (Some uc) Right (ard1 rn) (ard2 rn) (ard3 rn);
        match snd d with
        | Some _ => Ok (Some emptyABC, Some EProof)
        | None => sk' <- need sk; abcFinish zk CM CMTok v sk' u1 u2 u3 ub uc B C CToken (fst d)
        end
      else Ok (Some emptyABC, Some EProof)
  | _, _, _, _, _ => Ok (None, Some ERand)
  end.

(** abc.go l.173-222 Verify: a nil receiver panics at aProof.disjuncAC *)
Definition ABCVerify (proof : option ABCProof) (zk : zkparams) (CM CMTok : ECPoint) : R (bool * option goerr) :=
  pf <- need proof;
  CG <- Sub zk (abC pf) (zG zk);
  st <- DisjunctiveVerify sha (abDisj pf) zk CM CMTok (zH zk) CG;
  match snd st with
  | Some _ => Ok (false, Some EProof)
  | None =>
      c <- Challenge sha zk [zG zk; zH zk; CM; CMTok; abB pf; abC pf; abT1 pf; abT2 pf];
      ch <- need (abChallenge pf);
      if negb (c =? ch) then Ok (false, Some EProof)
      else
        chalA <- Mult zk CM (Some c);
        lhs1 <- Add zk chalA (abT1 pf);
        jG <- Mult zk (zG zk) (abj pf);
        kCMTok <- Mult zk CMTok (abk pf);
        rhs1 <- Add zk jG kCMTok;
        e1 <- Equal lhs1 rhs1;
        if negb e1 then Ok (false, Some EProof)
        else
          chalC <- Mult zk (abC pf) (Some c);
          lhs2 <- Add zk chalC (abT2 pf);
          jB <- Mult zk (abB pf) (abj pf);
          lH <- Mult zk (zH zk) (abl pf);
          rhs2 <- Add zk jB lH;
          e2 <- Equal lhs2 rhs2;
          if negb e2 then Ok (false, Some EProof) else Ok (true, None)
  end.

(** inequality.go l.14-34 NewInequalityProof *)
Definition NewInequalityProof (zk : zkparams) (A B CMTokA CMTokB : ECPoint) (a b sk : option Z) (rn : abcRand)
  : R (option ABCProof * option goerr) :=
  a' <- need a; b' <- need b;
  if a' =? b' then Ok (None, Some EProof)
  else
    let value := a' - b' in
    CM <- Sub zk A B;
    CMTok <- Sub zk CMTokA CMTokB;
    r <- NewABCProof zk CM CMTok (Some value) sk Right rn;
    match snd r with
    | Some e => Ok (None, Some e)
    | None => Ok (fst r, None)
    end.

(** inequality.go l.37-43 Verify *)
Definition InequalityVerify (proof : option ABCProof) (zk : zkparams) (CM CMTok : ECPoint) : R (bool * option goerr) :=
  match proof with
  | None => Ok (false, Some EProof)
  | Some _ => ABCVerify proof zk CM CMTok
  end.
End Hash.

(** abc.go l.225-240 Bytes *)
Definition ABCBytes (pf : ABCProof) : R (list Z) :=
  w1 <- WriteECPoint newBuffer (abB pf);
  w2 <- WriteECPoint (fst w1) (abC pf);
  w3 <- WriteECPoint (fst w2) (abT1 pf);
  w4 <- WriteECPoint (fst w3) (abT2 pf);
  w5 <- WriteBigInt (fst w4) (abChallenge pf);
  w6 <- WriteBigInt (fst w5) (abj pf);
  w7 <- WriteBigInt (fst w6) (abk pf);
  w8 <- WriteBigInt (fst w7) (abl pf);
  w9 <- WriteECPoint (fst w8) (abCToken pf);
  dj <- need (abDisj pf);
  db <- DisjunctiveBytes dj;
  Ok (wout (fst (WriteVarBytes (fst w9) db))).

(** abc.go l.244-293 NewABCProofFromBytes: the reads of the outer fields are checked *)
Definition rdR {A B} (r : rd A) (k : A -> list Z -> R (option B * option goerr)) : R (option B * option goerr) :=
  match r with ROk a s => k a s | RErr e _ => Ok (None, Some (ERead e)) | RPanic => Panic end.
Definition NewABCProofFromBytes (b : list Z) : R (option ABCProof * option goerr) :=
  rdR (ReadECPoint b) (fun B s1 =>
  rdR (ReadECPoint s1) (fun C s2 =>
  rdR (ReadECPoint s2) (fun T1 s3 =>
  rdR (ReadECPoint s3) (fun T2 s4 =>
  rdR (ReadBigInt s4) (fun ch s5 =>
  rdR (ReadBigInt s5) (fun j s6 =>
  rdR (ReadBigInt s6) (fun k s7 =>
  rdR (ReadBigInt s7) (fun l s8 =>
  rdR (ReadECPoint s8) (fun ct s9 =>
  rdR (ReadVarBytes 100000 s9) (fun db s10 =>
  d <- NewDisjunctiveProofFromBytes db;
  match snd d with
  | Some e => Ok (None, Some e)
  | None => Ok (Some (MkABC B C T1 T2 (Some ch) (Some j) (Some k) (Some l) ct (fst d)), None)
  end)))))))))).
