(** * Model of /repo/gspfs.go *)
From Coq Require Import ZArith List Bool.
From Verif Require Import Go Wire Big Crypto.
Import ListNotations.
Open Scope Z_scope.

(** gspfs.go l.27-32 *)
Record GSPFSProof := MkGSPFS {
  gsBase : ECPoint; gsRandCommit : ECPoint; gsHiddenValue : option Z; gsChallenge : option Z }.

Section Hash.
Variable sha : list Z -> list Z.

(** gspfs.go l.43-69 NewGSPFSProofBase; [rnd] is the draw of l.53 *)
Definition NewGSPFSProofBase (zk : zkparams) (base A : ECPoint) (x : option Z) (rnd : option Z)
  : R (option GSPFSProof * option goerr) :=
  x' <- need x;
  let N := cN (zC zk) in
  let modValue := x' mod N in
  bx <- need (pX base); by_ <- need (pY base);
  c0 <- cScalarMult (zC zk) bx by_ (bigBytes modValue);
  eq <- Equal (mkPoint c0) A;
  if negb eq then Ok (None, Some EProof)
  else match rnd with
  | None => Ok (None, Some ERand)
  | Some u =>
      uG <- Mult zk base (Some u);
      c <- Challenge sha zk [A; uG];
      let v := (u - c * modValue) mod N in
      Ok (Some (MkGSPFS base uG (Some v) (Some c)), None)
  end.

(** gspfs.go l.37-39 NewGSPFSProof *)
Definition NewGSPFSProof (zk : zkparams) (A : ECPoint) (x : option Z) (rnd : option Z)
  : R (option GSPFSProof * option goerr) :=
  NewGSPFSProofBase zk (zG zk) A x rnd.

(** gspfs.go l.72-98 Verify *)
Definition GSPFSVerify (proof : option GSPFSProof) (zk : zkparams) (A : ECPoint) : R (bool * option goerr) :=
  match proof with
  | None => Ok (false, Some EProof)
  | Some pf =>
      testC <- Challenge sha zk [A; gsRandCommit pf];
      ch <- need (gsChallenge pf);
      if negb (testC =? ch) then Ok (false, Some EProof)
      else
        s <- Mult zk (gsBase pf) (gsHiddenValue pf);
        c <- Mult zk A (gsChallenge pf);
        tot <- Add zk s c;
        eq <- Equal (gsRandCommit pf) tot;
        if negb eq then Ok (false, Some EProof) else Ok (true, None)
  end.
End Hash.

(** gspfs.go l.101-110 Bytes (called on a non-nil proof) *)
Definition GSPFSBytes (pf : GSPFSProof) : R (list Z) :=
  w1 <- WriteECPoint newBuffer (gsBase pf);
  w2 <- WriteECPoint (fst w1) (gsRandCommit pf);
  w3 <- WriteBigInt (fst w2) (gsHiddenValue pf);
  w4 <- WriteBigInt (fst w3) (gsChallenge pf);
  Ok (wout (fst w4)).

(** gspfs.go l.114-122 NewGSPFSProofFromBytes: every read error is dropped *)
Definition NewGSPFSProofFromBytes (b : list Z) : R (option GSPFSProof * option goerr) :=
  r1 <- ReadECPoint_ b;
  r2 <- ReadECPoint_ (snd r1);
  r3 <- ReadBigInt_ (snd r2);
  r4 <- ReadBigInt_ (snd r3);
  Ok (Some (MkGSPFS (fst r1) (fst r2) (fst r3) (fst r4)), None).
