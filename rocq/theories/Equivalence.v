(** * Model of /repo/equivalence.go *)
From Coq Require Import ZArith List Bool.
From Verif Require Import Go Wire Big Crypto.
Import ListNotations.
Open Scope Z_scope.

(** equivalence.go l.29-34 *)
Record EquivalenceProof := MkEquiv {
  eqUG : ECPoint; eqUH : ECPoint; eqChallenge : option Z; eqHiddenValue : option Z }.

Section Hash.
Variable sha : list Z -> list Z.

(** equivalence.go l.38-79 NewEquivalenceProof; [rnd] is the draw of l.53 *)
Definition NewEquivalenceProof (zk : zkparams) (Base1 Result1 Base2 Result2 : ECPoint) (x : option Z)
  (rnd : option Z) : R (option EquivalenceProof * option goerr) :=
  x' <- need x;
  let N := cN (zC zk) in
  let modValue := x' mod N in
  check1 <- Mult zk Base1 (Some modValue);
  e1 <- Equal check1 Result1;
  if negb e1 then Ok (None, Some EProof)
  else
    check2 <- Mult zk Base2 (Some modValue);
    e2 <- Equal check2 Result2;
    if negb e2 then Ok (None, Some EProof)
    else match rnd with
    | None => Ok (None, Some ERand)
    | Some u =>
        uBase1 <- Mult zk Base1 (Some u);
        uBase2 <- Mult zk Base2 (Some u);
        c <- Challenge sha zk [Base1; Result1; Base2; Result2; uBase1; uBase2];
        let h := (u + c * modValue) mod N in
        Ok (Some (MkEquiv uBase1 uBase2 (Some c) (Some h)), None)
    end.

(** equivalence.go l.84-122 Verify.  (Formatting eqProof.Challenge with %v in the
    error branch of l.97-99 cannot panic.) *)
Definition EquivalenceVerify (proof : option EquivalenceProof) (zk : zkparams)
  (Base1 Result1 Base2 Result2 : ECPoint) : R (bool * option goerr) :=
  match proof with
  | None => Ok (false, Some EProof)
  | Some pf =>
      c <- Challenge sha zk [Base1; Result1; Base2; Result2; eqUG pf; eqUH pf];
      ch <- need (eqChallenge pf);
      if negb (c =? ch) then Ok (false, Some EProof)
      else
        sG <- Mult zk Base1 (eqHiddenValue pf);
        cG <- Mult zk Result1 (eqChallenge pf);
        test1 <- Add zk (eqUG pf) cG;
        e1 <- Equal sG test1;
        if negb e1 then Ok (false, Some EProof)
        else
          sH <- Mult zk Base2 (eqHiddenValue pf);
          cH <- Mult zk Result2 (eqChallenge pf);
          test2 <- Add zk (eqUH pf) cH;
          e2 <- Equal sH test2;
          if negb e2 then Ok (false, Some EProof) else Ok (true, None)
  end.
End Hash.

(** equivalence.go l.125-134 Bytes *)
Definition EquivalenceBytes (pf : EquivalenceProof) : R (list Z) :=
  w1 <- WriteECPoint newBuffer (eqUG pf);
  w2 <- WriteECPoint (fst w1) (eqUH pf);
  w3 <- WriteBigInt (fst w2) (eqChallenge pf);
  w4 <- WriteBigInt (fst w3) (eqHiddenValue pf);
  Ok (wout (fst w4)).

(** equivalence.go l.138-146 NewEquivalenceProofFromBytes *)
Definition NewEquivalenceProofFromBytes (b : list Z) : R (option EquivalenceProof * option goerr) :=
  r1 <- ReadECPoint_ b;
  r2 <- ReadECPoint_ (snd r1);
  r3 <- ReadBigInt_ (snd r2);
  r4 <- ReadBigInt_ (snd r3);
  Ok (Some (MkEquiv (fst r1) (fst r2) (fst r3) (fst r4)), None).
