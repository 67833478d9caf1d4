(** * Model of /repo/disjunctive.go *)
From Coq Require Import ZArith List Bool.
From Verif Require Import Go Wire Big Crypto.
Import ListNotations.
Open Scope Z_scope.

(** zksigma.go l.26-33 Side is an int; Left = 0, Right = 1 *)
Definition Left : Z := 0.
Definition Right : Z := 1.

(** disjunctive.go l.45-53 *)
Record DisjunctiveProof := MkDisj {
  djT1 : ECPoint; djT2 : ECPoint; djC : option Z; djC1 : option Z; djC2 : option Z;
  djS1 : option Z; djS2 : option Z }.
(** &DisjunctiveProof{} *)
Definition emptyDisjunctive : DisjunctiveProof :=
  MkDisj (EP None None) (EP None None) None None None None None.

Section Hash.
Variable sha : list Z -> list Z.

(** disjunctive.go l.83-151: the part after the side is chosen; draws of l.86, l.90, l.94 *)
Definition disjProve (zk : zkparams) (Base1 Result1 Base2 Result2 : ECPoint) (left : bool)
  (ProveBase ProveResult OtherBase OtherResult : ECPoint) (x' : Z) (rnd1 rnd2 rnd3 : option Z)
  : R (option DisjunctiveProof * option goerr) :=
  let N := cN (zC zk) in
  let modValue := x' mod N in
  m <- Mult zk ProveBase (Some x');
  e <- Equal m ProveResult;
  if negb e then Ok (Some emptyDisjunctive, Some EProof)
  else match rnd1, rnd2, rnd3 with
  | Some u1, Some u2, Some u3 =>
      let u3Neg := (- u3) mod N in
      T1 <- Mult zk ProveBase (Some u1);
      temp <- Mult zk OtherBase (Some u2);
      temp2 <- Mult zk OtherResult (Some u3Neg);
      T2 <- Add zk temp temp2;
      c <- (if left then Challenge sha zk [Base1; Result1; Base2; Result2; T1; T2]
            else Challenge sha zk [Base1; Result1; Base2; Result2; T2; T1]);
      let deltaC := (c - u3) mod N in
      let s := u1 + deltaC * modValue in
      if left then Ok (Some (MkDisj T1 T2 (Some c) (Some deltaC) (Some u3) (Some s) (Some u2)), None)
      else Ok (Some (MkDisj T2 T1 (Some c) (Some u3) (Some deltaC) (Some u2) (Some s)), None)
  | _, _, _ => Ok (None, Some ERand)
  end.

(** disjunctive.go l.59-152 NewDisjunctiveProof (x is dereferenced first, l.62) *)
Definition NewDisjunctiveProof (zk : zkparams) (Base1 Result1 Base2 Result2 : ECPoint) (x : option Z)
  (side : Z) (rnd1 rnd2 rnd3 : option Z) : R (option DisjunctiveProof * option goerr) :=
  x' <- need x;
  if side =? Left then
    disjProve zk Base1 Result1 Base2 Result2 true Base1 Result1 Base2 Result2 x' rnd1 rnd2 rnd3
  else if side =? Right then
    disjProve zk Base1 Result1 Base2 Result2 false Base2 Result2 Base1 Result1 x' rnd1 rnd2 rnd3
  else Ok (Some emptyDisjunctive, Some EProof).

(** disjunctive.go l.155-204 Verify *)
Definition DisjunctiveVerify (proof : option DisjunctiveProof) (zk : zkparams)
  (Base1 Result1 Base2 Result2 : ECPoint) : R (bool * option goerr) :=
  match proof with
  | None => Ok (false, Some EProof)
  | Some pf =>
      checkC <- Challenge sha zk [Base1; Result1; Base2; Result2; djT1 pf; djT2 pf];
      C <- need (djC pf);
      if negb (checkC =? C) then Ok (false, Some EProof)
      else
        C1 <- need (djC1 pf); C2 <- need (djC2 pf);
        let totalC := (C1 + C2) mod cN (zC zk) in
        if negb (totalC =? C) then Ok (false, Some EProof)
        else
          c1A <- Mult zk Result1 (Some C1);
          checks1G <- Add zk (djT1 pf) c1A;
          s1G <- Mult zk Base1 (djS1 pf);
          e1 <- Equal checks1G s1G;
          if negb e1 then Ok (false, Some EProof)
          else
            c2A <- Mult zk Result2 (Some C2);
            checks2G <- Add zk c2A (djT2 pf);
            s2G <- Mult zk Base2 (djS2 pf);
            e2 <- Equal checks2G s2G;
            if negb e2 then Ok (false, Some EProof) else Ok (true, None)
  end.
End Hash.

(** disjunctive.go l.207-219 Bytes (on a nil receiver the field access panics) *)
Definition DisjunctiveBytes (pf : DisjunctiveProof) : R (list Z) :=
  w1 <- WriteECPoint newBuffer (djT1 pf);
  w2 <- WriteECPoint (fst w1) (djT2 pf);
  w3 <- WriteBigInt (fst w2) (djC pf);
  w4 <- WriteBigInt (fst w3) (djC1 pf);
  w5 <- WriteBigInt (fst w4) (djC2 pf);
  w6 <- WriteBigInt (fst w5) (djS1 pf);
  w7 <- WriteBigInt (fst w6) (djS2 pf);
  Ok (wout (fst w7)).

(** disjunctive.go l.223-234 NewDisjunctiveProofFromBytes *)
Definition NewDisjunctiveProofFromBytes (b : list Z) : R (option DisjunctiveProof * option goerr) :=
  r1 <- ReadECPoint_ b;
  r2 <- ReadECPoint_ (snd r1);
  r3 <- ReadBigInt_ (snd r2);
  r4 <- ReadBigInt_ (snd r3);
  r5 <- ReadBigInt_ (snd r4);
  r6 <- ReadBigInt_ (snd r5);
  r7 <- ReadBigInt_ (snd r6);
  Ok (Some (MkDisj (fst r1) (fst r2) (fst r3) (fst r4) (fst r5) (fst r6) (fst r7)), None).
