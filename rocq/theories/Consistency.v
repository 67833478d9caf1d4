(** * Model of /repo/consistency.go *)
From Coq Require Import ZArith List Bool.
From Verif Require Import Go Wire Big Crypto.
Import ListNotations.
Open Scope Z_scope.

(** consistency.go l.35-41 *)
Record ConsistencyProof := MkCons {
  cnT1 : ECPoint; cnT2 : ECPoint; cnChallenge : option Z; cnS1 : option Z; cnS2 : option Z }.
(** &ConsistencyProof{}: all pointers nil *)
Definition emptyConsistency : ConsistencyProof := MkCons (EP None None) (EP None None) None None None.

Section Hash.
Variable sha : list Z -> list Z.

(** consistency.go l.45-88 NewConsistencyProof; [rnd1], [rnd2] are the draws of
    l.61 and l.65.  In the error cases of l.53 and l.57 a non-nil empty proof is
    returned beside the error. *)
Definition NewConsistencyProof (zk : zkparams) (CM CMTok PubKey : ECPoint) (value randomness : option Z)
  (rnd1 rnd2 : option Z) : R (option ConsistencyProof * option goerr) :=
  v <- need value;
  let N := cN (zC zk) in
  let modValue := v mod N in
  com <- PedCommitR zk value randomness;
  e1 <- Equal CM com;
  if negb e1 then Ok (Some emptyConsistency, Some EProof)
  else
    tok <- Mult zk PubKey randomness;
    e2 <- Equal CMTok tok;
    if negb e2 then Ok (Some emptyConsistency, Some EProof)
    else match rnd1 with
    | None => Ok (None, Some ERand)
    | Some u1 => match rnd2 with
      | None => Ok (None, Some ERand)
      | Some u2 =>
          T1 <- PedCommitR zk (Some u1) (Some u2);
          T2 <- Mult zk PubKey (Some u2);
          c <- Challenge sha zk [zG zk; zH zk; CM; CMTok; PubKey; T1; T2];
          r <- need randomness;
          let s1 := (u1 + modValue * c) mod N in
          let s2 := (u2 + r * c) mod N in
          Ok (Some (MkCons T1 T2 (Some c) (Some s1) (Some s2)), None)
      end
    end.

(** consistency.go l.91-133 Verify *)
Definition ConsistencyVerify (proof : option ConsistencyProof) (zk : zkparams)
  (CM CMTok PubKey : ECPoint) : R (bool * option goerr) :=
  match proof with
  | None => Ok (false, Some EProof)
  | Some pf =>
      c <- Challenge sha zk [zG zk; zH zk; CM; CMTok; PubKey; cnT1 pf; cnT2 pf];
      ch <- need (cnChallenge pf);
      if negb (c =? ch) then Ok (false, Some EProof)
      else
        lhs1 <- PedCommitR zk (cnS1 pf) (cnS2 pf);
        t1 <- Mult zk CM (Some c);
        rhs1 <- Add zk (cnT1 pf) t1;
        e1 <- Equal lhs1 rhs1;
        if negb e1 then Ok (false, Some EProof)
        else
          lhs2 <- Mult zk PubKey (cnS2 pf);
          t2 <- Mult zk CMTok (Some c);
          rhs2 <- Add zk (cnT2 pf) t2;
          e2 <- Equal lhs2 rhs2;
          if negb e2 then Ok (false, Some EProof) else Ok (true, None)
  end.
End Hash.

(** consistency.go l.136-146 Bytes *)
Definition ConsistencyBytes (pf : ConsistencyProof) : R (list Z) :=
  w1 <- WriteECPoint newBuffer (cnT1 pf);
  w2 <- WriteECPoint (fst w1) (cnT2 pf);
  w3 <- WriteBigInt (fst w2) (cnChallenge pf);
  w4 <- WriteBigInt (fst w3) (cnS1 pf);
  w5 <- WriteBigInt (fst w4) (cnS2 pf);
  Ok (wout (fst w5)).

(** consistency.go l.150-159 NewConsistencyProofFromBytes *)
Definition NewConsistencyProofFromBytes (b : list Z) : R (option ConsistencyProof * option goerr) :=
  r1 <- ReadECPoint_ b;
  r2 <- ReadECPoint_ (snd r1);
  r3 <- ReadBigInt_ (snd r2);
  r4 <- ReadBigInt_ (snd r3);
  r5 <- ReadBigInt_ (snd r4);
  Ok (Some (MkCons (fst r1) (fst r2) (fst r3) (fst r4) (fst r5)), None).
