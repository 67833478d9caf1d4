(** * The texts of the errors

    The other files say that an error was returned, not what it says.  Here the functions
    of zksigma that make an error are written again with the text of the error, and the
    errors of btcec and of package wire, which are already told apart, are given their
    texts.  PropErrors.v proves that forgetting the text gives back the functions of the
    other files.  A text is the list of its bytes (Text.v); \n is the byte 10. *)
From Coq Require Import String ZArith List Bool.
From Verif Require Import Go Wire Big Crypto Gspfs Equivalence Consistency Disjunctive Abc Range
  PubKey Signature Text.
Import ListNotations.
Open Scope Z_scope.

(** ** Printing *)

(** the decimal digits of n >= 0, least significant first (math/big, strconv) *)
Fixpoint decRev (fuel : nat) (n : Z) : list Z :=
  match fuel with
  | 0%nat => []
  | S f => if n <? 10 then [48 + n] else 48 + n mod 10 :: decRev f (n / 10)
  end.
(** ( *big.Int).String, %v and %d of an integer *)
Definition decimal (n : Z) : list Z :=
  let digits := rev (decRev (S (Z.to_nat (Z.log2 (Z.abs n)))) (Z.abs n)) in
  if n <? 0 then 45 :: digits else digits.

(** ** Errors *)

(** crypto.go l.28-31 errorProof{t, s}; fmt.Errorf; the error of crypto/rand, passed on *)
Inductive err := ErrProof (t s : list Z) | ErrFmt (s : list Z) | ErrRand.
(** &errorProof{t, s} with two literals *)
Definition errorProof (t s : string) : err := ErrProof (ascii t) (ascii s).

(** crypto.go l.33-35 Error, and the Error of the other two; [source] is the text of the
    error of the random source *)
Definition Error (source : list Z) (e : err) : list Z :=
  match e with
  | ErrProof t s => t ++ ascii " - " ++ s ++ nl
  | ErrFmt s => s
  | ErrRand => source
  end.

(** crypto.go l.37-43 proofStatus: the number returned, and what is printed *)
Definition proofStatus (DEBUG : bool) (source : list Z) (e : option err) : Z * list Z :=
  match e with
  | Some e => if DEBUG then (-1, ascii "ERROR: " ++ Error source e ++ ascii " " ++ nl) else (0, [])
  | None => (0, [])
  end.

(** what the other files keep of an error *)
Definition class (e : err) : goerr :=
  match e with ErrProof _ _ => EProof | ErrFmt _ => ERange | ErrRand => ERand end.

(** ** zksigma *)
Section Hash.
Variable sha : list Z -> list Z.

(** gspfs.go l.43-69, with the message of l.50 *)
Definition NewGSPFSProofBaseE (zk : zkparams) (base A : ECPoint) (x : option Z) (rnd : option Z)
  : R (option GSPFSProof * option err) :=
  x' <- need x;
  let N := cN (zC zk) in
  let modValue := x' mod N in
  bx <- need (pX base); by_ <- need (pY base);
  c0 <- cScalarMult (zC zk) bx by_ (bigBytes modValue);
  eq <- Equal (mkPoint c0) A;
  if negb eq then Ok (None, Some (errorProof "GSPFSProve:" "the point given is not xG"))
  else match rnd with
  | None => Ok (None, Some ErrRand)
  | Some u =>
      uG <- Mult zk base (Some u);
      c <- Challenge sha zk [A; uG];
      let v := (u - c * modValue) mod N in
      Ok (Some (MkGSPFS base uG (Some v) (Some c)), None)
  end.

(** gspfs.go l.72-98, with the messages of l.75, l.82 and l.95 *)
Definition GSPFSVerifyE (proof : option GSPFSProof) (zk : zkparams) (A : ECPoint) : R (bool * option err) :=
  match proof with
  | None => Ok (false, Some (errorProof "GSPFSProof.Verify" "passed proof is nil"))
  | Some pf =>
      testC <- Challenge sha zk [A; gsRandCommit pf];
      ch <- need (gsChallenge pf);
      if negb (testC =? ch)
      then Ok (false, Some (errorProof "GSPFSProof.Verify" "calculated challenge and proof's challenge do not agree!"))
      else
        s <- Mult zk (gsBase pf) (gsHiddenValue pf);
        c <- Mult zk A (gsChallenge pf);
        tot <- Add zk s c;
        eq <- Equal (gsRandCommit pf) tot;
        if negb eq
        then Ok (false, Some (errorProof "GSPFSProof.Verify" "proof's final value and verification final value do not agree!"))
        else Ok (true, None)
  end.

(** equivalence.go l.38-79, with the messages of l.45 and l.50 *)
Definition NewEquivalenceProofE (zk : zkparams) (Base1 Result1 Base2 Result2 : ECPoint) (x : option Z)
  (rnd : option Z) : R (option EquivalenceProof * option err) :=
  x' <- need x;
  let N := cN (zC zk) in
  let modValue := x' mod N in
  check1 <- Mult zk Base1 (Some modValue);
  e1 <- Equal check1 Result1;
  if negb e1 then Ok (None, Some (errorProof "EquivalenceProve" "Base1 and Result1 are not related by x"))
  else
    check2 <- Mult zk Base2 (Some modValue);
    e2 <- Equal check2 Result2;
    if negb e2 then Ok (None, Some (errorProof "EquivalenceProve" "Base2 and Result2 are not related by x"))
    else match rnd with
    | None => Ok (None, Some ErrRand)
    | Some u =>
        uBase1 <- Mult zk Base1 (Some u);
        uBase2 <- Mult zk Base2 (Some u);
        c <- Challenge sha zk [Base1; Result1; Base2; Result2; uBase1; uBase2];
        let h := (u + c * modValue) mod N in
        Ok (Some (MkEquiv uBase1 uBase2 (Some c) (Some h)), None)
    end.

(** equivalence.go l.84-122, with the messages of l.88, l.97-99, l.107 and l.116 *)
Definition EquivalenceVerifyE (proof : option EquivalenceProof) (zk : zkparams)
  (Base1 Result1 Base2 Result2 : ECPoint) : R (bool * option err) :=
  match proof with
  | None => Ok (false, Some (errorProof "EquivalenceVerify" "passed proof is nil"))
  | Some pf =>
      c <- Challenge sha zk [Base1; Result1; Base2; Result2; eqUG pf; eqUH pf];
      ch <- need (eqChallenge pf);
      if negb (c =? ch)
      then Ok (false, Some (ErrProof (ascii "EquivalenceVerify")
                 (ascii "challenge comparison failed. proof: " ++ decimal ch ++ ascii " calculated: " ++ decimal c)))
      else
        sG <- Mult zk Base1 (eqHiddenValue pf);
        cG <- Mult zk Result1 (eqChallenge pf);
        test1 <- Add zk (eqUG pf) cG;
        e1 <- Equal sG test1;
        if negb e1 then Ok (false, Some (errorProof "EquivalenceVerify" "sG comparison did not pass"))
        else
          sH <- Mult zk Base2 (eqHiddenValue pf);
          cH <- Mult zk Result2 (eqChallenge pf);
          test2 <- Add zk (eqUH pf) cH;
          e2 <- Equal sH test2;
          if negb e2 then Ok (false, Some (errorProof "EquivalenceVerify" "sH comparison did not pass"))
          else Ok (true, None)
  end.

(** consistency.go l.45-88, with the messages of l.54 and l.58 *)
Definition NewConsistencyProofE (zk : zkparams) (CM CMTok PubKey : ECPoint) (value randomness : option Z)
  (rnd1 rnd2 : option Z) : R (option ConsistencyProof * option err) :=
  v <- need value;
  let N := cN (zC zk) in
  let modValue := v mod N in
  com <- PedCommitR zk value randomness;
  e1 <- Equal CM com;
  if negb e1 then Ok (Some emptyConsistency, Some (errorProof "ConsistencyProve" "value and randomVal does not produce CM"))
  else
    tok <- Mult zk PubKey randomness;
    e2 <- Equal CMTok tok;
    if negb e2
    then Ok (Some emptyConsistency, Some (errorProof "ConsistencyProve" "Pubkey and randomVal does not produce CMTok"))
    else match rnd1 with
    | None => Ok (None, Some ErrRand)
    | Some u1 => match rnd2 with
      | None => Ok (None, Some ErrRand)
      | Some u2 =>
          T1 <- PedCommitR zk (Some u1) (Some u2);
          T2 <- Mult zk PubKey (Some u2);
          c <- Challenge sha zk [zG zk; zH zk; CM; CMTok; PubKey; T1; T2];
          r <- need randomness;
          let s1 := (u1 + modValue * c) mod N in
          let s2 := (u2 + r * c) mod N in
          Ok (Some (MkCons T1 T2 (Some c) (Some s1) (Some s2)), None)
      end
    end.

(** consistency.go l.91-133, with the messages of l.95, l.106-108, l.119 and l.128 *)
Definition ConsistencyVerifyE (proof : option ConsistencyProof) (zk : zkparams)
  (CM CMTok PubKey : ECPoint) : R (bool * option err) :=
  match proof with
  | None => Ok (false, Some (errorProof "ConsistencyProof.Verify" "passed proof is nil"))
  | Some pf =>
      c <- Challenge sha zk [zG zk; zH zk; CM; CMTok; PubKey; cnT1 pf; cnT2 pf];
      ch <- need (cnChallenge pf);
      if negb (c =? ch)
      then Ok (false, Some (ErrProof (ascii "ConsistencyVerify")
                 (ascii "c comparison failed. proof: " ++ decimal ch ++ ascii " calculated: " ++ decimal c)))
      else
        lhs1 <- PedCommitR zk (cnS1 pf) (cnS2 pf);
        t1 <- Mult zk CM (Some c);
        rhs1 <- Add zk (cnT1 pf) t1;
        e1 <- Equal lhs1 rhs1;
        if negb e1 then Ok (false, Some (errorProof "ConsistencyVerify" "CM check is failing"))
        else
          lhs2 <- Mult zk PubKey (cnS2 pf);
          t2 <- Mult zk CMTok (Some c);
          rhs2 <- Add zk (cnT2 pf) t2;
          e2 <- Equal lhs2 rhs2;
          if negb e2 then Ok (false, Some (errorProof "ConsistencyVerify" "CMTok check is failing")) else Ok (true, None)
  end.

(** disjunctive.go l.83-151, with the message of l.83 *)
Definition disjProveE (zk : zkparams) (Base1 Result1 Base2 Result2 : ECPoint) (left : bool)
  (ProveBase ProveResult OtherBase OtherResult : ECPoint) (x' : Z) (rnd1 rnd2 rnd3 : option Z)
  : R (option DisjunctiveProof * option err) :=
  let N := cN (zC zk) in
  let modValue := x' mod N in
  m <- Mult zk ProveBase (Some x');
  e <- Equal m ProveResult;
  if negb e
  then Ok (Some emptyDisjunctive, Some (errorProof "DisjunctiveProve" "Base and Result to be proved not related by x"))
  else match rnd1, rnd2, rnd3 with
  | Some u1, Some u2, Some u3 =>
      let u3Neg := (- u3) mod N in
      T1 <- Mult zk ProveBase (Some u1);
      temp <- Mult zk OtherBase (Some u2);
      temp2 <- Mult zk OtherResult (Some u3Neg);
      T2 <- Add zk temp temp2;
      c <- (if left then Challenge sha zk [Base1; Result1; Base2; Result2; T1; T2]
            else Challenge sha zk [Base1; Result1; Base2; Result2; T2; T1]);
      let deltaC := (c - u3) mod N in
      let s := u1 + deltaC * modValue in
      if left then Ok (Some (MkDisj T1 T2 (Some c) (Some deltaC) (Some u3) (Some s) (Some u2)), None)
      else Ok (Some (MkDisj T2 T1 (Some c) (Some u3) (Some deltaC) (Some u2) (Some s)), None)
  | _, _, _ => Ok (None, Some ErrRand)
  end.

(** disjunctive.go l.59-152, with the message of l.79 *)
Definition NewDisjunctiveProofE (zk : zkparams) (Base1 Result1 Base2 Result2 : ECPoint) (x : option Z)
  (side : Z) (rnd1 rnd2 rnd3 : option Z) : R (option DisjunctiveProof * option err) :=
  x' <- need x;
  if side =? Left then
    disjProveE zk Base1 Result1 Base2 Result2 true Base1 Result1 Base2 Result2 x' rnd1 rnd2 rnd3
  else if side =? Right then
    disjProveE zk Base1 Result1 Base2 Result2 false Base2 Result2 Base1 Result1 x' rnd1 rnd2 rnd3
  else Ok (Some emptyDisjunctive, Some (errorProof "DisjunctiveProve" "invalid side provided")).

(** disjunctive.go l.155-204, with the messages of l.159, l.175, l.182, l.191 and l.200 *)
Definition DisjunctiveVerifyE (proof : option DisjunctiveProof) (zk : zkparams)
  (Base1 Result1 Base2 Result2 : ECPoint) : R (bool * option err) :=
  match proof with
  | None => Ok (false, Some (errorProof "DisjunctiveProof.Verify" "passed proof is nil"))
  | Some pf =>
      checkC <- Challenge sha zk [Base1; Result1; Base2; Result2; djT1 pf; djT2 pf];
      C <- need (djC pf);
      if negb (checkC =? C) then Ok (false, Some (errorProof "DisjunctiveVerify" "checkC does not agree with proofC"))
      else
        C1 <- need (djC1 pf); C2 <- need (djC2 pf);
        let totalC := (C1 + C2) mod cN (zC zk) in
        if negb (totalC =? C) then Ok (false, Some (errorProof "DisjunctiveVerify" "totalC does not agree with proofC"))
        else
          c1A <- Mult zk Result1 (Some C1);
          checks1G <- Add zk (djT1 pf) c1A;
          s1G <- Mult zk Base1 (djS1 pf);
          e1 <- Equal checks1G s1G;
          if negb e1 then Ok (false, Some (errorProof "DisjunctiveVerify" "s1G not equal to T1 + c1A"))
          else
            c2A <- Mult zk Result2 (Some C2);
            checks2G <- Add zk c2A (djT2 pf);
            s2G <- Mult zk Base2 (djS2 pf);
            e2 <- Equal checks2G s2G;
            if negb e2 then Ok (false, Some (errorProof "DisjunctiveVerify" "s2G not equal to T2 + c2B"))
            else Ok (true, None)
  end.

(** abc.go l.61-170, with the messages of l.117 and l.121: the error of the inner proof is
    replaced *)
Definition NewABCProofE (zk : zkparams) (CM CMTok : ECPoint) (value sk : option Z) (side : Z) (rn : abcRand)
  : R (option ABCProof * option err) :=
  match ar1 rn, ar2 rn, ar3 rn, arb rn, arc rn with
  | Some u1, Some u2, Some u3, Some ub, Some uc =>
      Hsk <- Mult zk (zH zk) sk;
      CToken <- Mult zk Hsk (Some uc);
      v <- (if (side =? Left) || (side =? Right) then need value else Ok 0);
      if (side =? Left) && (v =? 0) then
        B <- PedCommitR zk (Some 0) (Some ub);
        C <- PedCommitR zk (Some 0) (Some uc);
        CG <- Sub zk C (zG zk);
        d <- NewDisjunctiveProofE zk CM CMTok (zH zk) CG sk Left (ard1 rn) (ard2 rn) (ard3 rn);
        match snd d with
        | Some _ => Ok (Some emptyABC, Some (errorProof "ABCProof" "disjunctiveProve within ABCProve failed to generate"))
        | None => sk' <- need sk; r <- abcFinish sha zk CM CMTok v sk' u1 u2 u3 ub uc B C CToken (fst d); Ok (fst r, None)
        end
      else if (side =? Right) && negb (v =? 0) then
        B <- PedCommitR zk (modInverse v (cN (zC zk))) (Some ub);
        C <- PedCommitR zk (Some 1) (Some uc);
        CG <- Sub zk C (zG zk);
        d <- NewDisjunctiveProofE zk CM CMTok (zH zk) CG (Some uc) Right (ard1 rn) (ard2 rn) (ard3 rn);
        match snd d with
        | Some _ => Ok (Some emptyABC, Some (errorProof "ABCProof" "disjunctiveProve within ABCProve failed to generate"))
        | None => sk' <- need sk; r <- abcFinish sha zk CM CMTok v sk' u1 u2 u3 ub uc B C CToken (fst d); Ok (fst r, None)
        end
      else Ok (Some emptyABC, Some (errorProof "ABCProof" "invalid side-value pair passed"))
  | _, _, _, _, _ => Ok (None, Some ErrRand)
  end.

(** abc.go l.173-222, with the messages of l.180, l.190, l.206 and l.218 *)
Definition ABCVerifyE (proof : option ABCProof) (zk : zkparams) (CM CMTok : ECPoint) : R (bool * option err) :=
  pf <- need proof;
  CG <- Sub zk (abC pf) (zG zk);
  st <- DisjunctiveVerifyE (abDisj pf) zk CM CMTok (zH zk) CG;
  match snd st with
  | Some _ => Ok (false, Some (errorProof "ABCVerify" "ABCProof for disjuncAC is false or not generated properly"))
  | None =>
      c <- Challenge sha zk [zG zk; zH zk; CM; CMTok; abB pf; abC pf; abT1 pf; abT2 pf];
      ch <- need (abChallenge pf);
      if negb (c =? ch) then Ok (false, Some (errorProof "ABCVerify" "proof contains incorrect challenge"))
      else
        chalA <- Mult zk CM (Some c);
        lhs1 <- Add zk chalA (abT1 pf);
        jG <- Mult zk (zG zk) (abj pf);
        kCMTok <- Mult zk CMTok (abk pf);
        rhs1 <- Add zk jG kCMTok;
        e1 <- Equal lhs1 rhs1;
        if negb e1 then Ok (false, Some (errorProof "ABCProof" "cCM + T1 != jG + kCMTok"))
        else
          chalC <- Mult zk (abC pf) (Some c);
          lhs2 <- Add zk chalC (abT2 pf);
          jB <- Mult zk (abB pf) (abj pf);
          lH <- Mult zk (zH zk) (abl pf);
          rhs2 <- Add zk jB lH;
          e2 <- Equal lhs2 rhs2;
          if negb e2 then Ok (false, Some (errorProof "ABCVerify" "cC + T2 != jB + lH")) else Ok (true, None)
  end.

(** inequality.go l.14-34, with the message of l.17 *)
Definition NewInequalityProofE (zk : zkparams) (A B CMTokA CMTokB : ECPoint) (a b sk : option Z) (rn : abcRand)
  : R (option ABCProof * option err) :=
  a' <- need a; b' <- need b;
  if a' =? b' then Ok (None, Some (errorProof "InequalityProve" "a and b should not be equal..."))
  else
    let value := a' - b' in
    CM <- Sub zk A B;
    CMTok <- Sub zk CMTokA CMTokB;
    r <- NewABCProofE zk CM CMTok (Some value) sk Right rn;
    match snd r with
    | Some e => Ok (None, Some e)
    | None => Ok (fst r, None)
    end.

(** inequality.go l.37-43, with the message of l.39 *)
Definition InequalityVerifyE (proof : option ABCProof) (zk : zkparams) (CM CMTok : ECPoint) : R (bool * option err) :=
  match proof with
  | None => Ok (false, Some (errorProof "InequalityProof.Verify" "passed proof is nil"))
  | Some _ => ABCVerifyE proof zk CM CMTok
  end.

(** rangeproof.go l.154-231, with the messages of l.162 and l.169 *)
Definition NewRangeProofE (zk : zkparams) (value : option Z) (rn : rangeRand)
  : R (option RangeProof * option Z * option err) :=
  v <- need value;
  if 1099511627776 <? v
  then Ok (None, None, Some (ErrFmt (ascii "val " ++ decimal v ++ ascii " too big, can only prove up to 1099511627776" ++ nl)))
  else if v <? 0
  then Ok (None, None, Some (ErrFmt (ascii "** Trying to get a value that is out of range! Range Proof will not work!" ++ nl)))
  else
    ssA <- runAll (phaseA sha zk v rn) 0 (repeat emptySlot proofSize);
    e0 <- challengeE0 sha zk ssA;
    ssB <- runAll (phaseB sha zk v e0 rn) 0 ssA;
    r <- rangeFinish zk e0 ssB;
    Ok (fst r, None).

(** rangeproof.go l.277-285: the nil checks of entry i and the ones after it *)
Fixpoint entryError (i : Z) (ts : list rangeProofTuple) : option err :=
  match ts with
  | [] => None
  | t :: r =>
      match pX (rtC t), rtS t with
      | None, _ => Some (ErrProof (ascii "RangeProof.Verify") (ascii "entry " ++ decimal i ++ ascii " has nil point"))
      | Some _, None => Some (ErrProof (ascii "RangeProof.Verify") (ascii "entry " ++ decimal i ++ ascii " has nil scalar"))
      | Some _, Some _ => entryError (i + 1) r
      end
  end.

(** rangeproof.go l.300-321, with the messages of l.310, l.314 and l.318 *)
Definition rangeDecideE (zk : zkparams) (pf : RangeProof) (Rpoints : list ECPoint) (totalPoint comm : ECPoint)
  : R (bool * option err) :=
  calc <- hashPoints sha Rpoints;
  e <- need (rpE pf);
  if negb (e =? calc) then Ok (false, Some (errorProof "RangeProof.Verify" "calculatedE0 does not match"))
  else
    e1 <- Equal totalPoint (rpAggregate pf);
    if negb e1 then Ok (false, Some (errorProof "RangeProof.Verify" "ProofAggregate does not match totalPoint"))
    else
      e2 <- Equal comm totalPoint;
      if negb e2 then Ok (false, Some (errorProof "RangeProof.Verify" "ProofAggregate does not match commitment"))
      else Ok (true, None).

(** rangeproof.go l.262-322, with the messages of l.264, l.280 and l.283 *)
Definition RangeVerifyE (proof : option RangeProof) (zk : zkparams) (comm : ECPoint) : R (bool * option err) :=
  match proof with
  | None => Ok (false, Some (errorProof "RangeProof.Verify" "passed proof is nil"))
  | Some pf =>
      match entryError 0 (rpTuples pf) with
      | Some e => Ok (false, Some e)
      | None =>
          Rpoints <- verifyAll sha zk (rpE pf) 0 (rpTuples pf);
          total <- sumC zk ZeroPoint (rpTuples pf);
          rangeDecideE zk pf Rpoints total comm
      end
  end.
End Hash.

(** ** btcec *)

(** btcec/pubkey.go l.46, l.74, l.84, l.92, l.99, l.108, l.113, l.116, l.119: the text of the
    error [e] of ParsePubKey on [s] *)
Definition pubKeyText (s : list Z) (e : berr) : list Z :=
  match e with
  | EPubEmpty => ascii "pubkey string is empty"
  | EMagic => (if blen s =? lenUncompressed then ascii "invalid magic in pubkey str: "
               else ascii "invalid magic in compressed pubkey string: ") ++ decimal (nth 0 s 0)
  | EOddness => ascii "ybit doesn't match oddness"
  | EPubLength => ascii "invalid pub key length " ++ decimal (blen s)
  | EXRange => ascii "pubkey X parameter is >= to P"
  | EYRange => ascii "pubkey Y parameter is >= to P"
  | EOffCurve => ascii "pubkey isn't on secp256k1 curve"
  | _ => []                                          (* not an error of this function *)
  end.

(** btcec/signature.go l.104-196: the text of the error [e] of parseSig on [s]; l.178 prints
    the end of S and the length of the trimmed string *)
Definition sigText (s : list Z) (e : berr) : list Z :=
  match e with
  | ESigShort => ascii "malformed signature: too short"
  | ESigHeader => ascii "malformed signature: no header magic"
  | ESigLength => ascii "malformed signature: bad length"
  | ESigMarker1 => ascii "malformed signature: no 1st int marker"
  | ESigRLen => ascii "malformed signature: bogus R length"
  | ESigRNeg => ascii "signature R is negative"
  | ESigRPad => ascii "signature R is excessively padded"
  | ESigMarker2 => ascii "malformed signature: no 2nd int marker"
  | ESigSLen => ascii "malformed signature: bogus S length"
  | ESigSNeg => ascii "signature S is negative"
  | ESigSPad => ascii "signature S is excessively padded"
  | ESigFinal =>
      let n := (nth 1 s 0 + 2) mod 256 in
      let rLen := nth 3 s 0 in
      let sLen := nth (Z.to_nat (5 + rLen)) s 0 in
      ascii "malformed signature: bad final length " ++ decimal (6 + rLen + sLen) ++ ascii " != " ++ decimal n
  | ESigRSmall => ascii "signature R isn't 1 or more"
  | ESigSSmall => ascii "signature S isn't 1 or more"
  | ESigRBig => ascii "signature R is >= curve.N"
  | ESigSBig => ascii "signature S is >= curve.N"
  | _ => []                                          (* not an error of this function *)
  end.
