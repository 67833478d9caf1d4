(** * Model of the zksigma package on pointers: crypto.go, gspfs.go, equivalence.go,
    consistency.go, disjunctive.go, abc.go, inequality.go and rangeproof.go again, with
    every *big.Int the address of a variable (BigMem.v)

    Crypto.v, Gspfs.v, ... treat a *big.Int as the integer it points to.  That is right
    only if no call changes an integer its caller, another call or a package variable
    still points to; C74 proves it for the code below, and that the value-level model
    computes what this code computes.  Structs (ECPoint, the proofs) are values here; the
    curve's methods read their arguments, compute what Koblitz.v computes and
    allocate their results. *)
From Coq Require Import ZArith List Bool.
From Verif Require Import Go Wire Big Crypto Gspfs Equivalence Consistency Disjunctive Abc Range BigMem.
Import ListNotations.
Open Scope Z_scope.

(** crypto.go l.71-73 ECPoint *)
Record hpt := HP { hX : bigint; hY : bigint }.
(** crypto.go l.18-23 ZKPCurveParams with what Params() of its curve points to, and the package variables
    Zero and BigZero (l.65-76).  [hShares]: the curve's Add returns the caller's pointers
    when the other operand is (0, 0), as btcec.go l.457-466 does. *)
Record hparams := HZK {
  hC : curve; hShares : bool; hP : bigint; hN : bigint;
  hG : hpt; hH : hpt; hHPoints : list hpt; hZero : hpt; hBigZero : bigint }.

(** two fresh integers, as the curve's methods return them *)
Definition newPoint (xy : Z * Z) : prog hpt := x <~ newInt (fst xy); y <~ newInt (snd xy); Return (HP x y).
(** x.Cmp(y) == 0 *)
Definition cmpEq (x y : bigint) : prog bool := a <~ deref x; b <~ deref y; Return (a =? b).
(** z.Bytes() *)
Definition intBytes (x : bigint) : prog (list Z) := a <~ deref x; Return (bigBytes a).
(** curve.ScalarMult, ScalarBaseMult, ScalarBaseMultH, IsOnCurve *)
Definition scalarMultM (zk : hparams) (x y : bigint) (k : list Z) : prog hpt :=
  a <~ deref x; b <~ deref y; xy <~ lift (cScalarMult (hC zk) a b k); newPoint xy.
Definition scalarBaseMultM (zk : hparams) (k : list Z) : prog hpt := xy <~ lift (cScalarBaseMult (hC zk) k); newPoint xy.
Definition scalarBaseMultHM (zk : hparams) (k : list Z) : prog hpt := xy <~ lift (cScalarBaseMultH (hC zk) k); newPoint xy.
Definition isOnCurveM (zk : hparams) (p : hpt) : prog bool :=
  a <~ deref (hX p); b <~ deref (hY p); lift (cIsOnCurve (hC zk) a b).
(** curve.Add (the four arguments are read first; the callers have already read them) *)
Definition curveAddM (zk : hparams) (p p2 : hpt) : prog hpt :=
  x1 <~ deref (hX p); y1 <~ deref (hY p); x2 <~ deref (hX p2); y2 <~ deref (hY p2);
  if hShares zk && (x1 =? 0) && (y1 =? 0) then Return p2
  else if hShares zk && (x2 =? 0) && (y2 =? 0) then Return p
  else xy <~ lift (cAdd (hC zk) x1 y1 x2 y2); newPoint xy.

(** crypto.go l.54-63 KeyGen *)
Definition KeyGenM (zk : hparams) (base : hpt) (rnd : option Z) : prog (hpt * bigint) :=
  match rnd with
  | None => Crash
  | Some u => sk <~ newInt u; b <~ intBytes sk; pk <~ scalarMultM zk (hX base) (hY base) b; Return (pk, sk)
  end.
(** crypto.go l.78-83 Equal *)
Definition EqualM (p p2 : hpt) : prog bool :=
  e1 <~ cmpEq (hX p) (hX p2);
  if (e1 : bool) then cmpEq (hY p2) (hY p2) else Return false.
(** crypto.go l.86-110 Mult *)
Definition MultM (zk : hparams) (p : hpt) (s : bigint) : prog hpt :=
  match hX p, hY p with
  | None, None => Return (HP None None)
  | _, _ =>
      modS <~ newMod s (hN zk);
      e1 <~ EqualM p (hG zk);
      if (e1 : bool) then (b <~ intBytes modS; scalarBaseMultM zk b)
      else
        e2 <~ EqualM p (hH zk);
        if (e2 : bool) then (b <~ intBytes modS; scalarBaseMultHM zk b)
        else b <~ intBytes modS; scalarMultM zk (hX p) (hY p) b
  end.
(** a && b *)
Definition andM (a b : prog bool) : prog bool := a' <~ a; if (a' : bool) then b else Return false.
(** crypto.go l.113-126 Add: the pointers of an operand may be returned *)
Definition AddM (zk : hparams) (p p2 : hpt) : prog hpt :=
  c1 <~ andM (EqualM p (hZero zk)) (isOnCurveM zk p2);
  if (c1 : bool) then Return p2
  else
    c2 <~ andM (EqualM p2 (hZero zk)) (isOnCurveM zk p);
    if (c2 : bool) then Return p else curveAddM zk p p2.
(** crypto.go l.145-149 Neg: p.X is in the result *)
Definition NegM (zk : hparams) (p : hpt) : prog hpt :=
  negY <~ newNeg (hY p);
  modValue <~ newMod negY (hP zk);
  Return (HP (hX p) modValue).
(** crypto.go l.128-142 Sub *)
Definition SubM (zk : hparams) (p p2 : hpt) : prog hpt :=
  c1 <~ andM (EqualM p (hZero zk)) (isOnCurveM zk p2);
  if (c1 : bool) then NegM zk p2
  else
    c2 <~ andM (EqualM p2 (hZero zk)) (isOnCurveM zk p);
    if (c2 : bool) then Return p
    else temp <~ NegM zk p2; curveAddM zk p temp.
(** crypto.go l.151-153 Bytes *)
Definition pBytesM (p : hpt) : prog (list Z) := x <~ intBytes (hX p); y <~ intBytes (hY p); Return (x ++ y).
(** crypto.go l.156-163 WriteECPoint *)
Definition WriteECPointM (w : writer) (p : hpt) : prog (writer * bool) :=
  x <~ intBytes (hX p);
  let '(w1, e1) := WriteVarBytes w x in
  if e1 then Return (w1, true)
  else y <~ intBytes (hY p); Return (WriteVarBytes w1 y).
(** crypto.go l.166-176 ReadECPoint: beside an error, the package variable Zero *)
Definition ReadECPointM (zk : hparams) (s : list Z) : prog (hpt * option rerr * list Z) :=
  match ReadVarBytes 32 s with
  | RPanic => Crash
  | RErr e s1 => Return (hZero zk, Some e, s1)
  | ROk xb s1 =>
      match ReadVarBytes 32 s1 with
      | RPanic => Crash
      | RErr e s2 => Return (hZero zk, Some e, s2)
      | ROk yb s2 => x <~ newSetBytes xb; y <~ newSetBytes yb; Return (HP x y, None, s2)
      end
  end.
(** crypto.go l.179-186 WriteBigInt *)
Definition WriteBigIntM (w : writer) (b : bigint) : prog (writer * bool) :=
  z <~ deref b;
  bs <~ intBytes b;
  Return (WriteVarBytes w ((if z <? 0 then 1 else 0) :: bs)).
(** crypto.go l.189-199 ReadBigInt *)
Definition ReadBigIntM (s : list Z) : prog (bigint * option rerr * list Z) :=
  match ReadVarBytes 32 s with
  | RPanic => Crash
  | RErr e s1 => Return (None, Some e, s1)
  | ROk bb s1 =>
      match bb with
      | [] => Crash
      | sgn :: mag =>
          n <~ newSetBytes mag;
          if sgn =? 1 then (n' <~ intNeg n n; Return (n', None, s1)) else Return (n, None, s1)
      end
  end.
(** crypto.go l.203-207 CommitR *)
Definition CommitRM (zk : hparams) (pk : hpt) (r : bigint) : prog hpt :=
  newR <~ newMod r (hN zk);
  b <~ intBytes newR;
  scalarMultM zk (hX pk) (hY pk) b.
(** crypto.go l.211-214 VerifyR *)
Definition VerifyRM (zk : hparams) (rt pk : hpt) (r : bigint) : prog bool := p <~ CommitRM zk pk r; EqualM p rt.
(** crypto.go l.230-242 PedCommitR *)
Definition PedCommitRM (zk : hparams) (value randomValue : bigint) : prog hpt :=
  modValue <~ newMod value (hN zk);
  modRandom <~ newMod randomValue (hN zk);
  lhs <~ MultM zk (hG zk) modValue;
  rhs <~ MultM zk (hH zk) modRandom;
  AddM zk lhs rhs.
(** crypto.go l.220-227 PedCommit *)
Definition PedCommitM (zk : hparams) (value : bigint) (rnd : option Z) : prog (hpt * bigint * option goerr) :=
  match rnd with
  | None => Return (hZero zk, None, Some ERand)
  | Some u => r <~ newInt u; c <~ PedCommitRM zk value r; Return (c, r, None)
  end.
(** crypto.go l.245-248 Open *)
Definition OpenM (zk : hparams) (value randomValue : bigint) (pcomm : hpt) : prog bool :=
  c <~ PedCommitRM zk value randomValue; EqualM c pcomm.

(** p1.Bytes(), p2.Bytes(), ... *)
Fixpoint allBytesM (ps : list hpt) : prog (list (list Z)) :=
  match ps with
  | [] => Return []
  | p :: t => b <~ pBytesM p; bs <~ allBytesM t; Return (b :: bs)
  end.

(** gspfs.go l.27-32 *)
Record HGSPFS := MkHGSPFS { hgBase : hpt; hgRandCommit : hpt; hgHiddenValue : bigint; hgChallenge : bigint }.
(** equivalence.go l.29-34 *)
Record HEquiv := MkHEquiv { heUG : hpt; heUH : hpt; heChallenge : bigint; heHiddenValue : bigint }.
(** consistency.go l.35-41 *)
Record HCons := MkHCons { hcT1 : hpt; hcT2 : hpt; hcChallenge : bigint; hcS1 : bigint; hcS2 : bigint }.
(** disjunctive.go l.45-53 *)
Record HDisj := MkHDisj { hdT1 : hpt; hdT2 : hpt; hdC : bigint; hdC1 : bigint; hdC2 : bigint; hdS1 : bigint; hdS2 : bigint }.
(** abc.go l.44-55 *)
Record HABC := MkHABC { haB : hpt; haC : hpt; haT1 : hpt; haT2 : hpt; haChallenge : bigint;
  haj : bigint; hak : bigint; hal : bigint; haCToken : hpt; haDisj : option HDisj }.
(** rangeproof.go l.20-23, l.37-41, and one index of l.43-48 *)
Record HTuple := MkHTuple { htC : hpt; htS : bigint }.
Record HRange := MkHRange { hrAggregate : hpt; hrE : bigint; hrTuples : list HTuple }.
Record hslot := MkHSlot { hsR : hpt; hsB : hpt; hsk : bigint; hsv : bigint }.

(** the empty structs *)
Definition nilPt : hpt := HP None None.
Definition emptyHCons : HCons := MkHCons nilPt nilPt None None None.
Definition emptyHDisj : HDisj := MkHDisj nilPt nilPt None None None None None.
Definition emptyHABC : HABC := MkHABC nilPt nilPt nilPt nilPt None None None None nilPt None.
Definition emptyHSlot : hslot := MkHSlot nilPt nilPt None None.

Section Hash.
Variable sha : list Z -> list Z.

(** crypto.go l.254-262 GenerateChallenge *)
Definition GenerateChallengeM (zk : hparams) (arr : list (list Z)) : prog bigint :=
  c <~ newSetBytes (sha (concat arr));
  newMod c (hN zk).
(** its calls, on the bytes of points *)
Definition ChallengeM (zk : hparams) (ps : list hpt) : prog bigint := bs <~ allBytesM ps; GenerateChallengeM zk bs.

(** gspfs.go l.43-69 NewGSPFSProofBase: the caller's base is in the proof *)
Definition NewGSPFSProofBaseM (zk : hparams) (base A : hpt) (x : bigint) (rnd : option Z) : prog (option HGSPFS * option goerr) :=
  modValue <~ newMod x (hN zk);
  b <~ intBytes modValue;
  C <~ scalarMultM zk (hX base) (hY base) b;
  e <~ EqualM C A;
  if negb e then Return (None, Some EProof)
  else match rnd with
  | None => Return (None, Some ERand)
  | Some u0 =>
      u <~ newInt u0;
      uG <~ MultM zk base u;
      c <~ ChallengeM zk [A; uG];
      t <~ newMul c modValue;
      v <~ newSub u t;
      v' <~ intMod v v (hN zk);
      Return (Some (MkHGSPFS base uG v' c), None)
  end.
(** gspfs.go l.37-39 NewGSPFSProof *)
Definition NewGSPFSProofM (zk : hparams) (A : hpt) (x : bigint) (rnd : option Z) : prog (option HGSPFS * option goerr) :=
  NewGSPFSProofBaseM zk (hG zk) A x rnd.
(** gspfs.go l.72-98 Verify *)
Definition GSPFSVerifyM (proof : option HGSPFS) (zk : hparams) (A : hpt) : prog (bool * option goerr) :=
  match proof with
  | None => Return (false, Some EProof)
  | Some pf =>
      testC <~ ChallengeM zk [A; hgRandCommit pf];
      e <~ cmpEq testC (hgChallenge pf);
      if negb e then Return (false, Some EProof)
      else
        s <~ MultM zk (hgBase pf) (hgHiddenValue pf);
        c <~ MultM zk A (hgChallenge pf);
        tot <~ AddM zk s c;
        e2 <~ EqualM (hgRandCommit pf) tot;
        if negb e2 then Return (false, Some EProof) else Return (true, None)
  end.

(** equivalence.go l.38-79 NewEquivalenceProof *)
Definition NewEquivalenceProofM (zk : hparams) (Base1 Result1 Base2 Result2 : hpt) (x : bigint) (rnd : option Z)
  : prog (option HEquiv * option goerr) :=
  modValue <~ newMod x (hN zk);
  check1 <~ MultM zk Base1 modValue;
  e1 <~ EqualM check1 Result1;
  if negb e1 then Return (None, Some EProof)
  else
    check2 <~ MultM zk Base2 modValue;
    e2 <~ EqualM check2 Result2;
    if negb e2 then Return (None, Some EProof)
    else match rnd with
    | None => Return (None, Some ERand)
    | Some u0 =>
        u <~ newInt u0;
        uBase1 <~ MultM zk Base1 u;
        uBase2 <~ MultM zk Base2 u;
        c <~ ChallengeM zk [Base1; Result1; Base2; Result2; uBase1; uBase2];
        t <~ newMul c modValue;
        h <~ newAdd u t;
        h' <~ intMod h h (hN zk);
        Return (Some (MkHEquiv uBase1 uBase2 c h'), None)
    end.
(** equivalence.go l.84-122 Verify *)
Definition EquivalenceVerifyM (proof : option HEquiv) (zk : hparams) (Base1 Result1 Base2 Result2 : hpt) : prog (bool * option goerr) :=
  match proof with
  | None => Return (false, Some EProof)
  | Some pf =>
      c <~ ChallengeM zk [Base1; Result1; Base2; Result2; heUG pf; heUH pf];
      e <~ cmpEq c (heChallenge pf);
      if negb e then Return (false, Some EProof)
      else
        sG <~ MultM zk Base1 (heHiddenValue pf);
        cG <~ MultM zk Result1 (heChallenge pf);
        test1 <~ AddM zk (heUG pf) cG;
        e1 <~ EqualM sG test1;
        if negb e1 then Return (false, Some EProof)
        else
          sH <~ MultM zk Base2 (heHiddenValue pf);
          cH <~ MultM zk Result2 (heChallenge pf);
          test2 <~ AddM zk (heUH pf) cH;
          e2 <~ EqualM sH test2;
          if negb e2 then Return (false, Some EProof) else Return (true, None)
  end.

(** consistency.go l.45-88 NewConsistencyProof *)
Definition NewConsistencyProofM (zk : hparams) (CM CMTok PubKey : hpt) (value randomness : bigint) (rnd1 rnd2 : option Z)
  : prog (option HCons * option goerr) :=
  modValue <~ newMod value (hN zk);
  com <~ PedCommitRM zk value randomness;
  e1 <~ EqualM CM com;
  if negb e1 then Return (Some emptyHCons, Some EProof)
  else
    tok <~ MultM zk PubKey randomness;
    e2 <~ EqualM CMTok tok;
    if negb e2 then Return (Some emptyHCons, Some EProof)
    else match rnd1 with
    | None => Return (None, Some ERand)
    | Some v1 =>
      u1 <~ newInt v1;
      match rnd2 with
      | None => Return (None, Some ERand)
      | Some v2 =>
          u2 <~ newInt v2;
          T1 <~ PedCommitRM zk u1 u2;
          T2 <~ MultM zk PubKey u2;
          c <~ ChallengeM zk [hG zk; hH zk; CM; CMTok; PubKey; T1; T2];
          t1 <~ newMul modValue c;
          s1 <~ newAdd u1 t1;
          t2 <~ newMul randomness c;
          s2 <~ newAdd u2 t2;
          s1' <~ intMod s1 s1 (hN zk);
          s2' <~ intMod s2 s2 (hN zk);
          Return (Some (MkHCons T1 T2 c s1' s2'), None)
      end
    end.
(** consistency.go l.91-133 Verify *)
Definition ConsistencyVerifyM (proof : option HCons) (zk : hparams) (CM CMTok PubKey : hpt) : prog (bool * option goerr) :=
  match proof with
  | None => Return (false, Some EProof)
  | Some pf =>
      c <~ ChallengeM zk [hG zk; hH zk; CM; CMTok; PubKey; hcT1 pf; hcT2 pf];
      e <~ cmpEq c (hcChallenge pf);
      if negb e then Return (false, Some EProof)
      else
        lhs1 <~ PedCommitRM zk (hcS1 pf) (hcS2 pf);
        t1 <~ MultM zk CM c;
        rhs1 <~ AddM zk (hcT1 pf) t1;
        e1 <~ EqualM lhs1 rhs1;
        if negb e1 then Return (false, Some EProof)
        else
          lhs2 <~ MultM zk PubKey (hcS2 pf);
          t2 <~ MultM zk CMTok c;
          rhs2 <~ AddM zk (hcT2 pf) t2;
          e2 <~ EqualM lhs2 rhs2;
          if negb e2 then Return (false, Some EProof) else Return (true, None)
  end.

(** disjunctive.go l.83-151 *)
Definition disjProveM (zk : hparams) (Base1 Result1 Base2 Result2 : hpt) (left : bool)
  (ProveBase ProveResult OtherBase OtherResult : hpt) (x modValue : bigint) (rnd1 rnd2 rnd3 : option Z)
  : prog (option HDisj * option goerr) :=
  m <~ MultM zk ProveBase x;
  e <~ EqualM m ProveResult;
  if negb e then Return (Some emptyHDisj, Some EProof)
  else match rnd1 with
  | None => Return (None, Some ERand)
  | Some v1 =>
    u1 <~ newInt v1;
    match rnd2 with
    | None => Return (None, Some ERand)
    | Some v2 =>
      u2 <~ newInt v2;
      match rnd3 with
      | None => Return (None, Some ERand)
      | Some v3 =>
        u3 <~ newInt v3;
        n <~ newNeg u3;
        u3Neg <~ intMod n n (hN zk);
        T1 <~ MultM zk ProveBase u1;
        temp <~ MultM zk OtherBase u2;
        temp2 <~ MultM zk OtherResult u3Neg;
        T2 <~ AddM zk temp temp2;
        c <~ (if left then ChallengeM zk [Base1; Result1; Base2; Result2; T1; T2]
              else ChallengeM zk [Base1; Result1; Base2; Result2; T2; T1]);
        d <~ newSub c u3;
        deltaC <~ intMod d d (hN zk);
        t <~ newMul deltaC modValue;
        s <~ newAdd u1 t;
        if left then Return (Some (MkHDisj T1 T2 c deltaC u3 s u2), None)
        else Return (Some (MkHDisj T2 T1 c u3 deltaC u2 s), None)
      end
    end
  end.
(** disjunctive.go l.59-152 NewDisjunctiveProof *)
Definition NewDisjunctiveProofM (zk : hparams) (Base1 Result1 Base2 Result2 : hpt) (x : bigint) (side : Z)
  (rnd1 rnd2 rnd3 : option Z) : prog (option HDisj * option goerr) :=
  modValue <~ newMod x (hN zk);
  if side =? Left then
    disjProveM zk Base1 Result1 Base2 Result2 true Base1 Result1 Base2 Result2 x modValue rnd1 rnd2 rnd3
  else if side =? Right then
    disjProveM zk Base1 Result1 Base2 Result2 false Base2 Result2 Base1 Result1 x modValue rnd1 rnd2 rnd3
  else Return (Some emptyHDisj, Some EProof).
(** disjunctive.go l.155-204 Verify *)
Definition DisjunctiveVerifyM (proof : option HDisj) (zk : hparams) (Base1 Result1 Base2 Result2 : hpt) : prog (bool * option goerr) :=
  match proof with
  | None => Return (false, Some EProof)
  | Some pf =>
      checkC <~ ChallengeM zk [Base1; Result1; Base2; Result2; hdT1 pf; hdT2 pf];
      e <~ cmpEq checkC (hdC pf);
      if negb e then Return (false, Some EProof)
      else
        t <~ newAdd (hdC1 pf) (hdC2 pf);
        totalC <~ intMod t t (hN zk);
        e0 <~ cmpEq totalC (hdC pf);
        if negb e0 then Return (false, Some EProof)
        else
          c1A <~ MultM zk Result1 (hdC1 pf);
          checks1G <~ AddM zk (hdT1 pf) c1A;
          s1G <~ MultM zk Base1 (hdS1 pf);
          e1 <~ EqualM checks1G s1G;
          if negb e1 then Return (false, Some EProof)
          else
            c2A <~ MultM zk Result2 (hdC2 pf);
            checks2G <~ AddM zk c2A (hdT2 pf);
            s2G <~ MultM zk Base2 (hdS2 pf);
            e2 <~ EqualM checks2G s2G;
            if negb e2 then Return (false, Some EProof) else Return (true, None)
  end.

(** abc.go l.126-169 *)
Definition abcFinishM (zk : hparams) (CM CMTok : hpt) (value sk u1 u2 u3 ub uc : bigint) (B C CToken : hpt) (dj : option HDisj)
  : prog (option HABC * option goerr) :=
  u1G <~ MultM zk (hG zk) u1;
  u2Ta <~ MultM zk CMTok u2;
  T1 <~ AddM zk u1G u2Ta;
  u1B <~ MultM zk B u1;
  u3H <~ MultM zk (hH zk) u3;
  T2 <~ AddM zk u1B u3H;
  c <~ ChallengeM zk [hG zk; hH zk; CM; CMTok; B; C; T1; T2];
  t1 <~ newMul value c;
  j0 <~ newAdd u1 t1;
  j <~ newMod j0 (hN zk);
  isk <~ newModInverse sk (hN zk);
  t2 <~ newMul isk c;
  k0 <~ newAdd u2 t2;
  k <~ newMod k0 (hN zk);
  t3 <~ newMul value ub;
  temp1 <~ newSub uc t3;
  t4 <~ newMul temp1 c;
  l <~ newAdd u3 t4;
  Return (Some (MkHABC B C T1 T2 c j k l CToken dj), None).
(** abc.go l.61-170 NewABCProof *)
Definition NewABCProofM (zk : hparams) (CM CMTok : hpt) (value sk : bigint) (side : Z) (rn : abcRand)
  : prog (option HABC * option goerr) :=
  match ar1 rn with None => Return (None, Some ERand) | Some v1 => u1 <~ newInt v1;
  match ar2 rn with None => Return (None, Some ERand) | Some v2 => u2 <~ newInt v2;
  match ar3 rn with None => Return (None, Some ERand) | Some v3 => u3 <~ newInt v3;
  match arb rn with None => Return (None, Some ERand) | Some vb => ub <~ newInt vb;
  match arc rn with None => Return (None, Some ERand) | Some vc => uc <~ newInt vc;
  Hsk <~ MultM zk (hH zk) sk;
  CToken <~ MultM zk Hsk uc;
  isLeft <~ andM (Return (side =? Left)) (cmpEq value (hBigZero zk));
  if (isLeft : bool) then
    z1 <~ newInt 0;
    B <~ PedCommitRM zk z1 ub;
    z2 <~ newInt 0;
    C <~ PedCommitRM zk z2 uc;
    CG <~ SubM zk C (hG zk);
    d <~ NewDisjunctiveProofM zk CM CMTok (hH zk) CG sk Left (ard1 rn) (ard2 rn) (ard3 rn);
    match snd d with
    | Some _ => Return (Some emptyHABC, Some EProof)
    | None => abcFinishM zk CM CMTok value sk u1 u2 u3 ub uc B C CToken (fst d)
    end
  else
    isRight <~ andM (Return (side =? Right)) (e <~ cmpEq value (hBigZero zk); Return (negb e));
    if (isRight : bool) then
      inv <~ newModInverse value (hN zk);
      B <~ PedCommitRM zk inv ub;
      o <~ newInt 1;
      C <~ PedCommitRM zk o uc;
      CG <~ SubM zk C (hG zk);
      d <~ NewDisjunctiveProofM zk CM CMTok (hH zk) CG uc Right (ard1 rn) (ard2 rn) (ard3 rn);
      match snd d with
      | Some _ => Return (Some emptyHABC, Some EProof)
      | None => abcFinishM zk CM CMTok value sk u1 u2 u3 ub uc B C CToken (fst d)
      end
    else Return (Some emptyHABC, Some EProof)
  end end end end end.
(** abc.go l.173-222 Verify *)
Definition ABCVerifyM (proof : option HABC) (zk : hparams) (CM CMTok : hpt) : prog (bool * option goerr) :=
  match proof with
  | None => Crash
  | Some pf =>
      CG <~ SubM zk (haC pf) (hG zk);
      st <~ DisjunctiveVerifyM (haDisj pf) zk CM CMTok (hH zk) CG;
      match snd st with
      | Some _ => Return (false, Some EProof)
      | None =>
          c <~ ChallengeM zk [hG zk; hH zk; CM; CMTok; haB pf; haC pf; haT1 pf; haT2 pf];
          e <~ cmpEq c (haChallenge pf);
          if negb e then Return (false, Some EProof)
          else
            chalA <~ MultM zk CM c;
            lhs1 <~ AddM zk chalA (haT1 pf);
            jG <~ MultM zk (hG zk) (haj pf);
            kCMTok <~ MultM zk CMTok (hak pf);
            rhs1 <~ AddM zk jG kCMTok;
            e1 <~ EqualM lhs1 rhs1;
            if negb e1 then Return (false, Some EProof)
            else
              chalC <~ MultM zk (haC pf) c;
              lhs2 <~ AddM zk chalC (haT2 pf);
              jB <~ MultM zk (haB pf) (haj pf);
              lH <~ MultM zk (hH zk) (hal pf);
              rhs2 <~ AddM zk jB lH;
              e2 <~ EqualM lhs2 rhs2;
              if negb e2 then Return (false, Some EProof) else Return (true, None)
      end
  end.
(** inequality.go l.14-34 NewInequalityProof *)
Definition NewInequalityProofM (zk : hparams) (A B CMTokA CMTokB : hpt) (a b sk : bigint) (rn : abcRand)
  : prog (option HABC * option goerr) :=
  e <~ cmpEq a b;
  if (e : bool) then Return (None, Some EProof)
  else
    value <~ newSub a b;
    CM <~ SubM zk A B;
    CMTok <~ SubM zk CMTokA CMTokB;
    r <~ NewABCProofM zk CM CMTok value sk Right rn;
    match snd r with
    | Some e => Return (None, Some e)
    | None => Return (fst r, None)
    end.
(** inequality.go l.37-43 Verify *)
Definition InequalityVerifyM (proof : option HABC) (zk : hparams) (CM CMTok : hpt) : prog (bool * option goerr) :=
  match proof with
  | None => Return (false, Some EProof)
  | Some _ => ABCVerifyM proof zk CM CMTok
  end.

(** sha256.Sum256(append(p.X.Bytes(), p.Y.Bytes()...)) put into a new integer *)
Definition hashPointM (p : hpt) : prog bigint := b <~ pBytesM p; newSetBytes (sha b).
(** zkpcp.HPoints[idx] *)
Definition hpointM (zk : hparams) (idx : nat) : prog hpt := match nth_error (hHPoints zk) idx with Some p => Return p | None => Crash end.
(** rangeproof.go l.51-102 proofGenA, to its end, on its slot *)
Definition proofGenAM (zk : hparams) (idx : nat) (bit : bool) (d1 d2 : option Z) (s : hslot) : prog hslot :=
  if negb bit then
    match d1 with
    | None => Return (MkHSlot (hsR s) (hsB s) None (hsv s))
    | Some v1 =>
        k <~ newInt v1;
        r <~ MultM zk (hH zk) k;
        Return (MkHSlot r (hsB s) k (hsv s))
    end
  else
    match d1 with
    | None => Return (MkHSlot (hsR s) (hsB s) (hsk s) None)
    | Some v1 =>
        v <~ newInt v1;
        r <~ MultM zk (hH zk) v;
        h <~ hpointM zk idx;
        b <~ curveAddM zk h r;
        match d2 with
        | None => Return (MkHSlot r b None v)
        | Some v2 =>
            k <~ newInt v2;
            temp <~ MultM zk (hH zk) k;
            e <~ hashPointM temp;
            ei <~ intMod e e (hN zk);
            bs <~ intBytes ei;
            r' <~ scalarMultM zk (hX b) (hY b) bs;
            Return (MkHSlot r' b k v)
        end
    end.
(** rangeproof.go l.105-151 proofGenB, to its end, on its slot *)
Definition proofGenBM (zk : hparams) (idx : nat) (bit : bool) (e0 : bigint) (d : option Z) (s : hslot) : prog hslot :=
  if negb bit then
    match d with
    | None => Return s
    | Some v =>
        j <~ newInt v;
        two <~ newInt 2;
        i <~ newInt (Z.of_nat idx);
        z <~ newInt 0;
        m2 <~ intExp z two i (hN zk);
        em <~ newMul e0 m2;
        em2 <~ intMod em em (hN zk);
        bs <~ intBytes em2;
        rhs <~ scalarBaseMultM zk bs;
        lhs <~ MultM zk (hH zk) j;
        tot <~ curveAddM zk lhs rhs;
        e <~ hashPointM tot;
        ei <~ intMod e e (hN zk);
        inverseEI <~ newModInverse ei (hN zk);
        vs <~ newMul inverseEI (hsk s);
        b <~ MultM zk (hsR s) inverseEI;
        t1 <~ newMul e0 inverseEI;
        t2 <~ newMul (hsk s) t1;
        k <~ intAdd j j t2;
        Return (MkHSlot (hsR s) b k vs)
    end
  else
    t <~ newMul e0 (hsv s);
    k <~ newAdd (hsk s) t;
    Return (MkHSlot (hsR s) (hsB s) k (hsv s)).
(** the goroutines of a phase, one after the other; C44 and C75 are about other orders *)
Fixpoint runAllM (f : nat -> hslot -> prog hslot) (n : nat) (ss : list hslot) : prog (list hslot) :=
  match ss with
  | [] => Return []
  | s :: t => s' <~ f n s; t' <~ runAllM f (S n) t; Return (s' :: t')
  end.
(** rangeproof.go l.216-225: vTotal.Add(vTotal, ...) works in place *)
Fixpoint gatherM (zk : hparams) (ss : list hslot) (vTotal : bigint) (agg : hpt) : prog (bigint * hpt * list HTuple) :=
  match ss with
  | [] => Return (vTotal, agg, [])
  | s :: t =>
      vTotal' <~ intAdd vTotal vTotal (hsv s);
      agg' <~ AddM zk agg (hsB s);
      r <~ gatherM zk t vTotal' agg';
      Return (fst r, MkHTuple (hsB s) (hsk s) :: snd r)
  end.
(** rangeproof.go l.154-231 NewRangeProof *)
Definition NewRangeProofM (zk : hparams) (value : bigint) (rn : rangeRand) : prog (option HRange * bigint * option goerr) :=
  lim <~ newInt 1099511627776;
  v <~ deref value;
  l <~ deref lim;
  if l <? v then Return (None, None, Some ERange)
  else
    z <~ deref (hBigZero zk);
    if v <? z then Return (None, None, Some ERange)
    else
      vTotal <~ newInt 0;
      ssA <~ runAllM (fun i => proofGenAM zk i (rangeBit v i) (rrA1 rn i) (rrA2 rn i)) 0 (repeat emptyHSlot proofSize);
      bs <~ allBytesM (map hsR ssA);
      e <~ newSetBytes (sha (concat bs));
      e0 <~ intMod e e (hN zk);
      ax <~ newInt 0;
      ay <~ newInt 0;
      ssB <~ runAllM (fun i => proofGenBM zk i (rangeBit v i) e0 (rrB rn i)) 0 ssA;
      g <~ gatherM zk ssB vTotal (HP ax ay);
      let '(vt, agg, tuples) := g in
      Return (Some (MkHRange agg e0 tuples), vt, None).
(** rangeproof.go l.239-260 verifyGen *)
Definition verifyGenM (zk : hparams) (idx : nat) (proofE : bigint) (rpt : HTuple) : prog hpt :=
  lhs <~ MultM zk (hH zk) (htS rpt);
  hp <~ hpointM zk idx;
  nhp <~ NegM zk hp;
  rhs2 <~ AddM zk (htC rpt) nhp;
  m <~ MultM zk rhs2 proofE;
  rhsNeg <~ NegM zk m;
  tot <~ AddM zk lhs rhsNeg;
  e1 <~ hashPointM tot;
  MultM zk (htC rpt) e1.
Fixpoint verifyAllM (zk : hparams) (E : bigint) (n : nat) (ts : list HTuple) : prog (list hpt) :=
  match ts with
  | [] => Return []
  | t :: r => p <~ verifyGenM zk n E t; ps <~ verifyAllM zk E (S n) r; Return (p :: ps)
  end.
Fixpoint sumCM (zk : hparams) (acc : hpt) (ts : list HTuple) : prog hpt :=
  match ts with
  | [] => Return acc
  | t :: r => acc' <~ AddM zk acc (htC t); sumCM zk acc' r
  end.
Definition htupleNil (t : HTuple) : bool := match hX (htC t), htS t with Some _, Some _ => false | _, _ => true end.
(** rangeproof.go l.262-322 Verify *)
Definition RangeVerifyM (proof : option HRange) (zk : hparams) (comm : hpt) : prog (bool * option goerr) :=
  match proof with
  | None => Return (false, Some EProof)
  | Some pf =>
      zx <~ newInt 0;
      zy <~ newInt 0;
      if existsb htupleNil (hrTuples pf) then Return (false, Some EProof)
      else
        Rpoints <~ verifyAllM zk (hrE pf) 0 (hrTuples pf);
        total <~ sumCM zk (HP zx zy) (hrTuples pf);
        bs <~ allBytesM Rpoints;
        calc <~ newSetBytes (sha (concat bs));
        e <~ cmpEq (hrE pf) calc;
        if negb e then Return (false, Some EProof)
        else
          e1 <~ EqualM total (hrAggregate pf);
          if negb e1 then Return (false, Some EProof)
          else
            e2 <~ EqualM comm total;
            if negb e2 then Return (false, Some EProof) else Return (true, None)
  end.
End Hash.

(** the Bytes methods: gspfs.go l.101-110, equivalence.go l.125-134, consistency.go
    l.136-146, disjunctive.go l.207-219, abc.go l.225-240, rangeproof.go l.325-337 *)
Definition GSPFSBytesM (pf : HGSPFS) : prog (list Z) :=
  w1 <~ WriteECPointM newBuffer (hgBase pf);
  w2 <~ WriteECPointM (fst w1) (hgRandCommit pf);
  w3 <~ WriteBigIntM (fst w2) (hgHiddenValue pf);
  w4 <~ WriteBigIntM (fst w3) (hgChallenge pf);
  Return (wout (fst w4)).
Definition EquivalenceBytesM (pf : HEquiv) : prog (list Z) :=
  w1 <~ WriteECPointM newBuffer (heUG pf);
  w2 <~ WriteECPointM (fst w1) (heUH pf);
  w3 <~ WriteBigIntM (fst w2) (heChallenge pf);
  w4 <~ WriteBigIntM (fst w3) (heHiddenValue pf);
  Return (wout (fst w4)).
Definition ConsistencyBytesM (pf : HCons) : prog (list Z) :=
  w1 <~ WriteECPointM newBuffer (hcT1 pf);
  w2 <~ WriteECPointM (fst w1) (hcT2 pf);
  w3 <~ WriteBigIntM (fst w2) (hcChallenge pf);
  w4 <~ WriteBigIntM (fst w3) (hcS1 pf);
  w5 <~ WriteBigIntM (fst w4) (hcS2 pf);
  Return (wout (fst w5)).
Definition DisjunctiveBytesM (pf : HDisj) : prog (list Z) :=
  w1 <~ WriteECPointM newBuffer (hdT1 pf);
  w2 <~ WriteECPointM (fst w1) (hdT2 pf);
  w3 <~ WriteBigIntM (fst w2) (hdC pf);
  w4 <~ WriteBigIntM (fst w3) (hdC1 pf);
  w5 <~ WriteBigIntM (fst w4) (hdC2 pf);
  w6 <~ WriteBigIntM (fst w5) (hdS1 pf);
  w7 <~ WriteBigIntM (fst w6) (hdS2 pf);
  Return (wout (fst w7)).
Definition ABCBytesM (pf : HABC) : prog (list Z) :=
  w1 <~ WriteECPointM newBuffer (haB pf);
  w2 <~ WriteECPointM (fst w1) (haC pf);
  w3 <~ WriteECPointM (fst w2) (haT1 pf);
  w4 <~ WriteECPointM (fst w3) (haT2 pf);
  w5 <~ WriteBigIntM (fst w4) (haChallenge pf);
  w6 <~ WriteBigIntM (fst w5) (haj pf);
  w7 <~ WriteBigIntM (fst w6) (hak pf);
  w8 <~ WriteBigIntM (fst w7) (hal pf);
  w9 <~ WriteECPointM (fst w8) (haCToken pf);
  match haDisj pf with
  | None => Crash
  | Some dj => db <~ DisjunctiveBytesM dj; Return (wout (fst (WriteVarBytes (fst w9) db)))
  end.
Fixpoint writeTuplesM (w : writer) (ts : list HTuple) : prog writer :=
  match ts with
  | [] => Return w
  | t :: r => w1 <~ WriteECPointM w (htC t); w2 <~ WriteBigIntM (fst w1) (htS t); writeTuplesM (fst w2) r
  end.
Definition RangeBytesM (pf : HRange) : prog (list Z) :=
  w1 <~ WriteECPointM newBuffer (hrAggregate pf);
  w2 <~ WriteBigIntM (fst w1) (hrE pf);
  w <~ writeTuplesM (fst (WriteVarInt (fst w2) (Z.of_nat (length (hrTuples pf))))) (hrTuples pf);
  Return (wout w).

(** the decoders: gspfs.go l.114-122, equivalence.go l.138-146, consistency.go l.150-159,
    disjunctive.go l.223-234, abc.go l.244-293, rangeproof.go l.341-356 *)
Definition NewGSPFSProofFromBytesM (zk : hparams) (b : list Z) : prog (option HGSPFS * option goerr) :=
  r1 <~ ReadECPointM zk b;
  r2 <~ ReadECPointM zk (snd r1);
  r3 <~ ReadBigIntM (snd r2);
  r4 <~ ReadBigIntM (snd r3);
  Return (Some (MkHGSPFS (fst (fst r1)) (fst (fst r2)) (fst (fst r3)) (fst (fst r4))), None).
Definition NewEquivalenceProofFromBytesM (zk : hparams) (b : list Z) : prog (option HEquiv * option goerr) :=
  r1 <~ ReadECPointM zk b;
  r2 <~ ReadECPointM zk (snd r1);
  r3 <~ ReadBigIntM (snd r2);
  r4 <~ ReadBigIntM (snd r3);
  Return (Some (MkHEquiv (fst (fst r1)) (fst (fst r2)) (fst (fst r3)) (fst (fst r4))), None).
Definition NewConsistencyProofFromBytesM (zk : hparams) (b : list Z) : prog (option HCons * option goerr) :=
  r1 <~ ReadECPointM zk b;
  r2 <~ ReadECPointM zk (snd r1);
  r3 <~ ReadBigIntM (snd r2);
  r4 <~ ReadBigIntM (snd r3);
  r5 <~ ReadBigIntM (snd r4);
  Return (Some (MkHCons (fst (fst r1)) (fst (fst r2)) (fst (fst r3)) (fst (fst r4)) (fst (fst r5))), None).
Definition NewDisjunctiveProofFromBytesM (zk : hparams) (b : list Z) : prog (option HDisj * option goerr) :=
  r1 <~ ReadECPointM zk b;
  r2 <~ ReadECPointM zk (snd r1);
  r3 <~ ReadBigIntM (snd r2);
  r4 <~ ReadBigIntM (snd r3);
  r5 <~ ReadBigIntM (snd r4);
  r6 <~ ReadBigIntM (snd r5);
  r7 <~ ReadBigIntM (snd r6);
  Return (Some (MkHDisj (fst (fst r1)) (fst (fst r2)) (fst (fst r3)) (fst (fst r4)) (fst (fst r5)) (fst (fst r6)) (fst (fst r7))), None).
(** [v, err := ReadX(buf); if err != nil { return nil, err }] *)
Definition orErr {A B : Type} (r : A * option rerr * list Z) (k : A -> list Z -> prog (option B * option goerr)) : prog (option B * option goerr) :=
  match r with (a, None, s) => k a s | (_, Some e, _) => Return (None, Some (ERead e)) end.
Definition NewABCProofFromBytesM (zk : hparams) (b : list Z) : prog (option HABC * option goerr) :=
  r1 <~ ReadECPointM zk b; orErr r1 (fun B s1 =>
  r2 <~ ReadECPointM zk s1; orErr r2 (fun C s2 =>
  r3 <~ ReadECPointM zk s2; orErr r3 (fun T1 s3 =>
  r4 <~ ReadECPointM zk s3; orErr r4 (fun T2 s4 =>
  r5 <~ ReadBigIntM s4; orErr r5 (fun ch s5 =>
  r6 <~ ReadBigIntM s5; orErr r6 (fun j s6 =>
  r7 <~ ReadBigIntM s6; orErr r7 (fun k s7 =>
  r8 <~ ReadBigIntM s7; orErr r8 (fun l s8 =>
  r9 <~ ReadECPointM zk s8; orErr r9 (fun ct s9 =>
  match ReadVarBytes 100000 s9 with
  | RPanic => Crash
  | RErr e _ => Return (None, Some (ERead e))
  | ROk db _ =>
      d <~ NewDisjunctiveProofFromBytesM zk db;
      match snd d with
      | Some e => Return (None, Some e)
      | None => Return (Some (MkHABC B C T1 T2 ch j k l ct (fst d)), None)
      end
  end))))))))).
Fixpoint readTuplesM (zk : hparams) (n : nat) (s : list Z) : prog (list HTuple) :=
  match n with
  | 0%nat => Return []
  | S n' =>
      c <~ ReadECPointM zk s;
      sc <~ ReadBigIntM (snd c);
      r <~ readTuplesM zk n' (snd sc);
      Return (MkHTuple (fst (fst c)) (fst (fst sc)) :: r)
  end.
Definition NewRangeProofFromBytesM (zk : hparams) (b : list Z) : prog (option HRange * option goerr) :=
  r1 <~ ReadECPointM zk b;
  r2 <~ ReadBigIntM (snd r1);
  r3 <~ lift (dropErr 0 (ReadVarInt (snd r2)));
  if maxAlloc <? 24 * fst r3 then Crash
  else
    ts <~ readTuplesM zk (Z.to_nat (fst r3)) (snd r3);
    Return (Some (MkHRange (fst (fst r1)) (fst (fst r2)) ts), None).
