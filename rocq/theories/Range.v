(** * Model of /repo/rangeproof.go

    The goroutines of the prover work on disjoint slots of four slices; a
    goroutine is the list of its atomic actions on its own slot.  This file runs
    them one after the other; RangeConc.v runs them under every interleaving. *)
From Coq Require Import ZArith List Bool.
From Verif Require Import Go Wire Big Crypto.
Import ListNotations.
Open Scope Z_scope.

(** rangeproof.go l.20-23 *)
Record rangeProofTuple := MkTuple { rtC : ECPoint; rtS : option Z }.
(** rangeproof.go l.37-41 *)
Record RangeProof := MkRange { rpAggregate : ECPoint; rpE : option Z; rpTuples : list rangeProofTuple }.

(** rangeproof.go l.43-48 proverInternalData, one index of it; make() zeroes it *)
Record slot := MkSlot { slR : ECPoint; slB : ECPoint; slk : option Z; slv : option Z }.
Definition emptySlot : slot := MkSlot (EP None None) (EP None None) None None.

(** one atomic action of a goroutine: the new slot, and whether it goes on *)
Definition action := slot -> R (slot * bool).
(** s.xScalars[idx], err = rand.Int(...); if err != nil { return err } *)
Definition drawK (d : option Z) : action := fun s =>
  Ok (MkSlot (slR s) (slB s) d (slv s), match d with Some _ => true | None => false end).
Definition drawV (d : option Z) : action := fun s =>
  Ok (MkSlot (slR s) (slB s) (slk s) d, match d with Some _ => true | None => false end).

Section Hash.
Variable sha : list Z -> list Z.

(** sha256.Sum256(append(p.X.Bytes(), p.Y.Bytes()...)) as an integer *)
Definition hashPoint (p : ECPoint) : R Z := b <- pBytes p; Ok (beval (sha b)).
(** zkpcp.HPoints[idx] *)
Definition hpoint (zk : zkparams) (idx : nat) : R ECPoint := need (nth_error (zHPoints zk) idx).

(** rangeproof.go l.51-102 proofGenA; the draws are d1 (l.65 or l.73) and d2 (l.86) *)
Definition proofGenA (zk : zkparams) (idx : nat) (bit : bool) (d1 d2 : option Z) : list action :=
  if negb bit then
    [ drawK d1;
      fun s => r <- Mult zk (zH zk) (slk s); Ok (MkSlot r (slB s) (slk s) (slv s), true) ]
  else
    [ drawV d1;
      fun s => r <- Mult zk (zH zk) (slv s); Ok (MkSlot r (slB s) (slk s) (slv s), true);
      fun s => h <- hpoint zk idx; b <- curveAdd zk h (slR s); Ok (MkSlot (slR s) b (slk s) (slv s), true);
      drawK d2;
      fun s =>
        temp <- Mult zk (zH zk) (slk s);
        h <- hashPoint temp;
        let ei := h mod cN (zC zk) in
        bx <- need (pX (slB s)); by_ <- need (pY (slB s));
        r <- cScalarMult (zC zk) bx by_ (bigBytes ei);
        Ok (MkSlot (mkPoint r) (slB s) (slk s) (slv s), true) ].

(** rangeproof.go l.119-133: the inverse of ei, computed from the draw j *)
Definition genBinv (zk : zkparams) (idx : nat) (e0 j : Z) : R (option Z) :=
  let N := cN (zC zk) in
  let m2 := bigExp 2 (Z.of_nat idx) N in
  let em2 := (e0 * m2) mod N in
  rhs <- cScalarBaseMult (zC zk) (bigBytes em2);
  lhs <- Mult zk (zH zk) (Some j);
  tot <- curveAdd zk lhs (mkPoint rhs);
  h <- hashPoint tot;
  Ok (modInverse (h mod N) N).

(** rangeproof.go l.105-151 proofGenB; [d] is the draw of l.112 *)
Definition proofGenB (zk : zkparams) (idx : nat) (bit : bool) (e0 : Z) (d : option Z) : list action :=
  if negb bit then
    match d with
    | None => []
    | Some j =>
        [ fun s => i <- genBinv zk idx e0 j; i' <- need i; k <- need (slk s);
                   Ok (MkSlot (slR s) (slB s) (slk s) (Some (i' * k)), true);
          fun s => i <- genBinv zk idx e0 j; b <- Mult zk (slR s) i;
                   Ok (MkSlot (slR s) b (slk s) (slv s), true);
          fun s => i <- genBinv zk idx e0 j; i' <- need i; k <- need (slk s);
                   Ok (MkSlot (slR s) (slB s) (Some (j + k * (e0 * i'))) (slv s), true) ]
    end
  else
    [ fun s => k <- need (slk s); v <- need (slv s);
               Ok (MkSlot (slR s) (slB s) (Some (k + e0 * v)) (slv s), true) ].

(** run a goroutine to its end *)
Fixpoint runActs (acts : list action) (s : slot) : R slot :=
  match acts with
  | [] => Ok s
  | a :: t => r <- a s; if snd r then runActs t (fst r) else Ok (fst r)
  end.

(** run goroutine [f i] on slot [i], for every slot of the list, numbered from [n] *)
Fixpoint runAll (f : nat -> list action) (n : nat) (ss : list slot) : R (list slot) :=
  match ss with
  | [] => Ok []
  | s :: t => s' <- runActs (f n) s; t' <- runAll f (S n) t; Ok (s' :: t')
  end.

(** rangeproof.go l.192-197: rHash over the X and Y bytes of a list of points *)
Definition hashPoints (ps : list ECPoint) : R Z := bs <- allBytes ps; Ok (beval (sha (concat bs))).

Definition proofSize : nat := 40.

(** rangeproof.go l.216-225: the final loop *)
Fixpoint gather (zk : zkparams) (ss : list slot) (vTotal : Z) (agg : ECPoint) : R (Z * ECPoint * list rangeProofTuple) :=
  match ss with
  | [] => Ok (vTotal, agg, [])
  | s :: t =>
      v <- need (slv s);
      agg' <- Add zk agg (slB s);
      r <- gather zk t (vTotal + v) agg';
      Ok (fst r, MkTuple (slB s) (slk s) :: snd r)
  end.

(** the random draws of one prover run, by goroutine *)
Record rangeRand := { rrA1 : nat -> option Z; rrA2 : nat -> option Z; rrB : nat -> option Z }.

(** rangeproof.go l.191-230: what the main goroutine does once both phases have run *)
Definition rangeBit (value : Z) (i : nat) : bool := Z.testbit value (Z.of_nat i).
Definition phaseA (zk : zkparams) (value : Z) (rn : rangeRand) (i : nat) : list action :=
  proofGenA zk i (rangeBit value i) (rrA1 rn i) (rrA2 rn i).
Definition phaseB (zk : zkparams) (value e0 : Z) (rn : rangeRand) (i : nat) : list action :=
  proofGenB zk i (rangeBit value i) e0 (rrB rn i).
Definition challengeE0 (zk : zkparams) (ss : list slot) : R Z :=
  h <- hashPoints (map slR ss); Ok (h mod cN (zC zk)).
Definition rangeFinish (zk : zkparams) (e0 : Z) (ss : list slot) : R (option RangeProof * option Z * option goerr) :=
  g <- gather zk ss 0 ZeroPoint;
  let '(vTotal, agg, tuples) := g in
  Ok (Some (MkRange agg (Some e0) tuples), Some vTotal, None).

(** rangeproof.go l.154-231 NewRangeProof *)
Definition NewRangeProof (zk : zkparams) (value : option Z) (rn : rangeRand)
  : R (option RangeProof * option Z * option goerr) :=
  v <- need value;
  if 1099511627776 <? v then Ok (None, None, Some ERange)
  else if v <? 0 then Ok (None, None, Some ERange)
  else
    ssA <- runAll (phaseA zk v rn) 0 (repeat emptySlot proofSize);
    e0 <- challengeE0 zk ssA;
    ssB <- runAll (phaseB zk v e0 rn) 0 ssA;
    rangeFinish zk e0 ssB.

(** rangeproof.go l.239-260 verifyGen, without the send *)
Definition verifyGen (zk : zkparams) (idx : nat) (proofE : option Z) (rpt : rangeProofTuple) : R ECPoint :=
  lhs <- Mult zk (zH zk) (rtS rpt);
  hp <- hpoint zk idx;
  nhp <- Neg zk hp;
  rhs2 <- Add zk (rtC rpt) nhp;
  m <- Mult zk rhs2 proofE;
  rhsNeg <- Neg zk m;
  tot <- Add zk lhs rhsNeg;
  e1 <- hashPoint tot;
  Mult zk (rtC rpt) (Some e1).

Fixpoint verifyAll (zk : zkparams) (E : option Z) (n : nat) (ts : list rangeProofTuple) : R (list ECPoint) :=
  match ts with
  | [] => Ok []
  | t :: r => p <- verifyGen zk n E t; ps <- verifyAll zk E (S n) r; Ok (p :: ps)
  end.
(** rangeproof.go l.295 totalPoint *)
Fixpoint sumC (zk : zkparams) (acc : ECPoint) (ts : list rangeProofTuple) : R ECPoint :=
  match ts with
  | [] => Ok acc
  | t :: r => acc' <- Add zk acc (rtC t); sumC zk acc' r
  end.
(** rangeproof.go l.275-281 the nil checks *)
Definition tupleNil (t : rangeProofTuple) : bool :=
  match pX (rtC t), rtS t with Some _, Some _ => false | _, _ => true end.

(** rangeproof.go l.300-321: what is done once all results are in *)
Definition rangeDecide (zk : zkparams) (pf : RangeProof) (Rpoints : list ECPoint) (totalPoint comm : ECPoint)
  : R (bool * option goerr) :=
  calc <- hashPoints Rpoints;
  e <- need (rpE pf);
  if negb (e =? calc) then Ok (false, Some EProof)
  else
    e1 <- Equal totalPoint (rpAggregate pf);
    if negb e1 then Ok (false, Some EProof)
    else
      e2 <- Equal comm totalPoint;
      if negb e2 then Ok (false, Some EProof) else Ok (true, None).

(** rangeproof.go l.262-322 Verify.  When an entry is nil the function returns at
    once (what the goroutines already started do is in RangeConc.v). *)
Definition RangeVerify (proof : option RangeProof) (zk : zkparams) (comm : ECPoint) : R (bool * option goerr) :=
  match proof with
  | None => Ok (false, Some EProof)
  | Some pf =>
      if existsb tupleNil (rpTuples pf) then Ok (false, Some EProof)
      else
        Rpoints <- verifyAll zk (rpE pf) 0 (rpTuples pf);
        total <- sumC zk ZeroPoint (rpTuples pf);
        rangeDecide zk pf Rpoints total comm
  end.
End Hash.

(** rangeproof.go l.325-337 Bytes *)
Fixpoint writeTuples (w : writer) (ts : list rangeProofTuple) : R writer :=
  match ts with
  | [] => Ok w
  | t :: r => w1 <- WriteECPoint w (rtC t); w2 <- WriteBigInt (fst w1) (rtS t); writeTuples (fst w2) r
  end.
Definition RangeBytes (pf : RangeProof) : R (list Z) :=
  w1 <- WriteECPoint newBuffer (rpAggregate pf);
  w2 <- WriteBigInt (fst w1) (rpE pf);
  w <- writeTuples (fst (WriteVarInt (fst w2) (Z.of_nat (length (rpTuples pf))))) (rpTuples pf);
  Ok (wout w).

(** rangeproof.go l.341-356 NewRangeProofFromBytes.  make([]rangeProofTuple, n) with
    24-byte elements panics when 24 n exceeds the address space. *)
Fixpoint readTuples (n : nat) (s : list Z) : R (list rangeProofTuple) :=
  match n with
  | 0%nat => Ok []
  | S n' =>
      c <- ReadECPoint_ s;
      sc <- ReadBigInt_ (snd c);
      r <- readTuples n' (snd sc);
      Ok (MkTuple (fst c) (fst sc) :: r)
  end.
Definition NewRangeProofFromBytes (b : list Z) : R (option RangeProof * option goerr) :=
  r1 <- ReadECPoint_ b;
  r2 <- ReadBigInt_ (snd r1);
  r3 <- dropErr 0 (ReadVarInt (snd r2));
  if maxAlloc <? 24 * fst r3 then Panic
  else
    ts <- readTuples (Z.to_nat (fst r3)) (snd r3);
    Ok (Some (MkRange (fst r1) (fst r2) ts), None).
