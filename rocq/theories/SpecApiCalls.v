(** * The calls of the package, and what each of them should return *)
From Coq Require Import ZArith List Bool.
From Verif Require Import Go Wire Big Crypto Gspfs Equivalence Consistency Disjunctive Abc Range BigMem ApiMem SpecApiMem.
Import ListNotations.
Open Scope Z_scope.

(** ** What is returned with a point, by name *)
Definition newPointAt (t : nat) (m : bmem) (m' : bmem) (h : hpt) (p : ECPoint) : Prop := pointAt t m' h p /\ freshPoint m h.
Definition newIntAt (t : nat) (m : bmem) (m' : bmem) (x : bigint) (v : option Z) : Prop := intAt t m' x v /\ freshInt m x.

(** ** [call c r rel]: [c] is a call on arguments that lie in memory [m], [r] is what the
    value-level model says of the same call on the values of the arguments, and [rel]
    reads the result of the one as a result of the other.  The arguments are any points,
    integers and proofs, nil ones and aliased ones included. *)
Section Calls.
Variables (sha : list Z -> list Z) (h : hparams) (zk : zkparams) (t : nat) (m : bmem).
Notation int := (intAt t m).
Notation pt := (pointAt t m).
Inductive call : forall A B : Type, prog A -> R B -> (bmem -> A -> B -> Prop) -> Prop :=
(* crypto.go *)
| callKeyGen b B rnd : pt b B -> call _ _ (KeyGenM h b rnd) (KeyGen (zC zk) B rnd)
    (fun m' a r => newPointAt t m m' (fst a) (fst r) /\ newIntAt t m m' (snd a) (Some (snd r)))
| callEqual p q P Q : pt p P -> pt q Q -> call _ _ (EqualM p q) (Equal P Q) same
| callMult p s P S : pt p P -> int s S -> call _ _ (MultM h p s) (Mult zk P S) (newPointAt t m)
| callAdd p q P Q : pt p P -> pt q Q -> call _ _ (AddM h p q) (Add zk P Q) (fun m' a b => pointAt t m' a b /\ freshOr m [p; q] a)
| callSub p q P Q : pt p P -> pt q Q -> call _ _ (SubM h p q) (Sub zk P Q) (pointAt t)
| callNeg p P : pt p P -> call _ _ (NegM h p) (Neg zk P) (fun m' a b => pointAt t m' a b /\ hX a = hX p /\ freshInt m (hY a))
| callBytes p P : pt p P -> call _ _ (pBytesM p) (pBytes P) same
| callWriteECPoint w p P : pt p P -> call _ _ (WriteECPointM w p) (WriteECPoint w P) same
| callReadECPoint s : call _ _ (ReadECPointM h s) (readResult (fun p => p) ZeroPoint (ReadECPoint s))
    (fun m' a b => withErr (withErr (pointAt t)) m' a b /\ (snd (fst a) = None -> freshPoint m (fst (fst a))) /\ (snd (fst a) <> None -> fst (fst a) = hZero h))
| callWriteBigInt w x X : int x X -> call _ _ (WriteBigIntM w x) (WriteBigInt w X) same
| callReadBigInt s : call _ _ (ReadBigIntM s) (readResult Some None (ReadBigInt s)) (withErr (withErr (newIntAt t m)))
| callCommitR pk r PK Rr : pt pk PK -> int r Rr -> call _ _ (CommitRM h pk r) (CommitR zk PK Rr) (newPointAt t m)
| callVerifyR rt pk r RT PK Rr : pt rt RT -> pt pk PK -> int r Rr -> call _ _ (VerifyRM h rt pk r) (VerifyR zk RT PK Rr) same
| callPedCommit v V rnd : int v V -> call _ _ (PedCommitM h v rnd) (PedCommit zk V rnd)
    (fun m' a b => withErr (fun m' a b => pointAt t m' (fst a) (fst b) /\ intAt t m' (snd a) (snd b)) m' a b /\
      (snd a = None -> freshPoint m (fst (fst a)) /\ freshInt m (snd (fst a))) /\ (snd a <> None -> fst (fst a) = hZero h))
| callPedCommitR v r V Rr : int v V -> int r Rr -> call _ _ (PedCommitRM h v r) (PedCommitR zk V Rr) (newPointAt t m)
| callOpen v r c V Rr C : int v V -> int r Rr -> pt c C -> call _ _ (OpenM h v r c) (Open zk V Rr C) same
| callGenerateChallenge arr : call _ _ (GenerateChallengeM sha h arr) (Ok (GenerateChallenge sha zk arr)) (fun m' x v => newIntAt t m m' x (Some v))
(* gspfs.go *)
| callNewGSPFSProof a x A X rnd : pt a A -> int x X -> call _ _ (NewGSPFSProofM sha h a x rnd) (NewGSPFSProof sha zk A X rnd)
    (newProof (gspfsAt t) (fun p => freshGSPFS m p /\ hgBase p = hG h))
| callNewGSPFSProofBase b a x B A X rnd : pt b B -> pt a A -> int x X ->
    call _ _ (NewGSPFSProofBaseM sha h b a x rnd) (NewGSPFSProofBase sha zk B A X rnd) (newProof (gspfsAt t) (fun p => freshGSPFS m p /\ hgBase p = b))
| callGSPFSVerify f F a A : optAt (gspfsAt t m) f F -> pt a A -> call _ _ (GSPFSVerifyM sha f h a) (GSPFSVerify sha F zk A) same
| callGSPFSBytes f F : gspfsAt t m f F -> call _ _ (GSPFSBytesM f) (GSPFSBytes F) same
| callGSPFSDecode bs : call _ _ (NewGSPFSProofFromBytesM h bs) (NewGSPFSProofFromBytes bs) (withErr (fun m' => optAt (gspfsAt t m')))
(* equivalence.go *)
| callNewEquivalenceProof b1 r1 b2 r2 x B1 R1 B2 R2 X rnd : pt b1 B1 -> pt r1 R1 -> pt b2 B2 -> pt r2 R2 -> int x X ->
    call _ _ (NewEquivalenceProofM sha h b1 r1 b2 r2 x rnd) (NewEquivalenceProof sha zk B1 R1 B2 R2 X rnd) (newProof (equivAt t) (freshEquiv m))
| callEquivalenceVerify f F b1 r1 b2 r2 B1 R1 B2 R2 : optAt (equivAt t m) f F -> pt b1 B1 -> pt r1 R1 -> pt b2 B2 -> pt r2 R2 ->
    call _ _ (EquivalenceVerifyM sha f h b1 r1 b2 r2) (EquivalenceVerify sha F zk B1 R1 B2 R2) same
| callEquivalenceBytes f F : equivAt t m f F -> call _ _ (EquivalenceBytesM f) (EquivalenceBytes F) same
| callEquivalenceDecode bs : call _ _ (NewEquivalenceProofFromBytesM h bs) (NewEquivalenceProofFromBytes bs) (withErr (fun m' => optAt (equivAt t m')))
(* consistency.go *)
| callNewConsistencyProof c k p v r C K P V Rr rnd1 rnd2 : pt c C -> pt k K -> pt p P -> int v V -> int r Rr ->
    call _ _ (NewConsistencyProofM sha h c k p v r rnd1 rnd2) (NewConsistencyProof sha zk C K P V Rr rnd1 rnd2) (newProof (consAt t) (freshCons m))
| callConsistencyVerify f F c k p C K P : optAt (consAt t m) f F -> pt c C -> pt k K -> pt p P ->
    call _ _ (ConsistencyVerifyM sha f h c k p) (ConsistencyVerify sha F zk C K P) same
| callConsistencyBytes f F : consAt t m f F -> call _ _ (ConsistencyBytesM f) (ConsistencyBytes F) same
| callConsistencyDecode bs : call _ _ (NewConsistencyProofFromBytesM h bs) (NewConsistencyProofFromBytes bs) (withErr (fun m' => optAt (consAt t m')))
(* disjunctive.go *)
| callNewDisjunctiveProof b1 r1 b2 r2 x B1 R1 B2 R2 X side rnd1 rnd2 rnd3 : pt b1 B1 -> pt r1 R1 -> pt b2 B2 -> pt r2 R2 -> int x X ->
    call _ _ (NewDisjunctiveProofM sha h b1 r1 b2 r2 x side rnd1 rnd2 rnd3) (NewDisjunctiveProof sha zk B1 R1 B2 R2 X side rnd1 rnd2 rnd3) (newProof (disjAt t) (freshDisj m))
| callDisjunctiveVerify f F b1 r1 b2 r2 B1 R1 B2 R2 : optAt (disjAt t m) f F -> pt b1 B1 -> pt r1 R1 -> pt b2 B2 -> pt r2 R2 ->
    call _ _ (DisjunctiveVerifyM sha f h b1 r1 b2 r2) (DisjunctiveVerify sha F zk B1 R1 B2 R2) same
| callDisjunctiveBytes f F : disjAt t m f F -> call _ _ (DisjunctiveBytesM f) (DisjunctiveBytes F) same
| callDisjunctiveDecode bs : call _ _ (NewDisjunctiveProofFromBytesM h bs) (NewDisjunctiveProofFromBytes bs) (withErr (fun m' => optAt (disjAt t m')))
(* abc.go *)
| callNewABCProof c k v s C K V S side rn : pt c C -> pt k K -> int v V -> int s S ->
    call _ _ (NewABCProofM sha h c k v s side rn) (NewABCProof sha zk C K V S side rn) (newProof (abcAt t) (freshABC m))
| callABCVerify f F c k C K : optAt (abcAt t m) f F -> pt c C -> pt k K -> call _ _ (ABCVerifyM sha f h c k) (ABCVerify sha F zk C K) same
| callABCBytes f F : abcAt t m f F -> call _ _ (ABCBytesM f) (ABCBytes F) same
| callABCDecode bs : call _ _ (NewABCProofFromBytesM h bs) (NewABCProofFromBytes bs) (withErr (fun m' => optAt (abcAt t m')))
(* inequality.go *)
| callNewInequalityProof a b ka kb va vb s A B KA KB VA VB S rn : pt a A -> pt b B -> pt ka KA -> pt kb KB -> int va VA -> int vb VB -> int s S ->
    call _ _ (NewInequalityProofM sha h a b ka kb va vb s rn) (NewInequalityProof sha zk A B KA KB VA VB S rn) (newProof (abcAt t) (freshABC m))
| callInequalityVerify f F c k C K : optAt (abcAt t m) f F -> pt c C -> pt k K -> call _ _ (InequalityVerifyM sha f h c k) (InequalityVerify sha F zk C K) same
(* rangeproof.go, and the bodies of its goroutines *)
| callNewRangeProof v V rn : int v V -> call _ _ (NewRangeProofM sha h v rn) (NewRangeProof sha zk V rn) (newRange t m h)
| callRangeVerify f F c C : optAt (rangeAt t m) f F -> pt c C -> call _ _ (RangeVerifyM sha f h c) (RangeVerify sha F zk C) same
| callRangeBytes f F : rangeAt t m f F -> call _ _ (RangeBytesM f) (RangeBytes F) same
| callRangeDecode bs : call _ _ (NewRangeProofFromBytesM h bs) (NewRangeProofFromBytes bs) (withErr (fun m' => optAt (rangeAt t m')))
| callProofGenA i bit d1 d2 s S : slotAt t m s S -> call _ _ (proofGenAM sha h i bit d1 d2 s) (runActs (proofGenA sha zk i bit d1 d2) S) (slotAt t)
| callProofGenB i bit e E d s S : int e (Some E) -> slotAt t m s S -> call _ _ (proofGenBM sha h i bit e d s) (runActs (proofGenB sha zk i bit E d) S) (slotAt t)
| callVerifyGen i e E u U : int e E -> tupleAt t m u U -> call _ _ (verifyGenM sha h i e u) (verifyGen sha zk i E U) (pointAt t).
End Calls.
Arguments call sha h zk t m {A B} c r rel.

(** ** A program that uses the package: it makes calls one after the other, each with
    arguments that may be results of earlier ones, makes integers of its own, and treats
    integers as values itself.  [r] is the same program on values. *)
Inductive program (sha : list Z -> list Z) (h : hparams) (zk : zkparams) (t : nat) : bmem -> forall A B : Type, prog A -> R B -> (bmem -> A -> B -> Prop) -> Prop :=
| programReturn m A B (a : A) (b : B) (rel : bmem -> A -> B -> Prop) : rel m a b -> program sha h zk t m _ _ (Return a) (Ok b) rel
| programCrash m A B (rel : bmem -> A -> B -> Prop) : program sha h zk t m _ _ Crash Panic rel
| programNew m A B z (k : bigint -> prog A) (r : R B) rel :
    (forall m1 x, unchanged m m1 -> intAt t m1 x (Some z) -> program sha h zk t m1 _ _ (k x) r rel) -> program sha h zk t m _ _ (pbind (newInt z) k) r rel
| programCall m A B C D (c : prog A) (r : R B) rel1 (k : A -> prog C) (f : B -> R D) rel : call sha h zk t m c r rel1 ->
    (forall m1 a b, unchanged m m1 -> rel1 m1 a b -> program sha h zk t m1 _ _ (k a) (f b) rel) -> program sha h zk t m _ _ (pbind c k) (bind r f) rel.
Arguments program sha h zk t m {A B} c r rel.

(** ** Goroutines *)
(** the next access of a piece of code *)
Definition nextStore {A : Type} (c : prog A) : option bptr := match c with Store p _ _ => Some p | _ => None end.
Definition nextTouch {A : Type} (c : prog A) : option bptr := match c with Store p _ _ | Load p _ => Some p | _ => None end.
Definition finished {A : Type} (c : prog A) : Prop := match c with Return _ | Crash => True | _ => False end.
(** a goroutine that has finished returned, or panicked, as the value-level model says *)
Definition answered {A B : Type} (m : bmem) (c : prog A) (r : R B) (rel : bmem -> A -> B -> Prop) : Prop :=
  match c, r with
  | Return a, Ok b => rel m a b
  | Crash, Panic => True
  | _, _ => False
  end.
(** [rel] looks at the goroutine's own variables and at shared ones only *)
Definition local {A B : Type} (t : nat) (rel : bmem -> A -> B -> Prop) : Prop :=
  forall m1 m2 a b, m1 0%nat = m2 0%nat -> m1 t = m2 t -> rel m1 a b -> rel m2 a b.
