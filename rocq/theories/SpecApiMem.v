(** * What it means that a call treats its integers as values *)
From Coq Require Import ZArith List Bool.
From Verif Require Import Go Wire Big Crypto Gspfs Equivalence Consistency Disjunctive Abc Range BigMem ApiMem.
Import ListNotations.
Open Scope Z_scope.

(** ** Reading a structure of pointers: goroutine [t] holds pointers to variables that
    are its own or were there before, and in memory [m] they contain the given values *)
Definition intAt (t : nat) (m : bmem) (x : bigint) (v : option Z) : Prop :=
  match x, v with
  | None, None => True
  | Some p, Some z => (fst p = 0%nat \/ fst p = t) /\ cell m p = Some z
  | _, _ => False
  end.
Definition pointAt (t : nat) (m : bmem) (h : hpt) (p : ECPoint) : Prop := intAt t m (hX h) (pX p) /\ intAt t m (hY h) (pY p).
Definition gspfsAt t m (h : HGSPFS) (p : GSPFSProof) : Prop :=
  pointAt t m (hgBase h) (gsBase p) /\ pointAt t m (hgRandCommit h) (gsRandCommit p) /\
  intAt t m (hgHiddenValue h) (gsHiddenValue p) /\ intAt t m (hgChallenge h) (gsChallenge p).
Definition equivAt t m (h : HEquiv) (p : EquivalenceProof) : Prop :=
  pointAt t m (heUG h) (eqUG p) /\ pointAt t m (heUH h) (eqUH p) /\
  intAt t m (heChallenge h) (eqChallenge p) /\ intAt t m (heHiddenValue h) (eqHiddenValue p).
Definition consAt t m (h : HCons) (p : ConsistencyProof) : Prop :=
  pointAt t m (hcT1 h) (cnT1 p) /\ pointAt t m (hcT2 h) (cnT2 p) /\
  intAt t m (hcChallenge h) (cnChallenge p) /\ intAt t m (hcS1 h) (cnS1 p) /\ intAt t m (hcS2 h) (cnS2 p).
Definition disjAt t m (h : HDisj) (p : DisjunctiveProof) : Prop :=
  pointAt t m (hdT1 h) (djT1 p) /\ pointAt t m (hdT2 h) (djT2 p) /\
  intAt t m (hdC h) (djC p) /\ intAt t m (hdC1 h) (djC1 p) /\ intAt t m (hdC2 h) (djC2 p) /\
  intAt t m (hdS1 h) (djS1 p) /\ intAt t m (hdS2 h) (djS2 p).
Definition optAt {A B : Type} (r : A -> B -> Prop) (a : option A) (b : option B) : Prop :=
  match a, b with None, None => True | Some x, Some y => r x y | _, _ => False end.
Definition abcAt t m (h : HABC) (p : ABCProof) : Prop :=
  pointAt t m (haB h) (abB p) /\ pointAt t m (haC h) (abC p) /\ pointAt t m (haT1 h) (abT1 p) /\ pointAt t m (haT2 h) (abT2 p) /\
  intAt t m (haChallenge h) (abChallenge p) /\ intAt t m (haj h) (abj p) /\ intAt t m (hak h) (abk p) /\ intAt t m (hal h) (abl p) /\
  pointAt t m (haCToken h) (abCToken p) /\ optAt (disjAt t m) (haDisj h) (abDisj p).
Definition tupleAt t m (h : HTuple) (p : rangeProofTuple) : Prop := pointAt t m (htC h) (rtC p) /\ intAt t m (htS h) (rtS p).
Definition rangeAt t m (h : HRange) (p : RangeProof) : Prop :=
  pointAt t m (hrAggregate h) (rpAggregate p) /\ intAt t m (hrE h) (rpE p) /\ Forall2 (tupleAt t m) (hrTuples h) (rpTuples p).
Definition slotAt t m (h : hslot) (s : slot) : Prop :=
  pointAt t m (hsR h) (slR s) /\ pointAt t m (hsB h) (slB s) /\ intAt t m (hsk h) (slk s) /\ intAt t m (hsv h) (slv s).
(** the parameters, and the package variables *)
Definition paramsAt t m (h : hparams) (zk : zkparams) : Prop :=
  hC h = zC zk /\ intAt t m (hP h) (Some (cP (zC zk))) /\ intAt t m (hN h) (Some (cN (zC zk))) /\
  pointAt t m (hG h) (zG zk) /\ pointAt t m (hH h) (zH zk) /\ Forall2 (pointAt t m) (hHPoints h) (zHPoints zk) /\
  pointAt t m (hZero h) ZeroPoint /\ intAt t m (hBigZero h) (Some 0) /\
  (hShares h = true -> forall x y, cAdd (zC zk) 0 0 x y = Ok (x, y) /\ cAdd (zC zk) x y 0 0 = Ok (x, y)).

(** ** A call treats integers as values: every integer that existed before it is what
    it was, and the call returns, or panics, as the value-level model says *)
Definition unchanged (m m' : bmem) : Prop := forall p z, cell m p = Some z -> cell m' p = Some z.
Definition valueCall {A B : Type} (t : nat) (m : bmem) (c : prog A) (r : R B) (rel : bmem -> A -> B -> Prop) : Prop :=
  let '(o, m') := exec t c m in
  unchanged m m' /\ match o, r with Ok a, Ok b => rel m' a b | Panic, Panic => True | _, _ => False end.
(** a result with an error value beside it *)
Definition withErr {A B E : Type} (r : bmem -> A -> B -> Prop) (m : bmem) (a : A * E) (b : B * E) : Prop :=
  r m (fst a) (fst b) /\ snd a = snd b.
Definition same {A : Type} (m : bmem) (a b : A) : Prop := a = b.

(** ** Nothing else points to the integers of a result: they did not exist before *)
Definition freshInt (m : bmem) (x : bigint) : Prop := match x with None => True | Some p => cell m p = None end.
Definition freshPoint (m : bmem) (h : hpt) : Prop := freshInt m (hX h) /\ freshInt m (hY h).
Definition freshGSPFS m (h : HGSPFS) : Prop := freshPoint m (hgRandCommit h) /\ freshInt m (hgHiddenValue h) /\ freshInt m (hgChallenge h).  (* not hgBase *)
Definition freshEquiv m (h : HEquiv) : Prop := freshPoint m (heUG h) /\ freshPoint m (heUH h) /\ freshInt m (heChallenge h) /\ freshInt m (heHiddenValue h).
Definition freshCons m (h : HCons) : Prop :=
  freshPoint m (hcT1 h) /\ freshPoint m (hcT2 h) /\ freshInt m (hcChallenge h) /\ freshInt m (hcS1 h) /\ freshInt m (hcS2 h).
Definition freshDisj m (h : HDisj) : Prop :=
  freshPoint m (hdT1 h) /\ freshPoint m (hdT2 h) /\ freshInt m (hdC h) /\ freshInt m (hdC1 h) /\ freshInt m (hdC2 h) /\
  freshInt m (hdS1 h) /\ freshInt m (hdS2 h).
Definition freshABC m (h : HABC) : Prop :=
  freshPoint m (haB h) /\ freshPoint m (haC h) /\ freshPoint m (haT1 h) /\ freshPoint m (haT2 h) /\ freshInt m (haChallenge h) /\
  freshInt m (haj h) /\ freshInt m (hak h) /\ freshInt m (hal h) /\ freshPoint m (haCToken h) /\
  (forall d, haDisj h = Some d -> freshDisj m d).
(** a range proof is new except for the points of the parameters' table it may contain (when
    a blinding factor drawn is 0 the curve's Add returns the table's pointers) *)
Definition freshOr (m : bmem) (ps : list hpt) (h : hpt) : Prop := freshPoint m h \/ In h ps.
Definition freshRange m (zk : hparams) (h : HRange) : Prop :=
  freshOr m (hHPoints zk) (hrAggregate h) /\ freshInt m (hrE h) /\
  Forall (fun u => freshOr m (hHPoints zk) (htC u) /\ freshInt m (htS u)) (hrTuples h).
(** what a prover returns: the value-level result, in new integers *)
Definition newProof {A B E : Type} (at_ : bmem -> A -> B -> Prop) (fr : A -> Prop) (m' : bmem) (a : option A * E) (b : option B * E) : Prop :=
  optAt (at_ m') (fst a) (fst b) /\ snd a = snd b /\ forall p, fst a = Some p -> fr p.
(** NewRangeProof returns the blinding factor of the commitment too *)
Definition newRange (t : nat) (m : bmem) (zk : hparams) (m' : bmem) (a : option HRange * bigint * option goerr) (b : option RangeProof * option Z * option goerr) : Prop :=
  newProof (rangeAt t) (freshRange m zk) m' (fst (fst a), snd a) (fst (fst b), snd b) /\
  intAt t m' (snd (fst a)) (snd (fst b)) /\ freshInt m (snd (fst a)).
(** what a reader returns: a value, an error, the rest of the stream; [d] stands beside an error *)
Definition readResult {A B : Type} (f : A -> B) (d : B) (r : rd A) : R (B * option rerr * list Z) :=
  match r with ROk a s => Ok (f a, None, s) | RErr e s => Ok (d, Some e, s) | RPanic => Panic end.
