(** * The decoders with the memory they ask for

    Beside its result every decoder returns the number of bytes it asked the allocator for
    with make, in the order of the code; apart from that the definitions are those of Wire.v,
    Crypto.v and the decoders of the proofs, and C81_same proves that dropping the count
    gives them back.  Simplification: integers (big.Int), and the growth of buffers inside
    the standard library, are not counted. *)
From Coq Require Import ZArith List Bool.
From Verif Require Import Go Wire Big Crypto Gspfs Equivalence Consistency Disjunctive Abc Range.
Import ListNotations.
Open Scope Z_scope.

Definition rbindA {A B : Type} (r : rd A * Z) (f : A -> list Z -> rd B * Z) : rd B * Z :=
  match r with
  | (ROk a s, c) => let '(r', c') := f a s in (r', c + c')
  | (RErr e s, c) => (RErr e s, c)
  | (RPanic, c) => (RPanic, c)
  end.
Definition bindA {A B : Type} (r : R A * Z) (f : A -> R B * Z) : R B * Z :=
  match r with (Ok a, c) => let '(r', c') := f a in (r', c + c') | (Panic, c) => (Panic, c) end.
Definition free {A : Type} (r : A) : A * Z := (r, 0).

(** wire/common.go l.289-303 ReadVarBytes: make([]byte, count), before anything is read *)
Definition ReadVarBytesA (maxAllowed : Z) (s : list Z) : rd (list Z) * Z :=
  rbindA (free (ReadVarInt s)) (fun count s1 =>
    if maxAlloc <? count then (RPanic, 0) else (readFull count s1, count)).
(** crypto.go l.166-176 ReadECPoint *)
Definition ReadECPointA (s : list Z) : rd ECPoint * Z :=
  rbindA (ReadVarBytesA 32 s) (fun xb s1 =>
  rbindA (ReadVarBytesA 32 s1) (fun yb s2 =>
  free (ROk (EP (Some (beval xb)) (Some (beval yb))) s2))).
(** crypto.go l.189-199 ReadBigInt *)
Definition ReadBigIntA (s : list Z) : rd Z * Z :=
  rbindA (ReadVarBytesA 32 s) (fun bb s1 =>
  match bb with
  | [] => free RPanic
  | sgn :: mag => free (ROk (if sgn =? 1 then - beval mag else beval mag) s1)
  end).
(** the same with the error dropped *)
Definition pointA (s : list Z) : R (ECPoint * list Z) * Z := let '(r, c) := ReadECPointA s in (dropErr ZeroPoint r, c).
Definition intA (s : list Z) : R (option Z * list Z) * Z :=
  let '(r, c) := ReadBigIntA s in
  (match r with ROk z t => Ok (Some z, t) | RErr _ t => Ok (None, t) | RPanic => Panic end, c).

(** gspfs.go l.114-122 NewGSPFSProofFromBytes *)
Definition gspfsA (b : list Z) : R (option GSPFSProof * option goerr) * Z :=
  bindA (pointA b) (fun r1 => bindA (pointA (snd r1)) (fun r2 =>
  bindA (intA (snd r2)) (fun r3 => bindA (intA (snd r3)) (fun r4 =>
  free (Ok (Some (MkGSPFS (fst r1) (fst r2) (fst r3) (fst r4)), None)))))).
(** equivalence.go l.138-146 NewEquivalenceProofFromBytes *)
Definition equivalenceA (b : list Z) : R (option EquivalenceProof * option goerr) * Z :=
  bindA (pointA b) (fun r1 => bindA (pointA (snd r1)) (fun r2 =>
  bindA (intA (snd r2)) (fun r3 => bindA (intA (snd r3)) (fun r4 =>
  free (Ok (Some (MkEquiv (fst r1) (fst r2) (fst r3) (fst r4)), None)))))).
(** consistency.go l.150-159 NewConsistencyProofFromBytes *)
Definition consistencyA (b : list Z) : R (option ConsistencyProof * option goerr) * Z :=
  bindA (pointA b) (fun r1 => bindA (pointA (snd r1)) (fun r2 =>
  bindA (intA (snd r2)) (fun r3 => bindA (intA (snd r3)) (fun r4 => bindA (intA (snd r4)) (fun r5 =>
  free (Ok (Some (MkCons (fst r1) (fst r2) (fst r3) (fst r4) (fst r5)), None))))))).
(** disjunctive.go l.223-234 NewDisjunctiveProofFromBytes *)
Definition disjunctiveA (b : list Z) : R (option DisjunctiveProof * option goerr) * Z :=
  bindA (pointA b) (fun r1 => bindA (pointA (snd r1)) (fun r2 =>
  bindA (intA (snd r2)) (fun r3 => bindA (intA (snd r3)) (fun r4 => bindA (intA (snd r4)) (fun r5 =>
  bindA (intA (snd r5)) (fun r6 => bindA (intA (snd r6)) (fun r7 =>
  free (Ok (Some (MkDisj (fst r1) (fst r2) (fst r3) (fst r4) (fst r5) (fst r6) (fst r7)), None))))))))).
(** abc.go l.244-293 NewABCProofFromBytes: errors are returned, except those inside the disjunctive proof *)
Definition rdA {A B : Type} (r : rd A * Z) (k : A -> list Z -> R (option B * option goerr) * Z) : R (option B * option goerr) * Z :=
  match r with
  | (ROk a s, c) => let '(r', c') := k a s in (r', c + c')
  | (RErr e _, c) => (Ok (None, Some (ERead e)), c)
  | (RPanic, c) => (Panic, c)
  end.
Definition abcA (b : list Z) : R (option ABCProof * option goerr) * Z :=
  rdA (ReadECPointA b) (fun B s1 =>
  rdA (ReadECPointA s1) (fun C s2 =>
  rdA (ReadECPointA s2) (fun T1 s3 =>
  rdA (ReadECPointA s3) (fun T2 s4 =>
  rdA (ReadBigIntA s4) (fun ch s5 =>
  rdA (ReadBigIntA s5) (fun j s6 =>
  rdA (ReadBigIntA s6) (fun k s7 =>
  rdA (ReadBigIntA s7) (fun l s8 =>
  rdA (ReadECPointA s8) (fun ct s9 =>
  rdA (ReadVarBytesA 100000 s9) (fun db s10 =>
  bindA (disjunctiveA db) (fun d =>
  match snd d with
  | Some e => free (Ok (None, Some e))
  | None => free (Ok (Some (MkABC B C T1 T2 (Some ch) (Some j) (Some k) (Some l) ct (fst d)), None))
  end))))))))))).
(** rangeproof.go l.341-356 NewRangeProofFromBytes: make([]rangeProofTuple, numTuples), 24 bytes each *)
Fixpoint tuplesA (n : nat) (s : list Z) : R (list rangeProofTuple) * Z :=
  match n with
  | 0%nat => free (Ok [])
  | S n' => bindA (pointA s) (fun c => bindA (intA (snd c)) (fun sc => bindA (tuplesA n' (snd sc)) (fun r =>
            free (Ok (MkTuple (fst c) (fst sc) :: r)))))
  end.
Definition rangeA (b : list Z) : R (option RangeProof * option goerr) * Z :=
  bindA (pointA b) (fun r1 => bindA (intA (snd r1)) (fun r2 =>
  bindA (free (dropErr 0 (ReadVarInt (snd r2)))) (fun r3 =>
  if maxAlloc <? 24 * fst r3 then (Panic, 0)
  else bindA (Ok tt, 24 * fst r3) (fun _ =>
       bindA (tuplesA (Z.to_nat (fst r3)) (snd r3)) (fun ts =>
       free (Ok (Some (MkRange (fst r1) (fst r2) ts), None))))))).
