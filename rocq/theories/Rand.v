(** * Drawing numbers from the bytes of the random source

    Every prover of /repo draws with rand.Int(rand.Reader, N) (crypto.go l.56 and l.222,
    gspfs.go l.53, equivalence.go l.54, consistency.go l.61 and l.65, disjunctive.go l.85-93,
    abc.go l.65-83, rangeproof.go l.63, l.71, l.84 and l.112), NewPrivateKey with
    ecdsa.GenerateKey (btcec/privkey.go l.40), RandomUint64 with eight bytes
    (wire/common.go l.324-335).  The other files take the drawn number as an argument; here
    the argument is the source itself: the list of bytes that it will deliver (Go.v). *)
From Coq Require Import ZArith List Bool.
From Verif Require Import Go Wire Big Crypto Gspfs Equivalence Consistency Disjunctive Range Precompute PubKey.
Import ListNotations.
Open Scope Z_scope.

(** crypto/rand.Int of Go 1.12, the size of an attempt: k := (bitLen + 7) / 8 bytes, and
    b := uint(bitLen % 8); if b == 0 { b = 8 } bits of the first one *)
Definition riBytes (max : Z) : Z := (bigBitLen (max - 1) + 7) / 8.
Definition riBits (max : Z) : Z := let b := bigBitLen (max - 1) mod 8 in if b =? 0 then 8 else b.
(** bytes[0] &= uint8(int(1<<b) - 1) *)
Definition maskFirst (b : Z) (block : list Z) : list Z :=
  match block with [] => [] | x :: t => Z.land x (2 ^ b - 1) :: t end.
(** one attempt: n.SetBytes(bytes); n.Cmp(max) < 0 *)
Definition attempt (max : Z) (block : list Z) : option Z :=
  let n := beval (maskFirst (riBits max) block) in if n <? max then Some n else None.
(** the loop; out of fuel is [RPanic] (C84 proves that it does not happen) *)
Fixpoint randLoop (fuel : nat) (max : Z) (s : list Z) : rd Z :=
  match fuel with
  | 0%nat => RPanic
  | S f => rbind (readFull (riBytes max) s) (fun block rest =>
             match attempt max block with Some n => ROk n rest | None => randLoop f max rest end)
  end.
(** crypto/rand.Int *)
Definition randInt (max : Z) (s : list Z) : rd Z :=
  if max <=? 0 then RPanic
  else if bigBitLen (max - 1) =? 0 then ROk 0 s
  else randLoop (S (length s)) max s.

(** u, err := rand.Int(rand.Reader, N), as the provers take it; and what is left *)
Definition draw (max : Z) (s : list Z) : option Z * list Z :=
  match randInt max s with ROk v r => (Some v, r) | RErr _ r => (None, r) | RPanic => (None, s) end.
Fixpoint drawN (n : nat) (max : Z) (s : list Z) : list (option Z) :=
  match n with 0%nat => [] | S n' => fst (draw max s) :: drawN n' max (snd (draw max s)) end.
Definition nthDraw (l : list (option Z)) (i : nat) : option Z := nth i l None.

(** ** Callers, on the bytes of the source

    Nothing is drawn before the statement is checked and nothing after an error, but that
    changes only what is left of the source, which is not part of the result. *)
(** crypto.go l.54-63 *)
Definition KeyGenT (c : curve) (base : ECPoint) (s : list Z) : R (ECPoint * Z) := KeyGen c base (fst (draw (cN c) s)).
(** crypto.go l.220-227 *)
Definition PedCommitT (zk : zkparams) (value : option Z) (s : list Z) : R (ECPoint * option Z * option goerr) :=
  PedCommit zk value (fst (draw (cN (zC zk)) s)).
Section Hash.
Variable sha : list Z -> list Z.
(** gspfs.go l.43-69 *)
Definition NewGSPFSProofBaseT (zk : zkparams) (base A : ECPoint) (x : option Z) (s : list Z) : R (option GSPFSProof * option goerr) :=
  NewGSPFSProofBase sha zk base A x (fst (draw (cN (zC zk)) s)).
(** equivalence.go l.38-80 *)
Definition NewEquivalenceProofT (zk : zkparams) (B1 R1 B2 R2 : ECPoint) (x : option Z) (s : list Z) : R (option EquivalenceProof * option goerr) :=
  NewEquivalenceProof sha zk B1 R1 B2 R2 x (fst (draw (cN (zC zk)) s)).
(** consistency.go l.45-88 *)
Definition NewConsistencyProofT (zk : zkparams) (CM CMTok PK : ECPoint) (value r : option Z) (s : list Z) : R (option ConsistencyProof * option goerr) :=
  let d := nthDraw (drawN 2 (cN (zC zk)) s) in NewConsistencyProof sha zk CM CMTok PK value r (d 0%nat) (d 1%nat).
(** disjunctive.go l.59-152 *)
Definition NewDisjunctiveProofT (zk : zkparams) (B1 R1 B2 R2 : ECPoint) (x : option Z) (side : Z) (s : list Z) : R (option DisjunctiveProof * option goerr) :=
  let d := nthDraw (drawN 3 (cN (zC zk)) s) in NewDisjunctiveProof sha zk B1 R1 B2 R2 x side (d 0%nat) (d 1%nat) (d 2%nat).
End Hash.

(** ** Goroutines that share the source

    The goroutines of the range prover read the one rand.Reader.  A Read of one attempt is
    atomic; which goroutine reads next is up to the scheduler, which may depend on
    everything read so far.  Draws are numbered; [pick] says for which draw the next attempt
    is made, given the attempts made so far, the latest first. *)
Definition attempts := list (nat * list Z).
(** the draws that have their number *)
Fixpoint got (max : Z) (h : attempts) : list (nat * Z) :=
  match h with
  | [] => []
  | (i, block) :: t => match attempt max block with Some v => (i, v) :: got max t | None => got max t end
  end.
Fixpoint lookup (i : nat) (l : list (nat * Z)) : Z :=
  match l with [] => 0 | (j, v) :: t => if Nat.eqb i j then v else lookup i t end.
(** the [n] numbers drawn *)
Definition vec (max : Z) (n : nat) (h : attempts) : list Z := map (fun i => lookup i (got max h)) (seq 0 n).
(** all attempts until [n] draws have their number; out of fuel is [RPanic] *)
Fixpoint fill (fuel : nat) (pick : attempts -> nat) (max : Z) (n : nat) (h : attempts) (s : list Z) : rd (list Z) :=
  if Nat.eqb (length (got max h)) n then ROk (vec max n h) s
  else match fuel with
       | 0%nat => RPanic
       | S f => rbind (readFull (riBytes max) s) (fun block rest => fill f pick max n ((pick h, block) :: h) rest)
       end.
Definition draws (pick : attempts -> nat) (max : Z) (n : nat) (s : list Z) : rd (list Z) := fill (S (length s)) pick max n [] s.

(** rangeproof.go l.154-231.  Each ring makes two draws: draw 2i is k (l.63) or v (l.71) of
    ring i, draw 2i+1 is j (l.112) or k (l.84).  Real schedules also respect the order of
    the two and of the two phases: they are some of the functions [pick]. *)
Definition rangeDraws (ds : list Z) : rangeRand :=
  {| rrA1 := fun i => nth_error ds (2 * i); rrA2 := fun i => nth_error ds (2 * i + 1); rrB := fun i => nth_error ds (2 * i + 1) |}.
Definition NewRangeProofT (sha : list Z -> list Z) (zk : zkparams) (value : option Z) (pick : attempts -> nat) (s : list Z)
  : option (R (option RangeProof * option Z * option goerr)) :=
  match draws pick (cN (zC zk)) (2 * proofSize) s with
  | ROk ds _ => Some (NewRangeProof sha zk value (rangeDraws ds))
  | _ => None                                       (* the source failed: C69 *)
  end.

(** ** Private keys

    crypto/ecdsa of Go 1.12, randFieldElement: b := make([]byte, BitSize/8+8); ReadFull;
    k = SetBytes(b) mod (N-1) + 1 *)
Definition randFieldElement (n : Z) (s : list Z) : rd Z :=
  rbind (readFull (256 / 8 + 8) s) (fun b rest => ROk (beval b mod (n - 1) + 1) rest).
(** btcec/privkey.go l.39-45: None is the error *)
Definition NewPrivateKeyT (c : curve) (s : list Z) : R (option privkey) :=
  match randFieldElement (cN c) s with
  | ROk d _ => k <- NewPrivateKey c d; Ok (Some k)
  | _ => Ok None
  end.
