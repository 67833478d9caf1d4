(** * Specification: observers that ask the hash function and are shown proofs *)
From Coq Require Import ZArith List Bool.
From Verif Require Import Go Wire Big Crypto Spec SpecZk Gspfs Equivalence Consistency SpecRand SpecOracle.
Import ListNotations.
Open Scope Z_scope.

(** An observer, of whatever power: in any order it asks the hash function and has
    itself shown fresh proofs, of statements it chooses together with their secrets, and
    in the end it says yes or no. *)
Inductive observer (I P : Type) : Type :=
| AskHash (m : list Z) (next : list Z -> observer I P)
| SeeProof (i : I) (next : P -> observer I P)
| Guess (b : bool).
Arguments AskHash {I P}. Arguments SeeProof {I P}. Arguments Guess {I P}.
(** it asks at most [q] times and sees at most [n] proofs, of statements as [good] says *)
Fixpoint watches {I P} (good : I -> Prop) (q n : nat) (f : observer I P) : Prop :=
  match f, q, n with
  | Guess _, _, _ => True
  | AskHash _ next, S q', _ => forall h, watches good q' n (next h)
  | AskHash _ _, 0%nat, _ => False
  | SeeProof i next, _, S n' => good i /\ forall p, watches good q n' (next p)
  | SeeProof _ _, _, 0%nat => False
  end.

(** What it says when the proofs are those of the prover.  [w] holds the answers given
    so far, [t] is the tape of further answers, [us] are the draws of the prover, [public]
    is the part of a statement that is not secret, and [asked s p] is the string the
    prover asks about. *)
Fixpoint watchReal {I S P U} (public : I -> S) (prove : (list Z -> list Z) -> I -> U -> R (option P * option goerr)) (asked : S -> P -> list Z)
  (f : observer I P) (w : answers) (t : list Z) (us : list U) : bool :=
  match f with
  | Guess b => b
  | AskHash m next =>
      match known w m with
      | Some h => watchReal public prove asked (next h) w t us
      | None => watchReal public prove asked (next (firstn 32 t)) ((m, firstn 32 t) :: w) (skipn 32 t) us
      end
  | SeeProof i next =>
      match us with
      | [] => false
      | u :: us' =>
          match prove (hashOf w t) i u with
          | Ok (Some p, None) =>
              match known w (asked (public i) p) with
              | Some _ => watchReal public prove asked (next p) w t us'
              | None => watchReal public prove asked (next p) ((asked (public i) p, firstn 32 t) :: w) (skipn 32 t) us'
              end
          | _ => false
          end
      end
  end.
(** What it says when the proofs are made by a simulator from the public part, the next
    answer and a draw, and the hash function gives this answer from then on. *)
Fixpoint watchSim {I S P U} (public : I -> S) (simulate : S -> list Z -> U -> P) (asked : S -> P -> list Z) (f : observer I P) (w : answers) (t : list Z) (us : list U) : bool :=
  match f with
  | Guess b => b
  | AskHash m next =>
      match known w m with
      | Some h => watchSim public simulate asked (next h) w t us
      | None => watchSim public simulate asked (next (firstn 32 t)) ((m, firstn 32 t) :: w) (skipn 32 t) us
      end
  | SeeProof i next =>
      match us with
      | [] => false
      | u :: us' =>
          let p := simulate (public i) (firstn 32 t) u in
          watchSim public simulate asked (next p) ((asked (public i) p, firstn 32 t) :: w) (skipn 32 t) us'
      end
  end.

(** All the numbers below N, all pairs of them, all lists of [n] draws, and the number of tapes and draws
    with which the answer is yes. *)
Definition scalars : list Z := map Z.of_nat (seq 0 (Z.to_nat N)).
Definition scalarPairs : list (Z * Z) := list_prod scalars scalars.
Fixpoint draws {U} (l : list U) (n : nat) : list (list U) :=
  match n with
  | 0%nat => [[]]
  | S n' => flat_map (fun u => map (cons u) (draws l n')) l
  end.
Definition yes {U} (L : nat) (l : list U) (n : nat) (p : list Z -> list U -> bool) : Z :=
  Z.of_nat (length (filter (fun tu => p (fst tu) (snd tu)) (list_prod (allTapes L) (draws l n)))).

(** The statements.  GSPFS: a base and a secret. *)
Definition gspfsGood (i : point * Z) : Prop := on_curve (fst i) /\ plain (fst i).
Definition gspfsPublic (i : point * Z) : point * point := let '(B, x) := i in (B, smul x B).
Definition proveGspfs (zk : zkparams) (sha : list Z -> list Z) (i : point * Z) (u : Z) : R (option GSPFSProof * option goerr) :=
  let '(B, x) := i in NewGSPFSProofBase sha zk (pt B) (pt (smul x B)) (Some x) (Some u).
Definition askedGspfs (s : point * point) (p : GSPFSProof) : list Z := let '(_, A) := s in transcript [A; asPoint (gsRandCommit p)].
Definition simGspfs (s : point * point) (h : list Z) (v : Z) : GSPFSProof :=
  let '(B, A) := s in let c := beval h mod N in MkGSPFS (pt B) (pt (padd (smul v B) (smul c A))) (Some v) (Some c).
(** Equivalence: two bases and a secret; results as Mult makes them. *)
Definition equivGood (i : point * point * Z) : Prop := let '(B1, B2, _) := i in is_point B1 /\ is_point B2 /\ eff B1 <> O.
Definition equivPublic (i : point * point * Z) : point * point * point * point := let '(B1, B2, x) := i in (B1, smul x (eff B1), B2, smul x (eff B2)).
Definition proveEquiv (zk : zkparams) (sha : list Z -> list Z) (i : point * point * Z) (u : Z) : R (option EquivalenceProof * option goerr) :=
  let '(B1, B2, x) := i in NewEquivalenceProof sha zk (pt B1) (pt (smul x (eff B1))) (pt B2) (pt (smul x (eff B2))) (Some x) (Some u).
Definition askedEquiv (s : point * point * point * point) (p : EquivalenceProof) : list Z :=
  let '(B1, R1, B2, R2) := s in transcript [B1; R1; B2; R2; asPoint (eqUG p); asPoint (eqUH p)].
Definition simEquiv (s : point * point * point * point) (h : list Z) (v : Z) : EquivalenceProof :=
  let '(B1, R1, B2, R2) := s in let c := beval h mod N in
  MkEquiv (pt (padd (smul v (eff B1)) (pneg (smul c R1)))) (pt (padd (smul v (eff B2)) (pneg (smul c R2)))) (Some c) (Some v).
(** Consistency: a public key, a value and the randomness. *)
Definition consGood (i : point * Z * Z) : Prop := let '(PK, _, _) := i in is_point PK.
Definition consPublic (i : point * Z * Z) : point * point * point := let '(PK, v, r) := i in (ped v r, smul r (eff PK), PK).
Definition proveCons (zk : zkparams) (sha : list Z -> list Z) (i : point * Z * Z) (u : Z * Z) : R (option ConsistencyProof * option goerr) :=
  let '(PK, v, r) := i in NewConsistencyProof sha zk (pt (ped v r)) (pt (smul r (eff PK))) (pt PK) (Some v) (Some r) (Some (fst u)) (Some (snd u)).
Definition askedCons (s : point * point * point) (p : ConsistencyProof) : list Z :=
  let '(CM, CMTok, PK) := s in transcript [G; Hgen; CM; CMTok; PK; asPoint (cnT1 p); asPoint (cnT2 p)].
Definition simCons (s : point * point * point) (h : list Z) (v : Z * Z) : ConsistencyProof :=
  let '(CM, CMTok, PK) := s in let c := beval h mod N in
  MkCons (pt (padd (ped (fst v) (snd v)) (pneg (smul c CM)))) (pt (padd (smul (snd v) (eff PK)) (pneg (smul c CMTok)))) (Some c) (Some (fst v)) (Some (snd v)).
