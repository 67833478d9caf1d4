(** * Specification: chances over the bytes of a random source *)
From Coq Require Import ZArith List Bool.
From Verif Require Import Go Wire Big Crypto Spec SpecZk Gspfs Equivalence Consistency Disjunctive Rand.
Import ListNotations.
Open Scope Z_scope.

(** what a source delivers: [L] bytes, each string of [L] bytes equally likely *)
Definition tape (L : nat) (t : list Z) : Prop := bytes_ok t /\ length t = L.
Fixpoint allTapes (L : nat) : list (list Z) :=
  match L with
  | 0%nat => [[]]
  | S L' => flat_map (fun b => map (cons b) (allTapes L')) (map Z.of_nat (seq 0 256))
  end.
(** in how many of the 256^L cases [p] holds *)
Definition cases (L : nat) (p : list Z -> bool) : Z := Z.of_nat (length (filter p (allTapes L))).

(** P and Q hold in equally many cases: a one-to-one correspondence of the cases takes
    one to the other *)
Definition asMany (L : nat) (P Q : list Z -> Prop) : Prop :=
  exists f g : list Z -> list Z, forall t, tape L t ->
    tape L (f t) /\ tape L (g t) /\ g (f t) = t /\ f (g t) = t /\ (P t <-> Q (f t)).

(** numbers below [max] take [bits] bits, or [block] bytes *)
Definition bits (max : Z) : Z := Z.log2_up max.
Definition block (max : Z) : nat := Z.to_nat ((bits max + 7) / 8).
(** the number that an attempt denotes: its last [bits] bits *)
Definition denotes (max : Z) (b : list Z) : Z := beval b mod 2 ^ bits max.
(** [s] begins with attempts that are too large, then one that denotes [v]; [rest] is left *)
Inductive firstGood (max : Z) : list Z -> Z -> list Z -> Prop :=
| good : forall b rest, length b = block max -> denotes max b < max -> firstGood max (b ++ rest) (denotes max b) rest
| bad : forall b s v rest, length b = block max -> max <= denotes max b -> firstGood max s v rest -> firstGood max (b ++ s) v rest.
(** [s] is too short: attempts that are too large, then an end inside an attempt *)
Inductive noGood (max : Z) : list Z -> Prop :=
| short : forall s, (length s < block max)%nat -> noGood max s
| badS : forall b s, length b = block max -> max <= denotes max b -> noGood max s -> noGood max (b ++ s).

(** the draw gives [v]; the draw fails *)
Definition isDraw (v : Z) (r : rd Z) : bool := match r with ROk x _ => x =? v | _ => false end.
Definition failed (r : rd Z) : bool := match r with ROk _ _ => false | _ => true end.
(** how many of the strings of one attempt denote a number that is too large *)
Definition tooLarge (max : Z) : Z := 256 ^ Z.of_nat (block max) - max * 2 ^ (8 * Z.of_nat (block max) - bits max).

(** a scheduler makes an attempt only for a draw that still waits for its number *)
Definition scheduler (max : Z) (n : nat) (pick : attempts -> nat) : Prop :=
  forall h, (length (got max h) < n)%nat -> NoDup (map fst (got max h)) ->
    (pick h < n)%nat /\ ~ In (pick h) (map fst (got max h)).
(** [n] numbers below [max] *)
Definition below (max : Z) (n : nat) (ds : list Z) : Prop := length ds = n /\ Forall (fun d => 0 <= d < max) ds.

(** ** Simulators: they know the challenge [c] but no secret, and draw the responses *)
Definition simGSPFS (B A : point) (c : Z) (s : list Z) : R (option GSPFSProof * option goerr) :=
  match fst (draw N s) with
  | Some v => Ok (Some (MkGSPFS (pt B) (pt (padd (smul v B) (smul c A))) (Some v) (Some c)), None)
  | None => Ok (None, Some ERand)
  end.
Definition simEquivalence (B1 R1 B2 R2 : point) (c : Z) (s : list Z) : R (option EquivalenceProof * option goerr) :=
  match fst (draw N s) with
  | Some v => Ok (Some (MkEquiv (pt (padd (smul v (eff B1)) (pneg (smul c R1)))) (pt (padd (smul v (eff B2)) (pneg (smul c R2)))) (Some c) (Some v)), None)
  | None => Ok (None, Some ERand)
  end.
Definition simConsistency (CM CMTok PK : point) (c : Z) (s : list Z) : R (option ConsistencyProof * option goerr) :=
  match drawN 2 N s with
  | [Some s1; Some s2] =>
      Ok (Some (MkCons (pt (padd (ped s1 s2) (pneg (smul c CM)))) (pt (padd (smul s2 (eff PK)) (pneg (smul c CMTok)))) (Some c) (Some s1) (Some s2)), None)
  | _ => Ok (None, Some ERand)
  end.
Definition simDisjunctive (B1 R1 B2 R2 : point) (c : Z) (s : list Z) : R (option DisjunctiveProof * option goerr) :=
  match drawN 3 N s with
  | [Some s1; Some s2; Some c1] =>
      let c2 := (c - c1) mod N in
      Ok (Some (MkDisj (pt (padd (smul s1 (eff B1)) (pneg (smul c1 (eff R1))))) (pt (padd (smul s2 (eff B2)) (pneg (smul c2 (eff R2)))))
                  (Some c) (Some c1) (Some c2) (Some s1) (Some s2)), None)
  | _ => Ok (None, Some ERand)
  end.

(** ** What a disjunctive proof shows *)
(** the proof with its responses reduced modulo N, which the verifier treats alike *)
Definition reduced (r : R (option DisjunctiveProof * option goerr)) : R (option DisjunctiveProof * option goerr) :=
  match r with
  | Ok (Some (MkDisj T1 T2 c c1 c2 s1 s2), e) =>
      Ok (Some (MkDisj T1 T2 c c1 c2 (option_map (fun s => s mod N) s1) (option_map (fun s => s mod N) s2)), e)
  | _ => r
  end.
Definition proved (r : R (option DisjunctiveProof * option goerr)) : bool := match r with Ok (Some _, None) => true | _ => false end.
(** the left response is N or more, the right one is not, and the quotient of the left
    response and the left challenge is the secret [x] or one more *)
Definition revealsLeft (x : Z) (r : R (option DisjunctiveProof * option goerr)) : bool :=
  match r with
  | Ok (Some (MkDisj _ _ _ (Some c1) _ (Some s1) (Some s2)), None) =>
      (N <=? s1) && (s2 <? N) && ((s1 / c1 =? x mod N) || (s1 / c1 =? x mod N + 1))
  | _ => false
  end.
Definition revealsRight (x : Z) (r : R (option DisjunctiveProof * option goerr)) : bool :=
  match r with
  | Ok (Some (MkDisj _ _ _ _ (Some c2) (Some s1) (Some s2)), None) =>
      (N <=? s2) && (s1 <? N) && ((s2 / c2 =? x mod N) || (s2 / c2 =? x mod N + 1))
  | _ => false
  end.

(** the draws of the range prover: ring i uses [a i], then [b i] *)
Definition usesDraws (a b : nat -> Z) (r : Range.rangeRand) : Prop := forall i, (i < 40)%nat ->
  Range.rrA1 r i = Some (a i) /\ Range.rrA2 r i = Some (b i) /\ Range.rrB r i = Some (b i).
