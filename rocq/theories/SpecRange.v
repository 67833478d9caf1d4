(** * Specification for range proofs

    A range proof is a chain of small rings.  Ring i has a commitment C, a response s
    and, given the common challenge e, the point [ringT] that is hashed and the point
    [ringR] whose coordinates enter the common challenge. *)
From Coq Require Import ZArith List Bool.
From Verif Require Import Go Wire Big Crypto Spec SpecZk Range.
Import ListNotations.
Open Scope Z_scope.

(** the digest of a list of points as an integer, not reduced *)
Definition hs (sha : list Z -> list Z) (ps : list point) : Z :=
  beval (sha (concat (map (fun p => bigBytes (fst p) ++ bigBytes (snd p)) ps))).
(** s*H' - e*(C - 2^i*G) *)
Definition ringT (e : Z) (i : nat) (C : point) (s : Z) : point :=
  padd (smul s Htab) (pneg (smul e (eff (padd C (pneg (smul (2 ^ Z.of_nat i) G)))))).
(** hash(T) * C *)
Definition ringR (sha : list Z -> list Z) (e : Z) (i : nat) (C : point) (s : Z) : point :=
  smul (hs sha [ringT e i C s]) (eff C).
Fixpoint rings (sha : list Z -> list Z) (e : Z) (i : nat) (cs : list (point * Z)) : list point :=
  match cs with
  | [] => []
  | (C, s) :: t => ringR sha e i C s :: rings sha e (S i) t
  end.
Fixpoint psum (ps : list point) : point := match ps with [] => O | p :: t => padd p (psum t) end.
Fixpoint zsum (zs : list Z) : Z := match zs with [] => 0 | z :: t => z + zsum t end.
(** the tuples of a proof *)
Definition tuples (cs : list (point * Z)) : list rangeProofTuple :=
  map (fun cs => MkTuple (pt (fst cs)) (Some (snd cs))) cs.

(** ** An honest run, ring by ring

    [b] the bit; [v] the blinding drawn when b = 1; [k], [j] the other draws. *)
Definition honC1 (i : nat) (v : Z) : point := padd (smul (2 ^ Z.of_nat i) G) (smul v Htab).
Definition honR (sha : list Z -> list Z) (i : nat) (b : bool) (d1 d2 : Z) : point :=
  if b then smul (hs sha [smul d2 Htab]) (honC1 i d1) else smul d1 Htab.
(** the hash that has to be inverted in a ring for a 0 bit *)
Definition honH (sha : list Z -> list Z) (e : Z) (i : nat) (j : Z) : Z :=
  hs sha [padd (smul j Htab) (smul (e * 2 ^ Z.of_nat i) G)].
Definition honC (sha : list Z -> list Z) (e : Z) (i : nat) (b : bool) (d1 j : Z) : point :=
  if b then honC1 i d1 else smul (ninv (honH sha e i j)) (smul d1 Htab).
(** the response and the share of the blinding *)
Definition honS (sha : list Z -> list Z) (e : Z) (i : nat) (b : bool) (d1 d2 j : Z) : Z :=
  if b then d2 + e * d1 else j + d1 * (e * ninv (honH sha e i j)).
Definition honV (sha : list Z -> list Z) (e : Z) (i : nat) (b : bool) (d1 j : Z) : Z :=
  if b then d1 else ninv (honH sha e i j) * d1.
(** no degenerate point occurs in ring i *)
Definition honOk (sha : list Z -> list Z) (e : Z) (i : nat) (b : bool) (d1 j : Z) : Prop :=
  plain (honC sha e i b d1 j) /\ plain (padd (honC sha e i b d1 j) (pneg (smul (2 ^ Z.of_nat i) G))) /\
  (b = false -> plain (smul d1 Htab) /\ honH sha e i j mod N <> 0).

(** all rings of a run with [m] bits; the code has m = 40 *)
Definition honDigest (sha : list Z -> list Z) (m : nat) (value : Z) (d1 d2 : nat -> Z) : Z :=
  hs sha (map (fun i => honR sha i (rangeBit value i) (d1 i) (d2 i)) (seq 0 m)).
Definition honCs (sha : list Z -> list Z) (e : Z) (m : nat) (value : Z) (d1 d2 j : nat -> Z) : list (point * Z) :=
  map (fun i => (honC sha e i (rangeBit value i) (d1 i) (j i), honS sha e i (rangeBit value i) (d1 i) (d2 i) (j i))) (seq 0 m).
Definition honVt (sha : list Z -> list Z) (e : Z) (m : nat) (value : Z) (d1 j : nat -> Z) : Z :=
  zsum (map (fun i => honV sha e i (rangeBit value i) (d1 i) (j i)) (seq 0 m)).
(** a random source that does not fail, draw by draw *)
Definition draws (d1 d2 j : nat -> Z) : rangeRand :=
  {| rrA1 := fun i => Some (d1 i); rrA2 := fun i => Some (d2 i); rrB := fun i => Some (j i) |}.
(** the draws avoid the degenerate points, for the challenge that the run computes *)
Definition goodDraws (sha : list Z -> list Z) (m : nat) (value : Z) (d1 d2 j : nat -> Z) : Prop :=
  forall i, (i < m)%nat -> honOk sha (honDigest sha m value d1 d2 mod N) i (rangeBit value i) (d1 i) (j i).

(** ** Forks

    What rewinding the prover gives for ring i of a proof with challenge [e] and hash
    function [sha]: another challenge and response for the same hashed point, or, for the
    same challenge, another hash function under which the ring, with another commitment,
    hashes the same point and ends in the same point. *)
Inductive fork := ForkE (e' s' : Z) | ForkH (sha' : list Z -> list Z) (C' : point) (s' : Z).
Definition forkOk (sha : list Z -> list Z) (e : Z) (i : nat) (C : point) (s : Z) (f : fork) : Prop :=
  plain (padd C (pneg (smul (2 ^ Z.of_nat i) G))) /\
  match f with
  | ForkE e' s' => e mod N <> e' mod N /\ ringT e i C s = ringT e' i C s'
  | ForkH sha' C' s' =>
      is_point C' /\ plain C /\ plain C' /\ plain (padd C' (pneg (smul (2 ^ Z.of_nat i) G))) /\ e mod N <> 0 /\
      hs sha [ringT e i C s] mod N <> hs sha' [ringT e i C' s'] mod N /\
      ringT e i C s = ringT e i C' s' /\ ringR sha e i C s = ringR sha' e i C' s'
  end.
(** the bit and the blinding computed from a fork *)
Definition forkBit (f : fork) : Z := match f with ForkE _ _ => 1 | ForkH _ _ _ => 0 end.
Definition forkBlind (sha : list Z -> list Z) (e : Z) (i : nat) (C : point) (s : Z) (f : fork) : Z :=
  match f with
  | ForkE e' s' => ((s - s') * ninv (e - e')) mod N
  | ForkH sha' C' s' =>
      let h := hs sha [ringT e i C s] in let h' := hs sha' [ringT e i C' s'] in
      ((s - s') * h' * ninv (e * (h' - h))) mod N
  end.
