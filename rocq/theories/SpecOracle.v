(** * Specification: forgers that ask the hash function *)
From Coq Require Import ZArith List Bool.
From Verif Require Import Go Wire Big Crypto Spec SpecZk Gspfs Equivalence Consistency Disjunctive Abc SpecRand.
Import ListNotations.
Open Scope Z_scope.

(** A forger, of whatever power: it asks the hash function about strings of its choice,
    each choice depending on the answers so far, and then says what it has found. *)
Inductive forger (A : Type) : Type :=
| Ask (m : list Z) (next : list Z -> forger A)
| Say (a : A).
Arguments Ask {A}. Arguments Say {A}.
(** it asks at most [q] times *)
Fixpoint asks {A} (q : nat) (f : forger A) : Prop :=
  match f, q with
  | Say _, _ => True
  | Ask _ _, 0%nat => False
  | Ask _ next, S q' => forall h, asks q' (next h)
  end.

(** The hash function: each string not asked before is answered with the next 32 bytes
    of the tape, the others as before (the last answer is the first of the list). *)
Definition answers := list (list Z * list Z).
Fixpoint known (w : answers) (m : list Z) : option (list Z) :=
  match w with
  | [] => None
  | (m', h) :: w' => if list_eq_dec Z.eq_dec m m' then Some h else known w' m
  end.
Fixpoint play {A} (f : forger A) (w : answers) (t : list Z) : A * answers * list Z :=
  match f with
  | Say a => (a, w, t)
  | Ask m next =>
      match known w m with
      | Some h => play (next h) w t
      | None => play (next (firstn 32 t)) ((m, firstn 32 t) :: w) (skipn 32 t)
      end
  end.
(** the hash function that the verifier uses afterwards *)
Definition hashOf (w : answers) (t : list Z) (m : list Z) : list Z :=
  match known w m with Some h => h | None => firstn 32 t end.
(** what the forger says on the tape [t], and the hash function it leaves *)
Definition says {A} (f : forger A) (t : list Z) : A := fst (fst (play f [] t)).
Definition sha {A} (f : forger A) (t : list Z) : list Z -> list Z := hashOf (snd (fst (play f [] t))) (snd (play f [] t)).

(** ** Rewinding *)
(** the answers given before that about [m], and how many they are *)
Fixpoint older (w : answers) (m : list Z) : answers :=
  match w with
  | [] => []
  | (m', _) :: w' => if list_eq_dec Z.eq_dec m m' then w' else older w' m
  end.
Definition before (w : answers) (m : list Z) : nat := length (if known w m then older w m else w).
(** the tape [t] up to the answer about [m], then [t'] *)
Definition rewound {A} (f : forger A) (m : list Z) (t t' : list Z) : list Z :=
  let k := (32 * before (snd (fst (play f [] t))) m)%nat in firstn k t ++ skipn k t'.
(** the string the verifier asks about *)
Definition transcript (ps : list point) : list Z := concat (map (fun p => bigBytes (fst p) ++ bigBytes (snd p)) ps).

(** ** Proofs whose points are on the curve *)
Definition equivPoints (p : EquivalenceProof) : Prop := exists U1 U2 c s, is_point U1 /\ is_point U2 /\ p = MkEquiv (pt U1) (pt U2) (Some c) (Some s).
Definition gspfsPoints (B : point) (p : GSPFSProof) : Prop := exists R v c, is_point R /\ p = MkGSPFS (pt B) (pt R) (Some v) (Some c).
Definition disjPoints (p : DisjunctiveProof) : Prop :=
  exists T1 T2 c c1 c2 s1 s2, is_point T1 /\ is_point T2 /\ p = MkDisj (pt T1) (pt T2) (Some c) (Some c1) (Some c2) (Some s1) (Some s2).
Definition consPoints (p : ConsistencyProof) : Prop := exists T1 T2 c s1 s2, is_point T1 /\ is_point T2 /\ p = MkCons (pt T1) (pt T2) (Some c) (Some s1) (Some s2).
(** no number, not even up to sign, is the logarithm of both results *)
Definition false_equiv (B1 R1 B2 R2 : point) : Prop :=
  ~ exists x, R1 = smul x (eff B1) /\ (R2 = smul x (eff B2) \/ R2 = pneg (smul x (eff B2))).

(** ** What rewinding finds *)
Definition num (z : option Z) : Z := match z with Some v => v | None => 0 end.
Definition asPoint (p : ECPoint) : point := (num (pX p), num (pY p)).
Definition samePoint (p q : point) : bool := (fst p =? fst q) && (snd p =? snd q).
Definition found {A} (o : option A) : bool := match o with Some _ => true | None => false end.
Definition signs : list (Z * Z) := [(1, 1); (1, -1); (-1, 1); (-1, -1)].

(** the logarithm of [A] to the base [B]: two formulas are tried *)
Definition gspfsLog (B A : point) (p p' : GSPFSProof) : option Z :=
  let v := num (gsHiddenValue p) in let c := num (gsChallenge p) in let v' := num (gsHiddenValue p') in let c' := num (gsChallenge p') in
  find (fun x => samePoint (smul x B) A) [((v' - v) * ninv (c - c')) mod N; (- (v + v') * ninv (c + c')) mod N].
Definition gspfsFinds (f : forger GSPFSProof) (B A : point) (t t' : list Z) : option Z :=
  let p := says f t in gspfsLog B A p (says f (rewound f (transcript [A; asPoint (gsRandCommit p)]) t t')).

(** the logarithm of the one result or of the other *)
Definition logFrom (B R : point) (c s c' s' : Z) : option Z :=
  find (fun x => samePoint (smul x B) R) (map (fun ef => slope (fst ef) (snd ef) s c s' c') signs).
Definition disjLog (B1 R1 B2 R2 : point) (p p' : DisjunctiveProof) : option Z * option Z :=
  (logFrom (eff B1) R1 (num (djC1 p)) (num (djS1 p)) (num (djC1 p')) (num (djS1 p')),
   logFrom (eff B2) R2 (num (djC2 p)) (num (djS2 p)) (num (djC2 p')) (num (djS2 p'))).
Definition disjFinds (f : forger DisjunctiveProof) (B1 R1 B2 R2 : point) (t t' : list Z) : option Z * option Z :=
  let p := says f t in disjLog B1 R1 B2 R2 p (says f (rewound f (transcript [B1; R1; B2; R2; asPoint (djT1 p); asPoint (djT2 p)]) t t')).

(** an opening of the commitment [CM] *)
Definition consOpening (CM : point) (p p' : ConsistencyProof) : option (Z * Z) :=
  find (fun vr => samePoint (ped (fst vr) (snd vr)) CM)
    (map (fun ef => (slope (fst ef) (snd ef) (num (cnS1 p)) (num (cnChallenge p)) (num (cnS1 p')) (num (cnChallenge p')),
                     slope (fst ef) (snd ef) (num (cnS2 p)) (num (cnChallenge p)) (num (cnS2 p')) (num (cnChallenge p')))) signs).
Definition consFinds (f : forger ConsistencyProof) (CM CMTok PK : point) (t t' : list Z) : option (Z * Z) :=
  let p := says f t in consOpening CM p (says f (rewound f (transcript [G; Hgen; CM; CMTok; PK; asPoint (cnT1 p); asPoint (cnT2 p)]) t t')).

(** ** What rewinding twice finds *)
Definition pairsOf {A} (a b c : A) : list (A * A) := [(a, b); (a, c); (b, c)].
Definition upToSign (p q : point) : bool := samePoint p q || samePoint p (pneg q).
(** an opening of the commitment whose blinding also makes the token, up to sign *)
Definition consWitness (CM CMTok PK : point) (p p' p'' : ConsistencyProof) : option (Z * Z) :=
  find (fun vr => samePoint (ped (fst vr) (snd vr)) CM && upToSign CMTok (smul (snd vr) (eff PK)))
    (flat_map (fun pp => map (fun ef =>
       (slope (fst ef) (snd ef) (num (cnS1 (fst pp))) (num (cnChallenge (fst pp))) (num (cnS1 (snd pp))) (num (cnChallenge (snd pp))),
        slope (fst ef) (snd ef) (num (cnS2 (fst pp))) (num (cnChallenge (fst pp))) (num (cnS2 (snd pp))) (num (cnChallenge (snd pp))))) signs) (pairsOf p p' p'')).
Definition consFinds2 (f : forger ConsistencyProof) (CM CMTok PK : point) (t t' t'' : list Z) : option (Z * Z) :=
  let p := says f t in let m := transcript [G; Hgen; CM; CMTok; PK; asPoint (cnT1 p); asPoint (cnT2 p)] in
  consWitness CM CMTok PK p (says f (rewound f m t t')) (says f (rewound f m t t'')).
Definition abcPoints (p : ABCProof) : Prop := exists B C T1 T2 c j k l tok dj, is_point B /\ is_point C /\ is_point T1 /\ is_point T2 /\ plain B /\ plain C /\
  p = MkABC (pt B) (pt C) (pt T1) (pt T2) (Some c) (Some j) (Some k) (Some l) tok dj.
(** a, k, l with CM = a*G + k*CMTok and C = a*B + l*H', the latter up to sign *)
Definition abcWitness (CM CMTok : point) (p p' p'' : ABCProof) : option (Z * Z * Z) :=
  find (fun akl => let '(a, k, l) := akl in samePoint (padd (smul a G) (smul k CMTok)) CM &&
                   upToSign (asPoint (abC p)) (padd (smul a (asPoint (abB p))) (smul l Htab)))
    (flat_map (fun pp => map (fun ef =>
       let at2 := fun x => slope (fst ef) (snd ef) (num (x (fst pp))) (num (abChallenge (fst pp))) (num (x (snd pp))) (num (abChallenge (snd pp))) in
       (at2 abj, at2 abk, at2 abl)) signs) (pairsOf p p' p'')).
Definition abcFinds (f : forger ABCProof) (CM CMTok : point) (t t' t'' : list Z) : option (Z * Z * Z) :=
  let p := says f t in let m := transcript [G; Hgen; CM; CMTok; asPoint (abB p); asPoint (abC p); asPoint (abT1 p); asPoint (abT2 p)] in
  abcWitness CM CMTok p (says f (rewound f m t t')) (says f (rewound f m t t'')).
