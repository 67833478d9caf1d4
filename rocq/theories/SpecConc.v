(** * Goroutines that use one curve object *)
From Coq Require Import ZArith List.
From Verif Require Import Go Wire Big Field Koblitz KoblitzMem SpecMem KoblitzConc.
Import ListNotations.
Open Scope Z_scope.

(** what a goroutine asks of the curve *)
Inductive request : Type :=
| ReqAdd (x1 y1 x2 y2 : Z)
| ReqDouble (x y : Z)
| ReqMult (x y : Z) (k : list Z)
| ReqBase (k : list Z)
| ReqBaseH (k : list Z).
(** scalars are byte strings *)
Definition request_ok (r : request) : Prop :=
  match r with ReqAdd _ _ _ _ | ReqDouble _ _ => True | ReqMult _ _ k | ReqBase k | ReqBaseH k => bytes_ok k end.
(** the variables all goroutines share: the package variable fieldOne, the curve's beta
    and its two tables *)
Record globals := { gOne : ptr; gBeta : ptr; gTab : nat -> Z -> nat -> ptr; gTabH : nat -> Z -> nat -> ptr }.
(** the code a goroutine with its stack at [sp] runs for a request *)
Definition serve (g : globals) (sp : ptr) (r : request) : code (R (Z * Z)) :=
  match r with
  | ReqAdd x1 y1 x2 y2 => AddC (gOne g) sp x1 y1 x2 y2
  | ReqDouble x y => DoubleC (gOne g) sp x y
  | ReqMult x y k => ScalarMultC (gOne g) (gBeta g) sp x y k
  | ReqBase k => scalarTableMultC (gOne g) sp (gTab g) k
  | ReqBaseH k => scalarTableMultC (gOne g) sp (gTabH g) k
  end.
(** what it should return, alone or not *)
Definition answer (t tH : table) (r : request) : R (Z * Z) :=
  match r with
  | ReqAdd x1 y1 x2 y2 => Add x1 y1 x2 y2
  | ReqDouble x y => Double x y
  | ReqMult x y k => ScalarMult x y k
  | ReqBase k => scalarTableMult t k
  | ReqBaseH k => scalarTableMult tH k
  end.
(** four frames of 64 variables *)
Definition stackSize : Z := 256.
(** shared variables below [base], one stack for every goroutine above it *)
Record layout (g : globals) (base : ptr) (stack : nat -> ptr) (m : mem) : Prop := {
  lOne : gOne g < base /\ m (gOne g) = fieldOne;
  lBeta : gBeta g < base /\ m (gBeta g) = curveBeta;
  lTab : forall i b c, gTab g i b c < base /\ gTabH g i b c < base;
  lStack : forall i, base <= stack i;
  lApart : forall i j, i <> j -> stack i + stackSize <= stack j \/ stack j + stackSize <= stack i }.
(** the next access of a piece of code *)
Definition nextWrite {A : Type} (c : code A) : option ptr := match c with Wr p _ _ => Some p | _ => None end.
Definition nextAccess {A : Type} (c : code A) : option ptr := match c with Wr p _ _ | Rd p _ => Some p | Ret _ => None end.
