(** * Goroutines that use one curve object, with memory accesses of one word *)
From Coq Require Import ZArith List.
From Verif Require Import Go Wire Big Field Koblitz KoblitzMem SpecMem KoblitzConc SpecConc FieldMem KoblitzWord.
Import ListNotations.
Open Scope Z_scope.

(** a goroutine asks for a point (SpecConc.v) or whether a point is on the curve *)
Inductive wrequest : Type := WPoint (r : request) | WOnCurve (x y : Z).
Inductive reply : Type := ReplyPoint (p : Z * Z) | ReplyBool (b : bool).
Definition wrequest_ok (r : wrequest) : Prop := match r with WPoint r => request_ok r | WOnCurve _ _ => True end.
Definition reply_of {A : Type} (f : A -> reply) (r : R A) : R reply := match r with Ok a => Ok (f a) | Panic => Panic end.
(** the code a goroutine with its stack at [sp] runs *)
Definition servePoint (g : globals) (sp : ptr) (r : request) : wcode (R (Z * Z)) :=
  match r with
  | ReqAdd x1 y1 x2 y2 => curveAddW (gOne g) sp x1 y1 x2 y2
  | ReqDouble x y => curveDoubleW (gOne g) sp x y
  | ReqMult x y k => ScalarMultW (gOne g) (gBeta g) sp x y k
  | ReqBase k => scalarTableMultW (gOne g) sp (gTab g) k
  | ReqBaseH k => scalarTableMultW (gOne g) sp (gTabH g) k
  end.
Definition serveW (g : globals) (sp : ptr) (r : wrequest) : wcode (R reply) :=
  match r with
  | WPoint r => seqW (servePoint g sp r) (fun a => WRet (reply_of ReplyPoint a))
  | WOnCurve x y => seqW (IsOnCurveW sp x y) (fun a => WRet (reply_of ReplyBool a))
  end.
(** what it should get, alone or not: the functions of Koblitz.v *)
Definition answerW (t tH : table) (r : wrequest) : R reply :=
  match r with
  | WPoint r => reply_of ReplyPoint (answer t tH r)
  | WOnCurve x y => reply_of ReplyBool (IsOnCurve x y)
  end.
(** the word a piece of code stores or loads next *)
Definition nextStoreW {A : Type} (c : wcode A) : option (ptr * nat) := match c with WSt p i _ _ => Some (p, i) | _ => None end.
Definition nextAccessW {A : Type} (c : wcode A) : option (ptr * nat) :=
  match c with WSt p i _ _ | WLd p i _ => Some (p, i) | WRet _ => None end.
(** a piece of code run to its end with nobody else running *)
Fixpoint aloneW {A : Type} (c : wcode A) (m : mem) : A * mem :=
  match c with
  | WRet a => (a, m)
  | WLd p i k => aloneW (k (getw i (m p))) m
  | WSt p i w k => aloneW k (upd m p (setw i w (m p)))
  end.

(** the method leaves in [f] what [v] says about the memory it started with, and
    changes no other variable, no matter which of its pointers are equal *)
Definition inPlace (c : wcode unit) (f : ptr) (v : mem -> fieldVal) : Prop :=
  forall m, snd (aloneW c m) f = v m /\ forall q, q <> f -> snd (aloneW c m) q = m q.
(** the method returns what [v] says and changes nothing *)
Definition readOnly {A : Type} (c : wcode A) (v : mem -> A) : Prop := forall m, aloneW c m = (v m, m).
