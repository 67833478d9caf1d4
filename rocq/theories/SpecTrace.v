(** * What an observer of memory accesses sees

    The sequence of the words a piece of code loads and stores, without the values: what
    somebody who watches a cache or a bus learns.  Code whose sequence does not depend on
    the contents of memory is what field.go calls constant time. *)
From Coq Require Import ZArith List.
From Verif Require Import Go Field Koblitz KoblitzMem FieldMem.
Import ListNotations.
Open Scope Z_scope.

Inductive access : Type := Loads (p : ptr) (word : nat) | Stores (p : ptr) (word : nat).
(** the accesses of a piece of code that runs alone *)
Fixpoint traceW {A : Type} (c : wcode A) (m : mem) : list access :=
  match c with
  | WRet _ => []
  | WLd p i k => Loads p i :: traceW (k (getw i (m p))) m
  | WSt p i w k => Stores p i :: traceW k (upd m p (setw i w (m p)))
  end.
(** the accesses do not depend on what is in memory *)
Definition oblivious {A : Type} (c : wcode A) : Prop := forall m m', traceW c m = traceW c m'.
