(** * What a call on the memory of fieldVal variables is compared with *)
From Coq Require Import ZArith List.
From Verif Require Import Go Wire Big Field Koblitz KoblitzMem.
Import ListNotations.
Open Scope Z_scope.

(** the returned coordinates, without the memory the call leaves *)
Definition result {A : Type} (r : R (A * mem)) : R A := bind r (fun p => Ok (fst p)).
(** every variable the caller can see has the value it had: those below the frame of the call *)
Definition callerUnchanged (sp : ptr) (m m' : mem) : Prop := forall p : ptr, p < sp -> m' p = m p.
(** a call that computes [f] and leaves no trace *)
Definition pureCall {A : Type} (sp : ptr) (m : mem) (call : R (A * mem)) (f : R A) : Prop :=
  result call = f /\ forall r m', call = Ok (r, m') -> callerUnchanged sp m m'.
(** the table of 32 rows of 256 points found in memory *)
Definition tableOf (tab : nat -> Z -> nat -> ptr) (m : mem) : table :=
  map (fun i => map (fun b => (m (tab i (Z.of_nat b) 0%nat), m (tab i (Z.of_nat b) 1%nat), m (tab i (Z.of_nat b) 2%nat))) (seq 0 256)) (seq 0 32).
