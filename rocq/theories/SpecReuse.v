(** * Specification: what an observer computes from two proofs *)
From Coq Require Import ZArith List.
From Verif Require Import Go Big Spec SpecZk.
Open Scope Z_scope.

(** the quotient a / b modulo the group order *)
Definition quot (a b : Z) : Z := (a * ninv b) mod N.
(** the number behind a pointer; anything for nil *)
Definition num (o : option Z) : Z := match o with Some z => z | None => 0 end.
