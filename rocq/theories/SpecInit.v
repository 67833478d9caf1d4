(** * What a finished curve object is, and what a run of S256 may do *)
From Coq Require Import ZArith List.
From Verif Require Import Spec Go Big SpecField Field Koblitz Precompute Init.
Import ListNotations.
Open Scope Z_scope.

(** every field has the value SEC 2 gives it (P, N, Gx, Gy are those of Spec.v), the
    endomorphism's constants included *)
Record complete (o : object) : Prop := {
  co_params : oParams o = Some {| pP := Some P; pN := Some N; pB := Some 7; pGx := Some Gx; pGy := Some Gy; pBitSize := 256 |};
  co_q : oQ o = Some ((P + 1) / 4);
  co_h : oH o = 1;
  co_half : oHalf o = Some (N / 2);
  co_size : oByteSize o = 32;
  co_lambda : oLambda o = Some 0x5363AD4CC05C30E0A5261C028812645A122E22EA20816678DF02967C1B23BD72;
  co_beta : exists b, oBeta o = Some b /\ fits 1 b /\ val b = 0x7AE96A2B657C07106E64479EAC3434E99CF0497512F58995C1396C28719501EE;
  co_a1 : oA1 o = Some 0x3086D221A7D46BCDE86C90E49284EB15;
  co_b1 : oB1 o = Some (- 0xE4437ED6010E88286F547FA90ABFE4C3);
  co_a2 : oA2 o = Some 0x114CA50F7A8E2F3F657C1108D9D44CFD8;
  co_b2 : oB2 o = Some 0x3086D221A7D46BCDE86C90E49284EB15 }.

(** call [i] of the state has returned, has passed on a panic, is inside initS256 *)
Definition returned (s : state) (i : nat) : Prop := nth_error (calls s) i = Some (End false).
Definition panicked (s : state) (i : nat) : Prop := nth_error (calls s) i = Some (End true).
Definition inside (s : state) (i : nat) : Prop := exists rest, nth_error (calls s) i = Some (Body rest).
Definition ended (s : state) (i : nat) : Prop := returned s i \/ panicked s i.
(** a run in which every step named by the schedule is made *)
Fixpoint moves (body : list stmt) (schedule : list nat) (s : state) : option state :=
  match schedule with
  | [] => Some s
  | i :: r => match stepCall body i s with Some s' => moves body r s' | None => None end
  end.
