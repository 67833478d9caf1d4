(** * Specification: what an extractor knows

    From answers [(c, s)] to different challenges for the same first message an
    extractor computes the slopes of the lines through two of them, responses taken
    with either sign: finitely many numbers, computed from the transcripts alone. *)
From Coq Require Import ZArith List.
From Verif Require Import Spec SpecZk.
Import ListNotations.
Open Scope Z_scope.

Definition slopeOf (ts : list (Z * Z)) (x : Z) : Prop :=
  exists e f c s c' s', sgn e /\ sgn f /\ In (c, s) ts /\ In (c', s') ts /\ c mod N <> c' mod N /\ x = slope e f s c s' c'.

(** a quotient modulo N *)
Definition quot (a b : Z) : Z := (a * ninv b) mod N.
