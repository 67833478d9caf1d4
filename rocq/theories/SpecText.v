(** * Hexadecimal numerals *)
From Coq Require Import String ZArith List.
From Verif Require Import Text.
Import ListNotations.
Open Scope Z_scope.

(** the character [c] is a digit with value [v] *)
Definition digitOf (c : Z) (v : nat) : Prop :=
  nth_error (ascii "0123456789abcdef") v = Some c \/ nth_error (ascii "0123456789ABCDEF") v = Some c.
(** the text [s] is a hexadecimal numeral (perhaps empty) for [n], most significant digit first *)
Definition reads (s : list Z) (n : Z) : Prop :=
  exists vs, Forall2 digitOf s vs /\ n = fold_left (fun a v => 16 * a + Z.of_nat v) vs 0.
(** with an optional sign, and at least one digit *)
Definition readsSigned (s : list Z) (n : Z) : Prop :=
  (s <> [] /\ reads s n) \/
  (exists r v, s = ascii "-" ++ r /\ r <> [] /\ reads r v /\ n = - v) \/
  (exists r, s = ascii "+" ++ r /\ r <> [] /\ reads r n).
