(** * Specification: the Bitcoin variable-length integer, written independently
      of the code *)
From Coq Require Import ZArith List.
Import ListNotations.
Open Scope Z_scope.

(** [n] bytes of [v], least significant first *)
Fixpoint le_bytes (n : nat) (v : Z) : list Z :=
  match n with 0%nat => [] | S n' => v mod 256 :: le_bytes n' (v / 256) end.

(** the shortest encoding of an unsigned 64-bit integer *)
Definition varint (v : Z) : list Z :=
  if v <? 253 then [v]
  else if v <? 2 ^ 16 then 253 :: le_bytes 2 v
  else if v <? 2 ^ 32 then 254 :: le_bytes 4 v
  else 255 :: le_bytes 8 v.

(** a byte string preceded by its length *)
Definition varbytes (bs : list Z) : list Z := varint (Z.of_nat (length bs)) ++ bs.

Definition uint64 (v : Z) : Prop := 0 <= v < 2 ^ 64.

(** [p] is an initial part of [s] *)
Definition prefix (p s : list Z) : Prop := exists t, s = p ++ t.
