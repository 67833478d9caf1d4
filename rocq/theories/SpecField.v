(** * What a vector of ten words means (specification of field.go) *)
From Coq Require Import ZArith List.
From Verif Require Import Spec Field.
Open Scope Z_scope.

(** the integer a field value stands for: word i has weight 2^(26 i) *)
Definition val (f : fieldVal) : Z :=
  n0 f + n1 f * 2 ^ 26 + n2 f * 2 ^ 52 + n3 f * 2 ^ 78 + n4 f * 2 ^ 104 + n5 f * 2 ^ 130
  + n6 f * 2 ^ 156 + n7 f * 2 ^ 182 + n8 f * 2 ^ 208 + n9 f * 2 ^ 234.

(** magnitude at most [k]: no word exceeds [k] times what one multiplication leaves
    behind (26 bits, and 2^19 more for the last carry; 22 bits for the top word) *)
Definition fits (k : Z) (f : fieldVal) : Prop :=
  (0 <= n0 f <= k * (2 ^ 26 + 2 ^ 19)) /\ (0 <= n1 f <= k * (2 ^ 26 + 2 ^ 19)) /\
  (0 <= n2 f <= k * (2 ^ 26 + 2 ^ 19)) /\ (0 <= n3 f <= k * (2 ^ 26 + 2 ^ 19)) /\
  (0 <= n4 f <= k * (2 ^ 26 + 2 ^ 19)) /\ (0 <= n5 f <= k * (2 ^ 26 + 2 ^ 19)) /\
  (0 <= n6 f <= k * (2 ^ 26 + 2 ^ 19)) /\ (0 <= n7 f <= k * (2 ^ 26 + 2 ^ 19)) /\
  (0 <= n8 f <= k * (2 ^ 26 + 2 ^ 19)) /\ (0 <= n9 f <= k * 2 ^ 22).

(** the canonical form: 26-bit words, 22-bit top word, value below P *)
Definition canonical (f : fieldVal) : Prop :=
  (0 <= n0 f < 2 ^ 26) /\ (0 <= n1 f < 2 ^ 26) /\ (0 <= n2 f < 2 ^ 26) /\ (0 <= n3 f < 2 ^ 26) /\
  (0 <= n4 f < 2 ^ 26) /\ (0 <= n5 f < 2 ^ 26) /\ (0 <= n6 f < 2 ^ 26) /\ (0 <= n7 f < 2 ^ 26) /\
  (0 <= n8 f < 2 ^ 26) /\ (0 <= n9 f < 2 ^ 22) /\ val f < P.
