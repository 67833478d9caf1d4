(** * Specification for the public-key part of btcec

    Byte formats of SEC 1 (public keys) and DER (signatures), and the ECDSA relation,
    written without reference to the model of the code. *)
From Coq Require Import ZArith List Bool.
From Verif Require Import Go Wire Big Spec SpecZk.
Import ListNotations.
Open Scope Z_scope.

(** 32 bytes, most significant first *)
Definition be32 (v : Z) : list Z := be_bytes 32 v.

(** the three SEC 1 encodings of a curve point *)
Definition sec_uncompressed (p : point) : list Z := 4 :: be32 (fst p) ++ be32 (snd p).
Definition sec_compressed (p : point) : list Z := (if Z.odd (snd p) then 3 else 2) :: be32 (fst p).
Definition sec_hybrid (p : point) : list Z := (if Z.odd (snd p) then 7 else 6) :: be32 (fst p) ++ be32 (snd p).

(** [b] is the DER content of the non-negative integer [v]: at least one byte, sign
    bit clear, no superfluous leading zero byte *)
Definition der_int (b : list Z) (v : Z) : Prop :=
  bytes_ok b /\ beval b = v /\
  match b with
  | [] => False
  | [b0] => b0 < 128
  | b0 :: b1 :: _ => b0 < 128 /\ (b0 = 0 -> 128 <= b1)
  end.

(** SEQUENCE { INTEGER r, INTEGER s } with one-byte lengths *)
Definition der_seq (rb sb : list Z) : list Z :=
  [0x30; 4 + blen rb + blen sb; 0x02; blen rb] ++ rb ++ [0x02; blen sb] ++ sb.

(** the smaller of s and -s modulo N *)
Definition low (s : Z) : Z := if s <=? N / 2 then s else N - s.

(** the number a digest stands for: its first 32 bytes *)
Definition digest (h : list Z) : Z := beval (firstn 32 h).

(** ECDSA (SEC 1, 4.1.4): [(r,s)] signs the number [e] under the public key [Q] *)
Definition ecdsa_valid (Q : point) (e r s : Z) : Prop :=
  0 < r < N /\ 0 < s < N /\
  let R := padd (smul (e * ninv s) G) (smul (r * ninv s) Q) in
  R <> O /\ fst R mod N = r.
