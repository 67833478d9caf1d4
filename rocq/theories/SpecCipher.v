(** * Specification for the encryption of btcec

    PKCS#7 padding, CBC chaining over a list of blocks, and the layout of the message,
    written without reference to the model of the code (HMAC excepted: it is RFC 2104,
    written once, in Signature.v). *)
From Coq Require Import ZArith List Bool.
From Verif Require Import Go Wire Big Spec SpecBtc Signature.
Import ListNotations.
Open Scope Z_scope.

(** a block: sixteen bytes *)
Definition block (b : list Z) : Prop := length b = 16%nat /\ bytes_ok b.

(** [E] and [D] are, for every 32-byte key, permutations of the blocks inverse to each
    other; [h] is a hash function with [n]-byte results *)
Definition block_cipher (E D : list Z -> list Z -> list Z) : Prop :=
  forall k b, length k = 32%nat -> block b ->
    block (E k b) /\ block (D k b) /\ D k (E k b) = b /\ E k (D k b) = b.
Definition hash_to (n : nat) (h : list Z -> list Z) : Prop := forall m, length (h m) = n /\ bytes_ok (h m).

(** PKCS#7: k bytes of value k, up to the next multiple of sixteen *)
Definition pkcs7 (m p : list Z) : Prop :=
  exists k, (1 <= k <= 16)%nat /\ p = m ++ repeat (Z.of_nat k) k /\ exists j, length p = (16 * j)%nat.

(** CBC: each block is masked with the previous ciphertext block, the first with the IV *)
Fixpoint xor_blocks (a b : list Z) : list Z :=
  match a, b with x :: a, y :: b => Z.lxor x y :: xor_blocks a b | _, _ => [] end.
Fixpoint cbc (E : list Z -> list Z) (iv : list Z) (blocks : list (list Z)) : list (list Z) :=
  match blocks with [] => [] | b :: bs => let c := E (xor_blocks b iv) in c :: cbc E c bs end.

(** the message: IV, curve 714, the ephemeral public key, the ciphertext, and the MAC
    of everything before it; the keys are the two halves of the hash of the secret *)
Definition ecies_message (sha256 sha512 : list Z -> list Z) (E : list Z -> list Z -> list Z)
    (secret iv : list Z) (eph : point) (blocks : list (list Z)) : list Z :=
  let keyE := firstn 32 (sha512 secret) in
  let keyM := skipn 32 (sha512 secret) in
  let body := iv ++ [0x02; 0xCA; 0; 32] ++ be32 (fst eph) ++ [0; 32] ++ be32 (snd eph) ++
              concat (cbc (E keyE) iv blocks) in
  body ++ hmac sha256 keyM body.
