(** * Specification: HMAC (RFC 2104) and the nonces of RFC 6979, section 3.2, for a hash
    of 32-byte results over 64-byte blocks and the group order of secp256k1

    Written without reference to the model of the code. *)
From Coq Require Import ZArith List Bool.
From Verif Require Import Go Wire Big Spec SpecZk SpecBtc.
Import ListNotations.
Open Scope Z_scope.

Section rfc.
Context (H : list Z -> list Z).

(** the key as one block: hashed if it is longer, then filled up with zero bytes *)
Definition hmac_block (key : list Z) : list Z :=
  let k := if Nat.ltb 64 (length key) then H key else key in k ++ repeat 0 (64 - length k).
Definition HMAC (key msg : list Z) : list Z :=
  H (map (Z.lxor 0x5c) (hmac_block key) ++ H (map (Z.lxor 0x36) (hmac_block key) ++ msg)).

(** step h: [rfc_search K V k]: from the state (K, V), [k] is the first candidate in
    1 .. N-1 *)
Inductive rfc_search : list Z -> list Z -> Z -> Prop :=
| rfc_found K V : 1 <= beval (HMAC K V) <= N - 1 -> rfc_search K V (beval (HMAC K V))
| rfc_next K V k : ~ 1 <= beval (HMAC K V) <= N - 1 ->
    let V' := HMAC K V in let K' := HMAC K (V' ++ [0]) in
    rfc_search K' (HMAC K' V') k -> rfc_search K V k.

(** steps b to g: [k] is the nonce for the private key [x] and the number [e] of the digest *)
Definition rfc6979 (x e k : Z) : Prop :=
  let m := be32 x ++ be32 (e mod N) in
  let V0 := repeat 1 32 in
  let K0 := repeat 0 32 in
  let K1 := HMAC K0 (V0 ++ [0] ++ m) in
  let V1 := HMAC K1 V0 in
  let K2 := HMAC K1 (V1 ++ [1] ++ m) in
  let V2 := HMAC K2 V1 in
  rfc_search K2 V2 k.
End rfc.

(** ECDSA signing (SEC 1, 4.1.3) with the private key [x] and the nonce [k]: R and S
    before S is made low *)
Definition ecdsa_r (k : Z) : Z := fst (smul k G) mod N.
Definition ecdsa_s (x e k : Z) : Z := ninv k * (e + ecdsa_r k * x) mod N.
