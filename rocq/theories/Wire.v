(** * Model of /repo/wire/common.go

    The scratch buffers of the serializer free list are modelled separately, in
    FreeList.v, as a concurrent transition system; here Uint8..PutUint64 are the
    functions a caller observes, and FreeList.v proves that every interleaving
    gives exactly these results. *)
From Coq Require Import ZArith List Bool.
From Verif Require Import Go.
Import ListNotations.
Open Scope Z_scope.

(** binary.LittleEndian / BigEndian of the Go standard library. *)
Definition le16 (v : Z) : list Z := [v mod 256; (v / 2^8) mod 256].
Definition le32 (v : Z) : list Z := [v mod 256; (v / 2^8) mod 256; (v / 2^16) mod 256; (v / 2^24) mod 256].
Definition le64 (v : Z) : list Z :=
  [v mod 256; (v / 2^8) mod 256; (v / 2^16) mod 256; (v / 2^24) mod 256;
   (v / 2^32) mod 256; (v / 2^40) mod 256; (v / 2^48) mod 256; (v / 2^56) mod 256].
Fixpoint leval (bs : list Z) : Z := match bs with [] => 0 | b :: t => b + 256 * leval t end.
Definition beval (bs : list Z) : Z := fold_left (fun a b => a * 256 + b) bs 0.

(** wire/common.go l.71-80 (binaryFreeList).Uint8 *)
Definition Uint8 (s : list Z) : rd Z :=
  rbind (readFull 1 s) (fun b s' => ROk (nth 0 b 0) s').
(** wire/common.go l.85-94 Uint16, little endian (the only order used with it) *)
Definition Uint16 (s : list Z) : rd Z := rbind (readFull 2 s) (fun b s' => ROk (leval b) s').
(** wire/common.go l.99-108 Uint32 *)
Definition Uint32 (s : list Z) : rd Z := rbind (readFull 4 s) (fun b s' => ROk (leval b) s').
(** wire/common.go l.113-122 Uint64, little endian; [Uint64be] big endian *)
Definition Uint64 (s : list Z) : rd Z := rbind (readFull 8 s) (fun b s' => ROk (leval b) s').
Definition Uint64be (s : list Z) : rd Z := rbind (readFull 8 s) (fun b s' => ROk (beval b) s').

(** wire/common.go l.126-132 PutUint8 (the argument is already a uint8) *)
Definition PutUint8 (w : writer) (v : Z) : writer * bool := wwrite w [v].
(** wire/common.go l.137-143 PutUint16 *)
Definition PutUint16 (w : writer) (v : Z) : writer * bool := wwrite w (le16 v).
(** wire/common.go l.148-154 PutUint32 *)
Definition PutUint32 (w : writer) (v : Z) : writer * bool := wwrite w (le32 v).
(** wire/common.go l.159-165 PutUint64 *)
Definition PutUint64 (w : writer) (v : Z) : writer * bool := wwrite w (le64 v).

(** wire/common.go l.172-227 ReadVarInt *)
Definition ReadVarInt (s : list Z) : rd Z :=
  rbind (Uint8 s) (fun d s1 =>
    if d =? 0xff then
      rbind (Uint64 s1) (fun rv s2 => if rv <? 0x100000000 then RErr ENonCanonical s2 else ROk rv s2)
    else if d =? 0xfe then
      rbind (Uint32 s1) (fun rv s2 => if rv <? 0x10000 then RErr ENonCanonical s2 else ROk rv s2)
    else if d =? 0xfd then
      rbind (Uint16 s1) (fun rv s2 => if rv <? 0xfd then RErr ENonCanonical s2 else ROk rv s2)
    else ROk d s1).

(** wire/common.go l.231-257 WriteVarInt ([val] is a uint64; the conversions
    uint8/uint16/uint32 truncate) *)
Definition WriteVarInt (w : writer) (val : Z) : writer * bool :=
  if val <? 0xfd then PutUint8 w (val mod 2^8)
  else if val <=? 65535 then
    let '(w1, e1) := PutUint8 w 0xfd in
    if e1 then (w1, true) else PutUint16 w1 (val mod 2^16)
  else if val <=? 4294967295 then
    let '(w1, e1) := PutUint8 w 0xfe in
    if e1 then (w1, true) else PutUint32 w1 (val mod 2^32)
  else
    let '(w1, e1) := PutUint8 w 0xff in
    if e1 then (w1, true) else PutUint64 w1 val.

(** wire/common.go l.261-280 VarIntSerializeSize *)
Definition VarIntSerializeSize (val : Z) : Z :=
  if val <? 0xfd then 1
  else if val <=? 65535 then 3
  else if val <=? 4294967295 then 5
  else 9.

(** wire/common.go l.289-303 ReadVarBytes.  [maxAllowed] is a parameter of the
    code that its body never mentions. *)
Definition ReadVarBytes (maxAllowed : Z) (s : list Z) : rd (list Z) :=
  rbind (ReadVarInt s) (fun count s1 =>
    if maxAlloc <? count then RPanic
    else readFull count s1).

(** wire/common.go l.307-319 WriteVarBytes *)
Definition WriteVarBytes (w : writer) (bs : list Z) : writer * bool :=
  let '(w1, e1) := WriteVarInt w (blen bs) in
  if e1 then (w1, true)
  else let '(w2, e2) := wwrite w1 bs in
       if e2 then (w2, true) else (w2, false).

(** wire/common.go l.324-330 randomUint64 and l.333-335 RandomUint64: the eight
    bytes come from the reader [s] (rand.Reader in RandomUint64). *)
Definition randomUint64 (s : list Z) : rd Z := Uint64be s.
