(** * What Decrypt, RecoverCompact and ReadVarInt should check, and say *)
From Coq Require Import String ZArith List Bool.
From Verif Require Import Go Wire Big Spec PubKey Signature Text Errors SpecErrors.
Import ListNotations.
Open Scope Z_scope.

(** [n] bytes from position [i] on *)
Definition part (i n : nat) (s : list Z) : list Z := firstn n (skipn i s).

(** A message to be decrypted: 16 bytes of IV, curve number, length and value of both
    coordinates of the sender's point, whole blocks (at least one), and a MAC of 32 bytes. *)
Definition senderPoint (inp : list Z) : point := (beval (part 20 32 inp), beval (part 54 32 inp)).
(** the hash of the secret shared with the sender by the holder of [d] *)
Definition sharedKeys (sha512 : list Z -> list Z) (d : Z) (inp : list Z) : list Z := sha512 (bigBytes (fst (smul d (senderPoint inp)))).
(** the MAC is that of everything before it *)
Definition macRight (sha256 sha512 : list Z -> list Z) (d : Z) (inp : list Z) : Prop :=
  let n := (length inp - 32)%nat in skipn n inp = hmac sha256 (skipn 32 (sharedKeys sha512 d inp)) (firstn n inp).
(** the last byte of the text: the last block decrypted and masked with the block before it,
    which is the IV if there is one block only *)
Definition lastByte (sha512 : list Z -> list Z) (D : list Z -> list Z -> list Z) (d : Z) (inp : list Z) : Z :=
  let n := length inp in
  let before := if (n =? 134)%nat then firstn 16 inp else part (n - 64) 16 inp in
  Z.lxor (last (D (firstn 32 (sharedKeys sha512 d inp)) (part (n - 48) 16 inp)) 0) (last before 0).

Definition decryptChecks (sha256 sha512 : list Z -> list Z) (D : list Z -> list Z -> list Z) (d : Z) (inp : list Z) : checks :=
  let len := Z.of_nat (length inp) in
  [(134 <= len, says' "ciphertext too short");
   (part 16 2 inp = [0x02; 0xCA], says' "unsupported curve");
   (part 18 2 inp = [0; 32], says' "invalid X length, must be 32");
   (part 52 2 inp = [0; 32], says' "invalid Y length, must be 32");
   (fst (senderPoint inp) < P, says' "pubkey X parameter is >= to P");
   (snd (senderPoint inp) < P, says' "pubkey Y parameter is >= to P");
   (on_curve (senderPoint inp), says' "pubkey isn't on secp256k1 curve");
   ((len - 134) mod 16 = 0, says' "invalid PKCS#7 padding");
   (macRight sha256 sha512 d inp, says' "invalid mac hash");
   (lastByte sha512 D d inp <= 16, says' "invalid PKCS#7 padding")].

(** A compact signature: 65 bytes; the header and R determine the x coordinate of a point. *)
Definition compactChecks (bs : list Z) : checks :=
  let iteration := Z.land ((nth 0 bs 0 - 27) mod 256) 0xfb in
  [(length bs = 65%nat, says' "invalid compact signature size");
   (N * (iteration / 2) + beval (part 1 32 bs) < P, says' "calculated Rx is larger than curve P")].

(** A varint: the first byte tells how many little-endian bytes follow and how big the
    number must be at least. *)
Definition varIntShape (d : Z) : nat * Z :=
  if d =? 0xff then (8%nat, 2 ^ 32) else if d =? 0xfe then (4%nat, 2 ^ 16) else if d =? 0xfd then (2%nat, 253) else (0%nat, 0).
Definition saysThree (w : string) (a b c : Z) (m : list Z) : Prop :=
  exists sa sb sc, isDecimal sa a /\ isDecimal sb b /\ isDecimal sc c /\ m = ascii w ++ sa ++ ascii " " ++ sb ++ ascii " " ++ sc.
Definition varIntChecks (s : list Z) : checks :=
  let d := nth 0 s 0 in
  let '(n, min) := varIntShape d in
  let v := leval (part 1 n s) in
  [(s <> [], says' "EOF");
   (n <> 0%nat -> skipn 1 s <> [], says' "EOF");
   ((1 + n <= length s)%nat, says' "unexpected EOF");
   (n <> 0%nat -> min <= v, saysThree "ReadVarInt: errNonCanonicalVarInt: " v d min)].
(** a reader gives a value or an error with its text *)
Definition readsOr {A} (text : rerr -> list Z) (r : rd A) (l : checks) : Prop :=
  match r with
  | ROk _ _ => firstFailing l None
  | RErr e _ => firstFailing l (Some (text e))
  | RPanic => False
  end.
