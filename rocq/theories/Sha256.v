(** * SHA-256 (FIPS 180-4), the function crypto/sha256 computes

    Not a model of a file of /repo: it fixes the one digest the package computes at
    start-up.  Theorems about proofs quantify over every hash function instead. *)
From Coq Require Import ZArith List Bool.
From Verif Require Import Go Big.
Import ListNotations.
Open Scope Z_scope.

Definition w32 (x : Z) : Z := Z.land x 0xffffffff.
Definition rotr (n x : Z) : Z := Z.lor (Z.shiftr x n) (w32 (Z.shiftl x (32 - n))).
Definition Ktab : list Z := [0x428a2f98; 0x71374491; 0xb5c0fbcf; 0xe9b5dba5; 0x3956c25b; 0x59f111f1; 0x923f82a4; 0xab1c5ed5; 0xd807aa98; 0x12835b01; 0x243185be; 0x550c7dc3; 0x72be5d74; 0x80deb1fe; 0x9bdc06a7; 0xc19bf174; 0xe49b69c1; 0xefbe4786; 0xfc19dc6; 0x240ca1cc; 0x2de92c6f; 0x4a7484aa; 0x5cb0a9dc; 0x76f988da; 0x983e5152; 0xa831c66d; 0xb00327c8; 0xbf597fc7; 0xc6e00bf3; 0xd5a79147; 0x6ca6351; 0x14292967; 0x27b70a85; 0x2e1b2138; 0x4d2c6dfc; 0x53380d13; 0x650a7354; 0x766a0abb; 0x81c2c92e; 0x92722c85; 0xa2bfe8a1; 0xa81a664b; 0xc24b8b70; 0xc76c51a3; 0xd192e819; 0xd6990624; 0xf40e3585; 0x106aa070; 0x19a4c116; 0x1e376c08; 0x2748774c; 0x34b0bcb5; 0x391c0cb3; 0x4ed8aa4a; 0x5b9cca4f; 0x682e6ff3; 0x748f82ee; 0x78a5636f; 0x84c87814; 0x8cc70208; 0x90befffa; 0xa4506ceb; 0xbef9a3f7; 0xc67178f2].
Definition H0tab : list Z := [0x6a09e667; 0xbb67ae85; 0x3c6ef372; 0xa54ff53a; 0x510e527f; 0x9b05688c; 0x1f83d9ab; 0x5be0cd19].
Definition sig0 x := Z.lxor (Z.lxor (rotr 7 x) (rotr 18 x)) (Z.shiftr x 3).
Definition sig1 x := Z.lxor (Z.lxor (rotr 17 x) (rotr 19 x)) (Z.shiftr x 10).
Definition Sig0 x := Z.lxor (Z.lxor (rotr 2 x) (rotr 13 x)) (rotr 22 x).
Definition Sig1 x := Z.lxor (Z.lxor (rotr 6 x) (rotr 11 x)) (rotr 25 x).
Definition Chf x y z := Z.lxor (Z.land x y) (Z.land (Z.lxor x 0xffffffff) z).
Definition Maj x y z := Z.lxor (Z.lxor (Z.land x y) (Z.land x z)) (Z.land y z).

(** big-endian words *)
Fixpoint words (bs : list Z) : list Z :=
  match bs with
  | a :: b :: c :: d :: t => ((a * 256 + b) * 256 + c) * 256 + d :: words t
  | _ => []
  end.
(** message schedule: the last 16 words, most recent first *)
Fixpoint sched (n : nat) (win : list Z) : list Z :=
  match n with
  | 0%nat => []
  | S n' =>
      let w := w32 (sig1 (nth 1 win 0) + nth 6 win 0 + sig0 (nth 14 win 0) + nth 15 win 0) in
      w :: sched n' (w :: firstn 15 win)
  end.
Definition round (st : list Z) (kw : Z * Z) : list Z :=
  match st with
  | [a; b; c; d; e; f; g; h] =>
      let t1 := h + Sig1 e + Chf e f g + fst kw + snd kw in
      let t2 := Sig0 a + Maj a b c in
      [w32 (t1 + t2); a; b; c; w32 (d + t1); e; f; g]
  | _ => []
  end.
Definition compress (H : list Z) (block : list Z) : list Z :=
  let w := words block in
  let W := w ++ sched 48 (rev w) in
  map (fun p => w32 (fst p + snd p)) (combine H (fold_left round (combine Ktab W) H)).
Fixpoint blocks (n : nat) (H : list Z) (bs : list Z) : list Z :=
  match n with 0%nat => H | S n' => blocks n' (compress H (firstn 64 bs)) (skipn 64 bs) end.
Definition pad (bs : list Z) : list Z :=
  let l := blen bs in
  bs ++ 0x80 :: repeat 0 (Z.to_nat ((55 - l) mod 64)) ++ be_bytes 8 (8 * l).
Definition sha256 (bs : list Z) : list Z :=
  let p := pad bs in
  concat (map (be_bytes 4) (blocks (Nat.div (length p) 64) H0tab p)).

(** FIPS test vectors *)
Example sha256_empty : sha256 [] = [227; 176; 196; 66; 152; 252; 28; 20; 154; 251; 244; 200; 153; 111; 185; 36; 39; 174; 65; 228; 100; 155; 147; 76; 164; 149; 153; 27; 120; 82; 184; 85].
Proof. vm_compute. reflexivity. Qed.
Example sha256_abc : sha256 [97; 98; 99] = [186; 120; 22; 191; 143; 1; 207; 234; 65; 65; 64; 222; 93; 174; 34; 35; 176; 3; 97; 163; 150; 23; 122; 156; 180; 16; 255; 97; 242; 0; 21; 173].
Proof. vm_compute. reflexivity. Qed.
