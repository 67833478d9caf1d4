(** * What an error text should say

    A function checks conditions in an order; the text it gives should be the one that
    belongs to the first condition that does not hold. *)
From Coq Require Import String ZArith List Bool.
From Verif Require Import Go Wire Spec Crypto Range PubKey Text Errors.
Import ListNotations.
Open Scope Z_scope.

(** [s] is the number [z] in decimal: a minus sign if it is negative, then its digits
    without leading zeros *)
Definition digitsValue (ds : list Z) : Z := fold_left (fun a d => 10 * a + d) ds 0.
Definition isDecimal (s : list Z) (z : Z) : Prop :=
  exists ds, s = (if z <? 0 then ascii "-" else []) ++ map (fun d => 48 + d) ds /\
    Forall (fun d => 0 <= d <= 9) ds /\ digitsValue ds = Z.abs z /\
    (ds = [0] \/ exists d r, ds = d :: r /\ d <> 0).

(** the text is this line; it is these words with numbers between them *)
Definition says (line : string) (m : list Z) : Prop := m = ascii line ++ [10].
Definition saysNumber (w1 : string) (n1 : Z) (w2 : string) (m : list Z) : Prop :=
  exists s1, isDecimal s1 n1 /\ m = ascii w1 ++ s1 ++ ascii w2 ++ [10].
Definition saysNumbers (w1 : string) (n1 : Z) (w2 : string) (n2 : Z) (m : list Z) : Prop :=
  exists s1 s2, isDecimal s1 n1 /\ isDecimal s2 n2 /\ m = ascii w1 ++ s1 ++ ascii w2 ++ s2 ++ [10].
(** ... without the newline *)
Definition says' (text : string) (m : list Z) : Prop := m = ascii text.
Definition saysNumber' (w1 : string) (n1 : Z) (m : list Z) : Prop := exists s1, isDecimal s1 n1 /\ m = ascii w1 ++ s1.
Definition saysNumbers' (w1 : string) (n1 : Z) (w2 : string) (n2 : Z) (m : list Z) : Prop :=
  exists s1 s2, isDecimal s1 n1 /\ isDecimal s2 n2 /\ m = ascii w1 ++ s1 ++ ascii w2 ++ s2.

(** conditions in the order in which they are checked, each with what is said when it is
    the first that does not hold *)
Definition checks : Type := list (Prop * (list Z -> Prop)).
Inductive firstFailing : checks -> option (list Z) -> Prop :=
| AllHold : firstFailing [] None
| FailsHere : forall (c : Prop) (text : list Z -> Prop) l m, ~ c -> text m -> firstFailing ((c, text) :: l) (Some m)
| HoldsHere : forall (c : Prop) text l r, c -> firstFailing l r -> firstFailing ((c, text) :: l) r.

(** a verifier: true and no error when everything holds, else false and the text *)
Definition reports (r : R (bool * option err)) (l : checks) : Prop :=
  exists e, r = Ok (match e with None => true | Some _ => false end, e) /\ firstFailing l (option_map (Error []) e).
(** a verifier gives this text *)
Definition gives (r : R (bool * option err)) (line : string) : Prop := exists e, r = Ok (false, Some e) /\ says line (Error [] e).
(** a prover: a proof when everything holds, else the text; [source] is the text of the error
    of the random source *)
Definition provesOr {A} (source : list Z) (r : R (option A * option err)) (l : checks) : Prop :=
  exists p e, r = Ok (p, e) /\ (e = None -> exists a, p = Some a) /\ firstFailing l (option_map (Error source) e).
(** a parser of btcec, whose error texts are given by [text] *)
Definition parses {A} (text : berr -> list Z) (r : R (ret A)) (l : checks) : Prop :=
  exists a, r = Ok a /\ firstFailing l (match a with Val _ => None | Fail e => Some (text e) end).

(** the texts forgotten *)
Definition forget {A} (r : R (A * option err)) : R (A * option goerr) :=
  match r with Ok (a, e) => Ok (a, option_map class e) | Panic => Panic end.

(** the entries of a range proof are complete *)
Fixpoint complete (i : Z) (ts : list rangeProofTuple) : checks :=
  match ts with
  | [] => []
  | t :: r =>
      (pX (rtC t) <> None, saysNumber "RangeProof.Verify - entry " i " has nil point") ::
      (rtS t <> None, saysNumber "RangeProof.Verify - entry " i " has nil scalar") :: complete (i + 1) r
  end.

(** a public key as a string of bytes: what has to hold of it.  In compressed form the
    second coordinate is determined by the first and a bit, so two of the messages are
    never given. *)
Definition pubKeyChecks (s : list Z) : checks :=
  let len := Z.of_nat (length s) in
  let b0 := nth 0 s 0 in
  let x := beval (firstn 32 (skipn 1 s)) in
  let y := beval (skipn 33 s) in
  (s <> [], says' "pubkey string is empty") ::
  (len = 33 \/ len = 65, saysNumber' "invalid pub key length " len) ::
  if len =? 65 then
    [(4 <= b0 <= 7, saysNumber' "invalid magic in pubkey str: " b0);
     ((b0 = 6 -> Z.Even y) /\ (b0 = 7 -> Z.Odd y), says' "ybit doesn't match oddness");
     (x < P, says' "pubkey X parameter is >= to P");
     (y < P, says' "pubkey Y parameter is >= to P");
     (on_curve (x, y), says' "pubkey isn't on secp256k1 curve")]
  else
    [(2 <= b0 <= 3, saysNumber' "invalid magic in compressed pubkey string: " b0);
     (x < P, says' "pubkey X parameter is >= to P");
     (exists y, on_curve (x, y), says' "pubkey isn't on secp256k1 curve")].

(** a signature as a string of bytes: 0x30 <length> 0x02 <length of R> <R> 0x02 <length of S> <S>;
    the length in byte 1 counts what follows it, and what is behind that is not looked at *)
Definition signatureChecks (s : list Z) (der : bool) : checks :=
  let at_ i := nth (Z.to_nat i) s 0 in
  let len := Z.of_nat (length s) in
  let n := (at_ 1 + 2) mod 256 in
  let r := at_ 3 in
  let t := at_ (5 + r) in
  let R := beval (firstn (Z.to_nat r) (skipn 4 s)) in
  let S := beval (firstn (Z.to_nat t) (skipn (Z.to_nat (6 + r)) s)) in
  [(8 <= len, says' "malformed signature: too short");
   (at_ 0 = 0x30, says' "malformed signature: no header magic");
   (n <= len, says' "malformed signature: bad length");
   (at_ 2 = 2, says' "malformed signature: no 1st int marker");
   (1 <= r <= n - 7, says' "malformed signature: bogus R length");
   (der = true -> at_ 4 < 128, says' "signature R is negative");
   (der = true -> r = 1 \/ at_ 4 <> 0 \/ 128 <= at_ 5, says' "signature R is excessively padded");
   (at_ (4 + r) = 2, says' "malformed signature: no 2nd int marker");
   (1 <= t <= n - r - 6, says' "malformed signature: bogus S length");
   (der = true -> at_ (6 + r) < 128, says' "signature S is negative");
   (der = true -> t = 1 \/ at_ (6 + r) <> 0 \/ 128 <= at_ (7 + r), says' "signature S is excessively padded");
   (6 + r + t = n, saysNumbers' "malformed signature: bad final length " (6 + r + t) " != " n);
   (1 <= R, says' "signature R isn't 1 or more");
   (1 <= S, says' "signature S isn't 1 or more");
   (R < N, says' "signature R is >= curve.N");
   (S < N, says' "signature S is >= curve.N")].
