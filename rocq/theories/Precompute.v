(** * Model of /repo/btcec/gensecp256k1.go and /repo/btcec/precompute.go

    The generator of the byte-point tables (run by genprecomps.go) and the loader that
    unpacks them when the package starts.  The bytes of a table travel through
    compress/zlib and encoding/base64; those two packages of the Go standard library are
    not modelled, their composition is the parameter [decode]. *)
From Coq Require Import ZArith List Bool.
From Verif Require Import Go Wire Big Spec Field Koblitz PubKey.
Import ListNotations.
Open Scope Z_scope.

(** ** gensecp256k1.go *)

(** l.35-39 (and l.69-73): the loop of getDoublingPoints; [n] more points from [p] on *)
Fixpoint doublings (n : nat) (p : jpt) : list jpt :=
  match n with
  | Datatypes.O => []
  | S m => p :: doublings m (doubleJacobian p)
  end.
(** l.29-41 getDoublingPoints, for the base point [B] in affine coordinates *)
Definition getDoublingPoints (B : point) : R (list jpt) :=
  bind (bigAffineToField (fst B) (snd B)) (fun '(px, py) =>
  Ok (doublings (Z.to_nat curveBitSize) (px, py, fSetInt 1))).
(** l.49-62: the base point of the second table.  PutUint32(.., 2) leaves 2, 0, 0, 0 in
    the first four bytes and the loop overwrites all but the first.  While the generator
    runs the curve object has no tables. *)
Definition genH (sha256 : list Z -> list Z) : R (ret point) :=
  ParsePubKey (S256 [] []) (2 :: sha256 (bigBytes (curveGx + 2))).
(** l.48-75 getDoublingPointsH; log.Fatalf ends the program, here a Panic *)
Definition getDoublingPointsH (sha256 : list Z -> list Z) : R (list jpt) :=
  bind (genH sha256) (fun r => match r with Fail _ => Panic | Val gen2 => getDoublingPoints gen2 end).

(** l.93-99: the sum for the bits [j], [j+1], ... of [i], one per computing point, and
    the computing points as addJacobian leaves them *)
Fixpoint windowSum (cps : list jpt) (i j : Z) (acc : jpt) : jpt * list jpt :=
  match cps with
  | [] => (acc, [])
  | cp :: r =>
      if Z.land (Z.shiftr i j) 1 =? 1 then
        let '(s, cp') := addJacobian acc cp in
        let '(res, r') := windowSum r i (j + 1) s in (res, cp' :: r')
      else
        let '(res, r') := windowSum r i (j + 1) acc in (res, cp :: r')
  end.
(** l.92-112: [n] more entries of a window, from entry [i] on *)
Fixpoint window (n : nat) (i : Z) (cps : list jpt) : list jpt :=
  match n with
  | Datatypes.O => []
  | S m => let '(p, cps') := windowSum cps i 0 (fZero, fZero, fZero) in p :: window m (i + 1) cps'
  end.
(** l.100-111: the words of one entry, PutUint32 each *)
Definition fieldWords (f : fieldVal) : list Z :=
  [n0 f; n1 f; n2 f; n3 f; n4 f; n5 f; n6 f; n7 f; n8 f; n9 f].
Definition putField (f : fieldVal) : list Z := flat_map le32 (fieldWords f).
Definition putPoint (p : jpt) : list Z := let '(x, y, z) := p in putField x ++ putField y ++ putField z.
(** l.86-113: the window of byte [byteNum]; the slice doublingPoints[startingBit :
    startingBit+8] is not used by any other window *)
Definition byteWindow (dp : list jpt) (byteNum : nat) : list jpt :=
  let startingBit := 8 * (byteSize - Z.of_nat byteNum - 1) in
  window 256 0 (firstn 8 (skipn (Z.to_nat startingBit) dp)).
Definition serializeWindows (dp : list jpt) : list Z :=
  flat_map (fun byteNum => flat_map putPoint (byteWindow dp byteNum)) (seq 0 (Z.to_nat byteSize)).
(** l.80-116 SerializedBytePoints *)
Definition SerializedBytePoints : R (list Z) :=
  bind (getDoublingPoints (curveGx, curveGy)) (fun dp => Ok (serializeWindows dp)).
(** l.121-157 SerializedBytePointsH *)
Definition SerializedBytePointsH (sha256 : list Z -> list Z) : R (list Z) :=
  bind (getDoublingPointsH sha256) (fun dp => Ok (serializeWindows dp)).

(** l.162-179 sqrt.  The loop has no bound in the code; [fuel] is the number of rounds
    allowed, and running out of it is [Ok None].  Div panics on a zero divisor.  BitLen
    of a positive number is its binary logarithm plus one. *)
Definition bigBitLen (n : Z) : Z := if n =? 0 then 0 else Z.log2 (Z.abs n) + 1.
Definition bigDivE (a b : Z) : R Z := if b =? 0 then Panic else Ok (a / b).
Fixpoint sqrtLoop (fuel : nat) (n guess : Z) : R (option Z) :=
  match fuel with
  | Datatypes.O => Ok None
  | S m =>
      let prevGuess := guess in
      bind (bigDivE n guess) (fun d =>
      let guess := (guess + d) / 2 in
      if guess =? prevGuess then Ok (Some guess) else sqrtLoop m n guess)
  end.
Definition sqrt (fuel : nat) (n : Z) : R (option Z) := sqrtLoop fuel n (2 ^ (bigBitLen n / 2)).

(** l.203-277: the variables the loop of EndomorphismVectors carries *)
Record evst := { eU : Z; eV : Z; eX1 : Z; eX2 : Z; eY1 : Z; eY2 : Z; eRi : Z; eTi : Z;
                 eFound : bool; eOneMore : bool; eA1 : Z; eB1 : Z; eA2 : Z; eB2 : Z }.
(** l.204-277: [fuel] rounds at most.  u is positive whenever it is not zero (the values
    are remainders), so Div is floor division. *)
Fixpoint evLoop (fuel : nat) (nSqrt : Z) (s : evst) : option (Z * Z * Z * Z) :=
  if eU s =? 0 then Some (eA1 s, eB1 s, eA2 s, eB2 s)
  else match fuel with
  | Datatypes.O => None
  | S m =>
      let q := eV s / eU s in
      let r := eV s - q * eU s in
      let s' := eX2 s - q * eX1 s in
      let t := eY2 s - q * eY1 s in
      let step ri ti found oneMore a1 b1 :=
        {| eU := r; eV := eU s; eX1 := s'; eX2 := eX1 s; eY1 := t; eY2 := eY1 s; eRi := ri; eTi := ti;
           eFound := found; eOneMore := oneMore; eA1 := a1; eB1 := b1; eA2 := eA2 s; eB2 := eB2 s |} in
      if negb (eFound s) && (r <? nSqrt) then
        evLoop m nSqrt (step (eRi s) (eTi s) true true r (- t))
      else if eOneMore s then
        let sum1 := eRi s * eRi s + eTi s * eTi s in
        let sum2 := r * r + t * t in
        if sum1 <=? sum2 then Some (eA1 s, eB1 s, eRi s, - eTi s)
        else Some (eA1 s, eB1 s, r, - t)
      else evLoop m nSqrt (step r t (eFound s) (eOneMore s) (eA1 s) (eB1 s))
  end.
(** l.187-280 EndomorphismVectors, for the order [N] and the eigenvalue [lambda] *)
Definition EndomorphismVectors (fuel : nat) (N lambda : Z) : R (option (Z * Z * Z * Z)) :=
  bind (sqrt fuel N) (fun o => match o with
  | None => Ok None
  | Some nSqrt =>
      Ok (evLoop fuel nSqrt
        {| eU := N; eV := lambda; eX1 := 1; eX2 := 0; eY1 := 0; eY2 := 1; eRi := 0; eTi := 0;
           eFound := false; eOneMore := false; eA1 := 0; eB1 := 0; eA2 := 0; eB2 := 0 |})
  end).

(** ** precompute.go *)

(** l.52: binary.LittleEndian.Uint32(serialized[offset:]), [s] being serialized[offset:];
    it panics when fewer than four bytes are left *)
Definition getUint32 (s : list Z) : R (Z * list Z) :=
  match s with
  | a :: b :: c :: d :: r => Ok (leval [a; b; c; d], r)
  | _ => Panic
  end.
(** l.51-54: ten words into a field value *)
Fixpoint getWords (n : nat) (s : list Z) : R (list Z * list Z) :=
  match n with
  | Datatypes.O => Ok ([], s)
  | S m => bind (getUint32 s) (fun '(w, s) => bind (getWords m s) (fun '(ws, s) => Ok (w :: ws, s)))
  end.
Definition ofWords (w : list Z) : fieldVal :=
  FV (nth 0 w 0) (nth 1 w 0) (nth 2 w 0) (nth 3 w 0) (nth 4 w 0)
     (nth 5 w 0) (nth 6 w 0) (nth 7 w 0) (nth 8 w 0) (nth 9 w 0).
Definition getField (s : list Z) : R (fieldVal * list Z) :=
  bind (getWords 10 s) (fun '(w, s) => Ok (ofWords w, s)).
(** l.48-62: one entry *)
Definition getPoint (s : list Z) : R (jpt * list Z) :=
  bind (getField s) (fun '(x, s) =>
  bind (getField s) (fun '(y, s) =>
  bind (getField s) (fun '(z, s) => Ok (x, y, z, s)))).
(** l.47-63: the [n] entries of a window *)
Fixpoint getWindow (n : nat) (s : list Z) : R (list jpt * list Z) :=
  match n with
  | Datatypes.O => Ok ([], s)
  | S m => bind (getPoint s) (fun '(p, s) => bind (getWindow m s) (fun '(ps, s) => Ok (p :: ps, s)))
  end.
(** l.45-64: [n] windows *)
Fixpoint getTable (n : nat) (s : list Z) : R (table * list Z) :=
  match n with
  | Datatypes.O => Ok ([], s)
  | S m => bind (getWindow 256 s) (fun '(row, s) => bind (getTable m s) (fun '(t, s) => Ok (row :: t, s)))
  end.
(** l.23-67 loadS256BytePoints, l.69-113 loadS256BytePointsH.  [bp] is the text embedded in
    the program, [decode] what base64 and zlib make of it ([None]: an error).  The result
    is the new value of the table, [None] where it is left nil, or the error.  Bytes after
    the last entry are not looked at. *)
Inductive loadret := Loaded (t : option table) | LoadErr.
Definition loadBytePoints (decode : list Z -> option (list Z)) (bp : list Z) : R loadret :=
  match bp with
  | [] => Ok (Loaded None)
  | _ =>
      match decode bp with
      | None => Ok LoadErr
      | Some serialized => bind (getTable 32 serialized) (fun '(t, _) => Ok (Loaded (Some t)))
      end
  end.
(** a table that was left nil: any access to it panics, as in an empty one *)
Definition tableOf (t : option table) : table := match t with Some t => t | None => [] end.
(** btcec.go l.932-987: initS256 and S256, with the two embedded texts; an error while
    loading panics *)
Definition startS256 (decode : list Z -> option (list Z)) (bp bpH : list Z) : R curve :=
  bind (loadBytePoints decode bp) (fun r => match r with
  | LoadErr => Panic
  | Loaded t =>
      bind (loadBytePoints decode bpH) (fun rH => match rH with
      | LoadErr => Panic
      | Loaded tH => Ok (S256 (tableOf t) (tableOf tH))
      end)
  end).
