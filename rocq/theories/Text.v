(** * Numbers and tables as text: fieldVal.String and SetHex, fromHex, and genprecomps.go

    A text is the list of its bytes; [ascii] turns a literal into that list. *)
From Coq Require Import String Ascii ZArith List Bool.
From Verif Require Import Go Wire Big Field Koblitz Precompute.
Import ListNotations.
Open Scope Z_scope.

Fixpoint ascii (s : string) : list Z :=
  match s with EmptyString => [] | String c r => Z.of_N (N_of_ascii c) :: ascii r end.

(** ** encoding/hex and math/big, as documented *)

(** a hexadecimal digit, upper or lower case *)
Definition hexVal (c : Z) : option Z :=
  if (48 <=? c) && (c <=? 57) then Some (c - 48)
  else if (97 <=? c) && (c <=? 102) then Some (c - 87)
  else if (65 <=? c) && (c <=? 70) then Some (c - 55)
  else None.
Definition hexDigit (v : Z) : Z := if v <? 10 then 48 + v else 87 + v.
(** hex.DecodeString: the bytes before the first pair that is not two digits, and whether
    there was such a pair *)
Fixpoint hexDecode (s : list Z) : list Z * bool :=
  match s with
  | a :: b :: r =>
      match hexVal a, hexVal b with
      | Some x, Some y => let '(bs, ok) := hexDecode r in (16 * x + y :: bs, ok)
      | _, _ => ([], false)
      end
  | [] => ([], true)
  | [_] => ([], false)
  end.
(** hex.EncodeToString *)
Definition hexEncode (bs : list Z) : list Z := flat_map (fun b => [hexDigit (b / 16); hexDigit (b mod 16)]) bs.
(** the digits of big.Int.SetString(s, 16) after the sign *)
Fixpoint hexNumber (acc : Z) (s : list Z) : option Z :=
  match s with
  | [] => Some acc
  | c :: r => match hexVal c with Some v => hexNumber (16 * acc + v) r | None => None end
  end.
Definition hexDigits (s : list Z) : option Z := match s with [] => None | _ => hexNumber 0 s end.
(** big.Int.SetString(s, 16) *)
Definition bigSetHex (s : list Z) : option Z :=
  match s with
  | 45 :: r => match hexDigits r with Some v => Some (- v) | None => None end
  | 43 :: r => hexDigits r
  | _ => hexDigits s
  end.
(** %x of a *big.Int: the digits of the absolute value without leading zeros, least first *)
Fixpoint hexRev (fuel : nat) (n : Z) : list Z :=
  match fuel with
  | 0%nat => []
  | S f => if n <? 16 then [hexDigit n] else hexDigit (n mod 16) :: hexRev f (n / 16)
  end.
Definition bigHex (n : Z) : list Z :=
  let d := rev (hexRev (Z.to_nat (Z.log2 (Z.abs n)) + 1) (Z.abs n)) in
  if n <? 0 then 45 :: d else d.

(** ** field.go *)
(** l.139-143 String *)
Definition fString (f : fieldVal) : list Z := hexEncode (fBytes (fNormalize f)).
(** l.237-243 SetHex; the error of DecodeString is dropped *)
Definition fSetHex (s : list Z) : R fieldVal :=
  let s := if Nat.odd (length s) then 48 :: s else s in
  let '(bs, _) := hexDecode s in fSetByteSlice bs.

(** ** btcec.go *)
(** l.923-929 fromHex *)
Definition fromHex (s : list Z) : R Z := match bigSetHex s with Some r => Ok r | None => Panic end.

(** ** encoding/base64, StdEncoding *)
Definition b64Char (v : Z) : Z :=
  if v <? 26 then 65 + v else if v <? 52 then 71 + v else if v <? 62 then v - 4 else if v =? 62 then 43 else 47.
Definition b64Val (c : Z) : option Z :=
  if (65 <=? c) && (c <=? 90) then Some (c - 65)
  else if (97 <=? c) && (c <=? 122) then Some (c - 71)
  else if (48 <=? c) && (c <=? 57) then Some (c + 4)
  else if c =? 43 then Some 62 else if c =? 47 then Some 63 else None.
(** Encode *)
Fixpoint b64Encode (bs : list Z) : list Z :=
  match bs with
  | a :: b :: c :: r =>
      b64Char (a / 4) :: b64Char (a mod 4 * 16 + b / 16) :: b64Char (b mod 16 * 4 + c / 64) :: b64Char (c mod 64) :: b64Encode r
  | [a; b] => [b64Char (a / 4); b64Char (a mod 4 * 16 + b / 16); b64Char (b mod 16 * 4); 61]
  | [a] => [b64Char (a / 4); b64Char (a mod 4 * 16); 61; 61]
  | [] => []
  end.
Definition b64EncodedLen (n : Z) : Z := (n + 2) / 3 * 4.
(** NewDecoder, read to the end: four characters at a time, padding only at the end.
    Simplification: line breaks, which Go skips and genprecomps.go never writes, are errors. *)
Fixpoint b64Decode (s : list Z) : option (list Z) :=
  match s with
  | [] => Some []
  | p :: q :: r :: t :: rest =>
      match b64Val p, b64Val q with
      | Some x, Some y =>
          match b64Val r, b64Val t with
          | Some z, Some w =>
              match b64Decode rest with
              | Some bs => Some (4 * x + y / 16 :: y mod 16 * 16 + z / 4 :: z mod 4 * 64 + w :: bs)
              | None => None
              end
          | Some z, None => if (t =? 61) && (match rest with [] => true | _ => false end) then Some [4 * x + y / 16; y mod 16 * 16 + z / 4] else None
          | None, _ => if (r =? 61) && (t =? 61) && (match rest with [] => true | _ => false end) then Some [4 * x + y / 16] else None
          end
      | _, _ => None
      end
  | _ => None
  end.

(** ** %q and the Go compiler's reading of a string literal

    Simplification: texts of ASCII characters only, and of the escapes only those that
    %q writes for them. *)
Definition quoteChar (c : Z) : list Z :=
  if c =? 34 then [92; 34] else if c =? 92 then [92; 92]
  else if (32 <=? c) && (c <=? 126) then [c]
  else if c =? 7 then [92; 97] else if c =? 8 then [92; 98] else if c =? 12 then [92; 102]
  else if c =? 10 then [92; 110] else if c =? 13 then [92; 114] else if c =? 9 then [92; 116] else if c =? 11 then [92; 118]
  else [92; 120; hexDigit (c / 16); hexDigit (c mod 16)].
Definition quote (s : list Z) : list Z := 34 :: flat_map quoteChar s ++ [34].
(** the literal without its opening quote: the string and what follows the closing quote *)
Definition escape (c : Z) : option Z :=
  if c =? 34 then Some 34 else if c =? 92 then Some 92 else if c =? 97 then Some 7 else if c =? 98 then Some 8
  else if c =? 102 then Some 12 else if c =? 110 then Some 10 else if c =? 114 then Some 13 else if c =? 116 then Some 9
  else if c =? 118 then Some 11 else None.
Fixpoint literal (s : list Z) : option (list Z * list Z) :=
  match s with
  | [] => None
  | c :: r =>
      if c =? 34 then Some ([], r)
      else if c =? 10 then None
      else if c =? 92 then
        match r with
        | x :: r2 =>
            if x =? 120 then
              match r2 with
              | h :: l :: r3 =>
                  match hexVal h, hexVal l, literal r3 with
                  | Some a, Some b, Some (t, rest) => Some (16 * a + b :: t, rest)
                  | _, _, _ => None
                  end
              | _ => None
              end
            else match escape x, literal r2 with Some e, Some (t, rest) => Some (e :: t, rest) | _, _ => None end
        | [] => None
        end
      else match literal r with Some (t, rest) => Some (c :: t, rest) | None => None end
  end.

(** ** genprecomps.go *)
Definition nl : list Z := [10].
(** l.62-70, l.83-91 *)
Definition header : list Z :=
  ascii "// Copyright (c) 2015 The btcsuite developers" ++ nl ++
  ascii "// Use of this source code is governed by an ISC" ++ nl ++
  ascii "// license that can be found in the LICENSE file." ++ nl ++ nl ++
  ascii "package btcec" ++ nl ++ nl ++
  ascii "// Auto-generated file (see genprecomps.go)" ++ nl ++
  ascii "// DO NOT EDIT" ++ nl ++ nl.
(** l.37-44, l.56-57, l.71 and l.46-53, l.59-60, l.92: one file; [compress] is what zlib's
    writer leaves in the buffer *)
Definition sourceFile (compress : list Z -> list Z) (name : string) (serialized : list Z) : list Z :=
  header ++ ascii "var " ++ ascii name ++ ascii " = " ++ quote (b64Encode (compress serialized)) ++ nl.
(** l.23-93 main: the two files, or a crash of the generator *)
Definition genprecomps (compress : list Z -> list Z) (sha256 : list Z -> list Z) : R (list Z * list Z) :=
  bind SerializedBytePoints (fun s =>
  bind (SerializedBytePointsH sha256) (fun sH =>
  Ok (sourceFile compress "secp256k1BytePoints" s, sourceFile compress "secp256k1BytePointsH" sH))).
(** l.73-80: the lines printed about the endomorphism *)
Definition printVectors (a1 b1 a2 b2 : Z) : list (list Z) :=
  [ascii "a1: " ++ bigHex a1; ascii "b1: " ++ bigHex b1; ascii "a2: " ++ bigHex a2; ascii "b2: " ++ bigHex b2].

(** ** the files in the next build
    The compiler takes for the variable the literal on the line that declares it; here the
    line is looked for from the start of the file, at beginnings of lines only. *)
Fixpoint stripPrefix (p s : list Z) : option (list Z) :=
  match p, s with
  | [], _ => Some s
  | a :: p, b :: s => if a =? b then stripPrefix p s else None
  | _, [] => None
  end.
Fixpoint dropLine (s : list Z) : list Z := match s with [] => [] | c :: r => if c =? 10 then r else dropLine r end.
Fixpoint declared (fuel : nat) (name : string) (s : list Z) : option (list Z) :=
  match fuel with
  | 0%nat => None
  | S f =>
      match stripPrefix (ascii "var " ++ ascii name ++ ascii " = " ++ [34]) s with
      | Some r => match literal r with Some (t, _) => Some t | None => None end
      | None => match s with [] => None | _ => declared f name (dropLine s) end
      end
  end.
Definition variableIn (name : string) (file : list Z) : option (list Z) := declared (length file) name file.
(** precompute.go l.30-38: base64 and then zlib *)
Definition unpack (decompress : list Z -> option (list Z)) (text : list Z) : option (list Z) :=
  match b64Decode text with Some bs => decompress bs | None => None end.
