(** * Readers and writers that behave in any way their contract allows

    Wire.v and Crypto.v take a reader to be the bytes it still has to deliver, and a writer to
    be an amount of room.  Here a reader answers each call of Read as its script says: with
    any number of bytes (also none), with or without an error beside them; and a writer
    answers each call of Write by taking everything, or by taking some of it and failing.
    The functions of wire/common.go and crypto.go that take an io.Reader or an io.Writer are
    modelled again over these. *)
From Coq Require Import ZArith List Bool.
From Verif Require Import Go Wire Big Crypto.
Import ListNotations.
Open Scope Z_scope.

(** io.EOF, io.ErrUnexpectedEOF, the error of ReadVarInt for a number that is not in its
    shortest form, and every other error a reader may return *)
Inductive ioerr := IEOF | IUnexpectedEOF | INonCanonical | IOther (k : Z).
Definition isEOF (e : ioerr) : bool := match e with IEOF => true | _ => false end.

(** One answer of a reader: the bytes it has at hand, and the error it returns with the last
    of them.  When Read is given less room than there are bytes, it fills the room and keeps
    the remaining bytes for the next call. *)
Record answer := Ans { aData : list Z; aErr : option ioerr }.
(** A reader: its answers, and what it does ever after: it returns no byte and the error
    [e] ([Some e]), or no byte and no error ([None]).  A call that returns asks only a finite
    number of times, so that every run that ends is one of such a reader. *)
Record reader := Rdr { rAns : list answer; rEnd : option ioerr }.

(** What a call does: it returns a value or an error, leaving the reader in some state; it
    panics; or it never returns. *)
Inductive rq (A : Type) : Type := QOk (a : A) (r : reader) | QErr (e : ioerr) (r : reader) | QPanic | QNever.
Arguments QOk {A} a r. Arguments QErr {A} e r. Arguments QPanic {A}. Arguments QNever {A}.
Definition qbind {A B} (q : rq A) (f : A -> reader -> rq B) : rq B :=
  match q with QOk a r => f a r | QErr e r => QErr e r | QPanic => QPanic | QNever => QNever end.

(** io.ReadFull(r, buf) with len(buf) = [n] (io.ReadAtLeast of the standard library):
    for n < min && err == nil { nn, err = r.Read(buf[n:]); n += nn }; an error is dropped when
    the buffer is full, and io.EOF becomes io.ErrUnexpectedEOF when it is partly full.
    [got] is what the buffer holds. *)
Definition shortErr (got : list Z) (e : ioerr) : ioerr :=
  match got with [] => e | _ => if isEOF e then IUnexpectedEOF else e end.
Fixpoint readLoop (n : Z) (got : list Z) (script : list answer) (fin : option ioerr) : rq (list Z) :=
  if n <=? blen got then QOk got (Rdr script fin)
  else match script with
  | [] => match fin with None => QNever | Some e => QErr (shortErr got e) (Rdr [] fin) end
  | Ans d e :: t =>
      let room := n - blen got in
      if room <? blen d
      then QOk (got ++ firstn (Z.to_nat room) d) (Rdr (Ans (skipn (Z.to_nat room) d) e :: t) fin)
      else match e with
           | None => readLoop n (got ++ d) t fin
           | Some x => if n <=? blen (got ++ d) then QOk (got ++ d) (Rdr t fin)
                       else QErr (shortErr (got ++ d) x) (Rdr t fin)
           end
  end.
Definition readFullQ (n : Z) (r : reader) : rq (list Z) := readLoop n [] (rAns r) (rEnd r).

(** wire/common.go l.71-80 Uint8, l.85-94 Uint16, l.99-108 Uint32, l.113-122 Uint64 *)
Definition Uint8Q (r : reader) : rq Z := qbind (readFullQ 1 r) (fun b t => QOk (nth 0 b 0) t).
Definition Uint16Q (r : reader) : rq Z := qbind (readFullQ 2 r) (fun b t => QOk (leval b) t).
Definition Uint32Q (r : reader) : rq Z := qbind (readFullQ 4 r) (fun b t => QOk (leval b) t).
Definition Uint64Q (r : reader) : rq Z := qbind (readFullQ 8 r) (fun b t => QOk (leval b) t).

(** wire/common.go l.172-227 ReadVarInt *)
Definition ReadVarIntQ (r : reader) : rq Z :=
  qbind (Uint8Q r) (fun d r1 =>
    if d =? 0xff then
      qbind (Uint64Q r1) (fun rv r2 => if rv <? 0x100000000 then QErr INonCanonical r2 else QOk rv r2)
    else if d =? 0xfe then
      qbind (Uint32Q r1) (fun rv r2 => if rv <? 0x10000 then QErr INonCanonical r2 else QOk rv r2)
    else if d =? 0xfd then
      qbind (Uint16Q r1) (fun rv r2 => if rv <? 0xfd then QErr INonCanonical r2 else QOk rv r2)
    else QOk d r1).

(** wire/common.go l.289-303 ReadVarBytes *)
Definition ReadVarBytesQ (maxAllowed : Z) (r : reader) : rq (list Z) :=
  qbind (ReadVarIntQ r) (fun count r1 =>
    if maxAlloc <? count then QPanic else readFullQ count r1).

(** crypto.go l.166-176 ReadECPoint *)
Definition ReadECPointQ (r : reader) : rq ECPoint :=
  qbind (ReadVarBytesQ 32 r) (fun xb r1 =>
  qbind (ReadVarBytesQ 32 r1) (fun yb r2 =>
  QOk (EP (Some (beval xb)) (Some (beval yb))) r2)).

(** crypto.go l.189-199 ReadBigInt *)
Definition ReadBigIntQ (r : reader) : rq Z :=
  qbind (ReadVarBytesQ 32 r) (fun bb r1 =>
  match bb with
  | [] => QPanic
  | sgn :: mag => QOk (if sgn =? 1 then - beval mag else beval mag) r1
  end).

(** One answer of a writer: it takes everything, or it takes at most [k] bytes and returns an
    error.  (io.Writer must return an error when it takes less than everything.)  After its
    last answer it takes everything. *)
Inductive wanswer := Takes | Fails (k : nat).
Record wtr := Wtr { sOut : list Z; sAns : list wanswer }.
(** w.Write(bs); the boolean: err != nil *)
Definition writeS (w : wtr) (bs : list Z) : wtr * bool :=
  match sAns w with
  | [] => (Wtr (sOut w ++ bs) [], false)
  | Takes :: t => (Wtr (sOut w ++ bs) t, false)
  | Fails k :: t => (Wtr (sOut w ++ firstn k bs) t, true)
  end.

(** wire/common.go l.231-257 WriteVarInt, with PutUint8, PutUint16, PutUint32 and PutUint64
    of l.126-165 *)
Definition WriteVarIntS (w : wtr) (val : Z) : wtr * bool :=
  if val <? 0xfd then writeS w [val mod 2^8]
  else if val <=? 65535 then
    let '(w1, e1) := writeS w [0xfd] in
    if e1 then (w1, true) else writeS w1 (le16 (val mod 2^16))
  else if val <=? 4294967295 then
    let '(w1, e1) := writeS w [0xfe] in
    if e1 then (w1, true) else writeS w1 (le32 (val mod 2^32))
  else
    let '(w1, e1) := writeS w [0xff] in
    if e1 then (w1, true) else writeS w1 (le64 val).

(** wire/common.go l.307-319 WriteVarBytes *)
Definition WriteVarBytesS (w : wtr) (bs : list Z) : wtr * bool :=
  let '(w1, e1) := WriteVarIntS w (blen bs) in
  if e1 then (w1, true)
  else let '(w2, e2) := writeS w1 bs in
       if e2 then (w2, true) else (w2, false).

(** crypto.go l.156-163 WriteECPoint *)
Definition WriteECPointS (w : wtr) (p : ECPoint) : R (wtr * bool) :=
  x <- need (pX p);
  let '(w1, e1) := WriteVarBytesS w (bigBytes x) in
  if e1 then Ok (w1, true)
  else y <- need (pY p); Ok (WriteVarBytesS w1 (bigBytes y)).

(** crypto.go l.179-186 WriteBigInt *)
Definition WriteBigIntS (w : wtr) (b : option Z) : R (wtr * bool) :=
  z <- need b;
  Ok (WriteVarBytesS w ((if z <? 0 then 1 else 0) :: bigBytes z)).
