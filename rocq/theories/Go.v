(** * Shared vocabulary of the model: Go run-time outcomes, bytes, readers, writers

    Nothing here models a file of /repo; these are the Go standard-library and
    run-time facts the model relies on. *)
From Coq Require Import ZArith List Bool.
Import ListNotations.
Open Scope Z_scope.

(** A Go call that returns, or panics. *)
Inductive R (A : Type) : Type := Ok (a : A) | Panic.
Arguments Ok {A} a. Arguments Panic {A}.
Definition bind {A B} (r : R A) (f : A -> R B) : R B :=
  match r with Ok a => f a | Panic => Panic end.
Notation "x <- e ; k" := (bind e (fun x => k)) (at level 61, e at next level, right associativity).

(** A byte is an integer in [0,256). *)
Definition is_byte (b : Z) : Prop := 0 <= b < 256.
Definition bytes_ok (bs : list Z) : Prop := Forall is_byte bs.
Definition blen (bs : list Z) : Z := Z.of_nat (length bs).

(** *** io.Reader.  The reader is the list of bytes it still has to deliver; how
    it splits them into chunks is hidden by io.ReadFull, the only way it is used: Reader.v
    models readers that answer in any way, and C83 proves that the portions do not matter. *)
Inductive rerr := EEOF | EUnexpectedEOF | ENonCanonical.
Inductive rd (A : Type) : Type := ROk (a : A) (rest : list Z) | RErr (e : rerr) (rest : list Z) | RPanic.
Arguments ROk {A} a rest. Arguments RErr {A} e rest. Arguments RPanic {A}.
Definition rbind {A B} (r : rd A) (f : A -> list Z -> rd B) : rd B :=
  match r with ROk a s => f a s | RErr e s => RErr e s | RPanic => RPanic end.

(** io.ReadFull on a buffer of length [n]: all [n] bytes, or io.EOF when nothing
    was read, or io.ErrUnexpectedEOF when the stream ended inside. *)
Definition readFull (n : Z) (s : list Z) : rd (list Z) :=
  if n <=? blen s then ROk (firstn (Z.to_nat n) s) (skipn (Z.to_nat n) s)
  else match s with [] => RErr EEOF [] | _ => RErr EUnexpectedEOF [] end.

(** make([]byte, n) for a uint64 [n] on linux/amd64: the run-time panics when the
    length exceeds the address space it manages (1<<48 bytes).  Running out of
    physical memory below that limit is not modelled. *)
Definition maxAlloc : Z := 2 ^ 48.

(** *** io.Writer: what was written so far and how many more bytes it takes before
    failing ([None]: never fails, like bytes.Buffer).  A failing Write may have
    written a prefix.  The boolean result is "err != nil". *)
Record writer := { wout : list Z; wroom : option Z }.
Definition wwrite (w : writer) (bs : list Z) : writer * bool :=
  match wroom w with
  | None => ({| wout := wout w ++ bs; wroom := None |}, false)
  | Some n =>
      if blen bs <=? n then ({| wout := wout w ++ bs; wroom := Some (n - blen bs) |}, false)
      else ({| wout := wout w ++ firstn (Z.to_nat n) bs; wroom := Some 0 |}, true)
  end.
(** a fresh bytes.Buffer *)
Definition newBuffer : writer := {| wout := []; wroom := None |}.
