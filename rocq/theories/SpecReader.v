(** * Specification: what a reader delivers, and how a call over it compares with the same
      call over the plain bytes *)
From Coq Require Import ZArith List.
From Verif Require Import Go Reader.
Import ListNotations.
Open Scope Z_scope.

(** all the bytes a reader will deliver *)
Definition delivers (r : reader) : list Z := concat (map aData (rAns r)).

(** the reader ends with error [e]: it returns no other error, and after it has returned [e]
    once, it returns no byte any more and [e] every time.  A file, a connection or a
    bytes.Buffer that ends normally ends with io.EOF. *)
Fixpoint endsWithin (e : ioerr) (l : list answer) : Prop :=
  match l with
  | [] => True
  | Ans _ None :: t => endsWithin e t
  | Ans _ (Some x) :: t => x = e /\ Forall (fun a => a = Ans [] (Some e)) t
  end.
Definition endsWith (e : ioerr) (r : reader) : Prop := rEnd r = Some e /\ endsWithin e (rAns r).

(** the reader never returns an error; when its bytes are used up it goes on returning nothing *)
Definition fallsSilent (r : reader) : Prop := rEnd r = None /\ Forall (fun a => aErr a = None) (rAns r).

(** the errors a reader returns *)
Definition returnsError (r : reader) (e : ioerr) : Prop := rEnd r = Some e \/ exists d, In (Ans d (Some e)) (rAns r).

(** the name of an error of the plain model *)
Definition named (e : rerr) : ioerr :=
  match e with EEOF => IEOF | EUnexpectedEOF => IUnexpectedEOF | ENonCanonical => INonCanonical end.

(** The result over a reader that ends with [e] is the result over its bytes; where the bytes
    were too few, [e] takes the place of io.EOF and io.ErrUnexpectedEOF. *)
Definition replaced (e : ioerr) (x : rerr) : ioerr :=
  match x with
  | ENonCanonical => INonCanonical
  | _ => match e with IEOF => named x | _ => e end
  end.
Definition same {A} (e : ioerr) (plain : rd A) (got : rq A) : Prop :=
  match plain with
  | ROk a rest => exists r, got = QOk a r /\ delivers r = rest /\ endsWith e r
  | RErr x rest => exists r, got = QErr (replaced e x) r /\ delivers r = rest /\ endsWith e r
  | RPanic => got = QPanic
  end.

(** Over a silent reader the call never returns where the bytes were too few. *)
Definition sameSilent {A} (plain : rd A) (got : rq A) : Prop :=
  match plain with
  | ROk a rest => exists r, got = QOk a r /\ delivers r = rest /\ fallsSilent r
  | RErr ENonCanonical rest => exists r, got = QErr INonCanonical r /\ delivers r = rest /\ fallsSilent r
  | RErr _ _ => got = QNever
  | RPanic => got = QPanic
  end.

(** Over any reader whatever: a value is the one its bytes denote; a crash is one its bytes
    cause; an error is that of the bytes or one that the reader returned. *)
Definition sound {A} (r : reader) (plain : rd A) (got : rq A) : Prop :=
  match got with
  | QOk a r' => plain = ROk a (delivers r')
  | QPanic => plain = RPanic
  | QErr e r' => (e = INonCanonical /\ plain = RErr ENonCanonical (delivers r')) \/ returnsError r e \/
                 (e = IUnexpectedEOF /\ returnsError r IEOF)
  | QNever => rEnd r = None
  end.

(** What a writer was given, of the bytes [enc] it should be given: [used] are the answers it
    gave.  Without an error: all of them, and no answer was a failure; with an error: an
    initial part of them, and the last answer was the first failure. *)
Definition writes (enc : list Z) (w : wtr) (r : wtr * bool) : Prop :=
  exists p used, sOut (fst r) = sOut w ++ p /\ sAns w = used ++ sAns (fst r) /\
    if snd r then (exists rest, enc = p ++ rest) /\ exists n k, used = repeat Takes n ++ [Fails k]
    else p = enc /\ exists n, used = repeat Takes n.

(** what a caller sees of a call, with the bytes that the reader still has to deliver *)
Inductive seen (A : Type) := SawValue (a : A) (left : list Z) | SawError (e : ioerr) (left : list Z) | SawCrash | SawNothing.
Arguments SawValue {A} a left. Arguments SawError {A} e left. Arguments SawCrash {A}. Arguments SawNothing {A}.
Definition see {A} (q : rq A) : seen A :=
  match q with
  | QOk a r => SawValue a (delivers r)
  | QErr e r => SawError e (delivers r)
  | QPanic => SawCrash
  | QNever => SawNothing
  end.
