(** * The construction of the curve object: initS256, S256 and sync.Once

    The package variable secp256k1 (btcec.go l.914) starts with every pointer nil and every
    number 0; initS256 assigns its fields one after the other, and S256 runs it through
    sync.Once.  Here a field that is a pointer is an [option], and a step is one assignment,
    one operation on the Once, or one operation on its lock. *)
From Coq Require Import String ZArith List Bool.
From Verif Require Import Go Wire Big Field Koblitz Precompute Text.
Import ListNotations.
Open Scope Z_scope.

(** elliptic.CurveParams, without its name *)
Record params := { pP : option Z; pN : option Z; pB : option Z; pGx : option Z; pGy : option Z; pBitSize : Z }.
(** l.36-70 KoblitzCurve *)
Record object := { oParams : option params; oQ : option Z; oH : Z; oHalf : option Z; oByteSize : Z;
                   oTable : option table; oTableH : option table;
                   oLambda : option Z; oBeta : option fieldVal;
                   oA1 : option Z; oB1 : option Z; oA2 : option Z; oB2 : option Z }.
(** l.914 *)
Definition blank : object :=
  {| oParams := None; oQ := None; oH := 0; oHalf := None; oByteSize := 0; oTable := None; oTableH := None;
     oLambda := None; oBeta := None; oA1 := None; oB1 := None; oA2 := None; oB2 := None |}.

(** ** assignments to single fields; those to a field of CurveParams panic while it is nil *)
Definition setParams (f : params -> params) (o : object) : R object :=
  match oParams o with
  | None => Panic
  | Some p => Ok {| oParams := Some (f p); oQ := oQ o; oH := oH o; oHalf := oHalf o; oByteSize := oByteSize o; oTable := oTable o; oTableH := oTableH o;
                    oLambda := oLambda o; oBeta := oBeta o; oA1 := oA1 o; oB1 := oB1 o; oA2 := oA2 o; oB2 := oB2 o |}
  end.
Definition setP v (p : params) := {| pP := Some v; pN := pN p; pB := pB p; pGx := pGx p; pGy := pGy p; pBitSize := pBitSize p |}.
Definition setN v (p : params) := {| pP := pP p; pN := Some v; pB := pB p; pGx := pGx p; pGy := pGy p; pBitSize := pBitSize p |}.
Definition setB v (p : params) := {| pP := pP p; pN := pN p; pB := Some v; pGx := pGx p; pGy := pGy p; pBitSize := pBitSize p |}.
Definition setGx v (p : params) := {| pP := pP p; pN := pN p; pB := pB p; pGx := Some v; pGy := pGy p; pBitSize := pBitSize p |}.
Definition setGy v (p : params) := {| pP := pP p; pN := pN p; pB := pB p; pGx := pGx p; pGy := Some v; pBitSize := pBitSize p |}.
Definition setBitSize v (p : params) := {| pP := pP p; pN := pN p; pB := pB p; pGx := pGx p; pGy := pGy p; pBitSize := v |}.
Definition newParams (o : object) : R object :=
  Ok {| oParams := Some {| pP := None; pN := None; pB := None; pGx := None; pGy := None; pBitSize := 0 |}; oQ := oQ o; oH := oH o; oHalf := oHalf o; oByteSize := oByteSize o;
        oTable := oTable o; oTableH := oTableH o; oLambda := oLambda o; oBeta := oBeta o; oA1 := oA1 o; oB1 := oB1 o; oA2 := oA2 o; oB2 := oB2 o |}.
Definition setQ v (o : object) := {| oParams := oParams o; oQ := v; oH := oH o; oHalf := oHalf o; oByteSize := oByteSize o; oTable := oTable o; oTableH := oTableH o;
  oLambda := oLambda o; oBeta := oBeta o; oA1 := oA1 o; oB1 := oB1 o; oA2 := oA2 o; oB2 := oB2 o |}.
Definition setCofactor v (o : object) := {| oParams := oParams o; oQ := oQ o; oH := v; oHalf := oHalf o; oByteSize := oByteSize o; oTable := oTable o; oTableH := oTableH o;
  oLambda := oLambda o; oBeta := oBeta o; oA1 := oA1 o; oB1 := oB1 o; oA2 := oA2 o; oB2 := oB2 o |}.
Definition setHalf v (o : object) := {| oParams := oParams o; oQ := oQ o; oH := oH o; oHalf := v; oByteSize := oByteSize o; oTable := oTable o; oTableH := oTableH o;
  oLambda := oLambda o; oBeta := oBeta o; oA1 := oA1 o; oB1 := oB1 o; oA2 := oA2 o; oB2 := oB2 o |}.
Definition setByteSize v (o : object) := {| oParams := oParams o; oQ := oQ o; oH := oH o; oHalf := oHalf o; oByteSize := v; oTable := oTable o; oTableH := oTableH o;
  oLambda := oLambda o; oBeta := oBeta o; oA1 := oA1 o; oB1 := oB1 o; oA2 := oA2 o; oB2 := oB2 o |}.
Definition setTable v (o : object) := {| oParams := oParams o; oQ := oQ o; oH := oH o; oHalf := oHalf o; oByteSize := oByteSize o; oTable := v; oTableH := oTableH o;
  oLambda := oLambda o; oBeta := oBeta o; oA1 := oA1 o; oB1 := oB1 o; oA2 := oA2 o; oB2 := oB2 o |}.
Definition setTableH v (o : object) := {| oParams := oParams o; oQ := oQ o; oH := oH o; oHalf := oHalf o; oByteSize := oByteSize o; oTable := oTable o; oTableH := v;
  oLambda := oLambda o; oBeta := oBeta o; oA1 := oA1 o; oB1 := oB1 o; oA2 := oA2 o; oB2 := oB2 o |}.
Definition setLambda v (o : object) := {| oParams := oParams o; oQ := oQ o; oH := oH o; oHalf := oHalf o; oByteSize := oByteSize o; oTable := oTable o; oTableH := oTableH o;
  oLambda := v; oBeta := oBeta o; oA1 := oA1 o; oB1 := oB1 o; oA2 := oA2 o; oB2 := oB2 o |}.
Definition setBeta v (o : object) := {| oParams := oParams o; oQ := oQ o; oH := oH o; oHalf := oHalf o; oByteSize := oByteSize o; oTable := oTable o; oTableH := oTableH o;
  oLambda := oLambda o; oBeta := v; oA1 := oA1 o; oB1 := oB1 o; oA2 := oA2 o; oB2 := oB2 o |}.
Definition setA1 v (o : object) := {| oParams := oParams o; oQ := oQ o; oH := oH o; oHalf := oHalf o; oByteSize := oByteSize o; oTable := oTable o; oTableH := oTableH o;
  oLambda := oLambda o; oBeta := oBeta o; oA1 := v; oB1 := oB1 o; oA2 := oA2 o; oB2 := oB2 o |}.
Definition setB1 v (o : object) := {| oParams := oParams o; oQ := oQ o; oH := oH o; oHalf := oHalf o; oByteSize := oByteSize o; oTable := oTable o; oTableH := oTableH o;
  oLambda := oLambda o; oBeta := oBeta o; oA1 := oA1 o; oB1 := v; oA2 := oA2 o; oB2 := oB2 o |}.
Definition setA2 v (o : object) := {| oParams := oParams o; oQ := oQ o; oH := oH o; oHalf := oHalf o; oByteSize := oByteSize o; oTable := oTable o; oTableH := oTableH o;
  oLambda := oLambda o; oBeta := oBeta o; oA1 := oA1 o; oB1 := oB1 o; oA2 := v; oB2 := oB2 o |}.
Definition setB2 v (o : object) := {| oParams := oParams o; oQ := oQ o; oH := oH o; oHalf := oHalf o; oByteSize := oByteSize o; oTable := oTable o; oTableH := oTableH o;
  oLambda := oLambda o; oBeta := oBeta o; oA1 := oA1 o; oB1 := oB1 o; oA2 := oA2 o; oB2 := v |}.

(** ** l.932-980 initS256, statement by statement *)
Definition stmt : Type := object -> R object.
Definition hexP (s : string) (set : Z -> params -> params) : stmt := fun o => bind (fromHex (ascii s)) (fun v => setParams (set v) o).
Definition hexO (s : string) (set : option Z -> object -> object) : stmt := fun o => bind (fromHex (ascii s)) (fun v => Ok (set (Some v) o)).
(** reading a field of CurveParams *)
Definition getP (f : params -> option Z) (o : object) : R Z :=
  match oParams o with Some p => match f p with Some v => Ok v | None => Panic end | None => Panic end.
(** l.953-955, precompute.go l.23-67: the field is only assigned when there is a table *)
Definition load (decode : list Z -> option (list Z)) (bp : list Z) (set : option table -> object -> object) : stmt := fun o =>
  bind (loadBytePoints decode bp) (fun r => match r with
  | LoadErr => Panic
  | Loaded None => Ok o
  | Loaded (Some t) => Ok (set (Some t) o)
  end).
Definition initS256 (decode : list Z -> option (list Z)) (bp bpH : list Z) : list stmt :=
  [ newParams;
    hexP "FFFFFFFFFFFFFFFFFFFFFFFFFFFFFFFFFFFFFFFFFFFFFFFFFFFFFFFEFFFFFC2F" setP;
    hexP "FFFFFFFFFFFFFFFFFFFFFFFFFFFFFFFEBAAEDCE6AF48A03BBFD25E8CD0364141" setN;
    hexP "0000000000000000000000000000000000000000000000000000000000000007" setB;
    hexP "79BE667EF9DCBBAC55A06295CE870B07029BFCDB2DCE28D959F2815B16F81798" setGx;
    hexP "483ADA7726A3C4655DA4FBFC0E1108A8FD17B448A68554199C47D08FFB10D4B8" setGy;
    setParams (setBitSize 256);
    (fun o => bind (getP pP o) (fun p => Ok (setQ (Some ((p + 1) / 4)) o)));
    (fun o => Ok (setCofactor 1 o));
    (fun o => bind (getP pN o) (fun n => Ok (setHalf (Some (Z.shiftr n 1)) o)));
    (fun o => match oParams o with Some p => Ok (setByteSize (pBitSize p / 8) o) | None => Panic end);
    load decode bp setTable;
    load decode bpH setTableH;
    hexO "5363AD4CC05C30E0A5261C028812645A122E22EA20816678DF02967C1B23BD72" setLambda;
    (fun o => bind (fSetHex (ascii "7AE96A2B657C07106E64479EAC3434E99CF0497512F58995C1396C28719501EE")) (fun b => Ok (setBeta (Some b) o)));
    hexO "3086D221A7D46BCDE86C90E49284EB15" setA1;
    hexO "-E4437ED6010E88286F547FA90ABFE4C3" setB1;
    hexO "114CA50F7A8E2F3F657C1108D9D44CFD8" setA2;
    hexO "3086D221A7D46BCDE86C90E49284EB15" setB2 ].

(** ** l.983-986 S256, by any number of calls at once

    sync.Once.Do as in the standard library: a load of the flag; if it is not set, the lock,
    the flag again, the function, and then, by defer, whether the function returned or
    panicked, the flag is set and the lock released.
    A call that ended has either returned &secp256k1 or passed on the panic. *)
Inductive call :=
  | Start                                   (* before the load of the flag *)
  | Locking                                 (* waiting for the lock *)
  | Check                                   (* holds the lock, before the second load *)
  | Body (rest : list stmt)                 (* inside initS256, these statements to go *)
  | SetDone (panicked : bool)
  | Unlock (panicked : bool)
  | End (panicked : bool).
Record state := { obj : object; done : bool; locked : bool; calls : list call }.
Definition replace (i : nat) (c : call) (l : list call) : list call := firstn i l ++ c :: skipn (S i) l.
Definition with_ (o : object) (d k : bool) (l : list call) : state := {| obj := o; done := d; locked := k; calls := l |}.
(** call [i] makes its next step; [None] if it has ended or waits for the lock *)
Definition stepCall (body : list stmt) (i : nat) (s : state) : option state :=
  let go o d k c := Some (with_ o d k (replace i c (calls s))) in
  match nth_error (calls s) i with
  | None => None
  | Some Start => go (obj s) (done s) (locked s) (if done s then End false else Locking)
  | Some Locking => if locked s then None else go (obj s) (done s) true Check
  | Some Check => go (obj s) (done s) (locked s) (if done s then Unlock false else Body body)
  | Some (Body []) => go (obj s) (done s) (locked s) (SetDone false)
  | Some (Body (st :: rest)) =>
      match st (obj s) with
      | Ok o => go o (done s) (locked s) (Body rest)
      | Panic => go (obj s) (done s) (locked s) (SetDone true)
      end
  | Some (SetDone p) => go (obj s) true (locked s) (Unlock p)
  | Some (Unlock p) => go (obj s) (done s) false (End p)
  | Some (End _) => None
  end.
(** [n] calls of S256 in a program that has just started *)
Definition fresh (n : nat) : state := with_ blank false false (repeat Start n).
(** a schedule names the call that moves; a call that cannot move stays *)
Fixpoint execute (body : list stmt) (schedule : list nat) (s : state) : state :=
  match schedule with
  | [] => s
  | i :: r => execute body r (match stepCall body i s with Some s' => s' | None => s end)
  end.
