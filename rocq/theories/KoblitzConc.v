(** * Model of concurrent calls of /repo/btcec/btcec.go

    KoblitzMem.v runs a call to its end.  The range prover and verifier (rangeproof.go
    l.187, 210, 288), and any program that uses the curve from several goroutines,
    run calls of the curve's methods at the same time on one memory.  Here the methods
    are written as code that other goroutines can interrupt before every access: a read
    of a variable, a write of a variable, or the result.  Where the code tests a || b or
    a && b, both operands are read here.  Simplification: a variable (a
    fieldVal of ten words) is read or written in one step; KoblitzWord.v and C77 do the
    same with single words.  Memory is sequentially consistent; C73_no_race shows that
    no variable is ever written by one goroutine while another accesses it. *)
From Coq Require Import ZArith List Bool.
From Verif Require Import Go Wire Big Field Koblitz KoblitzMem.
Import ListNotations.
Open Scope Z_scope.

Inductive code (A : Type) : Type :=
| Ret (a : A)
| Rd (p : ptr) (k : fieldVal -> code A)
| Wr (p : ptr) (v : fieldVal) (k : code A).
Arguments Ret {A} a.
Arguments Rd {A} p k.
Arguments Wr {A} p v k.
(** one piece of code after another *)
Fixpoint seqC {A B : Type} (c : code A) (f : A -> code B) : code B :=
  match c with
  | Ret a => f a
  | Rd p k => Rd p (fun v => seqC (k v) f)
  | Wr p v k => Wr p v (seqC k f)
  end.
Definition rd (p : ptr) : code fieldVal := Rd p Ret.
Definition wr (p : ptr) (v : fieldVal) : code unit := Wr p v (Ret tt).
Declare Scope code_scope.
Delimit Scope code_scope with code.
Notation "x <- c ;; d" := (seqC c (fun x => d)) (at level 61, c at next level, right associativity) : code_scope.
Notation "c ;; d" := (seqC c (fun _ => d)) (at level 61, right associativity) : code_scope.
Local Open Scope code_scope.

(** field.go: the statements of KoblitzMem.v, operands read before the receiver is written *)
Definition insC (e : reg -> ptr) (i : ins) : code unit :=
  match i with
  | Set_ d s => v <- rd (e s) ;; wr (e d) v
  | SetInt d n => wr (e d) (fSetInt n)
  | Normalize d => v <- rd (e d) ;; wr (e d) (fNormalize v)
  | Negate d k => v <- rd (e d) ;; wr (e d) (fNegate v k)
  | NegateVal d s k => v <- rd (e s) ;; wr (e d) (fNegate v k)
  | Add_ d s => v <- rd (e d) ;; w <- rd (e s) ;; wr (e d) (fAdd v w)
  | Add2 d s t => v <- rd (e s) ;; w <- rd (e t) ;; wr (e d) (fAdd v w)
  | MulInt d n => v <- rd (e d) ;; wr (e d) (fMulInt v n)
  | Mul d s => v <- rd (e d) ;; w <- rd (e s) ;; wr (e d) (fMul v w)
  | Mul2 d s t => v <- rd (e s) ;; w <- rd (e t) ;; wr (e d) (fMul v w)
  | Square d => v <- rd (e d) ;; wr (e d) (fSquare v)
  | SquareVal d s => v <- rd (e s) ;; wr (e d) (fSquare v)
  | Inverse d => v <- rd (e d) ;; wr (e d) (fInverse v)
  end.
Fixpoint execC (e : reg -> ptr) (l : list ins) : code unit :=
  match l with [] => Ret tt | i :: t => insC e i ;; execC e t end.
Definition isZeroC (p : ptr) : code bool := v <- rd p ;; Ret (fIsZero v).
Definition equalsC (p q : ptr) : code bool := v <- rd p ;; w <- rd q ;; Ret (fEquals v w).

(** l.582-603 doubleJacobian *)
Definition doubleJacobianC (one sp x1 y1 z1 x3 y3 z3 : ptr) : code unit :=
  let e := env sp (args6 x1 y1 z1 x3 y3 z3) in
  a <- isZeroC y1 ;; b <- isZeroC z1 ;;
  if a || b then execC e infProg
  else
    execC e [Normalize Z1] ;;
    isOne <- equalsC z1 one ;;
    (if isOne : bool then execC e dbl1Prog else execC e dblProg).
(** l.129-188 addZ1AndZ2EqualsOne *)
Definition addZ1AndZ2EqualsOneC (one sp x1 y1 z1 x2 y2 x3 y3 z3 : ptr) : code unit :=
  let e := env sp (args8 x1 y1 z1 x2 y2 x3 y3 z3) in
  execC e normProg ;;
  sx <- equalsC x1 x2 ;;
  if sx : bool then
    sy <- equalsC y1 y2 ;;
    (if sy : bool then doubleJacobianC one (sp + frame) x1 y1 z1 x3 y3 z3 else execC e infProg)
  else execC e addOneProg.
(** l.195-256 addZ1EqualsZ2 *)
Definition addZ1EqualsZ2C (one sp x1 y1 z1 x2 y2 x3 y3 z3 : ptr) : code unit :=
  let e := env sp (args8 x1 y1 z1 x2 y2 x3 y3 z3) in
  execC e normProg ;;
  sx <- equalsC x1 x2 ;;
  if sx : bool then
    sy <- equalsC y1 y2 ;;
    (if sy : bool then doubleJacobianC one (sp + frame) x1 y1 z1 x3 y3 z3 else execC e infProg)
  else execC e addEqProg.
(** l.264-334 addZ2EqualsOne *)
Definition addZ2EqualsOneC (one sp x1 y1 z1 x2 y2 x3 y3 z3 : ptr) : code unit :=
  let e := env sp (args8 x1 y1 z1 x2 y2 x3 y3 z3) in
  execC e likeProg ;;
  sx <- equalsC x1 (e u2) ;;
  if sx : bool then
    sy <- equalsC y1 (e s2) ;;
    (if sy : bool then doubleJacobianC one (sp + frame) x1 y1 z1 x3 y3 z3 else execC e infProg)
  else execC e addZ2Prog.
(** l.340-409 addGeneric *)
Definition addGenericC (one sp x1 y1 z1 x2 y2 z2 x3 y3 z3 : ptr) : code unit :=
  let e := env sp (args9 x1 y1 z1 x2 y2 z2 x3 y3 z3) in
  execC e likeProg2 ;;
  sx <- equalsC (e u1) (e u2) ;;
  if sx : bool then
    sy <- equalsC (e s1) (e s2) ;;
    (if sy : bool then doubleJacobianC one (sp + frame) x1 y1 z1 x3 y3 z3 else execC e infProg)
  else execC e addProg.
(** l.413-453 addJacobian *)
Definition isInfC (x y z : ptr) : code bool :=
  a <- isZeroC x ;; b <- isZeroC y ;; c <- isZeroC z ;; Ret ((a && b) || c).
Definition addJacobianC (one sp x1 y1 z1 x2 y2 z2 x3 y3 z3 : ptr) : code unit :=
  let e := env sp (args9 x1 y1 z1 x2 y2 z2 x3 y3 z3) in
  i1 <- isInfC x1 y1 z1 ;;
  if i1 : bool then execC e [Set_ X3 X2; Set_ Y3 Y2; Set_ Z3 Z2]
  else
    i2 <- isInfC x2 y2 z2 ;;
    if i2 : bool then execC e [Set_ X3 X1; Set_ Y3 Y1; Set_ Z3 Z1]
    else
      execC e [Normalize Z1; Normalize Z2] ;;
      isZ1One <- equalsC z1 one ;;
      isZ2One <- equalsC z2 one ;;
      if isZ1One && isZ2One then addZ1AndZ2EqualsOneC one (sp + frame) x1 y1 z1 x2 y2 x3 y3 z3
      else
        same <- equalsC z1 z2 ;;
        if same : bool then addZ1EqualsZ2C one (sp + frame) x1 y1 z1 x2 y2 x3 y3 z3
        else if isZ2One : bool then addZ2EqualsOneC one (sp + frame) x1 y1 z1 x2 y2 x3 y3 z3
        else addGenericC one (sp + frame) x1 y1 z1 x2 y2 z2 x3 y3 z3.

(** l.88-109 fieldJacobianToBigAffine *)
Definition toAffineC (sp x y z : ptr) : code (Z * Z) :=
  let e := env sp (fun r => match r with X1 => Some x | Y1 => Some y | Z1 => Some z | _ => None end) in
  execC e affineProg ;; vx <- rd x ;; vy <- rd y ;; Ret (beval (fBytes vx), beval (fBytes vy)).
(** l.78-84 bigAffineToField; false when SetByteSlice panics.  [big] values are not
    shared between the calls modelled here *)
Definition fromAffineC (px py : ptr) (x y : Z) : code bool :=
  match fSetByteSlice (bigBytes x), fSetByteSlice (bigBytes y) with
  | Ok x3, Ok y3 => wr px x3 ;; wr py y3 ;; Ret true
  | _, _ => Ret false
  end.
Definition zeros (a b c : ptr) : code unit := wr a fZero ;; wr b fZero ;; wr c fZero.

(** l.457-478 Add *)
Definition AddC (one sp : ptr) (x1 y1 x2 y2 : Z) : code (R (Z * Z)) :=
  if (x1 =? 0) && (y1 =? 0) then Ret (Ok (x2, y2))
  else if (x2 =? 0) && (y2 =? 0) then Ret (Ok (x1, y1))
  else
    let e := locals sp in
    ok <- fromAffineC (e fx1) (e fy1) x1 y1 ;;
    if negb ok then Ret Panic
    else
      ok <- fromAffineC (e fx2) (e fy2) x2 y2 ;;
      if negb ok then Ret Panic
      else
        zeros (e fx3) (e fy3) (e fz3) ;;
        execC e [SetInt fOne 1] ;;
        addJacobianC one (sp + frame) (e fx1) (e fy1) (e fOne) (e fx2) (e fy2) (e fOne) (e fx3) (e fy3) (e fz3) ;;
        r <- toAffineC (sp + frame) (e fx3) (e fy3) (e fz3) ;; Ret (Ok r).
(** l.606-621 Double *)
Definition DoubleC (one sp : ptr) (x1 y1 : Z) : code (R (Z * Z)) :=
  if y1 =? 0 then Ret (Ok (0, 0))
  else
    let e := locals sp in
    ok <- fromAffineC (e fx1) (e fy1) x1 y1 ;;
    if negb ok then Ret Panic
    else
      zeros (e fx3) (e fy3) (e fz3) ;;
      execC e [SetInt fOne 1] ;;
      doubleJacobianC one (sp + frame) (e fx1) (e fy1) (e fOne) (e fx3) (e fy3) (e fz3) ;;
      r <- toAffineC (sp + frame) (e fx3) (e fy3) (e fz3) ;; Ret (Ok r).

(** l.826-844 *)
Definition addPC (one sp x y yn z : ptr) (pos neg : Z) : code unit :=
  let e := locals sp in
  if Z.land pos 0x80 =? 0x80 then addJacobianC one (sp + frame) (e qx) (e qy) (e qz) x y z (e qx) (e qy) (e qz)
  else if Z.land neg 0x80 =? 0x80 then addJacobianC one (sp + frame) (e qx) (e qy) (e qz) x yn z (e qx) (e qy) (e qz)
  else Ret tt.
(** l.822-849 *)
Fixpoint smBitsC (one sp : ptr) (ps : smptrs) (n : nat) (p1 n1 p2 n2 : Z) : code unit :=
  match n with
  | 0%nat => Ret tt
  | S n' =>
      let e := locals sp in
      let shl x := (2 * x) mod 256 in
      doubleJacobianC one (sp + frame) (e qx) (e qy) (e qz) (e qx) (e qy) (e qz) ;;
      addPC one sp (e p1x) (py1 ps) (pyn1 ps) (e p1z) p1 n1 ;;
      addPC one sp (e p2x) (py2 ps) (pyn2 ps) (e p2z) p2 n2 ;;
      smBitsC one sp ps n' (shl p1) (shl n1) (shl p2) (shl n2)
  end.
(** l.804-850 *)
Fixpoint smLoopC (one sp : ptr) (ps : smptrs) (p1 n1 p2 n2 : list Z) : code unit :=
  match p1, n1, p2, n2 with
  | a :: p1, b :: n1, c :: p2, d :: n2 => smBitsC one sp ps 8 a b c d ;; smLoopC one sp ps p1 n1 p2 n2
  | _, _, _, _ => Ret tt
  end.
(** l.761-861 ScalarMult *)
Definition ScalarMultC (one beta sp : ptr) (Bx By : Z) (k : list Z) : code (R (Z * Z)) :=
  let e := locals sp in
  zeros (e qx) (e qy) (e qz) ;;
  let '(k1, k2, signK1, signK2) := splitK (moduloReduce k) in
  ok <- fromAffineC (e p1x) (e p1y) Bx By ;;
  if negb ok then Ret Panic
  else
    execC e [NegateVal p1yNeg p1y 1; SetInt p1z 1] ;;
    execC (fun r => match r with X1 => beta | _ => e r end) [Mul2 p2x p1x X1] ;;
    execC e [Set_ p2y p1y; NegateVal p2yNeg p2y 1; SetInt p2z 1] ;;
    let '(y1, yn1) := if signK1 =? -1 then (e p1yNeg, e p1y) else (e p1y, e p1yNeg) in
    let '(y2, yn2) := if signK2 =? -1 then (e p2yNeg, e p2y) else (e p2y, e p2yNeg) in
    let '(k1PosNAF, k1NegNAF) := NAF k1 in
    let '(k2PosNAF, k2NegNAF) := NAF k2 in
    let n := Nat.max (length k1PosNAF) (length k2PosNAF) in
    let ps := {| py1 := y1; pyn1 := yn1; py2 := y2; pyn2 := yn2 |} in
    smLoopC one sp ps (padTo n k1PosNAF) (padTo n k1NegNAF) (padTo n k2PosNAF) (padTo n k2NegNAF) ;;
    r <- toAffineC (sp + frame) (e qx) (e qy) (e qz) ;; Ret (Ok r).

(** l.878-881, 900-903 *)
Fixpoint sbmLoopC (one sp : ptr) (tab : nat -> Z -> nat -> ptr) (i : nat) (k : list Z) : code bool :=
  match k with
  | [] => Ret true
  | b :: r =>
      let e := locals sp in
      if (Nat.ltb i 32) && (0 <=? b) && (b <? 256) then
        v <- rd (tab i b 0%nat) ;; w <- rd (tab i b 1%nat) ;; x <- rd (tab i b 2%nat) ;;
        wr (e pE0) v ;; wr (e pE1) w ;; wr (e pE2) x ;;
        addJacobianC one (sp + frame) (e qx) (e qy) (e qz) (e pE0) (e pE1) (e pE2) (e qx) (e qy) (e qz) ;;
        sbmLoopC one sp tab (S i) r
      else Ret false
  end.
(** l.866-883 ScalarBaseMult, l.888-905 ScalarBaseMultH *)
Definition scalarTableMultC (one sp : ptr) (tab : nat -> Z -> nat -> ptr) (k : list Z) : code (R (Z * Z)) :=
  let e := locals sp in
  let newK := moduloReduce k in
  let diff := (32 - length newK)%nat in
  zeros (e qx) (e qy) (e qz) ;;
  ok <- sbmLoopC one sp tab diff newK ;;
  if negb ok then Ret Panic
  else r <- toAffineC (sp + frame) (e qx) (e qy) (e qz) ;; Ret (Ok r).

(** goroutines: a schedule is the list of the goroutines that make the next access *)
Definition stepC {A : Type} (c : code A) (m : mem) : code A * mem :=
  match c with
  | Ret a => (Ret a, m)
  | Rd p k => (k (m p), m)
  | Wr p v k => (k, upd m p v)
  end.
Fixpoint interleave {A : Type} (s : list nat) (t : nat -> code A) (m : mem) : (nat -> code A) * mem :=
  match s with
  | [] => (t, m)
  | i :: r => let '(c, m') := stepC (t i) m in interleave r (fun j => if Nat.eqb j i then c else t j) m'
  end.
