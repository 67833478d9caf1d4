(** * Model of concurrent calls of /repo/btcec/btcec.go, word by word

    The methods of KoblitzConc.v on the word-by-word methods of FieldMem.v: goroutines
    can be interrupted before every load and store of a 32-bit word, and a || b and
    a && b load the words of b only when the code does.  Where a method declares
    variables with var they are not cleared here: all are written before they are read.
    Simplification: memory is sequentially consistent; C77_no_race shows that no word is
    ever stored by one goroutine while another accesses it, so that does not matter. *)
From Coq Require Import ZArith List Bool.
From Verif Require Import Go Wire Big Field Koblitz KoblitzMem FieldMem.
Import ListNotations.
Open Scope Z_scope.
Local Open Scope wcode_scope.

Fixpoint execW (fr : ptr) (e : reg -> ptr) (l : list ins) : wcode unit :=
  match l with [] => WRet tt | i :: t => insW fr e i ;; execW fr e t end.

(** l.582-603 doubleJacobian *)
Definition doubleJacobianW (one sp x1 y1 z1 x3 y3 z3 : ptr) : wcode unit :=
  let e := env sp (args6 x1 y1 z1 x3 y3 z3) in
  a <- IsZeroW y1 ;; b <- (if a : bool then WRet true else IsZeroW z1) ;;
  if b : bool then execW (sp + frame) e infProg
  else
    execW (sp + frame) e [Normalize Z1] ;;
    isOne <- EqualsW z1 one ;;
    (if isOne : bool then execW (sp + frame) e dbl1Prog else execW (sp + frame) e dblProg).
(** l.129-188 addZ1AndZ2EqualsOne *)
Definition addZ1AndZ2EqualsOneW (one sp x1 y1 z1 x2 y2 x3 y3 z3 : ptr) : wcode unit :=
  let e := env sp (args8 x1 y1 z1 x2 y2 x3 y3 z3) in
  execW (sp + frame) e normProg ;;
  sx <- EqualsW x1 x2 ;;
  if sx : bool then
    sy <- EqualsW y1 y2 ;;
    (if sy : bool then doubleJacobianW one (sp + frame) x1 y1 z1 x3 y3 z3 else execW (sp + frame) e infProg)
  else execW (sp + frame) e addOneProg.
(** l.195-256 addZ1EqualsZ2 *)
Definition addZ1EqualsZ2W (one sp x1 y1 z1 x2 y2 x3 y3 z3 : ptr) : wcode unit :=
  let e := env sp (args8 x1 y1 z1 x2 y2 x3 y3 z3) in
  execW (sp + frame) e normProg ;;
  sx <- EqualsW x1 x2 ;;
  if sx : bool then
    sy <- EqualsW y1 y2 ;;
    (if sy : bool then doubleJacobianW one (sp + frame) x1 y1 z1 x3 y3 z3 else execW (sp + frame) e infProg)
  else execW (sp + frame) e addEqProg.
(** l.264-334 addZ2EqualsOne *)
Definition addZ2EqualsOneW (one sp x1 y1 z1 x2 y2 x3 y3 z3 : ptr) : wcode unit :=
  let e := env sp (args8 x1 y1 z1 x2 y2 x3 y3 z3) in
  execW (sp + frame) e likeProg ;;
  sx <- EqualsW x1 (e u2) ;;
  if sx : bool then
    sy <- EqualsW y1 (e s2) ;;
    (if sy : bool then doubleJacobianW one (sp + frame) x1 y1 z1 x3 y3 z3 else execW (sp + frame) e infProg)
  else execW (sp + frame) e addZ2Prog.
(** l.340-409 addGeneric *)
Definition addGenericW (one sp x1 y1 z1 x2 y2 z2 x3 y3 z3 : ptr) : wcode unit :=
  let e := env sp (args9 x1 y1 z1 x2 y2 z2 x3 y3 z3) in
  execW (sp + frame) e likeProg2 ;;
  sx <- EqualsW (e u1) (e u2) ;;
  if sx : bool then
    sy <- EqualsW (e s1) (e s2) ;;
    (if sy : bool then doubleJacobianW one (sp + frame) x1 y1 z1 x3 y3 z3 else execW (sp + frame) e infProg)
  else execW (sp + frame) e addProg.
(** l.413-453 addJacobian *)
Definition isInfW (x y z : ptr) : wcode bool :=
  a <- IsZeroW x ;; b <- (if a : bool then IsZeroW y else WRet false) ;; if b : bool then WRet true else IsZeroW z.
Definition addJacobianW (one sp x1 y1 z1 x2 y2 z2 x3 y3 z3 : ptr) : wcode unit :=
  let e := env sp (args9 x1 y1 z1 x2 y2 z2 x3 y3 z3) in
  i1 <- isInfW x1 y1 z1 ;;
  if i1 : bool then execW (sp + frame) e [Set_ X3 X2; Set_ Y3 Y2; Set_ Z3 Z2]
  else
    i2 <- isInfW x2 y2 z2 ;;
    if i2 : bool then execW (sp + frame) e [Set_ X3 X1; Set_ Y3 Y1; Set_ Z3 Z1]
    else
      execW (sp + frame) e [Normalize Z1; Normalize Z2] ;;
      isZ1One <- EqualsW z1 one ;;
      isZ2One <- EqualsW z2 one ;;
      if isZ1One && isZ2One then addZ1AndZ2EqualsOneW one (sp + frame) x1 y1 z1 x2 y2 x3 y3 z3
      else
        same <- EqualsW z1 z2 ;;
        if same : bool then addZ1EqualsZ2W one (sp + frame) x1 y1 z1 x2 y2 x3 y3 z3
        else if isZ2One : bool then addZ2EqualsOneW one (sp + frame) x1 y1 z1 x2 y2 x3 y3 z3
        else addGenericW one (sp + frame) x1 y1 z1 x2 y2 z2 x3 y3 z3.

(** l.88-109 fieldJacobianToBigAffine *)
Definition toAffineW (sp x y z : ptr) : wcode (Z * Z) :=
  let e := env sp (fun r => match r with X1 => Some x | Y1 => Some y | Z1 => Some z | _ => None end) in
  execW (sp + frame) e affineProg ;; bx <- BytesW x ;; b_y <- BytesW y ;; WRet (beval bx, beval b_y).
(** l.78-84 bigAffineToField; false when SetByteSlice panics *)
Definition fromAffineW (px py : ptr) (x y : Z) : wcode bool :=
  okx <- SetByteSliceW px (bigBytes x) ;; if okx : bool then SetByteSliceW py (bigBytes y) else WRet false.
(** new(fieldVal) three times *)
Definition zerosW (a b c : ptr) : wcode unit := ZeroW a ;; ZeroW b ;; ZeroW c.
(** l.114-122 IsOnCurve: y2 and result are the variables rA and rB *)
Definition IsOnCurveW (sp : ptr) (x y : Z) : wcode (R bool) :=
  let e := locals sp in
  ok <- fromAffineW (e fx1) (e fy1) x y ;;
  if negb ok then WRet Panic
  else
    execW (sp + frame) e [SquareVal rA fy1; Normalize rA; SquareVal rB fx1; Mul rB fx1] ;;
    AddIntW (e rB) 7 ;; execW (sp + frame) e [Normalize rB] ;;
    r <- EqualsW (e rA) (e rB) ;; WRet (Ok r).

(** l.457-478 Add *)
Definition curveAddW (one sp : ptr) (x1 y1 x2 y2 : Z) : wcode (R (Z * Z)) :=
  if (x1 =? 0) && (y1 =? 0) then WRet (Ok (x2, y2))
  else if (x2 =? 0) && (y2 =? 0) then WRet (Ok (x1, y1))
  else
    let e := locals sp in
    ok <- fromAffineW (e fx1) (e fy1) x1 y1 ;;
    if negb ok then WRet Panic
    else
      ok <- fromAffineW (e fx2) (e fy2) x2 y2 ;;
      if negb ok then WRet Panic
      else
        zerosW (e fx3) (e fy3) (e fz3) ;;
        execW (sp + frame) e [SetInt fOne 1] ;;
        addJacobianW one (sp + frame) (e fx1) (e fy1) (e fOne) (e fx2) (e fy2) (e fOne) (e fx3) (e fy3) (e fz3) ;;
        r <- toAffineW (sp + frame) (e fx3) (e fy3) (e fz3) ;; WRet (Ok r).
(** l.606-621 Double *)
Definition curveDoubleW (one sp : ptr) (x1 y1 : Z) : wcode (R (Z * Z)) :=
  if y1 =? 0 then WRet (Ok (0, 0))
  else
    let e := locals sp in
    ok <- fromAffineW (e fx1) (e fy1) x1 y1 ;;
    if negb ok then WRet Panic
    else
      zerosW (e fx3) (e fy3) (e fz3) ;;
      execW (sp + frame) e [SetInt fOne 1] ;;
      doubleJacobianW one (sp + frame) (e fx1) (e fy1) (e fOne) (e fx3) (e fy3) (e fz3) ;;
      r <- toAffineW (sp + frame) (e fx3) (e fy3) (e fz3) ;; WRet (Ok r).

(** l.826-844 *)
Definition addPW (one sp x y yn z : ptr) (pos neg : Z) : wcode unit :=
  let e := locals sp in
  if Z.land pos 0x80 =? 0x80 then addJacobianW one (sp + frame) (e qx) (e qy) (e qz) x y z (e qx) (e qy) (e qz)
  else if Z.land neg 0x80 =? 0x80 then addJacobianW one (sp + frame) (e qx) (e qy) (e qz) x yn z (e qx) (e qy) (e qz)
  else WRet tt.
(** l.822-849 *)
Fixpoint smBitsW (one sp : ptr) (ps : smptrs) (n : nat) (p1 n1 p2 n2 : Z) : wcode unit :=
  match n with
  | 0%nat => WRet tt
  | S n' =>
      let e := locals sp in
      let shl x := (2 * x) mod 256 in
      doubleJacobianW one (sp + frame) (e qx) (e qy) (e qz) (e qx) (e qy) (e qz) ;;
      addPW one sp (e p1x) (py1 ps) (pyn1 ps) (e p1z) p1 n1 ;;
      addPW one sp (e p2x) (py2 ps) (pyn2 ps) (e p2z) p2 n2 ;;
      smBitsW one sp ps n' (shl p1) (shl n1) (shl p2) (shl n2)
  end.
(** l.804-850 *)
Fixpoint smLoopW (one sp : ptr) (ps : smptrs) (p1 n1 p2 n2 : list Z) : wcode unit :=
  match p1, n1, p2, n2 with
  | a :: p1, b :: n1, c :: p2, d :: n2 => smBitsW one sp ps 8 a b c d ;; smLoopW one sp ps p1 n1 p2 n2
  | _, _, _, _ => WRet tt
  end.
(** l.761-861 ScalarMult *)
Definition ScalarMultW (one beta sp : ptr) (Bx By : Z) (k : list Z) : wcode (R (Z * Z)) :=
  let e := locals sp in
  zerosW (e qx) (e qy) (e qz) ;;
  let '(k1, k2, signK1, signK2) := splitK (moduloReduce k) in
  ok <- fromAffineW (e p1x) (e p1y) Bx By ;;
  if negb ok then WRet Panic
  else
    execW (sp + frame) e [NegateVal p1yNeg p1y 1; SetInt p1z 1] ;;
    execW (sp + frame) (fun r => match r with X1 => beta | _ => e r end) [Mul2 p2x p1x X1] ;;
    execW (sp + frame) e [Set_ p2y p1y; NegateVal p2yNeg p2y 1; SetInt p2z 1] ;;
    let '(y1, yn1) := if signK1 =? -1 then (e p1yNeg, e p1y) else (e p1y, e p1yNeg) in
    let '(y2, yn2) := if signK2 =? -1 then (e p2yNeg, e p2y) else (e p2y, e p2yNeg) in
    let '(k1PosNAF, k1NegNAF) := NAF k1 in
    let '(k2PosNAF, k2NegNAF) := NAF k2 in
    let n := Nat.max (length k1PosNAF) (length k2PosNAF) in
    let ps := {| py1 := y1; pyn1 := yn1; py2 := y2; pyn2 := yn2 |} in
    smLoopW one sp ps (padTo n k1PosNAF) (padTo n k1NegNAF) (padTo n k2PosNAF) (padTo n k2NegNAF) ;;
    r <- toAffineW (sp + frame) (e qx) (e qy) (e qz) ;; WRet (Ok r).

(** l.878-881, 900-903 *)
Fixpoint sbmLoopW (one sp : ptr) (tab : nat -> Z -> nat -> ptr) (i : nat) (k : list Z) : wcode bool :=
  match k with
  | [] => WRet true
  | b :: r =>
      let e := locals sp in
      if (Nat.ltb i 32) && (0 <=? b) && (b <? 256) then
        v <- loadW (tab i b 0%nat) ;; w <- loadW (tab i b 1%nat) ;; x <- loadW (tab i b 2%nat) ;;
        putW (e pE0) v ;; putW (e pE1) w ;; putW (e pE2) x ;;
        addJacobianW one (sp + frame) (e qx) (e qy) (e qz) (e pE0) (e pE1) (e pE2) (e qx) (e qy) (e qz) ;;
        sbmLoopW one sp tab (S i) r
      else WRet false
  end.
(** l.866-883 ScalarBaseMult, l.888-905 ScalarBaseMultH *)
Definition scalarTableMultW (one sp : ptr) (tab : nat -> Z -> nat -> ptr) (k : list Z) : wcode (R (Z * Z)) :=
  let e := locals sp in
  let newK := moduloReduce k in
  let diff := (32 - length newK)%nat in
  zerosW (e qx) (e qy) (e qz) ;;
  ok <- sbmLoopW one sp tab diff newK ;;
  if negb ok then WRet Panic
  else r <- toAffineW (sp + frame) (e qx) (e qy) (e qz) ;; WRet (Ok r).

(** goroutines: a schedule is the list of the goroutines that make the next access *)
Fixpoint interleaveW {A : Type} (s : list nat) (t : nat -> wcode A) (m : mem) : (nat -> wcode A) * mem :=
  match s with
  | [] => (t, m)
  | i :: r => let '(c, m') := stepW (t i) m in interleaveW r (fun j => if Nat.eqb j i then c else t j) m'
  end.
