(** * Model of the pointer level of /repo/btcec/btcec.go

    Koblitz.v writes the curve methods as functions on values.  The code works in place:
    fieldVal variables are passed by pointer, methods of fieldVal write their receiver,
    inputs are normalized where they are, and callers pass the same pointers as input
    and output.  Here the same methods are written as the code has them, statement by
    statement, on a memory of fieldVal variables.

    A pointer is an integer.  Variables declared with var or new live in the frame of
    the call, at [sp] and above; a callee gets a frame above the caller's.  Variables of
    the caller and shared ones (fieldOne, the curve's beta, the tables) are below [sp].
    Simplification: a method of fieldVal reads its operands and writes its receiver in
    one step.  FieldMem.v writes the methods as loads and stores of single words, and
    C76 proves that they act as such a step whichever pointers are equal. *)
From Coq Require Import ZArith List Bool.
From Verif Require Import Go Wire Big Field Koblitz.
Import ListNotations.
Open Scope Z_scope.

Definition ptr : Type := Z.
Definition mem : Type := ptr -> fieldVal.
Definition upd (m : mem) (p : ptr) (v : fieldVal) : mem := fun q => if q =? p then v else m q.

(** the names of pointer arguments and of local variables *)
Inductive reg : Type :=
| X1 | Y1 | Z1 | X2 | Y2 | Z2 | X3 | Y3 | Z3
| rA | rB | rC | rD | rE | rF | rH | rHH | rI | rJ | rR | rRR | rV
| z1z1 | z2z2 | u1 | u2 | s1 | s2
| negJ | neg2V | negX1 | negY1 | negE | negX3 | negU1 | negS1
| zInv | tempZ | fx1 | fy1 | fx2 | fy2 | fx3 | fy3 | fz3 | fOne
| qx | qy | qz | p1x | p1y | p1yNeg | p1z | p2x | p2y | p2yNeg | p2z | pE0 | pE1 | pE2.
Definition idx (r : reg) : Z :=
  match r with
  | X1 => 0 | Y1 => 1 | Z1 => 2 | X2 => 3 | Y2 => 4 | Z2 => 5 | X3 => 6 | Y3 => 7 | Z3 => 8
  | rA => 9 | rB => 10 | rC => 11 | rD => 12 | rE => 13 | rF => 14 | rH => 15 | rHH => 16 | rI => 17 | rJ => 18
  | rR => 19 | rRR => 20 | rV => 21 | z1z1 => 22 | z2z2 => 23 | u1 => 24 | u2 => 25 | s1 => 26 | s2 => 27
  | negJ => 28 | neg2V => 29 | negX1 => 30 | negY1 => 31 | negE => 32 | negX3 => 33 | negU1 => 34 | negS1 => 35
  | zInv => 36 | tempZ => 37 | fx1 => 38 | fy1 => 39 | fx2 => 40 | fy2 => 41 | fx3 => 42 | fy3 => 43 | fz3 => 44 | fOne => 45
  | qx => 46 | qy => 47 | qz => 48 | p1x => 49 | p1y => 50 | p1yNeg => 51 | p1z => 52 | p2x => 53 | p2y => 54 | p2yNeg => 55
  | p2z => 56 | pE0 => 57 | pE1 => 58 | pE2 => 59
  end.
(** the size of a frame *)
Definition frame : Z := 64.
(** where the variable [r] of the frame [sp] is; [a] gives the pointer arguments *)
Definition env (sp : ptr) (a : reg -> option ptr) (r : reg) : ptr :=
  match a r with Some p => p | None => sp + idx r end.

(** the statements: one call of a method of fieldVal (field.go).  [Set_ d s] is
    d.Set(&s); a chain of calls is a list of statements with the same receiver *)
Inductive ins : Type :=
| Set_ (d s : reg) | SetInt (d : reg) (n : Z) | Normalize (d : reg) | Negate (d : reg) (m : Z) | NegateVal (d s : reg) (m : Z)
| Add_ (d s : reg) | Add2 (d s t : reg) | MulInt (d : reg) (n : Z) | Mul (d s : reg) | Mul2 (d s t : reg)
| Square (d : reg) | SquareVal (d s : reg) | Inverse (d : reg).
Definition step (e : reg -> ptr) (i : ins) (m : mem) : mem :=
  match i with
  | Set_ d s => upd m (e d) (m (e s))
  | SetInt d n => upd m (e d) (fSetInt n)
  | Normalize d => upd m (e d) (fNormalize (m (e d)))
  | Negate d k => upd m (e d) (fNegate (m (e d)) k)
  | NegateVal d s k => upd m (e d) (fNegate (m (e s)) k)
  | Add_ d s => upd m (e d) (fAdd (m (e d)) (m (e s)))
  | Add2 d s t => upd m (e d) (fAdd (m (e s)) (m (e t)))
  | MulInt d n => upd m (e d) (fMulInt (m (e d)) n)
  | Mul d s => upd m (e d) (fMul (m (e d)) (m (e s)))
  | Mul2 d s t => upd m (e d) (fMul (m (e s)) (m (e t)))
  | Square d => upd m (e d) (fSquare (m (e d)))
  | SquareVal d s => upd m (e d) (fSquare (m (e s)))
  | Inverse d => upd m (e d) (fInverse (m (e d)))
  end.
Definition exec (e : reg -> ptr) (l : list ins) (m : mem) : mem := fold_left (fun m i => step e i m) l m.

(** pointer arguments of a call *)
Definition args6 (x1 y1 z1 x3 y3 z3 : ptr) (r : reg) : option ptr :=
  match r with X1 => Some x1 | Y1 => Some y1 | Z1 => Some z1 | X3 => Some x3 | Y3 => Some y3 | Z3 => Some z3 | _ => None end.
Definition args9 (x1 y1 z1 x2 y2 z2 x3 y3 z3 : ptr) (r : reg) : option ptr :=
  match r with
  | X1 => Some x1 | Y1 => Some y1 | Z1 => Some z1 | X2 => Some x2 | Y2 => Some y2 | Z2 => Some z2
  | X3 => Some x3 | Y3 => Some y3 | Z3 => Some z3 | _ => None
  end.
(** without z2: addZ1AndZ2EqualsOne, addZ1EqualsZ2 and addZ2EqualsOne *)
Definition args8 (x1 y1 z1 x2 y2 x3 y3 z3 : ptr) (r : reg) : option ptr :=
  match r with
  | X1 => Some x1 | Y1 => Some y1 | Z1 => Some z1 | X2 => Some x2 | Y2 => Some y2
  | X3 => Some x3 | Y3 => Some y3 | Z3 => Some z3 | _ => None
  end.
Definition infProg : list ins := [SetInt X3 0; SetInt Y3 0; SetInt Z3 0].

(** l.511-528 doubleZ1EqualsOne *)
Definition dbl1Prog : list ins :=
  [Set_ Z3 Y1; MulInt Z3 2;
   SquareVal rA X1;
   SquareVal rB Y1;
   SquareVal rC rB;
   Add_ rB X1; Square rB;
   Set_ rD rA; Add_ rD rC; Negate rD 2;
   Add_ rD rB; MulInt rD 2;
   Set_ rE rA; MulInt rE 3;
   SquareVal rF rE;
   Set_ X3 rD; MulInt X3 2; Negate X3 16;
   Add_ X3 rF;
   Set_ rF X3; Negate rF 18; Add_ rF rD; Normalize rF;
   Set_ Y3 rC; MulInt Y3 8; Negate Y3 8;
   Mul rF rE; Add_ Y3 rF;
   Normalize X3; Normalize Y3; Normalize Z3].
(** l.560-577 doubleGeneric *)
Definition dblProg : list ins :=
  [Mul2 Z3 Y1 Z1; MulInt Z3 2;
   SquareVal rA X1;
   SquareVal rB Y1;
   SquareVal rC rB;
   Add_ rB X1; Square rB;
   Set_ rD rA; Add_ rD rC; Negate rD 2;
   Add_ rD rB; MulInt rD 2;
   Set_ rE rA; MulInt rE 3;
   SquareVal rF rE;
   Set_ X3 rD; MulInt X3 2; Negate X3 16;
   Add_ X3 rF;
   Set_ rF X3; Negate rF 18; Add_ rF rD; Normalize rF;
   Set_ Y3 rC; MulInt Y3 8; Negate Y3 8;
   Mul rF rE; Add_ Y3 rF;
   Normalize X3; Normalize Y3; Normalize Z3].
(** l.582-603 doubleJacobian; [one] is the pointer fieldOne *)
Definition doubleJacobianM (one sp x1 y1 z1 x3 y3 z3 : ptr) (m : mem) : mem :=
  let e := env sp (args6 x1 y1 z1 x3 y3 z3) in
  if fIsZero (m y1) || fIsZero (m z1) then exec e infProg m
  else
    let m := exec e [Normalize Z1] m in
    if fEquals (m z1) (m one) then exec e dbl1Prog m else exec e dblProg m.

(** l.148-151, 214-217: the arguments are normalized in place *)
Definition normProg : list ins := [Normalize X1; Normalize Y1; Normalize X2; Normalize Y2].
(** l.172-187 addZ1AndZ2EqualsOne *)
Definition addOneProg : list ins :=
  [Set_ rH X1; Negate rH 1; Add_ rH X2;
   SquareVal rI rH; MulInt rI 4;
   Mul2 rJ rH rI;
   Set_ rR Y1; Negate rR 1; Add_ rR Y2; MulInt rR 2;
   Mul2 rV X1 rI;
   Set_ negJ rJ; Negate negJ 1;
   Set_ neg2V rV; MulInt neg2V 2; Negate neg2V 2;
   Set_ X3 rR; Square X3; Add_ X3 negJ; Add_ X3 neg2V;
   Set_ negX3 X3; Negate negX3 6;
   Mul rJ Y1; MulInt rJ 2; Negate rJ 2;
   Set_ Y3 rV; Add_ Y3 negX3; Mul Y3 rR; Add_ Y3 rJ;
   Set_ Z3 rH; MulInt Z3 2;
   Normalize X3; Normalize Y3; Normalize Z3].
(** l.129-188 addZ1AndZ2EqualsOne *)
Definition addZ1AndZ2EqualsOneM (one sp x1 y1 z1 x2 y2 x3 y3 z3 : ptr) (m : mem) : mem :=
  let e := env sp (args8 x1 y1 z1 x2 y2 x3 y3 z3) in
  let m := exec e normProg m in
  if fEquals (m x1) (m x2) then
    if fEquals (m y1) (m y2) then doubleJacobianM one (sp + frame) x1 y1 z1 x3 y3 z3 m else exec e infProg m
  else exec e addOneProg m.

(** l.238-255 addZ1EqualsZ2 *)
Definition addEqProg : list ins :=
  [Set_ negX1 X1; Negate negX1 1;
   Set_ negY1 Y1; Negate negY1 1;
   Set_ rA negX1; Add_ rA X2;
   SquareVal rB rA;
   Set_ rC negY1; Add_ rC Y2;
   SquareVal rD rC;
   Mul2 rE X1 rB;
   Set_ negE rE; Negate negE 1;
   Mul2 rF X2 rB;
   Add2 X3 rE rF; Negate X3 3; Add_ X3 rD;
   Set_ negX3 X3; Negate negX3 5; Normalize negX3;
   Set_ Y3 Y1; Add_ rF negE; Mul Y3 rF; Negate Y3 3;
   Add_ rE negX3; Mul rE rC; Add_ Y3 rE;
   Mul2 Z3 Z1 rA;
   Normalize X3; Normalize Y3].
(** l.195-256 addZ1EqualsZ2 *)
Definition addZ1EqualsZ2M (one sp x1 y1 z1 x2 y2 x3 y3 z3 : ptr) (m : mem) : mem :=
  let e := env sp (args8 x1 y1 z1 x2 y2 x3 y3 z3) in
  let m := exec e normProg m in
  if fEquals (m x1) (m x2) then
    if fEquals (m y1) (m y2) then doubleJacobianM one (sp + frame) x1 y1 z1 x3 y3 z3 m else exec e infProg m
  else exec e addEqProg m.

(** l.288-292 addZ2EqualsOne *)
Definition likeProg : list ins :=
  [Normalize X1; Normalize Y1;
   SquareVal z1z1 Z1;
   Set_ u2 X2; Mul u2 z1z1; Normalize u2;
   Set_ s2 Y2; Mul s2 z1z1; Mul s2 Z1; Normalize s2].
(** l.314-333 addZ2EqualsOne *)
Definition addZ2Prog : list ins :=
  [Set_ negX1 X1; Negate negX1 1;
   Add2 rH u2 negX1;
   SquareVal rHH rH;
   Set_ rI rHH; MulInt rI 4;
   Mul2 rJ rH rI;
   Set_ negY1 Y1; Negate negY1 1;
   Set_ rR s2; Add_ rR negY1; MulInt rR 2;
   SquareVal rRR rR;
   Mul2 rV X1 rI;
   Set_ X3 rV; MulInt X3 2; Add_ X3 rJ; Negate X3 3;
   Add_ X3 rRR;
   Set_ negX3 X3; Negate negX3 5;
   Set_ Y3 Y1; Mul Y3 rJ; MulInt Y3 2; Negate Y3 2;
   Add_ rV negX3; Mul rV rR; Add_ Y3 rV;
   Add2 Z3 Z1 rH; Square Z3;
   Add_ z1z1 rHH; Negate z1z1 2; Add_ Z3 z1z1;
   Normalize X3; Normalize Y3; Normalize Z3].
(** l.264-334 addZ2EqualsOne *)
Definition addZ2EqualsOneM (one sp x1 y1 z1 x2 y2 x3 y3 z3 : ptr) (m : mem) : mem :=
  let e := env sp (args8 x1 y1 z1 x2 y2 x3 y3 z3) in
  let m := exec e likeProg m in
  if fEquals (m x1) (m (e u2)) then
    if fEquals (m y1) (m (e s2)) then doubleJacobianM one (sp + frame) x1 y1 z1 x3 y3 z3 m else exec e infProg m
  else exec e addZ2Prog m.

(** l.364-369 addGeneric *)
Definition likeProg2 : list ins :=
  [SquareVal z1z1 Z1;
   SquareVal z2z2 Z2;
   Set_ u1 X1; Mul u1 z2z2; Normalize u1;
   Set_ u2 X2; Mul u2 z1z1; Normalize u2;
   Set_ s1 Y1; Mul s1 z2z2; Mul s1 Z2; Normalize s1;
   Set_ s2 Y2; Mul s2 z1z1; Mul s2 Z1; Normalize s2].
(** l.391-408 addGeneric *)
Definition addProg : list ins :=
  [Set_ negU1 u1; Negate negU1 1;
   Add2 rH u2 negU1;
   Set_ rI rH; MulInt rI 2; Square rI;
   Mul2 rJ rH rI;
   Set_ negS1 s1; Negate negS1 1;
   Set_ rR s2; Add_ rR negS1; MulInt rR 2;
   SquareVal rRR rR;
   Mul2 rV u1 rI;
   Set_ X3 rV; MulInt X3 2; Add_ X3 rJ; Negate X3 3;
   Add_ X3 rRR;
   Set_ negX3 X3; Negate negX3 5;
   Mul2 Y3 s1 rJ; MulInt Y3 2; Negate Y3 2;
   Add_ rV negX3; Mul rV rR; Add_ Y3 rV;
   Add2 Z3 Z1 Z2; Square Z3;
   Add_ z1z1 z2z2; Negate z1z1 2; Add_ Z3 z1z1;
   Mul Z3 rH;
   Normalize X3; Normalize Y3].
(** l.340-409 addGeneric *)
Definition addGenericM (one sp x1 y1 z1 x2 y2 z2 x3 y3 z3 : ptr) (m : mem) : mem :=
  let e := env sp (args9 x1 y1 z1 x2 y2 z2 x3 y3 z3) in
  let m := exec e likeProg2 m in
  if fEquals (m (e u1)) (m (e u2)) then
    if fEquals (m (e s1)) (m (e s2)) then doubleJacobianM one (sp + frame) x1 y1 z1 x3 y3 z3 m else exec e infProg m
  else exec e addProg m.

(** l.413-453 addJacobian *)
Definition addJacobianM (one sp x1 y1 z1 x2 y2 z2 x3 y3 z3 : ptr) (m : mem) : mem :=
  let e := env sp (args9 x1 y1 z1 x2 y2 z2 x3 y3 z3) in
  if (fIsZero (m x1) && fIsZero (m y1)) || fIsZero (m z1) then exec e [Set_ X3 X2; Set_ Y3 Y2; Set_ Z3 Z2] m
  else if (fIsZero (m x2) && fIsZero (m y2)) || fIsZero (m z2) then exec e [Set_ X3 X1; Set_ Y3 Y1; Set_ Z3 Z1] m
  else
    let m := exec e [Normalize Z1; Normalize Z2] m in
    let isZ1One := fEquals (m z1) (m one) in
    let isZ2One := fEquals (m z2) (m one) in
    if isZ1One && isZ2One then addZ1AndZ2EqualsOneM one (sp + frame) x1 y1 z1 x2 y2 x3 y3 z3 m
    else if fEquals (m z1) (m z2) then addZ1EqualsZ2M one (sp + frame) x1 y1 z1 x2 y2 x3 y3 z3 m
    else if isZ2One then addZ2EqualsOneM one (sp + frame) x1 y1 z1 x2 y2 x3 y3 z3 m
    else addGenericM one (sp + frame) x1 y1 z1 x2 y2 z2 x3 y3 z3 m.

(** l.88-109 fieldJacobianToBigAffine(x, y, z): the point is made affine in place *)
Definition affineProg : list ins :=
  [Set_ zInv Z1; Inverse zInv;
   SquareVal tempZ zInv;
   Mul X1 tempZ;
   Mul tempZ zInv; Mul Y1 tempZ;
   SetInt Z1 1;
   Normalize X1; Normalize Y1].
Definition toAffineM (sp x y z : ptr) (m : mem) : (Z * Z) * mem :=
  let e := env sp (fun r => match r with X1 => Some x | Y1 => Some y | Z1 => Some z | _ => None end) in
  let m := exec e affineProg m in
  ((beval (fBytes (m x)), beval (fBytes (m y))), m).

(** l.78-84 bigAffineToField, into the variables at [px] and [py] *)
Definition fromAffineM (px py : ptr) (x y : Z) (m : mem) : R mem :=
  bind (fSetByteSlice (bigBytes x)) (fun x3 =>
  bind (fSetByteSlice (bigBytes y)) (fun y3 => Ok (upd (upd m px x3) py y3))).

(** variables only, no pointer arguments *)
Definition locals (sp : ptr) (r : reg) : ptr := sp + idx r.

(** l.457-478 Add.  The results in the first two cases are the pointers passed in *)
Definition AddM (one sp : ptr) (x1 y1 x2 y2 : Z) (m : mem) : R ((Z * Z) * mem) :=
  if (x1 =? 0) && (y1 =? 0) then Ok ((x2, y2), m)
  else if (x2 =? 0) && (y2 =? 0) then Ok ((x1, y1), m)
  else
    let e := locals sp in
    bind (fromAffineM (e fx1) (e fy1) x1 y1 m) (fun m =>
    bind (fromAffineM (e fx2) (e fy2) x2 y2 m) (fun m =>
    let m := upd (upd (upd m (e fx3) fZero) (e fy3) fZero) (e fz3) fZero in
    let m := exec e [SetInt fOne 1] m in
    let m := addJacobianM one (sp + frame) (e fx1) (e fy1) (e fOne) (e fx2) (e fy2) (e fOne) (e fx3) (e fy3) (e fz3) m in
    Ok (toAffineM (sp + frame) (e fx3) (e fy3) (e fz3) m))).

(** l.606-621 Double *)
Definition DoubleM (one sp : ptr) (x1 y1 : Z) (m : mem) : R ((Z * Z) * mem) :=
  if y1 =? 0 then Ok ((0, 0), m)
  else
    let e := locals sp in
    bind (fromAffineM (e fx1) (e fy1) x1 y1 m) (fun m =>
    let m := upd (upd (upd m (e fx3) fZero) (e fy3) fZero) (e fz3) fZero in
    let m := exec e [SetInt fOne 1] m in
    let m := doubleJacobianM one (sp + frame) (e fx1) (e fy1) (e fOne) (e fx3) (e fy3) (e fz3) m in
    Ok (toAffineM (sp + frame) (e fx3) (e fy3) (e fz3) m)).

(** the pointer variables of ScalarMult that l.789-794 may swap *)
Record smptrs := { py1 : ptr; pyn1 : ptr; py2 : ptr; pyn2 : ptr }.
(** l.826-844: the conditional additions of one bit, Q += P or Q += -P *)
Definition addPM (one sp x y yn z : ptr) (pos neg : Z) (m : mem) : mem :=
  let e := locals sp in
  if Z.land pos 0x80 =? 0x80 then addJacobianM one (sp + frame) (e qx) (e qy) (e qz) x y z (e qx) (e qy) (e qz) m
  else if Z.land neg 0x80 =? 0x80 then addJacobianM one (sp + frame) (e qx) (e qy) (e qz) x yn z (e qx) (e qy) (e qz) m
  else m.
(** l.822-849 *)
Fixpoint smBitsM (one sp : ptr) (ps : smptrs) (n : nat) (p1 n1 p2 n2 : Z) (m : mem) : mem :=
  match n with
  | 0%nat => m
  | S n' =>
      let e := locals sp in
      let m := doubleJacobianM one (sp + frame) (e qx) (e qy) (e qz) (e qx) (e qy) (e qz) m in
      let m := addPM one sp (e p1x) (py1 ps) (pyn1 ps) (e p1z) p1 n1 m in
      let m := addPM one sp (e p2x) (py2 ps) (pyn2 ps) (e p2z) p2 n2 m in
      let shl x := (2 * x) mod 256 in
      smBitsM one sp ps n' (shl p1) (shl n1) (shl p2) (shl n2) m
  end.
(** l.804-850 *)
Fixpoint smLoopM (one sp : ptr) (ps : smptrs) (p1 n1 p2 n2 : list Z) (m : mem) : mem :=
  match p1, n1, p2, n2 with
  | a :: p1, b :: n1, c :: p2, d :: n2 => smLoopM one sp ps p1 n1 p2 n2 (smBitsM one sp ps 8 a b c d m)
  | _, _, _, _ => m
  end.
(** l.761-861 ScalarMult; [beta] is the pointer curve.beta *)
Definition ScalarMultM (one beta sp : ptr) (Bx By : Z) (k : list Z) (m : mem) : R ((Z * Z) * mem) :=
  let e := locals sp in
  let m := upd (upd (upd m (e qx) fZero) (e qy) fZero) (e qz) fZero in
  let '(k1, k2, signK1, signK2) := splitK (moduloReduce k) in
  bind (fromAffineM (e p1x) (e p1y) Bx By m) (fun m =>
  let m := exec e [NegateVal p1yNeg p1y 1; SetInt p1z 1] m in
  let m := exec (fun r => match r with X1 => beta | _ => e r end) [Mul2 p2x p1x X1] m in
  let m := exec e [Set_ p2y p1y; NegateVal p2yNeg p2y 1; SetInt p2z 1] m in
  let '(y1, yn1) := if signK1 =? -1 then (e p1yNeg, e p1y) else (e p1y, e p1yNeg) in
  let '(y2, yn2) := if signK2 =? -1 then (e p2yNeg, e p2y) else (e p2y, e p2yNeg) in
  let '(k1PosNAF, k1NegNAF) := NAF k1 in
  let '(k2PosNAF, k2NegNAF) := NAF k2 in
  let n := Nat.max (length k1PosNAF) (length k2PosNAF) in
  let ps := {| py1 := y1; pyn1 := yn1; py2 := y2; pyn2 := yn2 |} in
  let m := smLoopM one sp ps (padTo n k1PosNAF) (padTo n k1NegNAF) (padTo n k2PosNAF) (padTo n k2NegNAF) m in
  Ok (toAffineM (sp + frame) (e qx) (e qy) (e qz) m)).

(** l.878-881, 900-903: p is a variable of the loop, a copy of the table entry; [tab i b c]
    is the address of coordinate c of bytePoints[i][b], an array of 32*256*3 words *)
Fixpoint sbmLoopM (one sp : ptr) (tab : nat -> Z -> nat -> ptr) (i : nat) (k : list Z) (m : mem) : R mem :=
  match k with
  | [] => Ok m
  | b :: r =>
      let e := locals sp in
      if (Nat.ltb i 32) && (0 <=? b) && (b <? 256) then
        let m := upd (upd (upd m (e pE0) (m (tab i b 0%nat))) (e pE1) (m (tab i b 1%nat))) (e pE2) (m (tab i b 2%nat)) in
        let m := addJacobianM one (sp + frame) (e qx) (e qy) (e qz) (e pE0) (e pE1) (e pE2) (e qx) (e qy) (e qz) m in
        sbmLoopM one sp tab (S i) r m
      else Panic
  end.
(** l.866-883 ScalarBaseMult, l.888-905 ScalarBaseMultH *)
Definition scalarTableMultM (one sp : ptr) (tab : nat -> Z -> nat -> ptr) (k : list Z) (m : mem) : R ((Z * Z) * mem) :=
  let e := locals sp in
  let newK := moduloReduce k in
  let diff := (32 - length newK)%nat in
  let m := upd (upd (upd m (e qx) fZero) (e qy) fZero) (e qz) fZero in
  bind (sbmLoopM one sp tab diff newK m) (fun m =>
  Ok (toAffineM (sp + frame) (e qx) (e qy) (e qz) m)).
