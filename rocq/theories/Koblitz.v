(** * Model of /repo/btcec/btcec.go

    Field values are those of Field.v, coordinates passed as *big.Int are integers.
    Methods that write through their last three arguments x3, y3, z3 are functions
    returning the triple.  The callers pass the same pointers for x1, y1, z1 and x3,
    y3, z3 (ScalarMult, ScalarBaseMult, and the doubling inside the additions); that
    the result does not depend on it is proved from the code with pointers, KoblitzMem.v,
    as property C72.
    The methods also normalize their arguments in place; where the caller uses the
    argument again ([addJacobian]'s second point, in ScalarMult) the model returns
    the new value. *)
From Coq Require Import ZArith List Bool.
From Verif Require Import Go Wire Big Field.
Import ListNotations.
Open Scope Z_scope.

Definition jpt : Type := (fieldVal * fieldVal * fieldVal)%type.

(** l.32 fieldOne *)
Definition fieldOne : fieldVal := fSetInt 1.

(** l.932-981 initS256: the curve constants *)
Definition curveP : Z := 0xFFFFFFFFFFFFFFFFFFFFFFFFFFFFFFFFFFFFFFFFFFFFFFFFFFFFFFFEFFFFFC2F.
Definition curveN : Z := 0xFFFFFFFFFFFFFFFFFFFFFFFFFFFFFFFEBAAEDCE6AF48A03BBFD25E8CD0364141.
Definition curveB : Z := 7.
Definition curveGx : Z := 0x79BE667EF9DCBBAC55A06295CE870B07029BFCDB2DCE28D959F2815B16F81798.
Definition curveGy : Z := 0x483ADA7726A3C4655DA4FBFC0E1108A8FD17B448A68554199C47D08FFB10D4B8.
Definition curveBitSize : Z := 256.
Definition curveQ : Z := (curveP + 1) / 4.
Definition curveH : Z := 1.
Definition halfOrder : Z := Z.shiftr curveN 1.
Definition byteSize : Z := curveBitSize / 8.
Definition curveLambda : Z := 0x5363AD4CC05C30E0A5261C028812645A122E22EA20816678DF02967C1B23BD72.
(** beta is stored by SetHex, i.e. SetByteSlice of the decoded 32 bytes *)
Definition curveBeta : fieldVal :=
  fSetBytes (be_bytes 32 0x7AE96A2B657C07106E64479EAC3434E99CF0497512F58995C1396C28719501EE).
Definition curveA1 : Z := 0x3086D221A7D46BCDE86C90E49284EB15.
Definition curveB1 : Z := - 0xE4437ED6010E88286F547FA90ABFE4C3.
Definition curveA2 : Z := 0x114CA50F7A8E2F3F657C1108D9D44CFD8.
Definition curveB2 : Z := 0x3086D221A7D46BCDE86C90E49284EB15.

(** l.78-84 bigAffineToField *)
Definition bigAffineToField (x y : Z) : R (fieldVal * fieldVal) :=
  bind (fSetByteSlice (bigBytes x)) (fun x3 =>
  bind (fSetByteSlice (bigBytes y)) (fun y3 => Ok (x3, y3))).

(** l.88-109 fieldJacobianToBigAffine *)
Definition fieldJacobianToBigAffine (q : jpt) : Z * Z :=
  let '(x, y, z) := q in
  let zInv := fInverse z in
  let tempZ := fSquare zInv in
  let x := fMul x tempZ in
  let tempZ := fMul tempZ zInv in
  let y := fMul y tempZ in
  (beval (fBytes (fNormalize x)), beval (fBytes (fNormalize y))).

(** l.114-122 IsOnCurve *)
Definition IsOnCurve (x y : Z) : R bool :=
  bind (bigAffineToField x y) (fun '(fx, fy) =>
  let y2 := fNormalize (fSquare fy) in
  let result := fNormalize (fAddInt (fMul (fSquare fx) fx) 7) in
  Ok (fEquals y2 result)).

(** l.485-529 doubleZ1EqualsOne *)
Definition doubleZ1EqualsOne (x1 y1 : fieldVal) : jpt :=
  let z3 := fMulInt y1 2 in
  let a := fSquare x1 in
  let b := fSquare y1 in
  let c := fSquare b in
  let b := fSquare (fAdd b x1) in
  let d := fNegate (fAdd a c) 2 in
  let d := fMulInt (fAdd d b) 2 in
  let e := fMulInt a 3 in
  let f := fSquare e in
  let x3 := fNegate (fMulInt d 2) 16 in
  let x3 := fAdd x3 f in
  let f := fNormalize (fAdd (fNegate x3 18) d) in
  let y3 := fNegate (fMulInt c 8) 8 in
  let y3 := fAdd y3 (fMul f e) in
  (fNormalize x3, fNormalize y3, fNormalize z3).

(** l.535-578 doubleGeneric *)
Definition doubleGeneric (x1 y1 z1 : fieldVal) : jpt :=
  let z3 := fMulInt (fMul y1 z1) 2 in
  let a := fSquare x1 in
  let b := fSquare y1 in
  let c := fSquare b in
  let b := fSquare (fAdd b x1) in
  let d := fNegate (fAdd a c) 2 in
  let d := fMulInt (fAdd d b) 2 in
  let e := fMulInt a 3 in
  let f := fSquare e in
  let x3 := fNegate (fMulInt d 2) 16 in
  let x3 := fAdd x3 f in
  let f := fNormalize (fAdd (fNegate x3 18) d) in
  let y3 := fNegate (fMulInt c 8) 8 in
  let y3 := fAdd y3 (fMul f e) in
  (fNormalize x3, fNormalize y3, fNormalize z3).

Definition jInf : jpt := (fSetInt 0, fSetInt 0, fSetInt 0).

(** l.582-603 doubleJacobian *)
Definition doubleJacobian (p : jpt) : jpt :=
  let '(x1, y1, z1) := p in
  if fIsZero y1 || fIsZero z1 then jInf
  else
    let z1 := fNormalize z1 in
    if fEquals z1 fieldOne then doubleZ1EqualsOne x1 y1
    else doubleGeneric x1 y1 z1.

(** l.129-188 addZ1AndZ2EqualsOne *)
Definition addZ1AndZ2EqualsOne (x1 y1 z1 x2 y2 : fieldVal) : jpt :=
  let x1 := fNormalize x1 in
  let y1 := fNormalize y1 in
  let x2 := fNormalize x2 in
  let y2 := fNormalize y2 in
  if fEquals x1 x2 then
    if fEquals y1 y2 then doubleJacobian (x1, y1, z1) else jInf
  else
    let h := fAdd (fNegate x1 1) x2 in
    let i := fMulInt (fSquare h) 4 in
    let j := fMul h i in
    let r := fMulInt (fAdd (fNegate y1 1) y2) 2 in
    let v := fMul x1 i in
    let negJ := fNegate j 1 in
    let neg2V := fNegate (fMulInt v 2) 2 in
    let x3 := fAdd (fAdd (fSquare r) negJ) neg2V in
    let negX3 := fNegate x3 6 in
    let j := fNegate (fMulInt (fMul j y1) 2) 2 in
    let y3 := fAdd (fMul (fAdd v negX3) r) j in
    let z3 := fMulInt h 2 in
    (fNormalize x3, fNormalize y3, fNormalize z3).

(** l.195-256 addZ1EqualsZ2 *)
Definition addZ1EqualsZ2 (x1 y1 z1 x2 y2 : fieldVal) : jpt :=
  let x1 := fNormalize x1 in
  let y1 := fNormalize y1 in
  let x2 := fNormalize x2 in
  let y2 := fNormalize y2 in
  if fEquals x1 x2 then
    if fEquals y1 y2 then doubleJacobian (x1, y1, z1) else jInf
  else
    let negX1 := fNegate x1 1 in
    let negY1 := fNegate y1 1 in
    let a := fAdd negX1 x2 in
    let b := fSquare a in
    let c := fAdd negY1 y2 in
    let d := fSquare c in
    let e := fMul x1 b in
    let negE := fNegate e 1 in
    let f := fMul x2 b in
    let x3 := fAdd (fNegate (fAdd e f) 3) d in
    let negX3 := fNormalize (fNegate x3 5) in
    let y3 := fNegate (fMul y1 (fAdd f negE)) 3 in
    let y3 := fAdd y3 (fMul (fAdd e negX3) c) in
    let z3 := fMul z1 a in
    (fNormalize x3, fNormalize y3, z3).

(** l.264-334 addZ2EqualsOne *)
Definition addZ2EqualsOne (x1 y1 z1 x2 y2 : fieldVal) : jpt :=
  let x1 := fNormalize x1 in
  let y1 := fNormalize y1 in
  let z1z1 := fSquare z1 in
  let u2 := fNormalize (fMul x2 z1z1) in
  let s2 := fNormalize (fMul (fMul y2 z1z1) z1) in
  if fEquals x1 u2 then
    if fEquals y1 s2 then doubleJacobian (x1, y1, z1) else jInf
  else
    let negX1 := fNegate x1 1 in
    let h := fAdd u2 negX1 in
    let hh := fSquare h in
    let i := fMulInt hh 4 in
    let j := fMul h i in
    let negY1 := fNegate y1 1 in
    let r := fMulInt (fAdd s2 negY1) 2 in
    let rr := fSquare r in
    let v := fMul x1 i in
    let x3 := fNegate (fAdd (fMulInt v 2) j) 3 in
    let x3 := fAdd x3 rr in
    let negX3 := fNegate x3 5 in
    let y3 := fNegate (fMulInt (fMul y1 j) 2) 2 in
    let y3 := fAdd y3 (fMul (fAdd v negX3) r) in
    let z3 := fSquare (fAdd z1 h) in
    let z3 := fAdd z3 (fNegate (fAdd z1z1 hh) 2) in
    (fNormalize x3, fNormalize y3, fNormalize z3).

(** l.340-409 addGeneric *)
Definition addGeneric (x1 y1 z1 x2 y2 z2 : fieldVal) : jpt :=
  let z1z1 := fSquare z1 in
  let z2z2 := fSquare z2 in
  let u1 := fNormalize (fMul x1 z2z2) in
  let u2 := fNormalize (fMul x2 z1z1) in
  let s1 := fNormalize (fMul (fMul y1 z2z2) z2) in
  let s2 := fNormalize (fMul (fMul y2 z1z1) z1) in
  if fEquals u1 u2 then
    if fEquals s1 s2 then doubleJacobian (x1, y1, z1) else jInf
  else
    let negU1 := fNegate u1 1 in
    let h := fAdd u2 negU1 in
    let i := fSquare (fMulInt h 2) in
    let j := fMul h i in
    let negS1 := fNegate s1 1 in
    let r := fMulInt (fAdd s2 negS1) 2 in
    let rr := fSquare r in
    let v := fMul u1 i in
    let x3 := fNegate (fAdd (fMulInt v 2) j) 3 in
    let x3 := fAdd x3 rr in
    let negX3 := fNegate x3 5 in
    let y3 := fNegate (fMulInt (fMul s1 j) 2) 2 in
    let y3 := fAdd y3 (fMul (fAdd v negX3) r) in
    let z3 := fSquare (fAdd z1 z2) in
    let z3 := fAdd z3 (fNegate (fAdd z1z1 z2z2) 2) in
    let z3 := fMul z3 h in
    (fNormalize x3, fNormalize y3, z3).

(** l.413-453 addJacobian: the sum, and the second argument as the call leaves it *)
Definition addJacobian (p q : jpt) : jpt * jpt :=
  let '(x1, y1, z1) := p in
  let '(x2, y2, z2) := q in
  if (fIsZero x1 && fIsZero y1) || fIsZero z1 then (q, q)
  else if (fIsZero x2 && fIsZero y2) || fIsZero z2 then (p, q)
  else
    let z1 := fNormalize z1 in
    let z2 := fNormalize z2 in
    let isZ1One := fEquals z1 fieldOne in
    let isZ2One := fEquals z2 fieldOne in
    if isZ1One && isZ2One then
      (addZ1AndZ2EqualsOne x1 y1 z1 x2 y2, (fNormalize x2, fNormalize y2, z2))
    else if fEquals z1 z2 then
      (addZ1EqualsZ2 x1 y1 z1 x2 y2, (fNormalize x2, fNormalize y2, z2))
    else if isZ2One then
      (addZ2EqualsOne x1 y1 z1 x2 y2, (x2, y2, z2))
    else (addGeneric x1 y1 z1 x2 y2 z2, (x2, y2, z2)).

(** l.457-478 Add *)
Definition Add (x1 y1 x2 y2 : Z) : R (Z * Z) :=
  if (x1 =? 0) && (y1 =? 0) then Ok (x2, y2)
  else if (x2 =? 0) && (y2 =? 0) then Ok (x1, y1)
  else
    bind (bigAffineToField x1 y1) (fun '(fx1, fy1) =>
    bind (bigAffineToField x2 y2) (fun '(fx2, fy2) =>
    let fOne := fSetInt 1 in
    Ok (fieldJacobianToBigAffine (fst (addJacobian (fx1, fy1, fOne) (fx2, fy2, fOne)))))).

(** l.606-621 Double *)
Definition Double (x1 y1 : Z) : R (Z * Z) :=
  if y1 =? 0 then Ok (0, 0)
  else
    bind (bigAffineToField x1 y1) (fun '(fx1, fy1) =>
    Ok (fieldJacobianToBigAffine (doubleJacobian (fx1, fy1, fSetInt 1)))).

(** l.631-664 splitK; big.Int.Div is Euclidean division, which for a positive divisor
    is the floor division [/] of Z *)
Definition splitK (k : list Z) : list Z * list Z * Z * Z :=
  let bigIntK := beval k in
  let c1 := (curveB2 * bigIntK) / curveN in
  let c2 := (curveB1 * bigIntK) / curveN in
  let k1 := bigIntK - c1 * curveA1 + c2 * curveA2 in
  let k2 := c2 * curveB2 - c1 * curveB1 in
  (bigBytes k1, bigBytes k2, Z.sgn k1, Z.sgn k2).

(** l.669-680 moduloReduce *)
Definition moduloReduce (k : list Z) : list Z :=
  if byteSize <? blen k then bigBytes (beval k mod curveN) else k.

(** l.710-751 NAF, the loop over j: [n] iterations left, starting at bit [j];
    [nextLow] is the lowest bit of k[i-1], or false when i = 0 *)
Fixpoint nafBits (n : nat) (j curByte : Z) (nextLow carry : bool) (pos neg : Z) : Z * Z * bool :=
  match n with
  | 0%nat => (pos, neg, carry)
  | S n' =>
      let curIsOne := Z.land curByte 1 =? 1 in
      let nextIsOne := if j =? 7 then nextLow else Z.land curByte 2 =? 2 in
      let set x := (x + Z.shiftl 1 j) mod 256 in
      let '(pos, neg, carry) :=
        if carry then
          if curIsOne then (pos, neg, carry)
          else if nextIsOne then (pos, set neg, carry)
          else (set pos, neg, false)
        else if curIsOne then
          if nextIsOne then (pos, set neg, true)
          else (set pos, neg, carry)
        else (pos, neg, carry) in
      nafBits n' (j + 1) (Z.shiftr curByte 1) nextLow carry pos neg
  end.
(** l.708-752 NAF, the loop over i from the last byte to the first; the argument is
    the reversed slice, the results are retPos[1:], retNeg[1:] and carry *)
Fixpoint nafBytes (rk : list Z) (carry : bool) (pos neg : list Z) : list Z * list Z * bool :=
  match rk with
  | [] => (pos, neg, carry)
  | b :: r =>
      let nextLow := match r with [] => false | c :: _ => Z.land c 1 =? 1 end in
      let '(p, n, carry) := nafBits 8 0 b nextLow carry 0 0 in
      nafBytes r carry (p :: pos) (n :: neg)
  end.
(** l.689-757 NAF *)
Definition NAF (k : list Z) : list Z * list Z :=
  let '(pos, neg, carry) := nafBytes (rev k) false [] [] in
  if carry then (1 :: pos, 0 :: neg) else (pos, neg).

(** the variables of ScalarMult *)
Record smst := { sQ : jpt; sP1x : fieldVal; sP1y : fieldVal; sP1yNeg : fieldVal; sP1z : fieldVal;
                 sP2x : fieldVal; sP2y : fieldVal; sP2yNeg : fieldVal; sP2z : fieldVal }.

(** l.826-836, 838-844: the conditional additions of one bit *)
Definition addP1 (pos neg : Z) (s : smst) : smst :=
  if Z.land pos 0x80 =? 0x80 then
    let '(q, (x, y, z)) := addJacobian (sQ s) (sP1x s, sP1y s, sP1z s) in
    {| sQ := q; sP1x := x; sP1y := y; sP1yNeg := sP1yNeg s; sP1z := z;
       sP2x := sP2x s; sP2y := sP2y s; sP2yNeg := sP2yNeg s; sP2z := sP2z s |}
  else if Z.land neg 0x80 =? 0x80 then
    let '(q, (x, y, z)) := addJacobian (sQ s) (sP1x s, sP1yNeg s, sP1z s) in
    {| sQ := q; sP1x := x; sP1y := sP1y s; sP1yNeg := y; sP1z := z;
       sP2x := sP2x s; sP2y := sP2y s; sP2yNeg := sP2yNeg s; sP2z := sP2z s |}
  else s.
Definition addP2 (pos neg : Z) (s : smst) : smst :=
  if Z.land pos 0x80 =? 0x80 then
    let '(q, (x, y, z)) := addJacobian (sQ s) (sP2x s, sP2y s, sP2z s) in
    {| sQ := q; sP1x := sP1x s; sP1y := sP1y s; sP1yNeg := sP1yNeg s; sP1z := sP1z s;
       sP2x := x; sP2y := y; sP2yNeg := sP2yNeg s; sP2z := z |}
  else if Z.land neg 0x80 =? 0x80 then
    let '(q, (x, y, z)) := addJacobian (sQ s) (sP2x s, sP2yNeg s, sP2z s) in
    {| sQ := q; sP1x := sP1x s; sP1y := sP1y s; sP1yNeg := sP1yNeg s; sP1z := sP1z s;
       sP2x := x; sP2y := sP2y s; sP2yNeg := y; sP2z := z |}
  else s.
Definition dblQ (s : smst) : smst :=
  {| sQ := doubleJacobian (sQ s); sP1x := sP1x s; sP1y := sP1y s; sP1yNeg := sP1yNeg s; sP1z := sP1z s;
     sP2x := sP2x s; sP2y := sP2y s; sP2yNeg := sP2yNeg s; sP2z := sP2z s |}.
(** l.822-849: the loop over j *)
Fixpoint smBits (n : nat) (p1 n1 p2 n2 : Z) (s : smst) : smst :=
  match n with
  | 0%nat => s
  | S n' =>
      let s := dblQ s in
      let s := addP1 p1 n1 s in
      let s := addP2 p2 n2 s in
      let shl x := (2 * x) mod 256 in
      smBits n' (shl p1) (shl n1) (shl p2) (shl n2) s
  end.
(** l.804-850: the loop over i, on the four digit strings *)
Fixpoint smLoop (p1 n1 p2 n2 : list Z) (s : smst) : smst :=
  match p1, n1, p2, n2 with
  | a :: p1, b :: n1, c :: p2, d :: n2 => smLoop p1 n1 p2 n2 (smBits 8 a b c d s)
  | _, _, _, _ => s
  end.
(** l.806-819: pad the front with 0s up to length [m] *)
Definition padTo (m : nat) (l : list Z) : list Z := repeat 0 (m - length l) ++ l.

(** l.761-861 ScalarMult *)
Definition ScalarMult (Bx By : Z) (k : list Z) : R (Z * Z) :=
  let '(k1, k2, signK1, signK2) := splitK (moduloReduce k) in
  bind (bigAffineToField Bx By) (fun '(p1x, p1y) =>
  let p1yNeg := fNegate p1y 1 in
  let p1z := fSetInt 1 in
  let p2x := fMul p1x curveBeta in
  let p2y := p1y in
  let p2yNeg := fNegate p2y 1 in
  let p2z := fSetInt 1 in
  let '(p1y, p1yNeg) := if signK1 =? -1 then (p1yNeg, p1y) else (p1y, p1yNeg) in
  let '(p2y, p2yNeg) := if signK2 =? -1 then (p2yNeg, p2y) else (p2y, p2yNeg) in
  let '(k1PosNAF, k1NegNAF) := NAF k1 in
  let '(k2PosNAF, k2NegNAF) := NAF k2 in
  let m := Nat.max (length k1PosNAF) (length k2PosNAF) in
  let s := {| sQ := (fZero, fZero, fZero); sP1x := p1x; sP1y := p1y; sP1yNeg := p1yNeg; sP1z := p1z;
              sP2x := p2x; sP2y := p2y; sP2yNeg := p2yNeg; sP2z := p2z |} in
  let s := smLoop (padTo m k1PosNAF) (padTo m k1NegNAF) (padTo m k2PosNAF) (padTo m k2NegNAF) s in
  Ok (fieldJacobianToBigAffine (sQ s))).

(** the type of bytePoints and bytePointsH, l.47-51: [32][256][3]fieldVal.  The tables
    themselves are data (secp256k1.go) unpacked by precompute.go; they are a parameter
    of the model. *)
Definition table : Type := list (list jpt).
Definition lookup (t : table) (i : nat) (b : Z) : R jpt :=
  match nth_error t i with
  | None => Panic
  | Some row => match nth_error row (Z.to_nat b) with None => Panic | Some p => Ok p end
  end.

(** the loop of l.878-881 and l.900-903 over the bytes, from row [i] on; p is a copy of
    the table entry, so the table is not changed by the call *)
Fixpoint sbmLoop (t : table) (i : nat) (k : list Z) (q : jpt) : R jpt :=
  match k with
  | [] => Ok q
  | b :: r => bind (lookup t i b) (fun p => sbmLoop t (S i) r (fst (addJacobian q p)))
  end.
(** l.866-883 ScalarBaseMult with the table bytePoints, l.888-905 ScalarBaseMultH with
    bytePointsH.  moduloReduce returns at most 32 bytes, so diff is not negative. *)
Definition scalarTableMult (t : table) (k : list Z) : R (Z * Z) :=
  let newK := moduloReduce k in
  let diff := (32 - length newK)%nat in
  bind (sbmLoop t diff newK (fZero, fZero, fZero)) (fun q => Ok (fieldJacobianToBigAffine q)).

(** l.37-69, 984-987: the curve object handed to the zksigma package *)
Definition S256 (bytePoints bytePointsH : table) : curve :=
  {| cP := curveP; cN := curveN; cAdd := Add; cScalarMult := ScalarMult;
     cScalarBaseMult := scalarTableMult bytePoints; cScalarBaseMultH := scalarTableMult bytePointsH;
     cIsOnCurve := IsOnCurve |}.
