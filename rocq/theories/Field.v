(** * Model of /repo/btcec/field.go

    A fieldVal is ten 32-bit words.  Every operation is reduced modulo 2^32 or 2^64
    exactly where the code computes in uint32 or uint64; reduction modulo 2^64 being
    a ring homomorphism, one reduction at the end of a sum of products is the same
    as one after every operation.  A method that writes its receiver is a function
    that returns the receiver's new value; FieldMem.v has the loads and stores, with a
    reduction after every operation, and C76 proves that the two agree. *)
From Coq Require Import ZArith List Bool.
From Verif Require Import Go.
Import ListNotations.
Open Scope Z_scope.

Definition u32 (x : Z) : Z := x mod 2 ^ 32.
Definition u64 (x : Z) : Z := x mod 2 ^ 64.

(** field.go l.61-103 *)
Definition fieldBase : Z := 26.
Definition fieldBaseMask : Z := 0x3ffffff.
Definition fieldMSBBits : Z := 22.
Definition fieldMSBMask : Z := 0x3fffff.
Definition fieldPrimeWordZero : Z := 0x3fffc2f.
Definition fieldPrimeWordOne : Z := 0x3ffffbf.

(** field.go l.132-134 *)
Record fieldVal := FV { n0 : Z; n1 : Z; n2 : Z; n3 : Z; n4 : Z; n5 : Z; n6 : Z; n7 : Z; n8 : Z; n9 : Z }.

(** l.148-159 Zero, l.177-181 SetInt *)
Definition fZero : fieldVal := FV 0 0 0 0 0 0 0 0 0 0.
Definition fSetInt (ui : Z) : fieldVal := FV (u32 ui) 0 0 0 0 0 0 0 0 0.

(** l.188-213 SetBytes; [b i] is b[i] *)
Definition fSetBytes (bs : list Z) : fieldVal :=
  let b i := nth i bs 0 in
  let shl x n := u32 (Z.shiftl x n) in
  let shr x n := Z.shiftr x n in
  FV (Z.lor (Z.lor (Z.lor (b 31%nat) (shl (b 30%nat) 8)) (shl (b 29%nat) 16)) (shl (Z.land (b 28%nat) 3) 24))
     (Z.lor (Z.lor (Z.lor (shr (b 28%nat) 2) (shl (b 27%nat) 6)) (shl (b 26%nat) 14)) (shl (Z.land (b 25%nat) 15) 22))
     (Z.lor (Z.lor (Z.lor (shr (b 25%nat) 4) (shl (b 24%nat) 4)) (shl (b 23%nat) 12)) (shl (Z.land (b 22%nat) 63) 20))
     (Z.lor (Z.lor (Z.lor (shr (b 22%nat) 6) (shl (b 21%nat) 2)) (shl (b 20%nat) 10)) (shl (b 19%nat) 18))
     (Z.lor (Z.lor (Z.lor (b 18%nat) (shl (b 17%nat) 8)) (shl (b 16%nat) 16)) (shl (Z.land (b 15%nat) 3) 24))
     (Z.lor (Z.lor (Z.lor (shr (b 15%nat) 2) (shl (b 14%nat) 6)) (shl (b 13%nat) 14)) (shl (Z.land (b 12%nat) 15) 22))
     (Z.lor (Z.lor (Z.lor (shr (b 12%nat) 4) (shl (b 11%nat) 4)) (shl (b 10%nat) 12)) (shl (Z.land (b 9%nat) 63) 20))
     (Z.lor (Z.lor (Z.lor (shr (b 9%nat) 6) (shl (b 8%nat) 2)) (shl (b 7%nat) 10)) (shl (b 6%nat) 18))
     (Z.lor (Z.lor (Z.lor (b 5%nat) (shl (b 4%nat) 8)) (shl (b 3%nat) 16)) (shl (Z.land (b 2%nat) 3) 24))
     (Z.lor (Z.lor (shr (b 2%nat) 2) (shl (b 1%nat) 6)) (shl (b 0%nat) 14)).

(** l.222-230 SetByteSlice: with more than 32 bytes the index i+(32-len(b)) is
    negative for i = 0, a run-time error *)
Definition fSetByteSlice (bs : list Z) : R fieldVal :=
  if 32 <? blen bs then Panic
  else Ok (fSetBytes (repeat 0 (32 - length bs) ++ bs)).

(** l.279-299 and, with the same text, l.330-351 of Normalize: add m times 2^32 + 977
    and propagate the carries of the words 0..8 *)
Definition carry26 (w t : Z) : Z := u32 (Z.shiftr t fieldBase + w).
Definition low26 (t : Z) : Z := Z.land t fieldBaseMask.
Definition fCarry (f : fieldVal) (m : Z) : fieldVal :=
  let t0 := u32 (n0 f + m * 977) in
  let t1 := u32 (Z.shiftr t0 fieldBase + n1 f + Z.shiftl m 6) in
  let t0 := low26 t0 in
  let t2 := carry26 (n2 f) t1 in
  let t1 := low26 t1 in
  let t3 := carry26 (n3 f) t2 in
  let t2 := low26 t2 in
  let t4 := carry26 (n4 f) t3 in
  let t3 := low26 t3 in
  let t5 := carry26 (n5 f) t4 in
  let t4 := low26 t4 in
  let t6 := carry26 (n6 f) t5 in
  let t5 := low26 t5 in
  let t7 := carry26 (n7 f) t6 in
  let t6 := low26 t6 in
  let t8 := carry26 (n8 f) t7 in
  let t7 := low26 t7 in
  let t9 := carry26 (n9 f) t8 in
  let t8 := low26 t8 in
  FV t0 t1 t2 t3 t4 t5 t6 t7 t8 t9.

(** l.248-367 Normalize *)
Definition fNormalize (f : fieldVal) : fieldVal :=
  let '(FV f0 f1 f2 f3 f4 f5 f6 f7 f8 t9) := f in
  let m := Z.shiftr t9 fieldMSBBits in
  let t9 := Z.land t9 fieldMSBMask in
  let '(FV t0 t1 t2 t3 t4 t5 t6 t7 t8 t9) := fCarry (FV f0 f1 f2 f3 f4 f5 f6 f7 f8 t9) m in
  let m := 1 in
  let m := if t9 =? fieldMSBMask then Z.land m 1 else Z.land m 0 in
  let m := if Z.land (Z.land (Z.land (Z.land (Z.land (Z.land t2 t3) t4) t5) t6) t7) t8 =? fieldBaseMask
           then Z.land m 1 else Z.land m 0 in
  let m := if fieldBaseMask <? u32 (Z.shiftr (u32 (t0 + 977)) fieldBase + t1 + 64) then Z.land m 1 else Z.land m 0 in
  let m := if negb (Z.shiftr t9 fieldMSBBits =? 0) then Z.lor m 1 else Z.lor m 0 in
  let '(FV t0 t1 t2 t3 t4 t5 t6 t7 t8 t9) := fCarry (FV t0 t1 t2 t3 t4 t5 t6 t7 t8 t9) m in
  FV t0 t1 t2 t3 t4 t5 t6 t7 t8 (Z.land t9 fieldMSBMask).

(** l.377-414 PutBytes, l.423-427 Bytes; conversion to byte keeps the low 8 bits *)
Definition fBytes (f : fieldVal) : list Z :=
  let byte x := x mod 256 in
  let shr x n := Z.shiftr x n in
  let shl x n := u32 (Z.shiftl x n) in
  [ byte (Z.land (shr (n9 f) 14) 0xff);
    byte (Z.land (shr (n9 f) 6) 0xff);
    byte (Z.lor (Z.land (shr (n8 f) 24) 3) (shl (Z.land (n9 f) 63) 2));
    byte (Z.land (shr (n8 f) 16) 0xff);
    byte (Z.land (shr (n8 f) 8) 0xff);
    byte (Z.land (n8 f) 0xff);
    byte (Z.land (shr (n7 f) 18) 0xff);
    byte (Z.land (shr (n7 f) 10) 0xff);
    byte (Z.land (shr (n7 f) 2) 0xff);
    byte (Z.lor (Z.land (shr (n6 f) 20) 63) (shl (Z.land (n7 f) 3) 6));
    byte (Z.land (shr (n6 f) 12) 0xff);
    byte (Z.land (shr (n6 f) 4) 0xff);
    byte (Z.lor (Z.land (shr (n5 f) 22) 15) (shl (Z.land (n6 f) 15) 4));
    byte (Z.land (shr (n5 f) 14) 0xff);
    byte (Z.land (shr (n5 f) 6) 0xff);
    byte (Z.lor (Z.land (shr (n4 f) 24) 3) (shl (Z.land (n5 f) 63) 2));
    byte (Z.land (shr (n4 f) 16) 0xff);
    byte (Z.land (shr (n4 f) 8) 0xff);
    byte (Z.land (n4 f) 0xff);
    byte (Z.land (shr (n3 f) 18) 0xff);
    byte (Z.land (shr (n3 f) 10) 0xff);
    byte (Z.land (shr (n3 f) 2) 0xff);
    byte (Z.lor (Z.land (shr (n2 f) 20) 63) (shl (Z.land (n3 f) 3) 6));
    byte (Z.land (shr (n2 f) 12) 0xff);
    byte (Z.land (shr (n2 f) 4) 0xff);
    byte (Z.lor (Z.land (shr (n1 f) 22) 15) (shl (Z.land (n2 f) 15) 4));
    byte (Z.land (shr (n1 f) 14) 0xff);
    byte (Z.land (shr (n1 f) 6) 0xff);
    byte (Z.lor (Z.land (shr (n0 f) 24) 3) (shl (Z.land (n1 f) 63) 2));
    byte (Z.land (shr (n0 f) 16) 0xff);
    byte (Z.land (shr (n0 f) 8) 0xff);
    byte (Z.land (n0 f) 0xff) ].

(** l.430-437 IsZero *)
Definition fIsZero (f : fieldVal) : bool :=
  Z.lor (Z.lor (Z.lor (Z.lor (Z.lor (Z.lor (Z.lor (Z.lor (Z.lor (n0 f) (n1 f)) (n2 f)) (n3 f)) (n4 f)) (n5 f)) (n6 f)) (n7 f)) (n8 f)) (n9 f) =? 0.
(** l.443-446 IsOdd *)
Definition fIsOdd (f : fieldVal) : bool := Z.land (n0 f) 1 =? 1.
(** l.451-461 Equals *)
Definition fEquals (f g : fieldVal) : bool :=
  Z.lor (Z.lor (Z.lor (Z.lor (Z.lor (Z.lor (Z.lor (Z.lor (Z.lor
    (Z.lxor (n0 f) (n0 g)) (Z.lxor (n1 f) (n1 g))) (Z.lxor (n2 f) (n2 g))) (Z.lxor (n3 f) (n3 g)))
    (Z.lxor (n4 f) (n4 g))) (Z.lxor (n5 f) (n5 g))) (Z.lxor (n6 f) (n6 g))) (Z.lxor (n7 f) (n7 g)))
    (Z.lxor (n8 f) (n8 g))) (Z.lxor (n9 f) (n9 g)) =? 0.

(** l.468-499 NegateVal, l.506-508 Negate *)
Definition fNegate (v : fieldVal) (magnitude : Z) : fieldVal :=
  let k := u32 (magnitude + 1) in
  FV (u32 (k * fieldPrimeWordZero - n0 v)) (u32 (k * fieldPrimeWordOne - n1 v))
     (u32 (k * fieldBaseMask - n2 v)) (u32 (k * fieldBaseMask - n3 v)) (u32 (k * fieldBaseMask - n4 v))
     (u32 (k * fieldBaseMask - n5 v)) (u32 (k * fieldBaseMask - n6 v)) (u32 (k * fieldBaseMask - n7 v))
     (u32 (k * fieldBaseMask - n8 v)) (u32 (k * fieldMSBMask - n9 v)).

(** l.516-523 AddInt *)
Definition fAddInt (f : fieldVal) (ui : Z) : fieldVal :=
  FV (u32 (n0 f + u32 ui)) (n1 f) (n2 f) (n3 f) (n4 f) (n5 f) (n6 f) (n7 f) (n8 f) (n9 f).
(** l.530-547 Add and l.553-570 Add2 *)
Definition fAdd (f g : fieldVal) : fieldVal :=
  FV (u32 (n0 f + n0 g)) (u32 (n1 f + n1 g)) (u32 (n2 f + n2 g)) (u32 (n3 f + n3 g)) (u32 (n4 f + n4 g))
     (u32 (n5 f + n5 g)) (u32 (n6 f + n6 g)) (u32 (n7 f + n7 g)) (u32 (n8 f + n8 g)) (u32 (n9 f + n9 g)).
(** l.579-600 MulInt *)
Definition fMulInt (f : fieldVal) (val : Z) : fieldVal :=
  let ui := u32 val in
  FV (u32 (n0 f * ui)) (u32 (n1 f * ui)) (u32 (n2 f * ui)) (u32 (n3 f * ui)) (u32 (n4 f * ui))
     (u32 (n5 f * ui)) (u32 (n6 f * ui)) (u32 (n7 f * ui)) (u32 (n8 f * ui)) (u32 (n9 f * ui)).

(** the pattern m = (m >> fieldBase) + c; t = m & fieldBaseMask, unrolled in the code
    for every c of [cols]; the last element is what is left, m >> fieldBase *)
Fixpoint chain26 (q : Z) (cols : list Z) : list Z :=
  match cols with
  | [] => [q]
  | c :: r => let m := u64 (q + c) in Z.land m fieldBaseMask :: chain26 (Z.shiftr m fieldBase) r
  end.

(** l.808-879 of Mul2, and the same text l.1041-1112 of SquareVal: reduce the terms
    t0..t19 of a product *)
Definition fReduce (t : list Z) : fieldVal :=
  match t with
  | [t0; t1; t2; t3; t4; t5; t6; t7; t8; t9; t10; t11; t12; t13; t14; t15; t16; t17; t18; t19] =>
      match chain26 0 [ t0 + t10 * 15632;
                        t1 + t10 * 1024 + t11 * 15632;
                        t2 + t11 * 1024 + t12 * 15632;
                        t3 + t12 * 1024 + t13 * 15632;
                        t4 + t13 * 1024 + t14 * 15632;
                        t5 + t14 * 1024 + t15 * 15632;
                        t6 + t15 * 1024 + t16 * 15632;
                        t7 + t16 * 1024 + t17 * 15632;
                        t8 + t17 * 1024 + t18 * 15632 ] with
      | [t0; t1; t2; t3; t4; t5; t6; t7; t8; q] =>
          let m := u64 (q + t9 + t18 * 1024 + t19 * 68719492368) in
          let t9 := Z.land m fieldMSBMask in
          let m := Z.shiftr m fieldMSBBits in
          let d := u64 (t0 + m * 977) in
          let r0 := u32 (Z.land d fieldBaseMask) in
          let d := u64 (Z.shiftr d fieldBase + t1 + m * 64) in
          let r1 := u32 (Z.land d fieldBaseMask) in
          FV r0 r1 (u32 (Z.shiftr d fieldBase + t2)) (u32 t3) (u32 t4) (u32 t5) (u32 t6) (u32 t7) (u32 t8) (u32 t9)
      | _ => fZero
      end
  | _ => fZero
  end.

(** l.621-881 Mul2 (l.609-611 Mul): the terms for 2^(26*0) .. 2^(26*18), then the reduction *)
Definition fMul (a b : fieldVal) : fieldVal :=
  fReduce (chain26 0
    [
      n0 a * n0 b;
      n0 a * n1 b + n1 a * n0 b;
      n0 a * n2 b + n1 a * n1 b + n2 a * n0 b;
      n0 a * n3 b + n1 a * n2 b + n2 a * n1 b + n3 a * n0 b;
      n0 a * n4 b + n1 a * n3 b + n2 a * n2 b + n3 a * n1 b + n4 a * n0 b;
      n0 a * n5 b + n1 a * n4 b + n2 a * n3 b + n3 a * n2 b + n4 a * n1 b + n5 a * n0 b;
      n0 a * n6 b + n1 a * n5 b + n2 a * n4 b + n3 a * n3 b + n4 a * n2 b + n5 a * n1 b + n6 a * n0 b;
      n0 a * n7 b + n1 a * n6 b + n2 a * n5 b + n3 a * n4 b + n4 a * n3 b + n5 a * n2 b + n6 a * n1 b + n7 a * n0 b;
      n0 a * n8 b + n1 a * n7 b + n2 a * n6 b + n3 a * n5 b + n4 a * n4 b + n5 a * n3 b + n6 a * n2 b + n7 a * n1 b + n8 a * n0 b;
      n0 a * n9 b + n1 a * n8 b + n2 a * n7 b + n3 a * n6 b + n4 a * n5 b + n5 a * n4 b + n6 a * n3 b + n7 a * n2 b + n8 a * n1 b + n9 a * n0 b;
      n1 a * n9 b + n2 a * n8 b + n3 a * n7 b + n4 a * n6 b + n5 a * n5 b + n6 a * n4 b + n7 a * n3 b + n8 a * n2 b + n9 a * n1 b;
      n2 a * n9 b + n3 a * n8 b + n4 a * n7 b + n5 a * n6 b + n6 a * n5 b + n7 a * n4 b + n8 a * n3 b + n9 a * n2 b;
      n3 a * n9 b + n4 a * n8 b + n5 a * n7 b + n6 a * n6 b + n7 a * n5 b + n8 a * n4 b + n9 a * n3 b;
      n4 a * n9 b + n5 a * n8 b + n6 a * n7 b + n7 a * n6 b + n8 a * n5 b + n9 a * n4 b;
      n5 a * n9 b + n6 a * n8 b + n7 a * n7 b + n8 a * n6 b + n9 a * n5 b;
      n6 a * n9 b + n7 a * n8 b + n8 a * n7 b + n9 a * n6 b;
      n7 a * n9 b + n8 a * n8 b + n9 a * n7 b;
      n8 a * n9 b + n9 a * n8 b;
      n9 a * n9 b ]).

(** l.890-1114 SquareVal (l.889 Square) *)
Definition fSquare (a : fieldVal) : fieldVal :=
  fReduce (chain26 0
    [
      n0 a * n0 a;
      2 * n0 a * n1 a;
      2 * n0 a * n2 a + n1 a * n1 a;
      2 * n0 a * n3 a + 2 * n1 a * n2 a;
      2 * n0 a * n4 a + 2 * n1 a * n3 a + n2 a * n2 a;
      2 * n0 a * n5 a + 2 * n1 a * n4 a + 2 * n2 a * n3 a;
      2 * n0 a * n6 a + 2 * n1 a * n5 a + 2 * n2 a * n4 a + n3 a * n3 a;
      2 * n0 a * n7 a + 2 * n1 a * n6 a + 2 * n2 a * n5 a + 2 * n3 a * n4 a;
      2 * n0 a * n8 a + 2 * n1 a * n7 a + 2 * n2 a * n6 a + 2 * n3 a * n5 a + n4 a * n4 a;
      2 * n0 a * n9 a + 2 * n1 a * n8 a + 2 * n2 a * n7 a + 2 * n3 a * n6 a + 2 * n4 a * n5 a;
      2 * n1 a * n9 a + 2 * n2 a * n8 a + 2 * n3 a * n7 a + 2 * n4 a * n6 a + n5 a * n5 a;
      2 * n2 a * n9 a + 2 * n3 a * n8 a + 2 * n4 a * n7 a + 2 * n5 a * n6 a;
      2 * n3 a * n9 a + 2 * n4 a * n8 a + 2 * n5 a * n7 a + n6 a * n6 a;
      2 * n4 a * n9 a + 2 * n5 a * n8 a + 2 * n6 a * n7 a;
      2 * n5 a * n9 a + 2 * n6 a * n8 a + n7 a * n7 a;
      2 * n6 a * n9 a + 2 * n7 a * n8 a;
      2 * n7 a * n9 a + n8 a * n8 a;
      2 * n8 a * n9 a;
      n9 a * n9 a ]).

(** f.Square() n times *)
Fixpoint fSquares (k : nat) (f : fieldVal) : fieldVal := match k with 0%nat => f | S k' => fSquares k' (fSquare f) end.
(** l.1121-1223 Inverse: a^(p-2) by the fixed sequence of squarings and multiplications *)
Definition fInverse (f : fieldVal) : fieldVal :=
  let a2 := fSquare f in
  let a3 := fMul a2 f in
  let a4 := fSquare a2 in
  let a10 := fMul (fSquare a4) a2 in
  let a11 := fMul a10 f in
  let a21 := fMul a10 a11 in
  let a42 := fSquare a21 in
  let a45 := fMul a42 a3 in
  let a63 := fMul a42 a21 in
  let a1019 := fMul (fSquares 4 a63) a11 in
  let a1023 := fMul a1019 a4 in
  let step g m := fMul (fSquares 10 g) m in
  let g := a63 in
  let g := step g a1023 in
  let g := step g a1023 in
  let g := step g a1023 in
  let g := step g a1023 in
  let g := step g a1023 in
  let g := step g a1023 in
  let g := step g a1023 in
  let g := step g a1023 in
  let g := step g a1023 in
  let g := step g a1023 in
  let g := step g a1023 in
  let g := step g a1023 in
  let g := step g a1023 in
  let g := step g a1023 in
  let g := step g a1023 in
  let g := step g a1023 in
  let g := step g a1023 in
  let g := step g a1023 in
  let g := step g a1023 in
  let g := step g a1023 in
  let g := step g a1023 in
  let g := step g a1019 in
  let g := step g a1023 in
  let g := step g a1023 in
  step g a45.
