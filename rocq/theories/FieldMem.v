(** * Model of the in-place arithmetic of /repo/btcec/field.go, word by word

    Field.v writes the methods of fieldVal as functions from values to values.  The code
    works on pointers: a method loads words f.n[i] of its operands and stores words of
    its receiver, and the receiver may be an operand.  Here every method is the sequence
    of its loads and stores, in the order of the text, and every sum, product and shift
    wraps where the code's does: at 2^32 for uint32 and at 2^64 for uint64.
    Simplifications: a pointer refers to a whole fieldVal (Go has no pointer into the
    middle of one here), and PutBytes loads each word once instead of once per byte. *)
From Coq Require Import ZArith List Bool.
From Verif Require Import Go Field Koblitz KoblitzMem.
Import ListNotations.
Open Scope Z_scope.

(** a word of a variable: f.n[i] (field.go l.132-134) *)
Definition getw (i : nat) (v : fieldVal) : Z :=
  match i with
  | 0 => n0 v | 1 => n1 v | 2 => n2 v | 3 => n3 v | 4 => n4 v
  | 5 => n5 v | 6 => n6 v | 7 => n7 v | 8 => n8 v | _ => n9 v
  end%nat.
Definition setw (i : nat) (w : Z) (v : fieldVal) : fieldVal :=
  let '(FV a0 a1 a2 a3 a4 a5 a6 a7 a8 a9) := v in
  match i with
  | 0 => FV w a1 a2 a3 a4 a5 a6 a7 a8 a9 | 1 => FV a0 w a2 a3 a4 a5 a6 a7 a8 a9
  | 2 => FV a0 a1 w a3 a4 a5 a6 a7 a8 a9 | 3 => FV a0 a1 a2 w a4 a5 a6 a7 a8 a9
  | 4 => FV a0 a1 a2 a3 w a5 a6 a7 a8 a9 | 5 => FV a0 a1 a2 a3 a4 w a6 a7 a8 a9
  | 6 => FV a0 a1 a2 a3 a4 a5 w a7 a8 a9 | 7 => FV a0 a1 a2 a3 a4 a5 a6 w a8 a9
  | 8 => FV a0 a1 a2 a3 a4 a5 a6 a7 w a9 | _ => FV a0 a1 a2 a3 a4 a5 a6 a7 a8 w
  end%nat.

(** code that other goroutines can interrupt before every load and store of a word *)
Inductive wcode (A : Type) : Type :=
| WRet (a : A)
| WLd (p : ptr) (i : nat) (k : Z -> wcode A)
| WSt (p : ptr) (i : nat) (w : Z) (k : wcode A).
Arguments WRet {A} a.
Arguments WLd {A} p i k.
Arguments WSt {A} p i w k.
Fixpoint seqW {A B : Type} (c : wcode A) (f : A -> wcode B) : wcode B :=
  match c with
  | WRet a => f a
  | WLd p i k => WLd p i (fun w => seqW (k w) f)
  | WSt p i w k => WSt p i w (seqW k f)
  end.
Definition ld (p : ptr) (i : nat) : wcode Z := WLd p i WRet.
Definition st (p : ptr) (i : nat) (w : Z) : wcode unit := WSt p i w (WRet tt).
Declare Scope wcode_scope.
Delimit Scope wcode_scope with wcode.
Notation "x <- c ;; d" := (seqW c (fun x => d)) (at level 61, c at next level, right associativity) : wcode_scope.
Notation "c ;; d" := (seqW c (fun _ => d)) (at level 61, right associativity) : wcode_scope.
Local Open Scope wcode_scope.
(** one access *)
Definition stepW {A : Type} (c : wcode A) (m : mem) : wcode A * mem :=
  match c with
  | WRet a => (WRet a, m)
  | WLd p i k => (k (getw i (m p)), m)
  | WSt p i w k => (k, upd m p (setw i w (m p)))
  end.

(** uint32 and uint64 arithmetic *)
Definition add32 (x y : Z) : Z := u32 (x + y).
Definition sub32 (x y : Z) : Z := u32 (x - y).
Definition mul32 (x y : Z) : Z := u32 (x * y).
Definition shl32 (x n : Z) : Z := u32 (Z.shiftl x n).
Definition add64 (x y : Z) : Z := u64 (x + y).
Definition mul64 (x y : Z) : Z := u64 (x * y).

(** the ten indices, and a loop over them *)
Definition words : list nat := [0; 1; 2; 3; 4; 5; 6; 7; 8; 9]%nat.
Fixpoint eachW (l : list nat) (c : nat -> wcode unit) : wcode unit :=
  match l with [] => WRet tt | i :: r => c i ;; eachW r c end.
(** f.n[0] = v0 ... f.n[9] = v9 *)
Definition putW (f : ptr) (v : fieldVal) : wcode unit := eachW words (fun i => st f i (getw i v)).

(** l.148-159 Zero *)
Definition ZeroW (f : ptr) : wcode unit := eachW words (fun i => st f i 0).
(** l.166-169 Set: the struct copy, all loads before the first store *)
Definition loadW (p : ptr) : wcode fieldVal :=
  t0 <- ld p 0 ;; t1 <- ld p 1 ;; t2 <- ld p 2 ;; t3 <- ld p 3 ;; t4 <- ld p 4 ;;
  t5 <- ld p 5 ;; t6 <- ld p 6 ;; t7 <- ld p 7 ;; t8 <- ld p 8 ;; t9 <- ld p 9 ;;
  WRet (FV t0 t1 t2 t3 t4 t5 t6 t7 t8 t9).
Definition SetW (f val : ptr) : wcode unit := v <- loadW val ;; putW f v.
(** l.177-181 SetInt *)
Definition SetIntW (f : ptr) (ui : Z) : wcode unit := ZeroW f ;; st f 0 (u32 ui).
(** l.188-213 SetBytes *)
Definition SetBytesW (f : ptr) (b : list Z) : wcode unit := putW f (fSetBytes b).
(** l.222-230 SetByteSlice; false when the index is out of range (Field.v) *)
Definition SetByteSliceW (f : ptr) (b : list Z) : wcode bool :=
  if 32 <? blen b then WRet false else SetBytesW f (repeat 0 (32 - length b) ++ b) ;; WRet true.

(** l.279-299, l.330-351: as fCarry of Field.v, wrapping at every operation *)
Definition carryW (f0 f1 f2 f3 f4 f5 f6 f7 f8 t9 m : Z) : fieldVal :=
  let t0 := add32 f0 (mul32 m 977) in
  let t1 := add32 (add32 (Z.shiftr t0 fieldBase) f1) (shl32 m 6) in
  let t0 := Z.land t0 fieldBaseMask in
  let t2 := add32 (Z.shiftr t1 fieldBase) f2 in
  let t1 := Z.land t1 fieldBaseMask in
  let t3 := add32 (Z.shiftr t2 fieldBase) f3 in
  let t2 := Z.land t2 fieldBaseMask in
  let t4 := add32 (Z.shiftr t3 fieldBase) f4 in
  let t3 := Z.land t3 fieldBaseMask in
  let t5 := add32 (Z.shiftr t4 fieldBase) f5 in
  let t4 := Z.land t4 fieldBaseMask in
  let t6 := add32 (Z.shiftr t5 fieldBase) f6 in
  let t5 := Z.land t5 fieldBaseMask in
  let t7 := add32 (Z.shiftr t6 fieldBase) f7 in
  let t6 := Z.land t6 fieldBaseMask in
  let t8 := add32 (Z.shiftr t7 fieldBase) f8 in
  let t7 := Z.land t7 fieldBaseMask in
  let t9 := add32 (Z.shiftr t8 fieldBase) t9 in
  let t8 := Z.land t8 fieldBaseMask in
  FV t0 t1 t2 t3 t4 t5 t6 t7 t8 t9.
(** l.248-367 Normalize: n[9] is loaded first *)
Definition NormalizeW (f : ptr) : wcode unit :=
  t9 <- ld f 9 ;;
  let m := Z.shiftr t9 fieldMSBBits in
  let t9 := Z.land t9 fieldMSBMask in
  f0 <- ld f 0 ;; f1 <- ld f 1 ;; f2 <- ld f 2 ;; f3 <- ld f 3 ;; f4 <- ld f 4 ;;
  f5 <- ld f 5 ;; f6 <- ld f 6 ;; f7 <- ld f 7 ;; f8 <- ld f 8 ;;
  let '(FV t0 t1 t2 t3 t4 t5 t6 t7 t8 t9) := carryW f0 f1 f2 f3 f4 f5 f6 f7 f8 t9 m in
  let m := 1 in
  let m := if t9 =? fieldMSBMask then Z.land m 1 else Z.land m 0 in
  let m := if Z.land (Z.land (Z.land (Z.land (Z.land (Z.land t2 t3) t4) t5) t6) t7) t8 =? fieldBaseMask
           then Z.land m 1 else Z.land m 0 in
  let m := if fieldBaseMask <? add32 (add32 (Z.shiftr (add32 t0 977) fieldBase) t1) 64 then Z.land m 1 else Z.land m 0 in
  let m := if negb (Z.shiftr t9 fieldMSBBits =? 0) then Z.lor m 1 else Z.lor m 0 in
  let '(FV t0 t1 t2 t3 t4 t5 t6 t7 t8 t9) := carryW t0 t1 t2 t3 t4 t5 t6 t7 t8 t9 m in
  putW f (FV t0 t1 t2 t3 t4 t5 t6 t7 t8 (Z.land t9 fieldMSBMask)).

(** l.377-414 PutBytes, l.423-427 Bytes *)
Definition BytesW (f : ptr) : wcode (list Z) := v <- loadW f ;; WRet (fBytes v).
(** l.430-437 IsZero *)
Fixpoint orW (f : ptr) (l : list nat) (bits : Z) : wcode Z :=
  match l with [] => WRet bits | i :: r => w <- ld f i ;; orW f r (Z.lor bits w) end.
Definition IsZeroW (f : ptr) : wcode bool :=
  w <- ld f 0 ;; bits <- orW f (tl words) w ;; WRet (bits =? 0).
(** l.443-446 IsOdd *)
Definition IsOddW (f : ptr) : wcode bool := w <- ld f 0 ;; WRet (Z.land w 1 =? 1).
(** l.451-461 Equals *)
Fixpoint xorW (f val : ptr) (l : list nat) (bits : Z) : wcode Z :=
  match l with [] => WRet bits | i :: r => x <- ld f i ;; y <- ld val i ;; xorW f val r (Z.lor bits (Z.lxor x y)) end.
Definition EqualsW (f val : ptr) : wcode bool :=
  x <- ld f 0 ;; y <- ld val 0 ;; bits <- xorW f val (tl words) (Z.lxor x y) ;; WRet (bits =? 0).

(** l.468-499 NegateVal, l.506-508 Negate: word after word *)
Definition negMask (i : nat) : Z :=
  match i with 0 => fieldPrimeWordZero | 1 => fieldPrimeWordOne | 9 => fieldMSBMask | _ => fieldBaseMask end%nat.
Definition NegateValW (f val : ptr) (magnitude : Z) : wcode unit :=
  eachW words (fun i => w <- ld val i ;; st f i (sub32 (mul32 (add32 magnitude 1) (negMask i)) w)).
(** l.516-523 AddInt *)
Definition AddIntW (f : ptr) (ui : Z) : wcode unit := w <- ld f 0 ;; st f 0 (add32 w (u32 ui)).
(** l.530-547 Add: f.n[i] += val.n[i] *)
Definition AddW (f val : ptr) : wcode unit :=
  eachW words (fun i => x <- ld f i ;; y <- ld val i ;; st f i (add32 x y)).
(** l.553-570 Add2 *)
Definition Add2W (f val val2 : ptr) : wcode unit :=
  eachW words (fun i => x <- ld val i ;; y <- ld val2 i ;; st f i (add32 x y)).
(** l.579-600 MulInt *)
Definition MulIntW (f : ptr) (val : Z) : wcode unit :=
  eachW words (fun i => x <- ld f i ;; st f i (mul32 x (u32 val))).

(** a column of a product: the terms c * a.n[i] * b.n[j] are added to m, from left to right *)
Definition term : Type := nat * nat * nat.
Fixpoint columnW (a b : ptr) (l : list term) (m : Z) : wcode Z :=
  match l with
  | [] => WRet m
  | (c, i, j) :: r => x <- ld a i ;; y <- ld b j ;; columnW a b r (add64 m (mul64 (mul64 (Z.of_nat c) x) y))
  end.
(** m = (m >> fieldBase) + column; t = m & fieldBaseMask; the last term is m >> fieldBase *)
Fixpoint columnsW (a b : ptr) (q : Z) (cols : list (list term)) : wcode (list Z) :=
  match cols with
  | [] => WRet [q]
  | l :: r => m <- columnW a b l q ;; t <- columnsW a b (Z.shiftr m fieldBase) r ;; WRet (Z.land m fieldBaseMask :: t)
  end.
(** l.808-866, l.1041-1099 *)
Fixpoint foldW (q : Z) (l : list (Z * Z * Z)) : list Z :=
  match l with
  | [] => [q]
  | (t, x, y) :: r =>
      let m := add64 (add64 (add64 q t) (mul64 x 1024)) (mul64 y 15632) in
      Z.land m fieldBaseMask :: foldW (Z.shiftr m fieldBase) r
  end.
(** l.834-881, l.1067-1114: reduce and store *)
Definition reduceW (f : ptr) (t : list Z) : wcode unit :=
  match t with
  | [t0; t1; t2; t3; t4; t5; t6; t7; t8; t9; t10; t11; t12; t13; t14; t15; t16; t17; t18; t19] =>
      let m := add64 t0 (mul64 t10 15632) in
      let t0 := Z.land m fieldBaseMask in
      match foldW (Z.shiftr m fieldBase)
              [(t1, t10, t11); (t2, t11, t12); (t3, t12, t13); (t4, t13, t14); (t5, t14, t15);
               (t6, t15, t16); (t7, t16, t17); (t8, t17, t18)] with
      | [t1; t2; t3; t4; t5; t6; t7; t8; q] =>
          let m := add64 (add64 (add64 q t9) (mul64 t18 1024)) (mul64 t19 68719492368) in
          let t9 := Z.land m fieldMSBMask in
          let m := Z.shiftr m fieldMSBBits in
          let d := add64 t0 (mul64 m 977) in
          st f 0 (u32 (Z.land d fieldBaseMask)) ;;
          let d := add64 (add64 (Z.shiftr d fieldBase) t1) (mul64 m 64) in
          st f 1 (u32 (Z.land d fieldBaseMask)) ;;
          st f 2 (u32 (add64 (Z.shiftr d fieldBase) t2)) ;;
          st f 3 (u32 t3) ;; st f 4 (u32 t4) ;; st f 5 (u32 t5) ;; st f 6 (u32 t6) ;;
          st f 7 (u32 t7) ;; st f 8 (u32 t8) ;; st f 9 (u32 t9)
      | _ => ZeroW f
      end
  | _ => ZeroW f
  end.
(** l.621-804 the terms of Mul2 *)
Definition mulTerms : list (list term) :=
  [
   [(1, 0, 0)];
   [(1, 0, 1); (1, 1, 0)];
   [(1, 0, 2); (1, 1, 1); (1, 2, 0)];
   [(1, 0, 3); (1, 1, 2); (1, 2, 1); (1, 3, 0)];
   [(1, 0, 4); (1, 1, 3); (1, 2, 2); (1, 3, 1); (1, 4, 0)];
   [(1, 0, 5); (1, 1, 4); (1, 2, 3); (1, 3, 2); (1, 4, 1); (1, 5, 0)];
   [(1, 0, 6); (1, 1, 5); (1, 2, 4); (1, 3, 3); (1, 4, 2); (1, 5, 1); (1, 6, 0)];
   [(1, 0, 7); (1, 1, 6); (1, 2, 5); (1, 3, 4); (1, 4, 3); (1, 5, 2); (1, 6, 1); (1, 7, 0)];
   [(1, 0, 8); (1, 1, 7); (1, 2, 6); (1, 3, 5); (1, 4, 4); (1, 5, 3); (1, 6, 2); (1, 7, 1); (1, 8, 0)];
   [(1, 0, 9); (1, 1, 8); (1, 2, 7); (1, 3, 6); (1, 4, 5); (1, 5, 4); (1, 6, 3); (1, 7, 2); (1, 8, 1); (1, 9, 0)];
   [(1, 1, 9); (1, 2, 8); (1, 3, 7); (1, 4, 6); (1, 5, 5); (1, 6, 4); (1, 7, 3); (1, 8, 2); (1, 9, 1)];
   [(1, 2, 9); (1, 3, 8); (1, 4, 7); (1, 5, 6); (1, 6, 5); (1, 7, 4); (1, 8, 3); (1, 9, 2)];
   [(1, 3, 9); (1, 4, 8); (1, 5, 7); (1, 6, 6); (1, 7, 5); (1, 8, 4); (1, 9, 3)];
   [(1, 4, 9); (1, 5, 8); (1, 6, 7); (1, 7, 6); (1, 8, 5); (1, 9, 4)];
   [(1, 5, 9); (1, 6, 8); (1, 7, 7); (1, 8, 6); (1, 9, 5)];
   [(1, 6, 9); (1, 7, 8); (1, 8, 7); (1, 9, 6)];
   [(1, 7, 9); (1, 8, 8); (1, 9, 7)];
   [(1, 8, 9); (1, 9, 8)];
   [(1, 9, 9)]
  ]%nat.
Definition Mul2W (f val val2 : ptr) : wcode unit := t <- columnsW val val2 0 mulTerms ;; reduceW f t.
(** l.901-1034 the terms of SquareVal *)
Definition squareTerms : list (list term) :=
  [
   [(1, 0, 0)];
   [(2, 0, 1)];
   [(2, 0, 2); (1, 1, 1)];
   [(2, 0, 3); (2, 1, 2)];
   [(2, 0, 4); (2, 1, 3); (1, 2, 2)];
   [(2, 0, 5); (2, 1, 4); (2, 2, 3)];
   [(2, 0, 6); (2, 1, 5); (2, 2, 4); (1, 3, 3)];
   [(2, 0, 7); (2, 1, 6); (2, 2, 5); (2, 3, 4)];
   [(2, 0, 8); (2, 1, 7); (2, 2, 6); (2, 3, 5); (1, 4, 4)];
   [(2, 0, 9); (2, 1, 8); (2, 2, 7); (2, 3, 6); (2, 4, 5)];
   [(2, 1, 9); (2, 2, 8); (2, 3, 7); (2, 4, 6); (1, 5, 5)];
   [(2, 2, 9); (2, 3, 8); (2, 4, 7); (2, 5, 6)];
   [(2, 3, 9); (2, 4, 8); (2, 5, 7); (1, 6, 6)];
   [(2, 4, 9); (2, 5, 8); (2, 6, 7)];
   [(2, 5, 9); (2, 6, 8); (1, 7, 7)];
   [(2, 6, 9); (2, 7, 8)];
   [(2, 7, 9); (1, 8, 8)];
   [(2, 8, 9)];
   [(1, 9, 9)]
  ]%nat.
Definition SquareValW (f val : ptr) : wcode unit := t <- columnsW val val 0 squareTerms ;; reduceW f t.

(** f.Square() n times *)
Fixpoint squaresW (n : nat) (f : ptr) : wcode unit :=
  match n with 0%nat => WRet tt | S n' => SquareValW f f ;; squaresW n' f end.
(** f.Square() ten times and f.Mul(&m), for every m of the list *)
Fixpoint rounds (f : ptr) (l : list ptr) : wcode unit :=
  match l with [] => WRet tt | m :: r => squaresW 10 f ;; Mul2W f f m ;; rounds f r end.
(** l.1121-1223 Inverse, with its local variables at [sp] *)
Definition InverseW (sp f : ptr) : wcode unit :=
  let a2 := sp in let a3 := sp + 1 in let a4 := sp + 2 in let a10 := sp + 3 in let a11 := sp + 4 in let a21 := sp + 5 in
  let a42 := sp + 6 in let a45 := sp + 7 in let a63 := sp + 8 in let a1019 := sp + 9 in let a1023 := sp + 10 in
  SquareValW a2 f ;;
  Mul2W a3 a2 f ;;
  SquareValW a4 a2 ;;
  SquareValW a10 a4 ;; Mul2W a10 a10 a2 ;;
  Mul2W a11 a10 f ;;
  Mul2W a21 a10 a11 ;;
  SquareValW a42 a21 ;;
  Mul2W a45 a42 a3 ;;
  Mul2W a63 a42 a21 ;;
  SquareValW a1019 a63 ;; squaresW 3 a1019 ;; Mul2W a1019 a1019 a11 ;;
  Mul2W a1023 a1019 a4 ;;
  SetW f a63 ;;
  rounds f [a1023; a1023; a1023; a1023; a1023; a1023; a1023; a1023; a1023; a1023; a1023; a1023; a1023; a1023; a1023; a1023; a1023; a1023; a1023; a1023; a1023; a1019; a1023; a1023; a45].

(** a statement of btcec.go (KoblitzMem.v); [fr] is the frame a callee gets *)
Definition insW (fr : ptr) (e : reg -> ptr) (i : ins) : wcode unit :=
  match i with
  | Set_ d s => SetW (e d) (e s)
  | SetInt d n => SetIntW (e d) n
  | Normalize d => NormalizeW (e d)
  | Negate d k => NegateValW (e d) (e d) k
  | NegateVal d s k => NegateValW (e d) (e s) k
  | Add_ d s => AddW (e d) (e s)
  | Add2 d s t => Add2W (e d) (e s) (e t)
  | MulInt d n => MulIntW (e d) n
  | Mul d s => Mul2W (e d) (e d) (e s)
  | Mul2 d s t => Mul2W (e d) (e s) (e t)
  | Square d => SquareValW (e d) (e d)
  | SquareVal d s => SquareValW (e d) (e s)
  | Inverse d => InverseW fr (e d)
  end.
