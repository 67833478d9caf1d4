(** * math/big integers as what they are in Go: variables behind pointers

    Nothing here models a file of /repo.  Big.v treats a *big.Int as the integer it
    points to.  Here an integer lives in a variable, a *big.Int is the address of one (or
    nil), and a piece of code reads, writes and allocates variables.  ApiMem.v
    writes the zksigma package again at this level. *)
From Coq Require Import ZArith List Bool.
From Verif Require Import Go Wire Big.
Import ListNotations.
Open Scope Z_scope.

(** A variable is named by the goroutine that allocated it (0: it was there before all
    goroutines started) and a number. *)
Definition bptr : Type := (nat * nat)%type.
Definition bmem : Type := nat -> list Z.
Definition cell (m : bmem) (p : bptr) : option Z := nth_error (m (fst p)) (snd p).
Fixpoint setNth (n : nat) (z : Z) (l : list Z) : list Z :=
  match l, n with
  | [], _ => []
  | _ :: t, 0%nat => z :: t
  | a :: t, S n' => a :: setNth n' z t
  end.
Definition put (m : bmem) (p : bptr) (z : Z) : bmem :=
  fun o => if Nat.eqb o (fst p) then setNth (snd p) z (m o) else m o.
Definition push (m : bmem) (t : nat) (z : Z) : bmem :=
  fun o => if Nat.eqb o t then m o ++ [z] else m o.

(** Code that works on such variables *)
Inductive prog (A : Type) : Type :=
| Return (a : A)
| Crash                                             (* a panic *)
| Load (p : bptr) (k : Z -> prog A)
| Store (p : bptr) (z : Z) (k : prog A)
| New (z : Z) (k : bptr -> prog A).
Arguments Return {A} a. Arguments Crash {A}. Arguments Load {A} p k. Arguments Store {A} p z k. Arguments New {A} z k.
Fixpoint pbind {A B : Type} (c : prog A) (f : A -> prog B) : prog B :=
  match c with
  | Return a => f a
  | Crash => Crash
  | Load p k => Load p (fun z => pbind (k z) f)
  | Store p z k => Store p z (pbind k f)
  | New z k => New z (fun p => pbind (k p) f)
  end.
Notation "x <~ e ; k" := (pbind e (fun x => k)) (at level 61, e at next level, right associativity).

(** Goroutine [t] runs code to its end.  (Go has no dangling pointers; the model stops at
    one as it does at nil.) *)
Fixpoint exec {A : Type} (t : nat) (c : prog A) (m : bmem) : R A * bmem :=
  match c with
  | Return a => (Ok a, m)
  | Crash => (Panic, m)
  | Load p k => match cell m p with Some z => exec t (k z) m | None => (Panic, m) end
  | Store p z k => match cell m p with Some _ => exec t k (put m p z) | None => (Panic, m) end
  | New z k => exec t (k (t, length (m t))) (push m t z)
  end.

(** One step of goroutine [t] *)
Definition step {A : Type} (t : nat) (c : prog A) (m : bmem) : prog A * bmem :=
  match c with
  | Return a => (Return a, m)
  | Crash => (Crash, m)
  | Load p k => match cell m p with Some z => (k z, m) | None => (Crash, m) end
  | Store p z k => match cell m p with Some _ => (k, put m p z) | None => (Crash, m) end
  | New z k => (k (t, length (m t)), push m t z)
  end.
(** Goroutines take steps in the order [s]; goroutine [i] allocates as number [i + 1] *)
Definition setThread {A : nat -> Type} (th : forall i, prog (A i)) (i : nat) (c : prog (A i)) : forall j, prog (A j) :=
  fun j => match Nat.eq_dec i j with left e => eq_rect i (fun k => prog (A k)) c j e | right _ => th j end.
Fixpoint schedule {A : nat -> Type} (s : list nat) (th : forall i, prog (A i)) (m : bmem) : (forall i, prog (A i)) * bmem :=
  match s with
  | [] => (th, m)
  | i :: s' => let '(c, m') := step (S i) (th i) m in schedule s' (setThread th i c) m'
  end.

(** a result of the value-level model as code that touches nothing *)
Definition lift {A : Type} (r : R A) : prog A := match r with Ok a => Return a | Panic => Crash end.
(** a *big.Int; [None] is nil *)
Definition bigint : Type := option bptr.
(** reading what a *big.Int points to *)
Definition deref (x : bigint) : prog Z := match x with Some p => Load p (fun z => Return z) | None => Crash end.
(** writing it; the methods of big.Int return their receiver *)
Definition assign (z : bigint) (v : Z) : prog bigint := match z with Some p => Store p v (Return z) | None => Crash end.
(** new(big.Int), big.NewInt(v) *)
Definition newInt (v : Z) : prog bigint := New v (fun p => Return (Some p)).
(** z.Add(x, y), z.Sub, z.Mul, z.Mod, z.Neg, z.SetBytes *)
Definition intAdd (z x y : bigint) : prog bigint := a <~ deref x; b <~ deref y; assign z (a + b).
Definition intSub (z x y : bigint) : prog bigint := a <~ deref x; b <~ deref y; assign z (a - b).
Definition intMul (z x y : bigint) : prog bigint := a <~ deref x; b <~ deref y; assign z (a * b).
Definition intMod (z x y : bigint) : prog bigint := a <~ deref x; b <~ deref y; assign z (a mod b).
Definition intNeg (z x : bigint) : prog bigint := a <~ deref x; assign z (- a).
Definition intSetBytes (z : bigint) (bs : list Z) : prog bigint := assign z (beval bs).
(** z.Exp(x, y, m) for y >= 0 and m > 1 *)
Definition intExp (z x y m : bigint) : prog bigint := a <~ deref x; b <~ deref y; n <~ deref m; assign z (bigExp a b n).
(** z.ModInverse(g, n): nil, and z as it was, when there is no inverse *)
Definition intModInverse (z g n : bigint) : prog bigint :=
  a <~ deref g; b <~ deref n;
  match modInverse a b with Some i => assign z i | None => Return None end.
(** new(big.Int).Op(...) *)
Definition newAdd (x y : bigint) : prog bigint := z <~ newInt 0; intAdd z x y.
Definition newSub (x y : bigint) : prog bigint := z <~ newInt 0; intSub z x y.
Definition newMul (x y : bigint) : prog bigint := z <~ newInt 0; intMul z x y.
Definition newMod (x y : bigint) : prog bigint := z <~ newInt 0; intMod z x y.
Definition newNeg (x : bigint) : prog bigint := z <~ newInt 0; intNeg z x.
Definition newSetBytes (bs : list Z) : prog bigint := z <~ newInt 0; intSetBytes z bs.
Definition newModInverse (g n : bigint) : prog bigint := z <~ newInt 0; intModInverse z g n.
