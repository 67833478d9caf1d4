(** * Model of the serializer free list of /repo/wire/common.go l.34-169

    Any number of goroutines use the shared channel binarySerializer (l.169).  The
    memory is a list of 8-byte buffers that are only ever added; a slice of such a
    buffer starts at its first byte and has capacity 8, so it is a buffer number and a
    length.  Every byte that is stored into or loaded from a buffer is one step, and
    so is every channel operation.  Readers and writers belong to one goroutine. *)
From Coq Require Import ZArith List Bool Arith.
From Verif Require Import Go Wire.
Import ListNotations.
Open Scope nat_scope.

(** what a goroutine does: calls that use a buffer, each with the rest of the
    computation, until it returns [a].
    [Rd n s k]: borrow, io.ReadFull of n bytes from the reader s, take the n bytes out of
    the buffer unless there was an error, return the buffer (l.71-122).
    [Wr bs w k]: borrow, store the bytes bs, w.Write(buf), return the buffer (l.126-165). *)
Inductive prog (A : Type) :=
| Ret (a : A)
| Rd (n : nat) (s : list Z) (k : rd (list Z) -> prog A)
| Wr (bs : list Z) (w : writer) (k : writer * bool -> prog A).
Arguments Ret {A}. Arguments Rd {A}. Arguments Wr {A}.

(** wire/common.go l.20 *)
Definition maxItems : nat := N.to_nat 1024.
(** l.54 make([]byte, 8) *)
Definition newBuf : list Z := repeat 0%Z 8.

(** where a goroutine is *)
Inductive gstate (A : Type) :=
| GProg (p : prog A)                                            (* holds no buffer *)
| GFill (b n k : nat) (s0 s : list Z) (c : rd (list Z) -> prog A)   (* k of n bytes read into buffer b *)
| GTake (b n : nat) (acc s : list Z) (c : rd (list Z) -> prog A)    (* taking the bytes out again *)
| GPut (b : nat) (bs : list Z) (k : nat) (w : writer) (c : writer * bool -> prog A)  (* k bytes stored *)
| GSend (b : nat) (bs acc : list Z) (w : writer) (c : writer * bool -> prog A)       (* w.Write reads the buffer *)
| GGive (b n : nat) (p : prog A).                               (* about to Return(buf[:n]) *)
Arguments GProg {A}. Arguments GFill {A}. Arguments GTake {A}. Arguments GPut {A}. Arguments GSend {A}. Arguments GGive {A}.

(** the memory, the channel (buffer number and length of each slice) and the goroutines *)
Record fstate (A : Type) := FS { mem : list (list Z); chan : list (nat * nat); gors : list (gstate A) }.
Arguments FS {A}. Arguments mem {A}. Arguments chan {A}. Arguments gors {A}.
Inductive fconf (A : Type) := FRun (s : fstate A) | FCrash.
Arguments FRun {A}. Arguments FCrash {A}.

Fixpoint setNth {A : Type} (l : list A) (i : nat) (x : A) : list A :=
  match l, i with [], _ => [] | _ :: t, 0 => x :: t | a :: t, S j => a :: setNth t j x end.

(** l.49-57 Borrow: take a slice off the channel if there is one, or allocate; never blocks.
    The result is resliced to buf[:8], within its capacity. *)
Definition borrow {A} (s : fstate A) : nat * list (list Z) * list (nat * nat) :=
  match chan s with
  | (b, _) :: c => (b, mem s, c)
  | [] => (length (mem s), mem s ++ [newBuf], [])
  end.
(** l.61-67 Return: put it on the channel if there is room, or drop it; never blocks *)
Definition giveBack (b n : nat) (c : list (nat * nat)) : list (nat * nat) :=
  if length c <? maxItems then c ++ [(b, n)] else c.
(** buf[k] and buf[k] = v: a run-time error outside the slice [:n] *)
Definition load (m : list (list Z)) (b n k : nat) : option Z :=
  match nth_error m b with Some l => if k <? n then nth_error l k else None | None => None end.
Definition store (m : list (list Z)) (b n k : nat) (v : Z) : option (list (list Z)) :=
  match nth_error m b with
  | Some l => if (k <? n) && (k <? length l) then Some (setNth m b (setNth l k v)) else None
  | None => None
  end.

(** one step of goroutine i *)
Definition fnext {A} (i : nat) (s : fstate A) : option (fconf A) :=
  match nth_error (gors s) i with
  | None => None
  | Some g =>
      match g with
      | GProg (Ret _) => None
      | GProg (Rd n st c) => let '(b, m, ch) := borrow s in Some (FRun (FS m ch (setNth (gors s) i (GFill b n 0 st st c))))
      | GProg (Wr bs w c) => let '(b, m, ch) := borrow s in Some (FRun (FS m ch (setNth (gors s) i (GPut b bs 0 w c))))
      | GFill b n k s0 st c =>
          if k =? n then Some (FRun (FS (mem s) (chan s) (setNth (gors s) i (GTake b n [] st c))))
          else match st with
               | [] => Some (FRun (FS (mem s) (chan s)
                         (setNth (gors s) i (GGive b n (c (RErr (if k =? 0 then EEOF else EUnexpectedEOF) []))))))
               | v :: st' => match store (mem s) b n k v with
                             | Some m => Some (FRun (FS m (chan s) (setNth (gors s) i (GFill b n (S k) s0 st' c))))
                             | None => Some FCrash
                             end
               end
      | GTake b n acc st c =>
          if length acc =? n then Some (FRun (FS (mem s) (chan s) (setNth (gors s) i (GGive b n (c (ROk acc st))))))
          else match load (mem s) b n (length acc) with
               | Some v => Some (FRun (FS (mem s) (chan s) (setNth (gors s) i (GTake b n (acc ++ [v]) st c))))
               | None => Some FCrash
               end
      | GPut b bs k w c =>
          match nth_error bs k with
          | None => Some (FRun (FS (mem s) (chan s) (setNth (gors s) i (GSend b bs [] w c))))
          | Some v => match store (mem s) b (length bs) k v with
                      | Some m => Some (FRun (FS m (chan s) (setNth (gors s) i (GPut b bs (S k) w c))))
                      | None => Some FCrash
                      end
          end
      | GSend b bs acc w c =>
          if length acc =? length bs
          then Some (FRun (FS (mem s) (chan s) (setNth (gors s) i (GGive b (length bs) (c (wwrite w acc))))))
          else match load (mem s) b (length bs) (length acc) with
               | Some v => Some (FRun (FS (mem s) (chan s) (setNth (gors s) i (GSend b bs (acc ++ [v]) w c))))
               | None => Some FCrash
               end
      | GGive b n p => Some (FRun (FS (mem s) (giveBack b n (chan s)) (setNth (gors s) i (GProg p))))
      end
  end.
(** run a schedule: the numbers of the goroutines in the order in which they move *)
Fixpoint fexec {A} (sched : list nat) (s : fstate A) : fconf A :=
  match sched with
  | [] => FRun s
  | i :: r => match fnext i s with None => fexec r s | Some FCrash => FCrash | Some (FRun s') => fexec r s' end
  end.
(** at the start the list is empty *)
Definition finit {A} (ps : list (prog A)) : fstate A := FS [] [] (map GProg ps).

(** ** The functions of the package as such programs *)
(** l.71-122: the conversion is applied to the bytes taken out *)
Definition pUint {A} (n : nat) (conv : list Z -> Z) (s : list Z) (k : rd Z -> prog A) : prog A :=
  Rd n s (fun r => k (rbind r (fun b s' => ROk (conv b) s'))).
Definition rtry {A B} (r : rd A) (e : rd B -> prog (rd B)) (f : A -> list Z -> prog (rd B)) : prog (rd B) :=
  match r with ROk a s => f a s | RErr x s => e (RErr x s) | RPanic => e RPanic end.
(** l.172-227 ReadVarInt *)
Definition pReadVarInt (s : list Z) : prog (rd Z) :=
  pUint 1 (fun b => nth 0 b 0%Z) s (fun r => rtry r Ret (fun d s1 =>
    if (d =? 0xff)%Z then
      pUint 8 leval s1 (fun r => rtry r Ret (fun rv s2 => Ret (if (rv <? 0x100000000)%Z then RErr ENonCanonical s2 else ROk rv s2)))
    else if (d =? 0xfe)%Z then
      pUint 4 leval s1 (fun r => rtry r Ret (fun rv s2 => Ret (if (rv <? 0x10000)%Z then RErr ENonCanonical s2 else ROk rv s2)))
    else if (d =? 0xfd)%Z then
      pUint 2 leval s1 (fun r => rtry r Ret (fun rv s2 => Ret (if (rv <? 0xfd)%Z then RErr ENonCanonical s2 else ROk rv s2)))
    else Ret (ROk d s1))).
(** l.231-257 WriteVarInt *)
Definition pWriteVarInt (w : writer) (val : Z) : prog (writer * bool) :=
  if (val <? 0xfd)%Z then Wr [(val mod 2^8)%Z] w Ret
  else if (val <=? 65535)%Z then
    Wr [0xfd%Z] w (fun r => if snd r then Ret (fst r, true) else Wr (le16 (val mod 2^16)) (fst r) Ret)
  else if (val <=? 4294967295)%Z then
    Wr [0xfe%Z] w (fun r => if snd r then Ret (fst r, true) else Wr (le32 (val mod 2^32)) (fst r) Ret)
  else
    Wr [0xff%Z] w (fun r => if snd r then Ret (fst r, true) else Wr (le64 val) (fst r) Ret).
(** l.289-303 ReadVarBytes and l.307-319 WriteVarBytes: the rest of each uses no shared buffer *)
Fixpoint pbind {A B} (p : prog A) (f : A -> prog B) : prog B :=
  match p with Ret a => f a | Rd n s k => Rd n s (fun r => pbind (k r) f) | Wr bs w k => Wr bs w (fun r => pbind (k r) f) end.
Definition pReadVarBytes (maxAllowed : Z) (s : list Z) : prog (rd (list Z)) :=
  pbind (pReadVarInt s) (fun r => Ret (rbind r (fun count s1 =>
    if (maxAlloc <? count)%Z then RPanic else readFull count s1))).
Definition pWriteVarBytes (w : writer) (bs : list Z) : prog (writer * bool) :=
  pbind (pWriteVarInt w (blen bs)) (fun r => let '(w1, e1) := r in Ret
    (if e1 then (w1, true) else let '(w2, e2) := wwrite w1 bs in if e2 then (w2, true) else (w2, false))).
(** l.324-330 randomUint64 *)
Definition prandomUint64 (s : list Z) : prog (rd Z) := pUint 8 beval s Ret.

(** ** Specification vocabulary *)
(** what a goroutine computes when every call has a buffer to itself *)
Fixpoint alone {A} (p : prog A) : A :=
  match p with
  | Ret a => a
  | Rd n s k => alone (k (readFull (Z.of_nat n) s))
  | Wr bs w k => alone (k (wwrite w bs))
  end.
(** no call asks for more than 8 bytes (buf[:n] with n > 8 would be a run-time error) *)
Fixpoint small {A} (p : prog A) : Prop :=
  match p with
  | Ret _ => True
  | Rd n _ k => n <= 8 /\ forall r, small (k r)
  | Wr bs _ k => length bs <= 8 /\ forall r, small (k r)
  end.
(** the buffer a goroutine holds, if any *)
Definition holding {A} (g : gstate A) : option nat :=
  match g with
  | GProg _ => None
  | GFill b _ _ _ _ _ | GTake b _ _ _ _ | GPut b _ _ _ _ | GSend b _ _ _ _ | GGive b _ _ => Some b
  end.
(** an upper bound on the steps of a goroutine *)
Fixpoint cost {A} (p : prog A) : nat :=
  match p with
  | Ret _ => 0
  | Rd n s k => 2 * n + 4 + cost (k (readFull (Z.of_nat n) s))
  | Wr bs w k => 2 * length bs + 4 + cost (k (wwrite w bs))
  end.
(** the number of steps a schedule takes *)
Fixpoint fsteps {A} (sched : list nat) (s : fstate A) : nat :=
  match sched with
  | [] => 0
  | i :: r => match fnext i s with None => fsteps r s | Some FCrash => 1 | Some (FRun s') => S (fsteps r s') end
  end.
