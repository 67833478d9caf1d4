(** * Sequences of accesses: field methods are oblivious, scalar multiplication reveals the scalar *)
From Coq Require Import ZArith List Bool Lia.
From Verif Require Import Go Wire Big Field Koblitz KoblitzMem SpecMem FieldMem FieldMemProofs KoblitzWord SpecTrace.
Import ListNotations.
Open Scope Z_scope.
Local Open Scope wcode_scope.

Lemma trace_seq {A B : Type} (c : wcode A) (f : A -> wcode B) : forall m,
  traceW (seqW c f) m = traceW c m ++ traceW (f (fst (runW c m))) (snd (runW c m)).
Proof. induction c as [a|p i k IH|p i w k IH]; intros m; cbn [seqW traceW runW app]; [reflexivity|rewrite IH; reflexivity|rewrite IH; reflexivity]. Qed.

(** ** oblivious code *)
Definition tr {A : Type} (c : wcode A) (l : list access) : Prop := forall m, traceW c m = l.
Lemma tr_obl {A : Type} (c : wcode A) l : tr c l -> oblivious c. Proof. intros H m m'. rewrite !H. reflexivity. Qed.
Lemma tr_ret {A : Type} (a : A) : tr (WRet a) []. Proof. intros m. reflexivity. Qed.
Lemma tr_seq {A B : Type} (c : wcode A) (f : A -> wcode B) l r : tr c l -> (forall a, tr (f a) r) -> tr (seqW c f) (l ++ r).
Proof. intros C F m. rewrite trace_seq, C, F. reflexivity. Qed.
Lemma tr_ld p i : tr (ld p i) [Loads p i]. Proof. intros m. reflexivity. Qed.
Lemma tr_st p i w : tr (st p i w) [Stores p i]. Proof. intros m. reflexivity. Qed.
Lemma tr_each l c t : (forall i, tr (c i) (t i)) -> tr (eachW l c) (flat_map t l).
Proof. intros H. induction l as [|i l IH]; cbn [eachW flat_map]; [apply tr_ret|]. apply tr_seq; [apply H|intros _; exact IH]. Qed.
Definition stores (f : ptr) : list access := flat_map (fun i => [Stores f i]) words.
Definition loads (f : ptr) : list access := flat_map (fun i => [Loads f i]) words.
Lemma tr_put f v : tr (putW f v) (stores f). Proof. apply tr_each. intros i. apply tr_st. Qed.
Lemma tr_zero f : tr (ZeroW f) (stores f). Proof. apply tr_each. intros i. apply tr_st. Qed.
Lemma tr_load f : tr (loadW f) (loads f). Proof. intros m. reflexivity. Qed.
Lemma tr_set f a : tr (SetW f a) (loads a ++ stores f). Proof. apply tr_seq; [apply tr_load|intros v; apply tr_put]. Qed.
Lemma tr_setInt f n : tr (SetIntW f n) (stores f ++ [Stores f 0]). Proof. apply tr_seq; [apply tr_zero|intros _; apply tr_st]. Qed.
Lemma tr_setBytes f b : tr (SetBytesW f b) (stores f). Proof. apply tr_put. Qed.
Lemma tr_normalize f : tr (NormalizeW f) ([Loads f 9] ++ removelast (loads f) ++ stores f).
Proof.
  intros m. cbv beta delta [NormalizeW]. do 10 (rewrite trace_seq; cbn [ld traceW runW fst snd app]).
  destruct (carryW _ _ _ _ _ _ _ _ _ _ _) as [t0 t1 t2 t3 t4 t5 t6 t7 t8 t9]. cbv zeta.
  destruct (carryW _ _ _ _ _ _ _ _ _ _ _) as [v0 v1 v2 v3 v4 v5 v6 v7 v8 v9]. rewrite tr_put. reflexivity.
Qed.
Lemma tr_bytes f : tr (BytesW f) (loads f). Proof. intros m. reflexivity. Qed.
Lemma tr_isZero f : tr (IsZeroW f) (loads f). Proof. intros m. reflexivity. Qed.
Lemma tr_isOdd f : tr (IsOddW f) [Loads f 0]. Proof. intros m. reflexivity. Qed.
Definition both (f a : ptr) : list access := flat_map (fun i => [Loads f i; Loads a i]) words.
Lemma tr_equals f a : tr (EqualsW f a) (both f a). Proof. intros m. reflexivity. Qed.
Lemma tr_negate f a k : tr (NegateValW f a k) (flat_map (fun i => [Loads a i] ++ [Stores f i]) words).
Proof. apply tr_each. intros i. apply tr_seq; [apply tr_ld|intros w; apply tr_st]. Qed.
Lemma tr_addInt f n : tr (AddIntW f n) ([Loads f 0] ++ [Stores f 0]). Proof. apply tr_seq; [apply tr_ld|intros w; apply tr_st]. Qed.
Lemma tr_add2 f a b : tr (Add2W f a b) (flat_map (fun i => [Loads a i] ++ [Loads b i] ++ [Stores f i]) words).
Proof. apply tr_each. intros i. apply tr_seq; [apply tr_ld|intros x]. apply tr_seq; [apply tr_ld|intros y; apply tr_st]. Qed.
Lemma tr_add f a : tr (AddW f a) (flat_map (fun i => [Loads f i] ++ [Loads a i] ++ [Stores f i]) words).
Proof. apply tr_each. intros i. apply tr_seq; [apply tr_ld|intros x]. apply tr_seq; [apply tr_ld|intros y; apply tr_st]. Qed.
Lemma tr_mulInt f n : tr (MulIntW f n) (flat_map (fun i => [Loads f i] ++ [Stores f i]) words).
Proof. apply tr_each. intros i. apply tr_seq; [apply tr_ld|intros x; apply tr_st]. Qed.
Definition colT (a b : ptr) (l : list term) : list access := flat_map (fun t => [Loads a (snd (fst t))] ++ [Loads b (snd t)]) l.
Lemma tr_column a b l : forall m, tr (columnW a b l m) (colT a b l).
Proof.
  induction l as [|[[c i] j] l IH]; intros m; cbn [columnW colT flat_map]; [apply tr_ret|]. rewrite <- app_assoc.
  apply tr_seq; [apply tr_ld|intros x]. apply tr_seq; [apply tr_ld|intros y; apply IH].
Qed.
Lemma tr_columns a b l : forall q, tr (columnsW a b q l) (flat_map (colT a b) l).
Proof.
  induction l as [|c l IH]; intros q; cbn [columnsW flat_map]; [apply tr_ret|]. apply tr_seq; [apply tr_column|intros m]. rewrite <- (app_nil_r (flat_map _ _)).
  apply tr_seq; [apply IH|intros t; apply tr_ret].
Qed.
Lemma tr_reduce f t : tr (reduceW f t) (stores f).
Proof.
  unfold reduceW. do 20 (destruct t as [|? t]; [apply tr_zero|]). destruct t as [|]; [|apply tr_zero]. cbv zeta.
  match goal with |- tr (match ?u with _ => _ end) _ => generalize u; intros v end.
  do 9 (destruct v as [|? v]; [apply tr_zero|]). destruct v as [|]; [|apply tr_zero]. intros m. reflexivity.
Qed.
Lemma tr_mul f a b : tr (Mul2W f a b) (flat_map (colT a b) mulTerms ++ stores f).
Proof. apply tr_seq; [apply tr_columns|intros t; apply tr_reduce]. Qed.
Lemma tr_square f a : tr (SquareValW f a) (flat_map (colT a a) squareTerms ++ stores f).
Proof. apply tr_seq; [apply tr_columns|intros t; apply tr_reduce]. Qed.
Definition squaresT (n : nat) (f : ptr) : list access := concat (repeat (flat_map (colT f f) squareTerms ++ stores f) n).
Lemma tr_squares n f : tr (squaresW n f) (squaresT n f).
Proof. unfold squaresT. induction n as [|n IH]; cbn [squaresW repeat concat]; [apply tr_ret|]. apply tr_seq; [apply tr_square|intros _; exact IH]. Qed.
Definition known {A : Type} (c : wcode A) : Prop := exists l, tr c l.
Lemma known_seq (c : wcode unit) {B : Type} (f : unit -> wcode B) : known c -> known (f tt) -> known (seqW c f).
Proof. intros [l L] [r K]. exists (l ++ r). apply tr_seq; [exact L|intros []; exact K]. Qed.
Lemma known_mul f a b : known (Mul2W f a b). Proof. eexists. apply tr_mul. Qed.
Lemma known_square f a : known (SquareValW f a). Proof. eexists. apply tr_square. Qed.
Lemma known_squares n f : known (squaresW n f). Proof. eexists. apply tr_squares. Qed.
Lemma known_rounds f l : known (rounds f l).
Proof.
  induction l as [|a l IH]; [exists []; apply tr_ret|]. cbn [rounds]. apply known_seq; [apply known_squares|]. apply known_seq; [apply known_mul|exact IH].
Qed.
Lemma known_obl {A : Type} (c : wcode A) : known c -> oblivious c. Proof. intros [l L]. exact (tr_obl c l L). Qed.
Lemma known_inverse sp f : known (InverseW sp f).
Proof.
  unfold InverseW. cbv zeta.
  apply known_seq; [apply known_square|]. apply known_seq; [apply known_mul|]. apply known_seq; [apply known_square|].
  apply known_seq; [apply known_square|]. apply known_seq; [apply known_mul|]. apply known_seq; [apply known_mul|].
  apply known_seq; [apply known_mul|]. apply known_seq; [apply known_square|]. apply known_seq; [apply known_mul|].
  apply known_seq; [apply known_mul|]. apply known_seq; [apply known_square|]. apply known_seq; [apply known_squares|].
  apply known_seq; [apply known_mul|]. apply known_seq; [apply known_mul|]. apply known_seq; [eexists; apply tr_set|]. apply known_rounds.
Qed.
Lemma known_ins fr e i : known (insW fr e i).
Proof.
  destruct i; cbn [insW];
  [eexists; apply tr_set|eexists; apply tr_setInt|eexists; apply tr_normalize|eexists; apply tr_negate|eexists; apply tr_negate|eexists; apply tr_add
  |eexists; apply tr_add2|eexists; apply tr_mulInt|apply known_mul|apply known_mul|apply known_square|apply known_square|apply known_inverse].
Qed.
Lemma known_exec fr e l : known (execW fr e l).
Proof. induction l as [|i l IH]; cbn [execW]; [exists []; apply tr_ret|]. apply known_seq; [apply known_ins|exact IH]. Qed.
