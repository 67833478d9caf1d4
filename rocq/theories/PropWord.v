(** * Properties C76 and C77: field arithmetic in place, and goroutines interleaved word by word *)
From Coq Require Import ZArith List Bool Lia.
From Verif Require Import Go Wire Big Field SpecField Koblitz KoblitzMem SpecMem KoblitzConc SpecConc FieldMem KoblitzWord SpecWord FieldMemProofs WordProofs ConcProofs WordProofs2 PropField.
From Verif Require Spec.
Import ListNotations.
Open Scope Z_scope.

Lemma inPlace_meq c f v : (forall m, meq (snd (runW c m)) (upd m f (v m))) -> inPlace c f v.
Proof. intros H m. rewrite alone_run. split; [rewrite (H m f); apply upd_at|intros q N; rewrite (H m q); apply upd_off, N]. Qed.

(** ** C76: a method that stores its result word by word over its operands computes the
    function of Field.v, whichever of its pointers are equal *)
Theorem C76_in_place : forall f a b n k bs,
  inPlace (ZeroW f) f (fun _ => fZero) /\
  inPlace (SetW f a) f (fun m => m a) /\
  inPlace (SetIntW f n) f (fun _ => fSetInt n) /\
  inPlace (SetBytesW f bs) f (fun _ => fSetBytes bs) /\
  inPlace (NormalizeW f) f (fun m => fNormalize (m f)) /\
  inPlace (NegateValW f a k) f (fun m => fNegate (m a) k) /\
  inPlace (AddIntW f n) f (fun m => fAddInt (m f) n) /\
  inPlace (AddW f a) f (fun m => fAdd (m f) (m a)) /\
  inPlace (Add2W f a b) f (fun m => fAdd (m a) (m b)) /\
  inPlace (MulIntW f n) f (fun m => fMulInt (m f) n) /\
  inPlace (Mul2W f a b) f (fun m => fMul (m a) (m b)) /\
  inPlace (SquareValW f a) f (fun m => fSquare (m a)).
Proof.
  intros f a b n k bs.
  split; [apply inPlace_meq; intros m; exact (zero_ok f m)|].
  split; [apply inPlace_meq; intros m; exact (set_ok f a m)|].
  split; [apply inPlace_meq; intros m; exact (setInt_ok f n m)|].
  split; [apply inPlace_meq; intros m; exact (setBytes_ok f bs m)|].
  split; [apply inPlace_meq; intros m; exact (FieldMemProofs.normalize_ok f m)|].
  split; [apply inPlace_meq; intros m; exact (FieldMemProofs.negate_ok f a k m)|].
  split; [apply inPlace_meq; intros m; exact (FieldMemProofs.addInt_ok f n m)|].
  split; [apply inPlace_meq; intros m; exact (FieldMemProofs.add_ok f a m)|].
  split; [apply inPlace_meq; intros m; exact (add2_ok f a b m)|].
  split; [apply inPlace_meq; intros m; exact (FieldMemProofs.mulInt_ok f n m)|].
  split; [apply inPlace_meq; intros m; exact (FieldMemProofs.mul_ok f a b m)|].
  apply inPlace_meq; intros m; exact (FieldMemProofs.square_ok f a m).
Qed.
Print Assumptions C76_in_place.
(** Inverse uses eleven variables of its own at [sp] *)
Theorem C76_inverse : forall sp f m, ~ (sp <= f < sp + 11) ->
  snd (aloneW (InverseW sp f) m) f = fInverse (m f) /\
  forall q, q <> f -> ~ (sp <= q < sp + 11) -> snd (aloneW (InverseW sp f) m) q = m q.
Proof. intros sp f m. rewrite alone_run. exact (inverse_ok sp f m). Qed.
Print Assumptions C76_inverse.
Theorem C76_read_only : forall f a,
  readOnly (IsZeroW f) (fun m => fIsZero (m f)) /\ readOnly (IsOddW f) (fun m => fIsOdd (m f)) /\
  readOnly (EqualsW f a) (fun m => fEquals (m f) (m a)) /\ readOnly (BytesW f) (fun m => fBytes (m f)).
Proof.
  intros f a. split; [|split; [|split]]; intros m; rewrite alone_run; [apply isZero_ok|apply isOdd_ok|apply equals_ok|apply bytes_ok_W].
Qed.
Print Assumptions C76_read_only.
(** SetByteSlice panics, here an outcome [false], on more than 32 bytes *)
Theorem C76_byte_slice : forall f bs m, let r := aloneW (SetByteSliceW f bs) m in
  match fSetByteSlice bs with
  | Ok v => fst r = true /\ snd r f = v /\ forall q, q <> f -> snd r q = m q
  | Panic => r = (false, m)
  end.
Proof.
  intros f bs m r. unfold r. rewrite alone_run. pose proof (setByteSlice_ok f bs m) as H. destruct (fSetByteSlice bs) as [v|]; [|exact H].
  destruct H as [A B]. split; [exact A|]. split; [rewrite (B f); apply upd_at|intros q N; rewrite (B q); apply upd_off, N].
Qed.
Print Assumptions C76_byte_slice.
(** the same in numbers: within the documented magnitudes, also when all pointers are equal *)
Theorem C76_arithmetic : forall f a b m k1 k2, 0 <= k1 -> 0 <= k2 -> fits k1 (m a) -> fits k2 (m b) ->
  let after c := val (snd (aloneW c m) f) in
  (k1 <= 63 -> after (SetW f a) = val (m a)) /\
  (k1 + k2 <= 63 -> after (Add2W f a b) = val (m a) + val (m b)) /\
  (k1 <= 62 -> (after (NegateValW f a k1) + val (m a)) mod Spec.P = 0) /\
  (k1 * k2 <= 64 -> after (Mul2W f a b) mod Spec.P = (val (m a) * val (m b)) mod Spec.P) /\
  (k1 <= 8 -> after (SquareValW f a) mod Spec.P = (val (m a) * val (m a)) mod Spec.P).
Proof.
  intros f a b m k1 k2 K1 K2 F1 F2 after.
  destruct (C76_in_place f a b 0 k1 []) as (_ & S & _ & _ & _ & N & _ & _ & A & _ & M & Q). unfold after. repeat split; intros K.
  - rewrite (proj1 (S m)). reflexivity.
  - rewrite (proj1 (A m)). apply (C48_add k1 k2); assumption.
  - rewrite (proj1 (N m)). apply (C48_negate k1 k1); [lia|exact K|exact F1].
  - rewrite (proj1 (M m)). apply (C48_mul k1 k2); assumption.
  - rewrite (proj1 (Q m)). apply (C48_square k1); [lia|exact F1].
Qed.
Print Assumptions C76_arithmetic.
(** all pointers equal: 3 * 3 = 9 over the operands themselves *)
Example C76_case : fits 1 (fSetInt 3) /\
  let m : mem := fun _ => fSetInt 3 in
  snd (aloneW (Mul2W 5 5 5) m) 5 = fSetInt 9 /\ snd (aloneW (AddW 5 5) m) 5 = fSetInt 6 /\ snd (aloneW (Mul2W 5 5 5) m) 6 = fSetInt 3.
Proof.
  split; [unfold fits, fSetInt, u32; cbn; lia|]. vm_compute. split; [reflexivity|split; reflexivity].
Qed.

(** ** C77: goroutines interrupted before every load and store of a word *)
Theorem C77_answers : forall g base stack m req s, layout g base stack m -> (forall i, wrequest_ok (req i)) ->
  let '(t, m') := interleaveW s (fun i => serveW g (stack i) (req i)) m in
  (forall i a, t i = WRet a -> a = answerW (tableOf (gTab g) m) (tableOf (gTabH g) m) (req i)) /\
  (forall p, p < base -> m' p = m p).
Proof.
  intros g base stack m req s H K.
  destruct (interW_inv (owns stack) (shared base) (owns_apart g base stack m H) (owns_shared g base stack m H) s (fun i => serveW g (stack i) (req i)) m) as (_ & A & _ & M).
  { intros j. apply (serveW_within g base stack m H). }
  cbv zeta in A, M. destruct (interleaveW s _ m) as [t m']. cbn [fst snd] in A, M. split.
  - intros i a E. specialize (A i). rewrite E in A. cbn [runW fst] in A. rewrite A. apply (serveW_answer g base stack m H), K.
  - intros p P. apply M. intros j O. exact (owns_shared g base stack m H j p O P).
Qed.
Print Assumptions C77_answers.
(** nobody waits for anybody *)
Theorem C77_finishes : forall g base stack m req i, layout g base stack m ->
  exists n, forall s, (n <= count_occ Nat.eq_dec s i)%nat ->
  exists a, fst (interleaveW s (fun i => serveW g (stack i) (req i)) m) i = WRet a.
Proof.
  intros g base stack m req i H. exists (stepsW (serveW g (stack i) (req i)) m). intros s C.
  destruct (interW_inv (owns stack) (shared base) (owns_apart g base stack m H) (owns_shared g base stack m H) s (fun i => serveW g (stack i) (req i)) m) as (_ & _ & A & _).
  { intros j. apply (serveW_within g base stack m H). }
  cbv zeta in A. specialize (A i). apply (stepsW_0 _ (snd (interleaveW s (fun i => serveW g (stack i) (req i)) m))). rewrite A. apply Nat.sub_0_le. exact C.
Qed.
Print Assumptions C77_finishes.
(** no goroutine is ever about to store a word another one is about to load or store, and
    none stores a word of a shared variable *)
Theorem C77_no_race : forall g base stack m req s i p w, layout g base stack m ->
  let t := fst (interleaveW s (fun i => serveW g (stack i) (req i)) m) in
  nextStoreW (t i) = Some (p, w) -> base <= p /\ forall j, j <> i -> nextAccessW (t j) <> Some (p, w).
Proof.
  intros g base stack m req s i p w H t E.
  destruct (interW_inv (owns stack) (shared base) (owns_apart g base stack m H) (owns_shared g base stack m H) s (fun i => serveW g (stack i) (req i)) m) as (W & _).
  { intros j. apply (serveW_within g base stack m H). }
  cbv zeta in W. fold t in W. pose proof (W i) as Wi. destruct (t i) as [a|q x k|q x v k]; try discriminate E. injection E as -> ->. destruct Wi as [O _].
  split; [pose proof (owns_shared g base stack m H i p O) as N; unfold shared in N; lia|].
  intros j N F. pose proof (W j) as Wj. destruct (t j) as [a|q x k'|q x v' k']; try discriminate F; injection F as -> ->.
  - destruct Wj as [[Oj|Oj] _]; [exact (owns_apart g base stack m H i j p (not_eq_sym N) O Oj)|exact (owns_shared g base stack m H i p O Oj)].
  - destruct Wj as [Oj _]. exact (owns_apart g base stack m H i j p (not_eq_sym N) O Oj).
Qed.
Print Assumptions C77_no_race.

Definition wordGlobals : globals :=
  {| gOne := 0; gBeta := 1; gTab := fun i b c => 2 + (3 * (256 * Z.of_nat (Nat.min i 31) + Z.min 255 b) + Z.of_nat (Nat.min c 2));
     gTabH := fun i b c => 2 + 24576 + (3 * (256 * Z.of_nat (Nat.min i 31) + Z.min 255 b) + Z.of_nat (Nat.min c 2)) |}.
Example C77_case : layout wordGlobals (2 ^ 20) (fun i => 2 ^ 20 + 256 * Z.of_nat i) (fun p => if p =? 1 then curveBeta else fieldOne) /\
  wrequest_ok (WPoint (ReqMult 1 2 [255; 0])) /\ wrequest_ok (WOnCurve 1 2) /\
  (* two goroutines in the middle of storing the same word of the same variable, each on its own stack *)
  let t := fst (interleaveW [0; 1; 1; 0]%nat (fun i => serveW wordGlobals (2 ^ 20 + 256 * Z.of_nat i) (WPoint (ReqBase [1]))) (fun p => if p =? 1 then curveBeta else fieldOne)) in
  nextStoreW (t 0%nat) = Some (2 ^ 20 + 46, 2%nat) /\ nextStoreW (t 1%nat) = Some (2 ^ 20 + 256 + 46, 2%nat).
Proof.
  split; [|split; [repeat constructor; discriminate|split; [exact I|]]].
  - assert (B : 2 ^ 20 = 1048576) by reflexivity. rewrite B. clear B. split; cbn [gOne gBeta gTab gTabH wordGlobals]; unfold stackSize.
    + split; [lia|reflexivity].
    + split; [lia|reflexivity].
    + intros i b c. lia.
    + intros i. lia.
    + intros i j N. lia.
  - vm_compute. split; reflexivity.
Qed.
