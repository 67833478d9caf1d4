(** * Property C73: concurrent use of one curve object *)
From Coq Require Import ZArith List Bool Lia.
From Verif Require Import Go Wire Big Field Koblitz KoblitzMem SpecMem KoblitzConc SpecConc ConcProofs.
Import ListNotations.
Open Scope Z_scope.

(** ** C73: whatever the schedule, a goroutine that has finished has the answer it would
    have got alone, and the shared variables are as they were *)
Theorem C73_answers : forall g base stack m req s, layout g base stack m -> (forall i, request_ok (req i)) ->
  let '(t, m') := interleave s (fun i => serve g (stack i) (req i)) m in
  (forall i a, t i = Ret a -> a = answer (tableOf (gTab g) m) (tableOf (gTabH g) m) (req i)) /\
  (forall p, p < base -> m' p = m p).
Proof.
  intros g base stack m req s H K.
  destruct (inter_inv (owns stack) (shared base) (owns_apart g base stack m H) (owns_shared g base stack m H) s (fun i => serve g (stack i) (req i)) m) as (_ & A & _ & M).
  { intros j. apply (serve_within g base stack m H). }
  cbv zeta in A, M. destruct (interleave s _ m) as [t m']. cbn [fst snd] in A, M. split.
  - intros i a E. specialize (A i). rewrite E in A. cbn [run fst] in A. rewrite A. apply (serve_answer g base stack m H), K.
  - intros p P. apply M. intros j O. exact (owns_shared g base stack m H j p O P).
Qed.
Print Assumptions C73_answers.

(** ** C73: every goroutine finishes after a number of accesses that does not depend on
    what the others do: nobody waits for anybody *)
Theorem C73_finishes : forall g base stack m req i, layout g base stack m ->
  exists n, forall s, (n <= count_occ Nat.eq_dec s i)%nat ->
  exists a, fst (interleave s (fun i => serve g (stack i) (req i)) m) i = Ret a.
Proof.
  intros g base stack m req i H. exists (steps (serve g (stack i) (req i)) m). intros s C.
  destruct (inter_inv (owns stack) (shared base) (owns_apart g base stack m H) (owns_shared g base stack m H) s (fun i => serve g (stack i) (req i)) m) as (_ & _ & A & _).
  { intros j. apply (serve_within g base stack m H). }
  cbv zeta in A. specialize (A i). apply (steps_0 _ (snd (interleave s (fun i => serve g (stack i) (req i)) m))). rewrite A. apply Nat.sub_0_le. exact C.
Qed.
Print Assumptions C73_finishes.

(** ** C73: no data race: at no moment of any schedule is a goroutine about to write a
    variable another one is about to read or write; nobody writes a shared variable *)
Theorem C73_no_race : forall g base stack m req s i p, layout g base stack m ->
  let t := fst (interleave s (fun i => serve g (stack i) (req i)) m) in
  nextWrite (t i) = Some p -> base <= p /\ forall j, j <> i -> nextAccess (t j) <> Some p.
Proof.
  intros g base stack m req s i p H t E.
  destruct (inter_inv (owns stack) (shared base) (owns_apart g base stack m H) (owns_shared g base stack m H) s (fun i => serve g (stack i) (req i)) m) as (W & _).
  { intros j. apply (serve_within g base stack m H). }
  cbv zeta in W. fold t in W. pose proof (W i) as Wi. destruct (t i) as [a|q k|q v k]; try discriminate E. injection E as ->. destruct Wi as [O _].
  split; [pose proof (owns_shared g base stack m H i p O) as N; unfold shared in N; lia|].
  intros j N F. pose proof (W j) as Wj. destruct (t j) as [a|q k'|q v' k']; try discriminate F; injection F as ->.
  - destruct Wj as [[Oj|Oj] _]; [exact (owns_apart g base stack m H i j p (not_eq_sym N) O Oj)|exact (owns_shared g base stack m H i p O Oj)].
  - destruct Wj as [Oj _]. exact (owns_apart g base stack m H i j p (not_eq_sym N) O Oj).
Qed.
Print Assumptions C73_no_race.

(** shared variables at 0 and 1, tables behind them, stacks from 2^20 on *)
Definition caseGlobals : globals :=
  {| gOne := 0; gBeta := 1; gTab := fun i b c => 2 + (3 * (256 * Z.of_nat (Nat.min i 31) + Z.min 255 b) + Z.of_nat (Nat.min c 2));
     gTabH := fun i b c => 2 + 24576 + (3 * (256 * Z.of_nat (Nat.min i 31) + Z.min 255 b) + Z.of_nat (Nat.min c 2)) |}.
Example C73_case : layout caseGlobals (2 ^ 20) (fun i => 2 ^ 20 + 256 * Z.of_nat i) (fun p => if p =? 1 then curveBeta else fieldOne) /\
  request_ok (ReqMult 1 2 [255; 0]) /\
  (* two goroutines doubling at the same time do get to the point where both want to write *)
  let t := fst (interleave [0; 1]%nat (fun i => serve caseGlobals (2 ^ 20 + 256 * Z.of_nat i) (ReqBase [1])) (fun p => if p =? 1 then curveBeta else fieldOne)) in
  nextWrite (t 0%nat) <> None /\ nextWrite (t 1%nat) <> None /\ nextWrite (t 0%nat) <> nextWrite (t 1%nat).
Proof.
  split; [|split; [repeat constructor; discriminate|]].
  - assert (B : 2 ^ 20 = 1048576) by reflexivity. rewrite B. clear B. split; cbn [gOne gBeta gTab gTabH caseGlobals]; unfold stackSize.
    + split; [lia|reflexivity].
    + split; [lia|reflexivity].
    + intros i b c. lia.
    + intros i. lia.
    + intros i j N. lia.
  - vm_compute. split; [discriminate|split; discriminate].
Qed.
