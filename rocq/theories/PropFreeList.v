(** * The serializer free list never shares a buffer (C09)

    [ps] is what the goroutines do, any number of them; [sched] any order of steps. *)
From Coq Require Import ZArith List Bool Arith Lia.
From Verif Require Import Go Wire FreeList FreeListProofs.
Import ListNotations.
Open Scope nat_scope.

(** No buffer is held by two goroutines, or held while on the list, or on the list twice. *)
Theorem C09_exclusive : forall A (ps : list (prog A)) sched s, Forall small ps -> fexec sched (finit ps) = FRun s ->
  (forall i j g h b, nth_error (gors s) i = Some g -> nth_error (gors s) j = Some h ->
     holding g = Some b -> holding h = Some b -> i = j) /\
  (forall i g b, nth_error (gors s) i = Some g -> holding g = Some b -> ~ In b (map fst (chan s))) /\
  NoDup (map fst (chan s)).
Proof.
  intros A ps sched s F E. pose proof (reach_run ps sched s F E) as I. pose proof (i_nodup _ _ I) as ND. split; [|split].
  - intros i j g h b. exact (held_two (gors s) i j g h b (nodup_r _ _ ND)).
  - intros i g b Hi Hg Hc. apply in_split in Hc. destruct Hc as (l1 & l2 & El). rewrite El, <- app_assoc in ND. cbn in ND.
    apply NoDup_remove_2 in ND. apply ND. rewrite !in_app_iff. right. right. exact (held_all (gors s) i g b Hi Hg).
  - revert ND. generalize (map fst (chan s)) as l, (flat_map held (gors s)) as m. clear. intros l m. induction l as [|a l IH]; cbn; intros H; [constructor|].
    inversion H; subst. constructor; [rewrite in_app_iff in *; tauto|auto].
Qed.
Print Assumptions C09_exclusive.
(** The list never holds more than 1024 buffers. *)
Theorem C09_at_most_1024 : forall A (ps : list (prog A)) sched s, Forall small ps -> fexec sched (finit ps) = FRun s ->
  (Z.of_nat (length (chan s)) <= 1024)%Z.
Proof.
  intros A ps sched s F E. pose proof (i_cap _ _ (reach_run ps sched s F E)) as H. unfold maxItems in H. lia.
Qed.
Print Assumptions C09_at_most_1024.
(** Every buffer, in particular each one a goroutine holds, has 8 bytes. *)
Theorem C09_length_8 : forall A (ps : list (prog A)) sched s, Forall small ps -> fexec sched (finit ps) = FRun s ->
  forall i g b, nth_error (gors s) i = Some g -> holding g = Some b -> exists l, nth_error (mem s) b = Some l /\ length l = 8.
Proof.
  intros A ps sched s F E i g b Hi Hg. pose proof (reach_run ps sched s F E) as I.
  assert (L : b < length (mem s)) by (apply (i_mem _ _ I); rewrite in_app_iff; right; exact (held_all (gors s) i g b Hi Hg)).
  destruct (nth_error (mem s) b) as [l|] eqn:El; [|apply nth_error_None in El; lia]. exists l. split; [reflexivity|exact (i_len _ _ I b l El)].
Qed.
Print Assumptions C09_length_8.
(** No operation ever blocks: a goroutine that has not returned can move, whatever the others do. *)
Theorem C09_never_blocks : forall A (ps : list (prog A)) sched s, Forall small ps -> fexec sched (finit ps) = FRun s ->
  forall i g, nth_error (gors s) i = Some g -> (exists a, g = GProg (Ret a)) \/ exists s', fnext i s = Some (FRun s').
Proof.
  intros A ps sched s F E i g Hi. pose proof (fstep ps s i (reach_run ps sched s F E)) as H. rewrite Hi in H.
  destruct g as [[a|n st c|bs w c]|b n k s0 st c|b n acc st c|b bs k w c|b bs acc w c|b n p]; [left; exists a; reflexivity|..];
    right; destruct H as (s' & H & _); exists s'; exact H.
Qed.
Print Assumptions C09_never_blocks.
(** No schedule ends in a run-time error. *)
Theorem C09_never_crashes : forall A (ps : list (prog A)) sched, Forall small ps -> fexec sched (finit ps) <> FCrash.
Proof. intros A ps sched F E. destruct (reach ps sched F) as (s & E' & _). congruence. Qed.
Print Assumptions C09_never_crashes.
(** A goroutine that returns has computed what it computes alone. *)
Theorem C09_results : forall A (ps : list (prog A)) sched s, Forall small ps -> fexec sched (finit ps) = FRun s ->
  forall i p a, nth_error ps i = Some p -> nth_error (gors s) i = Some (GProg (Ret a)) -> a = alone p.
Proof. intros A ps sched s F E i p a Hp Hi. exact (i_res _ _ (reach_run ps sched s F E) i _ p Hi Hp). Qed.
Print Assumptions C09_results.
(** All goroutines together take a bounded number of steps, and from every reachable
    state all of them can finish. *)
Theorem C09_terminates : forall A (ps : list (prog A)) sched, Forall small ps ->
  fsteps sched (finit ps) <= list_sum (map cost ps).
Proof. intros A ps sched F. destruct (reach ps sched F) as (s & _ & _ & L). rewrite total_init in L. lia. Qed.
Print Assumptions C09_terminates.
Theorem C09_can_finish : forall A (ps : list (prog A)) sched, Forall small ps -> exists more s,
  fexec (sched ++ more) (finit ps) = FRun s /\ forall i p, nth_error ps i = Some p -> nth_error (gors s) i = Some (GProg (Ret (alone p))).
Proof.
  intros A ps sched F. destruct (reach ps sched F) as (s & E & I & _). destruct (finish_gen ps (total s) s (le_n _) I) as (more & s' & E' & H).
  exists more, s'. assert (E2 : fexec (sched ++ more) (finit ps) = FRun s') by (rewrite fexec_app, E; exact E'). split; [exact E2|].
  intros i p Hp. pose proof (reach_run ps _ s' F E2) as I'. destruct (nth_error (gors s') i) as [g|] eqn:Eg.
  - destruct (H i g Eg) as [a ->]. rewrite (C09_results A ps _ s' F E2 i p a Hp Eg). reflexivity.
  - apply nth_error_None in Eg. rewrite (i_num _ _ I') in Eg. apply nth_error_None in Eg. congruence.
Qed.
Print Assumptions C09_can_finish.
(** The functions of the package ask for at most 8 bytes, and alone they are the
    functions of Wire.v, so the above holds of them under every schedule. *)
Theorem C09_package_functions : forall s w v m bs,
  (small (pReadVarInt s) /\ alone (pReadVarInt s) = ReadVarInt s) /\
  (small (pWriteVarInt w v) /\ alone (pWriteVarInt w v) = WriteVarInt w v) /\
  (small (pReadVarBytes m s) /\ alone (pReadVarBytes m s) = ReadVarBytes m s) /\
  (small (pWriteVarBytes w bs) /\ alone (pWriteVarBytes w bs) = WriteVarBytes w bs) /\
  (small (prandomUint64 s) /\ alone (prandomUint64 s) = randomUint64 s).
Proof.
  intros s w v m bs.
  exact (conj (conj (small_ReadVarInt s) (alone_ReadVarInt s)) (conj (conj (small_WriteVarInt w v) (alone_WriteVarInt w v))
    (conj (conj (small_ReadVarBytes m s) (alone_ReadVarBytes m s)) (conj (conj (small_WriteVarBytes w bs) (alone_WriteVarBytes w bs))
    (conj (small_uint 8 beval s Ret (le_n 8) (fun _ => I)) eq_refl))))).
Qed.
Print Assumptions C09_package_functions.
(** Three goroutines: a VarInt is read while another one is written and a third one read
    past the end; under an interleaving in which the first two hold buffers at once. *)
Example C09_nonvacuous :
  let ps := [pbind (pReadVarInt [0xfd; 1; 1; 7]%Z) (fun r => Ret (inl r)); pbind (pWriteVarInt newBuffer 300) (fun r => Ret (inr r));
             pbind (pReadVarInt [0xfe; 1]%Z) (fun r => Ret (inl r))] in
  Forall small ps /\
  (exists s, fexec [0; 1; 0; 1]%nat (finit ps) = FRun s /\ map holding (gors s) = [Some 0; Some 1; None]) /\
  map alone ps = [inl (ROk 257%Z [7%Z]); inr ({| wout := [0xfd; 44; 1]%Z; wroom := None |}, false); inl (RErr EUnexpectedEOF [])].
Proof.
  intros ps. split; [|split].
  - apply Forall_forall. intros p [<-|[<-|[<-|[]]]]; apply small_bind; try (apply small_ReadVarInt || apply small_WriteVarInt); exact (fun _ => I).
  - eexists. split; reflexivity.
  - reflexivity.
Qed.
(** A program whose bytes do not fit the buffer would crash, so [small] is needed. *)
Example C09_small_needed : exists s : list nat, fexec s (finit [Wr (repeat 1%Z 9) newBuffer (fun r => Ret r)]) = FCrash.
Proof. exists (repeat 0 10). reflexivity. Qed.
