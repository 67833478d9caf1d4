(** * Properties of the construction of the curve object (C80) *)
From Coq Require Import ZArith List Bool Lia.
From Verif Require Import Spec Go Wire Big SpecZk Sha256 Koblitz Precompute PropPrecomp Init SpecInit InitProofs.
Import ListNotations.
Open Scope Z_scope.

(** C80: with embedded texts that can be loaded, in every state that any number of calls of
    S256 reach by any schedule: no call has panicked; once a call has returned, the curve
    object is complete, and it has the tables of the embedded texts; *)
Theorem C80_complete decode bp bpH c n schedule : startS256 decode bp bpH = Ok c ->
  let s := execute (initS256 decode bp bpH) schedule (fresh n) in
  forall i, ~ panicked s i /\
    (returned s i -> complete (obj s) /\ S256 (tableOf (oTable (obj s))) (tableOf (oTableH (obj s))) = c).
Proof.
  intros ST s i. pose proof (inv_reach (initS256 decode bp bpH) schedule n) as I. fold s in I.
  destruct (init_ok decode bp bpH c ST) as (t & tH & R & -> & _).
  split; [apply (no_panic _ s i I); rewrite R; reflexivity|].
  intros E. rewrite (ended_obj _ s i false I E), R. cbn [fst]. destruct (filled_complete t tH) as (C & -> & ->). split; [exact C|reflexivity].
Qed.
Print Assumptions C80_complete.

(** C80: from then on nothing writes to it, whatever else happens; *)
Theorem C80_stable decode bp bpH n schedule more i : 
  let body := initS256 decode bp bpH in let s := execute body schedule (fresh n) in let s' := execute body more s in
  ended s i -> obj s' = obj s /\ forall j, ~ inside s' j.
Proof.
  intros body s s' E. pose proof (inv_reach body schedule n) as I. fold s in I. assert (I' : inv body s') by exact (inv_execute body more s I).
  assert (H : exists p, nth_error (calls s) i = Some (End p)) by (destruct E as [E|E]; eexists; exact E). destruct H as (p & H).
  pose proof (end_stays_all body more s i p H) as H'. fold s' in H'. split.
  - rewrite (ended_obj body s i p I H), (ended_obj body s' i p I' H'). reflexivity.
  - intros j (rest & J). exact (ended_no_body body s' i p j rest I' H' J).
Qed.
Print Assumptions C80_stable.
(** and never are two calls inside initS256 at once. *)
Theorem C80_exclusive decode bp bpH n schedule i j :
  let s := execute (initS256 decode bp bpH) schedule (fresh n) in inside s i -> inside s j -> i = j.
Proof. intros s (r1 & A) (r2 & B). exact (one_body _ s i j r1 r2 (inv_reach _ schedule n) A B). Qed.
Print Assumptions C80_exclusive.

(** C80: no call waits for ever: no run has more than 25 steps per call, and a run that
    cannot go on is one in which every call has ended. *)
Theorem C80_terminates decode bp bpH n schedule s : moves (initS256 decode bp bpH) schedule (fresh n) = Some s -> (length schedule <= n * 25)%nat.
Proof. exact (moves_bound (initS256 decode bp bpH) schedule n s). Qed.
Print Assumptions C80_terminates.
Theorem C80_no_deadlock decode bp bpH n schedule :
  let body := initS256 decode bp bpH in let s := execute body schedule (fresh n) in
  (forall i, stepCall body i s = None) -> forall i, (i < n)%nat -> ended s i.
Proof.
  intros body s ST i L. destruct (progress body s (inv_reach body schedule n)) as [E|(k & s' & E)]; [|rewrite ST in E; discriminate E].
  apply E. unfold s. rewrite len_execute. change (calls (fresh n)) with (repeat Start n). rewrite repeat_length. exact L.
Qed.
Print Assumptions C80_no_deadlock.

(** C80: a failed construction is reported only once.  With a text that cannot be loaded, when
    all of the calls have ended, exactly one has panicked and all others have returned a
    curve object whose beta, lambda and second table are nil. *)
Theorem C80_failed_init_refuted decode bp bpH n : startS256 decode bp bpH = Panic -> (2 <= n)%nat ->
  let body := initS256 decode bp bpH in
  (exists schedule, forall i, (i < n)%nat -> ended (execute body schedule (fresh n)) i) /\
  forall schedule, let s := execute body schedule (fresh n) in
    (forall i, (i < n)%nat -> ended s i) ->
    exists i, panicked s i /\ (forall j, (j < n)%nat -> j <> i -> returned s j) /\
      oBeta (obj s) = None /\ oLambda (obj s) = None /\ oTableH (obj s) = None.
Proof.
  intros ST N body. destruct (init_panic decode bp bpH ST) as (t & R).
  assert (LN : forall schedule, length (calls (execute body schedule (fresh n))) = n).
  { intros schedule. rewrite len_execute. change (calls (fresh n)) with (repeat Start n). apply repeat_length. }
  split.
  - destruct (drive body _ (fresh n) (le_n _) (inv_fresh body n)) as (schedule & H). exists schedule. rewrite LN in H. exact H.
  - intros schedule s E. pose proof (inv_reach body schedule n) as I. fold s in I. specialize (LN schedule). fold s in LN.
    destruct (one_panics body s I) as (i & PI & RJ); [unfold body; rewrite R; reflexivity|rewrite LN; exact E|lia|].
    exists i. split; [exact PI|]. rewrite LN in RJ. split; [exact RJ|].
    rewrite (ended_obj body s i true I PI). unfold body. rewrite R. exact (half_nil t).
Qed.
Print Assumptions C80_failed_init_refuted.

(** cases: the generated tables load, by C59; a text that does not decode; two calls, of which
    the second finds the lock taken, waits, and returns *)
Example C80_case :
  (exists bytes bytesH c, startS256 Some bytes bytesH = Ok c) /\
  startS256 (fun _ => None) [1] [1] = Panic /\
  (let s := execute (initS256 Some [] []) ([0; 1; 0; 1; 0] ++ repeat 0 21 ++ [0; 0; 1; 1; 1; 1])%nat (fresh 2) in returned s 0 /\ returned s 1) /\
  (let s := execute (initS256 (fun _ => None) [1] [1]) (repeat 0 25 ++ [1; 1])%nat (fresh 2) in panicked s 0 /\ returned s 1 /\ oBeta (obj s) = None).
Proof.
  split; [destruct C59_case as (b & bH & c & _ & _ & E & _); exists b, bH, c; exact E|]. split; [reflexivity|].
  split; vm_compute; auto.
Qed.
