(** * The goroutines of /repo/rangeproof.go under every interleaving

    A schedule is a list of thread names.  A thread that cannot move when it is
    scheduled (it is blocked, has ended or was not started) is skipped.  One step of
    a prover goroutine is one assignment to its slot of the shared slices; one step of
    a verifier goroutine is its computation, which touches nothing shared, or its
    send.  A panic in any goroutine ends the program in the step in which it
    happens (in Go the deferred wg.Done l.54, l.108 still runs in between). *)
From Coq Require Import ZArith List Bool Arith.
From Verif Require Import Go Wire Big Crypto Range.
Import ListNotations.
Open Scope nat_scope.

(** thread names: the caller of Verify or NewRangeProof, and goroutine number i *)
Inductive thread := Main | Gor (i : nat).
Fixpoint upd {A : Type} (l : list A) (i : nat) (x : A) : list A :=
  match l, i with
  | [], _ => []
  | _ :: t, 0 => x :: t
  | a :: t, S j => a :: upd t j x
  end.
(** a state of the program, or a crash *)
Inductive conf (A : Type) := Run (a : A) | Crash.
Arguments Run {A}. Arguments Crash {A}.
(** run a schedule *)
Fixpoint exec {A : Type} (next : thread -> A -> option (conf A)) (sched : list thread) (a : A) : conf A :=
  match sched with
  | [] => Run a
  | t :: r => match next t a with
              | None => exec next r a
              | Some Crash => Crash
              | Some (Run b) => exec next r b
              end
  end.
(** the number of steps that were taken *)
Fixpoint nsteps {A : Type} (next : thread -> A -> option (conf A)) (sched : list thread) (a : A) : nat :=
  match sched with
  | [] => 0
  | t :: r => match next t a with
              | None => nsteps next r a
              | Some Crash => 1
              | Some (Run b) => S (nsteps next r b)
              end
  end.

(** ** The verifier: rangeproof.go l.262-322 *)
Inductive vmain :=
| VSpawn (i : nat)                                       (* l.273-286, about to look at entry i *)
| VRecv (k : nat) (rs : list ECPoint) (tot : ECPoint)    (* l.288-298, k results received; then l.300-321 *)
| VDone (r : bool * option goerr).
(** l.232-260: not started; started; about to send p at l.259; ended *)
Inductive vgor := GUnborn | GStart | GReady (p : ECPoint) | GSent.
(** the caller, the channel resultBox (l.271) and the goroutines *)
Record vstate := VS { vm : vmain; vch : list (nat * ECPoint); vg : list vgor }.
(** l.271 make(chan verifyTuple, 10) *)
Definition chanCap : nat := 10.

Section Verifier.
Variables (sha : list Z -> list Z) (zk : zkparams) (pf : RangeProof) (comm : ECPoint).
Definition vinit : vstate := VS (VSpawn 0) [] (repeat GUnborn (length (rpTuples pf))).
Definition vnext (t : thread) (s : vstate) : option (conf vstate) :=
  match t with
  | Main =>
      match vm s with
      | VSpawn i =>
          match nth_error (rpTuples pf) i with
          | Some e => if tupleNil e then Some (Run (VS (VDone (false, Some EProof)) (vch s) (vg s)))
                      else Some (Run (VS (VSpawn (S i)) (vch s) (upd (vg s) i GStart)))
          | None => Some (Run (VS (VRecv 0 (repeat (EP None None) (length (rpTuples pf))) ZeroPoint) (vch s) (vg s)))
          end
      | VRecv k rs tot =>
          match nth_error (rpTuples pf) k with
          | Some e =>
              match vch s with
              | [] => None
              | (i, p) :: c =>
                  match Add zk tot (rtC e) with
                  | Ok tot' => Some (Run (VS (VRecv (S k) (upd rs i p) tot') c (vg s)))
                  | Panic => Some Crash
                  end
              end
          | None =>
              match rangeDecide sha zk pf rs tot comm with
              | Ok r => Some (Run (VS (VDone r) (vch s) (vg s)))
              | Panic => Some Crash
              end
          end
      | VDone _ => None
      end
  | Gor i =>
      match nth_error (vg s) i, nth_error (rpTuples pf) i with
      | Some GStart, Some e =>
          match verifyGen sha zk i (rpE pf) e with
          | Ok p => Some (Run (VS (vm s) (vch s) (upd (vg s) i (GReady p))))
          | Panic => Some Crash
          end
      | Some (GReady p), Some _ =>
          if length (vch s) <? chanCap then Some (Run (VS (vm s) (vch s ++ [(i, p)]) (upd (vg s) i GSent)))
          else None
      | _, _ => None
      end
  end.
End Verifier.

(** ** The prover: rangeproof.go l.186-190 and l.208-214, one phase *)
Inductive pmain := PSpawn (i : nat) | PWait | PPassed.
Inductive pgor := PUnborn | PLive (acts : list action) | PDead.
(** the caller, the WaitGroup, the shared slices and the goroutines *)
Record pstate := PS { pm_ : pmain; pwg : nat; psl : list slot; pg : list pgor }.
Section Prover.
Variable f : nat -> list action.
(** wg.Add(proofSize) *)
Definition pinit (ss : list slot) : pstate := PS (PSpawn 0) (length ss) ss (repeat PUnborn (length ss)).
Definition pnext (t : thread) (s : pstate) : option (conf pstate) :=
  match t with
  | Main =>
      match pm_ s with
      | PSpawn i => match nth_error (pg s) i with
                    | Some _ => Some (Run (PS (PSpawn (S i)) (pwg s) (psl s) (upd (pg s) i (PLive (f i)))))
                    | None => Some (Run (PS PWait (pwg s) (psl s) (pg s)))
                    end
      | PWait => match pwg s with 0 => Some (Run (PS PPassed 0 (psl s) (pg s))) | S _ => None end
      | PPassed => None
      end
  | Gor i =>
      match nth_error (pg s) i, nth_error (psl s) i with
      | Some (PLive []), Some _ => Some (Run (PS (pm_ s) (pred (pwg s)) (psl s) (upd (pg s) i PDead)))
      | Some (PLive (a :: r)), Some x =>
          match a x with
          | Ok (x', go) => Some (Run (PS (pm_ s) (pwg s) (upd (psl s) i x') (upd (pg s) i (PLive (if go then r else [])))))
          | Panic => Some Crash
          end
      | _, _ => None
      end
  end.
(** what a phase comes to under a schedule; None: the schedule is too short *)
Definition phaseSched (sched : list thread) (ss : list slot) : option (R (list slot)) :=
  match exec pnext sched (pinit ss) with
  | Crash => Some Panic
  | Run s => match pm_ s with PPassed => Some (Ok (psl s)) | _ => None end
  end.
End Prover.

(** rangeproof.go l.154-231 NewRangeProof under a schedule for each phase *)
Definition NewRangeProofSched (sha : list Z -> list Z) (zk : zkparams) (value : option Z) (rn : rangeRand) (schA schB : list thread)
  : option (R (option RangeProof * option Z * option goerr)) :=
  match value with
  | None => Some Panic
  | Some v =>
      if (1099511627776 <? v)%Z then Some (Ok (None, None, Some ERange))
      else if (v <? 0)%Z then Some (Ok (None, None, Some ERange))
      else match phaseSched (phaseA sha zk v rn) schA (repeat emptySlot proofSize) with
           | None => None
           | Some Panic => Some Panic
           | Some (Ok ssA) =>
               match challengeE0 sha zk ssA with
               | Panic => Some Panic
               | Ok e0 =>
                   match phaseSched (phaseB sha zk v e0 rn) schB ssA with
                   | None => None
                   | Some Panic => Some Panic
                   | Some (Ok ssB) => Some (rangeFinish zk e0 ssB)
                   end
               end
           end
  end.
