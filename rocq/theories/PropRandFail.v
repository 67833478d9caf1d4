(** * Failures of the random source (C69)

    A draw that fails is [None].  The parameters, points, secrets and the hash function
    are arbitrary in the first theorem. *)
From Coq Require Import ZArith List Lia Bool.
From Verif Require Import Go Wire Big Crypto Spec CurveGroup SpecZk ZkBase PointProofs Gspfs GspfsProofs Equivalence Consistency
  EqConsProofs Disjunctive DisjProofs Abc Range RandFailProofs.
Import ListNotations.
Open Scope Z_scope.

(** C69: no prover returns a proof with a nil error when one of its draws failed. *)
Theorem C69_no_proof_without_randomness : forall sha zk,
  (forall B A x pf, NewGSPFSProofBase sha zk B A x None <> Ok (pf, None)) /\
  (forall B1 R1 B2 R2 x pf, NewEquivalenceProof sha zk B1 R1 B2 R2 x None <> Ok (pf, None)) /\
  (forall CM T PK v r u1 u2 pf, In None [u1; u2] -> NewConsistencyProof sha zk CM T PK v r u1 u2 <> Ok (pf, None)) /\
  (forall B1 R1 B2 R2 x side u1 u2 u3 pf, In None [u1; u2; u3] ->
     NewDisjunctiveProof sha zk B1 R1 B2 R2 x side u1 u2 u3 <> Ok (pf, None)) /\
  (forall CM T v sk side u1 u2 u3 ub uc d1 d2 d3 pf, In None [u1; u2; u3; ub; uc; d1; d2; d3] ->
     NewABCProof sha zk CM T v sk side (Build_abcRand u1 u2 u3 ub uc d1 d2 d3) <> Ok (pf, None)) /\
  (forall A B TA TB a b sk u1 u2 u3 ub uc d1 d2 d3 pf, In None [u1; u2; u3; ub; uc; d1; d2; d3] ->
     NewInequalityProof sha zk A B TA TB a b sk (Build_abcRand u1 u2 u3 ub uc d1 d2 d3) <> Ok (pf, None)).
Proof.
  intros sha zk. split; [exact (gspfs_norand sha zk)|]. split; [exact (equiv_norand sha zk)|]. split; [|split; [|split]].
  - intros CM T PK v r u1 u2 pf H. apply cons_norand. cbn [In] in H. destruct H as [H|[H|[]]]; auto.
  - intros B1 R1 B2 R2 x side u1 u2 u3 pf H. apply disj_norand. cbn [In] in H. destruct H as [H|[H|[H|[]]]]; auto.
  - intros. apply abc_norand. assumption.
  - intros. apply ineq_norand. assumption.
Qed.
Print Assumptions C69_no_proof_without_randomness.

(** For true statements the failure is reported as an error and nothing is returned. *)
Theorem C69_failure_reported : forall sha zk B1 B2 x u1 u2 u3, std zk -> is_point B1 -> is_point B2 ->
  NewGSPFSProofBase sha zk (pt B1) (pt (smul x B1)) (Some x) None = Ok (None, Some ERand) /\
  NewEquivalenceProof sha zk (pt B1) (pt (smul x (eff B1))) (pt B2) (pt (smul x (eff B2))) (Some x) None = Ok (None, Some ERand) /\
  (forall v r, In None [u1; u2] ->
     NewConsistencyProof sha zk (pt (ped v r)) (pt (smul r (eff B1))) (pt B1) (Some v) (Some r) u1 u2 = Ok (None, Some ERand)) /\
  (In None [u1; u2; u3] ->
     NewDisjunctiveProof sha zk (pt B1) (pt (smul x (eff B1))) (pt B2) (pt B2) (Some x) Left u1 u2 u3 = Ok (None, Some ERand) /\
     NewDisjunctiveProof sha zk (pt B2) (pt B2) (pt B1) (pt (smul x (eff B1))) (Some x) Right u1 u2 u3 = Ok (None, Some ERand)).
Proof.
  intros sha zk B1 B2 x u1 u2 u3 S H1 H2. split; [|split; [|split]].
  - rewrite (gspfs_prove sha zk S) by isp. rewrite Z.eqb_refl. reflexivity.
  - rewrite (equiv_prove sha zk S) by isp. rewrite !Z.eqb_refl. reflexivity.
  - intros v r H. rewrite (cons_prove sha zk S) by isp. rewrite !Z.eqb_refl. cbn [andb].
    cbn [In] in H. destruct H as [ -> |[ -> |[]]]; [reflexivity|destruct u1; reflexivity].
  - intros H. rewrite (disj_prove_left sha zk S), (disj_prove_right sha zk S) by isp. rewrite Z.eqb_refl.
    cbn [In] in H. destruct H as [ -> |[ -> |[ -> |[]]]]; [split; reflexivity|destruct u1; split; reflexivity|destruct u1, u2; split; reflexivity].
Qed.
Print Assumptions C69_failure_reported.

(** (refuted) The range prover does not report it: it drops the errors of its goroutines, so
    a failed draw in any of the 40 positions crashes the process, whatever the parameters
    and the other draws are. *)
Theorem C69_range_crash_refuted : forall sha zk v rn i, 0 <= v <= 2 ^ 40 -> (i < 40)%nat ->
  rrA1 rn i = None \/ (Z.testbit v (Z.of_nat i) = true /\ rrA2 rn i = None) \/
  (Z.testbit v (Z.of_nat i) = false /\ rrB rn i = None) ->
  NewRangeProof sha zk (Some v) rn = Panic.
Proof. exact range_norand. Qed.
Print Assumptions C69_range_crash_refuted.
Example C69_nonvacuous : std specZk /\ is_point G /\ In None [Some 1; None] /\ Z.testbit 5 (Z.of_nat 2) = true /\ 0 <= 5 <= 2 ^ 40.
Proof. split; [exact specZk_std|]. split; [isp|]. split; [right; left; reflexivity|]. split; [reflexivity|split; discriminate]. Qed.
