(** * C88: what is learnt from proofs by observers that ask the hash function *)
From Coq Require Import ZArith List Bool Lia.
From Verif Require GMult.
From Verif Require Import Go Wire Big Crypto Spec CurveGroup Order FieldN CurveZ SpecZk ZkBase PointProofs Gspfs GspfsProofs Equivalence Consistency EqConsProofs
  SpecRand RandCount SpecOracle OracleProofs OracleCount OracleProofs2 SpecHide HideProofs HideProofs2.
Import ListNotations.
Open Scope Z_scope.

(** C88: let an observer, whatever it computes, ask the hash function q times and see n
    proofs in any order, each question and each statement (with its secret!) chosen after
    the earlier answers and proofs.  Of the 256^L * N^n equally likely ways in which the
    hash function may answer and the prover may draw, those in which the observer says yes
    differ in number by at most a fraction n*(q+n) * 33/N from those in which it says yes
    to proofs that a simulator made without the secrets. *)
Theorem C88_gspfs : forall zk q n L (f : observer (point * Z) GSPFSProof), std zk -> watches gspfsGood q n f -> (32 * (q + n) <= L)%nat ->
  let real := yes L scalars n (watchReal gspfsPublic (proveGspfs zk) askedGspfs f []) in
  let simulated := yes L scalars n (watchSim gspfsPublic simGspfs askedGspfs f []) in
  N * Z.abs (real - simulated) <= Z.of_nat (n * (q + n)) * 33 * (256 ^ Z.of_nat L * N ^ Z.of_nat n).
Proof. intros zk q n L f S Hw HL. exact (gspfs_hide zk f q n L S Hw HL). Qed.
Print Assumptions C88_gspfs.

(** So for equivalence proofs, unless Mult sends the first base to the point at infinity,
    with 33^3 ways of cutting the hashed string instead of 33. *)
Theorem C88_equivalence : forall zk q n L (f : observer (point * point * Z) EquivalenceProof), std zk -> watches equivGood q n f -> (32 * (q + n) <= L)%nat ->
  let real := yes L scalars n (watchReal equivPublic (proveEquiv zk) askedEquiv f []) in
  let simulated := yes L scalars n (watchSim equivPublic simEquiv askedEquiv f []) in
  N * Z.abs (real - simulated) <= Z.of_nat (n * (q + n)) * 33 ^ 3 * (256 ^ Z.of_nat L * N ^ Z.of_nat n).
Proof. intros zk q n L f S Hw HL. exact (equiv_hide zk f q n L S Hw HL). Qed.
Print Assumptions C88_equivalence.

(** So for consistency proofs, whose prover draws two numbers: the fraction is again
    n*(q+n) * 33^3/N, now of 256^L * (N*N)^n.  Neither the value nor the randomness enters
    the simulated proofs. *)
Theorem C88_consistency : forall zk q n L (f : observer (point * Z * Z) ConsistencyProof), std zk -> watches consGood q n f -> (32 * (q + n) <= L)%nat ->
  let real := yes L scalarPairs n (watchReal consPublic (proveCons zk) askedCons f []) in
  let simulated := yes L scalarPairs n (watchSim consPublic simCons askedCons f []) in
  N * N * Z.abs (real - simulated) <= Z.of_nat (n * (q + n)) * (N * 33 ^ 3) * (256 ^ Z.of_nat L * (N * N) ^ Z.of_nat n).
Proof. intros zk q n L f S Hw HL. exact (cons_hide zk f q n L S Hw HL). Qed.
Print Assumptions C88_consistency.

(** An observer that sees a proof of the statement 5*G, asks the hash function what the
    prover asked and compares says yes to every proof of either kind. *)
Definition checks : observer (point * Z) GSPFSProof :=
  SeeProof (G, 5) (fun p => AskHash (askedGspfs (gspfsPublic (G, 5)) p) (fun h => Guess (match gsChallenge p with Some c => c =? beval h mod N | None => false end))).
Lemma good_G x : gspfsGood (G, x). Proof. split; [exact GMult.G_on_curve|exact plain_G]. Qed.
Example C88_nonvacuous : std specZk /\ watches gspfsGood 1 1 checks /\
  (forall t u, watchReal gspfsPublic (proveGspfs specZk) askedGspfs checks [] t [u] = true) /\
  (forall t v, watchSim gspfsPublic simGspfs askedGspfs checks [] t [v] = true).
Proof.
  split; [exact specZk_std|]. split; [split; [exact (good_G 5)|intros p h; exact I]|]. split.
  - intros t u. cbn [watchReal checks]. unfold proveGspfs. rewrite (gspfs_prove _ specZk specZk_std) by isp. rewrite xeq_refl. cbv zeta. cbn [known].
    destruct (list_eq_dec Z.eq_dec _ _) as [_|D]; [|contradiction D; reflexivity]. cbn [gsChallenge]. apply Z.eqb_refl.
  - intros t v. cbn [watchSim checks]. cbv zeta. cbn [known]. destruct (list_eq_dec Z.eq_dec _ _) as [_|D]; [|contradiction D; reflexivity]. cbn [simGspfs gspfsPublic gsChallenge]. apply Z.eqb_refl.
Qed.
(** the hypotheses of the others *)
Lemma good_eq p x : is_point p -> equivGood (G, p, x).
Proof. intros H. split; [exact is_point_G|]. split; [exact H|]. rewrite (eff_plain G is_point_G plain_G). discriminate. Qed.
Example C88_others_nonvacuous : std specZk /\
  watches equivGood 1 2 (SeeProof (G, smul 2 G, 3) (fun p => AskHash [1] (fun h => SeeProof (G, Hgen, 4) (fun p' => Guess (match eqHiddenValue p, eqHiddenValue p' with Some a, Some b => a =? b | _, _ => false end))))) /\
  watches consGood 0 1 (SeeProof (smul 7 G, 3, 4) (fun p => Guess (match cnS1 p with Some a => a =? 0 | None => false end))) /\ (32 * (1 + 2) <= 96)%nat.
Proof.
  split; [exact specZk_std|]. split; [split; [apply good_eq; isp|]; intros p h; split; [apply good_eq; isp|intros p'; exact I]|]. split; [split; [unfold consGood; isp|intros p; exact I]|]. lia.
Qed.
