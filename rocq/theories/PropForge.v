(** * Property C66: no false statement is accepted (refuted)

    Mult replaces a point with the X coordinate of the parameter H by the tabulated
    point H' (C13), and the logarithm of H is public (C20).  Together they break the
    soundness of every proof in which the prover chooses a point. *)
From Coq Require Import ZArith List Lia Bool.
From Verif Require Import Go Wire Big Crypto Spec CurveGroup CurveZ SpecZk ZkBase PointProofs Gspfs Equivalence EqConsProofs Consistency
  Disjunctive Abc AbcProofs Range SpecRange RangeProofs SpecForge ForgeProofs.
Import ListNotations.
Open Scope Z_scope.

(** C66: for every hash function, number of bits m, choice of blindings and nonces,
    the forger's range proof with m rings is accepted for the commitment to
    2^m - 1 + logH, a value far outside [0, 2^64) whose opening the forger knows. *)
Theorem C66_range_forged_refuted : forall sha zk m x k, std zk -> (1 <= m <= 64)%nat ->
  (forall i, (1 <= i < m)%nat -> plain (ped (2 ^ Z.of_nat i) (x i)) /\ plain (smul (x i) Htab)) ->
  exists C pf, PedCommitR zk (Some (forgeValue m)) (Some (forgeBlind m x)) = Ok (pt C) /\
    pf = MkRange (pt C) (Some (forgeE sha m x k)) (tuples (forgeCs sha m x k)) /\ length (rpTuples pf) = m /\
    accepts (RangeVerify sha (Some pf) zk (pt C)) /\ 2 ^ 254 < forgeValue m mod N < N - 2 ^ 254.
Proof.
  intros sha zk m x k S Hm Hp. exists (ped (forgeValue m) (forgeBlind m x)). eexists. split; [apply (PedCommitR_ok zk S)|].
  split; [reflexivity|]. split; [cbn [rpTuples]; unfold tuples, forgeCs; rewrite !map_length; apply seq_length|]. split.
  - apply (forge_range sha zk m x k S Hm). intros i Hi. destruct i as [|i]; [lia|]. exact (Hp _ Hi).
  - unfold forgeValue. assert (B : 0 <= 2 ^ Z.of_nat m - 1 < 2 ^ 64).
    { assert (0 < 2 ^ Z.of_nat m <= 2 ^ 64) by (split; [apply Z.pow_pos_nonneg; lia|apply Z.pow_le_mono_r; lia]). lia. }
    assert (L : 2 ^ 254 < logH /\ logH + 2 ^ 64 < N - 2 ^ 254) by (split; reflexivity).
    revert B L. generalize (2 ^ Z.of_nat m - 1) logH N. intros a l n [A0 A1] [L1 L2]. rewrite Z.mod_small; lia.
Qed.
Print Assumptions C66_range_forged_refuted.
(** 40 rings, as the honest prover makes *)
Example C66_range_nonvacuous : exists C pf, PedCommitR specZk (Some (2 ^ 40 - 1 + logH)) (Some 0) = Ok (pt C) /\
  length (rpTuples pf) = 40%nat /\ accepts (RangeVerify (shaC 5) (Some pf) specZk (pt C)).
Proof.
  destruct (C66_range_forged_refuted (shaC 5) specZk 40 (fun _ => 0) (fun _ => 7) specZk_std ltac:(lia)) as (C & pf & E & _ & L & A & _).
  - intros i Hi. pose proof (pow_small i ltac:(lia)) as B. unfold ped. rewrite !smul_0, padd_O_r. split; [apply plain_small; lia|].
    change O with (smul 0 G). apply plain_small; lia.
  - exists C, pf. split; [exact E|]. split; [exact L|exact A].
Qed.

(** C66: a proof that log_H' H = log_B B (that is, 1) is accepted, although no number
    satisfies both relations, not even up to sign. *)
Theorem C66_equivalence_forged_refuted : forall sha zk B u, std zk -> on_curve B -> plain B ->
  let U1 := smul u Htab in let U2 := smul u B in let c := fs sha [Htab; Hgen; B; B; U1; U2] in
  accepts (EquivalenceVerify sha (Some (MkEquiv (pt U1) (pt U2) (Some c) (Some (u + c)))) zk (pt Htab) (pt Hgen) (pt B) (pt B)) /\
  ~ exists x, (Hgen = smul x Htab \/ Hgen = pneg (smul x Htab)) /\ (B = smul x B \/ B = pneg (smul x B)).
Proof.
  intros sha zk B u S HB PB. cbv zeta. split; [apply (forge_equiv sha zk B u S); [right; exact HB|exact PB]|].
  intros (x & E1 & E2). exact (forge_equiv_false B x HB E2 E1).
Qed.
Print Assumptions C66_equivalence_forged_refuted.

(** C66: a consistency proof is accepted for the commitment to logH with blinding 0
    and a token made with blinding 1. *)
Theorem C66_consistency_forged_refuted : forall sha zk PK u1 u2, std zk -> on_curve PK -> plain PK ->
  let T1 := ped u1 u2 in let T2 := smul u2 PK in let c := fs sha [G; Hgen; Hgen; PK; PK; T1; T2] in
  PedCommitR zk (Some logH) (Some 0) = Ok (pt Hgen) /\
  accepts (ConsistencyVerify sha (Some (MkCons (pt T1) (pt T2) (Some c) (Some u1) (Some (u2 + c)))) zk (pt Hgen) (pt PK) (pt PK)) /\
  PK <> smul 0 PK /\ PK <> pneg (smul 0 PK).
Proof.
  intros sha zk PK u1 u2 S HP PP. cbv zeta. split.
  { rewrite (PedCommitR_ok zk S). unfold ped. rewrite smul_0, padd_O_r, <- Hgen_log. reflexivity. }
  split; [apply (forge_cons sha zk PK u1 u2 S); [right; exact HP|exact PP]|].
  assert (K : PK <> O) by exact (on_curve_nz PK HP). rewrite smul_0. split; exact K.
Qed.
Print Assumptions C66_consistency_forged_refuted.

(** C66: the prover itself makes an accepted proof of "the value is 0" for the
    commitment to logH. *)
Theorem C66_abc_forged_refuted : forall sha zk sk u1 u2 u3 ub uc d1 d2 d3, std zk -> sk mod N <> 0 ->
  plain (smul sk Htab) -> plain (ped 0 ub) -> plain (ped 0 uc) ->
  PedCommitR zk (Some logH) (Some 0) = Ok (pt Hgen) /\ logH mod N <> 0 /\
  exists pf, NewABCProof sha zk (pt Hgen) (pt (smul sk Htab)) (Some 0) (Some sk) Left
               (Build_abcRand (Some u1) (Some u2) (Some u3) (Some ub) (Some uc) (Some d1) (Some d2) (Some d3)) = Ok (Some pf, None) /\
             accepts (ABCVerify sha (Some pf) zk (pt Hgen) (pt (smul sk Htab))).
Proof.
  intros sha zk sk u1 u2 u3 ub uc d1 d2 d3 S Hs P1 P2 P3. split.
  { rewrite (PedCommitR_ok zk S). unfold ped. rewrite smul_0, padd_O_r, <- Hgen_log. reflexivity. }
  split; [discriminate|]. apply (forge_abc sha zk); assumption.
Qed.
Print Assumptions C66_abc_forged_refuted.
Example C66_nonvacuous : std specZk /\ on_curve Htab /\ plain Htab /\ 1 mod N <> 0 /\ plain (smul 1 Htab) /\ plain (ped 0 1).
Proof.
  split; [exact specZk_std|]. split; [exact Htab_on_curve|]. split; [exact plain_Htab|]. split; [discriminate|].
  destruct plain_3 as (A & B & _). split; [exact B|exact A].
Qed.
