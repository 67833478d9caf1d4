(** * Properties of the proof of knowledge GSPFS (C22-C25, parts of C26 and C47) *)
From Coq Require Import ZArith List Lia Bool.
From Verif Require Import Go Wire Big Crypto Spec CurveGroup Order FieldN SpecZk ZkBase PointProofs Gspfs GspfsProofs.
Import ListNotations.
Open Scope Z_scope.

(** C22: completeness, for every base, secret, draw and hash function, when neither
    the base nor A is one of the points -G, H, -H on which Mult misbehaves. *)
Theorem C22_gspfs_complete : forall sha zk B x u, std zk -> is_point B -> plain B -> plain (smul x B) ->
  exists pf, NewGSPFSProofBase sha zk (pt B) (pt (smul x B)) (Some x) (Some u) = Ok (Some pf, None) /\
             accepts (GSPFSVerify sha (Some pf) zk (pt (smul x B))).
Proof.
  intros sha zk B x u S HB PB PA. rewrite (gspfs_prove sha zk S) by isp. rewrite xeq_refl. eexists. split; [reflexivity|].
  apply (gspfs_accepts sha zk S); try isp. split; [reflexivity|]. rewrite !eff_plain by (assumption || isp).
  rewrite resp_eq by exact HB. left. reflexivity.
Qed.
Print Assumptions C22_gspfs_complete.
Theorem C22_gspfs_complete_G : forall sha zk x u, std zk -> plain (smul x G) ->
  exists pf, NewGSPFSProof sha zk (pt (smul x G)) (Some x) (Some u) = Ok (Some pf, None) /\
             accepts (GSPFSVerify sha (Some pf) zk (pt (smul x G))).
Proof.
  intros sha zk x u S PA. unfold NewGSPFSProof. rewrite (std_G zk S). apply C22_gspfs_complete; [exact S|isp|exact plain_G|exact PA].
Qed.
Print Assumptions C22_gspfs_complete_G.
(** The exclusions are needed: honest proofs for x = -1 over G are rejected unless
    the challenge is 0 or the opposite of the draw ... *)
Theorem C22_minus_G_refuted : forall sha zk u c, std zk ->
  fs sha [pneg G; smul u G] = c -> c <> 0 -> (u + c) mod N <> 0 ->
  exists pf, NewGSPFSProof sha zk (pt (pneg G)) (Some (-1)) (Some u) = Ok (Some pf, None) /\
             rejects (GSPFSVerify sha (Some pf) zk (pt (pneg G))).
Proof.
  intros sha zk u c S Hc C0 UC. unfold NewGSPFSProof. rewrite (std_G zk S).
  apply (gspfs_refute sha zk G (pneg G) (-1) u c S); [isp|isp|symmetry; exact minus1|rewrite eff_G; exact Hc|].
  replace (eff (pneg G)) with G by reflexivity. rewrite eff_G.
  apply minus_G_mismatch; [|exact UC]. apply scalar_nz; [rewrite <- Hc; apply fs_scalar|exact C0].
Qed.
Print Assumptions C22_minus_G_refuted.
(** ... and so are some honest proofs over the base H of the parameters, whatever the
    true logarithm of H' is. *)
Theorem C22_base_H_refuted : forall zk, std zk -> exists sha u pf,
  NewGSPFSProofBase sha zk (zH zk) (pt (smul 2 Hgen)) (Some 2) (Some u) = Ok (Some pf, None) /\
  rejects (GSPFSVerify sha (Some pf) zk (pt (smul 2 Hgen))).
Proof.
  intros zk S. exists (shaC 1), 1. rewrite (std_H zk S).
  apply (gspfs_refute (shaC 1) zk Hgen (smul 2 Hgen) 2 1 1 S); [isp|isp|reflexivity| |].
  - apply fs_shaC; split; [discriminate|reflexivity].
  - rewrite eff_Hgen, (eff_plain (smul 2 Hgen)) by (isp || exact plain_2H). exact H_mismatch.
Qed.
Print Assumptions C22_base_H_refuted.
Example C22_nonvacuous : std specZk /\ is_point G /\ plain G /\ plain (smul 1 G) /\
  fs (shaC 1) [pneg G; smul 1 G] = 1 /\ (1 + 1) mod N <> 0.
Proof.
  split; [exact specZk_std|]. split; [isp|]. split; [exact plain_G|]. split; [rewrite smul_1; exact plain_G|].
  split; [apply fs_shaC; split; [discriminate|reflexivity]|discriminate].
Qed.

(** C23: special soundness.  Two accepted proofs for A with the same base and
    commitment, under hash functions giving challenges that differ, also up to sign,
    yield the discrete logarithm by an explicit formula.  The second alternative is
    the price of Equal ignoring the sign. *)
Theorem C23_gspfs_sound : forall sha1 sha2 zk A B R v1 c1 v2 c2, std zk ->
  is_point A -> is_point B -> is_point R -> plain A -> plain B ->
  accepts (GSPFSVerify sha1 (Some (MkGSPFS (pt B) (pt R) (Some v1) (Some c1))) zk (pt A)) ->
  accepts (GSPFSVerify sha2 (Some (MkGSPFS (pt B) (pt R) (Some v2) (Some c2))) zk (pt A)) ->
  c1 mod N <> c2 mod N -> c1 mod N <> (- c2) mod N ->
  A = smul (((v2 - v1) * ninv (c1 - c2)) mod N) B \/
  A = smul ((- (v1 + v2) * ninv (c1 + c2)) mod N) B.
Proof.
  intros sha1 sha2 zk A B R v1 c1 v2 c2 S HA HB HR PA PB A1 A2 D1 D2.
  apply (gspfs_accepts sha1 zk S) in A1; try assumption. apply (gspfs_accepts sha2 zk S) in A2; try assumption.
  rewrite !eff_plain in A1, A2 by assumption. destruct A1 as [_ A1], A2 as [_ A2].
  exact (gspfs_extract A B R v1 c1 v2 c2 HA HB HR (diff_nz _ _ D1) (sum_nz _ _ D2) A1 A2).
Qed.
Print Assumptions C23_gspfs_sound.
Example C23_nonvacuous : exists sha1 sha2 pf1 pf2 u,
  NewGSPFSProof sha1 specZk (pt G) (Some 1) (Some u) = Ok (Some pf1, None) /\
  NewGSPFSProof sha2 specZk (pt G) (Some 1) (Some u) = Ok (Some pf2, None) /\
  accepts (GSPFSVerify sha1 (Some pf1) specZk (pt G)) /\ accepts (GSPFSVerify sha2 (Some pf2) specZk (pt G)) /\
  gsRandCommit pf1 = gsRandCommit pf2 /\ gsChallenge pf1 = Some 3 /\ gsChallenge pf2 = Some 5.
Proof.
  exists (shaC 3), (shaC 5).
  pose proof (C22_gspfs_complete_G (shaC 3) specZk 1 7 specZk_std) as A. rewrite smul_1 in A. destruct (A plain_G) as (p1 & E1 & V1).
  pose proof (C22_gspfs_complete_G (shaC 5) specZk 1 7 specZk_std) as B. rewrite smul_1 in B. destruct (B plain_G) as (p2 & E2 & V2).
  exists p1, p2, 7. split; [exact E1|]. split; [exact E2|]. split; [exact V1|]. split; [exact V2|].
  clear V1 V2 A B. revert E1 E2. unfold NewGSPFSProof. rewrite (std_G _ specZk_std), !(gspfs_prove _ specZk specZk_std) by isp.
  rewrite smul_1, xeq_refl, eff_G. cbv zeta. rewrite !fs_shaC by (split; [discriminate|reflexivity]). intros E1 E2.
  assert (K : forall a b : GSPFSProof, @Ok (option GSPFSProof * option goerr) (Some a, None) = Ok (Some b, None) -> b = a)
    by (intros a b K; apply Ok_inj in K; congruence).
  rewrite (K _ _ E1), (K _ _ E2). split; [|split]; reflexivity.
Qed.

(** C24 (refuted): Verify does not check the base.  For every hash function, every
    A and every R there is an accepted proof made from public values alone. *)
Theorem C24_base_not_bound_refuted : forall sha zk A R, std zk -> is_point A -> is_point R ->
  let c := fs sha [A; R] in
  exists v, 1 <= v <= 4 /\
    let B := smul (ninv v) (padd R (pneg (smul c (eff A)))) in
    accepts (GSPFSVerify sha (Some (MkGSPFS (pt B) (pt R) (Some v) (Some c))) zk (pt A)).
Proof.
  intros sha zk A R S HA HR c.
  destruct (plain_divide (padd R (pneg (smul c (eff A))))) as (v & Hv & PB); [isp|].
  exists v. split; [exact Hv|]. cbv zeta. apply (gspfs_accepts sha zk S); try isp. split; [reflexivity|]. left.
  rewrite eff_plain by (isp || exact PB). rewrite smul_ninv; [|isp|].
  2:{ assert (4 < N) by reflexivity. rewrite Z.mod_small; lia. }
  rewrite CurveZ.padd_assoc by isp. rewrite CurveZ.padd_pneg_l by isp. rewrite CurveZ.padd_O_r. reflexivity.
Qed.
Print Assumptions C24_base_not_bound_refuted.
Example C24_nonvacuous : std specZk /\ is_point Hgen /\ is_point G.
Proof. split; [exact specZk_std|]. split; isp. Qed.

(** C25: honest-verifier zero knowledge.  For every challenge c and response v
    exactly one draw leads the prover to v, and then the commitment is v*B + c*A: the
    transcript can be simulated without x. *)
Theorem C25_gspfs_hvzk : forall zk B x c v, std zk -> is_point B -> plain B ->
  scalar c -> scalar v ->
  let A := smul x B in let R := padd (smul v B) (smul c A) in
  exists u, scalar u /\
    (forall sha, fs sha [A; smul u B] = c ->
       NewGSPFSProofBase sha zk (pt B) (pt A) (Some x) (Some u) =
       Ok (Some (MkGSPFS (pt B) (pt R) (Some v) (Some c)), None)) /\
    (forall sha u' r, scalar u' ->
       NewGSPFSProofBase sha zk (pt B) (pt A) (Some x) (Some u') =
         Ok (Some (MkGSPFS (pt B) r (Some v) (Some c)), None) -> u' = u).
Proof.
  intros zk B x c v S HB PB Hc Hv A R. exists ((v + c * x) mod N). split; [|split].
  - apply Z.mod_pos_bound. reflexivity.
  - intros sha Hsha. rewrite (gspfs_prove sha zk S) by (unfold A; isp). unfold A at 1. rewrite xeq_refl.
    rewrite eff_plain by assumption. cbv zeta. rewrite Hsha.
    assert (EU : smul ((v + c * x) mod N) B = R).
    { unfold R, A. rewrite smul_mod, smul_add, smul_mul by isp. reflexivity. }
    rewrite EU. replace (((v + c * x) mod N - c * (x mod N)) mod N) with v; [reflexivity|].
    symmetry. apply nv_mod_eq; [exact Hv|]. nzpush. ring.
  - intros sha u' r Hu'. rewrite (gspfs_prove sha zk S) by (unfold A; isp). unfold A at 1. rewrite xeq_refl.
    cbv zeta. generalize (fs sha [A; smul u' (eff B)]) as c'. intros c' E. apply Ok_inj in E.
    assert (E1 : (u' - c' * (x mod N)) mod N = v) by congruence. assert (E2 : c' = c) by congruence.
    symmetry. apply nv_mod_eq; [exact Hu'|]. rewrite <- E1, E2. nzpush. ring.
Qed.
Print Assumptions C25_gspfs_hvzk.
Example C25_nonvacuous : std specZk /\ is_point G /\ plain G /\ scalar 0 /\ scalar (N - 1).
Proof. split; [exact specZk_std|]. split; [isp|]. split; [exact plain_G|]. split; split; (discriminate || reflexivity). Qed.

(** C26 for GSPFS: no proof for a witness that does not fit (up to sign). *)
Theorem C26_gspfs_rejects : forall sha zk B A x rnd, std zk -> is_point B -> is_point A ->
  A <> smul x B -> A <> pneg (smul x B) ->
  NewGSPFSProofBase sha zk (pt B) (pt A) (Some x) rnd = Ok (None, Some EProof).
Proof.
  intros sha zk B A x rnd S HB HA H1 H2. rewrite (gspfs_prove sha zk S) by isp.
  replace (fst (smul x B) =? fst A) with false; [reflexivity|]. symmetry. apply x_eq_false; [isp|isp|].
  intros [E|E]; contradiction.
Qed.
Print Assumptions C26_gspfs_rejects.
Example C26_gspfs_nonvacuous : std specZk /\ is_point G /\ G <> smul 2 G /\ G <> pneg (smul 2 G).
Proof.
  split; [exact specZk_std|]. split; [isp|]. split; intros E.
  - rewrite <- (smul_1 G) in E at 1. apply smul_G_inj in E. discriminate E.
  - rewrite <- smul_opp in E by isp. rewrite <- (smul_1 G) in E at 1. apply smul_G_inj in E. discriminate E.
Qed.

(** C47 for GSPFS (refuted): adding multiples of N to the response changes the proof
    and never the verdict, for all proofs whatsoever. *)
Theorem C47_gspfs_malleable_refuted : forall sha zk A B R v c k, cN (zC zk) = N ->
  GSPFSVerify sha (Some (MkGSPFS B R (Some (v + k * N)) c)) zk A =
  GSPFSVerify sha (Some (MkGSPFS B R (Some v) c)) zk A.
Proof.
  intros sha zk A B R v c k E. unfold GSPFSVerify. cbn [gsBase gsRandCommit gsHiddenValue gsChallenge].
  rewrite (Mult_addN zk B v k E). reflexivity.
Qed.
Print Assumptions C47_gspfs_malleable_refuted.
Example C47_gspfs_nonvacuous : cN (zC specZk) = N /\ 5 + 1 * N <> 5. Proof. split; [reflexivity|discriminate]. Qed.
