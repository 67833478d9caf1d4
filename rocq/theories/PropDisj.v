(** * Properties of the disjunctive proof (C32-C34, parts of C26 and C47) *)
From Coq Require Import ZArith List Lia Bool.
From Verif Require Import Go Wire Big Crypto Spec CurveGroup Order FieldN CurveZ SpecZk ZkBase PointProofs GspfsProofs
  EqConsProofs Disjunctive DisjProofs.
Import ListNotations.
Open Scope Z_scope.

(** C32: both sides, whatever the points of the other side are. *)
Theorem C32_disjunctive_complete_left : forall sha zk B1 B2 R2 x u1 u2 u3, std zk ->
  is_point B1 -> is_point B2 -> is_point R2 -> let R1 := smul x (eff B1) in plain R1 ->
  exists pf, NewDisjunctiveProof sha zk (pt B1) (pt R1) (pt B2) (pt R2) (Some x) Left (Some u1) (Some u2) (Some u3) = Ok (Some pf, None) /\
             accepts (DisjunctiveVerify sha (Some pf) zk (pt B1) (pt R1) (pt B2) (pt R2)).
Proof.
  intros sha zk B1 B2 R2 x u1 u2 u3 S H1 H2 H3 R1 P1. rewrite (disj_prove_left sha zk S) by (unfold R1; isp).
  unfold R1 at 1. rewrite xeq_refl. eexists. split; [reflexivity|].
  apply (disj_accepts sha zk S); try (unfold R1; isp). split; [reflexivity|]. split; [apply disj_sum, fs_scalar|].
  assert (HR : is_point R1) by (unfold R1; isp). rewrite (eff_plain R1) by assumption.
  split; left; symmetry; [apply disj_real; isp|apply disj_sim; isp].
Qed.
Print Assumptions C32_disjunctive_complete_left.
Theorem C32_disjunctive_complete_right : forall sha zk B1 R1 B2 x u1 u2 u3, std zk ->
  is_point B1 -> is_point R1 -> is_point B2 -> let R2 := smul x (eff B2) in plain R2 ->
  exists pf, NewDisjunctiveProof sha zk (pt B1) (pt R1) (pt B2) (pt R2) (Some x) Right (Some u1) (Some u2) (Some u3) = Ok (Some pf, None) /\
             accepts (DisjunctiveVerify sha (Some pf) zk (pt B1) (pt R1) (pt B2) (pt R2)).
Proof.
  intros sha zk B1 R1 B2 x u1 u2 u3 S H1 H2 H3 R2 P2. rewrite (disj_prove_right sha zk S) by (unfold R2; isp).
  unfold R2 at 1. rewrite xeq_refl. eexists. split; [reflexivity|].
  apply (disj_accepts sha zk S); try (unfold R2; isp). split; [reflexivity|]. split; [rewrite Z.add_comm; apply disj_sum, fs_scalar|].
  assert (HR : is_point R2) by (unfold R2; isp). rewrite (eff_plain R2) by assumption.
  split; left; symmetry; [rewrite padd_comm by isp; apply disj_sim; isp|rewrite padd_comm by isp; apply disj_real; isp].
Qed.
Print Assumptions C32_disjunctive_complete_right.
Example C32_nonvacuous : std specZk /\ is_point G /\ is_point Hgen /\ is_point Htab /\ plain (smul 1 (eff G)) /\ plain (smul 1 (eff Hgen)).
Proof.
  split; [exact specZk_std|]. split; [isp|]. split; [isp|]. split; [isp|]. rewrite eff_G, eff_Hgen, !smul_1. split; [exact plain_G|exact plain_Htab].
Qed.

(** C33: two accepted proofs with the same commitments and different challenges give
    the discrete logarithm of the left or of the right pair. *)
Theorem C33_disjunctive_sound : forall zk B1 R1 B2 R2 T1 T2 sha c c1 c2 s1 s2 sha' c' c1' c2' s1' s2', std zk ->
  is_point B1 -> is_point R1 -> is_point B2 -> is_point R2 -> is_point T1 -> is_point T2 -> plain R1 -> plain R2 ->
  c <> c' ->
  accepts (DisjunctiveVerify sha (Some (MkDisj (pt T1) (pt T2) (Some c) (Some c1) (Some c2) (Some s1) (Some s2))) zk
    (pt B1) (pt R1) (pt B2) (pt R2)) ->
  accepts (DisjunctiveVerify sha' (Some (MkDisj (pt T1) (pt T2) (Some c') (Some c1') (Some c2') (Some s1') (Some s2'))) zk
    (pt B1) (pt R1) (pt B2) (pt R2)) ->
  exists e f, sgn e /\ sgn f /\
    (c1 mod N <> c1' mod N /\ R1 = smul (slope e f s1 c1 s1' c1') (eff B1) \/
     c2 mod N <> c2' mod N /\ R2 = smul (slope e f s2 c2 s2' c2') (eff B2)).
Proof.
  intros zk B1 R1 B2 R2 T1 T2 sha c c1 c2 s1 s2 sha' c' c1' c2' s1' s2' S H1 H2 H3 H4 H5 H6 P1 P2 D A A'.
  apply (disj_accepts sha zk S) in A; try assumption. apply (disj_accepts sha' zk S) in A'; try assumption.
  rewrite (eff_plain R1), (eff_plain R2) in A, A' by assumption.
  destruct A as (_ & E & A1 & A2), A' as (_ & E' & A1' & A2'). rewrite <- E, <- E' in D.
  destruct (split_challenge _ _ _ _ D) as [K|K].
  - destruct (disj_branch (eff B1) R1 T1 c1 s1 c1' s1') as (e & f & Se & Sf & Q); try isp; try assumption.
    exists e, f. split; [exact Se|]. split; [exact Sf|]. left. split; assumption.
  - rewrite padd_comm in A2, A2' by isp.
    destruct (disj_branch (eff B2) R2 T2 c2 s2 c2' s2') as (e & f & Se & Sf & Q); try isp; try assumption.
    exists e, f. split; [exact Se|]. split; [exact Sf|]. right. split; assumption.
Qed.
Print Assumptions C33_disjunctive_sound.
Example C33_nonvacuous : forall c, scalar c ->
  accepts (DisjunctiveVerify (shaC c) (Some (MkDisj (pt (smul 7 G)) (pt (padd (smul 8 Htab) (smul ((-9) mod N) Htab)))
     (Some c) (Some ((c - 9) mod N)) (Some 9) (Some (7 + (c - 9) mod N * (1 mod N))) (Some 8))) specZk (pt G) (pt G) (pt Hgen) (pt Htab)).
Proof.
  intros c Hc. apply (disj_accepts (shaC c) specZk specZk_std); try isp. split; [apply fs_shaC; exact Hc|].
  split; [apply disj_sum; exact Hc|]. rewrite eff_G, eff_Hgen, eff_Htab.
  pose proof (disj_real G 1 7 ((c - 9) mod N)) as Q. rewrite smul_1 in Q.
  pose proof (disj_sim Htab Htab 8 9) as Q2. split; left; symmetry; [apply Q; isp|apply Q2; isp].
Qed.

(** C34 (refuted): the side is visible.  In a run on the left the right response is
    below N, in a run on the right the left one is; and the proved side's response
    exceeds N as soon as the sub-challenge is above N/2 and the secret is not 0 or 1. *)
Theorem C34_side_visible_refuted : forall sha zk B1 R1 B2 R2 x side u1 u2 u3 T1 T2 c c1 c2 s1 s2, std zk ->
  is_point B1 -> is_point R1 -> is_point B2 -> is_point R2 -> scalar u1 -> scalar u2 -> scalar u3 ->
  NewDisjunctiveProof sha zk (pt B1) (pt R1) (pt B2) (pt R2) (Some x) side (Some u1) (Some u2) (Some u3) =
    Ok (Some (MkDisj T1 T2 (Some c) (Some c1) (Some c2) (Some s1) (Some s2)), None) ->
  (N <= s1 -> side = Left) /\ (N <= s2 -> side = Right) /\
  (2 <= x mod N -> side = Left -> N < 2 * c1 -> N <= s1) /\
  (2 <= x mod N -> side = Right -> N < 2 * c2 -> N <= s2).
Proof.
  intros sha zk B1 R1 B2 R2 x side u1 u2 u3 T1 T2 c c1 c2 s1 s2 S H1 H2 H3 H4 [L1 M1] [L2 M2] [L3 M3] E.
  destruct (Z.eq_dec side Left) as [->|NL]; [|destruct (Z.eq_dec side Right) as [->|NR]].
  - rewrite (disj_prove_left sha zk S) in E by isp. destruct (_ =? _) in E; [|discriminate E]. apply Ok_inj in E.
    generalize dependent (fs sha [B1; R1; B2; R2; smul u1 (eff B1); padd (smul u2 (eff B2)) (smul ((- u3) mod N) (eff R2))]).
    cbv zeta. intros c0 E. assert (s1 = u1 + c1 * (x mod N)) by congruence. assert (s2 = u2) by congruence. subst.
    split; [reflexivity|]. split; [lia|]. split; [|discriminate]. intros X _ D. pose proof (leak_big u1 c1 x L1 D X). lia.
  - rewrite (disj_prove_right sha zk S) in E by isp. destruct (_ =? _) in E; [|discriminate E]. apply Ok_inj in E.
    generalize dependent (fs sha [B1; R1; B2; R2; padd (smul u2 (eff B1)) (smul ((- u3) mod N) (eff R1)); smul u1 (eff B2)]).
    cbv zeta. intros c0 E. assert (s2 = u1 + c2 * (x mod N)) by congruence. assert (s1 = u2) by congruence. subst.
    split; [lia|]. split; [reflexivity|]. split; [discriminate|]. intros X _ D. pose proof (leak_big u1 c2 x L1 D X). lia.
  - exfalso. unfold NewDisjunctiveProof in E. cbn [need bind] in E. apply Z.eqb_neq in NL, NR. rewrite NL, NR in E. discriminate E.
Qed.
Print Assumptions C34_side_visible_refuted.
(** ... and the secret itself is a quotient of two published numbers, up to 1. *)
Theorem C34_secret_leaks_refuted : forall sha zk B1 R1 B2 R2 x u1 u2 u3 T1 T2 c c1 c2 s1 s2, std zk ->
  is_point B1 -> is_point R1 -> is_point B2 -> is_point R2 -> scalar u1 -> scalar u2 -> scalar u3 ->
  (NewDisjunctiveProof sha zk (pt B1) (pt R1) (pt B2) (pt R2) (Some x) Left (Some u1) (Some u2) (Some u3) =
     Ok (Some (MkDisj T1 T2 (Some c) (Some c1) (Some c2) (Some s1) (Some s2)), None) ->
   N < 2 * c1 -> x mod N = s1 / c1 \/ x mod N = s1 / c1 - 1) /\
  (NewDisjunctiveProof sha zk (pt B1) (pt R1) (pt B2) (pt R2) (Some x) Right (Some u1) (Some u2) (Some u3) =
     Ok (Some (MkDisj T1 T2 (Some c) (Some c1) (Some c2) (Some s1) (Some s2)), None) ->
   N < 2 * c2 -> x mod N = s2 / c2 \/ x mod N = s2 / c2 - 1).
Proof.
  intros sha zk B1 R1 B2 R2 x u1 u2 u3 T1 T2 c c1 c2 s1 s2 S H1 H2 H3 H4 U1 U2 U3. split; intros E D.
  - rewrite (disj_prove_left sha zk S) in E by isp. destruct (_ =? _) in E; [|discriminate E]. apply Ok_inj in E.
    generalize dependent (fs sha [B1; R1; B2; R2; smul u1 (eff B1); padd (smul u2 (eff B2)) (smul ((- u3) mod N) (eff R2))]).
    cbv zeta. intros c0 E. assert (Q : s1 = u1 + c1 * (x mod N)) by congruence. rewrite Q. apply leak_bound; assumption.
  - rewrite (disj_prove_right sha zk S) in E by isp. destruct (_ =? _) in E; [|discriminate E]. apply Ok_inj in E.
    generalize dependent (fs sha [B1; R1; B2; R2; padd (smul u2 (eff B1)) (smul ((- u3) mod N) (eff R1)); smul u1 (eff B2)]).
    cbv zeta. intros c0 E. assert (Q : s2 = u1 + c2 * (x mod N)) by congruence. rewrite Q. apply leak_bound; assumption.
Qed.
Print Assumptions C34_secret_leaks_refuted.
Example C34_nonvacuous : exists T1 T2,
  NewDisjunctiveProof (shaC (N - 1)) specZk (pt G) (pt (smul 5 G)) (pt Hgen) (pt Htab) (Some 5) Left (Some 7) (Some 8) (Some 9) =
    Ok (Some (MkDisj T1 T2 (Some (N - 1)) (Some (N - 10)) (Some 9) (Some (7 + (N - 10) * 5)) (Some 8)), None) /\
  N < 2 * (N - 10) /\ 5 mod N = (7 + (N - 10) * 5) / (N - 10).
Proof.
  rewrite (disj_prove_left (shaC (N - 1)) specZk specZk_std) by isp. rewrite eff_G, xeq_refl. cbv zeta.
  rewrite fs_shaC by (split; [discriminate|reflexivity]). eexists. eexists. split; [|split; reflexivity].
  replace ((N - 1 - 9) mod N) with (N - 10) by reflexivity. replace (5 mod N) with 5 by reflexivity. reflexivity.
Qed.

(** C26 for this prover: a secret that does not fit the chosen side, or no valid side. *)
Theorem C26_disjunctive_rejects : forall sha zk B1 R1 B2 R2 x side rnd1 rnd2 rnd3, std zk ->
  is_point B1 -> is_point R1 -> is_point B2 -> is_point R2 ->
  (side = Left /\ ~ pm (smul x (eff B1)) R1) \/ (side = Right /\ ~ pm (smul x (eff B2)) R2) \/
  (side <> Left /\ side <> Right) ->
  NewDisjunctiveProof sha zk (pt B1) (pt R1) (pt B2) (pt R2) (Some x) side rnd1 rnd2 rnd3 = Ok (Some emptyDisjunctive, Some EProof).
Proof.
  intros sha zk B1 R1 B2 R2 x side rnd1 rnd2 rnd3 S H1 H2 H3 H4 [[-> K]|[[-> K]|[K1 K2]]].
  - rewrite (disj_prove_left sha zk S) by isp. apply x_eq_false in K; try isp. rewrite K. reflexivity.
  - rewrite (disj_prove_right sha zk S) by isp. apply x_eq_false in K; try isp. rewrite K. reflexivity.
  - unfold NewDisjunctiveProof. cbn [need bind]. apply Z.eqb_neq in K1, K2. rewrite K1, K2. reflexivity.
Qed.
Print Assumptions C26_disjunctive_rejects.
Example C26_disj_nonvacuous : ~ pm (smul 2 (eff G)) G /\ 2 <> Left /\ 2 <> Right.
Proof.
  split; [|split; discriminate].
  rewrite eff_G. intros [E|E]; rewrite <- ?smul_opp in E by isp; rewrite <- (smul_1 G) in E at 1; apply smul_G_inj in E; discriminate E.
Qed.

(** C47 for this proof (refuted): sub-challenges and responses are read modulo N. *)
Theorem C47_disjunctive_malleable_refuted : forall sha zk B1 R1 B2 R2 T1 T2 c c1 c2 s1 s2 i j k l, cN (zC zk) = N ->
  DisjunctiveVerify sha (Some (MkDisj T1 T2 c (Some (c1 + i * N)) (Some (c2 + j * N)) (Some (s1 + k * N)) (Some (s2 + l * N)))) zk B1 R1 B2 R2 =
  DisjunctiveVerify sha (Some (MkDisj T1 T2 c (Some c1) (Some c2) (Some s1) (Some s2))) zk B1 R1 B2 R2.
Proof.
  intros sha zk B1 R1 B2 R2 T1 T2 c c1 c2 s1 s2 i j k l E. unfold DisjunctiveVerify. cbn [djT1 djT2 djC djC1 djC2 djS1 djS2 need bind].
  rewrite !(Mult_addN zk _ _ _ E). replace (c1 + i * N + (c2 + j * N)) with (c1 + c2 + (i + j) * N) by lia.
  rewrite E, Z.mod_add by discriminate. reflexivity.
Qed.
Print Assumptions C47_disjunctive_malleable_refuted.
Example C47_disj_nonvacuous : cN (zC specZk) = N /\ 5 + 1 * N <> 5. Proof. split; [reflexivity|discriminate]. Qed.
