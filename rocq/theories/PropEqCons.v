(** * Properties of the equivalence and consistency proofs (C27-C31, parts of C26 and C47) *)
From Coq Require Import ZArith List Lia Bool.
From Verif Require Import Go Wire Big Crypto Spec CurveGroup Order FieldN SpecZk ZkBase PointProofs GspfsProofs
  Equivalence Consistency EqConsProofs.
Import ListNotations.
Open Scope Z_scope.

(** C27: if both results are the x-fold of what Mult makes of their bases ([eff]: the
    base itself unless it is -G, H or -H), the prover succeeds and Verify accepts. *)
Theorem C27_equivalence_complete : forall sha zk B1 B2 x u, std zk -> is_point B1 -> is_point B2 ->
  let R1 := smul x (eff B1) in let R2 := smul x (eff B2) in plain R1 -> plain R2 ->
  exists pf, NewEquivalenceProof sha zk (pt B1) (pt R1) (pt B2) (pt R2) (Some x) (Some u) = Ok (Some pf, None) /\
             accepts (EquivalenceVerify sha (Some pf) zk (pt B1) (pt R1) (pt B2) (pt R2)).
Proof.
  intros sha zk B1 B2 x u S H1 H2 R1 R2 P1 P2. rewrite (equiv_prove sha zk S) by (unfold R1, R2; isp).
  unfold R1 at 1, R2 at 1. rewrite !xeq_refl. eexists. split; [reflexivity|].
  apply (equiv_accepts sha zk S); try (unfold R1, R2; isp). split; [reflexivity|].
  rewrite (eff_plain R1), (eff_plain R2) by (assumption || unfold R1, R2; isp). unfold R1 at 2, R2 at 3.
  split; left; apply resp_add; isp.
Qed.
Print Assumptions C27_equivalence_complete.
Example C27_nonvacuous : std specZk /\ is_point G /\ is_point Hgen /\ plain (smul 1 (eff G)) /\ plain (smul 1 (eff Hgen)).
Proof.
  split; [exact specZk_std|]. split; [isp|]. split; [isp|]. rewrite eff_G, eff_Hgen, !smul_1. split; [exact plain_G|exact plain_Htab].
Qed.

(** C28: three accepted proofs with the same commitments and pairwise different
    challenges determine x, a slope of the responses, with R1 = x*B1 and R2 = x*B2 up
    to sign. *)
Theorem C28_equivalence_sound : forall zk B1 R1 B2 R2 U1 U2 sha1 c1 s1 sha2 c2 s2 sha3 c3 s3, std zk ->
  is_point B1 -> is_point R1 -> is_point B2 -> is_point R2 -> is_point U1 -> is_point U2 ->
  plain R1 -> plain R2 ->
  c1 mod N <> c2 mod N -> c1 mod N <> c3 mod N -> c2 mod N <> c3 mod N ->
  accepts (EquivalenceVerify sha1 (Some (MkEquiv (pt U1) (pt U2) (Some c1) (Some s1))) zk (pt B1) (pt R1) (pt B2) (pt R2)) ->
  accepts (EquivalenceVerify sha2 (Some (MkEquiv (pt U1) (pt U2) (Some c2) (Some s2))) zk (pt B1) (pt R1) (pt B2) (pt R2)) ->
  accepts (EquivalenceVerify sha3 (Some (MkEquiv (pt U1) (pt U2) (Some c3) (Some s3))) zk (pt B1) (pt R1) (pt B2) (pt R2)) ->
  exists e f t t', sgn e /\ sgn f /\ In (t, t') [((c1, s1), (c2, s2)); ((c1, s1), (c3, s3)); ((c2, s2), (c3, s3))] /\
    let x := slope e f (snd t) (fst t) (snd t') (fst t') in
    R1 = smul x (eff B1) /\ (R2 = smul x (eff B2) \/ R2 = pneg (smul x (eff B2))).
Proof.
  intros zk B1 R1 B2 R2 U1 U2 sha1 c1 s1 sha2 c2 s2 sha3 c3 s3 S H1 H2 H3 H4 H5 H6 P1 P2 D12 D13 D23 A1 A2 A3.
  apply (equiv_accepts sha1 zk S) in A1; try assumption. apply (equiv_accepts sha2 zk S) in A2; try assumption.
  apply (equiv_accepts sha3 zk S) in A3; try assumption. rewrite (eff_plain R1), (eff_plain R2) in A1, A2, A3 by assumption.
  destruct A1 as [_ A1], A2 as [_ A2], A3 as [_ A3].
  apply (equiv_extract (eff B1) R1 (eff B2) R2 U1 U2); try isp; try assumption.
  intros c s [E|[E|[E|[]]]]; injection E as <- <-; assumption.
Qed.
Print Assumptions C28_equivalence_sound.
(** The sign cannot be dropped: for all x, draws and hash functions a proof of the
    false statement (x*B1, -x*B2) is accepted. *)
Theorem C28_sign_refuted : forall sha zk B1 B2 x u, std zk -> is_point B1 -> is_point B2 ->
  let R1 := smul x (eff B1) in let R2 := pneg (smul x (eff B2)) in plain R1 -> plain R2 ->
  let U1 := smul u (eff B1) in let U2 := pneg (smul u (eff B2)) in
  let c := fs sha [B1; R1; B2; R2; U1; U2] in
  accepts (EquivalenceVerify sha (Some (MkEquiv (pt U1) (pt U2) (Some c) (Some ((u + c * (x mod N)) mod N)))) zk
             (pt B1) (pt R1) (pt B2) (pt R2)).
Proof.
  intros sha zk B1 B2 x u S H1 H2 R1 R2 P1 P2 U1 U2 c.
  apply (equiv_accepts sha zk S); try (unfold R1, R2, U1, U2; isp). split; [reflexivity|].
  rewrite (eff_plain R1), (eff_plain R2) by (assumption || unfold R1, R2; isp).
  split; [left; apply resp_add; isp|right]. unfold U2, R2. apply resp_flip. isp.
Qed.
Print Assumptions C28_sign_refuted.
Example C28_nonvacuous : forall c, scalar c -> let s := (7 + c * (1 mod N)) mod N in
  accepts (EquivalenceVerify (shaC c) (Some (MkEquiv (pt (smul 7 G)) (pt (smul 7 Htab)) (Some c) (Some s))) specZk
     (pt G) (pt G) (pt Hgen) (pt Htab)).
Proof.
  intros c Hc s. apply (equiv_accepts (shaC c) specZk specZk_std); try isp. split; [apply fs_shaC; exact Hc|].
  rewrite eff_G, eff_Hgen, eff_Htab. pose proof (resp_add G 1 7 c). rewrite smul_1 in *.
  pose proof (resp_add Htab 1 7 c). rewrite smul_1 in *. split; left; [apply H|apply H0]; isp.
Qed.
Example C28_sign_nonvacuous : is_point G /\ is_point Hgen /\ plain (smul 1 (eff G)) /\ plain (pneg (smul 1 (eff Hgen))) /\
  pneg (smul 1 (eff Hgen)) <> smul 1 (eff Hgen).
Proof.
  split; [isp|]. split; [isp|]. rewrite eff_G, eff_Hgen, !smul_1. split; [exact plain_G|].
  split; [apply plain_x; discriminate|apply pneg_neq; exact Htab_on_curve].
Qed.

(** C29: consistency completeness. *)
Theorem C29_consistency_complete : forall sha zk PK v r u1 u2, std zk -> is_point PK ->
  let CM := ped v r in let CMTok := smul r (eff PK) in plain CM -> plain CMTok ->
  exists pf, NewConsistencyProof sha zk (pt CM) (pt CMTok) (pt PK) (Some v) (Some r) (Some u1) (Some u2) = Ok (Some pf, None) /\
             accepts (ConsistencyVerify sha (Some pf) zk (pt CM) (pt CMTok) (pt PK)).
Proof.
  intros sha zk PK v r u1 u2 S H CM CT P1 P2. rewrite (cons_prove sha zk S) by (unfold CM, CT; isp).
  unfold CM at 1, CT at 1. rewrite !xeq_refl. eexists. split; [reflexivity|].
  apply (cons_accepts sha zk S); try (unfold CM, CT; isp). split; [reflexivity|].
  rewrite (eff_plain CM), (eff_plain CT) by (assumption || unfold CM, CT; isp). unfold CM at 3, CT at 3.
  split; left; [apply resp_ped|apply resp_r; isp].
Qed.
Print Assumptions C29_consistency_complete.
Example C29_nonvacuous : std specZk /\ is_point Htab /\ plain (ped 0 1) /\ plain (smul 1 (eff Htab)).
Proof.
  split; [exact specZk_std|]. split; [isp|]. rewrite eff_Htab, smul_1. split; [|exact plain_Htab].
  rewrite ped_0_1. exact plain_Htab.
Qed.

(** C30: consistency special soundness. *)
Theorem C30_consistency_sound : forall zk CM CMTok PK T1 T2 sha1 c1 a1 b1 sha2 c2 a2 b2 sha3 c3 a3 b3, std zk ->
  is_point CM -> is_point CMTok -> is_point PK -> is_point T1 -> is_point T2 -> plain CM -> plain CMTok ->
  c1 mod N <> c2 mod N -> c1 mod N <> c3 mod N -> c2 mod N <> c3 mod N ->
  accepts (ConsistencyVerify sha1 (Some (MkCons (pt T1) (pt T2) (Some c1) (Some a1) (Some b1))) zk (pt CM) (pt CMTok) (pt PK)) ->
  accepts (ConsistencyVerify sha2 (Some (MkCons (pt T1) (pt T2) (Some c2) (Some a2) (Some b2))) zk (pt CM) (pt CMTok) (pt PK)) ->
  accepts (ConsistencyVerify sha3 (Some (MkCons (pt T1) (pt T2) (Some c3) (Some a3) (Some b3))) zk (pt CM) (pt CMTok) (pt PK)) ->
  exists e f c a b c' a' b', sgn e /\ sgn f /\
    In ((c, a, b), (c', a', b')) [((c1, a1, b1), (c2, a2, b2)); ((c1, a1, b1), (c3, a3, b3)); ((c2, a2, b2), (c3, a3, b3))] /\
    let v := slope e f a c a' c' in let r := slope e f b c b' c' in
    CM = padd (smul v G) (smul r Htab) /\ (CMTok = smul r (eff PK) \/ CMTok = pneg (smul r (eff PK))).
Proof.
  intros zk CM CT PK T1 T2 sha1 c1 a1 b1 sha2 c2 a2 b2 sha3 c3 a3 b3 S H1 H2 H3 H4 H5 P1 P2 D12 D13 D23 A1 A2 A3.
  apply (cons_accepts sha1 zk S) in A1; try assumption. apply (cons_accepts sha2 zk S) in A2; try assumption.
  apply (cons_accepts sha3 zk S) in A3; try assumption. rewrite (eff_plain CM), (eff_plain CT) in A1, A2, A3 by assumption.
  destruct A1 as [_ A1], A2 as [_ A2], A3 as [_ A3].
  apply (cons_extract CM CT (eff PK) T1 T2); try isp; try assumption.
  intros c a b [E|[E|[E|[]]]]; injection E as <- <- <-; assumption.
Qed.
Print Assumptions C30_consistency_sound.
(** The sign of the token is not proved: tokens for -r are accepted with commitments to r. *)
Theorem C30_sign_refuted : forall sha zk PK v r u1 u2, std zk -> is_point PK ->
  let CM := ped v r in let CMTok := pneg (smul r (eff PK)) in plain CM -> plain CMTok ->
  let T1 := ped u1 u2 in let T2 := pneg (smul u2 (eff PK)) in
  let c := fs sha [G; Hgen; CM; CMTok; PK; T1; T2] in
  accepts (ConsistencyVerify sha (Some (MkCons (pt T1) (pt T2) (Some c)
     (Some ((u1 + (v mod N) * c) mod N)) (Some ((u2 + r * c) mod N)))) zk (pt CM) (pt CMTok) (pt PK)).
Proof.
  intros sha zk PK v r u1 u2 S H CM CT P1 P2 T1 T2 c.
  apply (cons_accepts sha zk S); try (unfold CM, CT, T1, T2; isp). split; [reflexivity|].
  rewrite (eff_plain CM), (eff_plain CT) by (assumption || unfold CM, CT; isp).
  split; [left; apply resp_ped|right]. unfold T2, CT. apply resp_r_flip. isp.
Qed.
Print Assumptions C30_sign_refuted.
Example C30_nonvacuous : forall c, scalar c ->
  accepts (ConsistencyVerify (shaC c) (Some (MkCons (pt (ped 7 5)) (pt (smul 5 Htab)) (Some c)
     (Some ((7 + (0 mod N) * c) mod N)) (Some ((5 + 1 * c) mod N)))) specZk (pt Htab) (pt Htab) (pt Hgen)).
Proof.
  intros c Hc. apply (cons_accepts (shaC c) specZk specZk_std); try isp. split; [apply fs_shaC; exact Hc|].
  rewrite eff_Hgen, eff_Htab. pose proof (resp_ped 0 1 7 5 c) as Q1. pose proof (resp_r Htab 1 5 c is_point_Htab) as Q2.
  rewrite ped_0_1 in Q1. rewrite smul_1 in Q2.
  split; left; [exact Q1|exact Q2].
Qed.

(** C31: honest-verifier zero knowledge.  Each challenge and response come from
    exactly one draw, with commitments computed from the public values alone. *)
Theorem C31_equivalence_hvzk : forall zk B1 B2 x c s, std zk -> is_point B1 -> is_point B2 -> scalar c -> scalar s ->
  let R1 := smul x (eff B1) in let R2 := smul x (eff B2) in
  let U1 := padd (smul s (eff B1)) (pneg (smul c R1)) in let U2 := padd (smul s (eff B2)) (pneg (smul c R2)) in
  exists u, scalar u /\
    (forall sha, fs sha [B1; R1; B2; R2; smul u (eff B1); smul u (eff B2)] = c ->
       NewEquivalenceProof sha zk (pt B1) (pt R1) (pt B2) (pt R2) (Some x) (Some u) =
       Ok (Some (MkEquiv (pt U1) (pt U2) (Some c) (Some s)), None)) /\
    (forall sha u' V1 V2, scalar u' ->
       NewEquivalenceProof sha zk (pt B1) (pt R1) (pt B2) (pt R2) (Some x) (Some u') =
       Ok (Some (MkEquiv V1 V2 (Some c) (Some s)), None) -> u' = u).
Proof.
  intros zk B1 B2 x c s S H1 H2 Hc Hs R1 R2 U1 U2. exists ((s - c * x) mod N). split; [|split].
  - apply Z.mod_pos_bound. reflexivity.
  - intros sha Hsha. rewrite (equiv_prove sha zk S) by (unfold R1, R2; isp). unfold R1 at 1, R2 at 1. rewrite !xeq_refl.
    cbn [andb]. cbv zeta. rewrite Hsha. rewrite !sim_eq by isp. fold R1 R2. fold U1 U2.
    replace (((s - c * x) mod N + c * (x mod N)) mod N) with s; [reflexivity|].
    symmetry. apply nv_mod_eq; [exact Hs|]. nzpush. ring.
  - intros sha u' V1 V2 Hu'. rewrite (equiv_prove sha zk S) by (unfold R1, R2; isp). unfold R1 at 1, R2 at 1. rewrite !xeq_refl.
    cbn [andb]. cbv zeta. generalize (fs sha [B1; R1; B2; R2; smul u' (eff B1); smul u' (eff B2)]) as c'. intros c' E. apply Ok_inj in E.
    assert (E1 : (u' + c' * (x mod N)) mod N = s) by congruence. assert (E2 : c' = c) by congruence.
    symmetry. apply nv_mod_eq; [exact Hu'|]. rewrite <- E1, E2. nzpush. ring.
Qed.
Print Assumptions C31_equivalence_hvzk.
Theorem C31_consistency_hvzk : forall zk PK v r c s1 s2, std zk -> is_point PK -> scalar c -> scalar s1 -> scalar s2 ->
  let CM := ped v r in let CMTok := smul r (eff PK) in
  let T1 := padd (ped s1 s2) (pneg (smul c CM)) in let T2 := padd (smul s2 (eff PK)) (pneg (smul c CMTok)) in
  exists u1 u2, scalar u1 /\ scalar u2 /\
    (forall sha, fs sha [G; Hgen; CM; CMTok; PK; ped u1 u2; smul u2 (eff PK)] = c ->
       NewConsistencyProof sha zk (pt CM) (pt CMTok) (pt PK) (Some v) (Some r) (Some u1) (Some u2) =
       Ok (Some (MkCons (pt T1) (pt T2) (Some c) (Some s1) (Some s2)), None)) /\
    (forall sha w1 w2 V1 V2, scalar w1 -> scalar w2 ->
       NewConsistencyProof sha zk (pt CM) (pt CMTok) (pt PK) (Some v) (Some r) (Some w1) (Some w2) =
       Ok (Some (MkCons V1 V2 (Some c) (Some s1) (Some s2)), None) -> w1 = u1 /\ w2 = u2).
Proof.
  intros zk PK v r c s1 s2 S H Hc Hs1 Hs2 CM CT T1 T2. exists ((s1 - c * v) mod N), ((s2 - c * r) mod N). split; [|split; [|split]].
  - apply Z.mod_pos_bound. reflexivity.
  - apply Z.mod_pos_bound. reflexivity.
  - intros sha Hsha. rewrite (cons_prove sha zk S) by (unfold CM, CT; isp). unfold CM at 1, CT at 1. rewrite !xeq_refl.
    cbn [andb]. cbv zeta. rewrite Hsha. rewrite sim_ped, sim_eq by isp. fold CM CT. fold T1 T2.
    replace (((s1 - c * v) mod N + (v mod N) * c) mod N) with s1.
    2:{ symmetry. apply nv_mod_eq; [exact Hs1|]. nzpush. ring. }
    replace (((s2 - c * r) mod N + r * c) mod N) with s2; [reflexivity|].
    symmetry. apply nv_mod_eq; [exact Hs2|]. nzpush. ring.
  - intros sha w1 w2 V1 V2 Hw1 Hw2. rewrite (cons_prove sha zk S) by (unfold CM, CT; isp). unfold CM at 1, CT at 1. rewrite !xeq_refl.
    cbn [andb]. cbv zeta. generalize (fs sha [G; Hgen; CM; CT; PK; ped w1 w2; smul w2 (eff PK)]) as c'. intros c' E. apply Ok_inj in E.
    assert (E1 : (w1 + (v mod N) * c') mod N = s1) by congruence. assert (E3 : (w2 + r * c') mod N = s2) by congruence.
    assert (E2 : c' = c) by congruence.
    split; symmetry; (apply nv_mod_eq; [assumption|]); rewrite <- ?E1, <- ?E3, E2; nzpush; ring.
Qed.
Print Assumptions C31_consistency_hvzk.
Example C31_nonvacuous : std specZk /\ is_point G /\ is_point Hgen /\ scalar 0 /\ scalar (N - 1).
Proof. split; [exact specZk_std|]. split; [isp|]. split; [isp|]. split; split; (discriminate || reflexivity). Qed.

(** C26 for these provers.  The consistency prover returns an unusable empty proof
    beside the error. *)
Theorem C26_equivalence_rejects : forall sha zk B1 R1 B2 R2 x rnd, std zk ->
  is_point B1 -> is_point R1 -> is_point B2 -> is_point R2 ->
  ~ pm (smul x (eff B1)) R1 \/ ~ pm (smul x (eff B2)) R2 ->
  NewEquivalenceProof sha zk (pt B1) (pt R1) (pt B2) (pt R2) (Some x) rnd = Ok (None, Some EProof).
Proof.
  intros sha zk B1 R1 B2 R2 x rnd S H1 H2 H3 H4 K. rewrite (equiv_prove sha zk S) by isp.
  destruct K as [K|K]; apply x_eq_false in K; try isp; rewrite K, ?andb_false_r; reflexivity.
Qed.
Print Assumptions C26_equivalence_rejects.
Theorem C26_consistency_rejects : forall sha zk CM CMTok PK v r rnd1 rnd2, std zk ->
  is_point CM -> is_point CMTok -> is_point PK ->
  ~ pm CM (ped v r) \/ ~ pm CMTok (smul r (eff PK)) ->
  NewConsistencyProof sha zk (pt CM) (pt CMTok) (pt PK) (Some v) (Some r) rnd1 rnd2 = Ok (Some emptyConsistency, Some EProof).
Proof.
  intros sha zk CM CT PK v r rnd1 rnd2 S H1 H2 H3 K. rewrite (cons_prove sha zk S) by isp.
  destruct K as [K|K]; apply x_eq_false in K; try isp; rewrite K, ?andb_false_r; reflexivity.
Qed.
Print Assumptions C26_consistency_rejects.
Example C26_eqcons_nonvacuous : ~ pm (smul 2 (eff G)) G.
Proof.
  rewrite eff_G. intros [E|E]; rewrite <- ?smul_opp in E by isp; rewrite <- (smul_1 G) in E at 1; apply smul_G_inj in E; discriminate E.
Qed.

(** C47 for these proofs (refuted): responses are read modulo N only. *)
Theorem C47_equivalence_malleable_refuted : forall sha zk B1 R1 B2 R2 U1 U2 c s k, cN (zC zk) = N ->
  EquivalenceVerify sha (Some (MkEquiv U1 U2 c (Some (s + k * N)))) zk B1 R1 B2 R2 =
  EquivalenceVerify sha (Some (MkEquiv U1 U2 c (Some s))) zk B1 R1 B2 R2.
Proof.
  intros sha zk B1 R1 B2 R2 U1 U2 c s k E. unfold EquivalenceVerify. cbn [eqUG eqUH eqChallenge eqHiddenValue].
  rewrite !(Mult_addN zk _ s k E). reflexivity.
Qed.
Print Assumptions C47_equivalence_malleable_refuted.
Theorem C47_consistency_malleable_refuted : forall sha zk CM CMTok PK T1 T2 c s1 s2 k l, cN (zC zk) = N ->
  ConsistencyVerify sha (Some (MkCons T1 T2 c (Some (s1 + k * N)) (Some (s2 + l * N)))) zk CM CMTok PK =
  ConsistencyVerify sha (Some (MkCons T1 T2 c (Some s1) (Some s2))) zk CM CMTok PK.
Proof.
  intros sha zk CM CT PK T1 T2 c s1 s2 k l E. unfold ConsistencyVerify. cbn [cnT1 cnT2 cnChallenge cnS1 cnS2].
  rewrite (PedCommitR_addN zk s1 s2 k l E), (Mult_addN zk _ s2 l E). reflexivity.
Qed.
Print Assumptions C47_consistency_malleable_refuted.
Example C47_eqcons_nonvacuous : cN (zC specZk) = N /\ 5 + 1 * N <> 5. Proof. split; [reflexivity|discriminate]. Qed.
