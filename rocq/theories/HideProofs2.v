(** * What observers learn from GSPFS, equivalence and consistency proofs: lemmas *)
From Coq Require Import ZArith List Bool Lia Permutation.
From Verif Require Import Go Wire Big Crypto Spec CurveGroup Order FieldP FieldN CurveZ SpecZk ZkBase Gspfs GspfsProofs Equivalence Consistency EqConsProofs
  SpecRand RandCount SpecOracle OracleProofs OracleCount OracleProofs2 SpecHide HideProofs.
Import ListNotations.
Open Scope Z_scope.
Opaque allTapes.

Lemma in_scalars u : In u scalars <-> scalar u.
Proof.
  unfold scalars, scalar. rewrite in_map_iff. pose proof N_pos as HN. split.
  - intros (k & <- & H). apply in_seq in H. lia.
  - intros H. exists (Z.to_nat u). split; [lia|]. apply in_seq. lia.
Qed.
Lemma scalars_nodup : NoDup scalars. Proof. unfold scalars. apply FinFun.Injective_map_NoDup; [intros a b E; lia|apply seq_NoDup]. Qed.
Lemma scalars_len : Z.of_nat (length scalars) = N. Proof. unfold scalars. rewrite map_length, seq_length. pose proof N_pos. lia. Qed.
Global Opaque scalars.
Lemma shift_zs d f : zs scalars f = zs scalars (fun u => f ((u + d) mod N)).
Proof.
  rewrite <- (zs_map (fun u => (u + d) mod N) scalars). apply zs_perm. symmetry. apply NoDup_Permutation_bis.
  - assert (I : forall l, (forall u, In u l -> scalar u) -> NoDup l -> NoDup (map (fun u => (u + d) mod N) l)).
    { induction l as [|a l IH]; intros Hs D; [constructor|]. inversion D; subst. cbn [map]. constructor; [|apply IH; [intros; apply Hs; right|]; assumption].
      rewrite in_map_iff. intros (b & E & Hb). assert (a = b); [|congruence]. pose proof (Hs a (or_introl eq_refl)) as Ha. pose proof (Hs b (or_intror Hb)) as Hb'.
      rewrite <- (nv_mod_eq b b Hb' eq_refl). symmetry. apply nv_mod_eq; [exact Ha|]. assert (Q : nz ((b + d) mod N) = nz ((a + d) mod N)) by (rewrite E; reflexivity). revert Q. nzpush. intros Q.
      transitivity (nadd (nadd (nz b) (nz d)) (nopp (nz d))); [ring|]. rewrite Q. ring. }
    apply I; [intros u; apply in_scalars|apply scalars_nodup].
  - rewrite map_length. reflexivity.
  - intros u. rewrite in_map_iff. intros (v & <- & _). apply in_scalars. apply Z.mod_pos_bound, N_pos.
Qed.
(** how many draws lead to one string *)
Lemma few_draws pre (F : Z -> list point) k s : (forall u, Forall is_point (F u)) -> (forall u, length (F u) = k) -> (forall u v, scalar u -> scalar v -> F u = F v -> u = v) ->
  zs scalars (fun u => ind (if list_eq_dec Z.eq_dec (transcript (pre ++ F u)) s then true else false)) <= 33 ^ Z.of_nat (k + k - 1).
Proof.
  intros HP HL HI. rewrite <- zs_filter. change 33 with (Z.of_nat 33). rewrite <- Nat2Z.inj_pow, <- (Z.mul_1_r (Z.of_nat (33 ^ _))).
  apply (classes (fun l u => scalar u /\ transcript (pre ++ F u) = s /\ code (coords (F u)) = l) 1).
  - intros l xs D H. destruct xs as [|a [|b xs]]; [discriminate|reflexivity|]. exfalso. destruct (H a (or_introl eq_refl)) as (Sa & Ta & Ca). destruct (H b (or_intror (or_introl eq_refl))) as (Sb & Tb & Cb).
    inversion D as [|? ? Nin _]; subst. apply Nin. left. symmetry. apply HI; [assumption..|]. apply (transcript_inj pre); [rewrite !HL; reflexivity|apply HP|apply HP|congruence|congruence].
  - apply NoDup_filter, scalars_nodup.
  - intros u Hu. apply filter_In in Hu. destruct Hu as [Hu E]. exists (code (coords (F u))). split.
    + pose proof (code_bound _ (coords_small _ (HP u))) as Q. rewrite coords_len, HL in Q. replace (k + k - 1)%nat with (2 * k - 1)%nat by lia. exact Q.
    + split; [apply in_scalars, Hu|]. split; [|reflexivity]. destruct (list_eq_dec Z.eq_dec (transcript (pre ++ F u)) s) as [E'|]; [exact E'|discriminate E].
Qed.
Lemma smul_scalar_inj p u v : on_curve p -> scalar u -> scalar v -> smul u p = smul v p -> u = v.
Proof. intros Hp Hu Hv E. apply smul_inj_pt in E; [|exact Hp]. rewrite !Z.mod_small in E by assumption. exact E. Qed.

(** ** GSPFS *)
Definition gspfsOf (i : point * Z) (h : list Z) (u : Z) : GSPFSProof :=
  let '(B, x) := i in MkGSPFS (pt B) (pt (smul u B)) (Some ((u - ch h * (x mod N)) mod N)) (Some (ch h)).
Lemma asPoint_pt p : asPoint (pt p) = p. Proof. destruct p; reflexivity. Qed.
Lemma gspfs_hide zk f q n L : std zk -> watches gspfsGood q n f -> (32 * (q + n) <= L)%nat ->
  N * Z.abs (yes L scalars n (watchReal gspfsPublic (proveGspfs zk) askedGspfs f []) - yes L scalars n (watchSim gspfsPublic simGspfs askedGspfs f []))
  <= Z.of_nat (n * (q + n)) * 33 * (256 ^ Z.of_nat L * N ^ Z.of_nat n).
Proof.
  intros S Hw HL. rewrite <- scalars_len.
  apply (hide_bound gspfsGood gspfsPublic (proveGspfs zk) askedGspfs simGspfs scalars gspfsOf (fun i u => let '(B, x) := i in transcript ([smul x B] ++ [smul u B])) 33); [discriminate| | | | |exact Hw|exact HL].
  - intros [B x] sha u [HB PB] _. cbn [fst] in *. assert (HB' : is_point B) by (right; exact HB). unfold proveGspfs. rewrite (gspfs_prove sha zk S) by isp. rewrite xeq_refl. rewrite eff_plain by assumption. reflexivity.
  - intros [B x] h u _ _. unfold askedGspfs, gspfsOf, gspfsPublic. cbn [gsRandCommit]. rewrite asPoint_pt. reflexivity.
  - intros [B x] h [HB PB] _ g. cbn [fst] in *. assert (HB' : is_point B) by (right; exact HB).
    rewrite (shift_zs (- (ch h * x))). apply zs_ext. intros u Hu. apply in_scalars in Hu. f_equal. unfold simGspfs, gspfsOf, gspfsPublic. fold (ch h). cbv zeta.
    assert (E : padd (smul ((u + - (ch h * x)) mod N) B) (smul (ch h) (smul x B)) = smul u B).
    { rewrite <- smul_mul, <- smul_add by isp. apply smul_inj_pt; [exact HB|]. apply nz_eq_iff. nzpush. ring. }
    rewrite E. assert (E2 : (u + - (ch h * x)) mod N = (u - ch h * (x mod N)) mod N) by (apply nz_eq_iff; nzpush; ring). rewrite E2. reflexivity.
  - intros [B x] s [HB PB]. cbn [fst] in *. assert (HB' : is_point B) by (right; exact HB). etransitivity; [apply (few_draws [smul x B] (fun u => [smul u B]) 1 s)|discriminate].
    + intros u. constructor; [isp|constructor].
    + reflexivity.
    + intros u v Hu Hv E. apply (smul_scalar_inj B); [assumption..|]. congruence.
Qed.

(** ** Equivalence *)
Definition equivOf (i : point * point * Z) (h : list Z) (u : Z) : EquivalenceProof :=
  let '(B1, B2, x) := i in MkEquiv (pt (smul u (eff B1))) (pt (smul u (eff B2))) (Some (ch h)) (Some ((u + ch h * (x mod N)) mod N)).
Lemma sim_back B x c u : is_point B -> padd (smul ((u + c * x) mod N) B) (pneg (smul c (smul x B))) = smul u B.
Proof. intros HB. rewrite <- sim_eq by exact HB. destruct (dlog B HB) as [b ->]. gpush. apply smul_G_eq. nzpush. ring. Qed.
Lemma equiv_hide zk f q n L : std zk -> watches equivGood q n f -> (32 * (q + n) <= L)%nat ->
  N * Z.abs (yes L scalars n (watchReal equivPublic (proveEquiv zk) askedEquiv f []) - yes L scalars n (watchSim equivPublic simEquiv askedEquiv f []))
  <= Z.of_nat (n * (q + n)) * 33 ^ 3 * (256 ^ Z.of_nat L * N ^ Z.of_nat n).
Proof.
  intros S Hw HL. rewrite <- scalars_len.
  apply (hide_bound equivGood equivPublic (proveEquiv zk) askedEquiv simEquiv scalars equivOf
    (fun i u => let '(B1, B2, x) := i in transcript ([B1; smul x (eff B1); B2; smul x (eff B2)] ++ [smul u (eff B1); smul u (eff B2)])) (33 ^ 3)); [discriminate| | | | |exact Hw|exact HL].
  - intros [[B1 B2] x] sha u (H1 & H2 & NB) _. unfold proveEquiv. rewrite (equiv_prove sha zk S) by isp. rewrite !xeq_refl. reflexivity.
  - intros [[B1 B2] x] h u _ _. unfold askedEquiv, equivOf, equivPublic. cbn [eqUG eqUH]. rewrite !asPoint_pt. reflexivity.
  - intros [[B1 B2] x] h (H1 & H2 & NB) _ g. rewrite (shift_zs (ch h * x)). apply zs_ext. intros u Hu. apply in_scalars in Hu. f_equal. unfold simEquiv, equivOf, equivPublic. fold (ch h). cbv zeta.
    rewrite !sim_back by isp. assert (E2 : (u + ch h * x) mod N = (u + ch h * (x mod N)) mod N) by (apply nz_eq_iff; nzpush; ring). rewrite E2. reflexivity.
  - intros [[B1 B2] x] s (H1 & H2 & NB). assert (HE : on_curve (eff B1)) by (assert (X : is_point (eff B1)) by isp; destruct X as [X|X]; [contradiction|exact X]).
    etransitivity; [apply (few_draws [B1; smul x (eff B1); B2; smul x (eff B2)] (fun u => [smul u (eff B1); smul u (eff B2)]) 2 s)|discriminate].
    + intros u. constructor; [isp|]. constructor; [isp|constructor].
    + reflexivity.
    + intros u v Hu Hv E. apply (smul_scalar_inj (eff B1)); [assumption..|]. congruence.
Qed.

(** ** Consistency *)
Definition consOf (i : point * Z * Z) (h : list Z) (u : Z * Z) : ConsistencyProof :=
  let '(PK, v, r) := i in
  MkCons (pt (ped (fst u) (snd u))) (pt (smul (snd u) (eff PK))) (Some (ch h)) (Some ((fst u + (v mod N) * ch h) mod N)) (Some ((snd u + r * ch h) mod N)).
Lemma sim_ped_back v r c u1 u2 : padd (ped ((u1 + c * v) mod N) ((u2 + c * r) mod N)) (pneg (smul c (ped v r))) = ped u1 u2.
Proof. rewrite <- sim_ped. unfold ped. destruct (dlog Htab is_point_Htab) as [h EH]. rewrite EH. gpush. apply smul_G_eq. nzpush. ring. Qed.
Lemma ped_inj_l u v r : scalar u -> scalar v -> ped u r = ped v r -> u = v.
Proof.
  intros Hu Hv. unfold ped. destruct (dlog Htab is_point_Htab) as [h EH]. rewrite EH. gpush. intros E. apply smul_G_inj in E. apply nz_eq_iff in E. revert E. nzpush. intros E.
  rewrite <- (nv_mod_eq v v Hv eq_refl). symmetry. apply nv_mod_eq; [exact Hu|].
  transitivity (nadd (nadd (nz v) (nmul (nz r) (nz h))) (nopp (nmul (nz r) (nz h)))); [ring|]. rewrite <- E. ring.
Qed.
Lemma pairs_len : Z.of_nat (length scalarPairs) = N * N. Proof. unfold scalarPairs. rewrite prod_length, Nat2Z.inj_mul, scalars_len. reflexivity. Qed.
Lemma cons_hide zk f q n L : std zk -> watches consGood q n f -> (32 * (q + n) <= L)%nat ->
  N * N * Z.abs (yes L scalarPairs n (watchReal consPublic (proveCons zk) askedCons f []) - yes L scalarPairs n (watchSim consPublic simCons askedCons f []))
  <= Z.of_nat (n * (q + n)) * (N * 33 ^ 3) * (256 ^ Z.of_nat L * (N * N) ^ Z.of_nat n).
Proof.
  intros S Hw HL. rewrite <- pairs_len.
  apply (hide_bound consGood consPublic (proveCons zk) askedCons simCons scalarPairs consOf
    (fun i u => let '(PK, v, r) := i in transcript ([G; Hgen; ped v r; smul r (eff PK); PK] ++ [ped (fst u) (snd u); smul (snd u) (eff PK)])) (N * 33 ^ 3)); [discriminate| | | | |exact Hw|exact HL].
  - intros [[PK v] r] sha u HPK _. unfold consGood in HPK. unfold proveCons. rewrite (cons_prove sha zk S) by isp. rewrite !xeq_refl. reflexivity.
  - intros [[PK v] r] h u _ _. unfold askedCons, consOf, consPublic. cbn [cnT1 cnT2]. rewrite !asPoint_pt. reflexivity.
  - intros [[PK v] r] h HPK _ g. unfold consGood in HPK. unfold scalarPairs. rewrite !zs_prod. rewrite (shift_zs (ch h * v)). apply zs_ext. intros u1 Hu1. rewrite (shift_zs (ch h * r)). apply zs_ext. intros u2 Hu2.
    f_equal. unfold simCons, consOf, consPublic. fold (ch h). cbv zeta. cbn [fst snd]. rewrite sim_ped_back, sim_back by isp.
    assert (E1 : (u1 + ch h * v) mod N = (u1 + (v mod N) * ch h) mod N) by (apply nz_eq_iff; nzpush; ring).
    assert (E2 : (u2 + ch h * r) mod N = (u2 + r * ch h) mod N) by (apply nz_eq_iff; nzpush; ring). rewrite E1, E2. reflexivity.
  - intros [[PK v] r] s HPK. unfold consGood in HPK. unfold scalarPairs. rewrite zs_prod, zs_swap. rewrite <- scalars_len. rewrite <- zs_const. apply zs_le. intros u2 _. cbn [fst snd].
    etransitivity; [apply (few_draws [G; Hgen; ped v r; smul r (eff PK); PK] (fun u => [ped u u2; smul u2 (eff PK)]) 2 s)|discriminate].
    + intros u. constructor; [isp|]. constructor; [isp|constructor].
    + reflexivity.
    + intros u v' Hu Hv E. apply (ped_inj_l u v' u2); [assumption..|]. congruence.
Qed.
