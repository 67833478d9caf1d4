(** * C87: forgers of any power that ask the hash function a limited number of times *)
From Coq Require Import ZArith List Bool Lia.
From Verif Require Import Go Wire Big Crypto Spec CurveGroup Order FieldN CurveZ SpecZk ZkBase PointProofs Gspfs GspfsProofs Equivalence Consistency EqConsProofs
  Disjunctive DisjProofs Abc AbcProofs RangeProofs SpecRand RandCount SpecOracle OracleProofs OracleCount OracleProofs2 OracleProofs3.
Import ListNotations.
Open Scope Z_scope.

(** C87: whatever a forger does that asks the hash function q times, of all the
    256^(32*(q+1)) equally likely ways in which the hash function may answer, at most
    (q+1) * 4*33^3 * 256^(32*q) make it find an accepted equivalence proof of a false
    statement: a chance below (q+1) * 2^18 / 2^256.  (33^3 counts the ways in which the
    string that is hashed can be cut into coordinates, see C15.) *)
Theorem C87_equivalence : forall zk B1 R1 B2 R2 q (f : forger EquivalenceProof) (wins : list Z -> bool), std zk ->
  is_point B1 -> is_point R1 -> is_point B2 -> is_point R2 -> plain R1 -> plain R2 -> false_equiv B1 R1 B2 R2 -> asks q f ->
  (forall t, tape (32 * (q + 1)) t -> wins t = true -> equivPoints (says f t) /\
     accepts (EquivalenceVerify (sha f t) (Some (says f t)) zk (pt B1) (pt R1) (pt B2) (pt R2))) ->
  cases (32 * (q + 1)) wins <= Z.of_nat (q + 1) * (4 * 33 ^ 3) * 256 ^ Z.of_nat (32 * q).
Proof. exact equiv_chance. Qed.
Print Assumptions C87_equivalence.
(** The same for a forger that may choose the false statement itself. *)
Theorem C87_equivalence_chosen : forall zk q (f : forger (point * point * point * point * EquivalenceProof)) (wins : list Z -> bool), std zk -> asks q f ->
  (forall t, tape (32 * (q + 1)) t -> wins t = true -> let '(B1, R1, B2, R2, pf) := says f t in
     is_point B1 /\ is_point R1 /\ is_point B2 /\ is_point R2 /\ plain R1 /\ plain R2 /\ false_equiv B1 R1 B2 R2 /\ equivPoints pf /\
     accepts (EquivalenceVerify (sha f t) (Some pf) zk (pt B1) (pt R1) (pt B2) (pt R2))) ->
  cases (32 * (q + 1)) wins <= Z.of_nat (q + 1) * (4 * 33 ^ 11) * 256 ^ Z.of_nat (32 * q).
Proof. exact equiv_chance_any. Qed.
Print Assumptions C87_equivalence_chosen.
(** a false statement, and a forger that succeeds on some tapes *)
Example C87_equivalence_nonvacuous : std specZk /\ false_equiv G G G (smul 2 G) /\ plain G /\ plain (smul 2 G) /\
  exists (f : forger EquivalenceProof) wins, asks 0 f /\ 0 < cases (32 * (0 + 1)) wins /\
    forall t, tape (32 * (0 + 1)) t -> wins t = true -> equivPoints (says f t) /\
      accepts (EquivalenceVerify (sha f t) (Some (says f t)) specZk (pt G) (pt G) (pt G) (pt (smul 2 G))).
Proof.
  pose proof specZk_std as S. split; [exact S|]. assert (P2 : plain (smul 2 G)) by (apply plain_small; lia). split.
  { unfold false_equiv. rewrite eff_G. intros (x & E1 & E2). rewrite <- (smul_1 G) in E1 at 1. apply smul_G_inj in E1.
    assert (Q : 2 mod N = 1 mod N \/ 2 mod N = (- 1) mod N); [|destruct Q; discriminate]. destruct E2 as [E2|E2].
    - left. apply smul_G_inj in E2. congruence.
    - right. rewrite <- smul_opp in E2 by isp. apply smul_G_inj in E2. rewrite E2, <- (Z.sub_0_l x), <- Zminus_mod_idemp_r, <- E1. reflexivity. }
  split; [exact plain_G|]. split; [exact P2|].
  exists (Say (MkEquiv (pt G) (pt G) (Some 0) (Some 1))), (fun t => beval t mod N =? 0). split; [exact I|]. split.
  - change (32 * (0 + 1))%nat with 32%nat. unfold cases.
    assert (X : In (repeat 0 32) (filter (fun t => beval t mod N =? 0) (allTapes 32))).
    { apply filter_In. split; [|reflexivity]. apply in_tapes. split; [|reflexivity]. apply Forall_forall. intros x Hx. apply repeat_spec in Hx. subst. split; [discriminate|reflexivity]. }
    destruct (filter (fun t => beval t mod N =? 0) (allTapes 32)) as [|h l]; [destruct X|]. cbn [length]. rewrite Nat2Z.inj_succ. lia.
  - intros t [Ft Lt] E. apply Z.eqb_eq in E. unfold says, sha. cbn [play fst snd]. split.
    + exists G, G, 0, 1. split; [isp|]. split; [isp|]. reflexivity.
    + apply (equiv_accepts _ _ S); try isp. rewrite !smul_0, !padd_O_r, eff_G, smul_1. split; [|split; left; reflexivity].
      unfold fs, hashOf. cbn [known]. rewrite firstn_all2 by (rewrite Lt; apply Nat.le_refl). exact E.
Qed.

(** C87: a forger that finds GSPFS proofs for A on W tapes, rewound once, finds the
    logarithm of A to the base B: on at least W^2 / (33*(q+1)) - 4 * 256^(32*q) * W of
    the pairs of tapes.  (As chances: w^2 / (33*(q+1)) - 4*w / 2^256.) *)
Theorem C87_gspfs : forall zk q (f : forger GSPFSProof) B A (wins : list Z -> bool), std zk -> is_point A -> is_point B -> plain A -> plain B -> asks q f ->
  (forall t, tape (32 * (q + 1)) t -> wins t = true -> gspfsPoints B (says f t) /\ accepts (GSPFSVerify (sha f t) (Some (says f t)) zk (pt A))) ->
  let n := (32 * (q + 1))%nat in let W := cases n wins in
  W * W <= 33 * Z.of_nat (q + 1) * (cases (n + n) (fun t => found (gspfsFinds f B A (firstn n t) (skipn n t))) + 4 * 256 ^ Z.of_nat (32 * q) * W).
Proof. exact gspfs_fork. Qed.
Print Assumptions C87_gspfs.
Theorem C87_gspfs_finds : forall f B A t t' x, gspfsFinds f B A t t' = Some x -> A = smul x B.
Proof. exact gspfs_finds_ok. Qed.
Print Assumptions C87_gspfs_finds.
(** C87: a forger of disjunctive proofs, rewound once, finds the logarithm of the one
    result or of the other. *)
Theorem C87_disjunctive : forall zk q (f : forger DisjunctiveProof) B1 R1 B2 R2 (wins : list Z -> bool), std zk ->
  is_point B1 -> is_point R1 -> is_point B2 -> is_point R2 -> plain R1 -> plain R2 -> asks q f ->
  (forall t, tape (32 * (q + 1)) t -> wins t = true -> disjPoints (says f t) /\
     accepts (DisjunctiveVerify (sha f t) (Some (says f t)) zk (pt B1) (pt R1) (pt B2) (pt R2))) ->
  let n := (32 * (q + 1))%nat in let W := cases n wins in
  W * W <= 33 ^ 3 * Z.of_nat (q + 1) *
    (cases (n + n) (fun t => let x := disjFinds f B1 R1 B2 R2 (firstn n t) (skipn n t) in found (fst x) || found (snd x)) + 2 * 256 ^ Z.of_nat (32 * q) * W).
Proof. exact disj_fork. Qed.
Print Assumptions C87_disjunctive.
Theorem C87_disjunctive_finds : forall f B1 R1 B2 R2 t t' x,
  (fst (disjFinds f B1 R1 B2 R2 t t') = Some x -> R1 = smul x (eff B1)) /\ (snd (disjFinds f B1 R1 B2 R2 t t') = Some x -> R2 = smul x (eff B2)).
Proof. exact disj_finds_ok. Qed.
Print Assumptions C87_disjunctive_finds.
(** C87: a forger of consistency proofs, rewound once, finds an opening of the commitment. *)
Theorem C87_consistency : forall zk q (f : forger ConsistencyProof) CM CMTok PK (wins : list Z -> bool), std zk ->
  is_point CM -> is_point CMTok -> is_point PK -> plain CM -> asks q f ->
  (forall t, tape (32 * (q + 1)) t -> wins t = true -> consPoints (says f t) /\
     accepts (ConsistencyVerify (sha f t) (Some (says f t)) zk (pt CM) (pt CMTok) (pt PK))) ->
  let n := (32 * (q + 1))%nat in let W := cases n wins in
  W * W <= 33 ^ 3 * Z.of_nat (q + 1) * (cases (n + n) (fun t => found (consFinds f CM CMTok PK (firstn n t) (skipn n t))) + 2 * 256 ^ Z.of_nat (32 * q) * W).
Proof. exact cons_fork. Qed.
Print Assumptions C87_consistency.
Theorem C87_consistency_finds : forall f CM CMTok PK t t' v r, consFinds f CM CMTok PK t t' = Some (v, r) -> CM = ped v r.
Proof. exact cons_finds_ok. Qed.
Print Assumptions C87_consistency_finds.
(** C87: rewound twice it finds an opening whose blinding also makes the token, up to
    sign (C30).  As chances: with k = 33^3 * (q+1), at least (w - 4*k/2^256)^3 / k^2. *)
Theorem C87_consistency_twice : forall zk q (f : forger ConsistencyProof) CM CMTok PK (wins : list Z -> bool), std zk ->
  is_point CM -> is_point CMTok -> is_point PK -> plain CM -> plain CMTok -> asks q f ->
  (forall t, tape (32 * (q + 1)) t -> wins t = true -> consPoints (says f t) /\
     accepts (ConsistencyVerify (sha f t) (Some (says f t)) zk (pt CM) (pt CMTok) (pt PK))) ->
  let n := (32 * (q + 1))%nat in let W := cases n wins in let k := 33 ^ 3 * Z.of_nat (q + 1) in let e := 4 * k * 256 ^ Z.of_nat (32 * q) in
  e <= W -> (W - e) ^ 3 <= k ^ 2 * cases (n + (n + n)) (fun t => found (consFinds2 f CM CMTok PK (firstn n t) (firstn n (skipn n t)) (skipn n (skipn n t)))).
Proof. exact cons_fork2. Qed.
Print Assumptions C87_consistency_twice.
Theorem C87_consistency_twice_finds : forall f CM CMTok PK t t' t'' v r, consFinds2 f CM CMTok PK t t' t'' = Some (v, r) ->
  CM = ped v r /\ (CMTok = smul r (eff PK) \/ CMTok = pneg (smul r (eff PK))).
Proof. exact cons_finds2_ok. Qed.
Print Assumptions C87_consistency_twice_finds.
(** C87: a forger of ABC proofs, which may choose B and C, rewound twice at its outer
    challenge, finds a, k, l with CM = a*G + k*CMTok and C = a*B + l*H', the latter up to
    sign (C36).  (The verifier asks two questions here; q counts the inner one, which the
    forger asks itself.) *)
Theorem C87_abc : forall zk q (f : forger ABCProof) CM CMTok (wins : list Z -> bool), std zk ->
  is_point CM -> is_point CMTok -> plain CM -> plain CMTok -> asks q f ->
  (forall t, tape (32 * (q + 1)) t -> wins t = true -> abcPoints (says f t) /\ accepts (ABCVerify (sha f t) (Some (says f t)) zk (pt CM) (pt CMTok))) ->
  let n := (32 * (q + 1))%nat in let W := cases n wins in let k := 33 ^ 7 * Z.of_nat (q + 1) in let e := 4 * k * 256 ^ Z.of_nat (32 * q) in
  e <= W -> (W - e) ^ 3 <= k ^ 2 * cases (n + (n + n)) (fun t => found (abcFinds f CM CMTok (firstn n t) (firstn n (skipn n t)) (skipn n (skipn n t)))).
Proof. exact abc_fork2. Qed.
Print Assumptions C87_abc.
Theorem C87_abc_finds : forall f CM CMTok t t' t'' a k l, abcFinds f CM CMTok t t' t'' = Some (a, k, l) -> let p := says f t in
  CM = padd (smul a G) (smul k CMTok) /\ (let R := padd (smul a (asPoint (abB p))) (smul l Htab) in asPoint (abC p) = R \/ asPoint (abC p) = pneg R).
Proof. exact abc_finds_ok. Qed.
Print Assumptions C87_abc_finds.

(** forgers (they know the secrets) that succeed on every tape: all 256^64 *)
Lemma one_answer {A} m (g : list Z -> A) t : let f := Ask m (fun h => Say (g h)) in says f t = g (firstn 32 t) /\ sha f t m = firstn 32 t.
Proof.
  unfold says, sha, hashOf. cbn [play known fst snd]. split; [reflexivity|]. destruct (list_eq_dec Z.eq_dec m m); [reflexivity|contradiction].
Qed.
Lemma fs_of sh ps h : sh (transcript ps) = h -> fs sh ps = ch h. Proof. intros <-. reflexivity. Qed.
Example C87_gspfs_nonvacuous : std specZk /\ plain G /\ exists f : forger GSPFSProof, asks 1 f /\
  forall t, tape (32 * (1 + 1)) t -> gspfsPoints G (says f t) /\ accepts (GSPFSVerify (sha f t) (Some (says f t)) specZk (pt G)).
Proof.
  pose proof specZk_std as S. split; [exact S|]. split; [exact plain_G|].
  exists (Ask (transcript [G; smul 3 G]) (fun h => Say (MkGSPFS (pt G) (pt (smul 3 G)) (Some (3 - ch h)) (Some (ch h))))). split; [exact (fun _ => I)|].
  intros t _. destruct (one_answer (transcript [G; smul 3 G]) (fun h => MkGSPFS (pt G) (pt (smul 3 G)) (Some (3 - ch h)) (Some (ch h))) t) as [-> E].
  split; [exists (smul 3 G), (3 - ch (firstn 32 t)), (ch (firstn 32 t)); split; [isp|reflexivity]|].
  apply (gspfs_accepts _ _ S); try isp. split; [exact (fs_of _ _ _ E)|]. left. rewrite eff_G, <- smul_add by isp. f_equal. ring.
Qed.
Example C87_disjunctive_nonvacuous : exists f : forger DisjunctiveProof, asks 1 f /\
  forall t, tape (32 * (1 + 1)) t -> disjPoints (says f t) /\ accepts (DisjunctiveVerify (sha f t) (Some (says f t)) specZk (pt G) (pt G) (pt G) (pt G)).
Proof.
  pose proof specZk_std as S. pose (m := transcript [G; G; G; G; smul 3 G; smul 5 G]).
  pose (g := fun h => MkDisj (pt (smul 3 G)) (pt (smul 5 G)) (Some (ch h)) (Some (ch h)) (Some 0) (Some (3 + ch h)) (Some 5)).
  exists (Ask m (fun h => Say (g h))). split; [exact (fun _ => I)|]. intros t _. destruct (one_answer m g t) as [-> E]. unfold g at 1 3.
  split; [do 7 eexists; split; [|split; [|reflexivity]]; isp|].
  apply (disj_accepts _ _ S); try isp. split; [exact (fs_of _ _ _ E)|]. split; [rewrite Z.add_0_r; apply Z.mod_small, ch_range|]. rewrite eff_G. split; left.
  - rewrite <- smul_add by isp. reflexivity.
  - rewrite <- smul_add by isp. reflexivity.
Qed.
Example C87_consistency_nonvacuous : plain Htab /\ exists f : forger ConsistencyProof, asks 1 f /\
  forall t, tape (32 * (1 + 1)) t -> consPoints (says f t) /\ accepts (ConsistencyVerify (sha f t) (Some (says f t)) specZk (pt Htab) (pt Htab) (pt Hgen)).
Proof.
  pose proof specZk_std as S. split; [exact plain_Htab|]. pose (m := transcript [G; Hgen; Htab; Htab; Hgen; ped 7 5; smul 5 Htab]).
  pose (g := fun h => MkCons (pt (ped 7 5)) (pt (smul 5 Htab)) (Some (ch h)) (Some 7) (Some (5 + ch h))).
  exists (Ask m (fun h => Say (g h))). split; [exact (fun _ => I)|]. intros t _. destruct (one_answer m g t) as [-> E]. unfold g at 1 3.
  split; [do 5 eexists; split; [|split; [|reflexivity]]; isp|].
  apply (cons_accepts _ _ S); try isp. split; [exact (fs_of _ _ _ E)|]. rewrite eff_Htab, eff_Hgen. split; left.
  - unfold ped. rewrite padd_assoc by isp. rewrite <- smul_add by isp. reflexivity.
  - rewrite <- smul_add by isp. reflexivity.
Qed.
(** enough tapes for the bounds of the rewindings twice *)
Example C87_twice_nonvacuous : 4 * (33 ^ 3 * Z.of_nat (1 + 1)) * 256 ^ Z.of_nat (32 * 1) <= cases (32 * (1 + 1)) (fun _ => true) /\
  4 * (33 ^ 7 * Z.of_nat (2 + 1)) * 256 ^ Z.of_nat (32 * 2) <= cases (32 * (2 + 1)) (fun _ => true).
Proof. rewrite !cases_all. split; apply Z.leb_le; vm_compute; reflexivity. Qed.
Lemma two_answers {A} m1 m2 (g : list Z -> list Z -> A) t : let f := Ask m1 (fun h1 => Ask m2 (fun h2 => Say (g h1 h2))) in
  exists h1 h2, says f t = g h1 h2 /\ sha f t m1 = h1 /\ sha f t m2 = h2.
Proof.
  unfold says, sha, hashOf. cbn [play known]. destruct (list_eq_dec Z.eq_dec m2 m1) as [->|D]; cbn [fst snd known].
  - exists (firstn 32 t), (firstn 32 t). destruct (list_eq_dec Z.eq_dec m1 m1); [do 2 (split; [reflexivity|]); reflexivity|contradiction].
  - exists (firstn 32 t), (firstn 32 (skipn 32 t)). destruct (list_eq_dec Z.eq_dec m1 m2) as [->|]; [contradiction|].
    destruct (list_eq_dec Z.eq_dec m1 m1); [|contradiction]. destruct (list_eq_dec Z.eq_dec m2 m2); [|contradiction]. do 2 (split; [reflexivity|]). reflexivity.
Qed.
Lemma swap3 a b c : is_point a -> is_point b -> is_point c -> padd a (padd b c) = padd b (padd a c).
Proof. intros. rewrite <- !padd_assoc by assumption. rewrite (padd_comm a b) by assumption. reflexivity. Qed.
Example C87_abc_nonvacuous : exists f : forger ABCProof, asks 2 f /\
  forall t, tape (32 * (2 + 1)) t -> abcPoints (says f t) /\ accepts (ABCVerify (sha f t) (Some (says f t)) specZk (pt Htab) (pt Htab)).
Proof.
  pose proof specZk_std as S. pose (CG := padd Htab (pneg G)). pose (m1 := transcript [Htab; Htab; Hgen; CG; smul 3 Htab; smul 5 Htab]).
  pose (m2 := transcript [G; Hgen; Htab; Htab; Htab; Htab; padd (smul 2 G) (smul 7 Htab); smul 9 Htab]).
  pose (d := fun h => MkDisj (pt (smul 3 Htab)) (pt (smul 5 Htab)) (Some (ch h)) (Some (ch h)) (Some 0) (Some (3 + ch h)) (Some 5)).
  pose (g := fun h1 h2 => MkABC (pt Htab) (pt Htab) (pt (padd (smul 2 G) (smul 7 Htab))) (pt (smul 9 Htab)) (Some (ch h2)) (Some 2) (Some (7 + ch h2)) (Some (7 + ch h2)) (pt Htab) (Some (d h1))).
  exists (Ask m1 (fun h1 => Ask m2 (fun h2 => Say (g h1 h2)))). split; [exact (fun _ _ => I)|]. intros t _.
  destruct (two_answers m1 m2 g t) as (h1 & h2 & E & E1 & E2). rewrite E. clear E. set (sh := sha _ t) in *. clearbody sh. unfold g. split.
  { exists Htab, Htab, (padd (smul 2 G) (smul 7 Htab)), (smul 9 Htab). do 6 eexists. do 4 (split; [isp|]). split; [exact plain_Htab|]. split; [exact plain_Htab|reflexivity]. }
  apply (abc_verify sh specZk S); try isp. fold CG. assert (HCG : is_point CG) by (unfold CG; isp).
  split; [|split; [exact (fs_of _ _ _ E2)|]].
  - assert (A : accepts (DisjunctiveVerify sh (Some (d h1)) specZk (pt Htab) (pt Htab) (pt Hgen) (pt CG))).
    { unfold d. apply (disj_accepts sh specZk S); try isp. split; [exact (fs_of _ _ _ E1)|]. split; [rewrite Z.add_0_r; apply Z.mod_small, ch_range|].
      rewrite eff_Htab, eff_Hgen, smul_0. split; left.
      - rewrite <- smul_add by isp. reflexivity.
      - rewrite (padd_O_l (smul 5 Htab)). reflexivity. }
    unfold accepts in A. destruct (DisjunctiveVerify _ _ _ _ _ _ _) as [[b [e|]]|]; [destruct b; discriminate A|exists b; reflexivity|discriminate A].
  - rewrite eff_Htab. split; left.
    + rewrite (Z.add_comm 7), smul_add by isp. apply swap3; isp.
    + rewrite <- !smul_add by isp. f_equal. ring.
Qed.
