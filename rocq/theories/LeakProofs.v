(** * Proofs about what the proofs reveal (proof only) *)
From Coq Require Import ZArith List Lia Bool.
From Verif Require Import Go Wire Big Crypto Spec FieldP CurveGroup Order FieldN CurveZ SpecZk ZkBase PointProofs GspfsProofs
  EqConsProofs Range SpecRange RangeProofs SpecLeak Disjunctive DisjProofs Abc AbcProofs.
Import ListNotations.
Open Scope Z_scope.

Lemma resp_one_gen n k e v : 0 <= k < n -> 0 <= e < n -> 0 <= v < n -> k + e * v < n * n.
Proof. intros. assert (e * v <= (n - 1) * (n - 1)) by (apply Z.mul_le_mono_nonneg; lia). lia. Qed.
Lemma quot_one_gen n k e v : 0 <= k < n -> n < 2 * e -> v = (k + e * v) / e \/ v = (k + e * v) / e - 1.
Proof.
  intros Hk He. rewrite (Z.mul_comm e v), Z.div_add by lia.
  assert (0 <= k / e) by (apply Z.div_pos; lia). assert (k / e < 2) by (apply Z.div_lt_upper_bound; lia). lia.
Qed.
Lemma quot_zero_gen n j k w : 0 <= j < n -> 0 <= k < n -> n * n <= j + k * w -> (j + k * w) / w = k.
Proof.
  intros Hj Hk H. assert (n <= w). { destruct (Z_lt_le_dec w n) as [L|L]; [exfalso|exact L].
    assert (k * w <= (n - 1) * (n - 1)) by (destruct (Z_lt_le_dec w 0); [assert (k * w <= 0) by (apply Z.mul_nonneg_nonpos; lia); assert (0 <= (n - 1) * (n - 1)) by (apply Z.mul_nonneg_nonneg; lia); lia|apply Z.mul_le_mono_nonneg; lia]). lia. }
  rewrite Z.div_add by lia. rewrite Z.div_small by lia. reflexivity.
Qed.

Lemma honS_one sha e i d1 d2 j : scalar e -> scalar d1 -> scalar d2 -> honS sha e i true d1 d2 j < N * N.
Proof. intros He H1 H2. unfold honS. apply resp_one_gen; assumption. Qed.

Lemma ring_read sha e i b d1 d2 j : scalar e -> N < 2 * e -> scalar d1 -> scalar d2 -> scalar j -> honOk sha e i b d1 j ->
  (b = false -> N * N <= honS sha e i b d1 d2 j) ->
  readBit (honS sha e i b d1 d2 j) = (if b then 1 else 0) /\
  (honV sha e i b d1 j = readBlind sha e i (honC sha e i b d1 j) (honS sha e i b d1 d2 j) \/
   honV sha e i b d1 j = readBlind sha e i (honC sha e i b d1 j) (honS sha e i b d1 d2 j) - 1).
Proof.
  intros He E2 H1 H2 Hj (P1 & P2 & P3) Big. unfold readBit, readBlind. destruct b.
  - pose proof (honS_one sha e i d1 d2 j He H1 H2) as L. apply Z.leb_gt in L. rewrite L. split; [reflexivity|].
    apply (quot_one_gen N); assumption.
  - specialize (Big eq_refl). pose proof Big as B. apply Z.leb_le in B. rewrite B. split; [reflexivity|]. left.
    unfold ringT. rewrite eff_plain by (isp || exact P2 || idtac; pose proof (hon_C_point sha e i false d1 j); isp).
    cbn [honC honS honV] in *. rewrite ring_zero. fold (honH sha e i j).
    rewrite (quot_zero_gen N); [reflexivity|exact Hj|exact H1|exact Big].
Qed.

Lemma readValue_run sha e value d1 d2 j m : forall n,
  (forall i, (n <= i < n + m)%nat -> readBit (honS sha e i (rangeBit value i) (d1 i) (d2 i) (j i)) = if rangeBit value i then 1 else 0) ->
  readValue n (map (fun i => (honC sha e i (rangeBit value i) (d1 i) (j i), honS sha e i (rangeBit value i) (d1 i) (d2 i) (j i))) (seq n m)) =
  zsum (map (fun i => if rangeBit value i then 2 ^ Z.of_nat i else 0) (seq n m)).
Proof.
  induction m as [|m IH]; intros n H; [reflexivity|]. cbn [seq map readValue zsum]. rewrite H by lia. rewrite IH by (intros; apply H; lia).
  destruct (rangeBit value n); lia.
Qed.

(** an example with a 0 bit: the value 2^40 - 2 and a hash that is always N - 1 *)
Lemma pred_bits i : (0 < i < 40)%nat -> rangeBit (2 ^ 40 - 2) i = true.
Proof.
  intros H. unfold rangeBit. replace (2 ^ 40 - 2) with (Z.lnot 0 * 0 + 2 * Z.ones 39) by reflexivity.
  change (Z.lnot 0 * 0 + 2 * Z.ones 39) with (2 * Z.ones 39). rewrite <- (Z.succ_pred (Z.of_nat i)), Z.double_bits_succ. apply Z.ones_spec_low. lia.
Qed.
Lemma ninv_m1 : ninv (N - 1) = N - 1.
Proof.
  assert (D : (N - 1) mod N <> 0) by discriminate. pose proof (ninv_ok (N - 1) D) as E. pose proof (ninv_scalar (N - 1)) as [L M].
  revert E L M. generalize (ninv (N - 1)). intros x E L M.
  assert (X : x <> 0) by (intros ->; discriminate E).
  replace (x * (N - 1)) with ((N - x) + (x - 1) * N) in E by ring. rewrite Z_mod_plus_full, Z.mod_small in E by lia. lia.
Qed.
Lemma digest_shaC c m v d1 d2 : 0 <= c < 2 ^ 256 -> honDigest (shaC c) m v d1 d2 = c.
Proof. intros H. unfold honDigest. apply hs_shaC. exact H. Qed.
Lemma big_gen n k : 4 <= n -> 2 <= k -> n * n <= 7 + k * ((n - 1) * (n - 1)).
Proof.
  intros Hn Hk. assert (A : 0 <= (n - 1) * (n - 1)) by (apply Z.mul_nonneg_nonneg; lia).
  assert (B : 2 * ((n - 1) * (n - 1)) <= k * ((n - 1) * (n - 1))) by (apply Z.mul_le_mono_nonneg_r; assumption). nia.
Qed.
Lemma ge2 k : 1 <= k -> k <> 1 -> 2 <= k. Proof. lia. Qed.
Lemma ge1 k : 0 <= k -> k <> 0 -> 1 <= k. Proof. lia. Qed.
Lemma multiple_ge2 : exists k a, scalar k /\ 2 <= k /\ (a = 2 \/ a = 3) /\ smul k Htab = smul a G.
Proof.
  assert (K : forall a, a mod N <> 0 -> exists k, scalar k /\ 1 <= k /\ smul k Htab = smul a G).
  { intros a Ha. destruct (Htab_gen a) as [k Ek]. exists (k mod N).
    assert (B : scalar (k mod N)) by (apply Z.mod_pos_bound; reflexivity). split; [exact B|].
    assert (E : smul (k mod N) Htab = smul a G) by (rewrite smul_mod by isp; exact Ek). split; [|exact E].
    destruct (Z.eq_dec (k mod N) 0) as [Z0|Z0]; [exfalso|exact (ge1 _ (proj1 B) Z0)].
    rewrite Z0, smul_0 in E. rewrite <- (smul_0 G) in E. apply smul_G_inj in E. rewrite Zmod_0_l in E. exact (Ha (eq_sym E)). }
  destruct (K 2) as (k & S1 & L1 & E1); [discriminate|]. destruct (Z.eq_dec k 1) as [->|D].
  - destruct (K 3) as (k & S2 & L2 & E2); [discriminate|]. exists k, 3. split; [exact S2|]. split; [|split; [right; reflexivity|exact E2]].
    destruct (Z.eq_dec k 1) as [->|D2]; [exfalso|exact (ge2 _ L2 D2)]. rewrite E1 in E2. apply smul_G_inj in E2. discriminate E2.
  - exists k, 2. split; [exact S1|]. split; [exact (ge2 _ L1 D)|]. split; [left; reflexivity|exact E1].
Qed.
Lemma leak_example : exists k, scalar k /\
  let d1 := fun i : nat => match i with 0%nat => k | _ => 0 end in
  goodDraws (shaC (N - 1)) 40 (2 ^ 40 - 2) d1 (fun _ => 5) (fun _ => 7) /\
  forall i, rangeBit (2 ^ 40 - 2) i = false -> (i < 40)%nat ->
    N * N <= honS (shaC (N - 1)) (N - 1) i false (d1 i) 5 7.
Proof.
  destruct multiple_ge2 as (k & a & Sk & Lk & Ha & Ek). exists k. split; [exact Sk|]. cbv zeta.
  assert (B1 : 0 <= N - 1 < 2 ^ 256) by (split; [discriminate|reflexivity]).
  assert (HD : forall d1, honDigest (shaC (N - 1)) 40 (2 ^ 40 - 2) d1 (fun _ => 5) mod N = N - 1)
    by (intros d1; rewrite (digest_shaC (N - 1) 40 (2 ^ 40 - 2) d1 (fun _ => 5) B1); reflexivity).
  assert (Hh : forall i j, honH (shaC (N - 1)) (N - 1) i j = N - 1) by (intros; unfold honH; apply hs_shaC; exact B1).
  split.
  - intros i Hi. rewrite HD. destruct i as [|i].
    + change (rangeBit (2 ^ 40 - 2) 0) with false. unfold honOk, honC. rewrite Hh, ninv_m1, Ek.
      rewrite <- smul_mul by isp. change (2 ^ Z.of_nat 0) with 1. rewrite <- smul_opp, <- smul_add by isp.
      assert (E : forall b, smul ((N - 1) * a + b) G = smul (b - a) G).
      { intros b. apply smul_G_inj. replace ((N - 1) * a + b) with (b - a + a * N) by ring. apply Z_mod_plus_full. }
      rewrite E. rewrite <- (Z.add_0_r ((N - 1) * a)), E.
      split; [apply plain_small; lia|]. split; [apply plain_small; lia|]. intros _. split; [apply plain_small; lia|discriminate].
    + rewrite pred_bits by lia. unfold honOk, honC, honC1. rewrite smul_0, padd_O_r.
      pose proof (pow_small (Datatypes.S i) ltac:(lia)) as B. split; [apply plain_small; lia|]. split; [|discriminate].
      rewrite padd_pneg_r by isp. rewrite O_smul. apply plain_small; lia.
  - intros i Hb Hi. destruct i as [|i]; [|rewrite pred_bits in Hb by lia; discriminate Hb].
    unfold honS. rewrite Hh, ninv_m1. apply big_gen; [discriminate|exact Lk].
Qed.

(** an ABC run for the value 0, as the example needs it *)
Lemma abc_left_run sha zk CM CT sk u1 u2 u3 ub uc d1 d2 d3 dc c1 x : std zk -> is_point CM -> is_point CT ->
  fst (smul sk (eff CM)) = fst CT -> (forall ps, fs sha ps = dc) -> (dc - d3) mod N = c1 -> sk mod N = x -> x <> 0 ->
  exists B C T1 T2 c j k l tok D1 D2,
  NewABCProof sha zk (pt CM) (pt CT) (Some 0) (Some sk) Left
    (Build_abcRand (Some u1) (Some u2) (Some u3) (Some ub) (Some uc) (Some d1) (Some d2) (Some d3)) =
  Ok (Some (MkABC B C T1 T2 c j k l tok (Some (MkDisj D1 D2 (Some dc) (Some c1) (Some d3) (Some (d1 + c1 * x)) (Some d2)))), None).
Proof.
  intros S H1 H2 Q F E1 E2 X. fold (abcRn u1 u2 u3 ub uc (Some d1) (Some d2) (Some d3)). rewrite (abc_left sha zk S) by assumption.
  rewrite (disj_prove_left sha zk S) by isp. rewrite Q, Z.eqb_refl. cbv zeta. rewrite F, E1, E2. cbn [abcDisj bind snd fst].
  apply Z.eqb_neq in X. rewrite X. unfold abcOut. do 11 eexists. reflexivity.
Qed.

(** the response l of an inequality proof *)
Lemma ineq_l sha zk A B TA TB a b sk u1 u2 u3 ub uc d1 d2 d3 B' C T1 T2 c j k l tok dj : std zk ->
  is_point A -> is_point B -> is_point TA -> is_point TB ->
  NewInequalityProof sha zk (pt A) (pt B) (pt TA) (pt TB) (Some a) (Some b) (Some sk)
    (Build_abcRand (Some u1) (Some u2) (Some u3) (Some ub) (Some uc) d1 d2 d3) =
    Ok (Some (MkABC B' C T1 T2 (Some c) j k (Some l) tok dj), None) ->
  l = u3 + (uc - (a - b) * ub) * c /\ scalar c.
Proof.
  intros S HA HB HTA HTB E. fold (abcRn u1 u2 u3 ub uc d1 d2 d3) in E. unfold NewInequalityProof in E. cbn [need bind] in E.
  destruct (Z.eqb_spec a b) as [|D]; [discriminate E|]. rewrite !(Sub_ok zk S) in E by isp. cbn [bind] in E.
  assert (V : a - b <> 0) by (clear -D; lia).
  destruct (Z.eq_dec ((a - b) mod N) 0) as [VN|VN].
  - rewrite (abc_right_panic sha zk S) in E by assumption. discriminate E.
  - rewrite (abc_right sha zk S) in E by (isp || assumption).
    destruct (NewDisjunctiveProof _ _ _ _ _ _ _ _ _ _ _) as [[d [er|]]|]; try discriminate E. cbn [abcDisj bind snd fst] in E.
    destruct (sk mod N =? 0); [discriminate E|]. cbn [bind snd fst] in E. apply Ok_inj in E. unfold abcOut in E.
    match type of E with context [fs sha ?ps] => set (f := fs sha ps) in E; assert (F : scalar f) by (apply Z.mod_pos_bound; reflexivity) end.
    clearbody f. assert (c = f) by congruence. subst f. split; [congruence|exact F].
Qed.
Lemma sign_gen n u3 u c v ub : 0 <= u3 < n -> 0 <= u -> 0 <= c -> 0 <= ub ->
  (u3 + (u - v * ub) * c < 0 -> 0 < v) /\ (n + u <= v * ub -> 0 < c -> u3 + (u - v * ub) * c < 0).
Proof.
  intros H3 Hu Hc Hb. split.
  - intros H. destruct (Z_lt_le_dec 0 v) as [L|L]; [exact L|exfalso].
    assert (A : v * ub <= 0) by (apply Z.mul_nonpos_nonneg; lia). assert (B : 0 <= (u - v * ub) * c) by (apply Z.mul_nonneg_nonneg; lia). lia.
  - intros H Hc1. assert (A : n <= v * ub - u) by lia. assert (B : n * 1 <= (v * ub - u) * c) by (apply Z.mul_le_mono_nonneg; lia).
    replace ((u - v * ub) * c) with (- ((v * ub - u) * c)) by ring. lia.
Qed.
Lemma ineq_run sha zk A B TA TB a b sk u1 u2 u3 ub uc d1 d2 d3 c : std zk ->
  is_point A -> is_point B -> is_point TA -> is_point TB -> (a - b) mod N <> 0 -> sk mod N <> 0 -> (forall ps, fs sha ps = c) ->
  exists B' C T1 T2 j k tok dj,
  NewInequalityProof sha zk (pt A) (pt B) (pt TA) (pt TB) (Some a) (Some b) (Some sk)
    (Build_abcRand (Some u1) (Some u2) (Some u3) (Some ub) (Some uc) (Some d1) (Some d2) (Some d3)) =
    Ok (Some (MkABC B' C T1 T2 (Some c) j k (Some (u3 + (uc - (a - b) * ub) * c)) tok dj), None).
Proof.
  intros S HA HB HTA HTB D K F. fold (abcRn u1 u2 u3 ub uc (Some d1) (Some d2) (Some d3)). unfold NewInequalityProof. cbn [need bind].
  destruct (Z.eqb_spec a b) as [E|_]; [exfalso; apply D; rewrite E, Z.sub_diag; reflexivity|]. rewrite !(Sub_ok zk S) by isp. cbn [bind].
  rewrite (abc_right sha zk S) by (isp || assumption). rewrite (disj_prove_right sha zk S) by isp.
  rewrite ped_sub_G, eff_Hgen, Z.eqb_refl. cbv zeta. cbn [abcDisj bind snd fst]. apply Z.eqb_neq in K. rewrite K. cbn [bind snd fst].
  unfold abcOut. rewrite F. do 8 eexists. reflexivity.
Qed.
