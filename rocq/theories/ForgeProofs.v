(** * Forged proofs are accepted *)
From Coq Require Import ZArith List Lia Bool.
From Verif Require Import NumTheory Go Wire Big Crypto Spec FieldP FieldN CurveZ CurveGroup EndoP Order Lambda
  SpecZk CodecProofs ZkBase PointProofs Gspfs GspfsProofs Equivalence Consistency EqConsProofs Disjunctive DisjProofs PropDisj Abc AbcProofs
  Range SpecRange RangeProofs SpecForge.
Import ListNotations.
Open Scope Z_scope.

Lemma Hgen_log : Hgen = smul logH G. Proof. exact Hgen_dlog. Qed.
Lemma forge0 : forgeC (fun _ => 0) 0 = ped (1 + logH) 0.
Proof.
  unfold forgeC, ped. rewrite smul_0, padd_O_r, Hgen_log. rewrite smul_add, smul_1 by isp. reflexivity.
Qed.
Lemma is_point_forgeC x i : is_point (forgeC x i).
Proof. unfold forgeC, ped. destruct i; isp. Qed.
Lemma smul_inj_plain m : m mod N <> (-1) mod N -> m mod N <> logH mod N -> m mod N <> (- logH) mod N -> plain (smul m G).
Proof.
  intros H1 H2 H3. assert (EG : smul (-1) G = pneg G) by (change (-1) with (Z.opp 1); rewrite smul_opp, smul_1 by isp; reflexivity).
  unfold plain. rewrite <- EG, Hgen_log, <- smul_opp by isp.
  repeat split; intros E; apply smul_G_eq_inv in E; apply nz_eq_iff in E; contradiction.
Qed.
Lemma plain_forge0 : plain (padd G Hgen).
Proof.
  rewrite Hgen_log. rewrite <- (smul_1 G) at 1. rewrite <- smul_add by isp.
  apply smul_inj_plain; vm_compute; discriminate.
Qed.
Lemma forge_ring sha e x k i : (i <> 0%nat -> plain (forgeC x i) /\ plain (smul (x i) Htab)) ->
  ringR sha e i (forgeC x i) (forgeS e x k i) = smul (hs sha [smul (k i) Htab]) (forgeC x i).
Proof.
  intros Hp. assert (T : ringT e i (forgeC x i) (forgeS e x k i) = smul (k i) Htab).
  { unfold ringT. destruct i as [|i].
    - change (2 ^ Z.of_nat 0) with 1. rewrite smul_1. unfold forgeC, forgeS. rewrite ring_tail by isp. rewrite eff_Hgen.
      rewrite <- (Z.mul_1_r e) at 1. rewrite <- (smul_1 Htab) at 2. apply ring_one.
    - destruct (Hp ltac:(discriminate)) as [P1 P2]. unfold forgeC, forgeS, ped. rewrite ring_tail by isp.
      rewrite eff_plain by (isp || exact P2). apply ring_one. }
  unfold ringR. rewrite T. f_equal. destruct i as [|i].
  - apply eff_plain; [apply is_point_forgeC|exact plain_forge0].
  - apply eff_plain; [apply is_point_forgeC|exact (proj1 (Hp ltac:(discriminate)))].
Qed.
Lemma forge_sum_from x n : forall a, (1 <= a)%nat ->
  psum (map (forgeC x) (seq a n)) = ped (2 ^ Z.of_nat (a + n) - 2 ^ Z.of_nat a) (zsum (map x (seq a n))).
Proof.
  induction n as [|n IH]; intros a Ha; cbn [seq map psum zsum].
  - rewrite Nat.add_0_r, Z.sub_diag. symmetry. exact ped_0_r.
  - rewrite IH by lia. destruct a as [|a]; [lia|]. unfold forgeC at 1. rewrite ped_add. f_equal.
    replace (Datatypes.S (Datatypes.S a) + n)%nat with (Datatypes.S a + Datatypes.S n)%nat by lia.
    rewrite (Nat2Z.inj_succ (Datatypes.S a)), Z.pow_succ_r by lia. lia.
Qed.
Lemma forge_sum m x : (1 <= m)%nat -> psum (map (forgeC x) (seq 0 m)) = ped (forgeValue m) (forgeBlind m x).
Proof.
  intros Hm. destruct m as [|m]; [lia|]. cbn [seq map psum]. rewrite forge_sum_from by lia.
  change (forgeC x 0) with (forgeC (fun _ => 0) 0). rewrite forge0, ped_add. unfold forgeValue, forgeBlind.
  replace (Datatypes.S m - 1)%nat with m by lia. change (1 + m)%nat with (Datatypes.S m). f_equal.
  change (2 ^ Z.of_nat 1) with 2. ring.
Qed.
Lemma forge_range sha zk m x k : std zk -> (1 <= m <= 64)%nat ->
  (forall i, (1 <= i < m)%nat -> plain (forgeC x i) /\ plain (smul (x i) Htab)) ->
  let C := ped (forgeValue m) (forgeBlind m x) in
  accepts (RangeVerify sha (Some (MkRange (pt C) (Some (forgeE sha m x k)) (tuples (forgeCs sha m x k)))) zk (pt C)).
Proof.
  intros S Hm Hp. cbv zeta. assert (L : length (forgeCs sha m x k) = m) by (unfold forgeCs; rewrite map_length; apply seq_length).
  assert (F : map fst (forgeCs sha m x k) = map (forgeC x) (seq 0 m)) by (unfold forgeCs; rewrite map_map; reflexivity).
  apply (range_accepts sha zk S); [unfold ped; isp|unfold ped; isp| |lia|].
  - unfold forgeCs. apply Forall_map, Forall_forall. intros i _. apply is_point_forgeC.
  - rewrite F, forge_sum by lia. split; [|split; left; reflexivity].
    unfold forgeCs. rewrite rings_map. unfold forgeE at 1. f_equal. apply map_ext_in. intros i Hi. apply in_seq in Hi.
    symmetry. apply forge_ring. intros H0. apply Hp. lia.
Qed.

(** ** Points that Mult replaces by H' *)
Lemma pm_eq_l p q : p = q -> pm p q. Proof. intros ->. left. reflexivity. Qed.
Lemma forge_equiv sha zk B2 u : std zk -> is_point B2 -> plain B2 ->
  let U1 := smul u Htab in let U2 := smul u B2 in let c := fs sha [Htab; Hgen; B2; B2; U1; U2] in
  accepts (EquivalenceVerify sha (Some (MkEquiv (pt U1) (pt U2) (Some c) (Some (u + c)))) zk (pt Htab) (pt Hgen) (pt B2) (pt B2)).
Proof.
  intros S HB PB U1 U2 c. apply (equiv_accepts sha zk S); try (unfold U1, U2; isp). split; [reflexivity|].
  rewrite eff_Hgen, (eff_plain Htab), (eff_plain B2) by (isp || exact plain_Htab || exact PB).
  split; apply pm_eq_l; rewrite smul_add by isp; reflexivity.
Qed.
Lemma Hgen_Htab : Hgen <> Htab /\ Hgen <> pneg Htab.
Proof. split; intros E; apply (f_equal fst) in E; discriminate E. Qed.
Lemma forge_equiv_false B2 x : on_curve B2 -> pm (smul x B2) B2 -> pm (smul x Htab) Hgen -> False.
Proof.
  intros HB E1 E2. assert (IB : is_point B2) by (right; exact HB).
  assert (Q : x mod N = 1 mod N \/ x mod N = (-1) mod N).
  { destruct E1 as [E|E].
    - left. rewrite <- (smul_1 B2) in E at 1. apply smul_inj_pt in E; [symmetry; exact E|exact HB].
    - right. rewrite <- smul_opp in E by isp. rewrite <- (smul_1 B2) in E at 1. apply smul_inj_pt in E; [|exact HB].
      apply nz_eq_iff. apply nz_eq_iff in E. nzpush_in E. nzpush. lin E n1. }
  assert (K : smul x Htab = Htab \/ smul x Htab = pneg Htab).
  { destruct Q as [Q|Q]; [left|right]; rewrite <- smul_mod, Q, smul_mod by isp; [apply smul_1|].
    change (-1) with (Z.opp 1). rewrite smul_opp, smul_1 by isp. reflexivity. }
  destruct Hgen_Htab as [N1 N2]. destruct E2 as [E|E]; destruct K as [K|K]; rewrite K in E; try contradiction.
Qed.
Lemma forge_cons sha zk PK u1 u2 : std zk -> is_point PK -> plain PK ->
  let T1 := ped u1 u2 in let T2 := smul u2 PK in let c := fs sha [G; Hgen; Hgen; PK; PK; T1; T2] in
  accepts (ConsistencyVerify sha (Some (MkCons (pt T1) (pt T2) (Some c) (Some u1) (Some (u2 + c)))) zk (pt Hgen) (pt PK) (pt PK)).
Proof.
  intros S HP PP T1 T2 c. apply (cons_accepts sha zk S); try (unfold T1, T2; isp). split; [reflexivity|].
  rewrite eff_Hgen, (eff_plain PK) by (isp || exact PP). split; apply pm_eq_l.
  - unfold T1. rewrite <- ped_0_1, smul_ped, ped_add. f_equal; ring.
  - rewrite smul_add by isp. reflexivity.
Qed.
Lemma forge_abc sha zk sk u1 u2 u3 ub uc d1 d2 d3 : std zk -> sk mod N <> 0 ->
  let CM := Hgen in let CT := smul sk Htab in plain CT -> plain (ped 0 ub) -> plain (ped 0 uc) ->
  exists pf, NewABCProof sha zk (pt CM) (pt CT) (Some 0) (Some sk) Left
               (Build_abcRand (Some u1) (Some u2) (Some u3) (Some ub) (Some uc) (Some d1) (Some d2) (Some d3)) = Ok (Some pf, None) /\
             accepts (ABCVerify sha (Some pf) zk (pt CM) (pt CT)).
Proof.
  intros S Hs CM CT P2 P3 P4. assert (H1 : is_point CM) by (unfold CM; isp). assert (H2 : is_point CT) by (unfold CT; isp).
  fold (abcRn u1 u2 u3 ub uc (Some d1) (Some d2) (Some d3)). rewrite (abc_left sha zk S) by assumption.
  assert (EC : CT = smul sk (eff CM)) by reflexivity.
  destruct (C32_disjunctive_complete_left sha zk CM Hgen (padd (ped 0 uc) (pneg G)) sk d1 d2 d3 S) as (dj & E & A); try isp.
  { rewrite <- EC. exact P2. }
  rewrite <- EC in E, A. rewrite E. cbn [abcDisj bind snd fst]. pose proof Hs as Hs'. apply Z.eqb_neq in Hs'. rewrite Hs'. eexists. split; [reflexivity|].
  unfold abcOut. apply (abc_verify sha zk S); try isp. split; [exists true; exact A|]. split; [reflexivity|].
  change (eff CM) with Htab. rewrite (eff_plain CT), (eff_plain (ped 0 ub)), (eff_plain (ped 0 uc)) by (isp || assumption).
  split; left; [|apply abc_eq2; reflexivity].
  pose proof (abc_eq1 0 1 sk u1 u2 (fs sha [G; Hgen; CM; CT; ped 0 ub; ped 0 uc; padd (smul u1 G) (smul u2 CT); padd (smul u1 (ped 0 ub)) (smul u3 Htab)]) Hs) as Q.
  cbv zeta in Q. rewrite smul_1, ped_0_1 in Q. exact Q.
Qed.
