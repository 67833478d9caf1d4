(** * Proofs about points, commitments and the initialised parameters (proof only) *)
From Coq Require Import ZArith List Bool Lia Field.
From Verif Require Import NumTheory Go Wire Big Crypto Spec FieldP FieldN CurveZ CurveGroup EndoP Order Lambda
  SpecZk CodecProofs ZkBase Sha256 Zksigma.
Import ListNotations.
Open Scope Z_scope.

(** a curve object that computes with the specification itself, so that [std] is
    inhabited independently of btcec *)
Definition specCurve : curve := {|
  cP := P; cN := N;
  cAdd := fun x1 y1 x2 y2 => Ok (padd (x1, y1) (x2, y2));
  cScalarMult := fun x y k => Ok (smul (beval k) (x, y));
  cScalarBaseMult := fun k => Ok (smul (beval k) G);
  cScalarBaseMultH := fun k => Ok (smul (beval k) Htab);
  cIsOnCurve := fun x y => Ok ((y ^ 2 - (x ^ 3 + 7)) mod P =? 0) |}.
Lemma specCurve_ok : curve_ok specCurve.
Proof. constructor; try reflexivity; intros; cbn [specCurve cAdd cScalarMult]; rewrite <- ?surjective_pairing; reflexivity. Qed.
Definition specZk : zkparams := ZK specCurve (pt G) (pt Hgen) (map (fun i => pt (smul (2 ^ Z.of_nat i) G)) (seq 0 64)).
Lemma specZk_std : std specZk.
Proof. constructor; [exact specCurve_ok|reflexivity|reflexivity|reflexivity]. Qed.

Lemma pneg_neq p : on_curve p -> pneg p <> p.
Proof.
  intros H E. assert (Hp : is_point p) by (right; exact H).
  pose proof (padd_pneg_r p Hp) as Z0. rewrite E in Z0. apply two_torsion in Z0; [|exact Hp].
  apply (on_curve_nz p H Z0).
Qed.

Lemma x_neq (p q : point) : fst p <> fst q -> p <> q. Proof. congruence. Qed.
Lemma plain_x p : fst p <> Gx -> fst p <> fst Hgen -> plain p.
Proof. intros H1 H2. repeat split; apply x_neq; cbn [pneg fst]; assumption. Qed.
Lemma plain_G : plain G.
Proof.
  split; [intros E; symmetry in E; exact (pneg_neq G GMult.G_on_curve E)|].
  split; apply x_neq; discriminate.
Qed.
Lemma plain_O : plain O. Proof. apply plain_x; discriminate. Qed.
Lemma plain_Htab : plain Htab. Proof. apply plain_x; discriminate. Qed.
Lemma ped_add v r v' r' : padd (ped v r) (ped v' r') = ped (v + v') (r + r').
Proof. destruct (dlog Htab is_point_Htab) as [h E]. unfold ped. rewrite E. gpush. f_equal. ring. Qed.
Lemma ped_neg v r : pneg (ped v r) = ped (- v) (- r).
Proof. destruct (dlog Htab is_point_Htab) as [h E]. unfold ped. rewrite E. gpush. f_equal. ring. Qed.
Lemma ped_mod v r : ped (v mod N) (r mod N) = ped v r.
Proof. unfold ped. rewrite !smul_mod by isp. reflexivity. Qed.
Lemma ped_0_r : ped 0 0 = O. Proof. reflexivity. Qed.

Lemma Htab_dlog_nz h : Htab = smul h G -> nz h <> n0.
Proof.
  intros E Z0. apply (on_curve_nz Htab Htab_on_curve). rewrite E. change O with (smul 0 G). apply smul_G_eq. exact Z0.
Qed.
Lemma ped_inj_r v r r' : ped v r = ped v r' <-> r mod N = r' mod N.
Proof.
  split.
  - intros E. unfold ped in E. apply padd_cancel in E; try isp. apply smul_inj_pt in E; [exact E|exact Htab_on_curve].
  - intros E. rewrite <- ped_mod, E, ped_mod. reflexivity.
Qed.
Lemma ped_hiding c v : is_point c -> exists! r, scalar r /\ ped v r = c.
Proof.
  intros Hc. destruct (dlog Htab is_point_Htab) as [h E]. destruct (dlog c Hc) as [k ->].
  pose proof (Htab_dlog_nz h E) as Hh.
  exists (((k - v) * ninv h) mod N). split; [split|].
  - apply Z.mod_pos_bound. exact N_pos.
  - unfold ped. rewrite E. gpush. apply smul_G_eq. nzpush. field. exact Hh.
  - intros r [Hr Er]. apply nv_mod_eq; [exact Hr|]. unfold ped in Er. rewrite E in Er. gpush_in Er.
    apply smul_G_eq_inv in Er. nzpush_in Er. nzpush. rewrite <- Er. field. exact Hh.
Qed.

Lemma ped_binding v1 r1 v2 r2 : v1 mod N <> v2 mod N -> v1 mod N <> (- v2) mod N ->
  pm (ped v1 r1) (ped v2 r2) ->
  Htab = smul (((v1 - v2) * ninv (r2 - r1)) mod N) G \/
  Htab = smul ((- (v1 + v2) * ninv (r1 + r2)) mod N) G.
Proof.
  intros H1 H2 H. destruct (dlog Htab is_point_Htab) as [h E].
  apply nz_neq in H1. apply nz_neq in H2. rewrite nz_opp in H2. destruct H as [H|H].
  - left. rewrite E at 1. apply smul_G_eq. unfold ped in H. rewrite E in H. gpush_in H. apply smul_G_eq_inv in H. nzpush_in H.
    assert (K : nsub (nz v1) (nz v2) = nmul (nsub (nz r2) (nz r1)) (nz h)).
    { transitivity (nsub (nadd (nz v1) (nmul (nz r1) (nz h))) (nadd (nz v2) (nmul (nz r1) (nz h)))); [ring|rewrite <- H; ring]. }
    nzpush. rewrite K. field. intros Z0. apply H1. rewrite K, Z0. ring.
  - right. rewrite E at 1. apply smul_G_eq. unfold ped in H. rewrite E in H. gpush_in H. apply smul_G_eq_inv in H. nzpush_in H.
    assert (K : nadd (nz v1) (nz v2) = nopp (nmul (nadd (nz r1) (nz r2)) (nz h))).
    { transitivity (nsub (nadd (nz v2) (nmul (nz r2) (nz h))) (nadd (nopp (nz v1)) (nmul (nz r2) (nz h)))); [ring|rewrite H; ring]. }
    nzpush. rewrite K. field. intros Z0. apply H2.
    transitivity (nadd (nz v1) (nz v2)); [ring|]. rewrite K, Z0. ring.
Qed.

(** ** init *)
Lemma init_scalar : beval (initString ++ sha256 []) mod N = hk mod N.
Proof. rewrite sha256_empty. vm_compute. reflexivity. Qed.
Lemma smul_cong k k' Q : k mod N = k' mod N -> Q = smul k' G -> Ok (smul k G) = Ok Q.
Proof. intros E ->. rewrite <- (smul_mod k), E, smul_mod by isp. reflexivity. Qed.
Lemma init_H c : curve_ok c -> cScalarMult c Gx Gy (initString ++ sha256 []) = Ok Hgen.
Proof.
  intros C. transitivity (Ok (smul (beval (initString ++ sha256 [])) G)); [apply (ok_mul c C G)|exact (smul_cong _ _ _ init_scalar H_dlog)].
  - isp.
  - unfold bytes_ok. rewrite sha256_empty. repeat (constructor; [split; [discriminate|reflexivity]|]). constructor.
Qed.
Lemma shl_abs i : 0 <= i < 64 -> Z.abs (shlInt64 i) = 2 ^ i.
Proof.
  intros Hi. unfold shlInt64. rewrite Z.mod_small by (split; [apply Z.pow_nonneg; lia|apply Z.pow_lt_mono_r; lia]).
  destruct (Z.ltb_spec (2 ^ i) (2 ^ 63)) as [H|H].
  - apply Z.abs_eq. apply Z.pow_nonneg; lia.
  - apply Z.pow_le_mono_r_iff in H; [|lia|lia]. replace i with 63 by lia. reflexivity.
Qed.
Lemma generate_ok c : curve_ok c ->
  generateH2tothe c = Ok (map (fun i => pt (smul (2 ^ Z.of_nat i) G)) (seq 0 64)).
Proof.
  intros C. unfold generateH2tothe.
  assert (A : forall l, Forall (fun i => (i < 64)%nat) l ->
    mapR (fun i => xy <- cScalarBaseMult c (bigBytes (shlInt64 (Z.of_nat i))); Ok (mkPoint xy)) l =
    Ok (map (fun i => pt (smul (2 ^ Z.of_nat i) G)) l)).
  { induction l as [|i t IH]; intros Hl; [reflexivity|]. inversion Hl; subst. cbn [mapR map].
    rewrite (ok_base c C) by apply bigBytes_ok. cbn [bind]. rewrite beval_bigBytes, shl_abs by lia.
    rewrite IH by assumption. reflexivity. }
  apply A. apply Forall_forall. intros i Hi. apply in_seq in Hi. lia.
Qed.
Lemma init_std c zk : curve_ok c -> initTestCurve sha256 c Gx Gy = Ok zk -> std zk.
Proof.
  intros C. unfold initTestCurve. rewrite init_H by exact C. cbn [bind]. rewrite generate_ok by exact C. cbn [bind].
  intros E. apply Ok_inj in E. subst zk. constructor; [exact C|reflexivity|reflexivity|reflexivity].
Qed.

(** ** Transcripts of points with full-size coordinates *)
Definition full (z : Z) : Prop := 2 ^ 248 <= z < 2 ^ 256.
Lemma bigBytes_full z : full z -> length (bigBytes z) = 32%nat.
Proof.
  intros [L U]. unfold bigBytes. rewrite be_bytes_len. unfold byteLen. assert (0 < 2 ^ 248) by reflexivity. rewrite Z.abs_eq by lia.
  destruct (Z.leb_spec z 0); [lia|]. assert (G1 : 248 <= Z.log2 z) by (apply Z.log2_le_pow2; lia).
  assert (G2 : Z.log2 z < 256) by (apply Z.log2_lt_pow2; lia).
  replace (Z.log2 z / 8) with 31 by (apply Z.div_unique with (Z.log2 z - 248); lia). reflexivity.
Qed.
Lemma app_len_inj {A} (a b c d : list A) : length a = length c -> a ++ b = c ++ d -> a = c /\ b = d.
Proof.
  revert c. induction a as [|x a IH]; intros [|y c] L E; try discriminate L; [split; [reflexivity|exact E]|].
  injection L as L. injection E as -> E. destruct (IH c L E) as [-> ->]. split; reflexivity.
Qed.
Fixpoint ptsBytes (ps : list point) : list Z :=
  match ps with [] => [] | p :: t => bigBytes (fst p) ++ bigBytes (snd p) ++ ptsBytes t end.
Lemma Challenge_bytes sha zk ps : Challenge sha zk (map pt ps) = Ok (beval (sha (ptsBytes ps)) mod cN (zC zk)).
Proof.
  unfold Challenge. assert (K : exists bs, allBytes (map pt ps) = Ok bs /\ concat bs = ptsBytes ps).
  { induction ps as [|p t (bs & E & F)]; [exists []; split; reflexivity|]. cbn [map allBytes]. unfold pBytes, pt at 1 2. cbn [pX pY need bind]. rewrite E.
    cbn [bind]. eexists. split; [reflexivity|]. cbn [concat ptsBytes]. rewrite F, <- app_assoc. reflexivity. }
  destruct K as (bs & -> & E). cbn [bind]. unfold GenerateChallenge. rewrite E. reflexivity.
Qed.
Lemma ptsBytes_inj ps : forall qs, (forall p, In p ps \/ In p qs -> full (fst p) /\ full (snd p)) -> ptsBytes ps = ptsBytes qs -> ps = qs.
Proof.
  induction ps as [|[x y] ps IH]; intros [|[x' y'] qs] F E; [reflexivity| | |].
  - exfalso. apply (f_equal (@length Z)) in E. cbn [ptsBytes length] in E. rewrite app_length in E. cbn [fst] in E.
    rewrite bigBytes_full in E by apply (F (x', y') (or_intror (or_introl eq_refl))). discriminate E.
  - exfalso. apply (f_equal (@length Z)) in E. cbn [ptsBytes length] in E. rewrite app_length in E. cbn [fst] in E.
    rewrite bigBytes_full in E by apply (F (x, y) (or_introl (or_introl eq_refl))). discriminate E.
  - destruct (F (x, y) (or_introl (or_introl eq_refl))) as [A B]. destruct (F (x', y') (or_intror (or_introl eq_refl))) as [A' B'].
    cbn [ptsBytes fst snd] in *. apply app_len_inj in E; [|rewrite !bigBytes_full by assumption; reflexivity]. destruct E as [E1 E].
    apply app_len_inj in E; [|rewrite !bigBytes_full by assumption; reflexivity]. destruct E as [E2 E].
    assert (V : forall z z', full z -> full z' -> bigBytes z = bigBytes z' -> z = z').
    { intros z z' [L _] [L' _] Q. assert (0 < 2 ^ 248) by reflexivity. apply (f_equal beval) in Q. rewrite !beval_bigBytes, !Z.abs_eq in Q by lia. exact Q. }
    rewrite (V x x' A A' E1), (V y y' B B' E2). f_equal. apply IH; [|exact E]. intros p [I|I]; apply F; [left|right]; right; exact I.
Qed.
Lemma transcript_full zk ps qs : cN (zC zk) = N ->
  (forall p, In p ps \/ In p qs -> full (fst p) /\ full (snd p)) ->
  (forall sha, Challenge sha zk (map pt ps) = Challenge sha zk (map pt qs)) -> ps = qs.
Proof.
  intros EN F H. apply ptsBytes_inj; [exact F|].
  specialize (H (fun b => if list_eq_dec Z.eq_dec b (ptsBytes ps) then [1] else [0])). rewrite !Challenge_bytes, EN in H.
  destruct (list_eq_dec Z.eq_dec (ptsBytes ps) (ptsBytes ps)) as [_|X]; [|contradiction X; reflexivity].
  destruct (list_eq_dec Z.eq_dec (ptsBytes qs) (ptsBytes ps)) as [X|X]; [symmetry; exact X|].
  apply (f_equal (fun r => match r with Ok z => z | Panic => 0 end)) in H. discriminate H.
Qed.
