(** * Proofs: table multiplication, and the curve object meets curve_ok *)
From Coq Require Import ZArith List Bool Lia Field.
From Verif Require Import Spec Go Wire Big SpecZk CodecProofs Field SpecField FieldP FieldProofs NumTheory CurveZ CurveGroup Jac JacP
  EndoP Order Lambda ZkBase Koblitz SpecCurve KobProofs KobMul.
From Verif Require ECGroup.
Import ListNotations.
Open Scope Z_scope.

Lemma ejaff_def X Y Z : ejaff X Y Z = EAff (fdiv X (fmul Z Z)) (fdiv Y (fmul (fmul Z Z) Z)).
Proof. reflexivity. Qed.
Lemma represents_jr q p : represents q p -> jr q (toE p).
Proof.
  destruct q as [[x y] z]. intros (Fx & Fy & Fz & D).
  assert (PR : prep (x, y, z) (fz (val x)) (fz (val y)) (fz (val z))).
  { split; [exact (conj Fx eq_refl)|]. split; [exact (conj Fy eq_refl)|exact (conj Fz eq_refl)]. }
  exists (fz (val x)), (fz (val y)), (fz (val z)). split; [exact PR|].
  destruct D as [[-> I]|(HP & NZ & EX & EY)].
  - split; [exact Logic.I|]. left. split; [|reflexivity]. destruct I as [->|[-> ->]]; [left; reflexivity|right; split; reflexivity].
  - split; [apply is_point_eonc; right; exact HP|]. right.
    assert (NZ' : fz (val z) <> f0) by (intros E; apply fz_eq0 in E; contradiction).
    split; [exact NZ'|]. rewrite (on_curve_toE p HP), ejaff_def.
    apply fz_eq in EX, EY. replace (val z ^ 2) with (val z * val z) in EX by ring.
    replace (val z ^ 3) with (val z * val z * val z) in EY by ring. rewrite !fz_mul in EX. rewrite !fz_mul in EY. rewrite <- EX, <- EY.
    clear - NZ'. revert NZ'. generalize (fz (fst p)) (fz (snd p)) (fz (val z)). intros a b c NZ.
    f_equal; field; exact NZ.
Qed.
Lemma toE_inf p : is_point p -> toE p = EInf -> p = O.
Proof. intros [->|HP] E; [reflexivity|]. rewrite (on_curve_toE p HP) in E. discriminate. Qed.
Lemma jr_represents q p : is_point p -> jr q (toE p) -> represents q p.
Proof.
  destruct q as [[x y] z]. intros IP (X & Y & Z & (Hx & Hy & Hz) & HO & D).
  destruct Hx as [Fx Vx], Hy as [Fy Vy], Hz as [Fz Vz].
  split; [exact Fx|]. split; [exact Fy|]. split; [exact Fz|]. destruct D as [[I E]|[NZ E]].
  - left. split; [apply toE_inf; assumption|]. destruct I as [I|[I1 I2]]; [left; apply isZero_iff, I|right; split; apply isZero_iff; assumption].
  - right. destruct IP as [->|HP]; [discriminate|]. split; [exact HP|]. rewrite (on_curve_toE p HP), ejaff_def in E. apply EAff_inj in E. destruct E as [E1 E2].
    split; [intros C; apply NZ; rewrite <- Vz; apply fz_eq0, C|].
    split; apply fz_eq_iff.
    + replace (val z ^ 2) with (val z * val z) by ring. rewrite !fz_mul, E1, Vx, Vz. field. exact NZ.
    + replace (val z ^ 3) with (val z * val z * val z) by ring. rewrite !fz_mul, E2, Vy, Vz. field. exact NZ.
Qed.

Lemma represents_point q p : represents q p -> is_point p.
Proof. destruct q as [[x y] z]. intros (_ & _ & _ & [[-> _]|[H _]]); [left; reflexivity|right; exact H]. Qed.
Lemma rep_add p q a b : represents p a -> represents q b ->
  represents (fst (addJacobian p q)) (padd a b) /\ represents (snd (addJacobian p q)) b.
Proof.
  intros HA HB. pose proof (represents_point _ _ HA) as IA. pose proof (represents_point _ _ HB) as IB. split.
  - apply jr_represents; [apply is_point_padd; assumption|]. apply add_pt; try assumption; apply represents_jr; assumption.
  - apply jr_represents; [exact IB|]. apply represents_jr in HB. destruct HB as (X & Y & Z & HP & HO & D).
    exists X, Y, Z. split; [apply add_snd, HP|]. split; [exact HO|].
    destruct D as [[I E]|[NZ E]]; [left; split; [|exact E]|right; split; assumption].
    destruct p as [[x1 y1] z1], q as [[x2 y2] z2]. unfold addJacobian.
    destruct ((fIsZero x1 && fIsZero y1) || fIsZero z1); [exact I|].
    destruct ((fIsZero x2 && fIsZero y2) || fIsZero z2) eqn:E2; [exact I|]. apply infrep_dec in I. congruence.
Qed.
Lemma rep_double p a : represents p a -> represents (doubleJacobian p) (padd a a).
Proof.
  intros HA. pose proof (represents_point _ _ HA) as IA. apply jr_represents; [apply is_point_padd; assumption|].
  rewrite toE_padd by assumption. apply double_jr, represents_jr, HA.
Qed.
Lemma rep_affine p a : represents p a -> fieldJacobianToBigAffine p = a.
Proof. intros HA. rewrite (toBig_jr _ _ (represents_jr _ _ HA)). apply fromE_toE. exact (represents_point _ _ HA). Qed.

(** ** tables *)
Lemma sbm_ok t B : is_point B -> table_ok t B -> forall k i q Q, bytes_ok k -> (i + length k = 32)%nat -> represents q Q ->
  exists q', sbmLoop t i k q = Ok q' /\ represents q' (padd Q (smul (beval k) B)).
Proof.
  intros IB HT. induction k as [|b k IH]; intros i q Q Bk L HQ.
  - exists q. split; [reflexivity|]. rewrite beval_nil, smul_0, padd_O_r. exact HQ.
  - cbn [sbmLoop]. cbn [length] in L. inversion Bk as [|? ? Hb Bk']. subst.
    destruct (HT i b ltac:(lia) Hb) as (p & E & HP). rewrite E. cbn [bind].
    destruct (IH (S i) (fst (addJacobian q p)) _ Bk' ltac:(lia) (proj1 (rep_add _ _ _ _ HQ HP))) as (q' & E' & HQ').
    exists q'. split; [exact E'|]. pose proof (represents_point _ _ HQ) as IQ.
    rewrite padd_assoc, <- smul_add in HQ' by (assumption || apply is_point_smul, IB).
    rewrite beval_cons. replace (blen k) with (31 - Z.of_nat i) by (unfold blen; lia). exact HQ'.
Qed.
Lemma tableMult_ok t B k : is_point B -> table_ok t B -> bytes_ok k -> scalarTableMult t k = Ok (smul (beval k) B).
Proof.
  intros IB HT Bk. destruct (moduloReduce_ok k Bk) as (MV & MB & ML). unfold scalarTableMult.
  destruct (sbm_ok t B IB HT (moduloReduce k) (32 - length (moduloReduce k)) (fZero, fZero, fZero) O MB) as (q & E & HQ).
  - unfold blen in ML. lia.
  - apply jr_represents; [left; reflexivity|exact jr_inf].
  - rewrite E. cbn [bind]. apply f_equal. rewrite (rep_affine _ _ HQ), padd_O_l.
    rewrite <- (smul_mod _ B IB), MV. apply smul_mod, IB.
Qed.

Lemma S256_ok t tH : table_ok t G -> table_ok tH Htab -> curve_ok (S256 t tH).
Proof.
  intros HT HH. constructor; cbn [S256 cP cN cAdd cScalarMult cScalarBaseMult cScalarBaseMultH cIsOnCurve].
  - reflexivity.
  - reflexivity.
  - exact Add_ok.
  - exact ScalarMult_ok.
  - intros k Bk. apply tableMult_ok; [exact is_point_G|exact HT|exact Bk].
  - intros k Bk. apply tableMult_ok; [exact is_point_Htab|assumption..].
  - exact IsOnCurve_ok.
Qed.

(** ** an honest table *)
Definition jac_of (p : point) : jpt := (fSetBytes (be_bytes 32 (fst p)), fSetBytes (be_bytes 32 (snd p)), fSetInt 1).
Definition mkTable (B : point) : table :=
  map (fun i => map (fun b => jac_of (smul (Z.of_nat b * 256 ^ (31 - Z.of_nat i)) B)) (seq 0 256)) (seq 0 32).
Lemma frep_be v : 0 <= v < P -> frep 1 (fSetBytes (be_bytes 32 v)) (fz v).
Proof.
  intros H. destruct (setBytes_ok (be_bytes 32 v)) as [S V]; [apply be_bytes_len|apply be_bytes_ok|]. split; [apply small_fits, S|].
  rewrite V, beval_be_bytes by lia. rewrite Z.mod_small; [reflexivity|]. split; [lia|]. apply Z.lt_trans with P; [lia|reflexivity].
Qed.
Lemma jac_of_ok p : is_point p -> represents (jac_of p) p.
Proof.
  intros IP. apply jr_represents; [exact IP|]. destruct IP as [->|HP].
  - exists f0, f0, f1. split.
    + pose proof (frep_be 0 ltac:(split; [lia|reflexivity])) as H. split; [exact H|]. split; [apply (frep_le 1); [reflexivity|exact H]|].
      apply nrep_frep, nrep_1.
    + split; [exact I|]. left. split; [right; split; reflexivity|reflexivity].
  - pose proof HP as (H1 & H2 & _). apply jr_affine; [exact HP|apply frep_be, H1|apply frep_be, H2|apply nrep_frep, nrep_1].
Qed.
Lemma mkTable_ok B : is_point B -> table_ok (mkTable B) B.
Proof.
  intros IB i b Hi Hb. exists (jac_of (smul (b * 256 ^ (31 - Z.of_nat i)) B)). split; [|apply jac_of_ok, is_point_smul, IB].
  assert (SN : forall n j, (j < n)%nat -> nth_error (seq 0 n) j = Some j).
  { intros n j H. rewrite nth_error_nth' with (d := 0%nat) by (rewrite seq_length; exact H). rewrite seq_nth by exact H. reflexivity. }
  unfold lookup, mkTable. rewrite (map_nth_error _ _ _ (SN 32%nat i Hi)).
  unfold is_byte in Hb. rewrite (map_nth_error _ _ _ (SN 256%nat (Z.to_nat b) ltac:(lia))). rewrite Z2Nat.id by lia. reflexivity.
Qed.
