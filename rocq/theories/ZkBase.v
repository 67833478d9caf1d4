(** * The point operations of the package compute the group (proof only) *)
From Coq Require Import ZArith List Bool Lia Field.
From Verif Require Import NumTheory Go Wire Big Crypto Spec FieldP FieldN CurveZ CurveGroup FastMul EndoP Order Lambda
  SpecZk CodecProofs.
Import ListNotations.
Open Scope Z_scope.

Lemma Hgen_Hpt : Hgen = Hpt. Proof. reflexivity. Qed.
Lemma Hgen_on_curve : on_curve Hgen. Proof. exact H_on_curve. Qed.
Lemma Htab_on_curve : on_curve Htab. Proof. apply oncb_ok. vm_compute. reflexivity. Qed.
Lemma is_point_Htab : is_point Htab. Proof. right. exact Htab_on_curve. Qed.
Lemma is_point_Hgen : is_point Hgen. Proof. right. exact Hgen_on_curve. Qed.

Ltac isp0 eff ped := lazymatch goal with
  | |- is_point (smul _ _) => apply is_point_smul; isp0 eff ped
  | |- is_point (padd _ _) => apply is_point_padd; isp0 eff ped
  | |- is_point (pneg _) => apply is_point_pneg; isp0 eff ped
  | |- is_point G => exact is_point_G
  | |- is_point Htab => exact is_point_Htab
  | |- is_point Hgen => exact is_point_Hgen
  | |- is_point O => exact is_point_O
  | |- is_point (SpecZk.eff _) => apply eff; isp0 eff ped
  | |- is_point (SpecZk.ped _ _) => apply ped
  | |- is_point ?p => match goal with H : is_point p |- _ => exact H end
  end.
Ltac isp := isp0 I I.

(** ** No curve point has X = 0 *)
Lemma lambda_not_1 : lambda mod N <> 1 mod N. Proof. vm_compute. discriminate. Qed.
Global Opaque is_point on_curve smul padd.
Lemma x_nz p : on_curve p -> fst p <> 0.
Proof.
  intros H E. assert (Hp : is_point p) by (right; exact H).
  pose proof (phi_lambda p Hp) as L. unfold phi in L. rewrite E, Z.mul_0_r, Zmod_0_l in L.
  replace (0, snd p) with (smul 1 p) in L by (rewrite smul_1, <- E; destruct p; reflexivity).
  symmetry in L. revert L. generalize lambda_not_1. generalize lambda. intros l Hl L.
  apply smul_inj_pt in L; [contradiction|exact H].
Qed.
Lemma is_point_x0 p : is_point p -> fst p = 0 -> p = O.
Proof. intros [->|H] E; [reflexivity|]. exfalso. exact (x_nz p H E). Qed.
Lemma is_point_dec p : is_point p -> p = O \/ (on_curve p /\ fst p <> 0).
Proof. intros [->|H]; [left; reflexivity|right]. split; [exact H|apply x_nz; exact H]. Qed.

Lemma pm_x p q : is_point p -> is_point q -> (fst p =? fst q) = true <-> pm p q.
Proof.
  intros Hp Hq. rewrite Z.eqb_eq. split.
  - intros E. destruct (is_point_dec p Hp) as [->|[Cp Xp]].
    + left. apply is_point_x0; [exact Hq|]. rewrite <- E. reflexivity.
    + destruct Hq as [->|Cq]; [exfalso; apply Xp; exact E|]. apply same_x_cases; assumption.
  - intros [->| ->]; reflexivity.
Qed.
Lemma x_eq_false p q : is_point p -> is_point q -> (fst p =? fst q) = false <-> ~ pm p q.
Proof. intros Hp Hq. rewrite <- (pm_x p q Hp Hq). destruct (fst p =? fst q); split; congruence. Qed.

Lemma pm_refl p : pm p p. Proof. left; reflexivity. Qed.
Lemma pm_sign p q : is_point p -> pm p q -> exists e, (e = 1 \/ e = -1) /\ q = smul e p.
Proof.
  intros Hp [->| ->]; [exists 1|exists (-1)]; (split; [auto|]).
  - symmetry. apply smul_1.
  - change (-1) with (Z.opp 1). rewrite smul_opp by exact Hp. rewrite smul_1. reflexivity.
Qed.
Lemma pm_sym p q : is_point p -> pm p q -> pm q p.
Proof. intros Hp [->| ->]; [left; reflexivity|right; symmetry; apply pneg_invol; exact Hp]. Qed.

(** ** eff *)
Lemma is_point_eff p : is_point p -> is_point (eff p).
Proof. intros H. unfold eff. destruct (_ =? _); [isp|]. destruct (_ =? _); isp. Qed.
Ltac isp ::= isp0 is_point_eff I.
Lemma eff_G : eff G = G. Proof. reflexivity. Qed.
Lemma eff_Hgen : eff Hgen = Htab. Proof. reflexivity. Qed.
Lemma eff_O : eff O = O. Proof. reflexivity. Qed.
Lemma eff_Htab : eff Htab = Htab. Proof. reflexivity. Qed.

Lemma eff_plain p : is_point p -> plain p -> eff p = p.
Proof.
  intros Hp (H1 & H2 & H3). unfold eff. destruct (Z.eqb_spec (fst p) Gx) as [E|E].
  - assert (Q : pm G p) by (apply pm_x; [isp|exact Hp|apply Z.eqb_eq; symmetry; exact E]).
    destruct Q as [->|Q]; [reflexivity|contradiction].
  - destruct (Z.eqb_spec (fst p) (fst Hgen)) as [E2|E2]; [|reflexivity].
    assert (Q : pm Hgen p) by (apply pm_x; [isp|exact Hp|apply Z.eqb_eq; symmetry; exact E2]).
    destruct Q as [->|Q]; contradiction.
Qed.
Lemma coord_range p : is_point p -> 0 <= fst p < P /\ 0 <= snd p < P.
Proof. intros [->|(H1 & H2 & _)]; [cbn; pose proof P_pos; lia|split; assumption]. Qed.
Lemma P_lt_256 : P < 2 ^ 256. Proof. reflexivity. Qed.
Lemma coord_range_256 p : is_point p -> 0 <= fst p < 2 ^ 256 /\ 0 <= snd p < 2 ^ 256.
Proof. intros H. destruct (coord_range p H). pose proof P_lt_256. lia. Qed.

Lemma pt_surj p : EP (Some (fst p)) (Some (snd p)) = pt p. Proof. reflexivity. Qed.
Lemma mkPoint_pt p : mkPoint p = pt p. Proof. reflexivity. Qed.
Lemma pt_inj p q : pt p = pt q -> p = q.
Proof. destruct p, q. unfold pt. cbn. intros E. injection E as -> ->. reflexivity. Qed.
Lemma ZeroPoint_pt : ZeroPoint = pt O. Proof. reflexivity. Qed.

Lemma Equal_ok p q : Equal (pt p) (pt q) = Ok (fst p =? fst q).
Proof. unfold Equal, pt. cbn [pX pY need bind]. rewrite Z.eqb_refl. destruct (fst p =? fst q); reflexivity. Qed.

Lemma beval_mod s : beval (bigBytes (s mod N)) = s mod N.
Proof. rewrite beval_bigBytes. apply Z.abs_eq. apply Z.mod_pos_bound. exact N_pos. Qed.

Lemma Ok_inj {A} (a b : A) : Ok a = Ok b -> a = b. Proof. intros E. injection E as E. exact E. Qed.
Section Std.
Variable zk : zkparams.
Hypothesis S : std zk.
Let C := std_curve zk S.

Lemma isOnCurve_ok p : is_point p -> isOnCurve zk (pt p) = Ok (negb (fst p =? 0)).
Proof.
  intros H. unfold isOnCurve, pt. cbn [pX pY need bind]. destruct (coord_range_256 p H) as [Hx Hy].
  rewrite (ok_onc _ C) by assumption. f_equal.
  destruct (is_point_dec p H) as [->|[Cp Xp]]; [reflexivity|].
  replace (fst p =? 0) with false by (symmetry; apply Z.eqb_neq; exact Xp). apply Z.eqb_eq.
  destruct Cp as (_ & _ & E). rewrite Zminus_mod, E, Z.sub_diag. apply Zmod_0_l.
Qed.
Lemma curveAdd_ok p q : is_point p -> is_point q -> curveAdd zk (pt p) (pt q) = Ok (pt (padd p q)).
Proof. intros Hp Hq. unfold curveAdd, pt. cbn [pX pY need bind]. rewrite (ok_add _ C) by assumption. reflexivity. Qed.
Lemma Add_ok p q : is_point p -> is_point q -> Add zk (pt p) (pt q) = Ok (pt (padd p q)).
Proof.
  intros Hp Hq. unfold Add, andR. rewrite ZeroPoint_pt, !Equal_ok, isOnCurve_ok by exact Hq.
  cbn [bind]. change (fst O) with 0. destruct (Z.eqb_spec (fst p) 0) as [E|E]; cbn [bind].
  - destruct (Z.eqb_spec (fst q) 0) as [E2|E2]; cbn [negb bind].
    + rewrite isOnCurve_ok by exact Hp. cbn [bind]. destruct (Z.eqb_spec (fst p) 0); [|contradiction]. cbn [negb bind].
      apply curveAdd_ok; assumption.
    + rewrite (is_point_x0 p Hp E), padd_O_l. reflexivity.
  - destruct (Z.eqb_spec (fst q) 0) as [E2|E2]; cbn [bind].
    + rewrite isOnCurve_ok by exact Hp. destruct (Z.eqb_spec (fst p) 0); [contradiction|]. cbn [negb bind].
      rewrite (is_point_x0 q Hq E2), padd_O_r. reflexivity.
    + apply curveAdd_ok; assumption.
Qed.
Lemma Neg_ok p : Neg zk (pt p) = Ok (pt (pneg p)).
Proof. unfold Neg, pt. cbn [pX pY need bind]. rewrite (ok_P _ C). reflexivity. Qed.
Lemma Sub_ok p q : is_point p -> is_point q -> Sub zk (pt p) (pt q) = Ok (pt (padd p (pneg q))).
Proof.
  intros Hp Hq. unfold Sub, andR. rewrite ZeroPoint_pt, !Equal_ok, isOnCurve_ok by exact Hq.
  cbn [bind]. change (fst O) with 0. destruct (Z.eqb_spec (fst p) 0) as [E|E]; cbn [bind].
  - destruct (Z.eqb_spec (fst q) 0) as [E2|E2]; cbn [negb bind].
    + rewrite isOnCurve_ok by exact Hp. cbn [bind]. destruct (Z.eqb_spec (fst p) 0); [|contradiction]. cbn [negb bind].
      rewrite Neg_ok. cbn [bind]. apply curveAdd_ok; isp.
    + rewrite Neg_ok. rewrite (is_point_x0 p Hp E), padd_O_l. reflexivity.
  - destruct (Z.eqb_spec (fst q) 0) as [E2|E2]; cbn [bind].
    + rewrite isOnCurve_ok by exact Hp. destruct (Z.eqb_spec (fst p) 0); [contradiction|]. cbn [negb bind].
      rewrite (is_point_x0 q Hq E2), pneg_O, padd_O_r. reflexivity.
    + rewrite Neg_ok. cbn [bind]. apply curveAdd_ok; isp.
Qed.
Lemma Mult_ok p s : is_point p -> Mult zk (pt p) (Some s) = Ok (pt (smul s (eff p))).
Proof.
  intros Hp. unfold Mult. change (pX (pt p)) with (Some (fst p)). change (pY (pt p)) with (Some (snd p)).
  cbn [need bind]. rewrite (std_G _ S), (std_H _ S), !Equal_ok. cbn [bind].
  rewrite (ok_N _ C). unfold eff. change (fst G) with Gx.
  destruct (fst p =? Gx).
  - rewrite (ok_base _ C) by apply bigBytes_ok. cbn [bind]. rewrite beval_mod, smul_mod by isp. reflexivity.
  - destruct (fst p =? fst Hgen).
    + rewrite (ok_baseH _ C) by apply bigBytes_ok. cbn [bind]. rewrite beval_mod, smul_mod by isp. reflexivity.
    + rewrite (ok_mul _ C) by (try exact Hp; apply bigBytes_ok).
      cbn [bind]. rewrite beval_mod, smul_mod by isp. reflexivity.
Qed.
Lemma Mult_G s : Mult zk (zG zk) (Some s) = Ok (pt (smul s G)).
Proof. rewrite (std_G _ S), Mult_ok by isp. rewrite eff_G. reflexivity. Qed.
Lemma Mult_H s : Mult zk (zH zk) (Some s) = Ok (pt (smul s Htab)).
Proof. rewrite (std_H _ S), Mult_ok by isp. rewrite eff_Hgen. reflexivity. Qed.
Lemma Mult_plain p s : is_point p -> plain p -> Mult zk (pt p) (Some s) = Ok (pt (smul s p)).
Proof. intros Hp Pp. rewrite Mult_ok by exact Hp. rewrite eff_plain by assumption. reflexivity. Qed.
Lemma scalarMult_ok p s : is_point p -> cScalarMult (zC zk) (fst p) (snd p) (bigBytes (s mod N)) = Ok (smul s p).
Proof. intros Hp. rewrite (ok_mul _ C) by (try exact Hp; apply bigBytes_ok). rewrite beval_mod, smul_mod by exact Hp. reflexivity. Qed.
Lemma CommitR_ok p r : is_point p -> CommitR zk (pt p) (Some r) = Ok (pt (smul r p)).
Proof.
  intros Hp. unfold CommitR. change (pX (pt p)) with (Some (fst p)). change (pY (pt p)) with (Some (snd p)).
  cbn [need bind]. rewrite (ok_N _ C), scalarMult_ok by exact Hp. reflexivity.
Qed.
Lemma is_point_ped v r : is_point (ped v r). Proof. unfold ped. isp. Qed.
Lemma PedCommitR_ok v r : PedCommitR zk (Some v) (Some r) = Ok (pt (ped v r)).
Proof.
  unfold PedCommitR. cbn [need bind]. rewrite Mult_G. cbn [bind]. rewrite Mult_H. cbn [bind]. rewrite (ok_N _ C).
  rewrite !smul_mod by isp. apply Add_ok; isp.
Qed.
Lemma allBytes_pt ps : allBytes (map pt ps) = Ok (map (fun p => bigBytes (fst p) ++ bigBytes (snd p)) ps).
Proof. induction ps as [|p t IH]; [reflexivity|]. cbn [map allBytes]. unfold pBytes, pt at 1. cbn [pX pY need bind]. unfold pt in *. cbn [pX pY need bind]. rewrite IH. reflexivity. Qed.
Lemma Challenge_ok sha ps : Challenge sha zk (map pt ps) = Ok (fs sha ps).
Proof. unfold Challenge. rewrite allBytes_pt. cbn [bind]. unfold GenerateChallenge, fs. rewrite (ok_N _ C). reflexivity. Qed.
Lemma cN_ok : cN (zC zk) = N. Proof. apply (ok_N _ C). Qed.
Lemma cP_ok : cP (zC zk) = P. Proof. apply (ok_P _ C). Qed.
End Std.
Ltac isp ::= isp0 is_point_eff is_point_ped.
Lemma fs_scalar sha ps : scalar (fs sha ps).
Proof. unfold scalar, fs. apply Z.mod_pos_bound. exact N_pos. Qed.
Lemma fs_mod sha ps : fs sha ps mod N = fs sha ps.
Proof. apply Z.mod_small. apply fs_scalar. Qed.
(** a hash function with a given challenge, for examples and refutations *)
Definition shaC (c : Z) : list Z -> list Z := fun _ => be_bytes 32 c.
Lemma fs_shaC c ps : scalar c -> fs (shaC c) ps = c.
Proof.
  intros H. unfold fs, shaC. rewrite beval_be_bytes by (destruct H; assumption).
  rewrite (Z.mod_small c); [apply Z.mod_small; exact H|]. destruct H as [H0 H1]. split; [exact H0|].
  eapply Z.lt_trans; [exact H1|reflexivity].
Qed.

(** ** Inverses modulo N *)
Lemma powMod_ok m a e : powMod m a e = a ^ Zpos e mod m.
Proof.
  induction e as [e IH|e IH|]; cbn [powMod].
  - rewrite IH. rewrite Pos2Z.inj_xI, Z.pow_add_r, Z.pow_twice_r by lia. rewrite Z.pow_1_r.
    rewrite <- (Zmult_mod_idemp_l (_ * _) a), <- Zmult_mod, Zmult_mod_idemp_l. reflexivity.
  - rewrite IH. rewrite Pos2Z.inj_xO, Z.pow_twice_r. rewrite <- Zmult_mod. reflexivity.
  - rewrite Z.pow_1_r. reflexivity.
Qed.
Lemma bigExp_ok b e : 0 <= e -> bigExp b e N = b ^ e mod N.
Proof. destruct e; intros H; cbn [bigExp]; [reflexivity|apply powMod_ok|lia]. Qed.
Lemma modInverse_some g : g mod N <> 0 -> modInverse g N = Some (ninv g).
Proof.
  intros H. unfold modInverse. rewrite bigExp_ok by (pose proof N_gt2; lia). rewrite <- ninv_pow.
  rewrite Z.mul_comm, ninv_ok by exact H. reflexivity.
Qed.
Lemma modInverse_none g : g mod N = 0 -> modInverse g N = None.
Proof.
  intros H. unfold modInverse. rewrite Zmult_mod, H, Z.mul_0_l, Zmod_0_l. reflexivity.
Qed.
Lemma ninv_scalar a : scalar (ninv a).
Proof. rewrite ninv_pow. apply Z.mod_pos_bound. exact N_pos. Qed.

(** ** Equations between group elements, through discrete logarithms *)
Lemma dlog p : is_point p -> exists k, p = smul k G.
Proof. intros H. destruct (cyclic p H) as [k [_ E]]. exists k. exact E. Qed.
Lemma smul_G_eq a b : nz a = nz b -> smul a G = smul b G.
Proof. intros H. apply smul_G_inj. apply nz_eq_iff. exact H. Qed.
Lemma smul_G_eq_inv a b : smul a G = smul b G -> nz a = nz b.
Proof. intros H. apply smul_G_inj in H. apply nz_eq_iff. exact H. Qed.
Lemma O_smul : O = smul 0 G. Proof. reflexivity. Qed.
Lemma G_smul : G = smul 1 G. Proof. symmetry. apply smul_1. Qed.
Ltac gpush := repeat first
  [rewrite <- smul_mul by isp|rewrite <- smul_add by isp|rewrite <- smul_opp by isp].
Ltac gpush_in H := repeat first
  [rewrite <- smul_mul in H by isp|rewrite <- smul_add in H by isp|rewrite <- smul_opp in H by isp].

(** evaluate point operations on group elements *)
Ltac zk_step S := first
  [ rewrite (Mult_G _ S) | rewrite (Mult_H _ S) | rewrite (Mult_ok _ S) by isp
  | rewrite (Add_ok _ S) by isp | rewrite (Sub_ok _ S) by isp | rewrite (Neg_ok _ S)
  | rewrite (curveAdd_ok _ S) by isp
  | rewrite (PedCommitR_ok _ S) | rewrite (CommitR_ok _ S) by isp
  | rewrite (Challenge_ok _ S) | rewrite Equal_ok
  | rewrite (cN_ok _ S) ]; cbn [bind need fst snd].
Ltac zk S := repeat zk_step S.
Lemma xeq_true p q : is_point p -> is_point q -> pm p q -> (fst p =? fst q) = true.
Proof. intros Hp Hq H. apply pm_x; assumption. Qed.
Lemma xeq_refl (p : point) : (fst p =? fst p) = true. Proof. apply Z.eqb_refl. Qed.
