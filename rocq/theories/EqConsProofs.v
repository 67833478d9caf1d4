(** * Proofs about the equivalence and consistency proofs (proof only) *)
From Coq Require Import ZArith List Bool Lia Field.
From Verif Require Import NumTheory Go Wire Big Crypto Spec FieldP FieldN CurveZ CurveGroup EndoP Order Lambda
  SpecZk CodecProofs ZkBase PointProofs Gspfs GspfsProofs Equivalence Consistency.
Import ListNotations.
Open Scope Z_scope.

Ltac ptl l := match l with
  | nil => constr:(@nil point)
  | pt ?p :: ?t => let r := ptl t in constr:(p :: r) end.
Ltac chal S := rewrite ?(std_G _ S), ?(std_H _ S);
  match goal with |- context [Challenge _ _ ?l] => let l' := ptl l in change l with (map pt l') end;
  rewrite (Challenge_ok _ S); cbn [bind].

Lemma accepts_if (b : bool) : accepts (if b then Ok (true, None) else Ok (false, Some EProof)) <-> b = true.
Proof. unfold accepts. destruct b; split; intros H; try reflexivity; discriminate H. Qed.
Lemma rejects_if (b : bool) : rejects (if b then Ok (true, None) else Ok (false, Some EProof)) <-> b = false.
Proof. unfold rejects. destruct b; split; intros H; try reflexivity; discriminate H. Qed.
Lemma xeqb p q : is_point p -> is_point q -> (fst p =? fst q) = true <-> pm p q.
Proof. exact (pm_x p q). Qed.

Section P.
Variables (sha : list Z -> list Z) (zk : zkparams).
Hypothesis S : std zk.

Lemma equiv_prove B1 R1 B2 R2 x rnd : is_point B1 -> is_point R1 -> is_point B2 -> is_point R2 ->
  NewEquivalenceProof sha zk (pt B1) (pt R1) (pt B2) (pt R2) (Some x) rnd =
  if (fst (smul x (eff B1)) =? fst R1) && (fst (smul x (eff B2)) =? fst R2) then
    match rnd with
    | None => Ok (None, Some ERand)
    | Some u =>
        let U1 := smul u (eff B1) in let U2 := smul u (eff B2) in
        let c := fs sha [B1; R1; B2; R2; U1; U2] in
        Ok (Some (MkEquiv (pt U1) (pt U2) (Some c) (Some ((u + c * (x mod N)) mod N))), None)
    end
  else Ok (None, Some EProof).
Proof.
  intros H1 H2 H3 H4. unfold NewEquivalenceProof. cbn [need bind]. zk S. rewrite smul_mod by isp.
  destruct (_ =? _); [|reflexivity]. cbn [negb andb]. zk S. rewrite smul_mod by isp.
  destruct (_ =? _); [|reflexivity]. cbn [negb]. destruct rnd as [u|]; [|reflexivity].
  zk S. chal S. reflexivity.
Qed.
Lemma equiv_verify B1 R1 B2 R2 U1 U2 c s : is_point B1 -> is_point R1 -> is_point B2 -> is_point R2 ->
  is_point U1 -> is_point U2 ->
  EquivalenceVerify sha (Some (MkEquiv (pt U1) (pt U2) (Some c) (Some s))) zk (pt B1) (pt R1) (pt B2) (pt R2) =
  if (fs sha [B1; R1; B2; R2; U1; U2] =? c) &&
     ((fst (smul s (eff B1)) =? fst (padd U1 (smul c (eff R1)))) &&
      (fst (smul s (eff B2)) =? fst (padd U2 (smul c (eff R2))))) then Ok (true, None)
  else Ok (false, Some EProof).
Proof.
  intros. unfold EquivalenceVerify. cbn [eqUG eqUH eqChallenge eqHiddenValue]. chal S. cbn [need bind].
  destruct (_ =? c); [|reflexivity]. cbn [negb andb]. zk S.
  destruct (_ =? _); [|reflexivity]. cbn [negb andb]. zk S. destruct (_ =? _); reflexivity.
Qed.
Lemma equiv_accepts B1 R1 B2 R2 U1 U2 c s : is_point B1 -> is_point R1 -> is_point B2 -> is_point R2 ->
  is_point U1 -> is_point U2 ->
  accepts (EquivalenceVerify sha (Some (MkEquiv (pt U1) (pt U2) (Some c) (Some s))) zk (pt B1) (pt R1) (pt B2) (pt R2)) <->
  fs sha [B1; R1; B2; R2; U1; U2] = c /\
  pm (smul s (eff B1)) (padd U1 (smul c (eff R1))) /\ pm (smul s (eff B2)) (padd U2 (smul c (eff R2))).
Proof.
  intros. rewrite equiv_verify by assumption. rewrite accepts_if, !andb_true_iff, Z.eqb_eq, !xeqb by isp. reflexivity.
Qed.

Lemma cons_prove CM CMTok PK v r rnd1 rnd2 : is_point CM -> is_point CMTok -> is_point PK ->
  NewConsistencyProof sha zk (pt CM) (pt CMTok) (pt PK) (Some v) (Some r) rnd1 rnd2 =
  if (fst CM =? fst (ped v r)) && (fst CMTok =? fst (smul r (eff PK))) then
    match rnd1, rnd2 with
    | Some u1, Some u2 =>
        let T1 := ped u1 u2 in let T2 := smul u2 (eff PK) in
        let c := fs sha [G; Hgen; CM; CMTok; PK; T1; T2] in
        Ok (Some (MkCons (pt T1) (pt T2) (Some c) (Some ((u1 + (v mod N) * c) mod N)) (Some ((u2 + r * c) mod N))), None)
    | _, _ => Ok (None, Some ERand)
    end
  else Ok (Some emptyConsistency, Some EProof).
Proof.
  intros H1 H2 H3. unfold NewConsistencyProof. cbn [need bind]. zk S.
  destruct (_ =? _); [|reflexivity]. cbn [negb andb]. zk S.
  destruct (_ =? _); [|reflexivity]. cbn [negb]. destruct rnd1 as [u1|]; [|reflexivity]. destruct rnd2 as [u2|]; [|reflexivity].
  zk S. chal S. reflexivity.
Qed.
Lemma cons_verify CM CMTok PK T1 T2 c s1 s2 : is_point CM -> is_point CMTok -> is_point PK -> is_point T1 -> is_point T2 ->
  ConsistencyVerify sha (Some (MkCons (pt T1) (pt T2) (Some c) (Some s1) (Some s2))) zk (pt CM) (pt CMTok) (pt PK) =
  if (fs sha [G; Hgen; CM; CMTok; PK; T1; T2] =? c) &&
     ((fst (ped s1 s2) =? fst (padd T1 (smul c (eff CM)))) &&
      (fst (smul s2 (eff PK)) =? fst (padd T2 (smul c (eff CMTok))))) then Ok (true, None)
  else Ok (false, Some EProof).
Proof.
  intros. unfold ConsistencyVerify. cbn [cnT1 cnT2 cnChallenge cnS1 cnS2]. chal S. cbn [need bind].
  destruct (Z.eqb_spec (fs sha [G; Hgen; CM; CMTok; PK; T1; T2]) c) as [->|]; [|reflexivity]. cbn [negb andb]. zk S.
  destruct (_ =? _); [|reflexivity]. cbn [negb andb]. zk S. destruct (_ =? _); reflexivity.
Qed.
Lemma cons_accepts CM CMTok PK T1 T2 c s1 s2 : is_point CM -> is_point CMTok -> is_point PK -> is_point T1 -> is_point T2 ->
  accepts (ConsistencyVerify sha (Some (MkCons (pt T1) (pt T2) (Some c) (Some s1) (Some s2))) zk (pt CM) (pt CMTok) (pt PK)) <->
  fs sha [G; Hgen; CM; CMTok; PK; T1; T2] = c /\
  pm (ped s1 s2) (padd T1 (smul c (eff CM))) /\ pm (smul s2 (eff PK)) (padd T2 (smul c (eff CMTok))).
Proof.
  intros. rewrite cons_verify by assumption. rewrite accepts_if, !andb_true_iff, Z.eqb_eq, !xeqb by isp. reflexivity.
Qed.
End P.

(** ** Extraction *)
Lemma pm_sgn p q : is_point p -> pm p q -> exists e, sgn e /\ q = smul e p.
Proof.
  intros Hp [->| ->]; [exists 1; split; [left; reflexivity|symmetry; apply smul_1]|exists (-1); split; [right; reflexivity|]].
  change (-1) with (Z.opp 1). rewrite smul_opp, smul_1 by isp. reflexivity.
Qed.
Lemma sgn_rel e d : sgn e -> sgn d -> d = e \/ d = - e.
Proof. unfold sgn. lia. Qed.
Lemma pigeon e1 d1 e2 d2 e3 d3 : sgn e1 -> sgn d1 -> sgn e2 -> sgn d2 -> sgn e3 -> sgn d3 ->
  ((d1 = e1 /\ d2 = e2) \/ (d1 = - e1 /\ d2 = - e2)) \/ ((d1 = e1 /\ d3 = e3) \/ (d1 = - e1 /\ d3 = - e3)) \/
  ((d2 = e2 /\ d3 = e3) \/ (d2 = - e2 /\ d3 = - e3)).
Proof.
  intros A1 A2 A3 A4 A5 A6.
  destruct (sgn_rel e1 d1 A1 A2), (sgn_rel e2 d2 A3 A4), (sgn_rel e3 d3 A5 A6); auto 6.
Qed.
Lemma slope_eq R B U c1 t1 c2 t2 : is_point R -> is_point B -> is_point U -> c1 mod N <> c2 mod N ->
  padd U (smul c1 R) = smul t1 B -> padd U (smul c2 R) = smul t2 B ->
  R = smul (((t1 - t2) * ninv (c1 - c2)) mod N) B.
Proof.
  intros HR HB HU D E1 E2. apply solve_dlog; [exact HR|exact HB|apply diff_nz; exact D|].
  destruct (dlog R HR) as [r ->]. destruct (dlog B HB) as [b ->]. destruct (dlog U HU) as [u ->]. gpush_in E1. gpush_in E2. gpush.
  apply smul_G_eq_inv in E1. apply smul_G_eq_inv in E2. nzpush_in E1. nzpush_in E2. apply smul_G_eq. nzpush.
  lin2 E1 n1 E2 (nopp n1).
Qed.
Lemma slope_neg R B U c1 t1 c2 t2 : is_point R -> is_point B -> is_point U -> c1 mod N <> c2 mod N ->
  padd U (smul c1 R) = smul (- t1) B -> padd U (smul c2 R) = smul (- t2) B ->
  R = pneg (smul (((t1 - t2) * ninv (c1 - c2)) mod N) B).
Proof.
  intros HR HB HU D E1 E2. rewrite (slope_eq R B U c1 (- t1) c2 (- t2)) by assumption.
  destruct (dlog B HB) as [b ->]. gpush. apply smul_G_eq. nzpush. ring.
Qed.
Lemma slope_ped R U c1 a1 b1 c2 a2 b2 : is_point R -> is_point U -> c1 mod N <> c2 mod N ->
  padd U (smul c1 R) = ped a1 b1 -> padd U (smul c2 R) = ped a2 b2 ->
  R = ped (((a1 - a2) * ninv (c1 - c2)) mod N) (((b1 - b2) * ninv (c1 - c2)) mod N).
Proof.
  intros HR HU D E1 E2. apply diff_nz, nz_nz in D. unfold ped in *. destruct (dlog Htab is_point_Htab) as [h EH]. rewrite EH in *.
  destruct (dlog R HR) as [r ->]. destruct (dlog U HU) as [u ->]. gpush_in E1. gpush_in E2. gpush.
  apply smul_G_eq_inv in E1. apply smul_G_eq_inv in E2. nzpush_in E1. nzpush_in E2. apply smul_G_eq. nzpush. nzpush_in D.
  assert (Q : nmul (nz r) (nsub (nz c1) (nz c2)) = nadd (nsub (nz a1) (nz a2)) (nmul (nsub (nz b1) (nz b2)) (nz h))) by lin2 E1 n1 E2 (nopp n1).
  transitivity (nmul (nmul (nz r) (nsub (nz c1) (nz c2))) (ninvF (nsub (nz c1) (nz c2)))); [field; exact D|rewrite Q; ring].
Qed.
Lemma smul_ped e a b : smul e (ped a b) = ped (e * a) (e * b).
Proof.
  unfold ped. destruct (dlog Htab is_point_Htab) as [h EH]. rewrite EH. gpush. apply smul_G_eq. nzpush. ring.
Qed.
Lemma equiv_pair B1 R1 B2 R2 U1 U2 c1 s1 c2 s2 e d e' d' :
  is_point B1 -> is_point R1 -> is_point B2 -> is_point R2 -> is_point U1 -> is_point U2 ->
  c1 mod N <> c2 mod N ->
  padd U1 (smul c1 R1) = smul e (smul s1 B1) -> padd U2 (smul c1 R2) = smul d (smul s1 B2) ->
  padd U1 (smul c2 R1) = smul e' (smul s2 B1) -> padd U2 (smul c2 R2) = smul d' (smul s2 B2) ->
  (d = e /\ d' = e') \/ (d = - e /\ d' = - e') ->
  R1 = smul (slope e e' s1 c1 s2 c2) B1 /\ pm (smul (slope e e' s1 c1 s2 c2) B2) R2.
Proof.
  intros ? ? ? ? ? ? D E1 E2 E3 E4 [[-> ->]|[-> ->]]; rewrite <- !smul_mul in E1, E2, E3, E4 by isp; unfold slope; split.
  - apply (slope_eq R1 B1 U1); assumption.
  - left. apply (slope_eq R2 B2 U2); assumption.
  - apply (slope_eq R1 B1 U1); assumption.
  - right. rewrite Z.mul_opp_l in E2, E4. apply (slope_neg R2 B2 U2); assumption.
Qed.
Lemma equiv_extract B1 R1 B2 R2 U1 U2 c1 s1 c2 s2 c3 s3 :
  is_point B1 -> is_point R1 -> is_point B2 -> is_point R2 -> is_point U1 -> is_point U2 ->
  c1 mod N <> c2 mod N -> c1 mod N <> c3 mod N -> c2 mod N <> c3 mod N ->
  (forall c s, In (c, s) [(c1, s1); (c2, s2); (c3, s3)] ->
     pm (smul s B1) (padd U1 (smul c R1)) /\ pm (smul s B2) (padd U2 (smul c R2))) ->
  exists e f t t', sgn e /\ sgn f /\ In (t, t') [((c1, s1), (c2, s2)); ((c1, s1), (c3, s3)); ((c2, s2), (c3, s3))] /\
    let x := slope e f (snd t) (fst t) (snd t') (fst t') in
    R1 = smul x B1 /\ (R2 = smul x B2 \/ R2 = pneg (smul x B2)).
Proof.
  intros HB1 HR1 HB2 HR2 HU1 HU2 D12 D13 D23 K.
  destruct (K c1 s1 (or_introl eq_refl)) as [Ka Kb]. destruct (K c2 s2 (or_intror (or_introl eq_refl))) as [Kc Kd].
  destruct (K c3 s3 (or_intror (or_intror (or_introl eq_refl)))) as [Ke Kf].
  apply pm_sgn in Ka as (e1 & S1 & E1); [|isp]. apply pm_sgn in Kb as (d1 & T1 & F1); [|isp].
  apply pm_sgn in Kc as (e2 & S2 & E2); [|isp]. apply pm_sgn in Kd as (d2 & T2 & F2); [|isp].
  apply pm_sgn in Ke as (e3 & S3 & E3); [|isp]. apply pm_sgn in Kf as (d3 & T3 & F3); [|isp].
  destruct (pigeon e1 d1 e2 d2 e3 d3 S1 T1 S2 T2 S3 T3) as [Q|[Q|Q]].
  - exists e1, e2, (c1, s1), (c2, s2). split; [exact S1|]. split; [exact S2|]. split; [left; reflexivity|]. cbn [fst snd].
    exact (equiv_pair B1 R1 B2 R2 U1 U2 c1 s1 c2 s2 e1 d1 e2 d2 HB1 HR1 HB2 HR2 HU1 HU2 D12 E1 F1 E2 F2 Q).
  - exists e1, e3, (c1, s1), (c3, s3). split; [exact S1|]. split; [exact S3|]. split; [right; left; reflexivity|]. cbn [fst snd].
    exact (equiv_pair B1 R1 B2 R2 U1 U2 c1 s1 c3 s3 e1 d1 e3 d3 HB1 HR1 HB2 HR2 HU1 HU2 D13 E1 F1 E3 F3 Q).
  - exists e2, e3, (c2, s2), (c3, s3). split; [exact S2|]. split; [exact S3|]. split; [right; right; left; reflexivity|]. cbn [fst snd].
    exact (equiv_pair B1 R1 B2 R2 U1 U2 c2 s2 c3 s3 e2 d2 e3 d3 HB1 HR1 HB2 HR2 HU1 HU2 D23 E2 F2 E3 F3 Q).
Qed.
Lemma cons_pair CM CT PK T1 T2 c1 a1 b1 c2 a2 b2 e d e' d' :
  is_point CM -> is_point CT -> is_point PK -> is_point T1 -> is_point T2 ->
  c1 mod N <> c2 mod N ->
  padd T1 (smul c1 CM) = smul e (ped a1 b1) -> padd T2 (smul c1 CT) = smul d (smul b1 PK) ->
  padd T1 (smul c2 CM) = smul e' (ped a2 b2) -> padd T2 (smul c2 CT) = smul d' (smul b2 PK) ->
  (d = e /\ d' = e') \/ (d = - e /\ d' = - e') ->
  CM = ped (slope e e' a1 c1 a2 c2) (slope e e' b1 c1 b2 c2) /\
  (CT = smul (slope e e' b1 c1 b2 c2) PK \/ CT = pneg (smul (slope e e' b1 c1 b2 c2) PK)).
Proof.
  intros ? ? ? ? ? D E1 E2 E3 E4 Q. rewrite smul_ped in E1, E3. split.
  - unfold slope. apply (slope_ped CM T1); assumption.
  - rewrite <- smul_mul in E2, E4 by isp. unfold slope. destruct Q as [[-> ->]|[-> ->]].
    + left. apply (slope_eq CT PK T2); assumption.
    + right. rewrite Z.mul_opp_l in E2, E4. apply (slope_neg CT PK T2); assumption.
Qed.
Lemma cons_extract CM CT PK T1 T2 c1 a1 b1 c2 a2 b2 c3 a3 b3 :
  is_point CM -> is_point CT -> is_point PK -> is_point T1 -> is_point T2 ->
  c1 mod N <> c2 mod N -> c1 mod N <> c3 mod N -> c2 mod N <> c3 mod N ->
  (forall c a b, In (c, a, b) [(c1, a1, b1); (c2, a2, b2); (c3, a3, b3)] ->
     pm (ped a b) (padd T1 (smul c CM)) /\ pm (smul b PK) (padd T2 (smul c CT))) ->
  exists e f c a b c' a' b', sgn e /\ sgn f /\
    In ((c, a, b), (c', a', b')) [((c1, a1, b1), (c2, a2, b2)); ((c1, a1, b1), (c3, a3, b3)); ((c2, a2, b2), (c3, a3, b3))] /\
    let v := slope e f a c a' c' in let r := slope e f b c b' c' in
    CM = ped v r /\ (CT = smul r PK \/ CT = pneg (smul r PK)).
Proof.
  intros H1 H2 H3 H4 H5 D12 D13 D23 K.
  destruct (K _ _ _ (or_introl eq_refl)) as [Ka Kb]. destruct (K _ _ _ (or_intror (or_introl eq_refl))) as [Kc Kd].
  destruct (K _ _ _ (or_intror (or_intror (or_introl eq_refl)))) as [Ke Kf].
  apply pm_sgn in Ka as (e1 & S1 & E1); [|isp]. apply pm_sgn in Kb as (d1 & U1 & F1); [|isp].
  apply pm_sgn in Kc as (e2 & S2 & E2); [|isp]. apply pm_sgn in Kd as (d2 & U2 & F2); [|isp].
  apply pm_sgn in Ke as (e3 & S3 & E3); [|isp]. apply pm_sgn in Kf as (d3 & U3 & F3); [|isp].
  destruct (pigeon e1 d1 e2 d2 e3 d3 S1 U1 S2 U2 S3 U3) as [Q|[Q|Q]].
  - exists e1, e2, c1, a1, b1, c2, a2, b2. split; [exact S1|]. split; [exact S2|]. split; [left; reflexivity|].
    exact (cons_pair CM CT PK T1 T2 c1 a1 b1 c2 a2 b2 e1 d1 e2 d2 H1 H2 H3 H4 H5 D12 E1 F1 E2 F2 Q).
  - exists e1, e3, c1, a1, b1, c3, a3, b3. split; [exact S1|]. split; [exact S3|]. split; [right; left; reflexivity|].
    exact (cons_pair CM CT PK T1 T2 c1 a1 b1 c3 a3 b3 e1 d1 e3 d3 H1 H2 H3 H4 H5 D13 E1 F1 E3 F3 Q).
  - exists e2, e3, c2, a2, b2, c3, a3, b3. split; [exact S2|]. split; [exact S3|]. split; [right; right; left; reflexivity|].
    exact (cons_pair CM CT PK T1 T2 c2 a2 b2 c3 a3 b3 e2 d2 e3 d3 H1 H2 H3 H4 H5 D23 E2 F2 E3 F3 Q).
Qed.

(** ** Equations of honest and simulated runs *)
Lemma resp_add B x u c : is_point B -> padd (smul u B) (smul c (smul x B)) = smul ((u + c * (x mod N)) mod N) B.
Proof. intros HB. destruct (dlog B HB) as [b ->]. gpush. apply smul_G_eq. nzpush. ring. Qed.
Lemma resp_flip B x u c : is_point B ->
  padd (pneg (smul u B)) (smul c (pneg (smul x B))) = pneg (smul ((u + c * (x mod N)) mod N) B).
Proof. intros HB. destruct (dlog B HB) as [b ->]. gpush. apply smul_G_eq. nzpush. ring. Qed.
Lemma resp_ped v r u1 u2 c : padd (ped u1 u2) (smul c (ped v r)) = ped ((u1 + (v mod N) * c) mod N) ((u2 + r * c) mod N).
Proof.
  unfold ped. destruct (dlog Htab is_point_Htab) as [h EH]. rewrite EH. gpush. apply smul_G_eq. nzpush. ring.
Qed.
Lemma resp_r B r u c : is_point B -> padd (smul u B) (smul c (smul r B)) = smul ((u + r * c) mod N) B.
Proof. intros HB. destruct (dlog B HB) as [b ->]. gpush. apply smul_G_eq. nzpush. ring. Qed.
Lemma resp_r_flip B r u c : is_point B ->
  padd (pneg (smul u B)) (smul c (pneg (smul r B))) = pneg (smul ((u + r * c) mod N) B).
Proof. intros HB. destruct (dlog B HB) as [b ->]. gpush. apply smul_G_eq. nzpush. ring. Qed.
Lemma sim_eq B x c s : is_point B -> smul ((s - c * x) mod N) B = padd (smul s B) (pneg (smul c (smul x B))).
Proof. intros HB. destruct (dlog B HB) as [b ->]. gpush. apply smul_G_eq. nzpush. ring. Qed.
Lemma sim_ped v r c s1 s2 : ped ((s1 - c * v) mod N) ((s2 - c * r) mod N) = padd (ped s1 s2) (pneg (smul c (ped v r))).
Proof.
  unfold ped. destruct (dlog Htab is_point_Htab) as [h EH]. rewrite EH. gpush. apply smul_G_eq. nzpush. ring.
Qed.
Lemma PedCommitR_addN zk v r k l : cN (zC zk) = N ->
  PedCommitR zk (Some (v + k * N)) (Some (r + l * N)) = PedCommitR zk (Some v) (Some r).
Proof. intros E. unfold PedCommitR. cbn [need bind]. rewrite E, !Z.mod_add by discriminate. reflexivity. Qed.
Lemma ped_0_1 : ped 0 1 = Htab.
Proof. unfold ped. rewrite smul_0, smul_1. apply padd_O_l. Qed.
