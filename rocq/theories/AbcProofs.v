(** * Proofs about the ABC and inequality proofs (proof only) *)
From Coq Require Import ZArith List Bool Lia Field.
From Verif Require Import NumTheory Go Wire Big Crypto Spec FieldP FieldN CurveZ CurveGroup EndoP Order Lambda
  SpecZk CodecProofs ZkBase PointProofs Gspfs GspfsProofs EqConsProofs Disjunctive DisjProofs Abc.
Import ListNotations.
Open Scope Z_scope.

Section P.
Variables (sha : list Z -> list Z) (zk : zkparams).
Hypothesis S : std zk.

Definition abcOut (CM CT : point) (v sk u1 u2 u3 ub uc : Z) (B C : point) (tok : ECPoint) (dj : option DisjunctiveProof) : ABCProof :=
  let T1 := padd (smul u1 G) (smul u2 (eff CT)) in
  let T2 := padd (smul u1 (eff B)) (smul u3 Htab) in
  let c := fs sha [G; Hgen; CM; CT; B; C; T1; T2] in
  MkABC (pt B) (pt C) (pt T1) (pt T2) (Some c) (Some ((u1 + v * c) mod N)) (Some ((u2 + ninv sk * c) mod N))
    (Some (u3 + (uc - v * ub) * c)) tok dj.
Lemma abcFinish_ok CM CT v sk u1 u2 u3 ub uc B C tok dj : is_point CM -> is_point CT -> is_point B -> is_point C ->
  abcFinish sha zk (pt CM) (pt CT) v sk u1 u2 u3 ub uc (pt B) (pt C) tok dj =
  if sk mod N =? 0 then Panic else Ok (Some (abcOut CM CT v sk u1 u2 u3 ub uc B C tok dj), None).
Proof.
  intros H1 H2 H3 H4. unfold abcFinish. zk S. chal S. destruct (Z.eqb_spec (sk mod N) 0) as [E|E].
  - rewrite modInverse_none by exact E. reflexivity.
  - rewrite modInverse_some by exact E. cbn [need bind]. reflexivity.
Qed.
Definition abcRn u1 u2 u3 ub uc d1 d2 d3 : abcRand := Build_abcRand (Some u1) (Some u2) (Some u3) (Some ub) (Some uc) d1 d2 d3.
Definition abcDisj (d : R (option DisjunctiveProof * option goerr)) (k : option DisjunctiveProof -> R (option ABCProof * option goerr)) :
  R (option ABCProof * option goerr) :=
  d' <- d; match snd d' with Some _ => Ok (Some emptyABC, Some EProof) | None => k (fst d') end.
Definition abcTok (sk uc : Z) : ECPoint := pt (smul uc (eff (smul sk Htab))).
Lemma abc_left CM CT sk u1 u2 u3 ub uc d1 d2 d3 : is_point CM -> is_point CT ->
  NewABCProof sha zk (pt CM) (pt CT) (Some 0) (Some sk) Left (abcRn u1 u2 u3 ub uc d1 d2 d3) =
  abcDisj (NewDisjunctiveProof sha zk (pt CM) (pt CT) (pt Hgen) (pt (padd (ped 0 uc) (pneg G))) (Some sk) Left d1 d2 d3)
    (fun dj => if sk mod N =? 0 then Panic else
               Ok (Some (abcOut CM CT 0 sk u1 u2 u3 ub uc (ped 0 ub) (ped 0 uc) (abcTok sk uc) dj), None)).
Proof.
  intros H1 H2. unfold NewABCProof, abcRn. cbn [ar1 ar2 ar3 arb arc ard1 ard2 ard3]. zk S.
  change ((Left =? Left) || (Left =? Right)) with true. cbv iota. cbn [need bind].
  change ((Left =? Left) && (0 =? 0)) with true. cbv iota. zk S. rewrite (std_G _ S), (std_H _ S). zk S.
  unfold abcDisj. destruct (NewDisjunctiveProof _ _ _ _ _ _ _ _ _ _ _) as [d|]; [|reflexivity]. cbn [bind].
  destruct (snd d); [reflexivity|]. cbn [need bind]. rewrite abcFinish_ok by isp. reflexivity.
Qed.
Lemma abc_right CM CT v sk u1 u2 u3 ub uc d1 d2 d3 : is_point CM -> is_point CT -> v mod N <> 0 ->
  NewABCProof sha zk (pt CM) (pt CT) (Some v) (Some sk) Right (abcRn u1 u2 u3 ub uc d1 d2 d3) =
  abcDisj (NewDisjunctiveProof sha zk (pt CM) (pt CT) (pt Hgen) (pt (padd (ped 1 uc) (pneg G))) (Some uc) Right d1 d2 d3)
    (fun dj => if sk mod N =? 0 then Panic else
               Ok (Some (abcOut CM CT v sk u1 u2 u3 ub uc (ped (ninv v) ub) (ped 1 uc) (abcTok sk uc) dj), None)).
Proof.
  intros H1 H2 Hv. unfold NewABCProof, abcRn. cbn [ar1 ar2 ar3 arb arc ard1 ard2 ard3]. zk S.
  change ((Right =? Left) || (Right =? Right)) with true. cbv iota. cbn [need bind].
  change (Right =? Left) with false. change (Right =? Right) with true. cbn [andb]. cbv iota.
  assert (V0 : (v =? 0) = false) by (apply Z.eqb_neq; intros ->; apply Hv; reflexivity). rewrite V0. cbn [negb].
  rewrite ?(cN_ok zk S), modInverse_some by exact Hv. zk S. rewrite (std_G _ S), (std_H _ S). zk S.
  unfold abcDisj. destruct (NewDisjunctiveProof _ _ _ _ _ _ _ _ _ _ _) as [d|]; [|reflexivity]. cbn [bind].
  destruct (snd d); [reflexivity|]. cbn [need bind]. rewrite abcFinish_ok by isp. reflexivity.
Qed.
Lemma abc_right_panic CM CT v sk u1 u2 u3 ub uc d1 d2 d3 : v <> 0 -> v mod N = 0 ->
  NewABCProof sha zk CM CT (Some v) (Some sk) Right (abcRn u1 u2 u3 ub uc d1 d2 d3) = Panic.
Proof.
  intros V0 Hv. unfold NewABCProof, abcRn. cbn [ar1 ar2 ar3 arb arc ard1 ard2 ard3]. zk S.
  change ((Right =? Left) || (Right =? Right)) with true. cbv iota. cbn [need bind].
  change (Right =? Left) with false. change (Right =? Right) with true. cbn [andb]. cbv iota.
  apply Z.eqb_neq in V0. rewrite V0. cbn [negb]. rewrite ?(cN_ok zk S), modInverse_none by exact Hv. reflexivity.
Qed.
Lemma abc_verify CM CT B C T1 T2 c j k l tok dj : is_point CM -> is_point CT -> is_point B -> is_point C -> is_point T1 -> is_point T2 ->
  accepts (ABCVerify sha (Some (MkABC (pt B) (pt C) (pt T1) (pt T2) (Some c) (Some j) (Some k) (Some l) tok dj)) zk (pt CM) (pt CT)) <->
  (exists b, DisjunctiveVerify sha dj zk (pt CM) (pt CT) (pt Hgen) (pt (padd C (pneg G))) = Ok (b, None)) /\
  fs sha [G; Hgen; CM; CT; B; C; T1; T2] = c /\
  pm (padd (smul c (eff CM)) T1) (padd (smul j G) (smul k (eff CT))) /\
  pm (padd (smul c (eff C)) T2) (padd (smul j (eff B)) (smul l Htab)).
Proof.
  intros. unfold ABCVerify. cbn [need bind abB abC abT1 abT2 abChallenge abj abk abl abDisj].
  rewrite (std_G _ S), (std_H _ S). zk S.
  destruct (DisjunctiveVerify sha dj zk _ _ _ _) as [[b [er|]]|]; cbn [bind snd].
  - split; intros K; [discriminate K|]. destruct K as [[b' K] _]. discriminate K.
  - chal S. cbn [need bind].
    destruct (Z.eqb_spec (fs sha [G; Hgen; CM; CT; B; C; T1; T2]) c) as [->|NE]; cbn [negb].
    2:{ split; intros K; [discriminate K|]. destruct K as (_ & K & _). contradiction. }
    zk S. rewrite eff_G. rewrite <- !xeqb by isp.
    destruct (_ =? _); cbn [negb].
    2:{ split; intros K; [discriminate K|]. destruct K as (_ & _ & K & _). discriminate K. }
    zk S. rewrite eff_Hgen. destruct (_ =? _); cbn [negb].
    2:{ split; intros K; [discriminate K|]. destruct K as (_ & _ & _ & K). discriminate K. }
    split; intros K; [|reflexivity]. split; [exists b; reflexivity|]. split; [reflexivity|]. split; reflexivity.
  - split; intros K; [discriminate K|]. destruct K as [[b' K] _]. discriminate K.
Qed.
(** the verifier's answers: true with no error, or false with an error *)
Lemma disj_verdict dj B1 R1 B2 R2 b : DisjunctiveVerify sha dj zk B1 R1 B2 R2 = Ok (b, None) -> b = true.
Proof.
  unfold DisjunctiveVerify. destruct dj as [pf|]; [|discriminate]. unfold bind, need.
  repeat match goal with |- context [match ?x with _ => _ end] => destruct x; try discriminate end; intros E; congruence.
Qed.
End P.

(** ** Equations *)
Lemma abc_eq1 v r sk u1 u2 c : sk mod N <> 0 ->
  let CM := ped v r in let CT := smul r (smul sk Htab) in
  padd (smul ((u1 + v * c) mod N) G) (smul ((u2 + ninv sk * c) mod N) CT) =
  padd (smul c CM) (padd (smul u1 G) (smul u2 CT)).
Proof.
  intros Hs CM CT. unfold CM, CT, ped. destruct (dlog Htab is_point_Htab) as [h EH]. rewrite EH. gpush. apply smul_G_eq.
  apply nz_nz in Hs. nzpush. field. exact Hs.
Qed.
Lemma abc_eq2 v b w u1 u3 ub uc c : (v * b) mod N = w mod N ->
  padd (smul ((u1 + v * c) mod N) (ped b ub)) (smul (u3 + (uc - v * ub) * c) Htab) =
  padd (smul c (ped w uc)) (padd (smul u1 (ped b ub)) (smul u3 Htab)).
Proof.
  intros E. unfold ped. destruct (dlog Htab is_point_Htab) as [h EH]. rewrite EH. gpush. apply smul_G_eq.
  apply nz_eq_iff in E. nzpush_in E. nzpush. lin E (nz c).
Qed.
Lemma ped_sub_G r : padd (ped 1 r) (pneg G) = smul r Htab.
Proof.
  unfold ped. destruct (dlog Htab is_point_Htab) as [h EH]. rewrite EH, smul_1. rewrite (padd_comm G) by isp.
  rewrite padd_assoc by isp. rewrite padd_pneg_r by isp. apply padd_O_r.
Qed.
Lemma left_token r sk : smul r (smul sk Htab) = smul sk (ped 0 r).
Proof.
  unfold ped. destruct (dlog Htab is_point_Htab) as [h EH]. rewrite EH. gpush. apply smul_G_eq. nzpush. ring.
Qed.
(** ** Extraction *)
Lemma slope2 R U X Y c1 t1 w1 c2 t2 w2 : is_point R -> is_point U -> is_point X -> is_point Y -> c1 mod N <> c2 mod N ->
  padd U (smul c1 R) = padd (smul t1 X) (smul w1 Y) -> padd U (smul c2 R) = padd (smul t2 X) (smul w2 Y) ->
  R = padd (smul (((t1 - t2) * ninv (c1 - c2)) mod N) X) (smul (((w1 - w2) * ninv (c1 - c2)) mod N) Y).
Proof.
  intros HR HU HX HY D E1 E2. apply diff_nz, nz_nz in D.
  destruct (dlog R HR) as [r ->]. destruct (dlog U HU) as [u ->]. destruct (dlog X HX) as [x ->]. destruct (dlog Y HY) as [y ->].
  gpush_in E1. gpush_in E2. gpush.
  apply smul_G_eq_inv in E1. apply smul_G_eq_inv in E2. nzpush_in E1. nzpush_in E2. apply smul_G_eq. nzpush. nzpush_in D.
  assert (Q : nmul (nz r) (nsub (nz c1) (nz c2)) = nadd (nmul (nsub (nz t1) (nz t2)) (nz x)) (nmul (nsub (nz w1) (nz w2)) (nz y))) by lin2 E1 n1 E2 (nopp n1).
  transitivity (nmul (nmul (nz r) (nsub (nz c1) (nz c2))) (ninvF (nsub (nz c1) (nz c2)))); [field; exact D|rewrite Q; ring].
Qed.
Lemma smul_lin e t w X Y : is_point X -> is_point Y ->
  smul e (padd (smul t X) (smul w Y)) = padd (smul (e * t) X) (smul (e * w) Y).
Proof. intros HX HY. destruct (dlog X HX) as [x ->]. destruct (dlog Y HY) as [y ->]. gpush. apply smul_G_eq. nzpush. ring. Qed.
Lemma slope2_neg R U X Y c1 t1 w1 c2 t2 w2 : is_point R -> is_point U -> is_point X -> is_point Y -> c1 mod N <> c2 mod N ->
  padd U (smul c1 R) = padd (smul (- t1) X) (smul (- w1) Y) -> padd U (smul c2 R) = padd (smul (- t2) X) (smul (- w2) Y) ->
  R = pneg (padd (smul (((t1 - t2) * ninv (c1 - c2)) mod N) X) (smul (((w1 - w2) * ninv (c1 - c2)) mod N) Y)).
Proof.
  intros HR HU HX HY D E1 E2. rewrite (slope2 R U X Y c1 (- t1) (- w1) c2 (- t2) (- w2)) by assumption.
  destruct (dlog X HX) as [x ->]. destruct (dlog Y HY) as [y ->]. gpush. apply smul_G_eq. nzpush. ring.
Qed.
Lemma abc_pair CM CT B C T1 T2 c j k l c' j' k' l' e d e' d' :
  is_point CM -> is_point CT -> is_point B -> is_point C -> is_point T1 -> is_point T2 -> c mod N <> c' mod N ->
  padd T1 (smul c CM) = smul e (padd (smul j G) (smul k CT)) -> padd T2 (smul c C) = smul d (padd (smul j B) (smul l Htab)) ->
  padd T1 (smul c' CM) = smul e' (padd (smul j' G) (smul k' CT)) -> padd T2 (smul c' C) = smul d' (padd (smul j' B) (smul l' Htab)) ->
  (d = e /\ d' = e') \/ (d = - e /\ d' = - e') ->
  CM = padd (smul (slope e e' j c j' c') G) (smul (slope e e' k c k' c') CT) /\
  (C = padd (smul (slope e e' j c j' c') B) (smul (slope e e' l c l' c') Htab) \/
   C = pneg (padd (smul (slope e e' j c j' c') B) (smul (slope e e' l c l' c') Htab))).
Proof.
  intros ? ? ? ? ? ? D E1 E2 E3 E4 Q. rewrite smul_lin in E1, E2, E3, E4 by isp. unfold slope. split.
  - apply (slope2 CM T1 G CT); try isp; assumption.
  - destruct Q as [[-> ->]|[-> ->]].
    + left. apply (slope2 C T2 B Htab); try isp; assumption.
    + right. rewrite !Z.mul_opp_l in E2, E4. apply (slope2_neg C T2 B Htab); try isp; assumption.
Qed.
Lemma abc_extract CM CT B C T1 T2 c1 j1 k1 l1 c2 j2 k2 l2 c3 j3 k3 l3 :
  is_point CM -> is_point CT -> is_point B -> is_point C -> is_point T1 -> is_point T2 ->
  c1 mod N <> c2 mod N -> c1 mod N <> c3 mod N -> c2 mod N <> c3 mod N ->
  (forall c j k l, In (c, j, k, l) [(c1, j1, k1, l1); (c2, j2, k2, l2); (c3, j3, k3, l3)] ->
     pm (padd (smul c CM) T1) (padd (smul j G) (smul k CT)) /\ pm (padd (smul c C) T2) (padd (smul j B) (smul l Htab))) ->
  exists e f c j k l c' j' k' l', sgn e /\ sgn f /\
    In ((c, j, k, l), (c', j', k', l')) [((c1, j1, k1, l1), (c2, j2, k2, l2)); ((c1, j1, k1, l1), (c3, j3, k3, l3)); ((c2, j2, k2, l2), (c3, j3, k3, l3))] /\
    let a := slope e f j c j' c' in let kk := slope e f k c k' c' in let ll := slope e f l c l' c' in
    CM = padd (smul a G) (smul kk CT) /\
    (C = padd (smul a B) (smul ll Htab) \/ C = pneg (padd (smul a B) (smul ll Htab))).
Proof.
  intros H1 H2 H3 H4 H5 H6 D12 D13 D23 K.
  destruct (K _ _ _ _ (or_introl eq_refl)) as [Ka Kb]. destruct (K _ _ _ _ (or_intror (or_introl eq_refl))) as [Kc Kd].
  destruct (K _ _ _ _ (or_intror (or_intror (or_introl eq_refl)))) as [Ke Kf].
  apply pm_sym in Ka; [|isp]. apply pm_sym in Kb; [|isp]. apply pm_sym in Kc; [|isp].
  apply pm_sym in Kd; [|isp]. apply pm_sym in Ke; [|isp]. apply pm_sym in Kf; [|isp].
  apply pm_sgn in Ka as (e1 & S1 & E1); [|isp]. apply pm_sgn in Kb as (d1 & U1 & F1); [|isp].
  apply pm_sgn in Kc as (e2 & S2 & E2); [|isp]. apply pm_sgn in Kd as (d2 & U2 & F2); [|isp].
  apply pm_sgn in Ke as (e3 & S3 & E3); [|isp]. apply pm_sgn in Kf as (d3 & U3 & F3); [|isp].
  rewrite padd_comm in E1, E2, E3, F1, F2, F3 by isp.
  destruct (pigeon e1 d1 e2 d2 e3 d3 S1 U1 S2 U2 S3 U3) as [Q|[Q|Q]].
  - exists e1, e2, c1, j1, k1, l1, c2, j2, k2, l2. split; [exact S1|]. split; [exact S2|]. split; [left; reflexivity|].
    exact (abc_pair CM CT B C T1 T2 c1 j1 k1 l1 c2 j2 k2 l2 e1 d1 e2 d2 H1 H2 H3 H4 H5 H6 D12 E1 F1 E2 F2 Q).
  - exists e1, e3, c1, j1, k1, l1, c3, j3, k3, l3. split; [exact S1|]. split; [exact S3|]. split; [right; left; reflexivity|].
    exact (abc_pair CM CT B C T1 T2 c1 j1 k1 l1 c3 j3 k3 l3 e1 d1 e3 d3 H1 H2 H3 H4 H5 H6 D13 E1 F1 E3 F3 Q).
  - exists e2, e3, c2, j2, k2, l2, c3, j3, k3, l3. split; [exact S2|]. split; [exact S3|]. split; [right; right; left; reflexivity|].
    exact (abc_pair CM CT B C T1 T2 c2 j2 k2 l2 c3 j3 k3 l3 e2 d2 e3 d3 H1 H2 H3 H4 H5 H6 D23 E2 F2 E3 F3 Q).
Qed.
Lemma leak_bound' u d y : 0 <= u < N -> N < 2 * d -> y = (u + y * d) / d \/ y = (u + y * d) / d - 1.
Proof.
  intros Hu Hd. rewrite Z.div_add by lia.
  assert (L : 0 <= u / d) by (apply Z.div_pos; lia).
  assert (M : u / d < 2) by (apply Z.div_lt_upper_bound; lia). lia.
Qed.
Lemma abc_complete_gen sha zk v r sk u1 u2 u3 ub uc b w tok dj : std zk -> sk mod N <> 0 -> (v * b) mod N = w mod N ->
  let CM := ped v r in let CT := smul r (smul sk Htab) in
  plain CM -> plain CT -> plain (ped b ub) -> plain (ped w uc) ->
  accepts (DisjunctiveVerify sha dj zk (pt CM) (pt CT) (pt Hgen) (pt (padd (ped w uc) (pneg G)))) ->
  accepts (ABCVerify sha (Some (abcOut sha CM CT v sk u1 u2 u3 ub uc (ped b ub) (ped w uc) tok dj)) zk (pt CM) (pt CT)).
Proof.
  intros S Hs E CM CT P1 P2 P3 P4 A. assert (H1 : is_point CM) by (unfold CM; isp). assert (H2 : is_point CT) by (unfold CT; isp).
  unfold abcOut. apply (abc_verify sha zk S); try isp. split; [exists true; exact A|]. split; [reflexivity|].
  rewrite (eff_plain CM), (eff_plain CT), (eff_plain (ped b ub)), (eff_plain (ped w uc)) by (isp || assumption).
  split; left; [apply abc_eq1; exact Hs|apply abc_eq2; exact E].
Qed.
Lemma plain_3 : plain (ped 0 1) /\ plain (smul 1 Htab) /\ plain (smul 1 (smul 1 Htab)).
Proof. rewrite ped_0_1, !smul_1. split; [|split]; exact plain_Htab. Qed.
Lemma ped_sub a r b s : padd (ped a r) (pneg (ped b s)) = ped (a - b) (r - s).
Proof. rewrite ped_neg, ped_add. reflexivity. Qed.
Lemma ped_sub_at a r b s x y : a - b = x -> r - s = y -> plain (ped x y) -> plain (padd (ped a r) (pneg (ped b s))).
Proof. intros <- <-. rewrite ped_sub. exact (fun H => H). Qed.
Lemma tok_sub_at a b t x : is_point t -> a - b = x -> plain (smul x t) -> plain (padd (smul a t) (pneg (smul b t))).
Proof. intros H <-. unfold Z.sub. rewrite smul_add, smul_opp by isp. exact (fun H => H). Qed.
Lemma ped_1_0 : ped 1 0 = G.
Proof. unfold ped. rewrite smul_0, smul_1. apply padd_O_r. Qed.
