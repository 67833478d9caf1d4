(** * What accepted proofs say about the committed values (proof only) *)
From Coq Require Import ZArith List Lia Bool Field.
From Verif Require Import NumTheory Go Wire Big Crypto Spec FieldP FieldN CurveZ CurveGroup EndoP Order Lambda
  SpecZk CodecProofs ZkBase PointProofs Gspfs GspfsProofs EqConsProofs Disjunctive DisjProofs PropDisj Abc AbcProofs PropAbc SpecMeaning.
Import ListNotations.
Open Scope Z_scope.

Lemma log_from a b : b mod N <> 0 -> smul b Htab = smul a G -> Htab = smul (quot a b) G.
Proof.
  intros D E. unfold quot. destruct (ZkBase.dlog Htab is_point_Htab) as [h EH]. rewrite EH in *. gpush_in E. apply smul_G_eq_inv in E.
  nzpush_in E. apply smul_G_eq. nzpush. apply nz_nz in D. 
  transitivity (nmul (nmul (nz b) (nz h)) (ninvF (nz b))); [field; exact D|]. rewrite E. ring.
Qed.
Lemma log_zero a b : b mod N = 0 -> smul b Htab = smul a G -> a mod N = 0.
Proof.
  intros D E. rewrite <- (smul_mod b), D, smul_0 in E by isp. change O with (smul 0 G) in E. apply smul_G_eq_inv in E.
  apply nz_eq_iff in E. rewrite <- E. reflexivity.
Qed.
Lemma log_either a b : smul b Htab = smul a G -> a mod N = 0 /\ b mod N = 0 \/ Htab = smul (quot a b) G.
Proof.
  intros E. destruct (Z.eq_dec (b mod N) 0) as [D|D]; [left; split; [exact (log_zero a b D E)|exact D]|right; exact (log_from a b D E)].
Qed.
(** the two relations of the main proof and the token *)
Lemma mean_a v r sk a kk : ped v r = padd (smul a G) (smul kk (smul r (smul sk Htab))) ->
  a mod N = v mod N \/ Htab = smul (quot (a - v) (r - kk * (r * sk))) G.
Proof.
  intros E. assert (Q : smul (r - kk * (r * sk)) Htab = smul (a - v) G).
  { unfold ped in E. destruct (ZkBase.dlog Htab is_point_Htab) as [h EH]. rewrite EH in *. gpush_in E. apply smul_G_eq_inv in E.
    nzpush_in E. gpush. apply smul_G_eq. nzpush. lin E n1. }
  destruct (log_either _ _ Q) as [[D _]|L]; [left|right; exact L].
  destruct (Z.eq_dec (a mod N) (v mod N)) as [K|K]; [exact K|]. exfalso. exact (diff_nz a v K D).
Qed.
Lemma mean_left v r sk x : r mod N <> 0 -> sk mod N <> 0 -> smul r (smul sk Htab) = smul x (ped v r) ->
  v mod N = 0 \/ Htab = smul (quot (x * v) (r * sk - x * r)) G.
Proof.
  intros Hr Hs E. assert (Q : smul (r * sk - x * r) Htab = smul (x * v) G).
  { unfold ped in E. destruct (ZkBase.dlog Htab is_point_Htab) as [h EH]. rewrite EH in *. gpush_in E. apply smul_G_eq_inv in E.
    nzpush_in E. gpush. apply smul_G_eq. nzpush. lin E n1. }
  destruct (log_either _ _ Q) as [[D1 D2]|L]; [left|right; exact L].
  apply nz_nz in Hr, Hs. change 0 with (0 mod N) in D1, D2. apply nz_eq_iff in D1, D2. nzpush_in D1. nzpush_in D2.
  change 0 with (0 mod N). apply nz_eq_iff.
  assert (X : nz x = nz sk).
  { transitivity (nmul (nmul (nz x) (nz r)) (ninvF (nz r))); [field; exact Hr|].
    transitivity (nmul (nmul (nz sk) (nz r)) (ninvF (nz r))); [|field; exact Hr]. f_equal. lin D2 (nopp n1). }
  rewrite X in D1. transitivity (nmul (nmul (nz sk) (nz v)) (ninvF (nz sk))); [field; exact Hs|]. rewrite D1. change (nz 0) with n0. ring.
Qed.
Lemma one_nz : 1 mod N <> 0. Proof. discriminate. Qed.
Lemma mean_right w u C : padd C (pneg G) = smul u Htab -> is_point C -> C = ped 1 u /\ (C = smul w Htab -> Htab = smul (quot 1 (w - u)) G).
Proof.
  intros E HC. assert (EC : C = ped 1 u).
  { unfold ped. rewrite <- E. destruct (ZkBase.dlog C HC) as [c ->].
    replace (pneg G) with (smul (-1) G) by (change (-1) with (Z.opp 1); rewrite smul_opp, smul_1 by isp; reflexivity).
    gpush. apply smul_G_eq. nzpush. ring. }
  split; [exact EC|]. intros E2. assert (Q : smul (w - u) Htab = smul 1 G).
  { rewrite E2 in EC. unfold ped in EC. destruct (ZkBase.dlog Htab is_point_Htab) as [h EH]. rewrite EH in *. gpush_in EC. apply smul_G_eq_inv in EC.
    nzpush_in EC. gpush. apply smul_G_eq. nzpush. lin EC n1. }
  destruct (log_either _ _ Q) as [[D _]|L]; [discriminate D|exact L].
Qed.

Lemma slopeOf_in ts e f c s c' s' : sgn e -> sgn f -> In (c, s) ts -> In (c', s') ts -> c mod N <> c' mod N -> slopeOf ts (slope e f s c s' c').
Proof. intros. exists e, f, c, s, c', s'. tauto. Qed.
Lemma sgn_opp e : sgn e -> sgn (- e). Proof. intros [-> | ->]; [right|left]; reflexivity. Qed.
Lemma slopeOf_neg ts x : slopeOf ts x -> exists y, slopeOf ts y /\ y mod N = (- x) mod N.
Proof.
  intros (e & f & c & s & c' & s' & He & Hf & I1 & I2 & D & ->). exists (slope (- e) (- f) s c s' c'). split.
  - exists (- e), (- f), c, s, c', s'. repeat split; try assumption; apply sgn_opp; assumption.
  - apply nz_eq_iff. unfold slope. nzpush. ring.
Qed.
Lemma pm_zero B C a w : is_point B -> is_point C -> a mod N = 0 ->
  C = padd (smul a B) (smul w Htab) \/ C = pneg (padd (smul a B) (smul w Htab)) -> C = smul w Htab \/ C = smul (- w) Htab.
Proof.
  intros HB HC A. rewrite <- (smul_mod a B) by isp. rewrite A, smul_0, padd_O_l.
  intros [-> | ->]; [left; reflexivity|right]. rewrite smul_opp by isp. reflexivity.
Qed.
(** ** Proofs of false statements when a hypothesis is dropped *)
Lemma mean_token sha zk CM x u1 u2 u3 ub uc d1 d2 d3 : std zk -> x mod N <> 0 -> is_point CM -> plain CM ->
  let CT := smul x CM in plain CT -> plain (ped 0 ub) -> plain (ped 0 uc) ->
  exists pf, NewABCProof sha zk (pt CM) (pt CT) (Some 0) (Some x) Left
               (Build_abcRand (Some u1) (Some u2) (Some u3) (Some ub) (Some uc) (Some d1) (Some d2) (Some d3)) = Ok (Some pf, None) /\
             abC pf = pt (ped 0 uc) /\ accepts (ABCVerify sha (Some pf) zk (pt CM) (pt CT)).
Proof.
  intros S Hx H1 P1 CT P2 P3 P4. assert (H2 : is_point CT) by (unfold CT; isp).
  fold (abcRn u1 u2 u3 ub uc (Some d1) (Some d2) (Some d3)). rewrite (abc_left sha zk S) by assumption.
  assert (EC : CT = smul x (eff CM)) by (rewrite eff_plain by assumption; reflexivity).
  destruct (C32_disjunctive_complete_left sha zk CM Hgen (padd (ped 0 uc) (pneg G)) x d1 d2 d3 S) as (dj & E & A); try isp.
  { rewrite <- EC. exact P2. }
  rewrite <- EC in E, A. rewrite E. cbn [abcDisj bind snd fst]. pose proof Hx as Hx'. apply Z.eqb_neq in Hx'. rewrite Hx'. eexists. split; [reflexivity|].
  split; [reflexivity|].
  unfold abcOut. apply (abc_verify sha zk S); try isp. split; [exists true; exact A|]. split; [reflexivity|].
  rewrite (eff_plain CM), (eff_plain CT), (eff_plain (ped 0 ub)), (eff_plain (ped 0 uc)) by (isp || assumption).
  split; left; [|apply abc_eq2; reflexivity].
  unfold CT. generalize (fs sha [G; Hgen; CM; smul x CM; ped 0 ub; ped 0 uc; padd (smul u1 G) (smul u2 (smul x CM)); padd (smul u1 (ped 0 ub)) (smul u3 Htab)]).
  intros c. destruct (ZkBase.dlog CM H1) as [m ->]. gpush. apply smul_G_eq. apply nz_nz in Hx. nzpush. field. exact Hx.
Qed.
Lemma mean_unblinded sha zk v : std zk ->
  let CM := ped v 0 in let CT := O in plain CM ->
  exists pf, abC pf = pt (ped 0 1) /\ accepts (ABCVerify sha (Some pf) zk (pt CM) (pt CT)).
Proof.
  intros S CM CT P1. assert (H1 : is_point CM) by (unfold CM; isp). assert (H2 : is_point CT) by (left; reflexivity).
  destruct plain_3 as (Q & _). assert (P2 : plain CT) by exact plain_O.
  assert (EC : CT = smul 0 (eff CM)) by (rewrite smul_0; reflexivity).
  destruct (C32_disjunctive_complete_left sha zk CM Hgen (padd (ped 0 1) (pneg G)) 0 1 1 1 S) as (dj & E & A); try isp.
  { rewrite <- EC. exact P2. }
  rewrite <- EC in E, A. exists (abcOut sha CM CT v 1 1 1 1 1 1 (ped 0 1) (ped 0 1) (pt O) (Some dj)). split; [reflexivity|].
  unfold abcOut. apply (abc_verify sha zk S); try isp. split; [exists true; exact A|]. split; [reflexivity|].
  rewrite (eff_plain CM), (eff_plain CT), (eff_plain (ped 0 1)) by (isp || assumption).
  split; left; [|apply abc_eq2; rewrite Z.mul_0_r; reflexivity].
  generalize (fs sha [G; Hgen; CM; CT; ped 0 1; ped 0 1; padd (smul 1 G) (smul 1 CT); padd (smul 1 (ped 0 1)) (smul 1 Htab)]).
  intros c. unfold CM, CT. unfold ped. rewrite O_smul. destruct (ZkBase.dlog Htab is_point_Htab) as [h EH]. rewrite EH.
  gpush. apply smul_G_eq. nzpush. ring.
Qed.
(** ** A concrete case *)
Lemma point_eq_dec (p q : point) : {p = q} + {p <> q}.
Proof. destruct p as [a b], q as [c d]. destruct (Z.eq_dec a c) as [->|H]; [|right; congruence]. destruct (Z.eq_dec b d) as [->|H]; [left; reflexivity|right; congruence]. Qed.
Lemma NoDup_map_in {A B} (f : A -> B) l : (forall a b, In a l -> In b l -> f a = f b -> a = b) -> NoDup l -> NoDup (map f l).
Proof.
  induction l as [|a l IH]; intros H D; cbn [map]; [constructor|]. inversion D; subst. constructor.
  - intros I. apply in_map_iff in I. destruct I as (b & E & I). rewrite (H b a) in I; [contradiction|right; exact I|left; reflexivity|exact E].
  - apply IH; [|assumption]. intros x y I1 I2. apply H; right; assumption.
Qed.
Lemma pick (bad : list point) : (length bad <= 9)%nat -> exists k, 1 <= k <= 10 /\ ~ In (smul k Htab) bad.
Proof.
  intros L. set (ks := [1; 2; 3; 4; 5; 6; 7; 8; 9; 10]).
  destruct (Exists_dec (fun k => ~ In (smul k Htab) bad) ks) as [E|E].
  { intros k. destruct (in_dec point_eq_dec (smul k Htab) bad) as [I|I]; [right; tauto|left; exact I]. }
  - apply Exists_exists in E. destruct E as (k & I & Nk). exists k. split; [|exact Nk]. cbn [In ks] in I. lia.
  - exfalso. assert (I : incl (map (fun k => smul k Htab) ks) bad).
    { intros p Hp. apply in_map_iff in Hp. destruct Hp as (k & <- & Hk). destruct (in_dec point_eq_dec (smul k Htab) bad) as [J|J]; [exact J|].
      exfalso. apply E. apply Exists_exists. exists k. split; assumption. }
    apply NoDup_incl_length in I; [rewrite map_length in I; cbn [length ks] in I; lia|].
    apply NoDup_map_in.
    + intros a b Ia Ib Eab. apply smul_inj_pt in Eab; [|exact Htab_on_curve]. cbn [In ks] in Ia, Ib.
      rewrite !Z.mod_small in Eab by (change N with 0xFFFFFFFFFFFFFFFFFFFFFFFFFFFFFFFEBAAEDCE6AF48A03BBFD25E8CD0364141; lia). exact Eab.
    + unfold ks. repeat constructor; cbn [In]; lia.
Qed.
Lemma pick_plain : exists k, plain (smul k Htab) /\ plain (padd (smul k Htab) (pneg G)).
Proof.
  destruct (pick [pneg G; Hgen; pneg Hgen; O; padd Hgen G; padd (pneg Hgen) G] ltac:(cbn [length]; lia)) as (k & _ & I).
  exists k. cbn [In] in I. 
  assert (K : forall q, padd (smul k Htab) (pneg G) = q -> smul k Htab = padd q G).
  { intros q <-. rewrite padd_assoc by isp. rewrite (padd_comm (pneg G)) by isp. rewrite padd_pneg_r by isp. rewrite padd_O_r. reflexivity. }
  split; (split; [|split]); intros E.
  - apply I. left. symmetry. exact E.
  - apply I. right; left. symmetry. exact E.
  - apply I. right; right; left. symmetry. exact E.
  - apply K in E. rewrite padd_comm, padd_pneg_r in E by isp. apply I. do 3 right. left. symmetry. exact E.
  - apply K in E. apply I. do 4 right. left. symmetry. exact E.
  - apply K in E. apply I. do 5 right. left. symmetry. exact E.
Qed.
