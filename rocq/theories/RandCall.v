(** * The functions that draw, over the bytes of the source *)
From Coq Require Import ZArith List Bool Lia.
From Verif Require Import Go Wire Big Crypto Spec SpecZk CodecProofs FieldProofs CurveGroup Order ZkBase PointProofs GspfsProofs EqConsProofs
  Gspfs Equivalence Consistency Range Precompute PubKey PubKeyProofs Rand SpecRand RandProofs RandSched RandCount RandSeq RandTape.
Import ListNotations.
Open Scope Z_scope.

Lemma asMany_ext L (P Q P' Q' : list Z -> Prop) : (forall t, tape L t -> (P' t <-> P t)) -> (forall t, tape L t -> (Q' t <-> Q t)) -> asMany L P Q -> asMany L P' Q'.
Proof.
  intros HP HQ (f & g & H). exists f, g. intros t Ht. destruct (H t Ht) as (T1 & T2 & E1 & E2 & E). repeat (split; [assumption|]).
  rewrite (HP t Ht), (HQ (f t) T1). exact E.
Qed.
Lemma N_gt1 : 1 < N. Proof. reflexivity. Qed.
Lemma draw_fst max t : fst (draw max t) = match allSome (drawN 1 max t) with Some (v :: _) => Some v | _ => None end.
Proof. cbn [drawN]. unfold draw. destruct (randInt max t); reflexivity. Qed.
Lemma below1 max d : below max 1 d -> exists v, d = [v] /\ 0 <= v < max.
Proof. intros [L F]. destruct d as [|v [|w d]]; try discriminate L. exists v. inversion F; auto. Qed.
Lemma below2 max d : below max 2 d -> exists v w, d = [v; w] /\ 0 <= v < max /\ 0 <= w < max.
Proof. intros [L F]. destruct d as [|v [|w [|x d]]]; try discriminate L. exists v, w. inversion F as [|? ? H1 F1]; subst. inversion F1; auto. Qed.

(** ** Commitments and keys *)
Section Std.
Variable zk : zkparams.
Hypothesis S : std zk.
Lemma commit_many L v v' c c' : is_point c -> is_point c' ->
  asMany L (fun t => exists u, PedCommitT zk (Some v) t = Ok (pt c, u, None)) (fun t => exists u, PedCommitT zk (Some v') t = Ok (pt c', u, None)).
Proof.
  intros Hc Hc'. destruct (ped_hiding c v Hc) as (r & [Hr Er] & U). destruct (ped_hiding c' v' Hc') as (r' & [Hr' Er'] & U').
  assert (X : forall w p q, (scalar q /\ ped w q = p) -> (forall y, scalar y /\ ped w y = p -> q = y) -> forall t, tape L t ->
    ((exists u, PedCommitT zk (Some w) t = Ok (pt p, u, None)) <-> allSome (drawN 1 N t) = Some [q])).
  { intros w p q [Hq Eq] Uq t [Ot _]. unfold PedCommitT. rewrite (cN_ok zk S), draw_seq. unfold draw.
    destruct (randInt N t) as [x rest|e rest|] eqn:E; cbn [fst PedCommit].
    - rewrite (PedCommitR_ok zk S). cbn [bind]. split.
      + intros [u Q]. assert (Q2 : pt (ped w x) = pt p) by congruence. apply pt_inj in Q2. do 2 f_equal. symmetry. apply Uq. split; [|exact Q2].
        apply (randInt_spec N t N_gt1 Ot) in E. apply firstGood_range in E. exact E.
      + intros Q. injection Q as ->. rewrite Eq. exists (Some q). reflexivity.
    - split; [intros [u Q]; discriminate Q|discriminate].
    - split; [intros [u Q]; discriminate Q|discriminate]. }
  apply (asMany_ext L (fun t => allSome (drawN 1 N t) = Some [r]) (fun t => allSome (drawN 1 N t) = Some [r'])).
  - apply X; [split; assumption|exact U].
  - apply X; [split; assumption|exact U'].
  - apply (uniform_many N N_gt1); assumption.
Qed.

(** ** Proofs and simulated proofs *)
(** a proof made from one draw, and a simulation that draws something else *)
Lemma one_draw {A} L (F G : option Z -> A) (b b' : Z -> Z) (r : A) : F None = G None ->
  (forall u, scalar u -> scalar (b u) /\ b' (b u) = u /\ F (Some u) = G (Some (b u))) ->
  (forall u, scalar u -> scalar (b' u) /\ b (b' u) = u) ->
  asMany L (fun t => F (fst (draw N t)) = r) (fun t => G (fst (draw N t)) = r).
Proof.
  intros E0 H H'. pose (hd1 := fun o : option (list Z) => match o with Some (v :: _) => Some v | _ => None end).
  apply (asMany_ext L (fun t => F (hd1 (allSome (drawN 1 N t))) = r) (fun t => G (hd1 (allSome (drawN 1 N t))) = r)).
  1, 2: intros t _; rewrite draw_fst; reflexivity.
  apply (asMany_seq N N_gt1 1 (map b) (map b') L (fun o => F (hd1 o) = r) (fun o => G (hd1 o) = r)).
  - intros d Hd. destruct (below1 N d Hd) as (v & -> & Hv). destruct (H v Hv) as (P & Q & _). cbn [map]. rewrite Q.
    split; [split; [reflexivity|constructor; [exact P|constructor]]|reflexivity].
  - intros d Hd. destruct (below1 N d Hd) as (v & -> & Hv). destruct (H' v Hv) as (P & Q). cbn [map]. rewrite Q.
    split; [split; [reflexivity|constructor; [exact P|constructor]]|reflexivity].
  - cbn [hd1]. rewrite E0. reflexivity.
  - intros d Hd. destruct (below1 N d Hd) as (v & -> & Hv). destruct (H v Hv) as (_ & _ & E). cbn [hd1 map]. rewrite E. reflexivity.
Qed.
Lemma shift_ok a u : scalar u -> scalar ((u + a) mod N) /\ ((u + a) mod N - a) mod N = u.
Proof.
  intros Hu. split; [apply Z.mod_pos_bound; reflexivity|]. rewrite Zminus_mod_idemp_l. replace (u + a - a) with u by ring. apply Z.mod_small. exact Hu.
Qed.
Lemma shift_ok' a u : scalar u -> scalar ((u - a) mod N) /\ ((u - a) mod N + a) mod N = u.
Proof.
  intros Hu. split; [apply Z.mod_pos_bound; reflexivity|]. rewrite Zplus_mod_idemp_l. replace (u - a + a) with u by ring. apply Z.mod_small. exact Hu.
Qed.
Variable sha : list Z -> list Z.
Variable c : Z.
Hypothesis Hsha : forall ps, fs sha ps = c.

Lemma gspfs_many L B x r : is_point B -> plain B ->
  asMany L (fun t => NewGSPFSProofBaseT sha zk (pt B) (pt (smul x B)) (Some x) t = r) (fun t => simGSPFS B (smul x B) c t = r).
Proof.
  intros HB PB. pose (G := fun o => match o with
    | Some v => Ok (Some (MkGSPFS (pt B) (pt (padd (smul v B) (smul c (smul x B)))) (Some v) (Some c)), None)
    | None => Ok (None : option GSPFSProof, Some ERand) end).
  apply (asMany_ext L (fun t => NewGSPFSProofBase sha zk (pt B) (pt (smul x B)) (Some x) (fst (draw N t)) = r) (fun t => G (fst (draw N t)) = r)).
  - intros t _. unfold NewGSPFSProofBaseT. rewrite (cN_ok zk S). reflexivity.
  - intros t _. reflexivity.
  - apply (one_draw L _ _ (fun u => (u - c * x) mod N) (fun u => (u + c * x) mod N)).
    + rewrite (gspfs_prove sha zk S) by isp. rewrite Z.eqb_refl. reflexivity.
    + intros u Hu. destruct (shift_ok' (c * x) u Hu) as [P Q]. split; [exact P|]. split; [exact Q|].
      rewrite (gspfs_prove sha zk S) by isp. rewrite Z.eqb_refl, eff_plain by assumption. cbv zeta. rewrite Hsha. unfold G.
      do 2 f_equal. assert (E : (u - c * (x mod N)) mod N = (u - c * x) mod N).
      { rewrite Zminus_mod, Zmult_mod_idemp_r, <- Zminus_mod. reflexivity. }
      rewrite E. do 3 f_equal. rewrite smul_mod by isp. rewrite <- smul_mul, <- smul_add by isp. f_equal. ring.
    + intros u Hu. apply (shift_ok (c * x) u Hu).
Qed.
Lemma sim_move B x s : is_point B -> smul ((s - c * x) mod N) B = padd (smul s B) (pneg (smul c (smul x B))).
Proof. intros HB. rewrite smul_mod, <- smul_mul, <- smul_opp, <- smul_add by isp. f_equal. Qed.
Lemma equiv_many L B1 B2 x r : is_point B1 -> is_point B2 ->
  asMany L (fun t => NewEquivalenceProofT sha zk (pt B1) (pt (smul x (eff B1))) (pt B2) (pt (smul x (eff B2))) (Some x) t = r)
    (fun t => simEquivalence B1 (smul x (eff B1)) B2 (smul x (eff B2)) c t = r).
Proof.
  intros H1 H2. pose (G := fun o => match o with
    | Some v => Ok (Some (MkEquiv (pt (padd (smul v (eff B1)) (pneg (smul c (smul x (eff B1)))))) (pt (padd (smul v (eff B2)) (pneg (smul c (smul x (eff B2)))))) (Some c) (Some v)), None)
    | None => Ok (None : option EquivalenceProof, Some ERand) end).
  apply (asMany_ext L (fun t => NewEquivalenceProof sha zk (pt B1) (pt (smul x (eff B1))) (pt B2) (pt (smul x (eff B2))) (Some x) (fst (draw N t)) = r) (fun t => G (fst (draw N t)) = r)).
  - intros t _. unfold NewEquivalenceProofT. rewrite (cN_ok zk S). reflexivity.
  - intros t _. reflexivity.
  - apply (one_draw L _ _ (fun u => (u + c * x) mod N) (fun u => (u - c * x) mod N)).
    + rewrite (equiv_prove sha zk S) by isp. rewrite !Z.eqb_refl. reflexivity.
    + intros u Hu. destruct (shift_ok (c * x) u Hu) as [P Q]. split; [exact P|]. split; [exact Q|].
      rewrite (equiv_prove sha zk S) by isp. rewrite !Z.eqb_refl. cbn [andb]. cbv zeta. rewrite Hsha. unfold G.
      assert (E : (u + c * (x mod N)) mod N = (u + c * x) mod N) by (rewrite Zplus_mod, Zmult_mod_idemp_r, <- Zplus_mod; reflexivity).
      rewrite E. rewrite <- !sim_move by isp. rewrite Q. reflexivity.
    + intros u Hu. apply (shift_ok' (c * x) u Hu).
Qed.
Lemma cons_many L PK v r0 r : is_point PK ->
  asMany L (fun t => NewConsistencyProofT sha zk (pt (ped v r0)) (pt (smul r0 (eff PK))) (pt PK) (Some v) (Some r0) t = r)
    (fun t => simConsistency (ped v r0) (smul r0 (eff PK)) PK c t = r).
Proof.
  intros HP. set (CM := ped v r0). set (CT := smul r0 (eff PK)).
  pose (F := fun o : option (list Z) => match o with
    | Some [a; b] => NewConsistencyProof sha zk (pt CM) (pt CT) (pt PK) (Some v) (Some r0) (Some a) (Some b)
    | _ => Ok (None : option ConsistencyProof, Some ERand) end).
  pose (G := fun o : option (list Z) => match o with
    | Some [s1; s2] => Ok (Some (MkCons (pt (padd (ped s1 s2) (pneg (smul c CM)))) (pt (padd (smul s2 (eff PK)) (pneg (smul c CT)))) (Some c) (Some s1) (Some s2)), None)
    | _ => Ok (None : option ConsistencyProof, Some ERand) end).
  assert (IC : is_point CM) by (unfold CM; isp). assert (IT : is_point CT) by (unfold CT; isp).
  assert (Fail : forall a b, a = None \/ b = None -> NewConsistencyProof sha zk (pt CM) (pt CT) (pt PK) (Some v) (Some r0) a b = Ok (None, Some ERand)).
  { intros a b Hab. rewrite (cons_prove sha zk S) by assumption. unfold CM, CT. rewrite !Z.eqb_refl. cbn [andb].
    destruct Hab as [->| ->]; [reflexivity|]. destruct a; reflexivity. }
  apply (asMany_ext L (fun t => F (allSome (drawN 2 N t)) = r) (fun t => G (allSome (drawN 2 N t)) = r)).
  - intros t _. unfold NewConsistencyProofT. rewrite (cN_ok zk S). cbv zeta. unfold nthDraw. cbn [drawN nth allSome].
    destruct (fst (draw N t)) as [a|]; [|rewrite Fail by (left; reflexivity); reflexivity].
    destruct (fst (draw N (snd (draw N t)))) as [b|]; [reflexivity|]. rewrite Fail by (right; reflexivity). reflexivity.
  - intros t _. unfold simConsistency. cbn [drawN allSome]. destruct (fst (draw N t)) as [a|]; [|reflexivity].
    destruct (fst (draw N (snd (draw N t)))) as [b|]; reflexivity.
  - apply (asMany_seq N N_gt1 2
      (fun d => match d with [a; b] => [(a + c * v) mod N; (b + c * r0) mod N] | _ => d end)
      (fun d => match d with [a; b] => [(a - c * v) mod N; (b - c * r0) mod N] | _ => d end) L (fun o => F o = r) (fun o => G o = r)).
    + intros d Hd. destruct (below2 N d Hd) as (a & b & -> & Ha & Hb). destruct (shift_ok (c * v) a Ha) as [P1 Q1], (shift_ok (c * r0) b Hb) as [P2 Q2].
      rewrite Q1, Q2. split; [|reflexivity]. split; [reflexivity|]. constructor; [exact P1|constructor; [exact P2|constructor]].
    + intros d Hd. destruct (below2 N d Hd) as (a & b & -> & Ha & Hb). destruct (shift_ok' (c * v) a Ha) as [P1 Q1], (shift_ok' (c * r0) b Hb) as [P2 Q2].
      rewrite Q1, Q2. split; [|reflexivity]. split; [reflexivity|]. constructor; [exact P1|constructor; [exact P2|constructor]].
    + reflexivity.
    + intros d Hd. destruct (below2 N d Hd) as (a & b & -> & Ha & Hb). unfold F, G.
      rewrite (cons_prove sha zk S) by assumption. unfold CM at 1, CT at 1. rewrite !Z.eqb_refl. cbn [andb]. cbv zeta. rewrite Hsha.
      assert (E1 : (a + v mod N * c) mod N = (a + c * v) mod N) by (rewrite (Z.mul_comm (v mod N)), Zplus_mod, Zmult_mod_idemp_r, <- Zplus_mod; reflexivity).
      rewrite E1, (Z.mul_comm r0 c).
      assert (E2 : padd (ped ((a + c * v) mod N) ((b + c * r0) mod N)) (pneg (smul c CM)) = ped a b).
      { unfold CM, ped. rewrite !smul_mod by isp. destruct (dlog Htab is_point_Htab) as [h EH]. rewrite EH. gpush. f_equal. ring. }
      assert (E3 : padd (smul ((b + c * r0) mod N) (eff PK)) (pneg (smul c CT)) = smul b (eff PK)).
      { unfold CT. rewrite smul_mod by isp. assert (Hq : is_point (eff PK)) by isp. destruct (dlog (eff PK) Hq) as [h EH]. rewrite EH. gpush. f_equal. ring. }
      rewrite E2, E3. reflexivity.
Qed.
End Std.

(** ** Range proofs: the schedule of the goroutines does not change the chances *)
Lemma range_many sha zk L value pick pick' r : std zk ->
  scheduler N (2 * proofSize) pick -> scheduler N (2 * proofSize) pick' ->
  asMany L (fun t => NewRangeProofT sha zk value pick t = r) (fun t => NewRangeProofT sha zk value pick' t = r).
Proof.
  intros S P P'. pose (F := fun o : option (list Z) => match o with Some ds => Some (NewRangeProof sha zk value (rangeDraws ds)) | None => None end).
  apply (asMany_ext L (fun t => F (numbers N pick (2 * proofSize) t) = r) (fun t => F (numbers N pick' (2 * proofSize) t) = r)).
  1, 2: intros t _; unfold NewRangeProofT, numbers; rewrite (cN_ok zk S); destruct (draws _ _ _ _); reflexivity.
  apply (asMany_draws N N_gt1 pick pick' (2 * proofSize) (fun d => d) (fun d => d) L (fun o => F o = r) (fun o => F o = r) P P'); auto; reflexivity.
Qed.

(** ** Private keys and 64-bit numbers *)
Lemma field_elem t : tape 40 t -> randFieldElement N t = ROk (beval t mod (N - 1) + 1) [].
Proof.
  intros [_ L]. unfold randFieldElement, readFull, blen. rewrite L. change (256 / 8 + 8) with 40.
  replace (40 <=? Z.of_nat 40) with true by reflexivity. change (Z.to_nat 40) with 40%nat. cbn [rbind].
  rewrite <- L, firstn_all, skipn_all. reflexivity.
Qed.
Lemma N1_pos : 0 < N - 1. Proof. reflexivity. Qed.
Lemma key_count d : 1 <= d < N -> let k := cases 40 (fun t => isDraw d (randFieldElement N t)) in k = 2 ^ 320 / (N - 1) \/ k = 2 ^ 320 / (N - 1) + 1.
Proof.
  intros H. cbv zeta. pose proof N1_pos as P. rewrite (cases_ext 40 _ (fun t => (fun z => z mod (N - 1) =? d - 1) (beval t))).
  - rewrite (cases_beval 40 (fun z => z mod (N - 1) =? d - 1)). change (256 ^ Z.of_nat 40) with (2 ^ 320). apply residue_two; [|discriminate]. clear P. generalize dependent N. intros n H. lia.
  - intros t Ht. rewrite field_elem by exact Ht. cbn [isDraw]. generalize (beval t mod (N - 1)). intros x. apply eq_true_iff_eq. rewrite !Z.eqb_eq. lia.
Qed.
Lemma new_key_tape c t : curve_ok c -> tape 40 t -> exists d, 1 <= d < N /\ randFieldElement N t = ROk d [] /\
  NewPrivateKeyT c t = Ok (Some {| kD := d; kPub := smul d G |}).
Proof.
  intros C Ht. exists (beval t mod (N - 1) + 1). pose proof (Z.mod_pos_bound (beval t) (N - 1) N1_pos) as B.
  split; [revert B; generalize (beval t mod (N - 1)); intros x B; split; [lia|]; revert B; generalize N; intros; lia|].
  split; [apply field_elem; exact Ht|]. unfold NewPrivateKeyT. rewrite (ok_N c C), field_elem by exact Ht.
  set (d := beval t mod (N - 1) + 1) in *. assert (Hd : 0 <= d) by (revert B; unfold d; generalize (beval t mod (N - 1)); intros; lia).
  unfold NewPrivateKey. rewrite (ok_base c C _ (bigBytes_ok d)), beval_bigBytes, Z.abs_eq by exact Hd. reflexivity.
Qed.
Lemma uint64_tape v : 0 <= v < 2 ^ 64 -> exists! t, tape 8 t /\ randomUint64 t = ROk v [].
Proof.
  intros H. assert (X : forall t, tape 8 t -> randomUint64 t = ROk (beval t) []).
  { intros t [_ L]. destruct t as [|a [|b [|c [|d [|e [|f [|g [|h [|i t]]]]]]]]]; try discriminate L. reflexivity. }
  exists (be_bytes 8 v). split.
  - assert (T : tape 8 (be_bytes 8 v)) by (split; [apply be_bytes_ok|apply be_bytes_len]). split; [exact T|]. rewrite X by exact T.
    rewrite beval_be_bytes by lia. change (256 ^ Z.of_nat 8) with (2 ^ 64). rewrite Z.mod_small by exact H. reflexivity.
  - intros t [T E]. rewrite X in E by exact T. injection E as <-. destruct T as [O L]. rewrite <- L. apply be_bytes_beval. exact O.
Qed.
