(** * Keys, disjunctive proofs and range proofs over the bytes of the source (proof only) *)
From Coq Require Import ZArith List Bool Lia.
From Verif Require Import Go Wire Big Crypto Spec SpecZk CodecProofs FieldProofs CurveGroup Order FieldN CurveZ ZkBase PointProofs GspfsProofs EqConsProofs
  Disjunctive DisjProofs Range Rand SpecRand RandProofs RandSched RandCount RandSeq RandTape RandCall.
Import ListNotations.
Open Scope Z_scope.

(** ** Keys *)
Lemma scale b z p : smul b (smul z (smul p G)) = smul p G -> smul ((p * z) mod N) (smul b G) = smul p G.
Proof. intros E. rewrite smul_mod by isp. rewrite <- E. rewrite <- !smul_mul by isp. f_equal. ring. Qed.
Lemma dlog_base B P : is_point B -> B <> O -> is_point P -> exists! x, scalar x /\ smul x B = P.
Proof.
  intros HB HO HP. assert (OB : on_curve B) by (destruct HB as [E|E]; [exfalso; exact (HO E)|exact E]).
  destruct (dlog B HB) as [b Eb]. assert (Hb : b mod N <> 0).
  { intros Z0. apply HO. rewrite Eb. rewrite <- (smul_mod b), Z0 by isp. apply smul_0. }
  destruct (dlog P HP) as [p Ep]. pose proof (smul_ninv b (smul p G) ltac:(isp) Hb) as E. revert E. generalize (ninv b). intros z E.
  apply scale in E. rewrite <- Eb, <- Ep in E. exists ((p * z) mod N). split.
  - split; [apply Z.mod_pos_bound; reflexivity|exact E].
  - intros y [Hy Ey]. rewrite <- Ey in E. apply (smul_inj_pt _ _ B OB) in E. rewrite Z.mod_mod in E by discriminate. rewrite E. apply Z.mod_small. exact Hy.
Qed.
Lemma keygen_ok c base u : curve_ok c -> is_point base -> scalar u -> KeyGen c (pt base) (Some u) = Ok (pt (smul u base), u).
Proof.
  intros C Hb [Hu _]. unfold KeyGen. cbn [need bind]. change (pX (pt base)) with (Some (fst base)).
  change (pY (pt base)) with (Some (snd base)). cbn [need bind]. rewrite (ok_mul c C base) by (try isp; apply bigBytes_ok).
  cbn [bind]. rewrite beval_bigBytes, Z.abs_eq by exact Hu. reflexivity.
Qed.
Lemma key_many c L B P P' : curve_ok c -> is_point B -> B <> O -> is_point P -> is_point P' ->
  asMany L (fun t => exists sk, KeyGenT c (pt B) t = Ok (pt P, sk)) (fun t => exists sk, KeyGenT c (pt B) t = Ok (pt P', sk)).
Proof.
  intros C HB HO HP HP'. destruct (dlog_base B P HB HO HP) as (x & [Hx Ex] & U). destruct (dlog_base B P' HB HO HP') as (x' & [Hx' Ex'] & U').
  assert (X : forall p q, (scalar q /\ smul q B = p) -> (forall y, scalar y /\ smul y B = p -> q = y) -> forall t, tape L t ->
    ((exists sk, KeyGenT c (pt B) t = Ok (pt p, sk)) <-> allSome (drawN 1 N t) = Some [q])).
  { intros p q [Hq Eq] Uq t [Ot _]. unfold KeyGenT. rewrite (ok_N c C), draw_seq. unfold draw.
    destruct (randInt N t) as [y rest|e rest|] eqn:E; cbn [fst].
    - assert (Sy : scalar y) by (apply (randInt_spec N t N_gt1 Ot) in E; apply firstGood_range in E; exact E).
      rewrite (keygen_ok c B y C HB Sy). split.
      + intros [u Q]. assert (Q2 : pt (smul y B) = pt p) by congruence. apply pt_inj in Q2. do 2 f_equal. symmetry. apply Uq. split; [exact Sy|exact Q2].
      + intros Q. injection Q as ->. rewrite Eq. exists q. reflexivity.
    - split; [intros [u Q]; discriminate Q|discriminate].
    - split; [intros [u Q]; discriminate Q|discriminate]. }
  apply (asMany_ext L (fun t => allSome (drawN 1 N t) = Some [x]) (fun t => allSome (drawN 1 N t) = Some [x'])).
  - apply X; [split; assumption|exact U].
  - apply X; [split; assumption|exact U'].
  - apply (uniform_many N N_gt1); assumption.
Qed.

(** ** Disjunctive proofs *)
Lemma below3 max d : below max 3 d -> exists v w x, d = [v; w; x] /\ 0 <= v < max /\ 0 <= w < max /\ 0 <= x < max.
Proof.
  intros [L F]. destruct d as [|v [|w [|x [|y d]]]]; try discriminate L. exists v, w, x.
  inversion F as [|? ? H1 F1]; subst. inversion F1 as [|? ? H2 F2]; subst. inversion F2; auto.
Qed.
Lemma below3_i max v w x : 0 <= v < max -> 0 <= w < max -> 0 <= x < max -> below max 3 [v; w; x].
Proof. intros H1 H2 H3. split; [reflexivity|]. constructor; [exact H1|constructor; [exact H2|constructor; [exact H3|constructor]]]. Qed.
(** a result of three draws, and the result of three other draws *)
Definition three {A} (F : Z -> Z -> Z -> A) (z : A) (o : option (list Z)) : A := match o with Some [a; b; c] => F a b c | _ => z end.
Lemma three_draws {A} L (F G : Z -> Z -> Z -> A) (z : A) (b b' : list Z -> list Z) (P : A -> Prop) :
  (forall d, below N 3 d -> below N 3 (b d) /\ b' (b d) = d) ->
  (forall d, below N 3 d -> below N 3 (b' d) /\ b (b' d) = d) ->
  (forall d, below N 3 d -> three F z (Some d) = three G z (Some (b d))) ->
  asMany L (fun t => P (three F z (allSome (drawN 3 N t)))) (fun t => P (three G z (allSome (drawN 3 N t)))).
Proof.
  intros B1 B2 H. apply (asMany_seq N N_gt1 3 b b' L (fun o => P (three F z o)) (fun o => P (three G z o)) B1 B2).
  - reflexivity.
  - intros d Hd. rewrite (H d Hd). reflexivity.
Qed.
Lemma three_tape {A} (F : option Z -> option Z -> option Z -> A) (z : A) t :
  (forall a b c, a = None \/ b = None \/ c = None -> F a b c = z) ->
  F (nthDraw (drawN 3 N t) 0) (nthDraw (drawN 3 N t) 1) (nthDraw (drawN 3 N t) 2) = three (fun a b c => F (Some a) (Some b) (Some c)) z (allSome (drawN 3 N t)).
Proof.
  intros H. unfold nthDraw. cbn [drawN nth allSome].
  destruct (fst (draw N t)) as [a|]; [|rewrite H by (left; reflexivity); reflexivity].
  destruct (fst (draw N (snd (draw N t)))) as [b|]; [|rewrite H by (right; left; reflexivity); reflexivity].
  destruct (fst (draw N (snd (draw N (snd (draw N t)))))) as [c|]; [reflexivity|]. rewrite H by (right; right; reflexivity). reflexivity.
Qed.
Section Disj.
Variables (zk : zkparams) (sha : list Z -> list Z) (c : Z).
Hypothesis S : std zk.
Hypothesis Hsha : forall ps, fs sha ps = c.
Definition leftOut (B1 B2 R2 : point) (x : Z) (a b e : Z) : R (option DisjunctiveProof * option goerr) :=
  Ok (Some (MkDisj (pt (smul a (eff B1))) (pt (padd (smul b (eff B2)) (smul ((- e) mod N) (eff R2))))
    (Some c) (Some ((c - e) mod N)) (Some e) (Some (a + (c - e) mod N * (x mod N))) (Some b)), None).
Definition rightOut (B1 R1 B2 : point) (x : Z) (a b e : Z) : R (option DisjunctiveProof * option goerr) :=
  Ok (Some (MkDisj (pt (padd (smul b (eff B1)) (smul ((- e) mod N) (eff R1)))) (pt (smul a (eff B2)))
    (Some c) (Some e) (Some ((c - e) mod N)) (Some b) (Some (a + (c - e) mod N * (x mod N)))), None).
Definition simOut (B1 R1 B2 R2 : point) (s1 s2 c1 : Z) : R (option DisjunctiveProof * option goerr) :=
  Ok (Some (MkDisj (pt (padd (smul s1 (eff B1)) (pneg (smul c1 (eff R1))))) (pt (padd (smul s2 (eff B2)) (pneg (smul ((c - c1) mod N) (eff R2)))))
    (Some c) (Some c1) (Some ((c - c1) mod N)) (Some s1) (Some s2)), None).
Lemma left_tape B1 B2 R2 x t : is_point B1 -> is_point B2 -> is_point R2 ->
  NewDisjunctiveProofT sha zk (pt B1) (pt (smul x (eff B1))) (pt B2) (pt R2) (Some x) Left t =
  three (leftOut B1 B2 R2 x) (Ok (None, Some ERand)) (allSome (drawN 3 N t)).
Proof.
  intros H1 H2 H3. unfold NewDisjunctiveProofT. cbv zeta. rewrite (cN_ok zk S).
  rewrite (three_tape (NewDisjunctiveProof sha zk (pt B1) (pt (smul x (eff B1))) (pt B2) (pt R2) (Some x) Left) (Ok (None, Some ERand))).
  - unfold three. destruct (allSome _) as [[|a [|b [|e [|? ?]]]]|]; try reflexivity.
    rewrite (disj_prove_left sha zk S) by isp. rewrite Z.eqb_refl. cbv zeta. rewrite Hsha. reflexivity.
  - intros a b e Hn. rewrite (disj_prove_left sha zk S) by isp. rewrite Z.eqb_refl.
    destruct Hn as [->|[->| ->]]; [reflexivity|destruct a; reflexivity|destruct a; [destruct b; reflexivity|reflexivity]].
Qed.
Lemma right_tape B1 R1 B2 x t : is_point B1 -> is_point R1 -> is_point B2 ->
  NewDisjunctiveProofT sha zk (pt B1) (pt R1) (pt B2) (pt (smul x (eff B2))) (Some x) Right t =
  three (rightOut B1 R1 B2 x) (Ok (None, Some ERand)) (allSome (drawN 3 N t)).
Proof.
  intros H1 H2 H3. unfold NewDisjunctiveProofT. cbv zeta. rewrite (cN_ok zk S).
  rewrite (three_tape (NewDisjunctiveProof sha zk (pt B1) (pt R1) (pt B2) (pt (smul x (eff B2))) (Some x) Right) (Ok (None, Some ERand))).
  - unfold three. destruct (allSome _) as [[|a [|b [|e [|? ?]]]]|]; try reflexivity.
    rewrite (disj_prove_right sha zk S) by isp. rewrite Z.eqb_refl. cbv zeta. rewrite Hsha. reflexivity.
  - intros a b e Hn. rewrite (disj_prove_right sha zk S) by isp. rewrite Z.eqb_refl.
    destruct Hn as [->|[->| ->]]; [reflexivity|destruct a; reflexivity|destruct a; [destruct b; reflexivity|reflexivity]].
Qed.
Lemma sim_tape B1 R1 B2 R2 t : simDisjunctive B1 R1 B2 R2 c t = three (simOut B1 R1 B2 R2) (Ok (None, Some ERand)) (allSome (drawN 3 N t)).
Proof.
  unfold simDisjunctive. cbn [drawN allSome].
  destruct (fst (draw N t)) as [a|]; [|reflexivity]. destruct (fst (draw N (snd (draw N t)))) as [b|]; [|reflexivity].
  destruct (fst (draw N (snd (draw N (snd (draw N t)))))) as [e|]; reflexivity.
Qed.
Lemma cS : scalar c. Proof. rewrite <- (Hsha []). apply fs_scalar. Qed.
Lemma neg_neg e : scalar e -> (c - (c - e) mod N) mod N = e.
Proof. intros He. rewrite Zminus_mod_idemp_r. replace (c - (c - e)) with e by ring. apply Z.mod_small. exact He. Qed.
Lemma modN_s a : scalar (a mod N). Proof. apply Z.mod_pos_bound. reflexivity. Qed.
Lemma sim_real B x a d : is_point B -> padd (smul ((a + d * (x mod N)) mod N) B) (pneg (smul d (smul x B))) = smul a B.
Proof.
  intros HB. rewrite smul_mod, <- smul_mul, <- smul_opp, <- smul_add by isp. rewrite <- (smul_mod (_ + _)), <- (smul_mod a) by exact HB. f_equal.
  transitivity ((a + (d * (x mod N) - d * x)) mod N); [f_equal; ring|].
  rewrite <- Zplus_mod_idemp_r, Zminus_mod, Zmult_mod_idemp_r, <- Zminus_mod, Z.sub_diag, Z.add_0_r. reflexivity.
Qed.
Lemma sim_other R e : is_point R -> smul ((- e) mod N) R = pneg (smul e R).
Proof. intros HR. rewrite smul_mod, smul_opp by isp. reflexivity. Qed.
Lemma disj_left_many L B1 B2 R2 x r : is_point B1 -> is_point B2 -> is_point R2 -> plain (smul x (eff B1)) ->
  asMany L (fun t => reduced (NewDisjunctiveProofT sha zk (pt B1) (pt (smul x (eff B1))) (pt B2) (pt R2) (Some x) Left t) = r)
    (fun t => simDisjunctive B1 (smul x (eff B1)) B2 R2 c t = r).
Proof.
  intros H1 H2 H3 PR. assert (HE : is_point (eff B1)) by isp.
  apply (asMany_ext L (fun t => three (fun a b e => reduced (leftOut B1 B2 R2 x a b e)) (Ok (None, Some ERand)) (allSome (drawN 3 N t)) = r)
    (fun t => three (simOut B1 (smul x (eff B1)) B2 R2) (Ok (None, Some ERand)) (allSome (drawN 3 N t)) = r)).
  - intros t _. rewrite left_tape by assumption. unfold three. destruct (allSome _) as [[|a [|b [|e [|? ?]]]]|]; reflexivity.
  - intros t _. rewrite sim_tape. reflexivity.
  - apply (three_draws L (fun a b e => reduced (leftOut B1 B2 R2 x a b e)) (simOut B1 (smul x (eff B1)) B2 R2) (Ok (None, Some ERand))
      (fun d => match d with [a; b; e] => [(a + (c - e) mod N * (x mod N)) mod N; b; (c - e) mod N] | _ => d end)
      (fun d => match d with [a; b; e] => [(a - e * (x mod N)) mod N; b; (c - e) mod N] | _ => d end) (fun o => o = r)).
    + intros d Hd. destruct (below3 N d Hd) as (a & b & e & -> & Ha & Hb & He). split; [apply below3_i; try apply modN_s; exact Hb|].
      destruct (shift_ok ((c - e) mod N * (x mod N)) a Ha) as [_ Q]. rewrite Q, neg_neg by exact He. reflexivity.
    + intros d Hd. destruct (below3 N d Hd) as (a & b & e & -> & Ha & Hb & He). split; [apply below3_i; try apply modN_s; exact Hb|].
      rewrite neg_neg by exact He. destruct (shift_ok' (e * (x mod N)) a Ha) as [_ Q]. rewrite Q. reflexivity.
    + intros d Hd. destruct (below3 N d Hd) as (a & b & e & -> & Ha & Hb & He). unfold three, leftOut, simOut, reduced. cbn [option_map].
      rewrite neg_neg by exact He. rewrite (Z.mod_small b) by exact Hb. rewrite (eff_plain (smul x (eff B1))) by (isp || exact PR).
      rewrite sim_real by exact HE. rewrite sim_other by isp. reflexivity.
Qed.
Lemma disj_right_many L B1 R1 B2 x r : is_point B1 -> is_point R1 -> is_point B2 -> plain (smul x (eff B2)) ->
  asMany L (fun t => reduced (NewDisjunctiveProofT sha zk (pt B1) (pt R1) (pt B2) (pt (smul x (eff B2))) (Some x) Right t) = r)
    (fun t => simDisjunctive B1 R1 B2 (smul x (eff B2)) c t = r).
Proof.
  intros H1 H2 H3 PR. assert (HE : is_point (eff B2)) by isp.
  apply (asMany_ext L (fun t => three (fun a b e => reduced (rightOut B1 R1 B2 x a b e)) (Ok (None, Some ERand)) (allSome (drawN 3 N t)) = r)
    (fun t => three (simOut B1 R1 B2 (smul x (eff B2))) (Ok (None, Some ERand)) (allSome (drawN 3 N t)) = r)).
  - intros t _. rewrite right_tape by assumption. unfold three. destruct (allSome _) as [[|a [|b [|e [|? ?]]]]|]; reflexivity.
  - intros t _. rewrite sim_tape. reflexivity.
  - apply (three_draws L (fun a b e => reduced (rightOut B1 R1 B2 x a b e)) (simOut B1 R1 B2 (smul x (eff B2))) (Ok (None, Some ERand))
      (fun d => match d with [a; b; e] => [b; (a + (c - e) mod N * (x mod N)) mod N; e] | _ => d end)
      (fun d => match d with [b; a; e] => [(a - (c - e) mod N * (x mod N)) mod N; b; e] | _ => d end) (fun o => o = r)).
    + intros d Hd. destruct (below3 N d Hd) as (a & b & e & -> & Ha & Hb & He). split; [apply below3_i; try apply modN_s; assumption|].
      destruct (shift_ok ((c - e) mod N * (x mod N)) a Ha) as [_ Q]. rewrite Q. reflexivity.
    + intros d Hd. destruct (below3 N d Hd) as (b & a & e & -> & Hb & Ha & He). split; [apply below3_i; try apply modN_s; assumption|].
      destruct (shift_ok' ((c - e) mod N * (x mod N)) a Ha) as [_ Q]. rewrite Q. reflexivity.
    + intros d Hd. destruct (below3 N d Hd) as (a & b & e & -> & Ha & Hb & He). unfold three, rightOut, simOut, reduced. cbn [option_map].
      rewrite (Z.mod_small b) by exact Hb. rewrite (eff_plain (smul x (eff B2))) by (isp || exact PR).
      rewrite sim_real by exact HE. rewrite sim_other by isp. reflexivity.
Qed.

(** ** How often the proved side's challenge exceeds N/2 *)
Definition sel (q : Z -> bool) (t : list Z) : bool := three (fun _ _ e => q ((c - e) mod N)) false (allSome (drawN 3 N t)).
Lemma sel_many L (f f' : Z -> Z) (q q' : Z -> bool) :
  (forall e, scalar e -> scalar (f e) /\ f' (f e) = e) -> (forall e, scalar e -> scalar (f' e) /\ f (f' e) = e) ->
  (forall e, scalar e -> q ((c - e) mod N) = q' ((c - f e) mod N)) -> cases L (sel q) = cases L (sel q').
Proof.
  intros F1 F2 Q. apply (asMany_cases L (fun t => sel q t = true) (fun t => sel q' t = true)); try (intros; reflexivity).
  apply (three_draws L (fun _ _ e => q ((c - e) mod N)) (fun _ _ e => q' ((c - e) mod N)) false
    (fun d => match d with [a; b; e] => [a; b; f e] | _ => d end) (fun d => match d with [a; b; e] => [a; b; f' e] | _ => d end) (fun o => o = true)).
  - intros d Hd. destruct (below3 N d Hd) as (a & b & e & -> & Ha & Hb & He). destruct (F1 e He) as [P E]. rewrite E. split; [apply below3_i; assumption|reflexivity].
  - intros d Hd. destruct (below3 N d Hd) as (a & b & e & -> & Ha & Hb & He). destruct (F2 e He) as [P E]. rewrite E. split; [apply below3_i; assumption|reflexivity].
  - intros d Hd. destruct (below3 N d Hd) as (a & b & e & -> & Ha & Hb & He). unfold three. apply Q. exact He.
Qed.
End Disj.
Lemma cases_nonneg L p : 0 <= cases L p. Proof. unfold cases. apply Nat2Z.is_nonneg. Qed.
Lemma cases_le L p q : (forall t, tape L t -> p t = true -> q t = true) -> cases L p <= cases L q.
Proof.
  intros H. rewrite (cases_ext L q (fun t => p t || (q t && negb (p t)))).
  - rewrite cases_or; [pose proof (cases_nonneg L (fun t => q t && negb (p t))); lia|]. intros t _ E. rewrite E. apply andb_false_r.
  - intros t Ht. specialize (H t Ht). destruct (p t); [rewrite H by reflexivity; reflexivity|]. cbn [orb negb]. symmetry. apply andb_true_r.
Qed.
Lemma half_gen n c e : 0 < n -> 0 <= c < n -> 0 <= e < n -> let d := (c - e) mod n in
  let e' := (2 * c - e) mod n in ((0 <? d) && (2 * d <=? n - 1)) = (n <? 2 * ((c - e') mod n)) /\ (2 * c - e') mod n = e.
Proof.
  intros Hn Hc He d e'. assert (E : (c - e') mod n = (- d) mod n).
  { unfold e', d. rewrite Zminus_mod_idemp_r. rewrite <- Z.sub_0_l, Zminus_mod_idemp_r. f_equal. ring. }
  split.
  - rewrite E. pose proof (Z.mod_pos_bound (c - e) n Hn) as B. fold d in B. destruct (Z.eq_dec d 0) as [->|D].
    + change (- 0) with 0. rewrite Z.mod_0_l by lia. symmetry. apply Z.ltb_ge. lia.
    + assert (Q : (- d) mod n = n - d) by (rewrite Z.mod_opp_l_nz; rewrite ?Z.mod_small by lia; lia). rewrite Q.
      apply eq_true_iff_eq. rewrite andb_true_iff, !Z.ltb_lt, Z.leb_le. lia.
  - unfold e'. rewrite Zminus_mod_idemp_r. replace (2 * c - (2 * c - e)) with e by ring. apply Z.mod_small. exact He.
Qed.
Lemma third c L : scalar c -> cases L (sel c (fun _ => true)) <= 3 * cases L (sel c (fun d => N <? 2 * d)).
Proof.
  intros Hc. set (big := fun d => N <? 2 * d). set (small := fun d => (0 <? d) && (2 * d <=? N - 1)). set (zero := fun d => d =? 0).
  assert (E1 : cases L (sel c small) = cases L (sel c big)).
  { apply (sel_many c L (fun e => (2 * c - e) mod N) (fun e => (2 * c - e) mod N)).
    1, 2: intros e He; split; [apply modN_s|]; apply (half_gen N c e); try assumption; reflexivity.
    intros e He. apply (half_gen N c e); try assumption. reflexivity. }
  assert (E2 : cases L (sel c zero) = cases L (sel c (fun d => d =? N - 1))).
  { apply (sel_many c L (fun e => (e + 1) mod N) (fun e => (e - 1) mod N)).
    - intros e He. exact (shift_ok 1 e He).
    - intros e He. exact (shift_ok' 1 e He).
    - intros e He. rewrite Zminus_mod_idemp_r. replace (c - (e + 1)) with (c - e - 1) by ring. rewrite <- (Zminus_mod_idemp_l (c - e) 1).
      pose proof (modN_s (c - e)) as B. unfold zero. revert B. generalize ((c - e) mod N). intros d [B1 B2]. destruct (Z.eq_dec d 0) as [->|D].
      + reflexivity.
      + rewrite Z.mod_small by (split; [lia|]; apply Z.lt_trans with d; [lia|exact B2]).
        apply eq_true_iff_eq. rewrite !Z.eqb_eq. revert B2. generalize N. intros n B2. lia. }
  assert (E3 : cases L (sel c (fun d => d =? N - 1)) <= cases L (sel c big)).
  { apply cases_le. intros t _. unfold sel, three. destruct (allSome _) as [[|a [|b [|e [|? ?]]]]|]; try discriminate.
    intros E. apply Z.eqb_eq in E. rewrite E. reflexivity. }
  assert (E4 : cases L (sel c (fun _ => true)) <= cases L (sel c big) + cases L (sel c small) + cases L (sel c zero)).
  { rewrite <- !cases_or.
    - apply cases_le. intros t _. unfold sel, three. destruct (allSome _) as [[|a [|b [|e [|? ?]]]]|]; try discriminate. intros _.
      pose proof (modN_s (c - e)) as B. unfold big, small, zero. revert B. generalize ((c - e) mod N). intros d [B1 B2].
      assert (O2 : N = 2 * (N / 2) + 1) by reflexivity. revert B2 O2. generalize (N / 2). generalize N. intros n h B2 O2.
      apply orb_true_iff. rewrite orb_true_iff, andb_true_iff, !Z.ltb_lt, Z.leb_le, Z.eqb_eq. lia.
    - intros t _. unfold sel, three. destruct (allSome _) as [[|a [|b [|e [|? ?]]]]|]; try discriminate. unfold big, small, zero.
      generalize ((c - e) mod N). assert (NP : 0 < N) by reflexivity. revert NP. generalize N. intros n NP d. rewrite orb_true_iff, andb_true_iff, !Z.ltb_lt, Z.leb_le, Z.eqb_neq. lia.
    - intros t _. unfold sel, three. destruct (allSome _) as [[|a [|b [|e [|? ?]]]]|]; try discriminate. unfold big, small, zero.
      generalize ((c - e) mod N). generalize N. intros n d. rewrite andb_false_iff, !Z.ltb_lt, Z.ltb_ge, Z.leb_gt. lia. }
  lia.
Qed.

Section Leak.
Variables (zk : zkparams) (sha : list Z -> list Z) (c : Z).
Hypothesis S : std zk.
Hypothesis Hsha : forall ps, fs sha ps = c.
Lemma quot_shown u d x : scalar u -> N < 2 * d -> ((u + d * (x mod N)) / d =? x mod N) || ((u + d * (x mod N)) / d =? x mod N + 1) = true.
Proof. intros Hu Hd. apply orb_true_iff. rewrite !Z.eqb_eq. pose proof (leak_bound u d x Hu Hd) as [Q|Q]; [left|right]; revert Q; generalize (x mod N); intros; lia. Qed.
Lemma draws3_scalar t a b e : bytes_ok t -> allSome (drawN 3 N t) = Some [a; b; e] -> scalar a /\ scalar b /\ scalar e.
Proof.
  intros Ht E. assert (B : below N 3 [a; b; e]) by (apply (numbers_below N N_gt1 (seqPick N 3) 3 t _ Ht); rewrite (numbers_seq N N_gt1); exact E).
  destruct (below3 N _ B) as (a' & b' & e' & Q & Ha & Hb & He). injection Q as -> -> ->. split; [exact Ha|split; [exact Hb|exact He]].
Qed.
Lemma left_leak L B1 B2 R2 x : is_point B1 -> is_point B2 -> is_point R2 -> 2 <= x mod N ->
  let run := fun t => NewDisjunctiveProofT sha zk (pt B1) (pt (smul x (eff B1))) (pt B2) (pt R2) (Some x) Left t in
  cases L (fun t => proved (run t)) <= 3 * cases L (fun t => revealsLeft x (run t)).
Proof.
  intros H1 H2 H3 Hx run. rewrite (cases_ext L (fun t => proved (run t)) (sel c (fun _ => true))).
  - apply (Z.le_trans _ _ _ (third c L (cS sha c Hsha))). apply Z.mul_le_mono_nonneg_l; [discriminate|]. apply cases_le. intros t [Ht _].
    unfold run. rewrite (left_tape zk sha c S Hsha) by assumption. unfold sel, three.
    destruct (allSome (drawN 3 N t)) as [[|a [|b [|e [|? ?]]]]|] eqn:E; try discriminate. destruct (draws3_scalar t a b e Ht E) as (Ha & Hb & He).
    intros D. apply Z.ltb_lt in D. unfold leftOut, revealsLeft. rewrite quot_shown by assumption.
    destruct Ha as [Ha _]. pose proof (leak_big a _ x Ha D Hx) as K. apply Z.lt_le_incl, Z.leb_le in K. rewrite K. destruct Hb as [_ Hb]. apply Z.ltb_lt in Hb. rewrite Hb. reflexivity.
  - intros t _. unfold run. rewrite (left_tape zk sha c S Hsha) by assumption. unfold sel, three. destruct (allSome _) as [[|a [|b [|e [|? ?]]]]|]; reflexivity.
Qed.
Lemma right_leak L B1 R1 B2 x : is_point B1 -> is_point R1 -> is_point B2 -> 2 <= x mod N ->
  let run := fun t => NewDisjunctiveProofT sha zk (pt B1) (pt R1) (pt B2) (pt (smul x (eff B2))) (Some x) Right t in
  cases L (fun t => proved (run t)) <= 3 * cases L (fun t => revealsRight x (run t)).
Proof.
  intros H1 H2 H3 Hx run. rewrite (cases_ext L (fun t => proved (run t)) (sel c (fun _ => true))).
  - apply (Z.le_trans _ _ _ (third c L (cS sha c Hsha))). apply Z.mul_le_mono_nonneg_l; [discriminate|]. apply cases_le. intros t [Ht _].
    unfold run. rewrite (right_tape zk sha c S Hsha) by assumption. unfold sel, three.
    destruct (allSome (drawN 3 N t)) as [[|a [|b [|e [|? ?]]]]|] eqn:E; try discriminate. destruct (draws3_scalar t a b e Ht E) as (Ha & Hb & He).
    intros D. apply Z.ltb_lt in D. unfold rightOut, revealsRight. rewrite quot_shown by assumption.
    destruct Ha as [Ha _]. pose proof (leak_big a _ x Ha D Hx) as K. apply Z.lt_le_incl, Z.leb_le in K. rewrite K. destruct Hb as [_ Hb]. apply Z.ltb_lt in Hb. rewrite Hb. reflexivity.
  - intros t _. unfold run. rewrite (right_tape zk sha c S Hsha) by assumption. unfold sel, three. destruct (allSome _) as [[|a [|b [|e [|? ?]]]]|]; reflexivity.
Qed.
End Leak.

(** ** The draws of the range prover *)
Definition interleave (a b : nat -> Z) (n : nat) : list Z := flat_map (fun i => [a i; b i]) (seq 0 n).
Lemma interleave_nth a b n i : (i < n)%nat -> nth_error (interleave a b n) (2 * i) = Some (a i) /\ nth_error (interleave a b n) (2 * i + 1) = Some (b i).
Proof.
  unfold interleave. assert (X : forall n k i, (i < n)%nat -> nth_error (flat_map (fun i => [a i; b i]) (seq k n)) (2 * i) = Some (a (k + i)%nat) /\
    nth_error (flat_map (fun i => [a i; b i]) (seq k n)) (2 * i + 1) = Some (b (k + i)%nat)).
  { clear. induction n as [|n IH]; intros k i Hi; [lia|]. cbn [seq flat_map app]. destruct i as [|i].
    - replace (k + 0)%nat with k by lia. split; reflexivity.
    - destruct (IH (S k) i ltac:(lia)) as [A B]. replace (2 * S i)%nat with (S (S (2 * i))) by lia. replace (k + S i)%nat with (S k + i)%nat by lia.
      cbn [Nat.add nth_error] in *. split; [exact A|exact B]. }
  intros Hi. exact (X n 0%nat i Hi).
Qed.
Lemma interleave_len a b n : length (interleave a b n) = (2 * n)%nat.
Proof.
  assert (X : forall n k, length (flat_map (fun i => [a i; b i]) (seq k n)) = (2 * n)%nat); [|exact (X n 0%nat)].
  clear n. induction n as [|n IH]; intros k; [reflexivity|]. cbn [seq flat_map app length]. rewrite IH. lia.
Qed.
Lemma nth_ext_err (l l' : list Z) : length l = length l' -> (forall i, (i < length l)%nat -> nth_error l i = nth_error l' i) -> l = l'.
Proof.
  revert l'. induction l as [|x l IH]; intros [|y l'] L H; try discriminate L; [reflexivity|].
  pose proof (H 0%nat ltac:(cbn [length]; lia)) as E. injection E as ->. f_equal. apply IH; [injection L; auto|].
  intros i Hi. exact (H (S i) ltac:(cbn [length]; lia)).
Qed.
Lemma uses_iff a b ds : length ds = (2 * 40)%nat -> (usesDraws a b (rangeDraws ds) <-> ds = interleave a b 40).
Proof.
  intros L. split.
  - intros H. apply nth_ext_err; [rewrite interleave_len; exact L|]. intros i Hi. rewrite L in Hi.
    destruct (Nat.Even_or_Odd i) as [[k E]|[k E]].
    + subst i. destruct (H k ltac:(lia)) as (A & _ & _). destruct (interleave_nth a b 40 k ltac:(lia)) as [I _]. unfold rangeDraws in A. cbn [rrA1] in A. rewrite A, I. reflexivity.
    + subst i. destruct (H k ltac:(lia)) as (_ & _ & A). destruct (interleave_nth a b 40 k ltac:(lia)) as [_ I]. unfold rangeDraws in A. cbn [rrB] in A. rewrite A, I. reflexivity.
  - intros -> i Hi. destruct (interleave_nth a b 40 i Hi) as [A B]. unfold rangeDraws. cbn [rrA1 rrA2 rrB]. split; [exact A|split; exact B].
Qed.
Lemma interleave_below a b : (forall i, scalar (a i) /\ scalar (b i)) -> below N 80 (interleave a b 40).
Proof.
  intros H. split; [apply interleave_len|]. apply Forall_forall. intros x Hx. unfold interleave in Hx. apply in_flat_map in Hx. destruct Hx as (i & _ & [<-|[<-|[]]]); apply (H i).
Qed.
Lemma range_draws pick : scheduler N (2 * proofSize) pick -> exists rr : list Z -> option rangeRand,
  (forall sha zk value t, std zk -> NewRangeProofT sha zk value pick t = option_map (NewRangeProof sha zk value) (rr t)) /\
  (forall L a b a' b', (forall i, scalar (a i) /\ scalar (b i)) -> (forall i, scalar (a' i) /\ scalar (b' i)) ->
     asMany L (fun t => exists r, rr t = Some r /\ usesDraws a b r) (fun t => exists r, rr t = Some r /\ usesDraws a' b' r)).
Proof.
  intros P. exists (fun t => option_map rangeDraws (numbers N pick (2 * proofSize) t)). split.
  - intros sha zk value t S. unfold NewRangeProofT, numbers. rewrite (cN_ok zk S). destruct (draws _ _ _ _); reflexivity.
  - intros L a b a' b' H H'.
    assert (X : forall a b t, tape L t -> ((exists r, option_map rangeDraws (numbers N pick (2 * proofSize) t) = Some r /\ usesDraws a b r) <->
      numbers N pick (2 * proofSize) t = Some (interleave a b 40))).
    { clear a b a' b' H H'. intros a b t [Ht _]. split.
      - intros (r & E & U). destruct (numbers N pick (2 * proofSize) t) as [ds|] eqn:Q; [|discriminate E]. cbn [option_map] in E.
        destruct (numbers_below N N_gt1 pick _ t ds Ht Q) as [Ln _]. assert (E' : r = rangeDraws ds) by congruence. subst r. f_equal. apply uses_iff; [exact Ln|exact U].
      - intros E. rewrite E. cbn [option_map]. eexists. split; [reflexivity|]. apply uses_iff; [apply interleave_len|reflexivity]. }
    apply (asMany_ext L _ _ _ _ (X a b) (X a' b')). apply (asMany_uniform N N_gt1 pick (2 * proofSize) L); [exact P| |]; apply interleave_below; assumption.
Qed.
Lemma reduced_verify sha zk B1 R1 B2 R2 T1 T2 c c1 c2 s1 s2 : std zk -> is_point B1 -> is_point R1 -> is_point B2 -> is_point R2 -> is_point T1 -> is_point T2 ->
  DisjunctiveVerify sha (Some (MkDisj (pt T1) (pt T2) (Some c) (Some c1) (Some c2) (Some (s1 mod N)) (Some (s2 mod N)))) zk (pt B1) (pt R1) (pt B2) (pt R2) =
  DisjunctiveVerify sha (Some (MkDisj (pt T1) (pt T2) (Some c) (Some c1) (Some c2) (Some s1) (Some s2))) zk (pt B1) (pt R1) (pt B2) (pt R2).
Proof.
  intros S H1 H2 H3 H4 H5 H6. rewrite !(disj_verify sha zk S) by assumption. rewrite (smul_mod s1), (smul_mod s2) by isp. reflexivity.
Qed.
