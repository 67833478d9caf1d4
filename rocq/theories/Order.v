(** * The curve group is cyclic of prime order N, generated by G (proof only) *)
From Coq Require Import ZArith Znumtheory List Lia Bool.
From Verif Require Import NumTheory Primes Spec FieldP CurveZ CurveGroup FastMul GMult EndoP.
Open Scope Z_scope.

Lemma is_point_G : is_point G. Proof. right. exact G_on_curve. Qed.
#[export] Hint Resolve is_point_G : pt.
Lemma G_nz : G <> O. Proof. discriminate. Qed.

Lemma smul_mod_N k : smul (k mod N) G = smul k G.
Proof.
  rewrite (Z.div_mod k N) at 2 by (pose proof N_pos; lia).
  rewrite smul_add by auto with pt. rewrite (Z.mul_comm N), smul_mul by auto with pt.
  rewrite NG, smul_O, padd_O_l. reflexivity.
Qed.

Lemma smul_G_O k : smul k G = O <-> k mod N = 0.
Proof.
  split; intros H.
  - destruct (Z.eq_dec (k mod N) 0) as [|E]; [assumption|exfalso].
    assert (R : rel_prime N k).
    { apply prime_rel_prime; [exact prime_N|]. intros D. apply E. apply Z.mod_divide; [pose proof N_pos; lia|exact D]. }
    destruct (rel_prime_bezout _ _ R) as [u v B]. apply G_nz.
    rewrite <- (smul_1 G). rewrite <- B. rewrite smul_add by auto with pt.
    rewrite !smul_mul by auto with pt. rewrite NG, H, !smul_O. reflexivity.
  - rewrite <- smul_mod_N, H. reflexivity.
Qed.

Lemma smul_G_inj a b : smul a G = smul b G <-> a mod N = b mod N.
Proof.
  split; intros H.
  - assert (E : smul (a - b) G = O).
    { replace (a - b) with (a + - b) by lia. rewrite smul_add, smul_opp by auto with pt.
      rewrite H. apply padd_pneg_r; auto with pt. }
    apply smul_G_O in E. pose proof N_pos. apply Z.mod_divide in E; [|lia]. destruct E as [q E].
    replace a with (b + q * N) by lia. apply Z.mod_add. lia.
  - rewrite <- (smul_mod_N a), H. apply smul_mod_N.
Qed.

(** counting *)
Lemma inj_bound (n m : Z) (f : Z -> Z) : 0 <= m ->
  (forall i, 0 <= i < n -> 0 <= f i < m) ->
  (forall i j, 0 <= i < n -> 0 <= j < n -> f i = f j -> i = j) -> n <= m.
Proof.
  intros Hm Hr Hi. destruct (Z_le_gt_dec n 0) as [|Hn]; [lia|].
  set (l := map Z.of_nat (seq 0 (Z.to_nat n))).
  assert (Hl : forall i, In i l <-> 0 <= i < n).
  { intros i. unfold l. rewrite in_map_iff. split.
    - intros [k [<- Hk]]. apply in_seq in Hk. lia.
    - intros H. exists (Z.to_nat i). split; [lia|]. apply in_seq. lia. }
  assert (ND : NoDup (map f l)).
  { assert (NDl : NoDup l).
    { apply FinFun.Injective_map_NoDup; [intros x y; lia|apply seq_NoDup]. }
    assert (H : forall l', NoDup l' -> (forall i, In i l' -> 0 <= i < n) -> NoDup (map f l')).
    { induction l' as [|x l' IH]; intros Hnd Hin; cbn; [constructor|].
      inversion Hnd; subst. constructor.
      - intros C. apply in_map_iff in C. destruct C as [y [E Hy]].
        assert (y = x) by (apply Hi; [apply Hin; right; exact Hy|apply Hin; left; reflexivity|exact E]).
        subst. contradiction.
      - apply IH; [assumption|]. intros i Hx. apply Hin. right. exact Hx. }
    apply H; [exact NDl|]. intros i Hx. apply Hl. exact Hx. }
  assert (INC : incl (map f l) (map Z.of_nat (seq 0 (Z.to_nat m)))).
  { intros y Hy. apply in_map_iff in Hy. destruct Hy as [i [<- Hx]]. apply Hl in Hx.
    apply in_map_iff. exists (Z.to_nat (f i)). pose proof (Hr i Hx). split; [lia|].
    apply in_seq. lia. }
  pose proof (NoDup_incl_length ND INC) as L. unfold l in L.
  rewrite !map_length, !seq_length in L. lia.
Qed.

Definition pcode (p : point) : Z :=
  if (fst p =? 0) && (snd p =? 0) then 2 * P else 2 * fst p + snd p mod 2.

Lemma pcode_range p : is_point p -> 0 <= pcode p < 2 * P + 1.
Proof.
  intros H. unfold pcode. destruct (_ && _) eqn:E; [pose proof P_pos; lia|].
  destruct H as [->|[H1 [H2 _]]]; [discriminate E|]. pose proof (Z.mod_pos_bound (snd p) 2). lia.
Qed.

(** two curve points with the same abscissa are equal or opposite *)
Lemma same_x_cases p q : on_curve p -> on_curve q -> fst p = fst q -> q = p \/ q = pneg p.
Proof.
  intros [Hp1 [Hp2 Hp3]] [Hq1 [Hq2 Hq3]] E. rewrite <- E, <- Hp3 in Hq3.
  assert (D : (P | (snd q - snd p) * (snd q + snd p))).
  { apply Z.mod_divide; [lia|]. replace ((snd q - snd p) * (snd q + snd p)) with (snd q ^ 2 - snd p ^ 2) by ring.
    rewrite Zminus_mod, Hq3, Z.sub_diag. apply Z.mod_0_l. lia. }
  apply prime_mult in D; [|exact prime_P]. destruct p as [x y], q as [x' y']. cbn [fst snd] in *. subst x'.
  destruct D as [[k D]|[k D]].
  - left. f_equal. assert (k = 0) by nia. lia.
  - right. unfold pneg; cbn [fst snd]. f_equal.
    assert (k = 0 \/ k = 1) by nia. destruct H as [->| ->].
    + assert (y = 0) by lia. assert (y' = 0) by lia. subst. reflexivity.
    + replace (- y) with (y' + (-1) * P) by lia. rewrite Z.mod_add by lia. symmetry. apply Z.mod_small. lia.
Qed.

Lemma on_curve_y_nz p : on_curve p -> snd p <> 0.
Proof.
  intros [_ [_ H]] E. rewrite E in H. apply (no_two_torsion_Z (fst p)). rewrite <- H. reflexivity.
Qed.

Lemma pcode_inj p q : is_point p -> is_point q -> pcode p = pcode q -> p = q.
Proof.
  intros Hp Hq. unfold pcode.
  destruct Hp as [->|Hp], Hq as [->|Hq]; [reflexivity| | |].
  - change (fst O =? 0) with true. change (snd O =? 0) with true. cbn [andb].
    pose proof (on_curve_y_nz _ Hq) as N. apply Z.eqb_neq in N. rewrite N, andb_false_r.
    destruct Hq as [H1 [H2 _]]. pose proof (Z.mod_pos_bound (snd q) 2). intros. lia.
  - change (fst O =? 0) with true. change (snd O =? 0) with true. cbn [andb].
    pose proof (on_curve_y_nz _ Hp) as N. apply Z.eqb_neq in N. rewrite N, andb_false_r.
    destruct Hp as [H1 [H2 _]]. pose proof (Z.mod_pos_bound (snd p) 2). intros. lia.
  - pose proof (on_curve_y_nz _ Hp) as N1. pose proof (on_curve_y_nz _ Hq) as N2.
    pose proof N1 as N1'. apply Z.eqb_neq in N1, N2. rewrite N1, N2, !andb_false_r. intros E.
    assert (Ex : fst p = fst q).
    { pose proof (Z.mod_pos_bound (snd q) 2). pose proof (Z.mod_pos_bound (snd p) 2). lia. }
    destruct (same_x_cases p q Hp Hq Ex) as [->| ->]; [reflexivity|exfalso].
    unfold pneg in E; cbn [fst snd] in E. destruct Hp as [_ [H2 _]].
    replace ((- snd p) mod P) with (P - snd p) in E.
    2:{ replace (- snd p) with ((P - snd p) + (-1) * P) by lia. rewrite Z.mod_add by lia. symmetry; apply Z.mod_small; lia. }
    assert (HP : P mod 2 = 1) by reflexivity.
    rewrite Zminus_mod, HP in E. revert E.
    pose proof (Z.mod_pos_bound (snd p) 2). assert (C : snd p mod 2 = 0 \/ snd p mod 2 = 1) by lia.
    destruct C as [-> | ->]; [change ((1 - 0) mod 2) with 1|change ((1 - 1) mod 2) with 0]; lia.
Qed.

Lemma two_torsion p : is_point p -> padd p p = O -> p = O.
Proof.
  intros H E. apply padd_inv_uniq in E; [|exact H|exact H]. destruct H as [->|H]; [reflexivity|exfalso].
  pose proof (on_curve_y_nz _ H) as N. destruct H as [_ [H2 _]].
  destruct p as [x y]. unfold pneg in E; cbn [fst snd] in *. injection E as E.
  assert (HP : P mod 2 = 1) by reflexivity.
  rewrite (Z.mod_eq (- y) P) in E by lia.
  assert (exists k, 2 * y = k * P) as [k K] by (exists (- (- y / P)); lia).
  assert (k = 1) by nia. subst k. rewrite Z.mul_1_l in K. rewrite <- K in HP. rewrite Z.mul_comm, Z.mod_mul in HP; lia.
Qed.

Definition half := (N + 1) / 2.
Lemma half_ok : 2 * half = N + 1. Proof. reflexivity. Qed.

Lemma is_point_ec p q : is_point p -> is_point q -> {p = q} + {p <> q}.
Proof. intros _ _. destruct p, q. destruct (Z.eq_dec z z1), (Z.eq_dec z0 z2); [left|right|right|right]; congruence. Defined.

Lemma in_range_dec (Q : point) (n : Z) :
  (exists k, 0 <= k < n /\ Q = smul k G) \/ (forall k, 0 <= k < n -> Q <> smul k G).
Proof.
  destruct (Z_le_gt_dec n 0) as [H|H]; [right; intros; lia|].
  replace n with (Z.of_nat (Z.to_nat n)) by lia. generalize (Z.to_nat n). clear.
  induction n as [|n IH]; [right; intros; lia|].
  destruct IH as [[k [Hk E]]|IH]; [left; exists k; split; [lia|exact E]|].
  assert (D : {Q = smul (Z.of_nat n) G} + {Q <> smul (Z.of_nat n) G}).
  { destruct Q as [a b], (smul (Z.of_nat n) G) as [c d]. destruct (Z.eq_dec a c), (Z.eq_dec b d); [left|right|right|right]; congruence. }
  destruct D as [D|D]; [left; exists (Z.of_nat n); split; [lia|exact D]|].
  right. intros k Hk. destruct (Z.eq_dec k (Z.of_nat n)) as [->|]; [exact D|apply IH; lia].
Qed.

Lemma N_bound : 2 * P + 1 < 3 * N. Proof. reflexivity. Qed.

Theorem cyclic Q : is_point Q -> exists k, 0 <= k < N /\ Q = smul k G.
Proof.
  intros HQ. destruct (in_range_dec Q N) as [H|H]; [exact H|exfalso].
  assert (HQN : forall k, Q <> smul k G).
  { intros k E. apply (H (k mod N)); [apply Z.mod_pos_bound; pose proof N_pos; lia|]. rewrite smul_mod_N. exact E. }
  assert (SG : forall k, is_point (smul k G)) by (intros; auto with pt).
  set (f := fun i => pcode (if i <? N then smul i G else if i <? 2 * N then padd Q (smul i G) else padd (pneg Q) (smul i G))).
  assert (BIG : 3 * N <= 2 * P + 1); [|pose proof N_bound; lia].
  assert (Q2 : forall a b, padd Q (smul a G) <> padd (pneg Q) (smul b G)).
  { intros a b E.
    assert (E2 : padd Q Q = smul (b - a) G).
    { replace (b - a) with (b + - a) by lia. rewrite smul_add, (smul_opp a) by auto with pt.
      apply (padd_cancel (padd (pneg Q) (smul a G))); auto with pt.
      transitivity (padd Q (smul a G)).
      - rewrite (padd_comm (pneg Q)) by auto with pt. rewrite (padd_assoc _ (pneg Q)) by auto with pt.
        rewrite <- (padd_assoc (pneg Q)) by auto with pt. rewrite padd_pneg_l, padd_O_l by auto with pt.
        apply padd_comm; auto with pt.
      - rewrite E. rewrite padd_assoc by auto with pt. f_equal.
        rewrite (padd_comm (smul b G)) by auto with pt. rewrite <- padd_assoc by auto with pt.
        rewrite padd_pneg_r, padd_O_l by auto with pt. reflexivity. }
    set (c := b - a) in *. apply (HQN (c * half)).
    assert (T : padd Q (pneg (smul (c * half) G)) = O).
    { apply two_torsion; auto with pt.
      assert (X : forall a b c d, is_point a -> is_point b -> is_point c -> is_point d ->
        padd (padd a b) (padd c d) = padd (padd a c) (padd b d)).
      { intros a0 b0 c0 d0 Ha Hb Hc Hd. rewrite !padd_assoc by auto with pt. f_equal.
        rewrite <- !padd_assoc by auto with pt. f_equal. apply padd_comm; auto. }
      rewrite X by auto with pt. rewrite E2.
      rewrite <- smul_opp, <- !smul_add by auto with pt. apply smul_G_O.
      replace (c + (- (c * half) + - (c * half))) with (c - c * (2 * half)) by ring.
      rewrite half_ok. replace (c - c * (N + 1)) with ((- c) * N) by ring. apply Z.mod_mul. pose proof N_pos; lia. }
    rewrite <- (pneg_invol (smul (c * half) G)) by auto with pt.
    rewrite <- (pneg_invol Q) by auto with pt. f_equal. symmetry. apply padd_inv_uniq; auto with pt. }
  assert (Q1 : forall a b, smul a G <> padd Q (smul b G)).
  { intros a b E. apply (HQN (a - b)). replace (a - b) with (a + - b) by lia.
    rewrite smul_add, smul_opp by auto with pt. rewrite E. rewrite padd_assoc by auto with pt.
    rewrite padd_pneg_r, padd_O_r by auto with pt. reflexivity. }
  assert (Q3 : forall a b, smul a G <> padd (pneg Q) (smul b G)).
  { intros a b E. apply (Q1 (- a) (- b)). rewrite !smul_opp by auto with pt. rewrite E.
    rewrite pneg_padd, pneg_invol by auto with pt. reflexivity. }
  assert (INJ : forall a b i j, 0 <= i - a < N -> 0 <= j - b < N -> b = a -> smul i G = smul j G -> i = j).
  { intros a b i j Hi Hj -> E. apply smul_G_inj in E. pose proof N_pos.
    assert (D : (N | i - j)).
    { apply Z.mod_divide; [lia|]. rewrite Zminus_mod, E, Z.sub_diag. apply Z.mod_0_l; lia. }
    destruct D as [k D]. assert (k = 0) by nia. lia. }
  apply (inj_bound _ _ f); [pose proof P_pos; lia| |].
  - intros i Hi. apply pcode_range. destruct (i <? N); [auto with pt|]. destruct (i <? 2 * N); auto with pt.
  - intros i j Hi Hj E. unfold f in E. apply pcode_inj in E.
    2:{ destruct (i <? N); [auto with pt|]. destruct (i <? 2 * N); auto with pt. }
    2:{ destruct (j <? N); [auto with pt|]. destruct (j <? 2 * N); auto with pt. }
    destruct (Z.ltb_spec i N) as [I1|I1].
    { destruct (Z.ltb_spec j N) as [J1|J1].
      - apply (INJ 0 0 i j); [lia|lia|lia|exact E].
      - destruct (j <? 2 * N); exfalso; [eapply Q1; exact E|eapply Q3; exact E]. }
    destruct (Z.ltb_spec j N) as [J1|J1].
    { symmetry in E. destruct (i <? 2 * N); exfalso; [eapply Q1; exact E|eapply Q3; exact E]. }
    destruct (Z.ltb_spec i (2 * N)) as [I2|I2]; destruct (Z.ltb_spec j (2 * N)) as [J2|J2].
    + apply (INJ N N i j); [lia|lia|lia|]. eapply padd_cancel; [| | |exact E]; auto with pt.
    + exfalso. eapply Q2; exact E.
    + exfalso. symmetry in E. eapply Q2; exact E.
    + apply (INJ (2*N) (2*N) i j); [lia|lia|lia|]. eapply padd_cancel; [| | |exact E]; auto with pt.
Qed.

Lemma smul_N p : is_point p -> smul N p = O.
Proof.
  intros H. destruct (cyclic p H) as [k [_ ->]]. rewrite <- smul_mul by auto with pt.
  rewrite Z.mul_comm, smul_mul by auto with pt. rewrite NG. apply smul_O.
Qed.
Lemma smul_mod k p : is_point p -> smul (k mod N) p = smul k p.
Proof.
  intros H. rewrite (Z.div_mod k N) at 2 by (pose proof N_pos; lia).
  rewrite smul_add by exact H. rewrite (Z.mul_comm N), smul_mul by exact H.
  rewrite smul_N, smul_O, padd_O_l by exact H. reflexivity.
Qed.
Lemma smul_inj_pt a b p : on_curve p -> (smul a p = smul b p <-> a mod N = b mod N).
Proof.
  intros Hp. assert (Hp' : is_point p) by (right; exact Hp). pose proof N_pos as HN.
  destruct (cyclic p Hp') as [k [Hk E]].
  assert (k mod N <> 0).
  { intros C. apply smul_G_O in C. rewrite <- E in C. apply (on_curve_nz p Hp C). }
  split; intros H1.
  - rewrite E in H1. rewrite <- !smul_mul in H1 by auto with pt. apply smul_G_inj in H1.
    apply (mul_cancel_mod N k); [exact prime_N|assumption|]. rewrite !(Z.mul_comm k). exact H1.
  - rewrite <- (smul_mod a), <- (smul_mod b), H1 by exact Hp'. reflexivity.
Qed.
Lemma smul_O_iff a p : on_curve p -> (smul a p = O <-> a mod N = 0).
Proof.
  intros H. rewrite <- (smul_0 p), smul_inj_pt by exact H. rewrite Z.mod_0_l by (pose proof N_pos; lia). reflexivity.
Qed.
