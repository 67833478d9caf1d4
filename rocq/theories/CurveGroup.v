(** * Multiples of points; the group of multiples (proof infrastructure) *)
From Coq Require Import ZArith Znumtheory List Lia Bool Field Ring.
From Verif Require Import NumTheory Primes Spec FieldP CurveZ.
From Verif Require ECGroup.
Open Scope Z_scope.

Create HintDb pt discriminated.
#[export] Hint Constants Opaque : pt.
#[export] Hint Resolve is_point_O is_point_padd is_point_pneg : pt.

Lemma pneg_O : pneg O = O. Proof. reflexivity. Qed.
Lemma padd_cancel p q r : is_point p -> is_point q -> is_point r -> padd p q = padd p r -> q = r.
Proof.
  intros Hp Hq Hr E.
  rewrite <- (padd_O_l q), <- (padd_O_l r), <- (padd_pneg_l p) by auto.
  rewrite !padd_assoc by auto with pt. rewrite E. reflexivity.
Qed.
Lemma padd_inv_uniq p q : is_point p -> is_point q -> padd p q = O -> q = pneg p.
Proof. intros Hp Hq E. apply (padd_cancel p); auto with pt. rewrite E, padd_pneg_r by auto. reflexivity. Qed.
Lemma pneg_padd p q : is_point p -> is_point q -> pneg (padd p q) = padd (pneg p) (pneg q).
Proof.
  intros Hp Hq. symmetry. apply padd_inv_uniq; auto with pt.
  rewrite (padd_comm (pneg p)) by auto with pt.
  rewrite padd_assoc by auto with pt. rewrite <- (padd_assoc q) by auto with pt.
  rewrite padd_pneg_r by auto. rewrite padd_O_l. apply padd_pneg_r; auto.
Qed.

(** ** smul *)
Lemma smul_0 p : smul 0 p = O. Proof. reflexivity. Qed.
Lemma smul_1 p : smul 1 p = p. Proof. cbn. apply padd_O_r. Qed.
Lemma is_point_iter p n : is_point p -> is_point (Pos.iter (padd p) O n).
Proof. intros H. apply Pos.iter_invariant; auto with pt. Qed.
Lemma is_point_smul k p : is_point p -> is_point (smul k p).
Proof. intros H. destruct k; cbn [smul]; auto using is_point_iter with pt. Qed.
#[export] Hint Resolve is_point_smul : pt.

Lemma smul_pos_succ p n : smul (Zpos (Pos.succ n)) p = padd p (smul (Zpos n) p).
Proof. cbn [smul]. apply Pos.iter_succ. Qed.
Lemma smul_opp k p : is_point p -> smul (- k) p = pneg (smul k p).
Proof.
  intros H. destruct k; cbn [Z.opp smul]; [reflexivity|reflexivity|].
  symmetry. apply pneg_invol. apply is_point_iter; exact H.
Qed.
Lemma smul_succ k p : is_point p -> smul (k + 1) p = padd p (smul k p).
Proof.
  intros H. destruct k as [|n|n].
  - cbn [Z.add]. rewrite smul_0, padd_O_r. apply smul_1.
  - replace (Zpos n + 1) with (Zpos (Pos.succ n)) by lia. apply smul_pos_succ.
  - destruct (Pos.eq_dec n 1) as [->|Hn].
    + cbn [smul Z.add Z.pos_sub Pos.iter]. rewrite padd_O_r. symmetry. apply padd_pneg_r; exact H.
    + replace (Zneg n + 1) with (- Zpos (Pos.pred n)) by lia.
      replace (Zneg n) with (- Zpos n) by lia. rewrite !smul_opp by exact H.
      rewrite <- (Pos.succ_pred n Hn) at 2. rewrite smul_pos_succ. rewrite pneg_padd by auto with pt.
      rewrite <- padd_assoc by auto with pt. rewrite padd_pneg_r by exact H. rewrite padd_O_l. reflexivity.
Qed.
Lemma smul_pred k p : is_point p -> smul (k - 1) p = padd (pneg p) (smul k p).
Proof.
  intros H. replace k with ((k - 1) + 1) at 2 by lia. rewrite smul_succ by exact H.
  rewrite <- padd_assoc by auto with pt. rewrite padd_pneg_l by exact H. rewrite padd_O_l. reflexivity.
Qed.
Lemma smul_add a b p : is_point p -> smul (a + b) p = padd (smul a p) (smul b p).
Proof.
  intros H. revert a. apply Z.bi_induction.
  - intros x y ->. reflexivity.
  - rewrite Z.add_0_l, smul_0, padd_O_l. reflexivity.
  - intros a. split; intros IH.
    + replace (Z.succ a + b) with ((a + b) + 1) by lia. unfold Z.succ.
      rewrite !smul_succ by exact H. rewrite IH. symmetry. apply padd_assoc; auto with pt.
    + replace (a + b) with ((Z.succ a + b) - 1) by lia. replace a with (Z.succ a - 1) at 2 by lia.
      rewrite !smul_pred by exact H. rewrite IH. symmetry. apply padd_assoc; auto with pt.
Qed.
Lemma smul_O k : smul k O = O.
Proof.
  assert (H : forall n, Pos.iter (padd O) O n = O) by (intros n; apply Pos.iter_invariant; [intros x ->; reflexivity|reflexivity]).
  destruct k; cbn [smul]; rewrite ?H; reflexivity.
Qed.
Lemma smul_mul a b p : is_point p -> smul (a * b) p = smul a (smul b p).
Proof.
  intros H. revert a. apply Z.bi_induction.
  - intros x y ->. reflexivity.
  - reflexivity.
  - intros a. split; intros IH.
    + replace (Z.succ a * b) with (b + a * b) by lia. rewrite smul_add, IH by exact H.
      unfold Z.succ. rewrite smul_succ by auto with pt. reflexivity.
    + replace (a * b) with (- b + Z.succ a * b) by lia. rewrite smul_add, IH, smul_opp by exact H.
      replace a with (Z.succ a - 1) at 2 by lia. rewrite smul_pred by auto with pt. reflexivity.
Qed.
Lemma smul_padd k p q : is_point p -> is_point q -> smul k (padd p q) = padd (smul k p) (smul k q).
Proof.
  intros Hp Hq. revert k. apply Z.bi_induction.
  - intros x y ->. reflexivity.
  - reflexivity.
  - assert (X : forall a b c d, is_point a -> is_point b -> is_point c -> is_point d ->
       padd (padd a b) (padd c d) = padd (padd a c) (padd b d)).
    { intros a b c d Ha Hb Hc Hd. rewrite !padd_assoc by auto with pt. f_equal.
      rewrite <- !padd_assoc by auto with pt. f_equal. apply padd_comm; auto. }
    intros a. split; intros IH.
    + unfold Z.succ. rewrite !smul_succ by auto with pt. rewrite IH. apply X; auto with pt.
    + replace a with (Z.succ a - 1) by lia. rewrite !smul_pred by auto with pt. rewrite IH.
      rewrite pneg_padd by auto. apply X; auto with pt.
Qed.
Lemma smul_pneg k p : is_point p -> smul k (pneg p) = pneg (smul k p).
Proof.
  intros H. apply padd_inv_uniq; auto with pt. rewrite <- smul_padd by auto with pt.
  rewrite padd_pneg_r by exact H. apply smul_O.
Qed.

