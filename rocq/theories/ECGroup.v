(** * The chord-and-tangent group of y^2 = x^3 + b

    Proof-only file (no code of /repo is modelled here): the textbook affine
    addition on a short Weierstrass curve with a = 0 over an arbitrary field
    without points of order two is a commutative group.  Used by the secp256k1
    instance.  Everything is a section over an arbitrary field; nothing is
    assumed globally. *)
From Coq Require Import Ring Field.

Section ECGroup.
Variable F : Type.
Variables (f0 f1 : F) (fadd fmul fsub : F -> F -> F) (fopp : F -> F)
          (fdiv : F -> F -> F) (finv : F -> F).
Variable Fth : field_theory f0 f1 fadd fmul fsub fopp fdiv finv (@eq F).
Variable Fdec : forall x y : F, {x = y} + {x <> y}.
Add Field ec_field : Fth.
Local Infix "+" := fadd. Local Infix "*" := fmul. Local Infix "-" := fsub.
Local Infix "/" := fdiv. Local Notation "- x" := (fopp x).
Local Notation "0" := f0. Local Notation "1" := f1.
Variable b : F.
Hypothesis two_nz : 1 + 1 <> 0.
Hypothesis no_two_torsion : forall x, x * x * x + b <> 0.

Inductive pt := Inf | Aff (x y : F).

Definition onc (p : pt) : Prop :=
  match p with Inf => True | Aff x y => y * y = x * x * x + b end.

Definition padd (p q : pt) : pt :=
  match p, q with
  | Inf, _ => q
  | _, Inf => p
  | Aff x1 y1, Aff x2 y2 =>
      if Fdec x1 x2 then
        if Fdec (y1 + y2) 0 then Inf
        else let l := (1 + 1 + 1) * (x1 * x1) / ((1 + 1) * y1) in
             let x3 := l * l - x1 - x2 in
             Aff x3 (l * (x1 - x3) - y1)
      else let l := (y2 - y1) / (x2 - x1) in
           let x3 := l * l - x1 - x2 in
           Aff x3 (l * (x1 - x3) - y1)
  end.

Definition pneg (p : pt) : pt :=
  match p with Inf => Inf | Aff x y => Aff x (- y) end.

Lemma f_integral x y : x * y = 0 -> x = 0 \/ y = 0.
Proof.
  intros H. destruct (Fdec x 0) as [e|n]; [left; exact e|right].
  transitivity ((x * y) / x); [field; exact n|].
  rewrite H. field; exact n.
Qed.

Lemma f_sub_nz x y : x <> y -> y - x <> 0.
Proof. intros H E. apply H. transitivity (y - (y - x)); [ring|]. rewrite E. ring. Qed.

Lemma f_sub_eq x y : y - x = 0 -> x = y.
Proof. intros E. transitivity (y - (y - x)); [ring|]. rewrite E. ring. Qed.

Lemma f_mul_nz x y : x <> 0 -> y <> 0 -> x * y <> 0.
Proof. intros Hx Hy E. destruct (f_integral _ _ E); contradiction. Qed.

Lemma y_nz x y : y * y = x * x * x + b -> y <> 0.
Proof. intros H E. apply (no_two_torsion x). rewrite <- H, E. ring. Qed.

Lemma same_x x1 y1 y2 : y1 * y1 = x1 * x1 * x1 + b -> y2 * y2 = x1 * x1 * x1 + b ->
  y1 + y2 <> 0 -> y1 = y2.
Proof.
  intros H1 H2 Hn.
  assert (E : (y2 - y1) * (y1 + y2) = 0).
  { transitivity (y2 * y2 - y1 * y1); [ring|]. rewrite H1, H2. ring. }
  destruct (f_integral _ _ E) as [E1|E1]; [apply f_sub_eq; exact E1|contradiction].
Qed.

(** Case principle for the addition of two affine curve points. *)
Inductive add_case (x1 y1 x2 y2 : F) : pt -> Prop :=
| ac_opp : x2 = x1 -> y2 = - y1 -> add_case x1 y1 x2 y2 Inf
| ac_tan : x2 = x1 -> y2 = y1 -> y1 <> 0 -> forall l x3 y3,
    l = (1 + 1 + 1) * (x1 * x1) / ((1 + 1) * y1) ->
    x3 = l * l - x1 - x2 -> y3 = l * (x1 - x3) - y1 ->
    add_case x1 y1 x2 y2 (Aff x3 y3)
| ac_gen : x2 - x1 <> 0 -> forall l x3 y3,
    l = (y2 - y1) / (x2 - x1) ->
    x3 = l * l - x1 - x2 -> y3 = l * (x1 - x3) - y1 ->
    add_case x1 y1 x2 y2 (Aff x3 y3).

Lemma padd_case x1 y1 x2 y2 :
  y1 * y1 = x1 * x1 * x1 + b -> y2 * y2 = x2 * x2 * x2 + b ->
  add_case x1 y1 x2 y2 (padd (Aff x1 y1) (Aff x2 y2)).
Proof.
  intros H1 H2. cbn [padd].
  destruct (Fdec x1 x2) as [e|n].
  - subst x2. destruct (Fdec (y1 + y2) 0) as [e|n].
    + apply ac_opp; [reflexivity|].
      transitivity ((y1 + y2) - y1); [ring|]. rewrite e. ring.
    + pose proof (same_x _ _ _ H1 H2 n); subst y2.
      eapply ac_tan; try reflexivity. eapply y_nz; eassumption.
  - eapply ac_gen; try reflexivity. apply f_sub_nz; exact n.
Qed.

Ltac fnz := repeat (assumption || match goal with
  | |- _ /\ _ => split
  | |- _ * _ <> 0 => apply f_mul_nz end).

Lemma onc_add p q : onc p -> onc q -> onc (padd p q).
Proof.
  destruct p as [|x1 y1], q as [|x2 y2]; try (cbn; auto; fail).
  intros H1 H2; cbn [onc] in H1, H2.
  destruct (padd_case _ _ _ _ H1 H2) as [E1 E2|E1 E2 Hn l x3 y3 L X Y|Hn l x3 y3 L X Y];
    cbn [onc]; [exact I| |]; subst.
  - field [H1]. fnz.
  - field [H1 H2]. fnz.
Qed.

Lemma onc_neg p : onc p -> onc (pneg p).
Proof. destruct p; cbn; auto. intros H. rewrite <- H. ring. Qed.

Lemma pneg_invol p : pneg (pneg p) = p.
Proof. destruct p; cbn; auto. f_equal. ring. Qed.

Lemma padd_0_l p : padd Inf p = p. Proof. destruct p; reflexivity. Qed.
Lemma padd_0_r p : padd p Inf = p. Proof. destruct p; reflexivity. Qed.

Lemma padd_neg_r p : padd p (pneg p) = Inf.
Proof.
  destruct p as [|x y]; [reflexivity|]. cbn.
  destruct (Fdec x x) as [_|n]; [|congruence].
  destruct (Fdec (y + - y) 0) as [_|n]; [reflexivity|]. exfalso; apply n; ring.
Qed.

Lemma neg_self y : y = - y -> y = 0.
Proof.
  intros E. assert (H : (1 + 1) * y = 0) by (transitivity (y - - y); [ring|rewrite <- E; ring]).
  destruct (f_integral _ _ H); [contradiction|assumption].
Qed.

Lemma padd_comm p q : onc p -> onc q -> padd p q = padd q p.
Proof.
  destruct p as [|x1 y1], q as [|x2 y2]; try reflexivity.
  intros H1 H2; cbn [onc] in H1, H2.
  destruct (padd_case _ _ _ _ H1 H2) as [E1 E2|E1 E2 Hn l x3 y3 L X Y|Hn l x3 y3 L X Y];
  destruct (padd_case _ _ _ _ H2 H1) as [E1' E2'|E1' E2' Hn' l' x3' y3' L' X' Y'|Hn' l' x3' y3' L' X' Y'];
  try reflexivity.
  - exfalso. subst y1. apply Hn'. apply neg_self; assumption.
  - exfalso. subst x2. apply Hn'; ring.
  - exfalso. subst y2. apply Hn. apply neg_self; assumption.
  - subst; reflexivity.
  - exfalso. subst x2. apply Hn'; ring.
  - exfalso. subst x2. apply Hn; ring.
  - exfalso. subst x2. apply Hn; ring.
  - subst. f_equal; field; fnz.
Qed.

(** [P + Q = P] only for the identity. *)
Lemma padd_uniq0 p q : onc p -> onc q -> padd p q = p -> q = Inf.
Proof.
  destruct p as [|x1 y1], q as [|x2 y2]; try (cbn; congruence).
  intros H1 H2 E; cbn [onc] in H1, H2. exfalso.
  pose proof (y_nz _ _ H1) as Hy.
  destruct (padd_case _ _ _ _ H1 H2) as [E1 E2|E1 E2 Hn l x3 y3 L X Y|Hn l x3 y3 L X Y];
    [discriminate| |]; injection E as -> ->; apply Hy, neg_self; rewrite Y at 1; ring.
Qed.

Lemma pneg_add p q : onc p -> onc q -> pneg (padd p q) = padd (pneg p) (pneg q).
Proof.
  destruct p as [|x1 y1], q as [|x2 y2]; try reflexivity.
  intros H1 H2; cbn [onc pneg] in *.
  assert (H1' : - y1 * - y1 = x1 * x1 * x1 + b) by (rewrite <- H1; ring).
  assert (H2' : - y2 * - y2 = x2 * x2 * x2 + b) by (rewrite <- H2; ring).
  destruct (padd_case _ _ _ _ H1 H2) as [E1 E2|E1 E2 Hn l x3 y3 L X Y|Hn l x3 y3 L X Y];
  destruct (padd_case _ _ _ _ H1' H2') as [E1' E2'|E1' E2' Hn' l' x3' y3' L' X' Y'|Hn' l' x3' y3' L' X' Y'];
  cbn [pneg]; try reflexivity.
  - exfalso. subst y2. apply (y_nz _ _ H1), neg_self. rewrite <- E2'. ring.
  - exfalso. subst x2. apply Hn'; ring.
  - exfalso. subst y2. apply Hn, neg_self. transitivity (- - y1); [ring|]. rewrite <- E2'. ring.
  - subst; f_equal; field; fnz.
  - exfalso. subst x2. apply Hn'; ring.
  - exfalso. subst x2. apply Hn; ring.
  - exfalso. subst x2. apply Hn; ring.
  - subst; f_equal; field; fnz.
Qed.

Lemma f_eq_div x y z : z <> 0 -> x * z = y -> x = y / z.
Proof. intros Hz <-. field. exact Hz. Qed.

Lemma f_cancel_r x y z : z <> 0 -> x * z = y * z -> x = y.
Proof.
  intros Hz E. rewrite (f_eq_div x (y * z) z Hz E). field. exact Hz.
Qed.

Ltac nz H D := let Z := fresh "Z" in intros Z; apply H; apply (f_cancel_r _ _ D);
  [fnz | transitivity 0; [rewrite <- Z; field; fnz | ring]].
Ltac nzu H D N := let Z := fresh "Z" in intros Z; apply H; apply (f_cancel_r _ _ D);
  [fnz | transitivity 0; [rewrite <- Z; unfold N; field; fnz | ring]].
Ltac nz2 H D N d := let Z := fresh "Z" in intros Z; apply H; apply (f_cancel_r _ _ D);
  [fnz | transitivity 0; [rewrite <- Z; unfold N, d; field; fnz | ring]].

Lemma padd_cancel p r : onc p -> onc r -> padd p (padd (pneg p) r) = r.
Proof.
  intros Hp Hr.
  destruct p as [|x1 y1], r as [|x2 y2]; try reflexivity.
  { rewrite padd_0_r. apply padd_neg_r. }
  assert (Hq : onc (padd (pneg (Aff x1 y1)) (Aff x2 y2))) by (apply onc_add; [apply onc_neg|]; assumption).
  assert (U : padd (pneg (Aff x1 y1)) (Aff x2 y2) <> pneg (Aff x1 y1)).
  { intros E. apply padd_uniq0 in E; [discriminate|apply onc_neg; assumption|assumption]. }
  cbn [onc pneg] in *.
  assert (H1' : - y1 * - y1 = x1 * x1 * x1 + b) by (rewrite <- Hp; ring).
  assert (Hy : y1 <> 0) by (eapply y_nz; eassumption).
  destruct (padd_case _ _ _ _ H1' Hr) as [E1 E2|E1 E2 Hn l x3 y3 L X Y|Hn l x3 y3 L X Y].
  - cbn. subst. f_equal. ring.
  - cbn [onc] in Hq.
    destruct (padd_case _ _ _ _ Hp Hq) as [E1' E2'|E1' E2' Hn' l' x3' y3' L' X' Y'|Hn' l' x3' y3' L' X' Y'].
    + exfalso. apply U. rewrite E1', E2'. reflexivity.
    + assert (LL : l' = - l) by (rewrite L, L'; field; fnz).
      assert (X3 : x3' = x1).
      { rewrite X'. rewrite E1'. rewrite LL. rewrite <- E1' at 3. rewrite X. rewrite E1. ring. }
      rewrite Y', X3, E1, E2. f_equal. ring.
    + assert (N : - y1 - y1 <> 0).
      { intros E. apply Hy, neg_self. symmetry. apply f_sub_eq.
        transitivity (- (- y1 - y1)); [ring|]. rewrite E. ring. }
      clear U Hq. subst x2 y2.
      subst l y3. subst x3 y3' l' x3'. f_equal; field [Hp]; fnz. all: nz Hn' ((1+1)*y1*((1+1)*y1)).
  - cbn [onc] in Hq.
    destruct (padd_case _ _ _ _ Hp Hq) as [E1' E2'|E1' E2' Hn' l' x3' y3' L' X' Y'|Hn' l' x3' y3' L' X' Y'].
    + exfalso. apply U. rewrite E1', E2'. reflexivity.
    + assert (LY : l * (x2 - x1) = y2 + y1) by (rewrite L; field; fnz).
      assert (LX : l * l = x2 + x1 + x1) by (transitivity (x3 + x1 + x2); [rewrite X; ring| rewrite E1'; ring]).
      assert (LT : l = - l').
      { rewrite L'. apply (f_cancel_r _ _ ((1 + 1) * y1 * (x2 - x1))); [fnz|].
        transitivity (l * (x2 - x1) * ((1+1) * y1)); [ring|]. rewrite LY.
        transitivity (- ((1 + 1 + 1) * (x1 * x1) * (x2 - x1))); [|field; fnz].
        assert (Q1 : y2 = l * (x2 - x1) - y1) by (rewrite LY; ring).
        assert (Q2 : l * l * (x2 - x1) * (x2 - x1) = (y2 + y1) * (y2 + y1)) by (rewrite <- LY; ring).
        rewrite LX in Q2.
        transitivity ((y2 + y1) * (y2 + y1) - (y2 * y2 - y1 * y1)); [ring|].
        rewrite <- Q2, Hr, Hp. ring. }
      f_equal.
      * rewrite X', E1'. transitivity (l * l - x1 - x1); [rewrite LT; ring|]. rewrite LX. ring.
      * assert (X3 : x3' = x2) by (rewrite X', E1'; transitivity (l * l - x1 - x1); [rewrite LT; ring|]; rewrite LX; ring).
        rewrite Y', X3. transitivity (l * (x2 - x1) - y1); [rewrite LT; ring|]. rewrite LY. ring.
    + clear U Hq. subst. f_equal; field [Hp Hr]; fnz. all: nz Hn' ((x2-x1)*(x2-x1)).
Qed.

Ltac onc_tac := repeat first [assumption | apply onc_add | apply onc_neg | exact I].

Lemma padd_neg_l p : onc p -> padd (pneg p) p = Inf.
Proof. intros H. rewrite padd_comm by onc_tac. apply padd_neg_r. Qed.

Lemma padd_inv p q : onc p -> onc q -> padd p q = Inf -> q = pneg p.
Proof.
  intros Hp Hq E. rewrite <- (pneg_invol p) in E.
  rewrite <- (padd_cancel (pneg p) q) by onc_tac. rewrite E. apply padd_0_r.
Qed.

(** P = Q tangent, everything else generic *)
Lemma assoc_double x1 y1 x3 y3 :
  y1 * y1 = x1 * x1 * x1 + b -> y3 * y3 = x3 * x3 * x3 + b -> y1 <> 0 -> x3 - x1 <> 0 ->
  forall l xa ya m xb yb n xc yc k xd yd,
  l = (1 + 1 + 1) * (x1 * x1) / ((1 + 1) * y1) -> xa = l * l - x1 - x1 -> ya = l * (x1 - xa) - y1 ->
  m = (y3 - y1) / (x3 - x1) -> xb = m * m - x1 - x3 -> yb = m * (x1 - xb) - y1 ->
  x3 - xa <> 0 -> xb - x1 <> 0 ->
  n = (y3 - ya) / (x3 - xa) -> xc = n * n - xa - x3 -> yc = n * (xa - xc) - ya ->
  k = (yb - y1) / (xb - x1) -> xd = k * k - x1 - xb -> yd = k * (x1 - xd) - y1 ->
  Aff xc yc = Aff xd yd.
Proof.
  intros H1 H3 Hy D1 l xa ya m xb yb n xc yc k xd yd -> -> -> -> -> -> D3 D4 -> -> -> -> -> ->.
  f_equal.
  - field [H1 H3]. fnz; [nz D4 ((x3-x1)*(x3-x1))|nz D3 ((1+1)*y1*((1+1)*y1))].
  - field [H1 H3]. fnz; [nz D4 ((x3-x1)*(x3-x1))|nz D3 ((1+1)*y1*((1+1)*y1))].
Qed.

(** everything generic *)
Lemma assoc_generic x1 y1 x2 y2 x3 y3 :
  y1 * y1 = x1 * x1 * x1 + b -> y2 * y2 = x2 * x2 * x2 + b -> y3 * y3 = x3 * x3 * x3 + b ->
  x2 - x1 <> 0 -> x3 - x2 <> 0 ->
  forall l xa ya m xb yb n xc yc k xd yd,
  l = (y2 - y1) / (x2 - x1) -> xa = l * l - x1 - x2 -> ya = l * (x1 - xa) - y1 ->
  m = (y3 - y2) / (x3 - x2) -> xb = m * m - x2 - x3 -> yb = m * (x2 - xb) - y2 ->
  x3 - xa <> 0 -> xb - x1 <> 0 ->
  n = (y3 - ya) / (x3 - xa) -> xc = n * n - xa - x3 -> yc = n * (xa - xc) - ya ->
  k = (yb - y1) / (xb - x1) -> xd = k * k - x1 - xb -> yd = k * (x1 - xd) - y1 ->
  Aff xc yc = Aff xd yd.
Proof.
  intros H1 H2 H3 D1 D2 l xa ya m xb yb n xc yc k xd yd -> -> -> -> -> -> D3 D4 -> -> -> -> -> ->.
  f_equal.
  - field [H1 H2 H3]. fnz; [nz D4 ((x3-x2)*(x3-x2))|nz D3 ((x2-x1)*(x2-x1))].
  - field [H1 H2 H3]. fnz; [nz D4 ((x3-x2)*(x3-x2))|nz D3 ((x2-x1)*(x2-x1))].
Qed.

(** P = Q and R = P + P *)
Lemma assoc_quad x1 y1 :
  y1 * y1 = x1 * x1 * x1 + b -> y1 <> 0 ->
  forall l xa ya m xb yb n xc yc k xd yd,
  l = (1 + 1 + 1) * (x1 * x1) / ((1 + 1) * y1) -> xa = l * l - x1 - x1 -> ya = l * (x1 - xa) - y1 -> ya <> 0 ->
  xa - x1 <> 0 -> m = (ya - y1) / (xa - x1) -> xb = m * m - x1 - xa -> yb = m * (x1 - xb) - y1 ->
  xb - x1 <> 0 ->
  n = (1 + 1 + 1) * (xa * xa) / ((1 + 1) * ya) -> xc = n * n - xa - xa -> yc = n * (xa - xc) - ya ->
  k = (yb - y1) / (xb - x1) -> xd = k * k - x1 - xb -> yd = k * (x1 - xd) - y1 ->
  Aff xc yc = Aff xd yd.
Proof.
  intros H1 Hy l xa ya m xb yb n xc yc k xd yd -> -> -> Ha D2 -> -> -> D3 -> -> -> -> -> ->.
  pose (d := (1 + 1) * y1).
  assert (Hd : d <> 0) by (unfold d; fnz).
  pose (N := (1 + (1 + 1)) * (x1 * x1) * ((1 + (1 + 1)) * (x1 * x1)) - x1 * (d * d) - x1 * (d * d) - x1 * (d * d)).
  assert (HN : N <> 0) by (unfold N, d; nzu D2 (d * d) d).
  f_equal.
  - field [H1]. fnz; [nz2 D3 (N * N * (d * d)) N d|nzu Ha (d * (d * d)) d].
  - field [H1]. fnz; [nz2 D3 (N * N * (d * d)) N d|nzu Ha (d * (d * d)) d].
Qed.

Lemma padd_cancel_l p q r : onc p -> onc q -> onc r -> padd p q = padd p r -> q = r.
Proof.
  intros Hp Hq Hr E.
  rewrite <- (padd_cancel (pneg p) q), <- (padd_cancel (pneg p) r) by onc_tac.
  rewrite pneg_invol, E. reflexivity.
Qed.

Lemma padd_self_nz x y : y * y = x * x * x + b -> pneg (Aff x y) <> Aff x y.
Proof.
  intros H E. injection E as E. apply (y_nz _ _ H). apply neg_self. symmetry; exact E.
Qed.

Lemma assoc_deg P Q R : onc P -> onc Q -> onc R ->
  padd P Q = Inf \/ padd Q R = Inf \/ padd (padd P Q) R = Inf \/ padd P (padd Q R) = Inf \/ P = R ->
  padd (padd P Q) R = padd P (padd Q R).
Proof.
  intros H1 H2 H3.
  assert (HA : onc (padd P Q)) by onc_tac.
  assert (HB : onc (padd Q R)) by onc_tac.
  intros [E|[E|[E|[E|E]]]].
  - pose proof (padd_inv _ _ H1 H2 E) as ->. rewrite E, padd_0_l.
    symmetry. apply padd_cancel; assumption.
  - pose proof (padd_inv _ _ H2 H3 E) as ER. rewrite E, padd_0_r, ER.
    rewrite (padd_comm P Q), (padd_comm _ (pneg Q)) by onc_tac.
    rewrite <- (pneg_invol Q) at 2. apply padd_cancel; onc_tac.
  - pose proof (padd_inv _ _ HA H3 E) as ER. rewrite E. rewrite ER.
    rewrite pneg_add, (padd_comm (pneg P)) by onc_tac. rewrite padd_cancel by onc_tac.
    symmetry; apply padd_neg_r.
  - rewrite padd_comm in E by onc_tac. pose proof (padd_inv _ _ HB H1 E) as EP.
    rewrite (padd_comm P (padd Q R)) by onc_tac. rewrite E. rewrite EP.
    rewrite pneg_add by onc_tac. rewrite (padd_comm _ Q) by onc_tac.
    rewrite padd_cancel by onc_tac. rewrite padd_neg_l by onc_tac. reflexivity.
  - rewrite <- E. rewrite (padd_comm Q P), (padd_comm (padd P Q) P) by onc_tac. reflexivity.
Qed.

Lemma pt_cases p : p = Inf \/ exists x y, p = Aff x y.
Proof. destruct p; eauto. Qed.

Ltac inv_case K l := let E1 := fresh "Ex" in let E2 := fresh "Ey" in let N := fresh "N" in
  let L := fresh "L" in let X := fresh "X" in let Y := fresh "Y" in let a := fresh in let b := fresh in
  inversion K as [|E1 E2 N l a b L X Y|N l a b L X Y]; clear K; subst a b.

Lemma assoc_dbl p r : onc p -> onc r -> padd (padd p p) r = padd p (padd p r).
Proof.
  intros Hp Hr. destruct p as [|x1 y1]; [reflexivity|]. destruct r as [|x3 y3]; [rewrite !padd_0_r; reflexivity|].
  assert (HA : onc (padd (Aff x1 y1) (Aff x1 y1))) by onc_tac.
  assert (HB : onc (padd (Aff x1 y1) (Aff x3 y3))) by onc_tac.
  pose proof (padd_case _ _ _ _ Hp Hp) as K1.
  pose proof (padd_case _ _ _ _ Hp Hr) as K2.
  destruct (pt_cases (padd (Aff x1 y1) (Aff x1 y1))) as [EA|[xa [ya EA]]]; [apply assoc_deg; auto|].
  destruct (pt_cases (padd (Aff x1 y1) (Aff x3 y3))) as [EB|[xb [yb EB]]]; [apply assoc_deg; auto|].
  destruct (pt_cases (padd (padd (Aff x1 y1) (Aff x1 y1)) (Aff x3 y3))) as [EC|[xc [yc EC]]]; [apply assoc_deg; auto|].
  destruct (pt_cases (padd (Aff x1 y1) (padd (Aff x1 y1) (Aff x3 y3)))) as [ED|[xd [yd ED]]]; [apply assoc_deg; auto 6|].
  rewrite EC, ED. rewrite EA in *. rewrite EB in *.
  pose proof (padd_case _ _ _ _ HA Hr) as K3. rewrite EC in K3.
  pose proof (padd_case _ _ _ _ Hp HB) as K4. rewrite ED in K4.
  inversion K1 as [|_ _ N1 l1 ? ? L1 X1 Y1 |N1]; [|exfalso; apply N1; ring]. clear K1.
  inversion K2 as [|Ex2 Ey2 N2 l2 ? ? L2 X2 Y2|N2 l2 ? ? L2 X2 Y2]; clear K2.
  { rewrite <- EC, <- ED, <- EA, <- EB. apply assoc_deg; auto 6. subst; auto 6. }
  inversion K4 as [|Ex4 Ey4 N4 l4 ? ? L4 X4 Y4|N4 l4 ? ? L4 X4 Y4]; clear K4.
  { exfalso. rewrite Ex4, Ey4 in EB. apply padd_uniq0 in EB; auto. discriminate. }
  inversion K3 as [|Ex3 Ey3 N3 l3 ? ? L3 X3 Y3|N3 l3 ? ? L3 X3 Y3]; clear K3.
  - rewrite Ex3, Ey3 in *. subst x3 y3.
    eapply assoc_quad; [exact Hp|exact N1|exact L1|exact X1|exact Y1|exact N3|exact N2|exact L2|exact X2|exact Y2|exact N4|exact L3|exact X3|exact Y3|exact L4|exact X4|exact Y4].
  - eapply assoc_double; [exact Hp|exact Hr|exact N1|exact N2|exact L1|exact X1|exact Y1|exact L2|exact X2|exact Y2|exact N3|exact N4|exact L3|exact X3|exact Y3|exact L4|exact X4|exact Y4].
Qed.

Lemma assoc_sumsum p q : onc p -> onc q -> padd (padd p q) (padd p q) = padd p (padd q (padd p q)).
Proof.
  intros Hp Hq.
  assert (HA : onc (padd p q)) by onc_tac.
  assert (E : padd (padd p q) (pneg p) = q).
  { rewrite (padd_comm (padd p q)) by onc_tac. rewrite <- (pneg_invol p) at 2. apply padd_cancel; onc_tac. }
  pose proof (assoc_dbl (padd p q) (pneg p) HA ltac:(onc_tac)) as D. rewrite E in D.
  rewrite (padd_comm q), <- D by onc_tac. rewrite (padd_comm _ (pneg p)) by onc_tac.
  symmetry. apply padd_cancel; onc_tac.
Qed.

Theorem padd_assoc p q r : onc p -> onc q -> onc r -> padd (padd p q) r = padd p (padd q r).
Proof.
  intros H1 H2 H3.
  destruct p as [|x1 y1]; [rewrite !padd_0_l; reflexivity|].
  destruct q as [|x2 y2]; [rewrite padd_0_l, padd_0_r; reflexivity|].
  destruct r as [|x3 y3]; [rewrite !padd_0_r; reflexivity|].
  pose proof (padd_case _ _ _ _ H1 H2) as K1.
  pose proof (padd_case _ _ _ _ H2 H3) as K2.
  assert (HA : onc (padd (Aff x1 y1) (Aff x2 y2))) by onc_tac.
  assert (HB : onc (padd (Aff x2 y2) (Aff x3 y3))) by onc_tac.
  destruct (pt_cases (padd (Aff x1 y1) (Aff x2 y2))) as [EA|[xa [ya EA]]]; [apply assoc_deg; auto|].
  destruct (pt_cases (padd (Aff x2 y2) (Aff x3 y3))) as [EB|[xb [yb EB]]]; [apply assoc_deg; auto|].
  destruct (pt_cases (padd (padd (Aff x1 y1) (Aff x2 y2)) (Aff x3 y3))) as [EC|[xc [yc EC]]]; [apply assoc_deg; auto|].
  destruct (pt_cases (padd (Aff x1 y1) (padd (Aff x2 y2) (Aff x3 y3)))) as [ED|[xd [yd ED]]]; [apply assoc_deg; auto 6|].
  assert (GS : Aff xa ya = Aff x3 y3 -> Aff xc yc = Aff xd yd).
  { intros E. rewrite <- EC, <- ED, EA, E, <- E, <- EA. apply assoc_sumsum; assumption. }
  assert (GT : Aff xb yb = Aff x1 y1 -> Aff xc yc = Aff xd yd).
  { intros E. rewrite <- EC, <- ED, EB, E, <- E, <- EB.
    set (Q := Aff x2 y2) in *. set (R := Aff x3 y3) in *.
    rewrite (padd_comm Q R), (padd_comm (padd R Q) Q), (padd_comm (padd Q (padd R Q)) R) by onc_tac.
    symmetry; apply assoc_sumsum; assumption. }
  rewrite EC, ED.
  assert (DB1 : Aff x1 y1 = Aff x2 y2 -> Aff xc yc = Aff xd yd).
  { intros E. rewrite <- EC, <- ED, E. apply assoc_dbl; assumption. }
  assert (DB2 : Aff x2 y2 = Aff x3 y3 -> Aff xc yc = Aff xd yd).
  { intros E. rewrite <- EC, <- ED, <- E. set (P := Aff x1 y1) in *. set (Q := Aff x2 y2) in *.
    rewrite (padd_comm (padd P Q) Q), (padd_comm P Q), (padd_comm P) by onc_tac.
    symmetry; apply assoc_dbl; assumption. }
  rewrite EA in *. rewrite EB in *.
  pose proof (padd_case _ _ _ _ HA H3) as K3. rewrite EC in K3.
  pose proof (padd_case _ _ _ _ H1 HB) as K4. rewrite ED in K4.
  inversion K1 as [|Ex1 Ey1 N1 l1 ? ? L1 X1 Y1|N1 l1 ? ? L1 X1 Y1]; clear K1; [apply DB1; congruence|].
  inversion K2 as [|Ex2 Ey2 N2 l2 ? ? L2 X2 Y2|N2 l2 ? ? L2 X2 Y2]; clear K2; [apply DB2; congruence|].
  inversion K3 as [|Ex3 Ey3 N3 l3 ? ? L3 X3 Y3|N3 l3 ? ? L3 X3 Y3]; clear K3; [apply GS; congruence|].
  inversion K4 as [|Ex4 Ey4 N4 l4 ? ? L4 X4 Y4|N4 l4 ? ? L4 X4 Y4]; clear K4; [apply GT; congruence|].
  eapply assoc_generic; [exact H1|exact H2|exact H3|exact N1|exact N2|exact L1|exact X1|exact Y1|exact L2|exact X2|exact Y2|exact N3|exact N4|exact L3|exact X3|exact Y3|exact L4|exact X4|exact Y4].
Qed.

End ECGroup.
