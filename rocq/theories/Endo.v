(** * The endomorphism (x, y) -> (beta x, y), over an arbitrary field (proof only) *)
From Coq Require Import Ring Field.
From Verif Require Import ECGroup.

Section Endo.
Variable F : Type.
Variables (f0 f1 : F) (fadd fmul fsub : F -> F -> F) (fopp : F -> F)
          (fdiv : F -> F -> F) (finv : F -> F).
Variable Fth : field_theory f0 f1 fadd fmul fsub fopp fdiv finv (@eq F).
Variable Fdec : forall x y : F, {x = y} + {x <> y}.
Add Field endo_field : Fth.
Local Infix "+" := fadd. Local Infix "*" := fmul. Local Infix "-" := fsub.
Local Infix "/" := fdiv. Local Notation "- x" := (fopp x).
Local Notation "0" := f0. Local Notation "1" := f1.
Variables b bt : F.
Hypothesis two_nz : 1 + 1 <> 0.
Hypothesis no_two_torsion : forall x, x * x * x + b <> 0.
Hypothesis bt3 : bt * bt * bt = 1.
Hypothesis bt_nz : bt <> 0.
Hypothesis bt2 : bt * bt = - bt - 1.
Hypothesis bt_1 : bt <> 1.
Local Notation pt := (pt F).
Local Notation Aff := (Aff F).
Local Notation Inf := (Inf F).
Local Notation padd := (padd F f0 f1 fadd fmul fsub fdiv Fdec).
Local Notation pneg := (pneg F fopp).
Local Notation onc := (onc F fadd fmul b).

Definition phi (p : pt) : pt := match p with ECGroup.Inf _ => Inf | ECGroup.Aff _ x y => Aff (bt * x) y end.

Lemma bt_inj x y : bt * x = bt * y -> x = y.
Proof.
  intros H. transitivity (bt * x / bt); [field; exact bt_nz|]. rewrite H. field. exact bt_nz.
Qed.
Lemma e_sub_nz x y : x <> y -> y - x <> 0.
Proof. intros H E. apply H. transitivity (y - (y - x)); [ring|]. rewrite E. ring. Qed.
Lemma aff_eq2 x y x' y' : x = x' -> y = y' -> Aff x y = Aff x' y'.
Proof. intros -> ->. reflexivity. Qed.

Lemma phi_tail l x1 x2 y1 :
  Aff (bt * bt * l * (bt * bt * l) - bt * x1 - bt * x2)
      (bt * bt * l * (bt * x1 - (bt * bt * l * (bt * bt * l) - bt * x1 - bt * x2)) - y1)
  = Aff (bt * (l * l - x1 - x2)) (l * (x1 - (l * l - x1 - x2)) - y1).
Proof.
  assert (E : bt * bt * l * (bt * bt * l) - bt * x1 - bt * x2 = bt * (l * l - x1 - x2)).
  { transitivity (bt * (bt * bt * bt) * (l * l) - bt * x1 - bt * x2); [ring|]. rewrite bt3. ring. }
  rewrite E. apply aff_eq2; [reflexivity|].
  transitivity (bt * bt * bt * l * (x1 - (l * l - x1 - x2)) - y1); [ring|]. rewrite bt3. ring.
Qed.

Lemma phi_add p q : onc p -> onc q -> phi (padd p q) = padd (phi p) (phi q).
Proof.
  destruct p as [|x1 y1]; [reflexivity|]. destruct q as [|x2 y2]; [reflexivity|].
  intros H1 H2. cbn [ECGroup.onc] in H1, H2. cbn [ECGroup.padd phi].
  destruct (Fdec x1 x2) as [e|n].
  - subst x2. destruct (Fdec (bt * x1) (bt * x1)) as [_|c]; [|contradiction (c eq_refl)].
    destruct (Fdec (y1 + y2) 0) as [e|n]; [reflexivity|].
    assert (Hy : y1 <> 0).
    { intros E. apply (no_two_torsion x1). rewrite <- H1, E. ring. }
    cbv zeta. cbn [phi]. set (l := (1 + 1 + 1) * (x1 * x1) / ((1 + 1) * y1)).
    assert (El : (1 + 1 + 1) * (bt * x1 * (bt * x1)) / ((1 + 1) * y1) = bt * bt * l).
    { unfold l. field. split; assumption. }
    rewrite El. symmetry. apply phi_tail.
  - destruct (Fdec (bt * x1) (bt * x2)) as [e|_]; [apply bt_inj in e; contradiction|].
    cbv zeta. cbn [phi]. set (l := (y2 - y1) / (x2 - x1)).
    assert (El : (y2 - y1) / (bt * x2 - bt * x1) = bt * bt * l).
    { unfold l. pose proof (e_sub_nz _ _ n) as Hn.
      transitivity ((y2 - y1) / (bt * (x2 - x1))).
      { f_equal. ring. }
      transitivity ((bt * bt * bt) * (y2 - y1) / (bt * (x2 - x1))).
      { rewrite bt3. field. split; assumption. }
      field. split; assumption. }
    rewrite El. symmetry. apply phi_tail.
Qed.

Lemma phi_onc p : onc p -> onc (phi p).
Proof.
  destruct p as [|x y]; [exact (fun h => h)|]. cbn [ECGroup.onc phi]. intros ->.
  transitivity ((bt * bt * bt) * (x * x * x) + b); [rewrite bt3; ring|ring].
Qed.

Lemma phi_sum x y : onc (Aff x y) -> x <> 0 -> padd (Aff x y) (phi (Aff x y)) = pneg (phi (phi (Aff x y))).
Proof.
  intros H Hx. cbn [ECGroup.padd phi ECGroup.pneg].
  destruct (Fdec x (bt * x)) as [e|n].
  - exfalso. apply bt_1. transitivity (bt * x / x); [field; exact Hx|]. rewrite <- e. field. exact Hx.
  - cbv zeta. pose proof (e_sub_nz _ _ n) as Hn.
    assert (El : (y - y) / (bt * x - x) = 0) by (field; exact Hn). rewrite El.
    assert (E3 : 0 * 0 - x - bt * x = bt * (bt * x)).
    { transitivity (bt * bt * x); [rewrite bt2; ring|ring]. }
    rewrite E3. apply aff_eq2; [reflexivity|ring].
Qed.
End Endo.
