(** * Proofs about the point operations of Koblitz.v *)
From Coq Require Import ZArith List Bool Lia Field.
From Verif Require Import Spec Go Wire Big CodecProofs Field SpecField FieldP FieldProofs NumTheory CurveZ CurveGroup Jac JacP Order Koblitz.
From Verif Require ECGroup.
Import ListNotations.
Open Scope Z_scope.

(** ** Field values as elements of Z/P *)
Definition frep (k : Z) (f : fieldVal) (a : Fp) : Prop := fits k f /\ fz (val f) = a.
Definition nrep (f : fieldVal) (a : Fp) : Prop := canonical f /\ fz (val f) = a.

Lemma nrep_frep f a : nrep f a -> frep 1 f a.
Proof. intros [H1 H2]. split; [apply canonical_fits, H1|exact H2]. Qed.
Lemma frep_le k k' f a : (k <=? k') = true -> frep k f a -> frep k' f a.
Proof. intros H [H1 H2]. split; [|exact H2]. apply (fits_le k); [apply Z.leb_le, H|exact H1]. Qed.
Definition in_b (lo hi k : Z) : bool := (lo <=? k) && (k <=? hi).
Lemma in_b_ok lo hi k : in_b lo hi k = true -> lo <= k <= hi.
Proof. unfold in_b. rewrite andb_true_iff, !Z.leb_le. tauto. Qed.

Lemma frep_mul k1 k2 f g a b : frep k1 f a -> frep k2 g b -> (0 <=? k1) && (0 <=? k2) && (k1 * k2 <=? 64) = true ->
  frep 1 (fMul f g) (fmul a b).
Proof.
  intros [F1 V1] [F2 V2] H. apply andb_true_iff in H. destruct H as [H H3]. apply andb_true_iff in H. destruct H as [H1 H2].
  apply Z.leb_le in H1, H2, H3. destruct (mul_ok k1 k2 f g H1 H2 H3 F1 F2) as [F V]. split; [exact F|].
  rewrite <- V1, <- V2, <- fz_mul. apply fz_eq. exact V.
Qed.
Lemma frep_square k f a : frep k f a -> in_b 0 8 k = true -> frep 1 (fSquare f) (fmul a a).
Proof.
  intros [F1 V1] H. apply in_b_ok in H. destruct (square_ok k f) as [F V]; [lia|nia|exact F1|]. split; [exact F|].
  rewrite <- V1, <- fz_mul. apply fz_eq. exact V.
Qed.
Lemma frep_add k1 k2 f g a b : frep k1 f a -> frep k2 g b -> (0 <=? k1) && (0 <=? k2) && (k1 + k2 <=? 63) = true ->
  frep (k1 + k2) (fAdd f g) (fadd a b).
Proof.
  intros [F1 V1] [F2 V2] H. apply andb_true_iff in H. destruct H as [H H3]. apply andb_true_iff in H. destruct H as [H1 H2].
  apply Z.leb_le in H1, H2, H3. destruct (add_ok k1 k2 f g H1 H2 H3 F1 F2) as [F V]. split; [exact F|].
  rewrite V, fz_add, V1, V2. reflexivity.
Qed.
Lemma frep_addInt k f a ui : frep k f a -> in_b 0 62 k && in_b 0 67108864 ui = true -> frep (k + 1) (fAddInt f ui) (fadd a (fz ui)).
Proof.
  intros [F1 V1] H. apply andb_true_iff in H. destruct H as [H1 H2]. apply in_b_ok in H1, H2.
  destruct (addInt_ok k f ui) as [F V]; [lia|lia|lia|exact F1|]. split; [exact F|]. rewrite V, fz_add, V1. reflexivity.
Qed.
Lemma frep_mulInt k j f a : frep k f a -> (0 <=? k) && in_b 0 63 j && (k * j <=? 63) = true ->
  frep (k * j) (fMulInt f j) (fmul a (fz j)).
Proof.
  intros [F1 V1] H. apply andb_true_iff in H. destruct H as [H H3]. apply andb_true_iff in H. destruct H as [H1 H2].
  apply Z.leb_le in H1, H3. apply in_b_ok in H2. destruct (mulInt_ok k j f) as [F V]; [lia|lia|lia|exact F1|].
  split; [exact F|]. rewrite V, fz_mul, V1. reflexivity.
Qed.
Lemma fz_P_sub j x : fz (j * P - x) = fopp (fz x).
Proof. rewrite <- fz_opp. apply fz_eq. replace (j * P - x) with (- x + j * P) by ring. apply Z_mod_plus_full. Qed.
Lemma frep_negate k m f a : frep k f a -> (0 <=? k) && (k <=? m) && (m <=? 62) = true -> frep (m + 1) (fNegate f m) (fopp a).
Proof.
  intros [F1 V1] H. apply andb_true_iff in H. destruct H as [H H3]. apply andb_true_iff in H. destruct H as [H1 H2].
  apply Z.leb_le in H1, H2, H3. destruct (negate_ok k m f) as [F V]; [lia|lia|exact F1|]. split; [exact F|].
  rewrite V, fz_P_sub, V1. reflexivity.
Qed.
Lemma nrep_normalize k f a : frep k f a -> in_b 0 63 k = true -> nrep (fNormalize f) a.
Proof.
  intros [F1 V1] H. apply in_b_ok in H. destruct (normalize_ok k f H F1) as [C V]. split; [exact C|].
  rewrite V, fz_mod. exact V1.
Qed.
Lemma nrep_equals f g a b : nrep f a -> nrep g b -> fEquals f g = true <-> a = b.
Proof.
  intros [C1 V1] [C2 V2]. rewrite (equals_val f g C1 C2). rewrite <- V1, <- V2. split; [intros ->; reflexivity|].
  apply canonical_range in C1, C2. apply fz_small_inj; assumption.
Qed.
Lemma nrep_isZero f a : nrep f a -> fIsZero f = true <-> a = f0.
Proof.
  intros [C1 V1]. rewrite (isZero_val f C1). rewrite <- V1. split; [intros ->; reflexivity|].
  apply canonical_range in C1. intros H. apply fz_small_inj; [exact C1|split; [lia|reflexivity]|exact H].
Qed.
Lemma frep_isZero k f a : frep k f a -> fIsZero f = true -> a = f0.
Proof. intros [F V] H. apply isZero_iff in H. subst f. rewrite <- V. reflexivity. Qed.
Lemma setInt_canonical j : 0 <= j <= 1 -> canonical (fSetInt j).
Proof.
  intros Hj. unfold canonical, fSetInt, val. cbn [n0 n1 n2 n3 n4 n5 n6 n7 n8 n9]. rewrite !u32_small by lia.
  repeat split; try lia. apply Z.le_lt_trans with 1; [lia|reflexivity].
Qed.
Lemma nrep_setInt j : in_b 0 1 j = true -> nrep (fSetInt j) (fz j).
Proof.
  intros H. apply in_b_ok in H. split; [apply setInt_canonical, H|]. rewrite (proj2 (setInt_ok j ltac:(lia))). reflexivity.
Qed.
Lemma nrep_1 : nrep (fSetInt 1) f1. Proof. apply nrep_setInt. reflexivity. Qed.
Lemma nrep_0 : nrep (fSetInt 0) f0. Proof. apply nrep_setInt. reflexivity. Qed.
Lemma nrep_zero : nrep fZero f0. Proof. exact nrep_0. Qed.
Lemma frep_inverse k f a : frep k f a -> in_b 0 8 k = true -> frep 1 (fInverse f) (finv a).
Proof.
  intros [F1 V1] H. apply in_b_ok in H. destruct (inverse_pow k f H F1) as [F V]. split; [exact F|].
  rewrite <- V1, <- fz_inv. apply fz_eq. rewrite V, inv_pow, Zmod_mod. reflexivity.
Qed.

(** compute representatives *)
Ltac frp :=
  lazymatch goal with
  | |- frep _ (fMul _ _) _ => eapply frep_mul; [frp|frp|reflexivity]
  | |- frep _ (fSquare _) _ => eapply frep_square; [frp|reflexivity]
  | |- frep _ (fAdd _ _) _ => eapply frep_add; [frp|frp|reflexivity]
  | |- frep _ (fAddInt _ _) _ => eapply frep_addInt; [frp|reflexivity]
  | |- frep _ (fMulInt _ _) _ => eapply frep_mulInt; [frp|reflexivity]
  | |- frep _ (fNegate _ _) _ => eapply frep_negate; [frp|reflexivity]
  | |- frep _ (fInverse _) _ => eapply frep_inverse; [frp|reflexivity]
  | |- frep _ (fNormalize _) _ => eapply nrep_frep; frp
  | |- nrep (fNormalize _) _ => eapply nrep_normalize; [frp|reflexivity]
  | |- frep _ _ _ => first [eassumption | eapply nrep_frep; eassumption]
  | |- nrep _ _ => eassumption
  end.
(** consume one let *)
Ltac flet :=
  lazymatch goal with
  | |- ?Q (let x := ?t in @?B x) =>
      let H := fresh "R" in let y := fresh x in
      lazymatch t with
      | fNormalize _ => eassert (H : nrep t _) by frp
      | _ => eassert (H : frep _ t _) by frp
      end;
      change (Q (B t)); cbv beta;
      cbn [Z.add Z.mul Pos.add Pos.mul Pos.succ Pos.add_carry] in H;
      generalize dependent t; intros y H
  end.

(** the three coordinates of a point, with the magnitudes the code keeps *)
Definition prep (p : jpt) (X Y Z : Fp) : Prop :=
  let '(x, y, z) := p in frep 1 x X /\ frep 2 y Y /\ frep 1 z Z.
Definition rprep (X Y Z : Fp) (p : jpt) : Prop := prep p X Y Z.

Ltac fclose := unfold rprep, prep; repeat (apply conj);
  [eapply (frep_le 1); [reflexivity|] | eapply (frep_le 1); [reflexivity|] | eapply (frep_le 1); [reflexivity|]].

Lemma rprep_intro x y z X Y Z X' Y' Z' : frep 1 x X' -> frep 1 y Y' -> frep 1 z Z' -> X' = X -> Y' = Y -> Z' = Z ->
  rprep X Y Z (x, y, z).
Proof.
  intros H1 H2 H3 <- <- <-. split; [exact H1|]. split; [|exact H3]. apply (frep_le 1); [reflexivity|exact H2].
Qed.
Lemma fz_16 : fz 16 = fmul (fz 4) (fz 4). Proof. rewrite <- fz_mul. reflexivity. Qed.
Ltac fring := rewrite ?fz_16, ?fz_8, ?fz_4, ?fz_3, ?fz_2; ring.
Ltac fdone := eapply rprep_intro; [frp|frp|frp|fring|fring|fring].

(** ** Doubling *)
Definition dX (X Y : Fp) : Fp := fsub (fmul (fmul (fz 3) (fmul X X)) (fmul (fz 3) (fmul X X))) (fmul (fz 8) (fmul X (fmul Y Y))).
Definition dY (X Y : Fp) : Fp :=
  fsub (fmul (fmul (fz 3) (fmul X X)) (fsub (fmul (fz 4) (fmul X (fmul Y Y))) (dX X Y))) (fmul (fz 8) (fmul (fmul Y Y) (fmul Y Y))).
Lemma double1_rep x1 y1 X Y : frep 1 x1 X -> frep 2 y1 Y ->
  rprep (dX X Y) (dY X Y) (fmul (fz 2) Y) (doubleZ1EqualsOne x1 y1).
Proof.
  intros Hx Hy. unfold doubleZ1EqualsOne. repeat flet. unfold dY, dX. fdone.
Qed.
Lemma doubleG_rep x1 y1 z1 X Y Z : frep 1 x1 X -> frep 2 y1 Y -> nrep z1 Z ->
  rprep (dX X Y) (dY X Y) (fmul (fz 2) (fmul Y Z)) (doubleGeneric x1 y1 z1).
Proof.
  intros Hx Hy Hz. unfold doubleGeneric. repeat flet. unfold dY, dX. fdone.
Qed.

(** [p] stands for the point [e] *)
Definition infrep (p : jpt) : Prop := let '(x, y, z) := p in fIsZero z = true \/ (fIsZero x = true /\ fIsZero y = true).
Definition jr (p : jpt) (e : ept) : Prop :=
  exists X Y Z, prep p X Y Z /\ eonc e /\ ((infrep p /\ e = EInf) \/ (Z <> f0 /\ e = ejaff X Y Z)).

Lemma jr_inf : jr jInf EInf.
Proof.
  exists f0, f0, f0. split; [|split; [exact I|left; split; [left; reflexivity|reflexivity]]].
  unfold jInf, prep. pose proof (nrep_frep _ _ nrep_0) as H. split; [exact H|]. split; [|exact H].
  apply (frep_le 1); [reflexivity|exact H].
Qed.
Lemma jaff_onc_xy X Y Z : Z <> f0 -> eonc (ejaff X Y Z) -> Y <> f0.
Proof. intros HZ HO. exact (ejaff_nz X Y Z HZ HO). Qed.

Lemma double_jaff X Y Z p : Z <> f0 -> eonc (ejaff X Y Z) ->
  rprep (dX X Y) (dY X Y) (fmul (fz 2) (fmul Y Z)) p -> jr p (eadd (ejaff X Y Z) (ejaff X Y Z)).
Proof.
  intros HZ HO HP. pose proof (jaff_onc_xy _ _ _ HZ HO) as HY.
  destruct (ejdbl_ok X Y Z HZ HY) as [E NZ].
  assert (E1 : fmul (fz 2) (fmul Y Z) = fmul (fadd f1 f1) (fmul Y Z)) by fring.
  rewrite E1 in HP. exists (dX X Y), (dY X Y), (fmul (fadd f1 f1) (fmul Y Z)). split; [exact HP|].
  split; [apply e_onc_add; exact HO|]. right. split; [exact NZ|].
  unfold eadd. rewrite E. unfold dY, dX. f_equal; fring.
Qed.
Lemma double_jr p e : jr p e -> jr (doubleJacobian p) (eadd e e).
Proof.
  destruct p as [[x y] z]. intros (X & Y & Z & (Hx & Hy & Hz) & HO & [[HI ->]|[NZ ->]]).
  - replace (doubleJacobian (x, y, z)) with jInf; [exact jr_inf|]. unfold doubleJacobian.
    destruct HI as [->|[_ ->]]; [rewrite orb_true_r|]; reflexivity.
  - unfold doubleJacobian. pose proof (jaff_onc_xy _ _ _ NZ HO) as HY.
    destruct (fIsZero y) eqn:Ey; [apply (frep_isZero _ _ _ Hy) in Ey; contradiction|].
    destruct (fIsZero z) eqn:Ez; [apply (frep_isZero _ _ _ Hz) in Ez; contradiction|]. cbn [orb].
    assert (Nz : nrep (fNormalize z) Z) by (eapply nrep_normalize; [exact Hz|reflexivity]).
    generalize dependent (fNormalize z). intros z' Nz.
    destruct (fEquals z' fieldOne) eqn:E1.
    + apply (nrep_equals _ _ _ _ Nz nrep_1) in E1. subst Z. apply double_jaff; [exact NZ|exact HO|].
      assert (E : fmul (fz 2) (fmul Y f1) = fmul (fz 2) Y) by ring. rewrite E. apply double1_rep; assumption.
    + apply double_jaff; [exact NZ|exact HO|]. apply doubleG_rep; assumption.
Qed.

(** ** Addition *)
Definition aH X1 Z1 X2 Z2 : Fp := fsub (fmul X2 (fmul Z1 Z1)) (fmul X1 (fmul Z2 Z2)).
Definition aR Y1 Z1 Y2 Z2 : Fp := fmul (fz 2) (fsub (fmul Y2 (fmul (fmul Z1 Z1) Z1)) (fmul Y1 (fmul (fmul Z2 Z2) Z2))).
Definition aI X1 Z1 X2 Z2 : Fp := fmul (fz 4) (fmul (aH X1 Z1 X2 Z2) (aH X1 Z1 X2 Z2)).
Definition aX X1 Y1 Z1 X2 Y2 Z2 : Fp :=
  fsub (fsub (fmul (aR Y1 Z1 Y2 Z2) (aR Y1 Z1 Y2 Z2)) (fmul (aH X1 Z1 X2 Z2) (aI X1 Z1 X2 Z2)))
       (fmul (fz 2) (fmul (fmul X1 (fmul Z2 Z2)) (aI X1 Z1 X2 Z2))).
Definition aY X1 Y1 Z1 X2 Y2 Z2 : Fp :=
  fsub (fmul (aR Y1 Z1 Y2 Z2) (fsub (fmul (fmul X1 (fmul Z2 Z2)) (aI X1 Z1 X2 Z2)) (aX X1 Y1 Z1 X2 Y2 Z2)))
       (fmul (fz 2) (fmul (fmul Y1 (fmul (fmul Z2 Z2) Z2)) (fmul (aH X1 Z1 X2 Z2) (aI X1 Z1 X2 Z2)))).
Definition aZ X1 Z1 X2 Z2 : Fp := fmul (fz 2) (fmul (fmul Z1 Z2) (aH X1 Z1 X2 Z2)).

Lemma add_jaff X1 Y1 Z1 X2 Y2 Z2 p : Z1 <> f0 -> Z2 <> f0 -> eonc (ejaff X1 Y1 Z1) -> eonc (ejaff X2 Y2 Z2) ->
  fmul X1 (fmul Z2 Z2) <> fmul X2 (fmul Z1 Z1) ->
  rprep (aX X1 Y1 Z1 X2 Y2 Z2) (aY X1 Y1 Z1 X2 Y2 Z2) (aZ X1 Z1 X2 Z2) p -> jr p (eadd (ejaff X1 Y1 Z1) (ejaff X2 Y2 Z2)).
Proof.
  intros HZ1 HZ2 HO1 HO2 HU HP.
  destruct (ejadd_ok X1 Y1 Z1 X2 Y2 Z2 HZ1 HZ2 HU) as [E NZ].
  exists (aX X1 Y1 Z1 X2 Y2 Z2), (aY X1 Y1 Z1 X2 Y2 Z2), (aZ X1 Z1 X2 Z2). split; [exact HP|].
  split; [apply e_onc_add; assumption|]. right.
  assert (EZ : aZ X1 Z1 X2 Z2 = fmul (fadd f1 f1) (fmul (fmul Z1 Z2) (aH X1 Z1 X2 Z2))) by (unfold aZ; fring).
  split; [rewrite EZ; exact NZ|].
  unfold eadd. rewrite E. f_equal; unfold aZ, aY, aX, aI, aR, aH; fring.
Qed.

Definition addres (p q : jpt) (X Y Z : Fp) (r : jpt) : Prop := prep r X Y Z.

(** what is common to the four addition methods: the case analysis *)
Definition addspec (X1 Y1 Z1 X2 Y2 Z2 : Fp) (r : jpt) : Prop :=
  (fmul X1 (fmul Z2 Z2) = fmul X2 (fmul Z1 Z1) /\ fmul Y1 (fmul (fmul Z2 Z2) Z2) = fmul Y2 (fmul (fmul Z1 Z1) Z1) /\
     exists x y z, r = doubleJacobian (x, y, z) /\ prep (x, y, z) X1 Y1 Z1) \/
  (fmul X1 (fmul Z2 Z2) = fmul X2 (fmul Z1 Z1) /\ fmul Y1 (fmul (fmul Z2 Z2) Z2) <> fmul Y2 (fmul (fmul Z1 Z1) Z1) /\ r = jInf) \/
  (fmul X1 (fmul Z2 Z2) <> fmul X2 (fmul Z1 Z1) /\ rprep (aX X1 Y1 Z1 X2 Y2 Z2) (aY X1 Y1 Z1 X2 Y2 Z2) (aZ X1 Z1 X2 Z2) r) \/
  (fmul X1 (fmul Z2 Z2) <> fmul X2 (fmul Z1 Z1) /\ Z1 = Z2 /\
     let A := fsub X2 X1 in let B := fmul A A in let C := fsub Y2 Y1 in let D := fmul C C in
     let E := fmul X1 B in let F' := fmul X2 B in
     let X3 := fsub (fsub D E) F' in let Y3 := fsub (fmul C (fsub E X3)) (fmul Y1 (fsub F' E)) in let Z3 := fmul Z1 A in
     rprep X3 Y3 Z3 r).

Lemma addspec_jr X1 Y1 Z1 X2 Y2 Z2 r : Z1 <> f0 -> Z2 <> f0 -> eonc (ejaff X1 Y1 Z1) -> eonc (ejaff X2 Y2 Z2) ->
  addspec X1 Y1 Z1 X2 Y2 Z2 r -> jr r (eadd (ejaff X1 Y1 Z1) (ejaff X2 Y2 Z2)).
Proof.
  intros HZ1 HZ2 HO1 HO2 [(EU & ES & x & y & z & -> & HP)|[(EU & NS & ->)|[[NU HP]|(NU & <- & HP)]]].
  - assert (E : ejaff X1 Y1 Z1 = ejaff X2 Y2 Z2) by (apply ejadd_eq; assumption). rewrite <- E.
    apply double_jr. exists X1, Y1, Z1. split; [exact HP|]. split; [exact HO1|]. right. split; [exact HZ1|reflexivity].
  - assert (E : eadd (ejaff X1 Y1 Z1) (ejaff X2 Y2 Z2) = EInf) by (apply ejadd_opp; assumption). rewrite E. exact jr_inf.
  - apply add_jaff; assumption.
  - cbv zeta in HP. assert (NX : X1 <> X2) by congruence.
    destruct (ejcoz_ok X1 Y1 X2 Y2 Z1 HZ1 NX) as [E NZ]. cbv zeta in E, NZ.
    eexists _, _, _. split; [exact HP|]. split; [apply e_onc_add; assumption|]. right. split; [exact NZ|exact E].
Qed.

Lemma add11_spec x1 y1 z1 x2 y2 X1 Y1 X2 Y2 : frep 1 x1 X1 -> frep 2 y1 Y1 -> nrep z1 f1 -> frep 1 x2 X2 -> frep 2 y2 Y2 ->
  addspec X1 Y1 f1 X2 Y2 f1 (addZ1AndZ2EqualsOne x1 y1 z1 x2 y2).
Proof.
  intros Hx1 Hy1 Hz1 Hx2 Hy2. cbv beta delta [addZ1AndZ2EqualsOne]. do 4 flet.
  assert (S1 : forall X Y, fmul X (fmul f1 f1) = fmul Y (fmul f1 f1) <-> X = Y).
  { intros X Y. replace (fmul X (fmul f1 f1)) with X by ring. replace (fmul Y (fmul f1 f1)) with Y by ring. tauto. }
  assert (S2 : forall X Y, fmul X (fmul (fmul f1 f1) f1) = fmul Y (fmul (fmul f1 f1) f1) <-> X = Y).
  { intros X Y. replace (fmul X (fmul (fmul f1 f1) f1)) with X by ring. replace (fmul Y (fmul (fmul f1 f1) f1)) with Y by ring. tauto. }
  unfold addspec. rewrite S1, S2.
  match goal with |- context [fEquals ?a ?b] => destruct (fEquals a b) eqn:EX end.
  - apply (nrep_equals _ _ _ _ R R1) in EX.
    match goal with |- context [fEquals ?a ?b] => destruct (fEquals a b) eqn:EY end.
    + apply (nrep_equals _ _ _ _ R0 R2) in EY. left. split; [exact EX|]. split; [exact EY|].
      eexists _, _, _. split; [reflexivity|]. split; [apply nrep_frep; eassumption|]. split; [|apply nrep_frep; eassumption].
      apply (frep_le 1); [reflexivity|]. apply nrep_frep; eassumption.
    + right. left. split; [exact EX|]. split; [|reflexivity]. intros E. apply (nrep_equals _ _ _ _ R0 R2) in E. congruence.
  - right. right. left. split. { intros E. apply (nrep_equals _ _ _ _ R R1) in E. congruence. }
    repeat flet. unfold aZ, aY, aX, aI, aR, aH. fdone.
Qed.
Lemma addEq_spec x1 y1 z1 x2 y2 X1 Y1 Z1 X2 Y2 : Z1 <> f0 -> frep 1 x1 X1 -> frep 2 y1 Y1 -> nrep z1 Z1 -> frep 1 x2 X2 -> frep 2 y2 Y2 ->
  addspec X1 Y1 Z1 X2 Y2 Z1 (addZ1EqualsZ2 x1 y1 z1 x2 y2).
Proof.
  intros NZ Hx1 Hy1 Hz1 Hx2 Hy2. cbv beta delta [addZ1EqualsZ2]. do 4 flet.
  assert (C : forall W, W <> f0 -> forall X Y, fmul X W = fmul Y W <-> X = Y).
  { intros W HW X Y. split; [|intros ->; reflexivity]. intros E.
    transitivity (fdiv (fmul X W) W); [field; exact HW|]. rewrite E. field. exact HW. }
  assert (NZ2 : fmul Z1 Z1 <> f0) by (apply emul_nz; assumption).
  assert (NZ3 : fmul (fmul Z1 Z1) Z1 <> f0) by (apply emul_nz; assumption).
  unfold addspec. rewrite (C _ NZ2), (C _ NZ3).
  match goal with |- context [fEquals ?a ?b] => destruct (fEquals a b) eqn:EX end.
  - apply (nrep_equals _ _ _ _ R R1) in EX.
    match goal with |- context [fEquals ?a ?b] => destruct (fEquals a b) eqn:EY end.
    + apply (nrep_equals _ _ _ _ R0 R2) in EY. left. split; [exact EX|]. split; [exact EY|].
      eexists _, _, _. split; [reflexivity|]. split; [apply nrep_frep; eassumption|]. split; [|apply nrep_frep; eassumption].
      apply (frep_le 1); [reflexivity|]. apply nrep_frep; eassumption.
    + right. left. split; [exact EX|]. split; [|reflexivity]. intros E. apply (nrep_equals _ _ _ _ R0 R2) in E. congruence.
  - right. right. right. split. { intros E. apply (nrep_equals _ _ _ _ R R1) in E. congruence. }
    split; [reflexivity|]. 
    repeat flet. fdone.
Qed.
Lemma add2_spec x1 y1 z1 x2 y2 X1 Y1 Z1 X2 Y2 : frep 1 x1 X1 -> frep 2 y1 Y1 -> nrep z1 Z1 -> frep 1 x2 X2 -> frep 2 y2 Y2 ->
  addspec X1 Y1 Z1 X2 Y2 f1 (addZ2EqualsOne x1 y1 z1 x2 y2).
Proof.
  intros Hx1 Hy1 Hz1 Hx2 Hy2. cbv beta delta [addZ2EqualsOne]. do 5 flet.
  assert (S1 : forall X, fmul X (fmul f1 f1) = X) by (intros; ring).
  assert (S2 : forall X, fmul X (fmul (fmul f1 f1) f1) = X) by (intros; ring).
  assert (S3 : fmul (fmul Y2 (fmul Z1 Z1)) Z1 = fmul Y2 (fmul (fmul Z1 Z1) Z1)) by ring.
  unfold addspec. rewrite (S2 Y1), (S1 X1). rewrite S3 in R3. clear S1 S2 S3.
  match goal with |- context [fEquals ?a ?b] => destruct (fEquals a b) eqn:EX end.
  - apply (nrep_equals _ _ _ _ R R2) in EX.
    match goal with |- context [fEquals ?a ?b] => destruct (fEquals a b) eqn:EY end.
    + apply (nrep_equals _ _ _ _ R0 R3) in EY. left. split; [exact EX|]. split; [exact EY|].
      eexists _, _, _. split; [reflexivity|]. split; [apply nrep_frep; eassumption|]. split; [|apply nrep_frep; eassumption].
      apply (frep_le 1); [reflexivity|]. apply nrep_frep; eassumption.
    + right. left. split; [exact EX|]. split; [|reflexivity]. intros E. apply (nrep_equals _ _ _ _ R0 R3) in E. congruence.
  - right. right. left. split. { intros E. apply (nrep_equals _ _ _ _ R R2) in E. congruence. }
    repeat flet. unfold aZ, aY, aX, aI, aR, aH. fdone.
Qed.
Lemma addG_spec x1 y1 z1 x2 y2 z2 X1 Y1 Z1 X2 Y2 Z2 : frep 1 x1 X1 -> frep 2 y1 Y1 -> nrep z1 Z1 -> frep 1 x2 X2 -> frep 2 y2 Y2 -> nrep z2 Z2 ->
  addspec X1 Y1 Z1 X2 Y2 Z2 (addGeneric x1 y1 z1 x2 y2 z2).
Proof.
  intros Hx1 Hy1 Hz1 Hx2 Hy2 Hz2. cbv beta delta [addGeneric]. do 6 flet.
  assert (S3 : fmul (fmul Y2 (fmul Z1 Z1)) Z1 = fmul Y2 (fmul (fmul Z1 Z1) Z1)) by ring.
  assert (S4 : fmul (fmul Y1 (fmul Z2 Z2)) Z2 = fmul Y1 (fmul (fmul Z2 Z2) Z2)) by ring.
  unfold addspec. rewrite S3 in R4. rewrite S4 in R3. clear S3 S4.
  match goal with |- context [fEquals ?a ?b] => destruct (fEquals a b) eqn:EX end.
  - apply (nrep_equals _ _ _ _ R1 R2) in EX.
    match goal with |- context [fEquals ?a ?b] => destruct (fEquals a b) eqn:EY end.
    + apply (nrep_equals _ _ _ _ R3 R4) in EY. left. split; [exact EX|]. split; [exact EY|].
      eexists _, _, _. split; [reflexivity|]. split; [eassumption|]. split; [eassumption|]. apply nrep_frep; eassumption.
    + right. left. split; [exact EX|]. split; [|reflexivity]. intros E. apply (nrep_equals _ _ _ _ R3 R4) in E. congruence.
  - right. right. left. split. { intros E. apply (nrep_equals _ _ _ _ R1 R2) in E. congruence. }
    repeat flet. unfold aZ, aY, aX, aI, aR, aH. fdone.
Qed.

Lemma infrep_dec x y z : (fIsZero x && fIsZero y) || fIsZero z = true <-> infrep (x, y, z).
Proof. unfold infrep. rewrite orb_true_iff, andb_true_iff. tauto. Qed.

Lemma add_snd p q X Y Z : prep q X Y Z -> prep (snd (addJacobian p q)) X Y Z.
Proof.
  destruct p as [[x1 y1] z1], q as [[x2 y2] z2]. intros (Hx & Hy & Hz). unfold addJacobian.
  assert (H : prep (x2, y2, z2) X Y Z) by (split; [exact Hx|split; [exact Hy|exact Hz]]).
  destruct ((fIsZero x1 && fIsZero y1) || fIsZero z1); [exact H|].
  destruct ((fIsZero x2 && fIsZero y2) || fIsZero z2); [exact H|]. cbv zeta.
  assert (Nx : frep 1 (fNormalize x2) X) by (eapply nrep_frep, nrep_normalize; [exact Hx|reflexivity]).
  assert (Ny : frep 2 (fNormalize y2) Y) by (apply (frep_le 1); [reflexivity|]; eapply nrep_frep, nrep_normalize; [exact Hy|reflexivity]).
  assert (Nz : frep 1 (fNormalize z2) Z) by (eapply nrep_frep, nrep_normalize; [exact Hz|reflexivity]).
  repeat match goal with |- context [if ?b then _ else _] => destruct b end; cbn [snd]; split; try assumption; split; assumption.
Qed.

Lemma add_jr p q e1 e2 : jr p e1 -> jr q e2 -> jr (fst (addJacobian p q)) (eadd e1 e2).
Proof.
  destruct p as [[x1 y1] z1], q as [[x2 y2] z2].
  intros HP HQ. pose proof HP as HP0. pose proof HQ as HQ0.
  destruct HP as (X1 & Y1 & Z1 & (Hx1 & Hy1 & Hz1) & HO1 & D1). destruct HQ as (X2 & Y2 & Z2 & (Hx2 & Hy2 & Hz2) & HO2 & D2).
  unfold addJacobian.
  destruct ((fIsZero x1 && fIsZero y1) || fIsZero z1) eqn:I1.
  { assert (e1 = EInf) as ->; [|exact HQ0]. destruct D1 as [[_ E]|[NZ E]]; [exact E|]. exfalso.
    apply infrep_dec in I1. destruct I1 as [I1|[_ I1]].
    - apply (frep_isZero _ _ _ Hz1) in I1. contradiction.
    - apply (frep_isZero _ _ _ Hy1) in I1. subst e1. exact (jaff_onc_xy _ _ _ NZ HO1 I1). }
  destruct ((fIsZero x2 && fIsZero y2) || fIsZero z2) eqn:I2.
  { assert (e2 = EInf) as ->; [|destruct e1; exact HP0]. destruct D2 as [[_ E]|[NZ E]]; [exact E|]. exfalso.
    apply infrep_dec in I2. destruct I2 as [I2|[_ I2]].
    - apply (frep_isZero _ _ _ Hz2) in I2. contradiction.
    - apply (frep_isZero _ _ _ Hy2) in I2. subst e2. exact (jaff_onc_xy _ _ _ NZ HO2 I2). }
  destruct D1 as [[I _]|[NZ1 ->]]; [apply infrep_dec in I; congruence|].
  destruct D2 as [[I _]|[NZ2 ->]]; [apply infrep_dec in I; congruence|].
  assert (Nz1 : nrep (fNormalize z1) Z1) by (eapply nrep_normalize; [exact Hz1|reflexivity]).
  assert (Nz2 : nrep (fNormalize z2) Z2) by (eapply nrep_normalize; [exact Hz2|reflexivity]).
  cbv zeta. generalize dependent (fNormalize z1). intros w1 Nz1. generalize dependent (fNormalize z2). intros w2 Nz2.
  destruct (fEquals w2 fieldOne) eqn:E2.
  - apply (nrep_equals _ _ _ _ Nz2 nrep_1) in E2. subst Z2.
    destruct (fEquals w1 fieldOne) eqn:E1.
    + apply (nrep_equals _ _ _ _ Nz1 nrep_1) in E1. subst Z1. cbn [andb fst].
      apply addspec_jr; [assumption..|]. apply add11_spec; assumption.
    + cbn [andb]. destruct (fEquals w1 w2) eqn:E12; cbn [fst].
      * apply (nrep_equals _ _ _ _ Nz1 Nz2) in E12. subst Z1.
        apply addspec_jr; [assumption..|]. apply addEq_spec; assumption.
      * apply addspec_jr; [assumption..|]. apply add2_spec; assumption.
  - rewrite andb_false_r. destruct (fEquals w1 w2) eqn:E12; cbn [fst].
    + apply (nrep_equals _ _ _ _ Nz1 Nz2) in E12. subst Z2.
      apply addspec_jr; [assumption..|]. apply addEq_spec; assumption.
    + apply addspec_jr; [assumption..|]. apply addG_spec; assumption.
Qed.

(** ** Conversions *)
Lemma nrep_out f a : nrep f a -> beval (fBytes f) = fv a.
Proof.
  intros [C V]. rewrite bytes_val by (apply canonical_small in C; apply C). apply canonical_range in C.
  rewrite <- V, fv_fz. symmetry. apply Z.mod_small. exact C.
Qed.
Lemma toBig_rep p X Y Z : prep p X Y Z ->
  fieldJacobianToBigAffine p = (fv (fmul X (fmul (finv Z) (finv Z))), fv (fmul Y (fmul (fmul (finv Z) (finv Z)) (finv Z)))).
Proof.
  destruct p as [[x y] z]. intros (Hx & Hy & Hz). unfold fieldJacobianToBigAffine.
  assert (HI : frep 1 (fInverse z) (finv Z)) by frp.
  generalize dependent (fInverse z). intros w HI.
  f_equal; apply nrep_out; frp.
Qed.
Lemma finv_0 : finv f0 = f0.
Proof. unfold f0. rewrite <- fz_inv. reflexivity. Qed.
Lemma toBig_jr p e : jr p e -> fieldJacobianToBigAffine p = fromE e.
Proof.
  intros (X & Y & Z & HP & HO & D). rewrite (toBig_rep _ _ _ _ HP). destruct p as [[x y] z]. destruct HP as (Hx & Hy & Hz).
  assert (Z1 : forall A, fmul f0 A = f0) by (intros; ring). assert (Z2 : forall A, fmul A f0 = f0) by (intros; ring).
  destruct D as [[[I|[I1 I2]] ->]|[NZ ->]].
  - apply (frep_isZero _ _ _ Hz) in I. subst Z. rewrite finv_0, !Z2. reflexivity.
  - apply (frep_isZero _ _ _ Hx) in I1. apply (frep_isZero _ _ _ Hy) in I2. subst X Y. rewrite !Z1. reflexivity.
  - unfold ejaff, jaff, fromE. f_equal; f_equal; field; exact NZ.
Qed.

Lemma toField x y : 0 <= x < 2 ^ 256 -> 0 <= y < 2 ^ 256 -> exists fx fy, bigAffineToField x y = Ok (fx, fy) /\
  frep 1 fx (fz x) /\ frep 1 fy (fz y) /\ (x = 0 -> fIsZero fx = true) /\ (y = 0 -> fIsZero fy = true).
Proof.
  assert (A : forall v, 0 <= v < 2 ^ 256 -> exists f, fSetByteSlice (bigBytes v) = Ok f /\ frep 1 f (fz v) /\ (v = 0 -> fIsZero f = true)).
  { intros v Hv. destruct (setByteSlice_small (bigBytes v)) as (f & E & V & S).
    - apply bigBytes_ok.
    - apply bigBytes_blen; [lia|]. rewrite Z.abs_eq by lia. exact (proj2 Hv).
    - exists f. split; [exact E|]. rewrite beval_bigBytes, Z.abs_eq in V by lia. split.
      + split; [apply small_fits, S|]. rewrite V. reflexivity.
      + intros ->. apply isZero_iff. apply small_inj; [exact S| |rewrite V; reflexivity].
        apply canonical_small. exact (proj1 nrep_zero). }
  intros Hx Hy. destruct (A x Hx) as (fx & E1 & R1 & Z1). destruct (A y Hy) as (fy & E2 & R2 & Z2).
  exists fx, fy. unfold bigAffineToField. rewrite E1. cbn [bind]. rewrite E2. cbn [bind]. auto.
Qed.
Lemma P_256 : P < 2 ^ 256. Proof. reflexivity. Qed.

Lemma IsOnCurve_ok x y : 0 <= x < 2 ^ 256 -> 0 <= y < 2 ^ 256 ->
  IsOnCurve x y = Ok ((y ^ 2 - (x ^ 3 + 7)) mod P =? 0).
Proof.
  intros Hx Hy. destruct (toField x y Hx Hy) as (fx & fy & E & R1 & R2 & _). unfold IsOnCurve. rewrite E. cbn [bind]. f_equal.
  match goal with |- fEquals ?a ?b = _ => eassert (N1 : nrep a _) by frp; eassert (N2 : nrep b _) by frp; 
    pose proof (nrep_equals _ _ _ _ N1 N2) as EQ end.
  apply Bool.eq_iff_eq_true. rewrite EQ, Z.eqb_eq, <- fz_eq0.
  assert (EE : fz (y ^ 2 - (x ^ 3 + 7)) = fsub (fmul (fz y) (fz y)) (fadd (fmul (fmul (fz x) (fz x)) (fz x)) (fz 7))).
  { rewrite <- !fz_mul, <- fz_add, <- fz_sub. f_equal. ring. }
  rewrite EE. split.
  - intros ->. ring.
  - intros H. transitivity (fadd (fsub (fmul (fz y) (fz y)) (fadd (fmul (fmul (fz x) (fz x)) (fz x)) (fz 7))) (fadd (fmul (fmul (fz x) (fz x)) (fz x)) (fz 7))).
    + ring.
    + rewrite H. ring.
Qed.

Lemma jr_affine p fx fy z : on_curve p -> frep 1 fx (fz (fst p)) -> frep 1 fy (fz (snd p)) -> frep 1 z f1 -> jr (fx, fy, z) (toE p).
Proof.
  intros HP Hx Hy Hz. exists (fz (fst p)), (fz (snd p)), f1. split.
  - split; [exact Hx|]. split; [apply (frep_le 1); [reflexivity|exact Hy]|exact Hz].
  - split; [apply is_point_eonc; right; exact HP|]. right. split; [intros E; apply fz_small_inj in E; [discriminate|split; [lia|reflexivity]..]|].
    rewrite (on_curve_toE p HP). symmetry. apply ejaff_1.
Qed.
Lemma on_curve_256 p : on_curve p -> 0 <= fst p < 2 ^ 256 /\ 0 <= snd p < 2 ^ 256.
Proof. intros (H1 & H2 & _). pose proof P_256. lia. Qed.

Lemma Add_ok p q : is_point p -> is_point q -> Add (fst p) (snd p) (fst q) (snd q) = Ok (padd p q).
Proof.
  intros HP HQ. unfold Add. destruct p as [x1 y1], q as [x2 y2]. cbn [fst snd].
  destruct ((x1 =? 0) && (y1 =? 0)) eqn:E1.
  { apply andb_true_iff in E1. rewrite !Z.eqb_eq in E1. destruct E1 as [-> ->]. change (0, 0) with O. rewrite padd_O_l. reflexivity. }
  destruct ((x2 =? 0) && (y2 =? 0)) eqn:E2.
  { apply andb_true_iff in E2. rewrite !Z.eqb_eq in E2. destruct E2 as [-> ->]. change (0, 0) with O. rewrite padd_O_r. reflexivity. }
  assert (C1 : on_curve (x1, y1)) by (destruct HP as [HP|HP]; [injection HP as -> ->; discriminate|exact HP]).
  assert (C2 : on_curve (x2, y2)) by (destruct HQ as [HQ|HQ]; [injection HQ as -> ->; discriminate|exact HQ]).
  destruct (on_curve_256 _ C1) as [B1 B2]. destruct (on_curve_256 _ C2) as [B3 B4]. cbn [fst snd] in *.
  destruct (toField x1 y1 B1 B2) as (fx1 & fy1 & T1 & R1 & R2 & _). destruct (toField x2 y2 B3 B4) as (fx2 & fy2 & T2 & R3 & R4 & _).
  rewrite T1. cbn [bind]. rewrite T2. cbn [bind]. rewrite padd_fromE by assumption. apply f_equal. apply toBig_jr.
  apply add_jr; apply jr_affine; try assumption; apply nrep_frep, nrep_1.
Qed.
Lemma Double_ok p : is_point p -> Double (fst p) (snd p) = Ok (padd p p).
Proof.
  intros HP. unfold Double. destruct p as [x1 y1]. cbn [fst snd]. destruct (Z.eqb_spec y1 0) as [->|NY].
  - destruct HP as [HP|HP]; [injection HP as ->; reflexivity|]. apply on_curve_y_nz in HP. contradiction.
  - assert (C1 : on_curve (x1, y1)) by (destruct HP as [HP|HP]; [injection HP as -> ->; contradiction|exact HP]).
    destruct (on_curve_256 _ C1) as [B1 B2]. cbn [fst snd] in *.
    destruct (toField x1 y1 B1 B2) as (fx1 & fy1 & T1 & R1 & R2 & _). rewrite T1. cbn [bind].
    rewrite padd_fromE by assumption. apply f_equal. apply toBig_jr. apply double_jr. apply jr_affine; try assumption. apply nrep_frep, nrep_1.
Qed.

(** ** The pair (0,0), which is not a curve point, in Jacobian coordinates *)
Definition zr (p : jpt) : Prop := exists Z, prep p f0 f0 Z.
Lemma zr_inf : zr jInf.
Proof.
  exists f0. pose proof (nrep_frep _ _ nrep_0) as H. split; [exact H|]. split; [|exact H].
  apply (frep_le 1); [reflexivity|exact H].
Qed.
Lemma double_zr p : zr p -> zr (doubleJacobian p).
Proof.
  destruct p as [[x y] z]. intros (Z & Hx & Hy & Hz). unfold doubleJacobian.
  destruct (fIsZero y || fIsZero z); [exact zr_inf|].
  assert (Nz : nrep (fNormalize z) Z) by (eapply nrep_normalize; [exact Hz|reflexivity]).
  generalize dependent (fNormalize z). intros z' Nz.
  assert (EX : dX f0 f0 = f0) by (unfold dX; ring). assert (EY : dY f0 f0 = f0) by (unfold dY, dX; ring).
  destruct (fEquals z' fieldOne).
  - pose proof (double1_rep _ _ _ _ Hx Hy) as H. rewrite EX, EY in H. eexists. exact H.
  - pose proof (doubleG_rep _ _ _ _ _ _ Hx Hy Nz) as H. rewrite EX, EY in H. eexists. exact H.
Qed.
Lemma addspec_zr Z1 Z2 r : addspec f0 f0 Z1 f0 f0 Z2 r -> zr r.
Proof.
  assert (M : forall A, fmul f0 A = f0) by (intros; ring). unfold addspec. rewrite !M.
  intros [(_ & _ & x & y & z & -> & HP)|[(_ & C & _)|[[C _]|[C _]]]]; try congruence.
  apply double_zr. exists Z1. exact HP.
Qed.
Lemma addEq_zr x1 y1 z1 x2 y2 Z : frep 1 x1 f0 -> frep 2 y1 f0 -> nrep z1 Z -> frep 1 x2 f0 -> frep 2 y2 f0 ->
  zr (addZ1EqualsZ2 x1 y1 z1 x2 y2).
Proof.
  intros Hx1 Hy1 Hz1 Hx2 Hy2. cbv beta delta [addZ1EqualsZ2]. do 4 flet.
  rewrite (proj2 (nrep_equals _ _ _ _ R R1) eq_refl), (proj2 (nrep_equals _ _ _ _ R0 R2) eq_refl).
  apply double_zr. exists Z. split; [apply nrep_frep, R|]. split; [apply (frep_le 1); [reflexivity|]; apply nrep_frep, R0|apply nrep_frep, Hz1].
Qed.
Lemma add_zr p q : zr p -> zr q -> zr (fst (addJacobian p q)).
Proof.
  destruct p as [[x1 y1] z1], q as [[x2 y2] z2].
  intros HP HQ. pose proof HP as HP0. pose proof HQ as HQ0.
  destruct HP as (Z1 & Hx1 & Hy1 & Hz1). destruct HQ as (Z2 & Hx2 & Hy2 & Hz2).
  unfold addJacobian.
  destruct ((fIsZero x1 && fIsZero y1) || fIsZero z1); [exact HQ0|].
  destruct ((fIsZero x2 && fIsZero y2) || fIsZero z2); [exact HP0|].
  assert (Nz1 : nrep (fNormalize z1) Z1) by (eapply nrep_normalize; [exact Hz1|reflexivity]).
  assert (Nz2 : nrep (fNormalize z2) Z2) by (eapply nrep_normalize; [exact Hz2|reflexivity]).
  cbv zeta. generalize dependent (fNormalize z1). intros w1 Nz1. generalize dependent (fNormalize z2). intros w2 Nz2.
  destruct (fEquals w2 fieldOne) eqn:E2.
  - apply (nrep_equals _ _ _ _ Nz2 nrep_1) in E2. subst Z2.
    destruct (fEquals w1 fieldOne) eqn:E1.
    + apply (nrep_equals _ _ _ _ Nz1 nrep_1) in E1. subst Z1. cbn [andb fst].
      eapply addspec_zr. apply add11_spec; eassumption.
    + cbn [andb]. destruct (fEquals w1 w2) eqn:E12; cbn [fst].
      * eapply addEq_zr; eassumption.
      * eapply addspec_zr. apply add2_spec; eassumption.
  - rewrite andb_false_r. destruct (fEquals w1 w2) eqn:E12; cbn [fst].
    + eapply addEq_zr; eassumption.
    + eapply addspec_zr. apply addG_spec; eassumption.
Qed.
Lemma toBig_zr p : zr p -> fieldJacobianToBigAffine p = (0, 0).
Proof.
  intros [Z HP]. rewrite (toBig_rep _ _ _ _ HP). assert (Z1 : forall A, fmul f0 A = f0) by (intros; ring). rewrite !Z1. reflexivity.
Qed.
