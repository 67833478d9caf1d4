(** * The modelled curve returns on every pair of coordinates below 2^256 *)
From Coq Require Import ZArith List Bool Lia.
From Verif Require Import Go Wire Big Spec SpecZk CodecProofs Field FieldProofs Koblitz KobProofs SpecCurve ZkBase KobTab SpecTotal.
Import ListNotations.
Open Scope Z_scope.

Lemma fBytes_range f : 0 <= beval (fBytes f) < 2 ^ 256.
Proof.
  assert (B : bytes_ok (fBytes f)).
  { unfold fBytes. cbv zeta. repeat (constructor; [apply Z.mod_pos_bound; reflexivity|]). constructor. }
  pose proof (beval_range _ B) as H. exact H.
Qed.
Lemma toBig_pair q : returns_pair (Ok (fieldJacobianToBigAffine q)).
Proof.
  destruct q as [[x y] z]. unfold fieldJacobianToBigAffine, returns_pair. cbv zeta. eexists. eexists. split; [reflexivity|].
  unfold coord. split; rewrite Z.abs_eq; apply fBytes_range.
Qed.
Lemma toField_tot x y : coord x -> coord y -> exists p, bigAffineToField x y = Ok p.
Proof.
  intros Hx Hy. unfold bigAffineToField, fSetByteSlice.
  assert (L : forall z, coord z -> (32 <? blen (bigBytes z)) = false).
  { intros z Hz. apply Z.ltb_ge. apply bigBytes_blen; [discriminate|exact Hz]. }
  rewrite (L x Hx), (L y Hy). cbn [bind]. eexists. reflexivity.
Qed.

Lemma Add_tot x1 y1 x2 y2 : coord x1 -> coord y1 -> coord x2 -> coord y2 -> returns_pair (Koblitz.Add x1 y1 x2 y2).
Proof.
  intros H1 H2 H3 H4. unfold Koblitz.Add.
  destruct (_ && _); [exists x2, y2; auto|]. destruct (_ && _); [exists x1, y1; auto|].
  destruct (toField_tot x1 y1 H1 H2) as [[a b] ->]. destruct (toField_tot x2 y2 H3 H4) as [[a2 b2] ->]. cbn [bind].
  apply toBig_pair.
Qed.
Lemma ScalarMult_tot x y k : coord x -> coord y -> returns_pair (ScalarMult x y k).
Proof.
  intros H1 H2. unfold ScalarMult. destruct (splitK (moduloReduce k)) as [[[k1 k2] s1] s2].
  destruct (toField_tot x y H1 H2) as [[a b] ->]. cbn [bind]. cbv zeta.
  destruct (if s1 =? -1 then _ else _) as [? ?]. destruct (if s2 =? -1 then _ else _) as [? ?].
  destruct (NAF k1). destruct (NAF k2). apply toBig_pair.
Qed.
Lemma IsOnCurve_tot x y : coord x -> coord y -> exists b, IsOnCurve x y = Ok b.
Proof. intros H1 H2. unfold IsOnCurve. destruct (toField_tot x y H1 H2) as [[a b] ->]. eexists. reflexivity. Qed.

Lemma point_pair p : is_point p -> returns_pair (Ok p).
Proof.
  intros H. destruct (coord_range_256 p H) as [A B]. exists (fst p), (snd p). split; [destruct p; reflexivity|].
  unfold coord. rewrite !Z.abs_eq by (apply A || apply B). split; [apply A|apply B].
Qed.
Lemma S256_total t tH : table_ok t G -> table_ok tH Htab -> curve_total (S256 t tH).
Proof.
  intros T TH. pose proof (S256_ok t tH T TH) as C. constructor.
  - intros. apply Add_tot; assumption.
  - intros. apply ScalarMult_tot; assumption.
  - intros k B. rewrite (ok_base _ C) by exact B. apply point_pair. isp.
  - intros k B. rewrite (ok_baseH _ C) by exact B. apply point_pair. isp.
  - intros. apply IsOnCurve_tot; assumption.
Qed.
