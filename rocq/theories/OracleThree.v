(** * Counting the triples of tapes on which a forger, rewound twice, succeeds *)
From Coq Require Import ZArith List Bool Lia Permutation.
From Verif Require Import Go Wire SpecRand RandCount SpecOracle OracleProofs OracleCount.
Import ListNotations.
Open Scope Z_scope.
Opaque allTapes.

(** the mean of cubes is at least the cube of the mean *)
Lemma zs_cube {A} (l : list A) f : (forall x, In x l -> 0 <= f x) ->
  zs l f * zs l f * zs l f <= Z.of_nat (length l) * Z.of_nat (length l) * zs l (fun x => f x * f x * f x).
Proof.
  intros P. destruct l as [|a0 l0]; [unfold zs; cbn [fold_right length]; lia|]. remember (a0 :: l0) as l eqn:El.
  assert (n0 : 0 < Z.of_nat (length l)) by (rewrite El; cbn [length]; lia). clear El. set (n := Z.of_nat (length l)) in *. pose proof (zs_nonneg l f P) as S0. set (S := zs l f) in *.
  assert (T : zs l (fun x => 3 * n * S * S * f x) <= zs l (fun x => n * n * n * (f x * f x * f x) + 2 * S * S * S)).
  { apply zs_le. intros x Hx. specialize (P x Hx). clearbody n S. set (y := f x) in *. clearbody y.
    assert (0 <= (n * y - S) * (n * y - S) * (n * y + 2 * S)) by (apply Z.mul_nonneg_nonneg; [apply Z.square_nonneg|nia]). nia. }
  rewrite zs_plus, !zs_scale, zs_const in T. fold n S in T. set (Q := zs l (fun x => f x * f x * f x)) in *. clearbody n S Q.
  assert (n * (S * S * S) <= n * (n * n * Q)) by nia. apply (Z.mul_le_mono_pos_l _ _ n); assumption.
Qed.
Lemma cube_mono a b : 0 <= a <= b -> a * a * a <= b * b * b.
Proof. intros [P L]. apply Z.mul_le_mono_nonneg; [nia|nia|lia|lia]. Qed.

Section Three.
Context {A : Type}.
Variable tr : A -> list Z.
Variable f : forger A.
Variable q : nat.
Hypothesis Hq : asks q f.
Notation ix := (ix tr f). Notation about := (about tr f).
Variable wins : list Z -> bool.
Variable cls : A -> nat.
Variable J : nat.
Variable apart : list Z -> list Z -> bool.
Variable K : Z.
Hypothesis HJ : forall t, tape (32 * (q + 1)) t -> wins t = true -> (cls (says f t) < J)%nat.
Hypothesis HK : forall h, tape 32 h -> cases 32 (fun h' => negb (apart h h')) <= K.
Hypothesis K0 : 0 <= K.
Notation kinds := (kinds q J). Notation isKind := (isKind tr f wins cls). Notation Wj := (Wj tr f q wins cls).
Notation T := (allTapes (32 * (q + 1))).
Definition at_ (i : nat) (t t' : list Z) : list Z := firstn (32 * i) t ++ skipn (32 * i) t'.
Definition apart3 (h h' h'' : list Z) : bool := apart h h' && (apart h h'' && apart h' h'').
Definition good3 (j : nat * nat) (t t' t'' : list Z) : Z :=
  ind (isKind j t) * (ind (isKind j (at_ (fst j) t t')) * (ind (isKind j (at_ (fst j) t t'')) * ind (apart3 (block_of (fst j) t) (block_of (fst j) t') (block_of (fst j) t'')))).
Lemma good3_nonneg j t t' t'' : 0 <= good3 j t t' t''.
Proof. unfold good3. repeat (apply Z.mul_nonneg_nonneg; [apply ind_nonneg|]). apply ind_nonneg. Qed.
Lemma near b s : tape (32 + b) s -> zs (allTapes (32 + b)) (fun s' => ind (negb (apart (firstn 32 s) (firstn 32 s')))) <= K * 256 ^ Z.of_nat b.
Proof.
  intros Hs. rewrite tsum_app. pose proof (tapes_length b) as TMb. pose proof (pow_nat_pos b) as Pb. set (Mb := 256 ^ Z.of_nat b) in *. clearbody Mb.
  rewrite (zs_ext (allTapes 32) _ (fun h' => Mb * ind (negb (apart (firstn 32 s) h')))).
  - rewrite zs_scale. rewrite (Z.mul_comm K). apply Z.mul_le_mono_nonneg_l; [lia|].
    pose proof (cases_zs 32 (fun h' => negb (apart (firstn 32 s) h'))) as CZ. etransitivity; [apply Z.eq_le_incl; symmetry; exact CZ|]. apply HK. destruct Hs as [Fs Ls]. split.
    + rewrite <- (firstn_skipn 32 s) in Fs. apply Forall_app in Fs. apply Fs.
    + rewrite firstn_length, Ls. lia.
  - intros h' Hh'. apply in_tapes in Hh'. rewrite (zs_ext (allTapes b) _ (fun _ => ind (negb (apart (firstn 32 s) h')))).
    + rewrite zs_const, TMb. reflexivity.
    + intros r _. rewrite first_pre by apply Hh'. reflexivity.
Qed.
(** triples after one beginning *)
Lemma triples b (w : list Z -> bool) : let S := allTapes (32 + b) in let X := zs S (fun s => ind (w s)) in let c := K * 256 ^ Z.of_nat b in
  let E := Z.max (X - 2 * c) 0 in
  E * E * E <= zs S (fun s => ind (w s) * zs S (fun s' => ind (w s') * zs S (fun s'' => ind (w s'') * ind (apart3 (firstn 32 s) (firstn 32 s') (firstn 32 s''))))).
Proof.
  intros S X c E. assert (c0 : 0 <= c) by (apply Z.mul_nonneg_nonneg; [exact K0|pose proof (pow_nat_pos b); lia]).
  assert (Nn : forall s s', 0 <= zs S (fun s'' => ind (w s'') * ind (apart3 (firstn 32 s) (firstn 32 s') (firstn 32 s'')))).
  { intros. apply zs_nonneg. intros. apply Z.mul_nonneg_nonneg; apply ind_nonneg. }
  destruct (Z_le_dec X (2 * c)) as [Le|Gt].
  - assert (E = 0) by (unfold E; lia). rewrite H. cbn [Z.mul]. apply zs_nonneg. intros. apply Z.mul_nonneg_nonneg; [apply ind_nonneg|]. apply zs_nonneg. intros. apply Z.mul_nonneg_nonneg; [apply ind_nonneg|apply Nn].
  - assert (EE : E = X - 2 * c) by (unfold E; lia). assert (Ep : 0 < E) by lia.
    assert (L3 : forall s s', In s S -> In s' S -> ind (apart (firstn 32 s) (firstn 32 s')) * E <= zs S (fun s'' => ind (w s'') * ind (apart3 (firstn 32 s) (firstn 32 s') (firstn 32 s'')))).
    { intros s s' Is Is'. unfold S in Is, Is'. apply in_tapes in Is, Is'. pose proof (near b s Is) as N1. pose proof (near b s' Is') as N2. fold S c in N1, N2.
      destruct (apart (firstn 32 s) (firstn 32 s')) eqn:Ap; cbn [ind]; [|apply Nn]. rewrite Z.mul_1_l, EE.
      assert (Q : X <= zs S (fun s'' => ind (w s'') * ind (apart3 (firstn 32 s) (firstn 32 s') (firstn 32 s''))) +
                   (zs S (fun s'' => ind (negb (apart (firstn 32 s) (firstn 32 s'')))) + zs S (fun s'' => ind (negb (apart (firstn 32 s') (firstn 32 s'')))))).
      { rewrite <- !zs_plus. apply zs_le. intros s'' _. unfold apart3. rewrite Ap. cbn [andb].
        destruct (w s''), (apart (firstn 32 s) (firstn 32 s'')), (apart (firstn 32 s') (firstn 32 s'')); cbn [ind negb andb]; lia. }
      lia. }
    assert (L2 : forall s, In s S -> (X - c) * E <= zs S (fun s' => ind (w s') * zs S (fun s'' => ind (w s'') * ind (apart3 (firstn 32 s) (firstn 32 s') (firstn 32 s''))))).
    { intros s Is. assert (Is' := Is). unfold S in Is'. apply in_tapes in Is'. pose proof (near b s Is') as N1. fold S c in N1.
      etransitivity; [|apply (zs_le S (fun s' => E * (ind (w s') * ind (apart (firstn 32 s) (firstn 32 s')))))].
      - rewrite zs_scale, Z.mul_comm. apply Z.mul_le_mono_nonneg_l; [lia|].
        assert (Q : X <= zs S (fun s' => ind (w s') * ind (apart (firstn 32 s) (firstn 32 s'))) + zs S (fun s' => ind (negb (apart (firstn 32 s) (firstn 32 s'))))).
        { rewrite <- zs_plus. apply zs_le. intros s' _. destruct (w s'), (apart (firstn 32 s) (firstn 32 s')); cbn [ind negb]; lia. }
        lia.
      - intros s' Hs'. replace (E * (ind (w s') * ind (apart (firstn 32 s) (firstn 32 s')))) with (ind (w s') * (ind (apart (firstn 32 s) (firstn 32 s')) * E)) by ring.
        apply Z.mul_le_mono_nonneg_l; [apply ind_nonneg|]. apply L3; assumption. }
    etransitivity; [|apply (zs_le S (fun s => (X - c) * E * ind (w s)))].
    + rewrite zs_scale. fold X. clear - c0 EE Ep. clearbody X c E. rewrite <- (Z.mul_comm X). rewrite <- Z.mul_assoc. apply Z.mul_le_mono_nonneg; [lia|lia|nia|]. apply Z.mul_le_mono_nonneg_r; lia.
    + intros s Is. rewrite (Z.mul_comm ((X - c) * E)). apply Z.mul_le_mono_nonneg_l; [apply ind_nonneg|]. apply L2. exact Is.
Qed.
Lemma three_one j : In j kinds -> let E := Z.max (Wj j - 2 * (K * 256 ^ Z.of_nat (32 * q))) 0 in
  E * E * E <= zs T (fun t => zs T (fun t' => zs T (fun t'' => good3 j t t' t''))).
Proof.
  intros Ij E. destruct j as [i l]. apply in_prod_iff in Ij. destruct Ij as [Ii _]. apply in_seq in Ii.
  set (a := (32 * i)%nat). set (b := (32 * (q - i))%nat). assert (Eab : (32 * (q + 1))%nat = (a + (32 + b))%nat) by (unfold a, b; lia).
  assert (Eq : (32 * q)%nat = (a + b)%nat) by (unfold a, b; lia). unfold E. clear E. rewrite Eq, pow_add_nat. unfold OracleCount.Wj. rewrite Eab.
  set (X := fun x => zs (allTapes (32 + b)) (fun s => ind (isKind (i, l) (x ++ s)))).
  assert (EW : cases (a + (32 + b)) (isKind (i, l)) = zs (allTapes a) X) by (rewrite cases_zs, tsum_app; reflexivity).
  rewrite EW. pose proof (tapes_length a) as TMa. pose proof (pow_nat_pos a) as Pa.
  set (Y := fun x => zs (allTapes (32 + b)) (fun s => ind (isKind (i, l) (x ++ s)) * zs (allTapes (32 + b)) (fun s' => ind (isKind (i, l) (x ++ s')) *
              zs (allTapes (32 + b)) (fun s'' => ind (isKind (i, l) (x ++ s'')) * ind (apart3 (firstn 32 s) (firstn 32 s') (firstn 32 s'')))))).
  assert (L : forall x, In x (allTapes a) -> Z.max (X x - 2 * (K * 256 ^ Z.of_nat b)) 0 * Z.max (X x - 2 * (K * 256 ^ Z.of_nat b)) 0 * Z.max (X x - 2 * (K * 256 ^ Z.of_nat b)) 0 <= Y x).
  { intros x _. exact (triples b (fun s => isKind (i, l) (x ++ s))). }
  set (Ma := 256 ^ Z.of_nat a) in *. set (Mb := 256 ^ Z.of_nat b) in *. clearbody Ma Mb.
  assert (G : zs (allTapes (a + (32 + b))) (fun t => zs (allTapes (a + (32 + b))) (fun t' => zs (allTapes (a + (32 + b))) (fun t'' => good3 (i, l) t t' t''))) = Ma * Ma * zs (allTapes a) Y).
  { rewrite tsum_app, <- zs_scale. apply zs_ext. intros x Hx. apply in_tapes in Hx. unfold Y. rewrite <- zs_scale. apply zs_ext. intros s Hs. apply in_tapes in Hs.
    rewrite tsum_app. rewrite (zs_ext (allTapes a) _ (fun _ => Ma * (ind (isKind (i, l) (x ++ s)) * zs (allTapes (32 + b)) (fun s' => ind (isKind (i, l) (x ++ s')) *
              zs (allTapes (32 + b)) (fun s'' => ind (isKind (i, l) (x ++ s'')) * ind (apart3 (firstn 32 s) (firstn 32 s') (firstn 32 s''))))))).
    - rewrite zs_const, TMa. ring.
    - intros x' Hx'. apply in_tapes in Hx'. rewrite <- !zs_scale. apply zs_ext. intros s' Hs'. 
      rewrite tsum_app. rewrite (zs_ext (allTapes a) _ (fun _ => ind (isKind (i, l) (x ++ s)) * (ind (isKind (i, l) (x ++ s')) *
              zs (allTapes (32 + b)) (fun s'' => ind (isKind (i, l) (x ++ s'')) * ind (apart3 (firstn 32 s) (firstn 32 s') (firstn 32 s'')))))).
      + rewrite zs_const, TMa. ring.
      + intros x'' Hx''. apply in_tapes in Hx''. rewrite <- !zs_scale. apply zs_ext. intros s'' _. unfold good3, at_, block_of. cbn [fst]. fold a.
        rewrite (skip_pre a x s), (skip_pre a x' s'), (skip_pre a x'' s''), (first_pre a x s) by (apply Hx || apply Hx' || apply Hx''). reflexivity. }
  rewrite G. clear G. set (Ex := fun x => Z.max (X x - 2 * (K * Mb)) 0).
  assert (P : forall x, In x (allTapes a) -> 0 <= Ex x) by (intros; unfold Ex; lia).
  pose proof (zs_cube (allTapes a) Ex P) as C. rewrite TMa in C. pose proof (zs_le _ _ _ L) as L'. cbv beta in L'. fold Ex in L'.
  assert (M : Z.max (zs (allTapes a) X - 2 * (K * (Ma * Mb))) 0 <= zs (allTapes a) Ex).
  { apply Z.max_lub; [|apply zs_nonneg; exact P].
    assert (Q : zs (allTapes a) X <= zs (allTapes a) Ex + zs (allTapes a) (fun _ => 2 * (K * Mb))) by (rewrite <- zs_plus; apply zs_le; intros x _; unfold Ex; lia).
    rewrite zs_const, TMa in Q. clear - Q. lia. }
  etransitivity; [apply cube_mono; split; [apply Z.le_max_r|exact M]|]. etransitivity; [exact C|]. apply Z.mul_le_mono_nonneg_l; [nia|]. exact L'.
Qed.
Lemma three_count p :
  (forall t t' t'', tape (32 * (q + 1)) t -> tape (32 * (q + 1)) t' -> tape (32 * (q + 1)) t'' -> wins t = true ->
     let t2 := rewound f (about t) t t' in let t3 := rewound f (about t) t t'' in wins t2 = true -> wins t3 = true ->
     about t2 = about t -> about t3 = about t -> cls (says f t2) = cls (says f t) -> cls (says f t3) = cls (says f t) ->
     apart (sha f t (about t)) (sha f t2 (about t)) = true -> apart (sha f t (about t)) (sha f t3 (about t)) = true ->
     apart (sha f t2 (about t)) (sha f t3 (about t)) = true -> p (t ++ t' ++ t'') = true) ->
  let W := cases (32 * (q + 1)) wins in let n := Z.of_nat ((q + 1) * J) in let E := n * (2 * (K * 256 ^ Z.of_nat (32 * q))) in
  E <= W -> (W - E) * (W - E) * (W - E) <= n * n * cases (32 * (q + 1) + (32 * (q + 1) + 32 * (q + 1))) p.
Proof.
  intros H W n E LE.
  assert (P : zs kinds (fun j => zs T (fun t => zs T (fun t' => zs T (fun t'' => good3 j t t' t'')))) <= cases (32 * (q + 1) + (32 * (q + 1) + 32 * (q + 1))) p).
  { rewrite cases_zs, tsum_app, zs_swap. apply zs_le. intros t Ht. apply in_tapes in Ht. rewrite tsum_app, zs_swap. apply zs_le. intros t' Ht'. apply in_tapes in Ht'.
    rewrite zs_swap. apply zs_le. intros t'' Ht''. apply in_tapes in Ht''.
    etransitivity; [apply (zs_single kinds (fun j => good3 j t t' t'') (ix t, cls (says f t)) (kinds_nodup q J))|].
    - intros j _ D. unfold good3. destruct (isKind j t) eqn:Ek; [|reflexivity]. exfalso. apply D. apply (isKind_uniq tr f wins cls). exact Ek.
    - apply good3_nonneg.
    - unfold good3. cbn [fst]. destruct (isKind (ix t, cls (says f t)) t) eqn:E1; [|destruct (p _); discriminate].
      fold (ind (p (t ++ t' ++ t''))). destruct (isKind (ix t, cls (says f t)) (at_ (ix t) t t')) eqn:E2; [|apply ind_nonneg].
      destruct (isKind (ix t, cls (says f t)) (at_ (ix t) t t'')) eqn:E3; [|apply ind_nonneg].
      destruct (apart3 (block_of (ix t) t) (block_of (ix t) t') (block_of (ix t) t'')) eqn:E4; [|apply ind_nonneg].
      unfold apart3 in E4. apply andb_prop in E4. destruct E4 as [A1 E4]. apply andb_prop in E4. destruct E4 as [A2 A3].
      destruct (run_ix tr f q t Hq) as (Li & Sh & _).
      assert (Lt : (32 * ix t <= length t)%nat) by (rewrite (tape_len _ _ Ht); lia).
      assert (Lf : length (firstn (32 * ix t) t) = (32 * ix t)%nat) by (rewrite firstn_length; lia).
      assert (One : forall u, isKind (ix t, cls (says f t)) (at_ (ix t) t u) = true -> let t2 := at_ (ix t) t u in
                wins t2 = true /\ about t2 = about t /\ cls (says f t2) = cls (says f t) /\ sha f t2 (about t) = block_of (ix t) u).
      { intros u Eu t2. pose proof (isKind_uniq tr f wins cls _ _ Eu) as U. assert (U1 : ix t2 = ix t) by (unfold t2; congruence). assert (U2 : cls (says f t2) = cls (says f t)) by (unfold t2; congruence).
        destruct (run_ix tr f q t2 Hq) as (_ & Sh2 & _).
        assert (Ab : about t2 = about t).
        { symmetry. apply (run_same tr f q); [exact Hq|congruence|]. unfold t2, at_. rewrite first_pre by exact Lf. reflexivity. }
        split; [unfold OracleCount.isKind in Eu; apply andb_prop in Eu; destruct Eu as [Eu _]; apply andb_prop in Eu; apply Eu|]. split; [exact Ab|]. split; [exact U2|].
        rewrite <- Ab, Sh2, U1. unfold block_of, t2, at_. rewrite skip_pre by exact Lf. reflexivity. }
      destruct (One t' E2) as (W2 & B2 & C2 & S2). destruct (One t'' E3) as (W3 & B3 & C3 & S3).
      rewrite (H t t' t'' Ht Ht' Ht''); [reflexivity| |exact W2|exact W3|exact B2|exact B3|exact C2|exact C3| | |].
      + unfold OracleCount.isKind in E1. apply andb_prop in E1. destruct E1 as [E1 _]. apply andb_prop in E1. apply E1.
      + change (rewound f (about t) t t') with (at_ (ix t) t t'). rewrite Sh, S2. exact A1.
      + change (rewound f (about t) t t'') with (at_ (ix t) t t''). rewrite Sh, S3. exact A2.
      + change (rewound f (about t) t t') with (at_ (ix t) t t'). change (rewound f (about t) t t'') with (at_ (ix t) t t''). rewrite S2, S3. exact A3. }
  pose proof (zs_le kinds _ _ three_one) as F. cbv beta zeta in F.
  set (D := fun j => Z.max (Wj j - 2 * (K * 256 ^ Z.of_nat (32 * q))) 0).
  assert (Dn : forall j, In j kinds -> 0 <= D j) by (intros; unfold D; lia).
  pose proof (zs_cube kinds D Dn) as C. rewrite kinds_len in C. fold n in C. pose proof (all_kinds tr f q Hq wins cls J apart K HJ HK) as AK. fold W in AK.
  assert (M : W - E <= zs kinds D).
  { assert (Q : zs kinds Wj <= zs kinds D + zs kinds (fun _ => 2 * (K * 256 ^ Z.of_nat (32 * q)))) by (rewrite <- zs_plus; apply zs_le; intros j _; unfold D; lia).
    rewrite zs_const, kinds_len in Q. fold n in Q. fold E in Q. lia. }
  etransitivity; [apply cube_mono; split; [lia|exact M]|]. etransitivity; [exact C|]. apply Z.mul_le_mono_nonneg_l; [unfold n; nia|].
  etransitivity; [exact F|exact P].
Qed.
End Three.
