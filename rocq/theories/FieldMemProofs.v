(** * The word-by-word methods of fieldVal compute the functions of Field.v *)
From Coq Require Import ZArith List Bool Lia.
From Verif Require Import Go Field Koblitz KoblitzMem FieldMem.
Import ListNotations.
Open Scope Z_scope.
Local Open Scope wcode_scope.

(** ** Running code alone *)
Fixpoint runW {A : Type} (c : wcode A) (m : mem) : A * mem :=
  match c with
  | WRet a => (a, m)
  | WLd p i k => runW (k (getw i (m p))) m
  | WSt p i w k => runW k (upd m p (setw i w (m p)))
  end.
Definition meq (m m' : mem) : Prop := forall p, m p = m' p.
Lemma meq_refl m : meq m m. Proof. intros p; reflexivity. Qed.
Lemma meq_trans m1 m2 m3 : meq m1 m2 -> meq m2 m3 -> meq m1 m3. Proof. intros A B p. rewrite A. apply B. Qed.
Lemma meq_sym m1 m2 : meq m1 m2 -> meq m2 m1. Proof. intros A p. symmetry. apply A. Qed.
Lemma upd_meq m m' p v v' : meq m m' -> v = v' -> meq (upd m p v) (upd m' p v').
Proof. intros E -> q. unfold upd. destruct (q =? p); [reflexivity|apply E]. Qed.
Lemma upd_at m p v : upd m p v p = v. Proof. unfold upd. rewrite Z.eqb_refl. reflexivity. Qed.
Lemma upd_off m p v q : q <> p -> upd m p v q = m q. Proof. intros N. unfold upd. rewrite (proj2 (Z.eqb_neq q p) N). reflexivity. Qed.
Lemma upd_upd m p v w : meq (upd (upd m p v) p w) (upd m p w).
Proof. intros q. unfold upd. destruct (q =? p); reflexivity. Qed.
Lemma upd_same m p : meq (upd m p (m p)) m.
Proof. intros q. unfold upd. destruct (Z.eqb_spec q p) as [->|]; reflexivity. Qed.
Lemma runW_seq {A B : Type} (c : wcode A) (f : A -> wcode B) : forall m, runW (seqW c f) m = runW (f (fst (runW c m))) (snd (runW c m)).
Proof. induction c as [a|p i k IH|p i w k IH]; intros m; cbn [seqW runW]; [reflexivity|apply IH|apply IH]. Qed.
Lemma runW_ext {A : Type} (c : wcode A) : forall m m', meq m m' -> fst (runW c m) = fst (runW c m') /\ meq (snd (runW c m)) (snd (runW c m')).
Proof.
  induction c as [a|p i k IH|p i w k IH]; intros m m' E; cbn [runW].
  - split; [reflexivity|exact E].
  - rewrite (E p). apply IH, E.
  - apply IH, upd_meq; [exact E|rewrite (E p); reflexivity].
Qed.
Lemma runW_ld p i m : runW (ld p i) m = (getw i (m p), m). Proof. reflexivity. Qed.
Lemma runW_st p i w m : runW (st p i w) m = (tt, upd m p (setw i w (m p))). Proof. reflexivity. Qed.

(** ** Words *)
Lemma words_cases i : In i words -> i = 0%nat \/ i = 1%nat \/ i = 2%nat \/ i = 3%nat \/ i = 4%nat \/ i = 5%nat \/ i = 6%nat \/ i = 7%nat \/ i = 8%nat \/ i = 9%nat.
Proof. unfold words. cbn [In]. intuition. Qed.
Lemma getw_setw i j w v : In i words -> In j words -> getw j (setw i w v) = if Nat.eq_dec i j then w else getw j v.
Proof.
  intros I J. apply words_cases in I. apply words_cases in J. destruct v.
  repeat (destruct I as [->|I]; [repeat (destruct J as [->|J]; [reflexivity|]); subst j; reflexivity|]). subst i.
  repeat (destruct J as [->|J]; [reflexivity|]). subst j. reflexivity.
Qed.
Lemma words_ext u v : (forall j, In j words -> getw j u = getw j v) -> u = v.
Proof.
  intros H. destruct u, v. 
  pose proof (H 0%nat (or_introl eq_refl)) as H0. pose proof (H 1%nat ltac:(cbn; tauto)) as H1. pose proof (H 2%nat ltac:(cbn; tauto)) as H2.
  pose proof (H 3%nat ltac:(cbn; tauto)) as H3. pose proof (H 4%nat ltac:(cbn; tauto)) as H4. pose proof (H 5%nat ltac:(cbn; tauto)) as H5.
  pose proof (H 6%nat ltac:(cbn; tauto)) as H6. pose proof (H 7%nat ltac:(cbn; tauto)) as H7. pose proof (H 8%nat ltac:(cbn; tauto)) as H8.
  pose proof (H 9%nat ltac:(cbn; tauto)) as H9. cbn [getw Field.n0 Field.n1 Field.n2 Field.n3 Field.n4 Field.n5 Field.n6 Field.n7 Field.n8 Field.n9] in *.
  subst. reflexivity.
Qed.
Definition ofWords (g : nat -> Z) : fieldVal := FV (g 0%nat) (g 1%nat) (g 2%nat) (g 3%nat) (g 4%nat) (g 5%nat) (g 6%nat) (g 7%nat) (g 8%nat) (g 9%nat).
Lemma getw_of g j : In j words -> getw j (ofWords g) = g j.
Proof. intros J. apply words_cases in J. repeat (destruct J as [->|J]; [reflexivity|]). subst j. reflexivity. Qed.

(** a loop over the words, each store of word i depending on words i of two operands *)
Lemma each_ok f a b (g : nat -> Z -> Z -> Z) c l : NoDup l -> incl l words ->
  (forall i m, snd (runW (c i) m) = upd m f (setw i (g i (getw i (m a)) (getw i (m b))) (m f))) -> forall m,
  let m' := snd (runW (eachW l c) m) in
  (forall q, q <> f -> m' q = m q) /\
  forall j, In j words -> getw j (m' f) = if in_dec Nat.eq_dec j l then g j (getw j (m a)) (getw j (m b)) else getw j (m f).
Proof.
  intros ND IN C. induction l as [|i l IH]; intros m; cbv zeta.
  - cbn [eachW runW snd]. split; [reflexivity|intros j J; reflexivity].
  - inversion ND as [|? ? NI ND']; subst. cbn [eachW]. rewrite runW_seq, C. set (m1 := upd m f _).
    assert (INl : incl l words) by (intros x X; apply IN; right; exact X). assert (Ii : In i words) by (apply IN; left; reflexivity).
    destruct (IH ND' INl m1) as [Q W]. cbv zeta in Q, W. split.
    + intros q N. rewrite Q by exact N. apply upd_off, N.
    + intros j J. rewrite W by exact J.
      assert (Z1 : m1 f = setw i (g i (getw i (m a)) (getw i (m b))) (m f)) by apply upd_at.
      assert (Z2 : forall p, i <> j -> getw j (m1 p) = getw j (m p)).
      { intros p N. destruct (Z.eq_dec p f) as [->|NP]; [rewrite Z1, getw_setw by assumption; destruct (Nat.eq_dec i j); [contradiction|reflexivity]|unfold m1; rewrite upd_off by exact NP; reflexivity]. }
      destruct (in_dec Nat.eq_dec j l) as [Jl|Jl].
      * assert (i <> j) by (intros ->; contradiction). rewrite !Z2 by assumption. destruct (in_dec Nat.eq_dec j (i :: l)) as [_|B]; [reflexivity|exfalso; apply B; right; exact Jl].
      * rewrite Z1, getw_setw by assumption. destruct (Nat.eq_dec i j) as [->|N].
        -- destruct (in_dec Nat.eq_dec j (j :: l)) as [_|B]; [reflexivity|exfalso; apply B; left; reflexivity].
        -- destruct (in_dec Nat.eq_dec j (i :: l)) as [[B|B]|_]; [contradiction|contradiction|reflexivity].
Qed.
Lemma words_nodup : NoDup words.
Proof. unfold words. repeat (constructor; [cbn [In]; lia|]). constructor. Qed.
Lemma words_ok f a b (g : nat -> Z -> Z -> Z) c m :
  (forall i m, snd (runW (c i) m) = upd m f (setw i (g i (getw i (m a)) (getw i (m b))) (m f))) ->
  meq (snd (runW (eachW words c) m)) (upd m f (ofWords (fun i => g i (getw i (m a)) (getw i (m b))))).
Proof.
  intros C. destruct (each_ok f a b g c words words_nodup (incl_refl _) C m) as [Q W]. intros q. destruct (Z.eq_dec q f) as [->|N].
  - rewrite upd_at. apply words_ext. intros j J. rewrite W, getw_of by exact J. destruct (in_dec Nat.eq_dec j words); [reflexivity|contradiction].
  - rewrite upd_off by exact N. apply Q, N.
Qed.
Lemma getw_all v : ofWords (fun i => getw i v) = v. Proof. destruct v; reflexivity. Qed.

(** ** The methods that go word by word *)
Lemma put_ok f v m : meq (snd (runW (putW f v) m)) (upd m f v).
Proof. rewrite <- (getw_all v) at 2. apply (words_ok f f f (fun i _ _ => getw i v)). reflexivity. Qed.
Lemma zero_ok f m : meq (snd (runW (ZeroW f) m)) (upd m f fZero).
Proof. apply (words_ok f f f (fun i _ _ => 0)). reflexivity. Qed.
Lemma load_ok p m : runW (loadW p) m = (m p, m).
Proof. unfold loadW. cbn [seqW ld runW getw]. destruct (m p). reflexivity. Qed.
Lemma set_ok f val m : meq (snd (runW (SetW f val) m)) (upd m f (m val)).
Proof. unfold SetW. rewrite runW_seq, load_ok. apply put_ok. Qed.
Lemma setInt_ok f n m : meq (snd (runW (SetIntW f n) m)) (upd m f (fSetInt n)).
Proof.
  unfold SetIntW. rewrite runW_seq, runW_st. cbn [snd]. pose proof (zero_ok f m) as Z.
  eapply meq_trans; [apply upd_meq; [exact Z|rewrite (Z f), upd_at; reflexivity]|]. apply upd_upd.
Qed.
Lemma setBytes_ok f b m : meq (snd (runW (SetBytesW f b) m)) (upd m f (fSetBytes b)).
Proof. apply put_ok. Qed.
Lemma setByteSlice_ok f b m : match fSetByteSlice b with
  | Ok v => fst (runW (SetByteSliceW f b) m) = true /\ meq (snd (runW (SetByteSliceW f b) m)) (upd m f v)
  | Panic => runW (SetByteSliceW f b) m = (false, m) end.
Proof.
  unfold fSetByteSlice, SetByteSliceW. destruct (32 <? blen b); [reflexivity|]. rewrite runW_seq. cbn [runW fst snd]. split; [reflexivity|apply setBytes_ok].
Qed.
Lemma u32_mod x : u32 (u32 x) = u32 x. Proof. unfold u32. apply Z.mod_mod. discriminate. Qed.
Lemma u32_mul_l x y : u32 (u32 x * y) = u32 (x * y). Proof. unfold u32. rewrite Zmult_mod_idemp_l. reflexivity. Qed.
Lemma u32_mul_r x y : u32 (x * u32 y) = u32 (x * y). Proof. unfold u32. rewrite Zmult_mod_idemp_r. reflexivity. Qed.
Lemma u32_add_l x y : u32 (u32 x + y) = u32 (x + y). Proof. unfold u32. rewrite Zplus_mod_idemp_l. reflexivity. Qed.
Lemma u32_add_r x y : u32 (x + u32 y) = u32 (x + y). Proof. unfold u32. rewrite Zplus_mod_idemp_r. reflexivity. Qed.
Lemma u32_sub_l x y : u32 (u32 x - y) = u32 (x - y). Proof. unfold u32. rewrite Zminus_mod_idemp_l. reflexivity. Qed.
Lemma u64_mul_l x y : u64 (u64 x * y) = u64 (x * y). Proof. unfold u64. rewrite Zmult_mod_idemp_l. reflexivity. Qed.
Lemma u64_mul_r x y : u64 (x * u64 y) = u64 (x * y). Proof. unfold u64. rewrite Zmult_mod_idemp_r. reflexivity. Qed.
Lemma u64_add_l x y : u64 (u64 x + y) = u64 (x + y). Proof. unfold u64. rewrite Zplus_mod_idemp_l. reflexivity. Qed.
Lemma u64_add_r x y : u64 (x + u64 y) = u64 (x + y). Proof. unfold u64. rewrite Zplus_mod_idemp_r. reflexivity. Qed.
Lemma negate_ok f val k m : meq (snd (runW (NegateValW f val k) m)) (upd m f (fNegate (m val) k)).
Proof.
  eapply meq_trans; [apply (words_ok f val val (fun i w _ => sub32 (mul32 (add32 k 1) (negMask i)) w)); reflexivity|].
  apply upd_meq; [apply meq_refl|]. unfold ofWords, fNegate, sub32, mul32, add32, negMask. cbn [getw]. rewrite !u32_sub_l. reflexivity.
Qed.
Lemma addInt_ok f n m : meq (snd (runW (AddIntW f n) m)) (upd m f (fAddInt (m f) n)).
Proof. unfold AddIntW. rewrite runW_seq. cbn [runW ld st fst snd getw]. apply upd_meq; [apply meq_refl|]. destruct (m f); reflexivity. Qed.
Lemma add_ok f val m : meq (snd (runW (AddW f val) m)) (upd m f (fAdd (m f) (m val))).
Proof. apply (words_ok f f val (fun i x y => add32 x y)). reflexivity. Qed.
Lemma add2_ok f a b m : meq (snd (runW (Add2W f a b) m)) (upd m f (fAdd (m a) (m b))).
Proof. apply (words_ok f a b (fun i x y => add32 x y)). reflexivity. Qed.
Lemma mulInt_ok f n m : meq (snd (runW (MulIntW f n) m)) (upd m f (fMulInt (m f) n)).
Proof. apply (words_ok f f f (fun i x _ => mul32 x (u32 n))). reflexivity. Qed.

(** ** The methods that only load *)
Lemma bytes_ok_W f m : runW (BytesW f) m = (fBytes (m f), m).
Proof. unfold BytesW. rewrite runW_seq, load_ok. reflexivity. Qed.
Lemma isZero_ok f m : runW (IsZeroW f) m = (fIsZero (m f), m).
Proof. reflexivity. Qed.
Lemma isOdd_ok f m : runW (IsOddW f) m = (fIsOdd (m f), m).
Proof. reflexivity. Qed.
Lemma equals_ok f g m : runW (EqualsW f g) m = (fEquals (m f) (m g), m).
Proof. reflexivity. Qed.

(** ** Normalize *)
Lemma carry_ok f0 f1 f2 f3 f4 f5 f6 f7 f8 t9 k : carryW f0 f1 f2 f3 f4 f5 f6 f7 f8 t9 k = fCarry (FV f0 f1 f2 f3 f4 f5 f6 f7 f8 t9) k.
Proof.
  unfold carryW, fCarry, carry26, low26. cbn [n0 n1 n2 n3 n4 n5 n6 n7 n8 n9]. cbv zeta.
  assert (E0 : add32 f0 (mul32 k 977) = u32 (f0 + k * 977)) by (unfold add32, mul32; apply u32_add_r). rewrite E0. clear E0. set (t0 := u32 (f0 + k * 977)).
  assert (E1 : add32 (add32 (Z.shiftr t0 fieldBase) f1) (shl32 k 6) = u32 (Z.shiftr t0 fieldBase + f1 + Z.shiftl k 6)) by (unfold add32, shl32; rewrite u32_add_l, u32_add_r; reflexivity).
  rewrite E1. clear E1. reflexivity.
Qed.
Lemma normalize_ok f m : meq (snd (runW (NormalizeW f) m)) (upd m f (fNormalize (m f))).
Proof.
  unfold NormalizeW. cbv zeta. repeat (rewrite runW_seq, runW_ld; cbn [fst snd]). cbn [getw]. rewrite carry_ok. unfold fNormalize.
  destruct (m f) as [f0 f1 f2 f3 f4 f5 f6 f7 f8 f9]. cbn [n0 n1 n2 n3 n4 n5 n6 n7 n8 n9].
  destruct (fCarry _ _) as [t0 t1 t2 t3 t4 t5 t6 t7 t8 t9]. rewrite carry_ok.
  assert (E : add32 (add32 (Z.shiftr (add32 t0 977) fieldBase) t1) 64 = u32 (Z.shiftr (u32 (t0 + 977)) fieldBase + t1 + 64)) by (unfold add32; rewrite u32_add_l; reflexivity).
  rewrite E. destruct (fCarry _ _). apply put_ok.
Qed.

(** ** Products *)
Fixpoint colSum (a b : fieldVal) (l : list term) : Z :=
  match l with [] => 0 | (c, i, j) :: r => Z.of_nat c * getw i a * getw j b + colSum a b r end.
Lemma u64_u64 x : u64 (u64 x) = u64 x. Proof. unfold u64. apply Z.mod_mod. discriminate. Qed.
Lemma column_ok a b m : forall l q, exists x, runW (columnW a b l q) m = (x, m) /\ u64 x = u64 (q + colSum (m a) (m b) l) /\ (l <> [] -> x = u64 x).
Proof.
  induction l as [|[[c i] j] l IH]; intros q; cbn [columnW colSum].
  - exists q. split; [reflexivity|]. split; [f_equal; lia|congruence].
  - rewrite runW_seq, runW_ld. cbn [fst snd]. rewrite runW_seq, runW_ld. cbn [fst snd].
    destruct (IH (add64 q (mul64 (mul64 (Z.of_nat c) (getw i (m a))) (getw j (m b))))) as (x & R & U & N). exists x. split; [exact R|]. split.
    + rewrite U. unfold add64, mul64. rewrite u64_mul_l, u64_add_r, u64_add_l. f_equal. ring.
    + intros _. destruct l as [|y l]; [|apply N; discriminate]. cbn [columnW runW] in R. injection R as <-. unfold add64. rewrite u64_u64. reflexivity.
Qed.
Lemma columns_ok a b m : forall cols q, Forall (fun l => l <> []) cols -> runW (columnsW a b q cols) m = (chain26 q (map (colSum (m a) (m b)) cols), m).
Proof.
  induction cols as [|l cols IH]; intros q NE; [reflexivity|]. inversion NE as [|? ? N NE']; subst. cbn [columnsW map chain26]. rewrite runW_seq.
  destruct (column_ok a b m l q) as (x & R & U & X). rewrite R. cbn [fst snd]. rewrite runW_seq, IH by exact NE'. cbn [runW fst snd].
  rewrite <- U, <- (X N). reflexivity.
Qed.
Lemma u64_add3 q t x y : u64 (u64 (u64 (q + t) + u64 x) + u64 y) = u64 (q + t + x + y).
Proof. rewrite (u64_add_r (u64 (q + t)) x), (u64_add_l (q + t) x), u64_add_r, u64_add_l. reflexivity. Qed.
Lemma fold_ok : forall l q, foldW q l = chain26 q (map (fun '(t, x, y) => t + x * 1024 + y * 15632) l).
Proof.
  induction l as [|[[t x] y] l IH]; intros q; [reflexivity|]. cbn [foldW map chain26].
  assert (E : add64 (add64 (add64 q t) (mul64 x 1024)) (mul64 y 15632) = u64 (q + (t + x * 1024 + y * 15632))).
  { unfold add64, mul64. rewrite u64_add3. f_equal. ring. }
  cbv zeta. rewrite E, IH. reflexivity.
Qed.
Lemma chain_length : forall l q, length (chain26 q l) = S (length l).
Proof. induction l as [|c l IH]; intros q; [reflexivity|]. cbn [chain26 length]. rewrite IH. reflexivity. Qed.
Lemma chain_cons q c l : chain26 q (c :: l) = Z.land (u64 (q + c)) fieldBaseMask :: chain26 (Z.shiftr (u64 (q + c)) fieldBase) l.
Proof. reflexivity. Qed.
Lemma reduce_ok f t m : length t = 20%nat -> meq (snd (runW (reduceW f t) m)) (upd m f (fReduce t)).
Proof.
  intros L.
  destruct t as [|t0 t]; [discriminate L|].
  destruct t as [|t1 t]; [discriminate L|].
  destruct t as [|t2 t]; [discriminate L|].
  destruct t as [|t3 t]; [discriminate L|].
  destruct t as [|t4 t]; [discriminate L|].
  destruct t as [|t5 t]; [discriminate L|].
  destruct t as [|t6 t]; [discriminate L|].
  destruct t as [|t7 t]; [discriminate L|].
  destruct t as [|t8 t]; [discriminate L|].
  destruct t as [|t9 t]; [discriminate L|].
  destruct t as [|t10 t]; [discriminate L|].
  destruct t as [|t11 t]; [discriminate L|].
  destruct t as [|t12 t]; [discriminate L|].
  destruct t as [|t13 t]; [discriminate L|].
  destruct t as [|t14 t]; [discriminate L|].
  destruct t as [|t15 t]; [discriminate L|].
  destruct t as [|t16 t]; [discriminate L|].
  destruct t as [|t17 t]; [discriminate L|].
  destruct t as [|t18 t]; [discriminate L|].
  destruct t as [|t19 t]; [discriminate L|].
  destruct t; [|discriminate L]. clear L. unfold reduceW, fReduce. cbv zeta. rewrite chain_cons, fold_ok. cbn [map].
  assert (E : add64 t0 (mul64 t10 15632) = u64 (0 + (t0 + t10 * 15632))) by (unfold add64, mul64; rewrite u64_add_r; reflexivity). rewrite E. clear E.
  set (m0 := u64 (0 + _)).
  match goal with |- context [match ?x with [] => ZeroW f | _ => _ end] => set (l := x) end.
  assert (L : length l = 9%nat) by apply chain_length. clearbody l m0.
  destruct l as [|s1 l]; [discriminate L|]. destruct l as [|s2 l]; [discriminate L|]. destruct l as [|s3 l]; [discriminate L|].
  destruct l as [|s4 l]; [discriminate L|]. destruct l as [|s5 l]; [discriminate L|]. destruct l as [|s6 l]; [discriminate L|].
  destruct l as [|s7 l]; [discriminate L|]. destruct l as [|s8 l]; [discriminate L|]. destruct l as [|q l]; [discriminate L|].
  destruct l; [|discriminate L].
  assert (E : add64 (add64 (add64 q t9) (mul64 t18 1024)) (mul64 t19 68719492368) = u64 (q + t9 + t18 * 1024 + t19 * 68719492368)).
  { unfold add64, mul64. apply u64_add3. }
  rewrite E. clear E. set (m1 := u64 _). set (k := Z.shiftr m1 fieldMSBBits).
  assert (E : add64 (Z.land m0 fieldBaseMask) (mul64 k 977) = u64 (Z.land m0 fieldBaseMask + k * 977)) by (unfold add64, mul64; apply u64_add_r).
  rewrite E. clear E. set (d := u64 _).
  assert (E : add64 (add64 (Z.shiftr d fieldBase) s1) (mul64 k 64) = u64 (Z.shiftr d fieldBase + s1 + k * 64)) by (unfold add64, mul64; rewrite u64_add_l, u64_add_r; reflexivity).
  rewrite E. clear E. set (d' := u64 _).
  assert (E : u32 (add64 (Z.shiftr d' fieldBase) s2) = u32 (Z.shiftr d' fieldBase + s2)).
  { unfold add64, u32, u64. replace (2 ^ 64) with (2 ^ 32 * 2 ^ 32) by reflexivity. rewrite Z.rem_mul_r by (reflexivity || discriminate).
    rewrite Zplus_mod, Z.mod_mod by discriminate. rewrite (Z.mul_comm (2 ^ 32)), Z.mod_mul by discriminate. rewrite Z.add_0_r. apply Z.mod_mod. discriminate. }
  rewrite E. clear E.
  exact (put_ok f (FV (u32 (Z.land d fieldBaseMask)) (u32 (Z.land d' fieldBaseMask)) (u32 (Z.shiftr d' fieldBase + s2)) (u32 s3) (u32 s4) (u32 s5) (u32 s6) (u32 s7) (u32 s8) (u32 (Z.land m1 fieldMSBMask))) m).
Qed.
Ltac ne := repeat (constructor; [discriminate|]); constructor.
Lemma mulTerms_ok a b : map (colSum a b) mulTerms = [
      n0 a * n0 b;
      n0 a * n1 b + n1 a * n0 b;
      n0 a * n2 b + n1 a * n1 b + n2 a * n0 b;
      n0 a * n3 b + n1 a * n2 b + n2 a * n1 b + n3 a * n0 b;
      n0 a * n4 b + n1 a * n3 b + n2 a * n2 b + n3 a * n1 b + n4 a * n0 b;
      n0 a * n5 b + n1 a * n4 b + n2 a * n3 b + n3 a * n2 b + n4 a * n1 b + n5 a * n0 b;
      n0 a * n6 b + n1 a * n5 b + n2 a * n4 b + n3 a * n3 b + n4 a * n2 b + n5 a * n1 b + n6 a * n0 b;
      n0 a * n7 b + n1 a * n6 b + n2 a * n5 b + n3 a * n4 b + n4 a * n3 b + n5 a * n2 b + n6 a * n1 b + n7 a * n0 b;
      n0 a * n8 b + n1 a * n7 b + n2 a * n6 b + n3 a * n5 b + n4 a * n4 b + n5 a * n3 b + n6 a * n2 b + n7 a * n1 b + n8 a * n0 b;
      n0 a * n9 b + n1 a * n8 b + n2 a * n7 b + n3 a * n6 b + n4 a * n5 b + n5 a * n4 b + n6 a * n3 b + n7 a * n2 b + n8 a * n1 b + n9 a * n0 b;
      n1 a * n9 b + n2 a * n8 b + n3 a * n7 b + n4 a * n6 b + n5 a * n5 b + n6 a * n4 b + n7 a * n3 b + n8 a * n2 b + n9 a * n1 b;
      n2 a * n9 b + n3 a * n8 b + n4 a * n7 b + n5 a * n6 b + n6 a * n5 b + n7 a * n4 b + n8 a * n3 b + n9 a * n2 b;
      n3 a * n9 b + n4 a * n8 b + n5 a * n7 b + n6 a * n6 b + n7 a * n5 b + n8 a * n4 b + n9 a * n3 b;
      n4 a * n9 b + n5 a * n8 b + n6 a * n7 b + n7 a * n6 b + n8 a * n5 b + n9 a * n4 b;
      n5 a * n9 b + n6 a * n8 b + n7 a * n7 b + n8 a * n6 b + n9 a * n5 b;
      n6 a * n9 b + n7 a * n8 b + n8 a * n7 b + n9 a * n6 b;
      n7 a * n9 b + n8 a * n8 b + n9 a * n7 b;
      n8 a * n9 b + n9 a * n8 b;
      n9 a * n9 b ].
Proof. unfold mulTerms. cbn [map colSum getw]. repeat (apply f_equal2; [ring|]). reflexivity. Qed.
Lemma squareTerms_ok a : map (colSum a a) squareTerms = [
      n0 a * n0 a;
      2 * n0 a * n1 a;
      2 * n0 a * n2 a + n1 a * n1 a;
      2 * n0 a * n3 a + 2 * n1 a * n2 a;
      2 * n0 a * n4 a + 2 * n1 a * n3 a + n2 a * n2 a;
      2 * n0 a * n5 a + 2 * n1 a * n4 a + 2 * n2 a * n3 a;
      2 * n0 a * n6 a + 2 * n1 a * n5 a + 2 * n2 a * n4 a + n3 a * n3 a;
      2 * n0 a * n7 a + 2 * n1 a * n6 a + 2 * n2 a * n5 a + 2 * n3 a * n4 a;
      2 * n0 a * n8 a + 2 * n1 a * n7 a + 2 * n2 a * n6 a + 2 * n3 a * n5 a + n4 a * n4 a;
      2 * n0 a * n9 a + 2 * n1 a * n8 a + 2 * n2 a * n7 a + 2 * n3 a * n6 a + 2 * n4 a * n5 a;
      2 * n1 a * n9 a + 2 * n2 a * n8 a + 2 * n3 a * n7 a + 2 * n4 a * n6 a + n5 a * n5 a;
      2 * n2 a * n9 a + 2 * n3 a * n8 a + 2 * n4 a * n7 a + 2 * n5 a * n6 a;
      2 * n3 a * n9 a + 2 * n4 a * n8 a + 2 * n5 a * n7 a + n6 a * n6 a;
      2 * n4 a * n9 a + 2 * n5 a * n8 a + 2 * n6 a * n7 a;
      2 * n5 a * n9 a + 2 * n6 a * n8 a + n7 a * n7 a;
      2 * n6 a * n9 a + 2 * n7 a * n8 a;
      2 * n7 a * n9 a + n8 a * n8 a;
      2 * n8 a * n9 a;
      n9 a * n9 a ].
Proof. unfold squareTerms. cbn [map colSum getw]. repeat (apply f_equal2; [ring|]). reflexivity. Qed.
Lemma mul_ok f a b m : meq (snd (runW (Mul2W f a b) m)) (upd m f (fMul (m a) (m b))).
Proof.
  unfold Mul2W. rewrite runW_seq, columns_ok by (unfold mulTerms; ne). cbn [fst snd]. rewrite mulTerms_ok. apply reduce_ok. rewrite chain_length. reflexivity.
Qed.
Lemma square_ok f a m : meq (snd (runW (SquareValW f a) m)) (upd m f (fSquare (m a))).
Proof.
  unfold SquareValW. rewrite runW_seq, columns_ok by (unfold squareTerms; ne). cbn [fst snd]. rewrite squareTerms_ok. apply reduce_ok. rewrite chain_length. reflexivity.
Qed.

(** ** Inverse *)
Definition effect (c : wcode unit) (f : ptr) (F : mem -> fieldVal) : Prop := forall m, meq (snd (runW c m)) (upd m f (F m)).
Lemma effect_seq {A : Type} c f F (d : wcode A) m : effect c f F -> meq (snd (runW (c ;; d) m)) (snd (runW d (upd m f (F m)))).
Proof. intros E. rewrite runW_seq. apply runW_ext, E. Qed.
Lemma squares_ok n f m : meq (snd (runW (squaresW n f) m)) (upd m f (fSquares n (m f))).
Proof.
  revert m. induction n as [|n IH]; intros m; cbn [squaresW fSquares].
  - cbn [runW snd]. apply meq_sym, upd_same.
  - eapply meq_trans; [apply (effect_seq _ f (fun m => fSquare (m f))); intros m'; apply square_ok|]. eapply meq_trans; [apply IH|].
    rewrite upd_at. apply upd_upd.
Qed.
Lemma rounds_ext (m m' : mem) l : (forall p, In p l -> m p = m' p) -> forall g,
  fold_left (fun g p => fMul (fSquares 10 g) (m p)) l g = fold_left (fun g p => fMul (fSquares 10 g) (m' p)) l g.
Proof.
  induction l as [|q l IH]; intros E g; [reflexivity|]. cbn [fold_left]. rewrite (E q (or_introl eq_refl)). apply IH. intros p P. apply E. right. exact P.
Qed.
Lemma rounds_ok f l : (forall p, In p l -> p <> f) -> forall m,
  meq (snd (runW (rounds f l) m)) (upd m f (fold_left (fun g p => fMul (fSquares 10 g) (m p)) l (m f))).
Proof.
  induction l as [|p l IH]; intros N m; cbn [rounds fold_left].
  - cbn [runW snd]. apply meq_sym, upd_same.
  - eapply meq_trans; [apply (effect_seq _ f (fun m => fSquares 10 (m f))); intros m'; apply squares_ok|].
    eapply meq_trans; [apply (effect_seq _ f (fun m => fMul (m f) (m p))); intros m'; apply mul_ok|].
    assert (NP : p <> f) by (apply N; left; reflexivity). assert (NL : forall q, In q l -> q <> f) by (intros q Q; apply N; right; exact Q).
    eapply meq_trans; [apply IH, NL|]. eapply meq_trans; [eapply meq_trans; [apply upd_upd|apply upd_upd]|].
    apply upd_meq; [apply meq_refl|]. rewrite !upd_at, (upd_off _ f _ p) by exact NP.
    apply rounds_ext. intros q Q. rewrite !upd_off by (apply NL, Q). reflexivity.
Qed.
Lemma squares_4 v : fSquares 3 (fSquare v) = fSquares 4 v. Proof. cbn [fSquares]. reflexivity. Qed.
Opaque Mul2W SquareValW SetW squaresW rounds fMul fSquare fSquares.
(** what a call of Inverse leaves in memory, apart from its own frame *)
Definition invFrame : Z := 11.
Ltac look := repeat (rewrite upd_at || rewrite upd_off by lia).
Ltac istep F L := eapply meq_trans; [eapply (effect_seq _ _ F); intros ?; apply L|]; cbv beta; look.
Lemma inverse_mem sp f m : ~ (sp <= f < sp + invFrame) -> exists m', meq (snd (runW (InverseW sp f) m)) m' /\
  m' f = fInverse (m f) /\ forall q, q <> f -> ~ (sp <= q < sp + invFrame) -> m' q = m q.
Proof.
  intros N. unfold invFrame in *. unfold InverseW. cbv zeta. eexists. split.
  - istep (fun m : mem => fSquare (m f)) square_ok. set (v2 := fSquare (m f)).
    istep (fun m : mem => fMul (m sp) (m f)) mul_ok. set (v3 := fMul v2 (m f)).
    istep (fun m : mem => fSquare (m sp)) square_ok. set (v4 := fSquare v2).
    istep (fun m : mem => fSquare (m (sp + 2))) square_ok.
    istep (fun m : mem => fMul (m (sp + 3)) (m sp)) mul_ok. set (v10 := fMul (fSquare v4) v2).
    istep (fun m : mem => fMul (m (sp + 3)) (m f)) mul_ok. set (v11 := fMul v10 (m f)).
    istep (fun m : mem => fMul (m (sp + 3)) (m (sp + 4))) mul_ok. set (v21 := fMul v10 v11).
    istep (fun m : mem => fSquare (m (sp + 5))) square_ok. set (v42 := fSquare v21).
    istep (fun m : mem => fMul (m (sp + 6)) (m (sp + 1))) mul_ok. set (v45 := fMul v42 v3).
    istep (fun m : mem => fMul (m (sp + 6)) (m (sp + 5))) mul_ok. set (v63 := fMul v42 v21).
    istep (fun m : mem => fSquare (m (sp + 8))) square_ok.
    istep (fun m : mem => fSquares 3 (m (sp + 9))) squares_ok.
    istep (fun m : mem => fMul (m (sp + 9)) (m (sp + 4))) mul_ok. rewrite squares_4. set (v1019 := fMul (fSquares 4 v63) v11).
    istep (fun m : mem => fMul (m (sp + 9)) (m (sp + 2))) mul_ok. set (v1023 := fMul v1019 v4).
    istep (fun m : mem => m (sp + 8)) set_ok.
    eapply meq_trans; [apply rounds_ok; cbn [In]; intros p P; intros ->; repeat (destruct P as [P|P]; [lia|]); exact P|].
    cbn [fold_left]. look. apply meq_refl.
  - split.
    + rewrite upd_at. unfold fInverse. cbv zeta. reflexivity.
    + intros q Q F. look. reflexivity.
Qed.
Lemma inverse_ok sp f m : ~ (sp <= f < sp + invFrame) ->
  snd (runW (InverseW sp f) m) f = fInverse (m f) /\ forall q, q <> f -> ~ (sp <= q < sp + invFrame) -> snd (runW (InverseW sp f) m) q = m q.
Proof. intros N. destruct (inverse_mem sp f m N) as (m' & E & A & B). split; [rewrite (E f); exact A|intros q Q F; rewrite (E q); apply B; assumption]. Qed.
Transparent Mul2W SquareValW SetW squaresW rounds fMul fSquare fSquares.
