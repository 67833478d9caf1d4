(** * Kernel-checked multiples of G (proof only)

    Points are added with supplied slopes, so a check costs a few multiplications
    and no inversion; the reduction modulo P uses 2^256 = 2^32 + 977.  The doublings
    2^i * G, i <= 129, are verified once and reused. *)
From Coq Require Import ZArith Znumtheory List Lia Bool.
From Verif Require Import NumTheory Primes Spec FieldP CurveZ CurveGroup.
Import ListNotations.
Open Scope Z_scope.

(** low and high parts of a binary number *)
Fixpoint psplit (n : nat) (p : positive) : Z * Z :=
  match n with
  | 0%nat => (0, Zpos p)
  | S n' => match p with
            | xH => (1, 0)
            | xO p' => let '(l, h) := psplit n' p' in (Z.double l, h)
            | xI p' => let '(l, h) := psplit n' p' in (Z.succ_double l, h)
            end
  end.
Definition red1 (x : Z) : Z :=
  match x with
  | Z0 => 0
  | Zpos p => let '(l, h) := psplit 256 p in 4294968273 * h + l
  | Zneg p => let '(l, h) := psplit 256 p in - (4294968273 * h + l)
  end.
Definition norm (x : Z) : Z :=
  let y := red1 (red1 x) in
  let y := if y <? 0 then y + P else y in
  if y <? P then y else y - P.
Definition eqP (a b : Z) : bool := norm (a - b) =? 0.

Lemma psplit_ok n p : let '(l, h) := psplit n p in Zpos p = h * 2 ^ Z.of_nat n + l.
Proof.
  revert p. induction n as [|n IH]; intros p; cbn [psplit].
  - rewrite Z.pow_0_r. lia.
  - rewrite Nat2Z.inj_succ, Z.pow_succ_r by lia. destruct p as [p|p|]; [| |lia].
    + specialize (IH p). destruct (psplit n p) as [l h]. rewrite (Z.succ_double_spec l). lia.
    + specialize (IH p). destruct (psplit n p) as [l h]. rewrite (Z.double_spec l). lia.
Qed.
Lemma red1_ok x : red1 x mod P = x mod P.
Proof.
  assert (K : 2 ^ Z.of_nat 256 = P + 4294968273) by reflexivity. pose proof P_pos as HP.
  destruct x as [|p|p]; cbn [red1]; [reflexivity| |]; pose proof (psplit_ok 256 p) as H; rewrite K in H;
    clear K; destruct (psplit 256 p) as [l h].
  - rewrite H. replace (h * (P + 4294968273) + l) with (4294968273 * h + l + h * P) by ring.
    rewrite Z.mod_add by lia. reflexivity.
  - change (Zneg p) with (- Zpos p). rewrite H.
    replace (- (h * (P + 4294968273) + l)) with (- (4294968273 * h + l) + (- h) * P) by ring.
    rewrite Z.mod_add by lia. reflexivity.
Qed.
Lemma norm_mod x : norm x mod P = x mod P.
Proof.
  unfold norm. rewrite <- (red1_ok x), <- (red1_ok (red1 x)). pose proof P_pos.
  generalize (red1 (red1 x)). intros y. cbv zeta.
  assert (A : (if y <? 0 then y + P else y) mod P = y mod P).
  { destruct (y <? 0); [|reflexivity]. rewrite <- (Z.mul_1_l P) at 1. apply Z.mod_add. lia. }
  rewrite <- A. generalize (if y <? 0 then y + P else y). intros z.
  destruct (z <? P); [reflexivity|]. replace (z - P) with (z + (-1) * P) by lia. apply Z.mod_add. lia.
Qed.
Definition inPb (x : Z) : bool := (0 <=? x) && (x <? P).
Lemma norm_ok x : inPb (norm x) = true -> norm x = x mod P.
Proof.
  unfold inPb. rewrite andb_true_iff, Z.leb_le, Z.ltb_lt. intros H. rewrite <- norm_mod. symmetry. apply Z.mod_small. exact H.
Qed.
Lemma eqP_ok a b : eqP a b = true -> a mod P = b mod P.
Proof.
  unfold eqP. rewrite Z.eqb_eq. intros E. pose proof (norm_mod (a - b)) as H. rewrite E in H.
  rewrite Z.mod_0_l in H by (pose proof P_pos; lia). pose proof P_pos.
  symmetry in H. apply Z.mod_divide in H; [|lia]. destruct H as [k H]. replace a with (b + k * P) by lia.
  apply Z.mod_add. lia.
Qed.

(** curve membership *)
Definition oncb (p : point) : bool :=
  inPb (fst p) && inPb (snd p) && eqP (zsq (snd p)) (fst p * norm (zsq (fst p)) + 7).
Lemma oncb_ok p : oncb p = true -> on_curve p.
Proof.
  unfold oncb, inPb. rewrite !andb_true_iff, !Z.leb_le, !Z.ltb_lt. intros [[A B] C].
  split; [exact A|]. split; [exact B|]. apply eqP_ok in C. rewrite !zsq_ok in C.
  replace (snd p ^ 2) with (snd p * snd p) by ring. rewrite C.
  apply fz_eq_iff. rewrite fz_add, fz_mul, (fz_eq _ _ (norm_mod _)), <- fz_mul, <- fz_add. f_equal. ring.
Qed.

(** slopes *)
Lemma slope_eq a b l : b mod P <> 0 -> (l * b) mod P = a mod P -> (a * inv b) mod P = l mod P.
Proof.
  intros Hb E. pose proof (inv_ok b Hb) as I. revert I. generalize (inv b). intros i I.
  rewrite <- Zmult_mod_idemp_l, <- E, Zmult_mod_idemp_l.
  replace (l * b * i) with (l * (i * b)) by ring.
  rewrite <- Zmult_mod_idemp_r, I, Z.mul_1_r. reflexivity.
Qed.
Definition aadd (l : Z) (p q : point) : point :=
  let x3 := norm (zsq l - fst p - fst q) in (x3, norm (l * (fst p - x3) - snd p)).
Lemma aadd_eq (l l0 x1 y1 x2 : Z) (q : point) : q = (x2, snd q) -> l0 = l mod P ->
  inPb (fst (aadd l (x1, y1) q)) = true -> inPb (snd (aadd l (x1, y1) q)) = true ->
  ((l0 * l0 - x1 - x2) mod P, (l0 * (x1 - (l0 * l0 - x1 - x2) mod P) - y1) mod P) = aadd l (x1, y1) q.
Proof.
  intros -> -> H1 H2. unfold aadd in *. cbn [fst snd] in *.
  assert (E : (l mod P * (l mod P) - x1 - x2) mod P = (zsq l - x1 - x2) mod P).
  { rewrite zsq_ok. apply fz_eq_iff. rewrite !fz_sub, !fz_mul, !fz_mod. reflexivity. }
  rewrite E. rewrite <- (norm_ok _ H1). f_equal. rewrite (norm_ok _ H2).
  apply fz_eq_iff. rewrite !fz_sub, !fz_mul, !fz_mod. reflexivity.
Qed.

Definition chk (b : bool) (r : point) : option point :=
  if b && inPb (fst r) && inPb (snd r) && negb (fst r =? 0) then Some r else None.
Lemma chk_ok b r q : chk b r = Some q -> b = true /\ inPb (fst r) = true /\ inPb (snd r) = true /\ fst r <> 0 /\ q = r.
Proof.
  unfold chk. destruct (b && inPb (fst r) && inPb (snd r) && negb (fst r =? 0)) eqn:E; [|discriminate].
  rewrite !andb_true_iff, negb_true_iff, Z.eqb_neq in E. intros H. injection H as <-. tauto.
Qed.
Lemma is_point_on_curve p : is_point p -> fst p <> 0 -> on_curve p.
Proof. intros [->|H] Hn; [exfalso; apply Hn; reflexivity|exact H]. Qed.

Definition cadd (l : Z) (p q : point) : option point :=
  chk (negb (fst p =? fst q) && eqP (l * (fst q - fst p)) (snd q - snd p)) (aadd l p q).
Lemma cadd_ok l p q r : on_curve p -> on_curve q -> cadd l p q = Some r -> padd p q = r /\ on_curve r.
Proof.
  intros Hp Hq E. apply chk_ok in E. rewrite andb_true_iff, negb_true_iff in E.
  destruct E as [[A B] [C [D [F ->]]]].
  assert (E : padd p q = aadd l p q).
  { pose proof (on_curve_nz _ Hp) as N1. pose proof (on_curve_nz _ Hq) as N2.
    destruct Hp as [Rp _], Hq as [Rq _].
    destruct p as [x1 y1], q as [x2 y2]. unfold padd. cbn [fst snd] in *.
    destruct ((x1 =? 0) && (y1 =? 0)) eqn:E1; [exfalso; apply N1; apply andb_prop in E1; destruct E1 as [E1 E1']; apply Z.eqb_eq in E1, E1'; subst; reflexivity|].
    destruct ((x2 =? 0) && (y2 =? 0)) eqn:E2; [exfalso; apply N2; apply andb_prop in E2; destruct E2 as [E2 E2']; apply Z.eqb_eq in E2, E2'; subst; reflexivity|].
    rewrite A. cbn [andb]. cbv zeta. apply eqP_ok in B. apply Z.eqb_neq in A.
    apply (aadd_eq l _ x1 y1 x2 (x2, y2) eq_refl); [|exact C|exact D].
    apply slope_eq; [|exact B]. intros Z. apply Z.mod_divide in Z; [|pose proof P_pos; lia].
    destruct Z as [k Hk]. assert (k = 0) by nia. lia. }
  split; [exact E|]. apply is_point_on_curve; [|exact F]. rewrite <- E.
  apply is_point_padd; right; assumption.
Qed.

Lemma y2_nz p : on_curve p -> (2 * snd p) mod P <> 0.
Proof.
  intros [_ [Hy E]] Z. apply (no_two_torsion_Z (fst p)). rewrite <- E.
  apply Z.mod_divide in Z; [|pose proof P_pos; lia]. apply prime_mult in Z; [|exact prime_P].
  apply Z.mod_divide; [pose proof P_pos; lia|]. replace (snd p ^ 2) with (snd p * snd p) by ring.
  apply Z.divide_mul_l. destruct Z as [Z|Z]; [|exact Z].
  apply Z.divide_pos_le in Z; [pose proof P_gt2; lia|lia].
Qed.
Definition cdbl (l : Z) (p : point) : option point :=
  chk (eqP (l * (2 * snd p)) (3 * zsq (fst p))) (aadd l p p).
Lemma cdbl_ok l p r : on_curve p -> cdbl l p = Some r -> padd p p = r /\ on_curve r.
Proof.
  intros Hp E. apply chk_ok in E. destruct E as [B [C [D [F ->]]]].
  assert (E : padd p p = aadd l p p).
  { pose proof (on_curve_nz _ Hp) as N1. pose proof (y2_nz _ Hp) as N3.
    destruct p as [x1 y1]. unfold padd. cbn [fst snd] in *.
    destruct ((x1 =? 0) && (y1 =? 0)) eqn:E1; [exfalso; apply N1; apply andb_prop in E1; destruct E1 as [E1 E1']; apply Z.eqb_eq in E1, E1'; subst; reflexivity|].
    rewrite Z.eqb_refl. cbn [andb]. replace (y1 + y1) with (2 * y1) by ring.
    apply Z.eqb_neq in N3. rewrite N3. cbv zeta. apply Z.eqb_neq in N3. apply eqP_ok in B.
    apply (aadd_eq l _ x1 y1 x1 (x1, y1) eq_refl); [|exact C|exact D].
    apply slope_eq; [exact N3|]. rewrite B, zsq_ok. f_equal. ring. }
  split; [exact E|]. apply is_point_on_curve; [|exact F]. rewrite <- E.
  apply is_point_padd; right; assumption.
Qed.

(** the table of doublings *)
Fixpoint dbls (p : point) (ls : list Z) : option (list point) :=
  match ls with
  | [] => Some [p]
  | l :: t => match cdbl l p with
              | Some q => match dbls q t with Some r => Some (p :: r) | None => None end
              | None => None
              end
  end.
Lemma dbls_ok g ls : forall p n r, on_curve g -> on_curve p -> p = smul (2 ^ Z.of_nat n) g -> dbls p ls = Some r ->
  forall i q, nth_error r i = Some q -> on_curve q /\ q = smul (2 ^ Z.of_nat (n + i)) g.
Proof.
  induction ls as [|l t IH]; intros p n r Hg Hp E D i q Hi; cbn [dbls] in D.
  - injection D as <-. destruct i as [|i]; [|destruct i; discriminate]. injection Hi as <-.
    rewrite Nat.add_0_r. split; assumption.
  - destruct (cdbl l p) as [p'|] eqn:C; [|discriminate]. destruct (dbls p' t) as [r'|] eqn:D'; [|discriminate].
    destruct (cdbl_ok l p p' Hp C) as [E' Hp'].
    injection D as <-. destruct i as [|i].
    + injection Hi as <-. rewrite Nat.add_0_r. split; assumption.
    + cbn [nth_error] in Hi. replace (n + S i)%nat with (S n + i)%nat by lia.
      apply (IH p' (S n) r' Hg Hp'); [|exact D'|exact Hi].
      rewrite <- E'. rewrite E at 1 2. rewrite <- smul_add by (right; exact Hg).
      f_equal. rewrite Nat2Z.inj_succ, Z.pow_succ_r by lia. ring.
Qed.

(** signed sums of table entries *)
Definition snegb (s : bool) (p : point) : point := if s then p else (fst p, P - snd p).
Fixpoint comb (T : list point) (ts : list (nat * bool * Z)) (k : Z) (acc : point) : option (Z * point) :=
  match ts with
  | [] => Some (k, acc)
  | (i, s, l) :: t =>
      match nth_error T i with
      | Some q => match cadd l acc (snegb s q) with
                  | Some r => comb T t (if s then k + 2 ^ Z.of_nat i else k - 2 ^ Z.of_nat i) r
                  | None => None
                  end
      | None => None
      end
  end.
Definition tab_ok (g : point) (T : list point) : Prop :=
  forall i q, nth_error T i = Some q -> on_curve q /\ q = smul (2 ^ Z.of_nat i) g.
Lemma snegb_pneg q : on_curve q -> snegb false q = pneg q.
Proof.
  intros H. pose proof (y2_nz _ H) as Y. destruct H as [_ [Hy _]]. unfold snegb, pneg. f_equal.
  replace (- snd q) with ((P - snd q) + (-1) * P) by ring. rewrite Z.mod_add by (pose proof P_pos; lia).
  symmetry. apply Z.mod_small. assert (snd q <> 0); [|lia]. intros Z. apply Y. rewrite Z. reflexivity.
Qed.
Lemma on_curve_pneg q : on_curve q -> on_curve (pneg q).
Proof.
  intros [H1 [H2 H3]]. unfold pneg. split; [exact H1|]. cbn [fst snd]. split; [apply Z.mod_pos_bound; exact P_pos|].
  rewrite <- H3. rewrite pow_mod_idemp by lia. f_equal. ring.
Qed.
Lemma comb_ok g T : on_curve g -> tab_ok g T -> forall ts k acc k' r, on_curve acc -> acc = smul k g ->
  comb T ts k acc = Some (k', r) -> on_curve r /\ r = smul k' g.
Proof.
  intros Hg HT. induction ts as [|[[i s] l] t IH]; intros k acc k' r Ha E C; cbn [comb] in C.
  - injection C as <- <-. split; assumption.
  - destruct (nth_error T i) as [q|] eqn:Hi; [|discriminate]. destruct (HT i q Hi) as [Hq Eq].
    assert (Hg' : is_point g) by (right; exact Hg).
    assert (Hs : snegb s q = smul (if s then 2 ^ Z.of_nat i else - 2 ^ Z.of_nat i) g /\ on_curve (snegb s q)).
    { destruct s; [split; [exact Eq|exact Hq]|]. rewrite snegb_pneg by exact Hq.
      split; [|apply on_curve_pneg; exact Hq]. rewrite smul_opp by exact Hg'. rewrite <- Eq. reflexivity. }
    destruct Hs as [Es Hs]. destruct (cadd l acc (snegb s q)) as [r'|] eqn:B; [|discriminate].
    destruct (cadd_ok l acc _ r' Ha Hs B) as [E' Hr'].
    apply (IH _ _ _ _ Hr') in C; [exact C|]. rewrite <- E', Es, E, <- smul_add by exact Hg'.
    destruct s; f_equal. 
Qed.
