(** * Proofs about the table generator and the loader *)
From Coq Require Import ZArith List Bool Lia.
From Verif Require Import Go Wire Big Spec Field SpecField SpecCurve SpecZk CurveGroup Order GMult Koblitz FieldProofs KobProofs KobTab
  PubKey PubKeyProofs ZkBase Sha256 Precompute.
Import ListNotations.
Open Scope Z_scope.

(** ** the words of a field value survive the trip through bytes *)
Definition words_ok (f : fieldVal) : Prop := Forall (fun w => 0 <= w < 2 ^ 32) (fieldWords f).
Definition jwords_ok (p : jpt) : Prop := let '(x, y, z) := p in words_ok x /\ words_ok y /\ words_ok z.

Lemma fits_words k f : k <= 2 -> fits k f -> words_ok f.
Proof.
  intros K (H0 & H1 & H2 & H3 & H4 & H5 & H6 & H7 & H8 & H9). unfold words_ok, fieldWords.
  change (2 ^ 26) with 67108864 in *. change (2 ^ 19) with 524288 in *. change (2 ^ 22) with 4194304 in *. change (2 ^ 32) with 4294967296.
  repeat (constructor; [nia|]). constructor.
Qed.
Lemma represents_words q p : represents q p -> jwords_ok q.
Proof.
  destruct q as [[x y] z]. intros (H1 & H2 & H3 & _). split; [|split]; eapply fits_words; try eassumption; lia.
Qed.

Lemma le32_leval w : 0 <= w < 2 ^ 32 -> leval (le32 w) = w.
Proof. intros H. cbn [leval le32]. change (2 ^ 32) with 4294967296 in H. change (2 ^ 8) with 256. change (2^16) with 65536. change (2^24) with 16777216. lia. Qed.
Lemma getUint32_le w s : 0 <= w < 2 ^ 32 -> getUint32 (le32 w ++ s) = Ok (w, s).
Proof. intros H. unfold le32. cbn [app getUint32]. f_equal. f_equal. apply (le32_leval w H). Qed.
Lemma getWords_le ws s : Forall (fun w => 0 <= w < 2 ^ 32) ws -> getWords (length ws) (flat_map le32 ws ++ s) = Ok (ws, s).
Proof.
  induction 1 as [|w ws Hw _ IH]; cbn [length getWords flat_map]; [reflexivity|].
  rewrite <- app_assoc, getUint32_le by exact Hw. cbn [bind]. rewrite IH. reflexivity.
Qed.
Lemma getField_put f s : words_ok f -> getField (putField f ++ s) = Ok (f, s).
Proof.
  intros H. unfold getField, putField. change 10%nat with (length (fieldWords f)). rewrite getWords_le by exact H.
  cbn [bind]. destruct f; reflexivity.
Qed.
Lemma getPoint_put p s : jwords_ok p -> getPoint (putPoint p ++ s) = Ok (p, s).
Proof.
  destruct p as [[x y] z]. intros (Hx & Hy & Hz). unfold getPoint, putPoint. rewrite <- !app_assoc.
  rewrite getField_put by exact Hx. cbn [bind]. rewrite getField_put by exact Hy. cbn [bind].
  rewrite getField_put by exact Hz. reflexivity.
Qed.
Lemma getWindow_put l s : Forall jwords_ok l -> getWindow (length l) (flat_map putPoint l ++ s) = Ok (l, s).
Proof.
  induction 1 as [|p l Hp _ IH]; cbn [length getWindow flat_map]; [reflexivity|].
  rewrite <- app_assoc, getPoint_put by exact Hp. cbn [bind]. rewrite IH. reflexivity.
Qed.
Lemma getTable_S n s : getTable (S n) s = bind (getWindow 256 s) (fun '(row, s) => bind (getTable n s) (fun '(t, s) => Ok (row :: t, s))).
Proof. reflexivity. Qed.
Lemma getTable_put (t : table) s : Forall (fun row => length row = 256%nat /\ Forall jwords_ok row) t ->
  getTable (length t) (flat_map (flat_map putPoint) t ++ s) = Ok (t, s).
Proof.
  induction 1 as [|row t [L Hr] _ IH]; [reflexivity|]. cbn [length flat_map].
  rewrite getTable_S.
  rewrite <- app_assoc, <- L, getWindow_put by exact Hr. cbn [bind]. rewrite IH. reflexivity.
Qed.

(** ** the generator computes the multiples of its base point *)
Section Gen.
Variable B : point.
Hypothesis IB : is_point B.

Definition reps (s : Z) (cps : list jpt) : Prop :=
  forall k q, nth_error cps k = Some q -> represents q (smul (2 ^ (s + Z.of_nat k)) B).
Lemma reps_cons s q l : reps s (q :: l) <-> represents q (smul (2 ^ s) B) /\ reps (s + 1) l.
Proof.
  split.
  - intros H. split.
    + specialize (H 0%nat q eq_refl). rewrite Z.add_0_r in H. exact H.
    + intros k q' E. specialize (H (S k) q' E). replace (s + 1 + Z.of_nat k) with (s + Z.of_nat (S k)) by lia. exact H.
  - intros [H1 H2] [|k] q' E.
    + injection E as <-. rewrite Z.add_0_r. exact H1.
    + specialize (H2 k q' E). replace (s + Z.of_nat (S k)) with (s + 1 + Z.of_nat k) by lia. exact H2.
Qed.

Lemma smul_dbl k : 0 <= k -> padd (smul (2 ^ k) B) (smul (2 ^ k) B) = smul (2 ^ (k + 1)) B.
Proof. intros H. rewrite <- smul_add by exact IB. f_equal. rewrite Z.pow_add_r by lia. change (2 ^ 1) with 2. lia. Qed.
Lemma doublings_reps n : forall s p, 0 <= s -> represents p (smul (2 ^ s) B) -> reps s (doublings n p).
Proof.
  induction n as [|n IH]; intros s p Hs Hp; cbn [doublings]; [intros [|k] q E; discriminate E|].
  apply reps_cons. split; [exact Hp|]. apply IH; [lia|]. rewrite <- smul_dbl by exact Hs. apply rep_double, Hp.
Qed.
Lemma doublings_length n : forall p, length (doublings n p) = n.
Proof. induction n as [|n IH]; intros p; cbn [doublings length]; [reflexivity|rewrite IH; reflexivity]. Qed.
Lemma nth_error_sub (l : list jpt) a n k q : nth_error (firstn n (skipn a l)) k = Some q -> nth_error l (a + k) = Some q.
Proof.
  revert a l. induction n as [|n IH] in k |- *; intros a l H; [destruct k; discriminate H|].
  revert l H. induction a as [|a IHa]; intros l H.
  - cbn [skipn] in H. destruct l as [|x l]; [destruct k; discriminate H|]. cbn [firstn] in H. destruct k as [|k]; [exact H|].
    cbn [nth_error] in H |- *. exact (IH k 0%nat l H).
  - destruct l as [|x l]; [destruct k; discriminate H|]. exact (IHa l H).
Qed.
Lemma reps_sub a n l : reps 0 l -> reps (Z.of_nat a) (firstn n (skipn a l)).
Proof. intros H k q E. apply nth_error_sub in E. specialize (H _ _ E). rewrite Nat2Z.inj_add in H. exact H. Qed.

Lemma bit_step i j : 0 <= j -> (Z.land (Z.shiftr i j) 1 =? 1) = ((i / 2 ^ j) mod 2 =? 1).
Proof. intros H. rewrite Z.shiftr_div_pow2 by exact H. change 1 with (Z.ones 1) at 1. rewrite Z.land_ones by lia. reflexivity. Qed.

Lemma windowSum_ok cps : forall i j s a acc, 0 <= j -> 0 <= s -> reps s cps -> represents acc (smul a B) ->
  represents (fst (windowSum cps i j acc)) (smul (a + 2 ^ s * ((i / 2 ^ j) mod 2 ^ Z.of_nat (length cps))) B) /\
  reps s (snd (windowSum cps i j acc)) /\ length (snd (windowSum cps i j acc)) = length cps.
Proof.
  induction cps as [|cp r IH]; intros i j s a acc Hj Hs HR HA; cbn [windowSum length].
  - cbn [fst snd]. rewrite Z.mod_1_r, Z.mul_0_r, Z.add_0_r. auto.
  - apply reps_cons in HR as [HC HR].
    assert (E : (i / 2 ^ j) mod 2 ^ Z.of_nat (S (length r)) = (i / 2 ^ j) mod 2 + 2 * ((i / 2 ^ (j + 1)) mod 2 ^ Z.of_nat (length r))).
    { rewrite Nat2Z.inj_succ, Z.pow_succ_r by lia. rewrite Z.rem_mul_r by lia.
      rewrite Z.pow_add_r by lia. change (2 ^ 1) with 2. rewrite Z.div_div by lia. reflexivity. }
    rewrite bit_step by exact Hj. rewrite E.
    assert (S1 : 2 ^ (s + 1) = 2 * 2 ^ s) by (rewrite Z.pow_add_r by lia; change (2 ^ 1) with 2; lia).
    destruct (Z.eqb_spec ((i / 2 ^ j) mod 2) 1) as [B1|B0].
    + destruct (rep_add acc cp _ _ HA HC) as [R1 R2]. destruct (addJacobian acc cp) as [sm cp']. cbn [fst snd] in R1, R2.
      rewrite <- smul_add in R1 by exact IB.
      destruct (IH i (j + 1) (s + 1) (a + 2 ^ s) sm ltac:(lia) ltac:(lia) HR R1) as (I1 & I2 & I3).
      destruct (windowSum r i (j + 1) sm) as [res r']. cbn [fst snd length] in *. split; [|split].
      * match goal with |- represents _ (smul ?x _) => match type of I1 with represents _ (smul ?y _) => replace x with y; [exact I1|] end end.
        rewrite B1, S1. lia.
      * apply reps_cons. auto.
      * congruence.
    + assert (B00 : (i / 2 ^ j) mod 2 = 0) by (pose proof (Z.mod_pos_bound (i / 2 ^ j) 2); lia).
      destruct (IH i (j + 1) (s + 1) a acc ltac:(lia) ltac:(lia) HR HA) as (I1 & I2 & I3).
      destruct (windowSum r i (j + 1) acc) as [res r']. cbn [fst snd length] in *. split; [|split].
      * match goal with |- represents _ (smul ?x _) => match type of I1 with represents _ (smul ?y _) => replace x with y; [exact I1|] end end.
        rewrite B00, S1. lia.
      * apply reps_cons. auto.
      * congruence.
Qed.

Lemma represents_inf : represents (fZero, fZero, fZero) O.
Proof.
  apply jr_represents; [left; reflexivity|]. exact jr_inf.
Qed.

Lemma window_ok n : forall i cps s, 0 <= i -> i + Z.of_nat n <= 256 -> 0 <= s -> length cps = 8%nat -> reps s cps ->
  length (window n i cps) = n /\
  forall k q, nth_error (window n i cps) k = Some q -> represents q (smul ((i + Z.of_nat k) * 2 ^ s) B).
Proof.
  induction n as [|n IH]; intros i cps s Hi Hn Hs L HR; cbn [window]; [split; [reflexivity|intros [|k] q E; discriminate E]|].
  pose proof (windowSum_ok cps i 0 s 0 (fZero, fZero, fZero) ltac:(lia) Hs HR) as W. rewrite smul_0 in W. specialize (W represents_inf).
  destruct (windowSum cps i 0 (fZero, fZero, fZero)) as [p cps']. cbn [fst snd] in W. destruct W as (W1 & W2 & W3).
  destruct (IH (i + 1) cps' s ltac:(lia) ltac:(lia) Hs ltac:(congruence) W2) as [I1 I2]. split; [cbn [length]; congruence|].
  intros [|k] q E.
  - injection E as <-. rewrite L in W1. change (2 ^ Z.of_nat 8) with 256 in W1. rewrite Z.pow_0_r, Z.div_1_r, Z.mod_small in W1 by lia.
    rewrite Z.add_0_l, Z.mul_comm in W1. rewrite Z.add_0_r. exact W1.
  - cbn [nth_error] in E. specialize (I2 k q E). replace (i + Z.of_nat (S k)) with (i + 1 + Z.of_nat k) by lia. exact I2.
Qed.

Lemma byteWindow_ok dp m : length dp = 256%nat -> reps 0 dp -> (m < 32)%nat ->
  length (byteWindow dp m) = 256%nat /\
  forall k q, nth_error (byteWindow dp m) k = Some q -> represents q (smul (Z.of_nat k * 256 ^ (31 - Z.of_nat m)) B).
Proof.
  intros L HR Hm. unfold byteWindow. change byteSize with 32.
  assert (E : 8 * (32 - Z.of_nat m - 1) = Z.of_nat (8 * (31 - m))) by lia. rewrite E, Nat2Z.id.
  destruct (window_ok 256 0 (firstn 8 (skipn (8 * (31 - m)) dp)) (Z.of_nat (8 * (31 - m))) ltac:(lia) ltac:(lia) ltac:(lia)) as [W1 W2].
  - rewrite firstn_length, skipn_length, L. lia.
  - apply reps_sub, HR.
  - split; [exact W1|]. intros k q K. specialize (W2 k q K). cbn [Z.add] in W2.
    replace (256 ^ (31 - Z.of_nat m)) with (2 ^ Z.of_nat (8 * (31 - m))); [exact W2|].
    change 256 with (2 ^ 8). rewrite <- Z.pow_mul_r by lia. f_equal. lia.
Qed.

Lemma seq_nth_error n j : (j < n)%nat -> nth_error (seq 0 n) j = Some j.
Proof. intros H. rewrite nth_error_nth' with (d := 0%nat) by (rewrite seq_length; exact H). rewrite seq_nth by exact H. reflexivity. Qed.
Lemma windows_table dp : length dp = 256%nat -> reps 0 dp ->
  table_ok (map (byteWindow dp) (seq 0 32)) B /\
  Forall (fun row => length row = 256%nat /\ Forall jwords_ok row) (map (byteWindow dp) (seq 0 32)).
Proof.
  intros L HR. split.
  - intros i b Hi Hb. unfold is_byte in Hb. destruct (byteWindow_ok dp i L HR Hi) as [W1 W2].
    unfold lookup. rewrite (map_nth_error (byteWindow dp) i (seq 0 32) (seq_nth_error 32 i Hi)).
    destruct (nth_error (byteWindow dp i) (Z.to_nat b)) as [q|] eqn:E.
    + exists q. split; [reflexivity|]. specialize (W2 _ _ E). rewrite Z2Nat.id in W2 by lia. exact W2.
    + apply nth_error_None in E. lia.
  - apply Forall_forall. intros row I. apply in_map_iff in I as (m & <- & I). apply in_seq in I.
    destruct (byteWindow_ok dp m L HR ltac:(lia)) as [W1 W2]. split; [exact W1|].
    apply Forall_forall. intros q Iq. apply In_nth_error in Iq as [k K]. eapply represents_words, W2, K.
Qed.
End Gen.

Lemma flat_map_map {A C D} (f : C -> list D) (g : A -> C) l : flat_map (fun x => f (g x)) l = flat_map f (map g l).
Proof. induction l as [|x l IH]; cbn [flat_map map]; [reflexivity|rewrite IH; reflexivity]. Qed.

Lemma doubling_ok B : on_curve B -> exists dp, getDoublingPoints B = Ok dp /\ length dp = 256%nat /\ reps B 0 dp.
Proof.
  intros HB. pose proof HB as (H1 & H2 & _). pose proof P_256 as PP.
  destruct (toField (fst B) (snd B)) as (fx & fy & E & R1 & R2 & _);
    [split; [apply H1|eapply Z.lt_trans; [apply H1|exact PP]]|split; [apply H2|eapply Z.lt_trans; [apply H2|exact PP]]|].
  exists (doublings (Z.to_nat curveBitSize) (fx, fy, fSetInt 1)). unfold getDoublingPoints. rewrite E. cbn [bind]. split; [reflexivity|].
  split; [apply doublings_length|]. apply doublings_reps; [right; exact HB|lia|].
  rewrite Z.pow_0_r, smul_1. apply jr_represents; [right; exact HB|]. apply jr_affine; [exact HB|exact R1|exact R2|apply nrep_frep, nrep_1].
Qed.

Lemma serialize_load B : on_curve B -> exists dp t, getDoublingPoints B = Ok dp /\ table_ok t B /\
  forall rest, getTable 32 (serializeWindows dp ++ rest) = Ok (t, rest).
Proof.
  intros HB. destruct (doubling_ok B HB) as (dp & E & L & HR).
  destruct (windows_table B (or_intror HB) dp L HR) as [T F].
  exists dp, (map (byteWindow dp) (seq 0 32)). split; [exact E|]. split; [exact T|]. intros rest.
  unfold serializeWindows. change (Z.to_nat byteSize) with 32%nat. rewrite (flat_map_map (flat_map putPoint) (byteWindow dp)).
  pose proof (getTable_put _ rest F) as X. rewrite map_length, seq_length in X. exact X.
Qed.

(** ** the second base point *)
Lemma parse_tables t tH t' tH' s : ParsePubKey (S256 t tH) s = ParsePubKey (S256 t' tH') s.
Proof. reflexivity. Qed.
Lemma genH_Htab : genH sha256 = Ok (Val Htab).
Proof.
  assert (HS : 2 :: sha256 (bigBytes (curveGx + 2)) = (if Z.odd (snd Htab) then 3 else 2) :: be_bytes 32 (fst Htab))
    by (vm_compute; reflexivity).
  unfold genH. rewrite HS.
  pose proof (S256_ok _ _ (mkTable_ok G is_point_G) (mkTable_ok Htab is_point_Htab)) as C.
  rewrite (parse_tables [] [] (mkTable G) (mkTable Htab)). exact (parse_C _ C Htab Htab_on_curve).
Qed.

(** ** sqrt *)
Lemma sqrtLoop_S m n g : 0 < g -> sqrtLoop (S m) n g =
  if (g + n / g) / 2 =? g then Ok (Some ((g + n / g) / 2)) else sqrtLoop m n ((g + n / g) / 2).
Proof. intros H. cbn [sqrtLoop]. unfold bigDivE. destruct (Z.eqb_spec g 0) as [E|_]; [lia|]. reflexivity. Qed.
Lemma next_pos n g : 1 <= n -> 0 < g -> 0 < (g + n / g) / 2.
Proof.
  intros Hn Hg. apply Z.div_str_pos. split; [lia|]. destruct (Z.eq_dec g 1) as [->|NE]; [rewrite Z.div_1_r; lia|].
  pose proof (Z.div_pos n g). lia.
Qed.
Lemma sqrtLoop_correct fuel : forall n g r, 1 <= n -> 0 < g -> sqrtLoop fuel n g = Ok (Some r) -> r ^ 2 <= n < (r + 1) ^ 2.
Proof.
  induction fuel as [|m IH]; intros n g r Hn Hg H; [discriminate H|]. rewrite sqrtLoop_S in H by exact Hg.
  destruct (Z.eqb_spec ((g + n / g) / 2) g) as [E|NE].
  - injection H as <-. rewrite E.
    assert (D : 2 * g <= g + n / g < 2 * g + 2) by (pose proof (Z.div_mod (g + n / g) 2); pose proof (Z.mod_pos_bound (g + n / g) 2); lia).
    pose proof (Z.div_mod n g ltac:(lia)) as M. pose proof (Z.mod_pos_bound n g Hg) as MB. set (d := n / g) in *. nia.
  - apply IH with (g := (g + n / g) / 2); [exact Hn|apply next_pos; assumption|exact H].
Qed.
Lemma sqrtLoop_ok fuel : forall n g, 1 <= n -> 0 < g -> exists o, sqrtLoop fuel n g = Ok o.
Proof.
  induction fuel as [|m IH]; intros n g Hn Hg; [exists None; reflexivity|]. rewrite sqrtLoop_S by exact Hg.
  destruct (_ =? g); [eauto|]. apply IH; [exact Hn|apply next_pos; assumption].
Qed.
Lemma am_gm n s g : 0 < g -> s ^ 2 <= n -> 2 * s <= g + n / g.
Proof.
  intros Hg Hs. assert (2 * s - g <= n / g); [|lia]. apply Z.div_le_lower_bound; [exact Hg|].
  transitivity (s ^ 2); [|exact Hs]. pose proof (Z.square_nonneg (s - g)). lia.
Qed.
Lemma sqrtLoop_end fuel : forall n s g, 1 <= n -> s ^ 2 <= n < (s + 1) ^ 2 -> n <> (s + 1) ^ 2 - 1 -> 0 < s -> s <= g ->
  (Z.to_nat (g - s) < fuel)%nat -> sqrtLoop fuel n g = Ok (Some s).
Proof.
  induction fuel as [|m IH]; intros n s g Hn Hs NS Ps Hg F; [lia|]. rewrite sqrtLoop_S by lia.
  pose proof (Z.div_mod n g ltac:(lia)) as M. pose proof (Z.mod_pos_bound n g ltac:(lia)) as MB.
  pose proof (am_gm n s g ltac:(lia) (proj1 Hs)) as A.
  assert (L : s <= (g + n / g) / 2) by (apply Z.div_le_lower_bound; lia).
  destruct (Z.eq_dec g s) as [->|NE].
  - assert (D : n / s <= s + 1). { set (d := n / s) in *. nia. }
    assert (X : (s + n / s) / 2 = s). { apply Z.le_antisymm; [|exact L]. apply Z.lt_succ_r. apply Z.div_lt_upper_bound; lia. }
    rewrite X, Z.eqb_refl. reflexivity.
  - assert (D : n / g < g). { apply Z.div_lt_upper_bound; nia. }
    assert (X : (g + n / g) / 2 < g) by (apply Z.div_lt_upper_bound; lia).
    destruct (Z.eqb_spec ((g + n / g) / 2) g) as [E|_]; [lia|]. apply IH; try assumption. lia.
Qed.
Lemma guess_pos n : 0 < 2 ^ (bigBitLen n / 2).
Proof.
  apply Z.pow_pos_nonneg; [lia|]. apply Z.div_pos; [|lia]. unfold bigBitLen. destruct (n =? 0); [lia|].
  pose proof (Z.log2_nonneg (Z.abs n)). lia.
Qed.
Lemma sqrt_correct fuel n r : 1 <= n -> sqrt fuel n = Ok (Some r) -> r ^ 2 <= n < (r + 1) ^ 2.
Proof. intros Hn. apply sqrtLoop_correct; [exact Hn|apply guess_pos]. Qed.
Lemma sqrt_total fuel n : 1 <= n -> exists o, sqrt fuel n = Ok o.
Proof. intros Hn. apply sqrtLoop_ok; [exact Hn|apply guess_pos]. Qed.
Lemma isqrt_ex n : 1 <= n -> exists s, 0 < s /\ s ^ 2 <= n < (s + 1) ^ 2.
Proof.
  intros Hn. exists (Z.sqrt n). pose proof (Z.sqrt_spec n ltac:(lia)) as H. unfold Z.succ in H.
  split; [apply Z.sqrt_pos; lia|]. rewrite !Z.pow_2_r. exact H.
Qed.
Lemma sqrt_end n : 1 <= n -> (forall k, k ^ 2 <> n + 1) -> exists s fuel0, forall fuel, (fuel0 <= fuel)%nat -> sqrt fuel n = Ok (Some s).
Proof.
  intros Hn NS. destruct (isqrt_ex n Hn) as (s & Ps & Hs). exists s.
  set (g := 2 ^ (bigBitLen n / 2)). set (g' := (g + n / g) / 2).
  exists (S (S (Z.to_nat (g' - s)))). intros fuel F. destruct fuel as [|fuel]; [lia|].
  assert (NS' : n <> (s + 1) ^ 2 - 1) by (intros E; apply (NS (s + 1)); lia).
  assert (Pg : 0 < g) by apply guess_pos.
  assert (L : s <= g').
  { apply Z.div_le_lower_bound; [lia|]. apply am_gm; [exact Pg|apply Hs]. }
  unfold sqrt. fold g. rewrite sqrtLoop_S by exact Pg. fold g'.
  destruct (Z.eqb_spec g' g) as [E|_].
  - assert (X : sqrtLoop (S fuel) n g = Ok (Some g')) by (rewrite sqrtLoop_S by exact Pg; fold g'; rewrite E, Z.eqb_refl; reflexivity).
    rewrite <- E in X at 1. rewrite (sqrtLoop_end (S fuel) n s g') in X; try assumption; [|lia]. injection X as ->. reflexivity.
  - apply sqrtLoop_end; try assumption. lia.
Qed.
Lemma sqrt_diverges fuel n k : 1 <= n -> k ^ 2 = n + 1 -> sqrt fuel n = Ok None.
Proof.
  intros Hn HK. destruct (sqrt_total fuel n Hn) as [[r|] E]; [|exact E]. exfalso.
  unfold sqrt in E. revert E. generalize (guess_pos n). generalize (2 ^ (bigBitLen n / 2)).
  induction fuel as [|m IH]; intros g Pg E; [discriminate E|].
  pose proof (sqrtLoop_correct _ _ _ _ Hn Pg E) as C. rewrite sqrtLoop_S in E by exact Pg.
  destruct (Z.eqb_spec ((g + n / g) / 2) g) as [X|NX]; [|apply (IH _ (next_pos n g Hn Pg) E)].
  injection E as E. assert (r = g) by congruence. subst r. rewrite X in C.
  assert (Hk : Z.abs k = g + 1). { rewrite (Z.pow_even_abs k 2) in HK by (exists 1; reflexivity). nia. }
  assert (n = g * (g + 2)) by (rewrite (Z.pow_even_abs k 2) in HK by (exists 1; reflexivity); rewrite Hk in HK; nia).
  subst n. rewrite Z.mul_comm, Z.div_mul in X by lia. replace (g + (g + 2)) with ((g + 1) * 2) in X by lia. rewrite Z.div_mul in X by lia. lia.
Qed.
Lemma sqrt_zero fuel : (2 <= fuel)%nat -> sqrt fuel 0 = Panic.
Proof. destruct fuel as [|[|f]]; [lia|lia|]. intros _. reflexivity. Qed.

(** ** EndomorphismVectors *)
Lemma evLoop_kernel fuel N lambda ns : forall s a1 b1 a2 b2,
  eU s = eX1 s * N + eY1 s * lambda -> eV s = eX2 s * N + eY2 s * lambda ->
  (N | eRi s - eTi s * lambda) -> (N | eA1 s + eB1 s * lambda) -> (N | eA2 s + eB2 s * lambda) ->
  evLoop fuel ns s = Some (a1, b1, a2, b2) -> (N | a1 + b1 * lambda) /\ (N | a2 + b2 * lambda).
Proof.
  induction fuel as [|m IH]; intros s a1 b1 a2 b2 HU HV HR H1 H2; cbn [evLoop].
  - destruct (eU s =? 0); [|discriminate]. intros [= <- <- <- <-]. auto.
  - destruct (eU s =? 0); [intros [= <- <- <- <-]; auto|].
    set (q := eV s / eU s).
    assert (HN : (N | (eV s - q * eU s) - (eY2 s - q * eY1 s) * lambda)).
    { exists (eX2 s - q * eX1 s). rewrite HU, HV. ring. }
    assert (HN' : (N | (eV s - q * eU s) + - (eY2 s - q * eY1 s) * lambda)).
    { destruct HN as [x X]. exists x. rewrite <- X. ring. }
    assert (HN2 : eV s - q * eU s = (eX2 s - q * eX1 s) * N + (eY2 s - q * eY1 s) * lambda) by (rewrite HU, HV; ring).
    assert (HR' : (N | eRi s + - eTi s * lambda)).
    { destruct HR as [x X]. exists x. rewrite <- X. ring. }
    destruct (negb (eFound s) && _).
    + apply IH; cbn [eU eV eX1 eX2 eY1 eY2 eRi eTi eFound eOneMore eA1 eB1 eA2 eB2]; assumption.
    + destruct (eOneMore s).
      * destruct (_ <=? _); intros [= <- <- <- <-]; auto.
      * apply IH; cbn [eU eV eX1 eX2 eY1 eY2 eRi eTi eFound eOneMore eA1 eB1 eA2 eB2]; assumption.
Qed.
Lemma ev_kernel fuel N lambda a1 b1 a2 b2 : EndomorphismVectors fuel N lambda = Ok (Some (a1, b1, a2, b2)) ->
  (N | a1 + b1 * lambda) /\ (N | a2 + b2 * lambda).
Proof.
  unfold EndomorphismVectors. destruct (sqrt fuel N) as [[ns|]|]; cbn [bind]; try discriminate.
  intros H. injection H as H. revert H. apply evLoop_kernel; cbn [eU eV eX1 eX2 eY1 eY2 eRi eTi eFound eOneMore eA1 eB1 eA2 eB2];
    solve [ring | exists 0; ring].
Qed.
Lemma sqrtLoop_mono f : forall f' n g r, (f <= f')%nat -> sqrtLoop f n g = Ok (Some r) -> sqrtLoop f' n g = Ok (Some r).
Proof.
  induction f as [|f IH]; intros [|f'] n g r L H; try discriminate H; [lia|]. cbn [sqrtLoop] in *.
  destruct (bigDivE n g) as [d|]; [|discriminate H]. cbn [bind] in *. destruct (_ =? g); [exact H|]. apply IH; [lia|exact H].
Qed.
Lemma evLoop_mono ns f : forall f' s r, (f <= f')%nat -> evLoop f ns s = Some r -> evLoop f' ns s = Some r.
Proof.
  induction f as [|f IH]; intros [|f'] s r L H; cbn [evLoop] in *; destruct (eU s =? 0); try discriminate H; try exact H; [lia|].
  destruct (negb (eFound s) && _); [apply IH; [lia|exact H]|]. destruct (eOneMore s); [exact H|]. apply IH; [lia|exact H].
Qed.
Lemma ev_mono f f' N l r : (f <= f')%nat -> EndomorphismVectors f N l = Ok (Some r) -> EndomorphismVectors f' N l = Ok (Some r).
Proof.
  intros L. unfold EndomorphismVectors. destruct (sqrt f N) as [[ns|]|] eqn:E; cbn [bind]; try discriminate.
  unfold sqrt in *. rewrite (sqrtLoop_mono f f' _ _ _ L E). cbn [bind]. intros H. injection H as H. f_equal. revert H. apply evLoop_mono, L.
Qed.
Lemma ev_secp : EndomorphismVectors 200 curveN curveLambda = Ok (Some (curveA1, curveB1, curveA2, curveB2)).
Proof. vm_compute. reflexivity. Qed.

(** ** the loader on arbitrary bytes *)
Lemma getUint32_len s : match getUint32 s with Ok (_, r) => blen s = 4 + blen r | Panic => blen s < 4 end.
Proof. unfold blen. destruct s as [|a [|b [|c [|d r]]]]; cbn [getUint32 length]; lia. Qed.
Lemma getWords_len n : forall s, match getWords n s with
  | Ok (_, r) => blen s = 4 * Z.of_nat n + blen r | Panic => blen s < 4 * Z.of_nat n end.
Proof.
  induction n as [|n IH]; intros s; cbn [getWords]; [lia|]. pose proof (getUint32_len s) as H.
  destruct (getUint32 s) as [[w r]|]; cbn [bind]; [|unfold blen in *; lia]. specialize (IH r).
  destruct (getWords n r) as [[ws r']|]; cbn [bind]; lia.
Qed.
Lemma getField_len s : match getField s with Ok (_, r) => blen s = 40 + blen r | Panic => blen s < 40 end.
Proof. unfold getField. pose proof (getWords_len 10 s) as H. destruct (getWords 10 s) as [[w r]|]; cbn [bind]; lia. Qed.
Lemma blen_nn (s : list Z) : 0 <= blen s. Proof. unfold blen. lia. Qed.
Lemma getPoint_len s : match getPoint s with Ok (_, r) => blen s = 120 + blen r | Panic => blen s < 120 end.
Proof.
  unfold getPoint. pose proof (getField_len s) as H. destruct (getField s) as [[x r]|]; cbn [bind]; [|lia].
  pose proof (getField_len r) as H1. destruct (getField r) as [[y r1]|]; cbn [bind]; [|lia].
  pose proof (getField_len r1) as H2. destruct (getField r1) as [[z r2]|]; cbn [bind]; lia.
Qed.
Lemma getWindow_len n : forall s, match getWindow n s with
  | Ok (_, r) => blen s = 120 * Z.of_nat n + blen r | Panic => blen s < 120 * Z.of_nat n end.
Proof.
  induction n as [|n IH]; intros s; cbn [getWindow]; [lia|]. pose proof (getPoint_len s) as H.
  destruct (getPoint s) as [[w r]|]; cbn [bind]; [|lia]. specialize (IH r).
  destruct (getWindow n r) as [[ws r']|]; cbn [bind]; lia.
Qed.
Lemma getTable_len n : forall s, match getTable n s with
  | Ok (_, r) => blen s = 30720 * Z.of_nat n + blen r | Panic => blen s < 30720 * Z.of_nat n end.
Proof.
  induction n as [|n IH]; intros s; [cbn [getTable]; lia|]. rewrite getTable_S. pose proof (getWindow_len 256 s) as H.
  destruct (getWindow 256 s) as [[w r]|]; cbn [bind]; [|lia]. specialize (IH r).
  destruct (getTable n r) as [[ws r']|]; cbn [bind]; lia.
Qed.
Lemma load_panics decode bp bytes : bp <> [] -> decode bp = Some bytes ->
  (loadBytePoints decode bp = Panic <-> blen bytes < 983040).
Proof.
  intros NE D. unfold loadBytePoints. destruct bp as [|c bp]; [congruence|]. rewrite D.
  pose proof (getTable_len 32 bytes) as H. destruct (getTable 32 bytes) as [[t r]|]; cbn [bind].
  - split; [discriminate|]. pose proof (blen_nn r). lia.
  - split; [lia|reflexivity].
Qed.

Lemma load_generated decode bp B bytes : on_curve B -> bp <> [] ->
  bind (getDoublingPoints B) (fun dp => Ok (serializeWindows dp)) = Ok bytes -> decode bp = Some bytes ->
  exists t, loadBytePoints decode bp = Ok (Loaded (Some t)) /\ table_ok t B.
Proof.
  intros HB NE E D. destruct (serialize_load B HB) as (dp & t & E1 & T & L). rewrite E1 in E. cbn [bind] in E. injection E as <-.
  exists t. split; [|exact T]. unfold loadBytePoints. destruct bp as [|c bp]; [congruence|]. rewrite D.
  specialize (L []). rewrite app_nil_r in L. rewrite L. reflexivity.
Qed.
Lemma gen_total B : on_curve B -> exists bytes, bind (getDoublingPoints B) (fun dp => Ok (serializeWindows dp)) = Ok bytes /\ blen bytes = 983040.
Proof.
  intros HB. destruct (serialize_load B HB) as (dp & t & E1 & T & L). exists (serializeWindows dp). rewrite E1. cbn [bind]. split; [reflexivity|].
  pose proof (getTable_len 32 (serializeWindows dp)) as H. specialize (L []). rewrite app_nil_r in L. rewrite L in H. exact H.
Qed.
Lemma SBP_eq : SerializedBytePoints = bind (getDoublingPoints G) (fun dp => Ok (serializeWindows dp)).
Proof. reflexivity. Qed.
Lemma SBPH_eq : SerializedBytePointsH sha256 = bind (getDoublingPoints Htab) (fun dp => Ok (serializeWindows dp)).
Proof. unfold SerializedBytePointsH, getDoublingPointsH. rewrite genH_Htab. reflexivity. Qed.
Lemma empty_mult k : k <> [] -> blen k <= 32 -> scalarTableMult [] k = Panic.
Proof.
  intros NE L. unfold scalarTableMult, moduloReduce. change byteSize with 32.
  destruct (Z.ltb_spec 32 (blen k)); [lia|]. destruct k as [|b k]; [congruence|]. cbn [sbmLoop]. unfold lookup.
  destruct (32 - length (b :: k))%nat; reflexivity.
Qed.
