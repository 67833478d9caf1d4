(** * Proofs about texts *)
From Coq Require Import String Ascii ZArith List Bool Lia.
From Verif Require Import Spec Go Wire Big CodecProofs Field SpecField FieldProofs Koblitz Precompute Text SpecText.
Import ListNotations.
Open Scope Z_scope.

(** ** digits *)
Lemma digitOf_val c v : digitOf c v -> hexVal c = Some (Z.of_nat v) /\ (v < 16)%nat.
Proof.
  intros H. assert (L : (v < 16)%nat).
  { destruct H as [H|H]; apply (f_equal (fun o => match o with Some _ => true | None => false end)) in H;
      destruct (Nat.lt_ge_cases v 16) as [L|L]; try exact L; rewrite (proj2 (nth_error_None _ _)) in H by exact L; discriminate H. }
  split; [|exact L].
  do 16 (destruct v as [|v]; [destruct H as [H|H]; cbn in H; injection H as <-; reflexivity|]). lia.
Qed.
Lemma val_digitOf c v : hexVal c = Some v -> 0 <= v < 16 /\ digitOf c (Z.to_nat v).
Proof.
  unfold hexVal. destruct ((48 <=? c) && (c <=? 57)) eqn:E1; [|destruct ((97 <=? c) && (c <=? 102)) eqn:E2; [|destruct ((65 <=? c) && (c <=? 70)) eqn:E3; [|discriminate]]];
    match goal with E : _ && _ = true |- _ => apply andb_prop in E; destruct E as [A B]; apply Z.leb_le in A, B end; intros E; injection E as <-.
  - split; [lia|left]. assert (D : c = 48 \/ c = 49 \/ c = 50 \/ c = 51 \/ c = 52 \/ c = 53 \/ c = 54 \/ c = 55 \/ c = 56 \/ c = 57) by lia.
    repeat (destruct D as [-> |D]; [reflexivity|]). subst. reflexivity.
  - split; [lia|left]. assert (D : c = 97 \/ c = 98 \/ c = 99 \/ c = 100 \/ c = 101 \/ c = 102) by lia.
    repeat (destruct D as [-> |D]; [reflexivity|]). subst. reflexivity.
  - split; [lia|right]. assert (D : c = 65 \/ c = 66 \/ c = 67 \/ c = 68 \/ c = 69 \/ c = 70) by lia.
    repeat (destruct D as [-> |D]; [reflexivity|]). subst. reflexivity.
Qed.
Lemma hexVal_digit v : 0 <= v < 16 -> hexVal (hexDigit v) = Some v.
Proof.
  intros H. assert (D : v = 0 \/ v = 1 \/ v = 2 \/ v = 3 \/ v = 4 \/ v = 5 \/ v = 6 \/ v = 7 \/ v = 8 \/ v = 9 \/ v = 10 \/ v = 11 \/ v = 12 \/ v = 13 \/ v = 14 \/ v = 15) by lia.
  repeat (destruct D as [-> |D]; [reflexivity|]). subst. reflexivity.
Qed.
(** ** numerals *)
Definition hval (acc : Z) (vs : list nat) : Z := fold_left (fun a v => 16 * a + Z.of_nat v) vs acc.
Lemma number_reads s : forall acc n, hexNumber acc s = Some n <-> exists vs, Forall2 digitOf s vs /\ n = hval acc vs.
Proof.
  induction s as [|c s IH]; intros acc n; cbn [hexNumber].
  - split.
    + intros E. injection E as <-. exists []. split; [constructor|reflexivity].
    + intros (vs & F & ->). inversion F; subst. reflexivity.
  - split.
    + destruct (hexVal c) as [v|] eqn:E; [|discriminate]. intros H. apply IH in H. destruct H as (vs & F & ->). apply val_digitOf in E. destruct E as [R D].
      exists (Z.to_nat v :: vs). split; [constructor; assumption|]. unfold hval. cbn [fold_left]. rewrite Z2Nat.id by lia. reflexivity.
    + intros (vs & F & ->). inversion F as [|? v ? vs' D F']; subst. destruct (digitOf_val c v D) as [-> _]. apply IH. exists vs'. split; [exact F'|reflexivity].
Qed.
Lemma digits_reads s n : hexDigits s = Some n <-> s <> [] /\ reads s n.
Proof.
  unfold hexDigits, reads. destruct s as [|c s].
  - split; [discriminate|]. intros [H _]. congruence.
  - rewrite number_reads. split; [intros H; split; [discriminate|exact H]|intros [_ H]; exact H].
Qed.
Lemma not_sign c v : digitOf c v -> c <> 45 /\ c <> 43.
Proof. intros H. apply digitOf_val in H. destruct H as [H _]. split; intros ->; discriminate H. Qed.
Lemma bigSetHex_reads s n : bigSetHex s = Some n <-> readsSigned s n.
Proof.
  unfold readsSigned. destruct (Z.eq_dec (hd 0 s) 45) as [E45|N45].
  - destruct s as [|c r]; [discriminate E45|]. cbn [hd] in E45. subst c. cbn [bigSetHex].
    destruct (hexDigits r) as [v|] eqn:E.
    + apply digits_reads in E. split.
      * intros H. injection H as <-. right. left. exists r, v. split; [reflexivity|]. split; [apply E|]. split; [apply E|reflexivity].
      * intros [[_ (vs & F & _)]|[(r' & v' & E' & NE & R & ->)|(r' & E' & _)]].
        -- inversion F as [|? w ? ? D _]; subst. apply not_sign in D. lia.
        -- injection E' as <-. pose proof (proj2 (digits_reads r v') (conj NE R)) as E2. pose proof (proj2 (digits_reads r v) E) as E3. congruence.
        -- discriminate E'.
    + split; [discriminate|]. intros [[_ (vs & F & _)]|[(r' & v' & E' & NE & R & ->)|(r' & E' & _)]].
      * inversion F as [|? w ? ? D _]; subst. apply not_sign in D. lia.
      * injection E' as <-. pose proof (proj2 (digits_reads r v') (conj NE R)). congruence.
      * discriminate E'.
  - destruct (Z.eq_dec (hd 0 s) 43) as [E43|N43].
    + destruct s as [|c r]; [discriminate E43|]. cbn [hd] in E43. subst c. cbn [bigSetHex]. rewrite digits_reads. split.
      * intros [NE R]. right. right. exists r. split; [reflexivity|]. split; assumption.
      * intros [[_ (vs & F & _)]|[(r' & v' & E' & _)|(r' & E' & NE & R)]].
        -- inversion F as [|? w ? ? D _]; subst. apply not_sign in D. lia.
        -- discriminate E'.
        -- injection E' as <-. split; assumption.
    + assert (B : bigSetHex s = hexDigits s).
      { destruct s as [|c r]; [reflexivity|]. cbn [hd] in N45, N43. unfold bigSetHex.
        destruct c as [|p|p]; try reflexivity. do 6 (destruct p as [p|p|]; try reflexivity); congruence. }
      rewrite B, digits_reads. split; [intros H; left; exact H|].
      intros [H|[(r' & v' & E' & _)|(r' & E' & _)]]; [exact H| |]; subst s; cbn in N45, N43; congruence.
Qed.

(** ** hex.DecodeString, hex.EncodeToString *)
Lemma decode_reads : forall k s vs, (length s = 2 * k)%nat -> Forall2 digitOf s vs ->
  exists bs, hexDecode s = (bs, true) /\ length bs = k /\ bytes_ok bs /\ forall acc, hval acc vs = acc * 256 ^ Z.of_nat k + beval bs.
Proof.
  induction k as [|k IH]; intros s vs L F.
  - destruct s; [|discriminate L]. inversion F; subst. exists []. split; [reflexivity|]. split; [reflexivity|]. split; [constructor|].
    intros acc. unfold hval. cbn [fold_left]. rewrite beval_nil. change (256 ^ Z.of_nat 0) with 1. lia.
  - destruct s as [|a [|b s]]; try (cbn [length] in L; lia). inversion F as [|? va ? vs1 Da F1]; subst. inversion F1 as [|? vb ? vs2 Db F2]; subst.
    destruct (IH s vs2 ltac:(cbn [length] in L; lia) F2) as (bs & E & Lb & B & V). destruct (digitOf_val a va Da) as [Ea Ra]. destruct (digitOf_val b vb Db) as [Eb Rb].
    exists (16 * Z.of_nat va + Z.of_nat vb :: bs). cbn [hexDecode]. rewrite Ea, Eb, E. split; [reflexivity|]. split; [cbn [length]; lia|].
    split; [constructor; [unfold is_byte; lia|exact B]|]. intros acc. unfold hval in *. cbn [fold_left]. rewrite V, beval_cons. unfold blen. rewrite Lb, Nat2Z.inj_succ, Z.pow_succ_r by lia. ring.
Qed.
Lemma setHex_reads s n : reads s n ->
  ((length s <= 64)%nat -> exists f, fSetHex s = Ok f /\ val f = n /\ fits 1 f) /\ ((64 < length s)%nat -> fSetHex s = Panic).
Proof.
  intros (vs & F & ->).
  assert (P : exists k s' vs', (length s' = 2 * k)%nat /\ Forall2 digitOf s' vs' /\ hval 0 vs' = hval 0 vs /\ fSetHex s = (let '(bs, _) := hexDecode s' in fSetByteSlice bs) /\ (2 * k = length s \/ 2 * k = S (length s))%nat).
  { unfold fSetHex. destruct (Nat.odd (length s)) eqn:O.
    - apply Nat.odd_spec in O. destruct O as (k & O). exists (S k), (48 :: s), (0%nat :: vs). split; [cbn [length]; lia|]. split; [constructor; [left; reflexivity|exact F]|].
      split; [reflexivity|]. split; [reflexivity|lia].
    - apply (f_equal negb) in O. rewrite Nat.negb_odd in O. cbn in O. apply Nat.even_spec in O. destruct O as (k & O). exists k, s, vs. repeat split; [exact O|exact F|lia]. }
  destruct P as (k & s' & vs' & L & F' & V & E & C). destruct (decode_reads k s' vs' L F') as (bs & D & Lb & B & V'). rewrite D in E. rewrite E. clear E.
  destruct (setByteSlice_ok bs B) as [S1 S2]. unfold blen in S1, S2. split; intros H.
  - destruct S1 as (f & E & Ev & Ef); [lia|]. exists f. split; [exact E|]. split; [|exact Ef]. rewrite Ev. change (fold_left _ vs 0) with (hval 0 vs). rewrite <- V, V'. lia.
  - apply S2. lia.
Qed.
Lemma encode_reads bs : bytes_ok bs -> exists vs, Forall2 digitOf (hexEncode bs) vs /\ length (hexEncode bs) = (2 * length bs)%nat /\ forall acc, hval acc vs = acc * 256 ^ blen bs + beval bs.
Proof.
  induction bs as [|b bs IH]; intros B.
  - exists []. split; [constructor|]. split; [reflexivity|]. intros acc. unfold hval. cbn [fold_left]. rewrite beval_nil. change (256 ^ blen []) with 1. lia.
  - pose proof (Forall_inv B) as Hb. destruct (IH (Forall_inv_tail B)) as (vs & F & L & V). unfold is_byte in Hb.
    assert (H1 : 0 <= b / 16 < 16) by (split; [apply Z.div_pos; lia|apply Z.div_lt_upper_bound; lia]). pose proof (Z.mod_pos_bound b 16 eq_refl) as H2.
    exists (Z.to_nat (b / 16) :: Z.to_nat (b mod 16) :: vs). cbn [hexEncode flat_map]. split.
    + constructor; [apply val_digitOf, hexVal_digit, H1|]. constructor; [apply val_digitOf, hexVal_digit, H2|exact F].
    + split; [cbn [app length]; unfold hexEncode in L; rewrite L; lia|]. intros acc. unfold hval in *. cbn [fold_left]. rewrite V, beval_cons, !Z2Nat.id by lia.
      pose proof (Z.div_mod b 16 ltac:(lia)) as E. unfold blen. cbn [length]. rewrite Nat2Z.inj_succ, Z.pow_succ_r by lia.
      rewrite E at 3. ring.
Qed.
Lemma decode_encode bs : bytes_ok bs -> hexDecode (hexEncode bs) = (bs, true).
Proof.
  induction bs as [|b bs IH]; intros B; [reflexivity|]. pose proof (Forall_inv B) as Hb. unfold is_byte in Hb.
  cbn [hexEncode flat_map app hexDecode]. fold (hexEncode bs). rewrite !hexVal_digit, IH.
  - f_equal. f_equal. symmetry. apply Z.div_mod. discriminate.
  - exact (Forall_inv_tail B).
  - apply Z.mod_pos_bound. reflexivity.
  - split; [apply Z.div_pos; lia|apply Z.div_lt_upper_bound; lia].
Qed.
Lemma string_ok k f : 0 <= k <= 63 -> fits k f -> length (fString f) = 64%nat /\ reads (fString f) (val f mod P) /\ fSetHex (fString f) = Ok (fNormalize f).
Proof.
  intros K F. destruct (normalize_ok k f K F) as [C V]. destruct (bytes_setBytes _ C) as (L & B & EV & S). unfold fString.
  destruct (encode_reads _ B) as (vs & F2 & L2 & V2). rewrite L in L2. split; [exact L2|]. split.
  - exists vs. split; [exact F2|]. change (fold_left _ vs 0) with (hval 0 vs). rewrite V2, EV, V. lia.
  - unfold fSetHex. rewrite L2. cbn [Nat.mul Nat.odd Nat.even negb plus]. rewrite decode_encode by exact B. unfold fSetByteSlice, blen. rewrite L. cbn [Z.of_nat].
    change (32 <? _) with false. cbv iota. rewrite <- L. rewrite Nat.sub_diag. cbn [repeat app]. rewrite S. reflexivity.
Qed.
Lemma decode_stops : forall k a vs, (length a = 2 * k)%nat -> Forall2 digitOf a vs -> forall x y r, hexVal x = None \/ hexVal y = None ->
  fst (hexDecode (a ++ x :: y :: r)) = fst (hexDecode a).
Proof.
  induction k as [|k IH]; intros a vs L F x y r H.
  - destruct a; [|discriminate L]. cbn [app hexDecode]. destruct H as [-> | ->]; [reflexivity|]. destruct (hexVal x); reflexivity.
  - destruct a as [|p [|q a]]; try (cbn [length] in L; lia). inversion F as [|? va ? vs1 Da F1]; subst. inversion F1 as [|? vb ? vs2 Db F2]; subst.
    cbn [app hexDecode]. destruct (digitOf_val p va Da) as [-> _]. destruct (digitOf_val q vb Db) as [-> _].
    specialize (IH a vs2 ltac:(cbn [length] in L; lia) F2 x y r H). destruct (hexDecode (a ++ x :: y :: r)), (hexDecode a). cbn [fst] in *. rewrite IH. reflexivity.
Qed.
Lemma not_digit x : (forall v, ~ digitOf x v) -> hexVal x = None.
Proof. intros H. destruct (hexVal x) as [v|] eqn:E; [|reflexivity]. apply val_digitOf in E. destruct E as [_ E]. elim (H _ E). Qed.
Lemma setHex_stops a n x y r : reads a n -> Nat.even (length a) = true -> Nat.even (length r) = true -> (forall v, ~ digitOf x v) \/ (forall v, ~ digitOf y v) ->
  fSetHex (a ++ x :: y :: r) = fSetHex a.
Proof.
  intros (vs & F & _) A R H. apply Nat.even_spec in A. destruct A as (k & A). unfold fSetHex. rewrite <- !Nat.negb_even. rewrite app_length. cbn [length].
  replace (Nat.even (length a + S (S (length r)))) with true; [replace (Nat.even (length a)) with true|].
  - cbn [negb]. pose proof (decode_stops k a vs A F x y r) as S.
    destruct (hexDecode (a ++ x :: y :: r)), (hexDecode a). cbn [fst] in S. rewrite S; [reflexivity|]. destruct H as [H|H]; [left|right]; apply not_digit, H.
  - symmetry. apply Nat.even_spec. exists k. exact A.
  - symmetry. apply Nat.even_spec. apply Nat.even_spec in R. destruct R as (j & R). exists (k + j + 1)%nat. lia.
Qed.

(** ** %x *)
Lemma hexRev_ok fuel : forall n, 0 <= n < 16 ^ Z.of_nat fuel -> (0 < fuel)%nat ->
  exists vs, Forall2 digitOf (rev (hexRev fuel n)) vs /\ hval 0 vs = n /\ rev (hexRev fuel n) <> [].
Proof.
  induction fuel as [|f IH]; intros n H L; [lia|]. cbn [hexRev]. destruct (Z.ltb_spec n 16) as [S|S].
  - exists [Z.to_nat n]. cbn [rev app]. split; [constructor; [apply val_digitOf, hexVal_digit; lia|constructor]|]. split; [|discriminate].
    unfold hval. cbn [fold_left]. lia.
  - pose proof (Z.mod_pos_bound n 16 eq_refl) as M.
    assert (D : 0 <= n / 16 < 16 ^ Z.of_nat f).
    { split; [apply Z.div_pos; lia|]. apply Z.div_lt_upper_bound; [lia|]. rewrite Nat2Z.inj_succ, Z.pow_succ_r in H by lia. lia. }
    destruct f as [|f']; [change (16 ^ Z.of_nat 0) with 1 in D; assert (1 <= n / 16) by (apply Z.div_le_lower_bound; lia); lia|].
    destruct (IH _ D ltac:(lia)) as (vs & F & V & _). exists (vs ++ [Z.to_nat (n mod 16)]). cbn [rev]. split; [|split].
    + apply Forall2_app; [exact F|]. constructor; [apply val_digitOf, hexVal_digit, M|constructor].
    + unfold hval in *. rewrite fold_left_app, V. cbn [fold_left]. rewrite Z2Nat.id by lia. symmetry. apply Z.div_mod. lia.
    + intros E. apply app_eq_nil in E. destruct E as [_ E]. discriminate E.
Qed.
Lemma bigHex_ok n : readsSigned (bigHex n) n.
Proof.
  unfold bigHex. destruct (hexRev_ok (Z.to_nat (Z.log2 (Z.abs n)) + 1) (Z.abs n)) as (vs & F & V & NE).
  - split; [lia|]. rewrite Nat2Z.inj_add, Z2Nat.id by apply Z.log2_nonneg. destruct (Z.eq_dec n 0) as [->|N]; [reflexivity|].
    pose proof (proj2 (Z.log2_spec (Z.abs n) ltac:(lia))) as H. eapply Z.lt_le_trans; [exact H|]. rewrite <- Z.add_1_r. change (Z.of_nat 1) with 1.
    apply Z.pow_le_mono_l. lia.
  - lia.
  - destruct (Z.ltb_spec n 0) as [L|L].
    + right. left. exists (rev (hexRev (Z.to_nat (Z.log2 (Z.abs n)) + 1) (Z.abs n))), (Z.abs n). split; [reflexivity|]. split; [exact NE|]. split; [exists vs; split; [exact F|symmetry; exact V]|lia].
    + left. split; [exact NE|]. exists vs. split; [exact F|]. change (n = hval 0 vs). rewrite V. lia.
Qed.
