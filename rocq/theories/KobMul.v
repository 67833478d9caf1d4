(** * Proofs about NAF, splitK, ScalarMult and the table multiplications of Koblitz.v *)
From Coq Require Import ZArith List Bool Lia Field.
From Verif Require Import Spec Go Wire Big CodecProofs Field SpecField FieldP FieldProofs NumTheory CurveZ CurveGroup Jac JacP
  EndoP Order Lambda Koblitz KobProofs.
From Verif Require ECGroup.
Import ListNotations.
Open Scope Z_scope.

(** ** splitK *)
Lemma det_N : curveA1 * curveB2 - curveA2 * curveB1 = N. Proof. reflexivity. Qed.
Lemma rel_2 : (curveA2 + curveB2 * lambda) mod N = 0. Proof. vm_compute. reflexivity. Qed.
Lemma rel_1 : (curveA1 + curveB1 * lambda) mod N = 0. Proof. exact lambda_rel. Qed.

Lemma mod0_mul a c : a mod N = 0 -> (c * a) mod N = 0.
Proof. intros H. rewrite Z.mul_mod, H by discriminate. rewrite Z.mul_0_r. reflexivity. Qed.
Lemma splitK_gen a1 b1 a2 b2 l n k c1 c2 : 0 < n -> (a1 + b1 * l) mod n = 0 -> (a2 + b2 * l) mod n = 0 ->
  (k - c1 * a1 + c2 * a2 + (c2 * b2 - c1 * b1) * l) mod n = k mod n.
Proof.
  intros Hn H1 H2. apply Z.mod_divide in H1; [|lia]. apply Z.mod_divide in H2; [|lia].
  destruct H1 as [u H1], H2 as [v H2].
  replace (k - c1 * a1 + c2 * a2 + (c2 * b2 - c1 * b1) * l) with (k + (c2 * v - c1 * u) * n); [apply Z.mod_add; lia|].
  replace (k - c1 * a1 + c2 * a2 + (c2 * b2 - c1 * b1) * l) with (k - c1 * (a1 + b1 * l) + c2 * (a2 + b2 * l)) by ring.
  rewrite H1, H2. ring.
Qed.
Lemma splitK_bound_gen a1 b1 a2 b2 n k : 0 < n -> a1 * b2 - a2 * b1 = n -> 0 < a1 -> 0 < a2 -> b1 < 0 -> 0 < b2 ->
  let c1 := b2 * k / n in let c2 := b1 * k / n in
  - a2 < k - c1 * a1 + c2 * a2 < a1 /\ b1 - b2 < c2 * b2 - c1 * b1 <= 0.
Proof.
  intros Hn HD H1 H2 H3 H4 c1 c2.
  pose proof (Z.div_mod (b2 * k) n ltac:(lia)) as E1. pose proof (Z.mod_pos_bound (b2 * k) n Hn) as B1.
  pose proof (Z.div_mod (b1 * k) n ltac:(lia)) as E2. pose proof (Z.mod_pos_bound (b1 * k) n Hn) as B2.
  fold c1 in E1. fold c2 in E2. set (r1 := (b2 * k) mod n) in *. set (r2 := (b1 * k) mod n) in *.
  clearbody c1 c2 r1 r2.
  assert (F1 : n * (k - c1 * a1 + c2 * a2) = a1 * r1 - a2 * r2).
  { assert (n * c1 = b2 * k - r1) by lia. assert (n * c2 = b1 * k - r2) by lia.
    replace (n * (k - c1 * a1 + c2 * a2)) with (n * k - a1 * (n * c1) + a2 * (n * c2)) by ring.
    rewrite H, H0, <- HD. ring. }
  assert (F2 : n * (c2 * b2 - c1 * b1) = b1 * r1 - b2 * r2).
  { assert (n * c1 = b2 * k - r1) by lia. assert (n * c2 = b1 * k - r2) by lia.
    replace (n * (c2 * b2 - c1 * b1)) with (b2 * (n * c2) - b1 * (n * c1)) by ring. rewrite H, H0. ring. }
  clear E1 E2 HD. set (K1 := k - c1 * a1 + c2 * a2) in *. set (K2 := c2 * b2 - c1 * b1) in *. clearbody K1 K2. nia.
Qed.
Lemma splitK_ok k : exists k1 k2, splitK k = (bigBytes k1, bigBytes k2, Z.sgn k1, Z.sgn k2) /\
  (k1 + k2 * lambda) mod N = beval k mod N /\ - curveA2 < k1 < curveA1 /\ curveB1 - curveB2 < k2 <= 0.
Proof.
  eexists _, _. split; [reflexivity|]. change curveN with N. set (K := beval k). clearbody K.
  split; [|apply (splitK_bound_gen curveA1 curveB1 curveA2 curveB2 N K eq_refl det_N eq_refl eq_refl eq_refl eq_refl)].
  apply splitK_gen; [reflexivity|exact rel_1|exact rel_2].
Qed.

(** ** NAF: one byte *)
Definition nafByteOk (b : Z) (nl c : bool) : bool :=
  let '(p, n, c') := nafBits 8 0 b nl c 0 0 in
  (p - n + (if c' then 256 else 0) =? b + (if c then 1 else 0)) && (0 <=? p) && (p <? 256) && (0 <=? n) && (n <? 256) &&
  (Z.land p n =? 0) && (Z.land (p + n) (2 * (p + n)) =? 0) &&
  (Bool.eqb (Z.odd (p + n)) (xorb c (Z.odd b))) && (if 128 <=? p + n then Bool.eqb c' nl else true).
Definition range256 : list Z := map Z.of_nat (seq 0 256).
Lemma in_range256 b : is_byte b -> In b range256.
Proof. intros H. unfold is_byte in H. apply in_map_iff. exists (Z.to_nat b). split; [lia|]. apply in_seq. lia. Qed.
Lemma nafByte_all : forallb (fun b => nafByteOk b false false && nafByteOk b false true && nafByteOk b true false && nafByteOk b true true) range256 = true.
Proof. vm_compute. reflexivity. Qed.
Lemma nafByte_ok b nl c p n c' : is_byte b -> nafBits 8 0 b nl c 0 0 = (p, n, c') ->
  p - n + (if c' then 256 else 0) = b + (if c then 1 else 0) /\ is_byte p /\ is_byte n /\ Z.land p n = 0 /\
  Z.land (p + n) (2 * (p + n)) = 0 /\ Z.odd (p + n) = xorb c (Z.odd b) /\ (128 <= p + n -> c' = nl).
Proof.
  intros Hb E. pose proof (proj1 (forallb_forall _ _) nafByte_all b (in_range256 b Hb)) as H.
  assert (H' : nafByteOk b nl c = true).
  { rewrite !andb_true_iff in H. destruct nl, c; tauto. }
  unfold nafByteOk in H'. rewrite E in H'. rewrite !andb_true_iff, !Z.eqb_eq, !Z.leb_le, !Z.ltb_lt in H'.
  destruct H' as [[[[[[[[H1 H2] H3] H4] H5] H6] H7] H8] H9].
  split; [exact H1|]. split; [split; assumption|]. split; [split; assumption|]. split; [exact H6|]. split; [exact H7|].
  split; [apply Bool.eqb_prop, H8|]. intros L. apply Z.leb_le in L. rewrite L in H9. apply Bool.eqb_prop, H9.
Qed.

(** ** NAF: all bytes *)
Definition disj (p n : Z) : Prop := Z.land p n = 0.
Definition sdig (p n i : Z) : bool := Z.testbit p i || Z.testbit n i.

Lemma testbit_cat p v m i : 0 <= m -> 0 <= v < 2 ^ m -> 0 <= p -> 0 <= i ->
  Z.testbit (p * 2 ^ m + v) i = if i <? m then Z.testbit v i else Z.testbit p (i - m).
Proof.
  intros Hm Hv Hp Hi. destruct (Z.ltb_spec i m) as [L|L].
  - rewrite <- (Z.mod_pow2_bits_low _ m i L). rewrite Z.add_comm, Z.mod_add by (apply Z.pow_nonzero; lia).
    rewrite Z.mod_pow2_bits_low by exact L. reflexivity.
  - replace i with ((i - m) + m) at 1 by ring. rewrite <- Z.div_pow2_bits by lia.
    rewrite Z.div_add_l by (apply Z.pow_nonzero; lia). rewrite Z.div_small by exact Hv. f_equal. lia.
Qed.
Lemma pow256 n : 0 <= n -> 256 ^ n = 2 ^ (8 * n).
Proof. intros H. change 256 with (2 ^ 8). rewrite <- Z.pow_mul_r by lia. reflexivity. Qed.
Lemma testbit_byte_high p i : is_byte p -> 8 <= i -> Z.testbit p i = false.
Proof.
  intros H Hi. apply Z.bits_above_log2; [apply H|]. unfold is_byte in H. destruct (Z.eq_dec p 0) as [->|]; [cbn; lia|].
  apply Z.log2_lt_pow2; [lia|]. apply Z.lt_le_trans with (2 ^ 8); [apply H|]. apply Z.pow_le_mono_r; lia.
Qed.
Lemma disj_bit p n i : Z.land p n = 0 -> Z.testbit p i = true -> Z.testbit n i = true -> False.
Proof. intros H A B. pose proof (Z.land_spec p n i) as E. rewrite H, A, B, Z.bits_0 in E. discriminate. Qed.
Lemma sdig_add p n i : Z.land p n = 0 -> Z.testbit (p + n) i = sdig p n i.
Proof. intros H. rewrite Z.add_nocarry_lxor by exact H. rewrite Z.lxor_lor by exact H. apply Z.lor_spec. Qed.

(** what has been established about the low [8 * length pos] digits *)
Record nafInv (done : Z) (pos neg : list Z) (carry : bool) (next : bool) : Prop := {
  ni_len : length neg = length pos;
  ni_pos : bytes_ok pos;
  ni_neg : bytes_ok neg;
  ni_val : beval pos - beval neg + (if carry then 256 ^ blen pos else 0) = done;
  ni_disj : Forall2 disj pos neg;
  ni_bits : forall i, 0 <= i -> ~ (Z.testbit (beval pos) i = true /\ Z.testbit (beval neg) i = true);
  ni_adj : forall i, 0 <= i -> sdig (beval pos) (beval neg) i = true -> sdig (beval pos) (beval neg) (i + 1) = false;
  ni_top : sdig (beval pos) (beval neg) (8 * blen pos - 1) = true -> carry = next }.

Definition nextOf (rk : list Z) : bool := match rk with [] => false | c :: _ => Z.land c 1 =? 1 end.
Lemma nextOf_odd b r : nextOf (b :: r) = Z.odd b.
Proof. cbn [nextOf]. change 1 with (Z.ones 1) at 1. rewrite Z.land_ones by lia. change (2 ^ 1) with 2. rewrite Zmod_odd. destruct (Z.odd b); reflexivity. Qed.

Lemma nafInv_step done pos neg carry b r p n c' : nafInv done pos neg carry (nextOf (b :: r)) -> is_byte b ->
  nafBits 8 0 b (nextOf r) carry 0 0 = (p, n, c') ->
  nafInv (done + b * 256 ^ blen pos) (p :: pos) (n :: neg) c' (nextOf r).
Proof.
  intros [L BP BN V D BI AD TP] Hb E. destruct (nafByte_ok _ _ _ _ _ _ Hb E) as (V1 & Hp & Hn & D1 & A1 & O1 & T1).
  rewrite nextOf_odd in TP.
  assert (LN : blen neg = blen pos) by (unfold blen; rewrite L; reflexivity).
  assert (Lp : 0 <= blen pos) by (unfold blen; lia).
  pose proof (beval_range pos BP) as Rp. pose proof (beval_range neg BN) as Rn. rewrite LN in Rn.
  rewrite pow256 in Rp, Rn by exact Lp.
  assert (EP : beval (p :: pos) = p * 2 ^ (8 * blen pos) + beval pos) by (rewrite beval_cons, pow256 by exact Lp; reflexivity).
  assert (EN : beval (n :: neg) = n * 2 ^ (8 * blen pos) + beval neg) by (rewrite beval_cons, LN, pow256 by exact Lp; reflexivity).
  assert (TB : forall i, 0 <= i -> sdig (beval (p :: pos)) (beval (n :: neg)) i =
                 if i <? 8 * blen pos then sdig (beval pos) (beval neg) i else sdig p n (i - 8 * blen pos)).
  { intros i Hi. unfold sdig. unfold is_byte in Hp, Hn. rewrite EP, EN, !testbit_cat by lia. destruct (i <? 8 * blen pos); reflexivity. }
  assert (BL : blen (p :: pos) = blen pos + 1) by (unfold blen; cbn [length]; lia).
  constructor.
  - cbn [length]. lia.
  - constructor; assumption.
  - constructor; assumption.
  - rewrite BL, Z.pow_add_r by lia. rewrite EP, EN, <- V, pow256 by exact Lp. change (256 ^ 1) with 256.
    set (W := 2 ^ (8 * blen pos)) in *. destruct c', carry; nia.
  - constructor; assumption.
  - intros i Hi [B1 B2]. unfold is_byte in Hp, Hn. rewrite EP in B1. rewrite EN in B2.
    rewrite testbit_cat in B1, B2 by lia. destruct (Z.ltb_spec i (8 * blen pos)).
    + exact (BI i Hi (conj B1 B2)).
    + exact (disj_bit _ _ _ D1 B1 B2).
  - intros i Hi. rewrite !TB by lia. destruct (Z.ltb_spec i (8 * blen pos)) as [L1|L1].
    + destruct (Z.ltb_spec (i + 1) (8 * blen pos)) as [L2|L2]; [apply AD; exact Hi|].
      intros S. replace i with (8 * blen pos - 1) in S by lia. apply TP in S.
      replace (i + 1 - 8 * blen pos) with 0 by lia. rewrite <- sdig_add by exact D1. rewrite Z.bit0_odd, O1, S.
      apply xorb_nilpotent.
    + destruct (Z.ltb_spec (i + 1) (8 * blen pos)) as [L2|L2]; [lia|].
      rewrite <- !sdig_add by exact D1. intros S. pose proof (Z.land_spec (p + n) (2 * (p + n)) (i + 1 - 8 * blen pos)) as LS.
      rewrite A1, Z.bits_0 in LS.
      replace (i + 1 - 8 * blen pos) with (Z.succ (i - 8 * blen pos)) in * by lia.
      rewrite Z.double_bits_succ, S, andb_true_r in LS. symmetry. exact LS.
  - rewrite BL. unfold blen in *. rewrite TB by lia. destruct (Z.ltb_spec (8 * (Z.of_nat (length pos) + 1) - 1) (8 * Z.of_nat (length pos))) as [L1|L1]; [lia|].
    replace (8 * (Z.of_nat (length pos) + 1) - 1 - 8 * Z.of_nat (length pos)) with 7 by lia. intros S. apply T1.
    unfold is_byte in Hp, Hn. rewrite <- sdig_add in S by exact D1.
    destruct (Z_lt_le_dec (p + n) 128) as [C|C]; [|exact C]. rewrite Z.bits_above_log2 in S; [discriminate|lia|].
    destruct (Z.eq_dec (p + n) 0) as [->|]; [cbn; lia|]. apply Z.log2_lt_pow2; lia.
Qed.
Lemma nafBytes_ok rk : forall done pos neg carry, bytes_ok rk -> nafInv done pos neg carry (nextOf rk) ->
  exists pos' neg' c', nafBytes rk carry pos neg = (pos', neg', c') /\
    nafInv (done + beval (rev rk) * 256 ^ blen pos) pos' neg' c' false /\ (length pos' = length rk + length pos)%nat.
Proof.
  induction rk as [|b r IH]; intros done pos neg carry B I.
  - exists pos, neg, carry. split; [reflexivity|]. split; [|reflexivity]. cbn [rev]. rewrite beval_nil, Z.mul_0_l, Z.add_0_r. exact I.
  - cbn [nafBytes]. apply Forall_inv in B as Hb. apply Forall_inv_tail in B.
    destruct (nafBits 8 0 b (match r with [] => false | c :: _ => Z.land c 1 =? 1 end) carry 0 0) as [[p n] c'] eqn:E.
    pose proof (nafInv_step _ _ _ _ _ _ _ _ _ I Hb E) as I'.
    destruct (IH _ _ _ _ B I') as (pos' & neg' & c2 & E2 & I2 & L2). exists pos', neg', c2. split; [exact E2|]. split.
    + replace (done + beval (rev (b :: r)) * 256 ^ blen pos) with (done + b * 256 ^ blen pos + beval (rev r) * 256 ^ blen (p :: pos)); [exact I2|].
      cbn [rev]. rewrite beval_snoc. replace (blen (p :: pos)) with (blen pos + 1) by (unfold blen; cbn [length]; lia).
      rewrite Z.pow_add_r by (unfold blen; lia). ring.
    + rewrite L2. cbn [length]. lia.
Qed.

Lemma NAF_ok k : bytes_ok k -> exists pos neg, NAF k = (pos, neg) /\ length neg = length pos /\ bytes_ok pos /\ bytes_ok neg /\
  beval pos - beval neg = beval k /\ Forall2 disj pos neg /\
  (forall i, 0 <= i -> ~ (Z.testbit (beval pos) i = true /\ Z.testbit (beval neg) i = true)) /\
  (forall i, 0 <= i -> sdig (beval pos) (beval neg) i = true -> sdig (beval pos) (beval neg) (i + 1) = false) /\
  blen k <= blen pos <= blen k + 1.
Proof.
  intros B. unfold NAF. destruct (nafBytes_ok (rev k) 0 [] [] false) as (pos & neg & c & E & I & L).
  - apply Forall_rev, B.
  - constructor; try reflexivity; try constructor; rewrite ?beval_nil; unfold sdig; intros; rewrite ?Z.bits_0 in *; try discriminate.
    intros [H1 _]. discriminate.
  - rewrite E. rewrite rev_involutive in I.
    change (blen []) with 0 in I. rewrite Z.pow_0_r, Z.mul_1_r, Z.add_0_l in I. rewrite rev_length in L. cbn [length] in L.
    destruct I as [IL BP BN V D BI AD TP].
    assert (Lp : 0 <= blen pos) by (unfold blen; lia).
    destruct c.
    + exists (1 :: pos), (0 :: neg). split; [reflexivity|]. split; [cbn [length]; lia|].
      split; [constructor; [unfold is_byte; lia|exact BP]|]. split; [constructor; [unfold is_byte; lia|exact BN]|].
      assert (LN : blen neg = blen pos) by (unfold blen; rewrite IL; reflexivity).
      pose proof (beval_range pos BP) as Rp. pose proof (beval_range neg BN) as Rn. rewrite LN in Rn.
      rewrite pow256 in Rp, Rn, V by exact Lp.
      assert (EP : beval (1 :: pos) = 1 * 2 ^ (8 * blen pos) + beval pos) by (rewrite beval_cons, pow256 by exact Lp; reflexivity).
      assert (EN : beval (0 :: neg) = beval neg) by (rewrite beval_cons; lia).
      assert (TB : forall i, 0 <= i -> sdig (beval (1 :: pos)) (beval (0 :: neg)) i =
                 if i <? 8 * blen pos then sdig (beval pos) (beval neg) i else i =? 8 * blen pos).
      { intros i Hi. unfold sdig. rewrite EP, EN, testbit_cat by lia. destruct (Z.ltb_spec i (8 * blen pos)) as [H|H]; [reflexivity|].
        assert (HN : Z.testbit (beval neg) i = false).
        { replace (beval neg) with (0 * 2 ^ (8 * blen pos) + beval neg) by ring. rewrite testbit_cat by lia.
          destruct (Z.ltb_spec i (8 * blen pos)); [lia|]. apply Z.bits_0. }
        rewrite HN, orb_false_r. destruct (Z.eqb_spec i (8 * blen pos)) as [->|NE]; [rewrite Z.sub_diag; reflexivity|].
        rewrite Z.bits_above_log2; [reflexivity|lia|change (Z.log2 1) with 0; lia]. }
      split; [rewrite EP, EN; lia|]. split; [constructor; [reflexivity|exact D]|]. split; [|split].
      * intros i Hi [B1 B2]. rewrite EN in B2. rewrite EP, testbit_cat in B1 by lia. destruct (Z.ltb_spec i (8 * blen pos)).
        -- exact (BI i Hi (conj B1 B2)).
        -- replace (beval neg) with (0 * 2 ^ (8 * blen pos) + beval neg) in B2 by ring. rewrite testbit_cat in B2 by lia.
           destruct (Z.ltb_spec i (8 * blen pos)); [lia|]. rewrite Z.bits_0 in B2. discriminate.
      * intros i Hi. rewrite !TB by lia. destruct (Z.ltb_spec i (8 * blen pos)) as [L1|L1].
        -- destruct (Z.ltb_spec (i + 1) (8 * blen pos)) as [L2|L2]; [apply AD; exact Hi|].
           intros S. replace i with (8 * blen pos - 1) in S by lia. apply TP in S. discriminate.
        -- intros S. apply Z.eqb_eq in S. destruct (Z.ltb_spec (i + 1) (8 * blen pos)); [lia|]. apply Z.eqb_neq. lia.
      * unfold blen in *. cbn [length]. lia.
    + exists pos, neg. split; [reflexivity|]. split; [exact IL|]. split; [exact BP|]. split; [exact BN|]. split; [lia|].
      split; [exact D|]. split; [exact BI|]. split; [exact AD|]. unfold blen. lia.
Qed.

(** ** The double-and-add loop of ScalarMult *)
Section Loop.
Variable I : smst -> Z -> Z -> Prop.
Hypothesis I_dbl : forall s m1 m2, I s m1 m2 -> I (dblQ s) (2 * m1) (2 * m2).
Hypothesis I_1p : forall s m1 m2, I s m1 m2 -> I (addP1 0x80 0 s) (m1 + 1) m2.
Hypothesis I_1n : forall s m1 m2, I s m1 m2 -> I (addP1 0 0x80 s) (m1 - 1) m2.
Hypothesis I_2p : forall s m1 m2, I s m1 m2 -> I (addP2 0x80 0 s) m1 (m2 + 1).
Hypothesis I_2n : forall s m1 m2, I s m1 m2 -> I (addP2 0 0x80 s) m1 (m2 - 1).

Lemma top_bit b : is_byte b -> (Z.land b 0x80 =? 0x80) = (b / 128 =? 1).
Proof.
  intros H. assert (F : forallb (fun b => Bool.eqb (Z.land b 0x80 =? 0x80) (b / 128 =? 1)) range256 = true) by (vm_compute; reflexivity).
  pose proof (proj1 (forallb_forall _ _) F b (in_range256 b H)) as E. apply Bool.eqb_prop in E. exact E.
Qed.
Lemma addP1_top a b s : is_byte a -> is_byte b -> disj a b ->
  addP1 a b s = if a / 128 =? 1 then addP1 0x80 0 s else if b / 128 =? 1 then addP1 0 0x80 s else s.
Proof. intros Ha Hb _. unfold addP1. rewrite !top_bit by assumption. destruct (a / 128 =? 1); [reflexivity|]. destruct (b / 128 =? 1); reflexivity. Qed.
Lemma addP2_top a b s : is_byte a -> is_byte b -> disj a b ->
  addP2 a b s = if a / 128 =? 1 then addP2 0x80 0 s else if b / 128 =? 1 then addP2 0 0x80 s else s.
Proof. intros Ha Hb _. unfold addP2. rewrite !top_bit by assumption. destruct (a / 128 =? 1); [reflexivity|]. destruct (b / 128 =? 1); reflexivity. Qed.
Lemma disj_top a b : is_byte a -> is_byte b -> disj a b -> a / 128 = 1 -> b / 128 = 0.
Proof.
  intros Ha Hb D E. unfold is_byte in *.
  assert (B : 0 <= b / 128 < 2) by (split; [apply Z.div_pos; lia|apply Z.div_lt_upper_bound; lia]).
  assert (C : b / 128 = 0 \/ b / 128 = 1) by lia. destruct C as [C|C]; [exact C|]. exfalso.
  apply (disj_bit a b 7 D); [apply Z.testbit_true|apply Z.testbit_true]; try lia; change (2 ^ 7) with 128; rewrite ?E, ?C; reflexivity.
Qed.
Lemma shl_byte a : is_byte ((2 * a) mod 256).
Proof. unfold is_byte. apply Z.mod_pos_bound. lia. Qed.
Lemma shl_disj a b : disj a b -> disj ((2 * a) mod 256) ((2 * b) mod 256).
Proof.
  unfold disj. intros H. change 256 with (2 ^ 8). rewrite <- !Z.land_ones by lia.
  rewrite (Z.mul_comm 2 a), (Z.mul_comm 2 b). change 2 with (2 ^ 1). rewrite <- !Z.shiftl_mul_pow2 by lia.
  replace (Z.land (Z.land (Z.shiftl a 1) (Z.ones 8)) (Z.land (Z.shiftl b 1) (Z.ones 8)))
    with (Z.land (Z.land (Z.shiftl a 1) (Z.shiftl b 1)) (Z.ones 8)).
  - rewrite <- Z.shiftl_land, H. reflexivity.
  - rewrite <- !Z.land_assoc. f_equal. rewrite (Z.land_comm (Z.ones 8) (Z.land _ _)), <- Z.land_assoc, Z.land_diag. reflexivity.
Qed.
Definition top (a : Z) : Z := a / 128.
Lemma top_01 a : is_byte a -> top a = 0 \/ top a = 1.
Proof. intros H. unfold is_byte in H. unfold top. assert (0 <= a / 128 < 2) by (split; [apply Z.div_pos; lia|apply Z.div_lt_upper_bound; lia]). lia. Qed.
Lemma I_1 s m1 m2 a b : I s m1 m2 -> is_byte a -> is_byte b -> disj a b -> I (addP1 a b s) (m1 + (top a - top b)) m2.
Proof.
  intros HI Ha Hb D. rewrite addP1_top by assumption. unfold top. destruct (Z.eqb_spec (a / 128) 1) as [E|NE].
  - rewrite (disj_top a b) by assumption. rewrite E. apply I_1p, HI.
  - destruct (top_01 a Ha) as [Ea|Ea]; [|contradiction]. unfold top in Ea. rewrite Ea.
    destruct (Z.eqb_spec (b / 128) 1) as [E|NE']; [rewrite E; apply I_1n, HI|].
    destruct (top_01 b Hb) as [Eb|Eb]; [|contradiction]. unfold top in Eb. rewrite Eb, Z.add_0_r. exact HI.
Qed.
Lemma I_2 s m1 m2 a b : I s m1 m2 -> is_byte a -> is_byte b -> disj a b -> I (addP2 a b s) m1 (m2 + (top a - top b)).
Proof.
  intros HI Ha Hb D. rewrite addP2_top by assumption. unfold top. destruct (Z.eqb_spec (a / 128) 1) as [E|NE].
  - rewrite (disj_top a b) by assumption. rewrite E. apply I_2p, HI.
  - destruct (top_01 a Ha) as [Ea|Ea]; [|contradiction]. unfold top in Ea. rewrite Ea.
    destruct (Z.eqb_spec (b / 128) 1) as [E|NE']; [rewrite E; apply I_2n, HI|].
    destruct (top_01 b Hb) as [Eb|Eb]; [|contradiction]. unfold top in Eb. rewrite Eb, Z.add_0_r. exact HI.
Qed.
(** the value of the highest [n] bits of a byte *)
Lemma hi_step n a : (n < 8)%nat -> is_byte a ->
  a / 2 ^ (8 - Z.of_nat (S n)) = 2 ^ Z.of_nat n * top a + ((2 * a) mod 256) / 2 ^ (8 - Z.of_nat n).
Proof.
  intros Hn Ha. unfold is_byte in Ha. unfold top.
  assert (E : 2 * a = 256 * (a / 128) + (2 * a) mod 256).
  { rewrite (Z.div_mod (2 * a) 256) at 1 by lia. f_equal. f_equal. change 256 with (2 * 128). apply Z.div_mul_cancel_l; lia. }
  replace (8 - Z.of_nat n) with (Z.succ (8 - Z.of_nat (S n))) by lia. rewrite Z.pow_succ_r by lia.
  set (q := 2 ^ (8 - Z.of_nat (S n))). assert (Q : 0 < q) by (apply Z.pow_pos_nonneg; lia).
  rewrite <- (Z.div_mul_cancel_l a q 2) by lia. rewrite E at 1.
  assert (W : 256 = 2 ^ Z.of_nat n * (2 * q)).
  { unfold q. rewrite <- Z.pow_succ_r by lia. rewrite <- Z.pow_add_r by lia. replace (Z.of_nat n + Z.succ (8 - Z.of_nat (S n))) with 8 by lia. reflexivity. }
  rewrite W at 1. replace (2 ^ Z.of_nat n * (2 * q) * (a / 128)) with ((2 ^ Z.of_nat n * (a / 128)) * (2 * q)) by ring.
  rewrite Z.div_add_l by lia. reflexivity.
Qed.
Lemma smBits_ok n : (n <= 8)%nat -> forall a b c d s m1 m2, I s m1 m2 -> is_byte a -> is_byte b -> is_byte c -> is_byte d ->
  disj a b -> disj c d ->
  I (smBits n a b c d s) (2 ^ Z.of_nat n * m1 + (a / 2 ^ (8 - Z.of_nat n) - b / 2 ^ (8 - Z.of_nat n)))
                         (2 ^ Z.of_nat n * m2 + (c / 2 ^ (8 - Z.of_nat n) - d / 2 ^ (8 - Z.of_nat n))).
Proof.
  induction n as [|n IH]; intros Hn a b c d s m1 m2 HI Ha Hb Hc Hd D1 D2.
  - cbn [smBits]. change (8 - Z.of_nat 0) with 8. change (2 ^ Z.of_nat 0) with 1. change (2 ^ 8) with 256.
    unfold is_byte in *. rewrite !Z.div_small by assumption. rewrite !Z.mul_1_l, !Z.sub_diag, !Z.add_0_r. exact HI.
  - cbn [smBits]. rewrite !hi_step by (assumption || lia).
    match goal with |- I _ ?x ?y => set (A := x); set (B := y) end.
    pose proof (IH ltac:(lia) _ _ _ _ _ _ _ (I_2 _ _ _ c d (I_1 _ _ _ a b (I_dbl _ _ _ HI) Ha Hb D1) Hc Hd D2)
      (shl_byte a) (shl_byte b) (shl_byte c) (shl_byte d) (shl_disj _ _ D1) (shl_disj _ _ D2)) as H.
    match type of H with I _ ?x ?y => assert (EA : A = x); [|assert (EB : B = y); [|rewrite EA, EB; exact H]] end.
    + unfold A. rewrite Nat2Z.inj_succ, Z.pow_succ_r by lia. ring.
    + unfold B. rewrite Nat2Z.inj_succ, Z.pow_succ_r by lia. ring.
Qed.
Lemma smByte_ok a b c d s m1 m2 : I s m1 m2 -> is_byte a -> is_byte b -> is_byte c -> is_byte d -> disj a b -> disj c d ->
  I (smBits 8 a b c d s) (256 * m1 + (a - b)) (256 * m2 + (c - d)).
Proof.
  intros HI Ha Hb Hc Hd D1 D2. pose proof (smBits_ok 8 ltac:(lia) _ _ _ _ _ _ _ HI Ha Hb Hc Hd D1 D2) as H.
  change (8 - Z.of_nat 8) with 0 in H. change (2 ^ 0) with 1 in H. change (2 ^ Z.of_nat 8) with 256 in H. rewrite !Z.div_1_r in H. exact H.
Qed.
Lemma smLoop_ok p1 : forall n1 p2 n2 s m1 m2, I s m1 m2 -> length n1 = length p1 -> length p2 = length p1 -> length n2 = length p1 ->
  bytes_ok p1 -> bytes_ok n1 -> bytes_ok p2 -> bytes_ok n2 -> Forall2 disj p1 n1 -> Forall2 disj p2 n2 ->
  I (smLoop p1 n1 p2 n2 s) (256 ^ blen p1 * m1 + (beval p1 - beval n1)) (256 ^ blen p1 * m2 + (beval p2 - beval n2)).
Proof.
  induction p1 as [|a p1 IH]; intros [|b n1] [|c p2] [|d n2] s m1 m2 HI L1 L2 L3 B1 B2 B3 B4 D1 D2; try discriminate.
  - cbn [smLoop]. rewrite beval_nil. change (blen []) with 0. rewrite Z.pow_0_r, !Z.mul_1_l, Z.sub_diag, !Z.add_0_r. exact HI.
  - cbn [smLoop]. cbn [length] in *. apply eq_add_S in L1, L2, L3.
    inversion B1; inversion B2; inversion B3; inversion B4; inversion D1; inversion D2; subst.
    match goal with |- I _ ?x ?y => set (A := x); set (B := y) end.
    pose proof (IH n1 p2 n2 _ _ _ (smByte_ok a b c d s m1 m2 HI ltac:(assumption) ltac:(assumption) ltac:(assumption) ltac:(assumption)
      ltac:(assumption) ltac:(assumption)) L1 L2 L3 ltac:(assumption) ltac:(assumption) ltac:(assumption) ltac:(assumption) ltac:(assumption) ltac:(assumption)) as H.
    match type of H with I _ ?x ?y => assert (EA : A = x); [|assert (EB : B = y); [|rewrite EA, EB; exact H]] end.
    + unfold A. rewrite !beval_cons. unfold blen. cbn [length]. rewrite L1, Nat2Z.inj_succ, Z.pow_succ_r by lia. ring.
    + unfold B. rewrite !beval_cons. unfold blen. cbn [length]. rewrite L2, L3, Nat2Z.inj_succ, Z.pow_succ_r by lia. ring.
Qed.
End Loop.

(** ** ScalarMult *)
Definition brep (x y yn z : fieldVal) (B : point) : Prop :=
  on_curve B /\ frep 1 x (fz (fst B)) /\ frep 2 y (fz (snd B)) /\ frep 2 yn (fopp (fz (snd B))) /\ frep 1 z f1.
Lemma f1_nz : f1 <> f0.
Proof. intros E. apply fz_small_inj in E; [discriminate|split; [lia|reflexivity]..]. Qed.
Lemma on_curve_pneg B : on_curve B -> on_curve (pneg B).
Proof.
  intros H. destruct (is_point_pneg B (or_intror H)) as [E|E]; [|exact E]. exfalso.
  apply (on_curve_nz B H). rewrite <- (pneg_invol B (or_intror H)), E. reflexivity.
Qed.
Lemma jr_on x y z B : on_curve B -> frep 1 x (fz (fst B)) -> frep 2 y (fz (snd B)) -> frep 1 z f1 -> jr (x, y, z) (toE B).
Proof.
  intros HB Hx Hy Hz. exists (fz (fst B)), (fz (snd B)), f1. split; [split; [exact Hx|]; split; assumption|].
  split; [apply is_point_eonc; right; exact HB|]. right. split; [exact f1_nz|].
  rewrite (on_curve_toE B HB). symmetry. apply ejaff_1.
Qed.
Lemma brep_pos x y yn z B : brep x y yn z B -> jr (x, y, z) (toE B).
Proof. intros (HB & Hx & Hy & Hn & Hz). apply jr_on; assumption. Qed.
Lemma brep_neg x y yn z B : brep x y yn z B -> jr (x, yn, z) (toE (pneg B)).
Proof.
  intros (HB & Hx & Hy & Hn & Hz). apply jr_on; [apply on_curve_pneg, HB|exact Hx| |exact Hz].
  unfold pneg. cbn [snd]. rewrite fz_mod, fz_opp. exact Hn.
Qed.
Lemma brep_upd x y yn z B q x' y' z' : brep x y yn z B -> snd (addJacobian q (x, y, z)) = (x', y', z') -> brep x' y' yn z' B.
Proof.
  intros (HB & Hx & Hy & Hn & Hz) E. pose proof (add_snd q (x, y, z) _ _ _ (conj Hx (conj Hy Hz))) as H. rewrite E in H.
  destruct H as (H1 & H2 & H3). split; [exact HB|]. split; [exact H1|]. split; [exact H2|]. split; [exact Hn|exact H3].
Qed.
Lemma brep_updn x y yn z B q x' y' z' : brep x y yn z B -> snd (addJacobian q (x, yn, z)) = (x', y', z') -> brep x' y y' z' B.
Proof.
  intros (HB & Hx & Hy & Hn & Hz) E. pose proof (add_snd q (x, yn, z) _ _ _ (conj Hx (conj Hn Hz))) as H. rewrite E in H.
  destruct H as (H1 & H2 & H3). split; [exact HB|]. split; [exact H1|]. split; [exact Hy|]. split; [exact H2|exact H3].
Qed.

Section OnCurve.
Variables P1 P2 : point.
Definition comb (m1 m2 : Z) : point := padd (smul m1 P1) (smul m2 P2).
Definition Inv (s : smst) (m1 m2 : Z) : Prop :=
  brep (sP1x s) (sP1y s) (sP1yNeg s) (sP1z s) P1 /\ brep (sP2x s) (sP2y s) (sP2yNeg s) (sP2z s) P2 /\
  jr (sQ s) (toE (comb m1 m2)).
Hypothesis H1 : on_curve P1.
Hypothesis H2 : on_curve P2.
Let i1 : is_point P1 := or_intror H1.
Let i2 : is_point P2 := or_intror H2.
Lemma is_point_comb m1 m2 : is_point (comb m1 m2).
Proof. apply is_point_padd; apply is_point_smul; assumption. Qed.
Lemma comb_dbl m1 m2 : padd (comb m1 m2) (comb m1 m2) = comb (2 * m1) (2 * m2).
Proof.
  unfold comb. pose proof (is_point_smul m1 P1 i1) as A. pose proof (is_point_smul m2 P2 i2) as B.
  rewrite padd4 by assumption. rewrite <- !smul_add by assumption. f_equal; f_equal; lia.
Qed.
Lemma comb_1 m1 m2 : padd (comb m1 m2) P1 = comb (m1 + 1) m2.
Proof.
  unfold comb. pose proof (is_point_smul m1 P1 i1) as A. pose proof (is_point_smul m2 P2 i2) as B.
  rewrite (padd_assoc _ _ P1), (padd_comm _ P1), <- padd_assoc by assumption. f_equal.
  rewrite (padd_comm _ P1) by assumption. symmetry. apply smul_succ. exact i1.
Qed.
Lemma comb_1n m1 m2 : padd (comb m1 m2) (pneg P1) = comb (m1 - 1) m2.
Proof.
  unfold comb. pose proof (is_point_smul m1 P1 i1) as A. pose proof (is_point_smul m2 P2 i2) as B. pose proof (is_point_pneg P1 i1) as C.
  rewrite (padd_assoc _ _ (pneg P1)), (padd_comm _ (pneg P1)), <- padd_assoc by assumption. f_equal.
  rewrite (padd_comm _ (pneg P1)) by assumption. symmetry. apply smul_pred. exact i1.
Qed.
Lemma comb_2 m1 m2 : padd (comb m1 m2) P2 = comb m1 (m2 + 1).
Proof.
  unfold comb. pose proof (is_point_smul m1 P1 i1) as A. pose proof (is_point_smul m2 P2 i2) as B.
  rewrite padd_assoc by assumption. f_equal. rewrite (padd_comm _ P2) by assumption. symmetry. apply smul_succ. exact i2.
Qed.
Lemma comb_2n m1 m2 : padd (comb m1 m2) (pneg P2) = comb m1 (m2 - 1).
Proof.
  unfold comb. pose proof (is_point_smul m1 P1 i1) as A. pose proof (is_point_smul m2 P2 i2) as B. pose proof (is_point_pneg P2 i2) as C.
  rewrite padd_assoc by assumption. f_equal. rewrite (padd_comm _ (pneg P2)) by assumption. symmetry. apply smul_pred. exact i2.
Qed.

Lemma add_pt q p e x : is_point x -> is_point e -> jr q (toE x) -> jr p (toE e) -> jr (fst (addJacobian q p)) (toE (padd x e)).
Proof. intros Hx He HQ HP. rewrite toE_padd by assumption. apply add_jr; assumption. Qed.

Lemma Inv_dbl s m1 m2 : Inv s m1 m2 -> Inv (dblQ s) (2 * m1) (2 * m2).
Proof.
  intros (A & B & C). split; [exact A|]. split; [exact B|]. cbn [dblQ sQ]. rewrite <- comb_dbl, toE_padd by apply is_point_comb.
  apply double_jr, C.
Qed.
Lemma Inv_1p s m1 m2 : Inv s m1 m2 -> Inv (addP1 0x80 0 s) (m1 + 1) m2.
Proof.
  intros (A & B & C). unfold addP1. change (Z.land 128 128 =? 128) with true. cbv iota.
  pose proof (add_pt _ _ P1 _ (is_point_comb m1 m2) i1 C (brep_pos _ _ _ _ _ A)) as D. rewrite comb_1 in D.
  pose proof (brep_upd (sP1x s) (sP1y s) (sP1yNeg s) (sP1z s) P1 (sQ s)) as U.
  destruct (addJacobian (sQ s) (sP1x s, sP1y s, sP1z s)) as [q [[x y] z]]. specialize (U x y z A eq_refl).
  split; [exact U|]. split; [exact B|exact D].
Qed.
Lemma Inv_1n s m1 m2 : Inv s m1 m2 -> Inv (addP1 0 0x80 s) (m1 - 1) m2.
Proof.
  intros (A & B & C). unfold addP1. change (Z.land 0 128 =? 128) with false. change (Z.land 128 128 =? 128) with true. cbv iota.
  pose proof (add_pt _ _ (pneg P1) _ (is_point_comb m1 m2) (is_point_pneg P1 i1) C (brep_neg _ _ _ _ _ A)) as D. rewrite comb_1n in D.
  pose proof (brep_updn (sP1x s) (sP1y s) (sP1yNeg s) (sP1z s) P1 (sQ s)) as U.
  destruct (addJacobian (sQ s) (sP1x s, sP1yNeg s, sP1z s)) as [q [[x y] z]]. specialize (U x y z A eq_refl).
  split; [exact U|]. split; [exact B|exact D].
Qed.
Lemma Inv_2p s m1 m2 : Inv s m1 m2 -> Inv (addP2 0x80 0 s) m1 (m2 + 1).
Proof.
  intros (A & B & C). unfold addP2. change (Z.land 128 128 =? 128) with true. cbv iota.
  pose proof (add_pt _ _ P2 _ (is_point_comb m1 m2) i2 C (brep_pos _ _ _ _ _ B)) as D. rewrite comb_2 in D.
  pose proof (brep_upd (sP2x s) (sP2y s) (sP2yNeg s) (sP2z s) P2 (sQ s)) as U.
  destruct (addJacobian (sQ s) (sP2x s, sP2y s, sP2z s)) as [q [[x y] z]]. specialize (U x y z B eq_refl).
  split; [exact A|]. split; [exact U|exact D].
Qed.
Lemma Inv_2n s m1 m2 : Inv s m1 m2 -> Inv (addP2 0 0x80 s) m1 (m2 - 1).
Proof.
  intros (A & B & C). unfold addP2. change (Z.land 0 128 =? 128) with false. change (Z.land 128 128 =? 128) with true. cbv iota.
  pose proof (add_pt _ _ (pneg P2) _ (is_point_comb m1 m2) (is_point_pneg P2 i2) C (brep_neg _ _ _ _ _ B)) as D. rewrite comb_2n in D.
  pose proof (brep_updn (sP2x s) (sP2y s) (sP2yNeg s) (sP2z s) P2 (sQ s)) as U.
  destruct (addJacobian (sQ s) (sP2x s, sP2yNeg s, sP2z s)) as [q [[x y] z]]. specialize (U x y z B eq_refl).
  split; [exact A|]. split; [exact U|exact D].
Qed.
End OnCurve.

(** the identity: everything stays at X = Y = 0 *)
Definition zb (x y yn z : fieldVal) : Prop := frep 1 x f0 /\ frep 2 y f0 /\ frep 2 yn f0 /\ exists Z, frep 1 z Z.
Definition InvO (s : smst) (m1 m2 : Z) : Prop :=
  zb (sP1x s) (sP1y s) (sP1yNeg s) (sP1z s) /\ zb (sP2x s) (sP2y s) (sP2yNeg s) (sP2z s) /\ zr (sQ s).
Lemma zb_zr x y yn z : zb x y yn z -> zr (x, y, z).
Proof. intros (A & B & C & Z & D). exists Z. split; [exact A|]. split; assumption. Qed.
Lemma zb_zrn x y yn z : zb x y yn z -> zr (x, yn, z).
Proof. intros (A & B & C & Z & D). exists Z. split; [exact A|]. split; assumption. Qed.
Lemma zb_upd x y yn z q x' y' z' : zb x y yn z -> snd (addJacobian q (x, y, z)) = (x', y', z') -> zb x' y' yn z'.
Proof.
  intros (A & B & C & Z & D) E. pose proof (add_snd q (x, y, z) _ _ _ (conj A (conj B D))) as H. rewrite E in H.
  destruct H as (H1 & H2 & H3). split; [exact H1|]. split; [exact H2|]. split; [exact C|]. exists Z. exact H3.
Qed.
Lemma zb_updn x y yn z q x' y' z' : zb x y yn z -> snd (addJacobian q (x, yn, z)) = (x', y', z') -> zb x' y y' z'.
Proof.
  intros (A & B & C & Z & D) E. pose proof (add_snd q (x, yn, z) _ _ _ (conj A (conj C D))) as H. rewrite E in H.
  destruct H as (H1 & H2 & H3). split; [exact H1|]. split; [exact B|]. split; [exact H2|]. exists Z. exact H3.
Qed.
Lemma InvO_dbl s m1 m2 : InvO s m1 m2 -> InvO (dblQ s) (2 * m1) (2 * m2).
Proof. intros (A & B & C). split; [exact A|]. split; [exact B|]. apply double_zr, C. Qed.
Lemma InvO_1 a b s m1 m2 m1' m2' : InvO s m1 m2 -> InvO (addP1 a b s) m1' m2'.
Proof.
  intros (A & B & C). unfold addP1. destruct (Z.land a 128 =? 128); [|destruct (Z.land b 128 =? 128); [|exact (conj A (conj B C))]].
  - pose proof (add_zr _ _ C (zb_zr _ _ _ _ A)) as D. pose proof (zb_upd (sP1x s) (sP1y s) (sP1yNeg s) (sP1z s) (sQ s)) as U.
    destruct (addJacobian (sQ s) (sP1x s, sP1y s, sP1z s)) as [q [[x y] z]]. specialize (U x y z A eq_refl).
    split; [exact U|]. split; [exact B|exact D].
  - pose proof (add_zr _ _ C (zb_zrn _ _ _ _ A)) as D. pose proof (zb_updn (sP1x s) (sP1y s) (sP1yNeg s) (sP1z s) (sQ s)) as U.
    destruct (addJacobian (sQ s) (sP1x s, sP1yNeg s, sP1z s)) as [q [[x y] z]]. specialize (U x y z A eq_refl).
    split; [exact U|]. split; [exact B|exact D].
Qed.
Lemma InvO_2 a b s m1 m2 m1' m2' : InvO s m1 m2 -> InvO (addP2 a b s) m1' m2'.
Proof.
  intros (A & B & C). unfold addP2. destruct (Z.land a 128 =? 128); [|destruct (Z.land b 128 =? 128); [|exact (conj A (conj B C))]].
  - pose proof (add_zr _ _ C (zb_zr _ _ _ _ B)) as D. pose proof (zb_upd (sP2x s) (sP2y s) (sP2yNeg s) (sP2z s) (sQ s)) as U.
    destruct (addJacobian (sQ s) (sP2x s, sP2y s, sP2z s)) as [q [[x y] z]]. specialize (U x y z B eq_refl).
    split; [exact A|]. split; [exact U|exact D].
  - pose proof (add_zr _ _ C (zb_zrn _ _ _ _ B)) as D. pose proof (zb_updn (sP2x s) (sP2y s) (sP2yNeg s) (sP2z s) (sQ s)) as U.
    destruct (addJacobian (sQ s) (sP2x s, sP2yNeg s, sP2z s)) as [q [[x y] z]]. specialize (U x y z B eq_refl).
    split; [exact A|]. split; [exact U|exact D].
Qed.

(** padding *)
Lemma padTo_len m l : (length l <= m)%nat -> length (padTo m l) = m.
Proof. intros H. unfold padTo. rewrite app_length, repeat_length. lia. Qed.
Lemma padTo_val m l : beval (padTo m l) = beval l.
Proof. apply beval_zeros. Qed.
Lemma zeros_bytes n : bytes_ok (repeat 0 n).
Proof. apply Forall_forall. intros x H. apply repeat_spec in H. subst. unfold is_byte. lia. Qed.
Lemma padTo_bytes m l : bytes_ok l -> bytes_ok (padTo m l).
Proof. intros H. apply Forall_app. split; [apply zeros_bytes|exact H]. Qed.
Lemma padTo_disj m p n : length n = length p -> Forall2 disj p n -> Forall2 disj (padTo m p) (padTo m n).
Proof.
  intros L H. unfold padTo. rewrite L. apply Forall2_app; [|exact H]. induction (m - length p)%nat; cbn [repeat]; constructor; [reflexivity|assumption].
Qed.

Lemma moduloReduce_ok k : bytes_ok k -> beval (moduloReduce k) mod N = beval k mod N /\ bytes_ok (moduloReduce k) /\ blen (moduloReduce k) <= 32.
Proof.
  intros B. unfold moduloReduce. destruct (Z.ltb_spec byteSize (blen k)) as [H|H].
  - change curveN with N. pose proof (Z.mod_pos_bound (beval k) N eq_refl) as M. rewrite beval_bigBytes, Z.abs_eq, Z.mod_mod by (lia || discriminate).
    split; [reflexivity|]. split; [apply bigBytes_ok|]. apply bigBytes_blen; [lia|]. rewrite Z.abs_eq by lia.
    apply Z.lt_trans with N; [apply M|reflexivity].
  - split; [reflexivity|]. split; [exact B|]. change byteSize with 32 in H. exact H.
Qed.

(** the loop on the digits of |k1| and |k2| *)
Lemma smLoop_naf (I : smst -> Z -> Z -> Prop) :
  (forall s m1 m2, I s m1 m2 -> I (dblQ s) (2 * m1) (2 * m2)) ->
  (forall s m1 m2, I s m1 m2 -> I (addP1 0x80 0 s) (m1 + 1) m2) ->
  (forall s m1 m2, I s m1 m2 -> I (addP1 0 0x80 s) (m1 - 1) m2) ->
  (forall s m1 m2, I s m1 m2 -> I (addP2 0x80 0 s) m1 (m2 + 1)) ->
  (forall s m1 m2, I s m1 m2 -> I (addP2 0 0x80 s) m1 (m2 - 1)) ->
  forall k1 k2 s p1 n1 p2 n2, bytes_ok k1 -> bytes_ok k2 -> NAF k1 = (p1, n1) -> NAF k2 = (p2, n2) -> I s 0 0 ->
  let m := Nat.max (length p1) (length p2) in
  I (smLoop (padTo m p1) (padTo m n1) (padTo m p2) (padTo m n2) s) (beval k1) (beval k2).
Proof.
  intros A1 A2 A3 A4 A5 k1 k2 s p1 n1 p2 n2 B1 B2 E1 E2 HI m.
  destruct (NAF_ok k1 B1) as (p1' & n1' & E1' & L1 & Bp1 & Bn1 & V1 & D1 & _). rewrite E1 in E1'. injection E1' as <- <-.
  destruct (NAF_ok k2 B2) as (p2' & n2' & E2' & L2 & Bp2 & Bn2 & V2 & D2 & _). rewrite E2 in E2'. injection E2' as <- <-.
  assert (M1 : (length p1 <= m)%nat) by (unfold m; lia). assert (M2 : (length p2 <= m)%nat) by (unfold m; lia).
  pose proof (smLoop_ok I A1 A2 A3 A4 A5 (padTo m p1) (padTo m n1) (padTo m p2) (padTo m n2) s 0 0 HI) as H.
  rewrite !padTo_len in H by lia. rewrite !padTo_val, !Z.mul_0_r, !Z.add_0_l, V1, V2 in H.
  apply H; try reflexivity; try (apply padTo_bytes; assumption); apply padTo_disj; assumption.
Qed.

Lemma val_beta : frep 1 curveBeta (fz beta).
Proof.
  destruct (setBytes_ok (be_bytes 32 beta)) as [S V]; [apply be_bytes_len|apply be_bytes_ok|]. split; [apply small_fits, S|].
  change curveBeta with (fSetBytes (be_bytes 32 beta)). rewrite V, beval_be_bytes by discriminate. reflexivity.
Qed.
Lemma sgn_smul k p : is_point p -> smul (Z.abs k) (if Z.sgn k =? -1 then pneg p else p) = smul k p.
Proof.
  intros H. destruct k as [|k|k]; cbn [Z.sgn Z.abs]; [reflexivity|reflexivity|]. change (-1 =? -1) with true. cbv iota.
  rewrite smul_pneg by exact H. reflexivity.
Qed.
Lemma fopp_fopp a : fopp (fopp a) = a. Proof. ring. Qed.
Lemma brep_sign (b : bool) x y z p : on_curve p -> frep 1 x (fz (fst p)) -> frep 1 y (fz (snd p)) -> frep 1 z f1 ->
  forall y1 yn1, (if b then (fNegate y 1, y) else (y, fNegate y 1)) = (y1, yn1) -> brep x y1 yn1 z (if b then pneg p else p).
Proof.
  intros HP Hx Hy Hz y1 yn1 E.
  assert (Hn : frep 2 (fNegate y 1) (fopp (fz (snd p)))) by frp.
  assert (Hy2 : frep 2 y (fz (snd p))) by (apply (frep_le 1); [reflexivity|exact Hy]).
  destruct b; injection E as <- <-.
  - split; [apply on_curve_pneg, HP|]. split; [exact Hx|]. unfold pneg. cbn [snd]. rewrite fz_mod, fz_opp, fopp_fopp.
    split; [exact Hn|]. split; [exact Hy2|exact Hz].
  - split; [exact HP|]. split; [exact Hx|]. split; [exact Hy2|]. split; [exact Hn|exact Hz].
Qed.
Lemma on_curve_phi p : on_curve p -> on_curve (phi p).
Proof.
  intros H. destruct (is_point_phi p (or_intror H)) as [E|E]; [|exact E]. exfalso.
  apply (on_curve_y_nz p H). apply (f_equal snd) in E. exact E.
Qed.

Lemma ScalarMult_on p k : on_curve p -> bytes_ok k -> ScalarMult (fst p) (snd p) k = Ok (smul (beval k) p).
Proof.
  intros HP Bk. assert (IP : is_point p) by (right; exact HP).
  destruct (moduloReduce_ok k Bk) as (MV & _ & _). unfold ScalarMult.
  destruct (splitK_ok (moduloReduce k)) as (k1 & k2 & ES & EK & _). rewrite ES.
  destruct (on_curve_256 _ HP) as [B1 B2]. destruct (toField _ _ B1 B2) as (fx & fy & T & R1 & R2 & _). rewrite T. cbn [bind].
  cbv zeta.
  pose proof (brep_sign (Z.sgn k1 =? -1) fx fy (fSetInt 1) p HP R1 R2 (nrep_frep _ _ nrep_1)) as S1.
  assert (Rx2 : frep 1 (fMul fx curveBeta) (fz (fst (phi p)))).
  { unfold phi. cbn [fst]. rewrite fz_mod, fz_mul. eapply eq_rect; [eapply frep_mul; [exact R1|exact val_beta|reflexivity]|]. ring. }
  pose proof (brep_sign (Z.sgn k2 =? -1) (fMul fx curveBeta) fy (fSetInt 1) (phi p) (on_curve_phi p HP) Rx2 R2 (nrep_frep _ _ nrep_1)) as S2.
  destruct (if Z.sgn k1 =? -1 then (fNegate fy 1, fy) else (fy, fNegate fy 1)) as [y1 yn1]. specialize (S1 y1 yn1 eq_refl).
  destruct (if Z.sgn k2 =? -1 then (fNegate fy 1, fy) else (fy, fNegate fy 1)) as [y2 yn2]. specialize (S2 y2 yn2 eq_refl).
  set (P1 := if Z.sgn k1 =? -1 then pneg p else p) in *. set (P2 := if Z.sgn k2 =? -1 then pneg (phi p) else phi p) in *.
  destruct (NAF (bigBytes k1)) as [p1 n1] eqn:N1. destruct (NAF (bigBytes k2)) as [p2 n2] eqn:N2.
  set (s0 := {| sQ := (fZero, fZero, fZero); sP1x := fx; sP1y := y1; sP1yNeg := yn1; sP1z := fSetInt 1;
     sP2x := fMul fx curveBeta; sP2y := y2; sP2yNeg := yn2; sP2z := fSetInt 1 |}).
  assert (I0 : Inv P1 P2 s0 0 0). { split; [exact S1|]. split; [exact S2|]. exact jr_inf. }
  assert (O1 : on_curve P1) by (apply S1). assert (O2 : on_curve P2) by (apply S2).
  pose proof (smLoop_naf (Inv P1 P2) (Inv_dbl P1 P2 O1 O2) (Inv_1p P1 P2 O1 O2) (Inv_1n P1 P2 O1 O2) (Inv_2p P1 P2 O1 O2) (Inv_2n P1 P2 O1 O2)
    _ _ s0 _ _ _ _ (bigBytes_ok k1) (bigBytes_ok k2) N1 N2 I0) as (_ & _ & J).
  apply f_equal. rewrite (toBig_jr _ _ J). rewrite fromE_toE by (apply is_point_comb; assumption).
  unfold comb. rewrite !beval_bigBytes. unfold P1, P2.
  rewrite !sgn_smul by (assumption || apply is_point_phi, IP).
  rewrite phi_lambda by exact IP. rewrite <- smul_mul by exact IP. rewrite <- smul_add by exact IP.
  rewrite <- (smul_mod _ p IP), EK, MV. apply smul_mod. exact IP.
Qed.
Lemma ScalarMult_O k : bytes_ok k -> ScalarMult 0 0 k = Ok (0, 0).
Proof.
  intros Bk. unfold ScalarMult. destruct (splitK_ok (moduloReduce k)) as (k1 & k2 & ES & EK & _). rewrite ES.
  destruct (toField 0 0) as (fx & fy & T & R1 & R2 & _); [split; [lia|reflexivity]..|]. rewrite T. cbn [bind]. cbv zeta.
  change (fz 0) with f0 in *.
  assert (Hn : frep 2 (fNegate fy 1) f0). { eapply eq_rect; [eapply (frep_negate 1); [exact R2|reflexivity]|]. ring. }
  assert (Hy : frep 2 fy f0) by (apply (frep_le 1); [reflexivity|exact R2]).
  assert (Rx2 : frep 1 (fMul fx curveBeta) f0).
  { eapply eq_rect; [eapply frep_mul; [exact R1|exact val_beta|reflexivity]|]. ring. }
  assert (SB : forall (b : bool) x y1 yn1, frep 1 x f0 -> (if b then (fNegate fy 1, fy) else (fy, fNegate fy 1)) = (y1, yn1) -> zb x y1 yn1 (fSetInt 1)).
  { intros b x y1 yn1 Hx E. destruct b; injection E as <- <-; (split; [exact Hx|]; split; [assumption|]; split; [assumption|]; exists f1; apply nrep_frep, nrep_1). }
  pose proof (SB (Z.sgn k1 =? -1) fx) as S1. pose proof (SB (Z.sgn k2 =? -1) (fMul fx curveBeta)) as S2.
  destruct (if Z.sgn k1 =? -1 then (fNegate fy 1, fy) else (fy, fNegate fy 1)) as [y1 yn1]. specialize (S1 y1 yn1 R1 eq_refl).
  destruct (if Z.sgn k2 =? -1 then (fNegate fy 1, fy) else (fy, fNegate fy 1)) as [y2 yn2]. specialize (S2 y2 yn2 Rx2 eq_refl).
  destruct (NAF (bigBytes k1)) as [p1 n1] eqn:N1. destruct (NAF (bigBytes k2)) as [p2 n2] eqn:N2.
  set (s0 := {| sQ := (fZero, fZero, fZero); sP1x := fx; sP1y := y1; sP1yNeg := yn1; sP1z := fSetInt 1;
     sP2x := fMul fx curveBeta; sP2y := y2; sP2yNeg := yn2; sP2z := fSetInt 1 |}).
  assert (I0 : InvO s0 0 0). { split; [exact S1|]. split; [exact S2|]. exact zr_inf. }
  destruct (smLoop_naf InvO InvO_dbl (fun s m1 m2 => InvO_1 _ _ s m1 m2 _ _) (fun s m1 m2 => InvO_1 _ _ s m1 m2 _ _)
    (fun s m1 m2 => InvO_2 _ _ s m1 m2 _ _) (fun s m1 m2 => InvO_2 _ _ s m1 m2 _ _)
    _ _ s0 _ _ _ _ (bigBytes_ok k1) (bigBytes_ok k2) N1 N2 I0) as (_ & _ & J).
  apply f_equal. apply toBig_zr, J.
Qed.
Lemma ScalarMult_ok p k : is_point p -> bytes_ok k -> ScalarMult (fst p) (snd p) k = Ok (smul (beval k) p).
Proof.
  intros [->|HP] Bk; [|apply ScalarMult_on; assumption]. change (fst O) with 0. change (snd O) with 0. rewrite smul_O. apply ScalarMult_O, Bk.
Qed.
