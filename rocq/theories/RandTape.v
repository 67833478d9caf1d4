(** * Chances: how often attempts fail, and the functions that draw *)
From Coq Require Import ZArith List Bool Lia.
From Verif Require Import Go Wire Big Crypto Spec SpecZk CodecProofs FieldProofs CurveGroup ZkBase PointProofs GspfsProofs EqConsProofs
  Gspfs Equivalence Consistency Range Precompute PubKey PubKeyProofs Rand SpecRand RandProofs RandSched RandCount RandSeq.
Import ListNotations.
Open Scope Z_scope.

(** ** How often attempts fail *)
Section Max.
Variable max : Z.
Hypothesis Hmax : 1 < max.
Notation blk := (block max).
Notation tooLarge := (tooLarge max).
Lemma blk_bits : 0 <= 8 * Z.of_nat blk - bits max /\ 256 ^ Z.of_nat blk = 2 ^ (8 * Z.of_nat blk - bits max) * 2 ^ bits max.
Proof.
  destruct (riBits_spec max Hmax) as (k & _ & Hk & E). destruct (riBytes_block max Hmax) as [_ P]. split; [lia|].
  rewrite <- Z.pow_add_r by lia. change 256 with (2 ^ 8). rewrite <- Z.pow_mul_r by lia. f_equal. lia.
Qed.
Lemma bits_pos : 0 < 2 ^ bits max. Proof. apply Z.pow_pos_nonneg; [lia|apply Z.log2_up_nonneg]. Qed.
Lemma cases_accept : cases blk (fun b => denotes max b <? max) = max * 2 ^ (8 * Z.of_nat blk - bits max).
Proof.
  destruct blk_bits as [Nn E]. destruct (max_bits max Hmax) as [_ Mb]. pose proof bits_pos as P2.
  unfold denotes. rewrite (cases_beval blk (fun z => z mod 2 ^ bits max <? max)). rewrite E.
  set (q := 2 ^ (8 * Z.of_nat blk - bits max)). assert (0 < q) by (unfold q; apply Z.pow_pos_nonneg; lia).
  set (M := 2 ^ bits max) in *. rewrite Z2Nat.inj_mul by lia.
  pose proof (cnt_mod (Z.to_nat q) (Z.to_nat M) (fun z => z <? max) ltac:(lia)) as Q. cbv beta in Q.
  rewrite (Z2Nat.id M), (Z2Nat.id q) in Q by lia. rewrite Q, cnt_lt by lia. lia.
Qed.
Lemma cases_reject : cases blk (fun b => negb (denotes max b <? max)) = tooLarge.
Proof. unfold SpecRand.tooLarge. pose proof (cases_neg blk (fun b => denotes max b <? max)) as E. rewrite cases_accept in E. lia. Qed.
Lemma fail_count m : cases (m * blk) (fun t => failed (randInt max t)) = tooLarge ^ Z.of_nat m.
Proof.
  destruct (riBytes_block max Hmax) as [_ P]. induction m as [|m IH].
  - cbn [Nat.mul]. unfold cases. cbn [allTapes filter]. destruct (randInt_short max Hmax [] P) as [e ->]. reflexivity.
  - cbn [Nat.mul]. rewrite (cases_ext _ _ (fun t => negb (denotes max (firstn blk t) <? max) && failed (randInt max (skipn blk t)))).
    + rewrite (cases_app blk (m * blk) (fun b => negb (denotes max b <? max)) (fun t => failed (randInt max t))).
      rewrite cases_reject, IH, (Nat2Z.inj_succ m), Z.pow_succ_r by lia. reflexivity.
    + intros t [Ot Lt]. rewrite <- (firstn_skipn blk t) at 1. rewrite randInt_step; [|exact Hmax|rewrite firstn_length; lia].
      assert (Of : bytes_ok (firstn blk t)) by (rewrite <- (firstn_skipn blk t) in Ot; apply Forall_app in Ot; apply Ot).
      rewrite attempt_spec; [|exact Hmax|exact Of|rewrite firstn_length; lia].
      destruct (_ <? _); reflexivity.
Qed.
(** at least half of all attempts succeed *)
Lemma half : 0 <= tooLarge /\ 2 * tooLarge <= 256 ^ Z.of_nat blk.
Proof.
  destruct blk_bits as [Nn E]. destruct (max_bits max Hmax) as [Lb Mb]. pose proof bits_pos as P2. unfold SpecRand.tooLarge.
  destruct (bitLen_bits max Hmax) as [_ Pb].
  set (q := 2 ^ (8 * Z.of_nat blk - bits max)) in *. assert (0 < q) by (unfold q; apply Z.pow_pos_nonneg; lia).
  replace (bits max) with (Z.succ (bits max - 1)) in E, Mb by lia. rewrite Z.pow_succ_r in E, Mb by lia.
  set (K := 2 ^ (bits max - 1)) in *. rewrite E. nia.
Qed.
Lemma fail_seldom m k : 0 <= k -> 2 ^ k * tooLarge <= 256 ^ Z.of_nat blk -> 2 ^ (k * Z.of_nat m) * tooLarge ^ Z.of_nat m <= 256 ^ Z.of_nat (m * blk).
Proof.
  intros Hk H. rewrite Z.pow_mul_r by lia. rewrite <- Z.pow_mul_l. rewrite Nat2Z.inj_mul, (Z.mul_comm (Z.of_nat m) (Z.of_nat blk)), (Z.pow_mul_r 256) by lia.
  apply Z.pow_le_mono_l. split; [|exact H]. apply Z.mul_nonneg_nonneg; [apply Z.pow_nonneg; lia|apply half].
Qed.
(** ** Every number in equally many cases *)
Lemma draw_seq t : allSome (drawN 1 max t) = match randInt max t with ROk v _ => Some [v] | _ => None end.
Proof. cbn [drawN]. unfold draw. destruct (randInt max t); reflexivity. Qed.
Lemma uniform_many L v w : 0 <= v < max -> 0 <= w < max ->
  asMany L (fun t => allSome (drawN 1 max t) = Some [v]) (fun t => allSome (drawN 1 max t) = Some [w]).
Proof.
  intros Hv Hw. destruct (asMany_uniform max Hmax (seqPick max 1) 1 L [v] [w]) as (f & g & H).
  - apply seqPick_ok.
  - split; [reflexivity|constructor; [exact Hv|constructor]].
  - split; [reflexivity|constructor; [exact Hw|constructor]].
  - exists f, g. intros t Ht. specialize (H t Ht). rewrite !(numbers_seq max Hmax) in H. exact H.
Qed.
Lemma isDraw_iff v t : isDraw v (randInt max t) = true <-> allSome (drawN 1 max t) = Some [v].
Proof.
  rewrite draw_seq. unfold isDraw. destruct (randInt max t) as [x r| |]; split; try discriminate.
  - intros E. apply Z.eqb_eq in E. subst x. reflexivity.
  - intros E. injection E as ->. apply Z.eqb_refl.
Qed.
Lemma uniform_count L v w : 0 <= v < max -> 0 <= w < max ->
  cases L (fun t => isDraw v (randInt max t)) = cases L (fun t => isDraw w (randInt max t)).
Proof.
  intros Hv Hw. apply (asMany_cases L _ _ _ _ (uniform_many L v w Hv Hw)); intros t _; apply isDraw_iff.
Qed.
Lemma sum_draws L n : cases L (fun t => match randInt max t with ROk x _ => (0 <=? x) && (x <? Z.of_nat n) | _ => false end) =
  sumTo n (fun v => cases L (fun t => isDraw v (randInt max t))).
Proof.
  induction n as [|n IH].
  - cbn [sumTo]. rewrite (cases_ext L _ (fun _ => false)); [unfold cases; induction (allTapes L) as [|t l IHl]; [reflexivity|exact IHl]|].
    intros t _. destruct (randInt max t) as [x r| |]; try reflexivity. destruct (Z.leb_spec 0 x); [|reflexivity].
    destruct (Z.ltb_spec x (Z.of_nat 0)); [lia|reflexivity].
  - cbn [sumTo]. rewrite <- IH. rewrite <- cases_or.
    + apply cases_ext. intros t _. unfold isDraw. destruct (randInt max t) as [x r| |]; try reflexivity.
      destruct (Z.leb_spec 0 x), (Z.ltb_spec x (Z.of_nat (S n))), (Z.ltb_spec x (Z.of_nat n)), (Z.eqb_spec x (Z.of_nat n)); try reflexivity; lia.
    + intros t _. unfold isDraw. destruct (randInt max t) as [x r| |]; try reflexivity.
      destruct (Z.leb_spec 0 x), (Z.ltb_spec x (Z.of_nat n)), (Z.eqb_spec x (Z.of_nat n)); try reflexivity; try discriminate; lia.
Qed.
Lemma exact_count m v : 0 <= v < max ->
  max * cases (m * blk) (fun t => isDraw v (randInt max t)) = 256 ^ Z.of_nat (m * blk) - tooLarge ^ Z.of_nat m.
Proof.
  intros Hv. set (L := (m * blk)%nat).
  assert (E : cases L (fun t => negb (failed (randInt max t))) = sumTo (Z.to_nat max) (fun v => cases L (fun t => isDraw v (randInt max t)))).
  { rewrite <- sum_draws. apply cases_ext. intros t [Ot _]. destruct (randInt max t) as [x r| |] eqn:E; try reflexivity.
    apply (randInt_spec max t Hmax Ot) in E. apply firstGood_range in E. cbn [failed negb]. rewrite Z2Nat.id by lia.
    destruct (Z.leb_spec 0 x), (Z.ltb_spec x max); try reflexivity; lia. }
  rewrite (sum_ext _ _ (fun _ => cases L (fun t => isDraw v (randInt max t)))) in E
    by (intros z Hz; rewrite Z2Nat.id in Hz by lia; apply uniform_count; lia).
  rewrite sum_const, Z2Nat.id in E by lia. rewrite <- E. unfold L.
  pose proof (cases_neg (m * blk) (fun t => failed (randInt max t))) as Q. rewrite fail_count in Q. lia.
Qed.
End Max.
