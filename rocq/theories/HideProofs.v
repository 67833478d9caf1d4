(** * What observers learn from proofs: lemmas *)
From Coq Require Import ZArith List Bool Lia Permutation.
From Verif Require Import Go Wire Big Crypto Spec SpecRand RandCount SpecOracle OracleProofs OracleCount SpecHide.
Import ListNotations.
Open Scope Z_scope.
Opaque allTapes.

Lemma zs_filter {A} (l : list A) p : Z.of_nat (length (filter p l)) = zs l (fun x => ind (p x)).
Proof.
  induction l as [|a l IH]; [reflexivity|]. unfold zs in *. cbn [filter fold_right]. rewrite <- IH. destruct (p a); cbn [ind length]; lia.
Qed.
Lemma zs_prod {A B} (l : list A) (l' : list B) f : zs (list_prod l l') f = zs l (fun x => zs l' (fun y => f (x, y))).
Proof. induction l as [|a l IH]; [reflexivity|]. cbn [list_prod]. rewrite zs_app, zs_map, IH. reflexivity. Qed.
Lemma zs_sub {A} (l : list A) f g : zs l (fun x => f x - g x) = zs l f - zs l g.
Proof. induction l as [|a l IH]; [reflexivity|]. unfold zs in *. cbn [fold_right]. rewrite IH. ring. Qed.
Lemma zs_abs {A} (l : list A) f : Z.abs (zs l f) <= zs l (fun x => Z.abs (f x)).
Proof. induction l as [|a l IH]; [reflexivity|]. unfold zs in *. cbn [fold_right]. lia. Qed.
Lemma zs_draws {U} (l : list U) n f : zs (draws l (S n)) f = zs l (fun u => zs (draws l n) (fun us => f (u :: us))).
Proof. cbn [draws]. rewrite zs_flat. apply zs_ext. intros u _. apply zs_map. Qed.
Lemma draws_len {U} (l : list U) n : Z.of_nat (length (draws l n)) = Z.of_nat (length l) ^ Z.of_nat n.
Proof.
  induction n as [|n IH]; [reflexivity|]. rewrite <- (Z.mul_1_r (Z.of_nat (length (draws l (S n))))), <- (zs_const _ 1), zs_draws.
  rewrite (zs_ext l _ (fun _ => Z.of_nat (length l) ^ Z.of_nat n)) by (intros; rewrite zs_const, Z.mul_1_r; exact IH). rewrite zs_const, Nat2Z.inj_succ, Z.pow_succ_r by lia. reflexivity.
Qed.

Section Hide.
Context {I St P U : Type}.
Variable good : I -> Prop.
Variable public : I -> St.
Variable prove : (list Z -> list Z) -> I -> U -> R (option P * option goerr).
Variable asked : St -> P -> list Z.
Variable simulate : St -> list Z -> U -> P.
Variable Us : list U.
Variable pfOf : I -> list Z -> U -> P.
Variable mu : I -> U -> list Z.
Variable B : Z.
Hypothesis B_nonneg : 0 <= B.
Hypothesis HP : forall i sha u, good i -> In u Us -> prove sha i u = Ok (Some (pfOf i (sha (mu i u)) u), None).
Hypothesis HM : forall i h u, good i -> In u Us -> asked (public i) (pfOf i h u) = mu i u.
Hypothesis HS : forall i h, good i -> tape 32 h -> forall g : P -> Z, zs Us (fun v => g (simulate (public i) h v)) = zs Us (fun u => g (pfOf i h u)).
Hypothesis HB : forall i s, good i -> zs Us (fun u => ind (if list_eq_dec Z.eq_dec (mu i u) s then true else false)) <= B.
Notation real := (watchReal public prove asked). Notation sim := (watchSim public simulate asked).
Notation S_ := (Z.of_nat (length Us)).
Definition gap (L n : nat) (f : observer I P) (w : answers) : Z := zs (allTapes L) (fun t => zs (draws Us n) (fun us => ind (real f w t us) - ind (sim f w t us))).
(** few draws lead to a string asked before *)
Lemma bad_few i w : good i -> zs Us (fun u => ind (if known w (mu i u) then true else false)) <= Z.of_nat (length w) * B.
Proof.
  intros Gi. pose proof B_nonneg as B0. induction w as [|[m h] w IH].
  - rewrite (zs_ext _ _ (fun _ => 0)) by reflexivity. rewrite zs_const. cbn [length]. lia.
  - cbn [length]. rewrite Nat2Z.inj_succ.
    assert (Q : zs Us (fun u => ind (if known ((m, h) :: w) (mu i u) then true else false)) <= zs Us (fun u => ind (if list_eq_dec Z.eq_dec (mu i u) m then true else false)) + zs Us (fun u => ind (if known w (mu i u) then true else false))).
    { rewrite <- zs_plus. apply zs_le. intros u _. cbn [known]. destruct (list_eq_dec Z.eq_dec (mu i u) m), (known w (mu i u)); cbn [ind]; lia. }
    pose proof (HB i m Gi). lia.
Qed.
Lemma abs_diff b c : Z.abs (ind b - ind c) <= 1. Proof. destruct b, c; cbn; lia. Qed.
Lemma gap_one L n f w : Z.abs (gap L n f w) <= 256 ^ Z.of_nat L * S_ ^ Z.of_nat n.
Proof.
  unfold gap. etransitivity; [apply zs_abs|]. rewrite <- tapes_length, <- zs_const. apply zs_le. intros t _. etransitivity; [apply zs_abs|].
  etransitivity; [apply (zs_le _ _ (fun _ => 1)); intros; apply abs_diff|]. rewrite zs_const, draws_len. lia.
Qed.
Lemma gap_bound f : forall q n w L, watches good q n f -> (32 * (q + n) <= L)%nat ->
  S_ * Z.abs (gap L n f w) <= Z.of_nat n * (Z.of_nat (length w + q + n)) * B * (256 ^ Z.of_nat L * S_ ^ Z.of_nat n).
Proof.
  pose proof B_nonneg as B0.
  assert (Pw : forall L n, 0 <= 256 ^ Z.of_nat L * S_ ^ Z.of_nat n) by (intros; apply Z.mul_nonneg_nonneg; apply Z.pow_nonneg; lia).
  induction f as [m next IH|i next IH|b]; intros q n w L Hw HL.
  - destruct q as [|q]; [destruct Hw|]. cbn [watches] in Hw. destruct (known w m) as [h|] eqn:Kn.
    + assert (E : gap L n (AskHash m next) w = gap L n (next h) w) by (unfold gap; apply zs_ext; intros; apply zs_ext; intros; cbn [watchReal watchSim]; rewrite Kn; reflexivity).
      rewrite E. etransitivity; [apply (IH h q n w L (Hw h)); lia|]. apply Z.mul_le_mono_nonneg_r; [apply Pw|]. apply Z.mul_le_mono_nonneg_r; [exact B0|]. apply Z.mul_le_mono_nonneg_l; lia.
    + destruct (Nat.le_exists_sub 32 L) as (L' & -> & _); [lia|]. rewrite (Nat.add_comm L' 32).
      assert (E : gap (32 + L') n (AskHash m next) w = zs (allTapes 32) (fun h => gap L' n (next h) ((m, h) :: w))).
      { unfold gap. rewrite tsum_app. apply zs_ext. intros h Hh. apply in_tapes in Hh. apply zs_ext. intros y _. apply zs_ext. intros us _. cbn [watchReal watchSim]. rewrite Kn.
        rewrite first_pre, skip_pre by apply Hh. reflexivity. }
      rewrite E. rewrite pow_add_nat. etransitivity; [apply Z.mul_le_mono_nonneg_l; [lia|apply zs_abs]|]. rewrite <- zs_scale.
      etransitivity; [apply (zs_le _ _ (fun _ => Z.of_nat n * Z.of_nat (length w + S q + n) * B * (256 ^ Z.of_nat L' * S_ ^ Z.of_nat n)))|].
      * intros h _. etransitivity; [apply (IH h q n ((m, h) :: w) L' (Hw h)); lia|]. cbn [length]. replace (S (length w) + q + n)%nat with (length w + S q + n)%nat by lia. reflexivity.
      * rewrite zs_const, tapes_length. apply Z.eq_le_incl. ring.
  - destruct n as [|n]; [destruct q; destruct Hw|]. assert (Hw' : good i /\ forall p, watches good q n (next p)) by (destruct q; exact Hw). clear Hw. destruct Hw' as [Gi Hw'].
    destruct (Nat.le_exists_sub 32 L) as (L' & -> & _); [lia|]. rewrite (Nat.add_comm L' 32).
    set (cell := fun h u => gap L' n (next (pfOf i h u)) ((mu i u, h) :: w)).
    set (slip := fun h u => zs (allTapes L') (fun y => zs (draws Us n) (fun us => ind (real (SeeProof i next) w (h ++ y) (u :: us)) - ind (real (next (pfOf i h u)) ((mu i u, h) :: w) y us)))).
    assert (E : gap (32 + L') (S n) (SeeProof i next) w = zs (allTapes 32) (fun h => zs Us (fun u => slip h u + cell h u))).
    { unfold gap at 1. rewrite tsum_app. apply zs_ext. intros h Hh. apply in_tapes in Hh.
      rewrite (zs_ext (allTapes L') _ (fun y => zs Us (fun u => zs (draws Us n) (fun us => ind (real (SeeProof i next) w (h ++ y) (u :: us)))) -
                                               zs Us (fun v => zs (draws Us n) (fun us => ind (sim (next (simulate (public i) h v)) ((asked (public i) (simulate (public i) h v), h) :: w) y us))))).
      2:{ intros y _. rewrite zs_draws, <- zs_sub. apply zs_ext. intros u _. rewrite <- zs_sub. apply zs_ext. intros us _. cbn [watchSim]. rewrite first_pre, skip_pre by apply Hh. reflexivity. }
      rewrite (zs_ext (allTapes L') _ (fun y => zs Us (fun u => zs (draws Us n) (fun us => ind (real (SeeProof i next) w (h ++ y) (u :: us)) - ind (sim (next (pfOf i h u)) ((mu i u, h) :: w) y us))))).
      2:{ intros y _. pose proof (HS i h Gi Hh (fun p => zs (draws Us n) (fun us => ind (sim (next p) ((asked (public i) p, h) :: w) y us)))) as X. cbv beta in X. rewrite X, <- zs_sub. apply zs_ext. intros u Hu.
          rewrite <- zs_sub. rewrite (HM i) by assumption. reflexivity. }
      rewrite zs_swap. apply zs_ext. intros u Hu. unfold slip, cell, gap. rewrite <- zs_plus. apply zs_ext. intros y _. rewrite <- zs_plus. apply zs_ext. intros us _. ring. }
    assert (Sl : forall h, tape 32 h -> zs Us (fun u => Z.abs (slip h u)) <= Z.of_nat (length w) * B * (256 ^ Z.of_nat L' * S_ ^ Z.of_nat n)).
    { intros h Hh. etransitivity; [apply (zs_le _ _ (fun u => 256 ^ Z.of_nat L' * S_ ^ Z.of_nat n * ind (if known w (mu i u) then true else false)))|].
      - intros u Hu. unfold slip. destruct (known w (mu i u)) as [h0|] eqn:Kn; cbn [ind].
        + rewrite Z.mul_1_r. etransitivity; [apply zs_abs|]. rewrite <- tapes_length, <- zs_const. apply zs_le. intros t _. etransitivity; [apply zs_abs|].
          etransitivity; [apply (zs_le _ _ (fun _ => 1)); intros; apply abs_diff|]. rewrite zs_const, draws_len. lia.
        + rewrite (zs_ext _ _ (fun _ => 0)); [rewrite zs_const; lia|]. intros y _. rewrite (zs_ext _ _ (fun _ => 0)); [rewrite zs_const; lia|]. intros us _. cbn [watchReal].
          rewrite (HP i) by assumption. assert (Eh : hashOf w (h ++ y) (mu i u) = h) by (unfold hashOf; rewrite Kn; apply first_pre, Hh). rewrite Eh, (HM i) by assumption. rewrite Kn.
          rewrite first_pre, skip_pre by apply Hh. lia.
      - rewrite zs_scale. rewrite (Z.mul_comm (Z.of_nat (length w) * B)). apply Z.mul_le_mono_nonneg_l; [apply Pw|apply bad_few, Gi]. }
    rewrite E. rewrite pow_add_nat. rewrite (Nat2Z.inj_succ n), Z.pow_succ_r by lia.
    set (K := 256 ^ Z.of_nat L' * S_ ^ Z.of_nat n) in *. assert (K0 : 0 <= K) by apply Pw.
    assert (C : forall h, tape 32 h -> S_ * Z.abs (zs Us (fun u => slip h u + cell h u)) <= S_ * (Z.succ (Z.of_nat n) * Z.of_nat (length w + q + S n) * B * K)).
    { intros h Hh. assert (A1 : Z.abs (zs Us (fun u => slip h u + cell h u)) <= zs Us (fun u => Z.abs (slip h u)) + zs Us (fun u => Z.abs (cell h u))).
      { etransitivity; [apply zs_abs|]. rewrite <- zs_plus. apply zs_le. intros. lia. }
      assert (A2 : S_ * zs Us (fun u => Z.abs (cell h u)) <= S_ * (Z.of_nat n * Z.of_nat (length w + 1 + q + n) * B * K)).
      { rewrite <- zs_scale. rewrite <- zs_const. apply zs_le. intros u _. unfold cell. etransitivity; [apply (IH (pfOf i h u) q n ((mu i u, h) :: w) L' (Hw' _)); lia|].
        cbn [length]. replace (S (length w) + q + n)%nat with (length w + 1 + q + n)%nat by lia. fold K. reflexivity. }
      specialize (Sl h Hh).
      assert (A3 : Z.of_nat (length w) * B * K + Z.of_nat n * Z.of_nat (length w + 1 + q + n) * B * K <= Z.succ (Z.of_nat n) * Z.of_nat (length w + q + S n) * B * K).
      { rewrite <- Z.mul_add_distr_r, <- Z.mul_add_distr_r. apply Z.mul_le_mono_nonneg_r; [exact K0|]. apply Z.mul_le_mono_nonneg_r; [exact B0|]. nia. }
      assert (S0 : 0 <= S_) by lia. clear - A1 A2 Sl A3 S0. set (x := zs Us (fun u => Z.abs (slip h u))) in *. set (y := zs Us (fun u => Z.abs (cell h u))) in *.
      etransitivity; [apply Z.mul_le_mono_nonneg_l; [exact S0|exact A1]|]. rewrite Z.mul_add_distr_l. etransitivity; [apply Z.add_le_mono; [apply Z.mul_le_mono_nonneg_l; [exact S0|exact Sl]|exact A2]|].
      rewrite <- Z.mul_add_distr_l. apply Z.mul_le_mono_nonneg_l; [exact S0|exact A3]. }
    etransitivity; [apply Z.mul_le_mono_nonneg_l; [lia|apply zs_abs]|]. rewrite <- zs_scale.
    etransitivity; [apply (zs_le _ _ (fun _ => S_ * (Z.succ (Z.of_nat n) * Z.of_nat (length w + q + S n) * B * K)))|].
    + intros h Hh. apply in_tapes in Hh. apply C. exact Hh.
    + rewrite zs_const, tapes_length. apply Z.eq_le_incl. unfold K. ring.
  - assert (E : gap L n (Guess b) w = 0).
    { unfold gap. rewrite (zs_ext _ _ (fun _ => 0)); [rewrite zs_const; lia|]. intros t _. rewrite (zs_ext _ _ (fun _ => 0)); [rewrite zs_const; lia|]. intros us _. cbn [watchReal watchSim]. lia. }
    rewrite E. cbn [Z.abs]. rewrite Z.mul_0_r. apply Z.mul_nonneg_nonneg; [|apply Pw]. apply Z.mul_nonneg_nonneg; [|exact B0]. lia.
Qed.
Lemma yes_gap L n f : yes L Us n (real f []) - yes L Us n (sim f []) = gap L n f [].
Proof. unfold yes, gap. rewrite !zs_filter, !zs_prod, <- zs_sub. apply zs_ext. intros t _. rewrite <- zs_sub. reflexivity. Qed.
Lemma hide_bound f q n L : watches good q n f -> (32 * (q + n) <= L)%nat ->
  S_ * Z.abs (yes L Us n (real f []) - yes L Us n (sim f [])) <= Z.of_nat (n * (q + n)) * B * (256 ^ Z.of_nat L * S_ ^ Z.of_nat n).
Proof. intros H HL. rewrite yes_gap. etransitivity; [apply (gap_bound f q n [] L H HL)|]. cbn [length Nat.add]. rewrite Nat2Z.inj_mul. reflexivity. Qed.
End Hide.
