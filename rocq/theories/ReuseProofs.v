(** * Proofs about repeated and known draws *)
From Coq Require Import ZArith List Lia Bool.
From Verif Require Import Go Wire Big Spec SpecZk FieldN ZkBase Crypto Gspfs Equivalence Consistency Disjunctive Abc Koblitz Signature FieldP PubKey Order SpecBtc SpecReuse GspfsProofs EcdsaProofs.
Import ListNotations.
Open Scope Z_scope.

Lemma quot_ok a b x : b mod N <> 0 -> a mod N = (b * x) mod N -> quot a b = x mod N.
Proof.
  intros B E. unfold quot. pose proof (ninv_ok b B) as I. generalize dependent (ninv b). intros w I.
  rewrite <- Zmult_mod_idemp_l, E, Zmult_mod_idemp_l. replace (b * x * w) with (w * b * x) by ring. rewrite <- Zmult_mod_idemp_l, I, Z.mul_1_l. reflexivity.
Qed.
Lemma sc_nz a b : 0 <= a < N -> 0 <= b < N -> a <> b -> (a - b) mod N <> 0.
Proof.
  intros A B D E. apply D. rewrite <- (Z.mod_small a N A), <- (Z.mod_small b N B). apply Z.mod_divide in E; [|discriminate]. destruct E as (k & E).
  replace a with (b + k * N) by lia. apply Z.mod_add. discriminate.
Qed.
Lemma chal_range sha zk ps c : cN (zC zk) = N -> Challenge sha zk ps = Ok c -> 0 <= c < N.
Proof. intros E. unfold Challenge. destruct (allBytes ps); cbn [bind]; [|discriminate]. intros X. injection X as <-. unfold GenerateChallenge. rewrite E. apply Z.mod_pos_bound. reflexivity. Qed.
(** two responses with the same draw *)
Lemma two u c1 c2 x : (c1 - c2) mod N <> 0 -> quot ((u + c1 * (x mod N)) mod N - (u + c2 * (x mod N)) mod N) (c1 - c2) = x mod N.
Proof.
  intros D. transitivity ((x mod N) mod N); [|apply Zmod_mod]. generalize (x mod N). intros y. apply quot_ok; [exact D|]. rewrite <- Zminus_mod. f_equal. ring.
Qed.
Lemma congr a b : (a - b) mod N = 0 -> a mod N = b mod N.
Proof. intros E. apply Z.mod_divide in E; [|discriminate]. destruct E as (k & E). replace a with (b + k * N) by lia. apply Z.mod_add. discriminate. Qed.

Ltac go H := repeat match type of H with
  | bind ?r _ = _ => let E := fresh "E" in destruct r eqn:E; cbn [bind] in H; [|discriminate H]
  | (if ?b then _ else _) = _ => destruct b; try discriminate H
  end.
Lemma gspfs_shape sha zk B A x u p : cN (zC zk) = N -> NewGSPFSProofBase sha zk B A (Some x) (Some u) = Ok (Some p, None) ->
  exists c, 0 <= c < N /\ gsChallenge p = Some c /\ gsHiddenValue p = Some ((u - c * (x mod N)) mod N).
Proof.
  intros EN H. unfold NewGSPFSProofBase in H. rewrite EN in H. cbn [need bind] in H. go H. injection H as <-. eexists. split; [eapply chal_range; eassumption|]. split; reflexivity.
Qed.
Lemma equiv_shape sha zk B1 R1 B2 R2 x u p : cN (zC zk) = N -> NewEquivalenceProof sha zk B1 R1 B2 R2 (Some x) (Some u) = Ok (Some p, None) ->
  exists c, 0 <= c < N /\ eqChallenge p = Some c /\ eqHiddenValue p = Some ((u + c * (x mod N)) mod N).
Proof.
  intros EN H. unfold NewEquivalenceProof in H. rewrite EN in H. cbn [need bind] in H. go H. injection H as <-. eexists. split; [eapply chal_range; eassumption|]. split; reflexivity.
Qed.
Lemma cons_shape sha zk CM CMT PK v r u1 u2 p : cN (zC zk) = N -> NewConsistencyProof sha zk CM CMT PK (Some v) (Some r) (Some u1) (Some u2) = Ok (Some p, None) ->
  exists c, 0 <= c < N /\ cnChallenge p = Some c /\ cnS1 p = Some ((u1 + v mod N * c) mod N) /\ cnS2 p = Some ((u2 + r * c) mod N).
Proof.
  intros EN H. unfold NewConsistencyProof in H. rewrite EN in H. cbn [need] in H. go H. injection H as <-.
  repeat match goal with E : Ok _ = Ok _ |- _ => injection E as <- end. eexists. split; [eapply chal_range; eassumption|]. repeat split; reflexivity.
Qed.
Lemma disj_shape sha zk B1 R1 B2 R2 x side u1 u2 u3 p : cN (zC zk) = N -> NewDisjunctiveProof sha zk B1 R1 B2 R2 (Some x) side (Some u1) (Some u2) (Some u3) = Ok (Some p, None) ->
  exists d, 0 <= d < N /\ (side = Left /\ djC1 p = Some d /\ djS1 p = Some (u1 + d * (x mod N)) \/ side = Right /\ djC2 p = Some d /\ djS2 p = Some (u1 + d * (x mod N))).
Proof.
  intros EN H. unfold NewDisjunctiveProof in H. cbn [need bind] in H. destruct (side =? Left) eqn:SL.
  - apply Z.eqb_eq in SL. unfold disjProve in H. rewrite EN in H. go H. injection H as <-. eexists. split; [|left; split; [exact SL|split; reflexivity]]. apply Z.mod_pos_bound. reflexivity.
  - destruct (side =? Right) eqn:SR; [|discriminate]. apply Z.eqb_eq in SR. unfold disjProve in H. rewrite EN in H. go H. injection H as <-. eexists. split; [|right; split; [exact SR|split; reflexivity]]. apply Z.mod_pos_bound. reflexivity.
Qed.
Lemma ok_inj {A : Type} (a b : A) : Ok a = Ok b -> a = b. Proof. intros E. congruence. Qed.
Lemma need_inv sk z : need (modInverse sk N) = Ok z -> sk mod N <> 0 /\ z = ninv sk.
Proof.
  intros E. destruct (Z.eq_dec (sk mod N) 0) as [S|S]; [rewrite (modInverse_none sk S) in E; discriminate E|]. rewrite (modInverse_some sk S) in E. split; [exact S|].
  apply ok_inj. symmetry. exact E.
Qed.
Lemma finish_shape sha zk CM CMT v sk u1 u2 u3 ub uc B C CT dj p : cN (zC zk) = N -> abcFinish sha zk CM CMT v sk u1 u2 u3 ub uc B C CT dj = Ok (Some p, None) ->
  exists c, 0 <= c < N /\ sk mod N <> 0 /\ abChallenge p = Some c /\ abj p = Some ((u1 + v * c) mod N) /\ abk p = Some ((u2 + ninv sk * c) mod N).
Proof.
  intros EN H. unfold abcFinish in H. rewrite EN in H. go H. injection H as <-. eexists. split; [eapply chal_range; eassumption|].
  match goal with E : need (modInverse sk N) = Ok ?z |- _ => assert (sk mod N <> 0 /\ z = ninv sk) as [NZ ->] end.
  { apply need_inv. assumption. }
  split; [exact NZ|]. split; [reflexivity|]. split; reflexivity.
Qed.
Lemma abc_shape sha zk CM CMT v sk side rn p : cN (zC zk) = N -> NewABCProof sha zk CM CMT (Some v) (Some sk) side rn = Ok (Some p, None) ->
  exists c u1 u2, ar1 rn = Some u1 /\ ar2 rn = Some u2 /\ 0 <= c < N /\ sk mod N <> 0 /\ abChallenge p = Some c /\ abj p = Some ((u1 + v * c) mod N) /\ abk p = Some ((u2 + ninv sk * c) mod N).
Proof.
  intros EN H. unfold NewABCProof in H. destruct (ar1 rn) as [u1|]; [|discriminate]. destruct (ar2 rn) as [u2|]; [|discriminate]. destruct (ar3 rn) as [u3|]; [|discriminate].
  destruct (arb rn) as [ub|]; [|discriminate]. destruct (arc rn) as [uc|]; [|discriminate]. cbn [need] in H.
  destruct (Mult zk (zH zk) (Some sk)) as [Hsk|]; cbn [bind] in H; [|discriminate]. destruct (Mult zk Hsk (Some uc)); cbn [bind] in H; [|discriminate].
  assert ((if (side =? Left) || (side =? Right) then Ok v else Ok 0) = Ok (if (side =? Left) || (side =? Right) then v else 0)) as X by (destruct (_ || _); reflexivity).
  rewrite X in H. clear X. cbn [bind] in H. destruct (side =? Left) eqn:SL; cbn [orb] in H.
  - destruct (v =? 0) eqn:V; cbn [andb negb] in H.
    + go H. destruct (finish_shape _ _ _ _ _ _ _ _ _ _ _ _ _ _ _ _ EN H) as (c & F). exists c, u1, u2. auto.
    + rewrite andb_true_r in H. destruct (side =? Right); cbn [andb] in H; [|discriminate].
      go H. destruct (finish_shape _ _ _ _ _ _ _ _ _ _ _ _ _ _ _ _ EN H) as (c & F). exists c, u1, u2. auto.
  - cbn [andb] in H. destruct (side =? Right); cbn [andb] in H; [|discriminate]. destruct (v =? 0); cbn [negb] in H; [discriminate|].
    go H. destruct (finish_shape _ _ _ _ _ _ _ _ _ _ _ _ _ _ _ _ EN H) as (c & F). exists c, u1, u2. auto.
Qed.

(** ** signatures *)
Lemma low_sign s : 0 < s < N -> exists t, (t = 1 \/ t = -1) /\ exists q, low s = t * s + q * N.
Proof. intros H. unfold low. destruct (s <=? N / 2); [exists 1; split; [left; reflexivity|exists 0; ring]|exists (-1); split; [right; reflexivity|exists 1; ring]]. Qed.
Lemma sig_shape c D k h s : curve_ok c -> 0 < k < N -> signNonce c D k h = Ok (Val s) -> sR s <> N ->
  0 < sR s < N /\ sR s = redx (fst (smul k G)) /\ exists t q, (t = 1 \/ t = -1) /\ sS s = t * ((D * sR s + digest h) * ninv k) + q * N.
Proof.
  intros C Hk E HN. destruct (sign_valid c C D k h s Hk E HN) as (_ & Hr & _). split; [exact Hr|]. rewrite (signNonce_ok c C) in E by exact Hk.
  destruct (sig0 D k h =? 0) eqn:E0; [discriminate|]. apply Z.eqb_neq in E0. assert (S0 : 0 < sig0 D k h < N).
  { assert (0 <= sig0 D k h < N) by (apply Z.mod_pos_bound; reflexivity). lia. }
  destruct (low_sign _ S0) as (t & T & q & L). assert (s = {| sR := redx (fst (smul k G)); sS := low (sig0 D k h) |}) as -> by congruence. cbn [sR sS] in *.
  split; [reflexivity|]. rewrite L. unfold sig0. generalize ((D * redx (fst (smul k G)) + digest h) * ninv k). intros a. exists t, (q - t * (a / N)). split; [exact T|].
  rewrite (Z.mod_eq a N) by discriminate. ring.
Qed.
Lemma shift a b k : a - b = k * N -> a mod N = b mod N.
Proof. intros E. replace a with (b + k * N) by lia. apply Z.mod_add. discriminate. Qed.
Lemma unit_sq t : (t = 1 \/ t = -1) -> t * t = 1. Proof. intros [-> | ->]; reflexivity. Qed.
Lemma inv_mult w k : (w * k) mod N = 1 -> exists j, w * k = 1 + j * N.
Proof.
  generalize (w * k). intros a W. exists (a / N). pose proof (Z.div_mod a N ltac:(discriminate)) as D. rewrite W in D. rewrite D at 1. ring.
Qed.
Lemma known_id n D r e k w t q j : t * t = 1 -> w * k = 1 + j * n -> t * (t * ((D * r + e) * w) + q * n) * k - e - r * D = ((D * r + e) * j + t * q * k) * n.
Proof. intros T J. replace (t * (t * ((D * r + e) * w) + q * n) * k) with ((t * t) * (D * r + e) * (w * k) + t * q * k * n) by ring. rewrite T, J. ring. Qed.
Lemma known D r e k w t q s : (w * k) mod N = 1 -> r mod N <> 0 -> (t = 1 \/ t = -1) -> s = t * ((D * r + e) * w) + q * N -> quot (t * s * k - e) r = D mod N.
Proof.
  intros W R T ->. apply quot_ok; [exact R|]. destruct (inv_mult _ _ W) as (j & J). eapply shift. exact (known_id N D r e k w t q j (unit_sq t T) J).
Qed.
Lemma nz_prod a b : a mod N <> 0 -> b mod N <> 0 -> (a * b) mod N <> 0.
Proof.
  intros A B E. apply Z.mod_divide in E; [|discriminate]. apply Znumtheory.prime_mult in E; [|exact prime_N].
  destruct E as [E|E]; [apply A|apply B]; apply Z.mod_divide; try exact E; discriminate.
Qed.
Lemma diff_id n D r e1 e2 k w t1 q1 t2 q2 j f : t1 * t1 = 1 -> t2 * t2 = 1 -> w * k = 1 + j * n ->
  t1 * ((D * r + e1) * w) + q1 * n - t1 * t2 * (t2 * ((D * r + e2) * w) + q2 * n) = f * n ->
  e1 - e2 = (t1 * k * f - (t1 * k * q1 - t2 * k * q2) - j * (e1 - e2)) * n.
Proof.
  intros T1 T2 J F. apply (f_equal (Z.mul (t1 * k))) in F.
  replace (t1 * k * (t1 * ((D * r + e1) * w) + q1 * n - t1 * t2 * (t2 * ((D * r + e2) * w) + q2 * n))) with
    ((t1 * t1) * (w * k) * (D * r + e1) - (t1 * t1) * (t2 * t2) * (w * k) * (D * r + e2) + (t1 * k * q1 - (t1 * t1) * t2 * k * q2) * n) in F by ring.
  rewrite T1, T2, J in F.
  replace ((t1 * k * f - (t1 * k * q1 - t2 * k * q2) - j * (e1 - e2)) * n) with (t1 * k * (f * n) - (t1 * k * q1 - t2 * k * q2) * n - j * (e1 - e2) * n) by ring.
  rewrite <- F. ring.
Qed.
Lemma rep_id n D r e1 e2 w t1 q1 t2 q2 : t2 * t2 = 1 ->
  t1 * t2 * (t2 * ((D * r + e2) * w) + q2 * n) * e1 - (t1 * ((D * r + e1) * w) + q1 * n) * e2 -
  r * (t1 * ((D * r + e1) * w) + q1 * n - t1 * t2 * (t2 * ((D * r + e2) * w) + q2 * n)) * D = (t1 * t2 * q2 * (e1 + r * D) - q1 * (e2 + r * D)) * n.
Proof.
  intros T2. transitivity (t1 * ((t2 * t2) - 1) * w * (D * r + e1) * (D * r + e2) + (t1 * t2 * q2 * (e1 + r * D) - q1 * (e2 + r * D)) * n); [ring|]. rewrite T2. ring.
Qed.
Lemma repeated D r e1 e2 k w t1 q1 s1 t2 q2 s2 : (w * k) mod N = 1 -> r mod N <> 0 -> e1 mod N <> e2 mod N -> (t1 = 1 \/ t1 = -1) -> (t2 = 1 \/ t2 = -1) ->
  s1 = t1 * ((D * r + e1) * w) + q1 * N -> s2 = t2 * ((D * r + e2) * w) + q2 * N ->
  quot (t1 * t2 * s2 * e1 - s1 * e2) (r * (s1 - t1 * t2 * s2)) = D mod N.
Proof.
  intros W R NE T1 T2 -> ->. pose proof (unit_sq _ T1) as TT1. pose proof (unit_sq _ T2) as TT2. destruct (inv_mult _ _ W) as (j & J). apply quot_ok.
  - apply nz_prod; [exact R|]. intros F. apply NE. apply Z.mod_divide in F; [|discriminate]. destruct F as (f & F). eapply shift. exact (diff_id N D r e1 e2 k w t1 q1 t2 q2 j f TT1 TT2 J F).
  - eapply shift. exact (rep_id N D r e1 e2 w t1 q1 t2 q2 TT2).
Qed.
Lemma same_r c D k h s r : curve_ok c -> 0 < k < N -> signNonce c D k h = Ok (Val s) -> r = redx (fst (smul k G)) -> r <> N ->
  r = sR s /\ exists t q, (t = 1 \/ t = -1) /\ sS s = t * ((D * sR s + digest h) * ninv k) + q * N.
Proof.
  intros C Hk E -> HN. assert (sR s = redx (fst (smul k G))) as R.
  { rewrite (signNonce_ok c C) in E by exact Hk. destruct (sig0 D k h =? 0); [discriminate|]. assert (s = {| sR := redx (fst (smul k G)); sS := low (sig0 D k h) |}) as -> by congruence. reflexivity. }
  split; [symmetry; exact R|]. rewrite <- R in HN. destruct (sig_shape c D k h s C Hk E HN) as (_ & _ & X). exact X.
Qed.
Lemma nonce_pos sha fuel x h k : nonceRFC6979 sha fuel x h = Some k -> 0 < k < N.
Proof.
  unfold nonceRFC6979. cbv zeta. match goal with |- nonceLoop _ _ ?a ?b = _ -> _ => generalize a, b end. induction fuel as [|f IH]; intros a b; cbn [nonceLoop]; [discriminate|]. cbv zeta.
  match goal with |- (if ?c then _ else _) = _ -> _ => destruct c eqn:X end; [|apply IH]. intros E. injection E as <-. apply andb_true_iff in X. destruct X as [X1 X2]. apply Z.leb_le in X1. apply Z.ltb_lt in X2. change curveN with N in X2. lia.
Qed.

(** ** one response with a known draw, and other forms *)
Lemma sc_nz0 c : 0 <= c < N -> c <> 0 -> c mod N <> 0. Proof. intros C D. rewrite (Z.mod_small _ _ C). exact D. Qed.
Lemma red u c x : (u + c * x) mod N = (u + c * (x mod N)) mod N.
Proof. rewrite <- (Zplus_mod_idemp_r (c * x)), <- (Zplus_mod_idemp_r (c * (x mod N))), Zmult_mod_idemp_r. reflexivity. Qed.
Lemma one u c x : 0 <= c < N -> c <> 0 -> quot ((u + c * (x mod N)) mod N - u) c = x mod N.
Proof. intros C D. transitivity ((x mod N) mod N); [|apply Zmod_mod]. generalize (x mod N). intros y. apply quot_ok; [exact (sc_nz0 c C D)|]. rewrite Zminus_mod_idemp_l. f_equal. ring. Qed.
Lemma one_raw u c x : 0 <= c < N -> c <> 0 -> quot (u + c * (x mod N) - u) c = x mod N.
Proof. intros C D. transitivity ((x mod N) mod N); [|apply Zmod_mod]. generalize (x mod N). intros y. apply quot_ok; [exact (sc_nz0 c C D)|]. f_equal. ring. Qed.
Lemma two_raw u c1 c2 x : (c1 - c2) mod N <> 0 -> quot (u + c1 * (x mod N) - (u + c2 * (x mod N))) (c1 - c2) = x mod N.
Proof. intros D. transitivity ((x mod N) mod N); [|apply Zmod_mod]. generalize (x mod N). intros y. apply quot_ok; [exact D|]. f_equal. ring. Qed.
Lemma inverse_gen d k w sk : d mod N <> 0 -> k mod N = (d * w) mod N -> (w * sk) mod N = 1 -> quot d k = sk mod N.
Proof.
  intros D K W. apply quot_ok.
  - rewrite K. apply nz_prod; [exact D|]. intros F. rewrite <- Zmult_mod_idemp_l, F, Z.mul_0_l, Zmod_0_l in W. discriminate W.
  - rewrite <- (Zmult_mod_idemp_l k), K, Zmult_mod_idemp_l, <- Z.mul_assoc, <- Zmult_mod_idemp_r, W, Z.mul_1_r. reflexivity.
Qed.
Lemma inverse_two u c1 c2 w sk : (c1 - c2) mod N <> 0 -> (w * sk) mod N = 1 -> quot (c1 - c2) ((u + c1 * w) mod N - (u + c2 * w) mod N) = sk mod N.
Proof. intros D W. apply (inverse_gen _ _ w); [exact D| |exact W]. rewrite <- Zminus_mod. f_equal. ring. Qed.
Lemma inverse_one u c w sk : 0 <= c < N -> c <> 0 -> (w * sk) mod N = 1 -> quot c ((u + c * w) mod N - u) = sk mod N.
Proof. intros C D W. apply (inverse_gen _ _ w); [exact (sc_nz0 c C D)| |exact W]. rewrite Zminus_mod_idemp_l. f_equal. ring. Qed.
