(** * Proofs about sizes: the inequality proof, signatures, messages, and runs of the
      range prover whose numbers have no leading zero byte (proof only) *)
From Coq Require Import ZArith List Lia Bool.
From Verif Require Import Go Wire SpecWire Big Crypto Spec FieldP CurveGroup Order FieldN CurveZ GMult SpecZk SpecCodec CodecProofs ZkBase PointProofs
  Disjunctive DisjProofs PropDisj Abc AbcProofs Range SpecRange RangeProofs WireProofsZk SpecSize SizeProofs SizeProofs2 LeakProofs SpecBtc Signature DerProofs SpecCipher CipherProofs Ciphering SpecCurve.
Import ListNotations.
Open Scope Z_scope.

(** ** A range prover run without leading zero bytes *)
Definition takesb (p : point) : bool := (256 ^ 31 <=? fst p) && (256 ^ 31 <=? snd p) && (256 ^ 31 <=? P - snd p).
(** multiples of G with the sums that give them from doublings *)
Definition multiples : list (positive * (nat * list (nat * bool * Z))) :=
  [(4%positive, (2%nat, []));
   (5%positive, (2%nat, [(0%nat, true, 0x82b5a391701db61f5678809054594a583cc8b36b2a608ad9d28e6dc6eb6b1b61)]));
   (6%positive, (2%nat, [(1%nat, true, 0xd8d5ccaa108efee7f448f7083d3956148d8c7c407371b484b68cb06f239bb723)]));
   (189%positive, (7%nat, [(6%nat, true, 0x2c91c953b1c4bbca3c6ea889bfecfb14b8b38c42726cd4181241919036dfede3); (1%nat, false, 0x2b0b84bb6f64285432aef97afa31412d802c8ed33417287fae8c503c739c1a3f); (0%nat, false, 0xd1a40c0681036c1484ae7981331539eb09dfd1ace93ad78f348336c5e37ae7af)]));
   (191%positive, (7%nat, [(6%nat, true, 0x2c91c953b1c4bbca3c6ea889bfecfb14b8b38c42726cd4181241919036dfede3); (0%nat, false, 0x84b689fb9deb4bc37d0b54eccad405d281a460c7ceee4e6c5f9133bf8f1ae18f)]));
   (200%positive, (7%nat, [(6%nat, true, 0x2c91c953b1c4bbca3c6ea889bfecfb14b8b38c42726cd4181241919036dfede3); (3%nat, true, 0x15dbb59e8a012a10aaeb773b6f5a4d4b84f9948313b48c9cc03d9f8b0a3d7573)]))].
Definition fullBy (c : positive * (nat * list (nat * bool * Z))) : bool :=
  match multG (fst (snd c)) (snd (snd c)) with Some (k, r) => (k =? Zpos (fst c)) && takesb r | None => false end.
Lemma multiples_full : forallb fullBy multiples = true.
Proof. vm_compute. reflexivity. Qed.
Lemma P_32 : P < 256 ^ 32. Proof. reflexivity. Qed.
Lemma takes_pt p : is_point p -> takesb p = true -> takesPt 32 (pt p) /\ takesPt 32 (pt (pneg p)).
Proof.
  intros H T. assert (B : 0 <= fst p < P /\ 0 <= snd p < P).
  { destruct H as [->|(A & B & _)]; [split; split; (discriminate || reflexivity)|split; assumption]. }
  destruct B as [[A1 A2] [B1 B2]]. unfold takesb in T. apply andb_true_iff in T as [T T3]. apply andb_true_iff in T as [T1 T2].
  apply Z.leb_le in T1, T2, T3. pose proof P_32 as P32.
  assert (K : forall z, 256 ^ 31 <= z -> z < P -> takes 32 z).
  { intros z L M. unfold takes. change (32 - 1) with 31. assert (0 <= 256 ^ 31) by discriminate. rewrite Z.abs_eq by lia. lia. }
  assert (Q : 0 < snd p). { assert (0 < 256 ^ 31) by reflexivity. lia. }
  assert (E : (- snd p) mod P = P - snd p).
  { rewrite <- (Z_mod_plus_full (- snd p) 1 P). replace (- snd p + 1 * P) with (P - snd p) by ring. apply Z.mod_small. lia. }
  split; [exists (fst p), (snd p)|exists (fst p), (P - snd p)]; (split; [|split; apply K; try assumption; lia]).
  - reflexivity.
  - unfold pneg. rewrite E. reflexivity.
Qed.
Lemma full_multiple n c m : In (n, c) multiples -> m = Zpos n \/ m = Zneg n -> takesPt 32 (pt (smul m G)).
Proof.
  intros I M. pose proof (proj1 (forallb_forall _ _) multiples_full (n, c) I) as T. unfold fullBy in T. cbn [fst snd] in T.
  destruct (multG (fst c) (snd c)) as [[k r]|] eqn:Ek; [|discriminate T]. destruct (multG_ok _ _ _ _ Ek) as [_ Er].
  apply andb_true_iff in T as [T0 T]. apply Z.eqb_eq in T0. subst k. rewrite <- Er in T.
  assert (Q : is_point (smul (Zpos n) G)) by isp. destruct (takes_pt _ Q T) as [T1 T2]. destruct M as [-> | ->]; [exact T1|].
  rewrite <- smul_opp in T2 by isp. exact T2.
Qed.
Lemma fm4 m : m = 4 \/ m = -4 -> takesPt 32 (pt (smul m G)). Proof. apply (full_multiple 4 (nth 0 (map snd multiples) (0%nat, []))). left. reflexivity. Qed.
Lemma fm5 m : m = 5 \/ m = -5 -> takesPt 32 (pt (smul m G)). Proof. apply (full_multiple 5 (nth 1 (map snd multiples) (0%nat, []))). right. left. reflexivity. Qed.
Lemma fm6 m : m = 6 \/ m = -6 -> takesPt 32 (pt (smul m G)). Proof. apply (full_multiple 6 (nth 2 (map snd multiples) (0%nat, []))). do 2 right. left. reflexivity. Qed.
Lemma fm189 m : m = 189 \/ m = -189 -> takesPt 32 (pt (smul m G)). Proof. apply (full_multiple 189 (nth 3 (map snd multiples) (0%nat, []))). do 3 right. left. reflexivity. Qed.
Lemma fm191 m : m = 191 \/ m = -191 -> takesPt 32 (pt (smul m G)). Proof. apply (full_multiple 191 (nth 4 (map snd multiples) (0%nat, []))). do 4 right. left. reflexivity. Qed.
Lemma fm200 m : m = 200 \/ m = -200 -> takesPt 32 (pt (smul m G)). Proof. apply (full_multiple 200 (nth 5 (map snd multiples) (0%nat, []))). do 5 right. left. reflexivity. Qed.
Lemma N_odd k : 2 * k <> N.
Proof. intros E. apply (f_equal Z.odd) in E. rewrite Z.odd_mul in E. discriminate E. Qed.
Lemma mod_neg n k : (n - k) mod n = (- k) mod n.
Proof. replace (n - k) with (- k + 1 * n) by ring. apply Z_mod_plus_full. Qed.
Lemma big_multiple : exists k s, scalar k /\ N <= 2 * k /\ (s = 1 \/ s = -1) /\ smul k Htab = smul (5 * s) G.
Proof.
  destruct (Htab_gen 5) as [k0 E0]. assert (E : smul (k0 mod N) Htab = smul 5 G) by (rewrite smul_mod by isp; exact E0).
  assert (B : scalar (k0 mod N)) by (apply Z.mod_pos_bound; reflexivity). set (k := k0 mod N) in *. clearbody k. clear E0 k0.
  destruct (Z.le_gt_cases N (2 * k)) as [L|L].
  - exists k, 1. split; [exact B|]. split; [exact L|]. split; [left; reflexivity|exact E].
  - exists (N - k), (-1). assert (K : k <> 0).
    { intros ->. rewrite smul_0 in E. rewrite <- (smul_0 G) in E. apply smul_G_inj in E. discriminate E. }
    destruct B as [B1 B2]. assert (A : 0 <= N - k < N /\ N <= 2 * (N - k)) by (revert B1 B2 L K; generalize N; clear; intros; lia). split; [exact (proj1 A)|]. split; [exact (proj2 A)|]. split; [right; reflexivity|].
    change (5 * -1) with (- (5)). rewrite smul_opp by isp. rewrite <- E, <- smul_opp by isp.
    rewrite <- (smul_mod (N - k)) by isp. rewrite <- (smul_mod (- k)) by isp. rewrite (mod_neg N k). reflexivity.
Qed.
Lemma pow_not6 i : (i < 64)%nat -> 2 ^ Z.of_nat i <> 6.
Proof. intros H E. assert (L : Z.log2 (2 ^ Z.of_nat i) = Z.of_nat i) by (apply Z.log2_pow2; lia). rewrite E in L. change (Z.log2 6) with 2 in L. rewrite <- L in E. discriminate E. Qed.
Lemma bit01 v i : v = 0 \/ v = 1 -> rangeBit v i = (v =? 1) && Nat.eqb i 0.
Proof.
  intros [-> | ->]; unfold rangeBit; [rewrite Z.bits_0; reflexivity|]. destruct i as [|i]; [reflexivity|].
  cbn [Nat.eqb]. change ((1 =? 1) && false) with false. change 1 with (2 ^ 0). apply Z.pow2_bits_false. lia.
Qed.
Lemma m1_digest v d1 d2 : honDigest (shaC (N - 1)) 40 v d1 d2 mod N = N - 1.
Proof. rewrite digest_shaC; [reflexivity|]. split; [discriminate|reflexivity]. Qed.
Lemma m1_H i j : honH (shaC (N - 1)) (N - 1) i j = N - 1.
Proof. unfold honH. apply hs_shaC. split; [discriminate|reflexivity]. Qed.
Lemma m1_smul m : smul (N - 1) (smul m G) = smul (- m) G.
Proof. rewrite <- smul_mul by isp. apply smul_G_inj. replace ((N - 1) * m) with (- m + m * N) by ring. apply Z_mod_plus_full. Qed.
Lemma m1_nz : (N - 1) mod N <> 0. Proof. intros E. vm_compute in E. discriminate E. Qed.
(** the commitment of each bit *)
Lemma ex_C k s v i : smul k Htab = smul (5 * s) G -> v = 0 \/ v = 1 ->
  honC (shaC (N - 1)) (N - 1) i (rangeBit v i) k 7 = smul (if rangeBit v i then 1 + 5 * s else - (5 * s)) G.
Proof.
  intros Ek Hv. unfold honC. rewrite m1_H, ninv_m1. destruct (rangeBit v i) eqn:B.
  - rewrite bit01 in B by exact Hv. apply andb_true_iff in B as [_ B]. apply Nat.eqb_eq in B. subst i. unfold honC1. change (2 ^ Z.of_nat 0) with 1.
    rewrite Ek, <- smul_add by isp. reflexivity.
  - rewrite Ek. apply m1_smul.
Qed.
Lemma ex_draws k s v : smul k Htab = smul (5 * s) G -> s = 1 \/ s = -1 -> v = 0 \/ v = 1 ->
  goodDraws (shaC (N - 1)) 40 v (fun _ => k) (fun _ => 5) (fun _ => 7).
Proof.
  intros Ek Hs Hv i Hi. rewrite m1_digest. unfold honOk. rewrite (ex_C k s v i Ek Hv).
  assert (B : 0 < 2 ^ Z.of_nat i < 2 ^ 63) by (split; [apply Z.pow_pos_nonneg; lia|apply Z.pow_lt_mono_r; lia]). pose proof (pow_not6 i ltac:(lia)) as N6.
  rewrite <- smul_opp, <- smul_add by isp. rewrite m1_H, Ek.
  destruct (rangeBit v i) eqn:Eb.
  - rewrite bit01 in Eb by exact Hv. apply andb_true_iff in Eb as [_ Eb]. apply Nat.eqb_eq in Eb. subst i. change (2 ^ Z.of_nat 0) with 1 in *.
    split; [apply plain_small; lia|]. split; [apply plain_small; lia|discriminate].
  - clear Ek Hv Eb. revert B N6. generalize (2 ^ Z.of_nat i). intros x B N6. change (2 ^ 63) with 9223372036854775808 in B.
    assert (A : - 2 ^ 64 < - (5 * s) < 2 ^ 64 /\ - (5 * s) <> -1 /\ - 2 ^ 64 < - (5 * s) + - x < 2 ^ 64 /\ - (5 * s) + - x <> -1 /\ - 2 ^ 64 < 5 * s < 2 ^ 64 /\ 5 * s <> -1)
      by (change (2 ^ 64) with 18446744073709551616; destruct Hs; subst s; lia).
    destruct A as (A1 & A2 & A3 & A4 & A5 & A6). split; [apply plain_small; assumption|]. split; [apply plain_small; assumption|]. intros _. split; [apply plain_small; assumption|exact m1_nz].
Qed.
(** the sum of the blindings *)
Lemma zsum_const (f : nat -> Z) c l : (forall i, In i l -> f i = c) -> zsum (map f l) = Z.of_nat (length l) * c.
Proof.
  induction l as [|i l IH]; intros H; cbn [map zsum length]; [reflexivity|]. rewrite (H i (or_introl eq_refl)), IH by (intros; apply H; right; assumption). lia.
Qed.
Lemma ex_vt k v : v = 0 \/ v = 1 ->
  honVt (shaC (N - 1)) (N - 1) 40 v (fun _ => k) (fun _ => 7) = (if v =? 1 then 1 + 39 * (N - 1) else 40 * (N - 1)) * k.
Proof.
  intros Hv. unfold honVt, honV. change (seq 0 40) with (0%nat :: seq 1 39). cbn [map zsum]. rewrite bit01, m1_H, ninv_m1 by exact Hv.
  change (Nat.eqb 0 0) with true. rewrite andb_true_r.
  rewrite (zsum_const _ ((N - 1) * k)).
  2:{ intros i Hi. apply in_seq in Hi. rewrite bit01, m1_H, ninv_m1 by exact Hv. destruct i as [|i]; [lia|]. cbn [Nat.eqb]. rewrite andb_false_r. reflexivity. }
  rewrite seq_length. change (Z.of_nat 39) with 39. generalize (N - 1). intros n. destruct (v =? 1); ring.
Qed.
Lemma ex_agg k s v : smul k Htab = smul (5 * s) G -> s = 1 \/ s = -1 -> v = 0 \/ v = 1 ->
  takesPt 32 (pt (ped (v mod 2 ^ 40) (honVt (shaC (N - 1)) (N - 1) 40 v (fun _ => k) (fun _ => 7)))).
Proof.
  intros Ek Hs Hv. rewrite ex_vt by exact Hv. unfold ped. rewrite smul_mul, Ek, <- smul_mul, <- smul_add by isp.
  assert (M : v mod 2 ^ 40 = v) by (destruct Hv; subst v; reflexivity). rewrite M.
  assert (R : forall a b c, a = b + c * N -> smul a G = smul b G) by (intros a b c ->; apply smul_G_inj, Z_mod_plus_full).
  destruct Hv as [-> | ->]; [change (0 =? 1) with false|change (1 =? 1) with true]; cbv iota.
  - rewrite (R _ (- (200 * s)) (200 * s)) by ring. apply fm200. destruct Hs; subst s; [right|left]; reflexivity.
  - rewrite (R _ (1 - 190 * s) (195 * s)) by ring. destruct Hs; subst s; [apply fm189; right|apply fm191; left]; reflexivity.
Qed.
Lemma takes_gen n a b x : 256 ^ (n - 1) <= a -> b < 256 ^ n -> a <= x <= b -> 0 <= a -> takes n x.
Proof. intros A B X L. unfold takes. rewrite Z.abs_eq by lia. lia. Qed.
Lemma ex_S k v i : scalar k -> N <= 2 * k -> 
  takes (if rangeBit v i then 64 else 96) (honS (shaC (N - 1)) (N - 1) i (rangeBit v i) k 5 7).
Proof.
  intros [K1 K2] L. unfold honS. rewrite m1_H, ninv_m1. set (h := N / 2). assert (Hh : h <= k) by (apply Z.div_le_upper_bound; lia).
  assert (M1 : 0 <= N - 1) by discriminate.
  destruct (rangeBit v i).
  - apply (takes_gen 64 (5 + (N - 1) * h) (5 + (N - 1) * (N - 1))); [apply Z.leb_le; vm_compute; reflexivity|apply Z.ltb_lt; vm_compute; reflexivity| |apply Z.leb_le; vm_compute; reflexivity].
    split; apply Zplus_le_compat_l; apply Z.mul_le_mono_nonneg_l; lia.
  - assert (M2 : 0 <= (N - 1) * (N - 1)) by (apply Z.mul_nonneg_nonneg; assumption).
    apply (takes_gen 96 (7 + h * ((N - 1) * (N - 1))) (7 + (N - 1) * ((N - 1) * (N - 1)))); [apply Z.leb_le; vm_compute; reflexivity|apply Z.ltb_lt; vm_compute; reflexivity| |apply Z.leb_le; vm_compute; reflexivity].
    split; apply Zplus_le_compat_l; apply Z.mul_le_mono_nonneg_r; try assumption; lia.
Qed.
Lemma some_inj {A} (a b : A) : Some a = Some b -> a = b. Proof. congruence. Qed.
Lemma ex_run k s v zk : std zk -> scalar k -> N <= 2 * k -> smul k Htab = smul (5 * s) G -> s = 1 \/ s = -1 -> v = 0 \/ v = 1 ->
  exists pf vt, NewRangeProof (shaC (N - 1)) zk (Some v) (draws (fun _ => k) (fun _ => 5) (fun _ => 7)) = Ok (Some pf, Some vt, None) /\ fullRange v pf.
Proof.
  intros S K L Ek Hs Hv. pose proof (run_ok (shaC (N - 1)) zk S 40 v (fun _ => k) (fun _ => 5) (fun _ => 7) ltac:(lia) (ex_draws k s v Ek Hs Hv) eq_refl ltac:(lia)) as R.
  rewrite m1_digest in R. do 2 eexists. split; [exact R|]. clear R. split; [apply (ex_agg k s); assumption|].
  split; [exists (N - 1); split; [reflexivity|split; [discriminate|reflexivity]]|].
  cbn [rpTuples]. unfold tuples, honCs. rewrite map_map. cbn [fst snd]. split; [rewrite map_length, seq_length; reflexivity|].
  intros i t E. rewrite nth_error_map in E. destruct (nth_error (seq 0 40) i) as [i'|] eqn:Ei; [|discriminate E].
  assert (Hi : (i < 40)%nat). { assert (Q : nth_error (seq 0 40) i <> None) by congruence. apply nth_error_Some in Q. rewrite seq_length in Q. exact Q. }
  rewrite (nth_error_nth' _ 0%nat), seq_nth in Ei by (rewrite ?seq_length; exact Hi). cbn [Nat.add] in Ei. injection Ei as <-.
  cbn [option_map] in E. apply some_inj in E. subst t. cbn [rtC rtS]. cbv beta. rewrite (ex_C k s v i Ek Hv). split.
  - destruct (rangeBit v i); [|apply fm5; lia]. destruct Hs; subst s; [apply fm6; left|apply fm4; right]; reflexivity.
  - eexists. split; [reflexivity|]. change (Z.testbit v (Z.of_nat i)) with (rangeBit v i). apply ex_S; assumption.
Qed.

(** ** Signatures *)
Lemma der_int_32 b v : der_int b v -> v < 2 ^ 255 -> blen b <= 33 -> blen b <= 32.
Proof.
  intros (B & E & M) V L. destruct b as [|b0 [|b1 r]]; [destruct M|cbn; lia|]. destruct M as [M1 M2].
  destruct (Z.eq_dec (blen (b0 :: b1 :: r)) 33) as [K|K]; [exfalso|lia].
  assert (Lr : blen r = 31) by (unfold blen in *; cbn [length] in K; lia). rewrite !beval_cons in E.
  assert (L1 : blen (b1 :: r) = 32) by (unfold blen in *; cbn [length] in *; lia). rewrite L1, Lr in E.
  inversion B as [|? ? B0 B']; subst. inversion B' as [|? ? B1 Br]; subst. unfold is_byte in B0, B1. cbv beta in B0, B1. pose proof (beval_range r Br) as R.
  change (2 ^ 255) with (128 * 256 ^ 31) in V. change (256 ^ 32) with (256 * 256 ^ 31) in V.
  assert (X : 0 < 256 ^ 31) by reflexivity. set (X31 := 256 ^ 31) in *. clearbody X31.
  destruct (Z.eq_dec b0 0) as [Z0|Z0].
  - specialize (M2 Z0). subst b0. assert (128 * X31 <= b1 * X31) by (apply Z.mul_le_mono_nonneg_r; lia). lia.
  - assert (1 * (256 * X31) <= b0 * (256 * X31)) by (apply Z.mul_le_mono_nonneg_r; lia).
    assert (0 <= b1 * X31) by (apply Z.mul_nonneg_nonneg; lia). lia.
Qed.

(** ** Messages *)
Lemma concat_blocks bs : Forall block bs -> length (concat bs) = (16 * length bs)%nat.
Proof. induction 1 as [|b bs [Hb _] _ IH]; [reflexivity|]. cbn [concat length]. rewrite app_length, Hb, IH. lia. Qed.
Lemma ecies_len sha256 sha512 E D secret iv eph bs m : block_cipher E D -> hash_to 32 sha256 -> hash_to 64 sha512 -> block iv -> Forall block bs ->
  pkcs7 m (concat bs) -> blen (ecies_message sha256 sha512 E secret iv eph bs) = 134 + 16 * (blen m / 16).
Proof.
  intros BC H1 H2 Hi F (k & Hk & Ep & j & Ej). unfold ecies_message. cbv zeta. unfold hmac. cbv zeta. rewrite !blen_app.
  assert (L1 : forall x, blen (sha256 x) = 32) by (intros x; unfold blen; rewrite (proj1 (H1 x)); reflexivity). rewrite L1.
  assert (L2 : forall x, blen (be32 x) = 32) by (intros x; unfold blen; rewrite be32_len; reflexivity). rewrite !L2.
  assert (L3 : blen iv = 16) by (unfold blen; rewrite (proj1 Hi); reflexivity). rewrite L3.
  assert (Fc : Forall block (cbc (E (firstn 32 (sha512 secret))) iv bs)).
  { apply (cbc_blocks E D); try assumption. rewrite firstn_length, (proj1 (H2 secret)). reflexivity. }
  assert (L4 : blen (concat (cbc (E (firstn 32 (sha512 secret))) iv bs)) = 16 * (blen m / 16) + 16).
  { unfold blen. rewrite (concat_blocks _ Fc), cbc_len. rewrite (concat_blocks _ F) in Ej.
    pose proof (f_equal (@length Z) Ep) as El. rewrite (concat_blocks _ F), app_length, repeat_length in El.
    assert (Q : Z.of_nat (length m) / 16 = Z.of_nat (length bs) - 1) by (symmetry; apply (Z.div_unique_pos _ _ _ (16 - Z.of_nat k)); lia). rewrite Q. lia. }
  rewrite L4. change (blen [2; 202; 0; 32]) with 4. change (blen [0; 32]) with 2. ring.
Qed.

(** ** The bounds are attained *)
Definition fullc : Z := N / 2.
Lemma fullc_fs ps : fs (shaC fullc) ps = fullc.
Proof. apply fs_shaC. split; [apply Z.leb_le; vm_compute; reflexivity|apply Z.ltb_lt; vm_compute; reflexivity]. Qed.
Definition takesZ (n z : Z) : bool := (256 ^ (n - 1) <=? Z.abs z) && (Z.abs z <? 256 ^ n).
Lemma takesZ_ok n z : takesZ n z = true -> takes n z.
Proof. intros H. apply andb_true_iff in H as [A B]. split; [apply Z.leb_le; exact A|apply Z.ltb_lt; exact B]. Qed.
Lemma full_int n z : 1 <= n -> takesZ n z = true -> fitsInt n (Some z) (2 + n).
Proof. intros Hn T. apply takesZ_ok in T. exists z. split; [reflexivity|]. rewrite (nb_takes n z Hn T). split; [reflexivity|lia]. Qed.
Lemma full_pt p : is_point p -> takesPt 32 (pt p) -> fitsPt (pt p) 66.
Proof. intros H T. destruct (pt_fits p H) as [k K]. pose proof (takesPt_size _ _ K T). subst k. exact K. Qed.
Lemma full_G : fitsPt (pt G) 66.
Proof. apply full_pt; [isp|]. apply takes_pt; [isp|]. vm_compute. reflexivity. Qed.
Lemma full_Htab : fitsPt (pt Htab) 66.
Proof. apply full_pt; [isp|]. apply takes_pt; [isp|]. vm_compute. reflexivity. Qed.
Lemma abc_run zk CM CT v sk ub : std zk -> is_point CM -> is_point CT -> v mod N <> 0 -> sk mod N <> 0 -> exists pf,
  NewABCProof (shaC (N - 1)) zk (pt CM) (pt CT) (Some v) (Some sk) Right
    (Build_abcRand (Some 1) (Some 2) (Some 3) (Some ub) (Some 0) (Some 4) (Some 5) (Some 6)) = Ok (Some pf, None) /\ abChallenge pf = Some (N - 1).
Proof.
  intros S H1 H2 Hv Hs. fold (abcRn 1 2 3 ub 0 (Some 4) (Some 5) (Some 6)). rewrite (abc_right (shaC (N - 1)) zk S) by assumption.
  destruct (C32_disjunctive_complete_right (shaC (N - 1)) zk CM CT Hgen 0 4 5 6 S) as (dj & E & _); try isp.
  { rewrite smul_0. apply plain_O. }
  rewrite eff_Hgen, <- ped_sub_G in E. rewrite E. cbn [abcDisj bind snd fst]. apply Z.eqb_neq in Hs. rewrite Hs. eexists. split; [reflexivity|].
  unfold abcOut. cbv zeta. cbn [abChallenge]. apply f_equal. apply fs_shaC. split; [apply Z.leb_le; vm_compute; reflexivity|apply Z.ltb_lt; vm_compute; reflexivity].
Qed.
