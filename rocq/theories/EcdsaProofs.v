(** * ECDSA: proofs (see PropEcdsa.v for the statements) *)
From Coq Require Import ZArith List Bool Lia Field.
From Verif Require Import NumTheory Go Wire Big Spec FieldP FieldN CurveZ CurveGroup FastMul GMult Order SpecZk CodecProofs ZkBase
  SpecBtc SpecTotal Koblitz KobMul FieldProofs PubKey PubKeyProofs Signature DerProofs.
Import ListNotations.
Open Scope Z_scope.

Lemma hashToInt_digest h : hashToInt h = digest h.
Proof.
  unfold hashToInt, digest. change ((256 + 7) / 8) with 32. cbv zeta.
  destruct (32 <? blen h) eqn:E.
  - apply Z.ltb_lt in E. change (Z.to_nat 32) with 32%nat.
    assert (L : blen (firstn 32 h) = 32) by (unfold blen in *; rewrite firstn_length; lia). rewrite L. reflexivity.
  - apply Z.ltb_ge in E. rewrite (proj2 (Z.ltb_ge 0 _)) by lia. rewrite firstn_all2; [reflexivity|]. unfold blen in E. lia.
Qed.
Lemma digest_range h : bytes_ok h -> 0 <= digest h < 2 ^ 256.
Proof.
  intros B. unfold digest. pose proof (beval_range _ (bytes_firstn 32 h B)) as [H0 H1]. split; [exact H0|].
  eapply Z.lt_le_trans; [exact H1|]. change (2 ^ 256) with (256 ^ 32). apply Z.pow_le_mono_r; [reflexivity|].
  unfold blen. rewrite firstn_length. lia.
Qed.
Lemma mod_range r : 0 < r < N -> r mod N <> 0.
Proof. intros H. rewrite Z.mod_small; lia. Qed.
Lemma point_eqb p : is_point p -> (fst p =? 0) && (snd p =? 0) = true <-> p = O.
Proof.
  intros _. destruct p as [x y]. cbn [fst snd]. rewrite andb_true_iff, !Z.eqb_eq. unfold O. split.
  - intros [-> ->]. reflexivity.
  - intros E. injection E as -> ->. auto.
Qed.

Lemma OkVal_inj {A} (a b : A) : Ok (Val a) = Ok (Val b) -> a = b. Proof. intros E. injection E as E. exact E. Qed.

Section C.
Context (c : curve) (C : curve_ok c).

Lemma base_mod k : cScalarBaseMult c (bigBytes (k mod N)) = Ok (smul k G).
Proof. rewrite (ok_base c C) by apply bigBytes_ok. rewrite beval_mod, smul_mod by isp. reflexivity. Qed.
Lemma mul_mod k p : is_point p -> cScalarMult c (fst p) (snd p) (bigBytes (k mod N)) = Ok (smul k p).
Proof. intros H. rewrite (ok_mul c C) by (assumption || apply bigBytes_ok). rewrite beval_mod, smul_mod by assumption. reflexivity. Qed.

Lemma verify_ok s h Q : is_point Q -> exists b, Verify c s h Q = Ok b /\ (b = true <-> ecdsa_valid Q (digest h) (sR s) (sS s)).
Proof.
  intros HQ. unfold Verify, ecdsa_valid. rewrite hashToInt_digest, (ok_N c C).
  destruct ((sR s <=? 0) || (sS s <=? 0)) eqn:E1.
  { exists false. split; [reflexivity|]. split; [discriminate|]. intros (H1 & H2 & _). apply orb_true_iff in E1. rewrite !Z.leb_le in E1. lia. }
  destruct ((N <=? sR s) || (N <=? sS s)) eqn:E2.
  { exists false. split; [reflexivity|]. split; [discriminate|]. intros (H1 & H2 & _). apply orb_true_iff in E2. rewrite !Z.leb_le in E2. lia. }
  apply orb_false_iff in E1, E2. rewrite !Z.leb_gt in E1, E2.
  rewrite modInverse_some by (apply mod_range; lia). cbn [need bind]. cbv zeta.
  rewrite base_mod. cbn [bind]. rewrite mul_mod by isp. cbn [bind]. rewrite (ok_add c C) by isp. cbn [bind].
  set (q := padd _ _). assert (Hq : is_point q) by (unfold q; isp).
  destruct ((fst q =? 0) && (snd q =? 0)) eqn:EO.
  - apply point_eqb in EO; [|exact Hq]. exists false. split; [reflexivity|]. split; [discriminate|]. intros (_ & _ & H & _). contradiction.
  - exists (fst q mod N =? sR s). split; [reflexivity|]. rewrite Z.eqb_eq. split; [|intros (_ & _ & _ & H); exact H].
    intros H. split; [lia|]. split; [lia|]. split; [|exact H]. intros F. apply (point_eqb q Hq) in F. congruence.
Qed.

(** *** signing *)
Definition redx (x : Z) : Z := if N <? x then x - N else x.
Lemma PN : P < 2 * N. Proof. reflexivity. Qed.
Lemma N_lt_P : N < P. Proof. reflexivity. Qed.
Lemma redx_mod x : 0 <= x < P -> x <> N -> redx x = x mod N /\ redx x < N.
Proof.
  intros H NE. unfold redx. pose proof PN. destruct (N <? x) eqn:E.
  - apply Z.ltb_lt in E. split; [|lia]. symmetry. replace x with ((x - N) + 1 * N) at 1 by ring. rewrite Z.mod_add by discriminate. apply Z.mod_small. lia.
  - apply Z.ltb_ge in E. split; [|lia]. symmetry. apply Z.mod_small. lia.
Qed.
Lemma kG_on k : 0 < k < N -> on_curve (smul k G).
Proof.
  intros H. assert (is_point (smul k G)) as [E|E] by isp; [|exact E].
  exfalso. apply smul_G_O in E. rewrite Z.mod_small in E by lia. lia.
Qed.
Definition sig0 (D k : Z) (h : list Z) : Z := ((D * redx (fst (smul k G)) + digest h) * ninv k) mod N.

Lemma signNonce_ok D k h : 0 < k < N ->
  signNonce c D k h = Ok (if sig0 D k h =? 0 then Fail ESZero
    else Val {| sR := redx (fst (smul k G)); sS := low (sig0 D k h) |}).
Proof.
  intros Hk. unfold signNonce. rewrite <- (Z.mod_small k N) at 1 by lia. rewrite base_mod. cbn [bind].
  pose proof (kG_on k Hk) as On. pose proof (x_nz _ On) as NZ. pose proof On as (Rx & _ & _).
  change curveN with N. change (if N <? fst (smul k G) then _ else _) with (redx (fst (smul k G))).
  assert (R0 : redx (fst (smul k G)) <> 0).
  { unfold redx. destruct (N <? _) eqn:E; [apply Z.ltb_lt in E; lia|exact NZ]. }
  cbv zeta. rewrite (proj2 (Z.eqb_neq _ 0)) by exact R0.
  rewrite modInverse_some by (apply mod_range; exact Hk). cbn [need bind]. rewrite hashToInt_digest.
  fold (sig0 D k h). rewrite half_N.
  assert (S0 : 0 <= sig0 D k h < N) by (apply Z.mod_pos_bound; reflexivity).
  assert (EL : (if N / 2 <? sig0 D k h then N - sig0 D k h else sig0 D k h) = low (sig0 D k h)).
  { unfold low. destruct (sig0 D k h <=? N / 2) eqn:E.
    - apply Z.leb_le in E. rewrite (proj2 (Z.ltb_ge _ _)) by exact E. reflexivity.
    - apply Z.leb_gt in E. rewrite (proj2 (Z.ltb_lt _ _)) by exact E. reflexivity. }
  rewrite EL. replace (low (sig0 D k h) =? 0) with (sig0 D k h =? 0).
  2:{ apply Bool.eq_true_iff_eq. rewrite !Z.eqb_eq. unfold low. destruct (_ <=? _) eqn:E; [tauto|]. apply Z.leb_gt in E.
      assert (0 <= N / 2) by (vm_compute; discriminate). lia. }
  destruct (_ =? 0); reflexivity.
Qed.

(** the point that makes the signature: kG, or -kG when s was negated *)
Definition sigpt (D k : Z) (h : list Z) : point :=
  if sig0 D k h <=? N / 2 then smul k G else pneg (smul k G).
Lemma sigpt_fst D k h : fst (sigpt D k h) = fst (smul k G).
Proof. unfold sigpt. destruct (_ <=? _); [reflexivity|]. unfold pneg. destruct (smul k G) as [x y]. reflexivity. Qed.
Lemma is_point_sigpt D k h : is_point (sigpt D k h).
Proof. unfold sigpt. destruct (_ <=? _); isp. Qed.
Lemma on_sigpt D k h : 0 < k < N -> on_curve (sigpt D k h).
Proof. intros H. unfold sigpt. destruct (_ <=? _); [apply kG_on, H|apply on_curve_pneg, kG_on, H]. Qed.

Lemma low_nz s : nz (low s) = nz s \/ nz (low s) = nopp (nz s).
Proof. unfold low. destruct (_ <=? _); [left; reflexivity|right]. rewrite nz_sub. replace (nz N) with n0 by (apply nz_eq; reflexivity). ring. Qed.

(** low s times the point is (D r + e) G *)
Lemma sig_mul D k h : 0 < k < N -> smul (low (sig0 D k h)) (sigpt D k h) = smul (D * redx (fst (smul k G)) + digest h) G.
Proof.
  intros Hk. pose proof (nz_nz k (mod_range k Hk)) as NZ.
  assert (E0 : nz (sig0 D k h) = nmul (nadd (nmul (nz D) (nz (redx (fst (smul k G))))) (nz (digest h))) (ninvF (nz k))).
  { unfold sig0. rewrite nz_mod. nzpush. reflexivity. }
  unfold sigpt, low. destruct (_ <=? _).
  - gpush. apply smul_G_eq. nzpush. rewrite E0. field. exact NZ.
  - gpush. apply smul_G_eq. nzpush. rewrite E0. replace (nz N) with n0 by (apply nz_eq; reflexivity). field. exact NZ.
Qed.

Lemma sign_valid D k h s : 0 < k < N -> signNonce c D k h = Ok (Val s) -> sR s <> N ->
  0 < sS s <= N / 2 /\ 0 < sR s < N /\ ecdsa_valid (smul D G) (digest h) (sR s) (sS s).
Proof.
  intros Hk E HN. rewrite signNonce_ok in E by exact Hk. destruct (sig0 D k h =? 0) eqn:E0; [discriminate|]. injection E as <-. cbn [sR sS] in *.
  apply Z.eqb_neq in E0. assert (S0 : 0 < sig0 D k h < N).
  { assert (0 <= sig0 D k h < N) by (apply Z.mod_pos_bound; reflexivity). lia. }
  pose proof (low_range _ S0) as LR. split; [exact LR|].
  pose proof (kG_on k Hk) as On. pose proof On as (Rx & _ & _). pose proof (x_nz _ On) as NZ.
  assert (NEx : fst (smul k G) <> N). { intros F. apply HN. rewrite F. reflexivity. }
  destruct (redx_mod _ Rx NEx) as [Er Lr].
  assert (R0 : 0 < redx (fst (smul k G))). { unfold redx. destruct (N <? _) eqn:L; [apply Z.ltb_lt in L; lia|lia]. }
  split; [lia|]. pose proof half_lt. split; [lia|]. split; [lia|].
  pose proof (sig_mul D k h Hk) as M. set (r := redx (fst (smul k G))) in *. set (s := low (sig0 D k h)) in *.
  assert (Q : padd (smul (digest h * ninv s) G) (smul (r * ninv s) (smul D G)) = sigpt D k h).
  { assert (IP := is_point_sigpt D k h). destruct (dlog _ IP) as [t Et]. rewrite Et in M |- *. gpush. gpush_in M. apply smul_G_eq_inv in M.
    apply smul_G_eq. nzpush_in M. nzpush. assert (NS : nz s <> n0) by (apply nz_nz, mod_range; lia).
    transitivity (nmul (nmul (nz s) (nz t)) (ninvF (nz s))); [rewrite M; ring|field; exact NS]. }
  rewrite Q. split; [apply on_curve_nz, on_sigpt, Hk|]. rewrite sigpt_fst. symmetry. exact Er.
Qed.

(** *** nonces are in range *)
Lemma nonceLoop_range sha f : forall k v x, nonceLoop sha f k v = Some x -> 0 < x < N.
Proof.
  induction f as [|f IH]; intros k v x; [discriminate|]. cbn [nonceLoop]. cbv zeta.
  destruct (_ && _) eqn:E; [|apply IH]. intros H. injection H as <-. apply andb_true_iff in E. destruct E as [E1 E2].
  apply Z.leb_le in E1. apply Z.ltb_lt in E2. change curveN with N in E2. lia.
Qed.
Lemma nonce_range sha f D h x : nonceRFC6979 sha f D h = Some x -> 0 < x < N.
Proof. apply nonceLoop_range. Qed.

(** *** recovery *)
Lemma recover_on s h i chk Rp : 0 < sR s < N -> on_curve Rp -> fst Rp = N * (i / 2) + sR s -> Z.odd (snd Rp) = (i mod 2 =? 1) ->
  recoverKeyFromSignature c s h i chk = Ok (Val (padd (smul (ninv (sR s) * sS s) Rp) (smul (- digest h * ninv (sR s)) G))).
Proof.
  intros Hr On Ex Ey. unfold recoverKeyFromSignature. rewrite (ok_N c C), (ok_P c C), hashToInt_digest.
  rewrite <- Ex, <- Ey. pose proof On as (Rx & _ & _). rewrite (proj2 (Z.leb_gt P (fst Rp))) by lia.
  rewrite decompress_ok by exact On. cbv zeta.
  assert (IR : is_point Rp) by (right; exact On).
  replace (if chk then _ else _) with (Ok false).
  2:{ destruct chk; [|reflexivity]. rewrite (ok_mul c C) by (assumption || apply bigBytes_ok). rewrite beval_bigBytes. change (Z.abs N) with N.
      rewrite smul_N by exact IR. reflexivity. }
  cbn [bind]. rewrite modInverse_some by (apply mod_range; exact Hr). cbn [need bind].
  rewrite mul_mod by exact IR. cbn [bind]. rewrite base_mod. cbn [bind]. rewrite (ok_add c C) by isp. cbn [bind].
  apply f_equal. apply f_equal. apply f_equal. apply smul_G_eq. rewrite !nz_mul, nz_mod. reflexivity.
Qed.

Lemma recover_unchecked s h i q : recoverKeyFromSignature c s h i true = Ok (Val q) -> recoverKeyFromSignature c s h i false = Ok (Val q).
Proof.
  unfold recoverKeyFromSignature. destruct (_ <=? _); [discriminate|]. destruct (decompressPoint _ _); [|discriminate].
  cbn [bind]. destruct (cScalarMult c _ _ (bigBytes (cN c))) as [nR|]; [|discriminate]. cbn [bind].
  destruct (_ || _); [discriminate|]. exact (fun H => H).
Qed.

Lemma recover_sound s h i chk q Rp : 0 < sR s < N -> 0 < sS s < N -> on_curve Rp -> fst Rp = N * (i / 2) + sR s ->
  0 <= i -> recoverKeyFromSignature c s h i chk = Ok (Val q) -> ecdsa_valid q (digest h) (sR s) (sS s).
Proof.
  intros Hr Hs On Ex Hi E.
  assert (K : exists Rq, on_curve Rq /\ fst Rq = fst Rp /\ Z.odd (snd Rq) = (i mod 2 =? 1)).
  { destruct (Bool.bool_dec (Z.odd (snd Rp)) (i mod 2 =? 1)) as [K|K]; [exists Rp; auto|].
    exists (pneg Rp). split; [apply on_curve_pneg, On|]. destruct Rp as [x y]. pose proof (on_curve_y_nz _ On) as NZ. destruct On as (_ & Hy & _).
    unfold pneg. cbn [fst snd] in *. split; [reflexivity|]. replace ((- y) mod P) with (P - y).
    - rewrite odd_PminusY by lia. destruct (Z.odd y), (i mod 2 =? 1); congruence || reflexivity.
    - replace (- y) with ((P - y) + (-1) * P) by ring. rewrite Z.mod_add by discriminate. symmetry. apply Z.mod_small. lia. }
  destruct K as (Rq & OnQ & ExQ & EyQ). rewrite (recover_on s h i chk Rq) in E by (try assumption; congruence).
  apply OkVal_inj in E. subst q. split; [exact Hr|]. split; [exact Hs|].
  assert (Q : padd (smul (digest h * ninv (sS s)) G) (smul (sR s * ninv (sS s))
     (padd (smul (ninv (sR s) * sS s) Rq) (smul (- digest h * ninv (sR s)) G))) = Rq).
  { destruct (dlog Rq (or_intror OnQ)) as [t ->]. gpush. apply smul_G_eq. nzpush.
    assert (NS : nz (sS s) <> n0) by (apply nz_nz, mod_range; lia). assert (NR : nz (sR s) <> n0) by (apply nz_nz, mod_range; lia).
    field. auto. }
  cbv zeta. rewrite Q. split; [apply on_curve_nz, OnQ|]. rewrite ExQ, Ex.
  replace (N * (i / 2) + sR s) with (sR s + (i / 2) * N) by ring. rewrite Z.mod_add by discriminate. apply Z.mod_small. lia.
Qed.

Lemma recover_signed D k h s : 0 < k < N -> signNonce c D k h = Ok (Val s) -> sR s <> N -> exists i, 0 <= i < 4 /\
  forall chk, recoverKeyFromSignature c s h i chk = Ok (Val (smul D G)).
Proof.
  intros Hk E HN. pose proof (sign_valid D k h s Hk E HN) as (Ls & Hr & _). rewrite signNonce_ok in E by exact Hk.
  destruct (sig0 D k h =? 0) eqn:E0; [discriminate|]. injection E as <-. cbn [sR sS] in *.
  pose proof (on_sigpt D k h Hk) as On. pose proof On as (Rx & _ & _). rewrite sigpt_fst in Rx.
  set (x := fst (smul k G)) in *. set (y := snd (sigpt D k h)).
  exists ((if N <? x then 2 else 0) + (if Z.odd y then 1 else 0)). split; [destruct (N <? x), (Z.odd y); lia|].
  intros chk. erewrite (recover_on _ h _ chk (sigpt D k h)).
  - apply f_equal. apply f_equal. cbn [sR sS]. pose proof (sig_mul D k h Hk) as M. fold x in M.
    destruct (dlog _ (or_intror On)) as [t Et]. rewrite Et in M |- *. gpush_in M. gpush. apply smul_G_eq_inv in M. apply smul_G_eq.
    nzpush_in M. nzpush. assert (NR : nz (redx x) <> n0) by (apply nz_nz, mod_range; exact Hr).
    transitivity (nmul (ninvF (nz (redx x))) (nsub (nmul (nz (low (sig0 D k h))) (nz t)) (nz (digest h)))); [ring|].
    rewrite M. field. exact NR.
  - exact Hr.
  - exact On.
  - rewrite sigpt_fst. fold x. cbn [sR]. unfold redx. destruct (N <? x), (Z.odd y).
    + change ((2 + 1) / 2) with 1. ring.
    + change ((2 + 0) / 2) with 1. ring.
    + change ((0 + 1) / 2) with 0. ring.
    + change ((0 + 0) / 2) with 0. ring.
  - fold y. destruct (N <? x), (Z.odd y); reflexivity.
Qed.

(** *** compact signatures *)
Context (T : curve_total c).
Lemma recover_total0 s h i chk : 0 <= sR s -> sR s mod N <> 0 -> 0 <= i -> exists r, recoverKeyFromSignature c s h i chk = Ok r.
Proof.
  intros Hr Hm Hi. unfold recoverKeyFromSignature. rewrite (ok_N c C), (ok_P c C).
  destruct (P <=? _) eqn:EP; [eexists; reflexivity|]. apply Z.leb_gt in EP.
  assert (0 <= i / 2) by (apply Z.div_pos; lia).
  assert (Cx : coord (N * (i / 2) + sR s)).
  { unfold coord. pose proof P_lt_256. rewrite Z.abs_eq; [lia|]. assert (0 <= N * (i / 2)) by (apply Z.mul_nonneg_nonneg; [discriminate|assumption]). lia. }
  destruct (decompress_val (N * (i / 2) + sR s) (i mod 2 =? 1)) as (y & -> & By & _).
  assert (Cy : coord y). { unfold coord. pose proof P_lt_256. rewrite Z.abs_eq by apply By. clear - By H0. lia. }
  destruct (tot_mul c T _ _ (bigBytes N) Cx Cy) as (nx & ny & E1 & _ & _). rewrite E1. cbn [bind].
  replace (if chk then _ else _) with (Ok (chk && (negb (nx =? 0) || negb (ny =? 0)))) by (destruct chk; reflexivity).
  cbn [bind]. destruct (chk && _); [eexists; reflexivity|]. rewrite modInverse_some by exact Hm. cbn [need bind]. cbv zeta.
  destruct (tot_mul c T _ _ (bigBytes ((ninv (sR s) * sS s) mod N)) Cx Cy) as (sx & sy & E2 & C1 & C2). rewrite E2. cbn [bind].
  rewrite base_mod. cbn [bind fst snd].
  destruct (coord_range_256 (smul ((- hashToInt h) mod N * ninv (sR s)) G)) as [B1 B2]; [isp|].
  destruct (tot_add c T sx sy (fst (smul ((- hashToInt h) mod N * ninv (sR s)) G)) (snd (smul ((- hashToInt h) mod N * ninv (sR s)) G))) as (qx & qy & E3 & _ & _);
    [exact C1|exact C2|unfold coord; rewrite Z.abs_eq; apply B1|unfold coord; rewrite Z.abs_eq; apply B2|].
  rewrite E3. cbn [bind]. eexists. reflexivity.
Qed.

Lemma recover_total s h i chk : 0 < sR s < N -> 0 <= i -> exists r, recoverKeyFromSignature c s h i chk = Ok r.
Proof. intros Hr. apply recover_total0; [lia|apply mod_range; exact Hr]. Qed.
Lemma recover_panics s h i : 0 <= sR s < 2 ^ 256 -> 0 <= i ->
  (recoverKeyFromSignature c s h i false = Panic <-> (sR s = 0 /\ i < 4) \/ (sR s = N /\ i < 2)).
Proof.
  intros Hr Hi. destruct (Z.eq_dec (sR s mod N) 0) as [M|M].
  - assert (Q : sR s = 0 \/ sR s = N).
    { apply Z.mod_divide in M; [|discriminate]. destruct M as [q Eq]. assert (2 ^ 256 < 2 * N) by reflexivity.
      assert (HN : 0 < N) by reflexivity. clear - Eq Hr H HN. revert Eq Hr H HN. generalize N, (2 ^ 256). intros n w Eq Hr H HN.
      assert (q = 0 \/ q = 1) as [-> | ->] by nia; lia. }
    unfold recoverKeyFromSignature. rewrite (ok_N c C), (ok_P c C).
    destruct (decompress_val (N * (i / 2) + sR s) (i mod 2 =? 1)) as (y & -> & _). cbn [bind]. rewrite modInverse_none by exact M. cbn [need bind].
    assert (D : i / 2 = 0 <-> i < 2) by (split; intros H; [destruct (Z.lt_ge_cases i 2); [assumption|exfalso; assert (1 <= i / 2) by (apply Z.div_le_lower_bound; lia); lia]|apply Z.div_small; lia]).
    assert (D2 : i / 2 <= 1 <-> i < 4) by (split; intros H; [destruct (Z.lt_ge_cases i 4); [assumption|exfalso; assert (2 <= i / 2) by (apply Z.div_le_lower_bound; lia); lia]|assert (i / 2 < 2) by (apply Z.div_lt_upper_bound; lia); lia]).
    assert (D0 : 0 <= i / 2) by (apply Z.div_pos; lia).
    assert (NP : N < P < 2 * N) by (split; reflexivity).
    clear - Q D D2 D0 NP. revert Q D D2 D0 NP. generalize N, P, (sR s), (i / 2). intros n p r k Q D D2 D0 NP.
    destruct (Z.leb_spec p (n * k + r)) as [L|L]; split; intros H; try discriminate H; try reflexivity.
    + exfalso. destruct H as [[-> H]|[-> H]]; [apply D2 in H|apply D in H]; nia.
    + destruct Q as [-> | ->]; [left; split; [reflexivity|apply D2; nia]|right; split; [reflexivity|apply D; nia]].
  - destruct (recover_total0 s h i false (proj1 Hr) M Hi) as [r Er]. rewrite Er. split; [discriminate|].
    intros [[E _]|[E _]]; rewrite E in M; exfalso; apply M; reflexivity.
Qed.

Lemma recover_val s h i : 0 < sR s < N -> 0 <= i -> N * (i / 2) + sR s < P ->
  exists q, recoverKeyFromSignature c s h i false = Ok (Val q).
Proof.
  intros Hr Hi L. destruct (recover_total s h i false Hr Hi) as [[q|e] E]; [exists q; exact E|exfalso].
  unfold recoverKeyFromSignature in E. rewrite (ok_N c C), (ok_P c C) in E. rewrite (proj2 (Z.leb_gt _ _)) in E by exact L.
  destruct (decompress_val (N * (i / 2) + sR s) (i mod 2 =? 1)) as (y & Ey & _). rewrite Ey in E. cbn [bind] in E.
  rewrite modInverse_some in E by (apply mod_range; exact Hr). cbn [need bind] in E. cbv zeta in E.
  destruct (cScalarMult c _ _ _); [|discriminate]. cbn [bind] in E. destruct (cScalarBaseMult c _); [|discriminate]. cbn [bind] in E.
  destruct (cAdd c _ _ _ _); discriminate.
Qed.

Lemma padCompact_be v : 0 <= v < 2 ^ 256 -> padCompact v = be_bytes 32 v.
Proof.
  intros B. unfold padCompact. change ((curveBitSize + 7) / 8) with 32. rewrite <- pad32 by exact B.
  destruct (blen (bigBytes v) <? 32) eqn:E; [reflexivity|]. apply Z.ltb_ge in E. replace (Z.to_nat (32 - blen (bigBytes v))) with 0%nat by lia. reflexivity.
Qed.

Lemma compactLoop_ok key s h comp n : forall i, 0 <= i -> 0 < sR s < N -> 0 <= sS s < N ->
  (exists j, i <= j < i + Z.of_nat n /\ recoverKeyFromSignature c s h j true = Ok (Val (kPub key))) ->
  exists j, i <= j < i + Z.of_nat n /\ recoverKeyFromSignature c s h j true = Ok (Val (kPub key)) /\
    compactLoop c key s h comp n i = Ok (Val ((if comp then ((27 + j) mod 256 + 4) mod 256 else (27 + j) mod 256) :: be_bytes 32 (sR s) ++ be_bytes 32 (sS s))).
Proof.
  induction n as [|n IH]; intros i Hi Hr Hs (j & Hj & Ej); [lia|]. cbn [compactLoop].
  destruct (recover_total s h i true Hr Hi) as [r Er]. rewrite Er. cbn [bind].
  assert (Next : r <> Val (kPub key) -> exists j, i <= j < i + Z.of_nat (S n) /\ recoverKeyFromSignature c s h j true = Ok (Val (kPub key)) /\
    compactLoop c key s h comp n (i + 1) = Ok (Val ((if comp then ((27 + j) mod 256 + 4) mod 256 else (27 + j) mod 256) :: be_bytes 32 (sR s) ++ be_bytes 32 (sS s)))).
  { intros NE. destruct (Z.eq_dec j i) as [->|NJ]; [rewrite Ej in Er; apply Ok_inj in Er; congruence|].
    destruct (IH (i + 1)) as (j' & Hj' & A & B); [lia|exact Hr|exact Hs|exists j; split; [lia|exact Ej]|]. exists j'. split; [lia|]. split; [exact A|exact B]. }
  destruct r as [q|e]; [|apply Next; discriminate].
  destruct ((fst q =? fst (kPub key)) && (snd q =? snd (kPub key))) eqn:EQ.
  - apply andb_true_iff in EQ. rewrite !Z.eqb_eq in EQ. assert (q = kPub key) by (destruct q, (kPub key); cbn [fst snd] in EQ; destruct EQ; congruence). subst q.
    exists i. split; [lia|]. split; [exact Er|]. pose proof N_256. rewrite !padCompact_be by lia. reflexivity.
  - apply Next. intros F. injection F as ->. rewrite !Z.eqb_refl in EQ. discriminate.
Qed.

Lemma header j : 0 <= j < 4 -> forall comp : bool,
  let b := ((if comp then ((27 + j) mod 256 + 4) mod 256 else (27 + j) mod 256) - 27) mod 256 in
  Z.land b 0xfb = j /\ (Z.land b 4 =? 4) = comp.
Proof.
  intros H comp. assert (j = 0 \/ j = 1 \/ j = 2 \/ j = 3) as [->|[->|[->| ->]]] by lia; destruct comp; split; reflexivity.
Qed.

Lemma recoverCompact_enc b s h : 0 <= sR s < 2 ^ 256 -> 0 <= sS s < 2 ^ 256 ->
  RecoverCompact c (b :: be_bytes 32 (sR s) ++ be_bytes 32 (sS s)) h =
  (key <- recoverKeyFromSignature c s h (Z.land ((b - 27) mod 256) 0xfb) false ;
   match key with Fail e => Ok (Fail e) | Val q => Ok (Val (q, Z.land ((b - 27) mod 256) 4 =? 4)) end).
Proof.
  intros Hr Hs. unfold RecoverCompact. change ((curveBitSize + 7) / 8) with 32.
  replace (blen _ =? 1 + 32 * 2) with true.
  2:{ symmetry. apply Z.eqb_eq. unfold blen. cbn [length]. rewrite app_length, !be_bytes_len. reflexivity. }
  cbn [negb nth]. unfold slice. change (Z.to_nat (32 + 1 - 1)) with 32%nat. change (Z.to_nat 1) with 1%nat. change (Z.to_nat (32 + 1)) with 33%nat.
  change (skipn 1 (b :: ?t)) with t. change (skipn 33 (b :: ?t)) with (skipn 32 t).
  replace (skipn 1 (b :: be_bytes 32 (sR s) ++ be_bytes 32 (sS s))) with (be_bytes 32 (sR s) ++ be_bytes 32 (sS s)) by reflexivity.
  replace (skipn 33 (b :: be_bytes 32 (sR s) ++ be_bytes 32 (sS s))) with (skipn 32 (be_bytes 32 (sR s) ++ be_bytes 32 (sS s))) by reflexivity.
  rewrite firstn_be, skipn_be, !beval_be32 by assumption. destruct s; reflexivity.
Qed.

Lemma compact_ok D k key h comp s : 0 < k < N -> kPub key = smul D G -> signNonce c D k h = Ok (Val s) -> sR s <> N ->
  exists bs, compactLoop c key s h comp 4 0 = Ok (Val bs) /\ length bs = 65%nat /\ RecoverCompact c bs h = Ok (Val (kPub key, comp)).
Proof.
  intros Hk Hp E HN. pose proof (sign_valid D k h s Hk E HN) as (Ls & Hr & _).
  destruct (recover_signed D k h s Hk E HN) as (i & Hi & Ei). pose proof half_lt. pose proof N_256.
  destruct (compactLoop_ok key s h comp 4 0) as (j & Hj & Ej & EL); [lia|exact Hr|lia|exists i; split; [exact Hi|rewrite Hp; apply Ei]|].
  eexists. split; [exact EL|]. split; [cbn [length]; rewrite app_length, !be_bytes_len; reflexivity|].
  rewrite recoverCompact_enc by lia. destruct (header j Hj comp) as [-> ->]. rewrite (recover_unchecked _ _ _ _ Ej). reflexivity.
Qed.
End C.

(** *** numbers that are no x coordinate *)
Lemma no_sum_squares u w : (u * u + w * w) mod P = 0 -> w mod P = 0.
Proof.
  intros H. destruct (Z.eq_dec (w mod P) 0) as [|NW]; [assumption|exfalso].
  assert (E : (u * u) mod P = (- (w * w)) mod P).
  { replace (u * u) with (u * u + w * w - w * w) by ring. rewrite Zminus_mod, H, Z.sub_0_l. rewrite <- (Z.sub_0_l (w * w mod P)), Zminus_mod_idemp_r, Z.sub_0_l. reflexivity. }
  assert (NU : u mod P <> 0).
  { intros F. apply NW. assert (D : (P | w * w)).
    { apply Z.mod_divide; [discriminate|]. rewrite Zmult_mod, F, Z.mul_0_l, Zmod_0_l in E.
      replace (w * w) with (- (- (w * w))) by ring. apply Z.mod_opp_l_z; [discriminate|symmetry; exact E]. }
    apply Znumtheory.prime_mult in D; [|exact prime_P]. apply Z.mod_divide; [discriminate|]. destruct D; assumption. }
  pose proof (fermat P u prime_P NU) as FU. pose proof (fermat P w prime_P NW) as FW.
  set (h := (P - 1) / 2). assert (Eh : P - 1 = 2 * h) by reflexivity. assert (Oh : Z.odd h = true) by reflexivity.
  assert (Hh : 0 <= h) by (vm_compute; discriminate).
  rewrite Eh, Z.pow_mul_r, Z.pow_2_r in FU, FW by (discriminate || exact Hh).
  rewrite <- (pow_mod_idemp (u * u)), E, pow_mod_idemp in FU by exact Hh.
  rewrite Z.pow_opp_odd in FU by (apply Z.odd_spec, Oh).
  rewrite <- (Z.sub_0_l (_ ^ _)), <- Zminus_mod_idemp_r, FW in FU. discriminate.
Qed.
Definition rBad : Z := 0x100000000000000000000000000000000000000000000000003.
Definition wBad : Z := 0xa41c4b5eef6ca8ebb7c23be60c94b557403d6baf9e2c874b2d1439a70993cd79.
Lemma rBad_off p : on_curve p -> fst p <> rBad.
Proof.
  intros (_ & _ & E) F. rewrite F in E.
  assert (K : wBad mod P = 0); [|discriminate].
  apply (no_sum_squares (snd p)). rewrite <- Z.pow_2_r with (a := snd p). rewrite <- Zplus_mod_idemp_l, E, Zplus_mod_idemp_l. vm_compute. reflexivity.
Qed.
Lemma rBad_invalid Q e s : is_point Q -> ~ ecdsa_valid Q e rBad s.
Proof.
  intros HQ (_ & _ & NO & E). set (R := padd _ _) in *. assert (IR : is_point R) by (unfold R; isp). clearbody R.
  destruct IR as [|On]; [contradiction|]. pose proof On as (B & _ & _). pose proof (rBad_off R On) as NE.
  assert (PB : P < rBad + N) by reflexivity. pose proof PN.
  pose proof (Z.div_mod (fst R) N ltac:(discriminate)) as DM. rewrite E in DM.
  assert (fst R / N = 0 \/ 1 <= fst R / N) as [Z0|Z0] by (pose proof (Z.div_pos (fst R) N (proj1 B) eq_refl); lia).
  - rewrite Z0 in DM. lia.
  - assert (N * 1 <= N * (fst R / N)) by (apply Z.mul_le_mono_nonneg_l; [discriminate|exact Z0]). lia.
Qed.

(** *** the nonce whose point has x coordinate N *)
Definition ptN : point := (N, 0x98f66641cb0ae1776b463ebdee3d77fe2658f021db48e2c8ac7ab4c92f83621e).
Lemma ptN_on : on_curve ptN. Proof. apply oncb_ok. vm_compute. reflexivity. Qed.
Lemma nonceN : exists k, 0 < k < N /\ smul k G = ptN.
Proof.
  destruct (cyclic ptN (or_intror ptN_on)) as (k & Hk & E). exists k. split; [|symmetry; exact E].
  assert (k <> 0); [|lia]. intros ->. rewrite smul_0 in E. discriminate.
Qed.

Lemma recoverCompact_panics c bs h : curve_ok c -> curve_total c -> bytes_ok bs ->
  (RecoverCompact c bs h = Panic <-> length bs = 65%nat /\
     ((beval (firstn 32 (skipn 1 bs)) = 0 /\ Z.land ((nth 0 bs 0 - 27) mod 256) 0xfb < 4) \/
      (beval (firstn 32 (skipn 1 bs)) = N /\ Z.land ((nth 0 bs 0 - 27) mod 256) 0xfb < 2))).
Proof.
  intros C T B. destruct (Nat.eq_dec (length bs) 65) as [L|L].
  - destruct bs as [|b t]; [discriminate L|]. assert (Lt : length t = 64%nat) by (cbn [length] in L; lia).
    assert (Bt : bytes_ok t) by (inversion B; assumption).
    assert (B1 : bytes_ok (firstn 32 t)) by (apply Forall_forall; intros x I; apply (proj1 (Forall_forall _ _) Bt); rewrite <- (firstn_skipn 32 t); apply in_or_app; left; exact I).
    assert (B2 : bytes_ok (skipn 32 t)) by (apply Forall_forall; intros x I; apply (proj1 (Forall_forall _ _) Bt); rewrite <- (firstn_skipn 32 t); apply in_or_app; right; exact I).
    destruct (len32_be _ B1) as [E1 R1]; [rewrite firstn_length; lia|]. destruct (len32_be _ B2) as [E2 R2]; [rewrite skipn_length; lia|].
    set (s := {| sR := beval (firstn 32 t); sS := beval (skipn 32 t) |}).
    assert (Et : b :: t = b :: be_bytes 32 (sR s) ++ be_bytes 32 (sS s)) by (unfold s; cbn [sR sS]; rewrite <- E1, <- E2, firstn_skipn; reflexivity).
    rewrite Et at 1. rewrite (recoverCompact_enc c b s h R1 R2). cbn [nth]. change (skipn 1 (b :: t)) with t. change (beval (firstn 32 t)) with (sR s).
    assert (Hi : 0 <= Z.land ((b - 27) mod 256) 0xfb) by (apply Z.land_nonneg; left; apply Z.mod_pos_bound; reflexivity).
    rewrite <- (recover_panics c C T s h _ R1 Hi).
    destruct (recoverKeyFromSignature c s h _ false) as [[q|e]|]; cbn [bind]; split; intros H; try discriminate H; try (destruct H as [_ H]; discriminate H); [split; [exact L|reflexivity]|reflexivity].
  - split; [|intros [H _]; contradiction]. unfold RecoverCompact. change (1 + (curveBitSize + 7) / 8 * 2) with 65.
    replace (blen bs =? 65) with false; [discriminate|]. symmetry. apply Z.eqb_neq. unfold blen. lia.
Qed.
Lemma recover_N c s h : curve_ok c -> sR s = N -> recoverKeyFromSignature c s h 0 true = Panic.
Proof.
  intros C E. unfold recoverKeyFromSignature. rewrite (ok_N c C), (ok_P c C), E.
  replace (N * (0 / 2) + N) with (fst ptN) by reflexivity. replace (0 mod 2 =? 1) with (Z.odd (snd ptN)) by reflexivity.
  rewrite (decompress_ok ptN ptN_on). replace (P <=? fst ptN) with false by reflexivity. cbv iota.
  rewrite (ok_mul c C ptN) by ((right; exact ptN_on) || apply bigBytes_ok).
  rewrite beval_bigBytes. replace (Z.abs N) with N by reflexivity. rewrite smul_N by (right; exact ptN_on). cbn [bind fst snd O].
  replace (negb (0 =? 0) || negb (0 =? 0)) with false by reflexivity. cbv iota zeta.
  rewrite modInverse_none by reflexivity. reflexivity.
Qed.
