(** * Proofs about the sizes of ABC and range proofs (proof only) *)
From Coq Require Import ZArith List Lia Bool.
From Verif Require Import Go Wire SpecWire WireProofs Big Crypto Spec FieldP CurveGroup Order FieldN CurveZ SpecZk SpecCodec CodecProofs ZkBase PointProofs
  Disjunctive DisjProofs Abc AbcProofs Range SpecRange RangeProofs WireProofsZk SpecSize SizeProofs LeakProofs.
Import ListNotations.
Open Scope Z_scope.

Lemma ABC_layout x1 y1 x2 y2 x3 y3 x4 y4 c j k l x5 y5 d db : small x1 -> small y1 -> small x2 -> small y2 -> small x3 -> small y3 -> small x4 -> small y4 ->
  small c -> small j -> small k -> small l -> small x5 -> small y5 -> DisjunctiveBytes d = Ok db -> blen db <= 334 ->
  ABCBytes (MkABC (EP (Some x1) (Some y1)) (EP (Some x2) (Some y2)) (EP (Some x3) (Some y3)) (EP (Some x4) (Some y4)) (Some c) (Some j) (Some k) (Some l)
    (EP (Some x5) (Some y5)) (Some d)) =
  Ok (encPoint x1 y1 ++ encPoint x2 y2 ++ encPoint x3 y3 ++ encPoint x4 y4 ++ encInt c ++ encInt j ++ encInt k ++ encInt l ++ encPoint x5 y5 ++ varbytes db).
Proof.
  intros. unfold ABCBytes. cbn [abB abC abT1 abT2 abChallenge abj abk abl abCToken abDisj].
  change newBuffer with (buf []); repeat (etransitivity; [first [apply bind_point; assumption|apply bind_int; assumption]|]; cbn [fst]).
  cbn [need bind fst]. match goal with H : DisjunctiveBytes d = _ |- _ => rewrite H end. cbn [bind].
  rewrite WriteVarBytes_buf; [|reflexivity|lia]. cbn [fst wout buf]. f_equal. rewrite <- !app_assoc. reflexivity.
Qed.
Lemma varbytes_334 b : blen b <= 334 -> 1 + blen b <= blen (varbytes b) <= 3 + blen b.
Proof.
  intros H. unfold varbytes. rewrite blen_app. fold (blen b).
  assert (V : forall n, 0 <= n <= 334 -> 1 <= blen (varint n) <= 3).
  { intros n Hn. unfold varint. destruct (n <? 253); [cbn; lia|]. destruct (Z.ltb_spec n (2 ^ 16)); [cbn; lia|lia]. }
  specialize (V (blen b) ltac:(unfold blen in *; lia)). lia.
Qed.
Lemma ABC_size n f1 f2 f3 f4 f5 f6 f7 f8 f9 d db b k1 k2 k3 k4 k5 k6 k7 k8 k9 : n <= 128 ->
  fitsPt f1 k1 -> fitsPt f2 k2 -> fitsPt f3 k3 -> fitsPt f4 k4 -> fitsInt 32 f5 k5 -> fitsInt 32 f6 k6 -> fitsInt 32 f7 k7 -> fitsInt n f8 k8 -> fitsPt f9 k9 ->
  DisjunctiveBytes d = Ok db -> blen db <= 334 ->
  ABCBytes (MkABC f1 f2 f3 f4 f5 f6 f7 f8 f9 (Some d)) = Ok b -> blen b = k1 + k2 + k3 + k4 + k5 + k6 + k7 + k8 + k9 + blen (varbytes db).
Proof.
  intros Hn H1 H2 H3 H4 H5 H6 H7 H8 H9 Ed Ld E. fields.
  rewrite (ABC_layout _ _ _ _ _ _ _ _ _ _ _ _ _ _ d db) in E by assumption. apply Ok_inj in E. subst b. sizes.
Qed.

(** the response l: at most 64 + n bytes if |v| < 256^n, at least 65 + k if 256^(k+1) <= |v| *)
Lemma l_upper m n v u3 ub uc c : 0 <= n -> 0 <= u3 < m -> 0 <= ub < m -> 0 <= uc < m -> 0 <= c < m -> m * m <= 256 ^ 64 -> Z.abs v < 256 ^ n ->
  fits (64 + n) (u3 + (uc - v * ub) * c).
Proof.
  intros Hn U3 Ub Uc Hc HN Hv. unfold fits. rewrite Z.pow_add_r by lia.
  set (X := 256 ^ n) in *. assert (X1 : Z.abs v + 1 <= X) by lia. clearbody X.
  assert (A1 : Z.abs (uc - v * ub) <= (Z.abs v + 1) * (m - 1)).
  { pose proof (Z.abs_triangle uc (- (v * ub))) as T. rewrite Z.abs_opp, Z.abs_mul in T.
    assert (Z.abs v * Z.abs ub <= Z.abs v * (m - 1)) by (apply Z.mul_le_mono_nonneg_l; lia). replace (uc - v * ub) with (uc + - (v * ub)) by ring. lia. }
  pose proof (Z.abs_triangle u3 ((uc - v * ub) * c)) as T. rewrite Z.abs_mul in T.
  assert (A2 : Z.abs (uc - v * ub) * Z.abs c <= ((Z.abs v + 1) * (m - 1)) * (m - 1)) by (apply Z.mul_le_mono_nonneg; lia).
  assert (A3 : 1 * (m - 1) <= (Z.abs v + 1) * (m - 1)) by (apply Z.mul_le_mono_nonneg_r; lia).
  assert (A4 : (Z.abs v + 1) * (m - 1) + (Z.abs v + 1) * (m - 1) * (m - 1) = (Z.abs v + 1) * ((m - 1) * m)) by ring.
  assert (A5 : (Z.abs v + 1) * ((m - 1) * m) <= X * ((m - 1) * m)) by (apply Z.mul_le_mono_nonneg_r; [apply Z.mul_nonneg_nonneg; lia|lia]).
  assert (A6 : X * ((m - 1) * m) < X * (m * m)) by (apply Z.mul_lt_mono_pos_l; [lia|apply Z.mul_lt_mono_pos_r; lia]).
  assert (A7 : X * (m * m) <= X * 256 ^ 64) by (apply Z.mul_le_mono_nonneg_l; lia).
  set (Q := 256 ^ 64) in *. clearbody Q. lia.
Qed.
Lemma l_lower m k v u3 ub uc c : 0 <= k -> 0 <= u3 < m -> m <= 2 * ub -> 0 <= uc < m -> m <= 2 * c -> 2 ^ 255 <= m -> 256 ^ (k + 1) <= Z.abs v ->
  256 ^ (64 + k) <= Z.abs (u3 + (uc - v * ub) * c).
Proof.
  intros Hk U3 Ub Uc Hc HN Hv. 
  replace (64 + k) with (63 + (k + 1)) by ring. rewrite Z.pow_add_r by lia.
  assert (X2 : 256 <= 256 ^ (k + 1)) by (rewrite <- (Z.pow_1_r 256) at 1; apply Z.pow_le_mono_r; lia).
  set (X := 256 ^ (k + 1)) in *. clearbody X.
  assert (A1 : Z.abs v * ub - uc <= Z.abs (uc - v * ub)).
  { assert (E : Z.abs (v * ub) = Z.abs v * ub) by (rewrite Z.abs_mul; f_equal; lia). lia. }
  assert (A2 : X * ub <= Z.abs v * ub) by (apply Z.mul_le_mono_nonneg_r; lia).
  assert (A3 : (X * ub - uc) * c <= Z.abs (uc - v * ub) * c) by (apply Z.mul_le_mono_nonneg_r; lia).
  assert (A4 : Z.abs ((uc - v * ub) * c) = Z.abs (uc - v * ub) * c) by (rewrite Z.abs_mul; f_equal; lia).
  assert (A5 : X * m <= X * (2 * ub)) by (apply Z.mul_le_mono_nonneg_l; lia). 
  assert (A6 : (X - 2) * m <= 2 * (X * ub - uc)) by (clear -A5 Uc; lia).
  assert (A7 : ((X - 2) * m) * m <= (2 * (X * ub - uc)) * (2 * c)) by (apply Z.mul_le_mono_nonneg; try assumption; [apply Z.mul_nonneg_nonneg; lia|lia]).
  assert (A8 : 2 ^ 255 * 2 ^ 255 <= m * m) by (apply Z.mul_le_mono_nonneg; (assumption || discriminate)).
  assert (A9 : (X - 2) * (m * m) <= 4 * ((X * ub - uc) * c)) by lia.
  assert (B1 : 1 * m <= m * m) by (apply Z.mul_le_mono_nonneg_r; lia).
  assert (B2 : X * (m * m) = (X - 2) * (m * m) + 2 * (m * m)) by ring.
  assert (B3 : 256 * (m * m) <= X * (m * m)) by (apply Z.mul_le_mono_nonneg_r; lia).
  assert (B4 : 16 * 256 ^ 63 <= 2 ^ 255 * 2 ^ 255) by discriminate.
  assert (B5 : X * (16 * 256 ^ 63) <= X * (m * m)) by (apply Z.mul_le_mono_nonneg_l; lia).
  set (Q := 256 ^ 63) in *. clearbody Q. replace (Q * X) with (X * Q) by ring. lia.
Qed.

Section P.
Variables (sha : list Z -> list Z) (zk : zkparams).
Hypothesis S : std zk.

Lemma abc_shape CM CT v sk side u1 u2 u3 ub uc d1 d2 d3 pf : is_point CM -> is_point CT ->
  scalar d1 -> scalar d2 -> scalar d3 ->
  NewABCProof sha zk (pt CM) (pt CT) (Some v) (Some sk) side
    (Build_abcRand (Some u1) (Some u2) (Some u3) (Some ub) (Some uc) (Some d1) (Some d2) (Some d3)) = Ok (Some pf, None) ->
  exists B C d db, is_point B /\ is_point C /\ pf = abcOut sha CM CT v sk u1 u2 u3 ub uc B C (abcTok sk uc) (Some d) /\
    DisjunctiveBytes d = Ok db /\ 14 <= blen db <= 334.
Proof.
  intros H1 H2 D1 D2 D3 E. fold (abcRn u1 u2 u3 ub uc (Some d1) (Some d2) (Some d3)) in E.
  destruct (Z.eq_dec side Left) as [->|NL]; [|destruct (Z.eq_dec side Right) as [->|NR]].
  - destruct (Z.eq_dec v 0) as [->|V].
    + rewrite (abc_left sha zk S) in E by assumption.
      destruct (NewDisjunctiveProof _ _ _ _ _ _ _ _ _ _ _) as [[d [er|]]|] eqn:ED; try discriminate E. cbn [abcDisj bind snd fst] in E.
      destruct (sk mod N =? 0); [discriminate E|]. apply Ok_inj in E.
      assert (Q : pf = abcOut sha CM CT 0 sk u1 u2 u3 ub uc (ped 0 ub) (ped 0 uc) (abcTok sk uc) d) by congruence. subst pf.
      destruct d as [d|]; [|exfalso].
      * apply (disj_len sha zk S) in ED; try assumption; try isp. destruct ED as (_ & db & Eb & L).
        exists (ped 0 ub), (ped 0 uc), d, db. split; [isp|]. split; [isp|]. split; [reflexivity|]. split; [exact Eb|exact L].
      * rewrite (disj_prove_left sha zk S) in ED by isp. destruct (_ =? _) in ED; discriminate ED.
    + exfalso. unfold NewABCProof, abcRn in E. cbn [ar1 ar2 ar3 arb arc] in E. revert E. zk S.
      change ((Left =? Left) || (Left =? Right)) with true. cbv iota. cbn [need bind]. apply Z.eqb_neq in V. rewrite V.
      change (Left =? Left) with true. change (Left =? Right) with false. cbn [andb]. discriminate.
  - destruct (Z.eq_dec v 0) as [->|V].
    + exfalso. unfold NewABCProof, abcRn in E. cbn [ar1 ar2 ar3 arb arc] in E. revert E. zk S.
      change ((Right =? Left) || (Right =? Right)) with true. cbv iota. cbn [need bind].
      change (Right =? Left) with false. change (0 =? 0) with true. cbn [andb negb]. rewrite andb_false_r. discriminate.
    + destruct (Z.eq_dec (v mod N) 0) as [VN|VN].
      { rewrite (abc_right_panic sha zk S) in E by assumption. discriminate E. }
      rewrite (abc_right sha zk S) in E by assumption.
      destruct (NewDisjunctiveProof _ _ _ _ _ _ _ _ _ _ _) as [[d [er|]]|] eqn:ED; try discriminate E. cbn [abcDisj bind snd fst] in E.
      destruct (sk mod N =? 0); [discriminate E|]. apply Ok_inj in E.
      assert (Q : pf = abcOut sha CM CT v sk u1 u2 u3 ub uc (ped (ninv v) ub) (ped 1 uc) (abcTok sk uc) d) by congruence. subst pf.
      destruct d as [d|]; [|exfalso].
      * apply (disj_len sha zk S) in ED; try assumption; try isp. destruct ED as (_ & db & Eb & L).
        exists (ped (ninv v) ub), (ped 1 uc), d, db. split; [isp|]. split; [isp|]. split; [reflexivity|]. split; [exact Eb|exact L].
      * rewrite (disj_prove_right sha zk S) in ED by isp. destruct (_ =? _) in ED; discriminate ED.
  - exfalso. unfold NewABCProof, abcRn in E. cbn [ar1 ar2 ar3 arb arc] in E. revert E. zk S.
    apply Z.eqb_neq in NL, NR. rewrite NL, NR. cbn [orb andb bind]. discriminate.
Qed.
Lemma NN_64 : N * N <= 256 ^ 64. Proof. apply Z.leb_le. vm_compute. reflexivity. Qed.
Lemma abc_len n CM CT v sk side u1 u2 u3 ub uc d1 d2 d3 pf b : is_point CM -> is_point CT -> 0 <= n <= 60 -> Z.abs v < 256 ^ n ->
  scalar u3 -> scalar ub -> scalar uc -> scalar d1 -> scalar d2 -> scalar d3 ->
  NewABCProof sha zk (pt CM) (pt CT) (Some v) (Some sk) side
    (Build_abcRand (Some u1) (Some u2) (Some u3) (Some ub) (Some uc) (Some d1) (Some d2) (Some d3)) = Ok (Some pf, None) ->
  ABCBytes pf = Ok b -> 33 <= blen b <= 835 + n.
Proof.
  intros H1 H2 Hn Hv U3 Ub Uc D1 D2 D3 E Eb. destruct (abc_shape _ _ _ _ _ _ _ _ _ _ _ _ _ _ H1 H2 D1 D2 D3 E) as (B & C & d & db & HB & HC & -> & Ed & Ld). clear E.
  assert (Hn0 : 0 <= 64 + n) by (clear -Hn; lia). assert (Hn1 : 64 + n <= 128) by (clear -Hn; lia). unfold abcOut, abcTok in Eb. cbv zeta in Eb.
  match type of Eb with ABCBytes (MkABC (pt ?p1) (pt ?p2) (pt ?p3) (pt ?p4) (Some (fs sha ?ps)) (Some (?jj mod N)) (Some (?kk mod N)) _ (pt ?p5) _) = _ =>
    destruct (pt_fits p1 ltac:(isp)) as [k1 K1]; destruct (pt_fits p2 ltac:(isp)) as [k2 K2]; destruct (pt_fits p3 ltac:(isp)) as [k3 K3];
    destruct (pt_fits p4 ltac:(isp)) as [k4 K4]; destruct (int_256 _ (bnd_fs sha ps)) as [k5 K5]; destruct (int_256 _ (bnd_mod jj)) as [k6 K6];
    destruct (int_256 _ (bnd_mod kk)) as [k7 K7]; 
    destruct (int_fits (64 + n) _ Hn0 (l_upper N n v u3 ub uc (fs sha ps) (proj1 Hn) U3 Ub Uc (fs_scalar sha ps) NN_64 Hv)) as [k8 K8];
    destruct (pt_fits p5 ltac:(isp)) as [k9 K9] end.
  rewrite (ABC_size (64 + n) _ _ _ _ _ _ _ _ _ d db b k1 k2 k3 k4 k5 k6 k7 k8 k9 Hn1 K1 K2 K3 K4 K5 K6 K7 K8 K9 Ed (proj2 Ld) Eb).
  clear Eb. apply fitsPt_wf in K1, K2, K3, K4, K9. apply (fitsInt_wf _ _ _ le32) in K5, K6, K7. apply (fitsInt_wf _ _ _ Hn1) in K8. pose proof (varbytes_334 db (proj2 Ld)).
  destruct K1 as [_ K1]. destruct K2 as [_ K2]. destruct K3 as [_ K3]. destruct K4 as [_ K4]. destruct K5 as [_ K5]. destruct K6 as [_ K6]. destruct K7 as [_ K7].
  destruct K8 as [_ K8]. destruct K9 as [_ K9]. clear -Hn K1 K2 K3 K4 K5 K6 K7 K8 K9 Ld H. lia.
Qed.

(** ** Range proofs *)
Definition tsize (t : rangeProofTuple) : Z := match rtC t, rtS t with EP (Some x) (Some y), Some z => 4 + nb x + nb y + nb z | _, _ => 0 end.
Lemma encTuple_size x y z : nb x < 253 -> nb y < 253 -> nb z < 252 -> blen (encTuple (MkTuple (EP (Some x) (Some y)) (Some z))) = 4 + nb x + nb y + nb z.
Proof. intros A B C. cbn [encTuple rtC rtS]. rewrite blen_app, encPoint_size, encInt_size by assumption. lia. Qed.
Definition fitsTuple (b : bool) (t : rangeProofTuple) (k : Z) : Prop :=
  exists k1 k2, fitsPt (rtC t) k1 /\ fitsInt (if b then 64 else 96) (rtS t) k2 /\ k = k1 + k2.
Lemma fitsTuple_enc b t k : fitsTuple b t k -> wfTuple t /\ blen (encTuple t) = k.
Proof.
  intros (k1 & k2 & K1 & K2 & ->). assert (Hb : (if b then 64 else 96) <= 128) by (destruct b; discriminate).
  split; [exact (conj (proj1 (fitsPt_wf _ _ K1)) (proj1 (fitsInt_wf _ _ _ Hb K2)))|].
  apply fitsPt_enc in K1. apply (fitsInt_enc _ _ _ Hb) in K2. destruct t as [c s]. cbn [rtC rtS] in *.
  destruct K1 as (x & y & -> & _ & _ & _ & _ & <-). destruct K2 as (z & -> & _ & <-). cbn [encTuple rtC rtS]. apply blen_app.
Qed.
Lemma tuples_enc (f : nat -> rangeProofTuple) (bit : nat -> bool) (k : nat -> Z) l : (forall i, fitsTuple (bit i) (f i) (k i)) ->
  Forall wfTuple (map f l) /\ blen (concat (map encTuple (map f l))) = zsum (map k l).
Proof.
  intros H. induction l as [|i l [IH1 IH2]]; [split; [constructor|reflexivity]|].
  destruct (fitsTuple_enc _ _ _ (H i)) as [W L]. cbn [map concat zsum]. split; [constructor; assumption|]. rewrite blen_app, IH2, L. reflexivity.
Qed.
Lemma zsum_le (f g : nat -> Z) l : (forall i, In i l -> f i <= g i) -> zsum (map f l) <= zsum (map g l).
Proof. induction l as [|i l IH]; intros H; cbn [map zsum]; [lia|]. pose proof (H i (or_introl eq_refl)). pose proof (IH (fun j Hj => H j (or_intror Hj))). lia. Qed.
Lemma zsum_bits (bit : nat -> bool) l :
  zsum (map (fun i => if bit i then 132 else 164) l) = 164 * Z.of_nat (length l) - 32 * Z.of_nat (length (filter bit l)).
Proof. induction l as [|i l IH]; [reflexivity|]. cbn [map zsum length filter]. rewrite IH. destruct (bit i); cbn [length]; lia. Qed.
Lemma ones_eq v : ones v = Z.of_nat (length (filter (rangeBit v) (seq 0 40))).
Proof. unfold ones, rangeBit. reflexivity. Qed.
Lemma zsum_ones v : zsum (map (fun i => if rangeBit v i then 132 else 164) (seq 0 40)) = 164 * 40 - 32 * ones v.
Proof. rewrite zsum_bits, seq_length, ones_eq. generalize (length (filter (rangeBit v) (seq 0 40))). intros n. lia. Qed.
Lemma Range_layout x y e ts : small x -> small y -> small e -> Forall wfTuple ts -> Z.of_nat (length ts) < 253 ->
  RangeBytes (MkRange (EP (Some x) (Some y)) (Some e) ts) = Ok (encPoint x y ++ encInt e ++ [Z.of_nat (length ts)] ++ concat (map encTuple ts)).
Proof.
  intros X Y E W L. unfold RangeBytes. cbn [rpAggregate rpE rpTuples].
  change newBuffer with (buf []); repeat (etransitivity; [first [apply bind_point; assumption|apply bind_int; assumption]|]; cbn [fst]).
  rewrite WriteVarInt_buf; [|reflexivity|unfold uint64; lia]. cbn [fst].
  rewrite writeTuples_buf by (reflexivity || assumption). cbn [bind wout buf]. f_equal. unfold varint.
  destruct (Z.ltb_spec (Z.of_nat (length ts)) 253); [|lia]. rewrite <- !app_assoc. reflexivity.
Qed.
Lemma honS0_fits e h d1 j : scalar e -> scalar h -> scalar d1 -> scalar j -> fits 96 (j + d1 * (e * h)).
Proof.
  intros [E1 E2] [A1 A2] [D1 D2] [J1 J2]. unfold fits.
  assert (0 <= e * h) by (apply Z.mul_nonneg_nonneg; assumption). assert (0 <= d1 * (e * h)) by (apply Z.mul_nonneg_nonneg; assumption). rewrite Z.abs_eq by lia.
  assert (e * h <= (N - 1) * (N - 1)) by (apply Z.mul_le_mono_nonneg; lia).
  assert (d1 * (e * h) <= (N - 1) * ((N - 1) * (N - 1))) by (apply Z.mul_le_mono_nonneg; lia).
  assert ((N - 1) + (N - 1) * ((N - 1) * (N - 1)) < 256 ^ 96) by reflexivity. lia.
Qed.
Lemma takesPt_size p k : fitsPt p k -> takesPt 32 p -> k = 66.
Proof.
  intros (x & y & -> & -> & _) (x' & y' & E & X & Y). assert (x' = x) by congruence. assert (y' = y) by congruence. subst x' y'.
  rewrite (nb_takes 32 x ltac:(lia) X), (nb_takes 32 y ltac:(lia) Y). reflexivity.
Qed.
Lemma takes_size n m o k z : 1 <= n -> fitsInt m o k -> o = Some z -> takes n z -> k = 2 + n.
Proof. intros Hn (x & -> & -> & _) E X. assert (z = x) by congruence. subst z. rewrite (nb_takes n x Hn X). reflexivity. Qed.
Lemma range_len value d1 d2 j pf vt b : 0 <= value < 2 ^ 40 -> goodDraws sha 40 value d1 d2 j ->
  (forall i, scalar (d1 i) /\ scalar (d2 i) /\ scalar (j i)) ->
  NewRangeProof sha zk (Some value) (draws d1 d2 j) = Ok (Some pf, vt, None) -> RangeBytes pf = Ok b ->
  165 <= blen b <= 6661 - 32 * ones value /\ (fullRange value pf -> blen b = 6661 - 32 * ones value).
Proof.
  intros Hv H D E Eb. rewrite (run_ok sha zk S 40 value d1 d2 j ltac:(lia) H eq_refl ltac:(lia)) in E. apply Ok_inj in E.
  set (e := honDigest sha 40 value d1 d2 mod N) in *. assert (He : scalar e) by apply mod_scalar. clearbody e.
  match type of E with (Some (MkRange (pt ?a) _ _), _, _) = _ => assert (Q : pf = MkRange (pt a) (Some e) (tuples (honCs sha e 40 value d1 d2 j))) by congruence;
    destruct (pt_fits a ltac:(isp)) as [ka Ka] end. subst pf. clear E H.
  destruct (int_256 e (bnd_scalar e He)) as [ke Ke].
  unfold tuples, honCs in *. rewrite map_map in *. cbn [fst snd] in *.
  match type of Eb with context [map ?g (seq 0 40)] => set (f := g) in * end.
  assert (Kf : forall i, exists k, fitsTuple (rangeBit value i) (f i) k).
  { intros i. destruct (D i) as (D1 & D2 & D3). unfold f. 
    destruct (pt_fits (honC sha e i (rangeBit value i) (d1 i) (j i)) ltac:(apply hon_C_point)) as [k1 K1].
    assert (F : exists k2, fitsInt (if rangeBit value i then 64 else 96) (Some (honS sha e i (rangeBit value i) (d1 i) (d2 i) (j i))) k2).
    { unfold honS. destruct (rangeBit value i); apply int_fits; try lia; [apply resp_fits; assumption|].
      apply honS0_fits; try assumption. apply ninv_scalar. }
    destruct F as [k2 K2]. exists (k1 + k2), k1, k2. split; [exact K1|]. split; [exact K2|reflexivity]. }
  set (kf := fun i => blen (encTuple (f i))).
  assert (Kk : forall i, fitsTuple (rangeBit value i) (f i) (kf i)).
  { intros i. destruct (Kf i) as [k K]. unfold kf. rewrite (proj2 (fitsTuple_enc _ _ _ K)). exact K. }
  clearbody f. clear D.
  destruct (tuples_enc f (rangeBit value) kf (seq 0 40) Kk) as [W L].
  assert (B : blen b = ka + ke + 1 + zsum (map kf (seq 0 40))).
  { pose proof Ka as Ka'. pose proof Ke as Ke'. apply fitsPt_enc in Ka'. apply (fitsInt_enc _ _ _ le32) in Ke'.
    destruct Ka' as (x & y & Ex & _ & _ & Sx & Sy & <-). destruct Ke' as (z & Ez & Sz & <-). rewrite Ex, Ez in Eb.
    rewrite Range_layout in Eb; [|assumption..|rewrite map_length, seq_length; reflexivity]. apply Ok_inj in Eb. subst b.
    rewrite !blen_app, L. change (blen [Z.of_nat (length (map f (seq 0 40)))]) with 1. ring. }
  assert (U : zsum (map kf (seq 0 40)) <= 164 * 40 - 32 * ones value).
  { rewrite <- zsum_ones.
    apply zsum_le. intros i _. destruct (Kk i) as (k1 & k2 & K1 & K2 & ->). apply fitsPt_wf in K1. apply fitsInt_wf in K2; destruct (rangeBit value i); lia. }
  assert (U2 : 4 * 40 <= zsum (map kf (seq 0 40))).
  { change (4 * 40) with (zsum (map (fun _ : nat => 4) (seq 0 40))).
    apply zsum_le. intros i _. destruct (Kk i) as (k1 & k2 & K1 & K2 & ->). apply fitsPt_wf in K1. apply fitsInt_wf in K2; destruct (rangeBit value i); lia. }
  pose proof (fitsPt_wf _ _ Ka) as [_ Ka2]. pose proof (fitsInt_wf _ _ _ le32 Ke) as [_ Ke2].
  split; [lia|]. intros (F1 & (e' & F2 & F3) & _ & F4). cbn [rpAggregate rpE rpTuples] in *.
  rewrite B, (takesPt_size _ _ Ka F1), (takes_size 32 32 _ _ e' ltac:(lia) Ke F2 F3).
  assert (U3 : zsum (map (fun i => if rangeBit value i then 132 else 164) (seq 0 40)) <= zsum (map kf (seq 0 40))).
  { apply zsum_le. intros i Hi. apply in_seq in Hi. 
    assert (T : nth_error (map f (seq 0 40)) i = Some (f i)).
    { rewrite nth_error_map, (nth_error_nth' _ 0%nat) by (rewrite seq_length; lia). rewrite seq_nth by lia. reflexivity. }
    destruct (F4 i _ T) as (G1 & s & G2 & G3). destruct (Kk i) as (k1 & k2 & K1 & K2 & ->). rewrite (takesPt_size _ _ K1 G1).
    unfold rangeBit in *. assert (L1 : 1 <= (if Z.testbit value (Z.of_nat i) then 64 else 96)) by (destruct (Z.testbit value (Z.of_nat i)); discriminate). rewrite (takes_size _ _ _ _ s L1 K2 G2 G3). destruct (Z.testbit value (Z.of_nat i)); lia. }
  rewrite zsum_ones in U3. clear -U U3. lia.
Qed.
End P.
