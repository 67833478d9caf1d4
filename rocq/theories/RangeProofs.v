(** * Proofs about range proofs (proof only) *)
From Coq Require Import ZArith List Bool Lia Field.
From Verif Require Import NumTheory Go Wire Big Crypto Spec FieldP FieldN CurveZ CurveGroup EndoP Order Lambda
  SpecZk CodecProofs ZkBase PointProofs GspfsProofs EqConsProofs DisjProofs AbcProofs Range SpecRange.
Import ListNotations.
Open Scope Z_scope.

Lemma fs_hs sha ps : fs sha ps = hs sha ps mod N. Proof. reflexivity. Qed.
Lemma is_point_ringT e i C s : is_point C -> is_point (ringT e i C s).
Proof. intros. unfold ringT. isp. Qed.
Lemma is_point_ringR sha e i C s : is_point C -> is_point (ringR sha e i C s).
Proof. intros. unfold ringR. isp. Qed.
Lemma is_point_psum ps : Forall is_point ps -> is_point (psum ps).
Proof. induction 1 as [|p t Hp Ht IH]; cbn [psum]; isp. Qed.

Section P.
Variables (sha : list Z -> list Z) (zk : zkparams).
Hypothesis S : std zk.

Lemma hashPoints_ok ps : hashPoints sha (map pt ps) = Ok (hs sha ps).
Proof. unfold hashPoints. rewrite allBytes_pt. reflexivity. Qed.
Lemma hashPoint_ok p : hashPoint sha (pt p) = Ok (hs sha [p]).
Proof. unfold hashPoint, pBytes, pt. cbn [pX pY need bind]. unfold hs. cbn [map concat]. rewrite app_nil_r. reflexivity. Qed.
Lemma hpoint_ok i : (i < 64)%nat -> hpoint zk i = Ok (pt (smul (2 ^ Z.of_nat i) G)).
Proof.
  intros Hi. unfold hpoint. rewrite (std_HP _ S).
  rewrite (map_nth_error (fun i => pt (smul (2 ^ Z.of_nat i) G)) i (seq 0 64) (d := i)); [reflexivity|].
  rewrite nth_error_nth' with (d := 0%nat) by (rewrite seq_length; exact Hi). rewrite seq_nth by exact Hi. reflexivity.
Qed.
Lemma hpoint_none i : (64 <= i)%nat -> hpoint zk i = Panic.
Proof.
  intros Hi. unfold hpoint. rewrite (std_HP _ S).
  replace (nth_error _ i) with (@None ECPoint); [reflexivity|]. symmetry. apply nth_error_None. rewrite map_length, seq_length. exact Hi.
Qed.
Lemma verifyGen_ok i e C s : (i < 64)%nat -> is_point C ->
  verifyGen sha zk i (Some e) (MkTuple (pt C) (Some s)) = Ok (pt (ringR sha e i C s)).
Proof.
  intros Hi HC. unfold verifyGen. cbn [rtC rtS]. zk S. rewrite hpoint_ok by exact Hi. cbn [bind]. zk S.
  rewrite hashPoint_ok. cbn [bind]. zk S. reflexivity.
Qed.
Lemma verifyGen_high i e t : (64 <= i)%nat -> verifyGen sha zk i e t = Panic.
Proof. intros Hi. unfold verifyGen. destruct (Mult zk (zH zk) (rtS t)); cbn [bind]; [|reflexivity]. rewrite hpoint_none by exact Hi. reflexivity. Qed.
Lemma verifyAll_ok e cs : Forall (fun c => is_point (fst c)) cs -> forall i, (i + length cs <= 64)%nat ->
  verifyAll sha zk (Some e) i (tuples cs) = Ok (map pt (rings sha e i cs)).
Proof.
  induction 1 as [|[C s] t HC Ht IH]; intros i Hi; cbn [tuples map verifyAll rings length fst snd] in *; [reflexivity|].
  rewrite verifyGen_ok by (lia || exact HC). cbn [bind]. unfold tuples in IH. rewrite IH by lia. reflexivity.
Qed.
Lemma verifyAll_high e ts : forall i, (64 < i + length ts)%nat -> (i <= 64)%nat -> verifyAll sha zk e i ts = Panic.
Proof.
  induction ts as [|t r IH]; intros i Hi L; cbn [length verifyAll] in *; [lia|].
  destruct (Nat.eq_dec i 64) as [->|NE].
  - rewrite verifyGen_high by lia. reflexivity.
  - destruct (verifyGen sha zk i e t); cbn [bind]; [|reflexivity]. rewrite IH by lia. reflexivity.
Qed.
Lemma sumC_ok cs : Forall (fun c => is_point (fst c)) cs -> forall a, is_point a ->
  sumC zk (pt a) (tuples cs) = Ok (pt (padd a (psum (map fst cs)))).
Proof.
  induction 1 as [|[C s] t HC Ht IH]; intros a Ha; cbn [tuples map sumC psum fst snd rtC] in *.
  - rewrite padd_O_r. reflexivity.
  - zk S. unfold tuples in IH. rewrite IH by isp. rewrite padd_assoc; [reflexivity|isp|isp|].
    apply is_point_psum. clear IH. induction Ht; constructor; assumption.
Qed.
Lemma tuples_not_nil cs : existsb tupleNil (tuples cs) = false.
Proof. induction cs as [|[C s] t IH]; [reflexivity|]. exact IH. Qed.
Lemma points_fst (cs : list (point * Z)) : Forall (fun c => is_point (fst c)) cs -> Forall is_point (map fst cs).
Proof. induction 1; constructor; assumption. Qed.
Lemma range_verify A e cs comm : is_point A -> is_point comm -> Forall (fun c => is_point (fst c)) cs -> (length cs <= 64)%nat ->
  RangeVerify sha (Some (MkRange (pt A) (Some e) (tuples cs))) zk (pt comm) =
  if (e =? hs sha (rings sha e 0 cs)) && ((fst (psum (map fst cs)) =? fst A) && (fst comm =? fst (psum (map fst cs))))
  then Ok (true, None) else Ok (false, Some EProof).
Proof.
  intros HA Hc Hcs L. unfold RangeVerify. cbn [rpTuples rpE]. rewrite tuples_not_nil, verifyAll_ok by (assumption || lia). cbn [bind].
  rewrite ZeroPoint_pt, sumC_ok by (assumption || isp). cbn [bind]. rewrite padd_O_l.
  unfold rangeDecide. cbn [rpAggregate rpE]. rewrite hashPoints_ok. cbn [bind need].
  destruct (e =? _); [|reflexivity]. cbn [negb andb]. rewrite Equal_ok. cbn [bind].
  destruct (_ =? _); [|reflexivity]. cbn [negb andb]. rewrite Equal_ok. cbn [bind]. destruct (_ =? _); reflexivity.
Qed.
Lemma range_accepts A e cs comm : is_point A -> is_point comm -> Forall (fun c => is_point (fst c)) cs -> (length cs <= 64)%nat ->
  accepts (RangeVerify sha (Some (MkRange (pt A) (Some e) (tuples cs))) zk (pt comm)) <->
  e = hs sha (rings sha e 0 cs) /\ pm (psum (map fst cs)) A /\ pm comm (psum (map fst cs)).
Proof.
  intros HA Hc Hcs L. assert (is_point (psum (map fst cs))) by (apply is_point_psum, points_fst; exact Hcs).
  rewrite range_verify by assumption. rewrite accepts_if, !andb_true_iff, Z.eqb_eq, !xeqb by isp. reflexivity.
Qed.

(** ** The prover *)
Lemma genA_ok i b d1 d2 : (i < 64)%nat ->
  runActs (proofGenA sha zk i b (Some d1) (Some d2)) emptySlot =
  Ok (MkSlot (pt (honR sha i b d1 d2)) (if b then pt (honC1 i d1) else EP None None)
        (Some (if b then d2 else d1)) (if b then Some d1 else None)).
Proof.
  intros Hi. destruct b; cbn [proofGenA negb runActs].
  - unfold drawV at 1. cbn [bind snd fst emptySlot slR slB slk slv]. zk S. rewrite hpoint_ok by exact Hi. cbn [bind]. zk S.
    unfold drawK at 1. cbn [bind snd fst slR slB slk slv]. zk S. rewrite hashPoint_ok. cbn [bind need]. zk S.
    cbn [slR slB slk slv pt pX pY need bind]. rewrite (scalarMult_ok zk S) by isp. cbn [bind snd fst]. rewrite mkPoint_pt. reflexivity.
  - unfold drawK. cbn [bind snd fst emptySlot slR slB slk slv]. zk S. reflexivity.
Qed.
Lemma genBinv_ok i e j : honH sha e i j mod N <> 0 -> genBinv sha zk i e j = Ok (Some (ninv (honH sha e i j))).
Proof.
  intros Hh. unfold genBinv. rewrite (cN_ok zk S), bigExp_ok by (pose proof N_gt2; lia).
  rewrite (ok_base _ (std_curve _ S)) by apply bigBytes_ok. rewrite beval_mod, smul_mod by isp. cbn [bind]. zk S.
  zk S. rewrite hashPoint_ok. cbn [bind].
  assert (E : smul (e * (2 ^ Z.of_nat i mod N)) G = smul (e * 2 ^ Z.of_nat i) G).
  { rewrite <- smul_mod by isp. rewrite Zmult_mod_idemp_r. apply smul_mod. isp. }
  rewrite E. fold (honH sha e i j). rewrite modInverse_some by (rewrite Zmod_mod; exact Hh). rewrite ninv_mod. reflexivity.
Qed.
Lemma genB_ok e i b d1 d2 j : (i < 64)%nat -> honOk sha e i b d1 j ->
  runActs (proofGenB sha zk i b e (Some j)) (MkSlot (pt (honR sha i b d1 d2)) (if b then pt (honC1 i d1) else EP None None)
        (Some (if b then d2 else d1)) (if b then Some d1 else None)) =
  Ok (MkSlot (pt (honR sha i b d1 d2)) (pt (honC sha e i b d1 j)) (Some (honS sha e i b d1 d2 j)) (Some (honV sha e i b d1 j))).
Proof.
  intros Hi (P1 & P2 & P3). destruct b; cbn [proofGenB negb runActs].
  - cbn [slR slB slk slv need bind snd fst]. reflexivity.
  - destruct (P3 eq_refl) as [P4 P5]. rewrite !genBinv_ok by exact P5.
    cbn [slR slB slk slv need bind snd fst honR]. rewrite (Mult_plain zk S) by (assumption || isp). cbn [bind snd fst slR slB slk slv need]. unfold honC, honS, honV. cbv iota. reflexivity.
Qed.

(** the honest rings close *)
Lemma hon_C_point e i b d1 j : is_point (honC sha e i b d1 j).
Proof. unfold honC, honC1. destruct b; isp. Qed.
Lemma hon_R_point i b d1 d2 : is_point (honR sha i b d1 d2).
Proof. unfold honR, honC1. destruct b; isp. Qed.
Lemma hon_C_ped e i b d1 j : honC sha e i b d1 j = ped (if b then 2 ^ Z.of_nat i else 0) (honV sha e i b d1 j).
Proof.
  unfold honC, honC1, honV, ped. destruct b; [reflexivity|]. rewrite smul_0, padd_O_l, smul_mul by isp. reflexivity.
Qed.
Lemma ring_tail a c : is_point a -> is_point c -> padd (padd a c) (pneg a) = c.
Proof. intros Ha Hc. rewrite (padd_comm a c), padd_assoc, padd_pneg_r, padd_O_r by isp. reflexivity. Qed.
Lemma ring_one (k e v : Z) : padd (smul (k + e * v) Htab) (pneg (smul e (smul v Htab))) = smul k Htab.
Proof.
  rewrite smul_add, <- smul_mul by isp. rewrite padd_assoc, padd_pneg_r, padd_O_r by isp. reflexivity.
Qed.
Lemma ring_zero (j e k q g : Z) :
  padd (smul (j + k * (e * q)) Htab) (pneg (smul e (padd (smul q (smul k Htab)) (pneg (smul g G))))) =
  padd (smul j Htab) (smul (e * g) G).
Proof.
  destruct (dlog Htab) as [h Eh]; [isp|]. rewrite Eh. clear Eh. gpush. f_equal. ring.
Qed.
Lemma hon_ring e i b d1 d2 j : honOk sha e i b d1 j ->
  ringR sha e i (honC sha e i b d1 j) (honS sha e i b d1 d2 j) = honR sha i b d1 d2.
Proof.
  intros (P1 & P2 & P3). unfold ringR, ringT. pose proof (hon_C_point e i b d1 j) as HC.
  rewrite (eff_plain _ HC P1). rewrite eff_plain by (isp || exact P2). destruct b; cbn [honC honS honR] in *.
  - unfold honC1 at 1. rewrite ring_tail, ring_one by isp. reflexivity.
  - destruct (P3 eq_refl) as [P4 P5]. rewrite ring_zero. fold (honH sha e i j).
    rewrite <- smul_mul by isp. rewrite <- smul_mod by isp. rewrite Z.mul_comm, ninv_ok by exact P5. apply smul_1.
Qed.

(** ** A whole run *)
Lemma runAll_map (f : nat -> list action) (g h : nat -> slot) m : forall n,
  (forall i, (n <= i < n + m)%nat -> runActs (f i) (g i) = Ok (h i)) ->
  runAll f n (map g (seq n m)) = Ok (map h (seq n m)).
Proof.
  induction m as [|m IH]; intros n H; cbn [seq map runAll]; [reflexivity|].
  rewrite (H n) by lia. cbn [bind]. rewrite IH by (intros; apply H; lia). reflexivity.
Qed.
Lemma repeat_map (A : Type) (a : A) m : forall n, repeat a m = map (fun _ => a) (seq n m).
Proof. induction m as [|m IH]; intros n; cbn; [reflexivity|]. rewrite (IH (Datatypes.S n)). reflexivity. Qed.
Lemma gather_ok (R : nat -> ECPoint) (C : nat -> point) (s v : nat -> Z) : (forall i, is_point (C i)) -> forall m n t a, is_point a ->
  gather zk (map (fun i => MkSlot (R i) (pt (C i)) (Some (s i)) (Some (v i))) (seq n m)) t (pt a) =
  Ok (t + zsum (map v (seq n m)), pt (padd a (psum (map C (seq n m)))), tuples (map (fun i => (C i, s i)) (seq n m))).
Proof.
  intros HC. induction m as [|m IH]; intros n t a Ha; cbn [seq map gather zsum psum tuples].
  - rewrite Z.add_0_r, padd_O_r. reflexivity.
  - cbn [slv slB slk need bind]. pose proof (HC n). zk S. rewrite IH by isp. cbn [bind fst snd]. 
    rewrite padd_assoc; [|isp|isp|apply is_point_psum; apply Forall_map, Forall_forall; intros; apply HC].
    rewrite Z.add_assoc. reflexivity.
Qed.
Lemma rings_map e (C : nat -> point) (s : nat -> Z) m : forall n,
  rings sha e n (map (fun i => (C i, s i)) (seq n m)) = map (fun i => ringR sha e i (C i) (s i)) (seq n m).
Proof. induction m as [|m IH]; intros n; cbn [seq map rings]; [reflexivity|]. rewrite IH. reflexivity. Qed.
Lemma psum_ped (a b : nat -> Z) l : psum (map (fun i => ped (a i) (b i)) l) = ped (zsum (map a l)) (zsum (map b l)).
Proof.
  induction l as [|x l IH]; cbn [map psum zsum]; [unfold ped; rewrite !smul_0, padd_O_l; reflexivity|].
  rewrite IH, ped_add. reflexivity.
Qed.
Lemma testbit_sum v m : zsum (map (fun i => if rangeBit v i then 2 ^ Z.of_nat i else 0) (seq 0 m)) = v mod 2 ^ Z.of_nat m.
Proof.
  assert (A : forall l l', zsum (l ++ l') = zsum l + zsum l') by (induction l; intros; cbn [app zsum]; [reflexivity|rewrite IHl; ring]).
  induction m as [|m IH].
  - change (2 ^ Z.of_nat 0) with 1. rewrite Z.mod_1_r. reflexivity.
  - rewrite seq_S, map_app, A, IH. cbn [map zsum plus]. unfold rangeBit. rewrite Nat2Z.inj_succ, Z.pow_succ_r by lia.
    rewrite (Z.mul_comm 2), Z.rem_mul_r by (try apply Z.pow_nonzero; lia). rewrite Z.testbit_eqb by lia.
    pose proof (Z.mod_pos_bound (v / 2 ^ Z.of_nat m) 2 ltac:(lia)) as B. destruct (Z.eqb_spec ((v / 2 ^ Z.of_nat m) mod 2) 1) as [E|E].
    + rewrite E. ring.
    + replace ((v / 2 ^ Z.of_nat m) mod 2) with 0 by lia. ring.
Qed.

Section Run.
Variables (m : nat) (value : Z) (d1 d2 j : nat -> Z).
Hypothesis m64 : (m <= 64)%nat.
Let dig := honDigest sha m value d1 d2.
Let e := dig mod N.
Let cs := honCs sha e m value d1 d2 j.
Let vt := honVt sha e m value d1 j.
Hypothesis Hok : forall i, (i < m)%nat -> honOk sha e i (rangeBit value i) (d1 i) (j i).

Lemma run_ok : m = 40%nat -> 0 <= value <= 1099511627776 ->
  NewRangeProof sha zk (Some value) (draws d1 d2 j) =
  Ok (Some (MkRange (pt (ped (value mod 2 ^ 40) vt)) (Some e) (tuples cs)), Some vt, None).
Proof.
  intros Em Hv. unfold NewRangeProof. cbn [need bind].
  destruct (Z.ltb_spec 1099511627776 value); [lia|]. destruct (Z.ltb_spec value 0); [lia|].
  unfold proofSize. rewrite <- Em. rewrite (repeat_map _ emptySlot m 0).
  rewrite (runAll_map _ _ (fun i => MkSlot (pt (honR sha i (rangeBit value i) (d1 i) (d2 i)))
     (if rangeBit value i then pt (honC1 i (d1 i)) else EP None None)
        (Some (if rangeBit value i then d2 i else d1 i)) (if rangeBit value i then Some (d1 i) else None)))
    by (intros i Hi; unfold phaseA; cbn [draws rrA1 rrA2]; apply genA_ok; lia). cbn [bind].
  unfold challengeE0. rewrite map_map. cbn [slR].
  rewrite <- (map_map (fun i => honR sha i (rangeBit value i) (d1 i) (d2 i)) pt), hashPoints_ok. cbn [bind]. rewrite (cN_ok zk S).
  fold (honDigest sha m value d1 d2). fold dig. fold e.
  rewrite (runAll_map _ _ (fun i => MkSlot (pt (honR sha i (rangeBit value i) (d1 i) (d2 i)))
     (pt (honC sha e i (rangeBit value i) (d1 i) (j i))) (Some (honS sha e i (rangeBit value i) (d1 i) (d2 i) (j i)))
     (Some (honV sha e i (rangeBit value i) (d1 i) (j i)))))
    by (intros i Hi; unfold phaseB; cbn [draws rrB]; apply genB_ok; [lia|apply Hok; lia]). cbn [bind].
  unfold rangeFinish. rewrite ZeroPoint_pt, gather_ok by (isp || (intros; apply hon_C_point)). cbn [bind].
  rewrite Z.add_0_l, padd_O_l. fold (honVt sha e m value d1 j). fold vt. fold (honCs sha e m value d1 d2 j). fold cs.
  erewrite (map_ext (fun i => honC sha e i (rangeBit value i) (d1 i) (j i))) by (intros; apply hon_C_ped).
  rewrite psum_ped, testbit_sum. fold (honVt sha e m value d1 j). fold vt. rewrite Em. reflexivity.
Qed.
Lemma hon_points : Forall (fun c => is_point (fst c)) cs.
Proof. apply Forall_map, Forall_forall. intros i _. apply hon_C_point. Qed.
Lemma hon_rings : hs sha (rings sha e 0 cs) = dig.
Proof.
  unfold cs, honCs. rewrite rings_map. unfold dig. unfold honDigest. f_equal. apply map_ext_in. intros i Hi. apply in_seq in Hi.
  apply hon_ring, Hok. lia.
Qed.
Lemma hon_sum : psum (map fst cs) = ped (value mod 2 ^ Z.of_nat m) vt.
Proof.
  unfold cs, honCs. rewrite map_map. cbn [fst].
  erewrite (map_ext (fun i => honC sha e i (rangeBit value i) (d1 i) (j i))) by (intros; apply hon_C_ped).
  rewrite psum_ped, testbit_sum. reflexivity.
Qed.
Lemma run_verify comm : is_point comm ->
  RangeVerify sha (Some (MkRange (pt (ped (value mod 2 ^ Z.of_nat m) vt)) (Some e) (tuples cs))) zk (pt comm) =
  if (e =? dig) && (fst comm =? fst (ped (value mod 2 ^ Z.of_nat m) vt)) then Ok (true, None) else Ok (false, Some EProof).
Proof.
  intros Hc. rewrite range_verify; [|isp|exact Hc|exact hon_points|unfold cs, honCs; rewrite map_length, seq_length; lia].
  rewrite hon_rings, hon_sum, Z.eqb_refl. reflexivity.
Qed.
End Run.

(** ** Extraction *)
Lemma ring_move X Y : is_point X -> is_point Y -> padd (padd X (pneg Y)) Y = X.
Proof. intros HX HY. rewrite padd_assoc, padd_pneg_l, padd_O_r by isp. reflexivity. Qed.
Lemma ring_extract_one e e' i C s s' : is_point C -> plain (padd C (pneg (smul (2 ^ Z.of_nat i) G))) ->
  e mod N <> e' mod N -> ringT e i C s = ringT e' i C s' -> C = ped (2 ^ Z.of_nat i) (slope 1 1 s e s' e').
Proof.
  intros HC P D E. unfold ringT in E. rewrite eff_plain in E by (isp || exact P). unfold ped.
  set (W := smul (2 ^ Z.of_nat i) G) in *. assert (HW : is_point W) by (unfold W; isp).
  set (D1 := padd C (pneg W)) in *. assert (HD : is_point D1) by (unfold D1; isp).
  assert (EC : C = padd W D1).
  { unfold D1. rewrite (padd_comm C), <- padd_assoc, padd_pneg_r, padd_O_l by isp. reflexivity. }
  rewrite EC at 1. f_equal. clear EC P. clearbody D1. clear W HW HC.
  unfold slope. rewrite !Z.mul_1_l.
  apply (slope_eq D1 Htab (padd (smul s Htab) (pneg (smul e D1)))); try isp; try exact D.
  - apply ring_move; isp.
  - rewrite E. apply ring_move; isp.
Qed.
Lemma ring_extract_zero e i C s C' s' h h' : is_point C -> is_point C' ->
  plain (padd C (pneg (smul (2 ^ Z.of_nat i) G))) -> plain (padd C' (pneg (smul (2 ^ Z.of_nat i) G))) ->
  e mod N <> 0 -> h mod N <> h' mod N -> ringT e i C s = ringT e i C' s' -> smul h C = smul h' C' ->
  C = ped 0 (((s - s') * h' * ninv (e * (h' - h))) mod N).
Proof.
  intros HC HC' P P' De Dh E ER. unfold ringT in E. rewrite !eff_plain in E by (isp || assumption). clear P P'.
  unfold ped. rewrite smul_0, padd_O_l. apply solve_dlog; [isp|isp| |].
  - apply not_eq_sym, diff_nz in Dh. intros Q. apply Dh.
    rewrite <- (Zmod_0_l N) in Q. rewrite <- (Z.mul_0_r e) in Q. apply (mul_cancel_mod N e _ _ prime_N De) in Q. rewrite Q. apply Zmod_0_l.
  - destruct (dlog Htab) as [g Eg]; [isp|]. rewrite Eg in *. clear Eg.
    destruct (dlog C HC) as [c ->]. destruct (dlog C' HC') as [c' ->]. gpush_in E. gpush_in ER. gpush.
    apply smul_G_eq_inv in E. apply smul_G_eq_inv in ER. nzpush_in E. nzpush_in ER. apply smul_G_eq. nzpush.
    lin2 E (nopp (nz h')) ER (nopp (nz e)).
Qed.
End P.

(** ** Soundness of the sum *)
Lemma bits_bound (b : nat -> Z) m : (forall i, b i = 0 \/ b i = 1) -> 0 <= zsum (map (fun i => b i * 2 ^ Z.of_nat i) (seq 0 m)) < 2 ^ Z.of_nat m.
Proof.
  intros Hb. assert (A : forall l l', zsum (l ++ l') = zsum l + zsum l') by (induction l; intros; cbn [app zsum]; [reflexivity|rewrite IHl; ring]).
  induction m as [|m IH]; [change (2 ^ Z.of_nat 0) with 1; cbn; lia|].
  rewrite seq_S, map_app, A. cbn [map zsum plus]. rewrite Nat2Z.inj_succ, Z.pow_succ_r by lia. destruct (Hb m) as [-> | ->]; lia.
Qed.

(** ** Small multiples of G are plain *)
Lemma hk_mid : 2 ^ 64 < hk < N - 2 ^ 64. Proof. split; reflexivity. Qed.
Lemma N_nz : N <> 0. Proof. discriminate. Qed.
Lemma N_big : 2 ^ 65 < N. Proof. reflexivity. Qed.
Lemma mod_eq_small a b : a mod N = b mod N -> exists k, a = b + k * N.
Proof. intros H. exists (a / N - b / N). pose proof (Z.div_mod a N N_nz) as A. pose proof (Z.div_mod b N N_nz) as B. rewrite H in A. revert A B. generalize (a / N) (b / N) (b mod N) N. intros x y z n A B. lia. Qed.
Lemma plain_gen m k n : Hgen = smul k G -> n = N -> 2 ^ 65 < n -> 2 ^ 64 < k < n - 2 ^ 64 -> - 2 ^ 64 < m < 2 ^ 64 -> m <> -1 -> plain (smul m G).
Proof.
  intros EH En L K M D. unfold plain. rewrite EH, <- smul_opp by isp.
  assert (EG : smul (-1) G = pneg G) by (change (-1) with (Z.opp 1); rewrite smul_opp, smul_1 by isp; reflexivity). rewrite <- EG. clear EG.
  split; [|split]; intros E; apply smul_G_inj, mod_eq_small in E; destruct E as [q E]; rewrite <- En in E; clear EH En;
    (destruct (Z.eq_dec q 0) as [-> | Q]; [lia|destruct (Z_le_gt_dec q (-1)); nia]).
Qed.
Lemma plain_small m : - 2 ^ 64 < m < 2 ^ 64 -> m <> -1 -> plain (smul m G).
Proof. exact (plain_gen m hk N Hgen_dlog eq_refl N_big hk_mid). Qed.
Lemma pow_small i : (i < 64)%nat -> 0 < 2 ^ Z.of_nat i < 2 ^ 64.
Proof. intros H. split; [apply Z.pow_pos_nonneg; lia|apply Z.pow_lt_mono_r; lia]. Qed.
Lemma hs_shaC c ps : 0 <= c < 2 ^ 256 -> hs (shaC c) ps = c.
Proof. intros H. unfold hs, shaC. rewrite beval_be_bytes by (destruct H; assumption). apply Z.mod_small. exact H. Qed.
(** all bits 1, zero blinding: no degenerate point *)
Lemma ones_bits m i : (i < m)%nat -> rangeBit (2 ^ Z.of_nat m - 1) i = true.
Proof. intros H. unfold rangeBit. rewrite Z.sub_1_r, <- Z.ones_equiv. apply Z.ones_spec_low. lia. Qed.
Lemma ones_good sha m d2 j : (m <= 64)%nat -> goodDraws sha m (2 ^ Z.of_nat m - 1) (fun _ => 0) d2 j.
Proof.
  intros Hm i Hi. rewrite ones_bits by exact Hi. unfold honOk, honC, honC1. rewrite smul_0, padd_O_r.
  pose proof (pow_small i ltac:(lia)) as B. split; [apply plain_small; lia|]. split; [|discriminate].
  rewrite padd_pneg_r by isp. rewrite O_smul. apply plain_small; lia.
Qed.
Lemma ped_value_neq a b r : a mod N <> b mod N -> ped a r <> ped b r.
Proof.
  intros D E. apply D. unfold ped in E. destruct (dlog Htab is_point_Htab) as [h EH]. rewrite EH in E. gpush_in E.
  apply smul_G_eq_inv in E. apply nz_eq_iff. nzpush_in E. lin E n1.
Qed.

(** ** Examples *)
Lemma Htab_gen a : exists k, smul k Htab = smul a G.
Proof.
  destruct (dlog Htab is_point_Htab) as [h EH].
  assert (D : h mod N <> 0).
  { intros E. assert (Q : Htab = O). { rewrite EH, <- smul_mod by isp. rewrite E. apply smul_0. } apply (f_equal fst) in Q. discriminate Q. }
  exists (a * ninv h). rewrite EH. gpush. apply smul_G_eq. apply nz_nz in D. nzpush. field. exact D.
Qed.
Lemma one_mod : 1 mod N = 1. Proof. reflexivity. Qed.
Lemma two_mod : 2 mod N = 2. Proof. reflexivity. Qed.
Lemma ninv_1 : ninv 1 = 1.
Proof. rewrite ninv_pow. rewrite Z.pow_1_l by discriminate. reflexivity. Qed.
Lemma pow40_bits i : (i < 40)%nat -> rangeBit (2 ^ 40) i = false.
Proof. intros H. unfold rangeBit. apply Z.pow2_bits_false. lia. Qed.
Lemma zeros_good : exists d1 : nat -> Z, goodDraws (shaC 1) 40 (2 ^ 40) d1 (fun _ => 0) (fun _ => 7) /\
  let vt := honVt (shaC 1) 1 40 (2 ^ 40) d1 (fun _ => 7) in ped (2 ^ 40) vt <> pneg (ped 0 vt).
Proof.
  destruct (Htab_gen 2) as [k Ek]. exists (fun i => match i with 0%nat => k | _ => 0 end). split.
  - intros i Hi. unfold honDigest. rewrite hs_shaC by lia. rewrite one_mod, pow40_bits by exact Hi.
    unfold honOk, honC, honH. rewrite hs_shaC by lia. rewrite one_mod, ninv_1, smul_1.
    destruct i as [|i].
    + change (2 ^ Z.of_nat 0) with 1. rewrite Ek, <- smul_opp, <- smul_add by isp. 
      split; [apply plain_small; lia|]. split; [apply plain_small; lia|]. intros _. split; [apply plain_small; lia|lia].
    + rewrite smul_0, padd_O_l, O_smul, <- smul_opp by isp. pose proof (pow_small (Datatypes.S i) ltac:(lia)) as B.
      assert (B1 : 1 < 2 ^ Z.of_nat (Datatypes.S i)) by (apply Z.pow_gt_1; lia).
      split; [apply plain_small; lia|]. split; [apply plain_small; lia|]. intros _. split; [apply plain_small; lia|lia].
  - assert (E : honVt (shaC 1) 1 40 (2 ^ 40) (fun i => match i with 0%nat => k | _ => 0 end) (fun _ => 7) = k).
    { unfold honVt. change (seq 0 40) with (0%nat :: seq 1 39). cbn [map zsum].
      rewrite (map_ext_in _ (fun _ => 0)) by (intros i Hi; apply in_seq in Hi; rewrite pow40_bits by lia; unfold honV; destruct i; [lia|apply Z.mul_0_r]).
      rewrite pow40_bits by lia. unfold honV, honH. rewrite hs_shaC by lia. rewrite ninv_1.
      assert (Q : forall l : list nat, zsum (map (fun _ => 0) l) = 0) by (induction l; [reflexivity|exact IHl]).
      rewrite Q. ring. }
    cbv zeta. rewrite E. unfold ped. rewrite Ek. rewrite <- !smul_add, <- smul_opp by isp. intros Q. apply smul_G_inj in Q. discriminate Q.
Qed.
Lemma one_fork : let C := ped 2 1 in is_point C /\ plain (padd C (pneg (smul (2 ^ Z.of_nat 1) G))) /\
  1 mod N <> 2 mod N /\ ringT 1 1 C 8 = ringT 2 1 C 9.
Proof.
  cbv zeta. split; [isp|]. change (2 ^ Z.of_nat 1) with 2. unfold ringT. change (2 ^ Z.of_nat 1) with 2.
  unfold ped. rewrite smul_1, ring_tail by isp.
  split; [exact plain_Htab|]. split; [rewrite one_mod, two_mod; discriminate|].
  rewrite eff_Htab. destruct (dlog Htab is_point_Htab) as [h EH]. rewrite EH. gpush. f_equal. ring.
Qed.
Lemma zero_fork_gen i c c' w y h h' d d' : 2 ^ Z.of_nat i = w -> smul y Htab = smul (c - c') G -> h * c = h' * c' -> d = c - w -> d' = c' - w ->
  0 <= h < 2 ^ 256 -> 0 <= h' < 2 ^ 256 -> h mod N <> h' mod N ->
  plain (smul c G) -> plain (smul c' G) -> plain (smul d G) -> plain (smul d' G) ->
  plain (smul c G) /\ plain (smul c' G) /\ plain (padd (smul c G) (pneg (smul (2 ^ Z.of_nat i) G))) /\ plain (padd (smul c' G) (pneg (smul (2 ^ Z.of_nat i) G))) /\
  hs (shaC h) [ringT 1 i (smul c G) y] mod N <> hs (shaC h') [ringT 1 i (smul c' G) 0] mod N /\
  ringT 1 i (smul c G) y = ringT 1 i (smul c' G) 0 /\ ringR (shaC h) 1 i (smul c G) y = ringR (shaC h') 1 i (smul c' G) 0.
Proof.
  intros Ew Ey Eh -> -> H1 H2 D P P' Q Q'. unfold ringR. rewrite !hs_shaC by assumption. unfold ringT. rewrite Ew.
  replace (padd (smul c G) (pneg (smul w G))) with (smul (c - w) G) by (gpush; f_equal; ring).
  replace (padd (smul c' G) (pneg (smul w G))) with (smul (c' - w) G) by (gpush; f_equal; ring).
  rewrite !eff_plain by (isp || assumption). repeat (split; [assumption|]). split.
  - rewrite Ey. rewrite smul_0, padd_O_l. gpush. f_equal. ring.
  - gpush. rewrite Eh. reflexivity.
Qed.
Lemma zero_fork : exists y, let C := smul 6 G in let C' := smul 3 G in
  plain C /\ plain C' /\ plain (padd C (pneg (smul (2 ^ Z.of_nat 0) G))) /\ plain (padd C' (pneg (smul (2 ^ Z.of_nat 0) G))) /\
  hs (shaC 1) [ringT 1 0 C y] mod N <> hs (shaC 2) [ringT 1 0 C' 0] mod N /\
  ringT 1 0 C y = ringT 1 0 C' 0 /\ ringR (shaC 1) 1 0 C y = ringR (shaC 2) 1 0 C' 0.
Proof.
  destruct (Htab_gen (6 - 3)) as [y Ey]. exists y. cbv zeta.
  refine (zero_fork_gen 0 6 3 1 y 1 2 5 2 eq_refl Ey eq_refl eq_refl eq_refl _ _ _ _ _ _ _); [lia|lia| | apply plain_small; lia..].
  rewrite one_mod, two_mod. discriminate.
Qed.
