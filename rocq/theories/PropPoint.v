(** * Properties of points, commitments and parameters (C10-C21)

    [std zk] (SpecZk.v): the curve computes the secp256k1 group and the parameters
    are those of the package.  [specZk] is an instance; TestCurve itself is shown to be
    one in PropCurve.v. *)
From Coq Require Import ZArith List Lia.
From Verif Require Import Go Wire Big Crypto Spec CurveGroup Order SpecZk Sha256 Zksigma CodecProofs ZkBase PointProofs.
Import ListNotations.
Open Scope Z_scope.

(** C10: Equal decides equality up to sign ... *)
Theorem C10_equal_up_to_sign : forall p q, is_point p -> is_point q ->
  (Equal (pt p) (pt q) = Ok true <-> q = p \/ q = pneg p) /\
  (Equal (pt p) (pt q) = Ok false <-> ~ (q = p \/ q = pneg p)).
Proof.
  intros p q Hp Hq. rewrite Equal_ok. pose proof (pm_x p q Hp Hq) as A. pose proof (x_eq_false p q Hp Hq) as B. unfold pm in *.
  destruct (fst p =? fst q); split; split; intros H; try discriminate; try reflexivity; tauto.
Qed.
Print Assumptions C10_equal_up_to_sign.
(** ... so it takes every curve point for its opposite, which is a different point. *)
Theorem C10_equal_refuted : forall p, on_curve p -> Equal (pt p) (pt (pneg p)) = Ok true /\ pneg p <> p.
Proof. intros p H. split; [rewrite Equal_ok; cbn [pneg fst]; rewrite Z.eqb_refl; reflexivity|apply pneg_neq; exact H]. Qed.
Print Assumptions C10_equal_refuted.
Example C10_nonvacuous : is_point G /\ on_curve G. Proof. split; [isp|exact GMult.G_on_curve]. Qed.

(** C11: Add, Sub and Neg are the group operations of the curve; the results are
    again group elements, so with reduced coordinates. *)
Theorem C11_group_operations : forall zk p q, std zk -> is_point p -> is_point q ->
  Add zk (pt p) (pt q) = Ok (pt (padd p q)) /\ is_point (padd p q) /\
  Neg zk (pt p) = Ok (pt (pneg p)) /\ is_point (pneg p) /\ padd p (pneg p) = O /\
  Sub zk (pt p) (pt q) = Ok (pt (padd p (pneg q))).
Proof.
  intros zk p q S Hp Hq. repeat split; try isp.
  - apply Add_ok; assumption.
  - apply Neg_ok; assumption.
  - apply CurveZ.padd_pneg_r; exact Hp.
  - apply Sub_ok; assumption.
Qed.
Print Assumptions C11_group_operations.
(** commutativity, associativity, and Sub undoing Add, as seen through the API *)
Theorem C11_add_laws : forall zk p q r, std zk -> is_point p -> is_point q -> is_point r ->
  Add zk (pt p) (pt q) = Add zk (pt q) (pt p) /\
  (s <- Add zk (pt p) (pt q); Add zk s (pt r)) = (s <- Add zk (pt q) (pt r); Add zk (pt p) s) /\
  (s <- Add zk (pt p) (pt q); Sub zk s (pt q)) = Ok (pt p) /\
  (n <- Neg zk (pt q); Add zk (pt p) n) = Sub zk (pt p) (pt q).
Proof.
  intros zk p q r S Hp Hq Hr. rewrite !(Add_ok zk S), (Neg_ok zk S), (Sub_ok zk S) by isp. cbn [bind].
  rewrite !(Add_ok zk S), (Sub_ok zk S) by isp. repeat split.
  - rewrite CurveZ.padd_comm by isp. reflexivity.
  - rewrite CurveZ.padd_assoc by isp. reflexivity.
  - rewrite CurveZ.padd_assoc by isp. rewrite CurveZ.padd_pneg_r by isp. rewrite CurveZ.padd_O_r. reflexivity.
Qed.
Print Assumptions C11_add_laws.
Example C11_nonvacuous : std specZk /\ is_point G /\ is_point (pneg G) /\ is_point O /\
  Add specZk (pt G) (pt (pneg G)) = Ok ZeroPoint /\ Add specZk (pt G) (pt O) = Ok (pt G).
Proof.
  split; [exact specZk_std|]. split; [isp|]. split; [isp|]. split; [isp|].
  rewrite !(Add_ok _ specZk_std) by isp. rewrite CurveZ.padd_pneg_r by isp. split; reflexivity.
Qed.

(** C12: for points other than -G, H and -H, Mult is multiplication by any integer. *)
Theorem C12_mult : forall zk p s, std zk -> is_point p -> p <> pneg G -> p <> Hgen -> p <> pneg Hgen ->
  Mult zk (pt p) (Some s) = Ok (pt (smul s p)).
Proof. intros zk p s S Hp H1 H2 H3. apply Mult_plain; [exact S|exact Hp|repeat split; assumption]. Qed.
Print Assumptions C12_mult.
Theorem C12_mult_reduces : forall zk p s k, std zk -> is_point p ->
  Mult zk (pt p) (Some (s + k * N)) = Mult zk (pt p) (Some s).
Proof.
  intros zk p s k S Hp. rewrite !(Mult_ok zk S) by exact Hp. rewrite <- (smul_mod (s + k * N)), Z.mod_add, smul_mod; try isp;
  [reflexivity|discriminate].
Qed.
Print Assumptions C12_mult_reduces.
Example C12_nonvacuous : is_point G /\ plain G /\ Mult specZk (pt G) (Some (-1)) = Ok (pt (pneg G)).
Proof.
  split; [isp|]. split; [exact plain_G|]. rewrite (Mult_ok _ specZk_std) by isp.
  rewrite eff_G. change (-1) with (Z.opp 1). rewrite smul_opp by isp. rewrite smul_1. reflexivity.
Qed.

(** C13 (refuted): on -G, H and -H it is not: it multiplies G, respectively the
    tabulated point H', which is neither H nor -H. *)
Theorem C13_mult_refuted : forall zk s, std zk ->
  Mult zk (pt (pneg G)) (Some s) = Ok (pt (smul s G)) /\
  Mult zk (pt Hgen) (Some s) = Ok (pt (smul s Htab)) /\
  Mult zk (pt (pneg Hgen)) (Some s) = Ok (pt (smul s Htab)).
Proof. intros zk s S. rewrite !(Mult_ok zk S) by isp. repeat split. Qed.
Print Assumptions C13_mult_refuted.
Theorem C13_mult_one_refuted : forall zk, std zk ->
  Mult zk (pt (pneg G)) (Some 1) <> Ok (pt (pneg G)) /\
  Mult zk (pt Hgen) (Some 1) <> Ok (pt Hgen) /\
  Mult zk (pt Hgen) (Some 1) <> Ok (pt (pneg Hgen)).
Proof.
  intros zk S. rewrite !(Mult_ok zk S), !smul_1 by isp. repeat split; intros E; apply Ok_inj, pt_inj in E.
  - symmetry in E. exact (pneg_neq G GMult.G_on_curve E).
  - apply (f_equal fst) in E. discriminate E.
  - apply (f_equal fst) in E. discriminate E.
Qed.
Print Assumptions C13_mult_one_refuted.
Example C13_nonvacuous : std specZk. Proof. exact specZk_std. Qed.

(** C14: challenges are reduced, and a function of the concatenated arguments. *)
Theorem C14_challenge_range : forall sha zk arr, cN (zC zk) = N -> 0 <= GenerateChallenge sha zk arr < N.
Proof. intros sha zk arr E. unfold GenerateChallenge. rewrite E. apply Z.mod_pos_bound. reflexivity. Qed.
Print Assumptions C14_challenge_range.
Theorem C14_challenge_deterministic : forall sha zk arr arr', concat arr = concat arr' ->
  GenerateChallenge sha zk arr = GenerateChallenge sha zk arr'.
Proof. intros sha zk arr arr' E. unfold GenerateChallenge. rewrite E. reflexivity. Qed.
Print Assumptions C14_challenge_deterministic.
Example C14_nonvacuous : GenerateChallenge (fun b => b) specZk [[1]; [2; 3]] = 66051 /\
  cN (zC specZk) = N. Proof. split; reflexivity. Qed.

(** C15 (refuted): the concatenation is ambiguous.  The identity contributes no
    bytes, so for every hash function and group element A the transcripts (A,O), (O,A)
    and (A) have one challenge; and coordinates are not padded, so bytes may move
    across coordinates. *)
Theorem C15_transcripts_refuted : forall sha zk A, is_point A ->
  Challenge sha zk [pt A; pt O] = Challenge sha zk [pt O; pt A] /\
  Challenge sha zk [pt A; pt O] = Challenge sha zk [pt A].
Proof.
  intros sha zk A _. unfold Challenge, GenerateChallenge. cbn. rewrite !app_nil_r. split; reflexivity.
Qed.
Print Assumptions C15_transcripts_refuted.
Theorem C15_coordinates_refuted : forall sha zk x y, 0 < x < 256 -> 0 < y < 256 ->
  Challenge sha zk [EP (Some (x * 256 + y)) (Some x)] = Challenge sha zk [EP (Some x) (Some (y * 256 + x))].
Proof.
  intros sha zk x y Hx Hy. unfold Challenge, GenerateChallenge. cbn [allBytes pBytes pX pY need bind concat].
  assert (A : forall z, 0 < z < 256 -> bigBytes z = [z]).
  { intros z Hz. unfold bigBytes. rewrite Z.abs_eq by lia. unfold byteLen. destruct (Z.leb_spec z 0); [lia|].
    assert (L : 0 <= Z.log2 z < 8) by (split; [apply Z.log2_nonneg|apply Z.log2_lt_pow2; lia]).
    rewrite Z.div_small by lia. change (Z.to_nat (0 + 1)) with 1%nat. cbn [be_bytes app]. rewrite Z.mod_small by lia. reflexivity. }
  assert (B : forall a b, 0 < a < 256 -> 0 < b < 256 -> bigBytes (a * 256 + b) = [a; b]).
  { intros a b Ha Hb. unfold bigBytes. rewrite Z.abs_eq by lia. unfold byteLen. destruct (Z.leb_spec (a * 256 + b) 0); [lia|].
    assert (L : 8 <= Z.log2 (a * 256 + b) < 16) by (split; [apply Z.log2_le_pow2; lia|apply Z.log2_lt_pow2; lia]).
    replace (Z.log2 (a * 256 + b) / 8) with 1 by (apply Z.div_unique with (Z.log2 (a * 256 + b) - 8); lia).
    change (Z.to_nat (1 + 1)) with 2%nat. cbn [be_bytes app].
    rewrite Z.div_add_l, (Z.div_small b 256), Z.add_0_r by lia.
    rewrite (Z.mod_small a) by lia. replace ((a * 256 + b) mod 256) with b by (rewrite Z.add_comm, Z.mod_add, Z.mod_small; lia). reflexivity. }
  rewrite !B, !A by lia. reflexivity.
Qed.
Print Assumptions C15_coordinates_refuted.
Example C15_nonvacuous : is_point G /\ [pt G; pt O] <> [pt O; pt G] /\
  EP (Some 258) (Some 1) <> EP (Some 1) (Some 513). Proof. split; [isp|split; discriminate]. Qed.

(** C15: that is the only cause.  Lists of points all of whose coordinates have their
    full 32 bytes are told apart: if they get the same challenge under every hash
    function, they are the same list. *)
Theorem C15_full_size_unambiguous : forall zk ps qs, cN (zC zk) = N ->
  (forall p, In p ps \/ In p qs -> 2 ^ 248 <= fst p < 2 ^ 256 /\ 2 ^ 248 <= snd p < 2 ^ 256) ->
  (forall sha, Challenge sha zk (map pt ps) = Challenge sha zk (map pt qs)) -> ps = qs.
Proof. exact transcript_full. Qed.
Print Assumptions C15_full_size_unambiguous.
Example C15_full_size_case : forall p, In p [G] \/ In p [Htab; G] -> 2 ^ 248 <= fst p < 2 ^ 256 /\ 2 ^ 248 <= snd p < 2 ^ 256.
Proof.
  intros p H. assert (Q : p = G \/ p = Htab) by (cbn [In] in H; intuition congruence). clear H.
  destruct Q as [-> | ->]; vm_compute; repeat split; discriminate.
Qed.

(** C16: keys and randomness tokens. *)
Theorem C16_keygen : forall c base u, curve_ok c -> is_point base -> scalar u ->
  KeyGen c (pt base) (Some u) = Ok (pt (smul u base), u).
Proof.
  intros c base u C Hb [Hu _]. unfold KeyGen. cbn [need bind]. change (pX (pt base)) with (Some (fst base)).
  change (pY (pt base)) with (Some (snd base)). cbn [need bind]. rewrite (ok_mul c C base) by (try isp; apply bigBytes_ok).
  cbn [bind]. rewrite beval_bigBytes, Z.abs_eq by exact Hu. reflexivity.
Qed.
Print Assumptions C16_keygen.
Theorem C16_verifyR : forall zk pk rt r, std zk -> is_point pk -> is_point rt ->
  CommitR zk (pt pk) (Some r) = Ok (pt (smul r pk)) /\
  VerifyR zk (pt (smul r pk)) (pt pk) (Some r) = Ok true /\
  (VerifyR zk (pt rt) (pt pk) (Some r) = Ok true <-> rt = smul r pk \/ rt = pneg (smul r pk)).
Proof.
  intros zk pk rt r S Hp Hr. unfold VerifyR. rewrite (CommitR_ok zk S) by isp. cbn [bind].
  split; [reflexivity|]. split; [rewrite Equal_ok, Z.eqb_refl; reflexivity|].
  apply C10_equal_up_to_sign; isp.
Qed.
Print Assumptions C16_verifyR.
Example C16_nonvacuous : curve_ok specCurve /\ is_point G /\ scalar (N - 1) /\ KeyGen specCurve (pt G) None = Panic.
Proof. split; [exact specCurve_ok|]. split; [isp|]. split; [split; [discriminate|reflexivity]|reflexivity]. Qed.

(** C17: commitments are v*G + r*H', additively homomorphic. *)
Theorem C17_pedersen : forall zk v r, std zk ->
  PedCommitR zk (Some v) (Some r) = Ok (pt (padd (smul v G) (smul r Htab))).
Proof. intros zk v r S. apply (PedCommitR_ok zk S). Qed.
Print Assumptions C17_pedersen.
Theorem C17_homomorphic : forall zk v r v' r', std zk ->
  (a <- PedCommitR zk (Some v) (Some r); b <- PedCommitR zk (Some v') (Some r'); Add zk a b)
    = PedCommitR zk (Some (v + v')) (Some (r + r')) /\
  (a <- PedCommitR zk (Some v) (Some r); b <- PedCommitR zk (Some v') (Some r'); Sub zk a b)
    = PedCommitR zk (Some (v - v')) (Some (r - r')) /\
  PedCommitR zk (Some v) (Some r) = PedCommitR zk (Some (v mod N)) (Some (r mod N)).
Proof.
  intros zk v r v' r' S. rewrite !(PedCommitR_ok zk S). cbn [bind]. rewrite (Add_ok zk S), (Sub_ok zk S) by isp.
  rewrite ped_neg, !ped_add, ped_mod. repeat split.
Qed.
Print Assumptions C17_homomorphic.
Theorem C17_pedcommit : forall zk v u, std zk -> 
  PedCommit zk (Some v) (Some u) = Ok (pt (ped v u), Some u, None) /\
  PedCommit zk (Some v) None = Ok (ZeroPoint, None, Some ERand).
Proof. intros zk v u S. unfold PedCommit. rewrite (PedCommitR_ok zk S). split; reflexivity. Qed.
Print Assumptions C17_pedcommit.
Example C17_nonvacuous : std specZk. Proof. exact specZk_std. Qed.

(** C18: perfect hiding: whatever the value, each group element is the commitment
    for exactly one randomness. *)
Theorem C18_hiding : forall zk c v, std zk -> is_point c ->
  exists! r, scalar r /\ PedCommitR zk (Some v) (Some r) = Ok (pt c).
Proof.
  intros zk c v S Hc. destruct (ped_hiding c v Hc) as (r & [Hr Er] & U). exists r. split.
  - split; [exact Hr|]. rewrite (PedCommitR_ok zk S), Er. reflexivity.
  - intros r' [Hr' Er']. apply U. split; [exact Hr'|]. rewrite (PedCommitR_ok zk S) in Er'. apply Ok_inj, pt_inj in Er'. exact Er'.
Qed.
Print Assumptions C18_hiding.
Example C18_nonvacuous : std specZk /\ is_point G. Proof. split; [exact specZk_std|isp]. Qed.

(** C19: Open accepts the opening, and exactly the openings of c or of -c. *)
Theorem C19_open : forall zk v r c, std zk -> is_point c ->
  (Open zk (Some v) (Some r) (pt c) = Ok true <-> c = ped v r \/ c = pneg (ped v r)) /\
  Open zk (Some v) (Some r) (pt (ped v r)) = Ok true.
Proof.
  intros zk v r c S Hc. unfold Open. rewrite (PedCommitR_ok zk S). cbn [bind]. split.
  - apply C10_equal_up_to_sign; isp.
  - rewrite Equal_ok, Z.eqb_refl. reflexivity.
Qed.
Print Assumptions C19_open.
(** so the opposite opening is accepted too ... *)
Theorem C19_open_refuted : forall zk v r, std zk ->
  Open zk (Some (- v)) (Some (- r)) (pt (ped v r)) = Ok true.
Proof. intros zk v r S. apply C19_open; [exact S|isp|]. right. rewrite ped_neg, !Z.opp_involutive. reflexivity. Qed.
Print Assumptions C19_open_refuted.
(** ... but openings with another value, up to sign, reveal log_G H'. *)
Theorem C19_binding : forall zk c v1 r1 v2 r2, std zk -> is_point c ->
  Open zk (Some v1) (Some r1) (pt c) = Ok true -> Open zk (Some v2) (Some r2) (pt c) = Ok true ->
  v1 mod N <> v2 mod N -> v1 mod N <> (- v2) mod N ->
  Htab = smul (((v1 - v2) * ninv (r2 - r1)) mod N) G \/
  Htab = smul ((- (v1 + v2) * ninv (r1 + r2)) mod N) G.
Proof.
  intros zk c v1 r1 v2 r2 S Hc O1 O2 H1 H2. apply C19_open in O1; [|exact S|exact Hc]. apply C19_open in O2; [|exact S|exact Hc].
  apply ped_binding; [exact H1|exact H2|].
  destruct O1 as [->| ->], O2 as [E|E]; [left|right|right|left].
  - symmetry; exact E.
  - rewrite E. symmetry. apply CurveZ.pneg_invol. isp.
  - symmetry; exact E.
  - apply (f_equal pneg) in E. rewrite !CurveZ.pneg_invol in E by isp. symmetry; exact E.
Qed.
Print Assumptions C19_binding.
Example C19_nonvacuous : std specZk /\ is_point (ped 5 7) /\ 5 mod N <> 6 mod N /\ 5 mod N <> (-6) mod N /\
  Open specZk (Some 5) (Some 7) (pt (ped 5 7)) = Ok true /\ Open specZk (Some (-5)) (Some (-7)) (pt (ped 5 7)) = Ok true.
Proof.
  split; [exact specZk_std|]. split; [isp|]. split; [discriminate|]. split; [discriminate|].
  split; [exact (proj2 (C19_open specZk 5 7 G specZk_std is_point_G))|exact (C19_open_refuted specZk 5 7 specZk_std)].
Qed.

(** C20 (refuted): the start-up code computes H as k*G with the k written here:
    the 39-byte string followed by SHA-256 of nothing, as a big-endian number. *)
Theorem C20_H_dlog_refuted : forall c zk, curve_ok c -> initTestCurve sha256 c Gx Gy = Ok zk ->
  zH zk = pt Hgen /\
  Hgen = smul 0x94e35037c3705ca047e88b2bd1f3207987dba1fb4c817b9ebc943566dd637134 G /\
  beval (initString ++ sha256 []) mod N = 0x94e35037c3705ca047e88b2bd1f3207987dba1fb4c817b9ebc943566dd637134.
Proof.
  intros c zk C E. split; [apply (std_H zk), (init_std c zk C E)|]. split; [exact Lambda.H_dlog|].
  rewrite init_scalar. reflexivity.
Qed.
Print Assumptions C20_H_dlog_refuted.
Theorem C20_init_succeeds : forall c, curve_ok c -> exists zk, initTestCurve sha256 c Gx Gy = Ok zk /\ std zk.
Proof.
  intros c C. assert (E : exists zk, initTestCurve sha256 c Gx Gy = Ok zk).
  { unfold initTestCurve. rewrite init_H, generate_ok by exact C. eexists. reflexivity. }
  destruct E as [zk E]. exists zk. split; [exact E|exact (init_std c zk C E)].
Qed.
Print Assumptions C20_init_succeeds.
Example C20_nonvacuous : curve_ok specCurve. Proof. exact specCurve_ok. Qed.

(** C21: the table of powers of two. *)
Theorem C21_hpoints : forall c zk i, curve_ok c -> initTestCurve sha256 c Gx Gy = Ok zk ->
  length (zHPoints zk) = 64%nat /\
  (0 <= i < 64 -> nth_error (zHPoints zk) (Z.to_nat i) = Some (pt (smul (2 ^ i) G))).
Proof.
  intros c zk i C E. rewrite (std_HP zk (init_std c zk C E)). split; [rewrite map_length, seq_length; reflexivity|].
  intros Hi. rewrite nth_error_map. rewrite (nth_error_nth' (seq 0 64) 0%nat) by (rewrite seq_length; lia).
  rewrite seq_nth by lia. cbn [option_map]. rewrite Nat.add_0_l, Z2Nat.id by lia. reflexivity.
Qed.
Print Assumptions C21_hpoints.
Example C21_nonvacuous : exists zk, initTestCurve sha256 specCurve Gx Gy = Ok zk /\ std zk.
Proof. apply C20_init_succeeds, specCurve_ok. Qed.
