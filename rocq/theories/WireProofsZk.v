(** * The proofs that the provers make are serialisable (proof only) *)
From Coq Require Import ZArith List Lia Bool.
From Verif Require Import Go Wire SpecWire Big Crypto Spec FieldP CurveGroup Order FieldN CurveZ SpecZk SpecCodec CodecProofs ZkBase PointProofs
  Gspfs GspfsProofs Equivalence Consistency EqConsProofs Disjunctive DisjProofs Abc AbcProofs Range SpecRange RangeProofs.
Import ListNotations.
Open Scope Z_scope.

Lemma small_1024 z : Z.abs z < 2 ^ 1024 -> small z.
Proof. intros H. apply small_lt. eapply Z.lt_trans; [exact H|reflexivity]. Qed.
(** [bnd k z]: z has at most k bits *)
Definition bnd (k z : Z) : Prop := Z.abs z < 2 ^ k.
Lemma bnd_mono k m z : 0 <= k <= m -> bnd k z -> bnd m z.
Proof. intros H B. unfold bnd in *. eapply Z.lt_le_trans; [exact B|]. apply Z.pow_le_mono_r; lia. Qed.
Lemma bnd_mul k m a b : 0 <= k -> 0 <= m -> bnd k a -> bnd m b -> bnd (k + m) (a * b).
Proof.
  unfold bnd. intros Hk Hm A B. rewrite Z.abs_mul, Z.pow_add_r by assumption. apply Z.mul_lt_mono_nonneg; try assumption; apply Z.abs_nonneg.
Qed.
Lemma bnd_add k a b : 0 <= k -> bnd k a -> bnd k b -> bnd (k + 1) (a + b).
Proof. unfold bnd. intros Hk A B. rewrite Z.pow_add_r by lia. change (2 ^ 1) with 2. lia. Qed.
Lemma bnd_opp k a : bnd k a -> bnd k (- a).
Proof. unfold bnd. rewrite Z.abs_opp. exact (fun H => H). Qed.
Lemma bnd_scalar a : scalar a -> bnd 256 a.
Proof. intros [L M]. unfold bnd. rewrite Z.abs_eq by exact L. eapply Z.lt_trans; [exact M|reflexivity]. Qed.
Lemma bnd_mod a : bnd 256 (a mod N).
Proof. apply bnd_scalar. apply Z.mod_pos_bound. reflexivity. Qed.
Lemma bnd_fs sha ps : bnd 256 (fs sha ps).
Proof. apply bnd_scalar, fs_scalar. Qed.
Lemma wfInt_bnd k z : 0 <= k <= 1024 -> bnd k z -> wfInt (Some z).
Proof. intros Hk B. exists z. split; [reflexivity|]. apply small_1024. exact (bnd_mono k 1024 z Hk B). Qed.
Lemma wfInt_256 z : bnd 256 z -> wfInt (Some z).
Proof. apply wfInt_bnd. lia. Qed.
Lemma wfPoint_pt p : is_point p -> wfPoint (pt p).
Proof.
  intros H. assert (B : 0 <= fst p < P /\ 0 <= snd p < P).
  { destruct H as [->|(A & B & _)]; [split; split; (discriminate || reflexivity)|split; assumption]. }
  destruct B as [[A1 A2] [B1 B2]].
  exists (fst p), (snd p). split; [reflexivity|]. split; [exact A1|]. split; [exact B1|].
  assert (K : forall z, 0 <= z -> z < P -> small z).
  { intros z L M. apply small_1024. rewrite Z.abs_eq by exact L. eapply Z.lt_trans; [exact M|reflexivity]. }
  split; apply K; assumption.
Qed.

Section P.
Variables (sha : list Z -> list Z) (zk : zkparams).
Hypothesis S : std zk.

Lemma gspfs_wf B A x rnd pf : is_point B -> is_point A -> NewGSPFSProofBase sha zk (pt B) (pt A) (Some x) rnd = Ok (Some pf, None) -> wfGSPFS pf.
Proof.
  intros HB HA E. rewrite (gspfs_prove sha zk S) in E by assumption. destruct (_ =? _); [|discriminate E].
  destruct rnd as [u|]; [|discriminate E]. apply Ok_inj in E. cbv zeta in E.
  assert (Q : pf = MkGSPFS (pt B) (pt (smul u (eff B))) (Some ((u - fs sha [A; smul u (eff B)] * (x mod N)) mod N)) (Some (fs sha [A; smul u (eff B)]))) by congruence.
  subst pf. split; [apply wfPoint_pt; isp|]. split; [apply wfPoint_pt; isp|]. split; apply wfInt_256; [apply bnd_mod|apply bnd_fs].
Qed.
Lemma equiv_wf B1 R1 B2 R2 x rnd pf : is_point B1 -> is_point R1 -> is_point B2 -> is_point R2 ->
  NewEquivalenceProof sha zk (pt B1) (pt R1) (pt B2) (pt R2) (Some x) rnd = Ok (Some pf, None) -> wfEquivalence pf.
Proof.
  intros H1 H2 H3 H4 E. rewrite (equiv_prove sha zk S) in E by assumption. destruct (_ && _); [|discriminate E].
  destruct rnd as [u|]; [|discriminate E]. apply Ok_inj in E. cbv zeta in E.
  match type of E with (Some ?a, _) = _ => assert (Q : pf = a) by congruence end. subst pf. clear E.
  split; [apply wfPoint_pt; isp|]. split; [apply wfPoint_pt; isp|]. split; apply wfInt_256; [apply bnd_fs|apply bnd_mod].
Qed.
Lemma cons_wf CM CT PK v r rnd1 rnd2 pf : is_point CM -> is_point CT -> is_point PK ->
  NewConsistencyProof sha zk (pt CM) (pt CT) (pt PK) (Some v) (Some r) rnd1 rnd2 = Ok (Some pf, None) -> wfConsistency pf.
Proof.
  intros H1 H2 H3 E. rewrite (cons_prove sha zk S) in E by assumption. destruct (_ && _); [|discriminate E].
  destruct rnd1 as [u1|]; [|discriminate E]. destruct rnd2 as [u2|]; [|discriminate E]. apply Ok_inj in E. cbv zeta in E.
  match type of E with (Some ?a, _) = _ => assert (Q : pf = a) by congruence end. subst pf. clear E.
  split; [apply wfPoint_pt; isp|]. split; [apply wfPoint_pt; isp|]. split; [apply wfInt_256, bnd_fs|]. split; apply wfInt_256; apply bnd_mod.
Qed.
Lemma wfInt_resp u d x : scalar u -> bnd 256 d -> wfInt (Some (u + d * (x mod N))).
Proof.
  intros Hu Hd. apply (wfInt_bnd (512 + 1)); [lia|]. apply bnd_add; [lia|apply (bnd_mono 256); [lia|apply bnd_scalar; exact Hu]|].
  apply (bnd_mul 256 256); [lia|lia|exact Hd|apply bnd_mod].
Qed.
Lemma disj_wf B1 R1 B2 R2 x side u1 u2 u3 pf : is_point B1 -> is_point R1 -> is_point B2 -> is_point R2 ->
  scalar u1 -> scalar u2 -> scalar u3 -> 
  NewDisjunctiveProof sha zk (pt B1) (pt R1) (pt B2) (pt R2) (Some x) side (Some u1) (Some u2) (Some u3) = Ok (Some pf, None) -> wfDisjunctive pf.
Proof.
  intros H1 H2 H3 H4 U1 U2 U3 E. pose proof (bnd_scalar _ U2) as W2. pose proof (bnd_scalar _ U3) as W3.
  destruct (Z.eq_dec side Left) as [->|NL]; [|destruct (Z.eq_dec side Right) as [->|NR]].
  - rewrite (disj_prove_left sha zk S) in E by assumption. destruct (_ =? _); [|discriminate E]. apply Ok_inj in E. cbv zeta in E.
    match type of E with (Some ?a, _) = _ => assert (Q : pf = a) by congruence end. subst pf. clear E.
    split; [apply wfPoint_pt; isp|]. split; [apply wfPoint_pt; isp|]. split; [apply wfInt_256, bnd_fs|]. split; [apply wfInt_256, bnd_mod|].
    split; [apply wfInt_256, W3|]. split; [apply wfInt_resp; [exact U1|apply bnd_mod]|apply wfInt_256, W2].
  - rewrite (disj_prove_right sha zk S) in E by assumption. destruct (_ =? _); [|discriminate E]. apply Ok_inj in E. cbv zeta in E.
    match type of E with (Some ?a, _) = _ => assert (Q : pf = a) by congruence end. subst pf. clear E.
    split; [apply wfPoint_pt; isp|]. split; [apply wfPoint_pt; isp|]. split; [apply wfInt_256, bnd_fs|]. split; [apply wfInt_256, W3|].
    split; [apply wfInt_256, bnd_mod|]. split; [apply wfInt_256, W2|apply wfInt_resp; [exact U1|apply bnd_mod]].
  - exfalso. unfold NewDisjunctiveProof in E. cbn [need bind] in E. apply Z.eqb_neq in NL, NR. rewrite NL, NR in E. discriminate E.
Qed.
Lemma abcOut_wf CM CT v sk u1 u2 u3 ub uc B C tok dj : is_point B -> is_point C -> is_point CT -> wfPoint tok -> (exists d, dj = Some d /\ wfDisjunctive d) ->
  bnd 256 v -> scalar u3 -> scalar ub -> scalar uc -> wfABC (abcOut sha CM CT v sk u1 u2 u3 ub uc B C tok dj).
Proof.
  intros HB HC HT Ht Hd Hv U3 Ub Uc. unfold abcOut. cbv zeta.
  split; [apply wfPoint_pt; isp|]. split; [apply wfPoint_pt; isp|]. split; [apply wfPoint_pt; isp|]. split; [apply wfPoint_pt; isp|].
  split; [apply wfInt_256, bnd_fs|]. split; [apply wfInt_256, bnd_mod|]. split; [apply wfInt_256, bnd_mod|]. split; [|split; [exact Ht|exact Hd]].
  apply (wfInt_bnd (513 + 256 + 1)); [lia|]. apply bnd_add; [lia|apply (bnd_mono 256); [lia|apply bnd_scalar; exact U3]|].
  apply bnd_mul; [lia|lia| |apply bnd_fs]. apply (bnd_add 512); [lia|apply (bnd_mono 256); [lia|apply bnd_scalar; exact Uc]|].
  apply bnd_opp. apply (bnd_mul 256 256); [lia|lia|exact Hv|apply bnd_scalar; exact Ub].
Qed.
Lemma abc_wf CM CT v sk side u1 u2 u3 ub uc d1 d2 d3 pf : is_point CM -> is_point CT -> bnd 256 v ->
  scalar u3 -> scalar ub -> scalar uc -> scalar d1 -> scalar d2 -> scalar d3 ->
  NewABCProof sha zk (pt CM) (pt CT) (Some v) (Some sk) side
    (Build_abcRand (Some u1) (Some u2) (Some u3) (Some ub) (Some uc) (Some d1) (Some d2) (Some d3)) = Ok (Some pf, None) -> wfABC pf.
Proof.
  intros H1 H2 Hv U3 Ub Uc D1 D2 D3 E. fold (abcRn u1 u2 u3 ub uc (Some d1) (Some d2) (Some d3)) in E.
  assert (TK : wfPoint (abcTok sk uc)) by (unfold abcTok; apply wfPoint_pt; isp).
  destruct (Z.eq_dec side Left) as [->|NL]; [|destruct (Z.eq_dec side Right) as [->|NR]].
  - destruct (Z.eq_dec v 0) as [->|V].
    + rewrite (abc_left sha zk S) in E by assumption.
      destruct (NewDisjunctiveProof _ _ _ _ _ _ _ _ _ _ _) as [[d [er|]]|] eqn:ED; try discriminate E. cbn [abcDisj bind snd fst] in E.
      destruct (sk mod N =? 0); [discriminate E|]. apply Ok_inj in E.
      assert (Q : pf = abcOut sha CM CT 0 sk u1 u2 u3 ub uc (ped 0 ub) (ped 0 uc) (abcTok sk uc) d) by congruence. subst pf.
      apply abcOut_wf; try assumption; try isp. destruct d as [d|]; [|exfalso].
      * exists d. split; [reflexivity|]. eapply disj_wf; [ | | | | | | | exact ED]; try assumption; isp.
      * rewrite (disj_prove_left sha zk S) in ED by isp. destruct (_ =? _) in ED; discriminate ED.
    + exfalso. unfold NewABCProof, abcRn in E. cbn [ar1 ar2 ar3 arb arc] in E. revert E. zk S.
      change ((Left =? Left) || (Left =? Right)) with true. cbv iota. cbn [need bind]. apply Z.eqb_neq in V. rewrite V.
      change (Left =? Left) with true. change (Left =? Right) with false. cbn [andb]. discriminate.
  - destruct (Z.eq_dec v 0) as [->|V].
    + exfalso. unfold NewABCProof, abcRn in E. cbn [ar1 ar2 ar3 arb arc] in E. revert E. zk S.
      change ((Right =? Left) || (Right =? Right)) with true. cbv iota. cbn [need bind].
      change (Right =? Left) with false. change (0 =? 0) with true. cbn [andb negb]. rewrite andb_false_r. discriminate.
    + destruct (Z.eq_dec (v mod N) 0) as [VN|VN].
      { rewrite (abc_right_panic sha zk S) in E by assumption. discriminate E. }
      rewrite (abc_right sha zk S) in E by assumption.
      destruct (NewDisjunctiveProof _ _ _ _ _ _ _ _ _ _ _) as [[d [er|]]|] eqn:ED; try discriminate E. cbn [abcDisj bind snd fst] in E.
      destruct (sk mod N =? 0); [discriminate E|]. apply Ok_inj in E.
      assert (Q : pf = abcOut sha CM CT v sk u1 u2 u3 ub uc (ped (ninv v) ub) (ped 1 uc) (abcTok sk uc) d) by congruence. subst pf.
      apply abcOut_wf; try assumption; try isp. destruct d as [d|]; [|exfalso].
      * exists d. split; [reflexivity|]. eapply disj_wf; [ | | | | | | | exact ED]; try assumption; isp.
      * rewrite (disj_prove_right sha zk S) in ED by isp. destruct (_ =? _) in ED; discriminate ED.
  - exfalso. unfold NewABCProof, abcRn in E. cbn [ar1 ar2 ar3 arb arc] in E. revert E. zk S.
    apply Z.eqb_neq in NL, NR. rewrite NL, NR. cbn [orb andb bind]. discriminate.
Qed.
Lemma range_wf value d1 d2 j pf vt : 0 <= value < 2 ^ 40 -> goodDraws sha 40 value d1 d2 j ->
  (forall i, scalar (d1 i) /\ scalar (d2 i) /\ scalar (j i)) ->
  NewRangeProof sha zk (Some value) (draws d1 d2 j) = Ok (Some pf, vt, None) -> wfRange pf.
Proof.
  intros Hv H D E. rewrite (run_ok sha zk S 40 value d1 d2 j ltac:(lia) H eq_refl ltac:(lia)) in E. apply Ok_inj in E.
  set (e := honDigest sha 40 value d1 d2 mod N) in *. assert (He : bnd 256 e) by apply bnd_mod. clearbody e.
  match type of E with (Some ?a, _, _) = _ => assert (Q : pf = a) by congruence end. subst pf. clear E H.
  split; [apply wfPoint_pt; isp|]. split; [apply wfInt_256; exact He|]. split.
  - cbn [rpTuples]. unfold tuples, honCs. rewrite map_map. apply Forall_map, Forall_forall. intros i _.
    destruct (D i) as (D1 & D2 & D3). split; cbn [rtC rtS fst snd]; [apply wfPoint_pt, hon_C_point|].
    unfold honS. destruct (rangeBit value i).
    + apply (wfInt_bnd (512 + 1)); [lia|]. apply bnd_add; [lia|apply (bnd_mono 256); [lia|apply bnd_scalar; exact D2]|].
      apply (bnd_mul 256 256); [lia|lia|exact He|apply bnd_scalar; exact D1].
    + apply (wfInt_bnd (768 + 1)); [lia|]. apply bnd_add; [lia|apply (bnd_mono 256); [lia|apply bnd_scalar; exact D3]|].
      apply (bnd_mul 256 512); [lia|lia|apply bnd_scalar; exact D1|]. apply (bnd_mul 256 256); [lia|lia|exact He|apply bnd_scalar, ninv_scalar].
  - cbn [rpTuples]. unfold tuples, honCs. rewrite !map_length, seq_length. reflexivity.
Qed.
End P.
