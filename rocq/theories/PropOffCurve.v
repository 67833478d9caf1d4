(** * Y coordinates and curve membership in verification (C68) *)
From Coq Require Import ZArith List Lia Bool.
From Verif Require Import Go Wire Big Crypto Spec CurveGroup Order FieldN SpecZk ZkBase PointProofs Gspfs GspfsProofs Range RangeProofs PropRange.
Import ListNotations.
Open Scope Z_scope.

(** C68 (refuted): Verify of a range proof reads neither the Y coordinate of the
    commitment nor that of the aggregate in the proof: for every proof, hash function and
    parameters the verdict is the same for all values of both, on the curve or not. *)
Theorem C68_range_y_ignored_refuted : forall sha zk ax ay ay' E ts cx cy cy',
  RangeVerify sha (Some (MkRange (EP (Some ax) (Some ay)) E ts)) zk (EP (Some cx) (Some cy)) =
  RangeVerify sha (Some (MkRange (EP (Some ax) (Some ay')) E ts)) zk (EP (Some cx) (Some cy')).
Proof.
  intros. unfold RangeVerify, rangeDecide, Equal. cbn [rpTuples rpE rpAggregate pX pY need bind].
  destruct (existsb tupleNil ts); [reflexivity|].
  destruct (verifyAll sha zk E 0 ts) as [rp|]; cbn [bind]; [|reflexivity].
  destruct (sumC zk ZeroPoint ts) as [tot|]; cbn [bind]; [|reflexivity].
  destruct (hashPoints sha rp) as [h|]; cbn [bind]; [|reflexivity]. destruct (need E) as [e|]; cbn [bind]; [|reflexivity].
  destruct (negb (e =? h)); [reflexivity|]. destruct (pX tot) as [tx|]; cbn [need bind]; [|reflexivity].
  destruct (tx =? ax); cbn [bind negb]; [|reflexivity]. rewrite !Z.eqb_refl. cbn [bind negb]. destruct (cx =? tx); reflexivity.
Qed.
Print Assumptions C68_range_y_ignored_refuted.
(** Hence a range proof for a commitment to v is a range proof for the opposite
    commitment, which commits to -v. *)
Theorem C68_negative_value_refuted : forall sha pf zk v r, std zk ->
  accepts (RangeVerify sha (Some pf) zk (pt (ped v r))) -> accepts (RangeVerify sha (Some pf) zk (pt (ped (- v) (- r)))).
Proof.
  intros sha [[ax ay] E ts] zk v r S H. rewrite <- ped_neg. unfold accepts in *. rewrite <- H. clear H. unfold pt. cbn [pneg fst].
  unfold RangeVerify, rangeDecide, Equal. cbn [rpTuples rpE rpAggregate pX pY need bind].
  destruct (existsb tupleNil ts); [reflexivity|].
  destruct (verifyAll sha zk E 0 ts) as [rp|]; cbn [bind]; [|reflexivity].
  destruct (sumC zk ZeroPoint ts) as [tot|]; cbn [bind]; [|reflexivity]. reflexivity.
Qed.
Print Assumptions C68_negative_value_refuted.
Example C68_range_nonvacuous : exists pf v r, 0 <= v < 2 ^ 40 /\ (- v) mod N <> v mod N /\
  accepts (RangeVerify (shaC 1) (Some pf) specZk (pt (ped v r))).
Proof.
  destruct C42_nonvacuous as (S & V & Gd & D).
  destruct (C42_range_complete _ _ _ _ _ _ S V Gd D) as (pf & r & _ & A).
  exists pf, (2 ^ 40 - 1), r. split; [exact V|]. split; [discriminate|exact A].
Qed.

(** The same for the knowledge proof GSPFS: for all secrets x, draws u, hash functions and
    every integer y, a proof whose commitment is (X of u*G, y) is accepted. *)
Theorem C68_gspfs_offcurve_refuted : forall sha zk x u y, std zk -> plain (smul x G) ->
  exists c v, accepts (GSPFSVerify sha (Some (MkGSPFS (pt G) (EP (Some (fst (smul u G))) (Some y)) (Some v) (Some c))) zk (pt (smul x G))).
Proof.
  intros sha zk x u y S Pl.
  set (c := GenerateChallenge sha zk [bigBytes (fst (smul x G)) ++ bigBytes (snd (smul x G)); bigBytes (fst (smul u G)) ++ bigBytes y]).
  exists c, ((u - c * (x mod N)) mod N). unfold accepts, GSPFSVerify. cbn [gsBase gsRandCommit gsHiddenValue gsChallenge].
  assert (E : Challenge sha zk [pt (smul x G); EP (Some (fst (smul u G))) (Some y)] = Ok c) by reflexivity.
  rewrite E. cbn [bind need]. rewrite Z.eqb_refl. cbn [negb].
  rewrite (Mult_ok zk S), (Mult_ok zk S) by isp. cbn [bind]. rewrite (Add_ok zk S) by isp. cbn [bind].
  rewrite eff_G, (eff_plain (smul x G)) by (first [exact Pl|isp]). rewrite resp_eq by isp.
  unfold Equal, pt. cbn [pX pY need bind]. rewrite !Z.eqb_refl. reflexivity.
Qed.
Print Assumptions C68_gspfs_offcurve_refuted.
Example C68_gspfs_nonvacuous : std specZk /\ plain (smul 1 G) /\ ~ is_point (fst (smul 1 G), 0).
Proof.
  split; [exact specZk_std|]. rewrite smul_1. split; [exact plain_G|]. intros [E|(_ & _ & E)]; [discriminate E|].
  vm_compute in E. discriminate E.
Qed.
