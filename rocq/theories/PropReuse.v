(** * C82: draws must be fresh and stay secret

    What anyone can compute from proofs that share a draw, or from one proof and its draw.
    [quot a b] is a / b modulo the group order.  The points are arbitrary. *)
From Coq Require Import ZArith List Lia Bool.
From Verif Require Import Go Wire Big Spec SpecZk FieldN ZkBase Crypto Gspfs Equivalence Consistency Disjunctive Abc Koblitz Order PubKey Signature SpecBtc CurveGroup KobTab GMult SpecCurve TotalProofs KobMul SpecTotal CodecProofs PointProofs GspfsProofs EcdsaProofs SpecReuse ReuseProofs.
Import ListNotations.
Open Scope Z_scope.

(** GSPFS: the same secret over two bases with the same draw; and two secrets with the
    same draw, of which one is known. *)
Theorem C82_gspfs :
  forall sha zk B1 A1 B2 A2 x1 x2 u p1 p2, cN (zC zk) = N ->
    NewGSPFSProofBase sha zk B1 A1 (Some x1) (Some u) = Ok (Some p1, None) ->
    NewGSPFSProofBase sha zk B2 A2 (Some x2) (Some u) = Ok (Some p2, None) ->
    let c1 := num (gsChallenge p1) in let v1 := num (gsHiddenValue p1) in
    let c2 := num (gsChallenge p2) in let v2 := num (gsHiddenValue p2) in
    (x1 mod N = x2 mod N -> c1 <> c2 -> quot (v2 - v1) (c1 - c2) = x1 mod N) /\
    (c2 <> 0 -> quot (v1 - v2 + c1 * x1) c2 = x2 mod N) /\
    (c1 <> 0 -> quot (u - v1) c1 = x1 mod N).
Proof.
  intros sha zk B1 A1 B2 A2 x1 x2 u p1 p2 EN H1 H2. destruct (gspfs_shape _ _ _ _ _ _ _ EN H1) as (c1 & R1 & -> & ->). destruct (gspfs_shape _ _ _ _ _ _ _ EN H2) as (c2 & R2 & -> & ->).
  cbn [num]. split; [|split].
  - intros E D. rewrite <- E. transitivity ((x1 mod N) mod N); [|apply Zmod_mod]. apply quot_ok; [exact (sc_nz _ _ R1 R2 D)|]. rewrite <- Zminus_mod. f_equal. ring.
  - intros D. transitivity ((x2 mod N) mod N); [|apply Zmod_mod]. apply quot_ok; [rewrite <- (Z.sub_0_r c2); apply (sc_nz _ _ R2); [split; [lia|reflexivity]|exact D]|].
    rewrite <- Zplus_mod_idemp_l, <- Zminus_mod, Zplus_mod_idemp_l. rewrite <- Zplus_mod_idemp_r, <- (Zmult_mod_idemp_r x1), Zplus_mod_idemp_r. f_equal. ring.
  - intros D. transitivity ((x1 mod N) mod N); [|apply Zmod_mod]. apply quot_ok; [rewrite <- (Z.sub_0_r c1); apply (sc_nz _ _ R1); [split; [lia|reflexivity]|exact D]|].
    rewrite Zminus_mod_idemp_r. f_equal. ring.
Qed.
Print Assumptions C82_gspfs.

(** Equivalence proofs: the same secret and draw in two statements. *)
Theorem C82_equivalence :
  forall sha zk B1 R1 B2 R2 B1' R1' B2' R2' x u p1 p2, cN (zC zk) = N ->
    NewEquivalenceProof sha zk B1 R1 B2 R2 (Some x) (Some u) = Ok (Some p1, None) ->
    NewEquivalenceProof sha zk B1' R1' B2' R2' (Some x) (Some u) = Ok (Some p2, None) ->
    let c1 := num (eqChallenge p1) in let v1 := num (eqHiddenValue p1) in
    let c2 := num (eqChallenge p2) in let v2 := num (eqHiddenValue p2) in
    (c1 <> c2 -> quot (v1 - v2) (c1 - c2) = x mod N) /\ (c1 <> 0 -> quot (v1 - u) c1 = x mod N).
Proof.
  intros sha zk B1 R1 B2 R2 B1' R1' B2' R2' x u p1 p2 EN H1 H2. destruct (equiv_shape _ _ _ _ _ _ _ _ _ EN H1) as (c1 & C1 & -> & ->). destruct (equiv_shape _ _ _ _ _ _ _ _ _ EN H2) as (c2 & C2 & -> & ->).
  cbn [num]. split; [intros D; exact (two u c1 c2 x (sc_nz _ _ C1 C2 D))|exact (one u c1 x C1)].
Qed.
Print Assumptions C82_equivalence.

(** Consistency proofs: the same value, randomness and draws in two statements. *)
Theorem C82_consistency :
  forall sha zk CM CMTok PK CM' CMTok' PK' v r u1 u2 p1 p2, cN (zC zk) = N ->
    NewConsistencyProof sha zk CM CMTok PK (Some v) (Some r) (Some u1) (Some u2) = Ok (Some p1, None) ->
    NewConsistencyProof sha zk CM' CMTok' PK' (Some v) (Some r) (Some u1) (Some u2) = Ok (Some p2, None) ->
    let c1 := num (cnChallenge p1) in let c2 := num (cnChallenge p2) in
    (c1 <> c2 -> quot (num (cnS1 p1) - num (cnS1 p2)) (c1 - c2) = v mod N /\
                 quot (num (cnS2 p1) - num (cnS2 p2)) (c1 - c2) = r mod N) /\
    (c1 <> 0 -> quot (num (cnS1 p1) - u1) c1 = v mod N /\ quot (num (cnS2 p1) - u2) c1 = r mod N).
Proof.
  intros sha zk CM CMTok PK CM' CMTok' PK' v r u1 u2 p1 p2 EN H1 H2. destruct (cons_shape _ _ _ _ _ _ _ _ _ _ EN H1) as (c1 & C1 & -> & -> & ->). destruct (cons_shape _ _ _ _ _ _ _ _ _ _ EN H2) as (c2 & C2 & -> & -> & ->).
  cbn [num]. rewrite !(Z.mul_comm _ c1), !(Z.mul_comm _ c2). rewrite (red u2 c1 r), (red u2 c2 r).
  split; [intros D; split; apply two, (sc_nz _ _ C1 C2 D)|intros D; split; exact (one _ c1 _ C1 D)].
Qed.
Print Assumptions C82_consistency.

(** Disjunctive proofs: the same secret and first draw on the same side.  The other draws
    may differ. *)
Theorem C82_disjunctive :
  forall sha zk B1 R1 B2 R2 B1' R1' B2' R2' x side u u2 u3 u2' u3' p1 p2, cN (zC zk) = N ->
    NewDisjunctiveProof sha zk B1 R1 B2 R2 (Some x) side (Some u) (Some u2) (Some u3) = Ok (Some p1, None) ->
    NewDisjunctiveProof sha zk B1' R1' B2' R2' (Some x) side (Some u) (Some u2') (Some u3') = Ok (Some p2, None) ->
    let ch p := num (if side =? Left then djC1 p else djC2 p) in
    let s p := num (if side =? Left then djS1 p else djS2 p) in
    (ch p1 <> ch p2 -> quot (s p1 - s p2) (ch p1 - ch p2) = x mod N) /\ (ch p1 <> 0 -> quot (s p1 - u) (ch p1) = x mod N).
Proof.
  intros sha zk B1 R1 B2 R2 B1' R1' B2' R2' x side u u2 u3 u2' u3' p1 p2 EN H1 H2.
  destruct (disj_shape _ _ _ _ _ _ _ _ _ _ _ _ EN H1) as (d1 & D1 & [(-> & E1 & S1)|(-> & E1 & S1)]); destruct (disj_shape _ _ _ _ _ _ _ _ _ _ _ _ EN H2) as (d2 & D2 & [(X & E2 & S2)|(X & E2 & S2)]); try discriminate X; clear X;
  cbv beta zeta; [change (Left =? Left) with true|change (Right =? Left) with false]; cbn iota; rewrite E1, E2, S1, S2; cbn [num].
  all: split; [intros D; exact (two_raw u d1 d2 x (sc_nz _ _ D1 D2 D))|exact (one_raw u d1 x D1)].
Qed.
Print Assumptions C82_disjunctive.

(** ABC proofs: the same value, key and first two draws reveal the value and the key. *)
Theorem C82_abc :
  forall sha zk CM CMTok CM' CMTok' v sk side side' rn rn' p1 p2, cN (zC zk) = N -> ar1 rn = ar1 rn' -> ar2 rn = ar2 rn' ->
    NewABCProof sha zk CM CMTok (Some v) (Some sk) side rn = Ok (Some p1, None) ->
    NewABCProof sha zk CM' CMTok' (Some v) (Some sk) side' rn' = Ok (Some p2, None) ->
    let c1 := num (abChallenge p1) in let c2 := num (abChallenge p2) in
    (c1 <> c2 -> quot (num (abj p1) - num (abj p2)) (c1 - c2) = v mod N /\
                 quot (c1 - c2) (num (abk p1) - num (abk p2)) = sk mod N) /\
    (c1 <> 0 -> quot (num (abj p1) - num (ar1 rn)) c1 = v mod N /\ quot c1 (num (abk p1) - num (ar2 rn)) = sk mod N).
Proof.
  intros sha zk CM CMTok CM' CMTok' v sk side side' rn rn' p1 p2 EN A1 A2 H1 H2.
  destruct (abc_shape _ _ _ _ _ _ _ _ _ EN H1) as (c1 & u1 & u2 & X1 & X2 & C1 & K & -> & -> & ->). destruct (abc_shape _ _ _ _ _ _ _ _ _ EN H2) as (c2 & u1' & u2' & Y1 & Y2 & C2 & _ & -> & -> & ->).
  rewrite <- A1, X1 in Y1. rewrite <- A2, X2 in Y2. injection Y1 as <-. injection Y2 as <-. rewrite X1, X2. cbn [num].
  rewrite !(Z.mul_comm _ c1), !(Z.mul_comm _ c2), (red u1 c1 v), (red u1 c2 v). pose proof (ninv_ok sk K) as I. generalize dependent (ninv sk). intros w I.
  split; intros D; (split; [|]).
  - apply two, (sc_nz _ _ C1 C2 D).
  - apply inverse_two; [exact (sc_nz _ _ C1 C2 D)|exact I].
  - exact (one _ c1 _ C1 D).
  - apply inverse_one; [exact C1|exact D|exact I].
Qed.
Print Assumptions C82_abc.

(** Signatures: one signature and its nonce leave two candidates for the key ... *)
Theorem C82_nonce_known :
  forall sha fuel c key h s k, curve_ok c -> nonceRFC6979 sha fuel (kD key) h = Some k ->
    signRFC6979 sha fuel c key h = Some (Ok (Val s)) -> sR s <> N ->
    let e := digest h in
    quot (sS s * k - e) (sR s) = kD key mod N \/ quot (- sS s * k - e) (sR s) = kD key mod N.
Proof.
  intros sha fuel c key h s k C K E HN e. pose proof (nonce_pos sha _ _ _ _ K) as Hk. unfold signRFC6979 in E. rewrite K in E. injection E as E.
  destruct (sig_shape c _ k h s C Hk E HN) as (Hr & _ & t & q & T & F). assert (R : sR s mod N <> 0) by (rewrite Z.mod_small by lia; lia).
  pose proof (known _ _ _ k _ t q _ (ninv_ok k (mod_range k Hk)) R T F) as G. destruct T as [-> | ->]; [left|right]; rewrite <- G; f_equal; unfold e; ring.
Qed.
Print Assumptions C82_nonce_known.

(** ... and so do two signatures with the same nonce over different digests. *)
Theorem C82_nonce_repeated :
  forall sha fuel c key h1 h2 s1 s2 k, curve_ok c ->
    nonceRFC6979 sha fuel (kD key) h1 = Some k -> nonceRFC6979 sha fuel (kD key) h2 = Some k ->
    signRFC6979 sha fuel c key h1 = Some (Ok (Val s1)) -> signRFC6979 sha fuel c key h2 = Some (Ok (Val s2)) -> sR s1 <> N ->
    let e1 := digest h1 in let e2 := digest h2 in e1 mod N <> e2 mod N ->
    sR s1 = sR s2 /\
    (quot (sS s2 * e1 - sS s1 * e2) (sR s1 * (sS s1 - sS s2)) = kD key mod N \/
     quot (- sS s2 * e1 - sS s1 * e2) (sR s1 * (sS s1 + sS s2)) = kD key mod N).
Proof.
  intros sha fuel c key h1 h2 s1 s2 k C K1 K2 E1 E2 HN e1 e2 NE. pose proof (nonce_pos sha _ _ _ _ K1) as Hk. unfold signRFC6979 in E1, E2. rewrite K1 in E1. rewrite K2 in E2. injection E1 as E1. injection E2 as E2.
  destruct (sig_shape c _ k h1 s1 C Hk E1 HN) as (Hr & R1 & t1 & q1 & T1 & F1). destruct (same_r c _ k h2 s2 _ C Hk E2 R1 HN) as (R2 & t2 & q2 & T2 & F2). split; [exact R2|].
  assert (R : sR s1 mod N <> 0) by (rewrite Z.mod_small by lia; lia). rewrite <- R2 in F2.
  pose proof (repeated _ _ _ _ k _ t1 q1 _ t2 q2 _ (ninv_ok k (mod_range k Hk)) R NE T1 T2 F1 F2) as G. fold e1 e2 in G.
  destruct T1 as [-> | ->], T2 as [-> | ->]; rewrite <- G; [left|right|right|left]; f_equal; ring.
Qed.
Print Assumptions C82_nonce_repeated.

(** Cases: the same secret over G and over H with the same draw and a hash that tells them apart ... *)
Example C82_case :
  let sha := fun m : list Z => be_bytes 32 (hd 0 m) in
  exists p1 p2, NewGSPFSProofBase sha specZk (pt G) (pt G) (Some 1) (Some 1) = Ok (Some p1, None) /\
    NewGSPFSProofBase sha specZk (pt Hgen) (pt Hgen) (Some 1) (Some 1) = Ok (Some p2, None) /\
    num (gsChallenge p1) <> num (gsChallenge p2) /\ num (gsChallenge p1) <> 0 /\ num (gsChallenge p2) <> 0.
Proof.
  intros sha.
  assert (F : forall b l t ps p, bigBytes (fst p) = b :: t -> 0 < b < 256 -> l = p :: ps -> fs sha l = b).
  { intros b l t ps p E B ->. unfold fs. cbn [map concat]. rewrite E. cbn [app]. unfold sha. cbn [hd]. rewrite beval_be_bytes by lia. rewrite (Z.mod_small b) by (change (2 ^ (8 * Z.of_nat 32)) with (2 ^ 256); lia). apply Z.mod_small. split; [lia|]. eapply Z.lt_trans; [apply B|reflexivity]. }
  assert (E1 : bigBytes (fst G) = 121 :: tl (bigBytes (fst G))) by (vm_compute; reflexivity).
  assert (E2 : bigBytes (fst Hgen) = 53 :: tl (bigBytes (fst Hgen))) by (vm_compute; reflexivity).
  rewrite !(gspfs_prove sha specZk specZk_std) by isp. rewrite !smul_1, !Z.eqb_refl. cbv zeta.
  assert (F1 : fs sha [G; eff G] = 121) by (apply (F _ _ _ [eff G] G E1); [lia|reflexivity]). assert (F2 : fs sha [Hgen; eff Hgen] = 53) by (apply (F _ _ _ [eff Hgen] Hgen E2); [lia|reflexivity]).
  generalize dependent (fs sha [G; eff G]). generalize dependent (fs sha [Hgen; eff Hgen]). intros f2 -> f1 ->. do 2 eexists. split; [reflexivity|]. split; [reflexivity|]. cbn [gsChallenge num]. lia.
Qed.

(** ... and two signatures with the same nonce. *)
Example C82_nonce_case : let c := S256 (mkTable G) (mkTable Htab) in
  let key := {| kD := 3; kPub := smul 3 G |} in let sha := fun _ => be_bytes 32 1 in
  curve_ok c /\ nonceRFC6979 sha 1 3 [1] = Some 1 /\ nonceRFC6979 sha 1 3 [5] = Some 1 /\ digest [1] mod N <> digest [5] mod N /\
  exists s1 s2, signRFC6979 sha 1 c key [1] = Some (Ok (Val s1)) /\ signRFC6979 sha 1 c key [5] = Some (Ok (Val s2)) /\ sR s1 <> N.
Proof.
  cbv zeta. pose proof (mkTable_ok G is_point_G) as T. pose proof (mkTable_ok Htab is_point_Htab) as TH.
  pose proof (S256_ok _ _ T TH) as C. split; [exact C|]. assert (K1 : nonceRFC6979 (fun _ => be_bytes 32 1) 1 3 [1] = Some 1) by reflexivity. assert (K2 : nonceRFC6979 (fun _ => be_bytes 32 1) 1 3 [5] = Some 1) by reflexivity.
  split; [exact K1|]. split; [exact K2|]. split; [vm_compute; discriminate|].
  unfold signRFC6979. cbn [kD]. rewrite K1, K2. rewrite !(signNonce_ok _ C) by (split; reflexivity).
  assert (I1 : ninv 1 = 1) by (rewrite ninv_pow, Z.pow_1_l by discriminate; reflexivity).
  assert (Z1 : (sig0 3 1 [1] =? 0) = false) by (unfold sig0; rewrite smul_1, I1; vm_compute; reflexivity).
  assert (Z2 : (sig0 3 1 [5] =? 0) = false) by (unfold sig0; rewrite smul_1, I1; vm_compute; reflexivity).
  rewrite Z1, Z2, smul_1. do 2 eexists. split; [reflexivity|]. split; [reflexivity|]. discriminate.
Qed.
