(** * The sizes of what is sent, and what the sizes show (C86) *)
From Coq Require Import ZArith List Lia Bool.
From Verif Require Import Go Wire Big Crypto Spec FieldP CurveGroup Order FieldN CurveZ GMult SpecZk SpecCodec CodecProofs ZkBase PointProofs
  Gspfs GspfsProofs Equivalence Consistency EqConsProofs Disjunctive DisjProofs Abc AbcProofs Range SpecRange RangeProofs WireProofsZk
  SpecSize SizeProofs SizeProofs2 SizeProofs3 LeakProofs SpecBtc SpecCurve PubKey PubKeyProofs Signature DerProofs SpecCipher Ciphering CipherProofs
  PropDer PropPubKey PropCipher Koblitz KobTab.
Import ListNotations.
Open Scope Z_scope.

(** C86: the bytes of a prover's proof number at most 200, 200, 234 and 334. *)
Theorem C86_gspfs : forall sha zk B A x rnd pf b, std zk -> is_point B -> is_point A ->
  NewGSPFSProofBase sha zk (pt B) (pt A) (Some x) rnd = Ok (Some pf, None) -> GSPFSBytes pf = Ok b -> 8 <= blen b <= 200.
Proof. intros sha zk B A x rnd pf b S HB HA. exact (gspfs_len sha zk S B A x rnd pf b HB HA). Qed.
Print Assumptions C86_gspfs.
Theorem C86_equivalence : forall sha zk B1 R1 B2 R2 x rnd pf b, std zk -> is_point B1 -> is_point R1 -> is_point B2 -> is_point R2 ->
  NewEquivalenceProof sha zk (pt B1) (pt R1) (pt B2) (pt R2) (Some x) rnd = Ok (Some pf, None) -> EquivalenceBytes pf = Ok b -> 8 <= blen b <= 200.
Proof. intros sha zk B1 R1 B2 R2 x rnd pf b S. exact (equiv_len sha zk S B1 R1 B2 R2 x rnd pf b). Qed.
Print Assumptions C86_equivalence.
Theorem C86_consistency : forall sha zk CM CMTok PK v r rnd1 rnd2 pf b, std zk -> is_point CM -> is_point CMTok -> is_point PK ->
  NewConsistencyProof sha zk (pt CM) (pt CMTok) (pt PK) (Some v) (Some r) rnd1 rnd2 = Ok (Some pf, None) -> ConsistencyBytes pf = Ok b -> 10 <= blen b <= 234.
Proof. intros sha zk CM CT PK v r rnd1 rnd2 pf b S. exact (cons_len sha zk S CM CT PK v r rnd1 rnd2 pf b). Qed.
Print Assumptions C86_consistency.
Theorem C86_disjunctive : forall sha zk B1 R1 B2 R2 x side u1 u2 u3 pf, std zk -> is_point B1 -> is_point R1 -> is_point B2 -> is_point R2 ->
  scalar u1 -> scalar u2 -> scalar u3 ->
  NewDisjunctiveProof sha zk (pt B1) (pt R1) (pt B2) (pt R2) (Some x) side (Some u1) (Some u2) (Some u3) = Ok (Some pf, None) ->
  exists b, DisjunctiveBytes pf = Ok b /\ 14 <= blen b <= 334.
Proof. intros sha zk B1 R1 B2 R2 x side u1 u2 u3 pf S H1 H2 H3 H4 U1 U2 U3 E. exact (proj2 (disj_len sha zk S B1 R1 B2 R2 x side u1 u2 u3 pf H1 H2 H3 H4 U1 U2 U3 E)). Qed.
Print Assumptions C86_disjunctive.

(** the four upper bounds are attained *)
Example C86_attained : std specZk /\
  (exists pf b, NewGSPFSProofBase (shaC fullc) specZk (pt G) (pt G) (Some 1) (Some 1) = Ok (Some pf, None) /\ GSPFSBytes pf = Ok b /\ blen b = 200) /\
  (exists pf b, NewEquivalenceProof (shaC fullc) specZk (pt G) (pt G) (pt G) (pt G) (Some 1) (Some 1) = Ok (Some pf, None) /\ EquivalenceBytes pf = Ok b /\ blen b = 200) /\
  (exists pf b, NewConsistencyProof (shaC fullc) specZk (pt (ped 1 1)) (pt G) (pt G) (Some 1) (Some 1) (Some 0) (Some 1) = Ok (Some pf, None) /\
     ConsistencyBytes pf = Ok b /\ blen b = 234) /\
  (exists pf b, NewDisjunctiveProof (shaC fullc) specZk (pt G) (pt (smul fullc G)) (pt G) (pt G) (Some fullc) Left (Some 1) (Some (N / 3 + 1)) (Some (N / 3)) =
     Ok (Some pf, None) /\ DisjunctiveBytes pf = Ok b /\ blen b = 334).
Proof.
  pose proof specZk_std as S. split; [exact S|].
  assert (F1 : takesZ 32 ((1 - fullc * (1 mod N)) mod N) = true) by (vm_compute; reflexivity).
  assert (F2 : takesZ 32 fullc = true) by (vm_compute; reflexivity).
  assert (L1 : 1 <= 32) by discriminate. assert (L2 : 1 <= 64) by discriminate.
  pose proof (full_int _ _ L1 F2) as K2. pose proof full_G as KG.
  split; [|split; [|split]].
  - rewrite (gspfs_prove _ _ S) by isp. rewrite smul_1, eff_G, Z.eqb_refl. cbv zeta. rewrite smul_1, fullc_fs.
    destruct (GSPFS_rt _ (gspfs_wf (shaC fullc) specZk S G G 1 (Some 1) (MkGSPFS (pt G) (pt G) (Some ((1 - fullc * (1 mod N)) mod N)) (Some fullc)) is_point_G is_point_G
      ltac:(rewrite (gspfs_prove _ _ S) by isp; rewrite smul_1, eff_G, Z.eqb_refl; cbv zeta; rewrite smul_1, fullc_fs; reflexivity))) as (b & Eb & _).
    do 2 eexists. split; [reflexivity|]. split; [exact Eb|].
    exact (GSPFS_size _ _ _ _ b 66 66 34 34 KG KG (full_int _ _ L1 F1) K2 Eb).
  - assert (E : NewEquivalenceProof (shaC fullc) specZk (pt G) (pt G) (pt G) (pt G) (Some 1) (Some 1) =
       Ok (Some (MkEquiv (pt G) (pt G) (Some fullc) (Some ((1 + fullc * (1 mod N)) mod N))), None)).
    { rewrite (equiv_prove _ _ S) by isp. rewrite eff_G, smul_1, Z.eqb_refl. cbn [andb]. cbv zeta. rewrite fullc_fs. reflexivity. }
    destruct (Equivalence_rt _ (equiv_wf _ _ S _ _ _ _ _ _ _ is_point_G is_point_G is_point_G is_point_G E)) as (b & Eb & _).
    do 2 eexists. split; [exact E|]. split; [exact Eb|].
    assert (F3 : takesZ 32 ((1 + fullc * (1 mod N)) mod N) = true) by (vm_compute; reflexivity).
    exact (Equivalence_size _ _ _ _ b 66 66 34 34 KG KG K2 (full_int _ _ L1 F3) Eb).
  - assert (I : is_point (ped 1 1)) by isp.
    assert (E : NewConsistencyProof (shaC fullc) specZk (pt (ped 1 1)) (pt G) (pt G) (Some 1) (Some 1) (Some 0) (Some 1) =
       Ok (Some (MkCons (pt Htab) (pt G) (Some fullc) (Some ((0 + (1 mod N) * fullc) mod N)) (Some ((1 + 1 * fullc) mod N))), None)).
    { rewrite (cons_prove _ _ S) by isp. rewrite eff_G, smul_1, !Z.eqb_refl. cbn [andb]. cbv zeta. rewrite fullc_fs.
      unfold ped. rewrite smul_0, padd_O_l, smul_1. reflexivity. }
    destruct (Consistency_rt _ (cons_wf _ _ S _ _ _ _ _ _ _ _ I is_point_G is_point_G E)) as (b & Eb & _).
    do 2 eexists. split; [exact E|]. split; [exact Eb|].
    assert (F3 : takesZ 32 ((0 + (1 mod N) * fullc) mod N) = true) by (vm_compute; reflexivity).
    assert (F4 : takesZ 32 ((1 + 1 * fullc) mod N) = true) by (vm_compute; reflexivity).
    exact (Consistency_size _ _ _ _ _ b 66 66 34 34 34 full_Htab KG K2 (full_int _ _ L1 F3) (full_int _ _ L1 F4) Eb).
  - assert (I : is_point (smul fullc G)) by isp.
    assert (S1 : scalar 1) by (split; [discriminate|reflexivity]). 
    assert (S2 : scalar (N / 3 + 1)) by (split; [apply Z.leb_le; vm_compute; reflexivity|apply Z.ltb_lt; vm_compute; reflexivity]).
    assert (S3 : scalar (N / 3)) by (split; [apply Z.leb_le; vm_compute; reflexivity|apply Z.ltb_lt; vm_compute; reflexivity]).
    assert (T2 : padd (smul (N / 3 + 1) G) (smul ((- (N / 3)) mod N) G) = G).
    { rewrite smul_mod by isp. rewrite <- smul_add by isp. replace (N / 3 + 1 + - (N / 3)) with 1 by ring. apply smul_1. }
    assert (E : NewDisjunctiveProof (shaC fullc) specZk (pt G) (pt (smul fullc G)) (pt G) (pt G) (Some fullc) Left (Some 1) (Some (N / 3 + 1)) (Some (N / 3)) =
       Ok (Some (MkDisj (pt G) (pt G) (Some fullc) (Some ((fullc - N / 3) mod N)) (Some (N / 3)) (Some (1 + ((fullc - N / 3) mod N) * (fullc mod N))) (Some (N / 3 + 1))), None)).
    { rewrite (disj_prove_left _ _ S) by isp. rewrite eff_G, Z.eqb_refl. cbv zeta. rewrite T2, smul_1, fullc_fs. reflexivity. }
    destruct (Disjunctive_rt _ (disj_wf _ _ S _ _ _ _ _ _ _ _ _ _ is_point_G I is_point_G is_point_G S1 S2 S3 E)) as (b & Eb & _).
    do 2 eexists. split; [exact E|]. split; [exact Eb|].
    assert (F3 : takesZ 32 ((fullc - N / 3) mod N) = true) by (vm_compute; reflexivity). assert (F4 : takesZ 32 (N / 3) = true) by (vm_compute; reflexivity).
    assert (F5 : takesZ 64 (1 + ((fullc - N / 3) mod N) * (fullc mod N)) = true) by (vm_compute; reflexivity).
    assert (F6 : takesZ 32 (N / 3 + 1) = true) by (vm_compute; reflexivity).
    exact (Disjunctive_size 64 32 _ _ _ _ _ _ _ b 66 66 34 34 34 66 34 ltac:(discriminate) ltac:(discriminate) KG KG K2 (full_int _ _ L1 F3) (full_int _ _ L1 F4)
      (full_int _ _ L2 F5) (full_int _ _ L1 F6) Eb).
Qed.

(** C86: an ABC proof for a value of at most n bytes has at most 835 + n bytes, and so
    has an inequality proof for two values whose difference has at most n bytes. *)
Theorem C86_abc : forall sha zk n CM CMTok v sk side u1 u2 u3 ub uc d1 d2 d3 pf b, std zk -> is_point CM -> is_point CMTok ->
  0 <= n <= 60 -> fits n v -> scalar u3 -> scalar ub -> scalar uc -> scalar d1 -> scalar d2 -> scalar d3 ->
  NewABCProof sha zk (pt CM) (pt CMTok) (Some v) (Some sk) side
    (Build_abcRand (Some u1) (Some u2) (Some u3) (Some ub) (Some uc) (Some d1) (Some d2) (Some d3)) = Ok (Some pf, None) ->
  ABCBytes pf = Ok b -> 33 <= blen b <= 835 + n.
Proof. intros sha zk n CM CT v sk side u1 u2 u3 ub uc d1 d2 d3 pf b S. exact (abc_len sha zk S n CM CT v sk side u1 u2 u3 ub uc d1 d2 d3 pf b). Qed.
Print Assumptions C86_abc.
Theorem C86_inequality : forall sha zk n A B TA TB a b sk u1 u2 u3 ub uc d1 d2 d3 pf bs, std zk ->
  is_point A -> is_point B -> is_point TA -> is_point TB ->
  0 <= n <= 60 -> fits n (a - b) -> scalar u3 -> scalar ub -> scalar uc -> scalar d1 -> scalar d2 -> scalar d3 ->
  NewInequalityProof sha zk (pt A) (pt B) (pt TA) (pt TB) (Some a) (Some b) (Some sk)
    (Build_abcRand (Some u1) (Some u2) (Some u3) (Some ub) (Some uc) (Some d1) (Some d2) (Some d3)) = Ok (Some pf, None) ->
  ABCBytes pf = Ok bs -> 33 <= blen bs <= 835 + n.
Proof.
  intros sha zk n A B TA TB a b sk u1 u2 u3 ub uc d1 d2 d3 pf bs S HA HB HTA HTB Hn Hf U3 Ub Uc D1 D2 D3 E Eb.
  unfold NewInequalityProof in E. cbn [need bind] in E. destruct (a =? b); [discriminate E|]. rewrite !(Sub_ok zk S) in E by isp. cbn [bind] in E.
  match type of E with bind ?x _ = _ => destruct x as [[p [er|]]|] eqn:Ep end; try discriminate E. cbn [bind snd fst] in E.
  assert (Q : p = Some pf) by congruence. rewrite Q in Ep.
  eapply (abc_len sha zk S n); [ | |exact Hn|exact Hf|exact U3|exact Ub|exact Uc|exact D1|exact D2|exact D3|exact Ep|exact Eb]; isp.
Qed.
Print Assumptions C86_inequality.

(** C86 refuted: the length of a proof does not depend on the secret.  The response l of
    an ABC proof and of an inequality proof is sent unreduced; when the draw ub and the
    challenge are not small, a value (a difference) of at most k bytes gives an l of at
    most 64 + k bytes and a value of more than k + 1 bytes gives a longer one. *)
Theorem C86_abc_length_reveals_refuted : forall sha zk k CM CMTok v sk side u1 u2 u3 ub uc d1 d2 d3 pf, std zk -> is_point CM -> is_point CMTok ->
  0 <= k -> scalar u3 -> scalar ub -> scalar uc -> scalar d1 -> scalar d2 -> scalar d3 ->
  NewABCProof sha zk (pt CM) (pt CMTok) (Some v) (Some sk) side
    (Build_abcRand (Some u1) (Some u2) (Some u3) (Some ub) (Some uc) (Some d1) (Some d2) (Some d3)) = Ok (Some pf, None) ->
  exists c l, abChallenge pf = Some c /\ abl pf = Some l /\
    (fits k v -> blen (bigBytes l) <= 64 + k) /\
    (N <= 2 * ub -> N <= 2 * c -> ~ fits (k + 1) v -> 64 + k < blen (bigBytes l)).
Proof.
  intros sha zk k CM CT v sk side u1 u2 u3 ub uc d1 d2 d3 pf S H1 H2 Hk U3 Ub Uc D1 D2 D3 E.
  destruct (abc_shape sha zk S _ _ _ _ _ _ _ _ _ _ _ _ _ _ H1 H2 D1 D2 D3 E) as (B & C & d & db & _ & _ & -> & _). clear E.
  unfold abcOut. cbv zeta. cbn [abChallenge abl].
  match goal with |- context [Some (fs sha ?ps)] => pose proof (fs_scalar sha ps) as Hc; set (c := fs sha ps) in * end. clearbody c.
  exists c. eexists. split; [reflexivity|]. split; [reflexivity|]. split.
  - intros F. apply nb_fits; [apply Z.add_nonneg_nonneg; [discriminate|exact Hk]|]. exact (l_upper N k v u3 ub uc c Hk U3 Ub Uc Hc NN_64 F).
  - intros Lb Lc F. apply Z.lt_le_trans with (64 + k + 1); [apply Z.lt_succ_diag_r|].
    apply nb_ge; [apply Z.add_nonneg_nonneg; [discriminate|exact Hk]|].
    apply (l_lower N k v u3 ub uc c Hk U3 Lb Uc Lc); [apply Z.leb_le; vm_compute; reflexivity|]. unfold fits in F. apply Z.nlt_ge. exact F.
Qed.
Print Assumptions C86_abc_length_reveals_refuted.
Theorem C86_inequality_length_reveals_refuted : forall sha zk k A B TA TB a b sk u1 u2 u3 ub uc d1 d2 d3 pf, std zk ->
  is_point A -> is_point B -> is_point TA -> is_point TB ->
  0 <= k -> scalar u3 -> scalar ub -> scalar uc -> scalar d1 -> scalar d2 -> scalar d3 ->
  NewInequalityProof sha zk (pt A) (pt B) (pt TA) (pt TB) (Some a) (Some b) (Some sk)
    (Build_abcRand (Some u1) (Some u2) (Some u3) (Some ub) (Some uc) (Some d1) (Some d2) (Some d3)) = Ok (Some pf, None) ->
  exists c l, abChallenge pf = Some c /\ abl pf = Some l /\
    (fits k (a - b) -> blen (bigBytes l) <= 64 + k) /\
    (N <= 2 * ub -> N <= 2 * c -> ~ fits (k + 1) (a - b) -> 64 + k < blen (bigBytes l)).
Proof.
  intros sha zk k A B TA TB a b sk u1 u2 u3 ub uc d1 d2 d3 pf S HA HB HTA HTB Hk U3 Ub Uc D1 D2 D3 E.
  unfold NewInequalityProof in E. cbn [need bind] in E. destruct (a =? b); [discriminate E|]. rewrite !(Sub_ok zk S) in E by isp. cbn [bind] in E.
  match type of E with bind ?x _ = _ => destruct x as [[p [er|]]|] eqn:Ep end; try discriminate E. cbn [bind snd fst] in E.
  assert (Q : p = Some pf) by congruence. rewrite Q in Ep.
  eapply (C86_abc_length_reveals_refuted sha zk k); [exact S| | |exact Hk|exact U3|exact Ub|exact Uc|exact D1|exact D2|exact D3|exact Ep]; isp.
Qed.
Print Assumptions C86_inequality_length_reveals_refuted.

(** such runs for 3 and for 2^24, with k = 2; in both pairs the draws are the same *)
Example C86_length_nonvacuous : std specZk /\ fits 2 3 /\ ~ fits (2 + 1) (2 ^ 24) /\ N <= 2 * (N - 1) /\
  (forall v, v = 3 \/ v = 2 ^ 24 -> exists pf, NewABCProof (shaC (N - 1)) specZk (pt G) (pt G) (Some v) (Some 2) Right
    (Build_abcRand (Some 1) (Some 2) (Some 3) (Some (N - 1)) (Some 0) (Some 4) (Some 5) (Some 6)) = Ok (Some pf, None) /\ abChallenge pf = Some (N - 1)) /\
  (forall a, a = 8 \/ a = 2 ^ 24 + 5 -> exists pf, NewInequalityProof (shaC (N - 1)) specZk (pt G) (pt G) (pt Htab) (pt G) (Some a) (Some 5) (Some 2)
    (Build_abcRand (Some 1) (Some 2) (Some 3) (Some (N - 1)) (Some 0) (Some 4) (Some 5) (Some 6)) = Ok (Some pf, None) /\ abChallenge pf = Some (N - 1)).
Proof.
  pose proof specZk_std as S. split; [exact S|]. split; [reflexivity|]. split; [intros F; discriminate F|]. split; [apply Z.leb_le; vm_compute; reflexivity|]. split.
  - intros v [-> | ->]; apply abc_run; try exact S; try exact is_point_G; discriminate.
  - intros a Ha. assert (Q : (a =? 5) = false /\ (a - 5) mod N <> 0) by (destruct Ha as [-> | ->]; split; (reflexivity || discriminate)).
    destruct Q as [Q1 Q2]. unfold NewInequalityProof. cbn [need bind]. rewrite Q1. rewrite !(Sub_ok specZk S) by isp. cbn [bind].
    destruct (abc_run specZk (padd G (pneg G)) (padd Htab (pneg G)) (a - 5) 2 (N - 1) S) as (pf & E & C); [isp|isp|exact Q2|discriminate|].
    rewrite E. cbn [bind snd fst]. exists pf. split; [reflexivity|exact C].
Qed.

(** C86: a range proof has at most 6661 bytes less 32 for every 1 bit of the value, and
    exactly so many when no number in it happens to begin with a zero byte. *)
Theorem C86_range : forall sha zk value d1 d2 j pf vt b, std zk -> 0 <= value < 2 ^ 40 -> goodDraws sha 40 value d1 d2 j ->
  (forall i, scalar (d1 i) /\ scalar (d2 i) /\ scalar (j i)) ->
  NewRangeProof sha zk (Some value) (draws d1 d2 j) = Ok (Some pf, vt, None) -> RangeBytes pf = Ok b ->
  165 <= blen b <= 6661 - 32 * ones value /\ (fullRange value pf -> blen b = 6661 - 32 * ones value).
Proof. intros sha zk value d1 d2 j pf vt b S. exact (range_len sha zk S value d1 d2 j pf vt b). Qed.
Print Assumptions C86_range.
(** C86 refuted: the length of a range proof does not depend on the value.  Two proofs
    without leading zero bytes have the same length exactly if the values have the same
    number of 1 bits. *)
Theorem C86_range_length_reveals_refuted : forall sha sha' zk v w d1 d2 j d1' d2' j' pf pf' vt vt' b b', std zk -> 0 <= v < 2 ^ 40 -> 0 <= w < 2 ^ 40 ->
  goodDraws sha 40 v d1 d2 j -> (forall i, scalar (d1 i) /\ scalar (d2 i) /\ scalar (j i)) ->
  goodDraws sha' 40 w d1' d2' j' -> (forall i, scalar (d1' i) /\ scalar (d2' i) /\ scalar (j' i)) ->
  NewRangeProof sha zk (Some v) (draws d1 d2 j) = Ok (Some pf, vt, None) -> RangeBytes pf = Ok b -> fullRange v pf ->
  NewRangeProof sha' zk (Some w) (draws d1' d2' j') = Ok (Some pf', vt', None) -> RangeBytes pf' = Ok b' -> fullRange w pf' ->
  (blen b = blen b' <-> ones v = ones w) /\ ones v = (6661 - blen b) / 32.
Proof.
  intros sha sha' zk v w d1 d2 j d1' d2' j' pf pf' vt vt' b b' S Hv Hw H D H' D' E Eb F E' Eb' F'.
  pose proof (proj2 (range_len sha zk S v d1 d2 j pf vt b Hv H D E Eb) F) as L.
  pose proof (proj2 (range_len sha' zk S w d1' d2' j' pf' vt' b' Hw H' D' E' Eb') F') as L'.
  rewrite L, L'. clear. generalize (ones v) (ones w). intros x y. split; [lia|].
  replace (6661 - (6661 - 32 * x)) with (x * 32) by ring. symmetry. apply Z.div_mul. discriminate.
Qed.
Print Assumptions C86_range_length_reveals_refuted.
(** two such runs, for the values 0 and 1: 6661 and 6629 bytes *)
Example C86_range_nonvacuous : std specZk /\ exists k pf vt b pf' vt' b', let d1 := fun _ : nat => k in let d2 := fun _ : nat => 5 in let j := fun _ : nat => 7 in
  (goodDraws (shaC (N - 1)) 40 0 d1 d2 j /\ goodDraws (shaC (N - 1)) 40 1 d1 d2 j /\ forall i, scalar (d1 i) /\ scalar (d2 i) /\ scalar (j i)) /\
  (NewRangeProof (shaC (N - 1)) specZk (Some 0) (draws d1 d2 j) = Ok (Some pf, Some vt, None) /\ RangeBytes pf = Ok b /\ fullRange 0 pf /\ blen b = 6661) /\
  (NewRangeProof (shaC (N - 1)) specZk (Some 1) (draws d1 d2 j) = Ok (Some pf', Some vt', None) /\ RangeBytes pf' = Ok b' /\ fullRange 1 pf' /\ blen b' = 6629).
Proof.
  pose proof specZk_std as S. split; [exact S|]. destruct big_multiple as (k & s & K & L & Hs & Ek).
  assert (D : forall i : nat, scalar k /\ scalar 5 /\ scalar 7) by (intros _; split; [exact K|split; split; (discriminate || reflexivity)]).
  assert (V0 : 0 = 0 \/ 0 = 1) by (left; reflexivity). assert (V1 : 1 = 0 \/ 1 = 1) by (right; reflexivity).
  assert (R0 : 0 <= 0 < 2 ^ 40) by (split; [discriminate|reflexivity]). assert (R1 : 0 <= 1 < 2 ^ 40) by (split; [discriminate|reflexivity]).
  pose proof (ex_draws k s 0 Ek Hs V0) as G0. pose proof (ex_draws k s 1 Ek Hs V1) as G1.
  destruct (ex_run k s 0 specZk S K L Ek Hs V0) as (pf & vt & E & F). destruct (ex_run k s 1 specZk S K L Ek Hs V1) as (pf' & vt' & E' & F').
  destruct (Range_rt pf (range_wf _ _ S _ _ _ _ _ _ R0 G0 D E)) as (b & Eb & _). destruct (Range_rt pf' (range_wf _ _ S _ _ _ _ _ _ R1 G1 D E')) as (b' & Eb' & _).
  exists k, pf, vt, b, pf', vt', b'. cbv zeta. split; [split; [exact G0|split; [exact G1|exact D]]|].
  split; (split; [assumption|]; split; [assumption|]; split; [assumption|]).
  - exact (proj2 (range_len _ _ S 0 _ _ _ pf _ b R0 G0 D E Eb) F).
  - exact (proj2 (range_len _ _ S 1 _ _ _ pf' _ b' R1 G1 D E' Eb') F').
Qed.

(** C86: a DER signature has 8 to 71 bytes, a serialised public key 65 or 33. *)
Theorem C86_signature : forall s, 0 <= sR s < N -> 0 < sS s < N -> 8 <= blen (SigSerialize s) <= 71.
Proof.
  intros s Hr Hs. pose proof (low_range _ Hs). pose proof N_256. pose proof half_lt.
  destruct (canonicalize_der (sR s)) as [D1 L1]; [lia|]. destruct (canonicalize_der (low (sS s))) as [D2 L2]; [lia|].
  rewrite (serialize_der s Hr Hs). assert (L3 : blen (canonicalizeInt (low (sS s))) <= 32).
  { apply (der_int_32 _ _ D2); [|lia]. assert (N / 2 < 2 ^ 255) by reflexivity. lia. }
  unfold der_seq. rewrite !blen_app. change (blen [_; _; _; _]) with 4. change (blen [_; _]) with 2. lia.
Qed.
Print Assumptions C86_signature.
Example C86_signature_attained : blen (SigSerialize {| sR := 1; sS := 1 |}) = 8 /\ blen (SigSerialize {| sR := N - 1; sS := N / 2 |}) = 71.
Proof. vm_compute. split; reflexivity. Qed.
Theorem C86_public_key : forall p, on_curve p -> blen (SerializeUncompressed p) = 65 /\ blen (SerializeCompressed p) = 33 /\ blen (SerializeHybrid p) = 65.
Proof.
  intros p H. destruct (C54_format p H) as (-> & -> & ->). unfold sec_uncompressed, sec_compressed, sec_hybrid, blen. cbn [length].
  rewrite !app_length, !be32_len. split; [reflexivity|]. split; reflexivity.
Qed.
Print Assumptions C86_public_key.

(** C86: the length of an encrypted message depends on the length of the message alone. *)
Theorem C86_encrypt : forall sha256 sha512 E D c Q buf n d iv buf' out, curve_ok c ->
  block_cipher E D -> hash_to 32 sha256 -> hash_to 64 sha512 ->
  is_point Q -> (n <= length buf)%nat -> bytes_ok buf -> 0 < d < N -> block iv ->
  Encrypt sha256 sha512 E c Q buf n (Some d) (Some iv) = Ok (buf', Val out) -> blen out = 134 + 16 * (Z.of_nat n / 16).
Proof.
  intros sha256 sha512 E D c Q buf n d iv buf' out C BC H1 H2 HQ Ln Bb Hd Hi EE.
  destruct (C57_encrypt_is_ecies sha256 sha512 E D c Q buf n d iv C BC H1 H2 HQ Ln Bb Hd Hi) as (buf2 & bs & F & PK & E2). rewrite E2 in EE.
  assert (X : out = ecies_message sha256 sha512 E (bigBytes (fst (smul d Q))) iv (smul d G) bs) by congruence. subst out.
  rewrite (ecies_len sha256 sha512 E D _ iv _ bs (firstn n buf) BC H1 H2 Hi F PK). unfold blen. rewrite firstn_length, Nat.min_l by exact Ln. reflexivity.
Qed.
Print Assumptions C86_encrypt.
(** C57_case is a run of the kind C86_encrypt speaks of: four bytes give 134 *)
Example C86_encrypt_case : let sha256 := fun m => be_bytes 32 (beval m) in let sha512 := fun m => be_bytes 64 (beval m) in let E := fun (_ b : list Z) => rev b in
  exists buf' out, Encrypt sha256 sha512 E (S256 (mkTable G) (mkTable Htab)) (smul 5 G) [1; 2; 3; 4] 4 (Some 9) (Some (repeat 7 16)) = Ok (buf', Val out) /\ blen out = 134.
Proof.
  cbv zeta. destruct C57_case as (C & BC & H1 & H2 & Hi & buf' & out & E & _). cbv zeta in *. cbn [kPub] in E. exists buf', out. split; [exact E|].
  assert (B4 : bytes_ok [1; 2; 3; 4]) by (repeat constructor; (discriminate || reflexivity)).
  assert (L : (4 <= length [1%Z; 2%Z; 3%Z; 4%Z])%nat) by (cbn [length]; apply Nat.le_refl).
  assert (S9 : 0 < 9 < N) by (split; [reflexivity|apply Z.ltb_lt; vm_compute; reflexivity]).
  exact (C86_encrypt _ _ _ _ _ _ _ _ _ _ _ _ C BC H1 H2 (is_point_smul 5 G is_point_G) L B4 S9 Hi E).
Qed.
