(** * Proofs about the sizes of serialised proofs (proof only) *)
From Coq Require Import ZArith List Lia Bool.
From Verif Require Import Go Wire SpecWire Big Crypto Spec FieldP CurveGroup Order FieldN CurveZ SpecZk SpecCodec CodecProofs ZkBase PointProofs
  Gspfs GspfsProofs Equivalence Consistency EqConsProofs Disjunctive DisjProofs Abc AbcProofs Range SpecRange RangeProofs WireProofsZk SpecSize.
Import ListNotations.
Open Scope Z_scope.

(** ** Numbers and points *)
Definition nb (z : Z) : Z := blen (bigBytes z).
Lemma nb_nonneg z : 0 <= nb z. Proof. unfold nb, blen. lia. Qed.
Lemma nb_fits n z : 0 <= n -> fits n z -> nb z <= n. Proof. apply bigBytes_blen. Qed.
Lemma nb_below z : Z.abs z < 256 ^ nb z.
Proof. unfold nb, blen, bigBytes. rewrite be_bytes_len. apply byteLen_bound. lia. Qed.
Lemma nb_ge n z : 0 <= n -> 256 ^ n <= Z.abs z -> n + 1 <= nb z.
Proof.
  intros Hn H. pose proof (nb_below z) as B. pose proof (nb_nonneg z) as K. destruct (Z.lt_ge_cases (nb z) (n + 1)) as [L|L]; [exfalso|exact L].
  assert (M : 256 ^ nb z <= 256 ^ n) by (apply Z.pow_le_mono_r; lia). lia.
Qed.
Lemma nb_takes n z : 1 <= n -> takes n z -> nb z = n.
Proof. intros Hn [L M]. pose proof (nb_fits n z ltac:(lia) M). pose proof (nb_ge (n - 1) z ltac:(lia) L). lia. Qed.
Lemma varint1 n : 0 <= n < 253 -> blen (varint n) = 1.
Proof. intros H. unfold varint. destruct (Z.ltb_spec n 253); [reflexivity|lia]. Qed.
Lemma varbytes_small bs : blen bs < 253 -> blen (varbytes bs) = 1 + blen bs.
Proof. intros H. unfold varbytes. unfold blen in *. rewrite app_length, Nat2Z.inj_add. fold (blen (varint (Z.of_nat (length bs)))). rewrite varint1 by lia. reflexivity. Qed.
Lemma blen_app a b : blen (a ++ b) = blen a + blen b.
Proof. unfold blen. rewrite app_length. lia. Qed.
Lemma encPoint_size x y : nb x < 253 -> nb y < 253 -> blen (encPoint x y) = 2 + nb x + nb y.
Proof. intros A B. unfold encPoint. rewrite blen_app, !varbytes_small by assumption. unfold nb. lia. Qed.
Lemma encInt_size z : nb z < 252 -> blen (encInt z) = 2 + nb z.
Proof. intros A. unfold encInt. assert (E : forall b, blen (b :: bigBytes z) = 1 + nb z) by (intros b; unfold nb, blen; cbn [length]; lia). rewrite varbytes_small; rewrite E; lia. Qed.

(** sizes of the fields of a proof *)
Definition fitsPt (p : ECPoint) (k : Z) : Prop := exists x y, p = EP (Some x) (Some y) /\ k = 2 + nb x + nb y /\ 0 <= x /\ 0 <= y /\ nb x <= 32 /\ nb y <= 32.
Definition fitsInt (n : Z) (o : option Z) (k : Z) : Prop := exists z, o = Some z /\ k = 2 + nb z /\ nb z <= n.
Lemma small_nb z : nb z <= 128 -> small z.
Proof. intros H. apply small_1024. pose proof (nb_below z) as B. eapply Z.lt_le_trans; [exact B|]. change (2 ^ 1024) with (256 ^ 128). apply Z.pow_le_mono_r; [lia|exact H]. Qed.
Lemma pt_fits p : is_point p -> exists k, fitsPt (pt p) k.
Proof.
  intros H. assert (B : 0 <= fst p < P /\ 0 <= snd p < P).
  { destruct H as [->|(A & B & _)]; [split; split; (discriminate || reflexivity)|split; assumption]. }
  assert (K : forall z, 0 <= z < P -> nb z <= 32).
  { intros z [L M]. apply nb_fits; [lia|]. unfold fits. rewrite Z.abs_eq by exact L. eapply Z.lt_trans; [exact M|reflexivity]. }
  destruct B as [B1 B2]. exists (2 + nb (fst p) + nb (snd p)), (fst p), (snd p). split; [reflexivity|]. split; [reflexivity|].
  split; [exact (proj1 B1)|]. split; [exact (proj1 B2)|]. split; apply K; assumption.
Qed.
Lemma int_fits n z : 0 <= n -> fits n z -> exists k, fitsInt n (Some z) k.
Proof. intros Hn H. exists (2 + nb z), z. split; [reflexivity|]. split; [reflexivity|]. apply nb_fits; assumption. Qed.
Lemma fits_bnd k z : 0 <= k -> bnd (8 * k) z -> fits k z.
Proof. intros Hk H. unfold fits, bnd in *. rewrite Z.pow_mul_r in H by lia. exact H. Qed.
Lemma int_256 z : bnd 256 z -> exists k, fitsInt 32 (Some z) k.
Proof. intros H. apply int_fits; [lia|]. exact (fits_bnd 32 z ltac:(lia) H). Qed.

Lemma fitsPt_wf p k : fitsPt p k -> wfPoint p /\ 2 <= k <= 66.
Proof.
  intros (x & y & -> & -> & X & Y & Nx & Ny). pose proof (nb_nonneg x). pose proof (nb_nonneg y). split; [|lia].
  exists x, y. split; [reflexivity|]. do 2 (split; [assumption|]). split; apply small_nb; lia.
Qed.
Lemma fitsInt_wf n o k : n <= 128 -> fitsInt n o k -> wfInt o /\ 2 <= k <= 2 + n.
Proof. intros Hn (z & -> & -> & Nz). pose proof (nb_nonneg z). split; [|lia]. exists z. split; [reflexivity|]. apply small_nb. lia. Qed.

Lemma fitsPt_enc p k : fitsPt p k -> exists x y, p = EP (Some x) (Some y) /\ 0 <= x /\ 0 <= y /\ small x /\ small y /\ blen (encPoint x y) = k.
Proof.
  intros (x & y & -> & -> & X & Y & Nx & Ny). exists x, y. split; [reflexivity|]. do 2 (split; [assumption|]).
  split; [apply small_nb; lia|]. split; [apply small_nb; lia|]. apply encPoint_size; lia.
Qed.
Lemma fitsInt_enc n o k : n <= 128 -> fitsInt n o k -> exists z, o = Some z /\ small z /\ blen (encInt z) = k.
Proof. intros Hn (z & -> & -> & Nz). exists z. split; [reflexivity|]. split; [apply small_nb; lia|]. apply encInt_size. lia. Qed.
Lemma le32 : 32 <= 128. Proof. discriminate. Qed.

(** opens the size facts of the fields and adds up *)
Ltac fields := repeat match goal with
  | H : fitsPt _ _ |- _ => apply fitsPt_enc in H; let x := fresh "x" in let y := fresh "y" in destruct H as (x & y & -> & ? & ? & ? & ? & <-)
  | H : fitsInt _ _ _ |- _ => apply fitsInt_enc in H; [let z := fresh "z" in destruct H as (z & -> & ? & <-)|first [exact le32|assumption]]
  end.
Ltac sizes := rewrite !blen_app; ring.

Lemma GSPFS_size f1 f2 f3 f4 b k1 k2 k3 k4 : fitsPt f1 k1 -> fitsPt f2 k2 -> fitsInt 32 f3 k3 -> fitsInt 32 f4 k4 ->
  GSPFSBytes (MkGSPFS f1 f2 f3 f4) = Ok b -> blen b = k1 + k2 + k3 + k4.
Proof.
  intros H1 H2 H3 H4 E. fields.
  match type of E with GSPFSBytes ?p = _ => assert (X : exists c, GSPFSBytes p = Ok c /\ c = b) by (exists b; split; [exact E|reflexivity]) end. clear E.
  revert X. unfold GSPFSBytes. cbn [gsBase gsRandCommit gsHiddenValue gsChallenge]. repeat wr. intros (c & E & <-). injection E as <-. sizes.
Qed.
Lemma Equivalence_size f1 f2 f3 f4 b k1 k2 k3 k4 : fitsPt f1 k1 -> fitsPt f2 k2 -> fitsInt 32 f3 k3 -> fitsInt 32 f4 k4 ->
  EquivalenceBytes (MkEquiv f1 f2 f3 f4) = Ok b -> blen b = k1 + k2 + k3 + k4.
Proof.
  intros H1 H2 H3 H4 E. fields.
  match type of E with EquivalenceBytes ?p = _ => assert (X : exists c, EquivalenceBytes p = Ok c /\ c = b) by (exists b; split; [exact E|reflexivity]) end. clear E.
  revert X. unfold EquivalenceBytes. cbn [eqUG eqUH eqChallenge eqHiddenValue]. repeat wr. intros (c & E & <-). injection E as <-. sizes.
Qed.
Lemma Consistency_size f1 f2 f3 f4 f5 b k1 k2 k3 k4 k5 : fitsPt f1 k1 -> fitsPt f2 k2 -> fitsInt 32 f3 k3 -> fitsInt 32 f4 k4 -> fitsInt 32 f5 k5 ->
  ConsistencyBytes (MkCons f1 f2 f3 f4 f5) = Ok b -> blen b = k1 + k2 + k3 + k4 + k5.
Proof.
  intros H1 H2 H3 H4 H5 E. fields.
  match type of E with ConsistencyBytes ?p = _ => assert (X : exists c, ConsistencyBytes p = Ok c /\ c = b) by (exists b; split; [exact E|reflexivity]) end. clear E.
  revert X. unfold ConsistencyBytes. cbn [cnT1 cnT2 cnChallenge cnS1 cnS2]. repeat wr. intros (c & E & <-). injection E as <-. sizes.
Qed.
Definition buf (o : list Z) : writer := {| wout := o; wroom := None |}.
Lemma bind_point {A} o x y (k : writer * bool -> R A) : small x -> small y ->
  bind (WriteECPoint (buf o) (EP (Some x) (Some y))) k = k (buf (o ++ encPoint x y), false).
Proof. intros X Y. rewrite WriteECPoint_buf by (reflexivity || assumption). reflexivity. Qed.
Lemma bind_int {A} o z (k : writer * bool -> R A) : small z ->
  bind (WriteBigInt (buf o) (Some z)) k = k (buf (o ++ encInt z), false).
Proof. intros X. rewrite WriteBigInt_buf by (reflexivity || assumption). reflexivity. Qed.
Ltac lay := change newBuffer with (buf []); repeat (etransitivity; [first [apply bind_point; assumption|apply bind_int; assumption]|]; cbn [fst]);
  cbn [fst wout buf]; f_equal; rewrite <- !app_assoc; reflexivity.
Lemma Disjunctive_layout x1 y1 x2 y2 c c1 c2 s1 s2 : 0 <= x1 -> 0 <= y1 -> small x1 -> small y1 -> 0 <= x2 -> 0 <= y2 -> small x2 -> small y2 ->
  small c -> small c1 -> small c2 -> small s1 -> small s2 ->
  DisjunctiveBytes (MkDisj (EP (Some x1) (Some y1)) (EP (Some x2) (Some y2)) (Some c) (Some c1) (Some c2) (Some s1) (Some s2)) =
  Ok (encPoint x1 y1 ++ encPoint x2 y2 ++ encInt c ++ encInt c1 ++ encInt c2 ++ encInt s1 ++ encInt s2).
Proof. intros. unfold DisjunctiveBytes. cbn [djT1 djT2 djC djC1 djC2 djS1 djS2]. lay. Qed.
Lemma Disjunctive_size n m f1 f2 f3 f4 f5 f6 f7 b k1 k2 k3 k4 k5 k6 k7 : n <= 128 -> m <= 128 ->
  fitsPt f1 k1 -> fitsPt f2 k2 -> fitsInt 32 f3 k3 -> fitsInt 32 f4 k4 -> fitsInt 32 f5 k5 ->
  fitsInt n f6 k6 -> fitsInt m f7 k7 ->
  DisjunctiveBytes (MkDisj f1 f2 f3 f4 f5 f6 f7) = Ok b -> blen b = k1 + k2 + k3 + k4 + k5 + k6 + k7.
Proof.
  intros Hn Hm H1 H2 H3 H4 H5 H6 H7 E. fields. rewrite Disjunctive_layout in E by assumption. apply Ok_inj in E. subst b. sizes.
Qed.

Section P.
Variables (sha : list Z -> list Z) (zk : zkparams).
Hypothesis S : std zk.
Ltac pts := match goal with |- exists k, fitsPt (pt _) k => apply pt_fits; isp end.

Lemma gspfs_len B A x rnd pf b : is_point B -> is_point A -> NewGSPFSProofBase sha zk (pt B) (pt A) (Some x) rnd = Ok (Some pf, None) ->
  GSPFSBytes pf = Ok b -> 8 <= blen b <= 200.
Proof.
  intros HB HA E Eb. rewrite (gspfs_prove sha zk S) in E by assumption. destruct (_ =? _); [|discriminate E].
  destruct rnd as [u|]; [|discriminate E]. apply Ok_inj in E. cbv zeta in E.
  assert (Q : pf = MkGSPFS (pt B) (pt (smul u (eff B))) (Some ((u - fs sha [A; smul u (eff B)] * (x mod N)) mod N)) (Some (fs sha [A; smul u (eff B)]))) by congruence.
  subst pf. clear E.
  destruct (pt_fits B HB) as [k1 K1]. destruct (pt_fits (smul u (eff B)) ltac:(isp)) as [k2 K2].
  destruct (int_256 _ (bnd_mod (u - fs sha [A; smul u (eff B)] * (x mod N)))) as [k3 K3]. destruct (int_256 _ (bnd_fs sha [A; smul u (eff B)])) as [k4 K4].
  rewrite (GSPFS_size _ _ _ _ b k1 k2 k3 k4 K1 K2 K3 K4 Eb). apply fitsPt_wf in K1, K2. apply fitsInt_wf in K3, K4; lia.
Qed.
Lemma equiv_len B1 R1 B2 R2 x rnd pf b : is_point B1 -> is_point R1 -> is_point B2 -> is_point R2 ->
  NewEquivalenceProof sha zk (pt B1) (pt R1) (pt B2) (pt R2) (Some x) rnd = Ok (Some pf, None) -> EquivalenceBytes pf = Ok b -> 8 <= blen b <= 200.
Proof.
  intros H1 H2 H3 H4 E Eb. rewrite (equiv_prove sha zk S) in E by assumption. destruct (_ && _); [|discriminate E].
  destruct rnd as [u|]; [|discriminate E]. apply Ok_inj in E. cbv zeta in E.
  match type of E with (Some (MkEquiv (pt ?p) (pt ?q) (Some ?c) (Some (?h mod N))), _) = _ =>
    assert (Q : pf = MkEquiv (pt p) (pt q) (Some c) (Some (h mod N))) by congruence; 
    destruct (pt_fits p ltac:(isp)) as [k1 K1]; destruct (pt_fits q ltac:(isp)) as [k2 K2];
    destruct (int_256 c (bnd_fs _ _)) as [k3 K3]; destruct (int_256 _ (bnd_mod h)) as [k4 K4] end. subst pf. clear E.
  rewrite (Equivalence_size _ _ _ _ b k1 k2 k3 k4 K1 K2 K3 K4 Eb). apply fitsPt_wf in K1, K2. apply fitsInt_wf in K3, K4; lia.
Qed.
Lemma cons_len CM CT PK v r rnd1 rnd2 pf b : is_point CM -> is_point CT -> is_point PK ->
  NewConsistencyProof sha zk (pt CM) (pt CT) (pt PK) (Some v) (Some r) rnd1 rnd2 = Ok (Some pf, None) -> ConsistencyBytes pf = Ok b -> 10 <= blen b <= 234.
Proof.
  intros H1 H2 H3 E Eb. rewrite (cons_prove sha zk S) in E by assumption. destruct (_ && _); [|discriminate E].
  destruct rnd1 as [u1|]; [|discriminate E]. destruct rnd2 as [u2|]; [|discriminate E]. apply Ok_inj in E. cbv zeta in E.
  match type of E with (Some (MkCons (pt ?p) (pt ?q) (Some ?c) (Some (?h mod N)) (Some (?g mod N))), _) = _ =>
    assert (Q : pf = MkCons (pt p) (pt q) (Some c) (Some (h mod N)) (Some (g mod N))) by congruence; 
    destruct (pt_fits p ltac:(isp)) as [k1 K1]; destruct (pt_fits q ltac:(isp)) as [k2 K2];
    destruct (int_256 c (bnd_fs _ _)) as [k3 K3]; destruct (int_256 _ (bnd_mod h)) as [k4 K4]; destruct (int_256 _ (bnd_mod g)) as [k5 K5] end. subst pf. clear E.
  rewrite (Consistency_size _ _ _ _ _ b k1 k2 k3 k4 k5 K1 K2 K3 K4 K5 Eb). apply fitsPt_wf in K1, K2. apply fitsInt_wf in K3, K4, K5; lia.
Qed.
(** u + d*x with all three below N has at most 64 bytes *)
Lemma resp_fits u d x : scalar u -> scalar d -> scalar x -> fits 64 (u + d * x).
Proof.
  intros [U1 U2] [D1 D2] [X1 X2]. unfold fits.
  assert (0 <= d * x) by (apply Z.mul_nonneg_nonneg; assumption). rewrite Z.abs_eq by lia.
  assert (d * x <= (N - 1) * (N - 1)) by (apply Z.mul_le_mono_nonneg; lia).
  assert ((N - 1) + (N - 1) * (N - 1) < 256 ^ 64) by reflexivity. lia.
Qed.
Lemma mod_scalar a : scalar (a mod N). Proof. apply Z.mod_pos_bound. reflexivity. Qed.
Lemma disj_len B1 R1 B2 R2 x side u1 u2 u3 pf : is_point B1 -> is_point R1 -> is_point B2 -> is_point R2 ->
  scalar u1 -> scalar u2 -> scalar u3 -> 
  NewDisjunctiveProof sha zk (pt B1) (pt R1) (pt B2) (pt R2) (Some x) side (Some u1) (Some u2) (Some u3) = Ok (Some pf, None) ->
  wfDisjunctive pf /\ exists b, DisjunctiveBytes pf = Ok b /\ 14 <= blen b <= 334.
Proof.
  intros H1 H2 H3 H4 U1 U2 U3 E. pose proof (disj_wf sha zk S _ _ _ _ _ _ _ _ _ _ H1 H2 H3 H4 U1 U2 U3 E) as W. split; [exact W|].
  destruct (Disjunctive_rt pf W) as (b & Eb & _). exists b. split; [exact Eb|]. clear W.
  pose proof (bnd_scalar _ U2) as W2. pose proof (bnd_scalar _ U3) as W3.
  destruct (Z.eq_dec side Left) as [->|NL]; [|destruct (Z.eq_dec side Right) as [->|NR]].
  - rewrite (disj_prove_left sha zk S) in E by assumption. destruct (_ =? _); [|discriminate E]. apply Ok_inj in E. cbv zeta in E.
    match type of E with (Some (MkDisj (pt ?p) (pt ?q) (Some ?c) (Some (?h mod N)) (Some ?g) (Some ?s) (Some ?r)), _) = _ =>
      assert (Q : pf = MkDisj (pt p) (pt q) (Some c) (Some (h mod N)) (Some g) (Some s) (Some r)) by congruence; 
      destruct (pt_fits p ltac:(isp)) as [k1 K1]; destruct (pt_fits q ltac:(isp)) as [k2 K2];
      destruct (int_256 c (bnd_fs _ _)) as [k3 K3]; destruct (int_256 _ (bnd_mod h)) as [k4 K4]; destruct (int_256 g W3) as [k5 K5];
      destruct (int_fits 64 s ltac:(lia) (resp_fits _ _ _ U1 (mod_scalar _) (mod_scalar _))) as [k6 K6]; destruct (int_256 r W2) as [k7 K7] end.
    subst pf. clear E.
    rewrite (Disjunctive_size 64 32 _ _ _ _ _ _ _ b k1 k2 k3 k4 k5 k6 k7 ltac:(lia) ltac:(lia) K1 K2 K3 K4 K5 K6 K7 Eb). apply fitsPt_wf in K1, K2. apply fitsInt_wf in K3, K4, K5, K6, K7; lia.
  - rewrite (disj_prove_right sha zk S) in E by assumption. destruct (_ =? _); [|discriminate E]. apply Ok_inj in E. cbv zeta in E.
    match type of E with (Some (MkDisj (pt ?p) (pt ?q) (Some ?c) (Some ?g) (Some (?h mod N)) (Some ?r) (Some ?s)), _) = _ =>
      assert (Q : pf = MkDisj (pt p) (pt q) (Some c) (Some g) (Some (h mod N)) (Some r) (Some s)) by congruence; 
      destruct (pt_fits p ltac:(isp)) as [k1 K1]; destruct (pt_fits q ltac:(isp)) as [k2 K2];
      destruct (int_256 c (bnd_fs _ _)) as [k3 K3]; destruct (int_256 g W3) as [k4 K4]; destruct (int_256 _ (bnd_mod h)) as [k5 K5];
      destruct (int_256 r W2) as [k6 K6]; destruct (int_fits 64 s ltac:(lia) (resp_fits _ _ _ U1 (mod_scalar _) (mod_scalar _))) as [k7 K7] end.
    subst pf. clear E.
    rewrite (Disjunctive_size 32 64 _ _ _ _ _ _ _ b k1 k2 k3 k4 k5 k6 k7 ltac:(lia) ltac:(lia) K1 K2 K3 K4 K5 K6 K7 Eb). apply fitsPt_wf in K1, K2. apply fitsInt_wf in K3, K4, K5, K6, K7; lia.
  - exfalso. unfold NewDisjunctiveProof in E. cbn [need bind] in E. apply Z.eqb_neq in NL, NR. rewrite NL, NR in E. discriminate E.
Qed.
End P.
