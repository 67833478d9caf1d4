(** * Auditing a history of commitments (C71) *)
From Coq Require Import ZArith List Lia Bool Field.
From Verif Require Import Go Wire Big Crypto Spec CurveZ CurveGroup Order FieldP FieldN SpecZk ZkBase PointProofs GspfsProofs
  Equivalence EqConsProofs Disjunctive DisjProofs Abc AbcProofs PropPoint PropEqCons SpecMeaning MeaningProofs ForgeProofs SpecLedger.
Import ListNotations.
Open Scope Z_scope.

Lemma audit_core sk r V w x base tok : sk mod N <> 0 -> padd (ped V r) (pneg (smul w G)) = base -> smul r (smul sk Htab) = tok ->
  smul sk Htab = smul x Htab -> tok = smul x base \/ tok = pneg (smul x base) ->
  w mod N = V mod N \/ Htab = smul (quot (w - V) (2 * r)) G.
Proof.
  intros Nz <- <- E0 E1. pose proof (nz_nz sk Nz) as Sz.
  assert (X : nz x = nz sk /\ (nz w = nz V \/ smul (2 * r) Htab = smul (w - V) G)).
  { destruct (dlog Htab is_point_Htab) as [h E]. pose proof (Htab_dlog_nz h E) as Hz. unfold ped in *. rewrite E in *. clear E.
    gpush_in E0. apply smul_G_eq_inv in E0. nzpush_in E0.
    assert (X : nz x = nz sk).
    { transitivity (nmul (nmul (nz x) (nz h)) (ninvF (nz h))); [field; exact Hz|]. rewrite <- E0. field. exact Hz. }
    split; [exact X|]. destruct E1 as [E1|E1]; gpush_in E1; apply smul_G_eq_inv in E1; nzpush_in E1; rewrite X in E1.
    - left. apply (ncomb _ _ (ninvF (nz sk)) _ _ E1). field. exact Sz.
    - right. replace (2 * r) with (r + r) by lia. gpush. apply smul_G_eq. nzpush. apply (ncomb _ _ (ninvF (nz sk)) _ _ E1). field. exact Sz. }
  destruct X as [_ [X|X]]; [left; apply nz_eq_iff; exact X|]. destruct (log_either _ _ X) as [[X1 _]|X1]; [left|right; exact X1].
  apply nz_eq_iff. assert (X2 : nz (w - V) = nz 0) by (apply nz_eq; exact X1). nzpush_in X2. apply (ncomb _ _ n1 _ _ X2). ring.
Qed.

(** C71: over any history, the sum of the commitments is the commitment to the total,
    and the sum of the tokens is the token of the sum of the blinding factors. *)
Theorem C71_sums : forall zk pk txs, std zk -> is_point pk ->
  sumCommitments zk txs = PedCommitR zk (Some (total txs)) (Some (blinding txs)) /\
  sumTokens zk (pt pk) txs = CommitR zk (pt pk) (Some (blinding txs)).
Proof.
  intros zk pk txs S Hp. rewrite (PedCommitR_ok zk S), (CommitR_ok zk S) by exact Hp.
  induction txs as [|[v r] t [IH1 IH2]]; [split; reflexivity|]. cbn [sumCommitments sumTokens]. rewrite IH1, IH2. cbn [bind].
  rewrite (PedCommitR_ok zk S), (CommitR_ok zk S) by exact Hp. cbn [bind]. rewrite !(Add_ok zk S) by isp.
  unfold total, blinding. cbn [map fold_right fst snd]. split.
  - rewrite ped_add. f_equal. f_equal. f_equal; apply Z.add_comm.
  - rewrite <- smul_add by exact Hp. f_equal. f_equal. f_equal. apply Z.add_comm.
Qed.
Print Assumptions C71_sums.

Lemma auditBase_ok zk V r : std zk -> auditBase zk (pt (ped V r)) V = Ok (pt (smul r Htab)).
Proof.
  intros S. unfold auditBase. rewrite (std_G _ S), (Mult_ok zk S) by isp. cbn [bind]. rewrite (Sub_ok zk S) by isp. rewrite eff_G.
  f_equal. f_equal. unfold ped. rewrite (padd_comm (smul V G)), padd_assoc, padd_pneg_r, padd_O_r by isp. reflexivity.
Qed.
(** C71: with pk = Mult(H, sk), the equivalence proof for the true total is produced and
    accepted, whatever the history. *)
Theorem C71_audit_complete : forall sha zk sk u txs, std zk ->
  plain (smul sk Htab) -> plain (smul (blinding txs) Htab) -> plain (smul (blinding txs) (smul sk Htab)) ->
  exists pk sum tok base pf, Mult zk (zH zk) (Some sk) = Ok pk /\ sumCommitments zk txs = Ok sum /\ sumTokens zk pk txs = Ok tok /\
    auditBase zk sum (total txs) = Ok base /\
    NewEquivalenceProof sha zk (zH zk) pk base tok (Some sk) (Some u) = Ok (Some pf, None) /\
    accepts (EquivalenceVerify sha (Some pf) zk (zH zk) pk base tok).
Proof.
  intros sha zk sk u txs S P1 P2 P3. set (r := blinding txs) in *.
  assert (IP : is_point (smul sk Htab)) by isp. destruct (C71_sums zk _ txs S IP) as [E1 E2]. fold r in E1, E2.
  rewrite (PedCommitR_ok zk S) in E1. rewrite (CommitR_ok zk S) in E2 by exact IP.
  pose proof (auditBase_ok zk (total txs) r S) as EB.
  destruct (C27_equivalence_complete sha zk Hgen (smul r Htab) sk u S) as (pf & Ep & Ea); [isp|isp| | |].
  - rewrite eff_Hgen. exact P1.
  - rewrite (eff_plain (smul r Htab)) by (isp || exact P2). rewrite <- smul_mul, Z.mul_comm, smul_mul by isp. exact P3.
  - cbv zeta in Ep, Ea. rewrite eff_Hgen, (eff_plain (smul r Htab)) in Ep, Ea by (isp || exact P2).
    rewrite <- (smul_mul sk r), (Z.mul_comm sk r), smul_mul in Ep, Ea by isp.
    exists (pt (smul sk Htab)), (pt (ped (total txs) r)), (pt (smul r (smul sk Htab))), (pt (smul r Htab)), pf.
    rewrite (std_H _ S). split; [rewrite (Mult_ok zk S), eff_Hgen by isp; reflexivity|]. split; [exact E1|]. split; [exact E2|].
    split; [exact EB|]. split; [exact Ep|exact Ea].
Qed.
Print Assumptions C71_audit_complete.

(** C71: an audit is sound.  Three accepted proofs with the same commitments and pairwise
    different challenges (that is: a prover who can answer) exist only for the true total,
    unless the claim gives away the logarithm of H'. *)
Theorem C71_audit_sound : forall zk sk txs claim pk sum tok base U1 U2 sha1 c1 s1 sha2 c2 s2 sha3 c3 s3, std zk ->
  sk mod N <> 0 -> is_point base -> is_point tok -> is_point U1 -> is_point U2 ->
  Mult zk (zH zk) (Some sk) = Ok (pt pk) -> sumCommitments zk txs = Ok sum -> sumTokens zk (pt pk) txs = Ok (pt tok) ->
  auditBase zk sum claim = Ok (pt base) -> plain (smul sk Htab) -> plain base -> plain tok ->
  c1 mod N <> c2 mod N -> c1 mod N <> c3 mod N -> c2 mod N <> c3 mod N ->
  accepts (EquivalenceVerify sha1 (Some (MkEquiv (pt U1) (pt U2) (Some c1) (Some s1))) zk (zH zk) (pt pk) (pt base) (pt tok)) ->
  accepts (EquivalenceVerify sha2 (Some (MkEquiv (pt U1) (pt U2) (Some c2) (Some s2))) zk (zH zk) (pt pk) (pt base) (pt tok)) ->
  accepts (EquivalenceVerify sha3 (Some (MkEquiv (pt U1) (pt U2) (Some c3) (Some s3))) zk (zH zk) (pt pk) (pt base) (pt tok)) ->
  claim mod N = total txs mod N \/ Htab = smul (quot (claim - total txs) (2 * blinding txs)) G.
Proof.
  intros zk sk txs claim pk sum tok base U1 U2 sha1 c1 s1 sha2 c2 s2 sha3 c3 s3 S Nz IB IT IU1 IU2 Epk Es Et Eb P1 P2 P3 D12 D13 D23 A1 A2 A3.
  rewrite (std_H _ S) in *. rewrite (Mult_ok zk S), eff_Hgen in Epk by isp. apply Ok_inj, pt_inj in Epk. subst pk.
  assert (IP : is_point (smul sk Htab)) by isp. destruct (C71_sums zk _ txs S IP) as [E1 E2]. rewrite E1 in Es. rewrite E2 in Et. clear E1 E2.
  rewrite (PedCommitR_ok zk S) in Es. rewrite (CommitR_ok zk S) in Et by exact IP. apply Ok_inj in Es. apply Ok_inj, pt_inj in Et.
  subst sum. unfold auditBase in Eb. rewrite (std_G _ S), (Mult_ok zk S), eff_G in Eb by isp. cbn [bind] in Eb. rewrite (Sub_ok zk S) in Eb by isp.
  apply Ok_inj, pt_inj in Eb. set (r := blinding txs) in *. set (V := total txs) in *. clearbody r V.
  destruct (C28_equivalence_sound zk Hgen (smul sk Htab) base tok U1 U2 sha1 c1 s1 sha2 c2 s2 sha3 c3 s3 S) as (e & f & t & t' & _ & _ & _ & X); try assumption; try isp.
  cbv zeta in X. generalize dependent (slope e f (snd t) (fst t) (snd t') (fst t')). intros x [X1 X2]. clear A1 A2 A3.
  rewrite eff_Hgen in X1. rewrite (eff_plain base) in X2 by assumption. clear P1 P2 P3 D12 D13 D23 IU1 IU2 IT.
  exact (audit_core sk r V claim x base tok Nz Eb Et X1 X2).
Qed.
Print Assumptions C71_audit_sound.

(** Non-vacuity: a history of two transactions, paying 5 and taking back 3, audited with
    the key 1, and the transcripts that the extractor is given, one for every challenge. *)
Example C71_complete_case : let txs := [(5, 3); (-3, -2)] in std specZk /\ total txs = 2 /\ blinding txs = 1 /\
  plain (smul 1 Htab) /\ plain (smul (blinding txs) Htab) /\ plain (smul (blinding txs) (smul 1 Htab)).
Proof.
  intros txs. assert (E : blinding txs = 1) by reflexivity. assert (T : total txs = 2) by reflexivity. rewrite E. clearbody txs.
  split; [exact specZk_std|]. split; [exact T|]. split; [exact eq_refl|]. destruct plain_3 as (_ & P & Q).
  split; [exact P|]. split; [exact P|exact Q].
Qed.
Example C71_sound_case : let txs := [(5, 3); (-3, -2)] in
  Mult specZk (zH specZk) (Some 1) = Ok (pt Htab) /\ (exists sum, sumCommitments specZk txs = Ok sum /\ auditBase specZk sum 2 = Ok (pt Htab)) /\
  sumTokens specZk (pt Htab) txs = Ok (pt Htab) /\ plain Htab /\
  forall c, scalar c -> let s := (7 + c * (1 mod N)) mod N in
  accepts (EquivalenceVerify (shaC c) (Some (MkEquiv (pt (smul 7 Htab)) (pt (smul 7 Htab)) (Some c) (Some s))) specZk
    (zH specZk) (pt Htab) (pt Htab) (pt Htab)).
Proof.
  intros txs. pose proof specZk_std as S. rewrite (std_H _ S). split; [rewrite (Mult_ok _ S), eff_Hgen, smul_1 by isp; reflexivity|].
  destruct (C71_sums specZk Htab txs S is_point_Htab) as [E1 E2]. 
  assert (E : blinding txs = 1) by reflexivity. assert (T : total txs = 2) by reflexivity. rewrite E, T in E1. rewrite E in E2. clear E T. clearbody txs.
  rewrite (PedCommitR_ok _ S) in E1. rewrite (CommitR_ok _ S), smul_1 in E2 by isp. split.
  { exists (pt (ped 2 1)). split; [exact E1|]. rewrite (auditBase_ok specZk 2 1 S), smul_1 by isp. exact eq_refl. }
  split; [exact E2|]. split; [exact plain_Htab|]. intros c Hc s. apply (equiv_accepts (shaC c) specZk S); try isp.
  split; [apply fs_shaC; exact Hc|]. rewrite eff_Hgen, eff_Htab. pose proof (resp_add Htab 1 7 c is_point_Htab) as H. rewrite smul_1 in H by isp.
  split; left; exact H.
Qed.

Lemma mul_nz a b : a mod N <> 0 -> b mod N <> 0 -> (a * b) mod N <> 0.
Proof.
  intros A B E. apply Z.mod_divide in E; [|discriminate]. apply Znumtheory.prime_mult in E; [|exact prime_N].
  destruct E as [E|E]; apply Z.mod_divide in E; try discriminate; [exact (A E)|exact (B E)].
Qed.
Lemma no_common a : a mod N <> 0 -> (fst (smul a Htab) =? fst (smul a Hgen)) = false.
Proof.
  intros Ha. destruct (_ =? _) eqn:E; [|reflexivity]. exfalso. apply xeqb in E; [|isp|isp].
  assert (C : forall X Y, is_point X -> is_point Y -> smul a X = smul a Y -> X = Y).
  { intros X Y HX HY K. rewrite <- (smul_ninv a X HX Ha), <- (smul_ninv a Y HY Ha).
    rewrite <- !smul_mul by assumption. rewrite (Z.mul_comm a), !smul_mul, K by assumption. reflexivity. }
  destruct Hgen_Htab as [D1 D2]. destruct E as [E|E].
  - apply D1. apply C; [isp|isp|exact E].
  - rewrite <- smul_pneg in E by isp. apply D2. apply C; [isp|isp|exact E].
Qed.
(** C71, refuted for the package's own KeyGen: KeyGen(curve, H) computes its public key with
    the curve's ScalarMult, which does not agree with Mult(H, sk).  For no key, no
    statement and no draw does the audit prover (or the zero side of the ABC prover,
    given the token of that key) produce a proof. *)
Theorem C71_keygen_refuted : forall sha zk sk, std zk -> scalar sk -> sk <> 0 ->
  exists pk, KeyGen (zC zk) (zH zk) (Some sk) = Ok (pt pk, sk) /\ Mult zk (zH zk) (Some sk) <> Ok (pt pk) /\
    (forall base tok rnd, is_point base -> is_point tok ->
       NewEquivalenceProof sha zk (zH zk) (pt pk) (pt base) (pt tok) (Some sk) rnd = Ok (None, Some EProof)) /\
    (forall r u1 u2 u3 ub uc d1 d2 d3, r mod N <> 0 -> plain (ped 0 r) ->
       exists cm tok, PedCommitR zk (Some 0) (Some r) = Ok cm /\ CommitR zk (pt pk) (Some r) = Ok tok /\
       NewABCProof sha zk cm tok (Some 0) (Some sk) Left (abcRn u1 u2 u3 ub uc d1 d2 d3) = Ok (Some emptyABC, Some EProof)).
Proof.
  intros sha zk sk S Hs H0. pose proof (scalar_nz sk Hs H0) as Nz. pose proof (no_common sk Nz) as M.
  exists (smul sk Hgen). rewrite (std_H _ S). split; [apply C16_keygen; [apply (std_curve _ S)|isp|exact Hs]|]. split; [|split].
  - rewrite (Mult_ok zk S), eff_Hgen by isp. intros E. apply Ok_inj, pt_inj in E. rewrite E, xeq_refl in M. discriminate M.
  - intros base tok rnd Hb Ht. rewrite (equiv_prove sha zk S), eff_Hgen, M by isp. reflexivity.
  - intros r u1 u2 u3 ub uc d1 d2 d3 Hr P. exists (pt (ped 0 r)), (pt (smul r (smul sk Hgen))).
    split; [apply (PedCommitR_ok zk S)|]. split; [apply (CommitR_ok zk S); isp|].
    rewrite (abc_left sha zk S), (disj_prove_left sha zk S) by isp. rewrite (eff_plain (ped 0 r)) by (isp || exact P).
    rewrite <- left_token, <- !smul_mul, no_common by (isp || (apply mul_nz; assumption)). reflexivity.
Qed.
Print Assumptions C71_keygen_refuted.
Example C71_keygen_case : scalar 1 /\ 1 <> 0 /\ 1 mod N <> 0 /\ plain (ped 0 1).
Proof. split; [split; [discriminate|reflexivity]|]. split; [discriminate|]. split; [discriminate|]. exact (proj1 plain_3). Qed.
