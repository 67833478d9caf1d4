(** * Properties of the ABC and inequality proofs (C35-C40, parts of C26, C46 and C47) *)
From Coq Require Import ZArith List Lia Bool.
From Verif Require Import Go Wire Big Crypto Spec CurveGroup Order FieldN CurveZ SpecZk ZkBase PointProofs GspfsProofs
  EqConsProofs Disjunctive DisjProofs PropDisj Abc AbcProofs.
Import ListNotations.
Open Scope Z_scope.

(** C35: a commitment CM = v*G + r*H' with token CMTok = r*(sk*H').  Left proves v = 0. *)
Theorem C35_abc_complete_left : forall sha zk r sk u1 u2 u3 ub uc d1 d2 d3, std zk -> sk mod N <> 0 ->
  let CM := ped 0 r in let CMTok := smul r (smul sk Htab) in
  plain CM -> plain CMTok -> plain (ped 0 ub) -> plain (ped 0 uc) ->
  exists pf, NewABCProof sha zk (pt CM) (pt CMTok) (Some 0) (Some sk) Left
               (Build_abcRand (Some u1) (Some u2) (Some u3) (Some ub) (Some uc) (Some d1) (Some d2) (Some d3)) = Ok (Some pf, None) /\
             accepts (ABCVerify sha (Some pf) zk (pt CM) (pt CMTok)).
Proof.
  intros sha zk r sk u1 u2 u3 ub uc d1 d2 d3 S Hs CM CT P1 P2 P3 P4.
  assert (H1 : is_point CM) by (unfold CM; isp). assert (H2 : is_point CT) by (unfold CT; isp).
  fold (abcRn u1 u2 u3 ub uc (Some d1) (Some d2) (Some d3)). rewrite (abc_left sha zk S) by assumption.
  assert (EC : CT = smul sk (eff CM)) by (rewrite eff_plain by assumption; apply left_token).
  destruct (C32_disjunctive_complete_left sha zk CM Hgen (padd (ped 0 uc) (pneg G)) sk d1 d2 d3 S) as (dj & E & A); try isp.
  { rewrite <- EC. exact P2. }
  rewrite <- EC in E, A. rewrite E. cbn [abcDisj bind snd fst]. apply Z.eqb_neq in Hs. rewrite Hs. eexists. split; [reflexivity|].
  apply abc_complete_gen; try assumption; [apply Z.eqb_neq; exact Hs|reflexivity].
Qed.
Print Assumptions C35_abc_complete_left.
(** Right proves v <> 0. *)
Theorem C35_abc_complete_right : forall sha zk v r sk u1 u2 u3 ub uc d1 d2 d3, std zk -> sk mod N <> 0 -> v mod N <> 0 ->
  let CM := ped v r in let CMTok := smul r (smul sk Htab) in
  plain CM -> plain CMTok -> plain (ped (ninv v) ub) -> plain (ped 1 uc) -> plain (smul uc Htab) ->
  exists pf, NewABCProof sha zk (pt CM) (pt CMTok) (Some v) (Some sk) Right
               (Build_abcRand (Some u1) (Some u2) (Some u3) (Some ub) (Some uc) (Some d1) (Some d2) (Some d3)) = Ok (Some pf, None) /\
             accepts (ABCVerify sha (Some pf) zk (pt CM) (pt CMTok)).
Proof.
  intros sha zk v r sk u1 u2 u3 ub uc d1 d2 d3 S Hs Hv CM CT P1 P2 P3 P4 P5.
  assert (H1 : is_point CM) by (unfold CM; isp). assert (H2 : is_point CT) by (unfold CT; isp).
  fold (abcRn u1 u2 u3 ub uc (Some d1) (Some d2) (Some d3)). rewrite (abc_right sha zk S) by assumption.
  destruct (C32_disjunctive_complete_right sha zk CM CT Hgen uc d1 d2 d3 S) as (dj & E & A); try isp.
  { rewrite eff_Hgen. exact P5. }
  rewrite eff_Hgen, <- ped_sub_G in E, A. rewrite E. cbn [abcDisj bind snd fst]. apply Z.eqb_neq in Hs. rewrite Hs. eexists. split; [reflexivity|].
  apply abc_complete_gen; try assumption; [apply Z.eqb_neq; exact Hs|].
  rewrite Z.mul_comm, ninv_ok by exact Hv. reflexivity.
Qed.
Print Assumptions C35_abc_complete_right.
Example C35_nonvacuous : std specZk /\ 1 mod N <> 0 /\ plain (ped 0 1) /\ plain (smul 1 (smul 1 Htab)).
Proof. split; [exact specZk_std|]. split; [discriminate|]. destruct plain_3 as (A & _ & B). split; [exact A|exact B]. Qed.
Example C35_right_nonvacuous : exists v r sk ub uc, sk mod N <> 0 /\ v mod N <> 0 /\ plain (ped v r) /\
  plain (smul r (smul sk Htab)) /\ plain (ped (ninv v) ub) /\ plain (ped 1 uc) /\ plain (smul uc Htab).
Proof.
  exists 1, 0, 1, 0, 0. split; [discriminate|]. split; [discriminate|].
  assert (E : ped 1 0 = G) by (unfold ped; rewrite smul_0, smul_1; apply padd_O_r). rewrite !smul_0.
  replace (ninv 1) with 1 by (vm_compute; reflexivity). rewrite E. repeat split; try apply plain_O; apply plain_G.
Qed.

(** C36: an accepted ABC proof contains an accepted disjunctive proof that
    CMTok = sk*CM or C = G + u*H' (to which C33 applies) ... *)
Theorem C36_abc_disjunctive : forall sha zk CM CMTok B C T1 T2 c j k l tok dj, std zk ->
  is_point CM -> is_point CMTok -> is_point B -> is_point C -> is_point T1 -> is_point T2 ->
  accepts (ABCVerify sha (Some (MkABC (pt B) (pt C) (pt T1) (pt T2) (Some c) (Some j) (Some k) (Some l) tok dj)) zk (pt CM) (pt CMTok)) ->
  accepts (DisjunctiveVerify sha dj zk (pt CM) (pt CMTok) (pt Hgen) (pt (padd C (pneg G)))).
Proof.
  intros sha zk CM CT B C T1 T2 c j k l tok dj S H1 H2 H3 H4 H5 H6 A. apply (abc_verify sha zk S) in A; try assumption.
  destruct A as [[b E] _]. unfold accepts. rewrite E. apply disj_verdict in E. rewrite E. reflexivity.
Qed.
Print Assumptions C36_abc_disjunctive.
(** ... and three of them with the same commitments and different challenges give a
    with CM = a*G + k*CMTok and C = a*B + l*H', the latter up to sign. *)
Theorem C36_abc_sound : forall zk CM CMTok B C T1 T2 sha1 c1 j1 k1 l1 t1 d1 sha2 c2 j2 k2 l2 t2 d2 sha3 c3 j3 k3 l3 t3 d3, std zk ->
  is_point CM -> is_point CMTok -> is_point B -> is_point C -> is_point T1 -> is_point T2 ->
  plain CM -> plain CMTok -> plain B -> plain C ->
  c1 mod N <> c2 mod N -> c1 mod N <> c3 mod N -> c2 mod N <> c3 mod N ->
  accepts (ABCVerify sha1 (Some (MkABC (pt B) (pt C) (pt T1) (pt T2) (Some c1) (Some j1) (Some k1) (Some l1) t1 d1)) zk (pt CM) (pt CMTok)) ->
  accepts (ABCVerify sha2 (Some (MkABC (pt B) (pt C) (pt T1) (pt T2) (Some c2) (Some j2) (Some k2) (Some l2) t2 d2)) zk (pt CM) (pt CMTok)) ->
  accepts (ABCVerify sha3 (Some (MkABC (pt B) (pt C) (pt T1) (pt T2) (Some c3) (Some j3) (Some k3) (Some l3) t3 d3)) zk (pt CM) (pt CMTok)) ->
  exists e f c j k l c' j' k' l', sgn e /\ sgn f /\
    In ((c, j, k, l), (c', j', k', l'))
       [((c1, j1, k1, l1), (c2, j2, k2, l2)); ((c1, j1, k1, l1), (c3, j3, k3, l3)); ((c2, j2, k2, l2), (c3, j3, k3, l3))] /\
    let a := slope e f j c j' c' in let kk := slope e f k c k' c' in let ll := slope e f l c l' c' in
    CM = padd (smul a G) (smul kk CMTok) /\
    (C = padd (smul a B) (smul ll Htab) \/ C = pneg (padd (smul a B) (smul ll Htab))).
Proof.
  intros zk CM CT B C T1 T2 sha1 c1 j1 k1 l1 t1 d1 sha2 c2 j2 k2 l2 t2 d2 sha3 c3 j3 k3 l3 t3 d3 S H1 H2 H3 H4 H5 H6 P1 P2 P3 P4 D12 D13 D23 A1 A2 A3.
  apply (abc_verify sha1 zk S) in A1; try assumption. apply (abc_verify sha2 zk S) in A2; try assumption.
  apply (abc_verify sha3 zk S) in A3; try assumption. rewrite (eff_plain CM), (eff_plain CT), (eff_plain B), (eff_plain C) in A1, A2, A3 by assumption.
  destruct A1 as (_ & _ & A1), A2 as (_ & _ & A2), A3 as (_ & _ & A3).
  apply (abc_extract CM CT B C T1 T2); try assumption.
  intros c j k l [E|[E|[E|[]]]]; injection E as <- <- <- <-; assumption.
Qed.
Print Assumptions C36_abc_sound.
(** In terms of openings: if B opens to b then C opens to a*b, up to sign. *)
Theorem C36_product : forall a ll b rb C, (C = padd (smul a (ped b rb)) (smul ll Htab) \/ C = pneg (padd (smul a (ped b rb)) (smul ll Htab))) ->
  pm (ped (a * b) (a * rb + ll)) C.
Proof.
  intros a ll b rb C H. assert (E : padd (smul a (ped b rb)) (smul ll Htab) = ped (a * b) (a * rb + ll)).
  { rewrite smul_ped. unfold ped. destruct (ZkBase.dlog Htab is_point_Htab) as [h EH]. rewrite EH. gpush. apply smul_G_eq. nzpush. ring. }
  rewrite E in H. exact H.
Qed.
Print Assumptions C36_product.
(** every challenge value is reached by accepted proofs, with the same commitments *)
Example C36_nonvacuous : exists B C T1 T2, is_point B /\ is_point C /\ is_point T1 /\ is_point T2 /\ plain B /\ plain C /\
  forall c, scalar c -> exists j k l tok dj,
  accepts (ABCVerify (shaC c) (Some (MkABC (pt B) (pt C) (pt T1) (pt T2) (Some c) (Some j) (Some k) (Some l) tok dj)) specZk (pt Htab) (pt Htab)).
Proof.
  destruct plain_3 as (Q1 & Q2 & Q3).
  exists (ped 0 1), (ped 0 1), (padd (smul 2 G) (smul 3 (eff (smul 1 (smul 1 Htab))))), (padd (smul 2 (eff (ped 0 1))) (smul 5 Htab)).
  do 4 (split; [isp|]). do 2 (split; [exact Q1|]). intros c Hc.
  assert (N1 : 1 mod N <> 0) by discriminate.
  destruct (C35_abc_complete_left (shaC c) specZk 1 1 2 3 5 1 1 4 4 4 specZk_std N1 Q1 Q3 Q1 Q1) as (pf & E & A).
  fold (abcRn 2 3 5 1 1 (Some 4) (Some 4) (Some 4)) in E. rewrite (abc_left (shaC c) specZk specZk_std) in E by isp.
  destruct (NewDisjunctiveProof _ _ _ _ _ _ _ _ _ _ _) as [[d [er|]]|]; try discriminate E. cbn [abcDisj bind snd fst] in E.
  replace (1 mod N =? 0) with false in E by reflexivity. apply Ok_inj in E.
  assert (E' : pf = abcOut (shaC c) (ped 0 1) (smul 1 (smul 1 Htab)) 0 1 2 3 5 1 1 (ped 0 1) (ped 0 1) (abcTok 1 1) d) by congruence.
  rewrite E' in A. unfold abcOut in A. rewrite fs_shaC in A by exact Hc.
  eexists. eexists. eexists. eexists. eexists.
  replace (pt (ped 0 1)) with (pt Htab) in A at 5 by (rewrite ped_0_1; reflexivity).
  replace (pt (smul 1 (smul 1 Htab))) with (pt Htab) in A by (rewrite !smul_1; reflexivity).
  exact A.
Qed.

(** C37 (refuted): the response l is not reduced modulo N, so that it shows
    uc - v*ub, up to 1, whenever the challenge exceeds N/2 ... *)
Theorem C37_l_leaks_refuted : forall sha zk CM CMTok v sk side u1 u2 u3 ub uc d1 d2 d3 B C T1 T2 c j k l tok dj, std zk ->
  is_point CM -> is_point CMTok -> scalar u3 ->
  NewABCProof sha zk (pt CM) (pt CMTok) (Some v) (Some sk) side
    (Build_abcRand (Some u1) (Some u2) (Some u3) (Some ub) (Some uc) d1 d2 d3) =
    Ok (Some (MkABC B C T1 T2 (Some c) (Some j) (Some k) (Some l) tok dj), None) ->
  N < 2 * c -> uc - v * ub = l / c \/ uc - v * ub = l / c - 1.
Proof.
  intros sha zk CM CT v sk side u1 u2 u3 ub uc d1 d2 d3 B C T1 T2 c j k l tok dj S H1 H2 U3 E D.
  fold (abcRn u1 u2 u3 ub uc d1 d2 d3) in E.
  assert (Q : l = u3 + (uc - v * ub) * c).
  { destruct (Z.eq_dec side Left) as [->|NL].
    - destruct (Z.eq_dec v 0) as [->|V].
      + rewrite (abc_left sha zk S) in E by assumption.
        destruct (NewDisjunctiveProof _ _ _ _ _ _ _ _ _ _ _) as [[d [er|]]|]; try discriminate E. cbn [abcDisj bind snd fst] in E.
        destruct (sk mod N =? 0); [discriminate E|]. apply Ok_inj in E. unfold abcOut in E. congruence.
      + exfalso. unfold NewABCProof, abcRn in E. cbn [ar1 ar2 ar3 arb arc] in E. revert E. zk S.
        change ((Left =? Left) || (Left =? Right)) with true. cbv iota. cbn [need bind]. apply Z.eqb_neq in V. rewrite V.
        change (Left =? Left) with true. change (Left =? Right) with false. cbn [andb]. discriminate.
    - destruct (Z.eq_dec side Right) as [->|NR].
      + destruct (Z.eq_dec v 0) as [->|V].
        * exfalso. unfold NewABCProof, abcRn in E. cbn [ar1 ar2 ar3 arb arc] in E. revert E. zk S.
          change ((Right =? Left) || (Right =? Right)) with true. cbv iota. cbn [need bind].
          change (Right =? Left) with false. change (0 =? 0) with true. cbn [andb negb]. rewrite andb_false_r. discriminate.
        * destruct (Z.eq_dec (v mod N) 0) as [VN|VN].
          { rewrite (abc_right_panic sha zk S) in E by assumption. discriminate E. }
          rewrite (abc_right sha zk S) in E by assumption.
          destruct (NewDisjunctiveProof _ _ _ _ _ _ _ _ _ _ _) as [[d [er|]]|]; try discriminate E. cbn [abcDisj bind snd fst] in E.
          destruct (sk mod N =? 0); [discriminate E|]. apply Ok_inj in E. unfold abcOut in E. congruence.
      + exfalso. unfold NewABCProof, abcRn in E. cbn [ar1 ar2 ar3 arb arc] in E. revert E. zk S.
        apply Z.eqb_neq in NL, NR. rewrite NL, NR. cbn [orb andb bind]. discriminate. }
  rewrite Q. apply leak_bound'; assumption.
Qed.
Print Assumptions C37_l_leaks_refuted.
(** ... and the CToken field is not covered by any check. *)
Theorem C37_token_unchecked_refuted : forall sha zk CM CMTok B C T1 T2 c j k l tok tok' dj,
  ABCVerify sha (Some (MkABC B C T1 T2 c j k l tok dj)) zk CM CMTok =
  ABCVerify sha (Some (MkABC B C T1 T2 c j k l tok' dj)) zk CM CMTok.
Proof. reflexivity. Qed.
Print Assumptions C37_token_unchecked_refuted.
Example C37_nonvacuous : exists B C T1 T2 j k l tok dj,
  NewABCProof (shaC (N - 1)) specZk (pt (ped 0 1)) (pt (smul 1 (smul 1 Htab))) (Some 0) (Some 1) Left
    (Build_abcRand (Some 2) (Some 3) (Some 5) (Some 1) (Some 1) (Some 4) (Some 4) (Some 4)) =
    Ok (Some (MkABC B C T1 T2 (Some (N - 1)) (Some j) (Some k) (Some l) tok dj), None) /\ N < 2 * (N - 1).
Proof.
  destruct plain_3 as (Q1 & Q2 & Q3). assert (N1 : 1 mod N <> 0) by discriminate.
  destruct (C35_abc_complete_left (shaC (N - 1)) specZk 1 1 2 3 5 1 1 4 4 4 specZk_std N1 Q1 Q3 Q1 Q1) as (pf & E & _).
  fold (abcRn 2 3 5 1 1 (Some 4) (Some 4) (Some 4)) in *. pose proof E as E0. rewrite (abc_left _ specZk specZk_std) in E by isp.
  destruct (NewDisjunctiveProof _ _ _ _ _ _ _ _ _ _ _) as [[d [er|]]|]; try discriminate E. cbn [abcDisj bind snd fst] in E.
  replace (1 mod N =? 0) with false in E by reflexivity. apply Ok_inj in E. unfold abcOut in E.
  rewrite fs_shaC in E by (split; [discriminate|reflexivity]).
  assert (K : forall a b : ABCProof, (Some a, @None goerr) = (Some b, None) -> b = a) by congruence. apply K in E.
  rewrite E in E0. do 9 eexists. split; [exact E0|reflexivity].
Qed.

(** C38: commitments A = a*G + ra*H', B = b*G + rb*H' with tokens under one key. *)
Theorem C38_inequality_complete : forall sha zk a ra b rb sk u1 u2 u3 ub uc d1 d2 d3, std zk -> sk mod N <> 0 -> a mod N <> b mod N ->
  let A := ped a ra in let B := ped b rb in let TA := smul ra (smul sk Htab) in let TB := smul rb (smul sk Htab) in
  let CM := padd A (pneg B) in let CMTok := padd TA (pneg TB) in
  plain CM -> plain CMTok -> plain (ped (ninv (a - b)) ub) -> plain (ped 1 uc) -> plain (smul uc Htab) ->
  exists pf, NewInequalityProof sha zk (pt A) (pt B) (pt TA) (pt TB) (Some a) (Some b) (Some sk)
               (Build_abcRand (Some u1) (Some u2) (Some u3) (Some ub) (Some uc) (Some d1) (Some d2) (Some d3)) = Ok (Some pf, None) /\
             accepts (InequalityVerify sha (Some pf) zk (pt CM) (pt CMTok)).
Proof.
  intros sha zk a ra b rb sk u1 u2 u3 ub uc d1 d2 d3 S Hs Hab A B TA TB CM CT P1 P2 P3 P4 P5.
  assert (EM : CM = ped (a - b) (ra - rb)).
  { unfold CM, A, B. rewrite ped_neg, ped_add. f_equal; lia. }
  assert (ET : CT = smul (ra - rb) (smul sk Htab)).
  { unfold CT, TA, TB. destruct (ZkBase.dlog Htab is_point_Htab) as [h EH]. rewrite EH. gpush. apply smul_G_eq. nzpush. ring. }
  unfold NewInequalityProof. cbn [need bind]. destruct (Z.eqb_spec a b) as [E|_]; [exfalso; apply Hab; rewrite E; reflexivity|].
  rewrite (Sub_ok zk S) by (unfold A, B; isp). cbn [bind]. rewrite (Sub_ok zk S) by (unfold TA, TB; isp). cbn [bind].
  fold CM CT. rewrite EM in P1. rewrite ET in P2. rewrite EM, ET.
  destruct (C35_abc_complete_right sha zk (a - b) (ra - rb) sk u1 u2 u3 ub uc d1 d2 d3 S Hs (diff_nz _ _ Hab) P1 P2 P3 P4 P5) as (pf & E & V).
  rewrite E. cbn [bind snd fst]. exists pf. split; [reflexivity|exact V].
Qed.
Print Assumptions C38_inequality_complete.
Example C38_nonvacuous : 5 mod N <> 4 mod N /\ plain (padd (ped 5 3) (pneg (ped 4 3))) /\ plain (padd (smul 3 (smul 1 Htab)) (pneg (smul 3 (smul 1 Htab)))).
Proof.
  split; [discriminate|]. split.
  - apply (ped_sub_at 5 3 4 3 1 0); [reflexivity|reflexivity|]. rewrite ped_1_0. exact plain_G.
  - apply (tok_sub_at 3 3 (smul 1 Htab) 0); [isp|reflexivity|]. rewrite smul_0. exact plain_O.
Qed.

(** C39 (refuted): for two commitments to the same value there is an accepted
    inequality proof, for every randomness, key and hash function. *)
Theorem C39_equal_values_accepted_refuted : forall sha zk a ra rb sk, std zk -> sk mod N <> 0 ->
  let A := ped a ra in let B := ped a rb in let TA := smul ra (smul sk Htab) in let TB := smul rb (smul sk Htab) in
  let CM := padd A (pneg B) in let CMTok := padd TA (pneg TB) in
  plain CM -> plain CMTok ->
  exists pf, accepts (InequalityVerify sha (Some pf) zk (pt CM) (pt CMTok)).
Proof.
  intros sha zk a ra rb sk S Hs A B TA TB CM CT P1 P2.
  assert (EM : CM = ped 0 (ra - rb)).
  { unfold CM, A, B. rewrite ped_neg, ped_add. f_equal; lia. }
  assert (ET : CT = smul (ra - rb) (smul sk Htab)).
  { unfold CT, TA, TB. destruct (ZkBase.dlog Htab is_point_Htab) as [h EH]. rewrite EH. gpush. apply smul_G_eq. nzpush. ring. }
  rewrite EM in P1. rewrite ET in P2. rewrite EM, ET. destruct plain_3 as (Q & _).
  destruct (C35_abc_complete_left sha zk (ra - rb) sk 1 1 1 1 1 1 1 1 S Hs P1 P2 Q Q) as (pf & _ & V).
  exists pf. exact V.
Qed.
Print Assumptions C39_equal_values_accepted_refuted.
Example C39_nonvacuous : plain (padd (ped 5 3) (pneg (ped 5 2))) /\ plain (padd (smul 3 (smul 1 Htab)) (pneg (smul 2 (smul 1 Htab)))).
Proof.
  destruct plain_3 as (Q & _ & Q3). split.
  - exact (ped_sub_at 5 3 5 2 0 1 eq_refl eq_refl Q).
  - apply (tok_sub_at 3 2 (smul 1 Htab) 1); [isp|reflexivity|exact Q3].
Qed.

(** C40 (refuted): the provers crash on values congruent modulo N ... *)
Theorem C40_inequality_crash_refuted : forall sha zk A B TA TB a k sk u1 u2 u3 ub uc d1 d2 d3, std zk ->
  is_point A -> is_point B -> is_point TA -> is_point TB -> k <> 0 ->
  NewInequalityProof sha zk (pt A) (pt B) (pt TA) (pt TB) (Some (a + k * N)) (Some a) (Some sk)
    (Build_abcRand (Some u1) (Some u2) (Some u3) (Some ub) (Some uc) d1 d2 d3) = Panic.
Proof.
  intros sha zk A B TA TB a k sk u1 u2 u3 ub uc d1 d2 d3 S H1 H2 H3 H4 K. unfold NewInequalityProof. cbn [need bind].
  assert (KN : k * N <> 0) by (intros E; apply Z.mul_eq_0 in E; destruct E; [contradiction|discriminate]).
  destruct (Z.eqb_spec (a + k * N) a) as [E|_]; [exfalso; lia|]. zk S. replace (a + k * N - a) with (k * N) by lia.
  fold (abcRn u1 u2 u3 ub uc d1 d2 d3). rewrite (abc_right_panic sha zk S); [reflexivity|exact KN|apply Z.mod_mul; discriminate].
Qed.
Print Assumptions C40_inequality_crash_refuted.
(** ... and on secret keys that are 0 modulo N. *)
Theorem C40_zero_key_crash_refuted : forall sha zk CM CMTok v sk u1 u2 u3 ub uc d1 d2 d3, std zk ->
  is_point CM -> is_point CMTok -> v <> 0 -> sk mod N = 0 ->
  NewABCProof sha zk (pt CM) (pt CMTok) (Some v) (Some sk) Right
    (Build_abcRand (Some u1) (Some u2) (Some u3) (Some ub) (Some uc) (Some d1) (Some d2) (Some d3)) = Panic.
Proof.
  intros sha zk CM CT v sk u1 u2 u3 ub uc d1 d2 d3 S H1 H2 V K. fold (abcRn u1 u2 u3 ub uc (Some d1) (Some d2) (Some d3)).
  destruct (Z.eq_dec (v mod N) 0) as [VN|VN]; [apply (abc_right_panic sha zk S); assumption|].
  rewrite (abc_right sha zk S) by assumption. rewrite (disj_prove_right sha zk S) by isp.
  rewrite ped_sub_G, eff_Hgen, xeq_refl. cbn [abcDisj bind snd]. rewrite K. reflexivity.
Qed.
Print Assumptions C40_zero_key_crash_refuted.
Example C40_nonvacuous : std specZk /\ is_point G /\ is_point Htab /\ N mod N = 0.
Proof. split; [exact specZk_std|]. split; [isp|]. split; [isp|reflexivity]. Qed.

(** C26 for these provers: a side that does not fit the value, or no valid side; on the
    left also a token that does not fit the key; equal values. *)
Theorem C26_abc_rejects : forall sha zk CM CMTok v sk side u1 u2 u3 ub uc d1 d2 d3, std zk ->
  is_point CM -> is_point CMTok ->
  (side = Left /\ v <> 0) \/ (side = Right /\ v = 0) \/ (side <> Left /\ side <> Right) \/
  (side = Left /\ ~ pm (smul sk (eff CM)) CMTok) ->
  NewABCProof sha zk (pt CM) (pt CMTok) (Some v) (Some sk) side
    (Build_abcRand (Some u1) (Some u2) (Some u3) (Some ub) (Some uc) d1 d2 d3) = Ok (Some emptyABC, Some EProof).
Proof.
  intros sha zk CM CT v sk side u1 u2 u3 ub uc d1 d2 d3 S H1 H2 K.
  assert (L : v <> 0 -> NewABCProof sha zk (pt CM) (pt CT) (Some v) (Some sk) Left
    (Build_abcRand (Some u1) (Some u2) (Some u3) (Some ub) (Some uc) d1 d2 d3) = Ok (Some emptyABC, Some EProof)).
  { intros V. unfold NewABCProof. cbn [ar1 ar2 ar3 arb arc]. zk S. apply Z.eqb_neq in V.
    change ((Left =? Left) || (Left =? Right)) with true. cbv iota. cbn [need bind]. rewrite V. reflexivity. }
  destruct K as [[-> V]|[[-> ->]|[[NL NR]|[-> K]]]].
  - apply L. exact V.
  - unfold NewABCProof. cbn [ar1 ar2 ar3 arb arc]. zk S. reflexivity.
  - unfold NewABCProof. cbn [ar1 ar2 ar3 arb arc]. zk S. apply Z.eqb_neq in NL, NR. rewrite NL, NR. reflexivity.
  - destruct (Z.eq_dec v 0) as [->|V]; [|apply L; exact V]. fold (abcRn u1 u2 u3 ub uc d1 d2 d3). rewrite (abc_left sha zk S) by assumption.
    rewrite (disj_prove_left sha zk S) by isp. apply x_eq_false in K; try isp. rewrite K. reflexivity.
Qed.
Print Assumptions C26_abc_rejects.
Theorem C26_inequality_rejects : forall sha zk A B TA TB a sk rn,
  NewInequalityProof sha zk A B TA TB (Some a) (Some a) sk rn = Ok (None, Some EProof).
Proof. intros. unfold NewInequalityProof. cbn [need bind]. rewrite Z.eqb_refl. reflexivity. Qed.
Print Assumptions C26_inequality_rejects.
(** On the right the prover never looks at CM: it makes a proof for any commitment. *)
Theorem C26_abc_right_unchecked_refuted : forall sha zk CM CMTok v sk u1 u2 u3 ub uc d1 d2 d3, std zk ->
  is_point CM -> is_point CMTok -> v mod N <> 0 -> sk mod N <> 0 ->
  exists pf, NewABCProof sha zk (pt CM) (pt CMTok) (Some v) (Some sk) Right
    (Build_abcRand (Some u1) (Some u2) (Some u3) (Some ub) (Some uc) (Some d1) (Some d2) (Some d3)) = Ok (Some pf, None).
Proof.
  intros sha zk CM CT v sk u1 u2 u3 ub uc d1 d2 d3 S H1 H2 V K. fold (abcRn u1 u2 u3 ub uc (Some d1) (Some d2) (Some d3)).
  rewrite (abc_right sha zk S) by assumption. rewrite (disj_prove_right sha zk S) by isp.
  rewrite ped_sub_G, eff_Hgen, xeq_refl. cbn [abcDisj bind snd]. apply Z.eqb_neq in K. rewrite K. eexists. reflexivity.
Qed.
Print Assumptions C26_abc_right_unchecked_refuted.
Example C26_abc_nonvacuous : ~ pm (smul 2 (eff G)) G /\ 2 <> Left /\ 2 <> Right /\ 1 mod N <> 0.
Proof.
  split; [|split; [discriminate|split; discriminate]].
  rewrite eff_G. intros [E|E]; rewrite <- ?smul_opp in E by isp; rewrite <- (smul_1 G) in E at 1; apply smul_G_inj in E; discriminate E.
Qed.

(** C47 for this proof (refuted). *)
Theorem C47_abc_malleable_refuted : forall sha zk CM CMTok B C T1 T2 c j k l tok dj x y z, cN (zC zk) = N ->
  ABCVerify sha (Some (MkABC B C T1 T2 c (Some (j + x * N)) (Some (k + y * N)) (Some (l + z * N)) tok dj)) zk CM CMTok =
  ABCVerify sha (Some (MkABC B C T1 T2 c (Some j) (Some k) (Some l) tok dj)) zk CM CMTok.
Proof.
  intros sha zk CM CT B C T1 T2 c j k l tok dj x y z E. unfold ABCVerify. cbn [need bind abB abC abT1 abT2 abChallenge abj abk abl abDisj].
  rewrite !(Mult_addN zk _ _ _ E). reflexivity.
Qed.
Print Assumptions C47_abc_malleable_refuted.
Example C47_abc_nonvacuous : cN (zC specZk) = N /\ 5 + 1 * N <> 5. Proof. split; [reflexivity|discriminate]. Qed.
