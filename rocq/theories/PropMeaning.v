(** * Property C67: what an accepted ABC proof says about the committed value *)
From Coq Require Import ZArith List Lia Bool.
From Verif Require Import Go Wire Big Crypto Spec CurveGroup Order FieldN CurveZ SpecZk ZkBase PointProofs GspfsProofs Gspfs Consistency
  EqConsProofs PropEqCons Disjunctive DisjProofs PropDisj Abc AbcProofs PropAbc RangeProofs SpecMeaning MeaningProofs.
Import ListNotations.
Open Scope Z_scope.

(** C67: let CM commit to v with blinding r and let CMTok be its token under the key
    PK = sk*H', with r and sk not 0 (the consistency proof, C30, shows that the prover
    knows such v and r).  From three accepted ABC proofs with the same first messages
    and different challenges, of which two carry disjunctive proofs with the same
    first messages and different challenges, one computes
    - that v = 0 and a number w with C = 0*G + w*H', or
    - that v <> 0 and a number w with C = 1*G + w*H', or
    - the logarithm of H', which nobody is supposed to know. *)
Theorem C67_abc_meaning : forall zk v r sk B C T1 T2 D1 D2
    sha1 c1 j1 k1 l1 t1 e1 p1 q1 x1 y1 sha2 c2 j2 k2 l2 t2 e2 p2 q2 x2 y2 sha3 c3 j3 k3 l3 t3 d3, std zk ->
  r mod N <> 0 -> sk mod N <> 0 ->
  let CM := ped v r in let CMTok := smul r (smul sk Htab) in
  is_point B -> is_point C -> is_point T1 -> is_point T2 -> is_point D1 -> is_point D2 ->
  plain CM -> plain CMTok -> plain B -> plain C -> plain (padd C (pneg G)) ->
  c1 mod N <> c2 mod N -> c1 mod N <> c3 mod N -> c2 mod N <> c3 mod N -> e1 <> e2 ->
  let dj1 := Some (MkDisj (pt D1) (pt D2) (Some e1) (Some p1) (Some q1) (Some x1) (Some y1)) in
  let dj2 := Some (MkDisj (pt D1) (pt D2) (Some e2) (Some p2) (Some q2) (Some x2) (Some y2)) in
  accepts (ABCVerify sha1 (Some (MkABC (pt B) (pt C) (pt T1) (pt T2) (Some c1) (Some j1) (Some k1) (Some l1) t1 dj1)) zk (pt CM) (pt CMTok)) ->
  accepts (ABCVerify sha2 (Some (MkABC (pt B) (pt C) (pt T1) (pt T2) (Some c2) (Some j2) (Some k2) (Some l2) t2 dj2)) zk (pt CM) (pt CMTok)) ->
  accepts (ABCVerify sha3 (Some (MkABC (pt B) (pt C) (pt T1) (pt T2) (Some c3) (Some j3) (Some k3) (Some l3) t3 d3)) zk (pt CM) (pt CMTok)) ->
  let js := [(c1, j1); (c2, j2); (c3, j3)] in let ks := [(c1, k1); (c2, k2); (c3, k3)] in let ls := [(c1, l1); (c2, l2); (c3, l3)] in
  let xs := [(p1, x1); (p2, x2)] in let ys := [(q1, y1); (q2, y2)] in
  (exists w, slopeOf ls w /\ v mod N = 0 /\ C = ped 0 w) \/
  (exists w, slopeOf ys w /\ v mod N <> 0 /\ C = ped 1 w) \/
  (exists x, slopeOf xs x /\ Htab = smul (quot (x * v) (r * sk - x * r)) G) \/
  (exists a k, slopeOf js a /\ slopeOf ks k /\ Htab = smul (quot (a - v) (r - k * (r * sk))) G) \/
  (exists w u, slopeOf ls w /\ slopeOf ys u /\ Htab = smul (quot 1 (w - u)) G).
Proof.
  intros zk v r sk B C T1 T2 D1 D2 sha1 c1 j1 k1 l1 t1 e1 p1 q1 x1 y1 sha2 c2 j2 k2 l2 t2 e2 p2 q2 x2 y2 sha3 c3 j3 k3 l3 t3 d3 S Hr Hs CM CT
    HB HC HT1 HT2 HD1 HD2 PM PT PB PC PR N12 N13 N23 Ne dj1 dj2 A1 A2 A3 js ks ls xs ys.
  assert (HM : is_point CM) by (unfold CM; isp). assert (HT : is_point CT) by (unfold CT; isp).
  pose proof (C36_abc_disjunctive _ _ _ _ _ _ _ _ _ _ _ _ _ _ S HM HT HB HC HT1 HT2 A1) as F1.
  pose proof (C36_abc_disjunctive _ _ _ _ _ _ _ _ _ _ _ _ _ _ S HM HT HB HC HT1 HT2 A2) as F2.
  pose proof (C36_abc_sound zk CM CT B C T1 T2 sha1 c1 j1 k1 l1 t1 dj1 sha2 c2 j2 k2 l2 t2 dj2 sha3 c3 j3 k3 l3 t3 d3 S
    HM HT HB HC HT1 HT2 PM PT PB PC N12 N13 N23 A1 A2 A3) as (e & f & c & j & k & l & c' & j' & k' & l' & He & Hf & IN & M1 & M2).
  assert (HR : is_point (padd C (pneg G))) by isp.
  destruct (C33_disjunctive_sound zk CM CT Hgen (padd C (pneg G)) D1 D2 sha1 e1 p1 q1 x1 y1 sha2 e2 p2 q2 x2 y2 S
    HM HT is_point_Hgen HR HD1 HD2 PT PR Ne F1 F2) as (e' & f' & He' & Hf' & DJ).
  set (a := slope e f j c j' c') in *. set (kk := slope e f k c k' c') in *. set (ll := slope e f l c l' c') in *.
  assert (SA : slopeOf js a /\ slopeOf ks kk /\ slopeOf ls ll).
  { destruct IN as [IN|[IN|[IN|[]]]]; injection IN as -> -> -> -> -> -> -> ->;
      unfold a, kk, ll, js, ks, ls; (split; [|split]); apply slopeOf_in; try assumption; cbn [In]; tauto. }
  destruct SA as (SJ & SK & SL). unfold CM, CT in M1.
  destruct (mean_a v r sk a kk M1) as [EA|LA]; [|right; right; right; left; exists a, kk; split; [exact SJ|split; [exact SK|exact LA]]].
  assert (W : v mod N = 0 -> exists w, slopeOf ls w /\ C = smul w Htab).
  { intros V. rewrite V in EA. destruct (pm_zero B C a ll HB HC EA M2) as [Q|Q]; [exists ll; split; assumption|].
    destruct (slopeOf_neg _ _ SL) as (y & Sy & Ey). exists y. split; [exact Sy|]. rewrite Q.
    rewrite <- (smul_mod (- ll)), <- (smul_mod y), Ey by isp. reflexivity. }
  destruct DJ as [[Dp DL]|[Dq DR]].
  - rewrite eff_plain in DL by assumption. unfold CM, CT in DL.
    assert (SX : slopeOf xs (slope e' f' x1 p1 x2 p2)).
    { unfold xs. apply slopeOf_in; try assumption; cbn [In]; tauto. }
    destruct (mean_left v r sk _ Hr Hs DL) as [V|L]; [|right; right; left; eexists; split; [exact SX|exact L]].
    left. destruct (W V) as (w & Sw & Ew). exists w. split; [exact Sw|]. split; [exact V|]. rewrite Ew. unfold ped. rewrite smul_0, padd_O_l. reflexivity.
  - rewrite eff_Hgen in DR.
    assert (SY : slopeOf ys (slope e' f' y1 q1 y2 q2)).
    { unfold ys. apply slopeOf_in; try assumption; cbn [In]; tauto. }
    destruct (Z.eq_dec (v mod N) 0) as [V|V].
    + destruct (W V) as (w & Sw & Ew). destruct (mean_right w _ C DR HC) as [_ K].
      right; right; right; right. exists w. eexists. split; [exact Sw|]. split; [exact SY|]. exact (K Ew).
    + destruct (mean_right 0 _ C DR HC) as [K _]. right; left. eexists. split; [exact SY|]. split; [exact V|exact K].
Qed.
Print Assumptions C67_abc_meaning.

(** Both conditions are needed.  Without the consistency proof the prover itself makes
    an accepted proof of "the value is 0" for any commitment, with a token they choose ... *)
Theorem C67_token_refuted : forall sha zk v r x u1 u2 u3 ub uc d1 d2 d3, std zk -> x mod N <> 0 ->
  plain (ped v r) -> plain (smul x (ped v r)) -> plain (ped 0 ub) -> plain (ped 0 uc) ->
  exists pf, NewABCProof sha zk (pt (ped v r)) (pt (smul x (ped v r))) (Some 0) (Some x) Left
               (Build_abcRand (Some u1) (Some u2) (Some u3) (Some ub) (Some uc) (Some d1) (Some d2) (Some d3)) = Ok (Some pf, None) /\
             abC pf = pt (ped 0 uc) /\ accepts (ABCVerify sha (Some pf) zk (pt (ped v r)) (pt (smul x (ped v r)))).
Proof. intros. apply mean_token; try assumption. isp. Qed.
Print Assumptions C67_token_refuted.
(** ... and with blinding 0 an accepted proof that the value is 0 exists for every
    value v and every key, next to an accepted consistency proof. *)
Theorem C67_unblinded_refuted : forall sha zk v PK, std zk -> is_point PK -> plain (ped v 0) ->
  exists pf cp, accepts (ConsistencyVerify sha (Some cp) zk (pt (ped v 0)) (pt (smul 0 (eff PK))) (pt PK)) /\
    abC pf = pt (ped 0 1) /\ accepts (ABCVerify sha (Some pf) zk (pt (ped v 0)) (pt (smul 0 (eff PK)))).
Proof.
  intros sha zk v PK S HP PM. destruct (mean_unblinded sha zk v S PM) as (pf & E & A).
  destruct (C29_consistency_complete sha zk PK v 0 1 1 S HP PM) as (cp & _ & F); [rewrite smul_0; exact plain_O|].
  exists pf, cp. split; [exact F|]. split; [exact E|]. rewrite smul_0. exact A.
Qed.
Print Assumptions C67_unblinded_refuted.
Example C67_refuted_nonvacuous : std specZk /\ 5 mod N <> 0 /\ is_point Htab /\ plain (ped 5 0) /\ plain (smul 1 (ped 5 0)) /\ plain (ped 0 1).
Proof.
  assert (P : plain (ped 5 0)) by (unfold ped; rewrite smul_0, padd_O_r; apply plain_small; lia).
  split; [exact specZk_std|]. split; [discriminate|]. split; [isp|]. split; [exact P|]. split; [rewrite smul_1; exact P|]. exact (proj1 plain_3).
Qed.
(** v = 0, r = sk = 1: every challenge is answered by an accepted proof with the same
    first messages, so that three transcripts as in C67_abc_meaning exist *)
Example C67_nonvacuous : exists B C T1 T2 D1 D2, is_point B /\ is_point C /\ is_point T1 /\ is_point T2 /\ is_point D1 /\ is_point D2 /\
  plain (ped 0 1) /\ plain (smul 1 (smul 1 Htab)) /\ plain B /\ plain C /\ plain (padd C (pneg G)) /\
  forall c, scalar c -> exists j k l t p q x y,
    accepts (ABCVerify (shaC c) (Some (MkABC (pt B) (pt C) (pt T1) (pt T2) (Some c) (Some j) (Some k) (Some l) t
      (Some (MkDisj (pt D1) (pt D2) (Some c) (Some p) (Some q) (Some x) (Some y))))) specZk (pt (ped 0 1)) (pt (smul 1 (smul 1 Htab)))).
Proof.
  destruct plain_3 as (Q1 & Q2 & Q3). destruct pick_plain as (uc & PC & PR).
  assert (EC : ped 0 uc = smul uc Htab) by (unfold ped; rewrite smul_0, padd_O_l; reflexivity). rewrite <- EC in PC, PR. clear EC.
  assert (N1 : 1 mod N <> 0) by discriminate.
  exists (ped 0 1), (ped 0 uc), (padd (smul 2 G) (smul 3 (eff (smul 1 (smul 1 Htab))))), (padd (smul 2 (eff (ped 0 1))) (smul 5 Htab)),
    (smul 4 (eff (ped 0 1))), (padd (smul 4 (eff Hgen)) (smul ((- 4) mod N) (eff (padd (ped 0 uc) (pneg G))))).
  do 6 (split; [isp|]). do 2 (split; [assumption|]). split; [exact Q1|]. do 2 (split; [assumption|]). intros c Hc.
  destruct (C35_abc_complete_left (shaC c) specZk 1 1 2 3 5 1 uc 4 4 4 specZk_std N1 Q1 Q3 Q1 PC) as (pf & E & A).
  fold (abcRn 2 3 5 1 uc (Some 4) (Some 4) (Some 4)) in E. rewrite (abc_left (shaC c) specZk specZk_std) in E by isp.
  rewrite (disj_prove_left (shaC c) specZk specZk_std) in E by isp.
  destruct (_ =? _) in E; [|discriminate E]. cbv zeta in E. rewrite fs_shaC in E by exact Hc. cbn [abcDisj bind snd fst] in E.
  replace (1 mod N =? 0) with false in E by reflexivity. apply Ok_inj in E. unfold abcOut in E. rewrite fs_shaC in E by exact Hc.
  assert (K : forall a b : ABCProof, (Some a, @None goerr) = (Some b, None) -> b = a) by congruence. apply K in E.
  rewrite E in A. do 8 eexists. exact A.
Qed.
