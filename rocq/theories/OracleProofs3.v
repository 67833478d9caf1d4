(** * Forgers of consistency and ABC proofs, rewound twice: lemmas *)
From Coq Require Import ZArith List Bool Lia Permutation.
From Verif Require Import Go Wire Big Crypto Spec CurveGroup Order FieldN CurveZ SpecZk ZkBase EqConsProofs DisjProofs
  Consistency Disjunctive Abc AbcProofs SpecRand RandCount SpecOracle OracleProofs OracleCount OracleThree OracleProofs2.
Import ListNotations.
Open Scope Z_scope.
Opaque allTapes.

Lemma thirds n (t t' t'' : list Z) : tape n t -> tape n t' ->
  firstn n (t ++ t' ++ t'') = t /\ firstn n (skipn n (t ++ t' ++ t'')) = t' /\ skipn n (skipn n (t ++ t' ++ t'')) = t''.
Proof. intros T T'. rewrite (skip_pre n t) by apply T. split; [apply first_pre, T|]. split; [apply first_pre, T'|apply skip_pre, T']. Qed.
Lemma upTo_ok p q : p = q \/ p = pneg q -> upToSign p q = true.
Proof. unfold upToSign. intros [-> | ->]; rewrite samePoint_refl; [reflexivity|apply orb_true_r]. Qed.
Lemma upTo_eq p q : upToSign p q = true -> p = q \/ p = pneg q.
Proof. unfold upToSign. intros E. apply orb_true_iff in E. destruct E as [E|E]; apply samePoint_eq in E; [left|right]; exact E. Qed.
Lemma ch_apart h h' c c' : ch h = c -> ch h' = c' -> apart1 h h' = true -> c mod N <> c' mod N.
Proof. intros <- <- A. apply apart1_ok in A. rewrite !(Z.mod_small (ch _) N) by apply ch_range. exact A. Qed.

Lemma cons_fork2 (zk : zkparams) q (f : forger ConsistencyProof) CM CMTok PK wins : std zk -> is_point CM -> is_point CMTok -> is_point PK -> plain CM -> plain CMTok -> asks q f ->
  (forall t, tape (32 * (q + 1)) t -> wins t = true -> consPoints (says f t) /\ accepts (ConsistencyVerify (sha f t) (Some (says f t)) zk (pt CM) (pt CMTok) (pt PK))) ->
  let n := (32 * (q + 1))%nat in let W := cases n wins in let k := 33 ^ 3 * Z.of_nat (q + 1) in let e := 4 * k * 256 ^ Z.of_nat (32 * q) in
  e <= W -> (W - e) ^ 3 <= k ^ 2 * cases (n + (n + n)) (fun t => found (consFinds2 f CM CMTok PK (firstn n t) (firstn n (skipn n t)) (skipn n (skipn n t)))).
Proof.
  intros S H1 H2 H3 P1 P2 Hq H n W k e LE. set (pre := [G; Hgen; CM; CMTok; PK]).
  set (win := fun t => found (consFinds2 f CM CMTok PK (firstn n t) (firstn n (skipn n t)) (skipn n (skipn n t)))).
  pose proof (three_count (fun p => transcript (pre ++ [asPoint (cnT1 p); asPoint (cnT2 p)])) f q Hq wins (fun p => code (coords [asPoint (cnT1 p); asPoint (cnT2 p)])) (33 ^ (2 * 2 - 1)) apart1 2) as F.
  assert (Ek : Z.of_nat ((q + 1) * 33 ^ (2 * 2 - 1)) = k) by (unfold k; rewrite Nat2Z.inj_mul, nat_pow_33; change (33 ^ Z.of_nat (2 * 2 - 1)) with (33 ^ 3); apply Z.mul_comm).
  rewrite Ek in F. assert (Ee : e = k * (2 * (2 * 256 ^ Z.of_nat (32 * q)))) by (unfold e; ring). clearbody e. subst e. clearbody k.
  match goal with |- ?x ^ 3 <= _ => replace (x ^ 3) with (x * x * x) by ring end. replace (k ^ 2) with (k * k) by ring.
  apply F; clear F; [| |lia| |exact LE].
  - intros t Tt E. destruct (H t Tt E) as ((T1 & T2 & c & s1 & s2 & HT1 & HT2 & ->) & _). cbn [cnT1 cnT2]. rewrite !asPoint_pt. apply (code_bound (coords [T1; T2])).
    apply coords_small. apply pts2; assumption.
  - intros h _. apply apart1_count.
  - intros t t' t'' Tt Tt' Tt'' E t2 t3 E2 E3 Ab2 Ab3 C2 C3 A12 A13 A23. unfold win. destruct (thirds n t t' t'' Tt Tt') as (-> & -> & ->).
    assert (Tt2 : tape (32 * (q + 1)) t2) by (apply rewound_tape; assumption). assert (Tt3 : tape (32 * (q + 1)) t3) by (apply rewound_tape; assumption).
    change (consFinds2 f CM CMTok PK t t' t'') with (consWitness CM CMTok PK (says f t) (says f t2) (says f t3)).
    destruct (H t Tt E) as ((T1 & T2 & c1 & a1 & b1 & HT1 & HT2 & Ep) & Ac). destruct (H t2 Tt2 E2) as ((T1' & T2' & c2 & a2 & b2 & HT1' & HT2' & Ep') & Ac').
    destruct (H t3 Tt3 E3) as ((T1'' & T2'' & c3 & a3 & b3 & HT1'' & HT2'' & Ep'') & Ac''). unfold about in *.
    rewrite Ep, Ep', Ep'' in *. cbn [cnT1 cnT2] in *. rewrite !asPoint_pt in *.
    assert (Q2 : [T1; T2] = [T1'; T2']).
    { apply (transcript_inj pre); [reflexivity|apply pts2; assumption|apply pts2; assumption|symmetry; exact C2|symmetry; exact Ab2]. }
    assert (Q3 : [T1; T2] = [T1''; T2'']).
    { apply (transcript_inj pre); [reflexivity|apply pts2; assumption|apply pts2; assumption|symmetry; exact C3|symmetry; exact Ab3]. }
    destruct (pair_of _ _ _ _ Q2) as [<- <-]. destruct (pair_of _ _ _ _ Q3) as [<- <-].
    apply (cons_accepts _ zk S) in Ac; try assumption. apply (cons_accepts _ zk S) in Ac'; try assumption. apply (cons_accepts _ zk S) in Ac''; try assumption.
    rewrite (eff_plain CM), (eff_plain CMTok) in Ac, Ac', Ac'' by assumption. destruct Ac as (Ec & A), Ac' as (Ec' & A'), Ac'' as (Ec'' & A'').
    destruct (cons_extract CM CMTok (eff PK) T1 T2 c1 a1 b1 c2 a2 b2 c3 a3 b3) as (g & h & c & a & b & c' & a' & b' & Sg & Sh & I & X1 & X2); try isp; try assumption.
    + exact (ch_apart _ _ _ _ Ec Ec' A12).
    + exact (ch_apart _ _ _ _ Ec Ec'' A13).
    + exact (ch_apart _ _ _ _ Ec' Ec'' A23).
    + intros c a b [X|[X|[X|[]]]]; injection X as <- <- <-; assumption.
    + unfold consWitness. apply (find_found _ _ (slope g h a c a' c', slope g h b c b' c')).
      * apply in_flat_map.
        assert (M : exists pp, In pp (pairsOf (MkCons (pt T1) (pt T2) (Some c1) (Some a1) (Some b1)) (MkCons (pt T1) (pt T2) (Some c2) (Some a2) (Some b2)) (MkCons (pt T1) (pt T2) (Some c3) (Some a3) (Some b3))) /\
           pp = (MkCons (pt T1) (pt T2) (Some c) (Some a) (Some b), MkCons (pt T1) (pt T2) (Some c') (Some a') (Some b'))).
        { eexists. split; [|reflexivity]. unfold pairsOf. destruct I as [I|[I|[I|[]]]]; injection I as <- <- <- <- <- <-; cbn [In]; auto. }
        destruct M as (pp & Ipp & ->). eexists. split; [exact Ipp|]. apply in_map_iff. exists (g, h). split; [reflexivity|apply signs_in; assumption].
      * cbn [fst snd]. rewrite X1 at 1. fold (ped (slope g h a c a' c') (slope g h b c b' c')). rewrite samePoint_refl. apply upTo_ok. exact X2.
Qed.
Lemma cons_finds2_ok f CM CMTok PK t t' t'' v r : consFinds2 f CM CMTok PK t t' t'' = Some (v, r) ->
  CM = ped v r /\ (CMTok = smul r (eff PK) \/ CMTok = pneg (smul r (eff PK))).
Proof.
  unfold consFinds2, consWitness. intros E. apply find_some in E. destruct E as [_ E]. cbn [fst snd] in E. apply andb_prop in E. destruct E as [E1 E2]. split; [symmetry; apply samePoint_eq; exact E1|].
  apply upTo_eq. exact E2.
Qed.

Lemma quad_of (a b c d a' b' c' d' : point) : [a; b; c; d] = [a'; b'; c'; d'] -> a = a' /\ b = b' /\ c = c' /\ d = d'.
Proof. intros E. split; [congruence|]. split; [congruence|]. split; congruence. Qed.
Lemma pts4 (a b c d : point) : is_point a -> is_point b -> is_point c -> is_point d -> Forall is_point [a; b; c; d]. Proof. intros. do 4 (constructor; [assumption|]). constructor. Qed.
Lemma abc_fork2 (zk : zkparams) q (f : forger ABCProof) CM CMTok wins : std zk -> is_point CM -> is_point CMTok -> plain CM -> plain CMTok -> asks q f ->
  (forall t, tape (32 * (q + 1)) t -> wins t = true -> abcPoints (says f t) /\ accepts (ABCVerify (sha f t) (Some (says f t)) zk (pt CM) (pt CMTok))) ->
  let n := (32 * (q + 1))%nat in let W := cases n wins in let k := 33 ^ 7 * Z.of_nat (q + 1) in let e := 4 * k * 256 ^ Z.of_nat (32 * q) in
  e <= W -> (W - e) ^ 3 <= k ^ 2 * cases (n + (n + n)) (fun t => found (abcFinds f CM CMTok (firstn n t) (firstn n (skipn n t)) (skipn n (skipn n t)))).
Proof.
  intros S H1 H2 P1 P2 Hq H n W k e LE. set (pre := [G; Hgen; CM; CMTok]).
  set (win := fun t => found (abcFinds f CM CMTok (firstn n t) (firstn n (skipn n t)) (skipn n (skipn n t)))).
  pose proof (three_count (fun p => transcript (pre ++ [asPoint (abB p); asPoint (abC p); asPoint (abT1 p); asPoint (abT2 p)])) f q Hq wins
    (fun p => code (coords [asPoint (abB p); asPoint (abC p); asPoint (abT1 p); asPoint (abT2 p)])) (33 ^ (2 * 4 - 1)) apart1 2) as F.
  assert (Ek : Z.of_nat ((q + 1) * 33 ^ (2 * 4 - 1)) = k) by (unfold k; rewrite Nat2Z.inj_mul, nat_pow_33; change (33 ^ Z.of_nat (2 * 4 - 1)) with (33 ^ 7); apply Z.mul_comm).
  rewrite Ek in F. assert (Ee : e = k * (2 * (2 * 256 ^ Z.of_nat (32 * q)))) by (unfold e; ring). clearbody e. subst e. clearbody k.
  match goal with |- ?x ^ 3 <= _ => replace (x ^ 3) with (x * x * x) by ring end. replace (k ^ 2) with (k * k) by ring.
  apply F; clear F; [| |lia| |exact LE].
  - intros t Tt E. destruct (H t Tt E) as ((B & C & T1 & T2 & c & j & l & l' & tok & dj & HB & HC & HT1 & HT2 & _ & _ & ->) & _). cbn [abB abC abT1 abT2]. rewrite !asPoint_pt.
    apply (code_bound (coords [B; C; T1; T2])). apply coords_small. apply pts4; assumption.
  - intros h _. apply apart1_count.
  - intros t t' t'' Tt Tt' Tt'' E t2 t3 E2 E3 Ab2 Ab3 C2 C3 A12 A13 A23. unfold win. destruct (thirds n t t' t'' Tt Tt') as (-> & -> & ->).
    assert (Tt2 : tape (32 * (q + 1)) t2) by (apply rewound_tape; assumption). assert (Tt3 : tape (32 * (q + 1)) t3) by (apply rewound_tape; assumption).
    change (abcFinds f CM CMTok t t' t'') with (abcWitness CM CMTok (says f t) (says f t2) (says f t3)).
    destruct (H t Tt E) as ((B & C & T1 & T2 & c1 & j1 & k1 & l1 & tok1 & dj1 & HB & HC & HT1 & HT2 & PB & PC & Ep) & Ac).
    destruct (H t2 Tt2 E2) as ((B' & C' & T1' & T2' & c2 & j2 & k2 & l2 & tok2 & dj2 & HB' & HC' & HT1' & HT2' & PB' & PC' & Ep') & Ac').
    destruct (H t3 Tt3 E3) as ((B'' & C'' & T1'' & T2'' & c3 & j3 & k3 & l3 & tok3 & dj3 & HB'' & HC'' & HT1'' & HT2'' & PB'' & PC'' & Ep'') & Ac''). unfold about in *.
    rewrite Ep, Ep', Ep'' in *. cbn [abB abC abT1 abT2] in *. rewrite !asPoint_pt in *.
    assert (Q2 : [B; C; T1; T2] = [B'; C'; T1'; T2']).
    { apply (transcript_inj pre); [reflexivity|apply pts4; assumption|apply pts4; assumption|symmetry; exact C2|symmetry; exact Ab2]. }
    assert (Q3 : [B; C; T1; T2] = [B''; C''; T1''; T2'']).
    { apply (transcript_inj pre); [reflexivity|apply pts4; assumption|apply pts4; assumption|symmetry; exact C3|symmetry; exact Ab3]. }
    destruct (quad_of _ _ _ _ _ _ _ _ Q2) as (<- & <- & <- & <-). destruct (quad_of _ _ _ _ _ _ _ _ Q3) as (<- & <- & <- & <-).
    apply (abc_verify _ zk S) in Ac; try assumption. apply (abc_verify _ zk S) in Ac'; try assumption. apply (abc_verify _ zk S) in Ac''; try assumption.
    rewrite (eff_plain CM), (eff_plain CMTok), (eff_plain B), (eff_plain C) in Ac, Ac', Ac'' by assumption.
    destruct Ac as (_ & Ec & A), Ac' as (_ & Ec' & A'), Ac'' as (_ & Ec'' & A'').
    destruct (abc_extract CM CMTok B C T1 T2 c1 j1 k1 l1 c2 j2 k2 l2 c3 j3 k3 l3) as (g & h & c & j & kk & l & c' & j' & kk' & l' & Sg & Sh & I & X1 & X2); try assumption.
    + exact (ch_apart _ _ _ _ Ec Ec' A12).
    + exact (ch_apart _ _ _ _ Ec Ec'' A13).
    + exact (ch_apart _ _ _ _ Ec' Ec'' A23).
    + intros c j kk l [X|[X|[X|[]]]]; injection X as <- <- <- <-; assumption.
    + unfold abcWitness. apply (find_found _ _ (slope g h j c j' c', slope g h kk c kk' c', slope g h l c l' c')).
      * apply in_flat_map.
        assert (M : exists pp, In pp (pairsOf (MkABC (pt B) (pt C) (pt T1) (pt T2) (Some c1) (Some j1) (Some k1) (Some l1) tok1 dj1)
             (MkABC (pt B) (pt C) (pt T1) (pt T2) (Some c2) (Some j2) (Some k2) (Some l2) tok2 dj2) (MkABC (pt B) (pt C) (pt T1) (pt T2) (Some c3) (Some j3) (Some k3) (Some l3) tok3 dj3)) /\
           exists tk d tk' d', pp = (MkABC (pt B) (pt C) (pt T1) (pt T2) (Some c) (Some j) (Some kk) (Some l) tk d, MkABC (pt B) (pt C) (pt T1) (pt T2) (Some c') (Some j') (Some kk') (Some l') tk' d')).
        { unfold pairsOf. destruct I as [I|[I|[I|[]]]]; injection I as <- <- <- <- <- <- <- <-; eexists; (split; [|do 4 eexists; reflexivity]); cbn [In]; eauto. }
        destruct M as (pp & Ipp & tk & d & tk' & d' & ->). eexists. split; [exact Ipp|]. apply in_map_iff. exists (g, h). split; [reflexivity|apply signs_in; assumption].
      * cbn [abB abC]. rewrite !asPoint_pt. rewrite <- X1, samePoint_refl. apply upTo_ok. exact X2.
Qed.
Lemma abc_finds_ok f CM CMTok t t' t'' a k l : abcFinds f CM CMTok t t' t'' = Some (a, k, l) -> let p := says f t in
  CM = padd (smul a G) (smul k CMTok) /\ (let R := padd (smul a (asPoint (abB p))) (smul l Htab) in asPoint (abC p) = R \/ asPoint (abC p) = pneg R).
Proof.
  unfold abcFinds, abcWitness. intros E. apply find_some in E. destruct E as [_ E]. apply andb_prop in E. destruct E as [E1 E2]. split; [symmetry; apply samePoint_eq; exact E1|].
  apply upTo_eq. exact E2.
Qed.
