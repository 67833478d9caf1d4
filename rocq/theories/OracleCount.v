(** * Counting the tapes on which a forger succeeds *)
From Coq Require Import ZArith List Bool Lia Permutation.
From Verif Require Import Go Wire SpecRand RandCount SpecOracle OracleProofs.
Import ListNotations.
Open Scope Z_scope.
Opaque allTapes.

Lemma tape_app a b x y : tape a x -> tape b y -> tape (a + b) (x ++ y).
Proof. intros [F1 L1] [F2 L2]. split; [apply Forall_app; split; assumption|rewrite app_length; lia]. Qed.
Lemma first_pre a (x y : list Z) : length x = a -> firstn a (x ++ y) = x.
Proof. intros <-. rewrite firstn_app, Nat.sub_diag, firstn_all. cbn [firstn]. apply app_nil_r. Qed.
Lemma skip_pre a (x y : list Z) : length x = a -> skipn a (x ++ y) = y.
Proof. intros <-. rewrite skipn_app, Nat.sub_diag, skipn_all. reflexivity. Qed.
Lemma pos_case L p : 0 < cases L p -> exists t, tape L t /\ p t = true.
Proof.
  unfold cases. destruct (filter p (allTapes L)) as [|t l] eqn:E; [cbn [length]; lia|]. intros _. exists t.
  assert (I : In t (filter p (allTapes L))) by (rewrite E; left; reflexivity). apply filter_In in I. destruct I as [I P]. split; [apply in_tapes; exact I|exact P].
Qed.
Lemma pow_add_nat a b : 256 ^ Z.of_nat (a + b) = 256 ^ Z.of_nat a * 256 ^ Z.of_nat b.
Proof. rewrite Nat2Z.inj_add, Z.pow_add_r by lia. reflexivity. Qed.
Lemma pow_nat_pos a : 0 < 256 ^ Z.of_nat a. Proof. apply Z.pow_pos_nonneg; lia. Qed.
Lemma tape_len L t : tape L t -> length t = L. Proof. intros [_ E]. exact E. Qed.

Lemma NoDup_app_intro {B} (l l' : list B) : NoDup l -> NoDup l' -> (forall x, In x l -> In x l' -> False) -> NoDup (l ++ l').
Proof.
  induction l as [|a l IH]; intros D D' X; [exact D'|]. inversion D as [|? ? Na Dl]; subst. cbn [app]. constructor.
  - intros I. apply in_app_iff in I. destruct I as [I|I]; [exact (Na I)|exact (X a (or_introl eq_refl) I)].
  - apply IH; [exact Dl|exact D'|]. intros x I. apply X. right. exact I.
Qed.
Section Count.
Context {A : Type}.
Variable tr : A -> list Z.
Variable f : forger A.
Variable q : nat.
Hypothesis Hq : asks q f.
Notation ix := (ix tr f). Notation about := (about tr f).

(** ** Answers that must be hit *)
Section Bad.
Variable bad : list Z -> list Z -> Prop.
Variable K : Z.
Hypothesis HK : forall m xs, NoDup xs -> (forall h, In h xs -> tape 32 h /\ bad m h) -> Z.of_nat (length xs) <= K.
Lemma K_nonneg : 0 <= K. Proof. apply (HK [] []); [constructor|intros h []]. Qed.
Lemma hit_at i p : (i <= q)%nat -> (forall t, tape (32 * (q + 1)) t -> p t = true -> ix t = i /\ bad (about t) (block_of i t)) ->
  cases (32 * (q + 1)) p <= K * 256 ^ Z.of_nat (32 * q).
Proof.
  intros Li H. replace (32 * (q + 1))%nat with (32 * i + (32 + 32 * (q - i)))%nat in * by lia. rewrite cases_pre.
  replace (32 * q)%nat with (32 * i + 32 * (q - i))%nat by lia. rewrite pow_add_nat.
  replace (K * (256 ^ Z.of_nat (32 * i) * 256 ^ Z.of_nat (32 * (q - i)))) with (256 ^ Z.of_nat (32 * i) * (K * 256 ^ Z.of_nat (32 * (q - i)))) by ring.
  rewrite <- (tapes_length (32 * i)), <- zs_const. apply zs_le. intros x Hx. apply in_tapes in Hx. rewrite cases_pre.
  set (hit := fun h => 0 <? cases (32 * (q - i)) (fun y => p (x ++ h ++ y))).
  assert (B : forall h, In h (allTapes 32) -> cases (32 * (q - i)) (fun y => p (x ++ h ++ y)) <= 256 ^ Z.of_nat (32 * (q - i)) * (if hit h then 1 else 0)).
  { intros h _. unfold hit. destruct (Z.ltb_spec 0 (cases (32 * (q - i)) (fun y => p (x ++ h ++ y)))) as [P|P]; [rewrite Z.mul_1_r; apply cases_bound|lia]. }
  etransitivity; [exact (zs_le _ _ _ B)|]. rewrite zs_scale, <- cases_zs. rewrite (Z.mul_comm K). apply Z.mul_le_mono_nonneg_l; [pose proof (pow_nat_pos (32 * (q - i))); lia|].
  assert (W : forall h, In h (filter hit (allTapes 32)) -> tape 32 h /\ exists y, tape (32 * (q - i)) y /\ p (x ++ h ++ y) = true).
  { intros h Hh. apply filter_In in Hh. destruct Hh as [I P]. apply in_tapes in I. split; [exact I|]. apply pos_case. apply Z.ltb_lt. exact P. }
  assert (F : forall h y, tape 32 h -> tape (32 * (q - i)) y -> p (x ++ h ++ y) = true -> ix (x ++ h ++ y) = i /\ bad (about (x ++ h ++ y)) h).
  { intros h y Th Ty P. pose proof (H _ (tape_app _ _ _ _ Hx (tape_app _ _ _ _ Th Ty)) P) as [E1 E2]. split; [exact E1|]. unfold block_of in E2.
    rewrite skip_pre in E2 by apply Hx. rewrite first_pre in E2 by apply Th. exact E2. }
  unfold cases. destruct (filter hit (allTapes 32)) as [|h0 hs] eqn:EF; [apply K_nonneg|]. rewrite <- EF in *.
  destruct (W h0) as (T0 & y0 & Ty0 & P0); [rewrite EF; left; reflexivity|]. destruct (F _ _ T0 Ty0 P0) as [X0 _].
  apply (HK (about (x ++ h0 ++ y0))); [apply NoDup_filter, nodup_tapes|]. intros h Hh. destruct (W h Hh) as (Th & y & Ty & P). split; [exact Th|].
  destruct (F _ _ Th Ty P) as [X B']. rewrite (run_same tr f q (x ++ h0 ++ y0) (x ++ h ++ y)); [exact B'|exact Hq|rewrite X0, X; reflexivity|].
  rewrite X0, !first_pre by apply Hx. reflexivity.
Qed.
Lemma hits p : (forall t, tape (32 * (q + 1)) t -> p t = true -> bad (about t) (sha f t (about t))) ->
  cases (32 * (q + 1)) p <= Z.of_nat (q + 1) * K * 256 ^ Z.of_nat (32 * q).
Proof.
  intros H. assert (D : cases (32 * (q + 1)) p <= zs (seq 0 (q + 1)) (fun i => cases (32 * (q + 1)) (fun t => p t && Nat.eqb (ix t) i))).
  { rewrite cases_zs. rewrite (zs_ext (seq 0 (q + 1)) _ (fun i => zs (allTapes (32 * (q + 1))) (fun t => if p t && Nat.eqb (ix t) i then 1 else 0))) by (intros; apply cases_zs).
    rewrite zs_swap. apply zs_le. intros t _. destruct (p t); cbn [andb]; [|apply zs_nonneg; intros; discriminate].
    destruct (run_ix tr f q t Hq) as (L & _). etransitivity; [|apply (zs_in _ (fun i => if Nat.eqb (ix t) i then 1 else 0) (ix t)); [intros x _; destruct (Nat.eqb _ _); discriminate|apply in_seq; lia]].
    cbv beta. rewrite Nat.eqb_refl. reflexivity. }
  etransitivity; [exact D|]. etransitivity; [apply (zs_le _ _ (fun _ => K * 256 ^ Z.of_nat (32 * q)))|].
  - intros i Hi. apply in_seq in Hi. apply (hit_at i); [lia|]. intros t Tt E. apply andb_prop in E. destruct E as [E1 E2]. apply Nat.eqb_eq in E2. split; [exact E2|].
    destruct (run_ix tr f q t Hq) as (_ & E3 & _). rewrite <- E2, <- E3. exact (H t Tt E1).
  - rewrite zs_const, seq_length. rewrite Z.mul_assoc. reflexivity.
Qed.
End Bad.

(** ** Rewinding *)
Section Fork.
Variable wins : list Z -> bool.
Variable cls : A -> nat.
Variable J : nat.
Variable apart : list Z -> list Z -> bool.
Variable K : Z.
Hypothesis HJ : forall t, tape (32 * (q + 1)) t -> wins t = true -> (cls (says f t) < J)%nat.
Hypothesis HK : forall h, tape 32 h -> cases 32 (fun h' => negb (apart h h')) <= K.
Definition kinds : list (nat * nat) := list_prod (seq 0 (q + 1)) (seq 0 J).
Definition isKind (j : nat * nat) (t : list Z) : bool := wins t && Nat.eqb (ix t) (fst j) && Nat.eqb (cls (says f t)) (snd j).
Definition ind (b : bool) : Z := if b then 1 else 0.
Definition Wj (j : nat * nat) : Z := cases (32 * (q + 1)) (isKind j).
Definition goodj (j : nat * nat) (t t' : list Z) : Z :=
  ind (isKind j t) * (ind (isKind j (firstn (32 * fst j) t ++ skipn (32 * fst j) t')) * ind (apart (block_of (fst j) t) (block_of (fst j) t'))).
Lemma ind_nonneg b : 0 <= ind b <= 1. Proof. destruct b; cbn [ind]; lia. Qed.
Notation T := (allTapes (32 * (q + 1))).
Lemma kind_list a b : NoDup a -> NoDup b -> NoDup (list_prod a b : list (nat * nat)).
Proof.
  induction a as [|x a IH]; intros Da Db; [constructor|]. inversion Da as [|? ? Nx Da']; subst. cbn [list_prod]. apply NoDup_app_intro.
  - apply FinFun.Injective_map_NoDup; [intros u v E; congruence|exact Db].
  - exact (IH Da' Db).
  - intros [u v] I I'. apply in_map_iff in I. destruct I as (w & E & _). apply in_prod_iff in I'. destruct I' as [I' _]. apply Nx. congruence.
Qed.
Lemma kinds_nodup : NoDup kinds. Proof. apply kind_list; apply seq_NoDup. Qed.
Lemma kinds_len : length kinds = ((q + 1) * J)%nat. Proof. unfold kinds. rewrite prod_length, !seq_length. reflexivity. Qed.
Lemma isKind_uniq j t : isKind j t = true -> j = (ix t, cls (says f t)).
Proof. unfold isKind. intros E. apply andb_prop in E. destruct E as [E E3]. apply andb_prop in E. destruct E as [E1 E2]. apply Nat.eqb_eq in E2, E3. destruct j. cbn [fst snd] in *. congruence. Qed.
Lemma all_kinds : cases (32 * (q + 1)) wins <= zs kinds Wj.
Proof.
  rewrite cases_zs. rewrite (zs_ext kinds Wj (fun j => zs T (fun t => ind (isKind j t)))) by (intros; apply cases_zs).
  rewrite zs_swap. apply zs_le. intros t Ht. apply in_tapes in Ht. destruct (wins t) eqn:E; [|apply zs_nonneg; intros; apply ind_nonneg].
  destruct (run_ix tr f q t Hq) as (L & _).
  etransitivity; [|apply (zs_in kinds (fun j => ind (isKind j t)) (ix t, cls (says f t))); [intros; apply ind_nonneg|apply in_prod_iff; split; apply in_seq; [lia|specialize (HJ t Ht E); lia]]].
  cbv beta. unfold isKind. rewrite E. cbn [fst snd andb]. rewrite !Nat.eqb_refl. reflexivity.
Qed.
(** one kind of success *)
Lemma fork_one j : In j kinds -> Wj j * Wj j <= zs T (fun t => zs T (fun t' => goodj j t t')) + K * 256 ^ Z.of_nat (32 * q) * Wj j.
Proof.
  intros Ij. destruct j as [i l]. apply in_prod_iff in Ij. destruct Ij as [Ii _]. apply in_seq in Ii.
  set (a := (32 * i)%nat). set (b := (32 * (q - i))%nat). assert (Eab : (32 * (q + 1))%nat = (a + (32 + b))%nat) by (unfold a, b; lia).
  assert (Eq : (32 * q)%nat = (a + b)%nat) by (unfold a, b; lia). rewrite Eq, pow_add_nat. unfold Wj. rewrite Eab. 
  set (X := fun x => zs (allTapes (32 + b)) (fun s => ind (isKind (i, l) (x ++ s)))).
  assert (EW : cases (a + (32 + b)) (isKind (i, l)) = zs (allTapes a) X).
  { rewrite cases_zs, tsum_app. reflexivity. }
  rewrite EW. set (Ma := 256 ^ Z.of_nat a). set (Mb := 256 ^ Z.of_nat b). assert (Pa : 0 < Ma) by apply pow_nat_pos. assert (Pb : 0 < Mb) by apply pow_nat_pos.
  assert (TMa : Z.of_nat (length (allTapes a)) = Ma) by apply tapes_length. assert (TMb : Z.of_nat (length (allTapes b)) = Mb) by apply tapes_length. clearbody Ma Mb.
  assert (G : zs (allTapes (a + (32 + b))) (fun t => zs (allTapes (a + (32 + b))) (fun t' => goodj (i, l) t t')) =
              Ma * zs (allTapes a) (fun x => zs (allTapes (32 + b)) (fun s => ind (isKind (i, l) (x ++ s)) *
                     zs (allTapes (32 + b)) (fun s' => ind (isKind (i, l) (x ++ s')) * ind (apart (firstn 32 s) (firstn 32 s')))))).
  { rewrite tsum_app, <- zs_scale. apply zs_ext. intros x Hx. apply in_tapes in Hx. rewrite <- zs_scale. apply zs_ext. intros s Hs. apply in_tapes in Hs.
    rewrite tsum_app. rewrite (zs_ext (allTapes a) _ (fun _ => ind (isKind (i, l) (x ++ s)) *
       zs (allTapes (32 + b)) (fun s' => ind (isKind (i, l) (x ++ s')) * ind (apart (firstn 32 s) (firstn 32 s'))))).
    - rewrite zs_const, TMa. reflexivity.
    - intros x' Hx'. apply in_tapes in Hx'. rewrite <- zs_scale. apply zs_ext. intros s' _. unfold goodj, block_of. cbn [fst]. fold a.
      rewrite (skip_pre a x s), (skip_pre a x' s'), (first_pre a x s) by (apply Hx || apply Hx'). reflexivity. }
  rewrite G. clear G.
  assert (L : forall x, In x (allTapes a) -> X x * X x - K * Mb * X x <=
     zs (allTapes (32 + b)) (fun s => ind (isKind (i, l) (x ++ s)) *
                     zs (allTapes (32 + b)) (fun s' => ind (isKind (i, l) (x ++ s')) * ind (apart (firstn 32 s) (firstn 32 s'))))).
  { intros x _. replace (X x * X x - K * Mb * X x) with ((X x - K * Mb) * X x) by ring. change (X x) with (zs (allTapes (32 + b)) (fun s => ind (isKind (i, l) (x ++ s)))) at 2. rewrite <- zs_scale. apply zs_le. intros s Hs. apply in_tapes in Hs.
    rewrite Z.mul_comm. apply Z.mul_le_mono_nonneg_l; [apply ind_nonneg|]. apply Z.le_sub_le_add_r.
    assert (N : zs (allTapes (32 + b)) (fun s' => ind (negb (apart (firstn 32 s) (firstn 32 s')))) <= K * Mb).
    { rewrite tsum_app. rewrite (zs_ext (allTapes 32) _ (fun h' => Mb * ind (negb (apart (firstn 32 s) h')))).
      - rewrite zs_scale. rewrite (Z.mul_comm K). apply Z.mul_le_mono_nonneg_l; [lia|].
        pose proof (cases_zs 32 (fun h' => negb (apart (firstn 32 s) h'))) as CZ. etransitivity; [apply Z.eq_le_incl; symmetry; exact CZ|]. apply HK. destruct Hs as [Fs Ls]. split.
        + rewrite <- (firstn_skipn 32 s) in Fs. apply Forall_app in Fs. apply Fs.
        + rewrite firstn_length, Ls. lia.
      - intros h' Hh'. apply in_tapes in Hh'. rewrite (zs_ext (allTapes b) _ (fun _ => ind (negb (apart (firstn 32 s) h')))).
        + rewrite zs_const, TMb. reflexivity.
        + intros r _. rewrite first_pre by apply Hh'. reflexivity. }
    etransitivity; [|apply Z.add_le_mono_l; exact N]. rewrite <- zs_plus. unfold X. apply zs_le. intros s' _.
    destruct (apart _ _), (isKind (i, l) (x ++ s')); cbn [ind negb]; lia. }
  pose proof (zs_le _ _ _ L) as L'. cbv beta in L'.
  assert (E2 : zs (allTapes a) (fun x => X x * X x - K * Mb * X x) = zs (allTapes a) (fun x => X x * X x) - K * Mb * zs (allTapes a) X).
  { rewrite <- zs_scale. rewrite <- (Z.add_opp_r (zs (allTapes a) (fun x => X x * X x))). rewrite <- (Z.mul_1_l (zs (allTapes a) (fun x => K * Mb * X x))), <- Z.mul_opp_l, <- zs_scale, <- zs_plus.
    apply zs_ext. intros x _. ring. }
  rewrite E2 in L'. pose proof (zs_square (allTapes a) X) as C. rewrite TMa in C.
  set (Q := zs (allTapes a) (fun x => X x * X x)) in *. set (V := zs (allTapes a) X) in *. 
  match type of L' with _ <= ?g => set (Gs := g) in * end. clearbody Q V Gs. clear - C L' Pa.
  assert (Ma * (Q - K * Mb * V) <= Ma * Gs) by (apply Z.mul_le_mono_nonneg_l; lia).
  replace (K * (Ma * Mb) * V) with (Ma * (K * Mb * V)) by ring. lia.
Qed.
Lemma fork_count p :
  (forall t t', tape (32 * (q + 1)) t -> tape (32 * (q + 1)) t' -> wins t = true ->
     let t2 := rewound f (about t) t t' in wins t2 = true -> about t2 = about t -> cls (says f t2) = cls (says f t) ->
     apart (sha f t (about t)) (sha f t2 (about t)) = true -> p (t ++ t') = true) ->
  let W := cases (32 * (q + 1)) wins in
  W * W <= Z.of_nat ((q + 1) * J) * (cases (32 * (q + 1) + 32 * (q + 1)) p + K * 256 ^ Z.of_nat (32 * q) * W).
Proof.
  intros H W. assert (P : zs kinds (fun j => zs T (fun t => zs T (fun t' => goodj j t t'))) <= cases (32 * (q + 1) + 32 * (q + 1)) p).
  { rewrite cases_zs, tsum_app, zs_swap. apply zs_le. intros t Ht. apply in_tapes in Ht. rewrite zs_swap. apply zs_le. intros t' Ht'. apply in_tapes in Ht'.
    etransitivity; [apply (zs_single kinds (fun j => goodj j t t') (ix t, cls (says f t)) kinds_nodup)|].
    - intros j _ D. unfold goodj. destruct (isKind j t) eqn:E; [|reflexivity]. exfalso. apply D. apply isKind_uniq. exact E.
    - unfold goodj. apply Z.mul_nonneg_nonneg; [apply ind_nonneg|apply Z.mul_nonneg_nonneg; apply ind_nonneg].
    - unfold goodj. cbn [fst]. destruct (isKind (ix t, cls (says f t)) t) eqn:E1; [|destruct (p _); discriminate].
      fold (ind (p (t ++ t'))). destruct (isKind (ix t, cls (says f t)) (firstn (32 * ix t) t ++ skipn (32 * ix t) t')) eqn:E2; [|apply ind_nonneg].
      destruct (apart (block_of (ix t) t) (block_of (ix t) t')) eqn:E3; [|apply ind_nonneg].
      set (t2 := firstn (32 * ix t) t ++ skipn (32 * ix t) t') in *. pose proof (isKind_uniq _ _ E2) as U.
      assert (U1 : ix t2 = ix t) by congruence. assert (U2 : cls (says f t2) = cls (says f t)) by congruence.
      destruct (run_ix tr f q t Hq) as (Li & Sh & _). destruct (run_ix tr f q t2 Hq) as (_ & Sh2 & _).
      assert (Lt : (32 * ix t <= length t)%nat) by (rewrite (tape_len _ _ Ht); lia).
      assert (Lf : length (firstn (32 * ix t) t) = (32 * ix t)%nat) by (rewrite firstn_length; lia).
      assert (Ab : about t2 = about t).
      { symmetry. apply (run_same tr f q); [exact Hq|congruence|]. unfold t2. rewrite first_pre by exact Lf. reflexivity. }
      assert (Bk : block_of (ix t) t2 = block_of (ix t) t') by (unfold block_of, t2; rewrite skip_pre by exact Lf; reflexivity).
      rewrite (H t t' Ht Ht'); [reflexivity| | |exact Ab|exact U2|].
      + unfold isKind in E1. apply andb_prop in E1. destruct E1 as [E1 _]. apply andb_prop in E1. apply E1.
      + change (rewound f (about t) t t') with t2. unfold isKind in E2. apply andb_prop in E2. destruct E2 as [E2 _]. apply andb_prop in E2. apply E2.
      + change (rewound f (about t) t t') with t2. rewrite Sh. rewrite <- Ab, Sh2, U1, Bk. exact E3. }
  pose proof (zs_le kinds _ _ fork_one) as F. rewrite zs_plus, zs_scale in F.
  pose proof (zs_square kinds Wj) as C. rewrite kinds_len in C. pose proof all_kinds as AK. fold W in AK.
  assert (W0 : 0 <= W) by apply cases_bound. 
  assert (UB : zs kinds Wj <= W).
  { unfold W. rewrite cases_zs. rewrite (zs_ext kinds Wj (fun j => zs T (fun t => ind (isKind j t)))) by (intros; apply cases_zs).
    rewrite zs_swap. apply zs_le. intros t Ht. etransitivity; [apply (zs_single kinds (fun j => ind (isKind j t)) (ix t, cls (says f t)) kinds_nodup)|].
    - intros j _ D. destruct (isKind j t) eqn:E; [|reflexivity]. exfalso. apply D. apply isKind_uniq. exact E.
    - apply ind_nonneg.
    - unfold isKind. destruct (wins t); cbn [andb ind]; [|reflexivity]. destruct (_ && _); cbn [ind]; lia. }
  assert (EW : zs kinds Wj = W) by lia. rewrite EW in *.
  etransitivity; [exact C|]. apply Z.mul_le_mono_nonneg_l; [lia|]. lia.
Qed.
End Fork.
End Count.
