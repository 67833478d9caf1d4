(** * Forgers of equivalence, GSPFS, disjunctive and consistency proofs: lemmas *)
From Coq Require Import ZArith List Bool Lia Permutation.
From Verif Require Import Go Wire Big Crypto Spec CurveGroup Order FieldN CurveZ SpecZk CodecProofs ZkBase GspfsProofs EqConsProofs DisjProofs
  Gspfs Equivalence Consistency Disjunctive SpecRand RandCount SpecOracle OracleProofs OracleCount.
Import ListNotations.
Open Scope Z_scope.
Opaque allTapes.

(** ** Transcripts with the lengths of their coordinates *)
Definition coords (ps : list point) : list Z := flat_map (fun p => [fst p; snd p]) ps.
Definition small (c : Z) : Prop := 0 <= c < 256 ^ 32.
Fixpoint code (cs : list Z) : nat :=
  match cs with
  | [] => 0
  | c :: r => match r with [] => 0 | _ => length (bigBytes c) + 33 * code r end
  end%nat.
Lemma transcript_coords ps : transcript ps = concat (map bigBytes (coords ps)).
Proof. unfold transcript, coords. induction ps as [|p ps IH]; [reflexivity|]. cbn [map concat flat_map app]. rewrite IH, <- app_assoc. reflexivity. Qed.
Lemma small_len c : small c -> (length (bigBytes c) <= 32)%nat.
Proof. intros [L U]. assert (B : blen (bigBytes c) <= 32) by (apply bigBytes_blen; [discriminate|rewrite Z.abs_eq; assumption]). unfold blen in B. lia. Qed.
Lemma small_inj c c' : small c -> small c' -> bigBytes c = bigBytes c' -> c = c'.
Proof. intros [L _] [L' _] E. pose proof (beval_bigBytes c) as B. rewrite E, beval_bigBytes, !Z.abs_eq in B by assumption. symmetry. exact B. Qed.
Lemma code_bound cs : Forall small cs -> (code cs < 33 ^ (length cs - 1))%nat.
Proof.
  induction cs as [|c r IH]; intros F; [cbn; lia|]. inversion F as [|? ? Fc Fr]; subst. cbn [code length]. destruct r as [|c' r]; [cbn; lia|].
  specialize (IH Fr). pose proof (small_len c Fc). cbn [length] in *. replace (S (S (length r)) - 1)%nat with (S (S (length r) - 1)) by lia. rewrite Nat.pow_succ_r'. lia.
Qed.
Lemma app_len_inj {A} (a b c d : list A) : length a = length c -> a ++ b = c ++ d -> a = c /\ b = d.
Proof.
  revert c. induction a as [|x a IH]; intros [|y c] L E; try discriminate L; [split; [reflexivity|exact E]|].
  cbn [app] in E. cbn [length] in L. assert (x = y) by congruence. destruct (IH c) as [-> ->]; [lia|congruence|]. subst. split; reflexivity.
Qed.
Lemma code_inj : forall cs cs', length cs = length cs' -> Forall small cs -> Forall small cs' -> code cs = code cs' ->
  concat (map bigBytes cs) = concat (map bigBytes cs') -> cs = cs'.
Proof.
  induction cs as [|c r IH]; intros [|c' r'] L F F' E X; try discriminate L; [reflexivity|].
  inversion F as [|? ? Fc Fr]; subst. inversion F' as [|? ? Fc' Fr']; subst. cbn [map concat] in X. cbn [length] in L. cbn [code] in E.
  pose proof (small_len c Fc). pose proof (small_len c' Fc').
  destruct r as [|d r], r' as [|d' r']; try (cbn [length] in L; lia).
  - cbn [map concat] in X. rewrite !app_nil_r in X. rewrite (small_inj _ _ Fc Fc' X). reflexivity.
  - assert (Q : length (bigBytes c) = length (bigBytes c') /\ code (d :: r) = code (d' :: r')) by lia. destruct Q as [Q1 Q2].
    destruct (app_len_inj _ _ _ _ Q1 X) as [X1 X2]. rewrite (small_inj _ _ Fc Fc' X1). f_equal. apply IH; [lia|assumption..].
Qed.
Lemma point_small p : is_point p -> small (fst p) /\ small (snd p).
Proof. intros H. exact (coord_range_256 p H). Qed.
Lemma coords_small ps : Forall is_point ps -> Forall small (coords ps).
Proof. induction 1 as [|p ps H _ IH]; [constructor|]. cbn [coords flat_map app]. destruct (point_small p H). constructor; [assumption|]. constructor; assumption. Qed.
Lemma coords_inj ps ps' : coords ps = coords ps' -> ps = ps'.
Proof.
  revert ps'. induction ps as [|[a b] ps IH]; intros [|[a' b'] ps'] E; try discriminate E; [reflexivity|]. unfold coords in *. cbn [flat_map app fst snd] in E.
  assert (a = a') by congruence. assert (b = b') by congruence. rewrite (IH ps') by congruence. congruence.
Qed.
Lemma coords_len ps : length (coords ps) = (2 * length ps)%nat.
Proof. unfold coords. induction ps as [|p ps IH]; [reflexivity|]. cbn [flat_map app length]. rewrite IH. lia. Qed.
(** a fixed beginning and the lengths settle the points *)
Lemma transcript_inj pre ps ps' : length ps = length ps' -> Forall is_point ps -> Forall is_point ps' -> code (coords ps) = code (coords ps') ->
  transcript (pre ++ ps) = transcript (pre ++ ps') -> ps = ps'.
Proof.
  intros L F F' C E. unfold transcript in E. rewrite !map_app, !concat_app in E. apply app_inv_head in E. change (transcript ps = transcript ps') in E.
  rewrite !transcript_coords in E. apply coords_inj. apply code_inj; [rewrite !coords_len, L; reflexivity|apply coords_small; assumption..|exact C|exact E].
Qed.

(** ** Digests of one challenge *)
Lemma two_digests r : 0 <= r < N -> cases 32 (fun h => beval h mod N =? r) <= 2.
Proof.
  intros H. rewrite (cases_beval 32 (fun z => z mod N =? r)). assert (T0 : 0 <= 256 ^ Z.of_nat 32) by (apply Z.pow_nonneg; lia).
  assert (Q : 256 ^ Z.of_nat 32 / N = 1) by (vm_compute; reflexivity).
  generalize dependent (256 ^ Z.of_nat 32). intros T T0 Q. destruct (residue_two N r T H T0) as [E|E]; rewrite E, Q; discriminate.
Qed.
Lemma cases_or_le L p q : cases L (fun t => p t || q t) <= cases L p + cases L q.
Proof. rewrite !cases_zs, <- zs_plus. apply zs_le. intros t _. destruct (p t), (q t); cbn [orb]; lia. Qed.
Definition ch (h : list Z) : Z := beval h mod N.
Lemma ch_range h : 0 <= ch h < N. Proof. apply Z.mod_pos_bound. reflexivity. Qed.
Definition apart1 (h h' : list Z) : bool := negb (ch h =? ch h').
Lemma apart1_count h : cases 32 (fun h' => negb (apart1 h h')) <= 2.
Proof.
  rewrite (cases_ext 32 _ (fun h' => beval h' mod N =? ch h)); [apply two_digests, ch_range|]. intros t _. unfold apart1. rewrite negb_involutive. apply Z.eqb_sym.
Qed.
Definition apart2 (h h' : list Z) : bool := negb (ch h =? ch h') && negb (ch h =? (- ch h') mod N).
Lemma apart2_count h : cases 32 (fun h' => negb (apart2 h h')) <= 4.
Proof.
  assert (E : cases 32 (fun h' => negb (apart2 h h')) <= cases 32 (fun h' => (beval h' mod N =? ch h) || (beval h' mod N =? (- ch h) mod N))).
  { apply cases_le. intros t _. unfold apart2. rewrite negb_andb, !negb_involutive. intros E. apply orb_true_iff in E. apply orb_true_iff.
    destruct E as [E|E]; apply Z.eqb_eq in E; [left; apply Z.eqb_eq; symmetry; exact E|right]. apply Z.eqb_eq. rewrite E. unfold ch. generalize (beval t). intros b.
    assert (Nz : N <> 0) by discriminate. generalize Nz. clear. generalize N. intros n Nz. rewrite <- (Z.sub_0_l ((- (b mod n)) mod n)), Zminus_mod_idemp_r, Z.sub_0_l, Z.opp_involutive, Zmod_mod. reflexivity. }
  etransitivity; [exact E|]. etransitivity; [apply cases_or_le|]. pose proof (two_digests (ch h) (ch_range h)).
  pose proof (two_digests ((- ch h) mod N) ltac:(apply Z.mod_pos_bound; reflexivity)). lia.
Qed.
(** at most two challenges: at most four digests *)
Lemma four_digests xs : NoDup xs -> (forall h, In h xs -> tape 32 h) ->
  (forall a b c, In a xs -> In b xs -> In c xs -> ch a = ch b \/ ch a = ch c \/ ch b = ch c) -> Z.of_nat (length xs) <= 4.
Proof.
  intros D T H. assert (X : exists r r', 0 <= r < N /\ 0 <= r' < N /\ forall h, In h xs -> ch h = r \/ ch h = r').
  { destruct xs as [|a xs]; [exists 0, 0; split; [split; [lia|reflexivity]|]; split; [split; [lia|reflexivity]|intros h []]|].
    destruct (Exists_dec (fun b => ch b <> ch a) xs) as [E|E].
    - intros b. destruct (Z.eq_dec (ch b) (ch a)) as [Q|Q]; [right; intros Z; exact (Z Q)|left; exact Q].
    - apply Exists_exists in E. destruct E as (b & Ib & Nb). exists (ch a), (ch b). split; [apply ch_range|]. split; [apply ch_range|]. intros h Ih.
      destruct (H a b h (or_introl eq_refl) (or_intror Ib) Ih) as [E|[E|E]]; [congruence|left; congruence|right; congruence].
    - exists (ch a), (ch a). split; [apply ch_range|]. split; [apply ch_range|]. intros h [->|Ih]; [left; reflexivity|].
      destruct (Z.eq_dec (ch h) (ch a)) as [Q|Q]; [left; exact Q|]. exfalso. apply E. apply Exists_exists. exists h. split; assumption. }
  destruct X as (r & r' & R1 & R2 & X).
  assert (I : incl xs (filter (fun h => (beval h mod N =? r) || (beval h mod N =? r')) (allTapes 32))).
  { intros h Ih. apply filter_In. split; [apply in_tapes, T, Ih|]. apply orb_true_iff. destruct (X h Ih) as [E|E]; [left|right]; apply Z.eqb_eq; exact E. }
  pose proof (NoDup_incl_length D I) as Ln. pose proof (cases_or_le 32 (fun h => beval h mod N =? r) (fun h => beval h mod N =? r')) as Q.
  pose proof (two_digests r R1). pose proof (two_digests r' R2). unfold cases at 1 in Q. lia.
Qed.
Lemma nodup_parts {B} (a b : list B) : NoDup (a ++ b) -> NoDup a /\ NoDup b.
Proof.
  induction a as [|x a IH]; intros D; [split; [constructor|exact D]|]. cbn [app] in D. inversion D as [|? ? Nx D']; subst. destruct (IH D') as [Da Db].
  split; [constructor; [intros I; apply Nx; apply in_app_iff; left; exact I|exact Da]|exact Db].
Qed.
(** a list whose elements fall into J classes *)
Lemma classes {B} (P : nat -> B -> Prop) (K : Z) : (forall l xs, NoDup xs -> (forall h, In h xs -> P l h) -> Z.of_nat (length xs) <= K) ->
  forall J xs, NoDup xs -> (forall h, In h xs -> exists l, (l < J)%nat /\ P l h) -> Z.of_nat (length xs) <= Z.of_nat J * K.
Proof.
  intros HK. induction J as [|J IH]; intros xs D H.
  - destruct xs as [|x xs]; [reflexivity|]. destruct (H x (or_introl eq_refl)) as (l & L & _). lia.
  - assert (S : exists a b, Permutation xs (a ++ b) /\ (forall h, In h a -> P J h) /\ (forall h, In h b -> exists l, (l < J)%nat /\ P l h)).
    { clear D. induction xs as [|x xs IHx]; [exists [], []; split; [constructor|]; split; intros h []|].
      destruct IHx as (a & b & Pm & Ha & Hb); [intros h Ih; apply H; right; exact Ih|]. destruct (H x (or_introl eq_refl)) as (l & L & Pl).
      destruct (Nat.eq_dec l J) as [->|Nl].
      - exists (x :: a), b. split; [constructor; exact Pm|]. split; [|exact Hb]. intros h [<-|Ih]; [exact Pl|apply Ha; exact Ih].
      - exists a, (x :: b). split; [apply Permutation_cons_app; exact Pm|]. split; [exact Ha|]. intros h [<-|Ih]; [exists l; split; [lia|exact Pl]|apply Hb; exact Ih]. }
    destruct S as (a & b & Pm & Ha & Hb). pose proof (Permutation_NoDup Pm D) as D2. rewrite (Permutation_length Pm), app_length, Nat2Z.inj_add.
    pose proof (HK J a (proj1 (nodup_parts _ _ D2)) Ha). pose proof (IH b (proj2 (nodup_parts _ _ D2)) Hb). rewrite Nat2Z.inj_succ. lia.
Qed.

(** ** Equivalence *)
Definition eqBad (ps : list point) (h : list Z) : Prop :=
  exists B1 R1 B2 R2 U1 U2 s, ps = [B1; R1; B2; R2; U1; U2] /\ plain R1 /\ plain R2 /\ false_equiv B1 R1 B2 R2 /\
    pm (smul s (eff B1)) (padd U1 (smul (ch h) R1)) /\ pm (smul s (eff B2)) (padd U2 (smul (ch h) R2)).
Lemma eqBad_count ps xs : Forall is_point ps -> NoDup xs -> (forall h, In h xs -> tape 32 h /\ eqBad ps h) -> Z.of_nat (length xs) <= 4.
Proof.
  intros F D H. apply (four_digests xs D); [intros h Ih; apply (H h Ih)|]. intros a b c Ia Ib Ic.
  destruct (H a Ia) as (_ & B1 & R1 & B2 & R2 & U1 & U2 & s & E & P1 & P2 & FE & A1 & A2).
  destruct (H b Ib) as (_ & B1' & R1' & B2' & R2' & U1' & U2' & s' & E' & _ & _ & _ & A1' & A2').
  destruct (H c Ic) as (_ & B1'' & R1'' & B2'' & R2'' & U1'' & U2'' & s'' & E'' & _ & _ & _ & A1'' & A2''). rewrite E in E', E''.
  assert (Q1 : (B1', R1', B2', R2', U1', U2') = (B1, R1, B2, R2, U1, U2)) by congruence. assert (Q2 : (B1'', R1'', B2'', R2'', U1'', U2'') = (B1, R1, B2, R2, U1, U2)) by congruence.
  clear E' E''. inversion Q1. inversion Q2. subst. repeat match goal with H : Forall _ (_ :: _) |- _ => inversion H; clear H; subst end.
  destruct (Z.eq_dec (ch a) (ch b)) as [|D1]; [left; assumption|]. destruct (Z.eq_dec (ch a) (ch c)) as [|D2]; [right; left; assumption|].
  destruct (Z.eq_dec (ch b) (ch c)) as [|D3]; [right; right; assumption|]. exfalso.
  assert (M : forall h, ch h mod N = ch h) by (intros h; apply Z.mod_small, ch_range).
  destruct (equiv_extract (eff B1) R1 (eff B2) R2 U1 U2 (ch a) s (ch b) s' (ch c) s'') as (e & g & t & t' & _ & _ & _ & X1 & X2); try isp; rewrite ?M; try assumption.
  - intros c0 s0 [Q|[Q|[Q|[]]]]; assert (Q3 : c0 = snd (s0, c0)) by reflexivity; inversion Q; subst; split; assumption.
  - apply FE. eexists. split; [exact X1|exact X2].
Qed.
(** any points after a fixed beginning *)
Lemma eqBad_string pre k m xs : (length pre + k)%nat = 6%nat -> NoDup xs ->
  (forall h, In h xs -> tape 32 h /\ exists ps, length ps = k /\ Forall is_point (pre ++ ps) /\ m = transcript (pre ++ ps) /\ eqBad (pre ++ ps) h) ->
  Z.of_nat (length xs) <= Z.of_nat (33 ^ (2 * k - 1)) * 4.
Proof.
  intros Lk D H.
  apply (classes (fun l h => tape 32 h /\ exists ps, length ps = k /\ Forall is_point (pre ++ ps) /\ m = transcript (pre ++ ps) /\ code (coords ps) = l /\ eqBad (pre ++ ps) h) 4).
  - intros l ys Dy Hy. destruct ys as [|y ys]; [discriminate|]. destruct (Hy y (or_introl eq_refl)) as (_ & ps & L & F & Em & C & _).
    apply (eqBad_count (pre ++ ps) _ F Dy). intros h Ih. destruct (Hy h Ih) as (T & ps' & L' & F' & Em' & C' & Bd). split; [exact T|].
    rewrite (transcript_inj pre ps ps'); [exact Bd|congruence|apply Forall_app in F; apply F|apply Forall_app in F'; apply F'|congruence|congruence].
  - exact D.
  - intros h Ih. destruct (H h Ih) as (T & ps & L & F & Em & Bd). exists (code (coords ps)). split.
    + pose proof (code_bound (coords ps) (coords_small ps (proj2 (proj1 (Forall_app _ _ _) F)))) as B. rewrite coords_len, L in B. exact B.
    + split; [exact T|]. exists ps. split; [exact L|]. split; [exact F|]. split; [exact Em|]. split; [reflexivity|exact Bd].
Qed.

Lemma asPoint_pt p : asPoint (pt p) = p. Proof. destruct p. reflexivity. Qed.
Lemma bad_of (zk : zkparams) sha B1 R1 B2 R2 p : std zk -> is_point B1 -> is_point R1 -> is_point B2 -> is_point R2 -> plain R1 -> plain R2 -> false_equiv B1 R1 B2 R2 ->
  equivPoints p -> accepts (EquivalenceVerify sha (Some p) zk (pt B1) (pt R1) (pt B2) (pt R2)) ->
  let ps := [B1; R1; B2; R2; asPoint (eqUG p); asPoint (eqUH p)] in Forall is_point ps /\ eqBad ps (sha (transcript ps)).
Proof.
  intros S H1 H2 H3 H4 P1 P2 FE (U1 & U2 & c & s & H5 & H6 & ->) A. cbn [eqUG eqUH]. rewrite !asPoint_pt. cbv zeta.
  split; [repeat (constructor; [assumption|]); constructor|]. apply (equiv_accepts sha zk S) in A; try assumption.
  rewrite (eff_plain R1), (eff_plain R2) in A by assumption. destruct A as (Ec & A1 & A2).
  exists B1, R1, B2, R2, U1, U2, s. split; [reflexivity|]. split; [exact P1|]. split; [exact P2|]. split; [exact FE|].
  change (ch (sha (transcript [B1; R1; B2; R2; U1; U2]))) with (fs sha [B1; R1; B2; R2; U1; U2]). rewrite Ec. split; assumption.
Qed.
Lemma nat_pow_33 k : Z.of_nat (33 ^ k) = 33 ^ Z.of_nat k. Proof. apply (Nat2Z.inj_pow 33 k). Qed.
Lemma equiv_chance (zk : zkparams) B1 R1 B2 R2 q f p : std zk -> is_point B1 -> is_point R1 -> is_point B2 -> is_point R2 -> plain R1 -> plain R2 ->
  false_equiv B1 R1 B2 R2 -> asks q f ->
  (forall t, tape (32 * (q + 1)) t -> p t = true -> equivPoints (says f t) /\
     accepts (EquivalenceVerify (sha f t) (Some (says f t)) zk (pt B1) (pt R1) (pt B2) (pt R2))) ->
  cases (32 * (q + 1)) p <= Z.of_nat (q + 1) * (4 * 33 ^ 3) * 256 ^ Z.of_nat (32 * q).
Proof.
  intros S H1 H2 H3 H4 P1 P2 FE Hq H. set (pre := [B1; R1; B2; R2]).
  pose (bad := fun m h => exists ps, length ps = 2%nat /\ Forall is_point (pre ++ ps) /\ m = transcript (pre ++ ps) /\ eqBad (pre ++ ps) h).
  replace (4 * 33 ^ 3) with (Z.of_nat (33 ^ (2 * 2 - 1)) * 4) by (rewrite nat_pow_33; reflexivity).
  apply (hits (fun pf => transcript (pre ++ [asPoint (eqUG pf); asPoint (eqUH pf)])) f q Hq bad).
  - intros m xs D X. apply (eqBad_string pre 2 m xs eq_refl D). exact X.
  - intros t Tt Pt. destruct (H t Tt Pt) as [E A]. destruct (bad_of zk _ _ _ _ _ _ S H1 H2 H3 H4 P1 P2 FE E A) as [F B].
    exists [asPoint (eqUG (says f t)); asPoint (eqUH (says f t))]. split; [reflexivity|]. split; [exact F|]. split; [reflexivity|exact B].
Qed.
Lemma equiv_chance_any (zk : zkparams) q (f : forger (point * point * point * point * EquivalenceProof)) p : std zk -> asks q f ->
  (forall t, tape (32 * (q + 1)) t -> p t = true -> let '(B1, R1, B2, R2, pf) := says f t in
     is_point B1 /\ is_point R1 /\ is_point B2 /\ is_point R2 /\ plain R1 /\ plain R2 /\ false_equiv B1 R1 B2 R2 /\ equivPoints pf /\
     accepts (EquivalenceVerify (sha f t) (Some pf) zk (pt B1) (pt R1) (pt B2) (pt R2))) ->
  cases (32 * (q + 1)) p <= Z.of_nat (q + 1) * (4 * 33 ^ 11) * 256 ^ Z.of_nat (32 * q).
Proof.
  intros S Hq H. pose (ptsOf := fun a : point * point * point * point * EquivalenceProof => let '(B1, R1, B2, R2, pf) := a in [B1; R1; B2; R2; asPoint (eqUG pf); asPoint (eqUH pf)]).
  pose (bad := fun m h => exists ps, length ps = 6%nat /\ Forall is_point ([] ++ ps) /\ m = transcript ([] ++ ps) /\ eqBad ([] ++ ps) h).
  replace (4 * 33 ^ 11) with (Z.of_nat (33 ^ (2 * 6 - 1)) * 4) by (rewrite nat_pow_33; reflexivity).
  apply (hits (fun a => transcript (ptsOf a)) f q Hq bad).
  - intros m xs D X. apply (eqBad_string [] 6 m xs eq_refl D). exact X.
  - intros t Tt Pt. specialize (H t Tt Pt). unfold about. destruct (says f t) as [[[[B1 R1] B2] R2] pf]. destruct H as (H1 & H2 & H3 & H4 & P1 & P2 & FE & E & A).
    destruct (bad_of zk _ _ _ _ _ _ S H1 H2 H3 H4 P1 P2 FE E A) as [F B].
    exists [B1; R1; B2; R2; asPoint (eqUG pf); asPoint (eqUH pf)]. split; [reflexivity|]. split; [exact F|]. split; [reflexivity|exact B].
Qed.

(** ** Rewinding *)
Lemma samePoint_eq p q : samePoint p q = true -> p = q.
Proof. destruct p, q. unfold samePoint. cbn [fst snd]. intros E. apply andb_prop in E. destruct E as [E1 E2]. apply Z.eqb_eq in E1, E2. congruence. Qed.
Lemma samePoint_refl p : samePoint p p = true. Proof. unfold samePoint. rewrite !Z.eqb_refl. reflexivity. Qed.
Lemma find_found {B} (p : B -> bool) l x : In x l -> p x = true -> found (find p l) = true.
Proof. intros I E. destruct (find p l) eqn:F; [reflexivity|]. pose proof (find_none p l F x I). congruence. Qed.
Lemma signs_in e g : sgn e -> sgn g -> In (e, g) signs.
Proof. intros [-> | ->] [-> | ->]; cbn [signs In]; auto. Qed.
Lemma apart2_ok h h' : apart2 h h' = true -> ch h mod N <> ch h' mod N /\ ch h mod N <> (- ch h') mod N.
Proof.
  unfold apart2. intros E. apply andb_prop in E. destruct E as [E1 E2]. apply negb_true_iff in E1, E2. apply Z.eqb_neq in E1, E2.
  rewrite !(Z.mod_small (ch _) N) by apply ch_range. split; assumption.
Qed.
Lemma apart1_ok h h' : apart1 h h' = true -> ch h <> ch h'.
Proof. unfold apart1. intros E. apply negb_true_iff in E. apply Z.eqb_neq in E. exact E. Qed.
Lemma halves n (t t' : list Z) : tape n t -> firstn n (t ++ t') = t /\ skipn n (t ++ t') = t'.
Proof. intros T. split; [apply first_pre, T|apply skip_pre, T]. Qed.

Lemma rewound_tape {B} (f : forger B) m n t t' : tape n t -> tape n t' -> tape n (rewound f m t t').
Proof.
  intros [Ft Lt] [Ft' Lt']. unfold rewound. cbv zeta. generalize (32 * before (snd (fst (play f [] t))) m)%nat. intros k. split.
  - apply Forall_app. split; [rewrite <- (firstn_skipn k t) in Ft; apply Forall_app in Ft; apply Ft|rewrite <- (firstn_skipn k t') in Ft'; apply Forall_app in Ft'; apply Ft'].
  - rewrite app_length, firstn_length, skipn_length, Lt, Lt'. lia.
Qed.
Lemma gspfs_fork (zk : zkparams) q (f : forger GSPFSProof) B A wins : std zk -> is_point A -> is_point B -> plain A -> plain B -> asks q f ->
  (forall t, tape (32 * (q + 1)) t -> wins t = true -> gspfsPoints B (says f t) /\ accepts (GSPFSVerify (sha f t) (Some (says f t)) zk (pt A))) ->
  let n := (32 * (q + 1))%nat in let W := cases n wins in
  W * W <= 33 * Z.of_nat (q + 1) * (cases (n + n) (fun t => found (gspfsFinds f B A (firstn n t) (skipn n t))) + 4 * 256 ^ Z.of_nat (32 * q) * W).
Proof.
  intros S HA HB PA PB Hq H n W.
  pose proof (fork_count (fun p => transcript [A; asPoint (gsRandCommit p)]) f q Hq wins (fun p => code (coords [asPoint (gsRandCommit p)])) (33 ^ (2 * 1 - 1)) apart2 4) as F.
  replace (33 * Z.of_nat (q + 1)) with (Z.of_nat ((q + 1) * 33 ^ (2 * 1 - 1))) by (rewrite Nat2Z.inj_mul, nat_pow_33; change (33 ^ Z.of_nat (2 * 1 - 1)) with 33; ring).
  apply F; clear F.
  - intros t Tt E. destruct (H t Tt E) as ((R & v & c & HR & ->) & _). cbn [gsRandCommit]. rewrite asPoint_pt. apply (code_bound (coords [R])).
    apply coords_small. constructor; [exact HR|constructor].
  - intros h _. apply apart2_count.
  - intros t t' Tt Tt' E t2 E2 Ab C Ap. destruct (halves n t t' Tt) as [-> ->]. unfold gspfsFinds. 
    change (found (gspfsLog B A (says f t) (says f t2)) = true).
    assert (Tt2 : tape (32 * (q + 1)) t2) by (apply rewound_tape; assumption).
    destruct (H t Tt E) as ((R & v & c & HR & Ep) & Ac). destruct (H t2 Tt2 E2) as ((R' & v' & c' & HR' & Ep') & Ac'). unfold about in *.
    rewrite Ep, Ep' in *. cbn [gsRandCommit] in *. rewrite !asPoint_pt in *.
    assert (QR : [R] = [R']).
    { apply (transcript_inj [A]); [reflexivity|constructor; [exact HR|constructor]|constructor; [exact HR'|constructor]|symmetry; exact C|symmetry; exact Ab]. }
    assert (R = R') by congruence. subst R'. apply apart2_ok in Ap. destruct Ap as [D1 D2].
    assert (Ec : ch (sha f t (transcript [A; R])) = c) by (apply (gspfs_accepts _ zk S) in Ac; try assumption; apply Ac).
    assert (Ec' : ch (sha f t2 (transcript [A; R])) = c') by (apply (gspfs_accepts _ zk S) in Ac'; try assumption; apply Ac').
    rewrite Ec, Ec' in D1, D2.
    apply (gspfs_accepts _ zk S) in Ac; try assumption. apply (gspfs_accepts _ zk S) in Ac'; try assumption. rewrite !eff_plain in Ac, Ac' by assumption.
    unfold gspfsLog. cbn [gsHiddenValue gsChallenge num].
    destruct (gspfs_extract A B R v c v' c' HA HB HR (diff_nz _ _ D1) (sum_nz _ _ D2) (proj2 Ac) (proj2 Ac')) as [Q|Q].
    + apply (find_found _ _ (((v' - v) * ninv (c - c')) mod N)); [left; reflexivity|]. rewrite <- Q. apply samePoint_refl.
    + apply (find_found _ _ ((- (v + v') * ninv (c + c')) mod N)); [right; left; reflexivity|]. rewrite <- Q. apply samePoint_refl.
Qed.
Lemma gspfs_finds_ok f B A t t' x : gspfsFinds f B A t t' = Some x -> A = smul x B.
Proof. unfold gspfsFinds, gspfsLog. intros E. apply find_some in E. destruct E as [_ E]. symmetry. apply samePoint_eq. exact E. Qed.

Lemma pair_of (a b c d : point) : [a; b] = [c; d] -> a = c /\ b = d. Proof. intros E. split; congruence. Qed.
Lemma pts2 (a b : point) : is_point a -> is_point b -> Forall is_point [a; b]. Proof. intros. constructor; [assumption|]. constructor; [assumption|constructor]. Qed.
Lemma log_found B R e g s c s' c' : sgn e -> sgn g -> R = smul (slope e g s c s' c') B -> found (logFrom B R c s c' s') = true.
Proof.
  intros Se Sg E. unfold logFrom. apply (find_found _ _ (slope e g s c s' c')); [|rewrite <- E; apply samePoint_refl].
  apply in_map_iff. exists (e, g). split; [reflexivity|apply signs_in; assumption].
Qed.
Lemma disj_fork (zk : zkparams) q (f : forger DisjunctiveProof) B1 R1 B2 R2 wins : std zk -> is_point B1 -> is_point R1 -> is_point B2 -> is_point R2 -> plain R1 -> plain R2 -> asks q f ->
  (forall t, tape (32 * (q + 1)) t -> wins t = true -> disjPoints (says f t) /\ accepts (DisjunctiveVerify (sha f t) (Some (says f t)) zk (pt B1) (pt R1) (pt B2) (pt R2))) ->
  let n := (32 * (q + 1))%nat in let W := cases n wins in
  W * W <= 33 ^ 3 * Z.of_nat (q + 1) *
    (cases (n + n) (fun t => let x := disjFinds f B1 R1 B2 R2 (firstn n t) (skipn n t) in found (fst x) || found (snd x)) + 2 * 256 ^ Z.of_nat (32 * q) * W).
Proof.
  intros S H1 H2 H3 H4 P1 P2 Hq H n W.
  pose proof (fork_count (fun p => transcript [B1; R1; B2; R2; asPoint (djT1 p); asPoint (djT2 p)]) f q Hq wins (fun p => code (coords [asPoint (djT1 p); asPoint (djT2 p)])) (33 ^ (2 * 2 - 1)) apart1 2) as F.
  replace (33 ^ 3 * Z.of_nat (q + 1)) with (Z.of_nat ((q + 1) * 33 ^ (2 * 2 - 1))) by (rewrite Nat2Z.inj_mul, nat_pow_33; change (33 ^ Z.of_nat (2 * 2 - 1)) with (33 ^ 3); ring).
  apply F; clear F.
  - intros t Tt E. destruct (H t Tt E) as ((T1 & T2 & c & c1 & c2 & s1 & s2 & HT1 & HT2 & ->) & _). cbn [djT1 djT2]. rewrite !asPoint_pt. apply (code_bound (coords [T1; T2])).
    apply coords_small. apply pts2; assumption.
  - intros h _. apply apart1_count.
  - intros t t' Tt Tt' E t2 E2 Ab C Ap. destruct (halves n t t' Tt) as [-> ->].
    assert (Tt2 : tape (32 * (q + 1)) t2) by (apply rewound_tape; assumption). cbv zeta.
    change (disjFinds f B1 R1 B2 R2 t t') with (disjLog B1 R1 B2 R2 (says f t) (says f t2)).
    destruct (H t Tt E) as ((T1 & T2 & c & c1 & c2 & s1 & s2 & HT1 & HT2 & Ep) & Ac).
    destruct (H t2 Tt2 E2) as ((T1' & T2' & c' & c1' & c2' & s1' & s2' & HT1' & HT2' & Ep') & Ac'). unfold about in *.
    rewrite Ep, Ep' in *. cbn [djT1 djT2] in *. rewrite !asPoint_pt in *.
    assert (QR : [T1; T2] = [T1'; T2']).
    { apply (transcript_inj [B1; R1; B2; R2]); [reflexivity|apply pts2; assumption|apply pts2; assumption|symmetry; exact C|symmetry; exact Ab]. }
    destruct (pair_of _ _ _ _ QR) as [<- <-]. apply apart1_ok in Ap.
    apply (disj_accepts _ zk S) in Ac; try assumption. apply (disj_accepts _ zk S) in Ac'; try assumption.
    rewrite (eff_plain R1), (eff_plain R2) in Ac, Ac' by assumption.
    destruct Ac as (Ec & Es & A1 & A2), Ac' as (Ec' & Es' & A1' & A2').
    change (fs (sha f t) [B1; R1; B2; R2; T1; T2]) with (ch (sha f t (transcript [B1; R1; B2; R2; T1; T2]))) in Ec.
    change (fs (sha f t2) [B1; R1; B2; R2; T1; T2]) with (ch (sha f t2 (transcript [B1; R1; B2; R2; T1; T2]))) in Ec'.
    rewrite Ec, Ec', <- Es, <- Es' in Ap. unfold disjLog. cbn [djC1 djC2 djS1 djS2 num fst snd]. apply orb_true_iff.
    destruct (split_challenge _ _ _ _ Ap) as [K|K].
    + left. destruct (disj_branch (eff B1) R1 T1 c1 s1 c1' s1') as (e & g & Se & Sg & Q); try isp; try assumption. exact (log_found _ _ e g _ _ _ _ Se Sg Q).
    + right. rewrite padd_comm in A2, A2' by isp.
      destruct (disj_branch (eff B2) R2 T2 c2 s2 c2' s2') as (e & g & Se & Sg & Q); try isp; try assumption. exact (log_found _ _ e g _ _ _ _ Se Sg Q).
Qed.
Lemma log_ok B R c s c' s' x : logFrom B R c s c' s' = Some x -> R = smul x B.
Proof. unfold logFrom. intros E. apply find_some in E. destruct E as [_ E]. symmetry. apply samePoint_eq. exact E. Qed.
Lemma disj_finds_ok f B1 R1 B2 R2 t t' x : (fst (disjFinds f B1 R1 B2 R2 t t') = Some x -> R1 = smul x (eff B1)) /\ (snd (disjFinds f B1 R1 B2 R2 t t') = Some x -> R2 = smul x (eff B2)).
Proof. split; apply log_ok. Qed.

Lemma open_pair CM T1 c1 a1 b1 c2 a2 b2 : is_point CM -> is_point T1 -> c1 mod N <> c2 mod N ->
  pm (ped a1 b1) (padd T1 (smul c1 CM)) -> pm (ped a2 b2) (padd T1 (smul c2 CM)) ->
  exists e g, sgn e /\ sgn g /\ CM = ped (slope e g a1 c1 a2 c2) (slope e g b1 c1 b2 c2).
Proof.
  intros H1 H2 D A1 A2. apply pm_sgn in A1 as (e & Se & E); [|isp]. apply pm_sgn in A2 as (g & Sg & F); [|isp].
  exists e, g. split; [exact Se|]. split; [exact Sg|].
  apply (cons_pair CM O O T1 O c1 a1 b1 c2 a2 b2 e e g g); try isp; try assumption; rewrite ?smul_O, ?padd_O_l; try (left; split; reflexivity); reflexivity.
Qed.
Lemma cons_fork (zk : zkparams) q (f : forger ConsistencyProof) CM CMTok PK wins : std zk -> is_point CM -> is_point CMTok -> is_point PK -> plain CM -> asks q f ->
  (forall t, tape (32 * (q + 1)) t -> wins t = true -> consPoints (says f t) /\ accepts (ConsistencyVerify (sha f t) (Some (says f t)) zk (pt CM) (pt CMTok) (pt PK))) ->
  let n := (32 * (q + 1))%nat in let W := cases n wins in
  W * W <= 33 ^ 3 * Z.of_nat (q + 1) * (cases (n + n) (fun t => found (consFinds f CM CMTok PK (firstn n t) (skipn n t))) + 2 * 256 ^ Z.of_nat (32 * q) * W).
Proof.
  intros S H1 H2 H3 P1 Hq H n W. set (pre := [G; Hgen; CM; CMTok; PK]).
  pose proof (fork_count (fun p => transcript (pre ++ [asPoint (cnT1 p); asPoint (cnT2 p)])) f q Hq wins (fun p => code (coords [asPoint (cnT1 p); asPoint (cnT2 p)])) (33 ^ (2 * 2 - 1)) apart1 2) as F.
  replace (33 ^ 3 * Z.of_nat (q + 1)) with (Z.of_nat ((q + 1) * 33 ^ (2 * 2 - 1))) by (rewrite Nat2Z.inj_mul, nat_pow_33; change (33 ^ Z.of_nat (2 * 2 - 1)) with (33 ^ 3); ring).
  apply F; clear F.
  - intros t Tt E. destruct (H t Tt E) as ((T1 & T2 & c & s1 & s2 & HT1 & HT2 & ->) & _). cbn [cnT1 cnT2]. rewrite !asPoint_pt. apply (code_bound (coords [T1; T2])).
    apply coords_small. apply pts2; assumption.
  - intros h _. apply apart1_count.
  - intros t t' Tt Tt' E t2 E2 Ab C Ap. destruct (halves n t t' Tt) as [-> ->].
    assert (Tt2 : tape (32 * (q + 1)) t2) by (apply rewound_tape; assumption).
    change (consFinds f CM CMTok PK t t') with (consOpening CM (says f t) (says f t2)).
    destruct (H t Tt E) as ((T1 & T2 & c & s1 & s2 & HT1 & HT2 & Ep) & Ac). destruct (H t2 Tt2 E2) as ((T1' & T2' & c' & s1' & s2' & HT1' & HT2' & Ep') & Ac'). unfold about in *.
    rewrite Ep, Ep' in *. cbn [cnT1 cnT2] in *. rewrite !asPoint_pt in *.
    assert (QR : [T1; T2] = [T1'; T2']).
    { apply (transcript_inj pre); [reflexivity|apply pts2; assumption|apply pts2; assumption|symmetry; exact C|symmetry; exact Ab]. }
    destruct (pair_of _ _ _ _ QR) as [<- <-]. apply apart1_ok in Ap.
    apply (cons_accepts _ zk S) in Ac; try assumption. apply (cons_accepts _ zk S) in Ac'; try assumption.
    rewrite (eff_plain CM) in Ac, Ac' by assumption. destruct Ac as (Ec & A1 & _), Ac' as (Ec' & A1' & _).
    change (fs (sha f t) [G; Hgen; CM; CMTok; PK; T1; T2]) with (ch (sha f t (transcript (pre ++ [T1; T2])))) in Ec.
    change (fs (sha f t2) [G; Hgen; CM; CMTok; PK; T1; T2]) with (ch (sha f t2 (transcript (pre ++ [T1; T2])))) in Ec'.
    assert (D : c mod N <> c' mod N) by (rewrite <- Ec, <- Ec', !(Z.mod_small (ch _) N) by apply ch_range; exact Ap).
    destruct (open_pair CM T1 c s1 s2 c' s1' s2' H1 HT1 D A1 A1') as (e & g & Se & Sg & Q).
    unfold consOpening. cbn [cnS1 cnS2 cnChallenge num].
    apply (find_found _ _ (slope e g s1 c s1' c', slope e g s2 c s2' c')); [|cbn [fst snd]; rewrite <- Q; apply samePoint_refl].
    apply in_map_iff. exists (e, g). split; [reflexivity|apply signs_in; assumption].
Qed.
Lemma cons_finds_ok f CM CMTok PK t t' v r : consFinds f CM CMTok PK t t' = Some (v, r) -> CM = ped v r.
Proof. unfold consFinds, consOpening. intros E. apply find_some in E. destruct E as [_ E]. symmetry. apply samePoint_eq. exact E. Qed.
