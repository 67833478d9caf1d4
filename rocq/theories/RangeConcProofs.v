(** * Proofs about interleavings of range proof goroutines (proof only) *)
From Coq Require Import ZArith List Bool Arith Lia.
From Verif Require Import Go Wire Big Crypto Range RangeConc.
Import ListNotations.
Open Scope nat_scope.

(** ** Lists *)
Section Upd.
Context {A : Type}.
Lemma upd_length (l : list A) i x : length (upd l i x) = length l.
Proof. revert i. induction l as [|a l IH]; intros [|i]; cbn; [reflexivity..|]. rewrite IH. reflexivity. Qed.
Lemma upd_same (l : list A) i x : i < length l -> nth_error (upd l i x) i = Some x.
Proof. revert i. induction l as [|a l IH]; intros [|i] H; cbn in *; [lia|lia|reflexivity|]. apply IH. lia. Qed.
Lemma upd_other (l : list A) i j x : i <> j -> nth_error (upd l i x) j = nth_error l j.
Proof. revert i j. induction l as [|a l IH]; intros [|i] [|j] H; cbn; try reflexivity; [lia|]. apply IH. lia. Qed.
Lemma nth_lt (l : list A) i x : nth_error l i = Some x -> i < length l.
Proof. intros H. apply nth_error_Some. congruence. Qed.
Lemma upd_cases (l : list A) i x j y : nth_error (upd l i x) j = Some y -> (j = i /\ y = x) \/ (j <> i /\ nth_error l j = Some y).
Proof.
  intros H. destruct (Nat.eq_dec i j) as [->|D].
  - left. assert (L : j < length l) by (rewrite <- (upd_length l j x); exact (nth_lt _ _ _ H)). rewrite upd_same in H by exact L. split; congruence.
  - right. rewrite upd_other in H by exact D. split; [lia|exact H].
Qed.
Definition cnt (P : A -> bool) (l : list A) : nat := length (filter P l).
Lemma cnt_upd P (l : list A) i a x : nth_error l i = Some a ->
  cnt P (upd l i x) + Nat.b2n (P a) = cnt P l + Nat.b2n (P x).
Proof.
  revert i. unfold cnt. induction l as [|b l IH]; intros [|i] H; cbn in H; try discriminate.
  - injection H as ->. cbn. destruct (P a), (P x); cbn; lia.
  - cbn [upd filter]. specialize (IH i H). destruct (P b); cbn [length]; lia.
Qed.
Lemma cnt_le P (l : list A) : cnt P l <= length l.
Proof. unfold cnt. induction l as [|a l IH]; cbn; [lia|]. destruct (P a); cbn; lia. Qed.
Lemma cnt_all P (l : list A) : cnt P l = length l -> forall i a, nth_error l i = Some a -> P a = true.
Proof.
  unfold cnt. induction l as [|b l IH]; intros H [|i] a E; cbn in *; try discriminate; pose proof (cnt_le P l) as L; unfold cnt in L.
  - injection E as ->. destruct (P a); [reflexivity|cbn in H; lia].
  - destruct (P b); cbn in H; [apply (IH ltac:(lia) i); exact E|lia].
Qed.
Lemma cnt_all_conv P (l : list A) : (forall i a, nth_error l i = Some a -> P a = true) -> cnt P l = length l.
Proof.
  unfold cnt. induction l as [|b l IH]; intros H; cbn; [reflexivity|]. rewrite (H 0 b eq_refl). cbn. rewrite IH; [reflexivity|].
  intros i a E. exact (H (S i) a E).
Qed.
Lemma cnt_none P (l : list A) : (forall i a, nth_error l i = Some a -> P a = false) -> cnt P l = 0.
Proof.
  unfold cnt. induction l as [|b l IH]; intros H; cbn; [reflexivity|]. rewrite (H 0 b eq_refl). apply IH. intros i a E. exact (H (S i) a E).
Qed.
Lemma cnt_lt P (l : list A) : cnt P l < length l -> exists i a, nth_error l i = Some a /\ P a = false.
Proof.
  unfold cnt. induction l as [|b l IH]; cbn; intros H; [lia|]. destruct (P b) eqn:E.
  - cbn in H. destruct IH as (i & a & Ha & Pa); [lia|]. exists (S i), a. split; assumption.
  - exists 0, b. split; [reflexivity|exact E].
Qed.
Lemma nth_repeat (x : A) n i y : nth_error (repeat x n) i = Some y -> y = x.
Proof. intros H. apply nth_error_In in H. apply repeat_spec in H. exact H. Qed.
Lemma firstn_nth (l : list A) k e : nth_error l k = Some e -> firstn (S k) l = firstn k l ++ [e].
Proof. revert k. induction l as [|a l IH]; intros [|k] H; cbn in H; try discriminate; [injection H as ->; reflexivity|]. cbn. f_equal. apply IH. exact H. Qed.
Lemma NoDup_app_end (l : list A) x : NoDup l -> ~ In x l -> NoDup (l ++ [x]).
Proof. intros H D. apply (NoDup_Add (a := x) (l := l)); [|split; assumption]. rewrite <- (app_nil_r l) at 1. apply Add_app. Qed.
Lemma nth_firstn (l : list A) a b : a < b -> nth_error (firstn b l) a = nth_error l a.
Proof. revert a b. induction l as [|x l IH]; intros [|a] [|b] L; cbn; try reflexivity; try lia. apply IH. lia. Qed.
(** a weight *)
Fixpoint total (w : A -> nat) (l : list A) : nat := match l with [] => 0 | a :: t => w a + total w t end.
Lemma total_upd w (l : list A) i a x : nth_error l i = Some a -> total w (upd l i x) + w a = total w l + w x.
Proof. revert i. induction l as [|b l IH]; intros [|i] H; cbn in H; try discriminate; cbn; [injection H as ->; lia|]. specialize (IH i H). lia. Qed.
End Upd.

(** ** Executions *)
Section Exec.
Context {A : Type} (next : thread -> A -> option (conf A)).
Lemma exec_app s1 s2 a : exec next (s1 ++ s2) a = match exec next s1 a with Crash => Crash | Run b => exec next s2 b end.
Proof. revert a. induction s1 as [|t r IH]; intros a; cbn; [reflexivity|]. destruct (next t a) as [[b|]|]; [apply IH|reflexivity|apply IH]. Qed.
Lemma exec_inv (I : A -> Prop) (Q : Prop) : (forall t a b, I a -> next t a = Some (Run b) -> I b) ->
  (forall t a, I a -> next t a = Some Crash -> Q) -> forall s a, I a -> match exec next s a with Run b => I b | Crash => Q end.
Proof.
  intros HR HC. induction s as [|t r IH]; intros a Ha; cbn; [exact Ha|]. destruct (next t a) as [[b|]|] eqn:E.
  - apply IH. eapply HR; eassumption.
  - eapply HC; eassumption.
  - apply IH. exact Ha.
Qed.
Lemma nsteps_bound (m : A -> nat) : (forall t a b, next t a = Some (Run b) -> m b < m a) -> (forall t a, next t a = Some Crash -> 0 < m a) ->
  forall s a, nsteps next s a <= m a.
Proof.
  intros HR HC. induction s as [|t r IH]; intros a; cbn; [lia|]. destruct (next t a) as [[b|]|] eqn:E.
  - specialize (HR _ _ _ E). specialize (IH b). lia.
  - specialize (HC _ _ E). lia.
  - apply IH.
Qed.
(** every state has a schedule to a crash or to a state in which [fin] holds *)
Lemma exec_finish (I fin : A -> Prop) (m : A -> nat) : (forall t a b, I a -> next t a = Some (Run b) -> I b) ->
  (forall t a b, next t a = Some (Run b) -> m b < m a) ->
  (forall a, I a -> fin a \/ exists t c, next t a = Some c) ->
  forall a, I a -> exists s, match exec next s a with Run b => I b /\ fin b | Crash => True end.
Proof.
  intros HI HM HP a. remember (m a) as n eqn:E. revert a E. induction n as [n IH] using lt_wf_ind. intros a -> Ha.
  destruct (HP a Ha) as [F|(t & [b|] & Et)].
  - exists []. cbn. split; assumption.
  - destruct (IH (m b) (HM _ _ _ Et) b eq_refl (HI _ _ _ Ha Et)) as [s Hs]. exists (t :: s). cbn. rewrite Et. exact Hs.
  - exists [t]. cbn. rewrite Et. exact Logic.I.
Qed.
End Exec.

(** ** The verifier *)
Definition isSent (g : vgor) : bool := match g with GSent => true | _ => false end.
Definition isReady (g : vgor) : bool := match g with GReady _ => true | _ => false end.
Definition isBorn (g : vgor) : bool := match g with GUnborn => false | _ => true end.
Definition sentN (g : list vgor) : nat := cnt isSent g.
(** entry k is the first nil entry *)
Definition firstNil (ts : list rangeProofTuple) (k : nat) : Prop :=
  (exists e, nth_error ts k = Some e /\ tupleNil e = true) /\ existsb tupleNil (firstn k ts) = false.

Local Arguments cnt : simpl never. Local Arguments sentN : simpl never. Local Arguments firstn : simpl never.
Local Arguments upd : simpl never. Local Arguments chanCap : simpl never. Local Arguments Nat.ltb : simpl never.
Section V.
Variables (sha : list Z -> list Z) (zk : zkparams) (pf : RangeProof) (comm : ECPoint).
Let ts := rpTuples pf.
Let n := length ts.
Let next := vnext sha zk pf comm.
Definition P (j : nat) (p : ECPoint) : Prop := exists e, nth_error ts j = Some e /\ verifyGen sha zk j (rpE pf) e = Ok p.
Definition received (m : vmain) (j : nat) (p : ECPoint) : Prop :=
  match m with VSpawn _ => False | VRecv _ rs _ => nth_error rs j = Some p | VDone _ => True end.
Definition goodG (m : vmain) (ch : list (nat * ECPoint)) (j : nat) (g : vgor) : Prop :=
  match g with
  | GUnborn | GStart => True
  | GReady p => P j p
  | GSent => exists p, P j p /\ (In (j, p) ch \/ received m j p)
  end.
Definition goodM (s : vstate) : Prop :=
  match vm s with
  | VSpawn i => i <= n /\ (forall j g, nth_error (vg s) j = Some g -> isBorn g = (j <? i)) /\ sentN (vg s) = length (vch s) /\
                existsb tupleNil (firstn i ts) = false
  | VRecv k rs tot => k <= n /\ (forall j g, nth_error (vg s) j = Some g -> isBorn g = true) /\ sentN (vg s) = length (vch s) + k /\
                length rs = n /\ sumC zk ZeroPoint (firstn k ts) = Ok tot /\ existsb tupleNil ts = false
  | VDone r => RangeVerify sha (Some pf) zk comm = Ok r /\
               ((exists k, firstNil ts k /\ (forall j g, nth_error (vg s) j = Some g -> isBorn g = (j <? k)) /\ sentN (vg s) = length (vch s)) \/
                (existsb tupleNil ts = false /\ sentN (vg s) = n /\ vch s = []))
  end.
Record vinv (s : vstate) : Prop := {
  vi_len : length (vg s) = n;
  vi_g : forall j g, nth_error (vg s) j = Some g -> goodG (vm s) (vch s) j g;
  vi_ch : forall j p, In (j, p) (vch s) -> nth_error (vg s) j = Some GSent /\ P j p;
  vi_nd : NoDup (map fst (vch s));
  vi_cap : length (vch s) <= chanCap;
  vi_born : forall j g, nth_error (vg s) j = Some g -> isBorn g = true -> existsb tupleNil (firstn (S j) ts) = false;
  vi_m : goodM s }.

Lemma P_fun j p q : P j p -> P j q -> p = q.
Proof. intros (e & E1 & E2) (e' & E1' & E2'). rewrite E1 in E1'. injection E1' as <-. rewrite E2 in E2'. injection E2' as <-. reflexivity. Qed.
Lemma vinit_inv : vinv (vinit pf).
Proof.
  constructor; cbn.
  - apply repeat_length.
  - intros j g H. apply nth_repeat in H. subst. exact I.
  - contradiction.
  - constructor.
  - unfold chanCap. lia.
  - intros j g H. apply nth_repeat in H. subst. discriminate.
  - split; [lia|]. split; [|split; [|reflexivity]].
    + intros j g H. apply nth_repeat in H. subst. reflexivity.
    + unfold sentN. apply cnt_none. intros j g H. apply nth_repeat in H. subst. reflexivity.
Qed.
Lemma nil_in k e : nth_error ts k = Some e -> tupleNil e = true -> existsb tupleNil ts = true.
Proof. intros H E. apply existsb_exists. exists e. split; [eapply nth_error_In; exact H|exact E]. Qed.
Lemma verifyAll_ext (rs : list ECPoint) : forall l i, length rs = length l ->
  (forall j e, nth_error l j = Some e -> exists p, nth_error rs j = Some p /\ verifyGen sha zk (i + j) (rpE pf) e = Ok p) ->
  verifyAll sha zk (rpE pf) i l = Ok rs.
Proof.
  intros l. revert rs. induction l as [|e l IH]; intros [|p rs] i L H; cbn in L; try discriminate; cbn [verifyAll]; [reflexivity|].
  destruct (H 0 e eq_refl) as (q & Eq & Ev). cbn in Eq. injection Eq as <-. rewrite Nat.add_0_r in Ev. rewrite Ev. cbn [bind].
  rewrite (IH rs (S i)); [reflexivity|lia|]. intros j e' E'. destruct (H (S j) e' E') as (p' & Ep & Ev'). exists p'. split; [exact Ep|].
  rewrite <- Ev'. f_equal. lia.
Qed.
Lemma verifyAll_panic : forall l i j e, nth_error l j = Some e -> verifyGen sha zk (i + j) (rpE pf) e = Panic ->
  verifyAll sha zk (rpE pf) i l = Panic.
Proof.
  induction l as [|a l IH]; intros i [|j] e H E; cbn in H; try discriminate; cbn [verifyAll].
  - injection H as ->. rewrite Nat.add_0_r in E. rewrite E. reflexivity.
  - destruct (verifyGen sha zk i (rpE pf) a); cbn [bind]; [|reflexivity]. rewrite (IH (S i) j e H); [reflexivity|]. rewrite <- E. f_equal. lia.
Qed.
Lemma sumC_app l l' a : sumC zk a (l ++ l') = bind (sumC zk a l) (fun b => sumC zk b l').
Proof. revert a. induction l as [|t l IH]; intros a; cbn [sumC app]; [reflexivity|]. destruct (Add zk a (rtC t)); cbn [bind]; [apply IH|reflexivity]. Qed.
Lemma verify_panic_sum : existsb tupleNil ts = false -> sumC zk ZeroPoint ts = Panic -> RangeVerify sha (Some pf) zk comm = Panic.
Proof. intros E H. unfold RangeVerify. fold ts. rewrite E. destruct (verifyAll _ _ _ _ _); cbn [bind]; [rewrite H|]; reflexivity. Qed.
Lemma all_received k rs tot ch g : vinv (VS (VRecv k rs tot) ch g) -> nth_error ts k = None ->
  k = n /\ ch = [] /\ sentN g = n /\ verifyAll sha zk (rpE pf) 0 ts = Ok rs /\ sumC zk ZeroPoint ts = Ok tot.
Proof.
  intros [L G C ND CAP B M] Hk. cbn in *. destruct M as (Kn & Bo & Se & Lr & Su & Ni).
  apply nth_error_None in Hk. fold n in Hk. assert (k = n) by lia. subst k. clear Hk Kn.
  pose proof (cnt_le isSent g) as CL. unfold sentN in *. assert (ch = []) by (destruct ch; [reflexivity|cbn in Se; lia]). subst ch.
  split; [reflexivity|]. split; [reflexivity|]. split; [cbn in Se; lia|]. split.
  - apply verifyAll_ext; [exact Lr|]. intros j e E. assert (Lj : j < n) by exact (nth_lt _ _ _ E). rewrite <- L in Lj.
    destruct (nth_error g j) as [gs|] eqn:Eg; [|apply nth_error_None in Eg; lia].
    assert (Q : isSent gs = true) by (apply (cnt_all isSent g) with (i := j); [lia|exact Eg]).
    destruct gs; try discriminate. specialize (G _ _ Eg). cbn in G. destruct G as (p & (e' & E' & Ev) & [[]|R]).
    exists p. split; [exact R|]. rewrite E in E'. injection E' as <-. exact Ev.
  - unfold n in Su. rewrite firstn_all in Su. exact Su.
Qed.

Lemma vinv_step t s s' : vinv s -> next t s = Some (Run s') -> vinv s'.
Proof.
  intros Hi H. destruct s as [m ch g]. destruct t as [|i]; cbn in H.
  - destruct m as [i|k rs tot|r]; cbn in H; [| |discriminate].
    + fold ts in H. destruct (nth_error ts i) as [e|] eqn:Ei.
      * destruct Hi as [L G C ND CAP B M]. cbn in *. destruct M as (In_ & Bo & Se & Ni).
        destruct (tupleNil e) eqn:Te; injection H as <-; constructor; cbn; auto.
        -- intros j x Hx. specialize (G j x Hx). destruct x; cbn in *; auto. destruct G as (p & Pp & [Q|[]]). exists p. auto.
        -- split.
           ++ unfold RangeVerify. fold ts. rewrite (nil_in i e Ei Te). reflexivity.
           ++ left. exists i. split; [split; [exists e; auto|exact Ni]|]. auto.
        -- rewrite upd_length. exact L.
        -- intros j x Hx. apply upd_cases in Hx. destruct Hx as [[-> ->]|[D Hx]]; [exact I|]. specialize (G j x Hx). destruct x; cbn in *; auto.
        -- intros j p Hj. destruct (C j p Hj) as [Q1 Q2]. split; [|exact Q2]. rewrite upd_other; [exact Q1|].
           intros ->. specialize (Bo _ _ Q1). cbn in Bo. symmetry in Bo. apply Nat.ltb_lt in Bo. lia.
        -- intros j x Hx Bx. apply upd_cases in Hx. destruct Hx as [[-> ->]|[D Hx]]; [|eapply B; eauto].
           rewrite (firstn_nth _ _ _ Ei), existsb_app, Ni. cbn. rewrite Te. reflexivity.
        -- split; [apply nth_lt in Ei; unfold n; lia|]. split; [|split].
           ++ intros j x Hx. apply upd_cases in Hx. destruct Hx as [[-> ->]|[D Hx]].
              ** cbn. symmetry. apply Nat.ltb_lt. lia.
              ** rewrite (Bo j x Hx). destruct (Nat.ltb_spec j i), (Nat.ltb_spec j (S i)); try reflexivity; lia.
           ++ assert (Li : i < length g) by (apply nth_lt in Ei; unfold n in L; lia).
              destruct (nth_error g i) as [x|] eqn:Eg; [|apply nth_error_None in Eg; lia].
              pose proof (cnt_upd isSent g i x GStart Eg) as Q. specialize (Bo _ _ Eg). rewrite Nat.ltb_irrefl in Bo.
              destruct x; try discriminate. cbn in Q. unfold sentN in *. lia.
           ++ rewrite (firstn_nth _ _ _ Ei), existsb_app, Ni. cbn. rewrite Te. reflexivity.
      * destruct Hi as [L G C ND CAP B M]. cbn in *. destruct M as (In_ & Bo & Se & Ni). apply nth_error_None in Ei. fold n in Ei.
        assert (i = n) by lia. subst i. injection H as <-. constructor; cbn; auto.
        -- intros j x Hx. specialize (G j x Hx). destruct x; cbn in *; auto. destruct G as (p & Pp & [Q|[]]). exists p. auto.
        -- split; [lia|]. split; [|split; [lia|split; [apply repeat_length|split; [reflexivity|unfold n in Ni; rewrite firstn_all in Ni; exact Ni]]]].
           intros j x Hx. rewrite (Bo j x Hx). apply Nat.ltb_lt. apply nth_lt in Hx. lia.
    + fold ts in H. destruct (nth_error ts k) as [e|] eqn:Ek.
      * destruct Hi as [L G C ND CAP B M]. cbn in *. destruct M as (Kn & Bo & Se & Lr & Su & Ni).
        destruct ch as [|[i p] c]; [discriminate|]. destruct (Add zk tot (rtC e)) as [tot'|] eqn:Ea; [|discriminate]. injection H as <-.
        cbn in *. apply NoDup_cons_iff in ND. destruct ND as [ND1 ND2].
        constructor; cbn; auto; try lia.
        -- intros j x Hx. pose proof (G j x Hx) as Gx. destruct x; cbn in *; auto. destruct Gx as (q & Pq & Q). exists q. split; [exact Pq|].
           destruct (Nat.eq_dec i j) as [->|D].
           ++ right. destruct (C j p (or_introl eq_refl)) as [_ Pp]. rewrite (P_fun j q p Pq Pp). apply upd_same.
              rewrite Lr. rewrite <- L. exact (nth_lt _ _ _ Hx).
           ++ destruct Q as [[Q|Q]|Q]; [injection Q; intros; congruence|left; exact Q|right; rewrite upd_other by exact D; exact Q].
        -- split; [apply nth_lt in Ek; unfold n; lia|]. split; [exact Bo|]. split; [lia|]. split; [rewrite upd_length; exact Lr|]. split; [|exact Ni].
           rewrite (firstn_nth _ _ _ Ek), sumC_app, Su. cbn [bind sumC]. rewrite Ea. reflexivity.
      * destruct (all_received _ _ _ _ _ Hi Ek) as (-> & -> & Sn & VA & SU).
        destruct Hi as [L G C ND CAP B M]. cbn in *. destruct M as (_ & Bo & _ & Lr & _ & Ni).
        destruct (rangeDecide sha zk pf rs tot comm) as [r|] eqn:Er; [|discriminate]. injection H as <-.
        constructor; cbn; auto.
        -- intros j x Hx. specialize (G j x Hx). destruct x; cbn in *; auto. destruct G as (p & Pp & _). exists p. auto.
        -- split; [|right; auto]. unfold RangeVerify. fold ts. rewrite Ni, VA. cbn [bind]. rewrite SU. exact Er.
  - fold ts in H. destruct (nth_error g i) as [x|] eqn:Eg; [|discriminate].
    destruct Hi as [L G C ND CAP B M]. cbn in *.
    assert (NS : x <> GSent -> forall p, ~ In (i, p) ch) by (intros D p Q; destruct (C i p Q) as [Q1 _]; congruence).
    assert (Bx : forall j y z, isBorn x = true -> isBorn z = true -> nth_error (upd g i z) j = Some y -> isBorn y = true -> exists y', nth_error g j = Some y' /\ isBorn y' = true).
    { intros j y z H1 H2 Hy By. apply upd_cases in Hy. destruct Hy as [[-> ->]|[D Hy]]; eauto. }
    assert (Bz : forall (Z_ : nat -> bool) z, isBorn x = true -> isBorn z = true -> (forall j y, nth_error g j = Some y -> isBorn y = Z_ j) ->
                 forall j y, nth_error (upd g i z) j = Some y -> isBorn y = Z_ j).
    { intros Z_ z H1 H2 HZ j y Hy. apply upd_cases in Hy. destruct Hy as [[-> ->]|[D Hy]]; [rewrite <- (HZ _ _ Eg); congruence|eauto]. }
    destruct x as [| |p|]; try discriminate; destruct (nth_error ts i) as [e|] eqn:Ei; try discriminate.
    + destruct (verifyGen sha zk i (rpE pf) e) as [p|] eqn:Ev; [|discriminate]. injection H as <-.
      assert (SN : sentN (upd g i (GReady p)) = sentN g) by (pose proof (cnt_upd isSent g i GStart (GReady p) Eg) as Q; unfold sentN; cbn in Q; lia).
      constructor; cbn; auto.
      * rewrite upd_length. exact L.
      * intros j x Hx. apply upd_cases in Hx. destruct Hx as [[-> ->]|[D Hx]]; [exists e; auto|exact (G j x Hx)].
      * intros j q Hq. destruct (C j q Hq) as [Q1 Q2]. split; [|exact Q2]. rewrite upd_other; [exact Q1|]. intros ->. congruence.
      * intros j y Hy By. destruct (Bx j y (GReady p) eq_refl eq_refl Hy By) as (y' & Y1 & Y2). eapply B; eauto.
      * unfold goodM in *. cbn in *. rewrite SN. destruct m as [i0|k rs tot|r].
        -- destruct M as (M1 & M2 & M3). split; [exact M1|]. split; [exact (Bz _ (GReady p) eq_refl eq_refl M2)|exact M3].
        -- destruct M as (M1 & M2 & M3). split; [exact M1|]. split; [exact (Bz (fun _ => true) (GReady p) eq_refl eq_refl M2)|exact M3].
        -- destruct M as (M1 & M2). split; [exact M1|]. destruct M2 as [(k & K1 & K2 & K3)|M2]; [|right; exact M2].
           left. exists k. split; [exact K1|]. split; [exact (Bz _ (GReady p) eq_refl eq_refl K2)|exact K3].
    + destruct (Nat.ltb_spec (length ch) chanCap) as [LC|]; [|discriminate]. injection H as <-.
      assert (SN : sentN (upd g i GSent) = S (sentN g)) by (pose proof (cnt_upd isSent g i (GReady p) GSent Eg) as Q; unfold sentN; cbn in Q; lia).
      assert (Pp : P i p) by exact (G i _ Eg).
      constructor; cbn; auto.
      * rewrite upd_length. exact L.
      * intros j x Hx. apply upd_cases in Hx. destruct Hx as [[-> ->]|[D Hx]].
        -- exists p. split; [exact Pp|]. left. apply in_or_app. right. left. reflexivity.
        -- specialize (G j x Hx). destruct x; cbn in *; auto. destruct G as (q & Pq & [Q|Q]); exists q; (split; [exact Pq|]); [left; apply in_or_app; left; exact Q|right; exact Q].
      * intros j q Hq. apply in_app_or in Hq. destruct Hq as [Hq|[Hq|[]]].
        -- destruct (C j q Hq) as [Q1 Q2]. split; [|exact Q2]. rewrite upd_other; [exact Q1|]. intros ->. congruence.
        -- injection Hq as <- <-. split; [apply upd_same; exact (nth_lt _ _ _ Eg)|exact Pp].
      * rewrite map_app. cbn. apply NoDup_app_end; [exact ND|]. intros Q. apply in_map_iff in Q. destruct Q as ([j q] & Q1 & Q2). cbn in Q1. subst j.
        exact (NS ltac:(discriminate) q Q2).
      * rewrite app_length. cbn. lia.
      * intros j y Hy By. destruct (Bx j y GSent eq_refl eq_refl Hy By) as (y' & Y1 & Y2). eapply B; eauto.
      * unfold goodM in *. cbn in *. rewrite SN, app_length. cbn [length]. destruct m as [i0|k rs tot|r].
        -- destruct M as (M1 & M2 & M3 & M4). split; [exact M1|]. split; [exact (Bz _ GSent eq_refl eq_refl M2)|]. split; [lia|exact M4].
        -- destruct M as (M1 & M2 & M3 & M4). split; [exact M1|]. split; [exact (Bz (fun _ => true) GSent eq_refl eq_refl M2)|]. split; [lia|exact M4].
        -- destruct M as (M1 & M2). split; [exact M1|]. destruct M2 as [(k & K1 & K2 & K3)|(K1 & K2 & K3)].
           ++ left. exists k. split; [exact K1|]. split; [exact (Bz _ GSent eq_refl eq_refl K2)|lia].
           ++ exfalso. assert (Q : isSent (GReady p) = true) by (apply (cnt_all isSent g) with (i := i); [unfold sentN in K2; lia|exact Eg]). discriminate.
Qed.

Definition crashCause : Prop :=
  (exists j e, nth_error ts j = Some e /\ existsb tupleNil (firstn (S j) ts) = false /\ verifyGen sha zk j (rpE pf) e = Panic) \/
  (existsb tupleNil ts = false /\ RangeVerify sha (Some pf) zk comm = Panic).
Lemma vinv_crash t s : vinv s -> next t s = Some Crash -> crashCause.
Proof.
  intros Hi H. destruct s as [m ch g]. destruct t as [|i]; cbn in H.
  - destruct m as [i|k rs tot|r]; cbn in H; [|right|discriminate].
    + destruct (nth_error (rpTuples pf) i) as [e|]; [destruct (tupleNil e)|]; discriminate.
    + fold ts in H. destruct (nth_error ts k) as [e|] eqn:Ek.
      * destruct Hi as [L G C ND CAP B M]. cbn in *. destruct M as (Kn & Bo & Se & Lr & Su & Ni).
        destruct ch as [|[i p] c]; [discriminate|]. destruct (Add zk tot (rtC e)) as [tot'|] eqn:Ea; [discriminate|].
        split; [exact Ni|]. apply verify_panic_sum; [exact Ni|]. rewrite <- (firstn_skipn (S k) ts), sumC_app, (firstn_nth _ _ _ Ek), sumC_app, Su.
        cbn [bind sumC]. rewrite Ea. reflexivity.
      * destruct (all_received _ _ _ _ _ Hi Ek) as (-> & -> & Sn & VA & SU).
        destruct Hi as [L G C ND CAP B M]. cbn in *. destruct M as (_ & Bo & _ & Lr & _ & Ni).
        destruct (rangeDecide sha zk pf rs tot comm) as [r|] eqn:Er; [discriminate|].
        split; [exact Ni|]. unfold RangeVerify. fold ts. rewrite Ni, VA. cbn [bind]. rewrite SU. exact Er.
  - left. fold ts in H. destruct (nth_error g i) as [x|] eqn:Eg; [|discriminate].
    destruct x as [| |p|]; try discriminate; destruct (nth_error ts i) as [e|] eqn:Ei; try discriminate.
    + destruct (verifyGen sha zk i (rpE pf) e) as [p|] eqn:Ev; [discriminate|]. exists i, e. split; [exact Ei|]. split; [|exact Ev].
      destruct Hi as [L G C ND CAP B M]. exact (B i _ Eg eq_refl).
    + destruct (_ <? _); discriminate.
Qed.
Lemma crash_panic : existsb tupleNil ts = false -> crashCause -> RangeVerify sha (Some pf) zk comm = Panic.
Proof.
  intros Ni [(j & e & E1 & E2 & E3)|[_ H]]; [|exact H]. unfold RangeVerify. fold ts. rewrite Ni, (verifyAll_panic ts 0 j e E1 E3). reflexivity.
Qed.
(** no deadlock *)
Lemma vprogress s : vinv s -> (exists r, vm s = VDone r) \/ exists t c, next t s = Some c.
Proof.
  intros Hi. destruct s as [m ch g]. destruct m as [i|k rs tot|r]; [right..|left; exists r; reflexivity].
  - exists Main. cbn. destruct (nth_error (rpTuples pf) i) as [e|]; [destruct (tupleNil e)|]; eexists; reflexivity.
  - destruct (nth_error ts k) as [e|] eqn:Ek.
    + destruct ch as [|[i p] c].
      * destruct Hi as [L G C ND CAP B M]. cbn in *. destruct M as (Kn & Bo & Se & Lr & Su & Ni). apply nth_lt in Ek. fold n in Ek.
        destruct (cnt_lt isSent g) as (i & x & Ei & Ex); [unfold sentN in Se; lia|]. exists (Gor i). cbn. fold ts. rewrite Ei.
        assert (Li : i < n) by (rewrite <- L; exact (nth_lt _ _ _ Ei)). destruct (nth_error ts i) as [e'|] eqn:Ee; [|apply nth_error_None in Ee; fold n in Ee; lia].
        specialize (Bo _ _ Ei). destruct x as [| |p|]; try discriminate.
        -- destruct (verifyGen sha zk i (rpE pf) e'); eexists; reflexivity.
        -- eexists. reflexivity.
      * exists Main. cbn. fold ts. rewrite Ek. destruct (Add zk tot (rtC e)); eexists; reflexivity.
    + exists Main. cbn. fold ts. rewrite Ek. destruct (rangeDecide sha zk pf rs tot comm); eexists; reflexivity.
Qed.
(** termination *)
Definition wG (g : vgor) : nat := match g with GUnborn | GStart => 2 | GReady _ => 1 | GSent => 0 end.
Definition vmeasure (s : vstate) : nat :=
  match vm s with VSpawn i => (n - i) + n + 2 | VRecv k _ _ => (n - k) + 1 | VDone _ => 0 end + total wG (vg s).
Lemma wG_start g i x : nth_error g i = Some x -> isBorn x = false -> total wG (upd g i GStart) = total wG g.
Proof. intros E B. pose proof (total_upd wG g i x GStart E) as Q. destruct x; try discriminate. cbn in Q. lia. Qed.
Lemma vmeasure_step t s s' : vinv s -> next t s = Some (Run s') -> vmeasure s' < vmeasure s.
Proof.
  intros Hi H. destruct s as [m ch g]. destruct t as [|i]; cbn in H.
  - destruct m as [i|k rs tot|r]; cbn in H; [| |discriminate].
    + fold ts in H. destruct (nth_error ts i) as [e|] eqn:Ei.
      * destruct (tupleNil e); injection H as <-; unfold vmeasure; cbn [vm vg]; [lia|].
        destruct Hi as [L G C ND CAP B M]. cbn in *. destruct M as (In_ & Bo & Se & Ni). apply nth_lt in Ei. fold n in Ei.
        destruct (nth_error g i) as [x|] eqn:Eg; [|apply nth_error_None in Eg; lia].
        rewrite (wG_start _ _ _ Eg); [lia|]. rewrite (Bo _ _ Eg). apply Nat.ltb_irrefl.
      * apply nth_error_None in Ei. fold n in Ei. injection H as <-. unfold vmeasure; cbn [vm vg]. lia.
    + fold ts in H. destruct (nth_error ts k) as [e|] eqn:Ek.
      * destruct ch as [|[i p] c]; [discriminate|]. destruct (Add zk tot (rtC e)); [|discriminate]. injection H as <-. unfold vmeasure; cbn [vm vg].
        apply nth_lt in Ek. fold n in Ek. lia.
      * destruct (rangeDecide sha zk pf rs tot comm); [|discriminate]. injection H as <-. unfold vmeasure; cbn [vm vg]. lia.
  - fold ts in H. destruct (nth_error g i) as [x|] eqn:Eg; [|discriminate].
    destruct x as [| |p|]; try discriminate; destruct (nth_error ts i) as [e|] eqn:Ei; try discriminate.
    + destruct (verifyGen sha zk i (rpE pf) e) as [p|] eqn:Ev; [|discriminate]. injection H as <-. unfold vmeasure; cbn [vm vg].
      pose proof (total_upd wG g i _ (GReady p) Eg) as Q. cbn in Q. lia.
    + destruct (_ <? _); [|discriminate]. injection H as <-. unfold vmeasure; cbn [vm vg]. pose proof (total_upd wG g i _ GSent Eg) as Q. cbn in Q. lia.
Qed.
Lemma vmeasure_crash t s : next t s = Some Crash -> 0 < vmeasure s.
Proof.
  intros H. destruct s as [m ch g]. destruct t as [|i]; cbn in H; unfold vmeasure; cbn [vm vg].
  - destruct m; cbn in H; [lia|lia|discriminate].
  - destruct (nth_error g i) as [x|] eqn:Eg; [|discriminate].
    pose proof (total_upd wG g i x GSent Eg) as Q.
    destruct x as [| |p|]; try discriminate; destruct (nth_error (rpTuples pf) i); try discriminate; cbn in Q; lia.
Qed.
Lemma vmeasure_init : vmeasure (vinit pf) = 4 * n + 2.
Proof.
  unfold vmeasure. cbn [vinit vm vg]. fold ts. fold n.
  assert (Q : forall k, total wG (repeat GUnborn k) = 2 * k) by (induction k; cbn [repeat total wG]; [reflexivity|rewrite IHk; lia]). rewrite Q. lia.
Qed.
Lemma vsteps_bound s a : vinv a -> nsteps next s a <= vmeasure a.
Proof.
  revert a. induction s as [|t r IH]; intros a Ha; cbn [nsteps]; [lia|]. destruct (next t a) as [[b|]|] eqn:E.
  - pose proof (vmeasure_step _ _ _ Ha E). pose proof (IH b (vinv_step _ _ _ Ha E)). lia.
  - pose proof (vmeasure_crash _ _ E). lia.
  - apply IH. exact Ha.
Qed.
Lemma vreach sched : match exec next sched (vinit pf) with Run s => vinv s | Crash => crashCause end.
Proof. apply (exec_inv next vinv crashCause); [exact vinv_step|exact vinv_crash|exact vinit_inv]. Qed.
(** every state can be run on to one in which nothing moves *)
Definition stuck (s : vstate) : Prop := forall t, next t s = None.
Lemma any_step s : vinv s -> stuck s \/ exists t c, next t s = Some c.
Proof.
  intros Hi. destruct (vprogress s Hi) as [(r & Er)|Hp]; [|right; exact Hp].
  assert (Q : forall m, (forall i, i < m -> next (Gor i) s = None) \/ exists i c, next (Gor i) s = Some c).
  { induction m as [|m IH]; [left; intros; lia|]. destruct IH as [IH|IH]; [|right; exact IH].
    destruct (next (Gor m) s) as [c|] eqn:E; [right; exists m, c; exact E|]. left. intros i Hi'. destruct (Nat.eq_dec i m) as [->|]; [exact E|apply IH; lia]. }
  destruct (Q (length (vg s))) as [K|(i & c & K)]; [left|right; exists (Gor i), c; exact K].
  intros [|i]; [cbn; rewrite Er; reflexivity|]. destruct (Nat.lt_ge_cases i (length (vg s))) as [K1|K1]; [exact (K i K1)|].
  cbn. apply nth_error_None in K1. rewrite K1. reflexivity.
Qed.
Lemma vfinish_gen (fin : vstate -> Prop) : (forall s, vinv s -> fin s \/ exists t c, next t s = Some c) ->
  forall s, vinv s -> exists sched, match exec next sched s with Run b => vinv b /\ fin b | Crash => True end.
Proof.
  intros HP a. remember (vmeasure a) as m eqn:E. revert a E. induction m as [m IH] using lt_wf_ind. intros a -> Ha.
  destruct (HP a Ha) as [F|(t & [b|] & Et)].
  - exists []. cbn. split; assumption.
  - destruct (IH (vmeasure b) (vmeasure_step _ _ _ Ha Et) b eq_refl (vinv_step _ _ _ Ha Et)) as [s Hs]. exists (t :: s). cbn. rewrite Et. exact Hs.
  - exists [t]. cbn. rewrite Et. exact Logic.I.
Qed.
(** the leak *)
Lemma firstNil_unique k k' : firstNil ts k -> firstNil ts k' -> k = k'.
Proof.
  assert (Q : forall a b, firstNil ts a -> firstNil ts b -> ~ a < b).
  { intros a b [(e & E1 & E2) _] [_ H] L. assert (X : existsb tupleNil (firstn b ts) = true); [|congruence].
    apply existsb_exists. exists e. split; [|exact E2]. apply nth_error_In with (n := a). rewrite nth_firstn by exact L. exact E1. }
  intros H H'. pose proof (Q k k' H H'). pose proof (Q k' k H' H). lia.
Qed.
Lemma firstNil_nil k : firstNil ts k -> existsb tupleNil ts = true.
Proof. intros [(e & E1 & E2) _]. exact (nil_in k e E1 E2). Qed.
Lemma nil_first k i : firstNil ts k -> existsb tupleNil (firstn i ts) = false -> i <= k.
Proof.
  intros [(e & E1 & E2) _] H. destruct (Nat.le_gt_cases i k) as [L|L]; [exact L|]. exfalso.
  assert (X : existsb tupleNil (firstn i ts) = true); [|congruence].
  apply existsb_exists. exists e. split; [|exact E2]. apply nth_error_In with (n := k). rewrite nth_firstn by exact L. exact E1.
Qed.
Lemma sent_cap s k : firstNil ts k -> vinv s -> sentN (vg s) <= chanCap.
Proof.
  intros F Hi. pose proof (firstNil_nil k F) as X. destruct Hi as [L G C ND CAP B M]. unfold goodM in M. destruct (vm s).
  - destruct M as (_ & _ & M & _). lia.
  - destruct M as (_ & _ & _ & _ & _ & M). congruence.
  - destruct M as (_ & [(k' & _ & _ & M)|(M & _)]); [lia|congruence].
Qed.
Lemma stuck_leak s k : firstNil ts k -> vinv s -> stuck s ->
  vm s = VDone (false, Some EProof) /\ cnt isReady (vg s) + chanCap >= k /\
  (forall j g, nth_error (vg s) j = Some g -> isReady g = true \/ isSent g = true \/ isBorn g = false).
Proof.
  intros F Hi St. pose proof (firstNil_nil k F) as X. destruct (vprogress s Hi) as [(r & Er)|(t & c & K)]; [|rewrite St in K; discriminate].
  pose proof (sent_cap s k F Hi) as SC. destruct Hi as [L G C ND CAP B M]. unfold goodM in M. rewrite Er in M. destruct M as (M1 & [(k' & F' & M2 & M3)|(M2 & _)]); [|congruence].
  assert (k' = k) by (eapply firstNil_unique; eassumption). subst k'.
  assert (NB : forall j g, nth_error (vg s) j = Some g -> isReady g = true \/ isSent g = true \/ isBorn g = false).
  { intros j g Hg. destruct g as [| |p|]; cbn; auto. exfalso. specialize (St (Gor j)). cbn in St. rewrite Hg in St.
    assert (Lj : j < n) by (rewrite <- L; exact (nth_lt _ _ _ Hg)). fold ts in St. destruct (nth_error ts j) as [e|] eqn:Ee; [|apply nth_error_None in Ee; fold n in Ee; lia].
    destruct (verifyGen sha zk j (rpE pf) e); discriminate. }
  split; [|split; [|exact NB]].
  - rewrite Er. unfold RangeVerify in M1. fold ts in M1. rewrite X in M1. congruence.
  - assert (Lk : k < n) by (destruct F as [(e & E1 & _) _]; exact (nth_lt _ _ _ E1)).
    assert (Q : forall (l : list vgor) o, (forall j g, nth_error l j = Some g -> isReady g = true \/ isSent g = true \/ isBorn g = false) ->
      (forall j g, nth_error l j = Some g -> isBorn g = (j + o <? k)) -> o + length l >= k -> cnt isReady l + cnt isSent l + o >= k).
    { clear. intros l. induction l as [|x l IH]; intros o H1 H2 H3; [cbn in *; lia|].
      specialize (IH (S o)). assert (IH' : cnt isReady l + cnt isSent l + S o >= k).
      { apply IH; [intros j g Hg; exact (H1 (S j) g Hg)|intros j g Hg; rewrite (H2 (S j) g Hg); f_equal; lia|cbn in H3; lia]. }
      specialize (H1 0 x eq_refl). specialize (H2 0 x eq_refl). unfold cnt in *. cbn [filter]. destruct x as [| |p|]; cbn in *; try lia.
      symmetry in H2. apply Nat.ltb_ge in H2. lia. }
    specialize (Q (vg s) 0 NB). cbn [plus] in Q. unfold sentN in SC. assert (Q' : cnt isReady (vg s) + cnt isSent (vg s) + 0 >= k).
    { apply Q; [intros j g Hg; rewrite (M2 j g Hg); f_equal; lia|lia]. } lia.
Qed.
End V.

(** ** The prover *)
Section PR.
Variables (f : nat -> list action) (ss0 : list slot).
Let n := length ss0.
Definition goodP (j : nat) (g : pgor) (x : slot) : Prop :=
  exists x0, nth_error ss0 j = Some x0 /\
  match g with
  | PUnborn => x = x0
  | PLive acts => runActs acts x = runActs (f j) x0
  | PDead => runActs (f j) x0 = Ok x
  end.
Definition isDead (g : pgor) : bool := match g with PDead => true | _ => false end.
Record pinv (s : pstate) : Prop := {
  pi_len : length (pg s) = n;
  pi_sl : length (psl s) = n;
  pi_wg : pwg s + cnt isDead (pg s) = n;
  pi_g : forall j g x, nth_error (pg s) j = Some g -> nth_error (psl s) j = Some x -> goodP j g x;
  pi_m : match pm_ s with
         | PSpawn i => i <= n /\ forall j g, nth_error (pg s) j = Some g -> (g = PUnborn <-> i <= j)
         | PWait => forall j g, nth_error (pg s) j = Some g -> g <> PUnborn
         | PPassed => pwg s = 0
         end }.
Lemma pinit_inv : pinv (pinit ss0).
Proof.
  constructor; cbn.
  - apply repeat_length.
  - reflexivity.
  - rewrite cnt_none; [unfold n; lia|]. intros i a H. apply nth_repeat in H. subst. reflexivity.
  - intros j g x Hg Hx. apply nth_repeat in Hg. subst. exists x. split; [exact Hx|reflexivity].
  - split; [lia|]. intros j g Hg. apply nth_repeat in Hg. subst. split; [lia|reflexivity].
Qed.
Lemma pinv_step t s s' : pinv s -> pnext f t s = Some (Run s') -> pinv s'.
Proof.
  intros [L1 L2 W G M] H. destruct s as [m w sl g]. destruct t as [|i]; cbn in *.
  - destruct m as [i| |]; [| |discriminate].
    + destruct M as [Mi M]. destruct (nth_error g i) as [y|] eqn:Eg; injection H as <-; constructor; cbn; auto.
      * rewrite upd_length. exact L1.
      * assert (y = PUnborn) by (apply (M _ _ Eg); lia). subst y. pose proof (cnt_upd isDead g i _ (PLive (f i)) Eg) as Q. cbn in Q. lia.
      * intros j z x Hz Hx. apply upd_cases in Hz. destruct Hz as [[-> ->]|[D Hz]]; [|exact (G j z x Hz Hx)].
        assert (y = PUnborn) by (apply (M _ _ Eg); lia). subst y. destruct (G _ _ _ Eg Hx) as (x0 & E0 & ->). exists x0. split; [exact E0|reflexivity].
      * split; [apply nth_lt in Eg; lia|]. intros j z Hz. apply upd_cases in Hz. destruct Hz as [[-> ->]|[D Hz]]; [split; [discriminate|lia]|].
        rewrite (M j z Hz). lia.
      * apply nth_error_None in Eg. intros j z Hz E. apply (M j z Hz) in E. apply nth_lt in Hz. lia.
    + destruct w; [|discriminate]. injection H as <-. constructor; cbn; auto.
  - destruct (nth_error g i) as [y|] eqn:Eg; [|discriminate]. destruct y as [|acts|]; try discriminate.
    destruct (nth_error sl i) as [x|] eqn:Ex; [|destruct acts; discriminate]. destruct (G _ _ _ Eg Ex) as (x0 & E0 & E).
    assert (MM : forall y', y' <> PUnborn -> match m with
         | PSpawn i0 => i0 <= n /\ forall j z, nth_error (upd g i y') j = Some z -> (z = PUnborn <-> i0 <= j)
         | PWait => forall j z, nth_error (upd g i y') j = Some z -> z <> PUnborn
         | PPassed => w = 0
         end).
    { intros y' Hy. destruct m as [i0| |]; [destruct M as [M0 M]; split; [exact M0|]| |exact M]; intros j z Hz; apply upd_cases in Hz; destruct Hz as [[-> ->]|[D Hz]].
      - rewrite <- (M _ _ Eg). split; [intros; contradiction|discriminate].
      - exact (M j z Hz).
      - exact Hy.
      - exact (M j z Hz). }
    destruct acts as [|a r].
    + injection H as <-. pose proof (cnt_upd isDead g i _ PDead Eg) as Q. cbn in Q. assert (Wp : w <> 0).
      { pose proof (cnt_le isDead (upd g i PDead)) as CL. rewrite upd_length in CL. lia. }
      constructor; cbn; auto.
      * rewrite upd_length. exact L1.
      * lia.
      * intros j z x' Hz Hx. apply upd_cases in Hz. destruct Hz as [[-> ->]|[D Hz]]; [|exact (G j z x' Hz Hx)].
        rewrite Ex in Hx. injection Hx as <-. exists x0. split; [exact E0|]. cbn in E. symmetry. exact E.
      * specialize (MM PDead ltac:(discriminate)). destruct m; [exact MM|exact MM|lia].
    + cbn in E. destruct (a x) as [[x' go]|]; [|discriminate]. injection H as <-. cbn in E.
      pose proof (cnt_upd isDead g i _ (PLive (if go then r else [])) Eg) as Q. cbn in Q.
      constructor; cbn; auto.
      * rewrite upd_length. exact L1.
      * rewrite upd_length. exact L2.
      * lia.
      * intros j z x'' Hz Hx. apply upd_cases in Hz. destruct Hz as [[-> ->]|[D Hz]].
        -- rewrite upd_same in Hx by exact (nth_lt _ _ _ Ex). injection Hx as <-. exists x0. split; [exact E0|]. rewrite <- E. destruct go; reflexivity.
        -- rewrite upd_other in Hx by (intros K; apply D; symmetry; exact K). exact (G j z x'' Hz Hx).
      * exact (MM (PLive (if go then r else [])) ltac:(discriminate)).
Qed.
Lemma runAll_ext l : forall i l', length l' = length l ->
  (forall j x0, nth_error l j = Some x0 -> exists x, nth_error l' j = Some x /\ runActs (f (i + j)) x0 = Ok x) -> runAll f i l = Ok l'.
Proof.
  induction l as [|a l IH]; intros i [|b l'] L H; cbn in L; try discriminate; cbn [runAll]; [reflexivity|].
  destruct (H 0 a eq_refl) as (x & E1 & E2). cbn in E1. injection E1 as <-. rewrite Nat.add_0_r in E2. rewrite E2. cbn [bind].
  rewrite (IH (S i) l'); [reflexivity|lia|]. intros j x0 E. destruct (H (S j) x0 E) as (x & E3 & E4). exists x. split; [exact E3|]. rewrite <- E4. f_equal. f_equal. lia.
Qed.
Lemma runAll_panic l : forall i j x0, nth_error l j = Some x0 -> runActs (f (i + j)) x0 = Panic -> runAll f i l = Panic.
Proof.
  induction l as [|a l IH]; intros i [|j] x0 H E; cbn in H; try discriminate; cbn [runAll].
  - injection H as ->. rewrite Nat.add_0_r in E. rewrite E. reflexivity.
  - destruct (runActs (f i) a); cbn [bind]; [|reflexivity]. rewrite (IH (S i) j x0 H); [reflexivity|]. rewrite <- E. f_equal. f_equal. lia.
Qed.
Lemma pinv_crash t s : pinv s -> pnext f t s = Some Crash -> runAll f 0 ss0 = Panic.
Proof.
  intros [L1 L2 W G M] H. destruct s as [m w sl g]. destruct t as [|i]; cbn in *.
  - destruct m as [i| |]; [destruct (nth_error g i); discriminate|destruct w; discriminate|discriminate].
  - destruct (nth_error g i) as [y|] eqn:Eg; [|discriminate]. destruct y as [|acts|]; try discriminate.
    destruct (nth_error sl i) as [x|] eqn:Ex; [|destruct acts; discriminate]. destruct (G _ _ _ Eg Ex) as (x0 & E0 & E).
    destruct acts as [|a r]; [discriminate|]. cbn in E. destruct (a x) as [[x' go]|]; [discriminate|]. cbn in E.
    apply (runAll_panic ss0 0 i x0 E0). symmetry. exact E.
Qed.
Lemma ppassed s : pinv s -> pm_ s = PPassed -> runAll f 0 ss0 = Ok (psl s).
Proof.
  intros [L1 L2 W G M] E. rewrite E in M. apply runAll_ext; [exact L2|]. intros j x0 Ej. pose proof (nth_lt _ _ _ Ej) as Lj. fold n in Lj.
  destruct (nth_error (pg s) j) as [g|] eqn:Eg; [|apply nth_error_None in Eg; lia].
  destruct (nth_error (psl s) j) as [x|] eqn:Ex; [|apply nth_error_None in Ex; lia]. exists x. split; [reflexivity|].
  assert (D : isDead g = true) by (apply (cnt_all isDead (pg s)) with (i := j); [lia|exact Eg]).
  destruct (G _ _ _ Eg Ex) as (x1 & E1 & R). rewrite Ej in E1. injection E1 as <-. destruct g; try discriminate. exact R.
Qed.
Lemma pprogress s : pinv s -> pm_ s = PPassed \/ exists t c, pnext f t s = Some c.
Proof.
  intros [L1 L2 W G M]. destruct s as [m w sl g]. cbn in *. destruct m as [i| |]; [right..|left; reflexivity].
  - exists Main. cbn. destruct (nth_error g i); eexists; reflexivity.
  - destruct w as [|w]; [exists Main; eexists; reflexivity|].
    destruct (cnt_lt isDead g) as (i & y & Eg & D); [lia|]. exists (Gor i). cbn. rewrite Eg.
    destruct (nth_error sl i) as [x|] eqn:Ex; [|apply nth_error_None in Ex; apply nth_lt in Eg; lia].
    destruct y as [|acts|]; [exfalso; exact (M _ _ Eg eq_refl)| |discriminate].
    destruct acts as [|a r]; [eexists; reflexivity|]. destruct (a x) as [[x' go]|]; eexists; reflexivity.
Qed.
Fixpoint wF (i : nat) (l : list pgor) : nat :=
  match l with
  | [] => 0
  | PUnborn :: t => S (length (f i)) + wF (S i) t
  | PLive acts :: t => S (length acts) + wF (S i) t
  | PDead :: t => wF (S i) t
  end.
Definition w1 (i : nat) (g : pgor) : nat := match g with PUnborn => S (length (f i)) | PLive acts => S (length acts) | PDead => 0 end.
Lemma wF_upd l : forall o i a x, nth_error l i = Some a -> wF o (upd l i x) + w1 (o + i) a = wF o l + w1 (o + i) x.
Proof.
  induction l as [|b l IH]; intros o [|i] a x H; cbn in H; try discriminate.
  - injection H as ->. rewrite Nat.add_0_r. unfold upd. destruct a, x; cbn [wF w1]; lia.
  - specialize (IH (S o) i a x H). unfold upd; fold (@upd pgor). rewrite <- Nat.add_succ_comm. destruct b; cbn [wF]; lia.
Qed.
Definition pmeasure (s : pstate) : nat := match pm_ s with PSpawn i => (n - i) + 2 | PWait => 1 | PPassed => 0 end + wF 0 (pg s).
Lemma pmeasure_step t s s' : pinv s -> pnext f t s = Some (Run s') -> pmeasure s' < pmeasure s.
Proof.
  intros [L1 L2 W G M] H. destruct s as [m w sl g]. destruct t as [|i]; unfold pmeasure; cbn [pm_ pg pnext psl pwg] in *.
  - destruct m as [i| |]; [| |discriminate].
    + destruct M as [Mi M]. destruct (nth_error g i) as [y|] eqn:Eg; injection H as <-; cbn [pm_ pg]; [|lia].
      assert (y = PUnborn) by (apply (M _ _ Eg); lia). subst y. pose proof (wF_upd g 0 i _ (PLive (f i)) Eg) as Q. cbn [w1 plus] in Q. apply nth_lt in Eg. lia.
    + destruct w; [|discriminate]. injection H as <-. cbn [pm_ pg]. lia.
  - destruct (nth_error g i) as [y|] eqn:Eg; [|discriminate]. destruct y as [|acts|]; try discriminate.
    destruct (nth_error sl i) as [x|] eqn:Ex; [|destruct acts; discriminate].
    destruct acts as [|a r].
    + injection H as <-. cbn [pm_ pg]. pose proof (wF_upd g 0 i _ PDead Eg) as Q. cbn in Q. lia.
    + destruct (a x) as [[x' go]|]; [|discriminate]. injection H as <-. cbn [pm_ pg].
      pose proof (wF_upd g 0 i _ (PLive (if go then r else [])) Eg) as Q. cbn [w1 length] in Q. destruct go; cbn [length] in *; lia.
Qed.
Lemma pmeasure_crash t s : pnext f t s = Some Crash -> 0 < pmeasure s.
Proof.
  intros H. destruct s as [m w sl g]. unfold pmeasure. cbn [pm_ pg pnext psl pwg] in *. destruct t as [|i]; cbn in H.
  - destruct m; [lia|lia|discriminate].
  - destruct (nth_error g i) as [y|] eqn:Eg; [|discriminate]. destruct y as [|acts|]; try discriminate.
    pose proof (wF_upd g 0 i _ PDead Eg) as Q. cbn [w1 plus] in Q. lia.
Qed.
Lemma psteps_bound s a : pinv a -> nsteps (pnext f) s a <= pmeasure a.
Proof.
  revert a. induction s as [|t r IH]; intros a Ha; cbn [nsteps]; [lia|]. destruct (pnext f t a) as [[b|]|] eqn:E.
  - pose proof (pmeasure_step _ _ _ Ha E). pose proof (IH b (pinv_step _ _ _ Ha E)). lia.
  - pose proof (pmeasure_crash _ _ E). lia.
  - apply IH. exact Ha.
Qed.
Lemma preach sched : match exec (pnext f) sched (pinit ss0) with Run s => pinv s | Crash => runAll f 0 ss0 = Panic end.
Proof. apply (exec_inv (pnext f) pinv (runAll f 0 ss0 = Panic)); [exact pinv_step|exact pinv_crash|exact pinit_inv]. Qed.
Lemma phase_det sched r : phaseSched f sched ss0 = Some r -> r = runAll f 0 ss0.
Proof.
  unfold phaseSched. pose proof (preach sched) as H. destruct (exec (pnext f) sched (pinit ss0)) as [s|].
  - destruct (pm_ s) eqn:E; try discriminate. intros Q. injection Q as <-. symmetry. apply ppassed; assumption.
  - intros Q. injection Q as <-. symmetry. exact H.
Qed.
Lemma pfinish s : pinv s -> exists sched, match exec (pnext f) sched s with Run b => pm_ b = PPassed | Crash => True end.
Proof.
  remember (pmeasure s) as m eqn:E. revert s E. induction m as [m IH] using lt_wf_ind. intros a -> Ha.
  destruct (pprogress a Ha) as [F|(t & [b|] & Et)].
  - exists []. exact F.
  - destruct (IH (pmeasure b) (pmeasure_step _ _ _ Ha Et) b eq_refl (pinv_step _ _ _ Ha Et)) as [s Hs]. exists (t :: s). cbn. rewrite Et. exact Hs.
  - exists [t]. cbn. rewrite Et. exact Logic.I.
Qed.
Lemma phase_extends sched : exists more r, phaseSched f (sched ++ more) ss0 = Some r.
Proof.
  pose proof (preach sched) as H. unfold phaseSched. destruct (exec (pnext f) sched (pinit ss0)) as [s|] eqn:E.
  - destruct (pfinish s H) as [more Hm]. exists more. rewrite exec_app, E. destruct (exec (pnext f) more s) as [b|]; [rewrite Hm|]; eexists; reflexivity.
  - exists []. rewrite exec_app, E. eexists; reflexivity.
Qed.
End PR.
