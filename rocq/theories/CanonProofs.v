(** * Whatever the decoders accept can be written again *)
From Coq Require Import ZArith List Lia Bool.
From Verif Require Import Go Wire SpecWire WireProofs Big Crypto Gspfs Equivalence Consistency Disjunctive Abc Range
  SpecCodec CodecProofs SpecCanon.
Import ListNotations.
Open Scope Z_scope.

Definition good {A} (P : A -> Prop) (s : list Z) (r : rd A) : Prop :=
  match r with
  | ROk a t => P a /\ bytes_ok t /\ blen t < blen s
  | RErr _ t => bytes_ok t /\ blen t <= blen s
  | RPanic => True
  end.
Definition weak {A} (P : A -> Prop) (s : list Z) (r : rd A) : Prop :=
  match r with
  | ROk a t => P a /\ bytes_ok t /\ blen t <= blen s
  | RErr _ t => bytes_ok t /\ blen t <= blen s
  | RPanic => True
  end.
Lemma good_bind {A B} (P : A -> Prop) (Q : B -> Prop) s r f :
  good P s r -> (forall a t, P a -> bytes_ok t -> blen t < blen s -> weak Q t (f a t)) -> good Q s (rbind r f).
Proof.
  destruct r as [a t|e t|]; cbn [rbind good]; [|intros; assumption|intros; exact I].
  intros (H1 & H2 & H3) H. specialize (H a t H1 H2 H3). destruct (f a t) as [b u|e u|]; cbn [weak good] in *; [|destruct H; split; [assumption|lia]|exact I].
  destruct H as (K1 & K2 & K3). repeat split; [assumption|assumption|lia].
Qed.
Lemma good_weak {A} (P : A -> Prop) s r : good P s r -> weak P s r.
Proof. destruct r; cbn; intuition lia. Qed.
Lemma readFull_weak n s : bytes_ok s -> 0 <= n -> weak (fun b => bytes_ok b /\ blen b = n) s (readFull n s).
Proof.
  intros B Hn. unfold readFull. destruct (n <=? blen s) eqn:E.
  - apply Z.leb_le in E. unfold blen in *. cbn. split; [split|split].
    + rewrite <- (firstn_skipn (Z.to_nat n) s) in B. apply Forall_app in B. exact (proj1 B).
    + unfold blen. rewrite firstn_length. lia.
    + rewrite <- (firstn_skipn (Z.to_nat n) s) in B. apply Forall_app in B. exact (proj2 B).
    + unfold blen. rewrite skipn_length. lia.
  - destruct s; cbn; (split; [constructor|unfold blen; cbn [length]; lia]).
Qed.
Lemma readFull_good n s : bytes_ok s -> 0 < n -> good (fun b => bytes_ok b /\ blen b = n) s (readFull n s).
Proof.
  intros B Hn. pose proof (readFull_weak n s B ltac:(lia)) as W. unfold readFull in *. destruct (n <=? blen s) eqn:E.
  - apply Z.leb_le in E. cbn [weak good] in *. destruct W as (W1 & W2 & W3). split; [exact W1|]. split; [exact W2|].
    unfold blen in *. rewrite skipn_length. lia.
  - destruct s; exact W.
Qed.
Lemma leval_nonneg b : bytes_ok b -> 0 <= leval b.
Proof. induction 1 as [|x t Hx Ht IH]; [apply Z.le_refl|]. unfold is_byte in Hx. cbn [leval]. lia. Qed.
Lemma ReadVarInt_good s : bytes_ok s -> good (fun v => 0 <= v) s (ReadVarInt s).
Proof.
  intros B. unfold ReadVarInt, Uint8. 
  apply (good_bind (fun v => 0 <= v)).
  - apply (good_bind _ _ s _ _ (readFull_good 1 s B ltac:(lia))). intros b t (Hb & _) Ht Hl. cbn [weak]. split; [|split; [assumption|lia]].
    destruct b as [|x b]; [cbn; lia|]. inversion Hb; subst. unfold is_byte in *. cbn [nth]. lia.
  - intros d t Hd Bt Hl. unfold Uint64, Uint32, Uint16.
    assert (K : forall n m, 0 < n -> weak (fun v => 0 <= v) t
       (rbind (rbind (readFull n t) (fun b s' => ROk (leval b) s')) (fun rv s2 => if rv <? m then RErr ENonCanonical s2 else ROk rv s2))).
    { intros n m Hn. apply good_weak. apply (good_bind (fun v => 0 <= v)).
      - apply (good_bind _ _ t _ _ (readFull_good n t Bt Hn)). intros b u (Hb & _) Hu Hl2. cbn [weak]. split; [apply leval_nonneg, Hb|split; [assumption|lia]].
      - intros v u Hv Hu Hl2. destruct (v <? m); cbn [weak]; repeat split; try assumption; lia. }
    destruct (d =? 0xff); [apply K; lia|]. destruct (d =? 0xfe); [apply K; lia|]. destruct (d =? 0xfd); [apply K; lia|].
    cbn [weak]. repeat split; try assumption; lia.
Qed.
Lemma ReadVarBytes_good m s : bytes_ok s -> good (fun b => bytes_ok b /\ blen b <= blen s) s (ReadVarBytes m s).
Proof.
  intros B. unfold ReadVarBytes. apply (good_bind _ _ s _ _ (ReadVarInt_good s B)). intros v t Hv Ht Hl.
  destruct (maxAlloc <? v); [exact I|]. pose proof (readFull_weak v t Ht Hv) as W.
  unfold readFull in *. destruct (v <=? blen t) eqn:E.
  - apply Z.leb_le in E. cbn [weak] in *. destruct W as ((W1 & W2) & W3). split; [split; [exact W1|lia]|exact W3].
  - destruct t; exact W.
Qed.
Lemma beval_small b : bytes_ok b -> blen b < 2 ^ 36 -> 0 <= beval b /\ small (beval b) /\ small (- beval b).
Proof.
  intros B L. pose proof (beval_range b B) as [H0 H1]. split; [exact H0|].
  assert (K : small (beval b)).
  { unfold small. rewrite Z.abs_eq by exact H0. destruct (Z.eq_dec (beval b) 0) as [->|Hz]; [reflexivity|].
    assert (Hl : Z.log2 (beval b) < 8 * blen b).
    { apply Z.log2_lt_pow2; [lia|]. rewrite Z.pow_mul_r by (unfold blen; lia). exact H1. }
    eapply Z.lt_trans; [exact Hl|]. eapply Z.lt_le_trans; [apply Zmult_lt_compat_l; [reflexivity|exact L]|]. discriminate. }
  split; [exact K|]. unfold small in *. rewrite Z.abs_opp. exact K.
Qed.
Lemma ReadECPoint_good s : input s -> good wfPoint s (ReadECPoint s).
Proof.
  intros [B L]. unfold ReadECPoint. apply (good_bind _ _ s _ _ (ReadVarBytes_good 32 s B)). intros x t (Hx & Lx) Ht Hl.
  apply good_weak. apply (good_bind _ _ t _ _ (ReadVarBytes_good 32 t Ht)). intros y u (Hy & Ly) Hu Hl2.
  cbn [weak]. split; [|split; [assumption|lia]].
  destruct (beval_small x Hx ltac:(lia)) as (X1 & X2 & _). destruct (beval_small y Hy ltac:(lia)) as (Y1 & Y2 & _).
  exists (beval x), (beval y). repeat split; assumption.
Qed.
Lemma ReadBigInt_good s : input s -> good (fun z => wfInt (Some z)) s (ReadBigInt s).
Proof.
  intros [B L]. unfold ReadBigInt. apply (good_bind _ _ s _ _ (ReadVarBytes_good 32 s B)). intros x t (Hx & Lx) Ht Hl.
  destruct x as [|sg mag]; [exact I|]. cbn [weak]. split; [|split; [assumption|lia]].
  assert (Hm : bytes_ok mag) by (inversion Hx; assumption).
  destruct (beval_small mag Hm) as (X1 & X2 & X3); [unfold blen in *; cbn [length] in *; lia|].
  eexists. split; [reflexivity|]. destruct (sg =? 1); assumption.
Qed.
Lemma wfPoint_Zero : wfPoint ZeroPoint.
Proof. exists 0, 0. repeat split; discriminate. Qed.
(** reads with dropped errors *)
Lemma ReadECPoint__in s p t : input s -> ReadECPoint_ s = Ok (p, t) -> wfPoint p /\ input t /\ blen t <= blen s.
Proof.
  intros H E. pose proof (ReadECPoint_good s H) as W. destruct H as [B L]. unfold ReadECPoint_ in E.
  destruct (ReadECPoint s) as [a u|e u|]; cbn [good dropErr] in *; [injection E as -> ->|injection E as <- ->|discriminate].
  - destruct W as (W1 & W2 & W3). repeat split; [exact W1|exact W2|lia|lia].
  - destruct W as (W2 & W3). split; [exact wfPoint_Zero|]. repeat split; [exact W2|lia|lia].
Qed.
Lemma ReadBigInt__in s o t : input s -> ReadBigInt_ s = Ok (o, t) ->
  input t /\ blen t <= blen s /\ (there o -> wfInt o /\ blen t < blen s).
Proof.
  intros H E. pose proof (ReadBigInt_good s H) as W. destruct H as [B L]. unfold ReadBigInt_ in E.
  destruct (ReadBigInt s) as [a u|e u|]; cbn [good] in *; [injection E as <- ->|injection E as <- ->|discriminate].
  - destruct W as (W1 & W2 & W3). split; [split; [exact W2|lia]|]. split; [lia|]. intros _. split; [exact W1|exact W3].
  - destruct W as (W2 & W3). split; [split; [exact W2|lia]|]. split; [lia|]. intros K. exfalso. apply K. reflexivity.
Qed.
Ltac stepP Hin E p t W I :=
  match type of E with bind (ReadECPoint_ ?s) _ = _ =>
    let Q := fresh "Q" in destruct (ReadECPoint_ s) as [[p t]|] eqn:Q; [|discriminate E];
    cbn [bind fst snd] in E; destruct (ReadECPoint__in s p t Hin Q) as (W & I & _); clear Q end.
Ltac stepI Hin E o t I T :=
  match type of E with bind (ReadBigInt_ ?s) _ = _ =>
    let Q := fresh "Q" in destruct (ReadBigInt_ s) as [[o t]|] eqn:Q; [|discriminate E];
    cbn [bind fst snd] in E; destruct (ReadBigInt__in s o t Hin Q) as (I & _ & T); clear Q end.

Lemma gspfs_in b p : input b -> NewGSPFSProofFromBytes b = Ok (Some p, None) -> completeGSPFS p -> wfGSPFS p.
Proof.
  intros H E C. unfold NewGSPFSProofFromBytes in E. stepP H E p1 t1 W1 I1. stepP I1 E p2 t2 W2 I2. stepI I2 E o3 t3 I3 T3. stepI I3 E o4 t4 I4 T4.
  injection E as <-. unfold completeGSPFS, allThere in C. cbn [gsHiddenValue gsChallenge] in C.
  inversion C as [|? ? C1 C2]; subst. inversion C2 as [|? ? C3 _]; subst. repeat split; [exact W1|exact W2|exact (proj1 (T3 C1))|exact (proj1 (T4 C3))].
Qed.
Lemma equiv_in b p : input b -> NewEquivalenceProofFromBytes b = Ok (Some p, None) -> completeEquivalence p -> wfEquivalence p.
Proof.
  intros H E C. unfold NewEquivalenceProofFromBytes in E. stepP H E p1 t1 W1 I1. stepP I1 E p2 t2 W2 I2. stepI I2 E o3 t3 I3 T3. stepI I3 E o4 t4 I4 T4.
  injection E as <-. unfold completeEquivalence, allThere in C. cbn [eqChallenge eqHiddenValue] in C.
  inversion C as [|? ? C1 C2]; subst. inversion C2 as [|? ? C3 _]; subst. repeat split; [exact W1|exact W2|exact (proj1 (T3 C1))|exact (proj1 (T4 C3))].
Qed.
Lemma cons_in b p : input b -> NewConsistencyProofFromBytes b = Ok (Some p, None) -> completeConsistency p -> wfConsistency p.
Proof.
  intros H E C. unfold NewConsistencyProofFromBytes in E. stepP H E p1 t1 W1 I1. stepP I1 E p2 t2 W2 I2. stepI I2 E o3 t3 I3 T3. stepI I3 E o4 t4 I4 T4.
  stepI I4 E o5 t5 I5 T5.
  injection E as <-. unfold completeConsistency, allThere in C. cbn [cnChallenge cnS1 cnS2] in C.
  inversion C as [|? ? C1 C2]; subst. inversion C2 as [|? ? C3 C4]; subst. inversion C4 as [|? ? C5 _]; subst.
  repeat split; [exact W1|exact W2|exact (proj1 (T3 C1))|exact (proj1 (T4 C3))|exact (proj1 (T5 C5))].
Qed.
Lemma disj_in b p : input b -> NewDisjunctiveProofFromBytes b = Ok (Some p, None) -> completeDisjunctive p -> wfDisjunctive p.
Proof.
  intros H E C. unfold NewDisjunctiveProofFromBytes in E. stepP H E p1 t1 W1 I1. stepP I1 E p2 t2 W2 I2. stepI I2 E o3 t3 I3 T3. stepI I3 E o4 t4 I4 T4.
  stepI I4 E o5 t5 I5 T5. stepI I5 E o6 t6 I6 T6. stepI I6 E o7 t7 I7 T7.
  injection E as <-. unfold completeDisjunctive, allThere in C. cbn [djC djC1 djC2 djS1 djS2] in C.
  inversion C as [|? ? C1 C2]; subst. inversion C2 as [|? ? C3 C4]; subst. inversion C4 as [|? ? C5 C6]; subst.
  inversion C6 as [|? ? C7 C8]; subst. inversion C8 as [|? ? C9 _]; subst.
  repeat split; [exact W1|exact W2|exact (proj1 (T3 C1))|exact (proj1 (T4 C3))|exact (proj1 (T5 C5))|exact (proj1 (T6 C7))|exact (proj1 (T7 C9))].
Qed.
Lemma rdP s B (k : ECPoint -> list Z -> R (option B * option goerr)) p : input s ->
  rdR (ReadECPoint s) k = Ok (Some p, None) -> exists q t, wfPoint q /\ input t /\ k q t = Ok (Some p, None).
Proof.
  intros H E. pose proof (ReadECPoint_good s H) as W. destruct H as [Hb L]. destruct (ReadECPoint s) as [a u|e u|]; cbn [good rdR] in *; [|discriminate|discriminate].
  destruct W as (W1 & W2 & W3). exists a, u. repeat split; [exact W1|exact W2|lia|exact E].
Qed.
Lemma rdI s B (k : Z -> list Z -> R (option B * option goerr)) p : input s ->
  rdR (ReadBigInt s) k = Ok (Some p, None) -> exists q t, wfInt (Some q) /\ input t /\ k q t = Ok (Some p, None).
Proof.
  intros H E. pose proof (ReadBigInt_good s H) as W. destruct H as [Hb L]. destruct (ReadBigInt s) as [a u|e u|]; cbn [good rdR] in *; [|discriminate|discriminate].
  destruct W as (W1 & W2 & W3). exists a, u. repeat split; [exact W1|exact W2|lia|exact E].
Qed.
Lemma abc_in b p : input b -> NewABCProofFromBytes b = Ok (Some p, None) -> completeABC p -> wfABC p.
Proof.
  intros H E C. unfold NewABCProofFromBytes in E.
  destruct (rdP _ _ _ _ H E) as (q1 & t1 & W1 & I1 & E1). clear E. destruct (rdP _ _ _ _ I1 E1) as (q2 & t2 & W2 & I2 & E2). clear E1.
  destruct (rdP _ _ _ _ I2 E2) as (q3 & t3 & W3 & I3 & E3). clear E2. destruct (rdP _ _ _ _ I3 E3) as (q4 & t4 & W4 & I4 & E4). clear E3.
  destruct (rdI _ _ _ _ I4 E4) as (q5 & t5 & W5 & I5 & E5). clear E4. destruct (rdI _ _ _ _ I5 E5) as (q6 & t6 & W6 & I6 & E6). clear E5.
  destruct (rdI _ _ _ _ I6 E6) as (q7 & t7 & W7 & I7 & E7). clear E6. destruct (rdI _ _ _ _ I7 E7) as (q8 & t8 & W8 & I8 & E8). clear E7.
  destruct (rdP _ _ _ _ I8 E8) as (q9 & t9 & W9 & [B9 L9] & E9). clear E8.
  pose proof (ReadVarBytes_good 100000 t9 B9) as W. destruct (ReadVarBytes 100000 t9) as [db u|e u|]; cbn [good rdR] in *; [|discriminate E9|discriminate E9].
  destruct W as ((D1 & D2) & _). destruct (NewDisjunctiveProofFromBytes db) as [[[d|] [e|]]|] eqn:Q; cbn [bind fst snd] in E9; try discriminate E9.
  - injection E9 as <-. destruct C as (d' & Ed & C). cbn [abDisj] in Ed. injection Ed as <-.
    assert (Wd : wfDisjunctive d) by (apply (disj_in db); [split; [exact D1|lia]|exact Q|exact C]).
    unfold wfABC. cbn [abB abC abT1 abT2 abChallenge abj abk abl abCToken abDisj].
    exact (conj W1 (conj W2 (conj W3 (conj W4 (conj W5 (conj W6 (conj W7 (conj W8 (conj W9 (ex_intro _ d (conj eq_refl Wd))))))))))).
  - injection E9 as <-. destruct C as (d' & Ed & _). discriminate Ed.
Qed.
Lemma tuples_in n : forall s ts, input s -> readTuples n s = Ok ts -> allThere (map rtS ts) ->
  Forall wfTuple ts /\ Z.of_nat (length ts) <= blen s.
Proof.
  induction n as [|n IH]; intros s ts H E C; cbn [readTuples] in E.
  - injection E as <-. split; [constructor|]. unfold blen. cbn [length]. lia.
  - destruct (ReadECPoint_ s) as [[p t]|] eqn:Q1; [|discriminate E]. cbn [bind fst snd] in E.
    destruct (ReadECPoint__in s p t H Q1) as (W1 & I1 & L1).
    destruct (ReadBigInt_ t) as [[o u]|] eqn:Q2; [|discriminate E]. cbn [bind fst snd] in E.
    destruct (ReadBigInt__in t o u I1 Q2) as (I2 & L2 & T2).
    destruct (readTuples n u) as [r|] eqn:Q3; [|discriminate E]. cbn [bind] in E. injection E as <-.
    cbn [map rtS] in C. inversion C as [|? ? C1 C2]; subst. destruct (T2 C1) as [W2 L3]. destruct (IH u r I2 Q3 C2) as [K1 K2].
    split; [constructor; [split; assumption|exact K1]|]. cbn [length]. lia.
Qed.
Lemma range_in b p : input b -> NewRangeProofFromBytes b = Ok (Some p, None) -> completeRange p -> wfRange p.
Proof.
  intros H E C. unfold NewRangeProofFromBytes in E. stepP H E p1 t1 W1 I1. stepI I1 E o2 t2 I2 T2.
  pose proof (ReadVarInt_good t2 (proj1 I2)) as W.
  assert (K : forall n t, input t -> (if maxAlloc <? 24 * n then Panic else bind (readTuples (Z.to_nat n) t) (fun ts => Ok (Some (MkRange p1 o2 ts), None))) = Ok (Some p, @None goerr) -> wfRange p).
  { clear E W. intros n t It E. destruct (maxAlloc <? 24 * n); [discriminate E|]. destruct (readTuples (Z.to_nat n) t) as [ts|] eqn:Q; [|discriminate E].
    cbn [bind] in E. injection E as <-. unfold completeRange in C. cbn [rpE rpTuples] in C. inversion C as [|? ? C1 C2]; subst.
    destruct (tuples_in _ _ _ It Q C2) as [K1 K2]. destruct It as [_ L]. repeat split; cbn [rpAggregate rpE rpTuples]; [exact W1|exact (proj1 (T2 C1))|exact K1|].
    eapply Z.le_lt_trans; [exact K2|]. eapply Z.lt_trans; [exact L|reflexivity]. }
  destruct I2 as [B2 L2].
  destruct (ReadVarInt t2) as [v u|e u|]; cbn [dropErr bind fst snd good] in *; [| |discriminate E].
  - destruct W as (_ & W2 & W3). refine (K v u _ E). split; [exact W2|lia].
  - destruct W as (W2 & W3). refine (K 0 u _ E). split; [exact W2|lia].
Qed.
