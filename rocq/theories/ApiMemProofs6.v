(** * Keys, commitments, encoders and decoders on pointers (proofs) *)
From Coq Require Import ZArith List Bool Lia.
From Verif Require Import Go Wire Big Crypto Gspfs Equivalence Consistency Disjunctive Abc Range BigMem ApiMem SpecApiMem ApiMemProofs ApiMemProofs2 ApiMemProofs3 ApiMemProofs4 ApiMemProofs5.
Import ListNotations.
Open Scope Z_scope.

Section Api.
Variables (t : nat) (h : hparams) (zk : zkparams).

Lemma keygen_ok : forall m b B rnd, paramsAt t m h zk -> pointAt t m b B ->
  sim t m m (KeyGenM h b rnd) (KeyGen (zC zk) B rnd) (fun m' a r => newPt t m m' (fst a) (fst r) /\ intAt t m' (snd a) (Some (snd r)) /\ freshInt m (snd a)).
Proof.
  intros m b B [u|] HP HB; pose proof (ext_refl m) as U0; unfold KeyGenM, KeyGen; cbn [need bind]; [|apply sim_crash, U0].
  val (blk_new t _ u) as sk HSK FSK. eapply intBytes_ok; [exact HSK|].
  assert (EQ : (bx <- need (pX B); by_ <- need (pY B); pk <- cScalarMult (zC zk) bx by_ (bigBytes u); Ok (mkPoint pk, u))
    = (p <- (bx <- need (pX B); by_ <- need (pY B); pk <- cScalarMult (zC zk) bx by_ (bigBytes u); Ok (mkPoint pk)); Ok (p, u))).
  { destruct (need (pX B)); [|reflexivity]. destruct (need (pY B)); [|reflexivity]. cbn [bind]. destruct (cScalarMult _ _ _ _); reflexivity. }
  rewrite EQ. clear EQ. bnd (scalarMultM_ok t _ h zk _ _ _ HP HB) as pk pk' [HPK FPK].
  fin. cbn [fst snd]. split; [split; assumption|]. split; assumption.
Qed.
Lemma verifyR_ok : forall m rt pk r RT PK Rr, paramsAt t m h zk -> pointAt t m rt RT -> pointAt t m pk PK -> intAt t m r Rr ->
  sim t m m (VerifyRM h rt pk r) (VerifyR zk RT PK Rr) (fun _ a b => a = b).
Proof.
  intros m rt pk r RT PK Rr HP HRT HPK HR. pose proof (ext_refl m) as U0. unfold VerifyRM, VerifyR.
  bnd (CommitRM_ok t h zk _ _ _ _ _ HP HPK HR) as p p' [HPp _].
  eapply sim_from; [eassumption|exact (EqualM_ok _ _ _ _ _ _ HPp HRT)|]. intros m' a b _ H. exact H.
Qed.
Lemma pedCommit_ok : forall m v V rnd, paramsAt t m h zk -> intAt t m v V ->
  sim t m m (PedCommitM h v rnd) (PedCommit zk V rnd) (fun m' a b => pointAt t m' (fst (fst a)) (fst (fst b)) /\ intAt t m' (snd (fst a)) (snd (fst b)) /\ snd a = snd b /\
    (snd a = None -> freshPoint m (fst (fst a)) /\ freshInt m (snd (fst a))) /\ (snd a <> None -> fst (fst a) = hZero h)).
Proof.
  intros m v V [u|] HP HV; pose proof (ext_refl m) as U0; unfold PedCommitM, PedCommit.
  - val (blk_new t _ u) as r HR FR. bnd (PedCommitRM_ok t h zk _ _ _ _ _ HP HV HR) as c c' [HC FC].
    fin. cbn [fst snd]. split; [exact HC|]. split; [exact HR|]. split; [reflexivity|]. split; [intros _; split; assumption|intros N; contradiction].
  - fin. cbn [fst snd]. split; [exact (p_Z _ _ _ _ HP)|]. split; [exact I|]. split; [reflexivity|]. split; [discriminate|reflexivity].
Qed.
Lemma open_ok : forall m v r c V Rr C, paramsAt t m h zk -> intAt t m v V -> intAt t m r Rr -> pointAt t m c C ->
  sim t m m (OpenM h v r c) (Open zk V Rr C) (fun _ a b => a = b).
Proof.
  intros m v r c V Rr C HP HV HR HC. pose proof (ext_refl m) as U0. unfold OpenM, Open.
  bnd (PedCommitRM_ok t h zk _ _ _ _ _ HP HV HR) as p p' [HPp _].
  eapply sim_from; [eassumption|exact (EqualM_ok _ _ _ _ _ _ HPp HC)|]. intros m' a b _ H. exact H.
Qed.

(** *** Encoders *)
Lemma writePoint_ok : forall m w p P, pointAt t m p P -> sim t m m (WriteECPointM w p) (WriteECPoint w P) (fun _ a b => a = b).
Proof.
  intros m w p P [X Y]. pose proof (ext_refl m) as U0. unfold WriteECPointM, WriteECPoint. apply intBytes_need; [exact U0|exact X|]. intros x _.
  destruct (WriteVarBytes w (bigBytes x)) as [w1 e1]. destruct e1; [apply sim_ret; [exact U0|reflexivity]|].
  apply intBytes_need; [exact U0|exact Y|]. intros y _. apply sim_ret; [exact U0|reflexivity].
Qed.
Lemma writeInt_ok : forall m w x v, intAt t m x v -> sim t m m (WriteBigIntM w x) (WriteBigInt w v) (fun _ a b => a = b).
Proof.
  intros m w x v X. pose proof (ext_refl m) as U0. unfold WriteBigIntM, WriteBigInt. apply sim_need; [exact U0|exact X|]. intros z E. rewrite E in X.
  eapply intBytes_ok; [exact X|]. apply sim_ret; [exact U0|reflexivity].
Qed.
Lemma gspfs_bytes_ok : forall m pf Pf, gspfsAt t m pf Pf -> sim t m m (GSPFSBytesM pf) (GSPFSBytes Pf) (fun _ a b => a = b).
Proof.
  intros m pf Pf (A & B & C & D). pose proof (ext_refl m) as U0. unfold GSPFSBytesM, GSPFSBytes.
  bnd (writePoint_ok _ _ _ _ A) as w1 w1' <-. bnd (writePoint_ok _ _ _ _ B) as w2 w2' <-. bnd (writeInt_ok _ _ _ _ C) as w3 w3' <-. bnd (writeInt_ok _ _ _ _ D) as w4 w4' <-.
  fin. reflexivity.
Qed.
Lemma equiv_bytes_ok : forall m pf Pf, equivAt t m pf Pf -> sim t m m (EquivalenceBytesM pf) (EquivalenceBytes Pf) (fun _ a b => a = b).
Proof.
  intros m pf Pf (A & B & C & D). pose proof (ext_refl m) as U0. unfold EquivalenceBytesM, EquivalenceBytes.
  bnd (writePoint_ok _ _ _ _ A) as w1 w1' <-. bnd (writePoint_ok _ _ _ _ B) as w2 w2' <-. bnd (writeInt_ok _ _ _ _ C) as w3 w3' <-. bnd (writeInt_ok _ _ _ _ D) as w4 w4' <-.
  fin. reflexivity.
Qed.
Lemma cons_bytes_ok : forall m pf Pf, consAt t m pf Pf -> sim t m m (ConsistencyBytesM pf) (ConsistencyBytes Pf) (fun _ a b => a = b).
Proof.
  intros m pf Pf (A & B & C & D & E). pose proof (ext_refl m) as U0. unfold ConsistencyBytesM, ConsistencyBytes.
  bnd (writePoint_ok _ _ _ _ A) as w1 w1' <-. bnd (writePoint_ok _ _ _ _ B) as w2 w2' <-. bnd (writeInt_ok _ _ _ _ C) as w3 w3' <-. bnd (writeInt_ok _ _ _ _ D) as w4 w4' <-.
  bnd (writeInt_ok _ _ _ _ E) as w5 w5' <-. fin. reflexivity.
Qed.
Lemma disj_bytes_ok : forall m pf Pf, disjAt t m pf Pf -> sim t m m (DisjunctiveBytesM pf) (DisjunctiveBytes Pf) (fun _ a b => a = b).
Proof.
  intros m pf Pf (A & B & C & D & E & F & G). pose proof (ext_refl m) as U0. unfold DisjunctiveBytesM, DisjunctiveBytes.
  bnd (writePoint_ok _ _ _ _ A) as w1 w1' <-. bnd (writePoint_ok _ _ _ _ B) as w2 w2' <-. bnd (writeInt_ok _ _ _ _ C) as w3 w3' <-. bnd (writeInt_ok _ _ _ _ D) as w4 w4' <-.
  bnd (writeInt_ok _ _ _ _ E) as w5 w5' <-. bnd (writeInt_ok _ _ _ _ F) as w6 w6' <-. bnd (writeInt_ok _ _ _ _ G) as w7 w7' <-. fin. reflexivity.
Qed.
Lemma abc_bytes_ok : forall m pf Pf, abcAt t m pf Pf -> sim t m m (ABCBytesM pf) (ABCBytes Pf) (fun _ a b => a = b).
Proof.
  intros m pf Pf (A & B & C & D & E & F & G & H & J & K). pose proof (ext_refl m) as U0. unfold ABCBytesM, ABCBytes.
  bnd (writePoint_ok _ _ _ _ A) as w1 w1' <-. bnd (writePoint_ok _ _ _ _ B) as w2 w2' <-. bnd (writePoint_ok _ _ _ _ C) as w3 w3' <-. bnd (writePoint_ok _ _ _ _ D) as w4 w4' <-.
  bnd (writeInt_ok _ _ _ _ E) as w5 w5' <-. bnd (writeInt_ok _ _ _ _ F) as w6 w6' <-. bnd (writeInt_ok _ _ _ _ G) as w7 w7' <-. bnd (writeInt_ok _ _ _ _ H) as w8 w8' <-.
  bnd (writePoint_ok _ _ _ _ J) as w9 w9' <-.
  destruct (haDisj pf) as [d|], (abDisj Pf) as [d'|]; try contradiction; cbn [need bind]; [|apply sim_crash; assumption].
  bnd (disj_bytes_ok _ _ _ K) as db db' <-. fin. reflexivity.
Qed.
Lemma writeTuples_ok : forall ts TS m w, Forall2 (tupleAt t m) ts TS -> sim t m m (writeTuplesM w ts) (writeTuples w TS) (fun _ a b => a = b).
Proof.
  induction ts as [|u ts IH]; intros TS m w F; inversion F as [|? Uu ? TS' [A1 A2] B]; subst; cbn [writeTuplesM writeTuples]; pose proof (ext_refl m) as U0.
  - fin. reflexivity.
  - eapply sim_bind; [exact U0|exact (writePoint_ok _ w _ _ A1)|]. intros m1 w1 w1' E1 U1 <-. forward E1. apply (tuplesAt_ext _ _ _ _ _ E1) in B.
    eapply sim_bind; [exact U1|exact (writeInt_ok _ _ _ _ A2)|]. intros m2 w2 w2' E2 U2 <-. apply (tuplesAt_ext _ _ _ _ _ E2) in B.
    eapply sim_from; [exact U2|exact (IH _ _ _ B)|]. intros m' a b _ H. exact H.
Qed.
Lemma range_bytes_ok : forall m pf Pf, rangeAt t m pf Pf -> sim t m m (RangeBytesM pf) (RangeBytes Pf) (fun _ a b => a = b).
Proof.
  intros m pf Pf (A & B & C). pose proof (ext_refl m) as U0. unfold RangeBytesM, RangeBytes.
  assert (L : length (hrTuples pf) = length (rpTuples Pf)) by (clear - C; induction C; [reflexivity|cbn [length]; f_equal; assumption]). rewrite L.
  eapply sim_bind; [exact U0|exact (writePoint_ok _ newBuffer _ _ A)|]. intros m1 w1 w1' E1 U1 <-. forward E1. apply (tuplesAt_ext _ _ _ _ _ E1) in C.
  eapply sim_bind; [exact U1|exact (writeInt_ok _ _ _ _ B)|]. intros m2 w2 w2' E2 U2 <-. apply (tuplesAt_ext _ _ _ _ _ E2) in C.
  bnd (writeTuples_ok _ _ _ _ C) as w w' <-. fin. reflexivity.
Qed.

(** *** Decoders *)
Definition readPt (m : bmem) (m' : bmem) (a : hpt * option rerr * list Z) (b : ECPoint * option rerr * list Z) : Prop :=
  pointAt t m' (fst (fst a)) (fst (fst b)) /\ snd (fst a) = snd (fst b) /\ snd a = snd b /\
  (snd (fst a) = None -> freshPoint m (fst (fst a))) /\ (snd (fst a) <> None -> fst (fst a) = hZero h).
Lemma readPoint_ok : forall m s, paramsAt t m h zk -> sim t m m (ReadECPointM h s) (readResult (fun p => p) ZeroPoint (ReadECPoint s)) (readPt m).
Proof.
  intros m s HP. pose proof (ext_refl m) as U0. unfold ReadECPointM, ReadECPoint, rbind.
  assert (ERR : forall e s1, readPt m m (hZero h, Some e, s1) (ZeroPoint, Some e, s1)).
  { intros e s1. split; [exact (p_Z _ _ _ _ HP)|]. split; [reflexivity|]. split; [reflexivity|]. split; [discriminate|reflexivity]. }
  destruct (ReadVarBytes 32 s) as [xb s1|e s1|]; cbn [readResult]; [|fin; apply ERR|apply sim_crash, U0].
  destruct (ReadVarBytes 32 s1) as [yb s2|e s2|]; cbn [readResult]; [|fin; apply ERR|apply sim_crash, U0].
  val (blk_bytes t _ xb) as x HX FX. val (blk_bytes t _ yb) as y HY FY. fin. cbn [fst snd].
  split; [split; assumption|]. split; [reflexivity|]. split; [reflexivity|]. cbn [fst snd]. split; [intros _; split; assumption|intros N; contradiction].
Qed.
Definition readIn (m : bmem) (m' : bmem) (a : bigint * option rerr * list Z) (b : option Z * option rerr * list Z) : Prop :=
  intAt t m' (fst (fst a)) (fst (fst b)) /\ snd (fst a) = snd (fst b) /\ snd a = snd b /\ freshInt m (fst (fst a)).
Lemma readInt_ok : forall m s, sim t m m (ReadBigIntM s) (readResult Some None (ReadBigInt s)) (readIn m).
Proof.
  intros m s. pose proof (ext_refl m) as U0. unfold ReadBigIntM, ReadBigInt, rbind.
  destruct (ReadVarBytes 32 s) as [bb s1|e s1|]; cbn [readResult]; [|fin; repeat split|apply sim_crash, U0].
  destruct bb as [|sgn mag]; cbn [readResult]; [apply sim_crash, U0|].
  destruct (sgn =? 1).
  - apply sim_assoc. eapply sim_blk; [exact U0|exact (blk_inneg t m _ _ (blk_bytes t m mag))|]. intros m1 n E1 U1 HN FN. fin. repeat split; assumption.
  - val (blk_bytes t _ mag) as n HN FN. fin. repeat split; assumption.
Qed.
(** dropping the error *)
Definition dropPt (m' : bmem) (a : hpt * option rerr * list Z) (b : ECPoint * list Z) : Prop := pointAt t m' (fst (fst a)) (fst b) /\ snd a = snd b.
Definition dropIn (m' : bmem) (a : bigint * option rerr * list Z) (b : option Z * list Z) : Prop := intAt t m' (fst (fst a)) (fst b) /\ snd a = snd b.
Lemma dropPoint_ok : forall m s, paramsAt t m h zk -> sim t m m (ReadECPointM h s) (ReadECPoint_ s) dropPt.
Proof.
  intros m s HP. pose proof (readPoint_ok m s HP) as [C H]. split; [exact C|]. destruct (exec t (ReadECPointM h s) m) as [o m']. destruct H as [U H]. split; [exact U|].
  unfold ReadECPoint_, dropErr. destruct (ReadECPoint s); cbn [readResult] in H; destruct o; try exact H; destruct H as (A & _ & B & _); split; assumption.
Qed.
Lemma dropInt_ok : forall m s, sim t m m (ReadBigIntM s) (ReadBigInt_ s) dropIn.
Proof.
  intros m s. pose proof (readInt_ok m s) as [C H]. split; [exact C|]. destruct (exec t (ReadBigIntM s) m) as [o m']. destruct H as [U H]. split; [exact U|].
  unfold ReadBigInt_. destruct (ReadBigInt s); cbn [readResult] in H; destruct o; try exact H; destruct H as (A & _ & B & _); split; assumption.
Qed.
Ltac dp HP r r' H := bnd (dropPoint_ok _ _ HP) as r r' [H ?]; match goal with E : snd r = snd r' |- _ => try rewrite E; clear E end.
Ltac di r r' H := bnd (dropInt_ok _ _) as r r' [H ?]; match goal with E : snd r = snd r' |- _ => try rewrite E; clear E end.
Lemma gspfs_decode_ok : forall m b, paramsAt t m h zk -> sim t m m (NewGSPFSProofFromBytesM h b) (NewGSPFSProofFromBytes b) (withErr (fun m' => optAt (gspfsAt t m'))).
Proof.
  intros m b HP. pose proof (ext_refl m) as U0. unfold NewGSPFSProofFromBytesM, NewGSPFSProofFromBytes.
  dp HP r1 r1' H1. dp HP r2 r2' H2. di r3 r3' H3. di r4 r4' H4. fin. split; [|reflexivity]. split; [exact H1|]. split; [exact H2|]. split; [exact H3|exact H4].
Qed.
Lemma equiv_decode_ok : forall m b, paramsAt t m h zk -> sim t m m (NewEquivalenceProofFromBytesM h b) (NewEquivalenceProofFromBytes b) (withErr (fun m' => optAt (equivAt t m'))).
Proof.
  intros m b HP. pose proof (ext_refl m) as U0. unfold NewEquivalenceProofFromBytesM, NewEquivalenceProofFromBytes.
  dp HP r1 r1' H1. dp HP r2 r2' H2. di r3 r3' H3. di r4 r4' H4. fin. split; [|reflexivity]. split; [exact H1|]. split; [exact H2|]. split; [exact H3|exact H4].
Qed.
Lemma cons_decode_ok : forall m b, paramsAt t m h zk -> sim t m m (NewConsistencyProofFromBytesM h b) (NewConsistencyProofFromBytes b) (withErr (fun m' => optAt (consAt t m'))).
Proof.
  intros m b HP. pose proof (ext_refl m) as U0. unfold NewConsistencyProofFromBytesM, NewConsistencyProofFromBytes.
  dp HP r1 r1' H1. dp HP r2 r2' H2. di r3 r3' H3. di r4 r4' H4. di r5 r5' H5. fin. split; [|reflexivity]. split; [exact H1|]. split; [exact H2|]. split; [exact H3|]. split; [exact H4|exact H5].
Qed.
Lemma disj_decode_ok : forall m b, paramsAt t m h zk -> sim t m m (NewDisjunctiveProofFromBytesM h b) (NewDisjunctiveProofFromBytes b) (withErr (fun m' => optAt (disjAt t m'))).
Proof.
  intros m b HP. pose proof (ext_refl m) as U0. unfold NewDisjunctiveProofFromBytesM, NewDisjunctiveProofFromBytes.
  dp HP r1 r1' H1. dp HP r2 r2' H2. di r3 r3' H3. di r4 r4' H4. di r5 r5' H5. di r6 r6' H6. di r7 r7' H7. fin. split; [|reflexivity].
  split; [exact H1|]. split; [exact H2|]. split; [exact H3|]. split; [exact H4|]. split; [exact H5|]. split; [exact H6|exact H7].
Qed.
(** a read whose error is returned *)
Lemma orErr_pt : forall (P Q : Type) m0 m s (k : hpt -> list Z -> prog (option P * option goerr)) (f : ECPoint -> list Z -> R (option Q * option goerr)) (rel : bmem -> P -> Q -> Prop),
  unchanged m0 m -> paramsAt t m h zk ->
  (forall m1 a b s', unchanged m m1 -> unchanged m0 m1 -> pointAt t m1 a b -> sim t m0 m1 (k a s') (f b s') (withErr (fun m' => optAt (rel m')))) ->
  sim t m0 m (r <~ ReadECPointM h s; orErr r k) (rdR (ReadECPoint s) f) (withErr (fun m' => optAt (rel m'))).
Proof.
  intros P Q m0 m s k f rel U HP K.
  replace (rdR (ReadECPoint s) f) with (r <- readResult (fun p => p) ZeroPoint (ReadECPoint s); match r with (a, None, s') => f a s' | (_, Some e, _) => Ok (None, Some (ERead e)) end)
    by (destruct (ReadECPoint s); reflexivity).
  eapply sim_bind; [exact U|exact (readPoint_ok m s HP)|]. intros m1 [[a e] s1] [[a' e'] s1'] E1 U1 (A & B & C & _). cbn [fst snd] in *. subst e' s1'. cbn [orErr].
  destruct e; [apply sim_ret; [exact U1|split; [exact I|reflexivity]]|]. apply K; assumption.
Qed.
Lemma orErr_int : forall (P Q : Type) m0 m s (k : bigint -> list Z -> prog (option P * option goerr)) (f : Z -> list Z -> R (option Q * option goerr)) (rel : bmem -> P -> Q -> Prop),
  unchanged m0 m ->
  (forall m1 a b s', unchanged m m1 -> unchanged m0 m1 -> intAt t m1 a (Some b) -> sim t m0 m1 (k a s') (f b s') (withErr (fun m' => optAt (rel m')))) ->
  sim t m0 m (r <~ ReadBigIntM s; orErr r k) (rdR (ReadBigInt s) f) (withErr (fun m' => optAt (rel m'))).
Proof.
  intros P Q m0 m s k f rel U K. pose proof (readInt_ok m s) as [C H]. destruct (exec t (ReadBigIntM s) m) as [o m1] eqn:X. destruct H as [U1 H].
  assert (G : forall a, o = Ok a -> sim t m0 m1 (orErr a k) (rdR (ReadBigInt s) f) (withErr (fun m' => optAt (rel m')))).
  { intros [[a e] s1] ->. pose proof (ext_trans _ _ _ U U1) as U2. destruct (ReadBigInt s) as [z s'|e' s'|]; cbn [readResult rdR] in *; try contradiction; destruct H as (A & B & D & _); cbn [fst snd] in *; subst; cbn [orErr].
    - apply K; assumption.
    - apply sim_ret; [exact U2|split; [exact I|reflexivity]]. }
  destruct o as [a|].
  - destruct (G a eq_refl) as [G1 G2]. split; [apply confined_bind; [exact C|]; intros a' m' X'; rewrite X in X'; injection X' as <- <-; exact G1|rewrite exec_bind, X; exact G2].
  - split; [apply confined_bind; [exact C|]; intros a' m' X'; rewrite X in X'; discriminate X'|]. rewrite exec_bind, X. split; [exact (ext_trans _ _ _ U U1)|].
    destruct (ReadBigInt s); cbn [readResult rdR] in *; try contradiction. exact I.
Qed.
Tactic Notation "op" constr(HP) "as" ident(a) ident(b) ident(s) ident(H) := eapply orErr_pt; [eassumption|exact HP|]; let m1 := fresh "m" in let E := fresh "E" in let U := fresh "U" in intros m1 a b s E U H; forward E; clear E.
Tactic Notation "oi" "as" ident(a) ident(b) ident(s) ident(H) := eapply orErr_int; [eassumption|]; let m1 := fresh "m" in let E := fresh "E" in let U := fresh "U" in intros m1 a b s E U H; forward E; clear E.
Lemma abc_decode_ok : forall m b, paramsAt t m h zk -> sim t m m (NewABCProofFromBytesM h b) (NewABCProofFromBytes b) (withErr (fun m' => optAt (abcAt t m'))).
Proof.
  intros m b HP. pose proof (ext_refl m) as U0. unfold NewABCProofFromBytesM, NewABCProofFromBytes.
  op HP as B B' s1 HB. op HP as C C' s2 HC. op HP as T1 T1' s3 HT1. op HP as T2 T2' s4 HT2.
  oi as c c' s5 Hc. oi as j j' s6 Hj. oi as k k' s7 Hk. oi as l l' s8 Hl. op HP as ct ct' s9 Hct.
  destruct (ReadVarBytes 100000 s9) as [db s10|e s10|]; cbn [rdR]; [|fin; split; [exact I|reflexivity]|apply sim_crash; assumption].
  bnd (disj_decode_ok _ db HP) as d d' [Hd1 Hd2]. rewrite Hd2. destruct (snd d'); [fin; split; [exact I|reflexivity]|].
  fin. split; [|reflexivity]. split; [exact HB|]. split; [exact HC|]. split; [exact HT1|]. split; [exact HT2|]. split; [exact Hc|]. split; [exact Hj|]. split; [exact Hk|].
  split; [exact Hl|]. split; [exact Hct|exact Hd1].
Qed.
Lemma readTuples_ok : forall n s m, paramsAt t m h zk -> sim t m m (readTuplesM h n s) (readTuples n s) (fun m' => Forall2 (tupleAt t m')).
Proof.
  induction n as [|n IH]; intros s m HP; cbn [readTuplesM readTuples]; pose proof (ext_refl m) as U0.
  - fin. constructor.
  - dp HP r1 r1' H1. di r2 r2' H2. eapply sim_bind; [eassumption|exact (IH _ _ HP)|]. intros m2 l l' E2 U2 HL. forward E2. fin. constructor; [split; assumption|exact HL].
Qed.
Lemma range_decode_ok : forall m b, paramsAt t m h zk -> sim t m m (NewRangeProofFromBytesM h b) (NewRangeProofFromBytes b) (withErr (fun m' => optAt (rangeAt t m'))).
Proof.
  intros m b HP. pose proof (ext_refl m) as U0. unfold NewRangeProofFromBytesM, NewRangeProofFromBytes.
  dp HP r1 r1' H1. di r2 r2' H2. apply sim_lift; [eassumption|]. intros r3 _. destruct (maxAlloc <? 24 * fst r3); [apply sim_crash; assumption|].
  eapply sim_bind; [eassumption|exact (readTuples_ok _ _ _ HP)|]. intros m2 l l' E2 U2 HL. forward E2. fin. split; [|reflexivity]. split; [exact H1|]. split; [exact H2|exact HL].
Qed.
End Api.
