(** * Truncated proofs (proof only) *)
From Coq Require Import ZArith List Lia Bool.
From Verif Require Import Go Wire SpecWire WireProofs Big Crypto Gspfs Equivalence Consistency Disjunctive Abc Range SpecCodec CodecProofs.
Import ListNotations.
Open Scope Z_scope.

(** a reader fails on every proper prefix of [e], having consumed it all *)
Definition truncE {A} (r : list Z -> rd A) (e : list Z) : Prop :=
  forall p, prefix p e -> p <> e -> exists er, r p = RErr er [].
Lemma readFull_short n q : blen q < n -> exists er, readFull n q = RErr er [].
Proof. intros L. unfold readFull. destruct (Z.leb_spec n (blen q)); [lia|]. destruct q; eexists; reflexivity. Qed.
Lemma proper_len p e : prefix p e -> p <> e -> (length p < length e)%nat.
Proof. intros [t ->] NE. rewrite app_length. destruct t; [rewrite app_nil_r in NE; congruence|cbn [length]; lia]. Qed.
Lemma varint_truncE v : uint64 v -> truncE ReadVarInt (varint v).
Proof.
  intros U p Hp NE. destruct p as [|d q]; [eexists; reflexivity|]. pose proof (proper_len _ _ Hp NE) as L. destruct Hp as [t Ht].
  assert (K : ReadVarInt (d :: q) = if d =? 0xff then rbind (Uint64 q) (fun rv s2 => if rv <? 0x100000000 then RErr ENonCanonical s2 else ROk rv s2)
    else if d =? 0xfe then rbind (Uint32 q) (fun rv s2 => if rv <? 0x10000 then RErr ENonCanonical s2 else ROk rv s2)
    else if d =? 0xfd then rbind (Uint16 q) (fun rv s2 => if rv <? 0xfd then RErr ENonCanonical s2 else ROk rv s2) else ROk d q).
  { unfold ReadVarInt. rewrite Uint8_cons. reflexivity. }
  rewrite K. clear K. unfold varint in *. cbn [app length] in *.
  repeat match type of Ht with context [if ?c then _ else _] => destruct c end; cbn [length] in L; rewrite ?le_bytes_len in L; injection Ht as Hd Hq; subst d.
  - exfalso. cbn in L. lia.
  - change (253 =? 255) with false. change (253 =? 254) with false. change (253 =? 253) with true. cbv iota.
    destruct (readFull_short 2 q) as [er E]; [unfold blen; lia|]. exists er. unfold Uint16. rewrite E. reflexivity.
  - change (254 =? 255) with false. change (254 =? 254) with true. cbv iota.
    destruct (readFull_short 4 q) as [er E]; [unfold blen; lia|]. exists er. unfold Uint32. rewrite E. reflexivity.
  - change (255 =? 255) with true. cbv iota.
    destruct (readFull_short 8 q) as [er E]; [unfold blen; lia|]. exists er. unfold Uint64. rewrite E. reflexivity.
Qed.
Lemma varbytes_truncE m bs : blen bs <= maxAlloc -> truncE (ReadVarBytes m) (varbytes bs).
Proof.
  intros Hb p Hp Hne. assert (U : uint64 (blen bs)) by (unfold uint64, maxAlloc, blen in *; lia).
  unfold varbytes in *. destruct (prefix_app_cases _ _ _ Hp) as [[Hq Hn]|(q & -> & Hq)].
  - destruct (varint_truncE _ U _ Hq Hn) as (e & E). exists e. unfold ReadVarBytes. rewrite E. reflexivity.
  - unfold ReadVarBytes. fold (blen bs). rewrite ReadVarInt_varint by exact U. cbn [rbind].
    destruct (Z.ltb_spec maxAlloc (blen bs)) as [C|C]; [lia|]. apply readFull_short.
    assert (NE : q <> bs) by congruence. pose proof (proper_len _ _ Hq NE). unfold blen. lia.
Qed.
Lemma point_truncE x y : small x -> small y -> truncE ReadECPoint (encPoint x y).
Proof.
  intros Hx Hy. apply small_blen_alloc in Hx, Hy. unfold ReadECPoint, encPoint. intros p Hp Hne.
  destruct (prefix_app_cases _ _ _ Hp) as [[Hq Hn]|(q & -> & Hq)].
  - destruct (varbytes_truncE 32 (bigBytes x) ltac:(lia) p Hq Hn) as [er E]. exists er. rewrite E. reflexivity.
  - rewrite ReadVarBytes_varbytes by lia. cbn [rbind]. destruct (varbytes_truncE 32 (bigBytes y) ltac:(lia) q Hq ltac:(congruence)) as [er E].
    exists er. rewrite E. reflexivity.
Qed.
Lemma int_truncE z : small z -> truncE ReadBigInt (encInt z).
Proof.
  intros Hz p Hp Hn. apply small_blen_alloc in Hz. unfold ReadBigInt, encInt in *.
  destruct (varbytes_truncE 32 ((if z <? 0 then 1 else 0) :: bigBytes z) ltac:(unfold blen in *; cbn [length]; lia) p Hp Hn) as [er E].
  exists er. rewrite E. reflexivity.
Qed.

(** ** One field of a decoder *)
Lemma point_step {X} x y e2 (k : ECPoint * list Z -> R X) (Q : R X -> Prop) p :
  0 <= x -> 0 <= y -> small x -> small y -> prefix p (encPoint x y ++ e2) -> p <> encPoint x y ++ e2 ->
  Q (k (ZeroPoint, [])) -> (forall q, prefix q e2 -> q <> e2 -> Q (k (EP (Some x) (Some y), q))) -> Q (bind (ReadECPoint_ p) k).
Proof.
  intros X0 Y0 Sx Sy Hp NE Q1 Q2. destruct (prefix_app_cases _ _ _ Hp) as [[Hq Hn]|(q & -> & Hq)].
  - destruct (point_truncE x y Sx Sy p Hq Hn) as [er E]. unfold ReadECPoint_. rewrite E. exact Q1.
  - rewrite ReadECPoint__enc by assumption. apply Q2; [exact Hq|congruence].
Qed.
Lemma int_step {X} z e2 (k : option Z * list Z -> R X) (Q : R X -> Prop) p :
  small z -> prefix p (encInt z ++ e2) -> p <> encInt z ++ e2 ->
  Q (k (None, [])) -> (forall q, prefix q e2 -> q <> e2 -> Q (k (Some z, q))) -> Q (bind (ReadBigInt_ p) k).
Proof.
  intros Sz Hp NE Q1 Q2. destruct (prefix_app_cases _ _ _ Hp) as [[Hq Hn]|(q & -> & Hq)].
  - destruct (int_truncE z Sz p Hq Hn) as [er E]. unfold ReadBigInt_. rewrite E. exact Q1.
  - rewrite ReadBigInt__enc by assumption. apply Q2; [exact Hq|congruence].
Qed.
Lemma int_last {X} z (k : option Z * list Z -> R X) (Q : R X -> Prop) p :
  small z -> prefix p (encInt z) -> p <> encInt z -> Q (k (None, [])) -> Q (bind (ReadBigInt_ p) k).
Proof. intros Sz Hp NE Q1. destruct (int_truncE z Sz p Hp NE) as [er E]. unfold ReadBigInt_. rewrite E. exact Q1. Qed.
Ltac tr := first
  [ eapply int_last; [| eassumption | assumption | ]; [assumption|]
  | eapply point_step; [| | | | eassumption | assumption | | intros ? ? ? ]; [assumption|assumption|assumption|assumption| | ]
  | eapply int_step; [| eassumption | assumption | | intros ? ? ? ]; [assumption| | ] ]; cbn [snd fst].
Ltac triv := cbn; eexists; split; reflexivity.

Lemma gspfs_trunc p b s : wfGSPFS p -> GSPFSBytes p = Ok b -> prefix s b -> s <> b ->
  exists p', NewGSPFSProofFromBytes s = Ok (Some p', None) /\ gsChallenge p' = None.
Proof.
  unfold wfGSPFS, wfPoint, wfInt. intros H. rt p. unfold GSPFSBytes. cbn [gsBase gsRandCommit gsHiddenValue gsChallenge]. repeat wr.
  intros E Hp NE. injection E as <-. unfold NewGSPFSProofFromBytes. pattern (bind (ReadECPoint_ s) (fun r1 => r2 <- ReadECPoint_ (snd r1);
    r3 <- ReadBigInt_ (snd r2); r4 <- ReadBigInt_ (snd r3); Ok (Some (MkGSPFS (fst r1) (fst r2) (fst r3) (fst r4)), @None goerr))).
  tr; [triv|]. tr; [triv|]. tr; [triv|]. tr. triv.
Qed.
Lemma equiv_trunc p b s : wfEquivalence p -> EquivalenceBytes p = Ok b -> prefix s b -> s <> b ->
  exists p', NewEquivalenceProofFromBytes s = Ok (Some p', None) /\ eqHiddenValue p' = None.
Proof.
  unfold wfEquivalence, wfPoint, wfInt. intros H. rt p. unfold EquivalenceBytes. cbn [eqUG eqUH eqChallenge eqHiddenValue]. repeat wr.
  intros E Hp NE. injection E as <-. unfold NewEquivalenceProofFromBytes. pattern (bind (ReadECPoint_ s) (fun r1 => r2 <- ReadECPoint_ (snd r1);
    r3 <- ReadBigInt_ (snd r2); r4 <- ReadBigInt_ (snd r3); Ok (Some (MkEquiv (fst r1) (fst r2) (fst r3) (fst r4)), @None goerr))).
  tr; [triv|]. tr; [triv|]. tr; [triv|]. tr. triv.
Qed.
Lemma cons_trunc p b s : wfConsistency p -> ConsistencyBytes p = Ok b -> prefix s b -> s <> b ->
  exists p', NewConsistencyProofFromBytes s = Ok (Some p', None) /\ cnS2 p' = None.
Proof.
  unfold wfConsistency, wfPoint, wfInt. intros H. rt p. unfold ConsistencyBytes. cbn [cnT1 cnT2 cnChallenge cnS1 cnS2]. repeat wr.
  intros E Hp NE. injection E as <-. unfold NewConsistencyProofFromBytes. pattern (bind (ReadECPoint_ s) (fun r1 => r2 <- ReadECPoint_ (snd r1);
    r3 <- ReadBigInt_ (snd r2); r4 <- ReadBigInt_ (snd r3); r5 <- ReadBigInt_ (snd r4);
    Ok (Some (MkCons (fst r1) (fst r2) (fst r3) (fst r4) (fst r5)), @None goerr))).
  tr; [triv|]. tr; [triv|]. tr; [triv|]. tr; [triv|]. tr. triv.
Qed.
Lemma disj_trunc p b s : wfDisjunctive p -> DisjunctiveBytes p = Ok b -> prefix s b -> s <> b ->
  exists p', NewDisjunctiveProofFromBytes s = Ok (Some p', None) /\ djS2 p' = None.
Proof.
  unfold wfDisjunctive, wfPoint, wfInt. intros H. rt p. unfold DisjunctiveBytes. cbn [djT1 djT2 djC djC1 djC2 djS1 djS2]. repeat wr.
  intros E Hp NE. injection E as <-. unfold NewDisjunctiveProofFromBytes. pattern (bind (ReadECPoint_ s) (fun r1 => r2 <- ReadECPoint_ (snd r1);
    r3 <- ReadBigInt_ (snd r2); r4 <- ReadBigInt_ (snd r3); r5 <- ReadBigInt_ (snd r4); r6 <- ReadBigInt_ (snd r5); r7 <- ReadBigInt_ (snd r6);
    Ok (Some (MkDisj (fst r1) (fst r2) (fst r3) (fst r4) (fst r5) (fst r6) (fst r7)), @None goerr))).
  tr; [triv|]. tr; [triv|]. tr; [triv|]. tr; [triv|]. tr; [triv|]. tr; [triv|]. tr. triv.
Qed.
Lemma readTuples_nil n : exists ts, readTuples n [] = Ok ts /\ Forall (fun t => rtS t = None) ts /\ length ts = n.
Proof.
  induction n as [|n (ts & E & F & L)]; cbn [readTuples]; [exists []; repeat split; constructor|].
  eexists. unfold ReadECPoint_, ReadBigInt_. cbn. rewrite E. cbn. split; [reflexivity|]. split; [constructor; [reflexivity|exact F]|cbn; congruence].
Qed.
Lemma readTuples_trunc ts : forall s, Forall wfTuple ts -> prefix s (concat (map encTuple ts)) -> s <> concat (map encTuple ts) ->
  exists ts', readTuples (length ts) s = Ok ts' /\ length ts' = length ts /\ Exists (fun t => rtS t = None) ts'.
Proof.
  induction ts as [|t r IH]; intros s Ht Hp NE.
  - cbn in *. destruct Hp as [u Hu]. destruct s; [congruence|discriminate].
  - inversion Ht as [|? ? [Hq Hi] Hr]; subst. unfold wfPoint, wfInt in *. wf_split. destruct t as [c0 s0]; cbn [rtC rtS] in *; subst.
    cbn [map concat encTuple rtC rtS length readTuples] in *. rewrite <- ?app_assoc in *.
    destruct (readTuples_nil (length r)) as (tn & En & Fn & Ln).
    match goal with |- exists ts', ?b = _ /\ _ => pattern b end.
    tr.
    + cbn. rewrite En. cbn. eexists. split; [reflexivity|]. split; [cbn; congruence|apply Exists_cons_hd; reflexivity].
    + tr.
      * rewrite En. cbn. eexists. split; [reflexivity|]. split; [cbn; congruence|apply Exists_cons_hd; reflexivity].
      * match goal with A : prefix ?q (concat _), B : ?q <> concat _ |- _ => destruct (IH q Hr A B) as (tr & Er & Lr & Xr) end.
        rewrite Er. cbn. eexists. split; [reflexivity|]. split; [cbn; congruence|apply Exists_cons_tl; exact Xr].
Qed.
Lemma range_trunc p b s : wfRange p -> RangeBytes p = Ok b -> prefix s b -> s <> b ->
  exists p', NewRangeProofFromBytes s = Ok (Some p', None) /\
    (rpE p' = None \/ rpTuples p' = [] \/ Exists (fun t => rtS t = None) (rpTuples p')).
Proof.
  unfold wfRange. intros (Hp & Hi & Ht & Hn). destruct p as [agg e ts]; cbn [rpAggregate rpE rpTuples] in *.
  assert (U : uint64 (Z.of_nat (length ts))) by (unfold uint64; lia).
  unfold wfPoint, wfInt in *. wf_split. unfold RangeBytes. cbn [rpAggregate rpE rpTuples]. repeat wr.
  rewrite WriteVarInt_buf by (try reflexivity; assumption). cbn [fst].
  rewrite writeTuples_buf by (try reflexivity; assumption). cbn [bind wout].
  intros E Pf NE. injection E as <-. rewrite <- ?app_assoc in *. unfold NewRangeProofFromBytes.
  match goal with |- exists ts', ?b = _ /\ _ => pattern b end.
  tr; [cbn; eexists; split; [reflexivity|left; reflexivity]|].
  tr; [cbn; eexists; split; [reflexivity|left; reflexivity]|].
  match goal with A : prefix ?q (varint _ ++ _), B : ?q <> varint _ ++ _ |- _ => destruct (prefix_app_cases _ _ _ A) as [[Hq Hnq]|(u & -> & Hq)] end.
  - destruct (varint_truncE _ U _ Hq Hnq) as [er Er]. rewrite Er. cbn. eexists. split; [reflexivity|right; left; reflexivity].
  - rewrite ReadVarInt_varint by exact U. cbn [dropErr bind fst snd]. destruct (Z.ltb_spec maxAlloc (24 * Z.of_nat (length ts))) as [C|C]; [exfalso; unfold maxAlloc in C; lia|].
    rewrite Nat2Z.id. destruct (readTuples_trunc ts u Ht Hq ltac:(congruence)) as (tt & Et & _ & Xt). rewrite Et. cbn.
    eexists. split; [reflexivity|right; right; exact Xt].
Qed.

(** ** No proof with a missing number is accepted *)
Lemma Mult_None zk p : Mult zk p None = Panic \/ Mult zk p None = Ok (EP None None).
Proof. unfold Mult. destruct (pX p), (pY p); cbn [need bind]; auto. Qed.
Ltac bb := repeat match goal with
  | |- context [bind ?r _] => destruct r; cbn [bind]
  | |- context [if ?c then _ else _] => destruct c end; try discriminate.
Ltac b1 := match goal with |- context [bind ?r _] => destruct r; cbn [bind]; try discriminate end.
Lemma gspfs_missing sha zk p A : gsChallenge p = None -> GSPFSVerify sha (Some p) zk A <> Ok (true, None).
Proof. intros H. unfold GSPFSVerify. rewrite H. b1. Qed.
Lemma equiv_missing sha zk p a b c d : eqHiddenValue p = None -> EquivalenceVerify sha (Some p) zk a b c d <> Ok (true, None).
Proof.
  intros H. unfold EquivalenceVerify. rewrite H. b1. b1. match goal with |- context [if ?c then _ else _] => destruct c end; [discriminate|].
  destruct (Mult_None zk a) as [E|E]; rewrite E; cbn [bind]; [discriminate|]. b1. b1.
Qed.
Lemma cons_missing sha zk p a b c : cnS2 p = None -> ConsistencyVerify sha (Some p) zk a b c <> Ok (true, None).
Proof.
  intros H. unfold ConsistencyVerify, PedCommitR. rewrite H. b1. b1. match goal with |- context [if ?c then _ else _] => destruct c end; [discriminate|].
  destruct (cnS1 p); discriminate.
Qed.
Lemma disj_missing sha zk p a b c d : djS2 p = None -> DisjunctiveVerify sha (Some p) zk a b c d <> Ok (true, None).
Proof.
  intros H. unfold DisjunctiveVerify. rewrite H.
  do 2 b1. destruct (negb _); [discriminate|]. do 2 b1. cbv zeta. destruct (negb _); [discriminate|]. do 4 b1. destruct (negb _); [discriminate|]. do 2 b1.
  destruct (Mult_None zk c) as [E|E]; rewrite E; cbn [bind]; [discriminate|].
  unfold Equal. cbn [pX need bind]. destruct (need _); discriminate.
Qed.
Lemma range_missing_s sha zk p cm : Exists (fun t => rtS t = None) (rpTuples p) -> RangeVerify sha (Some p) zk cm <> Ok (true, None).
Proof.
  intros H. unfold RangeVerify. assert (K : existsb tupleNil (rpTuples p) = true).
  { apply existsb_exists. apply Exists_exists in H. destruct H as (t & I & E). exists t. split; [exact I|]. unfold tupleNil. rewrite E. destruct (pX (rtC t)); reflexivity. }
  rewrite K. discriminate.
Qed.
Lemma range_missing_e sha zk p cm : rpE p = None -> RangeVerify sha (Some p) zk cm <> Ok (true, None).
Proof.
  intros H. unfold RangeVerify. rewrite H. destruct (existsb _ _); [discriminate|]. b1. b1. unfold rangeDecide. rewrite H. b1.
Qed.
Lemma range_empty sha zk p cm : rpTuples p = [] -> RangeVerify sha (Some p) zk cm = Ok (true, None) -> pX cm = Some 0.
Proof.
  intros H. unfold RangeVerify. rewrite H. cbn [existsb verifyAll sumC bind]. unfold rangeDecide.
  b1. b1. destruct (negb _); [discriminate|]. b1. destruct (negb _); [discriminate|].
  unfold Equal. destruct (pX cm) as [x|]; cbn [need bind]; [|discriminate]. cbn [pX ZeroPoint need bind].
  destruct (Z.eqb_spec x 0); [subst; reflexivity|discriminate].
Qed.
