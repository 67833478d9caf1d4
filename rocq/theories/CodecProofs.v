(** * Proofs about the serialisation of points, integers and proofs (proof only) *)
From Coq Require Import ZArith List Bool Lia ZifyBool ZifyNat.
From Verif Require Import Go Wire SpecWire WireProofs Big Crypto Gspfs Equivalence Consistency Disjunctive Abc Range SpecCodec.
Import ListNotations.
Open Scope Z_scope.
Ltac Zify.zify_post_hook ::= Z.div_mod_to_equations.

Lemma beval_app a b : beval (a ++ b) = beval a * 256 ^ blen b + beval b.
Proof.
  unfold beval. rewrite fold_left_app. unfold blen. generalize (fold_left (fun x y => x * 256 + y) a 0).
  assert (G : forall l z, fold_left (fun x y => x * 256 + y) l z = z * 256 ^ Z.of_nat (length l) + fold_left (fun x y => x * 256 + y) l 0).
  { induction l as [|h t IH]; intros z; [cbn; lia|]. cbn [fold_left length]. rewrite IH, (IH (0 * 256 + h)).
    rewrite Nat2Z.inj_succ, Z.pow_succ_r by lia. ring. }
  intros z. apply G.
Qed.
Lemma beval_snoc a x : beval (a ++ [x]) = beval a * 256 + x.
Proof. rewrite beval_app. unfold blen. cbn. lia. Qed.
Lemma beval_nil : beval [] = 0. Proof. reflexivity. Qed.
Lemma beval_cons x t : beval (x :: t) = x * 256 ^ blen t + beval t.
Proof. change (x :: t) with ([x] ++ t). rewrite beval_app. unfold beval at 1. cbn [fold_left]. lia. Qed.
Lemma beval_range b : bytes_ok b -> 0 <= beval b < 256 ^ blen b.
Proof.
  induction b as [|x t IH] using rev_ind; intros H; [cbn; lia|].
  apply bytes_ok_app in H. destruct H as [Ht Hx]. inversion Hx as [|? ? Hb _]; subst. unfold is_byte in Hb.
  rewrite beval_snoc. specialize (IH Ht). unfold blen in *. rewrite app_length. cbn [length].
  rewrite Nat.add_1_r, Nat2Z.inj_succ, Z.pow_succ_r by lia. lia.
Qed.
Lemma be_bytes_len n z : length (be_bytes n z) = n.
Proof. revert z; induction n; intros; cbn [be_bytes]; [reflexivity|]. rewrite app_length, IHn. cbn. lia. Qed.
Lemma be_bytes_ok n z : bytes_ok (be_bytes n z).
Proof.
  revert z; induction n; intros; cbn [be_bytes]; [constructor|]. apply bytes_ok_app. split; [apply IHn|].
  constructor; [unfold is_byte; lia|constructor].
Qed.
Lemma beval_be_bytes n z : 0 <= z -> beval (be_bytes n z) = z mod 256 ^ Z.of_nat n.
Proof.
  revert z; induction n as [|n IH]; intros z Hz; cbn [be_bytes]; [rewrite Z.mod_1_r; reflexivity|].
  rewrite beval_snoc, IH by lia. rewrite Nat2Z.inj_succ, Z.pow_succ_r by lia.
  rewrite Z.rem_mul_r by lia. lia.
Qed.

Lemma byteLen_bound z : 0 <= z -> z < 256 ^ Z.of_nat (byteLen z).
Proof.
  intros Hz. unfold byteLen. destruct (Z.leb_spec z 0) as [H|H]; [replace z with 0 by lia; reflexivity|].
  pose proof (Z.log2_nonneg z) as L0. rewrite Z2Nat.id by lia.
  change 256 with (2 ^ 8). rewrite <- Z.pow_mul_r by lia.
  destruct (Z.log2_spec z H) as [_ L]. eapply Z.lt_le_trans; [exact L|]. apply Z.pow_le_mono_r; lia.
Qed.
Lemma byteLen_min z n : 0 <= z < 256 ^ n -> 0 <= n -> Z.of_nat (byteLen z) <= n.
Proof.
  intros Hz Hn. unfold byteLen. destruct (Z.leb_spec z 0) as [H|H]; [lia|].
  pose proof (Z.log2_nonneg z) as L0. rewrite Z2Nat.id by lia.
  assert (L : Z.log2 z < 8 * n); [|lia]. apply Z.log2_lt_pow2; [exact H|].
  rewrite Z.pow_mul_r by lia. change (2 ^ 8) with 256. lia.
Qed.
Lemma bigBytes_ok z : bytes_ok (bigBytes z).
Proof. apply be_bytes_ok. Qed.
Lemma beval_bigBytes z : beval (bigBytes z) = Z.abs z.
Proof.
  unfold bigBytes. rewrite beval_be_bytes by lia. apply Z.mod_small.
  pose proof (byteLen_bound (Z.abs z)). lia.
Qed.
Lemma bigBytes_blen z n : 0 <= n -> Z.abs z < 256 ^ n -> blen (bigBytes z) <= n.
Proof. intros Hn H. unfold blen, bigBytes. rewrite be_bytes_len. apply byteLen_min; lia. Qed.
Lemma bigBytes_0 : bigBytes 0 = []. Proof. reflexivity. Qed.

Lemma small_blen z : small z -> blen (bigBytes z) <= 2 ^ 37.
Proof.
  unfold small. intros H. unfold blen, bigBytes. rewrite be_bytes_len. unfold byteLen.
  destruct (Z.leb_spec (Z.abs z) 0) as [H0|H0]; [cbn; lia|].
  pose proof (Z.log2_nonneg (Z.abs z)) as L0. change (2 ^ 40) with (8 * 2 ^ 37) in H.
  set (m := 2 ^ 37) in *. rewrite Z2Nat.id by lia. lia.
Qed.
Lemma small_lt z : Z.abs z < 2 ^ 4096 -> small z.
Proof.
  intros H. unfold small. destruct (Z.eq_dec (Z.abs z) 0) as [->|Hz]; [reflexivity|].
  eapply Z.lt_trans with 4096; [|reflexivity]. apply Z.log2_lt_pow2; [|exact H]. pose proof (Z.abs_nonneg z). lia.
Qed.
Lemma small_blen_alloc z : small z -> blen (bigBytes z) < maxAlloc.
Proof. intros H. apply small_blen in H. eapply Z.le_lt_trans; [exact H|reflexivity]. Qed.
Lemma maxAlloc_64 : maxAlloc < 2 ^ 64. Proof. reflexivity. Qed.

Lemma WriteECPoint_buf w x y : wroom w = None -> small x -> small y ->
  WriteECPoint w (EP (Some x) (Some y)) = Ok ({| wout := wout w ++ encPoint x y; wroom := None |}, false).
Proof.
  intros Hw Hx Hy. apply small_blen_alloc in Hx, Hy. pose proof maxAlloc_64. unfold WriteECPoint. cbn [need pX pY bind].
  rewrite WriteVarBytes_buf by (try exact Hw; lia). cbn [bind].
  rewrite WriteVarBytes_buf by (try reflexivity; lia). cbn [wout]. unfold encPoint. rewrite app_assoc. reflexivity.
Qed.
Lemma WriteBigInt_buf w z : wroom w = None -> small z ->
  WriteBigInt w (Some z) = Ok ({| wout := wout w ++ encInt z; wroom := None |}, false).
Proof.
  intros Hw Hz. apply small_blen_alloc in Hz. pose proof maxAlloc_64. unfold WriteBigInt. cbn [need bind].
  rewrite WriteVarBytes_buf; [reflexivity|exact Hw|]. unfold blen in *. cbn [length]. lia.
Qed.
Lemma ReadECPoint_enc x y s : 0 <= x -> 0 <= y -> small x -> small y ->
  ReadECPoint (encPoint x y ++ s) = ROk (EP (Some x) (Some y)) s.
Proof.
  intros Hx Hy Sx Sy. apply small_blen_alloc in Sx, Sy. unfold ReadECPoint, encPoint. rewrite <- app_assoc.
  rewrite ReadVarBytes_varbytes by lia. cbn [rbind]. rewrite ReadVarBytes_varbytes by lia. cbn [rbind].
  rewrite !beval_bigBytes, !Z.abs_eq by assumption. reflexivity.
Qed.
Lemma ReadBigInt_enc z s : small z -> ReadBigInt (encInt z ++ s) = ROk z s.
Proof.
  intros Hz. apply small_blen_alloc in Hz. unfold ReadBigInt, encInt. rewrite ReadVarBytes_varbytes.
  2:{ unfold blen in *. cbn [length]. lia. }
  cbn [rbind]. rewrite beval_bigBytes. destruct (Z.ltb_spec z 0).
  - rewrite Z.eqb_refl. f_equal. lia.
  - change (0 =? 1) with false. cbn iota. f_equal. lia.
Qed.
Lemma ReadECPoint__enc x y s : 0 <= x -> 0 <= y -> small x -> small y ->
  ReadECPoint_ (encPoint x y ++ s) = Ok (EP (Some x) (Some y), s).
Proof. intros. unfold ReadECPoint_, dropErr. rewrite ReadECPoint_enc by assumption. reflexivity. Qed.
Lemma ReadBigInt__enc z s : small z -> ReadBigInt_ (encInt z ++ s) = Ok (Some z, s).
Proof. intros. unfold ReadBigInt_. rewrite ReadBigInt_enc by assumption. reflexivity. Qed.

(** ** Round trips of whole proofs *)
Ltac wf_split := repeat match goal with
  | H : _ /\ _ |- _ => destruct H
  | H : exists _, _ |- _ => destruct H
  end; subst.
Ltac wr := first [rewrite WriteECPoint_buf by (first [assumption|reflexivity])
                 |rewrite WriteBigInt_buf by (first [assumption|reflexivity])];
  cbn [bind fst snd wout wroom newBuffer app]; rewrite <- ?app_assoc.
Ltac rdx := first [rewrite ReadECPoint__enc by assumption|rewrite ReadBigInt__enc by assumption];
  cbn [bind fst snd].
Ltac rt p := destruct p; cbn in *; wf_split.

Lemma GSPFS_rt p : wfGSPFS p -> exists b, GSPFSBytes p = Ok b /\
  forall s, NewGSPFSProofFromBytes (b ++ s) = Ok (Some p, None).
Proof.
  unfold wfGSPFS, wfPoint, wfInt. intros H. rt p. eexists. split.
  - unfold GSPFSBytes. cbn [gsBase gsRandCommit gsHiddenValue gsChallenge]. repeat wr. reflexivity.
  - intros s. unfold NewGSPFSProofFromBytes. rewrite <- ?app_assoc. repeat rdx. reflexivity.
Qed.
Lemma Equivalence_rt p : wfEquivalence p -> exists b, EquivalenceBytes p = Ok b /\
  forall s, NewEquivalenceProofFromBytes (b ++ s) = Ok (Some p, None).
Proof.
  unfold wfEquivalence, wfPoint, wfInt. intros H. rt p. eexists. split.
  - unfold EquivalenceBytes. cbn [eqUG eqUH eqChallenge eqHiddenValue]. repeat wr. reflexivity.
  - intros s. unfold NewEquivalenceProofFromBytes. rewrite <- ?app_assoc. repeat rdx. reflexivity.
Qed.
Lemma Consistency_rt p : wfConsistency p -> exists b, ConsistencyBytes p = Ok b /\
  forall s, NewConsistencyProofFromBytes (b ++ s) = Ok (Some p, None).
Proof.
  unfold wfConsistency, wfPoint, wfInt. intros H. rt p. eexists. split.
  - unfold ConsistencyBytes. cbn [cnT1 cnT2 cnChallenge cnS1 cnS2]. repeat wr. reflexivity.
  - intros s. unfold NewConsistencyProofFromBytes. rewrite <- ?app_assoc. repeat rdx. reflexivity.
Qed.
Lemma varint_blen v : blen (varint v) <= 9.
Proof.
  unfold varint, blen. repeat match goal with |- context [if ?c then _ else _] => destruct c end;
  cbn [length]; rewrite ?le_len; cbn; lia.
Qed.
Lemma encPoint_blen x y : small x -> small y -> blen (encPoint x y) <= 2 ^ 39.
Proof.
  intros Hx Hy. apply small_blen in Hx, Hy. unfold encPoint, varbytes, blen in *. rewrite !app_length.
  pose proof (varint_blen (Z.of_nat (length (bigBytes x)))). pose proof (varint_blen (Z.of_nat (length (bigBytes y)))).
  unfold blen in *. lia.
Qed.
Lemma encInt_blen z : small z -> blen (encInt z) <= 2 ^ 39.
Proof.
  intros Hz. apply small_blen in Hz. unfold encInt, varbytes, blen in *. rewrite !app_length. cbn [length].
  pose proof (varint_blen (Z.of_nat (S (length (bigBytes z))))).
  unfold blen in *. lia.
Qed.
Lemma Disjunctive_rt p : wfDisjunctive p -> exists b, DisjunctiveBytes p = Ok b /\ blen b < maxAlloc /\
  forall s, NewDisjunctiveProofFromBytes (b ++ s) = Ok (Some p, None).
Proof.
  unfold wfDisjunctive, wfPoint, wfInt. intros H. rt p. eexists. split; [|split].
  - unfold DisjunctiveBytes. cbn [djT1 djT2 djC djC1 djC2 djS1 djS2]. repeat wr. reflexivity.
  - unfold blen. rewrite !app_length. unfold maxAlloc. repeat match goal with
    |- context [length (encInt ?z)] => let L := fresh in assert (L : blen (encInt z) <= 2^39) by (apply encInt_blen; assumption);
      unfold blen in L; generalize dependent (length (encInt z)); intros
    | |- context [length (encPoint ?x ?z)] => let L := fresh in assert (L : blen (encPoint x z) <= 2^39) by (apply encPoint_blen; assumption);
      unfold blen in L; generalize dependent (length (encPoint x z)); intros
    end. lia.
  - intros s. unfold NewDisjunctiveProofFromBytes. rewrite <- ?app_assoc. repeat rdx. reflexivity.
Qed.
Lemma ABC_rt p : wfABC p -> exists b, ABCBytes p = Ok b /\
  forall s, NewABCProofFromBytes (b ++ s) = Ok (Some p, None).
Proof.
  unfold wfABC. intros H. do 9 destruct H as [? H]. destruct H as [d [Hd Hdj]].
  destruct (Disjunctive_rt d Hdj) as (db & Hdb & Ldb & Rdb).
  unfold wfPoint, wfInt in *. rt p. eexists. split.
  - unfold ABCBytes. cbn [abB abC abT1 abT2 abChallenge abj abk abl abCToken abDisj need bind]. repeat wr.
    rewrite Hdb. cbn [bind]. rewrite WriteVarBytes_buf; [|reflexivity|pose proof maxAlloc_64; lia].
    cbn [fst wout]. rewrite <- ?app_assoc. reflexivity.
  - intros s. unfold NewABCProofFromBytes. rewrite <- ?app_assoc.
    repeat (first [rewrite ReadECPoint_enc by assumption|rewrite ReadBigInt_enc by assumption]; cbn [rdR]).
    rewrite ReadVarBytes_varbytes by (unfold maxAlloc, blen in *; lia). cbn [rdR]. specialize (Rdb []). rewrite app_nil_r in Rdb. rewrite Rdb.
    reflexivity.
Qed.
Definition encTuple (t : rangeProofTuple) : list Z :=
  match rtC t, rtS t with EP (Some x) (Some y), Some z => encPoint x y ++ encInt z | _, _ => [] end.
Lemma writeTuples_buf ts : forall w, wroom w = None -> Forall wfTuple ts ->
  writeTuples w ts = Ok {| wout := wout w ++ concat (map encTuple ts); wroom := None |}.
Proof.
  induction ts as [|t r IH]; intros w Hw Ht; cbn [writeTuples map concat].
  - rewrite app_nil_r. destruct w. cbn in *. subst. reflexivity.
  - inversion Ht as [|? ? [Hp Hi] Hr]; subst. unfold wfPoint, wfInt in *. wf_split. destruct t as [c0 s0]; cbn [rtC rtS] in *; subst.
    repeat wr. rewrite IH by (try reflexivity; assumption). cbn [wout encTuple rtC rtS]. rewrite <- ?app_assoc. reflexivity.
Qed.
Lemma readTuples_enc ts : forall s, Forall wfTuple ts ->
  readTuples (length ts) (concat (map encTuple ts) ++ s) = Ok ts.
Proof.
  induction ts as [|t r IH]; intros s Ht; cbn [length readTuples map concat]; [reflexivity|].
  inversion Ht as [|? ? [Hp Hi] Hr]; subst. unfold wfPoint, wfInt in *. wf_split. destruct t as [c0 s0]; cbn [rtC rtS] in *; subst.
  cbn [encTuple rtC rtS]. rewrite <- ?app_assoc. repeat rdx. rewrite IH by assumption. reflexivity.
Qed.
Lemma Range_rt p : wfRange p -> exists b, RangeBytes p = Ok b /\
  forall s, NewRangeProofFromBytes (b ++ s) = Ok (Some p, None).
Proof.
  unfold wfRange. intros (Hp & Hi & Ht & Hn). destruct p as [agg e ts]; cbn [rpAggregate rpE rpTuples] in *.
  assert (U : uint64 (Z.of_nat (length ts))) by (unfold uint64; lia).
  unfold wfPoint, wfInt in *. wf_split. eexists. split.
  - unfold RangeBytes. cbn [rpAggregate rpE rpTuples]. repeat wr.
    rewrite WriteVarInt_buf by (try reflexivity; assumption). cbn [fst].
    rewrite writeTuples_buf by (try reflexivity; assumption). cbn [bind wout].
    rewrite <- ?app_assoc. reflexivity.
  - intros s. unfold NewRangeProofFromBytes. rewrite <- ?app_assoc. repeat rdx.
    rewrite ReadVarInt_varint by assumption. cbn [dropErr bind fst snd].
    destruct (Z.ltb_spec maxAlloc (24 * Z.of_nat (length ts))) as [C|C];
      [exfalso; unfold maxAlloc in C; lia|].
    rewrite Nat2Z.id, readTuples_enc by assumption. reflexivity.
Qed.

(** ** What the decoders do on other inputs *)
Lemma ReadVarBytes_zero m s : ReadVarBytes m (0 :: s) = ROk [] s.
Proof. apply (ReadVarBytes_varbytes m [] s). discriminate. Qed.
Lemma ReadBigInt_zero s : ReadBigInt (0 :: s) = RPanic.
Proof. unfold ReadBigInt. rewrite ReadVarBytes_zero. reflexivity. Qed.
Lemma ReadBigInt__zero s : ReadBigInt_ (0 :: s) = Panic.
Proof. unfold ReadBigInt_. rewrite ReadBigInt_zero. reflexivity. Qed.
Lemma ReadECPoint_zero s : ReadECPoint (0 :: 0 :: s) = ROk ZeroPoint s.
Proof. unfold ReadECPoint. rewrite ReadVarBytes_zero. cbn [rbind]. rewrite ReadVarBytes_zero. reflexivity. Qed.
Lemma ReadECPoint__zero s : ReadECPoint_ (0 :: 0 :: s) = Ok (ZeroPoint, s).
Proof. unfold ReadECPoint_. rewrite ReadECPoint_zero. reflexivity. Qed.

(** a reader fails on every proper prefix of [e] *)
Definition truncR {A} (r : list Z -> rd A) (e : list Z) : Prop :=
  forall p, prefix p e -> p <> e -> exists er rest, r p = RErr er rest.
Lemma prefix_app_cases p a b : prefix p (a ++ b) ->
  (prefix p a /\ p <> a) \/ exists q, p = a ++ q /\ prefix q b.
Proof.
  intros [t Ht]. revert p Ht. induction a as [|x a IH]; intros p Ht.
  - right. exists p. split; [reflexivity|]. exists t. exact Ht.
  - destruct p as [|y p].
    + left. split; [exists (x :: a); reflexivity|discriminate].
    + cbn [app] in Ht. injection Ht as -> Ht. destruct (IH p Ht) as [[[u Hu] Hn]|(q & -> & Hq)].
      * left. split; [exists u; cbn [app]; rewrite Hu; reflexivity|congruence].
      * right. exists q. split; [reflexivity|exact Hq].
Qed.
Lemma ReadVarBytes_trunc m bs : blen bs <= maxAlloc -> truncR (ReadVarBytes m) (varbytes bs).
Proof.
  intros Hb p Hp Hne.
  assert (U : uint64 (blen bs)) by (unfold uint64, maxAlloc, blen in *; lia).
  unfold varbytes in *. destruct (prefix_app_cases _ _ _ Hp) as [[Hq Hn]|(q & -> & Hq)].
  - destruct (ReadVarInt_trunc _ _ U Hq Hn) as (e & r & E). exists e, r. unfold ReadVarBytes. rewrite E. reflexivity.
  - unfold ReadVarBytes. fold (blen bs). rewrite ReadVarInt_varint by exact U. cbn [rbind].
    destruct (Z.ltb_spec maxAlloc (blen bs)) as [C|C]; [lia|].
    unfold readFull. destruct Hq as [t Ht].
    destruct (Z.leb_spec (blen bs) (blen q)) as [L|L].
    + exfalso. apply Hne. destruct t as [|z t]; [rewrite app_nil_r in Ht; subst; reflexivity|].
      unfold blen in L. subst bs. rewrite app_length in L. cbn [length] in L. lia.
    + destruct q; eexists; eexists; reflexivity.
Qed.
Lemma truncR_bind {A B} (r : list Z -> rd A) (k : A -> list Z -> rd B) e1 e2 a :
  truncR r e1 -> (forall s, r (e1 ++ s) = ROk a s) -> truncR (k a) e2 ->
  truncR (fun s => rbind (r s) k) (e1 ++ e2).
Proof.
  intros T1 R1 T2 p Hp Hne. destruct (prefix_app_cases _ _ _ Hp) as [[Hq Hn]|(q & -> & Hq)].
  - destruct (T1 _ Hq Hn) as (er & rest & E). exists er, rest. rewrite E. reflexivity.
  - rewrite R1. cbn [rbind]. apply T2; [exact Hq|congruence].
Qed.
Lemma truncR_ret {A B} (r : list Z -> rd A) (k : A -> list Z -> rd B) e :
  truncR r e -> truncR (fun s => rbind (r s) k) e.
Proof. intros T p Hp Hn. destruct (T p Hp Hn) as (er & rest & E). exists er, rest. rewrite E. reflexivity. Qed.
Lemma ReadECPoint_trunc x y : small x -> small y -> truncR ReadECPoint (encPoint x y).
Proof.
  intros Hx Hy. apply small_blen_alloc in Hx, Hy. unfold ReadECPoint, encPoint.
  apply (truncR_bind (ReadVarBytes 32) _ _ _ (bigBytes x)).
  - apply ReadVarBytes_trunc; lia.
  - intros s. apply ReadVarBytes_varbytes; lia.
  - apply (truncR_ret (ReadVarBytes 32)). apply ReadVarBytes_trunc; lia.
Qed.
Lemma ReadBigInt_trunc z : small z -> truncR ReadBigInt (encInt z).
Proof.
  intros Hz. apply small_blen_alloc in Hz. unfold ReadBigInt, encInt. apply (truncR_ret (ReadVarBytes 32)).
  apply ReadVarBytes_trunc. unfold blen in *. cbn [length]. lia.
Qed.
Definition truncP {A} (r : list Z -> R (option A * option goerr)) (e : list Z) : Prop :=
  forall p, prefix p e -> p <> e -> exists er, r p = Ok (None, Some (ERead er)).
Lemma truncP_rdR {A B} (r : list Z -> rd A) (k : A -> list Z -> R (option B * option goerr)) e1 e2 a :
  truncR r e1 -> (forall s, r (e1 ++ s) = ROk a s) -> truncP (k a) e2 ->
  truncP (fun s => rdR (r s) k) (e1 ++ e2).
Proof.
  intros T1 R1 T2 p Hp Hne. destruct (prefix_app_cases _ _ _ Hp) as [[Hq Hn]|(q & -> & Hq)].
  - destruct (T1 _ Hq Hn) as (er & rest & E). exists er. rewrite E. reflexivity.
  - rewrite R1. cbn [rdR]. apply T2; [exact Hq|congruence].
Qed.
Lemma truncP_last {A B} (r : list Z -> rd A) (k : A -> list Z -> R (option B * option goerr)) e1 :
  truncR r e1 -> truncP (fun s => rdR (r s) k) e1.
Proof. intros T1 p Hp Hne. destruct (T1 _ Hp Hne) as (er & rest & E). exists er. rewrite E. reflexivity. Qed.
Lemma ABC_trunc p b : wfABC p -> ABCBytes p = Ok b -> truncP NewABCProofFromBytes b.
Proof.
  unfold wfABC. intros H. do 9 destruct H as [? H]. destruct H as [d [Hd Hdj]].
  destruct (Disjunctive_rt d Hdj) as (db & Hdb & Ldb & Rdb). apply Z.lt_le_incl in Ldb.
  assert (T := ReadVarBytes_trunc 100000 db Ldb). assert (L2 : blen db < 2 ^ 64) by (pose proof maxAlloc_64; lia).
  clear Ldb Rdb Hdj.
  unfold wfPoint, wfInt in *. rt p. intros HB.
  unfold ABCBytes in HB. cbn [abB abC abT1 abT2 abChallenge abj abk abl abCToken abDisj need bind] in HB.
  repeat (first [rewrite WriteECPoint_buf in HB by (first [assumption|reflexivity])
                 |rewrite WriteBigInt_buf in HB by (first [assumption|reflexivity])];
  cbn [bind fst snd wout wroom newBuffer app] in HB; rewrite <- ?app_assoc in HB).
  rewrite Hdb in HB. cbn [bind] in HB. rewrite WriteVarBytes_buf in HB; [|reflexivity|exact L2].
  cbn [fst wout] in HB. rewrite <- ?app_assoc in HB.
  injection HB as HB. subst b. unfold NewABCProofFromBytes.
  do 4 (eapply (truncP_rdR ReadECPoint); [apply ReadECPoint_trunc; assumption|intros s; apply ReadECPoint_enc; assumption|]).
  do 4 (eapply (truncP_rdR ReadBigInt); [apply ReadBigInt_trunc; assumption|intros s; apply ReadBigInt_enc; assumption|]).
  eapply (truncP_rdR ReadECPoint); [apply ReadECPoint_trunc; assumption|intros s; apply ReadECPoint_enc; assumption|].
  apply (truncP_last (ReadVarBytes 100000)). exact T.
Qed.
