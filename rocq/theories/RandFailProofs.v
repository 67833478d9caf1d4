(** * What the provers do when the random source fails (proof only) *)
From Coq Require Import ZArith List Lia Bool.
From Verif Require Import Go Wire Big Crypto Gspfs Equivalence Consistency Disjunctive Abc Range.
Import ListNotations.
Open Scope Z_scope.

Ltac b1 := match goal with |- context [bind ?r _] => destruct r; cbn [bind]; try discriminate end.
Ltac i1 := match goal with |- context [if ?c then _ else _] => destruct c; try discriminate end.
Lemma gspfs_norand sha zk B A x pf : NewGSPFSProofBase sha zk B A x None <> Ok (pf, None).
Proof. unfold NewGSPFSProofBase. cbv zeta. repeat b1. i1. Qed.
Lemma equiv_norand sha zk B1 R1 B2 R2 x pf : NewEquivalenceProof sha zk B1 R1 B2 R2 x None <> Ok (pf, None).
Proof. unfold NewEquivalenceProof. cbv zeta. b1. b1. b1. i1. b1. b1. i1. Qed.
Lemma cons_norand sha zk CM T PK v r u1 u2 pf : u1 = None \/ u2 = None -> NewConsistencyProof sha zk CM T PK v r u1 u2 <> Ok (pf, None).
Proof.
  intros H. unfold NewConsistencyProof. cbv zeta. b1. b1. b1. i1. b1. b1. i1.
  destruct u1; [|discriminate]. destruct u2; [|discriminate]. destruct H; discriminate.
Qed.
Lemma disj_norand sha zk B1 R1 B2 R2 x side u1 u2 u3 pf : u1 = None \/ u2 = None \/ u3 = None ->
  NewDisjunctiveProof sha zk B1 R1 B2 R2 x side u1 u2 u3 <> Ok (pf, None).
Proof.
  intros H. unfold NewDisjunctiveProof, disjProve. cbv zeta. b1.
  destruct (side =? Left); [|destruct (side =? Right); [|discriminate]]; b1; b1; i1;
  (destruct u1; [|discriminate]; destruct u2; [|discriminate]; destruct u3; [|discriminate]; destruct H as [H|[H|H]]; discriminate).
Qed.
Lemma abc_norand sha zk CM T v sk side rn pf :
  In None [ar1 rn; ar2 rn; ar3 rn; arb rn; arc rn; ard1 rn; ard2 rn; ard3 rn] ->
  NewABCProof sha zk CM T v sk side rn <> Ok (pf, None).
Proof.
  intros H. destruct rn as [a1 a2 a3 ab ac d1 d2 d3]. cbn [ar1 ar2 ar3 arb arc ard1 ard2 ard3] in *. unfold NewABCProof. cbn [ar1 ar2 ar3 arb arc ard1 ard2 ard3].
  destruct a1; [|discriminate]. destruct a2; [|discriminate]. destruct a3; [|discriminate]. destruct ab; [|discriminate]. destruct ac; [|discriminate].
  assert (D : d1 = None \/ d2 = None \/ d3 = None).
  { cbn [In] in H. repeat (destruct H as [H|H]; [first [discriminate H|auto]|]). destruct H. }
  b1. b1. b1.
  destruct (_ && _); [|destruct (_ && _); [|discriminate]]; b1; b1; b1.
  - destruct (NewDisjunctiveProof _ _ _ _ _ _ _ _ _ _ _) as [[d [e|]]|] eqn:E; cbn [bind snd]; try discriminate.
    exfalso. exact (disj_norand _ _ _ _ _ _ _ _ _ _ _ _ D E).
  - destruct (NewDisjunctiveProof _ _ _ _ _ _ _ _ _ _ _) as [[d [e|]]|] eqn:E; cbn [bind snd]; try discriminate.
    exfalso. exact (disj_norand _ _ _ _ _ _ _ _ _ _ _ _ D E).
Qed.
Lemma ineq_norand sha zk A B TA TB a b sk rn pf :
  In None [ar1 rn; ar2 rn; ar3 rn; arb rn; arc rn; ard1 rn; ard2 rn; ard3 rn] ->
  NewInequalityProof sha zk A B TA TB a b sk rn <> Ok (pf, None).
Proof.
  intros H. unfold NewInequalityProof. b1. b1. i1. cbv zeta. b1. b1.
  destruct (NewABCProof _ _ _ _ _ _ _ _) as [[d [e|]]|] eqn:E; cbn [bind snd fst]; try discriminate.
  exfalso. exact (abc_norand _ _ _ _ _ _ _ _ _ H E).
Qed.

(** ** The range prover *)
Lemma runAll_nth f ss : forall n ss' i, runAll f n ss = Ok ss' ->
  length ss' = length ss /\
  forall s, nth_error ss i = Some s -> exists s', nth_error ss' i = Some s' /\ runActs (f (n + i)%nat) s = Ok s'.
Proof.
  induction ss as [|s t IH]; intros n ss' i E; cbn [runAll] in E.
  - injection E as <-. split; [reflexivity|]. intros s Hs. destruct i; discriminate Hs.
  - destruct (runActs (f n) s) as [s1|] eqn:E1; cbn [bind] in E; [|discriminate].
    destruct (runAll f (S n) t) as [t1|] eqn:E2; cbn [bind] in E; [|discriminate]. injection E as <-.
    split; [cbn [length]; f_equal; exact (proj1 (IH (S n) t1 0%nat E2))|]. intros s0 Hs. destruct i as [|i]; cbn [nth_error] in *.
    + injection Hs as <-. exists s1. rewrite Nat.add_0_r. split; [reflexivity|exact E1].
    + destruct (IH (S n) t1 i E2) as [_ K]. destruct (K s0 Hs) as (s' & A & B). exists s'. split; [exact A|].
      rewrite <- B. f_equal. f_equal. lia.
Qed.
Lemma allBytes_nil ps : forall i, nth_error ps i = Some (EP None None) -> allBytes ps = Panic.
Proof.
  induction ps as [|p t IH]; intros i E; destruct i as [|i]; cbn [nth_error] in E; try discriminate.
  - injection E as ->. reflexivity.
  - cbn [allBytes]. rewrite (IH i E). destruct (pBytes p); reflexivity.
Qed.
Lemma gather_nil zk ss : forall vt agg i s, nth_error ss i = Some s -> slv s = None -> gather zk ss vt agg = Panic.
Proof.
  induction ss as [|p t IH]; intros vt agg i s E Hs; destruct i as [|i]; cbn [nth_error] in E; try discriminate.
  - injection E as ->. cbn [gather]. rewrite Hs. reflexivity.
  - cbn [gather]. destruct (slv p); cbn [need bind]; [|reflexivity]. destruct (Add _ _ _); cbn [bind]; [|reflexivity].
    rewrite (IH _ _ i s E Hs). reflexivity.
Qed.
Lemma nth_repeat_some {A} (a : A) n i : (i < n)%nat -> nth_error (repeat a n) i = Some a.
Proof. revert i; induction n as [|n IH]; intros i H; [lia|]. destruct i as [|i]; [reflexivity|]. cbn [repeat nth_error]. apply IH. lia. Qed.
Lemma range_norand sha zk v rn i : 0 <= v <= 2 ^ 40 -> (i < 40)%nat ->
  rrA1 rn i = None \/ (rangeBit v i = true /\ rrA2 rn i = None) \/ (rangeBit v i = false /\ rrB rn i = None) ->
  NewRangeProof sha zk (Some v) rn = Panic.
Proof.
  intros Hv Hi H. unfold NewRangeProof. cbn [need bind].
  destruct (Z.ltb_spec 1099511627776 v) as [C|_]; [exfalso; change (2 ^ 40) with 1099511627776 in Hv; lia|].
  destruct (Z.ltb_spec v 0) as [C|_]; [lia|].
  destruct (runAll (phaseA sha zk v rn) 0 (repeat emptySlot proofSize)) as [ssA|] eqn:EA; cbn [bind]; [|reflexivity].
  destruct (runAll_nth _ _ _ _ i EA) as [_ K]. destruct (K emptySlot (nth_repeat_some _ _ _ Hi)) as (sA & NA & RA).
  cbn [Nat.add] in RA. unfold phaseA, proofGenA in RA.
  destruct (rrA1 rn i) as [k1|] eqn:D1.
  - assert (HH : (rangeBit v i = true /\ rrA2 rn i = None) \/ (rangeBit v i = false /\ rrB rn i = None)) by (destruct H as [H|H]; [discriminate|exact H]). clear H.
    destruct (challengeE0 sha zk ssA) as [e0|]; cbn [bind]; [|reflexivity].
    destruct (runAll (phaseB sha zk v e0 rn) 0 ssA) as [ssB|] eqn:EB; cbn [bind]; [|reflexivity].
    destruct (runAll_nth _ _ _ _ i EB) as [_ KB]. destruct (KB sA NA) as (sB & NB & RB). cbn [Nat.add] in RB. unfold phaseB, proofGenB in RB.
    destruct HH as [[B1 D2]|[B0 D2]].
    + exfalso. rewrite B1 in RA, RB. cbn [negb] in *. rewrite D2 in RA. cbn [runActs drawV drawK bind snd fst emptySlot slR slB slk slv] in RA.
      destruct (Mult _ _ _); cbn [bind snd fst] in RA; [|discriminate]. destruct (hpoint _ _); cbn [bind] in RA; [|discriminate].
      cbn [slR] in RA. destruct (curveAdd _ _ _); cbn [bind snd fst slR slB slk slv] in RA; [|discriminate]. injection RA as <-.
      cbn [runActs slk need bind] in RB. discriminate.
    + rewrite B0 in RA, RB. cbn [negb] in *. rewrite D2 in RB. cbn [runActs] in RB. injection RB as <-.
      cbn [runActs drawK bind snd fst emptySlot slR slB slk slv] in RA.
      destruct (Mult _ _ _); cbn [bind snd fst slR slB slk slv] in RA; [|discriminate]. injection RA as <-.
      unfold rangeFinish. rewrite (gather_nil zk ssB 0 ZeroPoint i _ NB); reflexivity.
  - assert (Q : slR sA = EP None None).
    { destruct (rangeBit v i); cbn [negb runActs drawV drawK bind snd fst emptySlot slR slB slk slv] in RA; injection RA as <-; reflexivity. }
    unfold challengeE0, hashPoints. rewrite (allBytes_nil (map slR ssA) i); [reflexivity|].
    rewrite (map_nth_error slR i ssA NA), Q. reflexivity.
Qed.
