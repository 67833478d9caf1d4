(** * rangeproof.go on pointers (proofs) *)
From Coq Require Import ZArith List Bool Lia.
From Verif Require Import Go Wire Big Crypto Gspfs Equivalence Consistency Disjunctive Abc Range BigMem ApiMem SpecApiMem ApiMemProofs ApiMemProofs2 ApiMemProofs3 ApiMemProofs4.
Import ListNotations.
Open Scope Z_scope.

Lemma bind_assoc : forall (A B C : Type) (r : R A) (f : A -> R B) (g : B -> R C), bind (bind r f) g = bind r (fun a => bind (f a) g).
Proof. intros A B C [a|] f g; reflexivity. Qed.
Lemma sim_newMul : forall (A B : Type) t m0 m x y X Y (k : bigint -> prog A) (f : Z -> Z -> R B) rel, unchanged m0 m -> intAt t m x X -> intAt t m y Y ->
  (forall a b m1 z, X = Some a -> Y = Some b -> unchanged m m1 -> unchanged m0 m1 -> intAt t m1 z (Some (a * b)) -> freshInt m z -> sim t m0 m1 (k z) (f a b) rel) ->
  sim t m0 m (pbind (newMul x y) k) (a <- need X; b <- need Y; f a b) rel.
Proof.
  intros A B t m0 m x y X Y k f rel E HX HY K.
  destruct X as [a|]; cbn [need bind]; [|apply newMul_nil; assumption].
  destruct Y as [b|]; cbn [need bind].
  - eapply sim_blk; [exact E|exact (blk_mul _ _ _ _ _ _ HX HY)|]. intros m1 z E1 E2 HZ FZ. apply K; try assumption; reflexivity.
  - unfold newMul, intMul. apply sim_assoc_inv. eapply sim_blk; [exact E|apply blk_new|]. intros m1 z E1 U1 _ _. apply sim_assoc_inv.
    eapply sim_deref; [exact (intAt_ext _ _ _ _ _ E1 HX)|]. apply sim_assoc_inv. apply sim_deref_nil; [exact U1|exact (intAt_ext _ _ _ _ _ E1 HY)].
Qed.
Lemma blk_exp : forall t m x y n a b c, intAt t m x (Some a) -> intAt t m y (Some b) -> intAt t m n (Some c) -> blk t m (z <~ newInt 0; intExp z x y n) (bigExp a b c).
Proof.
  intros t m x y n a b c X Y N. apply blk_then with (w := 0); [apply blk_new|intros m1 z E NZ]. unfold intExp.
  eapply sim_deref; [exact (intAt_ext _ _ _ _ _ E X)|]. eapply sim_deref; [exact (intAt_ext _ _ _ _ _ E Y)|]. eapply sim_deref; [exact (intAt_ext _ _ _ _ _ E N)|].
  eapply blk_assign; eassumption.
Qed.
Lemma nth_Forall2 : forall (A B : Type) (r : A -> B -> Prop) l l' n, Forall2 r l l' -> optAt r (nth_error l n) (nth_error l' n).
Proof. intros A B r l l' n F. revert n. induction F; intros [|n]; try exact I; [assumption|apply IHF]. Qed.
Lemma tuplesAt_ext : forall t m m' x v, unchanged m m' -> Forall2 (tupleAt t m) x v -> Forall2 (tupleAt t m') x v.
Proof.
  intros t m m' x v E H. revert H. apply Forall2_imp. intros a b [A B]. split; [exact (pointAt_ext _ _ _ _ _ E A)|exact (intAt_ext _ _ _ _ _ E B)].
Qed.
Lemma slotAt_ext : forall t m m' x v, unchanged m m' -> slotAt t m x v -> slotAt t m' x v.
Proof.
  intros t m m' x v E (A & B & C & D). split; [exact (pointAt_ext _ _ _ _ _ E A)|]. split; [exact (pointAt_ext _ _ _ _ _ E B)|].
  split; [exact (intAt_ext _ _ _ _ _ E C)|exact (intAt_ext _ _ _ _ _ E D)].
Qed.
Lemma slotsAt_ext : forall t m m' x v, unchanged m m' -> Forall2 (slotAt t m) x v -> Forall2 (slotAt t m') x v.
Proof. intros t m m' x v E H. revert H. apply Forall2_imp. intros a b. apply slotAt_ext, E. Qed.

(** the first part may store into what was made since [m0] *)
Lemma sim_bind_same : forall (A B A' B' : Type) t m0 m (c : prog A) (r : R B) (k : A -> prog A') (f : B -> R B') rel1 rel,
  unchanged m0 m -> sim t m0 m c r rel1 ->
  (forall m1 a b, unchanged m0 m1 -> rel1 m1 a b -> sim t m0 m1 (k a) (f b) rel) ->
  sim t m0 m (pbind c k) (bind r f) rel.
Proof.
  intros A B A' B' t m0 m c r k f rel1 rel E [C H] K. destruct (exec t c m) as [o m1] eqn:X. destruct H as [E1 H].
  destruct o as [a|]; destruct r as [b|]; try contradiction; cbn [bind].
  - specialize (K m1 a b E1 H). destruct K as [K1 K2]. split.
    + apply confined_bind; [exact C|]. intros a' m' X'. rewrite X in X'. injection X' as <- <-. exact K1.
    + rewrite exec_bind, X. exact K2.
  - split; [apply confined_bind; [exact C|]; intros a' m' X'; rewrite X in X'; discriminate X'|rewrite exec_bind, X; split; [exact E1|exact I]].
Qed.

Section Api.
Variables (sha : list Z -> list Z) (t : nat) (h : hparams) (zk : zkparams).

Lemma hashPointM_ok : forall m p P, pointAt t m p P -> sim t m m (hashPointM sha p) (hashPoint sha P) (fun m' x v => intAt t m' x (Some v) /\ freshInt m x).
Proof.
  intros m p P H. unfold hashPointM, hashPoint. eapply sim_bind; [apply ext_refl|apply (pBytesM_ok t m m _ _ (ext_refl m) H)|]. intros m1 b b' E1 _ <-.
  pose proof (blk_bytes t m1 (sha b)) as BB. unfold blk in BB. eapply sim_from; [exact E1|exact BB|]. intros m' x v _ (-> & N1 & N2 & _). split; [exact N1|exact (fresh_back _ _ _ E1 N2)].
Qed.
Lemma hashModM_ok : forall m p P, paramsAt t m h zk -> pointAt t m p P ->
  sim t m m (e <~ hashPointM sha p; intMod e e (hN h)) (x <- hashPoint sha P; Ok (x mod cN (zC zk))) (fun m' x v => intAt t m' x (Some v) /\ freshInt m x).
Proof.
  intros m p P HP H. unfold hashPointM, hashPoint. rewrite bind_assoc. apply sim_assoc_inv.
  eapply sim_bind; [apply ext_refl|apply (pBytesM_ok t m m _ _ (ext_refl m) H)|]. intros m1 b b' E1 _ <-. forward E1. cbn [bind].
  pose proof (blk_inplace t m1 _ _ (p_N _ _ _ _ HP) _ _ (blk_bytes t m1 (sha b))) as BB. unfold blk in BB. eapply sim_from; [exact E1|exact BB|].
  intros m' x v _ (-> & N1 & N2 & _). split; [exact N1|exact (fresh_back _ _ _ E1 N2)].
Qed.
Lemma hpointM_ok : forall m0 m i, unchanged m0 m -> paramsAt t m h zk -> sim t m0 m (hpointM h i) (hpoint zk i) (fun m' a b => pointAt t m' a b /\ In a (hHPoints h)).
Proof.
  intros m0 m i E HP. unfold hpointM, hpoint. destruct HP as (_ & _ & _ & _ & _ & F & _). pose proof (nth_Forall2 _ _ _ _ _ i F) as H.
  destruct (nth_error (hHPoints h) i) eqn:X, (nth_error (zHPoints zk) i); try contradiction; cbn [need]; [|apply sim_crash, E].
  apply sim_ret; [exact E|]. split; [exact H|]. exact (nth_error_In _ _ X).
Qed.

(** a slot made since [mv] *)
Definition slotNew (mv : bmem) (s : hslot) : Prop := freshOr mv (hHPoints h) (hsB s) /\ freshInt mv (hsk s) /\ freshInt mv (hsv s).
Lemma freshOr_back : forall m m' l p, unchanged m m' -> freshOr m' l p -> freshOr m l p.
Proof. intros m m' l p E [F|F]; [left; exact (freshP_back _ _ _ E F)|right; exact F]. Qed.
Lemma slotNew_back : forall m m' s, unchanged m m' -> slotNew m' s -> slotNew m s.
Proof. intros m m' s E (A & B & C). split; [exact (freshOr_back _ _ _ _ E A)|]. split; eapply fresh_back; eassumption. Qed.

Lemma proofGenA_ok : forall mv m i bit d1 d2 s S, unchanged mv m -> paramsAt t m h zk -> slotAt t m s S -> slotNew mv s ->
  sim t m m (proofGenAM sha h i bit d1 d2 s) (runActs (proofGenA sha zk i bit d1 d2) S) (fun m' a b => slotAt t m' a b /\ slotNew mv a).
Proof.
  intros mv m i bit d1 d2 s S UV HP (HR & HB & HK & HV) (NB & NK & NV). pose proof (ext_refl m) as U0. unfold proofGenAM, proofGenA.
  destruct bit; cbn [negb].
  - destruct d1 as [v1|].
    2:{ cbn [runActs drawV bind fst snd]. fin. split; [repeat split; try assumption; apply HR || apply HB|]. split; [exact NB|]. split; [exact NK|exact I]. }
    cbn [runActs drawV bind fst snd slR slB slk slv].
    val (blk_new t _ v1) as v HVv FVv.
    rewrite bind_assoc. bnd (MultM_ok t h zk _ _ _ _ _ HP (p_H _ _ _ _ HP) HVv) as r r' [HRr FRr]. cbn [bind fst snd runActs slR slB slk slv].
    rewrite bind_assoc.
    eapply sim_bind; [eassumption|apply (hpointM_ok _ _ i (ext_refl _) HP)|]. intros m3 hp hp' E3 U3 [HHP IHP]. forward E3. clear E3.
    rewrite bind_assoc. eapply sim_bind; [eassumption|exact (curveAddM_ok _ _ _ _ _ _ _ _ HP HHP HRr)|]. intros m4 b b' E4 U4 [HBb NBb]. forward E4. clear E4. cbn [bind fst snd runActs slR slB slk slv].
    assert (NB' : freshOr m (hHPoints h) b).
    { destruct NBb as [N|[->| ->]]; [left; exact (freshP_back _ _ _ U3 N)|right; exact IHP|left; exact FRr]. }
    destruct d2 as [v2|].
    2:{ cbn [drawK bind fst snd slR slB slk slv runActs]. fin. split; [split; [exact HRr|split; [exact HBb|split; [exact I|exact HVv]]]|]. split; [exact (freshOr_back _ _ _ _ UV NB')|]. split; [exact I|exact (fresh_back _ _ _ UV FVv)]. }
    cbn [runActs drawK bind fst snd slR slB slk slv].
    val (blk_new t _ v2) as k HKk FKk.
    rewrite bind_assoc. bnd (MultM_ok t h zk _ _ _ _ _ HP (p_H _ _ _ _ HP) HKk) as tm tm' [HT _].
    assert (EQ : forall g : Z -> R (slot * bool), (x <- hashPoint sha tm'; g (x mod cN (zC zk))) = (e <- (x <- hashPoint sha tm'; Ok (x mod cN (zC zk))); g e)).
    { intros g. rewrite bind_assoc. reflexivity. }
    cbv zeta. rewrite (EQ (fun e => bx <- need (pX b'); by_ <- need (pY b'); q <- cScalarMult (zC zk) bx by_ (bigBytes e); Ok (MkSlot (mkPoint q) b' (Some v2) (Some v1), true))). clear EQ.
    rewrite bind_assoc. apply sim_assoc. bnd (hashModM_ok _ _ _ HP HT) as e e' [HE _].
    eapply intBytes_ok; [exact HE|].
    assert (EQ : forall (g : Z * Z -> R slot), bind (bx <- need (pX b'); by_ <- need (pY b'); q <- cScalarMult (zC zk) bx by_ (bigBytes e'); Ok (MkSlot (mkPoint q) b' (Some v2) (Some v1), true)) (fun r => if snd r then Ok (fst r) else Ok (fst r))
      = (q <- (bx <- need (pX b'); by_ <- need (pY b'); q <- cScalarMult (zC zk) bx by_ (bigBytes e'); Ok (mkPoint q)); Ok (MkSlot q b' (Some v2) (Some v1)))).
    { intros _. destruct (need (pX b')); [|reflexivity]. destruct (need (pY b')); [|reflexivity]. cbn [bind]. destruct (cScalarMult _ _ _ _); reflexivity. }
    rewrite (EQ (fun _ => Panic)). clear EQ.
    bnd (scalarMultM_ok t _ h zk _ _ _ HP HBb) as r2 r2' [HR2 _].
    fin. split; [split; [exact HR2|split; [exact HBb|split; [exact HKk|exact HVv]]]|]. split; [exact (freshOr_back _ _ _ _ UV NB')|]. split; [exact (fresh_back _ _ _ UV FKk)|exact (fresh_back _ _ _ UV FVv)].
  - destruct d1 as [v1|].
    2:{ cbn [runActs drawK bind fst snd]. fin. split; [split; [exact HR|split; [exact HB|split; [exact I|exact HV]]]|]. split; [exact NB|]. split; [exact I|exact NV]. }
    cbn [runActs drawK bind fst snd slR slB slk slv].
    val (blk_new t _ v1) as k HKk FKk.
    rewrite bind_assoc. bnd (MultM_ok t h zk _ _ _ _ _ HP (p_H _ _ _ _ HP) HKk) as r r' [HRr FRr]. cbn [bind fst snd runActs slR slB slk slv].
    fin. split; [split; [exact HRr|split; [exact HB|split; [exact HKk|exact HV]]]|]. split; [exact NB|]. split; [exact (fresh_back _ _ _ UV FKk)|exact NV].
Qed.

Lemma genB_zero : forall i e0 j S, runActs (proofGenB sha zk i false e0 (Some j)) S =
  (iv <- genBinv sha zk i e0 j; i' <- need iv; k <- need (slk S); b <- Mult zk (slR S) iv; Ok (MkSlot (slR S) b (Some (j + k * (e0 * i'))) (Some (i' * k)))).
Proof.
  intros i e0 j S. unfold proofGenB. cbn [negb runActs]. destruct (genBinv sha zk i e0 j) as [[iv|]|]; cbn [bind need]; try reflexivity.
  destruct (slk S) as [k|]; cbn [bind need]; [|reflexivity]. cbn [fst snd slR slB slk slv]. destruct (Mult zk (slR S) (Some iv)); reflexivity.
Qed.
Lemma proofGenB_ok : forall mv m i bit e0 E0 d s S, unchanged mv m -> paramsAt t m h zk -> intAt t m e0 (Some E0) -> slotAt t m s S -> slotNew mv s ->
  sim t m m (proofGenBM sha h i bit e0 d s) (runActs (proofGenB sha zk i bit E0 d) S) (fun m' a b => slotAt t m' a b /\ slotNew mv a).
Proof.
  intros mv m i bit e0 E0 d s S UV HP HE (HR & HB & HK & HV) (NB & NK & NV). pose proof (ext_refl m) as U0.
  destruct bit; cbn [negb].
  - unfold proofGenBM, proofGenB. cbn [negb runActs]. destruct (slv S) as [v|] eqn:EV.
    2:{ replace (bind _ _) with (@Panic slot) by (destruct (slk S); reflexivity). eapply (sim_newMul _ _ _ _ _ _ _ (Some E0) None _ (fun _ _ => Panic)); [exact U0|exact HE|exact HV|]. intros; discriminate. }
    val (blk_mul _ _ _ _ _ _ HE HV) as tt' HT _.
    destruct (slk S) as [k|] eqn:EK; cbn [need bind].
    2:{ eapply newAdd_nil; [eassumption|exact HK|exact HT|left; reflexivity]. }
    val (blk_add _ _ _ _ _ _ HK HT) as k2 HK2 FK2. cbn [fst snd].
    fin. split; [split; [exact HR|split; [exact HB|split; [exact HK2|cbn [slv]; exact HV]]]|]. split; [exact NB|]. split; [exact (fresh_back _ _ _ UV FK2)|exact NV].
  - destruct d as [j'|]; [|unfold proofGenBM, proofGenB; cbn [negb runActs]; fin; split; [repeat split; try assumption; apply HR || apply HB|split; [exact NB|split; [exact NK|exact NV]]]].
    rewrite genB_zero. unfold proofGenBM, genBinv. cbn [negb]. cbv zeta.
    eapply sim_blk_own; [eassumption|apply blk_new|]. intros mj j Ej Uj Hj Fj Oj. pose proof (ap_pt _ _ _ _ _ Fj HR) as AR. forward Ej.
    val (blk_new t _ 2) as two H2 _.
    val (blk_new t _ (Z.of_nat i)) as ii Hi _.
    val2 (blk_exp _ _ _ _ _ _ _ _ H2 Hi (p_N _ _ _ _ HP)) as m2 Hm2 _.
    val2 (blk_inplace _ _ _ _ (p_N _ _ _ _ HP) _ _ (blk_mul _ _ _ _ _ _ HE Hm2)) as em Hem _.
    eapply intBytes_ok; [exact Hem|].
    assert (EQ : forall (q : Z) (g : option Z -> R slot), bind (rhs <- cScalarBaseMult (zC zk) (bigBytes q); lhs <- Mult zk (zH zk) (Some j'); tot <- curveAdd zk lhs (mkPoint rhs); x <- hashPoint sha tot; Ok (modInverse (x mod cN (zC zk)) (cN (zC zk)))) g
      = (rhs <- (r <- cScalarBaseMult (zC zk) (bigBytes q); Ok (mkPoint r)); lhs <- Mult zk (zH zk) (Some j'); tot <- curveAdd zk lhs rhs; e <- (x <- hashPoint sha tot; Ok (x mod cN (zC zk))); g (modInverse e (cN (zC zk))))).
    { intros q g. destruct (cScalarBaseMult (zC zk) (bigBytes q)) as [r|]; [|reflexivity]. cbn [bind]. destruct (Mult zk (zH zk) (Some j')) as [l|]; [|reflexivity]. cbn [bind].
      destruct (curveAdd zk l (mkPoint r)) as [c|]; [|reflexivity]. cbn [bind]. destruct (hashPoint sha c); reflexivity. }
    rewrite EQ. clear EQ.
    unfold scalarBaseMultM. rewrite (p_C _ _ _ _ HP).
    bnd (lift_newPoint t _ _) as rhs rhs' [HRh _].
    bnd (MultM_ok t h zk _ _ _ _ _ HP (p_H _ _ _ _ HP) Hj) as lhs lhs' [HL _].
    bnd (curveAddM_ok _ _ _ _ _ _ _ _ HP HL HRh) as tot tot' [HTt _].
    apply sim_assoc. bnd (hashModM_ok _ _ _ HP HTt) as e e' [HEe _].
    eapply sim_bind_val; [eassumption|exact (modInverse_ok t _ _ _ _ _ HEe (p_N _ _ _ _ HP))|]. intros mI iv EI UI [HI _]. forward EI. clear EI.
    eapply sim_newMul; [eassumption|exact HI|exact HK|]. intros i' k' mV vs EI EK EV UV2 HVs FVs.
    pose proof (ap_sym _ _ (ap_int _ _ _ _ _ FVs Hj)) as AVs. forward EV. apply (fresh_back _ _ _ UI) in FVs. clear EV. rewrite EI in *. rewrite EK in HK.
    eapply sim_bind; [eassumption|exact (MultM_ok t h zk _ _ _ _ _ HP HR HI)|]. intros mB b b' EB UB [HBb FBb].
    assert (ABb : apart j (hX b) /\ apart j (hY b)) by (split; apply ap_sym; eapply ap_int; [apply FBb|exact Hj|apply FBb|exact Hj]).
    forward EB. apply (freshP_back _ _ _ UV2) in FBb. clear EB.
    val (blk_mul _ _ _ _ _ _ HE HI) as t1 Ht1 _.
    val (blk_mul _ _ _ _ _ _ HK Ht1) as t2 Ht2 _.
    eapply sim_inadd; [eassumption|exact Hj|exact Ht2|exact Oj|exact Fj|]. intros mF KF UF HjF.
    fin. split.
    + split; [|split; [exact (pt_keep _ _ _ _ _ _ KF ABb HBb)|split; [exact HjF|exact (int_keep _ _ _ _ _ _ KF AVs HVs)]]].
      exact (pt_keep _ _ _ _ _ _ KF AR HR).
    + split; [left; exact (freshP_back _ _ _ UV FBb)|]. split; [exact (fresh_back _ _ _ UV Fj)|exact (fresh_back _ _ _ UV FVs)].
Qed.

Lemma runAll_ok : forall mv (Q : hslot -> Prop) (f : nat -> hslot -> prog hslot) (F : nat -> list action),
  (forall i m s S, unchanged mv m -> slotAt t m s S -> Q s -> sim t m m (f i s) (runActs (F i) S) (fun m' a b => slotAt t m' a b /\ Q a)) ->
  forall ss SS n m, unchanged mv m -> Forall2 (slotAt t m) ss SS -> Forall Q ss ->
  sim t m m (runAllM f n ss) (runAll F n SS) (fun m' a b => Forall2 (slotAt t m') a b /\ Forall Q a).
Proof.
  intros mv Q f F K. induction ss as [|s ss IH]; intros SS n m U A B; inversion A as [|? S ? SS' A1 A2]; subst; inversion B as [|? ? B1 B2]; subst; cbn [runAllM runAll].
  - apply sim_ret; [apply ext_refl|]. split; constructor.
  - eapply sim_bind; [apply ext_refl|exact (K n m s S U A1 B1)|]. intros m1 a b E1 _ [C1 C2]. apply (slotsAt_ext _ _ _ _ _ E1) in A2.
    eapply sim_bind; [exact E1|exact (IH SS' (Datatypes.S n) m1 (ext_trans _ _ _ U E1) A2 B2)|]. intros m2 l l' E2 U2 [D1 D2].
    apply sim_ret; [exact U2|]. split; constructor; try assumption. exact (slotAt_ext _ _ _ _ _ E2 C1).
Qed.

(** what the final loop needs of a slot, apart from the total it is adding up *)
Definition partAt (m : bmem) (s : hslot) (S : slot) : Prop := pointAt t m (hsB s) (slB S) /\ intAt t m (hsk s) (slk S) /\ intAt t m (hsv s) (slv S).
Definition partAp (vt : bigint) (s : hslot) : Prop := (apart vt (hX (hsB s)) /\ apart vt (hY (hsB s))) /\ apart vt (hsk s) /\ apart vt (hsv s).
Lemma parts_ext : forall m m' ss SS, unchanged m m' -> Forall2 (partAt m) ss SS -> Forall2 (partAt m') ss SS.
Proof.
  intros m m' ss SS E. apply Forall2_imp. intros a b (A & B & C). split; [exact (pointAt_ext _ _ _ _ _ E A)|]. split; eapply intAt_ext; eassumption.
Qed.
Lemma parts_keep : forall vt m m' ss SS, keeps vt m m' -> Forall (partAp vt) ss -> Forall2 (partAt m) ss SS -> Forall2 (partAt m') ss SS.
Proof.
  intros vt m m' ss SS K A F. induction F as [|s S ss SS (X & Y & Z) F IH]; inversion A as [|? ? (A1 & A2 & A3) A4]; subst; constructor; [|apply IH, A4].
  split; [exact (pt_keep _ _ _ _ _ _ K A1 X)|]. split; eapply int_keep; eassumption.
Qed.
(** only the total may have changed *)
Definition but (vt : bigint) (m m' : bmem) : Prop := forall y v, apart vt y -> intAt t m y v -> intAt t m' y v.
Lemma but_trans : forall vt m m1 m2, but vt m m1 -> but vt m1 m2 -> but vt m m2.
Proof. intros vt m m1 m2 A B y v N H. apply B; [exact N|]. apply A; assumption. Qed.
Lemma but_ext : forall vt m m1, unchanged m m1 -> but vt m m1.
Proof. intros vt m m1 E y v _ H. exact (intAt_ext _ _ _ _ _ E H). Qed.
Lemma but_keep : forall vt m m1, keeps vt m m1 -> but vt m m1.
Proof. intros vt m m1 K y v N H. exact (int_keep _ _ _ _ _ _ K N H). Qed.

Lemma gather_ok : forall m0, paramsAt t m0 h zk -> forall ss SS m vt V agg AGG, unchanged m0 m -> Forall2 (partAt m) ss SS -> Forall (partAp vt) ss ->
  Forall (fun s => freshOr m0 (hHPoints h) (hsB s) /\ freshInt m0 (hsk s)) ss ->
  intAt t m vt (Some V) -> own t vt -> freshInt m0 vt -> pointAt t m agg AGG -> apart vt (hX agg) /\ apart vt (hY agg) -> freshOr m0 (hHPoints h) agg ->
  sim t m0 m (gatherM h ss vt agg) (gather zk SS V AGG)
    (fun m' r r' => fst (fst r) = vt /\ intAt t m' vt (Some (fst (fst r'))) /\ pointAt t m' (snd (fst r)) (snd (fst r')) /\ freshOr m0 (hHPoints h) (snd (fst r)) /\
       Forall2 (tupleAt t m') (snd r) (snd r') /\ Forall (fun u => freshOr m0 (hHPoints h) (htC u) /\ freshInt m0 (htS u)) (snd r) /\ but vt m m').
Proof.
  intros m0 HP0. induction ss as [|s ss IH]; intros SS m vt V agg AGG U A AP FR HV O FV HA AA FA; inversion A as [|? S ? SS' A1 A2]; subst; cbn [gatherM gather].
  - apply sim_ret; [exact U|]. cbn [fst snd]. split; [reflexivity|]. split; [exact HV|]. split; [exact HA|]. split; [exact FA|]. split; [constructor|]. split; [constructor|]. intros y v _ H. exact H.
  - inversion AP as [|? ? AP1 AP2]; inversion FR as [|? ? FR1 FR2]; subst. destruct A1 as (HB & HK & HVs). destruct AP1 as (NB & NK & NV). destruct FR1 as [FB FK].
    destruct (slv S) as [v|] eqn:EV; cbn [need bind].
    2:{ unfold intAdd. apply sim_assoc_inv. eapply sim_deref; [exact HV|]. apply sim_assoc_inv. apply sim_deref_nil; assumption. }
    eapply sim_inadd; [exact U|exact HV|exact HVs|exact O|exact FV|]. intros m1 K1 U1 HV1.
    pose proof (pt_keep _ _ _ _ _ _ K1 AA HA) as HA1. pose proof (pt_keep _ _ _ _ _ _ K1 NB HB) as HB1. pose proof (int_keep _ _ _ _ _ _ K1 NK HK) as HK1.
    pose proof (parts_keep _ _ _ _ _ K1 AP2 A2) as A3. pose proof (paramsAt_ext _ _ _ _ _ U1 HP0) as HP1.
    eapply sim_bind; [exact U1|exact (AddM_ok t h zk _ _ _ _ _ HP1 HA1 HB1)|]. intros m2 ag AG E2 U2 [HAG NAG].
    assert (AAG : apart vt (hX ag) /\ apart vt (hY ag)).
    { destruct NAG as [[N1 N2]|[->| ->]]; try assumption. split; apply ap_sym; eapply ap_int; eassumption. }
    assert (FAG : freshOr m0 (hHPoints h) ag).
    { destruct NAG as [N|[->| ->]]; try assumption. left. exact (freshP_back _ _ _ U1 N). }
    apply (parts_ext _ _ _ _ E2) in A3. forward E2.
    assert (BT : but vt m m2) by (eapply but_trans; [apply but_keep, K1|apply but_ext, E2]).
    pose proof (IH SS' m2 vt (V + v) ag AG U2 A3 AP2 FR2 HV1 O FV HAG AAG FAG) as REC.
    assert (BASE : forall m', but vt m2 m' -> tupleAt t m' (MkHTuple (hsB s) (hsk s)) (MkTuple (slB S) (slk S))).
    { intros m' B. split; [split|]; cbn [htC rtC htS rtS]; apply B; try apply NB; try exact NK; try apply HB1; exact HK1. }
    destruct REC as [RC RS].
    destruct (exec t (gatherM h ss vt ag) m2) as [o m3] eqn:X. destruct RS as [RU RS]. split.
    + apply confined_bind; [exact RC|]. intros. exact I.
    + rewrite exec_bind, X. destruct o as [r|]; destruct (gather zk SS' (V + v) AG) as [r'|]; try contradiction; cbn [bind exec]; [|split; [exact RU|exact I]].
      split; [exact RU|]. destruct RS as (S1 & S2 & S3 & S4 & S5 & S6 & S7). cbn [fst snd].
      split; [exact S1|]. split; [exact S2|]. split; [exact S3|]. split; [exact S4|].
      split; [constructor; [exact (BASE m3 S7)|exact S5]|]. split; [constructor; [split; assumption|exact S6]|exact (but_trans _ _ _ _ BT S7)].
Qed.

Lemma range_new_ok : forall m v V rn, paramsAt t m h zk -> intAt t m v V ->
  sim t m m (NewRangeProofM sha h v rn) (NewRangeProof sha zk V rn) (newRange t m h).
Proof.
  intros m v V rn HP HV. pose proof (ext_refl m) as U0. pose proof ((fun _ => HP) : True -> paramsAt t m h zk) as HP0. unfold NewRangeProofM, NewRangeProof.
  val (blk_new t _ 1099511627776) as lim HL _.
  apply sim_need; [eassumption|exact HV|]. intros v0 EV. subst V. eapply sim_deref; [exact HL|].
  assert (FAIL : forall m', newRange t m h m' (None, None, Some ERange) (None, None, Some ERange)).
  { intros m'. split; [split; [exact I|split; [reflexivity|intros ? ?; discriminate]]|split; exact I]. }
  destruct (1099511627776 <? v0); [fin; apply FAIL|].
  eapply sim_deref; [exact (p_0 _ _ _ _ HP)|]. destruct (v0 <? 0); [fin; apply FAIL|].
  eapply sim_blk_own; [eassumption|apply blk_new|]. intros mv vt Ev Uv HVt FVt OVt. forward Ev. apply (fresh_back _ _ _ U) in FVt. 
  assert (VAP : forall x, freshInt mv x -> apart vt x) by (intros x Fx; apply ap_sym; eapply ap_int; [exact Fx|exact HVt]).
  assert (HAP : forall p, In p (hHPoints h) -> apart vt (hX p) /\ apart vt (hY p)).
  { destruct (HP0 I) as (_ & _ & _ & _ & _ & F & _). clear - F FVt. induction F as [|a b l l' A F IH]; intros p Ip; [contradiction|]. destruct Ip as [<-|Ip]; [exact (ap_pt _ _ _ _ _ FVt A)|exact (IH p Ip)]. }
  (* phase A *)
  eapply sim_bind; [exact Uv|apply (runAll_ok mv (slotNew mv) _ (phaseA sha zk v0 rn))|].
  { intros i m1 s S E1 HS QS. unfold phaseA. eapply proofGenA_ok; try eassumption. exact (paramsAt_ext _ _ _ _ _ E1 HP). }
  { apply ext_refl. }
  { assert (X : forall n, Forall2 (slotAt t mv) (repeat emptyHSlot n) (repeat emptySlot n)) by (induction n; [constructor|constructor; [repeat split|assumption]]). apply X. }
  { assert (X : forall n, Forall (slotNew mv) (repeat emptyHSlot n)) by (induction n; [constructor|constructor; [split; [left; split; exact I|split; exact I]|assumption]]). apply X. }
  intros mA ssA SSA EA UA [HSA NSA]. pose proof (ext_refl mv) as UVV. pose proof EA as UVA. forward EA.
  (* the challenge *)
  unfold challengeE0, hashPoints. rewrite !bind_assoc.
  assert (HR : Forall2 (pointAt t mA) (map hsR ssA) (map slR SSA)).
  { clear - HSA. induction HSA as [|a b l l' (A & _) F IH]; constructor; assumption. }
  eapply sim_bind; [exact UA|exact (allBytesM_ok t _ _ _ HR)|]. intros mb bs bs' Eb Ub <-. pose proof (ext_trans _ _ _ UVA Eb) as UVb. forward Eb. apply (slotsAt_ext _ _ _ _ _ Eb) in HSA. cbn [bind].
  eapply sim_blk2; [exact Ub|exact (blk_inplace _ _ _ _ (p_N _ _ _ _ HP) _ _ (blk_bytes t _ _))|]. intros me e0 Ee Ue HE FE.
  pose proof (ap_sym _ _ (ap_int _ _ _ _ _ FE HVt)) as AE. pose proof (ext_trans _ _ _ UVb Ee) as UVe. forward Ee. apply (slotsAt_ext _ _ _ _ _ Ee) in HSA. apply (fresh_back _ _ _ Ub) in FE.
  eapply sim_blk; [exact Ue|apply blk_new|]. intros mx ax Ex Ux HAX FAX. pose proof (ap_sym _ _ (ap_int _ _ _ _ _ FAX HVt)) as AAX. pose proof (ext_trans _ _ _ UVe Ex) as UVx. forward Ex. apply (slotsAt_ext _ _ _ _ _ Ex) in HSA. apply (fresh_back _ _ _ Ue) in FAX.
  eapply sim_blk; [exact Ux|apply blk_new|]. intros my ay Ey Uy HAY FAY. pose proof (ap_sym _ _ (ap_int _ _ _ _ _ FAY HVt)) as AAY. pose proof (ext_trans _ _ _ UVx Ey) as UVy. forward Ey. apply (slotsAt_ext _ _ _ _ _ Ey) in HSA. apply (fresh_back _ _ _ Ux) in FAY.
  (* phase B *)
  eapply sim_bind; [exact Uy|apply (runAll_ok my (slotNew mv) _ (phaseB sha zk v0 (beval (sha (concat bs)) mod cN (zC zk)) rn))|].
  { intros i m1 s S E1 HS QS. unfold phaseB. eapply proofGenB_ok; try eassumption; [exact (ext_trans _ _ _ UVy E1)|exact (paramsAt_ext _ _ _ _ _ E1 HP)|exact (intAt_ext _ _ _ _ _ E1 HE)]. }
  { apply ext_refl. }
  { exact HSA. }
  { exact NSA. }
  intros mB ssB SSB EB UB [HSB NSB]. forward EB.
  (* the final loop *)
  unfold rangeFinish.
  eapply sim_bind_same; [exact UB|apply (gather_ok m (HP0 I) ssB SSB mB vt 0 (ApiMem.HP ax ay) ZeroPoint UB)|].
  { revert HSB. apply Forall2_imp. intros a b (_ & X & Y & Z). split; [exact X|split; [exact Y|exact Z]]. }
  { revert NSB. apply Forall_impl. intros a ([F|F] & Y & Z); (split; [|split; apply VAP; assumption]); [split; apply VAP, F|apply HAP, F]. }
  { revert NSB. apply Forall_impl. intros a (F & Y & Z). split; [exact (freshOr_back _ _ _ _ Uv F)|exact (fresh_back _ _ _ Uv Y)]. }
  { exact HVt. }
  { exact OVt. }
  { exact FVt. }
  { split; [exact HAX|exact HAY]. }
  { split; [exact AAX|exact AAY]. }
  { left. split; [exact FAX|exact FAY]. }
  intros mF [[vt' ag] tu] [[VT AG] TU] UF (G1 & G2 & G3 & G4 & G5 & G6 & G7). cbn [fst snd] in *. subst vt'.
  apply sim_ret; [exact UF|]. split; [|split; [exact G2|exact FVt]]. cbn [fst snd]. split; [|split; [reflexivity|]].
  - split; [exact G3|]. split; [|exact G5]. exact (G7 _ _ AE HE).
  - intros p Ep. injection Ep as <-. split; [exact G4|]. split; [exact FE|exact G6].
Qed.

(** *** Verify *)
Lemma verifyGen_ok : forall m i e E u Uu, paramsAt t m h zk -> intAt t m e E -> tupleAt t m u Uu ->
  sim t m m (verifyGenM sha h i e u) (verifyGen sha zk i E Uu) (pointAt t).
Proof.
  intros m i e E u Uu HP HE [HC HS]. pose proof (ext_refl m) as U0. unfold verifyGenM, verifyGen.
  bnd (MultM_ok t h zk _ _ _ _ _ HP (p_H _ _ _ _ HP) HS) as l l' [HL _].
  bnd (hpointM_ok _ _ i (ext_refl _) HP) as hp hp' [HHP _].
  bnd (NegM_ok t h zk _ _ _ HP HHP) as nh nh' [HNH _].
  bnd (AddM_ok t h zk _ _ _ _ _ HP HC HNH) as r2 r2' [HR2 _].
  bnd (MultM_ok t h zk _ _ _ _ _ HP HR2 HE) as mm mm' [HM _].
  bnd (NegM_ok t h zk _ _ _ HP HM) as nm nm' [HNM _].
  bnd (AddM_ok t h zk _ _ _ _ _ HP HL HNM) as tot tot' [HT _].
  bnd (hashPointM_ok _ _ _ HT) as e1 e1' [HE1 _].
  eapply sim_from; [eassumption|exact (MultM_ok t h zk _ _ _ _ _ HP HC HE1)|]. intros m' a b _ H. apply H.
Qed.
Lemma verifyAll_ok : forall ts TS n m e E, paramsAt t m h zk -> intAt t m e E -> Forall2 (tupleAt t m) ts TS ->
  sim t m m (verifyAllM sha h e n ts) (verifyAll sha zk E n TS) (fun m' => Forall2 (pointAt t m')).
Proof.
  induction ts as [|u ts IH]; intros TS n m e E HP HE F; inversion F as [|? Uu ? TS' A B]; subst; cbn [verifyAllM verifyAll].
  - apply sim_ret; [apply ext_refl|constructor].
  - eapply sim_bind; [apply ext_refl|exact (verifyGen_ok m n e E u Uu HP HE A)|]. intros m1 p p' E1 _ HPp. apply (tuplesAt_ext _ _ _ _ _ E1) in B. forward E1.
    eapply sim_bind; [exact E1|exact (IH TS' (S n) m1 e E HP HE B)|]. intros m2 l l' E2 U2 HL. forward E2. apply sim_ret; [exact U2|]. constructor; assumption.
Qed.
Lemma sumC_ok : forall ts TS m a A, paramsAt t m h zk -> pointAt t m a A -> Forall2 (tupleAt t m) ts TS ->
  sim t m m (sumCM h a ts) (sumC zk A TS) (pointAt t).
Proof.
  induction ts as [|u ts IH]; intros TS m a A HP HA F; inversion F as [|? Uu ? TS' [A1 A2] B]; subst; cbn [sumCM sumC].
  - apply sim_ret; [apply ext_refl|exact HA].
  - eapply sim_bind; [apply ext_refl|exact (AddM_ok t h zk _ _ _ _ _ HP HA A1)|]. intros m1 a1 A1' E1 _ [HA1 _]. apply (tuplesAt_ext _ _ _ _ _ E1) in B. forward E1.
    eapply sim_from; [exact E1|exact (IH TS' m1 a1 A1' HP HA1 B)|]. intros m' x y _ H. exact H.
Qed.
Lemma tupleNil_ok : forall m ts TS, Forall2 (tupleAt t m) ts TS -> existsb htupleNil ts = existsb tupleNil TS.
Proof.
  intros m ts TS F. induction F as [|a b l l' [[A _] B] F IH]; [reflexivity|]. cbn [existsb]. rewrite IH. f_equal. unfold htupleNil, tupleNil.
  destruct (hX (htC a)), (pX (rtC b)); try contradiction; destruct (htS a), (rtS b); try contradiction; reflexivity.
Qed.
Lemma range_verify_ok : forall m pf cm Pf CM, paramsAt t m h zk -> optAt (rangeAt t m) pf Pf -> pointAt t m cm CM ->
  sim t m m (RangeVerifyM sha pf h cm) (RangeVerify sha Pf zk CM) (fun _ r v => r = v).
Proof.
  intros m [pf|] cm [Pf|] CM HP HF HCM; try contradiction; pose proof (ext_refl m) as U0; cbn [RangeVerifyM]; unfold RangeVerify; [|fin; reflexivity].
  destruct HF as (HA & HE & HT). rewrite (tupleNil_ok _ _ _ HT).
  eapply sim_blk; [exact U0|apply blk_new|]. intros m1 zx E1 U1 HZX _. forward E1. apply (tuplesAt_ext _ _ _ _ _ E1) in HT.
  eapply sim_blk; [exact U1|apply blk_new|]. intros m2 zy E2 U2 HZY _. forward E2. apply (tuplesAt_ext _ _ _ _ _ E2) in HT.
  destruct (existsb tupleNil (rpTuples Pf)); [fin; reflexivity|].
  eapply sim_bind; [exact U2|exact (verifyAll_ok _ _ 0%nat _ _ _ HP HE HT)|]. intros m3 rp rp' E3 U3 HRP. cbv beta in HRP. forward E3. apply (tuplesAt_ext _ _ _ _ _ E3) in HT.
  assert (HZ : pointAt t m3 (ApiMem.HP zx zy) ZeroPoint) by (split; assumption).
  bnd (sumC_ok _ _ _ _ _ HP HZ HT) as tot tot' HTot.
  unfold rangeDecide, hashPoints. rewrite bind_assoc.
  bnd (allBytesM_ok t _ _ _ HRP) as bs bs' <-. cbn [bind].
  val (blk_bytes t _ (sha (concat bs))) as calc HCal _.
  unfold cmpEq. apply sim_assoc_inv. apply sim_need; [eassumption|exact HE|]. intros e Ee. apply sim_assoc_inv. eapply sim_deref; [exact HCal|]. cbn [pbind].
  destruct (e =? beval (sha (concat bs))); cbn [negb]; [|fin; reflexivity].
  bnd (EqualM_ok _ _ _ _ _ _ HTot HA) as e1 e1' <-. destruct e1; cbn [negb]; [|fin; reflexivity].
  bnd (EqualM_ok _ _ _ _ _ _ HCM HTot) as e2 e2' <-. destruct e2; cbn [negb]; fin; reflexivity.
Qed.
End Api.
