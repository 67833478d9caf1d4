(** * Properties C74 and C75: integers are values, alone and among goroutines *)
From Coq Require Import ZArith List Bool Lia.
From Verif Require Import Go Wire Big Crypto Gspfs Equivalence Consistency Disjunctive Abc Range Koblitz Spec SpecZk ZkBase PointProofs CurveGroup PropGspfs
  BigMem ApiMem SpecApiMem SpecApiCalls ApiMemProofs ApiMemProofs2 ApiCallProofs.
Import ListNotations.
Open Scope Z_scope.

(** ** C74: whatever its arguments are and however they alias each other, the
    parameters or the package variables, a call of the package changes no integer that
    existed before it, and returns (or panics) as the value-level model says; [rel] also
    says which integers of the result are new *)
Theorem C74_calls : forall sha h zk t m A B (c : prog A) (r : R B) rel, paramsAt t m h zk -> call sha h zk t m c r rel -> valueCall t m c r rel.
Proof. intros. eapply sim_value, call_sim; eassumption. Qed.
Print Assumptions C74_calls.

(** ** C74: so does every program made of calls: whatever it did before, a proof, a
    commitment or a key it still holds is what it was *)
Theorem C74_programs : forall sha h zk t m A B (c : prog A) (r : R B) rel, paramsAt t m h zk -> program sha h zk t m c r rel -> valueCall t m c r rel.
Proof. intros. eapply sim_value, program_sim; eassumption. Qed.
Print Assumptions C74_programs.

(** ** Memories that hold given parameters: every zkparams has one *)
Definition homeInt (i : nat) (v : option Z) : bigint := match v with Some _ => Some (0, i)%nat | None => None end.
Definition homePoint (i : nat) (p : ECPoint) : hpt := HP (homeInt i (pX p)) (homeInt (S i) (pY p)).
Fixpoint homePoints (i : nat) (l : list ECPoint) : list hpt := match l with [] => [] | p :: l' => homePoint i p :: homePoints (2 + i) l' end.
Definition orZero (v : option Z) : Z := match v with Some z => z | None => 0 end.
Definition coords (p : ECPoint) : list Z := [orZero (pX p); orZero (pY p)].
Definition homeParams (shares : bool) (zk : zkparams) : hparams :=
  HZK (zC zk) shares (Some (0, 0)%nat) (Some (0, 1)%nat) (homePoint 5 (zG zk)) (homePoint 7 (zH zk)) (homePoints 9 (zHPoints zk)) (HP (Some (0, 2)%nat) (Some (0, 3)%nat)) (Some (0, 4)%nat).
Definition homeMem (zk : zkparams) : bmem :=
  fun o => match o with 0%nat => [cP (zC zk); cN (zC zk); 0; 0; 0] ++ coords (zG zk) ++ coords (zH zk) ++ flat_map coords (zHPoints zk) | _ => [] end.
Lemma home_points : forall t l (m : bmem) i, (forall k z, nth_error (flat_map coords l) k = Some z -> cell m (0, i + k)%nat = Some z) -> Forall2 (pointAt t m) (homePoints i l) l.
Proof.
  intros t l m. induction l as [|p l IH]; intros i H; cbn [homePoints]; constructor.
  - split; cbn [homePoint hX hY homeInt].
    + specialize (H 0%nat _ eq_refl). rewrite Nat.add_0_r in H. destruct (pX p); [split; [left; reflexivity|exact H]|exact I].
    + specialize (H 1%nat _ eq_refl). rewrite Nat.add_1_r in H. destruct (pY p); [split; [left; reflexivity|exact H]|exact I].
  - apply IH. intros k z E. specialize (H (2 + k)%nat z E). rewrite Nat.add_assoc, (Nat.add_comm i 2) in H. exact H.
Qed.
Theorem C74_memory : forall t shares zk, (shares = true -> forall x y, cAdd (zC zk) 0 0 x y = Ok (x, y) /\ cAdd (zC zk) x y 0 0 = Ok (x, y)) ->
  paramsAt t (homeMem zk) (homeParams shares zk) zk.
Proof.
  intros t shares zk H. split; [reflexivity|]. split; [split; [left|]; reflexivity|]. split; [split; [left|]; reflexivity|].
  split; [|split; [|split; [|split; [|split; [split; [left|]; reflexivity|exact H]]]]].
  - cbn [homeParams hG]. split; cbn [homePoint hX hY homeInt]; [destruct (pX (zG zk)) eqn:E|destruct (pY (zG zk)) eqn:E]; try exact I; (split; [left; reflexivity|]); unfold cell; cbn [homeMem fst snd coords app nth_error]; rewrite E; reflexivity.
  - cbn [homeParams hH]. split; cbn [homePoint hX hY homeInt]; [destruct (pX (zH zk)) eqn:E|destruct (pY (zH zk)) eqn:E]; try exact I; (split; [left; reflexivity|]); unfold cell; cbn [homeMem fst snd coords app nth_error]; rewrite E; reflexivity.
  - cbn [homeParams hHPoints]. apply home_points. intros k z E. exact E.
  - split; (split; [left|]; reflexivity).
Qed.
Print Assumptions C74_memory.
(** the curve object of btcec returns operands of Add, as [hShares] says *)
Example C74_btcec_shares : forall bp bpH G H hp t, let zk := ZK (S256 bp bpH) G H hp in paramsAt t (homeMem zk) (homeParams true zk) zk.
Proof.
  intros bp bpH G H hp t zk. apply C74_memory. intros _ x y. cbn [zk zC S256 cAdd]. unfold Koblitz.Add. cbn [Z.eqb andb]. split; [reflexivity|].
  destruct ((x =? 0) && (y =? 0))%bool eqn:E; [|reflexivity]. apply andb_prop in E. destruct E as [E1 E2]. apply Z.eqb_eq in E1, E2. subst. reflexivity.
Qed.

(** ** A program: prove knowledge of 1 for the statement G, with the generator of the
    parameters as the statement, verify, and return the verdict.  It is true, and the
    parameters are what they were *)
Definition proveVerify (sha : list Z -> list Z) (h : hparams) (u : Z) : prog (bool * option goerr) :=
  one <~ newInt 1;
  p <~ NewGSPFSProofM sha h (hG h) one (Some u);
  v <~ GSPFSVerifyM sha (fst p) h (hG h);
  Return v.
Lemma case_params : forall t, paramsAt t (homeMem specZk) (homeParams false specZk) specZk.
Proof. intros t. apply C74_memory. intros X. discriminate X. Qed.
Lemma case_program : forall sha u t m h, paramsAt t m h specZk ->
  program sha h specZk t m (proveVerify sha h u) (bind (NewGSPFSProof sha specZk (pt G) (Some 1) (Some u)) (fun p => GSPFSVerify sha (fst p) specZk (pt G))) same.
Proof.
  intros sha u t m h HP. unfold proveVerify. apply programNew. intros m1 one U1 HO.
  pose proof (p_G _ _ _ _ (paramsAt_ext _ _ _ _ _ U1 HP)) as HG.
  eapply programCall; [apply callNewGSPFSProof; [exact HG|exact HO]|]. intros m2 a b U2 (Q & _ & _).
  apply program_last. apply callGSPFSVerify; [exact Q|exact (pointAt_ext _ _ _ _ _ U2 HG)].
Qed.
Lemma case_value : forall sha u, exists pf, NewGSPFSProof sha specZk (pt G) (Some 1) (Some u) = Ok (Some pf, None) /\ accepts (GSPFSVerify sha (Some pf) specZk (pt G)).
Proof. intros sha u. pose proof (C22_gspfs_complete_G sha specZk 1 u specZk_std) as H. rewrite smul_1 in H. exact (H plain_G). Qed.
Example C74_program_case : forall sha u t,
  let '(o, m') := exec t (proveVerify sha (homeParams false specZk) u) (homeMem specZk) in
  o = Ok (true, None) /\ paramsAt t m' (homeParams false specZk) specZk.
Proof.
  intros sha u t. pose proof (C74_programs sha _ specZk t _ _ _ _ _ _ (case_params t) (case_program sha u t _ _ (case_params t))) as V.
  destruct (case_value sha u) as (pf & E & AC). rewrite E in V. cbn [bind fst] in V. rewrite AC in V. unfold valueCall in V.
  destruct (exec t _ _) as [o m']. destruct V as [U V]. split; [|exact (paramsAt_ext _ _ _ _ _ U (case_params t))].
  destruct o as [a|]; [|contradiction]. f_equal. exact V.
Qed.

(** ** C74: what a caller gets back is not always its own: writing to it can change the
    parameters, a package variable or another point of the caller *)
(** writing to the Base of a proof moves the generator in the curve parameters *)
Theorem C74_base_owned_refuted : forall sha u, let h := homeParams false specZk in
  paramsAt 1 (homeMem specZk) h specZk /\
  exists pf m1, exec 1 (one <~ newInt 1; NewGSPFSProofM sha h (hG h) one (Some u)) (homeMem specZk) = (Ok (Some pf, None), m1) /\ paramsAt 1 m1 h specZk /\
  exists m2, exec 1 (intSetBytes (hX (hgBase pf)) []) m1 = (Ok (hX (hgBase pf)), m2) /\ ~ paramsAt 1 m2 h specZk.
Proof.
  intros sha u h. pose proof (case_params 1) as HP. fold h in HP. split; [exact HP|]. destruct (case_value sha u) as (vp & E & _).
  set (m0 := push (homeMem specZk) 1 1). assert (U0 : unchanged (homeMem specZk) m0) by apply push_ext. pose proof (paramsAt_ext _ _ _ _ _ U0 HP) as HP0.
  pose proof (C74_calls sha h specZk 1 m0 _ _ _ _ _ HP0 (callNewGSPFSProof sha h specZk 1 m0 (hG h) (Some (1, 0)%nat) _ (Some 1) (Some u) (p_G _ _ _ _ HP0) (conj (or_intror eq_refl) eq_refl))) as V.
  replace (zG specZk) with (pt G) in V by reflexivity. rewrite E in V. unfold valueCall in V. cbn [pbind newInt exec length homeMem]. fold m0.
  destruct (exec 1 _ m0) as [o m1]. destruct V as [U V]. destruct o as [[[pf|] e]|]; try contradiction; destruct V as (Q & Er & F); try contradiction.
  cbn [snd] in Er. subst e. exists pf, m1. split; [reflexivity|]. pose proof (paramsAt_ext _ _ _ _ _ U HP0) as HP1. split; [exact HP1|].
  destruct (F pf eq_refl) as [_ B]. rewrite B. destruct (proj1 (p_G _ _ _ _ HP1)) as [_ CX]. cbn [intSetBytes assign h homeParams hG homePoint hX] in *.
  replace (pX (zG specZk)) with (Some Gx) in * by reflexivity. cbn [homeInt assign exec intSetBytes] in *. rewrite CX.
  eexists. split; [reflexivity|]. intros HP2. destruct (proj1 (p_G _ _ _ _ HP2)) as [_ C2]. rewrite (cell_put_same _ _ _ _ CX) in C2. discriminate C2.
Qed.
Print Assumptions C74_base_owned_refuted.
(** writing to the point that comes with an error of ReadECPoint changes the package variable Zero *)
Theorem C74_zero_owned_refuted : let h := homeParams false specZk in
  paramsAt 1 (homeMem specZk) h specZk /\
  exists p e m1, exec 1 (ReadECPointM h []) (homeMem specZk) = (Ok (p, Some e, []), m1) /\
  exists m2, exec 1 (intSetBytes (hX p) [7]) m1 = (Ok (hX p), m2) /\ ~ paramsAt 1 m2 h specZk.
Proof.
  intros h. pose proof (case_params 1) as HP. fold h in HP. split; [exact HP|].
  do 3 eexists. split; [reflexivity|]. eexists. split; [reflexivity|]. intros HP2. destruct (proj1 (p_Z _ _ _ _ HP2)) as [_ C2]. discriminate C2.
Qed.
Print Assumptions C74_zero_owned_refuted.
(** writing to the X of a point's negation changes the point *)
Theorem C74_neg_owned_refuted : let h := homeParams false specZk in
  paramsAt 1 (homeMem specZk) h specZk /\
  exists p q m1, exec 1 (x <~ newInt 5; y <~ newInt 6; q <~ NegM h (HP x y); Return (HP x y, q)) (homeMem specZk) = (Ok (p, q), m1) /\
  pointAt 1 m1 p (EP (Some 5) (Some 6)) /\
  exists m2, exec 1 (intSetBytes (hX q) []) m1 = (Ok (hX q), m2) /\ ~ pointAt 1 m2 p (EP (Some 5) (Some 6)).
Proof.
  intros h. pose proof (case_params 1) as HP. fold h in HP. split; [exact HP|].
  do 3 eexists. split; [reflexivity|]. split; [split; (split; [right|]; reflexivity)|]. eexists. split; [reflexivity|]. intros [[_ X] _]. discriminate X.
Qed.
Print Assumptions C74_neg_owned_refuted.

(** ** C75: any number of goroutines run programs that use the package with shared
    parameters, points, keys, commitments and proofs.  Whatever the schedule, a goroutine
    that has finished has the result it would have got alone, what it held is as it
    was, and shared integers never change *)
Theorem C75_answers : forall sha h zk m A B (c : forall i, prog (A i)) (r : forall i, R (B i)) rel s,
  paramsAt 0 m h zk -> (forall i, program sha h zk (S i) m (c i) (r i) (rel i)) -> (forall i, local (S i) (rel i)) ->
  let '(th, m') := schedule s c m in
  (forall p z, fst p = 0%nat -> cell m p = Some z -> cell m' p = Some z) /\
  (forall i, finished (th i) -> answered m' (th i) (r i) (rel i) /\ forall p z, fst p = S i -> cell m p = Some z -> cell m' p = Some z).
Proof. intros sha h zk m A B c r rel s HP HC HL. exact (go_answers sha h zk m A B c r rel HP HC HL s). Qed.
Print Assumptions C75_answers.
(** the results of the calls of the package are read that way *)
Theorem C75_results : forall sha h zk t m A B (c : prog A) (r : R B) rel, call sha h zk t m c r rel -> local t rel.
Proof. exact call_local. Qed.
Print Assumptions C75_results.
(** ** C75: every goroutine finishes after a number of accesses that does not depend on the others *)
Theorem C75_finishes : forall sha h zk m A B (c : forall i, prog (A i)) (r : forall i, R (B i)) rel i,
  paramsAt 0 m h zk -> (forall i, program sha h zk (S i) m (c i) (r i) (rel i)) ->
  exists n, forall s, (n <= count_occ Nat.eq_dec s i)%nat -> finished (fst (schedule s c m) i).
Proof. intros sha h zk m A B c r rel i HP HC. exact (go_finishes sha h zk m A B c r rel HP HC i). Qed.
Print Assumptions C75_finishes.
(** ** C75: no data race: a goroutine writes only integers it made itself, and never one
    that another goroutine is about to read or write *)
Theorem C75_no_race : forall sha h zk m A B (c : forall i, prog (A i)) (r : forall i, R (B i)) rel s i p,
  paramsAt 0 m h zk -> (forall i, program sha h zk (S i) m (c i) (r i) (rel i)) ->
  let th := fst (schedule s c m) in nextStore (th i) = Some p -> fst p = S i /\ forall j, j <> i -> nextTouch (th j) <> Some p.
Proof. intros sha h zk m A B c r rel s i p HP HC. exact (go_no_race sha h zk m A B c r rel HP HC s i p). Qed.
Print Assumptions C75_no_race.
(** any number of goroutines prove and verify at once, each with its own draw: all of
    them end with true, however they are scheduled *)
Example C75_case : forall sha (u : nat -> Z) s, let h := homeParams false specZk in
  (forall i, program sha h specZk (S i) (homeMem specZk) (proveVerify sha h (u i)) (Ok (true, None)) same) /\ (forall i, local (S i) (@same (bool * option goerr))) /\
  forall i, finished (fst (schedule s (fun i => proveVerify sha h (u i)) (homeMem specZk)) i) ->
  fst (schedule s (fun i => proveVerify sha h (u i)) (homeMem specZk)) i = Return (true, None).
Proof.
  intros sha u s h.
  assert (HC : forall i, program sha h specZk (S i) (homeMem specZk) (proveVerify sha h (u i)) (Ok (true, None)) same).
  { intros i. pose proof (case_program sha (u i) (S i) _ _ (case_params (S i))) as C. destruct (case_value sha (u i)) as (pf & E & AC).
    rewrite E in C. cbn [bind fst] in C. rewrite AC in C. exact C. }
  assert (HL : forall i, local (S i) (@same (bool * option goerr))) by (intros i m1 m2 a b _ _ X; exact X).
  split; [exact HC|]. split; [exact HL|]. intros i F.
  pose proof (C75_answers sha h specZk (homeMem specZk) (fun _ => _) (fun _ => _) (fun i => proveVerify sha h (u i)) (fun _ => Ok (true, None)) (fun _ => same) s (case_params 0) HC HL) as V.
  destruct (schedule s _ _) as [th m']. destruct V as [_ V]. cbn [fst] in *. destruct (V i F) as [V1 _].
  destruct (th i); cbn [answered] in V1; try contradiction. f_equal. exact V1.
Qed.
