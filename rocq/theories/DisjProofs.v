(** * Proofs about the disjunctive proof (proof only) *)
From Coq Require Import ZArith List Bool Lia Field.
From Verif Require Import NumTheory Go Wire Big Crypto Spec FieldP FieldN CurveZ CurveGroup EndoP Order Lambda
  SpecZk CodecProofs ZkBase PointProofs Gspfs GspfsProofs EqConsProofs Disjunctive.
Import ListNotations.
Open Scope Z_scope.

Section P.
Variables (sha : list Z -> list Z) (zk : zkparams).
Hypothesis S : std zk.

Lemma disj_prove_left B1 R1 B2 R2 x rnd1 rnd2 rnd3 : is_point B1 -> is_point R1 -> is_point B2 -> is_point R2 ->
  NewDisjunctiveProof sha zk (pt B1) (pt R1) (pt B2) (pt R2) (Some x) Left rnd1 rnd2 rnd3 =
  if fst (smul x (eff B1)) =? fst R1 then
    match rnd1, rnd2, rnd3 with
    | Some u1, Some u2, Some u3 =>
        let T1 := smul u1 (eff B1) in
        let T2 := padd (smul u2 (eff B2)) (smul ((- u3) mod N) (eff R2)) in
        let c := fs sha [B1; R1; B2; R2; T1; T2] in
        let d := (c - u3) mod N in
        Ok (Some (MkDisj (pt T1) (pt T2) (Some c) (Some d) (Some u3) (Some (u1 + d * (x mod N))) (Some u2)), None)
    | _, _, _ => Ok (None, Some ERand)
    end
  else Ok (Some emptyDisjunctive, Some EProof).
Proof.
  intros H1 H2 H3 H4. unfold NewDisjunctiveProof, disjProve. cbn [need bind]. change (Left =? Left) with true. cbv iota. zk S.
  destruct (_ =? _); [|reflexivity]. cbn [negb].
  destruct rnd1 as [u1|]; [|reflexivity]. destruct rnd2 as [u2|]; [|reflexivity]. destruct rnd3 as [u3|]; [|reflexivity].
  zk S. chal S. reflexivity.
Qed.
Lemma disj_prove_right B1 R1 B2 R2 x rnd1 rnd2 rnd3 : is_point B1 -> is_point R1 -> is_point B2 -> is_point R2 ->
  NewDisjunctiveProof sha zk (pt B1) (pt R1) (pt B2) (pt R2) (Some x) Right rnd1 rnd2 rnd3 =
  if fst (smul x (eff B2)) =? fst R2 then
    match rnd1, rnd2, rnd3 with
    | Some u1, Some u2, Some u3 =>
        let T2 := smul u1 (eff B2) in
        let T1 := padd (smul u2 (eff B1)) (smul ((- u3) mod N) (eff R1)) in
        let c := fs sha [B1; R1; B2; R2; T1; T2] in
        let d := (c - u3) mod N in
        Ok (Some (MkDisj (pt T1) (pt T2) (Some c) (Some u3) (Some d) (Some u2) (Some (u1 + d * (x mod N)))), None)
    | _, _, _ => Ok (None, Some ERand)
    end
  else Ok (Some emptyDisjunctive, Some EProof).
Proof.
  intros H1 H2 H3 H4. unfold NewDisjunctiveProof, disjProve. cbn [need bind]. change (Right =? Left) with false.
  change (Right =? Right) with true. cbv iota. zk S.
  destruct (_ =? _); [|reflexivity]. cbn [negb].
  destruct rnd1 as [u1|]; [|reflexivity]. destruct rnd2 as [u2|]; [|reflexivity]. destruct rnd3 as [u3|]; [|reflexivity].
  zk S. chal S. reflexivity.
Qed.
Lemma disj_verify B1 R1 B2 R2 T1 T2 c c1 c2 s1 s2 : is_point B1 -> is_point R1 -> is_point B2 -> is_point R2 ->
  is_point T1 -> is_point T2 ->
  DisjunctiveVerify sha (Some (MkDisj (pt T1) (pt T2) (Some c) (Some c1) (Some c2) (Some s1) (Some s2))) zk
    (pt B1) (pt R1) (pt B2) (pt R2) =
  if (fs sha [B1; R1; B2; R2; T1; T2] =? c) && (((c1 + c2) mod N =? c) &&
     ((fst (padd T1 (smul c1 (eff R1))) =? fst (smul s1 (eff B1))) &&
      (fst (padd (smul c2 (eff R2)) T2) =? fst (smul s2 (eff B2))))) then Ok (true, None)
  else Ok (false, Some EProof).
Proof.
  intros. unfold DisjunctiveVerify. cbn [djT1 djT2 djC djC1 djC2 djS1 djS2]. chal S. cbn [need bind].
  destruct (_ =? c); [|reflexivity]. cbn [negb andb]. rewrite (cN_ok zk S).
  destruct (_ =? c); [|reflexivity]. cbn [negb andb]. zk S.
  destruct (_ =? _); [|reflexivity]. cbn [negb andb]. zk S. destruct (_ =? _); reflexivity.
Qed.
Lemma disj_accepts B1 R1 B2 R2 T1 T2 c c1 c2 s1 s2 : is_point B1 -> is_point R1 -> is_point B2 -> is_point R2 ->
  is_point T1 -> is_point T2 ->
  accepts (DisjunctiveVerify sha (Some (MkDisj (pt T1) (pt T2) (Some c) (Some c1) (Some c2) (Some s1) (Some s2))) zk
    (pt B1) (pt R1) (pt B2) (pt R2)) <->
  fs sha [B1; R1; B2; R2; T1; T2] = c /\ (c1 + c2) mod N = c /\
  pm (padd T1 (smul c1 (eff R1))) (smul s1 (eff B1)) /\ pm (padd (smul c2 (eff R2)) T2) (smul s2 (eff B2)).
Proof.
  intros. rewrite disj_verify by assumption. rewrite accepts_if, !andb_true_iff, Z.eqb_eq, Z.eqb_eq, !xeqb by isp. reflexivity.
Qed.
End P.

Lemma disj_real B x u c : is_point B -> padd (smul u B) (smul c (smul x B)) = smul (u + c * (x mod N)) B.
Proof. intros HB. destruct (dlog B HB) as [b ->]. gpush. apply smul_G_eq. nzpush. ring. Qed.
Lemma disj_sim B R u c : is_point B -> is_point R ->
  padd (smul c R) (padd (smul u B) (smul ((- c) mod N) R)) = smul u B.
Proof. intros HB HR. destruct (dlog B HB) as [b ->]. destruct (dlog R HR) as [r ->]. gpush. apply smul_G_eq. nzpush. ring. Qed.
Lemma disj_sum c u : scalar c -> ((c - u) mod N + u) mod N = c.
Proof. intros H. apply nv_mod_eq; [exact H|]. nzpush. ring. Qed.
(** two transcripts of one branch *)
Lemma disj_branch B R T c1 s1 c2 s2 : is_point B -> is_point R -> is_point T -> c1 mod N <> c2 mod N ->
  pm (padd T (smul c1 R)) (smul s1 B) -> pm (padd T (smul c2 R)) (smul s2 B) ->
  exists e f, sgn e /\ sgn f /\ R = smul (slope e f s1 c1 s2 c2) B.
Proof.
  intros HB HR HT D A1 A2. apply pm_sym in A1; [|isp]. apply pm_sym in A2; [|isp].
  apply pm_sgn in A1 as (e & Se & E); [|isp]. apply pm_sgn in A2 as (f & Sf & F); [|isp].
  exists e, f. split; [exact Se|]. split; [exact Sf|]. rewrite <- smul_mul in E, F by isp. unfold slope.
  apply (slope_eq R B T); assumption.
Qed.
Lemma split_challenge c1 c2 d1 d2 : (c1 + c2) mod N <> (d1 + d2) mod N -> c1 mod N <> d1 mod N \/ c2 mod N <> d2 mod N.
Proof.
  intros H. destruct (Z.eq_dec (c1 mod N) (d1 mod N)) as [E|E]; [|left; exact E].
  right. intros E2. apply H. rewrite (Zplus_mod c1), E, E2, <- Zplus_mod. reflexivity.
Qed.
(** the unreduced response *)
Lemma leak_bound u d x : 0 <= u < N -> N < 2 * d -> x mod N = (u + d * (x mod N)) / d \/ x mod N = (u + d * (x mod N)) / d - 1.
Proof.
  intros Hu Hd. generalize (x mod N). intros y. rewrite (Z.mul_comm d y), Z.div_add by lia.
  assert (L : 0 <= u / d) by (apply Z.div_pos; lia).
  assert (M : u / d < 2) by (apply Z.div_lt_upper_bound; lia). lia.
Qed.
Lemma leak_big u d x : 0 <= u -> N < 2 * d -> 2 <= x mod N -> N < u + d * (x mod N).
Proof. assert (0 < N) by reflexivity. revert H. generalize (x mod N). generalize N. intros. nia. Qed.
