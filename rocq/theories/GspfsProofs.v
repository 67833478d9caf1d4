(** * Proofs about GSPFS (proof only) *)
From Coq Require Import ZArith List Bool Lia Field.
From Verif Require Import NumTheory Go Wire Big Crypto Spec FieldP FieldN CurveZ CurveGroup EndoP Order Lambda
  SpecZk CodecProofs ZkBase PointProofs Gspfs.
Import ListNotations.
Open Scope Z_scope.

Section P.
Variables (sha : list Z -> list Z) (zk : zkparams).
Hypothesis S : std zk.

Lemma gspfs_prove B A x rnd : is_point B -> is_point A ->
  NewGSPFSProofBase sha zk (pt B) (pt A) (Some x) rnd =
  if fst (smul x B) =? fst A then
    match rnd with
    | None => Ok (None, Some ERand)
    | Some u =>
        let U := smul u (eff B) in
        Ok (Some (MkGSPFS (pt B) (pt U) (Some ((u - fs sha [A; U] * (x mod N)) mod N)) (Some (fs sha [A; U]))), None)
    end
  else Ok (None, Some EProof).
Proof.
  intros HB HA. unfold NewGSPFSProofBase. cbn [need bind].
  change (pX (pt B)) with (Some (fst B)). change (pY (pt B)) with (Some (snd B)). cbn [need bind].
  rewrite (cN_ok zk S), (scalarMult_ok zk S) by isp. cbn [bind]. rewrite mkPoint_pt, Equal_ok. cbn [bind].
  destruct (fst (smul x B) =? fst A); [|reflexivity]. cbn [negb]. destruct rnd as [u|]; [|reflexivity].
  zk S. change [pt A; pt (smul u (eff B))] with (map pt [A; smul u (eff B)]). zk S. reflexivity.
Qed.
Lemma gspfs_verify A B R v c : is_point A -> is_point B -> is_point R ->
  GSPFSVerify sha (Some (MkGSPFS (pt B) (pt R) (Some v) (Some c))) zk (pt A) =
  if (fs sha [A; R] =? c) && (fst R =? fst (padd (smul v (eff B)) (smul c (eff A)))) then Ok (true, None)
  else Ok (false, Some EProof).
Proof.
  intros HA HB HR. unfold GSPFSVerify. cbn [gsBase gsRandCommit gsHiddenValue gsChallenge].
  change [pt A; pt R] with (map pt [A; R]). zk S.
  destruct (fs sha [A; R] =? c); [|reflexivity]. cbn [negb andb]. zk S.
  destruct (_ =? _); reflexivity.
Qed.
Lemma gspfs_accepts A B R v c : is_point A -> is_point B -> is_point R ->
  accepts (GSPFSVerify sha (Some (MkGSPFS (pt B) (pt R) (Some v) (Some c))) zk (pt A)) <->
  fs sha [A; R] = c /\ pm R (padd (smul v (eff B)) (smul c (eff A))).
Proof.
  intros HA HB HR. unfold accepts. rewrite gspfs_verify by assumption.
  rewrite <- pm_x by isp. rewrite <- (Z.eqb_eq (fs sha [A; R]) c).
  destruct (_ =? c), (_ =? _); cbn [andb]; split; intros H; try discriminate; try reflexivity; try (destruct H; discriminate); auto.
Qed.
End P.

Lemma resp_eq B x u c : is_point B ->
  padd (smul ((u - c * (x mod N)) mod N) B) (smul c (smul x B)) = smul u B.
Proof. intros HB. destruct (dlog B HB) as [b ->]. gpush. apply smul_G_eq. nzpush. ring. Qed.

(** from A scaled equations to the discrete logarithm *)
Lemma solve_dlog A B a b : is_point A -> is_point B -> a mod N <> 0 -> smul a A = smul b B ->
  A = smul ((b * ninv a) mod N) B.
Proof.
  intros HA HB Ha E. destruct (dlog A HA) as [x ->]. destruct (dlog B HB) as [y ->]. gpush_in E. gpush.
  apply smul_G_eq_inv in E. nzpush_in E. apply smul_G_eq. apply nz_nz in Ha. nzpush.
  transitivity (nmul (nmul (nz a) (nz x)) (ninvF (nz a))); [field; exact Ha|rewrite E; ring].
Qed.
Lemma gspfs_extract A B R v1 c1 v2 c2 : is_point A -> is_point B -> is_point R ->
  (c1 - c2) mod N <> 0 -> (c1 + c2) mod N <> 0 ->
  pm R (padd (smul v1 B) (smul c1 A)) -> pm R (padd (smul v2 B) (smul c2 A)) ->
  A = smul (((v2 - v1) * ninv (c1 - c2)) mod N) B \/
  A = smul ((- (v1 + v2) * ninv (c1 + c2)) mod N) B.
Proof.
  intros HA HB HR D1 D2 E1 E2.
  assert (K : padd (smul v1 B) (smul c1 A) = padd (smul v2 B) (smul c2 A) \/
              padd (smul v1 B) (smul c1 A) = pneg (padd (smul v2 B) (smul c2 A))).
  { destruct E1 as [->| E1], E2 as [E2|E2].
    - left; symmetry; exact E2.
    - right. rewrite E2. rewrite pneg_invol by isp. reflexivity.
    - right. rewrite E2, E1. reflexivity.
    - left. rewrite E1, E2. reflexivity. }
  destruct K as [K|K]; [left|right]; apply solve_dlog; try assumption;
  destruct (dlog A HA) as [x ->]; destruct (dlog B HB) as [y ->]; gpush_in K; gpush;
  apply smul_G_eq_inv in K; nzpush_in K; apply smul_G_eq; nzpush.
  - transitivity (nsub (nsub (nadd (nmul (nz v1) (nz y)) (nmul (nz c1) (nz x))) (nmul (nz c2) (nz x))) (nmul (nz v1) (nz y)));
      [ring|rewrite K; ring].
  - transitivity (nsub (nadd (nadd (nmul (nz v1) (nz y)) (nmul (nz c1) (nz x))) (nmul (nz c2) (nz x))) (nmul (nz v1) (nz y)));
      [ring|rewrite K; ring].
Qed.
Lemma diff_nz a b : a mod N <> b mod N -> (a - b) mod N <> 0.
Proof.
  intros H E. apply H. apply nz_eq_iff. assert (Q : nz (a - b) = nz 0) by (apply nz_eq_iff; rewrite E; reflexivity).
  nzpush_in Q. transitivity (nadd (nsub (nz a) (nz b)) (nz b)); [ring|rewrite Q; ring].
Qed.
Lemma sum_nz a b : a mod N <> (- b) mod N -> (a + b) mod N <> 0.
Proof. intros H. replace (a + b) with (a - - b) by lia. apply diff_nz. exact H. Qed.

(** one of 1, 2, 3, 4 divides a point into a plain one *)
Lemma plain_dec p : is_point p -> plain p \/ p = pneg G \/ p = Hgen \/ p = pneg Hgen.
Proof.
  intros Hp. assert (D : forall q : point, p = q \/ p <> q).
  { intros [x y]. destruct p as [a b]. destruct (Z.eq_dec a x) as [->|]; [|right; congruence].
    destruct (Z.eq_dec b y) as [->|]; [left; reflexivity|right; congruence]. }
  unfold plain. destruct (D (pneg G)) as [|H1]; [auto|]. destruct (D Hgen) as [|H2]; [auto|]. destruct (D (pneg Hgen)) as [|H3]; [auto|].
  left. split; [exact H1|split; [exact H2|exact H3]].
Qed.
Lemma ninv_small_inj a b : 0 < a < N -> 0 < b < N -> ninv a mod N = ninv b mod N -> a = b.
Proof.
  intros Ha Hb E. apply nz_eq_iff in E. rewrite !nz_inv in E.
  assert (Na : nz a <> n0) by (apply nz_nz; rewrite Z.mod_small; lia).
  assert (Nb : nz b <> n0) by (apply nz_nz; rewrite Z.mod_small; lia).
  assert (Q : nz a = nz b).
  { transitivity (nmul (nz a) (nmul (ninvF (nz b)) (nz b))); [field; exact Nb|]. rewrite <- E. field. exact Na. }
  apply nz_eq_iff in Q. rewrite !Z.mod_small in Q by lia. exact Q.
Qed.
Lemma plain_divide D : is_point D -> exists v, 1 <= v <= 4 /\ plain (smul (ninv v) D).
Proof.
  intros HD. destruct HD as [->|CD]; [exists 1; split; [lia|]; rewrite smul_O; exact plain_O|].
  assert (Hp : is_point D) by (right; exact CD).
  assert (I : forall a b, 1 <= a <= 4 -> 1 <= b <= 4 -> smul (ninv a) D = smul (ninv b) D -> a = b).
  { intros a b Ha Hb E. apply smul_inj_pt in E; [|exact CD].
    assert (4 < N) by reflexivity. apply ninv_small_inj; [lia|lia|exact E]. }
  destruct (plain_dec (smul (ninv 1) D)) as [|B1]; [isp|exists 1; split; [lia|assumption]|].
  destruct (plain_dec (smul (ninv 2) D)) as [|B2]; [isp|exists 2; split; [lia|assumption]|].
  destruct (plain_dec (smul (ninv 3) D)) as [|B3]; [isp|exists 3; split; [lia|assumption]|].
  destruct (plain_dec (smul (ninv 4) D)) as [|B4]; [isp|exists 4; split; [lia|assumption]|].
  exfalso. revert B1 B2 B3 B4. pose proof (I 1 2) as I12. pose proof (I 1 3) as I13. pose proof (I 1 4) as I14.
  pose proof (I 2 3) as I23. pose proof (I 2 4) as I24. pose proof (I 3 4) as I34. clear I.
  generalize dependent (smul (ninv 1) D). generalize dependent (smul (ninv 2) D). generalize dependent (smul (ninv 3) D).
  generalize dependent (smul (ninv 4) D). generalize (pneg G) Hgen (pneg Hgen). intros x y z d I4 c I3 I34 b I2 I23 I24 a.
  intros.
  repeat match goal with H : _ \/ _ |- _ => destruct H end; subst;
  match goal with H : _ -> _ -> ?p = ?p -> ?n = ?m |- _ => assert (n = m) by (apply H; [lia|lia|reflexivity]); lia end.
Qed.
Lemma smul_ninv v D : is_point D -> v mod N <> 0 -> smul v (smul (ninv v) D) = D.
Proof.
  intros HD Hv. destruct (dlog D HD) as [d ->]. gpush. apply smul_G_eq. nzpush. field. apply nz_nz. exact Hv.
Qed.

Lemma nz_double c : nadd (nz c) (nz c) = n0 -> c mod N = 0.
Proof.
  intros E. rewrite <- nz_add in E. apply nz_eq_iff in E. replace (c + c) with (2 * c) in E by lia.
  apply Z.mod_divide in E; [|discriminate]. apply Znumtheory.prime_mult in E; [|exact prime_N]. destruct E as [E|E].
  - exfalso. apply Z.divide_pos_le in E; [|reflexivity]. apply E. reflexivity.
  - apply Z.mod_divide; [discriminate|exact E].
Qed.
Lemma scalar_nz c : scalar c -> c <> 0 -> c mod N <> 0.
Proof. intros H H0. rewrite Z.mod_small by exact H. exact H0. Qed.
Lemma minus1 : smul (-1) G = pneg G.
Proof. change (-1) with (Z.opp 1). rewrite smul_opp, smul_1 by isp. reflexivity. Qed.
Lemma minus_G_mismatch u c : c mod N <> 0 -> (u + c) mod N <> 0 ->
  ~ pm (smul u G) (padd (smul ((u - c * ((-1) mod N)) mod N) G) (smul c G)).
Proof.
  intros C0 UC. rewrite <- smul_add by isp. intros [E|E]; [apply C0|apply UC]; rewrite <- ?smul_opp in E by isp;
  apply smul_G_eq_inv in E; nzpush_in E; apply nz_double; nzpush; lin E n1.
Qed.
Lemma hk_mod_nz : hk mod N <> 0. Proof. vm_compute. discriminate. Qed.
Lemma Hgen_dlog : Hgen = smul hk G. Proof. exact H_dlog. Qed.
Lemma Htab_not_Hgen : Htab <> Hgen. Proof. intros E. apply (f_equal fst) in E. discriminate E. Qed.
Lemma H_mismatch_gen h k : Htab = smul h G -> Hgen = smul k G -> k mod N <> 0 ->
  ~ pm (smul 1 Htab) (padd (smul ((1 - 1 * (2 mod N)) mod N) Htab) (smul 1 (smul 2 Hgen))).
Proof.
  intros Eh Ek K0. pose proof Htab_not_Hgen as HH. rewrite Eh, Ek in *. gpush. intros [E|E];
  rewrite <- ?smul_opp in E by isp; apply smul_G_eq_inv in E; change 2 with (1 + 1) in E; nzpush_in E.
  - apply HH. apply smul_G_eq. symmetry.
    assert (D : nz (k - h) = nz 0).
    { apply nz_eq_iff. rewrite (nz_double (k - h)); [reflexivity|]. nzpush. lin E n1. }
    nzpush_in D. lin D n1.
  - apply K0. apply nz_double. lin E n1.
Qed.
Lemma H_mismatch : ~ pm (smul 1 Htab) (padd (smul ((1 - 1 * (2 mod N)) mod N) Htab) (smul 1 (smul 2 Hgen))).
Proof. destruct (dlog Htab is_point_Htab) as [h E]. exact (H_mismatch_gen h hk E Hgen_dlog hk_mod_nz). Qed.

Lemma plain_smul_G_x k : smul k G <> pneg G -> smul k G <> Hgen -> smul k G <> pneg Hgen -> plain (smul k G).
Proof. intros. split; [assumption|split; assumption]. Qed.
Lemma plain_2k k : Hgen = smul k G -> (2 * k + 1) mod N <> 0 -> k mod N <> 0 -> (3 * k) mod N <> 0 -> plain (smul 2 Hgen).
Proof.
  intros E K1 K2 K3. rewrite E. gpush. apply plain_smul_G_x; rewrite ?E; rewrite <- ?minus1, <- ?smul_opp by isp; intros Q;
  apply smul_G_inj in Q.
  - apply K1. apply nz_eq_iff in Q. change 0 with (0 mod N). apply nz_eq_iff. nzpush. nzpush_in Q. lin Q n1.
  - apply K2. apply nz_eq_iff in Q. change 0 with (0 mod N). apply nz_eq_iff. change 2 with (1 + 1) in Q. nzpush. nzpush_in Q. lin Q n1.
  - apply K3. apply nz_eq_iff in Q. change 0 with (0 mod N). apply nz_eq_iff. change 3 with (1 + 1 + 1). change 2 with (1 + 1) in Q.
    nzpush. nzpush_in Q. lin Q n1.
Qed.
Lemma plain_2H : plain (smul 2 Hgen).
Proof. apply (plain_2k hk Hgen_dlog); vm_compute; discriminate. Qed.
Lemma Mult_addN zk p v k : cN (zC zk) = N -> Mult zk p (Some (v + k * N)) = Mult zk p (Some v).
Proof. intros E. unfold Mult. cbn [need bind]. rewrite E, Z.mod_add by discriminate. reflexivity. Qed.

Lemma gspfs_rejects sha zk A B R v c : std zk -> is_point A -> is_point B -> is_point R ->
  ~ pm R (padd (smul v (eff B)) (smul c (eff A))) ->
  rejects (GSPFSVerify sha (Some (MkGSPFS (pt B) (pt R) (Some v) (Some c))) zk (pt A)).
Proof.
  intros S HA HB HR H. unfold rejects. rewrite (gspfs_verify sha zk S) by isp.
  assert (X : (fst R =? fst (padd (smul v (eff B)) (smul c (eff A)))) = false) by (apply x_eq_false; [isp|isp|exact H]).
  rewrite X, andb_false_r. reflexivity.
Qed.
Lemma gspfs_refute sha zk B A x u c : std zk -> is_point B -> is_point A -> A = smul x B ->
  fs sha [A; smul u (eff B)] = c ->
  ~ pm (smul u (eff B)) (padd (smul ((u - c * (x mod N)) mod N) (eff B)) (smul c (eff A))) ->
  exists pf, NewGSPFSProofBase sha zk (pt B) (pt A) (Some x) (Some u) = Ok (Some pf, None) /\
             rejects (GSPFSVerify sha (Some pf) zk (pt A)).
Proof.
  intros S HB HA E Hc H. rewrite (gspfs_prove sha zk S) by isp. rewrite <- E, xeq_refl.
  eexists. split; [reflexivity|]. rewrite Hc. apply gspfs_rejects; [exact S|isp|isp|isp|exact H].
Qed.
