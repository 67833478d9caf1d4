(** * The digits of the scalar, one by one, from the accesses *)
From Coq Require Import ZArith List Bool Lia.
From Verif Require Import Go Wire Big CodecProofs Field Koblitz KoblitzMem SpecMem MemProofs MemProofs2 KoblitzConc ConcProofs FieldMem FieldMemProofs KoblitzWord WordProofs SpecTrace TraceProofs TraceProofs2 KobMul.
Import ListNotations.
Open Scope Z_scope.
Local Open Scope wcode_scope.

Definition anyI : smst -> Z -> Z -> Prop := fun _ _ _ => True.
Lemma disjTop a b : is_byte a -> is_byte b -> disj a b -> a / 128 = 1 -> b / 128 = 0.
Proof. apply (disj_top anyI); intros; exact I. Qed.
Lemma topBit a : is_byte a -> top a = 0 \/ top a = 1.
Proof. apply (top_01 anyI); intros; exact I. Qed.
Lemma hiStep n a : (n < 8)%nat -> is_byte a ->
  a / 2 ^ (8 - Z.of_nat (S n)) = 2 ^ Z.of_nat n * top a + ((2 * a) mod 256) / 2 ^ (8 - Z.of_nat n).
Proof. apply (hi_step anyI); intros; exact I. Qed.
Lemma shlByte a : is_byte ((2 * a) mod 256).
Proof. unfold is_byte. apply Z.mod_pos_bound. reflexivity. Qed.
Lemma shlDisj a b : disj a b -> disj ((2 * a) mod 256) ((2 * b) mod 256).
Proof. apply (shl_disj anyI); intros; exact I. Qed.

Section mult.
Context (one sp : ptr) (Lo : one < sp).
Notation e := (locals sp).
Definition digit : Type := option ptr.
Definition addD (x z : ptr) (d : digit) : wcode unit :=
  match d with Some y => addJacobianW one (sp + frame) (e qx) (e qy) (e qz) x y z (e qx) (e qy) (e qz) | None => WRet tt end.
Notation dbl := (doubleJacobianW one (sp + frame) (e qx) (e qy) (e qz) (e qx) (e qy) (e qz)).
Fixpoint doK {A : Type} (l : list (digit * digit)) (K : wcode A) : wcode A :=
  match l with
  | [] => K
  | (d1, d2) :: r => dbl ;; addD (e p1x) (e p1z) d1 ;; addD (e p2x) (e p2z) d2 ;; doK r K
  end.
(** the accesses of a sequence do not depend on how it is bracketed *)
Definition same {A : Type} (c d : wcode A) : Prop := forall m, traceW c m = traceW d m.
Lemma same_tail {A B : Type} (c : wcode A) (f g : A -> wcode B) : (forall a, same (f a) (g a)) -> same (seqW c f) (seqW c g).
Proof. intros H m. rewrite !trace_seq, (H _ _). reflexivity. Qed.
Lemma same_assoc {A B C : Type} (c : wcode A) (f : A -> wcode B) (g : B -> wcode C) : same (seqW (seqW c f) g) (seqW c (fun a => seqW (f a) g)).
Proof. intros m. rewrite !trace_seq, runW_seq, app_assoc. reflexivity. Qed.
Lemma same_trans {A : Type} (a b c : wcode A) : same a b -> same b c -> same a c. Proof. intros H K m. rewrite H. apply K. Qed.
Definition dig (y yn : ptr) (pos neg : Z) : digit := if Z.land pos 0x80 =? 0x80 then Some y else if Z.land neg 0x80 =? 0x80 then Some yn else None.
Lemma addP_dig x y yn z pos neg : addPW one sp x y yn z pos neg = addD x z (dig y yn pos neg).
Proof. unfold addPW, dig. destruct (_ =? _); [reflexivity|]. destruct (_ =? _); reflexivity. Qed.
Definition shl (x : Z) : Z := (2 * x) mod 256.
Fixpoint bitsL (ps : smptrs) (n : nat) (p1 n1 p2 n2 : Z) : list (digit * digit) :=
  match n with
  | 0%nat => []
  | S n' => (dig (py1 ps) (pyn1 ps) p1 n1, dig (py2 ps) (pyn2 ps) p2 n2) :: bitsL ps n' (shl p1) (shl n1) (shl p2) (shl n2)
  end.
Fixpoint loopL (ps : smptrs) (p1 n1 p2 n2 : list Z) : list (digit * digit) :=
  match p1, n1, p2, n2 with
  | a :: p1, b :: n1, c :: p2, d :: n2 => bitsL ps 8 a b c d ++ loopL ps p1 n1 p2 n2
  | _, _, _, _ => []
  end.
Lemma same_bits {A : Type} ps n (K : wcode A) : forall p1 n1 p2 n2, same (smBitsW one sp ps n p1 n1 p2 n2 ;; K) (doK (bitsL ps n p1 n1 p2 n2) K).
Proof.
  induction n as [|n IH]; intros p1 n1 p2 n2; [intros m; reflexivity|]. cbn [smBitsW bitsL doK]. cbv zeta. rewrite !addP_dig.
  eapply same_trans; [apply same_assoc|]. apply same_tail. intros _.
  eapply same_trans; [apply same_assoc|]. apply same_tail. intros _.
  eapply same_trans; [apply same_assoc|]. apply same_tail. intros _. apply IH.
Qed.
Lemma doK_app {A : Type} l r (K : wcode A) : doK (l ++ r) K = doK l (doK r K).
Proof. induction l as [|[d1 d2] l IH]; [reflexivity|]. cbn [app doK]. rewrite IH. reflexivity. Qed.
Lemma doK_same {A : Type} l (K K' : wcode A) : same K K' -> same (doK l K) (doK l K').
Proof. intros H. induction l as [|[d1 d2] l IH]; [exact H|]. cbn [doK]. do 3 (apply same_tail; intros _). exact IH. Qed.
Lemma same_loop {A : Type} ps (K : wcode A) : forall p1 n1 p2 n2, same (smLoopW one sp ps p1 n1 p2 n2 ;; K) (doK (loopL ps p1 n1 p2 n2) K).
Proof.
  induction p1 as [|a p1 IH]; intros n1 p2 n2; [intros m; reflexivity|]. cbn [smLoopW loopL].
  destruct n1 as [|b n1]; [intros m; reflexivity|]. destruct p2 as [|c p2]; [intros m; reflexivity|]. destruct n2 as [|d n2]; [intros m; reflexivity|].
  rewrite doK_app. eapply same_trans; [apply same_assoc|]. eapply same_trans; [apply same_bits|]. apply doK_same, IH.
Qed.

(** ** Z coordinates stay 1 *)
Definition ones (m : mem) : Prop := m one = fieldOne /\ m (e p1z) = fieldOne /\ m (e p2z) = fieldOne.
Lemma ones_dbl m : ones m -> ones (snd (runW dbl m)).
Proof.
  intros (H1 & H2 & H3). destruct (sim_dbl one (sp + frame) (e qx) (e qy) (e qz) (e qx) (e qy) (e qz) m) as [_ M]. rewrite run_dbl in M. cbn [snd] in M.
  unfold ones. rewrite !M. rewrite (dblL_low one sp m qx qy qz qx qy qz one Lo), !dblL_reg by reflexivity. split; [exact H1|split; assumption].
Qed.
Lemma snd_z q x y : snd (snd (addJacobian q (x, y, fieldOne))) = fieldOne.
Proof.
  destruct q as [[a b] c]. unfold addJacobian. destruct (_ || _); [reflexivity|]. destruct (_ || _); [reflexivity|]. rewrite norm_one. cbv zeta.
  destruct (_ && _); [reflexivity|]. destruct (fEquals _ _); [reflexivity|]. destruct (fEquals _ _); reflexivity.
Qed.
Lemma ones_add a b c d m : ones m ->
  (a, b, c, d) = (p1x, p1y, p1z, p2z) \/ (a, b, c, d) = (p1x, p1yNeg, p1z, p2z) \/ (a, b, c, d) = (p2x, p2y, p2z, p1z) \/ (a, b, c, d) = (p2x, p2yNeg, p2z, p1z) ->
  ones (snd (runW (addJacobianW one (sp + frame) (e qx) (e qy) (e qz) (e a) (e b) (e c) (e qx) (e qy) (e qz)) m)).
Proof.
  intros (H1 & H2 & H3) C. destruct (sim_addJ one (sp + frame) (e qx) (e qy) (e qz) (e a) (e b) (e c) (e qx) (e qy) (e qz) m) as [_ M]. rewrite run_addJ in M. cbn [snd] in M.
  unfold ones. rewrite !M.
  assert (L : forall q, q < sp -> addJacobianM one (sp + frame) (e qx) (e qy) (e qz) (e a) (e b) (e c) (e qx) (e qy) (e qz) m q = m q).
  { intros q Q. destruct C as [C|[C|[C|C]]]; injection C as -> -> -> ->; apply addL_low; try reflexivity; try exact Q; left; reflexivity. }
  rewrite (L one Lo). clear L.
  assert (S : (addJacobianM one (sp + frame) (e qx) (e qy) (e qz) (e a) (e b) (e c) (e qx) (e qy) (e qz) m (e c)) = fieldOne /\
              (addJacobianM one (sp + frame) (e qx) (e qy) (e qz) (e a) (e b) (e c) (e qx) (e qy) (e qz) m (e d)) = fieldOne).
  { destruct C as [C|[C|[C|C]]]; injection C as -> -> -> ->;
      (split; [match goal with |- addJacobianM _ _ _ _ _ (e ?a) (e ?b) (e ?c) _ _ _ _ _ = _ =>
                 pose proof (addL_second one sp Lo m qx qy qz a b c qx qy qz H1 eq_refl (or_introl eq_refl) eq_refl eq_refl) as E;
                 apply (f_equal snd) in E; cbn [snd] in E; rewrite E; rewrite ?H2, ?H3; apply snd_z end
              |rewrite addL_reg; [assumption|reflexivity|left; reflexivity|reflexivity]]). }
  destruct S as [S1 S2]. split; [exact H1|]. destruct C as [C|[C|[C|C]]]; injection C as -> -> -> ->; split; assumption.
Qed.
Definition ok1 (d : digit) : Prop := d = None \/ d = Some (e p1y) \/ d = Some (e p1yNeg).
Definition ok2 (d : digit) : Prop := d = None \/ d = Some (e p2y) \/ d = Some (e p2yNeg).
Definition okL (l : list (digit * digit)) : Prop := Forall (fun d => ok1 (fst d) /\ ok2 (snd d)) l.
Lemma ones_1 d m : ok1 d -> ones m -> ones (snd (runW (addD (e p1x) (e p1z) d) m)).
Proof. intros [-> | [-> | ->]] H; [exact H| |]; cbn [addD]; (eapply ones_add; [exact H|]); [left|right; left]; reflexivity. Qed.
Lemma ones_2 d m : ok2 d -> ones m -> ones (snd (runW (addD (e p2x) (e p2z) d) m)).
Proof. intros [-> | [-> | ->]] H; [exact H| |]; cbn [addD]; (eapply ones_add; [exact H|]); right; right; [left|right]; reflexivity. Qed.

(** ** the digits *)
Lemma ptrs_ne : e p1x <> e p2x /\ e qx <> e qy /\ e qx <> e qz /\ e qy <> e qz.
Proof. unfold locals. cbn [idx]. lia. Qed.
Lemma rest_first {A : Type} l (K : wcode A) : first K (Loads (e qz) 0) -> exists a, first (doK l K) a /\ a <> Loads (e qx) 0.
Proof.
  destruct ptrs_ne as (_ & N1 & N2 & _). intros F. destruct l as [|[d1 d2] l]; cbn [doK].
  - exists (Loads (e qz) 0). split; [exact F|ldne].
  - exists (Loads (e qy) 0). split; [apply first_seq, dbl_first|ldne].
Qed.
Lemma one_nz : fIsZero fieldOne = false. Proof. reflexivity. Qed.
Lemma digits_eq {A : Type} (K : wcode A) : first K (Loads (e qz) 0) -> forall L L' m, ones m -> okL L -> okL L' ->
  traceW (doK L K) m = traceW (doK L' K) m -> L = L'.
Proof.
  intros F. destruct ptrs_ne as (NX & N1 & N2 & N3).
  induction L as [|[d1 d2] L IH]; intros [|[d1' d2'] L'] m O HL HL' E.
  - reflexivity.
  - exfalso. revert E. apply forks_ne. cbn [doK]. eapply part_first; [exact F|apply first_seq, dbl_first|ldne].
  - exfalso. revert E. apply forks_ne. cbn [doK]. eapply part_first; [apply first_seq, dbl_first|exact F|ldne].
  - inversion HL as [|? ? [A1 A2] HL1]; subst. inversion HL' as [|? ? [A1' A2'] HL1']; subst. cbn [fst snd] in *.
    cbn [doK] in E. rewrite (trace_seq dbl), (trace_seq dbl) in E. apply app_inv_head in E.
    apply ones_dbl in O. set (m1 := snd (runW dbl m)) in *. clearbody m1. clear m.
    destruct (rest_first L K F) as (a & Fa & Na). destruct (rest_first L' K F) as (a' & Fa' & Na').
    assert (D1 : d1 = d1').
    { destruct d1 as [y|], d1' as [y'|]; [| | |reflexivity].
      - destruct (Z.eq_dec y y') as [->|NE]; [reflexivity|]. exfalso. revert E. apply forks_ne. apply part_here. cbn [addD].
        apply add_part_y; [exact NE|]. destruct O as (_ & O & _). rewrite O. exact one_nz.
      - exfalso. revert E. apply forks_ne. destruct d2' as [y2|]; cbn [addD seqW].
        + apply part_here. apply add_part_x. exact NX.
        + eapply part_first; [apply first_seq, add_first|exact Fa'|congruence].
      - exfalso. revert E. apply forks_ne. destruct d2 as [y2|]; cbn [addD seqW].
        + apply part_here. apply add_part_x. congruence.
        + eapply part_first; [exact Fa|apply first_seq, add_first|congruence]. }
    subst d1'. rewrite (trace_seq (addD (e p1x) (e p1z) d1)), (trace_seq (addD (e p1x) (e p1z) d1)) in E. apply app_inv_head in E.
    apply (ones_1 d1) in O; [|exact A1]. set (m2 := snd (runW (addD (e p1x) (e p1z) d1) m1)) in *. clearbody m2. clear m1.
    assert (D2 : d2 = d2').
    { destruct d2 as [y|], d2' as [y'|]; [| | |reflexivity].
      - destruct (Z.eq_dec y y') as [->|NE]; [reflexivity|]. exfalso. revert E. apply forks_ne. apply part_here. cbn [addD].
        apply add_part_y; [exact NE|]. destruct O as (_ & _ & O). rewrite O. exact one_nz.
      - exfalso. revert E. apply forks_ne. cbn [addD seqW]. eapply part_first; [apply first_seq, add_first|exact Fa'|congruence].
      - exfalso. revert E. apply forks_ne. cbn [addD seqW]. eapply part_first; [exact Fa|apply first_seq, add_first|congruence]. }
    subst d2'. rewrite (trace_seq (addD (e p2x) (e p2z) d2)), (trace_seq (addD (e p2x) (e p2z) d2)) in E. apply app_inv_head in E.
    apply (ones_2 d2) in O; [|exact A2]. f_equal. apply (IH L' _ O HL1 HL1' E).
Qed.

(** ** the value of the digits *)
Definition v1 (d : digit) : Z := match d with None => 0 | Some y => if y =? e p1y then 1 else -1 end.
Definition v2 (d : digit) : Z := match d with None => 0 | Some y => if y =? e p2y then 1 else -1 end.
Definition valL (l : list (digit * digit)) (acc : Z * Z) : Z * Z :=
  fold_left (fun a d => (2 * fst a + v1 (fst d), 2 * snd a + v2 (snd d))) l acc.
Definition ptrsOf (g1 g2 : bool) : smptrs :=
  let '(y1, yn1) := if g1 then (e p1yNeg, e p1y) else (e p1y, e p1yNeg) in
  let '(y2, yn2) := if g2 then (e p2yNeg, e p2y) else (e p2y, e p2yNeg) in
  {| py1 := y1; pyn1 := yn1; py2 := y2; pyn2 := yn2 |}.
Definition sg (g : bool) : Z := if g then -1 else 1.
Lemma dig1 (g1 g2 : bool) a b : is_byte a -> is_byte b -> disj a b ->
  v1 (dig (py1 (ptrsOf g1 g2)) (pyn1 (ptrsOf g1 g2)) a b) = sg g1 * (top a - top b) /\ ok1 (dig (py1 (ptrsOf g1 g2)) (pyn1 (ptrsOf g1 g2)) a b).
Proof.
  intros Ha Hb D. assert (N : e p1yNeg <> e p1y) by (unfold locals; cbn [idx]; lia). apply Z.eqb_neq in N.
  unfold dig. rewrite !top_bit by assumption. unfold ok1. destruct (Z.eqb_spec (a / 128) 1) as [E|NE].
  - unfold top. rewrite (disjTop a b) by assumption. rewrite E. destruct g1, g2; cbn [ptrsOf py1 pyn1 v1 sg]; rewrite ?N, ?Z.eqb_refl; (split; [reflexivity|tauto]).
  - destruct (topBit a Ha) as [Ea|Ea]; [|contradiction]. rewrite Ea. destruct (Z.eqb_spec (b / 128) 1) as [E|NE'].
    + unfold top. rewrite E. destruct g1, g2; cbn [ptrsOf py1 pyn1 v1 sg]; rewrite ?N, ?Z.eqb_refl; (split; [reflexivity|tauto]).
    + destruct (topBit b Hb) as [Eb|Eb]; [|contradiction]. rewrite Eb. cbn [v1]. split; [ring|tauto].
Qed.
Lemma dig2 (g1 g2 : bool) a b : is_byte a -> is_byte b -> disj a b ->
  v2 (dig (py2 (ptrsOf g1 g2)) (pyn2 (ptrsOf g1 g2)) a b) = sg g2 * (top a - top b) /\ ok2 (dig (py2 (ptrsOf g1 g2)) (pyn2 (ptrsOf g1 g2)) a b).
Proof.
  intros Ha Hb D. assert (N : e p2yNeg <> e p2y) by (unfold locals; cbn [idx]; lia). apply Z.eqb_neq in N.
  unfold dig. rewrite !top_bit by assumption. unfold ok2. destruct (Z.eqb_spec (a / 128) 1) as [E|NE].
  - unfold top. rewrite (disjTop a b) by assumption. rewrite E. destruct g1, g2; cbn [ptrsOf py2 pyn2 v2 sg]; rewrite ?N, ?Z.eqb_refl; (split; [reflexivity|tauto]).
  - destruct (topBit a Ha) as [Ea|Ea]; [|contradiction]. rewrite Ea. destruct (Z.eqb_spec (b / 128) 1) as [E|NE'].
    + unfold top. rewrite E. destruct g1, g2; cbn [ptrsOf py2 pyn2 v2 sg]; rewrite ?N, ?Z.eqb_refl; (split; [reflexivity|tauto]).
    + destruct (topBit b Hb) as [Eb|Eb]; [|contradiction]. rewrite Eb. cbn [v2]. split; [ring|tauto].
Qed.
Lemma bits_val g1 g2 n : (n <= 8)%nat -> forall a b c d m1 m2, is_byte a -> is_byte b -> is_byte c -> is_byte d -> disj a b -> disj c d ->
  okL (bitsL (ptrsOf g1 g2) n a b c d) /\
  valL (bitsL (ptrsOf g1 g2) n a b c d) (m1, m2) =
    (2 ^ Z.of_nat n * m1 + sg g1 * (a / 2 ^ (8 - Z.of_nat n) - b / 2 ^ (8 - Z.of_nat n)),
     2 ^ Z.of_nat n * m2 + sg g2 * (c / 2 ^ (8 - Z.of_nat n) - d / 2 ^ (8 - Z.of_nat n))).
Proof.
  induction n as [|n IH]; intros Hn a b c d m1 m2 Ha Hb Hc Hd D1 D2.
  - split; [constructor|]. cbn [bitsL valL fold_left]. change (8 - Z.of_nat 0) with 8. change (2 ^ Z.of_nat 0) with 1. change (2 ^ 8) with 256.
    unfold is_byte in *. rewrite !Z.div_small by assumption. rewrite !Z.sub_diag, !Z.mul_0_r, !Z.mul_1_l, !Z.add_0_r. reflexivity.
  - destruct (dig1 g1 g2 a b Ha Hb D1) as [E1 O1]. destruct (dig2 g1 g2 c d Hc Hd D2) as [E2 O2].
    pose proof (shlDisj a b D1) as D1'. pose proof (shlDisj c d D2) as D2'.
    destruct (IH ltac:(lia) _ _ _ _ (2 * m1 + sg g1 * (top a - top b)) (2 * m2 + sg g2 * (top c - top d)) (shlByte a) (shlByte b) (shlByte c) (shlByte d) D1' D2') as [OL V].
    cbn [bitsL]. split; [constructor; [split; assumption|exact OL]|]. unfold valL. cbn [fold_left fst snd]. rewrite E1, E2. unfold valL in V. unfold shl. rewrite V.
    rewrite !(hiStep n) by (assumption || lia). rewrite Nat2Z.inj_succ, Z.pow_succ_r by lia. f_equal; ring.
Qed.
Lemma loop_val g1 g2 p1 : forall n1 p2 n2 m1 m2, length n1 = length p1 -> length p2 = length p1 -> length n2 = length p1 ->
  bytes_ok p1 -> bytes_ok n1 -> bytes_ok p2 -> bytes_ok n2 -> Forall2 disj p1 n1 -> Forall2 disj p2 n2 ->
  okL (loopL (ptrsOf g1 g2) p1 n1 p2 n2) /\
  valL (loopL (ptrsOf g1 g2) p1 n1 p2 n2) (m1, m2) =
    (256 ^ blen p1 * m1 + sg g1 * (beval p1 - beval n1), 256 ^ blen p1 * m2 + sg g2 * (beval p2 - beval n2)).
Proof.
  induction p1 as [|a p1 IH]; intros [|b n1] [|c p2] [|d n2] m1 m2 L1 L2 L3 B1 B2 B3 B4 D1 D2; try discriminate.
  - split; [constructor|]. cbn [loopL valL fold_left]. rewrite beval_nil. change (blen []) with 0. rewrite Z.pow_0_r, !Z.mul_1_l, Z.sub_diag, !Z.mul_0_r, !Z.add_0_r. reflexivity.
  - cbn [length] in *. apply eq_add_S in L1, L2, L3. inversion B1; inversion B2; inversion B3; inversion B4; inversion D1; inversion D2; subst.
    destruct (bits_val g1 g2 8 ltac:(lia) a b c d m1 m2) as [O8 V8]; try assumption.
    change (8 - Z.of_nat 8) with 0 in V8. change (2 ^ 0) with 1 in V8. change (2 ^ Z.of_nat 8) with 256 in V8. rewrite !Z.div_1_r in V8.
    destruct (IH n1 p2 n2 (256 * m1 + sg g1 * (a - b)) (256 * m2 + sg g2 * (c - d))) as [OR VR]; try assumption.
    cbn [loopL]. split; [apply Forall_app; split; [exact O8|exact OR]|]. unfold valL in *. rewrite fold_left_app, V8, VR.
    rewrite !beval_cons. unfold blen. cbn [length]. rewrite L1, L2, L3, Nat2Z.inj_succ, Z.pow_succ_r by lia. f_equal; ring.
Qed.
End mult.
