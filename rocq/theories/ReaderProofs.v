(** * Proofs about arbitrary readers and writers *)
From Coq Require Import ZArith List Lia Bool.
From Verif Require Import Go Wire SpecWire WireProofs Big Crypto SpecCodec CodecProofs Reader SpecReader.
Import ListNotations.
Open Scope Z_scope.

Lemma blen_app (a b : list Z) : blen (a ++ b) = blen a + blen b.
Proof. unfold blen. rewrite app_length. lia. Qed.
Lemma blen_nonneg (a : list Z) : 0 <= blen a.
Proof. unfold blen. lia. Qed.
Lemma blen_0 (a : list Z) : blen a <= 0 -> a = [].
Proof. destruct a; [reflexivity|unfold blen; cbn [length]; lia]. Qed.
Lemma take_app (k : Z) (a b : list Z) : blen a <= k -> firstn (Z.to_nat k) (a ++ b) = a ++ firstn (Z.to_nat (k - blen a)) b.
Proof. unfold blen. intros H. rewrite firstn_app. rewrite firstn_all2 by lia. do 2 f_equal. lia. Qed.
Lemma drop_app (k : Z) (a b : list Z) : blen a <= k -> skipn (Z.to_nat k) (a ++ b) = skipn (Z.to_nat (k - blen a)) b.
Proof. unfold blen. intros H. rewrite skipn_app. rewrite skipn_all2 by lia. cbn [app]. f_equal. lia. Qed.
Lemma take_in (k : Z) (a b : list Z) : k <= blen a -> firstn (Z.to_nat k) (a ++ b) = firstn (Z.to_nat k) a.
Proof. unfold blen. intros H. rewrite firstn_app. replace (Z.to_nat k - length a)%nat with 0%nat by lia. cbn [firstn]. apply app_nil_r. Qed.
Lemma drop_in (k : Z) (a b : list Z) : k <= blen a -> skipn (Z.to_nat k) (a ++ b) = skipn (Z.to_nat k) a ++ b.
Proof. unfold blen. intros H. rewrite skipn_app. replace (Z.to_nat k - length a)%nat with 0%nat by lia. reflexivity. Qed.

Lemma tail_ends e t : Forall (fun a => a = Ans [] (Some e)) t -> endsWithin e t /\ concat (map aData t) = [].
Proof.
  intros H. split.
  - destruct H as [|a t Ha Ht]; [exact I|]. subst a. cbn. split; [reflexivity|exact Ht].
  - induction H as [|a t Ha Ht IH]; [reflexivity|]. subst a. cbn. exact IH.
Qed.

(** the loop over a reader that ends with [e] *)
Lemma loop_ends e : forall script n got, endsWithin e script -> blen got <= n ->
  let s := concat (map aData script) in
  if n - blen got <=? blen s
  then exists r, readLoop n got script (Some e) = QOk (got ++ firstn (Z.to_nat (n - blen got)) s) r /\
                 delivers r = skipn (Z.to_nat (n - blen got)) s /\ endsWith e r
  else exists r, readLoop n got script (Some e) = QErr (shortErr (got ++ s) e) r /\ delivers r = [] /\ endsWith e r.
Proof.
  induction script as [|[d x] t IH]; intros n got W L s.
  - subst s. cbn [map concat blen]. change (blen []) with 0. destruct (Z.leb_spec (n - blen got) 0) as [H|H].
    + exists (Rdr [] (Some e)). cbn [readLoop]. replace (n <=? blen got) with true by (symmetry; apply Z.leb_le; lia).
      rewrite firstn_nil, skipn_nil, app_nil_r. split; [reflexivity|split; [reflexivity|split; [reflexivity|exact I]]].
    + exists (Rdr [] (Some e)). cbn [readLoop]. replace (n <=? blen got) with false by (symmetry; apply Z.leb_gt; lia).
      rewrite app_nil_r. split; [reflexivity|split; [reflexivity|split; [reflexivity|exact I]]].
  - subst s. cbn [map concat aData]. cbn [readLoop]. set (s := concat (map aData t)). rewrite blen_app.
    pose proof (blen_nonneg d) as D0. pose proof (blen_nonneg s) as S0.
    destruct (Z.leb_spec n (blen got)) as [F|F].
    { replace (n - blen got <=? blen d + blen s) with true by (symmetry; apply Z.leb_le; lia).
      exists (Rdr (Ans d x :: t) (Some e)). replace (n - blen got) with 0 by lia.
      cbn [Z.to_nat firstn skipn]. rewrite app_nil_r. split; [reflexivity|split; [reflexivity|split; [reflexivity|exact W]]]. }
    destruct (Z.ltb_spec (n - blen got) (blen d)) as [Q|Q].
    { replace (n - blen got <=? blen d + blen s) with true by (symmetry; apply Z.leb_le; lia).
      eexists. rewrite take_in, drop_in by lia. split; [reflexivity|split; [reflexivity|split; [reflexivity|]]].
      cbn [rAns endsWithin] in *. destruct x as [x|]; exact W. }
    destruct x as [x|].
    + cbn [endsWithin] in W. destruct W as [-> W]. destruct (tail_ends _ _ W) as [W1 W2]. fold s in W2. rewrite W2.
      change (blen []) with 0. rewrite blen_app, app_nil_r. destruct (Z.leb_spec n (blen got + blen d)) as [P|P].
      * replace (n - blen got <=? blen d + 0) with true by (symmetry; apply Z.leb_le; lia).
        exists (Rdr t (Some e)). replace (n - blen got) with (blen d) by lia. unfold blen. rewrite Nat2Z.id, firstn_all, skipn_all.
        split; [reflexivity|split; [exact W2|split; [reflexivity|exact W1]]].
      * replace (n - blen got <=? blen d + 0) with false by (symmetry; apply Z.leb_gt; lia).
        exists (Rdr t (Some e)). split; [reflexivity|split; [exact W2|split; [reflexivity|exact W1]]].
    + cbn [endsWithin] in W. specialize (IH n (got ++ d) W). rewrite blen_app in IH. specialize (IH ltac:(lia)). fold s in IH.
      cbv zeta in IH. replace (n - (blen got + blen d)) with (n - blen got - blen d) in IH by lia.
      destruct (Z.leb_spec (n - blen got - blen d) (blen s)) as [P|P].
      * replace (n - blen got <=? blen d + blen s) with true by (symmetry; apply Z.leb_le; lia).
        rewrite take_app, drop_app by lia. rewrite app_assoc. exact IH.
      * replace (n - blen got <=? blen d + blen s) with false by (symmetry; apply Z.leb_gt; lia).
        rewrite app_assoc. exact IH.
Qed.

(** the loop over a silent reader *)
Lemma loop_silent : forall script n got, Forall (fun a => aErr a = None) script -> blen got <= n ->
  let s := concat (map aData script) in
  if n - blen got <=? blen s
  then exists r, readLoop n got script None = QOk (got ++ firstn (Z.to_nat (n - blen got)) s) r /\
                 delivers r = skipn (Z.to_nat (n - blen got)) s /\ fallsSilent r
  else readLoop n got script None = QNever.
Proof.
  induction script as [|[d x] t IH]; intros n got W L s.
  - subst s. cbn [map concat blen]. change (blen []) with 0. destruct (Z.leb_spec (n - blen got) 0) as [H|H].
    + exists (Rdr [] None). cbn [readLoop]. replace (n <=? blen got) with true by (symmetry; apply Z.leb_le; lia).
      rewrite firstn_nil, skipn_nil, app_nil_r. split; [reflexivity|split; [reflexivity|split; [reflexivity|exact W]]].
    + cbn [readLoop]. replace (n <=? blen got) with false by (symmetry; apply Z.leb_gt; lia). reflexivity.
  - subst s. cbn [map concat aData]. cbn [readLoop]. set (s := concat (map aData t)). rewrite blen_app.
    pose proof (blen_nonneg d) as D0. pose proof (blen_nonneg s) as S0.
    destruct (Z.leb_spec n (blen got)) as [F|F].
    { replace (n - blen got <=? blen d + blen s) with true by (symmetry; apply Z.leb_le; lia).
      exists (Rdr (Ans d x :: t) None). replace (n - blen got) with 0 by lia.
      cbn [Z.to_nat firstn skipn]. rewrite app_nil_r. split; [reflexivity|split; [reflexivity|split; [reflexivity|exact W]]]. }
    inversion W as [|a l Wa Wt]; subst a l. cbn [aErr] in Wa. subst x.
    destruct (Z.ltb_spec (n - blen got) (blen d)) as [Q|Q].
    { replace (n - blen got <=? blen d + blen s) with true by (symmetry; apply Z.leb_le; lia).
      eexists. rewrite take_in, drop_in by lia. split; [reflexivity|split; [reflexivity|split; [reflexivity|]]].
      cbn [rAns]. constructor; [reflexivity|exact Wt]. }
    specialize (IH n (got ++ d) Wt). rewrite blen_app in IH. specialize (IH ltac:(lia)). fold s in IH.
    cbv zeta in IH. replace (n - (blen got + blen d)) with (n - blen got - blen d) in IH by lia.
    destruct (Z.leb_spec (n - blen got - blen d) (blen s)) as [P|P].
    + replace (n - blen got <=? blen d + blen s) with true by (symmetry; apply Z.leb_le; lia).
      rewrite take_app, drop_app by lia. rewrite app_assoc. exact IH.
    + replace (n - blen got <=? blen d + blen s) with false by (symmetry; apply Z.leb_gt; lia).
      exact IH.
Qed.

(** [r'] returns only errors that [r] returns *)
Definition below (r r' : reader) : Prop := rEnd r' = rEnd r /\ forall e, returnsError r' e -> returnsError r e.
Lemma below_cons fin a t : below (Rdr (a :: t) fin) (Rdr t fin).
Proof.
  split; [reflexivity|]. intros e [H|[d H]]; [left; exact H|right; exists d; right; exact H].
Qed.
Lemma below_trans a b c : below a b -> below b c -> below a c.
Proof. intros [A1 A2] [B1 B2]. split; [congruence|auto]. Qed.
Lemma below_refl a : below a a.
Proof. split; auto. Qed.
Lemma below_split fin k d x t : below (Rdr (Ans d x :: t) fin) (Rdr (Ans (skipn k d) x :: t) fin).
Proof.
  split; [reflexivity|]. intros e [H|[b [H|H]]]; [left; exact H| |right; exists b; right; exact H].
  right. exists d. left. congruence.
Qed.
Lemma short_cause r got e : returnsError r e ->
  returnsError r (shortErr got e) \/ (shortErr got e = IUnexpectedEOF /\ returnsError r IEOF).
Proof. intros H. unfold shortErr. destruct got; [left; exact H|]. destruct e; cbn [isEOF]; auto. Qed.

Lemma loop_any fin : forall script n got, blen got <= n ->
  match readLoop n got script fin with
  | QOk b r => got ++ concat (map aData script) = b ++ delivers r /\ blen b = n /\ below (Rdr script fin) r
  | QErr e r => returnsError (Rdr script fin) e \/ (e = IUnexpectedEOF /\ returnsError (Rdr script fin) IEOF)
  | QPanic => False
  | QNever => fin = None
  end.
Proof.
  induction script as [|[d x] t IH]; intros n got L; cbn [readLoop map concat aData].
  - destruct (Z.leb_spec n (blen got)) as [F|F].
    + split; [reflexivity|split; [lia|apply below_refl]].
    + destruct fin as [e|]; [|reflexivity]. apply short_cause. left. reflexivity.
  - pose proof (blen_nonneg d) as D0. destruct (Z.leb_spec n (blen got)) as [F|F].
    { split; [reflexivity|split; [lia|apply below_refl]]. }
    destruct (Z.ltb_spec (n - blen got) (blen d)) as [Q|Q].
    { split; [|split; [|apply below_split]].
      - unfold delivers. cbn [rAns map concat aData]. rewrite <- (firstn_skipn (Z.to_nat (n - blen got)) d) at 1.
        rewrite <- !app_assoc. reflexivity.
      - rewrite blen_app. unfold blen in *. rewrite firstn_length. lia. }
    destruct x as [x|].
    + destruct (Z.leb_spec n (blen (got ++ d))) as [P|P].
      * split; [unfold delivers; cbn [rAns]; rewrite app_assoc; reflexivity|split; [rewrite blen_app in *; lia|apply below_cons]].
      * apply short_cause. right. exists d. left. reflexivity.
    + specialize (IH n (got ++ d)). rewrite blen_app in IH. specialize (IH ltac:(lia)).
      destruct (readLoop n (got ++ d) t fin) as [b r|e r| |]; [|destruct IH as [H|[H1 H2]]; [left|right]|exact IH|exact IH].
      * destruct IH as [I1 [I2 I3]]. rewrite app_assoc. split; [exact I1|split; [exact I2|]].
        eapply below_trans; [apply below_cons|exact I3].
      * apply (below_cons fin (Ans d None) t). exact H.
      * split; [exact H1|]. apply (below_cons fin (Ans d None) t). exact H2.
Qed.

(** *** The decoders, for any relation that io.ReadFull and sequencing respect *)
Section Decoders.
  Variable rel : forall A, rd A -> rq A -> Prop.
  Variable P : reader -> Prop.
  Hypothesis h_full : forall n r, P r -> rel _ (readFull n (delivers r)) (readFullQ n r).
  Hypothesis h_bind : forall A B (m : rd A) (q : rq A) (f : A -> list Z -> rd B) (g : A -> reader -> rq B),
    rel A m q -> (forall a r, P r -> rel B (f a (delivers r)) (g a r)) -> rel B (rbind m f) (qbind q g).
  Hypothesis h_ok : forall A (a : A) r, P r -> rel _ (ROk a (delivers r)) (QOk a r).
  Hypothesis h_nc : forall A r, P r -> rel A (RErr ENonCanonical (delivers r)) (QErr INonCanonical r).
  Hypothesis h_panic : forall A, rel A RPanic QPanic.

  Lemma dec_u8 r : P r -> rel _ (Uint8 (delivers r)) (Uint8Q r).
  Proof. intros H. apply h_bind; auto. Qed.
  Lemma dec_u16 r : P r -> rel _ (Uint16 (delivers r)) (Uint16Q r).
  Proof. intros H. apply h_bind; auto. Qed.
  Lemma dec_u32 r : P r -> rel _ (Uint32 (delivers r)) (Uint32Q r).
  Proof. intros H. apply h_bind; auto. Qed.
  Lemma dec_u64 r : P r -> rel _ (Uint64 (delivers r)) (Uint64Q r).
  Proof. intros H. apply h_bind; auto. Qed.
  Lemma dec_varint r : P r -> rel _ (ReadVarInt (delivers r)) (ReadVarIntQ r).
  Proof.
    intros H. apply h_bind; [apply dec_u8; exact H|]. intros d r1 H1.
    destruct (d =? 255).
    { apply h_bind; [apply dec_u64; exact H1|]. intros v r2 H2. destruct (v <? 4294967296); auto. }
    destruct (d =? 254).
    { apply h_bind; [apply dec_u32; exact H1|]. intros v r2 H2. destruct (v <? 65536); auto. }
    destruct (d =? 253).
    { apply h_bind; [apply dec_u16; exact H1|]. intros v r2 H2. destruct (v <? 253); auto. }
    auto.
  Qed.
  Lemma dec_varbytes m r : P r -> rel _ (ReadVarBytes m (delivers r)) (ReadVarBytesQ m r).
  Proof.
    intros H. apply h_bind; [apply dec_varint; exact H|]. intros c r1 H1. destruct (maxAlloc <? c); auto.
  Qed.
  Lemma dec_point r : P r -> rel _ (ReadECPoint (delivers r)) (ReadECPointQ r).
  Proof.
    intros H. apply h_bind; [apply dec_varbytes; exact H|]. intros x r1 H1.
    apply h_bind; [apply dec_varbytes; exact H1|]. auto.
  Qed.
  Lemma dec_int r : P r -> rel _ (ReadBigInt (delivers r)) (ReadBigIntQ r).
  Proof.
    intros H. apply h_bind; [apply dec_varbytes; exact H|]. intros [|s m] r1 H1; auto.
  Qed.
End Decoders.

(** *** readers that end *)
Lemma full_neg n r : n <= 0 -> readFullQ n r = QOk [] r /\ readFull n (delivers r) = ROk [] (delivers r).
Proof.
  intros H. destruct r as [script fin]. split.
  - unfold readFullQ. cbn [rAns rEnd]. destruct script as [|[d x] t]; cbn [readLoop]; change (blen []) with 0;
      replace (n <=? 0) with true by (symmetry; apply Z.leb_le; lia); reflexivity.
  - unfold readFull. pose proof (blen_nonneg (delivers (Rdr script fin))) as B.
    replace (n <=? blen (delivers (Rdr script fin))) with true by (symmetry; apply Z.leb_le; lia).
    replace (Z.to_nat n) with 0%nat by lia. reflexivity.
Qed.

Lemma same_full e n r : endsWith e r -> same e (readFull n (delivers r)) (readFullQ n r).
Proof.
  intros E. destruct (Z_le_gt_dec n 0) as [N|N].
  { destruct (full_neg n r N) as [-> ->]. exists r. auto. }
  destruct r as [script fin]. destruct E as [F W]. cbn [rEnd rAns] in F, W. subst fin. unfold readFullQ, readFull. cbn [rAns rEnd].
  pose proof (loop_ends e script n [] W) as H. change (blen []) with 0 in H. specialize (H ltac:(lia)). cbv zeta in H.
  rewrite Z.sub_0_r in H. cbn [app] in H. unfold delivers. cbn [rAns].
  destruct (n <=? blen (concat (map aData script))).
  - destruct H as [r [H [D E]]]. exists r. split; [exact H|split; [exact D|exact E]].
  - destruct H as [r [H [D E]]]. destruct (concat (map aData script)) as [|b s]; cbn [same shortErr] in *.
    + exists r. cbn [replaced named]. split; [destruct e; exact H|split; assumption].
    + exists r. split; [|split; assumption]. rewrite H. destruct e; reflexivity.
Qed.
Lemma same_bind e A B (m : rd A) (q : rq A) (f : A -> list Z -> rd B) (g : A -> reader -> rq B) :
  same e m q -> (forall a r, endsWith e r -> same e (f a (delivers r)) (g a r)) -> same e (rbind m f) (qbind q g).
Proof.
  destruct m as [a rest|x rest|]; cbn [same]; intros H K.
  - destruct H as [r [-> [D E]]]. cbn [rbind qbind]. subst rest. apply K; auto.
  - destruct H as [r [-> [D E]]]. cbn [rbind qbind same]. exists r. auto.
  - subst q. reflexivity.
Qed.
Lemma same_ok e A (a : A) r : endsWith e r -> same e (ROk a (delivers r)) (QOk a r).
Proof. intros H. exists r. auto. Qed.
Lemma same_nc e A r : endsWith e r -> same (A := A) e (RErr ENonCanonical (delivers r)) (QErr INonCanonical r).
Proof. intros H. exists r. cbn [replaced]. auto. Qed.
Lemma same_panic e A : same (A := A) e RPanic QPanic.
Proof. reflexivity. Qed.

(** *** silent readers *)
Lemma silent_full n r : fallsSilent r -> sameSilent (readFull n (delivers r)) (readFullQ n r).
Proof.
  intros E. destruct (Z_le_gt_dec n 0) as [N|N].
  { destruct (full_neg n r N) as [-> ->]. exists r. auto. }
  destruct r as [script fin]. destruct E as [F W]. cbn [rEnd rAns] in F, W. subst fin. unfold readFullQ, readFull. cbn [rAns rEnd].
  pose proof (loop_silent script n [] W) as H. change (blen []) with 0 in H. specialize (H ltac:(lia)). cbv zeta in H.
  rewrite Z.sub_0_r in H. cbn [app] in H. unfold delivers. cbn [rAns].
  destruct (n <=? blen (concat (map aData script))).
  - destruct H as [r [H [D E]]]. exists r. split; [exact H|split; [exact D|exact E]].
  - destruct (concat (map aData script)); exact H.
Qed.
Lemma silent_bind A B (m : rd A) (q : rq A) (f : A -> list Z -> rd B) (g : A -> reader -> rq B) :
  sameSilent m q -> (forall a r, fallsSilent r -> sameSilent (f a (delivers r)) (g a r)) -> sameSilent (rbind m f) (qbind q g).
Proof.
  destruct m as [a rest|x rest|]; cbn [sameSilent]; intros H K.
  - destruct H as [r [-> [D E]]]. cbn [rbind qbind]. subst rest. apply K; auto.
  - destruct x; [subst q; reflexivity|subst q; reflexivity|].
    destruct H as [r [-> [D E]]]. cbn [rbind qbind sameSilent]. exists r. auto.
  - subst q. reflexivity.
Qed.
Lemma silent_ok A (a : A) r : fallsSilent r -> sameSilent (ROk a (delivers r)) (QOk a r).
Proof. intros H. exists r. auto. Qed.
Lemma silent_nc A r : fallsSilent r -> sameSilent (A := A) (RErr ENonCanonical (delivers r)) (QErr INonCanonical r).
Proof. intros H. exists r. auto. Qed.
Lemma silent_panic A : sameSilent (A := A) RPanic QPanic.
Proof. reflexivity. Qed.

(** *** any reader *)
Definition soundB {A} (r : reader) (plain : rd A) (got : rq A) : Prop :=
  sound r plain got /\ match got with QOk _ r' => below r r' | _ => True end.
Lemma any_full r0 n r : below r0 r -> soundB r0 (readFull n (delivers r)) (readFullQ n r).
Proof.
  intros E. destruct (Z_le_gt_dec n 0) as [N|N].
  { destruct (full_neg n r N) as [-> ->]. split; [reflexivity|exact E]. }
  destruct r as [script fin]. unfold readFullQ. cbn [rAns rEnd].
  pose proof (loop_any fin script n []) as H. change (blen []) with 0 in H. specialize (H ltac:(lia)).
  unfold delivers at 1. cbn [rAns]. destruct (readLoop n [] script fin) as [b r'|e r'| |].
  - destruct H as [H1 [H2 H3]]. cbn [app] in H1. split; [|eapply below_trans; eassumption].
    cbn [sound]. rewrite H1. apply readFull_app. exact H2.
  - split; [|exact I]. cbn [sound]. right. destruct E as [_ E]. destruct H as [H|[H1 H2]]; [left|right]; auto.
  - destruct H.
  - split; [|exact I]. cbn [sound]. destruct E as [E _]. cbn [rEnd] in E. congruence.
Qed.
Lemma any_bind r0 A B (m : rd A) (q : rq A) (f : A -> list Z -> rd B) (g : A -> reader -> rq B) :
  soundB r0 m q -> (forall a r, below r0 r -> soundB r0 (f a (delivers r)) (g a r)) -> soundB r0 (rbind m f) (qbind q g).
Proof.
  intros [H1 H2] K. destruct q as [a r|e r| |]; cbn [sound qbind] in *.
  - rewrite H1. cbn [rbind]. apply K. exact H2.
  - split; [|exact I]. cbn [sound]. destruct H1 as [[X Y]|H1]; [left|right; exact H1]. split; [exact X|]. rewrite Y. reflexivity.
  - subst m. split; [reflexivity|exact I].
  - split; [exact H1|exact I].
Qed.
Lemma any_ok r0 A (a : A) r : below r0 r -> soundB r0 (ROk a (delivers r)) (QOk a r).
Proof. intros H. split; [reflexivity|exact H]. Qed.
Lemma any_nc r0 A r : below r0 r -> soundB (A := A) r0 (RErr ENonCanonical (delivers r)) (QErr INonCanonical r).
Proof. intros H. split; [left; auto|exact I]. Qed.
Lemma any_panic r0 A : soundB (A := A) r0 RPanic QPanic.
Proof. split; [reflexivity|exact I]. Qed.

(** *** all three, for the four functions *)
Lemma ends_all e r m : endsWith e r ->
  same e (ReadVarInt (delivers r)) (ReadVarIntQ r) /\ same e (ReadVarBytes m (delivers r)) (ReadVarBytesQ m r) /\
  same e (ReadECPoint (delivers r)) (ReadECPointQ r) /\ same e (ReadBigInt (delivers r)) (ReadBigIntQ r).
Proof.
  intros H. repeat split.
  - apply (dec_varint (fun A => @same A e) (endsWith e)); eauto using same_full, same_bind, same_ok, same_nc, same_panic.
  - apply (dec_varbytes (fun A => @same A e) (endsWith e)); eauto using same_full, same_bind, same_ok, same_nc, same_panic.
  - apply (dec_point (fun A => @same A e) (endsWith e)); eauto using same_full, same_bind, same_ok, same_nc, same_panic.
  - apply (dec_int (fun A => @same A e) (endsWith e)); eauto using same_full, same_bind, same_ok, same_nc, same_panic.
Qed.
Lemma silent_all r m : fallsSilent r ->
  sameSilent (ReadVarInt (delivers r)) (ReadVarIntQ r) /\ sameSilent (ReadVarBytes m (delivers r)) (ReadVarBytesQ m r) /\
  sameSilent (ReadECPoint (delivers r)) (ReadECPointQ r) /\ sameSilent (ReadBigInt (delivers r)) (ReadBigIntQ r).
Proof.
  intros H. repeat split.
  - apply (dec_varint (fun A => @sameSilent A) fallsSilent); eauto using silent_full, silent_bind, silent_ok, silent_nc, silent_panic.
  - apply (dec_varbytes (fun A => @sameSilent A) fallsSilent); eauto using silent_full, silent_bind, silent_ok, silent_nc, silent_panic.
  - apply (dec_point (fun A => @sameSilent A) fallsSilent); eauto using silent_full, silent_bind, silent_ok, silent_nc, silent_panic.
  - apply (dec_int (fun A => @sameSilent A) fallsSilent); eauto using silent_full, silent_bind, silent_ok, silent_nc, silent_panic.
Qed.
Lemma any_all r m :
  sound r (ReadVarInt (delivers r)) (ReadVarIntQ r) /\ sound r (ReadVarBytes m (delivers r)) (ReadVarBytesQ m r) /\
  sound r (ReadECPoint (delivers r)) (ReadECPointQ r) /\ sound r (ReadBigInt (delivers r)) (ReadBigIntQ r).
Proof.
  pose proof (below_refl r) as H. repeat split.
  - apply (dec_varint (fun A => @soundB A r) (below r)); eauto using any_full, any_bind, any_ok, any_nc, any_panic.
  - apply (dec_varbytes (fun A => @soundB A r) (below r)); eauto using any_full, any_bind, any_ok, any_nc, any_panic.
  - apply (dec_point (fun A => @soundB A r) (below r)); eauto using any_full, any_bind, any_ok, any_nc, any_panic.
  - apply (dec_int (fun A => @soundB A r) (below r)); eauto using any_full, any_bind, any_ok, any_nc, any_panic.
Qed.

(** *** writers *)
Lemma writes_one w bs : writes bs w (writeS w bs).
Proof.
  destruct w as [out [|[|k] t]]; unfold writes, writeS; cbn [sAns sOut fst snd].
  - exists bs, []. split; [reflexivity|split; [reflexivity|split; [reflexivity|exists 0%nat; reflexivity]]].
  - exists bs, [Takes]. split; [reflexivity|split; [reflexivity|split; [reflexivity|exists 1%nat; reflexivity]]].
  - exists (firstn k bs), [Fails k]. split; [reflexivity|split; [reflexivity|split]].
    + exists (skipn k bs). symmetry. apply firstn_skipn.
    + exists 0%nat, k. reflexivity.
Qed.
Lemma repeat_more (n m : nat) : repeat Takes n ++ repeat Takes m = repeat Takes (n + m).
Proof. symmetry. apply repeat_app. Qed.
Lemma writes_seq a b w r1 (f : wtr -> wtr * bool) : writes a w r1 -> (forall w1, writes b w1 (f w1)) ->
  writes (a ++ b) w (if snd r1 then (fst r1, true) else f (fst r1)).
Proof.
  intros [p [u [O [A H]]]] K. destruct r1 as [w1 [|]]; cbn [fst snd] in *.
  - exists p, u. cbn [fst snd]. split; [exact O|split; [exact A|]]. destruct H as [[rest H] N]. split; [|exact N].
    exists (rest ++ b). rewrite H, app_assoc. reflexivity.
  - destruct H as [-> [n ->]]. destruct (K w1) as [q [v [O2 [A2 H2]]]].
    exists (a ++ q), (repeat Takes n ++ v). destruct (f w1) as [w2 e2]. cbn [fst snd] in *.
    split; [rewrite O2, O, app_assoc; reflexivity|split; [rewrite A, A2, app_assoc; reflexivity|]].
    destruct e2.
    + destruct H2 as [[rest H2] [m [k ->]]]. split; [exists rest; rewrite H2, app_assoc; reflexivity|].
      exists (n + m)%nat, k. rewrite <- repeat_more, app_assoc. reflexivity.
    + destruct H2 as [-> [m ->]]. split; [reflexivity|]. exists (n + m)%nat. apply repeat_more.
Qed.
Lemma let_pair {A} (r : wtr * bool) (f : wtr -> A) (g : wtr -> A) :
  (let '(w, e) := r in if e then f w else g w) = if snd r then f (fst r) else g (fst r).
Proof. destruct r as [w [|]]; reflexivity. Qed.

Lemma writes_varint w v : uint64 v -> writes (varint v) w (WriteVarIntS w v).
Proof.
  intros H. unfold uint64 in H. rewrite (varint_eq v H). unfold WriteVarIntS.
  destruct (Z.ltb_spec v 253) as [A|A].
  { rewrite (Z.mod_small v (2^8)) by lia. apply writes_one. }
  destruct (Z.leb_spec v 65535) as [B|B].
  { rewrite (let_pair (writeS w [253]) (fun w1 => (w1, true)) (fun w1 => writeS w1 (le16 (v mod 2^16)))).
    rewrite Z.mod_small by lia.
    apply (writes_seq [253] (le16 v) w (writeS w [253]) (fun w1 => writeS w1 (le16 v))); [apply writes_one|intros; apply writes_one]. }
  destruct (Z.leb_spec v 4294967295) as [C|C].
  { rewrite (let_pair (writeS w [254]) (fun w1 => (w1, true)) (fun w1 => writeS w1 (le32 (v mod 2^32)))).
    rewrite Z.mod_small by lia.
    apply (writes_seq [254] (le32 v) w (writeS w [254]) (fun w1 => writeS w1 (le32 v))); [apply writes_one|intros; apply writes_one]. }
  rewrite (let_pair (writeS w [255]) (fun w1 => (w1, true)) (fun w1 => writeS w1 (le64 v))).
  apply (writes_seq [255] (le64 v) w (writeS w [255]) (fun w1 => writeS w1 (le64 v))); [apply writes_one|intros; apply writes_one].
Qed.
Lemma writes_varbytes w bs : blen bs < 2 ^ 64 -> writes (varbytes bs) w (WriteVarBytesS w bs).
Proof.
  intros H. unfold WriteVarBytesS.
  rewrite (let_pair (WriteVarIntS w (blen bs)) (fun w1 => (w1, true))
    (fun w1 => let '(w2, e2) := writeS w1 bs in if e2 then (w2, true) else (w2, false))).
  apply (writes_seq (varint (blen bs)) bs w (WriteVarIntS w (blen bs))
    (fun w1 => let '(w2, e2) := writeS w1 bs in if e2 then (w2, true) else (w2, false))).
  - apply writes_varint. split; [apply blen_nonneg|exact H].
  - intros w1. pose proof (writes_one w1 bs) as K. destruct (writeS w1 bs) as [w2 [|]]; exact K.
Qed.
Lemma writes_point w x y : small x -> small y -> exists r,
  WriteECPointS w (EP (Some x) (Some y)) = Ok r /\ writes (encPoint x y) w r.
Proof.
  intros Sx Sy. apply small_blen_alloc in Sx, Sy. pose proof maxAlloc_64 as M.
  exists (if snd (WriteVarBytesS w (bigBytes x)) then (fst (WriteVarBytesS w (bigBytes x)), true)
          else WriteVarBytesS (fst (WriteVarBytesS w (bigBytes x))) (bigBytes y)).
  split.
  - unfold WriteECPointS. cbn [need pX pY bind]. destruct (WriteVarBytesS w (bigBytes x)) as [w1 [|]]; reflexivity.
  - apply (writes_seq (varbytes (bigBytes x)) (varbytes (bigBytes y)) w (WriteVarBytesS w (bigBytes x))
      (fun w1 => WriteVarBytesS w1 (bigBytes y))).
    + apply writes_varbytes. lia.
    + intros. apply writes_varbytes. lia.
Qed.
Lemma writes_int w z : small z -> exists r, WriteBigIntS w (Some z) = Ok r /\ writes (encInt z) w r.
Proof.
  intros S. eexists. split; [reflexivity|]. apply writes_varbytes.
  apply small_blen in S. unfold blen in *. cbn [length]. lia.
Qed.

(** *** a cut stream *)
Lemma cut_varint v : 253 <= v < 2 ^ 64 -> exists b rest, varint v = b :: rest /\ rest <> [] /\ ReadVarInt [b] = RErr EEOF [].
Proof.
  intros H. unfold varint. replace (v <? 253) with false by (symmetry; apply Z.ltb_ge; lia).
  destruct (v <? 2 ^ 16); [|destruct (v <? 2 ^ 32)]; eexists; eexists; (split; [reflexivity|split; [discriminate|reflexivity]]).
Qed.
Lemma cut_point x y : small x -> ReadECPoint (varbytes (bigBytes x)) = RErr EEOF [] /\
  encPoint x y = varbytes (bigBytes x) ++ varbytes (bigBytes y) /\ varbytes (bigBytes y) <> [].
Proof.
  intros S. apply small_blen_alloc in S. split; [|split; [reflexivity|]].
  - unfold ReadECPoint. rewrite <- (app_nil_r (varbytes (bigBytes x))). rewrite ReadVarBytes_varbytes by lia. reflexivity.
  - unfold varbytes, varint. destruct (_ <? _); [discriminate|]. destruct (_ <? _); [discriminate|]. destruct (_ <? _); discriminate.
Qed.

Lemma same_see {A} e (m : rd A) q1 q2 : same e m q1 -> same e m q2 -> see q1 = see q2.
Proof.
  destruct m as [a rest|x rest|]; cbn [same].
  - intros [r1 [-> [D1 _]]] [r2 [-> [D2 _]]]. cbn [see]. congruence.
  - intros [r1 [-> [D1 _]]] [r2 [-> [D2 _]]]. cbn [see]. congruence.
  - intros -> ->. reflexivity.
Qed.
