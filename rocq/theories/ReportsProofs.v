(** * Proofs about the texts of Decrypt, RecoverCompact and ReadVarInt (proof only) *)
From Coq Require Import String ZArith List Bool Lia.
From Verif Require Import Spec Order CurveZ Go Wire Big CodecProofs SpecZk SpecBtc SpecTotal ZkBase Koblitz FieldProofs KobMul
  PubKey PubKeyProofs Signature DerProofs EcdsaProofs Ciphering SpecCipher CipherProofs Text Errors SpecErrors ErrorsProofs ErrorsProofs3 Reports SpecReports.
Import ListNotations.
Open Scope Z_scope.

Lemma part_mid (a b r : list Z) i n : length a = i -> length b = n -> part i n (a ++ b ++ r) = b.
Proof. intros La Lb. unfold part. rewrite skipn_blk by exact La. apply firstn_blk. exact Lb. Qed.
Lemma part_slice i n s : part i n s = slice s (Z.of_nat i) (Z.of_nat (i + n)).
Proof. unfold part, slice. rewrite Nat2Z.id. f_equal. lia. Qed.

(** ** Decrypt *)
Lemma last_app_ne (a b : list Z) : b <> [] -> last (a ++ b) 0 = last b 0.
Proof. intros Ne. induction a as [|x a IH]; [reflexivity|]. cbn [app]. destruct (a ++ b) eqn:E; [destruct a; [contradiction|discriminate]|]. rewrite <- IH. reflexivity. Qed.
Lemma xor_last : forall (a b : list Z), length a = length b -> last (xorBytes a b) 0 = Z.lxor (last a 0) (last b 0).
Proof.
  induction a as [|x a IH]; intros [|y b] L; try discriminate L; [reflexivity|]. cbn [xorBytes]. injection L as L. specialize (IH b L).
  destruct a as [|x' a], b as [|y' b]; try discriminate L; [reflexivity|]. cbn [xorBytes last] in *. exact IH.
Qed.
Lemma xorBytes_len : forall (a b : list Z), length a = length b -> length (xorBytes a b) = length a.
Proof. induction a as [|x a IH]; intros [|y b] L; try discriminate L; [reflexivity|]. cbn [xorBytes length]. rewrite IH by (injection L as L; exact L). reflexivity. Qed.
Lemma cbcDec_last F : (forall b, length b = 16%nat -> bytes_ok b -> length (F b) = 16%nat) -> forall n prev src, length prev = 16%nat -> length src = (16 * S n)%nat -> bytes_ok src ->
  cbcDec F (S n) prev src <> [] /\
  last (cbcDec F (S n) prev src) 0 = Z.lxor (last (F (skipn (16 * n) src)) 0) (last (if (n =? 0)%nat then prev else part (16 * (n - 1)) 16 src) 0).
Proof.
  intros HF. induction n as [|n IH]; intros prev src Lp Ls B.
  - cbn [cbcDec]. change aesBlock with 16%nat. rewrite app_nil_r, (firstn_all2 src) by (rewrite Ls; apply le_n). change (skipn (16 * 0) src) with src.
    assert (L : length (F src) = length prev) by (rewrite HF by assumption; symmetry; exact Lp). split; [|apply xor_last, L].
    intros E. apply (f_equal (@length Z)) in E. rewrite xorBytes_len, HF in E by assumption. discriminate E.
  - assert (L1 : length (firstn 16 src) = 16%nat) by (rewrite firstn_length; lia). assert (L2 : length (skipn 16 src) = (16 * S n)%nat) by (rewrite skipn_length; lia).
    destruct (IH (firstn 16 src) (skipn 16 src) L1 L2 (bytes_skipn _ _ B)) as [Ne E]. remember (S n) as m. cbn [cbcDec]. change aesBlock with 16%nat.
    split; [intros K; apply app_eq_nil in K; destruct K; contradiction|]. rewrite last_app_ne by exact Ne. rewrite E. unfold part. rewrite !skipn_add. subst m. cbn [Nat.eqb].
    replace (16 + 16 * n)%nat with (16 * S n)%nat by lia. f_equal. f_equal. destruct n as [|n]; [reflexivity|]. cbn [Nat.eqb]. f_equal. f_equal. lia.
Qed.

Lemma ff_app_err l1 l2 m : firstFailing l1 (Some m) -> firstFailing (l1 ++ l2) (Some m).
Proof. remember (Some m) as r. intros H. induction H; [discriminate|injection Heqr as ->; apply FailsHere; assumption|]. cbn [app]. apply HoldsHere; auto. Qed.
Lemma ff_app_ok l1 l2 r : firstFailing l1 None -> firstFailing l2 r -> firstFailing (l1 ++ l2) r.
Proof. remember None as o. intros H. induction H; [auto|discriminate|]. intros K. cbn [app]. apply HoldsHere; auto. Qed.
(** the three checks of ParsePubKey that can fail on 65 bytes that begin with 4 *)
Lemma pub4 X Y r : length X = 32%nat -> length Y = 32%nat -> firstFailing (pubKeyChecks (4 :: X ++ Y)) r ->
  firstFailing [(beval X < P, says' "pubkey X parameter is >= to P"); (beval Y < P, says' "pubkey Y parameter is >= to P");
                (on_curve (beval X, beval Y), says' "pubkey isn't on secp256k1 curve")] r.
Proof.
  intros LX LY. unfold pubKeyChecks. cbv zeta. change (nth 0 (4 :: X ++ Y) 0) with 4. change (skipn 1 (4 :: X ++ Y)) with (X ++ Y). change (skipn 33 (4 :: X ++ Y)) with (skipn 32 (X ++ Y)).
  rewrite firstn_blk, skipn_blk by assumption. assert (E : Z.of_nat (length (4 :: X ++ Y)) = 65) by (cbn [length]; rewrite app_length; lia). rewrite E. change (65 =? 65) with true. cbv iota.
  intros H. inversion H as [|? ? ? ? F|? ? ? ? _ H1]; subst; [exfalso; apply F; discriminate|].
  inversion H1 as [|? ? ? ? F|? ? ? ? _ H2]; subst; [exfalso; apply F; right; reflexivity|].
  inversion H2 as [|? ? ? ? F|? ? ? ? _ H3]; subst; [exfalso; apply F; split; discriminate|].
  inversion H3 as [|? ? ? ? F|? ? ? ? _ H4]; subst; [exfalso; apply F; split; intros K; discriminate K|]. exact H4.
Qed.
Lemma pub4_text X Y e : length X = 32%nat -> length Y = 32%nat -> forall text, firstFailing (pubKeyChecks (4 :: X ++ Y)) (Some (pubKeyText (4 :: X ++ Y) e)) ->
  (forall e, In e [EInvalidMAC; EInputTooShort; EUnsupportedCurve; EInvalidXLength; EInvalidYLength; EInvalidPadding] \/ text e = pubKeyText (4 :: X ++ Y) e) ->
  text e = pubKeyText (4 :: X ++ Y) e.
Proof.
  intros LX LY text H T. destruct (T e) as [I|E]; [exfalso|exact E]. apply (pub4 X Y _ LX LY) in H.
  assert (Z0 : pubKeyText (4 :: X ++ Y) e = []) by (destruct I as [<-|[<-|[<-|[<-|[<-|[<-|[]]]]]]]; reflexivity). rewrite Z0 in H.
  inversion H as [|? ? ? ? _ S|? ? ? ? _ H1]; subst; [discriminate S|]. inversion H1 as [|? ? ? ? _ S|? ? ? ? _ H2]; subst; [discriminate S|].
  inversion H2 as [|? ? ? ? _ S|? ? ? ? _ H3]; subst; [discriminate S|]. inversion H3.
Qed.

Section Dec.
Variables (sha256 sha512 : list Z -> list Z) (E D : list Z -> list Z -> list Z) (c : curve).
Hypotheses (H512 : hash_to 64 sha512) (C : curve_ok c).
(** the parts of a long enough input, as the specification and as the code cut it *)
Record cutAs (inp iv cc xl X yl Y ct mac : list Z) : Prop := {
  cu_e : inp = iv ++ cc ++ xl ++ X ++ yl ++ Y ++ ct ++ mac;
  cu_l : length inp = (118 + length ct)%nat;
  cu_iv : firstn 16 inp = iv; cu_cc : part 16 2 inp = cc; cu_xl : part 18 2 inp = xl; cu_X : part 20 32 inp = X;
  cu_yl : part 52 2 inp = yl; cu_Y : part 54 32 inp = Y;
  cu_body : firstn (length inp - 32) inp = iv ++ cc ++ xl ++ X ++ yl ++ Y ++ ct; cu_mac : skipn (length inp - 32) inp = mac;
  cu_ct : forall i n, (i + n <= length ct)%nat -> part (86 + i) n inp = part i n ct }.
Lemma cut_as inp iv cc xl X yl Y ct mac : inp = iv ++ cc ++ xl ++ X ++ yl ++ Y ++ ct ++ mac ->
  length iv = 16%nat -> length cc = 2%nat -> length xl = 2%nat -> length X = 32%nat -> length yl = 2%nat -> length Y = 32%nat -> length mac = 32%nat ->
  cutAs inp iv cc xl X yl Y ct mac.
Proof.
  intros E0 L1 L2 L3 L4 L5 L6 L8.
  assert (L : length inp = (118 + length ct)%nat) by (rewrite E0, !app_length; lia).
  assert (Ei : inp = (iv ++ cc ++ xl ++ X ++ yl ++ Y ++ ct) ++ mac) by (rewrite E0, <- !app_assoc; reflexivity).
  assert (Lb : length (iv ++ cc ++ xl ++ X ++ yl ++ Y ++ ct) = (length inp - 32)%nat) by (rewrite L, !app_length; lia).
  constructor; [exact E0|exact L|..].
  - rewrite E0. apply firstn_blk, L1.
  - rewrite E0. apply part_mid; assumption.
  - rewrite E0, (app_assoc iv). apply part_mid; rewrite ?app_length; lia.
  - rewrite E0, (app_assoc iv), (app_assoc (iv ++ cc)). apply part_mid; rewrite ?app_length; lia.
  - rewrite E0, (app_assoc iv), (app_assoc (iv ++ cc)), (app_assoc ((iv ++ cc) ++ xl)). apply part_mid; rewrite ?app_length; lia.
  - rewrite E0, (app_assoc iv), (app_assoc (iv ++ cc)), (app_assoc ((iv ++ cc) ++ xl)), (app_assoc (((iv ++ cc) ++ xl) ++ X)). apply part_mid; rewrite ?app_length; lia.
  - rewrite <- Lb. rewrite Ei at 1. apply firstn_blk. reflexivity.
  - rewrite <- Lb. rewrite Ei at 1. apply skipn_blk. reflexivity.
  - intros i n Hi. unfold part. rewrite <- skipn_add. rewrite E0.
    replace (skipn 86 (iv ++ cc ++ xl ++ X ++ yl ++ Y ++ ct ++ mac)) with (ct ++ mac).
    2:{ symmetry. rewrite (app_assoc iv), (app_assoc (iv ++ cc)), (app_assoc ((iv ++ cc) ++ xl)), (app_assoc (((iv ++ cc) ++ xl) ++ X)), (app_assoc ((((iv ++ cc) ++ xl) ++ X) ++ yl)).
        apply skipn_blk. rewrite !app_length. lia. }
    rewrite skipn_app, firstn_app, skipn_length. replace (n - (length ct - i))%nat with 0%nat by lia. apply app_nil_r.
Qed.

Lemma mod16_z (inp ct : list Z) : length inp = (118 + length ct)%nat -> (16 <= length ct)%nat -> ((Z.of_nat (length inp) - 134) mod 16 = 0 <-> (length ct mod 16 = 0)%nat).
Proof.
  intros -> L. replace (Z.of_nat (118 + length ct) - 134) with (Z.of_nat (length ct) + -1 * 16) by lia. rewrite Z_mod_plus_full.
  change 16 with (Z.of_nat 16). rewrite <- Nat2Z.inj_mod. lia.
Qed.
Lemma parse4 X Y Q : length X = 32%nat -> length Y = 32%nat -> bytes_ok X -> bytes_ok Y -> ParsePubKey c (4 :: X ++ Y) = Ok (Val Q) -> on_curve Q /\ Q = (beval X, beval Y).
Proof.
  intros LX LY BX BY EP. assert (BP : bytes_ok (4 :: X ++ Y)) by (constructor; [split; [discriminate|reflexivity]|apply Forall_app; auto]).
  destruct (parse_sound c C _ _ BP EP) as [HQ Fm]. split; [exact HQ|].
  assert (XY : X ++ Y = be_bytes 32 (fst Q) ++ be_bytes 32 (snd Q)).
  { destruct Fm as [H|[H|[H|H]]]; try (injection H as H; exact H).
    - discriminate H.
    - exfalso. destruct (Z.odd (snd Q)); discriminate H.
    - exfalso. destruct (Z.odd (snd Q)); discriminate H. }
  apply (f_equal (firstn 32)) in XY as X1. apply (f_equal (skipn 32)) in XY as X2.
  rewrite !firstn_blk in X1 by (assumption || apply be_bytes_len). rewrite !skipn_blk in X2 by (assumption || apply be_bytes_len).
  destruct (coord_range_256 Q (or_intror HQ)) as [R1 R2]. rewrite X1, X2, !beval_be32 by assumption. destruct Q; reflexivity.
Qed.

Lemma decrypt_text priv inp : block_cipher E D -> 0 <= kD priv -> bytes_ok inp ->
  parses (decryptText inp) (Decrypt sha256 sha512 D c priv inp) (decryptChecks sha256 sha512 D (kD priv) inp).
Proof.
  intros BC HD B. unfold decryptChecks. cbv zeta. destruct (Z_lt_ge_dec (blen inp) 134) as [Sh|Ge].
  { rewrite Decrypt_short by exact Sh. apply ps_err. unfold blen in Sh. fl lia. }
  unfold blen in Ge.
  destruct (inp_cut inp) as (iv & cc & xl & X & yl & Y & ct & mac & E0 & L1 & L2 & L3 & L4 & L5 & L6 & L7 & L8); [lia|].
  pose proof (cut_as inp iv cc xl X yl Y ct mac E0 L1 L2 L3 L4 L5 L6 L8) as K.
  assert (BS : bytes_ok iv /\ bytes_ok X /\ bytes_ok Y /\ bytes_ok ct).
  { rewrite E0 in B. apply Forall_app in B. destruct B as [B1 B]. apply Forall_app in B. destruct B as [B2 B].
    apply Forall_app in B. destruct B as [B3 B]. apply Forall_app in B. destruct B as [B4 B]. apply Forall_app in B. destruct B as [B5 B].
    apply Forall_app in B. destruct B as [B6 B]. apply Forall_app in B. destruct B as [B7 B8]. auto. }
  destruct BS as (B1 & B4 & B6 & B7).
  assert (DE : Decrypt sha256 sha512 D c priv inp = Decrypt sha256 sha512 D c priv (iv ++ cc ++ xl ++ X ++ yl ++ Y ++ ct ++ mac)) by (rewrite <- E0; reflexivity).
  rewrite DE. clear DE. rewrite Decrypt_parts by assumption.
  assert (N1 : 134 <= Z.of_nat (length inp)) by lia.
  rewrite (cu_cc _ _ _ _ _ _ _ _ _ K), (cu_xl _ _ _ _ _ _ _ _ _ K), (cu_yl _ _ _ _ _ _ _ _ _ K).
  destruct (bytesEqual cc ciphCurveBytes) eqn:Ecc; cbn [negb].
  2:{ apply ps_err. nx (exact N1). fl (intros H; rewrite H in Ecc; discriminate Ecc). }
  apply bytesEqual_eq in Ecc. 
  destruct (bytesEqual xl ciphCoordLength) eqn:Exl; cbn [negb].
  2:{ apply ps_err. nx (exact N1). nx (exact Ecc). fl (intros H; rewrite H in Exl; discriminate Exl). }
  apply bytesEqual_eq in Exl.
  destruct (bytesEqual yl ciphCoordLength) eqn:Eyl; cbn [negb].
  2:{ apply ps_err. nx (exact N1). nx (exact Ecc). nx (exact Exl). fl (intros H; rewrite H in Eyl; discriminate Eyl). }
  apply bytesEqual_eq in Eyl.
  assert (SP : senderPoint inp = (beval X, beval Y)) by (unfold senderPoint; rewrite (cu_X _ _ _ _ _ _ _ _ _ K), (cu_Y _ _ _ _ _ _ _ _ _ K); reflexivity).
  assert (BP : bytes_ok (4 :: X ++ Y)) by (constructor; [split; [discriminate|reflexivity]|apply Forall_app; auto]).
  destruct (pubkey_text c _ C BP) as (a & EP & FF). rewrite EP. cbn [bind].
  assert (Front : forall o l, firstFailing ([(fst (senderPoint inp) < P, says' "pubkey X parameter is >= to P"); (snd (senderPoint inp) < P, says' "pubkey Y parameter is >= to P");
      (on_curve (senderPoint inp), says' "pubkey isn't on secp256k1 curve")] ++ l) o ->
    firstFailing ([(134 <= Z.of_nat (length inp), says' "ciphertext too short"); (cc = [0x02; 0xCA], says' "unsupported curve"); (xl = [0; 32], says' "invalid X length, must be 32");
      (yl = [0; 32], says' "invalid Y length, must be 32"); (fst (senderPoint inp) < P, says' "pubkey X parameter is >= to P"); (snd (senderPoint inp) < P, says' "pubkey Y parameter is >= to P");
      (on_curve (senderPoint inp), says' "pubkey isn't on secp256k1 curve")] ++ l) o).
  { intros o l H. cbn [app]. nx (exact N1). nx (exact Ecc). nx (exact Exl). nx (exact Eyl). exact H. }
  match goal with |- parses _ _ (?a1 :: ?a2 :: ?a3 :: ?a4 :: ?a5 :: ?a6 :: ?a7 :: ?l) => change (a1 :: a2 :: a3 :: a4 :: a5 :: a6 :: a7 :: l) with ([a1; a2; a3; a4; a5; a6; a7] ++ l) end.
  destruct a as [Q|e].
  2:{ apply ps_err. apply Front. apply ff_app_err. rewrite SP. cbn [fst snd].
      assert (TE : decryptText inp e = pubKeyText (4 :: X ++ Y) e).
      { apply pub4_text; [assumption..|exact FF|]. intros e'.
        assert (ES : 4 :: copyTo 32 (slice inp 20 52) ++ copyTo 32 (slice inp 54 86) = 4 :: X ++ Y).
        { change (slice inp 20 52) with (slice inp (Z.of_nat 20) (Z.of_nat (20 + 32))). change (slice inp 54 86) with (slice inp (Z.of_nat 54) (Z.of_nat (54 + 32))). rewrite <- !part_slice.
          rewrite (cu_X _ _ _ _ _ _ _ _ _ K), (cu_Y _ _ _ _ _ _ _ _ _ K), !copyTo_id by assumption. reflexivity. }
        unfold decryptText. rewrite ES. destruct e'; (right; reflexivity) || (left; cbn [In]; tauto). }
      rewrite TE. apply pub4; assumption. }
  destruct (parse4 X Y Q L4 L6 B4 B6 EP) as [HQ EQ]. apply (pub4 X Y _ L4 L6) in FF.
  assert (Go : forall o l, firstFailing l o -> firstFailing ([(134 <= Z.of_nat (length inp), says' "ciphertext too short"); (cc = [0x02; 0xCA], says' "unsupported curve"); (xl = [0; 32], says' "invalid X length, must be 32");
      (yl = [0; 32], says' "invalid Y length, must be 32"); (fst (senderPoint inp) < P, says' "pubkey X parameter is >= to P"); (snd (senderPoint inp) < P, says' "pubkey Y parameter is >= to P");
      (on_curve (senderPoint inp), says' "pubkey isn't on secp256k1 curve")] ++ l) o).
  { intros o l H. apply Front. apply ff_app_ok; [|exact H]. rewrite SP. exact FF. }
  unfold finish. rewrite (secret_ok c C) by (right; exact HQ). rewrite Z.abs_eq by exact HD. cbn [bind].
  pose proof (mod16_z inp ct (cu_l _ _ _ _ _ _ _ _ _ K) L7) as M16.
  destruct (Nat.eqb_spec (length ct mod 16) 0) as [M|M]; cbn [negb].
  2:{ apply ps_err. apply Go. fl (intros H; apply M, M16, H). }
  assert (SK : sharedKeys sha512 (kD priv) inp = sha512 (bigBytes (fst (smul (kD priv) Q)))) by (unfold sharedKeys; rewrite SP, <- EQ; reflexivity).
  assert (MR : macRight sha256 sha512 (kD priv) inp <-> mac = hmac sha256 (skipn 32 (sha512 (bigBytes (fst (smul (kD priv) Q))))) (iv ++ cc ++ xl ++ X ++ yl ++ Y ++ ct)).
  { unfold macRight. cbv zeta. rewrite SK, (cu_mac _ _ _ _ _ _ _ _ _ K), (cu_body _ _ _ _ _ _ _ _ _ K). reflexivity. }
  destruct (bytesEqual mac _) eqn:Em; cbn [negb].
  2:{ apply ps_err. apply Go. nx (apply M16, M). fl (intros H; apply MR in H; apply bytesEqual_eq in H; congruence). }
  apply bytesEqual_eq in Em.
  set (key := firstn 32 (sha512 (bigBytes (fst (smul (kD priv) Q))))) in *.
  assert (Lk : length key = 32%nat) by (unfold key; rewrite firstn_length, (proj1 (H512 _)); reflexivity).
  pose proof M as M'. apply mod16 in M'. set (n := (length ct / 16)%nat) in *. destruct n as [|n]; [lia|].
  destruct (cbcDec_inv E D key BC Lk iv (split16 (S n) ct) (conj L1 B1) (split16_blocks (S n) ct M' B7)) as (bs & Fb & Lb & Eb & _).
  assert (LS : length (split16 (S n) ct) = S n).
  { pose proof (concat_len _ (split16_blocks (S n) ct M' B7)) as Q0. rewrite (split16_concat (S n) ct M') in Q0. lia. }
  rewrite LS, (split16_concat (S n) ct M') in Eb.
  assert (CB : CryptBlocks (cbcDec (D key)) iv ct = Ok (concat bs)).
  { rewrite <- Eb. rewrite <- (split16_concat (S n) ct M') at 1. rewrite (crypt_blocks _ _ _ (conj L1 B1) (split16_blocks (S n) ct M' B7)), LS, (split16_concat (S n) ct M'). reflexivity. }
  rewrite CB. cbn [bind].
  assert (LL : lastByte sha512 D (kD priv) inp = last (concat bs) 0).
  { destruct (cbcDec_last (D key)) with (n := n) (prev := iv) (src := ct) as [_ LE]; [intros b0 Lb0 Bb0; apply (BC key b0 Lk (conj Lb0 Bb0))|exact L1|exact M'|exact B7|].
    rewrite <- Eb, LE. unfold lastByte. cbv zeta. rewrite SK. fold key. pose proof (cu_l _ _ _ _ _ _ _ _ _ K) as LI.
    assert (P1 : part (length inp - 48) 16 inp = skipn (16 * n) ct).
    { replace (length inp - 48)%nat with (86 + 16 * n)%nat by lia. rewrite (cu_ct _ _ _ _ _ _ _ _ _ K) by lia. unfold part. apply firstn_all2. rewrite skipn_length. lia. }
    rewrite P1. f_equal. f_equal. destruct n as [|n'].
    - replace (length inp =? 134)%nat with true by (symmetry; apply Nat.eqb_eq; lia). cbn [Nat.eqb]. apply (cu_iv _ _ _ _ _ _ _ _ _ K).
    - replace (length inp =? 134)%nat with false by (symmetry; apply Nat.eqb_neq; lia). cbn [Nat.eqb]. replace (length inp - 64)%nat with (86 + 16 * (S n' - 1))%nat by lia. apply (cu_ct _ _ _ _ _ _ _ _ _ K). lia. }
  assert (G16 : (16 <= length (concat bs))%nat) by (rewrite (concat_len _ Fb), Lb, LS; lia).
  destruct (remove_inv _ (concat_bytes _ Fb) G16) as [(m & q & Er & _ & _ & Le)|[Er Gt]]; rewrite Er.
  - apply ps_ok. apply Go. nx (apply M16, M). nx (apply MR, Em). nx (rewrite LL; exact Le). constructor.
  - apply ps_err. apply Go. nx (apply M16, M). nx (apply MR, Em). fl (rewrite LL; lia).
Qed.

(** nothing is decrypted before the MAC is right *)
Lemma no_oracle D' priv priv' inp : 0 <= kD priv -> 0 <= kD priv' -> bytes_ok inp ->
  ~ macRight sha256 sha512 (kD priv) inp -> ~ macRight sha256 sha512 (kD priv') inp ->
  Decrypt sha256 sha512 D c priv inp = Decrypt sha256 sha512 D' c priv' inp.
Proof.
  intros HD HD' B NM NM'. destruct (Z_lt_ge_dec (blen inp) 134) as [Sh|Ge].
  { rewrite !Decrypt_short by exact Sh. reflexivity. }
  unfold blen in Ge.
  destruct (inp_cut inp) as (iv & cc & xl & X & yl & Y & ct & mac & E0 & L1 & L2 & L3 & L4 & L5 & L6 & L7 & L8); [lia|].
  pose proof (cut_as inp iv cc xl X yl Y ct mac E0 L1 L2 L3 L4 L5 L6 L8) as K.
  assert (BS : bytes_ok X /\ bytes_ok Y).
  { rewrite E0 in B. apply Forall_app in B. destruct B as [B1 B]. apply Forall_app in B. destruct B as [B2 B].
    apply Forall_app in B. destruct B as [B3 B]. apply Forall_app in B. destruct B as [B4 B]. apply Forall_app in B. destruct B as [B5 B].
    apply Forall_app in B. destruct B as [B6 B]. auto. }
  destruct BS as (B4 & B6).
  assert (DE : forall D priv, Decrypt sha256 sha512 D c priv inp = Decrypt sha256 sha512 D c priv (iv ++ cc ++ xl ++ X ++ yl ++ Y ++ ct ++ mac)) by (intros; rewrite <- E0; reflexivity).
  rewrite !DE. clear DE. rewrite !Decrypt_parts by assumption.
  destruct (negb _); [reflexivity|]. destruct (negb _); [reflexivity|]. destruct (negb _); [reflexivity|].
  destruct (ParsePubKey c (4 :: X ++ Y)) as [[Q|e]|] eqn:EP; [|reflexivity|reflexivity]. cbn [bind].
  destruct (parse4 X Y Q L4 L6 B4 B6 EP) as [HQ EQ]. unfold finish. destruct (negb (_ =? _)%nat); [reflexivity|].
  rewrite !(secret_ok c C) by (right; exact HQ). rewrite !Z.abs_eq by assumption. cbn [bind].
  assert (SP : senderPoint inp = Q) by (unfold senderPoint; rewrite (cu_X _ _ _ _ _ _ _ _ _ K), (cu_Y _ _ _ _ _ _ _ _ _ K); symmetry; exact EQ).
  assert (MR : forall d, ~ macRight sha256 sha512 d inp -> bytesEqual mac (hmac sha256 (skipn 32 (sha512 (bigBytes (fst (smul d Q))))) (iv ++ cc ++ xl ++ X ++ yl ++ Y ++ ct)) = false).
  { intros d H. apply not_true_iff_false. intros H'. apply bytesEqual_eq in H'. apply H. unfold macRight, sharedKeys. cbv zeta.
    rewrite SP, (cu_mac _ _ _ _ _ _ _ _ _ K), (cu_body _ _ _ _ _ _ _ _ _ K). exact H'. }
  rewrite !MR by assumption. reflexivity.
Qed.
End Dec.

(** ** RecoverCompact *)
Lemma compact_text c bs h : curve_ok c -> curve_total c -> bytes_ok bs -> RecoverCompact c bs h <> Panic -> parses compactText (RecoverCompact c bs h) (compactChecks bs).
Proof.
  intros C T B NP. unfold compactChecks. cbv zeta. unfold RecoverCompact in *. change ((curveBitSize + 7) / 8) with 32 in *. change (1 + 32 * 2) with 65 in *. change (32 + 1) with 33 in *.
  destruct (Z.eqb_spec (blen bs) 65) as [L|L]; cbn [negb] in *; [|apply ps_err; unfold blen in L; fl lia].
  assert (L65 : length bs = 65%nat) by (unfold blen in L; lia).
  change (slice bs 1 33) with (part 1 32 bs) in *. cbv zeta in *. set (i := Z.land _ 251) in *.
  unfold recoverKeyFromSignature in *. rewrite (ok_N c C), (ok_P c C) in *. cbn [sR sS] in *.
  destruct (Z.leb_spec P (N * (i / 2) + beval (part 1 32 bs))) as [G|G]; [cbn [bind]; apply ps_err; nx (exact L65); fl lia|].
  destruct (decompress_val (N * (i / 2) + beval (part 1 32 bs)) (i mod 2 =? 1)) as (y & Ey & _). rewrite Ey in *. cbn [bind] in *.
  destruct (modInverse _ _); [|exfalso; apply NP; reflexivity]. cbn [need bind] in *.
  destruct (cScalarMult c _ _ _); [|exfalso; apply NP; reflexivity]. cbn [bind] in *. destruct (cScalarBaseMult c _); [|exfalso; apply NP; reflexivity]. cbn [bind] in *.
  destruct (cAdd c _ _ _ _); [|exfalso; apply NP; reflexivity]. cbn [bind] in *. apply ps_ok. nx (exact L65). nx (exact G). constructor.
Qed.

(** ** ReadVarInt *)
Lemma read_ge n s : (n <= length s)%nat -> readFull (Z.of_nat n) s = ROk (firstn n s) (skipn n s).
Proof. intros L. unfold readFull, blen. rewrite (proj2 (Z.leb_le _ _)) by lia. rewrite Nat2Z.id. reflexivity. Qed.
Lemma read_lt n s : (length s < n)%nat -> readFull (Z.of_nat n) s = match s with [] => RErr EEOF [] | _ => RErr EUnexpectedEOF [] end.
Proof. intros L. unfold readFull, blen. rewrite (proj2 (Z.leb_gt _ _)) by lia. reflexivity. Qed.
Lemma three w a b d : saysThree w a b d (ascii w ++ decimal a ++ ascii " " ++ decimal b ++ ascii " " ++ decimal d).
Proof. exists (decimal a), (decimal b), (decimal d). do 3 (split; [apply decimal_ok|]). reflexivity. Qed.
Lemma wide n min d r : varIntShape d = (n, min) -> n <> 0%nat -> (let s := d :: r in varIntText s ENonCanonical = ascii "ReadVarInt: errNonCanonicalVarInt: " ++ decimal (leval (firstn n r)) ++ ascii " " ++ decimal d ++ ascii " " ++ decimal min) ->
  readsOr (varIntText (d :: r)) (rbind (rbind (readFull (Z.of_nat n) r) (fun b s' => ROk (leval b) s')) (fun rv s2 => if rv <? min then RErr ENonCanonical s2 else ROk rv s2)) (varIntChecks (d :: r)).
Proof.
  intros Sh Nz TX. unfold varIntChecks. cbv zeta. cbn [nth]. rewrite Sh. change (skipn 1 (d :: r)) with r. unfold part. change (skipn 1 (d :: r)) with r.
  assert (NE : d :: r <> []) by discriminate. destruct (le_lt_dec n (length r)) as [L|L].
  - rewrite read_ge by exact L. cbn [rbind]. assert (NR : r <> []) by (intros ->; cbn [length] in L; lia).
    assert (L' : (1 + n <= length (d :: r))%nat) by (cbn [length]; lia).
    destruct (Z.ltb_spec (leval (firstn n r)) min) as [Lt|Ge]; unfold readsOr; cbv iota.
    + nx (exact NE). nx (intros _; exact NR). nx (exact L'). apply FailsHere; [intros H; specialize (H Nz); lia|]. rewrite TX. apply three.
    + nx (exact NE). nx (intros _; exact NR). nx (exact L'). nx (intros _; exact Ge). constructor.
  - rewrite read_lt by exact L. destruct r as [|x r]; cbn [rbind]; unfold readsOr; cbv iota.
    + nx (exact NE). fl (intros H; exact (H Nz eq_refl)).
    + nx (exact NE). nx (intros _; discriminate). fl (cbn [length] in *; lia).
Qed.
Lemma varint_text s : readsOr (varIntText s) (ReadVarInt s) (varIntChecks s).
Proof.
  destruct s as [|d r]; [unfold ReadVarInt, Uint8; change 1 with (Z.of_nat 1); rewrite read_lt by (cbn; lia); cbn [rbind]; unfold varIntChecks; cbn [nth]; change (varIntShape 0) with (0%nat, 0); unfold readsOr; cbv iota zeta; fl (intros H; exact (H eq_refl))|].
  unfold ReadVarInt, Uint8. change 1 with (Z.of_nat 1). rewrite read_ge by (cbn [length]; lia). cbn [rbind firstn skipn nth].
  destruct (Z.eqb_spec d 0xff) as [->|N1]; [apply (wide 8 0x100000000); [reflexivity|discriminate|reflexivity]|].
  destruct (Z.eqb_spec d 0xfe) as [->|N2]; [apply (wide 4 0x10000); [reflexivity|discriminate|reflexivity]|].
  destruct (Z.eqb_spec d 0xfd) as [->|N3]; [apply (wide 2 0xfd); [reflexivity|discriminate|reflexivity]|].
  unfold varIntChecks. cbn [nth]. unfold varIntShape. rewrite (proj2 (Z.eqb_neq d 0xff) N1), (proj2 (Z.eqb_neq d 0xfe) N2), (proj2 (Z.eqb_neq d 0xfd) N3). unfold readsOr. cbv iota zeta.
  nx discriminate. nx (intros H; contradiction H; reflexivity). nx (cbn [length]; lia). nx (intros H; contradiction H; reflexivity). constructor.
Qed.
