(** * Properties of btcec public and private keys (C54) *)
From Coq Require Import ZArith List Bool.
From Verif Require Import Spec Go Wire Big Order GMult SpecZk ZkBase SpecBtc SpecCurve Koblitz KobTab CodecProofs PubKey PubKeyProofs.
Import ListNotations.
Open Scope Z_scope.

(** C54: the three serialisations are the SEC 1 encodings. *)
Theorem C54_format p : on_curve p ->
  SerializeUncompressed p = sec_uncompressed p /\ SerializeCompressed p = sec_compressed p /\
  SerializeHybrid p = sec_hybrid p.
Proof. intros H. exact (conj (serU p (or_intror H)) (conj (serC p (or_intror H)) (serH p (or_intror H)))). Qed.
Print Assumptions C54_format.

(** C54: ParsePubKey gives back every curve point from each of its serialisations. *)
Theorem C54_roundtrip c p : curve_ok c -> on_curve p ->
  ParsePubKey c (SerializeUncompressed p) = Ok (Val p) /\
  ParsePubKey c (SerializeCompressed p) = Ok (Val p) /\
  ParsePubKey c (SerializeHybrid p) = Ok (Val p).
Proof.
  intros C H. destruct (C54_format p H) as (-> & -> & ->).
  exact (conj (parse_U c C p 4 H (or_introl eq_refl)) (conj (parse_C c C p H) (parse_H c C p H))).
Qed.
Print Assumptions C54_roundtrip.

(** C54: an accepted string denotes a curve point with reduced coordinates, and is one
    of its encodings - with one exception, the prefix 5 in place of 4. *)
Theorem C54_sound c s p : curve_ok c -> bytes_ok s -> ParsePubKey c s = Ok (Val p) ->
  on_curve p /\
  (s = sec_uncompressed p \/ s = 5 :: be32 (fst p) ++ be32 (snd p) \/ s = sec_hybrid p \/ s = sec_compressed p).
Proof. intros C. exact (parse_sound c C s p). Qed.
Print Assumptions C54_sound.

(** C54: the exception is real: a string that is no encoding of a point is accepted. *)
Theorem C54_prefix5_refuted c : curve_ok c -> exists s p,
  bytes_ok s /\ ParsePubKey c s = Ok (Val p) /\
  s <> sec_uncompressed p /\ s <> sec_hybrid p /\ s <> sec_compressed p.
Proof.
  intros C. exists (5 :: be32 Gx ++ be32 Gy), G. split.
  - constructor; [split; [discriminate|reflexivity]|]. apply Forall_app; split; apply be_bytes_ok.
  - split; [exact (parse_U c C G 5 G_on_curve (or_intror eq_refl))|].
    repeat split; discriminate.
Qed.
Print Assumptions C54_prefix5_refuted.

(** C54: every byte string gets an answer: a key or an error, never a crash. *)
Theorem C54_total c s : curve_ok c -> bytes_ok s -> exists r, ParsePubKey c s = Ok r.
Proof. intros C. exact (parse_total c C s). Qed.
Print Assumptions C54_total.

(** C54: two keys have the same serialisation only if they are equal, whichever of the
    three formats is used for each. *)
Theorem C54_injective p q sp sq : on_curve p -> on_curve q ->
  In sp [SerializeUncompressed p; SerializeCompressed p; SerializeHybrid p] ->
  In sq [SerializeUncompressed q; SerializeCompressed q; SerializeHybrid q] -> sp = sq -> p = q.
Proof.
  intros Hp Hq Ip Iq E.
  pose proof (S256_ok _ _ (mkTable_ok G is_point_G) (mkTable_ok Htab is_point_Htab)) as C.
  assert (F : forall x, on_curve x -> forall s, In s [SerializeUncompressed x; SerializeCompressed x; SerializeHybrid x] ->
    ParsePubKey (S256 (mkTable G) (mkTable Htab)) s = Ok (Val x)).
  { intros x Hx s I. destruct (C54_roundtrip _ x C Hx) as (A & B & D).
    destruct I as [<-|[<-|[<-|[]]]]; assumption. }
  pose proof (F p Hp sp Ip) as A. pose proof (F q Hq sq Iq) as B. rewrite E, B in A. injection A as ->. reflexivity.
Qed.
Print Assumptions C54_injective.

(** C54: PrivKeyFromBytes gives the public key D*G, and Serialize gives back the 32
    bytes it was made from. *)
Theorem C54_privkey c pk : curve_ok c -> bytes_ok pk -> exists k,
  PrivKeyFromBytes c pk = Ok (k, smul (beval pk) G) /\ kD k = beval pk /\ PubKey k = smul (beval pk) G /\
  (length pk = 32%nat -> PrivKeySerialize k = pk).
Proof.
  intros C B. eexists. split; [exact (privFromBytes c C pk B)|]. cbn [kD kPub PubKey].
  split; [reflexivity|]. split; [reflexivity|]. intros L. unfold PrivKeySerialize. cbn [kD].
  destruct (len32_be pk B L) as [E Rg]. rewrite paddedAppend_32 by exact Rg. symmetry. exact E.
Qed.
Print Assumptions C54_privkey.

(** a case: the generator, parsed from its compressed form by the modelled curve *)
Example C54_case : let c := S256 (mkTable G) (mkTable Htab) in
  curve_ok c /\ on_curve G /\ SerializeCompressed G = 2 :: be32 Gx /\ ParsePubKey c (2 :: be32 Gx) = Ok (Val G).
Proof.
  cbv zeta. pose proof (S256_ok _ _ (mkTable_ok G is_point_G) (mkTable_ok Htab is_point_Htab)) as C.
  split; [exact C|]. split; [exact G_on_curve|].
  assert (E : SerializeCompressed G = 2 :: be32 Gx) by exact (proj1 (proj2 (C54_format G G_on_curve))).
  split; [exact E|]. rewrite <- E. exact (proj1 (proj2 (C54_roundtrip _ G C G_on_curve))).
Qed.
