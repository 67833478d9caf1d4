(** * Properties of reading from and writing to arbitrary readers and writers (C83) *)
From Coq Require Import ZArith List.
From Verif Require Import Go Wire SpecWire Big Crypto SpecCodec Reader SpecReader ReaderProofs.
Import ListNotations.
Open Scope Z_scope.

(** C83: a reader may deliver its bytes in any portions, empty ones included, and may return
    its final error with the last bytes or after them: ReadVarInt, ReadVarBytes, ReadECPoint
    and ReadBigInt return what the bytes alone determine, use as many bytes, and report the
    reader's own error where the bytes were too few. *)
Theorem C83_readers : forall e r limit, endsWith e r ->
  same e (ReadVarInt (delivers r)) (ReadVarIntQ r) /\ same e (ReadVarBytes limit (delivers r)) (ReadVarBytesQ limit r) /\
  same e (ReadECPoint (delivers r)) (ReadECPointQ r) /\ same e (ReadBigInt (delivers r)) (ReadBigIntQ r).
Proof. exact ends_all. Qed.
Print Assumptions C83_readers.

(** C83: in other words, the portions do not matter. *)
Theorem C83_portions : forall e r1 r2 limit, endsWith e r1 -> endsWith e r2 -> delivers r1 = delivers r2 ->
  see (ReadVarIntQ r1) = see (ReadVarIntQ r2) /\ see (ReadVarBytesQ limit r1) = see (ReadVarBytesQ limit r2) /\
  see (ReadECPointQ r1) = see (ReadECPointQ r2) /\ see (ReadBigIntQ r1) = see (ReadBigIntQ r2).
Proof.
  intros e r1 r2 limit E1 E2 D. destruct (ends_all e r1 limit E1) as [A1 [B1 [C1 D1]]].
  destruct (ends_all e r2 limit E2) as [A2 [B2 [C2 D2]]]. rewrite <- D in A2, B2, C2, D2.
  repeat split; eapply same_see; eassumption.
Qed.
Print Assumptions C83_portions.

(** C83: whatever the reader does (errors in the middle, errors that come and go), a value
    returned is the one its bytes denote, a crash is one that its bytes cause, and an error is
    the one of the bytes or one that the reader did return. *)
Theorem C83_any_reader : forall r limit,
  sound r (ReadVarInt (delivers r)) (ReadVarIntQ r) /\ sound r (ReadVarBytes limit (delivers r)) (ReadVarBytesQ limit r) /\
  sound r (ReadECPoint (delivers r)) (ReadECPointQ r) /\ sound r (ReadBigInt (delivers r)) (ReadBigIntQ r).
Proof. exact any_all. Qed.
Print Assumptions C83_any_reader.

(** C83: a call never returns exactly when the reader answers "no byte, no error" for ever
    while bytes are missing. *)
Theorem C83_silent_reader : forall r limit, fallsSilent r ->
  sameSilent (ReadVarInt (delivers r)) (ReadVarIntQ r) /\ sameSilent (ReadVarBytes limit (delivers r)) (ReadVarBytesQ limit r) /\
  sameSilent (ReadECPoint (delivers r)) (ReadECPointQ r) /\ sameSilent (ReadBigInt (delivers r)) (ReadBigIntQ r).
Proof. exact silent_all. Qed.
Print Assumptions C83_silent_reader.

(** the same number and point, in one portion and byte by byte with idle answers and the final
    error beside the last byte *)
Example C83_readers_case :
  let whole := Rdr [Ans [2; 1; 44; 1; 7] None] (Some IEOF) in
  let pieces := Rdr [Ans [] None; Ans [2] None; Ans [1] None; Ans [] None; Ans [44; 1] None; Ans [7] (Some IEOF)] (Some IEOF) in
  let failing := Rdr [Ans [2; 1] None; Ans [44; 1] (Some (IOther 5))] (Some (IOther 5)) in
  let silent := Rdr [Ans [2; 1; 44] None] None in
  endsWith IEOF whole /\ endsWith IEOF pieces /\ endsWith (IOther 5) failing /\ fallsSilent silent /\
  see (ReadECPointQ whole) = SawValue (EP (Some 300) (Some 7)) [] /\
  see (ReadECPointQ pieces) = SawValue (EP (Some 300) (Some 7)) [] /\
  see (ReadECPointQ failing) = SawError (IOther 5) [] /\ see (ReadECPointQ silent) = SawNothing /\
  see (ReadVarIntQ pieces) = SawValue 2 [1; 44; 1; 7].
Proof. cbn. repeat split; repeat constructor. Qed.

(** C83, refuted: io.EOF is not a sign that the stream ended between two items.  A stream that
    is cut after the X coordinate of a point, or after the first byte of a long number, gives
    the same error as a stream that ended properly. *)
Theorem C83_clean_end_refuted :
  (forall x y, small x -> exists s rest, encPoint x y = s ++ rest /\ s <> [] /\ rest <> [] /\
     see (ReadECPointQ (Rdr [Ans s None] (Some IEOF))) = SawError IEOF [] /\
     see (ReadECPointQ (Rdr [] (Some IEOF))) = SawError IEOF []) /\
  (forall v, 253 <= v < 2 ^ 64 -> exists b rest, varint v = b :: rest /\ rest <> [] /\
     see (ReadVarIntQ (Rdr [Ans [b] None] (Some IEOF))) = SawError IEOF []).
Proof.
  split.
  - intros x y S. destruct (cut_point x y S) as [C [E N]]. exists (varbytes (bigBytes x)), (varbytes (bigBytes y)).
    split; [exact E|split; [|split; [exact N|split; [|reflexivity]]]].
    + intros F. rewrite F in C. unfold ReadECPoint in C. clear E N. revert F. unfold varbytes, varint.
      destruct (_ <? _); [discriminate|]. destruct (_ <? _); [discriminate|]. destruct (_ <? _); discriminate.
    + assert (W : endsWith IEOF (Rdr [Ans (varbytes (bigBytes x)) None] (Some IEOF))) by (split; [reflexivity|exact I]).
      destruct (ends_all _ _ 0 W) as [_ [_ [H _]]]. unfold delivers in H. cbn [rAns map concat aData] in H.
      rewrite app_nil_r, C in H. cbn [same] in H. destruct H as [r [-> [D _]]]. cbn [see replaced named]. rewrite D. reflexivity.
  - intros v H. destruct (cut_varint v H) as [b [rest [E [N C]]]]. exists b, rest. split; [exact E|split; [exact N|]].
    assert (W : endsWith IEOF (Rdr [Ans [b] None] (Some IEOF))) by (split; [reflexivity|exact I]).
    destruct (ends_all _ _ 0 W) as [K _]. unfold delivers in K. cbn [rAns map concat aData app] in K.
    rewrite C in K. cbn [same] in K. destruct K as [r [-> [D _]]]. cbn [see replaced named]. rewrite D. reflexivity.
Qed.
Print Assumptions C83_clean_end_refuted.

(** C83: whatever a writer answers, WriteVarInt, WriteVarBytes, WriteECPoint and WriteBigInt
    report an error exactly when the writer did, at once and without writing more; then an
    initial part of the encoding was written, and otherwise exactly the encoding. *)
Theorem C83_writers : forall w,
  (forall v, uint64 v -> writes (varint v) w (WriteVarIntS w v)) /\
  (forall bs, blen bs < 2 ^ 64 -> writes (varbytes bs) w (WriteVarBytesS w bs)) /\
  (forall x y, small x -> small y -> exists r, WriteECPointS w (EP (Some x) (Some y)) = Ok r /\ writes (encPoint x y) w r) /\
  (forall z, small z -> exists r, WriteBigIntS w (Some z) = Ok r /\ writes (encInt z) w r).
Proof.
  intros w. split; [exact (writes_varint w)|split; [exact (writes_varbytes w)|split; [exact (writes_point w)|exact (writes_int w)]]].
Qed.
Print Assumptions C83_writers.
Example C83_writers_case :
  WriteECPointS (Wtr [9] [Takes; Takes; Takes; Fails 0; Takes]) (EP (Some 300) (Some 7)) =
    Ok (Wtr [9; 2; 1; 44; 1] [Takes], true) /\
  WriteECPointS (Wtr [9] [Takes; Takes; Takes]) (EP (Some 300) (Some 7)) = Ok (Wtr [9; 2; 1; 44; 1; 7] [], false) /\
  WriteVarIntS (Wtr [] [Fails 1]) 300 = (Wtr [253] [], true).
Proof. repeat split. Qed.
