(** * Properties of the precomputed tables and constants of btcec (C59, C60) *)
From Coq Require Import ZArith List Bool Lia.
From Verif Require Import Go Wire Big Spec SpecZk SpecCurve CurveGroup GMult Order Sha256 ZkBase Koblitz KobTab PubKey Precompute PrecompProofs.
Import ListNotations.
Open Scope Z_scope.

(** C59: the generator finishes for both tables, and each is 32*256 points of three field
    values of ten 32-bit words. *)
Theorem C59_generator_total :
  (exists bytes, SerializedBytePoints = Ok bytes /\ blen bytes = 32 * 256 * 3 * 10 * 4) /\
  (exists bytes, SerializedBytePointsH sha256 = Ok bytes /\ blen bytes = 32 * 256 * 3 * 10 * 4).
Proof.
  split; [rewrite SBP_eq; exact (gen_total G G_on_curve)|rewrite SBPH_eq; exact (gen_total Htab Htab_on_curve)].
Qed.
Print Assumptions C59_generator_total.

(** C59: whatever text carries the generated bytes, the loader makes of it a table that
    holds, at row i and column b, the point b * 256^(31-i) times the base point. *)
Theorem C59_generated_tables_load decode text bytes : text <> [] -> decode text = Some bytes ->
  (SerializedBytePoints = Ok bytes ->
   exists t, loadBytePoints decode text = Ok (Loaded (Some t)) /\ table_ok t G) /\
  (SerializedBytePointsH sha256 = Ok bytes ->
   exists t, loadBytePoints decode text = Ok (Loaded (Some t)) /\ table_ok t Htab).
Proof.
  intros NE D. split; intros E.
  - rewrite SBP_eq in E. exact (load_generated decode text G bytes G_on_curve NE E D).
  - rewrite SBPH_eq in E. exact (load_generated decode text Htab bytes Htab_on_curve NE E D).
Qed.
Print Assumptions C59_generated_tables_load.

(** C59: so a program that embeds the two generated texts starts, and its curve object
    computes the group of secp256k1. *)
Theorem C59_start decode text textH bytes bytesH : text <> [] -> textH <> [] ->
  decode text = Some bytes -> SerializedBytePoints = Ok bytes ->
  decode textH = Some bytesH -> SerializedBytePointsH sha256 = Ok bytesH ->
  exists c, startS256 decode text textH = Ok c /\ curve_ok c.
Proof.
  intros NE NEH D E DH EH.
  destruct (proj1 (C59_generated_tables_load decode text bytes NE D) E) as (t & L & T).
  destruct (proj2 (C59_generated_tables_load decode textH bytesH NEH DH) EH) as (tH & LH & TH).
  exists (S256 t tH). split; [|exact (S256_ok t tH T TH)]. unfold startS256. rewrite L. cbn [bind]. rewrite LH. reflexivity.
Qed.
Print Assumptions C59_start.

(** C59: the base point of the second table is the one whose x coordinate is the SHA-256 of
    the bytes of Gx + 2, with even y. *)
Theorem C59_second_base : genH sha256 = Ok (Val Htab) /\ Z.odd (snd Htab) = false /\
  fst Htab = beval (sha256 (bigBytes (Gx + 2))).
Proof. split; [exact genH_Htab|]. split; [reflexivity|]. vm_compute. reflexivity. Qed.
Print Assumptions C59_second_base.

(** C59: the loader fails loudly, and only, on too short a table. *)
Theorem C59_short_table_crashes decode text bytes : text <> [] -> decode text = Some bytes ->
  (loadBytePoints decode text = Panic <-> blen bytes < 32 * 256 * 3 * 10 * 4).
Proof. exact (load_panics decode text bytes). Qed.
Print Assumptions C59_short_table_crashes.

(** C59: nothing else is checked: a table of the right size that holds no multiples of the
    base point is accepted, and the program starts with it. *)
Theorem C59_wrong_table_accepted_refuted : exists bytes t, blen bytes = 32 * 256 * 3 * 10 * 4 /\
  (forall decode text, text <> [] -> decode text = Some bytes -> loadBytePoints decode text = Ok (Loaded (Some t))) /\
  ~ table_ok t G.
Proof.
  destruct (serialize_load Htab Htab_on_curve) as (dp & t & E & T & L). exists (serializeWindows dp), t.
  specialize (L []). rewrite app_nil_r in L. split; [|split].
  - pose proof (getTable_len 32 (serializeWindows dp)) as H. rewrite L in H. exact H.
  - intros decode text NE D. unfold loadBytePoints. destruct text; [congruence|]. rewrite D, L. reflexivity.
  - intros TG. pose proof (tableMult_ok t G [1] is_point_G TG) as M1. pose proof (tableMult_ok t Htab [1] is_point_Htab T) as M2.
    assert (B : bytes_ok [1]) by (constructor; [split; [discriminate|reflexivity]|constructor]).
    specialize (M1 B). specialize (M2 B). rewrite M1 in M2. change (beval [1]) with 1 in M2. rewrite !smul_1 in M2.
    apply (f_equal (fun r => match r with Ok p => fst p | Panic => 0 end)) in M2. discriminate M2.
Qed.
Print Assumptions C59_wrong_table_accepted_refuted.

(** C59: with no text embedded (as while generating) the program starts without tables, and
    every base multiplication by a scalar of 1 to 32 bytes crashes. *)
Theorem C59_no_table decode k : k <> [] -> blen k <= 32 ->
  exists c, startS256 decode [] [] = Ok c /\ cScalarBaseMult c k = Panic /\ cScalarBaseMultH c k = Panic.
Proof.
  intros NE L. exists (S256 [] []). split; [reflexivity|]. exact (conj (empty_mult k NE L) (empty_mult k NE L)).
Qed.
Print Assumptions C59_no_table.

(** a case: the identity as the coding of the text *)
Example C59_case : exists bytes bytesH c, SerializedBytePoints = Ok bytes /\ SerializedBytePointsH sha256 = Ok bytesH /\
  startS256 Some bytes bytesH = Ok c /\ curve_ok c.
Proof.
  destruct C59_generator_total as [(b & E & L) (bH & EH & LH)].
  assert (N1 : b <> []) by (intros ->; discriminate L). assert (N2 : bH <> []) by (intros ->; discriminate LH).
  destruct (C59_start Some b bH b bH N1 N2 eq_refl E eq_refl EH) as (c & S & C). exists b, bH, c. auto.
Qed.

(** C60: the derivation returns the constants a1, b1, a2, b2 built into the curve, with any
    number of rounds from 200 on. *)
Theorem C60_constants_derived fuel : (200 <= fuel)%nat ->
  EndomorphismVectors fuel N curveLambda =
    Ok (Some (0x3086D221A7D46BCDE86C90E49284EB15, - 0xE4437ED6010E88286F547FA90ABFE4C3,
              0x114CA50F7A8E2F3F657C1108D9D44CFD8, 0x3086D221A7D46BCDE86C90E49284EB15)) /\
  (curveA1, curveB1, curveA2, curveB2) =
    (0x3086D221A7D46BCDE86C90E49284EB15, - 0xE4437ED6010E88286F547FA90ABFE4C3,
     0x114CA50F7A8E2F3F657C1108D9D44CFD8, 0x3086D221A7D46BCDE86C90E49284EB15).
Proof. intros L. split; [exact (ev_mono 200 fuel _ _ _ L ev_secp)|reflexivity]. Qed.
Print Assumptions C60_constants_derived.

(** C60: for every modulus and multiplier, a pair (a, b) the derivation returns satisfies
    a + b * lambda = 0 modulo N. *)
Theorem C60_vectors_in_kernel fuel M lambda a1 b1 a2 b2 :
  EndomorphismVectors fuel M lambda = Ok (Some (a1, b1, a2, b2)) ->
  (M | a1 + b1 * lambda) /\ (M | a2 + b2 * lambda).
Proof. exact (ev_kernel fuel M lambda a1 b1 a2 b2). Qed.
Print Assumptions C60_vectors_in_kernel.

(** C60: what sqrt returns for a positive number is its integer square root, *)
Theorem C60_sqrt_correct fuel n r : 1 <= n -> sqrt fuel n = Ok (Some r) -> r ^ 2 <= n < (r + 1) ^ 2.
Proof. exact (sqrt_correct fuel n r). Qed.
Print Assumptions C60_sqrt_correct.
(** and it returns for every positive number except those one below a square, *)
Theorem C60_sqrt_terminates n : 1 <= n -> (forall k, k ^ 2 <> n + 1) ->
  exists r fuel0, forall fuel, (fuel0 <= fuel)%nat -> sqrt fuel n = Ok (Some r).
Proof. exact (sqrt_end n). Qed.
Print Assumptions C60_sqrt_terminates.
(** on which it loops for ever, *)
Theorem C60_sqrt_diverges_refuted n k : 1 <= n -> k ^ 2 = n + 1 -> forall fuel, sqrt fuel n = Ok None.
Proof. intros H1 H2 fuel. exact (sqrt_diverges fuel n k H1 H2). Qed.
Print Assumptions C60_sqrt_diverges_refuted.
(** and zero, on which it divides by zero. *)
Theorem C60_sqrt_zero_refuted fuel : (2 <= fuel)%nat -> sqrt fuel 0 = Panic.
Proof. exact (sqrt_zero fuel). Qed.
Print Assumptions C60_sqrt_zero_refuted.

Example C60_case : sqrt 10 99 = Ok None /\ sqrt 10 100 = Ok (Some 10) /\ 10 ^ 2 = 99 + 1 /\
  EndomorphismVectors 10 7 2 = Ok (Some (1, 3, 2, -1)) /\ (7 | 1 + 3 * 2) /\ (7 | 2 + -1 * 2).
Proof.
  do 4 (split; [reflexivity|]). split; [exists 1; reflexivity|exists 0; reflexivity].
Qed.
