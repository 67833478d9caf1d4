(** * Properties C50 - C53: the curve operations of btcec/btcec.go *)
From Coq Require Import ZArith List Bool Lia Znumtheory.
From Verif Require Import Spec Go Wire Big SpecZk CodecProofs Field SpecField FieldP FieldProofs NumTheory CurveZ CurveGroup
  GMult EndoP Order Lambda Crypto Sha256 Zksigma ZkBase PointProofs PropPoint Koblitz SpecCurve KobProofs KobMul KobTab Oversized.
Import ListNotations.
Open Scope Z_scope.

(** ** C50: Add, Double and IsOnCurve compute the affine group of Spec.v *)
Theorem C50_add : forall p q, is_point p -> is_point q ->
  Add (fst p) (snd p) (fst q) (snd q) = Ok (padd p q).
Proof. exact Add_ok. Qed.
Print Assumptions C50_add.

Theorem C50_double : forall p, is_point p -> Double (fst p) (snd p) = Ok (padd p p).
Proof. exact Double_ok. Qed.
Print Assumptions C50_double.

Theorem C50_is_on_curve : forall x y, 0 <= x < 2 ^ 256 -> 0 <= y < 2 ^ 256 ->
  IsOnCurve x y = Ok ((y ^ 2 - (x ^ 3 + 7)) mod P =? 0).
Proof. exact IsOnCurve_ok. Qed.
Print Assumptions C50_is_on_curve.

(** the internal operations, for every Jacobian representation of the arguments; the
    second operand keeps its meaning although its coordinates are normalized in place *)
Theorem C50_jacobian : forall p q a b, represents p a -> represents q b ->
  represents (fst (addJacobian p q)) (padd a b) /\
  represents (snd (addJacobian p q)) b /\
  represents (doubleJacobian p) (padd a a) /\
  fieldJacobianToBigAffine p = a.
Proof.
  intros p q a b HA HB. destruct (rep_add p q a b HA HB) as [H1 H2].
  exact (conj H1 (conj H2 (conj (rep_double p a HA) (rep_affine p a HA)))).
Qed.
Print Assumptions C50_jacobian.

(** a coordinate of more than 256 bits makes every operation panic, except where the
    point at infinity, or for Double a point with Y = 0, is answered first; nothing else
    does *)
Theorem C50_oversized_refuted : forall x y,
  let big z := 2 ^ 256 <= Z.abs z in
  (IsOnCurve x y = Panic <-> big x \/ big y) /\
  (forall k, ScalarMult x y k = Panic <-> big x \/ big y) /\
  (Double x y = Panic <-> y <> 0 /\ (big x \/ big y)) /\
  (forall x2 y2, Add x y x2 y2 = Panic <->
     (x, y) <> (0, 0) /\ (x2, y2) <> (0, 0) /\ (big x \/ big y \/ big x2 \/ big y2)).
Proof. exact oversized. Qed.
Print Assumptions C50_oversized_refuted.

Example C50_oversized_case : 2 ^ 256 <= Z.abs (2 ^ 256) /\ Add (2 ^ 256) 1 (fst G) (snd G) = Panic /\ Double (2 ^ 256) 0 = Ok (0, 0).
Proof. split; [discriminate|]. split; vm_compute; reflexivity. Qed.
Example C50_case : is_point G /\ is_point Htab /\ is_point O /\ represents (jac_of G) G /\ represents jInf O /\
  (* the second operand with a Z coordinate other than 1 *)
  represents (doubleJacobian (jac_of G)) (padd G G) /\ snd (doubleJacobian (jac_of G)) <> fieldOne.
Proof.
  split; [exact is_point_G|]. split; [exact is_point_Htab|]. split; [exact is_point_O|].
  split; [exact (jac_of_ok G is_point_G)|]. split; [apply jr_represents; [exact is_point_O|exact jr_inf]|].
  split; [exact (rep_double _ _ (jac_of_ok G is_point_G))|]. vm_compute. discriminate.
Qed.

(** ** C51: scalar multiplication, every point and every byte string *)
Theorem C51_scalar_mult : forall p k, is_point p -> bytes_ok k ->
  ScalarMult (fst p) (snd p) k = Ok (smul (beval k) p).
Proof. exact ScalarMult_ok. Qed.
Print Assumptions C51_scalar_mult.

(** ScalarBaseMult and ScalarBaseMultH: with a table holding the multiples of [B] *)
Theorem C51_table_mult : forall t B k, is_point B -> table_ok t B -> bytes_ok k ->
  scalarTableMult t k = Ok (smul (beval k) B).
Proof. exact tableMult_ok. Qed.
Print Assumptions C51_table_mult.

(** the curve object does everything the theorems about the proofs assume of it *)
Theorem C51_curve_ok : forall t tH, table_ok t G -> table_ok tH Htab -> curve_ok (S256 t tH).
Proof. exact S256_ok. Qed.
Print Assumptions C51_curve_ok.

(** so TestCurve, as init builds it on this curve object, meets the assumptions [std] under
    which the theorems about the zero-knowledge proofs are stated *)
Theorem C51_testcurve_std : forall t tH, table_ok t G -> table_ok tH Htab ->
  exists zk, initTestCurve sha256 (S256 t tH) curveGx curveGy = Ok zk /\ std zk.
Proof. intros t tH HT HH. exact (C20_init_succeeds _ (S256_ok t tH HT HH)). Qed.
Print Assumptions C51_testcurve_std.

Example C51_case : table_ok (mkTable G) G /\ table_ok (mkTable Htab) Htab /\ curve_ok (S256 (mkTable G) (mkTable Htab)) /\
  bytes_ok (repeat 255 33) /\ 2 ^ 256 < beval (repeat 255 33).
Proof.
  split; [apply mkTable_ok, is_point_G|]. split; [apply mkTable_ok, is_point_Htab|].
  split; [apply S256_ok; apply mkTable_ok; [exact is_point_G|exact is_point_Htab]|].
  split; [repeat constructor; unfold is_byte; lia|reflexivity].
Qed.

(** ** C52: the non-adjacent form and the splitting of the scalar *)
Theorem C52_naf : forall k, bytes_ok k -> exists pos neg, NAF k = (pos, neg) /\
  length neg = length pos /\ bytes_ok pos /\ bytes_ok neg /\
  beval pos - beval neg = beval k /\
  (forall i, 0 <= i -> ~ (Z.testbit (beval pos) i = true /\ Z.testbit (beval neg) i = true)) /\
  (forall i, 0 <= i -> digit_set (beval pos) (beval neg) i = true -> digit_set (beval pos) (beval neg) (i + 1) = false) /\
  blen k <= blen pos <= blen k + 1.
Proof.
  intros k Bk. destruct (NAF_ok k Bk) as (pos & neg & E & L & B1 & B2 & V & _ & D & A & LL).
  exists pos, neg. exact (conj E (conj L (conj B1 (conj B2 (conj V (conj D (conj A LL))))))).
Qed.
Print Assumptions C52_naf.
Example C52_naf_case : bytes_ok [7; 255] /\ NAF [7; 255] = ([8; 0], [0; 1]).
Proof. split; [repeat constructor; unfold is_byte; lia|vm_compute; reflexivity]. Qed.

Theorem C52_splitK : forall k, exists k1 k2,
  splitK k = (bigBytes k1, bigBytes k2, Z.sgn k1, Z.sgn k2) /\
  (k1 + k2 * curveLambda) mod N = beval k mod N /\ Z.abs k1 < 2 ^ 129 /\ Z.abs k2 < 2 ^ 129.
Proof.
  intros k. destruct (splitK_ok k) as (k1 & k2 & E & V & B1 & B2). exists k1, k2. split; [exact E|]. split; [exact V|].
  assert (W1 : curveA1 < 2 ^ 129) by reflexivity. assert (W2 : curveA2 < 2 ^ 129) by reflexivity.
  assert (W3 : curveB2 - curveB1 < 2 ^ 129) by reflexivity. lia.
Qed.
Print Assumptions C52_splitK.
Example C52_splitK_case : exists k1 k2, splitK (be_bytes 32 (2 ^ 255)) = (bigBytes k1, bigBytes k2, Z.sgn k1, Z.sgn k2) /\
  k1 < 0 /\ k2 < 0 /\ 2 ^ 127 < Z.abs k2.
Proof.
  exists (-0xe4437ed6010e88286f547fa88abfe2da), (-0xbaebfa9d7c45e5c9144d192b61275301).
  split; [vm_compute; reflexivity|]. split; [reflexivity|]. split; reflexivity.
Qed.

(** ** C53: the curve parameters *)
Theorem C53_parameters :
  prime curveP /\ prime curveN /\ on_curve (curveGx, curveGy) /\
  (forall k, smul k (curveGx, curveGy) = O <-> k mod curveN = 0) /\
  (forall p, is_point p -> exists k, (0 <= k < curveN /\ p = smul k (curveGx, curveGy)) /\
                          forall k', 0 <= k' < curveN /\ p = smul k' (curveGx, curveGy) -> k' = k) /\
  curveH = 1 /\ 4 * curveQ = curveP + 1 /\ 2 * halfOrder + 1 = curveN /\ 8 * byteSize = curveBitSize.
Proof.
  split; [exact prime_P|]. split; [exact prime_N|]. split; [exact G_on_curve|].
  split; [exact smul_G_O|]. split.
  - intros p IP. destruct (cyclic p IP) as (k & Hk & E). exists k. split; [exact (conj Hk E)|].
    intros k' [Hk' E']. change (curveGx, curveGy) with G in *. change curveN with N in *. rewrite E in E'. apply smul_G_inj in E'.
    rewrite !Z.mod_small in E' by assumption. symmetry. exact E'.
  - repeat (apply conj; [reflexivity|]). reflexivity.
Qed.
Print Assumptions C53_parameters.

(** the endomorphism behind splitK: multiplying the X coordinate by beta multiplies the
    point by lambda *)
Theorem C53_endomorphism : forall p, is_point p ->
  ((val curveBeta * fst p) mod P, snd p) = smul curveLambda p.
Proof.
  intros p IP. assert (E : val curveBeta = beta).
  { destruct (setBytes_ok (be_bytes 32 beta)) as [_ V]; [apply be_bytes_len|apply be_bytes_ok|].
    change curveBeta with (fSetBytes (be_bytes 32 beta)). rewrite V, beval_be_bytes by discriminate. reflexivity. }
  rewrite E. exact (phi_lambda p IP).
Qed.
Print Assumptions C53_endomorphism.
