(** * Which coordinates make the operations of Koblitz.v panic *)
From Coq Require Import ZArith List Bool Lia.
From Verif Require Import Go Wire Big CodecProofs Field Koblitz.
Import ListNotations.
Open Scope Z_scope.

(** ** Which inputs make the operations panic *)
Lemma bigBytes_big z : (32 <? blen (bigBytes z)) = (2 ^ 256 <=? Z.abs z).
Proof.
  destruct (Z.leb_spec (2 ^ 256) (Z.abs z)) as [L|L].
  - apply Z.ltb_lt. unfold blen, bigBytes. rewrite be_bytes_len. unfold byteLen.
    destruct (Z.leb_spec (Z.abs z) 0) as [H0|H0]; [exfalso; assert (0 < 2 ^ 256) by reflexivity; lia|].
    assert (G1 : 256 <= Z.log2 (Z.abs z)) by (apply Z.log2_le_pow2; [exact H0|exact L]).
    rewrite Z2Nat.id; [|apply Z.add_nonneg_nonneg; [apply Z.div_pos; lia|lia]].
    assert (32 <= Z.log2 (Z.abs z) / 8) by (apply Z.div_le_lower_bound; lia). lia.
  - apply Z.ltb_ge. apply bigBytes_blen; [lia|]. exact L.
Qed.
Lemma bigAffine_panics x y : bigAffineToField x y = Panic <-> 2 ^ 256 <= Z.abs x \/ 2 ^ 256 <= Z.abs y.
Proof.
  unfold bigAffineToField, fSetByteSlice. rewrite !bigBytes_big.
  destruct (Z.leb_spec (2 ^ 256) (Z.abs x)) as [A|A], (Z.leb_spec (2 ^ 256) (Z.abs y)) as [B|B]; cbn [bind]; split; intros H;
  try discriminate H; try reflexivity; try (left; exact A); try (right; exact B);
  exfalso; destruct H as [H|H]; apply (Z.lt_irrefl (2 ^ 256)); (eapply Z.le_lt_trans; [exact H|assumption]).
Qed.
Lemma bind_panics {A B} (r : R A) (k : A -> R B) : (forall a, k a <> Panic) -> (bind r k = Panic <-> r = Panic).
Proof. intros K. destruct r as [a|]; cbn [bind]; split; intros H; try reflexivity; [destruct (K a H)|discriminate H]. Qed.
Lemma bigAffine_two {A} x y x2 y2 (k : fieldVal -> fieldVal -> fieldVal -> fieldVal -> A) :
  bind (bigAffineToField x y) (fun '(a, b) => bind (bigAffineToField x2 y2) (fun '(c, d) => Ok (k a b c d))) = Panic <->
  (2 ^ 256 <= Z.abs x \/ 2 ^ 256 <= Z.abs y \/ 2 ^ 256 <= Z.abs x2 \/ 2 ^ 256 <= Z.abs y2).
Proof.
  pose proof (bigAffine_panics x y) as B1. pose proof (bigAffine_panics x2 y2) as B2.
  destruct (bigAffineToField x y) as [[a b]|]; cbn [bind]; [destruct (bigAffineToField x2 y2) as [[c d]|]; cbn [bind]|].
  - split; [discriminate|]. intros H. exfalso.
    assert (Ok (a, b) = Panic \/ Ok (c, d) = Panic) as [E|E] by (rewrite B1, B2; tauto); discriminate E.
  - split; [intros _; right; right; apply B2; reflexivity|reflexivity].
  - split; [intros _|reflexivity]. destruct (proj1 B1 eq_refl) as [H|H]; [left|right; left]; exact H.
Qed.
Lemma pair00 (x y : Z) : (x, y) <> (0, 0) <-> (x =? 0) && (y =? 0) = false.
Proof.
  destruct (Z.eqb_spec x 0) as [->|E]; [destruct (Z.eqb_spec y 0) as [->|E]|]; cbn [andb]; split; intros H;
  try reflexivity; try discriminate H; try congruence.
Qed.
Lemma oversized x y : let big z := 2 ^ 256 <= Z.abs z in
  (IsOnCurve x y = Panic <-> big x \/ big y) /\
  (forall k, ScalarMult x y k = Panic <-> big x \/ big y) /\
  (Double x y = Panic <-> y <> 0 /\ (big x \/ big y)) /\
  (forall x2 y2, Add x y x2 y2 = Panic <->
     (x, y) <> (0, 0) /\ (x2, y2) <> (0, 0) /\ (big x \/ big y \/ big x2 \/ big y2)).
Proof.
  cbv beta zeta. split; [|split; [|split]].
  - unfold IsOnCurve. rewrite bind_panics by (intros [a b]; discriminate). apply bigAffine_panics.
  - intros k. unfold ScalarMult. destruct (splitK (moduloReduce k)) as [[[k1 k2] s1] s2].
    rewrite bind_panics; [apply bigAffine_panics|]. intros [a b]. cbv zeta.
    destruct (s1 =? -1), (s2 =? -1), (NAF k1), (NAF k2); discriminate.
  - unfold Double. destruct (Z.eqb_spec y 0) as [E|E].
    + split; [discriminate|]. intros [H _]. contradiction.
    + rewrite bind_panics by (intros [a b]; discriminate). rewrite bigAffine_panics. split; [intros H; split; assumption|intros [_ H]; exact H].
  - intros x2 y2. unfold Add. rewrite !pair00.
    destruct ((x =? 0) && (y =? 0)); [split; [discriminate|intros [H _]; discriminate H]|].
    destruct ((x2 =? 0) && (y2 =? 0)); [split; [discriminate|intros (_ & H & _); discriminate H]|].
    cbv zeta. rewrite (bigAffine_two x y x2 y2 (fun a b c d => fieldJacobianToBigAffine (fst (addJacobian (a, b, fSetInt 1) (c, d, fSetInt 1))))).
    split; [intros H; repeat split; exact H|intros (_ & _ & H); exact H].
Qed.
