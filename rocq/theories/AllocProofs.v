(** * Proofs about the memory the decoders ask for *)
From Coq Require Import ZArith List Lia Bool.
From Verif Require Import Go Wire SpecWire WireProofs Big Crypto Gspfs Equivalence Consistency Disjunctive Abc Range
  SpecCodec CodecProofs SpecCanon CanonProofs Alloc.
Import ListNotations.
Open Scope Z_scope.

(** ** dropping the count *)
Lemma fst_rbind {A B : Type} (r : rd A * Z) r0 (f : A -> list Z -> rd B * Z) f0 : fst r = r0 -> (forall a s, fst (f a s) = f0 a s) -> fst (rbindA r f) = rbind r0 f0.
Proof. intros <- F. destruct r as [[a s|e s|] c]; cbn [rbindA rbind fst]; try reflexivity. rewrite <- F. destruct (f a s). reflexivity. Qed.
Lemma fst_bind {A B : Type} (r : R A * Z) r0 (f : A -> R B * Z) f0 : fst r = r0 -> (forall a, fst (f a) = f0 a) -> fst (bindA r f) = bind r0 f0.
Proof. intros <- F. destruct r as [[a|] c]; cbn [bindA bind fst]; try reflexivity. rewrite <- F. destruct (f a). reflexivity. Qed.
Lemma fst_rd {A B : Type} (r : rd A * Z) r0 (k : A -> list Z -> R (option B * option goerr) * Z) k0 : fst r = r0 -> (forall a s, fst (k a s) = k0 a s) -> fst (rdA r k) = rdR r0 k0.
Proof. intros <- F. destruct r as [[a s|e s|] c]; cbn [rdA rdR fst]; try reflexivity. rewrite <- F. destruct (k a s). reflexivity. Qed.
Lemma same_bytes m s : fst (ReadVarBytesA m s) = ReadVarBytes m s.
Proof. apply fst_rbind; [reflexivity|]. intros c s1. destruct (maxAlloc <? c); reflexivity. Qed.
Lemma same_point s : fst (ReadECPointA s) = ReadECPoint s.
Proof. apply fst_rbind; [apply same_bytes|]. intros x s1. apply fst_rbind; [apply same_bytes|]. reflexivity. Qed.
Lemma same_int s : fst (ReadBigIntA s) = ReadBigInt s.
Proof. apply fst_rbind; [apply same_bytes|]. intros [|g m] s1; reflexivity. Qed.
Lemma same_pointA s : fst (pointA s) = ReadECPoint_ s.
Proof. unfold pointA, ReadECPoint_. rewrite <- same_point. destruct (ReadECPointA s). reflexivity. Qed.
Lemma same_intA s : fst (intA s) = ReadBigInt_ s.
Proof. unfold intA, ReadBigInt_. rewrite <- same_int. destruct (ReadBigIntA s). reflexivity. Qed.
Ltac same := repeat (first [apply fst_bind; [first [apply same_pointA|apply same_intA]|intros]]); reflexivity.
Lemma same_gspfs b : fst (gspfsA b) = NewGSPFSProofFromBytes b. Proof. same. Qed.
Lemma same_equivalence b : fst (equivalenceA b) = NewEquivalenceProofFromBytes b. Proof. same. Qed.
Lemma same_consistency b : fst (consistencyA b) = NewConsistencyProofFromBytes b. Proof. same. Qed.
Lemma same_disjunctive b : fst (disjunctiveA b) = NewDisjunctiveProofFromBytes b. Proof. same. Qed.
Lemma same_abc b : fst (abcA b) = NewABCProofFromBytes b.
Proof.
  do 4 (apply fst_rd; [apply same_point|intros]). do 4 (apply fst_rd; [apply same_int|intros]). apply fst_rd; [apply same_point|intros]. apply fst_rd; [apply same_bytes|intros].
  apply fst_bind; [apply same_disjunctive|]. intros [d [e|]]; reflexivity.
Qed.
Lemma same_tuples n : forall s, fst (tuplesA n s) = readTuples n s.
Proof.
  induction n as [|n IH]; intros s; [reflexivity|]. cbn [tuplesA readTuples]. apply fst_bind; [apply same_pointA|intros]. apply fst_bind; [apply same_intA|intros].
  apply fst_bind; [apply IH|]. reflexivity.
Qed.
Lemma same_range b : fst (rangeA b) = NewRangeProofFromBytes b.
Proof.
  unfold rangeA, NewRangeProofFromBytes. apply fst_bind; [apply same_pointA|intros r1]. apply fst_bind; [apply same_intA|intros r2]. apply fst_bind; [reflexivity|intros r3].
  destruct (maxAlloc <? 24 * fst r3); [reflexivity|]. cbn [bindA]. 
  pose proof (fst_bind (tuplesA (Z.to_nat (fst r3)) (snd r3)) _ (fun ts => free (Ok (Some (MkRange (fst r1) (fst r2) ts), @None goerr))) (fun ts => Ok (Some (MkRange (fst r1) (fst r2) ts), None)) (same_tuples _ _) (fun _ => eq_refl)) as E.
  rewrite <- E. destruct (bindA (tuplesA _ _) _). reflexivity.
Qed.

(** ** what successful reads cost *)
Lemma bytes_cost m s a t c : bytes_ok s -> ReadVarBytesA m s = (ROk a t, c) -> bytes_ok t /\ c = blen a /\ c + 1 + blen t <= blen s.
Proof.
  intros B. unfold ReadVarBytesA, free. pose proof (ReadVarInt_good s B) as G. destruct (ReadVarInt s) as [v u|e u|]; cbn [rbindA]; try discriminate.
  destruct G as (V & U & L). destruct (maxAlloc <? v); [discriminate|]. pose proof (readFull_weak v u U V) as W. unfold readFull in *. destruct (v <=? blen u) eqn:E.
  - intros X. injection X as <- <- <-. cbn [weak] in W. destruct W as ((_ & W1) & W2 & W3). apply Z.leb_le in E. rewrite W1. split; [exact W2|].
    unfold blen in *. rewrite skipn_length. lia.
  - destruct u; discriminate.
Qed.
(** a failed read leaves nothing, or cost nothing *)
Lemma bytes_fail m s e t c : bytes_ok s -> ReadVarBytesA m s = (RErr e t, c) -> bytes_ok t /\ blen t <= blen s /\ (t = [] \/ c = 0).
Proof.
  intros B. unfold ReadVarBytesA, free. pose proof (ReadVarInt_good s B) as G. destruct (ReadVarInt s) as [v u|e1 u|]; cbn [rbindA]; try discriminate.
  - destruct G as (V & U & L). destruct (maxAlloc <? v); [discriminate|]. unfold readFull. destruct (v <=? blen u); [discriminate|].
    destruct u; intros X; injection X as _ <- _; (split; [constructor|]; split; [unfold blen in *; cbn [length] in *; lia|left; reflexivity]).
  - intros X. injection X as _ <- <-. destruct G as [U L]. split; [exact U|]. split; [exact L|right; reflexivity].
Qed.
Lemma point_cost s a t c : bytes_ok s -> ReadECPointA s = (ROk a t, c) -> bytes_ok t /\ c + 2 + blen t <= blen s /\ 0 <= c.
Proof.
  intros B. unfold ReadECPointA, free. destruct (ReadVarBytesA 32 s) as [[xb u|e u|] c1] eqn:E1; cbn [rbindA]; try discriminate.
  destruct (bytes_cost _ _ _ _ _ B E1) as (U & C1 & L1). destruct (ReadVarBytesA 32 u) as [[yb w|e w|] c2] eqn:E2; cbn [rbindA]; try discriminate.
  destruct (bytes_cost _ _ _ _ _ U E2) as (W & C2 & L2). intros X. injection X as _ <- <-. split; [exact W|unfold blen in *; lia].
Qed.
Lemma int_cost s a t c : bytes_ok s -> ReadBigIntA s = (ROk a t, c) -> bytes_ok t /\ c + 1 + blen t <= blen s /\ 0 < c.
Proof.
  intros B. unfold ReadBigIntA, free. destruct (ReadVarBytesA 32 s) as [[xb u|e u|] c1] eqn:E1; cbn [rbindA]; try discriminate.
  destruct (bytes_cost _ _ _ _ _ B E1) as (U & C & L1). destruct xb as [|g m]; [discriminate|]. intros X. injection X as _ <- <-. split; [exact U|].
  unfold blen in C. cbn [length] in C. lia.
Qed.
Lemma pointA_cost s p t c : bytes_ok s -> pointA s = (Ok (p, t), c) -> bytes_ok t /\ blen t <= blen s /\ (t = [] \/ c + blen t <= blen s).
Proof.
  intros B. unfold pointA. destruct (ReadECPointA s) as [r c'] eqn:E. intros X. injection X as D ->. unfold ReadECPointA, free in E.
  destruct (ReadVarBytesA 32 s) as [[xb u|e u|] c1] eqn:E1; cbn [rbindA] in E.
  - destruct (bytes_cost _ _ _ _ _ B E1) as (U & C1 & L1). destruct (ReadVarBytesA 32 u) as [[yb w|e w|] c2] eqn:E2; cbn [rbindA] in E.
    + destruct (bytes_cost _ _ _ _ _ U E2) as (W & C2 & L2). injection E as <- <-. injection D as _ <-. split; [exact W|]. unfold blen in *. lia.
    + destruct (bytes_fail _ _ _ _ _ U E2) as (W & L2 & F). injection E as <- <-. injection D as _ <-. split; [exact W|]. split; [unfold blen in *; lia|]. destruct F as [F| ->]; [left; exact F|right; lia].
    + injection E as <- <-. discriminate D.
  - destruct (bytes_fail _ _ _ _ _ B E1) as (W & L2 & F). injection E as <- <-. injection D as _ <-. split; [exact W|]. split; [exact L2|]. destruct F as [F| ->]; [left; exact F|right; lia].
  - injection E as <- <-. discriminate D.
Qed.
Lemma intA_cost s z t c : bytes_ok s -> intA s = (Ok (Some z, t), c) -> bytes_ok t /\ c + 1 + blen t <= blen s /\ 0 < c.
Proof.
  intros B. unfold intA. destruct (ReadBigIntA s) as [[a u|e u|] c'] eqn:E; try discriminate. intros X. injection X as -> -> ->. exact (int_cost _ _ _ _ B E).
Qed.
Lemma bind_inv {A B : Type} (r : R A * Z) (f : A -> R B * Z) b c : bindA r f = (Ok b, c) -> exists a c1 c2, r = (Ok a, c1) /\ f a = (Ok b, c2) /\ c = c1 + c2.
Proof. destruct r as [[a|] c1]; cbn [bindA]; [|discriminate]. destruct (f a) as [r' c2] eqn:E. intros X. injection X as -> <-. exists a, c1, c2. auto. Qed.
Lemma rd_inv {A B : Type} (r : rd A * Z) (k : A -> list Z -> R (option B * option goerr) * Z) p c : rdA r k = (Ok (Some p, None), c) -> exists a t c1 c2, r = (ROk a t, c1) /\ k a t = (Ok (Some p, None), c2) /\ c = c1 + c2.
Proof. destruct r as [[a t|e t|] c1]; cbn [rdA]; try discriminate. destruct (k a t) as [r' c2] eqn:E. intros X. injection X as -> <-. exists a, t, c1, c2. auto. Qed.

(** two points, then at least one integer: the points were read in full or cost nothing *)
Ltac inv H := match type of H with bindA _ _ = _ => let r := fresh "r" in let t := fresh "t" in let c1 := fresh "c" in let c2 := fresh "c" in let E := fresh "E" in
    apply bind_inv in H; destruct H as ([r t] & c1 & c2 & E & H & ->); cbn [fst snd] in H end.
Lemma nil_int o t c : intA [] = (Ok (o, t), c) -> ~ there o.
Proof. cbn. intros X. injection X as <- _ _. intros N. exact (N eq_refl). Qed.
Lemma pi_cost s p t c o u d : bytes_ok s -> pointA s = (Ok (p, t), c) -> intA t = (Ok (o, u), d) -> there o -> bytes_ok u /\ c + d + 1 + blen u <= blen s /\ 0 < d /\ 2 + blen u <= blen s.
Proof.
  intros B E1 E2 N. destruct o as [z|]; [|elim (N eq_refl)]. destruct (pointA_cost _ _ _ _ B E1) as (T & L & [->|C]).
  - elim (nil_int _ _ _ E2 N).
  - destruct (intA_cost _ _ _ _ T E2) as (U & L2 & D). split; [exact U|]. lia.
Qed.
Lemma ppi_cost s p t c q w d o u e : bytes_ok s -> pointA s = (Ok (p, t), c) -> pointA t = (Ok (q, w), d) -> intA w = (Ok (o, u), e) -> there o -> bytes_ok u /\ c + d + e + blen u <= blen s.
Proof.
  intros B E1 E2 E3 T. destruct (pointA_cost _ _ _ _ B E1) as (BT & L & [->|C]).
  - destruct (pointA_cost _ _ _ _ BT E2) as (_ & L2 & _). assert (w = []) as -> by (destruct w; [reflexivity|unfold blen in L2; cbn [length] in L2; lia]). elim (nil_int _ _ _ E3 T).
  - destruct (pi_cost _ _ _ _ _ _ _ BT E2 E3 T) as (U & X & _). split; [exact U|lia].
Qed.
Lemma i_cost s o t c : bytes_ok s -> intA s = (Ok (o, t), c) -> there o -> bytes_ok t /\ c + blen t <= blen s.
Proof. intros B E N. destruct o as [z|]; [|elim (N eq_refl)]. destruct (intA_cost _ _ _ _ B E) as (T & L & _). split; [exact T|lia]. Qed.
Lemma blen_pos t : 0 <= blen t. Proof. unfold blen. lia. Qed.

Ltac leave H := unfold free in H; injection H as <- <-.
Lemma gspfs_cost b p c : bytes_ok b -> gspfsA b = (Ok (Some p, None), c) -> completeGSPFS p -> c <= blen b.
Proof.
  intros B H N. unfold gspfsA in H. do 4 inv H. leave H. unfold completeGSPFS, allThere in N. cbn [gsHiddenValue gsChallenge] in N. inversion_clear N as [|? ? N1 N']. inversion_clear N' as [|? ? N2 _].
  edestruct ppi_cost as [B3 L3]; [exact B|eassumption..|]. edestruct i_cost as [_ L4]; [exact B3|eassumption..|]. pose proof (blen_pos t2). lia.
Qed.
Lemma equivalence_cost b p c : bytes_ok b -> equivalenceA b = (Ok (Some p, None), c) -> completeEquivalence p -> c <= blen b.
Proof.
  intros B H N. unfold equivalenceA in H. do 4 inv H. leave H. unfold completeEquivalence, allThere in N. cbn [eqHiddenValue eqChallenge] in N. inversion_clear N as [|? ? N1 N']. inversion_clear N' as [|? ? N2 _].
  edestruct ppi_cost as [B3 L3]; [exact B|eassumption..|]. edestruct i_cost as [_ L4]; [exact B3|eassumption..|]. pose proof (blen_pos t2). lia.
Qed.
Lemma consistency_cost b p c : bytes_ok b -> consistencyA b = (Ok (Some p, None), c) -> completeConsistency p -> c <= blen b.
Proof.
  intros B H N. unfold consistencyA in H. do 5 inv H. leave H. unfold completeConsistency, allThere in N. cbn [cnChallenge cnS1 cnS2] in N. inversion_clear N as [|? ? N1 N']. inversion_clear N' as [|? ? N2 N]. inversion_clear N as [|? ? N3 _].
  edestruct ppi_cost as [B3 L3]; [exact B|eassumption..|]. edestruct i_cost as [B4 L4]; [exact B3|eassumption..|]. edestruct i_cost as [_ L5]; [exact B4|eassumption..|]. pose proof (blen_pos t3). lia.
Qed.
Lemma disjunctive_cost b p c : bytes_ok b -> disjunctiveA b = (Ok (Some p, None), c) -> completeDisjunctive p -> c <= blen b.
Proof.
  intros B H N. unfold disjunctiveA in H. do 7 inv H. leave H. unfold completeDisjunctive, allThere in N. cbn [djC djC1 djC2 djS1 djS2] in N.
  inversion_clear N as [|? ? N1 N']. inversion_clear N' as [|? ? N2 N]. inversion_clear N as [|? ? N3 N']. inversion_clear N' as [|? ? N4 N]. inversion_clear N as [|? ? N5 _].
  edestruct ppi_cost as [B3 L3]; [exact B|eassumption..|]. edestruct i_cost as [B4 L4]; [exact B3|eassumption..|]. edestruct i_cost as [B5 L5]; [exact B4|eassumption..|].
  edestruct i_cost as [B6 L6]; [exact B5|eassumption..|]. edestruct i_cost as [_ L7]; [exact B6|eassumption..|]. pose proof (blen_pos t5). lia.
Qed.
Lemma tuples_cost n : forall s ts c, bytes_ok s -> tuplesA n s = (Ok ts, c) -> allThere (map rtS ts) -> c + Z.of_nat n <= blen s /\ 2 * Z.of_nat n <= blen s /\ length ts = n.
Proof.
  induction n as [|n IH]; intros s ts c B H N.
  - cbn in H. leave H. pose proof (blen_pos s). cbn. lia.
  - cbn [tuplesA] in H. inv H. inv H. apply bind_inv in H. destruct H as (ts' & c4 & c5 & E4 & H & ->). leave H. cbn [map rtS] in N. inversion_clear N as [|? ? N1 N'].
    destruct (pi_cost _ _ _ _ _ _ _ B E E0 N1) as (U & L & D & L2). destruct (IH _ _ _ U E4 N') as (L3 & L4 & L5). cbn [length]. lia.
Qed.
Lemma range_cost b p c : bytes_ok b -> rangeA b = (Ok (Some p, None), c) -> completeRange p -> c <= 13 * blen b /\ 2 * Z.of_nat (length (rpTuples p)) <= blen b.
Proof.
  intros B H N. unfold rangeA in H. do 3 inv H. remember (24 * r1) as q eqn:Q. destruct (maxAlloc <? q); [discriminate|]. cbn [bindA] in H.
  destruct (bindA (tuplesA (Z.to_nat r1) t1) _) as [r' c'] eqn:E2 in H. injection H as -> <-. apply bind_inv in E2. destruct E2 as (ts & c5 & c6 & E2 & H & ->). leave H.
  unfold completeRange, allThere in N. cbn [rpE rpTuples] in N. inversion_clear N as [|? ? N1 N2]. destruct (pi_cost _ _ _ _ _ _ _ B E E0 N1) as (U & L & D & L2).
  unfold free in E1. injection E1 as E1 <-. pose proof (ReadVarInt_good t0 U) as G. cbn [rpTuples]. assert (0 <= r1 /\ bytes_ok t1 /\ blen t1 <= blen t0) as (P & W & L3).
  { destruct (ReadVarInt t0) as [v u|e u|]; cbn [dropErr] in E1; [|injection E1 as <- <-|discriminate].
    - injection E1 as -> ->. destruct G as (V & G1 & G2). split; [exact V|]. split; [exact G1|lia].
    - destruct G as [G1 G2]. split; [lia|]. split; [exact G1|exact G2]. }
  destruct (tuples_cost _ _ _ _ W E2 N2) as (L4 & L5 & ->). pose proof (blen_pos t0). lia.
Qed.
Ltac invp H := apply rd_inv in H; let r := fresh "r" in let t := fresh "t" in let c1 := fresh "c" in let c2 := fresh "c" in let E := fresh "E" in destruct H as (r & t & c1 & c2 & E & H & ->).
Lemma abc_cost b p c : bytes_ok b -> abcA b = (Ok (Some p, None), c) -> completeABC p -> c <= 2 * blen b.
Proof.
  intros B H N. unfold abcA in H. do 10 invp H. apply bind_inv in H. destruct H as ([d e] & c20 & c21 & E9 & H & ->). cbn [fst snd] in H. destruct e; [discriminate|]. leave H.
  destruct (point_cost _ _ _ _ B E) as (B1 & L1 & P1). destruct (point_cost _ _ _ _ B1 E0) as (B2 & L2 & P2). destruct (point_cost _ _ _ _ B2 E1) as (B3 & L3 & P3). destruct (point_cost _ _ _ _ B3 E2) as (B4 & L4 & P4).
  destruct (int_cost _ _ _ _ B4 E3) as (B5 & L5 & P5). destruct (int_cost _ _ _ _ B5 E4) as (B6 & L6 & P6). destruct (int_cost _ _ _ _ B6 E5) as (B7 & L7 & P7). destruct (int_cost _ _ _ _ B7 E6) as (B8 & L8 & P8).
  destruct (point_cost _ _ _ _ B8 E7) as (B9 & L9 & P9). destruct (bytes_cost _ _ _ _ _ B9 E8) as (_ & C10 & L10). destruct N as (d' & D & N). cbn [abDisj] in D. subst d.
  assert (bytes_ok r8) as B10. { pose proof (ReadVarBytes_good 100000 t7 B9) as G. rewrite <- same_bytes, E8 in G. exact (proj1 (proj1 G)). }
  pose proof (disjunctive_cost _ _ _ B10 E9 N) as L11. pose proof (blen_pos t8). lia.
Qed.

(** ** short inputs, large requests *)
Lemma varint9 v : (length (varint v) <= 9)%nat.
Proof. unfold varint. destruct (v <? 253); [cbn; lia|]. destruct (v <? 2 ^ 16); [cbn; lia|]. destruct (v <? 2 ^ 32); cbn; lia. Qed.
Lemma big_bytes m k : 1 <= k <= 2 ^ 48 -> ReadVarBytesA m (varint k) = (RErr EEOF [], k).
Proof.
  intros K. unfold ReadVarBytesA, free. rewrite <- (app_nil_r (varint k)) at 1. rewrite ReadVarInt_varint by (unfold uint64; lia). cbn [rbindA].
  destruct (maxAlloc <? k) eqn:E; [apply Z.ltb_lt in E; unfold maxAlloc in E; lia|]. unfold readFull. destruct (k <=? blen []) eqn:F; [apply Z.leb_le in F; unfold blen in F; cbn in F; lia|]. f_equal. 
Qed.
Lemma big_point k : 1 <= k <= 2 ^ 48 -> pointA (varint k) = (Ok (ZeroPoint, []), k).
Proof. intros K. unfold pointA, ReadECPointA. rewrite big_bytes by exact K. reflexivity. Qed.
Lemma nil_point : pointA [] = (Ok (ZeroPoint, []), 0). Proof. reflexivity. Qed.
Lemma nil_intA : intA [] = (Ok (None, []), 0). Proof. reflexivity. Qed.
Ltac big K := rewrite (big_point _ K); cbn [bindA fst snd]; repeat (progress (rewrite ?nil_point, ?nil_intA; cbn [bindA fst snd])); cbn [free]; rewrite ?Z.add_0_r.
Lemma big_gspfs k : 1 <= k <= 2 ^ 48 -> gspfsA (varint k) = (Ok (Some (MkGSPFS ZeroPoint ZeroPoint None None), None), k).
Proof. intros K. unfold gspfsA. big K. reflexivity. Qed.
Lemma big_equivalence k : 1 <= k <= 2 ^ 48 -> equivalenceA (varint k) = (Ok (Some (MkEquiv ZeroPoint ZeroPoint None None), None), k).
Proof. intros K. unfold equivalenceA. big K. reflexivity. Qed.
Lemma big_consistency k : 1 <= k <= 2 ^ 48 -> consistencyA (varint k) = (Ok (Some (MkCons ZeroPoint ZeroPoint None None None), None), k).
Proof. intros K. unfold consistencyA. big K. reflexivity. Qed.
Lemma big_disjunctive k : 1 <= k <= 2 ^ 48 -> disjunctiveA (varint k) = (Ok (Some (MkDisj ZeroPoint ZeroPoint None None None None None), None), k).
Proof. intros K. unfold disjunctiveA. big K. reflexivity. Qed.
Lemma big_abc k : 1 <= k <= 2 ^ 48 -> abcA (varint k) = (Ok (None, Some (ERead EEOF)), k).
Proof. intros K. unfold abcA, ReadECPointA at 1. rewrite (big_bytes _ _ K). reflexivity. Qed.
Lemma nil_tuples n : tuplesA n [] = (Ok (repeat (MkTuple ZeroPoint None) n), 0).
Proof. induction n as [|n IH]; [reflexivity|]. cbn [tuplesA]. rewrite nil_point. cbn [bindA fst snd]. rewrite nil_intA. cbn [bindA fst snd]. rewrite IH. reflexivity. Qed.
Lemma some_bytes m a s : Z.of_nat (length a) < 2 ^ 40 -> ReadVarBytesA m (varint (Z.of_nat (length a)) ++ a ++ s) = (ROk a s, Z.of_nat (length a)).
Proof.
  intros L. unfold ReadVarBytesA, free. rewrite ReadVarInt_varint by (unfold uint64; lia). cbn [rbindA]. destruct (maxAlloc <? Z.of_nat (length a)) eqn:E; [apply Z.ltb_lt in E; unfold maxAlloc in E; lia|].
  unfold readFull. destruct (Z.of_nat (length a) <=? blen (a ++ s)) eqn:F; [|apply Z.leb_gt in F; unfold blen in F; rewrite app_length in F; lia].
  rewrite Nat2Z.id, firstn_app, skipn_app, Nat.sub_diag, firstn_all, skipn_all. cbn [firstn skipn app]. rewrite app_nil_r. reflexivity.
Qed.
Lemma zero_point s : pointA (0 :: 0 :: s) = (Ok (ZeroPoint, s), 0).
Proof.
  assert (E : forall t, ReadVarBytesA 32 (0 :: t) = (ROk [] t, 0)) by (intros t; exact (some_bytes 32 [] t ltac:(cbn; lia))).
  unfold pointA, ReadECPointA. rewrite E. cbn [rbindA]. rewrite E. reflexivity.
Qed.
Lemma zero_int s : intA (1 :: 0 :: s) = (Ok (Some 0, s), 1).
Proof. assert (E : ReadVarBytesA 32 (1 :: 0 :: s) = (ROk [0] s, 1)) by exact (some_bytes 32 [0] s ltac:(cbn; lia)). unfold intA, ReadBigIntA. rewrite E. reflexivity. Qed.
Lemma many_tuples n : 0 <= n -> 24 * n <= 2 ^ 48 -> rangeA ([0; 0; 1; 0] ++ varint n) = (Ok (Some (MkRange ZeroPoint (Some 0) (repeat (MkTuple ZeroPoint None) (Z.to_nat n))), None), 1 + 24 * n).
Proof.
  intros N M. unfold rangeA. cbn [app]. rewrite zero_point. cbn [bindA fst snd].
  rewrite zero_int. cbn [bindA fst snd]. rewrite <- (app_nil_r (varint n)) at 1. rewrite ReadVarInt_varint by (unfold uint64; lia). cbn [dropErr free bindA fst snd].
  destruct (maxAlloc <? 24 * n) eqn:E; [apply Z.ltb_lt in E; unfold maxAlloc in E; lia|]. rewrite nil_tuples. cbn [bindA free]. f_equal. lia.
Qed.
Lemma big_range k : 1 <= k <= 2 ^ 48 -> rangeA (varint k) = (Ok (Some (MkRange ZeroPoint None []), None), k).
Proof. intros K. unfold rangeA. big K. change (dropErr 0 (ReadVarInt [])) with (Ok (0, @nil Z)). cbn. rewrite Z.add_0_r. reflexivity. Qed.
