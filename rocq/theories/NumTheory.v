(** * Number theory used by the curve layer (no code of /repo modelled here)

    Fermat's little theorem, modular exponentiation and the Pocklington
    criterion, from the standard library only. *)
From Coq Require Import ZArith Znumtheory List Lia Permutation Bool.
Import ListNotations.
Open Scope Z_scope.

(** ** Products of lists and Fermat *)
Definition prod_list (l : list Z) : Z := fold_right Z.mul 1 l.

Lemma prod_list_perm l l' : Permutation l l' -> prod_list l = prod_list l'.
Proof. unfold prod_list; induction 1; cbn [fold_right]; try congruence. ring. Qed.

Lemma prod_list_map_mod a p l :
  (prod_list (map (fun x => (a * x) mod p) l)) mod p =
  (a ^ Z.of_nat (length l) * prod_list l) mod p.
Proof.
  induction l as [|x l IH]; [cbn; f_equal; ring|].
  cbn [map prod_list fold_right length]. fold (prod_list (map (fun x => (a * x) mod p) l)). fold (prod_list l).
  rewrite Zmult_mod_idemp_l. rewrite <- Zmult_mod_idemp_r. rewrite IH. rewrite Zmult_mod_idemp_r.
  rewrite Nat2Z.inj_succ, Z.pow_succ_r by lia. f_equal. ring.
Qed.

Lemma rel_prime_prod p l : (forall x, In x l -> rel_prime p x) -> rel_prime p (prod_list l).
Proof.
  induction l as [|x l IH]; intros H; cbn.
  - apply rel_prime_sym, rel_prime_1.
  - apply rel_prime_mult; [apply H; left; reflexivity|apply IH; intros; apply H; right; assumption].
Qed.

Definition zseq (p : Z) : list Z := map Z.of_nat (seq 1 (Z.to_nat (p - 1))).

Lemma in_zseq p x : In x (zseq p) <-> 1 <= x < p.
Proof.
  unfold zseq. rewrite in_map_iff. split.
  - intros (n & <- & H). apply in_seq in H. lia.
  - intros H. exists (Z.to_nat x). split; [lia|]. apply in_seq. lia.
Qed.

Lemma nodup_zseq p : NoDup (zseq p).
Proof.
  unfold zseq. apply FinFun.Injective_map_NoDup; [intros a b; lia|]. apply seq_NoDup.
Qed.

Lemma length_zseq p : 1 <= p -> Z.of_nat (length (zseq p)) = p - 1.
Proof. intros H. unfold zseq. rewrite map_length, seq_length. lia. Qed.

Lemma rel_prime_lt p x : prime p -> 1 <= x < p -> rel_prime p x.
Proof. intros Hp Hx. apply rel_prime_sym, rel_prime_le_prime; assumption. Qed.

Lemma rel_prime_mod_nz p a : prime p -> a mod p <> 0 -> rel_prime p a.
Proof.
  intros Hp Ha. apply rel_prime_sym, rel_prime_sym. apply prime_rel_prime; [exact Hp|].
  intros D. apply Ha. apply Zdivide_mod; exact D.
Qed.

Lemma mul_cancel_mod p a x y : prime p -> a mod p <> 0 -> (a * x) mod p = (a * y) mod p -> x mod p = y mod p.
Proof.
  intros Hp Ha E.
  assert (0 < p) by (destruct Hp; lia).
  assert (D : (p | a * (x - y))).
  { apply Zmod_divide; [lia|]. rewrite Z.mul_sub_distr_l. rewrite Zminus_mod, E, Z.sub_diag. apply Zmod_0_l. }
  apply Gauss in D; [|apply rel_prime_mod_nz; assumption].
  destruct D as [k Hk]. replace x with (y + k * p) by lia. apply Z_mod_plus_full.
Qed.

Theorem fermat p a : prime p -> a mod p <> 0 -> a ^ (p - 1) mod p = 1.
Proof.
  intros Hp Ha.
  assert (Hp2 : 2 <= p) by (destruct Hp; lia).
  set (l := zseq p). set (l' := map (fun x => (a * x) mod p) l).
  assert (P : Permutation l' l).
  { apply NoDup_Permutation_bis.
    - unfold l'. assert (N : NoDup l) by apply nodup_zseq.
      assert (forall x, In x l -> 1 <= x < p) as HI by (intros x; apply in_zseq).
      clearbody l. induction N as [|x l Hx N IH]; cbn; constructor.
      + intros I. apply in_map_iff in I. destruct I as (y & E & Iy). apply Hx.
        apply mul_cancel_mod in E; auto.
        assert (1 <= x < p) by (apply HI; left; reflexivity).
        assert (1 <= y < p) by (apply HI; right; assumption).
        rewrite !Z.mod_small in E by lia. subst; assumption.
      + apply IH. intros; apply HI; right; assumption.
    - unfold l'. rewrite map_length. lia.
    - intros y I. apply in_map_iff in I. destruct I as (x & <- & Ix). apply in_zseq in Ix. apply in_zseq.
      pose proof (Z.mod_pos_bound (a * x) p ltac:(lia)).
      assert ((a * x) mod p <> 0); [|lia].
      intros E. assert (E' : x mod p = 0 mod p).
      { apply (mul_cancel_mod p a x 0 Hp Ha). rewrite E, Z.mul_0_r, Zmod_0_l; reflexivity. }
      rewrite Zmod_0_l, Z.mod_small in E' by lia. lia. }
  apply prod_list_perm in P.
  pose proof (prod_list_map_mod a p l) as E. fold l' in E. rewrite P in E.
  unfold l in E at 2. rewrite length_zseq in E by lia.
  assert (R : rel_prime p (prod_list l)).
  { apply rel_prime_prod. intros x Ix. apply rel_prime_lt; [exact Hp|]. apply in_zseq; exact Ix. }
  assert (NZ : prod_list l mod p <> 0).
  { intros Z. apply Zmod_divide in Z; [|lia]. destruct R as [_ _ R].
    specialize (R p (Z.divide_refl p) Z). destruct R as [k Hk]. assert (p <= 1) by (apply Z.divide_pos_le; [lia|exists k; lia]). lia. }
  transitivity (1 mod p); [|apply Z.mod_small; lia].
  apply (mul_cancel_mod p (prod_list l)); [exact Hp|exact NZ|].
  rewrite Z.mul_1_r, (Z.mul_comm (prod_list l)). symmetry; exact E.
Qed.

(** ** Fast modular exponentiation *)
Fixpoint powm_pos (m a : Z) (e : positive) : Z :=
  match e with
  | xH => a mod m
  | xO e' => let r := powm_pos m a e' in (r * r) mod m
  | xI e' => let r := powm_pos m a e' in (((r * r) mod m) * a) mod m
  end.
Definition powm (m a e : Z) : Z :=
  match e with Z0 => 1 mod m | Zpos q => powm_pos m a q | Zneg _ => 0 end.

Lemma powm_pos_ok m a e : powm_pos m a e = a ^ Zpos e mod m.
Proof.
  induction e as [e IH|e IH|]; cbn [powm_pos].
  - rewrite IH. rewrite Pos2Z.inj_xI. rewrite Z.pow_add_r by lia. rewrite Z.pow_1_r.
    replace (2 * Zpos e) with (Zpos e + Zpos e) by lia. rewrite Z.pow_add_r by lia.
    rewrite <- Zmult_mod. rewrite Zmult_mod_idemp_l. reflexivity.
  - rewrite IH. rewrite Pos2Z.inj_xO. replace (2 * Zpos e) with (Zpos e + Zpos e) by lia.
    rewrite Z.pow_add_r by lia. rewrite <- Zmult_mod. reflexivity.
  - rewrite Z.pow_1_r. reflexivity.
Qed.
Lemma powm_ok m a e : 0 <= e -> powm m a e = a ^ e mod m.
Proof. destruct e; cbn [powm]; intros; [reflexivity|apply powm_pos_ok|lia]. Qed.

Lemma pow_mod_idemp a m e : 0 <= e -> (a mod m) ^ e mod m = a ^ e mod m.
Proof.
  intros He. revert e He. apply natlike_ind; [reflexivity|].
  intros e He IH. rewrite !Z.pow_succ_r by lia. rewrite Zmult_mod, IH. rewrite Zmod_mod. rewrite <- Zmult_mod. reflexivity.
Qed.

(** ** Exponents modulo a prime *)
Lemma pow_nz p a e : prime p -> a mod p <> 0 -> 0 <= e -> a ^ e mod p <> 0.
Proof.
  intros Hp Ha. revert e. apply (natlike_ind (fun e => a ^ e mod p <> 0)).
  - rewrite Z.pow_0_r. assert (2 <= p) by (destruct Hp; lia). rewrite Z.mod_small; lia.
  - intros e He IH E. rewrite Z.pow_succ_r in E by lia. apply IH.
    rewrite <- (Zmod_0_l p). apply (mul_cancel_mod p a); auto. rewrite Z.mul_0_r, Zmod_0_l. exact E.
Qed.

Lemma pow_mul_1 p a e k : 2 <= p -> 0 <= e -> 0 <= k -> a ^ e mod p = 1 -> a ^ (e * k) mod p = 1.
Proof.
  intros Hp He Hk E. rewrite Z.pow_mul_r by lia. rewrite <- pow_mod_idemp, E by lia.
  rewrite Z.pow_1_l by lia. apply Z.mod_small; lia.
Qed.

(** if a^m = 1 and a^k = 1 modulo a prime then a^gcd(m,k) = 1 *)
Lemma pow_gcd p a m k : prime p -> a mod p <> 0 -> 0 <= m -> 0 <= k ->
  a ^ m mod p = 1 -> a ^ k mod p = 1 -> a ^ (Z.gcd m k) mod p = 1.
Proof.
  intros Hp Ha Hm Hk Em Ek.
  assert (H2 : 2 <= p) by (destruct Hp; lia).
  destruct (Z.gcd_bezout m k (Z.gcd m k) eq_refl) as (u & v & B).
  set (g := Z.gcd m k) in *.
  (* make u*m and v*k shifts non-negative *)
  destruct (Z.eq_dec m 0) as [->|Zm]; [unfold g; rewrite Z.gcd_0_l, Z.abs_eq by lia; exact Ek|].
  set (s := Z.abs v * m).
  (* g + (|v|*m)*k = (u + |v|*k)*m + v*k ... choose w = v + s >= 0, and t = s*k - u*m + ... *)
  assert (Eq : g + (s * k - v * k + 0) = u * m + s * k) by (unfold s; lia).
  assert (Hs : 0 <= s - v) by (unfold s; nia).
  assert (A : a ^ ((s - v) * k) mod p = 1) by (rewrite Z.mul_comm; apply pow_mul_1; lia).
  assert (Hg : 0 <= g) by apply Z.gcd_nonneg.
  assert (S : a ^ (g + (s - v) * k) mod p = 1).
  { replace (g + (s - v) * k) with (m * (u + Z.abs v * k)) by (unfold s in *; lia).
    destruct (Z.le_gt_cases 0 (u + Z.abs v * k)) as [L|L]; [apply pow_mul_1; lia|].
    exfalso. assert (0 <= g + (s - v) * k) by nia. unfold s in *. nia. }
  rewrite Z.pow_add_r in S by nia. rewrite Zmult_mod, A, Z.mul_1_r, Zmod_mod in S. exact S.
Qed.

(** ** Pocklington *)
Lemma exists_prime_divisor n : 2 <= n -> exists p, prime p /\ (p | n).
Proof.
  intros H. assert (0 <= n) as H0 by lia. revert H.
  apply (Zlt_0_ind (fun n => 2 <= n -> exists p, prime p /\ (p | n))); [|exact H0].
  clear. intros n IH _ H2.
  destruct (prime_dec n) as [Hp|Hp]; [exists n; split; [exact Hp|apply Z.divide_refl]|].
  destruct (not_prime_divide n ltac:(lia) Hp) as (m & Hm & D).
  destruct (IH m ltac:(lia) ltac:(lia)) as (p & Pp & Dp).
  exists p; split; [exact Pp|]. eapply Z.divide_trans; eassumption.
Qed.

Lemma small_prime_divisor n : 2 <= n -> ~ prime n -> exists p, prime p /\ (p | n) /\ p * p <= n.
Proof.
  intros H Np. destruct (not_prime_divide n ltac:(lia) Np) as (m & Hm & [k Hk]).
  assert (Hk1 : 1 < k) by nia.
  destruct (Z.le_gt_cases m k) as [L|L].
  - destruct (exists_prime_divisor m ltac:(lia)) as (p & Pp & Dp).
    assert (p <= m) by (apply Z.divide_pos_le; [lia|exact Dp]).
    exists p; split; [exact Pp|split; [apply Z.divide_trans with m; [exact Dp|exists k; lia]|]].
    destruct Pp. nia.
  - destruct (exists_prime_divisor k ltac:(lia)) as (p & Pp & Dp).
    assert (p <= k) by (apply Z.divide_pos_le; [lia|exact Dp]).
    exists p; split; [exact Pp|split; [apply Z.divide_trans with k; [exact Dp|exists m; lia]|]].
    destruct Pp. nia.
Qed.

(** Squaring of a binary number (cheaper than [Z.mul]). *)
Fixpoint psq (p : positive) : positive :=
  match p with
  | xH => xH
  | xO p' => xO (xO (psq p'))
  | xI p' => xI (xO (Pos.add (psq p') p'))
  end.
Definition zsq (x : Z) : Z := match x with Z0 => Z0 | Zpos p => Zpos (psq p) | Zneg p => Zpos (psq p) end.
Lemma psq_ok p : Zpos (psq p) = Zpos p * Zpos p.
Proof.
  induction p as [p IH|p IH|]; cbn [psq]; [| |reflexivity].
  - replace (Zpos (xI (xO (Pos.add (psq p) p)))) with (4 * (Zpos (psq p) + Zpos p) + 1) by lia.
    rewrite IH. replace (Zpos p~1) with (2 * Zpos p + 1) by lia. ring.
  - replace (Zpos (xO (xO (psq p)))) with (4 * Zpos (psq p)) by lia.
    rewrite IH. replace (Zpos p~0) with (2 * Zpos p) by lia. ring.
Qed.
Lemma zsq_ok x : zsq x = x * x.
Proof. destruct x; cbn [zsq]; [reflexivity| |]; rewrite psq_ok; reflexivity. Qed.

(** Exponentiation modulo [n = 2^k - c] with supplied quotients: whatever the list
    [qs] holds, the result is congruent to [a ^ e]; good quotients keep it small.
    (No division: the certificates stay cheap for a kernel without a virtual
    machine.) *)
Definition qn (k c q : Z) : Z := c * q - Z.shiftl q k.
Lemma qn_ok k c q : 0 <= k -> qn k c q = - q * (2 ^ k - c).
Proof. intros H. unfold qn. rewrite Z.shiftl_mul_pow2 by exact H. ring. Qed.
Fixpoint powh (k c a : Z) (e : positive) (qs : list Z) : Z * list Z :=
  match e with
  | xH => (a, qs)
  | xO e' => let '(r, qs') := powh k c a e' qs in
             match qs' with q :: t => (zsq r + qn k c q, t) | [] => (zsq r, []) end
  | xI e' => let '(r, qs') := powh k c a e' qs in
             match qs' with q :: t => (a * zsq r + qn k c q, t) | [] => (a * zsq r, []) end
  end.
Lemma powh_ok n k c a e qs : 0 <= k -> n = 2 ^ k - c -> fst (powh k c a e qs) mod n = a ^ Zpos e mod n.
Proof.
  intros Hk Hn.
  assert (M : forall x q, (x + qn k c q) mod n = x mod n).
  { intros x q. rewrite qn_ok, <- Hn by exact Hk.
    destruct (Z.eq_dec n 0) as [->|Hn']; [rewrite Z.mul_0_r, Z.add_0_r; reflexivity|apply Z.mod_add; exact Hn']. }
  induction e as [e IH|e IH|]; cbn [powh].
  - destruct (powh k c a e qs) as [r qs']. cbn [fst] in IH.
    assert (E : (a * zsq r) mod n = a ^ Zpos e~1 mod n).
    { rewrite zsq_ok, Pos2Z.inj_xI. replace (2 * Zpos e + 1) with (1 + (Zpos e + Zpos e)) by lia.
      rewrite !Z.pow_add_r, Z.pow_1_r by lia. rewrite Zmult_mod, (Zmult_mod r), IH.
      rewrite <- (Zmult_mod (a ^ Zpos e) (a ^ Zpos e)), <- Zmult_mod. reflexivity. }
    destruct qs'; cbn [fst]; [exact E|rewrite M; exact E].
  - destruct (powh k c a e qs) as [r qs']. cbn [fst] in IH.
    assert (E : zsq r mod n = a ^ Zpos e~0 mod n).
    { rewrite zsq_ok, Pos2Z.inj_xO. replace (2 * Zpos e) with (Zpos e + Zpos e) by lia.
      rewrite !Z.pow_add_r by lia. rewrite Zmult_mod, IH, <- Zmult_mod. reflexivity. }
    destruct qs'; cbn [fst]; [exact E|rewrite M; exact E].
  - cbn [fst]. rewrite Z.pow_1_r. reflexivity.
Qed.

(** One certificate entry: q a prime factor of n-1 with cofactor e, hints for a^e,
    and Bezout coefficients for a^e - 1 and n. *)
Record pentry := PE { pe_q : positive; pe_e : positive; pe_h : list Z; pe_u : Z; pe_v : Z }.
Definition pock_entry (n k m a : Z) (c : pentry) : bool :=
  let b := fst (powh k m a (pe_e c) (pe_h c)) in
  (Zpos (pe_q c) * Zpos (pe_e c) =? n - 1) && (1 <? Zpos (pe_q c))
  && (pe_u c * (b - 1) + pe_v c * n =? 1).

Lemma pock_entry_ok n k m a c r : 2 <= n -> 0 <= k -> n = 2 ^ k - m -> a ^ (n - 1) mod n = 1 -> prime (Zpos (pe_q c)) -> pock_entry n k m a c = true ->
  prime r -> (r | n) -> (Zpos (pe_q c) | r - 1).
Proof.
  intros Hn Hk Hm EA Hq E Hr Dr. unfold pock_entry in E. cbv zeta in E.
  rewrite !andb_true_iff in E. destruct E as [[E1 E2] E4].
  apply Z.eqb_eq in E1, E4. apply Z.ltb_lt in E2.
  pose proof (powh_ok n k m a (pe_e c) (pe_h c) Hk Hm) as PH.
  set (q := Zpos (pe_q c)) in *. set (e := Zpos (pe_e c)) in *. set (b := fst (powh k m a (pe_e c) (pe_h c))) in *.
  assert (Hr2 : 2 <= r) by (destruct Hr; lia).
  destruct Dr as [s Hs].
  assert (M : forall x, (x mod n) mod r = x mod r).
  { intros x. symmetry. apply Zmod_div_mod; [lia|lia|exists s; lia]. }
  assert (Bq : b ^ q mod r = 1).
  { rewrite <- M, <- pow_mod_idemp, PH, pow_mod_idemp by lia. unfold e, q in *. rewrite <- Z.pow_mul_r by lia.
    rewrite Z.mul_comm, E1, EA. apply Z.mod_small; lia. }
  assert (B1 : b mod r <> 1).
  { intros Z.
    assert (D : (r | b - 1)).
    { apply Zmod_divide; [lia|]. rewrite Zminus_mod, Z. rewrite (Z.mod_small 1) by lia. apply Zmod_0_l. }
    assert (D2 : (r | 1)).
    { rewrite <- E4. apply Z.divide_add_r; apply Z.divide_mul_r; [exact D|exists s; lia]. }
    apply Z.divide_pos_le in D2; lia. }
  assert (Hb : b mod r <> 0).
  { intros Z. rewrite <- pow_mod_idemp, Z, Z.pow_0_l' in Bq by lia. rewrite Zmod_0_l in Bq. lia. }
  assert (Bf : b ^ (r - 1) mod r = 1) by (apply fermat; assumption).
  destruct (Zdivide_dec q (r - 1)) as [D|ND]; [exact D|exfalso].
  assert (G : Z.gcd q (r - 1) = 1).
  { apply Zgcd_1_rel_prime. apply prime_rel_prime; assumption. }
  pose proof (pow_gcd r b q (r - 1) Hr Hb ltac:(lia) ltac:(lia) Bq Bf) as K.
  rewrite G, Z.pow_1_r in K. apply B1. exact K.
Qed.

Lemma prime_prod_divides l m : 0 < m -> NoDup l -> Forall prime l -> Forall (fun q => (q | m)) l -> (prod_list l | m).
Proof.
  intros Hm N P D. induction l as [|q l IH]; cbn.
  - apply Z.divide_1_l.
  - inversion N; inversion P; inversion D; subst. fold (prod_list l).
    apply Z.mul_divide_mono_l with (p := 1) || idtac.
    assert (R : rel_prime q (prod_list l)).
    { apply rel_prime_prod. intros x Ix. apply prime_rel_prime; [assumption|].
      intros Dx. rewrite Forall_forall in H6. specialize (H6 x Ix).
      destruct (prime_divisors x H6 q Dx) as [E|[E|[E|E]]]; destruct H5, H6; try lia.
      subst. contradiction. }
    destruct (IH H2 H6 H10) as [k Hk].
    assert (Dq : (q | k)).
    { apply Gauss with (prod_list l); [|exact R]. rewrite Z.mul_comm, <- Hk. assumption. }
    destruct Dq as [j Hj]. exists j. rewrite Hk, Hj. ring.
Qed.

Fixpoint nodupb (l : list Z) : bool :=
  match l with [] => true | x :: r => negb (existsb (Z.eqb x) r) && nodupb r end.
Lemma nodupb_ok l : nodupb l = true -> NoDup l.
Proof.
  induction l as [|x l IH]; cbn; constructor.
  - apply andb_true_iff in H. destruct H as [H _]. intros I. apply negb_true_iff in H.
    assert (existsb (Z.eqb x) l = true); [|congruence].
    apply existsb_exists. exists x; split; [assumption|apply Z.eqb_refl].
  - apply IH. apply andb_true_iff in H. tauto.
Qed.

Definition pe_qz (c : pentry) : Z := Zpos (pe_q c).
Definition pock_check (n k m a : Z) (h : list Z) (c : list pentry) : bool :=
  (2 <=? n) && (0 <=? k) && (n =? 2 ^ k - m) && nodupb (map pe_qz c)
  && (fst (powh k m a (Z.to_pos (n - 1)) h) =? 1) && forallb (pock_entry n k m a) c
  && (n <? (prod_list (map pe_qz c) + 1) * (prod_list (map pe_qz c) + 1)).

Theorem pocklington n k m a h c : pock_check n k m a h c = true -> Forall prime (map pe_qz c) -> prime n.
Proof.
  intros C P. unfold pock_check in C. rewrite !andb_true_iff in C. destruct C as [[[[[[C1 C6] C7] C2] C5] C3] C4]. apply Z.leb_le in C6. apply Z.eqb_eq in C7.
  apply Z.leb_le in C1. apply Z.ltb_lt in C4. apply nodupb_ok in C2. apply Z.eqb_eq in C5.
  assert (EA : a ^ (n - 1) mod n = 1).
  { pose proof (powh_ok n k m a (Z.to_pos (n - 1)) h C6 C7) as PH. rewrite C5, Z2Pos.id in PH by lia.
    rewrite <- PH. apply Z.mod_small; lia. }
  destruct (prime_dec n) as [|Np]; [assumption|exfalso].
  destruct (small_prime_divisor n C1 Np) as (r & Pr & Dr & Hr).
  assert (Hr2 : 2 <= r) by (destruct Pr; lia).
  assert (D : (prod_list (map pe_qz c) | r - 1)).
  { apply prime_prod_divides; [lia|assumption|assumption|].
    apply Forall_forall. intros q Iq. rewrite Forall_forall in P. pose proof (P q Iq) as Pq.
    apply in_map_iff in Iq. destruct Iq as (x & E & I). subst q.
    rewrite forallb_forall in C3. apply (pock_entry_ok n k m a x r); auto. }
  apply Z.divide_pos_le in D; [|lia]. 
  assert (0 < prod_list (map pe_qz c) + 1).
  { assert (0 < prod_list (map pe_qz c)); [|lia]. clear - P. induction c as [|x c IH]; cbn [map prod_list fold_right]; [unfold prod_list; cbn; lia|].
    inversion P; subst. specialize (IH H2). unfold prod_list in *. cbn [fold_right]. destruct H1. nia. }
  nia.
Qed.

(** Trial division for small primes. *)
Fixpoint trial (fuel : nat) (n d : Z) : bool :=
  match fuel with
  | O => false
  | S f => if n <? d * d then true else if n mod d =? 0 then false else trial f n (d + 1)
  end.
Lemma trial_ok f n d : trial f n d = true -> 2 <= d -> (forall x, 2 <= x < d -> ~ (x | n)) ->
  forall x, 2 <= x -> x * x <= n -> ~ (x | n).
Proof.
  revert d. induction f as [|f IH]; intros d E Hd H x Hx Hxx; cbn in E; [discriminate|].
  destruct (n <? d * d) eqn:E1.
  - apply Z.ltb_lt in E1. apply H. nia.
  - destruct (n mod d =? 0) eqn:E2; [discriminate|]. apply Z.eqb_neq in E2.
    apply (IH (d + 1) E); [lia| |assumption|assumption].
    intros y Hy. destruct (Z.eq_dec y d) as [->|]; [|apply H; lia].
    intros D. apply E2. apply Zdivide_mod; exact D.
Qed.
Definition small_prime (n : Z) : bool := (2 <=? n) && trial 3000 n 2.
Lemma small_prime_ok n : small_prime n = true -> prime n.
Proof.
  unfold small_prime. rewrite andb_true_iff. intros [E1 E2]. apply Z.leb_le in E1.
  destruct (prime_dec n) as [|Np]; [assumption|exfalso].
  destruct (small_prime_divisor n E1 Np) as (r & Pr & Dr & Hr).
  apply (trial_ok _ _ _ E2) in Dr; auto; [lia|lia|destruct Pr; lia].
Qed.
