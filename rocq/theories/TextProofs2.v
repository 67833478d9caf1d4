(** * Proofs about base64, string literals and the generated files *)
From Coq Require Import String Ascii ZArith List Bool Lia.
From Verif Require Import Spec Go Wire Big CodecProofs Field SpecField FieldProofs Koblitz Precompute Text SpecText TextProofs.
Import ListNotations.
Open Scope Z_scope.

(** ** base64 *)
Definition range64 : list Z := map Z.of_nat (seq 0 64).
Lemma in_range64 v : 0 <= v < 64 -> In v range64.
Proof. intros H. apply in_map_iff. exists (Z.to_nat v). split; [lia|]. apply in_seq. lia. Qed.
Lemma b64_char v : 0 <= v < 64 -> b64Val (b64Char v) = Some v.
Proof.
  intros H. assert (F : forallb (fun v => match b64Val (b64Char v) with Some w => w =? v | None => false end) range64 = true) by (vm_compute; reflexivity).
  pose proof (proj1 (forallb_forall _ _) F v (in_range64 v H)) as E. cbv beta in E. destruct (b64Val (b64Char v)) as [w|]; [|discriminate]. apply Z.eqb_eq in E. congruence.
Qed.
(** the characters of base64 are printable and are neither a quote nor a backslash *)
Definition plainChar (c : Z) : bool := (32 <=? c) && (c <=? 126) && negb (c =? 34) && negb (c =? 92).
Lemma b64_plain v : 0 <= v < 64 -> plainChar (b64Char v) = true.
Proof.
  intros H. assert (F : forallb (fun v => plainChar (b64Char v)) range64 = true) by (vm_compute; reflexivity).
  exact (proj1 (forallb_forall _ _) F v (in_range64 v H)).
Qed.
Lemma cut a k : 0 <= a -> 0 < k -> a = k * (a / k) + a mod k /\ 0 <= a / k /\ 0 <= a mod k < k.
Proof. intros A K. split; [apply Z.div_mod; lia|]. split; [apply Z.div_pos; lia|apply Z.mod_pos_bound; lia]. Qed.
Lemma join k q r : 0 < k -> 0 <= r < k -> (q * k + r) / k = q /\ (q * k + r) mod k = r.
Proof.
  intros K R. rewrite Z.div_add_l, Z.div_small, Z.add_0_r by lia. split; [reflexivity|]. rewrite Z.add_comm, Z.mod_add, Z.mod_small by lia. reflexivity.
Qed.
Lemma six a b c : is_byte a -> is_byte b -> is_byte c ->
  0 <= a / 4 < 64 /\ 0 <= a mod 4 * 16 + b / 16 < 64 /\ 0 <= b mod 16 * 4 + c / 64 < 64 /\ 0 <= c mod 64 < 64 /\
  4 * (a / 4) + (a mod 4 * 16 + b / 16) / 16 = a /\ (a mod 4 * 16 + b / 16) mod 16 * 16 + (b mod 16 * 4 + c / 64) / 4 = b /\ (b mod 16 * 4 + c / 64) mod 4 * 64 + c mod 64 = c.
Proof.
  unfold is_byte. intros A B C. destruct (cut a 4) as (A1 & A2 & A3); [lia|lia|]. destruct (cut b 16) as (B1 & B2 & B3); [lia|lia|]. destruct (cut c 64) as (C1 & C2 & C3); [lia|lia|].
  destruct (join 16 (a mod 4) (b / 16)) as [J1 J2]; [lia|lia|]. destruct (join 4 (b mod 16) (c / 64)) as [J3 J4]; [lia|lia|]. rewrite J1, J2, J3, J4. lia.
Qed.
Lemma list3 {A : Type} (Q : list A -> Prop) : Q [] -> (forall a, Q [a]) -> (forall a b, Q [a; b]) -> (forall a b c r, Q r -> Q (a :: b :: c :: r)) -> forall l, Q l.
Proof.
  intros H0 H1 H2 H3 l. assert (K : forall n l, (length l <= n)%nat -> Q l).
  { induction n as [|n IH]; intros [|a [|b [|c r]]] L; try assumption; try (cbn [length] in L; lia); auto. apply H3, IH. cbn [length] in L. lia. }
  exact (K (length l) l (le_n _)).
Qed.
Lemma b64_round bs : bytes_ok bs -> b64Decode (b64Encode bs) = Some bs.
Proof.
  revert bs. apply (list3 (fun bs => bytes_ok bs -> b64Decode (b64Encode bs) = Some bs)).
  - reflexivity.
  - intros a B. pose proof (Forall_inv B) as A. destruct (six a 0 0 A) as (R1 & R2 & _ & _ & E1 & _); [unfold is_byte; lia..|].
    change (0 / 16) with 0 in *. rewrite Z.add_0_r in *. cbn [b64Encode b64Decode]. rewrite !b64_char by assumption. change (b64Val 61) with (@None Z). cbn [Z.eqb Pos.eqb andb]. rewrite E1. reflexivity.
  - intros a b B. pose proof (Forall_inv B) as A. pose proof (Forall_inv (Forall_inv_tail B)) as B'. destruct (six a b 0 A B') as (R1 & R2 & R3 & _ & E1 & E2 & _); [unfold is_byte; lia|].
    change (0 / 64) with 0 in *. rewrite Z.add_0_r in *. cbn [b64Encode b64Decode]. rewrite !b64_char by assumption. change (b64Val 61) with (@None Z). cbn [Z.eqb Pos.eqb andb]. rewrite E1, E2. reflexivity.
  - intros a b c r IH B. inversion B as [|? ? A B1]; subst. inversion B1 as [|? ? A2 B2]; subst. inversion B2 as [|? ? A3 B3]; subst.
    destruct (six a b c A A2 A3) as (R1 & R2 & R3 & R4 & E1 & E2 & E3). cbn [b64Encode b64Decode]. rewrite !b64_char by assumption. rewrite IH by exact B3. rewrite E1, E2, E3. reflexivity.
Qed.
Lemma b64_len bs : blen (b64Encode bs) = b64EncodedLen (blen bs).
Proof.
  revert bs. apply list3; try reflexivity. intros a b c r IH. unfold b64EncodedLen, blen in *. cbn [b64Encode length]. rewrite !Nat2Z.inj_succ, IH.
  replace (Z.succ (Z.succ (Z.succ (Z.of_nat (length r)))) + 2) with (1 * 3 + (Z.of_nat (length r) + 2)) by lia. rewrite Z.div_add_l by lia. lia.
Qed.
Lemma b64_chars bs : bytes_ok bs -> Forall (fun c => plainChar c = true) (b64Encode bs).
Proof.
  revert bs. apply (list3 (fun bs => bytes_ok bs -> Forall (fun c => plainChar c = true) (b64Encode bs))).
  - constructor.
  - intros a B. pose proof (Forall_inv B) as A. destruct (six a 0 0 A) as (R1 & R2 & _); [unfold is_byte; lia..|]. change (0 / 16) with 0 in *. rewrite Z.add_0_r in *.
    cbn [b64Encode]. repeat constructor; apply b64_plain; assumption.
  - intros a b B. pose proof (Forall_inv B) as A. pose proof (Forall_inv (Forall_inv_tail B)) as B'. destruct (six a b 0 A B') as (R1 & R2 & R3 & _); [unfold is_byte; lia|].
    change (0 / 64) with 0 in *. rewrite Z.add_0_r in *. cbn [b64Encode]. repeat constructor; apply b64_plain; assumption.
  - intros a b c r IH B. inversion B as [|? ? A B1]; subst. inversion B1 as [|? ? A2 B2]; subst. inversion B2 as [|? ? A3 B3]; subst.
    destruct (six a b c A A2 A3) as (R1 & R2 & R3 & R4 & _). cbn [b64Encode]. repeat (constructor; [apply b64_plain; assumption|]). apply IH, B3.
Qed.

(** ** literals *)
Definition range128 : list Z := map Z.of_nat (seq 0 128).
Lemma in_range128 v : 0 <= v < 128 -> In v range128.
Proof. intros H. apply in_map_iff. exists (Z.to_nat v). split; [lia|]. apply in_seq. lia. Qed.
(** one character of a literal: how many characters it takes and what it means *)
Definition one (s : list Z) : option (Z * nat) :=
  match s with
  | c :: r =>
      if (c =? 34) || (c =? 10) then None
      else if c =? 92 then
        match r with
        | x :: r2 => if x =? 120 then match r2 with h :: l :: _ => match hexVal h, hexVal l with Some a, Some b => Some (16 * a + b, 4%nat) | _, _ => None end | _ => None end
                     else match escape x with Some e => Some (e, 2%nat) | None => None end
        | [] => None
        end
      else Some (c, 1%nat)
  | [] => None
  end.
Lemma literal_one s v n : one s = Some (v, n) -> literal s = match literal (skipn n s) with Some (t, rest) => Some (v :: t, rest) | None => None end.
Proof.
  destruct s as [|c r]; [discriminate|]. cbn [one literal]. destruct (c =? 34); [discriminate|]. destruct (c =? 10); [discriminate|]. cbn [orb].
  destruct (c =? 92).
  - destruct r as [|x r2]; [discriminate|]. destruct (x =? 120).
    + destruct r2 as [|h [|l r3]]; try discriminate. destruct (hexVal h) as [a|]; [|discriminate]. destruct (hexVal l) as [b|]; [|discriminate].
      intros E. injection E as <- <-. cbn [skipn]. destruct (literal r3) as [[t rest]|]; reflexivity.
    + destruct (escape x) as [e|]; [|discriminate]. intros E. injection E as <- <-. cbn [skipn]. destruct (literal r2) as [[t rest]|]; reflexivity.
  - intros E. injection E as <- <-. cbn [skipn]. destruct (literal r) as [[t rest]|]; reflexivity.
Qed.
Lemma quote_one c r : 0 <= c < 128 -> one (quoteChar c ++ r) = Some (c, length (quoteChar c)).
Proof.
  intros H. unfold quoteChar.
  destruct (Z.eqb_spec c 34) as [->|N1]; [reflexivity|]. destruct (Z.eqb_spec c 92) as [->|N2]; [reflexivity|].
  destruct ((32 <=? c) && (c <=? 126)) eqn:P.
  { apply andb_prop in P. destruct P as [P _]. apply Z.leb_le in P. cbn [app one length]. rewrite (proj2 (Z.eqb_neq c 34) N1), (proj2 (Z.eqb_neq c 92) N2), (proj2 (Z.eqb_neq c 10)) by lia. reflexivity. }
  destruct (Z.eqb_spec c 7) as [->|_]; [reflexivity|]. destruct (Z.eqb_spec c 8) as [->|_]; [reflexivity|]. destruct (Z.eqb_spec c 12) as [->|_]; [reflexivity|].
  destruct (Z.eqb_spec c 10) as [->|_]; [reflexivity|]. destruct (Z.eqb_spec c 13) as [->|_]; [reflexivity|]. destruct (Z.eqb_spec c 9) as [->|_]; [reflexivity|]. destruct (Z.eqb_spec c 11) as [->|_]; [reflexivity|].
  destruct (cut c 16) as (A1 & A2 & A3); [lia|lia|]. cbn [app one length]. change (92 =? 34) with false. change (92 =? 10) with false. change (92 =? 92) with true. change (120 =? 120) with true. cbn [orb].
  rewrite !hexVal_digit by lia. rewrite <- A1. reflexivity.
Qed.
Lemma quote_literal s rest : Forall (fun c => 0 <= c < 128) s -> literal (flat_map quoteChar s ++ 34 :: rest) = Some (s, rest).
Proof.
  induction s as [|c s IH]; intros B; [reflexivity|]. cbn [flat_map]. rewrite <- app_assoc.
  rewrite (literal_one _ _ _ (quote_one c _ (Forall_inv B))). rewrite skipn_app, skipn_all, Nat.sub_diag. cbn [app skipn]. rewrite IH by exact (Forall_inv_tail B). reflexivity.
Qed.
Lemma quote_plain s : Forall (fun c => plainChar c = true) s -> flat_map quoteChar s = s.
Proof.
  induction s as [|c s IH]; intros B; [reflexivity|]. cbn [flat_map]. rewrite IH by exact (Forall_inv_tail B). pose proof (Forall_inv B) as P. unfold plainChar in P.
  apply andb_prop in P. destruct P as [P P3]. apply andb_prop in P. destruct P as [P P2]. unfold quoteChar. rewrite P. apply negb_true_iff in P2, P3. rewrite P2, P3. reflexivity.
Qed.
Lemma plain_ascii s : Forall (fun c => plainChar c = true) s -> Forall (fun c => 0 <= c < 128) s.
Proof. apply Forall_impl. intros c P. unfold plainChar in P. apply andb_prop in P. destruct P as [P _]. apply andb_prop in P. destruct P as [P _]. apply andb_prop in P. destruct P as [A B]. apply Z.leb_le in A, B. lia. Qed.

(** ** the generated files *)
Lemma declared_step f name s r : stripPrefix (ascii "var " ++ ascii name ++ ascii " = " ++ [34]) s = None -> s <> [] -> dropLine s = r -> declared (S f) name s = declared f name r.
Proof. intros P N D. cbn [declared]. rewrite P, D. destruct s; [congruence|reflexivity]. Qed.
Lemma declared_here f name s t rest : literal s = Some (t, rest) -> declared (S f) name (ascii "var " ++ ascii name ++ ascii " = " ++ 34 :: s) = Some t.
Proof.
  intros L. cbn [declared].
  assert (S : forall p q, stripPrefix p (p ++ q) = Some q) by (induction p as [|a p IH]; intros q; [destruct q; reflexivity|cbn [app stripPrefix]; rewrite Z.eqb_refl; apply IH]).
  replace (ascii "var " ++ ascii name ++ ascii " = " ++ 34 :: s) with ((ascii "var " ++ ascii name ++ ascii " = " ++ [34]) ++ s) by (rewrite <- !app_assoc; reflexivity).
  rewrite S, L. reflexivity.
Qed.
(** nine lines precede the declaration *)
Lemma header_skip f name rest : declared (9 + f) name (header ++ rest) = declared f name rest.
Proof.
  unfold header, nl. rewrite <- !app_assoc.
  assert (L : forall l r, Forall (fun c => c <> 10) l -> dropLine (l ++ [10] ++ r) = r).
  { induction l as [|c l IH]; intros r F; [reflexivity|]. cbn [app dropLine]. rewrite (proj2 (Z.eqb_neq c 10) (Forall_inv F)). apply IH, (Forall_inv_tail F). }
  assert (N : forall l, forallb (fun c => negb (c =? 10)) l = true -> Forall (fun c => c <> 10) l).
  { intros l H. apply Forall_forall. intros c I. pose proof (proj1 (forallb_forall _ _) H c I) as E. cbv beta in E. apply negb_true_iff, Z.eqb_neq in E. exact E. }
  assert (ST : forall g l r, match l with [] => True | c :: _ => c <> 118 /\ c <> 10 end -> forallb (fun c => negb (c =? 10)) l = true ->
    declared (S g) name (l ++ [10] ++ r) = declared g name r).
  { intros g l r H E. apply declared_step; [|destruct l; discriminate|apply L, N, E].
    change (ascii "var ") with (118 :: ascii "ar "). cbn [app stripPrefix].
    destruct l as [|c l]; cbn [app]; [reflexivity|]. rewrite (proj2 (Z.eqb_neq 118 c)) by (intros X; apply (proj1 H); symmetry; exact X). reflexivity. }
  assert (S0 : forall g r, declared (S g) name ([10] ++ r) = declared g name r) by (intros g r; exact (ST g [] r I eq_refl)).
  change (9 + f)%nat with (S (S (S (S (S (S (S (S (S f))))))))).
  rewrite ST by (try reflexivity; split; discriminate). rewrite ST by (try reflexivity; split; discriminate). rewrite ST by (try reflexivity; split; discriminate).
  rewrite S0. rewrite ST by (try reflexivity; split; discriminate). rewrite S0. rewrite ST by (try reflexivity; split; discriminate). rewrite ST by (try reflexivity; split; discriminate).
  rewrite S0. reflexivity.
Qed.
Lemma variable_ok compress name serialized : bytes_ok (compress serialized) ->
  variableIn name (sourceFile compress name serialized) = Some (b64Encode (compress serialized)).
Proof.
  intros B. unfold variableIn, sourceFile, quote.
  set (E := b64Encode (compress serialized)).
  assert (LH : exists k, length (header ++ ascii "var " ++ ascii name ++ ascii " = " ++ (34 :: flat_map quoteChar E ++ [34]) ++ nl) = (9 + S k)%nat).
  { rewrite app_length. exists (length header - 10 + length (ascii "var " ++ ascii name ++ ascii " = " ++ (34 :: flat_map quoteChar E ++ [34])%Z ++ nl))%nat.
    assert (H : (10 <= length header)%nat) by (apply Nat.leb_le; vm_compute; reflexivity). lia. }
  destruct LH as (k & ->). rewrite header_skip. cbn [app]. apply (declared_here k name _ _ nl). rewrite <- app_assoc. cbn [app].
  apply quote_literal, plain_ascii. unfold E. apply b64_chars, B.
Qed.

(** ** what the generator writes is bytes *)
Lemma flat_forall {A B : Type} (Q : B -> Prop) (f : A -> list B) l : (forall a, Forall Q (f a)) -> Forall Q (flat_map f l).
Proof. intros H. induction l as [|a l IH]; [constructor|]. cbn [flat_map]. apply Forall_app. split; [apply H|exact IH]. Qed.
Lemma windows_bytes dp : bytes_ok (serializeWindows dp).
Proof.
  assert (F : forall f, bytes_ok (putField f)).
  { intros f. unfold putField. apply flat_forall. intros v. unfold le32. repeat constructor; apply Z.mod_pos_bound; lia. }
  unfold serializeWindows. apply flat_forall. intros n. apply flat_forall. intros [[x y] z]. unfold putPoint. apply Forall_app. split; [apply F|]. apply Forall_app. split; apply F.
Qed.
Lemma serialized_bytes bs : SerializedBytePoints = Ok bs -> bytes_ok bs.
Proof. unfold SerializedBytePoints. destruct (getDoublingPoints (curveGx, curveGy)) as [dp|]; [|discriminate]. cbn [bind]. intros E. injection E as <-. apply windows_bytes. Qed.
Lemma serializedH_bytes sha bs : SerializedBytePointsH sha = Ok bs -> bytes_ok bs.
Proof. unfold SerializedBytePointsH. destruct (getDoublingPointsH sha) as [dp|]; [|discriminate]. cbn [bind]. intros E. injection E as <-. apply windows_bytes. Qed.
Lemma b64_nonempty bs : bs <> [] -> b64Encode bs <> [].
Proof. destruct bs as [|a [|b [|c r]]]; [congruence|discriminate..]. Qed.
