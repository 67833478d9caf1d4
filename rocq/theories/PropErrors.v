(** * C85: the text of an error tells which check failed *)
From Coq Require Import String ZArith List Bool Lia.
From Verif Require Import Go Wire Big Crypto Spec CurveZ CurveGroup Order SpecZk ZkBase PointProofs Gspfs Equivalence Consistency EqConsProofs
  Disjunctive DisjProofs Abc Range SpecRange RangeProofs PubKey Signature Text Errors SpecErrors ErrorsProofs ErrorsProofs2 ErrorsProofs3 ErrorsProofs4.
Import ListNotations.
Open Scope Z_scope.

(** C85: the functions with texts do what the functions of the other theorems do: forget
    the text and nothing else has changed, for every input. *)
Theorem C85_texts_only_added : forall sha zk,
  (forall b A x r, forget (NewGSPFSProofBaseE sha zk b A x r) = NewGSPFSProofBase sha zk b A x r) /\
  (forall pf A, forget (GSPFSVerifyE sha pf zk A) = GSPFSVerify sha pf zk A) /\
  (forall b1 r1 b2 r2 x r, forget (NewEquivalenceProofE sha zk b1 r1 b2 r2 x r) = NewEquivalenceProof sha zk b1 r1 b2 r2 x r) /\
  (forall pf b1 r1 b2 r2, forget (EquivalenceVerifyE sha pf zk b1 r1 b2 r2) = EquivalenceVerify sha pf zk b1 r1 b2 r2) /\
  (forall cm tok pk v r d1 d2, forget (NewConsistencyProofE sha zk cm tok pk v r d1 d2) = NewConsistencyProof sha zk cm tok pk v r d1 d2) /\
  (forall pf cm tok pk, forget (ConsistencyVerifyE sha pf zk cm tok pk) = ConsistencyVerify sha pf zk cm tok pk) /\
  (forall b1 r1 b2 r2 x s d1 d2 d3,
     forget (NewDisjunctiveProofE sha zk b1 r1 b2 r2 x s d1 d2 d3) = NewDisjunctiveProof sha zk b1 r1 b2 r2 x s d1 d2 d3) /\
  (forall pf b1 r1 b2 r2, forget (DisjunctiveVerifyE sha pf zk b1 r1 b2 r2) = DisjunctiveVerify sha pf zk b1 r1 b2 r2) /\
  (forall cm tok v sk s rn, forget (NewABCProofE sha zk cm tok v sk s rn) = NewABCProof sha zk cm tok v sk s rn) /\
  (forall pf cm tok, forget (ABCVerifyE sha pf zk cm tok) = ABCVerify sha pf zk cm tok) /\
  (forall A B ta tb a b sk rn, forget (NewInequalityProofE sha zk A B ta tb a b sk rn) = NewInequalityProof sha zk A B ta tb a b sk rn) /\
  (forall pf cm tok, forget (InequalityVerifyE sha pf zk cm tok) = InequalityVerify sha pf zk cm tok) /\
  (forall v rn, forget (NewRangeProofE sha zk v rn) = NewRangeProof sha zk v rn) /\
  (forall pf cm, forget (RangeVerifyE sha pf zk cm) = RangeVerify sha pf zk cm).
Proof.
  intros sha zk.
  split; [intros; apply forget_gspfs_prove|]. split; [intros; apply forget_gspfs|]. split; [intros; apply forget_equiv_prove|].
  split; [intros; apply forget_equiv|]. split; [intros; apply forget_cons_prove|]. split; [intros; apply forget_cons|].
  split; [intros; apply forget_disj_prove|]. split; [intros; apply forget_disj|]. split; [intros; apply forget_abc_prove|].
  split; [intros; apply forget_abc|]. split; [intros; apply forget_ineq_prove|]. split; [intros; apply forget_ineq|].
  split; [intros; apply forget_range_prove|]. intros; apply forget_range.
Qed.
Print Assumptions C85_texts_only_added.

(** ** The verifiers *)

(** C85: GSPFS *)
Theorem C85_gspfs : forall sha zk A B U v c, std zk -> is_point A -> is_point B -> is_point U ->
  reports (GSPFSVerifyE sha (Some (MkGSPFS (pt B) (pt U) (Some v) (Some c))) zk (pt A))
    [(fs sha [A; U] = c, says "GSPFSProof.Verify - calculated challenge and proof's challenge do not agree!");
     (pm U (padd (smul v (eff B)) (smul c (eff A))),
        says "GSPFSProof.Verify - proof's final value and verification final value do not agree!")].
Proof. intros. apply gspfs_reports; assumption. Qed.
Print Assumptions C85_gspfs.

(** C85: equivalence; the first text has the challenge of the proof and the computed one in it *)
Theorem C85_equivalence : forall sha zk B1 R1 B2 R2 U1 U2 c s, std zk ->
  is_point B1 -> is_point R1 -> is_point B2 -> is_point R2 -> is_point U1 -> is_point U2 ->
  reports (EquivalenceVerifyE sha (Some (MkEquiv (pt U1) (pt U2) (Some c) (Some s))) zk (pt B1) (pt R1) (pt B2) (pt R2))
    [(fs sha [B1; R1; B2; R2; U1; U2] = c,
        saysNumbers "EquivalenceVerify - challenge comparison failed. proof: " c " calculated: " (fs sha [B1; R1; B2; R2; U1; U2]));
     (pm (smul s (eff B1)) (padd U1 (smul c (eff R1))), says "EquivalenceVerify - sG comparison did not pass");
     (pm (smul s (eff B2)) (padd U2 (smul c (eff R2))), says "EquivalenceVerify - sH comparison did not pass")].
Proof. intros. apply equiv_reports; assumption. Qed.
Print Assumptions C85_equivalence.

(** C85: consistency *)
Theorem C85_consistency : forall sha zk CM CMTok PK T1 T2 c s1 s2, std zk ->
  is_point CM -> is_point CMTok -> is_point PK -> is_point T1 -> is_point T2 ->
  reports (ConsistencyVerifyE sha (Some (MkCons (pt T1) (pt T2) (Some c) (Some s1) (Some s2))) zk (pt CM) (pt CMTok) (pt PK))
    [(fs sha [G; Hgen; CM; CMTok; PK; T1; T2] = c,
        saysNumbers "ConsistencyVerify - c comparison failed. proof: " c " calculated: " (fs sha [G; Hgen; CM; CMTok; PK; T1; T2]));
     (pm (ped s1 s2) (padd T1 (smul c (eff CM))), says "ConsistencyVerify - CM check is failing");
     (pm (smul s2 (eff PK)) (padd T2 (smul c (eff CMTok))), says "ConsistencyVerify - CMTok check is failing")].
Proof. intros. apply cons_reports; assumption. Qed.
Print Assumptions C85_consistency.

(** C85: disjunctive *)
Theorem C85_disjunctive : forall sha zk B1 R1 B2 R2 T1 T2 c c1 c2 s1 s2, std zk ->
  is_point B1 -> is_point R1 -> is_point B2 -> is_point R2 -> is_point T1 -> is_point T2 ->
  reports (DisjunctiveVerifyE sha (Some (MkDisj (pt T1) (pt T2) (Some c) (Some c1) (Some c2) (Some s1) (Some s2))) zk
             (pt B1) (pt R1) (pt B2) (pt R2))
    [(fs sha [B1; R1; B2; R2; T1; T2] = c, says "DisjunctiveVerify - checkC does not agree with proofC");
     ((c1 + c2) mod N = c, says "DisjunctiveVerify - totalC does not agree with proofC");
     (pm (padd T1 (smul c1 (eff R1))) (smul s1 (eff B1)), says "DisjunctiveVerify - s1G not equal to T1 + c1A");
     (pm (padd (smul c2 (eff R2)) T2) (smul s2 (eff B2)), says "DisjunctiveVerify - s2G not equal to T2 + c2B")].
Proof. intros. apply disj_reports; assumption. Qed.
Print Assumptions C85_disjunctive.

(** C85: ABC and inequality.  One text stands for every failure of the inner disjunctive
    proof, and the third text carries the name ABCProof, which is that of the prover's texts. *)
Theorem C85_abc : forall sha zk CM CT B C T1 T2 c j k l tok dj, std zk ->
  is_point CM -> is_point CT -> is_point B -> is_point C -> is_point T1 -> is_point T2 ->
  DisjunctiveVerify sha dj zk (pt CM) (pt CT) (pt Hgen) (pt (padd C (pneg G))) <> Panic ->
  let pf := Some (MkABC (pt B) (pt C) (pt T1) (pt T2) (Some c) (Some j) (Some k) (Some l) tok dj) in
  let what :=
    [(accepts (DisjunctiveVerify sha dj zk (pt CM) (pt CT) (pt Hgen) (pt (padd C (pneg G)))),
        says "ABCVerify - ABCProof for disjuncAC is false or not generated properly");
     (fs sha [G; Hgen; CM; CT; B; C; T1; T2] = c, says "ABCVerify - proof contains incorrect challenge");
     (pm (padd (smul c (eff CM)) T1) (padd (smul j G) (smul k (eff CT))), says "ABCProof - cCM + T1 != jG + kCMTok");
     (pm (padd (smul c (eff C)) T2) (padd (smul j (eff B)) (smul l Htab)), says "ABCVerify - cC + T2 != jB + lH")] in
  reports (ABCVerifyE sha pf zk (pt CM) (pt CT)) what /\ reports (InequalityVerifyE sha pf zk (pt CM) (pt CT)) what.
Proof. intros. split; apply abc_reports; assumption. Qed.
Print Assumptions C85_abc.

(** C85: range proofs: an incomplete entry is reported with its number, before anything else
    and for every other input; then the three checks. *)
Theorem C85_range : forall sha zk,
  (forall pf comm, existsb tupleNil (rpTuples pf) = true ->
     reports (RangeVerifyE sha (Some pf) zk comm) (complete 0 (rpTuples pf))) /\
  (std zk -> forall A e cs comm, is_point A -> is_point comm -> Forall (fun c => is_point (fst c)) cs -> (length cs <= 64)%nat ->
     reports (RangeVerifyE sha (Some (MkRange (pt A) (Some e) (tuples cs))) zk (pt comm))
       [(e = hs sha (rings sha e 0 cs), says "RangeProof.Verify - calculatedE0 does not match");
        (pm (psum (map fst cs)) A, says "RangeProof.Verify - ProofAggregate does not match totalPoint");
        (pm comm (psum (map fst cs)), says "RangeProof.Verify - ProofAggregate does not match commitment")]).
Proof. intros. split; [intros; apply range_incomplete; assumption|intros; apply range_reports; assumption]. Qed.
Print Assumptions C85_range.

(** C85: a nil proof is reported by name, except by ABC, which crashes. *)
Theorem C85_nil : forall sha zk,
  (forall A, reports (GSPFSVerifyE sha None zk A) [(False, says "GSPFSProof.Verify - passed proof is nil")]) /\
  (forall b1 r1 b2 r2, reports (EquivalenceVerifyE sha None zk b1 r1 b2 r2) [(False, says "EquivalenceVerify - passed proof is nil")]) /\
  (forall cm tok pk, reports (ConsistencyVerifyE sha None zk cm tok pk) [(False, says "ConsistencyProof.Verify - passed proof is nil")]) /\
  (forall b1 r1 b2 r2, reports (DisjunctiveVerifyE sha None zk b1 r1 b2 r2) [(False, says "DisjunctiveProof.Verify - passed proof is nil")]) /\
  (forall cm tok, reports (InequalityVerifyE sha None zk cm tok) [(False, says "InequalityProof.Verify - passed proof is nil")]) /\
  (forall cm, reports (RangeVerifyE sha None zk cm) [(False, says "RangeProof.Verify - passed proof is nil")]) /\
  (forall cm tok, ABCVerifyE sha None zk cm tok = Panic).
Proof.
  intros. do 6 (split; [intros; apply rep_false; apply FailsHere; [intros []|reflexivity]|]). reflexivity.
Qed.
Print Assumptions C85_nil.

(** ** The provers *)

(** C85: each text of a prover tells which relation does not hold or, with its own words,
    that the random source failed; no number of the secret is in it. *)
Theorem C85_provers : forall sha zk src, std zk ->
  (forall B A x rnd, is_point B -> is_point A ->
     provesOr src (NewGSPFSProofBaseE sha zk (pt B) (pt A) (Some x) rnd)
       [(pm (smul x B) A, says "GSPFSProve: - the point given is not xG"); (rnd <> None, eq src)]) /\
  (forall B1 R1 B2 R2 x rnd, is_point B1 -> is_point R1 -> is_point B2 -> is_point R2 ->
     provesOr src (NewEquivalenceProofE sha zk (pt B1) (pt R1) (pt B2) (pt R2) (Some x) rnd)
       [(pm (smul x (eff B1)) R1, says "EquivalenceProve - Base1 and Result1 are not related by x");
        (pm (smul x (eff B2)) R2, says "EquivalenceProve - Base2 and Result2 are not related by x"); (rnd <> None, eq src)]) /\
  (forall CM CMTok PK v r rnd1 rnd2, is_point CM -> is_point CMTok -> is_point PK ->
     provesOr src (NewConsistencyProofE sha zk (pt CM) (pt CMTok) (pt PK) (Some v) (Some r) rnd1 rnd2)
       [(pm CM (ped v r), says "ConsistencyProve - value and randomVal does not produce CM");
        (pm CMTok (smul r (eff PK)), says "ConsistencyProve - Pubkey and randomVal does not produce CMTok");
        (rnd1 <> None, eq src); (rnd2 <> None, eq src)]) /\
  (forall B1 R1 B2 R2 x side d1 d2 d3, is_point B1 -> is_point R1 -> is_point B2 -> is_point R2 ->
     provesOr src (NewDisjunctiveProofE sha zk (pt B1) (pt R1) (pt B2) (pt R2) (Some x) side d1 d2 d3)
       [(side = Left \/ side = Right, says "DisjunctiveProve - invalid side provided");
        (pm (smul x (eff (if side =? Left then B1 else B2))) (if side =? Left then R1 else R2),
           says "DisjunctiveProve - Base and Result to be proved not related by x");
        (d1 <> None /\ d2 <> None /\ d3 <> None, eq src)]).
Proof.
  intros sha zk src S. split; [intros; apply gspfs_proves; assumption|]. split; [intros; apply equiv_proves; assumption|].
  split; [intros; apply cons_proves; assumption|]. intros; apply disj_proves; assumption.
Qed.
Print Assumptions C85_provers.

(** C85: the ABC prover (with a secret key and a value that have inverses, else C36 and C37
    say it crashes) *)
Theorem C85_abc_prover : forall sha zk src CM CT v sk side rn, std zk -> is_point CM -> is_point CT ->
  sk mod N <> 0 -> (side = Right -> v <> 0 -> v mod N <> 0) ->
  provesOr src (NewABCProofE sha zk (pt CM) (pt CT) (Some v) (Some sk) side rn)
    [(ar1 rn <> None /\ ar2 rn <> None /\ ar3 rn <> None /\ arb rn <> None /\ arc rn <> None, eq src);
     ((side = Left /\ v = 0) \/ (side = Right /\ v <> 0), says "ABCProof - invalid side-value pair passed");
     ((side = Left -> pm (smul sk (eff CM)) CT) /\ ard1 rn <> None /\ ard2 rn <> None /\ ard3 rn <> None,
        says "ABCProof - disjunctiveProve within ABCProve failed to generate")].
Proof. intros. apply abc_proves; assumption. Qed.
Print Assumptions C85_abc_prover.

(** C85: the inequality prover *)
Theorem C85_inequality_prover : forall sha zk src A B TA TB a b sk rn, std zk ->
  is_point A -> is_point B -> is_point TA -> is_point TB -> sk mod N <> 0 -> (a <> b -> (a - b) mod N <> 0) ->
  provesOr src (NewInequalityProofE sha zk (pt A) (pt B) (pt TA) (pt TB) (Some a) (Some b) (Some sk) rn)
    [(a <> b, says "InequalityProve - a and b should not be equal...");
     (ar1 rn <> None /\ ar2 rn <> None /\ ar3 rn <> None /\ arb rn <> None /\ arc rn <> None, eq src);
     (ard1 rn <> None /\ ard2 rn <> None /\ ard3 rn <> None,
        says "ABCProof - disjunctiveProve within ABCProve failed to generate")].
Proof. intros. apply ineq_proves; assumption. Qed.
Print Assumptions C85_inequality_prover.

(** C85 (refuted: an error of the random source is passed on): when the source fails in the
    inner proof the ABC prover reports, whatever the source said, that the inner proof failed. *)
Theorem C85_source_error_lost_refuted : forall sha zk CM CT v sk rn, std zk -> is_point CM -> is_point CT -> sk mod N <> 0 -> v mod N <> 0 ->
  ar1 rn <> None -> ar2 rn <> None -> ar3 rn <> None -> arb rn <> None -> arc rn <> None ->
  ard1 rn = None \/ ard2 rn = None \/ ard3 rn = None ->
  exists p e, NewABCProofE sha zk (pt CM) (pt CT) (Some v) (Some sk) Right rn = Ok (p, Some e) /\
  forall src, says "ABCProof - disjunctiveProve within ABCProve failed to generate" (Error src e).
Proof. intros. apply abc_source_lost; assumption. Qed.
Print Assumptions C85_source_error_lost_refuted.

(** C85: the range prover *)
Theorem C85_range_prover : forall sha zk v rn p o e src, NewRangeProofE sha zk (Some v) rn = Ok (p, o, e) ->
  firstFailing [(v <= 2 ^ 40, saysNumber "val " v " too big, can only prove up to 1099511627776");
                (0 <= v, says "** Trying to get a value that is out of range! Range Proof will not work!")]
    (option_map (Error src) e).
Proof. exact range_prove_text. Qed.
Print Assumptions C85_range_prover.

(** C85 (refuted: the text of an error has no secret in it): the secret value is in the text
    of the range prover when it is too big; whoever sees the text knows the value. *)
Theorem C85_range_text_reveals_refuted : forall sha zk v rn, 2 ^ 40 < v ->
  exists e, NewRangeProofE sha zk (Some v) rn = Ok (None, None, Some e) /\
  forall sha' zk' v' rn' p o e', NewRangeProofE sha' zk' (Some v') rn' = Ok (p, o, Some e') -> Error [] e' = Error [] e -> v' = v.
Proof. exact range_text_reveals. Qed.
Print Assumptions C85_range_text_reveals_refuted.

(** ** Printing, and btcec *)

(** C85: a number is printed in decimal, whatever its size and sign, and no other number is
    printed in the same way. *)
Theorem C85_decimal : forall n, isDecimal (decimal n) n /\ forall m, isDecimal (decimal n) m -> m = n.
Proof. intros n. split; [apply decimal_ok|]. intros m H. exact (isDecimal_inj _ _ _ H (decimal_ok n)). Qed.
Print Assumptions C85_decimal.

(** C85: ParsePubKey *)
Theorem C85_pubkey : forall c s, curve_ok c -> bytes_ok s -> parses (pubKeyText s) (ParsePubKey c s) (pubKeyChecks s).
Proof. exact pubkey_text. Qed.
Print Assumptions C85_pubkey.

(** C85: ParseSignature and ParseDERSignature, whenever they return (C55 says when they crash) *)
Theorem C85_signature : forall s, bytes_ok s ->
  (ParseSignature s <> Panic -> parses (sigText s) (ParseSignature s) (signatureChecks s false)) /\
  (ParseDERSignature s <> Panic -> parses (sigText s) (ParseDERSignature s) (signatureChecks s true)).
Proof. intros s B. split; intros H; apply sig_text; assumption. Qed.
Print Assumptions C85_signature.

(** C85: proofStatus prints and returns -1 only for an error and only when debugging *)
Theorem C85_proof_status : forall DEBUG src e,
  (fst (proofStatus DEBUG src e) = -1 <-> DEBUG = true /\ e <> None) /\
  (snd (proofStatus DEBUG src e) <> [] <-> DEBUG = true /\ e <> None) /\
  (forall e', e = Some e' -> DEBUG = true -> snd (proofStatus DEBUG src e) = ascii "ERROR: " ++ Error src e' ++ ascii " " ++ [10]).
Proof. exact proof_status. Qed.
Print Assumptions C85_proof_status.

(** Cases: every text of every verifier is given to someone. *)
Example C85_reached : forall sha, std specZk /\
  let gsp U c := GSPFSVerifyE sha (Some (MkGSPFS (pt G) (pt U) (Some 0) (Some c))) specZk (pt O) in
  gives (gsp G (fs sha [O; G] + 1)) "GSPFSProof.Verify - calculated challenge and proof's challenge do not agree!" /\
  gives (gsp G (fs sha [O; G])) "GSPFSProof.Verify - proof's final value and verification final value do not agree!" /\
  let eqv U1 U2 := EquivalenceVerifyE sha (Some (MkEquiv (pt U1) (pt U2) (Some (fs sha [G; O; G; O; U1; U2])) (Some 0))) specZk (pt G) (pt O) (pt G) (pt O) in
  gives (eqv G O) "EquivalenceVerify - sG comparison did not pass" /\
  gives (eqv O G) "EquivalenceVerify - sH comparison did not pass" /\
  let con T1 T2 := ConsistencyVerifyE sha (Some (MkCons (pt T1) (pt T2) (Some (fs sha [G; Hgen; O; O; G; T1; T2])) (Some 0) (Some 0))) specZk (pt O) (pt O) (pt G) in
  gives (con G O) "ConsistencyVerify - CM check is failing" /\
  gives (con O G) "ConsistencyVerify - CMTok check is failing" /\
  let dis T1 T2 c c1 := DisjunctiveVerifyE sha (Some (MkDisj (pt T1) (pt T2) (Some c) (Some c1) (Some 0) (Some 0) (Some 0))) specZk (pt G) (pt O) (pt G) (pt O) in
  let c T1 T2 := fs sha [G; O; G; O; T1; T2] in
  gives (dis G O (c G O + 1) 0) "DisjunctiveVerify - checkC does not agree with proofC" /\
  gives (dis G O (c G O) (c G O + 1)) "DisjunctiveVerify - totalC does not agree with proofC" /\
  gives (dis G O (c G O) (c G O)) "DisjunctiveVerify - s1G not equal to T1 + c1A" /\
  gives (dis O G (c O G) (c O G)) "DisjunctiveVerify - s2G not equal to T2 + c2B" /\
  let rng A e cm := RangeVerifyE sha (Some (MkRange (pt A) (Some e) [])) specZk (pt cm) in
  gives (rng O (hs sha [] + 1) O) "RangeProof.Verify - calculatedE0 does not match" /\
  gives (rng G (hs sha []) O) "RangeProof.Verify - ProofAggregate does not match totalPoint" /\
  gives (rng O (hs sha []) G) "RangeProof.Verify - ProofAggregate does not match commitment" /\
  gives (RangeVerifyE sha (Some (MkRange (pt O) None [MkTuple (pt G) (Some 1); MkTuple (EP None (Some 1)) None])) specZk (pt G)) "RangeProof.Verify - entry 1 has nil point" /\
  gives (RangeVerifyE sha (Some (MkRange (pt O) None [MkTuple (pt G) (Some 1); MkTuple (pt G) None])) specZk (pt G)) "RangeProof.Verify - entry 1 has nil scalar".
Proof. exact reached. Qed.
Example C85_reached_abc : forall sha,
  let dj := Some (MkDisj (pt O) (pt O) (Some (fs sha [O; O; Hgen; O; O; O])) (Some (fs sha [O; O; Hgen; O; O; O])) (Some 0) (Some 0) (Some 0)) in
  let abc T1 T2 c d := ABCVerifyE sha (Some (MkABC (pt G) (pt G) (pt T1) (pt T2) (Some c) (Some 0) (Some 0) (Some 0) (pt O) d)) specZk (pt O) (pt O) in
  let c T1 T2 := fs sha [G; Hgen; O; O; G; G; T1; T2] in
  gives (abc O O 0 None) "ABCVerify - ABCProof for disjuncAC is false or not generated properly" /\
  gives (abc O O (c O O + 1) dj) "ABCVerify - proof contains incorrect challenge" /\
  gives (abc G O (c G O) dj) "ABCProof - cCM + T1 != jG + kCMTok" /\
  exists h, gives (ABCVerifyE h (Some (MkABC (pt G) (pt G) (pt O) (pt O) (Some 1) (Some 0) (Some 0) (Some 0) (pt O)
                    (Some (MkDisj (pt O) (pt O) (Some 1) (Some 1) (Some 0) (Some 0) (Some 0))))) specZk (pt O) (pt O)) "ABCVerify - cC + T2 != jB + lH".
Proof. exact reached_abc. Qed.
Example C85_parsers_reached :
  pubKeyText [9] EPubLength = ascii "invalid pub key length 1" /\ decimal (-120) = ascii "-120" /\
  (exists c, curve_ok c) /\ bytes_ok [0x30; 6; 2; 1; 0; 2; 1; 1] /\
  ParseSignature [0x30; 6; 2; 1; 0; 2; 1; 1] = Ok (Fail ESigRSmall) /\
  ParseSignature [0x30; 7; 2; 1; 1; 2; 1; 1; 1] = Ok (Fail ESigFinal) /\
  sigText [0x30; 7; 2; 1; 1; 2; 1; 1; 1] ESigFinal = ascii "malformed signature: bad final length 8 != 9" /\
  ParseDERSignature [0x30; 7; 2; 2; 0; 1; 2; 1; 1] = Ok (Fail ESigRPad).
Proof. exact parsers_reached. Qed.
