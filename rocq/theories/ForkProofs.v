(** * Proofs about rewinding a range proof at its common challenge *)
From Coq Require Import ZArith List Lia.
From Verif Require Import Go Wire Big Crypto Spec SpecZk CurveGroup ZkBase Range SpecRange RangeProofs GspfsProofs MeaningProofs SpecFork.
Import ListNotations.
Open Scope Z_scope.

(** more runs than points: two runs share a point *)
Lemma pigeon {A} (f : A -> point) (g : A -> Z) : forall (l : list A) ps, (forall a, In a l -> In (f a) ps) ->
  NoDup (map g l) -> (length ps < length l)%nat -> exists a b, In a l /\ In b l /\ g a <> g b /\ f a = f b.
Proof.
  induction l as [|a l IH]; intros ps Hin Hd Hl; [cbn in Hl; lia|].
  cbn [map] in Hd. apply NoDup_cons_iff in Hd. destruct Hd as [Ha Hd].
  destruct (in_dec point_eq_dec (f a) (map f l)) as [I|I].
  - apply in_map_iff in I. destruct I as (b & Eb & Hb). exists a, b. split; [now left|]. split; [now right|].
    split; [|symmetry; exact Eb]. intros E. apply Ha. rewrite E. now apply in_map.
  - destruct (in_split (f a) ps (Hin a (or_introl eq_refl))) as (p1 & p2 & Ep).
    destruct (IH (p1 ++ p2)) as (x & y & Hx & Hy & N1 & E1).
    + intros b Hb. specialize (Hin b (or_intror Hb)). rewrite Ep in Hin. apply in_app_or in Hin. apply in_or_app.
      destruct Hin as [H|[H|H]]; [now left| |now right]. exfalso. apply I. rewrite H. now apply in_map.
    + exact Hd.
    + rewrite Ep in Hl. rewrite app_length in *. cbn [length] in Hl. lia.
    + exists x, y. auto with datatypes.
Qed.
Lemma smul_same h P Q : is_point P -> is_point Q -> h mod N <> 0 -> smul h P = smul h Q -> P = Q.
Proof.
  intros HP HQ Hh E. rewrite <- (smul_ninv h P HP Hh), <- (smul_ninv h Q HQ Hh). generalize (ninv h). intros k.
  rewrite <- !smul_mul by isp. rewrite !(Z.mul_comm h k). rewrite !smul_mul by isp. f_equal. exact E.
Qed.
Lemma fork_early i last early h0 (runs : list run) :
  (forall r, In r runs -> sameStart i last early h0 r) -> NoDup (map (fun r => rnE r mod N) runs) ->
  (length early < length runs)%nat ->
  exists r r', In r runs /\ In r' runs /\ rnE r mod N <> rnE r' mod N /\ rnC r = rnC r' /\
    rnC r = ped (2 ^ Z.of_nat i) (slope 1 1 (rnS r) (rnE r) (rnS r') (rnE r')).
Proof.
  intros H D L. destruct (pigeon (rnT i) (fun r => rnE r mod N) runs early) as (r & r' & I & I' & Ne & E);
    [intros a Ha; apply (H a Ha)|exact D|exact L|].
  exists r, r'. split; [exact I|]. split; [exact I'|]. split; [exact Ne|].
  destruct (H r I) as (HC & P & Q & El & _ & Eh & Hh). destruct (H r' I') as (HC' & P' & Q' & El' & _ & Eh' & Hh').
  assert (EC : rnC r = rnC r').
  { unfold rnEnd, ringR in El, El'. unfold rnT in *. rewrite Eh in El. rewrite Eh', <- E in El'.
    rewrite eff_plain in El, El' by assumption. apply (smul_same _ _ _ HC HC' Hh). congruence. }
  split; [exact EC|]. unfold rnT in E. rewrite <- EC in E.
  exact (ring_extract_one (rnE r) (rnE r') i (rnC r) (rnS r) (rnS r') HC Q Ne E).
Qed.

(** two runs for a committed bit 1 *)
Lemma early_run i w c d x e s : 2 ^ Z.of_nat i = w -> d = c - w -> smul x Htab = smul d G -> plain (smul c G) -> plain (smul d G) -> s = 7 + e * x ->
  sameStart i (smul c G) [smul 7 Htab] (fun _ => 1) (MkRun (shaC 1) e (smul c G) s).
Proof.
  intros Ew Ed Ex Pc Pd Es.
  assert (ED : padd (smul c G) (pneg (smul w G)) = smul d G) by (rewrite Ed; gpush; f_equal; ring).
  assert (Q : ringT e i (smul c G) s = smul 7 Htab).
  { unfold ringT. rewrite Ew, ED. rewrite eff_plain by (isp || assumption). rewrite <- Ex, Es.
    clear. destruct (dlog Htab is_point_Htab) as [h EH]. rewrite EH. gpush. f_equal. ring. }
  unfold sameStart, rnEnd, ringR, rnT. cbn [rnSha rnE rnC rnS]. rewrite Q, hs_shaC by lia. rewrite Ew, ED.
  split; [isp|]. split; [exact Pc|]. split; [exact Pd|].
  split; [rewrite eff_plain by (isp || assumption); rewrite smul_1 by isp; reflexivity|].
  split; [left; reflexivity|]. split; [reflexivity|]. rewrite one_mod. discriminate.
Qed.
Lemma early_ped c d w x : c = w + d -> smul x Htab = smul d G -> smul c G = ped w x.
Proof. intros -> Ex. unfold ped. rewrite Ex. gpush. reflexivity. Qed.
Lemma early_case : exists x, smul 6 G = ped 2 x /\
  let r1 := MkRun (shaC 1) 1 (smul 6 G) (7 + x) in let r2 := MkRun (shaC 1) 2 (smul 6 G) (7 + 2 * x) in
  (forall r, In r [r1; r2] -> sameStart 1 (smul 6 G) [smul 7 Htab] (fun _ => 1) r) /\
  NoDup (map (fun r => rnE r mod N) [r1; r2]).
Proof.
  destruct (Htab_gen 4) as [x Ex]. exists x. split; [exact (early_ped 6 4 2 x eq_refl Ex)|]. cbv zeta.
  assert (P6 : plain (smul 6 G)) by (clear; apply plain_small; lia). assert (P4 : plain (smul 4 G)) by (clear; apply plain_small; lia). split.
  - intros r [<-|[<-|[]]].
    + refine (early_run 1 2 6 4 x 1 (7 + x) eq_refl eq_refl Ex P6 P4 _). clear. ring.
    + refine (early_run 1 2 6 4 x 2 (7 + 2 * x) eq_refl eq_refl Ex P6 P4 eq_refl).
  - cbn [map rnE]. rewrite one_mod, two_mod. clear. repeat constructor; cbn [In]; intuition discriminate.
Qed.
