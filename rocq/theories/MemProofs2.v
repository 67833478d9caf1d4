(** * The exported operations at the pointer level *)
From Coq Require Import ZArith List Bool Lia.
From Verif Require Import Go Wire Big Field Koblitz KoblitzMem SpecMem MemProofs.
From Verif Require CodecProofs.
Import ListNotations.
Open Scope Z_scope.

Lemma loc_low sp r : sp <= locals sp r. Proof. unfold locals. pose proof (idx_range r). lia. Qed.
Lemma loc_high sp r : locals sp r < sp + frame. Proof. unfold locals. pose proof (idx_range r). lia. Qed.
Lemma loc_ne sp r d : reg_beq r d = false -> locals sp r <> locals sp d.
Proof. unfold reg_beq, locals. intros E. apply Z.eqb_neq in E. lia. Qed.
Definition apartr (l l' : list reg) : bool := forallb (fun r => negb (mem_reg r l')) l.
Lemma apartr_ok sp l l' : apartr l l' = true -> apart (map (locals sp) l) (map (locals sp) l').
Proof.
  intros A p q P Q E. apply in_map_iff in P, Q. destruct P as (r & <- & P), Q as (d & <- & Q).
  unfold apartr in A. rewrite forallb_forall in A. specialize (A r P). apply negb_true_iff in A.
  assert (r = d) by (apply idx_inj; unfold locals in E; lia). subst d.
  enough (mem_reg r l' = true) by congruence. apply mem_reg_in. exact Q.
Qed.
Lemma out_regs sp l r : mem_reg r l = false -> ~ In (locals sp r) (map (locals sp) l).
Proof.
  intros M I. apply in_map_iff in I. destruct I as (d & E & I). assert (d = r) by (apply idx_inj; unfold locals in E; lia). subst d.
  apply mem_reg_in in I. congruence.
Qed.
Lemma out_low sp l q : q < sp -> ~ In q (map (locals sp) l).
Proof. intros Q I. apply in_map_iff in I. destruct I as (d & E & I). pose proof (loc_low sp d). lia. Qed.

Section ops.
Context (one sp : ptr).
Hypothesis (Lo : one < sp).
Notation e := (locals sp).
Lemma low_all l p : In p (one :: map e l) -> p < sp + frame.
Proof.
  intros [<-|I]; [unfold frame; lia|]. apply in_map_iff in I. destruct I as (d & <- & I). apply loc_high.
Qed.
Lemma one_apart l : apart [one] (map e l).
Proof. intros p q [<-|[]] I E. apply in_map_iff in I. destruct I as (d & F & I). pose proof (loc_low sp d). lia. Qed.

Section addL.
Context (m : mem) (a1 b1 c1 a2 b2 c2 a3 b3 c3 : reg).
Hypothesis (One : m one = fieldOne).
Hypothesis (C : apartr [a1; a2; a3] [b1; b2; b3] && apartr [a1; a2; a3] [c1; c2; c3] && apartr [b1; b2; b3] [c1; c2; c3] && apartr [a1] [a2] && apartr [b1] [b2] = true).
Hypothesis (Z12 : apartr [c1] [c2] = true \/ c1 = c2 /\ m (e c1) = fieldOne).
Let call := addJacobianM one (sp + frame) (e a1) (e b1) (e c1) (e a2) (e b2) (e c2) (e a3) (e b3) (e c3) m.
Lemma z12 : e c1 <> e c2 \/ e c1 = e c2 /\ m (e c1) = fieldOne.
Proof. destruct Z12 as [H|[-> H]]; [left; apply (apartr_ok sp _ _ H); left; reflexivity|right; split; [reflexivity|exact H]]. Qed.
Lemma addL_ok : (call (e a3), call (e b3), call (e c3)) = fst (addJacobian (m (e a1), m (e b1), m (e c1)) (m (e a2), m (e b2), m (e c2))).
Proof.
  pose proof C as C0.
  repeat (apply andb_prop in C0; let K := fresh "K" in destruct C0 as [C0 K]; apply (apartr_ok sp) in K). apply (apartr_ok sp) in C0.
  apply addJM_ok; [exact (low_all [a1; b1; c1; a2; b2; c2; a3; b3; c3])|exact (one_apart [a1; b1; c1; a2; b2; c2; a3; b3; c3])|exact One|assumption..|apply z12].
Qed.
Lemma addL_second : apartr [c1] [c2] = true -> apartr [a3] [a2] && apartr [b3] [b2] && apartr [c3] [c2] = true ->
  (call (e a2), call (e b2), call (e c2)) = snd (addJacobian (m (e a1), m (e b1), m (e c1)) (m (e a2), m (e b2), m (e c2))).
Proof.
  intros ZZ D. apply (apartr_ok sp) in ZZ.
  pose proof C as C0.
  repeat (apply andb_prop in C0; let K := fresh "K" in destruct C0 as [C0 K]; apply (apartr_ok sp) in K). apply (apartr_ok sp) in C0.
  repeat (apply andb_prop in D; let K := fresh "K" in destruct D as [D K]; apply (apartr_ok sp) in K). apply (apartr_ok sp) in D.
  apply addJM_second; [exact (low_all [a1; b1; c1; a2; b2; c2; a3; b3; c3])|exact (one_apart [a1; b1; c1; a2; b2; c2; a3; b3; c3])|exact One|..]; first [assumption|apply z12|apply ZZ; left; reflexivity].
Qed.
Lemma addL_low q : q < sp -> call q = m q.
Proof. intros Q. apply addJM_frame; [apply z12|unfold frame; lia|]. apply (out_low sp [a1; b1; c1; a2; b2; c2; a3; b3; c3]), Q. Qed.
Lemma addL_reg r : mem_reg r [a1; b1; c1; a2; b2; c2; a3; b3; c3] = false -> call (e r) = m (e r).
Proof. intros Q. apply addJM_frame; [apply z12|apply loc_high|]. apply (out_regs sp [a1; b1; c1; a2; b2; c2; a3; b3; c3]), Q. Qed.
End addL.

Section dblL.
Context (m : mem) (a1 b1 c1 a3 b3 c3 : reg).
Hypothesis (One : m one = fieldOne).
Hypothesis (C : apartr [a1; a3] [b1; b3] && apartr [a1; a3] [c1; c3] && apartr [b1; b3] [c1; c3] = true).
Let call := doubleJacobianM one (sp + frame) (e a1) (e b1) (e c1) (e a3) (e b3) (e c3) m.
Lemma dblL_ok : (call (e a3), call (e b3), call (e c3)) = doubleJacobian (m (e a1), m (e b1), m (e c1)).
Proof.
  pose proof C as C0.
  repeat (apply andb_prop in C0; let K := fresh "K" in destruct C0 as [C0 K]; apply (apartr_ok sp) in K). apply (apartr_ok sp) in C0.
  apply dblM_ok; [exact (low_all [a1; b1; c1; a3; b3; c3])|exact (one_apart [c1])|exact One|assumption..].
Qed.
Lemma dblL_low q : q < sp -> call q = m q.
Proof. intros Q. apply dblM_frame; [unfold frame; lia|]. apply (out_low sp [c1; a3; b3; c3]), Q. Qed.
Lemma dblL_reg r : mem_reg r [c1; a3; b3; c3] = false -> call (e r) = m (e r).
Proof. intros Q. apply dblM_frame; [apply loc_high|]. apply (out_regs sp [c1; a3; b3; c3]), Q. Qed.
End dblL.

Section affL.
Context (m : mem) (a b c : reg).
Hypothesis (C : apartr [a] [b] && apartr [a] [c] && apartr [b] [c] = true).
Lemma affL_ok : fst (toAffineM (sp + frame) (e a) (e b) (e c) m) = fieldJacobianToBigAffine (m (e a), m (e b), m (e c)).
Proof.
  pose proof C as C0.
  repeat (apply andb_prop in C0; let K := fresh "K" in destruct C0 as [C0 K]; apply (apartr_ok sp) in K). apply (apartr_ok sp) in C0.
  apply toAffineM_ok; first [apply loc_high|apply C0; left; reflexivity|apply K; left; reflexivity|apply K0; left; reflexivity].
Qed.
Lemma affL_low q : q < sp -> snd (toAffineM (sp + frame) (e a) (e b) (e c) m) q = m q.
Proof. intros Q. apply toAffineM_frame; [unfold frame; lia|]. apply (out_low sp [a; b; c]), Q. Qed.
End affL.

(** reading after writing variables of the frame *)
Lemma upd_loc m r v : upd m (e r) v (e r) = v. Proof. apply upd_eq. Qed.
Lemma upd_reg m r d v : reg_beq d r = false -> upd m (e r) v (e d) = m (e d). Proof. intros E. apply upd_ne, loc_ne, E. Qed.
Lemma upd_low m r v q : q < sp -> upd m (e r) v q = m q. Proof. intros E. apply upd_ne. pose proof (loc_low sp r). lia. Qed.
Ltac rd := repeat first [rewrite upd_loc|rewrite upd_reg by exact eq_refl].

Lemma pureOk (m m' : mem) (q : (Z * Z) * mem) v : fst q = v -> callerUnchanged sp m (snd q) -> pureCall sp m (Ok q) (Ok v).
Proof. intros A B. split; [cbn; rewrite A; reflexivity|]. intros r m'' E. injection E as E. subst q. exact B. Qed.
Lemma pureStop (m : mem) (x : R ((Z * Z) * mem)) (y : R (Z * Z)) : (forall a, x <> Ok a) -> result x = y -> pureCall sp m x y.
Proof. intros A B. split; [exact B|]. intros r m' E. destruct (A _ E). Qed.

Lemma AddM_ok m x1 y1 x2 y2 : m one = fieldOne -> pureCall sp m (AddM one sp x1 y1 x2 y2 m) (Add x1 y1 x2 y2).
Proof.
  intros One. unfold AddM, Add.
  destruct (_ && _); [apply (pureOk m m); [reflexivity|intros q Q; reflexivity]|].
  destruct (_ && _); [apply (pureOk m m); [reflexivity|intros q Q; reflexivity]|].
  unfold fromAffineM, bigAffineToField.
  destruct (fSetByteSlice (bigBytes x1)) as [v1|]; cbn [bind]; [|apply pureStop; [discriminate|reflexivity]].
  destruct (fSetByteSlice (bigBytes y1)) as [w1|]; cbn [bind]; [|apply pureStop; [discriminate|reflexivity]].
  destruct (fSetByteSlice (bigBytes x2)) as [v2|]; cbn [bind]; [|apply pureStop; [discriminate|reflexivity]].
  destruct (fSetByteSlice (bigBytes y2)) as [w2|]; cbn [bind]; [|apply pureStop; [discriminate|reflexivity]].
  cbn [exec fold_left step].
  set (m1 := upd _ (e fOne) (fSetInt 1)).
  assert (One1 : m1 one = fieldOne) by (unfold m1; rewrite !upd_low by exact Lo; exact One).
  assert (Z1' : m1 (e fOne) = fieldOne) by (unfold m1; rd; reflexivity).
  apply (pureOk m m).
  - rewrite affL_ok by exact eq_refl. f_equal. rewrite addL_ok by (first [exact One1|exact eq_refl|right; split; [reflexivity|exact Z1']]).
    unfold m1. rd. reflexivity.
  - intros q Q. rewrite affL_low by exact Q. rewrite addL_low by (first [exact Q|exact eq_refl|right; split; [reflexivity|exact Z1']]). unfold m1. rewrite !upd_low by exact Q. reflexivity.
Qed.
Lemma DoubleM_ok m x1 y1 : m one = fieldOne -> pureCall sp m (DoubleM one sp x1 y1 m) (Double x1 y1).
Proof.
  intros One. unfold DoubleM, Double.
  destruct (_ =? _); [apply (pureOk m m); [reflexivity|intros q Q; reflexivity]|].
  unfold fromAffineM, bigAffineToField.
  destruct (fSetByteSlice (bigBytes x1)) as [v1|]; cbn [bind]; [|apply pureStop; [discriminate|reflexivity]].
  destruct (fSetByteSlice (bigBytes y1)) as [w1|]; cbn [bind]; [|apply pureStop; [discriminate|reflexivity]].
  cbn [exec fold_left step].
  set (m1 := upd _ (e fOne) (fSetInt 1)).
  assert (One1 : m1 one = fieldOne) by (unfold m1; rewrite !upd_low by exact Lo; exact One).
  apply (pureOk m m).
  - rewrite affL_ok by exact eq_refl. f_equal. rewrite dblL_ok by (first [exact One1|exact eq_refl]).
    unfold m1. rd. reflexivity.
  - intros q Q. rewrite affL_low by exact Q. rewrite dblL_low by exact Q. unfold m1. rewrite !upd_low by exact Q. reflexivity.
Qed.

(** ** ScalarMult *)
Definition addPt (pos neg : Z) (q : jpt) (x y yn z : fieldVal) : jpt * (fieldVal * fieldVal * fieldVal * fieldVal) :=
  if Z.land pos 0x80 =? 0x80 then let '(q, (x, y, z)) := addJacobian q (x, y, z) in (q, (x, y, yn, z))
  else if Z.land neg 0x80 =? 0x80 then let '(q, (x, yn, z)) := addJacobian q (x, yn, z) in (q, (x, y, yn, z))
  else (q, (x, y, yn, z)).
Section addP.
Context (m : mem) (x y yn z : reg) (pos neg : Z).
Hypothesis (One : m one = fieldOne).
Hypothesis (C : apartr [x; y; yn; z] [qx; qy; qz] && apartr [x] [y; yn; z] && apartr [y] [yn; z] && apartr [yn] [z] = true).
Let call := addPM one sp (e x) (e y) (e yn) (e z) pos neg m.
Definition c9 (x y z : reg) := apartr [qx; x; qx] [qy; y; qy] && apartr [qx; x; qx] [qz; z; qz] && apartr [qy; y; qy] [qz; z; qz] && apartr [qx] [x] && apartr [qy] [y].
Lemma nin_in r l : negb (mem_reg r l) = true <-> ~ In r l.
Proof. rewrite negb_true_iff. split; intros H; [intros I; apply mem_reg_in in I; congruence|destruct (mem_reg r l) eqn:E; [apply mem_reg_in in E; contradiction|reflexivity]]. Qed.
Lemma apartr_in l l' : apartr l l' = true <-> (forall r d, In r l -> In d l' -> r <> d).
Proof.
  unfold apartr. rewrite forallb_forall. split.
  - intros H r d R D E. subst d. specialize (H r R). apply nin_in in H. exact (H D).
  - intros H r R. apply nin_in. intros D. exact (H r r R D eq_refl).
Qed.
Lemma C_in : (forall r d, In r [x; y; yn; z] -> In d [qx; qy; qz] -> r <> d) /\ x <> y /\ x <> yn /\ x <> z /\ y <> yn /\ y <> z /\ yn <> z.
Proof.
  pose proof C as D. repeat (apply andb_prop in D; let K := fresh "K" in destruct D as [D K]; rewrite apartr_in in K). rewrite apartr_in in D.
  split; [exact D|]. repeat split; first [apply K1; in_list|apply K0; in_list|apply K; in_list].
Qed.
Lemma c9_of a : In a [y; yn] -> c9 x a z = true.
Proof.
  intros A. destruct C_in as (Q & N1 & N2 & N3 & N4 & N5 & N6). unfold c9.
  assert (x <> a) by (destruct A as [<-|[<-|[]]]; assumption). assert (a <> z) by (destruct A as [<-|[<-|[]]]; assumption).
  pose proof (Q x) as Qx. pose proof (Q z) as Qz. pose proof (Q a) as Qa.
  assert (In a [x; y; yn; z]) by (destruct A as [<-|[<-|[]]]; in_list).
  rewrite !andb_true_iff; repeat match goal with |- _ /\ _ => split end; apply apartr_in; intros r d R D;
  repeat (destruct R as [<-|R]; [repeat (destruct D as [<-|D]; [first [discriminate|assumption|apply Qx; in_list|apply Qz; in_list|apply Qa; [assumption|in_list]
    |apply not_eq_sym; first [assumption|apply Qx; in_list|apply Qz; in_list|apply Qa; [assumption|in_list]]]|]); destruct D|]); destruct R.
Qed.
Lemma addPM_ok : let '(q, (x', y', yn', z')) := addPt pos neg (m (e qx), m (e qy), m (e qz)) (m (e x)) (m (e y)) (m (e yn)) (m (e z)) in
  (call (e qx), call (e qy), call (e qz)) = q /\ call (e x) = x' /\ call (e y) = y' /\ call (e yn) = yn' /\ call (e z) = z'.
Proof.
  destruct C_in as (Q & N1 & N2 & N3 & N4 & N5 & N6). unfold call, addPM, addPt.
  assert (Zz : apartr [qz] [z] = true) by (apply apartr_in; cbn [In]; intros r d [<-|[]] [<-|[]]; apply not_eq_sym, Q; in_list).
  assert (Sec : forall a, In a [y; yn] -> apartr [qx] [x] && apartr [qy] [a] && apartr [qz] [z] = true).
  { intros a A. assert (In a [x; y; yn; z]) by (destruct A as [<-|[<-|[]]]; in_list).
    rewrite !andb_true_iff; repeat match goal with |- _ /\ _ => split end; apply apartr_in; cbn [In]; intros r d [<-|[]] [<-|[]]; apply not_eq_sym, Q; first [assumption|in_list]. }
  assert (Nm : forall a b, a <> b -> In a [y; yn] -> In b [y; yn] -> mem_reg a [qx; qy; qz; x; b; z; qx; qy; qz] = false).
  { intros a b AB A B. apply negb_true_iff, nin_in. cbn [In]. assert (In a [x; y; yn; z]) by (destruct A as [<-|[<-|[]]]; in_list).
    assert (Xa : x <> a) by (destruct A as [<-|[<-|[]]]; assumption). assert (Za : z <> a) by (destruct A as [<-|[<-|[]]]; apply not_eq_sym; assumption).
    pose proof (fun d => Q a d H) as Qa.
    intros K. repeat match goal with K : _ \/ _ |- _ => destruct K as [K|K] | K : False |- _ => destruct K end; 
    first [exact (Xa K)|exact (Za K)|exact (AB (eq_sym K))|refine (Qa _ _ (eq_sym K)); in_list]. }
  destruct (Z.land pos 128 =? 128); [|destruct (Z.land neg 128 =? 128)].
  - pose proof (addL_ok m qx qy qz x y z qx qy qz One (c9_of y ltac:(in_list)) (or_introl Zz)) as A.
    pose proof (addL_second m qx qy qz x y z qx qy qz One (c9_of y ltac:(in_list)) (or_introl Zz) Zz (Sec y ltac:(in_list))) as B.
    pose proof (addL_reg m qx qy qz x y z qx qy qz (c9_of y ltac:(in_list)) (or_introl Zz) yn (Nm yn y (not_eq_sym N4) ltac:(in_list) ltac:(in_list))) as D.
    destruct (addJacobian _ _) as [q [[x' y'] z']]. cbn [fst snd] in A, B. injection B as B1 B2 B3. rewrite A, B1, B2, B3, D. auto.
  - pose proof (addL_ok m qx qy qz x yn z qx qy qz One (c9_of yn ltac:(in_list)) (or_introl Zz)) as A.
    pose proof (addL_second m qx qy qz x yn z qx qy qz One (c9_of yn ltac:(in_list)) (or_introl Zz) Zz (Sec yn ltac:(in_list))) as B.
    pose proof (addL_reg m qx qy qz x yn z qx qy qz (c9_of yn ltac:(in_list)) (or_introl Zz) y (Nm y yn N4 ltac:(in_list) ltac:(in_list))) as D.
    destruct (addJacobian _ _) as [q [[x' y'] z']]. cbn [fst snd] in A, B. injection B as B1 B2 B3. rewrite A, B1, B2, B3, D. auto.
  - auto.
Qed.
Lemma addPM_reg r : mem_reg r [qx; qy; qz; x; y; yn; z] = false -> call (e r) = m (e r).
Proof.
  intros R. unfold call, addPM. destruct C_in as (Q & _).
  assert (Zz : apartr [qz] [z] = true) by (apply apartr_in; cbn [In]; intros u d [<-|[]] [<-|[]]; apply not_eq_sym, Q; in_list).
  apply negb_true_iff, nin_in in R. cbn [In] in R.
  destruct (_ =? _); [|destruct (_ =? _); [|reflexivity]]; (apply addL_reg; [apply c9_of; in_list|left; exact Zz|apply negb_true_iff, nin_in; cbn [In]; tauto]).
Qed.
Lemma addPM_low q : q < sp -> call q = m q.
Proof.
  intros L. unfold call, addPM. destruct C_in as (Q & _).
  assert (Zz : apartr [qz] [z] = true) by (apply apartr_in; cbn [In]; intros u d [<-|[]] [<-|[]]; apply not_eq_sym, Q; in_list).
  destruct (_ =? _); [|destruct (_ =? _); [|reflexivity]]; (apply addL_low; [apply c9_of; in_list|left; exact Zz|exact L]).
Qed.
End addP.

(** the memory holds the variables of the functional loop *)
Section loop.
Context (m0 : mem) (One0 : m0 one = fieldOne) (ya yna yb ynb : reg).
Hypothesis (Ca : apartr [p1x; ya; yna; p1z] [qx; qy; qz] && apartr [p1x] [ya; yna; p1z] && apartr [ya] [yna; p1z] && apartr [yna] [p1z] = true).
Hypothesis (Cb : apartr [p2x; yb; ynb; p2z] [qx; qy; qz] && apartr [p2x] [yb; ynb; p2z] && apartr [yb] [ynb; p2z] && apartr [ynb] [p2z] = true).
Hypothesis (Cab : apartr [p1x; ya; yna; p1z] [p2x; yb; ynb; p2z] = true).
Let ps := {| py1 := e ya; pyn1 := e yna; py2 := e yb; pyn2 := e ynb |}.
Definition at1 (m : mem) (s : smst) : Prop := m (e p1x) = sP1x s /\ m (e ya) = sP1y s /\ m (e yna) = sP1yNeg s /\ m (e p1z) = sP1z s.
Definition at2 (m : mem) (s : smst) : Prop := m (e p2x) = sP2x s /\ m (e yb) = sP2y s /\ m (e ynb) = sP2yNeg s /\ m (e p2z) = sP2z s.
Definition holds (m : mem) (s : smst) : Prop := (m (e qx), m (e qy), m (e qz)) = sQ s /\ at1 m s /\ at2 m s /\ callerUnchanged sp m0 m.
Lemma holds_one m s : holds m s -> m one = fieldOne.
Proof. intros (_ & _ & _ & U). rewrite U by exact Lo. exact One0. Qed.
Lemma out1 r : In r [p1x; ya; yna; p1z] -> mem_reg r [qx; qy; qz; p2x; yb; ynb; p2z] = false.
Proof.
  intros I. apply negb_true_iff, nin_in. pose proof Ca as D. rewrite !andb_true_iff in D. destruct D as [[[D _] _] _]. rewrite apartr_in in D.
  pose proof Cab as F. rewrite apartr_in in F. intros K. 
  assert (K' : In r [qx; qy; qz] \/ In r [p2x; yb; ynb; p2z]) by (cbn [In] in *; tauto).
  destruct K' as [K'|K']; [exact (D r r I K' eq_refl)|exact (F r r I K' eq_refl)].
Qed.
Lemma out2 r : In r [p2x; yb; ynb; p2z] -> mem_reg r [qx; qy; qz; p1x; ya; yna; p1z] = false.
Proof.
  intros I. apply negb_true_iff, nin_in. pose proof Cb as D. rewrite !andb_true_iff in D. destruct D as [[[D _] _] _]. rewrite apartr_in in D.
  pose proof Cab as F. rewrite apartr_in in F. intros K. 
  assert (K' : In r [qx; qy; qz] \/ In r [p1x; ya; yna; p1z]) by (cbn [In] in *; tauto).
  destruct K' as [K'|K']; [exact (D r r I K' eq_refl)|exact (F r r K' I eq_refl)].
Qed.
Lemma outQ r l : In r [p1x; ya; yna; p1z] \/ In r [p2x; yb; ynb; p2z] -> incl l [qx; qy; qz] -> mem_reg r l = false.
Proof.
  intros I L. apply negb_true_iff, nin_in. intros K. apply L in K.
  pose proof Ca as D. rewrite !andb_true_iff in D. destruct D as [[[D _] _] _]. rewrite apartr_in in D.
  pose proof Cb as F. rewrite !andb_true_iff in F. destruct F as [[[F _] _] _]. rewrite apartr_in in F.
  destruct I as [I|I]; [exact (D r r I K eq_refl)|exact (F r r I K eq_refl)].
Qed.
Lemma dbl_holds m s : holds m s -> holds (doubleJacobianM one (sp + frame) (e qx) (e qy) (e qz) (e qx) (e qy) (e qz) m) (dblQ s).
Proof.
  intros H. pose proof (holds_one m s H) as One. destruct H as (Q & A & B & U). unfold holds, dblQ. cbn [sQ].
  assert (K : forall r, In r [p1x; ya; yna; p1z] \/ In r [p2x; yb; ynb; p2z] ->
    doubleJacobianM one (sp + frame) (e qx) (e qy) (e qz) (e qx) (e qy) (e qz) m (e r) = m (e r)).
  { intros r I. apply dblL_reg. apply outQ; [exact I|]. intros d D. cbn [In] in *. tauto. }
  split; [rewrite dblL_ok by (first [exact One|exact eq_refl]); rewrite Q; reflexivity|].
  split; [unfold at1; rewrite !K by in_list; exact A|]. split; [unfold at2; rewrite !K by in_list; exact B|].
  intros q L. rewrite dblL_low by exact L. apply U, L.
Qed.
Lemma add1_holds pos neg m s : holds m s -> holds (addPM one sp (e p1x) (e ya) (e yna) (e p1z) pos neg m) (addP1 pos neg s).
Proof.
  intros H. pose proof (holds_one m s H) as One. destruct H as (Q & A & B & U).
  pose proof (addPM_ok m p1x ya yna p1z pos neg One Ca) as P. destruct A as (A1 & A2 & A3 & A4). rewrite Q, A1, A2, A3, A4 in P.
  assert (K : at2 (addPM one sp (e p1x) (e ya) (e yna) (e p1z) pos neg m) s).
  { unfold at2. rewrite !addPM_reg by (first [exact Ca|apply out2; in_list]). exact B. }
  assert (U' : callerUnchanged sp m0 (addPM one sp (e p1x) (e ya) (e yna) (e p1z) pos neg m)).
  { intros q L. rewrite addPM_low by (first [exact Ca|exact L]). apply U, L. }
  unfold holds, at1, at2 in *. unfold addPt in P. unfold addP1 in *.
  destruct (Z.land pos 128 =? 128); [|destruct (Z.land neg 128 =? 128)].
  - destruct (addJacobian _ _) as [q [[x' y'] z']]. cbn [sQ sP1x sP1y sP1yNeg sP1z sP2x sP2y sP2yNeg sP2z]. tauto.
  - destruct (addJacobian _ _) as [q [[x' y'] z']]. cbn [sQ sP1x sP1y sP1yNeg sP1z sP2x sP2y sP2yNeg sP2z]. tauto.
  - tauto.
Qed.
Lemma add2_holds pos neg m s : holds m s -> holds (addPM one sp (e p2x) (e yb) (e ynb) (e p2z) pos neg m) (addP2 pos neg s).
Proof.
  intros H. pose proof (holds_one m s H) as One. destruct H as (Q & A & B & U).
  pose proof (addPM_ok m p2x yb ynb p2z pos neg One Cb) as P. destruct B as (A1 & A2 & A3 & A4). rewrite Q, A1, A2, A3, A4 in P.
  assert (K : at1 (addPM one sp (e p2x) (e yb) (e ynb) (e p2z) pos neg m) s).
  { unfold at1. rewrite !addPM_reg by (first [exact Cb|apply out1; in_list]). exact A. }
  assert (U' : callerUnchanged sp m0 (addPM one sp (e p2x) (e yb) (e ynb) (e p2z) pos neg m)).
  { intros q L. rewrite addPM_low by (first [exact Cb|exact L]). apply U, L. }
  unfold holds, at1, at2 in *. unfold addPt in P. unfold addP2 in *.
  destruct (Z.land pos 128 =? 128); [|destruct (Z.land neg 128 =? 128)].
  - destruct (addJacobian _ _) as [q [[x' y'] z']]. cbn [sQ sP1x sP1y sP1yNeg sP1z sP2x sP2y sP2yNeg sP2z]. tauto.
  - destruct (addJacobian _ _) as [q [[x' y'] z']]. cbn [sQ sP1x sP1y sP1yNeg sP1z sP2x sP2y sP2yNeg sP2z]. tauto.
  - tauto.
Qed.
Lemma bits_holds n : forall p1 n1 p2 n2 m s, holds m s -> holds (smBitsM one sp ps n p1 n1 p2 n2 m) (smBits n p1 n1 p2 n2 s).
Proof.
  induction n as [|n IH]; intros p1 n1 p2 n2 m s H; [exact H|]. cbn [smBitsM smBits]. apply IH.
  apply add2_holds, add1_holds, dbl_holds, H.
Qed.
Lemma loop_holds : forall p1 n1 p2 n2 m s, holds m s -> holds (smLoopM one sp ps p1 n1 p2 n2 m) (smLoop p1 n1 p2 n2 s).
Proof.
  induction p1 as [|a p1 IH]; intros n1 p2 n2 m s H; [exact H|]. cbn [smLoopM smLoop].
  destruct n1 as [|b n1]; [exact H|]. destruct p2 as [|c p2]; [exact H|]. destruct n2 as [|d n2]; [exact H|]. apply IH, bits_holds, H.
Qed.
End loop.

Lemma ScalarMultM_ok beta m Bx By k : beta < sp -> m one = fieldOne -> m beta = curveBeta ->
  pureCall sp m (ScalarMultM one beta sp Bx By k m) (ScalarMult Bx By k).
Proof.
  intros Lb One Beta. unfold ScalarMultM, ScalarMult. destruct (splitK (moduloReduce k)) as [[[k1 k2] g1] g2].
  unfold fromAffineM, bigAffineToField.
  destruct (fSetByteSlice (bigBytes Bx)) as [vx|]; cbn [bind]; [|apply pureStop; [discriminate|reflexivity]].
  destruct (fSetByteSlice (bigBytes By)) as [vy|]; cbn [bind]; [|apply pureStop; [discriminate|reflexivity]].
  cbn [exec fold_left step]. set (m1 := upd _ (e p2z) (fSetInt 1)).
  assert (Low : callerUnchanged sp m m1) by (intros q Q; unfold m1; rewrite !upd_low by exact Q; reflexivity).
  assert (V : m1 (e qx) = fZero /\ m1 (e qy) = fZero /\ m1 (e qz) = fZero /\ m1 (e p1x) = vx /\ m1 (e p1y) = vy /\ m1 (e p1yNeg) = fNegate vy 1 /\ m1 (e p1z) = fSetInt 1 /\
    m1 (e p2x) = fMul vx curveBeta /\ m1 (e p2y) = vy /\ m1 (e p2yNeg) = fNegate vy 1 /\ m1 (e p2z) = fSetInt 1).
  { unfold m1. rd. rewrite !(upd_low _ _ _ beta) by exact Lb. rewrite Beta. repeat split. }
  clearbody m1. destruct V as (V1 & V2 & V3 & V4 & V5 & V6 & V7 & V8 & V9 & V10 & V11).
  destruct (NAF k1) as [a1 b1]. destruct (NAF k2) as [a2 b2]. cbv zeta.
  set (n := Nat.max _ _).
  destruct (g1 =? -1), (g2 =? -1).
  - match goal with |- pureCall _ _ (Ok (toAffineM _ _ _ _ (smLoopM _ _ _ ?a ?b ?c ?d _))) (Ok (fieldJacobianToBigAffine (sQ (smLoop _ _ _ _ ?s)))) =>
      pose proof (loop_holds m One p1yNeg p1y p2yNeg p2y eq_refl eq_refl eq_refl a b c d m1 s) as H end.
    destruct H as (Q & _ & _ & U); [unfold holds, at1, at2; cbn [sQ sP1x sP1y sP1yNeg sP1z sP2x sP2y sP2yNeg sP2z]; rewrite V1, V2, V3; auto 20|].
    apply (pureOk m m); [rewrite affL_ok by exact eq_refl; rewrite Q; reflexivity|intros q L; rewrite affL_low by exact L; apply U, L].
  - match goal with |- pureCall _ _ (Ok (toAffineM _ _ _ _ (smLoopM _ _ _ ?a ?b ?c ?d _))) (Ok (fieldJacobianToBigAffine (sQ (smLoop _ _ _ _ ?s)))) =>
      pose proof (loop_holds m One p1yNeg p1y p2y p2yNeg eq_refl eq_refl eq_refl a b c d m1 s) as H end.
    destruct H as (Q & _ & _ & U); [unfold holds, at1, at2; cbn [sQ sP1x sP1y sP1yNeg sP1z sP2x sP2y sP2yNeg sP2z]; rewrite V1, V2, V3; auto 20|].
    apply (pureOk m m); [rewrite affL_ok by exact eq_refl; rewrite Q; reflexivity|intros q L; rewrite affL_low by exact L; apply U, L].
  - match goal with |- pureCall _ _ (Ok (toAffineM _ _ _ _ (smLoopM _ _ _ ?a ?b ?c ?d _))) (Ok (fieldJacobianToBigAffine (sQ (smLoop _ _ _ _ ?s)))) =>
      pose proof (loop_holds m One p1y p1yNeg p2yNeg p2y eq_refl eq_refl eq_refl a b c d m1 s) as H end.
    destruct H as (Q & _ & _ & U); [unfold holds, at1, at2; cbn [sQ sP1x sP1y sP1yNeg sP1z sP2x sP2y sP2yNeg sP2z]; rewrite V1, V2, V3; auto 20|].
    apply (pureOk m m); [rewrite affL_ok by exact eq_refl; rewrite Q; reflexivity|intros q L; rewrite affL_low by exact L; apply U, L].
  - match goal with |- pureCall _ _ (Ok (toAffineM _ _ _ _ (smLoopM _ _ _ ?a ?b ?c ?d _))) (Ok (fieldJacobianToBigAffine (sQ (smLoop _ _ _ _ ?s)))) =>
      pose proof (loop_holds m One p1y p1yNeg p2y p2yNeg eq_refl eq_refl eq_refl a b c d m1 s) as H end.
    destruct H as (Q & _ & _ & U); [unfold holds, at1, at2; cbn [sQ sP1x sP1y sP1yNeg sP1z sP2x sP2y sP2yNeg sP2z]; rewrite V1, V2, V3; auto 20|].
    apply (pureOk m m); [rewrite affL_ok by exact eq_refl; rewrite Q; reflexivity|intros q L; rewrite affL_low by exact L; apply U, L].
Qed.

(** ** The table multiplications *)
Lemma nth_map_seq {A : Type} (f : nat -> A) n i : nth_error (map f (seq 0 n)) i = if Nat.ltb i n then Some (f i) else None.
Proof.
  destruct (Nat.ltb_spec i n) as [H|H].
  - rewrite nth_error_map. rewrite (nth_error_nth' _ O) by (rewrite seq_length; exact H). rewrite seq_nth by exact H. reflexivity.
  - apply nth_error_None. rewrite map_length, seq_length. exact H.
Qed.
Lemma lookup_tableOf tab m i b : is_byte b -> lookup (tableOf tab m) i b = if Nat.ltb i 32 then Ok (m (tab i b 0%nat), m (tab i b 1%nat), m (tab i b 2%nat)) else Panic.
Proof.
  intros B. unfold is_byte in B. unfold lookup, tableOf. rewrite nth_map_seq. destruct (Nat.ltb i 32); [|reflexivity].
  rewrite nth_map_seq. replace (Nat.ltb (Z.to_nat b) 256) with true; [rewrite Z2Nat.id by lia; reflexivity|].
  symmetry. apply Nat.ltb_lt. lia.
Qed.
Lemma sbm_holds tab m0 : (forall i b c, tab i b c < sp) -> m0 one = fieldOne -> forall k i m q, bytes_ok k ->
  callerUnchanged sp m0 m -> (m (e qx), m (e qy), m (e qz)) = q ->
  match sbmLoopM one sp tab i k m with
  | Ok m' => sbmLoop (tableOf tab m0) i k q = Ok (m' (e qx), m' (e qy), m' (e qz)) /\ callerUnchanged sp m0 m'
  | Panic => sbmLoop (tableOf tab m0) i k q = Panic
  end.
Proof.
  intros T One0. induction k as [|b k IH]; intros i m q Bk U Q.
  - cbn [sbmLoopM sbmLoop]. split; [rewrite Q; reflexivity|exact U].
  - inversion Bk as [|? ? Bb Bk']; subst. cbn [sbmLoopM sbmLoop]. rewrite lookup_tableOf by exact Bb.
    assert (E : (0 <=? b) && (b <? 256) = true) by (unfold is_byte in Bb; apply andb_true_intro; split; [apply Z.leb_le|apply Z.ltb_lt]; lia).
    rewrite <- andb_assoc, E, andb_true_r. destruct (Nat.ltb i 32); [|reflexivity]. cbn [bind].
    set (m1 := upd (upd (upd m (e pE0) _) (e pE1) _) (e pE2) _).
    assert (One1 : m1 one = fieldOne) by (unfold m1; rewrite !upd_low by exact Lo; rewrite U by exact Lo; exact One0).
    apply IH; [exact Bk'| |].
    + intros p L. rewrite addL_low by (first [exact L|exact eq_refl|left; exact eq_refl]). unfold m1. rewrite !upd_low by exact L. apply U, L.
    + rewrite addL_ok by (first [exact One1|exact eq_refl|left; exact eq_refl]). unfold m1. rd. rewrite !(U (tab _ _ _)) by apply T. reflexivity.
Qed.
Lemma moduloReduce_bytes k : bytes_ok k -> bytes_ok (moduloReduce k).
Proof. intros B. unfold moduloReduce. destruct (_ <? _); [apply CodecProofs.bigBytes_ok|exact B]. Qed.
Lemma scalarTableMultM_ok tab m k : (forall i b c, tab i b c < sp) -> m one = fieldOne -> bytes_ok k ->
  pureCall sp m (scalarTableMultM one sp tab k m) (scalarTableMult (tableOf tab m) k).
Proof.
  intros T One B. unfold scalarTableMultM, scalarTableMult. set (m1 := upd _ (e qz) fZero).
  assert (U : callerUnchanged sp m m1) by (intros p L; unfold m1; rewrite !upd_low by exact L; reflexivity).
  assert (Q : (m1 (e qx), m1 (e qy), m1 (e qz)) = (fZero, fZero, fZero)) by (unfold m1; rd; reflexivity).
  pose proof (sbm_holds tab m T One (moduloReduce k) (32 - length (moduloReduce k)) m1 _ (moduloReduce_bytes k B) U Q) as H.
  destruct (sbmLoopM _ _ _ _ _ _) as [m2|]; cbn [bind].
  - destruct H as [-> U2]. cbn [bind]. apply (pureOk m m); [apply affL_ok; exact eq_refl|]. intros p L. rewrite affL_low by exact L. apply U2, L.
  - rewrite H. apply pureStop; [discriminate|reflexivity].
Qed.
End ops.
