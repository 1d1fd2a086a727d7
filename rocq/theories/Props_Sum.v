(** * Props_Sum: the trips of two matrices together *)
From Coq Require Import String List ZArith QArith Qfield Bool Lia Lqa.
From Verif Require Import PyBase PyFacts PyStr Graph Mode Route ExtGraph ExtSpec Hyperpath HyperSpec Network Demand DemandProofs Assignment AssignSpec FlowSpec TableProofs Costs CostSpec UsersCost UsersSpec Optimizer OptSpec ResultsSpec Props_Flow Props_Cost Props_Users Props_Opt Props_Loads Props_Results Props_Value Props_Pipe Props_Ray Props_Scale.
From Verif Require Import ExtProofs Props_Ext OdFacts Props_Assign PipeSpec.
Import ListNotations.
Local Open Scope Q_scope.

(** three lists of the same length, element by element *)
Inductive Forall3 {A B C} (R : A -> B -> C -> Prop) : list A -> list B -> list C -> Prop :=
| F3_nil : Forall3 R [] [] []
| F3_cons a b c l m n : R a b c -> Forall3 R l m n -> Forall3 R (a :: l) (b :: m) (c :: n).
(** matrices with the same cells; each cell of the third is the sum of those of the first two, which are not negative *)
Definition together (M1 M2 M : dict2) : Prop :=
  Forall3 (fun r1 r2 r => fst r1 = fst r /\ fst r2 = fst r /\
    Forall3 (fun c1 c2 c => fst c1 = fst c /\ fst c2 = fst c /\ 0 <= snd c1 /\ 0 <= snd c2 /\ snd c == snd c1 + snd c2) (snd r1) (snd r2) (snd r)) M1 M2 M.

(** ** Loading from any tables *)
Section Affine.
Variables (X : xgraph) (f : fdict) (q : Q) (oz ov ol : string -> dir -> nat -> Q).
Hypothesis (HQ : 0 < q).
Definition taff (off : string -> dir -> nat -> Q) (t t1 : tab) : Prop := forall r d s, tget t1 r d s == off r d s + q * tget t r d s.
Definition Taff (t t1 : tables) : Prop := taff oz (t_z t) (t_z t1) /\ taff ov (t_v t) (t_v t1) /\ taff ol (t_l t) (t_l t1).
Lemma tadd_aff off t t' r d s a a' : taff off t t' -> a' == q * a -> taff off (tadd t r d s a) (tadd t' r d s a').
Proof. intros E Ea r0 d0 s0. rewrite !tget_tadd, (E r0 d0 s0). destruct (here _ _ _ _ _ _); rewrite ?Ea; ring. Qed.
Lemma record_aff t t' i j a a' : Taff t t' -> a' == q * a -> Taff (record_flow X t i j a) (record_flow X t' i j a').
Proof. intros (A & B & C) E. unfold record_flow. destruct i, j; repeat split; cbn [t_z t_v t_l]; auto using tadd_aff. Qed.
Lemma spread_aff suc dest : forall fuel ps ps' t t' T, Forall2 (pmul q) ps ps' -> Taff t t' -> spread fuel X f suc dest ps t = Ok T ->
  exists T', spread fuel X f suc dest ps' t' = Ok T' /\ Taff T T'.
Proof.
  induction fuel as [|fuel IH]; intros ps ps' t t' T HD HT H; inversion HD as [|[[i j] a] [[i' j'] a'] r r' Hd Hr]; subst; cbn [spread] in *; try discriminate; try (inversion H; subst; eauto; fail).
  destruct Hd as [Hd Ea]. cbn [fst snd] in *. injection Hd as -> ->. apply bind_ok in H. destruct H as (s & Es & H). destruct (dis_pax_dem X f q _ _ _ _ _ _ Ea Es) as (s' & -> & Es'). cbn [bind].
  refine (IH _ _ _ _ _ _ (record_aff _ _ _ _ _ _ HT Es') H). destruct (stop_of_dest X dest j); auto. apply Forall2_app; auto. now apply pushed_dem.
Qed.
Lemma od_aff fuel e e1 a t t1 T : scaled q e e1 -> Taff t t1 -> spread_od fuel X f t (e, a) = Ok T -> exists T1, spread_od fuel X f t1 (e1, a) = Ok T1 /\ Taff T T1.
Proof.
  intros S HT E1. pose proof S as S0. destruct S as (_ & D2 & DP & D4 & _). unfold spread_od in *. cbn [fst snd] in *. rewrite DP. revert t t1 HT E1. generalize (map fst (od_paths e)). induction l as [|s l IH]; intros t t1 HT E1; cbn [foldM] in *; [inversion E1; subst; eauto|].
  apply bind_ok in E1. destruct E1 as (t2 & E2 & E1). assert (C : exists t2', spread_stop fuel X f e1 a t1 s = Ok t2' /\ Taff t2 t2').
  { unfold spread_stop in *. cbn zeta in *. rewrite (zero_iff q HQ _ _ (start_dem _ _ _ a s S0)). destruct (Qeqb _ 0); [inversion E2; subst; eauto|]. rewrite D2, D4. refine (spread_aff _ _ _ _ _ _ _ _ _ HT E2). apply pushed_dem. now apply start_dem. }
  destruct C as (t2' & -> & HT2). cbn [bind]. eauto.
Qed.
End Affine.

(** q times the trips of a pair add q times as much to whatever is in the tables *)
Definition grows (q : Q) (t t' t1 t1' : tab) : Prop := forall r d s, tget t1' r d s - tget t1 r d s == q * (tget t' r d s - tget t r d s).
Lemma od_grows X f q fuel e e1 a t t' t1 : 0 < q -> scaled q e e1 -> spread_od fuel X f t (e, a) = Ok t' ->
  exists t1', spread_od fuel X f t1 (e1, a) = Ok t1' /\ grows q (t_z t) (t_z t') (t_z t1) (t_z t1') /\ grows q (t_v t) (t_v t') (t_v t1) (t_v t1') /\ grows q (t_l t) (t_l t') (t_l t1) (t_l t1').
Proof.
  intros HQ S E. set (O := fun (a b : tab) r d s => tget b r d s - q * tget a r d s).
  destruct (od_aff X f q (O (t_z t) (t_z t1)) (O (t_v t) (t_v t1)) (O (t_l t) (t_l t1)) HQ fuel e e1 a t t1 t' S) as (t1' & E' & A & B & C); [repeat split; intros r d s; unfold O; ring|exact E|].
  exists t1'. split; [exact E'|]. repeat split; intros r d s; [rewrite (A r d s)|rewrite (B r d s)|rewrite (C r d s)]; unfold O; ring.
Qed.

(** ** Merging lists of pairs *)
Inductive merge : list od_entry -> list od_entry -> list od_entry -> Prop :=
| M_nil : merge [] [] []
| M_left e e1 l1 l2 l : scaled 1 e e1 -> merge l1 l2 l -> merge (e1 :: l1) l2 (e :: l)
| M_right e e2 l1 l2 l : scaled 1 e e2 -> merge l1 l2 l -> merge l1 (e2 :: l2) (e :: l)
| M_both e e1 e2 q1 q2 l1 l2 l : 0 < q1 -> 0 < q2 -> q1 + q2 == 1 -> scaled q1 e e1 -> scaled q2 e e2 -> merge l1 l2 l -> merge (e1 :: l1) (e2 :: l2) (e :: l).
Definition tsum (t1 t2 t : tab) : Prop := forall r d s, tget t r d s == tget t1 r d s + tget t2 r d s.
Definition Tsum (t1 t2 t : tables) : Prop := tsum (t_z t1) (t_z t2) (t_z t) /\ tsum (t_v t1) (t_v t2) (t_v t) /\ tsum (t_l t1) (t_l t2) (t_l t).

Lemma assign_same X w vp spa spv q e e1 : scaled q e e1 -> assign_od X w vp spa spv e1 = assign_od X w vp spa spv e.
Proof. intros (_ & _ & C & D & _). unfold assign_od. rewrite C, D. reflexivity. Qed.
Lemma grow_left q t t' t1 t1' t2 : q == 1 -> grows q t t' t1 t1' -> tsum t1 t2 t -> tsum t1' t2 t'.
Proof. intros Q1 G S r d s. specialize (G r d s). specialize (S r d s). rewrite Q1 in G. lra. Qed.
Lemma grow_right q t t' t2 t2' t1 : q == 1 -> grows q t t' t2 t2' -> tsum t1 t2 t -> tsum t1 t2' t'.
Proof. intros Q1 G S r d s. specialize (G r d s). specialize (S r d s). rewrite Q1 in G. lra. Qed.
Lemma grow_both q1 q2 t t' t1 t1' t2 t2' : q1 + q2 == 1 -> grows q1 t t' t1 t1' -> grows q2 t t' t2 t2' -> tsum t1 t2 t -> tsum t1' t2' t'.
Proof.
  intros Q1 G1 G2 S r d s. specialize (G1 r d s). specialize (G2 r d s). specialize (S r d s). set (x := tget t' r d s - tget t r d s) in *.
  assert (E : q1 * x + q2 * x == x) by (rewrite <- Qmult_plus_distr_l, Q1; ring). unfold x in *. lra.
Qed.

Section Merged.
Variables (X : xgraph) (w vp spa spv : Q) (f : fdict) (fuel : nat).
Lemma merge_load : forall es1 es2 es asg, merge es1 es2 es -> get_assignment X w vp spa spv es = Ok asg ->
  exists asg1 asg2, get_assignment X w vp spa spv es1 = Ok asg1 /\ get_assignment X w vp spa spv es2 = Ok asg2 /\
  forall t1 t2 t T, Tsum t1 t2 t -> foldM (spread_od fuel X f) (combine es asg) t = Ok T ->
    exists T1 T2, foldM (spread_od fuel X f) (combine es1 asg1) t1 = Ok T1 /\ foldM (spread_od fuel X f) (combine es2 asg2) t2 = Ok T2 /\ Tsum T1 T2 T.
Proof.
  intros es1 es2 es asg M. revert asg. unfold get_assignment. induction M as [|e e1 l1 l2 l S M IH|e e2 l1 l2 l S M IH|e e1 e2 q1 q2 l1 l2 l P1 P2 Q12 S1 S2 M IH]; intros asg H; cbn [mapM] in *.
  - injection H as <-. exists [], []. repeat split; auto. intros t1 t2 t T HT E. cbn [combine foldM] in *. injection E as <-. eauto.
  - apply bind_ok in H. destruct H as (a & Ea & H). apply bind_ok in H. destruct H as (asg' & Eg & H). injection H as <-. destruct (IH _ Eg) as (asg1 & asg2 & E1 & E2 & K). rewrite (assign_same _ _ _ _ _ _ _ _ S), Ea. cbn [bind]. rewrite E1. cbn [bind]. exists (a :: asg1), asg2. do 2 (split; [auto|]).
    intros t1 t2 t T (Z1 & Z2 & Z3) E. cbn [combine foldM] in *. apply bind_ok in E. destruct E as (t' & Et & E). destruct (od_grows X f 1 fuel e e1 a t t' t1 ltac:(reflexivity) S Et) as (t1' & -> & G1 & G2 & G3). cbn [bind]. apply (K t1' t2 t'); [|exact E]. repeat split; eapply grow_left; eauto; reflexivity.
  - apply bind_ok in H. destruct H as (a & Ea & H). apply bind_ok in H. destruct H as (asg' & Eg & H). injection H as <-. destruct (IH _ Eg) as (asg1 & asg2 & E1 & E2 & K). rewrite (assign_same _ _ _ _ _ _ _ _ S), Ea. cbn [bind]. rewrite E2. cbn [bind]. exists asg1, (a :: asg2). do 2 (split; [auto|]).
    intros t1 t2 t T (Z1 & Z2 & Z3) E. cbn [combine foldM] in *. apply bind_ok in E. destruct E as (t' & Et & E). destruct (od_grows X f 1 fuel e e2 a t t' t2 ltac:(reflexivity) S Et) as (t2' & -> & G1 & G2 & G3). cbn [bind]. apply (K t1 t2' t'); [|exact E]. repeat split; eapply grow_right; eauto; reflexivity.
  - apply bind_ok in H. destruct H as (a & Ea & H). apply bind_ok in H. destruct H as (asg' & Eg & H). injection H as <-. destruct (IH _ Eg) as (asg1 & asg2 & E1 & E2 & K). rewrite (assign_same _ _ _ _ _ _ _ _ S1), (assign_same _ _ _ _ _ _ _ _ S2), Ea. cbn [bind]. rewrite E1, E2. cbn [bind]. exists (a :: asg1), (a :: asg2). do 2 (split; [auto|]).
    intros t1 t2 t T (Z1 & Z2 & Z3) E. cbn [combine foldM] in *. apply bind_ok in E. destruct E as (t' & Et & E). destruct (od_grows X f q1 fuel e e1 a t t' t1 P1 S1 Et) as (t1' & -> & G1 & G2 & G3). destruct (od_grows X f q2 fuel e e2 a t t' t2 P2 S2 Et) as (t2' & -> & H1 & H2 & H3). cbn [bind]. apply (K t1' t2' t'); [|exact E]. repeat split; eapply grow_both; eauto.
Qed.
Lemma merge_gab es1 es2 es asg t : merge es1 es2 es -> get_assignment X w vp spa spv es = Ok asg -> get_alighting_and_boarding fuel X f es asg = Ok t ->
  exists asg1 asg2 t1 t2, get_assignment X w vp spa spv es1 = Ok asg1 /\ get_assignment X w vp spa spv es2 = Ok asg2 /\
    get_alighting_and_boarding fuel X f es1 asg1 = Ok t1 /\ get_alighting_and_boarding fuel X f es2 asg2 = Ok t2 /\ Tsum t1 t2 t.
Proof.
  intros M EA E. destruct (merge_load _ _ _ _ M EA) as (asg1 & asg2 & E1 & E2 & K). exists asg1, asg2. unfold get_alighting_and_boarding in *. apply bind_ok in E. destruct E as (T & ET & E). injection E as <-.
  destruct (K (mkT [] [] []) (mkT [] [] []) (mkT [] [] []) T) as (T1 & T2 & F1 & F2 & S1 & S2 & S3); [repeat split; intros r d s; cbn [t_z t_v t_l]; rewrite tget_none; ring|exact ET|].
  rewrite F1, F2. cbn [bind]. do 2 eexists. do 4 (split; [reflexivity || eassumption|]).
  assert (PV : forall t1 t2 t, tsum t1 t2 t -> tsum (per_vehicle f t1) (per_vehicle f t2) (per_vehicle f t)).
  { intros t1 t2 t S r d s. rewrite !tget_scaled. unfold scale. destruct (Qeqb (freq f r) 0) eqn:Z; rewrite (S r d s); [reflexivity|]. qb. field. exact Z. }
  repeat split; cbn [t_z t_v t_l]; auto.
Qed.
End Merged.

(** ** The pairs with trips *)
Lemma together_pairs M1 M2 M : together M1 M2 M -> Forall3 (fun a b c => fst a = fst c /\ fst b = fst c /\ 0 <= snd a /\ 0 <= snd b /\ snd c == snd a + snd b)
  (flat_map (fun '(o, row) => map (fun '(d, v) => (o, d, v)) row) M1) (flat_map (fun '(o, row) => map (fun '(d, v) => (o, d, v)) row) M2) (flat_map (fun '(o, row) => map (fun '(d, v) => (o, d, v)) row) M).
Proof.
  assert (AP : forall A B C (R : A -> B -> C -> Prop) l m n l' m' n', Forall3 R l m n -> Forall3 R l' m' n' -> Forall3 R (l ++ l') (m ++ m') (n ++ n')).
  { intros A B C R l m n l' m' n' H H'. induction H; cbn [app]; auto. constructor; auto. }
  intro H. induction H as [|[o1 r1] [o2 r2] [o r] M1 M2 M (E1 & E2 & R) H IH]; [constructor|]. cbn [flat_map fst snd] in *. subst o1 o2. apply AP; auto. clear -R.
  induction R as [|[d1 v1] [d2 v2] [d v] l m n (E1 & E2 & K) R IH]; cbn [map fst snd] in *; constructor; auto. subst. auto.
Qed.
Definition cell3 (a b c : Z * Z * Q) : Prop := fst a = fst c /\ fst b = fst c /\ 0 <= snd a /\ 0 <= snd b /\ snd c == snd a + snd b.
Notation some := (filter (fun '(_, _, v) => negb (Qeqb v 0))).
Lemma share_pos a c : 0 <= a -> ~ a == 0 -> 0 < c -> 0 < a / c.
Proof. intros A N C. apply Qlt_shift_div_l; [exact C|]. rewrite Qmult_0_l. apply Qle_lteq in A. destruct A as [A|A]; auto. exfalso. apply N. now rewrite A. Qed.
(** the cells of a part are cells of the whole *)
Lemma some_step a b c l1 l2 l : cell3 a b c -> Forall3 cell3 l1 l2 l ->
  (some (a :: l1) = some l1 /\ some (b :: l2) = some l2 /\ some (c :: l) = some l) \/
  (some (a :: l1) = a :: some l1 /\ some (b :: l2) = some l2 /\ some (c :: l) = c :: some l /\ snd a == 1 * snd c) \/
  (some (a :: l1) = some l1 /\ some (b :: l2) = b :: some l2 /\ some (c :: l) = c :: some l /\ snd b == 1 * snd c) \/
  (some (a :: l1) = a :: some l1 /\ some (b :: l2) = b :: some l2 /\ some (c :: l) = c :: some l /\ 0 < snd a /\ 0 < snd b /\ 0 < snd c).
Proof.
  intros (E1 & E2 & N1 & N2 & S) _. destruct a as [[o1 d1] v1], b as [[o2 d2] v2], c as [[o d] v]. cbn [fst snd] in *. cbn [filter]. destruct (Qeqb v1 0) eqn:Z1, (Qeqb v2 0) eqn:Z2; cbn [negb].
  - assert (Z : Qeqb v 0 = true) by (qb; apply Qeqb_eq; lra). rewrite Z. auto.
  - assert (Z : Qeqb v 0 = false) by (qb; apply Bool.not_true_iff_false; rewrite Qeqb_eq; lra). rewrite Z. right. right. left. repeat split; auto. qb. lra.
  - assert (Z : Qeqb v 0 = false) by (qb; apply Bool.not_true_iff_false; rewrite Qeqb_eq; lra). rewrite Z. right. left. repeat split; auto. qb. lra.
  - assert (A : 0 < v1) by (qb; apply Qle_lteq in N1; destruct N1 as [N1|N1]; auto; exfalso; apply Z1; now rewrite N1). assert (C : 0 < v2) by (qb; apply Qle_lteq in N2; destruct N2 as [N2|N2]; auto; exfalso; apply Z2; now rewrite N2).
    assert (Z : Qeqb v 0 = false) by (apply Bool.not_true_iff_false; rewrite Qeqb_eq; lra). rewrite Z. right. right. right. repeat split; auto. lra.
Qed.
Lemma validated_parts fuel X P M1 M2 M : together M1 M2 M -> network_validator fuel X P M = Ok true -> network_validator fuel X P M1 = Ok true /\ network_validator fuel X P M2 = Ok true.
Proof.
  intro T. apply together_pairs in T. unfold network_validator. match goal with |- context [foldM ?F _ _] => set (G := F) end. unfold od_pairs. intro H. apply bind_ok in H. destruct H as (w & Ew & ->).
  assert (K : foldM G (some (flat_map (fun '(o, row) => map (fun '(d, v) => (o, d, v)) row) M1)) tt = Ok tt /\ foldM G (some (flat_map (fun '(o, row) => map (fun '(d, v) => (o, d, v)) row) M2)) tt = Ok tt); [|destruct K as [-> ->]; auto].
  revert w Ew. change (Forall3 cell3 (flat_map (fun '(o, row) => map (fun '(d, v) => (o, d, v)) row) M1) (flat_map (fun '(o, row) => map (fun '(d, v) => (o, d, v)) row) M2) (flat_map (fun '(o, row) => map (fun '(d, v) => (o, d, v)) row) M)) in T. induction T as [|a b c l1 l2 l R T IH]; intros w Ew; [auto|].
  assert (GS : forall x y : Z * Z * Q, fst x = fst y -> G tt x = G tt y) by (intros [[o d] v] [[o' d'] v'] E; cbn [fst] in E; injection E as -> ->; reflexivity).
  assert (GC : forall x, foldM G (c :: x) tt = Ok w -> G tt c = Ok tt /\ foldM G x tt = Ok w) by (intros x H; cbn [foldM] in H; apply bind_ok in H; destruct H as ([] & H1 & H2); auto).
  pose proof R as (F1 & F2 & _). destruct (some_step _ _ _ _ _ _ R T) as [(-> & -> & E3)|[(-> & -> & E3 & _)|[(-> & -> & E3 & _)|(-> & -> & E3 & _)]]]; rewrite E3 in Ew; [eauto| | |];
    destruct (GC _ Ew) as [G1 G2]; destruct (IH _ G2) as [I1 I2]; split; auto; cbn [foldM]; (rewrite (GS _ _ F1) || rewrite (GS _ _ F2)); rewrite G1; cbn [bind]; auto.
Qed.
Lemma hyperpaths_parts fuel X P M1 M2 M es : together M1 M2 M -> get_all_hyperpaths fuel X P M = Ok es ->
  exists es1 es2, get_all_hyperpaths fuel X P M1 = Ok es1 /\ get_all_hyperpaths fuel X P M2 = Ok es2 /\ merge es1 es2 es.
Proof.
  intros T H. unfold get_all_hyperpaths in *. apply bind_ok in H. destruct H as (ok & Ev & H). destruct ok; [|discriminate]. destruct (validated_parts _ _ _ _ _ _ T Ev) as [-> ->]. cbn [bind].
  apply together_pairs in T. unfold od_pairs. unfold od_pairs in H. revert es H.
  change (Forall3 cell3 (flat_map (fun '(o, row) => map (fun '(d, v) => (o, d, v)) row) M1) (flat_map (fun '(o, row) => map (fun '(d, v) => (o, d, v)) row) M2) (flat_map (fun '(o, row) => map (fun '(d, v) => (o, d, v)) row) M)) in T.
  match goal with |- forall es, mapM ?F _ = _ -> _ => set (G := F) end. induction T as [|a b c l1 l2 l R T IH]; intros es H; [injection H as <-; exists [], []; repeat split; constructor|].
  assert (GC : forall x es, mapM G (c :: x) = Ok es -> exists e es', es = e :: es' /\ mapM G x = Ok es' /\
     forall k q, fst k = fst c -> snd k == q * snd c -> exists e', G k = Ok e' /\ scaled q e e').
  { clear. intros x es H. cbn [mapM] in H. apply bind_ok in H. destruct H as (e & E1 & H). apply bind_ok in H. destruct H as (es' & E2 & H). injection H as <-. exists e, es'. do 2 (split; auto). intros [[o d] v] q E F. destruct c as [[o' d'] v']. cbn [fst snd] in *. injection E as -> ->.
    unfold G in *. apply bind_ok in E1. destruct E1 as (r & -> & E1). injection E1 as <-. cbn [bind]. eexists. split; [reflexivity|]. repeat split; auto. }
  pose proof R as (F1 & F2 & N1 & N2 & S). destruct (some_step _ _ _ _ _ _ R T) as [(-> & -> & E3)|[(-> & -> & E3 & Q1)|[(-> & -> & E3 & Q1)|(-> & -> & E3 & Q1 & Q2 & Q3)]]]; rewrite E3 in H; [eauto| | |]; destruct (GC _ _ H) as (e & es' & -> & H' & K); destruct (IH _ H') as (es1 & es2 & I1 & I2 & IM).
  - destruct (K a 1 F1 Q1) as (e1 & K1 & K2). exists (e1 :: es1), es2. cbn [mapM]. rewrite K1. cbn [bind]. rewrite I1. cbn [bind]. repeat split; auto. now apply M_left.
  - destruct (K b 1 F2 Q1) as (e1 & K1 & K2). exists es1, (e1 :: es2). cbn [mapM]. rewrite K1. cbn [bind]. rewrite I2. cbn [bind]. repeat split; auto. now apply M_right.
  - destruct (K a (snd a / snd c) F1) as (e1 & K1 & K2); [field; lra|]. destruct (K b (snd b / snd c) F2) as (e2 & K3 & K4); [field; lra|]. exists (e1 :: es1), (e2 :: es2). cbn [mapM]. rewrite K1, K3. cbn [bind]. rewrite I1, I2. cbn [bind]. repeat split; auto.
    apply (M_both e e1 e2 (snd a / snd c) (snd b / snd c)); auto; [apply share_pos; auto; lra|apply share_pos; auto; lra|rewrite S; field; lra].
Qed.

(** ** C80 *)
(** an optimizer with the same network, strategies for part of the trips *)
Definition same_network (o o1 : optimizer) : Prop := o_f o1 = o_f o /\ o_fopt o1 = o_fopt o /\ o_pos o1 = o_pos o /\ o_X o1 = o_X o /\ o_len_c o1 = o_len_c o /\ o_len_v o1 = o_len_v o.
Lemma part_optimizer B fg o D es1 asg1 : new_optimizer B fg = Ok o -> get_all_hyperpaths (pb_fuel B) (o_X o) (pb_pass B) (dm_matrix D) = Ok es1 ->
  get_assignment (o_X o) (p_p (c_params (pb_city B))) (q_va (pb_pass B)) (q_pa (pb_pass B)) (q_pv (pb_pass B)) es1 = Ok asg1 ->
  (forall f t, boardings o f = Ok t -> exists t1, get_alighting_and_boarding (pb_fuel B) (o_X o) f es1 asg1 = Ok t1) ->
  exists o1, new_optimizer (with_demand B D) fg = Ok o1 /\ same_network o o1 /\ o_es o1 = es1 /\ o_asg o1 = asg1.
Proof.
  intros Ho EE' EA' BT. pose proof (new_optimizer_attrs _ _ _ Ho) as (Hb & Hf & Hx & Hpos & Hv & EX & EE & EA & con & EC & HC).
  set (o1 := mkOpt (with_demand B D) (o_f o) (o_fopt o) (o_pos o) (o_X o) es1 asg1 0 0).
  assert (C1 : exists con', get_constrains o1 (o_fopt o) = Ok con' /\ length con' = length con).
  { unfold get_constrains in *. cbn [o1 o_pos]. apply bind_ok in EC. destruct EC as (f & Ef & EC). rewrite Ef. cbn [bind]. apply bind_ok in EC. destruct EC as (t & Et & EC). destruct (BT f t Et) as (t' & Et'). unfold boardings at 1. cbn [o1 o_pb with_demand pb_fuel o_X o_es o_asg]. rewrite Et'. cbn [bind]. rewrite Hb in EC.
    apply bind_ok in EC. destruct EC as (F & EF & EC). change (pb_graph (with_demand B D)) with (pb_graph B). change (pb_routes (with_demand B D)) with (pb_routes B). change (pb_net (with_demand B D)) with (pb_net B). rewrite EF. cbn [bind]. injection EC as <-. eexists. split; [reflexivity|]. rewrite !app_length. unfold most_loaded_constrains. now rewrite !map_length. }
  destruct C1 as (con' & EC' & LC).
  exists (mkOpt (with_demand B D) (o_f o) (o_fopt o) (o_pos o) (o_X o) es1 asg1 (length con') (length (o_fopt o))). split.
  { unfold new_optimizer. change (pb_routes (with_demand B D)) with (pb_routes B). destruct (f0 (pb_routes B) fg) as [[f fopt] pos] eqn:E0. cbn [fst] in Hf. assert (E1 : fopt = o_fopt o) by (rewrite Hx; unfold f0 in E0; now injection E0). assert (E2 : pos = o_pos o) by (rewrite Hpos; unfold f0 in E0; now injection E0). rewrite <- Hf, E1, E2.
    cbn [with_demand pb_geo pb_pass pb_fuel pb_demand pb_city]. change (pb_graph (with_demand B D)) with (pb_graph B). rewrite EX. cbn [bind]. rewrite EE'. cbn [bind]. rewrite EA'. cbn [bind]. change (mkProblem _ _ _ _ _ _) with (with_demand B D). change (get_constrains _ (o_fopt o)) with (get_constrains o1 (o_fopt o)). rewrite EC'. reflexivity. }
  unfold same_network. cbn [o_f o_fopt o_pos o_X o_asg o_es o_len_c o_len_v]. repeat split; auto; [congruence|rewrite Hx, map_length; congruence].
Qed.

(** Two groups of travellers: the optimizers for each of them can be built when the one for both can, on the same
    network, and at the same frequencies the boardings, the alightings and the loads add up. *)
Theorem C80_tables : forall B fg o D1 D2, new_optimizer B fg = Ok o -> together (dm_matrix D1) (dm_matrix D2) (dm_matrix (pb_demand B)) ->
  exists o1 o2, new_optimizer (with_demand B D1) fg = Ok o1 /\ new_optimizer (with_demand B D2) fg = Ok o2 /\ same_network o o1 /\ same_network o o2 /\ merge (o_es o1) (o_es o2) (o_es o) /\
    forall f t, boardings o f = Ok t -> exists t1 t2, boardings o1 f = Ok t1 /\ boardings o2 f = Ok t2 /\
      forall r d s, tget (t_z t) r d s == tget (t_z t1) r d s + tget (t_z t2) r d s /\
                    tget (t_v t) r d s == tget (t_v t1) r d s + tget (t_v t2) r d s /\
                    tget (t_l t) r d s == tget (t_l t1) r d s + tget (t_l t2) r d s.
Proof.
  intros B fg o D1 D2 Ho T. pose proof (new_optimizer_attrs _ _ _ Ho) as (Hb & Hf & Hx & Hpos & Hv & EX & EE & EA & _).
  destruct (hyperpaths_parts _ _ _ _ _ _ _ T EE) as (es1 & es2 & E1 & E2 & MM).
  assert (BT : exists asg1 asg2, get_assignment (o_X o) (p_p (c_params (pb_city B))) (q_va (pb_pass B)) (q_pa (pb_pass B)) (q_pv (pb_pass B)) es1 = Ok asg1 /\ get_assignment (o_X o) (p_p (c_params (pb_city B))) (q_va (pb_pass B)) (q_pa (pb_pass B)) (q_pv (pb_pass B)) es2 = Ok asg2 /\
    forall f t, boardings o f = Ok t -> exists t1 t2, get_alighting_and_boarding (pb_fuel B) (o_X o) f es1 asg1 = Ok t1 /\ get_alighting_and_boarding (pb_fuel B) (o_X o) f es2 asg2 = Ok t2 /\ Tsum t1 t2 t).
  { destruct (merge_load (o_X o) (p_p (c_params (pb_city B))) (q_va (pb_pass B)) (q_pa (pb_pass B)) (q_pv (pb_pass B)) [] 0 _ _ _ _ MM EA) as (asg1 & asg2 & A1 & A2 & _). exists asg1, asg2. do 2 (split; auto). intros f t Et. unfold boardings in Et. rewrite Hb in Et.
    destruct (merge_gab _ _ _ _ _ _ _ _ _ _ _ _ MM EA Et) as (a1 & a2 & t1 & t2 & B1 & B2 & B3 & B4 & B5). assert (a1 = asg1) by congruence. subst a1. assert (a2 = asg2) by congruence. subst a2. eauto. }
  destruct BT as (asg1 & asg2 & A1 & A2 & BT).
  destruct (part_optimizer B fg o D1 es1 asg1 Ho E1 A1) as (o1 & O1 & S1 & X1 & Y1); [intros f t Et; destruct (BT f t Et) as (t1 & t2 & K1 & _); eauto|].
  destruct (part_optimizer B fg o D2 es2 asg2 Ho E2 A2) as (o2 & O2 & S2 & X2 & Y2); [intros f t Et; destruct (BT f t Et) as (t1 & t2 & _ & K2 & _); eauto|].
  exists o1, o2. do 4 (split; auto). split; [congruence|]. intros f t Et. destruct (BT f t Et) as (t1 & t2 & K1 & K2 & Z1 & Z2 & Z3). exists t1, t2. unfold boardings. destruct (new_optimizer_attrs _ _ _ O1) as (Hb1 & _). destruct (new_optimizer_attrs _ _ _ O2) as (Hb2 & _).
  destruct S1 as (_ & _ & _ & SX1 & _). destruct S2 as (_ & _ & _ & SX2 & _). rewrite Hb1, Hb2, SX1, SX2, X1, X2, Y1, Y2. cbn [with_demand pb_fuel]. do 2 (split; auto).
Qed.

(** ** Fewer trips *)
(** the same cells, each with no more trips, and not negative *)
Definition fewer (M1 M : dict2) : Prop :=
  Forall2 (fun r1 r => fst r1 = fst r /\ Forall2 (fun c1 c => fst c1 = fst c /\ 0 <= snd c1 /\ snd c1 <= snd c) (snd r1) (snd r)) M1 M.
Lemma fewer_together M1 M : fewer M1 M -> exists M2, together M1 M2 M.
Proof.
  intro H. induction H as [|[o1 r1] [o r] M1 M (E & R) H (M2 & IH)]; [exists []; constructor|]. cbn [fst snd] in *. subst o1.
  assert (K : exists r2, Forall3 (fun c1 c2 c : Z * Q => fst c1 = fst c /\ fst c2 = fst c /\ 0 <= snd c1 /\ 0 <= snd c2 /\ snd c == snd c1 + snd c2) r1 r2 r).
  { clear -R. induction R as [|[d1 v1] [d v] r1 r (E & N & L) R (r2 & IH)]; [exists []; constructor|]. cbn [fst snd] in *. subst d1. exists ((d, v - v1) :: r2). constructor; auto. cbn [fst snd]. repeat split; auto; [lra|ring]. }
  destruct K as (r2 & K). exists ((o, r2) :: M2). constructor; auto.
Qed.
(** some of the entries, with a share of their trips *)
Inductive part : list (od_entry * list (nat * Q)) -> list (od_entry * list (nat * Q)) -> Prop :=
| P_nil : part [] []
| P_keep q e e1 a l1 l : 0 < q -> q <= 1 -> scaled q e e1 -> part l1 l -> part ((e1, a) :: l1) ((e, a) :: l)
| P_skip e a l1 l : part l1 l -> part l1 ((e, a) :: l).
Lemma merge_part X w vp spa spv : forall es1 es2 es asg asg1, merge es1 es2 es -> get_assignment X w vp spa spv es = Ok asg -> get_assignment X w vp spa spv es1 = Ok asg1 -> part (combine es1 asg1) (combine es asg).
Proof.
  intros es1 es2 es asg asg1 M. revert asg asg1. unfold get_assignment. induction M as [|e e1 l1 l2 l S M IH|e e2 l1 l2 l S M IH|e e1 e2 q1 q2 l1 l2 l P1 P2 Q12 S1 S2 M IH]; intros asg asg1 H H1; cbn [mapM] in *.
  - injection H as <-. injection H1 as <-. constructor.
  - apply bind_ok in H. destruct H as (a & Ea & H). apply bind_ok in H. destruct H as (asg' & Eg & H). injection H as <-. rewrite (assign_same _ _ _ _ _ _ _ _ S), Ea in H1. cbn [bind] in H1. apply bind_ok in H1. destruct H1 as (a1 & Ea1 & H1). injection H1 as <-. cbn [combine]. apply (P_keep 1); auto; lra.
  - apply bind_ok in H. destruct H as (a & Ea & H). apply bind_ok in H. destruct H as (asg' & Eg & H). injection H as <-. cbn [combine]. apply P_skip; auto.
  - apply bind_ok in H. destruct H as (a & Ea & H). apply bind_ok in H. destruct H as (asg' & Eg & H). injection H as <-. rewrite (assign_same _ _ _ _ _ _ _ _ S1), Ea in H1. cbn [bind] in H1. apply bind_ok in H1. destruct H1 as (a1 & Ea1 & H1). injection H1 as <-. cbn [combine]. apply (P_keep q1); auto; lra.
Qed.

(** the hours that a run reports are at most those of another *)
Definition Le (u' u : resources) : Prop := u_ta u' <= u_ta u /\ u_te u' <= u_te u /\ u_tv u' <= u_tv u /\ u_t u' <= u_t u.
Ltac le := unfold add_ta, add_te, add_tv, add_t; repeat split; cbn [u_ta u_te u_tv u_t]; auto.
Lemma Le_refl u : Le u u. Proof. repeat split; lra. Qed.
Lemma Le_trans a b c : Le a b -> Le b c -> Le a c. Proof. intros (A & B & C & D) (E & F & G & H). repeat split; lra. Qed.
Lemma Le_ta u' u w' w : Le u' u -> w' <= w -> Le (add_ta u' w') (add_ta u w). Proof. intros (A & B & C & D) E. le. lra. Qed.
Lemma Le_te u' u w' w : Le u' u -> w' <= w -> Le (add_te u' w') (add_te u w). Proof. intros (A & B & C & D) E. le. lra. Qed.
Lemma Le_tv u' u w' w : Le u' u -> w' <= w -> Le (add_tv u' w') (add_tv u w). Proof. intros (A & B & C & D) E. le. lra. Qed.
Lemma Le_t u' u w' w : Le u' u -> w' <= w -> Le (add_t u' w') (add_t u w). Proof. intros (A & B & C & D) E. le. lra. Qed.
Lemma mul_le a b c d : 0 <= a -> a <= b -> 0 <= c -> c <= d -> a * c <= b * d. Proof. intros. assert (0 <= d) by lra. nra. Qed.
Lemma div_nn a b : 0 <= a -> 0 <= b -> 0 <= a / b. Proof. intros. apply Qmult_le_0_compat; auto. now apply Qinv_le_0_compat. Qed.

Section Signs.
Variables (X : xgraph) (f : fdict).
Hypothesis (HS : forall s, 0 <= m_theta (sn_mode (stop_at (xg_stops X) s)) /\ 0 <= m_tat (sn_mode (stop_at (xg_stops X) s)) /\ 0 <= m_d (sn_mode (stop_at (xg_stops X) s))).
Hypothesis (HR : forall k, 0 <= m_d (r_mode (route_of X k)) /\ 0 <= m_t (r_mode (route_of X k))).
Hypothesis (HX : forall x, In x (xg_edges X) -> 0 <= x_t x).
Hypothesis (HF : forall r, 0 <= freq f r).
Hypothesis (HW : forall o, 0 <= width_of X o).

Lemma acum_nn : forall l a r, 0 <= a -> foldM (fun a e => match x_j e with ER k => Ok (a + freq f (rid X k)) | _ => Err AttributeError end) l a = Ok r -> 0 <= r.
Proof.
  induction l as [|e l IH]; intros a r A H; cbn [foldM] in H; [injection H as <-; auto|]. destruct (x_j e) as [|?|k]; cbn [bind] in H; try discriminate. apply (IH _ _) in H; auto. specialize (HF (rid X k)). lra.
Qed.
Lemma dis_le suc i j a' a r : 0 <= a' -> a' <= a -> dis_pax X f suc i j a = Ok r -> exists r', dis_pax X f suc i j a' = Ok r' /\ 0 <= r' /\ r' <= r.
Proof.
  intros N L H. unfold dis_pax in *. destruct i as [c|s|k]; try (injection H as <-; eauto; fail). destruct j as [c|s'|k]; try (injection H as <-; eauto; fail).
  apply bind_ok in H. destruct H as (fa & Ef & H). apply bind_ok in H. destruct H as (sh & Es & H). injection H as <-. rewrite Ef. cbn [bind]. rewrite Es. cbn [bind]. eexists. split; [reflexivity|].
  apply qdiv_inv in Es. destruct Es as [_ ->]. unfold f_acum in Ef. apply acum_nn in Ef; [|lra]. pose proof (div_nn _ _ (HF (rid X k)) Ef). split; [now apply Qmult_le_0_compat|]. apply mul_le; auto; lra.
Qed.
Section Two.
Variables (z v z' v' : tab).
Hypothesis (HZ : forall r d s, 0 <= tget z' r d s /\ tget z' r d s <= tget z r d s) (HV : forall r d s, 0 <= tget v' r d s /\ tget v' r d s <= tget v r d s).
Lemma te_le suc i j q' q u' u U : Le u' u -> 0 <= q' -> q' <= q -> report_te X f suc i j q u = Ok U -> exists U', report_te X f suc i j q' u' = Ok U' /\ Le U' U.
Proof.
  intros L N E H. unfold report_te in *. destruct i as [c|s|k0]; try (inversion H; subst; eauto; fail). destruct j as [c|s'|k]; try (inversion H; subst; eauto; fail).
  apply bind_ok in H. destruct H as (fa & Ef & H). apply bind_ok in H. destruct H as (w & Ew & H). apply bind_ok in H. destruct H as (te & Ee & H). injection H as <-.
  rewrite Ef. cbn [bind]. rewrite Ew. cbn [bind]. apply qdiv_inv in Ee. destruct Ee as [Hw ->]. rewrite qdiv_ok by exact Hw. cbn [bind]. eexists. split; [reflexivity|]. apply Le_te; auto.
  apply qdiv_inv in Ew. destruct Ew as [_ ->]. unfold f_acum in Ef. apply acum_nn in Ef; [|lra]. destruct (HS s) as (T & _). destruct (HR k) as (D & _). pose proof (div_nn _ _ Ef D) as W.
  apply mul_le; [now apply Qmult_le_0_compat|apply mul_le; auto; lra|now apply Qinv_le_0_compat|lra].
Qed.
Lemma tv_le i j q' q u' u : Le u' u -> 0 <= q' -> q' <= q -> Le (report_tv X i j q' u') (report_tv X i j q u).
Proof.
  intros L N E. unfold report_tv. destruct i; auto. destruct j; auto. destruct (find _ _) as [x|] eqn:F; auto. apply find_some in F. apply Le_tv; auto. apply mul_le; auto; [apply HX, F|lra].
Qed.
Lemma hour k : 0 <= m_t (r_mode (route_of X k)) / 3600. Proof. apply div_nn; [apply HR|lra]. Qed.
Lemma al_le dest i j q' q u' u U : Le u' u -> 0 <= q' -> q' <= q -> report_alighting X dest v i j q u = Ok U -> exists U', report_alighting X dest v' i j q' u' = Ok U' /\ Le U' U.
Proof.
  intros L N E H. unfold report_alighting in *. destruct i as [c|s|k]; try (inversion H; subst; eauto; fail). destruct j as [c|s|k']; try (inversion H; subst; eauto; fail).
  destruct (rn_prev _) as [pr|]; [|discriminate]. injection H as <-. eexists. split; [reflexivity|]. cbn zeta. apply Le_tv.
  - cbn [stop_of_dest]. destruct (onode_is _ _); auto. now apply Le_t.
  - pose proof (hour k) as T. set (tb := _ / 3600) in *. clearbody tb. match goal with |- tget v' ?r ?d ?s * _ * _ * _ <= _ => destruct (HV r d s) as [V1 V2] end. repeat apply mul_le; try lra; repeat apply Qmult_le_0_compat; lra.
Qed.
Lemma ta_le i j u' u : Le u' u -> Le (report_ta X i j u') (report_ta X i j u).
Proof. intro L. unfold report_ta. destruct i, j; auto; apply Le_ta; auto; lra. Qed.
Lemma max_le a b a' b' : a' <= a -> b' <= b -> Qmaxb a' b' <= Qmaxb a b.
Proof. intros A B. unfold Qmaxb. destruct (Qltb a' b') eqn:E1, (Qltb a b) eqn:E2; rewrite ?Qltb_lt in *; rewrite <- ?Bool.not_true_iff_false, ?Qltb_lt in *; lra. Qed.
Lemma max_nn a b : 0 <= a -> 0 <= b -> 0 <= Qmaxb a b. Proof. intros. unfold Qmaxb. destruct (Qltb a b); auto. Qed.
Lemma dw_le i j k q' q u' u : Le u' u -> 0 <= q' -> q' <= q -> Le (report_dwell X z' v' i j k q' u') (report_dwell X z v i j k q u).
Proof.
  intros L N E. unfold report_dwell. destruct i as [c|s|b]; auto. destruct j as [c|s|b']; auto. destruct k; auto. cbn zeta.
  set (rr := route_of X b). set (d := guess_dir rr _ _). set (s := rn_stop_at _ _). pose proof (hour b) as T. fold rr in T. set (tb := _ / 3600) in *. clearbody tb. destruct (HZ (r_id rr) d s) as [Z1 Z2]. destruct (HV (r_id rr) d s) as [V1 V2].
  assert (M : Le (if Qeqb (m_bya (r_mode rr)) 1 then add_tv u' (Qmaxb (tget z' (r_id rr) d s) (tget v' (r_id rr) d s) * tb * q') else u') (if Qeqb (m_bya (r_mode rr)) 1 then add_tv u (Qmaxb (tget z (r_id rr) d s) (tget v (r_id rr) d s) * tb * q) else u)).
  { destruct (Qeqb _ 1); auto. apply Le_tv; auto. pose proof (max_le _ _ _ _ Z2 V2) as ML. pose proof (max_nn _ _ Z1 V1) as MN. repeat apply mul_le; try lra; repeat apply Qmult_le_0_compat; lra. }
  destruct (Qeqb _ 0); auto. apply Le_tv; auto. repeat apply mul_le; try lra; repeat apply Qmult_le_0_compat; lra.
Qed.
Lemma report_le suc dest i j q' q u' u U : Le u' u -> 0 <= q' -> q' <= q -> report X f z v suc dest i j q u = Ok U -> exists U', report X f z' v' suc dest i j q' u' = Ok U' /\ Le U' U.
Proof.
  intros L N E H. unfold report in *. apply bind_ok in H. destruct H as (u1 & E1 & H). destruct (te_le _ _ _ _ _ _ _ _ L N E E1) as (a1 & -> & LA). cbn [bind].
  apply bind_ok in H. destruct H as (u2 & E2 & H). destruct (al_le _ _ _ _ _ _ _ _ (tv_le i j _ _ _ _ LA N E) N E E2) as (b' & -> & LB). cbn [bind]. injection H as <-. eexists. split; [reflexivity|].
  pose proof (ta_le i j _ _ LB) as LC. revert LC. generalize (report_ta X i j u2) (report_ta X i j b'). induction (suc j) as [|x l IH]; intros c c' LC; cbn [fold_left]; auto. apply IH. now apply dw_le.
Qed.
Definition pless (a' a : enode * enode * Q) : Prop := fst a' = fst a /\ 0 <= snd a' /\ snd a' <= snd a.
Lemma pushed_le (l : list xedge) n a' a : 0 <= a' -> a' <= a -> Forall2 pless (map (fun e => (n, x_j e, a')) l) (map (fun e => (n, x_j e, a)) l).
Proof. intros. induction l; cbn [map]; constructor; auto. split; auto. Qed.
Lemma consume_le suc dest : forall fuel ps' ps u' u U, Forall2 pless ps' ps -> Le u' u -> consume fuel X f z v suc dest ps u = Ok U -> exists U', consume fuel X f z' v' suc dest ps' u' = Ok U' /\ Le U' U.
Proof.
  induction fuel as [|fuel IH]; intros ps' ps u' u U HD L H; inversion HD as [|[[i' j'] q'] [[i j] q] r' r Hd Hr]; subst; cbn [consume] in *; try discriminate; try (inversion H; subst; eauto; fail).
  destruct Hd as (Hd & N & E). cbn [fst snd] in *. injection Hd as -> ->. destruct (stop_of_dest X dest i); [eauto|].
  apply bind_ok in H. destruct H as (s & Es & H). destruct (dis_le _ _ _ _ _ _ N E Es) as (s' & -> & N' & E'). cbn [bind].
  apply bind_ok in H. destruct H as (u1 & E1 & H). destruct (report_le _ _ _ _ _ _ _ _ _ L N' E' E1) as (a1 & -> & LA). cbn [bind].
  refine (IH _ _ _ _ _ _ LA H). apply Forall2_app; auto. now apply pushed_le.
Qed.
Lemma od_le fuel vp q e e1 a u1 u U : 0 < vp -> 0 < q -> q <= 1 -> scaled q e e1 -> 0 <= od_v e -> (forall s, 0 <= dget0 Nat.eqb 0 a s) -> Le u1 u -> consume_od fuel X vp f z v u (e, a) = Ok U ->
  exists U1, consume_od fuel X vp f z' v' u1 (e1, a) = Ok U1 /\ Le U1 U.
Proof.
  intros VP Q0 Q1 S V A L H. pose proof S as S0. destruct S as (D1 & D2 & DP & D4 & DV). unfold consume_od in *. cbn [fst snd] in *. rewrite DP. revert u1 u L H. generalize (map fst (od_paths e)). induction l as [|s l IH]; intros u1 u L H; cbn [foldM] in *; [injection H as <-; eauto|].
  apply bind_ok in H. destruct H as (u2 & E2 & H). assert (C : exists b, consume_stop fuel X vp f z' v' e1 a u1 s = Ok b /\ Le b u2); [|destruct C as (b & -> & LB); cbn [bind]; eauto].
  unfold consume_stop in *. cbn zeta in *. pose proof (start_dem _ _ _ a s S0) as SD. rewrite (zero_iff q Q0 _ _ SD). destruct (Qeqb _ 0) eqn:Z; [injection E2 as <-; eauto|].
  rewrite D1, D2, D4. apply bind_ok in E2. destruct E2 as (w & Ew & E2). rewrite Ew. cbn [bind]. apply qdiv_inv in Ew. destruct Ew as [_ ->].
  assert (N : 0 <= od_v e * dget0 Nat.eqb 0 a s / 100) by (apply div_nn; [|lra]; apply Qmult_le_0_compat; auto).
  assert (N1 : 0 <= od_v e1 * dget0 Nat.eqb 0 a s / 100) by (rewrite SD; apply Qmult_le_0_compat; auto; lra).
  assert (E1 : od_v e1 * dget0 Nat.eqb 0 a s / 100 <= od_v e * dget0 Nat.eqb 0 a s / 100) by (rewrite SD; nra).
  refine (consume_le _ _ _ _ _ _ _ _ (pushed_le _ _ _ _ N1 E1) _ E2). apply Le_ta; auto. destruct (HS s) as (_ & T2 & T3). apply mul_le; auto; [|lra].
  assert (0 <= m_tat (sn_mode (stop_at (xg_stops X) s)) / 60) by (apply div_nn; auto; lra).
  assert (0 <= dget0 Nat.eqb 0 a s / 100 * width_of X (od_o e) / (4 * vp * m_d (sn_mode (stop_at (xg_stops X) s)))); [|lra].
  apply div_nn; [apply Qmult_le_0_compat; auto; apply div_nn; auto; lra|]. apply Qmult_le_0_compat; auto. lra.
Qed.
End Two.
(** with travellers in the queue the hours grow *)
Section One.
Variables (z v : tab).
Hypothesis (HZ : forall r d s, 0 <= tget z r d s) (HV : forall r d s, 0 <= tget v r d s).
Lemma grow_add u w : 0 <= w -> Le u (add_ta u w) /\ Le u (add_te u w) /\ Le u (add_tv u w) /\ Le u (add_t u w).
Proof. intro. repeat split; cbn; lra. Qed.
Lemma report_grow suc dest i j q u U : 0 <= q -> report X f z v suc dest i j q u = Ok U -> Le u U.
Proof.
  intros N H. unfold report in *. apply bind_ok in H. destruct H as (u1 & E1 & H). apply bind_ok in H. destruct H as (u2 & E2 & H). injection H as <-.
  apply (Le_trans _ u1); [|apply (Le_trans _ (report_tv X i j q u1)); [|apply (Le_trans _ u2); [|apply (Le_trans _ (report_ta X i j u2))]]].
  - unfold report_te in E1. destruct i as [c|s|k0]; try (injection E1 as <-; apply Le_refl). destruct j as [c|s'|k]; try (injection E1 as <-; apply Le_refl).
    apply bind_ok in E1. destruct E1 as (fa & Ef & E1). apply bind_ok in E1. destruct E1 as (w & Ew & E1). apply bind_ok in E1. destruct E1 as (te & Ee & E1). injection E1 as <-. apply grow_add. apply qdiv_inv in Ee, Ew. destruct Ee as [_ ->], Ew as [_ ->]. unfold f_acum in Ef. apply acum_nn in Ef; [|lra].
    apply div_nn; [apply Qmult_le_0_compat; auto; apply HS|apply div_nn; auto; apply HR].
  - unfold report_tv. destruct i; try apply Le_refl. destruct j; try apply Le_refl. destruct (find _ _) as [x|] eqn:F; [|apply Le_refl]. apply grow_add. apply Qmult_le_0_compat; auto. apply find_some in F. apply HX, F.
  - unfold report_alighting in E2. destruct i as [c|s|k]; try (injection E2 as <-; apply Le_refl). destruct j as [c|s|k']; try (injection E2 as <-; apply Le_refl). destruct (rn_prev _) as [pr|]; [|discriminate]. injection E2 as <-.
    eapply Le_trans; [|apply grow_add; apply Qmult_le_0_compat; [apply Qmult_le_0_compat; [apply Qmult_le_0_compat; [apply HV|lra]|apply hour]|exact N]]. cbn [stop_of_dest]. destruct (onode_is _ _); [apply Le_refl|]. now apply grow_add.
  - unfold report_ta. destruct i as [c|s|k], j as [c'|s'|k']; try apply Le_refl; apply grow_add; apply div_nn; try apply HS; lra.
  - generalize (report_ta X i j u2). induction (suc j) as [|x l IH]; intro c; cbn [fold_left]; [apply Le_refl|]. eapply Le_trans; [|apply IH]. clear IH. unfold report_dwell. destruct i as [c0|s|b]; try apply Le_refl. destruct j as [c0|s|b']; try apply Le_refl. destruct (x_j x); try apply Le_refl. cbn zeta.
    set (rr := route_of X b). set (d := guess_dir rr _ _). set (s := rn_stop_at _ _). pose proof (hour b) as T. fold rr in T. set (tb := _ / 3600) in *. clearbody tb. specialize (HZ (r_id rr) d s). specialize (HV (r_id rr) d s).
    assert (M : Le c (if Qeqb (m_bya (r_mode rr)) 1 then add_tv c (Qmaxb (tget z (r_id rr) d s) (tget v (r_id rr) d s) * tb * q) else c)).
    { destruct (Qeqb _ 1); [|apply Le_refl]. apply grow_add. repeat apply Qmult_le_0_compat; auto. now apply max_nn. }
    destruct (Qeqb _ 0); auto. eapply Le_trans; [exact M|]. apply grow_add. repeat apply Qmult_le_0_compat; auto. lra.
Qed.
Lemma consume_grow suc dest : forall fuel ps u U, Forall (fun p => 0 <= snd p) ps -> consume fuel X f z v suc dest ps u = Ok U -> Le u U.
Proof.
  induction fuel as [|fuel IH]; intros ps u U HD H; inversion HD as [|[[i j] q] r Hd Hr]; subst; cbn [consume] in *; try discriminate; try (injection H as <-; apply Le_refl).
  cbn [snd] in Hd. destruct (stop_of_dest X dest i); [eauto|]. apply bind_ok in H. destruct H as (s & Es & H). apply bind_ok in H. destruct H as (u1 & E1 & H). destruct (dis_le _ _ _ q q s Hd (Qle_refl _) Es) as (s' & Es' & N' & L'). assert (s' = s) by congruence. subst s'.
  eapply Le_trans; [exact (report_grow _ _ _ _ _ _ _ N' E1)|]. refine (IH _ _ _ _ H). apply Forall_app. split; auto. apply Forall_forall. intros p Hp. apply in_map_iff in Hp. destruct Hp as (x & <- & _). exact N'.
Qed.
Lemma od_grow fuel vp e a u U : 0 < vp -> 0 <= od_v e -> (forall s, 0 <= dget0 Nat.eqb 0 a s) -> consume_od fuel X vp f z v u (e, a) = Ok U -> Le u U.
Proof.
  intros VP V A H. unfold consume_od in H. cbn [fst snd] in H. revert u H. generalize (map fst (od_paths e)). induction l as [|s l IH]; intros u H; cbn [foldM] in *; [injection H as <-; apply Le_refl|].
  apply bind_ok in H. destruct H as (u2 & E2 & H). eapply Le_trans; [|exact (IH _ H)]. clear IH H. unfold consume_stop in E2. cbn zeta in E2. destruct (Qeqb _ 0); [injection E2 as <-; apply Le_refl|]. apply bind_ok in E2. destruct E2 as (w & Ew & E2). apply qdiv_inv in Ew. destruct Ew as [_ ->].
  assert (N : 0 <= od_v e * dget0 Nat.eqb 0 a s / 100) by (apply div_nn; [|lra]; apply Qmult_le_0_compat; auto).
  eapply Le_trans; [|refine (consume_grow _ _ _ _ _ _ _ E2); apply Forall_forall; intros p Hp; apply in_map_iff in Hp; destruct Hp as (x & <- & _); exact N].
  apply grow_add. destruct (HS s) as (_ & T2 & T3). apply Qmult_le_0_compat; auto.
  assert (0 <= m_tat (sn_mode (stop_at (xg_stops X) s)) / 60) by (apply div_nn; auto; lra).
  assert (0 <= dget0 Nat.eqb 0 a s / 100 * width_of X (od_o e) / (4 * vp * m_d (sn_mode (stop_at (xg_stops X) s)))); [|lra].
  apply div_nn; [apply Qmult_le_0_compat; auto; apply div_nn; auto; lra|]. apply Qmult_le_0_compat; auto. lra.
Qed.
End One.
Lemma part_hours z v z' v' fuel vp : (forall r d s, 0 <= tget z' r d s /\ tget z' r d s <= tget z r d s) -> (forall r d s, 0 <= tget v' r d s /\ tget v' r d s <= tget v r d s) -> 0 < vp ->
  forall l1 l, part l1 l -> (forall e a, In (e, a) l -> 0 <= od_v e /\ forall s, 0 <= dget0 Nat.eqb 0 a s) -> forall u1 u U, Le u1 u -> foldM (consume_od fuel X vp f z v) l u = Ok U ->
  exists U1, foldM (consume_od fuel X vp f z' v') l1 u1 = Ok U1 /\ Le U1 U.
Proof.
  intros HZ HV VP l1 l P. induction P as [|q e e1 a l1 l Q0 Q1 S P IH|e a l1 l P IH]; intros A u1 u U L H; cbn [foldM] in *.
  - injection H as <-. eauto.
  - apply bind_ok in H. destruct H as (u2 & E2 & H). destruct (A e a (or_introl eq_refl)) as [A1 A2]. destruct (od_le z v z' v' HZ HV fuel vp q e e1 a u1 u u2 VP Q0 Q1 S A1 A2 L E2) as (b & -> & LB). cbn [bind]. refine (IH _ _ _ _ LB H). intros e' a' I. apply A. now right.
  - apply bind_ok in H. destruct H as (u2 & E2 & H). destruct (A e a (or_introl eq_refl)) as [A1 A2]. refine (IH _ u1 u2 U _ H); [intros e' a' I; apply A; now right|]. eapply Le_trans; [exact L|]. refine (od_grow z v _ _ fuel vp e a u u2 VP A1 A2 E2); intros r d s; [destruct (HZ r d s)|destruct (HV r d s)]; lra.
Qed.
End Signs.

(** ** Loads, constraints and costs *)
Lemma merge_in es1 es2 es : merge es1 es2 es -> (forall e1, In e1 es1 -> exists e, In e es /\ od_res e1 = od_res e) /\ (forall e2, In e2 es2 -> exists e, In e es /\ od_res e2 = od_res e).
Proof.
  induction 1 as [|e e1 l1 l2 l (_ & _ & _ & S & _) M [I1 I2]|e e2 l1 l2 l (_ & _ & _ & S & _) M [I1 I2]|e e1 e2 q1 q2 l1 l2 l _ _ _ (_ & _ & _ & S1 & _) (_ & _ & _ & S2 & _) M [I1 I2]]; [split; intros ? []| | |]; split; intros x Hx.
  all: try (destruct Hx as [<-|Hx]; [exists e; split; [now left|assumption]|]).
  all: first [destruct (I1 x Hx) as (y & Y1 & Y2); exists y; split; [now right|exact Y2]|destruct (I2 x Hx) as (y & Y1 & Y2); exists y; split; [now right|exact Y2]].
Qed.
Lemma loaded_part B fg o D f o1 : loaded B f o -> new_optimizer (with_demand B D) fg = Ok o1 -> same_network o o1 -> (forall e1, In e1 (o_es o1) -> exists e, In e (o_es o) /\ od_res e1 = od_res e) -> loaded (with_demand B D) f o1.
Proof.
  intros [A1 A2 A3 A4 A5 A6 A7 A8] O1 (N1 & _ & _ & N2 & _) IN. destruct (new_optimizer_attrs _ _ _ O1) as (_ & _ & _ & _ & _ & _ & EE & _). unfold loaded. rewrite N1, N2. rewrite N2 in EE. split; cbn [with_demand pb_geo pb_pass pb_fuel pb_demand pb_city] in *; auto.
  intros e1 He1. destruct (IN e1 He1) as (e & He & E). unfold runs. rewrite E. exact (A8 e He).
Qed.
Lemma together_comm M1 M2 M : together M1 M2 M -> together M2 M1 M.
Proof.
  intro H. induction H as [|r1 r2 r M1 M2 M (E1 & E2 & R) H IH]; constructor; auto. do 2 (split; auto). clear -R. induction R as [|c1 c2 c l1 l2 l (A & B & C & D & E) R IH]; constructor; auto. repeat split; auto. rewrite E. ring.
Qed.
Lemma together_left M1 M2 M o d v : together M1 M2 M -> has_trips M1 o d v -> 0 <= v.
Proof.
  intros H (row & R1 & R2 & _). induction H as [|r1 r2 r M1 M2 M (E1 & E2 & R) H IH]; [destruct R1|]. destruct R1 as [->|R1]; [|auto]. cbn [snd] in R. clear -R R2. induction R as [|c1 c2 c l1 l2 l (A & B & C & D & E) R IH]; [destruct R2|]. destruct R2 as [->|R2]; auto.
Qed.
Lemma together_whole M1 M2 M o d v : together M1 M2 M -> has_trips M o d v -> 0 <= v.
Proof.
  intros H (row & R1 & R2 & _). induction H as [|r1 r2 r M1 M2 M (E1 & E2 & R) H IH]; [destruct R1|]. destruct R1 as [->|R1]; [|auto]. cbn [snd] in R. clear -R R2. induction R as [|c1 c2 c l1 l2 l (A & B & C & D & E) R IH]; [destruct R2|]. destruct R2 as [->|R2]; auto. cbn [snd] in E. lra.
Qed.
Lemma trips_nn B f o : loaded B f o -> (forall o' d v, has_trips (dm_matrix (pb_demand B)) o' d v -> 0 <= v) -> forall e, In e (o_es o) -> 0 <= od_v e.
Proof. intros [A1 A2 A3 A4 A5 A6 A7 A8] H e He. destruct (entries_ok _ _ _ _ _ A3 A4 A5 A6 e He) as (c & cd & O). destruct (oo_v _ _ _ _ _ _ O) as (a & d & Ht & _). exact (H _ _ _ Ht). Qed.
Lemma used_d B fg f o : posed B fg -> loaded B f o -> forall m, used_mode (o_X o) m -> 1 <= m_d m.
Proof.
  intros PO LD m (s & st & H1 & H2 & <-). destruct (stop_mode_in _ _ _ _ _ _ _ _ _ _ _ LD s H1) as (r & Hr & E). unfold stop_at in E. rewrite (nth_error_nth _ _ _ H2) in E. rewrite E. apply (po_lines B fg PO r Hr).
Qed.
Lemma posed_demand B fg D : posed B fg -> posed (with_demand B D) fg.
Proof. intros [A1 A2 A3 A4 A5 A6 A7 A8 A9]. split; auto. Qed.
Lemma shares_nn B fg f o : posed B fg -> new_optimizer B fg = Ok o -> loaded B f o -> forall e a, In (e, a) (combine (o_es o) (o_asg o)) -> forall s, 0 <= dget0 Nat.eqb 0 a s.
Proof.
  intros PO Ho LD e a He s. destruct (new_optimizer_attrs _ _ _ Ho) as (_ & _ & _ & _ & _ & _ & _ & EA & _). pose proof (po_pass B fg PO) as (P1 & P2 & P3 & P4 & P5). pose proof LD as [A1 A2 A3 A4 A5 A6 A7 A8].
  destruct (C40_shares _ _ _ _ _ (p_p (c_params (pb_city B))) (q_va (pb_pass B)) (q_pa (pb_pass B)) (q_pv (pb_pass B)) A3 A4 A5 A6 (po_zone B fg PO) (Qlt_le_weak _ _ P1) P4 P2 (used_d _ _ _ _ PO LD)) as (asg' & EA' & FA).
  assert (asg' = o_asg o) by congruence. subst asg'. assert (KA : forall s q, In (s, q) a -> 0 <= q).
  { clear - FA He. induction FA as [|e0 a0 es asg H FA IH]; [contradiction|]. destruct He as [He|He]; [inversion He; subst; destruct H as [H _]; intros s1 q Hq; destruct (H s1 q Hq); tauto|exact (IH He)]. }
  clear - KA. unfold dget0. induction a as [|[k q] a IH]; cbn [dget]; [lra|]. destruct (Nat.eqb s k); [apply (KA k q); left; auto|apply IH; intros; eapply KA; right; eauto].
Qed.
Lemma tables_nn B fg f o t : posed B fg -> new_optimizer B fg = Ok o -> loaded B f o -> (forall o' d v, has_trips (dm_matrix (pb_demand B)) o' d v -> 0 <= v) -> boardings o f = Ok t ->
  forall r d s, 0 <= tget (t_z t) r d s /\ 0 <= tget (t_v t) r d s /\ 0 <= tget (t_l t) r d s.
Proof.
  intros PO Ho LD HT Et. pose proof (new_optimizer_attrs _ _ _ Ho) as (Hb & _ & _ & _ & _ & _ & _ & EA & _). pose proof (po_pass B fg PO) as (P1 & P2 & P3 & P4 & P5).
  destruct (C41_all_trips _ _ _ _ _ _ _ _ _ _ _ (p_p (c_params (pb_city B))) (q_va (pb_pass B)) (q_pa (pb_pass B)) (q_pv (pb_pass B)) LD (po_zone B fg PO) (Qlt_le_weak _ _ P1) P4 P2 (used_d _ _ _ _ PO LD)) as (asg' & EA' & _ & _ & NN).
  assert (asg' = o_asg o) by congruence. subst asg'. exact (NN (trips_nn _ _ _ LD HT) _ _ Et).
Qed.

(** At the same frequencies the vehicles of a line are at least as full with both groups as with one of them, and no
    fuller than with the two loads together. *)
Theorem C80_loads : forall B fg o D1 D2 f t, posed B fg -> new_optimizer B fg = Ok o -> together (dm_matrix D1) (dm_matrix D2) (dm_matrix (pb_demand B)) -> loaded B f o -> boardings o f = Ok t ->
  exists o1 o2 t1 t2, new_optimizer (with_demand B D1) fg = Ok o1 /\ new_optimizer (with_demand B D2) fg = Ok o2 /\ boardings o1 f = Ok t1 /\ boardings o2 f = Ok t2 /\
    loaded (with_demand B D1) f o1 /\ loaded (with_demand B D2) f o2 /\
    (forall r d s, 0 <= tget (t_z t1) r d s <= tget (t_z t) r d s /\ 0 <= tget (t_v t1) r d s <= tget (t_v t) r d s /\ 0 <= tget (t_l t1) r d s <= tget (t_l t) r d s) /\
    forall r, load t1 r <= load t r /\ load t2 r <= load t r /\ load t r <= load t1 r + load t2 r.
Proof.
  intros B fg o D1 D2 f t PO Ho T LD Et. destruct (C80_tables _ _ _ _ _ Ho T) as (o1 & o2 & O1 & O2 & S1 & S2 & MM & BT). destruct (BT f t Et) as (t1 & t2 & E1 & E2 & SM). destruct (merge_in _ _ _ MM) as [I1 I2].
  pose proof (loaded_part _ _ _ _ _ _ LD O1 S1 I1) as L1. pose proof (loaded_part _ _ _ _ _ _ LD O2 S2 I2) as L2.
  pose proof (tables_nn _ _ _ _ _ (posed_demand _ _ _ PO) O1 L1 (fun a b c H => together_left _ _ _ _ _ _ T H) E1) as N1. pose proof (tables_nn _ _ _ _ _ (posed_demand _ _ _ PO) O2 L2 (fun a b c H => together_left _ _ _ _ _ _ (together_comm _ _ _ T) H) E2) as N2.
  exists o1, o2, t1, t2. do 6 (split; auto). split; [intros r d s; destruct (SM r d s) as (A & C & E), (N1 r d s) as (A1 & C1 & F1), (N2 r d s) as (A2 & C2 & F2); lra|]. intro r.
  destruct (load_spec _ _ _ _ _ _ Et r) as (A & C & E). destruct (load_spec _ _ _ _ _ _ E1 r) as (A1 & C1 & F1). destruct (load_spec _ _ _ _ _ _ E2 r) as (A2 & C2 & F2). split; [|split].
  - destruct F1 as [F1|(d & s & F1)]; rewrite F1; auto. specialize (C d s). destruct (SM r d s) as (_ & _ & K), (N2 r d s) as (_ & _ & K2). lra.
  - destruct F2 as [F2|(d & s & F2)]; rewrite F2; auto. specialize (C d s). destruct (SM r d s) as (_ & _ & K), (N1 r d s) as (_ & _ & K2). lra.
  - destruct E as [E|(d & s & E)]; rewrite E; [lra|]. destruct (SM r d s) as (_ & _ & K). rewrite K. specialize (C1 d s). specialize (C2 d s). lra.
Qed.
(** Frequencies that meet the constraints with more trips meet them with fewer. *)
Theorem C80_constraints : forall B fg o D x f con, posed B fg -> new_optimizer B fg = Ok o -> fewer (dm_matrix D) (dm_matrix (pb_demand B)) -> fopt_to_f (o_pos o) x = Ok f -> loaded B f o -> get_constrains o x = Ok con ->
  exists o1 con1, new_optimizer (with_demand B D) fg = Ok o1 /\ get_constrains o1 x = Ok con1 /\ Forall2 Qle con1 con /\
    skipn (length (pb_routes B)) con1 = skipn (length (pb_routes B)) con.
Proof.
  intros B fg o D x f con PO Ho FW Ef LD H. destruct (fewer_together _ _ FW) as (M2 & T). set (D2 := mkDemand (dm_nodes D) (dm_n D) M2 0). change M2 with (dm_matrix D2) in T.
  unfold get_constrains in H. rewrite Ef in H. cbn [bind] in H. apply bind_ok in H. destruct H as (t & Et & H). apply bind_ok in H. destruct H as (F & EF & H). injection H as <-.
  destruct (C80_tables _ _ _ _ _ Ho T) as (o1' & _ & O1' & _ & S1 & _). destruct (C80_loads _ _ _ _ _ _ _ PO Ho T LD Et) as (o1 & o2 & t1 & t2 & O1 & _ & E1 & _ & _ & _ & _ & LL). assert (o1' = o1) by congruence. subst o1'.
  destruct (new_optimizer_attrs _ _ _ Ho) as (Hb & _). destruct (new_optimizer_attrs _ _ _ O1) as (Hb1 & _). destruct S1 as (_ & _ & SP & _). rewrite Hb in EF |- *.
  exists o1, (most_loaded_constrains (pb_routes B) (most_loaded_section (t_l t1)) ++ F). split; [exact O1|]. split.
  { unfold get_constrains. rewrite SP, Ef. cbn [bind]. rewrite E1. cbn [bind]. rewrite Hb1. change (pb_graph (with_demand B D)) with (pb_graph B). change (pb_routes (with_demand B D)) with (pb_routes B). change (pb_net (with_demand B D)) with (pb_net B). rewrite EF. reflexivity. }
  split.
  - apply Forall2_app; [|clear; induction F; constructor; auto; lra]. unfold most_loaded_constrains. generalize (pb_routes B). induction l as [|r l IH]; cbn [map]; constructor; auto. destruct (LL (r_id r)) as [K _]. unfold load in K. lra.
  - assert (SK : forall g (l : list route), skipn (length l) (map g l ++ F) = F) by (intros g l; induction l as [|r l IH]; [reflexivity|exact IH]). unfold most_loaded_constrains. now rewrite !SK.
Qed.

Lemma cycle_le z v z' v' rs tt ct a b ct' a' b' : (forall r d s, 0 <= tget z' r d s <= tget z r d s) -> (forall r d s, 0 <= tget v' r d s <= tget v r d s) -> tab_wf z -> tab_wf v -> tab_wf z' -> tab_wf v' -> NoDup (map r_id rs) ->
  get_cycle_time z v rs tt = (ct, a, b) -> get_cycle_time z' v' rs tt = (ct', a', b') -> forall r, In r rs -> 0 <= m_t (r_mode r) ->
  freq tt (r_id r) <= freq ct' (r_id r) /\ freq ct' (r_id r) <= freq ct (r_id r).
Proof.
  intros HZ HV W1 W2 W3 W4 ND E E' r Hr HT. split; [apply (C44_not_less_than_travel _ _ _ _ _ _ _ W3 W4 ND E' r Hr HT); intros d s; split; [apply HZ|apply HV]|].
  destruct (covers_two z v z' v' (r_id r)) as (S & C & C'). rewrite (proj1 (C44_cycle_time _ _ _ _ _ _ _ W1 W2 ND E) r S Hr C), (proj1 (C44_cycle_time _ _ _ _ _ _ _ W3 W4 ND E') r S Hr C').
  assert (T : 0 <= m_t (r_mode r) / 3600) by (apply div_nn; auto; lra). set (M := m_t (r_mode r) / 3600) in *. clearbody M.
  assert (D : Qsumf (fun d => Qsumf (stop_dwell (m_bya (r_mode r)) z' v' (r_id r) d) S) [DI; DR] <= Qsumf (fun d => Qsumf (stop_dwell (m_bya (r_mode r)) z v (r_id r) d) S) [DI; DR]); [|nra].
  apply Qsumf_le. intros d _. apply Qsumf_le. intros s _. unfold stop_dwell. destruct (HZ (r_id r) d s), (HV (r_id r) d s). destruct (Qeqb _ 0); [lra|]. destruct (Qeqb _ 1); [|lra]. now apply max_le.
Qed.
Lemma operators_le rs f ct ct' k k' : (forall r, In r rs -> 0 <= m_co (r_mode r) /\ 0 <= m_c1 (r_mode r) /\ 0 <= freq f (r_id r) /\ 0 <= freq k' (r_id r) <= freq k (r_id r) /\ 0 <= freq ct' (r_id r) <= freq ct (r_id r)) ->
  get_operators_cost rs ct' f k' <= get_operators_cost rs ct f k.
Proof.
  intro H. rewrite !C45_operators_cost. apply Qsumf_le. intros r Hr. apply filter_In in Hr. destruct (H r (proj1 Hr)) as (A & B & C & (K1 & K2) & T1 & T2). assert (0 <= m_c1 (r_mode r) * freq k' (r_id r)) by now apply Qmult_le_0_compat.
  apply mul_le; [lra| |now apply Qmult_le_0_compat|apply mul_le; auto; lra]. assert (m_c1 (r_mode r) * freq k' (r_id r) <= m_c1 (r_mode r) * freq k (r_id r)) by (apply mul_le; auto; lra). lra.
Qed.
Lemma users_le P u' u : 0 <= q_spa P -> 0 <= q_spw P -> 0 <= q_spv P -> 0 <= q_spt P -> Le u' u -> users_cost P u' <= users_cost P u.
Proof.
  intros A B C D (L1 & L2 & L3 & L4). unfold users_cost. assert (u_t u' * q_spt P / 60 * q_spv P <= u_t u * q_spt P / 60 * q_spv P); [|nra].
  assert (K : 0 <= (u_t u - u_t u') * q_spt P / 60 * q_spv P) by (apply Qmult_le_0_compat; auto; apply div_nn; [apply Qmult_le_0_compat; auto; lra|lra]).
  assert (E : (u_t u - u_t u') * q_spt P / 60 * q_spv P == u_t u * q_spt P / 60 * q_spv P - u_t u' * q_spt P / 60 * q_spv P) by field. lra.
Qed.
(** With fewer trips, the same frequencies cost no more. *)
Theorem C80_cost : forall B fg o D x f c, posed B fg -> priced B -> new_optimizer B fg = Ok o -> fewer (dm_matrix D) (dm_matrix (pb_demand B)) -> fopt_to_f (o_pos o) x = Ok f -> loaded B f o -> VRC o x = Ok c ->
  exists o1 c1, new_optimizer (with_demand B D) fg = Ok o1 /\ VRC o1 x = Ok c1 /\ c1 <= c.
Proof.
  intros B fg o D x f c PO PR Ho FW Ef LD H. destruct (fewer_together _ _ FW) as (M2 & T). set (D2 := mkDemand (dm_nodes D) (dm_n D) M2 0). change M2 with (dm_matrix D2) in T.
  pose proof (po_ids B fg PO) as ND. destruct (C58_objective _ _ _ _ _ Ho ND H) as (f' & t & ltt & cu & Ef' & Et & El & Eu & Ec). assert (f' = f) by congruence. subst f'.
  unfold get_users_cost in Eu. apply bind_ok in Eu. destruct Eu as (u & Eu & Ecu). injection Ecu as <-.
  destruct (C80_tables _ _ _ _ _ Ho T) as (o1' & o2' & O1' & _ & S1 & _ & MM & _). destruct (C80_loads _ _ _ _ _ _ _ PO Ho T LD Et) as (o1 & o2 & t1 & t2 & O1 & _ & E1 & _ & L1 & _ & TT & LL). assert (o1' = o1) by congruence. subst o1'.
  pose proof (new_optimizer_attrs _ _ _ Ho) as (Hb & _ & _ & _ & _ & _ & _ & EA & _). pose proof (new_optimizer_attrs _ _ _ O1) as (Hb1 & _ & _ & _ & _ & _ & _ & EA1 & _). destruct S1 as (_ & _ & SP & SX & _). rewrite SX in EA1. cbn [with_demand pb_pass pb_city] in EA1.
  pose proof (merge_part _ _ _ _ _ _ _ _ _ _ MM EA EA1) as PT. pose proof (po_pass B fg PO) as (P1 & P2 & P3 & P4 & P5). pose proof LD as [A1 A2 A3 A4 A5 A6 A7 A8].
  assert (ST : forall s, 0 <= m_theta (sn_mode (stop_at (xg_stops (o_X o)) s)) /\ 0 <= m_tat (sn_mode (stop_at (xg_stops (o_X o)) s)) /\ 0 <= m_d (sn_mode (stop_at (xg_stops (o_X o)) s))).
  { intro s. unfold stop_at. destruct (nth_in_or_default s (xg_stops (o_X o)) dflt_stop) as [I|I]; [|rewrite I; cbn; repeat split; discriminate]. rewrite (ef_stops _ _ _ _ _ _ (facts_of _ _ _ _ _ _ A1 A2)) in I at 2. apply stop_list_In, touches_In in I. destruct I as (r & nd & Hr & Em & _). rewrite <- Em. destruct (po_lines B fg PO r Hr) as (X1 & X2 & X3 & X4 & _). repeat split; lra. }
  assert (RT : forall k, 0 <= m_d (r_mode (route_of (o_X o) k)) /\ 0 <= m_t (r_mode (route_of (o_X o) k))).
  { intro k. unfold route_of, rnode_at. destruct (nth_error (xg_rnodes (o_X o)) k) as [rn|] eqn:E; [|rewrite (nth_overflow _ _ (proj1 (nth_error_None _ _) E)); cbn; split; discriminate].
    assert (I : In (ER k) (xnodes (o_X o))) by (apply (C30_nodes_exact _ _ _ _ _ _ A1 A2); exists rn; exact E). pose proof (line_in _ _ _ _ _ _ _ _ _ _ _ LD k I) as J. unfold line_of, rnode_at in J. destruct (po_lines B fg PO _ J) as (X1 & _). destruct (pr_modes B PR _ J) as (_ & _ & X2). split; [lra|exact X2]. }
  assert (WD : forall oo, 0 <= width_of (o_X o) oo).
  { intros [[i|?|?]|]; cbn; try discriminate. rewrite (ef_graph _ _ _ _ _ _ (facts_of _ _ _ _ _ _ A1 A2)). unfold gnode. destruct (nth_in_or_default i (g_nodes (pb_graph B)) dflt_node) as [I|I]; [apply (pr_width B PR _ I)|rewrite I; cbn; discriminate]. }
  destruct (part_hours (o_X o) f ST RT (fun y Hy => hg_time _ A3 y Hy) A7 WD (t_z t) (t_v t) (t_z t1) (t_v t1) (pb_fuel B) (q_va (pb_pass B)) (fun r d s => proj1 (TT r d s)) (fun r d s => proj1 (proj2 (TT r d s))) P1 _ _ PT) with (u1 := mkU 0 0 0 0) (u := mkU 0 0 0 0) (U := u) as (u1 & Eu1 & LU);
    [intros e a I; split; [exact (trips_nn _ _ _ LD (pr_trips B PR) e (in_combine_l _ _ _ _ I))|exact (shares_nn _ _ _ _ PO Ho LD e a I)]|apply Le_refl|exact Eu|].
  assert (EU1 : resources_consumer (pb_fuel B) (o_X o) (q_va (pb_pass B)) f (o_es o1) (o_asg o1) (t_z t1) (t_v t1) = Ok u1) by exact Eu1.
  destruct (gab_wf _ _ _ _ _ _ Et) as (W1 & W2 & _). destruct (gab_wf _ _ _ _ _ _ E1) as (W3 & W4 & _).
  destruct (get_cycle_time (t_z t) (t_v t) (pb_routes B) ltt) as [[ct zz] vv] eqn:ECT. cbn [fst] in Ec.
  destruct (get_cycle_time (t_z t1) (t_v t1) (pb_routes B) ltt) as [[ct1 z1] v1] eqn:ECT1. destruct (cycle_same _ _ _ _ _ _ _ W3 W4 ND ECT1) as [SZ SV].
  exists o1. eexists. split; [exact O1|]. split.
  { unfold VRC. rewrite SP, Ef. cbn [bind]. rewrite E1. cbn [bind]. rewrite Hb1. unfold operators_cost. change (pb_routes (with_demand B D)) with (pb_routes B). change (pb_graph (with_demand B D)) with (pb_graph B). cbn [with_demand pb_geo]. rewrite El. cbn [bind]. rewrite ECT1. cbn [bind]. unfold user_cost, get_users_cost. cbn [with_demand pb_fuel pb_pass]. rewrite (rc_tab _ _ _ _ _ _ _ _ _ _ SZ SV), SX, EU1. cbn [bind]. reflexivity. }
  rewrite Ec. unfold infrastructure_cost. change (get_infrastructure_cost (pb_geo (with_demand B D)) (pb_graph (with_demand B D)) (pb_net (with_demand B D)) f) with (get_infrastructure_cost (pb_geo B) (pb_graph B) (pb_net B) f).
  destruct (pr_users B PR) as (U1 & U2 & U3 & U4). pose proof (users_le (pb_pass B) u1 u U1 U2 U3 U4 LU) as KU.
  destruct (travel_time_ok (pb_routes B) (get_edges_distance (pb_geo B) (pb_graph B)) (fun r Hr => proj1 (proj2 (po_lines B fg PO r Hr))) (fun i j => dist0_nonneg _ _ i j (po_geo B fg PO))) as (tt & Ett & TN). assert (tt = ltt) by congruence. subst tt.
  assert (KO : get_operators_cost (pb_routes B) ct1 f (get_k (t_l t1)) <= get_operators_cost (pb_routes B) ct f (most_loaded_section (t_l t))); [|lra].
  apply operators_le. intros r Hr. destruct (pr_modes B PR r Hr) as (R1 & R2 & R3). do 2 (split; [assumption|]). split; [apply A7|]. rewrite get_k_freq. split.
  - destruct (load_spec _ _ _ _ _ _ E1 (r_id r)) as (K1 & _). destruct (LL (r_id r)) as (K2 & _). split; [exact K1|exact K2].
  - destruct (cycle_le _ _ _ _ _ _ _ _ _ _ _ _ (fun r d s => proj1 (TT r d s)) (fun r d s => proj1 (proj2 (TT r d s))) W1 W2 W3 W4 ND ECT ECT1 r Hr R3) as [K1 K2]. specialize (TN (r_id r)). split; [lra|exact K2].
Qed.

(** ** Example: 5 + 7 trips; 3 + 7 of them in one group, 2 in the other *)
Fixpoint all3 {A B C} (p : A -> B -> C -> bool) (l : list A) (m : list B) (n : list C) : bool :=
  match l, m, n with
  | [], [], [] => true
  | a :: l, b :: m, c :: n => p a b c && all3 p l m n
  | _, _, _ => false
  end.
Lemma all3_ok {A B C} (p : A -> B -> C -> bool) (R : A -> B -> C -> Prop) : (forall a b c, p a b c = true -> R a b c) -> forall l m n, all3 p l m n = true -> Forall3 R l m n.
Proof. intros H l. induction l as [|a l IH]; intros [|b m] [|c n] E; cbn [all3] in E; try discriminate; [constructor|]. apply andb_prop in E. destruct E. constructor; auto. Qed.
Definition together_b (M1 M2 M : dict2) : bool :=
  all3 (fun r1 r2 r => (fst r1 =? fst r)%Z && (fst r2 =? fst r)%Z && all3 (fun c1 c2 c => (fst c1 =? fst c)%Z && (fst c2 =? fst c)%Z && Qle_bool 0 (snd c1) && Qle_bool 0 (snd c2) && Qeq_bool (snd c) (snd c1 + snd c2)) (snd r1) (snd r2) (snd r)) M1 M2 M.
Lemma together_b_ok M1 M2 M : together_b M1 M2 M = true -> together M1 M2 M.
Proof.
  apply all3_ok. intros r1 r2 r H. rewrite !andb_true_iff in H. destruct H as ((E1 & E2) & H). apply Z.eqb_eq in E1, E2. do 2 (split; [assumption|]). revert H. apply all3_ok. intros c1 c2 c K. rewrite !andb_true_iff in K. destruct K as ((((K1 & K2) & K3) & K4) & K5). apply Z.eqb_eq in K1, K2. apply Qle_bool_iff in K3, K4. apply Qeq_bool_iff in K5. auto 6.
Qed.
Lemma together_fewer M1 M2 M : together M1 M2 M -> fewer M1 M.
Proof.
  intro H. induction H as [|r1 r2 r M1 M2 M (E1 & E2 & R) H IH]; constructor; auto. split; auto. clear -R. induction R as [|c1 c2 c l1 l2 l (A & B & C & D & E) R IH]; constructor; auto. repeat split; auto. lra.
Qed.
Definition ex_one : demand := fst (change_vij (fst (change_vij (new_demand (g_nodes ex_g34) 3) 1 3 3)) 4 1 7).
Definition ex_other : demand := fst (change_vij (new_demand (g_nodes ex_g34) 3) 1 3 2).
Lemma ex_together : together (dm_matrix ex_one) (dm_matrix ex_other) (dm_matrix (pb_demand ex_B)).
Proof. apply together_b_ok. vm_compute. reflexivity. Qed.
Lemma ends_b g : forallb (fun e => match edge_ends g e with Some _ => true | None => false end) (g_edges g) = true -> forall e, In e (g_edges g) -> edge_ends g e <> None.
Proof. intros A e He C. rewrite forallb_forall in A. specialize (A e He). rewrite C in A. discriminate. Qed.
Lemma width_b g : forallb (fun n => Qle_bool 0 (nd_width n)) (g_nodes g) = true -> forall n, In n (g_nodes g) -> 0 <= nd_width n.
Proof. intros A n Hn. rewrite forallb_forall in A. apply Qle_bool_iff. exact (A n Hn). Qed.
Lemma ex_B_posed : posed ex_B (Some ex_ff).
Proof.
  assert (L : forall r, In r (pb_routes ex_B) -> r = ex_tang \/ r = ex_tang_express) by (intros r [<-|[<-|[]]]; auto).
  constructor.
  - change (pb_graph ex_B) with (c_graph ex_city). rewrite ex_graph_city. change (pb_routes ex_B) with [ex_tang; ex_tang_express]. ext_input_tac.
  - vm_compute; repeat constructor; cbn; intuition discriminate.
  - exact Props_Hyper.ex_sqrt_nonneg.
  - change (pb_graph ex_B) with (c_graph ex_city). rewrite ex_graph_city. apply ends_b. vm_compute. reflexivity.
  - vm_compute. discriminate.
  - intros r Hr. destruct (L r Hr) as [-> | ->]; vm_compute; repeat split; discriminate.
  - intros m [<-|[]]. reflexivity.
  - vm_compute. repeat split; discriminate.
  - intros f E. injection E as <-. intros r Hr. destruct (L r Hr) as [-> | ->]; vm_compute; discriminate.
Qed.
Lemma ex_B_priced : priced ex_B.
Proof.
  assert (L : forall r, In r (pb_routes ex_B) -> r = ex_tang \/ r = ex_tang_express) by (intros r [<-|[<-|[]]]; auto).
  constructor.
  - intros r Hr. destruct (L r Hr) as [-> | ->]; vm_compute; repeat split; discriminate.
  - intros m [<-|[]]. vm_compute. discriminate.
  - vm_compute. repeat split; discriminate.
  - change (pb_graph ex_B) with (c_graph ex_city). rewrite ex_graph_city. apply width_b. vm_compute. reflexivity.
  - intros o d v H. exact (together_whole _ _ _ _ _ _ ex_together H).
Qed.
Example C80_ex : exists o c con f t, new_optimizer ex_B (Some ex_ff) = Ok o /\ posed ex_B (Some ex_ff) /\ priced ex_B /\
  together (dm_matrix ex_one) (dm_matrix ex_other) (dm_matrix (pb_demand ex_B)) /\ fewer (dm_matrix ex_one) (dm_matrix (pb_demand ex_B)) /\
  fopt_to_f (o_pos o) [10; 20] = Ok f /\ loaded ex_B f o /\ boardings o f = Ok t /\ VRC o [10; 20] = Ok c /\ get_constrains o [10; 20] = Ok con /\
  exists o1 c1, new_optimizer (with_demand ex_B ex_one) (Some ex_ff) = Ok o1 /\ VRC o1 [10; 20] = Ok c1 /\ c1 < c.
Proof.
  destruct C77_ex as (o & c & f & t & ltt & ct & u & u0 & Eo & ND & Ec & LD & _ & _ & EV & _). pose proof EV as (A1 & A2 & _).
  assert (K : exists o o1 c c1 con, new_optimizer ex_B (Some ex_ff) = Ok o /\ VRC o [10; 20] = Ok c /\ get_constrains o [10; 20] = Ok con /\ new_optimizer (with_demand ex_B ex_one) (Some ex_ff) = Ok o1 /\ VRC o1 [10; 20] = Ok c1 /\ c1 < c).
  { do 5 eexists. do 5 (split; [vm_compute; reflexivity|]). vm_compute. reflexivity. }
  destruct K as (o' & o1 & c' & c1 & con & E1 & E2 & E3 & E4 & E5 & E6). assert (o' = o) by congruence. subst o'. assert (c' = c) by congruence. subst c'.
  exists o, c, con, f, t. split; [exact Eo|]. split; [exact ex_B_posed|]. split; [exact ex_B_priced|]. split; [exact ex_together|]. split; [exact (together_fewer _ _ _ ex_together)|]. split; [exact A1|]. split; [exact (LD f A1)|]. split; [exact A2|]. split; [exact Ec|]. split; [exact E3|]. exists o1, c1. auto.
Qed.

Print Assumptions C80_tables.
Print Assumptions C80_loads.
Print Assumptions C80_constraints.
Print Assumptions C80_cost.
