(** * Props_Scale: one network with all its trips multiplied by the same number *)
From Coq Require Import String List ZArith QArith Qfield Bool Lia Lqa.
From Verif Require Import PyBase PyFacts PyStr Graph Mode Route ExtGraph ExtSpec Hyperpath HyperSpec Network Demand DemandProofs Assignment AssignSpec FlowSpec TableProofs Costs CostSpec UsersCost UsersSpec Optimizer OptSpec ResultsSpec Props_Flow Props_Cost Props_Users Props_Opt Props_Loads Props_Results Props_Value Props_Pipe Props_Ray.
From Verif Require Import Props_Ext.
Import ListNotations.
Local Open Scope Q_scope.

(** a matrix of trips with the same cells, each multiplied by p *)
Definition times (p : Q) (M M' : dict2) : Prop :=
  Forall2 (fun r r' => fst r' = fst r /\ Forall2 (fun c c' => fst c' = fst c /\ snd c' == p * snd c) (snd r) (snd r')) M M'.
(** the same problem with other trips *)
Definition with_demand (B : problem) (D : demand) : problem := mkProblem (pb_geo B) (pb_city B) D (pb_pass B) (pb_net B) (pb_fuel B).

Section Lockstep.
Variables (X : xgraph) (f : fdict) (p : Q).
Hypothesis (HP : 0 < p).

Lemma p_nz : ~ p == 0. Proof. intro E. rewrite E in HP. discriminate. Qed.
Lemma zero_iff a b : b == p * a -> Qeqb b 0 = Qeqb a 0.
Proof. intro E. destruct (Qeqb a 0) eqn:Z; qb; [apply Qeqb_eq; rewrite E, Z; ring|apply Qeqb_neq; rewrite E; intro C; apply Qmult_integral in C; destruct C; [now apply p_nz|contradiction]]. Qed.

Lemma dis_pax_dem suc i j a a' r : a' == p * a -> dis_pax X f suc i j a = Ok r -> exists r', dis_pax X f suc i j a' = Ok r' /\ r' == p * r.
Proof.
  intros E H. unfold dis_pax in *. destruct i as [c|s|k0]; try (inversion H; subst; eauto; fail). destruct j as [c|s'|k]; try (inversion H; subst; eauto; fail).
  apply bind_ok in H. destruct H as (fa & Ef & H). apply bind_ok in H. destruct H as (sh & Es & H). inversion H; subst r. rewrite Ef. cbn [bind]. rewrite Es. cbn [bind]. eexists. split; [reflexivity|]. rewrite E. ring.
Qed.

Definition tmul (t t' : tab) : Prop := forall r d s, tget t' r d s == p * tget t r d s.
Definition Tmul (t t' : tables) : Prop := tmul (t_z t) (t_z t') /\ tmul (t_v t) (t_v t') /\ tmul (t_l t) (t_l t').
Lemma tadd_dem t t' r d s a a' : tmul t t' -> a' == p * a -> tmul (tadd t r d s a) (tadd t' r d s a').
Proof. intros E Ea r0 d0 s0. rewrite !tget_tadd, (E r0 d0 s0). destruct (here _ _ _ _ _ _); rewrite ?Ea; ring. Qed.
Lemma record_dem t t' i j a a' : Tmul t t' -> a' == p * a -> Tmul (record_flow X t i j a) (record_flow X t' i j a').
Proof. intros (A & B & C) E. unfold record_flow. destruct i, j; repeat split; cbn [t_z t_v t_l]; auto using tadd_dem. Qed.

Definition pmul (a b : enode * enode * Q) : Prop := fst b = fst a /\ snd b == p * snd a.
Lemma pushed_dem (l : list xedge) (j : enode) a a' : a' == p * a -> Forall2 pmul (map (fun e => (j, x_j e, a)) l) (map (fun e => (j, x_j e, a')) l).
Proof. intro E. induction l; constructor; auto. split; [reflexivity|exact E]. Qed.

Lemma spread_dem suc dest : forall fuel ps ps' t t' T, Forall2 pmul ps ps' -> Tmul t t' -> spread fuel X f suc dest ps t = Ok T ->
  exists T', spread fuel X f suc dest ps' t' = Ok T' /\ Tmul T T'.
Proof.
  induction fuel as [|fuel IH]; intros ps ps' t t' T HD HT H; inversion HD as [|[[i j] a] [[i' j'] a'] r r' Hd Hr]; subst; cbn [spread] in *; try discriminate; try (inversion H; subst; eauto; fail).
  destruct Hd as [Hd Ea]. cbn [fst snd] in *. injection Hd as -> ->. apply bind_ok in H. destruct H as (s & Es & H). destruct (dis_pax_dem _ _ _ _ _ _ Ea Es) as (s' & -> & Es'). cbn [bind].
  refine (IH _ _ _ _ _ _ (record_dem _ _ _ _ _ _ HT Es') H). destruct (stop_of_dest X dest j); auto. apply Forall2_app; auto. now apply pushed_dem.
Qed.

Lemma start_dem e e' a s : scaled p e e' -> od_v e' * dget0 Nat.eqb 0 a s / 100 == p * (od_v e * dget0 Nat.eqb 0 a s / 100).
Proof. intros (_ & _ & _ & _ & E). rewrite E. field. Qed.

Lemma raw_dem fuel : forall es es' asg t t' T, Forall2 (scaled p) es es' -> Tmul t t' -> foldM (spread_od fuel X f) (combine es asg) t = Ok T ->
  exists T', foldM (spread_od fuel X f) (combine es' asg) t' = Ok T' /\ Tmul T T'.
Proof.
  intros es es' asg t t' T SC. revert asg t t' T. induction SC as [|e e' es es' S SC IH]; intros asg t t' T HT H; cbn [combine foldM] in *; [inversion H; subst; eauto|]. destruct asg as [|a asg]; cbn [foldM] in *; [inversion H; subst; eauto|].
  apply bind_ok in H. destruct H as (t1 & E1 & H). assert (A : exists t1', spread_od fuel X f t' (e', a) = Ok t1' /\ Tmul t1 t1').
  { pose proof S as S0. destruct S as (_ & D2 & D3 & D4 & _). unfold spread_od in *. cbn [fst snd] in *. clear H IH. rewrite D3. revert t t' HT E1. generalize (map fst (od_paths e)). induction l as [|s l IH]; intros t t' HT E1; cbn [foldM] in *; [inversion E1; subst; eauto|].
    apply bind_ok in E1. destruct E1 as (t2 & E2 & E1). assert (C : exists t2', spread_stop fuel X f e' a t' s = Ok t2' /\ Tmul t2 t2').
    { unfold spread_stop in *. cbn zeta in *. rewrite (zero_iff _ _ (start_dem _ _ a s S0)). destruct (Qeqb _ 0); [inversion E2; subst; eauto|]. rewrite D2, D4. refine (spread_dem _ _ _ _ _ _ _ _ _ HT E2). apply pushed_dem. now apply start_dem. }
    destruct C as (t2' & -> & HT2). cbn [bind]. eauto. }
  destruct A as (t1' & -> & HT1). cbn [bind]. eauto.
Qed.

Lemma per_vehicle_dem t t' : tmul t t' -> tmul (per_vehicle f t) (per_vehicle f t').
Proof. intros E r d s. rewrite !tget_scaled. unfold scale. destruct (Qeqb (freq f r) 0) eqn:Z; rewrite (E r d s); [reflexivity|]. qb. field. exact Z. Qed.

Lemma gab_dem fuel es es' asg t : Forall2 (scaled p) es es' -> get_alighting_and_boarding fuel X f es asg = Ok t ->
  exists t', get_alighting_and_boarding fuel X f es' asg = Ok t' /\ Tmul t t'.
Proof.
  intros SC E. unfold get_alighting_and_boarding in *. apply bind_ok in E. destruct E as (T & ET & E). injection E as <-.
  destruct (raw_dem _ _ _ _ (mkT [] [] []) (mkT [] [] []) _ SC ltac:(repeat split; intros ? ? ?; cbn [t_z t_v t_l]; rewrite !tget_none; ring) ET) as (T' & -> & R1 & R2 & R4). cbn [bind]. eexists. split; [reflexivity|]. repeat split; cbn [t_z t_v t_l]; now apply per_vehicle_dem.
Qed.

(** three runs: the trips, the trips with nobody getting on or off on the way, and p times the trips; a and a' are
    what the starts of the trips have added to the access time *)
Definition D3 (a a' : Q) (u u0 u' : resources) : Prop :=
  u_ta u' - a' == u_ta u - a /\ u_t u' == p * u_t u /\ u_te u' == p * u_te u /\ u_tv u' == p * u_tv u0 + p * p * (u_tv u - u_tv u0).
Ltac d3 := unfold add_ta, add_te, add_tv, add_t; repeat split; cbn [u_ta u_te u_tv u_t]; auto.
Lemma D3_ta a a' u u0 u' w : D3 a a' u u0 u' -> D3 a a' (add_ta u w) (add_ta u0 w) (add_ta u' w).
Proof. intros (A & B & C & D). d3. lra. Qed.
Lemma D3_start a a' u u0 u' w w' : D3 a a' u u0 u' -> D3 (a + w) (a' + w') (add_ta u w) (add_ta u0 w) (add_ta u' w').
Proof. intros (A & B & C & D). d3. lra. Qed.
Lemma D3_t a a' u u0 u' w w' : D3 a a' u u0 u' -> w' == p * w -> D3 a a' (add_t u w) (add_t u0 w) (add_t u' w').
Proof. intros (A & B & C & D) E. d3. rewrite B, E. ring. Qed.
Lemma D3_tv a a' u u0 u' w w0 w' : D3 a a' u u0 u' -> w' == p * w0 + p * p * (w - w0) -> D3 a a' (add_tv u w) (add_tv u0 w0) (add_tv u' w').
Proof. intros (A & B & C & D) E. d3. rewrite D, E. ring. Qed.
Lemma D3_te a a' u u0 u' w w0 w' : D3 a a' u u0 u' -> w' == p * w -> D3 a a' (add_te u w) (add_te u0 w0) (add_te u' w').
Proof. intros (A & B & C & D) E. d3. rewrite C, E. ring. Qed.

Lemma max_dem a b a' b' : a' == p * a -> b' == p * b -> Qmaxb a' b' == p * Qmaxb a b.
Proof.
  intros A B. unfold Qmaxb. destruct (Qltb a' b') eqn:E1, (Qltb a b) eqn:E2; try assumption; rewrite ?Qltb_lt in *; rewrite <- ?Bool.not_true_iff_false, ?Qltb_lt in *.
  all: exfalso; rewrite A, B in E1; rewrite Qmult_lt_l in E1 by exact HP; contradiction.
Qed.

Section Tables.
Variables (z v z' v' : tab).
Hypothesis (HZ : tmul z z') (HV : tmul v v').

Lemma te_dem suc i j q q' a a' u u0 u' U : D3 a a' u u0 u' -> q' == p * q -> report_te X f suc i j q u = Ok U ->
  exists U0 U', report_te X f suc i j q u0 = Ok U0 /\ report_te X f suc i j q' u' = Ok U' /\ D3 a a' U U0 U'.
Proof.
  intros HR E H. unfold report_te in *. destruct i as [c|s|k0]; try (inversion H; subst; eauto; fail). destruct j as [c|s'|k]; try (inversion H; subst; eauto; fail).
  apply bind_ok in H. destruct H as (fa & Ef & H). apply bind_ok in H. destruct H as (w & Ew & H). apply bind_ok in H. destruct H as (te & Ee & H). injection H as <-.
  rewrite Ef. cbn [bind]. rewrite Ew. cbn [bind]. rewrite Ee. cbn [bind]. apply qdiv_inv in Ee. destruct Ee as [Hw ->]. rewrite qdiv_ok by exact Hw. cbn [bind].
  eexists. eexists. split; [reflexivity|]. split; [reflexivity|]. apply D3_te; [exact HR|]. rewrite E. field. exact Hw.
Qed.
Lemma tv_dem i j q q' a a' u u0 u' : D3 a a' u u0 u' -> q' == p * q -> D3 a a' (report_tv X i j q u) (report_tv X i j q u0) (report_tv X i j q' u').
Proof. intros HR E. unfold report_tv. destruct i; auto. destruct j; auto. destruct (find _ _); auto. apply D3_tv; auto. rewrite E. ring. Qed.
Lemma al_dem dest i j q q' a a' u u0 u' U : D3 a a' u u0 u' -> q' == p * q -> report_alighting X dest v i j q u = Ok U ->
  exists U0 U', report_alighting X dest [] i j q u0 = Ok U0 /\ report_alighting X dest v' i j q' u' = Ok U' /\ D3 a a' U U0 U'.
Proof.
  intros HR E H. unfold report_alighting in *. destruct i as [c|s|k]; try (inversion H; subst; eauto; fail). destruct j as [c|s|k']; try (inversion H; subst; eauto; fail).
  destruct (rn_prev _) as [pr|]; [|discriminate]. injection H as <-. eexists. eexists. split; [reflexivity|]. split; [reflexivity|]. apply D3_tv.
  - cbn [stop_of_dest]. destruct (onode_is _ _); auto. now apply D3_t.
  - cbn zeta. rewrite tget_none, (HV _ _ _), E. ring.
Qed.
Lemma ta_dem i j a a' u u0 u' : D3 a a' u u0 u' -> D3 a a' (report_ta X i j u) (report_ta X i j u0) (report_ta X i j u').
Proof. intro HR. unfold report_ta. destruct i, j; auto using D3_ta. Qed.
Lemma dw_dem i j k q q' a a' u u0 u' : D3 a a' u u0 u' -> q' == p * q -> D3 a a' (report_dwell X z v i j k q u) (report_dwell X [] [] i j k q u0) (report_dwell X z' v' i j k q' u').
Proof.
  intros HR E. unfold report_dwell. destruct i as [c|s|b]; auto. destruct j as [c|s|b']; auto. destruct k; auto. cbn zeta.
  set (r := route_of X b). set (d := guess_dir r _ _). set (s := rn_stop_at _ _).
  assert (HM : D3 a a' (if Qeqb (m_bya (r_mode r)) 1 then add_tv u (Qmaxb (tget z (r_id r) d s) (tget v (r_id r) d s) * (m_t (r_mode r) / 3600) * q) else u)
    (if Qeqb (m_bya (r_mode r)) 1 then add_tv u0 (Qmaxb (tget [] (r_id r) d s) (tget [] (r_id r) d s) * (m_t (r_mode r) / 3600) * q) else u0)
    (if Qeqb (m_bya (r_mode r)) 1 then add_tv u' (Qmaxb (tget z' (r_id r) d s) (tget v' (r_id r) d s) * (m_t (r_mode r) / 3600) * q') else u')).
  { destruct (Qeqb _ 1); auto. apply D3_tv; auto. rewrite tget_none. rewrite (max_dem _ _ _ _ (HZ _ _ _) (HV _ _ _)), E. change (Qmaxb 0 0) with 0. ring. }
  destruct (Qeqb _ 0); auto. apply D3_tv; auto. rewrite !tget_none, (HZ _ _ _), (HV _ _ _), E. ring.
Qed.
Lemma report_dem suc dest i j q q' a a' u u0 u' U : D3 a a' u u0 u' -> q' == p * q -> report X f z v suc dest i j q u = Ok U ->
  exists U0 U', report X f [] [] suc dest i j q u0 = Ok U0 /\ report X f z' v' suc dest i j q' u' = Ok U' /\ D3 a a' U U0 U'.
Proof.
  intros HR E H. unfold report in *. apply bind_ok in H. destruct H as (u1 & E1 & H). destruct (te_dem _ _ _ _ _ _ _ _ _ _ _ HR E E1) as (a0 & a1 & -> & -> & HA). cbn [bind].
  apply bind_ok in H. destruct H as (u2 & E2 & H). destruct (al_dem _ _ _ _ _ _ _ _ _ _ _ (tv_dem i j _ _ _ _ _ _ _ HA E) E E2) as (b0 & b' & -> & -> & HB). cbn [bind]. injection H as <-. eexists. eexists. split; [reflexivity|]. split; [reflexivity|].
  pose proof (ta_dem i j _ _ _ _ _ HB) as HC. revert HC. generalize (report_ta X i j u2) (report_ta X i j b0) (report_ta X i j b'). induction (suc j) as [|x l IH]; intros c c0 c' HC; cbn [fold_left]; auto. apply IH. now apply dw_dem.
Qed.
Lemma consume_dem suc dest a a' : forall fuel ps ps' u u0 u' U, Forall2 pmul ps ps' -> D3 a a' u u0 u' -> consume fuel X f z v suc dest ps u = Ok U ->
  exists U0 U', consume fuel X f [] [] suc dest ps u0 = Ok U0 /\ consume fuel X f z' v' suc dest ps' u' = Ok U' /\ D3 a a' U U0 U'.
Proof.
  induction fuel as [|fuel IH]; intros ps ps' u u0 u' U HD HR H; inversion HD as [|[[i j] q] [[i' j'] q'] r r' Hd Hr]; subst; cbn [consume] in *; try discriminate; try (inversion H; subst; eauto; fail).
  destruct Hd as [Hd Ep]. cbn [fst snd] in *. injection Hd as -> ->. destruct (stop_of_dest X dest i); [eauto|].
  apply bind_ok in H. destruct H as (s & Es & H). rewrite Es. destruct (dis_pax_dem _ _ _ _ _ _ Ep Es) as (s' & -> & Es'). cbn [bind].
  apply bind_ok in H. destruct H as (u1 & E1 & H). destruct (report_dem _ _ _ _ _ _ _ _ _ _ _ _ HR Es' E1) as (a0 & a1 & -> & -> & HA). cbn [bind].
  refine (IH _ _ _ _ _ _ _ HA H). apply Forall2_app; auto. now apply pushed_dem.
Qed.

Lemma D3_ext a a' b b' u u0 u' : a == b -> a' == b' -> D3 a a' u u0 u' -> D3 b b' u u0 u'.
Proof. intros E E' (A & C). split; [|exact C]. rewrite <- E, <- E'. exact A. Qed.
Lemma users_from fuel vp : forall es es' asg a a' u u0 u' U, Forall2 (scaled p) es es' -> D3 a a' u u0 u' -> foldM (consume_od fuel X vp f z v) (combine es asg) u = Ok U ->
  exists U0 U', foldM (consume_od fuel X vp f [] []) (combine es asg) u0 = Ok U0 /\ foldM (consume_od fuel X vp f z' v') (combine es' asg) u' = Ok U' /\
    D3 (a + starting X vp (combine es asg)) (a' + starting X vp (combine es' asg)) U U0 U'.
Proof.
  intros es es' asg a a' u u0 u' U SC. revert asg a a' u u0 u' U. induction SC as [|e e' es es' S SC IH]; intros asg a a' u u0 u' U HR H; cbn [combine foldM] in *.
  { inversion H; subst. do 2 eexists. split; [reflexivity|]. split; [reflexivity|]. revert HR. apply D3_ext; unfold starting, Qsumf; cbn; ring. }
  destruct asg as [|g asg]; cbn [foldM] in *. { inversion H; subst. do 2 eexists. split; [reflexivity|]. split; [reflexivity|]. revert HR. apply D3_ext; unfold starting, Qsumf; cbn; ring. }
  apply bind_ok in H. destruct H as (u1 & E1 & H).
  set (W := fun e : od_entry => Qsumf (fun s => start_trips e g s * access_time X vp (width_at X (od_o e)) g s) (map fst (od_paths e))).
  assert (A : exists a0 a1, consume_od fuel X vp f [] [] u0 (e, g) = Ok a0 /\ consume_od fuel X vp f z' v' u' (e', g) = Ok a1 /\ D3 (a + W e) (a' + W e') u1 a0 a1).
  { pose proof S as S0. destruct S as (D1 & D2 & DP & D4 & _). unfold consume_od, W in *. cbn [fst snd] in *. clear H IH W. rewrite DP, D1. revert a a' u u0 u' HR E1. generalize (map fst (od_paths e)). induction l as [|s l IH]; intros a a' u u0 u' HR E1; cbn [foldM] in *.
    { inversion E1; subst. do 2 eexists. split; [reflexivity|]. split; [reflexivity|]. revert HR. apply D3_ext; unfold Qsumf; cbn; ring. }
    apply bind_ok in E1. destruct E1 as (u2 & E2 & E1).
    assert (C : exists b0 b1, consume_stop fuel X vp f [] [] e g u0 s = Ok b0 /\ consume_stop fuel X vp f z' v' e' g u' s = Ok b1 /\ D3 (a + start_trips e g s * access_time X vp (width_at X (od_o e)) g s) (a' + start_trips e' g s * access_time X vp (width_at X (od_o e)) g s) u2 b0 b1).
    { unfold consume_stop in *. cbn zeta in *. unfold start_trips. rewrite (zero_iff _ _ (start_dem _ _ g s S0)). destruct (Qeqb _ 0) eqn:Z.
      - inversion E2; subst. do 2 eexists. split; [reflexivity|]. split; [reflexivity|]. qb. revert HR. apply D3_ext; [rewrite Z; ring|]. rewrite (start_dem _ _ g s S0), Z. ring.
      - rewrite D1, D2, D4. apply bind_ok in E2. destruct E2 as (w & Ew & E2). rewrite Ew. cbn [bind]. apply qdiv_inv in Ew. destruct Ew as [_ ->].
        refine (consume_dem _ _ _ _ _ _ _ _ _ _ _ _ _ E2); [apply pushed_dem; now apply start_dem|]. apply (D3_ext (a + od_v e * dget0 Nat.eqb 0 g s / 100 * (m_tat (sn_mode (stop_at (xg_stops X) s)) / 60 + dget0 Nat.eqb 0 g s / 100 * width_of X (od_o e) / (4 * vp * m_d (sn_mode (stop_at (xg_stops X) s))))) (a' + od_v e' * dget0 Nat.eqb 0 g s / 100 * (m_tat (sn_mode (stop_at (xg_stops X) s)) / 60 + dget0 Nat.eqb 0 g s / 100 * width_of X (od_o e) / (4 * vp * m_d (sn_mode (stop_at (xg_stops X) s)))))); [reflexivity|reflexivity|]. now apply D3_start. }
    destruct C as (b0 & b1 & -> & -> & HB). cbn [bind]. destruct (IH _ _ _ _ _ HB E1) as (c0 & c1 & H0 & H1 & H2). exists c0, c1. split; [exact H0|]. split; [exact H1|]. revert H2. apply D3_ext; rewrite Qsumf_cons; ring. }
  destruct A as (a0 & a1 & -> & -> & HA). cbn [bind]. destruct (IH _ _ _ _ _ _ _ HA H) as (c0 & c1 & H0 & H1 & H2). exists c0, c1. split; [exact H0|]. split; [exact H1|]. revert H2. unfold starting, W. apply D3_ext; rewrite Qsumf_cons; ring.
Qed.
Lemma users_dem fuel vp es es' asg U : Forall2 (scaled p) es es' -> resources_consumer fuel X vp f es asg z v = Ok U ->
  exists U0 U', resources_consumer fuel X vp f es asg [] [] = Ok U0 /\ resources_consumer fuel X vp f es' asg z' v' = Ok U' /\
    D3 (starting X vp (combine es asg)) (starting X vp (combine es' asg)) U U0 U'.
Proof.
  intros SC H. unfold resources_consumer in *. destruct (users_from fuel vp es es' asg 0 0 _ (mkU 0 0 0 0) (mkU 0 0 0 0) _ SC ltac:(repeat split; cbn; ring) H) as (U0 & U' & H0 & H1 & H2). exists U0, U'. split; [exact H0|]. split; [exact H1|]. revert H2. apply D3_ext; ring.
Qed.
End Tables.

Lemma starting_dem vp : forall es es' asg, Forall2 (scaled p) es es' -> starting X vp (combine es' asg) == p * starting X vp (combine es asg).
Proof.
  intros es es' asg SC. revert asg. unfold starting. induction SC as [|e e' es es' S SC IH]; intros asg; [unfold Qsumf; cbn; ring|]. destruct asg as [|a asg]; [unfold Qsumf; cbn; ring|]. cbn [combine]. rewrite !Qsumf_cons, IH.
  pose proof S as S0. destruct S as (E1 & _ & E3 & _). rewrite E1, E3.
  assert (E : Qsumf (fun s => start_trips e' a s * access_time X vp (width_at X (od_o e)) a s) (map fst (od_paths e)) == p * Qsumf (fun s => start_trips e a s * access_time X vp (width_at X (od_o e)) a s) (map fst (od_paths e))).
  { rewrite <- Qsumf_scal. apply Qsumf_ext. intros s _. unfold start_trips. rewrite (start_dem _ _ a s S0). ring. }
  rewrite E. ring.
Qed.
End Lockstep.

(** ** The problem *)
Definition cell_times (p : Q) (a b : Z * Z * Q) : Prop := fst b = fst a /\ snd b == p * snd a.
Lemma od_pairs_times p M M' : 0 < p -> times p M M' -> Forall2 (cell_times p) (od_pairs M) (od_pairs M').
Proof.
  intros HP H. unfold od_pairs. assert (A : Forall2 (cell_times p) (flat_map (fun '(o, row) => map (fun '(d, v) => (o, d, v)) row) M) (flat_map (fun '(o, row) => map (fun '(d, v) => (o, d, v)) row) M')).
  { induction H as [|[o row] [o' row'] M M' [E R] H IH]; [constructor|]. cbn [flat_map fst snd] in *. subst o'. apply Forall2_app; auto. clear -R. induction R as [|[d v] [d' v'] l l' [E F] R IH]; cbn [map fst snd] in *; constructor; auto. subst. split; auto. }
  induction A as [|[[o d] v] [[o' d'] v'] l l' [E F] A IH]; cbn [filter fst snd] in *; [constructor|]. rewrite (zero_iff p HP v v' F). destruct (Qeqb v 0); cbn [negb]; auto. constructor; auto. split; auto.
Qed.
Lemma validator_times p fuel X P M M' : 0 < p -> times p M M' -> network_validator fuel X P M' = network_validator fuel X P M.
Proof.
  intros HP H. apply (od_pairs_times p _ _ HP) in H. unfold network_validator. f_equal. match goal with |- foldM ?F _ _ = _ => set (G := F) end. generalize tt. induction H as [|[[o d] v] [[o' d'] v'] l l' [E F] H IH]; intro w; cbn [foldM]; auto. cbn [fst] in E. injection E as -> ->. change (G w (o, d, v')) with (G w (o, d, v)). destruct (G w (o, d, v)) as [w'|e]; cbn [bind]; auto.
Qed.
Lemma hyperpaths_times p fuel X P M M' es : 0 < p -> times p M M' -> get_all_hyperpaths fuel X P M = Ok es ->
  exists es', get_all_hyperpaths fuel X P M' = Ok es' /\ Forall2 (scaled p) es es'.
Proof.
  intros HP H E. unfold get_all_hyperpaths in *. rewrite (validator_times p _ _ _ _ _ HP H). apply bind_ok in E. destruct E as (ok & -> & E). cbn [bind]. destruct ok; [|discriminate].
  apply (od_pairs_times p _ _ HP) in H. revert es E. induction H as [|[[o d] v] [[o' d'] v'] l l' [E F] H IH]; intros es Ee; cbn [mapM] in *; [injection Ee as <-; eauto|]. cbn [fst snd] in *. injection E as -> ->.
  apply bind_ok in Ee. destruct Ee as (e & E1 & Ee). apply bind_ok in E1. destruct E1 as (r & -> & E1). injection E1 as <-. apply bind_ok in Ee. destruct Ee as (es1 & E2 & Ee). injection Ee as <-. destruct (IH _ E2) as (es' & -> & S). cbn [bind]. eexists. split; [reflexivity|]. constructor; auto. repeat split; auto.
Qed.
Lemma assignment_times p X w vp spa spv es es' : Forall2 (scaled p) es es' -> get_assignment X w vp spa spv es' = get_assignment X w vp spa spv es.
Proof.
  intro H. unfold get_assignment. induction H as [|e e' es es' (A & B & C & D & _) H IH]; [reflexivity|]. cbn [mapM]. rewrite IH. unfold assign_od. rewrite C, D. reflexivity.
Qed.

(** The strategies and the shares of the stops do not depend on how many trips there are, and the optimizer of p
    times the trips has the same ones; at the same frequencies each vehicle carries, picks up and leaves p times
    the passengers. *)
Theorem C79_same_strategies : forall B fg o D p, new_optimizer B fg = Ok o -> 0 < p -> times p (dm_matrix (pb_demand B)) (dm_matrix D) ->
  exists o', new_optimizer (with_demand B D) fg = Ok o' /\ o_f o' = o_f o /\ o_fopt o' = o_fopt o /\ o_pos o' = o_pos o /\ o_X o' = o_X o /\ o_asg o' = o_asg o /\
    Forall2 (scaled p) (o_es o) (o_es o') /\ o_len_c o' = o_len_c o /\ o_len_v o' = o_len_v o /\
    (forall f, loaded B f o -> loaded (with_demand B D) f o') /\
    forall f t, boardings o f = Ok t -> exists t', boardings o' f = Ok t' /\
      (forall r d s, tget (t_z t') r d s == p * tget (t_z t) r d s /\ tget (t_v t') r d s == p * tget (t_v t) r d s /\ tget (t_l t') r d s == p * tget (t_l t) r d s) /\
      (forall r, load t' r == p * load t r).
Proof.
  intros B fg o D p Ho HP HT. pose proof (new_optimizer_attrs _ _ _ Ho) as (Hb & Hf & Hx & Hpos & Hv & EX & EE & EA & con & EC & HC).
  destruct (hyperpaths_times p _ _ _ _ _ _ HP HT EE) as (es' & EE' & SC).
  set (o1 := mkOpt (with_demand B D) (o_f o) (o_fopt o) (o_pos o) (o_X o) es' (o_asg o) 0 0).
  assert (BT : forall o', o_pb o' = with_demand B D -> o_X o' = o_X o -> o_asg o' = o_asg o -> o_es o' = es' -> forall f t, boardings o f = Ok t -> exists t', boardings o' f = Ok t' /\ Tmul p t t').
  { intros o' A1 A2 A3 A4 f t Et. unfold boardings in *. rewrite A1, A2, A3, A4. cbn [pb_fuel with_demand]. rewrite Hb in Et. exact (gab_dem _ _ _ HP _ _ _ _ _ SC Et). }
  assert (C1 : exists con', get_constrains o1 (o_fopt o) = Ok con' /\ length con' = length con).
  { unfold get_constrains in *. cbn [o1 o_pos]. apply bind_ok in EC. destruct EC as (f & Ef & EC). rewrite Ef. cbn [bind]. apply bind_ok in EC. destruct EC as (t & Et & EC). destruct (BT o1 eq_refl eq_refl eq_refl eq_refl f t Et) as (t' & -> & _). cbn [bind]. cbn [o1 o_pb]. rewrite Hb in EC.
    apply bind_ok in EC. destruct EC as (F & EF & EC). change (pb_graph (with_demand B D)) with (pb_graph B). change (pb_routes (with_demand B D)) with (pb_routes B). change (pb_net (with_demand B D)) with (pb_net B). rewrite EF. cbn [bind]. injection EC as <-. eexists. split; [reflexivity|]. rewrite !app_length. unfold most_loaded_constrains. now rewrite !map_length. }
  destruct C1 as (con' & EC' & LC).
  exists (mkOpt (with_demand B D) (o_f o) (o_fopt o) (o_pos o) (o_X o) es' (o_asg o) (length con') (length (o_fopt o))).
  assert (EO : new_optimizer (with_demand B D) fg = Ok (mkOpt (with_demand B D) (o_f o) (o_fopt o) (o_pos o) (o_X o) es' (o_asg o) (length con') (length (o_fopt o)))).
  { unfold new_optimizer. change (pb_routes (with_demand B D)) with (pb_routes B). destruct (f0 (pb_routes B) fg) as [[f fopt] pos] eqn:E0. cbn [fst] in Hf. assert (E1 : fopt = o_fopt o) by (rewrite Hx; unfold f0 in E0; now injection E0). assert (E2 : pos = o_pos o) by (rewrite Hpos; unfold f0 in E0; now injection E0). rewrite <- Hf, E1, E2.
    cbn [with_demand pb_geo pb_pass pb_fuel pb_demand pb_city]. change (pb_graph (with_demand B D)) with (pb_graph B). rewrite EX. cbn [bind]. rewrite EE'. cbn [bind]. rewrite (assignment_times _ _ _ _ _ _ _ _ SC), EA. cbn [bind]. change (mkProblem _ _ _ _ _ _) with (with_demand B D). change (get_constrains _ (o_fopt o)) with (get_constrains o1 (o_fopt o)). rewrite EC'. reflexivity. }
  split; [exact EO|]. cbn [o_f o_fopt o_pos o_X o_asg o_es o_len_c o_len_v]. do 5 (split; [reflexivity|]). split; [exact SC|]. split; [congruence|]. split; [rewrite Hx, map_length; congruence|]. split.
  - intros f [A1 A2 A3 A4 A5 A6 A7 A8]. split; cbn [with_demand pb_geo pb_pass pb_fuel pb_demand pb_city o_f o_X o_es]; auto.
    intros e' He'. assert (K : exists e, In e (o_es o) /\ scaled p e e') by (clear -SC He'; induction SC as [|a b l l' S SC IH]; [destruct He'|destruct He' as [<-|He']; [exists a; split; [now left|auto]|destruct (IH He') as (e & I & J); exists e; split; [now right|auto]]]).
    destruct K as (e & He & _ & _ & _ & D4 & _). unfold runs. rewrite D4. exact (A8 e He).
  - intros f t Et. match goal with |- exists t', boardings ?O f = _ /\ _ => destruct (BT O eq_refl eq_refl eq_refl eq_refl f t Et) as (t' & Et' & DZ & DV & DL) end. exists t'. split; [exact Et'|]. split; [intros r d s; auto|]. intro r.
    unfold boardings in Et, Et'. destruct (load_spec _ _ _ _ _ _ Et r) as (A & C & E). destruct (load_spec _ _ _ _ _ _ Et' r) as (A' & C' & E'). apply Qle_antisym.
    + destruct E' as [E'|(d & s & E')]; rewrite E'; [nra|]. rewrite (DL r d s). specialize (C d s). nra.
    + destruct E as [E|(d & s & E)]; rewrite E; [lra|]. rewrite <- (DL r d s). apply C'.
Qed.

(** ** The costs *)
(** hours of access that do not depend on how many travellers there are: those of the walks between stops of a node *)
Definition walking (B : problem) (o : optimizer) (u : resources) : Q := u_ta u - starting (o_X o) (q_va (pb_pass B)) (combine (o_es o) (o_asg o)).
(** what does not depend on the number of travellers: the vehicles moving between stops, the infrastructure, the walks *)
Definition fixed_cost (B : problem) (o : optimizer) (f ltt : fdict) (u : resources) : Q :=
  moving_cost (pb_routes B) f ltt + get_infrastructure_cost (pb_geo B) (pb_graph B) (pb_net B) f + q_spa (pb_pass B) * walking B o u.
(** travellers who delay other travellers, and the places of the vehicles that they delay *)
Definition crowding_cost (B : problem) (f ltt ct : fdict) (K : string -> Q) (u u0 : resources) : Q :=
  places_standing_cost (pb_routes B) f ltt ct K + q_spv (pb_pass B) * (u_tv u - u_tv u0).

Lemma cycle_dem p z v z' v' rs tt ct a b ct' a' b' : 0 < p -> tmul p z z' -> tmul p v v' -> tab_wf z -> tab_wf v -> tab_wf z' -> tab_wf v' -> NoDup (map r_id rs) ->
  get_cycle_time z v rs tt = (ct, a, b) -> get_cycle_time z' v' rs tt = (ct', a', b') -> forall r, In r rs ->
  freq ct' (r_id r) - freq tt (r_id r) == p * (freq ct (r_id r) - freq tt (r_id r)).
Proof.
  intros HP HZ HV W1 W2 W3 W4 ND E E' r Hr. destruct (covers_two z v z' v' (r_id r)) as (S & C & C').
  rewrite (proj1 (C44_cycle_time _ _ _ _ _ _ _ W1 W2 ND E) r S Hr C), (proj1 (C44_cycle_time _ _ _ _ _ _ _ W3 W4 ND E') r S Hr C').
  set (M := m_t (r_mode r) / 3600). assert (D : Qsumf (fun d => Qsumf (stop_dwell (m_bya (r_mode r)) z' v' (r_id r) d) S) [DI; DR] == p * Qsumf (fun d => Qsumf (stop_dwell (m_bya (r_mode r)) z v (r_id r) d) S) [DI; DR]).
  { rewrite <- Qsumf_scal. apply Qsumf_ext. intros d _. rewrite <- Qsumf_scal. apply Qsumf_ext. intros s _. unfold stop_dwell. destruct (Qeqb _ 0); [rewrite (HZ (r_id r) d s), (HV (r_id r) d s); ring|]. destruct (Qeqb _ 1); [|ring]. apply max_dem; auto. }
  rewrite D. ring.
Qed.

(** everything about p times the trips at the same frequencies *)
Lemma evaluated_times B fg o x c : new_optimizer B fg = Ok o -> NoDup (map r_id (pb_routes B)) -> VRC o x = Ok c ->
  exists f t ltt ct u u0, evaluated B o x f t ltt ct u u0 /\
    c == moving_cost (pb_routes B) f ltt + constant_cost B f ltt ct (load t) u u0 + falling_cost B f ltt ct (load t) u u0 /\
    forall D p, 0 < p -> times p (dm_matrix (pb_demand B)) (dm_matrix D) -> exists o' c' t' ct' u' u0', new_optimizer (with_demand B D) fg = Ok o' /\
      VRC o' x = Ok c' /\ evaluated (with_demand B D) o' x f t' ltt ct' u' u0' /\ (forall r, load t' r == p * load t r) /\
      (forall r, In r (pb_routes B) -> freq ct' (r_id r) - freq ltt (r_id r) == p * (freq ct (r_id r) - freq ltt (r_id r))) /\
      u_te u' == p * u_te u /\ u_t u' == p * u_t u /\ u_tv u0' == p * u_tv u0 /\ u_tv u' - u_tv u0' == p * p * (u_tv u - u_tv u0) /\
      u_ta u' == p * (u_ta u - walking B o u) + walking B o u.
Proof.
  intros Ho ND HV. destruct (C58_objective _ _ _ _ _ Ho ND HV) as (f & t & ltt & cu & Ef & Et & El & Eu & Ec).
  unfold get_users_cost in Eu. apply bind_ok in Eu. destruct Eu as (u & Eu & Ecu). injection Ecu as <-.
  destruct (get_cycle_time (t_z t) (t_v t) (pb_routes B) ltt) as [[ct z] v] eqn:ECT. cbn [fst] in Ec.
  destruct (users_ray _ f f 1 ltac:(reflexivity) ltac:(intro; ring) (t_z t) (t_v t) (t_z t) (t_v t) ltac:(intros ? ? ?; ring) ltac:(intros ? ? ?; ring) _ _ _ _ _ Eu) as (u0 & _ & Eu0 & _ & _).
  exists f, t, ltt, ct, u, u0. split; [unfold evaluated; rewrite ECT; auto 6|]. split.
  { unfold constant_cost, falling_cost. rewrite Ec, (operators_parts _ _ ltt). unfold users_cost. change (freq (most_loaded_section (t_l t))) with (load t). field. }
  intros D p HP HT. destruct (C79_same_strategies _ _ _ _ _ Ho HP HT) as (o' & Ho' & _ & _ & Hp & HX & HA & SC & _ & _ & _ & HB). destruct (HB f t Et) as (t' & Et' & TT & LT).
  destruct (new_optimizer_attrs _ _ _ Ho) as (Hb & _). destruct (new_optimizer_attrs _ _ _ Ho') as (Hb' & _).
  assert (DZ : tmul p (t_z t) (t_z t')) by (intros r d s; apply TT). assert (DV : tmul p (t_v t) (t_v t')) by (intros r d s; apply TT).
  destruct (users_dem _ _ _ HP _ _ _ _ DZ DV _ _ _ _ _ _ SC Eu) as (u01 & u' & Eu01 & Eu' & RA & RT & RE & RV). assert (u01 = u0) by congruence. subst u01.
  assert (NT : tmul p [] []) by (intros r d s; rewrite tget_none; ring).
  destruct (users_dem _ _ _ HP _ _ _ _ NT NT _ _ _ _ _ _ SC Eu0) as (u02 & u0' & Eu02 & Eu0' & _ & _ & _ & RV0). assert (u02 = u0) by congruence. subst u02.
  destruct (gab_wf _ _ _ _ _ _ Et) as (W1 & W2 & _). destruct (gab_wf _ _ _ _ _ _ Et') as (W3 & W4 & _).
  destruct (get_cycle_time (t_z t') (t_v t') (pb_routes B) ltt) as [[ct' z'] v'] eqn:ECT'. destruct (cycle_same _ _ _ _ _ _ _ W3 W4 ND ECT') as [SZ SV].
  assert (DEF : exists c', VRC o' x = Ok c').
  { unfold VRC. rewrite Hp, Ef. cbn [bind]. rewrite Et'. cbn [bind]. rewrite Hb'. unfold operators_cost. change (pb_routes (with_demand B D)) with (pb_routes B). change (pb_graph (with_demand B D)) with (pb_graph B). cbn [with_demand pb_geo]. rewrite El. cbn [bind]. rewrite ECT'. cbn [bind]. unfold user_cost, get_users_cost. cbn [with_demand pb_fuel pb_pass]. rewrite (rc_tab _ _ _ _ _ _ _ _ _ _ SZ SV), HX, HA, Eu'. cbn [bind]. eauto. }
  destruct DEF as (c' & EC'). exists o', c', t', ct', u', u0'. split; [exact Ho'|]. split; [exact EC'|]. split.
  { unfold evaluated. rewrite Hp, HX, HA. split; [exact Ef|]. split; [exact Et'|]. split; [exact El|]. split; [change (pb_routes (with_demand B D)) with (pb_routes B); rewrite ECT'; reflexivity|]. split; [exact Eu'|exact Eu0']. }
  split; [exact LT|]. split; [intros r Hr; exact (cycle_dem _ _ _ _ _ _ _ _ _ _ _ _ _ HP DZ DV W1 W2 W3 W4 ND ECT ECT' r Hr)|]. split; [exact RE|]. split; [exact RT|].
  split; [rewrite RV0; ring|]. split; [rewrite RV, RV0; ring|]. unfold walking. rewrite (starting_dem _ _ _ _ _ _ SC) in RA. set (st := starting _ _ _) in *. clearbody st. lra.
Qed.

(** At the same frequencies, the total cost of p times the trips is F + p L + p^2 K: the part that does not change
    is that of vehicles moving, infrastructure and walks; the part that grows with the square is that of
    travellers (and places) waiting at the stops of others. *)
Theorem C79_demand : forall B fg o x c, new_optimizer B fg = Ok o -> NoDup (map r_id (pb_routes B)) -> VRC o x = Ok c ->
  exists f t ltt ct u u0, evaluated B o x f t ltt ct u u0 /\
    forall D p, 0 < p -> times p (dm_matrix (pb_demand B)) (dm_matrix D) -> exists o' c', new_optimizer (with_demand B D) fg = Ok o' /\ VRC o' x = Ok c' /\
      c' == fixed_cost B o f ltt u + p * (c - fixed_cost B o f ltt u - crowding_cost B f ltt ct (load t) u u0) + p * p * crowding_cost B f ltt ct (load t) u u0.
Proof.
  intros B fg o x c Ho ND HV. destruct (evaluated_times _ _ _ _ _ Ho ND HV) as (f & t & ltt & ct & u & u0 & EV & Ec & HD). exists f, t, ltt, ct, u, u0. split; [exact EV|]. intros D p HP HT.
  destruct (HD D p HP HT) as (o' & c' & t' & ct' & u' & u0' & Ho' & HV' & EV' & LT & CT & RE & RT & RV0 & RV & RA). exists o', c'. split; [exact Ho'|]. split; [exact HV'|].
  destruct (evaluated_times (with_demand B D) _ _ _ _ Ho' ND HV') as (f1 & t1 & ltt1 & ct1 & u1 & u01 & EV1 & Ec1 & _).
  destruct EV' as (A1 & A2 & A3 & A4 & A5 & A6). destruct EV1 as (B1 & B2 & B3 & B4 & B5 & B6). assert (f1 = f) by congruence. subst f1. assert (t1 = t') by congruence. subst t1. assert (ltt1 = ltt) by congruence. subst ltt1. rewrite A4 in B4. subst ct1. assert (u1 = u') by congruence. subst u1. assert (u01 = u0') by congruence. subst u01.
  rewrite Ec1, Ec. unfold constant_cost, falling_cost, fixed_cost, crowding_cost. change (pb_routes (with_demand B D)) with (pb_routes B). change (pb_pass (with_demand B D)) with (pb_pass B). change (pb_graph (with_demand B D)) with (pb_graph B). cbn [with_demand pb_geo pb_net].
  assert (M2 : standing_cost (pb_routes B) f ltt ct' == p * standing_cost (pb_routes B) f ltt ct).
  { unfold standing_cost. rewrite <- Qsumf_scal. apply Qsumf_ext. intros r Hr. rewrite (CT r Hr). ring. }
  assert (M3 : places_moving_cost (pb_routes B) f ltt (load t') == p * places_moving_cost (pb_routes B) f ltt (load t)).
  { unfold places_moving_cost. rewrite <- Qsumf_scal. apply Qsumf_ext. intros r Hr. rewrite LT. ring. }
  assert (M4 : places_standing_cost (pb_routes B) f ltt ct' (load t') == p * p * places_standing_cost (pb_routes B) f ltt ct (load t)).
  { unfold places_standing_cost. rewrite <- Qsumf_scal. apply Qsumf_ext. intros r Hr. rewrite LT, (CT r Hr). ring. }
  rewrite M2, M3, M4, RE, RT, RV, RV0, RA. unfold Qdiv. ring.
Qed.

(** p times the trips and p times the frequencies: the same load in each vehicle, and p times the cost, but for the
    infrastructure, the waiting (p times the travellers wait 1/p of the time) and the walks, which cost the same. *)
Theorem C79_returns : forall B fg o x c, new_optimizer B fg = Ok o -> NoDup (map r_id (pb_routes B)) -> (forall f, fopt_to_f (o_pos o) x = Ok f -> loaded B f o) -> VRC o x = Ok c ->
  exists f t ltt ct u u0, evaluated B o x f t ltt ct u u0 /\
    forall D p, 0 < p -> times p (dm_matrix (pb_demand B)) (dm_matrix D) -> exists o' c' f' t', new_optimizer (with_demand B D) fg = Ok o' /\
      fopt_to_f (o_pos o') (map (Qmult p) x) = Ok f' /\ boardings o' f' = Ok t' /\ (forall r, load t' r == load t r) /\
      VRC o' (map (Qmult p) x) = Ok c' /\
      let same := get_infrastructure_cost (pb_geo B) (pb_graph B) (pb_net B) f + q_spw (pb_pass B) * u_te u + q_spa (pb_pass B) * walking B o u in
      c' - same == p * (c - same).
Proof.
  intros B fg o x c Ho ND LD HV. destruct (evaluated_times _ _ _ _ _ Ho ND HV) as (f & t & ltt & ct & u & u0 & EV & Ec & HD). exists f, t, ltt, ct, u, u0. split; [exact EV|]. intros D p HP HT.
  destruct (HD D p HP HT) as (o' & c1 & t' & ct' & u' & u0' & Ho' & HV' & EV' & LT & CT & RE & RT & RV0 & RV & RA).
  destruct (C79_same_strategies _ _ _ _ _ Ho HP HT) as (o2 & Ho2 & _ & _ & Hp & _ & _ & _ & _ & _ & LL & _). assert (o2 = o') by congruence. subst o2.
  assert (LD' : forall f, fopt_to_f (o_pos o') x = Ok f -> loaded (with_demand B D) f o') by (intros g Eg; apply LL, LD; congruence).
  destruct (C77_ray (with_demand B D) fg o' x c1 Ho' ND LD' HV') as (f1 & t1 & ltt1 & ct1 & u1 & u01 & EV1 & Ec1 & HR).
  destruct EV' as (A1 & A2 & A3 & A4 & A5 & A6). destruct EV1 as (B1 & B2 & B3 & B4 & B5 & B6). assert (f1 = f) by congruence. subst f1. assert (t1 = t') by congruence. subst t1. assert (ltt1 = ltt) by congruence. subst ltt1. rewrite A4 in B4. subst ct1. assert (u1 = u') by congruence. subst u1. assert (u01 = u0') by congruence. subst u01.
  destruct (HR p HP) as (c' & HC & QC). destruct (C77_vehicles _ _ _ _ _ _ ltt Ho' ND B1 (LD' _ B1) B2 p HP) as (f2 & t2 & E2 & T2 & _ & _ & L2 & _).
  exists o', c', f2, t2. split; [exact Ho'|]. split; [exact E2|]. split; [exact T2|]. assert (PZ : ~ p == 0) by (intro Z; rewrite Z in HP; discriminate). split; [intro r; rewrite L2, LT; field; exact PZ|]. split; [exact HC|]. cbn zeta.
  rewrite QC, Ec. unfold constant_cost, falling_cost. change (pb_routes (with_demand B D)) with (pb_routes B). change (pb_pass (with_demand B D)) with (pb_pass B). change (pb_graph (with_demand B D)) with (pb_graph B). cbn [with_demand pb_geo pb_net].
  assert (M2 : standing_cost (pb_routes B) f ltt ct' == p * standing_cost (pb_routes B) f ltt ct).
  { unfold standing_cost. rewrite <- Qsumf_scal. apply Qsumf_ext. intros r Hr. rewrite (CT r Hr). ring. }
  assert (M3 : places_moving_cost (pb_routes B) f ltt (load t') == p * places_moving_cost (pb_routes B) f ltt (load t)).
  { unfold places_moving_cost. rewrite <- Qsumf_scal. apply Qsumf_ext. intros r Hr. rewrite LT. ring. }
  assert (M4 : places_standing_cost (pb_routes B) f ltt ct' (load t') == p * p * places_standing_cost (pb_routes B) f ltt ct (load t)).
  { unfold places_standing_cost. rewrite <- Qsumf_scal. apply Qsumf_ext. intros r Hr. rewrite LT, (CT r Hr). ring. }
  rewrite M2, M3, M4, RE, RT, RV, RV0, RA. field. exact PZ.
Qed.

(** So, when these parts are not negative, p >= 1 times the trips with p times the frequencies never cost more than
    p times as much: the cost per trip does not grow. *)
Theorem C79_average : forall B fg o x c f t ltt ct u u0, new_optimizer B fg = Ok o -> NoDup (map r_id (pb_routes B)) -> loaded B f o -> VRC o x = Ok c ->
  evaluated B o x f t ltt ct u u0 -> 0 <= get_infrastructure_cost (pb_geo B) (pb_graph B) (pb_net B) f -> 0 <= q_spw (pb_pass B) * u_te u -> 0 <= q_spa (pb_pass B) * walking B o u ->
  forall D p, 1 <= p -> times p (dm_matrix (pb_demand B)) (dm_matrix D) -> exists o' c', new_optimizer (with_demand B D) fg = Ok o' /\ VRC o' (map (Qmult p) x) = Ok c' /\ c' <= p * c.
Proof.
  intros B fg o x c f t ltt ct u u0 Ho ND LD HV EV N1 N2 N3 D p HP HT. pose proof EV as (A1 & A2 & A3 & A4 & A5 & A6).
  destruct (C79_returns B fg o x c Ho ND ltac:(intros g Eg; congruence) HV) as (f1 & t1 & ltt1 & ct1 & u1 & u01 & (B1 & B2 & B3 & B4 & B5 & B6) & K).
  assert (f1 = f) by congruence. subst f1. assert (t1 = t) by congruence. subst t1. assert (u1 = u) by congruence. subst u1.
  destruct (K D p ltac:(lra) HT) as (o' & c' & f' & t' & E1 & _ & _ & _ & E2 & E3). exists o', c'. split; [exact E1|]. split; [exact E2|]. cbn zeta in E3. set (s := _ + _ + _) in E3. assert (0 <= s) by (unfold s; lra). clearbody s. nra.
Qed.

(** Where nobody walks between stops (one mode suffices, C48_one_mode) the walks cost nothing. *)
Theorem C79_no_walks : forall B fg o x f t ltt ct u u0, new_optimizer B fg = Ok o -> loaded B f o -> evaluated B o x f t ltt ct u u0 -> ~ q_va (pb_pass B) == 0 ->
  (forall e, In e (o_es o) -> never_walks (o_X o) e) -> walking B o u == 0.
Proof.
  intros B fg o x f t ltt ct u u0 Ho LD (A1 & A2 & A3 & A4 & A5 & A6) VA NW. destruct (C48_resources _ _ _ _ _ _ _ _ _ _ _ (q_va (pb_pass B)) (t_z t) (t_v t) (o_asg o) LD VA) as (N & u1 & R1 & (Fs & FS) & K1).
  assert (u1 = u). { pose proof (rc_mono _ (Nat.max N (pb_fuel B)) _ _ _ _ _ _ _ _ (Nat.le_max_r _ _) A5) as A. rewrite R1 in A by apply Nat.le_max_l. congruence. } subst u1.
  unfold walking. rewrite (proj2 (proj2 (proj2 (K1 Fs FS))) NW). ring.
Qed.

(** ** Demand from parameters: Y trips or p Y trips *)
Definition Drel (p : Q) (D D' : demand) : Prop := dm_nodes D' = dm_nodes D /\ dm_n D' = dm_n D /\ times p (dm_matrix D) (dm_matrix D') /\ dm_total D' == p * dm_total D.
Definition Srel (p : Q) (s s' : shares) : Prop :=
  s_p_cbd s' == p * s_p_cbd s /\ s_p_sc s' == p * s_p_sc s /\ s_p_osc s' == p * s_p_osc s /\ s_sc_cbd s' == p * s_sc_cbd s /\ s_sc_osc s' == p * s_sc_osc s.
Lemma neg_iff p a b : 0 < p -> b == p * a -> Qltb b 0 = Qltb a 0.
Proof.
  intros HP E. destruct (Qltb a 0) eqn:A, (Qltb b 0) eqn:C; auto; rewrite ?Qltb_lt in *; rewrite <- ?Bool.not_true_iff_false, ?Qltb_lt in *; exfalso; [apply C|apply A]; rewrite E in *; nra.
Qed.
Definition row_times (p : Q) : list (Z * Q) -> list (Z * Q) -> Prop := Forall2 (fun c c' => fst c' = fst c /\ snd c' == p * snd c).
Lemma row_get p d : forall row row', row_times p row row' ->
  match dget Z.eqb row d, dget Z.eqb row' d with Some v, Some v' => v' == p * v | None, None => True | _, _ => False end.
Proof. intros row row' H. induction H as [|[k v] [k' v'] l l' [E F] H IH]; cbn [dget fst snd] in *; auto. subst k'. destruct (Z.eqb d k); auto. Qed.
Lemma row_set p d v v' : v' == p * v -> forall row row', row_times p row row' -> row_times p (dset Z.eqb row d v) (dset Z.eqb row' d v').
Proof.
  intros Ev row row' H. induction H as [|[k w] [k' w'] l l' [E F] H IH]; cbn [dset fst snd] in *; [constructor; [split; auto|constructor]|]. subst k'. destruct (Z.eqb d k); constructor; auto; try (split; auto; fail).
Qed.
Lemma mat_get p o : forall M M', times p M M' ->
  match dget Z.eqb M o, dget Z.eqb M' o with Some r, Some r' => row_times p r r' | None, None => True | _, _ => False end.
Proof. intros M M' H. induction H as [|[k v] [k' v'] l l' [E F] H IH]; cbn [dget fst snd] in *; auto. subst k'. destruct (Z.eqb o k); auto. Qed.
Lemma mat_set p o r r' : row_times p r r' -> forall M M', times p M M' -> times p (dset Z.eqb M o r) (dset Z.eqb M' o r').
Proof.
  intros Er M M' H. induction H as [|[k w] [k' w'] l l' [E F] H IH]; cbn [dset fst snd] in *; [constructor; [split; auto|constructor]|]. subst k'. destruct (Z.eqb o k); constructor; auto; try (split; auto; fail).
Qed.
Lemma change_times p D D' o d v v' D1 : 0 < p -> Drel p D D' -> v' == p * v -> change_vij_r D o d v = Ok D1 -> exists D1', change_vij_r D' o d v' = Ok D1' /\ Drel p D1 D1'.
Proof.
  intros HP (A1 & A2 & A3 & A4) Ev. unfold change_vij_r, change_vij. rewrite (neg_iff p v v' HP Ev). destruct (Qltb v 0); [discriminate|]. pose proof (mat_get p o _ _ A3) as G. 
  destruct (dget Z.eqb (dm_matrix D) o) as [row|] eqn:E1, (dget Z.eqb (dm_matrix D') o) as [row'|] eqn:E2; try contradiction; try discriminate.
  inversion G as [|c c' l l' Hc Hl]; subst; [discriminate|]. pose proof (row_get p d _ _ G) as G2. destruct (dget Z.eqb (c :: l) d) as [old|] eqn:E3, (dget Z.eqb (c' :: l') d) as [old'|] eqn:E4; try contradiction; try discriminate.
  intro H. injection H as <-. eexists. split; [reflexivity|]. repeat split; cbn [dm_nodes dm_n dm_matrix dm_total]; auto.
  - unfold dict2_set. apply mat_set; auto. apply row_set; auto. unfold dget0. rewrite E1, E2. exact G.
  - rewrite A4, G2, Ev. ring.
Qed.
Lemma cell_demand p s s' od D D' D1 : 0 < p -> Srel p s s' -> Drel p D D' -> param_cell s D od = Ok D1 -> exists D1', param_cell s' D' od = Ok D1' /\ Drel p D1 D1'.
Proof.
  intros HP (S1 & S2 & S3 & S4 & S5) R H. destruct od as [o d]. unfold param_cell in *. destruct R as (A1 & R). rewrite A1. assert (R0 : Drel p D D') by (split; auto). clear R A1.
  destruct (is_kind CBD _); [injection H as <-; eauto|]. destruct (is_kind Periphery (find_last_node _ d)); [injection H as <-; eauto|].
  assert (ST : forall (b : bool) v v' D D' D1, v' == p * v -> Drel p D D' -> (if b then change_vij_r D o d v else Ok D) = Ok D1 -> exists D1', (if b then change_vij_r D' o d v' else Ok D') = Ok D1' /\ Drel p D1 D1').
  { intros b v v' E E' E1 Ev Er He. destruct b; [exact (change_times _ _ _ _ _ _ _ _ HP Er Ev He)|injection He as <-; eauto]. }
  apply bind_ok in H. destruct H as (Da & Ea & H). destruct (ST _ _ _ _ _ _ S1 R0 Ea) as (Da' & -> & Ra). cbn [bind].
  apply bind_ok in H. destruct H as (Db & Eb & H). destruct (ST _ _ _ _ _ _ S2 Ra Eb) as (Db' & -> & Rb). cbn [bind].
  apply bind_ok in H. destruct H as (Dc & Ec & H). destruct (ST _ _ _ _ _ _ S3 Rb Ec) as (Dc' & -> & Rc). cbn [bind].
  apply bind_ok in H. destruct H as (Dd & Ed & H). destruct (ST _ _ _ _ _ _ S4 Rc Ed) as (Dd' & -> & Rd). cbn [bind].
  apply bind_ok in H. destruct H as (De & Ee & H). destruct (ST _ _ _ _ _ _ S5 Rd Ee) as (De' & -> & Re). cbn [bind]. injection H as <-. eauto.
Qed.
Lemma shares_times p n y a alpha beta s : compute_shares n y a alpha beta = Ok s -> exists s', compute_shares n (p * y) a alpha beta = Ok s' /\ Srel p s s'.
Proof.
  unfold compute_shares, qdiv. intro H. destruct (1 <? n)%Z eqn:N1; cbn [bind] in *.
  - destruct (Qeqb (1 - beta) 0) eqn:B0; cbn [bind] in *; [discriminate|]. destruct (n =? 0)%Z eqn:N0; [apply Z.eqb_eq in N0; apply Z.ltb_lt in N1; lia|]. destruct (Qeqb (inject_Z n) 0) eqn:N2; cbn [bind] in *; [discriminate|].
    destruct (Qeqb (inject_Z (n - 1)) 0) eqn:N3; cbn [bind] in *; [discriminate|]. injection H as <-. eexists. split; [reflexivity|]. qb. unfold Srel. cbn [s_p_cbd s_p_sc s_p_osc s_sc_cbd s_sc_osc]. repeat split; field; auto.
  - destruct (n =? 0)%Z eqn:N0; cbn [bind] in *.
    + injection H as <-. eexists. split; [reflexivity|]. unfold Srel. cbn [s_p_cbd s_p_sc s_p_osc s_sc_cbd s_sc_osc]. repeat split; ring.
    + destruct (Qeqb (inject_Z n) 0) eqn:N2; cbn [bind] in *; [discriminate|]. injection H as <-. eexists. split; [reflexivity|]. qb. unfold Srel. cbn [s_p_cbd s_p_sc s_p_osc s_sc_cbd s_sc_osc]. repeat split; field; auto.
Qed.
Lemma times_zero p : forall M, (forall r c, In r M -> In c (snd r) -> snd c == 0) -> times p M M.
Proof.
  induction M as [|[o row] M IH]; intro H; constructor; [|apply IH; intros r c Hr; apply H; now right]. split; auto. specialize (H (o, row)). cbn [snd fst] in *. assert (K : forall c, In c row -> snd c == 0) by (intros c Hc; apply H; [now left|auto]). clear -K.
  induction row as [|c row IH]; constructor; [|apply IH; intros x Hx; apply K; now right]. split; auto. rewrite (K c) by now left. ring.
Qed.

(** A demand built for p times the trips has the same cells, each p times as large, and succeeds when the other does. *)
Theorem C79_from_parameters : forall nodes n y a alpha beta D p, demand_from_parameters nodes n y a alpha beta = Ok D -> 0 < p ->
  exists D', demand_from_parameters nodes n (p * y) a alpha beta = Ok D' /\ times p (dm_matrix D) (dm_matrix D') /\ dm_total D' == p * dm_total D.
Proof.
  intros nodes n y a alpha beta D p H HP. unfold demand_from_parameters in *. apply bind_ok in H. destruct H as (ok & EV & H). apply bind_ok in H. destruct H as (s & ES & H).
  assert (EV' : demand_validator (p * y) a alpha beta = Ok ok) by (unfold demand_validator in *; rewrite (neg_iff p y (p * y) HP) by reflexivity; exact EV). rewrite EV'. cbn [bind].
  destruct (shares_times p _ _ _ _ _ _ ES) as (s' & -> & RS). cbn [bind].
  assert (R0 : Drel p (new_demand nodes n) (new_demand nodes n)) by (repeat split; auto; [apply times_zero, default_zeros|cbn; ring]).
  assert (L : forall l D0 D0' D1, Drel p D0 D0' -> foldM (param_cell s) l D0 = Ok D1 -> exists D1', foldM (param_cell s') l D0' = Ok D1' /\ Drel p D1 D1').
  { clear -HP RS. induction l as [|od l IH]; intros D0 D0' D1 R H; cbn [foldM] in *; [injection H as <-; eauto|]. apply bind_ok in H. destruct H as (D2 & E & H). destruct (cell_demand _ _ _ _ _ _ _ HP RS R E) as (D2' & -> & R2). cbn [bind]. eauto. }
  destruct (L _ _ _ _ R0 H) as (D' & E' & _ & _ & RT & RS'). eauto.
Qed.

(** ** Example: two lines, 12 trips or 24 *)
Definition ex_twice : demand := fst (change_vij (fst (change_vij (new_demand (g_nodes ex_g34) 3) 1 3 10)) 4 1 14).
Lemma change_fst p D D' o d v v' : 0 < p -> Drel p D D' -> v' == p * v -> Drel p (fst (change_vij D o d v)) (fst (change_vij D' o d v')).
Proof.
  intros HP R Ev. pose proof (fun D1 => change_times p D D' o d v v' D1 HP R Ev) as K. pose proof R as (_ & _ & A3 & _). unfold change_vij_r, change_vij in *. rewrite (neg_iff p v v' HP Ev) in *. destruct (Qltb v 0); [exact R|]. pose proof (mat_get p o _ _ A3) as G.
  destruct (dget Z.eqb (dm_matrix D) o) as [row|] eqn:E1, (dget Z.eqb (dm_matrix D') o) as [row'|] eqn:E2; try contradiction; [|exact R].
  inversion G as [|c c' l l' Hc Hl]; subst; [exact R|]. pose proof (row_get p d _ _ G) as G2. destruct (dget Z.eqb (c :: l) d) as [old|] eqn:E3, (dget Z.eqb (c' :: l') d) as [old'|] eqn:E4; try contradiction; [|exact R].
  destruct (K _ eq_refl) as (D1' & E & R1). injection E as <-. exact R1.
Qed.
Lemma ex_times : times 2 (dm_matrix (pb_demand ex_B)) (dm_matrix ex_twice).
Proof.
  assert (G : forall D0 v v' w w', zeros (dm_matrix D0) -> dm_total D0 = 0 -> v' == 2 * v -> w' == 2 * w -> times 2 (dm_matrix (fst (change_vij (fst (change_vij D0 1 3 v)) 4 1 w))) (dm_matrix (fst (change_vij (fst (change_vij D0 1 3 v')) 4 1 w')))).
  { intros D0 v v' w w' Z T Ev Ew. apply (change_fst 2); [reflexivity| |exact Ew]. apply (change_fst 2); [reflexivity| |exact Ev]. split; [reflexivity|]. split; [reflexivity|]. split; [apply times_zero, Z|rewrite T; reflexivity]. }
  exact (G (new_demand (g_nodes ex_g34) 3) 5 10 7 14 (default_zeros _) eq_refl (Qeq_refl _) (Qeq_refl _)).
Qed.
Example C79_ex : exists o c f t ltt ct u u0, new_optimizer ex_B (Some ex_ff) = Ok o /\ NoDup (map r_id (pb_routes ex_B)) /\ VRC o [10; 20] = Ok c /\
  (forall f, fopt_to_f (o_pos o) [10; 20] = Ok f -> loaded ex_B f o) /\ times 2 (dm_matrix (pb_demand ex_B)) (dm_matrix ex_twice) /\
  evaluated ex_B o [10; 20] f t ltt ct u u0 /\ 0 < fixed_cost ex_B o f ltt u /\ 0 < crowding_cost ex_B f ltt ct (load t) u u0 /\ 0 < u_te u /\ 0 <= get_infrastructure_cost (pb_geo ex_B) (pb_graph ex_B) (pb_net ex_B) f /\ 0 <= q_spw (pb_pass ex_B) * u_te u /\ 0 <= q_spa (pb_pass ex_B) * walking ex_B o u /\ ~ q_va (pb_pass ex_B) == 0 /\
  (forall e, In e (o_es o) -> never_walks (o_X o) e).
Proof.
  destruct C77_ex as (o & c & f & t & ltt & ct & u & u0 & Eo & ND & Ec & LD & _ & _ & EV & _). exists o, c, f, t, ltt, ct, u, u0. split; [exact Eo|]. split; [exact ND|]. split; [exact Ec|]. split; [exact LD|]. split; [exact ex_times|]. split; [exact EV|].
  assert (A : exists o f t ltt ct u u0, new_optimizer ex_B (Some ex_ff) = Ok o /\ evaluated ex_B o [10; 20] f t ltt ct u u0 /\ 0 < fixed_cost ex_B o f ltt u /\ 0 < crowding_cost ex_B f ltt ct (load t) u u0 /\ 0 < u_te u /\ 0 <= get_infrastructure_cost (pb_geo ex_B) (pb_graph ex_B) (pb_net ex_B) f /\ 0 <= q_spw (pb_pass ex_B) * u_te u /\ 0 <= q_spa (pb_pass ex_B) * walking ex_B o u).
  { do 7 eexists. split; [vm_compute; reflexivity|]. unfold evaluated. split; [split; [vm_compute; reflexivity|]; do 4 (split; [vm_compute; reflexivity|]); vm_compute; reflexivity|]. do 3 (split; [vm_compute; reflexivity|]). split; [vm_compute; discriminate|]. split; vm_compute; discriminate. }
  destruct A as (o1 & f1 & t1 & ltt1 & ct1 & u1 & u01 & Eo1 & EV1 & P1 & P2 & P3 & P4 & P5 & P6). assert (o1 = o) by congruence. subst o1. pose proof EV as (A1 & A2 & A3 & A4 & A5 & A6). destruct EV1 as (B1 & B2 & B3 & B4 & B5 & B6).
  assert (f1 = f) by congruence. subst f1. assert (t1 = t) by congruence. subst t1. assert (ltt1 = ltt) by congruence. subst ltt1. rewrite A4 in B4. subst ct1. assert (u1 = u) by congruence. subst u1. assert (u01 = u0) by congruence. subst u01.
  split; [exact P1|]. split; [exact P2|]. split; [exact P3|]. split; [exact P4|]. split; [exact P5|]. split; [exact P6|]. split; [discriminate|]. apply (C48_one_mode _ _ _ _ _ _ _ _ _ _ _ (LD f A1)). intros r r' [<-|[<-|[]]] [<-|[<-|[]]]; reflexivity.
Qed.
Example C79_from_parameters_ex : exists D, demand_from_parameters (g_nodes ex_g34) 3 100 (1 # 2) (1 # 4) (1 # 4) = Ok D /\ 0 < dm_total D.
Proof. eexists. split; [vm_compute; reflexivity|]. vm_compute. reflexivity. Qed.

Print Assumptions C79_same_strategies.
Print Assumptions C79_demand.
Print Assumptions C79_returns.
Print Assumptions C79_average.
Print Assumptions C79_no_walks.
Print Assumptions C79_from_parameters.
