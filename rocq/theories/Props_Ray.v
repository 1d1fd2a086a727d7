(** * Props_Ray: one network with all its frequencies multiplied by the same number *)
From Coq Require Import String List ZArith QArith Qfield Bool Lia Lqa.
From Verif Require Import PyBase PyFacts PyStr Graph Mode Route ExtGraph ExtSpec Hyperpath HyperSpec Network Demand Assignment AssignSpec FlowSpec TableProofs Costs CostSpec UsersCost Optimizer OptSpec ResultsSpec Props_Flow Props_Cost Props_Users Props_Opt Props_Loads Props_Results Props_Value Props_Pipe.
From Verif Require Props_Hyper.
Import ListNotations.
Local Open Scope Q_scope.

Section Lockstep.
Variables (X : xgraph) (f f' : fdict) (q : Q).
Hypothesis (HQ : 0 < q) (SC : forall r, freq f' r == q * freq f r).

Lemma q_nz : ~ q == 0. Proof. intro E. rewrite E in HQ. discriminate. Qed.
Lemma mul_nz w : ~ w == 0 -> ~ q * w == 0.
Proof. intros W E. apply Qmult_integral in E. destruct E; [now apply q_nz|contradiction]. Qed.

Lemma f_acum_ray l a : f_acum X f l = Ok a -> exists a', f_acum X f' l = Ok a' /\ a' == q * a.
Proof.
  unfold f_acum. assert (G : forall l s s' a, s' == q * s ->
    foldM (fun a e => match x_j e with ER k => Ok (a + freq f (rid X k)) | _ => Err AttributeError end) l s = Ok a ->
    exists a', foldM (fun a e => match x_j e with ER k => Ok (a + freq f' (rid X k)) | _ => Err AttributeError end) l s' = Ok a' /\ a' == q * a).
  { clear l a. induction l as [|e l IH]; intros s s' a E H; cbn [foldM] in *.
    - inversion H; subst. eauto.
    - destruct (x_j e); try discriminate. cbn [bind] in *. refine (IH _ _ _ _ H). rewrite E, SC. ring. }
  apply G. ring.
Qed.

Lemma dis_pax_ray suc i j p p' r : p' == p -> dis_pax X f suc i j p = Ok r -> exists r', dis_pax X f' suc i j p' = Ok r' /\ r' == r.
Proof.
  intros E H. unfold dis_pax in *. destruct i as [c|s|k0]; try (inversion H; subst; eauto; fail). destruct j as [c|s'|k]; try (inversion H; subst; eauto; fail).
  apply bind_ok in H. destruct H as (fa & Ef & H). apply bind_ok in H. destruct H as (sh & Es & H). inversion H; subst r. apply qdiv_inv in Es. destruct Es as [Hn ->].
  destruct (f_acum_ray _ _ Ef) as (fa' & -> & Ef'). cbn [bind]. rewrite qdiv_ok by (rewrite Ef'; now apply mul_nz). cbn [bind]. eexists. split; [reflexivity|]. rewrite E, Ef', SC. field. split; [exact Hn|exact q_nz].
Qed.

(** the same values, whatever the keys *)
Definition teq (t t' : tab) : Prop := forall r d s, tget t' r d s == tget t r d s.
Definition Teq (t t' : tables) : Prop := teq (t_z t) (t_z t') /\ teq (t_v t) (t_v t') /\ teq (t_l t) (t_l t').
Lemma tadd_ray t t' r d s p p' : teq t t' -> p' == p -> teq (tadd t r d s p) (tadd t' r d s p').
Proof. intros E Ep r0 d0 s0. rewrite !tget_tadd, (E r0 d0 s0). destruct (here _ _ _ _ _ _); rewrite ?Ep; reflexivity. Qed.
Lemma record_ray t t' i j p p' : Teq t t' -> p' == p -> Teq (record_flow X t i j p) (record_flow X t' i j p').
Proof. intros (A & B & C) E. unfold record_flow. destruct i, j; repeat split; cbn [t_z t_v t_l]; auto using tadd_ray. Qed.

Definition peq (a b : enode * enode * Q) : Prop := fst b = fst a /\ snd b == snd a.
Lemma pushed_ray (l : list xedge) (j : enode) p p' : p' == p -> Forall2 peq (map (fun e => (j, x_j e, p)) l) (map (fun e => (j, x_j e, p')) l).
Proof. intro E. induction l; constructor; auto. split; [reflexivity|exact E]. Qed.

Lemma spread_ray suc dest : forall fuel ps ps' t t' T, Forall2 peq ps ps' -> Teq t t' -> spread fuel X f suc dest ps t = Ok T ->
  exists T', spread fuel X f' suc dest ps' t' = Ok T' /\ Teq T T'.
Proof.
  induction fuel as [|fuel IH]; intros ps ps' t t' T HP HT H; inversion HP as [|[[i j] p] [[i' j'] p'] r r' Hd Hr]; subst; cbn [spread] in *; try discriminate; try (inversion H; subst; eauto; fail).
  destruct Hd as [Hd Ep]. cbn [fst snd] in *. injection Hd as -> ->. apply bind_ok in H. destruct H as (s & Es & H). destruct (dis_pax_ray _ _ _ _ _ _ Ep Es) as (s' & -> & Es'). cbn [bind].
  refine (IH _ _ _ _ _ _ (record_ray _ _ _ _ _ _ HT Es') H). destruct (stop_of_dest X dest j); auto. apply Forall2_app; auto. now apply pushed_ray.
Qed.

Lemma raw_ray fuel : forall l t t' T, Teq t t' -> foldM (spread_od fuel X f) l t = Ok T -> exists T', foldM (spread_od fuel X f') l t' = Ok T' /\ Teq T T'.
Proof.
  induction l as [|[e a] l IH]; intros t t' T HT H; cbn [foldM] in *; [inversion H; subst; eauto|]. apply bind_ok in H. destruct H as (t1 & E1 & H).
  assert (A : exists t1', spread_od fuel X f' t' (e, a) = Ok t1' /\ Teq t1 t1').
  { unfold spread_od in *. cbn [fst snd] in *. clear H IH. revert t t' HT E1. generalize (map fst (od_paths e)). induction l0 as [|s l0 IH]; intros t t' HT E1; cbn [foldM] in *; [inversion E1; subst; eauto|].
    apply bind_ok in E1. destruct E1 as (t2 & E2 & E1). assert (B : exists t2', spread_stop fuel X f' e a t' s = Ok t2' /\ Teq t2 t2').
    { unfold spread_stop in *. destruct (Qeqb _ 0); [inversion E2; subst; eauto|]. refine (spread_ray _ _ _ _ _ _ _ _ _ HT E2). apply pushed_ray. reflexivity. }
    destruct B as (t2' & -> & HT2). cbn [bind]. eauto. }
  destruct A as (t1' & -> & HT1). cbn [bind]. eauto.
Qed.

(** passengers per vehicle *)
Definition tdiv (t t' : tab) : Prop := forall r d s, q * tget t' r d s == tget t r d s.
Lemma scale_ray t t' : teq t t' -> (forall r d s, freq f r == 0 -> tget (per_vehicle f t) r d s == 0) -> tdiv (per_vehicle f t) (per_vehicle f' t').
Proof.
  intros E Z r d s. destruct (Qeq_dec (freq f r) 0) as [F|F].
  - pose proof (Z r d s F) as Z1. rewrite Z1. rewrite tget_scaled in *. unfold scale in *. rewrite (proj2 (Qeqb_eq _ _)) in Z1 by exact F. rewrite (proj2 (Qeqb_eq _ _)) by (rewrite SC, F; ring). rewrite (E r d s), Z1. ring.
  - rewrite !tget_scaled. unfold scale. destruct (Qeqb (freq f r) 0) eqn:E1; [apply Qeqb_eq in E1; contradiction|]. destruct (Qeqb (freq f' r) 0) eqn:E2; [apply Qeqb_eq in E2; rewrite SC in E2; now apply mul_nz in F|]. rewrite (E r d s), SC. field. split; [exact F|exact q_nz].
Qed.

Lemma max_ray a b a' b' : q * a' == a -> q * b' == b -> q * Qmaxb a' b' == Qmaxb a b.
Proof.
  intros A B. unfold Qmaxb. destruct (Qltb a' b') eqn:E1, (Qltb a b) eqn:E2; try assumption; rewrite ?Qltb_lt in *; rewrite <- ?Bool.not_true_iff_false, ?Qltb_lt in *.
  all: try (exfalso; assert (a < b) by (rewrite <- A, <- B; now apply Qmult_lt_l); contradiction).
  all: exfalso; rewrite <- A, <- B in E2; apply Qmult_lt_l in E2; [contradiction|exact HQ].
Qed.

(** three runs: at the frequencies f, at f with nobody getting on or off on the way, and at f' *)
Definition R3 (u u0 u' : resources) : Prop :=
  u_ta u' == u_ta u /\ u_t u' == u_t u /\ q * u_te u' == u_te u /\ q * u_tv u' == q * u_tv u0 + (u_tv u - u_tv u0).
Ltac r3 := unfold add_ta, add_te, add_tv, add_t; repeat split; cbn [u_ta u_te u_tv u_t]; auto.
Lemma R3_ta u u0 u' w : R3 u u0 u' -> R3 (add_ta u w) (add_ta u0 w) (add_ta u' w).
Proof. intros (A & B & C & D). r3. now rewrite A. Qed.
Lemma R3_t u u0 u' w w' : R3 u u0 u' -> w' == w -> R3 (add_t u w) (add_t u0 w) (add_t u' w').
Proof. intros (A & B & C & D) E. r3. now rewrite B, E. Qed.
Lemma R3_tv u u0 u' w w0 w' : R3 u u0 u' -> q * w' == q * w0 + (w - w0) -> R3 (add_tv u w) (add_tv u0 w0) (add_tv u' w').
Proof. intros (A & B & C & D) E. r3. rewrite Qmult_plus_distr_r, D, E. ring. Qed.
Lemma R3_te u u0 u' w w0 w' : R3 u u0 u' -> q * w' == w -> R3 (add_te u w) (add_te u0 w0) (add_te u' w').
Proof. intros (A & B & C & D) E. r3. rewrite Qmult_plus_distr_r, C, E. reflexivity. Qed.

Lemma tget_none r d s : tget [] r d s = 0. Proof. reflexivity. Qed.

Section Tables.
Variables (z v z' v' : tab).
Hypothesis (HZ : tdiv z z') (HV : tdiv v v').

Lemma te_ray suc i j p p' u u0 u' U : R3 u u0 u' -> p' == p -> report_te X f suc i j p u = Ok U ->
  exists U0 U', report_te X f suc i j p u0 = Ok U0 /\ report_te X f' suc i j p' u' = Ok U' /\ R3 U U0 U'.
Proof.
  intros HR E H. unfold report_te in *. destruct i as [c|s|k0]; try (inversion H; subst; eauto; fail). destruct j as [c|s'|k]; try (inversion H; subst; eauto; fail).
  apply bind_ok in H. destruct H as (fa & Ef & H). apply bind_ok in H. destruct H as (w & Ew & H). apply bind_ok in H. destruct H as (te & Ee & H). injection H as <-.
  rewrite Ef. cbn [bind]. rewrite Ew. cbn [bind]. rewrite Ee. cbn [bind]. apply qdiv_inv in Ew. destruct Ew as [Hd ->]. apply qdiv_inv in Ee. destruct Ee as [Hw ->].
  destruct (f_acum_ray _ _ Ef) as (fa' & -> & Ef'). cbn [bind]. rewrite qdiv_ok by exact Hd. cbn [bind]. assert (W : fa' / m_d (r_mode (route_of X k)) == q * (fa / m_d (r_mode (route_of X k)))) by (rewrite Ef'; field; exact Hd).
  rewrite qdiv_ok by (rewrite W; now apply mul_nz). cbn [bind]. eexists. eexists. split; [reflexivity|]. split; [reflexivity|]. apply R3_te; [exact HR|]. rewrite W, E. set (w := fa / _) in *. field. split; [exact Hw|exact q_nz].
Qed.
Lemma tv_ray i j p p' u u0 u' : R3 u u0 u' -> p' == p -> R3 (report_tv X i j p u) (report_tv X i j p u0) (report_tv X i j p' u').
Proof. intros HR E. unfold report_tv. destruct i; auto. destruct j; auto. destruct (find _ _); auto. apply R3_tv; auto. rewrite E. ring. Qed.
Lemma al_ray dest i j p p' u u0 u' U : R3 u u0 u' -> p' == p -> report_alighting X dest v i j p u = Ok U ->
  exists U0 U', report_alighting X dest [] i j p u0 = Ok U0 /\ report_alighting X dest v' i j p' u' = Ok U' /\ R3 U U0 U'.
Proof.
  intros HR E H. unfold report_alighting in *. destruct i as [c|s|k]; try (inversion H; subst; eauto; fail). destruct j as [c|s|k']; try (inversion H; subst; eauto; fail).
  destruct (rn_prev _) as [pr|]; [|discriminate]. injection H as <-. eexists. eexists. split; [reflexivity|]. split; [reflexivity|]. apply R3_tv.
  - cbn [stop_of_dest]. destruct (onode_is _ _); auto. now apply R3_t.
  - cbn zeta. rewrite tget_none, <- (HV _ _ _), E. ring.
Qed.
Lemma ta_ray i j u u0 u' : R3 u u0 u' -> R3 (report_ta X i j u) (report_ta X i j u0) (report_ta X i j u').
Proof. intro HR. unfold report_ta. destruct i, j; auto using R3_ta. Qed.
Lemma dw_ray i j k p p' u u0 u' : R3 u u0 u' -> p' == p -> R3 (report_dwell X z v i j k p u) (report_dwell X [] [] i j k p u0) (report_dwell X z' v' i j k p' u').
Proof.
  intros HR E. unfold report_dwell. destruct i as [c|s|a]; auto. destruct j as [c|s|b]; auto. destruct k; auto. cbn zeta.
  assert (HM : R3 (if Qeqb (m_bya (r_mode (route_of X a))) 1 then add_tv u (Qmaxb (tget z (r_id (route_of X a)) (guess_dir (route_of X a) (rn_node_id X a) (rn_node_id X b)) (rn_stop_at (xg_rnodes X) b)) (tget v (r_id (route_of X a)) (guess_dir (route_of X a) (rn_node_id X a) (rn_node_id X b)) (rn_stop_at (xg_rnodes X) b)) * (m_t (r_mode (route_of X a)) / 3600) * p) else u)
    (if Qeqb (m_bya (r_mode (route_of X a))) 1 then add_tv u0 (Qmaxb (tget [] (r_id (route_of X a)) (guess_dir (route_of X a) (rn_node_id X a) (rn_node_id X b)) (rn_stop_at (xg_rnodes X) b)) (tget [] (r_id (route_of X a)) (guess_dir (route_of X a) (rn_node_id X a) (rn_node_id X b)) (rn_stop_at (xg_rnodes X) b)) * (m_t (r_mode (route_of X a)) / 3600) * p) else u0)
    (if Qeqb (m_bya (r_mode (route_of X a))) 1 then add_tv u' (Qmaxb (tget z' (r_id (route_of X a)) (guess_dir (route_of X a) (rn_node_id X a) (rn_node_id X b)) (rn_stop_at (xg_rnodes X) b)) (tget v' (r_id (route_of X a)) (guess_dir (route_of X a) (rn_node_id X a) (rn_node_id X b)) (rn_stop_at (xg_rnodes X) b)) * (m_t (r_mode (route_of X a)) / 3600) * p') else u')).
  { destruct (Qeqb _ 1); auto. apply R3_tv; auto. rewrite tget_none. rewrite <- (max_ray _ _ _ _ (HZ _ _ _) (HV _ _ _)), E. change (Qmaxb 0 0) with 0. ring. }
  destruct (Qeqb _ 0); auto. apply R3_tv; auto. rewrite !tget_none, <- (HZ _ _ _), <- (HV _ _ _), E. ring.
Qed.
Lemma report_ray suc dest i j p p' u u0 u' U : R3 u u0 u' -> p' == p -> report X f z v suc dest i j p u = Ok U ->
  exists U0 U', report X f [] [] suc dest i j p u0 = Ok U0 /\ report X f' z' v' suc dest i j p' u' = Ok U' /\ R3 U U0 U'.
Proof.
  intros HR E H. unfold report in *. apply bind_ok in H. destruct H as (u1 & E1 & H). destruct (te_ray _ _ _ _ _ _ _ _ _ HR E E1) as (a0 & a' & -> & -> & HA). cbn [bind].
  apply bind_ok in H. destruct H as (u2 & E2 & H). destruct (al_ray _ _ _ _ _ _ _ _ _ (tv_ray i j _ _ _ _ _ HA E) E E2) as (b0 & b' & -> & -> & HB). cbn [bind]. injection H as <-. eexists. eexists. split; [reflexivity|]. split; [reflexivity|].
  pose proof (ta_ray i j _ _ _ HB) as HC. revert HC. generalize (report_ta X i j u2) (report_ta X i j b0) (report_ta X i j b'). induction (suc j) as [|x l IH]; intros c c0 c' HC; cbn [fold_left]; auto. apply IH. now apply dw_ray.
Qed.
Lemma consume_ray suc dest : forall fuel ps ps' u u0 u' U, Forall2 peq ps ps' -> R3 u u0 u' -> consume fuel X f z v suc dest ps u = Ok U ->
  exists U0 U', consume fuel X f [] [] suc dest ps u0 = Ok U0 /\ consume fuel X f' z' v' suc dest ps' u' = Ok U' /\ R3 U U0 U'.
Proof.
  induction fuel as [|fuel IH]; intros ps ps' u u0 u' U HP HR H; inversion HP as [|[[i j] p] [[i' j'] p'] r r' Hd Hr]; subst; cbn [consume] in *; try discriminate; try (inversion H; subst; eauto; fail).
  destruct Hd as [Hd Ep]. cbn [fst snd] in *. injection Hd as -> ->. destruct (stop_of_dest X dest i); [eauto|].
  apply bind_ok in H. destruct H as (s & Es & H). rewrite Es. destruct (dis_pax_ray _ _ _ _ _ _ Ep Es) as (s' & -> & Es'). cbn [bind].
  apply bind_ok in H. destruct H as (u1 & E1 & H). destruct (report_ray _ _ _ _ _ _ _ _ _ _ HR Es' E1) as (a0 & a' & -> & -> & HA). cbn [bind].
  refine (IH _ _ _ _ _ _ _ HA H). apply Forall2_app; auto. now apply pushed_ray.
Qed.
Lemma users_ray fuel vp es asg U : resources_consumer fuel X vp f es asg z v = Ok U ->
  exists U0 U', resources_consumer fuel X vp f es asg [] [] = Ok U0 /\ resources_consumer fuel X vp f' es asg z' v' = Ok U' /\ R3 U U0 U'.
Proof.
  unfold resources_consumer. assert (HR : R3 (mkU 0 0 0 0) (mkU 0 0 0 0) (mkU 0 0 0 0)) by (repeat split; cbn; ring). revert HR. generalize (mkU 0 0 0 0) at 1 4. generalize (mkU 0 0 0 0) at 1 3. generalize (mkU 0 0 0 0). intros u' u0 u. revert u u0 u'.
  induction (combine es asg) as [|[e a] l IH]; intros u u0 u' HR H; cbn [foldM] in *; [inversion H; subst; eauto|]. apply bind_ok in H. destruct H as (u1 & E1 & H).
  assert (A : exists a0 a', consume_od fuel X vp f [] [] u0 (e, a) = Ok a0 /\ consume_od fuel X vp f' z' v' u' (e, a) = Ok a' /\ R3 u1 a0 a').
  { unfold consume_od in *. cbn [fst snd] in *. clear H IH. revert u u0 u' HR E1. generalize (map fst (od_paths e)). induction l0 as [|s l0 IH]; intros u u0 u' HR E1; cbn [foldM] in *; [inversion E1; subst; eauto|].
    apply bind_ok in E1. destruct E1 as (u2 & E2 & E1). assert (B : exists b0 b', consume_stop fuel X vp f [] [] e a u0 s = Ok b0 /\ consume_stop fuel X vp f' z' v' e a u' s = Ok b' /\ R3 u2 b0 b').
    { unfold consume_stop in *. destruct (Qeqb _ 0); [inversion E2; subst; eauto|]. apply bind_ok in E2. destruct E2 as (w & -> & E2). cbn [bind]. refine (consume_ray _ _ _ _ _ _ _ _ _ _ (R3_ta _ _ _ _ HR) E2). apply pushed_ray. reflexivity. }
    destruct B as (b0 & b' & -> & -> & HB). cbn [bind]. eauto. }
  destruct A as (a0 & a' & -> & -> & HA). cbn [bind]. eauto.
Qed.
End Tables.
End Lockstep.

(** ** The problem *)
Definition load (t : tables) (r : string) : Q := freq (most_loaded_section (t_l t)) r.

Lemma load_spec fuel X f es asg t : get_alighting_and_boarding fuel X f es asg = Ok t ->
  forall r, 0 <= load t r /\ (forall d s, tget (t_l t) r d s <= load t r) /\ (load t r == 0 \/ exists d s, load t r == tget (t_l t) r d s).
Proof.
  intros E r. unfold load, freq, dget0. destruct (dget String.eqb (most_loaded_section (t_l t)) r) as [k|] eqn:Ed; [apply (proj2 (C42_most_loaded_section _ _ _ _ _ _ E) _ _ Ed)|]. split; [lra|]. split; [|left; reflexivity]. intros d s.
  apply (dget_None String.eqb Seqb_spec) in Ed. rewrite (proj1 (C42_most_loaded_section _ _ _ _ _ _ E)) in Ed. apply (dget_None String.eqb Seqb_spec) in Ed. unfold tget, trow, dget0. rewrite Ed. cbn. lra.
Qed.
Lemma load_ray fuel X f f' es asg t t' q : 0 < q -> get_alighting_and_boarding fuel X f es asg = Ok t -> get_alighting_and_boarding fuel X f' es asg = Ok t' ->
  tdiv q (t_l t) (t_l t') -> forall r, q * load t' r == load t r.
Proof.
  intros HQ E E' D r. destruct (load_spec _ _ _ _ _ _ E r) as (A & B & C). destruct (load_spec _ _ _ _ _ _ E' r) as (A' & B' & C'). apply Qle_antisym.
  - destruct C' as [C'|(d & s & C')]; rewrite C'; [lra|]. rewrite (D r d s). apply B.
  - destruct C as [C|(d & s & C)]; rewrite C; [nra|]. rewrite <- (D r d s). specialize (B' d s). nra.
Qed.

Lemma covers_two z v z' v' r : exists S, covers S z v r /\ covers S z' v' r.
Proof.
  destruct (covers_exists z v r) as (S1 & _ & C1). destruct (covers_exists z' v' r) as (S2 & _ & C2). exists (nodup Nat.eq_dec (S1 ++ S2)).
  split; (split; [apply NoDup_nodup|]); intros d s H; apply nodup_In, in_app_iff; eauto.
Qed.
Lemma dwell_ray q z v z' v' b r d s : 0 < q -> tdiv q z z' -> tdiv q v v' -> q * stop_dwell b z' v' r d s == stop_dwell b z v r d s.
Proof.
  intros HQ HZ HV. unfold stop_dwell. destruct (Qeqb b 0); [rewrite <- (HZ r d s), <- (HV r d s); ring|]. destruct (Qeqb b 1); [|ring]. apply max_ray; auto.
Qed.
Lemma cycle_ray q z v z' v' rs tt ct a b ct' a' b' : 0 < q -> tdiv q z z' -> tdiv q v v' -> tab_wf z -> tab_wf v -> tab_wf z' -> tab_wf v' -> NoDup (map r_id rs) ->
  get_cycle_time z v rs tt = (ct, a, b) -> get_cycle_time z' v' rs tt = (ct', a', b') -> forall r, In r rs ->
  q * (freq ct' (r_id r) - freq tt (r_id r)) == freq ct (r_id r) - freq tt (r_id r).
Proof.
  intros HQ HZ HV W1 W2 W3 W4 ND E E' r Hr. destruct (covers_two z v z' v' (r_id r)) as (S & C & C').
  rewrite (proj1 (C44_cycle_time _ _ _ _ _ _ _ W1 W2 ND E) r S Hr C), (proj1 (C44_cycle_time _ _ _ _ _ _ _ W3 W4 ND E') r S Hr C').
  set (M := m_t (r_mode r) / 3600). assert (D : q * Qsumf (fun d => Qsumf (stop_dwell (m_bya (r_mode r)) z' v' (r_id r) d) S) [DI; DR] == Qsumf (fun d => Qsumf (stop_dwell (m_bya (r_mode r)) z v (r_id r) d) S) [DI; DR]).
  { rewrite <- Qsumf_scal. apply Qsumf_ext. intros d _. rewrite <- Qsumf_scal. apply Qsumf_ext. intros s _. now apply dwell_ray. }
  rewrite <- D. ring.
Qed.
Lemma infra_ray G g nw f f' : (forall r, Qeqb (freq f' r) 0 = Qeqb (freq f r) 0) -> get_infrastructure_cost G g nw f' = get_infrastructure_cost G g nw f.
Proof.
  intro H. unfold get_infrastructure_cost. f_equal. unfold get_mode_network_distance. apply fold_left_ext. intros acc m. unfold mode_distance.
  assert (A : forall l st, fold_left (fun st a => count_edge m f' a (dist0 (get_edges_distance G g) (fst a) (snd a)) (nw_routes nw) st) l st = fold_left (fun st a => count_edge m f a (dist0 (get_edges_distance G g) (fst a) (snd a)) (nw_routes nw) st) l st).
  { intros l st. apply fold_left_ext. intros s a. induction (nw_routes nw) as [|r rs IH]; cbn [count_edge]; auto. rewrite H, IH. reflexivity. }
  now rewrite A.
Qed.

(** ** What each part of the cost is, at frequencies f *)
(** vehicles running between stops, at the cost of an empty vehicle *)
Definition moving_cost (rs : list route) (f ltt : fdict) : Q :=
  Qsumf (fun r => m_co (r_mode r) * freq f (r_id r) * freq ltt (r_id r)) rs.
(** vehicles standing at stops, at the cost of an empty vehicle; places, while vehicles run between stops *)
Definition standing_cost (rs : list route) (f ltt ct : fdict) : Q :=
  Qsumf (fun r => m_co (r_mode r) * freq f (r_id r) * (freq ct (r_id r) - freq ltt (r_id r))) rs.
Definition places_moving_cost (rs : list route) (f ltt : fdict) (K : string -> Q) : Q :=
  Qsumf (fun r => m_c1 (r_mode r) * K (r_id r) * freq f (r_id r) * freq ltt (r_id r)) rs.
(** places, while vehicles stand at stops *)
Definition places_standing_cost (rs : list route) (f ltt ct : fdict) (K : string -> Q) : Q :=
  Qsumf (fun r => m_c1 (r_mode r) * K (r_id r) * freq f (r_id r) * (freq ct (r_id r) - freq ltt (r_id r))) rs.

(** with the users: the part of the cost that falls as the frequencies grow, and the part that stays; u0 are the
    resources that the users would consume if no vehicle stood at the stops *)
Definition falling_cost (B : problem) (f ltt ct : fdict) (K : string -> Q) (u u0 : resources) : Q :=
  places_standing_cost (pb_routes B) f ltt ct K + q_spw (pb_pass B) * u_te u + q_spv (pb_pass B) * (u_tv u - u_tv u0).
Definition constant_cost (B : problem) (f ltt ct : fdict) (K : string -> Q) (u u0 : resources) : Q :=
  standing_cost (pb_routes B) f ltt ct + places_moving_cost (pb_routes B) f ltt K + get_infrastructure_cost (pb_geo B) (pb_graph B) (pb_net B) f +
  q_spa (pb_pass B) * u_ta u + q_spv (pb_pass B) * (u_tv u0 + q_spt (pb_pass B) / 60 * u_t u).
(** what is known at the frequencies f of the vector x *)
Definition evaluated (B : problem) (o : optimizer) (x : list Q) (f : fdict) (t : tables) (ltt ct : fdict) (u u0 : resources) : Prop :=
  fopt_to_f (o_pos o) x = Ok f /\ boardings o f = Ok t /\
  lines_travel_time (pb_routes B) (get_edges_distance (pb_geo B) (pb_graph B)) = Ok ltt /\
  fst (fst (get_cycle_time (t_z t) (t_v t) (pb_routes B) ltt)) = ct /\
  resources_consumer (pb_fuel B) (o_X o) (q_va (pb_pass B)) f (o_es o) (o_asg o) (t_z t) (t_v t) = Ok u /\
  resources_consumer (pb_fuel B) (o_X o) (q_va (pb_pass B)) f (o_es o) (o_asg o) [] [] = Ok u0.

Lemma operators_parts rs f ltt ct K : get_operators_cost rs ct f K ==
  moving_cost rs f ltt + standing_cost rs f ltt ct + places_moving_cost rs f ltt (freq K) + places_standing_cost rs f ltt ct (freq K).
Proof.
  rewrite C45_operators_cost. unfold moving_cost, standing_cost, places_moving_cost, places_standing_cost. induction rs as [|r rs IH]; [reflexivity|]. cbn [filter]. rewrite !Qsumf_cons.
  destruct (Qeqb (freq f (r_id r)) 0) eqn:E; cbn [negb].
  - rewrite IH. qb. rewrite E. ring.
  - rewrite Qsumf_cons, IH. ring.
Qed.

Lemma nth_ray q : forall x n, nth n (map (Qmult q) x) 0 == q * nth n x 0.
Proof. induction x as [|a x IH]; intros [|n]; cbn [map nth]; try ring. apply IH. Qed.

Section Scaled.
Variables (B : problem) (fg : option fdict) (o : optimizer) (x : list Q) (f : fdict) (q : Q).
Hypotheses (Ho : new_optimizer B fg = Ok o) (ND : NoDup (map r_id (pb_routes B))) (Hf : fopt_to_f (o_pos o) x = Ok f) (LD : loaded B f o) (HQ : 0 < q).

Lemma vector_ray : exists f', fopt_to_f (o_pos o) (map (Qmult q) x) = Ok f' /\ forall r, freq f' r == q * freq f r.
Proof.
  destruct (C49_vector_to_dict B fg o x Ho ND) as [A A0]. destruct (C49_vector_to_dict B fg o (map (Qmult q) x) Ho ND) as [C _]. rewrite map_length in C.
  assert (L : (length x <= length (pb_routes B))%nat) by (destruct (Nat.le_gt_cases (length x) (length (pb_routes B))) as [L|L]; auto; rewrite (A0 L) in Hf; discriminate).
  destruct (A L) as (f0 & E0 & A1 & A2). destruct (C L) as (f' & E' & C1 & C2). assert (f0 = f) by congruence. subst f0. exists f'. split; auto. intro r.
  destruct (in_dec String.string_dec r (map r_id (pb_routes B))) as [I|I].
  - apply in_map_iff in I. destruct I as (p & <- & I). apply In_nth_error in I. destruct I as (n & I). rewrite (A1 _ _ I), (C1 _ _ I). apply nth_ray.
  - rewrite (A2 _ I), (C2 _ I). ring.
Qed.

Lemma loaded_ray f' : (forall r, freq f' r == q * freq f r) -> loaded B f' o.
Proof.
  intro SC. destruct LD as [A1 A2 A3 A4 A5 A6 A7 A8]. split; auto.
  - intro r. rewrite SC. specialize (A7 r). nra.
  - intros e He n y Hy Hn. destruct (A8 e He n y Hy Hn) as (y' & k & H1 & H2 & H3). exists y', k. split; auto. split; auto. rewrite SC. nra.
Qed.

Lemma tables_ray f' t : (forall r, freq f' r == q * freq f r) -> boardings o f = Ok t ->
  exists t', boardings o f' = Ok t' /\ tdiv q (t_z t) (t_z t') /\ tdiv q (t_v t) (t_v t') /\ tdiv q (t_l t) (t_l t').
Proof.
  intros SC E. destruct (new_optimizer_attrs _ _ _ Ho) as (_ & _ & _ & _ & _ & _ & _ & Ea & _). assert (LA : length (o_asg o) = length (o_es o)) by exact (mapM_length _ _ _ Ea).
  unfold boardings in *. destruct (C41_tables_are_the_flow _ _ _ _ _ _ _ _ _ _ _ _ _ _ LD LA E) as (Fs & _ & _ & TF). unfold get_alighting_and_boarding in *. apply bind_ok in E. destruct E as (T & ET & E). injection E as <-. cbn [t_z t_v t_l] in *.
  destruct (raw_ray _ _ _ _ HQ SC _ _ (mkT [] [] []) (mkT [] [] []) _ ltac:(repeat split; intros ? ? ?; reflexivity) ET) as (T' & -> & R1 & R2 & R3). cbn [bind]. eexists. split; [reflexivity|]. cbn [t_z t_v t_l].
  repeat split; (apply (scale_ray _ _ _ HQ SC); [assumption|]; intros r d s F; apply (TF r d s), F).
Qed.
End Scaled.

Lemma div_of q a b : 0 < q -> q * a == b -> a == b / q.
Proof. intros HQ H. rewrite <- H. field. intro E. rewrite E in HQ. discriminate. Qed.

(** With all the frequencies multiplied by q, the vehicles carry, pick up and leave 1/q of the passengers, their
    fullest section has 1/q of the passengers, and they stand at stops 1/q of the time. *)
Theorem C77_vehicles : forall B fg o x f t ltt, new_optimizer B fg = Ok o -> NoDup (map r_id (pb_routes B)) -> fopt_to_f (o_pos o) x = Ok f -> loaded B f o -> boardings o f = Ok t ->
  forall q, 0 < q -> exists f' t', fopt_to_f (o_pos o) (map (Qmult q) x) = Ok f' /\ boardings o f' = Ok t' /\
    (forall r, freq f' r == q * freq f r) /\
    (forall r d s, tget (t_z t') r d s == tget (t_z t) r d s / q /\ tget (t_v t') r d s == tget (t_v t) r d s / q /\ tget (t_l t') r d s == tget (t_l t) r d s / q) /\
    (forall r, load t' r == load t r / q) /\
    forall ct z v ct' z' v', get_cycle_time (t_z t) (t_v t) (pb_routes B) ltt = (ct, z, v) -> get_cycle_time (t_z t') (t_v t') (pb_routes B) ltt = (ct', z', v') ->
      forall r, In r (pb_routes B) -> freq ct' (r_id r) == freq ltt (r_id r) + (freq ct (r_id r) - freq ltt (r_id r)) / q.
Proof.
  intros B fg o x f t ltt Ho ND Hf LD Et q HQ. destruct (vector_ray _ _ _ _ _ q Ho ND Hf) as (f' & Ef' & SC). destruct (tables_ray _ _ _ _ _ Ho LD HQ _ _ SC Et) as (t' & Et' & DZ & DV & DL). exists f', t'. do 3 (split; [auto|]).
  split; [intros r d s; repeat split; apply div_of; auto|]. split; [intro r; apply div_of; auto; exact (load_ray _ _ _ _ _ _ _ _ _ HQ Et Et' DL r)|].
  intros ct z v ct' z' v' E E' r Hr. destruct (gab_wf _ _ _ _ _ _ Et) as (W1 & W2 & _). destruct (gab_wf _ _ _ _ _ _ Et') as (W3 & W4 & _).
  rewrite <- (cycle_ray _ _ _ _ _ _ _ _ _ _ _ _ _ HQ DZ DV W1 W2 W3 W4 ND E E' r Hr). field. intro Z. rewrite Z in HQ. discriminate.
Qed.

(** Along a ray of frequencies the total cost is a q + b + k / q.  The part that grows is that of the vehicles
    moving between stops.  The part that falls is the waiting, the time that the travellers on board spend at
    stops, and the places of the vehicles at stops.  The rest does not change. *)
Theorem C77_ray : forall B fg o x c, new_optimizer B fg = Ok o -> NoDup (map r_id (pb_routes B)) ->
  (forall f, fopt_to_f (o_pos o) x = Ok f -> loaded B f o) -> VRC o x = Ok c ->
  exists f t ltt ct u u0, evaluated B o x f t ltt ct u u0 /\
    c == moving_cost (pb_routes B) f ltt + constant_cost B f ltt ct (load t) u u0 + falling_cost B f ltt ct (load t) u u0 /\
    forall q, 0 < q -> exists c', VRC o (map (Qmult q) x) = Ok c' /\
      c' == moving_cost (pb_routes B) f ltt * q + constant_cost B f ltt ct (load t) u u0 + falling_cost B f ltt ct (load t) u u0 / q.
Proof.
  intros B fg o x c Ho ND LD HV. destruct (C58_objective _ _ _ _ _ Ho ND HV) as (f & t & ltt & cu & Ef & Et & El & Eu & Ec). specialize (LD f Ef).
  unfold get_users_cost in Eu. apply bind_ok in Eu. destruct Eu as (u & Eu & Ecu). injection Ecu as <-.
  destruct (get_cycle_time (t_z t) (t_v t) (pb_routes B) ltt) as [[ct z] v] eqn:ECT. cbn [fst] in Ec.
  destruct (users_ray _ f f 1 ltac:(reflexivity) ltac:(intro; ring) (t_z t) (t_v t) (t_z t) (t_v t) ltac:(intros ? ? ?; ring) ltac:(intros ? ? ?; ring) _ _ _ _ _ Eu) as (u0 & _ & Eu0 & _ & _).
  exists f, t, ltt, ct, u, u0. split; [unfold evaluated; rewrite ECT; auto 6|]. split.
  { unfold constant_cost, falling_cost. rewrite Ec, (operators_parts _ _ ltt). unfold users_cost. change (freq (most_loaded_section (t_l t))) with (load t). field. }
  intros q HQ. destruct (vector_ray _ _ _ _ _ q Ho ND Ef) as (f' & Ef' & SC). destruct (tables_ray _ _ _ _ _ Ho LD HQ _ _ SC Et) as (t' & Et' & DZ & DV & DL).
  destruct (users_ray _ _ _ _ HQ SC _ _ _ _ DZ DV _ _ _ _ _ Eu) as (u0' & u' & Eu0' & Eu' & RA & RT & RE & RV). assert (u0' = u0) by congruence. subst u0'.
  destruct (new_optimizer_attrs _ _ _ Ho) as (Hb & _). destruct (gab_wf _ _ _ _ _ _ Et) as (W1 & W2 & _). destruct (gab_wf _ _ _ _ _ _ Et') as (W3 & W4 & _).
  destruct (get_cycle_time (t_z t') (t_v t') (pb_routes B) ltt) as [[ct' z'] v'] eqn:ECT'. destruct (cycle_same _ _ _ _ _ _ _ W3 W4 ND ECT') as [SZ SV].
  assert (DEF : exists c', VRC o (map (Qmult q) x) = Ok c').
  { unfold VRC. rewrite Ef'. cbn [bind]. rewrite Et'. cbn [bind]. rewrite Hb. unfold operators_cost. rewrite El. cbn [bind]. rewrite ECT'. cbn [bind]. unfold user_cost, get_users_cost. rewrite (rc_tab _ _ _ _ _ _ _ _ _ _ SZ SV), Eu'. cbn [bind]. eauto. }
  destruct DEF as (c' & HV'). exists c'. split; auto. destruct (C58_objective _ _ _ _ _ Ho ND HV') as (f1 & t1 & ltt1 & cu1 & E1 & E2 & E3 & E4 & E5). assert (f1 = f') by congruence. subst f1. assert (t1 = t') by congruence. subst t1. assert (ltt1 = ltt) by congruence. subst ltt1.
  unfold get_users_cost in E4. rewrite Eu' in E4. cbn [bind] in E4. injection E4 as <-. rewrite ECT' in E5. cbn [fst] in E5. rewrite E5, (operators_parts _ _ ltt). change (freq (most_loaded_section (t_l t'))) with (load t').
  assert (QZ : ~ q == 0) by (intro Z; rewrite Z in HQ; discriminate).
  assert (LR : forall r, load t' r == load t r / q) by (intro r; apply div_of; auto; exact (load_ray _ _ _ _ _ _ _ _ _ HQ Et Et' DL r)).
  assert (CR : forall r, In r (pb_routes B) -> freq ct' (r_id r) - freq ltt (r_id r) == (freq ct (r_id r) - freq ltt (r_id r)) / q).
  { intros r Hr. apply div_of; auto. exact (cycle_ray _ _ _ _ _ _ _ _ _ _ _ _ _ HQ DZ DV W1 W2 W3 W4 ND ECT ECT' r Hr). }
  assert (M1 : moving_cost (pb_routes B) f' ltt == moving_cost (pb_routes B) f ltt * q).
  { unfold moving_cost. rewrite (Qmult_comm (Qsumf _ _) q), <- Qsumf_scal. apply Qsumf_ext. intros r _. rewrite SC. ring. }
  assert (M2 : standing_cost (pb_routes B) f' ltt ct' == standing_cost (pb_routes B) f ltt ct).
  { unfold standing_cost. apply Qsumf_ext. intros r Hr. rewrite SC, (CR r Hr). field. exact QZ. }
  assert (M3 : places_moving_cost (pb_routes B) f' ltt (load t') == places_moving_cost (pb_routes B) f ltt (load t)).
  { unfold places_moving_cost. apply Qsumf_ext. intros r Hr. rewrite SC, LR. field. exact QZ. }
  assert (M4 : places_standing_cost (pb_routes B) f' ltt ct' (load t') == places_standing_cost (pb_routes B) f ltt ct (load t) / q).
  { unfold places_standing_cost, Qdiv at 1. rewrite (Qmult_comm (Qsumf _ _) (/ q)), <- Qsumf_scal. apply Qsumf_ext. intros r Hr. rewrite SC, LR, (CR r Hr). field. exact QZ. }
  assert (FI : get_infrastructure_cost (pb_geo B) (pb_graph B) (pb_net B) f' = get_infrastructure_cost (pb_geo B) (pb_graph B) (pb_net B) f).
  { apply infra_ray. intro r. destruct (Qeqb (freq f r) 0) eqn:Z; qb. - apply Qeqb_eq. rewrite SC, Z. ring. - apply Qeqb_neq. rewrite SC. intro Z'. apply Qmult_integral in Z'. destruct Z'; contradiction. }
  unfold constant_cost, falling_cost. rewrite M1, M2, M3, M4, FI. unfold users_cost. rewrite RA, RT, (div_of _ _ _ HQ RE), (div_of _ _ _ HQ RV). field. exact QZ.
Qed.

Lemma best_of (g : Q -> Q) c a k : 0 <= a -> (forall q, 0 < q -> g q == c + a * (q - 1) + k * (/ q - 1)) -> ((forall q, 0 < q -> c <= g q) <-> a == k).
Proof.
  intros HA HR. split.
  - intro BEST. assert (N : forall q, 0 < q -> 0 <= a * (q - 1) + k * (/ q - 1)). { intros q HQ. specialize (HR q HQ). specialize (BEST q HQ). lra. }
    assert (N2 : forall q, 0 < q -> 0 <= (q - 1) * (a * q - k)). { intros q HQ. specialize (N q HQ). assert (E : (q - 1) * (a * q - k) == q * (a * (q - 1) + k * (/ q - 1))) by (field; intro Z; rewrite Z in HQ; discriminate). rewrite E. nra. }
    destruct (Qlt_le_dec a k) as [L|L]; [|destruct (Qlt_le_dec k a) as [L'|L']; [|lra]]; exfalso.
    + destruct (Qlt_le_dec 0 a) as [P|P].
      * assert (H : 0 < (a + k) / (2 * a)) by (apply Qlt_shift_div_l; lra). specialize (N2 _ H). assert (E : ((a + k) / (2 * a) - 1) * (a * ((a + k) / (2 * a)) - k) == - ((k - a) * (k - a)) / (4 * a)) by (field; lra). rewrite E in N2. assert (0 < (k - a) * (k - a) / (4 * a)) by (apply Qlt_shift_div_l; [lra|nra]). assert (E2 : - ((k - a) * (k - a)) / (4 * a) == - ((k - a) * (k - a) / (4 * a))) by (field; lra). lra.
      * specialize (N2 2 ltac:(reflexivity)). lra.
    + destruct (Qlt_le_dec (- a) k) as [P|P].
      * assert (H : 0 < (a + k) / (2 * a)) by (apply Qlt_shift_div_l; lra). specialize (N2 _ H). assert (E : ((a + k) / (2 * a) - 1) * (a * ((a + k) / (2 * a)) - k) == - ((k - a) * (k - a)) / (4 * a)) by (field; lra). rewrite E in N2. assert (0 < (k - a) * (k - a) / (4 * a)) by (apply Qlt_shift_div_l; [lra|nra]). assert (E2 : - ((k - a) * (k - a)) / (4 * a) == - ((k - a) * (k - a) / (4 * a))) by (field; lra). lra.
      * specialize (N2 (1 # 2) ltac:(reflexivity)). lra.
  - intros E q HQ. specialize (HR q HQ). rewrite <- E in HR. assert (E2 : a * (q - 1) + a * (/ q - 1) == a * ((q - 1) * (q - 1)) / q) by (field; intro Z; rewrite Z in HQ; discriminate).
    assert (0 <= a * ((q - 1) * (q - 1)) / q) by (apply Qle_shift_div_l; [exact HQ|rewrite Qmult_0_l; apply Qmult_le_0_compat; [exact HA|destruct (Qlt_le_dec q 1); nra]]). lra.
Qed.

(** When vehicles run at positive speeds and do not cost less than nothing: no common factor of the frequencies
    gives a smaller cost exactly when the vehicles moving between stops cost as much as the part that falls. *)
Theorem C77_best : forall B fg o x c, new_optimizer B fg = Ok o -> NoDup (map r_id (pb_routes B)) ->
  (forall f, fopt_to_f (o_pos o) x = Ok f -> loaded B f o) -> VRC o x = Ok c ->
  (forall r, In r (pb_routes B) -> 0 < m_v (r_mode r) /\ 0 <= m_co (r_mode r)) -> (forall p, 0 <= geo_sqrt (pb_geo B) p) ->
  forall f t ltt ct u u0, evaluated B o x f t ltt ct u u0 ->
  ((forall q c', 0 < q -> VRC o (map (Qmult q) x) = Ok c' -> c <= c') <-> moving_cost (pb_routes B) f ltt == falling_cost B f ltt ct (load t) u u0).
Proof.
  intros B fg o x c Ho ND LD HV HM HG f t ltt ct u u0 HE. destruct (C77_ray _ _ _ _ _ Ho ND LD HV) as (f1 & t1 & ltt1 & ct1 & u1 & u01 & HE1 & Ec & HR).
  destruct HE as (A1 & A2 & A3 & A4 & A5 & A6). destruct HE1 as (B1 & B2 & B3 & B4 & B5 & B6). assert (f1 = f) by congruence. subst f1. assert (t1 = t) by congruence. subst t1. assert (ltt1 = ltt) by congruence. subst ltt1. rewrite A4 in B4. subst ct1. assert (u1 = u) by congruence. subst u1. assert (u01 = u0) by congruence. subst u01.
  specialize (LD f A1). destruct (travel_time_ok (pb_routes B) (get_edges_distance (pb_geo B) (pb_graph B)) (fun r H => proj1 (HM r H)) (fun i j => dist0_nonneg _ _ i j HG)) as (tt & Et & TN). assert (tt = ltt) by congruence. subst tt.
  assert (HA : 0 <= moving_cost (pb_routes B) f ltt).
  { unfold moving_cost. apply Qsumf_nonneg. intros r Hr. apply Qmult_le_0_compat; [apply Qmult_le_0_compat; [apply (HM r Hr)|apply (fi_freq _ _ _ _ _ _ _ _ _ _ _ LD)]|apply TN]. }
  set (a := moving_cost _ _ _) in *. set (k := falling_cost _ _ _ _ _ _ _) in *. set (b := constant_cost _ _ _ _ _ _ _) in *. clearbody a b k.
  assert (BO : (forall q, 0 < q -> c <= a * q + b + k / q) <-> a == k). { apply (best_of (fun q => a * q + b + k / q) c a k HA). intros q HQ. rewrite Ec. field. intro Z. rewrite Z in HQ. discriminate. }
  apply iff_trans with (2 := BO). split; intros HB q.
  - intro HQ. destruct (HR q HQ) as (c' & E' & Q'). rewrite <- Q'. exact (HB q c' HQ E').
  - intros c' HQ E'. destruct (HR q HQ) as (c1 & E1 & Q1). assert (c1 = c') by congruence. subst c1. rewrite Q1. exact (HB q HQ).
Qed.

(** ** The constraints *)
Lemma mapM_pairs {A} (h h' : A -> res Q) (R : A -> Q -> Q -> Prop) : forall l ys, mapM h l = Ok ys -> (forall a y, In a l -> h a = Ok y -> exists y', h' a = Ok y' /\ R a y y') ->
  exists T : list (A * Q * Q), map (fun t => fst (fst t)) T = l /\ ys = map (fun t => snd (fst t)) T /\ mapM h' l = Ok (map snd T) /\ forall a y y', In (a, y, y') T -> R a y y'.
Proof.
  induction l as [|a l IH]; intros ys H HR; cbn [mapM] in *.
  - injection H as <-. exists []. repeat split; auto. intros a y y' [].
  - apply bind_ok in H. destruct H as (y & E & H). apply bind_ok in H. destruct H as (ys' & E' & H). injection H as <-.
    destruct (HR a y (or_introl eq_refl) E) as (y' & E1 & R1). destruct (IH ys' E' (fun b z Hb => HR b z (or_intror Hb))) as (T & T1 & T2 & T3 & T4).
    exists ((a, y, y') :: T). cbn [map fst snd]. rewrite T1, T2, E1. cbn [bind]. rewrite T3. cbn [bind]. repeat split; auto. intros b z z' [Eq|Hin]; [inversion Eq; subst; auto|eauto].
Qed.
Lemma seq_freq_ray q a d fr fr' : fr' == q * fr -> forall l s s' y, s' == q * s ->
  foldM (fun s '(i, j) => if (str_of_Z (fst a) =? str_of_Z i)%string && (str_of_Z (snd a) =? str_of_Z j)%string then let* q := qdiv fr d in Ok (s + q) else Ok s) l s = Ok y ->
  exists y', foldM (fun s '(i, j) => if (str_of_Z (fst a) =? str_of_Z i)%string && (str_of_Z (snd a) =? str_of_Z j)%string then let* q := qdiv fr' d in Ok (s + q) else Ok s) l s' = Ok y' /\ y' == q * y.
Proof.
  intro E. induction l as [|[i j] l IH]; intros s s' y Es H; cbn [foldM] in *; [injection H as <-; eauto|].
  destruct ((str_of_Z (fst a) =? str_of_Z i)%string && (str_of_Z (snd a) =? str_of_Z j)%string)%bool; cbn [bind] in *; [|eauto].
  unfold qdiv in *. destruct (Qeqb d 0) eqn:D; cbn [bind] in *; [discriminate|]. refine (IH _ _ _ _ H). rewrite Es, E. unfold Qdiv. ring.
Qed.
Lemma edge_mode_ray q f f' rs a m y : 0 < q -> (forall r, freq f' r == q * freq f r) -> edge_mode_constrain rs f a m = Ok y ->
  exists y', edge_mode_constrain rs f' a m = Ok y' /\ y' + m_fmax m / m_d m == q * (y + m_fmax m / m_d m).
Proof.
  intros HQ SC. unfold edge_mode_constrain. intro H. apply bind_ok in H. destruct H as (F & EF & H). rewrite EF. cbn [bind]. apply qdiv_inv in EF. destruct EF as [_ ->].
  apply bind_ok in H. destruct H as (s & Es & H). injection H as <-.
  assert (A : forall l s0 s0' s, s0' == q * s0 -> foldM (fun s r => if mode_eqb (r_mode r) m && negb (Qeqb (freq f (r_id r)) 0) then let* s := seq_freq a (r_ni r) (freq f (r_id r)) (m_d m) s in seq_freq a (r_nr r) (freq f (r_id r)) (m_d m) s else Ok s) l s0 = Ok s ->
    exists s', foldM (fun s r => if mode_eqb (r_mode r) m && negb (Qeqb (freq f' (r_id r)) 0) then let* s := seq_freq a (r_ni r) (freq f' (r_id r)) (m_d m) s in seq_freq a (r_nr r) (freq f' (r_id r)) (m_d m) s else Ok s) l s0' = Ok s' /\ s' == q * s).
  { clear Es s. induction l as [|r l IH]; intros s0 s0' s E0 H; cbn [foldM] in *; [injection H as <-; eauto|].
    assert (Z : Qeqb (freq f' (r_id r)) 0 = Qeqb (freq f (r_id r)) 0).
    { destruct (Qeqb (freq f (r_id r)) 0) eqn:Z; qb; [apply Qeqb_eq; rewrite SC, Z; ring|apply Qeqb_neq; rewrite SC; intro C; now apply (mul_nz q HQ) in Z]. }
    rewrite Z. destruct (mode_eqb (r_mode r) m && negb (Qeqb (freq f (r_id r)) 0))%bool; cbn [bind] in *; [|eauto].
    apply bind_ok in H. destruct H as (s1 & E1 & H). apply bind_ok in E1. destruct E1 as (s2 & E2 & E1). unfold seq_freq in *.
    destruct (seq_freq_ray q a (m_d m) _ _ (SC (r_id r)) _ _ _ _ E0 E2) as (s2' & -> & Q2). cbn [bind]. destruct (seq_freq_ray q a (m_d m) _ _ (SC (r_id r)) _ _ _ _ Q2 E1) as (s1' & -> & Q1). cbn [bind]. eauto. }
  destruct (A rs 0 0 s ltac:(ring) Es) as (s' & -> & Q'). cbn [bind]. eexists. split; [reflexivity|]. rewrite Q'. ring.
Qed.

(** The first constraints, one for each line, are load - capacity, and the load is divided by q; the others, one for
    each street and mode, are frequency on the street - largest frequency of the mode, and the first is multiplied
    by q.  So more frequency never breaks a constraint on loads and less never breaks one on frequencies. *)
Theorem C77_constraints : forall B fg o x f con, new_optimizer B fg = Ok o -> NoDup (map r_id (pb_routes B)) -> fopt_to_f (o_pos o) x = Ok f -> loaded B f o -> get_constrains o x = Ok con ->
  forall q, 0 < q -> exists (L : list (route * Q * Q)) (S : list (mode * Q * Q)),
    con = map (fun t => snd (fst t)) L ++ map (fun t => snd (fst t)) S /\
    get_constrains o (map (Qmult q) x) = Ok (map snd L ++ map snd S) /\
    map (fun t => fst (fst t)) L = pb_routes B /\
    map (fun t => fst (fst t)) S = concat (map (fun _ => nw_modes (pb_net B)) (edge_pairs (pb_graph B))) /\
    (forall r y y', In (r, y, y') L -> y' + m_kmax (r_mode r) == (y + m_kmax (r_mode r)) / q) /\
    (forall m y y', In (m, y, y') S -> y' + m_fmax m / m_d m == q * (y + m_fmax m / m_d m)).
Proof.
  intros B fg o x f con Ho ND Hf LD H q HQ. destruct (new_optimizer_attrs _ _ _ Ho) as (Hb & _). unfold get_constrains in *. rewrite Hf in H. cbn [bind] in H. rewrite Hb in *.
  apply bind_ok in H. destruct H as (t & Et & H). apply bind_ok in H. destruct H as (F & EF & H). injection H as <-.
  destruct (vector_ray _ _ _ _ _ q Ho ND Hf) as (f' & Ef' & SC). destruct (tables_ray _ _ _ _ _ Ho LD HQ _ _ SC Et) as (t' & Et' & DZ & DV & DL). rewrite Ef'. cbn [bind]. rewrite Et'. cbn [bind].
  assert (LR : forall r, load t' r == load t r / q) by (intro r; apply div_of; auto; exact (load_ray _ _ _ _ _ _ _ _ _ HQ Et Et' DL r)).
  unfold fmax_constrains in *. apply bind_ok in EF. destruct EF as (LL & EL & EF). injection EF as <-.
  assert (S3 : exists S : list (mode * Q * Q), concat LL = map (fun t => snd (fst t)) S /\ (exists LL', mapM (fun a => mapM (edge_mode_constrain (pb_routes B) f' a) (nw_modes (pb_net B))) (edge_pairs (pb_graph B)) = Ok LL' /\ concat LL' = map snd S) /\
    map (fun t => fst (fst t)) S = concat (map (fun _ => nw_modes (pb_net B)) (edge_pairs (pb_graph B))) /\ (forall m y y', In (m, y, y') S -> y' + m_fmax m / m_d m == q * (y + m_fmax m / m_d m))).
  { clear Et Et' DZ DV DL LR LD. revert LL EL. induction (edge_pairs (pb_graph B)) as [|a l IH]; intros LL EL; cbn [mapM] in *.
    - injection EL as <-. exists []. split; [reflexivity|]. split; [exists []; auto|]. split; [reflexivity|]. intros m y y' [].
    - apply bind_ok in EL. destruct EL as (ys & E1 & EL). apply bind_ok in EL. destruct EL as (LL1 & E2 & EL). injection EL as <-. destruct (IH LL1 E2) as (S1 & A1 & (LL' & A2 & A3) & A4 & A5).
      destruct (mapM_pairs _ (edge_mode_constrain (pb_routes B) f' a) (fun m y y' => y' + m_fmax m / m_d m == q * (y + m_fmax m / m_d m)) _ _ E1) as (T & T1 & T2 & T3 & T4); [intros m y _ Em; exact (edge_mode_ray q f f' _ a m y HQ SC Em)|].
      exists (T ++ S1). rewrite T3. cbn [bind]. rewrite A2. cbn [bind]. cbn [concat map]. rewrite !map_app. split; [congruence|]. split; [eexists; split; [reflexivity|]; cbn [concat]; congruence|]. split; [congruence|].
      intros m y y' Hin. apply in_app_iff in Hin. destruct Hin; eauto. }
  destruct S3 as (S & S1 & (LL' & S2 & S2') & S3 & S4). rewrite S2. cbn [bind].
  exists (map (fun r => (r, load t (r_id r) - m_kmax (r_mode r), load t' (r_id r) - m_kmax (r_mode r))) (pb_routes B)), S. rewrite !map_map. cbn [fst snd]. split; [rewrite S1; reflexivity|]. split; [rewrite S2'; reflexivity|]. split; [apply map_id|]. split; [exact S3|]. split; [|exact S4].
  intros r y y' Hin. apply in_map_iff in Hin. destruct Hin as (r0 & E & _). injection E as -> <- <-. rewrite LR. field. intro Z. rewrite Z in HQ. discriminate.
Qed.

Lemma nth_error_map' {A C} (h : A -> C) : forall l i y, nth_error (map h l) i = Some y -> exists a, nth_error l i = Some a /\ h a = y.
Proof. induction l as [|a l IH]; intros [|i] y H; cbn in *; try discriminate; [injection H as <-; eauto|auto]. Qed.
(** In particular: at q >= 1 the constraints on loads that held still hold, at q <= 1 those on frequencies do. *)
Theorem C77_feasible : forall B fg o x f con, new_optimizer B fg = Ok o -> NoDup (map r_id (pb_routes B)) -> fopt_to_f (o_pos o) x = Ok f -> loaded B f o -> get_constrains o x = Ok con ->
  (forall r, In r (pb_routes B) -> 0 <= m_kmax (r_mode r)) -> (forall m, In m (nw_modes (pb_net B)) -> 0 <= m_fmax m / m_d m) ->
  forall q, 0 < q -> exists con', get_constrains o (map (Qmult q) x) = Ok con' /\ length con' = length con /\
    forall i y y', nth_error con i = Some y -> nth_error con' i = Some y' -> y <= 0 ->
      ((i < length (pb_routes B))%nat -> 1 <= q -> y' <= 0) /\ ((length (pb_routes B) <= i)%nat -> q <= 1 -> y' <= 0).
Proof.
  intros B fg o x f con Ho ND Hf LD H HK HF q HQ. destruct (C77_constraints _ _ _ _ _ _ Ho ND Hf LD H q HQ) as (L & S & -> & E & LB & SB & LL & SS). eexists. split; [exact E|].
  assert (N : length L = length (pb_routes B)) by (rewrite <- LB; now rewrite map_length). split; [now rewrite !app_length, !map_length|]. intros i y y' Hi Hi' Hy. rewrite <- N. split; intros Hl Hq.
  - rewrite nth_error_app1 in Hi, Hi' by now rewrite map_length. apply nth_error_map' in Hi, Hi'. destruct Hi as ([[r z] z'] & I & <-). destruct Hi' as (w & I' & <-). rewrite I in I'. injection I' as <-. cbn [fst snd] in *.
    apply nth_error_In in I. pose proof (LL _ _ _ I) as R1. assert (Hr : In r (pb_routes B)) by (rewrite <- LB; exact (in_map (fun t => fst (fst t)) _ _ I)). specialize (HK r Hr).
    assert (D : (z + m_kmax (r_mode r)) / q <= m_kmax (r_mode r)); [|lra]. apply Qle_shift_div_r; auto. nra.
  - rewrite nth_error_app2 in Hi, Hi' by (rewrite map_length; auto). rewrite map_length in Hi, Hi'. apply nth_error_map' in Hi, Hi'. destruct Hi as ([[m z] z'] & I & <-). destruct Hi' as (w & I' & <-). rewrite I in I'. injection I' as <-. cbn [fst snd] in *.
    apply nth_error_In in I. pose proof (SS _ _ _ I) as R1. assert (Hm : In m (nw_modes (pb_net B))). { pose proof (in_map (fun t => fst (fst t)) _ _ I) as J. rewrite SB in J. apply in_concat in J. destruct J as (l & J & K). apply in_map_iff in J. destruct J as (_ & <- & _). exact K. }
    specialize (HF m Hm). nra.
Qed.

(** ** Example *)
Example C77_ex : exists o c f t ltt ct u u0, new_optimizer ex_B (Some ex_ff) = Ok o /\ NoDup (map r_id (pb_routes ex_B)) /\ VRC o [10; 20] = Ok c /\
  (forall f, fopt_to_f (o_pos o) [10; 20] = Ok f -> loaded ex_B f o) /\
  (forall r, In r (pb_routes ex_B) -> 0 < m_v (r_mode r) /\ 0 <= m_co (r_mode r)) /\ (forall p, 0 <= geo_sqrt (pb_geo ex_B) p) /\
  evaluated ex_B o [10; 20] f t ltt ct u u0 /\
  0 < moving_cost (pb_routes ex_B) f ltt /\ 0 < falling_cost ex_B f ltt ct (load t) u u0 /\ 0 < constant_cost ex_B f ltt ct (load t) u u0 /\
  ~ moving_cost (pb_routes ex_B) f ltt == falling_cost ex_B f ltt ct (load t) u u0.
Proof.
  destruct C58_value_ex as (o & c & dist & Eo & Ec & _ & ND & _ & _ & _ & _ & _ & _ & LD & _). exists o, c.
  assert (A : exists o f t ltt ct u u0, new_optimizer ex_B (Some ex_ff) = Ok o /\ evaluated ex_B o [10; 20] f t ltt ct u u0 /\
    0 < moving_cost (pb_routes ex_B) f ltt /\ 0 < falling_cost ex_B f ltt ct (load t) u u0 /\ 0 < constant_cost ex_B f ltt ct (load t) u u0 /\ ~ moving_cost (pb_routes ex_B) f ltt == falling_cost ex_B f ltt ct (load t) u u0).
  { do 7 eexists. split; [vm_compute; reflexivity|]. unfold evaluated. split; [split; [vm_compute; reflexivity|]; do 4 (split; [vm_compute; reflexivity|]); vm_compute; reflexivity|]. do 3 (split; [vm_compute; reflexivity|]). vm_compute. discriminate. }
  destruct A as (o1 & f & t & ltt & ct & u & u0 & Eo1 & A). assert (o1 = o) by congruence. subst o1. exists f, t, ltt, ct, u, u0. destruct (new_optimizer_attrs _ _ _ Eo) as (_ & _ & _ & Hp & _).
  split; [exact Eo|]. split; [exact ND|]. split; [exact Ec|]. split; [rewrite Hp; exact LD|]. split; [intros r [<-|[<-|[]]]; (split; [reflexivity|discriminate])|]. split; [|exact A]. exact Props_Hyper.ex_sqrt_nonneg.
Qed.

Example C77_constraints_ex : exists o f con, new_optimizer ex_B (Some ex_ff) = Ok o /\ fopt_to_f (o_pos o) [10; 20] = Ok f /\ loaded ex_B f o /\ get_constrains o [10; 20] = Ok con /\ (2 < length con)%nat /\
  (forall r, In r (pb_routes ex_B) -> 0 <= m_kmax (r_mode r)) /\ (forall m, In m (nw_modes (pb_net ex_B)) -> 0 <= m_fmax m / m_d m) /\ nth 0 con 0 < 0 /\ nth 2 con 0 < 0.
Proof.
  destruct C77_ex as (o & c & f & t & ltt & ct & u & u0 & Eo & _ & _ & LD & _).
  assert (A : exists o f con, new_optimizer ex_B (Some ex_ff) = Ok o /\ fopt_to_f (o_pos o) [10; 20] = Ok f /\ get_constrains o [10; 20] = Ok con /\ (2 < length con)%nat /\ nth 0 con 0 < 0 /\ nth 2 con 0 < 0).
  { do 3 eexists. do 3 (split; [vm_compute; reflexivity|]). split; [vm_compute; repeat constructor|]. split; vm_compute; reflexivity. }
  destruct A as (o1 & f1 & con & Eo1 & Ef & Ec & A1 & A2 & A3). assert (o1 = o) by congruence. subst o1. exists o, f1, con. split; [exact Eo|]. split; [exact Ef|]. split; [auto|]. split; [exact Ec|]. split; [exact A1|].
  split; [intros r [<-|[<-|[]]]; vm_compute; discriminate|]. split; [|auto]. intros m [<-|[]]; vm_compute; discriminate.
Qed.

Print Assumptions C77_vehicles.
Print Assumptions C77_ray.
Print Assumptions C77_best.
Print Assumptions C77_constraints.
Print Assumptions C77_feasible.
