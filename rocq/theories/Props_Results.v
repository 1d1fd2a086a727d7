(** * Props_Results: C54 to C56 and C58, the results of an optimisation (optimizer.py 201-219, 492-822) *)
From Coq Require Import String List ZArith QArith Qabs Bool Lia Lqa Qfield.
From Verif Require Import PyBase PyFacts Graph GeoEx Demand Mode Route Network RouteSpec RouteProofs ExtGraph ExtSpec ExtProofs Hyperpath HyperSpec Assignment AssignSpec FlowSpec TableProofs FlowProofs Costs UsersCost UsersSpec CostSpec
  Props_Ext Props_Hyper Props_Network Props_Assign Props_Flow Props_Cost Props_Users Optimizer OptSpec Results ResultsSpec Props_Opt.
Import ListNotations.
Local Open Scope Q_scope.

(** ** The tables are only read through their values *)
Definition same_values (t t' : tab) : Prop := forall r d s, tget t r d s = tget t' r d s.
Lemma foldM_ext {A S} (h h' : S -> A -> res S) : (forall s x, h s x = h' s x) -> forall l s, foldM h l s = foldM h' l s.
Proof. intro H. induction l as [|x l IH]; intro s; cbn [foldM]; auto. rewrite H. destruct (h' s x); cbn [bind]; auto. Qed.
Lemma fold_left_ext {A S} (h h' : S -> A -> S) : (forall s x, h s x = h' s x) -> forall l s, fold_left h l s = fold_left h' l s.
Proof. intro H. induction l as [|x l IH]; intro s; cbn [fold_left]; auto. rewrite H. auto. Qed.
Lemma report_tab X f z v z' v' suc dest i j q u : same_values z z' -> same_values v v' -> report X f z v suc dest i j q u = report X f z' v' suc dest i j q u.
Proof.
  intros HZ HV. unfold report. destruct (report_te X f suc i j q u) as [u1|]; cbn [bind]; auto. replace (report_alighting X dest v i j q (report_tv X i j q u1)) with (report_alighting X dest v' i j q (report_tv X i j q u1)).
  2:{ unfold report_alighting. destruct i, j; auto. destruct (rn_prev _); auto. rewrite HV. auto. }
  destruct (report_alighting _ _ _ _ _ _ _) as [u2|]; cbn [bind]; auto. f_equal. apply fold_left_ext. intros w e. unfold report_dwell. destruct i, j, (x_j e); auto. rewrite HZ, HV. auto.
Qed.
Lemma consume_tab X f z v z' v' suc dest : same_values z z' -> same_values v v' -> forall fuel paths u, consume fuel X f z v suc dest paths u = consume fuel X f z' v' suc dest paths u.
Proof.
  intros HZ HV. induction fuel as [|fuel IH]; intros [|[[i j] pax] rest] u; cbn [consume]; auto. destruct (stop_of_dest X dest i); auto. destruct (dis_pax X f suc i j pax) as [q|]; cbn [bind]; auto. rewrite (report_tab X f z v z' v') by auto. destruct (report _ _ _ _ _ _ _ _ _ _); cbn [bind]; auto.
Qed.
Lemma rc_tab fuel X vp f es asg z v z' v' : same_values z z' -> same_values v v' -> resources_consumer fuel X vp f es asg z v = resources_consumer fuel X vp f es asg z' v'.
Proof.
  intros HZ HV. unfold resources_consumer. apply foldM_ext. intros u ea. unfold consume_od. apply foldM_ext. intros u' s. unfold consume_stop. destruct (Qeqb _ 0); auto. destruct (qdiv _ _); cbn [bind]; auto. apply consume_tab; auto.
Qed.
Lemma cycle_same z v rs ltt ct z' v' : tab_wf z -> tab_wf v -> NoDup (map r_id rs) -> get_cycle_time z v rs ltt = (ct, z', v') -> same_values z' z /\ same_values v' v.
Proof. intros WZ WV ND E. destruct (C44_cycle_time _ _ _ _ _ _ _ WZ WV ND E) as [_ A]. split; intros r d s; apply A. Qed.

(** ** C58: the objective *)
(** ** The capacities that get_k returns *)
Lemma most_loaded_nodup l : NoDup (map fst (most_loaded_section l)).
Proof.
  unfold most_loaded_section. assert (A : forall (l : tab) acc, NoDup (map fst acc) -> NoDup (map fst (fold_left (fun acc '(r, rows) => dset String.eqb acc r (fold_left (fun m '(_, row) => fold_left (fun m '(_, q) => if Qltb m q then q else m) row m) rows 0)) l acc))).
  { clear l. induction l as [|[r rows] l IH]; intros acc H; cbn [fold_left]; auto. apply IH. apply (dset_NoDup String.eqb Seqb_spec). auto. }
  apply A. constructor.
Qed.
Lemma get_k_freq l r : freq (get_k l) r = freq (most_loaded_section l) r.
Proof.
  unfold get_k. pose proof (most_loaded_nodup l) as ND. revert ND. generalize (most_loaded_section l). clear l. assert (A : forall (l : fdict) acc, NoDup (map fst l) -> freq (fold_left (fun k '(r, q) => dset String.eqb k r q) l acc) r = match dget String.eqb l r with Some q => q | None => freq acc r end).
  { induction l as [|[x q] l IH]; intros acc ND; cbn [fold_left dget]; auto. cbn [map fst] in ND. inversion ND; subst. rewrite IH by auto. unfold freq. rewrite (dget0_dset String.eqb Seqb_spec). destruct (r =? x)%string eqn:E; auto. apply String.eqb_eq in E. subst x. apply (dget_None String.eqb Seqb_spec) in H1. rewrite H1. auto. }
  intros l ND. rewrite A by auto. reflexivity.
Qed.
Lemma oc_capacity rs ct f k k' : (forall r, freq k r = freq k' r) -> get_operators_cost rs ct f k = get_operators_cost rs ct f k'.
Proof. intro H. unfold get_operators_cost. apply fold_left_ext. intros co r. rewrite H. reflexivity. Qed.

(** VRC at a vector of frequencies is the cost of the operators plus that of the infrastructure plus that of the
    users, at the tables of boardings and alightings of these frequencies; the zeros that the computation of the
    cycle times inserts in the tables do not change it. *)
Theorem C58_objective : forall B fg o x c, new_optimizer B fg = Ok o -> NoDup (map r_id (pb_routes B)) -> VRC o x = Ok c ->
  exists f t ltt cu, fopt_to_f (o_pos o) x = Ok f /\ boardings o f = Ok t /\
    lines_travel_time (pb_routes B) (get_edges_distance (pb_geo B) (pb_graph B)) = Ok ltt /\
    get_users_cost (pb_fuel B) (o_X o) (pb_pass B) f (o_es o) (o_asg o) (t_z t) (t_v t) = Ok cu /\
    c == get_operators_cost (pb_routes B) (fst (fst (get_cycle_time (t_z t) (t_v t) (pb_routes B) ltt))) f (most_loaded_section (t_l t)) +
         get_infrastructure_cost (pb_geo B) (pb_graph B) (pb_net B) f + cu.
Proof.
  intros B fg o x c H ND HV. destruct (new_optimizer_attrs _ _ _ H) as (Hb & _). unfold VRC in HV. apply bind_ok in HV. destruct HV as (f & Ef & HV). apply bind_ok in HV. destruct HV as (t & Et & HV). rewrite Hb in HV. unfold operators_cost in HV. apply bind_ok in HV. destruct HV as (oc & Eoc & HV). apply bind_ok in Eoc. destruct Eoc as (ltt & El & Eoc).
  exists f, t, ltt. destruct (get_cycle_time (t_z t) (t_v t) (pb_routes B) ltt) as [[ct z] v] eqn:EC. inversion Eoc; subst oc. apply bind_ok in HV. destruct HV as (cu & Eu & HV). exists cu. split; auto. split; auto. split; auto.
  destruct (gab_wf _ _ _ _ _ _ Et) as (WZ & WV & _). destruct (cycle_same _ _ _ _ _ _ _ WZ WV ND EC) as [SZ SV]. split.
  - unfold user_cost, get_users_cost in *. rewrite <- (rc_tab _ _ _ _ _ _ z v (t_z t) (t_v t) SZ SV). exact Eu.
  - cbn [fst]. assert (Ec : c = get_operators_cost (pb_routes B) ct f (get_k (t_l t)) + infrastructure_cost B f + cu) by congruence. rewrite Ec, (oc_capacity _ _ _ _ _ (get_k_freq (t_l t))). reflexivity.
Qed.
Print Assumptions C58_objective.
Example C58_ex : exists o c, new_optimizer ex_B None = Ok o /\ VRC o [10; 20] = Ok c /\ 0 < c.
Proof. eexists. eexists. split; [vm_compute; reflexivity|]. split; vm_compute; reflexivity. Qed.

(** ** C55: the overall results *)
Lemma mode_eqb_ref a b : mode_eqb a b = true <-> m_ref a = m_ref b.
Proof. unfold mode_eqb. apply Z.eqb_eq. Qed.
Lemma dset_mode {V} (D : list (mode * V)) m v : NoDup (map (fun p => m_ref (fst p)) D) ->
  NoDup (map (fun p => m_ref (fst p)) (dset mode_eqb D m v)) /\
  (forall m' v', In (m', v') (dset mode_eqb D m v) -> (m_ref m' = m_ref m /\ v' = v) \/ (In (m', v') D /\ m_ref m' <> m_ref m)) /\
  (forall x, In x (map (fun p => m_ref (fst p)) (dset mode_eqb D m v)) <-> x = m_ref m \/ In x (map (fun p => m_ref (fst p)) D)).
Proof.
  induction D as [|[k w] D IH]; intro ND; cbn [dset map].
  - split; [constructor; auto; constructor|]. split; [intros m' v' [E|[]]; inversion E; subst; auto|intro x; cbn; intuition congruence].
  - cbn [map fst] in ND. inversion ND; subst. destruct (mode_eqb m k) eqn:E; unfold mode_eqb in E.
    + apply Z.eqb_eq in E. cbn [map fst]. split; [auto|]. split.
      * intros m' v' [Q|Q]; [inversion Q; subst; auto|]. right. split; [right; auto|]. intro C. apply H1. rewrite <- E, <- C. apply (in_map (fun p => m_ref (fst p)) D (m', v')). auto.
      * intro x. cbn [map fst In]. rewrite E. clear. split; [intros [->|H]; auto|intros [->|[->|H]]; auto].
    + apply Z.eqb_neq in E. destruct (IH H2) as (A & B & C). cbn [map fst]. split; [|split].
      * constructor; auto. rewrite C. intros [Q|Q]; [congruence|auto].
      * intros m' v' [Q|Q]; [inversion Q; subst; right; split; [left; auto|congruence]|]. destruct (B _ _ Q) as [Q'|[Q' N]]; auto. right. split; [right; auto|auto].
      * intro x. cbn. rewrite C. intuition congruence.
Qed.
Lemma dget_mode {V} (dflt : V) (D : list (mode * V)) m : (exists m' v, In (m', v) D /\ m_ref m' = m_ref m /\ dget0 mode_eqb dflt D m = v) \/ (~ In (m_ref m) (map (fun p => m_ref (fst p)) D) /\ dget0 mode_eqb dflt D m = dflt).
Proof.
  unfold dget0. induction D as [|[k w] D IH]; cbn [dget map fst]; [right; auto|]. destruct (mode_eqb m k) eqn:E; unfold mode_eqb in E.
  - apply Z.eqb_eq in E. left. exists k, w. split; [left; auto|auto].
  - apply Z.eqb_neq in E. destruct IH as [(m' & v & H1 & H2 & H3)|[H1 H2]]; [left; exists m', v; split; [right; auto|auto]|]. right. split; auto. intros [Q|Q]; [congruence|auto].
Qed.
(** grouping by mode *)
Definition group {V} (dflt : V) (upd : V -> route -> V) (act : route -> bool) (rs : list route) : list (mode * V) :=
  fold_left (fun D r => if act r then dset mode_eqb D (r_mode r) (upd (dget0 mode_eqb dflt D (r_mode r)) r) else D) rs [].
Lemma group_spec {V} (dflt : V) upd act : forall rs, let D := group dflt upd act rs in
  NoDup (map (fun p => m_ref (fst p)) D) /\
  (forall x, In x (map (fun p => m_ref (fst p)) D) <-> exists r, In r rs /\ act r = true /\ m_ref (r_mode r) = x) /\
  (forall m v, In (m, v) D -> v = fold_left upd (filter (fun r => act r && (m_ref (r_mode r) =? m_ref m)%Z) rs) dflt).
Proof.
  intro rs. cbn zeta. induction rs as [|r rs IH] using rev_ind.
  - cbn. split; [constructor|]. split; [intro x; split; [intros []|intros (r & [] & _)]|intros m v []].
  - destruct IH as (A & B & C). unfold group. rewrite fold_left_app. cbn [fold_left]. fold (group dflt upd act rs). destruct (act r) eqn:Ea.
    + destruct (dset_mode (group dflt upd act rs) (r_mode r) (upd (dget0 mode_eqb dflt (group dflt upd act rs) (r_mode r)) r) A) as (A' & B' & C'). split; [exact A'|]. split.
      * intro x. rewrite C', B. split.
        -- intros [->|(r' & H1 & H2 & H3)]; [exists r|exists r']; rewrite in_app_iff; split; auto; right; left; auto.
        -- intros (r' & H1 & H2 & H3). apply in_app_iff in H1. destruct H1 as [H1|[<-|[]]]; [right; eauto|left; auto].
      * intros m v H. rewrite filter_app, fold_left_app. cbn [filter]. rewrite Ea. cbn [andb]. destruct (B' _ _ H) as [[E ->]|[H' N]].
        -- rewrite E, Z.eqb_refl. cbn [fold_left]. f_equal. destruct (dget_mode dflt (group dflt upd act rs) (r_mode r)) as [(m' & w & H1 & H2 & H3)|[H1 H2]].
           ++ rewrite H3. rewrite <- H2. apply C. auto.
           ++ rewrite H2. rewrite (filter_none _ rs); [reflexivity|]. intros r' Hr'. destruct (act r') eqn:Ea'; auto. apply Z.eqb_neq. intro Q. apply H1. apply B. eauto.
        -- destruct (m_ref (r_mode r) =? m_ref m)%Z eqn:Q; [apply Z.eqb_eq in Q; congruence|]. cbn [fold_left]. apply C. auto.
    + split; [exact A|]. split.
      * intro x. rewrite B. split; intros (r' & H1 & H2 & H3); exists r'; [rewrite in_app_iff; auto|]. apply in_app_iff in H1. destruct H1 as [H1|[<-|[]]]; [auto|congruence].
      * intros m v H. rewrite filter_app. cbn [filter]. rewrite Ea. cbn [andb]. rewrite app_nil_r. apply C. auto.
Qed.
Lemma by_mode_group rs f k ct :
  by_mode rs f k ct = (group 0 (fun q r => q + freq f (r_id r) * freq ct (r_id r)) (fun r => Qltb 0 (freq f (r_id r))) rs,
    group 0 (fun q r => q + m_d (r_mode r)) (fun r => Qltb 0 (freq f (r_id r))) rs,
    group [] (fun l r => l ++ [freq k (r_id r)]) (fun r => Qltb 0 (freq f (r_id r))) rs).
Proof.
  induction rs as [|r rs IH] using rev_ind; [reflexivity|]. unfold by_mode, group in *. rewrite !fold_left_app. cbn [fold_left]. rewrite IH. destruct (Qltb 0 (freq f (r_id r))); reflexivity.
Qed.
Lemma fold_sum {A} (h : A -> Q) : forall l q, fold_left (fun q r => q + h r) l q == q + Qsumf h l.
Proof. induction l as [|x l IH]; intro q; cbn [fold_left]; [unfold Qsumf; cbn; ring|]. rewrite IH, Qsumf_cons. ring. Qed.
Lemma fold_snoc {A C} (h : A -> C) : forall l q, fold_left (fun q r => q ++ [h r]) l q = q ++ map h l.
Proof. induction l as [|x l IH]; intro q; cbn [fold_left map]; [rewrite app_nil_r; auto|]. rewrite IH, <- app_assoc. reflexivity. Qed.
Lemma group_modes {V} (dflt : V) upd rs f (D := group dflt upd (fun r => Qltb 0 (freq f (r_id r))) rs) :
  NoDup (map (fun p => m_ref (fst p)) D) /\ (forall m, (exists p, In p D /\ m_ref (fst p) = m_ref m) <-> (exists r, In r (running rs f m))) /\
  (forall m v, In (m, v) D -> v = fold_left upd (running rs f m) dflt).
Proof.
  destruct (group_spec dflt upd (fun r => Qltb 0 (freq f (r_id r))) rs) as (A & B & C). split; [exact A|]. split; [|exact C].
  intro m. specialize (B (m_ref m)). rewrite in_map_iff in B. unfold running. split.
  - intros (p & H1 & H2). destruct B as [B _]. destruct B as (r & R1 & R2 & R3); [exists p; auto|]. exists r. apply filter_In. rewrite R2, R3, Z.eqb_refl. auto.
  - intros (r & H). apply filter_In in H. destruct H as [H1 H2]. apply andb_true_iff in H2. destruct H2 as [H2 H3]. apply Z.eqb_eq in H3. destruct B as [_ B]. destruct B as (p & P1 & P2); [exists r; auto|]. exists p. auto.
Qed.
Lemma mapM_mean : forall (D : list (mode * list Q)) K, mapM (fun '(m, l) => let* q := mean l in Ok (m, q)) D = Ok K ->
  map fst K = map fst D /\ forall m q, In (m, q) K -> exists l, In (m, l) D /\ mean l = Ok q.
Proof.
  induction D as [|[m l] D IH]; intros K H; cbn [mapM] in H.
  - assert (K = []) by congruence. subst. split; auto. intros m q [].
  - apply bind_ok in H. destruct H as (p & E & H). apply bind_ok in E. destruct E as (q & Eq & E). apply bind_ok in H. destruct H as (K' & EK & H). assert (p = (m, q)) by congruence. assert (K = p :: K') by congruence. subst K p. destruct (IH _ EK) as [A B]. cbn [map fst]. split; [congruence|].
    intros m' q' [Q|Q]; [inversion Q; subst; exists l; split; [left|]; auto|]. destruct (B _ _ Q) as (l' & H1 & H2). exists l'. split; [right|]; auto.
Qed.
Lemma cycle_again z v rs ltt ct z' v' ct2 z2 v2 : tab_wf z -> tab_wf v -> NoDup (map r_id rs) -> get_cycle_time z v rs ltt = (ct, z', v') -> get_cycle_time z' v' rs ltt = (ct2, z2, v2) ->
  forall r, In r rs -> freq ct2 (r_id r) == freq ct (r_id r).
Proof.
  intros WZ WV ND E E2 r Hr. destruct (cycle_fold z v ltt rs [] z v (read_refl _ _ WZ) (read_refl _ _ WV) ND) as (ct1 & z1 & v1 & E1 & RZ & RV & _ & A). assert (EE : (ct, z', v') = (ct1, z1, v1)) by (etransitivity; [symmetry; exact E|exact E1]). inversion EE; subst ct1 z1 v1.
  destruct (C44_cycle_time z' v' rs ltt ct2 z2 v2 (ro_wf _ _ _ RZ) (ro_wf _ _ _ RV) ND E2) as [A2 _].
  destruct (covers_exists z v (r_id r)) as (S & HS). rewrite (A2 r S Hr (covers_read _ _ _ _ _ _ RZ RV HS)), (A r S Hr HS). apply Qplus_comp; [reflexivity|]. apply Qmult_comp; [reflexivity|]. unfold dwell. rewrite !Qsumf_two.
  apply Qplus_comp; apply Qsumf_ext; intros s _; unfold stop_dwell; rewrite (ro_get _ _ _ RZ), (ro_get _ _ _ RV); reflexivity.
Qed.
(** The overall results of a solution: the cost per trip is the sum of its three parts; multiplied by the number
    of trips, it is the objective at the solution, its parts are the costs of the operators, of the
    infrastructure and of the users, and the times are those that the users consume, in minutes. Vehicles, lines
    and capacities are given for the modes of the lines that run: the sum of frequency times cycle time, the sum
    of the parallel lines, and the mean of the capacities. *)
Theorem C55_overall : forall B fg o e R, new_optimizer B fg = Ok o -> NoDup (map r_id (pb_routes B)) -> get_overall_results o (Some e) = Ok R ->
  let T := dm_total (pb_demand B) in
  exists f o' t ltt u c, fopt_to_f (map r_id (pb_routes B)) (e_x e) = Ok f /\ new_optimizer B (Some f) = Ok o' /\ boardings o' f = Ok t /\ VRC o' (e_x e) = Ok c /\
    lines_travel_time (pb_routes B) (get_edges_distance (pb_geo B) (pb_graph B)) = Ok ltt /\
    resources_consumer (pb_fuel B) (o_X o') (q_va (pb_pass B)) f (o_es o') (o_asg o') (t_z t) (t_v t) = Ok u /\
    let ct := fst (fst (get_cycle_time (t_z t) (t_v t) (pb_routes B) ltt)) in
    ~ T == 0 /\ ov_vrc R == ov_co R + ov_ci R + ov_cu R /\ T * ov_vrc R == c /\
    T * ov_co R == get_operators_cost (pb_routes B) ct f (most_loaded_section (t_l t)) /\
    T * ov_ci R == get_infrastructure_cost (pb_geo B) (pb_graph B) (pb_net B) f /\
    T * ov_cu R == q_spa (pb_pass B) * u_ta u + q_spw (pb_pass B) * u_te u + q_spv (pb_pass B) * (u_tv u + u_t u * q_spt (pb_pass B) / 60) /\
    T * ov_tv R == 60 * u_tv u /\ T * ov_te R == 60 * u_te u /\ T * ov_ta R == 60 * u_ta u /\ T * ov_t R == u_t u /\
    per_mode (pb_routes B) f (fun m q => q == Qsumf (fun r => freq f (r_id r) * freq ct (r_id r)) (running (pb_routes B) f m)) (ov_B R) /\
    per_mode (pb_routes B) f (fun m q => q == Qsumf (fun r => m_d (r_mode r)) (running (pb_routes B) f m)) (ov_L R) /\
    per_mode (pb_routes B) f (fun m q => Qofnat (length (running (pb_routes B) f m)) * q == Qsumf (fun r => freq (most_loaded_section (t_l t)) (r_id r)) (running (pb_routes B) f m)) (ov_K R).
Proof.
  intros B fg o e R H ND HR T. destruct (new_optimizer_attrs _ _ _ H) as (Hb & _ & _ & Hp & _). unfold get_overall_results in HR. apply bind_ok in HR. destruct HR as ([[[o' f] t] k] & EL & HR). unfold last_iteration in EL. apply bind_ok in EL. destruct EL as (f' & Ef & EL). apply bind_ok in EL. destruct EL as (o1 & Eo & EL). apply bind_ok in EL. destruct EL as (t1 & Et & EL).
  injection EL as -> -> -> <-. rewrite Hb in *. rewrite Hp in Ef. destruct (new_optimizer_attrs _ _ _ Eo) as (Hb' & _ & _ & Hp' & _). rewrite Hb' in *.
  apply bind_ok in HR. destruct HR as ([[co z] v] & Eoc & HR). apply bind_ok in HR. destruct HR as (cu & Ecu & HR). apply bind_ok in HR. destruct HR as (u & Eu & HR). apply bind_ok in HR. destruct HR as (ltt & El & HR).
  exists f, o', t, ltt, u, (co + infrastructure_cost B f + cu). split; auto. split; auto. split; auto. split; [|split; [exact El|]].
  { unfold VRC. rewrite Hp', Ef. cbn [bind]. rewrite Et. cbn [bind]. rewrite Hb', Eoc. cbn [bind]. rewrite Ecu. reflexivity. }
  unfold operators_cost in Eoc. rewrite El in Eoc. cbn [bind] in Eoc. destruct (get_cycle_time (t_z t) (t_v t) (pb_routes B) ltt) as [[ct z1] v1] eqn:EC. injection Eoc as <- -> ->.
  destruct (gab_wf _ _ _ _ _ _ Et) as (WZ & WV & _). destruct (cycle_same _ _ _ _ _ _ _ WZ WV ND EC) as [SZ SV]. split; [rewrite <- (rc_tab _ _ _ _ _ _ z v (t_z t) (t_v t) SZ SV); exact Eu|]. cbn [fst].
  destruct (get_cycle_time z v (pb_routes B) ltt) as [[ct2 z2] v2] eqn:EC2. rewrite by_mode_group in HR.
  pose proof (cycle_again _ _ _ _ _ _ _ _ _ _ WZ WV ND EC EC2) as CA. apply bind_ok in HR. destruct HR as (K & EK & HR).
  unfold user_cost, get_users_cost in Ecu. rewrite Eu in Ecu. cbn [bind] in Ecu. assert (Ecu' : cu = users_cost (pb_pass B) u) by congruence. clear Ecu. subst cu. unfold infrastructure_cost in *.
  do 8 (try clear NT; apply bind_ok in HR; let q := fresh "q" in let E := fresh "E" in destruct HR as (q & E & HR); apply qdiv_inv in E; destruct E as [NT E]; fold T in NT, E). assert (ER := f_equal (fun r => match r with Ok x => x | Err _ => R end) HR). cbn in ER. clear HR. subst R. cbn [ov_vrc ov_co ov_ci ov_cu ov_tv ov_te ov_ta ov_t ov_B ov_K ov_L].
  split; [exact NT|]. clear Hb Hb' Hp Hp'. subst. unfold users_cost. rewrite !(oc_capacity _ _ _ _ _ (get_k_freq (t_l t))). split; [field; auto|]. do 8 (split; [field; auto|]). split; [|split].
  - destruct (group_modes 0 (fun q r => q + freq f (r_id r) * freq ct2 (r_id r)) (pb_routes B) f) as (G1 & G2 & G3). split; [exact G1|]. split; [exact G2|]. intros m q Hq. rewrite (G3 _ _ Hq), (fold_sum (fun r => freq f (r_id r) * freq ct2 (r_id r))). rewrite Qplus_0_l. apply Qsumf_ext. intros r Hr. rewrite CA; [reflexivity|]. apply filter_In in Hr. tauto.
  - destruct (group_modes 0 (fun q r => q + m_d (r_mode r)) (pb_routes B) f) as (G1 & G2 & G3). split; [exact G1|]. split; [exact G2|]. intros m q Hq. rewrite (G3 _ _ Hq), (fold_sum (fun r => m_d (r_mode r))). rewrite Qplus_0_l. reflexivity.
  - destruct (group_modes [] (fun l r => l ++ [freq (get_k (t_l t)) (r_id r)]) (pb_routes B) f) as (G1 & G2 & G3). destruct (mapM_mean _ _ EK) as [M1 M2]. set (D := group _ _ _ _) in *.
    assert (MR : map (fun p => m_ref (fst p)) K = map (fun p => m_ref (fst p)) D). { rewrite <- (map_map fst m_ref K), <- (map_map fst m_ref D), M1. reflexivity. }
    split; [rewrite MR; exact G1|]. split.
    + intro m. rewrite <- G2. assert (A : forall (W : Type) (L : list (mode * W)), (exists p, In p L /\ m_ref (fst p) = m_ref m) <-> In (m_ref m) (map (fun p => m_ref (fst p)) L)). { intros W L. rewrite in_map_iff. split; intros (p & H1 & H2); exists p; auto. }
      rewrite !A, MR. reflexivity.
    + intros m q Hq. destruct (M2 _ _ Hq) as (l & Hl & E). rewrite (G3 _ _ Hl), fold_snoc in E. cbn [app] in E. unfold mean in E. apply qdiv_inv in E. destruct E as [NE E]. rewrite map_length in *. subst q. rewrite (fold_sum (fun x => x)). rewrite Qsumf_map. rewrite (Qsumf_ext (fun r => freq (get_k (t_l t)) (r_id r)) (fun r => freq (most_loaded_section (t_l t)) (r_id r))) by (intros; rewrite get_k_freq; reflexivity). field. auto.
Qed.
Print Assumptions C55_overall.
Lemma mapM_ok {A C} (h : A -> res C) : forall l, (forall x, In x l -> exists y, h x = Ok y) -> exists l', mapM h l = Ok l'.
Proof.
  induction l as [|x l IH]; intro H; cbn [mapM]; [eauto|]. destruct (H x (or_introl eq_refl)) as (y & ->). destruct IH as (l' & ->); [intros; apply H; right; auto|]. cbn [bind]. eauto.
Qed.
(** They can be computed exactly when there are trips and the objective can be evaluated at the solution. *)
Theorem C55_defined : forall B fg o e f o', new_optimizer B fg = Ok o -> NoDup (map r_id (pb_routes B)) ->
  fopt_to_f (map r_id (pb_routes B)) (e_x e) = Ok f -> new_optimizer B (Some f) = Ok o' ->
  ((exists R, get_overall_results o (Some e) = Ok R) <-> ~ dm_total (pb_demand B) == 0 /\ exists c, VRC o' (e_x e) = Ok c).
Proof.
  intros B fg o e f o' H ND Ef Eo. split.
  - intros (R & HR). destruct (C55_overall _ _ _ _ _ H ND HR) as (f1 & o1 & t & ltt & u & c & A1 & A2 & _ & A3 & _ & _ & NT & _). assert (f1 = f) by congruence. subst f1. assert (o1 = o') by congruence. subst o1. eauto.
  - intros [NT (c & Hc)]. destruct (new_optimizer_attrs _ _ _ H) as (Hb & _ & _ & Hp & _). destruct (new_optimizer_attrs _ _ _ Eo) as (Hb' & _ & _ & Hp' & _). unfold VRC in Hc. rewrite Hp', Ef in Hc. cbn [bind] in Hc. apply bind_ok in Hc. destruct Hc as (t & Et & Hc). rewrite Hb' in Hc. apply bind_ok in Hc. destruct Hc as ([[co z] v] & Eoc & Hc). apply bind_ok in Hc. destruct Hc as (cu & Ecu & _).
    unfold get_overall_results, last_iteration. rewrite Hp, Ef. cbn [bind]. rewrite Hb, Eo. cbn [bind]. rewrite Et. cbn [bind]. rewrite Hb', Eoc. cbn [bind]. rewrite Ecu. cbn [bind]. unfold user_cost, get_users_cost in Ecu. apply bind_ok in Ecu. destruct Ecu as (u & Eu & _). rewrite Eu. cbn [bind].
    unfold operators_cost in Eoc. apply bind_ok in Eoc. destruct Eoc as (ltt & El & _). rewrite El. cbn [bind]. destruct (get_cycle_time z v (pb_routes B) ltt) as [[ct2 z2] v2]. rewrite by_mode_group.
    destruct (group_modes [] (fun l r => l ++ [freq (get_k (t_l t)) (r_id r)]) (pb_routes B) f) as (G1 & G2 & G3). set (D := group [] _ _ _) in *.
    destruct (mapM_ok (fun '(m, l) => let* q := mean l in Ok (m, q)) D) as (K & EK).
    { intros [m l] Hm. pose proof (G3 _ _ Hm) as El'. rewrite fold_snoc in El'. cbn [app] in El'. destruct (proj1 (G2 m)) as (r & Hr); [exists (m, l); auto|]. unfold mean. rewrite PyFacts.qdiv_ok; [cbn [bind]; eauto|]. rewrite El', map_length. destruct (running (pb_routes B) f m); [contradiction|]. cbn [length]. apply Qnot_eq_sym. apply Qlt_not_eq. apply Qofnat_pos. lia. }
    rewrite EK. cbn [bind]. do 8 (rewrite PyFacts.qdiv_ok by auto; cbn [bind]). eauto.
Qed.
Print Assumptions C55_defined.
(** Without demand the solution found cannot be reported: the costs are divided by the number of trips
    (optimizer.py 811). *)
Theorem C55_no_trips_refuted : exists B o e c, new_optimizer B None = Ok o /\ pb_demand B = new_demand (g_nodes (pb_graph B)) (p_n (c_params (pb_city B))) /\ acceptable e /\ VRC o (e_x e) = Ok c /\ get_overall_results o (Some e) = Err ZeroDivisionError.
Proof.
  exists (mkProblem ex_geo ex_city (new_demand (g_nodes (c_graph ex_city)) (p_n (c_params ex_city))) ex_P ex_net 100). eexists. exists (ex_e [10; 20] 1 (Fin 0) (Fin 5)). eexists. split; [vm_compute; reflexivity|]. split; [unfold pb_graph; cbn [pb_demand pb_city]; reflexivity|]. split.
  - split; [discriminate|]. split; [discriminate|]. split; [discriminate|]. split; [exists 0; split; [reflexivity|split; reflexivity]|]. intros x [<-|[<-|[]]]; discriminate.
  - split; vm_compute; reflexivity.
Qed.
Print Assumptions C55_no_trips_refuted.
Example C55_ex : NoDup (map r_id (pb_routes ex_B)) /\ exists o R R2, new_optimizer ex_B None = Ok o /\ get_overall_results o (Some (ex_e [10; 20] 1 (Fin 0) (Fin 5))) = Ok R /\ 0 < ov_co R /\ 0 < ov_cu R /\ 0 < ov_tv R /\ length (ov_B R) = 1%nat /\ map snd (ov_L R) = [8] /\
  get_overall_results o (Some (ex_e [10; 0] 1 (Fin 0) (Fin 5))) = Ok R2 /\ map snd (ov_L R2) = [4].
Proof. split; [vm_compute; repeat constructor; cbn; intuition discriminate|]. do 3 eexists. split; [vm_compute; reflexivity|]. split; [vm_compute; reflexivity|]. do 4 (split; [vm_compute; reflexivity|]). split; [vm_compute; reflexivity|]. split; vm_compute; reflexivity. Qed.

(** ** C54: one row per line *)
Lemma foldM_snoc {A S} (h : S -> A -> res S) l x s : foldM h (l ++ [x]) s = (let* s' := foldM h l s in h s' x).
Proof. revert s. induction l as [|a l IH]; intro s; cbn [app foldM bind]; [destruct (h s x); auto|]. destruct (h s a); cbn [bind]; auto. Qed.
Definition contrib (X : xgraph) (z v : tab) (r : string) (d : dir) (n : Z) : Q := match stop_in_row X z r d n with Some s => tget z r d s - tget v r d s | None => 0 end.
Definition boarded (X : xgraph) (z : tab) (r : string) (d : dir) (n : Z) : Q := match stop_in_row X z r d n with Some s => tget z r d s | None => 0 end.
Lemma charges_fold X z v r d k : forall nodes pax tb l st,
  foldM (fun '(pax, tb, l) node => let '(pax, tb) := match stop_in_row X z r d node with Some s => (pax + (tget z r d s - tget v r d s), tb + tget z r d s) | None => (pax, tb) end in let* q := qdiv pax k in Ok (pax, tb, l ++ [(node, q)])) nodes (pax, tb, l) = Ok st ->
  exists l', snd st = l ++ l' /\ map fst l' = nodes /\ snd (fst st) == tb + Qsumf (boarded X z r d) nodes /\ (nodes <> [] -> ~ k == 0) /\
    forall p n q, nth_error l' p = Some (n, q) -> q * k == pax + Qsumf (contrib X z v r d) (firstn (S p) nodes).
Proof.
  induction nodes as [|n nodes IH]; intros pax tb l st H; cbn [foldM] in H.
  - assert (st = (pax, tb, l)) by congruence. subst st. exists []. rewrite app_nil_r. split; auto. split; auto. split; [unfold Qsumf; cbn; ring|]. split; [congruence|]. intros [|p] n q E; discriminate.
  - apply bind_ok in H. destruct H as (s1 & E1 & H).
    assert (PT : exists q, s1 = (pax + contrib X z v r d n, tb + boarded X z r d n, l ++ [(n, q)]) \/ (s1 = (pax, tb, l ++ [(n, q)]) /\ contrib X z v r d n = 0 /\ boarded X z r d n = 0)).
    { unfold contrib, boarded. destruct (stop_in_row X z r d n) as [s|]; apply bind_ok in E1; destruct E1 as (q & Eq & E1); exists q; [left|right; split; auto]; congruence. }
    assert (Q1 : exists q pax1 tb1, s1 = (pax1, tb1, l ++ [(n, q)]) /\ pax1 == pax + contrib X z v r d n /\ tb1 == tb + boarded X z r d n /\ ~ k == 0 /\ q == pax1 / k).
    { unfold contrib, boarded. destruct (stop_in_row X z r d n) as [s|]; apply bind_ok in E1; destruct E1 as (q & Eq & E1); apply qdiv_inv in Eq; destruct Eq as [NK Eq]; do 3 eexists; (split; [symmetry; injection E1 as <-; reflexivity|]); subst q; (split; [ring|split; [ring|split; [exact NK|reflexivity]]]). }
    clear PT E1. destruct Q1 as (q & pax1 & tb1 & -> & P1 & T1 & NK & Eq). destruct (IH _ _ _ _ H) as (l' & A1 & A2 & A3 & A4 & A5). exists ((n, q) :: l'). rewrite A1, <- app_assoc. split; [reflexivity|]. split; [cbn; f_equal; auto|]. split; [rewrite A3, T1, Qsumf_cons; ring|]. split; [auto|].
    intros [|p] n' q' E; cbn [nth_error] in E.
    + injection E as <- <-. cbn [firstn]. rewrite Qsumf_cons, Eq, P1. unfold Qsumf. cbn. field. auto.
    + rewrite (A5 _ _ _ E). rewrite (firstn_cons (S p)), Qsumf_cons, P1. ring.
Qed.
Lemma charges_spec X z v r d k nodes tb0 tb l : charges X z v r d k nodes tb0 = Ok (tb, l) ->
  map fst l = nodes /\ tb == tb0 + Qsumf (boarded X z r d) nodes /\ (nodes <> [] -> ~ k == 0) /\
  forall p n q, nth_error l p = Some (n, q) -> q * k == Qsumf (contrib X z v r d) (firstn (S p) nodes).
Proof.
  unfold charges. intro H. apply bind_ok in H. destruct H as ([[pax tb1] l1] & E & H). injection H as <- <-. destruct (charges_fold _ _ _ _ _ _ _ _ _ _ _ E) as (l' & A1 & A2 & A3 & A4 & A5). cbn [fst snd app] in *. subst l1. split; auto. split; auto. split; auto. intros. rewrite (A5 _ _ _ H). ring.
Qed.
Lemma sections_from_spec : forall l i c m t m', sections_from i c l m = (t, m') -> map fst t = arcs_of (i :: map fst l) /\
  forall p a q, nth_error t p = Some (a, q) -> exists n c', nth_error ((i, c) :: l) p = Some (n, c') /\ q = Qabs c'.
Proof.
  induction l as [|[j c'] l IH]; intros i c m t m' H; cbn [sections_from] in H.
  - assert (t = []) by congruence. subst. split; [reflexivity|]. intros [|p] a q E; discriminate.
  - destruct (sections_from j c' l _) as [t1 m1] eqn:E1. injection H as <- <-. destruct (IH _ _ _ _ _ E1) as [A B]. split; [cbn [map fst] in *; rewrite arcs_of_cons2, <- A; reflexivity|].
    intros [|p] a q E; cbn [nth_error] in E; [injection E as _ <-; exists i, c; auto|]. destruct (B _ _ _ E) as (n & c2 & E2 & ->). exists n, c2. auto.
Qed.
Lemma sections_spec l m t m' : sections l m = (t, m') -> map fst t = arcs_of (map fst l) /\ forall p a q, nth_error t p = Some (a, q) -> exists n c, nth_error l p = Some (n, c) /\ q = Qabs c.
Proof.
  unfold sections. destruct l as [|[i c] l]; intro H; [assert (t = []) by congruence; subst; split; [reflexivity|intros [|p] a q E; discriminate]|]. apply sections_from_spec in H. exact H.
Qed.
Lemma sections_of_nth nodes (l : list (Z * Z * Q)) : map fst l = arcs_of nodes -> (forall p a q, nth_error l p = Some (a, q) -> 0 <= q) -> sections_of nodes l.
Proof. intros A B. split; auto. intros a q H. apply In_nth_error in H. destruct H as (p & H). eauto. Qed.
(** the row of an open line *)
Lemma row_open_spec X z v f k ct r row : row_open X z v f k ct r = Ok row ->
  nr_id row = r_id r /\ nr_F row = f /\ nr_f row * m_d (r_mode r) == f /\ nr_k row = k /\ nr_b row == f * ct /\ nr_tc row == 60 * ct /\
  (let tb := Qsumf (boarded X z (r_id r) DI) (r_ni r) + Qsumf (boarded X z (r_id r) DR) (r_nr r) in ~ tb == 0 /\ (f * tb) * nr_co row == (m_co (r_mode r) + m_c1 (r_mode r) * k) * (f * ct)) /\
  sections_of (r_ni r) (nr_i row) /\ sections_of (r_nr r) (nr_r row) /\
  (forall p a q, nth_error (nr_i row) p = Some (a, q) -> exists c, q = Qabs c /\ c * k == Qsumf (contrib X z v (r_id r) DI) (firstn (S p) (r_ni r))) /\
  (forall p a q, nth_error (nr_r row) p = Some (a, q) -> exists c, q = Qabs c /\ c * k == Qsumf (contrib X z v (r_id r) DR) (firstn (S p) (r_nr r))) /\
  (forall x, In x (nr_i row ++ nr_r row) -> ~ k == 0).
Proof.
  unfold row_open. intro H. apply bind_ok in H. destruct H as ([tbi li] & Ei & H). apply bind_ok in H. destruct H as ([tbr lr] & Er & H). apply bind_ok in H. destruct H as (co & Eco & H). cbn [fst snd] in *.
  destruct (sections li PInf) as [ti mi] eqn:Si. destruct (sections lr mi) as [tr mr] eqn:Sr. apply bind_ok in H. destruct H as (fd & Efd & H). injection H as <-. cbn [nr_id nr_F nr_f nr_k nr_b nr_tc nr_co nr_i nr_r].
  apply qdiv_inv in Efd. destruct Efd as [ND ->]. unfold cost_per_pax in Eco. apply qdiv_inv in Eco. destruct Eco as [NB ->].
  destruct (charges_spec _ _ _ _ _ _ _ _ _ _ Ei) as (A1 & A2 & A3 & A4). destruct (charges_spec _ _ _ _ _ _ _ _ _ _ Er) as (B1 & B2 & B3 & B4). destruct (sections_spec _ _ _ _ Si) as [C1 C2]. destruct (sections_spec _ _ _ _ Sr) as [D1 D2].
  split; auto. split; auto. split; [field; auto|]. split; auto. split; [ring|]. split; [ring|]. split; [|split; [|split; [|split; [|split]]]].
  - set (tb := Qsumf (boarded X z (r_id r) DI) (r_ni r) + Qsumf (boarded X z (r_id r) DR) (r_nr r)). assert (ET : tbr == tb) by (unfold tb; rewrite B2, A2; ring). cbn zeta. assert (NT : ~ tb == 0) by (intro C; apply NB; rewrite ET, C; ring). assert (NF : ~ f == 0) by (intro C; apply NB; rewrite C; ring). split; auto. rewrite ET. field. auto.
  - apply sections_of_nth; [rewrite C1, A1; auto|]. intros p a q E. destruct (C2 _ _ _ E) as (n & c & _ & ->). apply Qabs_nonneg.
  - apply sections_of_nth; [rewrite D1, B1; auto|]. intros p a q E. destruct (D2 _ _ _ E) as (n & c & _ & ->). apply Qabs_nonneg.
  - intros p a q E. destruct (C2 _ _ _ E) as (n & c & E1 & ->). exists c. split; auto. apply (A4 _ _ _ E1).
  - intros p a q E. destruct (D2 _ _ _ E) as (n & c & E1 & ->). exists c. split; auto. apply (B4 _ _ _ E1).
  - intros x Hx. apply in_app_iff in Hx. destruct Hx as [Hx|Hx]; [apply A3|apply B3]; intro C; rewrite C in *; [destruct li; [|discriminate A1]; cbn in C1|destruct lr; [|discriminate B1]; cbn in D1]; [destruct ti|destruct tr]; try contradiction; discriminate.
Qed.
Lemma ring_sections_spec ls : forall nodes n i c t, ring_sections ls n i c nodes = Ok t -> map fst t = arcs_of (i :: nodes) /\
  forall p a q, nth_error t p = Some (a, q) -> (p = 0%nat /\ q = Qabs c) \/ exists p' c', p = S p' /\ charge_at ls (n + p') = Ok c' /\ q = Qabs c'.
Proof.
  induction nodes as [|j nodes IH]; intros n i c t H; cbn [ring_sections] in H.
  - assert (t = []) by congruence. subst. split; [reflexivity|]. intros [|p] a q E; discriminate.
  - apply bind_ok in H. destruct H as (c' & Ec & H). apply bind_ok in H. destruct H as (t1 & Et & H). injection H as <-. destruct (IH _ _ _ _ Et) as [A B]. split; [rewrite arcs_of_cons2, <- A; reflexivity|].
    intros [|p] a q E; cbn [nth_error] in E; [injection E as _ <-; auto|]. right. exists p. destruct (B _ _ _ E) as [[-> ->]|(p' & c2 & -> & E2 & ->)].
    + exists c'. rewrite Nat.add_0_r. auto.
    + exists c2. rewrite Nat.add_succ_r. auto.
Qed.
Definition ring_nodes (r : route) : list Z * dir := match r_ni r with [] => (r_nr r, DR) | _ => (r_ni r, DI) end.
Lemma row_ring_spec X z l f k ct r row : row_ring X z l f k ct r = Ok row -> r_ni r = [] \/ r_nr r = [] ->
  nr_id row = r_id r /\ nr_F row = f /\ nr_f row * m_d (r_mode r) == f /\ nr_k row = k /\ nr_b row == f * ct /\ nr_tc row == 60 * ct /\
  sections_of (r_ni r) (nr_i row) /\ sections_of (r_nr r) (nr_r row).
Proof.
  unfold row_ring. fold (ring_nodes r). destruct (ring_nodes r) as [nodes d] eqn:RN. intros H HE. destruct (loads X z l (r_id r) d nodes) as [tb ls]. apply bind_ok in H. destruct H as (co & _ & H). apply bind_ok in H. destruct H as ([ls' m] & _ & H). apply bind_ok in H. destruct H as (t & Et & H). apply bind_ok in H. destruct H as (fd & Efd & H). injection H as <-. cbn [nr_id nr_F nr_f nr_k nr_b nr_tc nr_co nr_i nr_r].
  apply qdiv_inv in Efd. destruct Efd as [ND ->]. split; auto. split; auto. split; [field; auto|]. split; auto. split; [ring|]. split; [ring|].
  assert (ST : sections_of nodes t).
  { destruct nodes as [|i nodes]; [assert (t = []) by congruence; subst; split; [reflexivity|intros a q []]|]. apply bind_ok in Et. destruct Et as (c & Ec & Et). destruct (ring_sections_spec _ _ _ _ _ _ Et) as [A B]. apply sections_of_nth; auto. intros p a q E. destruct (B _ _ _ E) as [[_ ->]|(p' & c' & _ & _ & ->)]; apply Qabs_nonneg. }
  assert (S0 : sections_of [] []) by (split; [reflexivity|intros a q []]). unfold ring_nodes in RN. destruct (r_ni r) as [|i ni] eqn:Ei.
  - injection RN as <- <-. auto.
  - injection RN as <- <-. destruct HE as [HE|HE]; [discriminate|rewrite HE; auto].
Qed.
Lemma row_idle_spec r : nr_id (row_idle r) = r_id r /\ nr_F (row_idle r) = 0 /\ nr_f (row_idle r) = 0 /\ nr_k (row_idle r) = 0 /\ nr_b (row_idle r) = 0 /\ nr_tc (row_idle r) = 0 /\ nr_co (row_idle r) = 0 /\ nr_min (row_idle r) = Fin 0 /\
  sections_of (r_ni r) (nr_i (row_idle r)) /\ sections_of (r_nr r) (nr_r (row_idle r)) /\ (forall a q, In (a, q) (nr_i (row_idle r) ++ nr_r (row_idle r)) -> q = 0).
Proof.
  assert (Z : forall l, map fst (map (fun '(i, j) => (i, j, 0)) (arcs_of l)) = arcs_of l /\ forall a q, In (a, q) (map (fun '(i, j) => (i, j, 0)) (arcs_of l)) -> q = 0).
  { intro l. split; [rewrite map_map; rewrite <- (map_id (arcs_of l)) at 2; apply map_ext; intros [i j]; reflexivity|]. intros a q H. apply in_map_iff in H. destruct H as ([i j] & E & _). congruence. }
  unfold row_idle. cbn. do 8 (split; [reflexivity|]). split; [|split].
  - split; [apply Z|]. intros a q H. rewrite (proj2 (Z _) _ _ H). discriminate.
  - split; [apply Z|]. intros a q H. rewrite (proj2 (Z _) _ _ H). discriminate.
  - intros a q H. apply in_app_iff in H. destruct H as [H|H]; apply (proj2 (Z _) _ _ H).
Qed.
Lemma mapM_inv {A C} (h : A -> res C) : forall l l', mapM h l = Ok l' -> Forall2 (fun x y => h x = Ok y) l l'.
Proof. induction l as [|x l IH]; intros l' H; cbn [mapM] in H; [assert (l' = []) by congruence; subst; constructor|]. apply bind_ok in H. destruct H as (y & Ey & H). apply bind_ok in H. destruct H as (ys & E & H). injection H as <-. constructor; auto. Qed.
Lemma Forall2_imp {A C} (R S : A -> C -> Prop) : forall l l', (forall x y, In x l -> R x y -> S x y) -> Forall2 R l l' -> Forall2 S l l'.
Proof. intros l l' H F. induction F; constructor; [apply H; auto; left; auto|apply IHF; intros; apply H; auto; right; auto]. Qed.
Lemma results_inv B fg o e rows : new_optimizer B fg = Ok o -> get_network_results o (Some e) = Ok rows ->
  exists f o' t ltt ct z v, fopt_to_f (map r_id (pb_routes B)) (e_x e) = Ok f /\ new_optimizer B (Some f) = Ok o' /\ boardings o' f = Ok t /\
    lines_travel_time (pb_routes B) (get_edges_distance (pb_geo B) (pb_graph B)) = Ok ltt /\ get_cycle_time (t_z t) (t_v t) (pb_routes B) ltt = (ct, z, v) /\
    Forall2 (fun r row => row_of (o_X o') z v (t_l t) f (get_k (t_l t)) ct r = Ok row) (pb_routes B) rows.
Proof.
  intros H HR. destruct (new_optimizer_attrs _ _ _ H) as (Hb & _ & _ & Hp & _). unfold get_network_results in HR. apply bind_ok in HR. destruct HR as ([[[o' f] t] k] & EL & HR). unfold last_iteration in EL. apply bind_ok in EL. destruct EL as (f' & Ef & EL). apply bind_ok in EL. destruct EL as (o1 & Eo & EL). apply bind_ok in EL. destruct EL as (t1 & Et & EL).
  injection EL as -> -> -> <-. rewrite Hb in *. rewrite Hp in Ef. destruct (new_optimizer_attrs _ _ _ Eo) as (Hb' & _). rewrite Hb' in *. apply bind_ok in HR. destruct HR as (ltt & El & HR). destruct (get_cycle_time (t_z t) (t_v t) (pb_routes B) ltt) as [[ct z] v] eqn:EC.
  exists f, o', t, ltt, ct, z, v. do 4 (split; auto). split; [exact EC|]. apply mapM_inv. exact HR.
Qed.
(** The table has one row per route, in order. The sections listed are the arcs of the two sequences of nodes. A
    line that runs has its frequency, its frequency per parallel line, the capacity that its most loaded section
    needs, frequency times cycle time vehicles, and its cycle time in minutes. A line that does not run has zeros
    only. *)
Theorem C54_rows : forall B fg o e rows, new_optimizer B fg = Ok o -> NoDup (map r_id (pb_routes B)) ->
  (forall r, In r (pb_routes B) -> r_type r = CIRCULAR -> r_ni r = [] \/ r_nr r = []) -> get_network_results o (Some e) = Ok rows ->
  exists f o' t ltt, fopt_to_f (map r_id (pb_routes B)) (e_x e) = Ok f /\ new_optimizer B (Some f) = Ok o' /\ boardings o' f = Ok t /\
    lines_travel_time (pb_routes B) (get_edges_distance (pb_geo B) (pb_graph B)) = Ok ltt /\
    let ct := fst (fst (get_cycle_time (t_z t) (t_v t) (pb_routes B) ltt)) in
    Forall2 (fun r row => nr_id row = r_id r /\ sections_of (r_ni r) (nr_i row) /\ sections_of (r_nr r) (nr_r row) /\
      (0 < freq f (r_id r) -> nr_F row == freq f (r_id r) /\ nr_f row * m_d (r_mode r) == freq f (r_id r) /\ nr_k row == freq (most_loaded_section (t_l t)) (r_id r) /\
         nr_b row == freq f (r_id r) * freq ct (r_id r) /\ nr_tc row == 60 * freq ct (r_id r)) /\
      (freq f (r_id r) <= 0 -> nr_F row == 0 /\ nr_f row == 0 /\ nr_k row == 0 /\ nr_b row == 0 /\ nr_tc row == 0 /\ nr_co row == 0 /\ nr_min row = Fin 0 /\ forall a q, In (a, q) (nr_i row ++ nr_r row) -> q == 0))
      (pb_routes B) rows.
Proof.
  intros B fg o e rows H ND HC HR. destruct (results_inv _ _ _ _ _ H HR) as (f & o' & t & ltt & ct & z & v & E1 & E2 & E3 & E4 & E5 & F). exists f, o', t, ltt. do 4 (split; auto). cbn zeta. rewrite E5. cbn [fst].
  assert (KK : forall r, freq (get_k (t_l t)) r = freq (most_loaded_section (t_l t)) r) by (intro r; apply get_k_freq).
  revert F. apply Forall2_imp. intros r row Hr R. unfold row_of in R. destruct (Qltb 0 (freq f (r_id r))) eqn:Q0.
  - apply Qltb_lt in Q0. destruct (is_circular (r_type r)) eqn:C.
    + assert (RC : r_ni r = [] \/ r_nr r = []) by (apply HC; auto; destruct (r_type r); auto; discriminate). destruct (row_ring_spec _ _ _ _ _ _ _ _ R RC) as (A1 & A2 & A3 & A4 & A5 & A6 & A7 & A8). rewrite A2, A4, KK. split; auto. split; auto. split; auto. split; [intros _; split; [reflexivity|split; [auto|split; [reflexivity|auto]]]|intro C'; lra].
    + destruct (row_open_spec _ _ _ _ _ _ _ _ R) as (A1 & A2 & A3 & A4 & A5 & A6 & _ & A7 & A8 & _). rewrite A2, A4, KK. split; auto. split; auto. split; auto. split; [intros _; split; [reflexivity|split; [auto|split; [reflexivity|auto]]]|intro C'; lra].
  - apply Qltb_ge in Q0. assert (row = row_idle r) by congruence. subst row. destruct (row_idle_spec r) as (A1 & A2 & A3 & A4 & A5 & A6 & A7 & A8 & A9 & A10 & A11). split; auto. split; auto. split; auto. split; [intro C; lra|]. intros _. rewrite A2, A3, A4, A5, A6, A7, A8. do 6 (split; [reflexivity|]). split; [reflexivity|]. intros a q Hq. rewrite (A11 a q Hq). reflexivity.
Qed.
Print Assumptions C54_rows.
