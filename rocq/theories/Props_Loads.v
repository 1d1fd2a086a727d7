(** * Props_Loads: C56, the loads of the sections that the report of the lines gives (optimizer.py 610-681) *)
From Coq Require Import String List ZArith QArith Qabs Bool Lia Lqa Qfield.
From Verif Require Import PyBase PyFacts Graph GeoEx Demand Mode Route Network RouteSpec RouteProofs ExtGraph ExtSpec ExtProofs Hyperpath HyperSpec Assignment AssignSpec FlowSpec TableProofs FlowProofs Costs UsersCost UsersSpec CostSpec
  Props_Ext Props_Hyper Props_Network Props_Assign Props_Flow Props_Cost Props_Users Optimizer OptSpec Results ResultsSpec Props_Opt Props_Results.
Import ListNotations.
Local Open Scope Q_scope.

(** ** The keys of the tables *)
Lemma keys_tset t r d s q r' d' s' : In s' (map fst (trow (tset t r d s q) r' d')) <-> In s' (map fst (trow t r' d')) \/ (r' = r /\ d' = d /\ s' = s).
Proof.
  rewrite trow_tset. destruct ((r' =? r)%string && dir_eqb d' d)%bool eqn:E.
  - apply andb_true_iff in E. destruct E as [E1 E2]. apply String.eqb_eq in E1. apply dir_spec in E2. subst. destruct (in_dec Nat.eq_dec s (map fst (trow t r d))) as [I|I].
    + rewrite (dset_keys_in Nat.eqb Neqb_spec) by auto. split; [auto|]. intros [H|(_ & _ & ->)]; auto.
    + rewrite (dset_keys_notin Nat.eqb Neqb_spec) by auto. rewrite map_app, in_app_iff. cbn. split; [intros [H|[H|[]]]; auto|intros [H|(_ & _ & ->)]; auto].
  - split; auto. intros [H|(-> & -> & ->)]; auto. rewrite String.eqb_refl in E. destruct d; discriminate.
Qed.
Lemma keys_scaled f t r d : map fst (trow (per_vehicle f t) r d) = map fst (trow t r d).
Proof. rewrite trow_scaled, map_map. apply map_ext. intros [s q]. reflexivity. Qed.

Section Keys.
  Context (G : geo) (g : graph) (rs : list route) (TP : Q) (fr : option (list (string * Q))) (X : xgraph) (P : qpass) (M : dict2) (fuel0 : nat) (es : list od_entry) (f : fdict).
  Hypothesis FI : flow_input G g rs TP fr X P M fuel0 es f.
  Let I := fi_input _ _ _ _ _ _ _ _ _ _ _ FI.
  Let B := fi_built _ _ _ _ _ _ _ _ _ _ _ FI.

  Lemma keys_served fuel asg T : get_alighting_and_boarding fuel X f es asg = Ok T -> forall r d s, In s (map fst (trow (t_z T) r d)) \/ In s (map fst (trow (t_v T) r d)) \/ In s (map fst (trow (t_l T) r d)) ->
    exists k rn, nth_error (xg_rnodes X) k = Some rn /\ rn_stop rn = Some s /\ r_id (rn_route rn) = r /\ rn_dir rn = d.
  Proof.
    intros H r d s. destruct (fi_inv _ _ _ _ _ _ _ _ _ _ _ FI fuel asg T H) as (ls & t & F & Et & ->). cbn [t_z t_v t_l]. rewrite !keys_scaled. pose proof (events_edge X f es asg ls F) as EV. rewrite Et.
    set (KS := fun t : tables => forall r d s, In s (map fst (trow (t_z t) r d)) \/ In s (map fst (trow (t_v t) r d)) \/ In s (map fst (trow (t_l t) r d)) -> exists k rn, nth_error (xg_rnodes X) k = Some rn /\ rn_stop rn = Some s /\ r_id (rn_route rn) = r /\ rn_dir rn = d).
    assert (GEN : forall l t0, (forall e, In e l -> exists x, In x (xg_edges X) /\ x_i x = ev_from e /\ x_j x = ev_to e) -> KS t0 -> KS (fold_left (record_ev X) l t0)).
    { clear - FI. induction l as [|e l IH]; intros t0 HE H0; cbn [fold_left]; auto. apply IH; [intros; apply HE; right; auto|]. destruct (HE e (or_introl eq_refl)) as (x & Hx & Ei & Ej). pose proof (fi_shape _ _ _ _ _ _ _ _ _ _ _ FI x Hx) as Sh. unfold edge_shape in Sh. rewrite Ei, Ej in Sh.
      intros r d s Hs. rewrite record_cases in Hs.
      assert (NODE : forall k, x_i x = ER k \/ x_j x = ER k -> exists rn, nth_error (xg_rnodes X) k = Some rn /\ rnode_at (xg_rnodes X) k = rn).
      { intros k Hk. destruct FI. eapply node_of_edge; eauto. }
      destruct (x_f x), (ev_from e) as [c|s0|k], (ev_to e) as [c'|s'|k']; try contradiction; cbn [t_z t_v t_l] in Hs; auto.
      - unfold tadd in Hs. rewrite keys_tset in Hs. destruct Hs as [[Hs|(-> & -> & ->)]|Hs]; auto. destruct (NODE k' (or_intror Ej)) as (rn & N1 & N2). exists k', rn. rewrite N2 in Sh. unfold rid, rdir. rewrite N2. auto.
      - unfold tadd in Hs. rewrite keys_tset in Hs. destruct Hs as [Hs|[[Hs|(-> & -> & ->)]|Hs]]; auto. destruct (NODE k (or_introl Ei)) as (rn & N1 & N2). exists k, rn. rewrite N2 in Sh. unfold rid, rdir. rewrite N2. auto.
      - unfold tadd in Hs. rewrite keys_tset in Hs. destruct Hs as [Hs|[Hs|[Hs|(-> & -> & ->)]]]; auto. destruct (NODE k (or_introl Ei)) as (rn & N1 & N2). exists k, rn. destruct Sh as (_ & _ & _ & s1 & Es). unfold rid, rdir, rn_stop_at. rewrite N2 in *. rewrite Es. auto. }
    apply GEN; auto. clear. intros r d s [H|[H|H]]; cbn in H; contradiction.
  Qed.
  Lemma place_id s z m : stop_place X s = Some (z, m) -> stop_node_id X s = z /\ (s < length (xg_stops X))%nat.
  Proof.
    unfold stop_place, stop_node_id, stop_at, gnode. destruct (nth_error (xg_stops X) s) as [st|] eqn:E; [|discriminate]. destruct (nth_error (g_nodes (xg_graph X)) (sn_city st)) as [nd|] eqn:E2; [|discriminate]. intro H. injection H as <- _.
    rewrite (nth_error_nth _ _ _ E), (nth_error_nth _ _ _ E2). split; auto. apply nth_error_Some. congruence.
  Qed.
  Lemma place_inj s1 s2 z m1 m2 : stop_place X s1 = Some (z, m1) -> stop_place X s2 = Some (z, m2) -> m_ref m1 = m_ref m2 -> s1 = s2.
  Proof.
    unfold stop_place. intros H1 H2 E. destruct (nth_error (xg_stops X) s1) as [t1|] eqn:E1; [|discriminate]. destruct (nth_error (xg_stops X) s2) as [t2|] eqn:E2; [|discriminate].
    pose proof (facts_of _ _ _ _ _ _ I B) as FA. rewrite (ef_graph _ _ _ _ _ _ FA) in *. destruct (nth_error (g_nodes g) (sn_city t1)) as [n1|] eqn:N1; [|discriminate]. destruct (nth_error (g_nodes g) (sn_city t2)) as [n2|] eqn:N2; [|discriminate]. injection H1 as Z1 M1. injection H2 as Z2 M2.
    assert (C : sn_city t1 = sn_city t2). { apply (proj1 (NoDup_nth_error _) (xi_ids _ _ I)); [rewrite map_length; apply nth_error_Some; congruence|]. rewrite !nth_error_map, N1, N2. cbn. congruence. }
    destruct (C30_one_stop_per_node_and_mode _ _ _ _ _ _ I B) as (ND & _). apply (proj1 (NoDup_nth_error _) ND); [rewrite map_length; apply nth_error_Some; congruence|]. rewrite !nth_error_map, E1, E2. cbn. congruence.
  Qed.
  Hypothesis IDS : NoDup (map r_id rs).
  Lemma key_place fuel asg T r d s : get_alighting_and_boarding fuel X f es asg = Ok T -> In r rs -> In s (map fst (trow (t_z T) (r_id r) d)) \/ In s (map fst (trow (t_v T) (r_id r) d)) \/ In s (map fst (trow (t_l T) (r_id r) d)) ->
    exists z, stop_place X s = Some (z, r_mode r) /\ In z (visits r d).
  Proof.
    intros H Hr Hs. destruct (keys_served _ _ _ H _ _ _ Hs) as (k & rn & Hk & Es & Er & Ed). pose proof (facts_of _ _ _ _ _ _ I B) as FA. rewrite (ef_rn _ _ _ _ _ _ FA) in Hk. destruct (rns_visit g rs I k rn Hk) as (r1 & d1 & z & s1 & st & nd & Hr1 & E1 & E2 & V & Hz & Es1 & _ & Hst & Em & Hn & Ez).
    assert (r1 = r). { apply (NoDup_map_eq r_id rs); auto. congruence. } subst r1. exists z. unfold stop_place. assert (s1 = s) by congruence. subst s1. rewrite (ef_stops _ _ _ _ _ _ FA), (ef_graph _ _ _ _ _ _ FA), Hst, Hn, Em, Ez. subst. auto.
  Qed.
  (** what a table of the route holds at a node is what it holds at the stop of the route there *)
  Lemma at_node_stop t r d n s : In r rs -> (forall s', In s' (map fst (trow t (r_id r) d)) -> exists z, stop_place X s' = Some (z, r_mode r)) ->
    stop_place X s = Some (n, r_mode r) -> at_node X t (r_id r) d n == tget t (r_id r) d s.
  Proof.
    intros Hr KP Hs. unfold at_node. rewrite (Qsumf_ext _ (fun y => if (y =? s)%nat then tget t (r_id r) d y else 0)).
    - apply (Qsumf_pick (tget t (r_id r) d) (fun y => (y =? s)%nat) s); [apply seq_NoDup|apply in_seq; destruct (place_id _ _ _ Hs); lia|]. intros y _. apply Nat.eqb_eq.
    - intros y _. destruct (Nat.eqb y s) eqn:E; [apply Nat.eqb_eq in E; subst y; rewrite Hs, Z.eqb_refl; reflexivity|]. apply Nat.eqb_neq in E. destruct (stop_place X y) as [[z m]|] eqn:Py; [|reflexivity]. destruct (z =? n)%Z eqn:Ez; [|reflexivity]. apply Z.eqb_eq in Ez. subst z.
      destruct (in_dec Nat.eq_dec y (map fst (trow t (r_id r) d))) as [Hy|Hy]; [|rewrite (tget_nokey _ _ _ _ Hy); reflexivity]. destruct (KP y Hy) as (z & Pz). exfalso. apply E. rewrite Py in Pz. injection Pz as -> ->. eapply place_inj; eauto.
  Qed.
  Lemma at_node_none t r d n : (forall s', In s' (map fst (trow t r d)) -> exists z m, stop_place X s' = Some (z, m) /\ z <> n) -> at_node X t r d n == 0.
  Proof.
    intro KP. unfold at_node. apply Qsumf_zero. intros y _. destruct (stop_place X y) as [[z m]|] eqn:Py; [|reflexivity]. destruct (z =? n)%Z eqn:Ez; [|reflexivity]. apply Z.eqb_eq in Ez. subst z.
    destruct (in_dec Nat.eq_dec y (map fst (trow t r d))) as [Hy|Hy]; [|rewrite (tget_nokey _ _ _ _ Hy); reflexivity]. destruct (KP y Hy) as (z & m' & Pz & N). congruence.
  Qed.
  (** the search for a stop by the keys of a row finds what the table holds at the node *)
  Lemma at_node_row t t' r d n : In r rs -> (forall s', In s' (map fst (trow t (r_id r) d)) -> In s' (map fst (trow t' (r_id r) d))) ->
    (forall s', In s' (map fst (trow t' (r_id r) d)) -> exists z, stop_place X s' = Some (z, r_mode r)) ->
    match stop_in_row X t' (r_id r) d n with Some s => tget t (r_id r) d s | None => 0 end == at_node X t (r_id r) d n.
  Proof.
    intros Hr KI KP. unfold stop_in_row. destruct (find _ _) as [s|] eqn:E.
    - apply find_some in E. destruct E as [Hs En]. apply Z.eqb_eq in En. destruct (KP s Hs) as (z & Pz). destruct (place_id _ _ _ Pz) as [Ez _]. symmetry. apply at_node_stop; auto. rewrite Pz. congruence.
    - symmetry. apply at_node_none. intros s Hs. destruct (KP s (KI s Hs)) as (z & Pz). exists z, (r_mode r). split; auto. intros ->. apply (find_none _ _ E s (KI s Hs)) || idtac. pose proof (find_none _ _ E s (KI s Hs)) as N. cbn beta in N. destruct (place_id _ _ _ Pz) as [Ez _]. rewrite Ez, Z.eqb_refl in N. discriminate.
  Qed.
End Keys.

(** ** The keys that the computation of the cycle times adds *)
Lemma cycle_keys z0 v0 tt : forall rs ct z v ct' z' v', read_of z0 v0 z -> read_of v0 z0 v -> NoDup (map r_id rs) -> fold_left (cycle_route tt) rs (ct, z, v) = (ct', z', v') ->
  (forall r d s, In s (map fst (trow z r d)) -> In s (map fst (trow z' r d))) /\
  (forall r d s, In r rs -> m_bya (r_mode r) == 1 -> In s (map fst (trow z0 (r_id r) d)) \/ In s (map fst (trow v0 (r_id r) d)) -> In s (map fst (trow z' (r_id r) d))).
Proof.
  induction rs as [|r rs IH]; intros ct z v ct' z' v' RZ RV ND E; cbn [fold_left] in E.
  - injection E as <- <- <-. split; auto. intros r d s [].
  - inversion ND; subst. destruct (cycle_route_spec z0 v0 tt ct z v r RZ RV) as (tc & z1 & v1 & E1 & RZ1 & RV1 & _). rewrite E1 in E. destruct (IH _ _ _ _ _ _ RZ1 RV1 H2 E) as [M K].
    assert (ONE : (forall r' d s, In s (map fst (trow z r' d)) -> In s (map fst (trow z1 r' d))) /\ (m_bya (r_mode r) == 1 -> forall d s, In s (map fst (trow z0 (r_id r) d)) \/ In s (map fst (trow v0 (r_id r) d)) -> In s (map fst (trow z1 (r_id r) d)))).
    { unfold cycle_route in E1. destruct (Qeqb (m_bya (r_mode r)) 0) eqn:B0; destruct (Qeqb (m_bya (r_mode r)) 1) eqn:B1.
      - apply Qeqb_eq in B0, B1. rewrite B0 in B1. discriminate.
      - injection E1 as _ <- <-. split; auto. intro C. apply Qeqb_eq in C. congruence.
      - set (t := m_t (r_mode r) / 3600) in *. destruct (dwell_sim_spec z0 v0 t z v (r_id r) DI (freq tt (r_id r)) RZ RV) as (tc2 & z2 & v2 & E2 & RZ2 & RV2 & A1 & A2 & A3 & _).
        rewrite E2 in E1. destruct (dwell_sim_spec z0 v0 t z2 v2 (r_id r) DR tc2 RZ2 RV2) as (tc3 & z3 & v3 & E3 & RZ3 & RV3 & B2 & B3 & B4 & _). rewrite E3 in E1. injection E1 as _ <- <-. split.
        + intros r' d s Hs. destruct (string_dec r' (r_id r)) as [->|N]; [apply B4, A3; auto|]. apply (B3 r' d s N), (A2 r' d s N). auto.
        + intros _ [|] s Hs; [apply B4; apply A1; auto|apply B2; auto].
      - injection E1 as _ <- <-. split; auto. intro C. apply Qeqb_eq in C. congruence. }
    destruct ONE as [O1 O2]. split; [intros; auto|]. intros r' d s [<-|Hr] Hb Hs; eauto.
Qed.

(** ** The load that leaves a stop *)
Lemma block r d : forall l base, In (r, d) l -> exists b, forall j z, nth_error (visits r d) j = Some z ->
  nth_error (flat_map (fun '(r, d) => map (fun z => (r, d, z)) (visits r d)) l) (b + j) = Some (r, d, z) /\
  nth_error (links base l) (b + j) = nth_error (link (r_type r) (base + b) (length (visits r d))) j.
Proof.
  induction l as [|[r0 d0] l IH]; intros base H; [contradiction|]. cbn [flat_map links]. destruct H as [E|H].
  - injection E as -> ->. exists 0%nat. intros j z Hj. assert (L : (j < length (visits r d))%nat) by (apply nth_error_Some; congruence). rewrite Nat.add_0_r. cbn [Nat.add].
    rewrite !nth_error_app1 by (rewrite ?map_length, ?link_length; auto). rewrite nth_error_map, Hj. auto.
  - destruct (IH (base + length (visits r0 d0))%nat H) as (b & Hb). exists (length (visits r0 d0) + b)%nat. intros j z Hj. destruct (Hb j z Hj) as [A C]. split.
    + rewrite nth_error_app2 by (rewrite map_length; lia). rewrite map_length. replace (length (visits r0 d0) + b + j - length (visits r0 d0))%nat with (b + j)%nat by lia. auto.
    + rewrite nth_error_app2 by (rewrite link_length; lia). rewrite link_length. replace (length (visits r0 d0) + b + j - length (visits r0 d0))%nat with (b + j)%nat by lia. rewrite C. f_equal. f_equal. lia.
Qed.
Lemma firstn_snoc {A} (l : list A) : forall j x, nth_error l j = Some x -> firstn (S j) l = firstn j l ++ [x].
Proof. induction l as [|y l IH]; intros [|j] x H; try discriminate; cbn in *; [injection H as ->; auto|]. f_equal. apply IH. auto. Qed.

Section Carried.
  Context (G : geo) (g : graph) (rs : list route) (TP : Q) (fr : option (list (string * Q))) (X : xgraph) (P : qpass) (M : dict2) (fuel0 : nat) (es : list od_entry) (f : fdict).
  Hypothesis FI : flow_input G g rs TP fr X P M fuel0 es f.
  Hypothesis IDS : NoDup (map r_id rs).
  Hypothesis VIS : forall r d, In r rs -> NoDup (visits r d).
  Let I := fi_input _ _ _ _ _ _ _ _ _ _ _ FI.
  Let B := fi_built _ _ _ _ _ _ _ _ _ _ _ FI.
  Variables (fuel : nat) (asg : list (list (nat * Q))) (T : tables).
  Hypothesis HT : get_alighting_and_boarding fuel X f es asg = Ok T.

  Lemma keysZ r d : In r rs -> forall s, In s (map fst (trow (t_z T) (r_id r) d)) -> exists z, stop_place X s = Some (z, r_mode r).
  Proof. intros Hr s Hs. destruct (key_place _ _ _ _ _ _ _ _ _ _ _ FI IDS fuel asg T r d s HT Hr (or_introl Hs)) as (z & Hz & _). eauto. Qed.
  Lemma keysV r d : In r rs -> forall s, In s (map fst (trow (t_v T) (r_id r) d)) -> exists z, stop_place X s = Some (z, r_mode r).
  Proof. intros Hr s Hs. destruct (key_place _ _ _ _ _ _ _ _ _ _ _ FI IDS fuel asg T r d s HT Hr (or_intror (or_introl Hs))) as (z & Hz & _). eauto. Qed.
  Definition diff r d n := at_node X (t_z T) (r_id r) d n - at_node X (t_v T) (r_id r) d n.
  Lemma diff_stop r d n s : In r rs -> stop_place X s = Some (n, r_mode r) -> diff r d n == tget (t_z T) (r_id r) d s - tget (t_v T) (r_id r) d s.
  Proof. intros Hr Hs. unfold diff. rewrite !(at_node_stop _ _ _ _ _ _ _ _ _ _ _ FI _ r d n s); auto; try apply keysZ; try apply keysV; auto; reflexivity. Qed.
  Lemma diff_none r d n : In r rs -> ~ In n (visits r d) -> diff r d n == 0.
  Proof.
    intros Hr N. unfold diff. rewrite !at_node_none; [ring| |]; intros s Hs; destruct (key_place _ _ _ _ _ _ _ _ _ _ _ FI IDS fuel asg T r d s HT Hr) as (z & Hz & Vz); auto; exists z, (r_mode r); split; auto; congruence.
  Qed.
  Lemma visit_node r d : In r rs -> r_type r <> CIRCULAR -> exists b, forall j z, nth_error (visits r d) j = Some z ->
    exists rn s, nth_error (xg_rnodes X) (b + j) = Some rn /\ rn_stop rn = Some s /\ rn_route rn = r /\ rn_dir rn = d /\ stop_place X s = Some (z, r_mode r) /\
      rn_prev rn = match j with O => None | S j' => Some (b + j')%nat end.
  Proof.
    intros Hr NC. destruct (block r d (lines rs) 0) as (b & Hb). { unfold lines. apply in_flat_map. exists r. split; auto. destruct d; [left|right; left]; auto. }
    exists b. intros j z Hj. destruct (Hb j z Hj) as [A C]. fold (all_visits rs) in A. pose proof (facts_of _ _ _ _ _ _ I B) as FA. assert (L : (b + j < length (xg_rnodes X))%nat).
    { rewrite (ef_rn _ _ _ _ _ _ FA). rewrite rns_len. apply nth_error_Some. congruence. }
    destruct (nth_error (xg_rnodes X) (b + j)) as [rn|] eqn:E; [|apply nth_error_None in E; lia]. assert (E' := E). rewrite (ef_rn _ _ _ _ _ _ FA) in E'. destruct (rns_visit g rs I _ rn E') as (r1 & d1 & z1 & s1 & st & nd & _ & E1 & E2 & V & _ & Es & _ & Hst & Em & Hn & Ez).
    rewrite A in V. injection V as <- <- <-. exists rn, s1. split; auto. split; auto. split; auto. split; auto. split.
    - unfold stop_place. rewrite (ef_stops _ _ _ _ _ _ FA), (ef_graph _ _ _ _ _ _ FA), Hst, Hn, Em, Ez. auto.
    - assert (LP : nth_error (links 0 (lines rs)) (b + j) = Some (rn_prev rn)). { rewrite <- (bnodes_prev g (stop_list g rs)), nth_error_map, E'. reflexivity. }
      rewrite C in LP. assert (LJ : (j < length (visits r d))%nat) by (apply nth_error_Some; congruence). clear - LP NC LJ. destruct (length (visits r d)) as [|m]; [lia|]. destruct j as [|j]; cbn [link nth_error] in LP.
      + injection LP as <-. destruct (r_type r); auto. contradiction.
      + rewrite nth_error_map in LP. rewrite (nth_error_nth' _ 0%nat) in LP by (rewrite List.seq_length; lia). rewrite List.seq_nth in LP by lia. cbn in LP. injection LP as <-. auto.
  Qed.
  Lemma load_prefix r d : In r rs -> r_type r <> CIRCULAR -> forall j z s, nth_error (visits r d) j = Some z -> stop_place X s = Some (z, r_mode r) ->
    tget (t_l T) (r_id r) d s == Qsumf (diff r d) (firstn (S j) (visits r d)).
  Proof.
    intros Hr NC. destruct (visit_node r d Hr NC) as (b & Hb). induction j as [|j IH]; intros z s Hj Hs; destruct (Hb _ _ Hj) as (rn & s' & E1 & E2 & E3 & E4 & E5 & E6).
    - assert (s' = s) by (eapply place_inj; eauto). subst s'. destruct (C41_stop_balance _ _ _ _ _ _ _ _ _ _ _ _ _ _ FI IDS VIS HT _ _ _ E1 E2) as [Bal _]. cbn zeta in Bal. rewrite E6, E3, E4 in Bal. rewrite (firstn_snoc _ _ _ Hj). cbn [firstn app]. rewrite Qsumf_cons. rewrite (diff_stop _ _ _ _ Hr Hs). unfold Qsumf. cbn. lra.
    - assert (s' = s) by (eapply place_inj; eauto). subst s'. destruct (C41_stop_balance _ _ _ _ _ _ _ _ _ _ _ _ _ _ FI IDS VIS HT _ _ _ E1 E2) as [Bal _]. cbn zeta in Bal. rewrite E6, E3, E4 in Bal.
      destruct (nth_error (visits r d) j) as [z1|] eqn:Ej; [|exfalso; apply nth_error_None in Ej; assert (S j < length (visits r d))%nat by (apply nth_error_Some; congruence); lia].
      destruct (Hb _ _ Ej) as (rn1 & s1 & F1 & F2 & F3 & F4 & F5 & F6). rewrite (firstn_snoc _ _ _ Hj), Qsumf_app, Qsumf_cons, <- (IH z1 s1 eq_refl F5), (diff_stop _ _ _ _ Hr Hs).
      assert (RS : rn_stop_at (xg_rnodes X) (b + j) = s1). { unfold rn_stop_at, rnode_at. rewrite (nth_error_nth _ _ _ F1), F2. auto. }
      rewrite RS in Bal. unfold Qsumf. cbn. lra.
  Qed.
  (** along the nodes of the direction *)
  Lemma subseq_filter : forall (vs nodes : list Z), NoDup nodes -> RouteSpec.subseq vs nodes -> filter (fun n => existsb (Z.eqb n) vs) nodes = vs.
  Proof.
    assert (EX : forall n vs, existsb (Z.eqb n) vs = true <-> In n vs). { intros n vs. rewrite existsb_exists. split; [intros (x & Hx & E); apply Z.eqb_eq in E; subst; auto|intro H; exists n; split; auto; apply Z.eqb_refl]. }
    assert (INC : forall (vs nodes : list Z), RouteSpec.subseq vs nodes -> incl vs nodes). { intros vs nodes Sb. induction Sb; intros y Hy; [contradiction|destruct Hy as [->|Hy]; [left; auto|right; auto]|right; auto]. }
    intros vs nodes ND Sb. induction Sb as [l|x s l Sb IH|x s l Sb IH].
    - induction l as [|y l IH]; auto. inversion ND; auto.
    - inversion ND; subst. cbn [filter]. replace (existsb (Z.eqb x) (x :: s)) with true by (cbn [existsb]; rewrite Z.eqb_refl; auto). f_equal. transitivity (filter (fun n => existsb (Z.eqb n) s) l); [|apply IH; auto]. apply filter_ext_in. intros y Hy. cbn [existsb]. destruct (y =? x)%Z eqn:E; auto. apply Z.eqb_eq in E. subst. contradiction.
    - inversion ND; subst. cbn [filter]. destruct (existsb (Z.eqb x) s) eqn:E; auto. apply EX in E. exfalso. apply H1. apply (INC _ _ Sb). auto.
  Qed.
  Lemma sum_filter {A} (h : A -> Q) (p : A -> bool) : forall l, (forall x, In x l -> p x = false -> h x == 0) -> Qsumf h l == Qsumf h (filter p l).
  Proof. induction l as [|x l IH]; intro H; [reflexivity|]. cbn [filter]. rewrite Qsumf_cons. destruct (p x) eqn:E; rewrite ?Qsumf_cons, <- IH; try (intros; apply H; auto; right; auto); [reflexivity|]. rewrite (H x (or_introl eq_refl) E). ring. Qed.
  Lemma filter_firstn {A} (p : A -> bool) l n : exists m, filter p (firstn n l) = firstn m (filter p l).
  Proof. exists (length (filter p (firstn n l))). rewrite <- (firstn_skipn n l) at 3. rewrite filter_app, firstn_app, Nat.sub_diag, firstn_all, app_nil_r. auto. Qed.
  Lemma find_rev_filter {A} (p : A -> bool) : forall l, find p (rev l) = match rev (filter p l) with [] => None | x :: _ => Some x end.
  Proof.
    intro l. rewrite <- (rev_involutive l) at 2. generalize (rev l). clear l. induction l as [|x l IH]; auto. cbn [find rev]. rewrite filter_app. cbn [filter]. destruct (p x) eqn:E; rewrite rev_app_distr; auto.
  Qed.
  Lemma carried r d n : In r rs -> r_type r <> CIRCULAR -> open_line r ->
    match last_stop (visits r d) (firstn n (nodes_of r d)) with
    | None => Qsumf (diff r d) (firstn n (nodes_of r d)) == 0
    | Some z => exists s, stop_place X s = Some (z, r_mode r) /\ Qsumf (diff r d) (firstn n (nodes_of r d)) == tget (t_l T) (r_id r) d s
    end.
  Proof.
    intros Hr NC HO. destruct (HO d) as (O1 & O2 & O3). pose proof (subseq_filter _ _ O1 O3) as SF. set (p := fun n => existsb (Z.eqb n) (visits r d)) in *.
    assert (SUM : Qsumf (diff r d) (firstn n (nodes_of r d)) == Qsumf (diff r d) (filter p (firstn n (nodes_of r d)))).
    { apply sum_filter. intros x _ Hx. apply diff_none; auto. intro C. unfold p in Hx. assert (existsb (Z.eqb x) (visits r d) = true) by (apply existsb_exists; exists x; split; auto; apply Z.eqb_refl). congruence. }
    unfold last_stop. fold p. rewrite find_rev_filter. destruct (filter_firstn p (nodes_of r d) n) as (m & Em). rewrite SF in Em. rewrite Em in *. destruct m as [|m]; [cbn [firstn rev]; rewrite SUM; reflexivity|].
    assert (CUT : exists j, (firstn (S m) (visits r d) = [] \/ exists z, nth_error (visits r d) j = Some z /\ firstn (S m) (visits r d) = firstn (S j) (visits r d))).
    { destruct (Nat.lt_ge_cases m (length (visits r d))) as [L|L].
      - exists m. right. destruct (nth_error (visits r d) m) as [z|] eqn:E; [|apply nth_error_None in E; lia]. eauto.
      - exists (length (visits r d) - 1)%nat. rewrite (firstn_all2 (n := S m)) by lia. destruct (visits r d) as [|v0 vs] eqn:EV; [auto|]. right. destruct (nth_error (v0 :: vs) (length (v0 :: vs) - 1)) as [z|] eqn:E; [|apply nth_error_None in E; cbn in E; lia]. exists z. split; auto. rewrite firstn_all2; auto. cbn. lia. }
    destruct CUT as (j & [C|(z & Hz & C)]); rewrite C in *; [cbn [rev]; rewrite SUM; reflexivity|]. replace (rev (firstn (S j) (visits r d))) with (rev (firstn j (visits r d) ++ [z])) by (rewrite (firstn_snoc _ _ _ Hz); auto). rewrite rev_app_distr. cbn [rev app]. destruct (visit_node r d Hr NC) as (b & Hb). destruct (Hb _ _ Hz) as (rn & s & _ & _ & _ & _ & Ps & _).
    exists s. split; auto. rewrite SUM. symmetry. apply (load_prefix r d Hr NC j z s Hz Ps).
  Qed.
  Lemma at_total t r d nodes : tab_wf t -> NoDup nodes -> (forall s, In s (map fst (trow t r d)) -> exists z m, stop_place X s = Some (z, m) /\ In z nodes) ->
    Qsumf (at_node X t r d) nodes == Qsumf snd (trow t r d).
  Proof.
    intros W ND KP. unfold at_node. rewrite Qsumf_swap. rewrite (Qsumf_ext _ (tget t r d)).
    - rewrite <- (Qsumf_incl Nat.eq_dec (tget t r d) (map fst (trow t r d))); [|apply row_nodup; auto|apply seq_NoDup| |].
      + rewrite Qsumf_map. apply Qsumf_ext. intros [s q] Hs. cbn [fst snd]. unfold tget, dget0. rewrite (In_dget Nat.eqb Neqb_spec _ s q (row_nodup _ _ _ W) Hs). reflexivity.
      + intros s Hs. apply in_seq. destruct (KP s Hs) as (z & m & Pz & _). destruct (place_id _ _ _ _ Pz). lia.
      + intros s _ Hs. rewrite tget_nokey; auto. reflexivity.
    - intros s _. destruct (in_dec Nat.eq_dec s (map fst (trow t r d))) as [Hs|Hs].
      + destruct (KP s Hs) as (z & m & Pz & Hz). rewrite Pz. apply (Qsumf_pick (fun _ => tget t r d s) (fun y => (z =? y)%Z) z); auto. intros y _. rewrite Z.eqb_eq. split; auto.
      + rewrite (tget_nokey _ _ _ _ Hs). apply Qsumf_zero. intros n _. destruct (stop_place X s) as [[z m]|]; [destruct (z =? n)%Z|]; reflexivity.
  Qed.
End Carried.

(** ** C56 *)
Definition sections_dir (row : nrow) (d : dir) : list (Z * Z * Q) := match d with DI => nr_i row | DR => nr_r row end.
Lemma row_open_dir X z v f k ct r row : row_open X z v f k ct r = Ok row -> forall d p a q, nth_error (sections_dir row d) p = Some (a, q) ->
  ~ k == 0 /\ exists c, q = Qabs c /\ c * k == Qsumf (contrib X z v (r_id r) d) (firstn (S p) (nodes_of r d)).
Proof.
  intros H d p a q E. destruct (row_open_spec _ _ _ _ _ _ _ _ H) as (_ & _ & _ & _ & _ & _ & _ & _ & _ & A & C & N). split.
  - apply (N (a, q)). apply nth_error_In in E. apply in_or_app. destruct d; auto.
  - destruct d; [apply (A _ _ _ E)|apply (C _ _ _ E)].
Qed.
(** In the table of the lines, a section of an open line whose passengers board and alight at the same time has
    the passengers who boarded so far minus those who alighted so far, over the capacity; that is what the vehicle
    carries when it leaves the last stop before the section, so no section has more than 1. *)
Theorem C56_carried : forall B fg o e rows, new_optimizer B fg = Ok o -> NoDup (map r_id (pb_routes B)) -> (forall r d, In r (pb_routes B) -> NoDup (visits r d)) ->
  (forall r, In r (pb_routes B) -> r_type r <> CIRCULAR -> open_line r) -> get_network_results o (Some e) = Ok rows ->
  (forall f o', fopt_to_f (map r_id (pb_routes B)) (e_x e) = Ok f -> new_optimizer B (Some f) = Ok o' -> loaded B f o') ->
  exists f o' t, fopt_to_f (map r_id (pb_routes B)) (e_x e) = Ok f /\ new_optimizer B (Some f) = Ok o' /\ boardings o' f = Ok t /\
    Forall2 (fun r row => r_type r <> CIRCULAR -> m_bya (r_mode r) == 1 -> 0 < freq f (r_id r) ->
      forall d p a q, nth_error (match d with DI => nr_i row | DR => nr_r row end) p = Some (a, q) ->
        q * nr_k row == Qabs (Qsumf (fun n => at_node (o_X o') (t_z t) (r_id r) d n - at_node (o_X o') (t_v t) (r_id r) d n) (firstn (S p) (nodes_of r d))) /\
        match last_stop (visits r d) (firstn (S p) (nodes_of r d)) with
        | None => q == 0
        | Some n => exists s, stop_place (o_X o') s = Some (n, r_mode r) /\ q * nr_k row == Qabs (tget (t_l t) (r_id r) d s)
        end /\
        ((forall d s, 0 <= tget (t_l t) (r_id r) d s) -> q <= 1)) (pb_routes B) rows.
Proof.
  intros B fg o e rows H ND VIS OL HR HL. destruct (results_inv _ _ _ _ _ H HR) as (f & o' & t & ltt & ct & z & v & E1 & E2 & E3 & E4 & E5 & F). exists f, o', t. do 3 (split; auto). pose proof (HL f o' E1 E2) as FI. unfold loaded in FI.
  unfold boardings in E3. pose proof (gab_wf _ _ _ _ _ _ E3) as (WZ & WV & WL). destruct (cycle_fold (t_z t) (t_v t) ltt (pb_routes B) [] _ _ (read_refl _ _ WZ) (read_refl _ _ WV) ND) as (ct1 & z1 & v1 & EF & RZ & RV & _).
  unfold get_cycle_time in E5. assert (EQ : (ct, z, v) = (ct1, z1, v1)) by (etransitivity; [symmetry; exact E5|exact EF]). injection EQ as <- <- <-. destruct (cycle_keys _ _ _ _ _ _ _ _ _ _ (read_refl _ _ WZ) (read_refl _ _ WV) ND EF) as [_ CK].
  revert F. apply Forall2_imp. intros r row Hr R NC HB HF d p a q Hq. unfold row_of in R. apply Qltb_lt in HF. rewrite HF in R. replace (is_circular (r_type r)) with false in R by (destruct (r_type r); auto; contradiction).
  destruct (row_open_dir _ _ _ _ _ _ _ _ R d p a q Hq) as (NK & c & -> & Ec). destruct (row_open_spec _ _ _ _ _ _ _ _ R) as (_ & _ & _ & Ek & _). rewrite Ek. set (k := freq (get_k (t_l t)) (r_id r)) in *.
  set (X := o_X o') in *.
  assert (MK : dget String.eqb (most_loaded_section (t_l t)) (r_id r) = Some k).
  { unfold k in *. rewrite get_k_freq in *. unfold freq, dget0 in *. destruct (dget String.eqb (most_loaded_section (t_l t)) (r_id r)) eqn:Ed; auto. exfalso. apply NK. reflexivity. }
  destruct (proj2 (C42_most_loaded_section _ _ _ _ _ _ E3) _ _ MK) as (K0 & KL & _). assert (KP : 0 < k) by (apply Qle_lteq in K0; destruct K0 as [K0|K0]; auto; exfalso; apply NK; rewrite <- K0; reflexivity).
  assert (PL : forall s, In s (map fst (trow z (r_id r) d)) -> exists z0, stop_place X s = Some (z0, r_mode r)).
  { intros s Hs. apply (ro_key _ _ _ RZ) in Hs. destruct (key_place _ _ _ _ _ _ _ _ _ _ _ FI ND _ _ _ r d s E3 Hr) as (z0 & P0 & _); [tauto|]. eauto. }
  assert (CT : forall n, contrib X z v (r_id r) d n == diff X t r d n).
  { intro n. unfold diff. rewrite <- (at_node_row _ _ _ _ _ _ _ _ _ _ _ FI (t_z t) z r d n), <- (at_node_row _ _ _ _ _ _ _ _ _ _ _ FI (t_v t) z r d n); auto. unfold contrib. fold X. destruct (stop_in_row X z (r_id r) d n) as [s|]; [rewrite (ro_get _ _ _ RZ), (ro_get _ _ _ RV); reflexivity|ring]. }
  assert (SUM : c * k == Qsumf (diff X t r d) (firstn (S p) (nodes_of r d))) by (rewrite Ec; apply Qsumf_ext; auto).
  assert (AK : Qabs c * k == Qabs (Qsumf (diff X t r d) (firstn (S p) (nodes_of r d)))) by (rewrite <- SUM, Qabs_Qmult, (Qabs_pos k) by lra; reflexivity).
  split; [exact AK|]. pose proof (carried _ _ _ _ _ _ _ _ _ _ _ FI ND VIS _ _ _ E3 r d (S p) Hr NC (OL r Hr NC)) as CA. fold X in CA. destruct (last_stop _ _) as [n|].
  - destruct CA as (s & Ps & Es). split; [exists s; split; auto; rewrite AK, Es; reflexivity|]. intro NN. specialize (NN d s). specialize (KL d s). rewrite Es, (Qabs_pos _ NN) in AK. apply Qmult_le_r with k; auto. lra.
  - rewrite CA in AK. cbn in AK. assert (Z0 : Qabs c == 0). { assert (Qabs c * k == 0 * k) by (rewrite AK; ring). apply Qmult_inj_r in H0; auto. } split; auto. intros _. lra.
Qed.
Print Assumptions C56_carried.
(** The cost per passenger of an open line times its passengers is the cost of its vehicles. *)
Theorem C54_cost : forall B fg o e rows, new_optimizer B fg = Ok o -> NoDup (map r_id (pb_routes B)) ->
  (forall r, In r (pb_routes B) -> r_type r <> CIRCULAR -> forall d, NoDup (nodes_of r d) /\ incl (stops_of r d) (nodes_of r d)) -> get_network_results o (Some e) = Ok rows ->
  (forall f o', fopt_to_f (map r_id (pb_routes B)) (e_x e) = Ok f -> new_optimizer B (Some f) = Ok o' -> loaded B f o') ->
  exists f o' t, fopt_to_f (map r_id (pb_routes B)) (e_x e) = Ok f /\ new_optimizer B (Some f) = Ok o' /\ boardings o' f = Ok t /\
    Forall2 (fun r row => r_type r <> CIRCULAR -> 0 < freq f (r_id r) ->
      let boarding := freq f (r_id r) * Qsumf (fun d => Qsumf snd (trow (t_z t) (r_id r) d)) [DI; DR] in
      ~ boarding == 0 /\ boarding * nr_co row == (m_co (r_mode r) + m_c1 (r_mode r) * nr_k row) * nr_b row) (pb_routes B) rows.
Proof.
  intros B fg o e rows H ND OL HR HL. destruct (results_inv _ _ _ _ _ H HR) as (f & o' & t & ltt & ct & z & v & E1 & E2 & E3 & E4 & E5 & F). exists f, o', t. do 3 (split; auto). pose proof (HL f o' E1 E2) as FI. unfold loaded in FI.
  unfold boardings in E3. pose proof (gab_wf _ _ _ _ _ _ E3) as (WZ & WV & WL). destruct (cycle_fold (t_z t) (t_v t) ltt (pb_routes B) [] _ _ (read_refl _ _ WZ) (read_refl _ _ WV) ND) as (ct1 & z1 & v1 & EF & RZ & RV & _).
  unfold get_cycle_time in E5. assert (EQ : (ct, z, v) = (ct1, z1, v1)) by (etransitivity; [symmetry; exact E5|exact EF]). injection EQ as <- <- <-.
  revert F. apply Forall2_imp. intros r row Hr R NC HF. unfold row_of in R. assert (HF' := HF). apply Qltb_lt in HF'. rewrite HF' in R. replace (is_circular (r_type r)) with false in R by (destruct (r_type r); auto; contradiction).
  destruct (row_open_spec _ _ _ _ _ _ _ _ R) as (_ & _ & _ & Ek & Eb & _ & TB & _). cbn zeta in TB. destruct TB as [N1 CO]. set (X := o_X o') in *.
  assert (PL : forall d s, In s (map fst (trow z (r_id r) d)) -> exists z0, stop_place X s = Some (z0, r_mode r)).
  { intros d s Hs. apply (ro_key _ _ _ RZ) in Hs. destruct (key_place _ _ _ _ _ _ _ _ _ _ _ FI ND _ _ _ r d s E3 Hr) as (z0 & P0 & _); [tauto|]. eauto. }
  assert (BT : forall d, Qsumf (boarded X z (r_id r) d) (nodes_of r d) == Qsumf snd (trow (t_z t) (r_id r) d)).
  { intro d. rewrite <- (at_total X (t_z t) (r_id r) d (nodes_of r d) WZ).
    - apply Qsumf_ext. intros n _. rewrite <- (at_node_row _ _ _ _ _ _ _ _ _ _ _ FI (t_z t) z r d n); auto; [|intros; apply (ro_old _ _ _ RZ); auto|apply PL]. unfold boarded. fold X. destruct (stop_in_row X z (r_id r) d n); [rewrite (ro_get _ _ _ RZ)|]; reflexivity.
    - apply (OL r Hr NC d).
    - intros s Hs. destruct (key_place _ _ _ _ _ _ _ _ _ _ _ FI ND _ _ _ r d s E3 Hr (or_introl Hs)) as (z0 & P0 & V0). exists z0, (r_mode r). split; auto. apply (OL r Hr NC d). unfold visits in V0. destruct (r_type r); auto. contradiction. }
  pose proof (BT DI) as BI. pose proof (BT DR) as BR. cbn [nodes_of] in BI, BR. rewrite BI, BR in N1, CO. cbn zeta. rewrite Qsumf_two. split.
  - intro C. apply N1. apply Qmult_integral in C. destruct C as [C|C]; [lra|auto].
  - rewrite CO, Ek, Eb. ring.
Qed.
Print Assumptions C54_cost.

(** ** The circular lines *)
Lemma lmax_spec l : l <> [] -> (forall x, In x l -> x <= lmax l) /\ In (lmax l) l.
Proof.
  destruct l as [|q l]; [congruence|]. intros _. unfold lmax. revert q. induction l as [|y l IH]; intro q; cbn [fold_left].
  - split; [intros x [->|[]]; lra|left; auto].
  - destruct (Qltb q y) eqn:E.
    + apply Qltb_lt in E. destruct (IH y) as [A C]. split; [|right; auto]. intros x [->|[->|Hx]]; [|apply A; left; auto|apply A; right; auto]. specialize (A y (or_introl eq_refl)). lra.
    + apply Qltb_ge in E. destruct (IH q) as [A C]. split; [|destruct C as [C|C]; [left; auto|right; right; auto]]. intros x [->|[->|Hx]]; [apply A; left; auto| |apply A; right; auto]. specialize (A q (or_introl eq_refl)). lra.
Qed.
Lemma lmin_spec l : l <> [] -> (forall x, In x l -> lmin l <= x) /\ In (lmin l) l.
Proof.
  destruct l as [|q l]; [congruence|]. intros _. unfold lmin. revert q. induction l as [|y l IH]; intro q; cbn [fold_left].
  - split; [intros x [->|[]]; lra|left; auto].
  - destruct (Qltb y q) eqn:E.
    + apply Qltb_lt in E. destruct (IH y) as [A C]. split; [|right; auto]. intros x [->|[->|Hx]]; [|apply A; left; auto|apply A; right; auto]. specialize (A y (or_introl eq_refl)). lra.
    + apply Qltb_ge in E. destruct (IH q) as [A C]. split; [|destruct C as [C|C]; [left; auto|right; right; auto]]. intros x [->|[->|Hx]]; [apply A; left; auto| |apply A; right; auto]. specialize (A q (or_introl eq_refl)). lra.
Qed.
Lemma loads_all X z l r d (h : Z -> Q) : forall nodes tb ls, (forall n, In n nodes -> exists s, stop_in_row X l r d n = Some s /\ tget l r d s = h n) ->
  snd (fold_left (fun '(tb, ls) node =>
    (match stop_in_row X z r d node with Some s => tb + tget z r d s | None => tb end,
     match stop_in_row X l r d node with Some s => ls ++ [tget l r d s] | None => ls end)) nodes (tb, ls)) = ls ++ map h nodes.
Proof.
  induction nodes as [|n nodes IH]; intros tb ls H; cbn [fold_left snd map]; [rewrite app_nil_r; auto|]. destruct (H n (or_introl eq_refl)) as (s & Es & Eh). rewrite Es. rewrite IH by (intros; apply H; right; auto). rewrite <- app_assoc, Eh. reflexivity.
Qed.
(** On a circular line with passengers on board between any two stops, the load of a section is what the vehicle
    carries when it leaves the node where the section starts, over the capacity, and the least load is that of the
    node where it carries least. *)
Theorem C56_ring : forall B fg o e rows, new_optimizer B fg = Ok o -> NoDup (map r_id (pb_routes B)) ->
  get_network_results o (Some e) = Ok rows ->
  (forall f o', fopt_to_f (map r_id (pb_routes B)) (e_x e) = Ok f -> new_optimizer B (Some f) = Ok o' -> loaded B f o') ->
  exists f o' t, fopt_to_f (map r_id (pb_routes B)) (e_x e) = Ok f /\ new_optimizer B (Some f) = Ok o' /\ boardings o' f = Ok t /\
    Forall2 (fun r row => forall d, r_type r = CIRCULAR -> (d = DI /\ r_nr r = [] /\ r_sr r = [] \/ d = DR /\ r_ni r = [] /\ r_si r = []) -> incl (visits r d) (nodes_of r d) -> 0 < freq f (r_id r) ->
      (forall n, In n (nodes_of r d) -> 0 < at_node (o_X o') (t_l t) (r_id r) d n) ->
      (forall p i j q, nth_error (match d with DI => nr_i row | DR => nr_r row end) p = Some (i, j, q) ->
        nth_error (nodes_of r d) p = Some i /\ q * nr_k row == at_node (o_X o') (t_l t) (r_id r) d i /\ q <= 1) /\
      (nodes_of r d <> [] -> exists m n, nr_min row = Fin m /\ In n (nodes_of r d) /\ m * nr_k row == at_node (o_X o') (t_l t) (r_id r) d n /\
        forall n', In n' (nodes_of r d) -> at_node (o_X o') (t_l t) (r_id r) d n <= at_node (o_X o') (t_l t) (r_id r) d n')) (pb_routes B) rows.
Proof.
  intros B fg o e rows H ND HR HL. destruct (results_inv _ _ _ _ _ H HR) as (f & o' & t & ltt & ct & z & v & E1 & E2 & E3 & E4 & E5 & F). exists f, o', t. do 3 (split; auto). pose proof (HL f o' E1 E2) as FI. unfold loaded in FI.
  unfold boardings in E3. pose proof (gab_wf _ _ _ _ _ _ E3) as (WZ & WV & WL). clear E4 E5.
  revert F. apply Forall2_imp. intros r row Hr R d HC HD HI HF HP. unfold row_of in R. assert (HF' := HF). apply Qltb_lt in HF'. rewrite HF' in R. rewrite HC in R. cbn [is_circular] in R. unfold row_ring in R. fold (ring_nodes r) in R. set (X := o_X o') in *. set (l := t_l t) in *.
  assert (PL : forall d s, In s (map fst (trow l (r_id r) d)) -> exists z0, stop_place X s = Some (z0, r_mode r) /\ In z0 (visits r d)).
  { intros d0 s Hs. destruct (key_place _ _ _ _ _ _ _ _ _ _ _ FI ND _ _ _ r d0 s E3 Hr) as (z0 & P0 & V0); [tauto|]. eauto. }
  set (nodes := nodes_of r d) in *.
  destruct (list_eq_dec Z.eq_dec nodes []) as [C|NE].
  { split; [|congruence]. intros p i j q Hq. exfalso. assert (KB : nth_error (match d with DI => nr_i row | DR => nr_r row end) p <> None) by congruence. apply KB. unfold nodes in C. destruct HD as [(-> & A1 & A2)|(-> & A1 & A2)]; cbn [nodes_of] in C; unfold ring_nodes in R; rewrite C, A1 in R.
    - destruct (loads X z l (r_id r) DR []) as [tb ls]. apply bind_ok in R. destruct R as (co & _ & R). apply bind_ok in R. destruct R as ([ls' m] & _ & R). apply bind_ok in R. destruct R as (t0 & Et & R). apply bind_ok in R. destruct R as (fd & _ & R). injection R as <-. cbn. destruct p; auto.
    - destruct (loads X z l (r_id r) DR []) as [tb ls]. apply bind_ok in R. destruct R as (co & _ & R). apply bind_ok in R. destruct R as ([ls' m] & _ & R). apply bind_ok in R. destruct R as (t0 & Et & R). apply bind_ok in R. destruct R as (fd & _ & R). injection R as <-. cbn. injection Et as <-. destruct p; auto. }
  assert (RN : ring_nodes r = (nodes, d)). { unfold ring_nodes, nodes in *. destruct HD as [(-> & A1 & A2)|(-> & A1 & A2)]; cbn [nodes_of] in *; [destruct (r_ni r); [congruence|auto]|rewrite A1; auto]. }
  rewrite RN in R.
  assert (FIND : forall n, In n nodes -> exists s, stop_in_row X l (r_id r) d n = Some s /\ stop_place X s = Some (n, r_mode r) /\ tget l (r_id r) d s == at_node X l (r_id r) d n).
  { intros n Hn. pose proof (at_node_row _ _ _ _ _ _ _ _ _ _ _ FI l l r d n Hr) as AR. fold X in AR. assert (PL' : forall s', In s' (map fst (trow l (r_id r) d)) -> exists z0, stop_place X s' = Some (z0, r_mode r)) by (intros s' Hs'; destruct (PL d s' Hs') as (z0 & P0 & _); eauto).
    specialize (AR (fun _ x => x) PL'). specialize (HP n Hn). destruct (stop_in_row X l (r_id r) d n) as [s|] eqn:Es; [|lra]. exists s. split; auto. split; auto. unfold stop_in_row in Es. apply find_some in Es. destruct Es as [Hs En]. apply Z.eqb_eq in En. destruct (PL' s Hs) as (z0 & P0). destruct (place_id _ _ _ _ P0) as [EZ _]. rewrite P0. congruence. }
  set (h := fun n => match stop_in_row X l (r_id r) d n with Some s => tget l (r_id r) d s | None => 0 end).
  assert (Hh : forall n, In n nodes -> h n == at_node X l (r_id r) d n) by (intros n Hn; destruct (FIND n Hn) as (s & Es & _ & Ea); unfold h; rewrite Es; auto).
  assert (LS : snd (loads X z l (r_id r) d nodes) = map h nodes). { unfold loads. rewrite (loads_all X z l (r_id r) d h nodes 0 []); auto. intros n Hn. destruct (FIND n Hn) as (s & Es & _). exists s. split; auto. unfold h. rewrite Es. auto. }
  destruct (loads X z l (r_id r) d nodes) as [tb ls]. cbn [snd] in LS. subst ls. apply bind_ok in R. destruct R as (co & _ & R). apply bind_ok in R. destruct R as ([ls' m] & El & R). apply bind_ok in R. destruct R as (t0 & Et & R). apply bind_ok in R. destruct R as (fd & _ & R). injection R as <-. cbn [nr_i nr_r nr_k] in *.
  set (LS := map h nodes) in *. assert (NL : LS <> []) by (unfold LS; destruct nodes; [congruence|discriminate]). assert (ls' = LS). { destruct LS as [|q0 L0]; [congruence|]. apply bind_ok in El. destruct El as (mm & _ & El). congruence. } subst ls'. assert (Em : exists q0, qdiv (lmin LS) (lmax LS) = Ok q0 /\ m = q0) by (destruct LS; [congruence|]; apply bind_ok in El; destruct El as (q0 & E0 & El); injection El as ->; eauto). clear El.
  destruct (lmax_spec LS NL) as [LM1 LM2]. destruct (lmin_spec LS NL) as [LN1 LN2].
  assert (HM : lmax LS == freq (get_k l) (r_id r)).
  { rewrite get_k_freq. assert (IN : exists n0, In n0 nodes /\ h n0 = lmax LS) by (unfold LS in LM2; apply in_map_iff in LM2; destruct LM2 as (n0 & A & C); eauto). destruct IN as (n0 & Hn0 & En0). destruct (FIND n0 Hn0) as (s0 & F1 & F2 & F3).
    assert (PR : In s0 (map fst (trow l (r_id r) d))) by (unfold stop_in_row in F1; apply find_some in F1; tauto).
    assert (KEY : exists mx, dget String.eqb (most_loaded_section l) (r_id r) = Some mx). { destruct (proj1 (C42_most_loaded_section _ _ _ _ _ _ E3)). destruct (dget String.eqb (most_loaded_section l) (r_id r)) as [mx|] eqn:Ed; [eauto|]. exfalso. apply (dget_None String.eqb Seqb_spec) in Ed. unfold l in Ed. rewrite (proj1 (C42_most_loaded_section _ _ _ _ _ _ E3)) in Ed. apply Ed. fold l. clear - PR. unfold trow in PR. unfold dget0 in PR at 2. destruct (dget String.eqb l (r_id r)) eqn:E; [apply (dget_In String.eqb Seqb_spec) in E; apply (in_map fst) in E; auto|]. unfold dget0 in PR. cbn in PR. contradiction. }
    destruct KEY as (mx & Km). unfold freq, dget0. rewrite Km. destruct (proj2 (C42_most_loaded_section _ _ _ _ _ _ E3) _ _ Km) as (K0 & KL & KE). fold l in KL, KE. apply Qle_antisym.
    - rewrite <- En0. unfold h. rewrite F1. apply KL.
    - assert (LP : 0 < lmax LS) by (rewrite <- En0, (Hh n0 Hn0); auto). destruct KE as [KE|(d1 & s1 & KE)]; [lra|]. destruct (in_dec Nat.eq_dec s1 (map fst (trow l (r_id r) d1))) as [I1|I1]; [|rewrite (tget_nokey _ _ _ _ I1) in KE; lra]. destruct (PL d1 s1 I1) as (z1 & P1 & V1).
      assert (d1 = d). { destruct HD as [(-> & _ & A2)|(-> & _ & A2)]; destruct d1; auto; unfold visits in V1; rewrite HC in V1; cbn [stops_of] in V1; rewrite A2 in V1; contradiction. } subst d1.
      assert (Hz1 : In z1 nodes) by (apply HI; auto). destruct (FIND z1 Hz1) as (s2 & G1 & G2 & _). assert (s2 = s1) by (eapply place_inj; eauto). subst s2. rewrite KE. replace (tget l (r_id r) d s1) with (h z1) by (unfold h; rewrite G1; auto). apply LM1. unfold LS. apply in_map. auto. }
  assert (LP : 0 < lmax LS). { unfold LS in LM2 at 2. apply in_map_iff in LM2. destruct LM2 as (n0 & <- & Hn0). rewrite (Hh n0 Hn0). auto. }
  split.
  { intros p i j q Hq.
  assert (Eq : exists c n, nth_error nodes p = Some n /\ n = i /\ charge_at LS p = Ok c /\ q = Qabs c).
  { assert (Hq' : nth_error t0 p = Some (i, j, q)). { unfold ring_nodes in RN. destruct HD as [(-> & _)|(-> & B1 & _)]; [destruct (r_ni r); [injection RN as _ C; discriminate|exact Hq]|rewrite B1 in Hq; exact Hq]. }
    clear Hq. destruct nodes as [|i0 nodes']; [congruence|]. apply bind_ok in Et. destruct Et as (c & Ec & Et). destruct (ring_sections_spec _ _ _ _ _ _ Et) as [A C]. destruct (nth_error (i0 :: nodes') p) as [n|] eqn:En.
    - assert (n = i). { apply (f_equal (fun l => nth_error l p)) in A. rewrite nth_error_map, Hq' in A. cbn [option_map fst] in A. symmetry in A. revert A En. clear. generalize (i0 :: nodes'). clear. intro l. revert p. induction l as [|a l IH]; intros p A En; [destruct p; discriminate|]. destruct l as [|b l]; [destruct p as [|[|p]]; discriminate|]. rewrite arcs_of_cons2 in A. destruct p as [|p]; cbn [nth_error] in *; [congruence|eauto]. }
      destruct (C _ _ _ Hq') as [[-> ->]|(p' & c' & -> & E' & ->)]; [exists c, n; auto|exists c', n; auto].
    - exfalso. apply nth_error_None in En. apply (f_equal (@length _)) in A. rewrite map_length in A. assert (p < length t0)%nat by (apply nth_error_Some; congruence). assert (LA : forall l : list Z, (length (arcs_of l) <= length l)%nat) by (clear; induction l as [|a [|b l] IH]; [cbn; lia|cbn; lia|rewrite arcs_of_cons2; cbn [length] in *; lia]). specialize (LA (i0 :: nodes')). lia. }
  destruct Eq as (c & n & En & -> & Ec & ->). split; auto. assert (In i nodes) as Hi by (eapply nth_error_In; eauto). unfold charge_at in Ec. unfold LS in Ec at 1. rewrite nth_error_map, En in Ec. cbn [option_map] in Ec. apply qdiv_inv in Ec. destruct Ec as [NM ->].
  assert (HQ : 0 <= h i / lmax LS) by (apply Qle_shift_div_l; auto; rewrite Qmult_0_l, (Hh i Hi); apply Qlt_le_weak; auto). rewrite (Qabs_pos _ HQ). split.
  - rewrite <- HM, <- (Hh i Hi). field. auto.
  - apply Qle_shift_div_r; auto. rewrite Qmult_1_l. apply LM1. unfold LS. apply in_map. auto.
  }
  intros _. destruct Em as (q0 & Em & ->). apply qdiv_inv in Em. destruct Em as [NM ->]. unfold LS in LN2 at 2. apply in_map_iff in LN2. destruct LN2 as (n & En & Hn).
  assert (HQ : 0 <= lmin LS / lmax LS) by (apply Qle_shift_div_l; auto; rewrite Qmult_0_l, <- En, (Hh n Hn); apply Qlt_le_weak; auto).
  eexists. exists n. split; [reflexivity|]. split; auto. split; [rewrite (Qabs_pos _ HQ), <- HM, <- (Hh n Hn), En; field; auto|]. intros n' Hn'. rewrite <- (Hh n Hn), <- (Hh n' Hn'), En. apply LN1. unfold LS. apply in_map. auto.
Qed.
Print Assumptions C56_ring.

(** ** When the frequencies suit the report *)
(** a problem as the classes of the package let the user define it, all of whose lines run *)
Lemma loaded_running B f o : new_optimizer B (Some f) = Ok o -> ext_input (pb_graph B) (pb_routes B) -> NoDup (map r_id (pb_routes B)) -> (forall q, 0 <= geo_sqrt (pb_geo B) q) ->
  0 <= q_pt (pb_pass B) -> 0 < q_pv (pb_pass B) -> 0 < q_pw (pb_pass B) -> 0 <= q_pa (pb_pass B) ->
  (forall r, In r (pb_routes B) -> 0 <= m_tat (r_mode r) /\ 0 <= m_v (r_mode r) /\ 0 <= m_d (r_mode r) /\ 0 < m_theta (r_mode r)) ->
  (length (xnodes (o_X o)) < pb_fuel B)%nat -> (forall id, 0 <= freq f id) -> (forall r, In r (pb_routes B) -> 0 < freq f (r_id r)) -> loaded B f o.
Proof.
  intros H I ND HS P1 P2 P3 P4 HM HU HF HR. destruct (new_optimizer_attrs _ _ _ H) as (_ & Ef & _ & _ & _ & EX & EH & _).
  assert (FR : forall id, 0 <= freq (o_f o) id).
  { intro id. rewrite Ef. unfold f0. cbn [fst]. generalize (pb_routes B). intro rs. assert (A : forall rs d, (forall id, 0 <= freq d id) -> forall id, 0 <= freq (fold_left (fun d r => dset String.eqb d (r_id r) (freq f (r_id r))) rs d) id).
    { clear - HF. induction rs as [|r rs IH]; intros d Hd i; cbn [fold_left]; auto. apply IH. intro j. unfold freq at 1. rewrite (dget0_dset String.eqb Seqb_spec). destruct (j =? r_id r)%string; auto. }
    apply A. intro j. unfold freq, dget0. cbn. lra. }
  assert (HG : hyper_graph (o_X o)).
  { eapply built_graph_is_hyper_graph; [exact I|exact EX|auto|auto|intros r Hr; destruct (HM r Hr) as (A & C & D & _); auto|]. intro id. unfold route_frequency. apply FR. }
  assert (WG : weights (o_X o) (pb_pass B)).
  { eapply built_graph_weights; [exact I|exact EX|intros r Hr; destruct (HM r Hr) as (_ & _ & _ & A); lra|auto|lra|auto|]. left. split; auto. intros r Hr. apply (HM r Hr). }
  split; auto. intros e He. eapply all_run; eauto.
Qed.
Lemma freq2 a b x y : 0 <= x -> 0 <= y -> forall id, 0 <= freq [(a, x); (b, y)] id.
Proof. intros Hx Hy id. unfold freq, dget0. cbn [dget]. destruct (id =? a)%string; auto. destruct (id =? b)%string; auto. lra. Qed.
Lemma freq1 a x : 0 <= x -> forall id, 0 <= freq [(a, x)] id.
Proof. intros Hx id. unfold freq, dget0. cbn [dget]. destruct (id =? a)%string; auto. lra. Qed.
Definition ex_dem (a b : Z) (q : Q) : demand := fst (change_vij (new_demand (g_nodes ex_g34) 3) a b q).
Definition ex_Bd (d : demand) (n : network) : problem := mkProblem ex_geo ex_city d ex_P n 100.
Lemma ex_graph_city : c_graph ex_city = ex_g34. Proof. vm_compute. reflexivity. Qed.
Lemma ex_loaded d n f o : new_optimizer (ex_Bd d n) (Some f) = Ok o -> ext_input ex_g34 (nw_routes n) -> NoDup (map r_id (nw_routes n)) ->
  (forall r, In r (nw_routes n) -> 0 <= m_tat (r_mode r) /\ 0 <= m_v (r_mode r) /\ 0 <= m_d (r_mode r) /\ 0 < m_theta (r_mode r)) ->
  (length (xnodes (o_X o)) < 100)%nat -> (forall id, 0 <= freq f id) -> (forall r, In r (nw_routes n) -> 0 < freq f (r_id r)) -> loaded (ex_Bd d n) f o.
Proof.
  intros H I ND HM HX HF HR. apply (loaded_running (ex_Bd d n) f o H); [|exact ND|exact ex_sqrt_nonneg|discriminate|reflexivity|reflexivity|discriminate|exact HM|exact HX|exact HF|exact HR]. unfold pb_graph, pb_routes. cbn [pb_city pb_net ex_Bd]. rewrite ex_graph_city. exact I.
Qed.
Definition ex_ff : fdict := [("t"%string, 10); ("te"%string, 20)].
Definition ex_res : entry := ex_e [10; 20] 1 (Fin 0) (Fin 5).
Example C56_ex : NoDup (map r_id (pb_routes ex_B)) /\ (forall r d, In r (pb_routes ex_B) -> NoDup (visits r d)) /\
  (forall r, In r (pb_routes ex_B) -> r_type r <> CIRCULAR -> open_line r /\ m_bya (r_mode r) == 1) /\
  (forall f o', fopt_to_f (map r_id (pb_routes ex_B)) (e_x ex_res) = Ok f -> new_optimizer ex_B (Some f) = Ok o' -> loaded ex_B f o') /\
  exists o rows, new_optimizer ex_B None = Ok o /\ get_network_results o (Some ex_res) = Ok rows /\
    map (fun row => map (fun x => Qred (snd x)) (nr_i row ++ nr_r row)) rows = [[5 # 21; 5 # 21; 5 # 21; 0; 1; 1]; [1; 1; 1; 0; 0; 0]].
Proof.
  split; [vm_compute; repeat constructor; cbn; intuition discriminate|]. split; [|split; [|split]].
  - intros r d [<-|[<-|[]]]; destruct d; vm_compute; repeat constructor; cbn; intuition discriminate.
  - intros r [<-|[<-|[]]] _; (split; [|vm_compute; reflexivity]); intro d; (split; [|split]); try (destruct d; vm_compute; repeat constructor; cbn; intuition discriminate); destruct d; vm_compute; repeat first [apply subseq_take|apply subseq_nil|apply subseq_skip].
  - intros f o' Ef Eo. assert (E : f = ex_ff) by (vm_compute in Ef; injection Ef as <-; reflexivity). clear Ef. subst f.
    assert (HX : Ok (length (xnodes (o_X o'))) = (let* o := new_optimizer ex_B (Some ex_ff) in Ok (length (xnodes (o_X o))))) by (rewrite Eo; reflexivity).
    change ex_B with (ex_Bd ex_demand ex_net) in *. apply ex_loaded; [exact Eo|exact ex_X2_input|vm_compute; repeat constructor; cbn; intuition discriminate|modes_tac| |apply freq2; discriminate|intros r [<-|[<-|[]]]; reflexivity].
    clear Eo. revert HX. vm_compute (let* o := _ in _). intro HX. injection HX as ->. cbn. lia.
  - do 2 eexists. split; [vm_compute; reflexivity|]. split; vm_compute; reflexivity.
Qed.
(** The same example meets the hypotheses of C54_rows and C54_cost. *)
Example C54_ex : (forall r, In r (pb_routes ex_B) -> r_type r = CIRCULAR -> r_ni r = [] \/ r_nr r = []) /\
  (forall r, In r (pb_routes ex_B) -> r_type r <> CIRCULAR -> forall d, NoDup (nodes_of r d) /\ incl (stops_of r d) (nodes_of r d)).
Proof.
  split; [intros r [<-|[<-|[]]]; discriminate|]. intros r [<-|[<-|[]]] _ d; (split; [destruct d; vm_compute; repeat constructor; cbn; intuition discriminate|destruct d; intros x; cbn; intuition]).
Qed.

(** ** What the report gets wrong *)
(** (optimizer.py 644) No report at all when a line that runs carries nobody. *)
Theorem C54_line_without_passengers_refuted : exists B o e f o', new_optimizer B None = Ok o /\ NoDup (map r_id (pb_routes B)) /\ fopt_to_f (map r_id (pb_routes B)) (e_x e) = Ok f /\ (forall r, In r (pb_routes B) -> 0 < freq f (r_id r)) /\
  new_optimizer B (Some f) = Ok o' /\ loaded B f o' /\ get_network_results o (Some e) = Err ZeroDivisionError.
Proof.
  exists (ex_Bd (ex_dem 4 1 7) ex_net). eexists. exists ex_res. exists [("t"%string, 10); ("te"%string, 20)].
  assert (A : exists o', new_optimizer (ex_Bd (ex_dem 4 1 7) ex_net) (Some [("t"%string, 10); ("te"%string, 20)]) = Ok o' /\ (length (xnodes (o_X o')) < 100)%nat) by (eexists; split; [vm_compute; reflexivity|vm_compute; lia]). destruct A as (o' & Eo & HX). exists o'.
  split; [vm_compute; reflexivity|]. split; [vm_compute; repeat constructor; cbn; intuition discriminate|]. split; [vm_compute; reflexivity|]. split; [intros r [<-|[<-|[]]]; reflexivity|]. split; [exact Eo|]. split; [|vm_compute; reflexivity].
  apply ex_loaded; [exact Eo|exact ex_X2_input|vm_compute; repeat constructor; cbn; intuition discriminate|modes_tac|exact HX|apply freq2; discriminate|intros r [<-|[<-|[]]]; reflexivity].
Qed.
Print Assumptions C54_line_without_passengers_refuted.
Definition ex_line_m : route := mkRoute "m" ex_metro [1;2;4;3]%Z [3;4;2;1]%Z [1;2;4;3]%Z [3;4;2;1]%Z CUSTOM.
Definition ex_net_m : network := mkNetwork ex_g34 [ex_line_m] ["m"%string] [ex_metro].
Lemma ex_m_input : ext_input ex_g34 [ex_line_m].
Proof. ext_input_tac. Qed.
(** (optimizer.py 615) For a mode whose passengers board and alight in turn, a section after a stop where people
    only alight is reported full although the vehicle is empty. *)
Theorem C56_sequential_refuted : exists B o e f o' t rows r row p a q s, new_optimizer B None = Ok o /\ NoDup (map r_id (pb_routes B)) /\ fopt_to_f (map r_id (pb_routes B)) (e_x e) = Ok f /\
  new_optimizer B (Some f) = Ok o' /\ loaded B f o' /\ boardings o' f = Ok t /\ get_network_results o (Some e) = Ok rows /\
  nth_error (combine (pb_routes B) rows) 0 = Some (r, row) /\ r_type r <> CIRCULAR /\ open_line r /\ m_bya (r_mode r) == 0 /\ 0 < freq f (r_id r) /\
  nth_error (nr_i row) p = Some (a, q) /\ last_stop (visits r DI) (firstn (S p) (nodes_of r DI)) = Some 4%Z /\ stop_place (o_X o') s = Some (4%Z, r_mode r) /\ tget (t_l t) (r_id r) DI s == 0 /\ q == 1.
Proof.
  exists (ex_Bd (ex_dem 1 4 7) ex_net_m). eexists. exists (ex_e [10] 1 (Fin 0) (Fin 5)). exists [("m"%string, 10)].
  assert (A : exists o', new_optimizer (ex_Bd (ex_dem 1 4 7) ex_net_m) (Some [("m"%string, 10)]) = Ok o' /\ (length (xnodes (o_X o')) < 100)%nat /\ exists t, boardings o' [("m"%string, 10)] = Ok t /\ stop_place (o_X o') 3 = Some (4%Z, ex_metro) /\ tget (t_l t) "m"%string DI 3 == 0).
  { eexists. split; [vm_compute; reflexivity|]. split; [vm_compute; lia|]. eexists. split; [vm_compute; reflexivity|]. split; vm_compute; reflexivity. }
  destruct A as (o' & Eo & HX & t & Et & Es & El). exists o', t. do 2 eexists. eexists. exists 2%nat. do 2 eexists. exists 3%nat.
  split; [vm_compute; reflexivity|]. split; [vm_compute; repeat constructor; cbn; intuition discriminate|]. split; [vm_compute; reflexivity|]. split; [exact Eo|]. split.
  { apply ex_loaded; [exact Eo|exact ex_m_input|vm_compute; repeat constructor; cbn; intuition discriminate|modes_tac|exact HX|apply freq1; discriminate|intros r [<-|[]]; reflexivity]. }
  split; [exact Et|]. split; [vm_compute; reflexivity|]. split; [cbn; reflexivity|]. split; [discriminate|]. split.
  { intro d. split; [|split]; try (destruct d; vm_compute; repeat constructor; cbn; intuition discriminate); destruct d; vm_compute; repeat first [apply subseq_take|apply subseq_nil|apply subseq_skip]. }
  split; [vm_compute; reflexivity|]. split; [vm_compute; reflexivity|]. split; [vm_compute; reflexivity|]. split; [vm_compute; reflexivity|]. split; [exact Es|]. split; [exact El|vm_compute; reflexivity].
Qed.
Print Assumptions C56_sequential_refuted.
Definition ex_net_c : network := mkNetwork ex_g34 [ex_ring] ["c"%string] [ex_metro].
Lemma ex_c_input : ext_input ex_g34 [ex_ring].
Proof. ext_input_tac. Qed.
(** (optimizer.py 561-597) No report when a circular line is empty between two of its stops. *)
Theorem C56_ring_empty_section_refuted : exists B o e f o', new_optimizer B None = Ok o /\ NoDup (map r_id (pb_routes B)) /\ fopt_to_f (map r_id (pb_routes B)) (e_x e) = Ok f /\ (forall r, In r (pb_routes B) -> 0 < freq f (r_id r)) /\
  new_optimizer B (Some f) = Ok o' /\ loaded B f o' /\ get_network_results o (Some e) = Err IndexError.
Proof.
  exists (ex_Bd (ex_dem 2 8 7) ex_net_c). eexists. exists (ex_e [10] 1 (Fin 0) (Fin 5)). exists [("c"%string, 10)].
  assert (A : exists o', new_optimizer (ex_Bd (ex_dem 2 8 7) ex_net_c) (Some [("c"%string, 10)]) = Ok o' /\ (length (xnodes (o_X o')) < 100)%nat) by (eexists; split; [vm_compute; reflexivity|vm_compute; lia]). destruct A as (o' & Eo & HX). exists o'.
  split; [vm_compute; reflexivity|]. split; [vm_compute; repeat constructor; cbn; intuition discriminate|]. split; [vm_compute; reflexivity|]. split; [intros r [<-|[]]; reflexivity|]. split; [exact Eo|]. split; [|vm_compute; reflexivity].
  apply ex_loaded; [exact Eo|exact ex_c_input|vm_compute; repeat constructor; cbn; intuition discriminate|modes_tac|exact HX|apply freq1; discriminate|intros r [<-|[]]; reflexivity].
Qed.
Print Assumptions C56_ring_empty_section_refuted.
(** (optimizer.py 578) A circular line that carries nobody is reported full on every section. *)
Theorem C56_ring_without_passengers_refuted : exists B o e f o' t rows r row, new_optimizer B None = Ok o /\ NoDup (map r_id (pb_routes B)) /\ fopt_to_f (map r_id (pb_routes B)) (e_x e) = Ok f /\ new_optimizer B (Some f) = Ok o' /\ loaded B f o' /\
  boardings o' f = Ok t /\ get_network_results o (Some e) = Ok rows /\ In (r, row) (combine (pb_routes B) rows) /\ 0 < freq f (r_id r) /\ (forall d s, tget (t_l t) (r_id r) d s == 0) /\ nr_i row <> [] /\ forall a q, In (a, q) (nr_i row) -> q == 1.
Proof.
  exists (ex_Bd (new_demand (g_nodes ex_g34) 3) ex_net_c). eexists. exists (ex_e [10] 1 (Fin 0) (Fin 5)). exists [("c"%string, 10)].
  assert (A : exists o', new_optimizer (ex_Bd (new_demand (g_nodes ex_g34) 3) ex_net_c) (Some [("c"%string, 10)]) = Ok o' /\ (length (xnodes (o_X o')) < 100)%nat /\ boardings o' [("c"%string, 10)] = Ok (mkT [] [] [])).
  { eexists. split; [vm_compute; reflexivity|]. split; [vm_compute; lia|]. vm_compute. reflexivity. }
  destruct A as (o' & Eo & HX & Et). exists o', (mkT [] [] []). do 3 eexists.
  split; [vm_compute; reflexivity|]. split; [vm_compute; repeat constructor; cbn; intuition discriminate|]. split; [vm_compute; reflexivity|]. split; [exact Eo|]. split.
  { apply ex_loaded; [exact Eo|exact ex_c_input|vm_compute; repeat constructor; cbn; intuition discriminate|modes_tac|exact HX|apply freq1; discriminate|intros r [<-|[]]; reflexivity]. }
  split; [exact Et|]. split; [vm_compute; reflexivity|]. split; [left; reflexivity|]. split; [vm_compute; reflexivity|]. split; [intros d s; vm_compute; reflexivity|]. split; [discriminate|]. cbn [nr_i In]. intros a q Hq. repeat (destruct Hq as [Hq|Hq]); try contradiction; injection Hq as _ <-; vm_compute; reflexivity.
Qed.
Print Assumptions C56_ring_without_passengers_refuted.
Definition ex_dem4 : demand := fst (change_vij (ex_dem 2 8 7) 6 4 5).
Example C56_ring_ex : NoDup (map r_id (pb_routes (ex_Bd ex_dem4 ex_net_c))) /\
  exists o f o' t row, new_optimizer (ex_Bd ex_dem4 ex_net_c) None = Ok o /\ fopt_to_f (map r_id (pb_routes (ex_Bd ex_dem4 ex_net_c))) [10] = Ok f /\ new_optimizer (ex_Bd ex_dem4 ex_net_c) (Some f) = Ok o' /\ loaded (ex_Bd ex_dem4 ex_net_c) f o' /\
    boardings o' f = Ok t /\ get_network_results o (Some (ex_e [10] 1 (Fin 0) (Fin 5))) = Ok [row] /\ r_nr ex_ring = [] /\ r_sr ex_ring = [] /\ incl (visits ex_ring DI) (nodes_of ex_ring DI) /\ (forall n, In n (nodes_of ex_ring DI) -> 0 < at_node (o_X o') (t_l t) (r_id ex_ring) DI n) /\
    map (fun x => Qred (snd x)) (nr_i row) = [1; 7 # 12; 1; 5 # 12] /\
    (* CO/PAX: the boardings at the node where the line closes are counted twice (optimizer.py 561-564, 574) *)
    ~ (freq f "c" * Qsumf (fun d => Qsumf snd (trow (t_z t) "c" d)) [DI; DR]) * nr_co row == (m_co ex_metro + m_c1 ex_metro * nr_k row) * nr_b row.
Proof.
  split; [vm_compute; repeat constructor; cbn; intuition discriminate|]. eexists. exists [("c"%string, 10)].
  assert (A : exists o', new_optimizer (ex_Bd ex_dem4 ex_net_c) (Some [("c"%string, 10)]) = Ok o' /\ (length (xnodes (o_X o')) < 100)%nat /\ exists t, boardings o' [("c"%string, 10)] = Ok t /\ forallb (fun n => Qltb 0 (at_node (o_X o') (t_l t) (r_id ex_ring) DI n)) (nodes_of ex_ring DI) = true /\ Qred (Qsumf (fun d => Qsumf snd (trow (t_z t) "c" d)) [DI; DR]) = 6 # 5).
  { eexists. split; [vm_compute; reflexivity|]. split; [vm_compute; lia|]. eexists. split; [vm_compute; reflexivity|]. split; vm_compute; reflexivity. }
  destruct A as (o' & Eo & HX & t & Et & At & Zt). exists o', t. eexists. split; [vm_compute; reflexivity|]. split; [vm_compute; reflexivity|]. split; [exact Eo|]. split.
  { apply ex_loaded; [exact Eo|exact ex_c_input|vm_compute; repeat constructor; cbn; intuition discriminate|modes_tac|exact HX|apply freq1; discriminate|intros r [<-|[]]; reflexivity]. }
  split; [exact Et|]. split; [vm_compute; reflexivity|]. split; [reflexivity|]. split; [reflexivity|]. split; [intros x; cbn; intuition|]. split; [intros n Hn; rewrite forallb_forall in At; apply Qltb_lt; apply At; auto|]. split; [vm_compute; reflexivity|].
  rewrite <- (Qred_correct (Qsumf (fun d => Qsumf snd (trow (t_z t) "c" d)) [DI; DR])), Zt. vm_compute. discriminate.
Qed.
