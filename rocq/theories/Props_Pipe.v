(** * Properties of the whole pipeline: construction of an Optimizer and evaluation of its functions (C61) *)
From Coq Require Import String List ZArith QArith Bool Lia Lqa Relations.
From Verif Require Import PyBase PyFacts Graph GraphSpec GraphProofs GeoEx Props_Graph Demand DemandSpec DemandProofs Props_Demand Mode Route Network RouteSpec Props_Network Predef PredefSpec PredefProofs Props_Predef
  ExtGraph ExtSpec ExtProofs Props_Ext Hyperpath HyperSpec HyperProofs Props_Hyper OdFacts Assignment AssignSpec Props_Assign FlowSpec TableProofs FlowProofs Props_Flow Costs CostSpec Props_Cost UsersCost Props_Users
  Optimizer Props_Opt Props_Results ConnSpec ConnProofs Props_Conn PipeSpec.
Import ListNotations.
Local Open Scope Q_scope.

Lemma f0_nonneg rs fg id : (forall r, In r rs -> 0 <= m_fini (r_mode r)) -> (forall f, fg = Some f -> forall r, In r rs -> 0 <= freq f (r_id r)) ->
  0 <= freq (fst (fst (f0 rs fg))) id.
Proof.
  intros H1 H2. unfold f0. cbn [fst]. set (h := fun r : route => match fg with None => m_fini (r_mode r) | Some f => freq f (r_id r) end).
  change (0 <= freq (fold_left (fun d r => dset String.eqb d (r_id r) (h r)) rs []) id). assert (Hh : forall r, In r rs -> 0 <= h r) by (intros r Hr; unfold h; destruct fg; auto).
  clearbody h. assert (H0 : forall id, 0 <= freq [] id) by (intro; unfold freq, dget0; cbn; lra). revert id. generalize dependent (@nil (string * Q)). clear H1 H2. induction rs as [|r rs IH]; intros d Hd id; cbn [fold_left]; auto.
  apply IH; [intros r' Hr'; apply Hh; right; auto|]. intro j. unfold freq. rewrite (dget0_dset String.eqb Seqb_spec). destruct (j =? r_id r)%string; [apply Hh; left; auto|apply Hd].
Qed.
Lemma f0_route_frequency rs fg r : NoDup (map r_id rs) -> In r rs -> route_frequency rs (Some (fst (fst (f0 rs fg)))) (r_id r) = route_frequency rs fg (r_id r).
Proof.
  intros ND Hr. unfold route_frequency at 1. rewrite (f0_dict rs fg ND r Hr : dget0 String.eqb 0 _ (r_id r) = _). destruct fg as [f|]; [reflexivity|]. unfold route_frequency.
  assert (N : forall l q, ~ In (r_id r) (map r_id l) -> fold_left (fun q r0 => if (r_id r =? r_id r0)%string then m_fini (r_mode r0) else q) l q = q).
  { clear. induction l as [|a l IH]; intros q H; cbn [fold_left]; auto. cbn in H. destruct (String.eqb_spec (r_id r) (r_id a)) as [E|E]; [exfalso; apply H; left; auto|]. apply IH. tauto. }
  generalize 0. induction rs as [|a rs IH]; intro q; [contradiction|]. cbn [fold_left]. inversion ND as [|? ? N1 N2]; subst. destruct Hr as [->|Hr].
  - rewrite String.eqb_refl. rewrite N by auto. reflexivity.
  - apply IH; auto.
Qed.
Lemma f0_travel rs fg o d : NoDup (map r_id rs) -> travel rs (Some (fst (fst (f0 rs fg)))) o d <-> travel rs fg o d.
Proof. intro ND. split; apply C59_more_lines; try (intros x Hx; exact Hx); intros r Hr H; [rewrite <- f0_route_frequency|rewrite f0_route_frequency]; auto. Qed.

Lemma fopt_positive B x : NoDup (map r_id (pb_routes B)) -> all_positive B x ->
  exists f, fopt_to_f (map r_id (pb_routes B)) x = Ok f /\ (forall r, In r (pb_routes B) -> 0 < freq f (r_id r)) /\ (forall id, 0 <= freq f id).
Proof.
  intros ND [L HP]. destruct (fopt_from_spec _ ND x 0 []) as [A _]. rewrite map_length in A. destruct A as (f & E & A1 & A2); [lia|]. exists f. split; [exact E|].
  assert (K : forall r, In r (pb_routes B) -> 0 < freq f (r_id r)).
  { intros r Hr. apply In_nth_error in Hr. destruct Hr as (n & Hn). assert (Ln : (n < length (pb_routes B))%nat) by (apply nth_error_Some; congruence). rewrite (A1 n (r_id r)); [|rewrite nth_error_map, Hn; auto].
    rewrite Nat.sub_0_r. destruct (Nat.leb_spec 0 n), (Nat.ltb_spec n (0 + length x)); cbn [andb]; try lia. apply HP, nth_In. lia. }
  split; auto. intro id. destruct (in_dec string_dec id (map r_id (pb_routes B))) as [Hi|Hi].
  - apply in_map_iff in Hi. destruct Hi as (r & <- & Hr). apply Qlt_le_weak. auto.
  - rewrite (A2 id Hi). unfold freq, dget0. cbn. lra.
Qed.
Lemma start_positive B fg : posed B fg -> all_positive B (map (fun r => m_fini (r_mode r)) (pb_routes B)).
Proof. intro PO. split; [apply map_length|]. intros q Hq. apply in_map_iff in Hq. destruct Hq as (r & <- & Hr). apply (po_lines B fg PO r Hr). Qed.

(** the graph, the strategies and the assignment *)
Lemma graph_stage B fg : posed B fg -> exists X, let n := S (length (xnodes X)) in
  build_ext (pb_geo B) (pb_graph B) (pb_routes B) (q_pt (pb_pass B)) (Some (fst (fst (f0 (pb_routes B) fg)))) = Ok X /\ hyper_graph X /\ weights X (pb_pass B) /\
  (forall m, used_mode X m -> 1 <= m_d m) /\
  (forall fuel, (n <= fuel)%nat -> get_all_hyperpaths fuel X (pb_pass B) (dm_matrix (pb_demand B)) = get_all_hyperpaths n X (pb_pass B) (dm_matrix (pb_demand B))) /\
  ((exists es, get_all_hyperpaths n X (pb_pass B) (dm_matrix (pb_demand B)) = Ok es) <-> serves B fg) /\
  ((exists es, get_all_hyperpaths n X (pb_pass B) (dm_matrix (pb_demand B)) = Ok es) \/ get_all_hyperpaths n X (pb_pass B) (dm_matrix (pb_demand B)) = Err TransportNetworkException \/
   get_all_hyperpaths n X (pb_pass B) (dm_matrix (pb_demand B)) = Err AddModeExceptions) /\
  (get_all_hyperpaths n X (pb_pass B) (dm_matrix (pb_demand B)) = Err AddModeExceptions <->
     (forall o d v, has_trips (dm_matrix (pb_demand B)) o d v -> o <> d /\ travel (pb_routes B) fg o d) /\ same_names (pb_routes B)).
Proof.
  intro PO. destruct PO as [I ND HS HE HZ HM HN (P1 & P2 & P3 & P4 & P5) HF]. set (rs := pb_routes B) in *. set (g := pb_graph B) in *. set (ff := fst (fst (f0 rs fg))) in *. set (M := dm_matrix (pb_demand B)).
  destruct (C30_build_succeeds (pb_geo B) g rs (q_pt (pb_pass B)) (Some ff) I) as [X EX]. exists X. cbv zeta.
  assert (HG : hyper_graph X). { eapply built_graph_is_hyper_graph; [exact I|exact EX|auto|auto| |]. { intros r Hr. destruct (HM r Hr) as (? & ? & ? & _). repeat split; lra. }
    intro id. apply (f0_nonneg rs fg id); auto. intros r Hr. destruct (HM r Hr) as (_ & _ & _ & _ & ?). lra. }
  assert (WG : weights X (pb_pass B)). { eapply built_graph_weights; [exact I|exact EX|intros r Hr; destruct (HM r Hr) as (_ & _ & _ & A & _); lra|auto|lra|lra|]. left. split; auto. intros r Hr. apply (HM r Hr). }
  assert (HD : forall r, In r rs -> 0 < m_d (r_mode r)) by (intros r Hr; destruct (HM r Hr) as (? & _); lra).
  assert (UD : forall m, used_mode X m -> 1 <= m_d m) by (intros m Hm; apply (in_use _ _ _ _ _ _ I EX) in Hm; destruct Hm as (r & d & Hr & <- & _); apply (HM r Hr)).
  set (n := S (length (xnodes X))). assert (Ln : (length (xnodes X) < n)%nat) by (unfold n; lia).
  destruct (C34_search_terminates X (pb_pass B) None None M n Ln) as (_ & _ & _ & T4).
  destruct (C59_validator _ g rs _ (Some ff) X (pb_pass B) M n I EX HD HG WG ltac:(lia)) as (V1 & V2 & V3).
  assert (SV : network_validator n X (pb_pass B) M = Ok true <-> serves B fg).
  { rewrite V1. unfold serves. fold rs M. split; intros [A1 A2]; (split; [|exact A2]); intros o d v Ht; destruct (A1 o d v Ht) as [B1 B2]; (split; [exact B1|]); apply (f0_travel rs fg o d ND); auto. }
  assert (GA : network_validator n X (pb_pass B) M = Ok true -> exists es, get_all_hyperpaths n X (pb_pass B) M = Ok es).
  { intro E. unfold get_all_hyperpaths. rewrite E. cbn [bind]. destruct (mapM_all (fun '(o, d, v) => let* r := hyperpath_OD n X (pb_pass B) (find_city X o) (find_city X d) in Ok (mkOD (find_city X o) (find_city X d) v (fst r) (snd r))) (fun _ _ => True) (od_pairs M)) as (ys & Ey & _).
    - intros ((o & d) & v) _. destruct (C39_search_never_fails X (pb_pass B) (find_city X o) (find_city X d) n HG WG Ln) as (_ & r & Er). rewrite Er. cbn [bind]. eauto.
    - eauto. }
  assert (GB : (exists es, get_all_hyperpaths n X (pb_pass B) M = Ok es) -> network_validator n X (pb_pass B) M = Ok true).
  { intros [es E]. unfold get_all_hyperpaths in E. apply bind_ok in E. destruct E as (b & E & E'). destruct b; [auto|discriminate]. }
  split; [exact EX|]. split; [exact HG|]. split; [exact WG|]. split; [exact UD|]. split; [intros fuel L; apply (proj2 T4); exact L|]. split; [split; intro H; [apply SV, GB; auto|apply GA, SV; auto]|].
  split; [destruct V2 as [V2|[V2|V2]]; [left; auto|right; left|right; right]; unfold get_all_hyperpaths; rewrite V2; reflexivity|].
  assert (T1 : (forall o d v, has_trips M o d v -> o <> d /\ travel rs fg o d) <-> (forall o d v, has_trips M o d v -> o <> d /\ travel rs (Some ff) o d)).
  { split; intros H o d v Ht; destruct (H o d v Ht) as [A1 A2]; (split; [exact A1|]); apply (f0_travel rs fg o d ND); auto. }
  rewrite T1, <- V3. split; intro H; [|unfold get_all_hyperpaths; rewrite H; reflexivity].
  destruct V2 as [V2|[V2|V2]]; auto; exfalso; [destruct (GA V2); congruence|unfold get_all_hyperpaths in H; rewrite V2 in H; discriminate].
Qed.

(** ** Signs *)
Lemma dist0_nonneg G g i j : (forall q, 0 <= geo_sqrt G q) -> 0 <= dist0 (get_edges_distance G g) i j.
Proof.
  intro HS. unfold get_edges_distance. assert (H0 : forall i j, 0 <= dist0 [] i j) by (intros; unfold dist0; cbn; lra). revert i j. generalize dependent (@nil (Z * list (Z * Q))). induction (g_edges g) as [|e l IH]; intros D HD; cbn [fold_left]; auto.
  apply IH. intros i j. destruct (nth_error (g_nodes g) (e_n1 e)) as [a|]; [|auto]. destruct (nth_error (g_nodes g) (e_n2 e)) as [b|]; [|auto]. unfold dist0. rewrite dict2_get_set. destruct ((i =? nd_id a)%Z && (j =? nd_id b)%Z); [apply HS|apply HD].
Qed.
Lemma seq_time_ok D v l tv : ~ v == 0 -> exists q, seq_time D v l tv = Ok q /\ (0 < v -> (forall i j, 0 <= dist0 D i j) -> 0 <= tv -> 0 <= q).
Proof.
  intro Hv. unfold seq_time. revert tv. induction (arcs_of l) as [|[i j] t IH]; intro tv; cbn [foldM]; [eauto|]. rewrite qdiv_ok by auto. cbn [bind]. destruct (IH (tv + dist0 D i j / v)) as (q & E & Hq). exists q. split; auto.
  intros H1 H2 H3. apply Hq; auto. assert (0 <= dist0 D i j / v) by (apply Qle_shift_div_l; auto; rewrite Qmult_0_l; auto). lra.
Qed.
Lemma travel_time_ok rs D : (forall r, In r rs -> 0 < m_v (r_mode r)) -> (forall i j, 0 <= dist0 D i j) -> exists tt, lines_travel_time rs D = Ok tt /\ forall id, 0 <= freq tt id.
Proof.
  intros Hv HD. unfold lines_travel_time. assert (H0 : forall id, 0 <= freq [] id) by (intro; unfold freq, dget0; cbn; lra). generalize dependent (@nil (string * Q)). induction rs as [|r rs IH]; intros d Hd; cbn [foldM]; [eauto|].
  pose proof (Hv r (or_introl eq_refl)) as V. assert (V' : ~ m_v (r_mode r) == 0) by lra. destruct (seq_time_ok D _ (r_ni r) 0 V') as (q1 & E1 & H1). rewrite E1. cbn [bind]. destruct (seq_time_ok D _ (r_nr r) q1 V') as (q2 & E2 & H2). rewrite E2. cbn [bind].
  apply IH; [intros r' Hr'; apply Hv; right; auto|]. intro j. unfold freq. rewrite (dget0_dset String.eqb Seqb_spec). destruct (j =? r_id r)%string; [apply H2; auto; apply H1; auto; lra|apply Hd].
Qed.
Lemma count_edge_nonneg m f a de rs : 0 <= m_d m -> 0 <= de -> forall st, (forall q, fst st = Some q -> 0 <= q) -> forall q, fst (count_edge m f a de rs st) = Some q -> 0 <= q.
Proof.
  intros H1 H2. induction rs as [|r rs IH]; intros st Hs q E; cbn [count_edge] in E; [auto|]. destruct (mode_eqb (r_mode r) m && negb (Qeqb (freq f (r_id r)) 0) && (seq_hits a (r_ni r) (snd st) || seq_hits a (r_nr r) (snd st))) eqn:C; [|eauto].
  cbn in E. inversion E; subst. assert (0 <= de * m_d m) by (apply Qmult_le_0_compat; auto). destruct (fst st) as [q0|]; [specialize (Hs q0 eq_refl)|]; lra.
Qed.
Lemma dset_In {K V} (eqb : K -> K -> bool) (l : list (K * V)) k v k' v' : In (k', v') (dset eqb l k v) -> (exists v0, In (k', v0) l /\ (v' = v0 \/ v' = v)) \/ (k' = k /\ v' = v).
Proof.
  induction l as [|[a b] l IH]; cbn [dset]; intro H.
  - destruct H as [H|[]]. inversion H; auto.
  - destruct (eqb k a) eqn:E.
    + destruct H as [H|H]; [inversion H; subst; left; exists b; split; [left; auto|auto]|]. left. exists v'. split; [right; auto|auto].
    + destruct H as [H|H]; [inversion H; subst; left; exists v'; split; [left; auto|auto]|]. destruct (IH H) as [(v0 & H1 & H2)|H1]; auto. left. exists v0. split; [right; auto|auto].
Qed.
Lemma infrastructure_nonneg G g nw f : (forall q, 0 <= geo_sqrt G q) -> (forall m, In m (nw_modes nw) -> 0 <= m_d m /\ 0 <= m_c2 m) -> 0 <= get_infrastructure_cost G g nw f.
Proof.
  intros HS HM. unfold get_infrastructure_cost.
  assert (K : forall m q, In (m, q) (get_mode_network_distance G g nw f) -> In m (nw_modes nw) /\ 0 <= q).
  { unfold get_mode_network_distance. assert (K0 : forall m q, In (m, q) (@nil (mode * Q)) -> In m (nw_modes nw) /\ 0 <= q) by contradiction. generalize dependent (@nil (mode * Q)).
    assert (KI : forall m, In m (nw_modes nw) -> In m (nw_modes nw)) by auto. revert KI. generalize (nw_modes nw) at 1 4. intro ms. induction ms as [|m ms IH]; intros KI acc Ka; cbn [fold_left]; auto.
    apply IH; [intros m' Hm'; apply KI; right; auto|]. assert (Hm : In m (nw_modes nw)) by (apply KI; left; auto).
    destruct (mode_distance _ g (nw_routes nw) f m (dget mode_eqb acc m)) as [q|] eqn:E; auto.
    assert (Hq : 0 <= q).
    { unfold mode_distance in E. revert E. assert (D0 : forall q, fst (dget mode_eqb acc m, @nil (Z * Z)) = Some q -> 0 <= q).
      { cbn. clear - Ka. intros q. induction acc as [|[a b] acc IHa]; cbn [dget]; [discriminate|]. destruct (mode_eqb m a); [intro E; inversion E; subst; apply (Ka a q); left; auto|]. apply IHa. intros m' q' H. apply Ka. right. auto. }
      revert D0. generalize (dget mode_eqb acc m, @nil (Z * Z)). revert q. clear - HS HM Hm. induction (edge_pairs g) as [|a l IHl]; intros q st D0 E; cbn [fold_left] in E; [auto|]. revert E. apply IHl. intros q' E'. revert E'. apply count_edge_nonneg; auto; [apply HM; auto|apply dist0_nonneg; auto]. }
    intros m' q' H. apply dset_In in H. destruct H as [(v0 & H1 & [->| ->])|[-> ->]]; auto. split; auto. apply (Ka m' v0 H1). }
  assert (A : forall l c, (forall m q, In (m, q) l -> In m (nw_modes nw) /\ 0 <= q) -> 0 <= c -> 0 <= fold_left (fun ci '(m, q) => ci + m_c2 m * q) l c).
  { clear K. induction l as [|[m q] l IH]; intros c Hl Hc; cbn [fold_left]; auto. apply IH; [intros; apply Hl; right; auto|]. destruct (Hl m q (or_introl eq_refl)) as [H1 H2]. assert (0 <= m_c2 m * q) by (apply Qmult_le_0_compat; auto; apply HM; auto). lra. }
  apply A; auto. lra.
Qed.
Lemma users_cost_nonneg P u : 0 <= q_spa P -> 0 <= q_spw P -> 0 <= q_spv P -> 0 <= q_spt P -> 0 <= u_ta u -> 0 <= u_te u -> 0 <= u_tv u -> 0 <= u_t u -> 0 <= users_cost P u.
Proof.
  intros. unfold users_cost. assert (0 <= u_ta u * q_spa P) by (apply Qmult_le_0_compat; auto). assert (0 <= u_te u * q_spw P) by (apply Qmult_le_0_compat; auto). assert (0 <= u_tv u * q_spv P) by (apply Qmult_le_0_compat; auto).
  assert (0 <= u_t u * q_spt P / 60 * q_spv P) by (apply Qmult_le_0_compat; auto; apply Qle_shift_div_l; [reflexivity|]; rewrite Qmult_0_l; apply Qmult_le_0_compat; auto). lra.
Qed.

(** everything that follows once the strategies are found *)
Lemma evaluation_stage_at B fg X es x f : posed B fg -> fopt_to_f (map r_id (pb_routes B)) x = Ok f -> (forall id, 0 <= freq f id) -> (forall e, In e es -> runs X f e) -> let n := S (length (xnodes X)) in
  build_ext (pb_geo B) (pb_graph B) (pb_routes B) (q_pt (pb_pass B)) (Some (fst (fst (f0 (pb_routes B) fg)))) = Ok X -> hyper_graph X -> weights X (pb_pass B) ->
  (forall m, used_mode X m -> 1 <= m_d m) -> get_all_hyperpaths n X (pb_pass B) (dm_matrix (pb_demand B)) = Ok es ->
  exists asg, get_assignment X (p_p (c_params (pb_city B))) (q_va (pb_pass B)) (q_pa (pb_pass B)) (q_pv (pb_pass B)) es = Ok asg /\
  exists N c l, (priced B -> 0 <= c) /\ forall fuel ff fo lc lv, (N <= fuel)%nat ->
    let o := mkOpt (with_fuel B fuel) ff fo (map r_id (pb_routes B)) X es asg lc lv in VRC o x = Ok c /\ get_constrains o x = Ok l.
Proof.
  intros PO Ef F2 RU n EX HG WG UD ES. pose proof (po_pass B fg PO) as (P1 & P2 & P3 & P4 & P5). assert (Ln : (length (xnodes X) < n)%nat) by (unfold n; lia).
  assert (FI : flow_input (pb_geo B) (pb_graph B) (pb_routes B) (q_pt (pb_pass B)) (Some (fst (fst (f0 (pb_routes B) fg)))) X (pb_pass B) (dm_matrix (pb_demand B)) n es f).
  { constructor; auto. apply (po_input B fg PO). }
  destruct (C41_all_trips _ _ _ _ _ _ _ _ _ _ _ (p_p (c_params (pb_city B))) (q_va (pb_pass B)) (q_pa (pb_pass B)) (q_pv (pb_pass B)) FI (po_zone B fg PO) (Qlt_le_weak _ _ P1) P4 P2 UD) as (asg & EA & LA & AT & NN).
  exists asg. split; [exact EA|]. destruct (C41_terminates _ _ _ _ _ _ _ _ _ _ _ asg FI) as (N1 & T & HT).
  destruct (C47_feasible (pb_graph B) (pb_routes B) (nw_modes (pb_net B)) f (most_loaded_section (t_l T)) (po_modes B fg PO) (po_edges B fg PO)) as (l & El & _).
  assert (TT : exists ltt, lines_travel_time (pb_routes B) (get_edges_distance (pb_geo B) (pb_graph B)) = Ok ltt /\ forall id, 0 <= freq ltt id) by (apply travel_time_ok; [intros r Hr; apply (po_lines B fg PO r Hr)|intros; apply dist0_nonneg; apply (po_geo B fg PO)]).
  destruct TT as (ltt & Et & Nt). destruct (get_cycle_time (t_z T) (t_v T) (pb_routes B) ltt) as [[ct z'] v'] eqn:Ec.
  destruct (C48_resources _ _ _ _ _ _ _ _ _ _ _ (q_va (pb_pass B)) z' v' asg FI ltac:(lra)) as (N2 & u & HU & _).
  exists (Nat.max N1 N2). exists (get_operators_cost (pb_routes B) ct f (get_k (t_l T)) + infrastructure_cost B f + users_cost (pb_pass B) u).
  exists (most_loaded_constrains (pb_routes B) (most_loaded_section (t_l T)) ++ l). split.
  - intro PR. assert (ET : get_alighting_and_boarding N1 X f es asg = Ok T) by (apply HT; lia). pose proof (gab_wf _ _ _ _ _ _ ET) as (WZ & WV & WL).
    assert (OV : forall e, In e es -> 0 <= od_v e). { intros e He. destruct (entries_ok _ _ _ _ _ HG WG Ln ES e He) as (c & cd & O). destruct (oo_v _ _ _ _ _ _ O) as (o & d & Ht & _). apply (pr_trips B PR o d). auto. }
    pose proof (NN OV N1 T ET) as NNT. pose proof (C44_not_less_than_travel _ _ _ _ _ _ _ WZ WV (po_ids B fg PO) Ec) as CT.
    assert (I0 : 0 <= infrastructure_cost B f) by (apply infrastructure_nonneg; [apply (po_geo B fg PO)|intros m Hm; split; [apply Qlt_le_weak, (po_modes B fg PO m Hm)|apply (pr_streets B PR m Hm)]]).
    assert (O0 : 0 <= get_operators_cost (pb_routes B) ct f (get_k (t_l T))).
    { apply C45_nonneg. intros r Hr. destruct (pr_modes B PR r Hr) as (R1 & R2 & R3). do 2 (split; [auto|]). split; [|split].
      - rewrite get_k_freq. unfold freq, dget0. destruct (dget String.eqb (most_loaded_section (t_l T)) (r_id r)) eqn:Ed; [|lra]. apply (proj2 (C42_most_loaded_section _ _ _ _ _ _ ET) _ _ Ed).
      - apply F2.
      - eapply Qle_trans; [apply Nt|]. apply (CT r Hr R3). intros d s. destruct (NNT (r_id r) d s) as (? & ? & _); auto. }
    assert (U0 : 0 <= users_cost (pb_pass B) u).
    { destruct (pr_users B PR) as (U1 & U2 & U3 & U4). destruct (C48_nonneg _ _ _ _ _ _ _ _ _ _ _ (q_va (pb_pass B)) z' v' asg N2 u FI P1) as (V1 & V2 & V3 & V4).
      - intros r Hr. destruct (po_lines B fg PO r Hr) as (? & ? & ? & ? & ?). destruct (pr_modes B PR r Hr) as (_ & _ & ?). repeat split; lra.
      - apply (pr_width B PR).
      - intros r d s. destruct (C44_cycle_time _ _ _ _ _ _ _ WZ WV (po_ids B fg PO) Ec) as [_ CV]. destruct (CV r d s) as [-> ->]. destruct (NNT r d s) as (? & ? & _); auto.
      - intros e a s He Hs. split; [apply OV; apply in_combine_l in He; auto|]. destruct (C40_shares X (pb_pass B) (dm_matrix (pb_demand B)) n es (p_p (c_params (pb_city B))) (q_va (pb_pass B)) (q_pa (pb_pass B)) (q_pv (pb_pass B)) HG WG Ln ES (po_zone B fg PO) (Qlt_le_weak _ _ P1) P4 P2 UD) as (asg' & EA' & FA).
        assert (asg' = asg) by congruence. subst asg'. assert (KA : forall s q, In (s, q) a -> 0 <= q).
        { clear - FA He. induction FA as [|e0 a0 es asg H FA IH]; [contradiction|]. destruct He as [He|He]; [inversion He; subst; destruct H as [H _]; intros s1 q Hq; destruct (H s1 q Hq); tauto|exact (IH He)].
        }
        clear - KA. unfold dget0. induction a as [|[k q] a IH]; cbn [dget]; [lra|]. destruct (Nat.eqb s k); [apply (KA k q); left; auto|apply IH; intros; eapply KA; right; eauto].
      - apply HU. lia.
      - apply users_cost_nonneg; auto. }
    lra.
  - intros fuel ff fo lc lv L. cbv zeta. unfold pb_routes, pb_graph in *. split.
    + unfold VRC, boardings, operators_cost, user_cost, get_users_cost, pb_routes, pb_graph, infrastructure_cost. cbn [o_pos o_pb o_X o_es o_asg pb_fuel with_fuel pb_geo pb_city pb_net pb_pass]. rewrite Ef. cbn [bind]. rewrite HT by lia. cbn [bind].
      rewrite Et. cbn [bind]. rewrite Ec. cbn [bind]. rewrite HU by lia. cbn [bind]. reflexivity.
    + unfold get_constrains, boardings, pb_routes, pb_graph. cbn [o_pos o_pb o_X o_es o_asg pb_fuel with_fuel pb_net pb_city]. rewrite Ef. cbn [bind]. rewrite HT by lia. cbn [bind]. rewrite El. cbn [bind]. reflexivity.
Qed.
Lemma evaluation_stage B fg X es x : posed B fg -> all_positive B x -> let n := S (length (xnodes X)) in
  build_ext (pb_geo B) (pb_graph B) (pb_routes B) (q_pt (pb_pass B)) (Some (fst (fst (f0 (pb_routes B) fg)))) = Ok X -> hyper_graph X -> weights X (pb_pass B) ->
  (forall m, used_mode X m -> 1 <= m_d m) -> get_all_hyperpaths n X (pb_pass B) (dm_matrix (pb_demand B)) = Ok es ->
  exists asg, get_assignment X (p_p (c_params (pb_city B))) (q_va (pb_pass B)) (q_pa (pb_pass B)) (q_pv (pb_pass B)) es = Ok asg /\
  exists N c l, (priced B -> 0 <= c) /\ forall fuel ff fo lc lv, (N <= fuel)%nat ->
    let o := mkOpt (with_fuel B fuel) ff fo (map r_id (pb_routes B)) X es asg lc lv in VRC o x = Ok c /\ get_constrains o x = Ok l.
Proof.
  intros PO HX n EX HG WG UD ES. assert (Ln : (length (xnodes X) < n)%nat) by (unfold n; lia). destruct (fopt_positive B x (po_ids B fg PO) HX) as (f & Ef & F1 & F2).
  apply (evaluation_stage_at B fg X es x f); auto. eapply all_run; eauto. apply (po_input B fg PO).
Qed.

Lemma new_optimizer_unfold B fg fuel X : build_ext (pb_geo B) (pb_graph B) (pb_routes B) (q_pt (pb_pass B)) (Some (fst (fst (f0 (pb_routes B) fg)))) = Ok X ->
  new_optimizer (with_fuel B fuel) fg =
    (let* es := get_all_hyperpaths fuel X (pb_pass B) (dm_matrix (pb_demand B)) in
     let* asg := get_assignment X (p_p (c_params (pb_city B))) (q_va (pb_pass B)) (q_pa (pb_pass B)) (q_pv (pb_pass B)) es in
     let o := mkOpt (with_fuel B fuel) (fst (fst (f0 (pb_routes B) fg))) (map (fun r => m_fini (r_mode r)) (pb_routes B)) (map r_id (pb_routes B)) X es asg 0 0 in
     let* con := get_constrains o (map (fun r => m_fini (r_mode r)) (pb_routes B)) in
     Ok (mkOpt (with_fuel B fuel) (fst (fst (f0 (pb_routes B) fg))) (map (fun r => m_fini (r_mode r)) (pb_routes B)) (map r_id (pb_routes B)) X es asg (length con) (length (map (fun r => m_fini (r_mode r)) (pb_routes B))))).
Proof. intro E. unfold new_optimizer, pb_routes, pb_graph in *. cbn [f0 with_fuel pb_geo pb_city pb_demand pb_pass pb_net pb_fuel fst] in *. rewrite E. reflexivity. Qed.

(** The constructor of Optimizer succeeds exactly on the problems whose lines, running at the frequencies given,
    allow every trip, with one mode, or with two of which one has a single line per axis.  On any other problem it
    raises one of two exceptions: AddModeExceptions when all the trips are possible but two modes share a name, and
    TransportNetworkException in all other cases.  Its loops always end. *)
Theorem C61_construction : forall B fg, posed B fg -> exists N, forall fuel, (N <= fuel)%nat ->
  ((exists o, new_optimizer (with_fuel B fuel) fg = Ok o) <-> serves B fg) /\
  ((exists o, new_optimizer (with_fuel B fuel) fg = Ok o) \/ new_optimizer (with_fuel B fuel) fg = Err TransportNetworkException \/ new_optimizer (with_fuel B fuel) fg = Err AddModeExceptions) /\
  (new_optimizer (with_fuel B fuel) fg = Err AddModeExceptions <->
     (forall o d v, has_trips (dm_matrix (pb_demand B)) o d v -> o <> d /\ travel (pb_routes B) fg o d) /\ same_names (pb_routes B)).
Proof.
  intros B fg PO. destruct (graph_stage B fg PO) as (X & EX & HG & WG & UD & TF & SV & TRI & AM). set (n := S (length (xnodes X))) in *.
  destruct (get_all_hyperpaths n X (pb_pass B) (dm_matrix (pb_demand B))) as [es|e] eqn:ES.
  - destruct (evaluation_stage B fg X es _ PO (start_positive B fg PO) EX HG WG UD ES) as (asg & EA & N & c & l & _ & HN). exists (Nat.max n N). intros fuel L.
    assert (K : exists o, new_optimizer (with_fuel B fuel) fg = Ok o).
    { rewrite (new_optimizer_unfold B fg fuel X EX), TF by lia. cbn [bind]. rewrite EA. cbn [bind]. cbv zeta. destruct (HN fuel (fst (fst (f0 (pb_routes B) fg))) (map (fun r => m_fini (r_mode r)) (pb_routes B)) 0%nat 0%nat ltac:(lia)) as [_ E]. rewrite E. cbn [bind]. eauto. }
    split; [|split; [left; exact K|]]; [split; [intro; apply SV; eauto|auto]|]. rewrite <- AM. destruct K as [o K]. rewrite K. split; discriminate.
  - exists n. intros fuel L. rewrite (new_optimizer_unfold B fg fuel X EX), TF by lia. cbn [bind]. split.
    + split; [intros [o E]; discriminate|]. intro H. apply SV in H. destruct H as [es E]. discriminate.
    + split; [destruct TRI as [[es E]|[E|E]]; [discriminate|right; left|right; right]; congruence|]. rewrite <- AM. split; intro H; inversion H; auto.
Qed.
Print Assumptions C61_construction.

(** On such a problem, the objective and the constraints have a value at every vector of positive frequencies;
    the objective is not negative when no price is. *)
Theorem C61_evaluation : forall B fg x, posed B fg -> serves B fg -> all_positive B x ->
  exists N c l, (priced B -> 0 <= c) /\ forall fuel, (N <= fuel)%nat -> exists o, new_optimizer (with_fuel B fuel) fg = Ok o /\ VRC o x = Ok c /\ get_constrains o x = Ok l.
Proof.
  intros B fg x PO SE HX. destruct (graph_stage B fg PO) as (X & EX & HG & WG & UD & TF & SV & _). set (n := S (length (xnodes X))) in *. apply SV in SE. destruct SE as [es ES].
  destruct (evaluation_stage B fg X es _ PO (start_positive B fg PO) EX HG WG UD ES) as (asg & EA & N & c0 & l0 & _ & HN).
  destruct (evaluation_stage B fg X es x PO HX EX HG WG UD ES) as (asg' & EA' & N' & c & l & C0 & HN'). assert (asg' = asg) by congruence. subst asg'.
  exists (Nat.max n (Nat.max N N')), c, l. split; auto. intros fuel L. rewrite (new_optimizer_unfold B fg fuel X EX), TF, ES by lia. cbn [bind]. rewrite EA. cbn [bind]. cbv zeta.
  destruct (HN fuel (fst (fst (f0 (pb_routes B) fg))) (map (fun r => m_fini (r_mode r)) (pb_routes B)) 0%nat 0%nat ltac:(lia)) as [_ E]. rewrite E. cbn [bind]. eexists. split; [reflexivity|]. apply HN'. lia.
Qed.
Print Assumptions C61_evaluation.

(** ** C62 *)
Lemma dget_NoDup_In {V} (l : list (Z * V)) k v : NoDup (map fst l) -> In (k, v) l -> dget Z.eqb l k = Some v.
Proof.
  induction l as [|[a b] l IH]; intros ND H; [contradiction|]. cbn [dget]. inversion ND as [|? ? N1 N2]; subst. destruct H as [H|H]; [inversion H; subst; rewrite Z.eqb_refl; auto|].
  destruct (Z.eqb_spec k a) as [->|]; [|auto]. exfalso. apply N1. apply (in_map fst) in H. exact H.
Qed.
Lemma parametric_trips n nodes y a alpha beta D : (1 <= n)%nat -> city_layout n nodes -> demand_from_parameters nodes (Z.of_nat n) y a alpha beta = Ok D ->
  forall o d v, has_trips (dm_matrix D) o d v -> In o (map nd_id nodes) /\ In d (map nd_id nodes) /\ o <> d /\ 0 <= v.
Proof.
  intros Hn CL E o d v (row & H1 & H2 & NZ). assert (V : valid_demand_params y a alpha beta) by (apply (C12_accepts_iff n nodes y a alpha beta Hn CL); eauto).
  destruct (shares_spec n y a alpha beta Hn V) as (s & Es & _ & P1 & P2 & P3 & P4 & P5). pose proof (proj1 CL) as N.
  assert (VN : forall o d v, DemandProofs.val s o d = Some v -> 0 <= v) by (intros o' d' v'; unfold DemandProofs.val; destruct (nd_kind o'), (nd_kind d'); try discriminate; try destruct (nd_zone o' =? nd_zone d')%Z; intro H; inversion H; subst; auto).
  destruct (param_demand_run nodes (Z.of_nat n) s N) as (D' & ED & _ & Sk & C); [intros; eapply VN; eauto|].
  assert (D' = D). { unfold demand_from_parameters in E. rewrite (proj2 (demand_validator_iff _ _ _ _ true)) in E by auto. cbn [bind] in E. rewrite Es in E. cbn [bind] in E. change (dm_matrix (new_demand nodes (Z.of_nat n))) with (default_matrix nodes) in E. congruence. } subst D'.
  assert (KS : In (o, map fst row) (skel (dm_matrix D))) by (unfold skel; apply (in_map (fun r => (fst r, map fst (snd r)))) in H1; exact H1). rewrite Sk in KS. apply in_map_iff in KS. destruct KS as (o' & E1 & Ho). inversion E1 as [[Eo Er]]. subst o'.
  assert (Hd : In d (map nd_id nodes)) by (rewrite Er; apply (in_map fst) in H2; exact H2).
  assert (CV : cell D o d = Some v).
  { unfold cell, dict2_get. rewrite (dget_NoDup_In (dm_matrix D) o row); auto; [apply dget_NoDup_In; auto; rewrite <- Er; auto|].
    replace (map fst (dm_matrix D)) with (map fst (skel (dm_matrix D))) by (unfold skel; rewrite map_map; reflexivity). rewrite Sk, map_map, map_id. auto. }
  split; auto. split; auto. apply in_map_iff in Ho, Hd. destruct Ho as (no & Io & Ho), Hd as (nd & Id & Hd). subst o d. rewrite (C no nd Ho Hd) in CV. inversion CV as [CV']. clear CV. split.
  - intro Q1. assert (no = nd). { clear - N Ho Hd Q1. induction nodes as [|x l IH]; [contradiction|]. inversion N as [|? ? N1 N2]; subst. destruct Ho as [->|Ho], Hd as [->|Hd]; auto; exfalso; apply N1; [rewrite Q1|rewrite <- Q1]; apply in_map; auto. }
    subst nd. apply NZ. rewrite <- CV'. unfold DemandProofs.val. rewrite Z.eqb_refl. destruct (nd_kind no); reflexivity.
  - destruct (DemandProofs.val s no nd) eqn:Ev; [subst; eapply VN; eauto|lra].
Qed.
Lemma long_line G P C m f fs r d : build_from_parameters G P = Ok C -> family_routes (c_graph C) m f = Ok fs -> In r fs ->
  r_mode r = m /\ (exists d, visits r d <> []) /\ (nodes_of r d <> [] -> (2 <= length (nodes_of r d))%nat).
Proof.
  intros H F Hr. destruct (C28_families G P C m H) as (F1 & F2 & F3 & F4 & F5 & F6).
  assert (T : forall id nodes stops, r = two_way id m nodes stops -> stops <> [] -> (2 <= length nodes)%nat -> r_mode r = m /\ (exists d, visits r d <> []) /\ (nodes_of r d <> [] -> (2 <= length (nodes_of r d))%nat)).
  { intros id nodes stops -> Ns L. split; auto. split; [exists DI; cbn; auto|]. intros _. destruct d; cbn; rewrite ?rev_length; auto. }
  destruct f as [| |s e|j s e|j s e]; cbn [family_routes] in F.
  - destruct (Z.le_gt_cases 2 (p_n P)) as [L|L]; [|rewrite (F6 ltac:(lia)) in F; discriminate]. rewrite (F5 L) in F. inversion F; subst fs. clear F. assert (Ln : (2 <= zones_of P)%nat) by (unfold zones_of; lia).
    destruct (zones_of P) as [|k] eqn:Ez; [lia|].
    destruct Hr as [<-|[<-|[]]]; (split; [reflexivity|]); (split; [|destruct d; cbn [nodes_of r_ni r_nr]; intro N; try congruence; unfold zone_list; rewrite ?List.app_length, ?List.map_length, ?rev_length, ?List.map_length, ?List.seq_length; cbn; lia]).
    + exists DI. cbn [visits r_type stops_of r_si]. change (zone_list (S k)) with (1%Z :: map Z.of_nat (seq 2 k)). cbn. destruct (map scid (map Z.of_nat (seq 2 k))); discriminate.
    + exists DR. unfold visits. cbn [r_type stops_of r_sr]. unfold zone_list. rewrite map_rev. cbn [seq map rev]. destruct (rev (map scid (map Z.of_nat (seq 2 k)))) as [|x l]; cbn; [discriminate|]. destruct l; discriminate.
  - rewrite F1 in F. inversion F; subst fs. apply in_map_iff in Hr. destruct Hr as (z & Er & _). eapply T; [symmetry; exact Er|discriminate|cbn; lia].
  - rewrite F2 in F. inversion F; subst fs. apply in_map_iff in Hr. destruct Hr as (z & Er & _). unfold radial_line in Er. destruct s, e; (eapply T; [symmetry; exact Er|discriminate|cbn; lia]).
  - assert (J : (1 <= j /\ 2 * j <= p_n P)%Z). { destruct (Z.le_gt_cases 1 j), (Z.le_gt_cases (2 * j) (p_n P)); auto; destruct (F4 j s e ltac:(lia)); congruence. }
    destruct (F3 j s e (proj1 J) (proj2 J)) as [E _]. rewrite E in F. inversion F; subst fs. apply in_map_iff in Hr. destruct Hr as (z & Er & _). unfold diametral_line in Er. destruct s, e; (eapply T; [symmetry; exact Er|discriminate|cbn; lia]).
  - assert (J : (1 <= j /\ 2 * j <= p_n P)%Z). { destruct (Z.le_gt_cases 1 j), (Z.le_gt_cases (2 * j) (p_n P)); auto; destruct (F4 j s e ltac:(lia)); congruence. }
    destruct (F3 j s e (proj1 J) (proj2 J)) as [_ E]. rewrite E in F. inversion F; subst fs. apply in_map_iff in Hr. destruct Hr as (z & Er & _). unfold tangencial_line in Er.
    assert (LR : (2 <= length (ring_part (zones_of P) z j))%nat) by (unfold ring_part; rewrite List.map_length, List.seq_length; lia).
    destruct s, e; (eapply T; [symmetry; exact Er|try discriminate; unfold ring_part; cbn; discriminate|first [exact LR|cbn [length]; rewrite ?List.app_length; cbn [length]; lia]]).
Qed.
Lemma on_arcs_ids G P C l z : build_from_parameters G P = Ok C -> on_arcs (c_graph C) l -> (2 <= length l)%nat -> In z l -> In z (map nd_id (g_nodes (c_graph C))).
Proof.
  intros H A L Hz. assert (K : exists a b, edge_exist (c_graph C) a b = true /\ (z = a \/ z = b)).
  { destruct (in_split z l Hz) as (l1 & l2 & E). destruct l2 as [|b l2].
    - destruct l1 as [|x l1] using rev_ind; [subst; cbn in L; lia|]. exists x, z. split; auto. apply A. exists l1, []. rewrite E, <- app_assoc. reflexivity.
    - exists z, b. split; auto. apply A. exists l1, l2. auto. }
  destruct K as (a & b & E & Hab). apply edge_exist_In in E. apply in_map_iff in E. destruct E as (e & E & _). unfold edge_ends in E. destruct (nth_error (g_nodes (c_graph C)) (e_n1 e)) as [na|] eqn:E1; [|discriminate]. destruct (nth_error (g_nodes (c_graph C)) (e_n2 e)) as [nb|] eqn:E2; [|discriminate].
  inversion E; subst. destruct Hab as [->| ->]; apply in_map; eapply nth_error_In; eauto.
Qed.

(** ** C62: a problem made of what the library itself generates *)
Definition fine_mode (m : mode) : Prop := 1 <= m_d m /\ 0 < m_v m /\ 0 <= m_tat m /\ 0 < m_theta m /\ 0 < m_fini m.
(** - the city is built from valid parameters and has at least one zone;
    - the network is reached by any history of operations on the city in which no mode is removed;
    - a mode object that a line carries is the registered one, and modes and travellers have parameters in range;
    - every line is one of the predefined lines, for some mode, and among them there are all the radial lines or all
      the diametral lines of some jump (from the peripheries, stopping everywhere);
    - the demand is generated from parameters for the same city;
    - frequencies, if given, are positive. *)
Record predefined_problem (B : problem) (fg : option fdict) (P : params) (ops : list nop) (y a alpha beta : Q) : Prop := mkPredefined {
  pp_city : build_from_parameters (pb_geo B) P = Ok (pb_city B);
  pp_zones : (1 <= p_n P)%Z;
  pp_geo : forall q, 0 <= geo_sqrt (pb_geo B) q;
  pp_net : pb_net B = nrun (new_network (pb_graph B)) ops;
  pp_history : forall m, ~ In (NRemoveMode m) ops;
  pp_objects : forall r m, In r (pb_routes B) -> In m (nw_modes (pb_net B)) -> m_ref m = m_ref (r_mode r) -> m = r_mode r;
  pp_modes : forall m, In m (nw_modes (pb_net B)) -> fine_mode m;
  pp_pass : 0 < q_va (pb_pass B) /\ 0 < q_pv (pb_pass B) /\ 0 < q_pw (pb_pass B) /\ 0 < q_pa (pb_pass B) /\ 0 <= q_pt (pb_pass B);
  pp_lines : forall r, In r (pb_routes B) -> exists m f fs, family_routes (pb_graph B) m f = Ok fs /\ In r fs;
  pp_family : exists m f fs, (f = Radial false false \/ exists j, f = Diametral j false false) /\ family_routes (pb_graph B) m f = Ok fs /\ incl fs (pb_routes B);
  pp_demand : demand_from_parameters (g_nodes (pb_graph B)) (p_n P) y a alpha beta = Ok (pb_demand B);
  pp_given : forall f r, fg = Some f -> In r (pb_routes B) -> 0 < freq f (r_id r)
}.
Theorem C62_well_posed : forall B fg P ops y a alpha beta, predefined_problem B fg P ops y a alpha beta -> posed B fg /\ serves B fg.
Proof.
  intros B fg P ops y a alpha beta [H Hn HS EN NR OB FM HP PRE (m0 & f0' & fs & Hf & F & INC) ED HF]. remember (pb_city B) as C eqn:EC. remember (pb_geo B) as G eqn:EG. unfold pb_graph in *. rewrite <- EC in *. symmetry in EC, EG.
  assert (RM : forall r, In r (pb_routes B) -> In (r_mode r) (nw_modes (pb_net B))).
  { intros r Hr. pose proof (C26_route_modes_registered (c_graph C) ops r NR) as R. cbv zeta in R. rewrite <- EN in R. destruct (R Hr) as (m' & Hm' & Em'). rewrite <- (OB r m' Hr Hm' Em'). auto. }
  assert (ND : NoDup (map r_id (pb_routes B))) by (unfold pb_routes; rewrite EN; apply (C23_routes_addressable (c_graph C) ops EmptyString)).
  assert (GL : forall r, In r (pb_routes B) -> good_line (c_graph C) r /\ (exists d, visits r d <> []) /\ forall d, nodes_of r d <> [] -> (2 <= length (nodes_of r d))%nat).
  { intros r Hr. destruct (PRE r Hr) as (m & f & fs' & F' & Hi). destruct (C27_predefined_routes_valid G P C m f fs' r H F' Hi) as (GLr & _). split; auto. split; [apply (long_line G P C m f fs' r DI H F' Hi)|]. intro d. apply (long_line G P C m f fs' r d H F' Hi). }
  assert (SUB : forall r d, In r (pb_routes B) -> on_arcs (c_graph C) (nodes_of r d) /\ subseq (stops_of r d) (nodes_of r d)) by (intros r d Hr; destruct (GL r Hr) as ((A1 & A2 & A3 & A4 & _) & _); destruct d; auto).
  assert (SI : forall s l : list Z, subseq s l -> incl s l) by (intros s l Hs; induction Hs; intros x0 Hx; [contradiction|destruct Hx as [->|Hx]; [left; auto|right; auto]|right; auto]).
  subst G C. fold (pb_graph B) in *.
  assert (PO : posed B fg).
  { constructor; auto.
    - constructor.
      + apply (C01_ids_distinct _ _ _ H).
      + intros r d z Hr Hz. destruct (SUB r d Hr) as [A S1]. apply SI in S1. specialize (S1 z Hz). apply (on_arcs_ids _ _ _ (nodes_of r d) z H A); auto. apply (GL r Hr). intro N. rewrite N in S1. contradiction.
      + intros r r' Hr Hr' E. apply (OB r' (r_mode r) Hr' (RM r Hr) E).
      + intros r Hr. destruct (FM _ (RM r Hr)) as (? & _). lra.
      + intros r Hr. destruct (FM _ (RM r Hr)) as (_ & ? & _). lra.
      + intros r d Hr _ Ns N. destruct (SUB r d Hr) as [_ S1]. rewrite N in S1. inversion S1. congruence.
    - intros e He N. pose proof (city_edge_ends _ _ _ H) as CE. apply (in_map (edge_ends (pb_graph B))) in He. unfold pb_graph in *. rewrite CE in He. rewrite N in He. apply in_map_iff in He. destruct He as (x & Ex & _). discriminate.
    - destruct (city_facts _ _ _ H) as ((_ & _ & _ & V & _) & E & _). rewrite E. auto.
    - intros r Hr. apply (FM _ (RM r Hr)).
    - intros m Hm. destruct (FM m Hm) as (? & _). lra.
    - intros f Ef r Hr. apply Qlt_le_weak. eauto. }
  split; [exact PO|].
  assert (AR : all_running (pb_routes B) fg fs).
  { intros r Hr. split; [auto|]. specialize (INC r Hr). rewrite <- (f0_route_frequency _ fg r ND INC). unfold route_frequency. change (0 < freq (fst (fst (f0 (pb_routes B) fg))) (r_id r)). rewrite (f0_dict _ fg ND r INC). destruct fg as [f|]; [eauto|]. apply (FM _ (RM r INC)). }
  split.
  - intros o d v Ht. assert (En : p_n P = Z.of_nat (Z.to_nat (p_n P))) by lia. rewrite En in ED. destruct (parametric_trips (Z.to_nat (p_n P)) _ y a alpha beta (pb_demand B) ltac:(lia) (C12_parametric_city _ _ _ H) ED o d v Ht) as (Ho & Hd & Nod & _).
    split; auto. eapply (C60_whole_city _ P _ m0 f0' fs _ fg o d H F); eauto.
  - pose proof (proj1 (C26_modes_rule (pb_graph B) ops)) as MO. rewrite <- EN in MO. destruct MO as (M1 & M2 & M3 & M4).
    set (used := filter (fun m => existsb (fun r => mode_eqb (r_mode r) m) (pb_routes B)) (nw_modes (pb_net B))).
    assert (NDm : NoDup (nw_modes (pb_net B))) by (apply NoDup_map_inv in M1; auto).
    assert (UI : forall m, In m used <-> mode_in_use (pb_routes B) m).
    { intro m. unfold used. rewrite filter_In, existsb_exists. split.
      - intros (Hm & r & Hr & E). apply Z.eqb_eq in E. destruct (GL r Hr) as (_ & (d & Hd) & _). exists r, d. split; auto. split; auto. symmetry. apply (OB r m Hr Hm). auto.
      - intros (r & d & Hr & <- & _). split; auto. exists r. split; auto. apply Z.eqb_refl. }
    exists used. split; [apply NoDup_filter; auto|]. split; [auto|]. split.
    + unfold used. clear - M2. induction (nw_modes (pb_net B)) as [|m l IH]; cbn; [constructor|]. inversion M2 as [|? ? N1 N2]; subst. destruct (existsb _ _); [|auto]. cbn. constructor; auto. intro Hi. apply N1. apply in_map_iff in Hi. destruct Hi as (m' & E & Hm'). rewrite <- E. apply in_map. apply filter_In in Hm'. tauto.
    + assert (NE : used <> []).
      { destruct (C28_families _ P _ m0 H) as (_ & F2 & F3 & F4 & _). assert (Ne : exists r, In r fs).
        { assert (Z1 : In 1%Z (zone_list (zones_of P))) by (apply zone_list_In; unfold zones_of; lia). destruct Hf as [->|[j ->]]; cbn [family_routes] in F.
          - unfold pb_graph in F; rewrite F2 in F. inversion F; subst fs. eexists. apply in_map. exact Z1.
          - assert (J : (1 <= j /\ 2 * j <= p_n P)%Z). { destruct (Z.le_gt_cases 1 j), (Z.le_gt_cases (2 * j) (p_n P)); auto; destruct (F4 j false false ltac:(lia)); unfold pb_graph in *; congruence. }
            destruct (F3 j false false (proj1 J) (proj2 J)) as [E _]. unfold pb_graph in F; rewrite E in F. inversion F; subst fs. eexists. apply (in_map (diametral_line (zones_of P) m0 j false false) _ 1%Z). apply zone_list_In. unfold family_size, zones_of. destruct (2 * j =? Z.of_nat (Z.to_nat (p_n P)))%Z; lia. }
        destruct Ne as [r Hr]. apply INC in Hr. destruct (GL r Hr) as (_ & (d & Hd) & _). intro E. assert (In (r_mode r) used) by (apply UI; exists r, d; auto). rewrite E in H0. contradiction. }
      assert (LU : (length used <= length (nw_modes (pb_net B)))%nat) by (apply NoDup_incl_length; [apply NoDup_filter; auto|intros m Hm; apply filter_In in Hm; tauto]).
      destruct used as [|u1 [|u2 us]] eqn:EU; [congruence|left; reflexivity|]. right. cbn [length] in *. assert (L2 : length (nw_modes (pb_net B)) = 2%nat) by lia. assert (us = []) by (destruct us; auto; cbn in LU; lia). subst us. split; auto.
      destruct (M4 L2) as (m & Hm & Em). exists m. split; auto. rewrite <- EU in *. eapply (NoDup_length_incl (l := used)); [apply NoDup_filter; auto| |intros x Hx; apply filter_In in Hx; exact (proj1 Hx)|exact Hm]. rewrite EU, L2. auto.
Qed.
Print Assumptions C62_well_posed.
(** Such a problem can be built and evaluated: the constructor does not raise, and at every vector of positive
    frequencies the objective and the constraints have a value, which is not negative when no price is. *)
Theorem C62_evaluates : forall B fg P ops y a alpha beta x, predefined_problem B fg P ops y a alpha beta -> all_positive B x ->
  exists N c l, (forall fuel, (N <= fuel)%nat -> exists o, new_optimizer (with_fuel B fuel) fg = Ok o /\ VRC o x = Ok c /\ get_constrains o x = Ok l) /\
    ((forall m, In m (nw_modes (pb_net B)) -> 0 <= m_co m /\ 0 <= m_c1 m /\ 0 <= m_t m /\ 0 <= m_c2 m) ->
     0 <= q_spa (pb_pass B) -> 0 <= q_spw (pb_pass B) -> 0 <= q_spv (pb_pass B) -> 0 <= q_spt (pb_pass B) ->
     (forall n, In n (g_nodes (pb_graph B)) -> 0 <= nd_width n) -> 0 <= c).
Proof.
  intros B fg P ops y a alpha beta x PP HX. destruct (C62_well_posed _ _ _ _ _ _ _ _ PP) as [PO SE]. destruct (C61_evaluation B fg x PO SE HX) as (N & c & l & HC & HN). exists N, c, l. split; auto.
  intros HM H1 H2 H3 H4 HW. apply HC. constructor; auto.
  - intros r Hr. pose proof (C26_route_modes_registered (pb_graph B) ops r (pp_history _ _ _ _ _ _ _ _ PP)) as R. cbv zeta in R. rewrite <- (pp_net _ _ _ _ _ _ _ _ PP) in R. destruct (R Hr) as (m' & Hm' & Em'). rewrite <- (pp_objects _ _ _ _ _ _ _ _ PP r m' Hr Hm' Em'). destruct (HM m' Hm') as (? & ? & ? & ?). auto.
  - intros m Hm. apply (HM m Hm).
  - intros o d v Ht. pose proof (pp_demand _ _ _ _ _ _ _ _ PP) as ED. pose proof (pp_zones _ _ _ _ _ _ _ _ PP) as Hn. assert (En : p_n P = Z.of_nat (Z.to_nat (p_n P))) by lia. rewrite En in ED.
    apply (parametric_trips (Z.to_nat (p_n P)) _ y a alpha beta (pb_demand B) ltac:(lia) (C12_parametric_city _ _ _ (pp_city _ _ _ _ _ _ _ _ PP)) ED o d v Ht).
Qed.
Print Assumptions C62_evaluates.

(** a city of three zones, its radial and circular bus lines, and a generated demand *)
Definition ex_pipe_city : city := match build_from_parameters ex_geo (ex_params_sym 3) with Ok C => C | Err _ => mkCity empty_graph (ex_params_sym 3) end.
Definition ex_pipe_lines : list route :=
  match family_routes (c_graph ex_pipe_city) Props_Network.ex_bus (Radial false false), family_routes (c_graph ex_pipe_city) Props_Network.ex_bus Circular with
  | Ok l, Ok l' => l ++ l' | _, _ => [] end.
Definition ex_pipe_ops : list nop := map NAddRoute ex_pipe_lines.
Definition ex_pipe_demand : demand := match demand_from_parameters (g_nodes (c_graph ex_pipe_city)) 3 1000 (1#2) (1#4) (1#4) with Ok D => D | Err _ => new_demand [] 0 end.
Definition ex_pipe : problem := mkProblem ex_geo ex_pipe_city ex_pipe_demand ex_P (nrun (new_network (c_graph ex_pipe_city)) ex_pipe_ops) 100.
Lemma only_adds l m : ~ In (NRemoveMode m) (map NAddRoute l).
Proof. intro H. apply in_map_iff in H. destruct H as (r & E & _). discriminate. Qed.
Example C62_ex : predefined_problem ex_pipe None (ex_params_sym 3) ex_pipe_ops 1000 (1#2) (1#4) (1#4) /\ length (pb_routes ex_pipe) = 5%nat /\
  all_positive ex_pipe [10; 20; 30; 5; 6] /\ exists o c, new_optimizer ex_pipe None = Ok o /\ VRC o [10; 20; 30; 5; 6] = Ok c /\ 0 < c.
Proof.
  split; [|split; [vm_compute; reflexivity|split]].
  - assert (ER : exists l l', family_routes (pb_graph ex_pipe) Props_Network.ex_bus (Radial false false) = Ok l /\ family_routes (pb_graph ex_pipe) Props_Network.ex_bus Circular = Ok l' /\ pb_routes ex_pipe = l ++ l') by (do 2 eexists; split; [vm_compute; reflexivity|split; vm_compute; reflexivity]).
    destruct ER as (l & l' & E1 & E2 & E3). assert (EM : nw_modes (pb_net ex_pipe) = [Props_Network.ex_bus]) by (vm_compute; reflexivity).
    assert (EB : build_from_parameters ex_geo (ex_params_sym 3) = Ok ex_pipe_city) by (vm_compute; reflexivity).
    constructor.
    + exact EB.
    + cbn; lia.
    + exact ex_sqrt_nonneg.
    + reflexivity.
    + intro m. apply only_adds.
    + intros r m Hr Hm _. rewrite EM in Hm. destruct Hm as [<-|[]]. rewrite E3 in Hr. apply in_app_iff in Hr. destruct Hr as [Hr|Hr]; symmetry; [exact (proj1 (proj2 (C27_predefined_routes_valid ex_geo (ex_params_sym 3) ex_pipe_city _ _ _ r EB E1 Hr)))|exact (proj1 (proj2 (C27_predefined_routes_valid ex_geo (ex_params_sym 3) ex_pipe_city _ _ _ r EB E2 Hr)))].
    + intros m Hm. rewrite EM in Hm. destruct Hm as [<-|[]]. unfold fine_mode. cbn. lra.
    + cbn. lra.
    + intros r Hr. rewrite E3 in Hr. apply in_app_iff in Hr. destruct Hr; eauto.
    + exists Props_Network.ex_bus, (Radial false false), l. split; auto. split; auto. rewrite E3. intros r Hr. apply in_app_iff. auto.
    + vm_compute; reflexivity.
    + intros f r E. discriminate E.
  - split; [vm_compute; reflexivity|]. cbn. intros q Hq. intuition (subst; lra).
  - do 2 eexists. split; [vm_compute; reflexivity|]. split; [vm_compute; reflexivity|]. vm_compute. reflexivity.
Qed.
Lemma empty_posed A fg B : posed A fg -> pb_geo B = pb_geo A -> pb_city B = pb_city A -> pb_pass B = pb_pass A -> pb_routes B = [] -> nw_modes (pb_net B) = [] -> posed B None.
Proof.
  intros [I1 I2 I3 I4 I5 I6 I7 I8 I9] EG EC EP ER EM. unfold pb_graph in *. rewrite <- EG in I3. rewrite <- EC in *. rewrite <- EP in I8.
  constructor; auto; try (intros ? Hin; (rewrite ER in Hin || rewrite EM in Hin); contradiction).
  - rewrite ER. constructor; [apply (xi_ids _ _ I1)|..]; intros; match goal with H : In _ [] |- _ => destruct H end.
  - rewrite ER. constructor.
  - intros f E. discriminate E.
Qed.
(** the same problem without lines is posed too, and is refused *)
Definition ex_pipe_empty : problem := mkProblem ex_geo ex_pipe_city ex_pipe_demand ex_P (new_network (c_graph ex_pipe_city)) 100.
Example C61_ex : posed ex_pipe None /\ serves ex_pipe None /\ posed ex_pipe_empty None /\ ~ serves ex_pipe_empty None /\ new_optimizer ex_pipe_empty None = Err TransportNetworkException.
Proof.
  destruct (C62_well_posed _ _ _ _ _ _ _ _ (proj1 C62_ex)) as [A B]. split; [exact A|]. split; [exact B|].
  assert (ER : pb_routes ex_pipe_empty = []) by reflexivity. assert (EM : nw_modes (pb_net ex_pipe_empty) = []) by reflexivity.
  assert (PO : posed ex_pipe_empty None) by (apply (empty_posed ex_pipe None); [exact A|reflexivity|reflexivity|reflexivity|exact ER|exact EM]).
  split; [exact PO|]. split; [|vm_compute; reflexivity].
  intros [_ (used & ND & UI & _ & US)]. assert (EU : used = []). { destruct used as [|m l]; auto. destruct (proj1 (UI m) (or_introl eq_refl)) as (r & d & Hr & _). rewrite ER in Hr. contradiction. }
  subst used. destruct US as [US|[US _]]; discriminate US.
Qed.
