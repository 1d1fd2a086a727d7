(** * Properties of a whole optimisation (C65) and of the report that follows it (C66) *)
From Coq Require Import String List ZArith QArith Bool Lia Lqa Relations.
From Verif Require Import PyBase PyFacts Graph GraphSpec GraphProofs GeoEx Props_Graph Demand DemandSpec DemandProofs Props_Demand Mode Route Network RouteSpec Props_Network Predef PredefSpec PredefProofs Props_Predef
  ExtGraph ExtSpec ExtProofs Props_Ext Hyperpath HyperSpec HyperProofs Props_Hyper OdFacts Assignment AssignSpec Props_Assign FlowSpec TableProofs FlowProofs Props_Flow Costs CostSpec Props_Cost UsersCost Props_Users
  Optimizer OptSpec Props_Opt Results Props_Results ConnSpec ConnProofs Props_Conn PipeSpec Props_Pipe RunSpec.
Import ListNotations.
Local Open Scope Q_scope.

(** ** Frequencies given as a vector *)
Lemma freq_combine ids : NoDup ids -> forall x i id, length x = length ids -> nth_error ids i = Some id -> freq (combine ids x) id = nth i x 0.
Proof.
  induction ids as [|a ids IH]; intros ND x i id L Hi; [destruct i; discriminate|]. destruct x as [|q x]; [discriminate|]. inversion ND as [|? ? N1 N2]; subst. destruct i as [|i].
  - cbn in Hi. inversion Hi; subst. unfold freq, dget0. cbn. rewrite String.eqb_refl. reflexivity.
  - cbn in Hi. cbn [nth]. rewrite <- (IH N2 x i id); auto. unfold freq, dget0. cbn [combine dget]. destruct (String.eqb_spec id a) as [->|]; [|reflexivity]. exfalso. apply N1. eapply nth_error_In; eauto.
Qed.
Lemma serves_same B f f' : (forall r, In r (pb_routes B) -> freq f (r_id r) = freq f' (r_id r)) -> serves B (Some f) -> serves B (Some f').
Proof.
  intros E [H1 H2]. split; auto. intros o d v Ht. destruct (H1 o d v Ht) as [A1 A2]. split; auto. eapply C59_more_lines; [intros r Hr; exact Hr| |exact A2]. intros r Hr. unfold route_frequency. change (0 < freq f (r_id r) -> 0 < freq f' (r_id r)). rewrite (E r Hr). auto.
Qed.
Lemma fopt_vector B x : NoDup (map r_id (pb_routes B)) -> length x = length (pb_routes B) -> (forall q, In q x -> 0 <= q) ->
  exists f, fopt_to_f (map r_id (pb_routes B)) x = Ok f /\ (forall id, 0 <= freq f id) /\ (serves B (Some f) <-> serves B (Some (combine (map r_id (pb_routes B)) x))).
Proof.
  intros ND L HP. destruct (fopt_from_spec _ ND x 0 []) as [A _]. rewrite map_length in A. destruct A as (f & E & A1 & A2); [lia|]. exists f. split; [exact E|].
  assert (K : forall r, In r (pb_routes B) -> freq f (r_id r) = freq (combine (map r_id (pb_routes B)) x) (r_id r) /\ 0 <= freq f (r_id r)).
  { intros r Hr. apply In_nth_error in Hr. destruct Hr as (n & Hn). assert (Ln : (n < length (pb_routes B))%nat) by (apply nth_error_Some; congruence). assert (Hm : nth_error (map r_id (pb_routes B)) n = Some (r_id r)) by (rewrite nth_error_map, Hn; auto).
    rewrite (A1 n (r_id r) Hm), (freq_combine _ ND x n (r_id r)); auto; [|rewrite map_length; auto]. rewrite Nat.sub_0_r. destruct (Nat.leb_spec 0 n), (Nat.ltb_spec n (0 + length x)); cbn [andb]; try lia. split; auto. apply HP, nth_In. lia. }
  split.
  - intro id. destruct (in_dec string_dec id (map r_id (pb_routes B))) as [Hi|Hi].
    + apply in_map_iff in Hi. destruct Hi as (r & <- & Hr). apply (K r Hr).
    + rewrite (A2 id Hi). unfold freq, dget0. cbn. lra.
  - split; apply serves_same; intros r Hr; destruct (K r Hr); congruence.
Qed.
Lemma posed_given B fg f : posed B fg -> (forall id, 0 <= freq f id) -> posed B (Some f).
Proof. intros [] HF. constructor; auto. intros f' E r Hr. inversion E; subst. auto. Qed.

(** a strategy found for some frequencies can be used at them: it has no line that does not run *)
Lemma self_run B f X es : posed B (Some f) -> let n := S (length (xnodes X)) in
  build_ext (pb_geo B) (pb_graph B) (pb_routes B) (q_pt (pb_pass B)) (Some (fst (fst (f0 (pb_routes B) (Some f))))) = Ok X -> hyper_graph X -> weights X (pb_pass B) ->
  get_all_hyperpaths n X (pb_pass B) (dm_matrix (pb_demand B)) = Ok es -> forall e, In e es -> runs X f e.
Proof.
  intros PO n EX HG WG ES e He v x Hx Fx. assert (Ln : (length (xnodes X) < n)%nat) by (unfold n; lia). pose proof (po_input _ _ PO) as I.
  destruct (entries_ok n X _ _ es HG WG Ln ES e He) as (c & cd & O). pose proof (oo_facts _ _ _ _ _ _ O) as HF. destruct (hf_suc _ _ _ _ _ HF v x Hx) as (A1 & A2 & _ & _ & A5).
  pose proof (built_shape _ _ _ _ _ X I EX HG x A1) as Sh. unfold edge_shape in Sh. destruct (x_f x) as [q0|] eqn:Eq; [|congruence]. destruct (x_i x) as [|s0|] eqn:Ei; try contradiction. destruct (x_j x) as [| |k] eqn:Ej; try contradiction.
  exists x, k. split; auto. split; auto. pose proof (hg_board X HG x A1) as HB. rewrite Eq in HB. destruct HB as (TB & _ & _ & _).
  assert (Q0 : 0 < q0).
  { destruct (hr_lab (od_res e) v) as [q|] eqn:El; [|congruence]. assert (Hv : In v (xnodes X)) by (rewrite <- A2, <- Ei; apply (hg_ends X HG x A1)).
    assert (Dv : od_d e <> Some v) by (intro Dv; rewrite (hf_dest _ _ _ _ _ HF v Dv) in Hx; contradiction).
    destruct (hf_step _ _ _ _ _ HF v q Hv Dv El) as [(y & E1 & E2 & _)|(_ & E2 & _)].
    - rewrite E1 in Hx. destruct Hx as [<-|[]]. congruence.
    - destruct (E2 x Hx) as (f1 & F1 & F2). congruence. }
  pose proof (C31_edge_values _ _ _ _ _ X I EX x A1) as V. rewrite TB in V. destruct V as (_ & k' & rn & q1 & Ek & Ern & E1 & E2). assert (k' = k) by congruence. subst k'. assert (q1 = q0) by congruence. subst q1.
  unfold rid, rnode_at. rewrite (nth_error_nth _ _ _ Ern). pose proof (facts_of _ _ _ _ _ _ I EX) as FA. rewrite (ef_rn _ _ _ _ _ _ FA) in Ern. destruct (rns_visit _ _ I k rn Ern) as (r & d & z & s1 & st & nd & V1 & V2 & _). rewrite V2 in *.
  destruct (po_lines B _ PO r V1) as (D1 & _). rewrite (f0_route_frequency _ _ r (po_ids B _ PO) V1) in E2. unfold route_frequency in E2. fold (freq f (r_id r)) in E2.
  destruct (Qlt_le_dec 0 (freq f (r_id r))) as [|C]; auto. exfalso. assert (freq f (r_id r) / m_d (r_mode r) <= 0) by (apply Qle_shift_div_r; lra). lra.
Qed.

(** ** Construction, with the number of turns left open *)
Lemma construction B fg : posed B fg -> serves B fg -> exists N o, o_pos o = map r_id (pb_routes B) /\ o_fopt o = map (fun r => m_fini (r_mode r)) (pb_routes B) /\ o_pb o = with_fuel B 0 /\
  forall fuel, (N <= fuel)%nat -> new_optimizer (with_fuel B fuel) fg = Ok (refuel o fuel).
Proof.
  intros PO SE. destruct (graph_stage B fg PO) as (X & EX & HG & WG & UD & TF & SV & _). set (n := S (length (xnodes X))) in *. apply SV in SE. destruct SE as [es ES].
  destruct (evaluation_stage B fg X es _ PO (start_positive B fg PO) EX HG WG UD ES) as (asg & EA & N & c & l & _ & HN).
  exists (Nat.max n N), (mkOpt (with_fuel B 0) (fst (fst (f0 (pb_routes B) fg))) (map (fun r => m_fini (r_mode r)) (pb_routes B)) (map r_id (pb_routes B)) X es asg (length l) (length (map (fun r => m_fini (r_mode r)) (pb_routes B)))).
  do 3 (split; [reflexivity|]). intros fuel L. rewrite (new_optimizer_unfold B fg fuel X EX), TF by lia. rewrite ES. cbn [bind]. rewrite EA. cbn [bind]. cbv zeta.
  destruct (HN fuel (fst (fst (f0 (pb_routes B) fg))) (map (fun r => m_fini (r_mode r)) (pb_routes B)) 0%nat 0%nat ltac:(lia)) as [_ E]. rewrite E. cbn [bind]. reflexivity.
Qed.
Lemma distance_ok p : forall x d, length p = length x -> exists q, f_distance_from p x d = Ok q.
Proof. induction p as [|a p IH]; intros [|b x] d L; try discriminate; cbn [f_distance_from]; eauto. Qed.

(** ** C65 *)
Lemma loop_ok B fg solver tol N : posed B fg -> sound_solver B solver -> forall k i o pre x log, o_pos o = map r_id (pb_routes B) -> o_pb o = with_fuel B 0 -> length pre = length x -> keeps_serving B x ->
  (forall e, In e log -> length (e_x e) = length (pb_routes B)) ->
  exists n r, (forall fuel, (n <= fuel)%nat -> external_loop k (with_fuel B fuel) solver tol N i (refuel o fuel) pre x log = r) /\
    (r = None \/ exists log', r = Some (Ok log') /\ forall e, In e log' -> length (e_x e) = length (pb_routes B)).
Proof.
  intros PO [TU SO]. induction k as [|k IH]; intros i o pre x log EP EB L KS LL; cbn [external_loop]; unfold tolerance_reached, f_distance; destruct (distance_ok pre x 0 L) as (d & ->); cbn [bind].
  - destruct (Qltb _ tol); [exists 0%nat, (Some (Ok log)); split; [auto|right; eauto]|]. destruct (match N with Some _ => _ | None => _ end); [exists 0%nat, (Some (Ok log)); split; [auto|right; eauto]|exists 0%nat, None; auto].
  - destruct (Qltb _ tol); [exists 0%nat, (Some (Ok log)); split; [auto|right; eauto]|]. destruct (match N with Some _ => _ | None => _ end); [exists 0%nat, (Some (Ok log)); split; [auto|right; eauto]|].
    destruct KS as (K1 & K2 & K3). destruct (fopt_vector B x (po_ids B fg PO) K1 K2) as (f & Ef & F2 & F3). pose proof (posed_given B fg f PO F2) as PO'. apply F3 in K3.
    destruct (construction B (Some f) PO' K3) as (n1 & o1 & P1 & _ & P3 & H1). destruct (SO i o1) as (e & Ee & KE). pose proof KE as (K4 & _).
    destruct (IH (S i) o1 x (e_x e) (log ++ [e]) P1 P3) as (n2 & r & H2 & HR); [congruence|exact KE|intros e' He'; apply in_app_iff in He'; destruct He' as [He'|[<-|[]]]; auto|].
    exists (Nat.max n1 n2), r. split; [|exact HR]. intros fuel Lf. cbn [refuel o_pos]. rewrite EP, Ef. cbn [bind]. rewrite H1 by lia. cbn [bind]. rewrite TU, Ee. cbn [bind]. apply H2. lia.
Qed.
Lemma runs_ok B fg solver tol N k : posed B fg -> serves B fg -> sound_solver B solver ->
  exists n r, (forall fuel, (n <= fuel)%nat -> external_runs k (with_fuel B fuel) solver fg tol N = r) /\
    (r = None \/ exists log, r = Some (Ok log) /\ forall e, In e log -> length (e_x e) = length (pb_routes B)).
Proof.
  intros PO SE SO. destruct (construction B fg PO SE) as (n1 & o1 & P1 & P2 & P3 & H1). destruct (proj2 SO O o1) as (e & Ee & KE). pose proof KE as (K4 & _).
  destruct (loop_ok B fg solver tol N PO SO k 1 o1 (o_fopt o1) (e_x e) [mkEntry (o_fopt o1) None (-1) "initialization" (Fin (-1)) (Fin (-1)); e] P1 P3) as (n2 & r & H2 & HR).
  - rewrite P2, map_length. congruence.
  - exact KE.
  - intros e' [<-|[<-|[]]]; auto. cbn [e_x]. rewrite P2. apply map_length.
  - exists (Nat.max n1 n2), r. split; [|exact HR]. intros fuel L. unfold external_runs. rewrite H1 by lia. cbn [bind]. rewrite (proj1 SO), Ee. cbn [bind]. cbn [refuel o_fopt]. apply H2. lia.
Qed.
(** A problem whose lines allow every trip is optimised from beginning to end, whatever the answers of the solver, as
    long as the lines that run at each of them still allow every trip.  The only exception is
    NoOptimalSolutionFoundException, raised when no answer is acceptable.  With number_of_iteration the run ends.
    The answer has a frequency for each line, either 0 or at least one vehicle a day. *)
Theorem C65_runs_through : forall B fg solver tol N k, posed B fg -> serves B fg -> sound_solver B solver ->
  exists n r, forall fuel, (n <= fuel)%nat -> external_optimization k (with_fuel B fuel) solver fg tol N = r /\
    ((r = None /\ (forall m, N = Some m -> (k < Z.to_nat m)%nat) /\ network_optimization k (with_fuel B fuel) solver fg tol N = None) \/
     (r = Some (Err NoOptimalSolutionFoundException) /\ network_optimization k (with_fuel B fuel) solver fg tol N = Some (Err NoOptimalSolutionFoundException) /\
      exists log, external_runs k (with_fuel B fuel) solver fg tol N = Some (Ok log) /\ forall e, In e log -> acceptable e -> ~ has_value e) \/
     (exists o e, r = Some (Ok e) /\ network_optimization k (with_fuel B fuel) solver fg tol N = Some (Ok (o, e)) /\ new_optimizer (with_fuel B fuel) fg = Ok o /\
        length (e_x e) = length (pb_routes B) /\ forall q, In q (e_x e) -> q == 0 \/ 1 # 24 <= q)).
Proof.
  intros B fg solver tol N k PO SE SO. destruct (construction B fg PO SE) as (n1 & o1 & P1 & P2 & P3 & H1). destruct (runs_ok B fg solver tol N k PO SE SO) as (n2 & r & H2 & HR).
  exists (Nat.max n1 n2), (option_map (fun r => let* log := r in select_result log) r). intros fuel L. specialize (H1 fuel ltac:(lia)). specialize (H2 fuel ltac:(lia)).
  assert (EO : external_optimization k (with_fuel B fuel) solver fg tol N = option_map (fun r => let* log := r in select_result log) r) by (unfold external_optimization; rewrite H2; reflexivity).
  split; [exact EO|]. unfold network_optimization. rewrite H1, EO. destruct HR as [->|(log & -> & LL)].
  - left. split; [reflexivity|]. split; [|reflexivity]. intros m ->. destruct (Nat.lt_ge_cases k (Z.to_nat m)) as [|C]; auto. exfalso. destruct (proj1 (C52_bounded k (with_fuel B fuel) solver fg tol m C)) as (r & Er). rewrite EO in Er. discriminate.
  - right. destruct (C53_only_no_optimal _ _ _ _ _ _ _ H2) as [(e & Ee)|(Ee & HL)]; rewrite EO in Ee; rewrite Ee.
    + right. rewrite <- EO in Ee. destruct (C53_returned _ _ _ _ _ _ _ Ee) as (x0 & rs & e0 & i & Er & Hi & _ & _ & _ & _ & _ & F & FR & _). rewrite H2 in Er. inversion Er; subst log.
      assert (Le : length (e_x e) = length (pb_routes B)). { assert (L0 : length (e_x e0) = length (pb_routes B)) by (apply LL; right; eapply nth_error_In; eauto). rewrite <- L0. clear - F. induction F; cbn; auto. }
      exists (refuel o1 fuel), e. split; [reflexivity|]. cbn [option_map bind]. cbn [refuel o_pos]. rewrite P1. destruct (fopt_from_spec _ (po_ids B fg PO) (e_x e) 0 []) as [A _]. rewrite map_length in A. destruct A as (f & E & _); [lia|]. unfold fopt_to_f. rewrite E. cbn [bind]. auto.
    + left. split; [reflexivity|]. split; [reflexivity|]. eauto.
Qed.
Print Assumptions C65_runs_through.
(** Answers with a positive frequency for every line are such answers. *)
Theorem C65_positive : forall B fg x, posed B fg -> serves B fg -> all_positive B x -> keeps_serving B x.
Proof.
  intros B fg x PO [S1 S2] [L HP]. split; auto. split; [intros q Hq; apply Qlt_le_weak; auto|]. split; auto. intros o d v Ht. destruct (S1 o d v Ht) as [A1 A2]. split; auto. eapply C59_more_lines; [intros r Hr; exact Hr| |exact A2].
  intros r Hr _. unfold route_frequency. change (0 < freq (combine (map r_id (pb_routes B)) x) (r_id r)). apply In_nth_error in Hr. destruct Hr as (n & Hn). assert (Ln : (n < length (pb_routes B))%nat) by (apply nth_error_Some; congruence).
  rewrite (freq_combine _ (po_ids B fg PO) x n (r_id r)); [apply HP, nth_In; lia|rewrite map_length; auto|rewrite nth_error_map, Hn; auto].
Qed.
Print Assumptions C65_positive.

(** The solver always gives the same answer, of five frequencies; [q] is that of the first radial line. *)
Definition ex_answer (q : Q) : entry := ex_e [q; 20; 30; 5; 6] 1 (Fin 0) (Fin 5).
Definition ex_constant (q : Q) : solver_t := fun _ _ => Ok (ex_answer q).
Lemma ex_sound q : 0 < q -> sound_solver ex_pipe (ex_constant q).
Proof.
  intro Hq. split; [intros i o n; reflexivity|]. intros i o. exists (ex_answer q). split; [reflexivity|]. destruct C61_ex as (PO & SE & _). apply (C65_positive ex_pipe None _ PO SE). split; [vm_compute; reflexivity|]. cbn. intros x Hx. intuition (subst; lra).
Qed.
Example C65_ex : posed ex_pipe None /\ serves ex_pipe None /\ sound_solver ex_pipe (ex_constant 10) /\ exists o e, network_optimization 5 ex_pipe (ex_constant 10) None (1 # 100) None = Some (Ok (o, e)) /\ e_x e = [10; 20; 30; 5; 6].
Proof.
  destruct C61_ex as (PO & SE & _). split; [exact PO|]. split; [exact SE|]. split; [apply ex_sound; lra|]. do 2 eexists. split; [vm_compute; reflexivity|reflexivity].
Qed.
(** An acceptable answer at which a trip has become impossible is lost: unless the run ends with it, the Optimizer
    of the next iteration cannot be built, and the exception leaves external_optimization (optimizer.py 390-391). *)
Theorem C65_idle_line_refuted : exists B solver tol e, posed B None /\ serves B None /\ 0 < tol /\ turns_unseen solver /\ (forall i o, solver i o = Ok e) /\
  length (e_x e) = length (pb_routes B) /\ (forall q, In q (e_x e) -> 0 <= q) /\ acceptable e /\ has_value e /\
  forall k, external_optimization (S k) B solver None tol None = Some (Err TransportNetworkException).
Proof.
  exists ex_pipe, (ex_constant 0), (1 # 100), (ex_answer 0). destruct C61_ex as (PO & SE & _). split; [exact PO|]. split; [exact SE|]. split; [reflexivity|]. split; [intros i o n; reflexivity|]. split; [intros; reflexivity|].
  split; [vm_compute; reflexivity|]. split; [cbn; intros x Hx; intuition (subst; lra)|]. split; [|split; [|intro k; vm_compute; reflexivity]].
  - do 3 (split; [discriminate|]). split; [exists 0; split; [reflexivity|lra]|]. cbn. intros x Hx. intuition (subst; lra).
  - left. exists 5. reflexivity.
Qed.
Print Assumptions C65_idle_line_refuted.

(** ** C66 *)
(** After the optimisation, the overall report of frequencies that are not negative can be made exactly when the lines
    that run at them allow every trip; otherwise TransportNetworkException is raised. *)
Theorem C66_report : forall B fg e, posed B fg -> serves B fg -> length (e_x e) = length (pb_routes B) -> (forall q, In q (e_x e) -> 0 <= q) -> ~ dm_total (pb_demand B) == 0 ->
  exists n, forall fuel, (n <= fuel)%nat -> exists o, new_optimizer (with_fuel B fuel) fg = Ok o /\
    ((exists R, get_overall_results o (Some e) = Ok R) <-> keeps_serving B (e_x e)) /\
    (~ keeps_serving B (e_x e) -> get_overall_results o (Some e) = Err TransportNetworkException).
Proof.
  intros B fg e PO SE L HP HT. destruct (construction B fg PO SE) as (n0 & o0 & P1 & _ & P3 & H0). destruct (fopt_vector B (e_x e) (po_ids B fg PO) L HP) as (f & Ef & F2 & F3). pose proof (posed_given B fg f PO F2) as PO'.
  destruct (graph_stage B (Some f) PO') as (X & EX & HG & WG & UD & TF & SV & TRI & AM). set (n := S (length (xnodes X))) in *.
  assert (KS : keeps_serving B (e_x e) <-> serves B (Some f)) by (rewrite F3; unfold keeps_serving; tauto).
  destruct (get_all_hyperpaths n X (pb_pass B) (dm_matrix (pb_demand B))) as [es|er] eqn:ES.
  - destruct (evaluation_stage B (Some f) X es _ PO' (start_positive B (Some f) PO') EX HG WG UD ES) as (asg & EA & N & c0 & l0 & _ & HN).
    destruct (evaluation_stage_at B (Some f) X es (e_x e) f PO' Ef F2 (self_run B f X es PO' EX HG WG ES) EX HG WG UD ES) as (asg' & EA' & N' & c & l & _ & HN'). assert (asg' = asg) by congruence. subst asg'.
    exists (Nat.max n0 (Nat.max n (Nat.max N N'))). intros fuel Lf. exists (refuel o0 fuel). specialize (H0 fuel ltac:(lia)). split; [exact H0|].
    assert (E1 : exists o', new_optimizer (with_fuel B fuel) (Some f) = Ok o' /\ exists c, VRC o' (e_x e) = Ok c).
    { rewrite (new_optimizer_unfold B (Some f) fuel X EX), TF by lia. cbn [bind]. rewrite EA. cbn [bind]. cbv zeta. destruct (HN fuel (fst (fst (f0 (pb_routes B) (Some f)))) (map (fun r => m_fini (r_mode r)) (pb_routes B)) 0%nat 0%nat ltac:(lia)) as [_ E]. rewrite E. cbn [bind].
      eexists. split; [reflexivity|]. exists c. apply HN'. lia. }
    destruct E1 as (o' & E1 & E2). assert (K : exists R, get_overall_results (refuel o0 fuel) (Some e) = Ok R) by (apply (C55_defined (with_fuel B fuel) fg (refuel o0 fuel) e f o' H0 (po_ids B fg PO) Ef E1); auto).
    assert (KK : keeps_serving B (e_x e)) by (apply KS, SV; eauto). split; [split; auto|]. intro NK. contradiction.
  - exists (Nat.max n0 n). intros fuel Lf. exists (refuel o0 fuel). specialize (H0 fuel ltac:(lia)). split; [exact H0|].
    assert (E1 : get_overall_results (refuel o0 fuel) (Some e) = Err er).
    { unfold get_overall_results, last_iteration. cbn [refuel o_pos o_pb]. rewrite P1, Ef. cbn [bind]. rewrite P3. change (with_fuel (with_fuel B 0) fuel) with (with_fuel B fuel). rewrite (new_optimizer_unfold B (Some f) fuel X EX), TF by lia. reflexivity. }
    rewrite E1. split.
    + split; [intros [R C]; discriminate|]. intro H. apply KS, SV in H. destruct H as [es C]. discriminate.
    + intros _. destruct TRI as [[es C]|[C|C]]; [discriminate|congruence|]. exfalso. apply AM in C. destruct C as (_ & m & m' & M1 & M2 & M3 & M4). destruct SE as (_ & used & U1 & U2 & U3 & _). apply U2 in M1, M2.
      clear - M1 M2 M3 M4 U3. induction used as [|a l IH]; [contradiction|]. cbn in U3. inversion U3 as [|? ? N1 N2]; subst. destruct M1 as [->|M1], M2 as [->|M2]; auto; apply N1; [rewrite M4|rewrite <- M4]; apply in_map; auto.
Qed.
Print Assumptions C66_report.
Lemma ex_pipe_trips : ~ dm_total (pb_demand ex_pipe) == 0.
Proof. vm_compute. discriminate. Qed.
Example C66_ex : ~ dm_total (pb_demand ex_pipe) == 0 /\ exists o R, new_optimizer ex_pipe None = Ok o /\ get_overall_results o (Some (ex_answer 10)) = Ok R /\ 0 < ov_vrc R /\
  get_overall_results o (Some (ex_answer 0)) = Err TransportNetworkException.
Proof. split; [exact ex_pipe_trips|]. do 2 eexists. split; [vm_compute; reflexivity|]. split; [vm_compute; reflexivity|]. split; vm_compute; reflexivity. Qed.
(** The frequencies below one vehicle a day are set to 0 after the last iteration.  The solution found can then leave
    trips without a line, and none of the reports of it can be made. *)
Theorem C66_small_frequency_refuted : exists B solver tol o e, posed B None /\ serves B None /\ sound_solver B solver /\ (forall i o' e', solver i o' = Ok e' -> all_positive B (e_x e') /\ acceptable e') /\
  network_optimization 5 B solver None tol None = Some (Ok (o, e)) /\
  get_overall_results o (Some e) = Err TransportNetworkException /\ get_network_results o (Some e) = Err TransportNetworkException.
Proof.
  exists ex_pipe, (ex_constant (1 # 30)), (1 # 100). do 2 eexists. destruct C61_ex as (PO & SE & _). split; [exact PO|]. split; [exact SE|]. split; [apply ex_sound; lra|]. split.
  { intros i o' e' H. inversion H; subst. split; [split; [vm_compute; reflexivity|cbn; intros x Hx; intuition (subst; lra)]|]. do 3 (split; [discriminate|]). split; [exists 0; split; [reflexivity|lra]|]. cbn. intros x Hx. intuition (subst; lra). }
  split; [vm_compute; reflexivity|]. split; vm_compute; reflexivity.
Qed.
Print Assumptions C66_small_frequency_refuted.
