(** * Props_Demand: the properties C10-C15 of OD matrices *)
From Coq Require Import String Ascii List ZArith QArith Bool Lia Lqa.
From Verif Require Import PyBase PyFacts PyStr PyStrFacts Graph GraphSpec GraphProofs GeoEx Demand DemandSpec
  DemandProofs Props_Graph.
Import ListNotations.
Local Open Scope Q_scope.

(** a two-zone city for the examples: ids 0..4 *)
Definition ex_city2 : list node :=
  match build_from_parameters ex_geo (ex_params_sym 2) with Ok C => g_nodes (c_graph C) | Err _ => [] end.
Example ex_city2_ids : map nd_id ex_city2 = [0; 1; 2; 3; 4]%Z.
Proof. vm_compute. reflexivity. Qed.
Lemma ex_city2_layout : city_layout 2 ex_city2.
Proof.
  pose proof (parametric_layout ex_geo (ex_params_sym 2)) as H. unfold ex_city2.
  destruct (build_from_parameters ex_geo (ex_params_sym 2)) as [C|e] eqn:E; [|vm_compute in E; discriminate].
  apply (H C). reflexivity.
Qed.

(** C10: after ANY history (accepted and rejected updates, reads through the returned default
    dictionary, known or unknown ids) the total is the sum of all the cells. *)
Theorem C10_total_is_sum : forall nodes n ops,
  let D := drun (new_demand nodes n) ops in dm_total D == matrix_sum D.
Proof. intros nodes n ops. apply drun_sum_ok. Qed.
Print Assumptions C10_total_is_sum.
(** the same holds for the three builders, followed by any history *)
Theorem C10_total_is_sum_built : forall F nodes n D0 ops,
  ((exists y a alpha beta, demand_from_parameters nodes n y a alpha beta = Ok D0) \/
   (exists m, demand_from_content nodes n m = Ok D0) \/
   (exists lines, demand_from_lines F nodes n lines = Ok D0)) ->
  let D := drun D0 ops in dm_total D == matrix_sum D.
Proof.
  intros F nodes n D0 ops H.
  assert (R : forall D o d v D', sum_ok D -> change_vij_r D o d v = Ok D' -> sum_ok D').
  { intros D o d v D' S E. unfold change_vij_r in E. pose proof (change_sum_ok D o d v S) as S'.
    destruct (change_vij D o d v) as [D1 [e|]]; inversion E; subst; auto. }
  assert (R' : forall (c : bool) D o d v D', sum_ok D -> (if c then change_vij_r D o d v else Ok D) = Ok D' -> sum_ok D').
  { intros [] D o d v D' S E; [eauto|inversion E; subst; auto]. }
  assert (S0 : sum_ok D0).
  { destruct H as [(y & a & alpha & beta & H)|[(m & H)|(lines & H)]].
    - unfold demand_from_parameters in H. apply bind_ok in H. destruct H as [b [_ H]].
      apply bind_ok in H. destruct H as [s [_ H]].
      eapply (foldM_inv sum_ok) in H; eauto using new_sum_ok.
      intros D [o d] D' _ HD E. unfold param_cell in E.
      destruct (is_kind CBD (find_last_node (dm_nodes D) o)); [inversion E; subst; auto|].
      destruct (is_kind Periphery (find_last_node (dm_nodes D) d)); [inversion E; subst; auto|].
      repeat (apply bind_ok in E; destruct E as [?D [?E1 E]]).
      inversion E; subst. clear E.
      repeat match goal with
      | H : (if _ then change_vij_r ?D _ _ _ else Ok ?D) = Ok _, S : sum_ok ?D |- _ => apply (R' _ _ _ _ _ _ S) in H
      end; auto.
    - unfold demand_from_content in H. apply raise_if_ok in H. destruct H as [_ H].
      eapply (foldM_inv sum_ok) in H; eauto using new_sum_ok.
      intros D i D' _ HD E. unfold content_row in E. apply bind_ok in E. destruct E as [row [_ E]].
      apply raise_if_ok in E. destruct E as [_ E].
      eapply (foldM_inv sum_ok) in E; eauto.
      intros D1 j D2 _ HD1 E1. unfold content_cell in E1.
      repeat (apply bind_ok in E1; destruct E1 as [? [_ E1]]). apply raise_if_ok in E1. destruct E1 as [_ E1].
      eauto using R.
    - unfold demand_from_lines in H. eapply (foldM_inv sum_ok) in H; eauto using new_sum_ok.
      intros D line D' _ HD E. unfold read_line in E.
      destruct (split_on ","%char line) as [|so [|sd [|sv [|? ?]]]]; try discriminate.
      destruct (int_of_str so); [|discriminate]. destruct (int_of_str sd); [|discriminate].
      destruct (fl_parse F sv); [|discriminate]. eauto using R. }
  unfold drun. revert D0 H S0. induction ops as [|op ops IH]; intros D0 _ S0; simpl; auto.
  clear IH. revert S0. generalize (dstep D0 op) (dstep_sum_ok D0 op). intros D1 H1 S0. apply H1 in S0.
  clear H1. revert D1 S0. induction ops as [|op' ops IH]; intros D1 S1; simpl; auto.
  apply IH. apply dstep_sum_ok. auto.
Qed.
Print Assumptions C10_total_is_sum_built.
Example C10_ex : let D := drun (new_demand ex_city2 2) [DChange 1 0 (7#2); DChange 2 99 1; DReadCell 50 60; DChange 1 0 2; DChange 3 4 5; DChange 3 4 (-1)] in
  dm_total D == 7.
Proof. vm_compute. reflexivity. Qed.

(** C11: the decision rule of change_vij, in terms of the nodes of the graph, in every state
    reached by updates and reads of known cells; on failure the state is unchanged, on success
    exactly one cell changes. *)
Theorem C11_change_vij_rule : forall nodes n ops o d v, known_reads nodes ops ->
  let D := drun (new_demand nodes n) ops in
  (v < 0 -> change_vij D o d v = (D, Some TripsValueIsNotValidException)) /\
  (0 <= v -> ~ In o (map nd_id nodes) -> change_vij D o d v = (D, Some OriginIdDoesNotFoundException)) /\
  (0 <= v -> In o (map nd_id nodes) -> ~ In d (map nd_id nodes) ->
     change_vij D o d v = (D, Some DestinationIdDoesNotFoundException)) /\
  (0 <= v -> In o (map nd_id nodes) -> In d (map nd_id nodes) ->
     exists D' old, change_vij D o d v = (D', None) /\ cell D o d = Some old /\ cell D' o d = Some v /\
       (forall i j, (i, j) <> (o, d) -> cell D' i j = cell D i j) /\
       dm_total D' == dm_total D - old + v).
Proof.
  intros nodes n ops o d v K D. destruct (changes_inv nodes n ops K) as ((I1 & I2 & I3 & I4) & _). fold D in I1, I2, I3, I4.
  rewrite (change_rule nodes) by auto.
  split; [intro H; rewrite (proj2 (Qltb_lt v 0) H); reflexivity|].
  split; [intros H Ho; rewrite (proj2 (Qltb_ge v 0) H), (proj2 (zmem_nIn _ _) Ho); reflexivity|].
  split.
  - intros H Ho Hd. rewrite (proj2 (Qltb_ge v 0) H), (proj2 (zmem_In _ _) Ho). simpl.
    destruct (dict2_get (dm_matrix D) o d) as [old|] eqn:E; auto. exfalso. apply Hd.
    apply (std_cell nodes (dm_matrix D) o d I3). eauto.
  - intros H Ho Hd. rewrite (proj2 (Qltb_ge v 0) H), (proj2 (zmem_In _ _) Ho). simpl.
    destruct (proj2 (std_cell nodes (dm_matrix D) o d I3) (conj Ho Hd)) as [old E]. rewrite E.
    eexists. exists old. split; [reflexivity|]. split; [exact E|]. split.
    + unfold cell. simpl. rewrite dict2_get_set, !Z.eqb_refl. reflexivity.
    + split; [|simpl; reflexivity]. intros i j Hij. unfold cell. simpl. rewrite dict2_get_set.
      destruct (Z.eqb_spec i o), (Z.eqb_spec j d); simpl; auto. congruence.
Qed.
Print Assumptions C11_change_vij_rule.
(** atomicity in EVERY state, reachable or not *)
Theorem C11_failure_is_atomic : forall D o d v D' e, change_vij D o d v = (D', Some e) -> D' = D.
Proof. exact change_err. Qed.
Print Assumptions C11_failure_is_atomic.
Theorem C11_success_touches_one_cell : forall D o d v D', change_vij D o d v = (D', None) ->
  0 <= v /\ cell D' o d = Some v /\ (forall i j, (i, j) <> (o, d) -> cell D' i j = cell D i j) /\
  exists old, cell D o d = Some old /\ dm_total D' == dm_total D - old + v.
Proof.
  intros D o d v D' H. apply change_ok in H. destruct H as (Hv & old & Ho & ->). split; auto.
  unfold cell. simpl. split; [rewrite dict2_get_set, !Z.eqb_refl; reflexivity|]. split.
  - intros i j Hij. rewrite dict2_get_set. destruct (Z.eqb_spec i o), (Z.eqb_spec j d); simpl; auto. subst. congruence.
  - exists old. split; auto. reflexivity.
Qed.
Print Assumptions C11_success_touches_one_cell.
(** cells are never negative, and the cells are exactly the pairs of nodes *)
Theorem C11_cells_nonnegative : forall nodes n ops, known_reads nodes ops ->
  let D := drun (new_demand nodes n) ops in
  (forall i j v, cell D i j = Some v -> 0 <= v) /\
  (forall i j, (exists v, cell D i j = Some v) <-> In i (map nd_id nodes) /\ In j (map nd_id nodes)) /\
  0 <= dm_total D.
Proof.
  intros nodes n ops K D. destruct (changes_inv nodes n ops K) as ((I1 & I2 & I3 & I4) & Nn & Sk). fold D in I1, I2, I3, I4, Nn, Sk.
  split; [exact Nn|]. split; [intros; apply std_cell; auto|].
  unfold sum_ok in I4. rewrite I4. unfold msum. rewrite Qsum_flat_map. apply Qsumf_nonneg. intros [k row] Hr.
  change (Qsum (map snd (snd (k, row)))) with (Qsumf snd row). apply Qsumf_nonneg. intros [k' v] Hc. simpl.
  (* every stored cell is nonnegative: induction over the history *)
  assert (G : forall ops0 D0, (forall r c, In r (dm_matrix D0) -> In c (snd r) -> 0 <= snd c) ->
     known_reads nodes ops0 -> dinv nodes n D0 ->
     forall r c, In r (dm_matrix (fold_left dstep ops0 D0)) -> In c (snd r) -> 0 <= snd c).
  { clear. induction ops0 as [|op ops0 IH]; intros D0 H0 K0 I0; simpl; auto.
    assert (Hop := K0 op (or_introl eq_refl)).
    assert (K1 : known_reads nodes ops0) by (intros x Hx; apply K0; simpl; auto).
    destruct op as [o d v|o|o d].
    - apply IH; auto; [|apply change_dinv; auto]. simpl.
      destruct (change_vij D0 o d v) as [D' [e|]] eqn:E; simpl.
      + apply change_err in E. subst. auto.
      + apply change_ok in E. destruct E as (Hv & old & Ho & ->). simpl. intros r c Hr Hc. unfold dict2_set in Hr.
        apply dset_In in Hr. destruct Hr as [Hr|Hr]; [eauto|]. subst. simpl in Hc. apply dset_In in Hc.
        destruct Hc as [Hc|Hc]; [|subst; auto]. unfold dget0 in Hc.
        destruct (dget Z.eqb (dm_matrix D0) o) as [row'|] eqn:Er; [|contradiction].
        apply (dget_In Z.eqb Zeqb_spec) in Er. eapply (H0 _ c Er). auto.
    - simpl in Hop. cbn [dstep]. rewrite (read_row_known nodes) by (auto; apply I0). apply IH; auto.
    - simpl in Hop. cbn [dstep]. rewrite (read_known_id nodes) by (tauto || apply I0). apply IH; auto. }
  apply (G ops (new_demand nodes n)) with (r := (k, row)) (c := (k', v)); auto using new_dinv.
  intros r c Hr' Hc'. simpl in Hr'. rewrite (default_zeros nodes r c Hr' Hc'). lra.
Qed.
Print Assumptions C11_cells_nonnegative.
Example C11_ex : let D := drun (new_demand ex_city2 2) [DChange 1 0 3; DReadCell 1 2] in
  known_reads ex_city2 [DChange 1 0 3; DReadCell 1 2] /\
  cell (fst (change_vij D 1 0 8)) 1 0 = Some 8 /\ snd (change_vij D 7 0 8) = Some OriginIdDoesNotFoundException.
Proof.
  split; [|vm_compute; auto].
  intros op [H|[H|[]]]; subst; auto. rewrite ex_city2_ids. simpl. auto.
Qed.

(** C12: on every city layout with n >= 1 zones (in particular every parametric city, see
    [C12_parametric_city]) the documented shares are distributed exactly. *)
Theorem C12_parametric_demand : forall n nodes y a alpha beta,
  (1 <= n)%nat -> city_layout n nodes -> valid_demand_params y a alpha beta ->
  exists D, demand_from_parameters nodes (Z.of_nat n) y a alpha beta = Ok D /\
    (forall o d, In o nodes -> In d nodes ->
       exists v, cell D (nd_id o) (nd_id d) = Some v /\ v == documented_trips n y a alpha beta o d) /\
    dm_total D == y.
Proof.
  intros n nodes y a alpha beta Hn (N & c & P & S & En & Kc & Kz) V.
  destruct (shares_spec n y a alpha beta Hn V) as (s & Es & Ev & P1 & P2 & P3 & P4 & P5).
  destruct (param_demand_run nodes (Z.of_nat n) s N) as (D & ED & I & Sk & C).
  { intros o d v _ _. unfold val. destruct (nd_kind o), (nd_kind d); try discriminate;
    try destruct (nd_zone o =? nd_zone d)%Z; intro H; inversion H; subst; auto. }
  exists D. split.
  { unfold demand_from_parameters. rewrite (proj2 (demand_validator_iff _ _ _ _ true)) by auto.
    cbn [bind]. rewrite Es. cbn [bind]. exact ED. }
  split.
  - intros o d Ho Hd. eexists. split; [apply C; auto|]. apply Ev.
  - destruct I as (_ & _ & _ & I). unfold sum_ok in I. rewrite I, (msum_skel _ _ N Sk). rewrite Qsumf_map.
    rewrite <- (total_T n nodes y a alpha beta Hn V c P S En Kc Kz).
    apply Qsumf_ext. intros o Ho. rewrite Qsumf_map. apply Qsumf_ext. intros d Hd.
    specialize (C o d Ho Hd). unfold cell in C. rewrite C. apply Ev.
Qed.
Print Assumptions C12_parametric_demand.
(** the rows: what each kind of node emits *)
Theorem C12_rows : forall n nodes y a alpha beta D,
  (1 <= n)%nat -> city_layout n nodes ->
  demand_from_parameters nodes (Z.of_nat n) y a alpha beta = Ok D ->
  forall o, In o nodes ->
    Qsumf (fun d => match cell D (nd_id o) (nd_id d) with Some v => v | None => 0 end) nodes ==
    match nd_kind o with CBD => 0 | Periphery => a * y / Qofnat n | Subcenter => (1 - a) * y / Qofnat n end.
Proof.
  intros n nodes y a alpha beta D Hn L E o Ho.
  assert (V : valid_demand_params y a alpha beta).
  { unfold demand_from_parameters in E. apply bind_ok in E. destruct E as [b [E _]].
    apply demand_validator_iff in E. tauto. }
  destruct (C12_parametric_demand n nodes y a alpha beta Hn L V) as (D' & E' & C & _).
  rewrite E in E'. inversion E'; subst D'.
  destruct L as (N & c & P & S & En & Kc & Kz).
  assert (Dt : Qsumf (fun d => match cell D (nd_id o) (nd_id d) with Some v => v | None => 0 end) nodes ==
               Qsumf (documented_trips n y a alpha beta o) nodes).
  { apply Qsumf_ext. intros d Hd. destruct (C o d Ho Hd) as (v & Ev & Eq). rewrite Ev. auto. }
  rewrite Dt. clear Dt. rewrite En in Ho. destruct Ho as [<-|Ho].
  - rewrite Kc. eapply row_c; eauto.
  - apply in_flat_map in Ho. destruct Ho as (z & Hz & Ho). destruct (Kz z Hz) as (K1 & K2 & _).
    destruct Ho as [<-|[<-|[]]].
    + rewrite K1. rewrite (row_P n nodes y a alpha beta Hn c P S En Kc Kz z Hz).
      field. apply Qofnat_ne0. lia.
    + rewrite K2. rewrite (row_S n nodes y a alpha beta Hn V c P S En Kc Kz z Hz).
      field. apply Qofnat_ne0. lia.
Qed.
Print Assumptions C12_rows.
Theorem C12_accepts_iff : forall n nodes y a alpha beta, (1 <= n)%nat -> city_layout n nodes ->
  ((exists D, demand_from_parameters nodes (Z.of_nat n) y a alpha beta = Ok D) <-> valid_demand_params y a alpha beta).
Proof.
  intros n nodes y a alpha beta Hn L. split.
  - intros [D E]. unfold demand_from_parameters in E. apply bind_ok in E. destruct E as [b [E _]].
    apply demand_validator_iff in E. tauto.
  - intro V. destruct (C12_parametric_demand n nodes y a alpha beta Hn L V) as (D & E & _). eauto.
Qed.
Print Assumptions C12_accepts_iff.
Theorem C12_parametric_city : forall G P C, build_from_parameters G P = Ok C ->
  city_layout (Z.to_nat (p_n P)) (g_nodes (c_graph C)).
Proof. exact parametric_layout. Qed.
Print Assumptions C12_parametric_city.
(** with a single zone the argument beta is ignored: own-subcenter share is 1 - alpha *)
Theorem C12_single_zone_ignores_beta : forall nodes y a alpha beta beta' D, city_layout 1 nodes ->
  valid_demand_params y a alpha beta' ->
  demand_from_parameters nodes 1 y a alpha beta = Ok D ->
  demand_from_parameters nodes 1 y a alpha beta' = Ok D.
Proof.
  intros nodes y a alpha beta beta' D L V H. unfold demand_from_parameters in *.
  rewrite (proj2 (demand_validator_iff _ _ _ _ true)) by auto.
  apply bind_ok in H. destruct H as [b [_ H]]. exact H.
Qed.
Print Assumptions C12_single_zone_ignores_beta.
(** a city without zones gets no trips at all, whatever the parameters *)
Theorem C12_no_zones : forall nodes y a alpha beta, city_layout 0 nodes -> valid_demand_params y a alpha beta ->
  exists D, demand_from_parameters nodes 0 y a alpha beta = Ok D /\ dm_total D == 0 /\
    forall o d, In o nodes -> In d nodes -> exists v, cell D (nd_id o) (nd_id d) = Some v /\ v == 0.
Proof.
  intros nodes y a alpha beta (_ & c & P & S & E & Kc & _) V. cbn in E. subst nodes. exists (new_demand [c] 0).
  assert (F : find_last_node [c] (nd_id c) = Some c) by (unfold find_last_node; cbn; rewrite Z.eqb_refl; reflexivity).
  split; [|split; [reflexivity|]].
  - unfold demand_from_parameters. rewrite (proj2 (demand_validator_iff _ _ _ _ true)) by auto. cbn [bind]. unfold compute_shares. cbn [Z.ltb Z.compare Z.eqb bind].
    change (cell_keys (dm_matrix (new_demand [c] 0))) with [(nd_id c, nd_id c)]. cbn [foldM]. unfold param_cell. change (dm_nodes (new_demand [c] 0)) with [c]. cbv zeta. rewrite F. unfold is_kind. rewrite Kc. reflexivity.
  - intros o d [<-|[]] [<-|[]]. exists 0. split; [|reflexivity]. unfold cell, dict2_get. cbn. rewrite ?Z.eqb_refl. cbn. rewrite ?Z.eqb_refl. reflexivity.
Qed.
Print Assumptions C12_no_zones.
(** parameters are refused with the exception of the first condition that they violate *)
Theorem C12_first_error : forall n nodes y a alpha beta e, city_layout n nodes ->
  (demand_from_parameters nodes (Z.of_nat n) y a alpha beta = Err e <-> first_violated (demand_conditions y a alpha beta) e).
Proof.
  intros n nodes y a alpha beta e CL.
  assert (V : demand_validator y a alpha beta = Err e <-> first_violated (demand_conditions y a alpha beta) e).
  { unfold demand_validator, demand_conditions.
    rewrite !fv_cond by (first [destruct (Qlt_le_dec y 0); [right|left]; lra|destruct (Qlt_le_dec a 0), (Qlt_le_dec 1 a); first [left; lra|right; lra]|destruct (Qlt_le_dec alpha 0), (Qlt_le_dec 1 alpha); first [left; lra|right; lra]|
      destruct (Qlt_le_dec beta 0), (Qlt_le_dec beta 1); first [left; lra|right; lra]|destruct (Qlt_le_dec 1 (alpha + beta)); [right|left]; lra]).
    unfold raise_if. assert (NF : ~ first_violated [] e) by (intro H; inversion H).
    destruct (Qltb y 0) eqn:E1; qb; [split; [intro H; inversion H; left; split; auto; lra|intros [[_ ->]|[C _]]; [auto|lra]]|].
    destruct (Qltb 1 a || Qltb a 0) eqn:E2.
    { assert (~ (0 <= a <= 1)) by (apply orb_true_iff in E2; destruct E2; qb; lra). split; [intro H'; inversion H'; right; split; auto; left; auto|intros [[C _]|[_ [[_ ->]|[C _]]]]; [lra|auto|tauto]]. }
    assert (0 <= a <= 1) by (apply orb_false_iff in E2; destruct E2; qb; lra).
    destruct (Qltb 1 alpha || Qltb alpha 0) eqn:E3.
    { assert (~ (0 <= alpha <= 1)) by (apply orb_true_iff in E3; destruct E3; qb; lra). split; [intro H'; inversion H'; tauto|intros [[C _]|[_ [[C _]|[_ [[_ ->]|[C _]]]]]]; [lra|tauto|auto|tauto]]. }
    assert (0 <= alpha <= 1) by (apply orb_false_iff in E3; destruct E3; qb; lra).
    destruct (Qleb 1 beta || Qltb beta 0) eqn:E4.
    { assert (~ (0 <= beta < 1)) by (apply orb_true_iff in E4; destruct E4; qb; lra). split; [intro H'; inversion H'; tauto|intros [[C _]|[_ [[C _]|[_ [[C _]|[_ [[_ ->]|[C _]]]]]]]]; [lra|tauto|tauto|auto|tauto]]. }
    assert (0 <= beta < 1) by (apply orb_false_iff in E4; destruct E4; qb; lra).
    destruct (Qltb 1 (alpha + beta)) eqn:E5; qb.
    { assert (~ (alpha + beta <= 1)) by lra. split; [intro H'; inversion H'; tauto|intros [[C _]|[_ [[C _]|[_ [[C _]|[_ [[C _]|[_ [[_ ->]|[C _]]]]]]]]]]; [lra|tauto|tauto|tauto|auto|tauto]]. }
    split; [discriminate|]. intros [[C _]|[_ [[C _]|[_ [[C _]|[_ [[C _]|[_ [[C _]|[_ C]]]]]]]]]]; tauto || lra. }
  rewrite <- V. destruct (demand_validator y a alpha beta) as [b|e0] eqn:Ev.
  - split; [|discriminate]. intro H. exfalso. apply demand_validator_iff in Ev. destruct Ev as [_ VP]. destruct n as [|n].
    + destruct (C12_no_zones nodes y a alpha beta CL VP) as (D & E & _). cbn [Z.of_nat] in H. congruence.
    + destruct (C12_parametric_demand (S n) nodes y a alpha beta ltac:(lia) CL VP) as (D & E & _). congruence.
  - unfold demand_from_parameters. rewrite Ev. cbn [bind]. split; intro H; inversion H; auto.
Qed.
Print Assumptions C12_first_error.
Example C12_first_error_ex : demand_from_parameters ex_city2 2 10 2 (1#4) 3 = Err AOutOfRangeException /\ city_layout 2 ex_city2.
Proof. split; [vm_compute; reflexivity|]. apply (C12_parametric_city ex_geo (ex_params_sym 2) (match build_from_parameters ex_geo (ex_params_sym 2) with Ok C => C | Err _ => mkCity empty_graph (ex_params_sym 2) end)). vm_compute. reflexivity. Qed.
(** a city without zones silently loses all the requested trips *)
Theorem C12_no_zones_loses_trips_refuted : exists nodes y a alpha beta D,
  city_layout 0 nodes /\ valid_demand_params y a alpha beta /\
  demand_from_parameters nodes 0 y a alpha beta = Ok D /\ ~ dm_total D == y.
Proof.
  exists [mkNode CBD 0 0 0 0 0 2 0 "CBD"], 1000, (1#2), (1#4), (1#4).
  eexists. split; [|split; [|split; [vm_compute; reflexivity|vm_compute; discriminate]]].
  - split; [repeat constructor; simpl; tauto|]. exists (mkNode CBD 0 0 0 0 0 2 0 "CBD"), (fun _ => mkNode CBD 0 0 0 0 0 2 0 "CBD"),
      (fun _ => mkNode CBD 0 0 0 0 0 2 0 "CBD"). repeat split; auto; contradiction.
  - unfold valid_demand_params. repeat split; lra.
Qed.
Print Assumptions C12_no_zones_loses_trips_refuted.
Example C12_ex : exists D v, demand_from_parameters ex_city2 2 1000 (4#5) (1#4) (1#5) = Ok D /\
  cell D 1 0 = Some v /\ v == 100 /\ dm_total D == 1000.
Proof. vm_compute. do 2 eexists. repeat split. Qed.

(** C13 *)
Theorem C13_accepts_iff : forall nodes n m, NoDup (map nd_id nodes) ->
  ((exists D, demand_from_content nodes n m = Ok D) <-> square_nonneg (length nodes) m).
Proof.
  intros nodes n m N. split.
  - intros [D E]. eapply content_iff1; eauto.
  - intro Sq. destruct (content_ok nodes n m N Sq) as (D & E & _). eauto.
Qed.
Print Assumptions C13_accepts_iff.
Theorem C13_cells : forall nodes n m D, NoDup (map nd_id nodes) -> demand_from_content nodes n m = Ok D ->
  (forall i j no nd' row v, nth_error nodes i = Some no -> nth_error nodes j = Some nd' ->
     nth_error m i = Some row -> nth_error row j = Some v -> cell D (nd_id no) (nd_id nd') = Some v) /\
  dm_total D == Qsum (concat m).
Proof.
  intros nodes n m D N E. destruct (content_ok nodes n m N (content_iff1 _ _ _ _ E)) as (D' & E' & _ & C & T).
  rewrite E in E'. inversion E'; subst. auto.
Qed.
Print Assumptions C13_cells.
Example C13_ex : exists D, demand_from_content ex_city2 2
   [[0;1;2;3;4];[5;0;0;0;0];[0;0;0;0;0];[0;0;7#2;0;0];[1;1;1;1;1]] = Ok D /\
   cell D 3 2 = Some (7#2) /\ dm_total D == 47#2.
Proof. vm_compute. eexists. repeat split. Qed.

(** C14 *)
Theorem C14_csv_round_trip : forall F nodes n ops,
  floatio_ok F -> NoDup (map nd_id nodes) -> known_reads nodes ops ->
  let D := drun (new_demand nodes n) ops in
  exists D', demand_from_lines F nodes n (matrix_to_lines F D) = Ok D' /\
    (forall i j, match cell D i j, cell D' i j with
                 | Some v, Some v' => v' == v
                 | None, None => True
                 | _, _ => False end) /\
    dm_total D' == dm_total D.
Proof. exact csv_round_trip. Qed.
Print Assumptions C14_csv_round_trip.

(** an executable printer satisfying the law: "num/den" *)
Definition ex_print (q : Q) : string :=
  String.append (str_of_Z (Qnum q)) (String "/"%char (str_of_Z (Zpos (Qden q)))).
Definition ex_parse (s : string) : option Q :=
  match split_on "/"%char (strip s) with
  | [a; b] => match int_of_str a, int_of_str b with
              | Some x, Some (Zpos y) => Some (Qmake x y)
              | _, _ => None end
  | _ => None
  end.
Definition ex_float : floatio := mkFloatIO ex_print ex_parse.
Lemma ex_print_chars q : sall (fun a => int_char a || Ascii.eqb a "/"%char) (ex_print q) = true.
Proof.
  unfold ex_print. rewrite sall_app. simpl.
  assert (H : forall z, sall (fun a => int_char a || Ascii.eqb a "/"%char) (str_of_Z z) = true).
  { intro z. apply sall_impl with (p := int_char); [|apply str_of_Z_chars]. intros a ->. reflexivity. }
  rewrite !H. reflexivity.
Qed.
Lemma ex_char_ws a : (int_char a || Ascii.eqb a "/"%char) = true -> is_ws a = false.
Proof. destruct a as [[] [] [] [] [] [] [] []]; vm_compute; intro H; try discriminate; reflexivity. Qed.
Lemma ex_char_comma a : (int_char a || Ascii.eqb a "/"%char) = true -> a <> ","%char.
Proof. intros H ->. vm_compute in H. discriminate. Qed.
Lemma int_char_slash a : int_char a = true -> Ascii.eqb a "/"%char = false.
Proof. destruct a as [[] [] [] [] [] [] [] []]; vm_compute; intro H; try discriminate; reflexivity. Qed.
Lemma strip_newline s : sall not_ws s = true -> strip (String.append s newline) = s.
Proof.
  intro H. unfold strip.
  assert (E : lstrip (String.append s newline) = String.append s newline \/ s = EmptyString).
  { destruct s as [|a s]; [right; auto|left]. simpl in *. unfold not_ws in H at 1. destruct (is_ws a); [discriminate|auto]. }
  destruct E as [E|E]; [|subst; reflexivity]. rewrite E, rev_string_app. simpl.
  rewrite lstrip_id by (rewrite sall_rev; auto). apply rev_string_invol.
Qed.
Lemma ex_float_ok : floatio_ok ex_float.
Proof.
  intro q. split.
  - exists q. split; [|reflexivity]. simpl. unfold ex_parse. rewrite strip_newline.
    + unfold ex_print. rewrite split_on_cons, split_on_none.
      * rewrite !int_of_str_of_Z. destruct q; reflexivity.
      * apply sall_impl with (p := int_char); [|apply str_of_Z_chars].
        intros a Ha. unfold not_char. rewrite int_char_slash; auto.
      * apply sall_impl with (p := int_char); [|apply str_of_Z_chars].
        intros a Ha. unfold not_char. rewrite int_char_slash; auto.
    + apply sall_impl with (p := fun a => int_char a || Ascii.eqb a "/"%char); [|apply ex_print_chars].
      intros a Ha. unfold not_ws. rewrite ex_char_ws; auto.
  - intros i C. pose proof (proj1 (sall_get _ _) (ex_print_chars q) i _ C) as H. vm_compute in H. discriminate.
Qed.
Example C14_ex : exists D', demand_from_lines ex_float ex_city2 2
   (matrix_to_lines ex_float (drun (new_demand ex_city2 2) [DChange 1 0 (7#2); DChange 4 3 1])) = Ok D' /\
   cell D' 1 0 = Some (7#2) /\ dm_total D' == 9#2.
Proof. vm_compute. eexists. repeat split. Qed.
(** with a read of an unknown cell in the history the exported file cannot be imported back *)
Theorem C14_stray_read_breaks_round_trip_refuted : exists nodes n ops,
  NoDup (map nd_id nodes) /\
  demand_from_lines ex_float nodes n (matrix_to_lines ex_float (drun (new_demand nodes n) ops))
    = Err OriginIdDoesNotFoundException.
Proof.
  exists ex_city2, 2%Z, [DReadCell 99 1]. split; [apply ex_city2_layout|]. vm_compute. reflexivity.
Qed.
Print Assumptions C14_stray_read_breaks_round_trip_refuted.

(** C15 *)
Theorem C15_unknown_ids_rejected : forall nodes n ops o d v, known_reads nodes ops ->
  ~ (In o (map nd_id nodes) /\ In d (map nd_id nodes)) ->
  let D := drun (new_demand nodes n) ops in
  exists e, change_vij D o d v = (D, Some e).
Proof.
  intros nodes n ops o d v K H D. destruct (C11_change_vij_rule nodes n ops o d v K) as (R1 & R2 & R3 & _).
  fold D in R1, R2, R3. destruct (Qlt_le_dec v 0) as [Hv|Hv]; [eauto|].
  destruct (in_dec Z.eq_dec o (map nd_id nodes)) as [Ho|Ho]; [|eauto].
  destruct (in_dec Z.eq_dec d (map nd_id nodes)) as [Hd|Hd]; [tauto|]. eauto.
Qed.
Print Assumptions C15_unknown_ids_rejected.
(** but after a mere read of a missing cell, trips are accepted on nodes that do not exist *)
Theorem C15_read_then_accept_refuted : exists nodes n ops o d v D',
  ~ In o (map nd_id nodes) /\ ~ In d (map nd_id nodes) /\ 0 < v /\
  (forall op, In op ops -> match op with DReadCell _ _ => True | _ => False end) /\
  change_vij (drun (new_demand nodes n) ops) o d v = (D', None) /\ dm_total D' == v.
Proof.
  exists ex_city2, 2%Z, [DReadCell 99 98], 99%Z, 98%Z, 5.
  eexists. rewrite ex_city2_ids.
  split; [simpl; intuition discriminate|]. split; [simpl; intuition discriminate|].
  split; [lra|]. split; [intros op [<-|[]]; auto|].
  split; [vm_compute; reflexivity|vm_compute; reflexivity].
Qed.
Print Assumptions C15_read_then_accept_refuted.
