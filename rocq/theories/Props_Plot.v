(** * Props_Plot: the pictures *)
From Coq Require Import String Ascii List ZArith QArith Bool Lia.
From Verif Require Import PyBase PyFacts PyStr Graph GeoEx GraphSpec GraphProofs Props_Graph Mode Route Network RouteSpec RouteProofs Props_Network Predef Props_Predef ExtGraph ExtSpec ExtProofs Props_Ext
  Hyperpath HyperSpec HyperProofs HyperOpt Props_Hyper Texts TextSpec Props_Text HyperText HyperTextSpec Props_HyperText Plot PlotSpec.
Import ListNotations.
Local Open Scope Q_scope.

(** ** The city *)
Section City.
  Context (g : graph).
  Hypothesis ND : NoDup (map nd_id (g_nodes g)).
  Lemma same_node a b : In a (g_nodes g) -> In b (g_nodes g) -> nd_id a = nd_id b -> a = b.
  Proof. intros Ha Hb E. eapply NoDup_map_eq; eauto. Qed.
  Definition pos_ok (pos : list (Z * list Q)) : Prop := forall i v, dget Z.eqb pos i = Some v -> exists nd, In nd (g_nodes g) /\ nd_id nd = i /\ v = [nd_x nd; nd_y nd].
  Lemma put_ok pos nd : In nd (g_nodes g) -> pos_ok pos -> pos_ok (put_position pos nd) /\ dget Z.eqb (put_position pos nd) (nd_id nd) = Some [nd_x nd; nd_y nd] /\
    forall i v, dget Z.eqb pos i = Some v -> dget Z.eqb (put_position pos nd) i = Some v.
  Proof.
    intros Hn H. unfold put_position. unfold dget0. destruct (dget Z.eqb pos (nd_id nd)) as [[|q l]|] eqn:E.
    - exfalso. destruct (H _ _ E) as (nd' & _ & _ & C). discriminate C.
    - split; [auto|]. split; [|auto]. destruct (H _ _ E) as (nd' & H1 & H2 & H3). rewrite E, H3, (same_node nd' nd); auto.
    - cbn [app]. split; [|split].
      + intros i v Hi. destruct (Z.eq_dec i (nd_id nd)) as [->|Ne].
        * rewrite (dget_dset_same Z.eqb Zeqb_spec) in Hi. inversion Hi. eauto.
        * rewrite !(dget_dset_other Z.eqb Zeqb_spec) in Hi by auto. auto.
      + apply (dget_dset_same Z.eqb Zeqb_spec).
      + intros i v Hi. assert (i <> nd_id nd) by congruence. rewrite !(dget_dset_other Z.eqb Zeqb_spec) by auto. auto.
  Qed.
  Lemma ep_facts : let '(es, pos) := edges_and_positions g in
    map Some es = filter (fun o => match o with Some _ => true | None => false end) (map (edge_ends g) (g_edges g)) /\ pos_ok pos /\
    forall nd j, In nd (g_nodes g) -> edge_exist g (nd_id nd) j = true \/ edge_exist g j (nd_id nd) = true -> dget Z.eqb pos (nd_id nd) = Some [nd_x nd; nd_y nd].
  Proof.
    unfold edges_and_positions.
    set (f := fun '(es, pos) e => match nth_error (g_nodes g) (e_n1 e), nth_error (g_nodes g) (e_n2 e) with
       | Some a, Some b => (es ++ [(nd_id a, nd_id b)], put_position (put_position pos a) b) | _, _ => (es, pos) end).
    assert (K : forall l es pos, pos_ok pos -> let '(es', pos') := fold_left f l (es, pos) in
      map Some es' = map Some es ++ filter (fun o => match o with Some _ => true | None => false end) (map (edge_ends g) l) /\ pos_ok pos' /\
      (forall i v, dget Z.eqb pos i = Some v -> dget Z.eqb pos' i = Some v) /\
      forall e a b, In e l -> nth_error (g_nodes g) (e_n1 e) = Some a -> nth_error (g_nodes g) (e_n2 e) = Some b ->
        dget Z.eqb pos' (nd_id a) = Some [nd_x a; nd_y a] /\ dget Z.eqb pos' (nd_id b) = Some [nd_x b; nd_y b]).
    { induction l as [|e l IH]; intros es pos H; cbn [fold_left].
      - cbn [map filter]. rewrite app_nil_r. split; [auto|]. split; [auto|]. split; [auto|]. intros e a b [].
      - cbn [map filter]. unfold edge_ends at 1 2. unfold f at 2. destruct (nth_error (g_nodes g) (e_n1 e)) as [a|] eqn:Ea; [destruct (nth_error (g_nodes g) (e_n2 e)) as [b|] eqn:Eb|].
        + destruct (put_ok pos a (nth_error_In _ _ Ea) H) as (A1 & A2 & A3). destruct (put_ok _ b (nth_error_In _ _ Eb) A1) as (B1 & B2 & B3).
          specialize (IH (es ++ [(nd_id a, nd_id b)]) (put_position (put_position pos a) b) B1). destruct (fold_left f l (es ++ [(nd_id a, nd_id b)], put_position (put_position pos a) b)) as [es' pos'].
          destruct IH as (I1 & I2 & I3 & I4). split; [rewrite I1, map_app, <- app_assoc; reflexivity|]. split; [auto|]. split; [auto|]. intros e' a' b' [<-|He] Ea' Eb'; [|eauto]. assert (a' = a) by congruence. assert (b' = b) by congruence. subst. auto.
        + specialize (IH es pos H). destruct (fold_left f l (es, pos)) as [es' pos']. destruct IH as (I1 & I2 & I3 & I4). split; [auto|]. split; [auto|]. split; [auto|]. intros e' a' b' [<-|He] Ea' Eb'; [congruence|eauto].
        + specialize (IH es pos H). destruct (fold_left f l (es, pos)) as [es' pos']. destruct IH as (I1 & I2 & I3 & I4). split; [auto|]. split; [auto|]. split; [auto|]. intros e' a' b' [<-|He] Ea' Eb'; [congruence|eauto]. }
    assert (P0 : pos_ok []) by (intros i v C; discriminate C). specialize (K (g_edges g) [] [] P0). destruct (fold_left f (g_edges g) ([], [])) as [es pos]. destruct K as (K1 & K2 & _ & K4).
    split; [exact K1|]. split; [exact K2|]. intros nd j Hn HE.
    assert (HE' : exists e, In e (g_edges g) /\ (edge_ends g e = Some (nd_id nd, j) \/ edge_ends g e = Some (j, nd_id nd))).
    { destruct HE as [HE|HE]; apply edge_exist_In in HE; apply in_map_iff in HE; destruct HE as (e & E & He); eauto. }
    destruct HE' as (e & He & E). unfold edge_ends in E. destruct (nth_error (g_nodes g) (e_n1 e)) as [a|] eqn:Ea; [|destruct E; discriminate]. destruct (nth_error (g_nodes g) (e_n2 e)) as [b|] eqn:Eb; [|destruct E; discriminate].
    destruct (K4 e a b He Ea Eb) as [A B]. destruct E as [E|E]; inversion E.
    - assert (a = nd) by (apply same_node; auto; eapply nth_error_In; eauto). subst a. exact A.
    - assert (b = nd) by (apply same_node; auto; eapply nth_error_In; eauto). subst b. exact B.
  Qed.
  Lemma kinds_exact k : exactly (ids_of_kind g k) (node_of g k).
  Proof.
    unfold ids_of_kind. split; [apply NoDup_map_filter; auto|]. intro i. rewrite in_map_iff. split.
    - intros (nd & E & H). apply filter_In in H. destruct H as [H1 H2]. exists nd. split; [auto|]. split; [destruct (nd_kind nd), k; auto; discriminate|auto].
    - intros (nd & H1 & H2 & H3). exists nd. split; [auto|]. apply filter_In. split; auto. rewrite H2. destruct k; reflexivity.
  Qed.
End City.
Lemma city_has_arc G P C nd : build_from_parameters G P = Ok C -> (1 <= p_n P)%Z -> In nd (g_nodes (c_graph C)) -> exists j, edge_exist (c_graph C) (nd_id nd) j = true.
Proof.
  intros H Hn Hi. destruct (C01_nodes_and_zones G P C H) as (_ & _ & IDS & _).
  assert (OT : exists b, In b (g_nodes (c_graph C)) /\ nd_id b <> nd_id nd).
  { assert (M : forall z, (z = 0 \/ z = 1)%Z -> exists b, In b (g_nodes (c_graph C)) /\ nd_id b = z).
    { intros z Hz. assert (Iz : In z (map nd_id (g_nodes (c_graph C)))). { rewrite IDS. apply in_map_iff. exists (Z.to_nat z). split; [lia|]. apply in_seq. lia. }
      apply in_map_iff in Iz. destruct Iz as (b & E & Hb). eauto. }
    destruct (Z.eq_dec (nd_id nd) 0) as [E|E]; [destruct (M 1%Z) as (b & Hb & Eb); [auto|]|destruct (M 0%Z) as (b & Hb & Eb); [auto|]]; exists b; split; auto; lia. }
  destruct OT as (b & Hb & Ne). pose proof (C06_strongly_connected G P C nd b H Hi Hb) as W. inversion W as [i E1 E2|i j k E1 E2]; [congruence|eauto].
Qed.
(** The peripheries in red, then the subcenters in blue, then the CBD in purple, each of them once and at its
    coordinates, then the labels, then the arcs of the city in orange, each of them once. *)
Theorem C73_city_picture : forall G P C, build_from_parameters G P = Ok C -> (1 <= p_n P)%Z ->
  exists ps scs cbds arcs, pic_draw (plot_graph (c_graph C)) = [Draw_nodes ps Red; Draw_nodes scs Blue; Draw_nodes cbds Purple; Draw_labels; Draw_edges arcs Orange] /\
    exactly ps (node_of (c_graph C) Periphery) /\ exactly scs (node_of (c_graph C) Subcenter) /\ exactly cbds (node_of (c_graph C) CBD) /\
    exactly arcs (fun ab => city_arc (p_n P) (fst ab) (snd ab)) /\ pic_edges (plot_graph (c_graph C)) = arcs /\
    forall nd, In nd (g_nodes (c_graph C)) -> placed (plot_graph (c_graph C)) nd.
Proof.
  intros G P C H Hn. pose proof (C01_ids_distinct G P C H) as ND. pose proof (ep_facts (c_graph C) ND) as F. unfold plot_graph, placed. destruct (edges_and_positions (c_graph C)) as [es pos]. destruct F as (F1 & F2 & F3).
  exists (ids_of_kind (c_graph C) Periphery), (ids_of_kind (c_graph C) Subcenter), (ids_of_kind (c_graph C) CBD), es. split; [reflexivity|]. split; [apply kinds_exact; auto|]. split; [apply kinds_exact; auto|]. split; [apply kinds_exact; auto|].
  cbn [pic_edges pic_pos]. destruct (C02_arcs_exact G P C H) as (ends & E1 & E2 & E3 & _).
  assert (EE : es = ends). { rewrite E1 in F1. assert (K : forall l : list (Z * Z), filter (fun o => match o with Some _ => true | None => false end) (map Some l) = map Some l) by (induction l as [|x l IH]; [reflexivity|cbn; rewrite IH; reflexivity]). rewrite K in F1. clear - F1. revert ends F1. induction es as [|x es IH]; intros [|y l] E; try discriminate; auto. cbn in E. inversion E. f_equal; auto. }
  subst es. split; [split; [auto|]; intros [i j]; apply E3|]. split; [reflexivity|]. intros nd Hi. destruct (city_has_arc G P C nd H Hn Hi) as (j & Hj). eauto.
Qed.
Print Assumptions C73_city_picture.
(** Without zones the CBD is drawn but has no position. *)
Theorem C73_no_zones_refuted : exists G P C nd, build_from_parameters G P = Ok C /\ In nd (g_nodes (c_graph C)) /\ ~ placed (plot_graph (c_graph C)) nd /\
  In (Draw_nodes [nd_id nd] Purple) (pic_draw (plot_graph (c_graph C))).
Proof.
  exists ex_geo, (ex_params_sym 0). destruct (build_from_parameters ex_geo (ex_params_sym 0)) as [C|] eqn:E; [|exfalso; revert E; vm_compute; discriminate].
  destruct (C01_nodes_and_zones _ _ _ E) as (_ & _ & _ & (c & Hc & K1 & K2 & _) & _). exists C, c. split; [reflexivity|]. split; [eapply nth_error_In; eauto|].
  revert Hc K2. revert E. vm_compute. intros E. inversion E; subst C. vm_compute. intros Hc _. inversion Hc; subst c. split; [discriminate|]. right. right. left. reflexivity.
Qed.
Print Assumptions C73_no_zones_refuted.

(** ** The network *)
Lemma add_new_spec l : forall acc, (NoDup acc -> NoDup (add_new acc l)) /\ forall z, In z (add_new acc l) <-> In z acc \/ In z l.
Proof.
  unfold add_new. induction l as [|x l IH]; intro acc; cbn [fold_left]; [split; [auto|]; intro z; cbn; tauto|].
  destruct (existsb (Z.eqb x) acc) eqn:E.
  - destruct (IH acc) as [I1 I2]. split; [auto|]. intro z. rewrite I2. cbn. apply existsb_exists in E. destruct E as (y & Hy & Ey). apply Z.eqb_eq in Ey. subst y. split; [tauto|]. intros [H|[<-|H]]; auto.
  - destruct (IH (acc ++ [x])) as [I1 I2]. split.
    + intro N. apply I1. apply Props_Mode.NoDup_snoc; auto. intro C. assert (T : existsb (Z.eqb x) acc = true) by (apply existsb_exists; exists x; split; [auto|apply Z.eqb_refl]). congruence.
    + intro z. rewrite I2, in_app_iff. cbn. tauto.
Qed.

Section Net.
  Context (g : graph) (ops : list nop).
  Notation nw := (nrun (new_network g) ops).
  Definition line_step (t : list (Z * Z) * list (Z * Z) * list Z * list Z) (r : route) : list (Z * Z) * list (Z * Z) * list Z * list Z :=
    let '(ei, er, si, sr) := t in (ei ++ arcs_of (r_ni r), er ++ arcs_of (r_nr r), add_new si (r_si r), add_new sr (r_sr r)).
  Lemma plotted_cases ids : (exists rid, In rid ids /\ (forall r, In r (nw_routes nw) -> r_id r <> rid) /\ plotted_lines nw ids = Err RouteIdNotFoundException) \/
    exists rs, (forall r, In r rs <-> In r (nw_routes nw) /\ In (r_id r) ids) /\ (forall rid, In rid ids -> exists r, In r (nw_routes nw) /\ r_id r = rid) /\
      plotted_lines nw ids = Ok (fold_left line_step rs ([], [], [], [])).
  Proof.
    unfold plotted_lines. generalize (([], [], [], []) : list (Z * Z) * list (Z * Z) * list Z * list Z). induction ids as [|rid ids IH]; intro t.
    - right. exists []. split; [intro r; cbn; tauto|]. split; [intros rid []|reflexivity].
    - cbn [foldM]. destruct t as [[[ei er] si] sr].
      assert (E : (match index_of rid (nw_ids nw) with
         | None => Err RouteIdNotFoundException
         | Some k => let* r := py_nth (nw_routes nw) k in Ok (ei ++ arcs_of (r_ni r), er ++ arcs_of (r_nr r), add_new si (r_si r), add_new sr (r_sr r)) end)
         = let* r := get_route nw rid in Ok (line_step (ei, er, si, sr) r)) by (unfold get_route; destruct (index_of rid (nw_ids nw)); reflexivity).
      rewrite E. clear E. destruct (C23_routes_addressable g ops rid) as (N & GR & GE).
      destruct (get_route nw rid) as [r|e] eqn:EG.
      + destruct (proj1 (GR r) eq_refl) as [R1 R2]. cbn [bind]. destruct (IH (line_step (ei, er, si, sr) r)) as [(rid' & H1 & H2 & H3)|(rs & H1 & H2 & H3)].
        * left. exists rid'. split; [right; auto|auto].
        * right. exists (r :: rs). split; [|split; [|exact H3]].
          -- intro r'. cbn [In]. rewrite H1. split; [intros [<-|[A B]]; [auto|auto]|]. intros [A [B|B]]; [left|right; auto]. eapply NoDup_map_eq; eauto. congruence.
          -- intros rid' [<-|H]; eauto.
      + left. exists rid. split; [left; auto|]. assert (NO : forall r, In r (nw_routes nw) -> r_id r <> rid). { intros r Hr Er. pose proof (proj2 (GR r) (conj Hr Er)) as X. discriminate X. }
        split; [exact NO|]. specialize (GE NO). inversion GE; subst. reflexivity.
  Qed.
  Lemma line_steps rs : forall ei er si sr ei' er' si' sr', fold_left line_step rs (ei, er, si, sr) = (ei', er', si', sr') ->
    (forall ab, In ab ei' <-> In ab ei \/ exists r, In r rs /\ In ab (arcs_of (r_ni r))) /\ (forall ab, In ab er' <-> In ab er \/ exists r, In r rs /\ In ab (arcs_of (r_nr r))) /\
    (forall z, In z si' <-> In z si \/ exists r, In r rs /\ In z (r_si r)) /\ (forall z, In z sr' <-> In z sr \/ exists r, In r rs /\ In z (r_sr r)) /\ (NoDup si -> NoDup si') /\ (NoDup sr -> NoDup sr').
  Proof.
    induction rs as [|r rs IH]; intros ei er si sr ei' er' si' sr' E; cbn [fold_left] in E.
    - inversion E; subst. repeat split; auto; try (intros [H|(r & [] & _)]; auto).
    - destruct (IH _ _ _ _ _ _ _ _ E) as (I1 & I2 & I3 & I4 & I5 & I6). destruct (add_new_spec (r_si r) si) as [A1 A2], (add_new_spec (r_sr r) sr) as [B1 B2].
      assert (EX : forall (Q : route -> Prop), (exists x, In x (r :: rs) /\ Q x) <-> Q r \/ exists x, In x rs /\ Q x).
      { intro Q. split; [intros (x & [<-|H] & HQ); eauto|]. intros [H|(x & H & HQ)]; [exists r; split; [left; auto|auto]|exists x; split; [right; auto|auto]]. }
      split; [|split; [|split; [|split; [|split; auto]]]].
      + intro ab. rewrite I1, in_app_iff, EX. tauto.
      + intro ab. rewrite I2, in_app_iff, EX. tauto.
      + intro z. rewrite I3, A2, EX. tauto.
      + intro z. rewrite I4, B2, EX. tauto.
  Qed.
End Net.
(** Drawing fails, before anything is drawn, exactly when a route was asked for that the network does not have.
    Otherwise the picture is that of the city with, over its nodes, the stops of the listed routes in yellow and, over
    its arcs, the pieces of the listed routes in lime (forward) and aqua (return), each direction unless only the other
    one was asked for. *)
Theorem C73_network_picture : forall g ops lst dirn, let nw := nrun (new_network g) ops in
  (plot_network nw lst dirn = Err RouteIdNotFoundException <-> exists l rid, lst = Some l /\ In rid l /\ forall r, In r (nw_routes nw) -> r_id r <> rid) /\
  (forall e, plot_network nw lst dirn = Err e -> e = RouteIdNotFoundException) /\
  forall pic, plot_network nw lst dirn = Ok pic -> pic_pos pic = pic_pos (plot_graph g) /\
    (forall ab, In ab (pic_edges pic) <-> In ab (pic_edges (plot_graph g)) \/ exists r, listed nw lst r /\ (consecutive (r_ni r) (fst ab) (snd ab) \/ consecutive (r_nr r) (fst ab) (snd ab))) /\
    exists yi yr li ar, pic_draw pic = firstn 3 (pic_draw (plot_graph g)) ++ yi ++ yr ++ skipn 3 (pic_draw (plot_graph g)) ++ li ++ ar /\
      layer (asked dirn "I") (fun l => Draw_nodes l Yellow) (fun z => exists r, listed nw lst r /\ In z (r_si r)) yi /\
      layer (asked dirn "R") (fun l => Draw_nodes l Yellow) (fun z => exists r, listed nw lst r /\ In z (r_sr r)) yr /\
      layer (asked dirn "I") (fun l => Draw_edges l Lime) (fun ab => exists r, listed nw lst r /\ consecutive (r_ni r) (fst ab) (snd ab)) li /\
      layer (asked dirn "R") (fun l => Draw_edges l Aqua) (fun ab => exists r, listed nw lst r /\ consecutive (r_nr r) (fst ab) (snd ab)) ar /\
      forall l c, In (Draw_nodes l c) (yi ++ yr) -> NoDup l.
Proof.
  intros g ops lst dirn nw. assert (EG : nw_graph nw = g) by (apply (C24_forward_on_arcs g ops (mkRoute "" ex_bus [] [] [] [] CUSTOM))).
  assert (IDS : nw_ids nw = map r_id (nw_routes nw)) by (apply (reach_ok g ops)).
  set (ids := match lst with None => nw_ids nw | Some l => l end).
  assert (LI : forall r, listed nw lst r <-> In r (nw_routes nw) /\ In (r_id r) ids).
  { intro r. unfold listed, ids. destruct lst as [l|]; [reflexivity|]. rewrite IDS. split; [intros [A _]; split; [auto|apply in_map; auto]|intros [A _]; auto]. }
  assert (EP : plot_network nw lst dirn = let* t := plotted_lines nw ids in let '(ei, er, si, sr) := t in let '(es, pos) := edges_and_positions g in
    let shown d := match dirn with None => true | Some s => String.eqb s d end in
    Ok (mkPic (es ++ ei ++ er) pos ([Draw_nodes (ids_of_kind g Periphery) Red; Draw_nodes (ids_of_kind g Subcenter) Blue; Draw_nodes (ids_of_kind g CBD) Purple]
     ++ (if shown "I"%string then [Draw_nodes si Yellow] else []) ++ (if shown "R"%string then [Draw_nodes sr Yellow] else [])
     ++ [Draw_labels; Draw_edges es Orange]
     ++ (if shown "I"%string then [Draw_edges ei Lime] else []) ++ (if shown "R"%string then [Draw_edges er Aqua] else [])))).
  { unfold plot_network. fold ids. rewrite EG. destruct (edges_and_positions g) as [es pos]. destruct (plotted_lines nw ids) as [[[[ei er] si] sr]|e]; reflexivity. }
  rewrite EP. clear EP. pose proof (plotted_cases g ops ids) as PC. change (nrun (new_network g) ops) with nw in PC. destruct PC as [(rid & H1 & H2 & H3)|(rs & H1 & H2 & H3)]; rewrite H3; cbn [bind].
  - split; [|split; [intros e E; congruence|intros pic E; discriminate E]]. split; [intros _|auto]. unfold ids in H1. destruct lst as [l|]; [eauto|].
    exfalso. rewrite IDS in H1. apply in_map_iff in H1. destruct H1 as (r & E & Hr). apply (H2 r); auto.
  - destruct (fold_left line_step rs ([], [], [], [])) as [[[ei er] si] sr] eqn:EF. destruct (line_steps rs _ _ _ _ _ _ _ _ EF) as (L1 & L2 & L3 & L4 & L5 & L6). clear EF.
    unfold plot_graph. destruct (edges_and_positions g) as [es pos]. cbv zeta. split; [|split; [intros e E; discriminate E|]].
    { split; [intro E; discriminate E|]. intros (l & rid & -> & Hl & N). destruct (H2 rid Hl) as (r & Hr & Er). exfalso. apply (N r); auto. }
    intros pic E. inversion E; subst pic; clear E. cbn [pic_pos pic_draw pic_edges]. split; [reflexivity|].
    assert (LR : forall Q : route -> Prop, (exists r, listed nw lst r /\ Q r) <-> exists r, In r rs /\ Q r) by (intro Q; split; intros (r & A & B); exists r; (split; [|exact B]); [apply H1, LI; auto|apply LI, H1; auto]).
    split.
    { intros [a b]. rewrite !in_app_iff, L1, L2. cbn [fst snd]. setoid_rewrite <- arcs_consecutive. rewrite LR. cbn [In]. split.
      - intros [A|[[[]|(r & A & B)]|[[]|(r & A & B)]]]; [auto|right; exists r; auto|right; exists r; auto].
      - intros [A|(r & A & [B|B])]; [auto|right; left; right; eauto|right; right; right; eauto]. }
    set (shown := fun d : string => match dirn with None => true | Some s => String.eqb s d end).
    assert (SH : forall d, if shown d then asked dirn d else ~ asked dirn d).
    { intro d. unfold shown, asked. destruct dirn as [s|]; [|auto]. destruct (String.eqb_spec s d) as [->|Ne]; [auto|]. intros [C|C]; [discriminate C|congruence]. }
    exists (if shown "I"%string then [Draw_nodes si Yellow] else []), (if shown "R"%string then [Draw_nodes sr Yellow] else []), (if shown "I"%string then [Draw_edges ei Lime] else []), (if shown "R"%string then [Draw_edges er Aqua] else []).
    split; [reflexivity|]. pose proof (SH "I"%string) as SI. pose proof (SH "R"%string) as SR.
    split; [|split; [|split; [|split]]].
    + unfold layer. destruct (shown "I"%string); [left|right; auto]. split; [auto|]. exists si. split; [reflexivity|]. intro z. rewrite L3, LR. cbn [In]. tauto.
    + unfold layer. destruct (shown "R"%string); [left|right; auto]. split; [auto|]. exists sr. split; [reflexivity|]. intro z. rewrite L4, LR. cbn [In]. tauto.
    + unfold layer. destruct (shown "I"%string); [left|right; auto]. split; [auto|]. exists ei. split; [reflexivity|]. intros [a b]. cbn [fst snd]. setoid_rewrite <- arcs_consecutive. rewrite L1, LR. cbn [In]. tauto.
    + unfold layer. destruct (shown "R"%string); [left|right; auto]. split; [auto|]. exists er. split; [reflexivity|]. intros [a b]. cbn [fst snd]. setoid_rewrite <- arcs_consecutive. rewrite L2, LR. cbn [In]. tauto.
    + intros l c Hl. apply in_app_iff in Hl. destruct Hl as [Hl|Hl].
      * destruct (shown "I"%string); [|destruct Hl]. destruct Hl as [Hl|[]]. injection Hl as <- <-. apply L5. constructor.
      * destruct (shown "R"%string); [|destruct Hl]. destruct Hl as [Hl|[]]. injection Hl as <- <-. apply L6. constructor.
Qed.
Print Assumptions C73_network_picture.

(** ** The paths of a pair *)
Lemma drawn_unique X n t : drawn_name X n t -> t = plot_name X n.
Proof.
  destruct n as [c|st|k]; cbn [drawn_name plot_name].
  - intros (nd & H & <-). unfold city_name, gnode. rewrite (nth_error_nth _ _ _ H). reflexivity.
  - intros (m & a & H & ->). destruct (stop_names_text _ _ _ _ H) as [-> ->]. reflexivity.
  - intros (i & d & a & (rn & st & m & H & <- & <- & E & N) & ->). unfold rnode_id, rnode_dir, rnode_city_name, rn_gnode, rn_stop_at, rnode_at. rewrite (nth_error_nth _ _ _ H), E.
    destruct N as (sn & nd & N1 & N2 & _ & <-). unfold stop_at, gnode. rewrite (nth_error_nth _ _ _ N1), (nth_error_nth _ _ _ N2). destruct (rn_dir rn); reflexivity.
Qed.
Lemma drawn_known G g rs TP fr X n : ext_input g rs -> build_ext G g rs TP fr = Ok X -> In n (xnodes X) -> drawn_name X n (plot_name X n).
Proof.
  intros I B H. destruct n as [c|s|k].
  - destruct (city_known _ _ _ _ _ _ c I B H) as (nd & Hn). cbn. unfold city_name, gnode. rewrite (nth_error_nth _ _ _ Hn). exists nd; auto.
  - destruct (xnode_ES _ _ _ _ _ _ I B s H) as (st & no & r & A1 & A2 & _). rewrite <- (ef_graph _ _ _ _ _ _ (facts_of _ _ _ _ _ _ I B)) in A2.
    assert (N : stop_names X s (m_name (sn_mode st)) (nd_name no)) by (exists st, no; auto). cbn. destruct (stop_names_text _ _ _ _ N) as [-> ->]. eauto.
  - apply (proj2 (C30_nodes_exact _ _ _ _ _ _ I B)) in H. cbn [is_xnode] in H. destruct H as (rn & Hk).
    destruct (rnode_names G g rs TP fr X I B k rn Hk) as (s & m & Es & N). assert (D : drawn_name X (ER k) (r_id (rn_route rn) ++ " " ++ direction_name (rn_dir rn) ++ " - " ++ rnode_city_name X k)%string).
    { cbn. eexists _, _, _. split; [|reflexivity]. exists rn, s, m. auto 6. }
    rewrite (drawn_unique _ _ _ D) in D. exact D.
Qed.
Section Paths.
  Context (X : xgraph).
  Definition grown (N N' : names) (P : (enode -> Prop) -> string -> Prop) (E : string * string -> Prop) : Prop :=
    (forall t, In t (nm_city N') <-> In t (nm_city N) \/ P is_city t) /\ (forall t, In t (nm_stop N') <-> In t (nm_stop N) \/ P is_stop t) /\
    (forall t, In t (nm_route N') <-> In t (nm_route N) \/ P is_place t) /\ (forall ab, In ab (nm_edges N') <-> In ab (nm_edges N) \/ E ab).
  Lemma steps_grow : forall p N prev, grown N (fst (fold_left (plot_step X) p (N, prev)))
    (fun k t => exists n, In n p /\ k n /\ t = plot_name X n)
    (fun ab => match prev, p with Some a, n :: _ => ab = (a, plot_name X n) | _, _ => False end \/ exists n m, next_in p n m /\ ab = (plot_name X n, plot_name X m)).
  Proof.
    assert (NI : forall (a b n : enode) p, next_in (n :: p) a b <-> (a = n /\ exists q, p = b :: q) \/ next_in p a b).
    { intros a b n p. unfold next_in. split.
      - intros ([|x l1] & l2 & E); inversion E; subst; eauto.
      - intros [(-> & q & ->)|(l1 & l2 & ->)]; [exists [], q; auto|exists (n :: l1), l2; auto]. }
    assert (EX : forall n p (Q : enode -> Prop), (exists x, In x (n :: p) /\ Q x) <-> Q n \/ exists x, In x p /\ Q x).
    { intros n p Q. split; [intros (x & [<-|H] & HQ); eauto|]. intros [H|(x & H & HQ)]; [exists n; split; [left; auto|auto]|exists x; split; [right; auto|auto]]. }
    induction p as [|n p IH]; intros N prev.
    - cbn [fold_left fst]. unfold grown. repeat split; auto; try (intros [H|(n & [] & _)]; auto). intros [H|[H|(n & m & (l1 & l2 & C) & _)]]; [auto|destruct prev; destruct H|destruct l1; discriminate C].
    - cbn [fold_left]. destruct (plot_step X (N, prev) n) as [N1 pr] eqn:E1. specialize (IH N1 pr). destruct IH as (I1 & I2 & I3 & I4).
      assert (PR : pr = Some (plot_name X n)) by (unfold plot_step in E1; inversion E1; auto). subst pr.
      assert (C1 : forall t, In t (nm_city N1) <-> In t (nm_city N) \/ (is_city n /\ t = plot_name X n)).
      { intro t. unfold plot_step in E1. inversion E1. destruct n; cbn [nm_city is_city]; rewrite ?in_app_iff; cbn [In]; intuition auto. }
      assert (C2 : forall t, In t (nm_stop N1) <-> In t (nm_stop N) \/ (is_stop n /\ t = plot_name X n)).
      { intro t. unfold plot_step in E1. inversion E1. destruct n; cbn [nm_stop is_stop]; rewrite ?in_app_iff; cbn [In]; intuition auto. }
      assert (C3 : forall t, In t (nm_route N1) <-> In t (nm_route N) \/ (is_place n /\ t = plot_name X n)).
      { intro t. unfold plot_step in E1. inversion E1. destruct n; cbn [nm_route is_place]; rewrite ?in_app_iff; cbn [In]; intuition auto. }
      assert (C4 : forall ab, In ab (nm_edges N1) <-> In ab (nm_edges N) \/ match prev with Some a => ab = (a, plot_name X n) | None => False end).
      { intro ab. unfold plot_step in E1. inversion E1. destruct n, prev; cbn [nm_edges]; rewrite ?in_app_iff; cbn [In]; intuition auto. }
      clear E1. split; [|split; [|split]].
      + intro t. rewrite I1, C1, EX. tauto.
      + intro t. rewrite I2, C2, EX. tauto.
      + intro t. rewrite I3, C3, EX. tauto.
      + intro ab. rewrite I4, C4. setoid_rewrite NI.
        assert (K : (exists x m, (x = n /\ (exists q, p = m :: q) \/ next_in p x m) /\ ab = (plot_name X x, plot_name X m)) <->
          match p with m :: _ => ab = (plot_name X n, plot_name X m) | [] => False end \/ exists x m, next_in p x m /\ ab = (plot_name X x, plot_name X m)).
        { split.
          - intros (x & m & [(-> & q & ->)|H] & E); [left; auto|right; eauto].
          - intros [H|(x & m & H & E)]; [|eauto 6]. destruct p as [|m p]; [destruct H|]. exists n, m. split; [left; eauto|auto]. }
        rewrite K. destruct prev; tauto.
  Qed.
  Lemma grown_trans {A} (f : names -> A -> names) (P : A -> (enode -> Prop) -> string -> Prop) (E : A -> string * string -> Prop) :
    (forall N a, grown N (f N a) (P a) (E a)) -> forall l N, grown N (fold_left f l N) (fun k t => exists a, In a l /\ P a k t) (fun ab => exists a, In a l /\ E a ab).
  Proof.
    intros H. assert (EX : forall x p (Q : A -> Prop), (exists y, In y (x :: p) /\ Q y) <-> Q x \/ exists y, In y p /\ Q y).
    { intros n p Q. split; [intros (x & [<-|K] & HQ); eauto|]. intros [K|(x & K & HQ)]; [exists n; split; [left; auto|auto]|exists x; split; [right; auto|auto]]. }
    induction l as [|a l IH]; intro N; cbn [fold_left].
    - unfold grown. repeat split; auto; intros [K|(x & [] & _)]; auto.
    - destruct (IH (f N a)) as (I1 & I2 & I3 & I4), (H N a) as (H1 & H2 & H3 & H4). split; [|split; [|split]]; intro t; [rewrite I1, H1|rewrite I2, H2|rewrite I3, H3|rewrite I4, H4]; rewrite EX; tauto.
  Qed.
End Paths.
(** The picture of the paths found for a pair: city nodes in yellow, stops in red, places of lines in green, each under
    its name, and an orange arrow for each step of a path. *)
Theorem C73_paths_picture : forall G g rs TP fr X P c d fuel hp R, ext_input g rs -> build_ext G g rs TP fr = Ok X -> hyper_graph X -> weights X P -> In (EC c) (xnodes X) ->
  (length (xnodes X) < fuel)%nat -> hyperpath_OD fuel X P (Some (EC c)) d = Ok (hp, R) ->
  let on_path n := exists s ps p, In (s, ps) hp /\ In p ps /\ In n p in
  let step n m := exists s ps p, In (s, ps) hp /\ In p ps /\ next_in p n m in
  exists cs ss ks es, plot_hyperpaths X hp = [Draw_nodes cs Yellow; Draw_nodes ss Red; Draw_nodes ks Green; Draw_labels; Draw_edges es Orange] /\
    (forall t, In t cs <-> exists n, on_path n /\ is_city n /\ drawn_name X n t) /\ (forall t, In t ss <-> exists n, on_path n /\ is_stop n /\ drawn_name X n t) /\
    (forall t, In t ks <-> exists n, on_path n /\ is_place n /\ drawn_name X n t) /\
    (forall a b, In (a, b) es <-> exists n m, step n m /\ drawn_name X n a /\ drawn_name X m b) /\
    forall n, on_path n -> exists t, drawn_name X n t /\ forall t', drawn_name X n t' -> t' = t.
Proof.
  intros G g rs TP fr X P c d fuel hp R I B HG HW HC L E on_path step.
  destruct (C37_elementary_paths X P c d fuel HG HW L) as (hp' & R' & E' & EB & PS & _ & _ & ST). rewrite E in E'. inversion E'; subst hp' R'.
  destruct (build_hfacts X P (Some (EC c)) d HG HW fuel ltac:(lia)) as (R' & EB' & F). assert (R' = R) by congruence. subst R'.
  assert (WK : forall n w, walk (hr_suc R) d n w -> In n (xnodes X) -> forall m, In m w -> In m (xnodes X)).
  { intros n w W. induction W as [n Ed|n e p Nd He W IH]; intros Hn m Hm; [destruct Hm as [<-|[]]; auto|]. destruct Hm as [<-|Hm]; auto. apply IH; auto. apply (hg_ends X HG). apply (hf_suc _ _ _ _ _ F n e He). }
  assert (ND : forall n, on_path n -> drawn_name X n (plot_name X n)).
  { intros n (s & ps & p & H1 & H2 & H3). apply (drawn_known G g rs TP fr); auto. destruct (proj1 (PS s p)) as (st & w & A1 & _ & _ & W & ->); [eauto|]. destruct H3 as [<-|H3]; auto. apply (WK _ _ W A1); auto. }
  unfold plot_hyperpaths. set (N := fold_left _ hp _).
  assert (GR : grown (mkNames [] [] [] []) N (fun k t => exists sp, In sp hp /\ exists p, In p (snd sp) /\ exists n, In n p /\ k n /\ t = plot_name X n)
    (fun ab => exists sp, In sp hp /\ exists p, In p (snd sp) /\ (False \/ exists n m, next_in p n m /\ ab = (plot_name X n, plot_name X m)))).
  { apply grown_trans. intros N0 [s ps]. apply grown_trans. intros N1 p. apply (steps_grow X p N1 None). }
  destruct GR as (G1 & G2 & G3 & G4). cbn [nm_city nm_stop nm_route nm_edges In] in *.
  assert (K : forall k : enode -> Prop, forall t, (exists sp, In sp hp /\ exists p, In p (snd sp) /\ exists n, In n p /\ k n /\ t = plot_name X n) <-> exists n, on_path n /\ k n /\ drawn_name X n t).
  { intros k t. split.
    - intros ([s ps] & H1 & p & H2 & n & H3 & H4 & ->). assert (O : on_path n) by (exists s, ps, p; auto). exists n. auto.
    - intros (n & (s & ps & p & H1 & H2 & H3) & H4 & D). exists (s, ps). split; [auto|]. exists p. split; [auto|]. exists n. rewrite <- (drawn_unique _ _ _ D). auto. }
  exists (nm_city N), (nm_stop N), (nm_route N), (nm_edges N). split; [reflexivity|]. split; [|split; [|split; [|split]]].
  - intro t. rewrite G1, K. tauto.
  - intro t. rewrite G2, K. tauto.
  - intro t. rewrite G3, K. tauto.
  - intros a b. rewrite G4. split.
    + intros [[]|([s ps] & H1 & p & H2 & [[]|(n & m & H3 & H4)])]. inversion H4; subst. exists n, m. split; [exists s, ps, p; auto|]. destruct H3 as (l1 & l2 & EQ). cbn [snd] in H2.
      split; apply ND; exists s, ps, p; (split; [auto|]); (split; [auto|]); rewrite EQ; apply in_app_iff; right; cbn; auto.
    + intros (n & m & (s & ps & p & H1 & H2 & H3) & Da & Db). right. exists (s, ps). split; [auto|]. exists p. split; [auto|]. right. exists n, m. rewrite <- (drawn_unique _ _ _ Da), <- (drawn_unique _ _ _ Db). auto.
  - intros n H. exists (plot_name X n). split; [apply ND; auto|]. apply drawn_unique.
Qed.
Print Assumptions C73_paths_picture.

(** A network accepts a line with a stop that the city does not have; such a stop is drawn without a position. *)
Theorem C73_unknown_stop_refuted : exists G P C m r nw pic l, build_from_parameters G P = Ok C /\
  new_route (Some "x"%string) (Some m) (Some "99"%string) (Some "99"%string) (Some "99"%string) (Some "99"%string) CUSTOM = Ok r /\
  add_route (new_network (c_graph C)) r = (nw, None) /\ plot_network nw None None = Ok pic /\
  In (Draw_nodes l Yellow) (pic_draw pic) /\ In 99%Z l /\ dget Z.eqb (pic_pos pic) 99%Z = None.
Proof.
  exists ex_geo, ex_p34. eexists. exists Props_Network.ex_bus. do 4 eexists. split; [vm_compute; reflexivity|]. split; [vm_compute; reflexivity|]. split; [vm_compute; reflexivity|]. split; [vm_compute; reflexivity|].
  split; [vm_compute; do 3 right; left; reflexivity|]. split; [left; reflexivity|]. vm_compute. reflexivity.
Qed.
Print Assumptions C73_unknown_stop_refuted.

Example C73_city_ex : (1 <= p_n ex_p34)%Z /\ match build_from_parameters ex_geo ex_p34 with
  | Ok C => firstn 3 (pic_draw (plot_graph (c_graph C))) = [Draw_nodes [1; 3; 5; 7]%Z Red; Draw_nodes [2; 4; 6; 8]%Z Blue; Draw_nodes [0]%Z Purple] /\
      length (pic_edges (plot_graph (c_graph C))) = 24%nat /\ length (pic_pos (plot_graph (c_graph C))) = 9%nat
  | Err _ => False end.
Proof. vm_compute. repeat split; discriminate. Qed.
Definition ex_drawn : network := nrun (new_network ex_g34) [NAddRoute ex_tang; NAddRoute ex_tang_metro].
Example C73_network_ex : match plot_network ex_drawn (Some ["m"]%string) (Some "I"%string) with
  | Ok pic => skipn 3 (firstn 4 (pic_draw pic)) = [Draw_nodes [2; 3]%Z Yellow] /\ skipn 6 (pic_draw pic) = [Draw_edges [(1, 2); (2, 4); (4, 3)]%Z Lime] | Err _ => False end /\
  match plot_network ex_drawn None None with Ok pic => length (pic_draw pic) = 9%nat | Err _ => False end /\
  plot_network ex_drawn (Some ["m"; "z"]%string) None = Err RouteIdNotFoundException.
Proof. vm_compute. auto. Qed.
Example C73_paths_ex : match hyperpath_OD 40 ex_X3 ex_P (Some (EC 1)) (Some (EC 3)) with
  | Ok (hp, _) => match plot_hyperpaths ex_X3 hp with
      | [Draw_nodes cs _; Draw_nodes ss _; Draw_nodes ks _; _; Draw_edges (e :: _) _] =>
          (existsb (String.eqb "P_1") cs && existsb (String.eqb "bus - P_1") ss && existsb (String.eqb "t I - SC_1") ks)%bool = true /\ e = ("P_1", "bus - P_1")%string
      | _ => False end
  | Err _ => False end.
Proof. vm_compute. auto. Qed.
