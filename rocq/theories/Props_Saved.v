(** * Props_Saved: the table of routes_to_file (C71) *)
From Coq Require Import String Ascii List ZArith QArith Bool Lia.
From Verif Require Import PyBase PyFacts PyStr PyStrFacts Graph GraphSpec GraphProofs GeoEx Props_Graph Mode ModeSpec Props_Mode
  Route Network RouteSpec RouteProofs Props_Network Predef PredefSpec Props_Predef SavedSpec.
Import ListNotations.
Local Open Scope Z_scope.

Lemma routes_from_ops g ops :
  let nw := nrun (new_network g) ops in
  (forall r, In r (nw_routes nw) -> In (NAddRoute r) ops) /\
  (forall m, In m (nw_modes nw) -> exists o, In o ops /\ op_mode o = Some m).
Proof.
  apply (nrun_ind (fun nw => (forall r, In r (nw_routes nw) -> In (NAddRoute r) ops) /\
    (forall m, In m (nw_modes nw) -> exists o, In o ops /\ op_mode o = Some m)) g ops).
  - split; intros ? [].
  - intros nw o K [HR HM] Ho. destruct o as [r|rid|m|m]; simpl.
    + destruct (add_route nw r) as [nw' [e|]] eqn:E; destruct (add_route_spec _ _ _ _ E) as [F S]; simpl.
      * rewrite F by congruence. auto.
      * destruct (S eq_refl) as (_ & _ & ER & _ & _ & nw1 & A & EM). rewrite ER, EM. split.
        -- intros r' Hr. apply in_app_iff in Hr. destruct Hr as [Hr|[<-|[]]]; auto.
        -- intros m Hm. destruct (add_mode_frame _ _ _ _ A) as (_ & _ & _ & _ & F5). destruct (F5 eq_refl) as [X|X]; rewrite X in Hm; auto.
           apply in_app_iff in Hm. destruct Hm as [Hm|[<-|[]]]; auto. exists (NAddRoute r). auto.
    + destruct (remove_route_spec nw rid K) as [R1 R2]. destruct (in_dec string_dec rid (nw_ids nw)) as [I|I].
      * destruct (R1 I) as (nw' & -> & _ & ER & EM & _). simpl. rewrite ER, EM. split; auto. intros r Hr. apply filter_In in Hr. apply HR. tauto.
      * rewrite (R2 I). auto.
    + destruct (add_transport_mode nw m) as [nw' e] eqn:E. simpl. destruct (add_mode_frame _ _ _ _ E) as (ER & _ & _ & F4 & F5). rewrite ER. split; auto.
      intros m' Hm. destruct e as [e|]; [rewrite F4 in Hm by congruence; auto|]. destruct (F5 eq_refl) as [X|X]; rewrite X in Hm; auto.
      apply in_app_iff in Hm. destruct Hm as [Hm|[<-|[]]]; auto. exists (NAddMode m). auto.
    + destruct (remove_transport_mode_spec nw m K) as (nw' & -> & _ & ER & EM & _). cbn [fst]. rewrite ER, EM. split.
      * intros r Hr. apply HR. eapply subseq_In; [apply subseq_skip_filter|exact Hr].
      * intros m' Hm. apply filter_In in Hm. apply HM. tauto.
Qed.

Lemma find_by_name l m : NoDup (map m_name l) -> In m l -> find (fun x => String.eqb (m_name x) (m_name m)) l = Some m.
Proof.
  induction l as [|x l IH]; intros N H; [contradiction|]. cbn [map find] in *. inversion N; subst. destruct H as [->|H]; [rewrite String.eqb_refl; reflexivity|].
  destruct (String.eqb_spec (m_name x) (m_name m)) as [E|E]; auto. exfalso. apply H2. rewrite E. apply in_map. auto.
Qed.
Lemma inj_in {A B} (f : A -> B) l x y : NoDup (map f l) -> In x l -> In y l -> f x = f y -> x = y.
Proof.
  induction l as [|z l IH]; intros N Hx Hy E; [contradiction|]. cbn [map] in N. inversion N; subst. destruct Hx as [->|Hx], Hy as [->|Hy]; auto.
  - exfalso. apply H1. rewrite E. apply in_map; auto.
  - exfalso. apply H1. rewrite <- E. apply in_map; auto.
Qed.
Lemma NoDup_sub {A B} (f : A -> B) l l' : NoDup l -> incl l l' -> NoDup (map f l') -> NoDup (map f l).
Proof. intros N I N'. apply NoDup_map_inj_in; auto. intros x y Hx Hy E. eapply inj_in; eauto. Qed.
Lemma modes_ok_sub l M : modes_ok M -> NoDup (map m_ref l) -> incl l M -> modes_ok l.
Proof.
  intros (N1 & N2 & L & D) N I. assert (NL : NoDup l) by (eapply NoDup_map_inv; eauto). split; auto. split; [eapply NoDup_sub; eauto|].
  pose proof (NoDup_incl_length NL I). split; [lia|]. intro E. destruct D as (m & Hm & Hd); [lia|]. exists m. split; auto.
  assert (J : incl M l) by (apply NoDup_length_incl; auto; lia). auto.
Qed.

Lemma reload g M l : modes_ok M -> NoDup (map r_id l) -> (forall r, In r l -> on_arcs g (r_ni r)) -> (forall r, In r l -> In (r_mode r) M) ->
  let nw := nrun (new_network g) (map NAddRoute l) in nw_routes nw = l /\ incl (nw_modes nw) M.
Proof.
  intro HM. induction l as [|r l IH] using rev_ind; intros N A I; [split; [reflexivity|intros ? []]|].
  rewrite map_app in N |- *. cbn [map] in *. apply NoDup_rotate in N. inversion N as [|x y N1 N2]; subst.
  destruct IH as [ER EM]; auto; [intros; apply A, in_app_iff; auto|intros; apply I, in_app_iff; auto|].
  unfold nrun in *. rewrite fold_left_app. cbn [fold_left]. fold (nrun (new_network g) (map NAddRoute l)) in *. set (nw := nrun (new_network g) (map NAddRoute l)) in *.
  assert (X : exists nw', add_route nw r = (nw', None)).
  { apply (C24_add_route_accepts_iff g (map NAddRoute l) r). fold nw. split; [apply A, in_app_iff; right; left; auto|]. split.
    - intros x Hx E. rewrite ER in Hx. apply N1. rewrite <- E. apply in_map. auto.
    - destruct (C26_modes_rule g (map NAddRoute l)) as [OK _]. fold nw in OK. destruct (mode_in (r_mode r) (nw_modes nw)) eqn:Em; [left; apply mode_in_spec; auto|].
      right. assert (Nm : ~ registered (r_mode r) (nw_modes nw)) by (intro C; apply mode_in_spec in C; congruence). apply (modes_ok_sub _ M); auto.
      + rewrite map_app. apply NoDup_snoc; [apply OK|]. intro C. apply in_map_iff in C. destruct C as (m & E & Hm). apply Nm. exists m. auto.
      + intros m Hm. apply in_app_iff in Hm. destruct Hm as [Hm|[<-|[]]]; auto. apply I, in_app_iff. right; left; auto. }
  destruct X as (nw' & E). cbn [nstep]. rewrite E. cbn [fst]. destruct (add_route_spec _ _ _ _ E) as [_ S]. destruct (S eq_refl) as (_ & _ & R1 & _ & _ & nw1 & A1 & M1).
  rewrite R1, ER, M1. split; auto. destruct (add_mode_frame _ _ _ _ A1) as (_ & _ & _ & _ & F5). destruct (F5 eq_refl) as [->| ->]; auto.
  intros m Hm. apply in_app_iff in Hm. destruct Hm as [Hm|[<-|[]]]; auto. apply I, in_app_iff. right; left; auto.
Qed.

Lemma parses_own l : l <> [] -> parses (Some (sequences_to_string l)) l.
Proof.
  intro H. apply parses_iff. split; [|apply C21_text_round_trip]. rewrite sequences_to_string_concat. destruct l as [|z l]; [congruence|].
  cbn [map]. destruct (str_of_Z z) as [|c s] eqn:E.
  - exfalso. pose proof (C21_text_round_trip [z]) as T. unfold sequences_to_string in T. cbn [fold_left String.append] in T. rewrite E in T. discriminate.
  - destruct l as [|z' l]; reflexivity.
Qed.

(** C71: every row holds the id of a route, the name of its mode and its four sequences.  Read row by row, the table gives
    the routes back, and they can be added to an empty network of the same city: the network has the same routes again. *)
Theorem C71_saved_routes_reload : forall g ops,
  one_object_each ops -> (forall m, ~ In (NRemoveMode m) ops) ->
  (forall r, In (NAddRoute r) ops -> valid_line (r_ni r) (r_nr r) (r_si r) (r_sr r)) ->
  let nw := nrun (new_network g) ops in
  let saved := map as_custom (nw_routes nw) in
  mapM (read_row (nw_modes nw)) (routes_table nw) = Ok saved /\
  nw_routes (nrun (new_network g) (map NAddRoute saved)) = saved.
Proof.
  intros g ops ONE NR VL nw saved. destruct (routes_from_ops g ops) as [FR FM]. fold nw in FR, FM. destruct (C26_modes_rule g ops) as [OK _]. fold nw in OK.
  assert (MI : forall r, In r (nw_routes nw) -> In (r_mode r) (nw_modes nw)).
  { intros r Hr. destruct (C26_route_modes_registered g ops r NR Hr) as (m & Hm & E). fold nw in Hm. destruct (FM m Hm) as (o & Ho & Em).
    rewrite (ONE (NAddRoute r) o (r_mode r) m); auto. }
  split.
  - unfold routes_table, saved. assert (S : incl (nw_routes nw) (nw_routes nw)) by apply incl_refl. revert S. generalize (nw_routes nw) at 1 3 4. intro l.
    induction l as [|r l IH]; intro S; [reflexivity|]. cbn [map mapM]. assert (Hr : In r (nw_routes nw)) by (apply S; left; auto).
    assert (ER : read_row (nw_modes nw) (r_id r, m_name (r_mode r), sequences_to_string (r_ni r), sequences_to_string (r_nr r), sequences_to_string (r_si r), sequences_to_string (r_sr r)) = Ok (as_custom r)).
    { unfold read_row. rewrite find_by_name; [|apply OK|auto]. specialize (VL r (FR r Hr)). apply C22_custom_route_accepts_iff.
      exists (r_ni r), (r_nr r), (r_si r), (r_sr r). pose proof VL as ((a & b & (? & E1) & _ & (? & E2) & _ & (? & E3) & _ & (? & E4) & _) & _).
      repeat (split; [apply parses_own; congruence|]). auto. }
    rewrite ER. cbn [bind]. rewrite IH by (intros x Hx; apply S; right; auto). reflexivity.
  - apply (reload g (nw_modes nw) saved OK).
    + unfold saved. rewrite map_map. apply (C23_routes_addressable g ops EmptyString).
    + intros r Hr. apply in_map_iff in Hr. destruct Hr as (r' & <- & Hr). apply (C24_forward_on_arcs g ops r'). auto.
    + intros r Hr. apply in_map_iff in Hr. destruct Hr as (r' & <- & Hr). cbn. auto.
Qed.
Print Assumptions C71_saved_routes_reload.

Lemma family_type g G P C m f rs r : build_from_parameters G P = Ok C -> g = c_graph C -> family_routes g m f = Ok rs -> f <> Circular -> In r rs -> r_type r = PREDEFINED.
Proof.
  intros HC -> HF NF Hr. destruct (C28_families G P C m HC) as (F1 & F2 & F3 & F4 & _).
  assert (X : forall (h : Z -> route) k, (forall z, r_type (h z) = PREDEFINED) -> rs = map h (zone_list k) -> r_type r = PREDEFINED).
  { intros h k Hh E. rewrite E in Hr. apply in_map_iff in Hr. destruct Hr as (z & <- & _). auto. }
  destruct f as [| |s e|j s e|j s e]; [congruence| | | |]; cbn [family_routes] in HF.
  - rewrite F1 in HF. inversion HF. eapply X; [|symmetry; eassumption]. reflexivity.
  - rewrite F2 in HF. inversion HF. eapply X; [|symmetry; eassumption]. intro z; destruct s, e; reflexivity.
  - destruct (Z_le_dec 1 j) as [L1|L1], (Z_le_dec (2 * j) (p_n P)) as [L2|L2];
      try (destruct (F4 j s e) as [E1 E2]; [tauto|]; congruence). destruct (F3 j s e L1 L2) as [E1 E2]. rewrite E1 in HF. inversion HF. eapply X; [|symmetry; eassumption]. intro z; destruct s, e; reflexivity.
  - destruct (Z_le_dec 1 j) as [L1|L1], (Z_le_dec (2 * j) (p_n P)) as [L2|L2];
      try (destruct (F4 j s e) as [E1 E2]; [tauto|]; congruence). destruct (F3 j s e L1 L2) as [E1 E2]. rewrite E2 in HF. inversion HF. eapply X; [|symmetry; eassumption]. intro z; destruct s, e; reflexivity.
Qed.

(** the lines of a predefined family other than the circular one can be saved and read back *)
Theorem C71_predefined_lines_reload : forall G P C m f rs,
  build_from_parameters G P = Ok C -> family_routes (c_graph C) m f = Ok rs -> f <> Circular ->
  let nw := nrun (new_network (c_graph C)) (map NAddRoute rs) in
  nw_routes nw = rs /\ mapM (read_row (nw_modes nw)) (routes_table nw) = Ok (map as_custom rs) /\
  nw_routes (nrun (new_network (c_graph C)) (map NAddRoute (map as_custom rs))) = map as_custom rs.
Proof.
  intros G P C m f rs HC HF NF nw.
  assert (GL : forall r, In r rs -> good_line (c_graph C) r /\ r_mode r = m) by (intros r Hr; destruct (C27_predefined_routes_valid G P C m f rs r HC HF Hr) as (X & Y & _); auto).
  assert (ER : nw_routes nw = rs).
  { apply (reload (c_graph C) [m] rs).
    - repeat split; cbn; try (repeat constructor; cbn; tauto); try lia.
    - eapply C29_ids_distinct_within_family; eauto.
    - intros r Hr. apply (GL r Hr).
    - intros r Hr. rewrite (proj2 (GL r Hr)). left; auto. }
  assert (IO : forall o, In o (map NAddRoute rs) -> exists r, o = NAddRoute r /\ In r rs) by (intros o Ho; apply in_map_iff in Ho; destruct Ho as (r & <- & Hr); eauto).
  destruct (C71_saved_routes_reload (c_graph C) (map NAddRoute rs)) as [R1 R2].
  - intros o o' m1 m2 Ho Ho' E1 E2 _. destruct (IO _ Ho) as (r1 & -> & H1). destruct (IO _ Ho') as (r2 & -> & H2). cbn in E1, E2. rewrite (proj2 (GL _ H1)) in E1. rewrite (proj2 (GL _ H2)) in E2. congruence.
  - intros m' Hm. destruct (IO _ Hm) as (r & E & _). discriminate.
  - intros r Hr. destruct (IO _ Hr) as (r' & E & Hr'). inversion E; subst r'. destruct (GL r Hr') as [(_ & _ & _ & _ & V) _]. rewrite (family_type _ G P C m f rs r HC eq_refl HF NF Hr') in V. exact V.
  - fold nw in R1, R2. rewrite ER in R1, R2. auto.
Qed.
Print Assumptions C71_predefined_lines_reload.

(** C27 for any network built on the city: a predefined line is taken exactly when its id is not used and its mode is there or fits *)
Theorem C27_accepted_by_networks : forall G P C m f rs r ops,
  build_from_parameters G P = Ok C -> family_routes (c_graph C) m f = Ok rs -> In r rs ->
  let nw := nrun (new_network (c_graph C)) ops in
  (exists nw', add_route nw r = (nw', None)) <->
  (forall x, In x (nw_routes nw) -> r_id x <> r_id r) /\ (registered m (nw_modes nw) \/ modes_ok (nw_modes nw ++ [m])).
Proof.
  intros G P C m f rs r ops HC HF Hr nw. destruct (C27_predefined_routes_valid G P C m f rs r HC HF Hr) as ((A & _) & Em & _).
  unfold nw. rewrite (C24_add_route_accepts_iff (c_graph C) ops r). rewrite Em. tauto.
Qed.
Print Assumptions C27_accepted_by_networks.

Definition ex_saved_ops : list nop := [NAddRoute (mk "a" ex_bus [1;2;0] [0;2;1]); NAddRoute (mk "b" ex_metro [3;4] [4;3]); NAddMode ex_bus; NAddRoute (mk "c" ex_bus [3;4;0] [0;4;3]); NRemoveRoute "a"].
Example C71_ex : one_object_each ex_saved_ops /\ (forall m, ~ In (NRemoveMode m) ex_saved_ops) /\
  (forall r, In (NAddRoute r) ex_saved_ops -> valid_line (r_ni r) (r_nr r) (r_si r) (r_sr r)) /\
  routes_table (nrun (new_network ex_g) ex_saved_ops) = [("b", "metro", "3,4", "4,3", "3,4", "4,3"); ("c", "bus", "3,4,0", "0,4,3", "3,4,0", "0,4,3")]%string.
Proof.
  split; [|split; [|split]].
  - intros o o' m m' Ho Ho' E E' R. unfold ex_saved_ops in *. cbn [In] in Ho, Ho'.
    destruct Ho as [<-|[<-|[<-|[<-|[<-|[]]]]]], Ho' as [<-|[<-|[<-|[<-|[<-|[]]]]]]; cbn in E, E'; inversion E; inversion E'; subst; try reflexivity; discriminate.
  - intros m H. unfold ex_saved_ops in H. cbn in H. intuition discriminate.
  - intros r H. unfold ex_saved_ops in H. cbn [In] in H.
    destruct H as [E|[E|[E|[E|[E|[]]]]]]; inversion E; subst; cbn [r_ni r_nr r_si r_sr mk].
    + split; [|repeat split; try (repeat constructor; cbn; intuition discriminate); apply incl_refl]. exists 1, 0. repeat split; [exists [2;0]|exists [1;2]|exists [2;1]|exists [0;2]|exists [2;0]|exists [1;2]|exists [2;1]|exists [0;2]]; reflexivity.
    + split; [|repeat split; try (repeat constructor; cbn; intuition discriminate); apply incl_refl]. exists 3, 4. repeat split; [exists [4]|exists [3]|exists [3]|exists [4]|exists [4]|exists [3]|exists [3]|exists [4]]; reflexivity.
    + split; [|repeat split; try (repeat constructor; cbn; intuition discriminate); apply incl_refl]. exists 3, 0. repeat split; [exists [4;0]|exists [3;4]|exists [4;3]|exists [0;4]|exists [4;0]|exists [3;4]|exists [4;3]|exists [0;4]]; reflexivity.
  - vm_compute. reflexivity.
Qed.

(** a circular line has an empty direction: its row cannot be read back as a custom route *)
Theorem C71_circular_lines_refuted : exists G P C m rs,
  build_from_parameters G P = Ok C /\ get_circular_routes (c_graph C) m = Ok rs /\ rs <> [] /\
  let nw := nrun (new_network (c_graph C)) (map NAddRoute rs) in
  nw_routes nw = rs /\ Forall (fun w => read_row (nw_modes nw) w = Err NodeSequencesIsNotValidException) (routes_table nw).
Proof.
  exists ex_geo, (ex_params_sym 4). eexists. exists ex_bus. eexists. split; [vm_compute; reflexivity|]. split; [vm_compute; reflexivity|]. split; [discriminate|].
  split; [vm_compute; reflexivity|]. repeat (constructor; [vm_compute; reflexivity|]). vm_compute. constructor.
Qed.
Print Assumptions C71_circular_lines_refuted.
