(** * Props_Network: the properties C21-C26 of lines and networks *)
From Coq Require Import String Ascii List ZArith QArith Bool Lia.
From Verif Require Import PyBase PyFacts PyStr PyStrFacts Graph GraphSpec GraphProofs GeoEx Props_Graph Mode ModeSpec Props_Mode
  Route Network RouteSpec RouteProofs.
Import ListNotations.
Local Open Scope Z_scope.

(** C21 *)
Theorem C21_text_round_trip : forall l, sequences_to_list (Some (sequences_to_string l)) = Ok l.
Proof. intro l. rewrite sequences_to_string_concat. apply to_list_concat. Qed.
Print Assumptions C21_text_round_trip.
(** what is accepted: exactly the texts of comma separated tokens that int() reads *)
Theorem C21_parse_rule : forall s l, s <> None -> s <> Some EmptyString ->
  (sequences_to_list s = Ok l <-> parses s l).
Proof.
  intros s l H1 H2. rewrite parses_iff. destruct s as [[|a t]|]; simpl blank_arg; try congruence.
  split; [auto|]. intros [_ H]; auto.
Qed.
Print Assumptions C21_parse_rule.
Example C21_ex : sequences_to_string [12; -3; 0] = "12,-3,0"%string /\
  sequences_to_list (Some " 12,-3 ,0"%string) = Ok [12; -3; 0] /\ sequences_to_list (Some "1,,2"%string) = Err ValueError.
Proof. vm_compute. auto. Qed.

(** C22 *)
Theorem C22_custom_route_accepts_iff : forall id m a b c d r,
  new_route (Some id) (Some m) a b c d CUSTOM = Ok r <->
  exists ni nr si sr, parses a ni /\ parses b nr /\ parses c si /\ parses d sr /\
    valid_line ni nr si sr /\ r = mkRoute id m ni nr si sr CUSTOM.
Proof.
  intros id m a b c d r. unfold new_route. rewrite !raise_if_iff. cbn [is_custom andb]. split.
  - intros (H1 & H2 & H). apply orb_false_iff in H1. apply orb_false_iff in H2. destruct H1 as [Ba Bb]. destruct H2 as [Bc Bd].
    apply bind_ok in H. destruct H as (v & V & H). apply route_validator_iff in V; auto.
    destruct V as (_ & ni & nr & si & sr & P1 & P2 & P3 & P4 & VL). exists ni, nr, si, sr. repeat (split; auto).
    apply parses_iff in P1. apply parses_iff in P2. apply parses_iff in P3. apply parses_iff in P4.
    destruct P1 as [_ P1], P2 as [_ P2], P3 as [_ P3], P4 as [_ P4]. rewrite P1, P2, P3, P4 in H. cbn [bind] in H. congruence.
  - intros (ni & nr & si & sr & P1 & P2 & P3 & P4 & VL & ->).
    assert (B : blank_arg a = false /\ blank_arg b = false /\ blank_arg c = false /\ blank_arg d = false).
    { apply parses_iff in P1. apply parses_iff in P2. apply parses_iff in P3. apply parses_iff in P4. tauto. }
    destruct B as (Ba & Bb & Bc & Bd). rewrite Ba, Bb, Bc, Bd. split; auto. split; auto.
    assert (V : route_validator a b c d = Ok true) by (apply route_validator_iff; auto; split; auto; exists ni, nr, si, sr; auto).
    rewrite V. cbn [bind].
    apply parses_iff in P1. apply parses_iff in P2. apply parses_iff in P3. apply parses_iff in P4.
    destruct P1 as [_ ->], P2 as [_ ->], P3 as [_ ->], P4 as [_ ->]. reflexivity.
Qed.
Print Assumptions C22_custom_route_accepts_iff.
Theorem C22_id_and_mode_required : forall m a b c d ty r,
  new_route None m a b c d ty <> Ok r /\ forall id, new_route id None a b c d ty <> Ok r.
Proof.
  intros. split; [|intro id]; unfold new_route; rewrite !raise_if_iff; intros (_ & _ & C); try discriminate.
  destruct id; discriminate.
Qed.
Print Assumptions C22_id_and_mode_required.
Definition ex_bus : mode := mkMode 1 "bus" 1 (861#100) (15#100) 0 20 (25#10) 600 160 (7#10) 0 4 112.
Definition ex_metro : mode := mkMode 2 "metro" 0 (8091#100) (3#10) (93315#100) 40 (33#100) 40 1440 (5#10) 1 1 28.
Definition ex_tram : mode := mkMode 3 "tram" 0 1 1 1 30 1 40 400 (5#10) 1 2 28.
Example C22_ex : exists r, new_route (Some "r"%string) (Some ex_bus) (Some "1,2,0"%string) (Some "0,2,1"%string) (Some "1,0"%string)
  (Some "0,2,1"%string) CUSTOM = Ok r.
Proof. vm_compute. eauto. Qed.
(** stops may be listed against the direction of travel *)
Theorem C22_stops_in_travel_order_refuted : exists id m a b c d r,
  new_route (Some id) (Some m) a b c d CUSTOM = Ok r /\ ~ subseq (r_si r) (r_ni r).
Proof.
  exists "r"%string, ex_bus, (Some "1,2,0,4,3"%string), (Some "3,4,0,2,1"%string), (Some "1,4,2,3"%string), (Some "3,1"%string).
  eexists. split; [vm_compute; reflexivity|]. cbn [r_si r_ni]. intro H.
  repeat match goal with H : subseq _ _ |- _ => inversion H; clear H; subst end.
Qed.
Print Assumptions C22_stops_in_travel_order_refuted.

(** ** C23 *)
Definition nw_ok (nw : network) : Prop := nw_ids nw = map r_id (nw_routes nw) /\ NoDup (nw_ids nw).

Lemma pop_map {A B} (f : A -> B) l i : map f (pop_nth l i) = pop_nth (map f l) i.
Proof. unfold pop_nth. rewrite map_app, firstn_map, skipn_map. reflexivity. Qed.
Lemma pop_cons_S {A} (x : A) l i : pop_nth (x :: l) (S i) = x :: pop_nth l i.
Proof. reflexivity. Qed.
Lemma pop_filter (l : list route) rid i : NoDup (map r_id l) -> index_of rid (map r_id l) = Some i ->
  pop_nth l i = filter (fun r => negb (r_id r =? rid)%string) l.
Proof.
  revert i. induction l as [|r l IH]; intros i N H; [discriminate|]. cbn [map] in *. inversion N; subst.
  rewrite index_of_cons in H. simpl filter. destruct (String.eqb_spec (r_id r) rid).
  - inversion H; subst. unfold pop_nth. simpl. symmetry.
    assert (G : forall l, ~ In (r_id r) (map r_id l) -> filter (fun x => negb (r_id x =? r_id r)%string) l = l).
    { clear. induction l as [|y l IH]; intro H; simpl; auto. destruct (String.eqb_spec (r_id y) (r_id r)).
      - exfalso. apply H. simpl. auto.
      - simpl. f_equal. apply IH. intro C. apply H. simpl; auto. }
    apply G. auto.
  - destruct (index_of rid (map r_id l)) as [k|] eqn:E; [|discriminate]. simpl in H. inversion H; subst.
    rewrite pop_cons_S. simpl. f_equal. auto.
Qed.
Lemma index_of_In rid l i : index_of rid l = Some i -> In rid l.
Proof.
  intro H. destruct (in_dec string_dec rid l) as [I|I]; auto. apply index_of_None in I. congruence.
Qed.
Lemma filter_NoDup {A B} (f : A -> B) (p : A -> bool) l : NoDup (map f l) -> NoDup (map f (filter p l)).
Proof.
  induction l as [|x l IH]; simpl; auto. intro N. inversion N; subst. destruct (p x); simpl; auto. constructor; auto.
  intro C. apply H1. apply in_map_iff in C. destruct C as (y & E & Hy). apply filter_In in Hy. apply in_map_iff. exists y. tauto.
Qed.
Lemma remove_route_spec nw rid : nw_ok nw ->
  (In rid (nw_ids nw) -> exists nw', remove_route nw rid = (nw', None) /\ nw_ok nw' /\
     nw_routes nw' = filter (fun r => negb (r_id r =? rid)%string) (nw_routes nw) /\
     nw_modes nw' = nw_modes nw /\ nw_graph nw' = nw_graph nw) /\
  (~ In rid (nw_ids nw) -> remove_route nw rid = (nw, Some RouteIdNotFoundException)).
Proof.
  intros [A N]. unfold remove_route. destruct (index_of rid (nw_ids nw)) as [i|] eqn:E.
  - split; [|intro C; apply index_of_In in E; contradiction]. intros _. eexists. split; [reflexivity|].
    rewrite A in E, N. pose proof (pop_filter _ _ _ N E) as F. split; [|cbn; auto].
    unfold nw_ok. cbn. rewrite A, <- pop_map. split; auto. rewrite F. apply filter_NoDup. auto.
  - split; auto. intro C. apply index_of_None in E. contradiction.
Qed.
Lemma add_mode_frame nw m nw' e : add_transport_mode nw m = (nw', e) ->
  nw_routes nw' = nw_routes nw /\ nw_ids nw' = nw_ids nw /\ nw_graph nw' = nw_graph nw /\ (e <> None -> nw' = nw) /\
  (e = None -> nw_modes nw' = nw_modes nw \/ nw_modes nw' = nw_modes nw ++ [m]).
Proof.
  unfold add_transport_mode. destruct (mode_in m (nw_modes nw)).
  - intro H. inversion H; subst. repeat (split; auto); congruence.
  - destruct (let* _ := _ in _) as [[]|e']; intro H; inversion H; subst; cbn; repeat (split; auto); congruence.
Qed.
Lemma add_route_spec nw r nw' e : add_route nw r = (nw', e) ->
  (e <> None -> nw' = nw) /\
  (e = None -> on_arcs (nw_graph nw) (r_ni r) /\ ~ In (r_id r) (nw_ids nw) /\
     nw_routes nw' = nw_routes nw ++ [r] /\ nw_ids nw' = nw_ids nw ++ [r_id r] /\ nw_graph nw' = nw_graph nw /\
     exists nw1, add_transport_mode nw (r_mode r) = (nw1, None) /\ nw_modes nw' = nw_modes nw1).
Proof.
  unfold add_route. pose proof (edges_validator_not_false (nw_graph nw) (r_ni r)) as NF.
  destruct (edges_validator (nw_graph nw) (r_ni r)) as [[]|e'] eqn:Ev; [|congruence|].
  - destruct (smem (r_id r) (nw_ids nw)) eqn:Em.
    + intro H. inversion H; subst. split; auto. congruence.
    + apply smem_nIn in Em. destruct (add_transport_mode nw (r_mode r)) as [nw1 e1] eqn:Ea.
      destruct (add_mode_frame _ _ _ _ Ea) as (F1 & F2 & F3 & F4 & F5). destruct e1 as [e1|].
      * intro H. inversion H; subst. split; [intros _; apply F4; congruence|congruence].
      * intro H. inversion H; subst. split; [congruence|]. intros _. cbn. rewrite F1, F2, F3.
        apply edges_validator_iff in Ev. repeat (split; auto); [tauto|]. exists nw1. auto.
  - intro H. inversion H; subst. split; auto. congruence.
Qed.

(** the removal loop *)
Lemma remove_loop pre suf m fuel nw : nw_ok nw -> nw_routes nw = pre ++ suf -> (length suf < fuel)%nat ->
  exists nw', remove_mode_routes fuel m (length pre) nw = (nw', None) /\ nw_ok nw' /\
    nw_routes nw' = pre ++ skip_filter m suf /\ nw_modes nw' = nw_modes nw /\ nw_graph nw' = nw_graph nw.
Proof.
  revert pre suf nw. induction fuel as [|fuel IH]; intros pre suf nw K E L; [lia|]. cbn [remove_mode_routes].
  rewrite E. destruct suf as [|r suf].
  - rewrite app_nil_r. assert (X : nth_error pre (length pre) = None) by (apply nth_error_None; lia). rewrite X.
    exists nw. simpl. rewrite app_nil_r in *. auto.
  - rewrite nth_error_mid. cbn [skip_filter]. destruct (mode_eqb (r_mode r) m).
    + destruct (remove_route_spec nw (r_id r) K) as [R _].
      destruct R as (nw1 & R1 & K1 & Rt & Rm & Rg).
      { destruct K as [-> _]. rewrite E. rewrite map_app. apply in_or_app. right. simpl. auto. }
      rewrite R1.
      assert (Rt' : nw_routes nw1 = pre ++ suf).
      { rewrite Rt, E. destruct K as [KA KN]. rewrite KA, E, map_app in KN. cbn [map] in KN.
        rewrite filter_app. simpl filter. rewrite String.eqb_refl. simpl.
        assert (G : forall l, ~ In (r_id r) (map r_id l) -> filter (fun x => negb (r_id x =? r_id r)%string) l = l).
        { clear. induction l as [|y l IH]; intro H; simpl; auto. destruct (String.eqb_spec (r_id y) (r_id r)).
          - exfalso. apply H. simpl. auto.
          - simpl. f_equal. apply IH. intro C. apply H. simpl; auto. }
        rewrite !G; auto.
        - apply NoDup_remove_2 in KN. intro C. apply KN. apply in_or_app. auto.
        - apply NoDup_remove_2 in KN. intro C. apply KN. apply in_or_app. auto. }
      destruct suf as [|r2 suf].
      * destruct fuel as [|fuel]; [simpl in L; lia|]. cbn [remove_mode_routes]. rewrite Rt', app_nil_r.
        assert (X : nth_error pre (S (length pre)) = None) by (apply nth_error_None; lia). rewrite X.
        exists nw1. rewrite app_nil_r in *. auto.
      * destruct (IH (pre ++ [r2]) suf nw1) as (nw2 & E2 & K2 & R2 & M2 & G2); auto.
        { rewrite Rt', <- app_assoc. reflexivity. }
        { simpl in L. lia. }
        rewrite app_length in E2. simpl in E2. rewrite Nat.add_1_r in E2. exists nw2. rewrite E2. split; auto. split; auto.
        split; [rewrite R2, <- app_assoc; reflexivity|]. split; congruence.
    + destruct (IH (pre ++ [r]) suf nw) as (nw2 & E2 & K2 & R2 & M2 & G2); auto.
      { rewrite E, <- app_assoc. reflexivity. }
      { simpl in L. lia. }
      rewrite app_length in E2. simpl in E2. rewrite Nat.add_1_r in E2. exists nw2. rewrite E2. split; auto. split; auto.
      split; [rewrite R2, <- app_assoc; reflexivity|]. auto.
Qed.
Lemma remove_transport_mode_spec nw m : nw_ok nw -> exists nw',
  remove_transport_mode nw m = (nw', None) /\ nw_ok nw' /\ nw_routes nw' = skip_filter m (nw_routes nw) /\
  nw_modes nw' = filter (fun x => negb (mode_eqb x m)) (nw_modes nw) /\ nw_graph nw' = nw_graph nw.
Proof.
  intro K. unfold remove_transport_mode.
  destruct (remove_loop [] (nw_routes nw) m (S (length (nw_routes nw)))
    (mkNetwork (nw_graph nw) (nw_routes nw) (nw_ids nw) (filter (fun x => negb (mode_eqb x m)) (nw_modes nw))))
    as (nw' & E & K' & R & M & Gr); auto. exists nw'. auto.
Qed.

Lemma nstep_ok nw o : nw_ok nw -> nw_ok (fst (nstep nw o)).
Proof.
  intro K. destruct o as [r|rid|m|m]; simpl.
  - destruct (add_route nw r) as [nw' e] eqn:E. simpl. destruct (add_route_spec _ _ _ _ E) as [F S].
    destruct e as [e|]; [rewrite F by congruence; auto|].
    destruct (S eq_refl) as (_ & Hid & R & I & _). destruct K as [KA KN]. split.
    + rewrite R, I, KA, map_app. reflexivity.
    + rewrite I. apply NoDup_snoc; auto.
  - destruct (remove_route_spec nw rid K) as [R1 R2]. destruct (in_dec string_dec rid (nw_ids nw)) as [I|I].
    + destruct (R1 I) as (nw' & -> & K' & _). auto.
    + rewrite (R2 I). auto.
  - destruct (add_transport_mode nw m) as [nw' e] eqn:E. simpl.
    destruct (add_mode_frame _ _ _ _ E) as (F1 & F2 & _). unfold nw_ok. rewrite F1, F2. auto.
  - destruct (remove_transport_mode_spec nw m K) as (nw' & -> & K' & _). auto.
Qed.
Lemma nrun_ind (P : network -> Prop) g ops : P (new_network g) -> (forall nw o, nw_ok nw -> P nw -> In o ops -> P (fst (nstep nw o))) ->
  nw_ok (nrun (new_network g) ops) /\ P (nrun (new_network g) ops).
Proof.
  intros H0 HS. unfold nrun.
  assert (G : forall ops' nw, incl ops' ops -> nw_ok nw -> P nw ->
     nw_ok (fold_left (fun nw o => fst (nstep nw o)) ops' nw) /\ P (fold_left (fun nw o => fst (nstep nw o)) ops' nw)).
  { induction ops' as [|o ops' IH]; intros nw I K HP; simpl; auto. apply IH.
    - intros x Hx. apply I. simpl; auto.
    - apply nstep_ok; auto.
    - apply HS; auto. apply I. simpl; auto. }
  apply G; auto; [apply incl_refl|]. split; [reflexivity|constructor].
Qed.
Lemma reach_ok g ops : nw_ok (nrun (new_network g) ops).
Proof. apply (nrun_ind (fun _ => True)); auto. Qed.

Lemma subseq_refl {A} (l : list A) : subseq l l.
Proof. induction l; constructor; auto. Qed.
Lemma subseq_filter {A} (p : A -> bool) l : subseq (filter p l) l.
Proof. induction l as [|x l IH]; simpl; [constructor|]. destruct (p x); constructor; auto. Qed.
Lemma subseq_skip_filter m l : subseq (skip_filter m l) l.
Proof.
  assert (G : forall k l, (length l < k)%nat -> subseq (skip_filter m l) l).
  { clear l. induction k as [|k IH]; intros l L; [lia|]. destruct l as [|r l]; [constructor|]. simpl in L. cbn [skip_filter].
    destruct (mode_eqb (r_mode r) m).
    - destruct l as [|r2 l]; [constructor; constructor|]. constructor. constructor. apply IH. simpl in L. lia.
    - constructor. apply IH. lia. }
  apply (G (S (length l))). lia.
Qed.

Lemma subseq_In {A} (s l : list A) x : subseq s l -> In x s -> In x l.
Proof. induction 1; simpl; tauto. Qed.

(** C23: in every reachable network ids are unique and address the routes *)
Theorem C23_routes_addressable : forall g ops rid,
  let nw := nrun (new_network g) ops in
  NoDup (map r_id (nw_routes nw)) /\
  (forall r, get_route nw rid = Ok r <-> In r (nw_routes nw) /\ r_id r = rid) /\
  ((forall r, In r (nw_routes nw) -> r_id r <> rid) -> get_route nw rid = Err RouteIdNotFoundException).
Proof.
  intros g ops rid nw. destruct (reach_ok g ops) as [A N]. fold nw in A, N. split; [rewrite <- A; auto|].
  unfold get_route. rewrite A. rewrite A in N. clear A. generalize dependent (nw_routes nw). clear nw.
  induction l as [|r l IH]; intro N.
  - simpl. split; [|auto]. intro r. split; [discriminate|]. intros [[] _].
  - cbn [map] in *. inversion N; subst. destruct (IH H2) as [I1 I2]. rewrite index_of_cons.
    destruct (String.eqb_spec (r_id r) rid).
    + split.
      * intro r'. unfold py_nth. simpl. split; [intro E; inversion E; subst; auto|]. intros [[->|Hin] E]; [auto|].
        exfalso. apply H1. rewrite e, <- E. apply in_map. auto.
      * intro C. exfalso. apply (C r); simpl; auto.
    + destruct (index_of rid (map r_id l)) as [k|]; cbn [option_map] in *.
      * split.
        -- intro r'. unfold py_nth. simpl. specialize (I1 r'). unfold py_nth in I1. rewrite I1. split; [tauto|].
           intros [[->|Hin] E]; [congruence|auto].
        -- intro C. unfold py_nth. simpl. apply I2. intros; apply C; simpl; auto.
      * split; [|auto]. intro r'. rewrite I1. simpl. split; [tauto|]. intros [[->|Hin] E]; [congruence|auto].
Qed.
Print Assumptions C23_routes_addressable.
(** insertion order: a successful add appends, a successful removal of a route deletes exactly the
    route of that id, and removing a mode only deletes routes *)
Theorem C23_insertion_order : forall g ops,
  let nw := nrun (new_network g) ops in
  (forall r nw', add_route nw r = (nw', None) -> nw_routes nw' = nw_routes nw ++ [r]) /\
  (forall rid nw', remove_route nw rid = (nw', None) ->
     (exists r, In r (nw_routes nw) /\ r_id r = rid) /\
     nw_routes nw' = filter (fun r => negb (r_id r =? rid)%string) (nw_routes nw)) /\
  (forall m nw' e, add_transport_mode nw m = (nw', e) -> nw_routes nw' = nw_routes nw) /\
  (forall m nw' e, remove_transport_mode nw m = (nw', e) -> e = None /\ subseq (nw_routes nw') (nw_routes nw)).
Proof.
  intros g ops nw. pose proof (reach_ok g ops) as K. fold nw in K. repeat split.
  - intros r nw' H. apply add_route_spec in H. destruct H as [_ H]. apply H. auto.
  - destruct (remove_route_spec nw rid K) as [R1 R2]. destruct (in_dec string_dec rid (nw_ids nw)) as [I|I].
    + destruct K as [KA _]. rewrite KA in I. apply in_map_iff in I. destruct I as (r & E & Hr). eauto.
    + rewrite (R2 I) in H. discriminate.
  - destruct (remove_route_spec nw rid K) as [R1 R2]. destruct (in_dec string_dec rid (nw_ids nw)) as [I|I].
    + destruct (R1 I) as (nw1 & E & _ & F & _). rewrite E in H. inversion H; subst. auto.
    + rewrite (R2 I) in H. discriminate.
  - intros m nw' e H. apply add_mode_frame in H. tauto.
  - destruct (remove_transport_mode_spec nw m K) as (nw1 & E & _ & F & _). congruence.
  - destruct (remove_transport_mode_spec nw m K) as (nw1 & E & _ & F & _). rewrite E in H. inversion H; subst.
    rewrite F. apply subseq_skip_filter.
Qed.
Print Assumptions C23_insertion_order.

(** ** C25 *)
Theorem C25_failures_change_nothing : forall g ops o nw' e,
  nstep (nrun (new_network g) ops) o = (nw', Some e) -> nw' = nrun (new_network g) ops.
Proof.
  intros g ops o nw' e H. pose proof (reach_ok g ops) as K. destruct o as [r|rid|m|m]; simpl in H.
  - apply add_route_spec in H. apply H. congruence.
  - destruct (remove_route_spec (nrun (new_network g) ops) rid K) as [R1 R2].
    destruct (in_dec string_dec rid (nw_ids (nrun (new_network g) ops))) as [I|I].
    + destruct (R1 I) as (nw1 & E & _). congruence.
    + rewrite (R2 I) in H. congruence.
  - apply add_mode_frame in H. apply H. congruence.
  - destruct (remove_transport_mode_spec _ m K) as (nw1 & E & _). congruence.
Qed.
Print Assumptions C25_failures_change_nothing.

(** ** C26 *)
Lemma mode_in_spec m l : mode_in m l = true <-> registered m l.
Proof.
  unfold mode_in, registered, mode_eqb. rewrite existsb_exists. split; intros (x & H & E); exists x; split; auto.
  - apply Z.eqb_eq in E. auto.
  - apply Z.eqb_eq. auto.
Qed.
Lemma list_mode_aux m l : NoDup (map m_ref (m :: l)) -> fold_left (fun l x => if mode_in x l then l else l ++ [x]) l [m] = m :: l.
Proof.
  assert (G : forall l acc, NoDup (map m_ref (acc ++ l)) -> fold_left (fun l x => if mode_in x l then l else l ++ [x]) l acc = acc ++ l).
  { clear. induction l as [|x l IH]; intros acc N; simpl; [rewrite app_nil_r; auto|].
    destruct (mode_in x acc) eqn:E.
    - exfalso. apply mode_in_spec in E. destruct E as (y & Hy & E). rewrite map_app in N. cbn [map] in N.
      apply NoDup_remove_2 in N. apply N. apply in_or_app. left. rewrite <- E. apply in_map. auto.
    - rewrite IH; rewrite <- app_assoc; auto. }
  intro N. apply (G l [m]). auto.
Qed.
Lemma names_fold l : forall acc r, foldM (fun names x => if smem (m_name x) names then Err AddModeExceptions else Ok (names ++ [m_name x])) l acc = Ok r ->
  NoDup acc -> NoDup (acc ++ map m_name l) /\ r = acc ++ map m_name l.
Proof.
  induction l as [|x l IH]; intros acc r H N; simpl in *.
  - inversion H. rewrite app_nil_r. subst; auto.
  - destruct (smem (m_name x) acc) eqn:E; [discriminate|]. cbn [bind] in H. apply smem_nIn in E.
    apply IH in H; [|apply NoDup_snoc; auto]. rewrite <- !app_assoc in H. auto.
Qed.
Lemma names_fold_ok l : forall acc, NoDup (acc ++ map m_name l) ->
  exists r, foldM (fun names x => if smem (m_name x) names then Err AddModeExceptions else Ok (names ++ [m_name x])) l acc = Ok r.
Proof.
  induction l as [|x l IH]; intros acc N; simpl in *; eauto.
  destruct (smem (m_name x) acc) eqn:E.
  - exfalso. apply smem_In in E. apply NoDup_remove_2 in N. apply N. apply in_or_app. auto.
  - cbn [bind]. apply IH. rewrite <- app_assoc. auto.
Qed.
Lemma valid_ds l : is_valid_to_assignment_step (map (fun x => Fin (m_d x)) l) = Ok true <->
  length l = 1%nat \/ (length l = 2%nat /\ exists m, In m l /\ (m_d m == 1)%Q).
Proof.
  rewrite (proj1 (C18_validity_rule _)). rewrite map_length. split; (intros [H|[H X]]; [auto|right; split; auto]).
  - destruct X as (d & q & Hd & -> & Hq). apply in_map_iff in Hd. destruct Hd as (m & E & Hm). inversion E; subst. eauto.
  - destruct X as (m & Hm & Hq). exists (Fin (m_d m)), (m_d m). split; [|auto]. apply in_map_iff. eauto.
Qed.
Lemma NoDup_rotate {A} (x : A) l : NoDup (x :: l) <-> NoDup (l ++ [x]).
Proof.
  split; intro H.
  - inversion H; subst. apply NoDup_snoc; auto.
  - apply NoDup_remove in H. rewrite app_nil_r in H. constructor; tauto.
Qed.
(** acceptance of a new mode *)
Lemma add_transport_mode_iff nw m : NoDup (map m_ref (nw_modes nw)) ->
  (exists nw', add_transport_mode nw m = (nw', None)) <-> registered m (nw_modes nw) \/ modes_ok (nw_modes nw ++ [m]).
Proof.
  intro N. unfold add_transport_mode. destruct (mode_in m (nw_modes nw)) eqn:Em.
  - apply mode_in_spec in Em. split; eauto.
  - assert (Nm : ~ registered m (nw_modes nw)) by (intro C; apply mode_in_spec in C; congruence).
    assert (N2 : NoDup (map m_ref (m :: nw_modes nw))).
    { cbn. constructor; auto. intro C. apply in_map_iff in C. destruct C as (y & E & Hy). apply Nm. exists y. auto. }
    rewrite list_mode_aux by auto. split.
    + intros [nw' H]. right. destruct (foldM _ (m :: nw_modes nw) []) as [names|] eqn:Ef; [|cbn in H; discriminate].
      cbn [bind] in H. apply names_fold in Ef; [|constructor]. destruct Ef as [Nn _]. cbn [app map] in Nn.
      destruct (is_valid_to_assignment_step _) as [[]|] eqn:Ev; [|discriminate|discriminate].
      apply valid_ds in Ev. unfold modes_ok. rewrite !map_app, app_length. cbn [map length]. split.
      { apply NoDup_rotate. auto. } split; [apply NoDup_rotate; auto|]. cbn [length] in Ev. split; [lia|].
      intro L. destruct Ev as [Ev|[_ (x & Hx & Hd)]]; [lia|]. exists x. split; auto. apply in_or_app. simpl in *. tauto.
    + intros [C|(M1 & M2 & M3 & M4)]; [contradiction|].
      destruct (names_fold_ok (m :: nw_modes nw) []) as [r Er].
      { cbn [app map]. apply NoDup_rotate. rewrite map_app in M2. auto. }
      rewrite Er. cbn [bind].
      assert (V : is_valid_to_assignment_step (map (fun x => Fin (m_d x)) (m :: nw_modes nw)) = Ok true).
      { apply valid_ds. rewrite app_length in *. cbn [length] in *. destruct (Nat.eq_dec (length (nw_modes nw)) 0); [lia|].
        right. split; [lia|]. destruct M4 as (x & Hx & Hd); [lia|]. exists x. split; auto. apply in_app_or in Hx. simpl in *. tauto. }
      rewrite V. eauto.
Qed.
Lemma add_mode_modes nw m nw' : NoDup (map m_ref (nw_modes nw)) -> add_transport_mode nw m = (nw', None) ->
  (registered m (nw_modes nw) /\ nw_modes nw' = nw_modes nw) \/ (modes_ok (nw_modes nw ++ [m]) /\ nw_modes nw' = nw_modes nw ++ [m]).
Proof.
  intros N H. destruct (mode_in m (nw_modes nw)) eqn:Em.
  - left. unfold add_transport_mode in H. rewrite Em in H. inversion H; subst. split; auto. apply mode_in_spec. auto.
  - right. assert (A : registered m (nw_modes nw) \/ modes_ok (nw_modes nw ++ [m])) by (apply add_transport_mode_iff; eauto).
    destruct A as [A|A]; [apply mode_in_spec in A; congruence|]. split; auto.
    unfold add_transport_mode in H. rewrite Em in H. destruct (let* _ := _ in _) as [[]|]; inversion H; subst. reflexivity.
Qed.
Lemma modes_ok_filter p l : modes_ok l -> modes_ok (filter p l).
Proof.
  intros (M1 & M2 & M3 & M4). split; [apply filter_NoDup; auto|]. split; [apply filter_NoDup; auto|].
  assert (L : (length (filter p l) <= length l)%nat).
  { clear. induction l as [|x l IH]; simpl; auto. destruct (p x); simpl; lia. }
  split; [lia|]. intro E. destruct M4 as (m & Hm & Hd); [lia|]. exists m. split; auto. apply filter_In. split; auto.
  destruct l as [|a [|b [|c l]]]; simpl in *; try lia. destruct (p a) eqn:Ea, (p b) eqn:Eb; simpl in E; try lia.
  destruct Hm as [<-|[<-|[]]]; auto.
Qed.
(** C26: at most two modes, two only if one has d = 1, through every history; a mode is accepted
    exactly when the result is such a set (or the mode is already there) *)
Theorem C26_modes_rule : forall g ops,
  let nw := nrun (new_network g) ops in
  modes_ok (nw_modes nw) /\
  forall m, (exists nw', add_transport_mode nw m = (nw', None)) <-> registered m (nw_modes nw) \/ modes_ok (nw_modes nw ++ [m]).
Proof.
  intros g ops nw. assert (M : modes_ok (nw_modes nw)).
  { apply (nrun_ind (fun nw => modes_ok (nw_modes nw)) g ops).
    - repeat split; simpl; try constructor; try lia.
    - clear. intros nw o K M _. assert (AM : forall m nw1, add_transport_mode nw m = (nw1, None) -> modes_ok (nw_modes nw1)).
      { intros m nw1 H. destruct (add_mode_modes _ _ _ (proj1 M) H) as [[_ ->]|[A ->]]; auto. }
      destruct o as [r|rid|m|m]; simpl.
      + destruct (add_route nw r) as [nw' [e|]] eqn:E; destruct (add_route_spec _ _ _ _ E) as [F S]; simpl.
        * rewrite F by congruence. auto.
        * destruct (S eq_refl) as (_ & _ & _ & _ & _ & nw1 & A & ->). eauto.
      + destruct (remove_route_spec nw rid K) as [R1 R2]. destruct (in_dec string_dec rid (nw_ids nw)) as [I|I].
        * destruct (R1 I) as (nw' & -> & _ & _ & Em & _). simpl. rewrite Em. auto.
        * rewrite (R2 I). auto.
      + destruct (add_transport_mode nw m) as [nw' [e|]] eqn:E; simpl; [|eauto].
        destruct (add_mode_frame _ _ _ _ E) as (_ & _ & _ & F & _). rewrite F by congruence. auto.
      + destruct (remove_transport_mode_spec nw m K) as (nw' & -> & _ & _ & Em & _). cbn [fst]. rewrite Em. apply modes_ok_filter. auto. }
  split; auto. intro m. apply add_transport_mode_iff. apply M.
Qed.
Print Assumptions C26_modes_rule.
(** without remove_transport_mode every route's mode stays registered *)
Theorem C26_route_modes_registered : forall g ops r,
  (forall m, ~ In (NRemoveMode m) ops) ->
  let nw := nrun (new_network g) ops in
  In r (nw_routes nw) -> registered (r_mode r) (nw_modes nw).
Proof.
  intros g ops r NR nw. revert r.
  apply (nrun_ind (fun nw => NoDup (map m_ref (nw_modes nw)) /\ forall r, In r (nw_routes nw) -> registered (r_mode r) (nw_modes nw)) g ops).
  - split; [constructor|intros r []].
  - intros nw' o K [N H] Ho.
    assert (AM : forall m nw1, add_transport_mode nw' m = (nw1, None) ->
      NoDup (map m_ref (nw_modes nw1)) /\ registered m (nw_modes nw1) /\ forall x, registered x (nw_modes nw') -> registered x (nw_modes nw1)).
    { intros m nw1 A. destruct (add_mode_modes _ _ _ N A) as [[R ->]|[M ->]]; auto. split; [apply M|]. split.
      - exists m. split; auto. apply in_or_app. simpl; auto.
      - intros x (y & Hy & E). exists y. split; auto. apply in_or_app. auto. }
    destruct o as [r|rid|m|m]; simpl.
    + destruct (add_route nw' r) as [nw2 [e|]] eqn:E; destruct (add_route_spec _ _ _ _ E) as [F S]; simpl.
      * rewrite F by congruence. auto.
      * destruct (S eq_refl) as (_ & _ & R & _ & _ & nw1 & A & ->). destruct (AM _ _ A) as (A1 & A2 & A3).
        split; auto. rewrite R. intros x Hx. apply in_app_or in Hx. destruct Hx as [Hx|[<-|[]]]; auto.
    + destruct (remove_route_spec nw' rid K) as [R1 R2]. destruct (in_dec string_dec rid (nw_ids nw')) as [I|I].
      * destruct (R1 I) as (nw2 & -> & _ & Er & Em & _). simpl. rewrite Em, Er. split; auto.
        intros x Hx. apply filter_In in Hx. apply H. tauto.
      * rewrite (R2 I). auto.
    + destruct (add_transport_mode nw' m) as [nw2 [e|]] eqn:E; simpl;
        destruct (add_mode_frame _ _ _ _ E) as (Fr & _ & _ & F & _).
      * rewrite F by congruence. auto.
      * destruct (AM _ _ E) as (A1 & A2 & A3). split; auto. rewrite Fr. auto.
    + exfalso. eapply NR; eauto.
Qed.
Print Assumptions C26_route_modes_registered.
(** the exact effect of remove_transport_mode: the mode goes, and of its routes those not directly
    preceded by a removed one *)
Theorem C26_remove_mode_effect : forall g ops m,
  let nw := nrun (new_network g) ops in
  exists nw', remove_transport_mode nw m = (nw', None) /\
    nw_modes nw' = filter (fun x => negb (mode_eqb x m)) (nw_modes nw) /\
    nw_routes nw' = skip_filter m (nw_routes nw).
Proof.
  intros g ops m nw. destruct (remove_transport_mode_spec nw m (reach_ok g ops)) as (nw' & E & _ & R & M & _). eauto.
Qed.
Print Assumptions C26_remove_mode_effect.
(** the routes of the other modes stay, in order; the mode goes and no other does *)
Theorem C26_remove_mode_keeps_others : forall g ops m nw',
  remove_transport_mode (nrun (new_network g) ops) m = (nw', None) ->
  filter (fun r => negb (m_ref (r_mode r) =? m_ref m)) (nw_routes nw') = filter (fun r => negb (m_ref (r_mode r) =? m_ref m)) (nw_routes (nrun (new_network g) ops)) /\
  subseq (nw_routes nw') (nw_routes (nrun (new_network g) ops)) /\ ~ registered m (nw_modes nw') /\
  forall m', m_ref m' <> m_ref m -> (In m' (nw_modes nw') <-> In m' (nw_modes (nrun (new_network g) ops))).
Proof.
  intros g ops m nw' H. destruct (C26_remove_mode_effect g ops m) as (nw2 & E & M & R). rewrite H in E. inversion E; subst nw2. clear E.
  split; [|split; [eapply (C23_insertion_order g ops); eauto|split]].
  - rewrite R. generalize (nw_routes (nrun (new_network g) ops)). intro l. assert (G : forall n l, (length l < n)%nat ->
      filter (fun r => negb (m_ref (r_mode r) =? m_ref m)) (skip_filter m l) = filter (fun r => negb (m_ref (r_mode r) =? m_ref m)) l).
    { induction n as [|n IH]; intros l' L; [lia|]. destruct l' as [|r t]; auto. cbn [skip_filter filter]. unfold mode_eqb. simpl in L.
      destruct (m_ref (r_mode r) =? m_ref m) eqn:Er; cbn [negb].
      - destruct t as [|r2 t2]; auto. cbn [filter]. rewrite IH by (simpl in L; lia). auto.
      - cbn [filter]. rewrite Er. cbn [negb]. rewrite IH by lia. auto. }
    apply (G (S (length l))); auto.
  - rewrite M. intros (m' & Hm & Er). apply filter_In in Hm. destruct Hm as [_ Hm]. unfold mode_eqb in Hm. rewrite Er, Z.eqb_refl in Hm. discriminate.
  - intros m' N. rewrite M, filter_In. unfold mode_eqb. destruct (Z.eqb_spec (m_ref m') (m_ref m)); [contradiction|]. tauto.
Qed.
Print Assumptions C26_remove_mode_keeps_others.
(** the documented effect holds when no two routes of the mode are neighbours in the list *)
Theorem C26_remove_mode_removes_separated_routes : forall g ops m,
  let nw := nrun (new_network g) ops in
  (forall l1 a b l2, nw_routes nw = l1 ++ a :: b :: l2 -> m_ref (r_mode a) = m_ref m -> m_ref (r_mode b) <> m_ref m) ->
  exists nw', remove_transport_mode nw m = (nw', None) /\
    nw_routes nw' = filter (fun r => negb (m_ref (r_mode r) =? m_ref m)) (nw_routes nw).
Proof.
  intros g ops m nw H. destruct (remove_transport_mode_spec nw m (reach_ok g ops)) as (nw' & E & _ & R & M & _).
  exists nw'. split; auto. rewrite R. revert H. generalize (nw_routes nw). clear.
  intro l. assert (G : forall k l, (length l < k)%nat -> (forall l1 a b l2, l = l1 ++ a :: b :: l2 -> m_ref (r_mode a) = m_ref m -> m_ref (r_mode b) <> m_ref m) ->
    skip_filter m l = filter (fun r => negb (m_ref (r_mode r) =? m_ref m)) l).
  { clear l. induction k as [|k IH]; intros l L H; [lia|]. destruct l as [|r l]; auto. cbn [skip_filter filter]. simpl in L. unfold mode_eqb.
    destruct (Z.eqb_spec (m_ref (r_mode r)) (m_ref m)); cbn [negb].
    - destruct l as [|r2 l]; auto. cbn [filter]. assert (N : m_ref (r_mode r2) <> m_ref m) by (apply (H [] r r2 l); auto).
      destruct (Z.eqb_spec (m_ref (r_mode r2)) (m_ref m)); [contradiction|]. cbn [negb]. f_equal.
      apply IH; [simpl in L; lia|]. intros l1 a b l2 E. apply (H (r :: r2 :: l1) a b l2). rewrite E. reflexivity.
    - f_equal. apply IH; [lia|]. intros l1 a b l2 E. apply (H (r :: l1) a b l2). rewrite E. reflexivity. }
  intro H. apply (G (S (length l))); auto.
Qed.
Print Assumptions C26_remove_mode_removes_separated_routes.

(** ** C24 *)
Theorem C24_forward_on_arcs : forall g ops r,
  let nw := nrun (new_network g) ops in
  nw_graph nw = g /\ (In r (nw_routes nw) -> on_arcs g (r_ni r)).
Proof.
  intros g ops r nw. enough (A : nw_graph nw = g /\ forall r, In r (nw_routes nw) -> on_arcs g (r_ni r)) by (split; [apply A|apply A]).
  clear r. apply (nrun_ind (fun nw => nw_graph nw = g /\ forall r, In r (nw_routes nw) -> on_arcs g (r_ni r)) g ops).
  - split; [reflexivity|intros r []].
  - intros nw' o K [Gr H] Ho. destruct o as [r|rid|m|m]; simpl.
    + destruct (add_route nw' r) as [nw2 [e|]] eqn:E; destruct (add_route_spec _ _ _ _ E) as [F S]; simpl.
      * rewrite F by congruence. auto.
      * destruct (S eq_refl) as (A & _ & R & _ & G2 & _). rewrite R, G2. split; auto.
        intros x Hx. apply in_app_or in Hx. destruct Hx as [Hx|[<-|[]]]; auto. rewrite <- Gr. auto.
    + destruct (remove_route_spec nw' rid K) as [R1 R2]. destruct (in_dec string_dec rid (nw_ids nw')) as [I|I].
      * destruct (R1 I) as (nw2 & -> & _ & Er & Em & G2). simpl. rewrite Er, G2. split; auto.
        intros x Hx. apply filter_In in Hx. apply H. tauto.
      * rewrite (R2 I). auto.
    + destruct (add_transport_mode nw' m) as [nw2 e] eqn:E; simpl. destruct (add_mode_frame _ _ _ _ E) as (Fr & _ & G2 & _).
      rewrite Fr, G2. auto.
    + destruct (remove_transport_mode_spec nw' m K) as (nw2 & -> & _ & Er & _ & G2). simpl. rewrite Er, G2. split; auto.
      intros x Hx. apply H. eapply subseq_In; [apply subseq_skip_filter|exact Hx].
Qed.
Print Assumptions C24_forward_on_arcs.
(** acceptance rule of add_route on reachable networks: only the forward direction is looked at *)
Theorem C24_add_route_accepts_iff : forall g ops r,
  let nw := nrun (new_network g) ops in
  (exists nw', add_route nw r = (nw', None)) <->
  on_arcs g (r_ni r) /\ (forall x, In x (nw_routes nw) -> r_id x <> r_id r) /\
  (registered (r_mode r) (nw_modes nw) \/ modes_ok (nw_modes nw ++ [r_mode r])).
Proof.
  intros g ops r nw. destruct (C24_forward_on_arcs g ops r) as [Gr _]. fold nw in Gr.
  pose proof (reach_ok g ops) as [KA KN]. fold nw in KA, KN. destruct (C26_modes_rule g ops) as [M MI]. fold nw in M, MI.
  rewrite <- (MI (r_mode r)). split.
  - intros [nw' H]. apply add_route_spec in H. destruct H as [_ H]. destruct (H eq_refl) as (A & I & _ & _ & _ & nw1 & E & _).
    rewrite Gr in A. split; auto. split; [|eauto]. intros x Hx C. apply I. rewrite KA, <- C. apply in_map. auto.
  - intros (A & I & nw1 & E). unfold add_route. rewrite Gr.
    assert (V : edges_validator g (r_ni r) = Ok true) by (apply edges_validator_iff; auto). rewrite V.
    assert (Em : smem (r_id r) (nw_ids nw) = false).
    { apply smem_nIn. rewrite KA. intro C. apply in_map_iff in C. destruct C as (x & E1 & Hx). eapply I; eauto. }
    rewrite Em, E. eauto.
Qed.
Print Assumptions C24_add_route_accepts_iff.

Definition ex_g : graph := match build_from_parameters ex_geo (ex_params_sym 4) with Ok C => c_graph C | Err _ => empty_graph end.
Definition mk (id : string) (m : mode) (ni nr : list Z) : route := mkRoute id m ni nr ni nr CUSTOM.
(** a custom route whose return direction jumps from the CBD to a periphery *)
Theorem C24_return_direction_unchecked_refuted : exists G P C m r nw',
  build_from_parameters G P = Ok C /\
  new_route (Some "x"%string) (Some m) (Some "1,2,0"%string) (Some "0,1"%string) (Some "1,2,0"%string) (Some "0,1"%string) CUSTOM = Ok r /\
  add_route (new_network (c_graph C)) r = (nw', None) /\ In r (nw_routes nw') /\ ~ on_arcs (c_graph C) (r_nr r).
Proof.
  exists ex_geo, (ex_params_sym 4). eexists. exists ex_bus. do 2 eexists.
  split; [vm_compute; reflexivity|]. split; [vm_compute; reflexivity|]. split; [vm_compute; reflexivity|].
  split; [left; reflexivity|]. cbn [r_nr]. intro H.
  specialize (H 0 1). assert (C : consecutive [0; 1] 0 1) by (exists [], []; reflexivity). specialize (H C).
  vm_compute in H. discriminate.
Qed.
Print Assumptions C24_return_direction_unchecked_refuted.
Example C23_ex : let nw := nrun (new_network ex_g) [NAddRoute (mk "a" ex_bus [1;2;0] [0;2;1]); NAddRoute (mk "b" ex_metro [3;4] [4;3]);
    NAddRoute (mk "a" ex_bus [5;6] [6;5]); NAddRoute (mk "c" ex_bus [5;3] [3;5]); NAddMode ex_tram; NRemoveRoute "z"; NRemoveRoute "a"] in
  map r_id (nw_routes nw) = ["b"]%string /\ map m_name (nw_modes nw) = ["bus"; "metro"]%string.
Proof. vm_compute. auto. Qed.
Example C25_ex : exists nw', nstep (nrun (new_network ex_g) [NAddRoute (mk "a" ex_bus [1;2;0] [0;2;1])])
  (NAddRoute (mk "a" ex_metro [1;2] [2;1])) = (nw', Some RouteIdDuplicatedException).
Proof. vm_compute. eauto. Qed.
(** a mode is removed but a route of it stays *)
Theorem C26_remove_mode_skips_routes_refuted : exists G P C ops m r,
  build_from_parameters G P = Ok C /\
  let nw := nrun (new_network (c_graph C)) ops in
  exists nw', remove_transport_mode nw m = (nw', None) /\ In r (nw_routes nw') /\ m_ref (r_mode r) = m_ref m /\ nw_modes nw' = [].
Proof.
  exists ex_geo, (ex_params_sym 4). eexists.
  exists [NAddRoute (mk "a" ex_bus [1;2;0] [0;2;1]); NAddRoute (mk "b" ex_bus [3;4] [4;3])], ex_bus, (mk "b" ex_bus [3;4] [4;3]).
  split; [vm_compute; reflexivity|]. cbv zeta. eexists. split; [vm_compute; reflexivity|]. vm_compute. auto.
Qed.
Print Assumptions C26_remove_mode_skips_routes_refuted.
Example C26_ex : forall l1 a b l2,
  nw_routes (nrun (new_network ex_g) [NAddRoute (mk "a" ex_bus [1;2;0] [0;2;1]); NAddRoute (mk "b" ex_metro [3;4] [4;3]); NAddRoute (mk "c" ex_bus [3;4] [4;3])])
    = l1 ++ a :: b :: l2 -> m_ref (r_mode a) = m_ref ex_bus -> m_ref (r_mode b) <> m_ref ex_bus.
Proof.
  intros l1 a b l2. vm_compute. intros H Ha Hb. destruct l1 as [|x [|y [|z [|]]]]; inversion H; subst; discriminate.
Qed.
