(** * Props_Graph: the properties C01-C06 of parametric cities *)
From Coq Require Import String List ZArith QArith Bool Lia Lqa.
From Verif Require Import PyBase PyFacts PyStr Graph GraphSpec GraphProofs GeoEx.
Import ListNotations.
Local Open Scope Q_scope.

(** An asymmetric four-zone city used by the examples. *)
Definition ex_params : params :=
  mkParams 4 10 (1#2) 2 (Some (1#2)) (Some 2%Z) (Some [0; 90; 180; 270])
    (Some [1; 2; 1; 1]) (Some [1; 1; 3#2; 1]).
Definition ex_params_sym (n : Z) : params := mkParams n 10 (1#2) 2 None None None None None.
Example ex_params_built : exists C, build_from_parameters ex_geo ex_params = Ok C
  /\ length (g_edges (c_graph C)) = 24%nat.
Proof. vm_compute. eexists. split; reflexivity. Qed.

(** C05: the validator accepts exactly the documented domain, and building succeeds exactly there. *)
Theorem C05_validator_accepts_iff_documented : forall P,
  parameters_validator P = Ok true <-> valid_params P.
Proof. intro P. rewrite validator_iff. tauto. Qed.
Print Assumptions C05_validator_accepts_iff_documented.

(** the validator never answers False: it returns True or raises *)
Theorem C05_validator_true_or_raises : forall P b, parameters_validator P = Ok b -> b = true.
Proof. intros P b H. apply validator_iff in H. tauto. Qed.
Print Assumptions C05_validator_true_or_raises.

Theorem C05_build_succeeds_iff_documented : forall G P,
  (exists C, build_from_parameters G P = Ok C) <-> valid_params P.
Proof.
  intros G P. split.
  - intros [C H]. exact (build_valid _ _ _ H).
  - intro V. destruct (build_city G P V) as (g & _ & _ & _ & E & _). eauto.
Qed.
Print Assumptions C05_build_succeeds_iff_documented.

(** the exception is that of the first violated condition, in the documented order *)
Lemma fv_cond (c : Prop) e l e' : (c \/ ~ c) ->
  (first_violated ((c, e) :: l) e' <-> (~ c /\ e' = e) \/ (c /\ first_violated l e')).
Proof.
  intros D. split.
  - intro H. inversion H; subst; auto.
  - intros [[N ->]|[Y H]]; [apply fv_here|apply fv_later]; auto.
Qed.
Lemma fv_raise (c : Prop) e b l (k : res bool) e' : (b = false <-> c) -> (k = Err e' <-> first_violated l e') ->
  (raise_if b e k = Err e' <-> first_violated ((c, e) :: l) e').
Proof.
  intros Hb Hk. unfold raise_if. destruct b.
  - assert (N : ~ c) by (intro Y; apply Hb in Y; discriminate). rewrite fv_cond by auto. split.
    + intro H. left. split; [auto|congruence].
    + intros [[_ ->]|[Y _]]; [reflexivity|tauto].
  - assert (Y : c) by (apply Hb; reflexivity). rewrite fv_cond by auto. rewrite Hk. tauto.
Qed.
Theorem C05_first_error : forall P e,
  parameters_validator P = Err e <-> first_violated (param_conditions P) e.
Proof.
  intros P e. unfold parameters_validator, param_conditions. cbv zeta.
  assert (TOP : (Ok true = Err e :> res bool) <-> first_violated [] e).
  { split; intro H; inversion H. }
  assert (OPT : forall (o : option (list Q)) (bad : Q -> bool) (ok : Q -> Prop) e1 e2 (k : res bool) l,
     (forall x, bad x = false <-> ok x) -> (k = Err e <-> first_violated l e) ->
     ((let* _ := match o with
       | None => Ok tt
       | Some a => raise_if (negb (Z.of_nat (length a) =? p_n P)%Z) e1 (raise_if (existsb bad a) e2 (Ok tt)) end in k) = Err e
     <-> first_violated ((forall a, o = Some a -> Z.of_nat (length a) = p_n P, e1) ::
                         (forall a x, o = Some a -> In x a -> ok x, e2) :: l) e)).
  { intros o bad ok e1 e2 k l Hb Hk. destruct o as [a|].
    - assert (E : (let* _ := raise_if (negb (Z.of_nat (length a) =? p_n P)%Z) e1 (raise_if (existsb bad a) e2 (Ok tt)) in k) =
                  raise_if (negb (Z.of_nat (length a) =? p_n P)%Z) e1 (raise_if (existsb bad a) e2 k)).
      { unfold raise_if. destruct (negb _); [reflexivity|]. destruct (existsb _ _); reflexivity. }
      rewrite E. apply fv_raise; [|apply fv_raise; [|exact Hk]].
      + rewrite Bool.negb_false_iff, Z.eqb_eq. split; [intros H a' [= <-]; auto|intro H; apply H; auto].
      + split.
        * intros H a' x [= <-] I. apply Hb. destruct (bad x) eqn:B; auto.
          assert (existsb bad a = true) by (apply existsb_exists; eauto). congruence.
        * intro H. destruct (existsb bad a) eqn:B; auto. apply existsb_exists in B. destruct B as (x & I & B).
          specialize (H a x eq_refl I). apply Hb in H. congruence.
    - simpl. rewrite fv_cond by (left; intros; discriminate). rewrite fv_cond by (left; intros; discriminate).
      rewrite Hk. split.
      + intro H. right. split; [intros; discriminate|]. right. split; [intros; discriminate|auto].
      + intros [[N _]|[_ [[N _]|[_ H]]]]; auto; exfalso; apply N; intros; discriminate. }
  apply fv_raise; [rewrite Z.ltb_ge; tauto|].
  apply fv_raise; [rewrite Qltb_ge; tauto|].
  apply fv_raise; [rewrite Qltb_ge; tauto|].
  apply fv_raise; [rewrite Qltb_ge; tauto|].
  match goal with |- (bind _ (fun _ => ?k) = _) <-> first_violated (_ :: _ :: _ :: _ :: ?l) e =>
    assert (R : k = Err e <-> first_violated l e) end.
  { apply OPT; [intro x; unfold in_range; rewrite Bool.orb_false_iff, !Qltb_ge; tauto|].
    apply OPT; [intro x; rewrite Qltb_ge; tauto|].
    apply OPT; [intro x; rewrite Qltb_ge; tauto|]. exact TOP. }
  match type of R with _ <-> first_violated ?l e => set (tl := l) in * end. clearbody tl.
  match type of R with ?k = _ <-> _ => set (kk := k) in * end. clearbody kk. clear OPT TOP.
  destruct (p_etha P) as [x|]; destruct (p_etha_zone P) as [z|].
  - rewrite fv_cond by (left; intro; discriminate). rewrite fv_cond by (left; intro; discriminate).
    assert (D1 : (forall e0, Some x = Some e0 -> in_range 0 1 e0) <-> (Qltb x 0 || Qltb 1 x)%bool = false).
    { rewrite Bool.orb_false_iff, !Qltb_ge. unfold in_range. split; [intro H; apply H; auto|intros H e0 [= <-]; auto]. }
    assert (D2 : (forall e0, Some z = Some e0 -> (1 <= e0 <= p_n P)%Z) <-> ((z <=? 0)%Z || (p_n P <? z)%Z)%bool = false).
    { rewrite Bool.orb_false_iff, Z.leb_gt, Z.ltb_ge. split; [intro H; specialize (H z eq_refl); lia|intros H e0 [= <-]; lia]. }
    assert (E : (let* _ := (if (Qltb x 0 || Qltb 1 x)%bool then Err EthaValueIsNotValidException
        else if ((z <=? 0)%Z || (p_n P <? z)%Z)%bool then Err EthaZoneValueIsNotValidException else Ok tt) in kk) =
        raise_if (Qltb x 0 || Qltb 1 x)%bool EthaValueIsNotValidException
          (raise_if ((z <=? 0)%Z || (p_n P <? z)%Z)%bool EthaZoneValueIsNotValidException kk)).
    { unfold raise_if. destruct (_ || _)%bool; [reflexivity|]. destruct (_ || _)%bool; reflexivity. }
    rewrite E. rewrite (fv_raise _ EthaValueIsNotValidException _ _ _ e (iff_sym D1) (fv_raise _ EthaZoneValueIsNotValidException _ _ _ e (iff_sym D2) R)).
    split.
    + intro H. right. split; [intro; discriminate|]. right. split; [intro; discriminate|exact H].
    + intros [[N _]|[_ [[N _]|[_ H]]]]; auto; exfalso; apply N; intro; discriminate.
  - simpl. rewrite fv_cond by (left; intro; discriminate).
    rewrite fv_cond by (right; intro H; specialize (H eq_refl); discriminate).
    split.
    + intros [= <-]. right. split; [intro; discriminate|]. left. split; [intro H; specialize (H eq_refl); discriminate|auto].
    + intros [[N _]|[_ [[_ ->]|[H _]]]]; auto; [exfalso; apply N; intro; discriminate|specialize (H eq_refl); discriminate].
  - simpl. rewrite fv_cond by (right; intro H; specialize (H eq_refl); discriminate).
    split.
    + intros [= <-]. left. split; [intro H; specialize (H eq_refl); discriminate|auto].
    + intros [[_ ->]|[H _]]; auto. specialize (H eq_refl); discriminate.
  - simpl. rewrite !fv_cond by (left; first [reflexivity | intros; discriminate | intro; reflexivity]).
    rewrite R. split.
    + intro H. repeat (right; split; [first [intros; discriminate|intro; reflexivity]|]). exact H.
    + intros [[N _]|[_ [[N _]|[_ [[N _]|[_ [[N _]|[_ H]]]]]]]]; auto; exfalso; apply N; first [intros; discriminate|intro; reflexivity].
Qed.
Print Assumptions C05_first_error.
Example C05_first_error_ex :
  first_violated (param_conditions (mkParams 2 10 1 1 None None (Some [0; 400]) (Some [1]) None)) AngleValueIsNotValidException.
Proof. apply C05_first_error. vm_compute. reflexivity. Qed.
Example C05_example : valid_params ex_params /\ ~ valid_params (ex_params_sym (-1)).
Proof.
  split.
  - apply C05_validator_accepts_iff_documented. vm_compute. reflexivity.
  - intros (H & _). simpl in H. lia.
Qed.

(** C01: nodes and zones of a built city. *)
Theorem C01_nodes_and_zones : forall G P C, build_from_parameters G P = Ok C ->
  let g := c_graph C in
  length (g_nodes g) = (1 + 2 * Z.to_nat (p_n P))%nat /\
  length (g_zones g) = Z.to_nat (p_n P) /\
  map nd_id (g_nodes g) = map Z.of_nat (seq 0 (1 + 2 * Z.to_nat (p_n P))) /\
  (exists c, nth_error (g_nodes g) 0 = Some c /\ nd_kind c = CBD /\ nd_id c = 0%Z /\ nd_zone c = 0%Z /\
     nd_name c = "CBD"%string /\ nd_width c == p_p P) /\
  (forall z, (1 <= z <= p_n P)%Z ->
     exists p sc zo,
       nth_error (g_nodes g) (Z.to_nat (2 * z - 1)) = Some p /\
       nth_error (g_nodes g) (Z.to_nat (2 * z)) = Some sc /\
       nth_error (g_zones g) (Z.to_nat (z - 1)) = Some zo /\
       z_id zo = z /\ z_p zo = Z.to_nat (2 * z - 1) /\ z_sc zo = Z.to_nat (2 * z) /\
       nd_kind p = Periphery /\ nd_id p = pid z /\ nd_zone p = z /\
       nd_name p = String.append "P_" (str_of_Z z) /\ nd_width p == p_p P /\
       nd_kind sc = Subcenter /\ nd_id sc = scid z /\ nd_zone sc = z /\
       nd_name sc = String.append "SC_" (str_of_Z z) /\ nd_width sc == p_p P).
Proof.
  intros G P C H g. destruct (city_facts _ _ _ H) as (V & _ & c & Pf & Sf & Sh & HC & HP & HS).
  assert (L : length (g_nodes g) = (1 + 2 * Z.to_nat (p_n P))%nat).
  { unfold g. rewrite (sh_nodes _ _ _ _ _ Sh). apply city_nodes_length. }
  split; [exact L|]. split.
  { unfold g. rewrite (sh_zones _ _ _ _ _ Sh). apply city_zones_length. }
  split.
  { apply nth_error_ext. intro k.
    destruct (nth_error (g_nodes g) k) as [nd|] eqn:E.
    - rewrite (map_nth_error nd_id _ _ E).
      assert (k < length (g_nodes g))%nat by (apply nth_error_Some; congruence).
      assert (E2 : nth_error (seq 0 (1 + 2 * Z.to_nat (p_n P))) k = Some k).
      { rewrite nth_error_nth' with (d := 0%nat) by (rewrite seq_length; lia). rewrite seq_nth; auto. lia. }
      rewrite (map_nth_error Z.of_nat _ _ E2). f_equal. exact (city_id_ref _ _ _ _ _ H E).
    - apply nth_error_None in E.
      transitivity (@None Z).
      + apply nth_error_None. rewrite map_length. lia.
      + symmetry. apply nth_error_None. rewrite map_length, seq_length. lia. }
  split.
  { exists c. unfold g. rewrite (sh_nodes _ _ _ _ _ Sh). destruct HC as (?&?&?&?&?&_). simpl. repeat split; auto. }
  intros z Hz. set (i := Z.to_nat (z - 1)).
  assert (Zi : (Z.of_nat i + 1 = z)%Z) by lia.
  assert (Hi : (i < Z.to_nat (p_n P))%nat) by lia.
  exists (Pf i), (Sf i), (mkZone (Z.of_nat i + 1) (PZ i) (SZ i)).
  assert (E1 : Z.to_nat (2 * z - 1) = PZ i) by (unfold PZ; lia).
  assert (E2 : Z.to_nat (2 * z) = SZ i) by (unfold SZ; lia).
  rewrite E1, E2. unfold g.
  rewrite (sh_nodes _ _ _ _ _ Sh), (sh_zones _ _ _ _ _ Sh), city_nodes_P, city_nodes_S, city_zones_nth by auto.
  pose proof (HP i) as (?&?&?&?&?&_). pose proof (HS i) as (?&?&?&?&?&_).
  rewrite Zi in *. unfold pid, scid. cbn [z_id z_p z_sc].
  repeat split; auto; lia.
Qed.
Print Assumptions C01_nodes_and_zones.

Theorem C01_ids_distinct : forall G P C, build_from_parameters G P = Ok C ->
  NoDup (map nd_id (g_nodes (c_graph C))).
Proof.
  intros G P C H. destruct (C01_nodes_and_zones _ _ _ H) as (_ & _ & -> & _).
  apply NoDup_map_inj; [intros; lia | apply seq_NoDup].
Qed.
Print Assumptions C01_ids_distinct.
Example C01_example : exists C, build_from_parameters ex_geo ex_params = Ok C /\
  map nd_name (g_nodes (c_graph C)) = ["CBD"; "P_1"; "SC_1"; "P_2"; "SC_2"; "P_3"; "SC_3"; "P_4"; "SC_4"]%string.
Proof. vm_compute. eexists. split; reflexivity. Qed.

(** C02: the arcs. *)
Theorem C02_arcs_exact : forall G P C, build_from_parameters G P = Ok C ->
  exists ends,
    map (edge_ends (c_graph C)) (g_edges (c_graph C)) = map Some ends /\
    NoDup ends /\
    (forall i j, In (i, j) ends <-> city_arc (p_n P) i j) /\
    map e_id (g_edges (c_graph C)) = map (fun k => Z.of_nat k + 1)%Z (seq 0 (length ends)) /\
    Z.of_nat (length ends) =
      (if p_n P =? 0 then 0 else if p_n P =? 1 then 4 else if p_n P =? 2 then 10 else 6 * p_n P)%Z.
Proof.
  intros G P C H. exists (map zz (city_arcs (Z.to_nat (p_n P)))).
  split; [exact (city_edge_ends _ _ _ H)|].
  split; [apply NoDup_map_inj; [exact zz_inj | apply city_arcs_NoDup]|].
  split.
  { intros i j. rewrite <- (edge_exist_city _ _ _ i j H), edge_exist_In, (city_edge_ends _ _ _ H).
    rewrite (in_map_iff Some). split.
    - intro Hi. eauto.
    - intros [x [E Hx]]. inversion E; subst; auto. }
  split.
  { destruct (city_facts _ _ _ H) as (_ & _ & c & Pf & Sf & Sh & _).
    rewrite (sh_edges _ _ _ _ _ Sh), numbered_ids, map_length. apply map_ext. intro; lia. }
  rewrite map_length, city_arcs_length.
  pose proof (build_valid _ _ _ H) as (Vn & _).
  destruct (Z.eqb_spec (p_n P) 0) as [->|]; [reflexivity|].
  destruct (Z.eqb_spec (p_n P) 1) as [->|]; [reflexivity|].
  destruct (Z.eqb_spec (p_n P) 2) as [->|]; [reflexivity|].
  destruct (Z.to_nat (p_n P)) as [|[|[|m]]] eqn:E; lia.
Qed.
Print Assumptions C02_arcs_exact.

(** The class docstring (graph.py 181) promises 6 n edges; false for n = 1 and n = 2. *)
Theorem C02_docstring_6n_refuted : exists G P C, build_from_parameters G P = Ok C /\
  Z.of_nat (length (g_edges (c_graph C))) <> (6 * p_n P)%Z.
Proof.
  exists ex_geo, (ex_params_sym 2). eexists. split; [vm_compute; reflexivity|]. vm_compute. discriminate.
Qed.
Print Assumptions C02_docstring_6n_refuted.
Example C02_example : city_arc 4 (scid 4) (scid 1) /\ ~ city_arc 4 (pid 1) (pid 2).
Proof.
  destruct ex_params_built as [C [H _]]. split.
  - apply (arc_ring 4 4); lia.
  - rewrite <- (edge_exist_city _ _ _ _ _ H). vm_compute in H. inversion H; subst. vm_compute. discriminate.
Qed.

(** C03: symmetry of arcs and distances. *)
Theorem C03_arcs_symmetric : forall G P C i j, build_from_parameters G P = Ok C ->
  edge_exist (c_graph C) i j = edge_exist (c_graph C) j i.
Proof.
  intros G P C i j H. apply eq_true_iff_eq. rewrite !(edge_exist_city _ _ _ _ _ H).
  split; apply arc_sym.
Qed.
Print Assumptions C03_arcs_symmetric.

Theorem C03_no_periphery_shortcuts : forall G P C a b, build_from_parameters G P = Ok C ->
  In a (g_nodes (c_graph C)) -> In b (g_nodes (c_graph C)) ->
  edge_exist (c_graph C) (nd_id a) (nd_id b) = true ->
  nd_kind a = Periphery -> nd_kind b = Subcenter /\ nd_zone b = nd_zone a.
Proof.
  intros G P C a b H Ha Hb E Ka.
  destruct (city_facts _ _ _ H) as (V & _ & c & Pf & Sf & Sh & HC & HP & HS).
  apply In_nth_error in Ha. destruct Ha as [ka Ha]. apply In_nth_error in Hb. destruct Hb as [kb Hb].
  pose proof (city_id_ref _ _ _ _ _ H Ha) as Ia. pose proof (city_id_ref _ _ _ _ _ H Hb) as Ib.
  rewrite (edge_exist_city _ _ _ _ _ H), Ia, Ib in E. destruct V as (Vn & _).
  replace (p_n P) with (Z.of_nat (Z.to_nat (p_n P))) in E by lia.
  apply city_narc in E. destruct E as (x & y & Ex & Ey & N).
  assert (x = ka) by lia. assert (y = kb) by lia. subst.
  rewrite (sh_nodes _ _ _ _ _ Sh) in Ha, Hb.
  assert (NL := fun i => nextz_lt (Z.to_nat (p_n P)) i).
  inversion N; subst;
    rewrite ?city_nodes_P, ?city_nodes_S, ?city_nodes_0 in Ha by auto;
    rewrite ?city_nodes_P, ?city_nodes_S, ?city_nodes_0 in Hb by auto;
    injection Ha as Ha; injection Hb as Hb; subst.
  - destruct (HP i) as (?&_&?&_). destruct (HS i) as (?&_&?&_). split; congruence.
  - destruct (HS i) as (?&_). congruence.
  - destruct (HS i) as (?&_). congruence.
  - destruct HC as (?&_). congruence.
  - destruct (HS i) as (?&_). congruence.
  - destruct (HS (nextz (Z.to_nat (p_n P)) i)) as (?&_). congruence.
Qed.
Print Assumptions C03_no_periphery_shortcuts.

Theorem C03_distances : forall G P C, build_from_parameters G P = Ok C ->
  (forall x y, x == y -> geo_sqrt G x == geo_sqrt G y) ->
  (forall x, 0 <= x -> 0 <= geo_sqrt G x) ->
  let D := get_edges_distance G (c_graph C) in
  forall i j,
    (edge_exist (c_graph C) i j = true <-> exists d, dict2_get D i j = Some d) /\
    (forall d, dict2_get D i j = Some d ->
       0 <= d /\
       (exists d', dict2_get D j i = Some d' /\ d == d') /\
       exists a b, In a (g_nodes (c_graph C)) /\ In b (g_nodes (c_graph C)) /\ nd_id a = i /\ nd_id b = j /\
         d == geo_sqrt G ((nd_x b - nd_x a) * (nd_x b - nd_x a) + (nd_y b - nd_y a) * (nd_y b - nd_y a))).
Proof.
  intros G P C H Hp Hn D i j. split.
  - split.
    + apply (proj2 (edges_distance_spec G (c_graph C) i j)).
    + intros [d Hd]. apply edges_distance_spec in Hd. destruct Hd as (e & He & De).
      eapply dist_entry_exist; eauto.
  - intros d Hd.
    destruct (city_distance _ _ _ _ _ _ H Hd) as (a & b & Ha & Hb & Ia & Ib & Ed).
    assert (Sq : forall x : Q, 0 <= x * x).
    { intro x. destruct (Qlt_le_dec x 0).
      - setoid_replace (x * x) with ((-x) * (-x)) by ring. apply Qmult_le_0_compat; lra.
      - apply Qmult_le_0_compat; auto. }
    split; [|split].
    + rewrite Ed. unfold euclid. apply Hn.
      pose proof (Sq (nd_x a - nd_x b)). pose proof (Sq (nd_y a - nd_y b)). lra.
    + assert (E : edge_exist (c_graph C) i j = true).
      { apply edges_distance_spec in Hd. destruct Hd as (e & He & De). eapply dist_entry_exist; eauto. }
      rewrite (C03_arcs_symmetric _ _ _ _ _ H) in E.
      destruct (proj2 (edges_distance_spec G (c_graph C) j i) E) as [d' Hd'].
      exists d'. split; auto.
      destruct (city_distance _ _ _ _ _ _ H Hd') as (b' & a' & Hb' & Ha' & _ & _ & Ed').
      rewrite Ha in Ha'. rewrite Hb in Hb'. inversion Ha'; inversion Hb'; subst a' b'.
      rewrite Ed, Ed'. unfold euclid. apply Hp. ring.
    + exists a, b. repeat split; auto; try (eapply nth_error_In; eassumption).
      rewrite Ed. unfold euclid. apply Hp. ring.
Qed.
Print Assumptions C03_distances.
Example C03_example : exists C, build_from_parameters ex_geo ex_params = Ok C /\
  match dict2_get (get_edges_distance ex_geo (c_graph C)) 0 4 with Some d => Qeqb d 10 = true | None => False end /\
  (forall x y, x == y -> geo_sqrt ex_geo x == geo_sqrt ex_geo y) /\
  (forall x, 0 <= x -> 0 <= geo_sqrt ex_geo x).
Proof.
  eexists. split; [vm_compute; reflexivity|]. split; [vm_compute; reflexivity|].
  split; [exact ex_sqrt_compat | intros; apply ex_sqrt_nonneg].
Qed.

(** C04: positions in closed form. *)
Theorem C04_positions : forall G P C, build_from_parameters G P = Ok C ->
  let g := c_graph C in
  (exists c, nth_error (g_nodes g) 0 = Some c /\
     node_is G CBD 0 0 "CBD" (p_p P) (cbd_radius P) (cbd_angle P) c) /\
  (forall z, (1 <= z <= p_n P)%Z ->
     exists p sc,
       nth_error (g_nodes g) (Z.to_nat (2 * z - 1)) = Some p /\
       nth_error (g_nodes g) (Z.to_nat (2 * z)) = Some sc /\
       node_is G Periphery (pid z) z (String.append "P_" (str_of_Z z)) (p_p P)
         (periphery_radius P z) (zone_angle P z) p /\
       node_is G Subcenter (scid z) z (String.append "SC_" (str_of_Z z)) (p_p P)
         (sc_radius P z) (zone_angle P z) sc).
Proof.
  intros G P C H g. destruct (city_facts _ _ _ H) as (V & _ & c & Pf & Sf & Sh & HC & HP & HS).
  unfold g. rewrite (sh_nodes _ _ _ _ _ Sh). split; [exists c; auto|].
  intros z Hz. set (i := Z.to_nat (z - 1)).
  assert (Zi : (Z.of_nat i + 1 = z)%Z) by lia.
  assert (Hi : (i < Z.to_nat (p_n P))%nat) by lia.
  exists (Pf i), (Sf i).
  replace (Z.to_nat (2 * z - 1)) with (PZ i) by (unfold PZ; lia).
  replace (Z.to_nat (2 * z)) with (SZ i) by (unfold SZ; lia).
  rewrite city_nodes_P, city_nodes_S by auto.
  pose proof (HP i) as A. pose proof (HS i) as B. unfold P_is, S_is in *. rewrite Zi in *.
  replace (2 * Z.of_nat i + 1)%Z with (pid z) in A by (unfold pid; lia).
  replace (2 * Z.of_nat i + 2)%Z with (scid z) in B by (unfold scid; lia).
  auto.
Qed.
Print Assumptions C04_positions.

(** an omitted option builds the same city as its neutral value *)
Theorem C04_neutral_ratios : forall G P C C' ,
  build_from_parameters G P = Ok C ->
  p_Gi P = None -> p_Hi P = None ->
  build_from_parameters G (mkParams (p_n P) (p_l P) (p_g P) (p_p P) (p_etha P) (p_etha_zone P) (p_angles P)
     (Some (repeat 1 (Z.to_nat (p_n P)))) (Some (repeat 1 (Z.to_nat (p_n P))))) = Ok C' ->
  forall k a b, nth_error (g_nodes (c_graph C)) k = Some a -> nth_error (g_nodes (c_graph C')) k = Some b ->
    nd_kind a = nd_kind b /\ nd_id a = nd_id b /\ nd_zone a = nd_zone b /\ nd_name a = nd_name b /\
    nd_radius a == nd_radius b /\ nd_angle a == nd_angle b.
Proof.
  intros G P C C' H NG NH H' k a b Ha Hb.
  destruct (city_facts _ _ _ H) as (V & _ & c & Pf & Sf & Sh & HC & HP & HS).
  destruct (city_facts _ _ _ H') as (V' & _ & c' & Pf' & Sf' & Sh' & HC' & HP' & HS').
  simpl p_n in Sh'.
  assert (Rt : forall z, ratio (Some (repeat 1 (Z.to_nat (p_n P)))) z = 1).
  { intro z. unfold ratio. apply nth_repeat. }
  assert (L : (k < 1 + 2 * Z.to_nat (p_n P))%nat).
  { rewrite <- (city_nodes_length _ c Pf Sf), <- (sh_nodes _ _ _ _ _ Sh). apply nth_error_Some. congruence. }
  rewrite (sh_nodes _ _ _ _ _ Sh) in Ha. rewrite (sh_nodes _ _ _ _ _ Sh') in Hb.
  unfold C_is, P_is, S_is, cbd_radius, cbd_angle, sc_radius, periphery_radius, zone_angle in *.
  cbn [p_n p_l p_g p_p p_etha p_etha_zone p_angles p_Gi p_Hi] in *. rewrite NG, NH in *.
  destruct k.
  - simpl in Ha, Hb. inversion Ha; inversion Hb; subst.
    destruct HC as (K1 & I1 & Z1 & N1 & W1 & R1 & A1 & _). destruct HC' as (K2 & I2 & Z2 & N2 & W2 & R2 & A2 & _).
    rewrite K1, K2, I1, I2, Z1, Z2, N1, N2, R1, R2, A1, A2. repeat split; try reflexivity.
    destruct (p_etha P), (p_etha_zone P); try reflexivity. rewrite Rt. reflexivity.
  - destruct (Nat.even k) eqn:Ev.
    + apply Nat.even_spec in Ev. destruct Ev as [i ->].
      change (S (2 * i)) with (PZ i) in *.
      rewrite city_nodes_P in Ha, Hb by (unfold PZ in *; lia). inversion Ha; inversion Hb; subst.
      destruct (HP i) as (K1 & I1 & Z1 & N1 & W1 & R1 & A1 & _).
      destruct (HP' i) as (K2 & I2 & Z2 & N2 & W2 & R2 & A2 & _).
      rewrite K1, K2, I1, I2, Z1, Z2, N1, N2, R1, R2, A1, A2, Rt. repeat split; reflexivity.
    + assert (Od : Nat.odd k = true) by (unfold Nat.odd; rewrite Ev; auto).
      apply Nat.odd_spec in Od. destruct Od as [i ->].
      replace (S (2 * i + 1)) with (SZ i) in * by (unfold SZ; lia).
      rewrite city_nodes_S in Ha, Hb by (unfold SZ in *; lia). inversion Ha; inversion Hb; subst.
      destruct (HS i) as (K1 & I1 & Z1 & N1 & W1 & R1 & A1 & _).
      destruct (HS' i) as (K2 & I2 & Z2 & N2 & W2 & R2 & A2 & _).
      rewrite K1, K2, I1, I2, Z1, Z2, N1, N2, R1, R2, A1, A2, Rt. repeat split; reflexivity.
Qed.
Print Assumptions C04_neutral_ratios.
Example C04_example :
  exists C, build_from_parameters ex_geo ex_params = Ok C /\
  match nth_error (g_nodes (c_graph C)) 4, nth_error (g_nodes (c_graph C)) 0, nth_error (g_nodes (c_graph C)) 5 with
  | Some sc2, Some c, Some p3 =>
      (Qeqb (nd_y sc2) 20 && Qeqb (nd_y c) 10 && Qeqb (nd_x p3) (-(45#2)))%bool = true
  | _, _, _ => False
  end.
Proof. eexists. split; [vm_compute; reflexivity|]. vm_compute. reflexivity. Qed.

(** C06: strong connectivity. *)
Theorem C06_strongly_connected : forall G P C a b, build_from_parameters G P = Ok C ->
  In a (g_nodes (c_graph C)) -> In b (g_nodes (c_graph C)) ->
  walk (fun i j => edge_exist (c_graph C) i j = true) (nd_id a) (nd_id b).
Proof.
  intros G P C a b H Ha Hb.
  assert (W : walk (city_arc (p_n P)) (nd_id a) (nd_id b)).
  { pose proof (build_valid _ _ _ H) as (Vn & _).
    destruct (C01_nodes_and_zones _ _ _ H) as (L & _).
    apply In_nth_error in Ha. destruct Ha as [ka Ha]. apply In_nth_error in Hb. destruct Hb as [kb Hb].
    rewrite (city_id_ref _ _ _ _ _ H Ha), (city_id_ref _ _ _ _ _ H Hb).
    assert (ka < length (g_nodes (c_graph C)))%nat by (apply nth_error_Some; congruence).
    assert (kb < length (g_nodes (c_graph C)))%nat by (apply nth_error_Some; congruence).
    apply city_connected; lia. }
  induction W; [constructor|]. eapply walk_step; [|eassumption].
  rewrite (edge_exist_city _ _ _ _ _ H). auto.
Qed.
Print Assumptions C06_strongly_connected.
Example C06_example : exists C, build_from_parameters ex_geo ex_params = Ok C /\
  walk (fun i j => edge_exist (c_graph C) i j = true) 1 7.
Proof.
  eexists. split; [vm_compute; reflexivity|].
  apply walk_step with 2%Z; [vm_compute; reflexivity|].
  apply walk_step with 8%Z; [vm_compute; reflexivity|].
  apply walk_step with 7%Z; [vm_compute; reflexivity|]. constructor.
Qed.
