(** * Props_Predef: the properties C27-C29 of the predefined routes *)
From Coq Require Import String Ascii List ZArith QArith Bool Lia.
From Verif Require Import PyBase PyFacts PyStr PyStrFacts Graph GraphSpec GraphProofs GeoEx Props_Graph Mode Props_Mode Route Network RouteSpec RouteProofs
  Props_Network Predef PredefSpec PredefProofs.
Import ListNotations.
Local Open Scope Z_scope.

Definition family_routes (g : graph) (m : mode) (f : family) : res (list route) :=
  match f with
  | Circular => get_circular_routes g m
  | Feeder => get_feeder_routes g m
  | Radial s e => get_radial_routes g m s e
  | Diametral j s e => get_diametral_routes g m j s e
  | Tangencial j s e => get_tangencial_routes g m j s e
  end.
Definition zones_of (P : params) : nat := Z.to_nat (p_n P).

(** ** C28 *)
Theorem C28_families : forall G P C m, build_from_parameters G P = Ok C ->
  let n := zones_of P in
  let g := c_graph C in
  get_feeder_routes g m = Ok (map (feeder_line m) (zone_list n)) /\
  (forall s e, get_radial_routes g m s e = Ok (map (radial_line m s e) (zone_list n))) /\
  (forall j s e, 1 <= j -> 2 * j <= p_n P ->
     get_diametral_routes g m j s e = Ok (map (diametral_line n m j s e) (zone_list (family_size n j))) /\
     get_tangencial_routes g m j s e = Ok (map (tangencial_line n m j s e) (zone_list (family_size n j)))) /\
  (forall j s e, ~ (1 <= j /\ 2 * j <= p_n P) ->
     get_diametral_routes g m j s e = Err JumpIsNotValidException /\
     get_tangencial_routes g m j s e = Err JumpIsNotValidException) /\
  (2 <= p_n P -> get_circular_routes g m = Ok (circular_lines n m)) /\
  (p_n P < 2 -> get_circular_routes g m = Err CircularRouteIsNotValidException).
Proof.
  intros G P C m H n g. pose proof (city_ring _ _ _ H) as R. fold (zones_of P) in R. fold n in R. fold g in R.
  assert (V : 0 <= p_n P) by (apply build_valid in H; apply H).
  assert (En : Z.of_nat n = p_n P) by (unfold n, zones_of; lia).
  split; [apply feeder_ok; auto|]. split; [intros; apply radial_ok; auto|].
  split; [intros; split; [apply diametral_ok|apply tangencial_ok]; auto; lia|].
  split.
  { intros j s e Hj. unfold get_diametral_routes, get_tangencial_routes. rewrite (rc_cbd _ _ R). cbn [bind].
    rewrite (jump_end_ok _ _ R). destruct (Z.ltb_spec 0 j), (Z.leb_spec (2 * j) (Z.of_nat n)); cbn [andb bind]; auto. lia. }
  split; [intros; apply circular_ok; auto; lia|].
  intro L. unfold get_circular_routes. rewrite (rc_len _ _ R). destruct (Nat.leb_spec n 1); [reflexivity|lia].
Qed.
Print Assumptions C28_families.
Lemma zone_list_In k z : In z (zone_list k) <-> 1 <= z <= Z.of_nat k.
Proof.
  unfold zone_list. rewrite in_map_iff. split.
  - intros (x & <- & Hx). apply in_seq in Hx. lia.
  - intro H. exists (Z.to_nat z). rewrite in_seq. lia.
Qed.
Lemma mod_shift n a k : 0 < n -> (a + k) mod n = a mod n -> k mod n = 0.
Proof.
  intros Hn H. rewrite <- (Z.add_mod_idemp_l a k) in H by lia. rewrite (Z.mod_eq (a mod n + k)) in H by lia.
  assert (E : k = n * ((a mod n + k) / n)) by lia. rewrite E, Z.mul_comm. apply Z_mod_mult.
Qed.
Lemma nxt_inj n z k1 k2 : (0 < n)%nat -> nxt n z k1 = nxt n z k2 -> (k1 - k2) mod Z.of_nat n = 0.
Proof.
  intros Hn H. unfold nxt in H. apply (mod_shift _ (z - 1 + k2)); [lia|]. replace (z - 1 + k2 + (k1 - k2)) with (z - 1 + k1) by lia. lia.
Qed.
Lemma mod0_small n k : 0 < n -> - n < k < n -> k mod n = 0 -> k = 0.
Proof. intros Hn Hk H. apply Z.mod_divide in H; [|lia]. destruct H as [q ->]. assert (q < 1) by nia. assert (-1 < q) by nia. replace q with 0 by lia. reflexivity. Qed.
Lemma nxt_nxt n z a b : (0 < n)%nat -> nxt n (nxt n z a) b = nxt n z (a + b).
Proof.
  intro Hn. unfold nxt. f_equal. replace ((z - 1 + a) mod Z.of_nat n + 1 - 1 + b) with ((z - 1 + a) mod Z.of_nat n + b) by lia.
  rewrite Z.add_mod_idemp_l by lia. f_equal. lia.
Qed.
(** every unordered pair of zones at cyclic distance j is joined by exactly one line of the family *)
Theorem C28_each_pair_once : forall n j z1 z2,
  1 <= j -> 2 * j <= Z.of_nat n -> 1 <= z1 <= Z.of_nat n -> z2 = nxt n z1 j ->
  z1 <> z2 /\ exists! z, In z (zone_list (family_size n j)) /\
    ((z = z1 /\ nxt n z j = z2) \/ (z = z2 /\ nxt n z j = z1)).
Proof.
  intros n j z1 z2 Hj Hn Hz E2.
  assert (Hr : 1 <= z2 <= Z.of_nat n) by (subst; apply nxt_range; lia).
  assert (B : nxt n z2 j = z1 -> 2 * j = Z.of_nat n).
  { intro H. subst z2. rewrite nxt_nxt in H by lia. rewrite <- (nxt_0 n z1 Hz) in H at 2. apply nxt_inj in H; [|lia].
    apply Z.mod_divide in H; [|lia]. destruct H as [q H]. assert (q < 2) by nia. assert (0 < q) by nia. assert (q = 1) by lia. subst q. lia. }
  assert (C : 2 * j = Z.of_nat n -> nxt n z2 j = z1).
  { intro H. subst z2. rewrite nxt_nxt by lia. unfold nxt. replace (z1 - 1 + (j + j)) with (z1 - 1 + 1 * Z.of_nat n) by lia.
    rewrite Z_mod_plus_full, Z.mod_small; lia. }
  assert (D : z1 <> z2).
  { intro C'. subst z2. rewrite <- (nxt_0 n z1 Hz) in C' at 1. symmetry in C'. apply nxt_inj in C'; [|lia].
    apply mod0_small in C'; lia. }
  split; auto. unfold family_size. destruct (Z.eqb_spec (2 * j) (Z.of_nat n)) as [E|E].
  - assert (S : z2 = z1 + j /\ z1 <= j \/ z2 = z1 - j /\ j < z1).
    { subst z2. rewrite <- zone2_nxt by lia. unfold Predef.zone2_id. destruct (Z.leb_spec (z1 + j) (Z.of_nat n)); lia. }
    destruct S as [[S1 S2]|[S1 S2]].
    + exists z1. split.
      * split; [apply zone_list_In; lia|auto].
      * intros z [Hi [[-> _]|[-> _]]]; auto. apply zone_list_In in Hi. lia.
    + exists z2. split.
      * split; [apply zone_list_In; lia|]. right. auto.
      * intros z [Hi [[-> _]|[-> _]]]; auto. apply zone_list_In in Hi. lia.
  - exists z1. split.
    + split; [apply zone_list_In; lia|auto].
    + intros z [Hi [[-> _]|[-> H]]]; auto. apply B in H. contradiction.
Qed.
Print Assumptions C28_each_pair_once.
Example C28_ex : (exists C, build_from_parameters ex_geo (ex_params_sym 6) = Ok C /\
  exists rs, get_tangencial_routes (c_graph C) ex_bus 3 false true = Ok rs /\ length rs = 3%nat /\
    nth_error rs 2 = Some (mkRoute "TE3_bus_3" ex_bus [5;6;8;10;12;11] [11;12;10;8;6;5] [5;11] [11;5] PREDEFINED)) /\
  family_size 5 2 = 5%nat /\ nxt 5 4 2 = 1.
Proof. split; [|vm_compute; auto]. eexists. split; [vm_compute; reflexivity|]. eexists. split; [vm_compute; reflexivity|]. vm_compute. auto. Qed.

(** ** C27 *)
Lemma on_arcs_cons2 g a b l : on_arcs g (a :: b :: l) <-> edge_exist g a b = true /\ on_arcs g (b :: l).
Proof.
  unfold on_arcs. setoid_rewrite <- arcs_consecutive. rewrite arcs_of_cons2. split.
  - intro H. split; [apply H; simpl; auto|]. intros x y Hx. apply H. simpl. auto.
  - intros [E H] x y [Hx|Hx]; [inversion Hx; subst; auto|auto].
Qed.
Lemma on_arcs_1 g a : on_arcs g [a].
Proof. intros x y. rewrite <- arcs_consecutive. intros []. Qed.
Lemma on_arcs_nil g : on_arcs g [].
Proof. intros x y. rewrite <- arcs_consecutive. intros []. Qed.
Lemma on_arcs_snoc g l a b : on_arcs g (l ++ [a]) -> edge_exist g a b = true -> on_arcs g (l ++ [a; b]).
Proof.
  intros H E. induction l as [|x l IH]; simpl in *; [apply on_arcs_cons2; split; auto; apply on_arcs_1|].
  destruct l as [|y l]; simpl in *; apply on_arcs_cons2; apply on_arcs_cons2 in H; destruct H; split; auto.
Qed.
Lemma on_arcs_rev g l : (forall a b, edge_exist g a b = true -> edge_exist g b a = true) -> on_arcs g l -> on_arcs g (rev l).
Proof.
  intros S. induction l as [|x l IH]; intro H; [exact H|]. destruct l as [|y l]; [exact H|].
  apply on_arcs_cons2 in H. destruct H as [E H]. cbn [rev]. rewrite <- app_assoc. apply on_arcs_snoc; [|apply S; auto].
  apply IH in H. exact H.
Qed.
Lemma subseq_snoc_r {A} (s l : list A) x : subseq s l -> subseq s (l ++ [x]).
Proof. induction 1; simpl; constructor; auto. Qed.
Lemma subseq_snoc {A} (s l : list A) x : subseq s l -> subseq (s ++ [x]) (l ++ [x]).
Proof.
  induction 1; simpl; try (constructor; auto; fail).
  induction l; simpl; constructor; auto. constructor.
Qed.
Lemma subseq_rev {A} (s l : list A) : subseq s l -> subseq (rev s) (rev l).
Proof. induction 1; simpl; [constructor | apply subseq_snoc; auto | apply subseq_snoc_r; auto]. Qed.
Lemma starts_rev l x : ends l x -> starts (rev l) x.
Proof. intros [t ->]. rewrite rev_app_distr. exists (rev t). reflexivity. Qed.
Lemma ends_rev l x : starts l x -> ends (rev l) x.
Proof. intros [t ->]. exists (rev t). reflexivity. Qed.

(** a route that a traveller would accept as a line of the city *)
Definition good_line (g : graph) (r : route) : Prop :=
  on_arcs g (r_ni r) /\ on_arcs g (r_nr r) /\ subseq (r_si r) (r_ni r) /\ subseq (r_sr r) (r_nr r) /\
  match r_type r with
  | CIRCULAR => (closed_line (r_ni r) /\ r_si r = r_ni r /\ r_nr r = [] /\ r_sr r = []) \/
                (closed_line (r_nr r) /\ r_sr r = r_nr r /\ r_ni r = [] /\ r_si r = [])
  | _ => valid_line (r_ni r) (r_nr r) (r_si r) (r_sr r)
  end.
Lemma two_way_good g id m nodes stops a b : (forall a b, edge_exist g a b = true -> edge_exist g b a = true) ->
  on_arcs g nodes -> NoDup nodes -> subseq stops nodes -> starts nodes a -> ends nodes b -> starts stops a -> ends stops b ->
  good_line g (two_way id m nodes stops).
Proof.
  intros S A N Sb N1 N2 S1 S2. unfold good_line, two_way. cbn. split; auto. split; [apply on_arcs_rev; auto|]. split; auto.
  split; [apply subseq_rev; auto|]. split.
  - exists a, b. repeat (split; auto); try apply starts_rev; try apply ends_rev; auto.
  - split; auto. split; [apply NoDup_rev; auto|]. split.
    + intros x Hx. eapply subseq_In; eauto.
    + intros x Hx. apply -> in_rev. apply in_rev in Hx. eapply subseq_In; eauto.
Qed.
Lemma NoDup_map_inj_in {A B} (f : A -> B) l : (forall x y, In x l -> In y l -> f x = f y -> x = y) -> NoDup l -> NoDup (map f l).
Proof.
  induction l as [|x l IH]; intros H N; simpl; constructor; inversion N; subst.
  - intro C. apply in_map_iff in C. destruct C as (y & E & Hy). assert (y = x) by (apply H; simpl; auto). subst. contradiction.
  - apply IH; auto. intros; apply H; simpl; auto.
Qed.

Section Good.
Context (g : graph) (n : nat) (R : ring_city g n) (m : mode).
Lemma arc_sym_g a b : edge_exist g a b = true -> edge_exist g b a = true.
Proof. rewrite !(rc_arc _ _ R). apply arc_sym. Qed.
Lemma e_ps z : 1 <= z <= Z.of_nat n -> edge_exist g (pid z) (scid z) = true.
Proof. intro. apply (rc_arc _ _ R). constructor. auto. Qed.
Lemma e_sp z : 1 <= z <= Z.of_nat n -> edge_exist g (scid z) (pid z) = true.
Proof. intro. apply arc_sym_g, e_ps. auto. Qed.
Lemma e_sc z : 1 <= z <= Z.of_nat n -> edge_exist g (scid z) 0 = true.
Proof. intro. apply (rc_arc _ _ R). constructor. auto. Qed.
Lemma e_cs z : 1 <= z <= Z.of_nat n -> edge_exist g 0 (scid z) = true.
Proof. intro. apply arc_sym_g, e_sc. auto. Qed.
Lemma e_ring z k : 2 <= Z.of_nat n -> edge_exist g (scid (nxt n z k)) (scid (nxt n z (k + 1))) = true.
Proof.
  intro Hn. apply (rc_arc _ _ R). replace (nxt n z (k + 1)) with (nxt n z k mod Z.of_nat n + 1).
  - apply arc_ring; auto. apply nxt_range. lia.
  - unfold nxt. rewrite Z.add_mod_idemp_l by lia. f_equal. f_equal. lia.
Qed.
Ltac ends_tac := match goal with
  | |- starts (?x :: ?l) _ => exists l; reflexivity
  | |- ends [?x] _ => exists []; reflexivity
  | |- ends [?x; ?y] _ => exists [x]; reflexivity
  | |- ends [?x; ?y; ?z] _ => exists [x; y]; reflexivity
  | |- ends [?x; ?y; ?z; ?t; ?u] _ => exists [x; y; z; t]; reflexivity
  end.
Ltac sub_tac := repeat first [apply subseq_refl | apply subseq_take | apply subseq_skip].
Ltac arcs_tac := repeat (apply on_arcs_cons2; split; [first [apply e_ps | apply e_sp | apply e_sc | apply e_cs]; auto|]); apply on_arcs_1.
Ltac nd_tac := unfold pid, scid in *; repeat (apply NoDup_cons; [cbn [In]; lia|]); apply NoDup_nil.
Lemma feeder_good z : 1 <= z <= Z.of_nat n -> good_line g (feeder_line m z).
Proof.
  intro Hz. eapply two_way_good; try ends_tac; [apply arc_sym_g|arcs_tac|nd_tac|sub_tac].
Qed.
Lemma radial_good s e z : 1 <= z <= Z.of_nat n -> good_line g (radial_line m s e z).
Proof.
  intro Hz. unfold radial_line. destruct s; [|destruct e]; (eapply two_way_good; try ends_tac; [apply arc_sym_g|arcs_tac|nd_tac|]).
  - sub_tac.
  - apply subseq_take, subseq_skip, subseq_take. constructor.
  - sub_tac.
Qed.
Lemma nxt_ne z j : 1 <= z <= Z.of_nat n -> 1 <= j -> 2 * j <= Z.of_nat n -> nxt n z j <> z.
Proof.
  intros Hz Hj Hn C. rewrite <- (nxt_0 n z Hz) in C at 2. apply nxt_inj in C; [|lia]. apply mod0_small in C; lia.
Qed.
Lemma diametral_good j s e z : 1 <= j -> 2 * j <= Z.of_nat n -> 1 <= z <= Z.of_nat n -> good_line g (diametral_line n m j s e z).
Proof.
  intros Hj Hn Hz. pose proof (nxt_ne z j Hz Hj Hn) as NE. pose proof (nxt_range n z j ltac:(lia)) as Hr.
  unfold diametral_line. set (z2 := nxt n z j) in *.
  destruct s, e; (eapply two_way_good; try ends_tac; [apply arc_sym_g|arcs_tac|nd_tac|]).
  - apply subseq_take, subseq_skip, subseq_take. constructor.
  - sub_tac.
  - apply subseq_take, subseq_skip, subseq_skip, subseq_skip, subseq_take. constructor.
  - sub_tac.
Qed.
Lemma ring_arcs_ok z j : 2 <= Z.of_nat n -> forall k0, on_arcs g (map (fun k => scid (nxt n z (Z.of_nat k))) (seq k0 (S j))).
Proof.
  intro Hn. induction j as [|j IH]; intro k0; [apply on_arcs_1|].
  change (seq k0 (S (S j))) with (k0 :: S k0 :: seq (S (S k0)) j). cbn [map]. apply on_arcs_cons2. split.
  - replace (Z.of_nat (S k0)) with (Z.of_nat k0 + 1) by lia. apply e_ring. auto.
  - apply (IH (S k0)).
Qed.
Lemma subseq_ends2 (a b : Z) l : subseq [a; b] (a :: l ++ [b]).
Proof. constructor. induction l; simpl; constructor; auto. constructor. Qed.
Lemma ring_part_shape z j : 1 <= z <= Z.of_nat n -> 1 <= j -> exists l, ring_part n z j = scid z :: l ++ [scid (nxt n z j)].
Proof. intros. rewrite ring_part_eq by lia. eauto. Qed.
Lemma ring_part_NoDup z j : 1 <= z <= Z.of_nat n -> 1 <= j -> 2 * j <= Z.of_nat n -> NoDup (ring_part n z j).
Proof.
  intros Hz Hj Hn. unfold ring_part. apply NoDup_map_inj_in; [|apply seq_NoDup].
  intros x y Hx Hy E. apply in_seq in Hx. apply in_seq in Hy. unfold scid in E. assert (E' : nxt n z (Z.of_nat x) = nxt n z (Z.of_nat y)) by lia.
  apply nxt_inj in E'; [|lia]. apply mod0_small in E'; lia.
Qed.
Lemma tangencial_good j s e z : 1 <= j -> 2 * j <= Z.of_nat n -> 1 <= z <= Z.of_nat n -> good_line g (tangencial_line n m j s e z).
Proof.
  intros Hj Hn Hz. pose proof (nxt_ne z j Hz Hj Hn) as NE. pose proof (nxt_range n z j ltac:(lia)) as Hr.
  unfold tangencial_line. set (z2 := nxt n z j) in *. destruct (ring_part_shape z j Hz Hj) as [l El]. fold z2 in El.
  pose proof (ring_part_NoDup z j Hz Hj Hn) as ND.
  assert (A : on_arcs g (ring_part n z j)) by (apply ring_arcs_ok; lia).
  assert (A2 : on_arcs g (pid z :: ring_part n z j ++ [pid z2])).
  { rewrite El in *. cbn [app]. rewrite <- app_assoc. cbn [app].
    change (pid z :: scid z :: l ++ [scid z2; pid z2]) with ((pid z :: scid z :: l) ++ [scid z2; pid z2]).
    apply on_arcs_snoc; [|apply e_sp; auto]. cbn [app]. apply on_arcs_cons2. split; [apply e_ps; auto|]. exact A. }
  assert (EV : forall x, In x (ring_part n z j) -> exists q, x = scid q).
  { intros x Hx. unfold ring_part in Hx. apply in_map_iff in Hx. destruct Hx as (k & <- & _). eauto. }
  assert (N2 : NoDup (pid z :: ring_part n z j ++ [pid z2])).
  { constructor.
    - intro C. apply in_app_or in C. destruct C as [C|[C|[]]]; [apply EV in C; destruct C as [q C]|]; unfold pid, scid in C; lia.
    - apply NoDup_snoc; auto. intro C. apply EV in C. destruct C as [q C]. unfold pid, scid in C; lia. }
  assert (E1 : ends (ring_part n z j) (scid z2)) by (rewrite El; exists (scid z :: l); reflexivity).
  assert (S1 : starts (ring_part n z j) (scid z)) by (rewrite El; eexists; reflexivity).
  assert (E2 : ends (pid z :: ring_part n z j ++ [pid z2]) (pid z2)) by (exists (pid z :: ring_part n z j); reflexivity).
  destruct s, e.
  - eapply two_way_good; eauto; try ends_tac; [apply arc_sym_g|]. rewrite El. apply subseq_ends2.
  - eapply two_way_good; eauto; [apply arc_sym_g|apply subseq_refl].
  - eapply two_way_good; eauto; try ends_tac; [apply arc_sym_g|]. apply subseq_ends2.
  - eapply two_way_good; eauto; try ends_tac; [apply arc_sym_g|apply subseq_refl].
Qed.
Lemma zone_list_ring : (0 < n)%nat -> map scid (zone_list n) = map (fun k => scid (nxt n 1 (Z.of_nat k))) (seq 0 n).
Proof.
  intro Hn. unfold zone_list. rewrite <- seq_shift, !map_map. apply map_ext_in. intros k Hk. apply in_seq in Hk.
  f_equal. unfold nxt. rewrite Z.mod_small; lia.
Qed.
Lemma circular_arcs : (2 <= n)%nat -> on_arcs g (map scid (zone_list n) ++ [scid 1]).
Proof.
  intro Hn. assert (E : map scid (zone_list n) ++ [scid 1] = map (fun k => scid (nxt n 1 (Z.of_nat k))) (seq 0 (S n))).
  { rewrite seq_S, map_app, zone_list_ring by lia. f_equal. cbn [map]. do 2 f_equal. unfold nxt.
    replace (1 - 1 + Z.of_nat (0 + n)) with (0 + 1 * Z.of_nat n) by lia. rewrite Z_mod_plus_full. rewrite Z.mod_0_l; lia. }
  rewrite E. apply ring_arcs_ok. lia.
Qed.
Lemma circular_good r : (2 <= n)%nat -> In r (circular_lines n m) -> good_line g r.
Proof.
  intros Hn Hr. pose proof (circular_arcs Hn) as A.
  assert (ND : NoDup (map scid (zone_list n))).
  { apply NoDup_map_inj_in; [intros x y _ _ E; unfold scid in E; lia|]. unfold zone_list.
    apply NoDup_map_inj_in; [intros; lia|apply seq_NoDup]. }
  assert (Z1 : exists t, zone_list n = 1 :: t ++ [Z.of_nat n]).
  { unfold zone_list. destruct n as [|[|k]]; try lia. exists (map Z.of_nat (seq 2 k)). rewrite seq_S, map_app.
    cbn [seq map app]. do 2 f_equal. }
  destruct Z1 as [t Zt].
  assert (A2 : on_arcs g (map scid (rev (zone_list n)) ++ [scid (Z.of_nat n)])).
  { rewrite Zt in *. cbn [rev]. rewrite rev_app_distr. cbn [rev app map] in *. rewrite map_app in A. cbn [map] in A.
    rewrite <- app_assoc in A. cbn [app] in A.
    assert (A1 : on_arcs g (scid 1 :: map scid t ++ [scid (Z.of_nat n)])).
    { clear - A. change (scid 1 :: map scid t ++ [scid (Z.of_nat n); scid 1]) with ((scid 1 :: map scid t) ++ [scid (Z.of_nat n); scid 1]) in A.
      change (scid 1 :: map scid t ++ [scid (Z.of_nat n)]) with ((scid 1 :: map scid t) ++ [scid (Z.of_nat n)]).
      revert A. generalize (scid 1 :: map scid t). intros l A a b (l1 & l2 & E). apply A. exists l1, (l2 ++ [scid 1]).
      change (a :: b :: l2 ++ [scid 1]) with ((a :: b :: l2) ++ [scid 1]). rewrite app_assoc, <- E, <- app_assoc. reflexivity. }
    assert (E1 : edge_exist g (scid 1) (scid (Z.of_nat n)) = true).
    { apply arc_sym_g. apply A. exists (scid 1 :: map scid t), []. reflexivity. }
    apply on_arcs_rev in A1; [|apply arc_sym_g]. cbn [rev] in A1. rewrite rev_app_distr in A1. cbn [rev app] in A1.
    rewrite map_app, map_rev. cbn [map]. rewrite <- app_assoc. cbn [app].
    change (scid (Z.of_nat n) :: rev (map scid t) ++ [scid 1; scid (Z.of_nat n)]) with ((scid (Z.of_nat n) :: rev (map scid t)) ++ [scid 1; scid (Z.of_nat n)]).
    apply on_arcs_snoc; auto. }
  destruct Hr as [<-|[<-|[]]]; unfold good_line; cbn [r_ni r_nr r_si r_sr r_type].
  - split; auto. split; [apply on_arcs_nil|]. split; [apply subseq_refl|]. split; [constructor|]. left. repeat (split; auto).
    rewrite Zt in *. cbn [map app] in *. rewrite map_app in *. cbn [map] in *. exists (scid 1), (map scid t ++ [scid (Z.of_nat n)]).
    split; auto. split; auto. destruct (map scid t); discriminate.
  - split; [apply on_arcs_nil|]. split; auto. split; [constructor|]. split; [apply subseq_refl|]. right. repeat (split; auto).
    rewrite Zt in *. cbn [map app rev] in *. rewrite rev_app_distr in *. cbn [rev app map] in *. rewrite map_app in *. cbn [map] in *.
    exists (scid (Z.of_nat n)), (map scid (rev t) ++ [scid 1]). split; auto. split; [|destruct (map scid (rev t)); discriminate].
    rewrite map_rev. apply NoDup_rev in ND. cbn [rev] in ND. rewrite rev_app_distr in ND. exact ND.
Qed.
End Good.

(** C27: every predefined route is a line of the city and is accepted by a network of the city that
    does not contain its id and can take its mode *)
Theorem C27_predefined_routes_valid : forall G P C m f rs r,
  build_from_parameters G P = Ok C -> family_routes (c_graph C) m f = Ok rs -> In r rs ->
  good_line (c_graph C) r /\ r_mode r = m /\
  forall nw, nw_graph nw = c_graph C -> ~ In (r_id r) (nw_ids nw) ->
    registered m (nw_modes nw) \/ nw_modes nw = [] ->
    exists nw', add_route nw r = (nw', None) /\ In r (nw_routes nw').
Proof.
  intros G P C m f rs r H F Hr.
  assert (GM : good_line (c_graph C) r /\ r_mode r = m).
  { pose proof (city_ring _ _ _ H) as R. set (n := Z.to_nat (p_n P)) in *.
    assert (V : 0 <= p_n P) by (apply build_valid in H; apply H).
    assert (En : Z.of_nat n = p_n P) by (unfold n; lia).
    destruct (C28_families G P C m H) as (F1 & F2 & F3 & F4 & F5 & F6). unfold zones_of in *. fold n in F1, F2, F3, F5.
    destruct f as [| |s e|j s e|j s e]; cbn [family_routes] in F.
    - destruct (Z.lt_ge_cases (p_n P) 2); [rewrite F6 in F by auto; discriminate|]. rewrite F5 in F by auto. inversion F; subst.
      split; [eapply circular_good; eauto; lia|]. destruct Hr as [<-|[<-|[]]]; reflexivity.
    - rewrite F1 in F. inversion F; subst. apply in_map_iff in Hr. destruct Hr as (z & <- & Hz). apply zone_list_In in Hz.
      split; [eapply feeder_good; eauto|reflexivity].
    - rewrite F2 in F. inversion F; subst. apply in_map_iff in Hr. destruct Hr as (z & <- & Hz). apply zone_list_In in Hz.
      split; [eapply radial_good; eauto|]. unfold radial_line. destruct s, e; reflexivity.
    - destruct (Z.lt_ge_cases j 1) as [L|L]; [destruct (F4 j s e ltac:(lia)); congruence|].
      destruct (Z.lt_ge_cases (p_n P) (2 * j)) as [L2|L2]; [destruct (F4 j s e ltac:(lia)); congruence|].
      destruct (F3 j s e L L2) as [E _]. rewrite E in F. inversion F; subst. apply in_map_iff in Hr. destruct Hr as (z & <- & Hz).
      apply zone_list_In in Hz. pose proof (family_le n j ltac:(lia) ltac:(lia)).
      split; [eapply diametral_good; eauto; lia|]. unfold diametral_line. destruct s, e; reflexivity.
    - destruct (Z.lt_ge_cases j 1) as [L|L]; [destruct (F4 j s e ltac:(lia)); congruence|].
      destruct (Z.lt_ge_cases (p_n P) (2 * j)) as [L2|L2]; [destruct (F4 j s e ltac:(lia)); congruence|].
      destruct (F3 j s e L L2) as [_ E]. rewrite E in F. inversion F; subst. apply in_map_iff in Hr. destruct Hr as (z & <- & Hz).
      apply zone_list_In in Hz. pose proof (family_le n j ltac:(lia) ltac:(lia)).
      split; [eapply tangencial_good; eauto; lia|]. unfold tangencial_line. destruct s, e; reflexivity. }
  destruct GM as [GL GM]. split; auto. split; auto. intros nw Hg Hid Hm.
  unfold add_route. rewrite Hg. assert (V : edges_validator (c_graph C) (r_ni r) = Ok true) by (apply edges_validator_iff; split; auto; apply GL).
  rewrite V. apply smem_nIn in Hid. rewrite Hid. rewrite GM.
  assert (A : exists nw1, add_transport_mode nw m = (nw1, None)).
  { unfold add_transport_mode. destruct Hm as [Hm|Hm].
    - apply mode_in_spec in Hm. rewrite Hm. eauto.
    - rewrite Hm. cbn. eauto. }
  destruct A as [nw1 A]. rewrite A. eexists. split; [reflexivity|]. cbn. apply in_or_app. simpl; auto.
Qed.
Print Assumptions C27_predefined_routes_valid.
Example C27_ex : exists C rs, build_from_parameters ex_geo (ex_params_sym 5) = Ok C /\
  family_routes (c_graph C) ex_bus (Diametral 2 true false) = Ok rs /\ length rs = 5%nat /\
  exists rs2, family_routes (c_graph C) ex_bus Circular = Ok rs2 /\ length rs2 = 2%nat.
Proof. do 2 eexists. split; [vm_compute; reflexivity|]. split; [vm_compute; reflexivity|]. split; [reflexivity|]. eexists. split; [vm_compute; reflexivity|reflexivity]. Qed.

(** ** C29 *)
Local Open Scope string_scope.
Definition no_us (s : string) : Prop := sall (not_char "_") s = true.
Lemma split_us p x p' x' : no_us p -> no_us p' -> p ++ "_" ++ x = p' ++ "_" ++ x' -> p = p' /\ x = x'.
Proof.
  unfold no_us. revert p'. induction p as [|a p IH]; intros [|b p'] N N' E; cbn in E.
  - inversion E; auto.
  - exfalso. inversion E; subst. simpl in N'. discriminate.
  - exfalso. inversion E; subst. simpl in N. discriminate.
  - inversion E; subst. simpl in N, N'. apply andb_true_iff in N. apply andb_true_iff in N'.
    destruct (IH p') as [-> ->]; tauto.
Qed.
Lemma rev_inj s t : rev_string s "" = rev_string t "" -> s = t.
Proof. intro H. rewrite <- (rev_string_invol s), H, rev_string_invol. reflexivity. Qed.
Lemma split_us_last x q x' q' : no_us q -> no_us q' -> x ++ "_" ++ q = x' ++ "_" ++ q' -> x = x' /\ q = q'.
Proof.
  intros N N' E. apply (f_equal (fun s => rev_string s "")) in E. rewrite !rev_string_app in E.
  assert (X : forall s, rev_string "_" s = String "_" s) by reflexivity.
  assert (Y : forall a b, (rev_string a "" ++ rev_string "_" "") ++ b = rev_string a "" ++ "_" ++ b).
  { intros. rewrite append_assoc. reflexivity. }
  rewrite !Y in E. apply split_us in E; [|unfold no_us; rewrite sall_rev; auto..].
  destruct E as [E1 E2]. split; apply rev_inj; auto.
Qed.
Lemma no_us_str z : no_us (str_of_Z z).
Proof.
  unfold no_us. eapply sall_impl; [|apply str_of_Z_chars]. intros a. unfold not_char, int_char.
  destruct (Ascii.eqb_spec a "_"); auto. subst. vm_compute. auto.
Qed.
Lemma str_head z : exists a s, str_of_Z z = String a s /\ int_char a = true.
Proof.
  pose proof (str_of_Z_nonempty z). pose proof (str_of_Z_chars z) as H1. destruct (str_of_Z z) as [|a s]; [congruence|].
  simpl in H1. apply andb_true_iff in H1. exists a, s. tauto.
Qed.
(** the part of the id before the first underscore *)
Definition fam_prefix (f : family) : string :=
  match f with
  | Circular => "CIR" | Feeder => "F"
  | Radial s e => if s then "RS" else if e then "RE" else "R"
  | Diametral j s e => (match s, e with true, true => "DSE" | true, false => "DS" | false, true => "DE" | false, false => "D" end) ++ str_of_Z j
  | Tangencial j s e => (match s, e with true, true => "TSE" | true, false => "TS" | false, true => "TE" | false, false => "T" end) ++ str_of_Z j
  end.
(** a short radial line ends at the subcenter, so the express flag changes neither its id nor its stops *)
Definition norm (f : family) : family := match f with Radial true _ => Radial true false | _ => f end.
Lemma prefix_no_us f : no_us (fam_prefix f).
Proof.
  assert (A : forall s t, no_us s -> no_us t -> no_us (s ++ t)) by (unfold no_us; intros; rewrite sall_app, H, H0; auto).
  destruct f as [| |[] []|j [] []|j [] []]; try reflexivity; apply A; try reflexivity; apply no_us_str.
Qed.
Lemma prefix_inj f f' : fam_prefix f = fam_prefix f' -> norm f = norm f'.
Proof.
  intro E. destruct f as [| |[] []|j [] []|j [] []], f' as [| |[] []|j' [] []|j' [] []]; cbn [fam_prefix norm] in *; auto;
  try (cbn in E; discriminate E);
  try (cbn in E; repeat match type of E with String _ _ = String _ _ => injection E as E end; apply str_of_Z_inj in E; subst; reflexivity);
  exfalso;
  try (destruct (str_head j) as (a & s & X & Y); rewrite X in E); try (destruct (str_head j') as (a' & s' & X' & Y'); rewrite X' in E);
  cbn in E; injection E; intros; subst; try discriminate; vm_compute in *; discriminate.
Qed.
(** routes of a family by zone *)
Definition fam_line (n : nat) (m : mode) (f : family) (z : Z) : route :=
  match f with
  | Circular => feeder_line m z
  | Feeder => feeder_line m z
  | Radial s e => radial_line m s e z
  | Diametral j s e => diametral_line n m j s e z
  | Tangencial j s e => tangencial_line n m j s e z
  end.
Lemma fam_line_id n m f z : f <> Circular -> r_id (fam_line n m f z) = fam_prefix f ++ "_" ++ m_name m ++ "_" ++ str_of_Z z.
Proof. intro N. destruct f as [| |[] []|j [] []|j [] []]; try congruence; unfold fam_line; try reflexivity; cbn; rewrite ?append_assoc; reflexivity. Qed.
Lemma fam_members G P C m f rs r : build_from_parameters G P = Ok C -> family_routes (c_graph C) m f = Ok rs -> In r rs ->
  (f = Circular /\ In r (circular_lines (zones_of P) m)) \/ (f <> Circular /\ exists z, r = fam_line (zones_of P) m f z).
Proof.
  intros H F Hr. destruct (C28_families G P C m H) as (F1 & F2 & F3 & F4 & F5 & F6).
  destruct f as [| |s e|j s e|j s e]; cbn [family_routes] in F.
  - left. split; auto. destruct (Z.lt_ge_cases (p_n P) 2); [rewrite F6 in F by auto; discriminate|]. rewrite F5 in F by auto. inversion F; subst. auto.
  - right. split; [congruence|]. rewrite F1 in F. inversion F; subst. apply in_map_iff in Hr. destruct Hr as (z & <- & _). exists z. reflexivity.
  - right. split; [congruence|]. rewrite F2 in F. inversion F; subst. apply in_map_iff in Hr. destruct Hr as (z & <- & _). exists z. reflexivity.
  - right. split; [congruence|]. destruct (Z.lt_ge_cases j 1) as [L|L]; [destruct (F4 j s e ltac:(lia)); congruence|].
    destruct (Z.lt_ge_cases (p_n P) (2 * j)) as [L2|L2]; [destruct (F4 j s e ltac:(lia)); congruence|].
    destruct (F3 j s e L L2) as [E _]. rewrite E in F. inversion F; subst. apply in_map_iff in Hr. destruct Hr as (z & <- & _). exists z. reflexivity.
  - right. split; [congruence|]. destruct (Z.lt_ge_cases j 1) as [L|L]; [destruct (F4 j s e ltac:(lia)); congruence|].
    destruct (Z.lt_ge_cases (p_n P) (2 * j)) as [L2|L2]; [destruct (F4 j s e ltac:(lia)); congruence|].
    destruct (F3 j s e L L2) as [_ E]. rewrite E in F. inversion F; subst. apply in_map_iff in Hr. destruct Hr as (z & <- & _). exists z. reflexivity.
Qed.
Lemma fam_line_norm n m f f' z : norm f = norm f' -> fam_line n m f z = fam_line n m f' z.
Proof.
  intro E. destruct f as [| |[] e|j s e|j s e], f' as [| |[] e'|j' s' e'|j' s' e']; cbn [norm] in E; inversion E; subst; reflexivity.
Qed.
(** C29: two predefined routes with the same id have mode objects of the same name and are otherwise
    the same line; over all pairs of families, jumps, flags, zones and mode names *)
Theorem C29_equal_ids_equal_lines : forall G P C m m' f f' rs rs' r r',
  build_from_parameters G P = Ok C ->
  family_routes (c_graph C) m f = Ok rs -> In r rs ->
  family_routes (c_graph C) m' f' = Ok rs' -> In r' rs' ->
  r_id r = r_id r' ->
  m_name m = m_name m' /\ norm f = norm f' /\
  r_ni r = r_ni r' /\ r_nr r = r_nr r' /\ r_si r = r_si r' /\ r_sr r = r_sr r' /\ r_type r = r_type r'.
Proof.
  intros G P C m m' f f' rs rs' r r' H F Hr F' Hr' E.
  assert (CI : forall m r, In r (circular_lines (zones_of P) m) -> exists d, (d = "I" \/ d = "R") /\ r_id r = fam_prefix Circular ++ "_" ++ d ++ "_" ++ m_name m).
  { intros m0 r0 [<-|[<-|[]]]; [exists "I"|exists "R"]; split; auto. }
  destruct (fam_members _ _ _ _ _ _ _ H F Hr) as [[-> Hc]|[N (z & ->)]];
  destruct (fam_members _ _ _ _ _ _ _ H F' Hr') as [[-> Hc']|[N' (z' & ->)]].
  - destruct Hc as [<-|[<-|[]]], Hc' as [<-|[<-|[]]]; cbn in E; inversion E; cbn; auto 10.
  - exfalso. destruct (CI _ _ Hc) as (d & Hd & Ed). rewrite Ed, fam_line_id in E by auto.
    apply split_us in E; [|apply prefix_no_us..]. destruct E as [E _]. apply prefix_inj in E. destruct f' as [| |[] ?| |]; cbn in E; congruence.
  - exfalso. destruct (CI _ _ Hc') as (d & Hd & Ed). rewrite Ed, fam_line_id in E by auto.
    apply split_us in E; [|apply prefix_no_us..]. destruct E as [E _]. apply prefix_inj in E. destruct f as [| |[] ?| |]; cbn in E; congruence.
  - rewrite !fam_line_id in E by auto. apply split_us in E; [|apply prefix_no_us..]. destruct E as [E1 E2].
    apply split_us_last in E2; [|apply no_us_str..]. destruct E2 as [En Ez]. apply str_of_Z_inj in Ez. subst z'. apply prefix_inj in E1.
    split; auto. split; auto. rewrite (fam_line_norm _ m' _ _ _ (eq_sym E1)). destruct f as [| |[] []|j [] []|j [] []]; cbn; auto 10.
Qed.
Print Assumptions C29_equal_ids_equal_lines.
(** the family without duplicates: ids inside one call are distinct *)
Theorem C29_ids_distinct_within_family : forall G P C m f rs,
  build_from_parameters G P = Ok C -> family_routes (c_graph C) m f = Ok rs -> NoDup (map r_id rs).
Proof.
  intros G P C m f rs H F. destruct (C28_families G P C m H) as (F1 & F2 & F3 & F4 & F5 & F6).
  assert (K : forall k, f <> Circular -> NoDup (map r_id (map (fam_line (zones_of P) m f) (zone_list k)))).
  { intros k N. rewrite map_map. apply NoDup_map_inj_in.
    - intros x y _ _ E. rewrite !fam_line_id in E by auto. apply split_us in E; [|apply prefix_no_us..]. destruct E as [_ E2].
      apply split_us_last in E2; [|apply no_us_str..]. apply str_of_Z_inj. tauto.
    - unfold zone_list. apply NoDup_map_inj_in; [intros; lia|apply seq_NoDup]. }
  destruct f as [| |s e|j s e|j s e]; cbn [family_routes] in F.
  - destruct (Z.lt_ge_cases (p_n P) 2); [rewrite F6 in F by auto; discriminate|]. rewrite F5 in F by auto. inversion F; subst.
    cbn. constructor; [intros [C'|[]]; discriminate|]. constructor; [intros []|constructor].
  - rewrite F1 in F. inversion F; subst. apply (K (zones_of P)). congruence.
  - rewrite F2 in F. inversion F; subst. apply (K (zones_of P)). congruence.
  - destruct (Z.lt_ge_cases j 1) as [L|L]; [destruct (F4 j s e ltac:(lia)); congruence|].
    destruct (Z.lt_ge_cases (p_n P) (2 * j)) as [L2|L2]; [destruct (F4 j s e ltac:(lia)); congruence|].
    destruct (F3 j s e L L2) as [E _]. rewrite E in F. inversion F; subst. apply (K (family_size (zones_of P) j)). congruence.
  - destruct (Z.lt_ge_cases j 1) as [L|L]; [destruct (F4 j s e ltac:(lia)); congruence|].
    destruct (Z.lt_ge_cases (p_n P) (2 * j)) as [L2|L2]; [destruct (F4 j s e ltac:(lia)); congruence|].
    destruct (F3 j s e L L2) as [_ E]. rewrite E in F. inversion F; subst. apply (K (family_size (zones_of P) j)). congruence.
Qed.
Print Assumptions C29_ids_distinct_within_family.
Example C29_ex : r_id (fam_line 6 (mkMode 9 "a_1" 1 1 1 1 1 1 1 1 1 1 1 1) (Diametral 2 false true) 3) = "DE2_a_1_3".
Proof. vm_compute. reflexivity. Qed.
