(** * PredefProofs: the predefined lines are the documented ones *)
From Coq Require Import String Ascii List ZArith QArith Bool Lia.
From Verif Require Import PyBase PyFacts PyStr PyStrFacts Graph GraphSpec GraphProofs Mode Props_Mode Route Network RouteSpec RouteProofs
  Predef PredefSpec.
Import ListNotations.
Local Open Scope Z_scope.

(** what the route generators see of a parametric city *)
Record ring_city (g : graph) (n : nat) : Prop := mkRing {
  rc_len : length (g_zones g) = n;
  rc_zone : forall i, (i < n)%nat -> exists z, nth_error (g_zones g) i = Some z /\ z_id z = Z.of_nat i + 1 /\
              zone_ids g z = Ok (pid (Z.of_nat i + 1), scid (Z.of_nat i + 1));
  rc_cbd : cbd_id g = Ok 0;
  rc_arc : forall a b, edge_exist g a b = true <-> city_arc (Z.of_nat n) a b
}.
Lemma city_ring G P C : build_from_parameters G P = Ok C -> ring_city (c_graph C) (Z.to_nat (p_n P)).
Proof.
  intro H. destruct (city_facts _ _ _ H) as (V & _ & c & Pf & Sf & Sh & HC & HP & HS).
  set (n := Z.to_nat (p_n P)) in *. split.
  - rewrite (sh_zones _ _ _ _ _ Sh). apply city_zones_length.
  - intros i Hi. rewrite (sh_zones _ _ _ _ _ Sh). exists (mkZone (Z.of_nat i + 1) (PZ i) (SZ i)).
    split; [apply city_zones_nth; auto|]. split; auto. unfold zone_ids, py_nth. cbn [z_p z_sc].
    rewrite (sh_nodes _ _ _ _ _ Sh), city_nodes_P, city_nodes_S by auto. cbn [bind].
    destruct (HP i) as (_ & -> & _). destruct (HS i) as (_ & -> & _). unfold pid, scid. do 2 f_equal; lia.
  - unfold cbd_id, get_cbd. rewrite (sh_nodes _ _ _ _ _ Sh). unfold city_nodes. simpl.
    destruct HC as (-> & Hid & _). simpl. rewrite Hid. reflexivity.
  - intros a b. rewrite (edge_exist_city _ _ _ a b H). destruct V as (Vn & _). unfold n. rewrite Z2Nat.id by auto. reflexivity.
Qed.

(** ** texts *)
Lemma fmt_app l1 l2 : l1 <> [] -> l2 <> [] -> (fmt l1 ++ "," ++ fmt l2)%string = fmt (l1 ++ l2).
Proof.
  unfold fmt. induction l1 as [|a l1 IH]; intros N1 N2; [congruence|]. destruct l1 as [|b l1].
  - destruct l2; [congruence|]. reflexivity.
  - rewrite <- app_comm_cons. cbn [map]. change (String.concat "," (str_of_Z a :: str_of_Z b :: map str_of_Z l1))
      with (str_of_Z a ++ "," ++ String.concat "," (map str_of_Z (b :: l1)))%string.
    rewrite !append_assoc. rewrite (IH ltac:(discriminate) N2). reflexivity.
Qed.
Lemma fmt_one z : str_of_Z z = fmt [z].
Proof. reflexivity. Qed.
Lemma to_list_fmt l : sequences_to_list (Some (fmt l)) = Ok l.
Proof. apply to_list_concat. Qed.
Lemma new_route_fmt id m a b c d ty : ty <> CUSTOM ->
  new_route (Some id) (Some m) (Some (fmt a)) (Some (fmt b)) (Some (fmt c)) (Some (fmt d)) ty = Ok (mkRoute id m a b c d ty).
Proof.
  intro N. unfold new_route. assert (E : is_custom ty = false) by (destruct ty; [congruence|reflexivity|reflexivity]). rewrite E. cbn [andb raise_if bind].
  rewrite !to_list_fmt. reflexivity.
Qed.

Section Ring.
Context (g : graph) (n : nat) (R : ring_city g n) (m : mode).

Lemma mapM_zones {B} (f : zone -> res B) (h : Z -> B) k : (k <= n)%nat ->
  (forall z i, (i < n)%nat -> z_id z = Z.of_nat i + 1 -> zone_ids g z = Ok (pid (Z.of_nat i + 1), scid (Z.of_nat i + 1)) ->
     f z = Ok (h (Z.of_nat i + 1))) ->
  mapM f (firstn k (g_zones g)) = Ok (map h (zone_list k)).
Proof.
  intros Hk H. apply mapM_Forall2. unfold zone_list. rewrite map_map.
  assert (G : forall j, (j <= k)%nat -> Forall2 (fun x y => f x = Ok y) (firstn j (g_zones g)) (map (fun x => h (Z.of_nat x)) (seq 1 j))).
  { induction j as [|j IH]; intro Hj; [constructor|]. destruct (rc_zone _ _ R j ltac:(lia)) as (z & Ez & Iz & Zz).
    assert (Ef : firstn (S j) (g_zones g) = firstn j (g_zones g) ++ [z]).
    { clear - Ez. revert Ez. generalize (g_zones g). induction j; intros [|x l] E; simpl in *; try discriminate.
      - inversion E. reflexivity.
      - f_equal. auto. }
    rewrite Ef, seq_S, map_app. apply Forall2_app; [apply IH; lia|]. constructor; [|constructor].
    rewrite (H z j) by (auto; lia). do 2 f_equal. lia. }
  apply G. auto.
Qed.
Lemma all_zones : firstn n (g_zones g) = g_zones g.
Proof. rewrite <- (rc_len _ _ R). apply firstn_all. Qed.

Lemma feeder_ok : get_feeder_routes g m = Ok (map (feeder_line m) (zone_list n)).
Proof.
  unfold get_feeder_routes. rewrite <- all_zones at 1. apply mapM_zones; auto.
  intros z i Hi Iz Zz. rewrite Zz. cbn [bind]. rewrite Iz. rewrite new_route_fmt by congruence. reflexivity.
Qed.
Lemma radial_ok s e : get_radial_routes g m s e = Ok (map (radial_line m s e) (zone_list n)).
Proof.
  unfold get_radial_routes. rewrite (rc_cbd _ _ R). cbn [bind]. rewrite <- all_zones at 1. apply mapM_zones; auto.
  intros z i Hi Iz Zz. rewrite Zz. cbn [bind]. rewrite Iz.
  destruct s; [|destruct e]; rewrite new_route_fmt by congruence; reflexivity.
Qed.
Lemma jump_end_ok j : jump_end g j = if (0 <? j) && (2 * j <=? Z.of_nat n) then Ok (family_size n j) else Err JumpIsNotValidException.
Proof.
  unfold jump_end. rewrite (rc_len _ _ R). unfold raise_if, family_size.
  destruct (Z.ltb_spec (Z.of_nat n) (2 * j)), (Z.leb_spec j 0), (Z.ltb_spec 0 j), (Z.leb_spec (2 * j) (Z.of_nat n));
    cbn [orb andb]; auto; try lia.
  destruct (Nat.even n) eqn:Ev; cbn [andb].
  - apply Nat.even_spec in Ev. destruct Ev as [q ->]. replace (2 * q / 2)%nat with q by (rewrite Nat.mul_comm, Nat.div_mul; lia).
    destruct (Z.eqb_spec j (Z.of_nat q)), (Z.eqb_spec (2 * j) (Z.of_nat (2 * q))); try lia; f_equal; lia.
  - destruct (Z.eqb_spec (2 * j) (Z.of_nat n)); auto. exfalso.
    assert (Nat.even n = true) by (apply Nat.even_spec; exists (Z.to_nat j); lia). congruence.
Qed.
Lemma family_le j : 0 < j -> 2 * j <= Z.of_nat n -> (family_size n j <= n)%nat.
Proof. intros. unfold family_size. destruct (Z.eqb_spec (2 * j) (Z.of_nat n)); lia. Qed.
Lemma zone2_nxt z j : 1 <= z <= Z.of_nat n -> 0 < j -> 2 * j <= Z.of_nat n -> zone2_id n z j = nxt n z j.
Proof.
  intros Hz Hj Hn. unfold zone2_id, nxt. destruct (Z.leb_spec (z + j) (Z.of_nat n)).
  - rewrite Z.mod_small; lia.
  - rewrite (Z.mod_eq (z - 1 + j)) by lia. assert (E : (z - 1 + j) / Z.of_nat n = 1).
    { symmetry. apply (Z.div_unique _ _ _ (z - 1 + j - Z.of_nat n)); lia. }
    rewrite E. lia.
Qed.
Lemma nxt_range z k : (0 < n)%nat -> 1 <= nxt n z k <= Z.of_nat n.
Proof. intro. unfold nxt. pose proof (Z.mod_pos_bound (z - 1 + k) (Z.of_nat n)). lia. Qed.
Lemma zone_by_id z : 1 <= z <= Z.of_nat n -> exists zo, py_nthZ (g_zones g) (z - 1) = Ok zo /\ zone_ids g zo = Ok (pid z, scid z).
Proof.
  intro Hz. destruct (rc_zone _ _ R (Z.to_nat (z - 1)) ltac:(lia)) as (zo & E & I & Zi). exists zo. split.
  - unfold py_nthZ. destruct (Z.ltb_spec (z - 1) 0); [lia|]. unfold py_nth. rewrite E. reflexivity.
  - rewrite Zi. do 2 f_equal; f_equal; lia.
Qed.
Lemma diametral_ok j s e : 0 < j -> 2 * j <= Z.of_nat n ->
  get_diametral_routes g m j s e = Ok (map (diametral_line n m j s e) (zone_list (family_size n j))).
Proof.
  intros Hj Hn. unfold get_diametral_routes. rewrite (rc_cbd _ _ R). cbn [bind]. rewrite jump_end_ok.
  destruct (Z.ltb_spec 0 j); [|lia]. destruct (Z.leb_spec (2 * j) (Z.of_nat n)); [|lia]. cbn [andb bind].
  apply mapM_zones; [apply family_le; auto|].
  intros z i Hi Iz Zz. rewrite Zz. cbn [bind]. rewrite Iz, (rc_len _ _ R). rewrite zone2_nxt by lia.
  destruct (zone_by_id (nxt n (Z.of_nat i + 1) j)) as (zo & -> & E2); [apply nxt_range; lia|]. cbn [bind]. rewrite E2. cbn [bind].
  unfold diametral_line, line_id. destruct s, e; rewrite new_route_fmt by congruence; unfold two_way; cbn [rev app]; rewrite !append_assoc; reflexivity.
Qed.

Lemma zrange_nil a b : b <= a -> zrange a b = [].
Proof. intro. unfold zrange. replace (Z.to_nat (b - a)) with 0%nat by lia. reflexivity. Qed.
Lemma between_ok z j : 1 <= z <= Z.of_nat n -> 0 < j -> 2 * j <= Z.of_nat n ->
  between_zones n z (nxt n z j) j = map (fun k => nxt n z (Z.of_nat k)) (seq 1 (Z.to_nat (j - 1))).
Proof.
  intros Hz Hj Hn. rewrite <- zone2_nxt by auto. unfold zone2_id, between_zones. destruct (Z.leb_spec (z + j) (Z.of_nat n)).
  - destruct (Z.ltb_spec z (z + j)); [|lia]. destruct (Z.ltb_spec (z + j) z); [lia|]. rewrite app_nil_r. cbn [andb].
    assert (E : (if negb (j =? 1) then zrange (z + 1) (z + j) else []) = zrange (z + 1) (z + j)).
    { destruct (Z.eqb_spec j 1); auto. simpl. subst. rewrite zrange_nil; auto. lia. }
    rewrite E. unfold zrange. replace (z + j - (z + 1)) with (j - 1) by lia. rewrite <- seq_shift, map_map. apply map_ext_in.
    intros k Hk. apply in_seq in Hk. unfold nxt. rewrite Z.mod_small; lia.
  - destruct (Z.ltb_spec z (z + j - Z.of_nat n)); [lia|]. destruct (Z.ltb_spec (z + j - Z.of_nat n) z); [|lia]. cbn [andb app].
    assert (E : (if negb (z =? Z.of_nat n) then zrange (z + 1) (Z.of_nat n + 1) else []) = zrange (z + 1) (Z.of_nat n + 1)).
    { destruct (Z.eqb_spec z (Z.of_nat n)); auto. simpl. rewrite zrange_nil; auto. lia. }
    rewrite E. replace (Z.to_nat (j - 1)) with (Z.to_nat (Z.of_nat n - z) + Z.to_nat (z + j - 1 - Z.of_nat n))%nat by lia.
    rewrite seq_app, map_app. f_equal.
    + unfold zrange. replace (Z.of_nat n + 1 - (z + 1)) with (Z.of_nat n - z) by lia. rewrite <- seq_shift, map_map. apply map_ext_in.
      intros k Hk. apply in_seq in Hk. unfold nxt. rewrite Z.mod_small; lia.
    + unfold zrange. replace (z + j - Z.of_nat n - 1) with (z + j - 1 - Z.of_nat n) by lia.
      apply nth_error_ext. intro k. rewrite !nth_error_map.
      destruct (Nat.lt_ge_cases k (Z.to_nat (z + j - 1 - Z.of_nat n))).
      * rewrite (nth_error_nth' _ 0%nat) by (rewrite seq_length; auto). rewrite (nth_error_nth' _ 0%nat) by (rewrite seq_length; auto).
        rewrite !seq_nth by auto. cbn [option_map]. f_equal. unfold nxt.
        rewrite (Z.mod_eq (z - 1 + _)) by lia.
        match goal with |- context [?a / ?b] => assert (X : a / b = 1) end.
        { symmetry. apply (Z.div_unique _ _ _ (z - 1 + Z.of_nat (1 + Z.to_nat (Z.of_nat n - z) + k) - Z.of_nat n)); lia. }
        rewrite X. lia.
      * assert (N1 : nth_error (seq 0 (Z.to_nat (z + j - 1 - Z.of_nat n))) k = None) by (apply nth_error_None; rewrite seq_length; lia).
        assert (N2 : nth_error (seq (1 + Z.to_nat (Z.of_nat n - z)) (Z.to_nat (z + j - 1 - Z.of_nat n))) k = None) by (apply nth_error_None; rewrite seq_length; lia).
        rewrite N1, N2. reflexivity.
Qed.

Lemma firstn_S_nth {A} (l : list A) k x : nth_error l k = Some x -> firstn (S k) l = firstn k l ++ [x].
Proof.
  revert l; induction k; intros [|y l] H; simpl in *; try discriminate; [congruence|]. f_equal. auto.
Qed.
Lemma nth_error_rev' {A} (l : list A) k : (k < length l)%nat -> nth_error (rev l) k = nth_error l (length l - 1 - k).
Proof.
  intro H. destruct (nth_error l (length l - 1 - k)) as [x|] eqn:E.
  - rewrite (nth_error_nth' _ x) by (rewrite rev_length; auto). rewrite rev_nth by auto.
    replace (length l - S k)%nat with (length l - 1 - k)%nat by lia. rewrite (nth_error_nth _ _ _ E). reflexivity.
  - apply nth_error_None in E. lia.
Qed.
Lemma append_between_ok ids l1 l2 : l1 <> [] -> l2 <> [] -> (forall z, In z ids -> 1 <= z <= Z.of_nat n) ->
  append_between g ids (fmt l1) (fmt l2) = Ok (fmt (l1 ++ map scid ids), fmt (l2 ++ map scid (rev ids))).
Proof.
  intros N1 N2 Hr. unfold append_between.
  assert (G : forall k, (k <= length ids)%nat -> foldM (fun acc i =>
      let* a := py_nth ids i in
      let* b := py_nth ids (length ids - 1 - i) in
      let* z3 := py_nthZ (g_zones g) (a - 1) in
      let* z4 := py_nthZ (g_zones g) (b - 1) in
      let* i3 := zone_ids g z3 in
      let* i4 := zone_ids g z4 in
      Ok (fst acc ++ "," ++ str_of_Z (snd i3), snd acc ++ "," ++ str_of_Z (snd i4))%string)
    (seq 0 k) (fmt l1, fmt l2) = Ok (fmt (l1 ++ map scid (firstn k ids)), fmt (l2 ++ map scid (firstn k (rev ids))))).
  { induction k as [|k IH]; intro Hk; [simpl; rewrite !app_nil_r; auto|].
    rewrite seq_S, foldM_app, IH by lia. cbn [bind foldM Nat.add].
    destruct (nth_error ids k) as [a|] eqn:Ea; [|apply nth_error_None in Ea; lia].
    destruct (nth_error ids (length ids - 1 - k)) as [b|] eqn:Eb; [|apply nth_error_None in Eb; lia].
    unfold py_nth. rewrite Ea, Eb. cbn [bind].
    destruct (zone_by_id a) as (z3 & E3 & I3); [apply Hr; eapply nth_error_In; eauto|].
    destruct (zone_by_id b) as (z4 & E4 & I4); [apply Hr; eapply nth_error_In; eauto|].
    rewrite E3. cbn [bind]. rewrite E4. cbn [bind]. rewrite I3. cbn [bind]. rewrite I4. cbn [bind fst snd].
    rewrite (firstn_S_nth _ _ _ Ea). rewrite (firstn_S_nth (rev ids) k b) by (rewrite nth_error_rev' by lia; auto).
    rewrite !(fmt_one (scid _)). rewrite !fmt_app; try (destruct l1, l2; cbn; congruence).
    rewrite !map_app, !app_assoc. reflexivity. }
  rewrite G by lia. rewrite !firstn_all2 by (rewrite ?rev_length; lia). reflexivity.
Qed.
Lemma nxt_0 z : 1 <= z <= Z.of_nat n -> nxt n z 0 = z.
Proof. intro. unfold nxt. rewrite Z.mod_small; lia. Qed.
Lemma ring_part_eq z j : 1 <= z <= Z.of_nat n -> 0 < j ->
  ring_part n z j = scid z :: map scid (map (fun k => nxt n z (Z.of_nat k)) (seq 1 (Z.to_nat (j - 1)))) ++ [scid (nxt n z j)].
Proof.
  intros Hz Hj. unfold ring_part. cbn [seq map]. change (Z.of_nat 0) with 0. rewrite nxt_0 by auto. f_equal.
  replace (Z.to_nat j) with (S (Z.to_nat (j - 1))) by lia. rewrite seq_S, map_app, map_map. f_equal. cbn [map].
  do 3 f_equal. lia.
Qed.
Lemma tangencial_ok j s e : 0 < j -> 2 * j <= Z.of_nat n ->
  get_tangencial_routes g m j s e = Ok (map (tangencial_line n m j s e) (zone_list (family_size n j))).
Proof.
  intros Hj Hn. unfold get_tangencial_routes. rewrite jump_end_ok.
  destruct (Z.ltb_spec 0 j); [|lia]. destruct (Z.leb_spec (2 * j) (Z.of_nat n)); [|lia]. cbn [andb bind].
  apply mapM_zones; [apply family_le; auto|].
  intros z i Hi Iz Zz. rewrite Zz. cbn [bind]. rewrite Iz, (rc_len _ _ R). rewrite zone2_nxt by lia.
  destruct (zone_by_id (nxt n (Z.of_nat i + 1) j)) as (zo & -> & E2); [apply nxt_range; lia|]. cbn [bind]. rewrite E2. cbn [bind].
  rewrite between_ok by lia. set (zi := Z.of_nat i + 1). set (ids := map (fun k => nxt n zi (Z.of_nat k)) (seq 1 (Z.to_nat (j - 1)))).
  assert (Hr : forall z, In z ids -> 1 <= z <= Z.of_nat n).
  { intros x Hx. apply in_map_iff in Hx. destruct Hx as (k & <- & _). apply nxt_range. lia. }
  unfold tangencial_line, line_id. rewrite ring_part_eq by (unfold zi; lia). fold ids.
  rewrite !(fmt_one (scid _)).
  destruct s; rewrite append_between_ok by (auto; congruence); cbn [bind fst snd]; rewrite !fmt_app by (cbn; congruence);
  destruct e; rewrite new_route_fmt by congruence; unfold two_way; cbn [rev app]; rewrite ?rev_app_distr; cbn [rev app];
  rewrite ?map_rev, ?rev_app_distr, <- ?app_assoc, ?append_assoc; cbn [rev app]; rewrite <- ?app_assoc; reflexivity.
Qed.

Lemma zone_list_nth k i : (i < k)%nat -> nth_error (zone_list k) i = Some (Z.of_nat i + 1).
Proof.
  intro H. unfold zone_list. rewrite nth_error_map. rewrite (nth_error_nth' _ 0%nat) by (rewrite seq_length; auto).
  rewrite seq_nth by auto. simpl. f_equal. lia.
Qed.
Lemma zone_list_length k : length (zone_list k) = k.
Proof. unfold zone_list. rewrite map_length, seq_length. reflexivity. Qed.
Lemma circular_ok : (2 <= n)%nat -> get_circular_routes g m = Ok (circular_lines n m).
Proof.
  intro Hn. unfold get_circular_routes. rewrite (rc_len _ _ R). destruct (Nat.leb_spec n 1); [lia|]. cbn [raise_if].
  set (step := fun (acc : string * string) (i : nat) => let '(si, sr) := acc in
      let* zi := py_nth (g_zones g) i in
      let* zr := py_nth (g_zones g) (n - 1 - i) in
      let* a := zone_ids g zi in
      let* b := zone_ids g zr in
      match si with
      | EmptyString => Ok (si ++ str_of_Z (snd a), sr ++ str_of_Z (snd b))%string
      | _ => Ok (si ++ "," ++ str_of_Z (snd a), sr ++ "," ++ str_of_Z (snd b))%string
      end).
  assert (G : forall k, (k <= n)%nat -> foldM step (seq 0 k) (EmptyString, EmptyString) =
    Ok (fmt (map scid (firstn k (zone_list n))), fmt (map scid (firstn k (rev (zone_list n)))))).
  { induction k as [|k IH]; intro Hk; [reflexivity|]. rewrite seq_S, foldM_app, IH by lia. cbn [bind foldM Nat.add].
    unfold step at 1.
    destruct (rc_zone _ _ R k ltac:(lia)) as (z1 & E1 & _ & I1).
    destruct (rc_zone _ _ R (n - 1 - k)%nat ltac:(lia)) as (z2 & E2 & _ & I2).
    unfold py_nth. rewrite E1, E2. cbn [bind]. rewrite I1, I2. cbn [bind snd].
    assert (F1 : nth_error (zone_list n) k = Some (Z.of_nat k + 1)) by (apply zone_list_nth; lia).
    assert (F2 : nth_error (rev (zone_list n)) k = Some (Z.of_nat (n - 1 - k) + 1)).
    { rewrite nth_error_rev' by (rewrite zone_list_length; lia). rewrite zone_list_length. apply zone_list_nth. lia. }
    rewrite (firstn_S_nth _ _ _ F1), (firstn_S_nth _ _ _ F2), !map_app. cbn [map].
    destruct k as [|k].
    - cbn [firstn map app]. unfold fmt at 1 2. cbn [map String.concat]. cbn [bind]. reflexivity.
    - assert (L1 : map scid (firstn (S k) (zone_list n)) <> []).
      { destruct (zone_list n) eqn:E; [|cbn; congruence]. pose proof (zone_list_length n) as X. rewrite E in X. simpl in X. lia. }
      assert (L2 : map scid (firstn (S k) (rev (zone_list n))) <> []).
      { destruct (rev (zone_list n)) eqn:E; [|cbn; congruence]. pose proof (rev_length (zone_list n)) as X. rewrite E, zone_list_length in X. simpl in X. lia. }
      pose proof (concat_nonempty _ L1) as NE. rewrite <- !fmt_app by (auto; congruence).
      unfold fmt in *. destruct (String.concat "," (map str_of_Z (map scid (firstn (S k) (zone_list n))))); [congruence|]. reflexivity. }
  unfold step in G. rewrite G by lia. cbn [bind fst snd]. clear G step.
  destruct (rc_zone _ _ R 0%nat ltac:(lia)) as (z1 & E1 & _ & I1).
  destruct (rc_zone _ _ R (n - 1)%nat ltac:(lia)) as (z2 & E2 & _ & I2).
  unfold py_nth. rewrite E1, E2. cbn [bind]. rewrite I1, I2. cbn [bind snd].
  rewrite !firstn_all2 by (rewrite ?rev_length, zone_list_length; lia).
  replace (Z.of_nat 0 + 1) with 1 by lia. replace (Z.of_nat (n - 1) + 1) with (Z.of_nat n) by lia.
  assert (L1 : map scid (zone_list n) <> []).
  { intro C. apply (f_equal (@length Z)) in C. rewrite map_length, zone_list_length in C. simpl in C. lia. }
  assert (L2 : map scid (rev (zone_list n)) <> []).
  { intro C. apply (f_equal (@length Z)) in C. rewrite map_length, rev_length, zone_list_length in C. simpl in C. lia. }
  rewrite !(fmt_one (scid _)). rewrite !fmt_app by (auto; congruence).
  change (Some EmptyString) with (Some (fmt [])). rewrite !new_route_fmt by congruence. reflexivity.
Qed.
End Ring.
