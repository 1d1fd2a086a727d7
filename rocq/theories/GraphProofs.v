(** * GraphProofs: lemmas about the parametric city *)
From Coq Require Import String List ZArith QArith Bool Lia Lqa Permutation.
From Verif Require Import PyBase PyFacts PyStr Graph GraphSpec.
Import ListNotations.
Local Open Scope Q_scope.

(** ** The validator *)
Lemma existsb_false {A} (f : A -> bool) l : existsb f l = false <-> forall x, In x l -> f x = false.
Proof.
  induction l as [|a l IH]; simpl; [split; auto; intros; contradiction|].
  rewrite orb_false_iff, IH. split.
  - intros [H1 H2] x [<-|H]; auto.
  - intro H; split; auto.
Qed.

Lemma opt_list_check n ok (bad : Q -> bool) e1 e2 o :
  (forall x, bad x = false <-> ok x) ->
  (match o with
   | None => Ok tt
   | Some a => raise_if (negb (Z.of_nat (length a) =? n)%Z) e1 (raise_if (existsb bad a) e2 (Ok tt))
   end = Ok tt <-> valid_opt_list n ok o).
Proof.
  intro H. destruct o as [l|]; simpl; [|tauto].
  unfold raise_if. destruct (Z.of_nat (length l) =? n)%Z eqn:E; simpl.
  - apply Z.eqb_eq in E. destruct (existsb bad l) eqn:B.
    + split; [discriminate|]. intros [_ C]. exfalso.
      apply existsb_exists in B. destruct B as [x [Hx Bx]]. apply C in Hx. apply H in Hx. congruence.
    + split; auto. intros _. split; auto. intros x Hx. apply H.
      rewrite existsb_false in B. auto.
  - apply Z.eqb_neq in E. split; [discriminate|]. tauto.
Qed.

Lemma bind_tt_ok {B} (r : res unit) (k : res B) b :
  bind r (fun _ => k) = Ok b <-> r = Ok tt /\ k = Ok b.
Proof. destruct r as [[]|e]; simpl; intuition congruence. Qed.

Lemma raise_if_iff {A} c e (k : res A) a : raise_if c e k = Ok a <-> c = false /\ k = Ok a.
Proof. unfold raise_if; destruct c; intuition congruence. Qed.

Lemma validator_iff P b : parameters_validator P = Ok b <-> b = true /\ valid_params P.
Proof.
  unfold parameters_validator, valid_params.
  rewrite !raise_if_iff, !bind_tt_ok.
  rewrite (opt_list_check (p_n P) (in_range 0 360) _ _ _ (p_angles P)).
  2:{ intro x. rewrite orb_false_iff. unfold in_range. rewrite !Qltb_ge. tauto. }
  rewrite (opt_list_check (p_n P) (fun x => 0 <= x) _ _ _ (p_Gi P)) by (intro; apply Qltb_ge).
  rewrite (opt_list_check (p_n P) (fun x => 0 <= x) _ _ _ (p_Hi P)) by (intro; apply Qltb_ge).
  rewrite Z.ltb_ge, !Qltb_ge.
  assert (E : (match p_etha P, p_etha_zone P with
     | None, Some _ => Err EthaValueRequiredException
     | Some _, None => Err EthaZoneValueRequiredException
     | Some e, Some z =>
         if Qltb e 0 || Qltb 1 e then Err EthaValueIsNotValidException
         else if (z <=? 0)%Z || (p_n P <? z)%Z then Err EthaZoneValueIsNotValidException else Ok tt
     | None, None => Ok tt end = Ok tt) <->
     match p_etha P, p_etha_zone P with
     | None, None => True
     | Some e, Some z => in_range 0 1 e /\ (1 <= z <= p_n P)%Z
     | _, _ => False end).
  { destruct (p_etha P) as [e|], (p_etha_zone P) as [z|]; try (split; (discriminate || tauto)).
    unfold in_range.
    destruct (Qltb e 0) eqn:E1; simpl; [split; [discriminate|]; qb; lra|].
    destruct (Qltb 1 e) eqn:E2; simpl; [split; [discriminate|]; qb; lra|].
    qb. destruct (z <=? 0)%Z eqn:E3; simpl.
    - apply Z.leb_le in E3. split; [discriminate|]. lia.
    - apply Z.leb_gt in E3. destruct (p_n P <? z)%Z eqn:E4; simpl.
      + apply Z.ltb_lt in E4. split; [discriminate|]. lia.
      + apply Z.ltb_ge in E4. split; auto. intros _. repeat split; auto; lia. }
  rewrite E. split.
  - intros (?&?&?&?&?&?&?&?&H). inversion H. intuition.
  - intros (-> & ?). intuition.
Qed.

(** ** Closed form of the arcs *)
Definition PZ (i : nat) : nat := (1 + 2 * i)%nat.
Definition SZ (i : nat) : nat := (2 + 2 * i)%nat.
Definition city_zones (n : nat) : list zone :=
  map (fun i => mkZone (Z.of_nat i + 1) (PZ i) (SZ i)) (seq 0 n).
Definition nextz (n i : nat) : nat := if Nat.eqb i (n - 1) then 0%nat else S i.
Definition city_arcs (n : nat) : list (nat * nat) :=
  match n with
  | 0%nat => []
  | 1%nat => [(PZ 0, SZ 0); (SZ 0, PZ 0); (SZ 0, 0%nat); (0%nat, SZ 0)]
  | 2%nat => [(PZ 0, SZ 0); (SZ 0, PZ 0); (SZ 0, 0%nat); (0%nat, SZ 0); (SZ 0, SZ 1); (SZ 1, SZ 0);
              (PZ 1, SZ 1); (SZ 1, PZ 1); (SZ 1, 0%nat); (0%nat, SZ 1)]
  | _ => flat_map (fun i => [(PZ i, SZ i); (SZ i, PZ i); (SZ i, 0%nat); (0%nat, SZ i);
                             (SZ i, SZ (nextz n i)); (SZ (nextz n i), SZ i)]) (seq 0 n)
  end.

Lemma city_zones_length n : length (city_zones n) = n.
Proof. unfold city_zones. rewrite map_length, seq_length. reflexivity. Qed.

Lemma city_zones_nth n i : (i < n)%nat ->
  nth_error (city_zones n) i = Some (mkZone (Z.of_nat i + 1) (PZ i) (SZ i)).
Proof.
  intro H. unfold city_zones.
  assert (E : nth_error (seq 0 n) i = Some i).
  { rewrite nth_error_nth' with (d := 0%nat) by (rewrite seq_length; lia).
    rewrite seq_nth; auto. }
  rewrite (map_nth_error _ _ _ E). reflexivity.
Qed.

Lemma flat_map_concat_map' {A B} (f : A -> list B) l : concat (map f l) = flat_map f l.
Proof. symmetry; apply flat_map_concat_map. Qed.

Lemma zone_arcs_city n : zone_arcs (city_zones n) = Ok (city_arcs n).
Proof.
  destruct n as [|[|[|n]]]; try reflexivity.
  set (m := S (S (S n))).
  assert (L : length (city_zones m) = m) by apply city_zones_length.
  assert (E : zone_arcs (city_zones m) =
    bind (mapM (ring_arcs (city_zones m)) (seq 0 (length (city_zones m)))) (fun ls => Ok (concat ls))).
  { unfold m. reflexivity. }
  rewrite E, L.
  rewrite (mapM_all_ok _ (fun i => [(PZ i, SZ i); (SZ i, PZ i); (SZ i, 0%nat); (0%nat, SZ i);
                             (SZ i, SZ (nextz m i)); (SZ (nextz m i), SZ i)])).
  - cbn [bind]. rewrite flat_map_concat_map'. reflexivity.
  - intros i Hi. apply in_seq in Hi. unfold ring_arcs, py_nth.
    rewrite city_zones_nth by lia. cbn [bind]. rewrite L.
    fold (nextz m i).
    rewrite city_zones_nth by (unfold nextz; destruct (Nat.eqb_spec i (m - 1)); lia).
    reflexivity.
Qed.

Fixpoint numbered (k : Z) (arcs : list (nat * nat)) : list edge :=
  match arcs with
  | [] => []
  | (a, b) :: l => mkEdge (k + 1) a b :: numbered (k + 1) l
  end.

Lemma numbered_length k arcs : length (numbered k arcs) = length arcs.
Proof. revert k; induction arcs as [|[a b] l IH]; intro k; simpl; auto. Qed.

Lemma numbered_ends k arcs : map (fun e => (e_n1 e, e_n2 e)) (numbered k arcs) = arcs.
Proof. revert k; induction arcs as [|[a b] l IH]; intro k; simpl; auto. f_equal; auto. Qed.

Lemma numbered_ids k arcs : map e_id (numbered k arcs) =
  map (fun i => (k + Z.of_nat i + 1)%Z) (seq 0 (length arcs)).
Proof.
  revert k; induction arcs as [|[a b] l IH]; intro k; simpl; auto.
  f_equal; [lia|]. rewrite IH, <- seq_shift, map_map. apply map_ext. intro; lia.
Qed.

Definition arc_ok (nodes : list node) (ab : nat * nat) : Prop :=
  exists a b, nth_error nodes (fst ab) = Some a /\ nth_error nodes (snd ab) = Some b /\
              check_edge a b = Ok tt.

Lemma add_edges_ok nodes arcs es :
  (forall ab, In ab arcs -> arc_ok nodes ab) ->
  foldM (add_edge nodes) arcs es = Ok (es ++ numbered (Z.of_nat (length es)) arcs).
Proof.
  revert es; induction arcs as [|[a b] l IH]; intros es H; simpl.
  - rewrite app_nil_r. reflexivity.
  - destruct (H (a, b) (or_introl eq_refl)) as (na & nb & Ha & Hb & Hc). simpl in *.
    unfold add_edge at 1, py_nth. simpl. rewrite Ha. simpl. rewrite Hb. simpl. rewrite Hc. simpl.
    rewrite IH by (intros; apply H; right; auto).
    rewrite app_length. simpl. rewrite <- app_assoc. simpl. do 5 f_equal. lia.
Qed.

(** ** Shape of a city under construction *)
Definition city_nodes (n : nat) (c : node) (Pf Sf : nat -> node) : list node :=
  c :: flat_map (fun i => [Pf i; Sf i]) (seq 0 n).

Record shape (n : nat) (c : node) (Pf Sf : nat -> node) (g : graph) : Prop := mkShape {
  sh_nodes : g_nodes g = city_nodes n c Pf Sf;
  sh_ids : g_nodes_id g = map nd_id (g_nodes g);
  sh_zones : g_zones g = city_zones n;
  sh_edges : g_edges g = numbered 0 (city_arcs n);
  sh_kc : nd_kind c = CBD;
  sh_kp : forall i, (i < n)%nat -> nd_kind (Pf i) = Periphery;
  sh_ks : forall i, (i < n)%nat -> nd_kind (Sf i) = Subcenter
}.

Lemma flat2_length {A} (f g : nat -> A) a n : length (flat_map (fun i => [f i; g i]) (seq a n)) = (2 * n)%nat.
Proof. revert a; induction n; intro a; simpl; auto. rewrite IHn. lia. Qed.

Lemma flat2_nth_even {A} (f g : nat -> A) a n i : (i < n)%nat ->
  nth_error (flat_map (fun i => [f i; g i]) (seq a n)) (2 * i) = Some (f (a + i)%nat).
Proof.
  revert a i; induction n; intros a i H; [lia|].
  destruct i.
  - simpl. rewrite Nat.add_0_r. reflexivity.
  - replace (2 * S i)%nat with (S (S (2 * i))) by lia. cbn [seq flat_map app nth_error].
    rewrite IHn by lia. f_equal. f_equal. lia.
Qed.
Lemma flat2_nth_odd {A} (f g : nat -> A) a n i : (i < n)%nat ->
  nth_error (flat_map (fun i => [f i; g i]) (seq a n)) (1 + 2 * i) = Some (g (a + i)%nat).
Proof.
  revert a i; induction n; intros a i H; [lia|].
  destruct i.
  - simpl. rewrite Nat.add_0_r. reflexivity.
  - replace (1 + 2 * S i)%nat with (S (S (1 + 2 * i))) by lia. cbn [seq flat_map app nth_error].
    rewrite IHn by lia. f_equal. f_equal. lia.
Qed.

Lemma city_nodes_0 n c Pf Sf : nth_error (city_nodes n c Pf Sf) 0 = Some c.
Proof. reflexivity. Qed.
Lemma city_nodes_P n c Pf Sf i : (i < n)%nat -> nth_error (city_nodes n c Pf Sf) (PZ i) = Some (Pf i).
Proof. intro H. unfold city_nodes, PZ. simpl. apply (flat2_nth_even Pf Sf 0 n i H). Qed.
Lemma city_nodes_S n c Pf Sf i : (i < n)%nat -> nth_error (city_nodes n c Pf Sf) (SZ i) = Some (Sf i).
Proof.
  intro H. unfold city_nodes, SZ. change (2 + 2 * i)%nat with (S (1 + 2 * i)).
  cbn [nth_error]. apply (flat2_nth_odd Pf Sf 0 n i H).
Qed.
Lemma city_nodes_length n c Pf Sf : length (city_nodes n c Pf Sf) = (1 + 2 * n)%nat.
Proof. unfold city_nodes. cbn [length]. rewrite flat2_length. lia. Qed.

Lemma nextz_lt n i : (i < n)%nat -> (nextz n i < n)%nat.
Proof. unfold nextz. destruct (Nat.eqb_spec i (n - 1)); lia. Qed.

(** every closed-form arc is one of five kinds *)
Inductive narc (n : nat) : nat -> nat -> Prop :=
| na_ps i : (i < n)%nat -> narc n (PZ i) (SZ i)
| na_sp i : (i < n)%nat -> narc n (SZ i) (PZ i)
| na_sc i : (i < n)%nat -> narc n (SZ i) 0
| na_cs i : (i < n)%nat -> narc n 0 (SZ i)
| na_ss i : (i < n)%nat -> (2 <= n)%nat -> narc n (SZ i) (SZ (nextz n i))
| na_ss' i : (i < n)%nat -> (2 <= n)%nat -> narc n (SZ (nextz n i)) (SZ i).

Lemma city_arcs_narc n a b : In (a, b) (city_arcs n) <-> narc n a b.
Proof.
  split.
  - intro H. destruct n as [|[|[|n]]].
    + contradiction.
    + simpl in H. repeat (destruct H as [H|H]; [inversion H; subst|]); try contradiction;
        try (constructor; lia).
    + simpl in H. repeat (destruct H as [H|H]; [inversion H; subst|]); try contradiction.
      * apply (na_ps 2 0); lia. * apply (na_sp 2 0); lia. * apply (na_sc 2 0); lia.
      * apply (na_cs 2 0); lia. * apply (na_ss 2 0); lia. * apply (na_ss 2 1); lia.
      * apply (na_ps 2 1); lia. * apply (na_sp 2 1); lia. * apply (na_sc 2 1); lia.
      * apply (na_cs 2 1); lia.
    + unfold city_arcs in H. set (m := S (S (S n))) in *. apply in_flat_map in H.
      destruct H as [i [Hi H]]. apply in_seq in Hi.
      destruct H as [H|[H|[H|[H|[H|[H|[]]]]]]]; inversion H; subst;
        constructor; lia.
  - intro H. destruct n as [|[|[|n]]].
    + inversion H; lia.
    + inversion H; subst; try lia; assert (i = 0)%nat by lia; subst; simpl; tauto.
    + inversion H; subst; assert (Hi : (i = 0 \/ i = 1)%nat) by lia;
        destruct Hi; subst; unfold nextz; simpl; tauto.
    + unfold city_arcs. set (m := S (S (S n))) in *. apply in_flat_map.
      inversion H; subst; exists i; (split; [apply in_seq; lia|]); simpl; tauto.
Qed.

Lemma narc_ok n c Pf Sf ab :
  nd_kind c = CBD -> (forall i, (i < n)%nat -> nd_kind (Pf i) = Periphery) ->
  (forall i, (i < n)%nat -> nd_kind (Sf i) = Subcenter) ->
  In ab (city_arcs n) -> arc_ok (city_nodes n c Pf Sf) ab.
Proof.
  intros Kc Kp Ks H. destruct ab as [a b]. apply city_arcs_narc in H. unfold arc_ok; simpl.
  inversion H; subst.
  - exists (Pf i), (Sf i). rewrite city_nodes_P, city_nodes_S by auto. repeat split; auto.
    unfold check_edge. rewrite Kp, Ks by auto. reflexivity.
  - exists (Sf i), (Pf i). rewrite city_nodes_P, city_nodes_S by auto. repeat split; auto.
    unfold check_edge. rewrite Kp, Ks by auto. reflexivity.
  - exists (Sf i), c. rewrite city_nodes_0, city_nodes_S by auto. repeat split; auto.
    unfold check_edge. rewrite Kc, Ks by auto. reflexivity.
  - exists c, (Sf i). rewrite city_nodes_0, city_nodes_S by auto. repeat split; auto.
    unfold check_edge. rewrite Kc, Ks by auto. reflexivity.
  - pose proof (nextz_lt n i H0).
    exists (Sf i), (Sf (nextz n i)). rewrite !city_nodes_S by auto. repeat split; auto.
    unfold check_edge. rewrite !Ks by auto. reflexivity.
  - pose proof (nextz_lt n i H0).
    exists (Sf (nextz n i)), (Sf i). rewrite !city_nodes_S by auto. repeat split; auto.
    unfold check_edge. rewrite !Ks by auto. reflexivity.
Qed.

(** [__build_edges] succeeds and its result only depends on the number of zones *)
Lemma build_edges_shape n c Pf Sf nodes ids es :
  nodes = city_nodes n c Pf Sf -> ids = map nd_id nodes ->
  nd_kind c = CBD -> (forall i, (i < n)%nat -> nd_kind (Pf i) = Periphery) ->
  (forall i, (i < n)%nat -> nd_kind (Sf i) = Subcenter) ->
  exists g, build_edges (mkGraph nodes ids (city_zones n) es) = Ok g /\ shape n c Pf Sf g.
Proof.
  intros -> -> Kc Kp Ks. unfold build_edges. simpl g_zones. rewrite zone_arcs_city.
  cbn [bind]. simpl g_nodes.
  rewrite add_edges_ok by (intros; apply narc_ok; auto).
  cbn [bind app]. eexists; split; [reflexivity|].
  constructor; auto.
Qed.

(** ** Zone loop *)
Definition raw_angle (n : Z) (i : nat) : Q := 360 / inject_Z n * inject_Z (Z.of_nat i).
Definition raw_node (G : geo) (k : kind) (id : Z) (r a w : Q) (z : Z) (nm : string) : node :=
  mkNode k id (r * geo_cos G a) (r * geo_sin G a) r a w z nm.
Definition raw_P (G : geo) (P : params) (i : nat) : node :=
  raw_node G Periphery (2 * Z.of_nat i + 1) (p_l P + p_g P * p_l P) (raw_angle (p_n P) i) (p_p P)
    (Z.of_nat i + 1) (String.append "P_" (str_of_Z (Z.of_nat i + 1))).
Definition raw_S (G : geo) (P : params) (i : nat) : node :=
  raw_node G Subcenter (2 * Z.of_nat i + 2) (p_l P) (raw_angle (p_n P) i) (p_p P)
    (Z.of_nat i + 1) (String.append "SC_" (str_of_Z (Z.of_nat i + 1))).

Lemma new_node_ok k id x y r a w z nm :
  (k = CBD -> z = 0%Z) -> 0 <= r -> 0 <= a -> a <= 360 -> 0 <= w ->
  new_node k id x y r a w z nm = Ok (mkNode k id x y r a w z nm).
Proof.
  intros Hk Hr Ha Ha' Hw. unfold new_node, raise_if.
  assert (kind_eqb k CBD && negb (z =? 0)%Z = false) as ->.
  { destruct k; simpl; auto. rewrite Hk by auto. reflexivity. }
  rewrite (proj2 (Qltb_ge r 0)), (proj2 (Qltb_ge a 0)), (proj2 (Qltb_ge 360 a)), (proj2 (Qltb_ge w 0)) by auto.
  reflexivity.
Qed.

Lemma raw_angle_range n i : (0 <= Z.of_nat i < n)%Z -> 0 <= raw_angle n i /\ raw_angle n i <= 360.
Proof.
  intros [H0 H1]. unfold raw_angle.
  assert (Hn : 0 < inject_Z n) by (change 0 with (inject_Z 0); rewrite <- Zlt_Qlt; lia).
  assert (Hi : 0 <= inject_Z (Z.of_nat i)) by (change 0 with (inject_Z 0); rewrite <- Zle_Qle; lia).
  assert (Hin : inject_Z (Z.of_nat i) <= inject_Z n) by (rewrite <- Zle_Qle; lia).
  assert (E : 360 / inject_Z n * inject_Z (Z.of_nat i) == 360 * (inject_Z (Z.of_nat i) / inject_Z n)).
  { field. lra. }
  assert (0 <= inject_Z (Z.of_nat i) / inject_Z n).
  { apply Qle_shift_div_l; lra. }
  assert (inject_Z (Z.of_nat i) / inject_Z n <= 1).
  { apply Qle_shift_div_r; lra. }
  rewrite E. split; lra.
Qed.

Lemma city_nodes_snoc n c Pf Sf :
  city_nodes (S n) c Pf Sf = city_nodes n c Pf Sf ++ [Pf n; Sf n].
Proof.
  unfold city_nodes. rewrite seq_S, flat_map_app. simpl. reflexivity.
Qed.
Lemma city_zones_snoc n : city_zones (S n) = city_zones n ++ [mkZone (Z.of_nat n + 1) (PZ n) (SZ n)].
Proof. unfold city_zones. rewrite seq_S, map_app. reflexivity. Qed.

Lemma city_ids_bound n c Pf Sf x : nd_id c = 0%Z ->
  (forall i, nd_id (Pf i) = (2 * Z.of_nat i + 1)%Z) ->
  (forall i, nd_id (Sf i) = (2 * Z.of_nat i + 2)%Z) ->
  In x (map nd_id (city_nodes n c Pf Sf)) -> (0 <= x <= 2 * Z.of_nat n)%Z.
Proof.
  intros Hc Hp Hs H. unfold city_nodes in H. simpl in H. destruct H as [H|H]; [lia|].
  apply in_map_iff in H. destruct H as [nd [<- H]]. apply in_flat_map in H.
  destruct H as [i [Hi [<-|[<-|[]]]]]; apply in_seq in Hi; rewrite ?Hp, ?Hs; lia.
Qed.

Lemma zone_loop G P c k :
  valid_params P -> nd_kind c = CBD -> nd_id c = 0%Z -> (k <= Z.to_nat (p_n P))%nat ->
  exists g, foldM (add_param_zone G (p_n P) (p_l P) (p_g P) (p_p P)) (seq 0 k) (add_cbd empty_graph c) = Ok g
    /\ shape k c (raw_P G P) (raw_S G P) g.
Proof.
  intros V Kc Ic. induction k as [|k IH]; intro Hk.
  - exists (add_cbd empty_graph c). split; [reflexivity|]. constructor; auto; intros; try lia.
  - destruct IH as [g [Hg Sg]]; [lia|].
    rewrite seq_S, foldM_app. simpl Nat.add.
    rewrite Hg. cbn [bind foldM].
    destruct V as (Vn & Vl & Vg & Vp & _).
    assert (Hn : ~ inject_Z (p_n P) == 0).
    { change 0 with (inject_Z 0). intro C. apply (inject_Z_injective (p_n P) 0) in C. 
 lia. }
    unfold add_param_zone. rewrite qdiv_ok by auto. cbn [bind].
    unfold get_xy. fold (raw_angle (p_n P) k).
    destruct (raw_angle_range (p_n P) k) as [A1 A2]; [lia|].
    assert (R : 0 <= p_l P + p_g P * p_l P).
    { assert (0 <= p_g P * p_l P) by (apply Qmult_le_0_compat; auto). lra. }
    rewrite new_node_ok by (auto; discriminate). cbn [bind].
    rewrite new_node_ok by (auto; discriminate). cbn [bind].
    fold (raw_node G Periphery (2 * Z.of_nat k + 1) (p_l P + p_g P * p_l P) (raw_angle (p_n P) k)
           (p_p P) (Z.of_nat k + 1) (String.append "P_" (str_of_Z (Z.of_nat k + 1)))).
    fold (raw_node G Subcenter (2 * Z.of_nat k + 2) (p_l P) (raw_angle (p_n P) k)
           (p_p P) (Z.of_nat k + 1) (String.append "SC_" (str_of_Z (Z.of_nat k + 1)))).
    fold (raw_P G P k). fold (raw_S G P k).
    unfold add_zone. destruct Sg as [SN SI SZo SE _ _ _].
    rewrite SN, city_nodes_length. simpl Nat.eqb. unfold raise_if.
    assert (check_zone (Z.of_nat k + 1) (raw_P G P k) (raw_S G P k) = Ok tt) as ->.
    { unfold check_zone, raise_if. simpl.
      rewrite (proj2 (Z.leb_gt (Z.of_nat k + 1) 0)) by lia.
      rewrite Z.eqb_refl. reflexivity. }
    cbn [bind]. unfold add_nodes. cbn [g_nodes_id].
    assert (N1 : zmem (nd_id (raw_P G P k)) (g_nodes_id g) = false).
    { apply zmem_nIn. rewrite SI, SN. intro C. apply city_ids_bound in C; auto.
      simpl in C. lia. }
    assert (N2 : zmem (nd_id (raw_S G P k)) (g_nodes_id g) = false).
    { apply zmem_nIn. rewrite SI, SN. intro C. apply city_ids_bound in C; auto.
      simpl in C. lia. }
    rewrite N1, N2. unfold raise_if. cbn [orb bind].
    cbn [g_nodes g_zones g_edges]. rewrite SZo, SI, SN.
    change (1 + 2 * k)%nat with (PZ k). change (S (PZ k)) with (SZ k).
    rewrite <- city_zones_snoc. rewrite <- city_nodes_snoc.
    destruct (build_edges_shape (S k) c (raw_P G P) (raw_S G P)
       (city_nodes (S k) c (raw_P G P) (raw_S G P))
       (map nd_id (city_nodes k c (raw_P G P) (raw_S G P)) ++ [nd_id (raw_P G P k); nd_id (raw_S G P k)])
       (g_edges g)) as [g' [B Sh]]; auto.
    { rewrite city_nodes_snoc, map_app. reflexivity. }
    rewrite B. cbn [bind]. eauto.
Qed.

(** ** The asymmetry passes *)
Lemma upd_nth_app {A} (l1 : list A) x l2 f : upd_nth (l1 ++ x :: l2) (length l1) f = l1 ++ f x :: l2.
Proof. induction l1; simpl; auto. f_equal; auto. Qed.
Lemma nth_error_mid {A} (l1 : list A) x l2 : nth_error (l1 ++ x :: l2) (length l1) = Some x.
Proof. induction l1; simpl; auto. Qed.

(** a pass that treats the pair of nodes of each zone in turn *)
Lemma pair_pass (step : list node -> nat -> res (list node)) (Pf Sf Pf' Sf' : nat -> node) n :
  (forall pre suf i, (i < n)%nat -> length pre = PZ i ->
     step (pre ++ Pf i :: Sf i :: suf) i = Ok (pre ++ Pf' i :: Sf' i :: suf)) ->
  forall k a pre, (a + k <= n)%nat -> length pre = PZ a ->
  foldM step (seq a k) (pre ++ flat_map (fun i => [Pf i; Sf i]) (seq a k)) =
  Ok (pre ++ flat_map (fun i => [Pf' i; Sf' i]) (seq a k)).
Proof.
  intro Hstep. induction k as [|k IH]; intros a pre Hk Hp; simpl; auto.
  rewrite Hstep by (auto; lia). cbn [bind].
  change (pre ++ Pf' a :: Sf' a :: flat_map (fun i => [Pf i; Sf i]) (seq (S a) k))
    with (pre ++ [Pf' a; Sf' a] ++ flat_map (fun i => [Pf i; Sf i]) (seq (S a) k)).
  rewrite app_assoc, IH by (try lia; rewrite app_length; simpl; unfold PZ in *; lia).
  rewrite <- app_assoc. reflexivity.
Qed.

Lemma pair_pass0 step (Pf Sf Pf' Sf' : nat -> node) n c :
  (forall pre suf i, (i < n)%nat -> length pre = PZ i ->
     step (pre ++ Pf i :: Sf i :: suf) i = Ok (pre ++ Pf' i :: Sf' i :: suf)) ->
  foldM step (seq 0 n) (city_nodes n c Pf Sf) = Ok (city_nodes n c Pf' Sf').
Proof.
  intro H. unfold city_nodes.
  apply (pair_pass step Pf Sf Pf' Sf' n H n 0 [c]); auto; lia.
Qed.

Lemma nth_pair1 {A} (pre : list A) i x y suf : length pre = PZ i ->
  nth_error (pre ++ x :: y :: suf) (PZ i) = Some x.
Proof. intros <-. apply nth_error_mid. Qed.
Lemma nth_pair2 {A} (pre : list A) i x y suf : length pre = PZ i ->
  nth_error (pre ++ x :: y :: suf) (SZ i) = Some y.
Proof.
  intro H. change (pre ++ x :: y :: suf) with (pre ++ [x] ++ y :: suf). rewrite app_assoc.
  replace (SZ i) with (length (pre ++ [x])) by (rewrite app_length, H; simpl; unfold PZ, SZ; lia).
  apply nth_error_mid.
Qed.
Lemma upd_pair1 {A} (pre : list A) i x y suf f : length pre = PZ i ->
  upd_nth (pre ++ x :: y :: suf) (PZ i) f = pre ++ f x :: y :: suf.
Proof. intros <-. apply upd_nth_app. Qed.
Lemma upd_pair2 {A} (pre : list A) i x y suf f : length pre = PZ i ->
  upd_nth (pre ++ x :: y :: suf) (SZ i) f = pre ++ x :: f y :: suf.
Proof.
  intro H. change (pre ++ x :: y :: suf) with (pre ++ [x] ++ y :: suf). rewrite app_assoc.
  replace (SZ i) with (length (pre ++ [x])) by (rewrite app_length, H; simpl; unfold PZ, SZ; lia).
  rewrite upd_nth_app, <- app_assoc. reflexivity.
Qed.

Lemma py_nth_lt {A} (l : list A) i d : (i < length l)%nat -> py_nth l i = Ok (nth i l d).
Proof. intro H. unfold py_nth. rewrite (nth_error_nth' l d H). reflexivity. Qed.

Lemma ids_stable n c c' Pf Sf Pf' Sf' :
  nd_id c' = nd_id c -> (forall i, nd_id (Pf' i) = nd_id (Pf i)) -> (forall i, nd_id (Sf' i) = nd_id (Sf i)) ->
  map nd_id (city_nodes n c Pf Sf) = map nd_id (city_nodes n c' Pf' Sf').
Proof.
  intros Hc Hp Hs. unfold city_nodes. simpl. rewrite Hc. f_equal.
  induction (seq 0 n) as [|i l IH]; simpl; auto. rewrite Hp, Hs, IH. reflexivity.
Qed.

Definition ang_P (G : geo) (a : list Q) (f : nat -> node) (i : nat) : node :=
  set_xya (nd_radius (f i) * geo_cos G (nth i a 0)) (nd_radius (f i) * geo_sin G (nth i a 0)) (nth i a 0) (f i).
Definition rad_P (G : geo) (a : list Q) (f : nat -> node) (i : nat) : node :=
  set_xyr (nth i a 1 * nd_radius (f i) * geo_cos G (nd_angle (f i)))
          (nth i a 1 * nd_radius (f i) * geo_sin G (nd_angle (f i))) (nth i a 1 * nd_radius (f i)) (f i).

Lemma angles_pass G n c Pf Sf g a :
  shape n c Pf Sf g -> length a = n ->
  exists g', angles_asymmetry G g a = Ok g' /\ shape n c (ang_P G a Pf) (ang_P G a Sf) g'.
Proof.
  intros Sh L. destruct Sh as [SN SI SZo SE Kc Kp Ks]. unfold angles_asymmetry.
  rewrite SZo, SN, city_zones_length.
  rewrite (pair_pass0 _ Pf Sf (ang_P G a Pf) (ang_P G a Sf)).
  2:{ intros pre suf i Hi Hp. rewrite (py_nth_lt a i 0) by lia. cbn [bind].
      unfold py_nth. rewrite city_zones_nth by auto. cbn [bind z_p z_sc].
      rewrite nth_pair1, nth_pair2 by auto. cbn [bind]. unfold get_xy.
      rewrite upd_pair1, upd_pair2 by auto. reflexivity. }
  cbn [bind].
  apply build_edges_shape; auto.
  rewrite SI, SN. apply ids_stable; auto.
Qed.

Lemma Gi_pass G n c Pf Sf g a :
  shape n c Pf Sf g -> length a = n ->
  exists g', Gi_asymmetry G g a = Ok g' /\ shape n c Pf (rad_P G a Sf) g'.
Proof.
  intros Sh L. destruct Sh as [SN SI SZo SE Kc Kp Ks]. unfold Gi_asymmetry.
  rewrite SZo, SN, city_zones_length.
  rewrite (pair_pass0 _ Pf Sf Pf (rad_P G a Sf)).
  2:{ intros pre suf i Hi Hp. rewrite (py_nth_lt a i 1) by lia. cbn [bind].
      unfold py_nth. rewrite city_zones_nth by auto. cbn [bind z_p z_sc].
      rewrite nth_pair2 by auto. cbn [bind]. unfold get_xy.
      rewrite upd_pair2 by auto. reflexivity. }
  cbn [bind].
  apply build_edges_shape; auto.
  rewrite SI, SN. apply ids_stable; auto.
Qed.

Lemma Hi_pass G n c Pf Sf g a :
  shape n c Pf Sf g -> length a = n ->
  exists g', Hi_asymmetry G g a = Ok g' /\ shape n c (rad_P G a Pf) Sf g'.
Proof.
  intros Sh L. destruct Sh as [SN SI SZo SE Kc Kp Ks]. unfold Hi_asymmetry.
  rewrite SZo, SN, city_zones_length.
  rewrite (pair_pass0 _ Pf Sf (rad_P G a Pf) Sf).
  2:{ intros pre suf i Hi Hp. rewrite (py_nth_lt a i 1) by lia. cbn [bind].
      unfold py_nth. rewrite city_zones_nth by auto. cbn [bind z_p z_sc].
      rewrite nth_pair1 by auto. cbn [bind]. unfold get_xy.
      rewrite upd_pair1 by auto. reflexivity. }
  cbn [bind].
  apply build_edges_shape; auto.
  rewrite SI, SN. apply ids_stable; auto.
Qed.

Definition cbd_moved (G : geo) (e : Q) (sc c : node) : node :=
  set_xyra (e * nd_radius sc * geo_cos G (nd_angle sc)) (e * nd_radius sc * geo_sin G (nd_angle sc))
           (e * nd_radius sc) (nd_angle sc) c.

Lemma etha_pass G n c Pf Sf g e z :
  shape n c Pf Sf g -> (1 <= z <= Z.of_nat n)%Z ->
  exists g', etha_asymmetry G g e z = Ok g' /\
    shape n (cbd_moved G e (Sf (Z.to_nat (z - 1))) c) Pf Sf g'.
Proof.
  intros Sh Hz. destruct Sh as [SN SI SZo SE Kc Kp Ks]. unfold etha_asymmetry.
  rewrite SZo, SN. unfold py_nth. rewrite city_zones_nth by lia. cbn [bind z_sc].
  rewrite city_nodes_S by lia. cbn [bind]. unfold get_xy.
  set (sc := Sf (Z.to_nat (z - 1))).
  match goal with |- context [map ?F (city_nodes n c Pf Sf)] => set (F0 := F) end.
  assert (E : map F0 (city_nodes n c Pf Sf) = city_nodes n (cbd_moved G e sc c) Pf Sf).
  { unfold city_nodes. cbn [map]. f_equal.
    - unfold F0. rewrite Kc. reflexivity.
    - assert (B : forall i, In i (seq 0 n) -> (i < n)%nat) by (intros i H; apply in_seq in H; lia).
      induction (seq 0 n) as [|i l IH]; simpl; auto.
      rewrite IH by (intros; apply B; right; auto).
      unfold F0 at 1 2. rewrite Kp, Ks by (apply B; left; auto). reflexivity. }
  rewrite E. apply build_edges_shape; auto.
  rewrite SI, SN. apply ids_stable; auto.
Qed.

(** ** Attributes after each pass *)
Lemma node_is_ang G k id z nm w r a f i l :
  node_is G k id z nm w r a (f i) -> node_is G k id z nm w r (nth i l 0) (ang_P G l f i).
Proof.
  unfold node_is, ang_P, set_xya; simpl. intuition.
Qed.
Lemma node_is_rad G k id z nm w r a f i l :
  node_is G k id z nm w r a (f i) -> node_is G k id z nm w (r * nth i l 1) a (rad_P G l f i).
Proof.
  unfold node_is, rad_P, set_xyr; simpl. intuition. rewrite H4. lra.
Qed.
Lemma node_is_Qeq G k id z nm w r a r' a' nd :
  r == r' -> a == a' -> node_is G k id z nm w r a nd -> node_is G k id z nm w r' a' nd.
Proof. unfold node_is. intros Hr Ha. rewrite Hr, Ha. auto. Qed.

Definition P_is (G : geo) (P : params) (i : nat) (nd : node) : Prop :=
  node_is G Periphery (2 * Z.of_nat i + 1) (Z.of_nat i + 1)
    (String.append "P_" (str_of_Z (Z.of_nat i + 1))) (p_p P)
    (periphery_radius P (Z.of_nat i + 1)) (zone_angle P (Z.of_nat i + 1)) nd.
Definition S_is (G : geo) (P : params) (i : nat) (nd : node) : Prop :=
  node_is G Subcenter (2 * Z.of_nat i + 2) (Z.of_nat i + 1)
    (String.append "SC_" (str_of_Z (Z.of_nat i + 1))) (p_p P)
    (sc_radius P (Z.of_nat i + 1)) (zone_angle P (Z.of_nat i + 1)) nd.
Definition C_is (G : geo) (P : params) (nd : node) : Prop :=
  node_is G CBD 0 0 "CBD" (p_p P) (cbd_radius P) (cbd_angle P) nd.

Lemma to_nat_i i : Z.to_nat (Z.of_nat i + 1 - 1) = i.
Proof. lia. Qed.

Lemma build_city G P : valid_params P ->
  exists g c Pf Sf, build_from_parameters G P = Ok (mkCity g P) /\
    shape (Z.to_nat (p_n P)) c Pf Sf g /\ C_is G P c /\
    (forall i, P_is G P i (Pf i)) /\ (forall i, S_is G P i (Sf i)).
Proof.
  intro V. unfold build_from_parameters.
  rewrite (proj2 (validator_iff P true)) by auto. cbn [bind].
  pose proof V as (Vn & Vl & Vg & Vp & Ve & Va & VG & VH).
  rewrite new_node_ok by (auto; lra). cbn [bind].
  set (c0 := mkNode CBD 0 0 0 0 0 (p_p P) 0 "CBD").
  set (n := Z.to_nat (p_n P)).
  destruct (zone_loop G P c0 n) as [g1 [E1 S1]]; auto.
  rewrite E1. cbn [bind].
  (* angles *)
  assert (H2 : exists g2 Pf Sf,
    match p_angles P with Some a => angles_asymmetry G g1 a | None => Ok g1 end = Ok g2 /\
    shape n c0 Pf Sf g2 /\
    (forall i, node_is G Periphery (2 * Z.of_nat i + 1) (Z.of_nat i + 1)
       (String.append "P_" (str_of_Z (Z.of_nat i + 1))) (p_p P)
       (p_l P + p_g P * p_l P) (zone_angle P (Z.of_nat i + 1)) (Pf i)) /\
    (forall i, node_is G Subcenter (2 * Z.of_nat i + 2) (Z.of_nat i + 1)
       (String.append "SC_" (str_of_Z (Z.of_nat i + 1))) (p_p P)
       (p_l P) (zone_angle P (Z.of_nat i + 1)) (Sf i))).
  { assert (RP : forall i, node_is G Periphery (2 * Z.of_nat i + 1) (Z.of_nat i + 1)
       (String.append "P_" (str_of_Z (Z.of_nat i + 1))) (p_p P)
       (p_l P + p_g P * p_l P) (raw_angle (p_n P) i) (raw_P G P i)).
    { intro i. unfold node_is, raw_P, raw_node; simpl. intuition reflexivity. }
    assert (RS : forall i, node_is G Subcenter (2 * Z.of_nat i + 2) (Z.of_nat i + 1)
       (String.append "SC_" (str_of_Z (Z.of_nat i + 1))) (p_p P)
       (p_l P) (raw_angle (p_n P) i) (raw_S G P i)).
    { intro i. unfold node_is, raw_S, raw_node; simpl. intuition reflexivity. }
    unfold zone_angle.
    destruct (p_angles P) as [a|] eqn:Ea.
    - simpl in Va. destruct Va as [La _].
      destruct (angles_pass G n c0 _ _ g1 a S1) as [g2 [E2 S2]]; [lia|].
      exists g2, (ang_P G a (raw_P G P)), (ang_P G a (raw_S G P)).
      split; [exact E2|]. split; [exact S2|].
      split; intro i; rewrite to_nat_i; eapply node_is_ang; eauto.
    - exists g1, (raw_P G P), (raw_S G P). split; [reflexivity|]. split; [exact S1|].
      split; intro i.
      + replace (Z.of_nat i + 1 - 1)%Z with (Z.of_nat i) by lia. apply RP.
      + replace (Z.of_nat i + 1 - 1)%Z with (Z.of_nat i) by lia. apply RS. }
  destruct H2 as (g2 & Pf2 & Sf2 & E2 & S2 & HP2 & HS2). rewrite E2. cbn [bind]. clear E1 S1 g1 E2.
  (* Gi *)
  assert (H3 : exists g3 Sf,
    match p_Gi P with Some a => Gi_asymmetry G g2 a | None => Ok g2 end = Ok g3 /\
    shape n c0 Pf2 Sf g3 /\ (forall i, S_is G P i (Sf i))).
  { unfold S_is, sc_radius, ratio. destruct (p_Gi P) as [a|] eqn:Ea.
    - simpl in VG. destruct VG as [La _].
      destruct (Gi_pass G n c0 _ _ g2 a S2) as [g3 [E3 S3]]; [lia|].
      exists g3, (rad_P G a Sf2). split; auto. split; auto. intro i. rewrite to_nat_i.
      apply node_is_rad; auto.
    - exists g2, Sf2. split; auto. split; auto. intro i.
      eapply node_is_Qeq; [| reflexivity | apply HS2]. lra. }
  destruct H3 as (g3 & Sf3 & E3 & S3 & HS3). rewrite E3. cbn [bind]. clear E3 S2 g2 HS2 Sf2.
  (* Hi *)
  assert (H4 : exists g4 Pf,
    match p_Hi P with Some a => Hi_asymmetry G g3 a | None => Ok g3 end = Ok g4 /\
    shape n c0 Pf Sf3 g4 /\ (forall i, P_is G P i (Pf i))).
  { unfold P_is, periphery_radius, ratio. destruct (p_Hi P) as [a|] eqn:Ea.
    - simpl in VH. destruct VH as [La _].
      destruct (Hi_pass G n c0 _ _ g3 a S3) as [g4 [E4 S4]]; [lia|].
      exists g4, (rad_P G a Pf2). split; auto. split; auto. intro i. rewrite to_nat_i.
      apply node_is_rad; auto.
    - exists g3, Pf2. split; auto. split; auto. intro i.
      eapply node_is_Qeq; [| reflexivity | apply HP2]. lra. }
  destruct H4 as (g4 & Pf4 & E4 & S4 & HP4). rewrite E4. cbn [bind]. clear E4 S3 g3 HP2 Pf2.
  (* etha *)
  assert (H5 : exists g5 c,
    match p_etha P, p_etha_zone P with
             | Some e, Some z => etha_asymmetry G g4 e z
             | _, _ => Ok g4
             end = Ok g5 /\
    shape n c Pf4 Sf3 g5 /\ C_is G P c).
  { unfold C_is, cbd_radius, cbd_angle.
    assert (C0 : node_is G CBD 0 0 "CBD" (p_p P) 0 0 c0).
    { unfold node_is, c0; simpl. repeat split; try reflexivity; lra. }
    destruct (p_etha P) as [e|] eqn:Ee, (p_etha_zone P) as [z|] eqn:Ez; try (exists g4, c0; auto; fail).
    destruct Ve as [_ Vz].
    destruct (etha_pass G n c0 _ _ g4 e z S4) as [g5 [E5 S5]]; [lia|].
    exists g5, (cbd_moved G e (Sf3 (Z.to_nat (z - 1))) c0). split; auto. split; auto.
    pose proof (HS3 (Z.to_nat (z - 1))) as HS.
    unfold S_is in HS. replace (Z.of_nat (Z.to_nat (z - 1)) + 1)%Z with z in HS by lia.
    destruct HS as (_ & _ & _ & _ & _ & R & A & _ & _).
    unfold node_is, cbd_moved, set_xyra, c0; simpl. repeat split; try reflexivity; auto.
    rewrite R. lra. }
  destruct H5 as (g5 & c5 & E5 & S5 & HC5). rewrite E5. cbn [bind].
  exists g5, c5, Pf4, Sf3. auto.
Qed.

Lemma build_valid G P C : build_from_parameters G P = Ok C -> valid_params P.
Proof.
  unfold build_from_parameters. intro H. apply bind_ok in H. destruct H as [b [H _]].
  apply validator_iff in H. tauto.
Qed.

(** Everything the properties need, packed. *)
Lemma city_facts G P C : build_from_parameters G P = Ok C ->
  valid_params P /\ c_params C = P /\
  exists c Pf Sf, shape (Z.to_nat (p_n P)) c Pf Sf (c_graph C) /\ C_is G P c /\
    (forall i, P_is G P i (Pf i)) /\ (forall i, S_is G P i (Sf i)).
Proof.
  intro H. pose proof (build_valid _ _ _ H) as V. destruct (build_city G P V) as (g & c & Pf & Sf & E & X).
  rewrite H in E. inversion E; subst. simpl. split; auto. split; auto. exists c, Pf, Sf. auto.
Qed.

(** in a built city the node with reference k has id k *)
Lemma city_id_ref G P C k nd : build_from_parameters G P = Ok C ->
  nth_error (g_nodes (c_graph C)) k = Some nd -> nd_id nd = Z.of_nat k.
Proof.
  intros H Hk. destruct (city_facts _ _ _ H) as (_ & _ & c & Pf & Sf & Sh & HC & HP & HS).
  rewrite (sh_nodes _ _ _ _ _ Sh) in Hk.
  assert (L : (k < 1 + 2 * Z.to_nat (p_n P))%nat).
  { rewrite <- (city_nodes_length _ c Pf Sf). apply nth_error_Some. congruence. }
  destruct k.
  - simpl in Hk. inversion Hk; subst. apply HC.
  - destruct (Nat.even k) eqn:Ev.
    + apply Nat.even_spec in Ev. destruct Ev as [i ->].
      change (S (2 * i)) with (PZ i) in *. rewrite city_nodes_P in Hk by (unfold PZ in *; lia).
      inversion Hk; subst. destruct (HP i) as (_ & -> & _). unfold PZ. lia.
    + assert (Od : Nat.odd k = true) by (unfold Nat.odd; rewrite Ev; auto).
      apply Nat.odd_spec in Od. destruct Od as [i ->].
      replace (S (2 * i + 1)) with (SZ i) in * by (unfold SZ; lia).
      rewrite city_nodes_S in Hk by (unfold SZ in *; lia).
      inversion Hk; subst. destruct (HS i) as (_ & -> & _). unfold SZ. lia.
Qed.

(** ** Arcs as pairs of ids *)
Lemma narc_bound n a b : narc n a b -> (a <= 2 * n)%nat /\ (b <= 2 * n)%nat.
Proof.
  intro H; inversion H; subst; unfold PZ, SZ; try lia;
    pose proof (nextz_lt n i ltac:(assumption)); lia.
Qed.

Definition zz (ab : nat * nat) : Z * Z := (Z.of_nat (fst ab), Z.of_nat (snd ab)).

Lemma numbered_map_ends g k arcs :
  (forall ab, In ab arcs -> exists a b, nth_error (g_nodes g) (fst ab) = Some a /\
      nth_error (g_nodes g) (snd ab) = Some b /\ nd_id a = Z.of_nat (fst ab) /\ nd_id b = Z.of_nat (snd ab)) ->
  map (edge_ends g) (numbered k arcs) = map Some (map zz arcs).
Proof.
  revert k; induction arcs as [|[x y] l IH]; intros k H; simpl; auto.
  rewrite IH by (intros; apply H; right; auto). f_equal.
  destruct (H (x, y) (or_introl eq_refl)) as (a & b & Ha & Hb & Ia & Ib). simpl in *.
  unfold edge_ends; simpl. rewrite Ha, Hb. unfold zz; simpl. congruence.
Qed.

Lemma city_edge_ends G P C : build_from_parameters G P = Ok C ->
  map (edge_ends (c_graph C)) (g_edges (c_graph C)) = map Some (map zz (city_arcs (Z.to_nat (p_n P)))).
Proof.
  intro H. destruct (city_facts _ _ _ H) as (_ & _ & c & Pf & Sf & Sh & HC & HP & HS).
  rewrite (sh_edges _ _ _ _ _ Sh). apply numbered_map_ends.
  intros [a b] Hab. apply city_arcs_narc in Hab. apply narc_bound in Hab. simpl.
  assert (La : (a < length (g_nodes (c_graph C)))%nat).
  { rewrite (sh_nodes _ _ _ _ _ Sh), city_nodes_length. lia. }
  assert (Lb : (b < length (g_nodes (c_graph C)))%nat).
  { rewrite (sh_nodes _ _ _ _ _ Sh), city_nodes_length. lia. }
  apply nth_error_Some in La. apply nth_error_Some in Lb.
  destruct (nth_error (g_nodes (c_graph C)) a) as [na|] eqn:Ea; [|congruence].
  destruct (nth_error (g_nodes (c_graph C)) b) as [nb|] eqn:Eb; [|congruence].
  exists na, nb. repeat split; auto; eapply city_id_ref; eauto.
Qed.

Lemma nextz_mod n i : (i < n)%nat -> (Z.of_nat (nextz n i) = (Z.of_nat i + 1) mod Z.of_nat n)%Z.
Proof.
  intro H. unfold nextz. destruct (Nat.eqb_spec i (n - 1)).
  - replace (Z.of_nat i + 1)%Z with (Z.of_nat n) by lia. rewrite Z_mod_same_full. lia.
  - rewrite Z.mod_small; lia.
Qed.

Lemma narc_city n a b : narc n a b -> city_arc (Z.of_nat n) (Z.of_nat a) (Z.of_nat b).
Proof.
  assert (EP : forall i, Z.of_nat (PZ i) = pid (Z.of_nat i + 1)) by (intro; unfold PZ, pid; lia).
  assert (ES : forall i, Z.of_nat (SZ i) = scid (Z.of_nat i + 1)) by (intro; unfold SZ, scid; lia).
  intro H; inversion H; subst; rewrite ?EP, ?ES; change (Z.of_nat 0) with 0%Z.
  - constructor; lia.
  - apply arc_sym. constructor; lia.
  - constructor; lia.
  - apply arc_sym. constructor; lia.
  - rewrite nextz_mod by auto. apply arc_ring; lia.
  - apply arc_sym. rewrite nextz_mod by auto. apply arc_ring; lia.
Qed.

Lemma narc_sym n a b : narc n a b -> narc n b a.
Proof. intro H; inversion H; subst; constructor; auto. Qed.

Lemma city_narc n i j : city_arc (Z.of_nat n) i j ->
  exists a b, i = Z.of_nat a /\ j = Z.of_nat b /\ narc n a b.
Proof.
  induction 1 as [z Hz|z Hz|z Hz Hn|i j H IH].
  - exists (PZ (Z.to_nat (z - 1))), (SZ (Z.to_nat (z - 1))). unfold pid, scid.
    repeat split; try (unfold PZ, SZ; lia). constructor. lia.
  - exists (SZ (Z.to_nat (z - 1))), 0%nat. unfold scid.
    repeat split; try (unfold PZ, SZ; lia). constructor. lia.
  - exists (SZ (Z.to_nat (z - 1))), (SZ (nextz n (Z.to_nat (z - 1)))). unfold scid.
    repeat split; try (unfold SZ; lia).
    + unfold SZ. rewrite Nat2Z.inj_add, Nat2Z.inj_mul, nextz_mod by lia.
      rewrite Z2Nat.id by lia. replace (z - 1 + 1)%Z with z by lia. lia.
    + constructor; lia.
  - destruct IH as (a & b & -> & -> & N). exists b, a. repeat split; auto. apply narc_sym; auto.
Qed.

Lemma zz_inj : forall x y, zz x = zz y -> x = y.
Proof. intros [a b] [c d] H. unfold zz in H. simpl in H. inversion H. f_equal; lia. Qed.

Lemma NoDup_map_inj {A B} (f : A -> B) l : (forall x y, f x = f y -> x = y) -> NoDup l -> NoDup (map f l).
Proof.
  intros Hf H; induction H; simpl; constructor; auto.
  intro C. apply in_map_iff in C. destruct C as [y [E Hy]]. apply Hf in E. subst; auto.
Qed.

Lemma NoDup_app {A} (l1 l2 : list A) :
  NoDup l1 -> NoDup l2 -> (forall x, In x l1 -> In x l2 -> False) -> NoDup (l1 ++ l2).
Proof.
  induction l1 as [|x l IH]; intros H1 H2 D; simpl; auto.
  inversion H1; subst. constructor.
  - intro C. apply in_app_iff in C. destruct C as [C|C]; [auto|]. apply (D x); simpl; auto.
  - apply IH; auto. intros y Hy. apply D. simpl; auto.
Qed.

Lemma NoDup_flat_map {A B} (f : A -> list B) l :
  NoDup l -> (forall x, In x l -> NoDup (f x)) ->
  (forall x y b, In x l -> In y l -> In b (f x) -> In b (f y) -> x = y) ->
  NoDup (flat_map f l).
Proof.
  induction l as [|a l IH]; intros N H D; simpl; [constructor|].
  inversion N; subst. apply NoDup_app.
  - apply H; left; auto.
  - apply IH; auto.
    + intros; apply H; right; auto.
    + intros x y b Hx Hy. apply D; right; auto.
  - intros b Hb Hc. apply in_flat_map in Hc. destruct Hc as [y [Hy Hb']].
    assert (a = y) by (apply (D a y b); simpl; auto). subst. contradiction.
Qed.

Lemma nextz_ne n i : (2 <= n)%nat -> (i < n)%nat -> nextz n i <> i.
Proof. unfold nextz. destruct (Nat.eqb_spec i (n - 1)); lia. Qed.
Lemma nextz_inj n i j : (i < n)%nat -> (j < n)%nat -> nextz n i = nextz n j -> i = j.
Proof. unfold nextz. destruct (Nat.eqb_spec i (n - 1)), (Nat.eqb_spec j (n - 1)); lia. Qed.
Lemma nextz_2 n i : (3 <= n)%nat -> (i < n)%nat -> nextz n (nextz n i) <> i.
Proof.
  unfold nextz. destruct (Nat.eqb_spec i (n - 1)); intros.
  - destruct (Nat.eqb_spec 0 (n - 1)); lia.
  - destruct (Nat.eqb_spec (S i) (n - 1)); lia.
Qed.

Lemma city_arcs_NoDup n : NoDup (city_arcs n).
Proof.
  destruct n as [|[|[|n]]].
  - constructor.
  - unfold city_arcs, PZ, SZ. cbn. repeat (apply NoDup_cons; [simpl; intuition congruence|]). apply NoDup_nil.
  - unfold city_arcs, PZ, SZ. cbn. repeat (apply NoDup_cons; [simpl; intuition congruence|]). apply NoDup_nil.
  - unfold city_arcs. set (m := S (S (S n))). assert (Hm : (3 <= m)%nat) by (unfold m; lia).
    apply NoDup_flat_map.
    + apply seq_NoDup.
    + intros i Hi. apply in_seq in Hi.
      pose proof (nextz_ne m i ltac:(lia) ltac:(lia)) as Ne.
      unfold PZ, SZ. repeat (apply NoDup_cons; [simpl; intro C;
        repeat (destruct C as [C|C]; [inversion C; subst; lia|]); contradiction|]). apply NoDup_nil.
    + intros i j [a b] Hi Hj Hx Hy. apply in_seq in Hi. apply in_seq in Hj.
      unfold PZ, SZ in *. simpl in Hx, Hy.
      repeat (destruct Hx as [Hx|Hx]; [inversion Hx; subst;
        repeat (destruct Hy as [Hy|Hy]; [inversion Hy; subst; try lia|]); try contradiction|]); try contradiction.
      * exfalso. assert (E1 : i = nextz m j) by lia. assert (E2 : j = nextz m i) by lia.
        apply (nextz_2 m i); [lia|lia|]. rewrite <- E2. auto.
      * exfalso. assert (E1 : i = nextz m j) by lia. assert (E2 : j = nextz m i) by lia.
        apply (nextz_2 m i); [lia|lia|]. rewrite <- E2. auto.
Qed.

Lemma city_arcs_length n : length (city_arcs n) =
  match n with 0%nat => 0%nat | 1%nat => 4%nat | 2%nat => 10%nat | _ => (6 * n)%nat end.
Proof.
  destruct n as [|[|[|n]]]; try reflexivity.
  unfold city_arcs. set (m := S (S (S n))). generalize (nextz m). intro f.
  assert (L : forall l : list nat, length (flat_map (fun i => [(PZ i, SZ i); (SZ i, PZ i); (SZ i, 0%nat); (0%nat, SZ i);
                             (SZ i, SZ (f i)); (SZ (f i), SZ i)]) l) = (6 * length l)%nat).
  { induction l; simpl; auto. simpl in IHl. rewrite IHl. lia. }
  rewrite L, seq_length. reflexivity.
Qed.

Lemma edge_exist_In g i j : edge_exist g i j = true <-> In (Some (i, j)) (map (edge_ends g) (g_edges g)).
Proof.
  unfold edge_exist. rewrite existsb_exists, in_map_iff. split.
  - intros [e [He E]]. exists e. split; auto. destruct (edge_ends g e) as [[a b]|]; [|discriminate].
    apply andb_true_iff in E. destruct E as [E1 E2]. apply Z.eqb_eq in E1. apply Z.eqb_eq in E2. congruence.
  - intros [e [E He]]. exists e. split; auto. rewrite E, !Z.eqb_refl. reflexivity.
Qed.

Lemma edge_exist_city G P C i j : build_from_parameters G P = Ok C ->
  (edge_exist (c_graph C) i j = true <-> city_arc (p_n P) i j).
Proof.
  intro H. rewrite edge_exist_In, (city_edge_ends _ _ _ H).
  pose proof (build_valid _ _ _ H) as (Vn & _).
  rewrite in_map_iff. split.
  - intros [x [E Hx]]. inversion E; subst. apply in_map_iff in Hx. destruct Hx as [[a b] [E2 Hab]].
    inversion E2; subst. apply city_arcs_narc in Hab. apply narc_city in Hab.
    rewrite Z2Nat.id in Hab by lia. auto.
  - intro A. replace (p_n P) with (Z.of_nat (Z.to_nat (p_n P))) in A by lia.
    apply city_narc in A. destruct A as (a & b & -> & -> & N).
    exists (zz (a, b)). split; auto. apply in_map. apply city_arcs_narc. auto.
Qed.

(** ** Connectivity *)
Lemma walk_trans R i j k : walk R i j -> walk R j k -> walk R i k.
Proof. induction 1; auto. intro. eapply walk_step; eauto. Qed.

Lemma city_connected n i j : (0 <= i <= 2 * n)%Z -> (0 <= j <= 2 * n)%Z -> walk (city_arc n) i j.
Proof.
  assert (A : forall k, (0 <= k <= 2 * n)%Z -> walk (city_arc n) k 0 /\ walk (city_arc n) 0 k).
  { intros k Hk. destruct (Z.eq_dec k 0); [subst; split; constructor|].
    destruct (Zeven_odd_dec k) as [Ev|Od].
    - apply Zeven_ex in Ev. destruct Ev as [z ->].
      assert (arc : city_arc n (2 * z) 0) by (apply (arc_sc_cbd n z); lia).
      split.
      + eapply walk_step; [exact arc | constructor].
      + eapply walk_step; [apply arc_sym; exact arc | constructor].
    - apply Zodd_ex in Od. destruct Od as [z ->].
      assert (a1 : city_arc n (2 * z + 1) (scid (z + 1))).
      { replace (2 * z + 1)%Z with (pid (z + 1)) by (unfold pid; lia). apply arc_p_sc. lia. }
      assert (a2 : city_arc n (scid (z + 1)) 0) by (apply arc_sc_cbd; lia).
      split.
      + eapply walk_step; [exact a1|]. eapply walk_step; [exact a2 | constructor].
      + eapply walk_step; [apply arc_sym; exact a2|].
        eapply walk_step; [apply arc_sym; exact a1 | constructor]. }
  intros Hi Hj. eapply walk_trans; [apply (proj1 (A i Hi)) | apply (proj2 (A j Hj))].
Qed.

(** ** Distances *)
Lemma dict2_get_set d i j v i' j' :
  dict2_get (dict2_set d i j v) i' j' =
  if ((i' =? i) && (j' =? j))%Z then Some v else dict2_get d i' j'.
Proof.
  unfold dict2_get, dict2_set. destruct (Z.eqb_spec i' i).
  - subst. rewrite dget_dset_same by apply Zeqb_spec. destruct (Z.eqb_spec j' j); simpl.
    + subst. rewrite dget_dset_same by apply Zeqb_spec. reflexivity.
    + rewrite dget_dset_other by (auto; apply Zeqb_spec).
      unfold dget0. destruct (dget Z.eqb d i); reflexivity.
  - simpl. rewrite dget_dset_other by (auto; apply Zeqb_spec). reflexivity.
Qed.

Definition dist_entry (G : geo) (g : graph) (i j : Z) (v : Q) (e : edge) : Prop :=
  exists a b, nth_error (g_nodes g) (e_n1 e) = Some a /\ nth_error (g_nodes g) (e_n2 e) = Some b /\
    nd_id a = i /\ nd_id b = j /\ v = euclid G a b.

Lemma edges_distance_spec G g i j :
  (forall v, dict2_get (get_edges_distance G g) i j = Some v ->
     exists e, In e (g_edges g) /\ dist_entry G g i j v e) /\
  (edge_exist g i j = true -> exists v, dict2_get (get_edges_distance G g) i j = Some v).
Proof.
  unfold get_edges_distance.
  set (F := fun d e => match nth_error (g_nodes g) (e_n1 e), nth_error (g_nodes g) (e_n2 e) with
    | Some a, Some b => dict2_set d (nd_id a) (nd_id b) (euclid G a b) | _, _ => d end).
  assert (A : forall es d,
    (forall v, dict2_get (fold_left F es d) i j = Some v ->
       dict2_get d i j = Some v \/ exists e, In e es /\ dist_entry G g i j v e) /\
    ((exists e, In e es /\ edge_ends g e = Some (i, j)) \/ (exists v, dict2_get d i j = Some v) ->
       exists v, dict2_get (fold_left F es d) i j = Some v)).
  { induction es as [|e es IH]; intro d; simpl.
    - split; auto. intros [[e [[] _]]|H]; auto.
    - destruct (IH (F d e)) as [I1 I2]. split.
      + intros v Hv. apply I1 in Hv. destruct Hv as [Hv|[e' [He' D]]]; [|right; exists e'; auto].
        unfold F in Hv.
        destruct (nth_error (g_nodes g) (e_n1 e)) as [a|] eqn:Ea; auto.
        destruct (nth_error (g_nodes g) (e_n2 e)) as [b|] eqn:Eb; auto.
        rewrite dict2_get_set in Hv.
        destruct (Z.eqb_spec i (nd_id a)), (Z.eqb_spec j (nd_id b)); simpl in Hv; auto.
        inversion Hv; subst. right. exists e. split; auto. exists a, b. auto.
      + intro H. apply I2. destruct H as [[e' [[<-|He'] E]]|[v Hv]].
        * right. unfold edge_ends in E. unfold F.
          destruct (nth_error (g_nodes g) (e_n1 e)) as [a|]; [|discriminate].
          destruct (nth_error (g_nodes g) (e_n2 e)) as [b|]; [|discriminate].
          inversion E; subst. rewrite dict2_get_set, !Z.eqb_refl. simpl. eauto.
        * left. eauto.
        * right. unfold F.
          destruct (nth_error (g_nodes g) (e_n1 e)) as [a|]; eauto.
          destruct (nth_error (g_nodes g) (e_n2 e)) as [b|]; eauto.
          rewrite dict2_get_set. destruct ((i =? nd_id a) && (j =? nd_id b))%Z; eauto. }
  destruct (A (g_edges g) []) as [A1 A2]. split.
  - intros v Hv. apply A1 in Hv. destruct Hv as [Hv|H]; [discriminate|auto].
  - intro E. apply A2. left. apply edge_exist_In in E. apply in_map_iff in E.
    destruct E as [e [E He]]. eauto.
Qed.

Lemma dist_entry_exist G g i j v e : In e (g_edges g) -> dist_entry G g i j v e -> edge_exist g i j = true.
Proof.
  intros He (a & b & Ha & Hb & Ia & Ib & _). apply edge_exist_In. apply in_map_iff.
  exists e. split; auto. unfold edge_ends. rewrite Ha, Hb. congruence.
Qed.

Lemma city_ref_of_id G P C k nd id : build_from_parameters G P = Ok C ->
  nth_error (g_nodes (c_graph C)) k = Some nd -> nd_id nd = id -> k = Z.to_nat id.
Proof. intros H Hk <-. rewrite (city_id_ref _ _ _ _ _ H Hk). lia. Qed.

Lemma city_distance G P C i j v : build_from_parameters G P = Ok C ->
  dict2_get (get_edges_distance G (c_graph C)) i j = Some v ->
  exists a b, nth_error (g_nodes (c_graph C)) (Z.to_nat i) = Some a /\
              nth_error (g_nodes (c_graph C)) (Z.to_nat j) = Some b /\
              nd_id a = i /\ nd_id b = j /\ v = euclid G a b.
Proof.
  intros H Hv. apply edges_distance_spec in Hv. destruct Hv as (e & He & a & b & Ha & Hb & Ia & Ib & ->).
  exists a, b. rewrite (city_ref_of_id _ _ _ _ _ _ H Ha Ia) in Ha.
  rewrite (city_ref_of_id _ _ _ _ _ _ H Hb Ib) in Hb. auto.
Qed.
