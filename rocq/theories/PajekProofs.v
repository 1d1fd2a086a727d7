(** * PajekProofs: lemmas about the text export and import *)
From Coq Require Import String Ascii List ZArith QArith Bool Lia Lqa Permutation.
From Verif Require Import PyBase PyFacts PyStr PyStrFacts Graph GraphSpec GraphProofs Pajek PajekSpec.
Import ListNotations.
Local Open Scope Q_scope.

(** ** Rows, their values and their nodes *)
Definition reads (F : numfmt) (r : prow) (f : frow) : Prop :=
  pr_id r = f_id f /\ pr_name r = f_name f /\ pr_kind r = f_kind f /\ pr_zone r = f_zone f /\
  nf_read F (pr_x r) = Some (f_x f) /\ nf_read F (pr_y r) = Some (f_y f) /\
  nf_read F (pr_width r) = Some (f_width f).
Lemma row_of_node G f : row_of (node_of G f) = f.
Proof. destruct f; reflexivity. Qed.

Lemma kind_eqb_eq a b : kind_eqb a b = true <-> a = b.
Proof. destruct a, b; simpl; split; intro; try discriminate; auto. Qed.

Lemma new_node_iff k id x y r a w z nm nd :
  new_node k id x y r a w z nm = Ok nd <->
  ((k = CBD -> z = 0%Z) /\ 0 <= r /\ 0 <= a /\ a <= 360 /\ 0 <= w) /\ nd = mkNode k id x y r a w z nm.
Proof.
  split.
  - unfold new_node. intro H.
    apply raise_if_iff in H. destruct H as [H0 H]. apply raise_if_iff in H. destruct H as [H1 H].
    apply raise_if_iff in H. destruct H as [H2 H]. apply raise_if_iff in H. destruct H as [H3 H].
    apply orb_false_iff in H2. destruct H2 as [H2 H2'].
    apply Qltb_ge in H1, H2, H2', H3.
    split; [|congruence]. repeat split; auto.
    intros ->. simpl in H0. destruct (Z.eqb_spec z 0); auto. discriminate.
  - intros [(K & R & A & A' & W) ->]. apply new_node_ok; auto.
Qed.

Lemma read_node_iff G F r nd : read_node G F r = Ok nd <->
  exists f, reads F r f /\ placed G f /\ nd = node_of G f.
Proof.
  unfold read_node, reads, placed, node_of, row_radius, row_angle. split.
  - intro H.
    destruct (nf_read F (pr_x r)) as [x|] eqn:Ex; [|discriminate].
    destruct (nf_read F (pr_y r)) as [y|] eqn:Ey; [|discriminate].
    destruct (nf_read F (pr_width r)) as [w|] eqn:Ew; [|discriminate].
    apply bind_ok in H. destruct H as [a [Ha H]]. apply new_node_iff in H.
    destruct H as [(K & R & A & A' & W) ->].
    exists (mkF (pr_id r) (pr_name r) x y (pr_kind r) (pr_zone r) w). simpl. rewrite Ha.
    repeat split; eauto.
  - intros (f & (E1 & E2 & E3 & E4 & Ex & Ey & Ew) & ((a & Ha) & A & A' & R & W & K) & ->).
    rewrite Ex, Ey, Ew, Ha in *. cbn [bind]. apply new_node_iff.
    rewrite E1, E2, E3, E4. repeat split; auto.
Qed.

Lemma reads_fun F r f f' : reads F r f -> reads F r f' -> f = f'.
Proof.
  intros (A & B & C & D & E & H & I) (A' & B' & C' & D' & E' & H' & I'). destruct f, f'; simpl in *. congruence.
Qed.

Lemma mapM_iff {A B C} (f : A -> res B) (R : A -> C -> Prop) (ok : C -> Prop) (h : C -> B) :
  (forall a b, f a = Ok b <-> exists c, R a c /\ ok c /\ b = h c) ->
  forall l ys, mapM f l = Ok ys <-> exists cs, Forall2 R l cs /\ Forall ok cs /\ ys = map h cs.
Proof.
  intros Hf. induction l as [|a l IH]; intro ys; simpl.
  - split.
    + intro H. inversion H; subst. exists []. repeat split; constructor.
    + intros (cs & H & _ & ->). inversion H; subst. reflexivity.
  - split.
    + intro H. apply bind_ok in H. destruct H as [y [H1 H]]. apply bind_ok in H. destruct H as [zs [H2 H]].
      inversion H; subst. apply Hf in H1. destruct H1 as (c & Rc & Oc & ->).
      apply IH in H2. destruct H2 as (cs & R2 & O2 & ->).
      exists (c :: cs). repeat split; constructor; auto.
    + intros (cs & H & O & ->). inversion H; subst. inversion O; subst.
      rewrite (proj2 (Hf a (h y))) by eauto. cbn [bind].
      rewrite (proj2 (IH (map h l'))) by eauto. reflexivity.
Qed.

Lemma read_nodes_iff G F rows nodes : mapM (read_node G F) rows = Ok nodes <->
  exists fs, Forall2 (reads F) rows fs /\ Forall (placed G) fs /\ nodes = map (node_of G) fs.
Proof. apply mapM_iff. apply read_node_iff. Qed.

(** ** Sorting permutes *)
Lemma insert_row_perm r l : Permutation (insert_row r l) (r :: l).
Proof.
  induction l as [|x l IH]; simpl; auto. destruct (row_leb r x); auto.
  rewrite IH. apply perm_swap.
Qed.
Lemma sort_rows_perm l : Permutation (sort_rows l) l.
Proof.
  induction l as [|x l IH]; simpl; auto. rewrite insert_row_perm. auto.
Qed.

Lemma filter_perm {A} (p : A -> bool) l l' : Permutation l l' -> Permutation (filter p l) (filter p l').
Proof.
  induction 1; simpl; auto.
  - destruct (p x); auto.
  - destruct (p x), (p y); auto. apply perm_swap.
  - etransitivity; eauto.
Qed.
Lemma filter_single {A} (p : A -> bool) l l' x : Permutation l l' -> filter p l' = [x] -> filter p l = [x].
Proof.
  intros H E. apply (filter_perm p) in H. rewrite E in H. apply Permutation_length_1_inv.
  symmetry. exact H.
Qed.

(** ** Nodes by kind and zone *)
Definition pick (k : kind) (z : Z) (l : list node) : list node := of_zone z (of_kind k l).
Lemma pick_filter k z l : pick k z l = filter (fun n => (kind_eqb (nd_kind n) k && (nd_zone n =? z)%Z)%bool) l.
Proof.
  unfold pick, of_zone, of_kind. induction l as [|a l IH]; simpl; auto.
  destruct (kind_eqb (nd_kind a) k); simpl; auto.
  destruct (nd_zone a =? z)%Z; simpl; rewrite IH; auto.
Qed.
Lemma pick_perm k z l l' : Permutation l l' -> Permutation (pick k z l) (pick k z l').
Proof. rewrite !pick_filter. apply filter_perm. Qed.
Lemma pick_In k z l x : In x (pick k z l) <-> In x l /\ nd_kind x = k /\ nd_zone x = z.
Proof.
  rewrite pick_filter, filter_In, andb_true_iff, kind_eqb_eq, Z.eqb_eq. tauto.
Qed.

(** the nodes of a city, with the expected kinds and zones *)
Record labelled (n : nat) (c : node) (Pf Sf : nat -> node) : Prop := mkLab {
  lb_c : nd_kind c = CBD;
  lb_p : forall i, (i < n)%nat -> nd_kind (Pf i) = Periphery /\ nd_zone (Pf i) = (Z.of_nat i + 1)%Z;
  lb_s : forall i, (i < n)%nat -> nd_kind (Sf i) = Subcenter /\ nd_zone (Sf i) = (Z.of_nat i + 1)%Z
}.

Lemma city_nodes_In n c Pf Sf x : In x (city_nodes n c Pf Sf) <->
  x = c \/ exists i, (i < n)%nat /\ (x = Pf i \/ x = Sf i).
Proof.
  unfold city_nodes. simpl. rewrite in_flat_map. split.
  - intros [H|[i [H [E|[E|[]]]]]]; [left; auto|right; exists i; apply in_seq in H; split; auto; lia ..].
  - intros [->|[i [H [->| ->]]]]; [left; auto|right; exists i; split; [apply in_seq; lia|simpl; auto] ..].
Qed.

Lemma city_nodes_NoDup n c Pf Sf : labelled n c Pf Sf -> NoDup (city_nodes n c Pf Sf).
Proof.
  intros [Kc Kp Ks]. unfold city_nodes. constructor.
  - intro H. apply in_flat_map in H. destruct H as [i [Hi H]]. apply in_seq in Hi.
    destruct (Kp i), (Ks i); try lia. destruct H as [E|[E|[]]]; rewrite E in *; congruence.
  - apply NoDup_flat_map.
    + apply seq_NoDup.
    + intros i Hi. apply in_seq in Hi. destruct (Kp i), (Ks i); try lia.
      constructor; [|constructor; auto; constructor]. intros [E|[]]. rewrite E in *. congruence.
    + intros i j b Hi Hj Bi Bj. apply in_seq in Hi, Hj.
      destruct (Kp i), (Ks i), (Kp j), (Ks j); try lia.
      destruct Bi as [<-|[<-|[]]]; destruct Bj as [E|[E|[]]]; rewrite E in *; try congruence; lia.
Qed.

Lemma NoDup_filter_single {A} (p : A -> bool) l x : NoDup l -> In x l ->
  (forall y, In y l -> p y = true <-> y = x) -> filter p l = [x].
Proof.
  intros N H U. assert (Permutation (filter p l) [x]).
  { apply NoDup_Permutation.
    - apply NoDup_filter; auto.
    - constructor; auto. constructor.
    - intro y. rewrite filter_In. simpl. split.
      + intros [Hy E]. left. symmetry. apply U; auto.
      + intros [<-|[]]. split; auto. apply U; auto. }
  apply Permutation_length_1_inv. symmetry. exact H0.
Qed.

Lemma pick_city_P n c Pf Sf nodes i : labelled n c Pf Sf -> Permutation nodes (city_nodes n c Pf Sf) ->
  (i < n)%nat -> pick Periphery (Z.of_nat i + 1) nodes = [Pf i].
Proof.
  intros L Pm Hi. rewrite pick_filter. eapply filter_single; [exact Pm|].
  pose proof (city_nodes_NoDup _ _ _ _ L) as N. destruct L as [Kc Kp Ks].
  apply NoDup_filter_single; auto.
  - apply city_nodes_In. right. exists i. auto.
  - intros y Hy. rewrite andb_true_iff, kind_eqb_eq, Z.eqb_eq. apply city_nodes_In in Hy. split.
    + intros [A B]. destruct Hy as [->|[j [Hj [->| ->]]]].
      * congruence.
      * destruct (Kp j Hj). assert (j = i) by lia. subst; auto.
      * destruct (Ks j Hj). congruence.
    + intros ->. apply Kp; auto.
Qed.
Lemma pick_city_S n c Pf Sf nodes i : labelled n c Pf Sf -> Permutation nodes (city_nodes n c Pf Sf) ->
  (i < n)%nat -> pick Subcenter (Z.of_nat i + 1) nodes = [Sf i].
Proof.
  intros L Pm Hi. rewrite pick_filter. eapply filter_single; [exact Pm|].
  pose proof (city_nodes_NoDup _ _ _ _ L) as N. destruct L as [Kc Kp Ks].
  apply NoDup_filter_single; auto.
  - apply city_nodes_In. right. exists i. auto.
  - intros y Hy. rewrite andb_true_iff, kind_eqb_eq, Z.eqb_eq. apply city_nodes_In in Hy. split.
    + intros [A B]. destruct Hy as [->|[j [Hj [->| ->]]]].
      * congruence.
      * destruct (Kp j Hj). congruence.
      * destruct (Ks j Hj). assert (j = i) by lia. subst; auto.
    + intros ->. apply Ks; auto.
Qed.
Lemma of_kind_city n c Pf Sf nodes : labelled n c Pf Sf -> Permutation nodes (city_nodes n c Pf Sf) ->
  of_kind CBD nodes = [c].
Proof.
  intros L Pm. unfold of_kind. eapply filter_single; [exact Pm|].
  pose proof (city_nodes_NoDup _ _ _ _ L) as N. destruct L as [Kc Kp Ks].
  apply NoDup_filter_single; auto.
  - apply city_nodes_In. auto.
  - intros y Hy. rewrite kind_eqb_eq. apply city_nodes_In in Hy. split.
    + intro A. destruct Hy as [->|[j [Hj [->| ->]]]]; auto.
      * destruct (Kp j Hj). congruence.
      * destruct (Ks j Hj). congruence.
    + intros ->. auto.
Qed.

(** counting: 2n + 1 nodes, one periphery and one subcenter per zone and a CBD are a city *)
Lemma city_by_count n nodes c Pf Sf : length nodes = (1 + 2 * n)%nat ->
  In c nodes -> nd_kind c = CBD ->
  (forall i, (i < n)%nat -> pick Periphery (Z.of_nat i + 1) nodes = [Pf i]) ->
  (forall i, (i < n)%nat -> pick Subcenter (Z.of_nat i + 1) nodes = [Sf i]) ->
  labelled n c Pf Sf /\ Permutation nodes (city_nodes n c Pf Sf).
Proof.
  intros Len Hc Kc HP HS.
  assert (IP : forall i, (i < n)%nat -> In (Pf i) nodes /\ nd_kind (Pf i) = Periphery /\ nd_zone (Pf i) = (Z.of_nat i + 1)%Z).
  { intros i Hi. apply pick_In. rewrite HP by auto. left; auto. }
  assert (IS : forall i, (i < n)%nat -> In (Sf i) nodes /\ nd_kind (Sf i) = Subcenter /\ nd_zone (Sf i) = (Z.of_nat i + 1)%Z).
  { intros i Hi. apply pick_In. rewrite HS by auto. left; auto. }
  assert (L : labelled n c Pf Sf).
  { constructor; auto; intros i Hi; [apply IP|apply IS]; auto. }
  split; auto. symmetry. apply NoDup_Permutation_bis.
  - apply city_nodes_NoDup; auto.
  - rewrite Len, city_nodes_length. auto.
  - intros x Hx. apply city_nodes_In in Hx. destruct Hx as [->|[i [Hi [->| ->]]]]; auto; [apply IP|apply IS]; auto.
Qed.

(** ** The verification loop *)
Definition last_near (near : nat -> bool) (r : Q) (q : nat -> Q) (k : nat) : option (Q * Z) :=
  fold_left (fun acc i => if near i then Some (r / q i, (Z.of_nat i + 1)%Z) else acc) (seq 0 k) None.
Lemma last_near_S near r q k : last_near near r q (S k) =
  if near k then Some (r / q k, (Z.of_nat k + 1)%Z) else last_near near r q k.
Proof. unfold last_near. rewrite seq_S, fold_left_app. reflexivity. Qed.
Lemma last_near_spec near r q k :
  match last_near near r q k with
  | None => forall i, (i < k)%nat -> near i = false
  | Some (e, z) => exists i, (i < k)%nat /\ near i = true /\ z = (Z.of_nat i + 1)%Z /\ e = r / q i /\
      forall j, (i < j < k)%nat -> near j = false
  end.
Proof.
  induction k as [|k IH].
  - simpl. intros; lia.
  - rewrite last_near_S. destruct (near k) eqn:E.
    + exists k. repeat split; auto. intros; lia.
    + destruct (last_near near r q k) as [[e z]|].
      * destruct IH as (i & Hi & Ni & -> & -> & U). exists i. repeat split; auto.
        intros j Hj. destruct (Nat.eq_dec j k); [subst; auto|apply U; lia].
      * intros i Hi. destruct (Nat.eq_dec i k); [subst; auto|apply IH; lia].
Qed.

Lemma verify_loop nodes r_cbd ang Pf Sf k :
  (forall i, (i < k)%nat -> pick Periphery (Z.of_nat i + 1) nodes = [Pf i]) ->
  (forall i, (i < k)%nat -> pick Subcenter (Z.of_nat i + 1) nodes = [Sf i]) ->
  (forall i, (i < k)%nat -> same_direction ang (nd_angle (Sf i)) = true -> ~ nd_radius (Sf i) == 0) ->
  foldM (verify_zone (of_kind Periphery nodes) (of_kind Subcenter nodes) r_cbd ang) (seq 0 k) (mkPj [] [] [] None)
  = Ok (mkPj (map (fun i => nd_radius (Sf i)) (seq 0 k)) (map (fun i => nd_radius (Pf i)) (seq 0 k))
             (map (fun i => nd_angle (Sf i)) (seq 0 k))
             (last_near (fun i => same_direction ang (nd_angle (Sf i))) r_cbd (fun i => nd_radius (Sf i)) k)).
Proof.
  intros HP HS HN. induction k as [|k IH]; [reflexivity|].
  rewrite seq_S, foldM_app, IH; [|intros; apply HP; lia|intros; apply HS; lia|intros i Hi; apply HN; lia].
  cbn [bind foldM]. rewrite Nat.add_0_l. unfold verify_zone at 1.
  change (of_zone (Z.of_nat k + 1) (of_kind Periphery nodes)) with (pick Periphery (Z.of_nat k + 1) nodes).
  change (of_zone (Z.of_nat k + 1) (of_kind Subcenter nodes)) with (pick Subcenter (Z.of_nat k + 1) nodes).
  rewrite HP, HS by lia. rewrite last_near_S, !map_app. cbn [pj_etha pj_rsc pj_rp pj_ang map].
  destruct (same_direction ang (nd_angle (Sf k))) eqn:E.
  - rewrite qdiv_ok by (apply HN; auto). reflexivity.
  - reflexivity.
Qed.

Lemma foldM_each {A S} (f : S -> A -> res S) l : forall s s', foldM f l s = Ok s' ->
  forall x, In x l -> exists s1 s2, f s1 x = Ok s2.
Proof.
  induction l as [|y l IH]; intros s s' H x Hx; [contradiction|].
  simpl in H. apply bind_ok in H. destruct H as [s1 [H1 H2]].
  destruct Hx as [<-|Hx]; eauto.
Qed.

Lemma verify_zone_inv ps scs r ang st i st' : verify_zone ps scs r ang st i = Ok st' ->
  exists p s, of_zone (Z.of_nat i + 1) ps = [p] /\ of_zone (Z.of_nat i + 1) scs = [s] /\
    (same_direction ang (nd_angle s) = true -> ~ nd_radius s == 0).
Proof.
  unfold verify_zone. intro H.
  destruct (of_zone (Z.of_nat i + 1) ps) as [|p [|? ?]]; try discriminate.
  destruct (of_zone (Z.of_nat i + 1) scs) as [|s [|? ?]]; try discriminate.
  exists p, s. repeat split; auto. intros E. rewrite E in H.
  apply bind_ok in H. destruct H as [et [H _]]. apply bind_ok in H. destruct H as [e [H _]].
  apply qdiv_inv in H. tauto.
Qed.

Definition hd_node (l : list node) : node := hd (mkNode CBD 0 0 0 0 0 0 0 EmptyString) l.
Lemma verify_loop_inv nodes r_cbd ang k st :
  foldM (verify_zone (of_kind Periphery nodes) (of_kind Subcenter nodes) r_cbd ang) (seq 0 k) (mkPj [] [] [] None) = Ok st ->
  exists Pf Sf,
    (forall i, (i < k)%nat -> pick Periphery (Z.of_nat i + 1) nodes = [Pf i]) /\
    (forall i, (i < k)%nat -> pick Subcenter (Z.of_nat i + 1) nodes = [Sf i]) /\
    (forall i, (i < k)%nat -> same_direction ang (nd_angle (Sf i)) = true -> ~ nd_radius (Sf i) == 0).
Proof.
  intro H.
  exists (fun i => hd_node (pick Periphery (Z.of_nat i + 1) nodes)),
         (fun i => hd_node (pick Subcenter (Z.of_nat i + 1) nodes)).
  assert (E : forall i, (i < k)%nat -> exists p s, pick Periphery (Z.of_nat i + 1) nodes = [p] /\
     pick Subcenter (Z.of_nat i + 1) nodes = [s] /\ (same_direction ang (nd_angle s) = true -> ~ nd_radius s == 0)).
  { intros i Hi. destruct (foldM_each _ _ _ _ H i) as (s1 & s2 & E); [apply in_seq; lia|].
    apply verify_zone_inv in E. exact E. }
  repeat split; intros i Hi; destruct (E i Hi) as (p & s & E1 & E2 & N); rewrite ?E1, ?E2; auto.
Qed.

(** ** The zones *)
Definition ids_free (n : nat) (c : node) (Pf Sf : nat -> node) : Prop :=
  forall i, (i < n)%nat -> ~ In (nd_id (Pf i)) (map nd_id (city_nodes i c Pf Sf)) /\
                           ~ In (nd_id (Sf i)) (map nd_id (city_nodes i c Pf Sf)).

Lemma labelled_le n m c Pf Sf : (m <= n)%nat -> labelled n c Pf Sf -> labelled m c Pf Sf.
Proof. intros H [A B C]. constructor; auto; intros i Hi; [apply B|apply C]; lia. Qed.

Lemma city_zones_length n : length (city_zones n) = n.
Proof. unfold city_zones. rewrite map_length, seq_length. auto. Qed.

Lemma add_zone_step k c Pf Sf g : labelled (S k) c Pf Sf -> shape k c Pf Sf g ->
  (~ In (nd_id (Pf k)) (map nd_id (city_nodes k c Pf Sf)) /\ ~ In (nd_id (Sf k)) (map nd_id (city_nodes k c Pf Sf)) ->
   exists g', add_zone g (Pf k) (Sf k) None = Ok g' /\ shape (S k) c Pf Sf g') /\
  (forall g', add_zone g (Pf k) (Sf k) None = Ok g' ->
   ~ In (nd_id (Pf k)) (map nd_id (city_nodes k c Pf Sf)) /\ ~ In (nd_id (Sf k)) (map nd_id (city_nodes k c Pf Sf))).
Proof.
  intros [Kc Kp Ks] [SN SI SZo SE _ _ _].
  unfold add_zone. rewrite SN, city_nodes_length, SZo, city_zones_length. simpl Nat.eqb. unfold raise_if.
  destruct (Kp k) as [Kpk Zpk]; [lia|]. destruct (Ks k) as [Ksk Zsk]; [lia|].
  assert (check_zone (Z.of_nat k + 1) (Pf k) (Sf k) = Ok tt) as ->.
  { unfold check_zone, raise_if. rewrite Kpk, Ksk, Zpk, Zsk.
    rewrite (proj2 (Z.leb_gt (Z.of_nat k + 1) 0)) by lia.
    rewrite Z.eqb_refl. reflexivity. }
  cbn [bind]. unfold add_nodes, raise_if. cbn [g_nodes_id g_nodes g_zones g_edges]. rewrite SI, SN. split.
  - intros [N1 N2]. apply zmem_nIn in N1, N2. rewrite N1, N2. cbn [orb bind].
    change (1 + 2 * k)%nat with (PZ k). change (S (PZ k)) with (SZ k).
    rewrite <- city_zones_snoc, <- city_nodes_snoc.
    apply build_edges_shape; auto.
    + rewrite city_nodes_snoc, map_app. reflexivity.
    + intros i Hi. apply Kp; auto.
    + intros i Hi. apply Ks; auto.
  - intros g' H. apply bind_ok in H. destruct H as [g2 [H _]].
    destruct (zmem _ _ || zmem _ _)%bool eqn:Z in H; [discriminate|]. clear H. rename Z into H.
    apply orb_false_iff in H. rewrite !zmem_nIn in H. exact H.
Qed.

Lemma import_zone_pick nodes Pf Sf g i :
  pick Periphery (Z.of_nat i + 1) nodes = [Pf i] -> pick Subcenter (Z.of_nat i + 1) nodes = [Sf i] ->
  import_zone (of_kind Periphery nodes) (of_kind Subcenter nodes) g i = add_zone g (Pf i) (Sf i) None.
Proof. unfold import_zone, pick. intros -> ->. reflexivity. Qed.

Lemma import_loop nodes n c Pf Sf :
  labelled n c Pf Sf -> Permutation nodes (city_nodes n c Pf Sf) ->
  (ids_free n c Pf Sf ->
   exists g, foldM (import_zone (of_kind Periphery nodes) (of_kind Subcenter nodes)) (seq 0 n) (add_cbd empty_graph c) = Ok g
     /\ shape n c Pf Sf g) /\
  (forall g, foldM (import_zone (of_kind Periphery nodes) (of_kind Subcenter nodes)) (seq 0 n) (add_cbd empty_graph c) = Ok g ->
   ids_free n c Pf Sf /\ shape n c Pf Sf g).
Proof.
  intros L Pm.
  assert (X : forall k, (k <= n)%nat ->
    (ids_free k c Pf Sf ->
     exists g, foldM (import_zone (of_kind Periphery nodes) (of_kind Subcenter nodes)) (seq 0 k) (add_cbd empty_graph c) = Ok g
       /\ shape k c Pf Sf g) /\
    (forall g, foldM (import_zone (of_kind Periphery nodes) (of_kind Subcenter nodes)) (seq 0 k) (add_cbd empty_graph c) = Ok g ->
     ids_free k c Pf Sf /\ shape k c Pf Sf g)).
  { induction k as [|k IH]; intro Hk.
    - assert (S0 : shape 0 c Pf Sf (add_cbd empty_graph c)).
      { destruct L as [Kc _ _]. constructor; auto; intros; lia. }
      split.
      + intros _. eexists. split; [reflexivity|auto].
      + simpl. intros g H. inversion H; subst. split; auto. intros i Hi; lia.
    - destruct IH as [IH1 IH2]; [lia|].
      assert (Lk : labelled (S k) c Pf Sf) by (apply (labelled_le n); auto).
      assert (Z1 : forall g, import_zone (of_kind Periphery nodes) (of_kind Subcenter nodes) g k = add_zone g (Pf k) (Sf k) None).
      { intro g. apply import_zone_pick; [apply (pick_city_P n c Pf Sf)|apply (pick_city_S n c Pf Sf)]; auto. }
      rewrite seq_S, foldM_app, Nat.add_0_l. split.
      + intro Fr. destruct IH1 as [g [-> Sg]]. { intros i Hi. exact (Fr i ltac:(lia)). }
        cbn [bind foldM]. rewrite Z1. destruct (add_zone_step k c Pf Sf g Lk Sg) as [A _].
        destruct A as [g' [-> Sg']]; [exact (Fr k ltac:(lia))|]. cbn [bind]. eauto.
      + intros g H. apply bind_ok in H. destruct H as [g1 [H1 H2]]. destruct (IH2 _ H1) as [Fr Sg].
        cbn [foldM] in H2. rewrite Z1 in H2. apply bind_ok in H2. destruct H2 as [g2 [H2 H3]].
        inversion H3; subst. destruct (add_zone_step k c Pf Sf g1 Lk Sg) as [A B].
        pose proof (B _ H2) as N. destruct (A N) as [g' [E Sg']]. split.
        * intros i Hi. destruct (Nat.eq_dec i k); [subst; auto|exact (Fr i ltac:(lia))].
        * congruence. }
  apply X. auto.
Qed.

(** without a CBD no zone is added *)
Lemma import_loop_no_cbd ps scs n g :
  (0 < n)%nat -> foldM (import_zone ps scs) (seq 0 n) empty_graph = Ok g -> False.
Proof.
  intros Hn H. destruct n; [lia|]. simpl in H. apply bind_ok in H. destruct H as [g1 [H _]].
  unfold import_zone in H. destruct (of_zone (Z.of_nat 0 + 1) ps); [discriminate|].
  destruct (of_zone (Z.of_nat 0 + 1) scs); discriminate.
Qed.

(** ** The derived parameters *)
Lemma Qsum_map {A} (f : A -> Q) l : Qsum (map f l) = Qsumf f l.
Proof. reflexivity. Qed.

Lemma derived_iff (rs rp : nat -> Q) n :
  (0 < n)%nat ->
  (forall i, (i < n)%nat -> 0 <= rs i /\ 0 <= rp i) ->
  forall l g, derived_lg (map rs (seq 0 n)) (map rp (seq 0 n)) = Ok (l, g) <->
  0 < Qsumf rs (seq 0 n) /\ l = Qsumf rs (seq 0 n) / Qofnat n /\
  g = (Qsumf rp (seq 0 n) / Qofnat n - l) / l.
Proof.
  intros Hn HR l g. pose proof (Qofnat_pos n Hn) as Nn.
  assert (E : derived_lg (map rs (seq 0 n)) (map rp (seq 0 n)) =
     let* l := py_mean (map rs (seq 0 n)) in let* m := py_mean (map rp (seq 0 n)) in
     let* g := qdiv (m - l) l in Ok (l, g)).
  { destruct n; [lia|reflexivity]. }
  rewrite E. unfold py_mean. rewrite !map_length, seq_length, !Qsum_map.
  rewrite !qdiv_ok by lra. cbn [bind].
  assert (S0 : 0 <= Qsumf rs (seq 0 n)).
  { apply Qsumf_nonneg. intros i Hi. apply in_seq in Hi. apply HR. lia. }
  set (a := Qsumf rs (seq 0 n)) in *. set (m := Qsumf rp (seq 0 n)).
  assert (Ea : a / Qofnat n * Qofnat n == a) by (field; lra).
  split.
  - intro H. apply bind_ok in H. destruct H as [g0 [H H2]]. apply qdiv_inv in H. destruct H as [N ->].
    inversion H2; subst. repeat split; auto.
    destruct (Qlt_le_dec 0 a) as [|Ha]; auto. exfalso. apply N.
    assert (a == 0) as Z by lra. rewrite Z. field. lra.
  - intros (H & -> & ->).
    rewrite qdiv_ok; [reflexivity|]. intro Z. rewrite Z in Ea. lra.
Qed.

Lemma mapM_qdiv (f : nat -> Q) d l : ~ d == 0 -> mapM (fun r => qdiv r d) (map f l) = Ok (map (fun i => f i / d) l).
Proof.
  intro H. rewrite (mapM_all_ok _ (fun r => r / d)); [rewrite map_map; reflexivity|].
  intros. apply qdiv_ok. auto.
Qed.
Lemma Qdiv_nonneg a b : 0 <= a -> 0 < b -> 0 <= a / b.
Proof. intros. apply Qle_shift_div_l; lra. Qed.

(** the rest of build_from_content, from the node objects *)
Definition import_nodes (n : nat) (nodes : list node) : res city :=
  let width := nd_width (last nodes (mkNode CBD 0 0 0 0 0 0 0 EmptyString)) in
  let cbd := of_kind CBD nodes in
  let periphery := of_kind Periphery nodes in
  let subcenter := of_kind Subcenter nodes in
  let '(r_cbd, ang_cbd) := match cbd with [c] => (nd_radius c, nd_angle c) | _ => (0, 0) end in
  let* st := foldM (verify_zone periphery subcenter r_cbd ang_cbd) (seq 0 n) (mkPj [] [] [] None) in
  let* lg := derived_lg (pj_rsc st) (pj_rp st) in
  let '(l, g) := lg in
  let* Gi := mapM (fun r => qdiv r l) (pj_rsc st) in
  let* Hi := mapM (fun r => qdiv r (l + g * l)) (pj_rp st) in
  let P := mkParams (Z.of_nat n) l g width (option_map fst (pj_etha st)) (option_map snd (pj_etha st))
             (Some (pj_ang st)) (Some Gi) (Some Hi) in
  let* ok := parameters_validator P in
  let* gr := (if ok then foldM (import_zone periphery subcenter) (seq 0 n)
                          (fold_left add_cbd cbd empty_graph)
              else Ok empty_graph) in
  Ok (mkCity gr P).
Lemma import_rows_eq G F rows0 : import_rows G F rows0 =
  raise_if (negb (Nat.odd (length (sort_rows rows0)) && (Z.of_nat (length (sort_rows rows0)) <? 10000)%Z))
    LineNumberInFileIsNotValidException (
  let* nodes := mapM (read_node G F) (sort_rows rows0) in
  import_nodes (Nat.div (length (sort_rows rows0) - 1) 2) nodes).
Proof. reflexivity. Qed.

Definition well_placed (nd : node) : Prop :=
  0 <= nd_radius nd /\ 0 <= nd_angle nd /\ nd_angle nd <= 360 /\ 0 <= nd_width nd.

Lemma last_In {A} (l : list A) d : l <> [] -> In (last l d) l.
Proof.
  induction l as [|a l IH]; intro H; [congruence|]. destruct l; simpl; auto.
  right. apply IH. discriminate.
Qed.

Section City.
Context (n : nat) (nodes : list node) (c : node) (Pf Sf : nat -> node).
Hypothesis Hn : (0 < n)%nat.
Hypothesis Lb : labelled n c Pf Sf.
Hypothesis Pm : Permutation nodes (city_nodes n c Pf Sf).
Hypothesis Wp : forall x, In x nodes -> well_placed x.
Let near i := same_direction (nd_angle c) (nd_angle (Sf i)).
Let rs i := nd_radius (Sf i).
Let rp i := nd_radius (Pf i).
Let width := nd_width (last nodes (mkNode CBD 0 0 0 0 0 0 0 EmptyString)).
Let l := Qsumf rs (seq 0 n) / Qofnat n.
Let g := (Qsumf rp (seq 0 n) / Qofnat n - l) / l.
Let et := last_near near (nd_radius c) rs n.
Let par := mkParams (Z.of_nat n) l g width (option_map fst et) (option_map snd et)
  (Some (map (fun i => nd_angle (Sf i)) (seq 0 n))) (Some (map (fun i => rs i / l) (seq 0 n)))
  (Some (map (fun i => rp i / (l + g * l)) (seq 0 n))).

Definition accepts : Prop :=
  ids_free n c Pf Sf /\ 0 < Qsumf rs (seq 0 n) /\ Qsumf rs (seq 0 n) <= Qsumf rp (seq 0 n) /\
  (forall i, (i < n)%nat -> near i = true -> ~ rs i == 0) /\
  (forall i, (i < n)%nat -> near i = true -> (forall j, (i < j < n)%nat -> near j = false) -> nd_radius c <= rs i).

Lemma wp_c : well_placed c.
Proof. apply Wp. eapply Permutation_in; [symmetry; exact Pm|]. apply city_nodes_In. auto. Qed.
Lemma wp_p i : (i < n)%nat -> well_placed (Pf i).
Proof. intro H. apply Wp. eapply Permutation_in; [symmetry; exact Pm|]. apply city_nodes_In. eauto. Qed.
Lemma wp_s i : (i < n)%nat -> well_placed (Sf i).
Proof. intro H. apply Wp. eapply Permutation_in; [symmetry; exact Pm|]. apply city_nodes_In. eauto. Qed.

Lemma den_eq : 0 < Qsumf rs (seq 0 n) -> 0 < l /\ l + g * l == Qsumf rp (seq 0 n) / Qofnat n.
Proof.
  intro H. pose proof (Qofnat_pos n Hn) as N.
  assert (0 < l) by (apply Qlt_shift_div_l; lra).
  split; auto. unfold g. field. lra.
Qed.

Lemma etha_valid : (forall i, (i < n)%nat -> near i = true -> ~ rs i == 0) ->
  match option_map fst et, option_map snd et with
  | None, None => True
  | Some e, Some z => in_range 0 1 e /\ (1 <= z <= Z.of_nat n)%Z
  | _, _ => False
  end <->
  (forall i, (i < n)%nat -> near i = true -> (forall j, (i < j < n)%nat -> near j = false) -> nd_radius c <= rs i).
Proof.
  intro NZ. pose proof (last_near_spec near (nd_radius c) rs n) as E. fold et in E.
  destruct et as [[e z]|]; simpl.
  - destruct E as (i & Hi & Ni & -> & -> & U).
    assert (Hp : 0 < rs i).
    { pose proof (NZ i Hi Ni). destruct (wp_s i Hi) as [R _]. fold (rs i) in R. lra. }
    destruct wp_c as [R0 _]. split.
    + intros [[_ H] _] j Hj Nj Uj.
      assert (j = i).
      { destruct (Nat.lt_trichotomy j i) as [L|[L|L]]; auto.
        - rewrite (Uj i) in Ni by lia. discriminate.
        - rewrite (U j) in Nj by lia. discriminate. }
      subst j. apply (Qmult_le_compat_r _ _ (rs i)) in H; [|lra].
      assert (nd_radius c / rs i * rs i == nd_radius c) as X by (field; lra). rewrite X in H. lra.
    + intro H. split; [|lia]. split; [apply Qdiv_nonneg; auto|].
      apply Qle_shift_div_r; auto. rewrite Qmult_1_l. apply H; auto.
  - split; auto. intros _ i Hi Ni. rewrite E in Ni by auto. discriminate.
Qed.

Lemma params_valid : 0 < Qsumf rs (seq 0 n) -> (forall i, (i < n)%nat -> near i = true -> ~ rs i == 0) ->
  valid_params par <->
  Qsumf rs (seq 0 n) <= Qsumf rp (seq 0 n) /\
  (forall i, (i < n)%nat -> near i = true -> (forall j, (i < j < n)%nat -> near j = false) -> nd_radius c <= rs i).
Proof.
  intros SP NZ. rewrite <- (etha_valid NZ). destruct (den_eq SP) as [Lp De].
  pose proof (Qofnat_pos n Hn) as N.
  assert (W : 0 <= width).
  { apply Wp. apply last_In. intros ->. apply Permutation_nil in Pm. discriminate. }
  assert (El : l * Qofnat n == Qsumf rs (seq 0 n)) by (unfold l; field; lra).
  assert (Em : Qsumf rp (seq 0 n) / Qofnat n * Qofnat n == Qsumf rp (seq 0 n)) by (field; lra).
  assert (Eg : g * l == Qsumf rp (seq 0 n) / Qofnat n - l) by (rewrite <- De; ring).
  assert (Le : 0 <= g <-> Qsumf rs (seq 0 n) <= Qsumf rp (seq 0 n)).
  { split; intro H.
    - assert (0 <= g * l) as X by (apply Qmult_le_0_compat; lra). rewrite Eg in X.
      rewrite <- El, <- Em. apply Qmult_le_compat_r; lra.
    - unfold g. apply Qdiv_nonneg; auto. rewrite <- El, <- Em in H.
      apply Qmult_le_r in H; auto. lra. }
  unfold valid_params, par. cbn [p_n p_l p_g p_p p_etha p_etha_zone p_angles p_Gi p_Hi]. split.
  - intros (_ & _ & G0 & _ & E & _). split; [apply Le; auto|exact E].
  - intros [S1 E]. apply Le in S1. split; [lia|]. split; [lra|]. split; [auto|]. split; [auto|]. split; [exact E|].
    assert (D0 : 0 < l + g * l).
    { assert (0 <= g * l) by (apply Qmult_le_0_compat; lra). lra. }
    cbn [valid_opt_list]. rewrite !map_length, seq_length.
    refine (conj (conj eq_refl _) (conj (conj eq_refl _) (conj eq_refl _))); intros x Hx;
      apply in_map_iff in Hx; destruct Hx as [i [<- Hi]]; apply in_seq in Hi.
    + destruct (wp_s i) as (_ & A & B & _); [lia|]. split; auto.
    + apply Qdiv_nonneg; auto. apply (wp_s i); lia.
    + apply Qdiv_nonneg; auto. apply (wp_p i); lia.
Qed.

Lemma import_city_ok : accepts ->
  exists gr, import_nodes n nodes = Ok (mkCity gr par) /\ shape n c Pf Sf gr.
Proof.
  intros (Fr & SP & Le & NZ & In). unfold import_nodes. fold width.
  rewrite (of_kind_city n c Pf Sf) by auto. cbv zeta.
  rewrite (verify_loop nodes (nd_radius c) (nd_angle c) Pf Sf n);
    [|intros; apply (pick_city_P n c Pf Sf); auto|intros; apply (pick_city_S n c Pf Sf); auto|exact NZ].
  cbn [bind pj_rsc pj_rp pj_ang pj_etha]. fold near. fold rs.
  change (map (fun i => nd_radius (Sf i)) (seq 0 n)) with (map rs (seq 0 n)).
  change (map (fun i => nd_radius (Pf i)) (seq 0 n)) with (map rp (seq 0 n)).
  assert (DL : derived_lg (map rs (seq 0 n)) (map rp (seq 0 n)) = Ok (l, g)).
  { apply derived_iff; auto. intros i Hi. split; [apply (wp_s i Hi)|apply (wp_p i Hi)]. }
  rewrite DL. cbn [bind]. destruct (den_eq SP) as [Lp De].
  pose proof (Qofnat_pos n Hn) as N.
  assert (0 < Qsumf rp (seq 0 n) / Qofnat n) by (apply Qlt_shift_div_l; lra).
  rewrite !mapM_qdiv by lra. cbn [bind]. fold et. fold par.
  assert (parameters_validator par = Ok true) as ->.
  { apply validator_iff. split; auto. apply params_valid; auto. }
  cbn [bind fold_left].
  destruct (import_loop nodes n c Pf Sf Lb Pm) as [A _]. destruct (A Fr) as [gr [-> Sh]].
  cbn [bind]. eauto.
Qed.

Lemma import_city_inv C : import_nodes n nodes = Ok C -> accepts.
Proof.
  unfold import_nodes. fold width.
  rewrite (of_kind_city n c Pf Sf) by auto. cbv zeta. intro H.
  apply bind_ok in H. destruct H as [st [E H]].
  assert (NZ : forall i, (i < n)%nat -> near i = true -> ~ rs i == 0).
  { destruct (verify_loop_inv _ _ _ _ _ E) as (Pf' & Sf' & HP & HS & NZ). intros i Hi.
    specialize (HS i Hi). rewrite (pick_city_S n c Pf Sf) in HS by auto. inversion HS as [X].
    unfold near, rs. rewrite X. apply NZ; auto. }
  rewrite (verify_loop nodes (nd_radius c) (nd_angle c) Pf Sf n) in E;
    [|intros; apply (pick_city_P n c Pf Sf); auto|intros; apply (pick_city_S n c Pf Sf); auto|exact NZ].
  injection E as <-. cbn [pj_rsc pj_rp pj_ang pj_etha] in H. fold near in H. fold rs in H.
  change (map (fun i => nd_radius (Sf i)) (seq 0 n)) with (map rs (seq 0 n)) in H.
  change (map (fun i => nd_radius (Pf i)) (seq 0 n)) with (map rp (seq 0 n)) in H.
  apply bind_ok in H. destruct H as [[l0 g0] [DL H]].
  apply derived_iff in DL; auto. 2: { intros i Hi. split; [apply (wp_s i Hi)|apply (wp_p i Hi)]. }
  destruct DL as (SP & El & Eg). fold l in El. subst l0. fold g in Eg. subst g0.
  destruct (den_eq SP) as [Lp De].
  rewrite (mapM_qdiv rs) in H by lra. cbn [bind] in H.
  apply bind_ok in H. destruct H as [Hi [EH H]].
  assert (D0 : ~ l + g * l == 0).
  { intro Z. destruct n as [|n']; [lia|]. simpl in EH. apply bind_ok in EH. destruct EH as [q [X _]].
    apply qdiv_inv in X. tauto. }
  rewrite (mapM_qdiv rp) in EH by auto. injection EH as <-. fold et in H. fold par in H.
  apply bind_ok in H. destruct H as [ok [V H]]. apply validator_iff in V. destruct V as [-> V].
  apply params_valid in V; auto. destruct V as [Le In].
  cbn [fold_left] in H. apply bind_ok in H. destruct H as [gr [E _]].
  destruct (import_loop nodes n c Pf Sf Lb Pm) as [_ B]. apply B in E. destruct E as [Fr _].
  split; [auto|]. split; [auto|]. split; [auto|]. split; auto.
Qed.
End City.

(** ** The last row after sorting *)
Lemma row_leb_iff a b : row_leb a b = true <->
  (pr_zone a < pr_zone b)%Z \/ (pr_zone a = pr_zone b /\ (kind_rank (pr_kind a) <= kind_rank (pr_kind b))%nat).
Proof.
  unfold row_leb. rewrite orb_true_iff, andb_true_iff, Z.ltb_lt, Z.eqb_eq, Nat.leb_le. tauto.
Qed.
Lemma insert_nonempty r l : insert_row r l <> [].
Proof. destruct l; simpl; [discriminate|]. destruct (row_leb r p); discriminate. Qed.
Lemma last_cons {A} (x : A) l d : l <> [] -> last (x :: l) d = last l d.
Proof. destruct l; [congruence|reflexivity]. Qed.
Lemma insert_last_max r d l : (forall x, In x l -> row_leb x (last l d) = true) ->
  forall x, In x (r :: l) -> row_leb x (last (insert_row r l) d) = true.
Proof.
  induction l as [|a l IH]; intros M x Hx.
  - destruct Hx as [<-|[]]. simpl. apply row_leb_iff. lia.
  - assert (Max : row_leb x (last (a :: l) d) = true \/ x = r).
    { destruct Hx as [<-|Hx]; auto. }
    cbn [insert_row]. destruct (row_leb r a) eqn:E.
    + rewrite last_cons by discriminate. destruct Max as [Max| ->]; auto.
      pose proof (M a (or_introl eq_refl)) as A. apply row_leb_iff in A, E. apply row_leb_iff. lia.
    + rewrite last_cons by apply insert_nonempty. destruct l as [|b l].
      * simpl. destruct Hx as [<-|[<-|[]]]; apply row_leb_iff; [lia|].
        destruct (row_leb a r) eqn:E'; [apply row_leb_iff in E'; auto|].
        assert (~ (row_leb r a = true)) as N1 by congruence. assert (~ (row_leb a r = true)) as N2 by congruence.
        rewrite row_leb_iff in N1, N2. lia.
      * assert (M' : forall y, In y (b :: l) -> row_leb y (last (b :: l) d) = true).
        { intros y Hy. rewrite <- (last_cons a (b :: l)) by discriminate. apply M. right; auto. }
        destruct Hx as [<-|[<-|Hx]].
        -- apply IH; auto. left; auto.
        -- pose proof (M a (or_introl eq_refl)) as A. rewrite last_cons in A by discriminate.
           assert (In (last (b :: l) d) (r :: b :: l)) as L1 by (right; apply last_In; discriminate).
           pose proof (IH M' _ L1) as B. apply row_leb_iff in A, B. apply row_leb_iff. lia.
        -- apply IH; auto. right; auto.
Qed.
Lemma sort_last_max d l : forall x, In x l -> row_leb x (last (sort_rows l) d) = true.
Proof.
  induction l as [|r l IH]; intros x Hx; [contradiction|]. cbn [sort_rows fold_right].
  apply insert_last_max.
  - intros y Hy. apply IH. apply (Permutation_in _ (sort_rows_perm l)). exact Hy.
  - destruct Hx as [->|Hx]; [left; auto|right].
    apply (Permutation_in _ (Permutation_sym (sort_rows_perm l))). exact Hx.
Qed.

(** ** From the values of the rows *)
Definition nodes_of_city (G : geo) (c : frow) (P S : nat -> frow) (n : nat) : list node :=
  city_nodes n (node_of G c) (fun i => node_of G (P i)) (fun i => node_of G (S i)).
Lemma map_city_rows {B} (h : frow -> B) n c P S :
  map h (city_rows n c P S) = h c :: flat_map (fun i => [h (P i); h (S i)]) (seq 0 n).
Proof.
  unfold city_rows. simpl. f_equal. generalize (seq 0 n). induction l as [|i l IH]; simpl; congruence.
Qed.
Lemma city_rows_nodes G n c P S : map (node_of G) (city_rows n c P S) = nodes_of_city G c P S n.
Proof. rewrite map_city_rows. reflexivity. Qed.
Lemma city_nodes_rows n c Pf Sf :
  map row_of (city_nodes n c Pf Sf) = city_rows n (row_of c) (fun i => row_of (Pf i)) (fun i => row_of (Sf i)).
Proof.
  unfold city_nodes, city_rows. simpl. f_equal. generalize (seq 0 n). induction l as [|i l IH]; simpl; congruence.
Qed.
Lemma city_rows_In n c P S r : In r (city_rows n c P S) <->
  r = c \/ exists i, (i < n)%nat /\ (r = P i \/ r = S i).
Proof.
  unfold city_rows. simpl. rewrite in_flat_map. split.
  - intros [H|[i [H [E|[E|[]]]]]]; [left; auto|right; exists i; apply in_seq in H; split; auto; lia ..].
  - intros [->|[i [H [->| ->]]]]; [left; auto|right; exists i; split; [apply in_seq; lia|simpl; auto] ..].
Qed.

Lemma same_direction_iff a b : same_direction a b = true <-> a - (1#1000) <= b /\ b <= a + (1#1000).
Proof. unfold same_direction. rewrite andb_true_iff, !Qleb_le. tauto. Qed.

Lemma ids_free_iff G n c P S :
  ids_free n (node_of G c) (fun i => node_of G (P i)) (fun i => node_of G (S i)) <-> ids_apart n c P S.
Proof.
  unfold ids_free, ids_apart.
  assert (X : forall x i, In x (map nd_id (city_nodes i (node_of G c) (fun i => node_of G (P i)) (fun i => node_of G (S i))))
     <-> x = f_id c \/ exists j, (j < i)%nat /\ (x = f_id (P j) \/ x = f_id (S j))).
  { intros x i. rewrite in_map_iff. split.
    - intros (nd & <- & H). apply city_nodes_In in H. destruct H as [->|[j [Hj [->| ->]]]]; simpl; eauto.
    - intros [->|[j [Hj [->| ->]]]]; [exists (node_of G c)|exists (node_of G (P j))|exists (node_of G (S j))];
        (split; [reflexivity|]); apply city_nodes_In; eauto. }
  split.
  - intro H. split.
    + intros i Hi. destruct (H i Hi) as [A B]. rewrite X in A, B. cbn [node_of nd_id] in *. split; intro E; [apply A|apply B]; auto.
    + intros i j [Hi Hj]. destruct (H j Hj) as [A B]. rewrite X in A, B. cbn [node_of nd_id] in *.
      repeat split; intro E; [apply A|apply B|apply A|apply B]; right; exists i; auto.
  - intros [H1 H2] i Hi. rewrite !X. cbn [node_of nd_id]. destruct (H1 i Hi) as [A B].
    split; intros [E|[j [Hj [E|E]]]]; try congruence; destruct (H2 j i) as (a1 & a2 & a3 & a4); try lia; congruence.
Qed.

Lemma placed_well G f : placed G f -> well_placed (node_of G f).
Proof. intros (_ & A & B & R & W & _). repeat split; auto. Qed.

Lemma cf_labelled G n c P S : city_file G n c P S ->
  labelled n (node_of G c) (fun i => node_of G (P i)) (fun i => node_of G (S i)).
Proof. intros [_ K KP KS _ _ _ _ _ _]. constructor; auto. Qed.

Lemma cf_accepts G n c P S : city_file G n c P S -> (0 < n)%nat ->
  accepts n (node_of G c) (fun i => node_of G (P i)) (fun i => node_of G (S i)).
Proof.
  intros [_ _ _ _ Ids _ Aw Ou Ne Ins] Hn. unfold accepts. cbn [nd_radius nd_angle node_of].
  split; [apply ids_free_iff; auto|]. split; [apply Aw; auto|]. split; [exact Ou|]. split.
  - intros i Hi Ni. apply Ne; auto. apply same_direction_iff; auto.
  - intros i Hi Ni U. apply Ins; auto. { apply same_direction_iff; auto. }
    intros j Hj T. apply same_direction_iff in T. rewrite U in T by auto. discriminate.
Qed.

Lemma accepts_cf G n c P S : (Z.of_nat n < 5000)%Z -> (0 < n)%nat ->
  labelled n (node_of G c) (fun i => node_of G (P i)) (fun i => node_of G (S i)) ->
  (forall r, In r (city_rows n c P S) -> placed G r) ->
  accepts n (node_of G c) (fun i => node_of G (P i)) (fun i => node_of G (S i)) ->
  city_file G n c P S.
Proof.
  intros Hs Hn [K KP KS] Pl (Ids & Aw & Ou & Ne & Ins). cbn [nd_radius nd_angle node_of] in *.
  constructor; auto.
  - apply ids_free_iff in Ids. exact Ids.
  - intros i Hi T. apply Ne; auto. apply same_direction_iff; auto.
  - intros i Hi T U. apply Ins; auto. { apply same_direction_iff; auto. }
    intros j Hj. destruct (same_direction (row_angle G c) (row_angle G (S j))) eqn:E; auto.
    exfalso. apply (U j Hj). apply same_direction_iff; auto.
Qed.

Lemma flat_map_ext_in_local {A B} (f g : A -> list B) l : (forall x, In x l -> f x = g x) -> flat_map f l = flat_map g l.
Proof.
  induction l as [|a l IH]; intro H; simpl; auto. rewrite H by (left; auto). f_equal. apply IH. intros; apply H; right; auto.
Qed.

(** ** Reading back the graph and the parameters *)
Lemma shape_city_graph G n c P S g :
  shape n (node_of G c) (fun i => node_of G (P i)) (fun i => node_of G (S i)) g -> city_graph G n c P S g.
Proof.
  intros [SN SI SZo SE _ _ _]. constructor.
  - rewrite city_rows_nodes. exact SN.
  - rewrite SZo. unfold city_zones. apply map_ext. intro i. unfold PZ, SZ. f_equal; lia.
  - rewrite SE, numbered_ids, numbered_length. apply map_ext. intro k. lia.
  - rewrite SE, numbered_ends. apply city_arcs_NoDup.
  - intros a b. rewrite SE, numbered_ends, city_arcs_narc. split.
    + apply narc_city.
    + intro H. apply city_narc in H. destruct H as (a' & b' & A & B & N).
      apply Nat2Z.inj in A, B. subst. exact N.
Qed.

Lemma nth_map_seq (f : nat -> Q) n i d : (i < n)%nat -> nth i (map f (seq 0 n)) d = f i.
Proof.
  intro H. rewrite (nth_indep _ d (f 0%nat)) by (rewrite map_length, seq_length; auto).
  rewrite map_nth, seq_nth by auto. reflexivity.
Qed.

(** The parameters stored by the import *)
Definition par_of (n : nat) (nodes : list node) (c : node) (Pf Sf : nat -> node) : params :=
  let near i := same_direction (nd_angle c) (nd_angle (Sf i)) in
  let rs i := nd_radius (Sf i) in
  let rp i := nd_radius (Pf i) in
  let width := nd_width (last nodes (mkNode CBD 0 0 0 0 0 0 0 EmptyString)) in
  let l := Qsumf rs (seq 0 n) / Qofnat n in
  let g := (Qsumf rp (seq 0 n) / Qofnat n - l) / l in
  let et := last_near near (nd_radius c) rs n in
  mkParams (Z.of_nat n) l g width (option_map fst et) (option_map snd et)
  (Some (map (fun i => nd_angle (Sf i)) (seq 0 n))) (Some (map (fun i => rs i / l) (seq 0 n)))
  (Some (map (fun i => rp i / (l + g * l)) (seq 0 n))).

Lemma par_city_params G n nodes c P S : (0 < n)%nat -> city_file G n c P S ->
  nd_width (last nodes (mkNode CBD 0 0 0 0 0 0 0 EmptyString)) = f_width (S (n - 1)%nat) ->
  city_params G n c P S (par_of n nodes (node_of G c) (fun i => node_of G (P i)) (fun i => node_of G (S i))).
Proof.
  intros Hn CF W. pose proof (Qofnat_pos n Hn) as N. pose proof (cf_away _ _ _ _ _ CF Hn) as SP.
  pose proof (cf_out _ _ _ _ _ CF) as Le.
  unfold par_of. cbn [nd_radius nd_angle node_of].
  set (sr := Qsumf (fun i => row_radius G (S i)) (seq 0 n)) in *.
  set (sp := Qsumf (fun i => row_radius G (P i)) (seq 0 n)) in *.
  assert (L0 : 0 < sr / Qofnat n) by (apply Qlt_shift_div_l; lra).
  set (l := sr / Qofnat n) in *.
  assert (De : l + (sp / Qofnat n - l) / l * l == sp / Qofnat n) by (field; lra).
  assert (D0 : 0 < sp / Qofnat n) by (apply Qlt_shift_div_l; lra).
  constructor; cbn [p_n p_l p_g p_p p_etha p_etha_zone p_angles p_Gi p_Hi]; auto.
  - fold sr. unfold l. field. lra.
  - fold sp. rewrite De. field. lra.
  - eexists. split; [reflexivity|]. rewrite map_length, seq_length. split; auto.
    intros i Hi. rewrite (nth_map_seq (fun i => row_radius G (S i) / l)) by auto. field. lra.
  - eexists. split; [reflexivity|]. rewrite map_length, seq_length. split; auto.
    intros i Hi. rewrite (nth_map_seq (fun i => row_radius G (P i) / (l + (sp / Qofnat n - l) / l * l))) by auto.
    assert (~ l + (sp / Qofnat n - l) / l * l == 0) as NZ by lra.
    generalize dependent (l + (sp / Qofnat n - l) / l * l). intros q _ NZ. field. auto.
  - pose proof (last_near_spec (fun i => same_direction (row_angle G c) (row_angle G (S i))) (row_radius G c)
       (fun i => row_radius G (S i)) n) as E.
    destruct (last_near _ _ _ n) as [[e z]|]; simpl.
    + destruct E as (i & Hi & Ni & -> & -> & U). apply same_direction_iff in Ni. exists i.
      split; [auto|]. split; [auto|]. split; [exact Ni|]. split.
      * intros j Hj T. apply same_direction_iff in T. rewrite U in T by auto. discriminate.
      * pose proof (cf_near _ _ _ _ _ CF i Hi Ni). field. auto.
    + intros i Hi T. apply same_direction_iff in T. rewrite E in T by auto. discriminate.
Qed.

(** ** Import of rows *)
Lemma Forall2_len {A B} (R : A -> B -> Prop) l l' : Forall2 R l l' -> length l = length l'.
Proof. induction 1; simpl; auto. Qed.
Lemma city_rows_length n c P S : length (city_rows n c P S) = (1 + 2 * n)%nat.
Proof. unfold city_rows. cbn [length]. rewrite flat2_length. lia. Qed.
Lemma half n : Nat.div (1 + 2 * n - 1) 2 = n.
Proof. replace (1 + 2 * n - 1)%nat with (n * 2)%nat by lia. apply Nat.div_mul. lia. Qed.

Lemma Forall2_last {A B} (R : A -> B -> Prop) da db l l' : Forall2 R l l' -> l <> [] -> R (last l da) (last l' db).
Proof.
  induction 1 as [|x y l l' H F IH]; intro N; [congruence|].
  destruct F as [|x' y' l l' H' F]; [simpl; auto|].
  rewrite !last_cons by discriminate. apply IH. discriminate.
Qed.
Lemma Forall2_In_r {A B} (R : A -> B -> Prop) l l' y : Forall2 R l l' -> In y l' -> exists x, In x l /\ R x y.
Proof.
  induction 1 as [|a b l l' H F IH]; intro Hy; [contradiction|].
  destruct Hy as [<-|Hy]; [exists a; simpl; auto|]. destruct (IH Hy) as (x & Hx & Rx). exists x; simpl; auto.
Qed.

Lemma last_map_d {A B} (f : A -> B) l d d' : l <> [] -> last (map f l) d' = f (last l d).
Proof.
  induction l as [|a l IH]; intro H; [congruence|]. destruct l as [|b l]; [reflexivity|].
  change (map f (a :: b :: l)) with (f a :: map f (b :: l)). rewrite !last_cons by discriminate. apply IH. discriminate.
Qed.

(** the last row after sorting is the subcenter of the last zone *)
Lemma sorted_last G F rows0 fs n c P S : Forall2 (reads F) (sort_rows rows0) fs ->
  city_file G n c P S -> (0 < n)%nat -> Permutation fs (city_rows n c P S) ->
  forall d, last fs d = S (n - 1)%nat.
Proof.
  intros R CF Hn Pm d.
  assert (Ne : fs <> []).
  { intros ->. apply Permutation_nil in Pm. discriminate. }
  assert (Ne' : sort_rows rows0 <> []).
  { intros E. rewrite E in R. inversion R. subst. congruence. }
  set (d0 := mkRow 0 EmptyString EmptyString EmptyString CBD 0 EmptyString).
  pose proof (Forall2_last _ d0 d _ _ R Ne') as RL.
  pose proof (last_In fs d Ne) as IL.
  assert (IS : In (S (n - 1)%nat) fs).
  { eapply Permutation_in; [symmetry; exact Pm|]. apply city_rows_In. right. exists (n - 1)%nat. split; [lia|auto]. }
  destruct (Forall2_In_r _ _ _ _ R IS) as (x & Hx & Rx).
  assert (M : row_leb x (last (sort_rows rows0) d0) = true).
  { apply sort_last_max. apply (Permutation_in _ (sort_rows_perm rows0)). exact Hx. }
  apply row_leb_iff in M.
  destruct Rx as (_ & _ & Kx & Zx & _). destruct RL as (_ & _ & KL & ZL & _). rewrite Kx, Zx, KL, ZL in M.
  destruct CF as [_ Kc KP KS _ Pl _ _ _ _].
  destruct (KS (n - 1)%nat) as [K1 Z1]; [lia|]. rewrite K1, Z1 in M.
  apply (Permutation_in _ Pm) in IL. apply city_rows_In in IL.
  destruct IL as [E|[i [Hi [E|E]]]]; rewrite E in *.
  - assert (f_zone c = 0%Z) as Z0.
    { apply (Pl c); [apply city_rows_In; auto|auto]. } rewrite Z0, Kc in M. simpl in M. lia.
  - destruct (KP i Hi) as [Ki Zi]. rewrite Ki, Zi in M. simpl in M. lia.
  - destruct (KS i Hi) as [Ki Zi]. rewrite Ki, Zi in M. simpl in M. f_equal. lia.
Qed.

Lemma Permutation_reads F rows rows' fs : Permutation rows rows' -> Forall2 (reads F) rows fs ->
  exists fs', Permutation fs fs' /\ Forall2 (reads F) rows' fs'.
Proof. intros Pm R. exact (Permutation_Forall2 Pm R). Qed.

Lemma import_one nd : well_placed nd -> exists C, import_nodes 0 [nd] = Ok C /\
  g_nodes_id (c_graph C) = map nd_id (g_nodes (c_graph C)) /\
  p_n (c_params C) = 0%Z /\ g_nodes (c_graph C) = (if kind_eqb (nd_kind nd) CBD then [nd] else []) /\
  g_zones (c_graph C) = [] /\ g_edges (c_graph C) = [].
Proof.
  intros (_ & _ & _ & W). unfold import_nodes. cbn [last seq foldM]. cbv zeta.
  destruct (match of_kind CBD [nd] with [c] => (nd_radius c, nd_angle c) | _ => (0, 0) end) as [r a].
  cbn [bind derived_lg pj_rsc pj_rp pj_ang pj_etha mapM option_map].
  assert (parameters_validator (mkParams (Z.of_nat 0) 0 0 (nd_width nd) None None (Some []) (Some []) (Some [])) = Ok true) as ->.
  { apply validator_iff. split; auto. unfold valid_params; simpl. repeat split; try lia; try lra; contradiction. }
  cbn [bind]. unfold of_kind. cbn [filter].
  destruct (kind_eqb (nd_kind nd) CBD); eexists; repeat split; reflexivity.
Qed.

Lemma import_ok G F rows fs n : Forall2 (reads F) rows fs -> describes G n fs ->
  exists C, import_rows G F rows = Ok C.
Proof.
  intros R D. destruct (Permutation_reads _ _ _ _ (Permutation_sym (sort_rows_perm rows)) R) as (fs' & Pm & R').
  rewrite import_rows_eq.
  destruct D as [(r & -> & -> & Pl)|(Hn & c & P & S & CF & Pc)].
  - apply Permutation_length_1_inv in Pm. subst fs'.
    pose proof (Forall2_len _ _ _ R') as E. simpl in E. rewrite E. cbn [Nat.odd Nat.even negb andb Nat.sub Nat.div].
    unfold raise_if. simpl.
    rewrite (proj2 (read_nodes_iff G F (sort_rows rows) [node_of G r])).
    2: { exists [r]. repeat split; auto. }
    cbn [bind]. destruct (import_one (node_of G r)) as (C & E' & _).
    { apply placed_well; auto. } change (Nat.divmod 0 1 0 1) with (0%nat, 1%nat). simpl fst. eauto.
  - assert (Pm' : Permutation fs' (city_rows n c P S)) by (etransitivity; [symmetry; exact Pm|exact Pc]).
    assert (E : length (sort_rows rows) = (1 + 2 * n)%nat).
    { rewrite (Forall2_len _ _ _ R'), (Permutation_length Pm'), city_rows_length. auto. }
    rewrite E, half. pose proof (cf_size _ _ _ _ _ CF) as Sz.
    assert (Od : Nat.odd (1 + 2 * n) = true).
    { replace (1 + 2 * n)%nat with (2 * n + 1)%nat by lia. apply Nat.odd_spec. exists n. lia. }
    rewrite Od, (proj2 (Z.ltb_lt _ 10000)) by lia. unfold raise_if. cbn [negb andb].
    assert (Pl : Forall (placed G) fs').
    { apply Forall_forall. intros x Hx. apply (cf_placed _ _ _ _ _ CF). apply (Permutation_in _ Pm'). exact Hx. }
    rewrite (proj2 (read_nodes_iff G F (sort_rows rows) (map (node_of G) fs'))) by eauto.
    cbn [bind].
    assert (PN : Permutation (map (node_of G) fs') (nodes_of_city G c P S n)).
    { rewrite <- city_rows_nodes. apply Permutation_map. auto. }
    destruct (import_city_ok n (map (node_of G) fs') (node_of G c) (fun i => node_of G (P i)) (fun i => node_of G (S i)))
      as (gr & -> & _); eauto.
    + apply (cf_labelled _ _ _ _ _ CF).
    + intros x Hx. apply in_map_iff in Hx. destruct Hx as (f & <- & Hf). apply placed_well.
      rewrite Forall_forall in Pl. auto.
    + apply cf_accepts; auto.
Qed.

Lemma import_inv G F rows C : import_rows G F rows = Ok C ->
  exists fs, Forall2 (reads F) rows fs /\ imported G fs C /\
    g_nodes_id (c_graph C) = map nd_id (g_nodes (c_graph C)) /\
    g_edges (c_graph C) = numbered 0 (city_arcs (length (g_zones (c_graph C)))).
Proof.
  rewrite import_rows_eq. intro H. apply raise_if_iff in H. destruct H as [Hl H].
  apply negb_false_iff in Hl. apply andb_true_iff in Hl. destruct Hl as [Od Sz].
  apply Z.ltb_lt in Sz. apply Nat.odd_spec in Od. destruct Od as [n En].
  apply bind_ok in H. destruct H as [nodes [Hm H]].
  apply read_nodes_iff in Hm. destruct Hm as (fs & R & Pl & ->).
  destruct (Permutation_reads _ _ _ _ (sort_rows_perm rows) R) as (fs0 & Pm & R0).
  exists fs0. split; [exact R0|].
  pose proof (Forall2_len _ _ _ R) as Len. rewrite En in Len, Sz, H.
  replace (2 * n + 1 - 1)%nat with (1 + 2 * n - 1)%nat in H by lia. rewrite half in H.
  destruct (Nat.eq_dec n 0) as [->|Hn].
  - destruct fs as [|r [|? ?]]; try discriminate. apply Permutation_length_1_inv in Pm. subst fs0.
    inversion Pl as [|? ? Pr _]; subst.
    destruct (import_one (node_of G r)) as (C' & E & A0 & A1 & A2 & A3 & A4); [apply placed_well; auto|].
    simpl map in H. rewrite H in E. inversion E; subst. split; [apply (imp_one G [r] C' r); auto|].
    rewrite A3, A4. auto.
  - assert (WP : forall x, In x (map (node_of G) fs) -> well_placed x).
    { intros x Hx. apply in_map_iff in Hx. destruct Hx as (f & <- & Hf). apply placed_well.
      rewrite Forall_forall in Pl. auto. }
    assert (X : exists c Pf Sf, labelled n c Pf Sf /\ Permutation (map (node_of G) fs) (city_nodes n c Pf Sf)).
    { pose proof H as H'. unfold import_nodes in H'. cbv zeta in H'.
      destruct (match of_kind CBD (map (node_of G) fs) with [c] => (nd_radius c, nd_angle c) | _ => (0, 0) end) as [r a] eqn:Eb.
      apply bind_ok in H'. destruct H' as (st & V & H').
      destruct (verify_loop_inv _ _ _ _ _ V) as (Pf & Sf & HP & HS & _).
      apply bind_ok in H'. destruct H' as ([l g] & _ & H').
      apply bind_ok in H'. destruct H' as (Gi & _ & H'). apply bind_ok in H'. destruct H' as (Hi & _ & H').
      apply bind_ok in H'. destruct H' as (ok & Vd & H'). apply validator_iff in Vd. destruct Vd as [-> _].
      apply bind_ok in H'. destruct H' as (gr & Eg & _).
      destruct (of_kind CBD (map (node_of G) fs)) as [|c cs] eqn:Ec.
      { simpl in Eg. apply import_loop_no_cbd in Eg; [contradiction|lia]. }
      assert (Ic : In c (of_kind CBD (map (node_of G) fs))) by (rewrite Ec; left; auto).
      unfold of_kind in Ic. apply filter_In in Ic. destruct Ic as [Ic Kc]. apply kind_eqb_eq in Kc.
      exists c, Pf, Sf. apply city_by_count; auto. rewrite map_length. lia. }
    destruct X as (c & Pf & Sf & Lb & PN).
    assert (Rows : forall nd, In nd (city_nodes n c Pf Sf) -> node_of G (row_of nd) = nd).
    { intros nd Hnd. apply (Permutation_in _ (Permutation_sym PN)) in Hnd. apply in_map_iff in Hnd.
      destruct Hnd as (f & <- & _). rewrite row_of_node. reflexivity. }
    set (c' := row_of c). set (P' := fun i => row_of (Pf i)). set (S' := fun i => row_of (Sf i)).
    assert (Ec : node_of G c' = c) by (apply Rows; apply city_nodes_In; auto).
    assert (EP : forall i, (i < n)%nat -> node_of G (P' i) = Pf i).
    { intros i Hi. apply Rows. apply city_nodes_In. eauto. }
    assert (ES : forall i, (i < n)%nat -> node_of G (S' i) = Sf i).
    { intros i Hi. apply Rows. apply city_nodes_In. eauto. }
    assert (EN : city_nodes n c Pf Sf = city_nodes n (node_of G c') (fun i => node_of G (P' i)) (fun i => node_of G (S' i))).
    { unfold city_nodes. rewrite Ec. f_equal. apply flat_map_ext_in_local. intros i Hi. apply in_seq in Hi. rewrite EP, ES by lia. reflexivity. }
    rewrite EN in PN.
    assert (Lb' : labelled n (node_of G c') (fun i => node_of G (P' i)) (fun i => node_of G (S' i))).
    { destruct Lb as [A B D]. constructor.
      - rewrite Ec; auto.
      - intros i Hi. rewrite EP by auto. auto.
      - intros i Hi. rewrite ES by auto. auto. }
    assert (Pr : Permutation fs (city_rows n c' P' S')).
    { apply (Permutation_map row_of) in PN. rewrite map_map in PN.
      rewrite (map_ext (fun x => row_of (node_of G x)) (fun x => x)), map_id in PN by (intro; apply row_of_node).
      rewrite city_nodes_rows in PN. rewrite row_of_node in PN.
      unfold city_rows in *. rewrite PN. apply Permutation_refl'. f_equal. }
    assert (Ac : accepts n (node_of G c') (fun i => node_of G (P' i)) (fun i => node_of G (S' i))).
    { eapply import_city_inv; eauto. lia. }
    assert (CF : city_file G n c' P' S').
    { apply accepts_cf; auto; try lia. intros r Hr. rewrite Forall_forall in Pl. apply Pl.
      apply (Permutation_in _ (Permutation_sym Pr)). exact Hr. }
    destruct (import_city_ok n (map (node_of G) fs) (node_of G c') (fun i => node_of G (P' i)) (fun i => node_of G (S' i)))
      as (gr & E & Sh); auto; try lia.
    rewrite H in E. inversion E; subst C. cbn [c_graph].
    split; [|split; [apply Sh|rewrite (sh_edges _ _ _ _ _ Sh), (sh_zones _ _ _ _ _ Sh), city_zones_length; reflexivity]].
    apply (imp_city G fs0 _ n c' P' S'); auto.
    + lia.
    + rewrite <- Pm. exact Pr.
    + apply shape_city_graph. exact Sh.
    + apply par_city_params; auto; [lia|].
      assert (fs <> []) by (intros ->; simpl in Len; lia).
      rewrite (last_map_d (node_of G) fs c') by auto.
      rewrite (sorted_last G F rows fs n c' P' S') by (auto; lia). reflexivity.
Qed.

(** ** Words and lines *)
Lemma words_aux_tok t : forall cur s, sall not_ws t = true -> words_aux cur (t ++ s) = words_aux (cur ++ t) s.
Proof.
  induction t as [|a t IH]; intros cur s H.
  - rewrite append_nil_r. reflexivity.
  - cbn [sall] in H. apply andb_true_iff in H. destruct H as [H1 H2]. cbn [String.append words_aux].
    unfold not_ws in H1. apply negb_true_iff in H1. rewrite H1, IH by auto.
    rewrite append_assoc. reflexivity.
Qed.
Lemma words_tok t s : t <> EmptyString -> sall not_ws t = true -> words (t ++ String " " s) = t :: words s.
Proof.
  intros N H. unfold words. rewrite words_aux_tok by auto. simpl. destruct t; [congruence|reflexivity].
Qed.
Lemma words_one t : t <> EmptyString -> sall not_ws t = true -> words t = [t].
Proof.
  intros N H. unfold words. rewrite <- (append_nil_r t) at 1. rewrite words_aux_tok by auto. simpl.
  destruct t; [congruence|reflexivity].
Qed.
Lemma sall_In p s : sall p s = true <-> forall a, In a (list_ascii_of_string s) -> p a = true.
Proof.
  induction s as [|c s IH]; simpl; [tauto|]. rewrite andb_true_iff, IH. split.
  - intros [A B] a [<-|H]; auto.
  - intro H. split; auto.
Qed.
Lemma one_word_iff s : one_word s <-> s <> EmptyString /\ sall not_ws s = true.
Proof.
  unfold one_word. rewrite sall_In. unfold not_ws. split; intros [A B]; split; auto; intros a Ha.
  - apply negb_true_iff. auto.
  - apply negb_true_iff. auto.
Qed.
Lemma one_line_iff s : one_line s <-> sall (not_char newline) s = true.
Proof.
  unfold one_line. rewrite sall_In. unfold not_char. split.
  - intros H a Ha. apply negb_true_iff. destruct (Ascii.eqb_spec a newline); auto. subst. contradiction.
  - intros H C. apply H in C. rewrite Ascii.eqb_refl in C. discriminate.
Qed.
Lemma one_word_line s : one_word s -> one_line s.
Proof. intros [_ H] C. apply H in C. vm_compute in C. discriminate. Qed.

Lemma split_lines l : l <> [] -> Forall one_line l -> split_on newline (String.concat nl l) = l.
Proof.
  induction l as [|a l IH]; intros N H; [congruence|]. inversion H; subst. apply one_line_iff in H2.
  destruct l as [|b l].
  - simpl. apply split_on_none. auto.
  - change (String.concat nl (a :: b :: l)) with (a ++ String newline (String.concat nl (b :: l)))%string.
    rewrite split_on_cons by auto. rewrite IH by (auto; discriminate). reflexivity.
Qed.

Lemma kind_of_text_iff s k : kind_of_text s = Some k <->
  s = match k with CBD => "CBD" | Periphery => "P" | Subcenter => "SC" end%string.
Proof.
  unfold kind_of_text.
  destruct (String.eqb_spec s "CBD"); [subst; split; [intro H; injection H as <-; auto|destruct k; intro; congruence]|].
  destruct (String.eqb_spec s "SC"); [subst; split; [intro H; injection H as <-; auto|destruct k; intro; congruence]|].
  destruct (String.eqb_spec s "P"); [subst; split; [intro H; injection H as <-; auto|destruct k; intro; congruence]|].
  split; [discriminate|]. destruct k; intro; congruence.
Qed.

(** the row read from a line *)
Definition row_line (line : string) (r : prow) : Prop :=
  exists sid sz, words line = [sid; pr_name r; pr_x r; pr_y r; kind_text (pr_kind r); sz; pr_width r] /\
    int_of_str sid = Some (pr_id r) /\ int_of_str sz = Some (pr_zone r).
Lemma row_line_says F line r f : row_line line r -> reads F r f -> line_says F line f.
Proof.
  intros (sid & sz & W & A & B) (E1 & E2 & E3 & E4 & X & Y & Z).
  exists sid, (pr_x r), (pr_y r), sz, (pr_width r). rewrite <- E1, <- E2, <- E3, <- E4. repeat split; auto.
Qed.
Lemma says_row_line F line f : line_says F line f -> exists r, row_line line r /\ reads F r f.
Proof.
  intros (sid & sx & sy & sz & sw & W & A & B & X & Y & Z).
  exists (mkRow (f_id f) (f_name f) sx sy (f_kind f) (f_zone f) sw). split.
  - exists sid, sz. auto.
  - unfold reads; simpl. repeat split; auto.
Qed.

Lemma read_line_row m rows line r : plain line -> row_line line r -> (0 < m)%Z ->
  read_line (m, rows) line = Ok ((m - 1)%Z, rows ++ [r]).
Proof.
  unfold plain. intros Pl (sid & sz & W & A & B) Hm. unfold read_line. rewrite Pl, (proj2 (Z.ltb_lt 0 m)), W by auto.
  assert (kind_of_text (kind_text (pr_kind r)) = Some (pr_kind r)) as -> by (apply kind_of_text_iff; destruct (pr_kind r); auto).
  rewrite A, B. destruct r; reflexivity.
Qed.

Lemma read_plain rest rows : Forall plain rest -> foldM read_line rest (0%Z, rows) = Ok (0%Z, rows).
Proof.
  induction 1 as [|x l H F IH]; auto. cbn [foldM]. unfold read_line at 1. rewrite H.
  change (0 <? 0)%Z with false. cbn [bind]. exact IH.
Qed.

Lemma read_body body : forall rs rows, Forall plain body -> Forall2 row_line body rs ->
  foldM read_line body (Z.of_nat (length body), rows) = Ok (0%Z, rows ++ rs).
Proof.
  induction body as [|x l IH]; intros rs rows Pl R; inversion R; subst.
  - rewrite app_nil_r. reflexivity.
  - inversion Pl; subst. cbn [foldM length].
    rewrite (read_line_row _ rows x y) by (auto; lia). cbn [bind].
    replace (Z.of_nat (S (length l)) - 1)%Z with (Z.of_nat (length l)) by lia.
    rewrite (IH l') by auto. rewrite <- app_assoc. reflexivity.
Qed.

Lemma read_document head v body rest rs :
  Forall one_line (head ++ v :: body ++ rest) -> Forall plain head -> announces (Z.of_nat (length body)) v ->
  Forall plain body -> Forall plain rest -> Forall2 row_line body rs ->
  read_rows (String.concat nl (head ++ v :: body ++ rest)) = Ok rs.
Proof.
  intros O Ph (Pv & w & sn & Wv & Nv) Pb Pr R. unfold read_rows.
  rewrite split_lines; [|destruct head; discriminate|auto].
  rewrite foldM_app, read_plain by auto. cbn [bind foldM].
  unfold read_line at 1. rewrite Pv, Wv, Nv. cbn [bind].
  rewrite foldM_app, (read_body body rs) by auto. cbn [bind]. rewrite read_plain by auto. reflexivity.
Qed.

(** the rows of an accepted text *)
Lemma fold_table ls : forall k rows st, foldM read_line ls (k, rows) = Ok st ->
  exists rs, snd st = rows ++ rs /\ table row_line k ls rs.
Proof.
  induction ls as [|x ls IH]; intros k rows st H; cbn [foldM] in H.
  - inversion H; subst. exists []. split; [simpl; rewrite app_nil_r; auto|constructor].
  - apply bind_ok in H. destruct H as [[m1 rows1] [H1 H2]]. apply IH in H2. destruct H2 as (rs & E & T).
    unfold read_line in H1. destruct (prefix "*vertices" (lower x)) eqn:Px.
    + destruct (words x) as [|w [|kk [|? ?]]] eqn:W; try discriminate.
      destruct (int_of_str kk) as [m|] eqn:I; [|discriminate]. inversion H1; subst.
      exists rs. split; [auto|]. apply (tb_head _ _ m1); auto. split; [auto|]. exists w, kk. auto.
    + destruct (0 <? k)%Z eqn:K.
      * apply Z.ltb_lt in K.
        destruct (words x) as [|sid [|name [|sx [|sy [|ty [|sz [|w [|? ?]]]]]]]] eqn:W; try discriminate.
        destruct (kind_of_text ty) as [kk|] eqn:Kk; [|discriminate].
        destruct (int_of_str sid) as [i|] eqn:I; [|discriminate].
        destruct (int_of_str sz) as [z|] eqn:Z; [|discriminate].
        inversion H1; subst. eexists. split; [rewrite E, <- app_assoc; reflexivity|].
        apply tb_row; auto. exists sid, sz. simpl. apply kind_of_text_iff in Kk. rewrite W, Kk. auto.
      * apply Z.ltb_ge in K. inversion H1; subst. exists rs. split; [auto|]. apply tb_skip; auto.
Qed.
Lemma table_fold k ls rs : table row_line k ls rs -> forall rows,
  exists st, foldM read_line ls (k, rows) = Ok st /\ snd st = rows ++ rs.
Proof.
  induction 1 as [k|k m line lines fs (Pv & w & sn & Wv & Nv) T IH|k line lines fs Pl Hk T IH|k line lines r fs Pl Hk Rl T IH];
    intro rows; cbn [foldM].
  - eexists. split; [reflexivity|]. simpl. rewrite app_nil_r. auto.
  - unfold read_line at 1. rewrite Pv, Wv, Nv. cbn [bind]. apply IH.
  - unfold read_line at 1. rewrite Pl, (proj2 (Z.ltb_ge 0 k)) by auto. cbn [bind]. apply IH.
  - rewrite (read_line_row _ rows line r) by auto. cbn [bind]. destruct (IH (rows ++ [r])) as (st & A & B).
    exists st. split; [auto|]. rewrite B, <- app_assoc. reflexivity.
Qed.
Lemma read_rows_table data rows : read_rows data = Ok rows <-> table row_line 0 (split_on newline data) rows.
Proof.
  unfold read_rows. split.
  - intro H. apply bind_ok in H. destruct H as [st [H E]]. inversion E; subst.
    apply fold_table in H. destruct H as (rs & A & T). simpl in A. rewrite A. auto.
  - intro T. destruct (table_fold _ _ _ T []) as (st & A & B). rewrite A. cbn [bind]. rewrite B. reflexivity.
Qed.
Lemma table_says F k ls rs fs : table row_line k ls rs -> Forall2 (reads F) rs fs -> table (line_says F) k ls fs.
Proof.
  intro T. revert fs. induction T as [k|k m line lines rs A T IH|k line lines rs Pl Hk T IH|k line lines r rs Pl Hk Rl T IH];
    intros fs R.
  - inversion R; subst. constructor.
  - apply (tb_head _ _ m); auto.
  - apply tb_skip; auto.
  - inversion R; subst. apply tb_row; auto. eapply row_line_says; eauto.
Qed.
Lemma says_table F k ls fs : table (line_says F) k ls fs ->
  exists rs, table row_line k ls rs /\ Forall2 (reads F) rs fs.
Proof.
  induction 1 as [k|k m line lines fs A T (rs & IH1 & IH2)|k line lines fs Pl Hk T (rs & IH1 & IH2)|k line lines f fs Pl Hk Ls T (rs & IH1 & IH2)].
  - exists []. split; constructor.
  - exists rs. split; [apply (tb_head _ _ m); auto|auto].
  - exists rs. split; [apply tb_skip; auto|auto].
  - destruct (says_row_line _ _ _ Ls) as (r & A & B). exists (r :: rs). split; [apply tb_row; auto|constructor; auto].
Qed.
Lemma table_line {R} (says : string -> R -> Prop) k ls fs : table says k ls fs ->
  forall f, In f fs -> exists line, In line ls /\ says line f.
Proof.
  induction 1 as [k|k m line lines fs A T IH|k line lines fs Pl Hk T IH|k line lines f fs Pl Hk Ls T IH]; intros x Hx.
  - destruct Hx.
  - destruct (IH x Hx) as (l & A1 & A2). exists l. split; [right|]; auto.
  - destruct (IH x Hx) as (l & A1 & A2). exists l. split; [right|]; auto.
  - destruct Hx as [<-|Hx]; [exists line; split; [left|]; auto|].
    destruct (IH x Hx) as (l & A1 & A2). exists l. split; [right|]; auto.
Qed.

(** every text is a list of lines *)
Lemma text_lines data : exists lines, lines <> [] /\ Forall one_line lines /\ data = String.concat nl lines.
Proof.
  induction data as [|a s (lines & N & O & ->)].
  - exists [EmptyString]. split; [discriminate|]. split; [|reflexivity]. repeat constructor. apply one_line_iff. reflexivity.
  - destruct (Ascii.eqb a newline) eqn:E.
    + apply Ascii.eqb_eq in E. subst a. exists (EmptyString :: lines). split; [discriminate|].
      split; [constructor; [apply one_line_iff; reflexivity|auto]|]. destruct lines; [congruence|]. reflexivity.
    + destruct lines as [|b l]; [congruence|]. exists (String a b :: l). split; [discriminate|]. inversion O; subst. split.
      * constructor; auto. intros [->|Hin]; [rewrite Ascii.eqb_refl in E; discriminate|]. apply H1; auto.
      * destruct l; reflexivity.
Qed.

Lemma Forall2_compose {A B C} (R : A -> B -> Prop) (S : B -> C -> Prop) (T : A -> C -> Prop) l m k :
  (forall a b c, R a b -> S b c -> T a c) -> Forall2 R l m -> Forall2 S m k -> Forall2 T l k.
Proof.
  intros H F. revert k. induction F as [|a b l m Hr F IH]; intros k K; inversion K; subst; constructor; eauto.
Qed.
Lemma Forall2_split {A B C} (R : A -> B -> Prop) (S : B -> C -> Prop) (T : A -> C -> Prop) l k :
  (forall a c, T a c -> exists b, R a b /\ S b c) -> Forall2 T l k -> exists m, Forall2 R l m /\ Forall2 S m k.
Proof.
  intros H F. induction F as [|a c l k Ht F IH]; [exists []; split; constructor|].
  destruct (H _ _ Ht) as (b & Rb & Sb). destruct IH as (m & A1 & A2). exists (b :: m). split; constructor; auto.
Qed.
