(** * ExtProofs: lemmas about the extended graph *)
From Coq Require Import String List ZArith QArith Bool Lia.
From Verif Require Import PyBase PyFacts PyStr Graph GraphSpec GraphProofs Mode Props_Mode Route ExtGraph ExtSpec.
Import ListNotations.
Local Open Scope nat_scope.

(** ** generic *)
Lemma fold_left_flat_map {A B S} (f : S -> B -> S) (h : A -> list B) l : forall s,
  fold_left f (flat_map h l) s = fold_left (fun s x => fold_left f (h x) s) l s.
Proof. induction l; intro s; simpl; auto. rewrite fold_left_app. apply IHl. Qed.
Lemma fold_left_ext_in {A S} (f h : S -> A -> S) l : (forall s x, In x l -> f s x = h s x) -> forall s, fold_left f l s = fold_left h l s.
Proof. induction l; intros H s; simpl; auto. rewrite H by (simpl; auto). apply IHl. intros; apply H; simpl; auto. Qed.
Lemma fold_left_cond {A S} (p : A -> bool) (f : S -> S) l : forall s,
  fold_left (fun s x => if p x then f s else s) l s = fold_left (fun s _ => f s) (filter p l) s.
Proof. induction l; intro s; simpl; auto. destruct (p a); simpl; auto. Qed.
Lemma foldM_collect {A B} (F : list B -> A -> res (list B)) (h : A -> list B) l :
  (forall acc x, In x l -> F acc x = Ok (acc ++ h x)) -> forall acc, foldM F l acc = Ok (acc ++ flat_map h l).
Proof.
  induction l as [|x l IH]; intros H acc; simpl; [rewrite app_nil_r; auto|].
  rewrite H by (simpl; auto). cbn [bind]. rewrite IH by (intros; apply H; simpl; auto). rewrite app_assoc. reflexivity.
Qed.
Lemma Neqb_spec : forall a b : nat, Nat.eqb a b = true <-> a = b.
Proof. exact Nat.eqb_eq. Qed.
Lemma dget0_In {V} (dflt : V) d k v : NoDup (map fst d) -> In (k, v) d -> dget0 Nat.eqb dflt d k = v.
Proof. intros N H. unfold dget0. rewrite (In_dget Nat.eqb Neqb_spec _ _ _ N H). reflexivity. Qed.
Lemma dget0_set_same {V} (dflt : V) d k v : dget0 Nat.eqb dflt (dset Nat.eqb d k v) k = v.
Proof. unfold dget0. rewrite (dget_dset_same Nat.eqb Neqb_spec). reflexivity. Qed.
Lemma dget0_set_other {V} (dflt : V) d k k2 v : k2 <> k -> dget0 Nat.eqb dflt (dset Nat.eqb d k v) k2 = dget0 Nat.eqb dflt d k2.
Proof. intro H. unfold dget0. rewrite (dget_dset_other Nat.eqb Neqb_spec) by auto. reflexivity. Qed.
Lemma dset_In {V} (d : list (nat * V)) k v k' v' : NoDup (map fst d) ->
  (In (k', v') (dset Nat.eqb d k v) <-> (k' = k /\ v' = v) \/ (k' <> k /\ In (k', v') d)).
Proof.
  intro N. split.
  - intro H. pose proof (dset_NoDup Nat.eqb Neqb_spec d k v N) as N'. apply (In_dget Nat.eqb Neqb_spec) in H; auto.
    destruct (Nat.eq_dec k' k) as [->|D].
    + rewrite (dget_dset_same Nat.eqb Neqb_spec) in H. inversion H. auto.
    + rewrite (dget_dset_other Nat.eqb Neqb_spec) in H by auto. right. split; auto. apply (dget_In Nat.eqb Neqb_spec); auto.
  - intros [[-> ->]|[D H]]; apply (dget_In Nat.eqb Neqb_spec).
    + apply (dget_dset_same Nat.eqb Neqb_spec).
    + rewrite (dget_dset_other Nat.eqb Neqb_spec) by auto. apply (In_dget Nat.eqb Neqb_spec); auto.
Qed.

(** ** Stop nodes *)
Definition touches (routes : list route) (g : graph) : list (nat * mode) :=
  flat_map (fun c => flat_map (fun r => map (fun _ => (c, r_mode r)) (filter (fun z => (nd_id (gnode g c) =? z)%Z) (r_si r ++ r_sr r))) routes)
    (seq 0 (length (g_nodes g))).
Lemma fold_left_map {A B S} (f : S -> B -> S) (h : A -> B) l : forall s, fold_left f (map h l) s = fold_left (fun s x => f s (h x)) l s.
Proof. induction l; intro s; simpl; auto. Qed.
Lemma tree_touches routes g : build_tree_graph routes g = fold_left (fun t '(c, m) => tree_touch t c m) (touches routes g) [].
Proof.
  unfold build_tree_graph, touches. rewrite fold_left_flat_map. apply fold_left_ext_in. intros t c _.
  rewrite fold_left_flat_map. apply fold_left_ext_in. intros t' r _. rewrite fold_left_map. apply fold_left_cond.
Qed.
Lemma touches_In routes g c m : In (c, m) (touches routes g) <->
  exists r nd, In r routes /\ r_mode r = m /\ nth_error (g_nodes g) c = Some nd /\ (In (nd_id nd) (r_si r) \/ In (nd_id nd) (r_sr r)).
Proof.
  unfold touches. rewrite in_flat_map. split.
  - intros (c' & Hc & H). apply in_seq in Hc. apply in_flat_map in H. destruct H as (r & Hr & H). apply in_map_iff in H.
    destruct H as (z & E & Hz). inversion E; subst. apply filter_In in Hz. destruct Hz as [Hz Ez]. apply Z.eqb_eq in Ez. subst.
    exists r, (gnode g c). split; auto. split; auto. split; [apply nth_error_nth'; lia|]. apply in_app_or. auto.
  - intros (r & nd & Hr & <- & Hn & Hz). exists c. assert (L : c < length (g_nodes g)) by (apply nth_error_Some; congruence).
    split; [apply in_seq; lia|]. apply in_flat_map. exists r. split; auto. apply in_map_iff. exists (nd_id nd). split; auto.
    apply filter_In. split; [apply in_or_app; auto|]. unfold gnode. rewrite (nth_error_nth _ _ _ Hn). apply Z.eqb_refl.
Qed.
(** the invariant of the tree *)
Record tree_inv (ts : list (nat * mode)) (t : list (nat * list mode)) : Prop := mkTI {
  ti_keys : NoDup (map fst t);
  ti_refs : forall c ms, In (c, ms) t -> NoDup (map m_ref ms);
  ti_In : forall c ms m, In (c, ms) t -> In m ms -> In (c, m) ts;
  ti_has : forall c m, In (c, m) ts -> exists ms m', In (c, ms) t /\ In m' ms /\ m_ref m' = m_ref m
}.
Lemma tree_inv_step ts t c m : tree_inv ts t -> tree_inv (ts ++ [(c, m)]) (tree_touch t c m).
Proof.
  intros [K Rf I H]. unfold tree_touch. set (ms := dget0 Nat.eqb [] t c).
  assert (Hms : In (c, ms) t \/ ms = []).
  { unfold ms, dget0. destruct (dget Nat.eqb t c) eqn:E; auto. left. apply (dget_In Nat.eqb Neqb_spec). auto. }
  set (ms' := if existsb (fun m' => mode_eqb m' m) ms then ms else ms ++ [m]).
  assert (N0 : NoDup (map m_ref ms)) by (destruct Hms as [Hms| ->]; [eauto|constructor]).
  assert (N' : NoDup (map m_ref ms')).
  { unfold ms'. destruct (existsb _ ms) eqn:E; auto. rewrite map_app. apply NoDup_snoc; auto.
    intro C. apply in_map_iff in C. destruct C as (x & Ex & Hx). rewrite existsb_false in E. apply E in Hx.
    unfold mode_eqb in Hx. apply Z.eqb_neq in Hx. congruence. }
  assert (I' : forall x, In x ms' -> In x ms \/ x = m).
  { unfold ms'. intros x Hx. destruct (existsb _ ms); auto. apply in_app_or in Hx. destruct Hx as [Hx|[Hx|[]]]; auto. }
  assert (S' : forall x, In x ms -> In x ms') by (unfold ms'; intros; destruct (existsb _ ms); auto; apply in_or_app; auto).
  assert (M' : exists x, In x ms' /\ m_ref x = m_ref m).
  { unfold ms'. destruct (existsb _ ms) eqn:E.
    - apply existsb_exists in E. destruct E as (x & Hx & Ex). apply Z.eqb_eq in Ex. eauto.
    - exists m. split; auto. apply in_or_app. simpl; auto. }
  split.
  - apply (dset_NoDup Nat.eqb Neqb_spec). auto.
  - intros c0 l0 Hl. apply dset_In in Hl; auto. destruct Hl as [[-> ->]|[_ Hl]]; eauto.
  - intros c0 l0 m0 Hl Hm. apply in_or_app. apply dset_In in Hl; auto. destruct Hl as [[-> ->]|[_ Hl]]; [|left; eauto].
    apply I' in Hm. destruct Hm as [Hm| ->]; [|simpl; auto]. destruct Hms as [Hms|E]; [left; eauto|]. rewrite E in Hm. contradiction.
  - intros c0 m0 Hm. apply in_app_or in Hm. destruct Hm as [Hm|[Hm|[]]].
    + destruct (H _ _ Hm) as (l0 & m1 & H1 & H2 & H3). destruct (Nat.eq_dec c0 c) as [->|D].
      * exists ms', m1. split; [apply dset_In; auto|]. split; auto. apply S'.
        assert (ms = l0) by (apply dget0_In; auto). subst. auto.
      * exists l0, m1. split; auto. apply dset_In; auto.
    + inversion Hm; subst. destruct M' as (x & Hx & Ex). exists ms', x. split; auto. apply dset_In; auto.
Qed.
Lemma tree_inv_fold l : forall ts t, tree_inv ts t -> tree_inv (ts ++ l) (fold_left (fun t '(c, m) => tree_touch t c m) l t).
Proof.
  induction l as [|[c m] l IH]; intros ts t H; simpl; [rewrite app_nil_r; auto|].
  replace (ts ++ (c, m) :: l) with ((ts ++ [(c, m)]) ++ l) by (rewrite <- app_assoc; reflexivity). apply IH, tree_inv_step. auto.
Qed.
Lemma tree_inv_ok routes g : tree_inv (touches routes g) (build_tree_graph routes g).
Proof.
  rewrite tree_touches. apply (tree_inv_fold _ [] []). split; simpl; try constructor; try contradiction.
Qed.
Lemma stop_nodes_eq t : NoDup (map fst t) -> (forall c ms, In (c, ms) t -> NoDup (map m_ref ms)) ->
  build_stop_nodes t = flat_map (fun '(c, ms) => map (fun m => mkStop m c) ms) t.
Proof.
  intros K Rf. unfold build_stop_nodes.
  assert (G : forall t acc, NoDup (map fst t) -> (forall c ms, In (c, ms) t -> NoDup (map m_ref ms)) ->
     (forall s, In s acc -> ~ In (sn_city s) (map fst t)) ->
     fold_left (fun l '(c, ms) => fold_left (fun l m =>
       if existsb (fun s => mode_eqb (sn_mode s) m && Nat.eqb (sn_city s) c) l then l else l ++ [mkStop m c]) ms l) t acc =
     acc ++ flat_map (fun '(c, ms) => map (fun m => mkStop m c) ms) t).
  2: { apply (G t []); simpl; auto. }
  clear. induction t as [|[c ms] t IH]; intros acc K Rf A; simpl; [rewrite app_nil_r; auto|].
  assert (In1 : forall ms acc, NoDup (map m_ref ms) -> (forall s, In s acc -> sn_city s = c -> ~ In (m_ref (sn_mode s)) (map m_ref ms)) ->
    fold_left (fun l m => if existsb (fun s => mode_eqb (sn_mode s) m && Nat.eqb (sn_city s) c) l then l else l ++ [mkStop m c]) ms acc =
    acc ++ map (fun m => mkStop m c) ms).
  { clear. induction ms as [|m ms IH]; intros acc N A; simpl; [rewrite app_nil_r; auto|].
    assert (E : existsb (fun s => mode_eqb (sn_mode s) m && Nat.eqb (sn_city s) c) acc = false).
    { apply existsb_false. intros s Hs. destruct (mode_eqb (sn_mode s) m) eqn:E1; auto. destruct (Nat.eqb_spec (sn_city s) c); auto.
      exfalso. apply (A s Hs); auto. simpl. left. unfold mode_eqb in E1. apply Z.eqb_eq in E1. auto. }
    rewrite E. inversion N; subst. rewrite IH; auto.
    - rewrite <- app_assoc. reflexivity.
    - intros s Hs Hc C. apply in_app_or in Hs. destruct Hs as [Hs|[<-|[]]].
      + apply (A s Hs Hc). simpl. auto.
      + simpl in C. contradiction. }
  simpl in K. inversion K; subst. rewrite In1.
  - rewrite IH; auto.
    + rewrite <- app_assoc. reflexivity.
    + intros; eapply Rf; simpl; eauto.
    + intros s Hs C. apply in_app_or in Hs. destruct Hs as [Hs|Hs]; [apply (A s Hs); simpl; auto|].
      apply in_map_iff in Hs. destruct Hs as (m & <- & _). simpl in C. contradiction.
  - eapply Rf. simpl. eauto.
  - intros s Hs Hc. exfalso. apply (A s Hs). simpl. auto.
Qed.
Definition stop_list (g : graph) (routes : list route) : list stopnode := build_stop_nodes (build_tree_graph routes g).
Lemma stop_list_In g routes s : In s (stop_list g routes) -> In (sn_city s, sn_mode s) (touches routes g).
Proof.
  destruct (tree_inv_ok routes g) as [K Rf I H]. unfold stop_list. rewrite stop_nodes_eq by eauto. intro Hs.
  apply in_flat_map in Hs. destruct Hs as ([c ms] & Ht & Hs). apply in_map_iff in Hs. destruct Hs as (m & <- & Hm). simpl. eauto.
Qed.
Lemma stop_list_has g routes c m : In (c, m) (touches routes g) -> exists s, In s (stop_list g routes) /\ sn_city s = c /\ m_ref (sn_mode s) = m_ref m.
Proof.
  destruct (tree_inv_ok routes g) as [K Rf I H]. unfold stop_list. rewrite stop_nodes_eq by eauto. intro Ht.
  destruct (H _ _ Ht) as (ms & m' & H1 & H2 & H3). exists (mkStop m' c). split; auto. apply in_flat_map. exists (c, ms). split; auto.
  apply in_map_iff. eauto.
Qed.
Lemma stop_list_NoDup g routes : NoDup (map (fun s => (sn_city s, m_ref (sn_mode s))) (stop_list g routes)).
Proof.
  destruct (tree_inv_ok routes g) as [K Rf _ _]. unfold stop_list. rewrite stop_nodes_eq by eauto.
  generalize dependent (build_tree_graph routes g). induction l as [|[c ms] t IH]; intros K Rf; simpl; [constructor|].
  simpl in K. inversion K; subst. rewrite map_app. apply NoDup_app.
  - rewrite map_map. simpl. assert (N : NoDup (map m_ref ms)) by (eapply Rf; simpl; eauto).
    rewrite <- (map_map m_ref (fun x => (c, x))). apply NoDup_map_inj; auto. intros x y E. inversion E. auto.
  - apply IH; auto. intros; eapply Rf; simpl; eauto.
  - intros [c' x] Ha Hb. rewrite map_map in Ha. simpl in Ha. apply in_map_iff in Ha. destruct Ha as (m & E & _). inversion E; subst.
    apply in_map_iff in Hb. destruct Hb as (s & E2 & Hs). inversion E2; subst. apply in_flat_map in Hs. destruct Hs as ([c2 ms2] & Ht & Hs).
    apply in_map_iff in Hs. destruct Hs as (m2 & <- & _). simpl in *. apply H1. apply in_map_iff. exists (c2, ms2). auto.
Qed.
Lemma find_stop_spec g m z l : forall k,
  match find_stop g m z l k with
  | Some s => exists st, nth_error l (s - k) = Some st /\ k <= s /\ m_ref (sn_mode st) = m_ref m /\ nd_id (gnode g (sn_city st)) = z
  | None => forall st, In st l -> ~ (m_ref (sn_mode st) = m_ref m /\ nd_id (gnode g (sn_city st)) = z)
  end.
Proof.
  induction l as [|s l IH]; intro k; simpl; auto.
  destruct (mode_eqb (sn_mode s) m && (nd_id (gnode g (sn_city s)) =? z)%Z) eqn:E.
  - apply andb_true_iff in E. destruct E as [E1 E2]. apply Z.eqb_eq in E1, E2. exists s. rewrite Nat.sub_diag. simpl. auto.
  - specialize (IH (S k)). destruct (find_stop g m z l (S k)) as [s0|].
    + destruct IH as (st & H1 & H2 & H3). exists st. replace (s0 - k) with (S (s0 - S k)) by lia. simpl. repeat split; auto; try lia; tauto.
    + intros st [<-|Hs]; auto. intros [C1 C2]. unfold mode_eqb in E. rewrite C1, C2, !Z.eqb_refl in E. discriminate.
Qed.
Lemma stop_of_visit g rs r d z : ext_input g rs -> In r rs -> In z (stops_of r d) ->
  exists s st nd, find_stop g (r_mode r) z (stop_list g rs) 0 = Some s /\ nth_error (stop_list g rs) s = Some st /\
    sn_mode st = r_mode r /\ nth_error (g_nodes g) (sn_city st) = Some nd /\ nd_id nd = z.
Proof.
  intros X Hr Hz. pose proof (xi_stops _ _ X _ _ _ Hr Hz) as Hi. apply in_map_iff in Hi. destruct Hi as (nd & En & Hn).
  apply In_nth_error in Hn. destruct Hn as [k Hk].
  assert (T : In (k, r_mode r) (touches rs g)).
  { apply touches_In. exists r, nd. rewrite En. repeat split; auto. destruct d; auto. }
  destruct (stop_list_has _ _ _ _ T) as (s0 & Hs0 & Es0 & Em0).
  pose proof (find_stop_spec g (r_mode r) z (stop_list g rs) 0) as F.
  destruct (find_stop g (r_mode r) z (stop_list g rs) 0) as [s|].
  - destruct F as (st & H1 & H2 & H3 & H4). rewrite Nat.sub_0_r in H1. exists s, st.
    pose proof (stop_list_In _ _ _ (nth_error_In _ _ H1)) as T2. apply touches_In in T2.
    destruct T2 as (r' & nd' & Hr' & E' & Hn' & _). exists nd'. split; auto. split; auto. split.
    + rewrite <- E'. apply (xi_modes _ _ X); auto. rewrite E'. auto.
    + split; auto. unfold gnode in H4. rewrite (nth_error_nth _ _ _ Hn') in H4. auto.
  - exfalso. apply (F s0 Hs0). split; auto. rewrite Es0. unfold gnode. rewrite (nth_error_nth _ _ _ Hk). auto.
Qed.

(** ** Route nodes *)
Lemma map_combine_seq {A B} (h : A -> B) l : forall a, map (fun '(_, x) => h x) (combine (seq a (length l)) l) = map h l.
Proof. induction l; intro k; simpl; f_equal; auto. Qed.
Lemma map_combine_seq_fst {A B} (h : nat -> B) (l : list A) : forall a, map (fun '(k, _) => h k) (combine (seq a (length l)) l) = map h (seq a (length l)).
Proof. induction l; intro k; simpl; f_equal; auto. Qed.
Lemma link_seq base n : map (fun k => Some (base + k)) (seq 0 n) = map Some (seq base n).
Proof.
  rewrite <- (map_map (fun k => base + k) Some). f_equal.
  revert base; induction n as [|n IH]; intro base; simpl; auto. f_equal; [lia|]. rewrite <- seq_shift, map_map. rewrite <- (IH (S base)).
  apply map_ext. intro; lia.
Qed.
Lemma tl_length {A} (l : list A) : length (tl l) = length l - 1.
Proof. destruct l; simpl; lia. Qed.
Lemma dir_nodes_info g stops r d base :
  map (fun rn => (rn_route rn, rn_dir rn, rn_stop rn)) (dir_nodes g stops r d base) =
  map (fun z => (r, d, find_stop g (r_mode r) z stops 0)) (visits r d).
Proof.
  unfold dir_nodes, visits. destruct (r_type r); rewrite map_map.
  - erewrite map_ext; [apply map_combine_seq|]. intros [k z]. reflexivity.
  - erewrite map_ext; [apply map_combine_seq|]. intros [k z]. reflexivity.
  - rewrite <- tl_length. erewrite map_ext; [apply map_combine_seq|]. intros [k z]. reflexivity.
Qed.
Lemma dir_nodes_prev g stops r d base : map rn_prev (dir_nodes g stops r d base) = link (r_type r) base (length (visits r d)).
Proof.
  assert (E : forall (l : list Z), map rn_prev (map (fun '(k, stop) => mkRnode (base + k) r d (find_stop g (r_mode r) stop stops 0)
      (match k with O => None | S k' => Some (base + k') end)) (combine (seq 0 (length l)) l)) =
      map (fun k => match k with O => None | S k' => Some (base + k') end) (seq 0 (length l))).
  { intro l. rewrite map_map. erewrite map_ext; [rewrite (map_combine_seq_fst (fun k => match k with O => None | S k' => Some (base + k') end)); reflexivity|].
    intros [k z]. reflexivity. }
  unfold dir_nodes, visits, link. destruct (r_type r).
  - rewrite E. simpl. destruct (length (stops_of r d)); simpl; auto. f_equal. rewrite <- seq_shift, map_map. apply link_seq.
  - rewrite E. simpl. destruct (length (stops_of r d)); simpl; auto. f_equal. rewrite <- seq_shift, map_map. apply link_seq.
  - rewrite <- tl_length. rewrite map_map.
    transitivity (map (fun k => Some (match k with O => base + (length (stops_of r d) - 2) | S k' => base + k' end)) (seq 0 (length (tl (stops_of r d))))).
    { rewrite <- (map_combine_seq_fst _ (tl (stops_of r d)) 0). apply map_ext. intros [k z]; reflexivity. }
    rewrite tl_length. destruct (length (stops_of r d) - 1) as [|m] eqn:El; simpl; auto. f_equal; [f_equal; lia|].
    rewrite <- seq_shift, map_map. apply link_seq.
Qed.
Fixpoint bnodes (g : graph) (stops : list stopnode) (base : nat) (l : list (route * dir)) : list rnode :=
  match l with
  | [] => []
  | (r, d) :: l' => dir_nodes g stops r d base ++ bnodes g stops (base + length (visits r d)) l'
  end.
Lemma dir_nodes_length g stops r d base : length (dir_nodes g stops r d base) = length (visits r d).
Proof. rewrite <- (map_length (fun rn => (rn_route rn, rn_dir rn, rn_stop rn))), dir_nodes_info, map_length. reflexivity. Qed.
Lemma route_nodes_bnodes g rs stops : build_route_nodes g rs stops = bnodes g stops 0 (lines rs).
Proof.
  unfold build_route_nodes.
  assert (H : forall rs acc, fold_left (fun acc r => let acc := acc ++ dir_nodes g stops r DI (length acc) in
    acc ++ dir_nodes g stops r DR (length acc)) rs acc = acc ++ bnodes g stops (length acc) (lines rs)).
  2: { apply (H rs []). }
  clear. induction rs as [|r rs IH]; intro acc; cbn [fold_left lines flat_map app bnodes]; [rewrite app_nil_r; auto|].
  cbv zeta. rewrite IH. rewrite !app_length, !dir_nodes_length. rewrite <- !app_assoc. reflexivity.
Qed.
Lemma bnodes_info g stops l : forall base,
  map (fun rn => (rn_route rn, rn_dir rn, rn_stop rn)) (bnodes g stops base l) =
  map (fun '(r, d, z) => (r, d, find_stop g (r_mode r) z stops 0)) (flat_map (fun '(r, d) => map (fun z => (r, d, z)) (visits r d)) l).
Proof.
  induction l as [|[r d] l IH]; intro base; simpl; auto. rewrite !map_app, IH, dir_nodes_info. f_equal. rewrite map_map. reflexivity.
Qed.
Lemma bnodes_prev g stops l : forall base, map rn_prev (bnodes g stops base l) = links base l.
Proof. induction l as [|[r d] l IH]; intro base; simpl; auto. rewrite map_app, IH, dir_nodes_prev. reflexivity. Qed.
Lemma link_length ty base m : length (link ty base m) = m.
Proof. destruct m; simpl; auto. rewrite map_length, seq_length. auto. Qed.
Lemma link_nth ty base m i p : nth_error (link ty base m) i = Some (Some p) ->
  i < m /\ ((exists i', i = S i' /\ p = base + i') \/ (i = 0 /\ ty = CIRCULAR /\ p = base + (m - 1))).
Proof.
  intro H. assert (L : i < m) by (rewrite <- (link_length ty base m); apply nth_error_Some; congruence). split; auto.
  destruct m as [|m]; [lia|]. destruct i as [|i]; cbn in H.
  - right. destruct ty; inversion H. split; auto. split; auto. lia.
  - left. exists i. split; auto. rewrite nth_error_map in H. rewrite (nth_error_nth' _ 0) in H by (rewrite seq_length; lia).
    rewrite seq_nth in H by lia. simpl in H. inversion H. auto.
Qed.
Lemma vis_block l : forall base i p v, nth_error (links base l) i = Some (Some p) ->
  nth_error (flat_map (fun '(r, d) => map (fun z => (r, d, z)) (visits r d)) l) i = Some v ->
  exists r d z z', v = (r, d, z) /\ base <= p /\
    nth_error (flat_map (fun '(r, d) => map (fun z => (r, d, z)) (visits r d)) l) (p - base) = Some (r, d, z') /\
    (p - base = i - 1 /\ 0 < i \/ r_type r = CIRCULAR /\ p - base = i + (length (visits r d) - 1)) /\
    exists j j', nth_error (visits r d) j = Some z /\ nth_error (visits r d) j' = Some z' /\
      (j = S j' \/ (r_type r = CIRCULAR /\ j = 0 /\ j' = length (visits r d) - 1)).
Proof.
  induction l as [|[r d] l IH]; intros base i p v H V; [destruct i; discriminate|]. cbn [links flat_map] in *.
  destruct (Nat.lt_ge_cases i (length (visits r d))) as [L|L].
  - rewrite nth_error_app1 in H by (rewrite link_length; auto). rewrite nth_error_app1 in V by (rewrite map_length; auto).
    rewrite nth_error_map in V. destruct (nth_error (visits r d) i) as [z|] eqn:Ez; [|discriminate]. inversion V; subst.
    apply link_nth in H. destruct H as [_ H].
    assert (P : exists j', p = base + j' /\ j' < length (visits r d) /\ ((j' = i - 1 /\ 0 < i /\ i = S j') \/ (r_type r = CIRCULAR /\ i = 0 /\ j' = length (visits r d) - 1))).
    { destruct H as [(i' & -> & ->)|(-> & T & ->)]; [exists i'|exists (length (visits r d) - 1)]; (split; [auto|]); split; lia || auto. }
    destruct P as (j' & -> & Lj & P). destruct (nth_error (visits r d) j') as [z'|] eqn:Ez'; [|apply nth_error_None in Ez'; lia].
    exists r, d, z, z'. split; auto. split; [lia|]. replace (base + j' - base) with j' by lia.
    split; [rewrite nth_error_app1 by (rewrite map_length; auto); rewrite nth_error_map, Ez'; reflexivity|].
    split; [destruct P as [P|P]; [left|right]; lia || (split; [tauto|lia])|].
    exists i, j'. split; auto. split; auto. destruct P as [P|P]; [left; tauto|right; tauto].
  - rewrite nth_error_app2 in H by (rewrite link_length; auto). rewrite nth_error_app2 in V by (rewrite map_length; auto).
    rewrite link_length in H. rewrite map_length in V. destruct (IH _ _ _ _ H V) as (r0 & d0 & z & z' & E & Hp & N & Pp & J).
    exists r0, d0, z, z'. split; auto. split; [lia|].
    split; [rewrite nth_error_app2 by (rewrite map_length; lia); rewrite map_length; rewrite <- N; f_equal; lia|].
    split; [|exact J]. destruct Pp as [Pp|[T Pp]]; [left; lia|right; split; auto; lia].
Qed.

(** ** The tree of the extended graph *)
Section Tree.
Context (stops : list stopnode).
Definition scity (s : nat) : nat := sn_city (nth s stops dflt_stop).
Record xtree_inv (L : list (nat * rnode)) (t : xtree) : Prop := mkXT {
  xt_keys : NoDup (map fst t);
  xt_ne : forall c d, In (c, d) t -> d <> [] /\ NoDup (map fst d);
  xt_list : forall c d s l, In (c, d) t -> In (s, l) d -> l <> [] /\ NoDup l /\ scity s = c /\
              forall k, In k l <-> exists rn, In (k, rn) L /\ rn_stop rn = Some s;
  xt_has : forall k rn, In (k, rn) L -> exists s d l, rn_stop rn = Some s /\ In (scity s, d) t /\ In (s, l) d /\ In k l
}.
Definition xt_step (t : xtree) (x : nat * rnode) : res xtree :=
  let '(k, rn) := x in
    match rn_stop rn with
    | None => Err AttributeError
    | Some s =>
        let c := sn_city (nth s stops dflt_stop) in
        let d := dget0 Nat.eqb [] t c in
        Ok (dset Nat.eqb t c (dset Nat.eqb d s (dget0 Nat.eqb [] d s ++ [k])))
    end.
Lemma dget0_cases {V} (t : list (nat * list V)) c : In (c, dget0 Nat.eqb [] t c) t \/ (dget0 Nat.eqb [] t c = [] /\ ~ In c (map fst t)).
Proof.
  unfold dget0. destruct (dget Nat.eqb t c) eqn:E; [left; apply (dget_In Nat.eqb Neqb_spec); auto|].
  right. split; auto. apply (dget_None Nat.eqb Neqb_spec). auto.
Qed.
Lemma dset_ne {V} (d : list (nat * V)) s v : dset Nat.eqb d s v <> [].
Proof. destruct d as [|[a b] d]; simpl; [discriminate|]. destruct (Nat.eqb s a); discriminate. Qed.
Lemma xt_step_inv L t k rn s : rn_stop rn = Some s -> ~ In k (map fst L) -> xtree_inv L t ->
  exists t', xt_step t (k, rn) = Ok t' /\ xtree_inv (L ++ [(k, rn)]) t'.
Proof.
  intros Hs Fr [K NE LI HA]. unfold xt_step. rewrite Hs. eexists. split; [reflexivity|].
  fold (scity s). set (c := scity s). set (d := dget0 Nat.eqb [] t c). set (l := dget0 Nat.eqb [] d s).
  assert (Hd : In (c, d) t \/ (d = [] /\ ~ In c (map fst t))) by apply dget0_cases.
  assert (Hl : In (s, l) d \/ (l = [] /\ ~ In s (map fst d))) by apply dget0_cases.
  assert (Nd : NoDup (map fst d)) by (destruct Hd as [Hd|[-> _]]; [apply NE in Hd; tauto|constructor]).
  assert (Lk : forall x, In x l <-> exists rn, In (x, rn) L /\ rn_stop rn = Some s).
  { destruct Hl as [Hl|[El Nl]].
    - destruct Hd as [Hd|[Ed _]]; [|rewrite Ed in Hl; contradiction]. apply (LI c d s l); auto.
    - intro x. rewrite El. split; [contradiction|]. intros (rn' & H1 & H2). destruct (HA _ _ H1) as (s' & d' & l' & E1 & E2 & E3 & E4).
      assert (s' = s) by congruence. subst s'. fold c in E2. assert (d = d') by (apply dget0_In; auto). subst d'.
      exfalso. apply Nl. apply in_map_iff. exists (s, l'). auto. }
  assert (Nl : NoDup l).
  { destruct Hl as [Hl|[El _]]; [|rewrite El; constructor]. destruct Hd as [Hd|[Ed _]]; [|rewrite Ed in Hl; contradiction].
    apply (LI c d s l); auto. }
  assert (Nk : ~ In k l). { intro C. apply Lk in C. destruct C as (rn' & C & _). apply Fr. apply in_map_iff. exists (k, rn'). auto. }
  split.
  - apply (dset_NoDup Nat.eqb Neqb_spec). auto.
  - intros c0 d0 H. apply dset_In in H; auto. destruct H as [[-> ->]|[_ H]]; [|eapply NE; eauto]. split; [apply dset_ne|].
    apply (dset_NoDup Nat.eqb Neqb_spec). auto.
  - intros c0 d0 s0 l0 H H0. apply dset_In in H; auto. destruct H as [[-> ->]|[Dc H]].
    + apply dset_In in H0; auto. destruct H0 as [[-> ->]|[Ds H0]].
      * split; [destruct l; discriminate|]. split; [apply NoDup_snoc; auto|]. split; auto. intro x. rewrite in_app_iff, Lk. split.
        -- intros [(rn' & H1 & H2)|[<-|[]]]; [exists rn'|exists rn]; split; auto; apply in_or_app; simpl; auto.
        -- intros (rn' & H1 & H2). apply in_app_or in H1. destruct H1 as [H1|[H1|[]]]; [left; eauto|]. inversion H1; subst. simpl; auto.
      * destruct Hd as [Hd|[Ed _]]; [|rewrite Ed in H0; contradiction]. destruct (LI _ _ _ _ Hd H0) as (A1 & A2 & A3 & A4).
        repeat (split; auto). 
        -- intro Hx. apply A4 in Hx. destruct Hx as (rn' & X1 & X2). exists rn'. split; auto. apply in_or_app; auto.
        -- intros (rn' & X1 & X2). apply A4. apply in_app_or in X1. destruct X1 as [X1|[X1|[]]]; eauto. inversion X1; subst. congruence.
    + destruct (LI _ _ _ _ H H0) as (A1 & A2 & A3 & A4). repeat (split; auto).
      * intro Hx. apply A4 in Hx. destruct Hx as (rn' & X1 & X2). exists rn'. split; auto. apply in_or_app; auto.
      * intros (rn' & X1 & X2). apply A4. apply in_app_or in X1. destruct X1 as [X1|[X1|[]]]; eauto. inversion X1; subst.
        assert (s0 = s) by congruence. subst. contradiction.
  - intros k0 rn0 H. apply in_app_or in H. destruct H as [H|[H|[]]].
    + destruct (HA _ _ H) as (s0 & d0 & l0 & E1 & E2 & E3 & E4). destruct (Nat.eq_dec (scity s0) c) as [Ec|Dc].
      * assert (d = d0) by (apply dget0_In; auto; rewrite <- Ec; auto). subst d0. exists s0. destruct (Nat.eq_dec s0 s) as [->|Ds].
        -- assert (l = l0) by (apply dget0_In; auto). subst l0. eexists. exists (l ++ [k]). split; auto. split; [apply dset_In; auto|].
           split; [apply dset_In; auto|]. apply in_or_app. auto.
        -- eexists. exists l0. split; auto. split; [apply dset_In; auto|]. split; auto. apply dset_In; auto.
      * exists s0, d0, l0. split; auto. split; auto. apply dset_In; auto.
    + inversion H; subst. exists s. eexists. exists (l ++ [k0]). split; auto. split; [apply dset_In; auto|]. split; [apply dset_In; auto|].
      apply in_or_app. simpl; auto.
Qed.
Lemma xt_build L2 : forall L t, NoDup (map fst (L ++ L2)) -> (forall k rn, In (k, rn) L2 -> rn_stop rn <> None) -> xtree_inv L t ->
  exists t', foldM xt_step L2 t = Ok t' /\ xtree_inv (L ++ L2) t'.
Proof.
  induction L2 as [|[k rn] L2 IH]; intros L t N S H; [exists t; rewrite app_nil_r; auto|].
  cbn [foldM]. destruct (rn_stop rn) as [s|] eqn:Es; [|exfalso; apply (S k rn); simpl; auto].
  assert (Fr : ~ In k (map fst L)).
  { rewrite map_app in N. apply NoDup_remove in N. intro C. apply (proj2 N). apply in_or_app. auto. }
  destruct (xt_step_inv L t k rn s Es Fr H) as (t1 & -> & H1). cbn [bind].
  replace (L ++ (k, rn) :: L2) with ((L ++ [(k, rn)]) ++ L2) in * by (rewrite <- app_assoc; reflexivity).
  apply IH; auto. intros; apply (S k0); simpl; auto.
Qed.
End Tree.
Lemma map_fst_combine_seq {A} (l : list A) : forall a, map fst (combine (seq a (length l)) l) = seq a (length l).
Proof. induction l; intro k; simpl; f_equal; auto. Qed.
Lemma combine_seq_In {A} (l : list A) : forall a k x, In (k, x) (combine (seq a (length l)) l) <-> a <= k /\ nth_error l (k - a) = Some x.
Proof.
  induction l as [|y l IH]; intros a k x; simpl.
  - split; [contradiction|]. intros [_ H]. destruct (k - a); discriminate.
  - rewrite IH. split.
    + intros [E|[H1 H2]]; [inversion E; subst; rewrite Nat.sub_diag; auto|]. split; [lia|]. replace (k - a) with (S (k - S a)) by lia. auto.
    + intros [H1 H2]. destruct (Nat.eq_dec k a) as [->|D]; [rewrite Nat.sub_diag in H2; inversion H2; auto|].
      right. split; [lia|]. replace (k - a) with (S (k - S a)) in H2 by lia. auto.
Qed.
Lemma build_tree_ok stops rns : (forall rn, In rn rns -> rn_stop rn <> None) ->
  exists t, build_extended_graph_nodes stops rns = Ok t /\ xtree_inv stops (combine (seq 0 (length rns)) rns) t.
Proof.
  intro H. destruct (xt_build stops (combine (seq 0 (length rns)) rns) [] []) as (t & E & I).
  - simpl. rewrite map_fst_combine_seq. apply seq_NoDup.
  - intros k rn Hk. apply H. apply in_combine_r in Hk. auto.
  - split; simpl; try constructor; try contradiction.
  - exists t. split; auto.
Qed.

(** ** Edges *)
Local Open Scope Q_scope.
Section Edges.
Context (G : geo) (g : graph) (rs : list route) (TP : Q) (freq : list (string * Q)) (I : ext_input g rs).
Let stops := stop_list g rs.
Let rns := bnodes g stops 0 (lines rs).
Lemma rns_visit k rn : nth_error rns k = Some rn -> exists r d z s st nd,
  In r rs /\ rn_route rn = r /\ rn_dir rn = d /\ nth_error (all_visits rs) k = Some (r, d, z) /\ In z (visits r d) /\
  rn_stop rn = Some s /\ find_stop g (r_mode r) z stops 0 = Some s /\ nth_error stops s = Some st /\
  sn_mode st = r_mode r /\ nth_error (g_nodes g) (sn_city st) = Some nd /\ nd_id nd = z.
Proof.
  intro H. pose proof (bnodes_info g stops (lines rs) 0) as B. fold rns in B. apply (f_equal (fun l => nth_error l k)) in B.
  rewrite !nth_error_map, H in B. fold (all_visits rs) in B. cbn [option_map] in B.
  destruct (nth_error (all_visits rs) k) as [[[r d] z]|] eqn:E; [|discriminate]. cbn [option_map] in B.
  injection B as B1 B2 B3.
  assert (V : In r rs /\ In z (visits r d)).
  { apply nth_error_In in E. unfold all_visits, lines in E. apply in_flat_map in E. destruct E as ([r' d'] & E1 & E2).
    apply in_map_iff in E2. destruct E2 as (z' & E2 & E3). inversion E2; subst. apply in_flat_map in E1. destruct E1 as (r'' & E1 & E4).
    split; auto. destruct E4 as [E4|[E4|[]]]; injection E4 as E5 E6; rewrite <- E5; exact E1. }
  destruct V as [Hr Hz].
  assert (Hz' : In z (stops_of r d)) by (unfold visits in Hz; destruct (r_type r); auto; destruct (stops_of r d); simpl in *; auto).
  destruct (stop_of_visit g rs r d z I Hr Hz') as (s & st & nd & F & N & M & C & D).
  exists r, d, z, s, st, nd. fold stops in F. rewrite F in B3. repeat (split; auto).
Qed.
Lemma rns_len : length rns = length (all_visits rs).
Proof. pose proof (bnodes_info g stops (lines rs) 0) as B. apply (f_equal (@length _)) in B. rewrite !map_length in B. exact B. Qed.
Lemma rns_prev k rn p : nth_error rns k = Some rn -> rn_prev rn = Some p -> exists rn', nth_error rns p = Some rn' /\
  rn_route rn' = rn_route rn /\ rn_dir rn' = rn_dir rn.
Proof.
  intros H Hp. destruct (rns_visit k rn H) as (r & d & z & s & st & nd & Hr & E1 & E2 & V & _).
  assert (L : nth_error (links 0 (lines rs)) k = Some (Some p)).
  { rewrite <- (bnodes_prev g stops), nth_error_map. fold rns. rewrite H. simpl. rewrite Hp. auto. }
  destruct (vis_block _ _ _ _ _ L V) as (r0 & d0 & z0 & z1 & E & _ & N & _). inversion E; subst. rewrite Nat.sub_0_r in N.
  fold (all_visits rs) in N. assert (Lp : (p < length rns)%nat) by (rewrite rns_len; apply nth_error_Some; congruence).
  destruct (nth_error rns p) as [rn'|] eqn:Ep; [|apply nth_error_None in Ep; lia].
  destruct (rns_visit p rn' Ep) as (r2 & d2 & z2 & _ & _ & _ & _ & F1 & F2 & V2 & _). rewrite V2 in N. inversion N. exists rn'. split; auto. split; congruence.
Qed.
Context (t : xtree) (TI : xtree_inv stops (combine (seq 0 (length rns)) rns) t).
Lemma triples_In c s k : In (c, s, k) (tree_triples t) <-> exists rn, nth_error rns k = Some rn /\ rn_stop rn = Some s /\ scity stops s = c.
Proof.
  destruct TI as [K NE LI HA]. unfold tree_triples. rewrite in_flat_map. split.
  - intros ([c' d] & H1 & H2). apply in_flat_map in H2. destruct H2 as ([s' l] & H2 & H3). apply in_map_iff in H3.
    destruct H3 as (k' & E & H3). inversion E; subst. destruct (LI _ _ _ _ H1 H2) as (_ & _ & Ec & A). apply A in H3.
    destruct H3 as (rn & H3 & H4). apply combine_seq_In in H3. rewrite Nat.sub_0_r in H3. exists rn. tauto.
  - intros (rn & H1 & H2 & H3). assert (L : In (k, rn) (combine (seq 0 (length rns)) rns)) by (apply combine_seq_In; rewrite Nat.sub_0_r; split; auto; lia).
    destruct (HA _ _ L) as (s' & d & l & E1 & E2 & E3 & E4). assert (s' = s) by congruence. subst s'. rewrite H3 in E2.
    exists (c, d). split; auto. apply in_flat_map. exists (s, l). split; auto. apply in_map_iff. eauto.
Qed.
Lemma NoDup_pairs_gen {A B} (f : nat * A -> list B) (l : list (nat * A)) : NoDup (map fst l) -> (forall x, In x l -> NoDup (f x)) ->
  (forall x y b, In x l -> In y l -> In b (f x) -> In b (f y) -> fst x = fst y) -> NoDup (flat_map f l).
Proof.
  intros K H D. apply NoDup_flat_map; auto.
  - eapply NoDup_map_inv; eauto.
  - intros [a1 b1] [a2 b2] b Hx Hy Hb Hb'. pose proof (D _ _ _ Hx Hy Hb Hb') as E. simpl in E. subst a2.
    f_equal. pose proof (In_dget Nat.eqb Neqb_spec _ _ _ K Hx) as F1. pose proof (In_dget Nat.eqb Neqb_spec _ _ _ K Hy) as F2. congruence.
Qed.
Lemma triples_NoDup : NoDup (tree_triples t).
Proof.
  destruct TI as [K NE LI HA]. unfold tree_triples. apply NoDup_pairs_gen; auto.
  - intros [c d] Hx. apply NoDup_pairs_gen; [eapply NE; eauto| |].
    + intros [s l] Hs. destruct (LI _ _ _ _ Hx Hs) as (_ & N & _). apply NoDup_map_inj; auto. intros x y E. inversion E. auto.
    + intros [s l] [s' l'] b H1 H2 H3 H4. apply in_map_iff in H3. apply in_map_iff in H4. destruct H3 as (? & <- & _). destruct H4 as (? & E & _). inversion E. auto.
  - intros [c d] [c' d'] b H1 H2 H3 H4. apply in_flat_map in H3. apply in_flat_map in H4. destruct H3 as ([? ?] & _ & H3). destruct H4 as ([? ?] & _ & H4).
    apply in_map_iff in H3. apply in_map_iff in H4. destruct H3 as (? & <- & _). destruct H4 as (? & E & _). inversion E. auto.
Qed.
Lemma pairs_In c s : In (c, s) (tree_pairs t) <-> exists k rn, nth_error rns k = Some rn /\ rn_stop rn = Some s /\ scity stops s = c.
Proof.
  destruct TI as [K NE LI HA]. split.
  - intro H. unfold tree_pairs in H. apply in_flat_map in H. destruct H as ([c' d] & H1 & H2). apply in_map_iff in H2.
    destruct H2 as ([s' l] & E & H2). inversion E; subst. destruct (LI _ _ _ _ H1 H2) as (Nl & _ & Ec & A).
    destruct l as [|k l]; [congruence|]. exists k. apply (triples_In c s k). unfold tree_triples. apply in_flat_map. exists (c, d). split; auto.
    apply in_flat_map. exists (s, k :: l). split; auto. simpl; auto.
  - intros (k & rn & H). assert (T : In (c, s, k) (tree_triples t)) by (apply triples_In; eauto). unfold tree_triples in T. apply in_flat_map in T.
    destruct T as ([c' d] & H1 & H2). apply in_flat_map in H2. destruct H2 as ([s' l] & H2 & H3). apply in_map_iff in H3. destruct H3 as (? & E & _). inversion E; subst.
    unfold tree_pairs. apply in_flat_map. exists (c, d). split; auto. apply in_map_iff. exists (s, l). auto.
Qed.
Lemma pairs_NoDup : NoDup (tree_pairs t).
Proof.
  destruct TI as [K NE LI HA]. unfold tree_pairs. apply NoDup_pairs_gen; auto.
  - intros [c d] Hx. destruct (NE _ _ Hx) as [_ N]. rewrite (map_ext _ (fun x => (c, fst x))) by (intros [? ?]; reflexivity).
    rewrite <- (map_map fst (fun x => (c, x))). apply NoDup_map_inj; auto. intros x y E. inversion E; auto.
  - intros [c d] [c' d'] b H1 H2 H3 H4. apply in_map_iff in H3. apply in_map_iff in H4. destruct H3 as ([? ?] & <- & _). destruct H4 as ([? ?] & E & _). inversion E. auto.
Qed.
Lemma xnodes_NoDup : NoDup (xnodes_of t).
Proof.
  destruct TI as [K NE LI HA]. unfold xnodes_of.
  assert (D1 : forall c d n, In (c, d) t -> In n (EC c :: flat_map (fun '(s, l) => ES s :: map ER l) d) ->
     match n with EC c' => c' = c | ES s => scity stops s = c | ER k => exists rn s, nth_error rns k = Some rn /\ rn_stop rn = Some s /\ scity stops s = c end).
  { intros c d n H [<-|Hn]; auto. apply in_flat_map in Hn. destruct Hn as ([s l] & H1 & H2). destruct (LI _ _ _ _ H H1) as (_ & _ & E & A).
    destruct H2 as [<-|H2]; auto. apply in_map_iff in H2. destruct H2 as (k & <- & H2). apply A in H2. destruct H2 as (rn & H2 & H3).
    apply combine_seq_In in H2. rewrite Nat.sub_0_r in H2. exists rn, s. tauto. }
  apply NoDup_pairs_gen; auto.
  - intros [c d] Hx. constructor.
    + intro C. apply in_flat_map in C. destruct C as ([s l] & _ & [C|C]); [discriminate|]. apply in_map_iff in C. destruct C as (? & C & _). discriminate.
    + apply NoDup_pairs_gen; [eapply NE; eauto| |].
      * intros [s l] Hs. constructor; [intro C; apply in_map_iff in C; destruct C as (? & C & _); discriminate|].
        destruct (LI _ _ _ _ Hx Hs) as (_ & N & _). apply NoDup_map_inj; auto. intros x y E. inversion E; auto.
      * assert (D2 : forall s l n, In (s, l) d -> In n (ES s :: map ER l) ->
          match n with EC _ => False | ES s' => s' = s | ER k => exists rn, nth_error rns k = Some rn /\ rn_stop rn = Some s end).
        { intros s l n H [<-|Hn]; auto. apply in_map_iff in Hn. destruct Hn as (k & <- & Hn). destruct (LI _ _ _ _ Hx H) as (_ & _ & _ & A).
          apply A in Hn. destruct Hn as (rn & H2 & H3). apply combine_seq_In in H2. rewrite Nat.sub_0_r in H2. exists rn. tauto. }
        intros [s l] [s' l'] n H1 H2 H3 H4. pose proof (D2 _ _ _ H1 H3) as A1. pose proof (D2 _ _ _ H2 H4) as A2. simpl.
        destruct n; [contradiction|congruence|]. destruct A1 as (? & A1 & A1'), A2 as (? & A2 & A2'). congruence.
  - intros [c d] [c' d'] n H1 H2 H3 H4. pose proof (D1 _ _ _ H1 H3) as A1. pose proof (D1 _ _ _ H2 H4) as A2. simpl.
    destruct n; [congruence|congruence|]. destruct A1 as (? & ? & A1 & A1' & A1''), A2 as (? & ? & A2 & A2' & A2''). congruence.
Qed.
Lemma xnodes_In n : In n (xnodes_of t) <->
  match n with
  | EC c => exists k rn s st, nth_error rns k = Some rn /\ rn_stop rn = Some s /\ nth_error stops s = Some st /\ sn_city st = c
  | ES s => exists k rn, nth_error rns k = Some rn /\ rn_stop rn = Some s
  | ER k => exists rn, nth_error rns k = Some rn
  end.
Proof.
  destruct TI as [K NE LI HA]. unfold xnodes_of. rewrite in_flat_map.
  assert (SC : forall k rn s, nth_error rns k = Some rn -> rn_stop rn = Some s -> exists st, nth_error stops s = Some st /\ sn_city st = scity stops s).
  { intros k rn s H1 H2. destruct (rns_visit k rn H1) as (r & d & z & s' & st & nd & _ & _ & _ & _ & _ & E & _ & Hst & _).
    assert (s' = s) by congruence. subst s'. exists st. split; auto. unfold scity. rewrite (nth_error_nth _ _ _ Hst). auto. }
  split.
  - intros ([c d] & H & Hn). assert (X : forall s l, In (s, l) d -> exists k rn, nth_error rns k = Some rn /\ rn_stop rn = Some s /\ scity stops s = c).
    { intros s l Hs. apply pairs_In. unfold tree_pairs. apply in_flat_map. exists (c, d). split; auto. apply in_map_iff. exists (s, l). auto. }
    destruct Hn as [<-|Hn].
    + destruct (NE _ _ H) as [Nd _]. destruct d as [|[s l] d]; [congruence|]. destruct (X s l) as (k & rn & H1 & H2 & H3); [simpl; auto|].
      destruct (SC _ _ _ H1 H2) as (st & H4 & H5). exists k, rn, s, st. repeat split; auto. congruence.
    + apply in_flat_map in Hn. destruct Hn as ([s l] & Hs & Hn). destruct Hn as [<-|Hn].
      * destruct (X s l Hs) as (k & rn & H1 & H2 & H3). eauto.
      * apply in_map_iff in Hn. destruct Hn as (k & <- & Hk). destruct (LI _ _ _ _ H Hs) as (_ & _ & _ & A). apply A in Hk.
        destruct Hk as (rn & Hk & _). apply combine_seq_In in Hk. rewrite Nat.sub_0_r in Hk. exists rn. tauto.
  - assert (Y : forall k rn s, nth_error rns k = Some rn -> rn_stop rn = Some s -> exists d l, In (scity stops s, d) t /\ In (s, l) d /\ In k l).
    { intros k rn s H1 H2. assert (L : In (k, rn) (combine (seq 0 (length rns)) rns)) by (apply combine_seq_In; rewrite Nat.sub_0_r; split; auto; lia).
      destruct (HA _ _ L) as (s' & d & l & E1 & E2 & E3 & E4). assert (s' = s) by congruence. subst. eauto. }
    destruct n as [c|s|k].
    + intros (k & rn & s & st & H1 & H2 & H3 & H4). destruct (Y _ _ _ H1 H2) as (d & l & E1 & E2 & E3).
      exists (scity stops s, d). split; auto. left. f_equal. unfold scity. rewrite (nth_error_nth _ _ _ H3). auto.
    + intros (k & rn & H1 & H2). destruct (Y _ _ _ H1 H2) as (d & l & E1 & E2 & E3). exists (scity stops s, d). split; auto. right.
      apply in_flat_map. exists (s, l). split; auto. left; auto.
    + intros (rn & H1). destruct (rns_visit k rn H1) as (_ & _ & _ & s & _ & _ & _ & _ & _ & _ & _ & E & _).
      destruct (Y _ _ _ H1 E) as (d & l & E1 & E2 & E3). exists (scity stops s, d). split; auto. right.
      apply in_flat_map. exists (s, l). split; auto. right. apply in_map. auto.
Qed.

(** the four edge lists *)
Definition at_last (k : nat) : bool :=
  match rev (nodes_of (rn_route (rnode_at rns k)) (rn_dir (rnode_at rns k))) with
  | [] => false | z :: _ => (nd_id (rn_gnode g stops rns k) =? z)%Z end.
Definition at_first (k : nat) : bool :=
  match nodes_of (rn_route (rnode_at rns k)) (rn_dir (rnode_at rns k)) with
  | [] => false | z :: _ => (nd_id (rn_gnode g stops rns k) =? z)%Z end.
Definition circ (k : nat) : bool := is_circular (r_type (rn_route (rnode_at rns k))).
Definition bfreq (k : nat) : Q := dget0 String.eqb 0 freq (r_id (rn_route (rnode_at rns k))) / m_d (r_mode (rn_route (rnode_at rns k))).
Definition rtime (p k : nat) : Q :=
  ride_distance G (map (fun '(c, _) => gnode g c) t) (nd_id (rn_gnode g stops rns p)) (nd_id (rn_gnode g stops rns k)) (pos (rn_gnode g stops rns k))
    (nodes_of (rn_route (rnode_at rns k)) (rn_dir (rnode_at rns k))) false (pos (rn_gnode g stops rns p)) 0
  / m_v (sn_mode (stop_at stops (rn_stop_at rns k))).
Definition b_h (x : nat * nat * nat) : list (enode * enode * Q * option Q) :=
  let '(c, s, k) := x in if circ k || negb (at_last k) then [(ES s, ER k, 0, Some (bfreq k))] else [].
Definition b_list : list (enode * enode * Q * option Q) := flat_map b_h (tree_triples t).
Definition l_h (x : nat * nat * nat) : list (enode * enode * Q * option Q) :=
  let '(c, s, k) := x in if circ k || negb (at_first k) then [(ER k, ES s, TP / 60, None)] else [].
Definition l_list : list (enode * enode * Q * option Q) := flat_map l_h (tree_triples t).
Definition r_h (x : nat * nat * nat) : list (enode * enode * Q * option Q) :=
  let '(c, s, k) := x in match rn_prev (rnode_at rns k) with Some p => [(ER p, ER k, rtime p k, None)] | None => [] end.
Definition r_list : list (enode * enode * Q * option Q) := flat_map r_h (tree_triples t).
Definition a_list : list (enode * enode * Q * option Q) :=
  flat_map (fun '(c, s) => [(EC c, ES s, m_tat (sn_mode (stop_at stops s)) / 60, None); (ES s, EC c, m_tat (sn_mode (stop_at stops s)) / 60, None)]) (tree_pairs t).
Lemma rnode_at_eq k rn : nth_error rns k = Some rn -> rnode_at rns k = rn.
Proof. intro H. unfold rnode_at. apply nth_error_nth. auto. Qed.
Lemma seq_ne k rn : nth_error rns k = Some rn -> r_type (rn_route rn) <> CIRCULAR -> nodes_of (rn_route rn) (rn_dir rn) <> [].
Proof.
  intros H T. destruct (rns_visit k rn H) as (r & d & z & _ & _ & _ & Hr & E1 & E2 & _ & Hz & _). rewrite E1, E2 in *.
  apply (xi_seq _ _ I); auto. unfold visits in Hz. destruct (r_type r); try congruence; destruct (stops_of r d); try discriminate; contradiction.
Qed.
Lemma boarding_eq : build_boarding_edges g stops rns t freq = Ok (number BOARDING b_list).
Proof.
  unfold build_boarding_edges. erewrite foldM_collect with (h := b_h).
  - reflexivity.
  - intros acc [[c s] k] Hx. apply triples_In in Hx. destruct Hx as (rn & H1 & H2 & H3). unfold b_h, circ, at_last, bfreq. rewrite (rnode_at_eq _ _ H1).
    destruct (rns_visit k rn H1) as (r & d & z & _ & _ & _ & Hr & E1 & _). rewrite E1 in *.
    rewrite qdiv_ok by (apply (xi_d _ _ I); auto). cbn [bind].
    destruct (is_circular (r_type r)) eqn:Ec; [reflexivity|]. cbn [orb].
    assert (N : nodes_of r (rn_dir rn) <> []) by (rewrite <- E1; apply (seq_ne k); auto; rewrite E1; intro C; rewrite C in Ec; discriminate).
    unfold py_last. destruct (rev (nodes_of r (rn_dir rn))) as [|y l] eqn:Er.
    { exfalso. apply N. rewrite <- (rev_involutive (nodes_of r (rn_dir rn))), Er. reflexivity. }
    cbn [bind]. destruct (nd_id (rn_gnode g stops rns k) =? y)%Z; [rewrite app_nil_r|]; reflexivity.
Qed.
Lemma alighting_eq : build_alighting_edges g stops rns t TP = Ok (number ALIGHTING l_list).
Proof.
  unfold build_alighting_edges. erewrite foldM_collect with (h := l_h).
  - reflexivity.
  - intros acc [[c s] k] Hx. apply triples_In in Hx. destruct Hx as (rn & H1 & H2 & H3). unfold l_h, circ, at_first. rewrite (rnode_at_eq _ _ H1).
    destruct (rns_visit k rn H1) as (r & d & z & _ & _ & _ & Hr & E1 & _). rewrite E1 in *.
    destruct (is_circular (r_type r)) eqn:Ec; [reflexivity|]. cbn [orb].
    assert (N : nodes_of r (rn_dir rn) <> []) by (rewrite <- E1; apply (seq_ne k); auto; rewrite E1; intro C; rewrite C in Ec; discriminate).
    unfold py_first. destruct (nodes_of r (rn_dir rn)) as [|y l]; [congruence|].
    cbn [bind]. destruct (nd_id (rn_gnode g stops rns k) =? y)%Z; [rewrite app_nil_r|]; reflexivity.
Qed.
Lemma route_eq : build_route_edges G g stops rns t = Ok (number ROUTE r_list).
Proof.
  unfold build_route_edges. erewrite foldM_collect with (h := r_h).
  - reflexivity.
  - intros acc [[c s] k] Hx. apply triples_In in Hx. destruct Hx as (rn & H1 & H2 & H3). unfold r_h, rtime. rewrite (rnode_at_eq _ _ H1).
    destruct (rn_prev rn) as [p|]; [|rewrite app_nil_r; reflexivity].
    destruct (rns_visit k rn H1) as (r & d & z & s' & st & _ & Hr & E1 & _ & _ & _ & Es & _ & Hst & Em & _).
    assert (s' = s) by congruence. subst s'.
    assert (Ev : m_v (sn_mode (stop_at stops (rn_stop_at rns k))) = m_v (r_mode r)).
    { unfold rn_stop_at, stop_at. rewrite (rnode_at_eq _ _ H1), Es. rewrite (nth_error_nth _ _ _ Hst), Em. reflexivity. }
    rewrite qdiv_ok; [reflexivity|]. rewrite Ev. apply (xi_v _ _ I). auto.
Qed.
End Edges.

Record ext_facts (G : geo) (g : graph) (rs : list route) (TP : Q) (freq : option (list (string * Q))) (X : xgraph) : Prop := mkEF {
  ef_graph : xg_graph X = g;
  ef_stops : xg_stops X = stop_list g rs;
  ef_rn : xg_rnodes X = bnodes g (stop_list g rs) 0 (lines rs);
  ef_tree : xtree_inv (xg_stops X) (combine (seq 0 (length (xg_rnodes X))) (xg_rnodes X)) (xg_nodes X);
  ef_edges : xg_edges X =
    number ACCESS (a_list g rs (xg_nodes X)) ++
    number BOARDING (b_list g rs (match freq with Some f => f | None => default_frequencies rs end) (xg_nodes X)) ++
    number ALIGHTING (l_list g rs TP (xg_nodes X)) ++ number ROUTE (r_list G g rs (xg_nodes X))
}.
Lemma build_ext_facts G g rs TP freq : ext_input g rs -> exists X, build_ext G g rs TP freq = Ok X /\ ext_facts G g rs TP freq X.
Proof.
  intro I. unfold build_ext. cbv zeta. fold (stop_list g rs). rewrite route_nodes_bnodes.
  destruct (build_tree_ok (stop_list g rs) (bnodes g (stop_list g rs) 0 (lines rs))) as (t & Et & TI).
  { intros rn Hn. apply In_nth_error in Hn. destruct Hn as [k Hk]. destruct (rns_visit g rs I k rn Hk) as (_ & _ & _ & s & _ & _ & _ & _ & _ & _ & _ & E & _). congruence. }
  rewrite Et. cbn [bind]. rewrite (boarding_eq g rs _ I t TI), (alighting_eq g rs TP I t TI), (route_eq G g rs I t TI). cbn [bind].
  eexists. split; [reflexivity|]. split; cbn; auto.
Qed.
