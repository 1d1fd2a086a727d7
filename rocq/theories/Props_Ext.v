(** * Props_Ext: the properties C30-C33 of the extended graph *)
From Coq Require Import String Ascii List ZArith QArith Bool Lia.
From Verif Require Import PyBase PyFacts PyStr PyStrFacts Graph GraphSpec GraphProofs GeoEx Props_Graph Mode Props_Mode Route Network RouteSpec RouteProofs
  Props_Network Predef PredefSpec PredefProofs Props_Predef ExtGraph ExtSpec ExtProofs.
Import ListNotations.
Local Open Scope Q_scope.

Lemma facts_of G g rs TP freq X : ext_input g rs -> build_ext G g rs TP freq = Ok X -> ext_facts G g rs TP freq X.
Proof. intros I H. destruct (build_ext_facts G g rs TP freq I) as (X' & E & F). rewrite H in E. inversion E; subst. auto. Qed.

(** ** C30 *)
Theorem C30_build_succeeds : forall G g rs TP freq, ext_input g rs -> exists X, build_ext G g rs TP freq = Ok X.
Proof. intros. destruct (build_ext_facts G g rs TP freq H) as (X & E & _). eauto. Qed.
Print Assumptions C30_build_succeeds.

(** one StopNode per city node and mode served there, one RouteNode per stop visit, at its own place *)
Theorem C30_one_stop_per_node_and_mode : forall G g rs TP freq X,
  ext_input g rs -> build_ext G g rs TP freq = Ok X ->
  NoDup (map (fun s => (sn_city s, m_ref (sn_mode s))) (xg_stops X)) /\
  (forall k m, (exists s, In s (xg_stops X) /\ sn_city s = k /\ m_ref (sn_mode s) = m_ref m) <-> served g rs k m) /\
  map (fun rn => (rn_route rn, rn_dir rn, rn_place X rn)) (xg_rnodes X) =
    map (fun '(r, d, z) => (r, d, Some (z, r_mode r))) (all_visits rs) /\
  map rn_prev (xg_rnodes X) = links 0 (lines rs).
Proof.
  intros G g rs TP freq X I H. pose proof (facts_of _ _ _ _ _ _ I H) as F. split.
  { rewrite (ef_stops _ _ _ _ _ _ F). apply stop_list_NoDup. }
  split.
  { intros k m. rewrite (ef_stops _ _ _ _ _ _ F). split.
    - intros (s & Hs & <- & Em). apply stop_list_In in Hs. apply touches_In in Hs. destruct Hs as (r & nd & Hr & Er & Hn & Hz).
      destruct Hz as [Hz|Hz]; [exists r, DI, nd|exists r, DR, nd]; repeat (split; auto); congruence.
    - intros (r & d & nd & Hr & Em & Hn & Hz). destruct (stop_list_has g rs k (r_mode r)) as (s & H1 & H2 & H3).
      { apply touches_In. exists r, nd. repeat (split; auto). destruct d; auto. }
      exists s. repeat (split; auto). congruence. }
  split.
  - apply nth_error_ext. intro i. rewrite !nth_error_map.
    assert (L : length (xg_rnodes X) = length (all_visits rs)) by (rewrite (ef_rn _ _ _ _ _ _ F); apply rns_len).
    destruct (nth_error (xg_rnodes X) i) as [rn|] eqn:E.
    + rewrite (ef_rn _ _ _ _ _ _ F) in E.
      destruct (rns_visit g rs I i rn E) as (r & d & z & s & st & nd & Hr & E1 & E2 & V & Hz & Es & _ & Hst & Em & Hn & Ez).
      rewrite V. cbn [option_map]. unfold rn_place, stop_place. rewrite Es, (ef_stops _ _ _ _ _ _ F), (ef_graph _ _ _ _ _ _ F), Hst, Hn.
      subst. rewrite Em. reflexivity.
    + apply nth_error_None in E. assert (E2 : nth_error (all_visits rs) i = None) by (apply nth_error_None; lia). rewrite E2. reflexivity.
  - rewrite (ef_rn _ _ _ _ _ _ F). apply bnodes_prev.
Qed.
Print Assumptions C30_one_stop_per_node_and_mode.

(** the nodes handed out are exactly these, each once *)
Theorem C30_nodes_exact : forall G g rs TP freq X,
  ext_input g rs -> build_ext G g rs TP freq = Ok X ->
  NoDup (xnodes X) /\ (forall n, In n (xnodes X) <-> is_xnode X n).
Proof.
  intros G g rs TP freq X I H. pose proof (facts_of _ _ _ _ _ _ I H) as F. pose proof (ef_tree _ _ _ _ _ _ F) as T.
  rewrite (ef_stops _ _ _ _ _ _ F), (ef_rn _ _ _ _ _ _ F) in T. split.
  - unfold xnodes. eapply xnodes_NoDup; eauto.
  - intro n. unfold xnodes. rewrite (xnodes_In g rs I (xg_nodes X) T). unfold is_xnode.
    rewrite (ef_stops _ _ _ _ _ _ F), (ef_rn _ _ _ _ _ _ F). tauto.
Qed.
Print Assumptions C30_nodes_exact.

(** ** C31 *)
Definition ends (x : enode * enode * Q * option Q) : enode * enode := fst (fst x).
Lemma number_In ty l e : In e (number ty l) <-> exists k i j t f, nth_error l k = Some (i, j, t, f) /\ e = mkX ty k i j t f.
Proof.
  unfold number. rewrite in_map_iff. split.
  - intros ([k [[[i j] t] f]] & E & H). apply combine_seq_In in H. rewrite Nat.sub_0_r in H. exists k, i, j, t, f. split; [tauto|]. congruence.
  - intros (k & i & j & t & f & H & E). exists (k, (i, j, t, f)). split; auto. apply combine_seq_In. rewrite Nat.sub_0_r. split; auto. lia.
Qed.
Lemma number_In2 ty l e : In e (number ty l) -> x_type e = ty /\ In (x_i e, x_j e, x_t e, x_f e) l.
Proof. intro H. apply number_In in H. destruct H as (k & i & j & t & f & H & ->). split; auto. cbn. eapply nth_error_In; eauto. Qed.
Lemma number_In3 ty l i j t f : In (i, j, t, f) l -> exists e, In e (number ty l) /\ x_type e = ty /\ x_i e = i /\ x_j e = j /\ x_t e = t /\ x_f e = f.
Proof.
  intro H. apply In_nth_error in H. destruct H as [k H]. exists (mkX ty k i j t f). split; [apply number_In; exists k, i, j, t, f; auto|]. cbn. auto.
Qed.
Lemma number_ids ty l : map (fun e => (x_type e, x_id e)) (number ty l) = map (fun k => (ty, k)) (seq 0 (length l)).
Proof.
  unfold number. rewrite map_map. rewrite <- (map_combine_seq_fst (fun k => (ty, k)) l 0). apply map_ext. intros [k [[[i j] t] f]]. reflexivity.
Qed.
Lemma number_ends ty l : map (fun e => (x_i e, x_j e)) (number ty l) = map ends l.
Proof.
  unfold number. rewrite map_map. rewrite <- (map_combine_seq ends l 0). apply map_ext. intros [k [[[i j] t] f]]. reflexivity.
Qed.
Section EdgeFacts.
Context (G : geo) (g : graph) (rs : list route) (TP : Q) (freq : option (list (string * Q))) (X : xgraph).
Context (I : ext_input g rs) (H : build_ext G g rs TP freq = Ok X).
Let F := facts_of _ _ _ _ _ _ I H.
Lemma tree_X : xtree_inv (stop_list g rs) (combine (seq 0 (length (bnodes g (stop_list g rs) 0 (lines rs)))) (bnodes g (stop_list g rs) 0 (lines rs))) (xg_nodes X).
Proof. pose proof (ef_tree _ _ _ _ _ _ F) as T. rewrite (ef_stops _ _ _ _ _ _ F), (ef_rn _ _ _ _ _ _ F) in T. exact T. Qed.
Lemma trip_X c s k : In (c, s, k) (tree_triples (xg_nodes X)) <-> exists rn st, nth_error (xg_rnodes X) k = Some rn /\ rn_stop rn = Some s /\
  nth_error (xg_stops X) s = Some st /\ sn_city st = c.
Proof.
  rewrite (triples_In g rs (xg_nodes X) tree_X), (ef_stops _ _ _ _ _ _ F), (ef_rn _ _ _ _ _ _ F). split.
  - intros (rn & H1 & H2 & H3). destruct (rns_visit g rs I k rn H1) as (r & d & z & s' & st & nd & _ & _ & _ & _ & _ & E & _ & Hst & _).
    assert (s' = s) by congruence. subst s'. exists rn, st. repeat (split; auto). unfold scity in H3. rewrite (nth_error_nth _ _ _ Hst) in H3. auto.
  - intros (rn & st & H1 & H2 & H3 & H4). exists rn. repeat (split; auto). unfold scity. rewrite (nth_error_nth _ _ _ H3). auto.
Qed.
Lemma pair_X c s : In (c, s) (tree_pairs (xg_nodes X)) <-> is_xnode X (ES s) /\ exists st, nth_error (xg_stops X) s = Some st /\ sn_city st = c.
Proof.
  rewrite (pairs_In g rs (xg_nodes X) tree_X). unfold is_xnode. rewrite (ef_stops _ _ _ _ _ _ F), (ef_rn _ _ _ _ _ _ F). split.
  - intros (k & rn & H1 & H2 & H3). destruct (rns_visit g rs I k rn H1) as (r & d & z & s' & st & nd & _ & _ & _ & _ & _ & E & _ & Hst & _).
    assert (s' = s) by congruence. subst s'. split; [eauto|]. exists st. split; auto. unfold scity in H3. rewrite (nth_error_nth _ _ _ Hst) in H3. auto.
  - intros [(k & rn & H1 & H2) (st & H3 & H4)]. exists k, rn. repeat (split; auto). unfold scity. rewrite (nth_error_nth _ _ _ H3). auto.
Qed.
(** place of a route node *)
Lemma rn_gnode_place k rn : nth_error (xg_rnodes X) k = Some rn -> exists m,
  rn_place X rn = Some (nd_id (rn_gnode g (stop_list g rs) (bnodes g (stop_list g rs) 0 (lines rs)) k), m) /\
  m = r_mode (rn_route rn) /\ In (rn_gnode g (stop_list g rs) (bnodes g (stop_list g rs) 0 (lines rs)) k) (g_nodes g).
Proof.
  intro Hk. assert (Hk2 : nth_error (bnodes g (stop_list g rs) 0 (lines rs)) k = Some rn) by (rewrite <- (ef_rn _ _ _ _ _ _ F); auto).
  destruct (rns_visit g rs I k rn Hk2) as (r & d & z & s & st & nd & Hr & E1 & E2 & V & Hz & Es & _ & Hst & Em & Hn & Ez).
  assert (En : rn_gnode g (stop_list g rs) (bnodes g (stop_list g rs) 0 (lines rs)) k = nd).
  { unfold rn_gnode, rn_stop_at, stop_at, gnode. rewrite (rnode_at_eq _ _ _ _ Hk2), Es. rewrite (nth_error_nth _ _ _ Hst), (nth_error_nth _ _ _ Hn). reflexivity. }
  exists (r_mode r). rewrite En. unfold rn_place, stop_place. rewrite Es, (ef_stops _ _ _ _ _ _ F), (ef_graph _ _ _ _ _ _ F), Hst, Hn.
  rewrite Em. split; auto. split; [congruence|]. eapply nth_error_In; eauto.
Qed.
Lemma last_is_rev l z : last_is l z <-> exists t, rev l = z :: t.
Proof.
  split.
  - intros [t ->]. rewrite rev_app_distr. simpl. eauto.
  - intros [t E]. exists (rev t). rewrite <- (rev_involutive l), E. reflexivity.
Qed.
Lemma can_board_b k rn : nth_error (xg_rnodes X) k = Some rn -> (circ g rs k || negb (at_last g rs k) = true <-> can_board X rn).
Proof.
  intro Hk. assert (Hk2 : nth_error (bnodes g (stop_list g rs) 0 (lines rs)) k = Some rn) by (rewrite <- (ef_rn _ _ _ _ _ _ F); auto).
  destruct (rn_gnode_place _ _ Hk) as (m & Hp & _). unfold circ, at_last, can_board. rewrite (rnode_at_eq _ _ _ _ Hk2), Hp.
  rewrite orb_true_iff, negb_true_iff. split.
  - intros [E|E]; [left; destruct (r_type (rn_route rn)); try discriminate; auto|]. right. intros z m' E' L. injection E' as E1 E2. subst z.
    apply last_is_rev in L. destruct L as [t L]. rewrite L, Z.eqb_refl in E. discriminate.
  - intros [E|E]; [left; rewrite E; auto|]. right. destruct (rev _) as [|z l] eqn:Er; auto. apply Z.eqb_neq. intro C.
    apply (E z m); [congruence|]. apply last_is_rev. eauto.
Qed.
Lemma can_alight_b k rn : nth_error (xg_rnodes X) k = Some rn -> (circ g rs k || negb (at_first g rs k) = true <-> can_alight X rn).
Proof.
  intro Hk. assert (Hk2 : nth_error (bnodes g (stop_list g rs) 0 (lines rs)) k = Some rn) by (rewrite <- (ef_rn _ _ _ _ _ _ F); auto).
  destruct (rn_gnode_place _ _ Hk) as (m & Hp & _). unfold circ, at_first, can_alight. rewrite (rnode_at_eq _ _ _ _ Hk2), Hp.
  rewrite orb_true_iff, negb_true_iff. split.
  - intros [E|E]; [left; destruct (r_type (rn_route rn)); try discriminate; auto|]. right. intros z m' E' [t L]. injection E' as E1 E2. subst z.
    rewrite L, Z.eqb_refl in E. discriminate.
  - intros [E|E]; [left; rewrite E; auto|]. right. destruct (nodes_of _ _) as [|z l] eqn:Er; auto. apply Z.eqb_neq. intro C.
    apply (E z m); [congruence|]. exists l. auto.
Qed.
Lemma a_In i j t f : In (i, j, t, f) (a_list g rs (xg_nodes X)) <-> exists c s st, is_xnode X (ES s) /\ nth_error (xg_stops X) s = Some st /\ sn_city st = c /\
  t = m_tat (sn_mode st) / 60 /\ f = None /\ ((i = EC c /\ j = ES s) \/ (i = ES s /\ j = EC c)).
Proof.
  unfold a_list. rewrite in_flat_map. split.
  - intros ([c s] & H1 & H2). apply pair_X in H1. destruct H1 as [H1 (st & H3 & H4)]. exists c, s, st.
    unfold stop_at in H2. rewrite (nth_error_nth (stop_list g rs) s) with (x := st) in H2 by (rewrite <- (ef_stops _ _ _ _ _ _ F); auto).
    destruct H2 as [H2|[H2|[]]]; inversion H2; subst; repeat (split; auto).
  - intros (c & s & st & H1 & H3 & H4 & -> & -> & E). exists (c, s). split; [apply pair_X; eauto|].
    unfold stop_at. rewrite (nth_error_nth (stop_list g rs) s) with (x := st) by (rewrite <- (ef_stops _ _ _ _ _ _ F); auto).
    destruct E as [[-> ->]|[-> ->]]; simpl; auto.
Qed.
Let fr := match freq with Some f => f | None => default_frequencies rs end.
Lemma at_X k rn : nth_error (xg_rnodes X) k = Some rn -> rnode_at (bnodes g (stop_list g rs) 0 (lines rs)) k = rn.
Proof. intro Hk. apply rnode_at_eq. rewrite <- (ef_rn _ _ _ _ _ _ F); auto. Qed.
Lemma b_In i j t f : In (i, j, t, f) (b_list g rs fr (xg_nodes X)) <-> exists k rn s, nth_error (xg_rnodes X) k = Some rn /\ rn_stop rn = Some s /\
  can_board X rn /\ i = ES s /\ j = ER k /\ t = 0 /\ f = Some (dget0 String.eqb 0 fr (r_id (rn_route rn)) / m_d (r_mode (rn_route rn))).
Proof.
  unfold b_list. rewrite in_flat_map. split.
  - intros ([[c s] k] & H1 & H2). apply trip_X in H1. destruct H1 as (rn & st & H1 & H3 & H4 & H5). exists k, rn, s. unfold b_h in H2.
    destruct (circ g rs k || negb (at_last g rs k)) eqn:E; [|contradiction]. apply (can_board_b _ _ H1) in E. destruct H2 as [H2|[]].
    inversion H2; subst. unfold bfreq. rewrite (at_X _ _ H1). repeat (split; auto).
  - intros (k & rn & s & H1 & H2 & H3 & -> & -> & -> & ->).
    assert (Q : exists st, nth_error (xg_stops X) s = Some st).
    { assert (Hk2 : nth_error (bnodes g (stop_list g rs) 0 (lines rs)) k = Some rn) by (rewrite <- (ef_rn _ _ _ _ _ _ F); auto).
      destruct (rns_visit g rs I k rn Hk2) as (r & d & z & s' & st & nd & _ & _ & _ & _ & _ & E & _ & Hst & _). rewrite (ef_stops _ _ _ _ _ _ F). exists st. congruence. }
    destruct Q as [st Hst]. exists (sn_city st, s, k). split; [apply trip_X; exists rn, st; auto|]. unfold b_h. cbv beta iota. apply (can_board_b _ _ H1) in H3.
 rewrite H3. left.
    unfold bfreq. rewrite (at_X _ _ H1). reflexivity.
Qed.
Lemma l_In i j t f : In (i, j, t, f) (l_list g rs TP (xg_nodes X)) <-> exists k rn s, nth_error (xg_rnodes X) k = Some rn /\ rn_stop rn = Some s /\
  can_alight X rn /\ i = ER k /\ j = ES s /\ t = TP / 60 /\ f = None.
Proof.
  unfold l_list. rewrite in_flat_map. split.
  - intros ([[c s] k] & H1 & H2). apply trip_X in H1. destruct H1 as (rn & st & H1 & H3 & H4 & H5). exists k, rn, s. unfold l_h in H2.
    destruct (circ g rs k || negb (at_first g rs k)) eqn:E; [|contradiction]. apply (can_alight_b _ _ H1) in E. destruct H2 as [H2|[]].
    inversion H2; subst. repeat (split; auto).
  - intros (k & rn & s & H1 & H2 & H3 & -> & -> & -> & ->).
    assert (Q : exists st, nth_error (xg_stops X) s = Some st).
    { assert (Hk2 : nth_error (bnodes g (stop_list g rs) 0 (lines rs)) k = Some rn) by (rewrite <- (ef_rn _ _ _ _ _ _ F); auto).
      destruct (rns_visit g rs I k rn Hk2) as (r & d & z & s' & st & nd & _ & _ & _ & _ & _ & E & _ & Hst & _). rewrite (ef_stops _ _ _ _ _ _ F). exists st. congruence. }
    destruct Q as [st Hst]. exists (sn_city st, s, k). split; [apply trip_X; exists rn, st; auto|]. unfold l_h. cbv beta iota. apply (can_alight_b _ _ H1) in H3. rewrite H3. left. reflexivity.
Qed.
Lemma r_In i j t f : In (i, j, t, f) (r_list G g rs (xg_nodes X)) <-> exists k rn p, nth_error (xg_rnodes X) k = Some rn /\ rn_prev rn = Some p /\
  i = ER p /\ j = ER k /\ t = rtime G g rs (xg_nodes X) p k /\ f = None.
Proof.
  unfold r_list. rewrite in_flat_map. split.
  - intros ([[c s] k] & H1 & H2). apply trip_X in H1. destruct H1 as (rn & st & H1 & H3 & H4 & H5). unfold r_h in H2. rewrite (at_X _ _ H1) in H2.
    destruct (rn_prev rn) as [p|] eqn:Ep; [|contradiction]. destruct H2 as [H2|[]]. inversion H2; subst. exists k, rn, p. repeat (split; auto).
  - intros (k & rn & p & H1 & H2 & -> & -> & -> & ->).
    assert (Hk2 : nth_error (bnodes g (stop_list g rs) 0 (lines rs)) k = Some rn) by (rewrite <- (ef_rn _ _ _ _ _ _ F); auto).
    destruct (rns_visit g rs I k rn Hk2) as (r & d & z & s & st & nd & _ & _ & _ & _ & _ & E & _ & Hst & _).
    exists (sn_city st, s, k). split; [apply trip_X; exists rn, st; rewrite (ef_stops _ _ _ _ _ _ F); auto|]. unfold r_h. cbv beta iota. rewrite (at_X _ _ H1), H2. left. reflexivity.
Qed.
Lemma edges_split e : In e (xg_edges X) <-> In e (number ACCESS (a_list g rs (xg_nodes X))) \/ In e (number BOARDING (b_list g rs fr (xg_nodes X))) \/
  In e (number ALIGHTING (l_list g rs TP (xg_nodes X))) \/ In e (number ROUTE (r_list G g rs (xg_nodes X))).
Proof. rewrite (ef_edges _ _ _ _ _ _ F). rewrite !in_app_iff. unfold fr. tauto. Qed.
End EdgeFacts.

(** C31: the edges, by type and ends; see [joins] in ExtSpec (C32 is its boarding and alighting part) *)
Theorem C31_edges_exact : forall G g rs TP freq X, ext_input g rs -> build_ext G g rs TP freq = Ok X ->
  (forall ty i j, (exists e, In e (xg_edges X) /\ x_type e = ty /\ x_i e = i /\ x_j e = j) <-> joins X ty i j) /\
  NoDup (map (fun e => (x_type e, x_id e)) (xg_edges X)) /\
  NoDup (map (fun e => (x_i e, x_j e)) (xg_edges X)).
Proof.
  intros G g rs TP freq X I H. pose proof (facts_of _ _ _ _ _ _ I H) as F. split; [|split].
  - intros ty i j. split.
    + intros (e & He & <- & <- & <-). rewrite (edges_split G g rs TP freq X I H) in He. destruct He as [He|[He|[He|He]]]; apply number_In2 in He; destruct He as [-> He].
      * rewrite (a_In G g rs TP freq X I H) in He. destruct He as (c & s & st & H1 & H2 & H3 & _ & _ & [[-> ->]|[-> ->]]); econstructor; eauto.
      * rewrite (b_In G g rs TP freq X I H) in He. destruct He as (k & rn & s & H1 & H2 & H3 & -> & -> & _). econstructor; eauto.
      * rewrite (l_In G g rs TP freq X I H) in He. destruct He as (k & rn & s & H1 & H2 & H3 & -> & -> & _). econstructor; eauto.
      * rewrite (r_In G g rs TP freq X I H) in He. destruct He as (k & rn & p & H1 & H2 & -> & -> & _). econstructor; eauto.
    + intro J.
      assert (S : forall ty t f l, In (i, j, t, f) l -> (forall e, In e (number ty l) -> In e (xg_edges X)) -> exists e, In e (xg_edges X) /\ x_type e = ty /\ x_i e = i /\ x_j e = j).
      { intros ty' t f l Hi Hs. destruct (number_In3 ty' l i j t f Hi) as (e & E1 & E2 & E3 & E4 & _). exists e. auto. }
      destruct J.
      * eapply S; [eapply (a_In G g rs TP freq X I H); exists c, s, st; repeat (split; eauto)|]. intros; apply (edges_split G g rs TP freq X I H); auto.
      * eapply S; [eapply (a_In G g rs TP freq X I H); exists c, s, st; repeat (split; eauto)|]. intros; apply (edges_split G g rs TP freq X I H); auto.
      * eapply S; [eapply (b_In G g rs TP freq X I H); exists k, rn, s; repeat (split; eauto)|]. intros; apply (edges_split G g rs TP freq X I H); auto.
      * eapply S; [eapply (l_In G g rs TP freq X I H); exists k, rn, s; repeat (split; eauto)|]. intros; apply (edges_split G g rs TP freq X I H); auto.
      * eapply S; [eapply (r_In G g rs TP freq X I H); exists k, rn, p; repeat (split; eauto)|]. intros; apply (edges_split G g rs TP freq X I H); auto.
  - rewrite (ef_edges _ _ _ _ _ _ F), !map_app, !number_ids.
    assert (N : forall (ty : etype) n, NoDup (map (fun k : nat => (ty, k)) (seq 0 n))) by (intros; apply NoDup_map_inj; [intros x y E; injection E; auto|apply seq_NoDup]).
    assert (D : forall (ty : etype) (k : etype * nat) n, In k (map (fun k : nat => (ty, k)) (seq 0 n)) -> fst k = ty) by (intros ty k n Hk; apply in_map_iff in Hk; destruct Hk as (? & <- & _); auto).
    apply NoDup_app; auto; [apply NoDup_app; auto; [apply NoDup_app; auto|]|].
    + intros x A B. apply D in A. apply D in B. congruence.
    + intros x A B. apply D in A. apply in_app_or in B. destruct B as [B|B]; apply D in B; congruence.
    + intros x A B. apply D in A. apply in_app_or in B. destruct B as [B|B]; [|apply in_app_or in B; destruct B as [B|B]]; apply D in B; congruence.
  - rewrite (ef_edges _ _ _ _ _ _ F), !map_app, !number_ends.
    pose proof (tree_X G g rs TP freq X I H) as TX.
    assert (Na : NoDup (map ends (a_list g rs (xg_nodes X)))).
    { unfold a_list. rewrite flat_map_concat_map, concat_map, map_map, <- flat_map_concat_map. apply NoDup_flat_map.
      - eapply pairs_NoDup; eauto.
      - intros [c s] _. simpl. repeat constructor; simpl; intuition discriminate.
      - intros [c s] [c' s'] [i j] _ _ A B. simpl in A, B. destruct A as [A|[A|[]]], B as [B|[B|[]]]; inversion A; inversion B; congruence. }
    assert (Kk : forall c s k c' s', In (c, s, k) (tree_triples (xg_nodes X)) -> In (c', s', k) (tree_triples (xg_nodes X)) -> (c, s, k) = (c', s', k)).
    { intros c s k c' s' A B. rewrite (trip_X G g rs TP freq X I H) in A, B. destruct A as (r1 & st1 & A1 & A2 & A3 & A4), B as (r2 & st2 & B1 & B2 & B3 & B4).
      assert (r1 = r2) by congruence. subst. assert (s = s') by congruence. subst. congruence. }
    assert (Nx : forall (h : nat * nat * nat -> list (enode * enode * Q * option Q)) (key : enode * enode -> nat),
        (forall x y, In y (h x) -> key (fst (fst y)) = snd x) -> (forall x, (length (h x) <= 1)%nat) ->
        NoDup (map ends (flat_map h (tree_triples (xg_nodes X))))).
    { intros h key Hk Hl. rewrite flat_map_concat_map, concat_map, map_map, <- flat_map_concat_map. apply NoDup_flat_map.
      - eapply triples_NoDup; eauto.
      - intros x _. specialize (Hl x). destruct (h x) as [|a [|b l]]; simpl in *; [constructor|repeat constructor; auto|exfalso; lia].
      - intros [[c s] k] [[c' s'] k'] b A B Ha Hb. apply in_map_iff in Ha. apply in_map_iff in Hb.
        destruct Ha as ([[[i j] t] f] & E1 & Ha), Hb as ([[[i' j'] t'] f'] & E2 & Hb). apply Hk in Ha. apply Hk in Hb. cbn in Ha, Hb, E1, E2.
        assert (Ekk : k' = k) by congruence. rewrite Ekk in *. apply Kk; auto. }
    assert (Nb : NoDup (map ends (b_list g rs match freq with Some f => f | None => default_frequencies rs end (xg_nodes X)))).
    { apply (Nx _ (fun ij => match snd ij with ER k => k | _ => O end)); intros [[c s] k]; unfold b_h; destruct (circ g rs k || negb (at_last g rs k)); simpl; auto; try tauto; try lia.
      intros y [<-|[]]. reflexivity. }
    assert (Nl : NoDup (map ends (l_list g rs TP (xg_nodes X)))).
    { apply (Nx _ (fun ij => match fst ij with ER k => k | _ => O end)); intros [[c s] k]; unfold l_h; destruct (circ g rs k || negb (at_first g rs k)); simpl; auto; try tauto; try lia.
      intros y [<-|[]]. reflexivity. }
    assert (Nr : NoDup (map ends (r_list G g rs (xg_nodes X)))).
    { apply (Nx _ (fun ij => match snd ij with ER k => k | _ => O end)); intros [[c s] k]; unfold r_h; destruct (rn_prev _); simpl; auto; try tauto; try lia.
      intros y [<-|[]]. reflexivity. }
    assert (Ta : forall i j, In (i, j) (map ends (a_list g rs (xg_nodes X))) -> match i, j with EC _, ES _ | ES _, EC _ => True | _, _ => False end).
    { intros i j Hx. apply in_map_iff in Hx. destruct Hx as ([[[i' j'] t] f] & E & Hx). injection E as E1 E2. subst i' j'. rewrite (a_In G g rs TP freq X I H) in Hx.
      destruct Hx as (c & s & st & _ & _ & _ & _ & _ & [[-> ->]|[-> ->]]); auto. }
    assert (Tb : forall i j, In (i, j) (map ends (b_list g rs match freq with Some f => f | None => default_frequencies rs end (xg_nodes X))) -> match i, j with ES _, ER _ => True | _, _ => False end).
    { intros i j Hx. apply in_map_iff in Hx. destruct Hx as ([[[i' j'] t] f] & E & Hx). injection E as E1 E2. subst i' j'. rewrite (b_In G g rs TP freq X I H) in Hx.
      destruct Hx as (k & rn & s & _ & _ & _ & -> & -> & _); auto. }
    assert (Tl : forall i j, In (i, j) (map ends (l_list g rs TP (xg_nodes X))) -> match i, j with ER _, ES _ => True | _, _ => False end).
    { intros i j Hx. apply in_map_iff in Hx. destruct Hx as ([[[i' j'] t] f] & E & Hx). injection E as E1 E2. subst i' j'. rewrite (l_In G g rs TP freq X I H) in Hx.
      destruct Hx as (k & rn & s & _ & _ & _ & -> & -> & _); auto. }
    assert (Tr : forall i j, In (i, j) (map ends (r_list G g rs (xg_nodes X))) -> match i, j with ER _, ER _ => True | _, _ => False end).
    { intros i j Hx. apply in_map_iff in Hx. destruct Hx as ([[[i' j'] t] f] & E & Hx). injection E as E1 E2. subst i' j'. rewrite (r_In G g rs TP freq X I H) in Hx.
      destruct Hx as (k & rn & p & _ & _ & -> & -> & _); auto. }
    apply NoDup_app; auto; [apply NoDup_app; auto; [apply NoDup_app; auto|]|].
    + intros [i j] A B. apply Tl in A. apply Tr in B. destruct i, j; contradiction.
    + intros [i j] A B. apply Tb in A. apply in_app_or in B. destruct B as [B|B]; [apply Tl in B|apply Tr in B]; destruct i, j; contradiction.
    + intros [i j] A B. apply Ta in A. apply in_app_or in B. destruct B as [B|B]; [|apply in_app_or in B; destruct B as [B|B]]; [apply Tb in B|apply Tl in B|apply Tr in B]; destruct i, j; contradiction.
Qed.
Print Assumptions C31_edges_exact.

Lemma default_freq rs id : dget0 String.eqb 0 (default_frequencies rs) id = route_frequency rs None id.
Proof.
  unfold default_frequencies, route_frequency.
  assert (H : forall rs d q, dget0 String.eqb 0 d id = q -> dget0 String.eqb 0 (fold_left (fun d r => dset String.eqb d (r_id r) (m_fini (r_mode r))) rs d) id =
     fold_left (fun q r => if (id =? r_id r)%string then m_fini (r_mode r) else q) rs q).
  2: { apply H. reflexivity. }
  clear. induction rs as [|r rs IH]; intros d q E; simpl; auto. apply IH. unfold dget0 in *. destruct (String.eqb_spec id (r_id r)) as [->|N].
  - rewrite (dget_dset_same String.eqb Seqb_spec). reflexivity.
  - rewrite (dget_dset_other String.eqb Seqb_spec) by auto. exact E.
Qed.
(** times and frequencies on the edges *)
Theorem C31_edge_values : forall G g rs TP freq X, ext_input g rs -> build_ext G g rs TP freq = Ok X ->
  forall e, In e (xg_edges X) ->
  match x_type e with
  | ACCESS => x_f e = None /\ exists s st, (x_i e = ES s \/ x_j e = ES s) /\ nth_error (xg_stops X) s = Some st /\ x_t e == m_tat (sn_mode st) / 60
  | BOARDING => x_t e == 0 /\ exists k rn q, x_j e = ER k /\ nth_error (xg_rnodes X) k = Some rn /\ x_f e = Some q /\
                q == route_frequency rs freq (r_id (rn_route rn)) / m_d (r_mode (rn_route rn))
  | ALIGHTING => x_t e == TP / 60 /\ x_f e = None
  | ROUTE => x_f e = None
  end.
Proof.
  intros G g rs TP freq X I H e He. rewrite (edges_split G g rs TP freq X I H) in He. destruct He as [He|[He|[He|He]]]; apply number_In2 in He; destruct He as [-> He].
  - rewrite (a_In G g rs TP freq X I H) in He. destruct He as (c & s & st & H1 & H2 & H3 & -> & E & HH). split; auto. exists s, st. split; [|split; auto; reflexivity].
    destruct HH as [[_ ->]|[-> _]]; auto.
  - rewrite (b_In G g rs TP freq X I H) in He. destruct He as (k & rn & s & H1 & H2 & H3 & _ & E & -> & ->). split; [reflexivity|]. exists k, rn. eexists. repeat (split; auto).
    destruct freq; [reflexivity|]. rewrite default_freq. reflexivity.
  - rewrite (l_In G g rs TP freq X I H) in He. destruct He as (k & rn & s & H1 & H2 & H3 & _ & _ & -> & ->). split; auto. reflexivity.
  - rewrite (r_In G g rs TP freq X I H) in He. destruct He as (k & rn & p & H1 & H2 & _ & _ & _ & ->). auto.
Qed.
Print Assumptions C31_edge_values.

Lemma stop_mode_at G g rs TP freq X (I : ext_input g rs) (H : build_ext G g rs TP freq = Ok X) k rn : nth_error (xg_rnodes X) k = Some rn ->
  sn_mode (stop_at (stop_list g rs) (rn_stop_at (bnodes g (stop_list g rs) 0 (lines rs)) k)) = r_mode (rn_route rn) /\ In (rn_route rn) rs.
Proof.
  intro Hk. pose proof (facts_of _ _ _ _ _ _ I H) as F.
  assert (Hk2 : nth_error (bnodes g (stop_list g rs) 0 (lines rs)) k = Some rn) by (rewrite <- (ef_rn _ _ _ _ _ _ F); auto).
  destruct (rns_visit g rs I k rn Hk2) as (r & d & z & s & st & nd & Hr & E1 & E2 & V & Hz & Es & _ & Hst & Em & Hn & Ez).
  unfold rn_stop_at, stop_at. rewrite (rnode_at_eq _ _ _ _ Hk2), Es, (nth_error_nth _ _ _ Hst). split; congruence.
Qed.
Lemma ride_nonneg G served a b f l : (forall q, 0 <= geo_sqrt G q) -> forall c p q, 0 <= q -> 0 <= ride_distance G served a b f l c p q.
Proof.
  intro S. assert (A : forall p p' q, 0 <= q -> 0 <= q + pdist G p p').
  { intros. unfold pdist. rewrite <- (Qplus_0_l 0). apply Qplus_le_compat; auto. }
  induction l as [|z l IH]; intros c p q Hq; simpl; auto.
  destruct (z =? a)%Z; auto. destruct (z =? b)%Z; auto. destruct c; auto. destruct (find _ served); auto.
Qed.
Theorem C31_times_nonnegative : forall G g rs TP freq X, ext_input g rs -> build_ext G g rs TP freq = Ok X ->
  (forall q, 0 <= geo_sqrt G q) -> 0 <= TP -> (forall r, In r rs -> 0 <= m_tat (r_mode r) /\ 0 <= m_v (r_mode r)) ->
  forall e, In e (xg_edges X) -> 0 <= x_t e.
Proof.
  intros G g rs TP freq X I H HS HT HM e He. pose proof (facts_of _ _ _ _ _ _ I H) as F.
  assert (D : forall a b, 0 <= a -> 0 <= b -> 0 <= a / b) by (intros; unfold Qdiv; apply Qmult_le_0_compat; auto; apply Qinv_le_0_compat; auto).
  rewrite (edges_split G g rs TP freq X I H) in He. destruct He as [He|[He|[He|He]]]; apply number_In2 in He; destruct He as [_ He].
  - rewrite (a_In G g rs TP freq X I H) in He. destruct He as (c & s & st & H1 & H2 & H3 & -> & _). apply D; [|discriminate].
    rewrite (ef_stops _ _ _ _ _ _ F) in H2. apply nth_error_In, stop_list_In, touches_In in H2. destruct H2 as (r & nd & Hr & Er & _).
    rewrite <- Er. apply HM; auto.
  - rewrite (b_In G g rs TP freq X I H) in He. destruct He as (k & rn & s & _ & _ & _ & _ & _ & -> & _). apply Qle_refl.
  - rewrite (l_In G g rs TP freq X I H) in He. destruct He as (k & rn & s & _ & _ & _ & _ & _ & -> & _). apply D; auto. discriminate.
  - rewrite (r_In G g rs TP freq X I H) in He. destruct He as (k & rn & p & H1 & _ & _ & _ & -> & _). unfold rtime.
    destruct (stop_mode_at G g rs TP freq X I H k rn H1) as [-> Hr]. apply D; [|apply HM; auto]. apply ride_nonneg; auto. apply Qle_refl.
Qed.
Print Assumptions C31_times_nonnegative.

(** a route edge joins two consecutive stop visits of one direction of one route *)
Lemma route_edge_ends G g rs TP freq X : ext_input g rs -> build_ext G g rs TP freq = Ok X ->
  forall e, In e (xg_edges X) -> x_type e = ROUTE ->
  exists p k rp rk a b m j j', x_i e = ER p /\ x_j e = ER k /\ nth_error (xg_rnodes X) p = Some rp /\ nth_error (xg_rnodes X) k = Some rk /\
    rn_route rp = rn_route rk /\ rn_dir rp = rn_dir rk /\ rn_place X rp = Some (a, m) /\ rn_place X rk = Some (b, m) /\
    nth_error (visits (rn_route rk) (rn_dir rk)) j = Some a /\ nth_error (visits (rn_route rk) (rn_dir rk)) j' = Some b /\
    (j' = S j \/ (r_type (rn_route rk) = CIRCULAR /\ j' = 0%nat /\ j = (length (visits (rn_route rk) (rn_dir rk)) - 1)%nat)) /\
    x_t e = rtime G g rs (xg_nodes X) p k.
Proof.
  intros I H e He Ht. pose proof (facts_of _ _ _ _ _ _ I H) as F.
  rewrite (edges_split G g rs TP freq X I H) in He. destruct He as [He|[He|[He|He]]]; apply number_In2 in He; destruct He as [E He]; try congruence.
  rewrite (r_In G g rs TP freq X I H) in He. destruct He as (k & rk & p & H1 & Hp & Ei & Ej & Et & _).
  assert (H1' := H1). rewrite (ef_rn _ _ _ _ _ _ F) in H1'. destruct (rns_prev g rs I k rk p H1' Hp) as (rp & Hrp & Er & Ed).
  assert (Hrp' : nth_error (xg_rnodes X) p = Some rp) by (rewrite (ef_rn _ _ _ _ _ _ F); auto).
  destruct (C30_one_stop_per_node_and_mode _ _ _ _ _ _ I H) as (_ & _ & PM & LK).
  assert (A : forall i rn, nth_error (xg_rnodes X) i = Some rn -> exists z, nth_error (all_visits rs) i = Some (rn_route rn, rn_dir rn, z) /\ rn_place X rn = Some (z, r_mode (rn_route rn))).
  { intros i rn Hi. apply (f_equal (fun l => nth_error l i)) in PM. rewrite !nth_error_map, Hi in PM. cbn [option_map] in PM.
    destruct (nth_error (all_visits rs) i) as [[[r d] z]|]; [|discriminate]. cbn [option_map] in PM. injection PM as E1 E2 E3. exists z. subst. auto. }
  destruct (A _ _ H1) as (b & Vb & Pb), (A _ _ Hrp') as (a & Va & Pa).
  assert (L : nth_error (links 0 (lines rs)) k = Some (Some p)) by (rewrite <- LK, nth_error_map, H1; simpl; congruence).
  destruct (vis_block _ _ _ _ _ L Vb) as (r0 & d0 & z0 & z1 & E0 & _ & N & _ & j & j' & J1 & J2 & J3). injection E0 as E1 E2 E3. subst z0. rewrite Nat.sub_0_r in N.
  fold (all_visits rs) in N. rewrite Va in N. injection N as N1 N2 N3. subst z1.
  exists p, k, rp, rk, a, b, (r_mode (rn_route rk)), j', j. rewrite E1, E2.
  repeat (split; [solve [auto | congruence]|]). auto.
Qed.
Theorem C31_route_edges_consecutive : forall G g rs TP freq X, ext_input g rs -> build_ext G g rs TP freq = Ok X ->
  forall e, In e (xg_edges X) -> x_type e = ROUTE ->
  exists p k rp rk a b m j j', x_i e = ER p /\ x_j e = ER k /\ nth_error (xg_rnodes X) p = Some rp /\ nth_error (xg_rnodes X) k = Some rk /\
    rn_route rp = rn_route rk /\ rn_dir rp = rn_dir rk /\ rn_place X rp = Some (a, m) /\ rn_place X rk = Some (b, m) /\
    nth_error (visits (rn_route rk) (rn_dir rk)) j = Some a /\ nth_error (visits (rn_route rk) (rn_dir rk)) j' = Some b /\
    (j' = S j \/ (r_type (rn_route rk) = CIRCULAR /\ j' = 0%nat /\ j = (length (visits (rn_route rk) (rn_dir rk)) - 1)%nat)).
Proof.
  intros G g rs TP freq X I H e He Ht. destruct (route_edge_ends _ _ _ _ _ _ I H e He Ht) as (p & k & rp & rk & a & b & m & j & j' & Hx).
  exists p, k, rp, rk, a, b, m, j, j'. tauto.
Qed.
Print Assumptions C31_route_edges_consecutive.

(** ** C32 *)
Theorem C32_boarding_and_alighting_offered : forall G g rs TP freq X, ext_input g rs -> build_ext G g rs TP freq = Ok X ->
  forall k rn z m, nth_error (xg_rnodes X) k = Some rn -> rn_place X rn = Some (z, m) ->
  ((exists e, In e (xg_edges X) /\ x_type e = BOARDING /\ x_j e = ER k) <->
     r_type (rn_route rn) = CIRCULAR \/ ~ last_is (nodes_of (rn_route rn) (rn_dir rn)) z) /\
  ((exists e, In e (xg_edges X) /\ x_type e = ALIGHTING /\ x_i e = ER k) <->
     r_type (rn_route rn) = CIRCULAR \/ ~ first_is (nodes_of (rn_route rn) (rn_dir rn)) z).
Proof.
  intros G g rs TP freq X I H k rn z m Hk Hp. destruct (C31_edges_exact _ _ _ _ _ _ I H) as [J _].
  assert (Hs : exists s, rn_stop rn = Some s) by (unfold rn_place in Hp; destruct (rn_stop rn); [eauto|discriminate]). destruct Hs as [s Hs].
  split; split.
  - intros (e & He & Ht & Ej). assert (Jx : joins X BOARDING (x_i e) (ER k)) by (apply J; eauto). inversion Jx; subst.
    assert (rn0 = rn) by congruence. subst. destruct H4 as [C|C]; [left; auto|right; eapply C; eauto].
  - intro C. assert (Jx : joins X BOARDING (ES s) (ER k)).
    { econstructor; eauto. destruct C as [C|C]; [left; auto|right]. intros z' m' E. assert (z' = z) by congruence. subst. auto. }
    apply J in Jx. destruct Jx as (e & A1 & A2 & A3 & A4). eauto.
  - intros (e & He & Ht & Ej). assert (Jx : joins X ALIGHTING (ER k) (x_j e)) by (apply J; eauto). inversion Jx; subst.
    assert (rn0 = rn) by congruence. subst. destruct H4 as [C|C]; [left; auto|right; eapply C; eauto].
  - intro C. assert (Jx : joins X ALIGHTING (ER k) (ES s)).
    { econstructor; eauto. destruct C as [C|C]; [left; auto|right]. intros z' m' E. assert (z' = z) by congruence. subst. auto. }
    apply J in Jx. destruct Jx as (e & A1 & A2 & A3 & A4). eauto.
Qed.
Print Assumptions C32_boarding_and_alighting_offered.

(** ** C33 *)
Lemma at_id_unique g z a b : NoDup (map nd_id (g_nodes g)) -> at_id g z a -> at_id g z b -> a = b.
Proof.
  intros N [Ha Ea] [Hb Eb]. revert N Ha Hb. generalize (g_nodes g). induction l as [|n l IH]; simpl; [contradiction|]. intros N [<-|Ha] [<-|Hb]; auto.
  - inversion N; subst. exfalso. apply H1. apply in_map_iff. eauto.
  - inversion N; subst. exfalso. apply H1. apply in_map_iff. exists a. split; congruence || auto.
  - inversion N; subst. auto.
Qed.
Section Ride.
Context (G : geo) (g : graph) (served : list node) (from to : Z) (na nb : node) (p : Z -> bool).
Context (Hin : forall n, In n served -> In n (g_nodes g)).
Context (Hp : forall z, p z = true <-> In z (map nd_id served)).
Context (Hb : at_id g to nb) (Hab : from <> to).
Lemma find_p z : match find (fun n => (z =? nd_id n)%Z) served with Some n => p z = true /\ at_id g z n | None => p z = false end.
Proof.
  destruct (find _ served) as [n|] eqn:E.
  - apply find_some in E. destruct E as [E1 E2]. apply Z.eqb_eq in E2. split; [|split; auto]. apply Hp. rewrite E2. apply in_map. auto.
  - destruct (p z) eqn:Ep; auto. apply Hp in Ep. apply in_map_iff in Ep. destruct Ep as (n & E1 & E2). eapply find_none in E; eauto. cbn in E. rewrite E1, Z.eqb_refl in E. discriminate.
Qed.
Lemma ride_tail post : forall mid cur nc d, at_id g cur nc -> ~ In from mid -> ~ In to mid ->
  exists q, path_length G g (cur :: filter p mid ++ [to]) q /\ ride_distance G served from to (pos nb) (mid ++ to :: post) true (pos nc) d == d + q.
Proof.
  induction mid as [|z mid IH]; intros cur nc d Hc Nf Nt.
  - exists (euclid G nc nb + 0). split; [eapply pl_step; eauto; constructor|]. simpl. apply not_eq_sym, Z.eqb_neq in Hab. rewrite Hab, Z.eqb_refl. rewrite Qplus_0_r. reflexivity.
  - simpl in Nf, Nt. assert (z <> from) by tauto. assert (z <> to) by tauto. simpl. apply Z.eqb_neq in H, H0. rewrite H, H0.
    pose proof (find_p z) as FP. destruct (find _ served) as [n|].
    + destruct FP as [FP Hn]. rewrite FP. destruct (IH z n (d + pdist G (pos nc) (pos n)) Hn) as (q & Pq & E); [tauto|tauto|].
      exists (euclid G nc n + q). split.
      * simpl. eapply pl_step; eauto.
      * rewrite E. unfold euclid, pdist, pos. simpl. ring.
    + rewrite FP. apply IH; auto.
Qed.
Lemma ride_path pre mid post : at_id g from na -> ~ In from pre -> ~ In to pre -> ~ In from mid -> ~ In to mid ->
  exists q, path_length G g (from :: filter p mid ++ [to]) q /\
    ride_distance G served from to (pos nb) (pre ++ from :: mid ++ to :: post) false (pos na) 0 == q.
Proof.
  intros Ha. induction pre as [|z pre IH]; intros N1 N2 N3 N4.
  - simpl. rewrite Z.eqb_refl. destruct (ride_tail post mid from na 0 Ha N3 N4) as (q & Pq & E). exists q. split; auto. rewrite E. ring.
  - simpl in N1, N2. assert (z <> from) by tauto. assert (z <> to) by tauto. simpl. apply Z.eqb_neq in H, H0. rewrite H, H0. apply IH; tauto.
Qed.
(** stops that follow each other directly on a closed line *)
Lemma ride_closed a t : (exists j, nth_error (a :: t ++ [a]) j = Some from /\ nth_error (a :: t ++ [a]) (S j) = Some to) -> NoDup (a :: t) ->
  ride_distance G served from to (pos nb) (a :: t ++ [a]) false (pos na) 0 == euclid G na nb.
Proof.
  assert (E0 : 0 + pdist G (pos na) (pos nb) == euclid G na nb) by (rewrite Qplus_0_l; reflexivity).
  intros (j & H1 & H2) N. simpl in H2. destruct (Nat.eq_dec (S j) (length (a :: t))) as [E|E].
  - (* into the closing stop *) assert (to = a).
    { simpl in E. injection E as ->. rewrite nth_error_app2, Nat.sub_diag in H2 by lia. simpl in H2. congruence. }
    subst to. simpl. apply not_eq_sym, Z.eqb_neq in Hab. rewrite Hab, Z.eqb_refl. exact E0.
  - assert (L : (j < length t)%nat). { assert (j < length (t ++ [a]))%nat by (apply nth_error_Some; congruence). rewrite app_length in H. simpl in *. lia. }
    rewrite nth_error_app1 in H2 by auto.
    change (a :: t ++ [a]) with ((a :: t) ++ [a]) in *. rewrite nth_error_app1 in H1 by (simpl; lia).
    assert (A : forall l x, NoDup l -> (exists j, nth_error l j = Some from /\ nth_error l (S j) = Some to) ->
              ride_distance G served from to (pos nb) (l ++ [x]) false (pos na) 0 == euclid G na nb).
    { clear - E0 Hab. induction l as [|z l IH]; intros x N (j & H1 & H2); [destruct j; discriminate|]. simpl. destruct j as [|j].
      - simpl in H1. inversion H1. rewrite Z.eqb_refl. destruct l as [|y l]; [discriminate|]. simpl in H2. inversion H2. simpl.
        apply not_eq_sym, Z.eqb_neq in Hab. rewrite Hab, Z.eqb_refl. exact E0.
      - change (nth_error l j = Some from) in H1. change (nth_error l (S j) = Some to) in H2. inversion N as [|? ? Nz N' [Ex Ey]]. assert (z <> from) by (intros ->; apply Nz; eapply nth_error_In; eauto).
        assert (z <> to) by (intros ->; apply Nz; eapply nth_error_In; eauto). apply Z.eqb_neq in H, H0. rewrite H, H0. apply IH; auto. exists j; auto. }
    apply A; auto. exists j. split; auto.
Qed.
End Ride.

Lemma served_nodes G g rs TP freq X (I : ext_input g rs) (H : build_ext G g rs TP freq = Ok X) :
  (forall n, In n (map (fun '(c, _) => gnode g c) (xg_nodes X)) -> In n (g_nodes g)) /\
  (forall z, In z (map nd_id (map (fun '(c, _) => gnode g c) (xg_nodes X))) <-> stopped_at rs z).
Proof.
  pose proof (facts_of _ _ _ _ _ _ I H) as F. pose proof (tree_X G g rs TP freq X I H) as T.
  assert (K : forall c, (exists d, In (c, d) (xg_nodes X)) <-> exists k rn s st, nth_error (bnodes g (stop_list g rs) 0 (lines rs)) k = Some rn /\ rn_stop rn = Some s /\
     nth_error (stop_list g rs) s = Some st /\ sn_city st = c).
  { intro c. rewrite <- (xnodes_In g rs I (xg_nodes X) T (EC c)). unfold xnodes_of. rewrite in_flat_map. split.
    - intros [d Hd]. exists (c, d). split; auto. left. auto.
    - intros ([c' d] & Hd & Hc). exists d. destruct Hc as [Hc|Hc]; [congruence|]. apply in_flat_map in Hc. destruct Hc as ([s l] & _ & [Hc|Hc]); [discriminate|].
      apply in_map_iff in Hc. destruct Hc as (? & Hc & _). discriminate. }
  assert (K2 : forall c, (exists d, In (c, d) (xg_nodes X)) <-> exists k rn r d z nd, nth_error (bnodes g (stop_list g rs) 0 (lines rs)) k = Some rn /\
     nth_error (all_visits rs) k = Some (r, d, z) /\ nth_error (g_nodes g) c = Some nd /\ nd_id nd = z).
  { intro c. rewrite K. split.
    - intros (k & rn & s & st & H1 & H2 & H3 & H4). destruct (rns_visit g rs I k rn H1) as (r & d & z & s' & st' & nd & Hr & E1 & E2 & V & Hz & Es & _ & Hst & Em & Hn & Ez).
      exists k, rn, r, d, z, nd. assert (s' = s) by congruence. subst s'. assert (st' = st) by congruence. subst st'. repeat (split; auto). congruence.
    - intros (k & rn & r & d & z & nd & H1 & H2 & H3 & H4). destruct (rns_visit g rs I k rn H1) as (r' & d' & z' & s & st & nd' & Hr & E1 & E2 & V & Hz & Es & _ & Hst & Em & Hn & Ez).
      exists k, rn, s, st. repeat (split; auto). rewrite H2 in V. injection V as V1 V2 V3. subst z' z.
      apply (NoDup_nth_error (map nd_id (g_nodes g))); [apply (xi_ids _ _ I)| |].
      + rewrite map_length. apply nth_error_Some. congruence.
      + rewrite !nth_error_map, Hn, H3. simpl. congruence. }
  split.
  - intros n Hn. apply in_map_iff in Hn. destruct Hn as ([c d] & <- & Hd). destruct (proj1 (K2 c)) as (k & rn & r & d' & z & nd & _ & _ & H3 & _); [eauto|].
    unfold gnode. rewrite (nth_error_nth _ _ _ H3). eapply nth_error_In; eauto.
  - intro z. rewrite map_map, in_map_iff. unfold stopped_at. split.
    + intros ([c d] & E & Hd). destruct (proj1 (K2 c)) as (k & rn & r & d' & z' & nd & _ & H2 & H3 & H4); [eauto|].
      unfold gnode in E. rewrite (nth_error_nth _ _ _ H3) in E. exists r, d'. apply nth_error_In with k. congruence.
    + intros (r & d & Hv). apply In_nth_error in Hv. destruct Hv as [k Hv].
      destruct (nth_error (bnodes g (stop_list g rs) 0 (lines rs)) k) as [rn|] eqn:E.
      2: { apply nth_error_None in E. rewrite rns_len in E by auto. assert (k < length (all_visits rs))%nat by (apply nth_error_Some; congruence). lia. }
      destruct (rns_visit g rs I k rn E) as (r' & d' & z' & s & st & nd & Hr & E1 & E2 & V & Hz & Es & _ & Hst & Em & Hn & Ez).
      rewrite Hv in V. injection V as V1 V2 V3. subst z'. destruct (proj2 (K2 (sn_city st))) as [d0 Hd0].
      { exists k, rn, r, d, z, nd. repeat (split; auto). }
      exists (sn_city st, d0). split; auto. unfold gnode. rewrite (nth_error_nth _ _ _ Hn). auto.
Qed.

(** General form: between two stops of a line without repeated nodes, the time is the length of the
    line through those intermediate nodes at which some vehicle of the network stops. *)
Theorem C33_ride_time_through_stopped_nodes : forall G g rs TP freq X (p : Z -> bool), ext_input g rs -> build_ext G g rs TP freq = Ok X ->
  (forall z, p z = true <-> stopped_at rs z) ->
  forall e k1 k2 rn1 rn2 a b m1 m2 pre mid post,
  In e (xg_edges X) -> x_type e = ROUTE -> x_i e = ER k1 -> x_j e = ER k2 ->
  nth_error (xg_rnodes X) k1 = Some rn1 -> nth_error (xg_rnodes X) k2 = Some rn2 -> rn_place X rn1 = Some (a, m1) -> rn_place X rn2 = Some (b, m2) ->
  nodes_of (rn_route rn2) (rn_dir rn2) = pre ++ a :: mid ++ b :: post -> NoDup (nodes_of (rn_route rn2) (rn_dir rn2)) ->
  exists q, path_length G g (a :: filter p mid ++ [b]) q /\ x_t e == q / m_v (r_mode (rn_route rn2)).
Proof.
  intros G g rs TP freq X p I H Hp e k1 k2 rn1 rn2 a b m1 m2 pre mid post He Ht Ei Ej H1 H2 P1 P2 EL ND.
  destruct (route_edge_ends _ _ _ _ _ _ I H e He Ht) as (k1' & k2' & _ & _ & _ & _ & _ & _ & _ & E1 & E2 & _ & _ & _ & _ & _ & _ & _ & _ & _ & Et).
  assert (k1' = k1) by congruence. assert (k2' = k2) by congruence. subst k1' k2'.
  destruct (rn_gnode_place G g rs TP freq X I H k1 rn1 H1) as (m1' & Q1 & _ & N1). destruct (rn_gnode_place G g rs TP freq X I H k2 rn2 H2) as (m2' & Q2 & _ & N2).
  rewrite P1 in Q1. rewrite P2 in Q2. injection Q1 as Q1 _. injection Q2 as Q2 _.
  destruct (served_nodes G g rs TP freq X I H) as [S1 S2].
  rewrite EL in ND. pose proof (NoDup_remove_2 _ _ _ ND) as R1.
  assert (R2 : ~ In b ((pre ++ a :: mid) ++ post)). { apply NoDup_remove_2. rewrite <- app_assoc. exact ND. }
  rewrite !in_app_iff in R1, R2. cbn [In] in R1, R2.
  destruct (ride_path G g (map (fun '(c, _) => gnode g c) (xg_nodes X)) a b
    (rn_gnode g (stop_list g rs) (bnodes g (stop_list g rs) 0 (lines rs)) k1) (rn_gnode g (stop_list g rs) (bnodes g (stop_list g rs) 0 (lines rs)) k2) p S1
    (fun z => iff_trans (Hp z) (iff_sym (S2 z))) (conj N2 (eq_sym Q2)) (fun E => R1 (or_intror (or_intror (or_introl (eq_sym E))))) pre mid post (conj N1 (eq_sym Q1)))
    as (q & Pq & Eq); try tauto.
  exists q. split; auto. rewrite Et. unfold rtime. rewrite <- Q1, <- Q2, (at_X G g rs TP freq X I H k2 rn2 H2), EL, Eq.
  destruct (stop_mode_at G g rs TP freq X I H k2 rn2 H2) as [-> _]. reflexivity.
Qed.
Print Assumptions C33_ride_time_through_stopped_nodes.
(** When some vehicle stops at each intermediate node, it is the length of the line itself. *)
Theorem C33_ride_time : forall G g rs TP freq X, ext_input g rs -> build_ext G g rs TP freq = Ok X ->
  forall e k1 k2 rn1 rn2 a b m1 m2 pre mid post,
  In e (xg_edges X) -> x_type e = ROUTE -> x_i e = ER k1 -> x_j e = ER k2 ->
  nth_error (xg_rnodes X) k1 = Some rn1 -> nth_error (xg_rnodes X) k2 = Some rn2 -> rn_place X rn1 = Some (a, m1) -> rn_place X rn2 = Some (b, m2) ->
  nodes_of (rn_route rn2) (rn_dir rn2) = pre ++ a :: mid ++ b :: post -> NoDup (nodes_of (rn_route rn2) (rn_dir rn2)) ->
  (forall z, In z mid -> stopped_at rs z) ->
  exists q, path_length G g (a :: mid ++ [b]) q /\ x_t e == q / m_v (r_mode (rn_route rn2)).
Proof.
  intros G g rs TP freq X I H e k1 k2 rn1 rn2 a b m1 m2 pre mid post He Ht Ei Ej H1 H2 P1 P2 EL ND St.
  set (p := fun z => zmem z (map (fun '(_, _, z) => z) (all_visits rs))).
  assert (Hp : forall z, p z = true <-> stopped_at rs z).
  { intro z. unfold p, stopped_at. rewrite zmem_In, in_map_iff. split.
    - intros ([[r d] z'] & <- & Hz). eauto.
    - intros (r & d & Hz). exists (r, d, z). auto. }
  destruct (C33_ride_time_through_stopped_nodes G g rs TP freq X p I H Hp e k1 k2 rn1 rn2 a b m1 m2 pre mid post He Ht Ei Ej H1 H2 P1 P2 EL ND) as (q & Pq & Eq).
  assert (Ef : forall l, (forall z, In z l -> stopped_at rs z) -> filter p l = l).
  { induction l as [|z l IH]; intro S; simpl; auto. assert (p z = true) as -> by (apply Hp, S; left; auto). f_equal. apply IH. intros; apply S; right; auto. }
  rewrite (Ef _ St) in Pq. eauto.
Qed.
Print Assumptions C33_ride_time.

(** A closed line that stops at each of its nodes (the predefined circular routes): each time is the
    distance between the two nodes over the speed. *)
Theorem C33_circular_ride_time : forall G g rs TP freq X, ext_input g rs -> build_ext G g rs TP freq = Ok X ->
  forall e k1 k2 rn1 rn2 a b m1 m2,
  In e (xg_edges X) -> x_type e = ROUTE -> x_i e = ER k1 -> x_j e = ER k2 ->
  nth_error (xg_rnodes X) k1 = Some rn1 -> nth_error (xg_rnodes X) k2 = Some rn2 -> rn_place X rn1 = Some (a, m1) -> rn_place X rn2 = Some (b, m2) ->
  r_type (rn_route rn2) = CIRCULAR -> closed_line (nodes_of (rn_route rn2) (rn_dir rn2)) ->
  stops_of (rn_route rn2) (rn_dir rn2) = nodes_of (rn_route rn2) (rn_dir rn2) ->
  exists q, path_length G g [a; b] q /\ x_t e == q / m_v (r_mode (rn_route rn2)).
Proof.
  intros G g rs TP freq X I H e k1 k2 rn1 rn2 a b m1 m2 He Ht Ei Ej H1 H2 P1 P2 TY (a0 & t & EL & ND & Nt) ES.
  destruct (route_edge_ends _ _ _ _ _ _ I H e He Ht) as (k1' & k2' & rp & rk & a' & b' & m & j & j' & E1 & E2 & F1 & F2 & F3 & F4 & F5 & F6 & J1 & J2 & J3 & Et).
  assert (k1' = k1) by congruence. assert (k2' = k2) by congruence. subst k1' k2'. assert (rp = rn1) by congruence. assert (rk = rn2) by congruence. subst rp rk.
  assert (a' = a) by congruence. assert (b' = b) by congruence. subst a' b'.
  destruct (rn_gnode_place G g rs TP freq X I H k1 rn1 H1) as (m1' & Q1 & _ & N1). destruct (rn_gnode_place G g rs TP freq X I H k2 rn2 H2) as (m2' & Q2 & _ & N2).
  rewrite P1 in Q1. rewrite P2 in Q2. injection Q1 as Q1 _. injection Q2 as Q2 _.
  assert (VV : visits (rn_route rn2) (rn_dir rn2) = t ++ [a0]) by (unfold visits; rewrite TY, ES, EL; reflexivity). rewrite VV in *.
  assert (ADJ : exists i, nth_error (a0 :: t ++ [a0]) i = Some a /\ nth_error (a0 :: t ++ [a0]) (S i) = Some b).
  { destruct J3 as [->|(_ & -> & ->)].
    - exists (S j). auto.
    - exists 0%nat. rewrite app_length in J1. simpl in J1. rewrite nth_error_app2 in J1 by lia. replace (length t + 1 - 1 - length t)%nat with 0%nat in J1 by lia. simpl in J1. split; auto. }
  assert (Nab : a <> b).
  { intro E. subst b. assert (N2' : NoDup (t ++ [a0])).
    { apply NoDup_app; [inversion ND; auto|repeat constructor; auto|]. intros x A [<-|[]]. inversion ND; auto. }
    assert (Ejj : j = j').
    { apply (NoDup_nth_error (t ++ [a0])); auto; [apply nth_error_Some; congruence|congruence]. }
    destruct J3 as [J3|(_ & J3 & J4)]; [lia|]. rewrite app_length in J4. simpl in J4. destruct t; [congruence|]. simpl in J4. lia. }
  exists (euclid G (rn_gnode g (stop_list g rs) (bnodes g (stop_list g rs) 0 (lines rs)) k1) (rn_gnode g (stop_list g rs) (bnodes g (stop_list g rs) 0 (lines rs)) k2) + 0).
  split; [eapply pl_step; [split; eauto|split; eauto|constructor]|].
  rewrite Et. unfold rtime. rewrite <- Q1, <- Q2, (at_X G g rs TP freq X I H k2 rn2 H2), EL, (ride_closed G g); auto; [|split; auto].
  destruct (stop_mode_at G g rs TP freq X I H k2 rn2 H2) as [-> _]. rewrite Qplus_0_r. reflexivity.
Qed.
Print Assumptions C33_circular_ride_time.

(** ** Witnesses and examples *)
(** a city with subcenters at (3,0), (0,4) and peripheries at (6,0), (0,8): legs 3, 5, 4 *)
Definition ex_p34 : params := mkParams 4 1 1 2 None None None (Some [3; 4; 3; 4]) (Some [3; 4; 3; 4]).
Definition ex_g34 : graph := match build_from_parameters ex_geo ex_p34 with Ok C => c_graph C | Err _ => empty_graph end.
Definition ex_tang : route := mkRoute "t" ex_bus [1;2;4;3]%Z [3;4;2;1]%Z [1;2;4;3]%Z [3;4;2;1]%Z CUSTOM.
Definition ex_tang_express : route := mkRoute "te" ex_bus [1;2;4;3]%Z [3;4;2;1]%Z [1;3]%Z [3;1]%Z CUSTOM.
Definition ex_ring : route := mkRoute "c" ex_metro [2;4;6;8;2]%Z [] [2;4;6;8;2]%Z [] CIRCULAR.
Ltac ext_input_tac := constructor;
  [ vm_compute; repeat constructor; simpl; intuition discriminate
  | intros r d z Hr Hz; repeat (destruct Hr as [<-|Hr]); try contradiction; destruct d; simpl in Hz; vm_compute; intuition
  | intros r r' Hr Hr' E; repeat (destruct Hr as [<-|Hr]); try contradiction; repeat (destruct Hr' as [<-|Hr']); try contradiction; try reflexivity; discriminate
  | intros r Hr; repeat (destruct Hr as [<-|Hr]); try contradiction; discriminate
  | intros r Hr; repeat (destruct Hr as [<-|Hr]); try contradiction; discriminate
  | intros r d Hr Ht Hs; repeat (destruct Hr as [<-|Hr]); try contradiction; destruct d; simpl in *; congruence ].
Example ex_input3 : ext_input ex_g34 [ex_tang; ex_tang_express; ex_ring].
Proof. ext_input_tac. Qed.
Example C30_ex : exists X, build_ext ex_geo ex_g34 [ex_tang; ex_tang_express; ex_ring] 16 None = Ok X /\
  length (xg_stops X) = 8%nat /\ length (xg_rnodes X) = 16%nat /\ length (xnodes X) = 30%nat /\ length (xg_edges X) = 52%nat.
Proof. eexists. split; [vm_compute; reflexivity|]. vm_compute. repeat split. Qed.
Example ex_input1 : ext_input ex_g34 [ex_tang_express].
Proof. ext_input_tac. Qed.
(** C33: a direct service, first with and then without a local service that stops at the subcenters *)
Definition ride_times (X : xgraph) : list Q := map (fun e => Qred (x_t e)) (filter (fun e => etype_eqb (x_type e) ROUTE) (xg_edges X)).
Example C33_ex : exists X, build_ext ex_geo ex_g34 [ex_tang_express; ex_tang] 16 None = Ok X /\
  In (3 # 5) (ride_times X) /\ stopped_at [ex_tang_express; ex_tang] 2.
Proof.
  eexists. split; [vm_compute; reflexivity|]. split; [vm_compute; intuition|].
  exists ex_tang, DI. vm_compute. intuition.
Qed.
Theorem C33_unserved_intermediate_refuted : exists G g rs TP freq X e k1 k2 rn1 rn2 a b m1 m2 pre mid post q,
  ext_input g rs /\ build_ext G g rs TP freq = Ok X /\
  In e (xg_edges X) /\ x_type e = ROUTE /\ x_i e = ER k1 /\ x_j e = ER k2 /\
  nth_error (xg_rnodes X) k1 = Some rn1 /\ nth_error (xg_rnodes X) k2 = Some rn2 /\ rn_place X rn1 = Some (a, m1) /\ rn_place X rn2 = Some (b, m2) /\
  nodes_of (rn_route rn2) (rn_dir rn2) = pre ++ a :: mid ++ b :: post /\ NoDup (nodes_of (rn_route rn2) (rn_dir rn2)) /\
  path_length G g (a :: mid ++ [b]) q /\ x_t e < q / m_v (r_mode (rn_route rn2)).
Proof.
  assert (B : exists X, build_ext ex_geo ex_g34 [ex_tang_express] 16 None = Ok X /\
    nth_error (xg_edges X) 9 = Some (mkX ROUTE 1 (ER 0) (ER 1) (10 # 20) None) /\
    match nth_error (xg_rnodes X) 0, nth_error (xg_rnodes X) 1 with
    | Some r0, Some r1 => rn_place X r0 = Some (1%Z, ex_bus) /\ rn_place X r1 = Some (3%Z, ex_bus) /\ rn_route r1 = ex_tang_express /\ rn_dir r1 = DI
    | _, _ => False end).
  { eexists. split; [vm_compute; reflexivity|]. vm_compute. repeat split. }
  destruct B as (X & B & E & R). destruct (nth_error (xg_rnodes X) 0) as [r0|] eqn:E0; [|contradiction].
  destruct (nth_error (xg_rnodes X) 1) as [r1|] eqn:E1; [|contradiction]. destruct R as (P0 & P1 & R1 & D1).
  exists ex_geo, ex_g34, [ex_tang_express], 16, None, X, (mkX ROUTE 1 (ER 0) (ER 1) (10 # 20) None), 0%nat, 1%nat, r0, r1, 1%Z, 3%Z, ex_bus, ex_bus, [], [2; 4]%Z, [].
  pose (n := fun k => nth k (g_nodes ex_g34) dflt_node).
  exists (euclid ex_geo (n 1%nat) (n 2%nat) + (euclid ex_geo (n 2%nat) (n 4%nat) + (euclid ex_geo (n 4%nat) (n 3%nat) + 0))).
  rewrite R1, D1.
  split; [exact ex_input1|]. split; [auto|]. split; [eapply nth_error_In; eauto|]. do 3 (split; [reflexivity|]). do 4 (split; [auto|]).
  split; [reflexivity|]. split; [repeat constructor; simpl; intuition discriminate|]. split.
  - assert (A : forall k z, nth_error (g_nodes ex_g34) k = Some (n k) -> nd_id (n k) = z -> at_id ex_g34 z (n k)).
    { intros k z A1 A2. split; auto. eapply nth_error_In; eauto. }
    change ([1%Z] ++ [2; 4]%Z ++ [3%Z]) with [1; 2; 4; 3]%Z.
    repeat (apply pl_step; [apply A; vm_compute; reflexivity|apply A; vm_compute; reflexivity|]). apply pl_one.
  - vm_compute. reflexivity.
Qed.
Print Assumptions C33_unserved_intermediate_refuted.

Example C32_ex : exists X, build_ext ex_geo ex_g34 [ex_tang; ex_ring] 16 None = Ok X /\
  length (filter (fun e => etype_eqb (x_type e) BOARDING) (xg_edges X)) = 10%nat /\ length (filter (fun e => etype_eqb (x_type e) ALIGHTING) (xg_edges X)) = 10%nat.
Proof. eexists. split; [vm_compute; reflexivity|]. vm_compute. repeat split. Qed.
Example C33_circular_ex : exists X, build_ext ex_geo ex_g34 [ex_ring] 16 None = Ok X /\ ride_times X = [1#8; 1#8; 1#8; 1#8].
Proof. eexists. split; [vm_compute; reflexivity|]. vm_compute. reflexivity. Qed.
(** The numbering of RouteNodes is not an identity: a node that follows a circular route repeats a number. *)
Theorem C30_route_node_numbers_distinct_refuted : exists G g rs TP X, ext_input g rs /\ build_ext G g rs TP None = Ok X /\ ~ NoDup (map rn_id (xg_rnodes X)).
Proof.
  exists ex_geo, ex_g34, [ex_ring; ex_tang], 16. eexists. split; [ext_input_tac|]. split; [vm_compute; reflexivity|].
  vm_compute. intro N. repeat match goal with H : NoDup (_ :: _) |- _ => inversion H; clear H; subst end. simpl in *. intuition.
Qed.
Print Assumptions C30_route_node_numbers_distinct_refuted.
(** A line that stops at a node that the city does not have makes the construction fail, whatever the rest. *)
Theorem C30_unknown_stop : forall G g rs TP freq r d z,
  In r rs -> In z (visits r d) -> ~ In z (map nd_id (g_nodes g)) -> build_ext G g rs TP freq = Err AttributeError.
Proof.
  intros G g rs TP freq r d z Hr Hz N. unfold build_ext. fold (stop_list g rs). set (stops := stop_list g rs).
  assert (E : exists rn, In rn (build_route_nodes g rs stops) /\ rn_stop rn = None).
  { rewrite route_nodes_bnodes. assert (I : In (r, d, find_stop g (r_mode r) z stops 0) (map (fun rn => (rn_route rn, rn_dir rn, rn_stop rn)) (bnodes g stops 0 (lines rs)))).
    { rewrite bnodes_info. apply in_map_iff. exists (r, d, z). split; auto. apply in_flat_map. exists (r, d). split; [|apply in_map; auto]. unfold lines. apply in_flat_map. exists r. split; auto. destruct d; simpl; auto. }
    apply in_map_iff in I. destruct I as (rn & E & I). exists rn. split; auto. assert (E3 : rn_stop rn = find_stop g (r_mode r) z stops 0) by (inversion E; congruence). rewrite E3.
    pose proof (find_stop_spec g (r_mode r) z stops 0) as F. destruct (find_stop g (r_mode r) z stops 0) as [s|]; auto. exfalso. destruct F as (st & F1 & _ & _ & F2). apply N.
    apply nth_error_In in F1. apply stop_list_In in F1. apply touches_In in F1. destruct F1 as (r' & nd & _ & _ & F1 & _). unfold gnode in F2. rewrite (nth_error_nth _ _ dflt_node F1) in F2. subst z. apply in_map. eapply nth_error_In; eauto. }
  destruct E as (rn & Hrn & Ern). assert (B : build_extended_graph_nodes stops (build_route_nodes g rs stops) = Err AttributeError); [|rewrite B; reflexivity].
  unfold build_extended_graph_nodes. generalize (build_route_nodes g rs stops) Hrn. clear Hrn. intros l. generalize 0%nat. generalize (@nil (nat * list (nat * list nat))).
  induction l as [|x l IH]; intros t k Hrn; [contradiction|]. cbn [length seq combine foldM]. destruct (rn_stop x) as [s|] eqn:Ex; [|reflexivity]. cbn [bind]. apply IH. destruct Hrn as [->|Hrn]; [congruence|auto].
Qed.
Print Assumptions C30_unknown_stop.
(** A network accepts a line with such a stop: as the only node of the line, or on its way back, which is not checked.
    From then on the graph of that network cannot be built. *)
Theorem C24_unknown_stop_refuted : exists G P C m r1 r2 nw1 nw2,
  build_from_parameters G P = Ok C /\
  new_route (Some "x"%string) (Some m) (Some "99"%string) (Some "99"%string) (Some "99"%string) (Some "99"%string) CUSTOM = Ok r1 /\
  new_route (Some "y"%string) (Some m) (Some "1,2,0"%string) (Some "0,99,1"%string) (Some "1,2,0"%string) (Some "0,99,1"%string) CUSTOM = Ok r2 /\
  add_route (new_network (c_graph C)) r1 = (nw1, None) /\ add_route nw1 r2 = (nw2, None) /\
  forall TP freq, build_ext G (c_graph C) (nw_routes nw1) TP freq = Err AttributeError /\ build_ext G (c_graph C) [r2] TP freq = Err AttributeError.
Proof.
  exists ex_geo, ex_p34. eexists. exists Props_Network.ex_bus. do 4 eexists. split; [vm_compute; reflexivity|]. split; [vm_compute; reflexivity|]. split; [vm_compute; reflexivity|]. split; [vm_compute; reflexivity|]. split; [vm_compute; reflexivity|].
  intros TP freq. split; (eapply (C30_unknown_stop _ _ _ _ _ _ DR 99%Z); [left; reflexivity|vm_compute; tauto|vm_compute; intuition discriminate]).
Qed.
Print Assumptions C24_unknown_stop_refuted.
