(** * Props_Users: the resources consumed by the travellers (C48) *)
From Coq Require Import String List ZArith QArith Bool Lia Lqa Qfield.
From Verif Require Import PyBase PyFacts Graph GraphProofs GeoEx Mode Route ExtGraph ExtSpec ExtProofs Props_Ext Hyperpath HyperSpec HyperProofs HyperOpt Props_Hyper Assignment AssignSpec OdFacts FlowSpec CostSpec TableProofs FlowProofs Props_Assign Props_Flow Costs Props_Cost UsersCost UsersSpec.
Import ListNotations.
Local Open Scope Q_scope.

(** ** The loop reports the events of the loading *)
Definition nosink (X : xgraph) (dest : option enode) (e : ev) : bool := negb (stop_of_dest X dest (ev_from e)).
Definition report_ev (X : xgraph) (f : fdict) (z v : tab) (suc : enode -> list xedge) (dest : option enode) (u : resources) (e : ev) : res resources :=
  report X f z v suc dest (ev_from e) (ev_to e) (snd e) u.
Lemma filter_all {A} (p : A -> bool) l : (forall x, In x l -> p x = true) -> filter p l = l.
Proof. induction l as [|x l IH]; intro H; cbn [filter]; auto. rewrite (H x (or_introl eq_refl)), IH; auto. intros; apply H; right; auto. Qed.
Lemma filter_none {A} (p : A -> bool) l : (forall x, In x l -> p x = false) -> filter p l = [].
Proof. induction l as [|x l IH]; intro H; cbn [filter]; auto. rewrite (H x (or_introl eq_refl)), IH; auto. intros; apply H; right; auto. Qed.
Lemma consume_evs X f z v suc dest (sz : enode -> nat) (SZ : forall n, (1 + list_sum (map (fun x => sz (x_j x)) (suc n)) <= sz n)%nat) :
  forall m paths, (list_sum (map (fun e => sz (ev_to e)) paths) <= m)%nat -> forall k l, evs k X f suc dest (filter (nosink X dest) paths) = Ok l ->
  forall fuel u, (m <= fuel)%nat -> consume fuel X f z v suc dest paths u = foldM (report_ev X f z v suc dest) l u.
Proof.
  induction m as [|m IH]; intros paths Hm k l E fuel u Hf.
  - destruct paths as [|[[i j] q] rest]; [|exfalso; cbn in Hm; pose proof (SZ j); unfold ev_to in Hm; cbn in Hm; lia]. cbn [filter] in E. destruct k; cbn [evs] in E; inversion E; destruct fuel; reflexivity.
  - destruct paths as [|[[i j] pax] rest]; [cbn [filter] in E; destruct k; cbn [evs] in E; inversion E; destruct fuel; reflexivity|].
    destruct fuel as [|fuel]; [lia|]. cbn [consume]. change (sz j + list_sum (map (fun e => sz (ev_to e)) rest) <= S m)%nat in Hm. pose proof (SZ j) as S1. cbn [filter] in E. unfold nosink at 1 in E. change (ev_from (i, j, pax)) with i in E.
    destruct (stop_of_dest X dest i) eqn:Si; cbn [negb] in E.
    + apply (IH rest ltac:(lia) k l E fuel u ltac:(lia)).
    + destruct k as [|k]; cbn [evs] in E; [discriminate|]. apply bind_ok in E. destruct E as (q & Eq & E). apply bind_ok in E. destruct E as (l' & El & E). inversion E; subst l. clear E.
      rewrite Eq. cbn [bind foldM]. unfold report_ev at 1. change (ev_from (i, j, q)) with i. change (ev_to (i, j, q)) with j. cbn [snd]. destruct (report X f z v suc dest i j q u) as [u'|x]; cbn [bind]; auto.
      apply (IH (rest ++ map (fun e => (j, x_j e, q)) (suc j))) with (k := k); [| |lia].
      * rewrite map_app, list_sum_app, map_map. unfold ev_to at 2. cbn [fst snd]. lia.
      * rewrite filter_app. destruct (stop_of_dest X dest j) eqn:Sj.
        -- rewrite (filter_none _ (map _ _)), app_nil_r; auto. intros e He. apply in_map_iff in He. destruct He as (y & <- & _). unfold nosink, ev_from. cbn. rewrite Sj. reflexivity.
        -- rewrite (filter_all _ (map _ _)); auto. intros e He. apply in_map_iff in He. destruct He as (y & <- & _). unfold nosink, ev_from. cbn. rewrite Sj. reflexivity.
Qed.
Lemma evs_dis X f suc dest : forall k paths l, evs k X f suc dest paths = Ok l -> forall i j q, In (i, j, q) l -> exists pax, dis_pax X f suc i j pax = Ok q.
Proof.
  induction k as [|k IH]; intros [|[[i0 j0] pax] rest] l E i j q H; cbn [evs] in E; try (inversion E; subst; contradiction); try discriminate.
  apply bind_ok in E. destruct E as (q0 & Eq & E). apply bind_ok in E. destruct E as (l' & El & E). inversion E; subst l. destruct H as [H|H]; [inversion H; subst; eauto|eauto].
Qed.
Lemma evs_parent X f suc dest : forall k paths l, evs k X f suc dest paths = Ok l -> forall i j q, In (i, j, q) l -> (exists q', In (i, j, q') paths) \/ exists i' q', In (i', i, q') l.
Proof.
  induction k as [|k IH]; intros [|[[i0 j0] pax] rest] l E i j q H; cbn [evs] in E; try (inversion E; subst; contradiction); try discriminate.
  apply bind_ok in E. destruct E as (q0 & Eq & E). apply bind_ok in E. destruct E as (l' & El & E). inversion E; subst l. destruct H as [H|H]; [inversion H; subst; left; exists pax; left; auto|].
  destruct (IH _ _ El i j q H) as [(q' & P)|(i' & q' & P)]; [|right; exists i', q'; right; auto]. destruct (stop_of_dest X dest j0); [left; exists q'; right; auto|].
  apply in_app_or in P. destruct P as [P|P]; [left; exists q'; right; auto|]. apply in_map_iff in P. destruct P as (y & Ey & _). inversion Ey; subst. right. exists i0, q'. left; auto.
Qed.

(** ** Directions *)
Lemma last_index_nodup : forall l z n idx acc, NoDup l -> nth_error l n = Some z -> last_index_from z l idx acc = (idx + n)%nat.
Proof.
  assert (NI : forall l z idx acc, ~ In z l -> last_index_from z l idx acc = acc).
  { induction l as [|x l IH]; intros z idx acc H; cbn [last_index_from]; auto. rewrite IH by (intro; apply H; right; auto). destruct (x =? z)%Z eqn:E; auto. apply Z.eqb_eq in E. exfalso. apply H. left; auto. }
  induction l as [|x l IH]; intros z n idx acc ND H; [destruct n; discriminate|]. inversion ND; subst. cbn [last_index_from]. destruct n as [|n]; cbn in H.
  - inversion H; subst. rewrite Z.eqb_refl, NI by auto. lia.
  - rewrite (IH z n) by auto. lia.
Qed.
Lemma nth_error_rev {A} (l : list A) n x : nth_error (rev l) n = Some x -> (n < length l)%nat /\ nth_error l (length l - S n) = Some x.
Proof.
  intro H. assert (L : (n < length l)%nat) by (rewrite <- rev_length; apply nth_error_Some; congruence). split; auto.
  rewrite (nth_error_nth' _ x) in H by (rewrite rev_length; auto). rewrite rev_nth in H by auto. rewrite (nth_error_nth' _ x) by lia. auto.
Qed.
Lemma guess_spec r d z z' j : both_ways r -> nth_error (stops_of r d) j = Some z' -> nth_error (stops_of r d) (S j) = Some z -> guess_dir r z' z = d.
Proof.
  intros (T & ND & SR) H1 H2. unfold guess_dir, last_index. destruct d; cbn [stops_of] in *.
  - rewrite (last_index_nodup _ z' j 0 0 ND H1), (last_index_nodup _ z (S j) 0 0 ND H2). rewrite (proj2 (Nat.ltb_lt _ _)) by lia. reflexivity.
  - destruct SR as [SR|SR]; rewrite SR in *; [|destruct j; discriminate]. apply nth_error_rev in H1, H2. destruct H1 as [L1 H1], H2 as [L2 H2].
    rewrite (last_index_nodup _ z' _ 0 0 ND H1), (last_index_nodup _ z _ 0 0 ND H2). rewrite (proj2 (Nat.ltb_ge _ _)) by lia. reflexivity.
Qed.

Section Dir.
  Context (G : geo) (g : graph) (rs : list route) (TP : Q) (fr : option (list (string * Q))) (X : xgraph).
  Hypothesis I : ext_input g rs.
  Hypothesis B : build_ext G g rs TP fr = Ok X.
  Lemma node_visit k rn : nth_error (xg_rnodes X) k = Some rn -> exists z, nth_error (all_visits rs) k = Some (rn_route rn, rn_dir rn, z) /\ rn_node_id X k = z /\ In (rn_route rn) rs /\
    exists s, rn_stop rn = Some s /\ sn_mode (stop_at (xg_stops X) s) = r_mode (rn_route rn).
  Proof.
    intro H. pose proof (facts_of _ _ _ _ _ _ I B) as F. rewrite (ef_rn _ _ _ _ _ _ F) in H. destruct (rns_visit g rs I k rn H) as (r & d & z & s & st & nd & Hr & E1 & E2 & V & _ & Es & _ & Est & Em & En & Ez).
    exists z. subst r d. split; auto. split; [|split; auto].
    - unfold rn_node_id, rn_gnode, rn_stop_at, rnode_at, stop_at, gnode. rewrite (ef_graph _ _ _ _ _ _ F), (ef_stops _ _ _ _ _ _ F), (ef_rn _ _ _ _ _ _ F). rewrite (nth_error_nth _ _ _ H), Es, (nth_error_nth _ _ _ Est), (nth_error_nth _ _ _ En). auto.
    - exists s. split; auto. unfold stop_at. rewrite (ef_stops _ _ _ _ _ _ F), (nth_error_nth _ _ _ Est). auto.
  Qed.
  Lemma dir_read k rn p : nth_error (xg_rnodes X) k = Some rn -> rn_prev rn = Some p -> both_ways (rn_route rn) ->
    guess_dir (rn_route rn) (rn_node_id X p) (rn_node_id X k) = rn_dir rn.
  Proof.
    intros H Hp BW. pose proof (facts_of _ _ _ _ _ _ I B) as F. destruct (node_visit k rn H) as (z & V & Ez & _). rewrite (ef_rn _ _ _ _ _ _ F) in H. destruct (rns_prev g rs I k rn p H Hp) as (rp & Hrp & Er & Ed).
    assert (L : nth_error (links 0 (lines rs)) k = Some (Some p)) by (rewrite <- (bnodes_prev g (stop_list g rs)), nth_error_map, H; simpl; rewrite Hp; auto).
    destruct (vis_block _ _ _ _ _ L V) as (r0 & d0 & z0 & z1 & E & _ & N & _ & j & j' & N1 & N2 & C). inversion E; subst r0 d0 z0. rewrite Nat.sub_0_r in N.
    rewrite <- (ef_rn _ _ _ _ _ _ F) in Hrp. destruct (node_visit p rp Hrp) as (zp & Vp & Ezp & _). unfold all_visits in Vp. rewrite N in Vp. assert (Ezz : zp = z1) by congruence. rewrite Ez, Ezp, Ezz.
    destruct BW as (T & BW). destruct C as [-> |(C & _)]; [|contradiction]. unfold visits in N1, N2. destruct (r_type (rn_route rn)) eqn:ET; try congruence; apply (guess_spec _ _ _ _ j'); try (split; [congruence|]); auto.
  Qed.
End Dir.

(** ** What one event adds *)
(** hours on board as the code reads them: the direction is guessed from the order of the stops *)
Definition on_board_read (X : xgraph) (z v : tab) (e : od_entry) (x : xedge) : Q :=
  match x_i x, x_j x with
  | ER a, ER b => x_t x + (if rides_on e (ER b)
      then m_t (r_mode (line_of X a)) / 3600 * stop_dwell (m_bya (r_mode (line_of X a))) z v (rid X a) (guess_dir (line_of X a) (rn_node_id X a) (rn_node_id X b)) (rn_stop_at (xg_rnodes X) b) else 0)
  | ER k, ES s => m_t (r_mode (line_of X k)) / 3600 * ((1 # 2) * tget v (rid X k)
      (match rn_prev (rnode_at (xg_rnodes X) k) with Some p => guess_dir (line_of X k) (rn_node_id X p) (rn_node_id X k) | None => rdir X k end) s)
  | _, _ => 0
  end.
(** hours of access added for a walk, whatever the number of travellers *)
Definition walk_ta (X : xgraph) (i j : enode) : Q :=
  match i, j with
  | ES s, EC _ => m_tat (sn_mode (stop_at (xg_stops X) s)) / 60
  | EC _, ES s => m_tat (sn_mode (stop_at (xg_stops X) s)) / 60
  | _, _ => 0
  end.
Definition adds (u u' : resources) (ta te tv t : Q) : Prop :=
  u_ta u' == u_ta u + ta /\ u_te u' == u_te u + te /\ u_tv u' == u_tv u + tv /\ u_t u' == u_t u + t.
Lemma adds_trans u1 u2 u3 a1 e1 v1 t1 a2 e2 v2 t2 : adds u1 u2 a1 e1 v1 t1 -> adds u2 u3 a2 e2 v2 t2 -> adds u1 u3 (a1 + a2) (e1 + e2) (v1 + v2) (t1 + t2).
Proof. unfold adds. intros (A1 & A2 & A3 & A4) (B1 & B2 & B3 & B4). rewrite B1, B2, B3, B4, A1, A2, A3, A4. split; [|split; [|split]]; ring. Qed.
Lemma adds_eq u u' a1 e1 v1 t1 a2 e2 v2 t2 : adds u u' a1 e1 v1 t1 -> a1 == a2 -> e1 == e2 -> v1 == v2 -> t1 == t2 -> adds u u' a2 e2 v2 t2.
Proof. unfold adds. intros (A1 & A2 & A3 & A4) <- <- <- <-. auto. Qed.
Lemma adds_refl u a e v t : a == 0 -> e == 0 -> v == 0 -> t == 0 -> adds u u a e v t.
Proof. unfold adds. intros -> -> -> ->. split; [|split; [|split]]; ring. Qed.
Lemma fold_id {A B} (h : A -> B -> A) : (forall u y, h u y = u) -> forall l u, fold_left h l u = u.
Proof. intros H. induction l as [|y l IH]; intro u; cbn [fold_left]; auto. rewrite H; auto. Qed.
Lemma facum_spec X f l fa : f_acum X f l = Ok fa -> fa == lines_freq X f l.
Proof.
  assert (K : forall l a fa, foldM (fun a e => match x_j e with ER k => Ok (a + freq f (rid X k)) | _ => Err AttributeError end) l a = Ok fa -> fa == a + lines_freq X f l).
  { induction l0 as [|x l0 IH]; intros a fa0 E; cbn [foldM] in E; [inversion E; unfold lines_freq, Qsumf; cbn; ring|]. apply bind_ok in E. destruct E as (b & E1 & E2). unfold lines_freq. rewrite Qsumf_cons. fold (lines_freq X f l0).
    destruct (x_j x); try discriminate. inversion E1; subst b. rewrite (IH _ _ E2). ring. }
  intro E. rewrite (K l 0 fa E). ring.
Qed.

Section OneOd.
  Context (X : xgraph) (P : qpass) (M : dict2) (f : fdict) (z v : tab) (vp : Q) (e : od_entry) (a : list (nat * Q)) (c cd : nat).
  Hypothesis HG : hyper_graph X.
  Hypothesis SHAPE : forall x, In x (xg_edges X) -> edge_shape X x.
  Hypothesis O : od_ok X P M e c cd.
  Hypothesis DR0 : forall k, In (ER k) (xnodes X) -> ~ m_d (r_mode (line_of X k)) == 0.
  Hypothesis DS0 : forall s, In (ES s) (xnodes X) -> ~ m_d (sn_mode (stop_at (xg_stops X) s)) == 0.
  Hypothesis VP : ~ vp == 0.
  Notation suc := (hr_suc (od_res e)).
  Notation dest := (od_d e).

  Lemma find_edge x : In x (xg_edges X) -> find (fun y => enode_eqb (x_i y) (x_i x) && enode_eqb (x_j y) (x_j x)) (xg_edges X) = Some x.
  Proof.
    intro Hx. destruct (find _ (xg_edges X)) as [y|] eqn:E.
    - apply find_some in E. destruct E as [Hy E]. apply andb_true_iff in E. destruct E as [E1 E2]. apply enode_eqb_eq in E1, E2. f_equal.
      apply (NoDup_map_eq (fun e => (x_i e, x_j e)) (xg_edges X) y x); auto; [apply (hg_pairs X HG)|congruence].
    - exfalso. apply (find_none _ _ E) in Hx. rewrite !(proj2 (enode_eqb_eq _ _) eq_refl) in Hx. discriminate.
  Qed.
  Lemma suc_shape n x : In x (suc n) -> In x (xg_edges X) /\ x_i x = n /\ edge_shape X x /\ In (x_j x) (xnodes X) /\ hr_lab (od_res e) (x_j x) <> None.
  Proof. intro Hx. destruct (hf_suc _ _ _ _ _ (oo_facts _ _ _ _ _ _ O) n x Hx) as (A & B & _ & C & _). split; auto. split; auto. split; auto. split; auto. apply (hg_ends X HG); auto. Qed.
  (** from a route node there is one way *)
  Lemma one_way n x b : In x (suc n) -> x_j x = ER b -> exists y, suc (ER b) = [y].
  Proof.
    intros Hx Ej. destruct (suc_shape n x Hx) as (_ & _ & _ & N & L). rewrite Ej in N, L. destruct (hr_lab (od_res e) (ER b)) as [q|] eqn:El; [|congruence].
    destruct (hf_step _ _ _ _ _ (oo_facts _ _ _ _ _ _ O) (ER b) q N) as [(y & E1 & _)|(E1 & E2 & _)]; auto; [rewrite (oo_dest _ _ _ _ _ _ O); discriminate|eauto|].
    destruct (suc (ER b)) as [|y l] eqn:Es; [congruence|]. exfalso. destruct (E2 y (or_introl eq_refl)) as (fr & Ef & _). destruct (suc_shape (ER b) y) as (_ & Ei & Sh & _); [rewrite Es; left; auto|]. unfold edge_shape in Sh. rewrite Ei, Ef in Sh. exact Sh.
  Qed.
  Definition reached (l : list ev) (i : enode) : Prop := exists i' q', In (i', i, q') l.
  Lemma report_adds i j q x u : In x (suc i) -> x_j x = j -> (exists pax, dis_pax X f suc i j pax = Ok q) -> (forall k s, i = ER k -> j = ES s -> rn_prev (rnode_at (xg_rnodes X) k) <> None) ->
    exists u', report X f z v suc dest i j q u = Ok u' /\ adds u u' (walk_ta X i j) (q * wait_time X f e x) (q * on_board_read X z v e x) (q * transfer X e x).
  Proof.
    intros Hx Ej (pax & DP) PR. destruct (suc_shape i x Hx) as (Hxe & Ei & Sh & Nj & _). pose proof (find_edge x Hxe) as FE. unfold wait_time, on_board_read, transfer. rewrite Ei, Ej in *. unfold edge_shape in Sh. rewrite Ei, Ej in Sh.
    destruct i as [ci|si|ki], j as [cj|sj|kj]; try (destruct (x_f x); contradiction).
    - eexists. split; [unfold report; cbn; rewrite fold_id; [reflexivity|intros; reflexivity]|]. unfold adds. cbn. split; [|split; [|split]]; ring.
    - eexists. split; [unfold report; cbn; rewrite fold_id; [reflexivity|intros; reflexivity]|]. unfold adds. cbn. split; [|split; [|split]]; ring.
    - unfold dis_pax in DP. apply bind_ok in DP. destruct DP as (fa & Efa & DP). apply bind_ok in DP. destruct DP as (sh & Esh & _). apply qdiv_inv in Esh. destruct Esh as [Nfa _]. pose proof (facum_spec _ _ _ _ Efa) as Lf.
      assert (D0 : ~ m_d (r_mode (route_of X kj)) == 0) by (apply (DR0 kj); auto). assert (L0 : ~ lines_freq X f (suc (ES si)) == 0) by (rewrite <- Lf; auto).
      eexists. split.
      + unfold report, report_te. rewrite Efa. cbn [bind]. rewrite PyFacts.qdiv_ok by exact D0. cbn [bind]. rewrite PyFacts.qdiv_ok; [cbn [bind]|].
        * cbn [report_tv report_alighting bind]. rewrite fold_id; [reflexivity|intros; reflexivity].
        * intro C. apply Nfa. assert (E : fa == fa / m_d (r_mode (route_of X kj)) * m_d (r_mode (route_of X kj))) by (field; exact D0). rewrite E, C. ring.
      + unfold adds. cbn. split; [|split; [|split]]; try ring. unfold line_of. fold (route_of X kj). rewrite Lf. field. split; auto.
    - destruct (rn_prev (rnode_at (xg_rnodes X) ki)) as [p|] eqn:Ep; [|exfalso; apply (PR ki sj eq_refl eq_refl Ep)].
      eexists. split; [unfold report, report_te; cbn [bind report_tv]; unfold report_alighting; rewrite Ep; cbn [bind]; rewrite fold_id; [reflexivity|intros; reflexivity]|].
      unfold adds. cbn -[Qmult Qplus Qdiv stop_of_dest]. destruct (stop_of_dest X dest (ES sj)); cbn -[Qmult Qplus Qdiv]; unfold line_of, rid, route_of; split; try ring; split; try ring; split; ring.
    - destruct (one_way (ER ki) x kj Hx Ej) as (y & Ey). unfold rides_on. rewrite Ey. cbn [existsb]. eexists. split.
      + unfold report, report_te. cbn [bind]. unfold report_tv. rewrite FE. cbn [bind report_alighting report_ta]. rewrite Ey. cbn [fold_left]. reflexivity.
      + destruct (x_j y) as [cy|sy|ky]; cbn [orb]; unfold adds; cbn -[Qmult Qplus Qdiv stop_dwell tget].
        * split; [|split; [|split]]; ring.
        * split; [|split; [|split]]; ring.
        * unfold line_of, rid. fold (route_of X ki). unfold stop_dwell. destruct (Qeqb (m_bya (r_mode (route_of X ki))) 0) eqn:B0, (Qeqb (m_bya (r_mode (route_of X ki))) 1) eqn:B1; cbn -[Qmult Qplus Qdiv tget];
          try (apply Qeqb_eq in B0; apply Qeqb_eq in B1; rewrite B0 in B1; discriminate B1); split; try ring; split; try ring; split; ring.
  Qed.
  (** what an event contributes when every traveller on an edge consumes W *)
  Definition wev (W : xedge -> Q) (d : ev) : Q :=
    match find (fun y => enode_eqb (x_i y) (ev_from d) && enode_eqb (x_j y) (ev_to d)) (xg_edges X) with Some x => snd d * W x | None => 0 end.
  Definition wlk (d : ev) : Q := walk_ta X (ev_from d) (ev_to d).
  Definition ev_ok (d : ev) : Prop :=
    (exists x, In x (suc (ev_from d)) /\ x_j x = ev_to d) /\ (exists pax, dis_pax X f suc (ev_from d) (ev_to d) pax = Ok (snd d)) /\
    (forall k s, ev_from d = ER k -> ev_to d = ES s -> rn_prev (rnode_at (xg_rnodes X) k) <> None).
  Lemma fold_adds : forall l u, (forall d, In d l -> ev_ok d) -> exists u', foldM (report_ev X f z v suc dest) l u = Ok u' /\
    adds u u' (Qsumf wlk l) (Qsumf (wev (wait_time X f e)) l) (Qsumf (wev (on_board_read X z v e)) l) (Qsumf (wev (transfer X e)) l).
  Proof.
    induction l as [|d l IH]; intros u H; cbn [foldM]; [exists u; split; auto; apply adds_refl; reflexivity|]. destruct (H d (or_introl eq_refl)) as ((x & Hx & Ej) & DP & PR).
    destruct (report_adds (ev_from d) (ev_to d) (snd d) x u Hx Ej DP PR) as (u1 & E1 & A1). destruct (IH u1) as (u2 & E2 & A2); [intros; apply H; right; auto|].
    exists u2. unfold report_ev at 1. rewrite E1. cbn [bind]. split; auto. destruct (suc_shape _ _ Hx) as (Hxe & Ei & _). pose proof (find_edge x Hxe) as FE. rewrite Ei, Ej in FE.
    eapply adds_eq; [eapply adds_trans; [exact A1|exact A2]| | | |]; rewrite Qsumf_cons; unfold wlk at 1 || unfold wev at 2; rewrite ?FE; reflexivity.
  Qed.
  Lemma trace_ok k s q l : stop_of_dest X dest (ES s) = false -> evs k X f suc dest (map (fun x => (ES s, x_j x, q)) (suc (ES s))) = Ok l ->
    (forall i j q, In (i, j, q) l -> exists x, In x (suc i) /\ x_j x = j) -> forall d, In d l -> ev_ok d.
  Proof.
    intros S0 E HE [[i j] q0] Hd. split; [apply (HE i j q0 Hd)|]. split; [apply (evs_dis _ _ _ _ _ _ _ E i j q0 Hd)|]. unfold ev_from, ev_to. cbn [fst snd]. intros k0 s0 -> ->.
    destruct (HE _ _ _ Hd) as (x & Hx & Ej). destruct (suc_shape _ _ Hx) as (_ & Ei & Sh & _). unfold edge_shape in Sh. rewrite Ei, Ej in Sh. destruct (x_f x); [contradiction|].
    destruct (evs_parent _ _ _ _ _ _ _ E _ _ _ Hd) as [(q' & Pin)|(i' & q' & Pin)]; [apply in_map_iff in Pin; destruct Pin as (y & Ey & _); discriminate Ey|].
    destruct (HE _ _ _ Pin) as (x' & Hx' & Ej'). destruct (suc_shape _ _ Hx') as (_ & Ei' & Sh' & _). unfold edge_shape in Sh'. rewrite Ei', Ej' in Sh'. destruct i' as [c'|s'|p]; [destruct (x_f x'); contradiction| |].
    - exfalso. assert (Es : s' = s0) by (destruct (x_f x'); [congruence|contradiction]). subst s'. destruct (oo_rank _ _ _ _ _ _ O) as (rk & RK). pose proof (RK _ _ Hx). pose proof (RK _ _ Hx'). rewrite Ej in *. rewrite Ej' in *. lia.
    - destruct (x_f x'); [contradiction|]. destruct Sh' as (_ & _ & Sh' & _). congruence.
  Qed.
  Lemma od_adds l : od_flow X f e a l -> exists N, forall u, exists u', (forall fuel, (N <= fuel)%nat -> consume_od fuel X vp f z v u (e, a) = Ok u') /\
    adds u u' (Qsumf (fun s => start_trips e a s * access_time X vp (width_at X (od_o e)) a s) (map fst (od_paths e)) + Qsumf wlk l)
      (Qsumf (wev (wait_time X f e)) l) (Qsumf (wev (on_board_read X z v e)) l) (Qsumf (wev (transfer X e)) l).
  Proof.
    intro OF. destruct (of_trace _ _ _ _ _ OF) as (lss & El & TR). destruct (sizes suc (oo_rank _ _ _ _ _ _ O)) as (sz & SZ).
    assert (HE : forall i j q, In (i, j, q) (concat lss) -> exists x, In x (suc i) /\ x_j x = j) by (intros i j q H; rewrite <- El in H; destruct (of_edge _ _ _ _ _ OF i j q H) as (x & _ & _ & A & B & _); eauto).
    unfold consume_od. cbn [fst snd]. rewrite El. clear El.
    assert (GEN : forall keys, Forall2 (stop_trace X f e a) keys lss -> (forall s, In s keys -> In s (map fst (od_paths e))) -> exists N, forall u, exists u', (forall fuel, (N <= fuel)%nat -> foldM (consume_stop fuel X vp f z v e a) keys u = Ok u') /\
       adds u u' (Qsumf (fun s => start_trips e a s * access_time X vp (width_at X (od_o e)) a s) keys + Qsumf wlk (concat lss)) (Qsumf (wev (wait_time X f e)) (concat lss)) (Qsumf (wev (on_board_read X z v e)) (concat lss)) (Qsumf (wev (transfer X e)) (concat lss))).
    { clear TR OF. intros keys TR. induction TR as [|s ls keys lss ST TR IH]; intro HK; [exists 0%nat; intro u; exists u; split; auto; apply adds_refl; reflexivity|].
      destruct IH as (N2 & R2); [intros i j q H; apply HE with q; cbn [concat]; apply in_or_app; right; auto|intros; apply HK; right; auto|].
      pose proof (HK s (or_introl eq_refl)) as Hs. apply (oo_keys _ _ _ _ _ _ O) in Hs. destruct Hs as (A0 & (st & A1 & A2) & A3).
      assert (S0 : stop_of_dest X dest (ES s) = false). { unfold stop_of_dest, stop_at. rewrite (nth_error_nth _ _ _ A1), A2, (oo_dest _ _ _ _ _ _ O). simpl. apply Nat.eqb_neq. apply (oo_diff _ _ _ _ _ _ O). }
      pose proof (DS0 s A0) as D0. unfold stop_trace in ST. fold (start_trips e a s) in *.
      assert (ONE : exists N, forall u, exists u', (forall fuel, (N <= fuel)%nat -> consume_stop fuel X vp f z v e a u s = Ok u') /\
         adds u u' (start_trips e a s * access_time X vp (width_at X (od_o e)) a s + Qsumf wlk ls) (Qsumf (wev (wait_time X f e)) ls) (Qsumf (wev (on_board_read X z v e)) ls) (Qsumf (wev (transfer X e)) ls)).
      { unfold consume_stop. fold (start_trips e a s). destruct (Qeqb (start_trips e a s) 0) eqn:Q0.
        - subst ls. apply Qeqb_eq in Q0. exists 0%nat. intro u. exists u. split; auto. apply adds_refl; try reflexivity. unfold Qsumf. cbn [map Qsum fold_right]. rewrite Q0. ring.
        - destruct ST as (k & Ek). exists (list_sum (map (fun d => sz (ev_to d)) (map (fun x => (ES s, x_j x, start_trips e a s)) (suc (ES s))))). intro u.
          rewrite PyFacts.qdiv_ok; cbn [bind].
          + set (u0 := add_ta u (start_trips e a s * _)). destruct (fold_adds ls u0) as (u' & E' & A').
            * apply (trace_ok k s (start_trips e a s) ls S0 Ek). intros i j q H. apply HE with q. cbn [concat]. apply in_or_app. left; auto.
            * exists u'. split.
              -- intros fuel Hf. rewrite <- E'. apply (consume_evs X f z v suc dest sz SZ _ _ (le_n _) k); auto. rewrite filter_all; auto. intros d Hd. apply in_map_iff in Hd. destruct Hd as (y & <- & _). unfold nosink, ev_from. cbn [fst]. rewrite S0. reflexivity.
              -- assert (AU : adds u u0 (start_trips e a s * access_time X vp (width_at X (od_o e)) a s) 0 0 0).
                 { unfold adds, u0, add_ta, access_time, width_of, width_at. cbn -[Qmult Qplus Qdiv]. split; [reflexivity|]. split; [|split]; ring. }
                 eapply adds_eq; [eapply adds_trans; [exact AU|exact A']| | | |]; ring.
          + intro C. apply D0. setoid_replace (m_d (sn_mode (stop_at (xg_stops X) s))) with (4 * vp * m_d (sn_mode (stop_at (xg_stops X) s)) / (4 * vp)) by (field; auto). rewrite C. field. auto. }
      destruct ONE as (N1 & R1). exists (Nat.max N1 N2). intro u. destruct (R1 u) as (u1 & E1 & B1). destruct (R2 u1) as (u2 & E2 & B2).
      exists u2. split; [intros fuel Hf; cbn [foldM]; rewrite E1 by lia; cbn [bind]; apply E2; lia|]. cbn [concat]. eapply adds_eq; [eapply adds_trans; [exact B1|exact B2]| | | |]; rewrite ?Qsumf_cons, ?Qsumf_app; try ring; reflexivity. }
    exact (GEN _ TR (fun s H => H)).
  Qed.
  (** from events to edges *)
  Lemma wev_edges W l : (forall i j q, In (i, j, q) l -> exists x, In x (xg_edges X) /\ x_i x = i /\ x_j x = j) ->
    Qsumf (wev W) l == Qsumf (fun x => Qsumf (on_edge (x_i x) (x_j x)) l * W x) (xg_edges X).
  Proof.
    intro HE. set (w := fun i j => match find (fun y => enode_eqb (x_i y) i && enode_eqb (x_j y) j) (xg_edges X) with Some x => W x | None => 0 end).
    rewrite (Qsumf_ext (fun x => Qsumf (on_edge (x_i x) (x_j x)) l * W x) (fun x => w (x_i x) (x_j x) * Qsumf (on_edge (x_i x) (x_j x)) l)).
    - rewrite (edge_sums X HG w l HE). apply Qsumf_ext. intros d _. unfold wev, w. destruct (find _ (xg_edges X)); ring.
    - intros x Hx. unfold w. rewrite (find_edge x Hx). ring.
  Qed.
End OneOd.

Section AllOd.
  Context (G : geo) (g : graph) (rs : list route) (TP : Q) (fr : option (list (string * Q))) (X : xgraph) (P : qpass) (M : dict2) (fuel0 : nat) (es : list od_entry) (f : fdict) (vp : Q) (z v : tab).
  Hypothesis FI : flow_input G g rs TP fr X P M fuel0 es f.
  Hypothesis VP : ~ vp == 0.
  Notation HG := (fi_graph _ _ _ _ _ _ _ _ _ _ _ FI).
  Lemma line_in k : In (ER k) (xnodes X) -> In (line_of X k) rs.
  Proof.
    intro H. destruct (C30_nodes_exact _ _ _ _ _ _ (fi_input _ _ _ _ _ _ _ _ _ _ _ FI) (fi_built _ _ _ _ _ _ _ _ _ _ _ FI)) as [_ N]. apply N in H. destruct H as (rn & H).
    destruct (node_visit G g rs TP fr X (fi_input _ _ _ _ _ _ _ _ _ _ _ FI) (fi_built _ _ _ _ _ _ _ _ _ _ _ FI) k rn H) as (z0 & _ & _ & Hr & _). unfold line_of, rnode_at. rewrite (nth_error_nth _ _ _ H). auto.
  Qed.
  Lemma stop_mode_in s : In (ES s) (xnodes X) -> exists r, In r rs /\ sn_mode (stop_at (xg_stops X) s) = r_mode r.
  Proof.
    intro H. destruct (C30_nodes_exact _ _ _ _ _ _ (fi_input _ _ _ _ _ _ _ _ _ _ _ FI) (fi_built _ _ _ _ _ _ _ _ _ _ _ FI)) as [_ N]. apply N in H. destruct H as (k & rn & H & Hs).
    destruct (node_visit G g rs TP fr X (fi_input _ _ _ _ _ _ _ _ _ _ _ FI) (fi_built _ _ _ _ _ _ _ _ _ _ _ FI) k rn H) as (z0 & _ & _ & Hr & s' & Es & Em). exists (rn_route rn). split; auto. congruence.
  Qed.
  Lemma dr0 k : In (ER k) (xnodes X) -> ~ m_d (r_mode (line_of X k)) == 0.
  Proof. intro H. apply (xi_d _ _ (fi_input _ _ _ _ _ _ _ _ _ _ _ FI)). apply line_in; auto. Qed.
  Lemma ds0 s : In (ES s) (xnodes X) -> ~ m_d (sn_mode (stop_at (xg_stops X) s)) == 0.
  Proof. intro H. destruct (stop_mode_in s H) as (r & Hr & ->). apply (xi_d _ _ (fi_input _ _ _ _ _ _ _ _ _ _ _ FI)). auto. Qed.
  Lemma entry_ok e : In e es -> exists c cd, od_ok X P M e c cd.
  Proof. intro H. destruct FI. apply (entries_ok fuel0 X P M es); auto. Qed.

  Lemma all_adds : forall eas ls, (forall ea, In ea eas -> In (fst ea) es) -> Forall2 (fun ea l => od_flow X f (fst ea) (snd ea) l) eas ls ->
    exists N, forall u, exists u', (forall fuel, (N <= fuel)%nat -> foldM (consume_od fuel X vp f z v) eas u = Ok u') /\
      adds u u' (starting X vp eas + Qsumf (wlk X) (concat ls))
        (Qsumf (fun '(ea, l) => Qsumf (wev X (wait_time X f (fst ea))) l) (combine eas ls))
        (Qsumf (fun '(ea, l) => Qsumf (wev X (on_board_read X z v (fst ea))) l) (combine eas ls))
        (Qsumf (fun '(ea, l) => Qsumf (wev X (transfer X (fst ea))) l) (combine eas ls)).
  Proof.
    intros eas ls HI F. induction F as [|[e a] l eas ls OF F IH]; [exists 0%nat; intro u; exists u; split; auto; apply adds_refl; reflexivity|].
    destruct IH as (N2 & R2); [intros; apply HI; right; auto|]. destruct (entry_ok e (HI (e, a) (or_introl eq_refl))) as (c & cd & O).
    destruct (od_adds X P M f z v vp e a c cd HG (fi_shape _ _ _ _ _ _ _ _ _ _ _ FI) O dr0 ds0 VP l OF) as (N1 & R1).
    exists (Nat.max N1 N2). intro u. destruct (R1 u) as (u1 & E1 & B1). destruct (R2 u1) as (u2 & E2 & B2). exists u2.
    split; [intros fuel Hf; cbn [foldM]; rewrite E1 by lia; cbn [bind]; apply E2; lia|].
    cbn [concat combine]. eapply adds_eq; [eapply adds_trans; [exact B1|exact B2]| | | |]; unfold starting; rewrite ?Qsumf_cons, ?Qsumf_app; cbn [fst]; try ring; reflexivity.
  Qed.
  Lemma consumption_events W : forall eas ls, (forall ea, In ea eas -> In (fst ea) es) -> Forall2 (fun ea l => od_flow X f (fst ea) (snd ea) l) eas ls ->
    forall Fs, Forall2 (fun ea F => strategy_flow X f (fst ea) (snd ea) F) eas Fs ->
    Qsumf (fun '(ea, l) => Qsumf (wev X (W (fst ea))) l) (combine eas ls) == consumption X W eas Fs.
  Proof.
    intros eas ls HI F. induction F as [|[e a] l eas ls OF F IH]; intros Fs FS; inversion FS; subst; [reflexivity|]. unfold consumption. cbn [combine]. rewrite !Qsumf_cons. rewrite (IH ltac:(intros; apply HI; right; auto) l'); auto.
    assert (E : forall A B C : Q, A == B -> A + C == B + C) by (intros A B C ->; reflexivity). apply E. cbn [fst snd] in *.
    rewrite (wev_edges X HG); [|intros i j q H; destruct (of_edge _ _ _ _ _ OF i j q H) as (x & A & B & C & _); eauto].
    apply Qsumf_ext. intros x Hx. destruct (entry_ok e (HI (e, a) (or_introl eq_refl))) as (c & cd & O).
    rewrite (flow_unique X HG P M f e a c cd y (fun x => Qsumf (on_edge (x_i x) (x_j x)) l) O H1 (flow_of_events X HG f e a l OF) x Hx). reflexivity.
  Qed.
  Lemma consumption_ext W W' : forall eas Fs, (forall ea, In ea eas -> In (fst ea) es) -> Forall2 (fun ea F => strategy_flow X f (fst ea) (snd ea) F) eas Fs ->
    (forall e x, In e es -> In x (xg_edges X) -> In x (hr_suc (od_res e) (x_i x)) -> W e x == W' e x) -> consumption X W eas Fs == consumption X W' eas Fs.
  Proof.
    intros eas Fs HI F HW. induction F as [|[e a] F0 eas Fs SF F IH]; [reflexivity|]. unfold consumption. cbn [combine]. rewrite !Qsumf_cons.
    unfold consumption in IH. rewrite IH by (intros; apply HI; right; auto). assert (E : forall A B C : Q, A == B -> A + C == B + C) by (intros A B C ->; reflexivity). apply E. cbn [fst snd] in *.
    apply Qsumf_ext. intros x Hx. destruct (SF x Hx) as [_ Z].
    destruct (existsb (fun y => enode_eqb (x_j y) (x_j x)) (hr_suc (od_res e) (x_i x))) eqn:Ex.
    - apply existsb_exists in Ex. destruct Ex as (y & Hy & Ey). apply enode_eqb_eq in Ey. destruct (entry_ok e (HI (e, a) (or_introl eq_refl))) as (c & cd & O). destruct (hf_suc _ _ _ _ _ (oo_facts _ _ _ _ _ _ O) _ _ Hy) as (A & B & _).
      assert (y = x) by (apply (NoDup_map_eq (fun e => (x_i e, x_j e)) (xg_edges X) y x); auto; [apply (hg_pairs X HG)|congruence]). subst y. rewrite (HW e x); auto; [reflexivity|]. apply (HI (e, a)). left; auto.
    - rewrite Z; [ring|]. left. intro C. assert (T : existsb (fun y => enode_eqb (x_j y) (x_j x)) (hr_suc (od_res e) (x_i x)) = true) by (apply existsb_exists; exists x; split; auto; apply enode_eqb_eq; auto). congruence.
  Qed.
  Lemma board_read e x : (forall r, In r rs -> both_ways r) -> In e es -> In x (xg_edges X) -> In x (hr_suc (od_res e) (x_i x)) -> on_board_read X z v e x == on_board X z v e x.
  Proof.
    intros BW He Hx Hs. pose proof (fi_shape _ _ _ _ _ _ _ _ _ _ _ FI x Hx) as Sh. unfold edge_shape in Sh. unfold on_board_read, on_board.
    pose proof (fi_input _ _ _ _ _ _ _ _ _ _ _ FI) as I. pose proof (fi_built _ _ _ _ _ _ _ _ _ _ _ FI) as B. destruct (hg_ends X HG x Hx) as [N1 N2].
    assert (RN : forall k, In (ER k) (xnodes X) -> exists rn, nth_error (xg_rnodes X) k = Some rn /\ rnode_at (xg_rnodes X) k = rn).
    { intros k Hk. destruct (C30_nodes_exact _ _ _ _ _ _ I B) as [_ N]. apply N in Hk. destruct Hk as (rn & Hk). exists rn. split; auto. unfold rnode_at. apply nth_error_nth. auto. }
    destruct (x_i x) as [ci|si|a] eqn:Ei, (x_j x) as [cj|sj|b] eqn:Ej; try reflexivity.
    - destruct (RN a N1) as (rn & Hn & En). pose proof (line_in a N1) as Li. unfold line_of in *. rewrite En in *. destruct (rn_prev rn) as [p|] eqn:Ep.
      + unfold rid, rdir. rewrite En. rewrite (dir_read G g rs TP fr X I B a rn p Hn Ep (BW _ Li)). reflexivity.
      + reflexivity.
    - destruct (x_f x); [contradiction|]. destruct Sh as (_ & D & Pv & _). destruct (RN b N2) as (rn & Hn & En). pose proof (line_in b N2) as Li. unfold line_of in *. rewrite En in *.
      pose proof (facts_of _ _ _ _ _ _ I B) as F. pose proof Hn as Hn'. rewrite (ef_rn _ _ _ _ _ _ F) in Hn'. destruct (rns_prev g rs I b rn a Hn' Pv) as (rp & Hrp & Er & Ed). rewrite <- (ef_rn _ _ _ _ _ _ F) in Hrp.
      assert (Ea : rnode_at (xg_rnodes X) a = rp) by (unfold rnode_at; apply nth_error_nth; auto). unfold rid, rdir. rewrite Ea, Er, Ed. rewrite (dir_read G g rs TP fr X I B b rn a Hn Pv (BW _ Li)). reflexivity.
  Qed.
End AllOd.

(** ** C48 *)
(** The loop ends without an exception, whatever the tables z and v; the waiting time and the transfers are the
    flow of every OD pair through its strategy times what each traveller consumes on each edge.  So is the
    time on board when every line goes and comes back by the same stops, and the access time is that of the
    start of the trips when nobody walks between two stops of a node. *)
Theorem C48_resources : forall G g rs TP fr X P M fuel0 es f vp z v asg, flow_input G g rs TP fr X P M fuel0 es f -> ~ vp == 0 ->
  exists N u, (forall fuel, (N <= fuel)%nat -> resources_consumer fuel X vp f es asg z v = Ok u) /\
    (exists Fs, Forall2 (fun ea F => strategy_flow X f (fst ea) (snd ea) F) (combine es asg) Fs) /\
    forall Fs, Forall2 (fun ea F => strategy_flow X f (fst ea) (snd ea) F) (combine es asg) Fs ->
      u_te u == consumption X (wait_time X f) (combine es asg) Fs /\
      u_t u == consumption X (transfer X) (combine es asg) Fs /\
      ((forall r, In r rs -> both_ways r) -> u_tv u == consumption X (on_board X z v) (combine es asg) Fs) /\
      ((forall e, In e es -> never_walks X e) -> u_ta u == starting X vp (combine es asg)).
Proof.
  intros G g rs TP fr X P M fuel0 es f vp z v asg FI VP. pose proof (fi_shape _ _ _ _ _ _ _ _ _ _ _ FI) as SH. pose proof (fi_graph _ _ _ _ _ _ _ _ _ _ _ FI) as HG.
  assert (HI : forall ea, In ea (combine es asg) -> In (fst ea) es) by (intros [e a] H; apply in_combine_l in H; auto).
  assert (EV : exists ls, Forall2 (fun ea l => od_flow X f (fst ea) (snd ea) l) (combine es asg) ls).
  { destruct FI. destruct (gab_events X P M f fuel0 es asg fi_graph fi_weights fi_fuel fi_hyper SH fi_freq fi_runs) as (N & ls & F & R). eauto. }
  destruct EV as (ls & F). destruct (all_adds G g rs TP fr X P M fuel0 es f vp z v FI VP (combine es asg) ls HI F) as (N & R). destruct (R (mkU 0 0 0 0)) as (u & E & A1 & A2 & A3 & A4). cbn [u_ta u_te u_tv u_t] in *.
  exists N, u. split; [exact E|]. split.
  { exists (map (fun l x => Qsumf (on_edge (x_i x) (x_j x)) l) ls). clear -F HG. induction F as [|ea l eas ls' O F IH]; cbn [map]; constructor; auto. apply flow_of_events; auto. }
  intros Fs FS. split; [|split; [|split]].
  - rewrite A2, Qplus_0_l. apply (consumption_events G g rs TP fr X P M fuel0 es f FI (wait_time X f)); auto.
  - rewrite A4, Qplus_0_l. apply (consumption_events G g rs TP fr X P M fuel0 es f FI (transfer X)); auto.
  - intro BW. rewrite A3, Qplus_0_l. rewrite (consumption_events G g rs TP fr X P M fuel0 es f FI (on_board_read X z v) _ _ HI F Fs FS).
    apply (consumption_ext G g rs TP fr X P M fuel0 es f FI); auto. intros e x He Hx Hs. apply (board_read G g rs TP fr X P M fuel0 es f z v FI); auto.
  - intro NW. rewrite A1. assert (W0 : Qsumf (wlk X) (concat ls) == 0); [|rewrite W0; ring]. apply Qsumf_zero. intros d Hd. apply in_concat in Hd. destruct Hd as (l & Hl & Hd).
    clear A1 A2 A3 A4 E R FS. induction F as [|ea l' eas ls' OF F IH]; [contradiction|]. destruct Hl as [<-|Hl]; [|apply IH; auto; intros; apply HI; right; auto].
    pose proof (HI ea (or_introl eq_refl)) as He. destruct (of_trace _ _ _ _ _ OF) as (lss & -> & TR). destruct ea as [e a]. cbn [fst snd] in *.
    destruct d as [[i j] q]. destruct (of_edge _ _ _ _ _ OF i j q Hd) as (x & A & Ei & Ej & Hs & S0). unfold wlk, ev_from, ev_to. cbn [fst snd]. pose proof (SH x A) as Sh. unfold edge_shape in Sh. rewrite Ei, Ej in Sh.
    destruct i as [ci|si|ki], j as [cj|sj|kj]; try reflexivity.
    + (* from a city node: somebody walked into it *)
      exfalso. apply in_concat in Hd. destruct Hd as (ls0 & Hls & Hd). assert (TS : exists s, stop_trace X f e a s ls0 /\ In s (map fst (od_paths e))).
      { clear -TR Hls. induction TR as [|s l keys lss ST TR IH]; [contradiction|]. destruct Hls as [<-|H]; [exists s; split; auto; left; auto|]. destruct (IH H) as (s' & A & B). exists s'. split; auto. right; auto. }
      destruct TS as (s & ST & _). unfold stop_trace in ST. destruct (Qeqb (start_trips e a s) 0); [subst; contradiction|]. destruct ST as (k & Ek).
      destruct (evs_parent _ _ _ _ _ _ _ Ek _ _ _ Hd) as [(q' & Pin)|(i' & q' & Pin)]; [apply in_map_iff in Pin; destruct Pin as (y & Ey & _); discriminate Ey|].
      assert (Pin' : In (i', EC ci, q') (concat lss)) by (apply in_concat; eauto). destruct (of_edge _ _ _ _ _ OF _ _ _ Pin') as (x' & A' & Ei' & Ej' & Hs' & S0').
      pose proof (SH x' A') as Sh'. unfold edge_shape in Sh'. rewrite Ei', Ej' in Sh'. destruct i' as [| s'|]; try (destruct (x_f x'); contradiction). rewrite (NW e He s' x' ci Hs' Ej') in S0'. discriminate.
    + exfalso. rewrite (NW e He si x cj Hs Ej) in S0. discriminate.
Qed.
Print Assumptions C48_resources.

(** With one mode, nobody walks between two stops of a node. *)
Theorem C48_one_mode : forall G g rs TP fr X P M fuel0 es f, flow_input G g rs TP fr X P M fuel0 es f ->
  (forall r r', In r rs -> In r' rs -> r_mode r = r_mode r') -> forall e, In e es -> never_walks X e.
Proof.
  intros G g rs TP fr X P M fuel0 es f FI OM e He s x c Hx Ej. destruct (entry_ok G g rs TP fr X P M fuel0 es f FI e He) as (co & cd & O). pose proof (fi_shape _ _ _ _ _ _ _ _ _ _ _ FI) as SH. pose proof (fi_graph _ _ _ _ _ _ _ _ _ _ _ FI) as HG.
  destruct (suc_shape X P M e co cd HG SH O _ _ Hx) as (Hxe & Ei & Sh & Nj & Lj). unfold edge_shape in Sh. rewrite Ei, Ej in Sh. destruct (x_f x); [contradiction|].
  destruct (stop_of_dest X (od_d e) (ES s)) eqn:S0; auto. exfalso. rewrite Ej in *. destruct (hr_lab (od_res e) (EC c)) as [q|] eqn:El; [|congruence].
  assert (ND : od_d e <> Some (EC c)). { intro C. unfold stop_of_dest in S0. rewrite C, Sh in S0. simpl in S0. rewrite Nat.eqb_refl in S0. discriminate. }
  assert (Y : exists y, In y (hr_suc (od_res e) (EC c))) by (destruct (hf_step _ _ _ _ _ (oo_facts _ _ _ _ _ _ O) (EC c) q Nj ND El) as [(y & -> & _)|(NE & _)]; [exists y; left; auto|destruct (hr_suc (od_res e) (EC c)) as [|y l]; [congruence|exists y; left; auto]]).
  destruct Y as (y & Hy). destruct (suc_shape X P M e co cd HG SH O _ _ Hy) as (Hye & Ei' & Sh' & Nj' & _). unfold edge_shape in Sh'. rewrite Ei' in Sh'. destruct (x_f y); [contradiction|]. destruct (x_j y) as [|s'|] eqn:Ej'; try contradiction.
  assert (Es : s' = s).
  { destruct (C30_one_stop_per_node_and_mode _ _ _ _ _ _ (fi_input _ _ _ _ _ _ _ _ _ _ _ FI) (fi_built _ _ _ _ _ _ _ _ _ _ _ FI)) as (NDs & _).
    destruct (hg_ends X HG x Hxe) as [N1 _]. rewrite Ei in N1. destruct (hg_stops X HG s N1) as (st & Hst). destruct (hg_stops X HG s' Nj') as (st' & Hst').
    destruct (stop_mode_in G g rs TP fr X P M fuel0 es f FI s N1) as (r & Hr & Er). destruct (stop_mode_in G g rs TP fr X P M fuel0 es f FI s' Nj') as (r' & Hr' & Er').
    unfold stop_at in *. rewrite (nth_error_nth _ _ _ Hst) in *. rewrite (nth_error_nth _ _ _ Hst') in *.
    assert (L : (s' < length (map (fun s => (sn_city s, m_ref (sn_mode s))) (xg_stops X)))%nat) by (rewrite map_length; apply nth_error_Some; congruence).
    apply (proj1 (NoDup_nth_error _) NDs s' s L). rewrite !nth_error_map, Hst, Hst'. cbn [option_map]. rewrite Sh, Sh', Er, Er', (OM r r' Hr Hr'). reflexivity. }
  subst s'. destruct (oo_rank _ _ _ _ _ _ O) as (rk & RK). pose proof (RK _ _ Hx). pose proof (RK _ _ Hy). rewrite Ej in *. rewrite Ej' in *. lia.
Qed.
Print Assumptions C48_one_mode.

(** more fuel does not change an answer *)
Lemma consume_mono X f z v suc dest : forall k paths u r, consume k X f z v suc dest paths u = Ok r -> forall k', (k <= k')%nat -> consume k' X f z v suc dest paths u = Ok r.
Proof.
  induction k as [|k IH]; intros [|[[i j] pax] rest] u r H k' Hk; cbn [consume] in H; try discriminate; try (destruct k'; exact H).
  destruct k' as [|k']; [lia|]. cbn [consume]. destruct (stop_of_dest X dest i); [apply (IH _ _ _ H); lia|]. destruct (dis_pax X f suc i j pax) as [q|]; cbn [bind] in *; [|discriminate].
  destruct (report X f z v suc dest i j q u) as [u'|]; cbn [bind] in *; [|discriminate]. apply (IH _ _ _ H). lia.
Qed.
Lemma rc_mono k k' X vp f es asg z v u : (k <= k')%nat -> resources_consumer k X vp f es asg z v = Ok u -> resources_consumer k' X vp f es asg z v = Ok u.
Proof.
  intros Hk. unfold resources_consumer. apply foldM_mono. intros b [e a] r' E. unfold consume_od in *. cbn [fst snd] in *. revert E. apply foldM_mono. intros b' s r'' E. unfold consume_stop in *.
  destruct (Qeqb (od_v e * dget0 Nat.eqb 0 a s / 100) 0); auto. apply bind_ok in E. destruct E as (w & Ew & E). rewrite Ew. cbn [bind]. apply (consume_mono _ _ _ _ _ _ _ _ _ _ E k' Hk).
Qed.

(** what the loop computes, with the directions as it reads them *)
Lemma rc_core G g rs TP fr X P M fuel0 es f vp z v asg fuel u : flow_input G g rs TP fr X P M fuel0 es f -> ~ vp == 0 -> resources_consumer fuel X vp f es asg z v = Ok u ->
  exists ls, Forall2 (fun ea l => od_flow X f (fst ea) (snd ea) l) (combine es asg) ls /\
    adds (mkU 0 0 0 0) u (starting X vp (combine es asg) + Qsumf (wlk X) (concat ls))
        (Qsumf (fun '(ea, l) => Qsumf (wev X (wait_time X f (fst ea))) l) (combine (combine es asg) ls))
        (Qsumf (fun '(ea, l) => Qsumf (wev X (on_board_read X z v (fst ea))) l) (combine (combine es asg) ls))
        (Qsumf (fun '(ea, l) => Qsumf (wev X (transfer X (fst ea))) l) (combine (combine es asg) ls)).
Proof.
  intros FI VP H. pose proof (fi_shape _ _ _ _ _ _ _ _ _ _ _ FI) as SH.
  assert (HI : forall ea, In ea (combine es asg) -> In (fst ea) es) by (intros [e a] H'; apply in_combine_l in H'; auto).
  assert (EV : exists ls, Forall2 (fun ea l => od_flow X f (fst ea) (snd ea) l) (combine es asg) ls).
  { destruct FI. destruct (gab_events X P M f fuel0 es asg fi_graph fi_weights fi_fuel fi_hyper SH fi_freq fi_runs) as (N & ls & F & R). eauto. }
  destruct EV as (ls & F). destruct (all_adds G g rs TP fr X P M fuel0 es f vp z v FI VP (combine es asg) ls HI F) as (N & R). destruct (R (mkU 0 0 0 0)) as (u' & E & A). exists ls. split; auto.
  assert (u' = u). { specialize (E (Nat.max N fuel) ltac:(lia)). apply (rc_mono fuel (Nat.max N fuel)) in H; [|lia]. unfold resources_consumer in H. congruence. } subst; auto.
Qed.

(** All four are non-negative. *)
Theorem C48_nonneg : forall G g rs TP fr X P M fuel0 es f vp z v asg fuel u, flow_input G g rs TP fr X P M fuel0 es f -> 0 < vp ->
  (forall r, In r rs -> 0 <= m_theta (r_mode r) /\ 0 <= m_d (r_mode r) /\ 0 <= m_t (r_mode r) /\ 0 <= m_tat (r_mode r)) ->
  (forall n, In n (g_nodes g) -> 0 <= nd_width n) ->
  (forall r d s, 0 <= tget z r d s /\ 0 <= tget v r d s) ->
  (forall e a s, In (e, a) (combine es asg) -> In s (map fst (od_paths e)) -> 0 <= od_v e /\ 0 <= dget0 Nat.eqb 0 a s) ->
  resources_consumer fuel X vp f es asg z v = Ok u -> 0 <= u_ta u /\ 0 <= u_te u /\ 0 <= u_tv u /\ 0 <= u_t u.
Proof.
  intros G g rs TP fr X P M fuel0 es f vp z v asg fuel u FI VP HM HW HT HA H. destruct (rc_core G g rs TP fr X P M fuel0 es f vp z v asg fuel u FI ltac:(lra) H) as (ls & F & A1 & A2 & A3 & A4). cbn [u_ta u_te u_tv u_t] in *.
  pose proof (fi_graph _ _ _ _ _ _ _ _ _ _ _ FI) as HG.
  assert (HI : forall ea, In ea (combine es asg) -> In (fst ea) es) by (intros [e a] H'; apply in_combine_l in H'; auto).
  assert (SM : forall s, In (ES s) (xnodes X) -> 0 <= m_theta (sn_mode (stop_at (xg_stops X) s)) /\ 0 < m_d (sn_mode (stop_at (xg_stops X) s)) /\ 0 <= m_tat (sn_mode (stop_at (xg_stops X) s))).
  { intros s Hs. destruct (stop_mode_in G g rs TP fr X P M fuel0 es f FI s Hs) as (r & Hr & ->). destruct (HM r Hr) as (B1 & B2 & B3 & B4). split; auto. split; auto. pose proof (xi_d _ _ (fi_input _ _ _ _ _ _ _ _ _ _ _ FI) r Hr). lra. }
  assert (SP : forall e a s, In (e, a) (combine es asg) -> In s (map fst (od_paths e)) -> 0 <= start_trips e a s).
  { intros e a s B1 B2. destruct (HA e a s B1 B2). unfold start_trips. apply Qle_shift_div_l; [lra|]. rewrite Qmult_0_l. apply Qmult_le_0_compat; auto. }
  assert (POS : forall ea l, In (ea, l) (combine (combine es asg) ls) -> forall d, In d l -> 0 <= snd d /\ exists x, In x (xg_edges X) /\ x_i x = ev_from d /\ x_j x = ev_to d /\ In x (hr_suc (od_res (fst ea)) (x_i x))).
  { clear A1 A2 A3 A4 H. assert (SP' : forall e a, In (e, a) (combine es asg) -> forall s, In s (map fst (od_paths e)) -> 0 <= start_trips e a s) by eauto. clear HA SP HI.
    revert SP'. induction F as [|[e a] l eas ls' OF F IH]; intros SP' ea l0; cbn [combine]; [contradiction|]. intros [E|H] d Hd.
    - inversion E; subst. split; [apply (of_pos _ _ _ _ _ OF (SP' e a (or_introl eq_refl)) d Hd)|]. destruct d as [[i j] q]. destruct (of_edge _ _ _ _ _ OF i j q Hd) as (x & B1 & B2 & B3 & B4 & _). exists x. cbn [fst]. rewrite B2. auto.
    - apply (IH (fun e a H => SP' e a (or_intror H)) ea l0 H d Hd). }
  assert (GEN : forall W, (forall e x, In e es -> In x (xg_edges X) -> In x (hr_suc (od_res e) (x_i x)) -> 0 <= W e x) -> 0 <= Qsumf (fun '(ea, l) => Qsumf (wev X (W (fst ea))) l) (combine (combine es asg) ls)).
  { intros W HWx. apply Qsumf_nonneg. intros [ea l] Hin. apply Qsumf_nonneg. intros d Hd. destruct (POS ea l Hin d Hd) as (P0 & x & B1 & B2 & B3 & B4). unfold wev. rewrite <- B2, <- B3, (find_edge X HG x B1).
    apply Qmult_le_0_compat; auto. apply HWx; auto. apply HI. apply in_combine_l in Hin. auto. }
  assert (LF : forall n e, 0 <= lines_freq X f (hr_suc (od_res e) n)) by (intros n e; apply Qsumf_nonneg; intros x _; destruct (x_j x); try lra; apply (fi_freq _ _ _ _ _ _ _ _ _ _ _ FI)).
  assert (DN : forall q1 q2, 0 <= q1 -> 0 <= q2 -> 0 <= q1 / q2).
  { intros q1 q2 B1 B2. unfold Qdiv. apply Qmult_le_0_compat; auto. apply Qinv_le_0_compat. auto. }
  rewrite A1, A2, A3, A4, !Qplus_0_l. split; [|split; [|split]].
  - assert (0 <= starting X vp (combine es asg)).
    { apply Qsumf_nonneg. intros [e a] Hin. apply Qsumf_nonneg. intros s Hs. apply Qmult_le_0_compat; [apply SP; auto|]. destruct (entry_ok G g rs TP fr X P M fuel0 es f FI e (HI (e, a) Hin)) as (c & cd & O).
      destruct (HA e a s Hin Hs) as [_ HAs]. apply (oo_keys _ _ _ _ _ _ O) in Hs. destruct Hs as (Ns & _). destruct (SM s Ns) as (B1 & B2 & B3). unfold access_time.
      assert (0 <= m_tat (sn_mode (stop_at (xg_stops X) s)) / 60) by (apply DN; auto; lra).
      assert (W0 : 0 <= width_at X (od_o e)). { unfold width_at. rewrite (oo_origin _ _ _ _ _ _ O). pose proof (facts_of _ _ _ _ _ _ (fi_input _ _ _ _ _ _ _ _ _ _ _ FI) (fi_built _ _ _ _ _ _ _ _ _ _ _ FI)) as EF. rewrite (ef_graph _ _ _ _ _ _ EF).
        unfold gnode. destruct (nth_in_or_default c (g_nodes g) dflt_node) as [B|B]; [apply HW; auto|rewrite B; vm_compute; discriminate]. }
      assert (0 <= dget0 Nat.eqb 0 a s / 100 * width_at X (od_o e) / (4 * vp * m_d (sn_mode (stop_at (xg_stops X) s)))).
      { apply DN; [apply Qmult_le_0_compat; auto; apply DN; auto; lra|]. apply Qmult_le_0_compat; lra. }
      lra. }
    assert (0 <= Qsumf (wlk X) (concat ls)); [|lra]. apply Qsumf_nonneg. intros d Hd. apply in_concat in Hd. destruct Hd as (l & Hl & Hd).
    assert (Hc : exists ea, In (ea, l) (combine (combine es asg) ls)). { clear -F Hl. induction F as [|ea l' eas ls' OF F IH]; [contradiction|]. destruct Hl as [->|Hl]; [exists ea; left; auto|]. destruct (IH Hl) as (ea' & H). exists ea'. right; auto. }
    destruct Hc as (ea & Hc). destruct (POS ea l Hc d Hd) as (P0 & x & B1 & B2 & B3 & _). destruct (hg_ends X HG x B1) as [N1 N2]. rewrite B2 in N1. rewrite B3 in N2. unfold wlk, walk_ta.
    destruct (ev_from d) as [ci|si|ki], (ev_to d) as [cj|sj|kj]; try lra; [destruct (SM sj N2) as (_ & _ & B)|destruct (SM si N1) as (_ & _ & B)]; apply DN; auto; lra.
  - apply GEN. intros e x He Hx Hs. unfold wait_time. destruct (hg_ends X HG x Hx) as [N1 N2]. destruct (x_i x) as [|s|]; try lra. destruct (x_j x) as [| |k]; try lra. destruct (SM s N1) as (B1 & _). destruct (HM _ (line_in G g rs TP fr X P M fuel0 es f FI k N2)) as (_ & B2 & _).
    apply DN; auto. apply Qmult_le_0_compat; auto.
  - apply GEN. intros e x He Hx Hs. unfold on_board_read. destruct (hg_ends X HG x Hx) as [N1 N2]. destruct (x_i x) as [| |k]; try lra. destruct (HM _ (line_in G g rs TP fr X P M fuel0 es f FI k N1)) as (_ & _ & B3 & _).
    assert (T0 : 0 <= m_t (r_mode (line_of X k)) / 3600) by (apply DN; auto; lra). destruct (x_j x) as [|s|b]; try lra.
    + apply Qmult_le_0_compat; auto. apply Qmult_le_0_compat; [lra|apply HT].
    + pose proof (hg_time X HG x Hx) as XT. destruct (rides_on e (ER b)); [|lra].
      assert (0 <= m_t (r_mode (line_of X k)) / 3600 * stop_dwell (m_bya (r_mode (line_of X k))) z v (rid X k) (guess_dir (line_of X k) (rn_node_id X k) (rn_node_id X b)) (rn_stop_at (xg_rnodes X) b)); [|lra].
      apply Qmult_le_0_compat; auto. apply stop_dwell_nonneg; intros; apply HT.
  - apply GEN. intros e x He Hx Hs. unfold transfer. destruct (x_i x); try lra. destruct (x_j x); try lra. destruct (stop_of_dest X (od_d e) _); lra.
Qed.
Print Assumptions C48_nonneg.

(** the same strategies with all the trips multiplied by q *)
Definition scaled (q : Q) (e e' : od_entry) : Prop :=
  od_o e' = od_o e /\ od_d e' = od_d e /\ od_paths e' = od_paths e /\ od_res e' = od_res e /\ od_v e' == q * od_v e.
Lemma flow_scaled X f q e e' a F : scaled q e e' -> strategy_flow X f e a F -> strategy_flow X f e' a (fun x => q * F x).
Proof.
  intros (E1 & E2 & E3 & E4 & E5) SF x Hx. destruct (SF x Hx) as [A B]. rewrite E2, E4. split.
  - intros H1 H2. rewrite (A H1 H2). assert (S : starts_at e' a (x_i x) == q * starts_at e a (x_i x)).
    { unfold starts_at. rewrite E3. destruct (x_i x); try ring. destruct (existsb _ _); [|ring]. unfold start_trips. rewrite E5. field. }
    assert (I : inflow X (fun x => q * F x) (x_i x) == q * inflow X F (x_i x)). { unfold inflow. rewrite <- Qsumf_scal. apply Qsumf_ext. intros y _. destruct (enode_eqb (x_j y) (x_i x)); ring. }
    rewrite S, I. ring.
  - intro H. rewrite (B H). ring.
Qed.
(** Waiting time, transfers, and time on board at given boardings and alightings scale with the demand. *)
Theorem C48_scales : forall G g rs TP fr X P M M' fuel0 fuel0' es es' q f vp z v asg fuel fuel' u u',
  flow_input G g rs TP fr X P M fuel0 es f -> flow_input G g rs TP fr X P M' fuel0' es' f -> ~ vp == 0 -> Forall2 (scaled q) es es' ->
  resources_consumer fuel X vp f es asg z v = Ok u -> resources_consumer fuel' X vp f es' asg z v = Ok u' ->
  u_te u' == q * u_te u /\ u_t u' == q * u_t u /\ u_tv u' == q * u_tv u /\
  ((forall e, In e es -> never_walks X e) -> u_ta u' == q * u_ta u).
Proof.
  intros G g rs TP fr X P M M' fuel0 fuel0' es es' q f vp z v asg fuel fuel' u u' FI FI' VP SC H H'.
  assert (HI : forall ea, In ea (combine es asg) -> In (fst ea) es) by (intros [e a] K; apply in_combine_l in K; auto). assert (HI' : forall ea, In ea (combine es' asg) -> In (fst ea) es') by (intros [e a] K; apply in_combine_l in K; auto).
  pose proof (fi_graph _ _ _ _ _ _ _ _ _ _ _ FI) as HG. pose proof (C48_resources G g rs TP fr X P M fuel0 es f vp z v asg FI VP) as (N1 & u1 & R1 & _ & C1). pose proof (C48_resources G g rs TP fr X P M' fuel0' es' f vp z v asg FI' VP) as (N2 & u2 & R2 & _ & C2).
  assert (u1 = u) by (specialize (R1 (Nat.max N1 fuel) ltac:(lia)); apply (rc_mono fuel (Nat.max N1 fuel)) in H; [congruence|lia]).
  assert (u2 = u') by (specialize (R2 (Nat.max N2 fuel') ltac:(lia)); apply (rc_mono fuel' (Nat.max N2 fuel')) in H'; [congruence|lia]). subst u1 u2.
  destruct (rc_core G g rs TP fr X P M fuel0 es f vp z v asg fuel u FI VP H) as (ls & F & _ & _ & A3 & _). destruct (rc_core G g rs TP fr X P M' fuel0' es' f vp z v asg fuel' u' FI' VP H') as (ls' & F' & _ & _ & A3' & _). cbn [u_tv] in *.
  set (Fs := map (fun l x => Qsumf (on_edge (x_i x) (x_j x)) l) ls). assert (FS : Forall2 (fun ea F => strategy_flow X f (fst ea) (snd ea) F) (combine es asg) Fs).
  { unfold Fs. clear -F HG. induction F as [|ea l eas ls' O F IH]; cbn [map]; constructor; auto. apply flow_of_events; auto. }
  clearbody Fs. set (Fs' := map (fun F x => q * F x) Fs). assert (FS' : Forall2 (fun ea F => strategy_flow X f (fst ea) (snd ea) F) (combine es' asg) Fs').
  { unfold Fs'. clear -FS SC. revert asg Fs FS. induction SC as [|e e' es es' S SC IH]; intros asg Fs FS; [inversion FS; constructor|]. destruct asg as [|a asg]; [inversion FS; constructor|]. cbn [combine] in *. inversion FS; subst. cbn [map]. constructor; [|apply IH; auto].
    cbn [fst snd] in *. eapply flow_scaled; eauto. }
  assert (CS : forall W, (forall e e' x, scaled q e e' -> W e' x == W e x) -> consumption X W (combine es' asg) Fs' == q * consumption X W (combine es asg) Fs).
  { intros W HW. unfold Fs', consumption. clear -SC HW FS. revert asg Fs FS. induction SC as [|e e' es es' S SC IH]; intros asg Fs FS; [unfold Qsumf; cbn; ring|]. destruct asg as [|a asg]; [unfold Qsumf; cbn; ring|]. cbn [combine] in *. inversion FS; subst. cbn [map combine]. rewrite !Qsumf_cons, IH by auto. cbn [fst].
    assert (E : Qsumf (fun x => q * y x * W e' x) (xg_edges X) == q * Qsumf (fun x => y x * W e x) (xg_edges X)) by (rewrite <- Qsumf_scal; apply Qsumf_ext; intros x _; rewrite (HW e e' x S); ring). rewrite E. ring. }
  destruct (C1 Fs FS) as (B1 & B2 & _ & B4). destruct (C2 Fs' FS') as (B1' & B2' & _ & B4'). split; [|split; [|split]].
  - rewrite B1, B1'. apply CS. intros e e' x (E1 & E2 & E3 & E4 & E5). unfold wait_time. rewrite E4. reflexivity.
  - rewrite B2, B2'. apply CS. intros e e' x (E1 & E2 & E3 & E4 & E5). unfold transfer. rewrite E2. reflexivity.
  - rewrite A3, A3'. rewrite (consumption_events G g rs TP fr X P M fuel0 es f FI (on_board_read X z v) _ _ HI F Fs FS), (consumption_events G g rs TP fr X P M' fuel0' es' f FI' (on_board_read X z v) _ _ HI' F' Fs' FS').
    rewrite CS; [ring|]. intros e e' x (E1 & E2 & E3 & E4 & E5). unfold on_board_read, rides_on. rewrite E4. reflexivity.
  - intro NW. rewrite (B4 NW), B4'.
    + unfold starting. clear -SC. revert asg. induction SC as [|e e' es es' (E1 & E2 & E3 & E4 & E5) SC IH]; intro asg; [unfold Qsumf; cbn; ring|]. destruct asg as [|a asg]; [unfold Qsumf; cbn; ring|]. cbn [combine]. rewrite !Qsumf_cons, IH, E1, E3.
      assert (E : Qsumf (fun s => start_trips e' a s * access_time X vp (width_at X (od_o e)) a s) (map fst (od_paths e)) == q * Qsumf (fun s => start_trips e a s * access_time X vp (width_at X (od_o e)) a s) (map fst (od_paths e))).
      { rewrite <- Qsumf_scal. apply Qsumf_ext. intros s _. unfold start_trips. rewrite E5. field. }
      rewrite E. ring.
    + intros e' He'. assert (K : exists e, In e es /\ scaled q e e') by (clear -SC He'; induction SC as [|e0 e0' es es' S SC IH]; [contradiction|]; destruct He' as [<-|He']; [exists e0; split; auto; left; auto|destruct (IH He') as (e & A & B); exists e; split; auto; right; auto]).
      destruct K as (e & He & E1 & E2 & E3 & E4 & E5). unfold never_walks. rewrite E2, E4. apply (NW e He).
Qed.
Print Assumptions C48_scales.

(** The users' cost of a network of one mode whose lines go and come back: every hour of access, waiting and
    travel and every transfer (in minutes of travel) at its price. *)
Theorem C48_users_cost : forall G g rs TP fr X P M fuel0 es f z v asg, flow_input G g rs TP fr X P M fuel0 es f -> ~ q_va P == 0 ->
  (forall r, In r rs -> both_ways r) -> (forall r r', In r rs -> In r' rs -> r_mode r = r_mode r') ->
  exists N c, (forall fuel, (N <= fuel)%nat -> get_users_cost fuel X P f es asg z v = Ok c) /\
    forall Fs, Forall2 (fun ea F => strategy_flow X f (fst ea) (snd ea) F) (combine es asg) Fs ->
      c == q_spa P * starting X (q_va P) (combine es asg) + q_spw P * consumption X (wait_time X f) (combine es asg) Fs +
           q_spv P * (consumption X (on_board X z v) (combine es asg) Fs + q_spt P / 60 * consumption X (transfer X) (combine es asg) Fs).
Proof.
  intros G g rs TP fr X P M fuel0 es f z v asg FI VP BW OM. destruct (C48_resources G g rs TP fr X P M fuel0 es f (q_va P) z v asg FI VP) as (N & u & R & _ & K). exists N, (users_cost P u). split.
  - intros fuel Hf. unfold get_users_cost. rewrite (R fuel Hf). reflexivity.
  - intros Fs FS. destruct (K Fs FS) as (A1 & A2 & A3 & A4). unfold users_cost. rewrite A1, A2, (A3 BW), (A4 (C48_one_mode G g rs TP fr X P M fuel0 es f FI OM)). field.
Qed.
Print Assumptions C48_users_cost.

(** ** Examples and findings *)
Definition ex_b12 : route := mkRoute "b" Props_Network.ex_bus [1;2]%Z [2;1]%Z [1;2]%Z [2;1]%Z CUSTOM.
Definition ex_X5 : xgraph := match build_ext ex_geo ex_g34 [ex_b12; ex_ring] 16 None with Ok X => X | Err _ => mkXgraph empty_graph [] [] [] [] end.
Definition ex_M48 (q : Q) : dict2 := [(1%Z, [(6%Z, q)])].
Definition ex_es48 (q : Q) : list od_entry := match get_all_hyperpaths 40 ex_X5 ex_P (ex_M48 q) with Ok es => es | Err _ => [] end.
Definition ex_f48 : fdict := [("b"%string, 5); ("c"%string, 6)].
Definition ex_asg48 : list (list (nat * Q)) := [[(0%nat, 100)]].
Definition ex_T48 : tables := match get_alighting_and_boarding 60 ex_X5 ex_f48 (ex_es48 5) ex_asg48 with Ok a => a | Err _ => mkT [] [] [] end.
Example ex_X5_built : build_ext ex_geo ex_g34 [ex_b12; ex_ring] 16 None = Ok ex_X5.
Proof. vm_compute. reflexivity. Qed.
Example ex_X5_input : ext_input ex_g34 [ex_b12; ex_ring].
Proof. ext_input_tac. Qed.
Lemma ex_fi48 q : q = 5 \/ q = 10 -> flow_input ex_geo ex_g34 [ex_b12; ex_ring] 16 None ex_X5 ex_P (ex_M48 q) 40 (ex_es48 q) ex_f48.
Proof.
  assert (A : hyper_graph ex_X5).
  { eapply built_graph_is_hyper_graph; [exact ex_X5_input|exact ex_X5_built|exact ex_sqrt_nonneg|discriminate|modes_tac|].
    intro id. unfold route_frequency. simpl. destruct (id =? "b")%string, (id =? "c")%string; discriminate. }
  assert (B : weights ex_X5 ex_P) by (eapply built_graph_weights; [exact ex_X5_input|exact ex_X5_built|modes_tac|reflexivity|discriminate|discriminate|]; left; split; [reflexivity|modes_tac]).
  assert (C : (length (xnodes ex_X5) < 40)%nat) by (vm_compute; lia).
  intro Hq. assert (H : get_all_hyperpaths 40 ex_X5 ex_P (ex_M48 q) = Ok (ex_es48 q)) by (destruct Hq as [-> | ->]; vm_compute; reflexivity).
  split; [exact ex_X5_input|exact ex_X5_built|exact A|exact B|exact C|exact H| |].
  - intro r. unfold freq, dget0, ex_f48. cbn [dget]. repeat match goal with |- context [String.eqb ?a ?b] => destruct (String.eqb a b) end; vm_compute; discriminate.
  - apply (all_run ex_geo ex_g34 [ex_b12; ex_ring] 16 None ex_X5 ex_P (ex_M48 q) 40 (ex_es48 q) ex_f48 ex_X5_input ex_X5_built A B C H). intros r [<-|[<-|[]]]; reflexivity.
Qed.
(** A walk between two stops of a node adds its time once, not once per traveller (users_cost.py 144, 147): with
    twice the demand, the access time is not twice as long. *)
Theorem C48_access_does_not_scale_refuted : exists G g rs TP fr X P M M' es es' f vp z v asg u u',
  flow_input G g rs TP fr X P M 40 es f /\ flow_input G g rs TP fr X P M' 40 es' f /\ 0 < vp /\ Forall2 (scaled 2) es es' /\
  resources_consumer 60 X vp f es asg z v = Ok u /\ resources_consumer 60 X vp f es' asg z v = Ok u' /\
  u_te u' == 2 * u_te u /\ ~ u_ta u' == 2 * u_ta u.
Proof.
  exists ex_geo, ex_g34, [ex_b12; ex_ring], 16, None, ex_X5, ex_P, (ex_M48 5), (ex_M48 10), (ex_es48 5), (ex_es48 10), ex_f48, 4, (t_z ex_T48), (t_v ex_T48), ex_asg48. eexists. eexists.
  split; [apply ex_fi48; auto|]. split; [apply ex_fi48; auto|]. split; [reflexivity|]. split.
  { assert (E : ex_es48 10 = map (fun e => mkOD (od_o e) (od_d e) 10 (od_paths e) (od_res e)) (ex_es48 5)) by (vm_compute; reflexivity). rewrite E.
    assert (V0 : map od_v (ex_es48 5) = [5]) by (vm_compute; reflexivity). assert (V : forall e, In e (ex_es48 5) -> od_v e = 5) by (intros e He; apply (in_map od_v) in He; rewrite V0 in He; destruct He as [He|[]]; auto). clear V0 E. revert V. generalize (ex_es48 5). intros l V. induction l as [|e l IH]; cbn [map]; constructor; [|apply IH; intros; apply V; right; auto].
    unfold scaled. cbn. rewrite (V e (or_introl eq_refl)). do 4 (split; [reflexivity|]). reflexivity. }
  split; [vm_compute; reflexivity|]. split; [vm_compute; reflexivity|]. split; vm_compute; [reflexivity|discriminate].
Qed.
Print Assumptions C48_access_does_not_scale_refuted.
(** On the first leg of a circular line the code reads the tables in the direction R, which the line does not
    have (users_cost.py 131, 179: the closing stop is found at its last position): what is there changes the
    time on board. *)
Theorem C48_circular_direction_refuted : exists G g rs TP fr X P M es f vp z v v' asg u u' r,
  flow_input G g rs TP fr X P M 40 es f /\ 0 < vp /\ In r rs /\ r_type r = CIRCULAR /\ r_sr r = [] /\
  (forall r' d s, r' <> r_id r \/ d = DI -> tget v' r' d s == tget v r' d s) /\
  resources_consumer 60 X vp f es asg z v = Ok u /\ resources_consumer 60 X vp f es asg z v' = Ok u' /\ ~ u_tv u' == u_tv u.
Proof.
  exists ex_geo, ex_g34, [ex_b12; ex_ring], 16, None, ex_X5, ex_P, (ex_M48 5), (ex_es48 5), ex_f48, 4, (t_z ex_T48), (t_v ex_T48), (tset (t_v ex_T48) "c" DR 3 100), ex_asg48. eexists. eexists. exists ex_ring.
  split; [apply ex_fi48; auto|]. split; [reflexivity|]. split; [right; left; auto|]. split; [reflexivity|]. split; [reflexivity|]. split.
  - intros r' d s H. assert (E : (r' =? "c")%string && dir_eqb d DR = false) by (destruct H as [H| ->]; [apply andb_false_iff; left; apply String.eqb_neq; exact H|apply andb_false_r]).
    generalize (t_v ex_T48). intro t. unfold tget at 1. rewrite trow_tset, E. reflexivity.
  - split; [vm_compute; reflexivity|]. split; [vm_compute; reflexivity|]. vm_compute. discriminate.
Qed.
Print Assumptions C48_circular_direction_refuted.
(** the hypotheses of the theorems hold for two bus lines, which a strategy shares, and the four resources are
    positive *)
Definition ex_M48b : dict2 := [(1%Z, [(3%Z, 5)]); (4%Z, [(1%Z, 7)])].
Definition ex_es48b : list od_entry := match get_all_hyperpaths 40 ex_X2 ex_P ex_M48b with Ok es => es | Err _ => [] end.
Definition ex_f48b : fdict := [("t"%string, 5); ("te"%string, 6)].
Definition ex_asg48b : list (list (nat * Q)) := match get_assignment ex_X2 12 4 (822 # 100) (274 # 100) ex_es48b with Ok a => a | Err _ => [] end.
Definition ex_T48b : tables := match get_alighting_and_boarding 60 ex_X2 ex_f48b ex_es48b ex_asg48b with Ok a => a | Err _ => mkT [] [] [] end.
Example C48_ex : flow_input ex_geo ex_g34 [ex_tang; ex_tang_express] 16 None ex_X2 ex_P ex_M48b 40 ex_es48b ex_f48b /\
  (forall r, In r [ex_tang; ex_tang_express] -> both_ways r) /\
  (forall r r', In r [ex_tang; ex_tang_express] -> In r' [ex_tang; ex_tang_express] -> r_mode r = r_mode r') /\
  (forall r, In r [ex_tang; ex_tang_express] -> 0 <= m_theta (r_mode r) /\ 0 <= m_d (r_mode r) /\ 0 <= m_t (r_mode r) /\ 0 <= m_tat (r_mode r)) /\
  (forall n, In n (g_nodes ex_g34) -> 0 <= nd_width n) /\
  (forall e a s, In (e, a) (combine ex_es48b ex_asg48b) -> In s (map fst (od_paths e)) -> 0 <= od_v e /\ 0 <= dget0 Nat.eqb 0 a s) /\
  exists u, resources_consumer 60 ex_X2 4 ex_f48b ex_es48b ex_asg48b (t_z ex_T48b) (t_v ex_T48b) = Ok u /\ 0 < u_ta u /\ 0 < u_te u /\ 0 < u_tv u.
Proof.
  destruct ex_X2_hyper as (A & B & C). assert (H : get_all_hyperpaths 40 ex_X2 ex_P ex_M48b = Ok ex_es48b) by (vm_compute; reflexivity). split; [|split; [|split; [|split; [|split; [|split]]]]].
  - split; [exact ex_X2_input|exact ex_X2_built|exact A|exact B|exact C|exact H| |].
    + intro r. unfold freq, dget0, ex_f48b. cbn [dget]. repeat match goal with |- context [String.eqb ?a ?b] => destruct (String.eqb a b) end; vm_compute; discriminate.
    + apply (all_run ex_geo ex_g34 [ex_tang; ex_tang_express] 16 None ex_X2 ex_P ex_M48b 40 ex_es48b ex_f48b ex_X2_input ex_X2_built A B C H). intros r [<-|[<-|[]]]; reflexivity.
  - clear. intros r [<-|[<-|[]]]; (split; [discriminate|split; [cbn; repeat constructor; cbn; intuition discriminate|left; reflexivity]]).
  - clear. intros r r' [<-|[<-|[]]] [<-|[<-|[]]]; reflexivity.
  - clear. modes_tac.
  - clear. assert (F : forallb (fun n => Qleb 0 (nd_width n)) (g_nodes ex_g34) = true) by (vm_compute; reflexivity). intros n Hn. rewrite forallb_forall in F. apply Qleb_le. exact (F n Hn).
  - clear. assert (F : forallb (fun '(e, a) => forallb (fun s => Qleb 0 (od_v e) && Qleb 0 (dget0 Nat.eqb 0 a s)) (map fst (od_paths e))) (combine ex_es48b ex_asg48b) = true) by (vm_compute; reflexivity).
    intros e a s H1 H2. rewrite forallb_forall in F. specialize (F _ H1). cbn beta iota in F. rewrite forallb_forall in F. specialize (F s H2). apply andb_true_iff in F. destruct F as [F1 F2]. split; apply Qleb_le; assumption.
  - clear. eexists. split; [vm_compute; reflexivity|]. split; [vm_compute; reflexivity|]. split; vm_compute; reflexivity.
Qed.
