(** * ConnProofs: strategies exist exactly where the lines lead *)
From Coq Require Import String List ZArith QArith Bool Lia Lqa Relations.
From Verif Require Import PyBase PyFacts Graph Mode Route Network RouteSpec ExtGraph ExtSpec ExtProofs Props_Ext Hyperpath HyperSpec HyperProofs HyperOpt Props_Hyper ConnSpec.
Import ListNotations.
Local Open Scope Q_scope.

(** ** Blocks of route nodes *)
Definition vis_of (l : list (route * dir)) : list (route * dir * Z) := flat_map (fun '(r, d) => map (fun z => (r, d, z)) (visits r d)) l.
Definition block (l : list (route * dir)) (base : nat) (r : route) (d : dir) : Prop :=
  exists l1 l2, l = l1 ++ (r, d) :: l2 /\ base = length (vis_of l1).
Lemma vis_of_app a b : vis_of (a ++ b) = vis_of a ++ vis_of b.
Proof. apply flat_map_app. Qed.
Lemma links_app a b : forall base, links base (a ++ b) = links base a ++ links (base + length (vis_of a)) b.
Proof.
  induction a as [|[r d] a IH]; intro base; cbn [links app]; [f_equal; simpl; lia|]. rewrite IH, app_assoc. f_equal. f_equal.
  unfold vis_of. cbn [flat_map]. rewrite app_length, map_length. lia.
Qed.
Lemma links_length a : forall base, length (links base a) = length (vis_of a).
Proof.
  induction a as [|[r d] a IH]; intro base; cbn [links]; auto. rewrite app_length, IH, link_length. unfold vis_of. cbn [flat_map]. rewrite app_length, map_length. auto.
Qed.
Lemma block_vis l base r d j z : block l base r d -> nth_error (visits r d) j = Some z -> nth_error (vis_of l) (base + j) = Some (r, d, z).
Proof.
  intros (l1 & l2 & -> & ->) H. rewrite vis_of_app, nth_error_app2 by lia. replace (length (vis_of l1) + j - length (vis_of l1))%nat with j by lia.
  unfold vis_of. cbn [flat_map]. rewrite nth_error_app1; [apply (map_nth_error (fun z => (r, d, z)) _ _ H)|]. rewrite map_length. apply nth_error_Some. congruence.
Qed.
Lemma block_link l base r d j : block l base r d -> (j < length (visits r d))%nat -> nth_error (links 0 l) (base + j) = nth_error (link (r_type r) base (length (visits r d))) j.
Proof.
  intros (l1 & l2 & -> & ->) H. rewrite links_app, nth_error_app2 by (rewrite links_length; lia). rewrite links_length. replace (length (vis_of l1) + j - length (vis_of l1))%nat with j by lia.
  cbn [links]. rewrite nth_error_app1; [auto|rewrite link_length; auto].
Qed.
Lemma block_of l : forall k v, nth_error (vis_of l) k = Some v -> exists base r d j z, v = (r, d, z) /\ block l base r d /\ k = (base + j)%nat /\ nth_error (visits r d) j = Some z.
Proof.
  induction l as [|[r d] l IH]; intros k v H; [destruct k; discriminate|]. unfold vis_of in H. cbn [flat_map] in H. fold (vis_of l) in H.
  destruct (lt_dec k (length (visits r d))) as [L|L].
  - rewrite nth_error_app1 in H by (rewrite map_length; auto). destruct (nth_error (visits r d) k) as [z|] eqn:Ez; [|apply nth_error_None in Ez; lia].
    rewrite (map_nth_error _ _ _ Ez) in H. inversion H. exists 0%nat, r, d, k, z. split; auto. split; [exists [], l; auto|]. auto.
  - rewrite nth_error_app2 in H by (rewrite map_length; lia). rewrite map_length in H. destruct (IH _ _ H) as (base & r' & d' & j & z & E & (l1 & l2 & -> & ->) & Ek & Ez).
    exists (length (visits r d) + length (vis_of l1))%nat, r', d', j, z. split; auto. split; [|split; [lia|auto]]. exists ((r, d) :: l1), l2. split; auto.
    unfold vis_of at 2. cbn [flat_map]. rewrite app_length, map_length. auto.
Qed.
Lemma block_line rs r d : In r rs -> exists base, block (lines rs) base r d.
Proof.
  intro H. assert (In (r, d) (lines rs)). { unfold lines. apply in_flat_map. exists r. split; auto. destruct d; simpl; auto. }
  apply in_split in H0. destruct H0 as (l1 & l2 & E). exists (length (vis_of l1)), l1, l2. auto.
Qed.
Lemma link_next ty base m j : (S j < m)%nat -> nth_error (link ty base m) (S j) = Some (Some (base + j)%nat).
Proof.
  intro H. destruct m as [|m]; [lia|]. cbn [link nth_error]. rewrite nth_error_map. rewrite (nth_error_nth' _ 0%nat) by (rewrite seq_length; lia). rewrite seq_nth by lia. auto.
Qed.
Lemma link_close base m : nth_error (link CIRCULAR base (S m)) 0 = Some (Some (base + m)%nat).
Proof. reflexivity. Qed.

Lemma has_dest X P o d n q : strategy_cost X P o d n q -> d <> None.
Proof. intro H. induction H as [n q E _|e c q He Ef A _ IH _|n es q Ne _ _ _ IH _]; auto; [congruence|]. destruct es as [|[e c] es]; [congruence|]. apply (IH e c). left; auto. Qed.
Section Conn.
Context (G : geo) (g : graph) (rs : list route) (TP : Q) (fr : option (list (string * Q))) (X : xgraph) (P : qpass).
Context (I : ext_input g rs) (B : build_ext G g rs TP fr = Ok X) (HD : forall r, In r rs -> 0 < m_d (r_mode r)).

Lemma rn_at k r d z : nth_error (all_visits rs) k = Some (r, d, z) -> exists rn s st nd, nth_error (xg_rnodes X) k = Some rn /\ rn_route rn = r /\ rn_dir rn = d /\ rn_stop rn = Some s /\
  nth_error (xg_stops X) s = Some st /\ sn_mode st = r_mode r /\ nth_error (g_nodes g) (sn_city st) = Some nd /\ nd_id nd = z /\ In r rs.
Proof.
  intro V. pose proof (facts_of _ _ _ _ _ _ I B) as F. rewrite (ef_rn _ _ _ _ _ _ F), (ef_stops _ _ _ _ _ _ F).
  destruct (nth_error (bnodes g (stop_list g rs) 0 (lines rs)) k) as [rn|] eqn:E; [|apply nth_error_None in E; rewrite rns_len in E; assert (k < length (all_visits rs))%nat by (apply nth_error_Some; congruence); lia].
  destruct (rns_visit g rs I k rn E) as (r' & d' & z' & s & st & nd & Hr & E1 & E2 & V' & Hz & Es & _ & Hst & Em & Hn & Ez). rewrite V in V'. inversion V'; subst r' d' z'.
  exists rn, s, st, nd. repeat (split; auto).
Qed.
Lemma rn_block k rn : nth_error (xg_rnodes X) k = Some rn -> exists base j z s st nd, block (lines rs) base (rn_route rn) (rn_dir rn) /\ k = (base + j)%nat /\ nth_error (visits (rn_route rn) (rn_dir rn)) j = Some z /\
  rn_stop rn = Some s /\ nth_error (xg_stops X) s = Some st /\ sn_mode st = r_mode (rn_route rn) /\ nth_error (g_nodes g) (sn_city st) = Some nd /\ nd_id nd = z /\ In (rn_route rn) rs.
Proof.
  intro H. pose proof (facts_of _ _ _ _ _ _ I B) as F. pose proof H as H'. rewrite (ef_rn _ _ _ _ _ _ F) in H'. destruct (rns_visit g rs I k rn H') as (r & d & z & _ & _ & _ & _ & E1 & E2 & V & _).
  destruct (block_of _ _ _ V) as (base & r' & d' & j & z' & E & Bl & Ek & Ez). inversion E; subst r' d' z'. destruct (rn_at k r d z V) as (rn' & s & st & nd & A1 & A2 & A3 & A4 & A5 & A6 & A7 & A8 & A9).
  assert (rn' = rn) by congruence. subst rn'. subst r d. exists base, j, z, s, st, nd. repeat (split; auto).
Qed.
Lemma rn_prev_is k rn : nth_error (xg_rnodes X) k = Some rn -> nth_error (links 0 (lines rs)) k = Some (rn_prev rn).
Proof.
  intro H. pose proof (facts_of _ _ _ _ _ _ I B) as F. rewrite (ef_rn _ _ _ _ _ _ F) in H. rewrite <- (bnodes_prev g (stop_list g rs)), nth_error_map, H. auto.
Qed.
Lemma edge_of ty i j : joins X ty i j -> exists e, In e (xg_edges X) /\ x_type e = ty /\ x_i e = i /\ x_j e = j.
Proof. intro J. apply (proj1 (C31_edges_exact G g rs TP fr X I B)). auto. Qed.
Lemma free_edge e : In e (xg_edges X) -> x_type e <> BOARDING -> x_f e = None.
Proof.
  intros He T. pose proof (C31_edge_values G g rs TP fr X I B e He) as V. destruct (x_type e); try congruence; tauto.
Qed.

(** *** From rides to strategies *)
Section Forth.
Context (o : option enode) (dest : option enode).
Lemma move_edge ty i j c : joins X ty i j -> ty <> BOARDING -> o <> Some i -> o <> Some j -> strategy_cost X P o dest j c -> exists q, strategy_cost X P o dest i q.
Proof.
  intros J T A1 A2 S. destruct (edge_of ty i j J) as (e & He & Te & Ei & Ej). exists (leg_cost X P dest e + c). rewrite <- Ei. eapply sc_move with (c := c); auto.
  - apply free_edge; auto. congruence.
  - split; congruence.
  - rewrite Ej. auto.
  - reflexivity.
Qed.
Context (NR : forall k, o <> Some (ER k)) (NS : forall s, o <> Some (ES s)).
Lemma step_ride base r d j c : block (lines rs) base r d -> (S j < length (visits r d))%nat -> strategy_cost X P o dest (ER (base + S j)) c -> exists q, strategy_cost X P o dest (ER (base + j)) q.
Proof.
  intros Bl L S. destruct (nth_error (visits r d) (Datatypes.S j)) as [z|] eqn:Ez; [|apply nth_error_None in Ez; lia].
  destruct (rn_at _ _ _ _ (block_vis _ _ _ _ _ _ Bl Ez)) as (rn & s & st & nd & A1 & _). pose proof (rn_prev_is _ _ A1) as Pv. rewrite (block_link _ _ _ _ _ Bl L), link_next in Pv by auto. inversion Pv as [E].
  eapply (move_edge ROUTE); [eapply j_route; [exact A1|symmetry; exact E]|discriminate|auto|auto|exact S].
Qed.
Lemma ride_on base r d n : block (lines rs) base r d -> forall j c, (j + n < length (visits r d))%nat -> strategy_cost X P o dest (ER (base + (j + n))) c -> exists q, strategy_cost X P o dest (ER (base + j)) q.
Proof.
  intro Bl. induction n as [|n IH]; intros j c L S; [rewrite Nat.add_0_r in S; eauto|]. replace (j + Datatypes.S n)%nat with (Datatypes.S j + n)%nat in S by lia. destruct (IH (Datatypes.S j) c) as [q Hq]; [lia|auto|].
  eapply step_ride; eauto. lia.
Qed.
Lemma ride_round base r d i j c : block (lines rs) base r d -> r_type r = CIRCULAR -> (i < length (visits r d))%nat -> (j < length (visits r d))%nat ->
  strategy_cost X P o dest (ER (base + j)) c -> exists q, strategy_cost X P o dest (ER (base + i)) q.
Proof.
  intros Bl T Li Lj S. destruct (ride_on base r d j Bl 0 c) as [q0 H0]; auto. destruct (nth_error (visits r d) 0) as [z|] eqn:Ez; [|apply nth_error_None in Ez; lia].
  destruct (rn_at _ _ _ _ (block_vis _ _ _ _ _ _ Bl Ez)) as (rn & s & st & nd & A1 & _). pose proof (rn_prev_is _ _ A1) as Pv. rewrite (block_link _ _ _ _ _ Bl) in Pv by lia. rewrite T in Pv.
  destruct (length (visits r d)) as [|m] eqn:Lm; [lia|]. rewrite link_close in Pv. inversion Pv as [E].
  assert (exists q, strategy_cost X P o dest (ER (base + m)) q) as [q1 H1]. { eapply (move_edge ROUTE); [eapply j_route; [exact A1|symmetry; exact E]|discriminate|auto|auto|exact H0]. }
  replace m with (i + (m - i))%nat in H1 by lia. eapply (ride_on base r d (m - i) Bl i); [lia|exact H1].
Qed.
Lemma board k rn s c : nth_error (xg_rnodes X) k = Some rn -> rn_stop rn = Some s -> can_board X rn -> 0 < route_frequency rs fr (r_id (rn_route rn)) -> In (rn_route rn) rs ->
  strategy_cost X P o dest (ER k) c -> exists q, strategy_cost X P o dest (ES s) q.
Proof.
  intros A1 A2 A3 F Hr S. destruct (edge_of BOARDING (ES s) (ER k) (j_board X k rn s A1 A2 A3)) as (e & He & Te & Ei & Ej). pose proof (C31_edge_values G g rs TP fr X I B e He) as V. rewrite Te in V.
  destruct V as (_ & k' & rn' & f & V1 & V2 & V3 & V4). rewrite Ej in V1. inversion V1; subst k'. assert (rn' = rn) by congruence. subst rn'.
  assert (0 < f). { rewrite V4. apply Qlt_shift_div_l; [apply HD; auto|]. lra. }
  exists ((wait_cost X P (ES s) + f * (leg_cost X P dest e + c)) / f). apply sc_wait with (es := [(e, c)]).
  - discriminate.
  - repeat constructor. simpl. auto.
  - intros e' c' [E|[]]. inversion E; subst e' c'. split; auto. split; auto. split; [eauto|]. split; [rewrite Ei|rewrite Ej]; auto.
  - intros e' c' [E|[]]. inversion E; subst e' c'. rewrite Ej. auto.
  - unfold Qsumf. cbn [map fst snd Qsum fold_right]. unfold freq_of. rewrite V3. field. lra.
Qed.
End Forth.

(** the stops of the extended graph at a node of the city *)
Definition stop_in (z : Z) (s : nat) : Prop := exists st nd, is_xnode X (ES s) /\ nth_error (xg_stops X) s = Some st /\ nth_error (g_nodes g) (sn_city st) = Some nd /\ nd_id nd = z.
Lemma node_at c c' nd nd' : nth_error (g_nodes g) c = Some nd -> nth_error (g_nodes g) c' = Some nd' -> nd_id nd = nd_id nd' -> c = c'.
Proof.
  intros H H' E. apply (proj1 (NoDup_nth_error (map nd_id (g_nodes g))) (xi_ids g rs I)).
  - rewrite map_length. apply nth_error_Some. congruence.
  - rewrite (map_nth_error nd_id _ _ H), (map_nth_error nd_id _ _ H'). congruence.
Qed.
Lemma place_of k rn s st nd : nth_error (xg_rnodes X) k = Some rn -> rn_stop rn = Some s -> nth_error (xg_stops X) s = Some st -> nth_error (g_nodes g) (sn_city st) = Some nd -> rn_place X rn = Some (nd_id nd, sn_mode st).
Proof. intros H1 H2 H3 H4. unfold rn_place, stop_place. rewrite H2, H3, (ef_graph _ _ _ _ _ _ (facts_of _ _ _ _ _ _ I B)), H4. auto. Qed.

Lemma travel_strategy co no cd nd0 : nth_error (g_nodes g) co = Some no -> nth_error (g_nodes g) cd = Some nd0 -> nd_id no <> nd_id nd0 ->
  forall a, travel rs fr a (nd_id nd0) ->
  (exists s, stop_in (nd_id no) s /\ exists q, strategy_cost X P (Some (EC co)) (Some (EC cd)) (ES s) q) \/
  (a <> nd_id no /\ forall s, stop_in a s -> exists q, strategy_cost X P (Some (EC co)) (Some (EC cd)) (ES s) q).
Proof.
  intros Ho Hd Nod a T. remember (nd_id nd0) as zd eqn:Ezd. assert (Nco : co <> cd) by (intro; subst cd; congruence). induction T as [a|a b c R T IH]; subst.
  - right. split; [congruence|]. intros s (st & nd & S1 & S2 & S3 & S4). assert (Ec : sn_city st = cd) by (eapply node_at; eauto). 
    eapply (move_edge _ _ ACCESS (ES s) (EC cd) 0); [eapply j_access_out; eauto|discriminate|discriminate|congruence|]. apply sc_here; reflexivity.
  - destruct (IH eq_refl Nod) as [L|[Nb Hb]]; [left; exact L|]. destruct R as (r & d & i & j & Hr & F & Va & Vb & C). destruct (block_line rs r d Hr) as (base & Bl).
    destruct (rn_at _ _ _ _ (block_vis _ _ _ _ _ _ Bl Va)) as (ra & sa & sta & na & A1 & A2 & A3 & A4 & A5 & A6 & A7 & A8 & _).
    destruct (rn_at _ _ _ _ (block_vis _ _ _ _ _ _ Bl Vb)) as (rb & sb & stb & nb & B1 & B2 & B3 & B4 & B5 & B6 & B7 & B8 & _).
    assert (Li : (i < length (visits r d))%nat) by (apply nth_error_Some; congruence). assert (Lj : (j < length (visits r d))%nat) by (apply nth_error_Some; congruence).
    destruct (Hb sb) as [q0 Q0]; [exists stb, nb; split; [exists (base + j)%nat, rb|]; auto|].
    assert (CA : can_alight X rb). { destruct C as [C|(_ & _ & C)]; [left; congruence|]. right. intros z m E. rewrite (place_of _ _ _ _ _ B1 B4 B5 B7) in E. inversion E; subst z m. rewrite B2, B3, B8. auto. }
    assert (CB : can_board X ra). { destruct C as [C|(_ & C & _)]; [left; congruence|]. right. intros z m E. rewrite (place_of _ _ _ _ _ A1 A4 A5 A7) in E. inversion E; subst z m. rewrite A2, A3, A8. auto. }
    assert (exists q, strategy_cost X P (Some (EC co)) (Some (EC cd)) (ER (base + j)) q) as [q1 Q1] by (eapply (move_edge _ _ ALIGHTING); [eapply j_alight; eauto|discriminate|discriminate|discriminate|exact Q0]).
    assert (exists q, strategy_cost X P (Some (EC co)) (Some (EC cd)) (ER (base + i)) q) as [q2 Q2].
    { destruct C as [C|(C & _)].
      - eapply (ride_round _ _); [intro; discriminate|exact Bl|exact C|exact Li|exact Lj|exact Q1].
      - replace j with (i + (j - i))%nat in Q1 by lia. eapply (ride_on (Some (EC co)) _ ltac:(intro; discriminate) base r d (j - i) Bl i); [lia|exact Q1]. }
    assert (exists q, strategy_cost X P (Some (EC co)) (Some (EC cd)) (ES sa) q) as [q3 Q3] by (eapply (board _ _); [intro; discriminate|intro; discriminate|exact A1|exact A4|exact CB|rewrite A2; auto|rewrite A2; auto|exact Q2]).
    assert (SA : stop_in a sa) by (exists sta, na; split; [exists (base + i)%nat, ra|]; auto).
    destruct (Z.eq_dec a (nd_id no)) as [ ->|Na]; [left; exists sa; split; eauto|]. right. split; auto. intros s (st & nd & S1 & S2 & S3 & S4).
    assert (Ec : sn_city st = sn_city sta) by (eapply node_at; eauto; congruence). assert (Nc : sn_city st <> co) by (intro C'; rewrite C' in S3; congruence).
    assert (exists q, strategy_cost X P (Some (EC co)) (Some (EC cd)) (EC (sn_city sta)) q) as [q4 Q4].
    { eapply (move_edge _ _ ACCESS); [eapply (j_access_in X _ sa sta); auto; exists (base + i)%nat, ra; auto|discriminate|congruence|discriminate|exact Q3]. }
    eapply (move_edge _ _ ACCESS (ES s)); [eapply j_access_out; [exact S1|exact S2|exact Ec]|discriminate|discriminate|congruence|exact Q4].
Qed.

(** *** From strategies to rides *)
Lemma strategy_travel o cd nd0 n q : nth_error (g_nodes g) cd = Some nd0 -> strategy_cost X P o (Some (EC cd)) n q ->
  match n with
  | EC c => forall nd, nth_error (g_nodes g) c = Some nd -> travel rs fr (nd_id nd) (nd_id nd0)
  | ES s => forall z, stop_in z s -> travel rs fr z (nd_id nd0)
  | ER k => forall rn, nth_error (xg_rnodes X) k = Some rn ->
      exists base i j b, block (lines rs) base (rn_route rn) (rn_dir rn) /\ k = (base + i)%nat /\ (i < length (visits (rn_route rn) (rn_dir rn)))%nat /\
        nth_error (visits (rn_route rn) (rn_dir rn)) j = Some b /\
        (r_type (rn_route rn) = CIRCULAR \/ (i <= j)%nat /\ ~ first_is (nodes_of (rn_route rn) (rn_dir rn)) b) /\ travel rs fr b (nd_id nd0)
  end.
Proof.
  intros Hd H. induction H as [n q E _|e c q He Ef A S IH _|n es q Ne _ Hes _ IH _].
  - inversion E; subst n. intros nd Hn. assert (nd = nd0) by congruence. subst. constructor.
  - assert (J : joins X (x_type e) (x_i e) (x_j e)) by (apply (proj1 (C31_edges_exact G g rs TP fr X I B)); eauto).
    pose proof (C31_edge_values G g rs TP fr X I B e He) as V. clear S A. revert IH. remember (x_type e) as ty eqn:Ty. destruct J as [c0 s st A1 A2 A3|c0 s st A1 A2 A3|k rn s A1 A2 A3|k rn s A1 A2 A3|k rn p A1 A2]; intro IH.
    + intros nd Hn. apply IH. exists st, nd. subst c0. auto.
    + intros z (st' & nd & S1 & S2 & S3 & S4). assert (st' = st) by congruence. subst st' z c0. apply IH. auto.
    + destruct V as (_ & _ & _ & f & _ & _ & V & _). congruence.
    + intros rn' E. assert (rn' = rn) by congruence. subst rn'. destruct (rn_block k rn A1) as (base & i & z & s' & st & nd & B1 & B2 & B3 & B4 & B5 & B6 & B7 & B8 & B9). assert (s' = s) by congruence. subst s'.
      exists base, i, i, z. split; auto. split; auto. split; [apply nth_error_Some; congruence|]. split; auto. split.
      * destruct A3 as [C|C]; auto. right. split; auto. apply (C z (sn_mode st)). rewrite (place_of _ _ _ _ _ A1 A2 B5 B7). congruence.
      * apply IH. exists st, nd. split; [exists k, rn|]; auto.
    + intros rp Hp. destruct (IH rn A1) as (base & i & j & b & B1 & B2 & B3 & B4 & B5 & B6). pose proof (rn_prev_is k rn A1) as Pv. rewrite A2, B2, (block_link _ _ _ _ _ B1 B3) in Pv.
      assert (exists i', p = (base + i')%nat /\ (i' < length (visits (rn_route rn) (rn_dir rn)))%nat /\ (r_type (rn_route rn) = CIRCULAR \/ i = Datatypes.S i')) as (i' & E1 & E2 & E3).
      { destruct i as [|i'].
        - destruct (length (visits (rn_route rn) (rn_dir rn))) as [|m]; [lia|]. cbn [link nth_error] in Pv. destruct (r_type (rn_route rn)); inversion Pv. exists m. auto.
        - rewrite link_next in Pv by auto. inversion Pv. exists i'. split; auto. split; [lia|]. auto. }
      destruct (nth_error (visits (rn_route rn) (rn_dir rn)) i') as [z|] eqn:Ez; [|apply nth_error_None in Ez; lia].
      destruct (rn_at _ _ _ _ (block_vis _ _ _ _ _ _ B1 Ez)) as (rp' & s & st & nd & D1 & D2 & D3 & _). rewrite <- E1 in D1. assert (rp' = rp) by congruence. subst rp'. rewrite D2, D3.
      exists base, i', j, b. split; auto. split; auto. split; auto. split; auto. split; auto. destruct B5 as [B5|[B5 B5']]; auto. destruct E3 as [E3|E3]; auto. right. split; auto. lia.
  - destruct es as [|[e c] es]; [congruence|]. destruct (Hes e c (or_introl eq_refl)) as (He & Ei & (f & Ef & Pf) & _). pose proof (IH e c (or_introl eq_refl)) as IHe. clear IH Hes Ne.
    assert (J : joins X (x_type e) (x_i e) (x_j e)) by (apply (proj1 (C31_edges_exact G g rs TP fr X I B)); eauto).
    pose proof (C31_edge_values G g rs TP fr X I B e He) as V. rewrite <- Ei. clear Ei. destruct (x_type e) eqn:Ty; [destruct V; congruence| |destruct V; congruence|congruence].
    destruct V as (_ & k' & rn' & f' & V1 & V2 & V3 & V4). assert (f' = f) by congruence. subst f'. inversion J as [| |k rn s A1 A2 A3 E0 E1 E2| |]. rewrite <- E2 in V1, IHe. inversion V1; subst k'. assert (rn' = rn) by congruence. subst rn'.
    destruct (IHe rn A1) as (base & i & j & b & B1 & B2 & B3 & B4 & B5 & B6). intros z (st & nd & S1 & S2 & S3 & S4).
    destruct (rn_block k rn A1) as (_ & _ & _ & s' & st' & nd' & _ & _ & _ & D1 & D2 & D3 & D4 & _ & D6). assert (s' = s) by congruence. subst s'. assert (st' = st) by congruence. subst st'. assert (nd' = nd) by congruence. subst nd'.
    destruct (nth_error (visits (rn_route rn) (rn_dir rn)) i) as [z'|] eqn:Ez; [|apply nth_error_None in Ez; lia].
    destruct (rn_at _ _ _ _ (block_vis _ _ _ _ _ _ B1 Ez)) as (rn2 & s2 & st2 & nd2 & F1 & F2 & F3 & F4 & F5 & F6 & F7 & F8 & _). rewrite <- B2 in F1. assert (rn2 = rn) by congruence. subst rn2. assert (s2 = s) by congruence. subst s2.
    assert (st2 = st) by congruence. subst st2. assert (nd2 = nd) by congruence. subst nd2. assert (z' = z) by congruence. subst z'.
    assert (Fq : 0 < route_frequency rs fr (r_id (rn_route rn))).
    { pose proof (HD _ D6) as Hd'. rewrite V4 in Pf. setoid_replace (route_frequency rs fr (r_id (rn_route rn))) with (route_frequency rs fr (r_id (rn_route rn)) / m_d (r_mode (rn_route rn)) * m_d (r_mode (rn_route rn))) by (field; lra).
      apply Qmult_lt_0_compat; auto. }
    assert (Rd : (r_type (rn_route rn) = CIRCULAR \/ (i < j)%nat /\ ~ first_is (nodes_of (rn_route rn) (rn_dir rn)) b) \/ z = b).
    { destruct B5 as [B5|[B5 B5']]; auto. destruct (Nat.eq_dec i j); [right; subst; congruence|]. left. right. split; auto. lia. }
    destruct Rd as [Rd| ->]; auto. econstructor; [|exact B6]. exists (rn_route rn), (rn_dir rn), i, j. rewrite S4 in Ez. refine (conj D6 (conj Fq (conj Ez (conj B4 _)))).
    destruct Rd as [Rd|[Rd Rd']]; auto. destruct A3 as [C|C]; auto. right. split; auto. split; auto. apply (C z (sn_mode st)). rewrite (place_of _ _ _ _ _ A1 A2 S2 S3). congruence.
Qed.

Theorem connected_iff o d : connected X P o d <-> o <> d /\ travel rs fr o d.
Proof.
  pose proof (ef_graph _ _ _ _ _ _ (facts_of _ _ _ _ _ _ I B)) as EG. destruct (C30_nodes_exact G g rs TP fr X I B) as [_ XN].
  assert (CN : forall c, is_xnode X (EC c) -> exists nd, nth_error (g_nodes g) c = Some nd).
  { intros c (k & rn & s & st & A1 & A2 & A3 & A4). destruct (rn_block k rn A1) as (_ & _ & _ & s' & st' & nd & _ & _ & _ & D1 & D2 & _ & D4 & _). assert (s' = s) by congruence. subst s'. assert (st' = st) by congruence. subst. eauto. }
  split.
  - intros (c & dest & s & st & q & H1 & H2 & H3 & H4 & H5 & S). assert (exists cd, dest = Some (EC cd)) as [cd ->].
    { pose proof (has_dest _ _ _ _ _ _ S).
      destruct dest as [[cd|k|k]|]; simpl in H2; try contradiction; eauto. }
    simpl in H1, H2. destruct H1 as [H1 E1], H2 as [H2 E2]. rewrite EG in E1, E2. apply XN in H1, H2, H3. destruct (CN c H1) as [nc Hc]. destruct (CN cd H2) as [ncd Hcd].
    unfold gnode in E1, E2. rewrite (nth_error_nth _ _ _ Hc) in E1. rewrite (nth_error_nth _ _ _ Hcd) in E2. subst o d. split.
    + intro E. assert (c = cd) by (eapply node_at; eauto). subst cd. apply no_cycle_strategy in S. discriminate.
    + apply (strategy_travel _ _ _ _ _ Hcd S). exists st, nc. subst c. auto.
  - intros [N T]. assert (exists r d' i, In r rs /\ nth_error (visits r d') i = Some o) as (r & d1 & i & Hr & Hv).
    { inversion T as [|b c R T']; [congruence|]. subst. destruct R as (r & d1 & i & j & A1 & _ & A2 & _). eauto. }
    assert (exists r d' i, In r rs /\ nth_error (visits r d') i = Some d) as (r' & d2 & i' & Hr' & Hv').
    { apply clos_rt1n_rt, clos_rt_rtn1 in T. inversion T as [|b c R T']; [congruence|]. subst. destruct R as (r2 & d2 & i2 & j2 & A1 & _ & _ & A2 & _). eauto. }
    destruct (block_line rs r d1 Hr) as (b1 & Bl1). destruct (block_line rs r' d2 Hr') as (b2 & Bl2).
    destruct (rn_at _ _ _ _ (block_vis _ _ _ _ _ _ Bl1 Hv)) as (ro & so & sto & no & A1 & A2 & A3 & A4 & A5 & A6 & A7 & A8 & _).
    destruct (rn_at _ _ _ _ (block_vis _ _ _ _ _ _ Bl2 Hv')) as (rd & sd & std & nd & B1 & B2 & B3 & B4 & B5 & B6 & B7 & B8 & _). subst o d.
    destruct (travel_strategy _ _ _ _ A7 B7 N _ T) as [(s & (st & nd' & S1 & S2 & S3 & S4) & q & Sq)|[C _]]; [|congruence].
    exists (sn_city sto), (Some (EC (sn_city std))), s, st, q. assert (sn_city st = sn_city sto) by (eapply node_at; eauto).
    split; [|split; [|split; [apply XN; auto|auto]]]; simpl; rewrite XN, EG; unfold gnode; (split; [|apply f_equal, nth_error_nth; auto]).
    + exists (b1 + i)%nat, ro, so, sto. auto.
    + exists (b2 + i')%nat, rd, sd, std. auto.
Qed.
Lemma in_use m : used_mode X m <-> mode_in_use rs m.
Proof.
  destruct (C30_nodes_exact G g rs TP fr X I B) as [_ XN]. split.
  - intros (s & st & H1 & H2 & <-). apply XN in H1. destruct H1 as (k & rn & A1 & A2). destruct (rn_block k rn A1) as (base & i & z & s' & st' & nd & _ & _ & B3 & B4 & B5 & B6 & _ & _ & B9).
    assert (s' = s) by congruence. subst s'. exists (rn_route rn), (rn_dir rn). split; auto. split; [congruence|]. intro C. rewrite C in B3. destruct i; discriminate.
  - intros (r & d & Hr & <- & Nv). destruct (visits r d) as [|z l] eqn:Ev; [congruence|]. assert (Hz : nth_error (visits r d) 0 = Some z) by (rewrite Ev; auto). destruct (block_line rs r d Hr) as (base & Bl).
    destruct (rn_at _ _ _ _ (block_vis _ _ _ _ _ _ Bl Hz)) as (rn & s & st & nd & A1 & A2 & A3 & A4 & A5 & A6 & _). exists s, st. split; [|auto]. apply XN. exists (base + 0)%nat, rn. auto.
Qed.
End Conn.
