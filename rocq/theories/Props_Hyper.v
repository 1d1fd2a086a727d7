(** * Props_Hyper: C34 - C39, the hyperpath search *)
From Coq Require Import String List ZArith QArith Bool Lia Lqa.
From Verif Require Import PyBase PyFacts Graph GraphProofs GeoEx Props_Graph Props_Predef Mode ModeSpec Props_Mode Route Network RouteSpec Props_Network
  ExtGraph ExtSpec ExtProofs Props_Ext Hyperpath HyperSpec HyperProofs HyperOpt.
Import ListNotations.
Local Open Scope Q_scope.

(** ** The extended graphs that the code builds *)
Lemma xnode_stop G g rs TP freq X : ext_input g rs -> build_ext G g rs TP freq = Ok X ->
  forall k rn, nth_error (xg_rnodes X) k = Some rn -> exists s st nd, rn_stop rn = Some s /\ nth_error (xg_stops X) s = Some st /\
    nth_error (g_nodes g) (sn_city st) = Some nd /\ sn_mode st = r_mode (rn_route rn) /\ In (rn_route rn) rs.
Proof.
  intros I H k rn Hk. destruct (C30_one_stop_per_node_and_mode G g rs TP freq X I H) as (_ & _ & M & _).
  assert (Hm : In (rn_route rn, rn_dir rn, rn_place X rn) (map (fun '(r, d, z) => (r, d, Some (z, r_mode r))) (all_visits rs))).
  { rewrite <- M. apply in_map_iff. exists rn. split; auto. eapply nth_error_In; eauto. }
  apply in_map_iff in Hm. destruct Hm as (((r & d) & z) & Em & Hm). inversion Em as [[E1 E2 E3]]. unfold rn_place, stop_place in E3.
  destruct (rn_stop rn) as [s|]; [|discriminate]. destruct (nth_error (xg_stops X) s) as [st|] eqn:Es; [|discriminate].
  rewrite (ef_graph _ _ _ _ _ _ (facts_of G g rs TP freq X I H)) in E3.
  destruct (nth_error (g_nodes g) (sn_city st)) as [nd|] eqn:En; [|discriminate]. inversion E3. exists s, st, nd. split; auto. split; auto. split; auto. split; [congruence|].
  unfold all_visits in Hm. apply in_flat_map in Hm. destruct Hm as ((r' & d') & Hl & Hv). apply in_map_iff in Hv. destruct Hv as (z' & Ev & _). inversion Ev; subst.
  unfold lines in Hl. apply in_flat_map in Hl. destruct Hl as (r'' & Hr & [Hl|[Hl|[]]]); inversion Hl; subst; auto.
Qed.
Lemma xnode_ES G g rs TP freq X : ext_input g rs -> build_ext G g rs TP freq = Ok X ->
  forall s, In (ES s) (xnodes X) -> exists st nd r, nth_error (xg_stops X) s = Some st /\ nth_error (g_nodes g) (sn_city st) = Some nd /\ sn_mode st = r_mode r /\ In r rs.
Proof.
  intros I H s Hs. destruct (C30_nodes_exact G g rs TP freq X I H) as [_ Hn]. apply Hn in Hs. destruct Hs as (k & rn & Hk & Es).
  destruct (xnode_stop G g rs TP freq X I H k rn Hk) as (s' & st & nd & E1 & E2 & E3 & E4 & E5). rewrite Es in E1. inversion E1; subst. eauto 7.
Qed.
Theorem built_graph_is_hyper_graph : forall G g rs TP freq X, ext_input g rs -> build_ext G g rs TP freq = Ok X ->
  (forall q, 0 <= geo_sqrt G q) -> 0 <= TP -> (forall r, In r rs -> 0 <= m_tat (r_mode r) /\ 0 <= m_v (r_mode r) /\ 0 <= m_d (r_mode r)) ->
  (forall id, 0 <= route_frequency rs freq id) -> hyper_graph X.
Proof.
  intros G g rs TP freq X I H HS HT HM HF. destruct (C30_nodes_exact G g rs TP freq X I H) as [N1 N2].
  destruct (C31_edges_exact G g rs TP freq X I H) as (E1 & E2 & E3). pose proof (C31_edge_values G g rs TP freq X I H) as EV.
  pose proof (xnode_stop G g rs TP freq X I H) as XS. pose proof (xnode_ES G g rs TP freq X I H) as XE.
  pose proof (ef_graph _ _ _ _ _ _ (facts_of G g rs TP freq X I H)) as EG.
  assert (J : forall e, In e (xg_edges X) -> joins X (x_type e) (x_i e) (x_j e)) by (intros e He; apply E1; eauto).
  constructor; auto.
  - intros e He. rewrite !N2. destruct (J e He) as [c s st A1 A2 A3|c s st A1 A2 A3|k rn s A1 A2 A3|k rn s A1 A2 A3|k rn p A1 A2].
    + split; auto. destruct A1 as (k & rn & B1 & B2). exists k, rn, s, st. auto.
    + split; auto. destruct A1 as (k & rn & B1 & B2). exists k, rn, s, st. auto.
    + split; [exists k, rn; auto|exists rn; auto].
    + split; [exists rn; auto|exists k, rn; auto].
    + split; [|exists rn; auto]. destruct (proj2 (E1 ROUTE (ER p) (ER k)) (j_route X k rn p A1 A2)) as (e' & He' & T' & Ei & Ej).
      destruct (C31_route_edges_consecutive G g rs TP freq X I H e' He' T') as (p' & k' & rp & rk & a & b & m & j & j' & B1 & B2 & B3 & _). rewrite Ei in B1. inversion B1; subst. exists rp. auto.
  - apply (C31_times_nonnegative G g rs TP freq X I H HS HT). intros r Hr. destruct (HM r Hr) as (A & B & _). auto.
  - intros e He. pose proof (EV e He) as V. pose proof (J e He) as Je. destruct (x_type e) eqn:T.
    + destruct V as [-> _]. discriminate.
    + destruct V as (V1 & k & rn & q & V2 & V3 & -> & V4). split; auto. destruct (XS k rn V3) as (s & st & nd & _ & _ & _ & _ & Hr). split.
      * rewrite V4. unfold Qdiv. apply Qmult_le_0_compat; [apply HF|]. apply Qinv_le_0_compat. apply (HM _ Hr).
      * split; auto. inversion Je; subst. eauto.
    + destruct V as [_ ->]. discriminate.
    + rewrite V. discriminate.
  - intros e He T. pose proof (J e He) as Je. rewrite T in Je. inversion Je; subst. eauto.
  - intros s Hs. destruct (XE s Hs) as (st & nd & r & A & _). eauto.
  - intros c s. rewrite N2. apply (pair_X G g rs TP freq X I H).
  - intros c c' Hc Hc' Eq. rewrite N2 in Hc, Hc'. destruct Hc as (k & rn & s & st & A1 & A2 & A3 & A4). destruct Hc' as (k' & rn' & s' & st' & A1' & A2' & A3' & A4').
    destruct (XS k rn A1) as (s1 & st1 & nd & B1 & B2 & B3 & _). destruct (XS k' rn' A1') as (s1' & st1' & nd' & B1' & B2' & B3' & _).
    assert (s1 = s) by congruence. assert (s1' = s') by congruence. subst s1 s1'. assert (st1 = st) by congruence. assert (st1' = st') by congruence. subst st1 st1'.
    rewrite A4 in B3. rewrite A4' in B3'. rewrite EG in Eq. unfold gnode in Eq. rewrite (nth_error_nth _ _ _ B3), (nth_error_nth _ _ _ B3') in Eq.
    apply (proj1 (NoDup_nth_error (map nd_id (g_nodes g))) (xi_ids g rs I)).
    + rewrite map_length. apply nth_error_Some. rewrite B3. discriminate.
    + rewrite (map_nth_error nd_id _ _ B3), (map_nth_error nd_id _ _ B3'). congruence.
  - intros s s' st st' Hs Hs' A A' Er. destruct (XE s Hs) as (t & nd & r & B1 & _ & B2 & B3). destruct (XE s' Hs') as (t' & nd' & r' & B1' & _ & B2' & B3').
    assert (t = st) by congruence. assert (t' = st') by congruence. subst t t'. rewrite B2, B2' in *. apply (xi_modes g rs I r r'); auto.
  - intros e e' k He He' T T' Ek Ek'. pose proof (J e He) as Je. pose proof (J e' He') as Je'. rewrite T in Je. rewrite T' in Je'. rewrite Ek in Je. rewrite Ek' in Je'.
    inversion Je as [| |k1 rn1 s1 A1 A2 A3 A4 A5| |]. inversion Je' as [| |k2 rn2 s2 B1 B2 B3 B4 B5| |]. congruence.
  - intros e He. pose proof (J e He) as Je. split.
    + intro T. rewrite T in Je. inversion Je; subst. eauto.
    + intros [k Ek]. rewrite Ek in Je. inversion Je; subst; auto.
  - intros e He T. pose proof (J e He) as Je. rewrite T in Je. inversion Je as [| |k1 rn1 s1 A1 A2 A3 A4 A5| |].
    destruct (XS k1 rn1 A1) as (s & st & nd & B1 & B2 & _). assert (s = s1) by congruence. subst s.
    assert (T3 : In (sn_city st, s1, k1) (tree_triples (xg_nodes X))) by (apply (trip_X G g rs TP freq X I H); exists rn1, st; auto).
    unfold xnodes, xnodes_of. unfold tree_triples in T3. apply in_flat_map in T3. destruct T3 as ((c & dd) & Hc & T3). apply in_flat_map in T3. destruct T3 as ((s & l) & Hs & T3).
    apply in_map_iff in T3. destruct T3 as (k & Ek & Hk). inversion Ek; subst c s k.
    apply in_split in Hc. destruct Hc as (t1 & t2 & ->). apply in_split in Hs. destruct Hs as (d1 & d2 & ->). apply in_split in Hk. destruct Hk as (k2 & k3 & ->).
    rewrite flat_map_app. cbn [flat_map]. rewrite flat_map_app. cbn [flat_map]. rewrite map_app. cbn [map].
    set (f := fun '(s, l) => ES s :: map ER l). set (h := fun '(c, d) => EC c :: flat_map f d).
    exists (flat_map h t1 ++ EC (sn_city st) :: flat_map f d1), (map ER k2), (map ER k3 ++ flat_map f d2 ++ flat_map h t2).
    clearbody f h. repeat (rewrite <- ?app_assoc; cbn [app]; rewrite <- ?app_comm_cons). reflexivity.
  - intros s s' st st' A A' Ec Em. destruct (C30_one_stop_per_node_and_mode G g rs TP freq X I H) as (ND & _).
    apply (proj1 (NoDup_nth_error _) ND).
    + rewrite map_length. apply nth_error_Some. rewrite A. discriminate.
    + rewrite (map_nth_error _ _ _ A), (map_nth_error _ _ _ A'). congruence.
Qed.
Print Assumptions built_graph_is_hyper_graph.
Theorem built_graph_weights : forall G g rs TP freq X P, ext_input g rs -> build_ext G g rs TP freq = Ok X ->
  (forall r, In r rs -> 0 <= m_theta (r_mode r)) -> 0 < q_pv P -> 0 <= q_pw P -> 0 <= q_pa P ->
  (0 < q_pw P /\ forall r, In r rs -> 0 < m_theta (r_mode r)) \/ (forall e, In e (xg_edges X) -> x_type e = ROUTE -> 0 < x_t e) -> weights X P.
Proof.
  intros G g rs TP freq X P I H HT H1 H2 H3 H4.
  assert (K : forall s st, In (ES s) (xnodes X) -> nth_error (xg_stops X) s = Some st -> exists r, In r rs /\ sn_mode st = r_mode r).
  { intros s st Hs Es. destruct (xnode_ES G g rs TP freq X I H s Hs) as (st' & nd & r & A & _ & B & C). assert (st' = st) by congruence. subst. eauto. }
  constructor; auto.
  - intros s st Hs Es. destruct (K s st Hs Es) as (r & Hr & ->). auto.
  - destruct H4 as [[H5 H6]|H4]; auto. left. split; auto. intros s st Hs Es. destruct (K s st Hs Es) as (r & Hr & ->). auto.
Qed.
Print Assumptions built_graph_weights.

(** ** What the result of the search satisfies *)
Section Result.
Context (X : xgraph) (P : qpass) (o d : option enode) (HG : hyper_graph X) (WG : weights X P).
Notation acc := (access_cost X P o).
Definition oeq (a b : option Q) : Prop := match a, b with Some x, Some y => x == y | None, None => True | _, _ => False end.
Definition cost_of (R : hresult) (n : enode) : Q := match hr_lab R n with Some q => q - acc n | None => 0 end.
Record hfacts (R : hresult) : Prop := mkHF {
  hf_lab : forall n, In n (xnodes X) -> is_min_cost X P o d n (match hr_lab R n with Some q => Some (q - acc n) | None => None end);
  hf_suc : forall n e, In e (hr_suc R n) -> In e (xg_edges X) /\ x_i e = n /\ avoids o e /\ hr_lab R (x_j e) <> None /\ hr_lab R n <> None;
  hf_nodup : forall n, NoDup (hr_suc R n);
  hf_step : forall n q, In n (xnodes X) -> d <> Some n -> hr_lab R n = Some q -> strategy_step X P d (cost_of R) n (hr_suc R n) (q - acc n);
  hf_dest : forall n, d = Some n -> hr_suc R n = [];
  hf_frq : forall n e, In e (hr_suc R n) -> x_f e <> None -> hr_frq R n == Qsumf freq_of (hr_suc R n)
}.
Lemma reduce_lab st : exists R, reduce X P o st = Ok R /\ hr_frq R = h_frq st /\
  (forall n, hr_suc R n = if olt (h_lab st n) (h_inf st n) then h_suc st n else match h_sinf st n with Some e => [e] | None => [] end) /\
  forall n, In n (xnodes X) -> match hr_lab R n, val st n with Some q, Some v => q == v + acc n | None, None => True | _, _ => False end.
Proof.
  unfold reduce. cbv zeta. set (base := fun n => if olt (h_lab st n) (h_inf st n) then h_lab st n else h_inf st n).
  assert (BV : forall n, oeq (base n) (val st n)).
  { intro n. unfold base, val, omin. destruct (olt (h_lab st n) (h_inf st n)) eqn:A.
    - destruct (olt (h_inf st n) (h_lab st n)) eqn:B.
      + apply olt_true in A. apply olt_true in B. destruct A as (x & Ex & A), B as (y & Ey & B). rewrite Ex, Ey in *. lra.
      + destruct (h_lab st n); simpl; auto. reflexivity.
    - destruct (olt (h_inf st n) (h_lab st n)) eqn:B; [destruct (h_inf st n); simpl; auto; reflexivity|].
      apply olt_false in A. apply olt_false in B. destruct (h_lab st n), (h_inf st n); simpl in *; auto; lra. }
  assert (K : forall l lab0, (forall n, In n l -> In n (xnodes X)) ->
     exists lab, foldM (fun lab n => match n with
      | ES s => if onode_is o (EC (sn_city (stop_at (xg_stops X) s))) then
                  let* a := qdiv (m_tat (sn_mode (stop_at (xg_stops X) s)) / 60 * q_pa P) (q_pv P) in
                  Ok (upd lab n (match base n with Some q => Some (q + a) | None => None end))
                else Ok lab
      | _ => Ok lab end) l lab0 = Ok lab /\
     forall n, lab n = (if existsb (enode_eqb n) l then match n with
       | ES s => if onode_is o (EC (sn_city (stop_at (xg_stops X) s))) then match base n with Some q => Some (q + acc n) | None => None end else lab0 n
       | _ => lab0 n end else lab0 n)).
  { induction l as [|n l IH]; intros lab0 Hl; [exists lab0; split; auto|]. cbn [foldM].
    assert (St : exists lab1, match n with
      | ES s => if onode_is o (EC (sn_city (stop_at (xg_stops X) s))) then
                  let* a := qdiv (m_tat (sn_mode (stop_at (xg_stops X) s)) / 60 * q_pa P) (q_pv P) in
                  Ok (upd lab0 n (match base n with Some q => Some (q + a) | None => None end))
                else Ok lab0
      | _ => Ok lab0 end = Ok lab1 /\ forall m, lab1 m = if enode_eqb m n then match m with
       | ES s => if onode_is o (EC (sn_city (stop_at (xg_stops X) s))) then match base m with Some q => Some (q + acc m) | None => None end else lab0 m
       | _ => lab0 m end else lab0 m).
    { destruct n as [k|s|k].
      - exists lab0. split; auto. intro m. destruct (enode_eqb m (EC k)) eqn:Q; auto. apply enode_eqb_eq in Q. subst. auto.
      - destruct (onode_is o (EC (sn_city (stop_at (xg_stops X) s)))) eqn:Eo.
        + rewrite qdiv_ok by (pose proof (wg_pv X P WG); lra). cbn [bind]. eexists. split; [reflexivity|]. intro m. unfold upd. destruct (enode_eqb m (ES s)) eqn:Q; auto.
          apply enode_eqb_eq in Q. subst. rewrite Eo. apply onode_is_eq in Eo.
          assert (A : acc (ES s) = m_tat (sn_mode (stop_at (xg_stops X) s)) / 60 * q_pa P / q_pv P).
          { destruct (stop_at_nth X HG s) as (st0 & E1 & E2); [apply Hl; left; auto|]. unfold access_cost. rewrite E1, Eo, E2, Nat.eqb_refl. auto. }
          rewrite A. auto.
        + exists lab0. split; auto. intro m. destruct (enode_eqb m (ES s)) eqn:Q; auto. apply enode_eqb_eq in Q. subst. rewrite Eo. auto.
      - exists lab0. split; auto. intro m. destruct (enode_eqb m (ER k)) eqn:Q; auto. apply enode_eqb_eq in Q. subst. auto. }
    destruct St as (lab1 & E1 & L1). rewrite E1. cbn [bind]. destruct (IH lab1) as (lab & E2 & L2); [intros; apply Hl; right; auto|]. exists lab. split; auto.
    intro m. rewrite L2. cbn [existsb]. specialize (L1 m). destruct (enode_eqb m n); cbn [orb].
    - destruct (existsb (enode_eqb m) l); [|auto]. destruct m; auto. destruct (onode_is o _); auto.
    - destruct (existsb (enode_eqb m) l); [|auto]. destruct m; auto. destruct (onode_is o _); auto. }
  destruct (K (tree_nodes (xg_nodes X)) base) as (lab & E1 & L1); [intros; auto|].
  eexists. split; [etransitivity; [apply (f_equal (fun r => bind r _) E1)|reflexivity]|]. cbn. split; auto. split; auto.
  intros n Hn. rewrite L1. assert (Ex : existsb (enode_eqb n) (tree_nodes (xg_nodes X)) = true). { apply existsb_exists. exists n. split; auto. apply enode_eqb_refl. }
  rewrite Ex. specialize (BV n). assert (Z : match n with ES s => if onode_is o (EC (sn_city (stop_at (xg_stops X) s))) then True else acc n == 0 | _ => acc n == 0 end).
  { destruct n as [k|s|k]; try reflexivity. destruct (onode_is o (EC (sn_city (stop_at (xg_stops X) s)))) eqn:Eo; auto. apply onode_is_neq in Eo.
    destruct (stop_at_nth X HG s Hn) as (st0 & E3 & E2). unfold access_cost. rewrite E3. rewrite E2 in Eo. destruct o as [[c|c|c]|]; try reflexivity. destruct (Nat.eqb (sn_city st0) c) eqn:Q; [|reflexivity].
    apply Nat.eqb_eq in Q. congruence. }
  destruct n as [k|s|k].
  - destruct (base (EC k)), (val st (EC k)); simpl in BV; auto. rewrite Z, BV. lra.
  - destruct (onode_is o (EC (sn_city (stop_at (xg_stops X) s)))).
    + destruct (base (ES s)), (val st (ES s)); simpl in BV; auto. rewrite BV. reflexivity.
    + destruct (base (ES s)), (val st (ES s)); simpl in BV; auto. rewrite Z, BV. lra.
  - destruct (base (ER k)), (val st (ER k)); simpl in BV; auto. rewrite Z, BV. lra.
Qed.
Lemma build_hfacts fuel : (length (xnodes X) <= fuel)%nat -> exists R, build_hyperpath fuel X P o d = Ok R /\ hfacts R.
Proof.
  intro L. destruct (h_loop_ok X P o d fuel (h_init d) (init_ordered d)) as (NT & F & _); [cbn; change (tree_nodes (xg_nodes X)) with (xnodes X); lia|].
  destruct (loop_inv X P o d HG WG fuel (h_init d) [] 0 (init_inv X P o d) NT) as (st & R0 & cur & E1 & I & Ln).
  destruct (F st E1) as [O _]. destruct (reduce_lab st) as (R & E2 & Fr & Su & La). unfold build_hyperpath. rewrite E1. cbn [bind]. exists R. split; auto.
  pose proof (inv_gi _ _ _ _ _ _ _ I) as G.
  pose proof (optimal X P o d HG WG st R0 cur I Ln) as OPT. pose proof (achieved X P o d HG st R0 cur I Ln O) as ACH.
  assert (ACHV : forall n v, val st n = Some v -> strategy_cost X P o d n v).
  { intros n v Ev. destruct (ACH n) as [A1 A2]. unfold val in Ev. destruct (omin_case (h_lab st n) (h_inf st n)) as [C|C]; rewrite C in Ev; auto. }
  assert (Hdec : forall n, d = Some n \/ d <> Some n) by (intro n; destruct d as [m|]; [destruct (enode_dec m n); [left; congruence|right; congruence]|right; discriminate]).
  assert (SUCIN : forall n e, In e (hr_suc R n) -> d <> Some n /\ In e R0 /\ x_i e = n /\ exists v, val st n = Some v).
  { intros n e He. rewrite Su in He. destruct (Hdec n) as [Hdn|Hdn].
    { destruct (gi_d _ _ _ _ _ _ _ G n Hdn) as (D1 & D2 & D3 & D4). rewrite D1, D2, D4 in He. simpl in He. destruct (Qltb 0 0) eqn:Q; [vm_compute in Q; discriminate|contradiction]. }
    split; auto. destruct (olt (h_lab st n) (h_inf st n)) eqn:OL.
    - destruct (ni_suc _ _ _ _ _ (gi_lab _ _ _ _ _ _ _ G n Hdn) e He) as (B1 & B2 & _ & x & B3 & _). split; auto. split; auto.
      pose proof (omin_l (h_lab st n) (h_inf st n)) as LE. fold (val st n) in LE. rewrite B3 in LE. destruct (val st n); [eauto|contradiction].
    - destruct (h_sinf st n) as [e'|] eqn:Es; [|contradiction]. destruct He as [<-|[]]. pose proof (ni_at _ _ _ _ _ _ (gi_inf _ _ _ _ _ _ _ G n Hdn)) as B.
      destruct (h_inf st n) as [q|] eqn:Ei; [|congruence]. destruct B as (e2 & B1 & B2 & B3 & _). rewrite Es in B1. inversion B1; subst e2. split; auto. split; auto.
      pose proof (omin_r (h_lab st n) (h_inf st n)) as LE. fold (val st n) in LE. rewrite Ei in LE. destruct (val st n); [eauto|contradiction]. }
  assert (LABV : forall n, In n (xnodes X) -> (hr_lab R n <> None <-> val st n <> None)).
  { intros n Hn. specialize (La n Hn). destruct (hr_lab R n), (val st n); split; intros; congruence || contradiction. }
  assert (R0N : forall e, In e R0 -> In e (xg_edges X) /\ avoids o e /\ In (x_i e) (xnodes X) /\ In (x_j e) (xnodes X) /\ exists v, val st (x_j e) = Some v).
  { intros e He. destruct (gi_R _ _ _ _ _ _ _ G e He) as (B1 & B2 & B3 & _). destruct (hg_ends X HG e B1). destruct (gi_fin _ _ _ _ _ _ _ G _ B3) as (_ & v & Ev & _). split; auto. split; auto. split; auto. split; auto. eauto. }
  assert (COST : forall e, In e R0 -> cost_of R (x_j e) == V st e).
  { intros e He. destruct (R0N e He) as (_ & _ & _ & Hj & v & Ev). unfold cost_of, V. specialize (La _ Hj). rewrite Ev in *. destruct (hr_lab R (x_j e)); [|contradiction]. lra. }
  constructor.
  - intros n Hn. specialize (La n Hn). destruct (hr_lab R n) as [q|].
    + destruct (val st n) as [v|] eqn:Ev; [|contradiction]. split.
      * apply (sc_compat X P o d n v); [lra|]. apply ACHV; auto.
      * intros q' SC. destruct (OPT n q' SC) as (v' & Ev' & L'). assert (v' = v) by congruence. subst. lra.
    + intros q' SC. destruct (OPT n q' SC) as (v' & Ev' & L'). rewrite Ev' in La. contradiction.
  - intros n e He. destruct (SUCIN n e He) as (_ & B2 & B3 & v & B4). destruct (R0N e B2) as (C1 & C2 & C3 & C4 & v' & C5). split; auto. split; auto. split; auto. split.
    + apply LABV; auto. congruence.
    + apply LABV; [congruence|congruence].
  - intro n. rewrite Su. destruct (Hdec n) as [Hdn|Hdn].
    + destruct (gi_d _ _ _ _ _ _ _ G n Hdn) as (D1 & D2 & D3 & D4). rewrite D3, D4. destruct (olt _ _); constructor.
    + destruct (olt _ _); [apply (gi_lab _ _ _ _ _ _ _ G n Hdn)|]. destruct (h_sinf st n); repeat constructor; auto.
  - intros n q Hn Hdn Eq. specialize (La n Hn). rewrite Eq in La. destruct (val st n) as [v|] eqn:Ev; [|contradiction]. rewrite Su.
    destruct (olt (h_lab st n) (h_inf st n)) eqn:OL.
    + pose proof (gi_lab _ _ _ _ _ _ _ G n Hdn) as NL. apply olt_true in OL. destruct OL as (x & Ex & OL).
      assert (v == x). { unfold val, omin in Ev. destruct (olt (h_inf st n) (h_lab st n)) eqn:B; [|rewrite Ex in Ev; inversion Ev; reflexivity]. apply olt_true in B. destruct B as (y & Ey & B). rewrite Ey, Ex in *. lra. }
      pose proof (ni_lab _ _ _ _ _ NL) as EQ. rewrite Ex in EQ. destruct EQ as [SN EQ]. right. split; auto. split.
      * intros e He. destruct (ni_suc _ _ _ _ _ NL e He) as (_ & _ & B & _). auto.
      * assert (q - acc n == x) by lra. rewrite H0, EQ. apply Qplus_comp; [reflexivity|]. apply Qsumf_ext. intros e He. destruct (ni_suc _ _ _ _ _ NL e He) as (B1 & B2 & (f & B3 & _) & _).
        destruct (R0N e B1) as (B4 & _). destruct (board_leg X P d HG e f B4 B3) as (_ & _ & LZ & _). rewrite LZ, (COST e B1). ring.
    + assert (EI : exists y, h_inf st n = Some y /\ y == v).
      { unfold val, omin in Ev. destruct (olt (h_inf st n) (h_lab st n)) eqn:B; [exists v; split; auto; reflexivity|]. apply olt_false in B. apply olt_false in OL. rewrite Ev in B, OL. destruct (h_inf st n) as [y|]; [|contradiction]. simpl in *. exists y. split; auto. lra. }
      destruct EI as (y & Ey & Yv). pose proof (ni_at _ _ _ _ _ _ (gi_inf _ _ _ _ _ _ _ G n Hdn)) as B. rewrite Ey in B. destruct B as (e & B1 & B2 & B3 & B4 & B5). rewrite B1. left. exists e. split; auto. split; auto.
      rewrite (COST e B2). lra.
  - intros n Hdn. destruct (hr_suc R n) as [|e l] eqn:Es; auto. destruct (SUCIN n e) as (C & _); [rewrite Es; left; auto|contradiction].
  - intros n e He Hf. destruct (SUCIN n e He) as (Hdn & HR & _). rewrite Fr. rewrite Su in *. destruct (olt _ _); [apply (ni_frq _ _ _ _ _ (gi_lab _ _ _ _ _ _ _ G n Hdn))|].
    exfalso. destruct (h_sinf st n) as [e'|] eqn:Es; [|contradiction]. destruct He as [<-|[]]. pose proof (ni_at _ _ _ _ _ _ (gi_inf _ _ _ _ _ _ _ G n Hdn)) as B.
    destruct (h_inf st n) as [q|] eqn:Ei; [|congruence]. destruct B as (e2 & B1 & B2 & B3 & B4 & _). rewrite Es in B1. inversion B1; subst e2. contradiction.
Qed.
End Result.

Lemma NoDup_map_eq {A B} (f : A -> B) l a b : NoDup (map f l) -> In a l -> In b l -> f a = f b -> a = b.
Proof.
  induction l as [|x l IH]; simpl; [contradiction|]. intros ND [->|Ha] [->|Hb] E; auto; inversion ND; subst; auto.
  - exfalso. apply H1. rewrite E. apply in_map. auto.
  - exfalso. apply H1. rewrite <- E. apply in_map. auto.
Qed.
Lemma foldM_ext {A S} (f g : S -> A -> res S) l : (forall s x, In x l -> f s x = g s x) -> forall s, foldM f l s = foldM g l s.
Proof.
  induction l as [|x l IH]; intros H s; cbn [foldM]; auto. rewrite H by (left; auto). destruct (g s x); cbn [bind]; auto. apply IH. intros; apply H; right; auto.
Qed.
Lemma mapM_ext {A B} (f g : A -> res B) l : (forall x, In x l -> f x = g x) -> mapM f l = mapM g l.
Proof.
  induction l as [|x l IH]; intros H; cbn [mapM]; auto. rewrite H by (left; auto). rewrite IH; auto. intros; apply H; right; auto.
Qed.
Lemma no_nt_mapM {A B} (f : A -> res B) l : (forall x, In x l -> no_nt (f x)) -> no_nt (mapM f l).
Proof.
  induction l as [|x l IH]; intros H; cbn [mapM]; [apply no_nt_ok|]. apply no_nt_bind; [apply H; left; auto|]. intros a _. apply no_nt_bind; [apply IH; intros; apply H; right; auto|]. intros; apply no_nt_ok.
Qed.

(** ** C34: the searches terminate on every graph, for every passenger, origin and destination *)
Lemma build_terminates X P o d : terminates_within (length (xnodes X)) (fun fuel => build_hyperpath fuel X P o d).
Proof. destruct (build_facts (length (xnodes X)) X P o d (le_n _)) as (A & B & _). split; auto. Qed.
Lemma build_same X P o d n k : (length (xnodes X) <= n)%nat -> (n <= k)%nat -> build_hyperpath k X P o d = build_hyperpath n X P o d.
Proof. intros H1 H2. destruct (build_terminates X P o d) as [_ B]. rewrite (B k), (B n); auto. lia. Qed.
Lemma build_no_nt X P o d n : (length (xnodes X) <= n)%nat -> no_nt (build_hyperpath n X P o d).
Proof. intros H. destruct (build_terminates X P o d) as [A B]. rewrite (B n); auto. Qed.
Lemma expand_terminates X P o d n R : (length (xnodes X) < n)%nat -> build_hyperpath n X P o d = Ok R ->
  forall s x, exists ps, expand n (hr_suc R) d [[ES s; x]] = Ok ps /\ forall k, (n <= k)%nat -> expand k (hr_suc R) d [[ES s; x]] = Ok ps.
Proof.
  intros L E s x. assert (L' : (length (tree_nodes (xg_nodes X)) <= n)%nat) by (change (tree_nodes (xg_nodes X)) with (xnodes X); lia).
  destruct (build_facts n X P o d L') as (_ & _ & F). destruct (F R E) as (rk & B & H).
  destruct (expand_ok (hr_suc R) d rk H n [[ES s; x]]) as [[ps Eps] S].
  - intros p [<-|[]]. split; [discriminate|]. intros _. cbn. specialize (B (ES s)). change (tree_nodes (xg_nodes X)) with (xnodes X) in B. lia.
  - exists ps. split; auto. intros k Hk. rewrite S; auto.
Qed.
Lemma hyperpath_OD_terminates X P o d n : (length (xnodes X) < n)%nat -> terminates_within n (fun fuel => hyperpath_OD fuel X P o d).
Proof.
  intro L. split.
  - unfold hyperpath_OD. apply no_nt_bind; [apply build_no_nt; lia|]. intros R E. apply no_nt_bind; [|intros; apply no_nt_ok]. apply no_nt_foldM. intros acc s _. destruct o as [x|]; [|apply no_nt_ok].
    destruct (expand_terminates X P (Some x) d n R L E s x) as (ps & -> & _). apply no_nt_ok.
  - intros k Hk. unfold hyperpath_OD. rewrite (build_same X P o d n k) by lia. destruct (build_hyperpath n X P o d) as [R|] eqn:E; auto. cbn [bind]. f_equal. apply foldM_ext.
    intros acc s _. destruct o as [x|]; auto. destruct (expand_terminates X P (Some x) d n R L E s x) as (ps & E1 & E2). rewrite E1, (E2 k Hk). auto.
Qed.
Lemma no_nt_modes l : no_nt (modes_valid l).
Proof.
  unfold modes_valid. apply no_nt_bind.
  - apply no_nt_foldM. intros w ref _. unfold add_mode. destruct (nth_error (w_heap w) ref); [|discriminate]. destruct (smem _ _); discriminate.
  - intros w _. destruct (proj2 (C18_validity_rule (map (fun ref => tm_d (nth ref (w_heap w) blank)) (mg_modes (w_mgr w))))) as [-> | ->]; discriminate.
Qed.
Lemma validator_terminates X P M n : (length (xnodes X) < n)%nat -> terminates_within n (fun fuel => network_validator fuel X P M).
Proof.
  intro L. split.
  - unfold network_validator. apply no_nt_bind; [|intros; apply no_nt_modes]. apply no_nt_foldM. intros u ((a & b) & v) _. apply no_nt_bind; [apply build_no_nt; lia|]. intros R _. destruct (existsb _ _); [apply no_nt_ok|discriminate].
  - intros k Hk. unfold network_validator. f_equal. apply foldM_ext. intros u ((a & b) & v) _. rewrite (build_same X P _ _ n k) by lia. auto.
Qed.
Theorem C34_search_terminates : forall X P o d M n, (length (xnodes X) < n)%nat ->
  terminates_within n (fun fuel => build_hyperpath fuel X P o d) /\
  terminates_within n (fun fuel => hyperpath_OD fuel X P o d) /\
  terminates_within n (fun fuel => network_validator fuel X P M) /\
  terminates_within n (fun fuel => get_all_hyperpaths fuel X P M).
Proof.
  intros X P o d M n L. split; [|split; [|split]].
  - split; [apply build_no_nt; lia|]. intros k Hk. apply build_same; lia.
  - apply hyperpath_OD_terminates; auto.
  - apply validator_terminates; auto.
  - destruct (validator_terminates X P M n L) as [V1 V2]. split.
    + unfold get_all_hyperpaths. apply no_nt_bind; auto. intros [] _; [|discriminate]. apply no_nt_mapM. intros ((a & b) & v) _. apply no_nt_bind; [apply (hyperpath_OD_terminates X P _ _ n L)|]. intros; apply no_nt_ok.
    + intros k Hk. unfold get_all_hyperpaths. rewrite (V2 k Hk). destruct (network_validator n X P M) as [[]|]; auto. cbn [bind]. apply mapM_ext. intros ((a & b) & v) _.
      rewrite (proj2 (hyperpath_OD_terminates X P (find_city X a) (find_city X b) n L) k Hk). auto.
Qed.
Print Assumptions C34_search_terminates.

(** ** C35: the labels are the minimal expected costs, plus the access time at the origin's stops *)
Theorem C35_labels_minimal : forall X P o d fuel, hyper_graph X -> weights X P -> (length (xnodes X) <= fuel)%nat ->
  exists R, build_hyperpath fuel X P o d = Ok R /\ forall n, In n (xnodes X) ->
    match hr_lab R n with
    | Some q => is_min_cost X P o d n (Some (q - access_cost X P o n))
    | None => is_min_cost X P o d n None
    end.
Proof.
  intros X P o d fuel HG WG L. destruct (build_hfacts X P o d HG WG fuel L) as (R & E & F). exists R. split; auto. intros n Hn. pose proof (hf_lab _ _ _ _ _ F n Hn). destruct (hr_lab R n); auto.
Qed.
Print Assumptions C35_labels_minimal.

(** ** C36: the successors form an acyclic strategy whose cost is the label *)
Theorem C36_strategy_realises_labels : forall X P o d fuel R, hyper_graph X -> weights X P -> (length (xnodes X) <= fuel)%nat ->
  build_hyperpath fuel X P o d = Ok R ->
  (forall n e, In e (hr_suc R n) -> In e (xg_edges X) /\ x_i e = n /\ avoids o e /\ hr_lab R (x_j e) <> None) /\
  (exists rk : enode -> nat, forall n e, In e (hr_suc R n) -> (rk (x_j e) < rk n)%nat) /\
  (forall n q, In n (xnodes X) -> d <> Some n -> hr_lab R n = Some q ->
     strategy_step X P d (fun m => match hr_lab R m with Some q => q - access_cost X P o m | None => 0 end) n (hr_suc R n) (q - access_cost X P o n)) /\
  (forall n, d = Some n \/ hr_lab R n = None -> hr_suc R n = []) /\
  (forall n, NoDup (hr_suc R n)) /\
  (forall n e, In e (hr_suc R n) -> x_f e <> None -> hr_frq R n == Qsumf freq_of (hr_suc R n)).
Proof.
  intros X P o d fuel R HG WG L E. destruct (build_hfacts X P o d HG WG fuel L) as (R' & E' & F). rewrite E in E'. inversion E'; subst R'.
  split; [|split; [|split; [|split; [|split]]]].
  - intros n e He. destruct (hf_suc _ _ _ _ _ F n e He) as (A & B & C & D & _). auto.
  - destruct (build_facts fuel X P o d) as (_ & _ & K); [exact L|]. destruct (K R E) as (rk & _ & H). exists rk. intros n e He. apply H; auto.
  - intros n q Hn Hd Hq. apply (hf_step _ _ _ _ _ F); auto.
  - intros n [Hn|Hn]; [apply (hf_dest _ _ _ _ _ F); auto|]. destruct (hr_suc R n) as [|e l] eqn:Es; auto. destruct (hf_suc _ _ _ _ _ F n e) as (_ & _ & _ & _ & C); [rewrite Es; left; auto|contradiction].
  - apply (hf_nodup _ _ _ _ _ F).
  - apply (hf_frq _ _ _ _ _ F).
Qed.
Print Assumptions C36_strategy_realises_labels.

(** ** C37: the elementary paths are the walks of the strategy *)
Lemma tree_keys X : hyper_graph X -> NoDup (map fst (xg_nodes X)) /\ (forall c dd, In (c, dd) (xg_nodes X) -> NoDup (map fst dd)).
Proof.
  intro HG. pose proof (hg_nodes X HG) as ND. unfold xnodes, xnodes_of in ND. revert ND. generalize (xg_nodes X). intro t.
  induction t as [|[c dd] t IH]; simpl; intro ND; [split; [constructor|intros ? ? []]|]. inversion ND as [|? ? N1 N2]; subst.
  assert (N3 : NoDup (flat_map (fun '(s, l) => ES s :: map ER l) dd)).
  { clear - N2. induction (flat_map (fun '(s, l) => ES s :: map ER l) dd) as [|x l IHl]; [constructor|]. simpl in N2. inversion N2; subst. constructor; auto. intro C. apply H1. apply in_or_app; auto. }
  assert (N4 : NoDup (flat_map (fun '(c, d) => EC c :: flat_map (fun '(s, l) => ES s :: map ER l) d) t)).
  { clear - N2. induction (flat_map (fun '(s, l) => ES s :: map ER l) dd) as [|x l IHl]; auto. simpl in N2. inversion N2; auto. }
  destruct (IH N4) as [I1 I2]. split.
  - constructor; auto. intro C. apply N1. apply in_or_app. right. apply in_map_iff in C. destruct C as ((c' & dd') & Ec & Hc). simpl in Ec. subst. apply in_flat_map. exists (c, dd'). split; auto. left; auto.
  - intros c' dd' [Hc|Hc]; [|eapply I2; eauto]. inversion Hc; subst. clear - N3. induction dd' as [|[s l] dd IH]; simpl in *; [constructor|]. inversion N3 as [|? ? N1 N2]; subst. constructor.
    + intro C. apply N1. apply in_or_app. right. apply in_map_iff in C. destruct C as ((s' & l') & Ec & Hc). simpl in Ec. subst. apply in_flat_map. exists (s, l'). split; auto. left; auto.
    + apply IH. clear - N2. induction (map ER l) as [|x m IHm]; auto. simpl in N2. inversion N2; auto.
Qed.
Lemma stops_at_In X c s : hyper_graph X -> (In s (stops_at X (Some (EC c))) <-> In (ES s) (xnodes X) /\ exists st, nth_error (xg_stops X) s = Some st /\ sn_city st = c).
Proof.
  intro HG. rewrite <- (hg_tree X HG c s). unfold stops_at, tree_pairs, dget0. destruct (tree_keys X HG) as [K _].
  assert (B : forall dd, In (c, dd) (xg_nodes X) -> dget Nat.eqb (xg_nodes X) c = Some dd).
  { intros dd Hin. revert K Hin. generalize (xg_nodes X). intro t. induction t as [|[a b] t IH]; simpl; [contradiction|]. intros K [Hin|Hin].
    - inversion Hin; subst. rewrite Nat.eqb_refl. auto.
    - inversion K; subst. assert (c <> a) by (intro C; subst; apply H1; apply in_map_iff; exists (a, dd); auto). apply Nat.eqb_neq in H. rewrite H. auto. }
  split.
  - destruct (dget Nat.eqb (xg_nodes X) c) as [dd|] eqn:Ed; [|intros []]. intro H. apply in_map_iff in H. destruct H as ((s' & l) & Es & Hs). simpl in Es. subst. apply in_flat_map. exists (c, dd).
    split; [|apply in_map_iff; exists (s, l); auto]. revert Ed. clear. generalize (xg_nodes X). intro t. induction t as [|[a b] t IH]; simpl; [discriminate|]. destruct (c =? a)%nat eqn:Q; intro E; [|auto]. apply Nat.eqb_eq in Q. inversion E; subst. auto.
  - intro H. apply in_flat_map in H. destruct H as ((c' & dd) & Hc & H). apply in_map_iff in H. destruct H as ((s' & l) & Es & Hs). inversion Es; subst. rewrite (B dd Hc). apply in_map_iff. exists (s, l); auto.
Qed.
Lemma stops_at_NoDup X o : hyper_graph X -> NoDup (stops_at X o).
Proof.
  intro HG. destruct o as [[c|c|c]|]; try constructor. unfold stops_at, dget0. destruct (tree_keys X HG) as [_ K]. destruct (dget Nat.eqb (xg_nodes X) c) as [dd|] eqn:Ed; [|constructor]. apply (K c dd).
  revert Ed. clear. generalize (xg_nodes X). intro t. induction t as [|[a b] t IH]; simpl; [discriminate|]. destruct (c =? a)%nat eqn:Q; intro E; [|auto]. apply Nat.eqb_eq in Q. inversion E; subst. auto.
Qed.
Lemma OD_list fuel X P x d hp R : hyperpath_OD fuel X P (Some x) d = Ok (hp, R) -> build_hyperpath fuel X P (Some x) d = Ok R /\
  exists pf : nat -> list (list enode), (forall s, In s (stops_at X (Some x)) -> expand fuel (hr_suc R) d [[ES s; x]] = Ok (pf s)) /\
    hp = flat_map (fun s => match pf s with [] => [] | ps => [(s, map (@rev enode) ps)] end) (stops_at X (Some x)).
Proof.
  unfold hyperpath_OD. intro H. apply bind_ok in H. destruct H as (R0 & E & H). apply bind_ok in H. destruct H as (hp0 & F & H). inversion H; subst. split; auto.
  exists (fun s => match expand fuel (hr_suc R) d [[ES s; x]] with Ok ps => ps | Err _ => [] end).
  assert (K : forall l acc hp, foldM (fun acc s => let* ps := expand fuel (hr_suc R) d [[ES s; x]] in Ok (match ps with [] => acc | _ => acc ++ [(s, map (@rev enode) ps)] end)) l acc = Ok hp ->
     (forall s, In s l -> exists ps, expand fuel (hr_suc R) d [[ES s; x]] = Ok ps) /\
     hp = acc ++ flat_map (fun s => match match expand fuel (hr_suc R) d [[ES s; x]] with Ok ps => ps | Err _ => [] end with [] => [] | ps => [(s, map (@rev enode) ps)] end) l).
  { induction l as [|s l IH]; intros acc hp0 H0; cbn [foldM] in H0.
    - inversion H0; subst. split; [intros s []|]. rewrite app_nil_r. auto.
    - apply bind_ok in H0. destruct H0 as (acc1 & H1 & H2). apply bind_ok in H1. destruct H1 as (ps & E1 & H1). destruct (IH _ _ H2) as [I1 I2]. split; [intros s' [<-|Hs]; eauto|].
      cbn [flat_map]. rewrite E1. rewrite I2. inversion H1; subst acc1. destruct ps; auto. rewrite <- app_assoc. auto. }
  destruct (K _ _ _ F) as [K1 K2]. split; [|exact K2]. intros s Hs. destruct (K1 s Hs) as [ps ->]. auto.
Qed.
Lemma walk_exists X P o d fuel R : hyper_graph X -> weights X P -> (length (xnodes X) <= fuel)%nat -> build_hyperpath fuel X P o d = Ok R ->
  forall n, In n (xnodes X) -> (hr_lab R n <> None <-> exists w, walk (hr_suc R) d n w).
Proof.
  intros HG WG L E. destruct (build_hfacts X P o d HG WG fuel L) as (R' & E' & F). rewrite E in E'. inversion E'; subst R'.
  destruct (build_facts fuel X P o d) as (_ & _ & K); [exact L|]. destruct (K R E) as (rk & _ & H).
  assert (Hdec : forall n, d = Some n \/ d <> Some n) by (intro n; destruct d as [m|]; [destruct (enode_dec m n); [left; congruence|right; congruence]|right; discriminate]).
  assert (W : forall k n, (rk n < k)%nat -> In n (xnodes X) -> hr_lab R n <> None -> exists w, walk (hr_suc R) d n w).
  { induction k as [|k IH]; intros n Hk Hn Hl; [lia|]. destruct (Hdec n) as [Hd|Hd]; [exists [n]; constructor; auto|].
    destruct (hr_lab R n) as [q|] eqn:El; [|congruence]. assert (NE : exists e, In e (hr_suc R n)).
    { destruct (hf_step _ _ _ _ _ F n q Hn Hd El) as [(e & -> & _)|[NE _]]; [exists e; left; auto|]. destruct (hr_suc R n) as [|e l]; [congruence|exists e; left; auto]. }
    destruct NE as [e He]. destruct (hf_suc _ _ _ _ _ F n e He) as (A & B & C & D & _). destruct (H n e He) as [_ Lr]. destruct (IH (x_j e)) as [w Hw]; auto; [lia|apply (hg_ends X HG e A)|].
    exists (n :: w). eapply wk_step; eauto. }
  intros n Hn. split; [intro Hl; apply (W (S (rk n))); auto|]. intros [w Hw] C. inversion Hw as [n' Ed|n' e p Nd He _]; subst.
  - pose proof (hf_lab _ _ _ _ _ F n Hn) as M. rewrite C in M. apply (M 0). apply sc_here; auto. reflexivity.
  - destruct (hf_suc _ _ _ _ _ F n e He) as (_ & _ & _ & _ & Q). contradiction.
Qed.
Theorem C37_elementary_paths : forall X P c d fuel, hyper_graph X -> weights X P -> (length (xnodes X) < fuel)%nat ->
  exists hp R, hyperpath_OD fuel X P (Some (EC c)) d = Ok (hp, R) /\ build_hyperpath fuel X P (Some (EC c)) d = Ok R /\
  (forall s p, (exists ps, In (s, ps) hp /\ In p ps) <->
     exists st w, In (ES s) (xnodes X) /\ nth_error (xg_stops X) s = Some st /\ sn_city st = c /\ walk (hr_suc R) d (ES s) w /\ p = EC c :: w) /\
  NoDup (map fst hp) /\
  (forall s ps, In (s, ps) hp -> NoDup ps /\ forall p, In p ps -> NoDup p) /\
  (forall s, (exists ps, In (s, ps) hp) <->
     exists st q, In (ES s) (xnodes X) /\ nth_error (xg_stops X) s = Some st /\ sn_city st = c /\ strategy_cost X P (Some (EC c)) d (ES s) q).
Proof.
  intros X P c d fuel HG WG L. assert (L' : (length (xnodes X) <= fuel)%nat) by lia.
  destruct (build_hfacts X P (Some (EC c)) d HG WG fuel L') as (R & E & F).
  assert (OKF : exists hp, hyperpath_OD fuel X P (Some (EC c)) d = Ok (hp, R)).
  { unfold hyperpath_OD. rewrite E. cbn [bind]. match goal with |- context [foldM ?f _ _] => assert (K : forall l a, exists hp, foldM f l a = Ok hp) end.
    { induction l as [|s l IH]; intro a; [exists a; auto|]. cbn [foldM]. destruct (expand_terminates X P (Some (EC c)) d fuel R L E s (EC c)) as (ps & -> & _). cbn [bind]. apply IH. }
    destruct (K (stops_at X (Some (EC c))) []) as [hp Hh]. rewrite Hh. exists hp. auto. }
  destruct OKF as [hp EO]. exists hp, R. split; auto. split; auto.
  destruct (OD_list fuel X P (EC c) d hp R EO) as (_ & pf & PF & EH).
  assert (HI : forall s ps, In (s, ps) hp <-> In s (stops_at X (Some (EC c))) /\ pf s <> [] /\ ps = map (@rev enode) (pf s)).
  { intros s ps. rewrite EH, in_flat_map. split.
    - intros (s' & Hs & H). destruct (pf s') as [|p0 ps0] eqn:Ep; [contradiction|]. destruct H as [H|[]]. inversion H; subst. rewrite Ep. split; auto. split; [discriminate|auto].
    - intros (Hs & Hn & ->). exists s. split; auto. destruct (pf s); [congruence|]. left; auto. }
  assert (PI : forall s, In s (stops_at X (Some (EC c))) -> forall q, In q (pf s) <-> exists w, walk (hr_suc R) d (ES s) w /\ q = rev w ++ [EC c]).
  { intros s Hs q. rewrite (expand_In (hr_suc R) d fuel [[ES s; EC c]] (pf s) (PF s Hs)).
    - split.
      + intros (x & p & w & [Hx|[]] & W & Q). inversion Hx; subst. eauto.
      + intros (w & W & Q). exists (ES s), [EC c], w. split; [left; auto|auto].
    - intros p [<-|[]]. discriminate. }
  destruct (build_facts fuel X P (Some (EC c)) d) as (_ & _ & K); [exact L'|]. destruct (K R E) as (rk & _ & H).
  assert (NOEC : forall n w, walk (hr_suc R) d n w -> n <> EC c -> ~ In (EC c) w).
  { intros n w W. induction W as [n Ed|n e p Nd He W IH]; intro Hn.
    - intros [C|[]]. congruence.
    - intros [C|C]; [congruence|]. destruct (hf_suc _ _ _ _ _ F n e He) as (_ & _ & [_ A] & _). apply IH; auto. intro Q. apply A. congruence. }
  assert (PATHS : forall s p, (exists ps, In (s, ps) hp /\ In p ps) <-> In s (stops_at X (Some (EC c))) /\ exists w, walk (hr_suc R) d (ES s) w /\ p = EC c :: w).
  { intros s p. split.
    - intros (ps & H1 & H2). apply HI in H1. destruct H1 as (H1 & _ & ->). split; auto. apply in_map_iff in H2. destruct H2 as (q & <- & Hq). apply PI in Hq; auto. destruct Hq as (w & W & ->). exists w. split; auto. rewrite rev_app_distr, rev_involutive. auto.
    - intros (Hs & w & W & ->). assert (Hq : In (rev w ++ [EC c]) (pf s)) by (apply PI; eauto). exists (map (@rev enode) (pf s)). split; [apply HI; split; auto; split; auto; intro C; rewrite C in Hq; contradiction|].
      apply in_map_iff. exists (rev w ++ [EC c]). split; auto. rewrite rev_app_distr, rev_involutive. auto. }
  split; [|split; [|split]].
  - intros s p. rewrite PATHS, (stops_at_In X c s HG). split.
    + intros ((H1 & st & H2 & H3) & w & W & Q). exists st, w. auto.
    + intros (st & w & H1 & H2 & H3 & W & Q). split; eauto.
  - rewrite EH. pose proof (stops_at_NoDup X (Some (EC c)) HG) as ND. clear - ND. induction (stops_at X (Some (EC c))) as [|s l IH]; simpl; [constructor|]. inversion ND; subst.
    destruct (pf s); simpl; auto. constructor; auto. intro C. apply H1. apply in_map_iff in C. destruct C as ((s' & ps) & Es & C). simpl in Es. subst. apply in_flat_map in C. destruct C as (s' & Hs & C). destruct (pf s'); [contradiction|]. destruct C as [C|[]]. inversion C; subst. auto.
  - intros s ps Hin. pose proof Hin as Hin'. apply HI in Hin. destruct Hin as (Hs & _ & ->). split.
    + apply NoDup_map_inj; [intros a b Hab; rewrite <- (rev_involutive a), <- (rev_involutive b), Hab; auto|].
      apply (expand_NoDup (hr_suc R) d) with (fuel := fuel) (ps := [[ES s; EC c]]); auto.
      * intro n. assert (P2 : NoDup (map (fun e => (x_i e, x_j e)) (hr_suc R n))).
        { apply Props_Predef.NoDup_map_inj_in; [|apply (hf_nodup _ _ _ _ _ F)]. intros a b Ha Hb Eq. destruct (hf_suc _ _ _ _ _ F n a Ha) as (A1 & _). destruct (hf_suc _ _ _ _ _ F n b Hb) as (B1 & _). eapply NoDup_map_eq; [apply (hg_pairs X HG)| | |]; eauto. }
        assert (Q : map (fun e => (x_i e, x_j e)) (hr_suc R n) = map (fun m => (n, m)) (map x_j (hr_suc R n))).
        { rewrite map_map. apply map_ext_in. intros e He. destruct (hf_suc _ _ _ _ _ F n e He) as (_ & -> & _). auto. }
        rewrite Q in P2. apply NoDup_map_inv in P2. auto.
      * repeat constructor; auto.
      * exists 2%nat. intros p [<-|[]]. simpl. split; auto.
    + intros p Hp. destruct (proj1 (PATHS s p)) as (_ & w & W & ->); [eauto|]. constructor; [apply (NOEC (ES s)); auto; discriminate|]. apply (walk_rank (hr_suc R) d rk H (ES s) w W).
  - intro s. assert (A : (exists ps, In (s, ps) hp) <-> In s (stops_at X (Some (EC c))) /\ exists w, walk (hr_suc R) d (ES s) w).
    { split.
      - intros [ps Hin]. pose proof Hin as Hin'. apply HI in Hin. destruct Hin as (Hs & Hn & ->). split; auto. destruct (pf s) as [|q l] eqn:Ep; [congruence|]. destruct (proj1 (PI s Hs q)) as (w & W & _); [rewrite Ep; left; auto|eauto].
      - intros (Hs & w & W). exists (map (@rev enode) (pf s)). apply HI. split; auto. split; auto. assert (In (rev w ++ [EC c]) (pf s)) by (apply PI; eauto). intro C. rewrite C in H0. contradiction. }
    rewrite A, (stops_at_In X c s HG). split.
    + intros ((H1 & st & H2 & H3) & W). apply (walk_exists X P (Some (EC c)) d fuel R HG WG L' E (ES s) H1) in W. pose proof (hf_lab _ _ _ _ _ F (ES s) H1) as M. destruct (hr_lab R (ES s)) as [q|]; [|congruence].
      exists st, (q - access_cost X P (Some (EC c)) (ES s)). destruct M as [M _]. auto.
    + intros (st & q & H1 & H2 & H3 & SC). split; [eauto|]. apply (walk_exists X P (Some (EC c)) d fuel R HG WG L' E (ES s) H1). intro C. pose proof (hf_lab _ _ _ _ _ F (ES s) H1) as M. rewrite C in M. apply (M q). auto.
Qed.
Print Assumptions C37_elementary_paths.

(** ** C38: the validator accepts exactly the connected networks with a usable set of modes *)
Lemma modes_add l : forall l2 l1, l = l1 ++ l2 -> NoDup (map m_name l1) ->
  let r := foldM (fun w ref => match add_mode w ref with (w', None) => Ok w' | (_, Some e) => Err e end)
              (seq (length l1) (length l2)) (mkWorld (map tmode_of l) (mkManager (map m_name l1) (seq 0 (length l1)))) in
  (NoDup (map m_name l) -> r = Ok (mkWorld (map tmode_of l) (mkManager (map m_name l) (seq 0 (length l))))) /\
  (~ NoDup (map m_name l) -> r = Err AddModeExceptions).
Proof.
  induction l2 as [|m l2 IH]; intros l1 El ND; cbv zeta.
  - rewrite app_nil_r in El. subst l1. cbn [length seq foldM]. split; auto. contradiction.
  - cbn [length seq foldM].
    assert (En : nth_error (map tmode_of l) (length l1) = Some (tmode_of m)).
    { rewrite El, map_app, nth_error_app2; rewrite map_length; [|lia]. rewrite Nat.sub_diag. reflexivity. }
    assert (Ea : add_mode (mkWorld (map tmode_of l) (mkManager (map m_name l1) (seq 0 (length l1)))) (length l1) =
        if smem (m_name m) (map m_name l1) then (mkWorld (map tmode_of l) (mkManager (map m_name l1) (seq 0 (length l1))), Some AddModeExceptions)
        else (mkWorld (map tmode_of l) (mkManager (map m_name l1 ++ [m_name m]) (seq 0 (length l1) ++ [length l1])), None)).
    { unfold add_mode. cbn [w_heap w_mgr mg_names mg_modes]. rewrite En. reflexivity. }
    rewrite Ea. destruct (smem (m_name m) (map m_name l1)) eqn:Es.
    + apply smem_In in Es. cbn [bind]. split; auto. intro C. exfalso. rewrite El, map_app in C. cbn [map] in C. apply NoDup_remove_2 in C. apply C. apply in_or_app; auto.
    + cbn [bind]. specialize (IH (l1 ++ [m])). rewrite <- app_assoc in IH. specialize (IH El). rewrite map_app, app_length in IH. cbn [map length] in IH.
      replace (length l1 + 1)%nat with (S (length l1)) in IH by lia. rewrite seq_S in IH. cbn [plus] in IH. apply IH.
      apply NoDup_app; auto; [repeat constructor; auto|]. intros x Hx [<-|[]]. apply smem_In in Hx. congruence.
Qed.
Lemma modes_valid_spec l :
  (NoDup (map m_name l) -> (usable_modes l -> modes_valid l = Ok true) /\ (~ usable_modes l -> modes_valid l = Err TransportNetworkException)) /\
  (~ NoDup (map m_name l) -> modes_valid l = Err AddModeExceptions).
Proof.
  destruct (modes_add l l [] eq_refl (NoDup_nil _)) as [A B]. cbn [length map seq] in A, B. unfold modes_valid. change (mkManager [] []) with empty_manager in A, B. split.
  - intro ND. rewrite (A ND). cbn [bind w_heap w_mgr mg_modes].
    assert (E : map (fun ref => tm_d (nth ref (map tmode_of l) blank)) (seq 0 (length l)) = map (fun m => Fin (m_d m)) l).
    { apply nth_error_ext. intro k. destruct (nth_error l k) as [m|] eqn:Em.
      - assert (Hk : (k < length l)%nat) by (apply nth_error_Some; rewrite Em; discriminate).
        rewrite (map_nth_error _ _ _ Em). rewrite (map_nth_error _ k (seq 0 (length l)) (d := k)).
        + rewrite (nth_error_nth _ _ _ (map_nth_error tmode_of _ _ Em)). auto.
        + rewrite (nth_error_nth' (seq 0 (length l)) 0%nat) by (rewrite seq_length; auto). rewrite seq_nth; auto.
      - apply nth_error_None in Em. rewrite (proj2 (nth_error_None _ _)); [|rewrite map_length, seq_length; auto]. rewrite (proj2 (nth_error_None _ _)); auto. rewrite map_length. auto. }
    rewrite E. destruct (C18_validity_rule (map (fun m => Fin (m_d m)) l)) as [V1 V2].
    assert (U : (length (map (fun m => Fin (m_d m)) l) = 1%nat \/ (length (map (fun m => Fin (m_d m)) l) = 2%nat /\ exists d q, In d (map (fun m => Fin (m_d m)) l) /\ d = Fin q /\ q == 1)) <-> usable_modes l).
    { unfold usable_modes. rewrite map_length. split; intros [H|[H1 H2]]; auto; right; split; auto.
      - destruct H2 as (d & q & H2 & H3 & H4). apply in_map_iff in H2. destruct H2 as (m & Em & Hm). exists m. split; auto. rewrite H3 in Em. inversion Em as [Eq]. rewrite Eq. auto.
      - destruct H2 as (m & Hm & Hq). exists (Fin (m_d m)), (m_d m). split; auto. apply in_map_iff. eauto. }
    rewrite U in V1. split; [apply V1|]. intro NU. destruct V2 as [V2|V2]; auto. apply V1 in V2. contradiction.
  - intro ND. rewrite (B ND). auto.
Qed.
Lemma list_modes_spec X : hyper_graph X -> NoDup (list_modes X) /\ forall m, In m (list_modes X) <-> used_mode X m.
Proof.
  intro HG. unfold list_modes. set (f := fun l '(c, s) => _).
  assert (P1 : forall c s, In (c, s) (tree_pairs (xg_nodes X)) -> exists st, In (ES s) (xnodes X) /\ nth_error (xg_stops X) s = Some st /\ stop_at (xg_stops X) s = st).
  { intros c s H. apply (hg_tree X HG) in H. destruct H as (H1 & st & H2 & _). exists st. split; auto. split; auto. unfold stop_at. eapply nth_error_nth; eauto. }
  assert (P2 : forall s, In (ES s) (xnodes X) -> exists c, In (c, s) (tree_pairs (xg_nodes X))).
  { intros s Hs. destruct (hg_stops X HG s Hs) as [st Es]. exists (sn_city st). apply (hg_tree X HG). eauto. }
  assert (K : forall ps, (forall c s, In (c, s) ps -> In (c, s) (tree_pairs (xg_nodes X))) -> NoDup (fold_left f ps []) /\
     forall m, In m (fold_left f ps []) <-> exists c s, In (c, s) ps /\ sn_mode (stop_at (xg_stops X) s) = m).
  { induction ps as [|[c s] ps IH] using rev_ind; intro Hps; [simpl; split; [constructor|]; intro m; split; [intros []|intros (c & s & [] & _)]|].
    rewrite fold_left_app. cbn [fold_left]. destruct IH as [I1 I2]; [intros; apply Hps; apply in_or_app; auto|]. unfold f at 1 3. cbv zeta. set (m0 := sn_mode (stop_at (xg_stops X) s)).
    destruct (P1 c s) as (st & A1 & A2 & A3); [apply Hps, in_or_app; right; left; auto|].
    destruct (existsb (fun m' => mode_eqb m' m0) (fold_left f ps [])) eqn:Ex.
    - split; auto. intro m. rewrite I2. split; [intros (c' & s' & H & E); exists c', s'; split; auto; apply in_or_app; auto|].
      intros (c' & s' & H & E). apply in_app_or in H. destruct H as [H|[H|[]]]; eauto. inversion H; subst c' s'. apply existsb_exists in Ex. destruct Ex as (m1 & H1 & H2). apply I2 in H1. destruct H1 as (c2 & s2 & H3 & H4).
      exists c2, s2. split; auto. destruct (P1 c2 s2) as (st2 & B1 & B2 & B3); [apply Hps, in_or_app; auto|]. unfold mode_eqb in H2. apply Z.eqb_eq in H2. rewrite <- E. unfold m0 in *. rewrite A3, B3 in *. rewrite <- H4 in H2. apply (hg_modes X HG s2 s); auto.
    - split.
      + apply NoDup_app; auto; [repeat constructor; auto|]. intros x Hx [<-|[]]. assert (C : existsb (fun m' => mode_eqb m' m0) (fold_left f ps []) = true) by (apply existsb_exists; exists m0; split; auto; unfold mode_eqb; apply Z.eqb_refl). congruence.
      + intro m. rewrite in_app_iff, I2. split.
        * intros [(c' & s' & H & E)|[<-|[]]]; [exists c', s'; split; auto; apply in_or_app; auto|]. exists c, s. split; auto. apply in_or_app. right; left; auto.
        * intros (c' & s' & H & E). apply in_app_or in H. destruct H as [H|[H|[]]]; [left; eauto|]. inversion H; subst. right; left; auto. }
  destruct (K (tree_pairs (xg_nodes X))) as [K1 K2]; auto. split; auto. intro m. rewrite K2. unfold used_mode. split.
  - intros (c & s & H & E). destruct (P1 c s H) as (st & A1 & A2 & A3). exists s, st. rewrite A3 in E. auto.
  - intros (s & st & H1 & H2 & H3). destruct (P2 s H1) as [c Hc]. exists c, s. split; auto. destruct (P1 c s Hc) as (st' & _ & B2 & B3). rewrite B3. congruence.
Qed.
Lemma EC_In X c : In (EC c) (xnodes X) <-> exists dd, In (c, dd) (xg_nodes X).
Proof.
  unfold xnodes, xnodes_of. rewrite in_flat_map. split.
  - intros ((c' & dd) & H & Hin). destruct Hin as [Hin|Hin]; [inversion Hin; subst; eauto|]. apply in_flat_map in Hin. destruct Hin as ((s & l) & _ & Hin). destruct Hin as [Hin|Hin]; [discriminate|]. apply in_map_iff in Hin. destruct Hin as (k & Ek & _). discriminate.
  - intros [dd H]. exists (c, dd). split; auto. left; auto.
Qed.
Lemma find_city_spec X z : served_city X z (find_city X z).
Proof.
  unfold find_city. set (f := fun acc '(c, _) => _).
  assert (K : forall t, match fold_left f t None with
     | Some (EC c) => (exists dd, In (c, dd) t) /\ nd_id (gnode (xg_graph X) c) = z
     | Some _ => False
     | None => forall c dd, In (c, dd) t -> nd_id (gnode (xg_graph X) c) <> z end).
  { induction t as [|[c dd] t IH] using rev_ind; [intros c dd []|]. rewrite fold_left_app. cbn [fold_left]. unfold f at 1. destruct (z =? nd_id (gnode (xg_graph X) c))%Z eqn:Q.
    - apply Z.eqb_eq in Q. split; auto. exists dd. apply in_or_app. right; left; auto.
    - apply Z.eqb_neq in Q. fold f. destruct (fold_left f t None) as [[c'|c'|c']|]; auto.
      + destruct IH as [[dd' H] E]. split; auto. exists dd'. apply in_or_app; auto.
      + intros c' dd' H. apply in_app_or in H. destruct H as [H|[H|[]]]; [eauto|]. inversion H; subst. congruence. }
  specialize (K (xg_nodes X)). destruct (fold_left f (xg_nodes X) None) as [[c|c|c]|]; simpl; auto.
  - destruct K as [K1 K2]. split; auto. apply EC_In. auto.
  - intros c Hc. apply EC_In in Hc. destruct Hc as [dd Hc]. eauto.
Qed.
Lemma served_unique X z a b : hyper_graph X -> served_city X z a -> served_city X z b -> a = b.
Proof.
  intros HG A B. destruct a as [[c|c|c]|], b as [[c'|c'|c']|]; simpl in *; try contradiction; auto.
  - destruct A, B. f_equal. f_equal. apply (hg_city X HG); auto. congruence.
  - destruct A. exfalso. apply (B c); auto.
  - destruct B. exfalso. apply (A c'); auto.
Qed.
Lemma pair_check X P fuel o d : hyper_graph X -> weights X P -> (length (xnodes X) <= fuel)%nat ->
  exists R, build_hyperpath fuel X P (find_city X o) (find_city X d) = Ok R /\
  (existsb (fun s => match hr_lab R (ES s) with Some _ => true | None => false end) (stops_at X (find_city X o)) = true <-> connected X P o d).
Proof.
  intros HG WG L. destruct (build_hfacts X P (find_city X o) (find_city X d) HG WG fuel L) as (R & E & F). exists R. split; auto.
  rewrite existsb_exists. split.
  - intros (s & Hs & Hl). pose proof (find_city_spec X o) as SO. destruct (find_city X o) as [[c|c|c]|] eqn:Eo; try contradiction.
    apply (stops_at_In X c s HG) in Hs. destruct Hs as (H1 & st & H2 & H3). pose proof (hf_lab _ _ _ _ _ F (ES s) H1) as M. destruct (hr_lab R (ES s)) as [q|]; [|discriminate]. destruct M as [M _].
    exists c, (find_city X d), s, st, (q - access_cost X P (Some (EC c)) (ES s)). split; auto. split; [apply find_city_spec|]. auto.
  - intros (c & dest & s & st & q & H1 & H2 & H3 & H4 & H5 & SC).
    assert (Eo : find_city X o = Some (EC c)) by (eapply served_unique; eauto; apply find_city_spec). assert (Ed : find_city X d = dest) by (eapply served_unique; eauto; apply find_city_spec).
    rewrite Eo, Ed in *. exists s. split; [apply (stops_at_In X c s HG); split; eauto|]. pose proof (hf_lab _ _ _ _ _ F (ES s) H3) as M. destruct (hr_lab R (ES s)) as [y|]; auto. exfalso. apply (M q). auto.
Qed.
Lemma od_pairs_In M o d v : In (o, d, v) (od_pairs M) <-> has_trips M o d v.
Proof.
  unfold od_pairs, has_trips. rewrite filter_In, in_flat_map. split.
  - intros [((a & row) & H1 & H2) H3]. apply in_map_iff in H2. destruct H2 as ((b & q) & E & H2). inversion E; subst. exists row. split; auto. split; auto. apply negb_true_iff in H3. apply Qeqb_neq in H3. auto.
  - intros (row & H1 & H2 & H3). split; [exists (o, row); split; auto; apply in_map_iff; exists (d, v); auto|]. apply negb_true_iff, Qeqb_neq. auto.
Qed.
Theorem C38_validator : forall X P M fuel, hyper_graph X -> weights X P -> (length (xnodes X) <= fuel)%nat ->
  exists used, NoDup used /\ (forall m, In m used <-> used_mode X m) /\
  ((forall o d v, has_trips M o d v -> connected X P o d) ->
     (NoDup (map m_name used) -> usable_modes used -> network_validator fuel X P M = Ok true) /\
     (NoDup (map m_name used) -> ~ usable_modes used -> network_validator fuel X P M = Err TransportNetworkException) /\
     (~ NoDup (map m_name used) -> network_validator fuel X P M = Err AddModeExceptions)) /\
  ((exists o d v, has_trips M o d v /\ ~ connected X P o d) -> network_validator fuel X P M = Err TransportNetworkException).
Proof.
  intros X P M fuel HG WG L. destruct (list_modes_spec X HG) as [L1 L2]. exists (list_modes X). split; auto. split; auto.
  unfold network_validator. set (f := fun (_ : unit) '(o, d, v) => _).
  assert (K : forall l, ((forall o d v, In (o, d, v) l -> connected X P o d) -> foldM f l tt = Ok tt) /\ ((exists o d v, In (o, d, v) l /\ ~ connected X P o d) -> foldM f l tt = Err TransportNetworkException)).
  { induction l as [|((o & d) & v) l [IH1 IH2]]; [split; auto; intros (o & d & v & [] & _)|]. cbn [foldM]. unfold f at 1 3.
    destruct (pair_check X P fuel o d HG WG L) as (R & E & C). rewrite E. cbn [bind]. destruct (existsb _ _) eqn:Ex.
    - assert (Hc : connected X P o d) by (apply C; auto). cbn [bind]. split.
      + intro H. apply IH1. intros; eapply H; right; eauto.
      + intros (o' & d' & v' & [H|H] & N); [inversion H; subst; contradiction|]. apply IH2. eauto 6.
    - assert (Hc : ~ connected X P o d) by (intro Hc; apply C in Hc; congruence). cbn [bind]. split; auto. intro H. exfalso. apply Hc. apply (H o d v). left; auto. }
  destruct (K (od_pairs M)) as [K1 K2]. destruct (modes_valid_spec (list_modes X)) as [V1 V2]. split.
  - intro H. rewrite K1; [|intros o d v Hin; apply od_pairs_In in Hin; eauto]. cbn [bind]. split; [intros ND U; apply V1; auto|]. split; [intros ND U; apply V1; auto|auto].
  - intros (o & d & v & H1 & H2). rewrite K2; auto. exists o, d, v. split; auto. apply od_pairs_In. auto.
Qed.
Print Assumptions C38_validator.
(** trips from a node to itself are never connected: the search may not use the edges of the origin *)
Lemma no_cycle_strategy X P x n q : strategy_cost X P (Some x) (Some x) n q -> n = x.
Proof.
  intro H. induction H as [n q E _|e c q He Ef [_ A] _ IH _|n es q Ne _ Hes _ IH _].
  - congruence.
  - exfalso. apply A. congruence.
  - exfalso. destruct es as [|[e c] es]; [congruence|]. destruct (Hes e c (or_introl eq_refl)) as (_ & _ & _ & [_ A]). apply A. rewrite (IH e c (or_introl eq_refl)). auto.
Qed.
Theorem C38_intrazonal_trips_rejected : forall X P M fuel z v, hyper_graph X -> weights X P -> (length (xnodes X) <= fuel)%nat ->
  has_trips M z z v -> network_validator fuel X P M = Err TransportNetworkException.
Proof.
  intros X P M fuel z v HG WG L H. destruct (C38_validator X P M fuel HG WG L) as (_ & _ & _ & _ & K). apply K. exists z, z, v. split; auto.
  intros (c & dest & s & st & q & H1 & H2 & H3 & H4 & H5 & SC). assert (Ed : dest = Some (EC c)) by (eapply served_unique; eauto). subst dest. apply no_cycle_strategy in SC. discriminate.
Qed.
Print Assumptions C38_intrazonal_trips_rejected.

(** ** C39: the search raises no arithmetic error when pv > 0 *)
Theorem C39_search_never_fails : forall X P o d fuel, hyper_graph X -> weights X P -> (length (xnodes X) < fuel)%nat ->
  (exists R, build_hyperpath fuel X P o d = Ok R) /\ (exists r, hyperpath_OD fuel X P o d = Ok r).
Proof.
  intros X P o d fuel HG WG L. assert (L' : (length (xnodes X) <= fuel)%nat) by lia.
  destruct (build_hfacts X P o d HG WG fuel L') as (R & E & F). split; [eauto|].
  unfold hyperpath_OD. rewrite E. cbn [bind]. match goal with |- context [foldM ?f _ _] => assert (K : forall l a, exists hp, foldM f l a = Ok hp) end.
  { induction l as [|s l IH]; intro a; [exists a; auto|]. cbn [foldM]. destruct o as [x|]; [|apply IH]. destruct (expand_terminates X P (Some x) d fuel R L E s x) as (ps & -> & _). cbn [bind]. apply IH. }
  destruct (K (stops_at X o) []) as [hp Hh]. rewrite Hh. eexists. reflexivity.
Qed.
Print Assumptions C39_search_never_fails.

(** ** Concrete networks satisfying the hypotheses *)
Definition ex_P : qpass := mkPass 4 (274#100) (548#100) (822#100) 16 1 1 1 1.
Definition ex_P0 : qpass := mkPass 4 0 (548#100) (822#100) 16 1 1 1 1.
Definition ex_tang_metro : route := mkRoute "m" ex_metro [1;2;4;3]%Z [3;4;2;1]%Z [2;3]%Z [3;2]%Z CUSTOM.
Definition ex_freq : option (list (string * Q)) := Some [("t"%string, 5); ("m"%string, 6)].
Definition ex_X2 : xgraph := match build_ext ex_geo ex_g34 [ex_tang; ex_tang_express] 16 None with Ok X => X | Err _ => mkXgraph empty_graph [] [] [] [] end.
Definition ex_X3 : xgraph := match build_ext ex_geo ex_g34 [ex_tang; ex_tang_metro] 16 ex_freq with Ok X => X | Err _ => mkXgraph empty_graph [] [] [] [] end.
Example ex_X2_built : build_ext ex_geo ex_g34 [ex_tang; ex_tang_express] 16 None = Ok ex_X2.
Proof. vm_compute. reflexivity. Qed.
Example ex_X3_built : build_ext ex_geo ex_g34 [ex_tang; ex_tang_metro] 16 ex_freq = Ok ex_X3.
Proof. vm_compute. reflexivity. Qed.
Example ex_X2_input : ext_input ex_g34 [ex_tang; ex_tang_express].
Proof. ext_input_tac. Qed.
Example ex_X3_input : ext_input ex_g34 [ex_tang; ex_tang_metro].
Proof. ext_input_tac. Qed.
Lemma ex_sqrt_nonneg q : 0 <= geo_sqrt ex_geo q.
Proof. unfold geo_sqrt, ex_geo, ex_sqrt, Qle. simpl. pose proof (Z.sqrt_nonneg (Qnum (Qred q))). lia. Qed.
Ltac modes_tac := intros r Hr; repeat (destruct Hr as [<-|Hr]); try contradiction; repeat split; vm_compute; try discriminate; reflexivity.
Example ex_X2_hyper : hyper_graph ex_X2 /\ weights ex_X2 ex_P /\ (length (xnodes ex_X2) < 40)%nat.
Proof.
  split; [|split].
  - eapply built_graph_is_hyper_graph; [exact ex_X2_input|exact ex_X2_built|exact ex_sqrt_nonneg|discriminate|modes_tac|].
    intro id. unfold route_frequency. simpl. destruct (id =? "t")%string, (id =? "te")%string; discriminate.
  - eapply built_graph_weights; [exact ex_X2_input|exact ex_X2_built|modes_tac|reflexivity|discriminate|discriminate|]. left. split; [reflexivity|modes_tac].
  - vm_compute. lia.
Qed.
Example ex_X3_hyper : hyper_graph ex_X3 /\ weights ex_X3 ex_P /\ (length (xnodes ex_X3) < 40)%nat.
Proof.
  split; [|split].
  - eapply built_graph_is_hyper_graph; [exact ex_X3_input|exact ex_X3_built|exact ex_sqrt_nonneg|discriminate|modes_tac|].
    intro id. unfold route_frequency, ex_freq, dget0. cbn [dget]. repeat match goal with |- context [String.eqb ?a ?b] => destruct (String.eqb a b) end; vm_compute; discriminate.
  - eapply built_graph_weights; [exact ex_X3_input|exact ex_X3_built|modes_tac|reflexivity|discriminate|discriminate|]. left. split; [reflexivity|modes_tac].
  - vm_compute. lia.
Qed.
(** two attractive lines share the demand of the first OD pair; the label and the paths of the search *)
Example C35_ex : exists R, build_hyperpath 40 ex_X2 ex_P (find_city ex_X2 1) (find_city ex_X2 3) = Ok R /\
  option_map Qred (hr_lab R (ES 0)) = Some (5 # 8) /\ map x_j (hr_suc R (ES 0)) = [ER 0; ER 8] /\ hr_frq R (ES 0) == 56.
Proof. vm_compute. eexists. repeat split. Qed.
Example C37_ex : exists R, hyperpath_OD 40 ex_X2 ex_P (find_city ex_X2 1) (find_city ex_X2 3) = Ok
  ([(0%nat, [[EC 1; ES 0; ER 0; ER 1; ER 2; ER 3; ES 2; EC 3]; [EC 1; ES 0; ER 8; ER 9; ES 2; EC 3]])], R).
Proof. vm_compute. eexists. reflexivity. Qed.
Example C38_ex : network_validator 40 ex_X2 ex_P [(1%Z, [(3%Z, 5); (2%Z, 0)]); (3%Z, [(1%Z, 7)])] = Ok true /\
  network_validator 40 ex_X2 ex_P [(1%Z, [(3%Z, 5); (5%Z, 2)])] = Err TransportNetworkException /\
  network_validator 40 ex_X2 ex_P [(1%Z, [(1%Z, 5)])] = Err TransportNetworkException /\
  network_validator 40 ex_X3 ex_P [(1%Z, [(3%Z, 5)])] = Ok true.
Proof. vm_compute. repeat split. Qed.
(** At a stop where walking back to the city node is better than waiting, the reported frequency is still
    the one of the lines tried before, none of which is a successor. *)
Theorem C36_frequency_of_walking_stop_refuted : exists G g rs TP freq X P o d fuel R n, ext_input g rs /\
  build_ext G g rs TP freq = Ok X /\ hyper_graph X /\ weights X P /\ (length (xnodes X) < fuel)%nat /\
  build_hyperpath fuel X P o d = Ok R /\ In n (xnodes X) /\ hr_suc R n <> [] /\ ~ hr_frq R n == Qsumf freq_of (hr_suc R n).
Proof.
  destruct ex_X3_hyper as (A & B & C).
  exists ex_geo, ex_g34, [ex_tang; ex_tang_metro], 16, ex_freq, ex_X3, ex_P, (find_city ex_X3 1), (find_city ex_X3 3), 40%nat. eexists. exists (ES 1).
  split; [exact ex_X3_input|]. split; [exact ex_X3_built|]. do 3 (split; [assumption|]). split; [vm_compute; reflexivity|]. split; [vm_compute; tauto|]. split; vm_compute; discriminate.
Qed.
Print Assumptions C36_frequency_of_walking_stop_refuted.
(** the setters accept pv = 0, and then the search raises whatever the other parameters *)
Theorem C39_free_travel_time_refuted : exists G g rs TP X P o d n, ext_input g rs /\ build_ext G g rs TP None = Ok X /\ hyper_graph X /\
  (forall s st, In (ES s) (xnodes X) -> nth_error (xg_stops X) s = Some st -> 0 < m_theta (sn_mode st)) /\
  q_pv P == 0 /\ 0 < q_pw P /\ 0 < q_pa P /\ forall fuel, (n <= fuel)%nat -> build_hyperpath fuel X P o d = Err ZeroDivisionError.
Proof.
  destruct ex_X2_hyper as (A & B & C).
  exists ex_geo, ex_g34, [ex_tang; ex_tang_express], 16, ex_X2, ex_P0, (find_city ex_X2 1), (find_city ex_X2 3), 40%nat.
  split; [exact ex_X2_input|]. split; [exact ex_X2_built|]. split; [assumption|]. split.
  { assert (W : weights ex_X2 ex_P) by assumption. intros s st Hs Es. destruct (xnode_ES _ _ _ _ _ _ ex_X2_input ex_X2_built s Hs) as (st' & nd & r & E' & _ & Em & Hr). rewrite Es in E'. inversion E'; subst st'. rewrite Em. destruct Hr as [Hr|[Hr|[]]]; rewrite <- Hr; reflexivity. }
  do 3 (split; [reflexivity|]). intros fuel L. destruct (C34_search_terminates ex_X2 ex_P0 (find_city ex_X2 1) (find_city ex_X2 3) [] 40 C) as ((_ & T) & _). rewrite (T fuel L). vm_compute. reflexivity.
Qed.
Print Assumptions C39_free_travel_time_refuted.
(** with theta = 0 and pw = 0 the search still succeeds when the rides take time *)
Example C39_ex : exists R, build_hyperpath 40 ex_X2 (mkPass 4 (274#100) 0 (822#100) 16 1 1 1 1) (find_city ex_X2 1) (find_city ex_X2 3) = Ok R /\
  option_map Qred (hr_lab R (ES 0)) = Some (3 # 5).
Proof. vm_compute. eexists. split; reflexivity. Qed.
