(** * Props_Idle: C81, a line that does not run makes no difference to the travellers *)
From Coq Require Import String List ZArith QArith Bool Lia Lqa.
From Verif Require Import PyBase PyFacts Graph GraphProofs GeoEx Mode Route RouteSpec
  Mode Props_Mode Network Props_Network ExtGraph ExtSpec ExtProofs Props_Ext Hyperpath HyperSpec Props_Hyper Props_Better.
Import ListNotations.
Local Open Scope Q_scope.

(** ** From the graph with the idle lines to the graph without them *)
Section Idle.
Context (G : geo) (g : graph) (rs rs' : list route) (TP : Q) (freq freq' : option (list (string * Q))) (X X' : xgraph).
Context (Hincl : forall r, In r rs -> In r rs') (NDr : NoDup (map r_id rs)) (NDr' : NoDup (map r_id rs')).
Context (I' : ext_input g rs').
Context (HX : build_ext G g rs TP freq = Ok X) (HX' : build_ext G g rs' TP freq' = Ok X').
Let I : ext_input g rs := ext_input_sub g rs rs' Hincl I'.
Let F := facts_of _ _ _ _ _ _ I HX.
Let F' := facts_of _ _ _ _ _ _ I' HX'.
Let pi : nat -> nat := shift 0 (lines rs) (lines rs').
Let PR := pre_rn G g rs rs' TP TP freq freq' X X' Hincl NDr' I' HX HX'.
Lemma in_lines r d l : In r l -> In (r, d) (lines l).
Proof. intro H. unfold lines. apply in_flat_map. exists r. split; auto. destruct d; cbn; auto. Qed.
Lemma pi_onto q rn' : nth_error (xg_rnodes X') q = Some rn' -> In (rn_route rn') rs -> exists k rn, nth_error (xg_rnodes X) k = Some rn /\ pi k = q.
Proof.
  intros H Hr. rewrite (ef_rn _ _ _ _ _ _ F') in H. destruct (rns_visit g rs' I' q rn' H) as (r & d & z & s & st & nd & A1 & A2 & A3 & A4 & _). rewrite A2 in Hr.
  change (all_visits rs') with (visits_of (lines rs')) in A4. assert (Hq : (q < lsum (lines rs'))%nat) by (rewrite <- visits_of_len; apply nth_error_Some; congruence).
  destruct (block_of (lines rs') q Hq) as (a' & x & b' & j & E' & -> & Hj). rewrite E', visits_of_at in A4 by auto. rewrite nth_error_map in A4. destruct (nth_error _ j) as [z'|]; [|discriminate]. cbn [option_map] in A4. injection A4 as E1 E2 E3.
  assert (Hx : In x (lines rs)) by (replace x with (r, d) by (destruct x; cbn in *; congruence); apply in_lines; auto). apply in_split in Hx. destruct Hx as (a & b & E).
  destruct (shift_block (lines rs) (lines rs') (lines_keys _ NDr') (lines_incl _ _ Hincl) a x b j E Hj) as (a2 & b2 & E2' & S).
  assert (L : lsum a2 = lsum a').
  { pose proof (lines_keys _ NDr') as K. assert (O1 : off (lines rs') x = lsum a') by (rewrite E' in K |- *; apply off_at; exact K).
    assert (O2 : off (lines rs') x = lsum a2) by (rewrite E2' in K |- *; apply off_at; exact K). congruence. }
  assert (Hk : (lsum a + j < length (xg_rnodes X))%nat).
  { rewrite (ef_rn _ _ _ _ _ _ F), rns_len. change (all_visits rs) with (visits_of (lines rs)). rewrite visits_of_len, E. clear - Hj. unfold lsum. rewrite fold_right_app. cbn [fold_right].
    assert (Q : forall l n, fold_right (fun x n => llen x + n)%nat n l = (fold_right (fun x n => llen x + n)%nat 0%nat l + n)%nat) by (induction l as [|y l IH]; intro n; cbn [fold_right]; [reflexivity|rewrite IH; lia]).
    rewrite (Q a (_ + _)%nat). lia. }
  destruct (nth_error (xg_rnodes X) (lsum a + j)) as [rn|] eqn:Ek; [|apply nth_error_None in Ek; lia]. exists (lsum a + j)%nat, rn. split; auto. unfold pi. rewrite S, L. reflexivity.
Qed.
Context (HG : hyper_graph X) (HG' : hyper_graph X').
Context (Hsame : forall r d z, In r rs -> In z (nodes_of r d) -> stopped_at rs' z -> stopped_at rs z).
Let XN := xnode_X G g rs rs' TP freq X Hincl I' HX.
Let XN' := xnode_X' G g rs' TP freq' X' I' HX'.
(** the stop exists for the idle lines only *)
Definition idle_stop (s : nat) (st : stopnode) : Prop :=
  In (ES s) (xnodes X') /\ nth_error (xg_stops X') s = Some st /\ forall s0, In (ES s0) (xnodes X) -> nth_error (xg_stops X) s0 <> Some st.
Definition back (n n' : enode) : Prop := In n' (xnodes X) /\
  (same_node rs rs' X X' n' n \/ exists s st, n = ES s /\ n' = EC (sn_city st) /\ idle_stop s st).
Lemma stop_cases s st : In (ES s) (xnodes X') -> nth_error (xg_stops X') s = Some st ->
  (exists s0, In (ES s0) (xnodes X) /\ nth_error (xg_stops X) s0 = Some st) \/ idle_stop s st.
Proof.
  intros Hs Es. set (test := fun n => match n with ES s0 => match nth_error (xg_stops X) s0 with Some st0 => ((m_ref (sn_mode st0) =? m_ref (sn_mode st))%Z && Nat.eqb (sn_city st0) (sn_city st))%bool | None => false end | _ => false end).
  destruct (existsb test (xnodes X)) eqn:E.
  - left. apply existsb_exists in E. destruct E as (n & Hn & T). unfold test in T. destruct n as [|s0|]; try discriminate. destruct (nth_error (xg_stops X) s0) as [st0|] eqn:E0; [|discriminate]. apply andb_true_iff in T. destruct T as [T1 T2].
    apply Z.eqb_eq in T1. apply Nat.eqb_eq in T2. exists s0. split; auto. rewrite E0. f_equal.
    destruct (xnode_ES _ _ _ _ _ _ I HX s0 Hn) as (st1 & nd & r & A1 & _ & A2 & A3). destruct (xnode_ES _ _ _ _ _ _ I' HX' s Hs) as (st2 & nd2 & r2 & B1 & _ & B2 & B3).
    assert (st1 = st0) by congruence. assert (st2 = st) by congruence. subst st1 st2. destruct st0 as [m0 c0], st as [m c]. cbn [sn_mode sn_city] in *. f_equal; auto. rewrite A2, B2 in *. eapply (xi_modes _ _ I'); eauto.
  - right. split; auto. split; auto. intros s0 Hn E0. assert (T : existsb test (xnodes X) = true); [|congruence]. apply existsb_exists. exists (ES s0). split; auto. unfold test. rewrite E0, Z.eqb_refl, Nat.eqb_refl. reflexivity.
Qed.
Context (P : qpass) (HTP : 0 <= TP).
Context (Hrun : forall r, In r rs' -> In r rs \/ route_frequency rs' freq' (r_id r) == 0).
Context (Hf : forall r, In r rs -> route_frequency rs' freq' (r_id r) == route_frequency rs freq (r_id r)).
Context (Hm : forall r, In r rs' -> 0 <= m_tat (r_mode r) /\ 0 <= m_d (r_mode r)).
Context (W' : weights X' P).
Lemma same_back s st s0 : nth_error (xg_stops X') s = Some st -> same_node rs rs' X X' (ES s0) (ES s) -> nth_error (xg_stops X) s0 = Some st.
Proof. intros E (st0 & A & B). congruence. Qed.
(** a vehicle that runs stops there *)
Lemma runs_at k rn : nth_error (xg_rnodes X') k = Some rn -> In (rn_route rn) rs -> exists k0 rn0 s0 s st, nth_error (xg_rnodes X) k0 = Some rn0 /\ pi k0 = k /\
  rn_route rn = rn_route rn0 /\ rn_dir rn = rn_dir rn0 /\ rn_prev rn = option_map pi (rn_prev rn0) /\ rn_stop rn0 = Some s0 /\ rn_stop rn = Some s /\
  nth_error (xg_stops X) s0 = Some st /\ nth_error (xg_stops X') s = Some st /\ In (ES s0) (xnodes X).
Proof.
  intros H Hr. destruct (pi_onto k rn H Hr) as (k0 & rn0 & A & <-). destruct (PR k0 rn0 A) as (rn' & s0 & s & st & B1 & B2 & B3 & B4 & B5 & B6 & B7 & B8 & B9 & B10).
  assert (rn' = rn) by (unfold pi in H; congruence). subst rn'. exists k0, rn0, s0, s, st. repeat (split; [assumption||reflexivity|]). apply XN. exists k0, rn0. auto.
Qed.
Lemma avoids_back z e e' : avoids (find_city X' z) e -> (forall c, x_i e' = EC c -> x_i e = EC c) -> (forall c, x_j e' = EC c -> x_j e = EC c) -> avoids (find_city X z) e'.
Proof.
  assert (K : forall n n', find_city X' z <> Some n -> (forall c, n' = EC c -> n = EC c) -> find_city X z <> Some n').
  { intros n n' D H C. pose proof (find_city_spec X z) as Sp. rewrite C in Sp. destruct n' as [c| |]; try contradiction. apply D. rewrite (H c eq_refl). exact (pre_city G g rs rs' TP TP freq freq' X X' Hincl NDr' I' HX HX' HG' z _ C). }
  intros [A1 A2] H1 H2. split; eauto.
Qed.
Lemma idle_cost zo zd n q : strategy_cost X' P (find_city X' zo) (find_city X' zd) n q -> forall n', back n n' ->
  exists q', strategy_cost X P (find_city X zo) (find_city X zd) n' q' /\ q' <= q.
Proof.
  assert (Pa0 : 0 <= q_pa P / q_pv P) by (apply Qle_shift_div_l; [apply (wg_pv _ _ W')|rewrite Qmult_0_l; apply (wg_pa _ _ W')]).
  assert (Pw0 : 0 <= q_pw P / q_pv P) by (apply Qle_shift_div_l; [apply (wg_pv _ _ W')|rewrite Qmult_0_l; apply (wg_pw _ _ W')]).
  intros S n' B. refine (carry X' X P P (find_city X' zo) (find_city X zo) (find_city X' zd) (find_city X zd) back _ (hg_pairs X' HG') _ _ _ _ n q S n' B); clear n q S n' B.
  - intros a b k [Ha [Sa|(s & st & _ & C & _)]] [Hb [Sb|(s1 & st1 & _ & C1 & _)]]; try discriminate. destruct a; try contradiction. destruct b; try contradiction. cbn in Sa, Sb. congruence.
  - intros n n' E [Hn [Sn|(s & st & -> & _)]].
    + pose proof (find_city_spec X' zd) as Sp. rewrite E in Sp. destruct n as [c| |]; try contradiction. destruct n' as [c'| |]; try contradiction. cbn in Sn. subst c'.
      exact (pre_none G g rs rs' TP TP freq freq' X X' Hincl I' HX HX' HG zd c E Hn).
    + pose proof (find_city_spec X' zd) as Sp. rewrite E in Sp. contradiction.
  - intros e n' He Hfe Ha [Hi Si].
    assert (FIN : forall ty t f l j', In (n', j', t, f) l -> (forall e, In e (number ty l) -> In e (xg_edges X)) -> f = None -> back (x_j e) j' ->
      (forall c, n' = EC c -> x_i e = EC c) -> (forall c, j' = EC c -> x_j e = EC c) ->
      (forall k, leg_cost X P (find_city X zd) (mkX ty k n' j' t f) <= leg_cost X' P (find_city X' zd) e) ->
      exists e', In e' (xg_edges X) /\ x_f e' = None /\ avoids (find_city X zo) e' /\ x_i e' = n' /\ back (x_j e) (x_j e') /\ leg_cost X P (find_city X zd) e' <= leg_cost X' P (find_city X' zd) e).
    { intros ty t f l j' Hin Hs -> Sj H1 H2 Hle. apply In_nth_error in Hin. destruct Hin as [k Hin].
      assert (He' : In (mkX ty k n' j' t None) (xg_edges X)) by (apply Hs, number_In; exists k, n', j', t, None; auto).
      exists (mkX ty k n' j' t None). split; auto. split; auto. split; [apply (avoids_back zo e); auto|]. cbn [x_i x_j]. auto. }
    assert (He2 := He). rewrite (edges_split _ _ _ _ _ _ I' HX') in He2. destruct He2 as [He2|[He2|[He2|He2]]]; apply number_In2 in He2; destruct He2 as [Ty He2].
    + rewrite (a_In _ _ _ _ _ _ I' HX') in He2. destruct He2 as (c & s & st & A1 & A2 & A3 & A4 & A5 & A6). apply XN' in A1.
      assert (L0 : 0 <= leg_cost X' P (find_city X' zd) e).
      { unfold leg_cost. rewrite Ty, A4. unfold Qdiv in *. rewrite <- Qmult_assoc. apply Qmult_le_0_compat; auto. apply Qmult_le_0_compat; [|discriminate]. destruct (xnode_ES _ _ _ _ _ _ I' HX' s A1) as (st2 & nd2 & r2 & B1 & _ & B2 & B3).
        assert (st2 = st) by congruence. subst st2. rewrite B2. apply Hm; auto. }
      assert (LE : forall i j k, leg_cost X P (find_city X zd) (mkX ACCESS k i j (m_tat (sn_mode st) / 60) None) <= leg_cost X' P (find_city X' zd) e).
      { intros i j k. unfold leg_cost. rewrite Ty, A4. cbn [x_type x_t]. apply Qle_refl. }
      destruct A6 as [[Ei Ej]|[Ei Ej]].
      * assert (n' = EC c) by (rewrite Ei in Si; destruct Si as [Si|(s1 & st1 & C & _)]; [|discriminate]; destruct n'; try contradiction; cbn in Si; congruence). subst n'.
        destruct (stop_cases s st A1 A2) as [(s0 & B1 & B2)|B].
        -- left. eapply (FIN ACCESS (m_tat (sn_mode st) / 60) None _ (ES s0)); [apply (a_In _ _ _ _ _ _ I HX); exists c, s0, st; repeat (split; auto); apply XN; auto|intros; apply (edges_split _ _ _ _ _ _ I HX); auto|reflexivity| |intros c0 E; congruence|discriminate|intro; apply LE].
           rewrite Ej. split; auto. left. exists st. auto.
        -- right. split; auto. rewrite Ej. split; auto. right. exists s, st. rewrite A3. auto.
      * rewrite Ei in Si. destruct Si as [Si|(s1 & st1 & C1 & C2 & C3)].
        -- destruct n' as [|s0|]; try contradiction. pose proof (same_back s st s0 A2 Si) as B2. left.
           eapply (FIN ACCESS (m_tat (sn_mode st) / 60) None _ (EC c)); [apply (a_In _ _ _ _ _ _ I HX); exists c, s0, st; repeat (split; auto); apply XN; auto|intros; apply (edges_split _ _ _ _ _ _ I HX); auto|reflexivity| |discriminate|intros c0 E; congruence|intro; apply LE].
           rewrite Ej. split; [|left; reflexivity]. apply XN. apply XN in Hi. destruct Hi as (k & rn & D1 & D2). exists k, rn, s0, st. auto.
        -- right. split; auto. injection C1 as <-. destruct C3 as (_ & C3 & _). assert (st1 = st) by congruence. subst st1. rewrite Ej, <- A3. split; [auto|left; rewrite C2; reflexivity].
    + rewrite (b_In _ _ _ _ _ _ I' HX') in He2. destruct He2 as (k & rn & s & _ & _ & _ & _ & _ & _ & E). congruence.
    + left. rewrite (l_In _ _ _ _ _ _ I' HX') in He2. destruct He2 as (k & rn & s & A1 & A2 & A3 & Ei & Ej & Et & _).
      rewrite Ei in Si. destruct Si as [Si|(s1 & st1 & C & _)]; [|discriminate]. destruct n' as [| |k0]; try contradiction. cbn in Si.
      apply XN in Hi. destruct Hi as [rn0 Hi]. destruct (PR k0 rn0 Hi) as (rn' & s0 & s' & st & B1 & B2 & B3 & B4 & B5 & B6 & B7 & B8 & B9 & B10). assert (rn' = rn) by congruence. subst rn'. assert (s' = s) by congruence. subst s'.
      assert (Hs0 : In (ES s0) (xnodes X)) by (apply XN; exists k0, rn0; auto).
      eapply (FIN ALIGHTING (TP / 60) None _ (ES s0)); [apply (l_In _ _ _ _ _ _ I HX); exists k0, rn0, s0; repeat (split; auto)|intros; apply (edges_split _ _ _ _ _ _ I HX); auto|reflexivity|rewrite Ej; split; [auto|left; exists st; auto]|discriminate|discriminate|].
      * unfold can_alight in *. rewrite B2, B3 in A3. rewrite Si in A1. rewrite (pre_place G g rs rs' TP TP freq freq' X X' Hincl NDr' I' HX HX' k0 rn0 rn Hi A1) in A3. exact A3.
      * intro i. unfold leg_cost. rewrite Ty, Ej, Et. cbn [x_type x_j x_t]. unfold stop_is_at. rewrite B7, B8.
        assert (T0 : 0 <= TP / 60) by (unfold Qdiv; apply Qmult_le_0_compat; [auto|discriminate]).
        destruct (find_city X' zd) as [[c| |]|] eqn:Ed'; try (destruct (find_city X zd) as [nd|] eqn:Ed; [pose proof (pre_city G g rs rs' TP TP freq freq' X X' Hincl NDr' I' HX HX' HG' zd _ Ed) as C; rewrite Ed' in C; inversion C; subst; try apply Qle_refl|apply Qle_refl]).
        -- destruct (Nat.eqb_spec (sn_city st) c) as [E|N].
           ++ rewrite (pre_none G g rs rs' TP TP freq freq' X X' Hincl I' HX HX' HG zd c Ed'); [rewrite (proj2 (Nat.eqb_eq _ _) E); apply Qle_refl|]. apply XN. exists k0, rn0, s0, st. auto.
           ++ destruct (find_city X zd) as [[c'| |]|]; auto; try apply Qle_refl. destruct (sn_city st =? c')%nat; [auto|apply Qle_refl].
    + left. rewrite (r_In _ _ _ _ _ _ I' HX') in He2. destruct He2 as (k & rn & p & A1 & A2 & Ei & Ej & Et & _).
      rewrite Ei in Si. destruct Si as [Si|(s1 & st1 & C & _)]; [|discriminate]. destruct n' as [| |p0]; try contradiction. cbn in Si.
      apply XN in Hi. destruct Hi as [rp0 Hi]. destruct (PR p0 rp0 Hi) as (rp & s0 & s' & st & B1 & B2 & B3 & B4 & _ & _ & _ & _ & _ & B10).
      assert (RT : In (rn_route rn) rs).
      { rewrite (ef_rn _ _ _ _ _ _ F') in A1. destruct (rns_prev g rs' I' k rn p A1 A2) as (rp' & C1 & C2 & _). rewrite (ef_rn _ _ _ _ _ _ F') in B1. assert (rp' = rp) by congruence. subst rp'. rewrite <- C2, B2. exact B10. }
      destruct (runs_at k rn A1 RT) as (k0 & rn0 & s1 & s2 & st1 & D1 & D2 & D3 & D4 & D5 & _). rewrite A2 in D5. destruct (rn_prev rn0) as [p1|] eqn:Ep1; [|discriminate]. cbn [option_map] in D5. injection D5 as D5.
      assert (p1 = p0).
      { destruct (nth_error (xg_rnodes X) p1) as [rp1|] eqn:Np1.
        - apply (pi_inj rs rs' Hincl NDr NDr'); [| |unfold pi in *; congruence]; rewrite <- (rns_len g), <- (ef_rn _ _ _ _ _ _ F); apply nth_error_Some; congruence.
        - rewrite (ef_rn _ _ _ _ _ _ F) in D1, Np1. destruct (rns_prev g rs I k0 rn0 p1 D1 Ep1) as (rp' & C1 & _). congruence. }
      subst p1. eapply (FIN ROUTE (rtime G g rs (xg_nodes X) p0 k0) None _ (ER k0)); [apply (r_In _ _ _ _ _ _ I HX); exists k0, rn0, p0; repeat (split; auto)|intros; apply (edges_split _ _ _ _ _ _ I HX); auto|reflexivity| |discriminate|discriminate|].
      * rewrite Ej, <- D2. split; [apply XN; exists rn0; auto|left; reflexivity].
      * intro i. unfold leg_cost. rewrite Ty, Et, <- D2. cbn [x_type x_t]. rewrite Si. unfold pi. rewrite (pre_time G g rs rs' TP TP freq freq' X X' Hincl NDr' I' HX HX' Hsame p0 k0 rn0 rp0 D1 Hi). apply Qle_refl.
  - intros e f n' He Hfe Hf0 Ha [Hi Si]. assert (He2 := He). rewrite (edges_split _ _ _ _ _ _ I' HX') in He2.
    destruct He2 as [He2|[He2|[He2|He2]]]; apply number_In2 in He2; destruct He2 as [Ty He2].
    + rewrite (a_In _ _ _ _ _ _ I' HX') in He2. destruct He2 as (c & s & st & _ & _ & _ & _ & E & _). congruence.
    + rewrite (b_In _ _ _ _ _ _ I' HX') in He2. destruct He2 as (k & rn & s & A1 & A2 & A3 & Ei & Ej & Et & Ef). rewrite Hfe in Ef. injection Ef as ->.
      assert (FR : dget0 String.eqb 0 (match freq' with Some f => f | None => default_frequencies rs' end) (r_id (rn_route rn)) = route_frequency rs' freq' (r_id (rn_route rn))) by (destruct freq'; [reflexivity|apply default_freq]).
      rewrite FR in *.
      assert (Rin : In (rn_route rn) rs').
      { assert (H := A1). rewrite (ef_rn _ _ _ _ _ _ F') in H. destruct (rns_visit g rs' I' k rn H) as (r & d & z & s1 & st1 & nd1 & C1 & C2 & _). congruence. }
      destruct (Hrun _ Rin) as [RT|Z0]; [|rewrite Z0 in Hf0; unfold Qdiv in Hf0; rewrite Qmult_0_l in Hf0; discriminate Hf0].
      destruct (runs_at k rn A1 RT) as (k0 & rn0 & s0 & s2 & st & D1 & D2 & D3 & D4 & D5 & D6 & D7 & D8 & D9 & D10). assert (s2 = s) by congruence. subst s2.
      rewrite Ei in Si. destruct Si as [Si|(s1 & st1 & C1 & C2 & C3)].
      2:{ exfalso. injection C1 as <-. destruct C3 as (_ & C3 & C4). assert (st1 = st) by congruence. subst st1. exact (C4 s0 D10 D8). }
      destruct n' as [|s1|]; try contradiction. pose proof (same_back s st s1 D9 Si) as E1. assert (s1 = s0) by exact (stop_same G g rs TP freq X I HX s1 s0 st E1 D8). subst s1.
      set (fr := match freq with Some f => f | None => default_frequencies rs end) in *.
      assert (Hin : In (ES s0, ER k0, 0, Some (dget0 String.eqb 0 fr (r_id (rn_route rn0)) / m_d (r_mode (rn_route rn0)))) (b_list g rs fr (xg_nodes X))).
      { apply (b_In _ _ _ _ _ _ I HX). exists k0, rn0, s0. repeat (split; auto). unfold can_board in *. rewrite D3, D4 in A3. rewrite <- D2 in A1. rewrite (pre_place G g rs rs' TP TP freq freq' X X' Hincl NDr' I' HX HX' k0 rn0 rn D1 A1) in A3. exact A3. }
      apply In_nth_error in Hin. destruct Hin as [i Hin].
      eexists (mkX BOARDING i (ES s0) (ER k0) 0 (Some _)), _. cbn [x_i x_j x_f].
      split; [apply (edges_split _ _ _ _ _ _ I HX); right; left; apply number_In; eexists i, _, _, _, _; split; [exact Hin|reflexivity]|]. split; [reflexivity|]. split.
      { rewrite D3. unfold Qdiv. apply Qmult_le_compat_r; [|apply Qinv_le_0_compat, Hm; rewrite <- D3; exact Rin].
        assert (FR0 : dget0 String.eqb 0 fr (r_id (rn_route rn0)) = route_frequency rs freq (r_id (rn_route rn0))) by (unfold fr; destruct freq; [reflexivity|apply default_freq]).
        rewrite FR0. rewrite D3 in RT. rewrite (Hf _ RT). apply Qle_refl. }
      split; [apply (avoids_back zo e); auto; discriminate|]. split; [reflexivity|]. split; [eauto|].
      split; [rewrite Ej, <- D2; split; [apply XN; exists rn0; auto|left; reflexivity]|]. unfold leg_cost. rewrite Ty, Et. cbn [x_type x_t]. apply Qle_refl.
    + rewrite (l_In _ _ _ _ _ _ I' HX') in He2. destruct He2 as (k & rn & s & _ & _ & _ & _ & _ & _ & E). congruence.
    + rewrite (r_In _ _ _ _ _ _ I' HX') in He2. destruct He2 as (k & rn & p & _ & _ & _ & _ & _ & E). congruence.
  - assert (TH : forall s st, In (ES s) (xnodes X') -> nth_error (xg_stops X') s = Some st -> 0 <= wait_cost X' P (ES s)).
    { intros s st Hs Es. cbn [wait_cost]. rewrite Es. unfold Qdiv in *. rewrite <- Qmult_assoc. apply Qmult_le_0_compat; auto. exact (wg_theta _ _ W' s st Hs Es). }
    intros n n' [Hn [Sn|(s & st & -> & -> & Hs & Es & _)]]; [|split; [apply Qle_refl|exact (TH s st Hs Es)]].
    destruct n' as [|s0|], n as [|s|]; try contradiction; try (split; apply Qle_refl).
    assert (Hs : In (ES s) (xnodes X')) by (apply XN'; apply XN in Hn; exact (pre_xnode_ES G g rs rs' TP TP freq freq' X X' Hincl NDr' I' HX HX' s0 s Hn Sn)).
    destruct Sn as (st & E1 & E2). pose proof (TH s st Hs E2) as T. cbn [wait_cost] in *. rewrite E1, E2 in *. split; [exact T|apply Qle_refl].
Qed.
End Idle.

(** ** C81 *)
(** [idle_beside rs freq rs' freq']: rs' has the lines rs, at the same frequencies, and others with frequency zero *)
Definition idle_beside (rs : list route) (freq : option (list (string * Q))) (rs' : list route) (freq' : option (list (string * Q))) : Prop :=
  (forall r, In r rs -> route_frequency rs' freq' (r_id r) == route_frequency rs freq (r_id r)) /\
  (forall r, In r rs' -> In r rs \/ route_frequency rs' freq' (r_id r) == 0).
Lemma access_same G g rs rs' TP freq freq' X X' P zo s s' st : (forall r, In r rs -> In r rs') -> NoDup (map r_id rs') -> ext_input g rs' ->
  build_ext G g rs TP freq = Ok X -> build_ext G g rs' TP freq' = Ok X' -> hyper_graph X -> hyper_graph X' -> In (ES s) (xnodes X) ->
  nth_error (xg_stops X) s = Some st -> nth_error (xg_stops X') s' = Some st -> access_cost X P (find_city X zo) (ES s) = access_cost X' P (find_city X' zo) (ES s').
Proof.
  intros Hin N2 I' HX HX' HG HG' Hn E E'. cbn [access_cost]. rewrite E, E'.
  destruct (find_city X zo) as [n|] eqn:Eo; [rewrite (pre_city G g rs rs' TP TP freq freq' X X' Hin N2 I' HX HX' HG' zo _ Eo); reflexivity|].
  destruct (find_city X' zo) as [[c| |]|] eqn:Eo'; auto. destruct (Nat.eqb_spec (sn_city st) c) as [Ec|]; auto. exfalso.
  assert (C : find_city X zo = Some (EC c)); [|congruence]. apply (pre_none G g rs rs' TP TP freq freq' X X' Hin I' HX HX' HG zo c Eo').
  apply (xnode_X G g rs rs' TP freq X Hin I' HX). apply (xnode_X G g rs rs' TP freq X Hin I' HX) in Hn. destruct Hn as (k & rn & A & B). exists k, rn, s, st. auto.
Qed.
Theorem C81_idle_lines : forall G g rs rs' TP freq freq' X X' P zo zd fuel R R',
  ext_input g rs' -> keeps_lines rs rs' -> idle_beside rs freq rs' freq' ->
  build_ext G g rs TP freq = Ok X -> build_ext G g rs' TP freq' = Ok X' ->
  (forall q, 0 <= geo_sqrt G q) -> 0 <= TP ->
  (forall r, In r rs' -> 0 <= m_tat (r_mode r) /\ 0 <= m_v (r_mode r) /\ 0 <= m_d (r_mode r)) ->
  (forall id, 0 <= route_frequency rs freq id /\ 0 <= route_frequency rs' freq' id) ->
  weights X P -> weights X' P -> (length (xnodes X) <= fuel)%nat -> (length (xnodes X') <= fuel)%nat ->
  build_hyperpath fuel X P (find_city X zo) (find_city X zd) = Ok R ->
  build_hyperpath fuel X' P (find_city X' zo) (find_city X' zd) = Ok R' ->
  forall s z m, In (ES s) (xnodes X) -> stop_place X s = Some (z, m) ->
  exists s', In (ES s') (xnodes X') /\ stop_place X' s' = Some (z, m) /\
    match hr_lab R (ES s), hr_lab R' (ES s') with Some q, Some q' => q == q' | None, None => True | _, _ => False end.
Proof.
  intros G g rs rs' TP freq freq' X X' P zo zd fuel R R' I' K [Hf Hr] HX HX' HQ T HM HF W W' L L' HR HR' s z m Hn Pl.
  assert (K0 := K). destruct K0 as (N1 & N2 & Hin & Hs). assert (I := ext_input_sub _ _ _ Hin I').
  assert (HG : hyper_graph X) by (eapply (built_graph_is_hyper_graph G g rs TP freq); eauto; intro id; apply HF).
  assert (HG' : hyper_graph X') by (eapply (built_graph_is_hyper_graph G g rs' TP freq'); eauto; intro id; apply HF).
  assert (Hn' := Hn). apply (xnode_X G g rs rs' TP freq X Hin I' HX) in Hn'. destruct (pre_xnode G g rs rs' TP TP freq freq' X X' Hin N2 I' HX HX' _ Hn') as ([|s'|] & Sn & Xn); try contradiction.
  apply (xnode_X' G g rs' TP freq' X' I' HX') in Xn. assert (Sn0 := Sn). destruct Sn0 as (st & E1 & E2).
  assert (Pl' : stop_place X' s' = Some (z, m)).
  { unfold stop_place in *. rewrite E1 in Pl. rewrite E2. rewrite (ef_graph _ _ _ _ _ _ (facts_of _ _ _ _ _ _ I HX)) in Pl. rewrite (ef_graph _ _ _ _ _ _ (facts_of _ _ _ _ _ _ I' HX')). exact Pl. }
  exists s'. split; auto. split; auto.
  destruct (C35_labels_minimal X P (find_city X zo) (find_city X zd) fuel HG W L) as (R1 & F1 & M1). assert (R1 = R) by congruence. subst R1.
  destruct (C35_labels_minimal X' P (find_city X' zo) (find_city X' zd) fuel HG' W' L') as (R1 & F2 & M2). assert (R1 = R') by congruence. subst R1.
  specialize (M1 _ Hn). specialize (M2 _ Xn).
  assert (FW : forall q, hr_lab R (ES s) = Some q -> exists q', hr_lab R' (ES s') = Some q' /\ q' <= q).
  { intros q Eq. destruct (C75_better_service G g rs rs' TP TP freq freq' X X' P P zo zd fuel R R') with (s := s) (z := z) (m := m) (q := q) as (a & q' & A1 & A2 & A3 & A4); auto; try apply Qle_refl.
    - intros r Hr0. rewrite (Hf r Hr0). apply Qle_refl.
    - rewrite (place_unique _ _ _ _ _ _ _ _ _ I' HX' A2 Pl') in A3. eauto. }
  pose proof (access_same G g rs rs' TP freq freq' X X' P zo s s' st Hin N2 I' HX HX' HG HG' Hn E1 E2) as AC.
  assert (BW : forall q, hr_lab R' (ES s') = Some q -> exists q', hr_lab R (ES s) = Some q' /\ q' <= q).
  { intros q Eq. rewrite Eq in M2. destruct M2 as [M2 _].
    destruct (idle_cost G g rs rs' TP freq freq' X X' Hin N1 N2 I' HX HX' HG HG' Hs P T Hr Hf (fun r H => conj (proj1 (HM r H)) (proj2 (proj2 (HM r H)))) W' zo zd _ _ M2 (ES s)) as (q1 & S1 & Q1); [split; auto|].
    destruct (hr_lab R (ES s)) as [q2|]; [|exfalso; eapply M1; eauto]. destruct M1 as [_ M1]. specialize (M1 _ S1). exists q2. split; auto.
    rewrite AC in M1. set (a := access_cost X' P _ _) in *. clearbody a. lra. }
  destruct (hr_lab R (ES s)) as [q|].
  - destruct (FW q eq_refl) as (q' & E' & Q1). rewrite E' in *. destruct (BW q' eq_refl) as (q2 & E3 & Q2). injection E3 as <-. apply Qle_antisym; auto.
  - destruct (hr_lab R' (ES s')) as [q'|]; auto. destruct (BW q' eq_refl) as (q & E & _). discriminate.
Qed.
Print Assumptions C81_idle_lines.

(** the idle lines take nobody anywhere *)
Theorem C81_who_can_travel : forall G g rs rs' TP freq freq' X X' P zo zd,
  ext_input g rs' -> keeps_lines rs rs' -> idle_beside rs freq rs' freq' ->
  build_ext G g rs TP freq = Ok X -> build_ext G g rs' TP freq' = Ok X' ->
  (forall q, 0 <= geo_sqrt G q) -> 0 <= TP ->
  (forall r, In r rs' -> 0 <= m_tat (r_mode r) /\ 0 <= m_v (r_mode r) /\ 0 <= m_d (r_mode r)) ->
  (forall id, 0 <= route_frequency rs freq id /\ 0 <= route_frequency rs' freq' id) ->
  weights X P -> weights X' P -> (connected X P zo zd <-> connected X' P zo zd).
Proof.
  intros G g rs rs' TP freq freq' X X' P zo zd I' K [Hf Hr] HX HX' HQ T HM HF W W'. split.
  { apply (C75_still_connected G g rs rs' TP TP freq freq' X X' P P zo zd); auto; try apply Qle_refl. intros r Hr0. rewrite (Hf r Hr0). apply Qle_refl. }
  destruct K as (N1 & N2 & Hin & Hs). assert (I := ext_input_sub _ _ _ Hin I').
  assert (HG : hyper_graph X) by (eapply (built_graph_is_hyper_graph G g rs TP freq); eauto; intro id; apply HF).
  assert (HG' : hyper_graph X') by (eapply (built_graph_is_hyper_graph G g rs' TP freq'); eauto; intro id; apply HF).
  intros (c & dest & s' & st & q & S1 & S2 & Hn' & Es & Ec & Sc).
  assert (Eo : find_city X' zo = Some (EC c)) by (apply (served_unique X' zo); auto; apply find_city_spec).
  assert (Ed : find_city X' zd = dest) by (apply (served_unique X' zd); auto; apply find_city_spec). rewrite <- Eo, <- Ed in Sc.
  destruct (stop_cases G g rs rs' TP freq freq' X X' Hin I' HX HX' s' st Hn' Es) as [(s & Hn & E1)|Hi].
  - destruct (idle_cost G g rs rs' TP freq freq' X X' Hin N1 N2 I' HX HX' HG HG' Hs P T Hr Hf (fun r H => conj (proj1 (HM r H)) (proj2 (proj2 (HM r H)))) W' zo zd _ _ Sc (ES s)) as (q1 & Sq & Q1); [split; [auto|left; exists st; auto]|].
    assert (Hc : In (EC c) (xnodes X)).
    { apply (xnode_X G g rs rs' TP freq X Hin I' HX). apply (xnode_X G g rs rs' TP freq X Hin I' HX) in Hn. destruct Hn as (k & rn & A & B). exists k, rn, s, st. auto. }
    pose proof (pre_none G g rs rs' TP TP freq freq' X X' Hin I' HX HX' HG zo c Eo Hc) as Eo0.
    exists c, (find_city X zd), s, st, q1. split; [rewrite <- Eo0; apply find_city_spec|]. split; [apply find_city_spec|]. do 3 (split; [assumption|]). rewrite <- Eo0. exact Sq.
  - exfalso. destruct Hi as (_ & _ & Hi). remember (ES s') as n eqn:En. destruct Sc as [n q A _|e c0 q He Hfe [_ A2] _ _|n es q NE ND Hes _ _].
    + subst n. pose proof (find_city_spec X' zd) as Sp. rewrite A in Sp. contradiction.
    + rewrite (edges_split _ _ _ _ _ _ I' HX') in He. destruct He as [He|[He|[He|He]]]; apply number_In2 in He; destruct He as [Ty He].
      * rewrite (a_In _ _ _ _ _ _ I' HX') in He. destruct He as (c1 & s1 & st1 & A1 & A3 & A4 & _ & _ & [[Ei Ej]|[Ei Ej]]); [congruence|]. apply A2. rewrite Ej, Eo. do 2 f_equal. assert (s1 = s') by congruence. subst s1. congruence.
      * rewrite (b_In _ _ _ _ _ _ I' HX') in He. destruct He as (k & rn & s1 & _ & _ & _ & _ & _ & _ & E). congruence.
      * rewrite (l_In _ _ _ _ _ _ I' HX') in He. destruct He as (k & rn & s1 & _ & _ & _ & Ei & _). congruence.
      * rewrite (r_In _ _ _ _ _ _ I' HX') in He. destruct He as (k & rn & p & _ & _ & Ei & _). congruence.
    + destruct es as [|[e c0] es]; [congruence|]. destruct (Hes e c0 (or_introl eq_refl)) as (He & Ei & (f & Hfe & Hf0) & _).
      rewrite (edges_split _ _ _ _ _ _ I' HX') in He. destruct He as [He|[He|[He|He]]]; apply number_In2 in He; destruct He as [Ty He].
      * rewrite (a_In _ _ _ _ _ _ I' HX') in He. destruct He as (c1 & s1 & st1 & _ & _ & _ & _ & E & _). congruence.
      * rewrite (b_In _ _ _ _ _ _ I' HX') in He. destruct He as (k & rn & s1 & A1 & A2 & A3 & Ei2 & Ej & Et & Ef). rewrite Hfe in Ef. injection Ef as ->. assert (s1 = s') by congruence. subst s1.
        assert (FR : dget0 String.eqb 0 (match freq' with Some f => f | None => default_frequencies rs' end) (r_id (rn_route rn)) = route_frequency rs' freq' (r_id (rn_route rn))) by (destruct freq'; [reflexivity|apply default_freq]).
        rewrite FR in *.
        assert (Rin : In (rn_route rn) rs').
        { assert (H := A1). rewrite (ef_rn _ _ _ _ _ _ (facts_of _ _ _ _ _ _ I' HX')) in H. destruct (rns_visit g rs' I' k rn H) as (r & d & z & s1 & st1 & nd1 & C1 & C2 & _). congruence. }
        destruct (Hr _ Rin) as [RT|Z0]; [|rewrite Z0 in Hf0; unfold Qdiv in Hf0; rewrite Qmult_0_l in Hf0; discriminate Hf0].
        destruct (runs_at G g rs rs' TP freq freq' X X' Hin N2 I' HX HX' k rn A1 RT) as (k0 & rn0 & s0 & s2 & st2 & D1 & D2 & D3 & D4 & D5 & D6 & D7 & D8 & D9 & D10). assert (s2 = s') by congruence. subst s2.
        apply (Hi s0 D10). congruence.
      * rewrite (l_In _ _ _ _ _ _ I' HX') in He. destruct He as (k & rn & s1 & _ & _ & _ & _ & _ & _ & E). congruence.
      * rewrite (r_In _ _ _ _ _ _ I' HX') in He. destruct He as (k & rn & p & _ & _ & _ & _ & _ & E). congruence.
Qed.
Print Assumptions C81_who_can_travel.

(** An idle line that stops where no other line does is not harmless: the express is then measured through those stops, and the
    people on board pay for it although no vehicle ever runs there. *)
Definition ex_fe : option (list (string * Q)) := Some [("te"%string, 28)].
Definition ex_fel : option (list (string * Q)) := Some [("te"%string, 28); ("l"%string, 0)].
Definition ex_YE : xgraph := Eval vm_compute in built (build_ext ex_geo ex_g34 [ex_tang_express] 16 ex_fe).
Definition ex_YEL : xgraph := Eval vm_compute in built (build_ext ex_geo ex_g34 [ex_tang_express; ex_local] 16 ex_fel).
Theorem C81_idle_stop_refuted : exists G g rs rs' TP freq freq' X X' P zo zd fuel R R' s s' z m q q',
  ext_input g rs' /\ NoDup (map r_id rs') /\ (forall r, In r rs -> In r rs') /\ idle_beside rs freq rs' freq' /\
  build_ext G g rs TP freq = Ok X /\ build_ext G g rs' TP freq' = Ok X' /\
  (forall q, 0 <= geo_sqrt G q) /\ weights X P /\ weights X' P /\ (length (xnodes X) <= fuel)%nat /\ (length (xnodes X') <= fuel)%nat /\
  build_hyperpath fuel X P (find_city X zo) (find_city X zd) = Ok R /\
  build_hyperpath fuel X' P (find_city X' zo) (find_city X' zd) = Ok R' /\
  In (ES s) (xnodes X) /\ In (ES s') (xnodes X') /\ stop_place X s = Some (z, m) /\ stop_place X' s' = Some (z, m) /\
  hr_lab R (ES s) = Some q /\ hr_lab R' (ES s') = Some q' /\ q < q'.
Proof.
  exists ex_geo, ex_g34, [ex_tang_express], [ex_tang_express; ex_local], 16, ex_fe, ex_fel, ex_YE, ex_YEL, ex_P, 1%Z, 3%Z, 60%nat. eexists _, _, 0%nat, 0%nat, 1%Z, ex_bus, _, _.
  assert (I1 : ext_input ex_g34 [ex_tang_express]) by ext_input_tac. assert (I : ext_input ex_g34 [ex_tang_express; ex_local]) by ext_input_tac.
  assert (B1 : build_ext ex_geo ex_g34 [ex_tang_express] 16 ex_fe = Ok ex_YE) by (vm_compute; reflexivity).
  assert (B2 : build_ext ex_geo ex_g34 [ex_tang_express; ex_local] 16 ex_fel = Ok ex_YEL) by (vm_compute; reflexivity).
  split; [exact I|]. split; [vm_compute; repeat constructor; cbn; intuition discriminate|]. split; [intros r [<-|[]]; left; auto|].
  split; [split; [intros r [<-|[]]; vm_compute; reflexivity|intros r [<-|[<-|[]]]; [left; left; auto|right; vm_compute; reflexivity]]|].
  split; [exact B1|]. split; [exact B2|]. split; [exact ex_sqrt_nonneg|].
  split; [eapply built_graph_weights; [exact I1|exact B1|modes_tac|reflexivity|discriminate|discriminate|]; left; split; [reflexivity|modes_tac]|].
  split; [eapply built_graph_weights; [exact I|exact B2|modes_tac|reflexivity|discriminate|discriminate|]; left; split; [reflexivity|modes_tac]|].
  split; [vm_compute; lia|]. split; [vm_compute; lia|]. split; [vm_compute; reflexivity|]. split; [vm_compute; reflexivity|].
  split; [vm_compute; tauto|]. split; [vm_compute; tauto|]. do 4 (split; [vm_compute; reflexivity|]). vm_compute; reflexivity.
Qed.
Print Assumptions C81_idle_stop_refuted.

(** the line t at 5 vehicles per hour alone, and with an express that has no vehicle *)
Definition ex_f50 : option (list (string * Q)) := Some [("te"%string, 0); ("t"%string, 5)].
Definition ex_XT0 : xgraph := Eval vm_compute in built (build_ext ex_geo ex_g34 ([ex_tang] ++ [ex_tang_express]) 16 ex_f50).
Example C81_ex : ext_input ex_g34 ([ex_tang] ++ [ex_tang_express]) /\ keeps_lines [ex_tang] ([ex_tang] ++ [ex_tang_express]) /\
  idle_beside [ex_tang] ex_f5 ([ex_tang] ++ [ex_tang_express]) ex_f50 /\
  build_ext ex_geo ex_g34 [ex_tang] 16 ex_f5 = Ok ex_XT /\ build_ext ex_geo ex_g34 ([ex_tang] ++ [ex_tang_express]) 16 ex_f50 = Ok ex_XT0 /\
  (forall id, 0 <= route_frequency [ex_tang] ex_f5 id /\ 0 <= route_frequency ([ex_tang] ++ [ex_tang_express]) ex_f50 id) /\
  weights ex_XT ex_P /\ weights ex_XT0 ex_P /\ (length (xg_edges ex_XT) < length (xg_edges ex_XT0))%nat /\
  label_at ex_XT ex_P 1 3 (ES 0) = Some (43 # 25) /\ label_at ex_XT0 ex_P 1 3 (ES 0) = Some (43 # 25) /\
  label_at ex_XTE ex_P 1 3 (ES 0) <> Some (43 # 25).
Proof.
  assert (I : ext_input ex_g34 ([ex_tang] ++ [ex_tang_express])) by ext_input_tac. assert (I1 : ext_input ex_g34 [ex_tang]) by ext_input_tac.
  assert (B1 : build_ext ex_geo ex_g34 [ex_tang] 16 ex_f5 = Ok ex_XT) by (vm_compute; reflexivity).
  assert (B2 : build_ext ex_geo ex_g34 ([ex_tang] ++ [ex_tang_express]) 16 ex_f50 = Ok ex_XT0) by (vm_compute; reflexivity).
  split; [exact I|]. split; [exact ex_keeps|].
  split; [split; [intros r [<-|[]]; vm_compute; reflexivity|intros r [<-|[<-|[]]]; [left; left; auto|right; vm_compute; reflexivity]]|].
  split; [exact B1|]. split; [exact B2|].
  split; [intro id; unfold route_frequency, ex_f5, ex_f50, dget0; cbn [dget]; repeat match goal with |- context [String.eqb ?a ?b] => destruct (String.eqb a b) end; split; vm_compute; discriminate|].
  split; [eapply built_graph_weights; [exact I1|exact B1|modes_tac|reflexivity|discriminate|discriminate|]; left; split; [reflexivity|modes_tac]|].
  split; [eapply built_graph_weights; [exact I|exact B2|modes_tac|reflexivity|discriminate|discriminate|]; left; split; [reflexivity|modes_tac]|].
  split; [vm_compute; lia|]. split; [vm_compute; reflexivity|]. split; [vm_compute; reflexivity|]. vm_compute; discriminate.
Qed.
