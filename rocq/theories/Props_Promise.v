(** * Props_Promise: C76, the travellers pay what the search promised *)
From Coq Require Import String List ZArith QArith Bool Lia Lqa Qfield.
From Verif Require Props_Network.
From Verif Require Import PyBase PyFacts Graph GraphProofs GeoEx Mode Route ExtGraph ExtSpec ExtProofs Props_Ext Hyperpath HyperSpec HyperProofs HyperOpt Props_Hyper Assignment AssignSpec OdFacts FlowSpec CostSpec TableProofs FlowProofs Props_Assign Props_Flow Costs Props_Cost UsersCost UsersSpec Props_Users.
Import ListNotations.
Local Open Scope Q_scope.

(** the cost that the search announces from a node on: the label without the access to the stops of the origin *)
Definition announced (X : xgraph) (P : qpass) (e : od_entry) (n : enode) : Q :=
  match hr_lab (od_res e) n with Some q => q - access_cost X P (od_o e) n | None => 0 end.
(** what a traveller pays on an edge, in hours on board: its time, and the waiting before boarding *)
Definition paid_on (X : xgraph) (P : qpass) (f : fdict) (e : od_entry) (x : xedge) : Q :=
  leg_cost X P (od_d e) x + q_pw P / q_pv P * wait_time X f e x.
(** hours in a moving vehicle, and hours in a vehicle that stands at a stop *)
Definition running (e : od_entry) (x : xedge) : Q := match x_i x, x_j x with ER _, ER _ => x_t x | _, _ => 0 end.
Definition dwelling (X : xgraph) (z v : tab) (e : od_entry) (x : xedge) : Q := on_board X z v e x - running e x.
(** trips per hour times what the search announces where they start *)
Definition promised (X : xgraph) (P : qpass) (eas : list (od_entry * list (nat * Q))) : Q :=
  Qsumf (fun '(e, a) => Qsumf (fun s => start_trips e a s * announced X P e (ES s)) (map fst (od_paths e))) eas.
(** walking from a stop of mode m to the street, in hours on board *)
Definition egress (P : qpass) (m : mode) : Q := m_tat m / 60 * q_pa P / q_pv P.
(** travellers who arrive at the stops of the destination, times what is still announced there *)
Definition at_destination (X : xgraph) (P : qpass) (e : od_entry) (F : xedge -> Q) : Q :=
  Qsumf (fun n => if stop_of_dest X (od_d e) n then inflow X F n * announced X P e n else 0) (xnodes X).

Lemma sum_by {A B} (eqb : B -> B -> bool) (Heq : forall a b, eqb a b = true <-> a = b) (key : A -> B) (h : A -> Q) (N : list B) l : NoDup N -> (forall x, In x l -> In (key x) N) ->
  Qsumf h l == Qsumf (fun n => Qsumf (fun x => if eqb (key x) n then h x else 0) l) N.
Proof.
  intros ND HK. rewrite Qsumf_swap. apply Qsumf_ext. intros x Hx. symmetry. rewrite (Qsumf_ext _ (fun n => if eqb (key x) n then (fun _ => h x) n else 0)); [|intros; reflexivity].
  rewrite (Qsumf_pick (fun _ => h x) (eqb (key x)) (key x)); auto; [reflexivity|]. intros n _. rewrite Heq. split; congruence.
Qed.
Lemma sum_sub {A} (h : A -> Q) : forall l S, NoDup l -> NoDup S -> (forall x, In x S -> In x l) -> (forall x, In x l -> ~ In x S -> h x == 0) -> Qsumf h l == Qsumf h S.
Proof.
  intros l S. revert l. induction S as [|a S IH]; intros l Nl NS Hs Hz.
  - apply Qsumf_zero. intros x Hx. apply Hz; auto.
  - inversion NS as [|? ? Na NS']; subst. assert (Ha : In a l) by (apply Hs; left; auto). apply in_split in Ha. destruct Ha as (l1 & l2 & ->).
    rewrite Qsumf_app, !Qsumf_cons. rewrite <- (IH (l1 ++ l2)); auto.
    + rewrite Qsumf_app. ring.
    + eapply NoDup_remove_1; eauto.
    + intros x Hx. assert (In x (l1 ++ a :: l2)) by (apply Hs; right; auto). apply in_app_or in H. apply in_or_app. destruct H as [H|[H|H]]; auto. subst. contradiction.
    + intros x Hx Hn. apply Hz; [apply in_app_or in Hx; apply in_or_app; destruct Hx; [left|right; right]; auto|]. intros [->|H]; [|auto]. apply (NoDup_remove_2 _ _ _ Nl Hx).
Qed.

Section Promise.
  Context (G : geo) (g : graph) (rs : list route) (TP : Q) (fr : option (list (string * Q))) (X : xgraph) (P : qpass) (M : dict2) (fuel0 : nat) (es : list od_entry) (f : fdict).
  Hypothesis FI : flow_input G g rs TP fr X P M fuel0 es f.
  Hypothesis FR : forall r, In r rs -> freq f (r_id r) == route_frequency rs fr (r_id r).
  Let I := fi_input _ _ _ _ _ _ _ _ _ _ _ FI.
  Let HX := fi_built _ _ _ _ _ _ _ _ _ _ _ FI.
  Let HG := fi_graph _ _ _ _ _ _ _ _ _ _ _ FI.
  Lemma rn_at k rn : nth_error (xg_rnodes X) k = Some rn -> rnode_at (xg_rnodes X) k = rn.
  Proof. intro H. unfold rnode_at. apply nth_error_nth. auto. Qed.
  Lemma board_facts x q : In x (xg_edges X) -> x_f x = Some q -> exists s k, x_i x = ES s /\ x_j x = ER k /\
    r_mode (line_of X k) = sn_mode (stop_at (xg_stops X) s) /\ q * m_d (r_mode (line_of X k)) == freq f (rid X k) /\ ~ m_d (r_mode (line_of X k)) == 0.
  Proof.
    intros Hx Hq. assert (Hx2 := Hx). rewrite (edges_split _ _ _ _ _ _ I HX) in Hx2. destruct Hx2 as [H|[H|[H|H]]]; apply number_In2 in H; destruct H as [_ H].
    - rewrite (a_In _ _ _ _ _ _ I HX) in H. destruct H as (c & s & st & _ & _ & _ & _ & E & _). congruence.
    - rewrite (b_In _ _ _ _ _ _ I HX) in H. destruct H as (k & rn & s & A1 & A2 & A3 & Ei & Ej & _ & Ef). exists s, k. split; auto. split; auto.
      destruct (xnode_stop _ _ _ _ _ _ I HX k rn A1) as (s' & st & nd & B1 & B2 & _ & B3 & B4). assert (s' = s) by congruence. subst s'.
      unfold line_of, rid. rewrite (rn_at k rn A1). unfold stop_at. rewrite (nth_error_nth _ _ _ B2). split; auto. assert (D := xi_d _ _ I _ B4). split; auto.
      rewrite Hq in Ef. injection Ef as ->. rewrite FR by auto. destruct fr; rewrite ?default_freq; unfold route_frequency; field; auto.
    - rewrite (l_In _ _ _ _ _ _ I HX) in H. destruct H as (k & rn & s & _ & _ & _ & _ & _ & _ & E). congruence.
    - rewrite (r_In _ _ _ _ _ _ I HX) in H. destruct H as (k & rn & p & _ & _ & _ & _ & _ & E). congruence.
  Qed.
  Lemma sum_scal_r {A} (h : A -> Q) l c : Qsumf (fun x => h x * c) l == Qsumf h l * c.
  Proof. induction l as [|x l IH]; [unfold Qsumf; cbn; ring|]. rewrite !Qsumf_cons, IH. ring. Qed.
  (** at a node: the announced cost is the mean of what the next edges cost and announce *)
  Lemma mean_cost e c cd n : od_ok X P M e c cd -> In n (xnodes X) -> od_d e <> Some n -> hr_lab (od_res e) n <> None ->
    Qsumf (fun x => share X f (hr_suc (od_res e)) n (x_j x) * (paid_on X P f e x + announced X P e (x_j x))) (hr_suc (od_res e) n) == announced X P e n.
  Proof.
    intros O Hn Hd Hl. pose proof (oo_facts _ _ _ _ _ _ O) as HF. destruct (hr_lab (od_res e) n) as [q|] eqn:El; [|congruence].
    assert (EA : announced X P e n = q - access_cost X P (od_o e) n) by (unfold announced; rewrite El; reflexivity). rewrite EA.
    assert (AN : forall m, cost_of X P (od_o e) (od_res e) m == announced X P e m) by (intro m; unfold cost_of, announced; destruct (hr_lab (od_res e) m); reflexivity).
    destruct (hf_step _ _ _ _ _ HF n q Hn Hd El) as [(x & E1 & E2 & E3)|(E1 & E2 & E3)].
    - assert (Hx : In x (hr_suc (od_res e) n)) by (rewrite E1; left; auto). destruct (hf_suc _ _ _ _ _ HF n x Hx) as (A1 & A2 & _). rewrite E1, E3, AN. unfold Qsumf. cbn [map Qsum].
      pose proof (fi_shape _ _ _ _ _ _ _ _ _ _ _ FI x A1) as Sh. unfold edge_shape in Sh. rewrite E2, A2 in Sh. unfold paid_on, wait_time, share. rewrite A2.
      destruct n as [|s|k], (x_j x) as [|s'|k']; try contradiction; unfold Qsum; cbn [fold_right]; ring.
    - set (S := hr_suc (od_res e) n) in *. assert (EX : exists x, In x S) by (destruct S as [|x S']; [congruence|exists x; left; auto]). destruct EX as [x0 H0].
      destruct (hf_suc _ _ _ _ _ HF n x0 H0) as (B1 & B2 & _). destruct (E2 x0 H0) as (q0 & B3 & B4). destruct (board_facts x0 q0 B1 B3) as (s & k0 & C1 & C2 & C3 & C4 & C5).
      assert (En : n = ES s) by congruence. set (m := sn_mode (stop_at (xg_stops X) s)) in *. rewrite C3 in *.
      assert (BF : forall x, In x S -> exists k, x_j x = ER k /\ r_mode (line_of X k) = m /\ freq_of x * m_d m == freq f (rid X k) /\ 0 < freq_of x).
      { intros x Hx. destruct (hf_suc _ _ _ _ _ HF n x Hx) as (D1 & D2 & _). destruct (E2 x Hx) as (qx & D3 & D4). destruct (board_facts x qx D1 D3) as (s' & k & F1 & F2 & F3 & F4 & F5).
        assert (s' = s) by congruence. subst s'. fold m in F3. exists k. unfold freq_of. rewrite D3. rewrite F3 in F4. auto. }
      assert (LF : lines_freq X f S == Qsumf freq_of S * m_d m).
      { unfold lines_freq. rewrite <- sum_scal_r. apply Qsumf_ext. intros x Hx. destruct (BF x Hx) as (k & F1 & _ & F2 & _). rewrite F1, F2. reflexivity. }
      assert (SP : 0 < Qsumf freq_of S).
      { assert (K : forall l, (forall x, In x l -> 0 < freq_of x) -> l <> [] -> 0 < Qsumf freq_of l).
        { induction l as [|x l IH]; [congruence|]. intros H _. rewrite Qsumf_cons. specialize (H x (or_introl eq_refl)) as Hx. destruct l as [|y l]; [unfold Qsumf; cbn; lra|].
          assert (0 < Qsumf freq_of (y :: l)) by (apply IH; [intros; apply H; right; auto|discriminate]). lra. }
        apply K; auto. intros x Hx. destruct (BF x Hx) as (k & _ & _ & _ & F). auto. }
      assert (PV : ~ q_pv P == 0) by (pose proof (wg_pv _ _ (fi_weights _ _ _ _ _ _ _ _ _ _ _ FI)); lra).
      assert (WC : wait_cost X P n == m_theta m * q_pw P / q_pv P).
      { rewrite En. cbn [wait_cost]. destruct (hg_stops X HG s) as (st & Hst); [rewrite <- En; auto|]. rewrite Hst. unfold m, stop_at. rewrite (nth_error_nth _ _ _ Hst). reflexivity. }
      assert (SH : forall x, In x S -> share X f (hr_suc (od_res e)) n (x_j x) * (paid_on X P f e x + announced X P e (x_j x)) ==
        freq_of x * (leg_cost X P (od_d e) x + cost_of X P (od_o e) (od_res e) (x_j x)) * / Qsumf freq_of S + freq_of x * (wait_cost X P n * / Qsumf freq_of S * / Qsumf freq_of S)).
      { intros x Hx. destruct (hf_suc _ _ _ _ _ HF n x Hx) as (_ & D2 & _). destruct (BF x Hx) as (k & F1 & F2 & F3 & F4). unfold paid_on, share, wait_time. rewrite <- AN, WC. rewrite D2, En, F1, F2. rewrite <- En. fold S m. rewrite LF, <- F3.
        field. repeat split; auto; lra. }
      rewrite (Qsumf_ext _ _ _ SH). rewrite Qsumf_plus, !sum_scal_r.
      assert (E4 : Qsumf (fun e0 => freq_of e0 * (leg_cost X P (od_d e) e0 + cost_of X P (od_o e) (od_res e) (x_j e0))) S == (q - access_cost X P (od_o e) n) * Qsumf freq_of S - wait_cost X P n).
      { rewrite E3. ring. }
      rewrite E4. field. lra.
  Qed.
  Lemma nolab_in e a F c cd n : od_ok X P M e c cd -> strategy_flow X f e a F -> hr_lab (od_res e) n = None -> inflow X F n == 0.
  Proof.
    intros O SF El. unfold inflow. apply Qsumf_zero. intros y Hy. destruct (enode_eqb (x_j y) n) eqn:E; [|reflexivity]. apply enode_eqb_eq in E. destruct (SF y Hy) as [_ Z]. apply Z. left. intro C.
    destruct (hf_suc _ _ _ _ _ (oo_facts _ _ _ _ _ _ O) _ _ C) as (_ & _ & _ & L & _). congruence.
  Qed.
  Lemma nolab_start e a c cd n : od_ok X P M e c cd -> hr_lab (od_res e) n = None -> starts_at e a n == 0.
  Proof.
    intros O El. destruct n as [|s|]; try reflexivity. cbn [starts_at]. destruct (existsb (Nat.eqb s) (map fst (od_paths e))) eqn:Ex; [|reflexivity]. exfalso. apply existsb_exists in Ex. destruct Ex as (s' & Hs & E). apply Nat.eqb_eq in E. subst s'.
    apply (oo_keys _ _ _ _ _ _ O) in Hs. tauto.
  Qed.
  (** summing over the flow of a strategy a potential that each node shares out among the next edges *)
  Lemma potential e a F c cd (phi : enode -> Q) (w : xedge -> Q) : od_ok X P M e c cd -> strategy_flow X f e a F ->
    (forall n, In n (xnodes X) -> od_d e <> Some n -> hr_lab (od_res e) n <> None ->
       Qsumf (fun x => share X f (hr_suc (od_res e)) n (x_j x) * (w x + phi (x_j x))) (hr_suc (od_res e) n) == phi n) ->
    Qsumf (fun s => start_trips e a s * phi (ES s)) (map fst (od_paths e)) ==
    Qsumf (fun x => F x * w x) (xg_edges X) + Qsumf (fun n => if stop_of_dest X (od_d e) n then inflow X F n * phi n else 0) (xnodes X).
  Proof.
    intros O SF MC. pose proof (oo_facts _ _ _ _ _ _ O) as HF.
    assert (EN : NoDup (xg_edges X)) by (apply (NoDup_map_inv (fun e => (x_i e, x_j e))), (hg_pairs X HG)).
    (* starts *)
    assert (S1 : Qsumf (fun s => start_trips e a s * phi (ES s)) (map fst (od_paths e)) == Qsumf (fun n => starts_at e a n * phi n) (xnodes X)).
    { rewrite (sum_sub (fun n => starts_at e a n * phi n) (xnodes X) (map ES (map fst (od_paths e)))).
      - rewrite (Qsumf_map _ ES). apply Qsumf_ext. intros s Hs. cbn [starts_at]. assert (Ex : existsb (Nat.eqb s) (map fst (od_paths e)) = true) by (apply existsb_exists; exists s; split; auto; apply Nat.eqb_refl). rewrite Ex. reflexivity.
      - apply (hg_nodes X HG).
      - apply NoDup_map_inj; [congruence|apply (oo_nodup _ _ _ _ _ _ O)].
      - intros n Hn. apply in_map_iff in Hn. destruct Hn as (s & <- & Hs). apply (oo_keys _ _ _ _ _ _ O) in Hs. tauto.
      - intros n _ Hn. destruct n as [|s|]; cbn [starts_at]; try ring. destruct (existsb (Nat.eqb s) (map fst (od_paths e))) eqn:Ex; [|ring]. exfalso. apply Hn. apply existsb_exists in Ex. destruct Ex as (s' & Hs & E). apply Nat.eqb_eq in E. subst s'. apply in_map. auto. }
    (* arrivals *)
    assert (S2 : Qsumf (fun x => F x * phi (x_j x)) (xg_edges X) == Qsumf (fun n => inflow X F n * phi n) (xnodes X)).
    { rewrite (sum_by enode_eqb enode_eqb_eq x_j _ (xnodes X)); [|apply (hg_nodes X HG)|intros x Hx; apply (hg_ends X HG x Hx)].
      apply Qsumf_ext. intros n _. unfold inflow. rewrite <- sum_scal_r. apply Qsumf_ext. intros x _. destruct (enode_eqb (x_j x) n) eqn:E; [|ring]. apply enode_eqb_eq in E. rewrite E. reflexivity. }
    assert (S3 : Qsumf (fun x => F x * (w x + phi (x_j x))) (xg_edges X) ==
      Qsumf (fun n => if stop_of_dest X (od_d e) n then 0 else (starts_at e a n + inflow X F n) * phi n) (xnodes X)).
    { rewrite (sum_by enode_eqb enode_eqb_eq x_i _ (xnodes X)); [|apply (hg_nodes X HG)|intros x Hx; apply (hg_ends X HG x Hx)].
      apply Qsumf_ext. intros n Hn. destruct (stop_of_dest X (od_d e) n) eqn:Sk.
      - apply Qsumf_zero. intros x Hx. destruct (enode_eqb (x_i x) n) eqn:E; [|reflexivity]. apply enode_eqb_eq in E. destruct (SF x Hx) as [_ Z]. rewrite Z by (right; congruence). ring.
      - rewrite (sum_sub _ (xg_edges X) (hr_suc (od_res e) n)); auto.
        + destruct (hr_suc (od_res e) n) as [|x0 S] eqn:ES.
          * cbn. destruct (hr_lab (od_res e) n) as [q|] eqn:El.
            2:{ rewrite (nolab_in e a F c cd n O SF El), (nolab_start e a c cd n O El). unfold Qsumf. cbn. ring. }
            assert (Dn : od_d e = Some n \/ od_d e <> Some n) by (destruct (od_d e) as [m|]; [destruct (enode_eqb m n) eqn:E; [apply enode_eqb_eq in E; subst; auto|right; intro C; injection C as ->; rewrite (proj2 (enode_eqb_eq n n) eq_refl) in E; discriminate]|right; discriminate]).
            destruct Dn as [Dn|Dn].
            -- (* the destination itself: nobody goes on to it *)
               rewrite (oo_dest _ _ _ _ _ _ O) in Dn. injection Dn as <-. cbn [starts_at].
               assert (Z : inflow X F (EC cd) == 0).
               { unfold inflow. apply Qsumf_zero. intros y Hy. destruct (enode_eqb (x_j y) (EC cd)) eqn:E; [|reflexivity]. apply enode_eqb_eq in E. destruct (SF y Hy) as [_ Z]. apply Z. right.
                 pose proof (fi_shape _ _ _ _ _ _ _ _ _ _ _ FI y Hy) as Sh. unfold edge_shape in Sh. rewrite E in Sh. destruct (x_f y), (x_i y) as [|s|]; try contradiction. cbn [stop_of_dest]. rewrite (oo_dest _ _ _ _ _ _ O), Sh. cbn. apply Nat.eqb_refl. }
               rewrite Z. unfold Qsumf. cbn. ring.
            -- exfalso. destruct (hf_step _ _ _ _ _ HF n q Hn Dn El) as [(x & E1 & _)|(E1 & _)]; congruence.
          * assert (Hx0 : In x0 (hr_suc (od_res e) n)) by (rewrite ES; left; auto). destruct (hf_suc _ _ _ _ _ HF n x0 Hx0) as (_ & _ & _ & _ & Ln).
            assert (Dn : od_d e <> Some n) by (intro C; rewrite (hf_dest _ _ _ _ _ HF n C) in Hx0; contradiction).
            rewrite <- ES. transitivity (Qsumf (fun x => share X f (hr_suc (od_res e)) n (x_j x) * (w x + phi (x_j x)) * (starts_at e a n + inflow X F n)) (hr_suc (od_res e) n)).
            -- apply Qsumf_ext. intros x Hx. destruct (hf_suc _ _ _ _ _ HF n x Hx) as (A1 & A2 & _). rewrite (proj2 (enode_eqb_eq (x_i x) n) A2). destruct (SF x A1) as [Fx _]. rewrite A2 in Fx. rewrite Fx by auto. ring.
            -- rewrite sum_scal_r, (MC n Hn Dn Ln). ring.
        + apply (hf_nodup _ _ _ _ _ HF).
        + intros x Hx. apply (hf_suc _ _ _ _ _ HF n x Hx).
        + intros x Hx Nx. destruct (enode_eqb (x_i x) n) eqn:E; [|reflexivity]. apply enode_eqb_eq in E. destruct (SF x Hx) as [_ Z]. rewrite Z by (left; congruence). ring. }
    assert (S4 : Qsumf (fun x => F x * (w x + phi (x_j x))) (xg_edges X) == Qsumf (fun x => F x * w x) (xg_edges X) + Qsumf (fun x => F x * phi (x_j x)) (xg_edges X)).
    { rewrite <- Qsumf_plus. apply Qsumf_ext. intros; ring. }
    assert (S5 : Qsumf (fun n => if stop_of_dest X (od_d e) n then 0 else (starts_at e a n + inflow X F n) * phi n) (xnodes X) + Qsumf (fun n => if stop_of_dest X (od_d e) n then inflow X F n * phi n else 0) (xnodes X) ==
       Qsumf (fun n => starts_at e a n * phi n) (xnodes X) + Qsumf (fun n => inflow X F n * phi n) (xnodes X)).
    { rewrite <- !Qsumf_plus. apply Qsumf_ext. intros n Hn. destruct (stop_of_dest X (od_d e) n) eqn:Sk; [|ring].
      assert (Z : starts_at e a n == 0).
      { destruct n as [|s|]; try reflexivity. cbn [starts_at]. destruct (existsb (Nat.eqb s) (map fst (od_paths e))) eqn:Ex; [|reflexivity]. exfalso. apply existsb_exists in Ex. destruct Ex as (s' & Hs & E). apply Nat.eqb_eq in E. subst s'.
        apply (oo_keys _ _ _ _ _ _ O) in Hs. destruct Hs as (_ & (st & A1 & A2) & _). cbn [stop_of_dest] in Sk. rewrite (oo_dest _ _ _ _ _ _ O) in Sk. unfold stop_at in Sk. rewrite (nth_error_nth _ _ _ A1), A2 in Sk. cbn in Sk. apply Nat.eqb_eq in Sk. apply (oo_diff _ _ _ _ _ _ O). auto. }
      rewrite Z. ring. }
    rewrite S1. rewrite S2 in S4. rewrite S4 in S3. rewrite <- S3 in S5. lra.
  Qed.
  Lemma promise e a F c cd : od_ok X P M e c cd -> strategy_flow X f e a F ->
    Qsumf (fun s => start_trips e a s * announced X P e (ES s)) (map fst (od_paths e)) ==
    Qsumf (fun x => F x * paid_on X P f e x) (xg_edges X) + at_destination X P e F.
  Proof. intros O SF. apply (potential e a F c cd); auto. intros. eapply mean_cost; eauto. Qed.
  Lemma arrive e a F c cd : In e es -> od_ok X P M e c cd -> strategy_flow X f e a F ->
    assigned_trips e a == Qsumf (fun n => if stop_of_dest X (od_d e) n then inflow X F n else 0) (xnodes X).
  Proof.
    intros He O SF. assert (E := potential e a F c cd (fun _ => 1) (fun _ => 0) O SF). unfold assigned_trips.
    rewrite (Qsumf_ext (start_trips e a) (fun s => start_trips e a s * 1)) by (intros; ring). rewrite E.
    - rewrite (Qsumf_zero (fun x => F x * 0)) by (intros; ring). rewrite Qplus_0_l. apply Qsumf_ext. intros n _. destruct (stop_of_dest X (od_d e) n); ring.
    - intros n Hn Hd Hl. pose proof (oo_facts _ _ _ _ _ _ O) as HF. destruct (hr_lab (od_res e) n) as [q|] eqn:El; [|congruence].
      destruct (hf_step _ _ _ _ _ HF n q Hn Hd El) as [(x & E1 & E2 & E3)|(E1 & E2 & E3)].
      + assert (Hx : In x (hr_suc (od_res e) n)) by (rewrite E1; left; auto). destruct (hf_suc _ _ _ _ _ HF n x Hx) as (A1 & A2 & _). rewrite E1. unfold Qsumf. cbn [map].
        pose proof (fi_shape _ _ _ _ _ _ _ _ _ _ _ FI x A1) as Sh. unfold edge_shape in Sh. rewrite E2, A2 in Sh. unfold share.
        destruct n as [|s|k], (x_j x) as [|s'|k']; try contradiction; unfold Qsum; cbn [fold_right]; ring.
      + set (S := hr_suc (od_res e) n) in *. assert (EX : exists x, In x S) by (destruct S as [|x S']; [congruence|exists x; left; auto]). destruct EX as [x0 H0].
        assert (SB : forall x, In x S -> exists s k, n = ES s /\ x_j x = ER k).
        { intros x Hx. destruct (hf_suc _ _ _ _ _ HF n x Hx) as (D1 & D2 & _). destruct (E2 x Hx) as (qx & D3 & D4). destruct (board_facts x qx D1 D3) as (s' & k & F1 & F2 & _). exists s', k. split; congruence. }
        assert (LP : 0 < lines_freq X f S).
        { destruct (fi_runs _ _ _ _ _ _ _ _ _ _ _ FI e He n x0 H0) as (y & k & Hy & Ey & Py); [destruct (E2 x0 H0) as (q0 & E0 & _); congruence|].
          unfold lines_freq. apply in_split in Hy. destruct Hy as (l1 & l2 & Es). unfold S in *. rewrite Es, Qsumf_app, Qsumf_cons, Ey.
          assert (NN : forall l, 0 <= Qsumf (fun x => match x_j x with ER k => freq f (rid X k) | _ => 0 end) l).
          { intro l. apply Qsumf_nonneg. intros x _. destruct (x_j x); try apply Qle_refl. apply (fi_freq _ _ _ _ _ _ _ _ _ _ _ FI). }
          pose proof (NN l1). pose proof (NN l2). lra. }
        transitivity (Qsumf (fun x => (match x_j x with ER k => freq f (rid X k) | _ => 0 end) * / lines_freq X f S) S).
        * apply Qsumf_ext. intros x Hx. destruct (SB x Hx) as (s & k & En & Ej). unfold share. rewrite En, Ej. rewrite <- En. fold S. field. lra.
        * rewrite sum_scal_r. change (Qsumf (fun x => match x_j x with ER k => freq f (rid X k) | _ => 0 end) S) with (lines_freq X f S). field. lra.
  Qed.
  Lemma joined x : In x (xg_edges X) -> joins X (x_type x) (x_i x) (x_j x).
  Proof. intro Hx. apply (proj1 (C31_edges_exact _ _ _ _ _ _ I HX)). exists x. auto. Qed.
  Lemma dest_stop e c cd s : od_ok X P M e c cd -> In (ES s) (xnodes X) -> stop_is_at X (ES s) (od_d e) = stop_of_dest X (od_d e) (ES s).
  Proof.
    intros O N. destruct (hg_stops X HG s N) as (st & Hst). unfold stop_is_at, stop_of_dest, stop_at. rewrite Hst, (nth_error_nth _ _ _ Hst), (oo_dest _ _ _ _ _ _ O). cbn. first [reflexivity | apply Nat.eqb_sym].
  Qed.
  (** an edge of the strategy that is not walked costs its running time or the penalty of a transfer *)
  Lemma leg_split e c cd x : od_ok X P M e c cd -> In x (xg_edges X) -> x_type x <> ACCESS ->
    leg_cost X P (od_d e) x == running e x + TP / 60 * transfer X e x.
  Proof.
    intros O Hx HA. pose proof (C31_edge_values _ _ _ _ _ _ I HX x Hx) as EV. pose proof (hg_ends X HG x Hx) as [_ N2]. pose proof (joined x Hx) as TY.
    unfold leg_cost, running, transfer. revert EV N2 HA. destruct TY as [| |k rn s|k rn s|k rn p]; intros EV N2 HA; try congruence.
    - destruct EV as (T0 & _). rewrite T0. ring.
    - destruct EV as (T0 & _). rewrite (dest_stop e c cd s O N2). destruct (stop_of_dest X (od_d e) (ES s)); rewrite ?T0; ring.
    - ring.
  Qed.
  (** nobody is on the walks *)
  Lemma no_walk e a F : never_walks X e -> strategy_flow X f e a F -> forall x, In x (xg_edges X) -> x_type x = ACCESS -> F x == 0.
  Proof.
    intros NW SF. assert (OUT : forall x c, In x (xg_edges X) -> x_j x = EC c -> F x == 0).
    { intros x c Hx Ej. pose proof (joined x Hx) as TY. rewrite Ej in TY. inversion TY as [|c' s st A1 A2 A3 E1 E2| | |]. destruct (SF x Hx) as [_ Z]. apply Z.
      destruct (in_dec xedge_dec x (hr_suc (od_res e) (x_i x))) as [D|D]; [|left; auto]. right. rewrite <- E2 in *. eapply NW; eauto. }
    intros x Hx Ty. pose proof (joined x Hx) as TY. rewrite Ty in TY. inversion TY as [c s st A1 A2 A3 E1 E2 E3|c s st A1 A2 A3 E1 E2 E3| | |].
    - destruct (SF x Hx) as [A Z]. destruct (in_dec xedge_dec x (hr_suc (od_res e) (x_i x))) as [D|D]; [|apply Z; left; auto].
      rewrite A; auto; [|rewrite <- E2; reflexivity]. rewrite <- E2. cbn [starts_at]. assert (IN : inflow X F (EC c) == 0).
      { unfold inflow. apply Qsumf_zero. intros y Hy. destruct (enode_eqb (x_j y) (EC c)) eqn:E; [|reflexivity]. apply enode_eqb_eq in E. eapply OUT; eauto. }
      rewrite IN. ring.
    - apply (OUT x c); auto.
  Qed.
  (** with one mode, what is announced at a stop of the destination is the walk to the street *)
  Lemma at_dest_stop m e c cd s : (forall r, In r rs -> r_mode r = m) -> od_ok X P M e c cd -> In (ES s) (xnodes X) -> stop_of_dest X (od_d e) (ES s) = true ->
    announced X P e (ES s) == egress P m.
  Proof.
    intros OM O N SD. pose proof (wg_pv _ _ (fi_weights _ _ _ _ _ _ _ _ _ _ _ FI)) as PV. pose proof (wg_pa _ _ (fi_weights _ _ _ _ _ _ _ _ _ _ _ FI)) as PA. pose proof (wg_pw _ _ (fi_weights _ _ _ _ _ _ _ _ _ _ _ FI)) as PW.
    assert (LEG : forall x, In x (xg_edges X) -> 0 <= leg_cost X P (od_d e) x) by (intros x Hx; apply (leg_nonneg X P (od_d e) HG (fi_weights _ _ _ _ _ _ _ _ _ _ _ FI)); auto).
    assert (WAIT : forall n, In n (xnodes X) -> 0 <= wait_cost X P n).
    { intros n Hn. unfold wait_cost. destruct n as [|s0|]; try lra. destruct (nth_error (xg_stops X) s0) as [st|] eqn:Es; [|lra]. pose proof (wg_theta _ _ (fi_weights _ _ _ _ _ _ _ _ _ _ _ FI) s0 st Hn Es). unfold Qdiv. apply Qmult_le_0_compat; [apply Qmult_le_0_compat; auto|]. apply Qinv_le_0_compat. lra. }
    assert (WALK : forall x, In x (xg_edges X) -> x_type x = ACCESS -> leg_cost X P (od_d e) x == egress P m).
    { intros x Hx Ty. pose proof (C31_edge_values _ _ _ _ _ _ I HX x Hx) as EV. rewrite Ty in EV. destruct EV as (_ & s0 & st & Hs & Hst & Et). unfold leg_cost, egress. rewrite Ty, Et.
      assert (N0 : In (ES s0) (xnodes X)) by (destruct (hg_ends X HG x Hx); destruct Hs as [<-|<-]; auto). destruct (stop_mode_in G g rs TP fr X P M fuel0 es f FI s0 N0) as (r & Hr & Er). unfold stop_at in Er. rewrite (nth_error_nth _ _ _ Hst) in Er. rewrite Er, (OM r Hr). reflexivity. }
    assert (LOW : 0 <= egress P m -> forall n q, strategy_cost X P (od_o e) (od_d e) n q -> 0 <= q /\ (n <> EC cd -> egress P m <= q)).
    { intros EP n q SC. induction SC as [n q E0 Q0|x c0 q Hx Ef Av SC IH Eq|n l q Ne ND HE SC IH Eq].
      - split; [lra|]. intro Hn. exfalso. rewrite (oo_dest _ _ _ _ _ _ O) in E0. congruence.
      - destruct IH as [IH0 IH]. pose proof (LEG x Hx). split; [lra|]. intro Hn. destruct (enode_eqb (x_j x) (EC cd)) eqn:E.
        + apply enode_eqb_eq in E. pose proof (joined x Hx) as TY. rewrite E in TY. assert (Ty : x_type x = ACCESS) by (inversion TY; auto). rewrite Eq, (WALK x Hx Ty). lra.
        + assert (D : x_j x <> EC cd) by (intro C; rewrite C in E; cbn in E; rewrite Nat.eqb_refl in E; discriminate). specialize (IH D). lra.
      - assert (K : forall l, (forall x c0, In (x, c0) l -> In x (xg_edges X) /\ (exists f, x_f x = Some f /\ 0 < f) /\ egress P m <= c0) ->
          egress P m * Qsumf (fun ec => freq_of (fst ec)) l <= Qsumf (fun ec => freq_of (fst ec) * (leg_cost X P (od_d e) (fst ec) + snd ec)) l /\ 0 <= Qsumf (fun ec => freq_of (fst ec)) l /\ (l <> [] -> 0 < Qsumf (fun ec => freq_of (fst ec)) l)).
        { clear - LEG. induction l as [|[x c0] l IHl]; intro HL; [unfold Qsumf; cbn; split; [lra|split; [lra|congruence]]|]. destruct IHl as (A & B & _); [intros; eapply HL; right; eauto|]. rewrite !Qsumf_cons. cbn [fst snd].
          destruct (HL x c0 (or_introl eq_refl)) as (H1 & (q & H2 & H3) & H4). unfold freq_of at 1 3 5 7. rewrite H2. pose proof (LEG x H1).
          assert (0 <= q * (leg_cost X P (od_d e) x + c0 - egress P m)) by (apply Qmult_le_0_compat; lra). split; [|split; [lra|intros _; lra]]. lra. }
        destruct (K l) as (A & _ & B).
        { intros x c0 Hin. destruct (HE x c0 Hin) as (H1 & H2 & (q0 & H3 & H4) & H5). split; auto. split; [eauto|]. apply (proj2 (IH x c0 Hin)). intro C. pose proof (fi_shape _ _ _ _ _ _ _ _ _ _ _ FI x H1) as Sh. unfold edge_shape in Sh. rewrite H3, C in Sh. destruct (x_i x); contradiction. }
        specialize (B Ne). assert (Nn : In n (xnodes X)) by (destruct l as [|[x c0] l]; [congruence|]; destruct (HE x c0 (or_introl eq_refl)) as (H1 & <- & _); apply (hg_ends X HG x H1)). pose proof (WAIT n Nn).
        assert (egress P m <= q) by (apply Qmult_le_r with (z := Qsumf (fun ec => freq_of (fst ec)) l); lra). split; [lra|auto]. }
    pose proof (hf_lab _ _ _ _ _ (oo_facts _ _ _ _ _ _ O) (ES s) N) as ML. destruct (hg_stops X HG s N) as (st & Hst).
    assert (Cs : sn_city st = cd). { unfold stop_of_dest, stop_at in SD. rewrite (nth_error_nth _ _ _ Hst), (oo_dest _ _ _ _ _ _ O) in SD. cbn in SD. apply Nat.eqb_eq in SD. congruence. }
    assert (W : exists x, In x (xg_edges X) /\ x_type x = ACCESS /\ x_i x = ES s /\ x_j x = EC cd).
    { apply (proj1 (C31_edges_exact _ _ _ _ _ _ I HX)). econstructor; eauto. apply (C30_nodes_exact _ _ _ _ _ _ I HX). auto. }
    destruct W as (x & Hx & Ty & Ei & Ej).
    assert (UP : strategy_cost X P (od_o e) (od_d e) (ES s) (egress P m)).
    { rewrite <- Ei. apply sc_move with (c := 0); auto.
      - pose proof (C31_edge_values _ _ _ _ _ _ I HX x Hx) as EV. rewrite Ty in EV. tauto.
      - pose proof (oo_diff _ _ _ _ _ _ O). rewrite (oo_origin _ _ _ _ _ _ O). split; rewrite ?Ei, ?Ej; congruence.
      - rewrite Ej. apply sc_here; [apply (oo_dest _ _ _ _ _ _ O)|reflexivity].
      - rewrite (WALK x Hx Ty). ring. }
    unfold announced. destruct (hr_lab (od_res e) (ES s)) as [q|] eqn:El.
    - destruct ML as [M1 M2]. apply Qle_antisym; [apply M2; auto|]. apply (LOW ltac:(rewrite <- (WALK x Hx Ty); auto) _ _ M1). discriminate.
    - exfalso. exact (ML _ UP).
  Qed.
End Promise.

(** For the travellers of an OD pair, when the lines run as frequently as the search supposed: what they pay
    on the edges they use, and what is still announced at the stops of the destination where they end, is what
    the search announced where they start. *)
Theorem C76_trip_cost : forall G g rs TP fr X P M fuel0 es f e a F, flow_input G g rs TP fr X P M fuel0 es f ->
  (forall r, In r rs -> freq f (r_id r) == route_frequency rs fr (r_id r)) -> In e es -> strategy_flow X f e a F ->
  Qsumf (fun s => start_trips e a s * announced X P e (ES s)) (map fst (od_paths e)) ==
    Qsumf (fun x => F x * paid_on X P f e x) (xg_edges X) + at_destination X P e F /\
  assigned_trips e a == Qsumf (fun n => if stop_of_dest X (od_d e) n then inflow X F n else 0) (xnodes X).
Proof.
  intros G g rs TP fr X P M fuel0 es f e a F FI FR He SF. destruct (entry_ok G g rs TP fr X P M fuel0 es f FI e He) as (c & cd & O). split.
  - apply (promise G g rs TP fr X P M fuel0 es f FI FR e a F c cd O SF).
  - apply (arrive G g rs TP fr X P M fuel0 es f FI FR e a F c cd He O SF).
Qed.
Print Assumptions C76_trip_cost.

(** The hours that the users' cost adds up, of all the OD pairs, when nobody walks between two stops: time in
    moving vehicles, waiting and transfers, at the weights of the search, are what the search announced, less
    what it still announced at the stops where the trips end. *)
Theorem C76_users_hours : forall G g rs TP fr X P M fuel0 es f vp z v asg, flow_input G g rs TP fr X P M fuel0 es f -> ~ vp == 0 ->
  (forall r, In r rs -> freq f (r_id r) == route_frequency rs fr (r_id r)) ->
  (forall r, In r rs -> both_ways r) -> (forall e, In e es -> never_walks X e) ->
  exists N u, (forall fuel, (N <= fuel)%nat -> resources_consumer fuel X vp f es asg z v = Ok u) /\
    forall Fs, Forall2 (fun ea F => strategy_flow X f (fst ea) (snd ea) F) (combine es asg) Fs ->
      (u_tv u - consumption X (dwelling X z v) (combine es asg) Fs) + q_pw P / q_pv P * u_te u + TP / 60 * u_t u ==
      promised X P (combine es asg) - Qsumf (fun '(ea, F) => at_destination X P (fst ea) F) (combine (combine es asg) Fs).
Proof.
  intros G g rs TP fr X P M fuel0 es f vp z v asg FI VP FR BW NW. destruct (C48_resources G g rs TP fr X P M fuel0 es f vp z v asg FI VP) as (N & u & R & _ & K). exists N, u. split; auto.
  intros Fs FS. destruct (K Fs FS) as (A1 & A2 & A3 & _). specialize (A3 BW). rewrite A1, A2, A3. clear K A1 A2 A3 R.
  assert (HI : forall ea, In ea (combine es asg) -> In (fst ea) es) by (intros [e a] H; apply in_combine_l in H; auto). revert HI FS. generalize (combine es asg). intros eas HI FS.
  induction FS as [|[e a] F eas Fs SF FS IH]; [unfold consumption, promised, Qsumf; cbn; ring|]. specialize (IH (fun ea H => HI ea (or_intror H))).
  assert (He : In e es) by (apply (HI (e, a)); left; auto). destruct (C76_trip_cost G g rs TP fr X P M fuel0 es f e a F FI FR He SF) as [T _]. cbn [fst snd] in SF.
  destruct (entry_ok G g rs TP fr X P M fuel0 es f FI e He) as (c & cd & O).
  assert (D : Qsumf (fun x => F x * paid_on X P f e x) (xg_edges X) ==
    (Qsumf (fun x => F x * on_board X z v e x) (xg_edges X) - Qsumf (fun x => F x * dwelling X z v e x) (xg_edges X)) +
    q_pw P / q_pv P * Qsumf (fun x => F x * wait_time X f e x) (xg_edges X) + TP / 60 * Qsumf (fun x => F x * transfer X e x) (xg_edges X)).
  { rewrite <- !Qsumf_scal. unfold Qminus. assert (OPP : forall h l, - Qsumf h l == Qsumf (fun x : xedge => - h x) l) by (intros h l; induction l as [|x l IHl]; [reflexivity|]; rewrite !Qsumf_cons, <- IHl; ring). rewrite OPP, <- !Qsumf_plus. apply Qsumf_ext. intros x Hx. unfold dwelling, paid_on.
    assert (TD : x_type x = ACCESS \/ x_type x <> ACCESS) by (destruct (x_type x); auto; right; discriminate). destruct TD as [Ty|Ty].
    - rewrite (no_walk G g rs TP fr X P M fuel0 es f FI e a F (NW e He) SF x Hx Ty). ring.
    - rewrite (leg_split G g rs TP fr X P M fuel0 es f FI e c cd x O Hx Ty). ring. }
  rewrite D in T. unfold consumption, promised in *. cbn [combine]. rewrite !Qsumf_cons. cbn [fst snd]. rewrite T.
  set (s1 := Qsumf _ (combine eas Fs)) in IH at 1. 
  match goal with |- ?l == ?r => setoid_replace r with (Qsumf (fun x => F x * on_board X z v e x) (xg_edges X) - Qsumf (fun x => F x * dwelling X z v e x) (xg_edges X) +
    q_pw P / q_pv P * Qsumf (fun x => F x * wait_time X f e x) (xg_edges X) + TP / 60 * Qsumf (fun x => F x * transfer X e x) (xg_edges X) +
    (Qsumf (fun '(e, a) => Qsumf (fun s => start_trips e a s * announced X P e (ES s)) (map fst (od_paths e))) eas - Qsumf (fun '(ea, F) => at_destination X P (fst ea) F) (combine eas Fs))) by ring end.
  rewrite <- IH. unfold s1. ring.
Qed.
Print Assumptions C76_users_hours.

(** With one mode nothing is left but the walk of every trip to the street: the hours of the users' cost are
    trips times the label of the stop they start from, without the access and the egress. *)
Theorem C76_one_mode : forall G g rs TP fr X P M fuel0 es f vp z v asg m, flow_input G g rs TP fr X P M fuel0 es f -> ~ vp == 0 ->
  (forall r, In r rs -> freq f (r_id r) == route_frequency rs fr (r_id r)) ->
  (forall r, In r rs -> both_ways r /\ r_mode r = m) ->
  exists N u, (forall fuel, (N <= fuel)%nat -> resources_consumer fuel X vp f es asg z v = Ok u) /\
    forall Fs, Forall2 (fun ea F => strategy_flow X f (fst ea) (snd ea) F) (combine es asg) Fs ->
      (u_tv u - consumption X (dwelling X z v) (combine es asg) Fs) + q_pw P / q_pv P * u_te u + TP / 60 * u_t u ==
      Qsumf (fun '(e, a) => Qsumf (fun s => start_trips e a s * (match hr_lab (od_res e) (ES s) with Some q => q | None => 0 end - 2 * egress P m)) (map fst (od_paths e))) (combine es asg).
Proof.
  intros G g rs TP fr X P M fuel0 es f vp z v asg m FI VP FR BM.
  assert (OM : forall r r', In r rs -> In r' rs -> r_mode r = r_mode r') by (intros r r' H H'; rewrite (proj2 (BM r H)), (proj2 (BM r' H')); reflexivity).
  destruct (C76_users_hours G g rs TP fr X P M fuel0 es f vp z v asg FI VP FR (fun r H => proj1 (BM r H)) (C48_one_mode G g rs TP fr X P M fuel0 es f FI OM)) as (N & u & R & K). exists N, u. split; auto.
  intros Fs FS. rewrite (K Fs FS). clear K R. assert (HI : forall ea, In ea (combine es asg) -> In (fst ea) es) by (intros [e a] H; apply in_combine_l in H; auto). revert HI FS. generalize (combine es asg). intros eas HI FS.
  unfold promised. induction FS as [|[e a] F eas Fs SF FS IH]; [unfold Qsumf; cbn; ring|]. specialize (IH (fun ea H => HI ea (or_intror H))). cbn [combine]. rewrite !Qsumf_cons, <- IH. cbn [fst]. clear IH.
  assert (He : In e es) by (apply (HI (e, a)); left; auto). destruct (C76_trip_cost G g rs TP fr X P M fuel0 es f e a F FI FR He SF) as [_ T]. destruct (entry_ok G g rs TP fr X P M fuel0 es f FI e He) as (c & cd & O).
  assert (AD : at_destination X P e F == assigned_trips e a * egress P m).
  { rewrite T, <- sum_scal_r. unfold at_destination. apply Qsumf_ext. intros n Hn. destruct (stop_of_dest X (od_d e) n) eqn:SD; [|ring]. destruct n as [|s|]; try discriminate SD.
    rewrite (at_dest_stop G g rs TP fr X P M fuel0 es f FI m e c cd s (fun r H => proj2 (BM r H)) O Hn SD). reflexivity. }
  rewrite AD. unfold assigned_trips. rewrite <- sum_scal_r.
  assert (E : Qsumf (fun s => start_trips e a s * (match hr_lab (od_res e) (ES s) with Some q => q | None => 0 end - 2 * egress P m)) (map fst (od_paths e)) + Qsumf (fun s => start_trips e a s * egress P m) (map fst (od_paths e)) ==
    Qsumf (fun s => start_trips e a s * announced X P e (ES s)) (map fst (od_paths e))).
  { rewrite <- Qsumf_plus. apply Qsumf_ext. intros s Hs. apply (oo_keys _ _ _ _ _ _ O) in Hs. destruct Hs as (Hn & (st & Hst & Ec) & Hl). unfold announced. destruct (hr_lab (od_res e) (ES s)) as [q|]; [|congruence].
    assert (AC : access_cost X P (od_o e) (ES s) == egress P m).
    { unfold access_cost. rewrite Hst, (oo_origin _ _ _ _ _ _ O), Ec, Nat.eqb_refl. destruct (stop_mode_in G g rs TP fr X P M fuel0 es f FI s Hn) as (r & Hr & Er). unfold stop_at in Er. rewrite (nth_error_nth _ _ _ Hst) in Er. rewrite Er, (proj2 (BM r Hr)). reflexivity. }
    rewrite AC. ring. }
  rewrite <- E. ring.
Qed.
Print Assumptions C76_one_mode.

(** ** Examples and findings *)
(** three metro lines: from 1 one takes the first of the direct line and the line to 2, where one changes *)
Definition ex_rs76 : list route :=
  [mkRoute "a" Props_Network.ex_metro [1;2]%Z [2;1]%Z [1;2]%Z [2;1]%Z CUSTOM; mkRoute "b" Props_Network.ex_metro [2;4;3]%Z [3;4;2]%Z [2;4;3]%Z [3;4;2]%Z CUSTOM;
   mkRoute "c" Props_Network.ex_metro [1;2;4;3]%Z [3;4;2;1]%Z [1;3]%Z [3;1]%Z CUSTOM].
Definition ex_f76 : fdict := [("a"%string, 20); ("b"%string, 30); ("c"%string, 2)].
Definition ex_X76 : xgraph := match build_ext ex_geo ex_g34 ex_rs76 3 (Some ex_f76) with Ok X => X | Err _ => mkXgraph empty_graph [] [] [] [] end.
Definition ex_M76 : dict2 := [(1%Z, [(3%Z, 5)]); (4%Z, [(1%Z, 7)])].
Definition ex_es76 : list od_entry := match get_all_hyperpaths 40 ex_X76 ex_P ex_M76 with Ok es => es | Err _ => [] end.
Definition ex_asg76 : list (list (nat * Q)) := match get_assignment ex_X76 12 4 (822 # 100) (274 # 100) ex_es76 with Ok a => a | Err _ => [] end.
Example ex_X76_built : build_ext ex_geo ex_g34 ex_rs76 3 (Some ex_f76) = Ok ex_X76.
Proof. vm_compute. reflexivity. Qed.
Example ex_X76_input : ext_input ex_g34 ex_rs76.
Proof. ext_input_tac. Qed.
Definition ex_f76b : fdict := [("a"%string, 20); ("b"%string, 30); ("c"%string, 10)].
Lemma ex_fi76 f : f = ex_f76 \/ f = ex_f76b -> flow_input ex_geo ex_g34 ex_rs76 3 (Some ex_f76) ex_X76 ex_P ex_M76 40 ex_es76 f.
Proof.
  assert (A : hyper_graph ex_X76).
  { eapply built_graph_is_hyper_graph; [exact ex_X76_input|exact ex_X76_built|exact ex_sqrt_nonneg|discriminate|modes_tac|].
    intro id. unfold route_frequency, ex_f76, dget0. cbn [dget]. repeat match goal with |- context [String.eqb ?a ?b] => destruct (String.eqb a b) end; vm_compute; discriminate. }
  assert (B : weights ex_X76 ex_P) by (eapply built_graph_weights; [exact ex_X76_input|exact ex_X76_built|modes_tac|reflexivity|discriminate|discriminate|]; left; split; [reflexivity|modes_tac]).
  assert (C : (length (xnodes ex_X76) < 40)%nat) by (vm_compute; lia).
  assert (H : get_all_hyperpaths 40 ex_X76 ex_P ex_M76 = Ok ex_es76) by (vm_compute; reflexivity). intro Hf.
  split; [exact ex_X76_input|exact ex_X76_built|exact A|exact B|exact C|exact H| |].
  - intro r. destruct Hf as [-> | ->]; unfold freq, dget0, ex_f76, ex_f76b; cbn [dget]; repeat match goal with |- context [String.eqb ?a ?b] => destruct (String.eqb a b) end; vm_compute; discriminate.
  - apply (all_run ex_geo ex_g34 ex_rs76 3 (Some ex_f76) ex_X76 ex_P ex_M76 40 ex_es76 f ex_X76_input ex_X76_built A B C H). destruct Hf as [-> | ->]; intros r [<-|[<-|[<-|[]]]]; reflexivity.
Qed.
Lemma ex_rs76_ways : forall r, In r ex_rs76 -> both_ways r /\ r_mode r = Props_Network.ex_metro.
Proof. intros r [<-|[<-|[<-|[]]]]; (split; [|reflexivity]); (split; [discriminate|split; [cbn; repeat constructor; cbn; intuition discriminate|left; reflexivity]]). Qed.
(** the sum that the search promises *)
Definition ex_sum76 : Q := Qsumf (fun '(e, a) => Qsumf (fun s => start_trips e a s * (match hr_lab (od_res e) (ES s) with Some q => q | None => 0 end - 2 * egress ex_P Props_Network.ex_metro)) (map fst (od_paths e))) (combine ex_es76 ex_asg76).
Definition ex_hours76 (f : fdict) : option Q :=
  match resources_consumer 60 ex_X76 4 f ex_es76 ex_asg76 [] [] with Ok u => Some (Qred (u_tv u + q_pw ex_P / q_pv ex_P * u_te u + 3 / 60 * u_t u)) | Err _ => None end.
(** the hypotheses hold, some travellers change, and the hours are those promised *)
Example C76_ex : flow_input ex_geo ex_g34 ex_rs76 3 (Some ex_f76) ex_X76 ex_P ex_M76 40 ex_es76 ex_f76 /\
  (forall r, In r ex_rs76 -> freq ex_f76 (r_id r) == route_frequency ex_rs76 (Some ex_f76) (r_id r)) /\
  (forall r, In r ex_rs76 -> both_ways r /\ r_mode r = Props_Network.ex_metro) /\
  (exists u, resources_consumer 60 ex_X76 4 ex_f76 ex_es76 ex_asg76 [] [] = Ok u /\ 0 < u_te u /\ 0 < u_t u) /\
  ex_hours76 ex_f76 = Some (293 # 66) /\ ex_sum76 == 293 # 66 /\ 0 < egress ex_P Props_Network.ex_metro.
Proof.
  split; [apply ex_fi76; auto|]. split; [intros r [<-|[<-|[<-|[]]]]; reflexivity|]. split; [exact ex_rs76_ways|]. split; [|split; [vm_compute; reflexivity|split; vm_compute; reflexivity]].
  eexists. split; [vm_compute; reflexivity|]. split; vm_compute; reflexivity.
Qed.
(** The objective of an inner optimisation varies the frequencies and keeps the strategies found at the first
    ones (optimizer.py 213-234): at other frequencies, even higher ones, the travellers do not pay what their
    search announced. *)
Theorem C76_other_frequencies_refuted : exists G g rs TP fr X P M es f asg u m, flow_input G g rs TP fr X P M 40 es f /\
  (forall r, In r rs -> both_ways r /\ r_mode r = m) /\ (forall r, In r rs -> route_frequency rs fr (r_id r) <= freq f (r_id r)) /\
  resources_consumer 60 X 4 f es asg [] [] = Ok u /\
  ~ u_tv u + q_pw P / q_pv P * u_te u + TP / 60 * u_t u ==
    Qsumf (fun '(e, a) => Qsumf (fun s => start_trips e a s * (match hr_lab (od_res e) (ES s) with Some q => q | None => 0 end - 2 * egress P m)) (map fst (od_paths e))) (combine es asg).
Proof.
  exists ex_geo, ex_g34, ex_rs76, 3, (Some ex_f76), ex_X76, ex_P, ex_M76, ex_es76, ex_f76b, ex_asg76. eexists. exists Props_Network.ex_metro.
  split; [apply ex_fi76; auto|]. split; [exact ex_rs76_ways|]. split; [intros r [<-|[<-|[<-|[]]]]; vm_compute; discriminate|]. split; [vm_compute; reflexivity|]. vm_compute. discriminate.
Qed.
Print Assumptions C76_other_frequencies_refuted.
