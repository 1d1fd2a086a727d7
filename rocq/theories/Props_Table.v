(** * Props_Table: C67, when the table of the lines can be made (optimizer.py 509-717) *)
From Coq Require Import String List ZArith QArith Qabs Bool Lia Lqa Qfield.
From Verif Require Import PyBase PyFacts Graph GraphSpec GraphProofs GeoEx Props_Graph Demand DemandSpec DemandProofs Props_Demand Mode Route Network RouteSpec RouteProofs Props_Network Predef PredefSpec PredefProofs Props_Predef
  ExtGraph ExtSpec ExtProofs Props_Ext Hyperpath HyperSpec HyperProofs Props_Hyper OdFacts Assignment AssignSpec Props_Assign FlowSpec TableProofs FlowProofs Props_Flow Costs CostSpec Props_Cost UsersCost UsersSpec Props_Users
  Optimizer OptSpec Props_Opt Results ResultsSpec Props_Results Props_Loads ConnSpec ConnProofs Props_Conn PipeSpec Props_Pipe RunSpec Props_Run TableSpec.
Import ListNotations.
Local Open Scope Q_scope.

(** ** The row of an open line *)
Lemma qdiv_two x y : (~ y == 0 /\ qdiv x y = Ok (x / y)) \/ (y == 0 /\ qdiv x y = Err ZeroDivisionError).
Proof. unfold qdiv. destruct (Qeqb y 0) eqn:E; [right; split; auto; apply Qeqb_eq; auto|left; split; auto; apply Qeqb_neq; auto]. Qed.
Lemma charges_two X z v r d k nodes tb0 : (exists tb l, charges X z v r d k nodes tb0 = Ok (tb, l)) \/ (k == 0 /\ charges X z v r d k nodes tb0 = Err ZeroDivisionError).
Proof.
  unfold charges. match goal with |- context [foldM ?g _ _] => assert (A : forall ns st, (exists st', foldM g ns st = Ok st') \/ (k == 0 /\ foldM g ns st = Err ZeroDivisionError)) end.
  { induction ns as [|n ns IH]; intros [[pax tb] l]; cbn [foldM]; [left; eauto|].
    destruct (stop_in_row X z r d n) as [s|]; match goal with |- context [qdiv ?a k] => destruct (qdiv_two a k) as [[N E]|[N E]]; rewrite E; cbn [bind]; [apply IH|right; auto] end. }
  destruct (A nodes (0, tb0, [])) as [[[[pax tb] l] E]|[K E]]; rewrite E; cbn [bind]; [left; eauto|right; auto].
Qed.
Definition boards X z r : Q := Qsumf (boarded X z (r_id r) DI) (r_ni r) + Qsumf (boarded X z (r_id r) DR) (r_nr r).
Lemma row_open_two X z v f k ct r : 0 < f -> ~ m_d (r_mode r) == 0 ->
  ((exists row, row_open X z v f k ct r = Ok row) /\ ~ k == 0 /\ ~ boards X z r == 0) \/ (row_open X z v f k ct r = Err ZeroDivisionError /\ (k == 0 \/ boards X z r == 0)).
Proof.
  intros HF HD. unfold row_open. destruct (charges_two X z v (r_id r) DI k (r_ni r) 0) as [(tb & l & E)|[K E]]; rewrite E; cbn [bind fst snd]; [|right; auto].
  destruct (charges_two X z v (r_id r) DR k (r_nr r) tb) as [(tb2 & l2 & E2)|[K E2]]; rewrite E2; cbn [bind fst snd]; [|right; auto].
  destruct (charges_spec _ _ _ _ _ _ _ _ _ _ E) as (_ & A2 & A3 & _). destruct (charges_spec _ _ _ _ _ _ _ _ _ _ E2) as (_ & B2 & B3 & _). assert (ET : tb2 == boards X z r) by (unfold boards; rewrite B2, A2; ring).
  unfold cost_per_pax. match goal with |- context [qdiv ?a (tb2 * f)] => destruct (qdiv_two a (tb2 * f)) as [[N E3]|[N E3]]; rewrite E3; cbn [bind] end.
  - left. destruct (sections l PInf) as [t1 m1]. destruct (sections l2 m1) as [t2 m2]. rewrite qdiv_ok by auto. cbn [bind]. split; [eauto|]. assert (NT : ~ boards X z r == 0) by (rewrite <- ET; intro C; apply N; rewrite C; ring). split; auto.
    destruct (r_ni r) eqn:EI; [|apply A3; discriminate]. destruct (r_nr r) eqn:ER; [|apply B3; discriminate]. exfalso. apply NT. unfold boards. rewrite EI, ER. reflexivity.
  - right. split; auto. right. rewrite <- ET. apply Qmult_integral in N. destruct N; auto. lra.
Qed.

(** ** Who is on board *)
Lemma most_key (l : tab) r d s : map fst (most_loaded_section l) = map fst l -> In s (map fst (trow l r d)) -> exists mx, dget String.eqb (most_loaded_section l) r = Some mx.
Proof.
  intros EM PR. destruct (dget String.eqb (most_loaded_section l) r) as [mx|] eqn:Ed; [eauto|]. exfalso. apply (dget_None String.eqb Seqb_spec) in Ed. rewrite EM in Ed. apply Ed. clear - PR. unfold trow in PR. unfold dget0 in PR at 2.
  destruct (dget String.eqb l r) eqn:E; [apply (dget_In String.eqb Seqb_spec) in E; apply (in_map fst) in E; auto|]. unfold dget0 in PR. cbn in PR. contradiction.
Qed.
Lemma Qsumf_zero_inv {A} (h : A -> Q) : forall l, (forall x, In x l -> 0 <= h x) -> Qsumf h l == 0 -> forall x, In x l -> h x == 0.
Proof.
  induction l as [|a l IH]; intros NN E x Hx; [contradiction|]. rewrite Qsumf_cons in E. pose proof (NN a (or_introl eq_refl)). assert (0 <= Qsumf h l) by (apply Qsumf_nonneg; intros; apply NN; right; auto).
  destruct Hx as [<-|Hx]; [lra|]. apply IH; auto; [intros; apply NN; right; auto|lra].
Qed.
Lemma subseq_incl (s l : list Z) : subseq s l -> incl s l.
Proof. intro H. induction H; intros y Hy; [contradiction|destruct Hy as [->|Hy]; [left; auto|right; auto]|right; auto]. Qed.
Lemma at_node_nonneg X t r d n : (forall s, 0 <= tget t r d s) -> 0 <= at_node X t r d n.
Proof. intro H. unfold at_node. apply Qsumf_nonneg. intros s _. destruct (stop_place X s) as [[z m]|]; [destruct (z =? n)%Z; [apply H|lra]|lra]. Qed.

Section Row.
  Context (B : problem) (f : fdict) (o' : optimizer) (t : tables) (ltt ct : fdict) (z v : tab).
  Hypothesis IDS : NoDup (map r_id (pb_routes B)).
  Hypothesis VIS : forall r d, In r (pb_routes B) -> NoDup (visits r d).
  Hypothesis FI : loaded B f o'.
  Hypothesis HT : boardings o' f = Ok t.
  Hypothesis EC : get_cycle_time (t_z t) (t_v t) (pb_routes B) ltt = (ct, z, v).
  Hypothesis NN : forall r d s, 0 <= tget (t_z t) r d s /\ 0 <= tget (t_v t) r d s /\ 0 <= tget (t_l t) r d s.
  Let X := o_X o'.

  Lemma read_z : read_of (t_z t) (t_v t) z.
  Proof.
    unfold boardings in HT. pose proof (gab_wf _ _ _ _ _ _ HT) as (WZ & WV & WL). destruct (cycle_fold (t_z t) (t_v t) ltt (pb_routes B) [] _ _ (read_refl _ _ WZ) (read_refl _ _ WV) IDS) as (ct1 & z1 & v1 & EF & RZ & RV & _).
    unfold get_cycle_time in EC. assert (EQ : (ct, z, v) = (ct1, z1, v1)) by (etransitivity; [symmetry; exact EC|exact EF]). injection EQ as <- <- <-. exact RZ.
  Qed.
  Lemma k_carries r : (~ freq (get_k (t_l t)) (r_id r) == 0) <-> carries t r.
  Proof.
    rewrite get_k_freq. unfold boardings in HT. pose proof (C42_most_loaded_section _ _ _ _ _ _ HT) as [MK MV]. split.
    - intro NK. unfold freq, dget0 in NK. destruct (dget String.eqb (most_loaded_section (t_l t)) (r_id r)) as [k|] eqn:Ed; [|exfalso; apply NK; reflexivity]. destruct (MV _ _ Ed) as (K0 & _ & [KE|(d & s & KE)]); [contradiction|]. exists d, s. rewrite <- KE. apply Qle_lteq in K0. destruct K0 as [K0|K0]; auto. exfalso. apply NK. rewrite <- K0. reflexivity.
    - intros (d & s & L) C. destruct (in_dec Nat.eq_dec s (map fst (trow (t_l t) (r_id r) d))) as [Hs|Hs]; [|rewrite (tget_nokey _ _ _ _ Hs) in L; lra]. destruct (most_key _ _ _ _ MK Hs) as (mx & Km). unfold freq, dget0 in C. rewrite Km in C. destruct (MV _ _ Km) as (_ & KL & _). specialize (KL d s). lra.
  Qed.
  Lemma boarded_at r d n : In r (pb_routes B) -> boarded X z (r_id r) d n == at_node X (t_z t) (r_id r) d n.
  Proof.
    intro Hr. unfold boardings in HT. pose proof read_z as RZ. unfold loaded in FI. unfold X. rewrite <- (at_node_row _ _ _ _ _ _ _ _ _ _ _ FI (t_z t) z r d n); auto.
    - unfold boarded. destruct (stop_in_row (o_X o') z (r_id r) d n); [rewrite (ro_get _ _ _ RZ)|]; reflexivity.
    - intros s Hs. apply (ro_old _ _ _ RZ); auto.
    - intros s Hs. apply (ro_key _ _ _ RZ) in Hs. destruct (key_place _ _ _ _ _ _ _ _ _ _ _ FI IDS _ _ _ r d s HT Hr) as (z0 & P0 & _); [tauto|]. eauto.
  Qed.
  Lemma carries_boards r : In r (pb_routes B) -> r_type r <> CIRCULAR -> open_line r -> carries t r -> ~ boards X z r == 0.
  Proof.
    intros Hr NC OL (d & s & L) C. unfold boardings in HT. unfold loaded in FI.
    assert (ZERO : forall d n, In n (nodes_of r d) -> at_node X (t_z t) (r_id r) d n == 0).
    { assert (NB : forall d n, 0 <= boarded X z (r_id r) d n) by (intros d0 n; rewrite (boarded_at r d0 n Hr); apply at_node_nonneg; intro; apply NN).
      assert (S1 : 0 <= Qsumf (boarded X z (r_id r) DI) (r_ni r)) by (apply Qsumf_nonneg; auto). assert (S2 : 0 <= Qsumf (boarded X z (r_id r) DR) (r_nr r)) by (apply Qsumf_nonneg; auto). unfold boards in C.
      intros d0 n Hn. rewrite <- (boarded_at r d0 n Hr). apply (Qsumf_zero_inv _ (nodes_of r d0)); auto. destruct d0; cbn [nodes_of]; lra. }
    destruct (in_dec Nat.eq_dec s (map fst (trow (t_l t) (r_id r) d))) as [Hs|Hs]; [|rewrite (tget_nokey _ _ _ _ Hs) in L; lra].
    destruct (key_place _ _ _ _ _ _ _ _ _ _ _ FI IDS _ _ _ r d s HT Hr (or_intror (or_intror Hs))) as (n & P0 & V0). destruct (In_nth_error _ _ V0) as (j & Hj).
    rewrite (load_prefix _ _ _ _ _ _ _ _ _ _ _ FI IDS VIS _ _ _ HT r d Hr NC j n s Hj P0) in L.
    assert (LE : Qsumf (diff (o_X o') t r d) (firstn (S j) (visits r d)) <= 0); [|lra].
    rewrite <- (Qsumf_zero (fun _ => 0) (firstn (S j) (visits r d))) by (intros; reflexivity). apply Qsumf_le. intros m Hm. unfold diff. destruct (OL d) as (_ & _ & SB). assert (IN : In m (nodes_of r d)). { apply (subseq_incl _ _ SB). rewrite <- (firstn_skipn (S j) (visits r d)). apply in_or_app. auto. }
    fold X. rewrite (ZERO d m IN). pose proof (at_node_nonneg X (t_v t) (r_id r) d m ltac:(intro; apply NN)). lra.
  Qed.
  (** an open line that runs has a row exactly when it carries somebody *)
  Lemma open_row r : In r (pb_routes B) -> r_type r <> CIRCULAR -> open_line r -> 0 < freq f (r_id r) -> ~ m_d (r_mode r) == 0 ->
    ((exists row, row_of X z v (t_l t) f (get_k (t_l t)) ct r = Ok row) /\ carries t r) \/ (row_of X z v (t_l t) f (get_k (t_l t)) ct r = Err ZeroDivisionError /\ ~ carries t r).
  Proof.
    intros Hr NC OL HF HD. unfold row_of. assert (HF' := HF). apply Qltb_lt in HF'. rewrite HF'. replace (is_circular (r_type r)) with false by (destruct (r_type r); auto; contradiction).
    destruct (row_open_two X z v (freq f (r_id r)) (freq (get_k (t_l t)) (r_id r)) (freq ct (r_id r)) r HF HD) as [(E & K & _)|(E & K)].
    - left. split; auto. apply k_carries. auto.
    - right. split; auto. intro C. destruct K as [K|K]; [apply k_carries in C; auto|]. apply (carries_boards r Hr NC OL C). auto.
  Qed.
End Row.

(** ** A circular line that is never empty *)
Lemma ring_sections_ok ls : ~ lmax ls == 0 -> forall nodes n i c, (n + length nodes <= length ls)%nat -> exists t, ring_sections ls n i c nodes = Ok t.
Proof.
  intro NM. induction nodes as [|j nodes IH]; intros n i c L; cbn [ring_sections length] in *; [eauto|]. unfold charge_at at 1. destruct (nth_error ls n) as [q|] eqn:E; [|apply nth_error_None in E; lia]. rewrite qdiv_ok by auto. cbn [bind].
  destruct (IH (S n) j (q / lmax ls)) as (t & ->); [lia|]. cbn [bind]. eauto.
Qed.
Section Ring.
  Context (B : problem) (f : fdict) (o' : optimizer) (t : tables) (ct : fdict) (z v : tab).
  Hypothesis IDS : NoDup (map r_id (pb_routes B)).
  Hypothesis FI : loaded B f o'.
  Hypothesis HT : boardings o' f = Ok t.
  Let X := o_X o'.
  Lemma ring_row r : In r (pb_routes B) -> r_type r = CIRCULAR -> never_empty X t r -> 0 < freq f (r_id r) -> ~ m_d (r_mode r) == 0 ->
    exists row, row_of X z v (t_l t) f (get_k (t_l t)) ct r = Ok row.
  Proof.
    intros Hr HC (d & HD & HI & HP) HF ND. unfold row_of. assert (HF' := HF). apply Qltb_lt in HF'. rewrite HF', HC. cbn [is_circular]. unfold row_ring. fold (ring_nodes r). unfold boardings in HT. unfold loaded in FI. set (l := t_l t) in *.
    assert (CO : forall tb, exists co, (if Qeqb tb 0 then Ok 0 else cost_per_pax (r_mode r) (freq (get_k l) (r_id r)) (freq f (r_id r)) (freq ct (r_id r)) tb) = Ok co).
    { intro tb. destruct (Qeqb tb 0) eqn:E; [eauto|]. apply Qeqb_neq in E. unfold cost_per_pax. rewrite qdiv_ok; [eauto|]. intro C. apply Qmult_integral in C. destruct C; [auto|lra]. }
    destruct (ring_nodes r) as [nodes d'] eqn:RN. destruct (list_eq_dec Z.eq_dec nodes []) as [->|NE].
    { unfold loads. cbn [fold_left map]. destruct (CO 0) as (co & ->). cbn [bind]. rewrite qdiv_ok by auto. cbn [bind]. eauto. }
    assert (EN : nodes = nodes_of r d /\ d' = d). { unfold ring_nodes in RN. destruct HD as [(-> & A1 & A2)|(-> & A1 & A2)]; cbn [nodes_of]; [|rewrite A1 in RN; injection RN as <- <-; auto]. destruct (r_ni r); [|injection RN as <- <-; auto]. exfalso. apply NE. rewrite A1 in RN. congruence. }
    destruct EN as [-> ->]. set (nodes := nodes_of r d) in *.
    assert (PL : forall s', In s' (map fst (trow l (r_id r) d)) -> exists z0, stop_place X s' = Some (z0, r_mode r)).
    { intros s Hs. destruct (key_place _ _ _ _ _ _ _ _ _ _ _ FI IDS _ _ _ r d s HT Hr) as (z0 & P0 & V0); [tauto|]. eauto. }
    assert (FIND : forall n, In n nodes -> exists s, stop_in_row X l (r_id r) d n = Some s /\ tget l (r_id r) d s == at_node X l (r_id r) d n).
    { intros n Hn. pose proof (at_node_row _ _ _ _ _ _ _ _ _ _ _ FI l l r d n Hr (fun _ x => x) PL) as AR. fold X in AR. specialize (HP n Hn). destruct (stop_in_row X l (r_id r) d n) as [s|] eqn:Es; [eauto|lra]. }
    set (h := fun n => match stop_in_row X l (r_id r) d n with Some s => tget l (r_id r) d s | None => 0 end).
    assert (Hh : forall n, In n nodes -> h n == at_node X l (r_id r) d n) by (intros n Hn; destruct (FIND n Hn) as (s & Es & Ea); unfold h; rewrite Es; auto).
    assert (LS : snd (loads X z l (r_id r) d nodes) = map h nodes). { unfold loads. rewrite (loads_all X z l (r_id r) d h nodes 0 []); auto. intros n Hn. destruct (FIND n Hn) as (s & Es & _). exists s. split; auto. unfold h. rewrite Es. auto. }
    destruct (loads X z l (r_id r) d nodes) as [tb ls]. cbn [snd] in LS. subst ls. destruct (CO tb) as (co & ->). cbn [bind].
    assert (LL : length (map h nodes) = length nodes) by apply List.map_length. assert (NL : map h nodes <> []) by (destruct nodes; [congruence|discriminate]). assert (LP : 0 < lmax (map h nodes)).
    { destruct (lmax_spec _ NL) as [_ LM]. apply in_map_iff in LM. destruct LM as (n0 & <- & Hn0). rewrite (Hh n0 Hn0). apply HP. auto. }
    revert NL LP LL. generalize (map h nodes). intros ls NL LP LL. destruct ls as [|q0 ls0]; [congruence|]. rewrite qdiv_ok by lra. cbn [bind]. destruct nodes as [|i nodes']; [congruence|]. unfold charge_at at 1. cbn [nth_error]. rewrite qdiv_ok by lra. cbn [bind].
    destruct (ring_sections_ok (q0 :: ls0) ltac:(lra) nodes' 1 i (q0 / lmax (q0 :: ls0))) as (t0 & ->); [cbn in *; lia|]. cbn [bind]. rewrite qdiv_ok by auto. cbn [bind]. eauto.
  Qed.
End Ring.

(** ** The table *)
Lemma mapM_ok {A C} (h : A -> res C) : forall l, (forall x, In x l -> exists y, h x = Ok y) -> exists l', mapM h l = Ok l'.
Proof.
  induction l as [|x l IH]; intro H; cbn [mapM]; [eauto|]. destruct (H x (or_introl eq_refl)) as (y & ->). cbn [bind]. destruct IH as (l' & ->); [intros; apply H; right; auto|]. cbn [bind]. eauto.
Qed.
Lemma mapM_err {A C} (h : A -> res C) er : forall l, (forall x, In x l -> (exists y, h x = Ok y) \/ h x = Err er) -> (exists x, In x l /\ h x = Err er) -> mapM h l = Err er.
Proof.
  induction l as [|x l IH]; intros H (a & Ha & Ea); [contradiction|]. cbn [mapM]. destruct (H x (or_introl eq_refl)) as [(y & Ey)|Ey]; rewrite Ey; cbn [bind]; auto.
  rewrite IH; [auto|intros; apply H; right; auto|]. destruct Ha as [->|Ha]; [congruence|eauto].
Qed.
(** the parts of the last iteration, and what the table then is *)
Lemma last_parts B fg e : posed B fg -> serves B fg -> (forall o d v, has_trips (dm_matrix (pb_demand B)) o d v -> 0 <= v) -> length (e_x e) = length (pb_routes B) -> (forall q, In q (e_x e) -> 0 <= q) ->
  exists n, forall fuel, (n <= fuel)%nat -> exists o, new_optimizer (with_fuel B fuel) fg = Ok o /\
    (~ keeps_serving B (e_x e) -> get_network_results o (Some e) = Err TransportNetworkException) /\
    (keeps_serving B (e_x e) -> exists f o' t ltt, fopt_to_f (map r_id (pb_routes B)) (e_x e) = Ok f /\ new_optimizer (with_fuel B fuel) (Some f) = Ok o' /\ boardings o' f = Ok t /\ loaded (with_fuel B fuel) f o' /\
       (forall r d s, 0 <= tget (t_z t) r d s /\ 0 <= tget (t_v t) r d s /\ 0 <= tget (t_l t) r d s) /\
       get_network_results o (Some e) = (let '(ct, z, v) := get_cycle_time (t_z t) (t_v t) (pb_routes B) ltt in mapM (row_of (o_X o') z v (t_l t) f (get_k (t_l t)) ct) (pb_routes B))).
Proof.
  intros PO SE TR L HP. destruct (construction B fg PO SE) as (n0 & o0 & P1 & _ & P3 & H0). destruct (fopt_vector B (e_x e) (po_ids B fg PO) L HP) as (f & Ef & F2 & F3). pose proof (posed_given B fg f PO F2) as PO'.
  destruct (graph_stage B (Some f) PO') as (X & EX & HG & WG & UD & TF & SV & TRI & AM). set (n := S (length (xnodes X))) in *.
  assert (KS : keeps_serving B (e_x e) <-> serves B (Some f)) by (rewrite F3; unfold keeps_serving; tauto).
  destruct (get_all_hyperpaths n X (pb_pass B) (dm_matrix (pb_demand B))) as [es|er] eqn:ES.
  - pose proof (po_pass B fg PO) as (Q1 & Q2 & Q3 & Q4 & Q5). assert (Ln : (length (xnodes X) < n)%nat) by (unfold n; lia).
    destruct (evaluation_stage B (Some f) X es _ PO' (start_positive B (Some f) PO') EX HG WG UD ES) as (asg & EA & N & c0 & l0 & _ & HN).
    pose proof (self_run B f X es PO' EX HG WG ES) as RU.
    assert (FI : forall fuel0, (n <= fuel0)%nat -> flow_input (pb_geo B) (pb_graph B) (pb_routes B) (q_pt (pb_pass B)) (Some (fst (fst (f0 (pb_routes B) (Some f))))) X (pb_pass B) (dm_matrix (pb_demand B)) fuel0 es f).
    { intros fuel0 Lf. constructor; auto; apply (po_input B fg PO). }
    destruct (C41_all_trips _ _ _ _ _ _ _ _ _ _ _ (p_p (c_params (pb_city B))) (q_va (pb_pass B)) (q_pa (pb_pass B)) (q_pv (pb_pass B)) (FI n ltac:(lia)) (po_zone B fg PO) (Qlt_le_weak _ _ Q1) Q4 Q2 UD) as (asg' & EA' & LA & AT & NN). assert (asg' = asg) by congruence. subst asg'.
    destruct (C41_terminates _ _ _ _ _ _ _ _ _ _ _ asg (FI n ltac:(lia))) as (N1 & T & HT).
    assert (TT : exists ltt, lines_travel_time (pb_routes B) (get_edges_distance (pb_geo B) (pb_graph B)) = Ok ltt /\ forall id, 0 <= freq ltt id) by (apply travel_time_ok; [intros r Hr; apply (po_lines B fg PO r Hr)|intros; apply dist0_nonneg; apply (po_geo B fg PO)]). destruct TT as (ltt & Et & _).
    exists (Nat.max n0 (Nat.max n (Nat.max N N1))). intros fuel Lf. exists (refuel o0 fuel). specialize (H0 fuel ltac:(lia)). split; [exact H0|].
    assert (KK : keeps_serving B (e_x e)) by (apply KS, SV; eauto). split; [intro; contradiction|]. intros _.
    assert (E1 : exists lc lv, new_optimizer (with_fuel B fuel) (Some f) = Ok (mkOpt (with_fuel B fuel) (fst (fst (f0 (pb_routes B) (Some f)))) (map (fun r => m_fini (r_mode r)) (pb_routes B)) (map r_id (pb_routes B)) X es asg lc lv)).
    { rewrite (new_optimizer_unfold B (Some f) fuel X EX), TF by lia. cbn [bind]. rewrite EA. cbn [bind]. cbv zeta. destruct (HN fuel (fst (fst (f0 (pb_routes B) (Some f)))) (map (fun r => m_fini (r_mode r)) (pb_routes B)) 0%nat 0%nat ltac:(lia)) as [_ E]. rewrite E. cbn [bind]. do 2 eexists. reflexivity. }
    destruct E1 as (lc & lv & E1). set (o' := mkOpt _ _ _ _ _ _ _ _ _) in E1. assert (EB : boardings o' f = Ok T) by (unfold boardings; cbn; apply HT; lia).
    exists f, o', T, ltt. do 3 (split; [auto|]). split; [unfold loaded; cbn; apply FI; lia|]. split; [apply (NN ltac:(intros x Hx; destruct (entries_ok _ _ _ _ _ HG WG Ln ES x Hx) as (c & cd & O); destruct (oo_v _ _ _ _ _ _ O) as (a & b & Ht & _); apply (TR a b); auto) N1 T); apply HT; lia|].
    unfold get_network_results, last_iteration. cbn [refuel o_pos o_pb]. rewrite P1, Ef. cbn [bind]. rewrite P3. change (with_fuel (with_fuel B 0) fuel) with (with_fuel B fuel). rewrite E1. cbn [bind]. rewrite EB. cbn [bind].
    change (pb_routes (o_pb o')) with (pb_routes B). change (pb_geo (o_pb o')) with (pb_geo B). change (pb_graph (o_pb o')) with (pb_graph B). rewrite Et. cbn [bind]. reflexivity.
  - exists (Nat.max n0 n). intros fuel Lf. exists (refuel o0 fuel). specialize (H0 fuel ltac:(lia)). split; [exact H0|].
    assert (NK : ~ keeps_serving B (e_x e)) by (intro H; apply KS, SV in H; destruct H as [es C]; discriminate). split; [|intro; contradiction].
    assert (E1 : get_network_results (refuel o0 fuel) (Some e) = Err er).
    { unfold get_network_results, last_iteration. cbn [refuel o_pos o_pb]. rewrite P1, Ef. cbn [bind]. rewrite P3. change (with_fuel (with_fuel B 0) fuel) with (with_fuel B fuel). rewrite (new_optimizer_unfold B (Some f) fuel X EX), TF by lia. reflexivity. }
    rewrite E1. intros _. destruct TRI as [[es C]|[C|C]]; [discriminate|congruence|]. exfalso. apply AM in C. destruct C as (_ & m & m' & M1 & M2 & M3 & M4). destruct SE as (_ & used & U1 & U2 & U3 & _). apply U2 in M1, M2.
    clear - M1 M2 M3 M4 U3. induction used as [|a l IH]; [contradiction|]. cbn in U3. inversion U3 as [|? ? A1 A2]; subst. destruct M1 as [->|M1], M2 as [->|M2]; auto; apply A1; [rewrite M4|rewrite <- M4]; apply in_map; auto.
Qed.

(** ** C67 *)
(** After the optimisation, with frequencies that are not negative and lines none of which is circular: when the lines
    that run do not allow every trip, TransportNetworkException is raised.  When they do, there is a table of the lines
    exactly if every line that runs carries somebody; otherwise ZeroDivisionError is raised. *)
Theorem C67_table : forall B fg e, posed B fg -> serves B fg -> (forall o d v, has_trips (dm_matrix (pb_demand B)) o d v -> 0 <= v) ->
  length (e_x e) = length (pb_routes B) -> (forall q, In q (e_x e) -> 0 <= q) -> (forall r, In r (pb_routes B) -> r_type r <> CIRCULAR /\ open_line r) ->
  exists n, forall fuel, (n <= fuel)%nat -> exists o, new_optimizer (with_fuel B fuel) fg = Ok o /\
    (~ keeps_serving B (e_x e) -> get_network_results o (Some e) = Err TransportNetworkException) /\
    (keeps_serving B (e_x e) -> exists f o' t, fopt_to_f (map r_id (pb_routes B)) (e_x e) = Ok f /\ new_optimizer (with_fuel B fuel) (Some f) = Ok o' /\ boardings o' f = Ok t /\
       ((exists rows, get_network_results o (Some e) = Ok rows) <-> (forall r, In r (pb_routes B) -> 0 < freq f (r_id r) -> carries t r)) /\
       (~ (forall r, In r (pb_routes B) -> 0 < freq f (r_id r) -> carries t r) -> get_network_results o (Some e) = Err ZeroDivisionError)).
Proof.
  intros B fg e PO SE TR L HP OL. destruct (last_parts B fg e PO SE TR L HP) as (n & HN). exists n. intros fuel Lf. destruct (HN fuel Lf) as (o & E1 & E2 & E3). exists o. do 2 (split; [auto|]). intro KS. destruct (E3 KS) as (f & o' & t & ltt & Ef & Eo & Et & LO & NN & ER). exists f, o', t. do 3 (split; [auto|]).
  destruct (get_cycle_time (t_z t) (t_v t) (pb_routes B) ltt) as [[ct z] v] eqn:EC.
  assert (VIS : forall r d, In r (pb_routes B) -> NoDup (visits r d)) by (intros r d Hr; apply (proj2 (OL r Hr) d)).
  assert (ROW : forall r, In r (pb_routes B) -> (exists row, row_of (o_X o') z v (t_l t) f (get_k (t_l t)) ct r = Ok row) /\ (0 < freq f (r_id r) -> carries t r) \/ (row_of (o_X o') z v (t_l t) f (get_k (t_l t)) ct r = Err ZeroDivisionError /\ 0 < freq f (r_id r) /\ ~ carries t r)).
  { intros r Hr. destruct (OL r Hr) as [NC OR]. destruct (Qlt_le_dec 0 (freq f (r_id r))) as [HF|HF].
    - destruct (open_row (with_fuel B fuel) f o' t ltt ct z v (po_ids B fg PO) VIS LO Et EC NN r Hr NC OR HF) as [[A C]|[A C]]; [destruct (po_lines B fg PO r Hr) as (D1 & _); lra|left; auto|right; auto].
    - left. split; [|intro; lra]. unfold row_of. replace (Qltb 0 (freq f (r_id r))) with false by (symmetry; apply Qltb_ge; auto). eauto. }
  rewrite ER. split.
  - split.
    + intros (rows & E) r Hr HF. destruct (ROW r Hr) as [[_ C]|(C & _)]; auto. exfalso. apply mapM_inv in E. clear - E Hr C. induction E as [|x y l l' H E IH]; [contradiction|]. destruct Hr as [->|Hr]; [congruence|auto].
    + intro H. apply mapM_ok. intros r Hr. destruct (ROW r Hr) as [[C _]|(_ & HF & NC)]; auto. exfalso. apply NC. auto.
  - intro H. assert (D : (exists r, In r (pb_routes B) /\ row_of (o_X o') z v (t_l t) f (get_k (t_l t)) ct r = Err ZeroDivisionError) \/ forall r, In r (pb_routes B) -> 0 < freq f (r_id r) -> carries t r).
    { clear - ROW. revert ROW. generalize (pb_routes B). induction l as [|r l IH]; intro ROW; [right; intros r []|]. destruct (ROW r (or_introl eq_refl)) as [[_ C]|(C & _)]; [|left; exists r; split; [left; auto|auto]].
      destruct IH as [(r' & H1 & H2)|H]; [intros; apply ROW; right; auto|left; exists r'; split; [right; auto|auto]|right; intros r' [<-|Hr]; auto]. }
    destruct D as [D|D]; [|contradiction]. apply mapM_err; auto. intros r Hr. destruct (ROW r Hr) as [[C _]|(C & _)]; auto.
Qed.
Print Assumptions C67_table.
(** With circular lines too: there is a table when each open line that runs carries somebody, and no circular line that
    runs is ever empty. *)
Theorem C67_table_with_rings : forall B fg e, posed B fg -> serves B fg -> (forall o d v, has_trips (dm_matrix (pb_demand B)) o d v -> 0 <= v) -> keeps_serving B (e_x e) ->
  (forall r d, In r (pb_routes B) -> NoDup (visits r d)) -> (forall r, In r (pb_routes B) -> r_type r <> CIRCULAR -> open_line r) ->
  exists n, forall fuel, (n <= fuel)%nat -> exists o f o' t, new_optimizer (with_fuel B fuel) fg = Ok o /\
    fopt_to_f (map r_id (pb_routes B)) (e_x e) = Ok f /\ new_optimizer (with_fuel B fuel) (Some f) = Ok o' /\ boardings o' f = Ok t /\
    ((forall r, In r (pb_routes B) -> 0 < freq f (r_id r) -> (r_type r <> CIRCULAR -> carries t r) /\ (r_type r = CIRCULAR -> never_empty (o_X o') t r)) ->
     exists rows, get_network_results o (Some e) = Ok rows).
Proof.
  intros B fg e PO SE TR KS VIS OL. destruct (last_parts B fg e PO SE TR (proj1 KS) (proj1 (proj2 KS))) as (n & HN). exists n. intros fuel Lf. destruct (HN fuel Lf) as (o & E1 & E2 & E3). destruct (E3 KS) as (f & o' & t & ltt & Ef & Eo & Et & LO & NN & ER). exists o, f, o', t. do 4 (split; [auto|]).
  intro H. rewrite ER. destruct (get_cycle_time (t_z t) (t_v t) (pb_routes B) ltt) as [[ct z] v] eqn:EC. apply mapM_ok. intros r Hr. destruct (po_lines B fg PO r Hr) as (D1 & _). assert (ND : ~ m_d (r_mode r) == 0) by lra. destruct (Qlt_le_dec 0 (freq f (r_id r))) as [HF|HF].
  - destruct (H r Hr HF) as [H1 H2]. assert (DEC : r_type r = CIRCULAR \/ r_type r <> CIRCULAR) by (destruct (r_type r); auto; right; discriminate). destruct DEC as [C|C].
    + apply (ring_row (with_fuel B fuel) f o' t ct z v (po_ids B fg PO) LO Et r Hr C (H2 C) HF ND).
    + destruct (open_row (with_fuel B fuel) f o' t ltt ct z v (po_ids B fg PO) VIS LO Et EC NN r Hr C (OL r Hr C) HF ND) as [[A _]|[_ A]]; auto. exfalso. apply A. auto.
  - unfold row_of. replace (Qltb 0 (freq f (r_id r))) with false by (symmetry; apply Qltb_ge; auto). eauto.
Qed.
Print Assumptions C67_table_with_rings.

(** ** Examples *)
Lemma predefined_trips B fg P ops y a alpha beta : predefined_problem B fg P ops y a alpha beta -> forall o d v, has_trips (dm_matrix (pb_demand B)) o d v -> 0 <= v.
Proof.
  intros PP o d v Ht. pose proof (pp_demand _ _ _ _ _ _ _ _ PP) as ED. pose proof (pp_zones _ _ _ _ _ _ _ _ PP) as Hn. assert (En : p_n P = Z.of_nat (Z.to_nat (p_n P))) by lia. rewrite En in ED.
  apply (parametric_trips (Z.to_nat (p_n P)) _ y a alpha beta (pb_demand B) ltac:(lia) (C12_parametric_city _ _ _ (pp_city _ _ _ _ _ _ _ _ PP)) ED o d v Ht).
Qed.
(** the city of three zones with its radial lines only *)
Definition ex_star_lines : list route := match family_routes (c_graph ex_pipe_city) Props_Network.ex_bus (Radial false false) with Ok l => l | Err _ => [] end.
Definition ex_star_ops : list nop := map NAddRoute ex_star_lines.
Definition ex_star : problem := mkProblem ex_geo ex_pipe_city ex_pipe_demand ex_P (nrun (new_network (c_graph ex_pipe_city)) ex_star_ops) 100.
Lemma ex_star_predefined : predefined_problem ex_star None (ex_params_sym 3) ex_star_ops 1000 (1#2) (1#4) (1#4).
Proof.
  assert (ER : exists l, family_routes (pb_graph ex_star) Props_Network.ex_bus (Radial false false) = Ok l /\ pb_routes ex_star = l) by (eexists; split; vm_compute; reflexivity).
  destruct ER as (l & E1 & E3). assert (EM : nw_modes (pb_net ex_star) = [Props_Network.ex_bus]) by (vm_compute; reflexivity).
  assert (EB : build_from_parameters ex_geo (ex_params_sym 3) = Ok ex_pipe_city) by (vm_compute; reflexivity).
  constructor.
  - exact EB.
  - cbn; lia.
  - exact ex_sqrt_nonneg.
  - reflexivity.
  - intro m. apply only_adds.
  - intros r m Hr Hm _. rewrite EM in Hm. destruct Hm as [<-|[]]. rewrite E3 in Hr. symmetry. exact (proj1 (proj2 (C27_predefined_routes_valid ex_geo (ex_params_sym 3) ex_pipe_city _ _ _ r EB E1 Hr))).
  - intros m Hm. rewrite EM in Hm. destruct Hm as [<-|[]]. unfold fine_mode. cbn. lra.
  - cbn. lra.
  - intros r Hr. rewrite E3 in Hr. eauto.
  - exists Props_Network.ex_bus, (Radial false false), l. split; auto. split; auto. rewrite E3. intros r Hr. auto.
  - vm_compute; reflexivity.
  - intros f r E. discriminate E.
Qed.
Ltac open_tac := intros [|]; (split; [vm_compute; repeat constructor; cbn; intuition discriminate|split; [vm_compute; repeat constructor; cbn; intuition discriminate|vm_compute; repeat constructor]]).
Lemma ex_star_open : forall r, In r (pb_routes ex_star) -> r_type r <> CIRCULAR /\ open_line r.
Proof.
  assert (E : pb_routes ex_star = map (fun '(i, l, l') => mkRoute i Props_Network.ex_bus l l' l l' PREDEFINED) [("R_bus_1", [1;2;0]%Z, [0;2;1]%Z); ("R_bus_2", [3;4;0]%Z, [0;4;3]%Z); ("R_bus_3", [5;6;0]%Z, [0;6;5]%Z)]%string) by (vm_compute; reflexivity).
  intros r Hr. rewrite E in Hr. cbn [map In] in Hr. repeat (destruct Hr as [<-|Hr]); try contradiction; (split; [discriminate|open_tac]).
Qed.
Example C67_ex : posed ex_star None /\ serves ex_star None /\ (forall o d v, has_trips (dm_matrix (pb_demand ex_star)) o d v -> 0 <= v) /\ (forall r, In r (pb_routes ex_star) -> r_type r <> CIRCULAR /\ open_line r) /\
  length (pb_routes ex_star) = 3%nat /\ exists o rows, new_optimizer ex_star None = Ok o /\ get_network_results o (Some (ex_e [10; 20; 30] 1 (Fin 0) (Fin 5))) = Ok rows /\ length rows = 3%nat /\
  get_network_results o (Some (ex_e [10; 20; 0] 1 (Fin 0) (Fin 5))) = Err TransportNetworkException.
Proof.
  destruct (C62_well_posed _ _ _ _ _ _ _ _ ex_star_predefined) as [A C]. split; [exact A|]. split; [exact C|]. split; [exact (predefined_trips _ _ _ _ _ _ _ _ ex_star_predefined)|]. split; [exact ex_star_open|]. split; [vm_compute; reflexivity|].
  do 2 eexists. split; [vm_compute; reflexivity|]. split; [vm_compute; reflexivity|]. split; vm_compute; reflexivity.
Qed.
Lemma ex_pipe_routes : pb_routes ex_pipe = map (fun '(i, l, l') => mkRoute i Props_Network.ex_bus l l' l l' PREDEFINED) [("R_bus_1", [1;2;0]%Z, [0;2;1]%Z); ("R_bus_2", [3;4;0]%Z, [0;4;3]%Z); ("R_bus_3", [5;6;0]%Z, [0;6;5]%Z)]%string ++
  [mkRoute "CIR_I_bus" Props_Network.ex_bus [2;4;6;2]%Z [] [2;4;6;2]%Z [] CIRCULAR; mkRoute "CIR_R_bus" Props_Network.ex_bus [] [6;4;2;6]%Z [] [6;4;2;6]%Z CIRCULAR].
Proof. vm_compute. reflexivity. Qed.
Example C67_rings_ex : posed ex_pipe None /\ serves ex_pipe None /\ (forall o d v, has_trips (dm_matrix (pb_demand ex_pipe)) o d v -> 0 <= v) /\ keeps_serving ex_pipe (e_x (ex_answer 10)) /\
  (forall r d, In r (pb_routes ex_pipe) -> NoDup (visits r d)) /\ (forall r, In r (pb_routes ex_pipe) -> r_type r <> CIRCULAR -> open_line r) /\
  exists f o' t, fopt_to_f (map r_id (pb_routes ex_pipe)) (e_x (ex_answer 10)) = Ok f /\ new_optimizer ex_pipe (Some f) = Ok o' /\ boardings o' f = Ok t /\
    forall r, In r (pb_routes ex_pipe) -> 0 < freq f (r_id r) /\ (r_type r <> CIRCULAR -> carries t r) /\ (r_type r = CIRCULAR -> never_empty (o_X o') t r).
Proof.
  destruct C61_ex as (PO & SE & _). split; [exact PO|]. split; [exact SE|]. split; [exact (predefined_trips _ _ _ _ _ _ _ _ (proj1 C62_ex))|]. split.
  { apply (C65_positive ex_pipe None _ PO SE). split; [vm_compute; reflexivity|cbn; intros x Hx; intuition (subst; lra)]. }
  split; [intros r d Hr; rewrite ex_pipe_routes in Hr; cbn [map app In] in Hr; repeat (destruct Hr as [<-|Hr]); try contradiction; destruct d; vm_compute; repeat constructor; cbn; intuition discriminate|].
  split; [intros r Hr NC; rewrite ex_pipe_routes in Hr; cbn [map app In] in Hr; repeat (destruct Hr as [<-|Hr]); try contradiction; try (exfalso; apply NC; reflexivity); open_tac|].
  eexists.
  match goal with |- exists o' t, ?A /\ new_optimizer ex_pipe (Some ?f) = Ok o' /\ _ => assert (K : exists o' t, A /\ new_optimizer ex_pipe (Some f) = Ok o' /\ boardings o' f = Ok t /\
    forallb (fun r => Qltb 0 (freq f (r_id r)) && (is_circular (r_type r) || existsb (fun d => existsb (fun '(s, _) => Qltb 0 (tget (t_l t) (r_id r) d s)) (trow (t_l t) (r_id r) d)) [DI; DR])) (pb_routes ex_pipe) = true /\
    forallb (fun n => Qltb 0 (at_node (o_X o') (t_l t) "CIR_I_bus" DI n)) [2;4;6;2]%Z = true /\ forallb (fun n => Qltb 0 (at_node (o_X o') (t_l t) "CIR_R_bus" DR n)) [6;4;2;6]%Z = true) end.
  { do 2 eexists. split; [vm_compute; reflexivity|]. split; [vm_compute; reflexivity|]. split; [vm_compute; reflexivity|]. split; [vm_compute; reflexivity|]. split; vm_compute; reflexivity. }
  destruct K as (o' & t & K1 & K2 & K3 & K4 & K5 & K6). exists o', t. do 3 (split; [assumption|]). intros r Hr. rewrite forallb_forall in K4. specialize (K4 r Hr). apply andb_true_iff in K4. destruct K4 as [K4 K7]. split; [apply Qltb_lt; exact K4|]. split.
  - intro NC. apply orb_true_iff in K7. destruct K7 as [K7|K7]; [destruct (r_type r); try discriminate K7; exfalso; apply NC; reflexivity|]. apply existsb_exists in K7. destruct K7 as (d & _ & K7). apply existsb_exists in K7. destruct K7 as ([s q] & _ & K7). exists d, s. apply Qltb_lt. exact K7.
  - intro HC. clear - HC Hr K5 K6. rewrite ex_pipe_routes in Hr. rewrite forallb_forall in K5, K6. cbn [map app In] in Hr. repeat (destruct Hr as [<-|Hr]); try contradiction; try discriminate HC.
    + exists DI. split; [left; auto|]. split; [intro n; cbn; tauto|]. intros n Hn. apply Qltb_lt, K5. exact Hn.
    + exists DR. split; [right; auto|]. split; [intro n; cbn; tauto|]. intros n Hn. apply Qltb_lt, K6. exact Hn.
Qed.
