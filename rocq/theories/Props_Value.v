(** * Props_Value: the least load of a line (C56) and the objective in closed form (C58) *)
From Coq Require Import String List ZArith QArith Qabs Bool Lia Lqa Qfield.
From Verif Require Import PyBase PyFacts Graph GeoEx Demand Mode Route Network RouteSpec RouteProofs ExtGraph ExtSpec ExtProofs Hyperpath HyperSpec Assignment AssignSpec FlowSpec TableProofs FlowProofs Costs UsersCost UsersSpec CostSpec
  Props_Ext Props_Hyper Props_Network Props_Assign Props_Flow Props_Cost Props_Users Optimizer OptSpec Results ResultsSpec Props_Opt Props_Results Props_Loads.
Import ListNotations.
Local Open Scope Q_scope.

(** ** C56: the least load *)
Definition fmin (m : fval) (l : list Q) : fval := fold_left (fun m c => if flt (Fin c) m then Fin c else m) l m.
Lemma sections_from_min : forall l i c m t m', sections_from i c l m = (t, m') ->
  exists cs, map snd t = map Qabs cs /\ m' = fmin m cs /\ forall p x, nth_error cs p = Some x -> exists n, nth_error ((i, c) :: l) p = Some (n, x).
Proof.
  induction l as [|[j c'] l IH]; intros i c m t m' H; cbn [sections_from] in H.
  - injection H as <- <-. exists []. split; auto. split; auto. intros [|p] x E; discriminate.
  - destruct (sections_from j c' l _) as [t1 m1] eqn:E1. injection H as <- <-. destruct (IH _ _ _ _ _ E1) as (cs & A & B & C). exists (c :: cs). cbn [map snd]. rewrite A. split; auto. split; auto. intros [|p] x E; cbn [nth_error] in *; [injection E as <-; eauto|auto].
Qed.
Lemma sections_min l m t m' : sections l m = (t, m') ->
  exists cs, map snd t = map Qabs cs /\ m' = fmin m cs /\ forall p x, nth_error cs p = Some x -> exists n, nth_error l p = Some (n, x).
Proof.
  unfold sections. destruct l as [|[i c] l]; intro H; [injection H as <- <-; exists []; split; auto; split; auto; intros [|p] x E; discriminate|]. eapply sections_from_min; eauto.
Qed.
Lemma row_open_min X z v f k ct r row : row_open X z v f k ct r = Ok row ->
  exists cs : dir -> list Q, nr_min row = fabs (fmin PInf (cs DI ++ cs DR)) /\ forall d, map snd (sections_dir row d) = map Qabs (cs d) /\
    forall p x, nth_error (cs d) p = Some x -> x * k == Qsumf (contrib X z v (r_id r) d) (firstn (S p) (nodes_of r d)).
Proof.
  unfold row_open. intro H. apply bind_ok in H. destruct H as ([tbi li] & Ei & H). apply bind_ok in H. destruct H as ([tbr lr] & Er & H). apply bind_ok in H. destruct H as (co & Eco & H). cbn [fst snd] in *.
  destruct (sections li PInf) as [ti mi] eqn:Si. destruct (sections lr mi) as [tr mr] eqn:Sr. apply bind_ok in H. destruct H as (fd & Efd & H). injection H as <-.
  destruct (charges_spec _ _ _ _ _ _ _ _ _ _ Ei) as (_ & _ & _ & A4). destruct (charges_spec _ _ _ _ _ _ _ _ _ _ Er) as (_ & _ & _ & B4). destruct (sections_min _ _ _ _ Si) as (ci & I1 & -> & I3). destruct (sections_min _ _ _ _ Sr) as (cr & R1 & -> & R3).
  exists (fun d => match d with DI => ci | DR => cr end). cbn [nr_min]. split; [unfold fmin; rewrite fold_left_app; reflexivity|]. intros [|]; cbn [sections_dir nr_i nr_r nodes_of].
  - split; auto. intros p x E. destruct (I3 _ _ E) as (n & En). apply (A4 _ _ _ En).
  - split; auto. intros p x E. destruct (R3 _ _ E) as (n & En). apply (B4 _ _ _ En).
Qed.
Lemma fmin_fin : forall l m, exists q, fmin (Fin m) l = Fin q /\ q <= m /\ (forall x, In x l -> q <= x) /\ (q = m \/ In q l).
Proof.
  unfold fmin. induction l as [|x l IH]; intro m; cbn [fold_left].
  - exists m. split; auto. split; [lra|]. split; [intros x []|auto].
  - cbn [flt]. destruct (Qltb x m) eqn:E.
    + apply Qltb_lt in E. destruct (IH x) as (q & A & B & C & D). exists q. split; auto. split; [lra|]. split; [intros y [<-|Hy]; auto|]. right. destruct D as [->|D]; [left; auto|right; auto].
    + apply Qltb_ge in E. destruct (IH m) as (q & A & B & C & D). exists q. split; auto. split; [lra|]. split; [intros y [<-|Hy]; [lra|auto]|]. destruct D as [D|D]; [left; auto|right; right; auto].
Qed.
Lemma fmin_inf l : l <> [] -> exists q, fmin PInf l = Fin q /\ (forall x, In x l -> q <= x) /\ In q l.
Proof.
  destruct l as [|x l]; [congruence|]. intros _. unfold fmin. cbn [fold_left flt]. destruct (fmin_fin l x) as (q & A & B & C & D). exists q. split; [exact A|]. split; [intros y [<-|Hy]; auto|]. destruct D as [->|D]; [left; auto|right; auto].
Qed.
(** [m] is the smallest of the loads reported for the sections of a line *)
Definition least_of (row : nrow) (m : Q) : Prop :=
  (exists a q, In (a, q) (nr_i row ++ nr_r row) /\ m == q) /\ forall a q, In (a, q) (nr_i row ++ nr_r row) -> m <= q.
(** The least load reported for an open line whose passengers board and alight at the same time is the smallest
    of the loads of its sections in the two directions. *)
Theorem C56_least_loaded : forall B fg o e rows, new_optimizer B fg = Ok o -> NoDup (map r_id (pb_routes B)) -> (forall r d, In r (pb_routes B) -> NoDup (visits r d)) ->
  (forall r, In r (pb_routes B) -> r_type r <> CIRCULAR -> open_line r) -> get_network_results o (Some e) = Ok rows ->
  (forall f o', fopt_to_f (map r_id (pb_routes B)) (e_x e) = Ok f -> new_optimizer B (Some f) = Ok o' -> loaded B f o') ->
  exists f o' t, fopt_to_f (map r_id (pb_routes B)) (e_x e) = Ok f /\ new_optimizer B (Some f) = Ok o' /\ boardings o' f = Ok t /\
    Forall2 (fun r row => r_type r <> CIRCULAR -> m_bya (r_mode r) == 1 -> 0 < freq f (r_id r) -> (forall d s, 0 <= tget (t_l t) (r_id r) d s) ->
      nr_i row ++ nr_r row <> [] -> exists m, nr_min row = Fin m /\ least_of row m) (pb_routes B) rows.
Proof.
  intros B fg o e rows H ND VIS OL HR HL. destruct (results_inv _ _ _ _ _ H HR) as (f & o' & t & ltt & ct & z & v & E1 & E2 & E3 & E4 & E5 & F). exists f, o', t. do 3 (split; auto). pose proof (HL f o' E1 E2) as FI. unfold loaded in FI.
  unfold boardings in E3. pose proof (gab_wf _ _ _ _ _ _ E3) as (WZ & WV & WL). destruct (cycle_fold (t_z t) (t_v t) ltt (pb_routes B) [] _ _ (read_refl _ _ WZ) (read_refl _ _ WV) ND) as (ct1 & z1 & v1 & EF & RZ & RV & _).
  unfold get_cycle_time in E5. assert (EQ : (ct, z, v) = (ct1, z1, v1)) by (etransitivity; [symmetry; exact E5|exact EF]). injection EQ as <- <- <-. destruct (cycle_keys _ _ _ _ _ _ _ _ _ _ (read_refl _ _ WZ) (read_refl _ _ WV) ND EF) as [_ CK].
  revert F. apply Forall2_imp. intros r row Hr R NC HB HF NN NE. unfold row_of in R. apply Qltb_lt in HF. rewrite HF in R. replace (is_circular (r_type r)) with false in R by (destruct (r_type r); auto; contradiction).
  destruct (row_open_min _ _ _ _ _ _ _ _ R) as (cs & EM & HC). destruct (row_open_spec _ _ _ _ _ _ _ _ R) as (_ & _ & _ & _ & _ & _ & _ & _ & _ & _ & _ & NK).
  set (k := freq (get_k (t_l t)) (r_id r)) in *. set (X := o_X o') in *.
  assert (NK0 : ~ k == 0) by (destruct (nr_i row ++ nr_r row) as [|x L] eqn:EL; [congruence|apply (NK x); left; auto]).
  assert (MK : dget String.eqb (most_loaded_section (t_l t)) (r_id r) = Some k).
  { unfold k in *. rewrite get_k_freq in *. unfold freq, dget0 in *. destruct (dget String.eqb (most_loaded_section (t_l t)) (r_id r)) eqn:Ed; auto. exfalso. apply NK0. reflexivity. }
  destruct (proj2 (C42_most_loaded_section _ _ _ _ _ _ E3) _ _ MK) as (K0 & KL & _). assert (KP : 0 < k) by (apply Qle_lteq in K0; destruct K0 as [K0|K0]; auto; exfalso; apply NK0; rewrite <- K0; reflexivity).
  assert (POS : forall d c, In c (cs d) -> 0 <= c).
  { intros d c Hc. apply In_nth_error in Hc. destruct Hc as (p & Hp). pose proof (proj2 (HC d) _ _ Hp) as Ec.
    assert (PL : forall s, In s (map fst (trow z (r_id r) d)) -> exists z0, stop_place X s = Some (z0, r_mode r)).
    { intros s Hs. apply (ro_key _ _ _ RZ) in Hs. destruct (key_place _ _ _ _ _ _ _ _ _ _ _ FI ND _ _ _ r d s E3 Hr) as (z0 & P0 & _); [tauto|]. eauto. }
    assert (CT : forall n, contrib X z v (r_id r) d n == diff X t r d n).
    { intro n. unfold diff. rewrite <- (at_node_row _ _ _ _ _ _ _ _ _ _ _ FI (t_z t) z r d n), <- (at_node_row _ _ _ _ _ _ _ _ _ _ _ FI (t_v t) z r d n); auto. unfold contrib. fold X. destruct (stop_in_row X z (r_id r) d n) as [s|]; [rewrite (ro_get _ _ _ RZ), (ro_get _ _ _ RV); reflexivity|ring]. }
    assert (SUM : c * k == Qsumf (diff X t r d) (firstn (S p) (nodes_of r d))) by (rewrite Ec; apply Qsumf_ext; auto).
    pose proof (carried _ _ _ _ _ _ _ _ _ _ _ FI ND VIS _ _ _ E3 r d (S p) Hr NC (OL r Hr NC)) as CA. fold X in CA. apply (proj1 (Qmult_le_r _ _ k KP)). rewrite Qmult_0_l, SUM. destruct (last_stop _ _) as [n|]; [destruct CA as (s & _ & ->); apply NN|rewrite CA; apply Qle_refl]. }
  assert (EL : map snd (nr_i row ++ nr_r row) = map Qabs (cs DI ++ cs DR)). { pose proof (proj1 (HC DI)) as A. pose proof (proj1 (HC DR)) as C. cbn [sections_dir] in A, C. rewrite !map_app, A, C. reflexivity. }
  assert (NC2 : cs DI ++ cs DR <> []) by (intro C; rewrite C in EL; apply map_eq_nil in EL; auto).
  assert (POS' : forall c, In c (cs DI ++ cs DR) -> 0 <= c) by (intros c Hc; apply in_app_iff in Hc; destruct Hc; eauto).
  destruct (fmin_inf _ NC2) as (m & Em & ML & MI). exists (Qabs m). rewrite EM, Em. split; [reflexivity|]. split.
  - assert (Hm : In (Qabs m) (map snd (nr_i row ++ nr_r row))) by (rewrite EL; apply in_map; auto). apply in_map_iff in Hm. destruct Hm as ([a q] & Eq & Hq). exists a, q. split; auto. cbn in Eq. rewrite Eq. reflexivity.
  - intros a q Hq. apply (in_map snd) in Hq. rewrite EL in Hq. apply in_map_iff in Hq. cbn [snd] in Hq. destruct Hq as (c & <- & Hc). rewrite !Qabs_pos by auto. auto.
Qed.
Print Assumptions C56_least_loaded.
(** The example C56_ex meets the hypotheses; the least loads of its two lines: *)
Example C56_least_ex : exists o rows f o' t, new_optimizer ex_B None = Ok o /\ get_network_results o (Some ex_res) = Ok rows /\
  fopt_to_f (map r_id (pb_routes ex_B)) (e_x ex_res) = Ok f /\ new_optimizer ex_B (Some f) = Ok o' /\ boardings o' f = Ok t /\
  Forall (fun q => 0 <= q) (flat_map (fun p => flat_map (fun q => map snd (snd q)) (snd p)) (t_l t)) /\
  map (fun row => match nr_min row with Fin q => Some (Qred q) | _ => None end) rows = [Some 0; Some 0] /\ map (fun row => length (nr_i row ++ nr_r row)) rows = [6; 6]%nat.
Proof.
  do 5 eexists. do 5 (split; [vm_compute; reflexivity|]). split; [|split; vm_compute; reflexivity]. vm_compute flat_map. repeat constructor; discriminate.
Qed.

(** ** C58: the objective from the network, the demand and the frequencies *)
(** The objective at a vector of frequencies: every running line costs (co + c1 K) per vehicle, K being the load
    of its fullest section, and has as many vehicles as departures in the time T of a cycle, which is running
    time plus dwelling time; every mode pays for the streets that its running lines use; the users pay for
    access, waiting, time on board and transfers. *)
Theorem C58_value : forall B fg o x c dist, new_optimizer B fg = Ok o -> VRC o x = Ok c ->
  NoDup (map r_id (pb_routes B)) -> NoDup (map nd_id (g_nodes (pb_graph B))) -> NoDup (map m_ref (nw_modes (pb_net B))) ->
  (forall r, In r (pb_routes B) -> ~ m_v (r_mode r) == 0 /\ on_arcs (pb_graph B) (r_ni r) /\ on_arcs (pb_graph B) (r_nr r)) ->
  (forall p q, p == q -> geo_sqrt (pb_geo B) p == geo_sqrt (pb_geo B) q) -> is_distance (pb_geo B) (pb_graph B) dist -> ~ q_va (pb_pass B) == 0 ->
  (forall f, fopt_to_f (map r_id (pb_routes B)) x = Ok f -> loaded B f o) ->
  exists f t K T ta te tv tr, fopt_to_f (map r_id (pb_routes B)) x = Ok f /\ boardings o f = Ok t /\
    (forall r, 0 <= K r /\ (forall d s, tget (t_l t) r d s <= K r) /\ (K r == 0 \/ exists d s, K r == tget (t_l t) r d s)) /\
    (forall r, In r (pb_routes B) -> exists qi qr S, seq_length (pb_geo B) (pb_graph B) (r_ni r) qi /\ seq_length (pb_geo B) (pb_graph B) (r_nr r) qr /\ covers S (t_z t) (t_v t) (r_id r) /\
      T (r_id r) == (qi + qr) / m_v (r_mode r) + m_t (r_mode r) / 3600 * Qsumf (fun d => Qsumf (stop_dwell (m_bya (r_mode r)) (t_z t) (t_v t) (r_id r) d) S) [DI; DR]) /\
    (forall Fs, Forall2 (fun ea F => strategy_flow (o_X o) f (fst ea) (snd ea) F) (combine (o_es o) (o_asg o)) Fs ->
      te == consumption (o_X o) (wait_time (o_X o) f) (combine (o_es o) (o_asg o)) Fs /\
      tr == consumption (o_X o) (transfer (o_X o)) (combine (o_es o) (o_asg o)) Fs /\
      ((forall r, In r (pb_routes B) -> both_ways r) -> tv == consumption (o_X o) (on_board (o_X o) (t_z t) (t_v t)) (combine (o_es o) (o_asg o)) Fs) /\
      ((forall e, In e (o_es o) -> never_walks (o_X o) e) -> ta == starting (o_X o) (q_va (pb_pass B)) (combine (o_es o) (o_asg o)))) /\
    forall U, (forall m, In m (nw_modes (pb_net B)) -> streets (pb_graph B) (pb_routes B) f m (U m)) ->
      c == Qsumf (fun r => (m_co (r_mode r) + m_c1 (r_mode r) * K (r_id r)) * (freq f (r_id r) * T (r_id r))) (pb_routes B) +
           Qsumf (fun m => m_c2 m * (m_d m * Qsumf (fun p => dist (fst p) (snd p)) (U m))) (nw_modes (pb_net B)) +
           (q_spa (pb_pass B) * ta + q_spw (pb_pass B) * te + q_spv (pb_pass B) * (tv + q_spt (pb_pass B) / 60 * tr)).
Proof.
  intros B fg o x c dist H HV ND NN NM HR HS HD VA HL. destruct (C58_objective _ _ _ _ _ H ND HV) as (f & t & ltt & cu & Ef & Et & El & Eu & Ec). destruct (new_optimizer_attrs _ _ _ H) as (Hb & _ & _ & Hp & _). rewrite Hp in Ef.
  assert (Et' := Et). unfold boardings in Et'. destruct (gab_wf _ _ _ _ _ _ Et') as (WZ & WV & _). destruct (get_cycle_time (t_z t) (t_v t) (pb_routes B) ltt) as [[ct z'] v'] eqn:EC. cbn [fst] in Ec.
  destruct (C44_cycle_time _ _ _ _ _ _ _ WZ WV ND EC) as [CT _]. unfold get_users_cost in Eu. apply bind_ok in Eu. destruct Eu as (u & Eu & Ecu). injection Ecu as <-.
  pose proof (HL f Ef) as FI. unfold loaded in FI. destruct (C48_resources _ _ _ _ _ _ _ _ _ _ _ (q_va (pb_pass B)) (t_z t) (t_v t) (o_asg o) FI VA) as (N & u1 & R1 & _ & K1).
  assert (u1 = u). { pose proof (rc_mono _ (Nat.max N (pb_fuel B)) _ _ _ _ _ _ _ _ (Nat.le_max_r _ _) Eu) as A. rewrite R1 in A by apply Nat.le_max_l. congruence. } subst u1.
  exists f, t, (freq (most_loaded_section (t_l t))), (freq ct), (u_ta u), (u_te u), (u_tv u), (u_t u). do 2 (split; [auto|]). split; [|split; [|split]].
  - intro r. unfold freq, dget0. destruct (dget String.eqb (most_loaded_section (t_l t)) r) as [k|] eqn:Ed; [apply (proj2 (C42_most_loaded_section _ _ _ _ _ _ Et') _ _ Ed)|]. split; [lra|]. split; [|left; reflexivity]. intros d s.
    apply (dget_None String.eqb Seqb_spec) in Ed. rewrite (proj1 (C42_most_loaded_section _ _ _ _ _ _ Et')) in Ed. apply (dget_None String.eqb Seqb_spec) in Ed. unfold tget, trow, dget0. rewrite Ed. cbn. lra.
  - intros r Hr. destruct (C43_travel_time (pb_geo B) (pb_graph B) (pb_routes B) ND (fun r Hr => proj1 (HR r Hr)) (fun r Hr => proj2 (HR r Hr))) as (tt1 & Ett & TT). assert (tt1 = ltt) by congruence. subst tt1. destruct (TT r Hr) as (qi & qr & A1 & A2 & A3). destruct (covers_exists (t_z t) (t_v t) (r_id r)) as (S & HCS).
    exists qi, qr, S. do 3 (split; auto). rewrite (CT r S Hr HCS), A3. reflexivity.
  - intros Fs FS. apply (K1 Fs FS).
  - intros U HU. rewrite Ec. apply Qplus_comp; [apply Qplus_comp|].
    + rewrite C45_operators_cost. symmetry. generalize (pb_routes B). clear. induction l as [|r l IH]; [reflexivity|]. cbn [filter]. rewrite Qsumf_cons, IH. destruct (Qeqb (freq f (r_id r)) 0) eqn:E; cbn [negb]; [apply Qeqb_eq in E; rewrite E; ring|rewrite Qsumf_cons; reflexivity].
    + rewrite (C46_infrastructure_cost (pb_geo B) (pb_graph B) (pb_net B) f (fun m => Qsumf (fun p => dist (fst p) (snd p)) (U m)) dist HS NN NM HD); [reflexivity|]. intros m Hm. exists (U m). split; [apply HU; auto|reflexivity].
    + unfold users_cost. field.
Qed.
Print Assumptions C58_value.
(** straight distances exist when the ids are unique *)
Lemma distance_exists G g : NoDup (map nd_id (g_nodes g)) -> exists dist, is_distance G g dist.
Proof.
  intro ND. exists (fun a b => match find (fun n => (nd_id n =? a)%Z) (g_nodes g), find (fun n => (nd_id n =? b)%Z) (g_nodes g) with Some na, Some nb => euclid G na nb | _, _ => 0 end).
  assert (FI : forall n, In n (g_nodes g) -> find (fun n' => (nd_id n' =? nd_id n)%Z) (g_nodes g) = Some n).
  { intros n. revert ND. induction (g_nodes g) as [|x l IH]; intros ND Hn; [contradiction|]. inversion ND; subst. cbn [find]. destruct Hn as [->|Hn]; [rewrite Z.eqb_refl; auto|]. destruct (nd_id x =? nd_id n)%Z eqn:E; auto. apply Z.eqb_eq in E. exfalso. apply H1. rewrite E. apply in_map. auto. }
  intros na nb Ha Hb. rewrite !FI by auto. reflexivity.
Qed.
Example C58_value_ex : exists o c dist, new_optimizer ex_B (Some ex_ff) = Ok o /\ VRC o [10; 20] = Ok c /\ 0 < c /\
  NoDup (map r_id (pb_routes ex_B)) /\ NoDup (map nd_id (g_nodes (pb_graph ex_B))) /\ NoDup (map m_ref (nw_modes (pb_net ex_B))) /\
  (forall r, In r (pb_routes ex_B) -> ~ m_v (r_mode r) == 0 /\ on_arcs (pb_graph ex_B) (r_ni r) /\ on_arcs (pb_graph ex_B) (r_nr r)) /\
  (forall p q, p == q -> geo_sqrt (pb_geo ex_B) p == geo_sqrt (pb_geo ex_B) q) /\ is_distance (pb_geo ex_B) (pb_graph ex_B) dist /\ ~ q_va (pb_pass ex_B) == 0 /\
  (forall f, fopt_to_f (map r_id (pb_routes ex_B)) [10; 20] = Ok f -> loaded ex_B f o) /\
  (forall r, In r (pb_routes ex_B) -> both_ways r) /\ (forall r r', In r (pb_routes ex_B) -> In r' (pb_routes ex_B) -> r_mode r = r_mode r').
Proof.
  assert (A : exists o c, new_optimizer ex_B (Some ex_ff) = Ok o /\ VRC o [10; 20] = Ok c /\ 0 < c /\ (length (xnodes (o_X o)) < 100)%nat) by (eexists; eexists; split; [vm_compute; reflexivity|]; split; [vm_compute; reflexivity|]; split; [vm_compute; reflexivity|vm_compute; lia]).
  destruct A as (o & c & Eo & Ec & Hc & HX). exists o, c.
  assert (LD : forall f, fopt_to_f (map r_id (pb_routes ex_B)) [10; 20] = Ok f -> loaded ex_B f o).
  { intros f Ef. assert (E : f = ex_ff) by (vm_compute in Ef; injection Ef as <-; reflexivity). clear Ef. subst f. change ex_B with (ex_Bd ex_demand ex_net) in *. apply ex_loaded; [exact Eo|exact ex_X2_input|vm_compute; repeat constructor; cbn; intuition discriminate|modes_tac|exact HX|apply freq2; discriminate|intros r [<-|[<-|[]]]; reflexivity]. }
  assert (EG : pb_graph ex_B = ex_g34) by (unfold pb_graph; cbn [pb_city ex_B]; apply ex_graph_city).
  assert (NN : NoDup (map nd_id (g_nodes ex_g34))) by (vm_compute; repeat constructor; cbn; intuition discriminate).
  destruct (distance_exists ex_geo ex_g34 NN) as (dist & HD). exists dist. do 3 (split; [auto|]). rewrite EG.
  split; [vm_compute; repeat constructor; cbn; intuition discriminate|]. split; [exact NN|]. split; [vm_compute; repeat constructor; cbn; intuition discriminate|].
  split; [|split; [exact ex_sqrt_compat|split; [exact HD|split; [discriminate|split; [exact LD|split]]]]].
  - intros r Hr. split; [destruct Hr as [<-|[<-|[]]]; vm_compute; discriminate|].
    destruct Hr as [<-|[<-|[]]]; split; intros a b C; apply arcs_consecutive in C; revert C; vm_compute arcs_of; cbn [In]; intuition; match goal with E : (_, _) = (_, _) |- _ => inversion E; subst; vm_compute; reflexivity end.
  - intros r [<-|[<-|[]]]; (split; [discriminate|split; [vm_compute; repeat constructor; cbn; intuition discriminate|left; reflexivity]]).
  - intros r r' [<-|[<-|[]]] [<-|[<-|[]]]; reflexivity.
Qed.
