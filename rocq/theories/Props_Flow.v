(** * Props_Flow: boardings, alightings and loads (C41, C42) *)
From Coq Require Import String List ZArith QArith Bool Lia Lqa Qfield.
From Verif Require Import PyBase PyFacts Graph GraphProofs GeoEx Mode Route ExtGraph ExtSpec ExtProofs Props_Ext Hyperpath HyperSpec HyperProofs HyperOpt Props_Hyper Assignment AssignSpec OdFacts FlowSpec CostSpec TableProofs FlowProofs Props_Assign.
Import ListNotations.
Local Open Scope Q_scope.

Lemma Qsumf_swap {A B} (h : A -> B -> Q) : forall la lb, Qsumf (fun a => Qsumf (h a) lb) la == Qsumf (fun b => Qsumf (fun a => h a b) la) lb.
Proof.
  induction la as [|a la IH]; intro lb; [unfold Qsumf at 1; cbn; symmetry; apply Qsumf_zero; reflexivity|]. rewrite Qsumf_cons, IH, <- Qsumf_plus. apply Qsumf_ext. intros b _. rewrite Qsumf_cons. reflexivity.
Qed.
Lemma Qsumf_pick {A} (h : A -> Q) (p : A -> bool) x : forall l, NoDup l -> In x l -> (forall y, In y l -> p y = true <-> y = x) -> Qsumf (fun y => if p y then h y else 0) l == h x.
Proof.
  induction l as [|y l IH]; intros ND Hx Hp; [contradiction|]. inversion ND; subst. rewrite Qsumf_cons. destruct Hx as [->|Hx].
  - assert (E : p x = true) by (apply Hp; [left|]; auto). rewrite E. rewrite Qsumf_zero; [ring|]. intros y Hy. destruct (p y) eqn:Ey; [|reflexivity]. apply Hp in Ey; [|right; auto]. subst. contradiction.
  - rewrite IH; auto; [|intros; apply Hp; right; auto]. destruct (p y) eqn:Ey; [|ring]. apply Hp in Ey; [|left; auto]. subst. contradiction.
Qed.
Section EdgeSums.
  Context (X : xgraph).
  Hypothesis HG : hyper_graph X.
  (** summing over the edges what the events put on each *)
  Lemma edge_sums (w : enode -> enode -> Q) l : (forall i j q, In (i, j, q) l -> exists x, In x (xg_edges X) /\ x_i x = i /\ x_j x = j) ->
    Qsumf (fun x => w (x_i x) (x_j x) * Qsumf (on_edge (x_i x) (x_j x)) l) (xg_edges X) == Qsumf (fun e => w (ev_from e) (ev_to e) * snd e) l.
  Proof.
    intro HE. rewrite (Qsumf_ext _ (fun x => Qsumf (fun e => w (x_i x) (x_j x) * on_edge (x_i x) (x_j x) e) l)); [|intros; rewrite Qsumf_scal; reflexivity].
    rewrite Qsumf_swap. apply Qsumf_ext. intros [[i j] q] He. destruct (HE i j q He) as (x & Hx & Ei & Ej). change (ev_from (i, j, q)) with i. change (ev_to (i, j, q)) with j. cbn [snd].
    rewrite (Qsumf_ext _ (fun y => if enode_eqb (x_i y) i && enode_eqb (x_j y) j then w i j * q else 0)).
    - rewrite (Qsumf_pick (fun _ => w i j * q) _ x); [reflexivity| |auto|].
      + apply (NoDup_map_inv (fun e => (x_i e, x_j e))). apply (hg_pairs X HG).
      + intros y Hy. split.
        * intro E. apply andb_true_iff in E. destruct E as [E1 E2]. apply enode_eqb_eq in E1, E2. apply (NoDup_map_eq (fun e => (x_i e, x_j e)) (xg_edges X) y x); auto; [apply (hg_pairs X HG)|congruence].
        * intros ->. apply andb_true_iff. split; apply enode_eqb_eq; auto.
    - intros y Hy. unfold on_edge. change (ev_from (i, j, q)) with i. change (ev_to (i, j, q)) with j. cbn [snd]. destruct (enode_eqb (x_i y) i) eqn:E1, (enode_eqb (x_j y) j) eqn:E2; cbn [andb]; try ring.
      apply enode_eqb_eq in E1, E2. rewrite E1, E2. ring.
  Qed.
  Lemma flow_of_events f e a l : od_flow X f e a l -> strategy_flow X f e a (fun x => Qsumf (on_edge (x_i x) (x_j x)) l).
  Proof.
    intros O x Hx. assert (HE : forall i j q, In (i, j, q) l -> exists x, In x (xg_edges X) /\ x_i x = i /\ x_j x = j) by (intros i j q H; destruct (of_edge _ _ _ _ _ O i j q H) as (y & A & B & C & _); eauto). split.
    - intros Hs Hd. rewrite (of_flow _ _ _ _ _ O (x_i x) x Hs Hd). unfold inflow, starts_at.
      rewrite (Qsumf_ext (fun y => if enode_eqb (x_j y) (x_i x) then Qsumf (on_edge (x_i y) (x_j y)) l else 0) (fun y => (fun (_ j : enode) => if enode_eqb j (x_i x) then 1 else 0) (x_i y) (x_j y) * Qsumf (on_edge (x_i y) (x_j y)) l)).
      + rewrite (edge_sums (fun _ j => if enode_eqb j (x_i x) then 1 else 0) l HE). rewrite (Qsumf_ext (into (x_i x)) (fun e0 => (if enode_eqb (ev_to e0) (x_i x) then 1 else 0) * snd e0)); [reflexivity|].
        intros e0 _. unfold into. destruct (enode_eqb (x_i x) (ev_to e0)) eqn:E1, (enode_eqb (ev_to e0) (x_i x)) eqn:E2; try ring; [apply enode_eqb_eq in E1; rewrite <- E1 in E2|apply enode_eqb_eq in E2; rewrite <- E2 in E1];
        rewrite (proj2 (enode_eqb_eq _ _) eq_refl) in *; discriminate.
      + intros y _. cbn beta. destruct (enode_eqb (x_j y) (x_i x)); ring.
    - intro Hn. apply Qsumf_zero. intros [[i j] q] He. unfold on_edge. change (ev_from (i, j, q)) with i. change (ev_to (i, j, q)) with j. destruct (enode_eqb (x_i x) i) eqn:E1, (enode_eqb (x_j x) j) eqn:E2; cbn [andb]; try reflexivity.
      apply enode_eqb_eq in E1, E2. destruct (of_edge _ _ _ _ _ O i j q He) as (y & A1 & A2 & A3 & A4 & A5).
      assert (y = x) by (apply (NoDup_map_eq (fun e => (x_i e, x_j e)) (xg_edges X) y x); auto; [apply (hg_pairs X HG)|congruence]). subst y. rewrite A2 in *. destruct Hn; [contradiction|congruence].
  Qed.
  (** there is only one flow *)
  Lemma flow_unique P M f e a c cd F1 F2 : od_ok X P M e c cd -> strategy_flow X f e a F1 -> strategy_flow X f e a F2 -> forall x, In x (xg_edges X) -> F1 x == F2 x.
  Proof.
    intros O H1 H2. destruct (oo_rank _ _ _ _ _ _ O) as (rk & RK). set (B := list_max (map (fun x => rk (x_i x)) (xg_edges X))).
    assert (HB : forall x, In x (xg_edges X) -> (rk (x_i x) <= B)%nat) by (intros x Hx; pose proof (proj1 (list_max_le (map (fun x => rk (x_i x)) (xg_edges X)) B) (le_n _)) as FA; rewrite Forall_forall in FA; apply FA; apply in_map_iff; eauto).
    assert (SD : forall x, In x (xg_edges X) -> In x (hr_suc (od_res e) (x_i x)) \/ ~ In x (hr_suc (od_res e) (x_i x))).
    { intros x Hx. destruct (existsb (fun y => enode_eqb (x_i x) (x_i y) && enode_eqb (x_j x) (x_j y)) (hr_suc (od_res e) (x_i x))) eqn:E.
      - left. apply existsb_exists in E. destruct E as (y & Hy & E). apply andb_true_iff in E. destruct E as [E1 E2]. apply enode_eqb_eq in E1, E2. destruct (hf_suc _ _ _ _ _ (oo_facts _ _ _ _ _ _ O) _ _ Hy) as (A & B0 & _).
        assert (y = x) by (apply (NoDup_map_eq (fun e => (x_i e, x_j e)) (xg_edges X) y x); auto; [apply (hg_pairs X HG)|congruence]). subst; auto.
      - right. intro H. assert (C : existsb (fun y => enode_eqb (x_i x) (x_i y) && enode_eqb (x_j x) (x_j y)) (hr_suc (od_res e) (x_i x)) = true) by (apply existsb_exists; exists x; split; auto; apply andb_true_iff; split; apply enode_eqb_eq; auto). congruence. }
    assert (G : forall n x, In x (xg_edges X) -> (B - rk (x_i x) <= n)%nat -> F1 x == F2 x).
    { induction n as [n IH] using lt_wf_ind. intros x Hx Hn. destruct (H1 x Hx) as [A1 Z1], (H2 x Hx) as [A2 Z2]. destruct (SD x Hx) as [S|S]; [|rewrite Z1, Z2; auto; reflexivity].
      destruct (stop_of_dest X (od_d e) (x_i x)) eqn:D; [rewrite Z1, Z2; auto; reflexivity|]. rewrite A1, A2 by auto. unfold inflow.
      rewrite (Qsumf_ext (fun y => if enode_eqb (x_j y) (x_i x) then F1 y else 0) (fun y => if enode_eqb (x_j y) (x_i x) then F2 y else 0)); [reflexivity|].
      intros y Hy. destruct (enode_eqb (x_j y) (x_i x)) eqn:E; [|reflexivity]. apply enode_eqb_eq in E. destruct (SD y Hy) as [Sy|Sy]; [|destruct (H1 y Hy) as [_ Zy1], (H2 y Hy) as [_ Zy2]; rewrite Zy1, Zy2; auto; reflexivity].
      pose proof (RK _ _ Sy) as R1. rewrite E in R1. pose proof (HB y Hy). apply (IH (B - rk (x_i y))%nat); auto. lia. }
    intros x Hx. apply (G _ x Hx (le_n _)).
  Qed.
End EdgeSums.

Section Fi.
  Context (G : geo) (g : graph) (rs : list route) (TP : Q) (fr : option (list (string * Q))) (X : xgraph) (P : qpass) (M : dict2) (fuel0 : nat) (es : list od_entry) (f : fdict).
  Hypothesis FI : flow_input G g rs TP fr X P M fuel0 es f.
  Lemma fi_shape : forall x, In x (xg_edges X) -> edge_shape X x.
  Proof. apply (built_shape G g rs TP fr X (fi_input _ _ _ _ _ _ _ _ _ _ _ FI) (fi_built _ _ _ _ _ _ _ _ _ _ _ FI) (fi_graph _ _ _ _ _ _ _ _ _ _ _ FI)). Qed.
  Lemma fi_inv fuel asg T : get_alighting_and_boarding fuel X f es asg = Ok T -> exists ls t, Forall2 (fun ea l => od_flow X f (fst ea) (snd ea) l) (combine es asg) ls /\
    t = fold_left (record_ev X) (concat ls) (mkT [] [] []) /\ T = mkT (per_vehicle f (t_z t)) (per_vehicle f (t_v t)) (per_vehicle f (t_l t)).
  Proof. destruct FI. intro H. eapply gab_inv; eauto. apply (built_shape G g rs TP fr X); auto. Qed.

  (** the recorded quantity selected by [sel], as flow over the selected edges *)
  Lemma select_flow (L : tables -> Q) (w : enode -> enode -> bool) : L (mkT [] [] []) == 0 ->
    (forall t e, L (record_ev X t e) == L t + (if w (ev_from e) (ev_to e) then snd e else 0)) ->
    forall asg ls, Forall2 (fun ea l => od_flow X f (fst ea) (snd ea) l) (combine es asg) ls ->
    L (fold_left (record_ev X) (concat ls) (mkT [] [] [])) == over_edges X (map (fun l x => Qsumf (on_edge (x_i x) (x_j x)) l) ls) (fun x => w (x_i x) (x_j x)).
  Proof.
    intros L0 HL asg ls F. rewrite (fold_linear X L (fun i j => if w i j then 1 else 0) (fun _ => True)); [|intros t e _; rewrite HL; destruct (w (ev_from e) (ev_to e)); ring|auto].
    rewrite L0, Qplus_0_l, Qsumf_concat. unfold over_edges. rewrite Qsumf_map. induction F as [|ea l eas ls' O F IH]; [reflexivity|]. rewrite !Qsumf_cons, IH.
    assert (E : forall A B C : Q, A == B -> A + C == B + C) by (intros A B C ->; reflexivity). apply E. rewrite <- (edge_sums X (fi_graph _ _ _ _ _ _ _ _ _ _ _ FI) (fun i j => if w i j then 1 else 0) l).
    - apply Qsumf_ext. intros x _. destruct (w (x_i x) (x_j x)); ring.
    - intros i j q H. destruct (of_edge _ _ _ _ _ O i j q H) as (y & A & B & C & _). eauto.
  Qed.
  (** lines that do not run carry nobody *)
  Lemma select_zero (L : tables -> Q) (w : enode -> enode -> bool) : L (mkT [] [] []) == 0 ->
    (forall t e, L (record_ev X t e) == L t + (if w (ev_from e) (ev_to e) then snd e else 0)) -> (forall i j, w i j = true -> is_zero_line X f i \/ is_zero_line X f j) ->
    forall asg ls, Forall2 (fun ea l => od_flow X f (fst ea) (snd ea) l) (combine es asg) ls -> L (fold_left (record_ev X) (concat ls) (mkT [] [] [])) == 0.
  Proof.
    intros L0 HL HW asg ls F. rewrite (fold_linear X L (fun i j => if w i j then 1 else 0) (fun _ => True)); [|intros t e _; rewrite HL; destruct (w (ev_from e) (ev_to e)); ring|auto].
    rewrite L0, Qplus_0_l. apply Qsumf_zero. intros e He. destruct (w (ev_from e) (ev_to e)) eqn:W; [|ring]. apply HW in W. apply in_concat in He. destruct He as (l & Hl & He).
    assert (Z : snd e == 0). { induction F as [|ea l' eas ls' O F IH]; [contradiction|]. destruct Hl as [->|Hl]; auto. destruct e as [[i j] q]. eapply (of_zero _ _ _ _ _ O); eauto. } rewrite Z. ring.
  Qed.
End Fi.

(** ** C41 *)
(** The loop that loads the network ends, without an exception, whatever the assignment. *)
Theorem C41_terminates : forall G g rs TP fr X P M fuel0 es f asg, flow_input G g rs TP fr X P M fuel0 es f ->
  exists N T, forall fuel, (N <= fuel)%nat -> get_alighting_and_boarding fuel X f es asg = Ok T.
Proof.
  intros G g rs TP fr X P M fuel0 es f asg FI. pose proof (fi_shape _ _ _ _ _ _ _ _ _ _ _ FI) as SH. destruct FI. destruct (gab_events X P M f fuel0 es asg fi_graph fi_weights fi_fuel fi_hyper SH fi_freq fi_runs) as (N & ls & F & R). exists N. eexists. exact R.
Qed.
Print Assumptions C41_terminates.

(** The three tables are the flow of the travellers of every OD pair through their strategy, divided by the
    frequency of the line: passengers per vehicle. *)
Theorem C41_tables_are_the_flow : forall G g rs TP fr X P M fuel0 es f asg fuel T, flow_input G g rs TP fr X P M fuel0 es f -> length asg = length es ->
  get_alighting_and_boarding fuel X f es asg = Ok T ->
  exists Fs, Forall2 (fun ea F => strategy_flow X f (fst ea) (snd ea) F) (combine es asg) Fs /\
    (forall Fs', Forall2 (fun ea F => strategy_flow X f (fst ea) (snd ea) F) (combine es asg) Fs' -> Forall2 (fun F F' => forall x, In x (xg_edges X) -> F x == F' x) Fs Fs') /\
    forall r d s,
      freq f r * tget (t_z T) r d s == over_edges X Fs (board_edge X r d s) /\
      freq f r * tget (t_v T) r d s == over_edges X Fs (alight_edge X r d s) /\
      freq f r * tget (t_l T) r d s == over_edges X Fs (ride_edge X r d s) /\
      (freq f r == 0 -> tget (t_z T) r d s == 0 /\ tget (t_v T) r d s == 0 /\ tget (t_l T) r d s == 0).
Proof.
  intros G g rs TP fr X P M fuel0 es f asg fuel T FI LEN H. destruct (fi_inv _ _ _ _ _ _ _ _ _ _ _ FI fuel asg T H) as (ls & t & F & Et & ->). pose proof (fi_graph _ _ _ _ _ _ _ _ _ _ _ FI) as HG.
  exists (map (fun l x => Qsumf (on_edge (x_i x) (x_j x)) l) ls). split; [|split].
  - clear Et H. induction F as [|ea l eas ls' O F IH]; cbn [map]; constructor; auto. apply flow_of_events; auto.
  - intros Fs' F'. assert (OK : forall ea, In ea (combine es asg) -> exists c cd, od_ok X P M (fst ea) c cd).
    { intros [e a] He. apply in_combine_l in He. destruct FI. apply (entries_ok fuel0 X P M es); auto. }
    clear Et H LEN. revert Fs' F' OK. induction F as [|ea l eas ls' O F IH]; intros Fs' F' OK; inversion F'; subst; cbn [map]; constructor.
    + destruct (OK ea (or_introl eq_refl)) as (c & cd & O'). eapply flow_unique; eauto. apply flow_of_events; auto.
    + apply IH; auto. intros; apply OK; right; auto.
  - intros r d s. cbn [t_z t_v t_l]. rewrite !tget_scaled.
    set (wz := fun i j => match i, j with ES s', ER k => (r =? rid X k)%string && dir_eqb d (rdir X k) && Nat.eqb s s' | _, _ => false end).
    set (wv := fun i j => match i, j with ER k, ES s' => (r =? rid X k)%string && dir_eqb d (rdir X k) && Nat.eqb s s' | _, _ => false end).
    set (wl := fun i j => match i, j with ER k, ER _ => (r =? rid X k)%string && dir_eqb d (rdir X k) && Nat.eqb s (rn_stop_at (xg_rnodes X) k) | _, _ => false end).
    assert (Lz : forall t e, tget (t_z (record_ev X t e)) r d s == tget (t_z t) r d s + (if wz (ev_from e) (ev_to e) then snd e else 0)).
    { intros t0 e. rewrite record_cases. unfold wz. destruct (ev_from e), (ev_to e); cbn [t_z]; rewrite ?tget_tadd; unfold here; try ring; destruct ((r =? _)%string && dir_eqb d _ && Nat.eqb s _)%bool; ring. }
    assert (Lv : forall t e, tget (t_v (record_ev X t e)) r d s == tget (t_v t) r d s + (if wv (ev_from e) (ev_to e) then snd e else 0)).
    { intros t0 e. rewrite record_cases. unfold wv. destruct (ev_from e), (ev_to e); cbn [t_v]; rewrite ?tget_tadd; unfold here; try ring; destruct ((r =? _)%string && dir_eqb d _ && Nat.eqb s _)%bool; ring. }
    assert (Ll : forall t e, tget (t_l (record_ev X t e)) r d s == tget (t_l t) r d s + (if wl (ev_from e) (ev_to e) then snd e else 0)).
    { intros t0 e. rewrite record_cases. unfold wl. destruct (ev_from e), (ev_to e); cbn [t_l]; rewrite ?tget_tadd; unfold here; try ring; destruct ((r =? _)%string && dir_eqb d _ && Nat.eqb s _)%bool; ring. }
    assert (ZW : forall w, w = wz \/ w = wv \/ w = wl -> freq f r == 0 -> forall i j, w i j = true -> is_zero_line X f i \/ is_zero_line X f j).
    { intros w Hw E0 i j W. assert (ZK : forall k x, ((r =? rid X k)%string && dir_eqb d (rdir X k) && x)%bool = true -> is_zero_line X f (ER k)).
      { intros k x C. apply andb_true_iff in C. destruct C as [C _]. apply andb_true_iff in C. destruct C as [C _]. apply String.eqb_eq in C. exists k. split; auto. rewrite <- C. auto. }
      destruct Hw as [->|[-> | ->]]; unfold wz, wv, wl in W; destruct i, j; try discriminate; [right|left|left]; eapply ZK; exact W. }
    assert (SCL : forall q o, (freq f r == 0 -> q == 0) -> q == o -> freq f r * scale f r q == o /\ (freq f r == 0 -> scale f r q == 0)).
    { intros q o Z E. rewrite scale_mult. destruct (Qeqb (freq f r) 0) eqn:Q0; [apply Qeqb_eq in Q0|apply Qeqb_neq in Q0].
      - split; [|intros _; rewrite (Z Q0); ring]. rewrite <- E, (Z Q0). ring.
      - split; [rewrite <- E; field; auto|intro C; contradiction]. }
    destruct (SCL (tget (t_z t) r d s) (over_edges X (map (fun l x => Qsumf (on_edge (x_i x) (x_j x)) l) ls) (board_edge X r d s))) as [Z1 Z2];
      [intro E0; rewrite Et; eapply (select_zero X es f (fun t => tget (t_z t) r d s) wz); eauto; reflexivity|rewrite Et; eapply (select_flow G g rs TP fr X P M fuel0 es f FI (fun t => tget (t_z t) r d s) wz); eauto; reflexivity|].
    destruct (SCL (tget (t_v t) r d s) (over_edges X (map (fun l x => Qsumf (on_edge (x_i x) (x_j x)) l) ls) (alight_edge X r d s))) as [V1 V2];
      [intro E0; rewrite Et; eapply (select_zero X es f (fun t => tget (t_v t) r d s) wv); eauto; reflexivity|rewrite Et; eapply (select_flow G g rs TP fr X P M fuel0 es f FI (fun t => tget (t_v t) r d s) wv); eauto; reflexivity|].
    destruct (SCL (tget (t_l t) r d s) (over_edges X (map (fun l x => Qsumf (on_edge (x_i x) (x_j x)) l) ls) (ride_edge X r d s))) as [L1 L2];
      [intro E0; rewrite Et; eapply (select_zero X es f (fun t => tget (t_l t) r d s) wl); eauto; reflexivity|rewrite Et; eapply (select_flow G g rs TP fr X P M fuel0 es f FI (fun t => tget (t_l t) r d s) wl); eauto; reflexivity|].
    split; [|split; [|split]]; auto.
Qed.
Print Assumptions C41_tables_are_the_flow.

(** On every route and direction, as many passengers alight as board. *)
Theorem C41_route_balance : forall G g rs TP fr X P M fuel0 es f asg fuel T, flow_input G g rs TP fr X P M fuel0 es f ->
  get_alighting_and_boarding fuel X f es asg = Ok T -> forall r d, Qsumf snd (trow (t_z T) r d) == Qsumf snd (trow (t_v T) r d).
Proof.
  intros G g rs TP fr X P M fuel0 es f asg fuel T FI H r d. pose proof (fi_shape _ _ _ _ _ _ _ _ _ _ _ FI) as SH. destruct FI. apply (row_balance X P M f fuel0 es asg fi_graph fi_weights fi_fuel fi_hyper SH fi_freq fi_runs fuel T H r d).
Qed.
Print Assumptions C41_route_balance.

(** At every stop of a line: what arrives on board plus what boards is what alights plus what leaves on
    board; and nobody is on board after the last stop. *)
Theorem C41_stop_balance : forall G g rs TP fr X P M fuel0 es f asg fuel T, flow_input G g rs TP fr X P M fuel0 es f ->
  NoDup (map r_id rs) -> (forall r d, In r rs -> NoDup (visits r d)) ->
  get_alighting_and_boarding fuel X f es asg = Ok T ->
  forall k rn s, nth_error (xg_rnodes X) k = Some rn -> rn_stop rn = Some s ->
  let r := r_id (rn_route rn) in let d := rn_dir rn in
  let arriving := match rn_prev rn with Some p => tget (t_l T) r d (rn_stop_at (xg_rnodes X) p) | None => 0 end in
  arriving + tget (t_z T) r d s == tget (t_v T) r d s + tget (t_l T) r d s /\
  ((forall k' rn', nth_error (xg_rnodes X) k' = Some rn' -> rn_prev rn' <> Some k) -> tget (t_l T) r d s == 0).
Proof.
  intros G g rs TP fr X P M fuel0 es f asg fuel T FI IDS VIS H k rn s Hk Hs r d arriving. destruct FI.
  destruct (stop_balance G g rs TP fr X P M f fuel0 es asg fi_input fi_built fi_graph fi_weights fi_fuel fi_hyper fi_freq fi_runs IDS VIS fuel T H k rn s Hk Hs) as [A B]. split; auto. fold r d in A. fold arriving in A. lra.
Qed.
Print Assumptions C41_stop_balance.

(** Over the stops of a city node: boardings minus alightings, in passengers per hour, are the trips that start
    there minus the trips that end there. *)
Theorem C41_city_balance : forall G g rs TP fr X P M fuel0 es f asg fuel T, flow_input G g rs TP fr X P M fuel0 es f ->
  get_alighting_and_boarding fuel X f es asg = Ok T -> forall c,
  city_total X f (t_z T) c - city_total X f (t_v T) c ==
    Qsumf (fun ea => match od_o (fst ea) with Some (EC c') => if Nat.eqb c' c then assigned_trips (fst ea) (snd ea) else 0 | _ => 0 end) (combine es asg) -
    Qsumf (fun ea => match od_d (fst ea) with Some (EC c') => if Nat.eqb c' c then assigned_trips (fst ea) (snd ea) else 0 | _ => 0 end) (combine es asg).
Proof.
  intros G g rs TP fr X P M fuel0 es f asg fuel T FI H c. pose proof (fi_shape _ _ _ _ _ _ _ _ _ _ _ FI) as SH. destruct FI. apply (city_balance X P M f fuel0 es asg fi_graph fi_weights fi_fuel fi_hyper SH fi_freq fi_runs fuel T H c).
Qed.
Print Assumptions C41_city_balance.

Lemma keys_sum : forall (keys : list nat) (a : list (nat * Q)), NoDup keys -> NoDup (map fst a) -> (forall s, In s (map fst a) -> In s keys) -> Qsumf (dget0 Nat.eqb 0 a) keys == Qsumf snd a.
Proof.
  intros keys a. revert keys. induction a as [|[s q] a IH]; intros keys ND NDa Hin; [apply Qsumf_zero; intros; reflexivity|].
  cbn [map fst] in *. inversion NDa; subst. rewrite Qsumf_cons. cbn [snd]. assert (Hs : In s keys) by (apply Hin; left; auto).
  assert (E : Qsumf (dget0 Nat.eqb 0 ((s, q) :: a)) keys == Qsumf (fun k => (if Nat.eqb k s then q else 0) + dget0 Nat.eqb 0 a k) keys).
  { apply Qsumf_ext. intros k _. unfold dget0. cbn [dget]. destruct (Nat.eqb k s) eqn:Ek; [|ring]. apply Nat.eqb_eq in Ek. subst k. assert (N : dget Nat.eqb a s = None).
    { clear - H1. induction a as [|[k v] a IH]; cbn [dget]; auto. cbn [map fst In] in H1. destruct (Nat.eqb s k) eqn:E; [apply Nat.eqb_eq in E; exfalso; apply H1; left; auto|]. apply IH. tauto. }
    rewrite N. ring. }
  rewrite E, Qsumf_plus, IH; auto; [|intros; apply Hin; right; auto]. rewrite (Qsumf_pick (fun _ => q) (fun k => Nat.eqb k s) s keys); auto; [reflexivity|]. intros y _. apply Nat.eqb_eq.
Qed.
(** With the percentages of get_assignment: every trip is loaded (save those of a forgotten pair, for which
    none is), and no boarding, alighting or load is negative. *)
Theorem C41_all_trips : forall G g rs TP fr X P M fuel0 es f p vp spa spv, flow_input G g rs TP fr X P M fuel0 es f ->
  0 <= p -> 0 <= vp -> 0 < spa -> 0 < spv -> (forall m, used_mode X m -> 1 <= m_d m) ->
  exists asg, get_assignment X p vp spa spv es = Ok asg /\ length asg = length es /\
    (forall e a, In (e, a) (combine es asg) -> (~ forgotten_od X p vp spa spv e -> assigned_trips e a == od_v e) /\ (forgotten_od X p vp spa spv e -> assigned_trips e a == 0)) /\
    ((forall e, In e es -> 0 <= od_v e) -> forall fuel T, get_alighting_and_boarding fuel X f es asg = Ok T ->
       forall r d s, 0 <= tget (t_z T) r d s /\ 0 <= tget (t_v T) r d s /\ 0 <= tget (t_l T) r d s).
Proof.
  intros G g rs TP fr X P M fuel0 es f p vp spa spv FI Hp Hvp Ha Hv HD. pose proof (fi_shape _ _ _ _ _ _ _ _ _ _ _ FI) as SH. destruct FI.
  destruct (C40_shares X P M fuel0 es p vp spa spv fi_graph fi_weights fi_fuel fi_hyper Hp Hvp Ha Hv HD) as (asg & EA & F2). exists asg. split; auto. split; [symmetry; clear - F2; induction F2; cbn; auto|].
  assert (K : forall e a, In (e, a) (combine es asg) -> (forall s q, In (s, q) a -> In s (map fst (od_paths e)) /\ 0 <= q <= 100) /\ NoDup (map fst a) /\ (~ forgotten_od X p vp spa spv e -> Qsumf snd a == 100) /\ (forgotten_od X p vp spa spv e -> a = [])).
  { clear - F2. induction F2 as [|e a es asg R F2 IH]; intros e' a' H; [contradiction H|]. cbn [combine In] in H. destruct H as [E|H]; [inversion E; subst; auto|apply IH; auto]. }
  assert (AT : forall e a, In (e, a) (combine es asg) -> assigned_trips e a == od_v e * Qsumf snd a / 100).
  { intros e a He. destruct (K e a He) as (K1 & K2 & _). pose proof (in_combine_l _ _ _ _ He) as He'. destruct (entries_ok fuel0 X P M es fi_graph fi_weights fi_fuel fi_hyper e He') as (c & cd & O). unfold assigned_trips.
    rewrite <- (keys_sum (map fst (od_paths e)) a); auto; [|apply (oo_nodup _ _ _ _ _ _ O)|intros s Hs; apply in_map_iff in Hs; destruct Hs as ([s' q] & <- & Hs); apply (K1 _ _ Hs)].
    rewrite (Qsumf_ext (start_trips e a) (fun s => (od_v e / 100) * dget0 Nat.eqb 0 a s)); [rewrite Qsumf_scal; field|]. intros s _. unfold start_trips. field. }
  split.
  - intros e a He. destruct (K e a He) as (_ & _ & K3 & K4). split; intro N; rewrite (AT e a He); [rewrite (K3 N); field|rewrite (K4 N); unfold Qsumf; cbn; field].
  - intros HV fuel T H. apply (table_nonneg X P M f fuel0 es asg fi_graph fi_weights fi_fuel fi_hyper SH fi_freq fi_runs fuel T); auto. intros e a s He Hs. unfold start_trips. assert (0 <= dget0 Nat.eqb 0 a s).
    { destruct (K e a He) as (K1 & _). unfold dget0. destruct (dget Nat.eqb a s) as [q|] eqn:E; [|lra]. apply (dget_In Nat.eqb Neqb_spec) in E. apply (K1 _ _ E). }
    assert (0 <= od_v e) by (apply HV; eapply in_combine_l; eauto). apply Qle_shift_div_l; [reflexivity|]. rewrite Qmult_0_l. apply Qmult_le_0_compat; auto.
Qed.
Print Assumptions C41_all_trips.

(** when every route runs, the frequencies suit any strategy *)
Lemma all_run G g rs TP fr X P M fuel0 es f : ext_input g rs -> build_ext G g rs TP fr = Ok X -> hyper_graph X -> weights X P -> (length (xnodes X) < fuel0)%nat ->
  get_all_hyperpaths fuel0 X P M = Ok es -> (forall r, In r rs -> 0 < freq f (r_id r)) -> forall e, In e es -> runs X f e.
Proof.
  intros I B HG WG FU H HR e He n x Hx Fx. destruct (entries_ok fuel0 X P M es HG WG FU H e He) as (c & cd & O). destruct (hf_suc _ _ _ _ _ (oo_facts _ _ _ _ _ _ O) n x Hx) as (A1 & A2 & _).
  pose proof (built_shape G g rs TP fr X I B HG x A1) as Sh. unfold edge_shape in Sh. destruct (x_f x); [|congruence]. destruct (x_i x) as [|s0|] eqn:Ei; try contradiction. destruct (x_j x) as [| |k] eqn:Ej; try contradiction.
  exists x, k. split; auto. split; auto. destruct (node_of_edge G g rs TP fr X I B HG x k A1 (or_intror Ej)) as (rn & N1 & N2). unfold rid. rewrite N2. apply HR.
  pose proof (facts_of _ _ _ _ _ _ I B) as FA. rewrite (ef_rn _ _ _ _ _ _ FA) in N1. destruct (rns_visit g rs I k rn N1) as (r & d & z & s1 & st & nd & V1 & V2 & _). rewrite V2. auto.
Qed.
(** a bus line and a metro line with transfers, two OD pairs *)
Definition ex_M41 : dict2 := [(2%Z, [(3%Z, 5)]); (1%Z, [(3%Z, 7)])].
Definition ex_f41 : fdict := [("t"%string, 5); ("m"%string, 6)].
Definition ex_es41 : list od_entry := match get_all_hyperpaths 40 ex_X3 ex_P ex_M41 with Ok es => es | Err _ => [] end.
Example C41_ex : flow_input ex_geo ex_g34 [ex_tang; ex_tang_metro] 16 ex_freq ex_X3 ex_P ex_M41 40 ex_es41 ex_f41 /\
  NoDup (map r_id [ex_tang; ex_tang_metro]) /\ (forall r d, In r [ex_tang; ex_tang_metro] -> NoDup (visits r d)) /\
  exists asg T, get_assignment ex_X3 12 4 (822 # 100) (274 # 100) ex_es41 = Ok asg /\ get_alighting_and_boarding 60 ex_X3 ex_f41 ex_es41 asg = Ok T /\
    length (t_z T) = 2%nat /\ exists r d s, ~ tget (t_l T) r d s == 0.
Proof.
  destruct ex_X3_hyper as (A & B & C). assert (H : get_all_hyperpaths 40 ex_X3 ex_P ex_M41 = Ok ex_es41) by (vm_compute; reflexivity). split; [|split; [|split]].
  - split; [exact ex_X3_input|exact ex_X3_built|exact A|exact B|exact C|exact H| |].
    + intro r. unfold freq, dget0, ex_f41. cbn [dget]. repeat match goal with |- context [String.eqb ?a ?b] => destruct (String.eqb a b) end; vm_compute; discriminate.
    + apply (all_run ex_geo ex_g34 [ex_tang; ex_tang_metro] 16 ex_freq ex_X3 ex_P ex_M41 40 ex_es41 ex_f41 ex_X3_input ex_X3_built A B C H). intros r [<-|[<-|[]]]; reflexivity.
  - vm_compute. repeat constructor; cbn; intuition discriminate.
  - intros r d [<-|[<-|[]]]; destruct d; vm_compute; repeat constructor; cbn; intuition discriminate.
  - eexists. eexists. split; [vm_compute; reflexivity|]. split; [vm_compute; reflexivity|]. split; [reflexivity|]. exists "t"%string, DI. 
    exists 0%nat. vm_compute. discriminate.
Qed.
(** Without [runs] the loading fails: a zero frequency on every line that a strategy boards at some stop
    divides by zero. *)
Theorem C41_zero_frequency_refuted : exists G g rs TP fr X P M fuel0 es f p vp spa spv asg,
  ext_input g rs /\ build_ext G g rs TP fr = Ok X /\ hyper_graph X /\ weights X P /\ (length (xnodes X) < fuel0)%nat /\
  get_all_hyperpaths fuel0 X P M = Ok es /\ (forall r, 0 <= freq f r) /\ get_assignment X p vp spa spv es = Ok asg /\
  forall fuel, (0 < fuel)%nat -> get_alighting_and_boarding fuel X f es asg = Err ZeroDivisionError.
Proof.
  destruct ex_X3_hyper as (A & B & C). exists ex_geo, ex_g34, [ex_tang; ex_tang_metro], 16, ex_freq, ex_X3, ex_P, ex_M41, 40%nat, ex_es41, [], 12, 4, (822 # 100), (274 # 100).
  eexists. split; [exact ex_X3_input|]. split; [exact ex_X3_built|]. do 3 (split; [assumption|]). split; [vm_compute; reflexivity|]. split; [intro r; vm_compute; discriminate|]. split; [vm_compute; reflexivity|].
  intros [|fuel] Hf; [lia|]. vm_compute. reflexivity.
Qed.
Print Assumptions C41_zero_frequency_refuted.

(** ** C42: the most loaded section *)
Lemma dset_In {K V} (eqb : K -> K -> bool) : forall (l : list (K * V)) k v k' v', In (k', v') (dset eqb l k v) -> v' = v \/ In (k', v') l.
Proof.
  induction l as [|[k0 v0] l IH]; intros k v k' v'; cbn [dset].
  - intros [E|[]]. inversion E. auto.
  - destruct (eqb k k0); intros [E|H]; try (inversion E; subst; auto; fail); [right; right; auto|inversion E; subst; right; left; auto|]. destruct (IH _ _ _ _ H); auto. right; right; auto.
Qed.
Lemma rows_of t r : tab_wf t -> rows_wf (dget0 String.eqb [] t r).
Proof.
  intros [A B]. unfold dget0. destruct (dget String.eqb t r) as [rows|] eqn:E; [|split; [constructor|intros; contradiction]]. apply (dget_In String.eqb Seqb_spec) in E. eauto.
Qed.
Lemma tset_wf t r d s q : tab_wf t -> tab_wf (tset t r d s q).
Proof.
  intro W. pose proof (rows_of t r W) as [R1 R2]. destruct W as [A B]. unfold tset. split; [apply dset_NoDup; auto using Seqb_spec|]. intros r' rows H. apply dset_In in H. destruct H as [->|H]; [|eauto]. split; [apply dset_NoDup; auto using dir_spec|].
  intros d' row H. apply dset_In in H. destruct H as [->|H]; [|eauto]. apply dset_NoDup; auto using Neqb_spec. unfold trow, dget0. destruct (dget dir_eqb _ d) as [row'|] eqn:E; [|constructor]. apply (dget_In dir_eqb dir_spec) in E. eauto.
Qed.
Lemma per_vehicle_wf f t : tab_wf t -> tab_wf (per_vehicle f t).
Proof.
  intros [A B]. unfold per_vehicle. split.
  - rewrite map_map. rewrite (map_ext _ fst); auto. intros [r rows]; auto.
  - intros r rows H. apply in_map_iff in H. destruct H as ([r' rows'] & E & H). inversion E; subst. destruct (B _ _ H) as [R1 R2]. split.
    + rewrite map_map. rewrite (map_ext _ fst); auto. intros [d row]; auto.
    + intros d row H'. apply in_map_iff in H'. destruct H' as ([d' row'] & E' & H'). inversion E'; subst. rewrite map_map. rewrite (map_ext _ fst); eauto. intros [s q]; auto.
Qed.
Lemma gab_wf fuel X f es asg T : get_alighting_and_boarding fuel X f es asg = Ok T -> tab_wf (t_z T) /\ tab_wf (t_v T) /\ tab_wf (t_l T).
Proof.
  assert (SP : forall fuel suc dest paths t t', spread fuel X f suc dest paths t = Ok t' -> tab_wf (t_z t) /\ tab_wf (t_v t) /\ tab_wf (t_l t) -> tab_wf (t_z t') /\ tab_wf (t_v t') /\ tab_wf (t_l t')).
  { induction fuel0 as [|n IH]; intros suc dest [|[[i j] pax] rest] t t'; cbn [spread]; try (intro E; inversion E; subst; auto; fail); try discriminate. intro H. apply bind_ok in H. destruct H as (q & _ & H). intros (W1 & W2 & W3). apply (IH _ _ _ _ _ H).
    unfold record_flow, tadd. destruct i, j; cbn [t_z t_v t_l]; auto using tset_wf. }
  assert (FM : forall {A} (h : tables -> A -> res tables) l t t', (forall t x t', h t x = Ok t' -> tab_wf (t_z t) /\ tab_wf (t_v t) /\ tab_wf (t_l t) -> tab_wf (t_z t') /\ tab_wf (t_v t') /\ tab_wf (t_l t')) ->
     foldM h l t = Ok t' -> tab_wf (t_z t) /\ tab_wf (t_v t) /\ tab_wf (t_l t) -> tab_wf (t_z t') /\ tab_wf (t_v t') /\ tab_wf (t_l t')).
  { intros A h l. induction l as [|x l IH]; intros t t' Hh; cbn [foldM]; [intro E; inversion E; subst; auto|]. intro H. apply bind_ok in H. destruct H as (t1 & E1 & H). intro W. eapply IH; eauto. }
  unfold get_alighting_and_boarding. intro H. apply bind_ok in H. destruct H as (t & E & H). inversion H; subst T. cbn [t_z t_v t_l].
  assert (W : tab_wf (t_z t) /\ tab_wf (t_v t) /\ tab_wf (t_l t)).
  { eapply FM; [|exact E|]; [|cbn; unfold tab_wf; cbn; repeat split; try constructor; intros; contradiction]. intros t0 [e a] t1 H1. unfold spread_od in H1. revert H1. apply FM. clear t0 t1. intros t0 s t1. unfold spread_stop. destruct (Qeqb _ 0); [intro E'; inversion E'; subst; auto|]. apply SP. }
  destruct W as (W1 & W2 & W3). auto using per_vehicle_wf.
Qed.
Lemma max_row : forall (row : list (nat * Q)) m, let r := fold_left (fun m '(_, q) => if Qltb m q then q else m) row m in
  m <= r /\ (forall s q, In (s, q) row -> q <= r) /\ (r = m \/ exists s, In (s, r) row).
Proof.
  induction row as [|[s q] row IH]; intro m; cbn [fold_left]; [split; [apply Qle_refl|split; [intros; contradiction|auto]]|]. destruct (IH (if Qltb m q then q else m)) as (A & B & C).
  set (r := fold_left _ row _) in *. cbn zeta. destruct (Qltb m q) eqn:E; [apply Qltb_lt in E|apply Qltb_ge in E].
  - split; [lra|]. split; [intros s' q' [H|H]; [inversion H; subst; auto|eauto]|]. right. destruct C as [C|(s' & C)]; [exists s; left; congruence|exists s'; right; auto].
  - split; [lra|]. split; [intros s' q' [H|H]; [inversion H; subst; lra|eauto]|]. destruct C as [C|(s' & C)]; [left; auto|right; exists s'; right; auto].
Qed.
Lemma max_rows : forall (rows : list (dir * list (nat * Q))) m, let r := fold_left (fun m '(_, row) => fold_left (fun m '(_, q) => if Qltb m q then q else m) row m) rows m in
  m <= r /\ (forall d row s q, In (d, row) rows -> In (s, q) row -> q <= r) /\ (r = m \/ exists d row s, In (d, row) rows /\ In (s, r) row).
Proof.
  induction rows as [|[d row] rows IH]; intro m; cbn [fold_left]; [split; [apply Qle_refl|split; [intros; contradiction|auto]]|]. destruct (max_row row m) as (A0 & B0 & C0). cbn zeta in *. set (m1 := fold_left _ row m) in *.
  destruct (IH m1) as (A & B & C). cbn zeta in *. set (r := fold_left _ rows m1) in *. split; [lra|]. split.
  - intros d' row' s q [H|H] Hq; [inversion H; subst; specialize (B0 _ _ Hq); lra|eauto].
  - destruct C as [C|(d' & row' & s & C1 & C2)]; [|right; exists d', row', s; split; [right; auto|auto]]. destruct C0 as [C0|(s & C0)]; [left; congruence|]. right. exists d, row, s. split; [left; auto|]. rewrite C. auto.
Qed.
(** The most loaded section of a route is not less than any of its sections, in either direction, and it is the
    load of one of them (or 0). The routes are those of the table of loads. *)
Theorem C42_most_loaded_section : forall fuel X f es asg T, get_alighting_and_boarding fuel X f es asg = Ok T ->
  let ml := most_loaded_section (t_l T) in
  map fst ml = map fst (t_l T) /\
  forall r m, dget String.eqb ml r = Some m ->
    0 <= m /\ (forall d s, tget (t_l T) r d s <= m) /\ (m == 0 \/ exists d s, m == tget (t_l T) r d s).
Proof.
  intros fuel X f es asg T H ml. destruct (gab_wf _ _ _ _ _ _ H) as (_ & _ & [W1 W2]). set (t := t_l T) in *.
  set (mx := fun rows : list (dir * list (nat * Q)) => fold_left (fun m '(_, row) => fold_left (fun m '(_, q) => if Qltb m q then q else m) row m) rows 0).
  assert (E : ml = map (fun '(r, rows) => (r, mx rows)) t).
  { unfold ml, most_loaded_section. change (fold_left (fun acc '(r, rows) => dset String.eqb acc r (mx rows)) t [] = map (fun '(r, rows) => (r, mx rows)) t).
    assert (G : forall l acc, NoDup (map fst acc ++ map fst l) -> fold_left (fun acc '(r, rows) => dset String.eqb acc r (mx rows)) l acc = acc ++ map (fun '(r, rows) => (r, mx rows)) l).
    { induction l as [|[r rows] l IH]; intros acc ND; cbn [fold_left map]; [rewrite app_nil_r; auto|]. cbn [map fst] in ND. pose proof ND as ND'. apply NoDup_remove_2 in ND'. rewrite in_app_iff in ND'.
      rewrite dset_keys_notin; [|exact Seqb_spec|tauto]. rewrite IH; [rewrite <- app_assoc; reflexivity|]. rewrite map_app. cbn [map fst]. rewrite <- app_assoc. exact ND. }
    apply (G t []). exact W1. }
  split; [rewrite E, map_map; apply map_ext; intros [r rows]; auto|]. intros r m Hm. rewrite E in Hm. rewrite (dget_map String.eqb Seqb_spec (fun _ rows => mx rows)) in Hm.
  destruct (dget String.eqb t r) as [rows|] eqn:Er; cbn [option_map] in Hm; [|discriminate]. inversion Hm; subst m. clear Hm. pose proof (dget_In String.eqb Seqb_spec _ _ _ Er) as Hr. destruct (W2 _ _ Hr) as [R1 R2].
  destruct (max_rows rows 0) as (A & B & C). fold (mx rows) in A, B, C. split; auto. assert (TG : forall d s, tget t r d s = dget0 Nat.eqb 0 (dget0 dir_eqb [] rows d) s) by (intros; unfold tget, trow, dget0; rewrite Er; reflexivity). split.
  - intros d s. rewrite TG. unfold dget0. destruct (dget dir_eqb rows d) as [row|] eqn:Ed; [|cbn; auto]. destruct (dget Nat.eqb row s) as [q|] eqn:Es; [|auto]. apply (dget_In dir_eqb dir_spec) in Ed. apply (dget_In Nat.eqb Neqb_spec) in Es. eauto.
  - destruct C as [C|(d & row & s & C1 & C2)]; [left; rewrite C; reflexivity|right]. exists d, s. rewrite TG. unfold dget0. rewrite (In_dget dir_eqb dir_spec rows d row R1 C1), (In_dget Nat.eqb Neqb_spec row s _ (R2 _ _ C1) C2). reflexivity.
Qed.
Print Assumptions C42_most_loaded_section.
Example C42_ex : exists asg T m, get_assignment ex_X3 12 4 (822 # 100) (274 # 100) ex_es41 = Ok asg /\ get_alighting_and_boarding 60 ex_X3 ex_f41 ex_es41 asg = Ok T /\
  dget String.eqb (most_loaded_section (t_l T)) "t"%string = Some m /\ 0 < m.
Proof. eexists. eexists. eexists. split; [vm_compute; reflexivity|]. split; [vm_compute; reflexivity|]. split; [vm_compute; reflexivity|reflexivity]. Qed.
