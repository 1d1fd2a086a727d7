(** * Props_Text: the texts of the extended graph, the hyperpaths and the assignment *)
From Coq Require Import String Ascii List ZArith QArith Qabs Bool Lia Lqa.
From Verif Require Import PyBase PyFacts PyStr PyStrFacts Graph GeoEx Props_Graph Mode Route Network RouteSpec Props_Network Pajek Props_Pajek ExtGraph ExtSpec ExtProofs Props_Ext
  Hyperpath HyperSpec HyperProofs HyperOpt Props_Hyper OdFacts Assignment FlowSpec FlowProofs TableProofs CostSpec Props_Assign Props_Flow Report ReportSpec Props_Report Props_Loads Texts TextSpec.
Import ListNotations.
Local Open Scope Q_scope.

(** ** Texts made of lines *)
(** each line follows a line break, resp. ends with one *)
Definition begun (l : list string) : string := fold_right (fun s t => nl ++ s ++ t)%string EmptyString l.
Definition ended (l : list string) : string := fold_right (fun s t => s ++ nl ++ t)%string EmptyString l.
Lemma begun_app a b : begun (a ++ b) = (begun a ++ begun b)%string.
Proof. induction a as [|s a IH]; [reflexivity|]. cbn [app begun fold_right]. fold (begun (a ++ b)) (begun a). rewrite IH, !append_assoc. reflexivity. Qed.
Lemma ended_app a b : ended (a ++ b) = (ended a ++ ended b)%string.
Proof. induction a as [|s a IH]; [reflexivity|]. cbn [app ended fold_right]. fold (ended (a ++ b)) (ended a). rewrite IH, !append_assoc. reflexivity. Qed.
Definition unbroken (s : string) : Prop := sall (not_char newline) s = true.
Lemma split_begun l : forall h, unbroken h -> Forall unbroken l -> split_on newline (h ++ begun l)%string = h :: l.
Proof.
  induction l as [|s l IH]; intros h Hh H; [cbn [begun fold_right]; rewrite append_nil_r; apply split_on_none; auto|].
  inversion H as [|s' l' H1 H2]; subst. change (h ++ begun (s :: l))%string with (h ++ String newline (s ++ begun l))%string. rewrite split_on_cons by auto. f_equal. apply IH; auto.
Qed.
Lemma split_ended l : Forall unbroken l -> split_on newline (ended l) = l ++ [EmptyString].
Proof.
  induction l as [|s l IH]; intro H; [reflexivity|]. inversion H as [|s' l' H1 H2]; subst.
  change (ended (s :: l)) with (s ++ String newline (ended l))%string. rewrite split_on_cons by auto. cbn [app]. f_equal. apply IH; auto.
Qed.
Lemma fold_begun {A} (f : string -> A -> string) (g : A -> list string) : (forall line x, f line x = (line ++ begun (g x))%string) ->
  forall l line, fold_left f l line = (line ++ begun (concat (map g l)))%string.
Proof. intros E. induction l as [|x l IH]; intro line; [cbn; rewrite append_nil_r; auto|]. cbn [fold_left map concat]. rewrite IH, E, begun_app, append_assoc. reflexivity. Qed.
Lemma fold_ended {A} (f : string -> A -> string) (g : A -> list string) : (forall line x, f line x = (line ++ ended (g x))%string) ->
  forall l line, fold_left f l line = (line ++ ended (concat (map g l)))%string.
Proof. intros E. induction l as [|x l IH]; intro line; [cbn; rewrite append_nil_r; auto|]. cbn [fold_left map concat]. rewrite IH, E, ended_app, append_assoc. reflexivity. Qed.
Lemma concat_unbroken {A} (g : A -> list string) l : (forall x, In x l -> Forall unbroken (g x)) -> Forall unbroken (concat (map g l)).
Proof. induction l as [|x l IH]; intro H; [constructor|]. cbn [map concat]. apply Forall_app. split; [apply H; left; auto|apply IH; intros; apply H; right; auto]. Qed.
Lemma Forall2_map_in {A} {B} (R : B -> A -> Prop) (g : A -> B) l : (forall x, In x l -> R (g x) x) -> Forall2 R (map g l) l.
Proof. induction l as [|x l IH]; intro H; [constructor|]. cbn [map]. constructor; [apply H; left; auto|apply IH; intros; apply H; right; auto]. Qed.
Lemma unbroken_app a b : unbroken a -> unbroken b -> unbroken (a ++ b).
Proof. unfold unbroken. intros H1 H2. rewrite sall_app, H1, H2. reflexivity. Qed.
Lemma unbroken_fmt2 q : unbroken (fmt2 q).
Proof. apply fmt2_sall; [reflexivity|discriminate]. Qed.
Lemma unbroken_int z : unbroken (str_of_Z z).
Proof. apply int_sall. reflexivity. Qed.
Lemma unbroken_free s : free_of [newline] s -> unbroken s.
Proof. intro H. apply (free_sall newline [newline]); auto. left. auto. Qed.
Lemma unbroken_tab s : unbroken s -> unbroken (tabbed s).
Proof. intro H. unfold unbroken, tabbed. cbn [sall]. rewrite H. reflexivity. Qed.
Lemma unbroken_indented n s : unbroken s -> unbroken (indented n s).
Proof. intro H. induction n; [exact H|]. apply unbroken_tab. exact IHn. Qed.
Lemma shows_eq s q q' : q == q' -> shows s q -> shows s q'.
Proof. intros E (r & H & L). exists r. split; auto. rewrite <- E. exact L. Qed.
Lemma indented_app n a b : (indented n a ++ b)%string = indented n (a ++ b).
Proof. induction n; [reflexivity|]. cbn [indented]. unfold tabbed. cbn [String.append]. f_equal. exact IHn. Qed.
Ltac flat := do 4 (rewrite ?append_assoc; cbn [String.append]).
Ltac plain := repeat first [assumption | apply unbroken_fmt2 | apply unbroken_int | reflexivity | apply unbroken_indented | apply unbroken_app].

(** ** C68: boardings and alightings *)
Section Boarding.
Context (X : xgraph).
Definition stop_text (sq : nat * Q) : string := indented 3 ("Stop " ++ stop_mode_name X (fst sq) ++ "-" ++ stop_city_name X (fst sq) ++ ": " ++ fmt2 (snd sq) ++ "[pax/veh]").
Definition dir_lines (row : dir * list (nat * Q)) : list string := indented 2 ("Direction: " ++ dir_text (fst row)) :: map stop_text (snd row).
Definition rows_lines (rows : list (dir * list (nat * Q))) : list string := concat (map dir_lines rows).
Lemma text_rows_lines rows line : text_rows X line rows = (line ++ begun (rows_lines rows))%string.
Proof.
  unfold text_rows, rows_lines. apply fold_begun. clear. intros line [d row].
  rewrite (fold_begun _ (fun sq => [stop_text sq])).
  - unfold dir_lines. cbn [fst snd]. assert (E : concat (map (fun sq => [stop_text sq]) row) = map stop_text row) by (induction row as [|x row IH]; [reflexivity|cbn [map concat app]; rewrite IH; reflexivity]). rewrite E.
    cbn [begun fold_right]. fold (begun (map stop_text row)). rewrite !append_assoc. reflexivity.
  - intros l [s q]. unfold stop_text. cbn [begun fold_right fst snd]. rewrite append_nil_r. reflexivity.
Qed.
Definition block_lines (v : tab) (rr : string * list (dir * list (nat * Q))) : list string :=
  ["New route: " ++ fst rr; indented 1 "Boarding:"]%string ++ rows_lines (snd rr) ++ [indented 1 "Alighting:"] ++ rows_lines (dget0 String.eqb [] v (fst rr)).
Lemma text_lines z v : str_boarding_alighting X z v = begun ("Boarding and Alighting information:"%string :: concat (map (block_lines v) z)).
Proof.
  unfold str_boarding_alighting. rewrite (fold_begun _ (block_lines v)).
  - cbn [begun fold_right]. fold (begun (concat (map (block_lines v) z))). rewrite append_assoc. reflexivity.
  - intros line [r rows]. rewrite !text_rows_lines. unfold block_lines. cbn [fst snd]. rewrite !begun_app. cbn [begun fold_right]. rewrite !append_assoc. cbn [indented]. unfold tabbed, tb, nl. cbn [String.append]. reflexivity.
Qed.
Lemma stop_names_text s m n : stop_names X s m n -> stop_mode_name X s = m /\ stop_city_name X s = n.
Proof.
  intros (st & nd & H1 & H2 & <- & <-). unfold stop_mode_name, stop_city_name, city_name, gnode, stop_at. rewrite (nth_error_nth _ _ _ H1), (nth_error_nth _ _ _ H2). auto.
Qed.
Lemma stop_names_plain s m n : plain_names X -> stop_names X s m n -> unbroken m /\ unbroken n.
Proof. intros (P1 & P2 & _) (st & nd & H1 & H2 & <- & <-). split; apply unbroken_free; [apply P2|apply P1]; eapply nth_error_In; eauto. Qed.
Lemma rows_ok (K : list (dir * list (nat * Q))) : plain_names X -> (forall d row s q, In (d, row) K -> In (s, q) row -> exists m n, stop_names X s m n) ->
  table_lines X (rows_lines K) K /\ Forall unbroken (rows_lines K).
Proof.
  intros PN H. split.
  - exists (map dir_lines K). split; [reflexivity|]. apply Forall2_map_in. intros [d row] Hd. exists (map stop_text row). split; [destruct d; reflexivity|]. cbn [snd].
    apply Forall2_map_in. intros [s q] Hs. destruct (H d row s q Hd Hs) as (m & n & N). exists m, n. split; [exact N|]. destruct (stop_names_text _ _ _ N) as [E1 E2].
    exists (fmt2 q). split; [|apply fmt2_shows]. unfold stop_text. cbn [fst snd]. rewrite E1, E2, indented_app. flat. reflexivity.
  - apply concat_unbroken. intros [d row] Hd. constructor; [apply unbroken_indented; destruct d; reflexivity|]. apply Forall_forall. intros l Hl. apply in_map_iff in Hl. destruct Hl as ([s q] & <- & Hs).
    destruct (H d row s q Hd Hs) as (m & n & N). destruct (stop_names_text _ _ _ N) as [E1 E2]. destruct (stop_names_plain _ _ _ PN N) as [U1 U2]. unfold stop_text. cbn [fst snd]. rewrite E1, E2. plain.
Qed.
End Boarding.
(** The text is an empty line, a title, and a block for each route of the table of boardings: its name, the boardings
    at each stop of each direction and the alightings at each stop of each direction, to the nearest hundredth. *)
Theorem C68_boarding_text : forall X z v, plain_names X -> stops_known X z -> stops_known X v -> (forall r rows, In (r, rows) z -> free_of [newline] r) ->
  exists blocks, split_on newline (str_boarding_alighting X z v) = [""; "Boarding and Alighting information:"]%string ++ concat blocks /\
    Forall2 (route_block X v) blocks z.
Proof.
  intros X z v PN KZ KV FR. exists (map (block_lines X v) z).
  assert (RZ : forall r rows, In (r, rows) z -> table_lines X (rows_lines X rows) rows /\ Forall unbroken (rows_lines X rows)).
  { intros r rows Hr. apply rows_ok; auto. intros d row s q Hd Hs. apply (KZ r rows d row s q); auto. }
  assert (RV : forall r, table_lines X (rows_lines X (dget0 String.eqb [] v r)) (dget0 String.eqb [] v r) /\ Forall unbroken (rows_lines X (dget0 String.eqb [] v r))).
  { intro r. apply rows_ok; auto. intros d row s q Hd Hs. unfold dget0 in Hd. destruct (dget String.eqb v r) as [rows|] eqn:E; [|destruct Hd]. apply (KV r rows d row s q); auto. revert E. clear. induction v as [|[a b] v IH]; [discriminate|]. cbn [dget]. destruct (String.eqb r a) eqn:Ea; [apply String.eqb_eq in Ea; intro E; inversion E; subst; left; auto|right; auto]. }
  split.
  - rewrite text_lines. change (begun ("Boarding and Alighting information:"%string :: concat (map (block_lines X v) z))) with (EmptyString ++ begun ("Boarding and Alighting information:"%string :: concat (map (block_lines X v) z)))%string.
    rewrite split_begun; [reflexivity|reflexivity|]. constructor; [reflexivity|]. apply concat_unbroken. intros [r rows] Hr. unfold block_lines. cbn [fst snd]. repeat (apply Forall_app; split).
    + constructor; [apply unbroken_app; [reflexivity|apply unbroken_free; eauto]|constructor; [reflexivity|constructor]].
    + apply (RZ r rows Hr).
    + constructor; [reflexivity|constructor].
    + apply RV.
  - apply Forall2_map_in. intros [r rows] Hr. exists (rows_lines X rows), (rows_lines X (dget0 String.eqb [] v r)). split; [reflexivity|]. split; [apply (RZ r rows Hr)|apply RV].
Qed.
Print Assumptions C68_boarding_text.

Lemma keys_tadd t r d s q r' : In r' (map fst (tadd t r d s q)) <-> In r' (map fst t) \/ r' = r.
Proof.
  unfold tadd, tset. destruct (in_dec string_dec r (map fst t)) as [I|I].
  - rewrite (dset_keys_in String.eqb Seqb_spec) by auto. split; [auto|]. intros [H| ->]; auto.
  - rewrite (dset_keys_notin String.eqb Seqb_spec) by auto. rewrite map_app, in_app_iff. cbn. split; [intros [H|[H|[]]]; auto|intros [H| ->]; auto].
Qed.
Lemma keys_per_vehicle f t : map fst (per_vehicle f t) = map fst t.
Proof. unfold per_vehicle. rewrite map_map. apply map_ext. intros [r rows]. reflexivity. Qed.
Section Run.
  Context (G : geo) (g : graph) (rs : list route) (TP : Q) (fr : option (list (string * Q))) (X : xgraph) (P : qpass) (M : dict2) (fuel0 : nat) (es : list od_entry) (f : fdict).
  Hypothesis FI : flow_input G g rs TP fr X P M fuel0 es f.
  Lemma boarded_routes fuel asg T r : get_alighting_and_boarding fuel X f es asg = Ok T -> In r (map fst (t_z T)) -> exists rn, In rn (xg_rnodes X) /\ r_id (rn_route rn) = r.
  Proof.
    intros H. destruct (fi_inv _ _ _ _ _ _ _ _ _ _ _ FI fuel asg T H) as (ls & t & F & Et & ->). cbn [t_z]. rewrite keys_per_vehicle. pose proof (events_edge X f es asg ls F) as EV. rewrite Et.
    set (KS := fun t : tables => In r (map fst (t_z t)) -> exists rn, In rn (xg_rnodes X) /\ r_id (rn_route rn) = r).
    assert (GEN : forall l t0, (forall e, In e l -> exists x, In x (xg_edges X) /\ x_i x = ev_from e /\ x_j x = ev_to e) -> KS t0 -> KS (fold_left (record_ev X) l t0)).
    { clear - FI. induction l as [|e l IH]; intros t0 HE H0; cbn [fold_left]; auto. apply IH; [intros; apply HE; right; auto|]. destruct (HE e (or_introl eq_refl)) as (x & Hx & Ei & Ej).
      intro Hs. rewrite record_cases in Hs.
      assert (NODE : forall k, x_i x = ER k \/ x_j x = ER k -> exists rn, nth_error (xg_rnodes X) k = Some rn /\ rnode_at (xg_rnodes X) k = rn).
      { intros k Hk. destruct FI. eapply node_of_edge; eauto. }
      destruct (ev_from e) as [c|s0|k], (ev_to e) as [c'|s'|k']; cbn [t_z] in Hs; auto.
      rewrite keys_tadd in Hs. destruct Hs as [Hs|Hs]; auto. destruct (NODE k' (or_intror Ej)) as (rn & N1 & N2). exists rn. split; [eapply nth_error_In; eauto|]. unfold rid in Hs. rewrite N2 in Hs. auto. }
    apply GEN; auto. intros [].
  Qed.
  Lemma known_stop s k rn : nth_error (xg_rnodes X) k = Some rn -> rn_stop rn = Some s -> exists m n, stop_names X s m n.
  Proof.
    intros Hk Es. destruct (xnode_stop _ _ _ _ _ _ (fi_input _ _ _ _ _ _ _ _ _ _ _ FI) (fi_built _ _ _ _ _ _ _ _ _ _ _ FI) k rn Hk) as (s' & st & nd & E & Hst & Hnd & _). assert (s' = s) by congruence. subst s'.
    exists (m_name (sn_mode st)), (nd_name nd), st, nd. rewrite (ef_graph _ _ _ _ _ _ (facts_of _ _ _ _ _ _ (fi_input _ _ _ _ _ _ _ _ _ _ _ FI) (fi_built _ _ _ _ _ _ _ _ _ _ _ FI))). auto.
  Qed.
End Run.
Lemma dget0_at {K V} (eqb : K -> K -> bool) (SP : forall a b, eqb a b = true <-> a = b) (dflt : V) l k v : NoDup (map fst l) -> In (k, v) l -> dget0 eqb dflt l k = v.
Proof.
  unfold dget0. induction l as [|[a b] l IH]; intros N H; [destruct H|]. inversion N as [|x y N1 N2]; subst. cbn [dget]. destruct H as [H|H].
  - inversion H; subst. rewrite (proj2 (SP k k) eq_refl). reflexivity.
  - destruct (eqb k a) eqn:E; [|auto]. apply SP in E. subst a. exfalso. apply N1. apply in_map_iff. exists (k, v). auto.
Qed.
Lemma row_in t r rows d row s q : tab_wf t -> In (r, rows) t -> In (d, row) rows -> In (s, q) row -> In s (map fst (trow t r d)) /\ tget t r d s = q.
Proof.
  intros [W1 W2] H1 H2 H3. destruct (W2 _ _ H1) as [R1 R2]. unfold tget, trow. rewrite (dget0_at String.eqb Seqb_spec _ _ _ _ W1 H1), (dget0_at dir_eqb dir_spec _ _ _ _ R1 H2), (dget0_at Nat.eqb Neqb_spec _ _ _ _ (R2 _ _ H2) H3). split; auto. apply in_map_iff. exists (s, q). auto.
Qed.
(** For the tables of an assignment the names of stops and lines are those of the network, so nothing is assumed but
    that they have no line break; and a line from which somebody alights has its block. *)
Theorem C68_assignment_text : forall G g rs TP fr X P M fuel0 es f asg fuel T, flow_input G g rs TP fr X P M fuel0 es f -> plain_names X ->
  get_alighting_and_boarding fuel X f es asg = Ok T ->
  (exists blocks, split_on newline (str_boarding_alighting X (t_z T) (t_v T)) = [""; "Boarding and Alighting information:"]%string ++ concat blocks /\
    Forall2 (route_block X (t_v T)) blocks (t_z T)) /\
  ((forall r d s, 0 <= tget (t_v T) r d s) -> forall r d s, 0 < tget (t_v T) r d s -> In r (map fst (t_z T))).
Proof.
  intros G g rs TP fr X P M fuel0 es f asg fuel T FI PN H. destruct (gab_wf _ _ _ _ _ _ H) as (WZ & WV & _).
  pose proof (keys_served _ _ _ _ _ _ _ _ _ _ _ FI fuel asg T H) as KS. split.
  - apply C68_boarding_text; auto.
    + intros r rows d row s q H1 H2 H3. destruct (row_in _ _ _ _ _ _ _ WZ H1 H2 H3) as [Hk _]. destruct (KS r d s (or_introl Hk)) as (k & rn & Hk1 & Hs & _). eapply known_stop; eauto.
    + intros r rows d row s q H1 H2 H3. destruct (row_in _ _ _ _ _ _ _ WV H1 H2 H3) as [Hk _]. destruct (KS r d s (or_intror (or_introl Hk))) as (k & rn & Hk1 & Hs & _). eapply known_stop; eauto.
    + intros r rows Hr. destruct (boarded_routes _ _ _ _ _ _ _ _ _ _ _ FI fuel asg T r H) as (rn & Hn & <-); [apply in_map_iff; exists (r, rows); auto|]. apply (proj2 (proj2 PN)). auto.
  - intros NN r d s HP. destruct (in_dec string_dec r (map fst (t_z T))) as [I|I]; [auto|exfalso]. pose proof (C41_route_balance _ _ _ _ _ _ _ _ _ _ _ _ _ _ FI H r d) as BL.
    assert (EZ : trow (t_z T) r d = []). { unfold trow, dget0 at 2. rewrite (proj2 (dget_None String.eqb Seqb_spec (t_z T) r)); auto. } rewrite EZ in BL. cbn [Qsumf fold_right] in BL.
    assert (Hin : exists q, In (s, q) (trow (t_v T) r d) /\ tget (t_v T) r d s = q).
    { unfold tget in *. unfold dget0 in *. destruct (dget Nat.eqb (trow (t_v T) r d) s) as [q|] eqn:E; [|lra]. exists q. split; auto. apply (dget_In Nat.eqb Neqb_spec) in E. auto. }
    destruct Hin as (q & Hin & Eq). assert (PQ : forall x, In x (trow (t_v T) r d) -> 0 <= snd x).
    { intros [s' q'] Hx. pose proof (NN r d s') as N. unfold tget in N. assert (ND : NoDup (map fst (trow (t_v T) r d))) by (unfold trow, dget0 at 1; destruct (rows_of (t_v T) r WV) as [A1 A2]; destruct (dget dir_eqb (dget0 String.eqb [] (t_v T) r) d) as [row|] eqn:E; [apply (dget_In dir_eqb dir_spec) in E; eauto|constructor]).
      rewrite (dget0_at Nat.eqb Neqb_spec _ _ _ _ ND Hx) in N. exact N. }
    assert (LE : q <= Qsumf snd (trow (t_v T) r d)). { clear - Hin PQ. induction (trow (t_v T) r d) as [|x l IH]; [destruct Hin|]. rewrite Qsumf_cons. assert (0 <= Qsumf snd l) by (apply Qsumf_nonneg; intros; apply PQ; right; auto). pose proof (PQ x (or_introl eq_refl)). destruct Hin as [-> |Hin]; [cbn [snd]; lra|]. specialize (IH Hin (fun y Hy => PQ y (or_intror Hy))). lra. }
    rewrite <- BL in LE. rewrite Eq in HP. cbn in LE. unfold Qsumf in LE. cbn in LE. lra.
Qed.
Print Assumptions C68_assignment_text.

(** ** C70: the summary of the hyperpaths *)
Definition hyper_text (X : xgraph) (x : od_entry * (nat * list (list enode))) : list string :=
  let '(e, (s, ps)) := x in
  ["origin: " ++ opt_city_name X (od_o e) ++ ", destination: " ++ opt_city_name X (od_d e) ++ ", vij: " ++ fmt2 (od_v e);
   tabbed (" mode: " ++ stop_mode_name X s ++ ", label: " ++ fmt2o (hr_lab (od_res e) (ES s)) ++ " [EIV], n° elemental paths: " ++ str_of_Z (Z.of_nat (length ps))
           ++ ", n° elemental paths (successors): " ++ str_of_Z (Z.of_nat (length (hr_suc (od_res e) (ES s)))))]%string.
Definition od_stops (es : list od_entry) : list (od_entry * (nat * list (list enode))) := flat_map (fun e => map (fun sp => (e, sp)) (od_paths e)) es.
Lemma concat_map_flat {A} {B} {C} (h : B -> list C) (k : A -> list B) l : concat (map h (flat_map k l)) = concat (map (fun x => concat (map h (k x))) l).
Proof. induction l as [|x l IH]; [reflexivity|]. cbn [flat_map map concat]. rewrite map_app, concat_app, IH. reflexivity. Qed.
Lemma all_hyperpaths_lines X es : string_all_hyperpaths X es = (nl ++ ended (concat (map (hyper_text X) (od_stops es))))%string.
Proof.
  unfold string_all_hyperpaths, od_stops. rewrite concat_map_flat. apply fold_ended. intros line e. rewrite map_map. apply (fold_ended _ (fun sp => hyper_text X (e, sp))). intros l [s ps].
  unfold hyper_text. cbn [ended fold_right]. unfold tabbed, tb, nl, tab_char. flat. reflexivity.
Qed.
Lemma city_known G g rs TP fr X c : ext_input g rs -> build_ext G g rs TP fr = Ok X -> In (EC c) (xnodes X) -> exists nd, nth_error (g_nodes (xg_graph X)) c = Some nd.
Proof.
  intros I B H. apply (proj2 (C30_nodes_exact _ _ _ _ _ _ I B)) in H. destruct H as (k & rn & s & st & Hk & Es & Hst & Ec). destruct (xnode_stop _ _ _ _ _ _ I B k rn Hk) as (s' & st' & nd & E1 & E2 & E3 & _).
  assert (s' = s) by congruence. subst s'. assert (st' = st) by congruence. subst st'. rewrite (ef_graph _ _ _ _ _ _ (facts_of _ _ _ _ _ _ I B)). exists nd. congruence.
Qed.
(** Between two empty lines, two lines for each pair with trips, in the order of the matrix, and each stop of its
    origin from which there is a path: the names of the places, the trips, the mode of the stop, its label, the number
    of its elementary paths and the number of its successors. *)
Theorem C70_hyperpaths_text : forall G g rs TP fr X P M fuel es, ext_input g rs -> build_ext G g rs TP fr = Ok X -> hyper_graph X -> weights X P ->
  (length (xnodes X) < fuel)%nat -> get_all_hyperpaths fuel X P M = Ok es -> plain_names X ->
  exists blocks, split_on newline (string_all_hyperpaths X es) = [EmptyString] ++ concat blocks ++ [EmptyString] /\
    Forall2 (hyper_lines X) blocks (flat_map (fun e => map (fun sp => (e, sp)) (od_paths e)) es).
Proof.
  intros G g rs TP fr X P M fuel es I B HG HW HF HE PN. exists (map (hyper_text X) (od_stops es)).
  assert (FACTS : forall e s ps, In (e, (s, ps)) (od_stops es) -> exists o d no nd m lab, od_o e = Some (EC o) /\ od_d e = Some (EC d) /\ nth_error (g_nodes (xg_graph X)) o = Some no /\
     nth_error (g_nodes (xg_graph X)) d = Some nd /\ hr_lab (od_res e) (ES s) = Some lab /\ stop_names X s m (nd_name no)).
  { intros e s ps H. unfold od_stops in H. apply in_flat_map in H. destruct H as (e' & He & H). apply in_map_iff in H. destruct H as (sp & E & Hs). inversion E; subst e' sp. clear E.
    destruct (entries_ok fuel X P M es HG HW HF HE e He) as (c & cd & O). destruct O as [O1 O2 O3 (oz & dz & _ & F1 & F2) O5 O6 O7 O8 O9].
    assert (K : In s (map fst (od_paths e))) by (apply in_map_iff; exists (s, ps); auto). apply O5 in K. destruct K as (K1 & (st & K2 & K3) & K4). destruct (hr_lab (od_res e) (ES s)) as [lab|] eqn:EL; [|congruence].
    destruct (xnode_ES _ _ _ _ _ _ I B s K1) as (st' & no & r & A1 & A2 & _). assert (st' = st) by congruence. subst st'. rewrite <- (ef_graph _ _ _ _ _ _ (facts_of _ _ _ _ _ _ I B)) in A2.
    assert (HD : In (EC cd) (xnodes X)). { pose proof (find_city_spec X dz) as SC. rewrite F2, O2 in SC. cbn in SC. tauto. }
    destruct (city_known _ _ _ _ _ _ cd I B HD) as (nd & A3). exists c, cd, no, nd, (m_name (sn_mode st)), lab. rewrite K3 in A2. repeat (split; [assumption|]). split; [reflexivity|]. exists st, no. rewrite K3. auto. }
  split.
  - rewrite all_hyperpaths_lines. change (nl ++ ended (concat (map (hyper_text X) (od_stops es))))%string with (EmptyString ++ String newline (ended (concat (map (hyper_text X) (od_stops es)))))%string.
    rewrite split_on_cons by reflexivity. cbn [app]. f_equal. apply split_ended. apply concat_unbroken. intros [e [s ps]] H. destruct (FACTS e s ps H) as (o & d & no & nd & m & lab & E1 & E2 & E3 & E4 & E5 & E6).
    destruct (stop_names_text _ _ _ _ E6) as [T1 _]. destruct (stop_names_plain _ _ _ _ PN E6) as [U1 U2]. unfold hyper_text. rewrite E1, E2, E5, T1. cbn [opt_city_name fmt2o]. unfold city_name, gnode. rewrite (nth_error_nth _ _ _ E3), (nth_error_nth _ _ _ E4).
    assert (U3 : unbroken (nd_name nd)) by (apply unbroken_free; apply (proj1 PN); eapply nth_error_In; eauto). constructor; [plain|]. constructor; [apply unbroken_tab; plain|constructor].
  - apply Forall2_map_in. intros [e [s ps]] H. destruct (FACTS e s ps H) as (o & d & no & nd & m & lab & E1 & E2 & E3 & E4 & E5 & E6). destruct (stop_names_text _ _ _ _ E6) as [T1 _].
    exists o, d, no, nd, (fmt2 (od_v e)), m, lab, (fmt2 lab). cbn [fst snd]. repeat (split; [assumption|]). split; [apply fmt2_shows|]. split; [apply fmt2_shows|].
    unfold hyper_text. rewrite E1, E2, E5, T1. cbn [opt_city_name fmt2o]. unfold city_name, gnode. rewrite (nth_error_nth _ _ _ E3), (nth_error_nth _ _ _ E4). reflexivity.
Qed.
Print Assumptions C70_hyperpaths_text.

(** ** C69: the extended graph *)
Lemma filter_one {A} {B} (k : A -> B) (p : A -> bool) (l : list A) : NoDup (map k l) -> (forall a b, In a l -> In b l -> p a = true -> p b = true -> k a = k b) ->
  filter p l = [] \/ exists a, filter p l = [a] /\ In a l /\ p a = true.
Proof.
  induction l as [|a l IH]; intros N H; [left; auto|]. inversion N as [|x y N1 N2]; subst. cbn [filter]. destruct (p a) eqn:Pa.
  - right. exists a. split; [|split; [left; auto|auto]]. f_equal. destruct (filter p l) as [|b l'] eqn:F; [auto|exfalso]. assert (Hb : In b (filter p l)) by (rewrite F; left; auto). apply filter_In in Hb. destruct Hb as [Hb Pb].
    apply N1. rewrite (H a b); auto; [|left; auto|right; auto]. apply in_map. auto.
  - destruct (IH N2 (fun x y Hx Hy => H x y (or_intror Hx) (or_intror Hy))) as [E|(b & E & Hb & Pb)]; [left; auto|]. right. exists b. split; [auto|]. split; [right; auto|auto].
Qed.
Section Ext.
  Context (F : numfmt) (G : geo) (g : graph) (rs : list route) (TP : Q) (fr : option (list (string * Q))) (X : xgraph).
  Hypothesis I : ext_input g rs.
  Hypothesis B : build_ext G g rs TP fr = Ok X.
  Lemma between_cases i j : (edges_between X i j = [] /\ forall ty, ~ joins X ty i j) \/
    exists e, edges_between X i j = [e] /\ In e (xg_edges X) /\ x_i e = i /\ x_j e = j /\ joins X (x_type e) i j.
  Proof.
    destruct (C31_edges_exact _ _ _ _ _ _ I B) as (J & _ & N). unfold edges_between.
    destruct (filter_one (fun e => (x_i e, x_j e)) (fun e => enode_eqb (x_i e) i && enode_eqb (x_j e) j)%bool (xg_edges X) N) as [E|(e & E & He & Pe)].
    - intros a b _ _ Pa Pb. apply andb_true_iff in Pa, Pb. destruct Pa as [A1 A2], Pb as [B1 B2]. apply enode_eqb_eq in A1, A2, B1, B2. congruence.
    - left. split; auto. intros ty HJ. apply J in HJ. destruct HJ as (e & He & _ & E1 & E2). assert (Hf : In e (filter (fun e => enode_eqb (x_i e) i && enode_eqb (x_j e) j)%bool (xg_edges X))).
      { apply filter_In. split; auto. rewrite E1, E2. apply andb_true_iff. split; apply enode_eqb_eq; auto. } rewrite E in Hf. destruct Hf.
    - right. apply andb_true_iff in Pe. destruct Pe as [P1 P2]. apply enode_eqb_eq in P1, P2. exists e. repeat (split; [assumption|]). rewrite <- P1, <- P2. apply J. eauto.
  Qed.
  Definition board_lines (s k : nat) : list string := flat_map (fun e => [indented 3 "Boarding edge"; indented 3 ("-Frequency: " ++ fmt2o (x_f e) ++ " [veh/h]")]) (edges_between X (ES s) (ER k)).
  Definition alight_lines (s k : nat) : list string := flat_map (fun e => [indented 3 "Alighting edge"; indented 3 ("-Penalty transfer: " ++ fmt2 (x_t e * 60) ++ " [min]")]) (edges_between X (ER k) (ES s)).
  Definition access_lines (c s : nat) : list string := flat_map (fun e => [indented 1 "Access edge"; indented 1 ("-Access time: " ++ fmt2 (x_t e) ++ " [min]")]) (edges_between X (EC c) (ES s)).
  Definition prev_text (k : nat) : string * string := match rn_prev (rnode_at (xg_rnodes X) k) with
     | None => ("no data"%string, fmt2 0)
     | Some p => (rnode_city_name X p, nf_show F (match edges_between X (ER p) (ER k) with [] => 0 | e :: _ => x_t e end))
     end.
  Definition node_lines (k : nat) : list string := let rn := rnode_at (xg_rnodes X) k in
    [indented 4 "Route node"; indented 4 ("-Route_id: " ++ r_id (rn_route rn)); indented 4 ("-Direction: " ++ direction_name (rn_dir rn));
     indented 4 ("-Previous stop: " ++ fst (prev_text k)); indented 4 ("-Time to previous stop: " ++ snd (prev_text k) ++ " [hrs]")]%string.
  Definition rblock (s k : nat) : list string := board_lines s k ++ alight_lines s k ++ node_lines k.
  Definition sblock (c : nat) (sk : nat * list nat) : list string :=
    access_lines c (fst sk) ++ [indented 2 "Stop node"; indented 2 ("-Mode name: " ++ stop_mode_name X (fst sk))] ++ concat (map (rblock (fst sk)) (snd sk)).
  Definition cblock (cs : nat * list (nat * list nat)) : list string := ["City node"; "-Graph node name: " ++ city_name X (fst cs)]%string ++ concat (map (sblock (fst cs)) (snd cs)).
  Lemma flat_map_fold {A} (f : string -> A -> string) (h : A -> list string) : (forall line x, f line x = (line ++ ended (h x))%string) ->
    forall l line, fold_left f l line = (line ++ ended (flat_map h l))%string.
  Proof. intros E l line. rewrite flat_map_concat_map. apply fold_ended. auto. Qed.
  Lemma rblock_text s k line : text_route_node F X k (text_alighting X s k (text_boarding X s k line)) = (line ++ ended (rblock s k))%string.
  Proof.
    unfold rblock. rewrite !ended_app.
    assert (E1 : forall line, text_boarding X s k line = (line ++ ended (board_lines s k))%string).
    { intro l. unfold text_boarding, board_lines. apply flat_map_fold. intros l' e. cbn [ended fold_right indented]. unfold tabbed, tb, nl, tab_char. flat. reflexivity. }
    assert (E2 : forall line, text_alighting X s k line = (line ++ ended (alight_lines s k))%string).
    { intro l. unfold text_alighting, alight_lines. apply flat_map_fold. intros l' e. cbn [ended fold_right indented]. unfold tabbed, tb, nl, tab_char. flat. reflexivity. }
    assert (E3 : forall line, text_route_node F X k line = (line ++ ended (node_lines k))%string).
    { intro l. unfold text_route_node, node_lines, prev_text. cbv zeta. destruct (rn_prev (rnode_at (xg_rnodes X) k)); cbn [fst snd]; destruct (rn_dir (rnode_at (xg_rnodes X) k)); cbn [dir_text direction_name ended fold_right indented]; unfold tabbed, tb, nl, tab_char; flat; reflexivity. }
    rewrite E3, E2, E1, !append_assoc. reflexivity.
  Qed.
  Lemma ext_text_lines : text_extended_graph F X = ended (concat (map cblock (xg_nodes X))).
  Proof.
    unfold text_extended_graph. rewrite (fold_ended _ cblock); [reflexivity|]. intros line [c stops]. unfold cblock. rewrite ended_app. cbn [fst snd].
    rewrite (fold_ended _ (sblock c)).
    - cbn [ended fold_right]. unfold nl. flat. reflexivity.
    - clear line. intros line [s ks]. rewrite (fold_ended _ (rblock s)) by (intros; apply rblock_text). unfold sblock. rewrite !ended_app. cbn [fst snd].
      assert (E : text_access X c s line = (line ++ ended (access_lines c s))%string). { unfold text_access, access_lines. apply flat_map_fold. intros l' e. cbn [ended fold_right indented]. unfold tabbed, tb, nl, tab_char. flat. reflexivity. }
      rewrite E. cbn [ended fold_right indented]. unfold tabbed, tb, nl, tab_char. flat. reflexivity.
  Qed.
End Ext.
Section Ext2.
  Context (F : numfmt) (G : geo) (g : graph) (rs : list route) (TP : Q) (fr : option (list (string * Q))) (X : xgraph).
  Hypothesis I : ext_input g rs.
  Hypothesis B : build_ext G g rs TP fr = Ok X.
  Hypothesis PN : plain_names X.
  Hypothesis T : tidy F.
  Lemma rnode_names k rn : nth_error (xg_rnodes X) k = Some rn -> exists s m, rn_stop rn = Some s /\ stop_names X s m (rnode_city_name X k).
  Proof.
    intro Hk. destruct (xnode_stop _ _ _ _ _ _ I B k rn Hk) as (s & st & nd & Es & Hst & Hnd & _). rewrite <- (ef_graph _ _ _ _ _ _ (facts_of _ _ _ _ _ _ I B)) in Hnd. exists s, (m_name (sn_mode st)). split; auto. exists st, nd.
    repeat (split; [assumption|]). split; [reflexivity|]. unfold rnode_city_name, rn_gnode, rn_stop_at, rnode_at. rewrite (nth_error_nth _ _ _ Hk), Es. unfold stop_at, gnode. rewrite (nth_error_nth _ _ _ Hst), (nth_error_nth _ _ _ Hnd). reflexivity.
  Qed.
  Lemma prev_known k rn p : nth_error (xg_rnodes X) k = Some rn -> rn_prev rn = Some p -> exists rp t, nth_error (xg_rnodes X) p = Some rp /\ ride_time X p k t /\ match edges_between X (ER p) (ER k) with [] => 0 | e :: _ => x_t e end = t.
  Proof.
    intros Hk Hp. pose proof (j_route X k rn p Hk Hp) as HJ. destruct (between_cases G g rs TP fr X I B (ER p) (ER k)) as [(_ & NJ)|(e & -> & He & Ei & Ej & Je)]; [exfalso; apply (NJ ROUTE); auto|].
    assert (TY : x_type e = ROUTE) by (inversion Je; auto).
    destruct (C31_route_edges_consecutive _ _ _ _ _ _ I B e He TY) as (p' & k' & rp & rk & a & b & m & j & j' & E1 & E2 & E3 & _). assert (p' = p) by congruence. subst p'.
    exists rp, (x_t e). split; auto. split; auto. exists e. auto.
  Qed.
  Lemma rblock_ok s k rn : nth_error (xg_rnodes X) k = Some rn -> rn_stop rn = Some s -> route_node_block F rs TP fr X (rblock F X s k) k /\ Forall unbroken (rblock F X s k).
  Proof.
    intros Hk Es. assert (ER' : rnode_at (xg_rnodes X) k = rn) by (unfold rnode_at; apply nth_error_nth; auto).
    assert (BO : edge_lines (can_board X rn) "Boarding edge" "-Frequency: " " [veh/h]" (board_lines X s k) (route_frequency rs fr (r_id (rn_route rn)) / m_d (r_mode (rn_route rn))) /\ Forall unbroken (board_lines X s k)).
    { unfold board_lines. destruct (between_cases G g rs TP fr X I B (ES s) (ER k)) as [(-> & NJ)|(e & -> & He & Ei & Ej & Je)].
      - split; [|constructor]. right. split; [|reflexivity]. intro C. apply (NJ BOARDING). eapply j_board; eauto.
      - assert (TY : x_type e = BOARDING) by (inversion Je; auto). assert (CB : can_board X rn) by (rewrite TY in Je; inversion Je; congruence).
        pose proof (C31_edge_values _ _ _ _ _ _ I B e He) as V. rewrite TY in V. destruct V as (_ & k' & rn' & q & A1 & A2 & A3 & A4). assert (k' = k) by congruence. subst k'. assert (rn' = rn) by congruence. subst rn'. cbn [flat_map app]. rewrite A3. cbn [fmt2o].
        split; [|repeat constructor; plain]. left. split; auto. eexists. split; [reflexivity|]. exists (fmt2 q). split; [rewrite indented_app; reflexivity|]. apply (shows_eq _ q); auto. apply fmt2_shows. }
    assert (AL : edge_lines (can_alight X rn) "Alighting edge" "-Penalty transfer: " " [min]" (alight_lines X s k) TP /\ Forall unbroken (alight_lines X s k)).
    { unfold alight_lines. destruct (between_cases G g rs TP fr X I B (ER k) (ES s)) as [(-> & NJ)|(e & -> & He & Ei & Ej & Je)].
      - split; [|constructor]. right. split; [|reflexivity]. intro C. apply (NJ ALIGHTING). eapply j_alight; eauto.
      - assert (TY : x_type e = ALIGHTING) by (inversion Je; auto). assert (CB : can_alight X rn) by (rewrite TY in Je; inversion Je; congruence).
        pose proof (C31_edge_values _ _ _ _ _ _ I B e He) as V. rewrite TY in V. destruct V as (V & _). cbn [flat_map app].
        split; [|repeat constructor; plain]. left. split; auto. eexists. split; [reflexivity|]. exists (fmt2 (x_t e * 60)). split; [rewrite indented_app; reflexivity|]. apply (shows_eq _ (x_t e * 60)); [|apply fmt2_shows]. rewrite V. field. }
    destruct BO as [BO1 BO2], AL as [AL1 AL2]. unfold rblock.
    assert (PV : match rn_prev rn with
      | None => fst (prev_text F X k) = "no data"%string /\ shows (snd (prev_text F X k)) 0
      | Some p => exists rp s m t, nth_error (xg_rnodes X) p = Some rp /\ rn_stop rp = Some s /\ stop_names X s m (fst (prev_text F X k)) /\ ride_time X p k t /\ snd (prev_text F X k) = nf_show F t
      end /\ unbroken (fst (prev_text F X k)) /\ unbroken (snd (prev_text F X k))).
    { unfold prev_text. rewrite ER'. destruct (rn_prev rn) as [p|] eqn:EP; cbn [fst snd].
      - destruct (prev_known k rn p Hk EP) as (rp & t & Hp & RT & ->). destruct (rnode_names p rp Hp) as (s' & m & Es' & NM). split; [exists rp, s', m, t; auto|]. split; [apply (stop_names_plain X s' m); auto|]. apply (tidy_sall F t newline T). right. reflexivity.
      - split; [split; [reflexivity|apply fmt2_shows]|]. split; [reflexivity|apply unbroken_fmt2]. }
    destruct PV as (PV & U1 & U2). split.
    - exists rn, (board_lines X s k), (alight_lines X s k), (fst (prev_text F X k)), (snd (prev_text F X k)). split; auto. split; [unfold node_lines; cbv zeta; rewrite ER'; reflexivity|]. split; [exact BO1|]. split; [exact AL1|exact PV].
    - apply Forall_app. split; [exact BO2|]. apply Forall_app. split; [exact AL2|]. unfold node_lines. cbv zeta. rewrite ER'.
      assert (UR : unbroken (r_id (rn_route rn))) by (apply unbroken_free; apply (proj2 (proj2 PN)); eapply nth_error_In; eauto). assert (UD : unbroken (direction_name (rn_dir rn))) by (destruct (rn_dir rn); reflexivity).
      constructor; [plain|]. constructor; [plain|]. constructor; [plain|]. constructor; [plain|]. constructor; [plain|constructor].
  Qed.
  Lemma sblock_ok c s ks st : nth_error (xg_stops X) s = Some st -> sn_city st = c -> (forall k, In k ks -> exists rn, nth_error (xg_rnodes X) k = Some rn /\ rn_stop rn = Some s) -> ks <> [] ->
    stop_block F rs TP fr X c (sblock F X c (s, ks)) (s, ks) /\ Forall unbroken (sblock F X c (s, ks)).
  Proof.
    intros Hst Ec HK NE. unfold sblock. cbn [fst snd].
    assert (XS : is_xnode X (ES s)) by (destruct ks as [|k ks]; [congruence|]; destruct (HK k (or_introl eq_refl)) as (rn & H1 & H2); exists k, rn; auto).
    assert (MN : stop_mode_name X s = m_name (sn_mode st)) by (unfold stop_mode_name, stop_at; rewrite (nth_error_nth _ _ _ Hst); reflexivity).
    destruct (between_cases G g rs TP fr X I B (EC c) (ES s)) as [(_ & NJ)|(e & EE & He & Ei & Ej & Je)]; [exfalso; apply (NJ ACCESS); eapply j_access_in; eauto|].
    assert (TY : x_type e = ACCESS) by (inversion Je; auto). pose proof (C31_edge_values _ _ _ _ _ _ I B e He) as V. rewrite TY in V. destruct V as (_ & s' & st' & W & Hst' & V).
    assert (s' = s) by (destruct W as [W|W]; congruence). subst s'. assert (st' = st) by congruence. subst st'. unfold access_lines. rewrite EE. cbn [flat_map app]. rewrite MN. split.
    - exists st, (indented 1 ("-Access time: " ++ fmt2 (x_t e) ++ " [min]")), (map (rblock F X s) ks). cbn [fst snd]. repeat (split; [assumption|]). split; [reflexivity|]. split; [exists (fmt2 (x_t e)); split; [rewrite indented_app; reflexivity|]; apply (shows_eq _ (x_t e)); auto; apply fmt2_shows|].
      split; [|exact HK]. apply Forall2_map_in. intros k Hk. destruct (HK k Hk) as (rn & H1 & H2). apply (rblock_ok s k rn); auto.
    - constructor; [plain|]. constructor; [plain|]. constructor; [plain|]. constructor; [apply unbroken_indented, unbroken_app; [reflexivity|]; apply unbroken_free; apply (proj1 (proj2 PN)); eapply nth_error_In; eauto|].
      apply concat_unbroken. intros k Hk. destruct (HK k Hk) as (rn & H1 & H2). apply (rblock_ok s k rn); auto.
  Qed.
End Ext2.
(** The text has a block of lines for each city node that is served, in it a block for each of its stops, in it a block
    for each vehicle that calls there: where it can be boarded, with the frequency of a line; where it can be left, with
    the penalty in minutes; the route, its direction, the previous stop and the time from it in hours. *)
Theorem C69_extended_graph_text : forall F G g rs TP fr X, ext_input g rs -> build_ext G g rs TP fr = Ok X -> plain_names X -> tidy F ->
  exists blocks, split_on newline (text_extended_graph F X) = concat blocks ++ [EmptyString] /\ Forall2 (city_block F rs TP fr X) blocks (xg_nodes X).
Proof.
  intros F G g rs TP fr X I B PN T. exists (map (cblock F X) (xg_nodes X)).
  assert (ALL : forall cs, In cs (xg_nodes X) -> city_block F rs TP fr X (cblock F X cs) cs /\ Forall unbroken (cblock F X cs)).
  { intros [c ss] Hc. destruct (ef_tree _ _ _ _ _ _ (facts_of _ _ _ _ _ _ I B)) as [K NE LI HA].
    assert (SB : forall sk, In sk ss -> stop_block F rs TP fr X c (sblock F X c sk) sk /\ Forall unbroken (sblock F X c sk)).
    { intros [s ks] Hs. destruct (LI c ss s ks Hc Hs) as (N0 & _ & Ec & HK). assert (HK' : forall k, In k ks -> exists rn, nth_error (xg_rnodes X) k = Some rn /\ rn_stop rn = Some s).
      { intros k Hk. apply HK in Hk. destruct Hk as (rn & H1 & H2). apply combine_seq_In in H1. rewrite Nat.sub_0_r in H1. exists rn. tauto. }
      destruct ks as [|k ks]; [congruence|]. destruct (HK' k (or_introl eq_refl)) as (rn & H1 & H2). destruct (xnode_stop _ _ _ _ _ _ I B k rn H1) as (s' & st & nd & E1 & E2 & _). assert (s' = s) by congruence. subst s'.
      apply (sblock_ok F G g rs TP fr X I B PN T c s (k :: ks) st); auto. unfold scity in Ec. rewrite (nth_error_nth _ _ _ E2) in Ec. exact Ec. }
    assert (CN : exists nd, nth_error (g_nodes (xg_graph X)) c = Some nd).
    { apply (city_known G g rs TP fr X c I B). unfold xnodes, xnodes_of. apply in_flat_map. exists (c, ss). split; auto. left. auto. }
    destruct CN as (nd & Hn). assert (EN : city_name X c = nd_name nd) by (unfold city_name, gnode; rewrite (nth_error_nth _ _ _ Hn); auto). unfold cblock. cbn [fst snd]. rewrite EN. split.
    - exists nd, (map (sblock F X c) ss). cbn [fst snd]. split; auto. split; [reflexivity|]. apply Forall2_map_in. intros sk Hs. apply SB. auto.
    - constructor; [reflexivity|]. constructor; [apply unbroken_app; [reflexivity|]; apply unbroken_free; apply (proj1 PN); eapply nth_error_In; eauto|]. apply concat_unbroken. intros sk Hs. apply SB. auto. }
  split; [|apply Forall2_map_in; intros cs Hcs; apply ALL; auto]. rewrite ext_text_lines. apply split_ended. apply concat_unbroken. intros cs Hcs. apply ALL. auto.
Qed.
Print Assumptions C69_extended_graph_text.

(** ** Concrete cases *)
Lemma free_unbroken s : unbroken s -> free_of [newline] s.
Proof.
  unfold unbroken, free_of. induction s as [|b s IH]; intros H a Ha; [destruct Ha|]. cbn [sall] in H. apply andb_true_iff in H. destruct H as [H1 H2]. destruct Ha as [<-|Ha]; [|apply IH; auto].
  intros [E|[]]. subst b. discriminate H1.
Qed.
Lemma plain_check X : forallb (fun nd => sall (not_char newline) (nd_name nd)) (g_nodes (xg_graph X)) && forallb (fun st => sall (not_char newline) (m_name (sn_mode st))) (xg_stops X) &&
  forallb (fun rn => sall (not_char newline) (r_id (rn_route rn))) (xg_rnodes X) = true -> plain_names X.
Proof. intro H. apply andb_true_iff in H. destruct H as [H H3]. apply andb_true_iff in H. destruct H as [H1 H2]. rewrite forallb_forall in H1, H2, H3. repeat split; intros x Hx; apply free_unbroken; unfold unbroken; auto. Qed.
Lemma ex_X3_plain : plain_names ex_X3.
Proof. apply plain_check. vm_compute. reflexivity. Qed.
Lemma ex_flow : flow_input ex_geo ex_g34 [ex_tang; ex_tang_metro] 16 ex_freq ex_X3 ex_P ex_M41 40 ex_es41 ex_f41.
Proof. exact (proj1 C41_ex). Qed.
Example C68_ex : flow_input ex_geo ex_g34 [ex_tang; ex_tang_metro] 16 ex_freq ex_X3 ex_P ex_M41 40 ex_es41 ex_f41 /\ plain_names ex_X3 /\
  exists asg T, get_assignment ex_X3 12 4 (822 # 100) (274 # 100) ex_es41 = Ok asg /\ get_alighting_and_boarding 60 ex_X3 ex_f41 ex_es41 asg = Ok T /\
    length (t_z T) = 2%nat /\ length (split_on newline (str_boarding_alighting ex_X3 (t_z T) (t_v T))) = 17%nat.
Proof. split; [exact ex_flow|]. split; [exact ex_X3_plain|]. do 2 eexists. split; [vm_compute; reflexivity|]. split; [vm_compute; reflexivity|]. split; [vm_compute; reflexivity|]. vm_compute. reflexivity. Qed.
Example C69_ex : ext_input ex_g34 [ex_tang; ex_tang_metro] /\ build_ext ex_geo ex_g34 [ex_tang; ex_tang_metro] 16 ex_freq = Ok ex_X3 /\ plain_names ex_X3 /\ tidy ex_fmt /\
  length (split_on newline (text_extended_graph ex_fmt ex_X3)) = 129%nat.
Proof. split; [exact ex_X3_input|]. split; [exact ex_X3_built|]. split; [exact ex_X3_plain|]. split; [exact ex_fmt_tidy|]. vm_compute. reflexivity. Qed.
Example C70_ex : get_all_hyperpaths 40 ex_X3 ex_P ex_M41 = Ok ex_es41 /\ hyper_graph ex_X3 /\ weights ex_X3 ex_P /\ (length (xnodes ex_X3) < 40)%nat /\
  length (split_on newline (string_all_hyperpaths ex_X3 ex_es41)) = 8%nat.
Proof. split; [exact (fi_hyper _ _ _ _ _ _ _ _ _ _ _ ex_flow)|]. destruct ex_X3_hyper as (A & B & C). split; [exact A|]. split; [exact B|]. split; [exact C|]. vm_compute. reflexivity. Qed.
(** The access time is shown in hours, but the text says that it is in minutes. *)
Theorem C69_access_time_in_minutes_refuted : exists F G g rs TP fr X m, ext_input g rs /\ build_ext G g rs TP fr = Ok X /\ tidy F /\ (forall r, In r rs -> m_tat (r_mode r) == m) /\
  exists s, In (indented 1 ("-Access time: " ++ s ++ " [min]")) (split_on newline (text_extended_graph F X)) /\ ~ shows s m.
Proof.
  exists ex_fmt, ex_geo, ex_g34, [ex_tang_metro], 16, None. eexists. exists 1. split; [|split; [vm_compute; reflexivity|split; [exact ex_fmt_tidy|split]]].
  - destruct ex_X3_input as [A1 A2 A3 A4 A5 A6]. assert (IN : forall r, In r [ex_tang_metro] -> In r [ex_tang; ex_tang_metro]) by (intros r [<-|[]]; right; left; auto). split; eauto.
  - intros r [<-|[]]. reflexivity.
  - exists "0.02"%string. split; [vm_compute; tauto|]. intros (q & E & L). vm_compute in E. inversion E; subst q. vm_compute in L. apply L. reflexivity.
Qed.
Print Assumptions C69_access_time_in_minutes_refuted.
