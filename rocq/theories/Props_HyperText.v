(** * Props_HyperText: the texts of one hyperpath search *)
From Coq Require Import String Ascii List ZArith QArith Qabs Bool Lia Lqa.
From Verif Require Import PyBase PyFacts PyStr PyStrFacts Graph GeoEx Props_Graph Mode Route Network RouteSpec Props_Network Pajek Props_Pajek ExtGraph ExtSpec ExtProofs Props_Ext
  Hyperpath HyperSpec HyperProofs HyperOpt Props_Hyper OdFacts Assignment FlowSpec FlowProofs TableProofs CostSpec Props_Assign Props_Flow Report ReportSpec Props_Report Props_Loads Texts TextSpec Props_Text
  HyperText HyperTextSpec.
Import ListNotations.
Local Open Scope Q_scope.

(** ** Four decimals *)
Lemma tenthousandths_nonneg q : (0 <= tenthousandths q)%Z.
Proof.
  unfold tenthousandths. set (t := 10000 * Qabs q). assert (T : 0 <= t) by (unfold t; pose proof (Qabs_nonneg q); lra). assert (N : (0 <= Qnum t)%Z) by (destruct t; unfold Qle in T; cbn in *; lia).
  assert (K : (0 <= Qnum t / Zpos (Qden t))%Z) by (apply Z.div_pos; lia). repeat (match goal with |- context [if ?b then _ else _] => destruct b end); lia.
Qed.
Lemma tenthousandths_near q : Qabs (inject_Z (tenthousandths q) / 10000 - Qabs q) <= 1 # 20000.
Proof.
  unfold tenthousandths. set (t := 10000 * Qabs q). assert (ET : Qabs q == t / 10000) by (unfold t; field). rewrite ET. clearbody t. clear ET.
  set (d := Zpos (Qden t)). assert (Ed : t == inject_Z (Qnum t) / inject_Z d) by (destruct t as [n e]; unfold d; cbn; rewrite (Qmake_Qdiv n e); reflexivity).
  assert (D : (0 < d)%Z) by (unfold d; lia). pose proof (Z.div_mod (Qnum t) d ltac:(lia)) as E. pose proof (Z.mod_pos_bound (Qnum t) d D) as B. set (k := (Qnum t / d)%Z) in *. set (r := (Qnum t mod d)%Z) in *.
  assert (Dq : 0 < inject_Z d) by (unfold Qlt; cbn; lia). assert (ET : t == inject_Z k + inject_Z r / inject_Z d) by (rewrite Ed, E, inject_Z_plus, inject_Z_mult; field; lra).
  assert (R0 : 0 <= inject_Z r / inject_Z d) by (apply Qle_shift_div_l; auto; rewrite Qmult_0_l; unfold Qle; cbn; lia).
  assert (R1 : (2 * r <= d)%Z -> inject_Z r / inject_Z d <= 1 # 2) by (intro L; apply Qle_shift_div_r; auto; unfold Qle; cbn; lia).
  assert (R2 : (d <= 2 * r)%Z -> (1 # 2) <= inject_Z r / inject_Z d) by (intro L; apply Qle_shift_div_l; auto; unfold Qle; cbn; lia).
  assert (R3 : inject_Z r / inject_Z d <= 1) by (apply Qle_shift_div_r; auto; unfold Qle; cbn; lia).
  rewrite ET. set (x := inject_Z r / inject_Z d) in *. apply Qabs_Qle_condition. assert (HD : forall a, a / 10000 == a * (1 # 10000)) by (intro a; field). rewrite !HD. clear HD.
  assert (KP : inject_Z (k + 1) == inject_Z k + 1) by (rewrite inject_Z_plus; reflexivity).
  destruct (Z.ltb_spec (2 * r) d) as [L|L]; [specialize (R1 ltac:(lia)); split; lra|].
  destruct (Z.ltb_spec d (2 * r)) as [L2|L2]; [specialize (R2 ltac:(lia)); rewrite KP; split; lra|]. specialize (R1 L2). specialize (R2 L).
  destruct (Z.even k); [split; lra|rewrite KP; split; lra].
Qed.
Lemma fmt4_shows q : shows4 (fmt4 q) q.
Proof.
  unfold shows4, fmt4. set (k := tenthousandths q). assert (K : (0 <= k)%Z) by apply tenthousandths_nonneg.
  assert (M : forall z, (0 <= z mod 10 <= 9)%Z) by (intro z; pose proof (Z.mod_pos_bound z 10 ltac:(lia)); lia).
  destruct (one_digit _ (M (k / 1000)%Z)) as (c1 & E1 & V1), (one_digit _ (M (k / 100)%Z)) as (c2 & E2 & V2), (one_digit _ (M (k / 10)%Z)) as (c3 & E3 & V3), (one_digit _ (M k)) as (c4 & E4 & V4). rewrite E1, E2, E3, E4.
  set (fr := (1000 * (k / 1000 mod 10) + 100 * (k / 100 mod 10) + 10 * (k / 10 mod 10) + k mod 10)%Z) in *.
  assert (EK : (k = k / 10000 * 10000 + fr)%Z).
  { unfold fr. pose proof (Z.div_mod k 10 ltac:(lia)). pose proof (Z.div_mod (k / 10) 10 ltac:(lia)) as D2. pose proof (Z.div_mod (k / 100) 10 ltac:(lia)) as D3. pose proof (Z.div_mod (k / 1000) 10 ltac:(lia)) as D4.
    rewrite Z.div_div in D2, D3, D4 by lia. change (10 * 10)%Z with 100%Z in D2. change (100 * 10)%Z with 1000%Z in D3. change (1000 * 10)%Z with 10000%Z in D4. lia. }
  assert (RA : read_abs4 (str_of_Z (k / 10000) ++ "." ++ String c1 EmptyString ++ String c2 EmptyString ++ String c3 EmptyString ++ String c4 EmptyString) = Some (inject_Z (k / 10000) + (fr # 10000))).
  { unfold read_abs4. cbn [String.append]. rewrite split_on_cons by (apply sall_impl with (p := int_char); [intros a Ha; apply int_char_not; auto|apply str_of_Z_chars]).
    assert (DC : forall x y, digit_val x = Some y -> not_char "." x = true) by (intros x y E; apply int_char_not; [|reflexivity]; apply digit_chars; unfold is_digit; rewrite E; reflexivity).
    rewrite split_on_none by (cbn [sall]; rewrite (DC _ _ V1), (DC _ _ V2), (DC _ _ V3), (DC _ _ V4); reflexivity). rewrite int_of_str_of_Z, V1, V2, V3, V4. reflexivity. }
  assert (VK : inject_Z (k / 10000) + (fr # 10000) == inject_Z k / 10000).
  { assert (IK : inject_Z k == inject_Z (k / 10000 * 10000 + fr)) by (rewrite <- EK; reflexivity). rewrite IK, inject_Z_plus, inject_Z_mult. rewrite (Qmake_Qdiv fr 10000). change (inject_Z 10000) with 10000. field. }
  pose proof (tenthousandths_near q) as NE. fold k in NE. clearbody fr.
  destruct (Qltb q 0) eqn:EQ.
  - apply Qltb_lt in EQ. exists (- (inject_Z (k / 10000) + (fr # 10000))). split; [match goal with |- read4 ("-" ++ ?t) = _ => change (option_map Qopp (read_abs4 t) = Some (- (inject_Z (k / 10000) + (fr # 10000)))) end; rewrite RA; reflexivity|].
    rewrite VK. rewrite (Qabs_neg q) in NE by lra. apply Qabs_Qle_condition in NE. apply Qabs_Qle_condition. destruct NE. split; lra.
  - apply Qltb_ge in EQ. cbn [String.append]. exists (inject_Z (k / 10000) + (fr # 10000)). split.
    + unfold read4. pose proof (str_of_Z_nonempty (k / 10000)) as NN. pose proof (str_of_nat_digits (k / 10000) ltac:(apply Z.div_pos; lia)) as DG. destruct (str_of_Z (k / 10000)) as [|a s] eqn:ES; [congruence|]. cbn [String.append] in *. destruct (Ascii.eqb_spec a "-") as [Ea|Ea]; [subst a; cbn in DG; discriminate|]. exact RA.
    + rewrite VK. rewrite (Qabs_pos q) in NE by lra. exact NE.
Qed.
Lemma unbroken_fmt4 q : unbroken (fmt4 q).
Proof.
  unfold fmt4. cbv zeta. apply unbroken_app; [destruct (Qltb q 0); reflexivity|]. repeat (first [apply unbroken_int | apply unbroken_app; [first [apply unbroken_int|reflexivity]|]]).
Qed.
Lemma fmt4o_shows x : shows4_label (fmt4o x) x.
Proof. destruct x as [q|]; [apply fmt4_shows|reflexivity]. Qed.
Lemma fmt2o_shows x : shows_label (fmt2o x) x.
Proof. destruct x as [q|]; [apply fmt2_shows|reflexivity]. Qed.
Lemma unbroken_fmt4o x : unbroken (fmt4o x).
Proof. destruct x as [q|]; [apply unbroken_fmt4|reflexivity]. Qed.
Lemma unbroken_fmt2o x : unbroken (fmt2o x).
Proof. destruct x as [q|]; [apply unbroken_fmt2|reflexivity]. Qed.
Lemma fold_concat {A} (f : string -> A -> string) (h : A -> string) : (forall line x, f line x = (line ++ h x)%string) -> forall l line, fold_left f l line = (line ++ String.concat "" (map h l))%string.
Proof.
  intros E. induction l as [|x l IH]; intro line; [cbn; rewrite append_nil_r; auto|]. cbn [fold_left map]. rewrite IH, E, append_assoc. f_equal. destruct l as [|y l]; [cbn; apply append_nil_r|reflexivity].
Qed.
Lemma concat_plain l : Forall unbroken l -> unbroken (String.concat "" l).
Proof. induction 1 as [|s l H1 H2 IH]; [reflexivity|]. destruct l as [|t l]; [exact H1|]. change (String.concat "" (s :: t :: l)) with (s ++ "" ++ String.concat "" (t :: l))%string. cbn [String.append]. apply unbroken_app; auto. Qed.
Ltac plain2 := repeat first [assumption | match goal with
  | |- unbroken (fmt2o _) => apply unbroken_fmt2o
  | |- unbroken (fmt4o _) => apply unbroken_fmt4o
  | |- unbroken (fmt2 _) => apply unbroken_fmt2
  | |- unbroken (indented _ _) => apply unbroken_indented
  | |- unbroken (tabbed _) => apply unbroken_tab
  | |- unbroken (_ ++ _) => apply unbroken_app
  | |- _ => reflexivity
  end].

Section Nodes.
  Context (G : geo) (g : graph) (rs : list route) (TP : Q) (fr : option (list (string * Q))) (X : xgraph).
  Hypothesis I : ext_input g rs.
  Hypothesis B : build_ext G g rs TP fr = Ok X.
  Hypothesis PN : plain_names X.
  Lemma city_facts c : In (EC c) (xnodes X) -> city_named X c (city_name X c) /\ unbroken (city_name X c).
  Proof.
    intro H. destruct (city_known _ _ _ _ _ _ c I B H) as (nd & Hn). unfold city_name, gnode. rewrite (nth_error_nth _ _ _ Hn). split; [exists nd; auto|]. apply unbroken_free. apply (proj1 PN). eapply nth_error_In; eauto.
  Qed.
  Lemma stop_facts s : In (ES s) (xnodes X) -> stop_names X s (stop_mode_name X s) (stop_city_name X s) /\ unbroken (stop_mode_name X s) /\ unbroken (stop_city_name X s).
  Proof.
    intro H. destruct (xnode_ES _ _ _ _ _ _ I B s H) as (st & no & r & A1 & A2 & _). rewrite <- (ef_graph _ _ _ _ _ _ (facts_of _ _ _ _ _ _ I B)) in A2.
    assert (N : stop_names X s (m_name (sn_mode st)) (nd_name no)) by (exists st, no; auto). destruct (stop_names_text _ _ _ _ N) as [-> ->]. split; auto. apply (stop_names_plain X s); auto.
  Qed.
  Lemma place_facts k : In (ER k) (xnodes X) -> place_names X k (rnode_id X k) (rnode_dir X k) (rnode_city_name X k) /\ unbroken (rnode_id X k) /\ unbroken (rnode_dir X k) /\ unbroken (rnode_city_name X k).
  Proof.
    intro H. apply (proj2 (C30_nodes_exact _ _ _ _ _ _ I B)) in H. cbn [is_xnode] in H. destruct H as (rn & Hk).
    destruct (rnode_names G g rs TP fr X I B k rn Hk) as (s & m & Es & N). unfold rnode_id, rnode_dir, rnode_at. rewrite (nth_error_nth _ _ _ Hk). split; [|split; [|split]].
    - exists rn, s, m. split; [auto|]. split; [auto|]. split; [destruct (rn_dir rn); reflexivity|]. auto.
    - apply unbroken_free. apply (proj2 (proj2 PN)). eapply nth_error_In; eauto.
    - destruct (rn_dir rn); reflexivity.
    - apply (stop_names_plain X s m); auto.
  Qed.
  Lemma end_ok n : In n (xnodes X) -> end_name X n (end_text X n) /\ unbroken (end_text X n).
  Proof.
    destruct n as [c|s|k]; intro H; cbn [end_name end_text].
    - destruct (city_facts c H) as [A1 A2]. split; [eauto|]. plain2.
    - destruct (stop_facts s H) as (A1 & A2 & A3). split; [eauto|]. plain2.
    - destruct (place_facts k H) as (A1 & A2 & A3 & A4). split; [eauto 8|]. plain2.
  Qed.
  Definition suc_text (e : xedge) : string := ("[" ++ etype_text (x_type e) ++ ": " ++ end_text X (x_i e) ++ " - " ++ end_text X (x_j e) ++ "] ")%string.
  Lemma suc_ok e : hyper_graph X -> In e (xg_edges X) -> successor_text X (suc_text e) e /\ unbroken (suc_text e).
  Proof.
    intros HG He. destruct (hg_ends X HG e He) as [H1 H2]. destruct (end_ok _ H1) as [A1 A2], (end_ok _ H2) as [B1 B2]. split.
    - exists (end_text X (x_i e)), (end_text X (x_j e)). split; [auto|]. split; [auto|]. unfold suc_text. destruct (x_type e); reflexivity.
    - unfold suc_text. assert (U : unbroken (etype_text (x_type e))) by (destruct (x_type e); reflexivity). plain2.
  Qed.
  Definition head_lines (n : enode) : list string :=
    match n with
    | EC c => ["City_node"; tabbed ("-Graph_node_name: " ++ city_name X c)]
    | ES s => ["Stop_node"; tabbed ("-Mode_name: " ++ stop_mode_name X s); tabbed ("-Graph_node_name: " ++ stop_city_name X s)]
    | ER k => ["Route_node"; tabbed ("-route_id: " ++ rnode_id X k); tabbed ("-direction: " ++ rnode_dir X k); tabbed ("-Graph_node_name: " ++ rnode_city_name X k)]
    end%string.
  Lemma head_ok n : In n (xnodes X) -> node_head X n (head_lines n) /\ Forall unbroken (head_lines n).
  Proof.
    destruct n as [c|s|k]; intro H; cbn [node_head head_lines].
    - destruct (city_facts c H) as [A1 A2]. split; [eauto|]. repeat constructor; plain2.
    - destruct (stop_facts s H) as (A1 & A2 & A3). split; [eauto|]. repeat constructor; plain2.
    - destruct (place_facts k H) as (A1 & A2 & A3 & A4). split; [eauto 8|]. repeat constructor; plain2.
  Qed.
  Context (R : hresult).
  Definition nblock (n : enode) : list string :=
    head_lines n ++ [tabbed ("-label: " ++ fmt2o (hr_lab R n)); tabbed ("-Successor: " ++ String.concat "" (map suc_text (hr_suc R n))); tabbed ("-Frequencies: " ++ fmt2 (hr_frq R n))].
  Lemma successors_text es : text_successors X es = String.concat "" (map suc_text es).
  Proof. unfold text_successors. rewrite (fold_concat _ suc_text); [reflexivity|]. intros line e. unfold suc_text. reflexivity. Qed.
  Lemma graph_text : string_hyperpath_graph X R = ended ("HyperPath Graph"%string :: concat (map nblock (tree_nodes (xg_nodes X)))).
  Proof.
    unfold string_hyperpath_graph. rewrite (fold_ended _ nblock).
    - cbn [ended fold_right]. fold (ended (concat (map nblock (tree_nodes (xg_nodes X))))). unfold nl. flat. reflexivity.
    - intros line n. cbv zeta. rewrite successors_text. unfold nblock. rewrite ended_app. destruct n as [c|s|k]; cbn [ended fold_right head_lines]; unfold tabbed, tb, nl, tab_char; flat; reflexivity.
  Qed.
  Lemma nblock_ok n : hyper_graph X -> (forall e, In e (hr_suc R n) -> In e (xg_edges X)) -> In n (xnodes X) -> node_block X R (nblock n) n /\ Forall unbroken (nblock n).
  Proof.
    intros HG HS Hn. destruct (head_ok n Hn) as [A1 A2]. split.
    - exists (head_lines n), (fmt2o (hr_lab R n)), (map suc_text (hr_suc R n)), (fmt2 (hr_frq R n)). split; [exact A1|]. split; [apply fmt2o_shows|]. split; [apply Forall2_map_in; intros e He; apply suc_ok; auto|]. split; [apply fmt2_shows|reflexivity].
    - unfold nblock. apply Forall_app. split; [exact A2|]. assert (U : unbroken (String.concat "" (map suc_text (hr_suc R n)))).
      { apply concat_plain. apply Forall_forall. intros t Ht. apply in_map_iff in Ht. destruct Ht as (e & <- & He). apply suc_ok; auto. }
      repeat constructor; plain2.
  Qed.
  (** paths *)
  Definition pline (lab : enode -> option Q) (n : enode) : string := indented 2
    match n with
    | EC c => "[City_node " ++ city_name X c ++ ": " ++ fmt4o (lab n) ++ "]"
    | ES s => "[Stop_node " ++ stop_mode_name X s ++ " - " ++ stop_city_name X s ++ ": " ++ fmt4o (lab n) ++ "]"
    | ER k => "[Route_node " ++ rnode_id X k ++ " " ++ rnode_dir X k ++ " - " ++ rnode_city_name X k ++ ": " ++ fmt4o (lab n) ++ "]"
    end%string.
  Definition pblock (lab : enode -> option Q) (p : list enode) : list string := indented 1 "New Path:" :: map (pline lab) p ++ [indented 2 ""].
  Definition spblock (lab : enode -> option Q) (sp : nat * list (list enode)) : list string := [stop_mode_name X (fst sp) ++ " stop"; ""]%string ++ concat (map (pblock lab) (snd sp)).
  Lemma path_text lab : forall p line, fold_left (text_path_node X lab) p (line ++ tb ++ tb)%string = (line ++ ended (map (pline lab) p) ++ tb ++ tb)%string.
  Proof.
    induction p as [|n p IH]; intro line; [reflexivity|]. cbn [fold_left map].
    assert (E : text_path_node X lab (line ++ tb ++ tb)%string n = ((line ++ pline lab n ++ nl) ++ tb ++ tb)%string).
    { unfold text_path_node, pline. destruct n; cbn [indented]; unfold tabbed, tb, nl, tab_char; flat; flat; reflexivity. }
    rewrite E, IH. cbn [ended fold_right]. fold (ended (map (pline lab) p)). rewrite !append_assoc. reflexivity.
  Qed.
  Lemma begun_ended l x : (nl ++ ended l ++ x)%string = begun (l ++ [x]).
  Proof. induction l as [|a l IH]; [cbn; rewrite append_nil_r; reflexivity|]. cbn [ended fold_right app begun]. fold (ended l) (begun (l ++ [x])). rewrite <- IH, !append_assoc. reflexivity. Qed.
  Lemma paths_text hp lab : string_hyperpaths_OD X hp lab = begun (concat (map (spblock lab) hp)).
  Proof.
    unfold string_hyperpaths_OD. rewrite (fold_begun _ (spblock lab)); [reflexivity|]. intros line [s ps]. unfold spblock. cbn [fst snd]. rewrite begun_app. rewrite (fold_begun _ (pblock lab)).
    - cbn [begun fold_right]. rewrite !append_assoc. reflexivity.
    - clear. intros line p. unfold pblock. change (line ++ nl ++ tb ++ "New Path:" ++ nl ++ tb ++ tb)%string with (line ++ (nl ++ tb ++ "New Path:" ++ nl) ++ (tb ++ tb))%string. rewrite <- append_assoc, path_text.
      cbn [begun fold_right]. fold (begun (map (pline lab) p ++ [indented 2 ""])). rewrite <- begun_ended. cbn [indented]. unfold tabbed, tb, tab_char. flat. reflexivity.
  Qed.
  Lemma pline_ok lab n : In n (xnodes X) -> path_line X lab (pline lab n) n /\ unbroken (pline lab n).
  Proof.
    intro H. unfold path_line, pline. destruct n as [c|s|k].
    - destruct (city_facts c H) as [A1 A2]. split; [exists (fmt4o (lab (EC c))); split; [apply fmt4o_shows|eauto]|]. plain2.
    - destruct (stop_facts s H) as (A1 & A2 & A3). split; [exists (fmt4o (lab (ES s))); split; [apply fmt4o_shows|eauto]|]. plain2.
    - destruct (place_facts k H) as (A1 & A2 & A3 & A4). split; [exists (fmt4o (lab (ER k))); split; [apply fmt4o_shows|eauto 8]|]. plain2.
  Qed.
End Nodes.

(** The text is a title and a block for each node of the extended graph, city by city: its kind and its names, its label
    to the nearest hundredth ("inf" if there is no strategy from it), its successors and its frequency. *)
Theorem C72_search_text : forall G g rs TP fr X P o d fuel R, ext_input g rs -> build_ext G g rs TP fr = Ok X -> hyper_graph X -> weights X P ->
  (length (xnodes X) <= fuel)%nat -> build_hyperpath fuel X P o d = Ok R -> plain_names X ->
  exists blocks, split_on newline (string_hyperpath_graph X R) = ["HyperPath Graph"]%string ++ concat blocks ++ [""]%string /\ Forall2 (node_block X R) blocks (xnodes X).
Proof.
  intros G g rs TP fr X P o d fuel R I B HG HW L E PN. exists (map (nblock X R) (xnodes X)).
  destruct (build_hfacts X P o d HG HW fuel L) as (R' & E' & F). assert (R' = R) by congruence. subst R'.
  assert (OK : forall n, In n (xnodes X) -> node_block X R (nblock X R n) n /\ Forall unbroken (nblock X R n)).
  { intros n Hn. apply (nblock_ok G g rs TP fr X I B PN R n HG); auto. intros e He. apply (hf_suc _ _ _ _ _ F n e He). }
  split; [|apply Forall2_map_in; intros n Hn; apply OK; auto].
  rewrite graph_text. rewrite split_ended; [reflexivity|]. constructor; [reflexivity|]. apply concat_unbroken. intros n Hn. apply OK. exact Hn.
Qed.
Print Assumptions C72_search_text.

(** The text of the paths of a pair: for each stop of the origin from which the destination can be reached, its mode, and
    each of its elementary paths with the names and the label of each node. *)
Theorem C72_paths_text : forall G g rs TP fr X P c d fuel hp R, ext_input g rs -> build_ext G g rs TP fr = Ok X -> hyper_graph X -> weights X P -> In (EC c) (xnodes X) ->
  (length (xnodes X) < fuel)%nat -> hyperpath_OD fuel X P (Some (EC c)) d = Ok (hp, R) -> plain_names X ->
  exists blocks, split_on newline (string_hyperpaths_OD X hp (hr_lab R)) = [""]%string ++ concat blocks /\ Forall2 (stop_paths X (hr_lab R)) blocks hp.
Proof.
  intros G g rs TP fr X P c d fuel hp R I B HG HW HC L E PN. exists (map (spblock X (hr_lab R)) hp).
  destruct (C37_elementary_paths X P c d fuel HG HW L) as (hp' & R' & E' & EB & PS & _ & _ & ST). rewrite E in E'. inversion E'; subst hp' R'.
  destruct (build_hfacts X P (Some (EC c)) d HG HW fuel ltac:(lia)) as (R' & EB' & F). assert (R' = R) by congruence. subst R'.
  assert (WK : forall n w, walk (hr_suc R) d n w -> In n (xnodes X) -> forall m, In m w -> In m (xnodes X)).
  { intros n w W. induction W as [n Ed|n e p Nd He W IH]; intros Hn m Hm; [destruct Hm as [<-|[]]; auto|]. destruct Hm as [<-|Hm]; auto. apply IH; auto. apply (hg_ends X HG). apply (hf_suc _ _ _ _ _ F n e He). }
  assert (ND : forall s ps p n, In (s, ps) hp -> In p ps -> In n p -> In n (xnodes X)).
  { intros s ps p n H1 H2 H3. destruct (proj1 (PS s p)) as (st & w & A1 & _ & _ & W & ->); [eauto|]. destruct H3 as [<-|H3]; auto. apply (WK _ _ W A1); auto. }
  assert (SK : forall s ps, In (s, ps) hp -> In (ES s) (xnodes X)) by (intros s ps H; destruct (proj1 (ST s)) as (st & q & A & _); eauto).
  assert (OK : forall sp, In sp hp -> stop_paths X (hr_lab R) (spblock X (hr_lab R) sp) sp /\ Forall unbroken (spblock X (hr_lab R) sp)).
  { intros [s ps] H. destruct (stop_facts G g rs TP fr X I B PN s (SK _ _ H)) as (A1 & A2 & A3). unfold spblock. cbn [fst snd]. split.
    - exists (stop_mode_name X s), (stop_city_name X s), (map (pblock X (hr_lab R)) ps). split; [exact A1|]. split; [|reflexivity]. apply Forall2_map_in. intros p Hp. exists (map (pline X (hr_lab R)) p). split; [|reflexivity].
      apply Forall2_map_in. intros n Hn. apply (pline_ok G g rs TP fr X I B PN). eapply ND; eauto.
    - apply Forall_app. split; [repeat constructor; plain2|]. apply concat_unbroken. intros p Hp. unfold pblock. constructor; [reflexivity|]. apply Forall_app. split; [|repeat constructor].
      apply Forall_forall. intros t Ht. apply in_map_iff in Ht. destruct Ht as (n & <- & Hn). apply (pline_ok G g rs TP fr X I B PN). eapply ND; eauto. }
  split; [|apply Forall2_map_in; intros sp Hs; apply OK; auto].
  rewrite paths_text. change (begun (concat (map (spblock X (hr_lab R)) hp))) with ("" ++ begun (concat (map (spblock X (hr_lab R)) hp)))%string.
  rewrite split_begun; [reflexivity|reflexivity|]. apply concat_unbroken. intros sp Hs. apply OK. exact Hs.
Qed.
Print Assumptions C72_paths_text.

(** Every path of that text starts at the origin, and the label shown there is "inf": the search leaves out the edges of
    the origin, so its city node is never reached. *)
Theorem C72_origin_shown_unreachable : forall X P c d fuel R, hyper_graph X -> weights X P -> (length (xnodes X) <= fuel)%nat -> In (EC c) (xnodes X) -> d <> Some (EC c) ->
  build_hyperpath fuel X P (Some (EC c)) d = Ok R -> forall l, shows4_label l (hr_lab R (EC c)) <-> l = "inf"%string.
Proof.
  intros X P c d fuel R HG HW L HC Nd E l. destruct (build_hfacts X P (Some (EC c)) d HG HW fuel L) as (R' & E' & F). assert (R' = R) by congruence. subst R'.
  destruct (hr_lab R (EC c)) as [q|] eqn:EL; [exfalso|reflexivity].
  assert (NE : exists e, In e (hr_suc R (EC c))).
  { destruct (hf_step _ _ _ _ _ F (EC c) q HC Nd EL) as [(e & -> & _)|[NE _]]; [exists e; left; auto|]. destruct (hr_suc R (EC c)) as [|e l0]; [congruence|exists e; left; auto]. }
  destruct NE as [e He]. destruct (hf_suc _ _ _ _ _ F _ e He) as (_ & Ei & [A _] & _). congruence.
Qed.
Print Assumptions C72_origin_shown_unreachable.

(** ** A concrete case *)
Example C72_ex : ext_input ex_g34 [ex_tang; ex_tang_metro] /\ build_ext ex_geo ex_g34 [ex_tang; ex_tang_metro] 16 ex_freq = Ok ex_X3 /\ hyper_graph ex_X3 /\ weights ex_X3 ex_P /\
  (length (xnodes ex_X3) < 40)%nat /\ plain_names ex_X3 /\ In (EC 1) (xnodes ex_X3) /\
  match hyperpath_OD 40 ex_X3 ex_P (Some (EC 1)) (Some (EC 3)) with
  | Ok (hp, R) => nth_error (split_on newline (string_hyperpaths_OD ex_X3 hp (hr_lab R))) 4 = Some (indented 2 "[City_node P_1: inf]") /\
      nth_error (split_on newline (string_hyperpaths_OD ex_X3 hp (hr_lab R))) 6 = Some (indented 2 "[Route_node t I - P_1: 0.6000]") /\
      length (split_on newline (string_hyperpath_graph ex_X3 R)) = 142%nat
  | Err _ => False
  end.
Proof.
  split; [exact ex_X3_input|]. split; [exact ex_X3_built|]. destruct ex_X3_hyper as (A & B & C). split; [exact A|]. split; [exact B|]. split; [exact C|]. split; [exact ex_X3_plain|]. split; [vm_compute; auto|].
  vm_compute. auto.
Qed.
Example C72_ex_origin : Some (EC 3) <> Some (EC 1) /\ match build_hyperpath 40 ex_X3 ex_P (Some (EC 1)) (Some (EC 3)) with Ok R => hr_lab R (EC 1) = None | Err _ => False end.
Proof. split; [discriminate|]. vm_compute. reflexivity. Qed.
