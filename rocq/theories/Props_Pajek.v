(** * Props_Pajek: text export and import of a city (C08, C09) *)
From Coq Require Import String Ascii List ZArith QArith Bool Lia Lqa Permutation.
From Verif Require Import PyBase PyFacts PyStr PyStrFacts Graph GraphSpec GraphProofs GeoEx Pajek PajekSpec PajekProofs.
From Verif Require Props_Graph.
Import ListNotations.
Local Open Scope Q_scope.

(** ** A number format *)
Definition ex_show (q : Q) : string := (str_of_Z (Qnum q) ++ "/" ++ str_of_Z (Zpos (Qden q)))%string.
Definition ex_read (s : string) : option Q :=
  match split_on "/" s with
  | [a; b] => match int_of_str a, int_of_str b with
              | Some n, Some (Zpos d) => Some (n # d)
              | _, _ => None
              end
  | _ => None
  end.
Definition ex_fmt : numfmt := mkFmt ex_show ex_read.
Lemma int_char_not_slash a : int_char a = true -> not_char "/" a = true.
Proof. destruct a as [[] [] [] [] [] [] [] []]; vm_compute; intro H; try discriminate; reflexivity. Qed.
Lemma str_of_Z_word z : sall not_ws (str_of_Z z) = true.
Proof.
  apply sall_impl with (p := int_char); [|apply str_of_Z_chars]. intros a H. unfold not_ws.
  rewrite int_char_not_ws by auto. reflexivity.
Qed.
Lemma ex_fmt_ok : format_ok ex_fmt.
Proof.
  intro q. split.
  - apply one_word_iff. split.
    + simpl. unfold ex_show. pose proof (str_of_Z_nonempty (Qnum q)). destruct (str_of_Z (Qnum q)); [congruence|discriminate].
    + simpl. unfold ex_show. rewrite !sall_app, !str_of_Z_word. reflexivity.
  - simpl. unfold ex_read, ex_show. simpl String.append at 2.
    rewrite split_on_cons by (apply sall_impl with (p := int_char); [apply int_char_not_slash|apply str_of_Z_chars]).
    rewrite split_on_none by (apply sall_impl with (p := int_char); [apply int_char_not_slash|apply str_of_Z_chars]).
    rewrite !int_of_str_of_Z. destruct q; reflexivity.
Qed.

(** ** C09: what an accepted text is *)

(** Which texts are accepted: those whose table can be read and whose rows describe a city. *)
Theorem C09_accepted_iff : forall G F lines, lines <> [] -> Forall one_line lines ->
  (exists C, build_from_content G F (String.concat nl lines) = Ok C) <->
  (exists fs n, table (line_says F) 0 lines fs /\ describes G n fs).
Proof.
  intros G F lines N O. unfold build_from_content. split.
  - intros [C H]. apply bind_ok in H. destruct H as [rows [H1 H2]].
    apply read_rows_table in H1. rewrite split_lines in H1 by auto.
    apply import_inv in H2. destruct H2 as (fs & R & Im & _). exists fs.
    pose proof (table_says _ _ _ _ _ H1 R) as T.
    destruct Im as [r E Pl _ _ _ _|n c P S Hn CF Pm _ _].
    + exists 0%nat. split; [auto|]. left. exists r. auto.
    + exists n. split; [auto|]. right. split; auto. exists c, P, S. auto.
  - intros (fs & n & T & D). apply says_table in T. destruct T as (rs & T & R).
    rewrite <- (split_lines lines) in T by auto. apply read_rows_table in T. rewrite T. cbn [bind].
    eapply import_ok; eauto.
Qed.
Print Assumptions C09_accepted_iff.

(** Whatever text is accepted, the city is that of the rows of its table. *)
Theorem C09_accepted_text : forall G F data C, build_from_content G F data = Ok C ->
  exists lines fs, Forall one_line lines /\ data = String.concat nl lines /\
    table (line_says F) 0 lines fs /\ imported G fs C.
Proof.
  intros G F data C H. destruct (text_lines data) as (lines & N & O & ->).
  unfold build_from_content in H. apply bind_ok in H. destruct H as [rows [H1 H2]].
  apply read_rows_table in H1. rewrite split_lines in H1 by auto.
  apply import_inv in H2. destruct H2 as (fs & R & Im & _).
  exists lines, fs. split; [auto|]. split; [auto|]. split; [eapply table_says; eauto|auto].
Qed.
Print Assumptions C09_accepted_text.

(** In particular: a text in the documented format, with one table of the announced size. *)
Lemma table_plain {R} (says : string -> R -> Prop) head ls fs k : (k <= 0)%Z -> Forall plain head ->
  table says k ls fs -> table says k (head ++ ls) fs.
Proof. intros K H. induction H; intro T; simpl; [auto|apply tb_skip; auto]. Qed.
Lemma table_body {R} (says : string -> R -> Prop) body rest fs : Forall plain body -> Forall plain rest ->
  Forall2 says body fs -> table says (Z.of_nat (length body)) (body ++ rest) fs.
Proof.
  intros Pb Pr H. revert Pb. induction H as [|x y l l' Hs H IH]; intro Pb.
  - simpl. rewrite <- (app_nil_r rest). apply table_plain; auto; [lia|]. apply tb_end.
  - inversion Pb; subst. cbn [length app]. apply tb_row; auto; [lia|].
    replace (Z.of_nat (S (length l)) - 1)%Z with (Z.of_nat (length l)) by lia. auto.
Qed.
Theorem C09_documented_format : forall G F head v body rest fs,
  Forall one_line (head ++ v :: body ++ rest) -> Forall plain head ->
  announces (Z.of_nat (length body)) v -> Forall plain body -> Forall plain rest ->
  Forall2 (line_says F) body fs ->
  (exists C, build_from_content G F (String.concat nl (head ++ v :: body ++ rest)) = Ok C) <->
  (exists n, describes G n fs).
Proof.
  intros G F head v body rest fs O Ph Av Pb Pr Ls.
  destruct (Forall2_split row_line (reads F) (line_says F) body fs) as (rs & R1 & R2); auto.
  { intros a c H. destruct (says_row_line _ _ _ H) as (r & A & B). eauto. }
  unfold build_from_content. rewrite (read_document head v body rest rs) by auto. cbn [bind]. split.
  - intros [C H]. apply import_inv in H. destruct H as (fs' & R' & Im & _).
    assert (fs' = fs) as ->.
    { clear - R' R2. revert fs R2. induction R' as [|a b l l' H H0 IH]; intros fs R2; inversion R2; subst; auto.
      f_equal; [eapply reads_fun; eauto|apply IH; auto]. }
    destruct Im as [r E Pl _ _ _ _|n c P S Hn CF Pm _ _].
    + exists 0%nat. left. exists r. auto.
    + exists n. right. split; auto. exists c, P, S. auto.
  - intros [n D]. eapply import_ok; eauto.
Qed.
Print Assumptions C09_documented_format.

(** An accepted text with at least one zone is a well-formed city: 2n + 1 nodes, the first one the
    only CBD; zone z holds a periphery and a subcenter of zone z; a node id occurs in one zone only. *)
Theorem C09_well_formed : forall G F data C, build_from_content G F data = Ok C ->
  (0 < p_n (c_params C))%Z ->
  let g := c_graph C in
  (p_n (c_params C) < 5000)%Z /\
  Z.of_nat (length (g_nodes g)) = (2 * p_n (c_params C) + 1)%Z /\
  Z.of_nat (length (g_zones g)) = p_n (c_params C) /\
  (forall k a, nth_error (g_nodes g) k = Some a -> nd_kind a = CBD <-> k = 0%nat) /\
  (forall z, (1 <= z <= p_n (c_params C))%Z -> exists zo p sc,
     nth_error (g_zones g) (Z.to_nat (z - 1)) = Some zo /\ z_id zo = z /\
     nth_error (g_nodes g) (z_p zo) = Some p /\ nd_kind p = Periphery /\ nd_zone p = z /\
     nth_error (g_nodes g) (z_sc zo) = Some sc /\ nd_kind sc = Subcenter /\ nd_zone sc = z) /\
  (forall a b, In a (g_nodes g) -> In b (g_nodes g) -> nd_id a = nd_id b -> nd_zone a = nd_zone b).
Proof.
  intros G F data C H Hp g. apply C09_accepted_text in H. destruct H as (lines & fs & _ & _ & _ & Im).
  destruct Im as [r _ _ N0 _ _ _|n c P S Hn CF Pm CG CP]; [lia|].
  destruct CG as [CN CZ _ _ _]. fold g in CN, CZ.
  assert (EN : g_nodes g = city_nodes n (node_of G c) (fun i => node_of G (P i)) (fun i => node_of G (S i))).
  { rewrite CN. apply city_rows_nodes. }
  rewrite (cp_n _ _ _ _ _ _ CP) in *. destruct CF as [Sz Kc KP KS [I1 I2] Pl _ _ _ _].
  split; [auto|]. split; [rewrite EN, city_nodes_length; lia|].
  split; [rewrite CZ, map_length, seq_length; auto|]. split; [|split].
  - intros k a Hk. rewrite EN in Hk. destruct k.
    + simpl in Hk. injection Hk as <-. simpl. tauto.
    + unfold city_nodes in Hk. simpl in Hk. apply nth_error_In in Hk. apply in_flat_map in Hk.
      destruct Hk as (i & Hi & Ha). apply in_seq in Hi. destruct (KP i), (KS i); try lia.
      split; [|discriminate]. intro Ka. exfalso. destruct Ha as [<-|[<-|[]]]; simpl in Ka; congruence.
  - intros z Hz. set (i := Z.to_nat (z - 1)). assert (Hi : (i < n)%nat) by (unfold i; lia).
    exists (mkZone (Z.of_nat i + 1) (2 * i + 1) (2 * i + 2)), (node_of G (P i)), (node_of G (S i)).
    split. { rewrite CZ. rewrite nth_error_map, (nth_error_nth' _ 0%nat) by (rewrite seq_length; auto).
             rewrite seq_nth by auto. reflexivity. }
    destruct (KP i Hi), (KS i Hi). cbn [z_id z_p z_sc].
    replace (2 * i + 1)%nat with (PZ i) by (unfold PZ; lia). replace (2 * i + 2)%nat with (SZ i) by (unfold SZ; lia).
    rewrite EN, city_nodes_P, city_nodes_S by auto. cbn [nd_kind nd_zone node_of].
    replace z with (Z.of_nat i + 1)%Z by (unfold i; lia). repeat split; auto.
  - intros a b Ha Hb E. rewrite EN in Ha, Hb. apply city_nodes_In in Ha, Hb.
    destruct Ha as [->|[i [Hi Ha]]], Hb as [->|[j [Hj Hb]]]; auto.
    + exfalso. destruct (I1 j Hj). destruct Hb as [->| ->]; simpl in E; congruence.
    + exfalso. destruct (I1 i Hi). destruct Ha as [->| ->]; simpl in E; congruence.
    + destruct (KP i Hi), (KS i Hi), (KP j Hj), (KS j Hj).
      destruct (Nat.lt_trichotomy i j) as [L|[L|L]].
      * exfalso. destruct (I2 i j) as (a1 & a2 & a3 & a4); [lia|].
        destruct Ha as [->| ->], Hb as [->| ->]; simpl in E; congruence.
      * subst j. destruct Ha as [->| ->], Hb as [->| ->]; simpl; congruence.
      * exfalso. destruct (I2 j i) as (a1 & a2 & a3 & a4); [lia|].
        destruct Ha as [->| ->], Hb as [->| ->]; simpl in E; congruence.
Qed.
Print Assumptions C09_well_formed.

(** a line of a node file *)
Definition ex_line (id name x y ty z : string) : string :=
  (id ++ " " ++ name ++ " " ++ x ++ " " ++ y ++ " " ++ ty ++ " " ++ z ++ " 1/1")%string.
Definition ex_text (lines : list string) : string :=
  String.concat nl (["a comment"; "*Vertices " ++ str_of_Z (Z.of_nat (length lines))]%string ++ lines ++ ["*edges"; ""]%string).
(** two zones, rows in any order, ids of any sign, an underscore and a plus sign *)
Definition ex_file : list string :=
  [ex_line "7" "sub_one" "10/1" "0/1" "SC" "1"; ex_line "-3" "centre" "0/1" "5/1" "CBD" "0";
   ex_line "1_0" "out_two" "0/1" "20/1" "P" "2"; ex_line "+8" "out_one" "15/1" "0/1" "P" "01";
   ex_line "9" "sub_two" "0/1" "10/1" "SC" "2"]%string.
Example C09_example : exists C, build_from_content ex_geo ex_fmt (ex_text ex_file) = Ok C /\
  map nd_id (g_nodes (c_graph C)) = [-3; 8; 7; 10; 9]%Z /\ p_n (c_params C) = 2%Z /\
  p_etha_zone (c_params C) = Some 2%Z /\ length (g_edges (c_graph C)) = 10%nat.
Proof. eexists. vm_compute. repeat split. Qed.
(** the hypotheses of [C09_documented_format] on that text *)
Example C09_documented_format_ex : exists fs n,
  Forall one_line (["a comment"%string] ++ "*Vertices 5"%string :: ex_file ++ ["*edges"%string; ""%string]) /\
  Forall plain ["a comment"]%string /\ announces (Z.of_nat (length ex_file)) "*Vertices 5" /\
  Forall plain ex_file /\ Forall plain ["*edges"; ""]%string /\
  Forall2 (line_says ex_fmt) ex_file fs /\ describes ex_geo n fs.
Proof.
  assert (O : Forall one_line (["a comment"%string] ++ "*Vertices 5"%string :: ex_file ++ ["*edges"%string; ""%string])).
  { repeat constructor; apply one_line_iff; reflexivity. }
  assert (Ph : Forall plain ["a comment"]%string) by (repeat constructor).
  assert (Av : announces (Z.of_nat (length ex_file)) "*Vertices 5").
  { split; [reflexivity|]. exists "*Vertices"%string, "5"%string. split; reflexivity. }
  assert (Pb : Forall plain ex_file) by (repeat constructor).
  assert (Pr : Forall plain ["*edges"; ""]%string) by (repeat constructor).
  assert (L : exists fs, Forall2 (line_says ex_fmt) ex_file fs).
  { exists [mkF 7 "sub_one" 10 0 Subcenter 1 1; mkF (-3) "centre" 0 5 CBD 0 1; mkF 10 "out_two" 0 20 Periphery 2 1;
            mkF 8 "out_one" 15 0 Periphery 1 1; mkF 9 "sub_two" 0 10 Subcenter 2 1].
    repeat apply Forall2_cons; [..|apply Forall2_nil]; unfold line_says; do 5 eexists; repeat split; reflexivity. }
  destruct L as [fs L].
  destruct C09_example as (C & E & _).
  destruct (proj1 (C09_documented_format ex_geo ex_fmt _ _ _ _ fs O Ph Av Pb Pr L)) as [n D].
  { exists C. exact E. }
  exists fs, n. repeat (split; [assumption|]). assumption.
Qed.

(** The ids of an accepted city need not be pairwise distinct: __add_nodes (graph.py 715-730) does
    not compare the periphery with the subcenter of the same zone. *)
Theorem C09_distinct_ids_refuted : exists G F data C, format_ok F /\ build_from_content G F data = Ok C /\
  (0 < p_n (c_params C))%Z /\ ~ NoDup (map nd_id (g_nodes (c_graph C))).
Proof.
  exists ex_geo, ex_fmt, (ex_text [ex_line "0" "CBD" "0/1" "0/1" "CBD" "0"; ex_line "1" "P_1" "15/1" "0/1" "P" "1";
    ex_line "1" "SC_1" "10/1" "0/1" "SC" "1"]%string).
  eexists. split; [apply ex_fmt_ok|]. split; [vm_compute; reflexivity|]. split; [reflexivity|].
  cbn [c_graph g_nodes map nd_id]. intro N. inversion N as [|? ? _ N']. inversion N' as [|? ? N'' _]. apply N''. left; auto.
Qed.
Print Assumptions C09_distinct_ids_refuted.

(** A text without any CBD is accepted if it has one row, and yields an empty graph. *)
Theorem C09_cbd_required_refuted : exists G F data C, format_ok F /\ build_from_content G F data = Ok C /\
  g_nodes (c_graph C) = [].
Proof.
  exists ex_geo, ex_fmt, (ex_text [ex_line "1" "P_1" "15/1" "0/1" "P" "1"]%string).
  eexists. split; [apply ex_fmt_ok|]. split; [vm_compute; reflexivity|]. reflexivity.
Qed.
Print Assumptions C09_cbd_required_refuted.

(** Rows beyond the announced number are ignored, and a second announcement starts over: the number
    of nodes of the text need not be the announced one. *)
Theorem C09_announced_count_refuted : exists G F data C, format_ok F /\ build_from_content G F data = Ok C /\
  announces 1 "*vertices 1" /\ In "*vertices 1"%string (split_on newline data) /\
  length (g_nodes (c_graph C)) = 3%nat.
Proof.
  exists ex_geo, ex_fmt, (String.concat nl ["*vertices 1"; ex_line "0" "CBD" "0/1" "0/1" "CBD" "0"; "skipped line";
    "*vertices 2"; ex_line "1" "P_1" "15/1" "0/1" "P" "1"; ex_line "2" "SC_1" "10/1" "0/1" "SC" "1"]%string).
  eexists. split; [apply ex_fmt_ok|]. split; [vm_compute; reflexivity|].
  split; [split; [reflexivity|exists "*vertices"%string, "1"%string; split; reflexivity]|].
  split; [left; reflexivity|reflexivity].
Qed.
Print Assumptions C09_announced_count_refuted.
Definition ex_two_tables : list string :=
  ["*vertices 1"; ex_line "0" "CBD" "0/1" "0/1" "CBD" "0"; "skipped line"; "*vertices 2";
   ex_line "1" "P_1" "15/1" "0/1" "P" "1"; ex_line "2" "SC_1" "10/1" "0/1" "SC" "1"]%string.
Example C09_accepted_iff_ex : ex_two_tables <> [] /\ Forall one_line ex_two_tables /\
  exists fs n, table (line_says ex_fmt) 0 ex_two_tables fs /\ describes ex_geo n fs.
Proof.
  assert (N : ex_two_tables <> []) by discriminate.
  assert (O : Forall one_line ex_two_tables) by (repeat constructor; apply one_line_iff; reflexivity).
  split; [auto|]. split; [auto|]. apply C09_accepted_iff; auto. eexists. vm_compute. reflexivity.
Qed.

(** ** C08: round trip *)
Lemma concat_cons sep a l : l <> [] -> String.concat sep (a :: l) = (a ++ sep ++ String.concat sep l)%string.
Proof. destruct l; [congruence|reflexivity]. Qed.
Lemma concat_lines (l : list string) :
  String.concat EmptyString (map (fun s => s ++ nl)%string l) = String.concat nl (l ++ [EmptyString]).
Proof.
  induction l as [|a l IH]; [reflexivity|]. cbn [map app].
  rewrite (concat_cons nl) by (destruct l; discriminate). rewrite <- IH.
  destruct l as [|b l].
  - simpl. reflexivity.
  - cbn [map]. rewrite concat_cons by discriminate. rewrite append_assoc. reflexivity.
Qed.

Definition ex_head : list string :=
  ["Content format: [node_id] [node_name] [x] [y] [node_type] [zone_id] [node_width]";
   "Content format: each row provides have whitespace separated values"; ""]%string.
Lemma export_document F g : export_graph F g =
  String.concat nl (ex_head ++ ("*vertices " ++ str_of_Z (Z.of_nat (length (g_nodes g))))%string
                    :: map (node_line F) (g_nodes g) ++ [EmptyString]).
Proof.
  unfold export_graph, ex_head. cbn [app].
  rewrite !concat_cons by (try discriminate; destruct (map (node_line F) (g_nodes g)); discriminate).
  rewrite <- concat_lines, map_map, ?append_assoc. reflexivity.
Qed.

Lemma one_line_app a b : one_line a -> one_line b -> one_line (a ++ b).
Proof. rewrite !one_line_iff, sall_app. intros -> ->. reflexivity. Qed.
Lemma str_of_Z_one_word z : one_word (str_of_Z z).
Proof. apply one_word_iff. split; [apply str_of_Z_nonempty|apply str_of_Z_word]. Qed.
Lemma kind_text_word k : one_word (kind_text k).
Proof. apply one_word_iff. destruct k; split; try discriminate; reflexivity. Qed.

Lemma node_line_line F nd : format_ok F -> one_word (nd_name nd) -> one_line (node_line F nd).
Proof.
  intros HF W. unfold node_line.
  repeat apply one_line_app; try (apply one_line_iff; reflexivity); try (apply one_word_line; auto; apply HF);
    try apply one_word_line, str_of_Z_one_word. apply one_word_line, kind_text_word.
Qed.
Lemma int_char_plain a s : int_char a = true -> prefix "*vertices" (lower (String a s)) = false.
Proof. destruct a as [[] [] [] [] [] [] [] []]; vm_compute; intro H; try discriminate; reflexivity. Qed.
Lemma node_line_plain F nd : plain (node_line F nd).
Proof.
  unfold plain, node_line. pose proof (str_of_Z_nonempty (nd_id nd)) as N.
  pose proof (str_of_Z_chars (nd_id nd)) as Ch. destruct (str_of_Z (nd_id nd)) as [|a s]; [congruence|].
  cbn [String.append]. apply int_char_plain. cbn [sall] in Ch. apply andb_true_iff in Ch. tauto.
Qed.
Lemma node_line_says F nd : format_ok F -> one_word (nd_name nd) -> line_says F (node_line F nd) (row_of nd).
Proof.
  intros HF W. apply one_word_iff in W. destruct W as [W1 W2].
  assert (T : forall s, one_word s -> forall r, words (s ++ " " ++ r) = s :: words r).
  { intros s Hs r. apply one_word_iff in Hs. destruct Hs. apply words_tok; auto. }
  exists (str_of_Z (nd_id nd)), (nf_show F (nd_x nd)), (nf_show F (nd_y nd)), (str_of_Z (nd_zone nd)), (nf_show F (nd_width nd)).
  cbn [row_of f_id f_name f_x f_y f_kind f_zone f_width].
  split; [|split; [|split; [|split; [|split]]]]; try apply int_of_str_of_Z; try apply HF.
  unfold node_line. rewrite !T; try apply str_of_Z_one_word; try apply HF; try apply kind_text_word;
    try (apply one_word_iff; auto).
  assert (one_word (nf_show F (nd_width nd))) as Ww by apply HF. apply one_word_iff in Ww. destruct Ww.
  rewrite words_one by auto. reflexivity.
Qed.

Lemma export_rows F g : format_ok F -> (forall nd, In nd (g_nodes g) -> one_word (nd_name nd)) ->
  exists rs, read_rows (export_graph F g) = Ok rs /\ Forall2 (reads F) rs (map row_of (g_nodes g)).
Proof.
  intros HF W.
  assert (L : Forall2 (line_says F) (map (node_line F) (g_nodes g)) (map row_of (g_nodes g))).
  { induction (g_nodes g) as [|nd l IH]; simpl; constructor.
    - apply node_line_says; auto. apply W. left; auto.
    - apply IH. intros x Hx. apply W. right; auto. }
  destruct (Forall2_split row_line (reads F) (line_says F) (map (node_line F) (g_nodes g)) (map row_of (g_nodes g))) as (rs & R1 & R2); [|exact L|].
  { intros a c H. destruct (says_row_line _ _ _ H) as (r & A & B). eauto. }
  exists rs. split; [|auto]. rewrite export_document.
  set (cnt := str_of_Z (Z.of_nat (length (g_nodes g)))).
  assert (Wc : one_word cnt) by apply str_of_Z_one_word.
  apply read_document; auto.
  - apply Forall_app. split; [repeat constructor; apply one_line_iff; reflexivity|]. constructor.
    + apply one_line_app; [apply one_line_iff; reflexivity|]. apply one_word_line; auto.
    + apply Forall_app. split; [|repeat constructor; apply one_line_iff; reflexivity].
      apply Forall_forall. intros s Hs. apply in_map_iff in Hs. destruct Hs as (nd & <- & Hnd).
      apply node_line_line; auto.
  - repeat constructor.
  - rewrite map_length. split; [reflexivity|]. exists "*vertices"%string, cnt. split.
    + apply one_word_iff in Wc. destruct Wc.
      change ("*vertices " ++ cnt)%string with ("*vertices" ++ String " " cnt)%string.
      rewrite words_tok, words_one by (auto; discriminate). reflexivity.
    + apply int_of_str_of_Z.
  - apply Forall_forall. intros s Hs. apply in_map_iff in Hs. destruct Hs as (nd & <- & Hnd). apply node_line_plain.
  - repeat constructor.
Qed.

Lemma city_file_ext G n c P S P' S' : (forall i, (i < n)%nat -> P i = P' i /\ S i = S' i) ->
  city_file G n c P S -> city_file G n c P' S'.
Proof.
  intros E [A B D F [I1 I2] H I J K L].
  assert (ER : city_rows n c P S = city_rows n c P' S').
  { unfold city_rows. f_equal. apply flat_map_ext_in_local. intros i Hi. apply in_seq in Hi.
    destruct (E i); [lia|]. congruence. }
  assert (ES : forall h, Qsumf (fun i => h (S i)) (seq 0 n) = Qsumf (fun i => h (S' i)) (seq 0 n)).
  { intro h. unfold Qsumf. f_equal. apply map_ext_in. intros i Hi. apply in_seq in Hi. destruct (E i); [lia|]. congruence. }
  assert (EP : forall h, Qsumf (fun i => h (P i)) (seq 0 n) = Qsumf (fun i => h (P' i)) (seq 0 n)).
  { intro h. unfold Qsumf. f_equal. apply map_ext_in. intros i Hi. apply in_seq in Hi. destruct (E i); [lia|]. congruence. }
  constructor; auto.
  - intros i Hi. destruct (E i Hi) as [<- _]. auto.
  - intros i Hi. destruct (E i Hi) as [_ <-]. auto.
  - split.
    + intros i Hi. destruct (E i Hi) as [<- <-]. auto.
    + intros i j Hij. destruct (E i) as [<- <-]; [lia|]. destruct (E j) as [<- <-]; [lia|]. auto.
  - rewrite <- ER. auto.
  - rewrite <- (ES (row_radius G)). auto.
  - rewrite <- (ES (row_radius G)), <- (EP (row_radius G)). auto.
  - intros i Hi. destruct (E i Hi) as [_ <-]. auto.
  - intros i Hi T U. destruct (E i Hi) as [_ Es]. rewrite <- Es in *. apply L; auto.
    intros j Hj. destruct (E j) as [_ Ej]; [lia|]. rewrite Ej. auto.
Qed.

(** the imported graph of an exported graph *)
Lemma export_import G F g n c P S :
  format_ok F -> (forall nd, In nd (g_nodes g) -> one_word (nd_name nd)) ->
  map row_of (g_nodes g) = city_rows n c P S -> f_kind c = CBD ->
  (forall i, (i < n)%nat -> f_kind (P i) = Periphery /\ f_zone (P i) = (Z.of_nat i + 1)%Z) ->
  (forall i, (i < n)%nat -> f_kind (S i) = Subcenter /\ f_zone (S i) = (Z.of_nat i + 1)%Z) ->
  ((exists C', build_from_content G F (export_graph F g) = Ok C') <-> city_file G n c P S) /\
  (forall C', build_from_content G F (export_graph F g) = Ok C' ->
     g_nodes (c_graph C') = map (node_of G) (city_rows n c P S) /\
     g_nodes_id (c_graph C') = map nd_id (g_nodes (c_graph C')) /\
     g_zones (c_graph C') = city_zones n /\ g_edges (c_graph C') = numbered 0 (city_arcs n) /\
     p_n (c_params C') = Z.of_nat n /\ ((0 < n)%nat -> city_params G n c P S (c_params C'))).
Proof.
  intros HF W Rw Kc KP KS. destruct (export_rows F g HF W) as (rs & E & R). rewrite Rw in R.
  unfold build_from_content. rewrite E. cbn [bind].
  assert (X : forall C', import_rows G F rs = Ok C' ->
     city_file G n c P S /\
     g_nodes (c_graph C') = map (node_of G) (city_rows n c P S) /\
     g_nodes_id (c_graph C') = map nd_id (g_nodes (c_graph C')) /\
     g_zones (c_graph C') = city_zones n /\ g_edges (c_graph C') = numbered 0 (city_arcs n) /\
     p_n (c_params C') = Z.of_nat n /\ ((0 < n)%nat -> city_params G n c P S (c_params C'))).
  { intros C' H. apply import_inv in H. destruct H as (fs & R' & Im & Ids & Ed).
    assert (fs = city_rows n c P S) as ->.
    { clear - R R'. revert fs R'. induction R as [|a b l l' H H0 IH]; intros fs R'; inversion R'; subst; auto.
      f_equal; [eapply reads_fun; eauto|apply IH; auto]. }
    destruct Im as [r Er Pl N0 Nd Zo _|n' c' P' S' Hn CF Pm CG CP].
    - assert (n = 0%nat) as ->.
      { apply (f_equal (@length frow)) in Er. rewrite city_rows_length in Er. simpl in Er. lia. }
      inversion Er; subst r. rewrite Kc in Nd. simpl in Nd. rewrite Zo in *.
      split; [|repeat split; auto; intros; lia].
      constructor; try (intros; lia); auto.
      + split; intros; lia.
      + intros r [<-|[]]. auto.
      + apply Qle_refl.
    - assert (Q : n = n' /\ c = c' /\ forall i, (i < n)%nat -> P i = P' i /\ S i = S' i).
      { assert (n = n') as <-.
        { apply Permutation_length in Pm. rewrite !city_rows_length in Pm. lia. }
        assert (LA : labelled n (node_of G c) (fun i => node_of G (P i)) (fun i => node_of G (S i))).
        { constructor; auto. }
        pose proof (cf_labelled _ _ _ _ _ CF) as LB.
        apply (Permutation_map (node_of G)) in Pm. rewrite !city_rows_nodes in Pm.
        assert (Inj : forall x y, node_of G x = node_of G y -> x = y).
        { intros x y Ex. rewrite <- (row_of_node G x), <- (row_of_node G y), Ex. reflexivity. }
        split; [auto|]. split.
        - apply Inj. pose proof (of_kind_city _ _ _ _ _ LA (Permutation_refl _)) as X.
          pose proof (of_kind_city _ _ _ _ _ LB Pm) as Y. unfold nodes_of_city in *. congruence.
        - intros i Hi. split; apply Inj.
          + pose proof (pick_city_P _ _ _ _ _ i LA (Permutation_refl _) Hi) as X.
            pose proof (pick_city_P _ _ _ _ _ i LB Pm Hi) as Y. unfold nodes_of_city in *. cbv beta in X, Y. congruence.
          + pose proof (pick_city_S _ _ _ _ _ i LA (Permutation_refl _) Hi) as X.
            pose proof (pick_city_S _ _ _ _ _ i LB Pm Hi) as Y. unfold nodes_of_city in *. cbv beta in X, Y. congruence. }
      destruct Q as (<- & <- & Q).
      assert (ER : city_rows n c P' S' = city_rows n c P S).
      { unfold city_rows. f_equal. apply flat_map_ext_in_local. intros i Hi. apply in_seq in Hi.
        destruct (Q i); [lia|]. congruence. }
      split.
      { apply (city_file_ext G n c P' S'); auto. intros i Hi. destruct (Q i Hi). auto. }
      destruct CG as [CN CZ _ _ _]. rewrite ER in CN.
      assert (CZ' : g_zones (c_graph C') = city_zones n).
      { rewrite CZ. unfold city_zones. apply map_ext. intro i. unfold PZ, SZ. f_equal; lia. }
      rewrite CZ', city_zones_length in *.
      split; [auto|]. split; [auto|]. split; [auto|]. split; [auto|]. split; [apply (cp_n _ _ _ _ _ _ CP)|]. intros _.
      assert (ES : forall h : frow -> QArith_base.Q, Qsumf (fun i => h (S' i)) (seq 0 n) = Qsumf (fun i => h (S i)) (seq 0 n)).
      { intro h. unfold Qsumf. f_equal. apply map_ext_in. intros i Hi. apply in_seq in Hi. destruct (Q i) as [_ ->]; [lia|]. reflexivity. }
      assert (EP : forall h : frow -> QArith_base.Q, Qsumf (fun i => h (P' i)) (seq 0 n) = Qsumf (fun i => h (P i)) (seq 0 n)).
      { intro h. unfold Qsumf. f_equal. apply map_ext_in. intros i Hi. apply in_seq in Hi. destruct (Q i) as [-> _]; [lia|]. reflexivity. }
      destruct CP as [c1 c2 c3 c4 c5 c6 c7 c8]. constructor; auto.
      + rewrite <- (ES (row_radius G)). auto.
      + rewrite <- (EP (row_radius G)). auto.
      + destruct (Q (n - 1)%nat) as [_ ->]; [lia|]. auto.
      + rewrite c5. f_equal. apply map_ext_in. intros i Hi. apply in_seq in Hi. destruct (Q i) as [_ ->]; [lia|]. auto.
      + destruct c6 as (Gi & A1 & A2 & A3). exists Gi. split; [auto|]. split; [auto|]. intros i Hi.
        destruct (Q i Hi) as [_ ->]. auto.
      + destruct c7 as (Hi & A1 & A2 & A3). exists Hi. split; [auto|]. split; [auto|]. intros i Hlt.
        destruct (Q i Hlt) as [-> _]. auto.
      + destruct (p_etha (c_params C')), (p_etha_zone (c_params C')); auto.
        * destruct c8 as (i & Hi & -> & T & U & Ee). exists i. destruct (Q i Hi) as [_ ->].
          split; [auto|]. split; [auto|]. split; [auto|]. split; [|auto]. intros j Hj. destruct (Q j) as [_ ->]; [lia|]. auto.
        * intros i Hi. destruct (Q i Hi) as [_ ->]. auto. }
  split; [split|].
  - intros [C' H]. apply X in H. tauto.
  - intro CF. destruct (Nat.eq_dec n 0) as [->|Hn].
    + apply (import_ok G F rs (city_rows 0 c P S) 0); auto. left. exists c. split; [reflexivity|]. split; [reflexivity|].
      apply (cf_placed _ _ _ _ _ CF). left; auto.
    + apply (import_ok G F rs (city_rows n c P S) n); auto. right. split; [lia|]. exists c, P, S. split; auto.
  - intros C' H. apply X in H. tauto.
Qed.

(** what the positions of a parametric city hold *)
Lemma city_positions G P C : build_from_parameters G P = Ok C ->
  let g := c_graph C in
  let n := Z.to_nat (p_n P) in
  valid_params P /\
  g_nodes_id g = map nd_id (g_nodes g) /\ g_zones g = city_zones n /\ g_edges g = numbered 0 (city_arcs n) /\
  (forall nd, In nd (g_nodes g) -> one_word (nd_name nd)) /\
  exists c Pf Sf, g_nodes g = city_nodes n c Pf Sf /\ C_is G P c /\
    (forall i, P_is G P i (Pf i)) /\ (forall i, S_is G P i (Sf i)) /\
    row_at g 0 = row_of c /\
    (forall i, (i < n)%nat -> row_at g (2 * i + 1) = row_of (Pf i) /\ row_at g (2 * i + 2) = row_of (Sf i)).
Proof.
  intros H g n. destruct (city_facts _ _ _ H) as (V & _ & c & Pf & Sf & Sh & HC & HP & HS).
  destruct Sh as [SN SI SZo SE _ _ _]. fold g in SN, SI, SZo, SE. fold n in SN, SZo, SE.
  split; [auto|]. split; [auto|]. split; [auto|]. split; [auto|]. split.
  - intros nd Hnd. rewrite SN in Hnd. apply city_nodes_In in Hnd.
    destruct Hnd as [->|[i [Hi [->| ->]]]].
    + destruct HC as (_ & _ & _ & -> & _). apply one_word_iff. split; [discriminate|reflexivity].
    + destruct (HP i) as (_ & _ & _ & -> & _). apply one_word_iff. split; [discriminate|].
      rewrite sall_app, str_of_Z_word. reflexivity.
    + destruct (HS i) as (_ & _ & _ & -> & _). apply one_word_iff. split; [discriminate|].
      rewrite sall_app, str_of_Z_word. reflexivity.
  - exists c, Pf, Sf. split; [auto|]. split; [auto|]. split; [auto|]. split; [auto|].
    unfold row_at. rewrite SN. split; [reflexivity|]. intros i Hi.
    replace (2 * i + 1)%nat with (PZ i) by (unfold PZ; lia). replace (2 * i + 2)%nat with (SZ i) by (unfold SZ; lia).
    split; f_equal; apply nth_error_nth; [apply city_nodes_P|apply city_nodes_S]; auto.
Qed.

(** The exported text of a parametric city is accepted exactly when the rows of its nodes are a city
    file, and then the import has the same nodes (id, name, x, y, type, zone, width) in the same
    order, the same zones and the same edges; radius and angle are computed from x and y. *)
Theorem C08_round_trip : forall G F P C, format_ok F -> build_from_parameters G P = Ok C ->
  let g := c_graph C in
  let n := Z.to_nat (p_n P) in
  let c := row_at g 0 in
  let Pr := fun i => row_at g (2 * i + 1) in
  let Sr := fun i => row_at g (2 * i + 2) in
  ((exists C', build_from_content G F (export_graph F g) = Ok C') <-> city_file G n c Pr Sr) /\
  (forall C', build_from_content G F (export_graph F g) = Ok C' ->
     g_nodes (c_graph C') = map (fun nd => node_of G (row_of nd)) (g_nodes g) /\
     g_zones (c_graph C') = g_zones g /\ g_edges (c_graph C') = g_edges g /\
     p_n (c_params C') = p_n P /\ ((0 < n)%nat -> city_params G n c Pr Sr (c_params C'))).
Proof.
  intros G F P C HF H g n c Pr Sr.
  destruct (city_positions _ _ _ H) as (V & SI & SZo & SE & W & c0 & Pf & Sf & SN & HC & HP & HS & R0 & RR).
  fold g in SI, SZo, SE, W, SN, R0, RR. fold n in SZo, SE, SN, RR.
  assert (Rw : map row_of (g_nodes g) = city_rows n c Pr Sr).
  { rewrite SN, city_nodes_rows. unfold city_rows, c, Pr, Sr. rewrite R0. f_equal. apply flat_map_ext_in_local.
    intros i Hi. apply in_seq in Hi. destruct (RR i) as [-> ->]; [lia|]. reflexivity. }
  assert (Kc : f_kind c = CBD) by (unfold c; rewrite R0; apply HC).
  assert (KP : forall i, (i < n)%nat -> f_kind (Pr i) = Periphery /\ f_zone (Pr i) = (Z.of_nat i + 1)%Z).
  { intros i Hi. unfold Pr. destruct (RR i Hi) as [-> _]. destruct (HP i) as (A & _ & B & _). split; auto. }
  assert (KS : forall i, (i < n)%nat -> f_kind (Sr i) = Subcenter /\ f_zone (Sr i) = (Z.of_nat i + 1)%Z).
  { intros i Hi. unfold Sr. destruct (RR i Hi) as [_ ->]. destruct (HS i) as (A & _ & B & _). split; auto. }
  destruct (export_import G F g n c Pr Sr HF W Rw Kc KP KS) as [A B]. split; [exact A|].
  intros C' H'. destruct (B C' H') as (B1 & _ & B3 & B4 & B5 & B6).
  rewrite <- Rw, map_map in B1. split; [exact B1|]. split; [congruence|]. split; [congruence|].
  split; [|exact B6]. rewrite B5. unfold n. destruct V as [V _]. lia.
Qed.
Print Assumptions C08_round_trip.
Example C08_round_trip_ex : format_ok ex_fmt /\
  exists C C', build_from_parameters ex_geo Props_Graph.ex_params = Ok C /\
    build_from_content ex_geo ex_fmt (export_graph ex_fmt (c_graph C)) = Ok C' /\
    length (g_nodes (c_graph C')) = 9%nat /\ p_etha_zone (c_params C') = Some 2%Z.
Proof.
  split; [apply ex_fmt_ok|].
  destruct Props_Graph.ex_params_built as [C [H _]]. vm_compute in H. injection H as <-.
  eexists. eexists. split; [vm_compute; reflexivity|]. split; [vm_compute; reflexivity|]. split; reflexivity.
Qed.

Lemma direction_compat r r' a a' : r == r' -> a == a' -> direction r a == direction r' a'.
Proof.
  intros Hr Ha. unfold direction.
  destruct (Qeqb r 0) eqn:E1, (Qeqb r' 0) eqn:E2; cbn [orb]; try reflexivity.
  - apply Qeqb_eq in E1. apply Qeqb_neq in E2. exfalso; apply E2; lra.
  - apply Qeqb_eq in E2. apply Qeqb_neq in E1. exfalso; apply E1; lra.
  - destruct (Qeqb a 360) eqn:E3, (Qeqb a' 360) eqn:E4; try reflexivity.
    + apply Qeqb_eq in E3. apply Qeqb_neq in E4. exfalso; apply E4; lra.
    + apply Qeqb_eq in E4. apply Qeqb_neq in E3. exfalso; apply E3; lra.
    + auto.
Qed.
Lemma direction_range r a : 0 <= a <= 360 -> 0 <= direction r a <= 360.
Proof. intros. unfold direction. destruct (Qeqb r 0 || Qeqb a 360)%bool; lra. Qed.

Lemma recovers_row G k id z name w r a nd : node_is G k id z name w r a nd -> recovers G nd ->
  row_radius G (row_of nd) == r /\ row_angle G (row_of nd) == direction r a /\
  (exists b, get_angle G (f_x (row_of nd)) (f_y (row_of nd)) = Ok b).
Proof.
  intros (_ & _ & _ & _ & _ & Hr & Ha & _) (Rr & b & Eb & Hb). split; [lra|]. split; [|exists b; exact Eb].
  unfold row_angle. cbn [f_x f_y row_of]. rewrite Eb, Hb. apply direction_compat; auto.
Qed.

Lemma zone_angle_range P z : valid_params P -> (1 <= z <= p_n P)%Z -> 0 <= zone_angle P z <= 360.
Proof.
  intros (Hn & _ & _ & _ & _ & Ha & _) Hz. unfold zone_angle. destruct (p_angles P) as [l|].
  - destruct Ha as [Hl Hr]. apply Hr. apply nth_In. lia.
  - assert (Np : 0 < inject_Z (p_n P)). { unfold Qlt. simpl. lia. }
    assert (Lo : 0 <= inject_Z (z - 1)). { unfold Qle. simpl. lia. }
    assert (Hi : inject_Z (z - 1) <= inject_Z (p_n P)). { unfold Qle. simpl. lia. }
    split.
    + apply Qmult_le_0_compat; auto. apply Qle_shift_div_l; lra.
    + setoid_replace (360 / inject_Z (p_n P) * inject_Z (z - 1)) with (360 * inject_Z (z - 1) / inject_Z (p_n P))
        by (field; lra).
      apply Qle_shift_div_r; lra.
Qed.
Lemma ratio_nonneg n o z : valid_opt_list n (fun x => 0 <= x) o -> 0 <= ratio o z.
Proof.
  intro H. unfold ratio. destruct o as [l|]; [|lra]. destruct H as [_ H].
  destruct (nth_in_or_default (Z.to_nat (z - 1)) l 1) as [I| ->]; [auto|lra].
Qed.
Lemma sc_radius_nonneg P z : valid_params P -> 0 <= sc_radius P z.
Proof. intros (_ & Hl & _ & _ & _ & _ & HG & _). apply Qmult_le_0_compat; auto. eapply ratio_nonneg; eauto. Qed.
Lemma periphery_radius_nonneg P z : valid_params P -> 0 <= periphery_radius P z.
Proof.
  intros (_ & Hl & Hg & _ & _ & _ & _ & HH). apply Qmult_le_0_compat; [nra|]. eapply ratio_nonneg; eauto.
Qed.
Lemma cbd_radius_nonneg P : valid_params P -> 0 <= cbd_radius P.
Proof.
  intro V. pose proof V as (_ & _ & _ & _ & He & _). unfold cbd_radius.
  destruct (p_etha P), (p_etha_zone P); try lra. destruct He as [[] _].
  apply Qmult_le_0_compat; auto. apply sc_radius_nonneg; auto.
Qed.
Lemma cbd_angle_range P : valid_params P -> 0 <= cbd_angle P <= 360.
Proof.
  intro V. pose proof V as (_ & _ & _ & _ & He & _). unfold cbd_angle.
  destruct (p_etha P), (p_etha_zone P); try lra. destruct He as [_ Hz]. apply zone_angle_range; auto.
Qed.

Lemma zones_sum P (f : Z -> Q) :
  Qsumf f (zones P) = Qsumf (fun i => f (Z.of_nat i + 1)%Z) (seq 0 (Z.to_nat (p_n P))).
Proof.
  unfold zones. rewrite Qsumf_map, <- seq_shift, Qsumf_map. unfold Qsumf. f_equal. apply map_ext. intro i.
  f_equal. lia.
Qed.

(** the rows of a parametric city whose positions are recovered *)
Lemma parametric_rows G P C : build_from_parameters G P = Ok C ->
  (forall nd, In nd (g_nodes (c_graph C)) -> recovers G nd) ->
  let g := c_graph C in
  let n := Z.to_nat (p_n P) in
  let c := row_at g 0 in
  let Pr := fun i => row_at g (2 * i + 1) in
  let Sr := fun i => row_at g (2 * i + 2) in
  row_radius G c == cbd_radius P /\ row_angle G c == direction (cbd_radius P) (cbd_angle P) /\
  (forall i, (i < n)%nat -> row_radius G (Pr i) == periphery_radius P (Z.of_nat i + 1)) /\
  (forall i, (i < n)%nat -> row_radius G (Sr i) == sc_radius P (Z.of_nat i + 1) /\
     row_angle G (Sr i) == direction (sc_radius P (Z.of_nat i + 1)) (zone_angle P (Z.of_nat i + 1)) /\
     f_width (Sr i) == p_p P) /\
  (forall i, (i < n)%nat -> towards G c (Sr i) <-> zone_towards P (Z.of_nat i + 1)) /\
  (city_file G n c Pr Sr <-> reimportable P).
Proof.
  intros H Rec g n c Pr Sr.
  destruct (city_positions _ _ _ H) as (V & _ & _ & _ & _ & c0 & Pf & Sf & SN & HC & HP & HS & R0 & RR).
  fold g in SN, R0, RR. fold n in SN, RR.
  assert (Rc : recovers G c0). { apply Rec. fold g. rewrite SN. left; auto. }
  assert (RP : forall i, (i < n)%nat -> recovers G (Pf i)).
  { intros i Hi. apply Rec. fold g. rewrite SN. apply city_nodes_In. right. exists i; auto. }
  assert (RS : forall i, (i < n)%nat -> recovers G (Sf i)).
  { intros i Hi. apply Rec. fold g. rewrite SN. apply city_nodes_In. right. exists i; auto. }
  destruct (recovers_row _ _ _ _ _ _ _ _ _ HC Rc) as (C1 & C2 & C3). rewrite <- R0 in C1, C2, C3.
  fold c in C1, C2, C3.
  assert (PP : forall i, (i < n)%nat -> row_radius G (Pr i) == periphery_radius P (Z.of_nat i + 1) /\
    row_angle G (Pr i) == direction (periphery_radius P (Z.of_nat i + 1)) (zone_angle P (Z.of_nat i + 1)) /\
    (exists b, get_angle G (f_x (Pr i)) (f_y (Pr i)) = Ok b) /\ f_width (Pr i) == p_p P).
  { intros i Hi. unfold Pr. destruct (RR i Hi) as [-> _].
    destruct (recovers_row _ _ _ _ _ _ _ _ _ (HP i) (RP i Hi)) as (A & B & D).
    split; [auto|]. split; [auto|]. split; [auto|]. apply (HP i). }
  assert (SS : forall i, (i < n)%nat -> row_radius G (Sr i) == sc_radius P (Z.of_nat i + 1) /\
    row_angle G (Sr i) == direction (sc_radius P (Z.of_nat i + 1)) (zone_angle P (Z.of_nat i + 1)) /\
    (exists b, get_angle G (f_x (Sr i)) (f_y (Sr i)) = Ok b) /\ f_width (Sr i) == p_p P).
  { intros i Hi. unfold Sr. destruct (RR i Hi) as [_ ->].
    destruct (recovers_row _ _ _ _ _ _ _ _ _ (HS i) (RS i Hi)) as (A & B & D).
    split; [auto|]. split; [auto|]. split; [auto|]. apply (HS i). }
  assert (TT : forall i, (i < n)%nat -> towards G c (Sr i) <-> zone_towards P (Z.of_nat i + 1)).
  { intros i Hi. unfold towards, zone_towards. destruct (SS i Hi) as (_ & E1 & _). rewrite E1, C2. tauto. }
  split; [auto|]. split; [auto|]. split; [intros i Hi; apply PP; auto|].
  split; [intros i Hi; destruct (SS i Hi) as (A & B & _ & D); auto|]. split; [exact TT|].
  assert (SumS : Qsumf (fun i => row_radius G (Sr i)) (seq 0 n) == Qsumf (sc_radius P) (zones P)).
  { rewrite zones_sum. fold n. apply Qsumf_ext. intros i Hi. apply in_seq in Hi. apply SS. lia. }
  assert (SumP : Qsumf (fun i => row_radius G (Pr i)) (seq 0 n) == Qsumf (periphery_radius P) (zones P)).
  { rewrite zones_sum. fold n. apply Qsumf_ext. intros i Hi. apply in_seq in Hi. apply PP. lia. }
  assert (Hn : (0 <= p_n P)%Z) by (destruct V as [V _]; auto).
  assert (Pw : 0 <= p_p P) by (destruct V as (_ & _ & _ & Vp & _); auto).
  split.
  - intros [Sz _ _ _ _ _ Aw Ou Ne Ins]. constructor.
    + unfold n in Sz. lia.
    + intro Hp. rewrite <- SumS. apply Aw. unfold n. lia.
    + rewrite <- SumS, <- SumP. auto.
    + intros z Hz T. set (i := Z.to_nat (z - 1)). assert (Hi : (i < n)%nat) by (unfold i, n; lia).
      replace z with (Z.of_nat i + 1)%Z in * by (unfold i; lia). destruct (SS i Hi) as (E1 & _). rewrite <- E1.
      apply Ne; auto. apply TT; auto.
    + intros z Hz T U. set (i := Z.to_nat (z - 1)). assert (Hi : (i < n)%nat) by (unfold i, n; lia).
      replace z with (Z.of_nat i + 1)%Z in * by (unfold i; lia). destruct (SS i Hi) as (E1 & _). rewrite <- E1, <- C1.
      apply Ins; auto; [apply TT; auto|]. intros j Hj. rewrite TT by lia. apply U. unfold n in Hj. lia.
  - intros [Sz Aw Ou Ne Ins]. constructor.
    + unfold n. lia.
    + unfold c. rewrite R0. apply HC.
    + intros i Hi. unfold Pr. destruct (RR i Hi) as [-> _]. destruct (HP i) as (A & _ & B & _). auto.
    + intros i Hi. unfold Sr. destruct (RR i Hi) as [_ ->]. destruct (HS i) as (A & _ & B & _). auto.
    + assert (Ic : f_id c = 0%Z) by (unfold c; rewrite R0; apply HC).
      assert (IP : forall i, (i < n)%nat -> f_id (Pr i) = (2 * Z.of_nat i + 1)%Z).
      { intros i Hi. unfold Pr. destruct (RR i Hi) as [-> _]. apply (HP i). }
      assert (IS : forall i, (i < n)%nat -> f_id (Sr i) = (2 * Z.of_nat i + 2)%Z).
      { intros i Hi. unfold Sr. destruct (RR i Hi) as [_ ->]. apply (HS i). }
      split.
      * intros i Hi. rewrite IP, IS by auto. lia.
      * intros i j Hij. rewrite !IP, !IS by lia. lia.
    + intros r Hr. apply city_rows_In in Hr. destruct Hr as [->|[i [Hi [->| ->]]]].
      * split; [auto|]. pose proof (cbd_angle_range P V). pose proof (cbd_radius_nonneg P V).
        pose proof (direction_range (cbd_radius P) (cbd_angle P)).
        assert (f_width c == p_p P) by (unfold c; rewrite R0; apply HC).
        split; [lra|]. split; [lra|]. split; [lra|]. split; [lra|]. intros _. unfold c. rewrite R0. apply HC.
      * destruct (PP i Hi) as (A & B & D & E). split; [auto|].
        pose proof (zone_angle_range P (Z.of_nat i + 1) V ltac:(lia)). pose proof (periphery_radius_nonneg P (Z.of_nat i + 1) V).
        pose proof (direction_range (periphery_radius P (Z.of_nat i + 1)) (zone_angle P (Z.of_nat i + 1))).
        split; [lra|]. split; [lra|]. split; [lra|]. split; [lra|]. intro K. exfalso. unfold Pr in K.
        destruct (RR i Hi) as [E1 _]. rewrite E1 in K. destruct (HP i) as (K' & _). cbn [f_kind row_of] in K. congruence.
      * destruct (SS i Hi) as (A & B & D & E). split; [auto|].
        pose proof (zone_angle_range P (Z.of_nat i + 1) V ltac:(lia)). pose proof (sc_radius_nonneg P (Z.of_nat i + 1) V).
        pose proof (direction_range (sc_radius P (Z.of_nat i + 1)) (zone_angle P (Z.of_nat i + 1))).
        split; [lra|]. split; [lra|]. split; [lra|]. split; [lra|]. intro K. exfalso. unfold Sr in K.
        destruct (RR i Hi) as [_ E1]. rewrite E1 in K. destruct (HS i) as (K' & _). cbn [f_kind row_of] in K. congruence.
    + intro Hp. rewrite SumS. apply Aw. unfold n in Hp. lia.
    + rewrite SumS, SumP. auto.
    + intros i Hi T. destruct (SS i Hi) as (E1 & _). rewrite E1. apply Ne; [unfold n in Hi; lia|]. apply TT; auto.
    + intros i Hi T U. destruct (SS i Hi) as (E1 & _). rewrite E1, C1. apply Ins; [unfold n in Hi; lia|apply TT; auto|].
      intros z' Hz'. set (j := Z.to_nat (z' - 1)). replace z' with (Z.of_nat j + 1)%Z by (unfold j; lia).
      rewrite <- TT by (unfold j, n; lia). apply U. unfold j, n. lia.
Qed.

(** A node after the round trip: the values of the text are the same, the radius is recovered, and
    so is the angle up to the conventions of the polar conversion. *)
Definition same_node (nd' nd : node) : Prop :=
  row_of nd' = row_of nd /\ nd_radius nd' == nd_radius nd /\
  nd_angle nd' == direction (nd_radius nd) (nd_angle nd).

(** With a polar conversion that recovers the positions of the nodes, the parametric cities that can
    be exported and imported again are those of [reimportable]; the import has the same nodes, zones
    and edges, and its parameters give every zone and the CBD the same place. *)
Theorem C08_parametric : forall G F P C, format_ok F -> build_from_parameters G P = Ok C ->
  (forall nd, In nd (g_nodes (c_graph C)) -> recovers G nd) ->
  let text := export_graph F (c_graph C) in
  ((exists C', build_from_content G F text = Ok C') <-> reimportable P) /\
  (forall C', build_from_content G F text = Ok C' ->
     let P' := c_params C' in
     Forall2 same_node (g_nodes (c_graph C')) (g_nodes (c_graph C)) /\
     g_zones (c_graph C') = g_zones (c_graph C) /\ g_edges (c_graph C') = g_edges (c_graph C) /\
     p_n P' = p_n P /\
     ((0 < p_n P)%Z -> p_p P' == p_p P /\ cbd_radius P' == cbd_radius P) /\
     (forall z, (1 <= z <= p_n P)%Z ->
        sc_radius P' z == sc_radius P z /\ periphery_radius P' z == periphery_radius P z /\
        zone_angle P' z == direction (sc_radius P z) (zone_angle P z))).
Proof.
  intros G F P C HF H Rec text.
  destruct (C08_round_trip G F P C HF H) as [A B].
  destruct (parametric_rows G P C H Rec) as (C1 & C2 & PP & SS & TT & CFi).
  set (n := Z.to_nat (p_n P)) in *. set (c := row_at (c_graph C) 0) in *.
  set (Pr := fun i => row_at (c_graph C) (2 * i + 1)) in *.
  set (Sr := fun i => row_at (c_graph C) (2 * i + 2)) in *.
  split; [unfold text; rewrite A; exact CFi|].
  intros C' H' P'. destruct (B C' H') as (N & Zo & Ed & Pn & CP). fold P' in Pn, CP.
  assert (V : valid_params P) by (destruct (city_facts _ _ _ H); auto).
  split; [|split; [auto|split; [auto|split; [auto|]]]].
  { rewrite N. clear - Rec. induction (g_nodes (c_graph C)) as [|nd l IH]; simpl; constructor.
    - destruct (Rec nd (or_introl eq_refl)) as (R1 & a & E & R2).
      split; [apply row_of_node|]. split; [exact R1|]. cbn [nd_angle node_of]. unfold row_angle.
      cbn [f_x f_y row_of]. rewrite E. exact R2.
    - apply IH. intros x Hx. apply Rec. right; auto. }
  assert (Zs : forall z, (1 <= z <= p_n P)%Z ->
     sc_radius P' z == sc_radius P z /\ periphery_radius P' z == periphery_radius P z /\
     zone_angle P' z == direction (sc_radius P z) (zone_angle P z)).
  { intros z Hz. assert (Hn : (0 < n)%nat) by (unfold n; lia). destruct (CP Hn) as [_ _ _ _ ca cG cH _].
    set (i := Z.to_nat (z - 1)). assert (Hi : (i < n)%nat) by (unfold i, n; lia).
    assert (Ez : z = (Z.of_nat i + 1)%Z) by (unfold i; lia).
    destruct (SS i Hi) as (S1 & S2 & _). pose proof (PP i Hi) as P1. rewrite <- Ez in *.
    destruct cG as (Gi & EG & LG & HG). destruct cH as (Hi' & EH & LH & HH).
    unfold sc_radius at 1, periphery_radius at 1, zone_angle at 1. rewrite EG, EH, ca. unfold ratio. fold i.
    split; [|split].
    - rewrite (nth_indep _ 1 0) by lia. rewrite <- S1. change (row_at (c_graph C) (2 * i + 2)) with (Sr i). rewrite <- (HG i Hi). ring.
    - rewrite (nth_indep _ 1 0) by lia. rewrite <- P1. change (row_at (c_graph C) (2 * i + 1)) with (Pr i). rewrite <- (HH i Hi). ring.
    - rewrite <- S2. rewrite (nth_indep _ _ (row_angle G (Sr 0%nat))) by (rewrite map_length, seq_length; auto).
      rewrite (map_nth (fun i => row_angle G (Sr i))), seq_nth by auto. reflexivity. }
  split; [|exact Zs].
  intro Hp. assert (Hn : (0 < n)%nat) by (unfold n; lia). destruct (CP Hn) as [_ _ _ cp _ _ _ ce].
  split.
  { rewrite cp. apply SS. lia. }
  unfold cbd_radius at 1. destruct (p_etha P') as [e|], (p_etha_zone P') as [z|]; try contradiction.
  - destruct ce as (i & Hi & -> & T & U & Ee). destruct (Zs (Z.of_nat i + 1)%Z) as [E3 _]; [unfold n in Hi; lia|]. rewrite E3.
    destruct (SS i Hi) as (E1 & _). rewrite <- E1.
    change (row_at (c_graph C) (2 * i + 2)) with (Sr i). rewrite Ee. exact C1.
  - destruct V as (_ & _ & _ & _ & Ve & _). unfold cbd_radius in *. unfold cbd_angle in *.
    destruct (p_etha P) as [e|] eqn:E1, (p_etha_zone P) as [z|] eqn:E2; try reflexivity.
    destruct Ve as [_ Hz]. destruct (Qeq_dec (e * sc_radius P z) 0) as [E0|E0]; [lra|]. exfalso.
    set (i := Z.to_nat (z - 1)). apply (ce i); [unfold i, n; lia|].
    apply TT; [unfold i, n; lia|]. replace (Z.of_nat i + 1)%Z with z by (unfold i; lia).
    unfold zone_towards, cbd_radius, cbd_angle. rewrite E1, E2.
    assert (direction (e * sc_radius P z) (zone_angle P z) = direction (sc_radius P z) (zone_angle P z)) as ->.
    { unfold direction. replace (Qeqb (e * sc_radius P z) 0) with false by (symmetry; apply Qeqb_neq; auto).
      replace (Qeqb (sc_radius P z) 0) with false; [reflexivity|]. symmetry. apply Qeqb_neq. intro X. apply E0. rewrite X. lra. }
    split; lra.
Qed.
Print Assumptions C08_parametric.
(** the hypotheses of [C08_parametric], with an off-centre CBD and distinct ratios *)
Lemma recovers_dec_sound G nd a : get_angle G (nd_x nd) (nd_y nd) = Ok a ->
  Qeqb (row_radius G (row_of nd)) (nd_radius nd) = true ->
  Qeqb a (direction (nd_radius nd) (nd_angle nd)) = true -> recovers G nd.
Proof.
  intros E A B. split; [apply Qeqb_eq; auto|]. exists a. split; [auto|]. apply Qeqb_eq; auto.
Qed.
Definition recoversb (G : geo) (nd : node) : bool :=
  match get_angle G (nd_x nd) (nd_y nd) with
  | Ok a => (Qeqb (row_radius G (row_of nd)) (nd_radius nd) && Qeqb a (direction (nd_radius nd) (nd_angle nd)))%bool
  | Err _ => false
  end.
Lemma recoversb_sound G l : forallb (recoversb G) l = true -> forall nd, In nd l -> recovers G nd.
Proof.
  intros H nd Hin. rewrite forallb_forall in H. specialize (H nd Hin). unfold recoversb in H.
  destruct (get_angle G (nd_x nd) (nd_y nd)) as [a|] eqn:E; [|discriminate].
  apply andb_true_iff in H. destruct H. eapply recovers_dec_sound; eauto.
Qed.
Example C08_parametric_ex : exists C, build_from_parameters ex_geo Props_Graph.ex_params = Ok C /\
  (forall nd, In nd (g_nodes (c_graph C)) -> recovers ex_geo nd) /\ reimportable Props_Graph.ex_params.
Proof.
  destruct Props_Graph.ex_params_built as [C [H _]]. exists C. split; [auto|].
  assert (R : forall nd, In nd (g_nodes (c_graph C)) -> recovers ex_geo nd).
  { apply recoversb_sound. vm_compute in H. injection H as <-. vm_compute. reflexivity. }
  split; [auto|]. apply (C08_parametric ex_geo ex_fmt _ C ex_fmt_ok H R).
  vm_compute in H. injection H as <-. eexists. vm_compute. reflexivity.
Qed.

(** Every city without ratios, of positive radius and fewer than 5000 zones, survives the round trip,
    whatever its angles and wherever its CBD. *)
Theorem C08_plain_city : forall G F P C, format_ok F -> build_from_parameters G P = Ok C ->
  (forall nd, In nd (g_nodes (c_graph C)) -> recovers G nd) ->
  p_Gi P = None -> p_Hi P = None -> 0 < p_l P -> (p_n P < 5000)%Z ->
  exists C', build_from_content G F (export_graph F (c_graph C)) = Ok C'.
Proof.
  intros G F P C HF H Rec EG EH Hl Hn. apply (C08_parametric G F P C HF H Rec).
  assert (V : valid_params P) by (destruct (city_facts _ _ _ H); auto).
  pose proof V as (V0 & _ & Vg & _ & Ve & _).
  assert (ES : forall z, sc_radius P z == p_l P). { intro z. unfold sc_radius, ratio. rewrite EG. ring. }
  assert (EP : forall z, periphery_radius P z == p_l P + p_g P * p_l P).
  { intro z. unfold periphery_radius, ratio. rewrite EH. ring. }
  constructor; auto.
  - intro Hp. rewrite (Qsumf_ext _ (fun _ => p_l P)) by auto. rewrite Qsumf_const.
    unfold zones. rewrite map_length, seq_length. pose proof (Qofnat_pos (Z.to_nat (p_n P)) ltac:(lia)). nra.
  - apply Qsumf_le. intros z _. rewrite ES, EP. nra.
  - intros z _ _. rewrite ES. lra.
  - intros z _ _ _. rewrite ES. unfold cbd_radius. destruct (p_etha P), (p_etha_zone P); try lra.
    rewrite ES. destruct Ve as [[] _]. nra.
Qed.
Print Assumptions C08_plain_city.
Example C08_plain_city_ex : exists C,
  build_from_parameters ex_geo (Props_Graph.ex_params_sym 4) = Ok C /\
  (forall nd, In nd (g_nodes (c_graph C)) -> recovers ex_geo nd).
Proof.
  eexists. split; [vm_compute; reflexivity|]. apply recoversb_sound. vm_compute. reflexivity.
Qed.

(** ** Stability: an imported city is exported and imported without any change *)
Lemma words_aux_word s : forall cur, sall not_ws cur = true ->
  forall w, In w (words_aux cur s) -> one_word w.
Proof.
  induction s as [|a s IH]; intros cur Hc w Hw; cbn [words_aux] in Hw.
  - destruct cur; [destruct Hw|]. destruct Hw as [<-|[]]. apply one_word_iff. split; [discriminate|auto].
  - destruct (is_ws a) eqn:E.
    + destruct cur.
      * apply (IH EmptyString); auto.
      * destruct Hw as [<-|Hw]; [apply one_word_iff; split; [discriminate|auto]|]. apply (IH EmptyString); auto.
    + apply (IH (cur ++ String a EmptyString)%string); auto. rewrite sall_app, Hc. simpl. unfold not_ws. rewrite E. reflexivity.
Qed.
Lemma words_word s w : In w (words s) -> one_word w.
Proof. apply words_aux_word. reflexivity. Qed.
Lemma says_name F k lines fs : table (line_says F) k lines fs -> forall f, In f fs -> one_word (f_name f).
Proof.
  intros T f Hf. destruct (table_line _ _ _ _ T f Hf) as (l & _ & sid & sx & sy & sz & sw & W & _).
  apply (words_word l). rewrite W. right; left; auto.
Qed.

(** The text of an imported city that has a node is accepted again and gives the same graph. *)
Theorem C08_stable : forall G F data C, format_ok F -> build_from_content G F data = Ok C ->
  g_nodes (c_graph C) <> [] ->
  exists C', build_from_content G F (export_graph F (c_graph C)) = Ok C' /\
    c_graph C' = c_graph C /\ p_n (c_params C') = p_n (c_params C).
Proof.
  intros G F data C HF H Ne.
  unfold build_from_content in H. apply bind_ok in H. destruct H as [rows [H1 H2]].
  apply read_rows_table in H1.
  apply import_inv in H2. destruct H2 as (fs & R' & Im & Ids & Ed).
  pose proof (table_says _ _ _ _ _ H1 R') as Ls.
  assert (W : forall f, In f fs -> one_word (f_name f)) by (eapply says_name; eauto).
  assert (X : exists n c P S, city_file G n c P S /\ g_nodes (c_graph C) = map (node_of G) (city_rows n c P S) /\
     (forall f, In f (city_rows n c P S) -> one_word (f_name f)) /\ g_zones (c_graph C) = city_zones n /\
     p_n (c_params C) = Z.of_nat n).
  { destruct Im as [r E Pl N0 Nd Zo _|n c P S Hn CF Pm [CN CZ _ _ _] CP].
    - destruct (kind_eqb (f_kind r) CBD) eqn:K; [|congruence].
      assert (Kr : f_kind r = CBD) by (destruct (f_kind r); auto; discriminate).
      exists 0%nat, r, (fun _ => r), (fun _ => r). split; [|split; [exact Nd|split; [|split; [auto|auto]]]].
      + constructor; try (intros; lia); auto.
        * split; intros; lia.
        * intros r' [<-|[]]. auto.
        * apply Qle_refl.
      + intros f [<-|[]]. apply W. rewrite E. left; auto.
    - exists n, c, P, S. split; [auto|]. split; [auto|]. split; [|split; [|apply (cp_n _ _ _ _ _ _ CP)]].
      + intros f Hf. apply W. eapply Permutation_in; [apply Permutation_sym; eauto|auto].
      + rewrite CZ. unfold city_zones. apply map_ext. intro i. unfold PZ, SZ. f_equal; lia. }
  destruct X as (n & c & P & S & CF & CN & Wn & CZ & Pn).
  assert (Wg : forall nd, In nd (g_nodes (c_graph C)) -> one_word (nd_name nd)).
  { rewrite CN. intros nd Hnd. apply in_map_iff in Hnd. destruct Hnd as (f & <- & Hf). apply (Wn f Hf). }
  assert (Rw : map row_of (g_nodes (c_graph C)) = city_rows n c P S).
  { rewrite CN, map_map. rewrite <- map_id. apply map_ext. intro f. apply row_of_node. }
  pose proof CF as [_ Kc KP KS _ _ _ _ _ _].
  destruct (export_import G F (c_graph C) n c P S HF Wg Rw Kc KP KS) as [A B].
  destruct (proj2 A CF) as [C' H']. exists C'. split; [auto|].
  destruct (B C' H') as (B1 & B2 & B3 & B4 & B5 & _). split; [|congruence].
  rewrite CZ, city_zones_length in Ed.
  destruct (c_graph C') as [n1 i1 z1 e1], (c_graph C) as [n2 i2 z2 e2]. cbn [g_nodes g_nodes_id g_zones g_edges] in *.
  subst. reflexivity.
Qed.
Print Assumptions C08_stable.
Example C08_stable_ex : exists C, build_from_content ex_geo ex_fmt (ex_text ex_file) = Ok C /\
  g_nodes (c_graph C) <> [].
Proof. eexists. split; [vm_compute; reflexivity|]. discriminate. Qed.

(** ** Valid cities that cannot be exported and imported again *)
Definition lost (P : params) (e : exn) : Prop :=
  exists C, build_from_parameters ex_geo P = Ok C /\
    (forall nd, In nd (g_nodes (c_graph C)) -> recovers ex_geo nd) /\
    build_from_content ex_geo ex_fmt (export_graph ex_fmt (c_graph C)) = Err e.
Ltac show_lost := eexists; split; [vm_compute; reflexivity|split; [apply recoversb_sound; vm_compute; reflexivity|vm_compute; reflexivity]].

(** "Every valid city can be exported and imported again" fails for: radius zero (graph.py 617); a
    mean Hi that puts the peripheries nearer than the subcenters (g < 0, graph.py 331); a subcenter at
    the origin (graph.py 612); two zones in one direction, the CBD between them (graph.py 611-613). *)
Theorem C08_every_city_refuted :
  lost (mkParams 1 0 (1#2) 2 None None None None None) ZeroDivisionError /\
  lost (mkParams 2 10 0 2 None None (Some [0; 180]) None (Some [1; (1#2)])) GIsNotValidNumberException /\
  lost (mkParams 2 10 (1#2) 2 None None (Some [90; 180]) (Some [0; 1]) None) ZeroDivisionError /\
  lost (mkParams 2 10 1 2 (Some 1) (Some 1%Z) (Some [90; 90]) (Some [(3#2); (1#2)]) None) EthaValueIsNotValidException.
Proof. repeat split; show_lost. Qed.
Print Assumptions C08_every_city_refuted.
