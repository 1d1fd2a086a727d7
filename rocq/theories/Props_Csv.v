(** * Props_Csv: C85, the file of the lines can be read back whatever the names *)
From Coq Require Import String Ascii List ZArith Bool Lia.
From Verif Require Import PyBase PyFacts PyStr PyStrFacts Graph Mode Route RouteSpec RouteProofs Network SavedSpec Csv CsvSpec ReportSpec Props_Mode Props_Network Props_Saved.
Import ListNotations.
Local Open Scope string_scope.

Lemma app_assoc_s a b c : ((a ++ b) ++ c = a ++ b ++ c)%string.
Proof. induction a as [|x a IH]; cbn; [reflexivity|]. now rewrite IH. Qed.
Lemma app_nil_s a : (a ++ "" = a)%string.
Proof. induction a as [|x a IH]; cbn; [reflexivity|]. now rewrite IH. Qed.

(** a text that reader and writer take for the same: no carriage return, unless the writer quotes it or the reader takes it
    for an ordinary character *)
Definition readable (new crlf : bool) (s : string) : Prop := crlf = true -> new = true \/ free_of [cr] s.

Lemma readable_tl new crlf c s : readable new crlf (String c s) -> readable new crlf s.
Proof. intros H E. destruct (H E) as [K|K]; [auto|right]. intros a Ha. apply K. now right. Qed.

Definition ender (c : ascii) : Prop := c = sep \/ c = lf.
Lemma read_bare new crlf c rest : ender c -> forall f st cur row, has_special new f = false -> readable new crlf f ->
  st = Bare \/ st = AtStart ->
  read_csv crlf st cur row (f ++ String c rest) = read_csv crlf (match f with "" => st | _ => Bare end) (cur ++ f) row (String c rest).
Proof.
  intros EC. induction f as [|a f IH]; intros st cur row H R S; [now rewrite app_nil_s|].
  cbn [has_special] in H. apply orb_false_iff in H as [H1 H2]. unfold special in H1.
  apply orb_false_iff in H1 as [H1 H3]. apply orb_false_iff in H1 as [H1 H4]. apply orb_false_iff in H1 as [H1 H5].
  assert (L : line_end crlf a = false).
  { unfold line_end. change "010"%char with lf. change "013"%char with cr. rewrite H4. cbn [orb]. destruct crlf; [|reflexivity]. cbn [andb].
    destruct (R eq_refl) as [->|K]; [exact H3|]. apply Ascii.eqb_neq. intros ->. apply (K cr); cbn; auto. }
  assert (E : read_csv crlf st cur row (String a f ++ String c rest) = read_csv crlf Bare (cur ++ String a "") row (f ++ String c rest)).
  { cbn [append read_csv]. change ";"%char with sep. change """"%char with quote. rewrite H1, L, H5. destruct S as [-> | ->]; reflexivity. }
  rewrite E, IH; [|exact H2|eapply readable_tl; eauto|auto]. rewrite app_assoc_s. cbn [append]. destruct f; reflexivity.
Qed.
Lemma read_quoted crlf c rest : ender c -> forall f cur row,
  read_csv crlf InQuotes cur row (double_quotes f ++ String quote (String c rest)) = read_csv crlf AfterQuote (cur ++ f) row (String c rest).
Proof.
  intros EC. induction f as [|a f IH]; intros cur row.
  - rewrite app_nil_s. reflexivity.
  - cbn [double_quotes]. destruct (Ascii.eqb a quote) eqn:E.
    + apply Ascii.eqb_eq in E. subst a. cbn [append]. transitivity (read_csv crlf InQuotes (cur ++ String quote "") row (double_quotes f ++ String quote (String c rest))).
      * destruct crlf; reflexivity.
      * rewrite IH, app_assoc_s. reflexivity.
    + cbn [append read_csv]. change """"%char with quote. rewrite E, IH, app_assoc_s. reflexivity.
Qed.
Lemma read_field new crlf c rest f row : ender c -> readable new crlf f ->
  exists st, read_csv crlf AtStart "" row (csv_field new f ++ String c rest) = read_csv crlf st f row (String c rest) /\
    st <> InQuotes /\ (st = AtStart -> f = "").
Proof.
  intros EC R. unfold csv_field. destruct (has_special new f) eqn:H.
  - exists AfterQuote. split; [|split; discriminate]. unfold quoted. cbn [append]. rewrite app_assoc_s. cbn [append].
    change (read_csv crlf AfterQuote f row (String c rest)) with (read_csv crlf AfterQuote ("" ++ f) row (String c rest)).
    rewrite <- (read_quoted crlf c rest EC f "" row). destruct crlf; reflexivity.
  - exists (match f with "" => AtStart | _ => Bare end). split; [apply (read_bare new crlf c rest EC f AtStart "" row H R); auto|].
    destruct f; split; try discriminate; auto.
Qed.
Lemma read_sep crlf st cur row rest : st <> InQuotes -> read_csv crlf st cur row (String sep rest) = read_csv crlf AtStart "" (row ++ [cur])%list rest.
Proof. destruct st; intros H; try reflexivity. congruence. Qed.
Lemma read_lf crlf st cur row rest : st <> InQuotes -> (st = AtStart -> row <> []) ->
  read_csv crlf st cur row (String lf rest) = ((row ++ [cur])%list :: read_csv crlf AtStart "" [] rest)%list.
Proof. destruct st; intros H K; try reflexivity; [|congruence]. destruct row; [exfalso; apply K; reflexivity|reflexivity]. Qed.
Lemma read_fields new crlf rest : forall l row, l <> [] -> Forall (readable new crlf) l -> (row = [] -> l <> [""]) ->
  read_csv crlf AtStart "" row (csv_fields new l ++ String lf rest) = ((row ++ l)%list :: read_csv crlf AtStart "" [] rest)%list.
Proof.
  induction l as [|s l IH]; intros row N R K; [congruence|]. inversion R as [|? ? R1 R2]; subst. destruct l as [|s' l].
  - cbn [csv_fields]. destruct (read_field new crlf lf rest s row (or_intror eq_refl) R1) as (st & -> & S1 & S2).
    apply read_lf; [exact S1|]. intros E ->. apply K; [reflexivity|]. now rewrite (S2 E).
  - cbn [csv_fields]. rewrite app_assoc_s. cbn [append].
    destruct (read_field new crlf sep (csv_fields new (s' :: l) ++ String lf rest) s row (or_introl eq_refl) R1) as (st & E & S1 & _).
    cbn [csv_fields] in *. rewrite E, read_sep by exact S1. rewrite IH; [|discriminate|exact R2|destruct row; discriminate].
    rewrite <- app_assoc. reflexivity.
Qed.
Lemma read_one new crlf rest l : l <> [] -> Forall (readable new crlf) l ->
  read_csv crlf AtStart "" [] (csv_row new l ++ rest) = (l :: read_csv crlf AtStart "" [] rest)%list.
Proof.
  intros N R. unfold csv_row. rewrite app_assoc_s. cbn [append].
  destruct l as [|[|c s] [|s' l]]; [congruence|destruct crlf; reflexivity| | |]; apply (read_fields new crlf rest _ []); auto; discriminate.
Qed.

(** C85: whatever the texts in a table, the file gives the table back: same rows, same fields, character by character *)
Theorem C85_table : forall new crlf rows,
  Forall (fun l => l <> [] /\ Forall (readable new crlf) l) rows -> csv_table crlf (csv_text new rows) = rows.
Proof.
  intros new crlf rows H. unfold csv_table. induction H as [|l rows [N R] _ IH]; [reflexivity|]. cbn [csv_text].
  rewrite read_one by auto. now rewrite IH.
Qed.
Print Assumptions C85_table.

(** nothing is lost in the file: two networks with the same file have the same rows (ids, names of modes, sequences) *)
Theorem C85_faithful : forall new nw nw', routes_to_file new nw = routes_to_file new nw' -> routes_table nw = routes_table nw'.
Proof.
  intros new nw nw' E. apply (f_equal (csv_table false)) in E. unfold routes_to_file in E.
  assert (A : forall t, Forall (fun l : list string => l <> [] /\ Forall (readable new false) l) (routes_header :: map routes_row t)).
  { intros t. constructor; [split; [discriminate|apply Forall_forall; intros s _ K; discriminate]|]. apply Forall_forall. intros l I.
    apply in_map_iff in I as ([[[[[a b] c] d] e] f] & <- & _). split; [discriminate|apply Forall_forall; intros s _ K; discriminate]. }
  rewrite !C85_table in E by apply A. injection E as E. revert E. generalize (routes_table nw) (routes_table nw').
  intros l. induction l as [|[[[[[a b] c] d] e] f] l IH]; intros [|[[[[[a' b'] c'] d'] e'] f'] l'] E; cbn in E; try discriminate; [reflexivity|].
  injection E as -> -> -> -> -> -> E. now rewrite (IH l' E).
Qed.
Print Assumptions C85_faithful.

Lemma free_app l a b : free_of l a -> free_of l b -> free_of l (a ++ b).
Proof.
  intros A B x. induction a as [|y a IH]; [apply B|]. cbn. intros [->|I]; [apply A; now left|].
  apply IH; [|exact I]. intros z Hz. apply A. now right.
Qed.
Lemma int_free z : free_of [cr] (str_of_Z z).
Proof.
  pose proof (str_of_Z_chars z) as H. revert H. generalize (str_of_Z z) as s. induction s as [|c s IH]; intros H x; [intros []|].
  cbn [sall] in H. apply andb_true_iff in H as [H1 H2]. intros [->|I]; [|exact (IH H2 x I)]. intros [<-|[]]. vm_compute in H1. discriminate.
Qed.
Lemma digits_free l : free_of [cr] (sequences_to_string l).
Proof.
  rewrite sequences_to_string_concat. induction l as [|z l IH]; [intros x []|]. destruct l as [|z' l]; [apply int_free|].
  change (String.concat "," (map str_of_Z (z :: z' :: l))) with (str_of_Z z ++ "," ++ String.concat "," (map str_of_Z (z' :: l)))%string.
  apply free_app; [apply int_free|]. apply free_app; [|exact IH]. intros x [<-|[]]. intros [E|[]]. discriminate.
Qed.

(** C85: the lines are read back from the text of the file, whatever the ids and the names of the modes (C71 is about the rows) *)
Theorem C85_reload : forall new crlf g ops,
  one_object_each ops -> (forall m, ~ In (NRemoveMode m) ops) ->
  (forall r, In (NAddRoute r) ops -> valid_line (r_ni r) (r_nr r) (r_si r) (r_sr r)) ->
  (forall r, In (NAddRoute r) ops -> readable new crlf (r_id r) /\ readable new crlf (m_name (r_mode r))) ->
  let nw := nrun (new_network g) ops in
  let saved := map as_custom (nw_routes nw) in
  read_routes crlf (nw_modes nw) (routes_to_file new nw) = Ok saved /\
  nw_routes (nrun (new_network g) (map NAddRoute saved)) = saved.
Proof.
  intros new crlf g ops ONE NR VL RD nw saved. destruct (C71_saved_routes_reload g ops ONE NR VL) as [R1 R2]. fold nw in R1, R2. fold saved in R1, R2.
  split; [|exact R2]. unfold read_routes, routes_to_file. rewrite C85_table.
  - cbn [tl]. rewrite <- R1. generalize (routes_table nw). intros t. induction t as [|[[[[[a b] c] d] e] f] t IH]; [reflexivity|].
    cbn [map mapM routes_row as_row bind]. now rewrite IH.
  - destruct (routes_from_ops g ops) as [FR _]. fold nw in FR. constructor.
    + split; [discriminate|]. repeat (apply Forall_cons; [intros _; right; intros x Hx [<-|[]]; vm_compute in Hx; intuition discriminate|]). apply Forall_nil.
    + apply Forall_forall. intros l I. apply in_map_iff in I as (w & <- & I). unfold routes_table in I. apply in_map_iff in I as (r & <- & I).
      cbn [routes_row]. split; [discriminate|]. destruct (RD r (FR r I)) as [A B].
      assert (D : forall l, readable new crlf (sequences_to_string l)) by (intros l _; right; apply digits_free).
      repeat (apply Forall_cons; [auto|]). apply Forall_nil.
Qed.
Print Assumptions C85_reload.

(** a line with an awkward id: separator, quotes, an end of line *)
Definition awkward : string := "a;""b"" " ++ String lf "c;".
Definition ex_awkward : list nop := [NAddRoute (mk awkward ex_bus [1;2;0]%Z [0;2;1]%Z); NAddRoute (mk "" ex_bus [3;4]%Z [4;3]%Z)].
Example C85_ex : (one_object_each ex_awkward /\ (forall m, ~ In (NRemoveMode m) ex_awkward) /\
    (forall r, In (NAddRoute r) ex_awkward -> valid_line (r_ni r) (r_nr r) (r_si r) (r_sr r)) /\
    (forall r, In (NAddRoute r) ex_awkward -> readable false true (r_id r) /\ readable false true (m_name (r_mode r)))) /\
  let nw := nrun (new_network ex_g) ex_awkward in
  map r_id (nw_routes nw) = [awkward; ""] /\
  routes_to_file false nw = csv_text false [routes_header] ++ """a;""""b"""" " ++ String lf "c;"";bus;1,2,0;0,2,1;1,2,0;0,2,1" ++ String lf ";bus;3,4;4,3;3,4;4,3" ++ String lf "".
Proof.
  split; [|split; vm_compute; reflexivity]. split; [|split; [|split]].
  - intros o o' m m' Ho Ho' E E' R. cbn [ex_awkward In] in Ho, Ho'.
    destruct Ho as [<-|[<-|[]]], Ho' as [<-|[<-|[]]]; cbn in E, E'; inversion E; inversion E'; subst; reflexivity.
  - intros m H. cbn in H. intuition discriminate.
  - intros r H. cbn [ex_awkward In] in H. destruct H as [E|[E|[]]]; inversion E; subst; cbn [r_ni r_nr r_si r_sr mk].
    + split; [|repeat split; try (repeat constructor; cbn; intuition discriminate); apply incl_refl]. exists 1%Z, 0%Z. repeat split; [exists [2;0]%Z|exists [1;2]%Z|exists [2;1]%Z|exists [0;2]%Z|exists [2;0]%Z|exists [1;2]%Z|exists [2;1]%Z|exists [0;2]%Z]; reflexivity.
    + split; [|repeat split; try (repeat constructor; cbn; intuition discriminate); apply incl_refl]. exists 3%Z, 4%Z. repeat split; [exists [4]%Z|exists [3]%Z|exists [3]%Z|exists [4]%Z|exists [4]%Z|exists [3]%Z|exists [3]%Z|exists [4]%Z]; reflexivity.
  - intros r H. cbn [ex_awkward In] in H. destruct H as [E|[E|[]]]; inversion E; subst; split; intros _; right; intros x Hx [<-|[]]; vm_compute in Hx; intuition discriminate.
Qed.

(** Before Python 3.13 the writer does not quote a carriage return, which Python's own reader takes for the end of a line:
    a line with one in its id is saved, and its file is read as other rows. *)
Theorem C85_carriage_return_refuted : exists g r, let nw := nrun (new_network g) [NAddRoute r] in
  nw_routes nw = [r] /\ csv_table true (routes_to_file false nw) <> routes_header :: map routes_row (routes_table nw) /\
  csv_table true (routes_to_file true nw) = routes_header :: map routes_row (routes_table nw).
Proof.
  exists ex_g, (mk ("a" ++ String cr "b") ex_bus [1;2;0]%Z [0;2;1]%Z). split; [vm_compute; reflexivity|]. split; [|vm_compute; reflexivity].
  intros E. apply (f_equal (@length (list string))) in E. vm_compute in E. discriminate.
Qed.
Print Assumptions C85_carriage_return_refuted.
