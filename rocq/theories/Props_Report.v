(** * Props_Report: the texts of the reports *)
From Coq Require Import String Ascii List ZArith QArith Qabs Bool Lia Lqa Decimal DecimalString Znumtheory.
From Verif Require Import PyBase PyFacts PyStr PyStrFacts Graph Mode Route Network Pajek PajekSpec PajekProofs Props_Pajek ExtGraph Hyperpath Assignment Costs UsersCost Optimizer Results Report ReportSpec Props_Ext Props_Hyper Props_Opt Props_Loads.
Import ListNotations.
Local Open Scope Q_scope.

Lemma hundredths_nonneg q : (0 <= hundredths q)%Z.
Proof.
  unfold hundredths. set (t := 100 * Qabs q). assert (T : 0 <= t) by (unfold t; pose proof (Qabs_nonneg q); lra). assert (N : (0 <= Qnum t)%Z) by (destruct t; unfold Qle in T; cbn in *; lia).
  assert (K : (0 <= Qnum t / Zpos (Qden t))%Z) by (apply Z.div_pos; lia). repeat (match goal with |- context [if ?b then _ else _] => destruct b end); lia.
Qed.
Lemma hundredths_near q : Qabs (inject_Z (hundredths q) / 100 - Qabs q) <= 1 # 200.
Proof.
  unfold hundredths. set (t := 100 * Qabs q). assert (ET : Qabs q == t / 100) by (unfold t; field). rewrite ET. clearbody t. clear ET.
  set (d := Zpos (Qden t)). assert (Ed : t == inject_Z (Qnum t) / inject_Z d) by (destruct t as [n e]; unfold d; cbn; rewrite (Qmake_Qdiv n e); reflexivity).
  assert (D : (0 < d)%Z) by (unfold d; lia). pose proof (Z.div_mod (Qnum t) d ltac:(lia)) as E. pose proof (Z.mod_pos_bound (Qnum t) d D) as B. set (k := (Qnum t / d)%Z) in *. set (r := (Qnum t mod d)%Z) in *.
  assert (Dq : 0 < inject_Z d) by (unfold Qlt; cbn; lia). assert (ET : t == inject_Z k + inject_Z r / inject_Z d) by (rewrite Ed, E, inject_Z_plus, inject_Z_mult; field; lra).
  assert (R0 : 0 <= inject_Z r / inject_Z d) by (apply Qle_shift_div_l; auto; rewrite Qmult_0_l; unfold Qle; cbn; lia).
  assert (R1 : (2 * r <= d)%Z -> inject_Z r / inject_Z d <= 1 # 2) by (intro L; apply Qle_shift_div_r; auto; unfold Qle; cbn; lia).
  assert (R2 : (d <= 2 * r)%Z -> (1 # 2) <= inject_Z r / inject_Z d) by (intro L; apply Qle_shift_div_l; auto; unfold Qle; cbn; lia).
  assert (R3 : inject_Z r / inject_Z d <= 1) by (apply Qle_shift_div_r; auto; unfold Qle; cbn; lia).
  rewrite ET. set (x := inject_Z r / inject_Z d) in *. apply Qabs_Qle_condition. assert (HD : forall a, a / 100 == a * (1 # 100)) by (intro a; field). rewrite !HD. clear HD.
  assert (KP : inject_Z (k + 1) == inject_Z k + 1) by (rewrite inject_Z_plus; reflexivity).
  destruct (Z.ltb_spec (2 * r) d) as [L|L]; [specialize (R1 ltac:(lia)); split; lra|].
  destruct (Z.ltb_spec d (2 * r)) as [L2|L2]; [specialize (R2 ltac:(lia)); rewrite KP; split; lra|]. specialize (R1 L2). specialize (R2 L).
  destruct (Z.even k); [split; lra|rewrite KP; split; lra].
Qed.
Lemma one_digit z : (0 <= z <= 9)%Z -> exists c, str_of_Z z = String c EmptyString /\ digit_val c = Some z.
Proof.
  intro H. assert (C : (z = 0 \/ z = 1 \/ z = 2 \/ z = 3 \/ z = 4 \/ z = 5 \/ z = 6 \/ z = 7 \/ z = 8 \/ z = 9)%Z) by lia.
  repeat destruct C as [C|C]; subst z; eexists; (split; [vm_compute; reflexivity|vm_compute; reflexivity]).
Qed.
Lemma str_of_nat_digits z : (0 <= z)%Z -> sall is_digit (str_of_Z z) = true.
Proof.
  intro H. unfold str_of_Z. destruct z as [|p|p]; [reflexivity| |lia]. cbn [Z.to_int NilZero.string_of_int]. unfold NilZero.string_of_uint. destruct (Pos.to_uint p) eqn:E; try reflexivity; rewrite <- E || idtac; try (exact (string_of_uint_digits _)).
Qed.
Lemma digit_chars a : is_digit a = true -> int_char a = true.
Proof. unfold int_char. intro H. rewrite H. reflexivity. Qed.
Lemma int_char_not c a : int_char a = true -> int_char c = false -> not_char c a = true.
Proof. intros H1 H2. unfold not_char. destruct (Ascii.eqb_spec a c); [subst; congruence|reflexivity]. Qed.

Lemma fmt2_shows q : shows (fmt2 q) q.
Proof.
  unfold shows, fmt2. set (k := hundredths q). assert (K : (0 <= k)%Z) by apply hundredths_nonneg.
  assert (M1 : (0 <= k mod 100 / 10 <= 9)%Z) by (pose proof (Z.mod_pos_bound k 100 ltac:(lia)); split; [apply Z.div_pos; lia|apply Z.lt_succ_r; apply Z.div_lt_upper_bound; lia]).
  assert (M2 : (0 <= k mod 10 <= 9)%Z) by (pose proof (Z.mod_pos_bound k 10 ltac:(lia)); lia).
  destruct (one_digit _ M1) as (c & Ec & Vc), (one_digit _ M2) as (d & Ed & Vd). rewrite Ec, Ed.
  assert (EK : (k = k / 100 * 100 + (10 * (k mod 100 / 10) + k mod 10))%Z).
  { pose proof (Z.div_mod k 100 ltac:(lia)). pose proof (Z.div_mod (k mod 100) 10 ltac:(lia)). assert (E10 : (k mod 100 mod 10 = k mod 10)%Z) by (symmetry; apply Znumtheory.Zmod_div_mod; try lia; exists 10%Z; lia). lia. }
  assert (RA : read_abs2 (str_of_Z (k / 100) ++ "." ++ String c EmptyString ++ String d EmptyString) = Some (inject_Z (k / 100) + (10 * (k mod 100 / 10) + k mod 10 # 100))).
  { unfold read_abs2. cbn [String.append]. rewrite split_on_cons by (apply sall_impl with (p := int_char); [intros a Ha; apply int_char_not; auto|apply str_of_Z_chars]).
    assert (DC : forall x y, digit_val x = Some y -> not_char "." x = true) by (intros x y E; apply int_char_not; [|reflexivity]; apply digit_chars; unfold is_digit; rewrite E; reflexivity).
    rewrite split_on_none by (cbn; rewrite (DC _ _ Vc), (DC _ _ Vd); reflexivity). rewrite int_of_str_of_Z, Vc, Vd. reflexivity. }
  assert (VK : inject_Z (k / 100) + (10 * (k mod 100 / 10) + k mod 10 # 100) == inject_Z k / 100).
  { assert (IK : inject_Z k == inject_Z (k / 100 * 100 + (10 * (k mod 100 / 10) + k mod 10))) by (rewrite <- EK; reflexivity). rewrite IK, inject_Z_plus, inject_Z_mult. rewrite (Qmake_Qdiv (10 * (k mod 100 / 10) + k mod 10) 100). change (inject_Z 100) with 100. field. }
  pose proof (hundredths_near q) as NE. fold k in NE.
  destruct (Qltb q 0) eqn:EQ.
  - apply Qltb_lt in EQ. exists (- (inject_Z (k / 100) + (10 * (k mod 100 / 10) + k mod 10 # 100))). split; [change (option_map Qopp (read_abs2 (str_of_Z (k / 100) ++ "." ++ String c EmptyString ++ String d EmptyString)) = Some (- (inject_Z (k / 100) + (10 * (k mod 100 / 10) + k mod 10 # 100)))); rewrite RA; reflexivity|]. rewrite VK. rewrite (Qabs_neg q) in NE by lra. apply Qabs_Qle_condition in NE. apply Qabs_Qle_condition. destruct NE. split; lra.
  - apply Qltb_ge in EQ. cbn [String.append]. eexists. split.
    + unfold read2. pose proof (str_of_Z_nonempty (k / 100)) as NN. pose proof (str_of_nat_digits (k / 100) ltac:(apply Z.div_pos; lia)) as DG. destruct (str_of_Z (k / 100)) as [|a s] eqn:ES; [congruence|]. cbn [String.append] in *. destruct (Ascii.eqb_spec a "-") as [Ea|Ea]; [subst a; cbn in DG; discriminate|]. exact RA.
    + rewrite VK. rewrite (Qabs_pos q) in NE by lra. exact NE.
Qed.

(** ** tables *)
Lemma free_sall c l s : free_of l s -> In c l -> sall (not_char c) s = true.
Proof. intros H Hc. apply sall_In. intros a Ha. unfold not_char. destruct (Ascii.eqb_spec a c); auto. subst. exfalso. apply (H c); auto. Qed.
Lemma tidy_sall F q c : tidy F -> In c [";"; ","; "("; ")"]%char \/ is_ws c = true -> sall (not_char c) (nf_show F q) = true.
Proof. intros T Hc. apply sall_In. intros a Ha. destruct (T q) as [_ H]. destruct (H a Ha) as [H1 H2]. unfold not_char. destruct (Ascii.eqb_spec a c); auto. subst. destruct Hc; congruence || contradiction. Qed.
Lemma tidy_strip F q : tidy F -> strip (nf_show F q) = nf_show F q.
Proof. intro T. apply strip_id. apply sall_In. intros a Ha. unfold not_ws. rewrite (proj1 (proj2 (T q) a Ha)). reflexivity. Qed.
Lemma int_sall z c : int_char c = false -> sall (not_char c) (str_of_Z z) = true.
Proof. intro H. apply sall_impl with (p := int_char); [intros a Ha; apply int_char_not; auto|apply str_of_Z_chars]. Qed.
Definition inner (F : numfmt) (t : Z * Z * Q) : string := let '(i, j, c) := t in (str_of_Z i ++ ", " ++ str_of_Z j ++ ", " ++ nf_show F c)%string.
Lemma tuple_inner F t : tuple_text F t = String "(" (inner F t ++ ")").
Proof. destruct t as ((i & j) & c). unfold tuple_text, inner. cbn [String.append]. rewrite !append_assoc. cbn [String.append]. rewrite !append_assoc. reflexivity. Qed.
Lemma inner_sall F t c : tidy F -> In c [";"; "("; ")"]%char \/ c = newline -> sall (not_char c) (inner F t) = true.
Proof.
  intros T Hc. destruct t as ((i & j) & q). unfold inner. assert (IC : int_char c = false) by (destruct Hc as [[<-|[<-|[<-|[]]]]| ->]; reflexivity).
  assert (SC : sall (not_char c) ", " = true) by (destruct Hc as [[<-|[<-|[<-|[]]]]| ->]; reflexivity).
  rewrite !sall_app, !int_sall, SC by auto. rewrite (tidy_sall F q c T); [reflexivity|]. destruct Hc as [[<-|[<-|[<-|[]]]]| ->]; [left; cbn; tauto|left; cbn; tauto|left; cbn; tauto|right; reflexivity].
Qed.
Lemma read_inner F t h : tidy F -> read_triple F (inner F t ++ String ")" h) = Some t.
Proof.
  intro T. unfold read_triple. rewrite split_on_cons by (apply inner_sall; cbn; auto). cbn [hd]. destruct t as ((i & j) & q). unfold inner. cbn [String.append].
  rewrite split_on_cons by (apply int_sall; reflexivity). change (String " " (str_of_Z j ++ String "," (String " " (nf_show F q)))) with ((String " " (str_of_Z j)) ++ String "," (String " " (nf_show F q)))%string.
  rewrite split_on_cons by (cbn [sall]; rewrite int_sall; reflexivity). rewrite split_on_none by (cbn [sall]; rewrite (tidy_sall F q "," T); [reflexivity|cbn; auto]).
  assert (ST : forall s, strip (String " " s) = strip s) by reflexivity. unfold int_of_str at 2. rewrite ST. fold (int_of_str (str_of_Z j)). rewrite !int_of_str_of_Z, ST, (tidy_strip F q T), (proj1 (T q)). reflexivity.
Qed.
Lemma split_table F : tidy F -> forall l pre, sall (not_char "(") pre = true ->
  exists h ps, split_on "(" (pre ++ String.concat ", " (map (tuple_text F) l) ++ "]") = (pre ++ h)%string :: ps /\ read_all (read_triple F) ps = Some l.
Proof.
  intros T. induction l as [|t l IH]; intros pre HP.
  - exists "]"%string, []. split; [|reflexivity]. apply split_on_none. cbn [map String.concat]. rewrite sall_app, HP. reflexivity.
  - assert (E : exists rest, (String.concat ", " (map (tuple_text F) (t :: l)) ++ "]")%string = String "(" (inner F t ++ String ")" rest) /\
      (l = [] /\ rest = "]"%string \/ rest = (", " ++ String.concat ", " (map (tuple_text F) l) ++ "]")%string)).
    { destruct l as [|t' l]; cbn [map String.concat]; rewrite (tuple_inner F t).
      - exists "]"%string. split; auto. cbn [String.append]. rewrite append_assoc. reflexivity.
      - eexists. split; [|right; reflexivity]. cbn [String.append]. rewrite !append_assoc. cbn [String.append]. reflexivity. }
    destruct E as (rest & E & R). rewrite E. rewrite split_on_cons by auto. destruct R as [(-> & ->)|R].
    + exists EmptyString. eexists. split; [rewrite append_nil_r; reflexivity|]. rewrite split_on_none by (rewrite sall_app, inner_sall by (cbn; auto); reflexivity). cbn [read_all]. rewrite read_inner by auto. reflexivity.
    + destruct (IH (inner F t ++ "), ")%string) as (h & ps & E2 & RA). { rewrite sall_app, inner_sall by (cbn; auto). reflexivity. }
      exists EmptyString. eexists. split; [rewrite append_nil_r; reflexivity|]. subst rest. rewrite append_assoc in E2. cbn [String.append] in E2 |- *. rewrite E2. cbn [read_all]. rewrite append_assoc. cbn [String.append]. rewrite read_inner by auto. rewrite RA. reflexivity.
Qed.
Lemma table_read F l : tidy F -> read_table F (table_text F l) = Some l.
Proof. intro T. unfold read_table, table_text. destruct (split_table F T l "["%string eq_refl) as (h & ps & E & R). rewrite E. exact R. Qed.
Lemma concat_sall c sep l : sall (not_char c) sep = true -> (forall s, In s l -> sall (not_char c) s = true) -> sall (not_char c) (String.concat sep l) = true.
Proof. intro HS. induction l as [|s l IH]; intro H; [reflexivity|]. destruct l as [|s' l]; [cbn; apply H; left; auto|]. change (String.concat sep (s :: s' :: l)) with (s ++ sep ++ String.concat sep (s' :: l))%string. rewrite !sall_app, HS, IH by (intros; apply H; right; auto). rewrite (H s); [reflexivity|left; auto]. Qed.
Lemma table_sall F l c : tidy F -> c = ";"%char \/ c = newline -> sall (not_char c) (table_text F l) = true.
Proof.
  intros T Hc. unfold table_text. rewrite !sall_app, concat_sall; [destruct Hc as [-> | ->]; reflexivity|destruct Hc as [-> | ->]; reflexivity|]. intros s Hs. apply in_map_iff in Hs. destruct Hs as (t & <- & _).
  rewrite tuple_inner. cbn [sall]. rewrite sall_app, inner_sall; auto; [destruct Hc as [-> | ->]; reflexivity|]. destruct Hc as [-> | ->]; cbn; auto.
Qed.
Lemma fmt2_sall q c : int_char c = false -> c <> "."%char -> sall (not_char c) (fmt2 q) = true.
Proof.
  intros H N. unfold fmt2. rewrite !sall_app, !int_sall by auto. assert (P : not_char c "." = true) by (unfold not_char; destruct (Ascii.eqb_spec "." c); [congruence|reflexivity]).
  assert (M : not_char c "-" = true) by (unfold not_char; destruct (Ascii.eqb_spec "-" c); auto; subst c; vm_compute in H; discriminate). destruct (Qltb q 0); cbn [sall]; rewrite ?P, ?M; reflexivity.
Qed.
Lemma fmt2f_sall x c : c = ";"%char \/ c = newline -> sall (not_char c) (fmt2f x) = true.
Proof. intro Hc. destruct x as [q| | |]; [apply fmt2_sall; destruct Hc as [-> | ->]; vm_compute; auto; discriminate|..]; destruct Hc as [-> | ->]; reflexivity. Qed.
Lemma fmt2f_shows x : showsf (fmt2f x) x.
Proof. destruct x as [q| | |]; [apply fmt2_shows|..]; reflexivity. Qed.
Lemma line_read F w : tidy F -> free_of [";"%char; newline] (nr_id w) -> line_of_row F (report_line F w) w /\ sall (not_char newline) (report_line F w) = true.
Proof.
  intros T FR. assert (S1 : forall q, sall (not_char ";") (fmt2 q) = true) by (intro q; apply fmt2_sall; [reflexivity|discriminate]). assert (S2 : forall q, sall (not_char newline) (fmt2 q) = true) by (intro q; apply fmt2_sall; [reflexivity|discriminate]).
  split.
  - unfold line_of_row. exists (fmt2 (nr_F w)), (fmt2 (nr_f w)), (fmt2 (nr_k w)), (fmt2 (nr_b w)), (fmt2 (nr_tc w)), (fmt2 (nr_co w)), (fmt2f (nr_min w)), (table_text F (nr_i w)), (table_text F (nr_r w)).
    split; [|repeat (split; [apply fmt2_shows|]); split; [apply fmt2f_shows|split; apply table_read; auto]].
    unfold report_line. change ((?a ++ ";" ++ ?b)%string) with ((a ++ String ";" b)%string). cbn [String.append].
    rewrite split_on_cons by (apply (free_sall _ _ _ FR); left; auto). do 6 rewrite (split_on_cons ";" (fmt2 _)) by apply S1. rewrite split_on_cons by (apply fmt2f_sall; auto). rewrite split_on_cons by (apply table_sall; auto). rewrite split_on_none by (apply table_sall; auto). reflexivity.
  - unfold report_line. rewrite !sall_app, !S2, fmt2f_sall, !table_sall by auto. rewrite (free_sall newline _ _ FR) by (right; left; auto). reflexivity.
Qed.
Lemma split_lines l : forall h, sall (not_char newline) h = true -> (forall s, In s l -> sall (not_char newline) s = true) ->
  split_on newline (fold_left (fun line s => line ++ nl ++ s)%string l h) = h :: l.
Proof.
  assert (G : forall l p, (forall s, In s l -> sall (not_char newline) s = true) -> fold_left (fun line s => line ++ nl ++ s)%string l p = (p ++ String.concat "" (map (fun s => nl ++ s)%string l))%string).
  { clear. induction l as [|s l IH]; intros p H; cbn [fold_left map]; [cbn; rewrite append_nil_r; auto|]. rewrite IH by (intros; apply H; right; auto). rewrite append_assoc. f_equal. destruct l as [|s' l]; [cbn [map String.concat]; rewrite append_nil_r; auto|]. reflexivity. }
  induction l as [|s l IH]; intros h Hh H; [cbn; apply split_on_none; auto|]. rewrite G by auto. assert (E : String.concat "" (map (fun s => nl ++ s)%string (s :: l)) = String newline (fold_left (fun line s => line ++ nl ++ s)%string l s)).
  { rewrite (G l s) by (intros; apply H; right; auto). cbn [map]. destruct l as [|s' l]; cbn [map String.concat]; [rewrite append_nil_r; reflexivity|]. unfold nl at 1. cbn [String.append]. reflexivity. }
  rewrite E, split_on_cons by auto. f_equal. apply IH; [apply H; left; auto|intros; apply H; right; auto].
Qed.

(** ** C63: the results file *)
Lemma row_id X z v l f k ct r w : row_of X z v l f k ct r = Ok w -> nr_id w = r_id r.
Proof.
  unfold row_of. destruct (Qltb 0 (freq f (r_id r))); [|intro E; inversion E; reflexivity]. destruct (is_circular (r_type r)).
  - unfold row_ring. destruct (match r_ni r with [] => (r_nr r, DR) | _ => (r_ni r, DI) end) as [nodes d]. destruct (loads X z l (r_id r) d nodes) as [tb ls]. intro E. apply bind_ok in E. destruct E as (co & _ & E). apply bind_ok in E. destruct E as ((ls' & m) & _ & E). apply bind_ok in E. destruct E as (t & _ & E). apply bind_ok in E. destruct E as (fd & _ & E). inversion E. reflexivity.
  - unfold row_open. intro E. apply bind_ok in E. destruct E as (ci & _ & E). apply bind_ok in E. destruct E as (cr & _ & E). apply bind_ok in E. destruct E as (co & _ & E). destruct (sections (snd ci) PInf) as [ti m]. destruct (sections (snd cr) m) as [tr m']. apply bind_ok in E. destruct E as (fd & _ & E). inversion E. reflexivity.
Qed.
(** The file has a line of ten names, then one line per route, in order.  Each line has ten columns: the id of the
    route, seven numbers to the nearest hundredth, and the two tables of sections, which can be read back. *)
Theorem C63_results_file : forall B fg o e rows F, new_optimizer B fg = Ok o -> get_network_results o (Some e) = Ok rows -> tidy F ->
  (forall r, In r (pb_routes B) -> free_of [";"%char; newline] (r_id r)) ->
  exists text lines, string_network_results F o (Some e) = Ok text /\ split_on newline text = report_header :: lines /\
    split_on ";" report_header = ["route_id"; "F[veh/hr]"; "f[veh/hr-line]"; "k[pax/veh]"; "B[veh]"; "tc[min]"; "CO[US$/hr-pax]"; "load_min"; "sub_table_i"; "sub_table_r"]%string /\
    Forall2 (fun r w => nr_id w = r_id r) (pb_routes B) rows /\ Forall2 (line_of_row F) lines rows.
Proof.
  intros B fg o e rows F HO HR T FR. assert (ID : Forall2 (fun r w => nr_id w = r_id r) (pb_routes B) rows).
  { unfold get_network_results in HR. apply bind_ok in HR. destruct HR as ((((o' & f) & t) & k) & L & HR). unfold last_iteration in L. apply bind_ok in L. destruct L as (f' & _ & L). apply bind_ok in L. destruct L as (o'' & L1 & L). apply bind_ok in L. destruct L as (t' & _ & L). inversion L; subst.
    pose proof (proj1 (new_optimizer_attrs _ _ _ HO)) as E1. pose proof (proj1 (new_optimizer_attrs _ _ _ L1)) as E2. rewrite E1 in E2. cbv zeta in HR. rewrite E2 in HR. apply bind_ok in HR. destruct HR as (ltt & _ & HR). destruct (get_cycle_time _ _ _ _) as ((ct & z) & v).
    revert rows HR. induction (pb_routes B) as [|r rs IH]; cbn [mapM]; intros rows HR; [inversion HR; constructor|]. apply bind_ok in HR. destruct HR as (w & Hw & HR). apply bind_ok in HR. destruct HR as (ws & Hws & HR). inversion HR; subst. constructor; [eapply row_id; eauto|apply IH; auto; intros; apply FR; right; auto]. }
  unfold string_network_results. rewrite HR. cbn [bind]. eexists. exists (map (report_line F) rows). split; [reflexivity|].
  assert (FW : forall w, In w rows -> free_of [";"%char; newline] (nr_id w)). { intros w Hw. revert ID FR Hw. generalize (pb_routes B). clear. intros l ID. induction ID as [|r w' l ws E ID IH]; intros FR Hw; [contradiction|]. destruct Hw as [->|Hw]; [rewrite E; apply FR; left; auto|apply IH; auto; intros; apply FR; right; auto]. }
  split; [|split; [reflexivity|split; [exact ID|]]].
  - rewrite <- (ExtProofs.fold_left_map (fun line s => line ++ nl ++ s)%string (report_line F)). apply split_lines; [reflexivity|]. intros s Hs. apply in_map_iff in Hs. destruct Hs as (w & <- & Hw). apply line_read; auto.
  - clear - FW T. induction rows as [|w ws IH]; [constructor|]. constructor; [apply line_read; auto; apply FW; left; auto|apply IH; intros; apply FW; right; auto].
Qed.
Print Assumptions C63_results_file.

(** ** C64: the texts for the console *)
Theorem C64_overall_text : forall o e v F, get_overall_results o (Some e) = Ok v -> tidy F -> (forall m q, In (m, q) (ov_B v) -> free_of [newline] (m_name m)) ->
  exists text l1 l2 l3 l4 l5 l6 l7 l8 l9 blocks, string_overall_results F o (Some e) = Ok text /\
    split_on newline text = [""; ""; l1; l2; l3; l4; ""; "Resources consumer for users"; l5; l6; l7; l8; l9; ""; "Transport mode information: " ++ str_of_Z (Z.of_nat (length (ov_B v)))]%string ++ concat blocks /\
    labelled "Objective function VRC [USD$/hr-pax]: " l1 (ov_vrc v) /\ labelled "Operators cost [USD$/hr-pax]        : " l2 (ov_co v) /\
    labelled "Infrastructure cost [USD$/hr-pax]   : " l3 (ov_ci v) /\ labelled "Users cost [USD$/hr-pax]            : " l4 (ov_cu v) /\
    labelled "Time on board vehicle [min/pax]: " l5 (ov_tv v) /\ labelled "Waiting time [min/pax]         : " l6 (ov_te v) /\
    labelled "Access time [min/pax]          : " l7 (ov_ta v) /\ labelled "total travel time [min/pax]    : " l8 (ov_tv v + ov_te v + ov_ta v) /\
    labelled "Transfers [transfers/pax]      : " l9 (ov_t v) /\ Forall2 (mode_block F v) blocks (ov_B v).
Proof.
  intros o e v F HV T FM. unfold string_overall_results. rewrite HV. cbn [bind]. cbv zeta.
  set (blk := fun mb : mode * Q => [""; tabbed ("Mode name: " ++ m_name (fst mb)); tabbed ("B [veh]      : " ++ fmt2 (snd mb)); tabbed ("K [pax/veh]  : " ++ fmt2 (dget0 mode_eqb 0 (ov_K v) (fst mb))); tabbed ("L [lines]    : " ++ nf_show F (dget0 mode_eqb 0 (ov_L v) (fst mb)))]%string).
  eexists. do 7 eexists. exists ("total travel time [min/pax]    : " ++ fmt2 (ov_tv v + ov_ta v + ov_te v))%string. eexists. exists (map blk (ov_B v)). split; [reflexivity|].
  assert (LB : forall a q, labelled a (a ++ fmt2 q) q) by (intros a q; exists (fmt2 q); split; auto; apply fmt2_shows).
  split; [|repeat (split; [apply LB|]); split; [|split; [apply LB|]]].
  - match goal with |- split_on newline (fold_left _ _ ?s) = _ => set (start := s) end.
    assert (ES : start = fold_left (fun line s => line ++ nl ++ s)%string [""; "Objective function VRC [USD$/hr-pax]: " ++ fmt2 (ov_vrc v); "Operators cost [USD$/hr-pax]        : " ++ fmt2 (ov_co v); "Infrastructure cost [USD$/hr-pax]   : " ++ fmt2 (ov_ci v);
       "Users cost [USD$/hr-pax]            : " ++ fmt2 (ov_cu v); ""; "Resources consumer for users"; "Time on board vehicle [min/pax]: " ++ fmt2 (ov_tv v); "Waiting time [min/pax]         : " ++ fmt2 (ov_te v); "Access time [min/pax]          : " ++ fmt2 (ov_ta v);
       "total travel time [min/pax]    : " ++ fmt2 (ov_tv v + ov_ta v + ov_te v); "Transfers [transfers/pax]      : " ++ fmt2 (ov_t v); ""; "Transport mode information: " ++ str_of_Z (Z.of_nat (length (ov_B v)))]%string ""%string).
    { unfold start. cbn [fold_left]. rewrite !append_assoc. reflexivity. }
    rewrite ES.
    assert (EF : forall l p, fold_left (fun line '(m, b) => (line ++ nl ++ nl ++ String (ascii_of_nat 9) EmptyString ++ "Mode name: " ++ m_name m
     ++ nl ++ String (ascii_of_nat 9) EmptyString ++ "B [veh]      : " ++ fmt2 b
     ++ nl ++ String (ascii_of_nat 9) EmptyString ++ "K [pax/veh]  : " ++ fmt2 (dget0 mode_eqb 0 (ov_K v) m)
     ++ nl ++ String (ascii_of_nat 9) EmptyString ++ "L [lines]    : " ++ nf_show F (dget0 mode_eqb 0 (ov_L v) m))%string) l p = fold_left (fun line s => line ++ nl ++ s)%string (concat (map blk l)) p).
    { induction l as [|(m & b) l IH]; intro p; [reflexivity|]. cbn [fold_left map concat]. rewrite fold_left_app, <- IH. f_equal. unfold blk, tabbed, tab_char. cbn [fold_left fst snd]. rewrite !append_assoc. cbn [String.append]. reflexivity. }
    rewrite EF, <- fold_left_app. rewrite split_lines; [reflexivity|reflexivity|]. intros s Hs. assert (S2 : forall q, sall (not_char newline) (fmt2 q) = true) by (intro q; apply fmt2_sall; [reflexivity|discriminate]).
    apply in_app_iff in Hs. destruct Hs as [Hs|Hs].
    + cbn [In] in Hs. repeat (destruct Hs as [<-|Hs]; [rewrite ?sall_app, ?S2, ?int_sall by reflexivity; reflexivity|]). contradiction.
    + apply in_concat in Hs. destruct Hs as (b & Hb & Hs). apply in_map_iff in Hb. destruct Hb as ((m & q) & <- & Hm). unfold blk in Hs. cbn [In fst snd] in Hs. specialize (FM m q Hm).
      destruct Hs as [<-|[<-|[<-|[<-|[<-|[]]]]]]; unfold tabbed; cbn [sall]; rewrite ?sall_app, ?S2; try reflexivity; [rewrite (free_sall newline _ _ FM) by (left; auto); reflexivity|]. rewrite (tidy_sall F _ newline T) by (right; reflexivity). reflexivity.
  - exists (fmt2 (ov_tv v + ov_ta v + ov_te v)). split; auto. destruct (fmt2_shows (ov_tv v + ov_ta v + ov_te v)) as (q' & E & L). exists q'. split; auto. assert (EQ : ov_tv v + ov_te v + ov_ta v == ov_tv v + ov_ta v + ov_te v) by ring. rewrite EQ. exact L.
  - clear. induction (ov_B v) as [|mb l IH]; [constructor|]. cbn [map]. constructor; auto. unfold blk, mode_block. do 3 eexists. split; [reflexivity|]. split; [exists (fmt2 (snd mb)); split; [reflexivity|apply fmt2_shows]|]. split; [eexists; split; [reflexivity|apply fmt2_shows]|reflexivity].
Qed.
Print Assumptions C64_overall_text.

Lemma fopt_from_combine pos : NoDup pos -> forall x n f f', (n <= length pos)%nat -> map fst f = firstn n pos -> fopt_from pos n x f = Ok f' -> f' = f ++ combine (skipn n pos) x.
Proof.
  intros ND. induction x as [|q x IH]; intros n f f' Ln Ef E; cbn [fopt_from] in E.
  - inversion E; subst. destruct (skipn n pos); cbn; rewrite app_nil_r; reflexivity.
  - destruct (nth_error pos n) as [r|] eqn:En; [|discriminate].
    assert (ES : skipn n pos = r :: skipn (S n) pos) by (clear - En; revert n En; induction pos as [|a pos IH]; intros [|n] En; cbn in *; try discriminate; [inversion En; reflexivity|apply IH; auto]).
    assert (NI : ~ In r (map fst f)). { rewrite Ef. intro Hi. rewrite <- (firstn_skipn n pos), ES in ND. apply NoDup_remove_2 in ND. apply ND. apply in_app_iff. auto. }
    assert (ED : dset String.eqb f r q = f ++ [(r, q)]). { clear - NI. induction f as [|(k & v) f IH]; [reflexivity|]. cbn in NI |- *. destruct (String.eqb_spec r k); [subst; tauto|]. rewrite IH by tauto. reflexivity. }
    rewrite ED in E. apply IH in E.
    + rewrite E, ES. cbn [combine]. rewrite <- app_assoc. reflexivity.
    + apply nth_error_Some. congruence.
    + rewrite map_app, Ef. cbn [map fst]. clear - En. revert n En; induction pos as [|a pos IH]; intros [|n] En; cbn in *; try discriminate; [inversion En; reflexivity|f_equal; apply IH; auto].
Qed.
(** the summary of an optimisation lists the frequency of each line, in the order of the routes *)
Theorem C64_summary_text : forall B fg o e F, new_optimizer B fg = Ok o -> NoDup (map r_id (pb_routes B)) -> length (e_x e) = length (pb_routes B) -> tidy F ->
  free_of [newline] (e_message e) -> (forall r, In r (pb_routes B) -> free_of [newline] (r_id r)) ->
  exists text viol fn lines, string_network_optimization F o e = Ok text /\
    split_on newline text = [""; ""; "Optimization Results"; "Success: " ++ match e_success e with Some true => "True" | Some false => "False" | None => "None" end; "Status: " ++ str_of_Z (e_status e); "Message: " ++ e_message e;
      "Max constrain violation: " ++ viol; "VRC: " ++ fn; ""; "Frequency information [veh/hr]: "]%string ++ lines /\
    (forall q, e_viol e = Fin q -> nf_read F viol = Some q) /\ (forall q, e_fun e = Fin q -> nf_read F fn = Some q) /\
    Forall2 (fun line '(r, q) => labelled (tabbed (r_id r ++ ": ")) line q) lines (combine (pb_routes B) (e_x e)).
Proof.
  intros B fg o e F HO ND HL T FM FR. destruct (new_optimizer_attrs _ _ _ HO) as (_ & _ & _ & EP & _). unfold string_network_optimization. rewrite EP.
  destruct (proj1 (fopt_from_spec _ ND (e_x e) 0 []) ltac:(rewrite List.map_length; lia)) as (f & Ef & _). unfold fopt_to_f. rewrite Ef. cbn [bind]. cbv zeta.
  pose proof (fopt_from_combine _ ND (e_x e) 0 [] f ltac:(lia) eq_refl Ef) as EC. cbn [app skipn] in EC. subst f. clear Ef.
  set (ln := fun rq : route * Q => tabbed (r_id (fst rq) ++ ": " ++ fmt2 (snd rq))).
  eexists. exists (showf F (e_viol e)), (showf F (e_fun e)), (map ln (combine (pb_routes B) (e_x e))). split; [reflexivity|].
  assert (SF : forall x, sall (not_char newline) (showf F x) = true) by (intros [q| | |]; try reflexivity; apply tidy_sall; auto).
  split; [|split; [|split]].
  - match goal with |- split_on newline (fold_left _ _ ?s) = _ => set (start := s) end.
    assert (ES : start = fold_left (fun line s => line ++ nl ++ s)%string [""; "Optimization Results"; "Success: " ++ bool_text (e_success e); "Status: " ++ str_of_Z (e_status e); "Message: " ++ e_message e;
      "Max constrain violation: " ++ showf F (e_viol e); "VRC: " ++ showf F (e_fun e); ""; "Frequency information [veh/hr]: "]%string ""%string).
    { unfold start. cbn [fold_left]. rewrite !append_assoc. reflexivity. }
    rewrite ES. clear ES start.
    assert (EF : forall rs x p, fold_left (fun line '(r, q) => (line ++ nl ++ String (ascii_of_nat 9) EmptyString ++ r ++ ": " ++ fmt2 q)%string) (combine (map r_id rs) x) p = fold_left (fun line s => line ++ nl ++ s)%string (map ln (combine rs x)) p).
    { induction rs as [|r rs IH]; intros [|q x] p; cbn [map combine fold_left]; auto. }
    change ([] ++ combine (map r_id (pb_routes B)) (e_x e)) with (combine (map r_id (pb_routes B)) (e_x e)). rewrite EF, <- fold_left_app. rewrite split_lines; [reflexivity|reflexivity|]. intros s Hs. apply in_app_iff in Hs. destruct Hs as [Hs|Hs].
    + cbn [In] in Hs. repeat (destruct Hs as [<-|Hs]; [rewrite ?sall_app, ?SF, ?int_sall by reflexivity; try reflexivity; try (destruct (e_success e) as [[]|]; reflexivity); try (rewrite (free_sall newline _ _ FM) by (left; auto); reflexivity)|]). contradiction.
    + apply in_map_iff in Hs. destruct Hs as ((r & q) & <- & Hr). apply in_combine_l in Hr. unfold ln, tabbed. cbn [sall fst snd]. rewrite !sall_app, (free_sall newline _ _ (FR r Hr)) by (left; auto). rewrite fmt2_sall; [reflexivity|reflexivity|discriminate].
  - intros q E. rewrite E. cbn. apply T.
  - intros q E. rewrite E. cbn. apply T.
  - clear. induction (combine (pb_routes B) (e_x e)) as [|(r & q) l IH]; [constructor|]. cbn [map]. constructor; auto. unfold ln, labelled. cbn [fst snd]. exists (fmt2 q). split; [|apply fmt2_shows]. unfold tabbed. cbn [String.append]. rewrite append_assoc. reflexivity.
Qed.
Print Assumptions C64_summary_text.

(** ** Examples *)
Lemma ex_fmt_tidy : tidy ex_fmt.
Proof.
  intro q. split; [apply ex_fmt_ok|]. cbn [nf_show ex_fmt]. unfold ex_show.
  assert (D : forall a, int_char a = true \/ a = "/"%char -> is_ws a = false /\ ~ In a [";"; ","; "("; ")"]%char).
  { intros a [H| ->]; [|split; [reflexivity|cbn; intuition discriminate]]. split; [apply int_char_not_ws; auto|]. intro Hi. cbn in Hi. destruct Hi as [<-|[<-|[<-|[<-|[]]]]]; discriminate. }
  assert (S1 : sall (fun a => int_char a || Ascii.eqb a "/") (str_of_Z (Qnum q) ++ "/" ++ str_of_Z (Zpos (Qden q))) = true).
  { rewrite !sall_app. assert (I : forall z, sall (fun a => int_char a || Ascii.eqb a "/") (str_of_Z z) = true) by (intro z; apply sall_impl with (p := int_char); [intros a Ha; rewrite Ha; reflexivity|apply str_of_Z_chars]). rewrite !I. reflexivity. }
  intros a Ha. apply D. pose proof (proj1 (sall_In _ _) S1 a Ha) as H. apply orb_true_iff in H. destruct H as [H|H]; auto. right. apply Ascii.eqb_eq. auto.
Qed.
Definition ex_o : optimizer := match new_optimizer ex_B None with Ok o => o | Err _ => mkOpt ex_B [] [] [] (mkXgraph empty_graph [] [] [] []) [] [] 0 0 end.
Example C63_ex : exists rows text, new_optimizer ex_B None = Ok ex_o /\ get_network_results ex_o (Some ex_res) = Ok rows /\ tidy ex_fmt /\
  (forall r, In r (pb_routes ex_B) -> free_of [";"%char; newline] (r_id r)) /\ string_network_results ex_fmt ex_o (Some ex_res) = Ok text /\ length (split_on newline text) = 3%nat.
Proof.
  do 2 eexists. split; [vm_compute; reflexivity|]. split; [vm_compute; reflexivity|]. split; [exact ex_fmt_tidy|]. split; [|split; vm_compute; reflexivity].
  intros r [<-|[<-|[]]] a Ha Hb; cbn in Ha, Hb; intuition (subst; discriminate).
Qed.
Example fmt2_ex : fmt2 (-1 # 200) = "-0.00"%string /\ fmt2 (3 # 200) = "0.02"%string /\ fmt2 (12345678 # 1000) = "12345.68"%string.
Proof. vm_compute. auto. Qed.
(** The ids of the routes are written as they are: with a semicolon in the id the columns are displaced. *)
Definition ex_semi : route := mkRoute "t;1" (r_mode ex_tang) (r_ni ex_tang) (r_nr ex_tang) (r_si ex_tang) (r_sr ex_tang) CUSTOM.
Definition ex_semi_B : problem := ex_Bd ex_demand (mkNetwork ex_g34 [ex_semi; ex_tang_express] ["t;1"; "te"]%string [Props_Network.ex_bus]).
Theorem C63_any_id_refuted : exists B o e rows F text, new_optimizer B None = Ok o /\ get_network_results o (Some e) = Ok rows /\ tidy F /\
  (forall r, In r (pb_routes B) -> free_of [newline] (r_id r)) /\
  string_network_results F o (Some e) = Ok text /\ exists line, In line (split_on newline text) /\ length (split_on ";" line) = 11%nat.
Proof.
  exists ex_semi_B. eexists. exists ex_res. eexists. exists ex_fmt. eexists. split; [vm_compute; reflexivity|]. split; [vm_compute; reflexivity|]. split; [exact ex_fmt_tidy|]. split; [|split; [vm_compute; reflexivity|]].
  - intros r [<-|[<-|[]]] a Ha Hb; cbn in Ha, Hb; intuition (subst; discriminate).
  - eexists. split; [vm_compute; right; left; reflexivity|]. vm_compute. reflexivity.
Qed.
Print Assumptions C63_any_id_refuted.
Example C64_ex : exists v text text2, get_overall_results ex_o (Some ex_res) = Ok v /\ length (ov_B v) = 1%nat /\ (forall m q, In (m, q) (ov_B v) -> free_of [newline] (m_name m)) /\
  string_overall_results ex_fmt ex_o (Some ex_res) = Ok text /\ length (split_on newline text) = 20%nat /\
  free_of [newline] (e_message ex_res) /\ length (e_x ex_res) = length (pb_routes ex_B) /\ string_network_optimization ex_fmt ex_o ex_res = Ok text2 /\ length (split_on newline text2) = 12%nat.
Proof.
  do 3 eexists. split; [vm_compute; reflexivity|]. split; [reflexivity|]. split; [|split; [vm_compute; reflexivity|split; [vm_compute; reflexivity|split; [|split; [reflexivity|split; vm_compute; reflexivity]]]]].
  - intros m q [E|[]]. inversion E; subst. intros a Ha Hb. cbn in Ha, Hb. intuition (subst; discriminate).
  - intros a Ha Hb. cbn in Ha, Hb. intuition (subst; discriminate).
Qed.
