(** * Props_Opt: C49 to C53 and C57, the optimiser (optimizer.py 43-507) *)
From Coq Require Import String List ZArith QArith Qabs Bool Lia Lqa.
From Verif Require Import PyBase PyFacts Graph GeoEx Demand Mode Route Network ExtGraph Hyperpath Assignment Costs UsersCost CostSpec Props_Ext Props_Hyper Props_Network Props_Cost Optimizer OptSpec.
Import ListNotations.
Local Open Scope Q_scope.

(** ** Inversion of the constructor *)
Lemma new_optimizer_attrs B fg o : new_optimizer B fg = Ok o ->
  o_pb o = B /\ o_f o = fst (fst (f0 (pb_routes B) fg)) /\ o_fopt o = map (fun r => m_fini (r_mode r)) (pb_routes B) /\
  o_pos o = map r_id (pb_routes B) /\ o_len_v o = length (pb_routes B) /\
  build_ext (pb_geo B) (pb_graph B) (pb_routes B) (q_pt (pb_pass B)) (Some (o_f o)) = Ok (o_X o) /\
  get_all_hyperpaths (pb_fuel B) (o_X o) (pb_pass B) (dm_matrix (pb_demand B)) = Ok (o_es o) /\
  get_assignment (o_X o) (p_p (c_params (pb_city B))) (q_va (pb_pass B)) (q_pa (pb_pass B)) (q_pv (pb_pass B)) (o_es o) = Ok (o_asg o) /\
  exists con, get_constrains o (o_fopt o) = Ok con /\ o_len_c o = length con.
Proof.
  unfold new_optimizer. destruct (f0 (pb_routes B) fg) as [[f fopt] pos] eqn:E. unfold f0 in E. injection E as Hf Hx Hp. intro H.
  apply bind_ok in H. destruct H as (X & EX & H). apply bind_ok in H. destruct H as (es & Ees & H). apply bind_ok in H. destruct H as (asg & Ea & H). apply bind_ok in H. destruct H as (con & Ec & H).
  assert (Eo : o = mkOpt B f fopt pos X es asg (length con) (length fopt)) by congruence. rewrite Eo. cbn [o_pb o_f o_fopt o_pos o_X o_es o_asg o_len_c o_len_v fst].
  split; auto. split; auto. split; auto. split; auto. split; [rewrite <- Hx, map_length; auto|]. split; [exact EX|]. split; [exact Ees|]. split; [exact Ea|]. exists con. split; [exact Ec|reflexivity].
Qed.

(** ** C49 *)
Lemma freq_dset_same f i q : freq (dset String.eqb f i q) i = q.
Proof. unfold freq, dget0. rewrite dget_dset_same; auto. exact Seqb_spec. Qed.
Lemma freq_dset_other f i j q : i <> j -> freq (dset String.eqb f i q) j = freq f j.
Proof. intro H. unfold freq, dget0. rewrite dget_dset_other; auto. exact Seqb_spec. Qed.
Lemma fopt_from_spec pos : NoDup pos -> forall x n f,
  ((n + length x <= length pos)%nat -> exists f', fopt_from pos n x f = Ok f' /\
     (forall i id, nth_error pos i = Some id -> freq f' id = if (n <=? i)%nat && (i <? n + length x)%nat then nth (i - n) x 0 else freq f id) /\
     (forall id, ~ In id pos -> freq f' id = freq f id)) /\
  ((length pos < n + length x)%nat -> (n <= length pos)%nat -> fopt_from pos n x f = Err KeyError).
Proof.
  intros ND. induction x as [|q x IH]; intros n f; cbn [fopt_from length].
  - split; [|intros; lia]. intros _. exists f. split; auto. split; auto. intros i id Hi. destruct (Nat.leb_spec n i), (Nat.ltb_spec i (n + 0)); cbn [andb]; auto; lia.
  - destruct (nth_error pos n) as [r|] eqn:En.
    + assert (Ln : (n < length pos)%nat) by (apply nth_error_Some; congruence). destruct (IH (S n) (dset String.eqb f r q)) as [A B]. split.
      * intro H. destruct A as (f' & E & A1 & A2); [lia|]. exists f'. split; auto. split.
        { intros i id Hi. rewrite (A1 i id Hi). destruct (Nat.eq_dec i n) as [->|Ni].
          - assert (r = id) by congruence. subst r. destruct (Nat.leb_spec (S n) n); [lia|]. cbn [andb]. destruct (Nat.leb_spec n n), (Nat.ltb_spec n (n + S (length x))); cbn [andb]; try lia. rewrite Nat.sub_diag. apply freq_dset_same.
          - assert (r <> id). { intro C. subst r. apply Ni. eapply NoDup_nth_error; eauto; [apply nth_error_Some; congruence|congruence]. }
            destruct (Nat.leb_spec (S n) i), (Nat.leb_spec n i), (Nat.ltb_spec i (S n + length x)), (Nat.ltb_spec i (n + S (length x))); cbn [andb]; try lia; try (apply freq_dset_other; auto).
            replace (i - n)%nat with (S (i - S n)) by lia. reflexivity. }
        { intros id Hn. rewrite (A2 id Hn). apply freq_dset_other. intro C. subst. apply Hn. eapply nth_error_In; eauto. }
      * intros H1 H2. apply B; lia.
    + apply nth_error_None in En. split; [intro H; lia|auto].
Qed.
(** The n-th value of the vector is the frequency of the n-th line; lines beyond the vector, and unknown
    identifiers, read 0; a vector longer than the list of lines is an error. *)
Theorem C49_vector_to_dict : forall B fg o x, new_optimizer B fg = Ok o -> NoDup (map r_id (pb_routes B)) ->
  ((length x <= length (pb_routes B))%nat -> exists f, fopt_to_f (o_pos o) x = Ok f /\
     (forall n r, nth_error (pb_routes B) n = Some r -> freq f (r_id r) = nth n x 0) /\
     (forall id, ~ In id (map r_id (pb_routes B)) -> freq f id = 0)) /\
  ((length (pb_routes B) < length x)%nat -> fopt_to_f (o_pos o) x = Err KeyError).
Proof.
  intros B fg o x H ND. destruct (new_optimizer_attrs B fg o H) as (_ & _ & _ & -> & _). destruct (fopt_from_spec _ ND x 0 []) as [A C]. rewrite map_length in *. split.
  - intro L. destruct A as (f & E & A1 & A2); [lia|]. exists f. split; [exact E|]. split.
    + intros n r Hn. rewrite (A1 n (r_id r)); [|rewrite nth_error_map, Hn; auto]. rewrite Nat.sub_0_r. destruct (Nat.leb_spec 0 n), (Nat.ltb_spec n (0 + length x)); cbn [andb]; try lia; auto. rewrite nth_overflow by lia. reflexivity.
    + intros id Hn. rewrite (A2 id Hn). reflexivity.
  - intro L. apply C; lia.
Qed.
Print Assumptions C49_vector_to_dict.
Lemma f0_dict rs fg : NoDup (map r_id rs) -> forall r, In r rs ->
  freq (fst (fst (f0 rs fg))) (r_id r) = match fg with None => m_fini (r_mode r) | Some f => freq f (r_id r) end.
Proof.
  intros ND r Hr. unfold f0. cbn [fst].
  set (h := fun r0 : route => match fg with None => m_fini (r_mode r0) | Some f => freq f (r_id r0) end).
  change (freq (fold_left (fun d r0 => dset String.eqb d (r_id r0) (h r0)) rs []) (r_id r) = h r).
  assert (N : forall rs d id, ~ In id (map r_id rs) -> freq (fold_left (fun d r0 => dset String.eqb d (r_id r0) (h r0)) rs d) id = freq d id).
  { clear. induction rs as [|r0 rs IH]; intros d id Hn; cbn [fold_left]; auto. cbn [map In] in Hn. rewrite IH by tauto. apply freq_dset_other. tauto. }
  clearbody h. generalize (@nil (string * Q)). induction rs as [|r0 rs IH]; intro d; [contradiction|]. cbn [fold_left]. inversion ND as [|? ? N1 N2]; subst. destruct Hr as [->|Hr]; [|apply IH; auto].
  rewrite N by auto. apply freq_dset_same.
Qed.
(** The strategies of an Optimizer are those of the frequencies given by the caller, if any, and of the initial
    frequencies of the modes otherwise.  The vector where the solver starts holds the initial frequencies of the
    modes in both cases. *)
Theorem C49_start : forall B fg o, new_optimizer B fg = Ok o -> NoDup (map r_id (pb_routes B)) ->
  (forall r, In r (pb_routes B) -> freq (o_f o) (r_id r) = match fg with None => m_fini (r_mode r) | Some f => freq f (r_id r) end) /\
  length (o_fopt o) = length (pb_routes B) /\
  exists f, fopt_to_f (o_pos o) (o_fopt o) = Ok f /\ forall r, In r (pb_routes B) -> freq f (r_id r) = m_fini (r_mode r).
Proof.
  intros B fg o H ND. destruct (new_optimizer_attrs B fg o H) as (_ & Ef & Ex & Ep & _). split; [|split].
  - intros r Hr. rewrite Ef. apply f0_dict; auto.
  - rewrite Ex, map_length. auto.
  - destruct (C49_vector_to_dict B fg o (o_fopt o) H ND) as [A _]. destruct A as (f & E & A & _); [rewrite Ex, map_length; lia|]. exists f. split; auto. intros r Hr. apply In_nth_error in Hr. destruct Hr as (n & Hn). rewrite (A n r Hn), Ex.
    erewrite nth_indep by (rewrite map_length; apply nth_error_Some; congruence). rewrite map_nth. rewrite (nth_error_nth _ _ _ Hn). reflexivity.
Unshelve. exact r.
Qed.
Print Assumptions C49_start.

Definition ex_city : city := match build_from_parameters ex_geo ex_p34 with Ok C => C | Err _ => mkCity empty_graph ex_p34 end.
Definition ex_demand : demand := fst (change_vij (fst (change_vij (new_demand (g_nodes ex_g34) 3) 1 3 5)) 4 1 7).
Definition ex_net : network := mkNetwork ex_g34 [ex_tang; ex_tang_express] ["t"; "te"]%string [Props_Network.ex_bus].
Definition ex_B : problem := mkProblem ex_geo ex_city ex_demand ex_P ex_net 100.
(** The solver does not start from the frequencies that the caller gives (optimizer.py 101). *)
Theorem C49_given_start_ignored_refuted : exists B f o f', new_optimizer B (Some f) = Ok o /\ NoDup (map r_id (pb_routes B)) /\
  fopt_to_f (o_pos o) (o_fopt o) = Ok f' /\ exists r, In r (pb_routes B) /\ ~ freq f' (r_id r) == freq f (r_id r).
Proof.
  exists ex_B, [("t"%string, 10); ("te"%string, 20)]. eexists. eexists. split; [vm_compute; reflexivity|]. split; [vm_compute; repeat constructor; cbn; intuition discriminate|]. split; [vm_compute; reflexivity|].
  exists ex_tang. split; [left; auto|]. vm_compute. discriminate.
Qed.
Print Assumptions C49_given_start_ignored_refuted.
Example C49_ex : NoDup (map r_id (pb_routes ex_B)) /\ exists o f, new_optimizer ex_B None = Ok o /\ fopt_to_f (o_pos o) [7; 8] = Ok f /\ freq f "te" = 8 /\ fopt_to_f (o_pos o) [7; 8; 9] = Err KeyError.
Proof. split; [vm_compute; repeat constructor; cbn; intuition discriminate|]. eexists. eexists. split; [vm_compute; reflexivity|]. split; [vm_compute; reflexivity|]. split; vm_compute; reflexivity. Qed.

(** ** C50 *)
Lemma f_distance_from_spec : forall a b d, (length a <= length b)%nat -> exists q, f_distance_from a b d = Ok q /\ q == d + distance a b.
Proof.
  induction a as [|x a IH]; intros b d L; cbn [f_distance_from].
  - exists d. split; auto. unfold distance. cbn. ring.
  - destruct b as [|y b]; [cbn in L; lia|]. destruct (IH b (d + Qabs (x - y))) as (q & E & Hq); [cbn in L; lia|]. exists q. split; auto. rewrite Hq. unfold distance. cbn [combine]. rewrite Qsumf_cons. cbn [fst snd]. ring.
Qed.
Lemma f_distance_from_short : forall a b d, (length b < length a)%nat -> f_distance_from a b d = Err IndexError.
Proof. induction a as [|x a IH]; intros b d L; cbn in L; [lia|]. destruct b; cbn [f_distance_from]; auto. apply IH. cbn in L. lia. Qed.
(** f_distance is the sum of the absolute differences, IndexError when the second list is shorter. *)
Theorem C50_distance : forall a b, ((length a <= length b)%nat -> exists q, f_distance a b = Ok q /\ q == distance a b) /\
  ((length b < length a)%nat -> f_distance a b = Err IndexError).
Proof.
  intros a b. split; [|apply f_distance_from_short]. intro L. destruct (f_distance_from_spec a b 0 L) as (q & E & H). exists q. split; auto. rewrite H. ring.
Qed.
Print Assumptions C50_distance.
Lemma distance_cons x a y b : distance (x :: a) (y :: b) == Qabs (x - y) + distance a b.
Proof. unfold distance. cbn [combine]. rewrite Qsumf_cons. reflexivity. Qed.
Lemma distance_nonneg : forall a b, 0 <= distance a b.
Proof. intros. apply Qsumf_nonneg. intros. apply Qabs_nonneg. Qed.
(** On lists of the same length it is a distance. *)
Theorem C50_metric : forall a b c da db dc, length a = length b -> length b = length c ->
  f_distance a b = Ok da -> f_distance b c = Ok db -> f_distance a c = Ok dc ->
  0 <= da /\ (da == 0 <-> Forall2 Qeq a b) /\ (exists da', f_distance b a = Ok da' /\ da' == da) /\ dc <= da + db.
Proof.
  intros a b c da db dc L1 L2 E1 E2 E3.
  assert (D : forall a b q, length a = length b -> f_distance a b = Ok q -> q == distance a b) by (intros a' b' q L E; destruct (C50_distance a' b') as [A _]; destruct A as (q' & E' & H); [lia|]; congruence).
  apply D in E1; auto. apply D in E2; auto. apply D in E3; [|congruence]. rewrite E1, E2, E3.
  assert (SY : forall a b, length a = length b -> distance b a == distance a b).
  { clear. induction a as [|x a IH]; destruct b as [|y b]; intros L; try discriminate; [reflexivity|]. rewrite !distance_cons, IH by (cbn in L; lia). rewrite Qabs_Qminus. reflexivity. }
  split; [apply distance_nonneg|]. split; [|split].
  - clear -L1. revert b L1. induction a as [|x a IH]; destruct b as [|y b]; intros L; try discriminate; [split; [constructor|reflexivity]|]. rewrite distance_cons. cbn in L. specialize (IH b ltac:(lia)).
    pose proof (Qabs_nonneg (x - y)). pose proof (distance_nonneg a b). split.
    + intro H1. assert (A : Qabs (x - y) == 0) by lra. assert (C : distance a b == 0) by lra. constructor; [|apply IH; auto]. revert A. apply Qabs_case; intros; lra.
    + intro H1. inversion H1; subst. apply IH in H7. rewrite H7, H5. assert (E : y - y == 0) by ring. rewrite E. reflexivity.
  - destruct (C50_distance b a) as [A _]. destruct A as (q & E & H); [lia|]. exists q. split; auto. rewrite H, E1. apply SY; auto.
  - clear -L1 L2. revert b c L1 L2. induction a as [|x a IH]; intros b c L1 L2; destruct b as [|y b], c as [|z c]; try discriminate L1; try discriminate L2; [unfold distance; cbn; lra|]. rewrite !distance_cons. cbn in L1, L2. specialize (IH b c ltac:(lia) ltac:(lia)).
    assert (T : Qabs (x - z) <= Qabs (x - y) + Qabs (y - z)) by (eapply Qle_trans; [|apply Qabs_triangle]; apply Qle_lteq; right; apply Qabs_wd; ring). lra.
Qed.
Print Assumptions C50_metric.
Lemma tolerance_spec a b tol : (length a <= length b)%nat -> exists t, tolerance_reached a b tol = Ok t /\ (t = true <-> distance a b < tol).
Proof.
  intro L. unfold tolerance_reached. destruct (C50_distance a b) as [A _]. destruct (A L) as (q & E & H). rewrite E. cbn [bind]. eexists. split; [reflexivity|]. rewrite Qltb_lt. rewrite H. rewrite Qabs_pos by apply distance_nonneg. tauto.
Qed.
(** The tolerance test says whether the distance is smaller than the tolerance. *)
Theorem C50_tolerance : forall a b tol, length a = length b -> exists t, tolerance_reached a b tol = Ok t /\ (t = true <-> distance a b < tol).
Proof. intros. apply tolerance_spec. lia. Qed.
Print Assumptions C50_tolerance.
Example C50_ex : f_distance [1; 2; 5] [3; 2; 1] = Ok 6 /\ tolerance_reached [1; 2; 5] [3; 2; 1] 6 = Ok false /\ tolerance_reached [1; 2; 5] [3; 2; 1] 7 = Ok true.
Proof. split; [|split]; vm_compute; reflexivity. Qed.

(** ** C51 *)
Lemma valid_entry_spec e : valid_entry e = true <-> acceptable e.
Proof.
  unfold valid_entry, acceptable. rewrite !andb_true_iff, !negb_true_iff. cbn [existsb]. rewrite !orb_false_iff, !Z.eqb_neq.
  assert (X : existsb (fun f => Qltb f 0) (e_x e) = false <-> forall x, In x (e_x e) -> 0 <= x).
  { split.
    - intros H x Hx. apply Qltb_ge. destruct (Qltb x 0) eqn:E; auto. assert (existsb (fun f => Qltb f 0) (e_x e) = true) by (apply existsb_exists; eauto). congruence.
    - intros H. destruct (existsb _ _) eqn:E; auto. apply existsb_exists in E. destruct E as (x & Hx & E). apply Qltb_lt in E. specialize (H x Hx). lra. }
  assert (V : flt (fabs (e_viol e)) (Fin (1 # 1000)) = true <-> exists q, e_viol e = Fin q /\ - (1 # 1000) < q < 1 # 1000).
  { destruct (e_viol e) as [q| | |]; cbn [fabs flt].
    - rewrite Qltb_lt, Qabs_Qlt_condition. split; [intro H; exists q; auto|]. intros (q' & Eq & H). inversion Eq; subst. auto.
    - split; [discriminate|]. intros (q & E & _). discriminate.
    - split; [discriminate|]. intros (q & E & _). discriminate.
    - split; [discriminate|]. intros (q & E & _). discriminate. }
  rewrite X, V. tauto.
Qed.
Definition bstep (st : option entry * fval) (e : entry) : option entry * fval := if flt (e_fun e) (snd st) then (Some e, e_fun e) else st.
Lemma better_fold l : get_better_result l = fst (fold_left bstep (filter valid_entry l) (None, PInf)).
Proof.
  unfold get_better_result. f_equal. generalize (@None entry, PInf). induction (filter valid_entry l) as [|e l' IH]; intros [b m]; cbn [fold_left]; auto.
Qed.
Lemma flt_trans a b c : flt a b = true -> flt b c = true -> flt a c = true.
Proof. destruct a, b, c; cbn; try discriminate; auto. rewrite !Qltb_lt. lra. Qed.
Lemma flt_fle_false a b : flt a b = true -> fle b a = false.
Proof. destruct a, b; cbn; try discriminate; auto. rewrite Qltb_lt. intro H. destruct (Qleb q0 q) eqn:E; auto. apply Qleb_le in E. lra. Qed.
Lemma flt_irrefl a : flt a a = false.
Proof. destruct a; cbn; auto. apply Qltb_ge. lra. Qed.
Lemma flt_asym a b : flt a b = true -> flt b a = false.
Proof. destruct a, b; cbn; try discriminate; auto. rewrite Qltb_lt, Qltb_ge. lra. Qed.
(* a < m, x not < m: then x not <= a *)
Lemma flt_gap x m a : flt a m = true -> flt x m = false -> fle x a = false.
Proof. destruct x, m, a; cbn; try discriminate; auto. rewrite Qltb_lt, Qltb_ge. intros H1 H2. destruct (Qleb q q1) eqn:E; auto. apply Qleb_le in E. lra. Qed.
Lemma fle_flt_trans x a b : fle x a = false -> flt b a = true -> fle x b = false.
Proof. destruct x, a, b; cbn; try discriminate; auto. intros H1 H2. apply Qltb_lt in H2. destruct (Qleb q q1) eqn:E; auto. apply Qleb_le in E. destruct (Qleb q q0) eqn:E'; try discriminate. apply Qleb_gt in E'. lra. Qed.
Lemma fle_flt x a : fle x a = false -> flt x a = false.
Proof. destruct x, a; cbn; try discriminate; auto. rewrite Qltb_ge. intro H. destruct (Qleb q q0) eqn:E; try discriminate. apply Qleb_gt in E. lra. Qed.
Definition first_best (l : list entry) (e : entry) : Prop :=
  exists l1 l2, l = l1 ++ e :: l2 /\ flt (e_fun e) PInf = true /\
    (forall e', In e' l1 -> fle (e_fun e') (e_fun e) = false) /\ (forall e', In e' l2 -> flt (e_fun e') (e_fun e) = false).
Lemma bfold_spec : forall l, match fold_left bstep l (None, PInf) with
  | (None, m) => m = PInf /\ forall e, In e l -> flt (e_fun e) PInf = false
  | (Some e, m) => m = e_fun e /\ first_best l e
  end.
Proof.
  intro l. induction l as [|x l IH] using rev_ind; [cbn; split; [reflexivity|intros e []]|]. rewrite fold_left_app. cbn [fold_left]. destruct (fold_left bstep l (None, PInf)) as [[e|] m]; unfold bstep; cbn [snd].
  - destruct IH as [-> (l1 & l2 & -> & F & H1 & H2)]. destruct (flt (e_fun x) (e_fun e)) eqn:E; (split; [reflexivity|]).
    + exists (l1 ++ e :: l2), []. split; [reflexivity|]. split; [eapply flt_trans; eauto|]. split; [|intros ? []]. intros e' He. apply in_app_iff in He. cbn [In] in He. destruct He as [He|[<-|He]].
      * eapply fle_flt_trans; eauto.
      * apply flt_fle_false; auto.
      * eapply flt_gap; eauto.
    + exists l1, (l2 ++ [x]). split; [rewrite <- app_assoc; reflexivity|]. split; auto. split; auto. intros e' He. apply in_app_iff in He. destruct He as [He|[<-|[]]]; auto.
  - destruct IH as [-> H]. destruct (flt (e_fun x) PInf) eqn:E; (split; [reflexivity|]).
    + exists l, []. split; [reflexivity|]. split; auto. split; [|intros ? []]. intros e' He. eapply flt_gap; eauto.
    + intros e He. apply in_app_iff in He. destruct He as [He|[<-|[]]]; auto.
Qed.
Lemma has_value_flt e : has_value e <-> flt (e_fun e) PInf = true.
Proof. unfold has_value. destruct (e_fun e) as [q| | |]; cbn; split; intro H; auto; try discriminate; try (left; exists q; auto); try (destruct H as [[q' H]|H]; discriminate). Qed.
Lemma filter_split {A} (p : A -> bool) : forall l l1 e l2, filter p l = l1 ++ e :: l2 -> exists m1 m2, l = m1 ++ e :: m2 /\ filter p m1 = l1 /\ filter p m2 = l2 /\ p e = true.
Proof.
  induction l as [|x l IH]; intros l1 e l2 H; cbn [filter] in H; [destruct l1; discriminate|]. destruct (p x) eqn:E.
  - destruct l1 as [|y l1]; cbn [app] in H; inversion H; subst.
    + exists [], l. auto.
    + destruct (IH l1 e l2 H2) as (m1 & m2 & -> & E1 & E2 & E3). exists (y :: m1), m2. cbn [app filter]. rewrite E, E1. auto.
  - destruct (IH l1 e l2 H) as (m1 & m2 & -> & E1 & E2 & E3). exists (x :: m1), m2. cbn [app filter]. rewrite E. auto.
Qed.
(** The selected answer is the first acceptable one of least value: no acceptable answer before it has a value
    that is lower or equal, and none after it a lower value. *)
Theorem C51_best : forall l e, get_better_result l = Some e <->
  acceptable e /\ has_value e /\
  exists l1 l2, l = l1 ++ e :: l2 /\ (forall e', In e' l1 -> acceptable e' -> fle (e_fun e') (e_fun e) = false) /\
    (forall e', In e' l2 -> acceptable e' -> flt (e_fun e') (e_fun e) = false).
Proof.
  assert (SOME : forall l e, get_better_result l = Some e ->
    acceptable e /\ has_value e /\ exists l1 l2, l = l1 ++ e :: l2 /\ (forall e', In e' l1 -> acceptable e' -> fle (e_fun e') (e_fun e) = false) /\ (forall e', In e' l2 -> acceptable e' -> flt (e_fun e') (e_fun e) = false)).
  { intros l e. rewrite better_fold. pose proof (bfold_spec (filter valid_entry l)) as S. destruct (fold_left _ _ _) as [[e0|] m]; [|discriminate]. intro H. cbn [fst] in H. assert (e0 = e) by congruence. subst e0. destruct S as [_ (l1 & l2 & E & F & H1 & H2)].
    apply filter_split in E. destruct E as (m1 & m2 & -> & <- & <- & V). split; [apply valid_entry_spec; auto|]. split; [apply has_value_flt; auto|]. exists m1, m2. split; auto. split; intros e' He Ha; [apply H1|apply H2]; apply filter_In; (split; [auto|apply valid_entry_spec; auto]). }
  intros l e. split; [apply SOME|]. intros (A & V & l1 & l2 & -> & H1 & H2).
  rewrite better_fold, filter_app. cbn [filter]. assert (VE : valid_entry e = true) by (apply valid_entry_spec; auto). rewrite VE, fold_left_app. cbn [fold_left].
  assert (S : snd (fold_left bstep (filter valid_entry l1) (None, PInf)) = PInf \/ exists e', In e' (filter valid_entry l1) /\ snd (fold_left bstep (filter valid_entry l1) (None, PInf)) = e_fun e' /\ has_value e').
  { pose proof (bfold_spec (filter valid_entry l1)) as S. destruct (fold_left _ _ _) as [[e0|] m]; cbn [snd].
    - right. destruct S as [-> (a & b & -> & F & _)]. exists e0. split; [apply in_app_iff; right; left; auto|]. split; auto. apply has_value_flt; auto.
    - left. apply S. }
  assert (L : flt (e_fun e) (snd (fold_left bstep (filter valid_entry l1) (None, PInf))) = true).
  { destruct S as [-> |(e' & He & -> & HV)]; [apply has_value_flt; auto|]. apply filter_In in He. destruct He as [He Ve]. apply valid_entry_spec in Ve. specialize (H1 e' He Ve). apply has_value_flt in HV. apply has_value_flt in V. destruct (e_fun e), (e_fun e'); cbn in *; try discriminate; auto. apply Qltb_lt. destruct (Qleb q0 q) eqn:EE; try discriminate. apply Qleb_gt in EE. auto. }
  unfold bstep at 2. rewrite L.
  assert (K : forall l, (forall e', In e' l -> flt (e_fun e') (e_fun e) = false) -> fold_left bstep l (Some e, e_fun e) = (Some e, e_fun e)).
  { induction l as [|x l IH]; intro HH; cbn [fold_left]; auto. unfold bstep at 2. cbn [snd]. rewrite (HH x (or_introl eq_refl)). apply IH. intros; apply HH; right; auto. }
  rewrite K; [reflexivity|]. intros e' He. apply filter_In in He. destruct He as [He Ve]. apply H2; auto. apply valid_entry_spec; auto.
Qed.
Print Assumptions C51_best.
Theorem C51_none : forall l, get_better_result l = None <-> forall e, In e l -> acceptable e -> ~ has_value e.
Proof.
  intro l. rewrite better_fold. pose proof (bfold_spec (filter valid_entry l)) as S. destruct (fold_left _ _ _) as [[e0|] m]; cbn [fst].
  - split; [discriminate|]. intro H. exfalso. destruct S as [_ (l1 & l2 & E & F & _)]. apply filter_split in E. destruct E as (m1 & m2 & -> & _ & _ & V). apply (H e0); [apply in_app_iff; right; left; auto|apply valid_entry_spec; auto|apply has_value_flt; auto].
  - split; auto. intros _ e He Ha Hv. apply has_value_flt in Hv. destruct S as [_ S]. rewrite (S e) in Hv; [discriminate|]. apply filter_In. split; auto. apply valid_entry_spec; auto.
Qed.
Print Assumptions C51_none.
Definition ex_e (x : list Q) (st : Z) (viol fn : fval) : entry := mkEntry x (Some true) st "m" viol fn.
Example C51_ex : get_better_result [ex_e [1] (-1) (Fin 0) (Fin 1); ex_e [-1 # 1] 1 (Fin 0) (Fin 2); ex_e [1] 2 (Fin (1 # 1000)) (Fin 3); ex_e [1] 2 (Fin 0) NaN; ex_e [1] 1 (Fin 0) (Fin 9); ex_e [2] 2 (Fin 0) (Fin 8); ex_e [3] 2 (Fin 0) (Fin 8); ex_e [4] 2 (Fin 0) PInf] = Some (ex_e [2] 2 (Fin 0) (Fin 8)).
Proof. vm_compute. reflexivity. Qed.

(** ** C52 *)
Lemma nth_error_snoc {A} (l : list A) x i y : nth_error (l ++ [x]) i = Some y -> nth_error l i = Some y \/ (i = length l /\ y = x).
Proof.
  intro H. destruct (Nat.lt_ge_cases i (length l)) as [L|L]; [rewrite nth_error_app1 in H by auto; auto|]. right. rewrite nth_error_app2 in H by auto. destruct (i - length l)%nat as [|k] eqn:E; cbn in H; [split; [lia|congruence]|]. destruct k; discriminate.
Qed.
Lemma run_of_snoc B solver f runs x i r : run_of B solver f runs i r -> (i <= length runs)%nat -> run_of B solver f (runs ++ [x]) i r.
Proof.
  intros (fi & o & A & C & D) L. exists fi, o. split; auto. split; auto. destruct i as [|j]; auto. destruct D as (p & g & D & E). exists p, g. split; auto. rewrite nth_error_app1; auto.
Qed.
(** the invariant of the loop: what has been run, and the last two vectors *)
Record inv (B : problem) (solver : solver_t) (f : option fdict) (tol : Q) (N : option Z) (ini : entry) (o : optimizer) (runs : list entry) (pre new : list Q) : Prop := mkInv {
  iv_len : (1 <= length runs)%nat;
  iv_run : forall i r, nth_error runs i = Some r -> run_of B solver f runs i r;
  iv_pos : o_pos o = map r_id (pb_routes B);
  iv_dist : forall i a b, (S i < length runs)%nat -> nth_error (ini :: runs) i = Some a -> nth_error (ini :: runs) (S i) = Some b -> tolerance_reached (e_x a) (e_x b) tol = Ok false;
  iv_pre : exists p q, nth_error (ini :: runs) (length runs - 1) = Some p /\ nth_error (ini :: runs) (length runs) = Some q /\ pre = e_x p /\ new = e_x q;
  iv_n : forall n, N = Some n -> (length runs <= Z.to_nat n + 1)%nat
}.
Definition ended (tol : Q) (N : option Z) (ini : entry) (runs : list entry) : Prop :=
  (exists a b, nth_error (ini :: runs) (length runs - 1) = Some a /\ nth_error (ini :: runs) (length runs) = Some b /\ tolerance_reached (e_x a) (e_x b) tol = Ok true) \/
  (exists n, N = Some n /\ length runs = (Z.to_nat n + 1)%nat).
Lemma loop_inv B solver f tol N ini : forall fuel o runs pre new log',
  inv B solver f tol N ini o runs pre new -> external_loop fuel B solver tol N (length runs) o pre new (ini :: runs) = Some (Ok log') ->
  exists runs' o' pre' new', log' = ini :: runs' /\ inv B solver f tol N ini o' runs' pre' new' /\ ended tol N ini runs'.
Proof.
  induction fuel as [|fuel IH]; intros o runs pre new log' I H; cbn [external_loop] in H.
  - destruct (tolerance_reached pre new tol) as [[|]|e] eqn:T; try discriminate.
    + exists runs, o, pre, new. split; [congruence|]. split; auto. left. destruct (iv_pre _ _ _ _ _ _ _ _ _ _ I) as (p & q & A & C & -> & ->). eauto.
    + destruct N as [n|]; [|discriminate]. destruct (n <? Z.of_nat (length runs))%Z eqn:E; [|discriminate]. exists runs, o, pre, new. split; [congruence|]. split; auto. right. exists n. split; auto. pose proof (iv_n _ _ _ _ _ _ _ _ _ _ I n eq_refl). pose proof (iv_len _ _ _ _ _ _ _ _ _ _ I). apply Z.ltb_lt in E. lia.
  - destruct (tolerance_reached pre new tol) as [[|]|e] eqn:T; try discriminate.
    + exists runs, o, pre, new. split; [congruence|]. split; auto. left. destruct (iv_pre _ _ _ _ _ _ _ _ _ _ I) as (p & q & A & C & -> & ->). eauto.
    + destruct (match N with Some n => (n <? Z.of_nat (length runs))%Z | None => false end) eqn:E.
      * destruct N as [n|]; [|discriminate]. exists runs, o, pre, new. split; [congruence|]. split; auto. right. exists n. split; auto. pose proof (iv_n _ _ _ _ _ _ _ _ _ _ I n eq_refl). pose proof (iv_len _ _ _ _ _ _ _ _ _ _ I). apply Z.ltb_lt in E. lia.
      * destruct (let* f := fopt_to_f (o_pos o) new in let* o' := new_optimizer B (Some f) in let* r := solver (length runs) o' in Ok (o', r)) as [[o' r]|e] eqn:S; [|discriminate].
        apply bind_ok in S. destruct S as (g & Eg & S). apply bind_ok in S. destruct S as (o1 & Eo & S). apply bind_ok in S. destruct S as (r1 & Er & S). assert (o1 = o') by congruence. assert (r1 = r) by congruence. subst o1 r1. clear S.
        destruct I as [IL IR IP ID IE IN]. destruct IE as (p & q & A & C & -> & ->).
        assert (Lr : length (runs ++ [r]) = S (length runs)) by (rewrite app_length; cbn; lia).
        assert (NX : forall i x, nth_error (ini :: runs) i = Some x -> nth_error (ini :: runs ++ [r]) i = Some x) by (intros i x Hi; change (ini :: runs ++ [r]) with ((ini :: runs) ++ [r]); rewrite nth_error_app1; auto; apply nth_error_Some; congruence).
        assert (NL : nth_error (ini :: runs ++ [r]) (S (length runs)) = Some r) by (cbn [nth_error]; rewrite nth_error_app2, Nat.sub_diag by lia; reflexivity).
        apply (IH o' (runs ++ [r]) (e_x q) (e_x r) log'); [|rewrite Lr; exact H]. split.
        { lia. }
        { intros i x Hi. apply nth_error_snoc in Hi. destruct Hi as [Hi|[-> ->]]; [apply run_of_snoc; auto; apply Nat.lt_le_incl, nth_error_Some; congruence|]. exists (Some g), o'. split; auto. split; auto.
          destruct (length runs) as [|j] eqn:Ej; [lia|]. exists q, g. split; [|split; [rewrite <- IP; exact Eg|reflexivity]]. rewrite nth_error_app1 by lia. exact C. }
        { destruct (new_optimizer_attrs _ _ _ Eo) as (_ & _ & _ & Hp & _). exact Hp. }
        { intros i a b Hi Ha Hb. rewrite Lr in Hi. destruct (Nat.eq_dec (S i) (length runs)) as [Ei|Ei].
          - assert (i = (length runs - 1)%nat) by lia. subst i. apply NX in A. rewrite Ei in Hb. apply NX in C. congruence.
          - assert (LL : (S i < length runs)%nat) by lia. apply (ID i a b LL); [rewrite <- Ha|rewrite <- Hb]; change (ini :: runs ++ [r]) with ((ini :: runs) ++ [r]); symmetry; apply nth_error_app1; cbn [length]; lia. }
        { exists q, r. rewrite Lr. replace (S (length runs) - 1)%nat with (length runs) by lia. auto. }
        { intros n En. subst N. rewrite Lr. apply Z.ltb_ge in E. lia. }
Qed.
(** What is run: the successive answers of the solver, each for the strategies of the answer before.  Only the last
    two vectors may be closer than the tolerance, and they are unless the number of answers is the maximum,
    number_of_iteration + 1. *)
Theorem C52_runs : forall fuel B solver f tol N log, external_runs fuel B solver f tol N = Some (Ok log) ->
  exists x0 runs, log = x0 :: runs /\ e_x x0 = map (fun r => m_fini (r_mode r)) (pb_routes B) /\ (1 <= length runs)%nat /\
    (forall i r, nth_error runs i = Some r -> run_of B solver f runs i r) /\
    (forall i a b, (S i < length runs)%nat -> nth_error log i = Some a -> nth_error log (S i) = Some b -> tolerance_reached (e_x a) (e_x b) tol = Ok false) /\
    (forall n, N = Some n -> (length runs <= Z.to_nat n + 1)%nat) /\
    ((exists a b, nth_error log (length runs - 1) = Some a /\ nth_error log (length runs) = Some b /\ tolerance_reached (e_x a) (e_x b) tol = Ok true) \/
     (exists n, N = Some n /\ length runs = (Z.to_nat n + 1)%nat)).
Proof.
  intros fuel B solver f tol N log H. unfold external_runs in H. destruct (let* o := new_optimizer B f in let* r := solver O o in Ok (o, r)) as [[o r]|e] eqn:S; [|discriminate].
  apply bind_ok in S. destruct S as (o1 & Eo & S). apply bind_ok in S. destruct S as (r1 & Er & S). assert (o1 = o) by congruence. assert (r1 = r) by congruence. subst o1 r1. clear S.
  set (ini := mkEntry (o_fopt o) None (-1) "initialization" (Fin (-1)) (Fin (-1))) in *. destruct (new_optimizer_attrs _ _ _ Eo) as (_ & _ & Ex & Ep & _).
  assert (I : inv B solver f tol N ini o [r] (o_fopt o) (e_x r)).
  { split; [cbn; lia| |exact Ep| | |].
    - intros [|i] x Hi; [|destruct i; discriminate]. inversion Hi; subst. exists f, o. auto.
    - intros i a b Hi. cbn in Hi. lia.
    - exists ini, r. auto.
    - intros n _. cbn. lia. }
  destruct (loop_inv B solver f tol N ini fuel o [r] _ _ log I H) as (runs & o' & pre & new & -> & I' & E). exists ini, runs. split; auto. split; [exact Ex|]. destruct I' as [IL IR _ ID _ IN]. split; auto.
Qed.
Print Assumptions C52_runs.
Lemma loop_ends B solver tol n : forall fuel i o pre new log, (Z.to_nat n + 1 <= i + fuel)%nat -> external_loop fuel B solver tol (Some n) i o pre new log <> None.
Proof.
  induction fuel as [|fuel IH]; intros i o pre new log L; cbn [external_loop]; destruct (tolerance_reached pre new tol) as [[|]|]; try discriminate.
  - destruct (n <? Z.of_nat i)%Z eqn:E; [discriminate|]. apply Z.ltb_ge in E. lia.
  - destruct (n <? Z.of_nat i)%Z eqn:E; [discriminate|]. destruct (bind _ _) as [[o' r]|]; [|discriminate]. apply IH. lia.
Qed.
Lemma loop_calls B s1 s2 tol n : (forall k o, (k <= Z.to_nat n)%nat -> s1 k o = s2 k o) ->
  forall fuel i o pre new log, (1 <= i)%nat -> external_loop fuel B s1 tol (Some n) i o pre new log = external_loop fuel B s2 tol (Some n) i o pre new log.
Proof.
  intro H. induction fuel as [|fuel IH]; intros i o pre new log Hi; cbn [external_loop]; destruct (tolerance_reached pre new tol) as [[|]|]; auto. destruct (n <? Z.of_nat i)%Z eqn:E; auto. apply Z.ltb_ge in E.
  assert (EQ : (let* f := fopt_to_f (o_pos o) new in let* o' := new_optimizer B (Some f) in let* r := s1 i o' in Ok (o', r)) = (let* f := fopt_to_f (o_pos o) new in let* o' := new_optimizer B (Some f) in let* r := s2 i o' in Ok (o', r))).
  { destruct (fopt_to_f (o_pos o) new); cbn [bind]; auto. destruct (new_optimizer B _); cbn [bind]; auto. rewrite H by lia. auto. }
  rewrite EQ. clear EQ. destruct (bind _ _) as [[o' r]|]; auto.
Qed.
(** With number_of_iteration = n the loop ends, whatever the solver answers, and its answers after the first n + 1
    calls do not matter: they are not made. *)
Theorem C52_bounded : forall fuel B solver f tol n, (Z.to_nat n <= fuel)%nat ->
  (exists r, external_optimization fuel B solver f tol (Some n) = Some r) /\
  (forall solver', (forall k o, (k <= Z.to_nat n)%nat -> solver k o = solver' k o) ->
     external_optimization fuel B solver f tol (Some n) = external_optimization fuel B solver' f tol (Some n)).
Proof.
  intros fuel B solver f tol n L. split.
  - unfold external_optimization, external_runs. destruct (bind (new_optimizer B f) _) as [[o r]|]; [|cbn; eauto]. destruct (external_loop _ _ _ _ _ _ _ _ _ _) as [x|] eqn:E; [cbn; eauto|]. exfalso. revert E. apply loop_ends. lia.
  - intros solver' H. unfold external_optimization, external_runs. f_equal.
    assert (EQ : (let* o := new_optimizer B f in let* r := solver 0%nat o in Ok (o, r)) = (let* o := new_optimizer B f in let* r := solver' 0%nat o in Ok (o, r))) by (destruct (new_optimizer B f); cbn [bind]; auto; rewrite H by lia; auto).
    rewrite EQ. clear EQ. destruct (bind _ _) as [[o r]|]; auto. apply loop_calls; auto.
Qed.
Print Assumptions C52_bounded.
(** Without a maximum the loop ends if two successive answers are ever closer than the tolerance. *)
Lemma loop_converges B solver tol N (xs : nat -> list Q) : (forall k o r, solver k o = Ok r -> e_x r = xs k) -> forall k, tolerance_reached (xs k) (xs (S k)) tol = Ok true ->
  forall fuel i o pre log, (1 <= i)%nat -> (k + 2 <= i + fuel)%nat -> (i <= S k)%nat \/ (i = S (S k) /\ pre = xs k) -> external_loop fuel B solver tol N i o pre (xs (i - 1)%nat) log <> None.
Proof.
  intros HX k HT. induction fuel as [|fuel IH]; intros i o pre log L1 L2 C; cbn [external_loop]; destruct (tolerance_reached pre _ tol) as [[|]|] eqn:T; try discriminate.
  - destruct C as [C|[-> ->]]; [lia|]. cbn [Nat.sub] in T. congruence.
  - destruct (match N with Some n => (n <? Z.of_nat i)%Z | None => false end); [discriminate|]. destruct C as [C|[-> ->]]; [|cbn [Nat.sub] in T; congruence].
    destruct (let* f := fopt_to_f (o_pos o) (xs (i - 1)%nat) in let* o' := new_optimizer B (Some f) in let* r := solver i o' in Ok (o', r)) as [[o' r]|] eqn:S; [|discriminate].
    apply bind_ok in S. destruct S as (g & Eg & S). apply bind_ok in S. destruct S as (o1 & Eo & S). apply bind_ok in S. destruct S as (r1 & Er & S). assert (r1 = r) by congruence. subst r1. clear S.
    rewrite (HX _ _ _ Er). replace (xs i) with (xs (S i - 1)%nat) by (f_equal; lia). apply IH; [lia|lia|]. destruct (Nat.eq_dec i (S k)) as [->|Ni]; [right|left; lia]. split; auto. f_equal. lia.
Qed.
Theorem C52_converges : forall B solver f tol N (xs : nat -> list Q) k, (forall k o r, solver k o = Ok r -> e_x r = xs k) -> tolerance_reached (xs k) (xs (S k)) tol = Ok true ->
  forall fuel, (k + 1 <= fuel)%nat -> exists r, external_optimization fuel B solver f tol N = Some r.
Proof.
  intros B solver f tol N xs k HX HT fuel L. unfold external_optimization, external_runs. destruct (let* o := new_optimizer B f in let* r := solver O o in Ok (o, r)) as [[o r]|] eqn:S; [|cbn; eauto].
  apply bind_ok in S. destruct S as (o1 & Eo & S). apply bind_ok in S. destruct S as (r1 & Er & S). assert (r1 = r) by congruence. subst r1.
  destruct (external_loop _ _ _ _ _ _ _ _ _ _) as [x|] eqn:E; [cbn; eauto|]. exfalso. rewrite (HX _ _ _ Er) in E. revert E. change (xs 0%nat) with (xs (1 - 1)%nat). apply (loop_converges B solver tol N xs HX k HT); lia.
Qed.
Print Assumptions C52_converges.
(** Without a maximum the loop may run for ever: a solver that goes back and forth between two vectors. *)
Definition ex_swing : solver_t := fun k o => if Nat.eqb (o_len_v o) 2 then Ok (ex_e (if Nat.even k then [10; 20] else [20; 10]) 1 (Fin 0) (Fin 5)) else Err ValueError.
Definition ex_fa : fdict := [("t"%string, 10); ("te"%string, 20)].
Definition ex_fb : fdict := [("t"%string, 20); ("te"%string, 10)].
Lemma swing_loop : forall fuel i o pre log, o_pos o = ["t"; "te"]%string -> (1 <= i)%nat -> tolerance_reached pre (if Nat.even i then [20; 10] else [10; 20]) (1 # 100) = Ok false ->
  external_loop fuel ex_B ex_swing (1 # 100) None i o pre (if Nat.even i then [20; 10] else [10; 20]) log = None.
Proof.
  assert (A : exists o', new_optimizer ex_B (Some ex_fa) = Ok o') by (eexists; vm_compute; reflexivity). destruct A as (oa & A).
  assert (A' : exists o', new_optimizer ex_B (Some ex_fb) = Ok o') by (eexists; vm_compute; reflexivity). destruct A' as (ob & A').
  pose proof (new_optimizer_attrs _ _ _ A) as (_ & _ & _ & Pa & La & _). pose proof (new_optimizer_attrs _ _ _ A') as (_ & _ & _ & Pb & Lb & _).
  assert (T1 : tolerance_reached [10; 20] [20; 10] (1 # 100) = Ok false) by (vm_compute; reflexivity). assert (T2 : tolerance_reached [20; 10] [10; 20] (1 # 100) = Ok false) by (vm_compute; reflexivity).
  assert (F1 : fopt_to_f ["t"%string; "te"%string] [20; 10] = Ok ex_fb) by (vm_compute; reflexivity). assert (F2 : fopt_to_f ["t"%string; "te"%string] [10; 20] = Ok ex_fa) by (vm_compute; reflexivity).
  induction fuel as [|fuel IH]; intros i o pre log Hp Hi HT; cbn [external_loop]; rewrite HT; [reflexivity|].
  specialize (IH (S i)). rewrite Hp. rewrite Nat.even_succ, <- Nat.negb_even in IH. destruct (Nat.even i) eqn:E; cbn [negb] in IH.
  - rewrite F1. cbn [bind]. rewrite A'. cbn [bind]. unfold ex_swing at 1. rewrite Lb, E. cbn [bind e_x ex_e length pb_routes ex_B ex_net nw_routes pb_net Nat.eqb]. apply IH; [exact Pb|lia|exact T2].
  - rewrite F2. cbn [bind]. rewrite A. cbn [bind]. unfold ex_swing at 1. rewrite La, E. cbn [bind e_x ex_e length pb_routes ex_B ex_net nw_routes pb_net Nat.eqb]. apply IH; [exact Pa|lia|exact T1].
Qed.
Theorem C52_unbounded_refuted : exists B solver f tol, 0 < tol /\ right_length solver /\ forall fuel, external_optimization fuel B solver f tol None = None.
Proof.
  exists ex_B, ex_swing, None, (1 # 100). split; [reflexivity|]. split.
  - intros k o r H. unfold ex_swing in H. destruct (Nat.eqb_spec (o_len_v o) 2) as [->|]; [|discriminate]. assert (E : r = ex_e (if Nat.even k then [10; 20] else [20; 10]) 1 (Fin 0) (Fin 5)) by congruence. rewrite E. destruct (Nat.even k); reflexivity.
  - intro fuel. assert (A : exists o, new_optimizer ex_B None = Ok o) by (eexists; vm_compute; reflexivity). destruct A as (o & A). pose proof (new_optimizer_attrs _ _ _ A) as (_ & _ & Ex & Pa & La & _).
    unfold external_optimization, external_runs. rewrite A. cbn [bind]. unfold ex_swing at 1. rewrite La. cbn [bind e_x ex_e length pb_routes ex_B ex_net nw_routes pb_net Nat.eqb Nat.even].
    rewrite Ex. match goal with |- option_map _ (external_loop _ _ _ _ _ _ _ ?p _ ?l) = _ => pose proof (swing_loop fuel 1 o p l Pa (le_n 1)) as K end. cbn [Nat.even] in K. rewrite K; [reflexivity|vm_compute; reflexivity].
Qed.
Print Assumptions C52_unbounded_refuted.
Example C52_ex : exists log, external_runs 3 ex_B ex_swing None (1 # 100) (Some 3%Z) = Some (Ok log) /\ length log = 5%nat.
Proof. eexists. split; vm_compute; reflexivity. Qed.
Example C52_ex2 : exists log, external_runs 5 ex_B (fun k o => if Nat.eqb k 2 then ex_swing 1%nat o else ex_swing k o) None (1 # 100) None = Some (Ok log) /\ length log = 4%nat.
Proof. eexists. split; vm_compute; reflexivity. Qed.

(** ** C53 *)
Lemma drop_small_x e x : In x (e_x (drop_small e)) -> x = 0 \/ (1 # 24 <= x /\ In x (e_x e)).
Proof. unfold drop_small. cbn [e_x]. intro H. apply in_map_iff in H. destruct H as (y & <- & Hy). destruct (Qltb y (1 # 24)) eqn:E; auto. apply Qltb_ge in E. auto. Qed.
Lemma select_spec log : match get_better_result log with
  | Some e => select_result log = Ok (drop_small e)
  | None => select_result log = Err NoOptimalSolutionFoundException
  end.
Proof.
  unfold select_result. destruct (get_better_result log) as [e|] eqn:E; cbn [option_map]; [|reflexivity]. apply C51_best in E. destruct E as ((S0 & S3 & S1 & (q & V & Vq) & X) & _).
  unfold status_optimization, raise_if.
  replace (existsb (fun f => Qltb f (-1 # 10)) (e_x (drop_small e))) with false.
  2:{ symmetry. destruct (existsb _ _) eqn:C; auto. apply existsb_exists in C. destruct C as (x & Hx & C). apply Qltb_lt in C. apply drop_small_x in Hx. destruct Hx as [-> |[Hx _]]; lra. }
  replace (flt (Fin (1 # 10)) (fabs (e_viol (drop_small e)))) with false.
  2:{ symmetry. unfold drop_small. cbn [e_viol]. rewrite V. cbn [fabs flt]. apply Qltb_ge. apply Qabs_Qle_condition. lra. }
  replace ((e_status (drop_small e) =? 0)%Z || (e_status (drop_small e) =? 3)%Z) with false; [reflexivity|]. symmetry. unfold drop_small. cbn [e_status]. apply orb_false_iff. rewrite !Z.eqb_neq. auto.
Qed.
(** What is returned is one of the answers of the solver, the best acceptable one, with the frequencies below one
    vehicle a day replaced by 0: every frequency is 0 or at least 1/24. *)
Theorem C53_returned : forall fuel B solver f tol N e, external_optimization fuel B solver f tol N = Some (Ok e) ->
  exists x0 runs e0 i, external_runs fuel B solver f tol N = Some (Ok (x0 :: runs)) /\ nth_error runs i = Some e0 /\ get_better_result runs = Some e0 /\
    run_of B solver f runs i e0 /\ acceptable e0 /\ has_value e0 /\ (forall e', In e' runs -> acceptable e' -> flt (e_fun e') (e_fun e0) = false) /\
    Forall2 (fun x y => (x < 1 # 24 -> y == 0) /\ (1 # 24 <= x -> y == x)) (e_x e0) (e_x e) /\ (forall y, In y (e_x e) -> y == 0 \/ 1 # 24 <= y) /\
    e_success e = e_success e0 /\ e_status e = e_status e0 /\ e_message e = e_message e0 /\ e_viol e = e_viol e0 /\ e_fun e = e_fun e0.
Proof.
  intros fuel B solver f tol N e H. unfold external_optimization in H. destruct (external_runs fuel B solver f tol N) as [[log|ex]|] eqn:R; cbn [option_map bind] in H; try discriminate.
  destruct (C52_runs _ _ _ _ _ _ _ R) as (x0 & runs & EL & _ & _ & RUN & _). pose proof (select_spec log) as S. destruct (get_better_result log) as [e0|] eqn:G; [|congruence]. assert (Ee : e = drop_small e0) by congruence. subst e.
  assert (I0 : e_status x0 = (-1)%Z).
  { subst log. unfold external_runs in R. destruct (bind (new_optimizer B f) _) as [[o r]|]; [|discriminate].
    assert (K : forall fuel i o pre new l log, external_loop fuel B solver tol N i o pre new l = Some (Ok log) -> exists l', log = l ++ l').
    { clear. induction fuel as [|fuel IH]; intros i o pre new l log H; cbn [external_loop] in H; destruct (tolerance_reached pre new tol) as [[|]|]; try discriminate.
      - exists []. rewrite app_nil_r. congruence.
      - destruct (match N with Some n => (n <? Z.of_nat i)%Z | None => false end); [|discriminate]. exists []. rewrite app_nil_r. congruence.
      - exists []. rewrite app_nil_r. congruence.
      - destruct (match N with Some n => (n <? Z.of_nat i)%Z | None => false end); [exists []; rewrite app_nil_r; congruence|]. destruct (bind _ _) as [[o' r]|]; [|discriminate]. apply IH in H. destruct H as (l' & ->). exists ([r] ++ l'). rewrite app_assoc. reflexivity. }
    apply K in R. destruct R as (l' & R). cbn [app] in R. inversion R; subst. reflexivity. }
  pose proof G as G'. apply C51_best in G. destruct G as (A & V & l1 & l2 & El & H1 & H2). subst log. exists x0, runs, e0.
  destruct l1 as [|y l1]; [exfalso; cbn [app] in El; inversion El; subst; destruct A as (_ & _ & A & _); congruence|]. cbn [app] in El. injection El as E1 H3. subst y.
  assert (NE : nth_error runs (length l1) = Some e0) by (rewrite H3, nth_error_app2, Nat.sub_diag by lia; reflexivity). exists (length l1). split; [reflexivity|]. split; [exact NE|]. split.
  { apply C51_best. split; auto. split; auto. exists l1, l2. split; auto. split; auto. intros e' He Ha. apply H1; auto. right. auto. }
  split; [apply RUN; auto|]. split; auto. split; auto. split.
  { intros e' He Ha. rewrite H3 in He. apply in_app_iff in He. cbn [In] in He. destruct He as [He|[<-|He]]; [apply fle_flt; apply H1; auto; right; auto|apply flt_irrefl|apply H2; auto]. }
  split; [|split; [|unfold drop_small; cbn; auto 10]].
  - unfold drop_small. cbn [e_x]. clear. induction (e_x e0) as [|x l IH]; cbn [map]; constructor; auto. destruct (Qltb x (1 # 24)) eqn:E; [apply Qltb_lt in E|apply Qltb_ge in E]; split; intro; try reflexivity; lra.
  - intros y Hy. apply drop_small_x in Hy. destruct Hy as [-> |[Hy _]]; [left; reflexivity|auto].
Qed.
Print Assumptions C53_returned.
(** Once the solver has answered, the only exception is NoOptimalSolutionFoundException, raised when no answer is
    acceptable. *)
Theorem C53_only_no_optimal : forall fuel B solver f tol N log, external_runs fuel B solver f tol N = Some (Ok log) ->
  (exists e, external_optimization fuel B solver f tol N = Some (Ok e)) \/
  (external_optimization fuel B solver f tol N = Some (Err NoOptimalSolutionFoundException) /\ forall e, In e log -> acceptable e -> ~ has_value e).
Proof.
  intros fuel B solver f tol N log R. unfold external_optimization. rewrite R. cbn [option_map bind]. pose proof (select_spec log) as S. destruct (get_better_result log) as [e0|] eqn:G; rewrite S; [left; eauto|]. right. split; auto. apply C51_none. auto.
Qed.
Print Assumptions C53_only_no_optimal.
(** When the solver answers with one frequency per line, the other exceptions are those of the construction of an
    Optimizer or of the solver itself: the vectors never have the wrong length. *)
Lemma loop_errors B solver tol N : NoDup (map r_id (pb_routes B)) -> right_length solver -> forall fuel i o pre new log ex,
  o_pos o = map r_id (pb_routes B) -> length pre = length (pb_routes B) -> length new = length (pb_routes B) ->
  external_loop fuel B solver tol N i o pre new log = Some (Err ex) -> (exists fi, new_optimizer B (Some fi) = Err ex) \/ (exists k o, solver k o = Err ex).
Proof.
  intros ND RL. induction fuel as [|fuel IH]; intros i o pre new log ex Hp L1 L2 H; cbn [external_loop] in H; destruct (tolerance_spec pre new tol ltac:(lia)) as (t & ET & _); rewrite ET in H; destruct t; try discriminate; destruct (match N with Some n => (n <? Z.of_nat i)%Z | None => false end); try discriminate.
  destruct (fopt_from_spec (map r_id (pb_routes B)) ND new 0 []) as [A _]. destruct A as (f & Ef & _); [rewrite map_length; lia|]. rewrite Hp in H. unfold fopt_to_f in H. rewrite Ef in H. cbn [bind] in H.
  destruct (new_optimizer B (Some f)) as [o'|e] eqn:Eo; cbn [bind] in H; [|left; exists f; congruence]. destruct (solver i o') as [r|e] eqn:Er; cbn [bind] in H; [|right; exists i, o'; congruence].
  destruct (new_optimizer_attrs _ _ _ Eo) as (_ & _ & _ & Hp' & Lv & _). apply (IH _ _ _ _ _ _ Hp' L2) in H; auto. rewrite <- Lv. eapply RL; eauto.
Qed.
Theorem C53_exceptions : forall fuel B solver f tol N ex, NoDup (map r_id (pb_routes B)) -> right_length solver ->
  external_optimization fuel B solver f tol N = Some (Err ex) ->
  ex = NoOptimalSolutionFoundException \/ (exists fi, new_optimizer B fi = Err ex) \/ (exists k o, solver k o = Err ex).
Proof.
  intros fuel B solver f tol N ex ND RL H. destruct (external_runs fuel B solver f tol N) as [[log|e]|] eqn:R.
  - destruct (C53_only_no_optimal _ _ _ _ _ _ _ R) as [(e & E)|[E _]]; [congruence|]. left. congruence.
  - right. unfold external_optimization in H. rewrite R in H. cbn in H. assert (e = ex) by congruence. subst e. unfold external_runs in R. destruct (new_optimizer B f) as [o|e] eqn:Eo; cbn [bind] in R; [|left; exists f; congruence]. destruct (solver O o) as [r|e] eqn:Er; cbn [bind] in R; [|right; exists O, o; congruence].
    destruct (new_optimizer_attrs _ _ _ Eo) as (_ & _ & Ex & Hp' & Lv & _). apply (loop_errors B solver tol N ND RL) in R; auto; [|rewrite Ex, map_length; auto|rewrite <- Lv; eapply RL; eauto]. destruct R as [(fi & R)|R]; [left; eauto|right; auto].
  - unfold external_optimization in H. rewrite R in H. discriminate.
Qed.
Print Assumptions C53_exceptions.
(** network_optimization keeps that result, in an Optimizer of the frequencies given by the caller. *)
Theorem C53_network : forall fuel B solver f tol N o e, NoDup (map r_id (pb_routes B)) -> right_length solver ->
  (network_optimization fuel B solver f tol N = Some (Ok (o, e)) <-> new_optimizer B f = Ok o /\ external_optimization fuel B solver f tol N = Some (Ok e)).
Proof.
  intros fuel B solver f tol N o e ND RL. unfold network_optimization. destruct (new_optimizer B f) as [o1|ex] eqn:Eo; [|split; [discriminate|intros [C _]; discriminate]].
  destruct (external_optimization fuel B solver f tol N) as [[e1|ex]|] eqn:X; cbn [option_map bind].
  - destruct (new_optimizer_attrs _ _ _ Eo) as (_ & _ & _ & Hp & _). rewrite Hp. destruct (C53_returned _ _ _ _ _ _ _ X) as (x0 & runs & e0 & i & _ & _ & _ & RO & _ & _ & _ & F & _). destruct RO as (fi & o2 & E2 & Es & _). pose proof (RL _ _ _ Es) as L. destruct (new_optimizer_attrs _ _ _ E2) as (_ & _ & _ & _ & Lv & _).
    assert (LE : length (e_x e1) = length (pb_routes B)). { rewrite <- Lv, <- L. clear -F. induction F; cbn; auto. }
    destruct (fopt_from_spec (map r_id (pb_routes B)) ND (e_x e1) 0 []) as [A _]. destruct A as (g & Eg & _); [rewrite map_length; lia|]. unfold fopt_to_f. rewrite Eg. cbn [bind]. split; [intro H; split; congruence|intros [H1 H2]; congruence].
  - split; [discriminate|intros [_ C]; congruence].
  - split; [discriminate|intros [_ C]; congruence].
Qed.
Print Assumptions C53_network.
Definition ex_answers : solver_t := fun k o => if Nat.eqb (o_len_v o) 2 then Ok (ex_e (if Nat.eqb k 0 then [10; 1 # 30] else [20; 1 # 30]) 1 (Fin 0) (Fin (if Nat.eqb k 0 then 5 else 6))) else Err ValueError.
Example C53_ex : exists e, external_optimization 5 ex_B ex_answers None (1 # 100) None = Some (Ok e) /\ e_x e = [10; 0] /\ e_fun e = Fin 5 /\
  external_optimization 5 ex_B (fun k o => if Nat.eqb k 1 then Err ValueError else Ok (ex_e [-1 # 1; 3] 1 (Fin 0) (Fin 5))) None (1 # 100) (Some 0%Z) = Some (Err NoOptimalSolutionFoundException).
Proof. eexists. split; [vm_compute; reflexivity|]. split; [reflexivity|]. split; [reflexivity|]. vm_compute. reflexivity. Qed.

(** ** C57: the constraints given to the solver *)
Lemma mapM_length {A C} (h : A -> res C) : forall l l', mapM h l = Ok l' -> length l' = length l.
Proof. induction l as [|x l IH]; intros l' H; cbn [mapM] in H; [inversion H; auto|]. apply bind_ok in H. destruct H as (y & _ & H). apply bind_ok in H. destruct H as (ys & E & H). inversion H; subst. cbn. f_equal. auto. Qed.
Lemma fmax_length g rs ms f l : fmax_constrains g rs ms f = Ok l -> length l = (length (edge_pairs g) * length ms)%nat.
Proof.
  unfold fmax_constrains. intro H. apply bind_ok in H. destruct H as (ll & E & H). assert (l = concat ll) by congruence. subst l. clear H. revert ll E. induction (edge_pairs g) as [|a ps IH]; intros ll E; cbn [mapM] in E; [inversion E; auto|].
  apply bind_ok in E. destruct E as (y & Ey & E). apply bind_ok in E. destruct E as (ys & E' & E). inversion E; subst. cbn [concat length]. rewrite app_length, (IH _ E'), (mapM_length _ _ _ Ey). lia.
Qed.
Lemma constrains_length o x l : get_constrains o x = Ok l -> length l = (length (pb_routes (o_pb o)) + length (edge_pairs (pb_graph (o_pb o))) * length (nw_modes (pb_net (o_pb o))))%nat.
Proof.
  unfold get_constrains. intro H. apply bind_ok in H. destruct H as (f & _ & H). apply bind_ok in H. destruct H as (t & _ & H). apply bind_ok in H. destruct H as (c & Ec & H). assert (El : l = most_loaded_constrains (pb_routes (o_pb o)) (most_loaded_section (t_l t)) ++ c) by congruence. rewrite El, app_length, (fmax_length _ _ _ _ _ Ec). unfold most_loaded_constrains. rewrite map_length. reflexivity.
Qed.
(** At every vector the list of the constraints has the length for which the bounds of the solver are made. *)
Theorem C57_constraint_length : forall B fg o x l, new_optimizer B fg = Ok o -> get_constrains o x = Ok l -> length l = o_len_c o.
Proof.
  intros B fg o x l H Hl. destruct (new_optimizer_attrs _ _ _ H) as (_ & _ & _ & _ & _ & _ & _ & _ & con & Ec & ->). rewrite (constrains_length _ _ _ Hl), (constrains_length _ _ _ Ec). reflexivity.
Qed.
Print Assumptions C57_constraint_length.
(** They are all non-positive exactly when no line is loaded over the capacity of its mode and no arc has more
    vehicles of a mode than it admits, at these frequencies. *)
Theorem C57_feasible : forall B fg o x l, new_optimizer B fg = Ok o -> (forall m, In m (nw_modes (pb_net B)) -> 0 < m_d m) -> (forall e, In e (g_edges (pb_graph B)) -> edge_ends (pb_graph B) e <> None) ->
  get_constrains o x = Ok l -> exists f t, fopt_to_f (o_pos o) x = Ok f /\ boardings o f = Ok t /\
    ((forall q, In q l -> q <= 0) <->
     (forall r, In r (pb_routes B) -> freq (most_loaded_section (t_l t)) (r_id r) <= m_kmax (r_mode r)) /\
     (forall a b m, edge_exist (pb_graph B) a b = true -> In m (nw_modes (pb_net B)) -> vehicles (pb_routes B) f m a b <= m_fmax m)).
Proof.
  intros B fg o x l H Hd He Hl. destruct (new_optimizer_attrs _ _ _ H) as (Hb & _). unfold get_constrains in Hl. apply bind_ok in Hl. destruct Hl as (f & Ef & Hl). apply bind_ok in Hl. destruct Hl as (t & Et & Hl). apply bind_ok in Hl. destruct Hl as (c & Ec & Hl). rewrite Hb in *. exists f, t. split; auto. split; auto.
  assert (El : l = most_loaded_constrains (pb_routes B) (most_loaded_section (t_l t)) ++ c) by congruence. destruct (C47_feasible (pb_graph B) (pb_routes B) (nw_modes (pb_net B)) f (most_loaded_section (t_l t)) Hd He) as (c' & Ec' & _ & K). assert (c' = c) by congruence. subst c'. rewrite El. exact K.
Qed.
Print Assumptions C57_feasible.
Example C57_ex : exists o l, new_optimizer ex_B None = Ok o /\ get_constrains o [10; 20] = Ok l /\ length l = 26%nat /\ (forall m, In m (nw_modes (pb_net ex_B)) -> 0 < m_d m) /\ forallb (fun q => Qleb q 0) l = true /\
  exists l', get_constrains o [600; 600] = Ok l' /\ forallb (fun q => Qleb q 0) l' = false.
Proof. eexists. eexists. split; [vm_compute; reflexivity|]. split; [vm_compute; reflexivity|]. split; [vm_compute; reflexivity|]. split; [intros m [<-|[]]; reflexivity|]. split; [vm_compute; reflexivity|]. eexists. split; vm_compute; reflexivity. Qed.
