(** * Props_Mode: the properties C16-C20 of modes, the mode manager and passengers *)
From Coq Require Import String List ZArith QArith Bool Lia Lqa.
From Verif Require Import PyBase PyFacts Mode ModeSpec.
Import ListNotations.
Local Open Scope Q_scope.

Ltac fcase x := destruct x; simpl; qb.

Lemma rejects_spec a x : rejects a x = false <-> (mode_domain a x \/ (x = NaN /\ a <> A_bya)).
Proof.
  assert (N : forall x, flt x f0 = false <-> nonneg_f x \/ x = NaN).
  { intro y. unfold nonneg_f. destruct y as [q| | |]; simpl.
    - rewrite Qltb_ge. split; [intro H; left; right; eauto|]. intros [[|[q' [E H]]]|]; try discriminate.
      inversion E; subst; auto.
    - intuition.
    - split; [discriminate|]. intros [[|[q' [E H]]]|]; discriminate.
    - intuition. }
  destruct a; unfold mode_domain;
    try (unfold rejects; rewrite N; intuition congruence).
  - (* bya *) unfold rejects. rewrite negb_false_iff, orb_true_iff. destruct x as [q| | |]; simpl.
    + rewrite !Qeqb_eq. split.
      * intro H. left. exists q. auto.
      * intros [[q' [E H]]|[E _]]; [|discriminate]. inversion E; subst. auto.
    + split; [intros [|]; discriminate|]. intros [[q' [E H]]|[E _]]; discriminate.
    + split; [intros [|]; discriminate|]. intros [[q' [E H]]|[E _]]; discriminate.
    + split; [intros [|]; discriminate|]. intros [[q' [E H]]|[_ E]]; [discriminate|congruence].
  - (* v *) unfold pos_f. destruct x as [q| | |]; simpl.
    + rewrite Qleb_gt. split; [intro H; left; right; eauto|]. intros [[|[q' [E H]]]|[E _]]; try discriminate.
      inversion E; subst; auto.
    + intuition.
    + split; [discriminate|]. intros [[|[q' [E H]]]|[E _]]; discriminate.
    + split; auto. intros _. right. split; congruence.
  - (* theta *) unfold rejects. rewrite orb_false_iff. destruct x as [q| | |]; simpl.
    + rewrite !Qltb_ge. split; [intros [H1 H2]; left; eauto|]. intros [[q' [E H]]|[E _]]; try discriminate.
      inversion E; subst; auto.
    + split; [intros [_ H]; discriminate|]. intros [[q' [E H]]|[E _]]; discriminate.
    + split; [intros [H _]; discriminate|]. intros [[q' [E H]]|[E _]]; discriminate.
    + split; auto. intros _. right. split; congruence.
Qed.

Lemma get_put m a b x : get_attr (put_attr m a x) b = get_attr m b \/ (b = a /\ get_attr (put_attr m a x) b = x).
Proof. destruct m, a, b; simpl; auto. Qed.
Lemma get_put_same m a x : get_attr (put_attr m a x) a = x.
Proof. destruct m, a; reflexivity. Qed.
Lemma get_put_other m a b x : b <> a -> get_attr (put_attr m a x) b = get_attr m b.
Proof. intro H. destruct (get_put m a b x) as [E|[E _]]; [auto|contradiction]. Qed.
Lemma put_attr_name m a x : tm_name (put_attr m a x) = tm_name m.
Proof. destruct m, a; reflexivity. Qed.
Lemma set_name_attr m s b : get_attr (fst (set_name m s)) b = get_attr m b.
Proof. destruct m, s, b; reflexivity. Qed.

(** C16, acceptance of one assignment: accepted iff the value is in the documented domain, or is
    NaN (and the attribute is not bya); on acceptance exactly that attribute changes, on rejection
    nothing does and the exception is that of the attribute. *)
Theorem C16_assignment_rule : forall m a x,
  (match x with Some y => mode_domain a y \/ (y = NaN /\ a <> A_bya) | None => False end ->
     exists m' y, x = Some y /\ set_attr m a x = (m', None) /\ get_attr m' a = y /\
       tm_name m' = tm_name m /\ forall b, b <> a -> get_attr m' b = get_attr m b) /\
  (~ match x with Some y => mode_domain a y \/ (y = NaN /\ a <> A_bya) | None => False end ->
     set_attr m a x = (m, Some (mattr_exn a))).
Proof.
  intros m a [y|]; simpl.
  - rewrite <- rejects_spec. destruct (rejects a y) eqn:E.
    + split; [discriminate|auto].
    + split; [|congruence]. intros _. exists (put_attr m a y), y. split; auto. split; auto.
      split; [apply get_put_same|]. split; [apply put_attr_name|]. intros b H. apply get_put_other. auto.
  - split; [tauto|auto].
Qed.
Print Assumptions C16_assignment_rule.

Definition attrs_ok (m : tmode) : Prop :=
  forall a, mode_domain a (get_attr m a) \/ (get_attr m a = NaN /\ a <> A_bya).

Lemma set_attr_r_inv m a x m' : set_attr_r m a x = Ok m' ->
  exists y, x = Some y /\ rejects a y = false /\ m' = put_attr m a y.
Proof.
  unfold set_attr_r, set_attr. destruct x as [y|]; [|discriminate].
  destruct (rejects a y) eqn:E; [discriminate|]. intro H. inversion H; subst. eauto.
Qed.
Lemma new_mode_inv r m : new_mode r = Ok m ->
  exists nm bya co c1 c2 v t fmax kmax theta tat d fini,
    r = mkModeArgs (Some nm) (Some bya) (Some co) (Some c1) (Some c2) (Some v) (Some t) (Some fmax) (Some kmax)
          (Some theta) (Some tat) (Some d) (Some fini) /\
    m = mkTMode nm bya co c1 c2 v t (fmul fmax d) kmax theta tat d (fmul fini d) /\
    forall a, rejects a (get_attr m a) = false.
Proof.
  intro H. destruct r as [nm bya co c1 c2 v t fmax kmax theta tat d fini]. unfold new_mode in H. simpl in H.
  destruct nm as [nm|]; [|discriminate]. cbn [set_name_r set_name blank bind] in H.
  repeat (apply bind_ok in H; let m := fresh "m" in let E := fresh "E" in destruct H as [m [E H]]).
  unfold pymul in *.
  destruct fmax as [fmax|]; [|discriminate]. destruct d as [d|]; [|discriminate].
  destruct fini as [fini|]; [|discriminate].
  repeat match goal with
  | E : Ok _ = Ok _ |- _ => injection E as E; subst
  | E : set_attr_r _ _ _ = Ok _ |- _ => apply set_attr_r_inv in E;
      let y := fresh "y" in let E1 := fresh "X" in let E2 := fresh "R" in let E3 := fresh "M" in
      destruct E as (y & E1 & E2 & E3); try (injection E1 as E1); subst
  end.
  do 13 eexists. split; [reflexivity|]. split; [reflexivity|].
  intros []; simpl; auto.
Qed.
Lemma new_mode_ok r m : new_mode r = Ok m -> attrs_ok m.
Proof.
  intro H. destruct (new_mode_inv _ _ H) as (? & ? & ? & ? & ? & ? & ? & ? & ? & ? & ? & ? & ? & _ & _ & R).
  intro a. apply rejects_spec. auto.
Qed.
Lemma mode_step_ok m op : attrs_ok m -> attrs_ok (mode_step m op).
Proof.
  intros H. destruct op as [s|a x]; simpl.
  - intro b. rewrite set_name_attr. apply H.
  - destruct x as [y|]; simpl; auto. destruct (rejects a y) eqn:E; simpl; auto.
    intro b. destruct (get_put m a b y) as [->|[-> ->]]; auto. apply rejects_spec. auto.
Qed.
(** C16, invariant: after construction and any history of assignments every attribute that is not
    NaN is in its documented domain, and bya is always 0 or 1. *)
Theorem C16_attributes_stay_in_range : forall r m0 ops a,
  new_mode r = Ok m0 ->
  let m := mode_run m0 ops in
  (get_attr m a <> NaN -> mode_domain a (get_attr m a)) /\ mode_domain A_bya (tm_bya m).
Proof.
  intros r m0 ops a H m.
  assert (K : attrs_ok m).
  { unfold m, mode_run. pose proof (new_mode_ok _ _ H) as K. clear H m. revert m0 K.
    induction ops as [|op ops IH]; intros m0 K; simpl; auto. apply IH. apply mode_step_ok. auto. }
  split.
  - intro N. destruct (K a) as [D|[D _]]; [auto|contradiction].
  - destruct (K A_bya) as [D|[_ D]]; [auto|contradiction].
Qed.
Print Assumptions C16_attributes_stay_in_range.
(** construction succeeds exactly on the domain (with the products fmax*d and fini*d) *)
Theorem C16_constructor_accepts_iff : forall nm bya co c1 c2 v t fmax kmax theta tat d fini,
  (exists m, new_mode (mkModeArgs (Some nm) (Some bya) (Some co) (Some c1) (Some c2) (Some v) (Some t) (Some fmax)
     (Some kmax) (Some theta) (Some tat) (Some d) (Some fini)) = Ok m) <->
  (forall a, let x := get_attr (mkTMode nm bya co c1 c2 v t (fmul fmax d) kmax theta tat d (fmul fini d)) a in
     mode_domain a x \/ (x = NaN /\ a <> A_bya)).
Proof.
  intros. split.
  - intros [m H] a. apply new_mode_inv in H.
    destruct H as (? & ? & ? & ? & ? & ? & ? & ? & ? & ? & ? & ? & ? & E & -> & R). inversion E; subst.
    apply rejects_spec. apply R.
  - intro H.
    assert (R : forall a, rejects a (get_attr (mkTMode nm bya co c1 c2 v t (fmul fmax d) kmax theta tat d (fmul fini d)) a) = false).
    { intro a. apply rejects_spec. apply H. }
    pose proof (R A_bya) as R1. pose proof (R A_co) as R2. pose proof (R A_c1) as R3. pose proof (R A_c2) as R4.
    pose proof (R A_v) as R5. pose proof (R A_t) as R6. pose proof (R A_fmax) as R7. pose proof (R A_kmax) as R8.
    pose proof (R A_theta) as R9. pose proof (R A_tat) as R10. pose proof (R A_d) as R11. pose proof (R A_fini) as R12.
    cbn [get_attr tm_bya tm_co tm_c1 tm_c2 tm_v tm_t tm_fmax tm_kmax tm_theta tm_tat tm_d tm_fini] in *.
    unfold new_mode, set_name_r, set_attr_r, set_attr, pymul.
    cbn [ar_name ar_bya ar_co ar_c1 ar_c2 ar_v ar_t ar_fmax ar_kmax ar_theta ar_tat ar_d ar_fini set_name blank bind].
    rewrite R1. cbn [bind]. rewrite R2. cbn [bind]. rewrite R3. cbn [bind]. rewrite R4. cbn [bind].
    rewrite R5. cbn [bind]. rewrite R6. cbn [bind]. rewrite R7. cbn [bind]. rewrite R8. cbn [bind].
    rewrite R9. cbn [bind]. rewrite R10. cbn [bind]. rewrite R11. cbn [bind]. rewrite R12. eauto.
Qed.
Print Assumptions C16_constructor_accepts_iff.
(** the attributes of a new mode are the arguments; fmax and fini are multiplied by the number of lines d *)
Theorem C16_constructor_values : forall r m, new_mode r = Ok m ->
  ar_name r = Some (tm_name m) /\ ar_bya r = Some (tm_bya m) /\ ar_co r = Some (tm_co m) /\ ar_c1 r = Some (tm_c1 m) /\
  ar_c2 r = Some (tm_c2 m) /\ ar_v r = Some (tm_v m) /\ ar_t r = Some (tm_t m) /\ ar_kmax r = Some (tm_kmax m) /\
  ar_theta r = Some (tm_theta m) /\ ar_tat r = Some (tm_tat m) /\ ar_d r = Some (tm_d m) /\
  (exists x, ar_fmax r = Some x /\ tm_fmax m = fmul x (tm_d m)) /\
  (exists x, ar_fini r = Some x /\ tm_fini m = fmul x (tm_d m)).
Proof.
  intros r m H. apply new_mode_inv in H.
  destruct H as (? & ? & ? & ? & ? & ? & ? & ? & ? & ? & ? & ? & ? & -> & -> & _). simpl. repeat split; eauto.
Qed.
Print Assumptions C16_constructor_values.
(** NaN passes the range checks: a mode can be built with speed NaN *)
Theorem C16_nan_passes_checks_refuted : exists r m, new_mode r = Ok m /\ tm_v m = NaN /\ ~ mode_domain A_v (tm_v m).
Proof.
  exists (mkModeArgs (Some "x"%string) (Some (Fin 1)) (Some (Fin 1)) (Some (Fin 1)) (Some (Fin 1)) (Some NaN) (Some (Fin 1))
    (Some (Fin 1)) (Some (Fin 1)) (Some (Fin 1)) (Some (Fin 1)) (Some (Fin 1)) (Some (Fin 1))).
  eexists. split; [vm_compute; reflexivity|]. split; [reflexivity|]. simpl.
  intros [C|[q [C _]]]; discriminate.
Qed.
Print Assumptions C16_nan_passes_checks_refuted.
Example C16_ex : exists m, new_mode bus_args = Ok m /\ tm_fmax m = Fin 600 /\ 
  tm_theta (mode_run m [OpAttr A_theta (Some (Fin 2)); OpAttr A_theta (Some (Fin (1#2))); OpAttr A_v (Some (Fin 0))]) = Fin (1#2).
Proof. vm_compute. eexists. repeat split. Qed.

(** ** C17 *)
Lemma index_of_aux name l k :
  (fix go l i := match l with [] => None | x :: l' => if (x =? name)%string then Some i else go l' (S i) end) l k
  = option_map (fun i => (k + i)%nat) (index_of name l).
Proof.
  unfold index_of. revert k. induction l as [|x l IH]; intro k; [reflexivity|].
  destruct (x =? name)%string; simpl; [f_equal; lia|].
  rewrite IH, (IH 1%nat). destruct ((fix go l i := match l with [] => None | x :: l' => if (x =? name)%string then Some i else go l' (S i) end) l 0%nat); simpl; auto.
Qed.
Lemma index_of_cons name x l : index_of name (x :: l) = if (x =? name)%string then Some 0%nat else option_map S (index_of name l).
Proof. unfold index_of at 1. destruct (x =? name)%string; auto. rewrite index_of_aux. reflexivity. Qed.
Lemma index_of_None name l : index_of name l = None <-> ~ In name l.
Proof.
  induction l as [|x l IH]; [simpl; tauto|]. rewrite index_of_cons. simpl.
  destruct (String.eqb_spec x name).
  - split; [discriminate|]. intro H. exfalso. apply H. auto.
  - destruct (index_of name l) as [i|]; simpl; split; intro H; try discriminate; try tauto.
    exfalso. apply H. right. destruct (in_dec string_dec name l); auto. exfalso. apply IH in n0. discriminate.
Qed.

Lemma combine_snoc {A B} (l : list A) (m : list B) a b : length l = length m -> combine (l ++ [a]) (m ++ [b]) = combine l m ++ [(a, b)].
Proof. revert m. induction l; intros [|y m] H; simpl in *; try discriminate; auto. f_equal. auto. Qed.
Lemma combine_fst {A B} (l : list A) (m : list B) : length l = length m -> map fst (combine l m) = l.
Proof. revert m. induction l; intros [|y m] H; simpl in *; try discriminate; auto. f_equal. auto. Qed.
Lemma combine_snd {A B} (l : list A) (m : list B) : length l = length m -> map snd (combine l m) = m.
Proof. revert m. induction l; intros [|y m] H; simpl in *; try discriminate; auto. f_equal. auto. Qed.

Lemma pop_combine name l : forall m i, length l = length m -> index_of name l = Some i ->
  length (pop_nth l i) = length (pop_nth m i) /\
  combine (pop_nth l i) (pop_nth m i) = remove_key name (combine l m).
Proof.
  induction l as [|x l IH]; intros [|y m] i L H; simpl in L; try discriminate.
  rewrite index_of_cons in H. simpl. destruct (x =? name)%string.
  - inversion H; subst. unfold pop_nth. simpl. auto.
  - destruct (index_of name l) as [k|] eqn:E; [|discriminate]. simpl in H. inversion H; subst.
    destruct (IH m k) as [I1 I2]; auto. unfold pop_nth in *. cbn [firstn skipn app combine length].
    split; [f_equal; exact I1|]. f_equal. exact I2.
Qed.
Definition aligned (w : world) : Prop := length (mg_names (w_mgr w)) = length (mg_modes (w_mgr w)).

Lemma add_refines w ref : aligned w ->
  aligned (fst (add_mode w ref)) /\ entries (fst (add_mode w ref)) = spec_add w ref (entries w).
Proof.
  intro A. unfold add_mode, spec_add. destruct (nth_error (w_heap w) ref) as [m|]; [|auto].
  unfold entries at 2. rewrite combine_fst by auto.
  destruct (smem (tm_name m) (mg_names (w_mgr w))); [auto|]. simpl. split.
  - unfold aligned in *. simpl. rewrite !app_length, A. reflexivity.
  - unfold entries. simpl. rewrite combine_snoc by auto. reflexivity.
Qed.
Lemma remove_refines w name : aligned w ->
  aligned (fst (remove_mode w name)) /\ entries (fst (remove_mode w name)) = remove_key name (entries w).
Proof.
  intro A. unfold remove_mode. destruct (index_of name (mg_names (w_mgr w))) as [i|] eqn:E; simpl.
  - destruct (pop_combine name _ _ _ A E) as [P1 P2]. split; [exact P1|exact P2].
  - split; auto. apply index_of_None in E. unfold entries. unfold aligned in A. revert A E.
    generalize (mg_modes (w_mgr w)) as ms. generalize (mg_names (w_mgr w)) as ns. clear w.
    induction ns as [|x l IH]; intros [|y m] A E; simpl in *; auto.
    destruct (String.eqb_spec x name); [tauto|]. f_equal. apply IH; [congruence|tauto].
Qed.
Lemma remove_key_subset name l x : In x (map fst (remove_key name l)) -> In x (map fst l).
Proof.
  induction l as [|[k r] l IH]; simpl; auto. destruct (k =? name)%string; simpl; auto. intros [H|H]; auto.
Qed.
Lemma remove_key_NoDup name l : NoDup (map fst l) -> NoDup (map fst (remove_key name l)).
Proof.
  induction l as [|[k r] l IH]; simpl; auto. intro N. inversion N; subst.
  destruct (k =? name)%string; simpl; auto. constructor; auto. intro C. apply remove_key_subset in C. contradiction.
Qed.
Lemma NoDup_snoc {A} (l : list A) x : NoDup l -> ~ In x l -> NoDup (l ++ [x]).
Proof.
  intros N H. rewrite <- (rev_involutive (l ++ [x])). apply NoDup_rev. rewrite rev_app_distr. simpl.
  constructor; [rewrite <- in_rev; auto|]. apply NoDup_rev. auto.
Qed.
Definition mgr_ok (w : world) : Prop := aligned w /\ NoDup (mg_names (w_mgr w)).
Lemma mgr_step_ok w op : mgr_ok w -> mgr_ok (mgr_step w op).
Proof.
  intros [A N]. destruct op as [ref|name|ref o]; simpl.
  - destruct (add_refines w ref A) as [A' E]. split; auto.
    rewrite <- (combine_fst _ _ A'). fold (entries (fst (add_mode w ref))). rewrite E. unfold spec_add.
    destruct (nth_error (w_heap w) ref) as [m|]; [|unfold entries; rewrite combine_fst; auto].
    destruct (smem (tm_name m) (map fst (entries w))) eqn:Em; [unfold entries; rewrite combine_fst; auto|].
    rewrite map_app. simpl. apply smem_nIn in Em. apply NoDup_snoc; auto. unfold entries. rewrite combine_fst; auto.
  - destruct (remove_refines w name A) as [A' E]. split; auto.
    rewrite <- (combine_fst _ _ A'). fold (entries (fst (remove_mode w name))). rewrite E.
    apply remove_key_NoDup. unfold entries. rewrite combine_fst; auto.
  - split; auto.
Qed.
Lemma mgr_run_ok heap ops : mgr_ok (mgr_run (mkWorld heap empty_manager) ops).
Proof.
  unfold mgr_run. assert (G : forall ops w, mgr_ok w -> mgr_ok (fold_left mgr_step ops w)).
  { clear. induction ops as [|op ops IH]; simpl; auto. intros w H. apply IH. apply mgr_step_ok. auto. }
  apply G. split; [reflexivity|constructor].
Qed.

Fixpoint assoc (name : string) (l : list (string * nat)) : option nat :=
  match l with [] => None | (k, r) :: l' => if (k =? name)%string then Some r else assoc name l' end.
Lemma get_mode_assoc w name : aligned w ->
  get_mode (w_mgr w) name = match assoc name (entries w) with Some r => Ok r | None => Err ModeNotFoundExceptions end.
Proof.
  unfold get_mode, entries, aligned. generalize (mg_modes (w_mgr w)) as ms. generalize (mg_names (w_mgr w)) as ns.
  induction ns as [|x l IH]; intros [|y m] L; simpl in L; try discriminate; [reflexivity|].
  rewrite index_of_cons. simpl. destruct (x =? name)%string; [reflexivity|].
  specialize (IH m ltac:(congruence)). destruct (index_of name l) as [i|]; simpl in *; auto.
Qed.

(** C17: through every history (adds, removals, attribute assignments and renames, failing calls
    included) the manager is a dictionary: unique names, and each call updates it as specified. *)
Theorem C17_manager_is_a_dictionary : forall heap ops,
  let w := mgr_run (mkWorld heap empty_manager) ops in
  NoDup (mg_names (w_mgr w)) /\
  mg_names (w_mgr w) = map fst (entries w) /\ mg_modes (w_mgr w) = map snd (entries w) /\
  (forall name, get_mode (w_mgr w) name =
     match assoc name (entries w) with Some r => Ok r | None => Err ModeNotFoundExceptions end) /\
  (forall ref, entries (fst (add_mode w ref)) = spec_add w ref (entries w)) /\
  (forall name, entries (fst (remove_mode w name)) = remove_key name (entries w)).
Proof.
  intros heap ops w. destruct (mgr_run_ok heap ops) as [A N]. fold w in A, N.
  split; auto. split; [unfold entries; rewrite combine_fst; auto|].
  split; [unfold entries; rewrite combine_snd; auto|].
  split; [intro; apply get_mode_assoc; auto|].
  split; [intro; apply add_refines; auto | intro; apply remove_refines; auto].
Qed.
Print Assumptions C17_manager_is_a_dictionary.
(** which calls fail, and failures change nothing *)
Theorem C17_failures_atomic : forall w,
  (forall ref w' e, add_mode w ref = (w', Some e) -> w' = w /\
     (nth_error (w_heap w) ref = None \/
      exists m, nth_error (w_heap w) ref = Some m /\ In (tm_name m) (mg_names (w_mgr w)) /\ e = AddModeExceptions)) /\
  (forall name w' e, remove_mode w name = (w', Some e) ->
     w' = w /\ ~ In name (mg_names (w_mgr w)) /\ e = ModeDoesNotExistExceptions) /\
  (forall name w', remove_mode w name = (w', None) -> In name (mg_names (w_mgr w))).
Proof.
  intro w. split; [|split].
  - intros ref w' e H. unfold add_mode in H. destruct (nth_error (w_heap w) ref) as [m|].
    + destruct (smem (tm_name m) (mg_names (w_mgr w))) eqn:E; [|discriminate]. apply smem_In in E.
      inversion H; subst. split; auto. right. exists m. auto.
    + inversion H; subst. auto.
  - intros name w' e H. unfold remove_mode in H. destruct (index_of name (mg_names (w_mgr w))) eqn:E; [discriminate|].
    inversion H; subst. split; auto. split; auto. apply index_of_None. auto.
  - intros name w' H. unfold remove_mode in H. destruct (index_of name (mg_names (w_mgr w))) eqn:E; [|discriminate].
    destruct (in_dec string_dec name (mg_names (w_mgr w))) as [I|I]; auto. apply index_of_None in I. congruence.
Qed.
Print Assumptions C17_failures_atomic.

Definition named (w : world) : Prop :=
  forall name ref, In (name, ref) (entries w) -> exists m, nth_error (w_heap w) ref = Some m /\ tm_name m = name.
Lemma upd_heap_nth h ref f k : nth_error (upd_heap h ref f) k =
  if Nat.eqb k ref then option_map f (nth_error h k) else nth_error h k.
Proof.
  unfold upd_heap. destruct (nth_error h ref) as [m|] eqn:E.
  - assert (L : (ref < length h)%nat) by (apply nth_error_Some; congruence).
    assert (Lf : length (firstn ref h) = ref) by (apply firstn_length_le; lia).
    destruct (Nat.eqb_spec k ref).
    + subst. rewrite nth_error_app2 by lia. rewrite Lf, Nat.sub_diag. simpl. rewrite E. reflexivity.
    + destruct (Nat.lt_ge_cases k ref).
      * rewrite nth_error_app1 by lia. rewrite <- (firstn_skipn ref h) at 2.
        rewrite nth_error_app1 by lia. reflexivity.
      * rewrite nth_error_app2 by lia. rewrite Lf. destruct (k - ref)%nat eqn:Ek; [lia|]. simpl.
        rewrite <- (firstn_skipn (S ref) h) at 2. rewrite nth_error_app2 by (rewrite firstn_length_le; lia).
        rewrite firstn_length_le by lia. f_equal. lia.
  - destruct (Nat.eqb_spec k ref); auto. subst. rewrite E. reflexivity.
Qed.
Lemma remove_key_in name l x : In x (remove_key name l) -> In x l.
Proof. induction l as [|[k r] l IH]; simpl; auto. destruct (k =? name)%string; simpl; auto. intros [H|H]; auto. Qed.
Lemma named_step w op : aligned w -> named w ->
  match op with MSet _ (OpName _) => False | _ => True end -> named (mgr_step w op).
Proof.
  intros A H Hop. destruct op as [ref|name|ref o]; simpl.
  - intros name r Hin. destruct (add_refines w ref A) as [_ E]. rewrite E in Hin.
    assert (Hh : w_heap (fst (add_mode w ref)) = w_heap w).
    { unfold add_mode. destruct (nth_error (w_heap w) ref) as [m|]; auto. destruct (smem (tm_name m) (mg_names (w_mgr w))); auto. }
    rewrite Hh. unfold spec_add in Hin. destruct (nth_error (w_heap w) ref) as [m|] eqn:Em; [|apply H; auto].
    destruct (smem (tm_name m) (map fst (entries w))); [apply H; auto|].
    apply in_app_or in Hin. destruct Hin as [Hin|[Hin|[]]]; [apply H; auto|]. inversion Hin; subst. eauto.
  - intros nm r Hin. destruct (remove_refines w name A) as [_ E]. rewrite E in Hin. apply remove_key_in in Hin.
    assert (Hh : w_heap (fst (remove_mode w name)) = w_heap w).
    { unfold remove_mode. destruct (index_of name (mg_names (w_mgr w))); auto. }
    rewrite Hh. apply H; auto.
  - destruct o as [s|a x]; [contradiction|]. intros nm r Hin. unfold entries in Hin. simpl in Hin.
    destruct (H nm r Hin) as (m & Em & Nm). simpl. rewrite upd_heap_nth. destruct (Nat.eqb_spec r ref).
    + rewrite Em. simpl. exists (fst (set_attr m a x)). split; auto. destruct x as [y|]; simpl; auto.
      destruct (rejects a y); simpl; auto. rewrite put_attr_name. auto.
    + eauto.
Qed.
(** without renames, the object found under a name carries that name *)
Theorem C17_names_agree_without_rename : forall heap ops name ref,
  no_rename ops ->
  let w := mgr_run (mkWorld heap empty_manager) ops in
  get_mode (w_mgr w) name = Ok ref ->
  exists m, nth_error (w_heap w) ref = Some m /\ tm_name m = name.
Proof.
  intros heap ops name ref NR w H. destruct (mgr_run_ok heap ops) as [A N]. fold w in A, N.
  assert (Nm : named w).
  { unfold w, mgr_run. assert (G : forall ops w, no_rename ops -> mgr_ok w -> named w -> named (fold_left mgr_step ops w)).
    { clear. induction ops as [|op ops IH]; simpl; auto. intros w NR K H. apply IH.
      - intros o Ho. apply NR. simpl; auto.
      - apply mgr_step_ok. auto.
      - apply named_step; auto; [apply K|]. apply NR. simpl; auto. }
    apply G; auto; [split; [reflexivity|constructor]|]. intros nm r []. }
  rewrite get_mode_assoc in H by auto. destruct (assoc name (entries w)) as [r|] eqn:E; [|discriminate].
  inversion H; subst. apply Nm. clear - E. induction (entries w) as [|[k r] l IH]; simpl in *; [discriminate|].
  destruct (String.eqb_spec k name); [inversion E; subst; auto|auto].
Qed.
Print Assumptions C17_names_agree_without_rename.
(** renaming a registered mode makes the manager stale: the old name still answers, with an object
    of another name, and the new name is not found *)
Theorem C17_rename_goes_stale_refuted : exists w ops ref m, default_world = Ok w /\
  let w' := mgr_run w ops in
  get_mode (w_mgr w') "bus" = Ok ref /\ nth_error (w_heap w') ref = Some m /\ tm_name m = "tram"%string /\
  get_mode (w_mgr w') "tram" = Err ModeNotFoundExceptions.
Proof.
  eexists. exists [MSet 0 (OpName (Some "tram"%string))]. do 2 eexists. split; [vm_compute; reflexivity|].
  vm_compute. repeat split.
Qed.
Print Assumptions C17_rename_goes_stale_refuted.
Example C17_ex : exists w, default_world = Ok w /\ 
  let w' := mgr_run w [MAdd 0; MRemove "bus"; MAdd 0; MRemove "tram"] in
  mg_names (w_mgr w') = ["metro"; "bus"]%string /\ mg_modes (w_mgr w') = [1; 0]%nat.
Proof. eexists. split; [vm_compute; reflexivity|]. vm_compute. auto. Qed.

(** C18 *)
Theorem C18_validity_rule : forall ds,
  (is_valid_to_assignment_step ds = Ok true <->
     length ds = 1%nat \/ (length ds = 2%nat /\ exists d q, In d ds /\ d = Fin q /\ q == 1)) /\
  (is_valid_to_assignment_step ds = Ok true \/ is_valid_to_assignment_step ds = Err TransportNetworkException).
Proof.
  assert (F : forall d, feq d f1 = true <-> exists q, d = Fin q /\ q == 1).
  { intros [q| | |]; simpl; try (split; [discriminate|intros (q' & E & _); discriminate]).
    rewrite Qeqb_eq. split; [eauto|]. intros (q' & E & H). inversion E; subst; auto. }
  intros [|a [|b [|c ds]]]; simpl; (split; [|auto]).
  - split; [discriminate|]. intros [H|[H _]]; discriminate.
  - split; auto.
  - destruct (feq a f1 || feq b f1) eqn:E.
    + split; auto. intros _. right. split; auto. apply orb_true_iff in E. rewrite !F in E.
      destruct E as [(q & E & H)|(q & E & H)]; [exists a, q|exists b, q]; auto.
    + split; [discriminate|]. intros [H|[_ (d & q & [H|[H|[]]] & Hd & Hq)]]; [discriminate| |];
        apply orb_false_iff in E; destruct E as [E1 E2]; subst.
      * assert (X : feq (Fin q) f1 = true) by (apply F; eauto). congruence.
      * assert (X : feq (Fin q) f1 = true) by (apply F; eauto). congruence.
  - destruct (feq a f1 || feq b f1); auto.
  - split; [discriminate|]. intros [H|[H _]]; discriminate.
Qed.
Print Assumptions C18_validity_rule.
Example C18_ex : is_valid_to_assignment_step [Fin 4; Fin 1] = Ok true /\
  is_valid_to_assignment_step [Fin 4; Fin 2] = Err TransportNetworkException /\
  is_valid_to_assignment_step [] = Err TransportNetworkException.
Proof. vm_compute. auto. Qed.

(** C19: constructor arguments are recovered per line as long as d, fmax and fini are not reassigned *)
Definition keeps_lines (ops : list mode_op) : Prop :=
  forall op, In op ops -> match op with OpAttr A_d _ | OpAttr A_fmax _ | OpAttr A_fini _ => False | _ => True end.
Theorem C19_per_line_values : forall r m0 ops fmax fini d,
  new_mode r = Ok m0 -> ar_fmax r = Some (Fin fmax) -> ar_fini r = Some (Fin fini) -> ar_d r = Some (Fin d) ->
  keeps_lines ops -> 0 < d ->
  let m := mode_run m0 ops in
  exists F I, tm_d m = Fin d /\ tm_fmax m = Fin F /\ tm_fini m = Fin I /\ F / d == fmax /\ I / d == fini.
Proof.
  intros r m0 ops fmax fini d H Ef Ei Ed K Hd m.
  destruct (new_mode_inv _ _ H) as (? & ? & ? & ? & ? & ? & ? & fm & ? & ? & ? & d' & fi & Er & Em & _).
  subst r. simpl in *. inversion Ef; inversion Ei; inversion Ed; subst fm fi d'.
  assert (G : forall ops m0, keeps_lines ops -> forall a, (a = A_d \/ a = A_fmax \/ a = A_fini) ->
     get_attr (mode_run m0 ops) a = get_attr m0 a).
  { clear. unfold mode_run. induction ops as [|op ops IH]; intros m0 K a Ha; simpl; auto.
    rewrite IH by (auto; intros o Ho; apply K; simpl; auto).
    pose proof (K op (or_introl eq_refl)) as Kop. destruct op as [s|b x]; simpl.
    - apply set_name_attr.
    - destruct x as [y|]; simpl; auto. destruct (rejects b y); simpl; auto. apply get_put_other.
      intro C. rewrite <- C in Kop. destruct Ha as [E|[E|E]]; rewrite E in Kop; contradiction. }
  exists (fmax * d), (fini * d).
  pose proof (G ops m0 K A_d ltac:(auto)) as G1. pose proof (G ops m0 K A_fmax ltac:(auto)) as G2.
  pose proof (G ops m0 K A_fini ltac:(auto)) as G3. simpl in G1, G2, G3. unfold m.
  rewrite G1, G2, G3, Em. simpl. repeat split; auto; field; lra.
Qed.
Print Assumptions C19_per_line_values.
(** reassigning d does not rescale: the per-line capacity of the default bus (150) becomes 300 *)
Theorem C19_reassigning_d_does_not_rescale_refuted : exists r m0 ops fmax F d,
  new_mode r = Ok m0 /\ ar_fmax r = Some (Fin fmax) /\
  (forall op, In op ops -> exists q, op = OpAttr A_d (Some (Fin q))) /\
  tm_fmax (mode_run m0 ops) = Fin F /\ tm_d (mode_run m0 ops) = Fin d /\ 0 < d /\ ~ F / d == fmax.
Proof.
  exists bus_args. eexists. exists [OpAttr A_d (Some (Fin 2))], 150. do 2 eexists.
  split; [vm_compute; reflexivity|]. split; [reflexivity|].
  split; [intros op [<-|[]]; eauto|]. split; [vm_compute; reflexivity|]. split; [vm_compute; reflexivity|].
  split; [lra|]. vm_compute. discriminate.
Qed.
Print Assumptions C19_reassigning_d_does_not_rescale_refuted.
Example C19_ex : exists m, new_mode metro_args = Ok m /\ tm_fini m = Fin 28 /\ tm_d m = Fin 1.
Proof. vm_compute. eexists. repeat split. Qed.

(** C20 *)
Lemma prejects_spec a x : prejects a x = false <-> pass_domain a x \/ x = NaN.
Proof.
  assert (N : forall x, flt x f0 = false <-> nonneg_f x \/ x = NaN).
  { intro y. unfold nonneg_f. destruct y as [q| | |]; simpl.
    - rewrite Qltb_ge. split; [intro H; left; right; eauto|]. intros [[|[q' [E H]]]|]; try discriminate.
      inversion E; subst; auto.
    - intuition.
    - split; [discriminate|]. intros [[|[q' [E H]]]|]; discriminate.
    - intuition. }
  destruct a; unfold pass_domain; try apply N. unfold pos_f. destruct x as [q| | |]; simpl.
  - rewrite Qleb_gt. split; [intro H; left; right; eauto|]. intros [[|[q' [E H]]]|]; try discriminate.
    inversion E; subst; auto.
  - intuition.
  - split; [discriminate|]. intros [[|[q' [E H]]]|]; discriminate.
  - intuition.
Qed.
Lemma get_pput_same p a x : get_pattr (put_pattr p a x) a = x.
Proof. destruct p, a; reflexivity. Qed.
Lemma get_pput_other p a b x : b <> a -> get_pattr (put_pattr p a x) b = get_pattr p b.
Proof. intro H. destruct p, a, b; try reflexivity; congruence. Qed.

Theorem C20_assignment_rule : forall p a x,
  (match x with Some y => pass_domain a y \/ y = NaN | None => False end ->
     exists p' y, x = Some y /\ set_pattr p a x = (p', None) /\ get_pattr p' a = y /\
       forall b, b <> a -> get_pattr p' b = get_pattr p b) /\
  (~ match x with Some y => pass_domain a y \/ y = NaN | None => False end ->
     set_pattr p a x = (p, Some (pattr_exn a))).
Proof.
  intros p a [y|]; simpl; [|tauto]. rewrite <- prejects_spec. destruct (prejects a y).
  - split; [discriminate|auto].
  - split; [|congruence]. intros _. exists (put_pattr p a y), y. split; auto. split; auto.
    split; [apply get_pput_same|]. intros; apply get_pput_other; auto.
Qed.
Print Assumptions C20_assignment_rule.
Lemma pattr_eq_dec (a b : pattr) : {a = b} + {a <> b}.
Proof. decide equality. Qed.
Theorem C20_attributes_stay_in_range : forall args p0 ops a,
  new_passenger args = Ok p0 -> get_pattr (pass_run p0 ops) a <> NaN ->
  pass_domain a (get_pattr (pass_run p0 ops) a).
Proof.
  intros args p0 ops a H.
  assert (K0 : forall b, prejects b (get_pattr p0 b) = false).
  { unfold new_passenger in H. simpl in H. unfold set_pattr_r, set_pattr in H.
    repeat match type of H with
    | context [match args ?x with _ => _ end] => destruct (args x) as [?y|]; [|cbn in H; discriminate]
    | context [if prejects ?x ?y then _ else _] => destruct (prejects x y) eqn:?R; [cbn in H; discriminate|]; cbn [bind] in H
    end.
    inversion H; subst. intros []; assumption. }
  assert (K : forall b, prejects b (get_pattr (pass_run p0 ops) b) = false).
  { clear H. unfold pass_run. revert p0 K0. induction ops as [|[a' x] ops IH]; intros p0 K0; simpl; auto.
    apply IH. intro b. destruct x as [y|]; simpl; auto. destruct (prejects a' y) eqn:E; simpl; auto.
    destruct (pattr_eq_dec b a'); [subst; rewrite get_pput_same; auto | rewrite get_pput_other; auto]. }
  specialize (K a). apply prejects_spec in K. destruct K; [auto|contradiction].
Qed.
Print Assumptions C20_attributes_stay_in_range.
Example C20_ex : exists p, new_passenger (fun a => match a with P_va => Some (Fin 4) | P_pt => Some (Fin 16) | _ => Some (Fin (274#100)) end) = Ok p /\
  ps_va (pass_run p [(P_va, Some (Fin 0)); (P_va, None); (P_pv, Some PInf)]) = Fin 4.
Proof. vm_compute. eexists. repeat split. Qed.
(** the constructor: accepted exactly when every argument is, and the attributes are then the arguments; the
    exception is that of the first bad argument, in the order of the constructor *)
Lemma pass_fold args : forall l p, NoDup l ->
  (exists p', foldM (fun p a => set_pattr_r p a (args a)) l p = Ok p' /\
     (forall a, In a l -> args a = Some (get_pattr p' a) /\ (pass_domain a (get_pattr p' a) \/ get_pattr p' a = NaN)) /\
     (forall a, ~ In a l -> get_pattr p' a = get_pattr p a)) \/
  (exists l1 a l2, l = l1 ++ a :: l2 /\ foldM (fun p a => set_pattr_r p a (args a)) l p = Err (pattr_exn a) /\
     (forall y, args a = Some y -> ~ pass_domain a y /\ y <> NaN) /\
     (forall b, In b l1 -> exists y, args b = Some y /\ (pass_domain b y \/ y = NaN))).
Proof.
  induction l as [|a l IH]; intros p ND.
  - left. exists p. split; [reflexivity|]. split; [intros a []|auto].
  - inversion ND as [|? ? NI ND' E]; subst. cbn [foldM].
    destruct (args a) as [y|] eqn:Ea.
    + assert (S1 : set_pattr_r p a (Some y) = if prejects a y then Err (pattr_exn a) else Ok (put_pattr p a y)) by (unfold set_pattr_r, set_pattr; destruct (prejects a y); reflexivity).
      rewrite S1. clear S1. destruct (prejects a y) eqn:R.
      * right. exists [], a, l. cbn [bind]. split; [reflexivity|]. split; [reflexivity|]. split; [|intros b []].
        intros y' Ey. rewrite Ea in Ey. injection Ey as <-.
        assert (N : ~ (pass_domain a y \/ y = NaN)) by (rewrite <- prejects_spec; congruence). tauto.
      * apply prejects_spec in R. cbn [bind]. destruct (IH (put_pattr p a y) ND') as [(p' & F & A1 & A2)|(l1 & b & l2 & -> & F & B1 & B2)].
        -- left. exists p'. split; [exact F|]. assert (G : get_pattr p' a = y) by (rewrite (A2 a NI); apply get_pput_same).
           split.
           ++ intros b [<-|I]; [rewrite G; auto|auto].
           ++ intros b NB. rewrite A2 by (intro; apply NB; right; auto). apply get_pput_other. intro; subst; apply NB; left; auto.
        -- right. exists (a :: l1), b, l2. split; [reflexivity|]. split; [exact F|]. split; [exact B1|].
           intros c [<-|I]; eauto.
    + right. exists [], a, l. split; [reflexivity|]. split; [reflexivity|]. split; [intros; congruence|intros b []].
Qed.
Theorem C20_constructor : forall args,
  let order := [P_va; P_pv; P_pw; P_pa; P_pt; P_spv; P_spw; P_spa; P_spt] in
  let good := fun a => exists y, args a = Some y /\ (pass_domain a y \/ y = NaN) in
  ((exists p, new_passenger args = Ok p) <-> forall a, good a) /\
  (forall p, new_passenger args = Ok p -> forall a, args a = Some (get_pattr p a)) /\
  (forall e, new_passenger args = Err e ->
     exists l1 a l2, order = l1 ++ a :: l2 /\ (forall b, In b l1 -> good b) /\ ~ good a /\ e = pattr_exn a).
Proof.
  intros args order good.
  assert (ND : NoDup order).
  { repeat constructor; simpl; intuition discriminate. }
  assert (AL : forall a, In a order) by (intros []; simpl; tauto).
  unfold new_passenger. fold order. clearbody order.
  destruct (pass_fold args order blank_p ND) as [(p' & F & A1 & _)|(l1 & a & l2 & EO & F & B1 & B2)]; rewrite F.
  - split; [|split; [intros p [= <-] a; apply A1; auto|intros; discriminate]].
    split; [intros _ a; exists (get_pattr p' a); apply A1; auto|eauto].
  - assert (NG : ~ good a) by (intros (y & Ey & D); destruct (B1 y Ey); tauto).
    split; [|split; [intros; discriminate|]].
    + split; [intros [p C]; discriminate|intro H; exfalso; apply NG; apply H].
    + intros e [= <-]. exists l1, a, l2. auto.
Qed.
Print Assumptions C20_constructor.
Example C20_constructor_ex :
  new_passenger (fun a => match a with P_va => Some (Fin 4) | P_pa => Some (Fin (-1)) | P_pt => None | _ => Some (Fin 1) end)
  = Err (pattr_exn P_pa).
Proof. vm_compute. reflexivity. Qed.
Theorem C20_nan_passes_checks_refuted : exists args p, new_passenger args = Ok p /\ ps_va p = NaN.
Proof. exists (fun _ => Some NaN). vm_compute. eexists. auto. Qed.
Print Assumptions C20_nan_passes_checks_refuted.
