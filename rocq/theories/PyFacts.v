(** * PyFacts: lemmas about the shared Python fragments *)
From Coq Require Import String List ZArith QArith Bool Lia Lqa Setoid Permutation.
From Verif Require Import PyBase.
Import ListNotations.
Local Open Scope Q_scope.

Lemma Qltb_lt x y : Qltb x y = true <-> x < y.
Proof.
  unfold Qltb. rewrite negb_true_iff. split; intro H.
  - apply Qnot_le_lt. intro C. apply Qle_bool_iff in C. congruence.
  - destruct (Qle_bool y x) eqn:E; auto. apply Qle_bool_iff in E.
    exfalso. exact (Qlt_not_le _ _ H E).
Qed.
Lemma Qltb_ge x y : Qltb x y = false <-> y <= x.
Proof.
  unfold Qltb. rewrite negb_false_iff. apply Qle_bool_iff.
Qed.
Lemma Qleb_le x y : Qleb x y = true <-> x <= y.
Proof. apply Qle_bool_iff. Qed.
Lemma Qleb_gt x y : Qleb x y = false <-> y < x.
Proof.
  unfold Qleb. split; intro H.
  - apply Qnot_le_lt. intro C. apply Qle_bool_iff in C. congruence.
  - destruct (Qle_bool x y) eqn:E; auto. apply Qle_bool_iff in E.
    exfalso. exact (Qlt_not_le _ _ H E).
Qed.
Lemma Qeqb_eq x y : Qeqb x y = true <-> x == y.
Proof. apply Qeq_bool_iff. Qed.
Lemma Qeqb_neq x y : Qeqb x y = false <-> ~ x == y.
Proof.
  unfold Qeqb. split; intro H.
  - intro C. apply Qeq_bool_iff in C. congruence.
  - destruct (Qeq_bool x y) eqn:E; auto. apply Qeq_bool_iff in E. contradiction.
Qed.

(** destruct every boolean rational comparison in sight *)
Ltac qb1 :=
  match goal with
  | H : Qltb _ _ = true |- _ => apply Qltb_lt in H
  | H : Qltb _ _ = false |- _ => apply Qltb_ge in H
  | H : Qleb _ _ = true |- _ => apply Qleb_le in H
  | H : Qleb _ _ = false |- _ => apply Qleb_gt in H
  | H : Qeqb _ _ = true |- _ => apply Qeqb_eq in H
  | H : Qeqb _ _ = false |- _ => apply Qeqb_neq in H
  end.
Ltac qb := repeat qb1.

Lemma qdiv_ok x y : ~ y == 0 -> qdiv x y = Ok (x / y).
Proof. intro H. unfold qdiv. destruct (Qeqb y 0) eqn:E; auto. qb. contradiction. Qed.
Lemma qdiv_inv x y z : qdiv x y = Ok z -> ~ y == 0 /\ z = x / y.
Proof. unfold qdiv. destruct (Qeqb y 0) eqn:E; intro H; inversion H; subst. qb. auto. Qed.

Lemma bind_ok {A B} (r : res A) (k : A -> res B) b :
  bind r k = Ok b -> exists a, r = Ok a /\ k a = Ok b.
Proof. destruct r; simpl; intro H; [eauto | discriminate]. Qed.

Lemma raise_if_ok {A} c e (k : res A) a : raise_if c e k = Ok a -> c = false /\ k = Ok a.
Proof. unfold raise_if; destruct c; intro H; [discriminate | auto]. Qed.

Lemma foldM_app {A S} (f : S -> A -> res S) l1 l2 s :
  foldM f (l1 ++ l2) s = bind (foldM f l1 s) (fun s' => foldM f l2 s').
Proof.
  revert s; induction l1 as [|x l1 IH]; intro s; simpl; auto.
  destruct (f s x); simpl; auto.
Qed.

Lemma foldM_inv {A S} (P : S -> Prop) (f : S -> A -> res S) l s s' :
  P s -> (forall s x s', In x l -> P s -> f s x = Ok s' -> P s') ->
  foldM f l s = Ok s' -> P s'.
Proof.
  revert s; induction l as [|x l IH]; intros s Hs Hf H; simpl in H.
  - inversion H; subst; auto.
  - apply bind_ok in H. destruct H as [s1 [H1 H2]].
    apply (IH s1); auto.
    + eapply Hf; eauto. left; auto.
    + intros; eapply Hf; eauto. right; auto.
Qed.

Lemma mapM_length {A B} (f : A -> res B) l ys : mapM f l = Ok ys -> length ys = length l.
Proof.
  revert ys; induction l as [|x l IH]; intros ys H; simpl in H.
  - inversion H; auto.
  - apply bind_ok in H. destruct H as [y [H1 H]]. apply bind_ok in H. destruct H as [ys' [H2 H]].
    inversion H; subst. simpl. f_equal. auto.
Qed.

Lemma mapM_nth {A B} (f : A -> res B) l ys i x :
  mapM f l = Ok ys -> nth_error l i = Some x -> exists y, f x = Ok y /\ nth_error ys i = Some y.
Proof.
  revert ys i; induction l as [|a l IH]; intros ys i H Hi; simpl in H.
  - destruct i; discriminate.
  - apply bind_ok in H. destruct H as [y [H1 H]]. apply bind_ok in H. destruct H as [ys' [H2 H]].
    inversion H; subst. destruct i; simpl in *.
    + inversion Hi; subst; eauto.
    + eauto.
Qed.

Lemma mapM_all_ok {A B} (f : A -> res B) (g : A -> B) l :
  (forall x, In x l -> f x = Ok (g x)) -> mapM f l = Ok (map g l).
Proof.
  induction l as [|a l IH]; intro H; simpl; auto.
  rewrite H by (left; auto). simpl. rewrite IH by (intros; apply H; right; auto). reflexivity.
Qed.

Lemma zmem_In x l : zmem x l = true <-> In x l.
Proof.
  induction l as [|y l IH]; simpl; [split; [discriminate|tauto]|].
  rewrite orb_true_iff, Z.eqb_eq, IH. intuition.
Qed.
Lemma zmem_nIn x l : zmem x l = false <-> ~ In x l.
Proof. rewrite <- zmem_In. destruct (zmem x l); intuition congruence. Qed.
Lemma smem_In x l : smem x l = true <-> In x l.
Proof.
  induction l as [|y l IH]; simpl; [split; [discriminate|tauto]|].
  rewrite orb_true_iff, String.eqb_eq, IH. intuition.
Qed.
Lemma smem_nIn x l : smem x l = false <-> ~ In x l.
Proof. rewrite <- smem_In. destruct (smem x l); intuition congruence. Qed.

(** ** Sums *)
Lemma Qsum_app l1 l2 : Qsum (l1 ++ l2) == Qsum l1 + Qsum l2.
Proof. induction l1 as [|x l IH]; simpl; [lra|]. rewrite IH. lra. Qed.
Lemma Qsumf_app {A} (f : A -> Q) l1 l2 : Qsumf f (l1 ++ l2) == Qsumf f l1 + Qsumf f l2.
Proof. unfold Qsumf. rewrite map_app. apply Qsum_app. Qed.
Lemma Qsumf_cons {A} (f : A -> Q) x l : Qsumf f (x :: l) == f x + Qsumf f l.
Proof. unfold Qsumf; simpl. lra. Qed.
Lemma Qsumf_ext {A} (f g : A -> Q) l :
  (forall x, In x l -> f x == g x) -> Qsumf f l == Qsumf g l.
Proof.
  induction l as [|x l IH]; intro H; [unfold Qsumf; simpl; lra|].
  rewrite !Qsumf_cons, IH, (H x); [lra | left; auto | intros; apply H; right; auto].
Qed.
Lemma Qsumf_plus {A} (f g : A -> Q) l : Qsumf (fun x => f x + g x) l == Qsumf f l + Qsumf g l.
Proof.
  induction l as [|x l IH]; [unfold Qsumf; simpl; lra|].
  rewrite !Qsumf_cons, IH; lra.
Qed.
Lemma Qsumf_scal {A} c (f : A -> Q) l : Qsumf (fun x => c * f x) l == c * Qsumf f l.
Proof.
  induction l as [|x l IH]; [unfold Qsumf; simpl; lra|].
  rewrite !Qsumf_cons, IH; lra.
Qed.
Lemma Qsumf_zero {A} (f : A -> Q) l : (forall x, In x l -> f x == 0) -> Qsumf f l == 0.
Proof.
  induction l as [|x l IH]; intro H; [unfold Qsumf; simpl; lra|].
  rewrite Qsumf_cons, IH, (H x); [lra | left; auto | intros; apply H; right; auto].
Qed.
Lemma Qsumf_nonneg {A} (f : A -> Q) l : (forall x, In x l -> 0 <= f x) -> 0 <= Qsumf f l.
Proof.
  induction l as [|x l IH]; intro H; [unfold Qsumf; simpl; lra|].
  rewrite Qsumf_cons. specialize (H x (or_introl eq_refl)) as Hx.
  assert (0 <= Qsumf f l) by (apply IH; intros; apply H; right; auto). lra.
Qed.
Lemma Qsumf_le {A} (f g : A -> Q) l : (forall x, In x l -> f x <= g x) -> Qsumf f l <= Qsumf g l.
Proof.
  induction l as [|x l IH]; intro H; [unfold Qsumf; simpl; lra|].
  rewrite !Qsumf_cons. specialize (H x (or_introl eq_refl)) as Hx.
  assert (Qsumf f l <= Qsumf g l) by (apply IH; intros; apply H; right; auto). lra.
Qed.
Lemma Qsumf_map {A B} (f : B -> Q) (g : A -> B) l : Qsumf f (map g l) = Qsumf (fun x => f (g x)) l.
Proof. unfold Qsumf. rewrite map_map. reflexivity. Qed.
Lemma Qofnat_S n : Qofnat (S n) == Qofnat n + 1.
Proof.
  unfold Qofnat. rewrite Nat2Z.inj_succ. unfold Z.succ. rewrite inject_Z_plus. reflexivity.
Qed.
Lemma Qsumf_const {A} c (l : list A) : Qsumf (fun _ => c) l == c * Qofnat (length l).
Proof.
  induction l as [|x l IH]; [change (Qofnat (length (@nil A))) with 0; unfold Qsumf; simpl; ring|].
  rewrite Qsumf_cons, IH. cbn [length]. rewrite Qofnat_S. lra.
Qed.
Lemma Qofnat_pos n : (0 < n)%nat -> 0 < Qofnat n.
Proof. intro H. unfold Qofnat. change 0 with (inject_Z 0). rewrite <- Zlt_Qlt. lia. Qed.

(** ** Dictionaries *)
Section DictFacts.
  Context {K V : Type} (eqb : K -> K -> bool).
  Hypothesis eqb_spec : forall a b, eqb a b = true <-> a = b.

  Lemma eqb_refl' a : eqb a a = true.
  Proof. apply eqb_spec. reflexivity. Qed.
  Lemma eqb_neq' a b : a <> b -> eqb a b = false.
  Proof. intro H. destruct (eqb a b) eqn:E; auto. apply eqb_spec in E. contradiction. Qed.

  Lemma dget_dset_same (d : list (K * V)) k v : dget eqb (dset eqb d k v) k = Some v.
  Proof.
    induction d as [|[k' v'] d IH]; simpl; [rewrite eqb_refl'; auto|].
    destruct (eqb k k') eqn:E; simpl; [rewrite E; auto | rewrite E; auto].
  Qed.
  Lemma dget_dset_other (d : list (K * V)) k k2 v : k2 <> k -> dget eqb (dset eqb d k v) k2 = dget eqb d k2.
  Proof.
    intro N. induction d as [|[k' v'] d IH]; simpl; [rewrite eqb_neq'; auto|].
    destruct (eqb k k') eqn:E; simpl.
    - apply eqb_spec in E. subst. rewrite eqb_neq' by auto. reflexivity.
    - destruct (eqb k2 k'); auto.
  Qed.
  Lemma dset_keys_in (d : list (K * V)) k v :
    In k (map fst d) -> map fst (dset eqb d k v) = map fst d.
  Proof.
    induction d as [|[k' v'] d IH]; simpl; [contradiction|].
    intros [->|H].
    - rewrite eqb_refl'. reflexivity.
    - destruct (eqb k k'); simpl; f_equal; auto.
  Qed.
  Lemma dset_keys_notin (d : list (K * V)) k v :
    ~ In k (map fst d) -> dset eqb d k v = d ++ [(k, v)].
  Proof.
    induction d as [|[k' v'] d IH]; simpl; auto.
    intro H. rewrite eqb_neq' by (intro; subst; tauto). f_equal. apply IH. tauto.
  Qed.
  Lemma dget_In (d : list (K * V)) k v : dget eqb d k = Some v -> In (k, v) d.
  Proof.
    induction d as [|[k' v'] d IH]; simpl; [discriminate|].
    destruct (eqb k k') eqn:E; intro H; [|right; auto].
    apply eqb_spec in E. inversion H; subst. left; auto.
  Qed.
  Lemma dget_None (d : list (K * V)) k : dget eqb d k = None <-> ~ In k (map fst d).
  Proof.
    induction d as [|[k' v'] d IH]; simpl; [tauto|].
    destruct (eqb k k') eqn:E.
    - apply eqb_spec in E. subst. split; [discriminate|tauto].
    - rewrite IH. split; [|tauto]. intros H [->|C]; [|tauto].
      rewrite eqb_refl' in E. discriminate.
  Qed.
  Lemma dget_Some_key (d : list (K * V)) k : In k (map fst d) <-> exists v, dget eqb d k = Some v.
  Proof.
    destruct (dget eqb d k) eqn:E.
    - split; eauto. intros _. apply dget_In in E. apply in_map with (f := fst) in E. auto.
    - apply dget_None in E. split; [tauto|]. intros [v H]. discriminate.
  Qed.
  Lemma In_dget (d : list (K * V)) k v : NoDup (map fst d) -> In (k, v) d -> dget eqb d k = Some v.
  Proof.
    induction d as [|[k' v'] d IH]; simpl; [contradiction|].
    intros N [H|H]; inversion N; subst.
    - inversion H; subst. rewrite eqb_refl'. reflexivity.
    - rewrite eqb_neq'; auto. intro; subst. apply H2. apply in_map with (f := fst) in H. auto.
  Qed.
  Lemma dset_NoDup (d : list (K * V)) k v : NoDup (map fst d) -> NoDup (map fst (dset eqb d k v)).
  Proof.
    intro N. destruct (dget eqb d k) eqn:E.
    - rewrite dset_keys_in; auto. apply dget_Some_key. eauto.
    - apply dget_None in E. rewrite dset_keys_notin by auto. rewrite map_app. simpl.
      apply NoDup_rev in N. rewrite <- (rev_involutive (map fst d ++ [k])). apply NoDup_rev.
      rewrite rev_app_distr. simpl. constructor; auto. rewrite <- in_rev. auto.
  Qed.
End DictFacts.

Lemma Zeqb_spec : forall a b : Z, (a =? b)%Z = true <-> a = b.
Proof. intros; apply Z.eqb_eq. Qed.
Lemma Seqb_spec : forall a b : string, (a =? b)%string = true <-> a = b.
Proof. intros; apply String.eqb_eq. Qed.

Lemma nth_error_ext {A} (l1 l2 : list A) : (forall i, nth_error l1 i = nth_error l2 i) -> l1 = l2.
Proof.
  revert l2; induction l1 as [|x l1 IH]; intros [|y l2] H; auto.
  - specialize (H 0%nat). discriminate.
  - specialize (H 0%nat). discriminate.
  - pose proof (H 0%nat) as H0. simpl in H0. inversion H0; subst. f_equal.
    apply IH. intro i. apply (H (S i)).
Qed.
