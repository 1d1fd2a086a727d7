(** * HyperProofs: termination and optimality of the hyperpath search *)
From Coq Require Import String List ZArith QArith Bool Lia Lqa Permutation.
From Verif Require Import PyBase PyFacts Graph GraphProofs Mode Route ExtGraph ExtSpec Hyperpath HyperSpec.
Import ListNotations.
Local Open Scope Q_scope.

Lemma enode_eqb_eq a b : enode_eqb a b = true <-> a = b.
Proof. destruct a, b; simpl; try (split; [discriminate|intro E; inversion E]); rewrite Nat.eqb_eq; split; congruence. Qed.
Lemma enode_eqb_refl a : enode_eqb a a = true. Proof. apply enode_eqb_eq; auto. Qed.
Lemma enode_eqb_neq a b : enode_eqb a b = false <-> a <> b.
Proof. rewrite <- enode_eqb_eq. destruct (enode_eqb a b); intuition congruence. Qed.
Lemma enode_dec (a b : enode) : {a = b} + {a <> b}.
Proof. destruct (enode_eqb a b) eqn:E; [left; apply enode_eqb_eq; auto|right; apply enode_eqb_neq; auto]. Qed.
Lemma onode_is_eq o n : onode_is o n = true <-> o = Some n.
Proof. destruct o; simpl; [|split; discriminate]. rewrite enode_eqb_eq. split; congruence. Qed.
Lemma onode_is_neq o n : onode_is o n = false <-> o <> Some n.
Proof. rewrite <- onode_is_eq. destruct (onode_is o n); intuition congruence. Qed.
Lemma upd_same {A} (f : enode -> A) n v : upd f n v n = v.
Proof. unfold upd. rewrite enode_eqb_refl. auto. Qed.
Lemma upd_other {A} (f : enode -> A) n v m : m <> n -> upd f n v m = f m.
Proof. intro H. unfold upd. apply enode_eqb_neq in H. rewrite H. auto. Qed.
Lemma settled_In S n : settled S n = true <-> In (Some n) S.
Proof.
  unfold settled. rewrite existsb_exists. split.
  - intros (o & H & E). apply onode_is_eq in E. subst. auto.
  - intro H. exists (Some n). split; auto. apply onode_is_eq. auto.
Qed.
Lemma settled_nIn S n : settled S n = false <-> ~ In (Some n) S.
Proof. rewrite <- settled_In. destruct (settled S n); intuition congruence. Qed.
Lemma etype_eqb_eq a b : etype_eqb a b = true <-> a = b.
Proof. destruct a, b; simpl; split; congruence. Qed.
Lemma xedge_eqb_id a b : xedge_eqb a b = true <-> (x_type a, x_id a) = (x_type b, x_id b).
Proof. unfold xedge_eqb. rewrite andb_true_iff, etype_eqb_eq, Nat.eqb_eq. split; [intros [-> ->]; auto|intro E; inversion E; auto]. Qed.
Lemma remove_edge_In b l x : In x (remove_edge b l) -> In x l.
Proof. induction l as [|e l IH]; simpl; auto. destruct (xedge_eqb e b); simpl; auto. intros [->|H]; auto. Qed.

(** ** Termination: no fuel runs out *)
Definition no_nt {A} (r : res A) : Prop := r <> Err NonTermination.
Lemma no_nt_bind {A B} (r : res A) (k : A -> res B) : no_nt r -> (forall a, r = Ok a -> no_nt (k a)) -> no_nt (bind r k).
Proof. destruct r; simpl; intros H1 H2; auto. intro E. apply H1. inversion E; subst. auto. Qed.
Lemma no_nt_ok {A} (a : A) : no_nt (Ok a). Proof. discriminate. Qed.
Lemma no_nt_qdiv a b : no_nt (qdiv a b).
Proof. unfold qdiv. destruct (Qeqb b 0); discriminate. Qed.
Lemma no_nt_foldM {A S} (f : S -> A -> res S) l : (forall s x, In x l -> no_nt (f s x)) -> forall s, no_nt (foldM f l s).
Proof.
  induction l as [|x l IH]; intros H s; simpl; [apply no_nt_ok|]. apply no_nt_bind; [apply H; left; auto|]. intros a _. apply IH. intros; apply H; right; auto.
Qed.
Lemma no_nt_time X P d e : no_nt (edge_time X P d e).
Proof.
  unfold edge_time. apply no_nt_bind.
  - destruct (x_type e); try apply no_nt_ok. unfold city_of. destruct (x_j e); discriminate.
  - intros a _. destruct (x_type e); try apply no_nt_ok. apply no_nt_qdiv.
Qed.
Lemma no_nt_btime X P d e b : no_nt (edge_b_time X P d e b).
Proof.
  unfold edge_b_time. apply no_nt_bind.
  - destruct (x_type b); try apply no_nt_ok. unfold city_of. destruct (x_j e); discriminate.
  - intros a _. destruct (x_type b); try apply no_nt_ok. apply no_nt_qdiv.
Qed.

(** the successors recorded so far, with the place of their ends in S *)
Definition before (S : list (option enode)) (a b : enode) : Prop :=
  exists S1 S2, S = S1 ++ S2 /\ In (Some a) S1 /\ ~ In (Some b) S1.
Definition recorded (st : hstate) (n : enode) (e : xedge) : Prop := In e (h_suc st n) \/ h_sinf st n = Some e.
Definition ordered (st : hstate) : Prop := forall n e, recorded st n e -> x_i e = n /\ before (h_S st) (x_j e) n.

Lemma before_snoc S a b x : before S a b -> before (S ++ [x]) a b.
Proof. intros (S1 & S2 & -> & H1 & H2). exists S1, (S2 ++ [x]). rewrite app_assoc. auto. Qed.

Definition keeps (P : hstate -> Prop) (r : res hstate) : Prop := match r with Ok st => P st | Err _ => True end.
Lemma verify_facts X P d e : forall n l, (length l <= n)%nat -> forall st,
  no_nt (verify X P d e l st) /\
  (forall st', verify X P d e l st = Ok st' -> h_S st' = h_S st /\ forall m b, recorded st' m b -> recorded st m b).
Proof.
  induction n as [|n IH]; intros l Hl st.
  { destruct l; [|simpl in Hl; lia]. simpl. split; [apply no_nt_ok|]. intros st' E; inversion E; subst; auto. }
  destruct l as [|b l]; [simpl; split; [apply no_nt_ok|]; intros st' E; inversion E; subst; auto|].
  simpl in Hl. cbn [verify]. destruct (xedge_eqb b e); [apply IH; lia|].
  split.
  - apply no_nt_bind; [apply no_nt_btime|]. intros tb _.
    set (t := match val st (x_j b) with Some v => Some (v + tb) | None => None end).
    destruct (negb (olt t (h_lab st (x_i e)))); [|apply IH; lia].
    destruct t, (h_lab st (x_i e)), (x_f b); try discriminate.
    apply no_nt_bind; [apply no_nt_qdiv|]. intros x' _. destruct l as [|b2 l]; [apply no_nt_ok|]. apply IH. simpl in Hl; lia.
  - intros st' E. apply bind_ok in E. destruct E as (tb & _ & E).
    set (t := match val st (x_j b) with Some v => Some (v + tb) | None => None end) in E.
    destruct (negb (olt t (h_lab st (x_i e)))); [|eapply IH; eauto; lia].
    destruct t, (h_lab st (x_i e)), (x_f b); try discriminate.
    apply bind_ok in E. destruct E as (x' & _ & E).
    set (st1 := set_strategy st (x_i e) (Some x') (remove_edge b (h_suc st (x_i e))) (h_frq st (x_i e) - q1)) in *.
    assert (K : h_S st1 = h_S st /\ forall m b0, recorded st1 m b0 -> recorded st m b0).
    { split; auto. intros m b0 [H|H]; [|right; auto]. left. unfold st1, set_strategy in H. cbn in H. unfold upd in H.
      destruct (enode_eqb m (x_i e)) eqn:Em; auto. apply enode_eqb_eq in Em. subst m. eapply remove_edge_In; eauto. }
    destruct l as [|b2 l]; [inversion E; subst; auto|].
    destruct (IH l) with (st := st1) as [_ IH2]; [simpl in Hl; lia|]. specialize (IH2 st' E). destruct K as [K1 K2], IH2 as [I1 I2]. split; [congruence|]. auto.
Qed.
Lemma relax_facts X P d st e : no_nt (relax X P d st e) /\
  (forall st', relax X P d st e = Ok st' -> h_S st' = h_S st /\ forall m b, recorded st' m b -> recorded st m b \/ (b = e /\ m = x_i e)).
Proof.
  assert (V : forall st0 st1, (h_S st1 = h_S st0 /\ forall m b, recorded st1 m b -> recorded st0 m b \/ (b = e /\ m = x_i e)) ->
     no_nt (verify X P d e (h_suc st1 (x_i e)) st1) /\
     (forall st', verify X P d e (h_suc st1 (x_i e)) st1 = Ok st' -> h_S st' = h_S st0 /\ forall m b, recorded st' m b -> recorded st0 m b \/ (b = e /\ m = x_i e))).
  { intros st0 st1 [K1 K2]. destruct (verify_facts X P d e (length (h_suc st1 (x_i e))) (h_suc st1 (x_i e)) (le_n _) st1) as [N F]. split; auto.
    intros st' E. destruct (F st' E) as [F1 F2]. split; [congruence|]. auto. }
  assert (ST : forall v f, h_S (set_strategy st (x_i e) v (h_suc st (x_i e) ++ [e]) f) = h_S st /\
     forall m b, recorded (set_strategy st (x_i e) v (h_suc st (x_i e) ++ [e]) f) m b -> recorded st m b \/ (b = e /\ m = x_i e)).
  { intros v f. split; auto. intros m b [H|H]; [|left; right; auto]. unfold set_strategy in H; cbn in H. unfold upd in H.
    destruct (enode_eqb m (x_i e)) eqn:Em; [|left; left; auto]. apply enode_eqb_eq in Em. subst m. apply in_app_or in H. destruct H as [H|[H|[]]]; [left; left; auto|right; auto]. }
  assert (Id : h_S st = h_S st /\ forall m b, recorded st m b -> recorded st m b \/ (b = e /\ m = x_i e)) by auto.
  unfold relax. cbv zeta. split.
  - apply no_nt_bind; [apply no_nt_time|]. intros t0 _. apply no_nt_bind.
    + destruct (x_f e) as [f|]; [|apply no_nt_ok]. destruct (oadd t0 _) as [t|]; [|apply no_nt_ok]. destruct (olt _ _); [|apply no_nt_ok].
      apply no_nt_bind; [unfold theta_of; destruct (x_i e); discriminate|]. intros th _. destruct (_ && _ && _).
      * apply no_nt_bind; [apply no_nt_qdiv|]. intros w _. apply no_nt_bind; [apply no_nt_qdiv|]. intros; apply no_nt_ok.
      * destruct (negb _); [|apply no_nt_ok]. destruct (h_lab st (x_i e)); [|discriminate]. apply no_nt_bind; [apply no_nt_qdiv|]. intros; apply no_nt_ok.
    + intros st1 _. apply verify_facts with (n := length (h_suc st1 (x_i e))). auto.
  - intros st' E. apply bind_ok in E. destruct E as (t0 & _ & E). apply bind_ok in E. destruct E as (st1 & E1 & E). revert st' E. apply V.
    destruct (x_f e) as [f|].
    + destruct (oadd t0 _) as [t|]; [|inversion E1; subst; auto]. destruct (olt _ _); [|inversion E1; subst; auto].
      apply bind_ok in E1. destruct E1 as (th & _ & E1). destruct (_ && _ && _).
      * apply bind_ok in E1. destruct E1 as (w & _ & E1). apply bind_ok in E1. destruct E1 as (x & _ & E1). inversion E1; subst. apply ST.
      * destruct (negb _); [|inversion E1; subst; auto]. destruct (h_lab st (x_i e)); [|discriminate]. apply bind_ok in E1. destruct E1 as (x & _ & E1). inversion E1; subst. apply ST.
    + destruct (olt _ _); inversion E1; subst; auto. split; auto. intros m b [H|H]; [left; left; auto|]. unfold set_inf in H; cbn in H. unfold upd in H.
      destruct (enode_eqb m (x_i e)) eqn:Em; [|left; right; auto]. apply enode_eqb_eq in Em. right. inversion H. subst. auto.
Qed.
Lemma edges_into_In edges o S j e : In e (edges_into edges o S j) <-> In e edges /\ avoids o e /\ ~ In (Some (x_i e)) S /\ j = Some (x_j e).
Proof.
  unfold edges_into, avoids. rewrite filter_In, !andb_true_iff, !negb_true_iff, !onode_is_neq, settled_nIn, onode_is_eq. tauto.
Qed.
Lemma foldM_ordered X P d l : forall st, ordered st ->
  (forall e, In e l -> In (Some (x_j e)) (h_S st) /\ ~ In (Some (x_i e)) (h_S st)) ->
  no_nt (foldM (relax X P d) l st) /\
  (forall st', foldM (relax X P d) l st = Ok st' -> ordered st' /\ h_S st' = h_S st).
Proof.
  induction l as [|e l IH]; intros st O H; simpl.
  - split; [apply no_nt_ok|]. intros st' E; inversion E; subst; auto.
  - destruct (relax_facts X P d st e) as [N F].
    assert (K : forall st1, relax X P d st e = Ok st1 -> ordered st1 /\ h_S st1 = h_S st /\ (forall e, In e l -> In (Some (x_j e)) (h_S st1) /\ ~ In (Some (x_i e)) (h_S st1))).
    { intros st1 E. destruct (F st1 E) as [F1 F2]. split; [|split; auto].
      - intros n b R. rewrite F1. destruct (F2 _ _ R) as [R'|[-> ->]]; auto. split; auto. destruct (H e (or_introl eq_refl)) as [H1 H2].
        exists (h_S st), []. rewrite app_nil_r. auto.
      - rewrite F1. intros; apply H; right; auto. }
    split.
    + apply no_nt_bind; auto. intros st1 E. destruct (K st1 E) as (K1 & K2 & K3). apply IH; auto.
    + intros st' E. apply bind_ok in E. destruct E as (st1 & E1 & E). destruct (K st1 E1) as (K1 & K2 & K3). destruct (IH st1 K1 K3) as [_ I]. destruct (I st' E). split; auto. congruence.
Qed.
Lemma h_step_ordered X P o d st : ordered st -> no_nt (h_step X P o d st) /\
  (forall st', h_step X P o d st = Ok st' -> ordered st' /\ length (h_S st') = S (length (h_S st))).
Proof.
  intro O. unfold h_step. cbv zeta. set (j := choose _ _). set (st1 := mkH _ _ _ _ _ _).
  assert (O1 : ordered st1). { intros n e R. destruct (O n e R) as [E B]. split; auto. apply before_snoc. auto. }
  destruct (foldM_ordered X P d (edges_into (xg_edges X) o (h_S st1) j) st1 O1) as [N F].
  { intros e He. apply edges_into_In in He. destruct He as (_ & _ & H1 & H2). split; auto. unfold st1. cbn. rewrite H2. apply in_or_app. right. left. auto. }
  split; auto. intros st' E. destruct (F st' E) as [F1 F2]. split; auto. rewrite F2. unfold st1. cbn. rewrite app_length. simpl. lia.
Qed.
Lemma h_loop_ok X P o d : forall fuel st, ordered st -> (length (h_S st) <= length (tree_nodes (xg_nodes X)) <= fuel + length (h_S st))%nat ->
  no_nt (h_loop fuel X P o d st) /\
  (forall st', h_loop fuel X P o d st = Ok st' -> ordered st' /\ length (h_S st') = length (tree_nodes (xg_nodes X))) /\
  (forall fuel', (fuel <= fuel')%nat -> h_loop fuel' X P o d st = h_loop fuel X P o d st).
Proof.
  induction fuel as [|k IH]; intros st O L.
  - assert (E : Nat.eqb (length (h_S st)) (length (tree_nodes (xg_nodes X))) = true) by (apply Nat.eqb_eq; lia).
    cbn [h_loop]. rewrite E. split; [apply no_nt_ok|]. split; [intros st' H; inversion H; subst; split; auto; apply Nat.eqb_eq; auto|].
    intros [|k'] _; cbn [h_loop]; rewrite E; auto.
  - cbn [h_loop]. destruct (Nat.eqb (length (h_S st)) (length (tree_nodes (xg_nodes X)))) eqn:E.
    + split; [apply no_nt_ok|]. split; [intros st' H; inversion H; subst; split; auto; apply Nat.eqb_eq; auto|].
      intros [|k'] _; cbn [h_loop]; rewrite E; auto.
    + apply Nat.eqb_neq in E. destruct (h_step_ordered X P o d st O) as [N F].
      assert (K : forall st1, h_step X P o d st = Ok st1 -> ordered st1 /\ (length (h_S st1) <= length (tree_nodes (xg_nodes X)) <= k + length (h_S st1))%nat).
      { intros st1 E1. destruct (F st1 E1) as [F1 F2]. split; auto. lia. }
      split; [|split].
      * apply no_nt_bind; auto. intros st1 E1. destruct (K st1 E1). apply IH; auto.
      * intros st' H. apply bind_ok in H. destruct H as (st1 & E1 & H). destruct (K st1 E1) as [K1 K2]. destruct (IH st1 K1 K2) as (_ & I & _). auto.
      * intros [|k'] L'; [lia|]. cbn [h_loop]. apply Nat.eqb_neq in E. rewrite E. destruct (h_step X P o d st) as [st1|] eqn:E1; auto. simpl.
        destruct (K st1 eq_refl) as [K1 K2]. destruct (IH st1 K1 K2) as (_ & _ & I). apply I. lia.
Qed.
Lemma init_ordered d : ordered (h_init d).
Proof. intros n e [H|H]; [contradiction|discriminate]. Qed.

(** position of a node in S *)
Fixpoint rank (S : list (option enode)) (n : enode) : nat :=
  match S with [] => O | x :: S' => if onode_is x n then O else Datatypes.S (rank S' n) end.
Lemma rank_app_in S1 S2 n : In (Some n) S1 -> (rank (S1 ++ S2) n < length S1)%nat.
Proof.
  induction S1 as [|x S1 IH]; simpl; [contradiction|]. intro H. destruct (onode_is x n) eqn:E; [lia|]. apply onode_is_neq in E. destruct H; [congruence|]. specialize (IH H). lia.
Qed.
Lemma rank_app_nin S1 S2 n : ~ In (Some n) S1 -> (length S1 <= rank (S1 ++ S2) n)%nat.
Proof.
  induction S1 as [|x S1 IH]; simpl; [lia|]. intro H. destruct (onode_is x n) eqn:E; [apply onode_is_eq in E; tauto|]. assert (~ In (Some n) S1) by tauto. specialize (IH H0). lia.
Qed.
Lemma rank_le S n : (rank S n <= length S)%nat.
Proof. induction S as [|x S IH]; simpl; auto. destruct (onode_is x n); lia. Qed.
Lemma before_rank S a b : before S a b -> (rank S a < rank S b)%nat.
Proof. intros (S1 & S2 & -> & H1 & H2). pose proof (rank_app_in S1 S2 a H1). pose proof (rank_app_nin S1 S2 b H2). lia. Qed.

Lemma reduce_suc X P o st R : reduce X P o st = Ok R -> forall n e, In e (hr_suc R n) -> recorded st n e.
Proof.
  intros H n e He. unfold reduce in H. apply bind_ok in H. destruct H as (lab & _ & H). inversion H; subst. cbn in He.
  destruct (olt _ _); [left; auto|]. destruct (h_sinf st n) eqn:E; [|contradiction]. destruct He as [<-|[]]. right. auto.
Qed.
Lemma no_nt_reduce X P o st : no_nt (reduce X P o st).
Proof.
  unfold reduce. apply no_nt_bind; [|intros; apply no_nt_ok]. apply no_nt_foldM. intros s x _. destruct x; try apply no_nt_ok. destruct (onode_is _ _); [|apply no_nt_ok].
  apply no_nt_bind; [apply no_nt_qdiv|]. intros; apply no_nt_ok.
Qed.
Lemma build_facts fuel X P o d : (length (tree_nodes (xg_nodes X)) <= fuel)%nat ->
  no_nt (build_hyperpath fuel X P o d) /\
  (forall fuel', (fuel <= fuel')%nat -> build_hyperpath fuel' X P o d = build_hyperpath fuel X P o d) /\
  (forall R, build_hyperpath fuel X P o d = Ok R -> exists rk : enode -> nat, (forall n, (rk n <= length (tree_nodes (xg_nodes X)))%nat) /\
     forall n e, In e (hr_suc R n) -> x_i e = n /\ (rk (x_j e) < rk n)%nat).
Proof.
  intro L. destruct (h_loop_ok X P o d fuel (h_init d) (init_ordered d)) as (N & F & I); [cbn; lia|]. unfold build_hyperpath. split; [|split].
  - apply no_nt_bind; auto. intros; apply no_nt_reduce.
  - intros. rewrite I; auto.
  - intros R E. apply bind_ok in E. destruct E as (st & E1 & E2). destruct (F st E1) as [O Ln]. exists (rank (h_S st)). split.
    + intro n. rewrite <- Ln. apply rank_le.
    + intros n e He. apply (reduce_suc X P o st R E2) in He. destruct (O _ _ He) as [E B]. split; auto. apply before_rank. auto.
Qed.
Definition last_rank (rk : enode -> nat) (p : list enode) : nat := match p with [] => O | x :: _ => Datatypes.S (rk x) end.
Lemma extend_rank suc d rk : (forall n e, In e (suc n) -> x_i e = n /\ (rk (x_j e) < rk n)%nat) -> forall k ps,
  (forall p, In p ps -> p <> [] /\ (at_dest d p = false -> last_rank rk p <= Datatypes.S k)%nat) ->
  forall p, In p (flat_map (extend suc d) ps) -> p <> [] /\ (at_dest d p = false -> last_rank rk p <= k)%nat.
Proof.
  intros H k ps Hp p Hin. apply in_flat_map in Hin. destruct Hin as (p0 & H0 & Hin). destruct (Hp p0 H0) as [N L]. unfold extend in Hin.
  destruct (at_dest d p0) eqn:E.
  - destruct Hin as [<-|[]]. split; auto. congruence.
  - destruct p0 as [|x p0]; [contradiction|]. apply in_map_iff in Hin. destruct Hin as (e & <- & He). split; [discriminate|]. intros _. simpl.
    specialize (L eq_refl). simpl in L. destruct (H _ _ He). lia.
Qed.
Lemma expand_ok suc d rk : (forall n e, In e (suc n) -> x_i e = n /\ (rk (x_j e) < rk n)%nat) ->
  forall fuel ps, (forall p, In p ps -> p <> [] /\ (at_dest d p = false -> last_rank rk p <= fuel)%nat) ->
  (exists qs, expand fuel suc d ps = Ok qs) /\ forall fuel', (fuel <= fuel')%nat -> expand fuel' suc d ps = expand fuel suc d ps.
Proof.
  intro H. induction fuel as [|k IH]; intros ps Hp; cbn [expand].
  - assert (E : forallb (at_dest d) ps = true).
    { apply forallb_forall. intros p Hin. destruct (at_dest d p) eqn:Ea; auto. destruct (Hp p Hin) as [N L]. specialize (L Ea). destruct p; simpl in *; [congruence|lia]. }
    rewrite E. split; [eauto|]. intros [|k'] _; cbn [expand]; rewrite E; auto.
  - destruct (forallb (at_dest d) ps) eqn:E.
    + split; [eauto|]. intros [|k'] _; cbn [expand]; rewrite E; auto.
    + destruct (IH (flat_map (extend suc d) ps)) as [I1 I2]; [apply (extend_rank suc d rk H k ps Hp)|]. split; auto.
      intros [|k'] L; [lia|]. cbn [expand]. rewrite E. apply I2. lia.
Qed.
Lemma expand_In suc d : forall fuel ps qs, expand fuel suc d ps = Ok qs -> (forall p, In p ps -> p <> []) ->
  forall q, In q qs <-> exists x p w, In (x :: p) ps /\ walk suc d x w /\ q = rev w ++ p.
Proof.
  assert (B : forall ps, (forall p, In p ps -> p <> []) -> forallb (at_dest d) ps = true -> forall q, In q ps <-> exists x p w, In (x :: p) ps /\ walk suc d x w /\ q = rev w ++ p).
  { intros ps N F q. rewrite forallb_forall in F. split.
    - intro Hq. destruct q as [|x p]; [exfalso; apply (N [] Hq); auto|]. exists x, p, [x]. split; auto. split; auto. constructor. specialize (F _ Hq). simpl in F. apply onode_is_eq in F. auto.
    - intros (x & p & w & Hp & W & ->). specialize (F _ Hp). simpl in F. apply onode_is_eq in F. inversion W; subst; [auto|congruence]. }
  induction fuel as [|k IH]; intros ps qs E N q; cbn [expand] in E.
  - destruct (forallb (at_dest d) ps) eqn:F; [|discriminate]. inversion E; subst. apply B; auto.
  - destruct (forallb (at_dest d) ps) eqn:F; [inversion E; subst; apply B; auto|].
    rewrite (IH _ _ E).
    2: { intros p Hp. apply in_flat_map in Hp. destruct Hp as (p0 & H0 & Hp). unfold extend in Hp. destruct (at_dest d p0).
         - destruct Hp as [<-|[]]. auto.
         - destruct p0; [contradiction|]. apply in_map_iff in Hp. destruct Hp as (e' & <- & _). discriminate. }
    split.
    + intros (x & p & w & Hp & W & ->). apply in_flat_map in Hp. destruct Hp as (p0 & H0 & Hp). unfold extend in Hp. destruct (at_dest d p0) eqn:A.
      * destruct Hp as [E0|[]]. subst p0. exists x, p, w. auto.
      * destruct p0 as [|y p0]; [contradiction|]. apply in_map_iff in Hp. destruct Hp as (e & Ep & He). inversion Ep; subst. exists y, p0, (y :: w). split; auto. split.
        -- econstructor; eauto. simpl in A. apply onode_is_neq in A. auto.
        -- simpl. rewrite <- app_assoc. auto.
    + intros (x & p & w & Hp & W & ->). destruct (at_dest d (x :: p)) eqn:A.
      * exists x, p, w. split; auto. apply in_flat_map. exists (x :: p). split; auto. unfold extend. rewrite A. left; auto.
      * simpl in A. apply onode_is_neq in A. inversion W; subst; [congruence|]. exists (x_j e), (x :: p), p0. split; [|split; auto].
        -- apply in_flat_map. exists (x :: p). split; auto. unfold extend. simpl. apply onode_is_neq in A. rewrite A. apply in_map_iff. eauto.
        -- simpl. rewrite <- app_assoc. auto.
Qed.
Lemma expand_NoDup suc d : (forall n, NoDup (map x_j (suc n))) -> forall fuel ps qs, expand fuel suc d ps = Ok qs -> NoDup ps ->
  (exists L, forall p, In p ps -> (length p <= L)%nat /\ (at_dest d p = false -> length p = L)) -> NoDup qs.
Proof.
  intro NS. induction fuel as [|k IH]; intros ps qs E N (L & HL); cbn [expand] in E.
  - destruct (forallb (at_dest d) ps); [|discriminate]. inversion E; subst; auto.
  - destruct (forallb (at_dest d) ps); [inversion E; subst; auto|]. apply (IH _ _ E).
    + apply NoDup_flat_map; auto.
      * intros p _. unfold extend. destruct (at_dest d p); [repeat constructor; auto|]. destruct p as [|x p]; [constructor|].
        specialize (NS x). clear - NS. induction (suc x) as [|e l IHl]; simpl in *; [constructor|]. inversion NS; subst. constructor; auto.
        intro C. apply H1. apply in_map_iff in C. destruct C as (e' & Ee & He). inversion Ee. apply in_map_iff. exists e'. auto.
      * intros p1 p2 q H1 H2 Q1 Q2. unfold extend in Q1, Q2. destruct (HL _ H1) as [A1 B1], (HL _ H2) as [A2 B2].
        destruct (at_dest d p1) eqn:D1, (at_dest d p2) eqn:D2.
        -- destruct Q1 as [<-|[]], Q2 as [<-|[]]. auto.
        -- destruct Q1 as [<-|[]]. destruct p2 as [|x p2]; [contradiction|]. apply in_map_iff in Q2. destruct Q2 as (e & <- & _). specialize (B2 eq_refl). simpl in *. lia.
        -- destruct Q2 as [<-|[]]. destruct p1 as [|x p1]; [contradiction|]. apply in_map_iff in Q1. destruct Q1 as (e & <- & _). specialize (B1 eq_refl). simpl in *. lia.
        -- destruct p1 as [|x p1], p2 as [|y p2]; try contradiction. apply in_map_iff in Q1. apply in_map_iff in Q2. destruct Q1 as (e1 & <- & _), Q2 as (e2 & E2 & _). inversion E2. auto.
    + exists (Datatypes.S L). intros p Hp. apply in_flat_map in Hp. destruct Hp as (p0 & H0 & Hp). destruct (HL _ H0) as [A B]. unfold extend in Hp. destruct (at_dest d p0) eqn:D.
      * destruct Hp as [<-|[]]. split; [lia|]. congruence.
      * destruct p0 as [|x p0]; [contradiction|]. apply in_map_iff in Hp. destruct Hp as (e & <- & _). specialize (B eq_refl). simpl in *. split; auto; lia.
Qed.
Lemma walk_rank suc d rk : (forall n e, In e (suc n) -> x_i e = n /\ (rk (x_j e) < rk n)%nat) -> forall n p, walk suc d n p -> NoDup p /\ forall m, In m p -> (rk m <= rk n)%nat.
Proof.
  intros H n p W. induction W as [n|n e p N He W [I1 I2]].
  - split; [repeat constructor; auto|]. intros m [<-|[]]. auto.
  - destruct (H _ _ He) as [_ L]. split.
    + constructor; auto. intro C. apply I2 in C. lia.
    + intros m [<-|Hm]; auto. apply I2 in Hm. lia.
Qed.
