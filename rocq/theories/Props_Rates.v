(** * Props_Rates: only the relative values of the times guide the travellers (C82) *)
From Coq Require Import String List ZArith QArith Qfield Qround Bool Lia Lqa.
From Verif Require Import PyBase PyFacts PyStr Graph Mode Route ExtGraph ExtSpec Hyperpath HyperSpec Network Demand DemandProofs Assignment AssignSpec FlowSpec TableProofs Costs CostSpec UsersCost UsersSpec Optimizer OptSpec ResultsSpec Props_Flow Props_Cost Props_Users Props_Opt Props_Loads Props_Results Props_Value Props_Pipe Props_Ray Props_Scale.
Import ListNotations.
Local Open Scope Q_scope.

(** two travellers who value walking and waiting alike relative to riding *)
Definition same_rates (P P' : qpass) : Prop :=
  ~ q_pv P == 0 /\ ~ q_pv P' == 0 /\ q_pa P / q_pv P == q_pa P' / q_pv P' /\ q_pw P / q_pv P == q_pw P' / q_pv P'.
Definition oeq (a b : option Q) : Prop := match a, b with Some x, Some y => x == y | None, None => True | _, _ => False end.

Lemma Qltb_eq a b a' b' : a == a' -> b == b' -> Qltb a b = Qltb a' b'.
Proof. intros A B. destruct (Qltb a' b') eqn:E; [apply Qltb_lt in E; apply Qltb_lt; rewrite A, B; auto|]. rewrite <- Bool.not_true_iff_false, Qltb_lt in *. rewrite A, B. auto. Qed.
Lemma Qleb_eq a b a' b' : a == a' -> b == b' -> Qleb a b = Qleb a' b'.
Proof. intros A B. destruct (Qleb a' b') eqn:E; [apply Qleb_le in E; apply Qleb_le; rewrite A, B; auto|]. rewrite <- Bool.not_true_iff_false, Qleb_le in *. rewrite A, B. auto. Qed.
Lemma Qeqb_eqs a b a' b' : a == a' -> b == b' -> Qeqb a b = Qeqb a' b'.
Proof. intros A B. destruct (Qeqb a' b') eqn:E; [apply Qeqb_eq in E; apply Qeqb_eq; rewrite A, B; auto|]. apply Qeqb_neq in E. apply Qeqb_neq. rewrite A, B. auto. Qed.
Lemma oeq_refl a : oeq a a. Proof. destruct a; cbn; auto. reflexivity. Qed.
Lemma olt_oeq a b a' b' : oeq a a' -> oeq b b' -> olt a b = olt a' b'.
Proof. destruct a, a'; cbn; try contradiction; destruct b, b'; cbn; try contradiction; auto. intros; apply Qltb_eq; auto. Qed.
Lemma omin_oeq a b a' b' : oeq a a' -> oeq b b' -> oeq (omin a b) (omin a' b').
Proof. intros A B. unfold omin. rewrite (olt_oeq _ _ _ _ B A). destruct (olt b' a'); auto. Qed.
Lemma oadd_oeq x y a b : x == y -> oeq a b -> oeq (oadd x a) (oadd y b).
Proof. intros E A. destruct a, b; cbn [oeq oadd] in *; auto. rewrite E, A. reflexivity. Qed.
Lemma qdiv_eq a b a' b' q : a == a' -> b == b' -> qdiv a b = Ok q -> exists q', qdiv a' b' = Ok q' /\ q == q'.
Proof. intros A B H. apply qdiv_inv in H. destruct H as [N ->]. rewrite qdiv_ok by (rewrite <- B; auto). eexists. split; [reflexivity|]. rewrite A, B. reflexivity. Qed.

Section Search.
Variables (X : xgraph) (P P' : qpass).
Hypothesis (HR : same_rates P P').
Lemma rate_a x q : qdiv (x * q_pa P) (q_pv P) = Ok q -> exists q', qdiv (x * q_pa P') (q_pv P') = Ok q' /\ q == q'.
Proof. destruct HR as (N & N' & A & W). intro H. apply qdiv_inv in H. destruct H as [_ ->]. rewrite qdiv_ok by auto. eexists. split; [reflexivity|]. unfold Qdiv in *. rewrite <- !Qmult_assoc, A. reflexivity. Qed.
Lemma rate_w x q : qdiv (x * q_pw P) (q_pv P) = Ok q -> exists q', qdiv (x * q_pw P') (q_pv P') = Ok q' /\ q == q'.
Proof. destruct HR as (N & N' & A & W). intro H. apply qdiv_inv in H. destruct H as [_ ->]. rewrite qdiv_ok by auto. eexists. split; [reflexivity|]. unfold Qdiv in *. rewrite <- !Qmult_assoc, W. reflexivity. Qed.

Record alike (st st' : hstate) : Prop := {
  al_lab : forall n, oeq (h_lab st n) (h_lab st' n); al_inf : forall n, oeq (h_inf st n) (h_inf st' n);
  al_suc : forall n, h_suc st' n = h_suc st n; al_sinf : forall n, h_sinf st' n = h_sinf st n;
  al_frq : forall n, h_frq st' n == h_frq st n; al_S : h_S st' = h_S st }.
Lemma val_alike st st' n : alike st st' -> oeq (Hyperpath.val st n) (Hyperpath.val st' n).
Proof. intros [A B _ _ _ _]. apply omin_oeq; auto. Qed.
Lemma upd_rel {A} (R : A -> A -> Prop) f g n a b m : (forall m, R (f m) (g m)) -> R a b -> R (upd f n a m) (upd g n b m).
Proof. intros H E. unfold upd. destruct (enode_eqb m n); auto. Qed.
Lemma strategy_alike st st' n v v' l l' f f' : alike st st' -> oeq v v' -> l' = l -> f' == f -> alike (set_strategy st n v l f) (set_strategy st' n v' l' f').
Proof.
  intros [A B C D E F] V -> G. split; cbn [set_strategy h_lab h_inf h_suc h_sinf h_frq h_S]; auto; intro m.
  - apply (upd_rel oeq); auto.
  - apply (upd_rel (fun a b => b = a)); auto.
  - apply (upd_rel (fun a b => b == a)); auto.
Qed.
Lemma inf_alike st st' n v v' e : alike st st' -> oeq v v' -> alike (set_inf st n v e) (set_inf st' n v' e).
Proof.
  intros [A B C D E F] V. split; cbn [set_inf h_lab h_inf h_suc h_sinf h_frq h_S]; auto; intro m.
  - apply (upd_rel oeq); auto.
  - apply (upd_rel (fun a b => b = a)); auto.
Qed.
Lemma choose_alike nodes st st' : alike st st' -> choose nodes st = choose nodes st'.
Proof.
  intro H. unfold choose. assert (G : forall b m m', oeq m m' ->
    fst (fold_left (fun '(best, mn) n => if settled (h_S st) n then (best, mn) else if olt (Hyperpath.val st n) mn then (Some n, Hyperpath.val st n) else (best, mn)) nodes (b, m)) =
    fst (fold_left (fun '(best, mn) n => if settled (h_S st') n then (best, mn) else if olt (Hyperpath.val st' n) mn then (Some n, Hyperpath.val st' n) else (best, mn)) nodes (b, m'))).
  { induction nodes as [|n nodes IH]; intros b m m' E; cbn [fold_left]; auto. rewrite (al_S _ _ H). destruct (settled (h_S st) n); [rewrite (al_S _ _ H) in IH; auto|].
    rewrite (olt_oeq _ _ _ _ (val_alike _ _ n H) E). rewrite (al_S _ _ H) in IH. destruct (olt (Hyperpath.val st' n) m'); apply IH; auto. now apply val_alike. }
  apply G. exact I.
Qed.
Lemma edge_time_alike dest e t : edge_time X P dest e = Ok t -> exists t', edge_time X P' dest e = Ok t' /\ t == t'.
Proof.
  unfold edge_time. intro H. apply bind_ok in H. destruct H as (t0 & -> & H). cbn [bind]. destruct (x_type e); try (injection H as <-; eexists; split; reflexivity). now apply rate_a.
Qed.
Lemma edge_b_time_alike dest e b t : edge_b_time X P dest e b = Ok t -> exists t', edge_b_time X P' dest e b = Ok t' /\ t == t'.
Proof.
  unfold edge_b_time. intro H. apply bind_ok in H. destruct H as (t0 & -> & H). cbn [bind]. destruct (x_type b); try (injection H as <-; eexists; split; reflexivity). now apply rate_a.
Qed.
Lemma verify_alike dest e : forall n l st st' r, (length l <= n)%nat -> alike st st' -> verify X P dest e l st = Ok r -> exists r', verify X P' dest e l st' = Ok r' /\ alike r r'.
Proof.
  induction n as [|n IH]; intros l st st' r L A H; destruct l as [|b l]; cbn [length] in L; try lia; cbn [verify] in *; try (injection H as <-; eauto; fail).
  destruct (xedge_eqb b e); [apply (IH l st st' r); auto; lia|].
  apply bind_ok in H. destruct H as (tb & Eb & H). destruct (edge_b_time_alike _ _ _ _ Eb) as (tb' & -> & Et). cbn [bind].
  set (t := match Hyperpath.val st (x_j b) with Some v => Some (v + tb) | None => None end) in *. set (t' := match Hyperpath.val st' (x_j b) with Some v => Some (v + tb') | None => None end).
  assert (T : oeq t t'). { unfold t, t'. pose proof (val_alike _ _ (x_j b) A) as V. destruct (Hyperpath.val st (x_j b)), (Hyperpath.val st' (x_j b)); cbn [oeq oadd] in *; auto. rewrite V, Et. reflexivity. }
  pose proof (al_lab _ _ A (x_i e)) as LB. rewrite <- (olt_oeq _ _ _ _ T LB). destruct (olt t (h_lab st (x_i e))); cbn [negb] in *; [apply (IH l st st' r); auto; lia|].
  destruct t as [tq|], t' as [tq'|]; cbn [oeq] in T; try contradiction; try discriminate. destruct (h_lab st (x_i e)) as [x|], (h_lab st' (x_i e)) as [x'|]; cbn [oeq] in LB; try contradiction; try discriminate. destruct (x_f b) as [f|]; try discriminate.
  apply bind_ok in H. destruct H as (y & Ey & H). pose proof (al_frq _ _ A (x_i e)) as FQ.
  assert (K : exists y', qdiv (h_frq st' (x_i e) * x' - f * tq') (h_frq st' (x_i e) - f) = Ok y' /\ y == y') by (revert Ey; apply qdiv_eq; [rewrite FQ, LB, T; reflexivity|rewrite FQ; reflexivity]). destruct K as (y' & -> & EY). cbn [bind].
  assert (A2 : alike (set_strategy st (x_i e) (Some y) (remove_edge b (h_suc st (x_i e))) (h_frq st (x_i e) - f)) (set_strategy st' (x_i e) (Some y') (remove_edge b (h_suc st' (x_i e))) (h_frq st' (x_i e) - f))).
  { apply strategy_alike; auto; [rewrite (al_suc _ _ A); auto|rewrite FQ; reflexivity]. }
  destruct l as [|b2 l]; [injection H as <-; eauto|]. cbn [length] in L. apply (IH l _ _ r ltac:(lia) A2 H).
Qed.
Lemma relax_alike dest st st' e r : alike st st' -> relax X P dest st e = Ok r -> exists r', relax X P' dest st' e = Ok r' /\ alike r r'.
Proof.
  intros A H. unfold relax in *. apply bind_ok in H. destruct H as (t0 & E0 & H). destruct (edge_time_alike _ _ _ E0) as (t0' & -> & Et). cbn [bind]. cbn zeta in *.
  apply bind_ok in H. destruct H as (s1 & E1 & H).
  assert (T : oeq (oadd t0 (Hyperpath.val st (x_j e))) (oadd t0' (Hyperpath.val st' (x_j e)))) by (apply oadd_oeq; auto using val_alike).
  set (T1 := oadd t0 (Hyperpath.val st (x_j e))) in *. set (T1' := oadd t0' (Hyperpath.val st' (x_j e))) in *. clearbody T1 T1'.
  match goal with |- exists r', (let* st := ?M in _) = _ /\ _ => assert (G : exists s1', M = Ok s1' /\ alike s1 s1') end.
  { destruct (x_f e) as [f|].
    - destruct T1 as [t|], T1' as [t'|]; cbn [oeq] in T; try contradiction; [|injection E1 as <-; eauto].
      pose proof (al_lab _ _ A (x_i e)) as LB. pose proof (al_frq _ _ A (x_i e)) as FQ.
      rewrite <- (olt_oeq (Some t) _ (Some t') _ T LB). destruct (olt (Some t) (h_lab st (x_i e))); [|injection E1 as <-; eauto].
      apply bind_ok in E1. destruct E1 as (th & -> & E1). cbn [bind]. rewrite (Qeqb_eqs _ 0 _ 0 FQ (Qeq_refl _)).
      destruct (h_lab st (x_i e)) as [x|] eqn:EL, (h_lab st' (x_i e)) as [x'|] eqn:EL'; cbn [oeq] in LB; try contradiction.
      + rewrite !andb_false_r in *. cbn [andb] in *. destruct (Qeqb f 0) eqn:F0; cbn [negb] in *; [injection E1 as <-; eauto|].
        apply bind_ok in E1. destruct E1 as (y & Ey & E1). injection E1 as <-.
        assert (K : exists y', qdiv (h_frq st' (x_i e) * x' + f * t') (h_frq st' (x_i e) + f) = Ok y' /\ y == y') by (revert Ey; apply qdiv_eq; [rewrite FQ, LB, T; reflexivity|rewrite FQ; reflexivity]). destruct K as (y' & -> & EY). cbn [bind].
        eexists. split; [reflexivity|]. apply strategy_alike; auto; [rewrite (al_suc _ _ A); auto|rewrite FQ; reflexivity].
      + rewrite !andb_true_r in *. destruct (Qeqb (h_frq st (x_i e)) 0 && negb (Qeqb f 0)) eqn:C.
        * apply bind_ok in E1. destruct E1 as (w & Ew & E1). destruct (rate_w _ _ Ew) as (w' & -> & EW). cbn [bind]. apply bind_ok in E1. destruct E1 as (y & Ey & E1). injection E1 as <-.
          assert (K : exists y', qdiv (w' + f * t') f = Ok y' /\ y == y') by (revert Ey; apply qdiv_eq; [rewrite EW, T; reflexivity|reflexivity]). destruct K as (y' & -> & EY). cbn [bind].
          eexists. split; [reflexivity|]. apply strategy_alike; auto; [rewrite (al_suc _ _ A); auto|rewrite FQ; reflexivity].
        * destruct (negb (Qeqb f 0)); [discriminate|]. injection E1 as <-. eauto.
    - injection E1 as <-. eexists. split; [reflexivity|]. rewrite <- (olt_oeq _ _ _ _ T (al_inf _ _ A (x_i e))). destruct (olt _ _); auto. now apply inf_alike. }
  destruct G as (s1' & -> & A1). cbn [bind]. rewrite (al_suc _ _ A1). exact (verify_alike dest e _ _ _ _ _ (le_n _) A1 H).
Qed.
Lemma fold_alike dest : forall l st st' r, alike st st' -> foldM (relax X P dest) l st = Ok r -> exists r', foldM (relax X P' dest) l st' = Ok r' /\ alike r r'.
Proof.
  induction l as [|e l IH]; intros st st' r A H; cbn [foldM] in *; [injection H as <-; eauto|]. apply bind_ok in H. destruct H as (s & Es & H). destruct (relax_alike _ _ _ _ _ A Es) as (s' & -> & A'). cbn [bind]. eauto.
Qed.
Lemma step_alike o d st st' r : alike st st' -> h_step X P o d st = Ok r -> exists r', h_step X P' o d st' = Ok r' /\ alike r r'.
Proof.
  intros A H. unfold h_step in *. cbn zeta in *. rewrite <- (choose_alike _ _ _ A). cbn [h_S] in *. rewrite (al_S _ _ A). refine (fold_alike _ _ _ _ _ _ H). destruct A. split; cbn [h_lab h_inf h_suc h_sinf h_frq h_S]; auto. 
Qed.
Lemma loop_alike o d : forall fuel st st' r, alike st st' -> h_loop fuel X P o d st = Ok r -> exists r', h_loop fuel X P' o d st' = Ok r' /\ alike r r'.
Proof.
  induction fuel as [|fuel IH]; intros st st' r A H; cbn [h_loop] in *; rewrite (al_S _ _ A); (destruct (Nat.eqb _ _); [injection H as <-; eauto|]); [discriminate|].
  apply bind_ok in H. destruct H as (s & Es & H). destruct (step_alike _ _ _ _ _ A Es) as (s' & -> & A'). cbn [bind]. eauto.
Qed.
(** the same strategies, and labels of the same value *)
Record same_result (R R' : hresult) : Prop := {
  sr_suc : forall n, hr_suc R' n = hr_suc R n; sr_lab : forall n, oeq (hr_lab R n) (hr_lab R' n); sr_frq : forall n, hr_frq R' n == hr_frq R n }.
Lemma reduce_alike o st st' R : alike st st' -> reduce X P o st = Ok R -> exists R', reduce X P' o st' = Ok R' /\ same_result R R'.
Proof.
  intros A H. unfold reduce in *. cbn zeta in *. apply bind_ok in H. destruct H as (lab & EL & H). injection H as <-.
  set (base := fun n => if olt (h_lab st n) (h_inf st n) then h_lab st n else h_inf st n) in *. set (base' := fun n => if olt (h_lab st' n) (h_inf st' n) then h_lab st' n else h_inf st' n) in *.
  assert (BB : forall n, oeq (base n) (base' n)). { intro n. unfold base, base'. rewrite (olt_oeq _ _ _ _ (al_lab _ _ A n) (al_inf _ _ A n)). destruct (olt _ _); [apply (al_lab _ _ A)|apply (al_inf _ _ A)]. }
  match goal with |- context [foldM ?FF (tree_nodes (xg_nodes X)) base'] => set (F' := FF) end.
  match type of EL with foldM ?FF _ base = _ => set (F := FF) in EL end.
  assert (G : forall l a a' r, (forall n, oeq (a n) (a' n)) -> foldM F l a = Ok r -> exists r', foldM F' l a' = Ok r' /\ forall n, oeq (r n) (r' n)).
  { induction l as [|n l IH]; intros a a' r E H; cbn [foldM] in *; [injection H as <-; eauto|]. apply bind_ok in H. destruct H as (s & Es & H).
    assert (K : exists s', F' a' n = Ok s' /\ forall m, oeq (s m) (s' m)).
    { unfold F, F' in *. destruct n as [c|s0|k]; try (injection Es as <-; eauto; fail). destruct (onode_is o _); [|injection Es as <-; eauto]. apply bind_ok in Es. destruct Es as (q & Eq & Es). injection Es as <-. destruct (rate_a _ _ Eq) as (q' & -> & EQ). cbn [bind]. eexists. split; [reflexivity|]. intro m. apply (upd_rel oeq); auto. specialize (BB (ES s0)). unfold base, base' in BB. destruct (if olt (h_lab st (ES s0)) _ then _ else _), (if olt (h_lab st' (ES s0)) _ then _ else _); cbn [oeq oadd] in *; auto. rewrite BB, EQ. reflexivity. }
    destruct K as (s' & -> & K). cbn [bind]. eauto. }
  destruct (G _ _ base' _ BB EL) as (lab' & -> & HL). cbn [bind]. eexists. split; [reflexivity|]. split; cbn [hr_suc hr_lab hr_frq]; auto; [|apply (al_frq _ _ A)].
  intro n. rewrite (olt_oeq _ _ _ _ (al_lab _ _ A n) (al_inf _ _ A n)). rewrite (al_suc _ _ A), (al_sinf _ _ A). reflexivity.
Qed.
Lemma search_alike fuel o d R : build_hyperpath fuel X P o d = Ok R -> exists R', build_hyperpath fuel X P' o d = Ok R' /\ same_result R R'.
Proof.
  intro H. unfold build_hyperpath in *. apply bind_ok in H. destruct H as (st & Es & H).
  destruct (loop_alike o d fuel (h_init d) (h_init d) st ltac:(split; intros; try apply oeq_refl; reflexivity) Es) as (st' & -> & A). cbn [bind]. exact (reduce_alike _ _ _ _ A H).
Qed.
End Search.

(** ** The strategies of all the trips, and the stops where they start *)
Record same_entry (e e' : od_entry) : Prop := {
  se_o : od_o e' = od_o e; se_d : od_d e' = od_d e; se_v : od_v e' = od_v e; se_paths : od_paths e' = od_paths e; se_res : same_result (od_res e) (od_res e') }.
Definition same_shares (a a' : list (nat * Q)) : Prop := Forall2 (fun x y => fst y = fst x /\ snd y == snd x) a a'.

Lemma extend_ext suc suc' dest p : (forall n, suc' n = suc n) -> extend suc' dest p = extend suc dest p.
Proof. intro H. unfold extend. destruct (at_dest dest p); auto. destruct p; auto. now rewrite H. Qed.
Lemma expand_ext suc suc' dest : (forall n, suc' n = suc n) -> forall fuel ps, expand fuel suc' dest ps = expand fuel suc dest ps.
Proof. intro H. induction fuel as [|fuel IH]; intro ps; cbn [expand]; auto. destruct (forallb _ ps); auto. rewrite IH. f_equal. apply flat_map_ext. intro p. now apply extend_ext. Qed.

Section Entries.
Variables (X : xgraph) (P P' : qpass).
Hypothesis (HR : same_rates P P').
Lemma paths_alike fuel o d r : hyperpath_OD fuel X P o d = Ok r -> exists r', hyperpath_OD fuel X P' o d = Ok r' /\ fst r' = fst r /\ same_result (snd r) (snd r').
Proof.
  intro H. unfold hyperpath_OD in *. apply bind_ok in H. destruct H as (R & ER & H). destruct (search_alike X P P' HR _ _ _ _ ER) as (R' & -> & SR). cbn [bind]. apply bind_ok in H. destruct H as (hp & EH & H). injection H as <-.
  assert (G : forall l acc, foldM (fun acc s => match o with None => Ok acc | Some o => let* ps := expand fuel (hr_suc R') d [[ES s; o]] in Ok (match ps with [] => acc | _ => acc ++ [(s, map (@rev enode) ps)] end) end) l acc =
    foldM (fun acc s => match o with None => Ok acc | Some o => let* ps := expand fuel (hr_suc R) d [[ES s; o]] in Ok (match ps with [] => acc | _ => acc ++ [(s, map (@rev enode) ps)] end) end) l acc).
  { induction l as [|s l IH]; intro acc; cbn [foldM]; auto. destruct o as [n|]; cbn [bind]; auto. rewrite (expand_ext _ _ d (sr_suc _ _ SR)). destruct (expand _ _ _ _); cbn [bind]; auto. }
  rewrite G, EH. cbn [bind]. eexists. split; [reflexivity|]. auto.
Qed.
Lemma validator_alike fuel M r : network_validator fuel X P M = Ok r -> network_validator fuel X P' M = Ok r.
Proof.
  unfold network_validator. intro H. apply bind_ok in H. destruct H as (w & EW & H). rewrite <- H. clear H r.
  match type of EW with foldM ?FF _ _ = _ => set (F := FF) in EW end. match goal with |- (let* _ := foldM ?FF _ _ in _) = _ => set (F' := FF) end.
  assert (ST : forall x, F tt x = Ok tt -> F' tt x = Ok tt).
  { intros [[o d] v] E1. unfold F in E1. unfold F'. cbn beta iota zeta in *. apply bind_ok in E1. destruct E1 as (R & ER & E1). destruct (search_alike X P P' HR _ _ _ _ ER) as (R' & -> & SR). cbn [bind].
    match type of E1 with (if existsb ?A _ then _ else _) = _ => set (f := A) in E1 end. match goal with |- context [existsb ?A _] => set (f' := A) end. assert (EE : forall l, existsb f' l = existsb f l). { induction l; cbn [existsb]; auto. rewrite IHl. f_equal. unfold f, f'. pose proof (sr_lab _ _ SR (ES a)) as L. destruct (hr_lab R _), (hr_lab R' _); auto; destruct L. }
    rewrite EE. destruct (existsb f _); [reflexivity|discriminate]. }
  assert (G : forall l u, foldM F l tt = Ok u -> foldM F' l tt = Ok u).
  { induction l as [|x l IH]; intros u Hu; cbn [foldM] in *; auto. apply bind_ok in Hu. destruct Hu as ([] & E1 & Hu). rewrite (ST _ E1). cbn [bind]. auto. }
  rewrite (G _ _ EW). reflexivity.
Qed.
Lemma entries_alike fuel M es : get_all_hyperpaths fuel X P M = Ok es -> exists es', get_all_hyperpaths fuel X P' M = Ok es' /\ Forall2 same_entry es es'.
Proof.
  intro H. unfold get_all_hyperpaths in *. apply bind_ok in H. destruct H as (ok & E & H). rewrite (validator_alike _ _ _ E). cbn [bind]. destruct ok; [|discriminate]. revert es H. induction (od_pairs M) as [|[[o d] v] l IH]; intros es H; cbn [mapM] in *; [injection H as <-; eauto|].
  apply bind_ok in H. destruct H as (e & E1 & H). apply bind_ok in E1. destruct E1 as (r & Er & E1). injection E1 as <-. destruct (paths_alike _ _ _ _ Er) as (r' & -> & R1 & R2). cbn [bind].
  apply bind_ok in H. destruct H as (es1 & E2 & H). injection H as <-. destruct (IH _ E2) as (es' & -> & S). cbn [bind]. eexists. split; [reflexivity|]. constructor; auto. split; cbn [od_o od_d od_v od_paths od_res]; auto.
Qed.
Lemma right_alike zone d d' : d == d' -> forall n first zone' p p', zone == zone' -> p == p' -> fst (right_stops n first zone d p) == fst (right_stops n first zone' d' p') /\ snd (right_stops n first zone d p) = snd (right_stops n first zone' d' p').
Proof.
  intro ED. induction n as [|n IH]; intros first zone' p p' EZ EP; cbn [right_stops fst snd]; auto. assert (EQ : (if first then zone / 2 else p + zone) == (if first then zone' / 2 else p' + zone')) by (destruct first; rewrite EZ, ?EP; reflexivity).
  rewrite (Qltb_eq _ _ _ _ ED EQ). destruct (Qltb d' _); cbn [fst snd]; auto.
Qed.
Ltac done1 := eexists; split; [reflexivity|]; repeat constructor; cbn [fst snd]; auto; try reflexivity.
Lemma share_alike d2 p vp l1 l2 l1' l2' s1 s2 a : l1 == l1' -> l2 == l2' -> share_two d2 p vp (q_pa P) (q_pv P) l1 l2 s1 s2 = Ok a ->
  exists a', share_two d2 p vp (q_pa P') (q_pv P') l1' l2' s1 s2 = Ok a' /\ same_shares a a'.
Proof.
  intros E1 E2 H. assert (RW : forall w, qdiv (q_pa P) (q_pv P) = Ok w -> exists w', qdiv (q_pa P') (q_pv P') = Ok w' /\ w == w').
  { intros w Hw. apply qdiv_inv in Hw. destruct Hw as [_ ->]. destruct HR as (N & N' & A & W). rewrite qdiv_ok by auto. eexists. split; [reflexivity|exact A]. }
  unfold share_two in *. rewrite <- (Qleb_eq _ _ _ _ E1 E2). destruct (Qleb l1 l2).
  - apply bind_ok in H. destruct H as (w & Ew & H). destruct (RW _ Ew) as (w' & -> & EW). cbn [bind]. apply bind_ok in H. destruct H as (d & Ed & H).
    assert (K : exists d', qdiv (vp * (l2' - l1')) w' = Ok d' /\ d == d') by (revert Ed; apply qdiv_eq; [rewrite E1, E2; reflexivity|exact EW]). destruct K as (d' & -> & ED). cbn [bind].
    rewrite <- (Qleb_eq (p / 2) d (p / 2) d' ltac:(reflexivity) ED). destruct (Qleb (p / 2) d); [injection H as <-; done1|].
    apply bind_ok in H. destruct H as (zone & -> & H). cbn [bind]. pose proof (right_alike zone d d' ED (Z.to_nat (Qfloor (d2 / 2))) true zone 0 0 ltac:(reflexivity) ltac:(reflexivity)) as [EP EF].
    destruct (right_stops _ _ zone d 0) as [pos fnd], (right_stops _ _ zone d' 0) as [pos' fnd']. cbn [fst snd] in *. subst fnd'. destruct fnd.
    + apply bind_ok in H. destruct H as (y & Ey & H). injection H as <-. assert (K : exists y', qdiv (2 * d' + (pos' - d')) p = Ok y' /\ y == y') by (revert Ey; apply qdiv_eq; [rewrite ED, EP; reflexivity|reflexivity]). destruct K as (y' & -> & EY). cbn [bind]. done1; rewrite EY; reflexivity.
    + rewrite <- (Qltb_eq _ _ _ _ EP ED). destruct (Qltb pos d); injection H as <-; done1.
  - destruct (Qeqb _ 1); [injection H as <-; done1|]. apply bind_ok in H. destruct H as (w & Ew & H). destruct (RW _ Ew) as (w' & -> & EW). cbn [bind]. apply bind_ok in H. destruct H as (d & Ed & H).
    assert (K : exists d', qdiv (vp * (l1' - l2')) w' = Ok d' /\ d == d') by (revert Ed; apply qdiv_eq; [rewrite E1, E2; reflexivity|exact EW]). destruct K as (d' & -> & ED). cbn [bind].
    apply bind_ok in H. destruct H as (zone & -> & H). cbn [bind]. cbn zeta in *. rewrite <- (Qleb_eq (zone * (1 # 2)) d (zone * (1 # 2)) d' ltac:(reflexivity) ED). destruct (Qleb _ d); [injection H as <-; done1|].
    apply bind_ok in H. destruct H as (y & Ey & H). injection H as <-. assert (K : exists y', qdiv (zone * (1 # 2) - d') p = Ok y' /\ y == y') by (revert Ey; apply qdiv_eq; [rewrite ED; reflexivity|reflexivity]). destruct K as (y' & -> & EY). cbn [bind]. done1; rewrite EY; reflexivity.
Qed.
Lemma shares_refl a : same_shares a a. Proof. induction a; constructor; auto. split; reflexivity. Qed.
Lemma assign_alike p vp e e' a : same_entry e e' -> assign_od X p vp (q_pa P) (q_pv P) e = Ok a -> exists a', assign_od X p vp (q_pa P') (q_pv P') e' = Ok a' /\ same_shares a a'.
Proof.
  intros S H. unfold assign_od in *. rewrite (se_paths _ _ S). destruct (pick_stops _ _) as [[s1|] [s2|]]; try (injection H as <-; eexists; split; [reflexivity|apply shares_refl]; fail).
  pose proof (sr_lab _ _ (se_res _ _ S) (ES s1)) as L1. pose proof (sr_lab _ _ (se_res _ _ S) (ES s2)) as L2. destruct (hr_lab (od_res e) (ES s1)), (hr_lab (od_res e') (ES s1)); try contradiction; try discriminate. destruct (hr_lab (od_res e) (ES s2)), (hr_lab (od_res e') (ES s2)); try contradiction; try discriminate. exact (share_alike _ _ _ _ _ _ _ _ _ _ L1 L2 H).
Qed.
Lemma assignment_alike p vp es es' asg : Forall2 same_entry es es' -> get_assignment X p vp (q_pa P) (q_pv P) es = Ok asg ->
  exists asg', get_assignment X p vp (q_pa P') (q_pv P') es' = Ok asg' /\ Forall2 same_shares asg asg'.
Proof.
  intro H. unfold get_assignment. revert asg. induction H as [|e e' es es' S H IH]; intros asg E; cbn [mapM] in *; [injection E as <-; eauto|]. apply bind_ok in E. destruct E as (a & E1 & E). destruct (assign_alike _ _ _ _ _ S E1) as (a' & -> & SA). cbn [bind]. apply bind_ok in E. destruct E as (l & E2 & E). injection E as <-. destruct (IH _ E2) as (l' & -> & SL). cbn [bind]. eauto.
Qed.
End Entries.

(** ** Who gets on and off, and the hours of the users *)
Lemma share_of a a' s : same_shares a a' -> dget0 Nat.eqb 0 a' s == dget0 Nat.eqb 0 a s.
Proof. unfold dget0. intro H. induction H as [|[k v] [k' v'] l l' [E F] H IH]; cbn [dget fst snd] in *; [reflexivity|]. subst k'. destruct (Nat.eqb s k); auto. Qed.

Section Users.
Variables (X : xgraph) (f : fdict).
Definition eqtab (t t' : tab) : Prop := forall r d s, tget t' r d s == tget t r d s.
Definition eqtabs (t t' : tables) : Prop := eqtab (t_z t) (t_z t') /\ eqtab (t_v t) (t_v t') /\ eqtab (t_l t) (t_l t').
Definition equ (u u' : resources) : Prop := u_ta u' == u_ta u /\ u_te u' == u_te u /\ u_tv u' == u_tv u /\ u_t u' == u_t u.
Definition pq (a b : enode * enode * Q) : Prop := fst b = fst a /\ snd b == snd a.
Lemma pushed_eq (l : list xedge) (j : enode) a a' : a' == a -> Forall2 pq (map (fun e => (j, x_j e, a)) l) (map (fun e => (j, x_j e, a')) l).
Proof. intro E. induction l; constructor; auto. split; [reflexivity|exact E]. Qed.
Lemma tadd_eq t t' r d s a a' : eqtab t t' -> a' == a -> eqtab (tadd t r d s a) (tadd t' r d s a').
Proof. intros E Ea r0 d0 s0. rewrite !tget_tadd, (E r0 d0 s0). destruct (here _ _ _ _ _ _); rewrite ?Ea; reflexivity. Qed.
Lemma record_eq t t' i j a a' : eqtabs t t' -> a' == a -> eqtabs (record_flow X t i j a) (record_flow X t' i j a').
Proof. intros (A & B & C) E. unfold record_flow. destruct i, j; repeat split; cbn [t_z t_v t_l]; auto using tadd_eq. Qed.

Section Strategy.
Variables (suc suc' : enode -> list xedge) (dest : option enode).
Hypothesis (HS : forall n, suc' n = suc n).
Lemma dis_pax_eq i j a a' r : a' == a -> dis_pax X f suc i j a = Ok r -> exists r', dis_pax X f suc' i j a' = Ok r' /\ r' == r.
Proof.
  intros E H. unfold dis_pax in *. destruct i as [c|s|k0]; try (inversion H; subst; eauto; fail). destruct j as [c|s'|k]; try (inversion H; subst; eauto; fail).
  rewrite HS. apply bind_ok in H. destruct H as (fa & -> & H). cbn [bind]. apply bind_ok in H. destruct H as (sh & -> & H). cbn [bind]. injection H as <-. eexists. split; [reflexivity|]. rewrite E. reflexivity.
Qed.
Lemma spread_eq : forall fuel ps ps' t t' T, Forall2 pq ps ps' -> eqtabs t t' -> spread fuel X f suc dest ps t = Ok T -> exists T', spread fuel X f suc' dest ps' t' = Ok T' /\ eqtabs T T'.
Proof.
  induction fuel as [|fuel IH]; intros ps ps' t t' T HD HT H; inversion HD as [|[[i j] a] [[i' j'] a'] r r' Hd Hr]; subst; cbn [spread] in *; try discriminate; try (inversion H; subst; eauto; fail).
  destruct Hd as [Hd Ea]. cbn [fst snd] in *. injection Hd as -> ->. apply bind_ok in H. destruct H as (s & Es & H). destruct (dis_pax_eq _ _ _ _ _ Ea Es) as (s' & -> & Es'). cbn [bind].
  refine (IH _ _ _ _ _ _ (record_eq _ _ _ _ _ _ HT Es') H). destruct (stop_of_dest X dest j); auto. rewrite HS. apply Forall2_app; auto. now apply pushed_eq.
Qed.
Section Tabs.
Variables (z v z' v' : tab).
Hypothesis (HZ : eqtab z z') (HV : eqtab v v').
Ltac eu := unfold equ, add_ta, add_te, add_tv, add_t; repeat split; cbn [u_ta u_te u_tv u_t]; auto.
Lemma te_eq i j q q' u u' U : equ u u' -> q' == q -> report_te X f suc i j q u = Ok U -> exists U', report_te X f suc' i j q' u' = Ok U' /\ equ U U'.
Proof.
  intros (A & B & C & D) E H. unfold report_te in *. destruct i as [c|s|k0]; try (inversion H; subst; eexists; split; [reflexivity|eu]; fail). destruct j as [c|s'|k]; try (inversion H; subst; eexists; split; [reflexivity|eu]; fail).
  rewrite HS. apply bind_ok in H. destruct H as (fa & -> & H). cbn [bind]. apply bind_ok in H. destruct H as (w & -> & H). cbn [bind]. apply bind_ok in H. destruct H as (te & Ee & H). injection H as <-. apply qdiv_inv in Ee. destruct Ee as [Hw ->]. rewrite qdiv_ok by exact Hw. cbn [bind]. eexists. split; [reflexivity|]. eu. rewrite B, E. reflexivity.
Qed.
Lemma tv_eq i j q q' u u' : equ u u' -> q' == q -> equ (report_tv X i j q u) (report_tv X i j q' u').
Proof. intros HQ E. unfold report_tv. destruct i; auto. destruct j; auto. destruct (find _ _); auto. destruct HQ as (A & B & C & D). eu. rewrite C, E. reflexivity. Qed.
Lemma al_eq i j q q' u u' U : equ u u' -> q' == q -> report_alighting X dest v i j q u = Ok U -> exists U', report_alighting X dest v' i j q' u' = Ok U' /\ equ U U'.
Proof.
  intros HQ E H. unfold report_alighting in *. destruct i as [c|s|k]; try (inversion H; subst; eauto; fail). destruct j as [c|s|k']; try (inversion H; subst; eauto; fail).
  destruct (rn_prev _) as [pr|]; [|discriminate]. injection H as <-. eexists. split; [reflexivity|]. destruct HQ as (A & B & C & D). cbn [stop_of_dest]. destruct (onode_is _ _); eu; rewrite ?(HV _ _ _), ?C, ?D, ?E; reflexivity.
Qed.
Lemma ta_eq i j u u' : equ u u' -> equ (report_ta X i j u) (report_ta X i j u').
Proof. intro HQ. unfold report_ta. destruct i, j; auto; destruct HQ as (A & B & C & D); eu; rewrite A; reflexivity. Qed.
Lemma max_eq a b a' b' : a' == a -> b' == b -> Qmaxb a' b' == Qmaxb a b.
Proof. intros A B. unfold Qmaxb. rewrite (Qltb_eq _ _ _ _ A B). destruct (Qltb a b); auto. Qed.
Lemma dw_eq i j k q q' u u' : equ u u' -> q' == q -> equ (report_dwell X z v i j k q u) (report_dwell X z' v' i j k q' u').
Proof.
  intros HQ E. unfold report_dwell. destruct i as [c|s|b]; auto. destruct j as [c|s|b']; auto. destruct k; auto. cbn zeta. destruct HQ as (A & B & C & D).
  destruct (Qeqb _ 1), (Qeqb _ 0); eu; rewrite ?(max_eq _ _ _ _ (HZ _ _ _) (HV _ _ _)), ?(HZ _ _ _), ?(HV _ _ _), ?C, ?E; reflexivity.
Qed.
Lemma report_eq i j q q' u u' U : equ u u' -> q' == q -> report X f z v suc dest i j q u = Ok U -> exists U', report X f z' v' suc' dest i j q' u' = Ok U' /\ equ U U'.
Proof.
  intros HQ E H. unfold report in *. apply bind_ok in H. destruct H as (u1 & E1 & H). destruct (te_eq _ _ _ _ _ _ _ HQ E E1) as (a1 & -> & HA). cbn [bind].
  apply bind_ok in H. destruct H as (u2 & E2 & H). destruct (al_eq _ _ _ _ _ _ _ (tv_eq i j _ _ _ _ HA E) E E2) as (b' & -> & HB). cbn [bind]. injection H as <-. eexists. split; [reflexivity|]. rewrite HS.
  pose proof (ta_eq i j _ _ HB) as HC. revert HC. generalize (report_ta X i j u2) (report_ta X i j b'). induction (suc j) as [|x l IH]; intros c c' HC; cbn [fold_left]; auto. apply IH. now apply dw_eq.
Qed.
Lemma consume_eq : forall fuel ps ps' u u' U, Forall2 pq ps ps' -> equ u u' -> consume fuel X f z v suc dest ps u = Ok U -> exists U', consume fuel X f z' v' suc' dest ps' u' = Ok U' /\ equ U U'.
Proof.
  induction fuel as [|fuel IH]; intros ps ps' u u' U HD HQ H; inversion HD as [|[[i j] q] [[i' j'] q'] r r' Hd Hr]; subst; cbn [consume] in *; try discriminate; try (inversion H; subst; eauto; fail).
  destruct Hd as [Hd Ep]. cbn [fst snd] in *. injection Hd as -> ->. destruct (stop_of_dest X dest i); [eauto|].
  apply bind_ok in H. destruct H as (s & Es & H). destruct (dis_pax_eq _ _ _ _ _ Ep Es) as (s' & -> & Es'). cbn [bind].
  apply bind_ok in H. destruct H as (u1 & E1 & H). destruct (report_eq _ _ _ _ _ _ _ HQ Es' E1) as (a1 & -> & HA). cbn [bind].
  refine (IH _ _ _ _ _ _ HA H). rewrite HS. apply Forall2_app; auto. now apply pushed_eq.
Qed.
End Tabs.
End Strategy.

Lemma start_eq e e' a a' s : same_entry e e' -> same_shares a a' -> od_v e' * dget0 Nat.eqb 0 a' s / 100 == od_v e * dget0 Nat.eqb 0 a s / 100.
Proof. intros S A. rewrite (se_v _ _ S), (share_of _ _ s A). reflexivity. Qed.
Lemma spread_all fuel : forall es es' asg asg' t t' T, Forall2 same_entry es es' -> Forall2 same_shares asg asg' -> eqtabs t t' -> foldM (spread_od fuel X f) (combine es asg) t = Ok T ->
  exists T', foldM (spread_od fuel X f) (combine es' asg') t' = Ok T' /\ eqtabs T T'.
Proof.
  intros es es' asg asg' t t' T SC. revert asg asg' t t' T. induction SC as [|e e' es es' S SC IH]; intros asg asg' t t' T SA HT H; cbn [combine foldM] in *; [inversion H; subst; eauto|]. inversion SA as [|a a' l l' HA HL]; subst; cbn [foldM] in *; [inversion H; subst; eauto|].
  apply bind_ok in H. destruct H as (t1 & E1 & H). assert (A : exists t1', spread_od fuel X f t' (e', a') = Ok t1' /\ eqtabs t1 t1').
  { unfold spread_od in *. cbn [fst snd] in *. clear H IH. rewrite (se_paths _ _ S). revert t t' HT E1. generalize (map fst (od_paths e)). induction l0 as [|s l0 IH]; intros t t' HT E1; cbn [foldM] in *; [inversion E1; subst; eauto|].
    apply bind_ok in E1. destruct E1 as (t2 & E2 & E1). assert (C : exists t2', spread_stop fuel X f e' a' t' s = Ok t2' /\ eqtabs t2 t2').
    { unfold spread_stop in *. cbn zeta in *. rewrite (Qeqb_eqs _ 0 _ 0 (start_eq _ _ _ _ s S HA) (Qeq_refl 0)). destruct (Qeqb _ 0); [inversion E2; subst; eauto|]. rewrite (se_d _ _ S). refine (spread_eq _ _ _ (sr_suc _ _ (se_res _ _ S)) _ _ _ _ _ _ _ HT E2). rewrite (sr_suc _ _ (se_res _ _ S)). apply pushed_eq. now apply start_eq. }
    destruct C as (t2' & -> & HT2). cbn [bind]. eauto. }
  destruct A as (t1' & -> & HT1). cbn [bind]. eauto.
Qed.
Lemma per_vehicle_eq t t' : eqtab t t' -> eqtab (per_vehicle f t) (per_vehicle f t').
Proof. intros E r d s. rewrite !tget_scaled. unfold scale. destruct (Qeqb (freq f r) 0); rewrite (E r d s); reflexivity. Qed.
Lemma gab_eq fuel es es' asg asg' t : Forall2 same_entry es es' -> Forall2 same_shares asg asg' -> get_alighting_and_boarding fuel X f es asg = Ok t ->
  exists t', get_alighting_and_boarding fuel X f es' asg' = Ok t' /\ eqtabs t t'.
Proof.
  intros SC SA E. unfold get_alighting_and_boarding in *. apply bind_ok in E. destruct E as (T & ET & E). injection E as <-.
  destruct (spread_all _ _ _ _ _ (mkT [] [] []) (mkT [] [] []) _ SC SA ltac:(repeat split; intros ? ? ?; reflexivity) ET) as (T' & -> & R1 & R2 & R4). cbn [bind]. eexists. split; [reflexivity|]. repeat split; cbn [t_z t_v t_l]; now apply per_vehicle_eq.
Qed.
Lemma users_eq fuel vp z v z' v' : eqtab z z' -> eqtab v v' -> forall es es' asg asg' U, Forall2 same_entry es es' -> Forall2 same_shares asg asg' -> resources_consumer fuel X vp f es asg z v = Ok U ->
  exists U', resources_consumer fuel X vp f es' asg' z' v' = Ok U' /\ equ U U'.
Proof.
  intros HZ HV es es' asg asg' U SC SA H. unfold resources_consumer in *. revert H. assert (R0 : equ (mkU 0 0 0 0) (mkU 0 0 0 0)) by (repeat split; reflexivity). revert R0. generalize (mkU 0 0 0 0) at 1 3. generalize (mkU 0 0 0 0). intros u' u. revert asg asg' SA u u' U. induction SC as [|e e' es es' S SC IH]; intros asg asg' SA u u' U HQ H; cbn [combine foldM] in *; [inversion H; subst; eauto|]. inversion SA as [|a a' l l' HA HL]; subst; cbn [foldM] in *; [inversion H; subst; eauto|].
  apply bind_ok in H. destruct H as (u1 & E1 & H). assert (A : exists u1', consume_od fuel X vp f z' v' u' (e', a') = Ok u1' /\ equ u1 u1').
  { unfold consume_od in *. cbn [fst snd] in *. clear H IH. rewrite (se_paths _ _ S). revert u u' HQ E1. generalize (map fst (od_paths e)). induction l0 as [|s l0 IH]; intros u u' HQ E1; cbn [foldM] in *; [inversion E1; subst; eauto|].
    apply bind_ok in E1. destruct E1 as (t2 & E2 & E1). assert (C : exists t2', consume_stop fuel X vp f z' v' e' a' u' s = Ok t2' /\ equ t2 t2').
    { unfold consume_stop in *. cbn zeta in *. rewrite (Qeqb_eqs _ 0 _ 0 (start_eq _ _ _ _ s S HA) (Qeq_refl 0)). destruct (Qeqb _ 0); [inversion E2; subst; eauto|]. rewrite (se_d _ _ S), (se_o _ _ S).
      apply bind_ok in E2. destruct E2 as (w & Ew & E2). assert (K : exists w', qdiv (dget0 Nat.eqb 0 a' s / 100 * width_of X (od_o e)) (4 * vp * m_d (sn_mode (stop_at (xg_stops X) s))) = Ok w' /\ w == w') by (revert Ew; apply qdiv_eq; [rewrite (share_of _ _ s HA); reflexivity|reflexivity]). destruct K as (w' & -> & EW). cbn [bind].
      refine (consume_eq _ _ _ (sr_suc _ _ (se_res _ _ S)) _ _ _ _ HZ HV _ _ _ _ _ _ _ _ E2); [rewrite (sr_suc _ _ (se_res _ _ S)); apply pushed_eq; now apply start_eq|].
      destruct HQ as (A & B & C & D). repeat split; cbn [add_ta u_ta u_te u_tv u_t]; auto. rewrite A, (start_eq _ _ _ _ s S HA), EW. reflexivity. }
    destruct C as (t2' & -> & HT2). cbn [bind]. eauto. }
  destruct A as (u1' & -> & HU). cbn [bind]. eauto.
Qed.
End Users.

(** ** The theorems *)
(** the same problem with other travellers *)
Definition with_pass (B : problem) (P : qpass) : problem := mkProblem (pb_geo B) (pb_city B) (pb_demand B) P (pb_net B) (pb_fuel B).
(** travellers who behave alike: they walk at the same speed, a transfer weighs the same, and walking and waiting
    are valued alike relative to riding; the prices with which the planner counts their time may differ *)
Definition behave_alike (P P' : qpass) : Prop := same_rates P P' /\ q_va P' = q_va P /\ q_pt P' = q_pt P.

(** The search of the best strategy of a trip gives the same strategy, with the same expected time. *)
Theorem C82_search : forall fuel X P P' o d R, same_rates P P' -> build_hyperpath fuel X P o d = Ok R ->
  exists R', build_hyperpath fuel X P' o d = Ok R' /\ (forall n, hr_suc R' n = hr_suc R n) /\
    forall n, match hr_lab R n, hr_lab R' n with Some t, Some t' => t == t' | None, None => True | _, _ => False end.
Proof. intros fuel X P P' o d R H E. destruct (search_alike X P P' H _ _ _ _ E) as (R' & ER & [A B C]). exists R'. split; [exact ER|]. split; [exact A|exact B]. Qed.

Lemma load_alike fuel fuel' X f es asg es' asg' t t' r : get_alighting_and_boarding fuel X f es asg = Ok t -> get_alighting_and_boarding fuel' X f es' asg' = Ok t' -> eqtab (t_l t) (t_l t') -> load t' r == load t r.
Proof.
  intros Et Et' DL. destruct (load_spec _ _ _ _ _ _ Et r) as (A & C & E). destruct (load_spec _ _ _ _ _ _ Et' r) as (A' & C' & E'). apply Qle_antisym.
  - destruct E' as [E'|(d & s & E')]; rewrite E'; [exact A|]. rewrite (DL r d s). apply C.
  - destruct E as [E|(d & s & E)]; rewrite E; [exact A'|]. rewrite <- (DL r d s). apply C'.
Qed.

(** The optimizer of travellers who behave alike has the same network, strategies and shares of the stops; at any
    frequencies, the vehicles carry, pick up and leave the same passengers and the restrictions are the same. *)
Theorem C82_same_strategies : forall B fg o P', new_optimizer B fg = Ok o -> behave_alike (pb_pass B) P' ->
  exists o', new_optimizer (with_pass B P') fg = Ok o' /\ o_f o' = o_f o /\ o_fopt o' = o_fopt o /\ o_pos o' = o_pos o /\ o_X o' = o_X o /\
    Forall2 same_entry (o_es o) (o_es o') /\ Forall2 same_shares (o_asg o) (o_asg o') /\
    (forall f t, boardings o f = Ok t -> exists t', boardings o' f = Ok t' /\
      (forall r d s, tget (t_z t') r d s == tget (t_z t) r d s /\ tget (t_v t') r d s == tget (t_v t) r d s /\ tget (t_l t') r d s == tget (t_l t) r d s) /\
      (forall r, load t' r == load t r)) /\
    (forall x l, get_constrains o x = Ok l -> exists l', get_constrains o' x = Ok l' /\ Forall2 Qeq l l').
Proof.
  intros B fg o P' Ho (HR & HA & HT). pose proof (new_optimizer_attrs _ _ _ Ho) as (Hb & Hf & Hx & Hpos & Hv & EX & EE & EA & con & EC & HC).
  destruct (entries_alike _ _ _ HR _ _ _ EE) as (es' & EE' & SC). destruct (assignment_alike _ _ _ HR _ _ _ _ _ SC EA) as (asg' & EA' & SA).
  assert (BT : forall o', o_pb o' = with_pass B P' -> o_X o' = o_X o -> o_asg o' = asg' -> o_es o' = es' -> forall f t, boardings o f = Ok t -> exists t', boardings o' f = Ok t' /\ eqtabs t t').
  { intros o' A1 A2 A3 A4 f t Et. unfold boardings in *. rewrite A1, A2, A3, A4. cbn [pb_fuel with_pass]. rewrite Hb in Et. exact (gab_eq _ _ _ _ _ _ _ _ SC SA Et). }
  assert (CT : forall o', o_pb o' = with_pass B P' -> o_X o' = o_X o -> o_asg o' = asg' -> o_es o' = es' -> o_pos o' = o_pos o -> forall x l, get_constrains o x = Ok l -> exists l', get_constrains o' x = Ok l' /\ Forall2 Qeq l l').
  { intros o' A1 A2 A3 A4 A5 x l H. unfold get_constrains in *. rewrite A5. apply bind_ok in H. destruct H as (f & -> & H). cbn [bind]. apply bind_ok in H. destruct H as (t & Et & H). destruct (BT o' A1 A2 A3 A4 f t Et) as (t' & Et' & TT). rewrite Et'. cbn [bind]. rewrite A1. rewrite Hb in H.
    apply bind_ok in H. destruct H as (F & EF & H). change (pb_graph (with_pass B P')) with (pb_graph B). change (pb_routes (with_pass B P')) with (pb_routes B). change (pb_net (with_pass B P')) with (pb_net B). rewrite EF. cbn [bind]. injection H as <-. eexists. split; [reflexivity|].
    apply Forall2_app; [|clear; induction F; constructor; auto; reflexivity]. unfold most_loaded_constrains. change (freq (most_loaded_section (t_l t))) with (load t). change (freq (most_loaded_section (t_l t'))) with (load t').
    unfold boardings in Et, Et'. rewrite A2 in Et'. pose proof (fun r => load_alike _ _ _ _ _ _ _ _ _ _ r Et Et' (proj2 (proj2 TT))) as LT. clear -LT. induction (pb_routes B); cbn [map]; constructor; auto. rewrite LT. reflexivity. }
  set (o1 := mkOpt (with_pass B P') (o_f o) (o_fopt o) (o_pos o) (o_X o) es' asg' 0 0). destruct (CT o1 eq_refl eq_refl eq_refl eq_refl eq_refl _ _ EC) as (con' & EC' & _).
  exists (mkOpt (with_pass B P') (o_f o) (o_fopt o) (o_pos o) (o_X o) es' asg' (length con') (length (o_fopt o))).
  split.
  { unfold new_optimizer. change (pb_routes (with_pass B P')) with (pb_routes B). destruct (f0 (pb_routes B) fg) as [[f fopt] pos] eqn:E0. cbn [fst] in Hf. assert (E1 : fopt = o_fopt o) by (rewrite Hx; unfold f0 in E0; now injection E0). assert (E2 : pos = o_pos o) by (rewrite Hpos; unfold f0 in E0; now injection E0). rewrite <- Hf, E1, E2.
    cbn [with_pass pb_geo pb_pass pb_fuel pb_demand pb_city]. change (pb_graph (with_pass B P')) with (pb_graph B). rewrite HT, EX. cbn [bind]. rewrite EE'. cbn [bind]. rewrite HA, EA'. cbn [bind]. change (mkProblem _ _ _ _ _ _) with (with_pass B P'). change (get_constrains _ (o_fopt o)) with (get_constrains o1 (o_fopt o)). rewrite EC'. reflexivity. }
  cbn [o_f o_fopt o_pos o_X o_asg o_es]. do 4 (split; [reflexivity|]). split; [exact SC|]. split; [exact SA|]. split; [|apply CT; reflexivity].
  intros f t Et. match goal with |- exists t', boardings ?O f = _ /\ _ => destruct (BT O eq_refl eq_refl eq_refl eq_refl f t Et) as (t' & Et' & TT) end. exists t'. split; [exact Et'|]. split; [intros r d s; destruct TT as (A1 & A2 & A3); auto|]. intro r. unfold boardings in Et, Et'. exact (load_alike _ _ _ _ _ _ _ _ _ _ r Et Et' (proj2 (proj2 TT))).
Qed.

Lemma cycle_alike z v z' v' rs tt ct a b ct' a' b' : eqtab z z' -> eqtab v v' -> tab_wf z -> tab_wf v -> tab_wf z' -> tab_wf v' -> NoDup (map r_id rs) ->
  get_cycle_time z v rs tt = (ct, a, b) -> get_cycle_time z' v' rs tt = (ct', a', b') -> forall r, In r rs -> freq ct' (r_id r) == freq ct (r_id r).
Proof.
  intros HZ HV W1 W2 W3 W4 ND E E' r Hr. assert (TZ : tmul 1 z z') by (intros r0 d s; rewrite (HZ r0 d s); ring). assert (TV : tmul 1 v v') by (intros r0 d s; rewrite (HV r0 d s); ring).
  pose proof (cycle_dem 1 z v z' v' rs tt ct a b ct' a' b' ltac:(reflexivity) TZ TV W1 W2 W3 W4 ND E E' r Hr). lra.
Qed.
Lemma operators_alike rs f ct ct' (k k' : fdict) : (forall r, In r rs -> freq ct' (r_id r) == freq ct (r_id r)) -> (forall r, freq k' r == freq k r) ->
  get_operators_cost rs ct' f k' == get_operators_cost rs ct f k.
Proof.
  intros HC HK. unfold get_operators_cost. assert (G : forall a a', a' == a -> fold_left (fun co r => if Qeqb (freq f (r_id r)) 0 then co else co + (m_co (r_mode r) + m_c1 (r_mode r) * freq k' (r_id r)) * freq f (r_id r) * freq ct' (r_id r)) rs a' ==
    fold_left (fun co r => if Qeqb (freq f (r_id r)) 0 then co else co + (m_co (r_mode r) + m_c1 (r_mode r) * freq k (r_id r)) * freq f (r_id r) * freq ct (r_id r)) rs a); [|apply G; reflexivity].
  induction rs as [|r rs IH]; intros a a' E; cbn [fold_left]; auto. apply IH; [intros; apply HC; now right|]. destruct (Qeqb _ 0); auto. rewrite E, (HK (r_id r)), (HC r (or_introl eq_refl)). reflexivity.
Qed.

(** So the total cost changes only by the prices given to the hours of the users: the hours, and what the vehicles
    and the infrastructure cost, are the same. *)
Theorem C82_cost : forall B fg o x c, new_optimizer B fg = Ok o -> NoDup (map r_id (pb_routes B)) -> VRC o x = Ok c ->
  exists f t u, fopt_to_f (o_pos o) x = Ok f /\ boardings o f = Ok t /\
    resources_consumer (pb_fuel B) (o_X o) (q_va (pb_pass B)) f (o_es o) (o_asg o) (t_z t) (t_v t) = Ok u /\
    forall P', behave_alike (pb_pass B) P' -> exists o' c', new_optimizer (with_pass B P') fg = Ok o' /\ VRC o' x = Ok c' /\
      let P := pb_pass B in
      c' - c == (q_spa P' - q_spa P) * u_ta u + (q_spw P' - q_spw P) * u_te u + (q_spv P' - q_spv P) * u_tv u + (q_spt P' * q_spv P' - q_spt P * q_spv P) / 60 * u_t u.
Proof.
  intros B fg o x c Ho ND HV. destruct (C58_objective _ _ _ _ _ Ho ND HV) as (f & t & ltt & cu & Ef & Et & El & Eu & Ec).
  unfold get_users_cost in Eu. apply bind_ok in Eu. destruct Eu as (u & Eu & Ecu). injection Ecu as <-.
  destruct (get_cycle_time (t_z t) (t_v t) (pb_routes B) ltt) as [[ct z] v] eqn:ECT. cbn [fst] in Ec.
  exists f, t, u. split; [exact Ef|]. split; [exact Et|]. split; [exact Eu|]. intros P' HP. destruct (C82_same_strategies _ _ _ _ Ho HP) as (o' & Ho' & _ & _ & Hp & HX & SC & SA & HB & _). destruct (HB f t Et) as (t' & Et' & TT & LT).
  destruct (new_optimizer_attrs _ _ _ Ho) as (Hb & _). destruct (new_optimizer_attrs _ _ _ Ho') as (Hb' & _).
  assert (DZ : eqtab (t_z t) (t_z t')) by (intros r d s; apply TT). assert (DV : eqtab (t_v t) (t_v t')) by (intros r d s; apply TT).
  destruct (users_eq _ _ _ (q_va (pb_pass B)) _ _ _ _ DZ DV _ _ _ _ _ SC SA Eu) as (u' & Eu' & RA & RE & RV & RT).
  destruct (gab_wf _ _ _ _ _ _ Et) as (W1 & W2 & _). destruct (gab_wf _ _ _ _ _ _ Et') as (W3 & W4 & _).
  destruct (get_cycle_time (t_z t') (t_v t') (pb_routes B) ltt) as [[ct' z'] v'] eqn:ECT'. destruct (cycle_same _ _ _ _ _ _ _ W3 W4 ND ECT') as [SZ SV].
  assert (VA : q_va P' = q_va (pb_pass B)) by apply HP.
  assert (DEF : exists c', VRC o' x = Ok c').
  { unfold VRC. rewrite Hp, Ef. cbn [bind]. rewrite Et'. cbn [bind]. rewrite Hb'. unfold operators_cost. change (pb_routes (with_pass B P')) with (pb_routes B). change (pb_graph (with_pass B P')) with (pb_graph B). cbn [with_pass pb_geo]. rewrite El. cbn [bind]. rewrite ECT'. cbn [bind]. unfold user_cost, get_users_cost. cbn [with_pass pb_fuel pb_pass]. rewrite (rc_tab _ _ _ _ _ _ _ _ _ _ SZ SV), HX, VA, Eu'. cbn [bind]. eauto. }
  destruct DEF as (c' & EC'). exists o', c'. split; [exact Ho'|]. split; [exact EC'|].
  destruct (C58_objective (with_pass B P') _ _ _ _ Ho' ND EC') as (f1 & t1 & ltt1 & cu1 & Ef1 & Et1 & El1 & Eu1 & Ec1). rewrite Hp, Ef in Ef1. injection Ef1 as <-. rewrite Et' in Et1. injection Et1 as <-. cbn [with_pass pb_geo pb_pass pb_fuel pb_net] in *. change (pb_routes (with_pass B P')) with (pb_routes B) in *. change (pb_graph (with_pass B P')) with (pb_graph B) in *. rewrite El in El1. injection El1 as <-. rewrite ECT' in Ec1. cbn [fst] in Ec1.
  unfold get_users_cost in Eu1. rewrite HX, VA, Eu' in Eu1. cbn [bind] in Eu1. injection Eu1 as <-. cbn zeta.
  pose proof (operators_alike (pb_routes B) f ct ct' (most_loaded_section (t_l t)) (most_loaded_section (t_l t')) (fun r Hr => cycle_alike _ _ _ _ _ _ _ _ _ _ _ _ DZ DV W1 W2 W3 W4 ND ECT ECT' r Hr) LT) as OC.
  rewrite Ec1, Ec, OC. unfold users_cost. rewrite RA, RE, RV, RT. field.
Qed.

(** Values of time in another unit (all three multiplied by the same number): nothing changes. *)
Definition in_units (k : Q) (P : qpass) : qpass := mkPass (q_va P) (k * q_pv P) (k * q_pw P) (k * q_pa P) (q_pt P) (q_spv P) (q_spw P) (q_spa P) (q_spt P).
Theorem C82_units : forall B fg o x c k, new_optimizer B fg = Ok o -> NoDup (map r_id (pb_routes B)) -> VRC o x = Ok c -> ~ q_pv (pb_pass B) == 0 -> ~ k == 0 ->
  exists o' c', new_optimizer (with_pass B (in_units k (pb_pass B))) fg = Ok o' /\ VRC o' x = Ok c' /\ c' == c.
Proof.
  intros B fg o x c k Ho ND HV N K. destruct (C82_cost _ _ _ _ _ Ho ND HV) as (f & t & u & _ & _ & _ & H).
  assert (A : behave_alike (pb_pass B) (in_units k (pb_pass B))).
  { split; [|split; reflexivity]. repeat split; cbn [in_units q_pv q_pw q_pa]; auto; [intro E; apply Qmult_integral in E; tauto|field; auto|field; auto]. }
  destruct (H _ A) as (o' & c' & Ho' & HV' & E). exists o', c'. split; [exact Ho'|]. split; [exact HV'|]. cbn [in_units q_spa q_spw q_spv q_spt] in E. set (cc := c' - c) in E. assert (Z : cc == 0) by (rewrite E; field). unfold cc in Z. lra.
Qed.

(** ** Example: 2.74, 5.48 and 8.22 per hour, or 1, 2 and 3 with other prices; and travellers for whom waiting
    weighs more, who do not behave alike *)
Definition ex_P123 : qpass := mkPass 4 1 2 3 16 2 5 7 3.
Definition ex_P143 : qpass := mkPass 4 1 4 3 16 2 5 7 3.
Definition ex_label (P : qpass) (n : enode) : option Q :=
  match new_optimizer (with_pass ex_B P) (Some ex_ff) with Ok o => match o_es o with e :: _ => hr_lab (od_res e) n | [] => None end | Err _ => None end.
Example C82_ex : exists o c c' u, new_optimizer ex_B (Some ex_ff) = Ok o /\ NoDup (map r_id (pb_routes ex_B)) /\ VRC o [10; 20] = Ok c /\
  ~ q_pv (pb_pass ex_B) == 0 /\ behave_alike (pb_pass ex_B) ex_P123 /\
  (exists f t, fopt_to_f (o_pos o) [10; 20] = Ok f /\ boardings o f = Ok t /\ resources_consumer (pb_fuel ex_B) (o_X o) (q_va (pb_pass ex_B)) f (o_es o) (o_asg o) (t_z t) (t_v t) = Ok u) /\
  0 < u_ta u /\ 0 < u_te u /\ 0 < u_tv u /\
  (exists o', new_optimizer (with_pass ex_B ex_P123) (Some ex_ff) = Ok o' /\ VRC o' [10; 20] = Ok c') /\ c < c' /\
  ~ same_rates (pb_pass ex_B) ex_P143 /\ oeq (ex_label ex_P123 (ES 0)) (ex_label (pb_pass ex_B) (ES 0)) /\ ~ oeq (ex_label ex_P143 (ES 0)) (ex_label (pb_pass ex_B) (ES 0)).
Proof.
  do 4 eexists. split; [vm_compute; reflexivity|]. split; [repeat constructor; cbn; intuition discriminate|]. split; [vm_compute; reflexivity|].
  split; [discriminate|]. split; [repeat split; vm_compute; discriminate || reflexivity|]. split; [do 2 eexists; do 2 (split; [vm_compute; reflexivity|]); vm_compute; reflexivity|].
  do 3 (split; [vm_compute; reflexivity|]). split; [eexists; split; vm_compute; reflexivity|]. split; [vm_compute; reflexivity|]. split; [intros (_ & _ & _ & W); vm_compute in W; discriminate|]. split; [vm_compute; reflexivity|vm_compute; discriminate].
Qed.

Print Assumptions C82_search.
Print Assumptions C82_same_strategies.
Print Assumptions C82_cost.
Print Assumptions C82_units.
