(** * HyperOpt: the labels are the minimal expected costs *)
From Coq Require Import String List ZArith QArith Bool Lia Lqa Permutation.
From Verif Require Import PyBase PyFacts Graph GraphProofs Mode Route ExtGraph ExtSpec Hyperpath HyperSpec HyperProofs.
Import ListNotations.
Local Open Scope Q_scope.

Definition ole (a b : option Q) : Prop := match a, b with _, None => True | None, Some _ => False | Some x, Some y => x <= y end.
Lemma olt_true a b : olt a b = true <-> exists x, a = Some x /\ match b with Some y => x < y | None => True end.
Proof.
  destruct a as [x|], b as [y|]; simpl; split; intro H; try discriminate; try (destruct H as (z & E & H); inversion E; subst); auto; try (eexists; split; eauto; fail).
  - apply Qltb_lt in H. eauto.
  - apply Qltb_lt. auto.
Qed.
Lemma olt_false a b : olt a b = false <-> ole b a.
Proof.
  destruct a as [x|], b as [y|]; simpl; split; intro H; try discriminate; auto; try contradiction.
  - apply Qltb_ge in H. auto.
  - apply Qltb_ge. auto.
Qed.
Lemma ole_refl a : ole a a. Proof. destruct a; simpl; auto. apply Qle_refl. Qed.
Lemma ole_trans a b c : ole a b -> ole b c -> ole a c.
Proof. destruct a, b, c; simpl; try tauto. apply Qle_trans. Qed.
Lemma omin_l a b : ole (omin a b) a.
Proof. unfold omin. destruct (olt b a) eqn:E; [|apply ole_refl]. apply olt_true in E. destruct E as (x & -> & H). destruct a; simpl; auto. lra. Qed.
Lemma omin_r a b : ole (omin a b) b.
Proof. unfold omin. destruct (olt b a) eqn:E; [apply ole_refl|]. apply olt_false in E. auto. Qed.
Lemma omin_case a b : omin a b = a \/ omin a b = b.
Proof. unfold omin. destruct (olt b a); auto. Qed.

Lemma Qsumf_perm {A} (f : A -> Q) l1 l2 : Permutation l1 l2 -> Qsumf f l1 == Qsumf f l2.
Proof.
  induction 1; unfold Qsumf in *; simpl; try lra.
Qed.
Lemma NoDup_incl_perm {A} (l : list A) : forall A0, NoDup l -> incl l A0 -> exists r, Permutation A0 (l ++ r).
Proof.
  induction l as [|a l IH]; intros A0 N I; [exists A0; auto|]. inversion N; subst. assert (Ha : In a A0) by (apply I; left; auto).
  apply in_split in Ha. destruct Ha as (p & s & ->). destruct (IH (p ++ s) H2) as [r Hr].
  - intros x Hx. assert (In x (p ++ a :: s)) by (apply I; right; auto). apply in_app_or in H. apply in_or_app. destruct H as [H|[H|H]]; auto. subst. contradiction.
  - exists r. rewrite <- Permutation_middle. simpl. constructor. auto.
Qed.
Lemma Qsumf_incl {A} (f : A -> Q) l A0 : NoDup l -> incl l A0 -> (forall x, In x A0 -> 0 <= f x) -> Qsumf f l <= Qsumf f A0.
Proof.
  intros N I H. destruct (NoDup_incl_perm l A0 N I) as [r Hr]. rewrite (Qsumf_perm f _ _ Hr), Qsumf_app.
  assert (0 <= Qsumf f r). { apply Qsumf_nonneg. intros x Hx. apply H. eapply Permutation_in; [symmetry; eauto|]. apply in_or_app; auto. }
  lra.
Qed.
Lemma xedge_dec (a b : xedge) : {a = b} + {a <> b}.
Proof.
  repeat decide equality.
Qed.

Lemma oenode_dec (a b : option enode) : {a = b} + {a <> b}.
Proof. repeat decide equality. Qed.

Section Opt.
Context (X : xgraph) (P : qpass) (o d : option enode).
Context (HG : hyper_graph X) (WG : weights X P).
Let N := xnodes X.
Let E := xg_edges X.
Notation leg := (leg_cost X P d).
Notation wait := (wait_cost X P).
Definition V (st : hstate) (e : xedge) : Q := match val st (x_j e) with Some v => v | None => 0 end.

Lemma stop_at_nth s : In (ES s) N -> exists st, nth_error (xg_stops X) s = Some st /\ stop_at (xg_stops X) s = st.
Proof. intro H. destruct (hg_stops X HG s H) as [st Hs]. exists st. split; auto. unfold stop_at. eapply nth_error_nth; eauto. Qed.
Lemma city_stop s : In (ES s) N -> onode_is d (EC (sn_city (stop_at (xg_stops X) s))) = stop_is_at X (ES s) d.
Proof.
  intro H. destruct (stop_at_nth s H) as (st & H1 & H2). rewrite H2. unfold stop_is_at. rewrite H1. destruct d as [[c|c|c]|]; simpl; auto.
Qed.
Lemma edge_time_leg e : In e E -> edge_time X P d e = Ok (leg e).
Proof.
  intro He. unfold edge_time, leg_cost. destruct (x_type e) eqn:T; simpl; auto.
  - apply qdiv_ok. pose proof (wg_pv X P WG). lra.
  - destruct (hg_alight X HG e He T) as [s Es]. rewrite Es. simpl. destruct (hg_ends X HG e He) as [_ Hj]. rewrite Es in Hj. rewrite (city_stop s Hj). auto.
Qed.
Lemma leg_nonneg e : In e E -> 0 <= leg e.
Proof.
  intro He. pose proof (hg_time X HG e He). pose proof (wg_pv X P WG). pose proof (wg_pa X P WG). unfold leg_cost. destruct (x_type e); auto.
  - unfold Qdiv. apply Qmult_le_0_compat; [apply Qmult_le_0_compat; auto|]. apply Qinv_le_0_compat. lra.
  - destruct (stop_is_at X (x_j e) d); auto. lra.
Qed.
Lemma board_leg e f : In e E -> x_f e = Some f -> x_type e = BOARDING /\ 0 <= f /\ leg e == 0 /\ x_t e == 0 /\ freq_of e = f.
Proof.
  intros He Hf. pose proof (hg_board X HG e He) as H. rewrite Hf in H. destruct H as (T & F & Z & _). unfold leg_cost, freq_of. rewrite T, Hf. auto.
Qed.
Lemma board_theta e f : In e E -> x_f e = Some f -> exists th, theta_of X (x_i e) = Ok th /\ 0 <= th /\ wait (x_i e) = th * q_pw P / q_pv P.
Proof.
  intros He Hf. pose proof (hg_board X HG e He) as H. rewrite Hf in H. destruct H as (_ & _ & _ & s & Es). destruct (hg_ends X HG e He) as [Hi _]. rewrite Es in *.
  destruct (stop_at_nth s Hi) as (st & H1 & H2). simpl. rewrite H2, H1. exists (m_theta (sn_mode st)). split; auto. split; auto. eapply (wg_theta X P WG); eauto.
Qed.
Lemma wait_nonneg e f : In e E -> x_f e = Some f -> 0 <= wait (x_i e).
Proof.
  intros He Hf. destruct (board_theta e f He Hf) as (th & _ & H & ->). pose proof (wg_pv X P WG). pose proof (wg_pw X P WG).
  apply Qle_shift_div_l; [auto|]. nra.
Qed.
Lemma tie e f : In e E -> x_f e = Some f -> 0 < wait (x_i e) \/ forall b, In b E -> x_type b = ROUTE -> 0 < x_t b.
Proof.
  intros He Hf. destruct (wg_tie X P WG) as [[H1 H2]|H]; auto. left.
  pose proof (hg_board X HG e He) as H. rewrite Hf in H. destruct H as (_ & _ & _ & s & Es). destruct (hg_ends X HG e He) as [Hi _]. rewrite Es in *.
  destruct (stop_at_nth s Hi) as (st & E1 & E2). simpl. rewrite E1. pose proof (wg_pv X P WG). specialize (H2 s st Hi E1). apply Qlt_shift_div_l; [auto|]. nra.
Qed.

(** what the search knows at a node after relaxing the edges in R *)
Record NIinf (st : hstate) (R : list xedge) (n : enode) : Prop := mkNIinf {
  ni_le : forall e, In e R -> x_i e = n -> x_f e = None -> ole (h_inf st n) (Some (leg e + V st e));
  ni_at : match h_inf st n with
          | None => h_sinf st n = None
          | Some q => exists e, h_sinf st n = Some e /\ In e R /\ x_i e = n /\ x_f e = None /\ q == leg e + V st e
          end
}.
Record NIlab (st : hstate) (R : list xedge) (n : enode) : Prop := mkNIlab {
  ni_suc : forall e, In e (h_suc st n) -> In e R /\ x_i e = n /\ (exists f, x_f e = Some f /\ 0 < f) /\ exists x, h_lab st n = Some x /\ V st e <= x /\ (0 < wait n -> V st e < x);
  ni_nodup : NoDup (h_suc st n);
  ni_frq : h_frq st n == Qsumf freq_of (h_suc st n);
  ni_lab : match h_lab st n with
           | None => True
           | Some x => h_suc st n <> [] /\ x * Qsumf freq_of (h_suc st n) == wait n + Qsumf (fun e => freq_of e * V st e) (h_suc st n)
           end;
  ni_board : forall e, In e R -> x_i e = n -> 0 < freq_of e -> In e (h_suc st n) \/ ole (h_lab st n) (Some (V st e))
}.
Lemma V_eq st st' e : val st' (x_j e) = val st (x_j e) -> V st' e = V st e.
Proof. unfold V. intros ->. auto. Qed.

Lemma inf_stable st st' R e n : NIinf st R n -> h_inf st' n = h_inf st n -> h_sinf st' n = h_sinf st n ->
  (forall b, In b R -> V st' b = V st b) -> (x_i e <> n \/ x_f e <> None \/ ole (h_inf st n) (Some (leg e + V st' e))) -> NIinf st' (R ++ [e]) n.
Proof.
  intros [A B] E1 E2 HV H. constructor.
  - intros b Hb Ei Ef. rewrite E1. apply in_app_or in Hb. destruct Hb as [Hb|[<-|[]]].
    + rewrite HV by auto. apply A; auto.
    + destruct H as [H|[H|H]]; try congruence; auto.
  - rewrite E1, E2. destruct (h_inf st n); auto. destruct B as (b & B1 & B2 & B3 & B4 & B5). exists b. split; auto. split; [apply in_or_app; auto|]. split; auto. split; auto. rewrite HV; auto.
Qed.
Lemma lab_stable st st' R e n : NIlab st R n -> h_lab st' n = h_lab st n -> h_suc st' n = h_suc st n -> h_frq st' n = h_frq st n ->
  (forall b, In b R -> V st' b = V st b) -> (x_i e <> n \/ ~ 0 < freq_of e \/ ole (h_lab st n) (Some (V st' e))) -> NIlab st' (R ++ [e]) n.
Proof.
  intros [A B C D F] E1 E2 E3 HV H. constructor; rewrite ?E1, ?E2, ?E3; auto.
  - intros b Hb. destruct (A b Hb) as (A1 & A2 & A3 & A4). split; [apply in_or_app; auto|]. split; auto. split; auto. rewrite HV; auto.
  - destruct (h_lab st n); auto. destruct D as [D1 D2]. split; auto. rewrite D2.
    assert (Qsumf (fun e => freq_of e * V st' e) (h_suc st n) == Qsumf (fun e => freq_of e * V st e) (h_suc st n)).
    { apply Qsumf_ext. intros b Hb. rewrite HV; [reflexivity|]. apply A; auto. }
    rewrite H0. reflexivity.
  - intros b Hb Ei Hf. apply in_app_or in Hb. destruct Hb as [Hb|[<-|[]]].
    + rewrite HV by auto. apply F; auto.
    + destruct H as [H|[H|H]]; try contradiction; auto.
Qed.
Lemma inf_new st st' R e n q : NIinf st R n -> n = x_i e -> x_f e = None -> h_inf st' n = Some q -> h_sinf st' n = Some e ->
  (forall b, In b R -> V st' b = V st b) -> q == leg e + V st' e -> ole (Some q) (h_inf st n) -> NIinf st' (R ++ [e]) n.
Proof.
  intros [A B] En Ef E1 E2 HV Hq L. constructor.
  - intros b Hb Ei Efb. rewrite E1. apply in_app_or in Hb. destruct Hb as [Hb|[<-|[]]].
    + rewrite HV by auto. eapply ole_trans; [exact L|]. apply A; auto.
    + simpl. lra.
  - rewrite E1. exists e. split; auto. split; [apply in_or_app; right; left; auto|]. auto.
Qed.
Lemma lab_new st st' R e n f x : NIlab st R n -> n = x_i e -> x_f e = Some f -> 0 < f -> ~ In e R ->
  h_lab st' n = Some x -> h_suc st' n = h_suc st n ++ [e] -> h_frq st' n = h_frq st n + f ->
  (forall b, In b R -> V st' b = V st b) -> V st' e <= x -> (0 < wait n -> V st' e < x) -> (forall b, In b (h_suc st n) -> V st b < x) -> ole (Some x) (h_lab st n) ->
  x * (Qsumf freq_of (h_suc st n) + f) == wait n + Qsumf (fun e => freq_of e * V st e) (h_suc st n) + f * V st' e ->
  NIlab st' (R ++ [e]) n.
Proof.
  intros [A B C D F] En Ef Hf Ne E1 E2 E3 HV Hx Hx' Hb L EQ. assert (FE : freq_of e = f) by (unfold freq_of; rewrite Ef; auto). constructor; rewrite ?E1, ?E2, ?E3.
  - intros b Hin. apply in_app_or in Hin. destruct Hin as [Hin|[<-|[]]].
    + destruct (A b Hin) as (A1 & A2 & A3 & A4). split; [apply in_or_app; auto|]. split; auto. split; auto. exists x. split; auto. rewrite HV by auto. split; [apply Qlt_le_weak|]; auto.
    + split; [apply in_or_app; right; left; auto|]. split; auto. split; [eauto|]. eauto.
  - apply NoDup_app; auto; [repeat constructor; auto|]. intros b H1 [<-|[]]. apply Ne. apply A; auto.
  - rewrite Qsumf_app, C. unfold Qsumf at 3. simpl. rewrite FE. lra.
  - split; [destruct (h_suc st n); discriminate|]. rewrite !Qsumf_app.
    assert (Qsumf (fun e => freq_of e * V st' e) (h_suc st n) == Qsumf (fun e => freq_of e * V st e) (h_suc st n)).
    { apply Qsumf_ext. intros b Hin. rewrite HV; [reflexivity|]. apply A; auto. }
    rewrite H. unfold Qsumf at 2 4. simpl. rewrite FE. lra.
  - intros b Hin Ei Hfb. apply in_app_or in Hin. destruct Hin as [Hin|[<-|[]]]; [|left; apply in_or_app; right; left; auto].
    rewrite HV by auto. destruct (F b Hin Ei Hfb) as [G|G]; [left; apply in_or_app; auto|right]. eapply ole_trans; eauto.
Qed.

Definition low (cur : Q) (a : option Q) : Prop := match a with None => True | Some v => cur <= v end.
Lemma low_omin cur a b : low cur (omin a b) <-> low cur a /\ low cur b.
Proof.
  pose proof (omin_l a b). pose proof (omin_r a b). pose proof (omin_case a b). split.
  - intro L. destruct (omin a b) as [v|]; destruct a, b; simpl in *; try tauto; try (split; auto; lra); destruct H1; congruence.
  - intros [L1 L2]. destruct H1 as [-> | ->]; auto.
Qed.
Record GI (st : hstate) (R : list xedge) (cur : Q) : Prop := mkGI {
  gi_R : forall e, In e R -> In e E /\ avoids o e /\ In (Some (x_j e)) (h_S st) /\ d <> Some (x_i e);
  gi_fin : forall n, In (Some n) (h_S st) -> In n N /\ exists v, val st n = Some v /\ v <= cur;
  gi_low : forall n, In n N -> ~ In (Some n) (h_S st) -> low cur (val st n);
  gi_inf : forall n, d <> Some n -> NIinf st R n;
  gi_lab : forall n, d <> Some n -> NIlab st R n;
  gi_d : forall n, d = Some n -> h_lab st n = Some 0 /\ h_inf st n = Some 0 /\ h_suc st n = [] /\ h_sinf st n = None;
  gi_R0 : forall n, d = Some n -> ~ In (Some n) (h_S st) -> R = []
}.
Lemma verify_noop st e : forall l, (forall b, In b l -> xedge_eqb b e = false -> In b E /\ (exists f, x_f b = Some f) /\ (exists v x, val st (x_j b) = Some v /\ h_lab st (x_i e) = Some x /\ v < x)) ->
  verify X P d e l st = Ok st.
Proof.
  induction l as [|b l IH]; intro H; cbn [verify]; auto. destruct (xedge_eqb b e) eqn:Ebe; [apply IH; intros; apply H; [right|]; auto|].
  destruct (H b (or_introl eq_refl) Ebe) as (Hb & (f & Hf) & v & x & Hv & Hx & L). destruct (board_leg b f Hb Hf) as (T & _ & _ & Z & _).
  unfold edge_b_time. rewrite T. simpl. rewrite Hv, Hx. simpl.
  assert (Q : Qltb (v + x_t b) x = true) by (apply Qltb_lt; lra). rewrite Q. simpl. apply IH. intros; apply H; [right|]; auto.
Qed.
Lemma none_before_d st R cur n : GI st R cur -> d = Some n -> ~ In (Some n) (h_S st) -> forall m, m <> n -> val st m = None.
Proof.
  intros G Ed Hn m Hm. pose proof (gi_R0 _ _ _ G n Ed Hn) as R0. subst R. assert (Hdm : d <> Some m) by congruence.
  pose proof (ni_at _ _ _ (gi_inf _ _ _ G m Hdm)) as A. pose proof (gi_lab _ _ _ G m Hdm) as B. unfold val, omin.
  destruct (h_inf st m) as [q|]; [destruct A as (e & _ & [] & _)|]. destruct (h_lab st m) as [x|] eqn:El; auto.
  pose proof (ni_lab _ _ _ B) as C. rewrite El in C. destruct C as [C _]. destruct (h_suc st m) as [|e l] eqn:Es; [congruence|].
  destruct (ni_suc _ _ _ B e) as [[] _]. rewrite Es. left; auto.
Qed.
Lemma relax_inv st R cur e : GI st R cur -> In e E -> avoids o e -> In (Some (x_j e)) (h_S st) -> ~ In (Some (x_i e)) (h_S st) ->
  val st (x_j e) = Some cur -> ~ In e R -> (forall x, h_lab st (x_i e) = Some x -> 0 < wait (x_i e) \/ cur < x) ->
  exists st', relax X P d st e = Ok st' /\ GI st' (R ++ [e]) cur /\ h_S st' = h_S st /\ (forall n, In (Some n) (h_S st) -> val st' n = val st n) /\
    (forall n, n <> x_i e -> h_lab st' n = h_lab st n /\ h_inf st' n = h_inf st n) /\
    match x_f e with None => h_lab st' (x_i e) = h_lab st (x_i e) /\ (h_inf st' (x_i e) = h_inf st (x_i e) \/ h_inf st' (x_i e) = Some (leg e + cur)) | Some _ => True end.
Proof.
  intros G He Ha Hj Hi Hv Ne TIE. set (i := x_i e) in *. set (j := x_j e) in *.
  assert (Hij : i <> j) by (intro C; rewrite C in Hi; contradiction).
  assert (Hdi : d <> Some i). { intro C. rewrite (none_before_d st R cur i G C Hi j) in Hv by auto. discriminate. }
  assert (Hin : In i N) by (apply (hg_ends X HG e He)).
  pose proof (gi_inf _ _ _ G i Hdi) as NI1. pose proof (gi_lab _ _ _ G i Hdi) as NI2.
  pose proof (gi_low _ _ _ G i Hin Hi) as LW. apply low_omin in LW. destruct LW as [LWl LWi].
  pose proof (leg_nonneg e He) as Lg.
  (* generic closing step: st' differs from st at i only *)
  assert (FIN : forall st', h_S st' = h_S st -> (forall n, n <> i -> h_lab st' n = h_lab st n /\ h_inf st' n = h_inf st n /\ h_suc st' n = h_suc st n /\ h_sinf st' n = h_sinf st n /\ h_frq st' n = h_frq st n) ->
     low cur (h_lab st' i) -> low cur (h_inf st' i) ->
     ((forall b, In b R -> V st' b = V st b) -> V st' e = cur -> NIinf st' (R ++ [e]) i /\ NIlab st' (R ++ [e]) i) ->
     (forall b, In b (h_suc st' i) -> xedge_eqb b e = false -> exists x, h_lab st' i = Some x /\ In b R /\ V st b < x) ->
     match x_f e with None => h_lab st' i = h_lab st i /\ (h_inf st' i = h_inf st i \/ h_inf st' i = Some (leg e + cur)) | Some _ => True end ->
     verify X P d e (h_suc st' i) st' = Ok st' /\ GI st' (R ++ [e]) cur /\ h_S st' = h_S st /\ (forall n, In (Some n) (h_S st) -> val st' n = val st n) /\
    (forall n, n <> i -> h_lab st' n = h_lab st n /\ h_inf st' n = h_inf st n) /\
    match x_f e with None => h_lab st' i = h_lab st i /\ (h_inf st' i = h_inf st i \/ h_inf st' i = Some (leg e + cur)) | Some _ => True end).
  { intros st' ES EO L1 L2 K STR LST.
    assert (VS : forall n, n <> i -> val st' n = val st n) by (intros n Hn; destruct (EO n Hn) as (E1 & E2 & _); unfold val; rewrite E1, E2; auto).
    assert (HV : forall b, In b R -> V st' b = V st b). { intros b Hb. apply V_eq, VS. destruct (gi_R _ _ _ G b Hb) as (_ & _ & Hs & _). intro C. rewrite C in Hs. contradiction. }
    assert (HVe : V st' e = cur). { unfold V. fold j. rewrite VS by auto. rewrite Hv. auto. }
    destruct (K HV HVe) as [K1 K2].
    assert (G' : GI st' (R ++ [e]) cur).
    { constructor.
      - intros b Hb. rewrite ES. apply in_app_or in Hb. destruct Hb as [Hb|[<-|[]]]; [apply G; auto|auto].
      - intros n Hn. rewrite ES in Hn. rewrite VS by (intro C; rewrite C in Hn; contradiction). apply G; auto.
      - intros n Hn Hs. rewrite ES in Hs. destruct (enode_dec n i) as [->|C]; [unfold val; apply low_omin; auto|]. rewrite VS by auto. apply G; auto.
      - intros n Hn. destruct (enode_dec n i) as [->|C]; auto. destruct (EO n C) as (E1 & E2 & E3 & E4 & E5). eapply inf_stable; eauto. apply (gi_inf _ _ _ G); auto.
      - intros n Hn. destruct (enode_dec n i) as [->|C]; auto. destruct (EO n C) as (E1 & E2 & E3 & E4 & E5). eapply lab_stable; eauto. apply (gi_lab _ _ _ G); auto.
      - intros n Hn. destruct (EO n) as (E1 & E2 & E3 & E4 & E5); [congruence|]. rewrite E1, E2, E3, E4. apply (gi_d _ _ _ G); auto.
      - intros n Hn Hs. exfalso. rewrite ES in Hs. destruct (enode_dec n j) as [->|C]; [contradiction|]. rewrite (none_before_d st R cur n G Hn Hs j) in Hv by auto. discriminate. }
    split; [|split; [auto|split; [auto|split; [|split; [|auto]]]]].
    - apply verify_noop. intros b Hb Nb. destruct (ni_suc _ _ _ K2 b Hb) as (B1 & B2 & (f & B3 & _) & _).
      destruct (gi_R _ _ _ G' b B1) as (C1 & _ & C3 & _). split; auto. split; [eauto|]. destruct (STR b Hb Nb) as (x & B4 & _ & B5).
      rewrite ES in C3. assert (Hb2 : x_j b <> i) by (intro C; rewrite C in C3; contradiction).
      destruct (gi_fin _ _ _ G (x_j b) C3) as (_ & v & C4 & _). unfold V in B5. rewrite C4 in B5. exists v, x. rewrite VS by auto. auto.
    - intros n Hn. apply VS. intro C. rewrite C in Hn. contradiction.
    - intros n Hn. destruct (EO n Hn) as (E1 & E2 & _). auto. }
  assert (VLE : forall b, In b R -> V st b <= cur).
  { intros b B1. destruct (gi_R _ _ _ G b B1) as (_ & _ & B2 & _). destruct (gi_fin _ _ _ G _ B2) as (_ & v & B3 & B4). unfold V. rewrite B3. auto. }
  assert (SAME : forall b, In b (h_suc st i) -> xedge_eqb b e = false -> exists x, h_lab st i = Some x /\ In b R /\ V st b < x).
  { intros b Hb _. destruct (ni_suc _ _ _ NI2 b Hb) as (B1 & _ & _ & x & B2 & B3 & B4). exists x. split; auto. split; auto. destruct (TIE x B2) as [T|T]; [auto|]. specialize (VLE b B1). lra. }
  unfold relax. rewrite (edge_time_leg e He). cbn [bind]. fold i j. rewrite Hv. cbn [oadd].
  destruct (x_f e) as [f|] eqn:Ef; try rewrite Ef in FIN.
  - (* boarding *)
    destruct (board_leg e f He Ef) as (T & F0 & LZ & _ & FE).
    assert (NOCH : (~ 0 < freq_of e \/ ole (h_lab st i) (Some cur)) -> exists st' : hstate, bind (Ok st) (fun st0 => verify X P d e (h_suc st0 i) st0) = Ok st' /\ GI st' (R ++ [e]) cur /\ h_S st' = h_S st /\ (forall n, In (Some n) (h_S st) -> val st' n = val st n) /\
    (forall n, n <> i -> h_lab st' n = h_lab st n /\ h_inf st' n = h_inf st n) /\
    True).
    { intro C. exists st. simpl. apply FIN; auto. intros HV HVe. split.
      - eapply inf_stable; eauto. right; left. rewrite Ef. discriminate.
      - eapply lab_stable; eauto. right. rewrite HVe. auto. }
    destruct (olt (Some (leg e + cur)) (h_lab st i)) eqn:OL.
    2: { apply olt_false in OL. apply NOCH. right. eapply ole_trans; [exact OL|]. simpl. lra. }
    destruct (board_theta e f He Ef) as (th & TH & THp & TW). fold i in TH, TW. rewrite TH. cbn [bind].
    destruct (Qeqb f 0) eqn:Fz.
    { apply Qeqb_eq in Fz. rewrite andb_false_r. cbn [negb]. apply NOCH. left. rewrite FE. lra. }
    apply Qeqb_neq in Fz. assert (Fp : 0 < f) by lra. cbn [negb]. rewrite andb_true_r.
    pose proof (wg_pv X P WG) as PV. assert (Wp : 0 <= wait i) by (apply (wait_nonneg e f He Ef)).
    destruct (h_lab st i) as [x0|] eqn:EL.
    + (* a strategy already exists *)
      rewrite andb_false_r. pose proof (ni_lab _ _ _ NI2) as EQ. rewrite EL in EQ. destruct EQ as [SN EQ].
      assert (FR : 0 < h_frq st i).
      { rewrite (ni_frq _ _ _ NI2). destruct (h_suc st i) as [|b l] eqn:Es; [congruence|]. rewrite Qsumf_cons.
        assert (0 < freq_of b). { destruct (ni_suc _ _ _ NI2 b) as (_ & _ & (fb & B1 & B2) & _); [rewrite Es; left; auto|]. unfold freq_of. rewrite B1. auto. }
        assert (0 <= Qsumf freq_of l). { apply Qsumf_nonneg. intros c Hc. destruct (ni_suc _ _ _ NI2 c) as (_ & _ & (fb & B1 & B2) & _); [rewrite Es; right; auto|]. unfold freq_of. rewrite B1. lra. }
        lra. }
      rewrite qdiv_ok by lra. cbn [bind]. set (x := (h_frq st i * x0 + f * (leg e + cur)) / (h_frq st i + f)).
      assert (EX : x * (h_frq st i + f) == h_frq st i * x0 + f * (leg e + cur)) by (unfold x; field; lra).
      apply olt_true in OL. destruct OL as (t & Et & OL). inversion Et; subst t. clear Et.
      assert (X1 : leg e + cur < x) by nra. assert (X2 : x < x0) by nra.
      eexists. apply FIN.
      * reflexivity.
      * intros n Hn. cbn. rewrite !upd_other by auto. auto.
      * cbn. rewrite upd_same. simpl. lra.
      * cbn. auto.
      * intros HV HVe. split.
        -- eapply inf_stable; eauto. right; left. rewrite Ef. discriminate.
        -- eapply (lab_new st _ R e i f x); eauto; cbn; rewrite ?upd_same; auto.
           ++ rewrite HVe. lra.
           ++ rewrite HVe. intros _. lra.
           ++ intros b Hb. destruct (ni_suc _ _ _ NI2 b Hb) as (B1 & _ & _). specialize (VLE b B1). lra.
           ++ rewrite EL. simpl. lra.
           ++ rewrite HVe. rewrite <- EQ. rewrite <- (ni_frq _ _ _ NI2). rewrite EX, LZ. ring.
      * cbn. rewrite !upd_same. intros b Hb Nb. exists x. split; auto. apply in_app_or in Hb. destruct Hb as [Hb|[<-|[]]].
        -- destruct (ni_suc _ _ _ NI2 b Hb) as (B1 & _ & _). specialize (VLE b B1). split; auto. lra.
        -- rewrite (proj2 (xedge_eqb_id e e) eq_refl) in Nb. discriminate.
      * auto.
    + (* first line at this stop *)
      assert (SN : h_suc st i = []). { destruct (h_suc st i) as [|b l] eqn:Es; auto. destruct (ni_suc _ _ _ NI2 b) as (_ & _ & _ & y & B & _); [rewrite Es; left; auto|congruence]. }
      assert (FR : h_frq st i == 0) by (rewrite (ni_frq _ _ _ NI2), SN; reflexivity).
      assert (Qeqb (h_frq st i) 0 = true) as -> by (apply Qeqb_eq; auto). cbn [andb].
      rewrite (qdiv_ok (th * q_pw P)) by lra. cbn [bind]. rewrite qdiv_ok by auto. cbn [bind]. rewrite <- TW.
      set (x := (wait i + f * (leg e + cur)) / f). assert (EX : x * f == wait i + f * (leg e + cur)) by (unfold x; field; auto).
      assert (X1 : leg e + cur <= x) by nra. assert (X2 : 0 < wait i -> leg e + cur < x) by (intro; nra).
      eexists. apply FIN.
      * reflexivity.
      * intros n Hn. cbn. rewrite !upd_other by auto. auto.
      * cbn. rewrite upd_same. simpl. lra.
      * cbn. auto.
      * intros HV HVe. split.
        -- eapply inf_stable; eauto. right; left. rewrite Ef. discriminate.
        -- eapply (lab_new st _ R e i f x); eauto; cbn; rewrite ?upd_same; auto.
           ++ rewrite HVe. lra.
           ++ rewrite HVe. intro W. specialize (X2 W). lra.
           ++ rewrite SN. intros b [].
           ++ rewrite EL. simpl. auto.
           ++ rewrite HVe, SN. unfold Qsumf. simpl. rewrite Qplus_0_l, EX, LZ. ring.
      * cbn. rewrite !upd_same, SN. intros b [<-|[]] Nb. rewrite (proj2 (xedge_eqb_id e e) eq_refl) in Nb. discriminate.
      * auto.
  - (* other edges *)
    cbn [bind]. destruct (olt (Some (leg e + cur)) (h_inf st i)) eqn:OL.
    + apply olt_true in OL. destruct OL as (t & Et & OL). inversion Et; subst t. clear Et.
      eexists. apply FIN.
      * reflexivity.
      * intros n Hn. cbn. rewrite !upd_other by auto. auto.
      * cbn. auto.
      * cbn. rewrite upd_same. simpl. lra.
      * intros HV HVe. split.
        -- eapply (inf_new st _ R e i (leg e + cur)); eauto; cbn; rewrite ?upd_same; auto.
           ++ rewrite HVe. reflexivity.
           ++ destruct (h_inf st i); simpl; auto. lra.
        -- eapply lab_stable; eauto. right; left. unfold freq_of. rewrite Ef. lra.
      * exact SAME.
      * cbn. rewrite upd_same. auto.
    + apply olt_false in OL. exists st. apply FIN; auto. intros HV HVe. split.
      * eapply inf_stable; eauto. right; right. rewrite HVe. auto.
      * eapply lab_stable; eauto. right; left. unfold freq_of. rewrite Ef. lra.
Qed.
Lemma relax_list l : forall st R cur, GI st R cur -> (forall e, In e l -> In e E /\ avoids o e /\ In (Some (x_j e)) (h_S st) /\ ~ In (Some (x_i e)) (h_S st) /\ val st (x_j e) = Some cur /\ ~ In e R /\
     forall x, h_lab st (x_i e) = Some x -> 0 < wait (x_i e) \/ cur < x) -> NoDup (map x_i l) ->
  exists st', foldM (relax X P d) l st = Ok st' /\ GI st' (R ++ l) cur /\ h_S st' = h_S st /\ (forall n, In (Some n) (h_S st) -> val st' n = val st n) /\
    (forall n, ~ In n (map x_i l) -> h_lab st' n = h_lab st n /\ h_inf st' n = h_inf st n) /\
    (forall e, In e l -> x_f e = None -> h_lab st' (x_i e) = h_lab st (x_i e) /\ (h_inf st' (x_i e) = h_inf st (x_i e) \/ h_inf st' (x_i e) = Some (leg e + cur))).
Proof.
  induction l as [|e l IH]; intros st R cur G H ND; cbn [foldM].
  - exists st. rewrite app_nil_r. split; [auto|]. split; [auto|]. split; [auto|]. split; [auto|]. split; [auto|]. intros e [].
  - inversion ND as [|? ? ND1 ND2]; subst. destruct (H e (or_introl eq_refl)) as (H1' & H2' & H3' & H4' & H5' & H6' & H7').
    destruct (relax_inv st R cur e G H1' H2' H3' H4' H5' H6' H7') as (st1 & E1 & G1 & S1 & V1 & O1 & I1). rewrite E1. cbn [bind].
    assert (OT : forall b, In b l -> x_i b <> x_i e) by (intros b Hb C; apply ND1; rewrite <- C; apply in_map; auto).
    destruct (IH st1 (R ++ [e]) cur G1) as (st' & E2 & G2 & S2 & V2 & O2 & I2); auto.
    + intros b Hb. rewrite S1. destruct (H b (or_intror Hb)) as (B1 & B2 & B3 & B4 & B5 & B6 & B7). split; auto. split; auto. split; auto. split; auto. split; [rewrite V1; auto|]. split.
      * intro C. apply in_app_or in C. destruct C as [C|[C|[]]]; [auto|subst]. apply (OT b Hb). auto.
      * destruct (O1 (x_i b) (OT b Hb)) as [-> _]. auto.
    + exists st'. split; auto. rewrite <- app_assoc in G2. split; auto. split; [congruence|]. split; [|split].
      * intros n Hn. rewrite V2, V1; auto. rewrite S1. auto.
      * intros n Hn. cbn [map In] in Hn. destruct (O2 n) as [A B]; [tauto|]. destruct (O1 n) as [A' B']; [intro C; subst; tauto|]. rewrite A, B. auto.
      * intros b [<-|Hb] Hf.
        -- destruct (O2 (x_i e) ND1) as [A B]. rewrite A, B. rewrite Hf in I1. auto.
        -- destruct (I2 b Hb Hf) as [A B]. destruct (O1 (x_i b) (OT b Hb)) as [A' B']. rewrite A, A'. split; auto. rewrite B' in B. auto.
Qed.

Definition above (cur : Q) (a : option Q) : Prop := match a with None => True | Some v => cur < v end.
Lemma above_omin cur a b : above cur (omin a b) <-> above cur a /\ above cur b.
Proof.
  pose proof (omin_l a b). pose proof (omin_r a b). pose proof (omin_case a b). split.
  - intro L. destruct (omin a b) as [v|]; destruct a, b; simpl in *; try tauto; try (split; auto; lra); destruct H1; congruence.
  - intros [L1 L2]. destruct H1 as [-> | ->]; auto.
Qed.
Lemma above_low cur a : above cur a -> low cur a.
Proof. destruct a; simpl; auto. lra. Qed.
Definition unset (st : hstate) (n : enode) : Prop := ~ In (Some n) (h_S st).
Lemma choose_spec st l : match choose l st with
  | None => forall n, In n l -> unset st n -> val st n = None
  | Some j => unset st j /\ exists v l1 l2, val st j = Some v /\ l = l1 ++ j :: l2 /\ (forall n, In n l1 -> unset st n -> above v (val st n)) /\ (forall n, In n l2 -> unset st n -> low v (val st n))
  end.
Proof.
  unfold choose. set (f := fun '(best, mn) n => _).
  assert (K : forall l, let '(best, mn) := fold_left f l (None, None) in match best with
     | None => mn = None /\ forall n, In n l -> unset st n -> val st n = None
     | Some j => mn = val st j /\ unset st j /\ exists v l1 l2, val st j = Some v /\ l = l1 ++ j :: l2 /\ (forall n, In n l1 -> unset st n -> above v (val st n)) /\ (forall n, In n l2 -> unset st n -> low v (val st n)) end).
  { clear l. induction l as [|n l IH] using rev_ind; [simpl; split; auto; intros n []|]. rewrite fold_left_app. cbn [fold_left].
    destruct (fold_left f l (None, None)) as [best mn]. unfold f.
    assert (NEXT : forall j, best = Some j -> (unset st n -> low (match val st j with Some v => v | None => 0 end) (val st n)) ->
       mn = val st j /\ unset st j /\ exists v l1 l2, val st j = Some v /\ l ++ [n] = l1 ++ j :: l2 /\ (forall n, In n l1 -> unset st n -> above v (val st n)) /\ (forall n, In n l2 -> unset st n -> low v (val st n))).
    { intros j -> Hn. destruct IH as (I1 & I2 & v & l1 & l2 & I3 & I4 & I5 & I6). split; auto. split; auto. exists v, l1, (l2 ++ [n]). split; auto. split; [rewrite I4, <- app_assoc; auto|]. split; auto.
      intros m Hm Hs. apply in_app_or in Hm. destruct Hm as [Hm|[->|[]]]; auto. rewrite I3 in Hn. auto. }
    destruct (settled (h_S st) n) eqn:Es.
    - apply settled_In in Es. destruct best as [j|]; [apply NEXT; auto; intro C; contradiction|].
      destruct IH as (I1 & I2). split; auto. intros m Hm Hs. apply in_app_or in Hm. destruct Hm as [Hm|[->|[]]]; auto. contradiction.
    - apply settled_nIn in Es. destruct (olt (val st n) mn) eqn:O.
      + apply olt_true in O. destruct O as (x & Ev & O). split; auto. split; auto. exists x, l, []. split; auto. split; auto. split; [|intros m []].
        intros m Hm Hs. destruct best as [j|].
        * destruct IH as (I1 & I2 & v & l1 & l2 & I3 & I4 & I5 & I6). rewrite I1, I3 in O. rewrite I4 in Hm. apply in_app_or in Hm. destruct Hm as [Hm|[<-|Hm]].
          -- specialize (I5 m Hm Hs). destruct (val st m); simpl in *; auto. lra.
          -- rewrite I3. simpl. auto.
          -- specialize (I6 m Hm Hs). destruct (val st m); simpl in *; auto. lra.
        * destruct IH as (I1 & I2). rewrite (I2 m Hm Hs). simpl. auto.
      + apply olt_false in O. destruct best as [j|].
        * apply NEXT; auto. intros _. destruct IH as (I1 & I2 & v & l1 & l2 & I3 & _). rewrite I1, I3 in O. rewrite I3. destruct (val st n); simpl in *; auto.
        * destruct IH as (I1 & I2). split; auto. intros m Hm Hs. apply in_app_or in Hm. destruct Hm as [Hm|[->|[]]]; auto. rewrite I1 in O. destruct (val st m); simpl in *; auto; contradiction. }
  specialize (K l). destruct (fold_left f l (None, None)) as [best mn]. simpl. destruct best; tauto.
Qed.
Lemma choose_first st v l1 j l2 : unset st j -> val st j = Some v -> (forall n, In n l1 -> unset st n -> above v (val st n)) -> (forall n, In n l2 -> unset st n -> low v (val st n)) ->
  choose (l1 ++ j :: l2) st = Some j.
Proof.
  intros Hj Hv H1 H2. unfold choose. set (f := fun '(best, mn) n => _). rewrite fold_left_app. cbn [fold_left].
  assert (A : forall l b m, above v m -> (forall n, In n l -> unset st n -> above v (val st n)) -> above v (snd (fold_left f l (b, m)))).
  { induction l as [|n l IH]; intros b m Hm H; simpl; auto. destruct (settled (h_S st) n) eqn:Es; [apply IH; auto; intros; apply H; [right|]; auto|].
    destruct (olt (val st n) m); apply IH; auto; try (intros; apply H; [right|]; auto; fail). apply H; [left; auto|]. apply settled_nIn. auto. }
  specialize (A l1 None None I H1). destruct (fold_left f l1 (None, None)) as [b m]. cbn [snd] in A.
  assert (E1 : f (b, m) j = (Some j, Some v)). { unfold f. apply settled_nIn in Hj. rewrite Hj, Hv. assert (olt (Some v) m = true) as -> by (apply olt_true; exists v; split; auto). auto. }
  rewrite E1. clear E1 A H1. induction l2 as [|n l IH]; auto. cbn [fold_left]. assert (E2 : f (Some j, Some v) n = (Some j, Some v)).
  { unfold f. destruct (settled (h_S st) n) eqn:Es; auto. apply settled_nIn in Es. specialize (H2 n (or_introl eq_refl) Es). assert (olt (val st n) (Some v) = false) as ->; auto. apply olt_false. destruct (val st n); simpl in *; auto. }
  rewrite E2. apply IH. intros; apply H2; [right|]; auto.
Qed.

Definition somes (S : list (option enode)) : list enode := flat_map (fun x => match x with Some n => [n] | None => [] end) S.
Lemma somes_In S n : In n (somes S) <-> In (Some n) S.
Proof.
  unfold somes. rewrite in_flat_map. split.
  - intros ([m|] & H & Hm); [|contradiction]. destruct Hm as [->|[]]. auto.
  - intro H. exists (Some n). simpl. auto.
Qed.
Record Inv (st : hstate) (R : list xedge) (cur : Q) : Prop := mkInv {
  inv_gi : GI st R cur;
  inv_comp : forall e, In e E -> avoids o e -> In (Some (x_j e)) (h_S st) ->
     In e R \/ (In (Some (x_i e)) (h_S st) /\ forall v w, val st (x_i e) = Some v -> val st (x_j e) = Some w -> v <= w);
  inv_none : In None (h_S st) -> forall n, In n N -> ~ In (Some n) (h_S st) -> val st n = None;
  inv_nodup : NoDup (somes (h_S st));
  inv_tie : forall n x, In n N -> unset st n -> d <> Some n -> h_lab st n = Some x -> 0 < wait n \/ choose N st = Some n
}.
Lemma NoDup_map_filter {A B} (f : A -> B) p l : NoDup (map f l) -> NoDup (map f (filter p l)).
Proof.
  induction l as [|x l IH]; simpl; auto. intro H. inversion H; subst. destruct (p x); simpl; auto. constructor; auto. intro C. apply H2. apply in_map_iff in C. destruct C as (y & E1 & Hy). apply filter_In in Hy. rewrite <- E1. apply in_map. tauto.
Qed.
Lemma split_unique {A} (j : A) : forall l1 l2 a b, NoDup (l1 ++ j :: l2) -> l1 ++ j :: l2 = a ++ j :: b -> l1 = a.
Proof.
  induction l1 as [|x l1 IH]; intros l2 a b ND Eq; destruct a as [|y a]; simpl in *; auto.
  - inversion Eq; subst. inversion ND; subst. exfalso. apply H1. apply in_or_app. right; left; auto.
  - inversion Eq; subst. inversion ND; subst. exfalso. apply H1. apply in_or_app. right; left; auto.
  - inversion Eq; subst. f_equal. inversion ND; subst. eapply IH; eauto.
Qed.
Lemma step_inv st R cur : Inv st R cur -> exists st' R' cur', h_step X P o d st = Ok st' /\ Inv st' R' cur'.
Proof.
  intros [G C1 C2 C3 C4]. unfold h_step. cbv zeta. pose proof (choose_spec st N) as CH. change (tree_nodes (xg_nodes X)) with N.
  set (j := choose N st) in *. set (st1 := mkH _ _ _ _ _ _).
  destruct j as [j|].
  - destruct CH as (Hj2 & v & l1 & l2 & Hv & EN & CH1 & CH2).
    assert (Hj1 : In j N) by (rewrite EN; apply in_or_app; right; left; auto).
    assert (Hmin : forall n, In n N -> ~ In (Some n) (h_S st) -> low v (val st n)).
    { intros n Hn Hs. rewrite EN in Hn. apply in_app_or in Hn. destruct Hn as [Hn|[<-|Hn]]; [apply above_low; auto|rewrite Hv; simpl; lra|auto]. }
    assert (Hc : forall m w, In (Some m) (h_S st) -> val st m = Some w -> w <= v).
    { intros m w Hm Ew. destruct (gi_fin _ _ _ G m Hm) as (_ & w' & Ew' & L). pose proof (gi_low _ _ _ G j Hj1 Hj2) as LW. rewrite Hv in LW. simpl in LW. rewrite Ew in Ew'. inversion Ew'; subst. lra. }
    assert (In1 : forall n, In (Some n) (h_S st1) <-> In (Some n) (h_S st) \/ n = j).
    { intro n. cbn. rewrite in_app_iff. simpl. split; intros [H|H]; auto; [destruct H as [H|[]]; inversion H; auto|subst; auto]. }
    assert (G1 : GI st1 R v).
    { constructor.
      - intros e He. destruct (gi_R _ _ _ G e He) as (A1 & A2 & A3 & A4). split; auto. split; auto. split; auto. apply In1. auto.
      - intros n Hn. apply In1 in Hn. destruct Hn as [Hn| ->].
        + destruct (gi_fin _ _ _ G n Hn) as (A1 & w & A2 & _). split; auto. exists w. split; auto. apply (Hc n); auto.
        + split; auto. exists v. split; [exact Hv|lra].
      - intros n Hn Hs. apply Hmin; auto. intro C. apply Hs, In1. auto.
      - intros n Hn. destruct (gi_inf _ _ _ G n Hn) as [A B]. constructor; auto.
      - intros n Hn. destruct (gi_lab _ _ _ G n Hn) as [A B C D F]. constructor; auto.
      - intros n Hn. apply (gi_d _ _ _ G n Hn).
      - intros n Hn Hs. apply (gi_R0 _ _ _ G n Hn). intro C. apply Hs, In1. auto. }
    assert (OLD : forall n x, In n N -> ~ In (Some n) (h_S st1) -> d <> Some n -> h_lab st n = Some x -> 0 < wait n).
    { intros n x Hn Hs Hdn El. destruct (C4 n x Hn) as [W|W]; auto; [intro C; apply Hs, In1; auto|]. exfalso. inversion W. apply Hs, In1. auto. }
    set (l := edges_into (xg_edges X) o (h_S st1) (Some j)).
    assert (LIN : forall e, In e l -> In e E /\ avoids o e /\ ~ In (Some (x_i e)) (h_S st1) /\ x_j e = j /\ In (x_i e) N /\ d <> Some (x_i e)).
    { intros e He. apply edges_into_In in He. destruct He as (A1 & A2 & A3 & A4). inversion A4 as [A5]. split; auto. split; auto. split; auto. split; auto. split; [apply (hg_ends X HG e A1)|].
      intro C. assert (U : ~ In (Some (x_i e)) (h_S st)) by (intro U; apply A3, In1; auto). rewrite (none_before_d st R cur (x_i e) G C U j) in Hv; [discriminate|]. intro Q. apply A3, In1. auto. }
    destruct (relax_list l st1 R v G1) as (st' & E2 & G2 & S2 & V2 & O2 & I2).
    + intros e He. destruct (LIN e He) as (A1 & A2 & A3 & A5 & A6 & A7). rewrite A5.
      split; auto. split; auto. split; [apply In1; auto|]. split; auto. split; [exact Hv|]. split.
      * intro C. destruct (gi_R _ _ _ G e C) as (_ & _ & B & _). rewrite A5 in B. contradiction.
      * intros x El. left. apply (OLD (x_i e) x); auto.
    + assert (K : NoDup (map (fun e => (x_i e, x_j e)) l)) by (apply NoDup_map_filter, (hg_pairs X HG)).
      assert (K2 : map (fun e => (x_i e, x_j e)) l = map (fun n => (n, j)) (map x_i l)). { rewrite map_map. apply map_ext_in. intros e He. f_equal. apply LIN; auto. }
      rewrite K2 in K. apply NoDup_map_inv in K. auto.
    + exists st', (R ++ l), v. split; [exact E2|]. constructor; auto; try rewrite S2.
      * intros e He Ha Hs. apply In1 in Hs. destruct Hs as [Hs|Ej].
        -- destruct (C1 e He Ha Hs) as [B|[B1 B2]]; [left; apply in_or_app; auto|]. right. split; [apply In1; auto|].
           intros a b. rewrite !V2 by (apply In1; auto). apply B2.
        -- destruct (in_dec oenode_dec (Some (x_i e)) (h_S st1)) as [B|B].
           ++ right. split; auto. intros a b Ea Eb. rewrite V2 in Eb by (apply In1; auto). rewrite V2 in Ea by auto. rewrite Ej in Eb. change (val st1 j) with (val st j) in Eb. rewrite Hv in Eb. inversion Eb; subst b.
              destruct (gi_fin _ _ _ G1 _ B) as (_ & w & B1 & B2). rewrite Ea in B1. inversion B1; subst. auto.
           ++ left. apply in_or_app. right. apply edges_into_In. split; auto. split; auto. split; auto. congruence.
      * intros Hnone n Hn Hs. exfalso. cbn in Hnone. apply in_app_or in Hnone. destruct Hnone as [Hnone|[C|[]]]; [|discriminate].
        rewrite (C2 Hnone j Hj1 Hj2) in Hv. discriminate.
      * unfold somes. cbn. rewrite flat_map_app. apply NoDup_app; auto; [repeat constructor; auto|]. intros n A [B|[]]. subst. apply somes_In in A. contradiction.
      * intros n x Hn Hs Hdn El. unfold unset in Hs. rewrite S2 in Hs.
        destruct (in_dec enode_dec n (map x_i l)) as [Hin|Hin].
        2: { destruct (O2 n Hin) as [A _]. rewrite A in El. left. apply (OLD n x); auto. }
        apply in_map_iff in Hin. destruct Hin as (e & Ei & He). destruct (LIN e He) as (A1 & A2 & A3 & A5 & A6 & A7).
        destruct (x_f e) as [f|] eqn:Ef.
        2: { destruct (I2 e He Ef) as [A _]. rewrite Ei in A. rewrite A in El. left. apply (OLD n x); auto. }
        destruct (Qlt_le_dec 0 (wait n)) as [W|W]; auto. right.
        destruct (tie e f A1 Ef) as [W'|POS]; [rewrite Ei in W'; lra|].
        destruct (board_leg e f A1 Ef) as (T & _). destruct (hg_order X HG e A1 T) as (a1 & a2 & a3 & EN2). destruct (proj1 (hg_into X HG e A1) T) as [k Ek].
        assert (X1 : x <= v).
        { pose proof (gi_lab _ _ _ G2 n Hdn) as NL. pose proof (ni_lab _ _ _ NL) as EQ. rewrite El in EQ. destruct EQ as [SN EQ].
          assert (FP : forall b, In b (h_suc st' n) -> 0 < freq_of b /\ V st' b <= v).
          { intros b Hb. destruct (ni_suc _ _ _ NL b Hb) as (B1 & _ & (fb & B2 & B3) & _). split; [unfold freq_of; rewrite B2; auto|]. destruct (gi_R _ _ _ G2 b B1) as (_ & _ & B4 & _). destruct (gi_fin _ _ _ G2 _ B4) as (_ & w & B5 & B6). unfold V. rewrite B5. auto. }
          assert (F0 : 0 < Qsumf freq_of (h_suc st' n) /\ Qsumf (fun e => freq_of e * V st' e) (h_suc st' n) <= v * Qsumf freq_of (h_suc st' n)).
          { clear - FP SN. destruct (h_suc st' n) as [|b0 l0]; [congruence|]. clear SN. revert b0 FP. induction l0 as [|b1 l0 IH]; intros b0 FP.
            - destruct (FP b0 (or_introl eq_refl)). unfold Qsumf. simpl. split; [lra|nra].
            - destruct (FP b0 (or_introl eq_refl)). destruct (IH b1) as [J1 J2]; [intros; apply FP; right; auto|]. rewrite (Qsumf_cons freq_of b0), (Qsumf_cons (fun e => freq_of e * V st' e) b0). split; [lra|nra]. }
          destruct F0. nra. }
        assert (VN : exists y, val st' n = Some y /\ y <= v).
        { pose proof (omin_l (h_lab st' n) (h_inf st' n)) as LE. fold (val st' n) in LE. rewrite El in LE. destruct (val st' n) as [y|]; [|contradiction]. exists y. split; auto. simpl in LE. lra. }
        destruct VN as (y & Ey & Ly).
        assert (Us : unset st' n) by (unfold unset; rewrite S2; auto).
        assert (Lv : v <= y). { pose proof (gi_low _ _ _ G2 n Hn Us) as LW. rewrite Ey in LW. exact LW. }
        assert (EL1 : l1 = a1 ++ n :: a2).
        { apply (split_unique j l1 l2 (a1 ++ n :: a2) a3); [rewrite <- EN; apply (hg_nodes X HG)|]. rewrite <- EN. rewrite <- app_assoc. simpl. rewrite <- Ei, <- A5. exact EN2. }
        assert (EN3 : N = a1 ++ n :: (a2 ++ j :: a3)) by (rewrite <- Ei, <- A5; exact EN2).
        assert (GOAL : choose (a1 ++ n :: (a2 ++ j :: a3)) st' = Some n); [|rewrite EN3; exact GOAL]. apply (choose_first st' y); auto.
        -- intros m Hm Hms. assert (Hm1 : In m l1) by (rewrite EL1; apply in_or_app; auto). assert (Hms' : unset st m) by (intro C; apply Hms; rewrite S2; apply In1; auto).
           assert (AB : above v (val st m)) by (apply CH1; auto).
           assert (AB' : above v (val st' m)).
           { destruct (in_dec enode_dec m (map x_i l)) as [Hin|Hin].
             - apply in_map_iff in Hin. destruct Hin as (e' & Ei' & He'). destruct (LIN e' He') as (B1 & _ & _ & B5 & _).
               assert (EJ : exists k', x_j e' = ER k') by (exists k; congruence).
               destruct (proj2 (hg_into X HG e' B1) EJ) as [T'|T'].
               + exfalso. assert (HM : m = n). { rewrite <- Ei, <- Ei'. apply (hg_board_into X HG e' e k); auto. congruence. }
                 assert (ND : NoDup N) by apply (hg_nodes X HG). rewrite EN3 in ND. apply NoDup_remove_2 in ND. apply ND. apply in_or_app. left. rewrite <- HM. exact Hm.
               + assert (Ef' : x_f e' = None). { pose proof (hg_board X HG e' B1) as HB. destruct (x_f e'); auto. destruct HB as [HB _]. congruence. }
                 destruct (I2 e' He' Ef') as [J1 J2]. rewrite Ei' in *. unfold val in *. apply above_omin in AB. destruct AB as [AB1 AB2]. apply above_omin. rewrite J1. split; auto.
                 destruct J2 as [-> | ->]; auto. simpl. unfold leg_cost. rewrite T'. specialize (POS e' B1 T'). lra.
             - destruct (O2 m Hin) as [J1 J2]. unfold val in *. rewrite J1, J2. auto. }
           destruct (val st' m); simpl in *; auto. lra.
        -- intros m Hm Hms. assert (LW : low v (val st' m)). { apply (gi_low _ _ _ G2 m); auto. rewrite EN3. apply in_or_app. right; right; auto. } destruct (val st' m); simpl in *; auto. lra.
  - assert (E0 : edges_into (xg_edges X) o (h_S st1) None = []).
    { destruct (edges_into (xg_edges X) o (h_S st1) None) as [|e l] eqn:C; auto. assert (In e (edges_into (xg_edges X) o (h_S st1) None)) by (rewrite C; left; auto). apply edges_into_In in H. destruct H as (_ & _ & _ & H). discriminate. }
    rewrite E0. cbn [foldM]. assert (In1 : forall n, In (Some n) (h_S st1) <-> In (Some n) (h_S st)).
    { intro n. cbn. rewrite in_app_iff. simpl. split; intros; auto. destruct H as [H|[H|[]]]; auto. discriminate. }
    exists st1, R, cur. split; auto. constructor.
    + constructor.
      * intros e He. destruct (gi_R _ _ _ G e He) as (A1 & A2 & A3 & A4). split; auto. split; auto. split; auto. apply In1. auto.
      * intros n Hn. apply In1 in Hn. apply (gi_fin _ _ _ G n Hn).
      * intros n Hn Hs. apply (gi_low _ _ _ G); auto. intro C. apply Hs, In1. auto.
      * intros n Hn. destruct (gi_inf _ _ _ G n Hn) as [A B]. constructor; auto.
      * intros n Hn. destruct (gi_lab _ _ _ G n Hn) as [A B C D F]. constructor; auto.
      * intros n Hn. apply (gi_d _ _ _ G n Hn).
      * intros n Hn Hs. apply (gi_R0 _ _ _ G n Hn). intro C. apply Hs, In1. auto.
    + intros e He Ha Hs. apply In1 in Hs. destruct (C1 e He Ha Hs) as [B|[B1 B2]]; auto. right. split; auto. apply In1. auto.
    + intros _ n Hn Hs. apply CH; auto. intro C. apply Hs, In1. auto.
    + unfold somes. cbn. rewrite flat_map_app. cbn. rewrite app_nil_r. auto.
    + intros n x Hn Hs Hdn El. destruct (C4 n x Hn) as [W|W]; auto; [intro C; apply Hs, In1; auto|discriminate].
Qed.
Lemma init_inv : Inv (h_init d) [] 0.
Proof.
  constructor.
  - constructor; cbn; try contradiction.
    + intros n Hn _. unfold val. cbn. destruct (onode_is d n); simpl; lra.
    + intros n Hn. constructor; cbn; [intros e []|]. destruct (onode_is d n) eqn:C; auto. apply onode_is_eq in C. contradiction.
    + intros n Hn. constructor; cbn.
      * intros e [].
      * constructor.
      * reflexivity.
      * destruct (onode_is d n) eqn:C; auto. apply onode_is_eq in C. contradiction.
      * intros e [].
    + intros n Hn. apply onode_is_eq in Hn. rewrite Hn. auto.
    + auto.
  - cbn. intros e _ _ [].
  - cbn. intros [].
  - constructor.
  - cbn. intros n x _ _ Hn El. destruct (onode_is d n) eqn:C; [|discriminate]. apply onode_is_eq in C. contradiction.
Qed.
Lemma loop_inv : forall fuel st R cur, Inv st R cur -> no_nt (h_loop fuel X P o d st) -> exists st' R' cur', h_loop fuel X P o d st = Ok st' /\ Inv st' R' cur' /\ length (h_S st') = length N.
Proof.
  induction fuel as [|k IH]; intros st R cur I NT; cbn [h_loop] in *; destruct (Nat.eqb (length (h_S st)) (length (tree_nodes (xg_nodes X)))) eqn:Eq.
  - apply Nat.eqb_eq in Eq. exists st, R, cur. auto.
  - exfalso. apply NT. auto.
  - apply Nat.eqb_eq in Eq. exists st, R, cur. auto.
  - destruct (step_inv st R cur I) as (st1 & R1 & c1 & E1 & I1). rewrite E1 in *. cbn [bind] in *. apply (IH st1 R1 c1 I1 NT).
Qed.
Lemma final st R cur : Inv st R cur -> length (h_S st) = length N -> forall n, In n N -> (In (Some n) (h_S st)) \/ val st n = None.
Proof.
  intros I L n Hn. destruct (in_dec oenode_dec None (h_S st)) as [B|B].
  - destruct (in_dec oenode_dec (Some n) (h_S st)) as [C|C]; auto. right. apply (inv_none _ _ _ I B); auto.
  - left. apply somes_In. assert (LS : length (somes (h_S st)) = length (h_S st)).
    { clear - B. induction (h_S st) as [|x S IH]; auto. destruct x; simpl; [|exfalso; apply B; left; auto]. rewrite IH; auto. intro C. apply B; right; auto. }
    refine (NoDup_length_incl (l' := N) (inv_nodup _ _ _ I) _ _ n Hn); [rewrite LS, L; lia|]. intros m Hm. apply somes_In in Hm. apply (gi_fin _ _ _ (inv_gi _ _ _ I) m Hm).
Qed.

(** no strategy is cheaper than the value found *)
Lemma optimal st R cur : Inv st R cur -> length (h_S st) = length N -> forall n q, strategy_cost X P o d n q -> exists v, val st n = Some v /\ v <= q.
Proof.
  intros I L. pose proof (inv_gi _ _ _ I) as G.
  assert (ST : forall e, In e E -> (exists w, val st (x_j e) = Some w) -> In (Some (x_j e)) (h_S st)).
  { intros e He [w Hw]. destruct (final st R cur I L (x_j e)) as [|C]; [apply (hg_ends X HG e He)|auto|congruence]. }
  fix IH 3. intros n q SC. destruct SC as [n q Ed Eq|e c q He Ef Ha SC Eq|n es q Hne ND Hes SC Eq].
  - destruct (gi_d _ _ _ G n Ed) as (E1 & E2 & _). exists 0. split; [|lra]. unfold val. rewrite E1, E2. reflexivity.
  - destruct (IH _ _ SC) as (w & Ew & Lw). pose proof (leg_nonneg e He) as Lg. pose proof (ST e He (ex_intro _ w Ew)) as Hs.
    destruct (inv_comp _ _ _ I e He Ha Hs) as [HR|[Hi Hv]].
    + destruct (gi_R _ _ _ G e HR) as (_ & _ & _ & Hdi). pose proof (ni_le _ _ _ (gi_inf _ _ _ G _ Hdi) e HR eq_refl Ef) as LE.
      assert (LE2 : ole (val st (x_i e)) (Some (leg e + V st e))) by (eapply ole_trans; [apply omin_r|exact LE]).
      unfold V in LE2. rewrite Ew in LE2. destruct (val st (x_i e)) as [v|]; [|contradiction]. simpl in LE2. exists v. split; auto. lra.
    + destruct (gi_fin _ _ _ G _ Hi) as (_ & v & Ev & _). exists v. split; auto. specialize (Hv v w Ev Ew). lra.
  - assert (SC' : forall e c, In (e, c) es -> exists w, val st (x_j e) = Some w /\ w <= c) by (intros e c Hin; apply IH; apply SC; auto). clear SC. clear IH.
    assert (CASE : forall e c, In (e, c) es -> (d <> Some n /\ In e (h_suc st n)) \/ ole (val st n) (Some (V st e))).
    { intros e c Hin. destruct (Hes e c Hin) as (He & Ei & (f & Ef & Fp) & Ha). destruct (SC' e c Hin) as (w & Ew & _).
      destruct (inv_comp _ _ _ I e He Ha (ST e He (ex_intro _ w Ew))) as [HR|[Hi Hv]].
      - destruct (gi_R _ _ _ G e HR) as (_ & _ & _ & Hdi). rewrite Ei in Hdi. destruct (ni_board _ _ _ (gi_lab _ _ _ G n Hdi) e HR Ei) as [B|B]; auto.
        + unfold freq_of. rewrite Ef. auto.
        + right. eapply ole_trans; [apply omin_l|exact B].
      - right. rewrite Ei in *. destruct (gi_fin _ _ _ G _ Hi) as (_ & v & Ev & _). rewrite Ev. simpl. unfold V. rewrite Ew. apply Hv; auto. }
    assert (FINITE : exists y, val st n = Some y).
    { destruct es as [|[e c] es']; [congruence|]. destruct (CASE e c (or_introl eq_refl)) as [[Hdn B]|B].
      - destruct (ni_suc _ _ _ (gi_lab _ _ _ G n Hdn) e B) as (_ & _ & _ & x & Ex & _). pose proof (omin_l (h_lab st n) (h_inf st n)) as LE. change (omin _ _) with (val st n) in LE. rewrite Ex in LE. destruct (val st n); [eauto|contradiction].
      - destruct (val st n); [eauto|contradiction]. }
    destruct FINITE as [y Hy]. exists y. split; auto.
    set (F := Qsumf (fun ec => freq_of (fst ec)) es) in *.
    assert (Fpos : 0 < F).
    { unfold F. destruct es as [|[e c] es']; [congruence|]. rewrite Qsumf_cons. simpl. assert (0 <= Qsumf (fun ec : xedge * Q => freq_of (fst ec)) es').
      { apply Qsumf_nonneg. intros [e1 c1] H1. destruct (Hes e1 c1 (or_intror H1)) as (_ & _ & (f & Ef & Fp) & _). simpl. unfold freq_of. rewrite Ef. lra. }
      destruct (Hes e c (or_introl eq_refl)) as (_ & _ & (f & Ef & Fp) & _). unfold freq_of at 1. rewrite Ef. lra. }
    (* the lines kept at n, or none when n is the destination *)
    assert (SET : exists (A : list xedge) (x : Q), NoDup A /\ (A <> [] -> y <= x) /\ (forall e, In e A -> V st e <= x /\ 0 < freq_of e) /\ Qsumf (fun e => freq_of e * (x - V st e)) A <= wait n /\
              forall e c, In (e, c) es -> In e A \/ y <= V st e).
    { destruct (h_lab st n) as [x|] eqn:El.
      - assert (Hdec : d = Some n \/ d <> Some n) by (destruct d as [m|]; [destruct (enode_dec m n); [left; congruence|right; congruence]|right; discriminate]).
        destruct Hdec as [Hdn|Hdn].
        + exists [], 0. split; [constructor|]. split; [congruence|]. split; [intros e []|]. split.
          * unfold Qsumf. simpl. destruct es as [|[e c] es']; [congruence|]. destruct (Hes e c (or_introl eq_refl)) as (He & Ei & (f & Ef & Fp) & _). rewrite <- Ei. eapply wait_nonneg; eauto.
          * intros e c Hin. destruct (CASE e c Hin) as [[C _]|B]; [contradiction|]. rewrite Hy in B. right. exact B.
        + pose proof (gi_lab _ _ _ G n Hdn) as NL. exists (h_suc st n), x. split; [apply NL|]. split.
          { intros _. pose proof (omin_l (h_lab st n) (h_inf st n)) as LE. change (omin _ _) with (val st n) in LE. rewrite El, Hy in LE. exact LE. }
          split.
          { intros e He. destruct (ni_suc _ _ _ NL e He) as (_ & _ & (f & Ef & Fp) & x' & Ex & Lx & _). rewrite El in Ex. inversion Ex; subst. split; auto. unfold freq_of. rewrite Ef. auto. }
          split.
          { pose proof (ni_lab _ _ _ NL) as EQ. rewrite El in EQ. destruct EQ as [_ EQ].
            assert (S0 : Qsumf (fun e => freq_of e * (x - V st e)) (h_suc st n) == x * Qsumf freq_of (h_suc st n) - Qsumf (fun e => freq_of e * V st e) (h_suc st n)).
            { clear. induction (h_suc st n) as [|b l IHl]; [unfold Qsumf; simpl; lra|]. rewrite !Qsumf_cons, IHl. ring. }
            rewrite S0, EQ. lra. }
          { intros e c Hin. destruct (CASE e c Hin) as [[_ B]|B]; auto. rewrite Hy in B. right. exact B. }
      - exists [], 0. split; [constructor|]. split; [congruence|]. split; [intros e []|]. split.
        + unfold Qsumf. simpl. destruct es as [|[e c] es']; [congruence|]. destruct (Hes e c (or_introl eq_refl)) as (He & Ei & (f & Ef & Fp) & _). rewrite <- Ei. eapply wait_nonneg; eauto.
        + intros e c Hin. destruct (CASE e c Hin) as [[Hdn B]|B]; [|rewrite Hy in B; right; exact B]. destruct (ni_suc _ _ _ (gi_lab _ _ _ G n Hdn) e B) as (_ & _ & _ & x & Ex & _). congruence. }
    destruct SET as (A & x & NDA & YX & HA & WA & CA).
    set (g := fun e : xedge => if in_dec xedge_dec e A then freq_of e * (x - V st e) else 0).
    assert (T1 : - Qsumf (fun ec => g (fst ec)) es <= Qsumf (fun ec => freq_of (fst ec) * (leg (fst ec) + snd ec)) es - y * F).
    { unfold F. assert (K : Qsumf (fun ec => - g (fst ec)) es <= Qsumf (fun ec => freq_of (fst ec) * (leg (fst ec) + snd ec - y)) es).
      { apply Qsumf_le. intros [e c] Hin. cbn [fst snd]. destruct (SC' e c Hin) as (w & Ew & Lw). destruct (Hes e c Hin) as (He & Ei & (f & Ef & Fp) & Ha).
        pose proof (leg_nonneg e He). assert (FE : freq_of e = f) by (unfold freq_of; rewrite Ef; auto). rewrite FE in *.
        assert (VE : V st e = w) by (unfold V; rewrite Ew; auto). unfold g. rewrite FE, VE. destruct (in_dec xedge_dec e A) as [Y|Nn].
        - assert (y <= x) by (apply YX; destruct A; [contradiction|discriminate]). nra.
        - destruct (CA e c Hin) as [C|C]; [contradiction|]. rewrite VE in C. nra. }
      assert (K1 : Qsumf (fun ec : xedge * Q => - g (fst ec)) es == - Qsumf (fun ec => g (fst ec)) es).
      { clear. induction es as [|b l IHl]; [unfold Qsumf; simpl; lra|]. rewrite !Qsumf_cons, IHl. ring. }
      assert (K2 : Qsumf (fun ec : xedge * Q => freq_of (fst ec) * (leg (fst ec) + snd ec - y)) es == Qsumf (fun ec => freq_of (fst ec) * (leg (fst ec) + snd ec)) es - y * Qsumf (fun ec => freq_of (fst ec)) es).
      { clear. induction es as [|b l IHl]; [unfold Qsumf; simpl; lra|]. rewrite !Qsumf_cons, IHl. ring. }
      rewrite <- K1, <- K2. exact K. }
    assert (T2 : Qsumf (fun ec => g (fst ec)) es <= wait n).
    { eapply Qle_trans; [|exact WA].
      assert (Z : Qsumf (fun ec : xedge * Q => g (fst ec)) es == Qsumf (fun e => freq_of e * (x - V st e)) (filter (fun e => if in_dec xedge_dec e A then true else false) (map fst es))).
      { clear. unfold g. induction es as [|[b c] l IHl]; [reflexivity|]. cbn [map filter fst]. rewrite Qsumf_cons, IHl. cbn [fst]. destruct (in_dec xedge_dec b A); [rewrite Qsumf_cons; reflexivity|lra]. }
      rewrite Z. apply Qsumf_incl.
      - apply NoDup_filter. auto.
      - intros e He. apply filter_In in He. destruct He as [_ He]. destruct (in_dec xedge_dec e A); auto; discriminate.
      - intros e He. destruct (HA e He). nra. }
    nra.
Qed.
Lemma sc_compat n q q' : q == q' -> strategy_cost X P o d n q -> strategy_cost X P o d n q'.
Proof.
  intros Eq SC. destruct SC.
  - apply sc_here; auto. lra.
  - eapply sc_move; eauto. lra.
  - eapply sc_wait; eauto. rewrite <- Eq. auto.
Qed.
(** the value found is the cost of a strategy *)
Lemma achieved st R cur : Inv st R cur -> length (h_S st) = length N -> ordered st ->
  forall n, (forall v, h_lab st n = Some v -> strategy_cost X P o d n v) /\ (forall v, h_inf st n = Some v -> strategy_cost X P o d n v).
Proof.
  intros I L O. pose proof (inv_gi _ _ _ I) as G.
  assert (K : forall k n, (rank (h_S st) n < k)%nat -> (forall v, h_lab st n = Some v -> strategy_cost X P o d n v) /\ (forall v, h_inf st n = Some v -> strategy_cost X P o d n v)).
  { induction k as [|k IH]; intros n Lk; [lia|].
    assert (Hdec : d = Some n \/ d <> Some n) by (destruct d as [m|]; [destruct (enode_dec m n); [left; congruence|right; congruence]|right; discriminate]).
    destruct Hdec as [Hdn|Hdn].
    { destruct (gi_d _ _ _ G n Hdn) as (E1 & E2 & _). rewrite E1, E2. split; intros v Ev; inversion Ev; subst; apply sc_here; auto; reflexivity. }
    assert (REC : forall e, recorded st n e -> In e R -> strategy_cost X P o d (x_j e) (V st e)).
    { intros e Hr HR. destruct (O n e Hr) as [_ B]. apply before_rank in B. destruct (gi_R _ _ _ G e HR) as (_ & _ & Hs & _). destruct (gi_fin _ _ _ G _ Hs) as (_ & w & Ew & _).
      unfold V. rewrite Ew. destruct (IH (x_j e)) as [I1 I2]; [lia|]. unfold val in Ew. destruct (omin_case (h_lab st (x_j e)) (h_inf st (x_j e))) as [C|C]; rewrite C in Ew; auto. }
    split; intros v Ev.
    - pose proof (gi_lab _ _ _ G n Hdn) as NL. pose proof (ni_lab _ _ _ NL) as EQ. rewrite Ev in EQ. destruct EQ as [SN EQ].
      apply sc_wait with (es := map (fun e => (e, V st e)) (h_suc st n)).
      + destruct (h_suc st n); [congruence|discriminate].
      + rewrite map_map. cbn. rewrite map_id. apply NL.
      + intros e c Hin. apply in_map_iff in Hin. destruct Hin as (e' & Ee & He). inversion Ee; subst. destruct (ni_suc _ _ _ NL e He) as (B1 & B2 & B3 & _). destruct (gi_R _ _ _ G e B1) as (B4 & B5 & _). auto.
      + intros e c Hin. apply in_map_iff in Hin. destruct Hin as (e' & Ee & He). inversion Ee; subst. apply REC; [left; auto|]. apply NL; auto.
      + rewrite !Qsumf_map. cbn [fst snd]. rewrite EQ. apply Qplus_comp; [reflexivity|]. apply Qsumf_ext. intros e He. destruct (ni_suc _ _ _ NL e He) as (B1 & B2 & (f & B3 & _) & _).
        destruct (gi_R _ _ _ G e B1) as (B4 & _). destruct (board_leg e f B4 B3) as (_ & _ & LZ & _). rewrite LZ. ring.
    - pose proof (ni_at _ _ _ (gi_inf _ _ _ G n Hdn)) as B. rewrite Ev in B. destruct B as (e & B1 & B2 & B3 & B4 & B5). rewrite <- B3. destruct (gi_R _ _ _ G e B2) as (B6 & B7 & _).
      eapply sc_move; eauto. apply REC; auto. right; auto. }
  intro n. apply (K (S (rank (h_S st) n))). lia.
Qed.
End Opt.
