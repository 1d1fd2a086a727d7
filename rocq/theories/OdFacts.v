(** * OdFacts: what get_all_hyperpaths returns for each OD pair with trips *)
From Coq Require Import String List ZArith QArith Bool Lia Lqa.
From Verif Require Import PyBase PyFacts Graph GraphProofs Mode Route ExtGraph ExtSpec Hyperpath HyperSpec HyperProofs HyperOpt Props_Hyper Assignment AssignSpec.
Import ListNotations.
Local Open Scope Q_scope.

Record od_ok (X : xgraph) (P : qpass) (M : dict2) (e : od_entry) (c cd : nat) : Prop := mkOdOk {
  oo_origin : od_o e = Some (EC c);
  oo_dest : od_d e = Some (EC cd);
  oo_diff : c <> cd;
  oo_v : exists o d, has_trips M o d (od_v e) /\ find_city X o = od_o e /\ find_city X d = od_d e;
  oo_keys : forall s, In s (map fst (od_paths e)) <->
     In (ES s) (xnodes X) /\ (exists st, nth_error (xg_stops X) s = Some st /\ sn_city st = c) /\ hr_lab (od_res e) (ES s) <> None;
  oo_nodup : NoDup (map fst (od_paths e));
  oo_some : od_paths e <> [];
  oo_facts : hfacts X P (od_o e) (od_d e) (od_res e);
  oo_rank : exists rk : enode -> nat, forall n x, In x (hr_suc (od_res e) n) -> (rk (x_j x) < rk n)%nat
}.
Lemma strategy_dest X P o d n q : strategy_cost X P o d n q -> d <> None.
Proof. intro H. induction H as [n q E _|e c q He Ef A _ IH _|n es q Ne _ _ _ IH _]; auto; [congruence|]. destruct es as [|[e c] es]; [congruence|]. apply (IH e c). left; auto. Qed.
Lemma all_inv fuel X P M es : hyper_graph X -> weights X P -> (length (xnodes X) < fuel)%nat -> get_all_hyperpaths fuel X P M = Ok es ->
  network_validator fuel X P M = Ok true /\ mapM (fun '(o, d, v) =>
      let* r := hyperpath_OD fuel X P (find_city X o) (find_city X d) in
      Ok (mkOD (find_city X o) (find_city X d) v (fst r) (snd r))) (od_pairs M) = Ok es.
Proof.
  intros HG WG L H. unfold get_all_hyperpaths in H. apply bind_ok in H. destruct H as ([] & E & H); [|discriminate]. auto.
Qed.
Lemma mapM_In {A B} (f : A -> res B) l r : mapM f l = Ok r -> forall y, In y r -> exists x, In x l /\ f x = Ok y.
Proof.
  revert r. induction l as [|x l IH]; intros r H y Hy; cbn [mapM] in H; [inversion H; subst; contradiction|].
  apply bind_ok in H. destruct H as (b & E & H). apply bind_ok in H. destruct H as (r' & E' & H). inversion H; subst. destruct Hy as [<-|Hy]; [exists x; split; auto; left; auto|].
  destruct (IH r' E' y Hy) as (x' & A1 & A2). exists x'. split; auto. right; auto.
Qed.
Lemma entries_ok fuel X P M es : hyper_graph X -> weights X P -> (length (xnodes X) < fuel)%nat -> get_all_hyperpaths fuel X P M = Ok es ->
  forall e, In e es -> exists c cd, od_ok X P M e c cd.
Proof.
  intros HG WG L H e He. destruct (all_inv fuel X P M es HG WG L H) as [V K]. assert (L' : (length (xnodes X) <= fuel)%nat) by lia.
  destruct (mapM_In _ _ _ K e He) as (((o & d) & v) & Hin & E). apply bind_ok in E. destruct E as ((hp & R) & E & E2). inversion E2; subst e. clear E2. cbn [fst snd] in *.
  apply od_pairs_In in Hin. assert (Cn : connected X P o d).
  { destruct (C38_validator X P M fuel HG WG L') as (_ & _ & _ & _ & Q). destruct (pair_check X P fuel o d HG WG L') as (R' & E' & Ck).
    destruct (existsb (fun s => match hr_lab R' (ES s) with Some _ => true | None => false end) (stops_at X (find_city X o))) eqn:Ex; [apply Ck; auto|].
    assert (N : ~ connected X P o d) by (intro Hc; apply Ck in Hc; congruence). rewrite Q in V; [discriminate|]. eauto. }
  destruct Cn as (c & dest & s0 & st0 & q0 & H1 & H2 & H3 & H4 & H5 & SC).
  assert (Eo : find_city X o = Some (EC c)) by (eapply served_unique; eauto; apply find_city_spec). assert (Ed : find_city X d = dest) by (eapply served_unique; eauto; apply find_city_spec).
  assert (exists cd, dest = Some (EC cd)) as [cd Ecd]. { pose proof (strategy_dest _ _ _ _ _ _ SC). destruct dest as [[cd|k|k]|]; simpl in H2; try contradiction; eauto. }
  rewrite Ecd in *. clear dest Ecd. exists c, cd. rewrite Eo, Ed in *. destruct (C37_elementary_paths X P c (Some (EC cd)) fuel HG WG L) as (hp' & R' & E1 & E2 & A1 & A2 & A3 & A4).
  rewrite E in E1. inversion E1; subst hp' R'. clear E1.
  assert (F : hfacts X P (Some (EC c)) (Some (EC cd)) R) by (destruct (build_hfacts X P (Some (EC c)) (Some (EC cd)) HG WG fuel L') as (R' & E' & F); rewrite E2 in E'; inversion E'; subst; auto).
  assert (KS : forall s, In s (map fst hp) <-> exists ps, In (s, ps) hp).
  { intro s. rewrite in_map_iff. split; [intros ((s' & ps) & Es & Hs); simpl in Es; subst; eauto|]. intros [ps Hs]. exists (s, ps). auto. }
  constructor; cbn [od_o od_d od_paths od_res od_v]; auto.
  - intro C. subst cd. apply no_cycle_strategy in SC. discriminate.
  - exists o, d. rewrite Eo, Ed. auto.
  - intro s. rewrite KS, A4. split.
    + intros (st & q & B1 & B2 & B3 & B4). split; auto. split; eauto. intro C. pose proof (hf_lab _ _ _ _ _ F (ES s) B1) as Mc. rewrite C in Mc. apply (Mc q B4).
    + intros (B1 & (st & B2 & B3) & B4). pose proof (hf_lab _ _ _ _ _ F (ES s) B1) as Mc. destruct (hr_lab R (ES s)) as [q|]; [|congruence]. destruct Mc as [Mc _]. eauto 7.
  - intro C. assert (exists ps, In (s0, ps) hp) as [ps Hps] by (apply A4; eauto 7). rewrite C in Hps. contradiction.
  - destruct (build_facts fuel X P (Some (EC c)) (Some (EC cd))) as (_ & _ & B); [exact L'|]. destruct (B R E2) as (rk & _ & Hr). exists rk. intros n x Hx. apply Hr; auto.
Qed.
(** at most two stops per origin, and if two, a mode with one axis *)
Lemma keys_cases fuel X P M es : hyper_graph X -> weights X P -> (length (xnodes X) < fuel)%nat -> get_all_hyperpaths fuel X P M = Ok es ->
  forall e, In e es -> (exists s, map fst (od_paths e) = [s]) \/ exists s1 s2 l1 l2, two_stops X e s1 s2 l1 l2.
Proof.
  intros HG WG L H e He. destruct (entries_ok fuel X P M es HG WG L H e He) as (c & cd & O). destruct (all_inv fuel X P M es HG WG L H) as [V _]. assert (L' : (length (xnodes X) <= fuel)%nat) by lia.
  assert (U : NoDup (map m_name (list_modes X)) /\ usable_modes (list_modes X)).
  { unfold network_validator in V. apply bind_ok in V. destruct V as (u & _ & V). destruct (modes_valid_spec (list_modes X)) as [V1 V2].
    assert (D : NoDup (map m_name (list_modes X)) \/ ~ NoDup (map m_name (list_modes X))) by (destruct (ListDec.NoDup_dec string_dec (map m_name (list_modes X))); auto).
    destruct D as [D|D]; [|rewrite (V2 D) in V; discriminate]. split; auto. destruct (V1 D) as [V3 V4].
    assert (DU : usable_modes (list_modes X) \/ ~ usable_modes (list_modes X)).
    { unfold usable_modes. destruct (Nat.eq_dec (length (list_modes X)) 1) as [|N1]; auto. destruct (Nat.eq_dec (length (list_modes X)) 2) as [E2|N2]; [|right; tauto].
      destruct (existsb (fun m => Qeqb (m_d m) 1) (list_modes X)) eqn:Ex.
      - left. right. split; auto. apply existsb_exists in Ex. destruct Ex as (m & Hm & Q). apply Qeqb_eq in Q. eauto.
      - right. intros [|[_ (m & Hm & Q)]]; [auto|]. assert (existsb (fun m => Qeqb (m_d m) 1) (list_modes X) = true) by (apply existsb_exists; exists m; split; auto; apply Qeqb_eq; auto). congruence. }
    destruct DU as [|DU]; auto. rewrite (V4 DU) in V. discriminate. }
  destruct U as [_ U]. destruct (list_modes_spec X HG) as [LM1 LM2].
  assert (KM : NoDup (map (mode_of X) (map fst (od_paths e)))).
  { apply Props_Predef.NoDup_map_inj_in; [|apply (oo_nodup _ _ _ _ _ _ O)]. intros a b Ha Hb E. apply (oo_keys _ _ _ _ _ _ O) in Ha. apply (oo_keys _ _ _ _ _ _ O) in Hb.
    destruct Ha as (_ & (st & A1 & A2) & _), Hb as (_ & (st' & B1 & B2) & _). apply (hg_stop X HG a b st st'); auto; [congruence|]. unfold mode_of, stop_at in E. rewrite (nth_error_nth _ _ _ A1), (nth_error_nth _ _ _ B1) in E. congruence. }
  assert (KI : incl (map (mode_of X) (map fst (od_paths e))) (list_modes X)).
  { intros m Hm. apply in_map_iff in Hm. destruct Hm as (s & <- & Hs). apply (oo_keys _ _ _ _ _ _ O) in Hs. destruct Hs as (A0 & (st & A1 & A2) & _). apply LM2. exists s, st. split; auto. split; auto. unfold mode_of, stop_at. rewrite (nth_error_nth _ _ _ A1). auto. }
  pose proof (NoDup_incl_length KM KI) as LEN. rewrite map_length in LEN.
  assert (LAB : forall s, In s (map fst (od_paths e)) -> exists l, hr_lab (od_res e) (ES s) = Some l).
  { intros s Hs. apply (oo_keys _ _ _ _ _ _ O) in Hs. destruct Hs as (_ & _ & N). destruct (hr_lab (od_res e) (ES s)); [eauto|congruence]. }
  pose proof (oo_nodup _ _ _ _ _ _ O) as ND. pose proof (oo_some _ _ _ _ _ _ O) as SM. unfold two_stops.
  destruct (map fst (od_paths e)) as [|a [|b [|x l]]] eqn:Ek.
  - destruct (od_paths e); [congruence|discriminate].
  - left. eauto.
  - right. destruct (LAB a) as [la Ea]; [left; auto|]. destruct (LAB b) as [lb Eb]; [right; left; auto|]. assert (Nab : a <> b) by (inversion ND; subst; intro; subst; apply H2; left; auto).
    cbn [length] in LEN. destruct U as [U|[U (m & Hm & Hd)]]; [lia|].
    destruct (Qeq_dec (m_d (mode_of X a)) 1) as [Da|Da]; [exists a, b, la, lb; auto 10|]. exists b, a, lb, la. split; auto. split; [|split; [right; auto|auto]].
    assert (Hin : In m (map (mode_of X) [a; b])).
    { assert (INC : incl (list_modes X) (map (mode_of X) [a; b])); [|apply INC; auto]. apply NoDup_length_incl; auto. rewrite map_length. cbn [length]. lia. }
    destruct Hin as [<-|[<-|[]]]; auto. contradiction.
  - cbn [length] in LEN. destruct U as [U|[U _]]; lia.
Qed.
Lemma pick_two X e s1 s2 l1 l2 : two_stops X e s1 s2 l1 l2 -> pick_stops X (map fst (od_paths e)) = (Some s1, Some s2).
Proof.
  intros (N & D & K & _). unfold pick_stops. assert (E1 : Qeqb (m_d (sn_mode (stop_at (xg_stops X) s1))) 1 = true) by (apply Qeqb_eq; exact D).
  destruct K as [->|[-> K]]; cbn [fold_left].
  - rewrite E1. destruct (Qeqb (m_d (sn_mode (stop_at (xg_stops X) s2))) 1); auto.
  - assert (E2 : Qeqb (m_d (sn_mode (stop_at (xg_stops X) s2))) 1 = false) by (apply Qeqb_neq; exact K). rewrite E2, E1. auto.
Qed.
Lemma two_unique X e s1 s2 l1 l2 a1 a2 b1 b2 : two_stops X e s1 s2 l1 l2 -> two_stops X e a1 a2 b1 b2 -> a1 = s1 /\ a2 = s2 /\ b1 = l1 /\ b2 = l2.
Proof.
  intros A B. pose proof (pick_two _ _ _ _ _ _ A) as E. rewrite (pick_two _ _ _ _ _ _ B) in E. inversion E; subst. destruct A as (_ & _ & _ & A1 & A2), B as (_ & _ & _ & B1 & B2). rewrite A1 in B1. rewrite A2 in B2. inversion B1; inversion B2; auto.
Qed.
