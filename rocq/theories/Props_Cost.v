(** * Props_Cost: travel times, cycle times, operator and infrastructure costs, constraints (C43-C47) *)
From Coq Require Import String List ZArith QArith Bool Lia Lqa Qfield Permutation.
From Verif Require Import PyBase PyFacts PyStr PyStrFacts Graph GraphProofs GeoEx Props_Graph Mode Route Network RouteSpec RouteProofs Props_Network ExtGraph ExtSpec ExtProofs Props_Ext Hyperpath HyperSpec HyperProofs HyperOpt Props_Hyper Assignment AssignSpec FlowSpec CostSpec TableProofs Props_Flow Costs.
Import ListNotations.
Local Open Scope Q_scope.

(** ** C43 *)
Lemma seq_time_ok D v : ~ v == 0 -> forall l tv, exists q, seq_time D v l tv = Ok q /\ q == tv + Qsumf (fun a => dist0 D (fst a) (snd a)) (arcs_of l) / v.
Proof.
  intro Hv. intro l. unfold seq_time. induction (arcs_of l) as [|[i j] a IH]; intro tv; cbn [foldM].
  - exists tv. split; auto. unfold Qsumf. cbn. field. auto.
  - assert (EQ : qdiv (dist0 D i j) v = Ok (dist0 D i j / v)) by (unfold qdiv; destruct (Qeqb v 0) eqn:E; [apply Qeqb_eq in E; contradiction|reflexivity]). rewrite EQ. cbn [bind]. destruct (IH (tv + dist0 D i j / v)) as (q & E1 & E2). exists q. split; [exact E1|]. rewrite E2, Qsumf_cons. cbn [fst snd]. field. auto.
Qed.
Lemma seq_length_arcs G g : forall l, on_arcs g l -> exists q, seq_length G g l q /\ q == Qsumf (fun a => dist0 (get_edges_distance G g) (fst a) (snd a)) (arcs_of l).
Proof.
  destruct l as [|a l]; [exists 0; split; [left; split; reflexivity|reflexivity]|]. intro H. enough (E : exists q, path_length G g (a :: l) q /\ q == Qsumf (fun a => dist0 (get_edges_distance G g) (fst a) (snd a)) (arcs_of (a :: l))) by (destruct E as (q & E1 & E2); exists q; split; auto; right; auto).
  revert a H. induction l as [|b l IH]; intros a H.
  - exists 0. split; [constructor|reflexivity].
  - destruct (IH b) as (q & E1 & E2). { intros x y (l1 & l2 & C). apply H. exists (a :: l1), l2. cbn. congruence. }
    assert (EE : edge_exist g a b = true) by (apply H; exists [], l; auto). destruct (proj2 (edges_distance_spec G g a b) EE) as (v & Ev). destruct (proj1 (edges_distance_spec G g a b) v Ev) as (e & He & na & nb & Na & Nb & Ia & Ib & ->).
    exists (euclid G na nb + q). split.
    + constructor; auto; split; auto; eapply nth_error_In; eauto.
    + rewrite arcs_of_cons2, Qsumf_cons. cbn [fst snd]. unfold dist0 at 1. rewrite Ev, E2. reflexivity.
Qed.
Lemma fold_dset {A} (key : A -> string) (h : A -> res Q) : forall l d, NoDup (map key l) -> (forall x, In x l -> exists q, h x = Ok q) ->
  exists d', foldM (fun d x => let* q := h x in Ok (dset String.eqb d (key x) q)) l d = Ok d' /\
    (forall x q, In x l -> h x = Ok q -> dget String.eqb d' (key x) = Some q) /\ (forall k, ~ In k (map key l) -> dget String.eqb d' k = dget String.eqb d k).
Proof.
  induction l as [|x l IH]; intros d ND HX; cbn [foldM map].
  - exists d. split; auto. split; auto. intros x q [].
  - inversion ND; subst. destruct (HX x (or_introl eq_refl)) as (q & Eq). rewrite Eq. cbn [bind]. destruct (IH (dset String.eqb d (key x) q)) as (d' & E & A1 & A2); auto; [intros; apply HX; right; auto|]. exists d'. split; auto. split.
    + intros y q' [<-|Hy] Ey; [|eauto]. rewrite A2 by auto. rewrite (dget_dset_same String.eqb Seqb_spec). congruence.
    + intros k Hk. rewrite A2 by (intro; apply Hk; right; auto). apply (dget_dset_other String.eqb Seqb_spec). intro; subst; apply Hk; left; auto.
Qed.
(** The travel time of a line is the length of its two sequences of nodes over the speed of its mode, when the
    arcs are in the city. *)
Theorem C43_travel_time : forall G g rs, NoDup (map r_id rs) -> (forall r, In r rs -> ~ m_v (r_mode r) == 0) -> (forall r, In r rs -> on_arcs g (r_ni r) /\ on_arcs g (r_nr r)) ->
  exists tt, lines_travel_time rs (get_edges_distance G g) = Ok tt /\
    forall r, In r rs -> exists qi qr, seq_length G g (r_ni r) qi /\ seq_length G g (r_nr r) qr /\ freq tt (r_id r) == (qi + qr) / m_v (r_mode r).
Proof.
  intros G g rs ND HV HA. set (D := get_edges_distance G g). set (h := fun r => let* tv := seq_time D (m_v (r_mode r)) (r_ni r) 0 in seq_time D (m_v (r_mode r)) (r_nr r) tv).
  destruct (fold_dset r_id h rs [] ND) as (tt & E & A1 & _).
  { intros r Hr. unfold h. destruct (seq_time_ok D _ (HV r Hr) (r_ni r) 0) as (q & E & _). rewrite E. cbn [bind]. destruct (seq_time_ok D _ (HV r Hr) (r_nr r) q) as (q' & E' & _). eauto. }
  exists tt. split.
  - etransitivity; [|exact E]. unfold lines_travel_time. clear. generalize (@nil (string * Q)). induction rs as [|r rs IH]; intro d; cbn [foldM]; auto. unfold h at 1. destruct (seq_time D (m_v (r_mode r)) (r_ni r) 0) as [q|]; cbn [bind]; auto. destruct (seq_time D (m_v (r_mode r)) (r_nr r) q); cbn [bind]; auto.
  - intros r Hr. destruct (HA r Hr) as [HI HR]. destruct (seq_length_arcs G g _ HI) as (qi & L1 & S1). destruct (seq_length_arcs G g _ HR) as (qr & L2 & S2). exists qi, qr. split; auto. split; auto.
    destruct (seq_time_ok D _ (HV r Hr) (r_ni r) 0) as (q & E1 & Q1). destruct (seq_time_ok D _ (HV r Hr) (r_nr r) q) as (q' & E2 & Q2).
    unfold freq, dget0. rewrite (A1 r q' Hr); [|unfold h; rewrite E1; cbn [bind]; auto]. rewrite Q2, Q1. fold D in S1, S2. rewrite S1, S2. field. auto.
Qed.
Print Assumptions C43_travel_time.
(** an arc that is not in the city costs no time: the line of C24_return_direction_unchecked_refuted, accepted by
    the network, returns for free *)
Theorem C43_missing_arcs_free_refuted : exists G P C m r nw' tt, build_from_parameters G P = Ok C /\
  new_route (Some "x"%string) (Some m) (Some "1,2,0"%string) (Some "0,1"%string) (Some "1,2,0"%string) (Some "0,1"%string) CUSTOM = Ok r /\
  add_route (new_network (c_graph C)) r = (nw', None) /\ lines_travel_time (nw_routes nw') (get_edges_distance G (c_graph C)) = Ok tt /\
  exists qi qr, seq_length G (c_graph C) (r_ni r) qi /\ seq_length G (c_graph C) (r_nr r) qr /\ 0 < qr /\ freq tt (r_id r) == qi / m_v (r_mode r).
Proof.
  exists ex_geo, (ex_params_sym 4). eexists. exists ex_bus. do 3 eexists. split; [vm_compute; reflexivity|]. split; [vm_compute; reflexivity|]. split; [vm_compute; reflexivity|]. split; [vm_compute; reflexivity|].
  eexists. eexists. split; [right; cbn [r_ni]; eapply pl_step; [| |eapply pl_step; [| |apply pl_one]]|].
  - split; [right; left; reflexivity|reflexivity].
  - split; [right; right; left; reflexivity|reflexivity].
  - split; [right; right; left; reflexivity|reflexivity].
  - split; [left; reflexivity|reflexivity].
  - split; [right; cbn [r_nr]; eapply pl_step; [| |apply pl_one]|].
    + split; [left; reflexivity|reflexivity].
    + split; [right; left; reflexivity|reflexivity].
    + split; vm_compute; reflexivity.
Qed.
Print Assumptions C43_missing_arcs_free_refuted.

(** ** C44 *)
Lemma tget_tread t r d s r' d' s' : tget (tread t r d s) r' d' s' = tget t r' d' s'.
Proof.
  unfold tread. unfold tget at 1. rewrite trow_tset. destruct ((r' =? r)%string && dir_eqb d' d)%bool eqn:E; auto. apply andb_true_iff in E. destruct E as [E1 E2]. apply String.eqb_eq in E1. apply dir_spec in E2. subst.
  rewrite (dget0_dset Nat.eqb Neqb_spec). destruct (Nat.eqb s' s) eqn:E; auto. apply Nat.eqb_eq in E. subst. reflexivity.
Qed.
Lemma keys_tread t r d s r' d' s' : In s' (map fst (trow (tread t r d s) r' d')) <-> In s' (map fst (trow t r' d')) \/ (r' = r /\ d' = d /\ s' = s).
Proof.
  unfold tread. rewrite trow_tset. destruct ((r' =? r)%string && dir_eqb d' d)%bool eqn:E.
  - apply andb_true_iff in E. destruct E as [E1 E2]. apply String.eqb_eq in E1. apply dir_spec in E2. subst. destruct (in_dec Nat.eq_dec s (map fst (trow t r d))) as [I|I].
    + rewrite (dset_keys_in Nat.eqb Neqb_spec) by auto. split; [auto|]. intros [H|(_ & _ & ->)]; auto.
    + rewrite (dset_keys_notin Nat.eqb Neqb_spec) by auto. rewrite map_app, in_app_iff. cbn. split; [intros [H|[H|[]]]; auto|intros [H|(_ & _ & ->)]; auto].
  - split; auto. intros [H|(-> & -> & ->)]; auto. rewrite String.eqb_refl in E. destruct d; discriminate.
Qed.
Lemma row_nodup t r d : tab_wf t -> NoDup (map fst (trow t r d)).
Proof.
  intro W. destruct (rows_of t r W) as [R1 R2]. unfold trow. unfold dget0 at 1. destruct (dget dir_eqb _ d) as [row|] eqn:E; [|constructor]. apply (dget_In dir_eqb dir_spec) in E. eauto.
Qed.
Lemma tget_nokey t r d s : ~ In s (map fst (trow t r d)) -> tget t r d s = 0.
Proof. intro H. unfold tget, dget0. apply (dget_None Nat.eqb Neqb_spec) in H. rewrite H. reflexivity. Qed.
(** a sum over some keys is the sum over a larger set of keys when the rest is zero *)
Lemma Qsumf_incl {A} (dec : forall a b : A, {a = b} + {a <> b}) (h : A -> Q) : forall K S, NoDup K -> NoDup S -> incl K S -> (forall s, In s S -> ~ In s K -> h s == 0) -> Qsumf h K == Qsumf h S.
Proof.
  intros K S NK NS HI HZ. destruct (NoDup_incl_perm K S NK HI) as (r & P). rewrite (Qsumf_perm h _ _ P), Qsumf_app. assert (Z : Qsumf h r == 0); [|rewrite Z; ring].
  apply Qsumf_zero. intros s Hs. apply HZ; [eapply Permutation_in; [symmetry; exact P|]; apply in_or_app; auto|]. intro C. assert (ND : NoDup (K ++ r)) by (eapply Permutation_NoDup; eauto).
  clear - ND Hs C. induction K as [|k K IH]; [contradiction|]. cbn in ND. inversion ND; subst. destruct C as [->|C]; [apply H1; apply in_or_app; auto|auto].
Qed.
Lemma fold_plus {A} (h : A -> Q) (t : Q) : forall l tc, fold_left (fun tc s => tc + t * h s) l tc == tc + t * Qsumf h l.
Proof. induction l as [|x l IH]; intro tc; cbn [fold_left]; [unfold Qsumf; cbn; ring|]. rewrite IH, Qsumf_cons. ring. Qed.
Lemma dwell_seq_spec t z v r d tc S : tab_wf z -> tab_wf v -> covers S z v r -> dwell_seq t z v r d tc == tc + t * Qsumf (fun s => tget z r d s + tget v r d s) S.
Proof.
  intros WZ WV [NS HS]. unfold dwell_seq. rewrite fold_plus, fold_plus, Qsumf_plus.
  assert (E1 : Qsumf (tget z r d) (map fst (trow z r d)) == Qsumf (tget z r d) S). { apply Qsumf_incl; auto using row_nodup, Nat.eq_dec; [intros s Hs; apply (HS d); auto|]. intros s _ H. rewrite tget_nokey; auto. reflexivity. }
  assert (E2 : Qsumf (tget v r d) (map fst (trow v r d)) == Qsumf (tget v r d) S). { apply Qsumf_incl; auto using row_nodup, Nat.eq_dec; [intros s Hs; apply (HS d); auto|]. intros s _ H. rewrite tget_nokey; auto. reflexivity. }
  rewrite E1, E2. ring.
Qed.
Lemma Qmaxb_00 : Qmaxb 0 0 = 0. Proof. reflexivity. Qed.
(** the tables read so far: same values, new keys only among those of the other table *)
Record read_of (z0 v0 z : tab) : Prop := mkRO {
  ro_wf : tab_wf z;
  ro_get : forall r d s, tget z r d s = tget z0 r d s;
  ro_old : forall r d s, In s (map fst (trow z0 r d)) -> In s (map fst (trow z r d));
  ro_key : forall r d s, In s (map fst (trow z r d)) -> In s (map fst (trow z0 r d)) \/ In s (map fst (trow v0 r d))
}.
Lemma read_refl z0 v0 : tab_wf z0 -> read_of z0 v0 z0.
Proof. split; auto. Qed.
Lemma read_step z0 v0 z r d s : read_of z0 v0 z -> In s (map fst (trow z0 r d)) \/ In s (map fst (trow v0 r d)) -> read_of z0 v0 (tread z r d s).
Proof.
  intros [A B C D] H. split.
  - apply tset_wf. auto.
  - intros. rewrite tget_tread. auto.
  - intros. apply keys_tread. auto.
  - intros r' d' s' H'. apply keys_tread in H'. destruct H' as [H'|(-> & -> & ->)]; auto.
Qed.
Lemma fold1_spec t z r d : forall l tc v, let '(tc', v') := fold_left (fun '(tc, v) s => (tc + t * Qmaxb (tget z r d s) (tget v r d s), tread v r d s)) l (tc, v) in
  tc' == tc + t * Qsumf (fun s => Qmaxb (tget z r d s) (tget v r d s)) l /\ v' = fold_left (fun v s => tread v r d s) l v.
Proof.
  induction l as [|s l IH]; intros tc v; cbn [fold_left].
  - split; auto. unfold Qsumf. cbn. ring.
  - specialize (IH (tc + t * Qmaxb (tget z r d s) (tget v r d s)) (tread v r d s)). destruct (fold_left _ l _) as [tc' v']. destruct IH as [E1 E2]. split; auto. rewrite E1, Qsumf_cons. rewrite (Qsumf_ext _ (fun s0 => Qmaxb (tget z r d s0) (tget v r d s0))); [ring|]. intros. rewrite tget_tread. reflexivity.
Qed.
Lemma fold2_spec t v r d (p : nat -> bool) : forall l tc z, let '(tc', z') := fold_left (fun '(tc, z) s => if p s then (tc, z) else (tc + t * Qmaxb (tget z r d s) (tget v r d s), tread z r d s)) l (tc, z) in
  tc' == tc + t * Qsumf (fun s => Qmaxb (tget z r d s) (tget v r d s)) (filter (fun s => negb (p s)) l) /\ z' = fold_left (fun z s => tread z r d s) (filter (fun s => negb (p s)) l) z.
Proof.
  induction l as [|s l IH]; intros tc z; cbn [fold_left filter].
  - split; auto. unfold Qsumf. cbn. ring.
  - destruct (p s) eqn:E; cbn [negb].
    + apply IH.
    + specialize (IH (tc + t * Qmaxb (tget z r d s) (tget v r d s)) (tread z r d s)). destruct (fold_left _ l _) as [tc' z']. destruct IH as [E1 E2]. cbn [fold_left]. split; auto. rewrite E1, Qsumf_cons. rewrite (Qsumf_ext _ (fun s0 => Qmaxb (tget z r d s0) (tget v r d s0))); [ring|]. intros. rewrite tget_tread. reflexivity.
Qed.
Lemma read_fold z0 v0 r d : forall l z, read_of z0 v0 z -> (forall s, In s l -> In s (map fst (trow z0 r d)) \/ In s (map fst (trow v0 r d))) -> read_of z0 v0 (fold_left (fun z s => tread z r d s) l z).
Proof. induction l as [|s l IH]; intros z R H; cbn [fold_left]; auto. apply IH; [apply read_step; auto; apply H; left; auto|intros; apply H; right; auto]. Qed.
Lemma keys_fold r d r' d' s' : forall l t, In s' (map fst (trow (fold_left (fun z s => tread z r d s) l t) r' d')) <-> In s' (map fst (trow t r' d')) \/ (r' = r /\ d' = d /\ In s' l).
Proof.
  induction l as [|s l IH]; intro t; cbn [fold_left In]; [tauto|]. rewrite IH, keys_tread. split; [intros [[H|(A & B & C)]|(A & B & C)]; subst; auto|intros [H|(A & B & [C|C])]; subst; auto].
Qed.
Lemma dwell_sim_spec z0 v0 t z v r d tc : read_of z0 v0 z -> read_of v0 z0 v ->
  exists tc' z' v', dwell_sim t z v r d tc = (tc', z', v') /\ read_of z0 v0 z' /\ read_of v0 z0 v' /\
    (forall s, In s (map fst (trow z0 r d)) \/ In s (map fst (trow v0 r d)) -> In s (map fst (trow z' r d)) /\ In s (map fst (trow v' r d))) /\
    (forall r' d' s, r' <> r -> (In s (map fst (trow z' r' d')) <-> In s (map fst (trow z r' d'))) /\ (In s (map fst (trow v' r' d')) <-> In s (map fst (trow v r' d')))) /\
    (forall d' s, In s (map fst (trow z r d')) -> In s (map fst (trow z' r d'))) /\ (forall d' s, In s (map fst (trow v r d')) -> In s (map fst (trow v' r d'))) /\
    forall S, covers S z0 v0 r -> tc' == tc + t * Qsumf (fun s => Qmaxb (tget z0 r d s) (tget v0 r d s)) S.
Proof.
  intros RZ RV. unfold dwell_sim. set (P := map fst (trow z r d)). pose proof (fold1_spec t z r d P tc v) as F1. destruct (fold_left _ P (tc, v)) as [tc1 v1]. destruct F1 as [E1 E2].
  set (K := map fst (trow v1 r d)). pose proof (fold2_spec t v1 r d (fun s => existsb (Nat.eqb s) P) K tc1 z) as F2. destruct (fold_left _ K (tc1, z)) as [tc2 z2]. destruct F2 as [E3 E4].
  assert (RV1 : read_of v0 z0 v1). { rewrite E2. apply read_fold; auto. intros s Hs. apply (ro_key _ _ _ RZ) in Hs. tauto. }
  assert (RZ2 : read_of z0 v0 z2). { rewrite E4. apply read_fold; auto. intros s Hs. apply filter_In in Hs. destruct Hs as [Hs _]. apply (ro_key _ _ _ RV1) in Hs. tauto. }
  assert (PI : forall s, existsb (Nat.eqb s) P = true <-> In s P). { intro s. rewrite existsb_exists. split; [intros (x & Hx & E); apply Nat.eqb_eq in E; subst; auto|intro H; exists s; split; auto; apply Nat.eqb_refl]. }
  assert (KV : forall s, In s K <-> In s (map fst (trow v r d)) \/ In s P). { intro s. unfold K. rewrite E2, keys_fold. intuition. }
  exists tc2, z2, v1. split; auto. split; auto. split; auto. split; [|split; [|split; [|split]]].
  - intros s H. assert (HK : In s K) by (apply KV; destruct H as [H|H]; [right; apply (ro_old _ _ _ RZ); auto|left; apply (ro_old _ _ _ RV); auto]). split; [|exact HK].
    rewrite E4, keys_fold. destruct (existsb (Nat.eqb s) P) eqn:E; [left; apply PI; auto|right]. split; auto. split; auto. apply filter_In. rewrite E. auto.
  - intros r' d' s N. rewrite E4, E2, !keys_fold. tauto.
  - intros d' s H. rewrite E4, keys_fold. auto.
  - intros d' s H. rewrite E2, keys_fold. auto.
  - intros S [NS HS]. rewrite E3, E1. set (h := fun s => Qmaxb (tget z0 r d s) (tget v0 r d s)).
    rewrite (Qsumf_ext (fun s => Qmaxb (tget z r d s) (tget v r d s)) h) by (intros; unfold h; rewrite (ro_get _ _ _ RZ), (ro_get _ _ _ RV); reflexivity).
    rewrite (Qsumf_ext (fun s => Qmaxb (tget z r d s) (tget v1 r d s)) h) by (intros; unfold h; rewrite (ro_get _ _ _ RZ), (ro_get _ _ _ RV1); reflexivity).
    set (F := filter (fun s => negb (existsb (Nat.eqb s) P)) K). assert (E : Qsumf h (P ++ F) == Qsumf h S); [|rewrite <- E, Qsumf_app; ring].
    apply Qsumf_incl; auto using Nat.eq_dec.
    + apply NoDup_app; [apply row_nodup; apply (ro_wf _ _ _ RZ)|apply NoDup_filter; apply row_nodup; apply (ro_wf _ _ _ RV1)|]. intros s H1 H2. apply filter_In in H2. destruct H2 as [_ H2]. apply PI in H1. rewrite H1 in H2. discriminate.
    + intros s Hs. apply (HS d). apply in_app_iff in Hs. destruct Hs as [Hs|Hs]; [apply (ro_key _ _ _ RZ) in Hs; tauto|]. apply filter_In in Hs. destruct Hs as [Hs _]. apply (ro_key _ _ _ RV1) in Hs. tauto.
    + intros s _ Hs. unfold h. rewrite !tget_nokey; [reflexivity| |]; intro C; apply Hs; apply in_app_iff.
      * assert (HK : In s K) by (apply KV; left; apply (ro_old _ _ _ RV); auto). destruct (existsb (Nat.eqb s) P) eqn:E; [left; apply PI; auto|right; apply filter_In; rewrite E; auto].
      * left. apply (ro_old _ _ _ RZ). auto.
Qed.
Example C43_ex : exists tt, lines_travel_time [ex_tang; ex_ring] (get_edges_distance ex_geo ex_g34) = Ok tt /\ NoDup (map r_id [ex_tang; ex_ring]) /\
  (forall r, In r [ex_tang; ex_ring] -> on_arcs ex_g34 (r_ni r) /\ on_arcs ex_g34 (r_nr r)) /\ 0 < freq tt "t" /\ 0 < freq tt "c" /\ ~ freq tt "t" == freq tt "c".
Proof.
  eexists. split; [vm_compute; reflexivity|]. split; [|split].
  - cbn. repeat constructor; cbn; intuition discriminate.
  - intros r [<-|[<-|[]]]; split; intros a b C; apply arcs_consecutive in C; revert C; vm_compute arcs_of; cbn [In]; intuition; match goal with E : (_, _) = (_, _) |- _ => inversion E; subst; vm_compute; reflexivity end.
  - vm_compute. intuition discriminate.
Qed.

(** ** C44, the cycle times *)
Definition dwell (z v : tab) (r : route) (S : list nat) : Q := Qsumf (fun d => Qsumf (stop_dwell (m_bya (r_mode r)) z v (r_id r) d) S) [DI; DR].
Lemma Qsumf_two {A} (h : A -> Q) a b : Qsumf h [a; b] == h a + h b.
Proof. rewrite !Qsumf_cons. unfold Qsumf. cbn. ring. Qed.
Lemma covers_read z0 v0 z v r S : read_of z0 v0 z -> read_of v0 z0 v -> covers S z0 v0 r -> covers S z v r.
Proof. intros RZ RV [A B]. split; auto. intros d s [H|H]; [apply (ro_key _ _ _ RZ) in H|apply (ro_key _ _ _ RV) in H]; apply (B d); tauto. Qed.
Lemma cycle_route_spec z0 v0 tt ct z v r : read_of z0 v0 z -> read_of v0 z0 v ->
  exists tc z' v', cycle_route tt (ct, z, v) r = (dset String.eqb ct (r_id r) tc, z', v') /\ read_of z0 v0 z' /\ read_of v0 z0 v' /\
    forall S, covers S z0 v0 (r_id r) -> tc == freq tt (r_id r) + m_t (r_mode r) / 3600 * dwell z0 v0 r S.
Proof.
  intros RZ RV. unfold cycle_route. set (t := m_t (r_mode r) / 3600).
  destruct (Qeqb (m_bya (r_mode r)) 0) eqn:B0; destruct (Qeqb (m_bya (r_mode r)) 1) eqn:B1.
  - apply Qeqb_eq in B0, B1. rewrite B0 in B1. discriminate.
  - do 3 eexists. split; [reflexivity|]. split; auto. split; auto. intros S HS.
    rewrite (dwell_seq_spec _ _ _ _ _ _ S), (dwell_seq_spec _ _ _ _ _ _ S); eauto using ro_wf, covers_read. unfold dwell. rewrite Qsumf_two. unfold stop_dwell. rewrite B0.
    rewrite (Qsumf_ext (fun s => tget z (r_id r) DR s + tget v (r_id r) DR s) (fun s => tget z0 (r_id r) DR s + tget v0 (r_id r) DR s)) by (intros; rewrite (ro_get _ _ _ RZ), (ro_get _ _ _ RV); reflexivity).
    rewrite (Qsumf_ext (fun s => tget z (r_id r) DI s + tget v (r_id r) DI s) (fun s => tget z0 (r_id r) DI s + tget v0 (r_id r) DI s)) by (intros; rewrite (ro_get _ _ _ RZ), (ro_get _ _ _ RV); reflexivity).
    ring.
  - destruct (dwell_sim_spec z0 v0 t z v (r_id r) DI (freq tt (r_id r)) RZ RV) as (tc1 & z1 & v1 & E1 & RZ1 & RV1 & _ & _ & _ & _ & H1).
    destruct (dwell_sim_spec z0 v0 t z1 v1 (r_id r) DR tc1 RZ1 RV1) as (tc2 & z2 & v2 & E2 & RZ2 & RV2 & _ & _ & _ & _ & H2).
    exists tc2, z2, v2. rewrite E1, E2. split; auto. split; auto. split; auto. intros S HS. rewrite (H2 S HS), (H1 S HS). unfold dwell. rewrite Qsumf_two. unfold stop_dwell. rewrite B0, B1. ring.
  - do 3 eexists. split; [reflexivity|]. split; auto. split; auto. intros S HS. unfold dwell. rewrite Qsumf_two. unfold stop_dwell. rewrite B0, B1. rewrite !(Qsumf_zero (fun _ => 0)) by (intros; reflexivity). ring.
Qed.
Lemma cycle_fold z0 v0 tt : forall rs ct z v, read_of z0 v0 z -> read_of v0 z0 v -> NoDup (map r_id rs) ->
  exists ct' z' v', fold_left (cycle_route tt) rs (ct, z, v) = (ct', z', v') /\ read_of z0 v0 z' /\ read_of v0 z0 v' /\
    (forall k, ~ In k (map r_id rs) -> freq ct' k = freq ct k) /\
    forall r S, In r rs -> covers S z0 v0 (r_id r) -> freq ct' (r_id r) == freq tt (r_id r) + m_t (r_mode r) / 3600 * dwell z0 v0 r S.
Proof.
  induction rs as [|r rs IH]; intros ct z v RZ RV ND; cbn [fold_left].
  - exists ct, z, v. split; auto. split; auto. split; auto. split; auto. intros r S [].
  - inversion ND; subst. destruct (cycle_route_spec z0 v0 tt ct z v r RZ RV) as (tc & z1 & v1 & E & RZ1 & RV1 & HT). rewrite E.
    destruct (IH (dset String.eqb ct (r_id r) tc) z1 v1 RZ1 RV1 H2) as (ct' & z' & v' & E' & RZ' & RV' & K & A). exists ct', z', v'. split; auto. split; auto. split; auto. split.
    + intros k Hk. rewrite K by (intro; apply Hk; right; auto). unfold freq. rewrite (dget0_dset String.eqb Seqb_spec). destruct (k =? r_id r)%string eqn:E1; auto. apply String.eqb_eq in E1. subst. exfalso. apply Hk. left. auto.
    + intros r' S [<-|Hr] HS; [|eauto]. rewrite K by auto. unfold freq at 1. rewrite (dget0_dset String.eqb Seqb_spec), String.eqb_refl. auto.
Qed.
(** The cycle time of a route is its travel time plus the time of one passenger for each stop and direction:
    boardings plus alightings for a sequential mode, the larger of both for a simultaneous one. The call leaves
    the values of the tables as they were. *)
Theorem C44_cycle_time : forall z v rs tt ct z' v', tab_wf z -> tab_wf v -> NoDup (map r_id rs) -> get_cycle_time z v rs tt = (ct, z', v') ->
  (forall r S, In r rs -> covers S z v (r_id r) ->
    freq ct (r_id r) == freq tt (r_id r) + m_t (r_mode r) / 3600 * Qsumf (fun d => Qsumf (stop_dwell (m_bya (r_mode r)) z v (r_id r) d) S) [DI; DR]) /\
  (forall r d s, tget z' r d s = tget z r d s /\ tget v' r d s = tget v r d s).
Proof.
  intros z v rs tt ct z' v' WZ WV ND E. destruct (cycle_fold z v tt rs [] z v (read_refl _ _ WZ) (read_refl _ _ WV) ND) as (ct1 & z1 & v1 & E1 & RZ & RV & _ & A). assert (EE : (ct, z', v') = (ct1, z1, v1)) by (etransitivity; [symmetry; exact E|exact E1]). inversion EE; subst. split.
  - intros r S Hr HS. apply A; auto.
  - intros. split; [apply RZ|apply RV].
Qed.
Print Assumptions C44_cycle_time.
Lemma stop_dwell_nonneg bya z v r d s : 0 <= tget z r d s -> 0 <= tget v r d s -> 0 <= stop_dwell bya z v r d s.
Proof. intros A B. unfold stop_dwell. destruct (Qeqb bya 0); [lra|]. destruct (Qeqb bya 1); [|lra]. unfold Qmaxb. destruct (Qltb _ _); auto. Qed.
Lemma covers_exists z v r : exists S, covers S z v r.
Proof.
  set (L := map fst (trow z r DI) ++ map fst (trow v r DI) ++ map fst (trow z r DR) ++ map fst (trow v r DR)). exists (nodup Nat.eq_dec L). split; [apply NoDup_nodup|]. intros d s H. apply nodup_In. unfold L. rewrite !in_app_iff. destruct d; tauto.
Qed.
(** Loading passengers never shortens a cycle. *)
Theorem C44_not_less_than_travel : forall z v rs tt ct z' v', tab_wf z -> tab_wf v -> NoDup (map r_id rs) -> get_cycle_time z v rs tt = (ct, z', v') ->
  forall r, In r rs -> 0 <= m_t (r_mode r) -> (forall d s, 0 <= tget z (r_id r) d s /\ 0 <= tget v (r_id r) d s) -> freq tt (r_id r) <= freq ct (r_id r).
Proof.
  intros z v rs tt ct z' v' WZ WV ND E r Hr Ht HN. destruct (C44_cycle_time z v rs tt ct z' v' WZ WV ND E) as [A _]. destruct (covers_exists z v (r_id r)) as (S & HS). rewrite (A r S Hr HS).
  assert (0 <= m_t (r_mode r) / 3600) by (apply Qle_shift_div_l; lra). assert (0 <= Qsumf (fun d => Qsumf (stop_dwell (m_bya (r_mode r)) z v (r_id r) d) S) [DI; DR]) by (apply Qsumf_nonneg; intros; apply Qsumf_nonneg; intros; apply stop_dwell_nonneg; apply HN). nra.
Qed.
Print Assumptions C44_not_less_than_travel.
(** With the same tables, boarding and alighting at the same time takes at most as long as one after the other,
    and at least half of it. *)
Theorem C44_simultaneous_faster : forall z v rs1 rs2 tt ct1 ct2 z1 v1 z2 v2, tab_wf z -> tab_wf v -> NoDup (map r_id rs1) -> NoDup (map r_id rs2) ->
  get_cycle_time z v rs1 tt = (ct1, z1, v1) -> get_cycle_time z v rs2 tt = (ct2, z2, v2) ->
  forall r1 r2, In r1 rs1 -> In r2 rs2 -> r_id r1 = r_id r2 -> m_t (r_mode r1) == m_t (r_mode r2) -> 0 <= m_t (r_mode r1) ->
    m_bya (r_mode r1) == 1 -> m_bya (r_mode r2) == 0 -> (forall d s, 0 <= tget z (r_id r1) d s /\ 0 <= tget v (r_id r1) d s) ->
    freq ct1 (r_id r1) <= freq ct2 (r_id r2) /\ freq ct2 (r_id r2) - freq tt (r_id r2) <= 2 * (freq ct1 (r_id r1) - freq tt (r_id r1)).
Proof.
  intros z v rs1 rs2 tt ct1 ct2 z1 v1 z2 v2 WZ WV ND1 ND2 E1 E2 r1 r2 H1 H2 EI ET Ht B1 B2 HN.
  destruct (C44_cycle_time z v rs1 tt ct1 z1 v1 WZ WV ND1 E1) as [A1 _]. destruct (C44_cycle_time z v rs2 tt ct2 z2 v2 WZ WV ND2 E2) as [A2 _]. destruct (covers_exists z v (r_id r1)) as (S & HS).
  pose proof (A1 r1 S H1 HS) as F1. assert (HS2 : covers S z v (r_id r2)) by (rewrite <- EI; auto). pose proof (A2 r2 S H2 HS2) as F2.
  set (s1 := Qsumf (fun d => Qsumf (stop_dwell (m_bya (r_mode r1)) z v (r_id r1) d) S) [DI; DR]) in *. set (s2 := Qsumf (fun d => Qsumf (stop_dwell (m_bya (r_mode r2)) z v (r_id r2) d) S) [DI; DR]) in *.
  assert (Q0 : Qeqb (m_bya (r_mode r2)) 0 = true) by (apply Qeqb_eq; auto). assert (Q1 : Qeqb (m_bya (r_mode r1)) 1 = true) by (apply Qeqb_eq; auto).
  assert (Q2 : Qeqb (m_bya (r_mode r1)) 0 = false) by (destruct (Qeqb (m_bya (r_mode r1)) 0) eqn:E; auto; apply Qeqb_eq in E; rewrite B1 in E; discriminate).
  assert (LE : s1 <= s2). { unfold s1, s2, stop_dwell. rewrite Q0, Q1, Q2, <- EI. apply Qsumf_le. intros d _. apply Qsumf_le. intros s _. destruct (HN d s). unfold Qmaxb. destruct (Qltb _ _); lra. }
  assert (GE : s2 <= 2 * s1). { unfold s1, s2, stop_dwell. rewrite Q0, Q1, Q2, <- EI. rewrite <- Qsumf_scal. apply Qsumf_le. intros d _. rewrite <- Qsumf_scal. apply Qsumf_le. intros s _. destruct (HN d s). unfold Qmaxb. destruct (Qltb _ _) eqn:E; [apply Qltb_lt in E; lra|]. apply Qltb_ge in E. lra. }
  assert (T : 0 <= m_t (r_mode r1) / 3600) by (apply Qle_shift_div_l; lra). assert (TE : m_t (r_mode r2) / 3600 == m_t (r_mode r1) / 3600) by (rewrite ET; reflexivity). rewrite F1, F2, TE, EI. split; nra.
Qed.
Print Assumptions C44_simultaneous_faster.
Example C44_ex : exists asg T tt ct z' v', get_assignment ex_X3 12 4 (822 # 100) (274 # 100) ex_es41 = Ok asg /\ get_alighting_and_boarding 60 ex_X3 ex_f41 ex_es41 asg = Ok T /\
  tab_wf (t_z T) /\ tab_wf (t_v T) /\ NoDup (map r_id [ex_tang; ex_tang_metro]) /\ m_bya (r_mode ex_tang) == 1 /\ m_bya (r_mode ex_tang_metro) == 0 /\
  lines_travel_time [ex_tang; ex_tang_metro] (get_edges_distance ex_geo ex_g34) = Ok tt /\ get_cycle_time (t_z T) (t_v T) [ex_tang; ex_tang_metro] tt = (ct, z', v') /\
  freq tt "t" < freq ct "t" /\ freq tt "m" < freq ct "m".
Proof.
  destruct C42_ex as (asg & T & _ & E1 & E2 & _). exists asg, T. destruct (gab_wf _ _ _ _ _ _ E2) as (W1 & W2 & _).
  assert (K : exists tt ct z' v', lines_travel_time [ex_tang; ex_tang_metro] (get_edges_distance ex_geo ex_g34) = Ok tt /\ get_cycle_time (t_z T) (t_v T) [ex_tang; ex_tang_metro] tt = (ct, z', v') /\ freq tt "t" < freq ct "t" /\ freq tt "m" < freq ct "m").
  { vm_compute in E1. inversion E1; subst asg. vm_compute in E2. inversion E2; subst T. do 4 eexists. split; [vm_compute; reflexivity|]. split; [vm_compute; reflexivity|]. split; vm_compute; reflexivity. }
  destruct K as (tt & ct & z' & v' & K1 & K2 & K3 & K4). exists tt, ct, z', v'. split; [exact E1|]. split; [exact E2|]. split; [exact W1|]. split; [exact W2|]. split; [cbn; repeat constructor; cbn; intuition discriminate|]. split; [reflexivity|]. split; [reflexivity|]. split; [exact K1|]. split; [exact K2|]. split; [exact K3|exact K4].
Qed.

(** ** C45 *)
Lemma fold_ops (h : route -> Q) f : forall rs co, fold_left (fun co r => if Qeqb (freq f (r_id r)) 0 then co else co + h r) rs co == co + Qsumf (fun r => if Qeqb (freq f (r_id r)) 0 then 0 else h r) rs.
Proof. induction rs as [|r rs IH]; intro co; cbn [fold_left]; [unfold Qsumf; cbn; ring|]. rewrite IH, Qsumf_cons. destruct (Qeqb (freq f (r_id r)) 0); ring. Qed.
(** The operators' cost is the sum, over the routes that run, of fleet (frequency times cycle time) times the
    cost per vehicle; routes that do not run add nothing whatever their cycle time or capacity. *)
Theorem C45_operators_cost : forall rs ct f k, get_operators_cost rs ct f k ==
  Qsumf (fun r => (m_co (r_mode r) + m_c1 (r_mode r) * freq k (r_id r)) * (freq f (r_id r) * freq ct (r_id r))) (filter (fun r => negb (Qeqb (freq f (r_id r)) 0)) rs).
Proof.
  intros rs ct f k. unfold get_operators_cost. rewrite fold_ops. rewrite Qplus_0_l. induction rs as [|r rs IH]; [reflexivity|]. cbn [filter]. rewrite Qsumf_cons, IH. destruct (Qeqb (freq f (r_id r)) 0); cbn [negb]; [ring|]. rewrite Qsumf_cons. ring.
Qed.
Print Assumptions C45_operators_cost.
Theorem C45_additive : forall rs1 rs2 ct f k, get_operators_cost (rs1 ++ rs2) ct f k == get_operators_cost rs1 ct f k + get_operators_cost rs2 ct f k.
Proof. intros. rewrite !C45_operators_cost, filter_app, Qsumf_app. reflexivity. Qed.
Print Assumptions C45_additive.
Theorem C45_order_irrelevant : forall rs1 rs2 ct f k, Permutation rs1 rs2 -> get_operators_cost rs1 ct f k == get_operators_cost rs2 ct f k.
Proof. intros rs1 rs2 ct f k P. induction P; [reflexivity| | |etransitivity; eauto]; rewrite !C45_operators_cost in *; cbn [filter] in *; repeat match goal with |- context [if ?b then _ else _] => destruct b end; rewrite ?Qsumf_cons; try (rewrite IHP; reflexivity); try ring. Qed.
Print Assumptions C45_order_irrelevant.
Theorem C45_nonneg : forall rs ct f k, (forall r, In r rs -> 0 <= m_co (r_mode r) /\ 0 <= m_c1 (r_mode r) /\ 0 <= freq k (r_id r) /\ 0 <= freq f (r_id r) /\ 0 <= freq ct (r_id r)) -> 0 <= get_operators_cost rs ct f k.
Proof.
  intros rs ct f k H. rewrite C45_operators_cost. apply Qsumf_nonneg. intros r Hr. apply filter_In in Hr. destruct (H r (proj1 Hr)) as (A & B & C & D & E).
  apply Qmult_le_0_compat; [|apply Qmult_le_0_compat; auto]. pose proof (Qmult_le_0_compat _ _ B C). lra.
Qed.
Print Assumptions C45_nonneg.
Example C45_ex : get_operators_cost [ex_tang; ex_ring] [("t"%string, 1 # 2); ("c"%string, 7)] [("t"%string, 10)] [("t"%string, 100)] == ((861 # 100) + (15 # 100) * 100) * (10 * (1 # 2)).
Proof. reflexivity. Qed.

(** ** C46 *)
Definition uses (m : mode) (f : fdict) (a : Z * Z) (rs : list route) : bool :=
  existsb (fun r => mode_eqb (r_mode r) m && negb (Qeqb (freq f (r_id r)) 0) && (arc_in a (arcs_of (r_ni r)) || arc_in a (arcs_of (r_nr r)))) rs.
Lemma arc_in_In a l : arc_in a l = true <-> In a l.
Proof.
  unfold arc_in. rewrite existsb_exists. split.
  - intros (b & Hb & E). apply andb_true_iff in E. destruct E as [E1 E2]. apply Z.eqb_eq in E1, E2. destruct a, b. cbn in *. subst. auto.
  - intro H. exists a. split; auto. rewrite !Z.eqb_refl. auto.
Qed.
Lemma count_edge_spec m f a de : forall rs st, count_edge m f a de rs st =
  if uses m f a rs && negb (arc_in a (snd st)) then (Some ((match fst st with Some q => q | None => 0 end) + de * m_d m), snd st ++ [a; (snd a, fst a)]) else st.
Proof.
  induction rs as [|r rs IH]; intro st; cbn [count_edge uses existsb]; auto. rewrite IH. unfold seq_hits. fold (uses m f a rs).
  destruct (mode_eqb (r_mode r) m), (Qeqb (freq f (r_id r)) 0), (arc_in a (arcs_of (r_ni r))), (arc_in a (arcs_of (r_nr r))), (arc_in a (snd st)), (uses m f a rs); reflexivity.
Qed.
Lemma edge_pairs_exist g a b : In (a, b) (edge_pairs g) <-> edge_exist g a b = true.
Proof.
  rewrite edge_exist_In. unfold edge_pairs. rewrite in_flat_map, in_map_iff. split.
  - intros (e & He & H). exists e. split; auto. destruct (edge_ends g e) as [p|]; [|contradiction]. destruct H as [->|[]]. auto.
  - intros (e & E & He). exists e. split; auto. rewrite E. left. auto.
Qed.
Lemma uses_spec g rs f m a b : edge_exist g a b = true -> (uses m f (a, b) rs = true <-> used_arc g rs f m a b).
Proof.
  intro EE. unfold uses, used_arc, goes_over. rewrite existsb_exists. split.
  - intros (r & Hr & E). split; auto. exists r. split; auto. apply andb_true_iff in E. destruct E as [E E3]. apply andb_true_iff in E. destruct E as [E1 E2]. apply Z.eqb_eq in E1. split; auto. split.
    + intro C. apply Qeqb_eq in C. rewrite C in E2. discriminate.
    + apply orb_true_iff in E3. rewrite <- !arcs_consecutive. destruct E3 as [E3|E3]; apply arc_in_In in E3; auto.
  - intros (_ & r & Hr & E1 & E2 & E3). exists r. split; auto. unfold mode_eqb. rewrite E1, Z.eqb_refl. cbn [andb]. apply andb_true_iff. split.
    + destruct (Qeqb (freq f (r_id r)) 0) eqn:E; auto. apply Qeqb_eq in E. contradiction.
    + apply orb_true_iff. rewrite !arc_in_In, !arcs_consecutive. auto.
Qed.
Definition optq (o : option Q) : Q := match o with Some q => q | None => 0 end.
(** U lists the streets counted so far, [L] the edges seen so far *)
Lemma count_fold D m f rs : forall L st U, (forall x, In x (snd st) <-> In x U \/ In (snd x, fst x) U) -> NoDup U -> (forall a b, In (a, b) U -> In (b, a) U -> a = b) ->
  exists U', let st' := fold_left (fun st a => count_edge m f a (dist0 D (fst a) (snd a)) rs st) L st in
    optq (fst st') == optq (fst st) + m_d m * Qsumf (fun a => dist0 D (fst a) (snd a)) U' /\ NoDup (U ++ U') /\ (forall a b, In (a, b) (U ++ U') -> In (b, a) (U ++ U') -> a = b) /\
    (forall a, In a U' -> In a L /\ uses m f a rs = true) /\ (forall a, In a L -> uses m f a rs = true -> In a (U ++ U') \/ In (snd a, fst a) (U ++ U')) /\ (fst st = None -> U' = [] -> fst st' = None).
Proof.
  induction L as [|a L IH]; intros st U HS ND AS; cbn [fold_left].
  - exists []. rewrite app_nil_r. split; [unfold Qsumf; cbn; ring|]. split; auto. split; auto. split; [intros a []|]. split; [intros a []|auto].
  - rewrite count_edge_spec. destruct (uses m f a rs && negb (arc_in a (snd st)))%bool eqn:E.
    + apply andb_true_iff in E. destruct E as [E1 E2]. assert (NS : ~ In a (snd st)) by (intro C; apply arc_in_In in C; rewrite C in E2; discriminate). rewrite HS in NS.
      destruct (IH (Some (optq (fst st) + dist0 D (fst a) (snd a) * m_d m), snd st ++ [a; (snd a, fst a)]) (U ++ [a])) as (U' & F1 & F2 & F3 & F4 & F5 & _).
      { intros [x y]. cbn [snd fst]. rewrite !in_app_iff, HS. cbn [In fst snd]. destruct a as [p q]. cbn [fst snd]. split; [intros [[H|H]|[H|[H|[]]]]; auto; inversion H; subst; auto|intros [[H|[H|[]]]|[H|[H|[]]]]; auto; inversion H; subst; auto]. }
      { apply NoDup_app; auto; [repeat constructor; auto|]. intros x Hx [<-|[]]. tauto. }
      { intros x y Hx Hy. rewrite in_app_iff in Hx, Hy. cbn [In] in Hx, Hy. destruct Hx as [Hx|[->|[]]], Hy as [Hy|[Hy|[]]]; auto; [subst a; cbn in NS; tauto|cbn in NS; tauto|congruence]. }
      exists (a :: U'). replace (U ++ a :: U') with ((U ++ [a]) ++ U') by (rewrite <- app_assoc; reflexivity). cbn zeta in *. fold (optq (fst st)). split.
      { rewrite F1, Qsumf_cons. cbn [fst optq]. ring. } split; auto. split; auto. split.
      { intros x [<-|Hx]; [split; [left; auto|auto]|]. destruct (F4 x Hx). split; [right; auto|auto]. } split; [|intros _ C; discriminate].
      intros x [<-|Hx] Ux; [|auto]. left. apply in_or_app. left. apply in_or_app. right. left. auto.
    + destruct (IH st U HS ND AS) as (U' & F1 & F2 & F3 & F4 & F5 & F6). exists U'. cbn zeta in *. split; auto. split; auto. split; auto. split; [intros x Hx; destruct (F4 x Hx); split; [right; auto|auto]|]. split; [|auto].
      intros x [<-|Hx] Ux; [|auto]. rewrite Ux in E. cbn [andb] in E. apply negb_false_iff in E. apply arc_in_In in E. apply HS in E. destruct E as [E|E]; [left|right]; apply in_or_app; auto.
Qed.
Lemma mode_dget_snoc (acc : list (mode * Q)) m q : dget mode_eqb acc m = None -> dset mode_eqb acc m q = acc ++ [(m, q)].
Proof. induction acc as [|[k v] acc IH]; cbn; auto. destruct (mode_eqb m k); [discriminate|]. intro H. rewrite IH; auto. Qed.
Lemma mode_dget_none (acc : list (mode * Q)) m : (forall k v, In (k, v) acc -> m_ref k <> m_ref m) -> dget mode_eqb acc m = None.
Proof. induction acc as [|[k v] acc IH]; cbn; auto. intro H. unfold mode_eqb at 1. destruct (m_ref m =? m_ref k)%Z eqn:E; [apply Z.eqb_eq in E; exfalso; eapply H; [left; reflexivity|auto]|]. eauto. Qed.
Lemma mode_fold D g rs f : forall ms acc, (forall k v m, In (k, v) acc -> In m ms -> m_ref k <> m_ref m) -> NoDup (map m_ref ms) ->
  fold_left (fun acc m => match mode_distance D g rs f m (dget mode_eqb acc m) with Some q => dset mode_eqb acc m q | None => acc end) ms acc =
  acc ++ flat_map (fun m => match mode_distance D g rs f m None with Some q => [(m, q)] | None => [] end) ms.
Proof.
  induction ms as [|m ms IH]; intros acc HD ND; cbn [fold_left flat_map]; [rewrite app_nil_r; auto|]. inversion ND; subst. assert (DN : dget mode_eqb acc m = None) by (apply mode_dget_none; intros k v Hk; apply (HD k v m Hk (or_introl eq_refl))).
  rewrite DN. destruct (mode_distance D g rs f m None) as [q|].
  - rewrite mode_dget_snoc by auto. rewrite IH; auto; [rewrite <- app_assoc; auto|]. intros k v m' Hk Hm'. apply in_app_iff in Hk. destruct Hk as [Hk|[Hk|[]]]; [apply (HD k v m' Hk (or_intror Hm'))|]. inversion Hk; subst. intro C. apply H1. rewrite C. apply in_map. auto.
  - rewrite IH; auto. intros k v m' Hk Hm'. apply (HD k v m' Hk (or_intror Hm')).
Qed.
Lemma mode_get_flat (h : mode -> option Q) m : forall ms, NoDup (map m_ref ms) -> In m ms -> dget mode_eqb (flat_map (fun m => match h m with Some q => [(m, q)] | None => [] end) ms) m = h m.
Proof.
  induction ms as [|m0 ms IH]; intros ND HI; [contradiction|]. inversion ND; subst. cbn [flat_map]. destruct HI as [->|HI].
  - destruct (h m) as [q|] eqn:E; cbn [app dget]; [unfold mode_eqb; rewrite Z.eqb_refl; auto|]. apply mode_dget_none. intros k v Hk C. apply in_flat_map in Hk. destruct Hk as (m' & Hm' & Hk). destruct (h m'); [|contradiction]. destruct Hk as [Hk|[]]. inversion Hk; subst. apply H1. rewrite <- C. apply in_map. auto.
  - destruct (h m0) as [q|]; cbn [app dget]; auto. unfold mode_eqb at 1. destruct (m_ref m =? m_ref m0)%Z eqn:E; auto. apply Z.eqb_eq in E. exfalso. apply H1. rewrite <- E. apply in_map. auto.
Qed.
Lemma dist0_is G g dist a b : NoDup (map nd_id (g_nodes g)) -> is_distance G g dist -> edge_exist g a b = true -> dist0 (get_edges_distance G g) a b == dist a b.
Proof.
  intros ND HD EE. destruct (proj2 (edges_distance_spec G g a b) EE) as (v & Ev). unfold dist0. rewrite Ev. destruct (proj1 (edges_distance_spec G g a b) v Ev) as (e & He & na & nb & Na & Nb & Ia & Ib & ->). rewrite <- Ia, <- Ib. symmetry. apply HD; eapply nth_error_In; eauto.
Qed.
Lemma dist_sym G g dist a b : (forall x y, x == y -> geo_sqrt G x == geo_sqrt G y) -> is_distance G g dist -> edge_exist g a b = true -> dist a b == dist b a.
Proof.
  intros HP HD EE. destruct (proj2 (edges_distance_spec G g a b) EE) as (v & Ev). destruct (proj1 (edges_distance_spec G g a b) v Ev) as (e & He & na & nb & Na & Nb & Ia & Ib & _). apply nth_error_In in Na, Nb. rewrite <- Ia, <- Ib, (HD na nb), (HD nb na) by auto. unfold euclid. apply HP. ring.
Qed.
Definition canon (p : Z * Z) : Z * Z := (Z.min (fst p) (snd p), Z.max (fst p) (snd p)).
Lemma canon_eq a b c d : canon (a, b) = canon (c, d) <-> (a = c /\ b = d) \/ (a = d /\ b = c).
Proof. unfold canon. cbn [fst snd]. split; [intro E; inversion E; lia|]. intros [[-> ->]|[-> ->]]; auto. f_equal; lia. Qed.
Lemma streets_sum G g rs f m rs' f' m' dist U U' : (forall x y, x == y -> geo_sqrt G x == geo_sqrt G y) -> is_distance G g dist ->
  (forall a b, used_arc g rs f m a b \/ used_arc g rs f m b a <-> used_arc g rs' f' m' a b \/ used_arc g rs' f' m' b a) -> streets g rs f m U -> streets g rs' f' m' U' ->
  Qsumf (fun p => dist (fst p) (snd p)) U == Qsumf (fun p => dist (fst p) (snd p)) U'.
Proof.
  intros HP HD HU S1 S2. set (h := fun p : Z * Z => dist (fst p) (snd p)).
  assert (HC : forall rs f m U, streets g rs f m U -> Qsumf h U == Qsumf h (map canon U)).
  { clear - HP HD. intros rs f m U (_ & B & _ & _). rewrite Qsumf_map. apply Qsumf_ext. intros [a b] Hp. unfold h, canon. cbn [fst snd]. destruct (Z.le_ge_cases a b) as [L|L]; [rewrite Z.min_l, Z.max_r by auto; reflexivity|]. rewrite Z.min_r, Z.max_l by auto.
    destruct (B a b Hp) as [[E _]|[E _]]; [apply (dist_sym G g dist a b HP HD E)|symmetry; apply (dist_sym G g dist b a HP HD E)]. }
  assert (HN : forall rs f m U, streets g rs f m U -> NoDup (map canon U)).
  { clear. intros rs f m U (A & _ & _ & D). apply Props_Predef.NoDup_map_inj_in; auto. intros [a b] [c d] H1 H2 E. apply canon_eq in E. destruct E as [[-> ->]|[-> ->]]; auto. rewrite (D c d H2 H1). auto. }
  assert (HI : forall rs f m rs' f' m' U U', (forall a b, used_arc g rs f m a b \/ used_arc g rs f m b a -> used_arc g rs' f' m' a b \/ used_arc g rs' f' m' b a) -> streets g rs f m U -> streets g rs' f' m' U' -> incl (map canon U) (map canon U')).
  { clear. intros rs f m rs' f' m' U U' HU (_ & B & _ & _) (_ & _ & C & _) x Hx. apply in_map_iff in Hx. destruct Hx as ([a b] & <- & Hp). apply in_map_iff. apply B in Hp. apply HU in Hp. destruct Hp as [H|H]; apply C in H; destruct H as [H|H]; [exists (a, b)|exists (b, a)|exists (b, a)|exists (a, b)]; split; auto; apply canon_eq; auto. }
  rewrite (HC _ _ _ _ S1), (HC _ _ _ _ S2). apply Qsumf_perm. apply NoDup_Permutation; [eapply HN; eauto|eapply HN; eauto|]. intro x. split; [apply (HI rs f m rs' f' m'); auto; apply HU|apply (HI rs' f' m' rs f m); auto; apply HU].
Qed.
Lemma mode_distance_spec G g rs f m : NoDup (map nd_id (g_nodes g)) ->
  exists U, streets g rs f m U /\ forall dist, is_distance G g dist -> optq (mode_distance (get_edges_distance G g) g rs f m None) == m_d m * Qsumf (fun p => dist (fst p) (snd p)) U.
Proof.
  intro ND. destruct (count_fold (get_edges_distance G g) m f rs (edge_pairs g) (None, []) []) as (U & F1 & F2 & F3 & F4 & F5 & _); [intro x; cbn; tauto|constructor|intros a b []|]. cbn [app] in *. exists U.
  assert (UU : forall a b, In (a, b) U -> used_arc g rs f m a b). { intros a b H. destruct (F4 _ H) as [H1 H2]. apply edge_pairs_exist in H1. apply (uses_spec g rs f m a b); auto. }
  split; [split; [exact F2|split; [|split; [|exact F3]]]|].
  - intros a b H. left. auto.
  - intros a b H. destruct (F5 (a, b)) as [K|K]; auto; [apply edge_pairs_exist; apply H|apply (uses_spec g rs f m a b); [apply H|auto]].
  - intros dist HD. unfold mode_distance. rewrite F1. cbn [fst optq]. rewrite Qplus_0_l. apply Qmult_comp; [reflexivity|]. apply Qsumf_ext. intros [a b] H. cbn [fst snd]. apply dist0_is; auto. apply UU in H. apply H.
Qed.
(** The length built for a mode is its number of parallel lines d times the length of the streets that its
    running lines use, every street counted once whatever the directions, the number and the order of the lines.
    Such a list of streets exists. *)
Theorem C46_street_length : forall G g nw f m, (forall x y, x == y -> geo_sqrt G x == geo_sqrt G y) -> NoDup (map nd_id (g_nodes g)) -> NoDup (map m_ref (nw_modes nw)) -> In m (nw_modes nw) ->
  (exists U, streets g (nw_routes nw) f m U) /\
  forall U dist, streets g (nw_routes nw) f m U -> is_distance G g dist ->
    dget0 mode_eqb 0 (get_mode_network_distance G g nw f) m == m_d m * Qsumf (fun p => dist (fst p) (snd p)) U.
Proof.
  intros G g nw f m HP ND NM Hm. destruct (mode_distance_spec G g (nw_routes nw) f m ND) as (U0 & S0 & H0). split; [eauto|]. intros U dist SU HD. unfold get_mode_network_distance. rewrite mode_fold; auto. cbn [app]. unfold dget0. rewrite mode_get_flat by auto.
  change (optq (mode_distance (get_edges_distance G g) g (nw_routes nw) f m None) == m_d m * Qsumf (fun p => dist (fst p) (snd p)) U). rewrite (H0 dist HD). apply Qmult_comp; [reflexivity|]. apply (streets_sum G g (nw_routes nw) f m (nw_routes nw) f m); auto. reflexivity.
Qed.
Print Assumptions C46_street_length.
(** Two networks whose running lines use the same streets have the same built length; in particular
    repeating, reordering or reversing lines changes nothing. *)
Theorem C46_same_streets : forall G g nw nw' f f' m m', (forall x y, x == y -> geo_sqrt G x == geo_sqrt G y) -> NoDup (map nd_id (g_nodes g)) -> NoDup (map m_ref (nw_modes nw)) -> NoDup (map m_ref (nw_modes nw')) ->
  In m (nw_modes nw) -> In m' (nw_modes nw') -> m_d m == m_d m' ->
  (forall a b, used_arc g (nw_routes nw) f m a b \/ used_arc g (nw_routes nw) f m b a <-> used_arc g (nw_routes nw') f' m' a b \/ used_arc g (nw_routes nw') f' m' b a) ->
  dget0 mode_eqb 0 (get_mode_network_distance G g nw f) m == dget0 mode_eqb 0 (get_mode_network_distance G g nw' f') m'.
Proof.
  intros G g nw nw' f f' m m' HP ND NM NM' Hm Hm' Ed HU.
  assert (IS : exists dist, is_distance G g dist).
  { exists (fun a b => match find (fun n => (nd_id n =? a)%Z) (g_nodes g), find (fun n => (nd_id n =? b)%Z) (g_nodes g) with Some na, Some nb => euclid G na nb | _, _ => 0 end).
    assert (FI : forall n, In n (g_nodes g) -> find (fun n' => (nd_id n' =? nd_id n)%Z) (g_nodes g) = Some n).
    { intros n. revert ND. induction (g_nodes g) as [|x l IH]; intros ND Hn; [contradiction|]. inversion ND; subst. cbn [find]. destruct Hn as [->|Hn]; [rewrite Z.eqb_refl; auto|]. destruct (nd_id x =? nd_id n)%Z eqn:E; auto. apply Z.eqb_eq in E. exfalso. apply H1. rewrite E. apply in_map. auto. }
    intros na nb Ha Hb. rewrite !FI by auto. reflexivity. }
  destruct IS as (dist & HD). destruct (C46_street_length G g nw f m HP ND NM Hm) as [(U & SU) A]. destruct (C46_street_length G g nw' f' m' HP ND NM' Hm') as [(U' & SU') A']. rewrite (A U dist SU HD), (A' U' dist SU' HD), Ed. apply Qmult_comp; [reflexivity|]. apply (streets_sum G g (nw_routes nw) f m (nw_routes nw') f' m'); auto.
Qed.
Print Assumptions C46_same_streets.
(** The infrastructure cost is the built length of each mode times its unit cost. *)
Theorem C46_infrastructure_cost : forall G g nw f L dist, (forall x y, x == y -> geo_sqrt G x == geo_sqrt G y) -> NoDup (map nd_id (g_nodes g)) -> NoDup (map m_ref (nw_modes nw)) -> is_distance G g dist ->
  (forall m, In m (nw_modes nw) -> exists U, streets g (nw_routes nw) f m U /\ L m == Qsumf (fun p => dist (fst p) (snd p)) U) ->
  get_infrastructure_cost G g nw f == Qsumf (fun m => m_c2 m * (m_d m * L m)) (nw_modes nw).
Proof.
  intros G g nw f L dist HP ND NM HD HL. unfold get_infrastructure_cost, get_mode_network_distance. rewrite mode_fold; auto. cbn [app].
  assert (FC : forall l (c : Q), fold_left (fun ci '(m, q) => ci + m_c2 m * q) l c == c + Qsumf (fun '(m, q) => m_c2 m * q) l).
  { induction l as [|[m q] l IH]; intro c; cbn [fold_left]; [unfold Qsumf; cbn; ring|]. rewrite IH, Qsumf_cons. ring. }
  rewrite FC, Qplus_0_l. clear FC NM. set (M := nw_modes nw) in *. clearbody M. induction M as [|m ms IH]; [reflexivity|]. cbn [flat_map]. rewrite Qsumf_app, Qsumf_cons, IH by (intros; apply HL; right; auto). apply Qplus_comp; [|reflexivity].
  destruct (HL m (or_introl eq_refl)) as (U & SU & EU). destruct (mode_distance_spec G g (nw_routes nw) f m ND) as (U0 & S0 & H0). specialize (H0 dist HD). rewrite (streets_sum G g (nw_routes nw) f m (nw_routes nw) f m dist U0 U) in H0; auto; [|intros; reflexivity]. rewrite <- EU in H0.
  destruct (mode_distance _ g (nw_routes nw) f m None) as [q|]; cbn [optq] in H0.
  - transitivity (m_c2 m * q); [unfold Qsumf; cbn; ring|]. rewrite H0. ring.
  - transitivity 0; [reflexivity|]. rewrite <- H0. ring.
Qed.
Print Assumptions C46_infrastructure_cost.

(** two bus lines that share streets in opposite directions, one of them idle on the ring, and a metro *)
Definition ex_nw46 : network := mkNetwork ex_g34 [ex_tang; ex_tang_express; ex_tang_metro] ["t"; "te"; "m"]%string [ex_bus; ex_metro].
Definition ex_f46 : fdict := [("t", 10); ("te", 20); ("m", 0)]%string.
Example C46_ex : (forall x y, x == y -> geo_sqrt ex_geo x == geo_sqrt ex_geo y) /\ NoDup (map nd_id (g_nodes ex_g34)) /\ NoDup (map m_ref (nw_modes ex_nw46)) /\ In ex_bus (nw_modes ex_nw46) /\
  streets ex_g34 (nw_routes ex_nw46) ex_f46 ex_bus [(2, 1); (2, 4); (3, 4)]%Z /\ 0 < dget0 mode_eqb 0 (get_mode_network_distance ex_geo ex_g34 ex_nw46 ex_f46) ex_bus /\
  get_infrastructure_cost ex_geo ex_g34 ex_nw46 ex_f46 == 0 /\ 0 < get_infrastructure_cost ex_geo ex_g34 ex_nw46 [("m"%string, 1)].
Proof.
  split; [exact ex_sqrt_compat|]. split; [vm_compute; repeat constructor; cbn; intuition discriminate|]. split; [cbn; repeat constructor; cbn; intuition discriminate|]. split; [left; auto|]. split; [|vm_compute; intuition].
  split; [|split; [|split]].
  - repeat constructor; cbn; intuition discriminate.
  - assert (T : forall a b, In (a, b) (arcs_of (r_ni ex_tang) ++ arcs_of (r_nr ex_tang)) -> used_arc ex_g34 (nw_routes ex_nw46) ex_f46 ex_bus a b).
    { intros a b H. split.
      - vm_compute in H. repeat (destruct H as [H|H]; [inversion H; subst; vm_compute; reflexivity|]). destruct H.
      - exists ex_tang. split; [left; auto|]. split; auto. split; [vm_compute; discriminate|]. apply in_app_iff in H. unfold goes_over. rewrite <- !arcs_consecutive. tauto. }
    intros a b H. left. apply T. vm_compute. cbn [In] in H. intuition.
  - intros a b (_ & r & Hr & Em & Ef & Ho). unfold goes_over in Ho. rewrite <- !arcs_consecutive in Ho.
    cbn [nw_routes ex_nw46 In] in Hr. destruct Hr as [<-|[<-|[<-|[]]]]; [| |discriminate]; vm_compute in Ho; cbn [In];
      repeat match goal with H : _ \/ _ |- _ => destruct H end; try contradiction; match goal with H : (_, _) = (_, _) |- _ => inversion H; subst; intuition end.
  - intros a b H1 H2. cbn [In] in *. repeat match goal with H : _ \/ _ |- _ => destruct H end; try contradiction; repeat match goal with H : (_, _) = (_, _) |- _ => inversion H; clear H; subst end; try discriminate.
Qed.

(** ** C47 *)
Lemma passes_cons a b x y l : passes a b (x :: y :: l) = ((if (x =? a)%Z && (y =? b)%Z then 1 else 0) + passes a b (y :: l))%nat.
Proof. reflexivity. Qed.
Lemma Qofnat_plus n k : Qofnat (n + k) == Qofnat n + Qofnat k.
Proof. unfold Qofnat. rewrite Nat2Z.inj_add, inject_Z_plus. reflexivity. Qed.
Lemma qdiv_ok a b : ~ b == 0 -> qdiv a b = Ok (a / b).
Proof. intro H. unfold qdiv. destruct (Qeqb b 0) eqn:E; auto. apply Qeqb_eq in E. contradiction. Qed.
Lemma seq_freq_spec a b fr d : ~ d == 0 -> forall l s, exists q, seq_freq (a, b) l fr d s = Ok q /\ q == s + fr * Qofnat (passes a b l) / d.
Proof.
  intros Hd. induction l as [|x l IH]; intro s.
  - exists s. split; auto. unfold Qofnat. cbn. field. auto.
  - destruct l as [|y l]; [exists s; split; auto; unfold Qofnat; cbn; field; auto|]. unfold seq_freq. rewrite arcs_of_cons2. cbn [foldM fst snd]. rewrite passes_cons.
    assert (ST : forall u v, (str_of_Z u =? str_of_Z v)%string = (v =? u)%Z). { intros u v. destruct (str_of_Z u =? str_of_Z v)%string eqn:E, (v =? u)%Z eqn:F; auto; [apply String.eqb_eq in E; apply str_of_Z_inj in E; subst; rewrite Z.eqb_refl in F; discriminate|apply Z.eqb_eq in F; subst; rewrite String.eqb_refl in E; discriminate]. }
    rewrite !ST. destruct ((x =? a)%Z && (y =? b)%Z)%bool.
    + rewrite qdiv_ok by auto. cbn [bind]. destruct (IH (s + fr / d)) as (q & E1 & E2). exists q. split; [unfold seq_freq in E1; rewrite qdiv_ok in E1 by auto; exact E1|]. rewrite E2, Qofnat_plus. change (Qofnat 1) with 1. field. auto.
    + cbn [bind]. destruct (IH s) as (q & E1 & E2). exists q. split; [exact E1|]. rewrite E2. reflexivity.
Qed.
Lemma edge_mode_spec rs f a b m : ~ m_d m == 0 -> exists q, edge_mode_constrain rs f (a, b) m = Ok q /\ q == (vehicles rs f m a b - m_fmax m) / m_d m.
Proof.
  intro Hd. unfold edge_mode_constrain. rewrite qdiv_ok by auto. cbn [bind].
  assert (F : forall rs s, exists q, foldM (fun s r => if mode_eqb (r_mode r) m && negb (Qeqb (freq f (r_id r)) 0) then let* s := seq_freq (a, b) (r_ni r) (freq f (r_id r)) (m_d m) s in seq_freq (a, b) (r_nr r) (freq f (r_id r)) (m_d m) s else Ok s) rs s = Ok q /\ q == s + vehicles rs f m a b / m_d m).
  { clear rs. induction rs as [|r rs IH]; intro s; cbn [foldM]; [exists s; split; auto; unfold vehicles, Qsumf; cbn; field; auto|]. unfold vehicles. setoid_rewrite Qsumf_cons. fold (vehicles rs f m a b). unfold mode_eqb. destruct (m_ref (r_mode r) =? m_ref m)%Z; cbn [andb].
    - destruct (Qeqb (freq f (r_id r)) 0) eqn:E; cbn [negb].
      + apply Qeqb_eq in E. cbn [bind]. destruct (IH s) as (q & E1 & E2). exists q. split; auto. rewrite E2, E. field. auto.
      + destruct (seq_freq_spec a b (freq f (r_id r)) (m_d m) Hd (r_ni r) s) as (q1 & A1 & B1). rewrite A1. cbn [bind]. destruct (seq_freq_spec a b (freq f (r_id r)) (m_d m) Hd (r_nr r) q1) as (q2 & A2 & B2). rewrite A2. cbn [bind]. destruct (IH q2) as (q & E1 & E2). exists q. split; auto. rewrite E2, B2, B1, Qofnat_plus. field. auto.
    - cbn [bind]. destruct (IH s) as (q & E1 & E2). exists q. split; auto. rewrite E2. field. auto. }
  destruct (F rs 0) as (q & E1 & E2). rewrite E1. cbn [bind]. exists (q - m_fmax m / m_d m). split; auto. rewrite E2. field. auto.
Qed.
Lemma mapM_all {A B} (h : A -> res B) (P : A -> B -> Prop) : forall l, (forall x, In x l -> exists y, h x = Ok y /\ P x y) -> exists ys, mapM h l = Ok ys /\ Forall2 P l ys.
Proof.
  induction l as [|x l IH]; intro H; cbn [mapM]; [exists []; split; auto; constructor|]. destruct (H x (or_introl eq_refl)) as (y & E & Py). destruct IH as (ys & E' & F); [intros; apply H; right; auto|]. rewrite E. cbn [bind]. rewrite E'. cbn [bind]. exists (y :: ys). split; auto.
Qed.
(** The constraints have one entry per route and one per edge and mode, and they are all satisfied exactly when
    no route carries more than the capacity of its vehicles and no edge more vehicles of a mode than allowed. *)
Theorem C47_feasible : forall g rs ms f ml, (forall m, In m ms -> 0 < m_d m) -> (forall e, In e (g_edges g) -> edge_ends g e <> None) ->
  exists l, fmax_constrains g rs ms f = Ok l /\ length (most_loaded_constrains rs ml ++ l) = (length rs + length (g_edges g) * length ms)%nat /\
    ((forall q, In q (most_loaded_constrains rs ml ++ l) -> q <= 0) <->
     (forall r, In r rs -> freq ml (r_id r) <= m_kmax (r_mode r)) /\ (forall a b m, edge_exist g a b = true -> In m ms -> vehicles rs f m a b <= m_fmax m)).
Proof.
  intros g rs ms f ml Hd He.
  set (P := fun (a : Z * Z) (row : list Q) => Forall2 (fun m q => q == (vehicles rs f m (fst a) (snd a) - m_fmax m) / m_d m) ms row).
  destruct (mapM_all (fun a => mapM (edge_mode_constrain rs f a) ms) P (edge_pairs g)) as (rows & E & F).
  { intros [a b] _. apply mapM_all. intros m Hm. apply edge_mode_spec. specialize (Hd m Hm). lra. }
  exists (concat rows). unfold fmax_constrains. rewrite E. cbn [bind]. split; auto.
  assert (LP : length (edge_pairs g) = length (g_edges g)). { unfold edge_pairs. clear - He. induction (g_edges g) as [|e es IH]; auto. cbn [flat_map length]. rewrite app_length, IH by (intros; apply He; right; auto). destruct (edge_ends g e) as [p|] eqn:Ee; auto. exfalso. apply (He e); [left; auto|auto]. }
  split.
  - unfold most_loaded_constrains. rewrite app_length, map_length. f_equal. rewrite <- LP. clear - F. induction F; auto. cbn [concat length Nat.mul]. rewrite app_length, IHF. f_equal. symmetry. unfold P in H. clear - H. induction H; cbn; auto.
  - assert (K : (forall q, In q (concat rows) -> q <= 0) <-> (forall a b m, edge_exist g a b = true -> In m ms -> vehicles rs f m a b <= m_fmax m)).
    { assert (SG : forall x d, 0 < d -> (x / d <= 0 <-> x <= 0)). { intros x d H. split; intro K. - assert (x == x / d * d) by (field; lra). rewrite H0. nra. - apply Qle_shift_div_r; auto. lra. }
      split.
      - intros H a b m Hab Hm. apply edge_pairs_exist in Hab. assert (R : exists row, In row rows /\ P (a, b) row). { clear - F Hab. induction F; [contradiction|]. destruct Hab as [->|Hab]; [exists y; split; [left; auto|auto]|]. destruct (IHF Hab) as (row & R1 & R2). exists row. split; [right; auto|auto]. }
        destruct R as (row & R1 & R2). assert (R : exists q, In q row /\ q == (vehicles rs f m a b - m_fmax m) / m_d m). { unfold P in R2. cbn [fst snd] in R2. clear - R2 Hm. induction R2; [contradiction|]. destruct Hm as [->|Hm]; [exists y; split; [left; auto|auto]|]. destruct (IHR2 Hm) as (q & R3 & R4). exists q. split; [right; auto|auto]. }
        destruct R as (q & Q1 & Q2). assert (q <= 0) by (apply H; apply in_concat; eauto). rewrite Q2 in H0. apply SG in H0; [lra|auto].
      - intros H q Hq. apply in_concat in Hq. destruct Hq as (row & R1 & R2). assert (R : exists a b, In (a, b) (edge_pairs g) /\ P (a, b) row). { clear - F R1. induction F; [contradiction|]. destruct x as [a b]. destruct R1 as [->|R1]; [exists a, b; split; [left; auto|auto]|]. destruct (IHF R1) as (a' & b' & R2 & R3). exists a', b'. split; [right; auto|auto]. }
        destruct R as (a & b & A1 & A2). unfold P in A2. cbn [fst snd] in A2. assert (R : exists m, In m ms /\ q == (vehicles rs f m a b - m_fmax m) / m_d m). { clear - A2 R2. induction A2; [contradiction|]. destruct R2 as [->|R2]; [exists x; split; [left; auto|auto]|]. destruct (IHA2 R2) as (m & R3 & R4). exists m. split; [right; auto|auto]. }
        destruct R as (m & M1 & M2). rewrite M2. apply SG; [auto|]. apply edge_pairs_exist in A1. specialize (H a b m A1 M1). lra. }
    rewrite <- K. split.
    + intro H. split; [|intros; apply H; apply in_or_app; auto]. intros r Hr. assert (freq ml (r_id r) - m_kmax (r_mode r) <= 0) by (apply H; apply in_or_app; left; unfold most_loaded_constrains; apply in_map_iff; eauto). lra.
    + intros [H1 H2] q Hq. apply in_app_iff in Hq. destruct Hq as [Hq|Hq]; [|auto]. unfold most_loaded_constrains in Hq. apply in_map_iff in Hq. destruct Hq as (r & <- & Hr). specialize (H1 r Hr). lra.
Qed.
Print Assumptions C47_feasible.
(** A mode with d = 0, which TransportMode and the network accept, makes the constraints fail. *)
Theorem C47_zero_lines_refuted : exists args m r nw', new_mode args = Ok (tmode_of m) /\ m_d m == 0 /\ r_mode r = m /\ add_route (new_network ex_g34) r = (nw', None) /\
  fmax_constrains ex_g34 (nw_routes nw') (nw_modes nw') [(r_id r, 1)] = Err ZeroDivisionError.
Proof.
  exists (q_args "zero" 1 1 1 1 20 1 150 160 1 0 0 28), (mkMode 9 "zero" 1 1 1 1 20 1 0 160 1 0 0 0), (mkRoute "t" (mkMode 9 "zero" 1 1 1 1 20 1 0 160 1 0 0 0) [1;2]%Z [2;1]%Z [1;2]%Z [2;1]%Z CUSTOM). eexists. split; [vm_compute; reflexivity|]. split; [reflexivity|]. split; [reflexivity|]. split; [vm_compute; reflexivity|vm_compute; reflexivity].
Qed.
Print Assumptions C47_zero_lines_refuted.
Example C47_ex : (forall m, In m [ex_bus; ex_metro] -> 0 < m_d m) /\ (forall e, In e (g_edges ex_g34) -> edge_ends ex_g34 e <> None) /\
  vehicles (nw_routes ex_nw46) ex_f46 ex_bus 1 2 == 30 /\ exists l, fmax_constrains ex_g34 (nw_routes ex_nw46) [ex_bus; ex_metro] [("t"%string, 10); ("te"%string, 700); ("m"%string, 0)] = Ok l /\ Exists (fun q => 0 < q) l /\ Exists (fun q => q < 0) l.
Proof.
  split; [intros m [<-|[<-|[]]]; reflexivity|]. split; [|split; [reflexivity|]].
  - assert (K : forallb (fun e => match edge_ends ex_g34 e with Some _ => true | None => false end) (g_edges ex_g34) = true) by (vm_compute; reflexivity). intros e He. rewrite forallb_forall in K. specialize (K e He). revert K. generalize (edge_ends ex_g34 e). intros [p|] K C; discriminate.
  - eexists. split; [vm_compute; reflexivity|]. assert (X : forall h (l : list Q), existsb h l = true -> Exists (fun q => h q = true) l) by (intros h l H; apply existsb_exists in H; apply Exists_exists; auto).
    split; eapply Exists_impl; try (intros q H; apply Qltb_lt; exact H); apply X; vm_compute; reflexivity.
Qed.
