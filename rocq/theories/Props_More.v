(** * Props_More: the travel time of any line, whether or not its arcs are in the city (C43); better stops (C40) *)
From Coq Require Import String List ZArith QArith Bool Lia Lqa Qfield.
From Verif Require Import PyBase PyFacts PyStr Graph GraphProofs GeoEx Props_Graph Mode Route Network RouteSpec RouteProofs Props_Network ExtGraph ExtSpec ExtProofs Props_Ext Hyperpath HyperSpec HyperProofs HyperOpt Props_Hyper Assignment AssignSpec FlowSpec CostSpec TableProofs Props_Assign Props_Flow Costs Props_Cost.
Import ListNotations.
Local Open Scope Q_scope.

(** [counted_length G g l q]: q is the length of the steps of l that are arcs of the city *)
Inductive counted_length (G : geo) (g : graph) : list Z -> Q -> Prop :=
| cl_nil : counted_length G g [] 0
| cl_one z : counted_length G g [z] 0
| cl_arc a b l na nb q : In (Some (a, b)) (map (edge_ends g) (g_edges g)) -> at_id g a na -> at_id g b nb -> counted_length G g (b :: l) q ->
    counted_length G g (a :: b :: l) (euclid G na nb + q)
| cl_gap a b l q : ~ In (Some (a, b)) (map (edge_ends g) (g_edges g)) -> counted_length G g (b :: l) q -> counted_length G g (a :: b :: l) q.

Lemma counted G g : forall l, exists q, counted_length G g l q /\ q == Qsumf (fun a => dist0 (get_edges_distance G g) (fst a) (snd a)) (arcs_of l).
Proof.
  destruct l as [|a l]; [exists 0; split; [constructor|reflexivity]|]. revert a. induction l as [|b l IH]; intro a; [exists 0; split; [constructor|reflexivity]|].
  destruct (IH b) as (q & E1 & E2). destruct (dict2_get (get_edges_distance G g) a b) as [v|] eqn:Ev.
  - destruct (proj1 (edges_distance_spec G g a b) v Ev) as (e & He & na & nb & Na & Nb & Ia & Ib & ->). exists (euclid G na nb + q). split.
    + apply cl_arc; auto; try (split; auto; eapply nth_error_In; eauto). apply in_map_iff. exists e. split; auto. unfold edge_ends. rewrite Na, Nb, Ia, Ib. reflexivity.
    + rewrite arcs_of_cons2, Qsumf_cons. cbn [fst snd]. unfold dist0 at 1. rewrite Ev, E2. reflexivity.
  - exists q. split.
    + apply cl_gap; auto. intro H. apply edge_exist_In in H. destruct (proj2 (edges_distance_spec G g a b) H) as (v & E). congruence.
    + rewrite arcs_of_cons2, Qsumf_cons. cbn [fst snd]. unfold dist0 at 1. rewrite Ev, E2. ring.
Qed.
(** when ids are distinct there is only one such length *)
Lemma counted_unique G g : NoDup (map nd_id (g_nodes g)) -> forall l q, counted_length G g l q -> forall q', counted_length G g l q' -> q = q'.
Proof.
  intros ND l q H. induction H as [| |a b l na nb q Ha A B H IH|a b l q Hg H IH]; intros q' H'; inversion H'; subst; auto; try contradiction.
  - assert (U : forall z x y, at_id g z x -> at_id g z y -> x = y).
    { intros z x y [X1 X2] [Y1 Y2]. eapply (NoDup_map_eq nd_id); eauto. congruence. }
    rewrite (U _ _ _ A H4), (U _ _ _ B H6). f_equal. auto.
Qed.
(** The travel time of a line is the length of the arcs of the city in its two sequences over the speed of its mode; a step that
    is not an arc takes no time. *)
Theorem C43_any_line : forall G g rs, NoDup (map r_id rs) -> (forall r, In r rs -> ~ m_v (r_mode r) == 0) ->
  exists tt, lines_travel_time rs (get_edges_distance G g) = Ok tt /\
    forall r, In r rs -> exists qi qr, counted_length G g (r_ni r) qi /\ counted_length G g (r_nr r) qr /\ freq tt (r_id r) == (qi + qr) / m_v (r_mode r).
Proof.
  intros G g rs ND HV. set (D := get_edges_distance G g). set (h := fun r => let* tv := seq_time D (m_v (r_mode r)) (r_ni r) 0 in seq_time D (m_v (r_mode r)) (r_nr r) tv).
  destruct (fold_dset r_id h rs [] ND) as (tt & E & A1 & _).
  { intros r Hr. unfold h. destruct (seq_time_ok D _ (HV r Hr) (r_ni r) 0) as (q & E & _). rewrite E. cbn [bind]. destruct (seq_time_ok D _ (HV r Hr) (r_nr r) q) as (q' & E' & _). eauto. }
  exists tt. split.
  - etransitivity; [|exact E]. unfold lines_travel_time. clear. generalize (@nil (string * Q)). induction rs as [|r rs IH]; intro d; cbn [foldM]; auto. unfold h at 1. destruct (seq_time D (m_v (r_mode r)) (r_ni r) 0) as [q|]; cbn [bind]; auto. destruct (seq_time D (m_v (r_mode r)) (r_nr r) q); cbn [bind]; auto.
  - intros r Hr. destruct (counted G g (r_ni r)) as (qi & L1 & S1). destruct (counted G g (r_nr r)) as (qr & L2 & S2). exists qi, qr. split; auto. split; auto.
    destruct (seq_time_ok D _ (HV r Hr) (r_ni r) 0) as (q & E1 & Q1). destruct (seq_time_ok D _ (HV r Hr) (r_nr r) q) as (q' & E2 & Q2).
    unfold freq, dget0. rewrite (A1 r q' Hr); [|unfold h; rewrite E1; cbn [bind]; auto]. rewrite Q2, Q1. fold D in S1, S2. rewrite S1, S2. field. auto.
Qed.
(** ** C40: the share of a stop does not fall when it becomes better *)
Lemma share_bounds (a : list (nat * Q)) s : (forall k q, In (k, q) a -> 0 <= q <= 100) -> 0 <= dget0 Nat.eqb 0 a s <= 100.
Proof.
  intro H. unfold dget0. destruct (dget Nat.eqb a s) as [q|] eqn:E; [|lra]. induction a as [|[k v] a IH]; cbn [dget] in E; [discriminate|]. destruct (Nat.eqb s k); [injection E as <-; apply (H k); now left|apply IH; auto]. intros k0 q0 I. apply (H k0). now right.
Qed.
Theorem C40_better_stop : forall n p vp spa spv l1 l2 l1' l2' s1 s2 a a', (0 < n)%nat -> 0 < p -> 0 < vp -> 0 < spa -> 0 < spv -> s1 <> s2 ->
  let d2 := inject_Z (2 * Z.of_nat n) in
  share_two d2 p vp spa spv l1 l2 s1 s2 = Ok a -> ~ forgotten p vp spa spv d2 l1 l2 ->
  share_two d2 p vp spa spv l1' l2' s1 s2 = Ok a' -> ~ forgotten p vp spa spv d2 l1' l2' ->
  l1' - l2' <= l1 - l2 -> dget0 Nat.eqb 0 a s1 <= dget0 Nat.eqb 0 a' s1.
Proof.
  intros n p vp spa spv l1 l2 l1' l2' s1 s2 a a' Hn Hp Hvp Ha Hv Ns d2 E NF E' NF' LE. apply Qnot_lt_le. intro LT.
  assert (D2 : 1 <= d2). { unfold d2. change 1 with (inject_Z 1). rewrite <- Zle_Qle. lia. }
  destruct (share_range d2 p vp spa spv l1 l2 s1 s2 a ltac:(lra) ltac:(lra) Ha Hv D2 Ns E) as (B & _). destruct (share_range d2 p vp spa spv l1' l2' s1 s2 a' ltac:(lra) ltac:(lra) Ha Hv D2 Ns E') as (B' & _).
  pose proof (share_bounds a s1 (fun k q I => proj2 (B k q I))) as S. pose proof (share_bounds a' s1 (fun k q I => proj2 (B' k q I))) as S'. set (u := dget0 Nat.eqb 0 a s1) in *. set (u' := dget0 Nat.eqb 0 a' s1) in *.
  set (x := (u + u') / 200 * (p / 2)). assert (EX : x == (u + u') * p * (1 # 400)) by (unfold x; field). assert (X0 : 0 <= x <= p / 2). { rewrite EX. setoid_replace (p / 2) with (200 * p * (1 # 400)) by field. split; nra. }
  assert (AX : Qabs.Qabs x == x) by (apply Qabs.Qabs_pos; lra). 
  assert (L1 : Qabs.Qabs x < u / 100 * (p / 2)) by (rewrite AX, EX; setoid_replace (u / 100 * (p / 2)) with (2 * u * p * (1 # 400)) by field; nra).
  assert (L2 : u' / 100 * (p / 2) < Qabs.Qabs x) by (rewrite AX, EX; setoid_replace (u' / 100 * (p / 2)) with (2 * u' * p * (1 # 400)) by field; nra).
  destruct (proj2 (C40_indifference n p vp spa spv l1' l2' s1 s2 a' Hn Hp Hvp Ha Hv Ns E' NF' x ltac:(lra)) L2) as (i & Hi & K).
  pose proof (proj1 (C40_indifference n p vp spa spv l1 l2 s1 s2 a Hn Hp Hvp Ha Hv Ns E NF x ltac:(lra)) L1 i Hi) as K2. unfold total_cost in *. lra.
Qed.
Example C40_better_stop_ex : exists a a', share_two (inject_Z (2 * Z.of_nat 2)) 12 4 (822 # 100) (274 # 100) 1 1 1 2 = Ok a /\
  share_two (inject_Z (2 * Z.of_nat 2)) 12 4 (822 # 100) (274 # 100) 0 1 1 2 = Ok a' /\
  ~ forgotten 12 4 (822 # 100) (274 # 100) (inject_Z (2 * Z.of_nat 2)) 1 1 /\ ~ forgotten 12 4 (822 # 100) (274 # 100) (inject_Z (2 * Z.of_nat 2)) 0 1 /\
  dget0 Nat.eqb 0 a 1%nat < dget0 Nat.eqb 0 a' 1%nat.
Proof.
  do 2 eexists. split; [vm_compute; reflexivity|]. split; [vm_compute; reflexivity|].
  split; [intros (_ & _ & F); vm_compute in F; discriminate|]. split; [intros (_ & _ & F); vm_compute in F; discriminate|]. vm_compute. reflexivity.
Qed.
Print Assumptions C43_any_line.
(** a line that goes out on arcs and returns by a step that is not one, beside a line of the city *)
Example C43_any_ex : exists q, lines_travel_time [mkRoute "x" ex_bus [1;2;0]%Z [0;1]%Z [1;2;0]%Z [0;1]%Z CUSTOM; ex_tang] (get_edges_distance ex_geo ex_g34) = Ok q /\
  edge_exist ex_g34 0 1 = false /\ edge_exist ex_g34 1 2 = true /\ 0 < freq q "x".
Proof. eexists. split; [vm_compute; reflexivity|]. repeat split; vm_compute; reflexivity. Qed.
Print Assumptions C40_better_stop.
