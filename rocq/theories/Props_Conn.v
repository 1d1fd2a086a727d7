(** * Props_Conn: C59 and C60, which trips a network can serve *)
From Coq Require Import String List ZArith QArith Bool Lia Lqa Relations.
From Verif Require Import PyBase PyFacts Graph GraphSpec GraphProofs GeoEx Props_Graph Mode Route Network RouteSpec Props_Network Predef PredefSpec PredefProofs Props_Predef
  ExtGraph ExtSpec ExtProofs Props_Ext Hyperpath HyperSpec HyperProofs HyperOpt Props_Hyper ConnSpec ConnProofs.
Import ListNotations.
Local Open Scope Q_scope.

(** ** C59
    A strategy leads from one node to another exactly when they are different and the running lines lead there. *)
Theorem C59_connected_by_lines : forall G g rs TP fr X P o d, ext_input g rs -> build_ext G g rs TP fr = Ok X -> (forall r, In r rs -> 0 < m_d (r_mode r)) ->
  (connected X P o d <-> o <> d /\ travel rs fr o d).
Proof. intros. eapply connected_iff; eauto. Qed.
Print Assumptions C59_connected_by_lines.

Lemma not_NoDup_map {A C} (f : A -> C) (dec : forall a b : C, {a = b} + {a <> b}) l : NoDup l -> (~ NoDup (map f l) <-> exists a b, In a l /\ In b l /\ a <> b /\ f a = f b).
Proof.
  intro ND. split.
  - induction l as [|x l IH]; intro H; [exfalso; apply H; constructor|]. inversion ND as [|? ? N1 N2]; subst. destruct (in_dec dec (f x) (map f l)) as [I|I].
    + apply in_map_iff in I. destruct I as (y & E & Hy). exists x, y. split; [left; auto|]. split; [right; auto|]. split; auto. intros ->. contradiction.
    + destruct IH as (a & b & H1 & H2 & H3); auto; [intro C1; apply H; cbn; constructor; auto|]. exists a, b. split; [right; auto|]. split; [right; auto|auto].
  - intros (a & b & Ha & Hb & Nab & E) H. induction l as [|x l IH]; [contradiction|]. inversion H as [|? ? N1 N2]; subst. inversion ND; subst. destruct Ha as [->|Ha], Hb as [->|Hb]; auto.
    + apply N1. rewrite E. apply in_map. auto.
    + apply N1. rewrite <- E. apply in_map. auto.
Qed.
(** The validator accepts a network exactly when its running lines lead from the origin to the destination of every
    OD pair with trips (never from a node to itself) and its modes in use have different names and are one, or two
    of which one has a single line per axis. *)
Theorem C59_validator : forall G g rs TP fr X P M fuel, ext_input g rs -> build_ext G g rs TP fr = Ok X -> (forall r, In r rs -> 0 < m_d (r_mode r)) ->
  hyper_graph X -> weights X P -> (length (xnodes X) <= fuel)%nat ->
  (network_validator fuel X P M = Ok true <->
     (forall o d v, has_trips M o d v -> o <> d /\ travel rs fr o d) /\
     exists used, NoDup used /\ (forall m, In m used <-> mode_in_use rs m) /\ NoDup (map m_name used) /\ usable_modes used) /\
  (network_validator fuel X P M = Ok true \/ network_validator fuel X P M = Err TransportNetworkException \/ network_validator fuel X P M = Err AddModeExceptions) /\
  (network_validator fuel X P M = Err AddModeExceptions <-> (forall o d v, has_trips M o d v -> o <> d /\ travel rs fr o d) /\ same_names rs).
Proof.
  intros G g rs TP fr X P M fuel I B HD HG WG L. pose proof (fun o d => C59_connected_by_lines G g rs TP fr X P o d I B HD) as CI. pose proof (fun m => in_use G g rs TP fr X I B m) as IU.
  destruct (C38_validator X P M fuel HG WG L) as (used & U1 & U2 & V1 & V2).
  assert (DN : NoDup (map m_name used) \/ ~ NoDup (map m_name used)) by (destruct (ListDec.NoDup_dec string_dec (map m_name used)); auto).
  assert (DU : usable_modes used \/ ~ usable_modes used).
  { unfold usable_modes. destruct (Nat.eq_dec (length used) 1) as [|N1]; auto. destruct (Nat.eq_dec (length used) 2) as [E2|N2]; [|right; tauto].
    destruct (existsb (fun m => Qeqb (m_d m) 1) used) eqn:Ex.
    - left. right. split; auto. apply existsb_exists in Ex. destruct Ex as (m & Hm & Q). apply Qeqb_eq in Q. eauto.
    - right. intros [|[_ (m & Hm & Q)]]; [auto|]. assert (existsb (fun m => Qeqb (m_d m) 1) used = true) by (apply existsb_exists; exists m; split; auto; apply Qeqb_eq; auto). congruence. }
  assert (DC : (forall o d v, has_trips M o d v -> connected X P o d) \/ exists o d v, has_trips M o d v /\ ~ connected X P o d).
  { assert (K : forall l : list (Z * Z * Q), (forall o d v, In (o, d, v) l -> connected X P o d) \/ exists o d v, In (o, d, v) l /\ ~ connected X P o d).
    { induction l as [|((o & d) & v) l IH]; [left; contradiction|]. destruct (pair_check X P fuel o d HG WG L) as (R & E & C).
      destruct (existsb (fun s => match hr_lab R (ES s) with Some _ => true | None => false end) (stops_at X (find_city X o))) eqn:Ex.
      - destruct IH as [IH|(o' & d' & v' & H1 & H2)]; [left|right; exists o', d', v'; split; auto; right; auto]. intros o' d' v' [H|H]; [inversion H; subst; apply C; auto|eauto].
      - right. exists o, d, v. split; [left; auto|]. intro H. apply C in H. congruence. }
    destruct (K (od_pairs M)) as [K1|(o & d & v & K1 & K2)]; [left|right].
    - intros o d v H. eapply K1. apply od_pairs_In. eauto.
    - exists o, d, v. split; auto. apply od_pairs_In. auto. }
  assert (SN : ~ NoDup (map m_name used) <-> same_names rs).
  { rewrite (not_NoDup_map m_name string_dec used U1). unfold same_names. split; intros (m & m' & A1 & A2 & A3); exists m, m'; [rewrite <- !IU, <- !U2|rewrite !U2, !IU]; auto. }
  destruct DC as [DC|DC].
  - destruct (V1 DC) as (W1 & W2 & W3). split; [|split].
    + split.
      * intro H. split; [intros o d v Ht; apply CI; eauto|]. exists used. split; auto. split; [intro m; rewrite U2; apply IU|]. destruct DN as [DN|DN]; [|rewrite (W3 DN) in H; discriminate].
        split; auto. destruct DU as [DU|DU]; auto. rewrite (W2 DN DU) in H. discriminate.
      * intros (_ & used' & U1' & U2' & N' & UM'). assert (PM : Permutation.Permutation used used') by (apply Permutation.NoDup_Permutation; auto; intro m; rewrite U2, U2'; apply IU).
        apply W1.
        -- eapply Permutation.Permutation_NoDup; [apply Permutation.Permutation_map, Permutation.Permutation_sym; exact PM|exact N'].
        -- unfold usable_modes in *. rewrite (Permutation.Permutation_length PM). destruct UM' as [|[E (m & Hm & Em)]]; auto. right. split; auto. exists m. split; auto. eapply Permutation.Permutation_in; [apply Permutation.Permutation_sym; exact PM|auto].
    + destruct DN as [DN|DN]; [|auto]. destruct DU as [DU|DU]; auto.
    + rewrite <- SN. split; [intro H; split; [intros o d v Ht; apply CI; eauto|]|intros [_ H]; auto]. destruct DN as [DN|DN]; auto. destruct DU as [DU|DU]; [rewrite W1 in H by auto; discriminate|rewrite W2 in H by auto; discriminate].
  - pose proof (V2 DC) as W. assert (NC : ~ (forall o d v, has_trips M o d v -> o <> d /\ travel rs fr o d)) by (intro H; destruct DC as (o & d & v & H1 & H2); apply H2; apply CI; eauto).
    split; [|split; [auto|]]; (split; [intro H; congruence|]); intros (H & _); contradiction.
Qed.
Print Assumptions C59_validator.

Example C59_ex : ext_input ex_g34 [ex_tang; ex_tang_express] /\ build_ext ex_geo ex_g34 [ex_tang; ex_tang_express] 16 None = Ok ex_X2 /\
  hyper_graph ex_X2 /\ weights ex_X2 ex_P /\ (forall r, In r [ex_tang; ex_tang_express] -> 0 < m_d (r_mode r)) /\
  travel [ex_tang; ex_tang_express] None 1 3 /\ travel [ex_tang; ex_tang_express] None 3 1 /\ ~ travel [ex_tang; ex_tang_express] None 1 5.
Proof.
  destruct ex_X2_hyper as (A & B & L). assert (D : forall r, In r [ex_tang; ex_tang_express] -> 0 < m_d (r_mode r)) by (intros r [<-|[<-|[]]]; reflexivity).
  split; [exact ex_X2_input|]. split; [exact ex_X2_built|]. split; [exact A|]. split; [exact B|]. split; [exact D|].
  destruct C38_ex as (V1 & V2 & _). assert (L' : (length (xnodes ex_X2) <= 40)%nat) by (apply Nat.lt_le_incl; exact L).
  destruct (C59_validator ex_geo ex_g34 _ 16 None ex_X2 ex_P [(1%Z, [(3%Z, 5); (2%Z, 0)]); (3%Z, [(1%Z, 7)])] 40 ex_X2_input ex_X2_built D A B L') as ((W & _) & _ & _).
  destruct (W V1) as (T & U). split; [apply (T 1%Z 3%Z 5)|split; [apply (T 3%Z 1%Z 7)|]].
  - exists [(3%Z, 5); (2%Z, 0)]. split; [cbn; auto|split; [cbn; auto|discriminate]].
  - exists [(1%Z, 7)]. split; [cbn; auto|split; [cbn; auto|discriminate]].
  - intro T5. destruct (C59_validator ex_geo ex_g34 _ 16 None ex_X2 ex_P [(1%Z, [(3%Z, 5); (5%Z, 2)])] 40 ex_X2_input ex_X2_built D A B L') as ((_ & W') & _ & _).
    rewrite V2 in W'. assert (X : @Err bool TransportNetworkException = Ok true); [|discriminate]. apply W'. split; [|exact U].
    intros o d v (ds & H1 & H2 & _). destruct H1 as [H1|[]]. inversion H1; subst. destruct H2 as [H2|[H2|[]]]; inversion H2; subst; (split; [discriminate|]); auto.
    apply (T 1%Z 3%Z 5). exists [(3%Z, 5); (2%Z, 0)]. split; [cbn; auto|split; [cbn; auto|discriminate]].
Qed.

(** Lines added to a network, and lines that run more often, never make a trip impossible. *)
Theorem C59_more_lines : forall rs rs' fr fr' o d, incl rs rs' -> (forall r, In r rs -> 0 < route_frequency rs fr (r_id r) -> 0 < route_frequency rs' fr' (r_id r)) ->
  travel rs fr o d -> travel rs' fr' o d.
Proof.
  intros rs rs' fr fr' o d H F T. induction T as [|a b c R T IH]; [constructor|]. econstructor; [|exact IH]. destruct R as (r & dd & i & j & A1 & A2 & A3 & A4 & A5). exists r, dd, i, j. auto.
Qed.
Print Assumptions C59_more_lines.

(** ** C60: the networks of predefined lines *)
Lemma travel_trans rs fr a b c : travel rs fr a b -> travel rs fr b c -> travel rs fr a c.
Proof. intros H1 H2. apply clos_rt_rt1n. eapply rt_trans; apply clos_rt1n_rt; eauto. Qed.
Lemma travel_ride rs fr a b : ride rs fr a b -> travel rs fr a b.
Proof. intro H. econstructor; [exact H|constructor]. Qed.
Lemma subseq_nth2 (s l : list Z) : subseq s l -> forall i j a b, (i < j)%nat -> nth_error s i = Some a -> nth_error s j = Some b -> exists p q, (p < q)%nat /\ nth_error l p = Some a /\ nth_error l q = Some b.
Proof.
  assert (K1 : forall s l : list Z, subseq s l -> forall j b, nth_error s j = Some b -> exists q, nth_error l q = Some b).
  { clear. intros s l H. induction H as [l|x s l H IH|x s l H IH]; intros j b Hj; [destruct j; discriminate| |destruct (IH j b Hj) as [q Hq]; exists (S q); auto].
    destruct j as [|j]; [exists 0%nat; auto|]. destruct (IH j b Hj) as [q Hq]. exists (S q). auto. }
  intro H. induction H as [l|x s l H IH|x s l H IH]; intros i j a b L Ha Hb; [destruct i; discriminate| |destruct (IH i j a b L Ha Hb) as (p & q & Hpq & Hp & Hq); exists (S p), (S q); split; [lia|auto]].
  destruct i as [|i].
  - destruct j as [|j]; [lia|]. cbn in Hb. destruct (K1 s l H j b Hb) as [q Hq]. exists 0%nat, (S q). split; [lia|auto].
  - destruct j as [|j]; [lia|]. destruct (IH i j a b) as (p & q & Hpq & Hp & Hq); auto; [lia|]. exists (S p), (S q). split; [lia|auto].
Qed.
(** a line whose stops are in the order of its nodes, without repeated nodes *)
Lemma forward_ride rs fr r d i j a b : In r rs -> 0 < route_frequency rs fr (r_id r) -> r_type r <> CIRCULAR -> subseq (stops_of r d) (nodes_of r d) -> NoDup (nodes_of r d) ->
  (i < j)%nat -> nth_error (stops_of r d) i = Some a -> nth_error (stops_of r d) j = Some b -> ride rs fr a b.
Proof.
  intros Hr F T S N L Ha Hb. exists r, d, i, j. assert (V : visits r d = stops_of r d) by (unfold visits; destruct (r_type r); congruence). rewrite V.
  destruct (subseq_nth2 _ _ S i j a b L Ha Hb) as (p & q & Hpq & Hp & Hq). repeat (split; auto). right. split; auto.
  assert (Lq : (q < length (nodes_of r d))%nat) by (apply nth_error_Some; congruence). split.
  - intros [t E]. assert (nth_error (nodes_of r d) (length t) = Some a) by (rewrite E, nth_error_app2, Nat.sub_diag by lia; auto).
    assert (p = length t) by (eapply (proj1 (NoDup_nth_error _) N); [lia|congruence]). rewrite E, app_length in Lq. simpl in Lq. lia.
  - intros [t E]. assert (nth_error (nodes_of r d) 0 = Some b) by (rewrite E; auto). assert (q = 0%nat) by (eapply (proj1 (NoDup_nth_error _) N); [lia|congruence]). lia.
Qed.
Lemma nth_error_rev {A} (l : list A) i x : nth_error l i = Some x -> nth_error (rev l) (length l - 1 - i) = Some x.
Proof.
  intro H. assert (L : (i < length l)%nat) by (apply nth_error_Some; congruence). rewrite (nth_error_nth' (rev l) x) by (rewrite rev_length; lia). f_equal.
  rewrite rev_nth by lia. replace (length l - S (length l - 1 - i))%nat with i by lia. apply nth_error_nth. auto.
Qed.
Lemma two_way_travel rs fr id m nodes stops a b : In (two_way id m nodes stops) rs -> 0 < route_frequency rs fr id -> subseq stops nodes -> NoDup nodes -> In a stops -> In b stops -> travel rs fr a b.
Proof.
  intros Hr F S N Ha Hb. apply In_nth_error in Ha, Hb. destruct Ha as [i Hi], Hb as [j Hj]. destruct (lt_eq_lt_dec i j) as [[L|E]|L].
  - apply travel_ride. eapply (forward_ride rs fr _ DI i j); eauto; cbn; auto. discriminate.
  - subst j. assert (a = b) by congruence. subst. constructor.
  - apply travel_ride. assert (Li : (i < length stops)%nat) by (apply nth_error_Some; congruence).
    eapply (forward_ride rs fr _ DR (length stops - 1 - i) (length stops - 1 - j)); eauto; cbn; [discriminate|apply subseq_rev; auto|apply NoDup_rev; auto|lia|apply nth_error_rev; auto|apply nth_error_rev; auto].
Qed.
Lemma circular_travel rs fr r d a b : In r rs -> 0 < route_frequency rs fr (r_id r) -> r_type r = CIRCULAR -> closed_line (stops_of r d) -> In a (stops_of r d) -> In b (stops_of r d) -> travel rs fr a b.
Proof.
  intros Hr F T (x & t & E & N & Ne) Ha Hb. assert (V : visits r d = t ++ [x]) by (unfold visits; rewrite T, E; auto).
  assert (K : forall y, In y (stops_of r d) -> exists i, nth_error (visits r d) i = Some y).
  { intros y Hy. apply In_nth_error. rewrite V, E in *. destruct Hy as [ ->|Hy]; auto. apply in_or_app. right. left. auto. }
  destruct (K a Ha) as [i Hi]. destruct (K b Hb) as [j Hj]. apply travel_ride. exists r, d, i, j. repeat (split; auto).
Qed.

(** Whatever the family: from any stop of a predefined line that runs one can travel to any other stop of the
    line. *)
Theorem C60_line : forall G P C m f fs rs fr r d a b, build_from_parameters G P = Ok C -> family_routes (c_graph C) m f = Ok fs -> In r fs ->
  In r rs -> 0 < route_frequency rs fr (r_id r) -> In a (stops_of r d) -> In b (stops_of r d) -> travel rs fr a b.
Proof.
  intros G P C m f fs rs fr r d a b H F Hr Hin Fq Ha Hb. destruct (C27_predefined_routes_valid G P C m f fs r H F Hr) as ((_ & _ & S1 & _ & V) & _ & _).
  destruct (fam_members G P C m f fs r H F Hr) as [[-> Hc]|[Nf [z ->]]].
  - assert (T : r_type r = CIRCULAR) by (destruct Hc as [<-|[<-|[]]]; auto). rewrite T in V. apply (circular_travel rs fr r d); auto.
    destruct d, V as [(V1 & V2 & V3 & V4)|(V1 & V2 & V3 & V4)]; cbn in *; try (rewrite V4 in Ha; contradiction); rewrite ?V2; auto.
  - assert (W : exists id nodes stops, fam_line (zones_of P) m f z = two_way id m nodes stops /\ r_id (fam_line (zones_of P) m f z) = id).
    { destruct f as [| |[] []|j [] []|j [] []]; try congruence; cbn; do 3 eexists; split; reflexivity. }
    destruct W as (id & nodes & stops & W & Ei). rewrite W in *. cbn in V, S1, Ei. destruct V as (_ & N & _). apply (two_way_travel rs fr id m nodes stops); auto.
    + destruct d; cbn in Ha; auto. apply in_rev. auto.
    + destruct d; cbn in Hb; auto. apply in_rev. auto.
Qed.
Print Assumptions C60_line.

(** the nodes where the lines of a family stop, over all the zones *)
Definition family_stops (fs : list route) (a : Z) : Prop := exists r d, In r fs /\ In a (stops_of r d).
(** every line of the list runs *)
Definition all_running (rs : list route) (fr : option (list (string * Q))) (fs : list route) : Prop := forall r, In r fs -> In r rs /\ 0 < route_frequency rs fr (r_id r).

Lemma zone_list_In k z : In z (zone_list k) <-> (1 <= z <= Z.of_nat k)%Z.
Proof.
  unfold zone_list. rewrite in_map_iff. split.
  - intros (i & <- & Hi). apply in_seq in Hi. lia.
  - intro H. exists (Z.to_nat z). split; [lia|]. apply in_seq. lia.
Qed.

(** Radial lines, and diametral lines of any jump, link every two nodes where they stop: the centre is the hub. *)
Theorem C60_hub : forall G P C m f fs rs fr a b, build_from_parameters G P = Ok C -> family_routes (c_graph C) m f = Ok fs ->
  (exists s e, f = Radial s e) \/ (exists j s, f = Diametral j s false) -> all_running rs fr fs -> family_stops fs a -> family_stops fs b -> travel rs fr a b.
Proof.
  intros G P C m f fs rs fr a b H F Hf R (r1 & d1 & H1 & Ha) (r2 & d2 & H2 & Hb).
  assert (K : forall r d, In r fs -> In 0%Z (stops_of r d)).
  { intros r d Hr. destruct (fam_members G P C m f fs r H F Hr) as [[-> _]|[_ [z ->]]]; [destruct Hf as [(s & e & Hf)|(j & s & Hf)]; discriminate|].
    destruct Hf as [(s & e & ->)|(j & s & ->)]; destruct s; try destruct e; destruct d; cbn; auto 6. }
  destruct (R r1 H1) as [R1 R1'], (R r2 H2) as [R2 R2']. apply (travel_trans _ _ _ 0%Z).
  - apply (C60_line G P C m f fs rs fr r1 d1 a 0%Z); auto.
  - apply (C60_line G P C m f fs rs fr r2 d2 0%Z b); auto.
Qed.
Print Assumptions C60_hub.
(** the ids of a city: 0 in the centre, then periphery and subcenter of each zone *)
Lemma city_ids G P C a : build_from_parameters G P = Ok C -> In a (map nd_id (g_nodes (c_graph C))) ->
  a = 0%Z \/ exists z, (1 <= z <= Z.of_nat (zones_of P))%Z /\ (a = pid z \/ a = scid z).
Proof.
  intros H Ha. destruct (C01_nodes_and_zones G P C H) as (_ & _ & E & _). rewrite E in Ha. apply in_map_iff in Ha. destruct Ha as (k & <- & Hk). apply in_seq in Hk. unfold zones_of, pid, scid.
  destruct k as [|k]; [left; auto|]. right. destruct (Nat.Even_or_Odd k) as [[i Hi]|[i Hi]]; subst k.
  - exists (Z.of_nat i + 1)%Z. split; [lia|]. left. lia.
  - exists (Z.of_nat i + 1)%Z. split; [lia|]. right. lia.
Qed.
Lemma family_in n j z : (1 <= j)%Z -> (2 * j <= Z.of_nat n)%Z -> (1 <= z <= Z.of_nat n)%Z ->
  In z (zone_list (family_size n j)) \/ exists z', In z' (zone_list (family_size n j)) /\ nxt n z' j = z.
Proof.
  intros Hj Hn Hz. unfold family_size. destruct (Z.eqb_spec (2 * j) (Z.of_nat n)) as [E|E]; [|left; apply zone_list_In; auto].
  destruct (Z.le_gt_cases z j); [left; apply zone_list_In; lia|]. right. exists (z - j)%Z. split; [apply zone_list_In; lia|]. unfold nxt.
  replace (z - j - 1 + j)%Z with (z - 1)%Z by lia. rewrite Z.mod_small by lia. lia.
Qed.

(** With all the radial lines, or all the diametral lines of a jump, running from the peripheries and stopping
    everywhere, one can travel from every node of the city to every other. *)
Theorem C60_whole_city : forall G P C m f fs rs fr a b, build_from_parameters G P = Ok C -> family_routes (c_graph C) m f = Ok fs ->
  f = Radial false false \/ (exists j, f = Diametral j false false) -> all_running rs fr fs ->
  In a (map nd_id (g_nodes (c_graph C))) -> In b (map nd_id (g_nodes (c_graph C))) -> travel rs fr a b.
Proof.
  intros G P C m f fs rs fr a b H F Hf R Ha Hb. destruct (Z.eq_dec a b) as [ ->|Nab]; [constructor|]. destruct (C28_families G P C m H) as (_ & F2 & F3 & F4 & _).
  assert (K : forall z, (1 <= z <= Z.of_nat (zones_of P))%Z -> exists r d, In r fs /\ In (pid z) (stops_of r d) /\ In (scid z) (stops_of r d) /\ In 0%Z (stops_of r d)).
  { intros z Hz. destruct Hf as [ ->|[j ->]]; cbn [family_routes] in F.
    - rewrite F2 in F. inversion F; subst fs. exists (radial_line m false false z), DI. split; [apply in_map, zone_list_In; auto|]. cbn; auto 8.
    - assert (J : (1 <= j /\ 2 * j <= p_n P)%Z). { destruct (Z.le_gt_cases 1 j), (Z.le_gt_cases (2 * j) (p_n P)); auto; destruct (F4 j false false ltac:(lia)); congruence. }
      destruct (F3 j false false (proj1 J) (proj2 J)) as [E _]. rewrite E in F. inversion F; subst fs. unfold zones_of in *.
      destruct (family_in (Z.to_nat (p_n P)) j z) as [Hi|(z' & Hi & Ez)]; [lia|lia|auto| |].
      + exists (diametral_line (Z.to_nat (p_n P)) m j false false z), DI. split; [apply in_map; auto|]. cbn; auto 8.
      + exists (diametral_line (Z.to_nat (p_n P)) m j false false z'), DI. split; [apply in_map; auto|]. cbn. rewrite Ez. auto 8. }
  assert (FS : forall x, In x (map nd_id (g_nodes (c_graph C))) -> (1 <= Z.of_nat (zones_of P))%Z -> family_stops fs x).
  { intros x Hx N. destruct (city_ids G P C x H Hx) as [ ->|(z & Hz & [ ->| ->])].
    - destruct (K 1%Z) as (r & d & K1 & _ & _ & K2); [lia|]. exists r, d. auto.
    - destruct (K z Hz) as (r & d & K1 & K2 & _). exists r, d. auto.
    - destruct (K z Hz) as (r & d & K1 & _ & K2 & _). exists r, d. auto. }
  assert (N : (1 <= Z.of_nat (zones_of P))%Z). { destruct (city_ids G P C a H Ha) as [ ->|(z & Hz & _)]; [|lia]. destruct (city_ids G P C b H Hb) as [ ->|(z & Hz & _)]; [congruence|lia]. }
  apply (C60_hub G P C m f fs rs fr a b H F); auto. destruct Hf as [ ->|[j ->]]; [left|right]; eauto.
Qed.
Print Assumptions C60_whole_city.

(** With the feeder lines and the two circular lines, or with all the tangencial lines of a jump that stop
    everywhere, one can travel from every node but the centre to every other. *)
Theorem C60_ring : forall G P C m m' fs rs fr a b, build_from_parameters G P = Ok C ->
  (exists f1 f2, family_routes (c_graph C) m Feeder = Ok f1 /\ family_routes (c_graph C) m' Circular = Ok f2 /\ fs = f1 ++ f2) \/
  (exists j, family_routes (c_graph C) m (Tangencial j false false) = Ok fs) -> all_running rs fr fs ->
  In a (map nd_id (g_nodes (c_graph C))) -> In b (map nd_id (g_nodes (c_graph C))) -> a <> 0%Z -> b <> 0%Z -> travel rs fr a b.
Proof.
  intros G P C m m' fs rs fr a b H Hf R Ha Hb Na Nb. set (n := zones_of P).
  assert (K : (forall z, (1 <= z <= Z.of_nat n)%Z -> travel rs fr (pid z) (scid z) /\ travel rs fr (scid z) (pid z)) /\
              (forall z, (1 <= z)%Z -> (z + 1 <= Z.of_nat n)%Z -> travel rs fr (scid z) (scid (z + 1)) /\ travel rs fr (scid (z + 1)) (scid z))).
  { destruct Hf as [(f1 & f2 & F1 & F2 & ->)|[j F]].
    - destruct (C28_families G P C m H) as (G1 & _). destruct (C28_families G P C m' H) as (_ & _ & _ & _ & G5 & G6). split.
      + intros z Hz. pose proof F1 as F1'. cbn [family_routes] in F1'. rewrite G1 in F1'. inversion F1' as [E1]. clear F1'.
        assert (Hin : In (feeder_line m z) f1) by (rewrite <- E1; apply in_map, zone_list_In; auto). destruct (R (feeder_line m z)) as [R1 R2]; [apply in_or_app; auto|].
        split; apply (C60_line G P C m Feeder f1 rs fr (feeder_line m z) DI); auto; cbn; auto.
      + intros z Hz1 Hz2. assert (N2 : (2 <= p_n P)%Z) by (unfold n, zones_of in *; lia). pose proof F2 as F2'. cbn [family_routes] in F2'. rewrite (G5 N2) in F2'. inversion F2' as [E2]. clear F2'. fold n in E2.
        set (r := mkRoute ("CIR_I_" ++ m_name m')%string m' (map scid (zone_list n) ++ [scid 1]) [] (map scid (zone_list n) ++ [scid 1]) [] CIRCULAR).
        assert (Hin : In r f2) by (rewrite <- E2; left; reflexivity). destruct (R r) as [R1 R2]; [apply in_or_app; auto|].
        assert (S : forall x, (1 <= x <= Z.of_nat n)%Z -> In (scid x) (stops_of r DI)) by (intros x Hx; apply in_or_app; left; apply in_map, zone_list_In; auto).
        split; apply (C60_line G P C m' Circular f2 rs fr r DI); auto; apply S; lia.
    - destruct (C28_families G P C m H) as (_ & _ & F3 & F4 & _). pose proof F as F'. cbn [family_routes] in F'.
      assert (J : (1 <= j /\ 2 * j <= p_n P)%Z). { destruct (Z.le_gt_cases 1 j), (Z.le_gt_cases (2 * j) (p_n P)); auto; destruct (F4 j false false ltac:(lia)); congruence. }
      destruct (F3 j false false (proj1 J) (proj2 J)) as [_ E]. rewrite E in F'. inversion F' as [E1]. clear F'. fold n in E1. assert (Jn : (2 * j <= Z.of_nat n)%Z) by (unfold n, zones_of; lia).
      assert (RG : forall z k, (0 <= k <= j)%Z -> In (scid (nxt n z k)) (ring_part n z j)).
      { intros z k Hk. unfold ring_part. apply in_map_iff. exists (Z.to_nat k). split; [rewrite Z2Nat.id by lia; auto|]. apply in_seq. lia. }
      assert (N0 : forall z, (1 <= z <= Z.of_nat n)%Z -> nxt n z 0 = z) by (intros z Hz; unfold nxt; rewrite Z.add_0_r, Z.mod_small by lia; lia).
      assert (LN : forall z0 x y, In z0 (zone_list (family_size n j)) -> In x (pid z0 :: ring_part n z0 j ++ [pid (nxt n z0 j)]) -> In y (pid z0 :: ring_part n z0 j ++ [pid (nxt n z0 j)]) -> travel rs fr x y).
      { intros z0 x y Hz Hx Hy. assert (Hin : In (tangencial_line n m j false false z0) fs) by (rewrite <- E1; apply in_map; auto). destruct (R _ Hin) as [R1 R2].
        apply (C60_line G P C m (Tangencial j false false) fs rs fr (tangencial_line n m j false false z0) DI); auto. }
      split.
      + intros z Hz. destruct (family_in n j z) as [Hi|(z' & Hi & Ez)]; [lia|auto|auto| |].
        * assert (A1 : In (pid z) (pid z :: ring_part n z j ++ [pid (nxt n z j)])) by (left; auto). assert (A2 : In (scid z) (pid z :: ring_part n z j ++ [pid (nxt n z j)])) by (right; apply in_or_app; left; rewrite <- (N0 z Hz) at 1; apply RG; lia).
          split; apply (LN z); auto.
        * assert (A1 : In (pid z) (pid z' :: ring_part n z' j ++ [pid (nxt n z' j)])) by (rewrite Ez; right; apply in_or_app; right; left; auto).
          assert (A2 : In (scid z) (pid z' :: ring_part n z' j ++ [pid (nxt n z' j)])) by (right; apply in_or_app; left; rewrite <- Ez; apply RG; lia).
          split; apply (LN z'); auto.
      + intros z Hz1 Hz2. assert (X : exists z0, In z0 (zone_list (family_size n j)) /\ (z0 <= z)%Z /\ (z + 1 <= z0 + j)%Z /\ (1 <= z0)%Z).
        { unfold family_size. destruct (Z.eqb_spec (2 * j) (Z.of_nat n)) as [E2|E2].
          - destruct (Z.le_gt_cases z j); [exists z; split; [apply zone_list_In; lia|lia]|]. exists j. split; [apply zone_list_In; lia|lia].
          - exists z. split; [apply zone_list_In; lia|lia]. }
        destruct X as (z0 & Hi & L1 & L2 & L3).
        assert (NX : forall x, (z0 <= x <= z0 + j)%Z -> (1 <= x <= Z.of_nat n)%Z -> In (scid x) (pid z0 :: ring_part n z0 j ++ [pid (nxt n z0 j)])).
        { intros x Hx Hx2. right. apply in_or_app. left. replace x with (nxt n z0 (x - z0)); [apply RG; lia|]. unfold nxt. replace (z0 - 1 + (x - z0))%Z with (x - 1)%Z by lia. rewrite Z.mod_small by lia. lia. }
        split; apply (LN z0); auto; apply NX; lia. }
  destruct K as [K1 K2].
  assert (RT : forall k z, (1 <= z)%Z -> (z + Z.of_nat k <= Z.of_nat n)%Z -> travel rs fr (scid z) (scid (z + Z.of_nat k)) /\ travel rs fr (scid (z + Z.of_nat k)) (scid z)).
  { induction k as [|k IH]; intros z Hz1 Hz2; [rewrite Z.add_0_r; split; constructor|]. destruct (IH z) as [I1 I2]; [auto|lia|]. destruct (K2 (z + Z.of_nat k)%Z) as [I3 I4]; [lia|lia|].
    replace (z + Z.of_nat (S k))%Z with (z + Z.of_nat k + 1)%Z by lia. split; eapply travel_trans; eauto. }
  assert (SS : forall z z', (1 <= z <= Z.of_nat n)%Z -> (1 <= z' <= Z.of_nat n)%Z -> travel rs fr (scid z) (scid z')).
  { intros z z' Hz Hz'. destruct (Z.le_gt_cases z z').
    - destruct (RT (Z.to_nat (z' - z)) z) as [I1 _]; [lia|lia|]. replace (z + Z.of_nat (Z.to_nat (z' - z)))%Z with z' in I1 by lia. auto.
    - destruct (RT (Z.to_nat (z - z')) z') as [_ I1]; [lia|lia|]. replace (z' + Z.of_nat (Z.to_nat (z - z')))%Z with z in I1 by lia. auto. }
  destruct (city_ids G P C a H Ha) as [ ->|(z & Hz & Ea)]; [congruence|]. destruct (city_ids G P C b H Hb) as [ ->|(z' & Hz' & Eb)]; [congruence|]. fold n in Hz, Hz'. destruct (K1 z Hz) as [I1 I2], (K1 z' Hz') as [I3 I4].
  destruct Ea as [ ->| ->], Eb as [ ->| ->].
  - eapply travel_trans; [exact I1|]. eapply travel_trans; [exact (SS z z' Hz Hz')|auto].
  - eapply travel_trans; [exact I1|]. auto.
  - eapply travel_trans; [exact (SS z z' Hz Hz')|auto].
  - auto.
Qed.
Print Assumptions C60_ring.

Example C60_ex : exists C f1 f2 f3 f4, build_from_parameters ex_geo (ex_params_sym 6) = Ok C /\ length (g_nodes (c_graph C)) = 13%nat /\
  family_routes (c_graph C) ex_bus (Radial false false) = Ok f1 /\ all_running f1 None f1 /\
  family_routes (c_graph C) ex_bus (Tangencial 2 false false) = Ok f2 /\ all_running f2 None f2 /\
  family_routes (c_graph C) ex_bus Feeder = Ok f3 /\ family_routes (c_graph C) ex_bus Circular = Ok f4 /\ all_running (f3 ++ f4) None (f3 ++ f4).
Proof.
  do 5 eexists. split; [vm_compute; reflexivity|]. split; [reflexivity|].
  split; [vm_compute; reflexivity|]. split; [intros r Hr; split; [exact Hr|]; cbn in Hr; repeat (destruct Hr as [<-|Hr]; [vm_compute; reflexivity|]); contradiction|].
  split; [vm_compute; reflexivity|]. split; [intros r Hr; split; [exact Hr|]; cbn in Hr; repeat (destruct Hr as [<-|Hr]; [vm_compute; reflexivity|]); contradiction|].
  split; [vm_compute; reflexivity|]. split; [vm_compute; reflexivity|]. intros r Hr; split; [exact Hr|]; cbn in Hr; repeat (destruct Hr as [<-|Hr]; [vm_compute; reflexivity|]); contradiction.
Qed.
