(** * Props_FloatParam: C87, the parametric demand with the numbers of the machine *)
From Coq Require Import ZArith Reals List Bool Lra Lia.
From Flocq Require Import Core.Core Plus_error Relative IEEE754.BinarySingleNaN.
From Verif Require Import PyBase PyFacts Graph GraphSpec Demand DemandSpec DemandProofs FloatDemand FloatParam Props_Demand Props_Float Props_FloatTol.
Import ListNotations.
Local Open Scope R_scope.
#[local] Existing Instance vexp.
#[local] Existing Instance vmono.
#[local] Existing Instance vrnd.

(** not below zero: the check of change_vij lets it pass *)
Definition notneg (x : double) : Prop := Bltb x fzero = false.
Definition shape (x : double) : Prop :=
  match x with B754_zero _ => True | B754_infinity s => s = false | B754_nan => True | B754_finite s _ _ _ => s = false end.
Lemma notneg_shape x : notneg x <-> shape x.
Proof. unfold notneg. destruct x as [s|[]| |[] m e H]; cbn; split; intros; auto; try discriminate. Qed.
Lemma finite_notneg x : finite x -> 0 <= B2R x -> notneg x.
Proof.
  intros F R. unfold notneg. rewrite (Bltb_correct 53 1024 x fzero F eq_refl). change (B2R fzero) with 0. apply Rlt_bool_false. exact R.
Qed.
Lemma notneg_finite x : finite x -> notneg x -> 0 <= B2R x.
Proof.
  intros F N. unfold notneg in N. rewrite (Bltb_correct 53 1024 x fzero F eq_refl) in N. change (B2R fzero) with 0 in N.
  revert N. case Rlt_bool_spec; [discriminate|auto].
Qed.
Lemma rnd_pos r : 0 <= r -> 0 <= rnd r.
Proof. intros H. apply round_ge_generic; auto with typeclass_instances. apply generic_format_0. Qed.

Lemma mul_notneg x y : notneg x -> notneg y -> notneg (fmul x y).
Proof.
  rewrite !notneg_shape. intros X Y.
  destruct x as [sx|sx| |sx mx ex Hx], y as [sy|sy| |sy my ey Hy]; cbn in X, Y; subst; try exact I; try reflexivity.
  apply notneg_shape. set (x := B754_finite false mx ex Hx). set (y := B754_finite false my ey Hy).
  assert (RX : 0 <= B2R x) by (apply F2R_ge_0; cbn; lia). assert (RY : 0 <= B2R y) by (apply F2R_ge_0; cbn; lia).
  pose proof (Bmult_correct 53 1024 _ _ mode_NE x y) as H. fold (fmul x y) in H. revert H. case Rlt_bool_spec; intros B H.
  - destruct H as (H1 & H2 & _). apply finite_notneg; [exact H2|]. rewrite H1. apply rnd_pos. apply Rmult_le_pos; auto.
  - apply inf_of_overflow in H. rewrite H. reflexivity.
Qed.
Lemma div_notneg x y z : notneg x -> notneg y -> fdiv x y = Ok z -> notneg z.
Proof.
  rewrite !notneg_shape. intros X Y.
  destruct x as [sx|sx| |sx mx ex Hx], y as [sy|sy| |sy my ey Hy]; cbn in X, Y; subst; try discriminate; intros E; injection E as <-; try exact I; try reflexivity.
  apply notneg_shape. set (x := B754_finite false mx ex Hx). set (y := B754_finite false my ey Hy).
  assert (RX : 0 <= B2R x) by (apply F2R_ge_0; cbn; lia). assert (RY : 0 < B2R y) by (apply F2R_gt_0; cbn; lia).
  pose proof (Bdiv_correct 53 1024 _ _ mode_NE x y (Rgt_not_eq _ _ RY)) as H. revert H. case Rlt_bool_spec; intros B H.
  - destruct H as (H1 & H2 & _). apply finite_notneg; [exact (eq_trans H2 eq_refl)|].
    refine (Rle_trans _ _ _ _ (Req_le _ _ (eq_sym H1))). apply rnd_pos.
    apply Rmult_le_pos; [exact RX|]. left. apply Rinv_0_lt_compat. exact RY.
  - apply inf_of_overflow in H. refine (eq_trans (f_equal (fun z => Bltb z fzero) H) _). reflexivity.
Qed.
Lemma div_ok x y : B2R y <> 0 -> exists z, fdiv x y = Ok z.
Proof. destruct y; cbn; try (intros; eauto; fail). intros H. congruence. Qed.
Lemma sub_between x y : finite x -> finite y -> 0 <= B2R y <= B2R x ->
  finite (fsub x y) /\ B2R (fsub x y) = rnd (B2R x - B2R y) /\ 0 <= B2R (fsub x y).
Proof.
  intros X Y R. pose proof (Bminus_correct 53 1024 _ _ mode_NE x y X Y) as H. fold (fsub x y) in H.
  assert (P : 0 <= rnd (B2R x - B2R y)) by (apply rnd_pos; lra).
  assert (U : rnd (B2R x - B2R y) <= B2R x) by (apply round_le_generic; auto with typeclass_instances; [apply generic_format_B2R|lra]).
  rewrite Rlt_bool_true in H.
  - destruct H as (H1 & H2 & _). rewrite H1. auto.
  - rewrite Rabs_pos_eq by exact P. eapply Rle_lt_trans; [exact U|]. eapply Rle_lt_trans; [apply Rle_abs|]. apply (abs_B2R_lt_emax 53 1024).
Qed.
Lemma one_val : finite fone /\ B2R fone = 1.
Proof.
  split; [vm_compute; reflexivity|]. rewrite <- SF2R_B2SF.
  replace (B2SF fone) with (SpecFloat.S754_finite false 4503599627370496 (-52)) by (vm_compute; reflexivity). cbn [SF2R]. unfold F2R. cbn. lra.
Qed.
Lemma int_val z : (1 <= z <= 2 ^ 53)%Z -> finite (of_int z) /\ 1 <= B2R (of_int z).
Proof.
  intros Z. pose proof (binary_normalize_correct 53 1024 _ _ mode_NE z 0 false) as H. cbn zeta in H. fold (of_int z) in H.
  assert (E : F2R (Float radix2 z 0) = IZR z) by (unfold F2R; cbn; ring). rewrite E in H.
  assert (L : 1 <= rnd (IZR z)).
  { apply round_ge_generic; auto with typeclass_instances; [|apply IZR_le; lia]. rewrite <- (proj2 one_val). apply generic_format_B2R. }
  assert (U : rnd (IZR z) <= bpow radix2 53).
  { apply round_le_generic; auto with typeclass_instances; [apply generic_format_bpow; vm_compute; discriminate|].
    change (bpow radix2 53) with (IZR (2 ^ 53)). apply IZR_le. lia. }
  rewrite Rlt_bool_true in H.
  - destruct H as (H1 & H2 & _). split; [exact H2|]. rewrite H1. exact L.
  - rewrite Rabs_pos_eq by lra. eapply Rle_lt_trans; [exact U|]. apply bpow_lt. lia.
Qed.

(** the parameters that the documentation allows, as real numbers *)
Definition in_range (y a alpha beta : double) : Prop :=
  (finite y /\ finite a /\ finite alpha /\ finite beta) /\
  0 <= B2R y /\ 0 <= B2R a <= 1 /\ 0 <= B2R alpha <= 1 /\ 0 <= B2R beta < 1 /\ B2R alpha + B2R beta <= 1.

Lemma ltb x y : finite x -> finite y -> (Bltb x y = false <-> B2R y <= B2R x).
Proof.
  intros X Y. rewrite (Bltb_correct 53 1024 x y X Y). case Rlt_bool_spec; intros; split; intros; auto; try discriminate; lra.
Qed.
Lemma leb x y : finite x -> finite y -> (Bleb x y = false <-> B2R y < B2R x).
Proof.
  intros X Y. rewrite (Bleb_correct 53 1024 x y X Y). case Rle_bool_spec; intros; split; intros; auto; try discriminate; lra.
Qed.
Lemma add_small x y : finite x -> finite y -> 0 <= B2R x <= 1 -> 0 <= B2R y <= 1 -> finite (fadd x y) /\ B2R (fadd x y) = rnd (B2R x + B2R y).
Proof.
  intros X Y RX RY. pose proof (Bplus_correct 53 1024 _ _ mode_NE x y X Y) as H. fold (fadd x y) in H. rewrite Rlt_bool_true in H; [tauto|].
  assert (P : 0 <= rnd (B2R x + B2R y)) by (apply rnd_pos; lra). rewrite Rabs_pos_eq by exact P.
  apply Rle_lt_trans with (bpow radix2 1); [|apply bpow_lt; lia]. apply round_le_generic; auto with typeclass_instances.
  - apply generic_format_bpow. vm_compute. discriminate.
  - cbn. lra.
Qed.

(** C87: the checks never refuse parameters that are in range ... *)
Theorem C87_accepts : forall y a alpha beta, in_range y a alpha beta -> fvalidator y a alpha beta = Ok true.
Proof.
  intros y a alpha beta ((Fy & Fa & Fal & Fb) & Ry & Ra & Ral & Rb & S). destruct one_val as [F1 V1].
  destruct (add_small alpha beta Fal Fb Ral) as [FS VS]; [lra|]. unfold fvalidator, raise_if.
  assert (S1 : rnd (B2R alpha + B2R beta) <= 1).
  { apply round_le_generic; auto with typeclass_instances. rewrite <- V1. apply generic_format_B2R. }
  assert (Z : forall x, finite x -> 0 <= B2R x -> Bltb x fzero = false) by (intros x F R; apply ltb; auto; reflexivity).
  assert (O : forall x, finite x -> B2R x <= 1 -> Bltb fone x = false) by (intros x F R; apply ltb; auto; lra).
  rewrite (Z y), (Z a), (Z alpha), (Z beta), (O a), (O alpha), (O (fadd alpha beta)) by (auto; lra).
  assert (LB : Bleb fone beta = false) by (apply leb; auto; lra). rewrite LB. reflexivity.
Qed.
Print Assumptions C87_accepts.
(** ... and what they accept is in range, except that alpha + beta may exceed 1 by at most 2^-53 *)
Theorem C87_accepted : forall y a alpha beta, finite y -> finite a -> finite alpha -> finite beta -> fvalidator y a alpha beta = Ok true ->
  0 <= B2R y /\ 0 <= B2R a <= 1 /\ 0 <= B2R alpha <= 1 /\ 0 <= B2R beta < 1 /\ B2R alpha + B2R beta <= 1 + bpow radix2 (-53).
Proof.
  intros y a alpha beta Fy Fa Fal Fb H. destruct one_val as [F1 V1]. unfold fvalidator in H.
  apply raise_if_ok in H as [H1 H]. apply raise_if_ok in H as [H2 H]. apply raise_if_ok in H as [H3 H]. apply raise_if_ok in H as [H4 H]. apply raise_if_ok in H as [H5 _].
  apply orb_false_iff in H2 as [H2 H2']. apply orb_false_iff in H3 as [H3 H3']. apply orb_false_iff in H4 as [H4 H4'].
  assert (Z : forall x, finite x -> Bltb x fzero = false -> 0 <= B2R x) by (intros x F R; apply ltb in R; auto; reflexivity).
  apply Z in H1, H2', H3', H4'; auto. apply ltb in H2; auto. apply ltb in H3; auto. apply leb in H4; auto. rewrite V1 in *.
  repeat (split; [lra|]). destruct (add_small alpha beta Fal Fb) as [FS VS]; [lra|lra|]. apply ltb in H5; auto. rewrite VS, V1 in H5.
  set (s := B2R alpha + B2R beta) in *. set (g := F2R (Float radix2 4503599627370497 (-52))).
  assert (G : g = 1 + 2 * bpow radix2 (-53)) by (unfold g, F2R; cbn; lra).
  assert (FG : generic_format radix2 fexp64 g).
  { apply generic_format_FLT. apply FLT_spec with (Float radix2 4503599627370497 (-52)); [reflexivity|cbn; lia|cbn; lia]. }
  pose proof (bpow_gt_0 radix2 (-53)) as PB. apply Rnot_lt_le. intros K.
  destruct (Rle_or_lt g s) as [L|L].
  - assert (g <= rnd s) by (apply round_ge_generic; auto with typeclass_instances). lra.
  - destruct (round_N_pt radix2 fexp64 (fun x => negb (Z.even x)) s) as [_ N]. specialize (N g FG). cbn [round_mode] in H5.
    rewrite (Rabs_left1 (round radix2 fexp64 ZnearestE s - s)), (Rabs_pos_eq (g - s)) in N by lra. lra.
Qed.
Print Assumptions C87_accepted.

(** the table has a cell for the pair *)
Definition has (D : fdemand) (od : Z * Z) : Prop :=
  exists row old, dget Z.eqb (fd_matrix D) (fst od) = Some row /\ dget Z.eqb row (snd od) = Some old.
Definition sound (D : fdemand) : Prop := Forall notneg (fcells D).
Lemma set_row (r : list (Z * double)) d v : Forall notneg (map snd r) -> notneg v -> Forall notneg (map snd (dset Z.eqb r d v)).
Proof.
  intros H V. induction r as [|[k x] r IH]; cbn; [apply Forall_cons; auto|]. inversion H; subst.
  destruct (Z.eqb d k); cbn; apply Forall_cons; auto.
Qed.
Lemma set_table M o r : Forall notneg (rcells M) -> Forall notneg (map snd r) -> Forall notneg (rcells (dset Z.eqb M o r)).
Proof.
  intros H V. induction M as [|[k x] M IH]; cbn; [rewrite app_nil_r; auto|]. cbn in H. apply Forall_app in H as [H1 H2].
  destruct (Z.eqb o k); cbn; apply Forall_app; auto.
Qed.
Lemma get_row M o r : Forall notneg (rcells M) -> dget Z.eqb M o = Some r -> Forall notneg (map snd r).
Proof.
  intros H. induction M as [|[k x] M IH]; cbn; [discriminate|]. cbn in H. apply Forall_app in H as [H1 H2].
  destruct (Z.eqb o k); [|auto]. intros E. injection E as ->. auto.
Qed.
Definition grows (D D' : fdemand) : Prop := sound D' /\ (forall od, has D od -> has D' od).
Lemma change_ok D o d v : has D (o, d) -> notneg v -> sound D -> exists D', fchange_r D o d v = Ok D' /\ grows D D'.
Proof.
  intros (row & old & E1 & E2) V H. cbn [fst snd] in E1, E2. unfold fchange_r, fchange_vij. rewrite V, E1.
  destruct row as [|c row]; [discriminate|]. rewrite E2. eexists. split; [reflexivity|]. split.
  - apply set_table; [exact H|]. apply set_row; [exact (get_row _ _ _ H E1)|exact V].
  - intros [i j] (r & x & R1 & R2). cbn [fst snd] in R1, R2. unfold has. cbn [fd_matrix fst snd]. destruct (Z.eq_dec i o) as [->|Ni].
    + rewrite R1 in E1. injection E1 as ->. rewrite (dget_dset_same Z.eqb Z.eqb_eq). destruct (Z.eq_dec j d) as [->|Nj].
      * eexists _, _. split; [reflexivity|]. apply (dget_dset_same Z.eqb Z.eqb_eq).
      * eexists _, x. split; [reflexivity|]. rewrite (dget_dset_other Z.eqb Z.eqb_eq); auto.
    + exists r, x. rewrite (dget_dset_other Z.eqb Z.eqb_eq); auto.
Qed.
Definition shares_ok (s : fshares) : Prop :=
  notneg (fs_p_cbd s) /\ notneg (fs_p_sc s) /\ notneg (fs_p_osc s) /\ notneg (fs_sc_cbd s) /\ notneg (fs_sc_osc s).
Lemma guard_ok (b : bool) D o d v : has D (o, d) -> notneg v -> sound D ->
  exists D', (if b then fchange_r D o d v else Ok D) = Ok D' /\ grows D D'.
Proof. intros H V S. destruct b; [apply change_ok; auto|]. exists D. split; [reflexivity|split; auto]. Qed.
Lemma cell_ok s D od : shares_ok s -> has D od -> sound D -> exists D', fparam_cell s D od = Ok D' /\ grows D D'.
Proof.
  intros (S1 & S2 & S3 & S4 & S5) H S. destruct od as [o d]. unfold fparam_cell.
  generalize (find_last_node (fd_nodes D) o) as on. generalize (find_last_node (fd_nodes D) d) as dn. intros dn on.
  destruct (is_kind CBD on); [exists D; split; [reflexivity|split; auto]|].
  destruct (is_kind Periphery dn); [exists D; split; [reflexivity|split; auto]|].
  destruct (guard_ok (is_kind Periphery on && is_kind CBD dn) D o d _ H S1 S) as (D1 & -> & Q1 & P1). cbn [bind].
  destruct (guard_ok (is_kind Periphery on && is_kind Subcenter dn && same_zone on dn) D1 o d _ (P1 _ H) S2 Q1) as (D2 & -> & Q2 & P2). cbn [bind].
  assert (H2 : has D2 (o, d)) by auto.
  destruct (guard_ok (is_kind Periphery on && is_kind Subcenter dn && negb (same_zone on dn)) D2 o d _ H2 S3 Q2) as (D3 & -> & Q3 & P3). cbn [bind].
  assert (H3 : has D3 (o, d)) by auto.
  destruct (guard_ok (is_kind Subcenter on && is_kind CBD dn) D3 o d _ H3 S4 Q3) as (D4 & -> & Q4 & P4). cbn [bind].
  assert (H4 : has D4 (o, d)) by auto.
  destruct (guard_ok (is_kind Subcenter on && is_kind Subcenter dn && negb (same_zone on dn)) D4 o d _ H4 S5 Q4) as (D5 & -> & Q5 & P5). cbn [bind].
  exists D5. split; [reflexivity|]. split; auto 12.
Qed.
Lemma cells_ok s l : shares_ok s -> forall D, (forall od, In od l -> has D od) -> sound D -> exists D', foldM (fparam_cell s) l D = Ok D' /\ grows D D'.
Proof.
  intros S. induction l as [|od l IH]; intros D H N; cbn [foldM].
  - exists D. split; [reflexivity|split; auto].
  - destruct (cell_ok s D od S (H _ (or_introl eq_refl)) N) as (D1 & E & Q & P). rewrite E. cbn [bind].
    destruct (IH D1) as (D2 & E2 & Q2 & P2); [intros; apply P, H; right; auto|exact Q|]. exists D2. split; [exact E2|]. split; auto.
Qed.
Lemma new_has nodes n : NoDup (map nd_id nodes) ->
  forall od, In od (flat_map (fun r => map (fun c => (fst r, fst c)) (snd r)) (fd_matrix (new_fdemand nodes n))) -> has (new_fdemand nodes n) od.
Proof.
  intros N [i j] H.
  assert (K : In (i, j) (cell_keys (default_matrix nodes))).
  { revert H. unfold cell_keys, new_fdemand. cbn [fd_matrix]. generalize (default_matrix nodes) as M.
    induction M as [|[o row] M IH]; cbn [map flat_map]; [auto|]. rewrite !in_app_iff. intros [H|H]; [left|right; auto].
    cbn [fst snd] in *. apply in_map_iff in H as ([d x] & E & H). apply in_map_iff in H as ([d' x'] & E' & H). injection E' as <- <-.
    apply in_map_iff. exists (d', x'). auto. }
  rewrite (default_cell_keys _ N) in K. apply in_map_iff in K as ([a b] & E & K). apply in_prod_iff in K as [Ka Kb]. cbn in E. injection E as <- <-.
  assert (G : dict2_get (default_matrix nodes) (nd_id a) (nd_id b) = Some (QArith_base.Qmake 0 1)).
  { rewrite default_get. rewrite !(proj2 (zmem_In _ _)) by (apply in_map; auto). reflexivity. }
  unfold dict2_get in G. pose proof (new_same nodes n) as S. unfold has. cbn [fst snd].
  pose proof (rel_get same_row _ _ (nd_id a) S) as R. cbn [new_demand dm_matrix] in R. 
  destruct (dget Z.eqb (default_matrix nodes) (nd_id a)) as [row'|]; [|discriminate].
  destruct (dget Z.eqb (fd_matrix (new_fdemand nodes n)) (nd_id a)) as [row|]; [|contradiction].
  pose proof (rel_get rep _ _ (nd_id b) R) as R2. rewrite G in R2. destruct (dget Z.eqb row (nd_id b)) as [x|] eqn:Ex; [|contradiction]. eauto.
Qed.
Lemma new_sound nodes n : sound (new_fdemand nodes n).
Proof.
  unfold sound, fcells, new_fdemand. cbn [fd_matrix]. induction (default_matrix nodes) as [|[o row] M IH]; cbn [map flat_map]; [constructor|].
  apply Forall_app. split; [|exact IH]. clear. induction row as [|[d x] row IH]; cbn [map]; [constructor|]. apply Forall_cons; [reflexivity|exact IH].
Qed.
Lemma gap_ok x y : finite x -> finite y -> 0 <= B2R y < B2R x -> notneg (fsub x y) /\ B2R (fsub x y) <> 0.
Proof.
  intros X Y R. destruct (sub_between x y X Y) as (F & V & P); [lra|]. split; [apply finite_notneg; auto|]. rewrite V.
  unfold Rminus. apply round_plus_neq_0; auto with typeclass_instances; [apply generic_format_B2R|apply generic_format_opp, generic_format_B2R|lra].
Qed.
Lemma shares_fine n y a alpha beta : (0 <= n <= 2 ^ 53)%Z -> in_range y a alpha beta ->
  exists s, fcompute_shares n y a alpha beta = Ok s /\ shares_ok s.
Proof.
  intros Hn ((Fy & Fa & Fal & Fb) & Ry & Ra & Ral & Rb & S). destruct one_val as [F1 V1].
  assert (Ny : notneg y) by (apply finite_notneg; auto). assert (Na : notneg a) by (apply finite_notneg; auto; lra).
  assert (Nal : notneg alpha) by (apply finite_notneg; auto; lra). assert (Nb : notneg beta) by (apply finite_notneg; auto; lra).
  assert (N1 : notneg fone) by (apply finite_notneg; auto; lra). assert (N0 : notneg fzero) by reflexivity.
  destruct (sub_between fone a F1 Fa) as (Fs & _ & Ps); [lra|]. pose proof (finite_notneg _ Fs Ps) as Nsa.
  destruct (sub_between fone alpha F1 Fal) as (Ft & Vt & Pt); [lra|]. pose proof (finite_notneg _ Ft Pt) as Nst.
  unfold fcompute_shares. cbn zeta.
  assert (YZ : exists z, (if (n =? 0)%Z then Ok y else fdiv y (of_int n)) = Ok z /\ notneg z).
  { destruct (Z.eqb_spec n 0); [eauto|]. destruct (int_val n) as [Fi Vi]; [lia|]. destruct (div_ok y (of_int n)) as [z Ez]; [lra|].
    exists z. split; [exact Ez|]. apply (div_notneg y (of_int n)); auto. apply finite_notneg; auto. lra. }
  destruct YZ as (z & EZ & Nz).
  destruct (Z.ltb_spec 1 n) as [L|L].
  - destruct (gap_ok fone beta F1 Fb) as [Ng Zg]; [lra|].
    destruct (sub_between (fsub fone alpha) beta Ft Fb) as (Fg & _ & Pg).
    { split; [lra|]. rewrite Vt. apply round_ge_generic; auto with typeclass_instances; [apply generic_format_B2R|lra]. }
    pose proof (finite_notneg _ Fg Pg) as Ngm.
    destruct (div_ok alpha _ Zg) as [ag Ea]. pose proof (div_notneg _ _ _ Nal Ng Ea) as Nag. rewrite Ea. cbn [bind].
    destruct (div_ok (fsub (fsub fone alpha) beta) _ Zg) as [gg Eg]. pose proof (div_notneg _ _ _ Ngm Ng Eg) as Ngg. rewrite Eg. cbn [bind].
    rewrite EZ. cbn [bind]. destruct (int_val (n - 1)) as [Fi Vi]; [lia|]. assert (Ni : notneg (of_int (n - 1))) by (apply finite_notneg; auto; lra).
    assert (Zi : B2R (of_int (n - 1)) <> 0) by lra.
    destruct (div_ok (fmul (fsub (fsub fone alpha) beta) (fmul a z)) _ Zi) as [w1 E1]. rewrite E1. cbn [bind].
    destruct (div_ok (fmul (fmul (fsub fone a) z) gg) _ Zi) as [w2 E2]. rewrite E2. cbn [bind]. eexists. split; [reflexivity|].
    unfold shares_ok. cbn [fs_p_cbd fs_p_sc fs_p_osc fs_sc_cbd fs_sc_osc]. 
    repeat split; try (eapply div_notneg; [|exact Ni|eassumption]); repeat apply mul_notneg; auto.
  - cbn [bind]. rewrite EZ. cbn [bind]. eexists. split; [reflexivity|].
    unfold shares_ok. cbn [fs_p_cbd fs_p_sc fs_p_osc fs_sc_cbd fs_sc_osc]. repeat split; repeat apply mul_notneg; auto.
Qed.
(** ... and with parameters in range the demand is built, and no cell is below zero *)
Theorem C87_builds : forall nodes n y a alpha beta, NoDup (map nd_id nodes) -> (0 <= n <= 2 ^ 53)%Z -> in_range y a alpha beta ->
  exists D, fdemand_from_parameters nodes n y a alpha beta = Ok D /\ Forall (fun x => Bltb x fzero = false) (fcells D).
Proof.
  intros nodes n y a alpha beta N Hn R. unfold fdemand_from_parameters. rewrite (C87_accepts _ _ _ _ R). cbn [bind].
  destruct (shares_fine n y a alpha beta Hn R) as (s & -> & S). cbn [bind].
  destruct (cells_ok s _ S (new_fdemand nodes n) (new_has nodes n N) (new_sound nodes n)) as (D & E & Q & _). exists D. split; [exact E|exact Q].
Qed.
Print Assumptions C87_builds.

(** ** how accurate the cells are *)
Definition fcell (D : fdemand) (i j : Z) : option double := match dget Z.eqb (fd_matrix D) i with Some row => dget Z.eqb row j | None => None end.
Lemma change_frame D o d v D' : fchange_r D o d v = Ok D' ->
  fcell D' o d = Some v /\ (forall i j, (i, j) <> (o, d) -> fcell D' i j = fcell D i j) /\ fd_nodes D' = fd_nodes D.
Proof.
  unfold fchange_r, fchange_vij. destruct (Bltb v fzero); [discriminate|].
  destruct (dget Z.eqb (fd_matrix D) o) as [[|c row']|] eqn:E1; try discriminate. set (row := c :: row') in *.
  destruct (dget Z.eqb row d) as [old|] eqn:E2; [|discriminate]. intros E. injection E as <-. unfold fcell. cbn [fd_matrix fd_nodes].
  split; [|split; [|reflexivity]].
  - rewrite (dget_dset_same Z.eqb Z.eqb_eq). exact (dget_dset_same Z.eqb Z.eqb_eq row d v).
  - intros i j Hij. destruct (Z.eq_dec i o) as [->|Ni].
    + rewrite (dget_dset_same Z.eqb Z.eqb_eq), E1. refine (dget_dset_other Z.eqb Z.eqb_eq row d j v _). congruence.
    + rewrite (dget_dset_other Z.eqb Z.eqb_eq) by exact Ni. reflexivity.
Qed.
Lemma guard_frame (b : bool) D o d v D' : (if b then fchange_r D o d v else Ok D) = Ok D' ->
  fcell D' o d = (if b then Some v else fcell D o d) /\ (forall i j, (i, j) <> (o, d) -> fcell D' i j = fcell D i j) /\ fd_nodes D' = fd_nodes D.
Proof. destruct b; intros H; [apply change_frame in H; exact H|]. injection H as <-. auto. Qed.
(** the value that the rules of the program give to a pair of nodes; None: the cell is left as it is *)
Definition share_of (s : fshares) (o d : node) : option double :=
  match nd_kind o, nd_kind d with
  | Periphery, CBD => Some (fs_p_cbd s)
  | Periphery, Subcenter => Some (if (nd_zone o =? nd_zone d)%Z then fs_p_sc s else fs_p_osc s)
  | Subcenter, CBD => Some (fs_sc_cbd s)
  | Subcenter, Subcenter => if (nd_zone o =? nd_zone d)%Z then None else Some (fs_sc_osc s)
  | _, _ => None
  end.
Lemma bind_ok {A B} (m : res A) (f : A -> res B) b : bind m f = Ok b -> exists x, m = Ok x /\ f x = Ok b.
Proof. destruct m; cbn; [eauto|discriminate]. Qed.
Lemma cell_frame s nodes D D' o d : NoDup (map nd_id nodes) -> In o nodes -> In d nodes -> fd_nodes D = nodes ->
  fparam_cell s D (nd_id o, nd_id d) = Ok D' ->
  fcell D' (nd_id o) (nd_id d) = match share_of s o d with Some v => Some v | None => fcell D (nd_id o) (nd_id d) end /\
  (forall i j, (i, j) <> (nd_id o, nd_id d) -> fcell D' i j = fcell D i j) /\ fd_nodes D' = nodes.
Proof.
  intros N Ho Hd EN H. unfold fparam_cell in H. rewrite EN, (find_last_unique _ _ N Ho), (find_last_unique _ _ N Hd) in H.
  cbn [is_kind same_zone] in H. unfold share_of.
  destruct (kind_eqb (nd_kind o) CBD) eqn:K1.
  { injection H as <-. destruct (nd_kind o); try discriminate. auto. }
  destruct (kind_eqb (nd_kind d) Periphery) eqn:K2.
  { injection H as <-. destruct (nd_kind d); try discriminate. destruct (nd_kind o); auto. }
  apply bind_ok in H as (D1 & G1 & H). apply bind_ok in H as (D2 & G2 & H). apply bind_ok in H as (D3 & G3 & H).
  apply bind_ok in H as (D4 & G4 & H). apply bind_ok in H as (D5 & G5 & H). injection H as <-.
  apply guard_frame in G1 as (A1 & B1 & C1). apply guard_frame in G2 as (A2 & B2 & C2). apply guard_frame in G3 as (A3 & B3 & C3).
  apply guard_frame in G4 as (A4 & B4 & C4). apply guard_frame in G5 as (A5 & B5 & C5).
  split; [|split; [|congruence]].
  - rewrite A5, A4, A3, A2, A1. destruct (nd_kind o), (nd_kind d); try discriminate; cbn; destruct (nd_zone o =? nd_zone d)%Z; reflexivity.
  - intros i j Hij. rewrite B5, B4, B3, B2, B1 by exact Hij. reflexivity.
Qed.
Lemma run_frame s nodes l : NoDup (map nd_id nodes) -> (forall p, In p l -> In (fst p) nodes /\ In (snd p) nodes) ->
  NoDup (map (fun p => (nd_id (fst p), nd_id (snd p))) l) -> forall D D', fd_nodes D = nodes ->
  foldM (fparam_cell s) (map (fun p => (nd_id (fst p), nd_id (snd p))) l) D = Ok D' ->
  (forall o d, In (o, d) l -> fcell D' (nd_id o) (nd_id d) = match share_of s o d with Some v => Some v | None => fcell D (nd_id o) (nd_id d) end) /\
  (forall i j, ~ In (i, j) (map (fun p => (nd_id (fst p), nd_id (snd p))) l) -> fcell D' i j = fcell D i j).
Proof.
  intros N. induction l as [|[o d] l IH]; intros I U D D' EN; cbn [map foldM].
  - intros H. injection H as <-. split; [intros ? ? []|auto].
  - intros H. apply bind_ok in H as (D1 & E1 & H). cbn [fst snd] in E1. inversion U as [|x y U1 U2]; subst x y.
    destruct (I _ (or_introl eq_refl)) as [Io Id]. cbn [fst snd] in Io, Id.
    destruct (cell_frame s nodes D D1 o d N Io Id EN E1) as (A & B & C).
    destruct (IH (fun p Hp => I p (or_intror Hp)) U2 D1 D' C H) as [J1 J2]. split.
    + intros o' d' [E|Hin].
      * injection E as <- <-. rewrite J2 by exact U1. exact A.
      * rewrite (J1 _ _ Hin). destruct (share_of s o' d'); [reflexivity|]. apply B. intros E. apply U1. rewrite <- E.
        apply (in_map (fun p => (nd_id (fst p), nd_id (snd p))) l (o', d') Hin).
    + intros i j Hij. rewrite J2 by (intros K; apply Hij; right; exact K). apply B. intros E. apply Hij. left. symmetry. exact E.
Qed.
Lemma new_keys nodes n : NoDup (map nd_id nodes) ->
  flat_map (fun r => map (fun c => (fst r, fst c)) (snd r)) (fd_matrix (new_fdemand nodes n)) = map (fun p => (nd_id (fst p), nd_id (snd p))) (id_pairs nodes).
Proof.
  intros N. rewrite <- (default_cell_keys _ N). unfold cell_keys, new_fdemand. cbn [fd_matrix].
  induction (default_matrix nodes) as [|[o row] M IH]; cbn [map flat_map]; [reflexivity|]. rewrite IH. f_equal. cbn [fst snd].
  rewrite map_map. apply map_ext. intros [d x]. reflexivity.
Qed.
Lemma new_cell nodes n o d : In o nodes -> In d nodes -> fcell (new_fdemand nodes n) (nd_id o) (nd_id d) = Some fzero.
Proof.
  intros Ho Hd. unfold fcell, new_fdemand. cbn [fd_matrix].
  assert (G : dict2_get (default_matrix nodes) (nd_id o) (nd_id d) = Some (QArith_base.Qmake 0 1)).
  { rewrite default_get. rewrite !(proj2 (zmem_In _ _)) by (apply in_map; auto). reflexivity. }
  unfold dict2_get in G.
  assert (T : forall M : list (Z * list (Z * QArith_base.Q)), dget Z.eqb (map (fun '(o, row) => (o, map (fun '(d, _) => (d, fzero)) row)) M) (nd_id o)
     = option_map (map (fun '(d, _) => (d, fzero))) (dget Z.eqb M (nd_id o))).
  { induction M as [|[k r] M IH]; cbn [map dget]; [reflexivity|]. destruct (Z.eqb (nd_id o) k); [reflexivity|exact IH]. }
  rewrite T. destruct (dget Z.eqb (default_matrix nodes) (nd_id o)) as [r|]; [|discriminate]. cbn [option_map].
  revert G. induction r as [|[k x] r IH]; cbn [map dget]; [discriminate|]. destruct (Z.eqb (nd_id d) k); [reflexivity|exact IH].
Qed.
Lemma built_cells nodes n y a alpha beta D : NoDup (map nd_id nodes) -> fdemand_from_parameters nodes n y a alpha beta = Ok D ->
  exists s, fcompute_shares n y a alpha beta = Ok s /\
  forall o d, In o nodes -> In d nodes -> fcell D (nd_id o) (nd_id d) = Some (match share_of s o d with Some v => v | None => fzero end).
Proof.
  intros N H. unfold fdemand_from_parameters in H. apply bind_ok in H as (ok & _ & H). apply bind_ok in H as (s & Es & H).
  exists s. split; [exact Es|]. intros o d Ho Hd. rewrite (new_keys nodes n N) in H.
  destruct (run_frame s nodes (id_pairs nodes) N) with (D := new_fdemand nodes n) (D' := D) as [J _]; auto.
  - intros [p q] Hp. apply in_prod_iff in Hp. exact Hp.
  - apply id_pairs_NoDup. exact N.
  - rewrite J by (apply in_prod; auto). rewrite (new_cell nodes n o d Ho Hd). destruct (share_of s o d); reflexivity.
Qed.

Definition ulp53 : R := bpow radix2 (-53).
Definition tiny : R := bpow radix2 (-1075).
Lemma ulp_small : 0 < ulp53 <= / 1024.
Proof. split; [apply bpow_gt_0|]. unfold ulp53. change (/ 1024) with (/ IZR (2 ^ 10)). replace (/ IZR (2 ^ 10)) with (bpow radix2 (-10)) by (cbn; lra). apply bpow_le. lia. Qed.
Lemma tiny_pos : 0 < tiny.
Proof. apply bpow_gt_0. Qed.
(** one rounding *)
Lemma rnd_err r : 0 <= r -> Rabs (rnd r - r) <= ulp53 * r + tiny.
Proof.
  intros P. destruct (error_N_FLT radix2 (-1074) 53 eq_refl (fun x => negb (Z.even x)) r) as (e & h & E1 & E2 & _ & E3).
  change (rnd r = r * (1 + e) + h) in E3. rewrite E3. replace (r * (1 + e) + h - r) with (e * r + h) by ring.
  assert (U : / 2 * bpow radix2 (-53 + 1) = ulp53) by (unfold ulp53; replace (-53 + 1)%Z with (1 + -53)%Z by lia; rewrite bpow_plus; change (bpow radix2 1) with 2; lra).
  assert (T : / 2 * bpow radix2 (-1074) = tiny) by (unfold tiny; replace (-1074)%Z with (1 + -1075)%Z by lia; rewrite bpow_plus; change (bpow radix2 1) with 2; lra).
  change (Rabs e <= / 2 * bpow radix2 (-53 + 1)) in E1. rewrite U in E1. rewrite T in E2. eapply Rle_trans; [apply Rabs_triang|]. rewrite Rabs_mult, (Rabs_pos_eq r P).
  apply Rplus_le_compat; [apply Rmult_le_compat_r; auto|exact E2].
Qed.
(** x is r up to k roundings *)
Definition near (k : nat) (x : double) (r : R) : Prop :=
  finite x /\ 0 <= B2R x /\ 0 <= r /\ Rabs (B2R x - r) <= ((1 + ulp53) ^ k - 1) * r + INR k * (1 + ulp53) ^ k * tiny.
Lemma near_step k v w c x r : 0 <= c <= 1 -> near k x r -> finite v -> B2R v = rnd w -> w = c * B2R x -> near (S k) v (c * r).
Proof.
  intros C (F & P & R & H) Fv V ->. assert (W : 0 <= c * B2R x) by (apply Rmult_le_pos; lra).
  split; [exact Fv|]. split; [rewrite V; apply rnd_pos; exact W|]. split; [apply Rmult_le_pos; lra|]. rewrite V.
  pose proof (rnd_err _ W) as E. set (X := B2R x) in *. set (u := ulp53) in *. pose proof ulp_small as [U _]. fold u in U. pose proof tiny_pos as T.
  set (A := (1 + u) ^ k) in *. assert (A1 : 1 <= A) by (apply pow_R1_Rle; lra). cbn [pow]. fold A. rewrite S_INR. set (K := INR k) in *. assert (K0 : 0 <= K) by apply pos_INR.
  assert (D : Rabs (c * X - c * r) <= (A - 1) * (c * r) + K * A * tiny).
  { rewrite <- Rmult_minus_distr_l, Rabs_mult, (Rabs_pos_eq c) by lra. apply Rle_trans with (c * ((A - 1) * r + K * A * tiny)).
    - apply Rmult_le_compat_l; [lra|exact H].
    - assert (0 <= K * A * tiny) by (apply Rmult_le_pos; [apply Rmult_le_pos; lra|lra]). assert (c * (K * A * tiny) <= 1 * (K * A * tiny)) by (apply Rmult_le_compat_r; lra). lra. }
  assert (B : c * X <= c * r + ((A - 1) * (c * r) + K * A * tiny)).
  { pose proof (Rle_abs (c * X - c * r)). lra. }
  replace (rnd (c * X) - c * r) with ((rnd (c * X) - c * X) + (c * X - c * r)) by ring.
  eapply Rle_trans; [apply Rabs_triang|]. eapply Rle_trans; [apply Rplus_le_compat; [exact E|exact D]|].
  assert (B' : u * (c * X) <= u * (c * r + ((A - 1) * (c * r) + K * A * tiny))) by (apply Rmult_le_compat_l; lra).
  assert (tiny <= (1 + u) * A * tiny).
  { rewrite <- (Rmult_1_l tiny) at 1. apply Rmult_le_compat_r; [lra|]. replace 1 with (1 * 1) by ring. apply Rmult_le_compat; lra. }
  replace ((K + 1) * ((1 + u) * A) * tiny) with (K * A * tiny + u * (K * A * tiny) + (1 + u) * A * tiny) by ring.
  replace (((1 + u) * A - 1) * (c * r)) with ((A - 1) * (c * r) + u * (c * r + (A - 1) * (c * r))) by ring. lra.
Qed.
Lemma below_max r (x : double) : 0 <= r <= B2R x -> Rlt_bool (Rabs (rnd r)) (bpow radix2 1024) = true.
Proof.
  intros R. apply Rlt_bool_true. assert (P : 0 <= rnd r) by (apply rnd_pos; lra). rewrite Rabs_pos_eq by exact P.
  apply Rle_lt_trans with (B2R x); [apply round_le_generic; auto with typeclass_instances; [apply generic_format_B2R|lra]|].
  eapply Rle_lt_trans; [apply Rle_abs|]. apply (abs_B2R_lt_emax 53 1024).
Qed.
Lemma near_mul k c x r : finite c -> 0 <= B2R c <= 1 -> near k x r -> near (S k) (fmul c x) (B2R c * r).
Proof.
  intros Fc C N. pose proof N as (F & P & R & H).
  pose proof (Bmult_correct 53 1024 _ _ mode_NE c x) as M. fold (fmul c x) in M.
  assert (B : 0 <= B2R c * B2R x <= B2R x) by (split; [apply Rmult_le_pos; lra|rewrite <- (Rmult_1_l (B2R x)) at 2; apply Rmult_le_compat_r; lra]).
  rewrite (below_max _ _ B) in M. destruct M as (V & Fv & _). apply (near_step k _ (B2R c * B2R x) _ x); auto. refine (eq_trans Fv _). unfold finite in Fc, F. rewrite Fc, F. reflexivity.
Qed.
Lemma near_self (x : double) : finite x -> 0 <= B2R x -> near 0 x (B2R x).
Proof. intros F P. split; [exact F|]. split; [exact P|]. split; [exact P|]. rewrite Rminus_diag_eq, Rabs_R0 by reflexivity. cbn. lra. Qed.

(** the accuracy of the trips to the CBD and from a periphery to its own subcentre: the documented number, up to a relative
    error of 2^-51 (2^-49 from a subcentre) and an absolute error for underflow; where the documents say zero, the cell is zero *)
Definition accurate (x : double) (r : R) : Prop := finite x /\ Rabs (B2R x - r) <= bpow radix2 (-51) * r + bpow radix2 (-1073).
Lemma near_accurate x r : near 3 x r -> accurate x r.
Proof.
  intros (F & P & R & H). split; [exact F|]. eapply Rle_trans; [exact H|]. pose proof ulp_small as [U0 U]. pose proof tiny_pos as T.
  replace (bpow radix2 (-51)) with (4 * ulp53) by (unfold ulp53; replace (-51)%Z with (2 + -53)%Z by lia; rewrite bpow_plus; reflexivity).
  replace (bpow radix2 (-1073)) with (4 * tiny) by (unfold tiny; replace (-1073)%Z with (2 + -1075)%Z by lia; rewrite bpow_plus; reflexivity).
  set (u := ulp53) in *. assert (S : (1 + u) ^ 3 - 1 <= 4 * u).
  { replace ((1 + u) ^ 3 - 1) with (3 * u + u * (3 * u + u * u)) by ring. assert (u * (3 * u + u * u) <= u * 1); [|lra].
    apply Rmult_le_compat_l; [lra|]. assert (u * u <= u * 1) by (apply Rmult_le_compat_l; lra). lra. }
  assert (S' : INR 3 * (1 + u) ^ 3 <= 4) by (cbn [INR]; lra).
  apply Rplus_le_compat; apply Rmult_le_compat_r; lra.
Qed.
Lemma near_div y n : finite y -> 0 <= B2R y -> (1 <= n <= 2 ^ 53)%Z -> forall z, fdiv y (of_int n) = Ok z -> near 1 z (B2R y / B2R (of_int n)).
Proof.
  intros F P Hn z E. destruct (int_val n Hn) as [Fi Vi].
  assert (Q : / B2R (of_int n) <= 1) by (rewrite <- Rinv_1; apply Rinv_le; lra). assert (Q0 : 0 < / B2R (of_int n)) by (apply Rinv_0_lt_compat; lra).
  assert (Ez : z = Bdiv mode_NE y (of_int n)) by (revert E; unfold fdiv; destruct (of_int n); intros E; try discriminate; injection E as <-; reflexivity).
  pose proof (Bdiv_correct 53 1024 _ _ mode_NE y (of_int n)) as H. assert (Z : B2R (of_int n) <> 0) by lra. specialize (H Z).
  assert (B : 0 <= B2R y / B2R (of_int n) <= B2R y).
  { unfold Rdiv. split; [apply Rmult_le_pos; lra|]. rewrite <- (Rmult_1_r (B2R y)) at 2. apply Rmult_le_compat_l; lra. }
  pose proof (below_max _ y B) as L. cbv zeta in H. change (round_mode mode_NE) with ZnearestE in H.
  match type of H with if ?b then _ else _ => replace b with true in H by (symmetry; exact L) end. destruct H as (V & Fv & _).
  unfold Rdiv. rewrite Rmult_comm. apply (near_step 0 z (B2R y / B2R (of_int n)) _ y); [lra|apply near_self; auto| | |unfold Rdiv; ring].
  - rewrite Ez. exact (eq_trans Fv F).
  - rewrite Ez. exact V.
Qed.
Lemma int_exact z : (0 <= z <= 2 ^ 53)%Z -> B2R (of_int z) = IZR z.
Proof.
  intros Hz. pose proof (binary_normalize_correct 53 1024 _ _ mode_NE z 0 false) as H. cbn zeta in H. fold (of_int z) in H.
  assert (E : F2R (Float radix2 z 0) = IZR z) by (unfold F2R; cbn; ring). rewrite E in H.
  assert (G : rnd (IZR z) = IZR z).
  { apply round_generic; auto with typeclass_instances. destruct (Z.eq_dec z (2 ^ 53)) as [->|].
    - change (IZR (2 ^ 53)) with (bpow radix2 53). apply generic_format_bpow. vm_compute. discriminate.
    - apply generic_format_FLT. apply FLT_spec with (Float radix2 z 0); [symmetry; exact E|cbn [Fnum]; rewrite Z.abs_eq by lia; change (radix2 ^ 53)%Z with (2 ^ 53)%Z; lia|cbn; lia]. }
  change (round_mode mode_NE) with ZnearestE in H.
  assert (L : Rlt_bool (Rabs (rnd (IZR z))) (bpow radix2 1024) = true).
  { apply Rlt_bool_true. rewrite G, Rabs_pos_eq by (apply IZR_le; lia). apply Rle_lt_trans with (bpow radix2 53); [|apply bpow_lt; lia].
    change (bpow radix2 53) with (IZR (2 ^ 53)). apply IZR_le. lia. }
  match type of H with if ?b then _ else _ => replace b with true in H by (symmetry; exact L) end. destruct H as (V & _ & _). rewrite V. exact G.
Qed.
(** from a subcentre to the CBD two more subtractions and a quotient are rounded *)
Lemma comb A B q u t ag b v : 0 <= A <= 1 -> 0 <= B <= 1 -> 0 <= q -> 0 < u <= / 1024 -> 0 < t -> 0 <= ag <= 1 -> 0 <= b <= 1 ->
  Rabs (ag - A) <= 5 * u * A + t -> Rabs (b - B) <= u * B + t -> Rabs (v - ag * (b * q)) <= 4 * u * (ag * (b * q)) + 4 * t ->
  Rabs (v - B * q * A) <= 16 * u * (B * q * A) + 4 * t * (1 + q).
Proof.
  intros HA HB Hq Hu Ht Hag Hb H1 H2 H3. set (P := A * B). assert (P0 : 0 <= P) by (apply Rmult_le_pos; lra).
  assert (UP : 0 <= u * P) by (apply Rmult_le_pos; lra).
  assert (K1 : Rabs (ag - A) * b <= 6 * (u * P) + 2 * t).
  { apply Rle_trans with ((5 * u * A + t) * b); [apply Rmult_le_compat_r; lra|].
    assert (T : t * b <= t * 1) by (apply Rmult_le_compat_l; lra).
    assert (Bb : b <= B + (u * B + t)) by (pose proof (Rle_abs (b - B)); lra).
    assert (C0 : 0 <= 5 * u * A) by (apply Rmult_le_pos; lra). assert (C : 5 * u * A * b <= 5 * u * A * (B + (u * B + t))) by (apply Rmult_le_compat_l; lra).
    replace (5 * u * A * (B + (u * B + t))) with (5 * (u * P) + 5 * u * (u * P) + 5 * u * A * t) in C by (unfold P; ring).
    assert (5 * u * (u * P) <= 1 * (u * P)) by (apply Rmult_le_compat_r; lra).
    assert (C1 : 5 * u * A <= 1) by (replace 1 with (1 * 1) by ring; apply Rmult_le_compat; lra).
    assert (5 * u * A * t <= 1 * t) by (apply Rmult_le_compat_r; lra). lra. }
  assert (K2 : A * Rabs (b - B) <= u * P + t).
  { apply Rle_trans with (A * (u * B + t)); [apply Rmult_le_compat_l; lra|]. assert (A * t <= 1 * t) by (apply Rmult_le_compat_r; lra).
    replace (A * (u * B + t)) with (u * P + A * t) by (unfold P; ring). lra. }
  assert (K : Rabs (ag * b - P) <= 7 * (u * P) + 3 * t).
  { replace (ag * b - P) with ((ag - A) * b + A * (b - B)) by (unfold P; ring). eapply Rle_trans; [apply Rabs_triang|].
    rewrite !Rabs_mult, (Rabs_pos_eq b), (Rabs_pos_eq A) by lra. lra. }
  assert (L : ag * b <= P + (7 * (u * P) + 3 * t)) by (pose proof (Rle_abs (ag * b - P)); lra).
  assert (M : 4 * u * (ag * b) <= 5 * (u * P) + t).
  { assert (4 * u * (ag * b) <= 4 * u * (P + (7 * (u * P) + 3 * t))) by (apply Rmult_le_compat_l; lra).
    assert (28 * u * (u * P) <= 1 * (u * P)) by (apply Rmult_le_compat_r; lra). assert (12 * u * t <= 1 * t) by (apply Rmult_le_compat_r; lra). lra. }
  assert (M' : 4 * u * (ag * (b * q)) <= (5 * (u * P) + t) * q) by (replace (4 * u * (ag * (b * q))) with (4 * u * (ag * b) * q) by ring; apply Rmult_le_compat_r; lra).
  replace (v - B * q * A) with ((v - ag * (b * q)) + (ag * b - P) * q) by (unfold P; ring).
  eapply Rle_trans; [apply Rabs_triang|]. rewrite Rabs_mult, (Rabs_pos_eq q) by lra.
  assert (K' : Rabs (ag * b - P) * q <= (7 * (u * P) + 3 * t) * q) by (apply Rmult_le_compat_r; lra).
  assert (0 <= u * P * q) by (apply Rmult_le_pos; lra).
  replace (16 * u * (B * q * A)) with (16 * (u * P * q)) by (unfold P; ring). lra.
Qed.
Lemma near_mul_r k c x r : finite c -> 0 <= B2R c <= 1 -> near k x r -> near (S k) (fmul x c) (B2R c * r).
Proof.
  intros Fc C N. pose proof N as (F & P & R & H).
  pose proof (Bmult_correct 53 1024 _ _ mode_NE x c) as M. fold (fmul x c) in M.
  assert (B : 0 <= B2R x * B2R c <= B2R x) by (split; [apply Rmult_le_pos; lra|rewrite <- (Rmult_1_r (B2R x)) at 2; apply Rmult_le_compat_l; lra]).
  rewrite (below_max _ _ B) in M. destruct M as (V & Fv & _). apply (near_step k _ (B2R x * B2R c) _ x); auto; [|ring].
  refine (eq_trans Fv _). unfold finite in Fc, F. rewrite Fc, F. reflexivity.
Qed.
Lemma tiny_ulp : tiny <= ulp53 * ulp53.
Proof. unfold tiny, ulp53. rewrite <- bpow_plus. apply bpow_le. lia. Qed.
(** a double below 1 is below it by 2^-53 or more *)
Lemma below_one (x : double) : 0 <= B2R x < 1 -> B2R x <= 1 - ulp53.
Proof.
  intros R. pose proof (generic_format_B2R 53 1024 x) as G. pose proof (pred_ge_gt radix2 fexp64 (B2R x) 1 G) as H.
  assert (O : generic_format radix2 fexp64 1) by (rewrite <- (proj2 one_val); apply generic_format_B2R). specialize (H O (proj2 R)).
  change 1 with (bpow radix2 0) in H at 1. rewrite pred_bpow in H. exact H.
Qed.
Lemma quotient_err alpha beta ag : finite alpha -> finite beta -> 0 <= B2R alpha -> 0 <= B2R beta < 1 -> B2R alpha + B2R beta <= 1 ->
  fdiv alpha (fsub fone beta) = Ok ag ->
  finite ag /\ 0 <= B2R ag <= 1 /\ Rabs (B2R ag - B2R alpha / (1 - B2R beta)) <= 5 * ulp53 * (B2R alpha / (1 - B2R beta)) + tiny.
Proof.
  intros Fa Fb Ra Rb S E. destruct one_val as [F1 V1]. destruct (sub_between fone beta F1 Fb) as (Fg & Vg & Pg); [lra|].
  destruct (gap_ok fone beta F1 Fb) as [_ Zg]; [lra|]. set (g := fsub fone beta) in *. rewrite V1 in Vg. pose proof (below_one beta Rb) as W.
  pose proof ulp_small as [U0 U]. pose proof tiny_ulp as T. pose proof tiny_pos as T0. set (u := ulp53) in *. set (w := 1 - B2R beta) in *.
  assert (Pw : 0 <= w) by (unfold w; lra). pose proof (rnd_err w Pw) as Eg. rewrite <- Vg in Eg. fold u in Eg.
  assert (Wu : u <= w) by (unfold w; lra). assert (Tw : tiny <= u * w) by (apply Rle_trans with (u * u); [exact T|apply Rmult_le_compat_l; lra]).
  assert (Eg2 : Rabs (B2R g - w) <= 2 * u * w) by lra.
  assert (Gp : 0 < B2R g) by lra.
  assert (Uw : u * w <= / 1024 * w) by (apply Rmult_le_compat_r; lra).
  assert (Gl : w * (1 - 2 * u) <= B2R g) by (pose proof (Rle_abs (w - B2R g)) as X; rewrite Rabs_minus_sym in X; lra).
  assert (Ag : B2R alpha <= B2R g) by (rewrite Vg; apply round_ge_generic; auto with typeclass_instances; [apply generic_format_B2R|unfold w; lra]).
  set (A := B2R alpha / w). assert (A0 : 0 <= A) by (apply Rmult_le_pos; [lra|left; apply Rinv_0_lt_compat; lra]).
  assert (Aw : A * w = B2R alpha) by (unfold A; field; lra).
  set (r := B2R alpha / B2R g). assert (Rg : r * B2R g = B2R alpha) by (unfold r; field; lra).
  assert (R0 : 0 <= r) by (apply Rmult_le_pos; [lra|left; apply Rinv_0_lt_compat; lra]).
  assert (R1 : r <= 1) by (apply (Rmult_le_reg_r (B2R g)); lra).
  assert (D : Rabs (r - A) <= 3 * u * A).
  { apply (Rmult_le_reg_r (B2R g)); [exact Gp|]. rewrite <- (Rabs_pos_eq (B2R g)) at 1 by lra. rewrite <- Rabs_mult.
    replace ((r - A) * B2R g) with (A * (w - B2R g)) by (rewrite Rmult_minus_distr_r, Rg, <- Aw; ring).
    rewrite Rabs_mult, (Rabs_pos_eq A A0), Rabs_minus_sym. apply Rle_trans with (A * (2 * u * w)); [apply Rmult_le_compat_l; lra|].
    replace (3 * u * A * B2R g) with (A * (3 * u * B2R g)) by ring. apply Rmult_le_compat_l; [exact A0|].
    apply Rle_trans with (3 * u * (w * (1 - 2 * u))); [|apply Rmult_le_compat_l; lra].
    replace (3 * u * (w * (1 - 2 * u))) with (3 * (u * w) - 6 * u * (u * w)) by ring. assert (0 <= u * w) by lra.
    assert (6 * u * (u * w) <= 1 * (u * w)) by (apply Rmult_le_compat_r; lra). lra. }
  assert (Ez : ag = Bdiv mode_NE alpha g) by (revert E; unfold fdiv; destruct g; intros E; try discriminate; injection E as <-; reflexivity).
  pose proof (Bdiv_correct 53 1024 _ _ mode_NE alpha g Zg) as H. change (round_mode mode_NE) with ZnearestE in H. fold r in H.
  assert (Q : 0 <= r <= B2R fone) by lra. pose proof (below_max r fone Q) as L.
  match type of H with if ?b then _ else _ => replace b with true in H by (symmetry; exact L) end. destruct H as (V & Fv & _).
  assert (Vr : B2R ag = rnd r) by (rewrite Ez; exact V). rewrite Vr. split; [rewrite Ez; exact (eq_trans Fv Fa)|]. split.
  - split; [apply rnd_pos; exact R0|]. apply round_le_generic; auto with typeclass_instances. rewrite <- V1. apply generic_format_B2R.
  - pose proof (rnd_err r R0) as X. fold u in X. replace (rnd r - A) with ((rnd r - r) + (r - A)) by ring. eapply Rle_trans; [apply Rabs_triang|].
    assert (r <= A + 3 * u * A) by (pose proof (Rle_abs (r - A)); lra).
    assert (u * r <= u * (A + 3 * u * A)) by (apply Rmult_le_compat_l; lra).
    assert (0 <= u * A) by (apply Rmult_le_pos; lra). assert (3 * u * (u * A) <= 1 * (u * A)) by (apply Rmult_le_compat_r; lra). lra.
Qed.
Definition accurate_sc (x : double) (q r : R) : Prop := finite x /\ Rabs (B2R x - r) <= bpow radix2 (-49) * r + bpow radix2 (-1073) * (1 + q).
Lemma sc_accurate a z ag q A : finite a -> 0 <= B2R a <= 1 -> near 1 z q -> finite ag -> 0 <= B2R ag <= 1 -> 0 <= A <= 1 ->
  Rabs (B2R ag - A) <= 5 * ulp53 * A + tiny -> accurate_sc (fmul (fmul (fsub fone a) z) ag) q ((1 - B2R a) * q * A).
Proof.
  intros Fa Ra Nz Fg Rg RA H. destruct one_val as [F1 V1]. destruct (sub_between fone a F1 Fa) as (Fb & Vb & Pb); [lra|].
  set (b := fsub fone a) in *. rewrite V1 in Vb. assert (B0 : 0 <= 1 - B2R a) by lra. pose proof (rnd_err _ B0) as Eb. rewrite <- Vb in Eb.
  assert (Rb : 0 <= B2R b <= 1).
  { split; [exact Pb|]. rewrite Vb. apply round_le_generic; auto with typeclass_instances; [|lra]. rewrite <- V1. apply generic_format_B2R. }
  pose proof (near_mul 1 b z q Fb Rb Nz) as N2. pose proof (near_mul_r 2 ag _ _ Fg Rg N2) as N3. apply near_accurate in N3 as [Fv Hv].
  pose proof ulp_small as U. pose proof tiny_pos as T. destruct Nz as (_ & _ & Q0 & _). split; [exact Fv|].
  replace (bpow radix2 (-49)) with (16 * ulp53) by (unfold ulp53; replace (-49)%Z with (4 + -53)%Z by lia; rewrite bpow_plus; reflexivity).
  assert (E1 : bpow radix2 (-1073) = 4 * tiny) by (unfold tiny; replace (-1073)%Z with (2 + -1075)%Z by lia; rewrite bpow_plus; reflexivity).
  assert (E2 : bpow radix2 (-51) = 4 * ulp53) by (unfold ulp53; replace (-51)%Z with (2 + -53)%Z by lia; rewrite bpow_plus; reflexivity).
  rewrite E1, E2 in *. apply (comb A (1 - B2R a) q ulp53 tiny (B2R ag) (B2R b)); auto; lra.
Qed.
(** to the subcentres of the other zones: an error of 2^-49 of the trips of the periphery, not of the cell (1 - alpha - beta cancels) *)
Definition accurate_osc (x : double) (p r : R) : Prop := finite x /\ Rabs (B2R x - r) <= bpow radix2 (-49) * p + bpow radix2 (-1072).
Lemma near_over k x r n z : near k x r -> (1 <= n <= 2 ^ 53)%Z -> fdiv x (of_int n) = Ok z -> near (S k) z (r / IZR n).
Proof.
  intros Nx Hn E. pose proof Nx as (F & P & R & _). destruct (int_val n Hn) as [Fi Vi].
  assert (Q : / B2R (of_int n) <= 1) by (rewrite <- Rinv_1; apply Rinv_le; lra). assert (Q0 : 0 < / B2R (of_int n)) by (apply Rinv_0_lt_compat; lra).
  assert (Ez : z = Bdiv mode_NE x (of_int n)) by (revert E; unfold fdiv; destruct (of_int n); intros E; try discriminate; injection E as <-; reflexivity).
  pose proof (Bdiv_correct 53 1024 _ _ mode_NE x (of_int n)) as H. assert (Z : B2R (of_int n) <> 0) by lra. specialize (H Z).
  assert (B : 0 <= B2R x / B2R (of_int n) <= B2R x).
  { unfold Rdiv. split; [apply Rmult_le_pos; lra|]. rewrite <- (Rmult_1_r (B2R x)) at 2. apply Rmult_le_compat_l; lra. }
  pose proof (below_max _ x B) as L. cbv zeta in H. change (round_mode mode_NE) with ZnearestE in H.
  match type of H with if ?b then _ else _ => replace b with true in H by (symmetry; exact L) end. destruct H as (V & Fv & _).
  rewrite <- (int_exact n) by lia. unfold Rdiv. rewrite Rmult_comm.
  apply (near_step k z (B2R x / B2R (of_int n)) _ x); [lra|exact Nx| | |unfold Rdiv; ring].
  - rewrite Ez. exact (eq_trans Fv F).
  - rewrite Ez. exact V.
Qed.
Lemma gamma_err alpha beta : finite alpha -> finite beta -> 0 <= B2R alpha -> 0 <= B2R beta -> B2R alpha + B2R beta <= 1 ->
  let g := fsub (fsub fone alpha) beta in
  finite g /\ 0 <= B2R g <= 1 /\ Rabs (B2R g - (1 - B2R alpha - B2R beta)) <= 4 * ulp53.
Proof.
  intros Fa Fb Ra Rb S g. destruct one_val as [F1 V1]. destruct (sub_between fone alpha F1 Fa) as (Ft & Vt & Pt); [lra|]. rewrite V1 in Vt.
  assert (O : generic_format radix2 fexp64 1) by (rewrite <- V1; apply generic_format_B2R).
  assert (T1 : B2R (fsub fone alpha) <= 1) by (rewrite Vt; apply round_le_generic; auto with typeclass_instances; lra).
  assert (Bt : B2R beta <= B2R (fsub fone alpha)) by (rewrite Vt; apply round_ge_generic; auto with typeclass_instances; [apply generic_format_B2R|lra]).
  destruct (sub_between (fsub fone alpha) beta Ft Fb) as (Fg & Vg & Pg); [lra|]. fold g in Fg, Vg, Pg.
  set (t := B2R (fsub fone alpha)) in *. split; [exact Fg|]. split.
  - split; [exact Pg|]. rewrite Vg. apply round_le_generic; auto with typeclass_instances. lra.
  - assert (P1 : 0 <= 1 - B2R alpha) by lra. pose proof (rnd_err _ P1) as E1. rewrite <- Vt in E1. assert (P2 : 0 <= t - B2R beta) by lra. pose proof (rnd_err _ P2) as E2. rewrite <- Vg in E2.
    pose proof ulp_small as [U0 U]. pose proof tiny_ulp as T. assert (TU : ulp53 * ulp53 <= ulp53 * 1) by (apply Rmult_le_compat_l; lra).
    assert (ulp53 * (1 - B2R alpha) <= ulp53 * 1) by (apply Rmult_le_compat_l; lra). assert (ulp53 * (t - B2R beta) <= ulp53 * 1) by (apply Rmult_le_compat_l; lra).
    replace (B2R g - (1 - B2R alpha - B2R beta)) with ((B2R g - (t - B2R beta)) + (t - (1 - B2R alpha))) by ring.
    eapply Rle_trans; [apply Rabs_triang|]. lra.
Qed.
Lemma osc_accurate g yp p n z G : finite g -> 0 <= B2R g <= 1 -> Rabs (B2R g - G) <= 4 * ulp53 -> near 2 yp p -> (1 <= n <= 2 ^ 53)%Z ->
  fdiv (fmul g yp) (of_int n) = Ok z -> accurate_osc z p (G * p / IZR n).
Proof.
  intros Fg Rg H Np Hn E. pose proof (near_mul 2 g yp p Fg Rg Np) as N3. pose proof (near_over 3 _ _ n z N3 Hn E) as (Fz & _ & Rz & Hz).
  destruct Np as (_ & _ & P0 & _). split; [exact Fz|]. pose proof ulp_small as [U0 U]. pose proof tiny_pos as T.
  replace (bpow radix2 (-49)) with (16 * ulp53) by (unfold ulp53; replace (-49)%Z with (4 + -53)%Z by lia; rewrite bpow_plus; reflexivity).
  replace (bpow radix2 (-1072)) with (8 * tiny) by (unfold tiny; replace (-1072)%Z with (3 + -1075)%Z by lia; rewrite bpow_plus; reflexivity).
  set (u := ulp53) in *. set (i := / IZR n). assert (I0 : 0 < i) by (apply Rinv_0_lt_compat; apply IZR_lt; lia).
  assert (I1 : i <= 1) by (unfold i; rewrite <- Rinv_1; apply Rinv_le; [lra|apply IZR_le; lia]).
  assert (V : (1 + u) ^ 4 - 1 <= 6 * u).
  { assert (X : u * u <= / 1024 * u) by (apply Rmult_le_compat_r; lra). assert (X3 : u * (u * u) <= / 1024 * (u * u)) by (apply Rmult_le_compat_r; [apply Rmult_le_pos|]; lra).
    assert (X4 : u * (u * (u * u)) <= / 1024 * (u * (u * u))) by (apply Rmult_le_compat_r; [repeat apply Rmult_le_pos|]; lra).
    replace ((1 + u) ^ 4 - 1) with (4 * u + 6 * (u * u) + 4 * (u * (u * u)) + u * (u * (u * u))) by ring. lra. }
  assert (V' : INR 4 * (1 + u) ^ 4 <= 8) by (cbn [INR]; lra).
  assert (PI : 0 <= p * i <= p) by (split; [apply Rmult_le_pos; lra|rewrite <- (Rmult_1_r p) at 2; apply Rmult_le_compat_l; lra]).
  assert (W : B2R g * p / IZR n <= p).
  { unfold Rdiv. fold i. rewrite Rmult_assoc. apply Rle_trans with (1 * (p * i)); [apply Rmult_le_compat_r; lra|lra]. }
  replace (B2R z - G * p / IZR n) with ((B2R z - B2R g * p / IZR n) + (B2R g - G) * (p * i)) by (unfold Rdiv; fold i; ring).
  eapply Rle_trans; [apply Rabs_triang|]. rewrite Rabs_mult, (Rabs_pos_eq (p * i)) by lra.
  assert (Y1 : Rabs (B2R g - G) * (p * i) <= 4 * u * p) by (apply Rmult_le_compat; [apply Rabs_pos|lra|lra|lra]).
  assert (A1 : 1 <= (1 + u) ^ 4) by (apply pow_R1_Rle; lra).
  assert (Y2 : ((1 + u) ^ 4 - 1) * (B2R g * p / IZR n) <= 6 * u * p) by (apply Rmult_le_compat; lra).
  assert (Y3 : INR 4 * (1 + u) ^ 4 * tiny <= 8 * tiny) by (apply Rmult_le_compat_r; lra).
  assert (0 <= u * p) by (apply Rmult_le_pos; lra). lra.
Qed.
Theorem C87_accurate : forall nodes n y a alpha beta D, NoDup (map nd_id nodes) -> (2 <= n <= 2 ^ 53)%Z -> in_range y a alpha beta ->
  fdemand_from_parameters nodes n y a alpha beta = Ok D ->
  forall o d, In o nodes -> In d nodes -> exists x, fcell D (nd_id o) (nd_id d) = Some x /\
    match nd_kind o, nd_kind d with
    | Periphery, CBD => accurate x (B2R alpha * (B2R a * (B2R y / IZR n)))
    | Periphery, Subcenter =>
        if (nd_zone o =? nd_zone d)%Z then accurate x (B2R beta * (B2R a * (B2R y / IZR n)))
        else accurate_osc x (B2R a * (B2R y / IZR n)) ((1 - B2R alpha - B2R beta) * (B2R a * (B2R y / IZR n)) / (IZR n - 1))
    | Subcenter, Subcenter => nd_zone o = nd_zone d -> x = fzero
    | Subcenter, CBD => accurate_sc x (B2R y / IZR n) ((1 - B2R a) * (B2R y / IZR n) * (B2R alpha / (1 - B2R beta)))
    | _, _ => x = fzero
    end.
Proof.
  intros nodes n y a alpha beta D N Hn R H o d Ho Hd. destruct (built_cells _ _ _ _ _ _ _ N H) as (s & Es & C).
  rewrite (C o d Ho Hd). eexists. split; [reflexivity|].
  destruct R as ((Fy & Fa & Fal & Fb) & Ry & Ra & Ral & Rb & RS).
  unfold fcompute_shares in Es. cbn zeta in Es. replace (1 <? n)%Z with true in Es by (symmetry; apply Z.ltb_lt; lia).
  apply bind_ok in Es as ([[[gamma gamma_g] alpha_g] beta1] & Eg & Es). apply bind_ok in Eg as (ag & Eag & Eg). apply bind_ok in Eg as (gg & _ & Eg).
  injection Eg as <- _ <- <-. replace (n =? 0)%Z with false in Es by (symmetry; apply Z.eqb_neq; lia).
  apply bind_ok in Es as (z & Ez & Es). apply bind_ok in Es as (w1 & Ew & Es). apply bind_ok in Es as (w2 & _ & Es). injection Es as <-.
  apply near_div in Ez; auto; [|lia]. rewrite int_exact in Ez by lia.
  pose proof (near_mul 1 a z _ Fa Ra Ez) as Np. pose proof (near_mul 2 alpha _ _ Fal Ral Np) as N1.
  assert (Rb' : 0 <= B2R beta <= 1) by lra. pose proof (near_mul 2 beta _ _ Fb Rb' Np) as N2.
  apply near_accurate in N1, N2.
  destruct (quotient_err alpha beta ag Fal Fb (proj1 Ral) Rb RS Eag) as (Fag & Rag & Hag).
  assert (RA : 0 <= B2R alpha / (1 - B2R beta) <= 1).
  { split; [apply Rmult_le_pos; [lra|left; apply Rinv_0_lt_compat; lra]|]. apply (Rmult_le_reg_r (1 - B2R beta)); [lra|].
    replace (B2R alpha / (1 - B2R beta) * (1 - B2R beta)) with (B2R alpha) by (field; lra). lra. }
  pose proof (sc_accurate a z ag _ _ Fa Ra Ez Fag Rag RA Hag) as N3. 
  destruct (gamma_err alpha beta Fal Fb (proj1 Ral) (proj1 Rb) RS) as (Fg & Rg & Hg).
  assert (Hn1 : (1 <= n - 1 <= 2 ^ 53)%Z) by lia. pose proof (osc_accurate _ _ _ _ _ _ Fg Rg Hg Np Hn1 Ew) as N4. rewrite minus_IZR in N4.
  unfold share_of. cbn [fs_p_cbd fs_p_sc fs_p_osc fs_sc_cbd].
  destruct (nd_kind o), (nd_kind d); auto; [destruct (nd_zone o =? nd_zone d)%Z; auto|]. intros E; rewrite E, Z.eqb_refl; auto.
Qed.
Print Assumptions C87_accurate.

(** the same with one zone, where all the trips of the periphery go to the CBD or to its own subcentre, and all the trips of the subcentre to the CBD *)
Theorem C87_one_zone : forall nodes y a alpha beta D, NoDup (map nd_id nodes) -> in_range y a alpha beta ->
  fdemand_from_parameters nodes 1 y a alpha beta = Ok D ->
  forall o d, In o nodes -> In d nodes -> exists x, fcell D (nd_id o) (nd_id d) = Some x /\
    match nd_kind o, nd_kind d with
    | Periphery, CBD => accurate x (B2R alpha * (B2R a * B2R y))
    | Periphery, Subcenter => nd_zone o = nd_zone d -> accurate_sc x (B2R a * B2R y) ((1 - B2R alpha) * (B2R a * B2R y))
    | Subcenter, Subcenter => x = fzero
    | Subcenter, CBD => accurate_sc x (B2R y) ((1 - B2R a) * B2R y)
    | _, _ => x = fzero
    end.
Proof.
  intros nodes y a alpha beta D N R H o d Ho Hd. destruct (built_cells _ _ _ _ _ _ _ N H) as (s & Es & C).
  rewrite (C o d Ho Hd). eexists. split; [reflexivity|].
  destruct R as ((Fy & Fa & Fal & Fb) & Ry & Ra & Ral & Rb & RS). destruct one_val as [F1 V1].
  unfold fcompute_shares in Es. cbn zeta in Es. change (1 <? 1)%Z with false in Es. change (1 =? 0)%Z with false in Es. cbn [bind] in Es.
  apply bind_ok in Es as (z & Ez & Es). cbn [bind] in Es. injection Es as <-. assert (H1 : (1 <= 1 <= 2 ^ 53)%Z) by lia. apply near_div in Ez; auto.
  rewrite int_exact in Ez by lia. replace (B2R y / 1) with (B2R y) in Ez by field.
  pose proof (near_mul 1 a z _ Fa Ra Ez) as Np. pose proof (near_mul 2 alpha _ _ Fal Ral Np) as N1. apply near_accurate in N1.
  assert (R1 : 0 <= B2R fone <= 1) by lra. assert (RA : 0 <= 1 <= 1) by lra. pose proof ulp_small as U. pose proof tiny_pos as T.
  assert (HA : Rabs (B2R fone - 1) <= 5 * ulp53 * 1 + tiny) by (rewrite V1, Rminus_diag_eq, Rabs_R0 by reflexivity; lra).
  pose proof (sc_accurate a z fone _ 1 Fa Ra Ez F1 R1 RA HA) as N2. rewrite Rmult_1_r in N2.
  destruct (sub_between fone alpha F1 Fal) as (Fb' & Vb & Pb); [lra|]. set (b := fsub fone alpha) in *. rewrite V1 in Vb.
  assert (B0 : 0 <= 1 - B2R alpha) by lra. pose proof (rnd_err _ B0) as Eb. rewrite <- Vb in Eb.
  assert (Rb' : 0 <= B2R b <= 1).
  { split; [exact Pb|]. rewrite Vb. apply round_le_generic; auto with typeclass_instances; [|lra]. rewrite <- V1. apply generic_format_B2R. }
  pose proof (near_mul 2 b _ _ Fb' Rb' Np) as N3. apply near_accurate in N3 as [Fv Hv]. destruct Np as (_ & _ & P0 & _).
  set (p := B2R a * B2R y) in *.
  assert (N3 : accurate_sc (fmul b (fmul a z)) p ((1 - B2R alpha) * p)).
  { split; [exact Fv|].
    replace (bpow radix2 (-49)) with (16 * ulp53) by (unfold ulp53; replace (-49)%Z with (4 + -53)%Z by lia; rewrite bpow_plus; reflexivity).
    assert (E1 : bpow radix2 (-1073) = 4 * tiny) by (unfold tiny; replace (-1073)%Z with (2 + -1075)%Z by lia; rewrite bpow_plus; reflexivity).
    assert (E2 : bpow radix2 (-51) = 4 * ulp53) by (unfold ulp53; replace (-51)%Z with (2 + -53)%Z by lia; rewrite bpow_plus; reflexivity).
    rewrite E1, E2 in *. rewrite <- (Rmult_1_r ((1 - B2R alpha) * p)).
    apply (comb 1 (1 - B2R alpha) p ulp53 tiny 1 (B2R b)); auto; try lra.
    - rewrite Rminus_diag_eq, Rabs_R0 by reflexivity. lra.
    - rewrite Rmult_1_l. exact Hv. }
  unfold share_of. cbn [fs_p_cbd fs_p_sc fs_p_osc fs_sc_cbd fs_sc_osc].
  destruct (nd_kind o), (nd_kind d); auto; [intros E; rewrite E, Z.eqb_refl; exact N3|]. destruct (nd_zone o =? nd_zone d)%Z; reflexivity.
Qed.
Print Assumptions C87_one_zone.

(** the claim that everything the checks accept can be built is false: 0.8 + 0.2 is 1.0 for the machine, but
    1 - 0.8 - 0.2 is below zero, and the program then refuses its own number of trips *)
Definition f0_8 : double := dbl 7205759403792794 (-53).
Theorem C87_refuted : exists nodes n y a alpha beta, city_layout n nodes /\ finite y /\ finite a /\ finite alpha /\ finite beta /\
  fvalidator y a alpha beta = Ok true /\ fdemand_from_parameters nodes (Z.of_nat n) y a alpha beta = Err TripsValueIsNotValidException.
Proof.
  exists ex_city2, 2%nat, (of_int 1000), f0_8, f0_8, f0_2. split; [apply ex_city2_layout|]. repeat (split; [vm_compute; reflexivity|]).
  assert (H : match fdemand_from_parameters ex_city2 (Z.of_nat 2) (of_int 1000) f0_8 f0_8 f0_2 with Err TripsValueIsNotValidException => true | _ => false end = true)
    by (vm_compute; reflexivity).
  revert H. generalize (fdemand_from_parameters ex_city2 (Z.of_nat 2) (of_int 1000) f0_8 f0_8 f0_2) as r. intros [D|e]; [discriminate|]. destruct e; try discriminate; reflexivity.
Qed.
Print Assumptions C87_refuted.

(** 0.75 and 0.125 are in range, and the parameters of the refutation are not: their sum is above 1 *)
Definition f3_4 : double := dbl 3 (-2).
Definition f1_8 : double := dbl 1 (-3).
Lemma lit_val s m e (x : double) : B2SF x = SpecFloat.S754_finite s m e -> B2R x = F2R (Float radix2 (cond_Zopp s (Zpos m)) e).
Proof. intros H. rewrite <- SF2R_B2SF, H. reflexivity. Qed.
Example C87_ex : in_range (of_int 1000) f3_4 f3_4 f1_8.
Proof.
  assert (V : B2R f3_4 = 3 / 4) by (rewrite (lit_val false 6755399441055744 (-53)); [unfold F2R; cbn; lra|vm_compute; reflexivity]).
  assert (W : B2R f1_8 = 1 / 8) by (rewrite (lit_val false 4503599627370496 (-55)); [unfold F2R; cbn; lra|vm_compute; reflexivity]).
  assert (P : (1 <= 1000 <= 2 ^ 53)%Z) by lia.
  unfold in_range. rewrite V, W. split; [repeat split; vm_compute; reflexivity|]. split; [pose proof (proj2 (int_val 1000 P)); lra|]. lra.
Qed.
Example C87_out : B2R f0_8 + B2R f0_2 > 1.
Proof.
  rewrite (lit_val false 7205759403792794 (-53) f0_8), (lit_val false 7205759403792794 (-55) f0_2) by (vm_compute; reflexivity). unfold F2R. cbn. lra.
Qed.

(** between subcentres there is no such bound: with alpha = 2^-54 and beta = 1 - 2^-53, in range, the cell is twice the documented number *)
Definition f_alpha : double := dbl 1 (-54).
Definition f_beta : double := dbl 9007199254740991 (-53).
Theorem C87_subcentres_refuted : exists nodes n y a alpha beta o d, city_layout n nodes /\ in_range y a alpha beta /\ In o nodes /\ In d nodes /\
  nd_kind o = Subcenter /\ nd_kind d = Subcenter /\ nd_zone o <> nd_zone d /\
  exists D x, fdemand_from_parameters nodes (Z.of_nat n) y a alpha beta = Ok D /\ fcell D (nd_id o) (nd_id d) = Some x /\
  let r := (1 - B2R a) * (B2R y / INR n) * ((1 - B2R alpha - B2R beta) / (1 - B2R beta)) / (INR n - 1) in 0 < r /\ B2R x = 2 * r.
Proof.
  assert (Va : B2R f_alpha = bpow radix2 (-54)) by (rewrite (lit_val false 4503599627370496 (-106)); [unfold F2R; cbn; lra|vm_compute; reflexivity]).
  assert (Vb : B2R f_beta = 1 - bpow radix2 (-53)) by (rewrite (lit_val false 9007199254740991 (-53)); [unfold F2R; cbn; lra|vm_compute; reflexivity]).
  assert (Vy : B2R (of_int 4) = 4) by (apply int_exact; lia).
  assert (R : in_range (of_int 4) fzero f_alpha f_beta).
  { unfold in_range. rewrite Va, Vb, Vy. change (B2R fzero) with 0. split; [repeat split; vm_compute; reflexivity|]. cbn. lra. }
  destruct ex_city2_layout as [N L]. assert (Hn : (0 <= Z.of_nat 2 <= 2 ^ 53)%Z) by lia.
  destruct (C87_builds ex_city2 (Z.of_nat 2) _ _ _ _ N Hn R) as (D & ED & _).
  destruct (built_cells _ _ _ _ _ _ _ N ED) as (s & Es & C).
  assert (Hs : exists x, B2R x = 2 /\ fs_sc_osc s = x).
  { exists (fs_sc_osc s). split; [|reflexivity].
    assert (T : match fcompute_shares (Z.of_nat 2) (of_int 4) fzero f_alpha f_beta with Ok s => B2SF (fs_sc_osc s) | Err _ => SpecFloat.S754_nan end
      = SpecFloat.S754_finite false 4503599627370496 (-51)) by (vm_compute; reflexivity).
    rewrite Es in T. rewrite (lit_val _ _ _ _ T). unfold F2R. cbn. lra. }
  destruct Hs as (x & Vx & Ex).
  destruct L as (c & P & S & EN & Kc & Kz). destruct (Kz 1%nat) as (_ & K1 & _ & Z1); [left; reflexivity|]. destruct (Kz 2%nat) as (_ & K2 & _ & Z2); [right; left; reflexivity|].
  assert (I1 : In (S 1%nat) ex_city2) by (rewrite EN; cbn; tauto). assert (I2 : In (S 2%nat) ex_city2) by (rewrite EN; cbn; tauto).
  assert (Nz : nd_zone (S 1%nat) <> nd_zone (S 2%nat)) by (rewrite Z1, Z2; discriminate).
  exists ex_city2, 2%nat, (of_int 4), fzero, f_alpha, f_beta, (S 1%nat), (S 2%nat).
  split; [exact ex_city2_layout|]. repeat (split; [assumption|]). exists D, x. split; [exact ED|]. split.
  - rewrite (C _ _ I1 I2). unfold share_of. rewrite K1, K2, (proj2 (Z.eqb_neq _ _) Nz), Ex. reflexivity.
  - rewrite Va, Vb, Vy, Vx. change (B2R fzero) with 0. cbn [INR]. replace (-53)%Z with (1 + -54)%Z by lia. rewrite bpow_plus. change (bpow radix2 1) with 2.
    pose proof (bpow_gt_0 radix2 (-54)) as B. set (t := bpow radix2 (-54)) in *. cbv zeta.
    replace ((1 - 0) * (4 / (1 + 1)) * ((1 - t - (1 - 2 * t)) / (1 - (1 - 2 * t))) / (1 + 1 - 1)) with 1 by (field; lra). lra.
Qed.
Print Assumptions C87_subcentres_refuted.
