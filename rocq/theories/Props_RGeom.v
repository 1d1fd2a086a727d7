(** * Props_RGeom: property C07 (real geometry; uses the axioms of the standard reals) *)
From Coq Require Import Reals Lra List QArith Qreals.
From Verif Require Import PyBase PyFacts Graph GeoEx RGeom RGeomProofs.
Import ListNotations.
Local Open Scope R_scope.

(** C07: polar to Cartesian and back gives the angle and the radius. *)
Theorem C07_angle_round_trip : forall r a, 0 < r -> 0 <= a < 360 ->
  let '(x, y) := Rget_xy r a in Rget_angle x y = a /\ sqrt (x * x + y * y) = r.
Proof.
  intros r a Hr Ha. pose proof (angle_of_xy r a Hr Ha) as H. unfold Rget_xy in *. simpl in H.
  split; auto. apply polar_norm. lra.
Qed.
Print Assumptions C07_angle_round_trip.

(** a full turn comes back as 0 *)
Theorem C07_full_turn : forall r, 0 < r -> Rget_angle (fst (Rget_xy r 360)) (snd (Rget_xy r 360)) = 0.
Proof.
  intros r Hr. transitivity (Rget_angle (fst (Rget_xy r 0)) (snd (Rget_xy r 0))); [|apply angle_of_xy; lra].
  simpl. unfold radians.
  replace (360 * PI / 180) with (0 * PI / 180 + 2 * PI) by field.
  rewrite cos_plus, sin_plus, cos_2PI, sin_2PI. f_equal; ring.
Qed.
Print Assumptions C07_full_turn.

(** Cartesian to polar and back gives the point, and the angle is always in [0, 360]. *)
Theorem C07_point_round_trip : forall x y,
  Rget_xy (sqrt (x * x + y * y)) (Rget_angle x y) = (x, y) /\ 0 <= Rget_angle x y <= 360.
Proof. intros x y. split; [apply xy_of_angle | apply angle_range]. Qed.
Print Assumptions C07_point_round_trip.

Example C07_example : Rget_angle (fst (Rget_xy 10 270)) (snd (Rget_xy 10 270)) = 270.
Proof. apply angle_of_xy; lra. Qed.

(** The rational model of the rest of the development computes the same angle and the same point wherever the
    square roots, the arc cosine, the cosine and the sine that it is given are exact; get_angle does not fail there. *)
Lemma Qltb_R a b : Qltb a b = true <-> Q2R a < Q2R b.
Proof. rewrite Qltb_lt. split; [apply Qlt_Rlt|apply Rlt_Qlt]. Qed.
Lemma Qeqb_R a b : Qeqb a b = true <-> Q2R a = Q2R b.
Proof. rewrite Qeqb_eq. split; [apply Qeq_eqR|apply eqR_Qeq]. Qed.
Lemma Qleb_R a b : Qleb a b = true <-> Q2R a <= Q2R b.
Proof. rewrite Qleb_le. split; [apply Qle_Rle|apply Rle_Qle]. Qed.
Theorem C07_same_angle : forall G x y,
  (forall q, In q [1 * 1 + 0 * 0; x * x + y * y]%Q -> Q2R (geo_sqrt G q) = sqrt (Q2R q)) ->
  (forall c, Q2R c = Q2R x / sqrt (Q2R x * Q2R x + Q2R y * Q2R y) -> Q2R (geo_acos G c) = degrees (acos (Q2R c))) ->
  exists a, get_angle G x y = Ok a /\ Q2R a = Rget_angle (Q2R x) (Q2R y).
Proof.
  intros G x y HS HA. unfold get_angle. destruct (Qeqb x 0 && Qeqb y 0) eqn:E0.
  - apply andb_prop in E0. destruct E0 as [E1 E2]. apply Qeqb_R in E1, E2. exists 0%Q. split; auto. rewrite E1, E2. unfold Rget_angle. rewrite RMicromega.Q2R_0. destruct (Req_EM_T 0 0); lra.
  - assert (N : Q2R x <> 0 \/ Q2R y <> 0).
    { destruct (Req_EM_T (Q2R x) 0) as [Ex|]; auto. destruct (Req_EM_T (Q2R y) 0) as [Ey|]; auto. exfalso. rewrite <- RMicromega.Q2R_0 in Ex, Ey. apply Qeqb_R in Ex, Ey. rewrite Ex, Ey in E0. discriminate. }
    cbv zeta. set (md := (geo_sqrt G (1 * 1 + 0 * 0) * geo_sqrt G (x * x + y * y))%Q). set (rho := sqrt (Q2R x * Q2R x + Q2R y * Q2R y)).
    assert (Emd : Q2R md = rho).
    { unfold md, rho. rewrite Q2R_mult, !HS by (cbn; auto). replace (Q2R (1 * 1 + 0 * 0)) with 1 by (rewrite Q2R_plus, !Q2R_mult, RMicromega.Q2R_0, RMicromega.Q2R_1; ring). rewrite sqrt_1, Q2R_plus, !Q2R_mult. ring. }
    assert (P : 0 < Q2R x * Q2R x + Q2R y * Q2R y) by (destruct N; nra). assert (Pr : 0 < rho) by (apply sqrt_lt_R0; auto).
    assert (Nmd : ~ (md == 0)%Q) by (intro C; apply Qeq_eqR in C; rewrite RMicromega.Q2R_0 in C; lra).
    rewrite qdiv_ok by auto. cbn [bind]. set (c := ((1 * x + 0 * y) / md)%Q).
    assert (Ec : Q2R c = Q2R x / rho). { unfold c. rewrite Q2R_div, Q2R_plus, !Q2R_mult, RMicromega.Q2R_0, RMicromega.Q2R_1, Emd by auto. f_equal. ring. }
    assert (Sq : rho * rho = Q2R x * Q2R x + Q2R y * Q2R y) by (apply sqrt_sqrt; lra).
    assert (B : -1 <= Q2R c <= 1). { assert (X : Q2R x = Q2R c * rho) by (rewrite Ec; field; lra). assert (Q2R c * Q2R c <= 1) by (apply (Rmult_le_reg_r (rho * rho)); [nra|]; nra). split; nra. }
    assert (R1 : Q2R (-1) = -1) by (unfold Q2R; cbn; field).
    destruct (Qltb c (-1)) eqn:C1; [apply Qltb_R in C1; lra|]. destruct (Qltb 1 c) eqn:C2; [apply Qltb_R in C2; rewrite RMicromega.Q2R_1 in C2; lra|]. cbn [orb].
    rewrite Rget_angle_eq by auto. cbv zeta. fold rho. rewrite <- Ec, <- (HA c Ec). assert (K : forall n, Q2R (inject_Z n) = IZR n) by (intro; unfold Q2R, inject_Z; cbn; field). pose proof (K 360%Z) as K1. pose proof (K 180%Z) as K2. unfold inject_Z in K1, K2.
    destruct (Qltb y 0) eqn:Cy.
    + apply Qltb_R in Cy. rewrite RMicromega.Q2R_0 in Cy. destruct (Rlt_dec (Q2R y) 0); [|contradiction]. destruct (Qleb 0 x); eexists; (split; [reflexivity|]); rewrite ?Q2R_plus, ?Q2R_minus, ?K1, ?K2; ring.
    + destruct (Rlt_dec (Q2R y) 0) as [C|_]; [exfalso; rewrite <- RMicromega.Q2R_0 in C; apply Qltb_R in C; congruence|]. eauto.
Qed.
Print Assumptions C07_same_angle.
Theorem C07_same_point : forall G r a, Q2R (geo_cos G a) = cos (radians (Q2R a)) -> Q2R (geo_sin G a) = sin (radians (Q2R a)) ->
  (Q2R (fst (get_xy G r a)), Q2R (snd (get_xy G r a))) = Rget_xy (Q2R r) (Q2R a).
Proof. intros G r a Hc Hs. unfold get_xy, Rget_xy. cbn [fst snd]. rewrite !Q2R_mult, Hc, Hs. reflexivity. Qed.
Print Assumptions C07_same_point.
(** the point (0, -3) with the exact instance of GeoEx *)
Example C07_same_ex : (forall q, In q [1 * 1 + 0 * 0; 0 * 0 + (-3) * (-3)]%Q -> Q2R (geo_sqrt ex_geo q) = sqrt (Q2R q)) /\
  (forall c, Q2R c = Q2R 0 / sqrt (Q2R 0 * Q2R 0 + Q2R (-3) * Q2R (-3)) -> Q2R (geo_acos ex_geo c) = degrees (acos (Q2R c))) /\ get_angle ex_geo 0 (-3) = Ok 270%Q /\
  Q2R (geo_cos ex_geo 90) = cos (radians (Q2R 90)) /\ Q2R (geo_sin ex_geo 90) = sin (radians (Q2R 90)) /\ (snd (get_xy ex_geo 7 90) == 7)%Q.
Proof.
  assert (K90 : Q2R 90 = 90) by (unfold Q2R; cbn; field). assert (R90 : radians (Q2R 90) = PI / 2) by (rewrite K90; unfold radians; field).
  split; [|split; [|split; [reflexivity|split; [|split; [|reflexivity]]]]].
  - intros q [<-|[<-|[]]].
    + replace (Q2R (geo_sqrt ex_geo (1 * 1 + 0 * 0))) with 1 by (unfold Q2R; vm_compute; field). replace (Q2R (1 * 1 + 0 * 0)) with 1 by (unfold Q2R; cbn; field). symmetry. apply sqrt_1.
    + replace (Q2R (geo_sqrt ex_geo (0 * 0 + -3 * -3))) with 3 by (change (geo_sqrt ex_geo (0 * 0 + -3 * -3)) with 3%Q; unfold Q2R; cbn; field). replace (Q2R (0 * 0 + -3 * -3)) with (3 * 3) by (unfold Q2R; cbn; field). symmetry. apply sqrt_square. lra.
  - intros c Hc. assert (C0 : Q2R c = 0) by (rewrite Hc, RMicromega.Q2R_0; unfold Rdiv; ring). rewrite C0, acos_0. cbn [geo_acos ex_geo]. unfold ex_acos.
    destruct (Qeqb c 1) eqn:E1; [apply Qeqb_R in E1; rewrite C0, RMicromega.Q2R_1 in E1; lra|]. destruct (Qeqb c (-1)) eqn:E2; [apply Qeqb_R in E2; assert (R1 : Q2R (-1) = -1) by (unfold Q2R; cbn; field); lra|].
    rewrite K90. unfold degrees. field. apply PI_neq0.
  - rewrite R90, cos_PI2. change (geo_cos ex_geo 90) with 0%Q. apply RMicromega.Q2R_0.
  - rewrite R90, sin_PI2. change (geo_sin ex_geo 90) with 1%Q. apply RMicromega.Q2R_1.
Qed.
