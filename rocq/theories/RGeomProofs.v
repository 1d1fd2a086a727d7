(** * RGeomProofs: the polar conversion of graph.py is a bijection up to the full turn *)
From Coq Require Import Reals Lra Psatz.
From Verif Require Import RGeom.
Local Open Scope R_scope.

Lemma deg_rad a : degrees (radians a) = a.
Proof. unfold degrees, radians. field. apply PI_neq0. Qed.
Lemma rad_deg a : radians (degrees a) = a.
Proof. unfold degrees, radians. field. apply PI_neq0. Qed.

Lemma polar_norm r t : 0 <= r -> sqrt (r * cos t * (r * cos t) + r * sin t * (r * sin t)) = r.
Proof.
  intro H. replace (r * cos t * (r * cos t) + r * sin t * (r * sin t)) with (r * r * (Rsqr (sin t) + Rsqr (cos t)))
    by (unfold Rsqr; ring).
  rewrite sin2_cos2, Rmult_1_r. apply sqrt_square. auto.
Qed.

(** the code of get_angle, without the split on x *)
Lemma Rget_angle_eq x y : (x <> 0 \/ y <> 0) ->
  Rget_angle x y =
    let angle := degrees (acos (x / sqrt (x * x + y * y))) in
    if Rlt_dec y 0 then 360 - angle else angle.
Proof.
  intro H. unfold Rget_angle.
  replace (sqrt (1 * 1 + 0 * 0)) with 1 by (replace (1 * 1 + 0 * 0) with 1 by ring; rewrite sqrt_1; reflexivity).
  replace (1 * x + 0 * y) with x by ring. rewrite Rmult_1_l. cbv zeta.
  destruct (Req_EM_T x 0); [destruct (Req_EM_T y 0); [exfalso; tauto|]|];
    destruct (Rlt_dec y 0); auto; destruct (Rle_dec 0 x); auto; ring.
Qed.

Lemma angle_of_xy r a : 0 < r -> 0 <= a < 360 ->
  Rget_angle (fst (Rget_xy r a)) (snd (Rget_xy r a)) = a.
Proof.
  intros Hr Ha. simpl. set (t := radians a).
  assert (Hpi := PI_RGT_0).
  assert (Ht : 0 <= t < 2 * PI).
  { unfold t, radians. split.
    - assert (0 <= a * PI) by (apply Rmult_le_pos; lra). lra.
    - assert (a * PI < 360 * PI) by (apply Rmult_lt_compat_r; lra). lra. }
  assert (Hs : (Rsqr (sin t) + Rsqr (cos t) = 1)) by apply sin2_cos2.
  rewrite Rget_angle_eq.
  2:{ destruct (Req_dec (r * cos t) 0) as [E|]; [|left; auto]. right. intro E2.
      assert (cos t = 0) by (apply Rmult_integral in E; destruct E; lra).
      assert (sin t = 0) by (apply Rmult_integral in E2; destruct E2; lra).
      rewrite H, H0 in Hs. unfold Rsqr in Hs. lra. }
  cbv zeta. rewrite polar_norm by lra.
  replace (r * cos t / r) with (cos t) by (field; lra).
  destruct (Rlt_dec (r * sin t) 0) as [Hy|Hy].
  - assert (sin t < 0).
    { apply Rnot_le_lt. intro C. assert (0 <= r * sin t) by (apply Rmult_le_pos; lra). lra. }
    assert (PI < t).
    { apply Rnot_le_lt. intro C. assert (0 <= sin t) by (apply sin_ge_0; lra). lra. }
    replace (cos t) with (cos (2 * PI - t)).
    2:{ rewrite cos_minus, cos_2PI, sin_2PI. ring. }
    rewrite acos_cos by lra. unfold degrees, t, radians. field. lra.
  - assert (t <= PI).
    { apply Rnot_lt_le. intro C. apply Hy.
      assert (sin t < 0) by (apply sin_lt_0; lra). 
      assert (0 < r * - sin t) by (apply Rmult_lt_0_compat; lra). lra. }
    rewrite acos_cos by lra. apply deg_rad.
Qed.

Lemma norm_pos x y : (x <> 0 \/ y <> 0) -> 0 < sqrt (x * x + y * y).
Proof.
  intro H. apply sqrt_lt_R0. destruct H; nra.
Qed.

Lemma ratio_range x y : (x <> 0 \/ y <> 0) -> -1 <= x / sqrt (x * x + y * y) <= 1.
Proof.
  intro H. pose proof (norm_pos x y H) as Hp. set (s := sqrt (x * x + y * y)) in *.
  assert (Hs : s * s = x * x + y * y) by (unfold s; apply sqrt_sqrt; nra).
  assert (-s <= x <= s) by nra.
  split.
  - apply Rmult_le_reg_r with s; auto. unfold Rdiv. rewrite Rmult_assoc, Rinv_l by lra. lra.
  - apply Rmult_le_reg_r with s; auto. unfold Rdiv. rewrite Rmult_assoc, Rinv_l by lra. lra.
Qed.

Lemma degrees_range t : 0 <= t <= PI -> 0 <= degrees t <= 180.
Proof.
  intro H. assert (Hpi := PI_RGT_0). unfold degrees. split.
  - apply Rmult_le_reg_r with PI; auto. unfold Rdiv. rewrite Rmult_assoc, Rinv_l by lra. nra.
  - apply Rmult_le_reg_r with PI; auto. unfold Rdiv. rewrite Rmult_assoc, Rinv_l by lra. nra.
Qed.

Lemma angle_range x y : 0 <= Rget_angle x y <= 360.
Proof.
  destruct (Req_EM_T x 0) as [Ex|Ex]; [destruct (Req_EM_T y 0) as [Ey|Ey]|].
  - subst. unfold Rget_angle. destruct (Req_EM_T 0 0); [destruct (Req_EM_T 0 0)|]; lra.
  - rewrite Rget_angle_eq by auto. cbv zeta.
    pose proof (degrees_range _ (acos_bound (x / sqrt (x * x + y * y)))).
    destruct (Rlt_dec y 0); lra.
  - rewrite Rget_angle_eq by auto. cbv zeta.
    pose proof (degrees_range _ (acos_bound (x / sqrt (x * x + y * y)))).
    destruct (Rlt_dec y 0); lra.
Qed.

Lemma xy_of_angle_ne x y : (x <> 0 \/ y <> 0) -> Rget_xy (sqrt (x * x + y * y)) (Rget_angle x y) = (x, y).
Proof.
  intro H.
  rewrite Rget_angle_eq by auto. cbv zeta.
  pose proof (norm_pos x y H) as Hp. pose proof (ratio_range x y H) as Hr.
  set (s := sqrt (x * x + y * y)) in *.
  assert (Hs : s * s = x * x + y * y) by (unfold s; apply sqrt_sqrt; nra).
  assert (Hc : s * (x / s) = x) by (field; lra).
  assert (Hsin : s * sqrt (1 - Rsqr (x / s)) = Rabs y).
  { rewrite <- (sqrt_square s) at 1 by lra. rewrite <- sqrt_mult_alt by nra.
    rewrite <- sqrt_Rsqr_abs. f_equal. unfold Rsqr.
    replace (s * s * (1 - x / s * (x / s))) with (s * s - (s * (x / s)) * (s * (x / s))) by ring.
    rewrite Hc, Hs. ring. }
  unfold Rget_xy. destruct (Rlt_dec y 0) as [Hy|Hy].
  - replace (radians (360 - degrees (acos (x / s)))) with (2 * PI - acos (x / s)).
    2:{ unfold radians, degrees. field. apply PI_neq0. }
    rewrite cos_minus, sin_minus, cos_2PI, sin_2PI, cos_acos, sin_acos by auto.
    f_equal; [transitivity (s * (x / s)); [ring | exact Hc]|].
    replace (s * (0 * (x / s) - 1 * sqrt (1 - Rsqr (x / s)))) with (- (s * sqrt (1 - Rsqr (x / s)))) by ring.
    rewrite Hsin, Rabs_left by auto. ring.
  - rewrite rad_deg, cos_acos, sin_acos by auto. f_equal; [exact Hc|].
    rewrite Hsin, Rabs_right by lra. reflexivity.
Qed.

Lemma xy_of_angle x y : Rget_xy (sqrt (x * x + y * y)) (Rget_angle x y) = (x, y).
Proof.
  destruct (Req_EM_T x 0) as [Ex|Ex]; [destruct (Req_EM_T y 0) as [Ey|Ey]|].
  - subst. unfold Rget_xy. replace (0 * 0 + 0 * 0) with 0 by ring. rewrite sqrt_0. f_equal; ring.
  - apply xy_of_angle_ne; auto.
  - apply xy_of_angle_ne; auto.
Qed.
