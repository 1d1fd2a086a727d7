(** * RGeom: graph.py 477-516 (get_angle, get_xy) over the real numbers.

    Simplification: floats are exact reals; math.radians(a) = a*pi/180 and
    math.degrees(t) = t*180/pi. *)
From Coq Require Import Reals.
Local Open Scope R_scope.

(** math.radians / math.degrees *)
Definition radians (a : R) : R := a * PI / 180.
Definition degrees (t : R) : R := t * 180 / PI.

(** graph.py 507-516 (get_xy) *)
Definition Rget_xy (radius angle : R) : R * R :=
  (radius * cos (radians angle), radius * sin (radians angle)).

(** graph.py 477-505 (get_angle) *)
Definition Rget_angle (x y : R) : R :=
  if Req_EM_T x 0 then
    if Req_EM_T y 0 then 0
    else
      let angle := degrees (acos ((1 * x + 0 * y) / (sqrt (1 * 1 + 0 * 0) * sqrt (x * x + y * y)))) in
      if Rlt_dec y 0 then
        (if Rle_dec 0 x then 360 - angle else (180 - angle) + 180)
      else angle
  else
    let angle := degrees (acos ((1 * x + 0 * y) / (sqrt (1 * 1 + 0 * 0) * sqrt (x * x + y * y)))) in
    if Rlt_dec y 0 then
      (if Rle_dec 0 x then 360 - angle else (180 - angle) + 180)
    else angle.
