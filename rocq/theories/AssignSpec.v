(** * AssignSpec: how trips should be shared between two stops, and what it means to conserve flow *)
From Coq Require Import String List ZArith QArith Qround Qabs Bool.
From Verif Require Import PyBase Graph Mode Route ExtGraph ExtSpec Hyperpath HyperSpec Assignment.
Import ListNotations.
Local Open Scope Q_scope.

Definition mode_of (X : xgraph) (s : nat) : mode := sn_mode (stop_at (xg_stops X) s).

(** The lines of a mode with d parallel axes are evenly spaced over the width p of the zone, whose
    centre is 0. *)
Definition line_position (p d : Q) (i : nat) : Q := (Qofnat i + (1 # 2)) * p / d - p / 2.
(** Generalised cost, in hours of in-vehicle time, of a traveller living at x: the label of the stop
    plus the lateral walk. *)
Definition total_cost (label walk vp spa spv : Q) : Q := label + walk / vp * (spa / spv).

(** Walking distance worth the difference of the labels *)
Definition indifference (vp spa spv l1 l2 : Q) : Q := vp * (l2 - l1) / (spa / spv).
(** The case that the code forgets: the central stop is at least as good, and the indifference walk
    ends exactly at the last line of the other mode (or is zero when the other mode has no line at the
    right of the centre). *)
Definition forgotten (p vp spa spv d2 l1 l2 : Q) : Prop :=
  l1 <= l2 /\ indifference vp spa spv l1 l2 < p / 2 /\
  match Z.to_nat (Qfloor (d2 / 2)) with
  | O => indifference vp spa spv l1 l2 == 0
  | S k => indifference vp spa spv l1 l2 == (Qofnat k + (1 # 2)) * p / d2
  end.
(** The stops of the origin from which the destination can be reached are [s1], of a mode with one
    axis, and [s2]; if both modes have one axis, [s1] comes first. *)
Definition two_stops (X : xgraph) (e : od_entry) (s1 s2 : nat) (l1 l2 : Q) : Prop :=
  s1 <> s2 /\ m_d (mode_of X s1) == 1 /\
  (map fst (od_paths e) = [s1; s2] \/ (map fst (od_paths e) = [s2; s1] /\ ~ m_d (mode_of X s2) == 1)) /\
  hr_lab (od_res e) (ES s1) = Some l1 /\ hr_lab (od_res e) (ES s2) = Some l2.
Definition forgotten_od (X : xgraph) (p vp spa spv : Q) (e : od_entry) : Prop :=
  exists s1 s2 l1 l2, two_stops X e s1 s2 l1 l2 /\ forgotten p vp spa spv (m_d (mode_of X s2)) l1 l2.
