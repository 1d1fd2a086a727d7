(** * DemandSpec: specification vocabulary for OD matrices *)
From Coq Require Import String Ascii List ZArith QArith Bool.
From Verif Require Import PyBase Graph GraphSpec Demand.
Import ListNotations.
Local Open Scope Q_scope.

(** cell (i, j) of a matrix *)
Definition cell (D : demand) (i j : Z) : option Q := dict2_get (dm_matrix D) i j.
(** sum of all the cells of the matrix *)
Definition all_cells (D : demand) : list Q := flat_map (fun r => map snd (snd r)) (dm_matrix D).
Definition matrix_sum (D : demand) : Q := Qsum (all_cells D).

(** The layout of a city: one CBD, then periphery and subcenter of zones 1..n, distinct ids. *)
Definition city_layout (n : nat) (nodes : list node) : Prop :=
  NoDup (map nd_id nodes) /\
  exists c P S, nodes = c :: flat_map (fun z => [P z; S z]) (seq 1 n) /\
    nd_kind c = CBD /\
    (forall z, In z (seq 1 n) ->
       nd_kind (P z) = Periphery /\ nd_kind (S z) = Subcenter /\
       nd_zone (P z) = Z.of_nat z /\ nd_zone (S z) = Z.of_nat z).

(** documented shares (demand.py docstring 133-142): trips from node a to node b *)
Definition documented_trips (n : nat) (y a alpha beta : Q) (o d : node) : Q :=
  let N := Qofnat n in
  match nd_kind o, nd_kind d with
  | Periphery, CBD => alpha * (a * (y / N))
  | Periphery, Subcenter =>
      if (nd_zone o =? nd_zone d)%Z
      then (if Nat.eqb n 1 then 1 - alpha else beta) * (a * (y / N))
      else (1 - alpha - beta) * (a * (y / N)) / (N - 1)
  | Subcenter, CBD => (1 - a) * (y / N) * (if Nat.eqb n 1 then 1 else alpha / (1 - beta))
  | Subcenter, Subcenter =>
      if (nd_zone o =? nd_zone d)%Z then 0
      else (1 - a) * (y / N) * ((1 - alpha - beta) / (1 - beta)) / (N - 1)
  | _, _ => 0
  end.

Definition valid_demand_params (y a alpha beta : Q) : Prop :=
  0 <= y /\ 0 <= a <= 1 /\ 0 <= alpha <= 1 /\ 0 <= beta < 1 /\ alpha + beta <= 1.
(** the same conditions in their order, each with its exception *)
Definition demand_conditions (y a alpha beta : Q) : list (Prop * exn) :=
  [ (0 <= y, YOutOfRangeException);
    (0 <= a <= 1, AOutOfRangeException);
    (0 <= alpha <= 1, AlphaOutOfRangeException);
    (0 <= beta < 1, BetaOutOfRangeException);
    (alpha + beta <= 1, AlphaBetaOutOfRangeException) ].

Definition square_nonneg (k : nat) (m : list (list Q)) : Prop :=
  length m = k /\ forall row, In row m -> length row = k /\ forall v, In v row -> 0 <= v.

(** laws of the float printer/parser used by the round trip *)
Definition floatio_ok (F : floatio) : Prop :=
  forall q, (exists q', fl_parse F (String.append (fl_print F q) newline) = Some q' /\ q' == q) /\
            (forall i, String.get i (fl_print F q) <> Some ","%char).

(** histories in which reads through get_matrix() only name nodes of the graph *)
Definition known_reads (nodes : list node) (ops : list dop) : Prop :=
  forall op, In op ops ->
    match op with
    | DChange _ _ _ => True
    | DReadRow o => In o (map nd_id nodes)
    | DReadCell o d => In o (map nd_id nodes) /\ In d (map nd_id nodes)
    end.
