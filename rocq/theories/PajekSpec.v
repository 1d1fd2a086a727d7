(** * PajekSpec: what a node file says and when it describes a city.

    Nothing here refers to the functions that read or write the text. *)
From Coq Require Import String Ascii List ZArith QArith Bool Permutation.
From Verif Require Import PyBase PyStr Graph GraphSpec Pajek.
Import ListNotations.
Local Open Scope Q_scope.

(** One node of the file: the seven values of its line. *)
Record frow : Type := mkF {
  f_id : Z; f_name : string; f_x : Q; f_y : Q; f_kind : kind; f_zone : Z; f_width : Q
}.

(** The seven values of a node of a graph. *)
Definition row_of (n : node) : frow :=
  mkF (nd_id n) (nd_name n) (nd_x n) (nd_y n) (nd_kind n) (nd_zone n) (nd_width n).

(** The line [id] [name] [x] [y] [type] [zone] [width], white-space separated, says the row. *)
Definition line_says (F : numfmt) (line : string) (r : frow) : Prop :=
  exists sid sx sy sz sw,
    words line = [sid; f_name r; sx; sy;
                  match f_kind r with CBD => "CBD" | Periphery => "P" | Subcenter => "SC" end;
                  sz; sw]%string /\
    int_of_str sid = Some (f_id r) /\ int_of_str sz = Some (f_zone r) /\
    nf_read F sx = Some (f_x r) /\ nf_read F sy = Some (f_y r) /\ nf_read F sw = Some (f_width r).

(** A line that does not announce nodes. *)
Definition plain (line : string) : Prop := prefix "*vertices" (lower line) = false.
(** A line that announces [n] nodes. *)
Definition announces (n : Z) (line : string) : Prop :=
  prefix "*vertices" (lower line) = true /\
  exists w sn, words line = [w; sn] /\ int_of_str sn = Some n.
(** A line of a text. *)
Definition one_line (line : string) : Prop := ~ In newline (list_ascii_of_string line).

(** Polar position of a row, as get_angle and sqrt give it. *)
Definition row_radius (G : geo) (r : frow) : Q := geo_sqrt G (f_x r * f_x r + f_y r * f_y r).
Definition row_angle (G : geo) (r : frow) : Q :=
  match get_angle G (f_x r) (f_y r) with Ok a => a | Err _ => 0 end.
Definition placed (G : geo) (r : frow) : Prop :=
  (exists a, get_angle G (f_x r) (f_y r) = Ok a) /\
  0 <= row_angle G r /\ row_angle G r <= 360 /\ 0 <= row_radius G r /\ 0 <= f_width r /\
  (f_kind r = CBD -> f_zone r = 0%Z).

(** The rows of a city with n zones: the CBD, then the periphery and the subcenter of each zone. *)
Definition city_rows (n : nat) (c : frow) (P S : nat -> frow) : list frow :=
  c :: flat_map (fun i => [P i; S i]) (seq 0 n).

(** Subcenter of zone i + 1 in the direction of the CBD (tolerance of 0.001 degrees). *)
Definition towards (G : geo) (c s : frow) : Prop :=
  row_angle G c - (1#1000) <= row_angle G s /\ row_angle G s <= row_angle G c + (1#1000).

(** The ids of the CBD and of the two nodes of a zone do not occur in another zone. *)
Definition ids_apart (n : nat) (c : frow) (P S : nat -> frow) : Prop :=
  (forall i, (i < n)%nat -> f_id (P i) <> f_id c /\ f_id (S i) <> f_id c) /\
  (forall i j, (i < j < n)%nat ->
     f_id (P i) <> f_id (P j) /\ f_id (P i) <> f_id (S j) /\
     f_id (S i) <> f_id (P j) /\ f_id (S i) <> f_id (S j)).

(** A city: one CBD, one periphery and one subcenter in each zone 1..n, positions that have polar
    coordinates, subcenters not all at the origin and on average not farther than the peripheries,
    and, of the subcenters in the direction of the CBD, none at the origin and the last one not
    nearer than the CBD. *)
Record city_file (G : geo) (n : nat) (c : frow) (P S : nat -> frow) : Prop := mkCF {
  cf_size : (Z.of_nat n < 5000)%Z;
  cf_cbd : f_kind c = CBD;
  cf_p : forall i, (i < n)%nat -> f_kind (P i) = Periphery /\ f_zone (P i) = (Z.of_nat i + 1)%Z;
  cf_s : forall i, (i < n)%nat -> f_kind (S i) = Subcenter /\ f_zone (S i) = (Z.of_nat i + 1)%Z;
  cf_ids : ids_apart n c P S;
  cf_placed : forall r, In r (city_rows n c P S) -> placed G r;
  cf_away : (0 < n)%nat -> 0 < Qsumf (fun i => row_radius G (S i)) (seq 0 n);
  cf_out : Qsumf (fun i => row_radius G (S i)) (seq 0 n) <= Qsumf (fun i => row_radius G (P i)) (seq 0 n);
  cf_near : forall i, (i < n)%nat -> towards G c (S i) -> ~ row_radius G (S i) == 0;
  cf_inside : forall i, (i < n)%nat -> towards G c (S i) ->
     (forall j, (i < j < n)%nat -> ~ towards G c (S j)) -> row_radius G c <= row_radius G (S i)
}.

(** The rows of a file describe a city with n zones, in any order; a file with one row needs a node
    that can be placed, of any type. *)
Definition describes (G : geo) (n : nat) (rows : list frow) : Prop :=
  (exists r, n = 0%nat /\ rows = [r] /\ placed G r) \/
  ((0 < n)%nat /\ exists c P S, city_file G n c P S /\ Permutation rows (city_rows n c P S)).

(** The node object of a row, with the polar position computed from x and y. *)
Definition node_of (G : geo) (f : frow) : node :=
  mkNode (f_kind f) (f_id f) (f_x f) (f_y f) (row_radius G f) (row_angle G f) (f_width f) (f_zone f) (f_name f).

(** The graph of a city file: the nodes in the order CBD, P_1, SC_1, P_2, ...; zone i + 1 holds the
    nodes at positions 2i + 1 and 2i + 2; the arcs, numbered from 1, are those of the ring-radial
    city, between positions. *)
Record city_graph (G : geo) (n : nat) (c : frow) (P S : nat -> frow) (g : graph) : Prop := mkCG {
  cg_nodes : g_nodes g = map (node_of G) (city_rows n c P S);
  cg_zones : g_zones g = map (fun i => mkZone (Z.of_nat i + 1) (2 * i + 1) (2 * i + 2)) (seq 0 n);
  cg_ids : map e_id (g_edges g) = map (fun k => Z.of_nat k + 1)%Z (seq 0 (length (g_edges g)));
  cg_once : NoDup (map (fun e => (e_n1 e, e_n2 e)) (g_edges g));
  cg_arcs : forall a b, In (a, b) (map (fun e => (e_n1 e, e_n2 e)) (g_edges g)) <->
              city_arc (Z.of_nat n) (Z.of_nat a) (Z.of_nat b)
}.

(** The parameters of a city file: mean radius of the subcenters, relative excess of the mean
    radius of the peripheries, width of the last subcenter, directions and relative radii of the
    zones, and the position of the CBD relative to the last subcenter in its direction. *)
Record city_params (G : geo) (n : nat) (c : frow) (P S : nat -> frow) (par : params) : Prop := mkCP {
  cp_n : p_n par = Z.of_nat n;
  cp_l : p_l par * Qofnat n == Qsumf (fun i => row_radius G (S i)) (seq 0 n);
  cp_g : (p_l par + p_g par * p_l par) * Qofnat n == Qsumf (fun i => row_radius G (P i)) (seq 0 n);
  cp_p : p_p par = f_width (S (n - 1)%nat);
  cp_angles : p_angles par = Some (map (fun i => row_angle G (S i)) (seq 0 n));
  cp_Gi : exists Gi, p_Gi par = Some Gi /\ length Gi = n /\
            forall i, (i < n)%nat -> nth i Gi 0 * p_l par == row_radius G (S i);
  cp_Hi : exists Hi, p_Hi par = Some Hi /\ length Hi = n /\
            forall i, (i < n)%nat -> nth i Hi 0 * (p_l par + p_g par * p_l par) == row_radius G (P i);
  cp_etha : match p_etha par, p_etha_zone par with
            | None, None => forall i, (i < n)%nat -> ~ towards G c (S i)
            | Some e, Some z => exists i, (i < n)%nat /\ z = (Z.of_nat i + 1)%Z /\ towards G c (S i) /\
                (forall j, (i < j < n)%nat -> ~ towards G c (S j)) /\
                e * row_radius G (S i) == row_radius G c
            | _, _ => False
            end
}.

(** What the import of a file with these rows yields: a city with at least one zone, or the single
    node of a file with one row if it is a CBD, or nothing at all if that one node is not. *)
Inductive imported (G : geo) (fs : list frow) (C : city) : Prop :=
| imp_one r : fs = [r] -> placed G r -> p_n (c_params C) = 0%Z ->
    g_nodes (c_graph C) = (if kind_eqb (f_kind r) CBD then [node_of G r] else []) ->
    g_zones (c_graph C) = [] -> g_edges (c_graph C) = [] -> imported G fs C
| imp_city n c P S : (0 < n)%nat -> city_file G n c P S -> Permutation fs (city_rows n c P S) ->
    city_graph G n c P S (c_graph C) -> city_params G n c P S (c_params C) -> imported G fs C.

(** The rows of a text, line by line; k is the number of rows still expected.  A line that announces m
    nodes starts a table of m rows; while rows are expected every other line must be a row; when none is
    expected any other line is skipped.  A text that ends early is read as it is. *)
Inductive table {R : Type} (says : string -> R -> Prop) : Z -> list string -> list R -> Prop :=
| tb_end k : table says k [] []
| tb_head k m line lines fs : announces m line -> table says m lines fs -> table says k (line :: lines) fs
| tb_skip k line lines fs : plain line -> (k <= 0)%Z -> table says k lines fs -> table says k (line :: lines) fs
| tb_row k line lines r fs : plain line -> (0 < k)%Z -> says line r -> table says (k - 1) lines fs ->
    table says k (line :: lines) (r :: fs).

(** What a number format must satisfy: a printed number is one word and is read back. *)
Definition one_word (s : string) : Prop :=
  s <> EmptyString /\ forall a, In a (list_ascii_of_string s) -> is_ws a = false.
Definition format_ok (F : numfmt) : Prop :=
  forall q, one_word (nf_show F q) /\ nf_read F (nf_show F q) = Some q.

(** The values of the node at position k. *)
Definition row_at (g : graph) (k : nat) : frow :=
  row_of (nth k (g_nodes g) (mkNode CBD 0 0 0 0 0 0 0 EmptyString)).

(** The polar conversion recovers the radius of a node and its angle, except that the angle of a
    node at the origin, and the angle 360, become 0. *)
Definition direction (radius angle : Q) : Q :=
  if (Qeqb radius 0 || Qeqb angle 360)%bool then 0 else angle.
Definition recovers (G : geo) (nd : node) : Prop :=
  row_radius G (row_of nd) == nd_radius nd /\
  exists a, get_angle G (nd_x nd) (nd_y nd) = Ok a /\ a == direction (nd_radius nd) (nd_angle nd).

(** Subcenter of zone z in the direction of the CBD, from the construction parameters. *)
Definition zone_towards (P : params) (z : Z) : Prop :=
  let dc := direction (cbd_radius P) (cbd_angle P) in
  let dz := direction (sc_radius P z) (zone_angle P z) in
  dc - (1#1000) <= dz /\ dz <= dc + (1#1000).
Definition zones (P : params) : list Z := map Z.of_nat (seq 1 (Z.to_nat (p_n P))).

(** The parametric cities whose exported text can be imported again. *)
Record reimportable (P : params) : Prop := mkRI {
  ri_size : (p_n P < 5000)%Z;
  ri_away : (0 < p_n P)%Z -> 0 < Qsumf (sc_radius P) (zones P);
  ri_out : Qsumf (sc_radius P) (zones P) <= Qsumf (periphery_radius P) (zones P);
  ri_near : forall z, (1 <= z <= p_n P)%Z -> zone_towards P z -> ~ sc_radius P z == 0;
  ri_inside : forall z, (1 <= z <= p_n P)%Z -> zone_towards P z ->
     (forall z', (z < z' <= p_n P)%Z -> ~ zone_towards P z') -> cbd_radius P <= sc_radius P z
}.
