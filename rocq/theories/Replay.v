(** * Replay: the repository's own unit tests, run on the model

    Not theorems about all inputs: each Example computes, in the model, the scenario of a test in /repo/tests and compares it
    with the value that the test expects of the Python code.  This is evidence that the model is the program, no more. *)
From Coq Require Import String List ZArith QArith Qabs Bool.
From Verif Require Import PyBase PyStr Graph GeoEx Pajek Demand Mode Route Network Predef ExtGraph Hyperpath Assignment Costs UsersCost
  Props_Graph Props_Network Props_Pajek Args.
Import ListNotations.
Local Open Scope Q_scope.

Definition getr {A} (d : A) (r : res A) : A := match r with Ok x => x | Err _ => d end.
(** round(q, k) = a, for a given as a fraction with denominator 10^k *)
Definition rounds (q a : Q) (k : Z) : bool := Qle_bool (Qabs (q - a)) (5 / inject_Z (10 ^ (k + 1))).
Definition close (q a : Q) : bool := Qle_bool (Qabs (q - a)) (1 # 1000000000000).
Definition no_city : city := mkCity empty_graph (mkParams 0 0 0 0 None None None None None).
Definition city_of (n : Z) (l g p : Q) : city := getr no_city (build_from_parameters ex_geo (mkParams n l g p None None None None None)).
Definition add_all (nw : network) (rs : res (list route)) : network := nrun nw (map NAddRoute (getr [] rs)).
Definition ext_of (g : graph) (nw : network) : xgraph := getr (mkXgraph g [] [] [] []) (build_ext ex_geo g (nw_routes nw) 16 None).
(** Passenger.get_default_passenger (passenger.py) *)
Definition P0 : qpass := mkPass 4 (274#100) (548#100) (822#100) 16 (274#100) (548#100) (822#100) 16.
Definition all_equal (nw : network) (q : Q) : fdict := map (fun r => (r_id r, q)) (nw_routes nw).
Definition city_named (g : graph) (nm : string) : option enode :=
  match find (fun k => String.eqb (nd_name (gnode g k)) nm) (seq 0 (length (g_nodes g))) with Some k => Some (EC k) | None => None end.
Definition stop_named (X : xgraph) (nm md : string) : nat :=
  match find (fun k => String.eqb (nd_name (gnode (xg_graph X) (sn_city (stop_at (xg_stops X) k)))) nm &&
                       String.eqb (m_name (sn_mode (stop_at (xg_stops X) k))) md) (seq 0 (length (xg_stops X))) with Some k => k | None => 0%nat end.

(** ** test_users_cost, test_assignment, test_operators_cost: feeder metro and radial bus in a city of two zones *)
Definition C2 : city := city_of 2 10 (1#2) 2.
Definition g2 : graph := c_graph C2.
Definition D2 (y : Q) : demand := getr (new_demand [] 0) (demand_from_parameters (g_nodes g2) 2 y (1#2) (1#3) (1#3)).
Definition N2 : network := add_all (add_all (new_network g2) (get_feeder_routes g2 ex_metro)) (get_radial_routes g2 ex_bus false false).
Definition X2 : xgraph := ext_of g2 N2.
Definition f2 : fdict := all_equal N2 28.
Definition E2 : list od_entry := getr [] (get_all_hyperpaths 200 X2 P0 (dm_matrix (D2 100))).
Definition A2 : list (list (nat * Q)) := getr [] (get_assignment X2 2 4 (822#100) (274#100) E2).
Definition T2 : tables := getr (mkT [] [] []) (get_alighting_and_boarding 200 X2 f2 E2 A2).
(** OD_assignment[origin][destination][stop] *)
Definition assigned (o d : string) (s : nat) : Q :=
  match find (fun ea : od_entry * list (nat * Q) => match od_o (fst ea), od_d (fst ea), city_named g2 o, city_named g2 d with
                        | Some a, Some b, Some a', Some b' => enode_eqb a a' && enode_eqb b b' | _, _, _, _ => false end) (combine E2 A2) with
  | Some (_, l) => dget0 Nat.eqb 0 l s
  | None => 0 end.

Example test_assignment :
  rounds (assigned "P_1" "CBD" (stop_named X2 "P_1" "bus")) 100 2 = true /\
  rounds (assigned "P_1" "SC_1" (stop_named X2 "P_1" "bus")) (8488#100) 2 = true /\
  rounds (assigned "P_1" "SC_1" (stop_named X2 "P_1" "metro")) (1512#100) 2 = true.
Proof. vm_compute. repeat split. Qed.

Example test_get_alighting_and_boarding :
  let z := tget (t_z T2) in let v := tget (t_v T2) in
  rounds (z "R_bus_1"%string DI (stop_named X2 "P_1" "bus")) (85#100) 2 = true /\
  rounds (z "R_bus_1"%string DI (stop_named X2 "SC_1" "bus")) (89#100) 2 = true /\
  rounds (z "R_bus_1"%string DR (stop_named X2 "CBD" "bus")) (74#100) 2 = true /\
  rounds (v "R_bus_1"%string DI (stop_named X2 "CBD" "bus")) (149#100) 2 = true /\
  rounds (v "R_bus_1"%string DI (stop_named X2 "SC_1" "bus")) (25#100) 2 = true /\
  rounds (v "R_bus_1"%string DR (stop_named X2 "SC_1" "bus")) (74#100) 2 = true /\
  rounds (z "F_metro_1"%string DI (stop_named X2 "P_1" "metro")) (4#100) 2 = true /\
  rounds (v "F_metro_1"%string DI (stop_named X2 "SC_1" "metro")) (4#100) 2 = true /\
  rounds (z "F_metro_1"%string DR (stop_named X2 "SC_1" "metro")) 0 2 = true.
Proof. vm_compute. repeat split. Qed.

Example test_most_loaded_section :
  let l := most_loaded_section (t_l T2) in
  length l = 4%nat /\ freq l "F_metro_1" == freq l "F_metro_2" /\ close (freq l "F_metro_1") (44997165532879815#1000000000000000000) = true /\
  freq l "R_bus_1" == freq l "R_bus_2" /\ close (freq l "R_bus_1") (14880952380952384#10000000000000000) = true.
Proof. vm_compute. repeat split. Qed.

Example test_resources_consumer : exists u, resources_consumer 200 X2 4 f2 E2 A2 [] [] = Ok u /\
  rounds (u_ta u) (30690#10000) 4 = true /\ rounds (u_te u) (139597#10000) 4 = true /\ rounds (u_tv u) (746850#10000) 4 = true /\ rounds (u_t u) (416667#10000) 4 = true.
Proof. eexists. split; [vm_compute; reflexivity|]. vm_compute. repeat split. Qed.
Example test_get_users_cost : exists q, get_users_cost 200 X2 P0 f2 E2 A2 [] [] = Ok q /\ rounds q (3368079#10000) 4 = true.
Proof. eexists. split; [vm_compute; reflexivity|]. vm_compute. reflexivity. Qed.

Example test_lines_travel_time : exists t, lines_travel_time (nw_routes N2) (get_edges_distance ex_geo g2) = Ok t /\
  freq t "R_bus_1" == 15#10 /\ freq t "F_metro_1" == 25#100.
Proof. eexists. split; [vm_compute; reflexivity|]. vm_compute. repeat split. Qed.
Example test_get_cycle_time : exists t, lines_travel_time (nw_routes N2) (get_edges_distance ex_geo g2) = Ok t /\
  let c := fst (fst (get_cycle_time (t_z T2) (t_v T2) (nw_routes N2) t)) in
  rounds (freq c "F_metro_1") (2500082#10000000) 7 = true /\ rounds (freq c "R_bus_1") (15032756#10000000) 7 = true /\ freq c "l1" == 0.
Proof. eexists. split; [vm_compute; reflexivity|]. vm_compute. repeat split. Qed.
Example test_get_operators_cost : get_operators_cost (nw_routes N2) (all_equal N2 10) f2 (all_equal N2 100) == 753312#10.
Proof. vm_compute. reflexivity. Qed.

(** ** test_infrastructure_cost, test_constrains *)
Definition g3 : graph := c_graph (city_of 2 10 1 2).
Definition N3 : network := add_all (add_all (new_network g3) (get_circular_routes g3 ex_metro)) (get_radial_routes g3 ex_bus false false).
Example test_get_mode_network_distance :
  map (fun '(m, d) => (m_name m, Qred d)) (get_mode_network_distance ex_geo g3 N3 (all_equal N3 28)) = [("metro"%string, 20); ("bus"%string, 160)].
Proof. vm_compute. reflexivity. Qed.
Example test_get_infrastruture_cost : get_infrastructure_cost ex_geo g3 N3 (all_equal N3 28) == 18663.
Proof. vm_compute. reflexivity. Qed.

Definition N4 : network := add_all (add_all (add_all (new_network g3) (get_radial_routes g3 ex_bus false false)) (get_feeder_routes g3 ex_bus))
  (get_radial_routes g3 ex_metro true false).
Example test_most_loaded_section_constrains :
  map Qred (most_loaded_constrains (nw_routes N4) (all_equal N4 10)) = [-150; -150; -150; -150; -1430; -1430].
Proof. vm_compute. reflexivity. Qed.
Example test_fmax_constrains : exists l, fmax_constrains g3 (nw_routes N4) (nw_modes N4) (all_equal N4 28) = Ok l /\
  map Qred l = [-136; -40; -136; -40; -143; -12; -143; -12; -150; -40; -150; -40; -136; -40; -136; -40; -143; -12; -143; -12].
Proof. eexists. split; vm_compute; reflexivity. Qed.

(** ** test_hyper_path *)
Definition N5 : network := add_all (add_all (new_network g2) (get_radial_routes g2 ex_bus false false)) (get_diametral_routes g2 ex_bus 1 false false).
Example test_network_validator :
  let P := city_of 2 10000 (1#2) 2000 in
  let M := dm_matrix (getr (new_demand [] 0) (demand_from_parameters (g_nodes (c_graph P)) 2 1000 (1#2) (1#3) (1#3))) in
  let N := add_all (new_network (c_graph P)) (get_radial_routes (c_graph P) ex_bus false false) in
  network_validator 200 (ext_of (c_graph P) (new_network (c_graph P))) P0 M = Err TransportNetworkException /\
  network_validator 200 (ext_of (c_graph P) N) P0 M = Ok true.
Proof. vm_compute. repeat split. Qed.
Definition label_is (o : option Q) (a : Q) (k : Z) : bool := match o with Some q => rounds q a k | None => false end.
Example test_build_hyperpath_graph :
  let X := ext_of g2 N5 in
  city_named g2 "P_1" = Some (EC 1) /\ city_named g2 "P_2" = Some (EC 3) /\
  match build_hyperpath 200 X P0 (city_named g2 "P_1") (city_named g2 "P_2") with
  | Ok r => hr_lab r (EC 1) = None /\ label_is (hr_lab r (EC 3)) 0 15 = true /\
      label_is (hr_lab r (ES (stop_named X "P_1" "bus"))) (155#100) 15 = true
  | Err _ => False end.
Proof. vm_compute. repeat split. Qed.
Definition N6 : network := add_all N5 (get_diametral_routes g2 ex_metro 1 false false).
Definition X6 : xgraph := ext_of g2 N6.
Example test_get_hyperpath_OD :
  match hyperpath_OD 200 X6 P0 (city_named g2 "P_1") (city_named g2 "P_2") with
  | Ok (hp, r) =>
    hr_lab r (EC 1) = None /\ label_is (hr_lab r (EC 3)) 0 15 = true /\
    label_is (hr_lab r (ES (stop_named X6 "P_1" "bus"))) (130238#100000) 5 = true /\
    label_is (hr_lab r (ES (stop_named X6 "P_1" "metro"))) (88571#100000) 5 = true /\
    length hp = 2%nat /\ length (dget0 Nat.eqb [] hp (stop_named X6 "P_1" "bus")) = 2%nat /\
    length (dget0 Nat.eqb [] hp (stop_named X6 "P_1" "metro")) = 1%nat
  | Err _ => False end.
Proof. vm_compute. repeat split. Qed.
Definition E6 : list od_entry := getr [] (get_all_hyperpaths 200 X6 P0 (dm_matrix (D2 1000))).
Definition from_node (nm : string) : list od_entry :=
  filter (fun e => match od_o e, city_named g2 nm with Some a, Some b => enode_eqb a b | _, _ => false end) E6.
Example test_get_all_hyperpaths :
  map (fun nm => length (from_node nm)) ["CBD"; "P_1"; "SC_1"; "P_2"; "SC_2"]%string = [0; 3; 2; 3; 2]%nat /\
  existsb (fun e => match od_d e, city_named g2 "SC_2" with
     | Some a, Some b => enode_eqb a b && label_is (hr_lab (od_res e) (ES (stop_named X6 "P_1" "bus"))) (117738#100000) 5 &&
         label_is (hr_lab (od_res e) (ES (stop_named X6 "P_1" "metro"))) (76071#100000) 5
     | _, _ => false end) (from_node "P_1") = true.
Proof. vm_compute. repeat split. Qed.

(** ** test_extended_graph *)
Definition g5 : graph := c_graph (city_of 5 1000 (1#2) 2).
Definition N7 (express : bool) : network :=
  add_all (add_all (add_all (new_network g5) (get_feeder_routes g5 ex_bus)) (get_radial_routes g5 ex_metro false express)) (get_circular_routes g5 ex_bus).
Definition of_type (X : xgraph) (ty : etype) : nat := length (filter (fun e => etype_eqb (x_type e) ty) (xg_edges X)).
Example test_build_tree_graph :
  let X := ext_of g5 (N7 false) in
  let calls := map (fun '(c, l) => map (fun '(_, rs) => length rs) l) (xg_nodes X) in
  length (filter (fun l => Nat.eqb (length l) 1) calls) = 1%nat /\ length (filter (fun l => Nat.eqb (length l) 2) calls) = 10%nat /\
  length (filter (fun l => Nat.eqb (list_sum l) 4) calls) = 5%nat /\ length (filter (fun l => Nat.eqb (list_sum l) 6) calls) = 5%nat /\
  length (filter (fun l => Nat.eqb (list_sum l) 10) calls) = 1%nat.
Proof. vm_compute. repeat split. Qed.
Example test_build_nodes : let X := ext_of g5 (N7 false) in
  length (xg_nodes X) = 11%nat /\ length (xg_stops X) = 21%nat /\ length (xg_rnodes X) = 60%nat.
Proof. vm_compute. repeat split. Qed.
Example test_build_edges : map (of_type (ext_of g5 (N7 false))) [ACCESS; BOARDING; ALIGHTING; ROUTE] = [42; 40; 40; 40]%nat.
Proof. vm_compute. reflexivity. Qed.
Example test_get_extended_edges : map (of_type (ext_of g5 (N7 true))) [ACCESS; BOARDING; ALIGHTING; ROUTE] = [32; 30; 30; 30]%nat.
Proof. vm_compute. reflexivity. Qed.

(** ** test_graph: the node files of /repo/tests/file/graph *)
Definition int_fmt : numfmt := mkFmt (fun q => str_of_Z (Qnum q)) (fun s => match int_of_str s with Some z => Some (inject_Z z) | None => None end).
Definition file (l : list string) : string := fold_right (fun a b => String.append a (String.append Pajek.nl b)) EmptyString l.
Definition sizes (data : string) : option (nat * nat * nat) :=
  match build_from_content ex_geo int_fmt data with
  | Ok C => Some (length (g_nodes (c_graph C)), length (g_edges (c_graph C)), length (g_zones (c_graph C)))
  | Err _ => None end.
Definition fails (data : string) : option exn :=
  match build_from_content ex_geo int_fmt data with Ok _ => None | Err e => Some e end.
Definition zone0 : string := file ["[id] [name] [x] [y] [type] [zone_id] [width]"; "*vertices 1"; "0 CBD 0 0 CBD 0 0"]%string.
Definition zone1 : string := file ["[id] [name] [x] [y] [type] [zone_id] [width]"; "*vertices 3"; "0 CBD 0 0 CBD 0 0"; "1 SC_1 1000 0 SC 1 0"; "2 P_1 1000 0 P 1 0"]%string.
Definition zone2 : string := file ["[id] [name] [x] [y] [type] [zone_id] [width]"; "*vertices 5"; "0 CBD 0 0 CBD 0 0"; "1 SC_1 1000 0 SC 1 0"; "2 P_1 1000 0 P 1 0"; "3 SC_2 -1000 0 SC 2 0"; "4 P_2 -1000 0 P 2 0"]%string.
Definition zone3 : string := file ["[id] [name] [x] [y] [type] [zone_id] [width]"; "*vertices 7"; "0 CBD 0 0 CBD 0 0"; "1 SC_1 1000 0 SC 1 0"; "2 P_1 1000 0 P 1 0"; "3 SC_2 -1000 0 SC 2 0"; "4 P_2 -1000 0 P 2 0"; "5 SC_3 0 -1000 SC 3 0"; "6 P_3 0 -1000 P 3 0"]%string.
Definition bad_type : string := file ["[id] [name] [x] [y] [type] [zone_id] [width]"; "*vertices 3"; "0 CBD 0 0 Node_type 0 0"; "1 SC_1 1000 0 SC 1 0"; "2 P_1 1000 0 P 1 0"]%string.
Definition bad_zone_nodes : string := file ["[id] [name] [x] [y] [type] [zone_id] [width]"; "*vertices 3"; "0 CBD 0 0 CBD 0 0"; "1 SC_1 1000 0 SC 1 0"; "2 SC_1 1000 0 SC 1 0"]%string.
Definition bad_lines : string := file ["[id] [name] [x] [y] [type] [zone_id] [width]"; "*vertices 4"; "0 CBD 0 0 CBD 0 0"; "1 SC_1 1000 0 SC 1 0"; "2 P_1 1000 0 P 1 0"; "3 P_2 -1000 0 P 2 0"]%string.
Definition bad_format : string := file ["[id] [name] [x] [y] [type] [zone_id] [width]"; "*vertices 3"; "0 CBD 0 0 CBD 0 0"; "1 SC_1 1000 0 SC 1 0"; "2 P_1 1000 0 P 1"]%string.
Definition no_cbd : string := file ["[id] [name] [x] [y] [type] [zone_id] [width]"; "*vertices 3"; "0 P_0 0 0 P 0 0"; "1 P_1 1000 0 P 1 0"; "2 SC_1 1000 0 SC 1 0"]%string.
Definition bad_ids : string := file ["[id] [name] [x] [y] [type] [zone_id] [width]"; "*vertices 3"; "0 CBD 0 0 CBD 0 0"; "1 SC_1 1000 0 SC 1 0"; "0 P_1 1000 0 P 1 0"]%string.
Definition word_id : string := file ["[id] [name] [x] [y] [type] [zone_id] [width]"; "*vertices 7"; "0 CBD 0 0 CBD 0 0"; "1 SC_1 1000 0 SC 1 0"; "2 P_1 1000 0 P 1 0"; "3 SC_2 -1000 0 SC 2 0"; "4 P_2 -1000 0 P 2 0"; "id_5 SC_3 0 -1000 SC 3 0"; "6 P_3 0 -1000 P 3 0"]%string.
Definition word_zone : string := file ["[id] [name] [x] [y] [type] [zone_id] [width]"; "*vertices 7"; "0 CBD 0 0 CBD zone_cbd 0"; "1 SC_1 1000 0 SC 1 0"; "2 P_1 1000 0 P 1 0"; "3 SC_2 -1000 0 SC 2 0"; "4 P_2 -1000 0 P 2 0"; "5 SC_3 0 -1000 SC 3 0"; "6 P_3 0 -1000 P 3 0"]%string.
Example test_build_from_pajek_file : map sizes [zone0; zone1; zone2; zone3] = map Some [(1, 0, 0); (3, 4, 1); (5, 10, 2); (7, 18, 3)]%nat.
Proof. vm_compute. reflexivity. Qed.
Example test_pajek_exceptions : map fails [bad_type; bad_zone_nodes; bad_lines; bad_format; no_cbd; bad_ids; word_id; word_zone] =
  map Some [NodeTypeIsNotValidException; PeripherySubcenterNumberForZoneException; LineNumberInFileIsNotValidException; PajekFormatIsNotValidException;
    CBDDoesNotExistException; NodeIdDuplicatedException; NodeIdIsNotAnInteger; ZoneIdIsNotAnInteger].
Proof. vm_compute. reflexivity. Qed.
Example test_get_edges_distance : dist0 (get_edges_distance ex_geo g2) 1 2 == 5 /\ dist0 (get_edges_distance ex_geo g2) 2 0 == 10.
Proof. vm_compute. repeat split. Qed.

(** the errors of build_from_parameters *)
Definition refusal (P : params) : option exn := match build_from_parameters ex_geo P with Ok _ => None | Err e => Some e end.
Definition P2 (etha : option Q) (ez : option Z) (an gi hi : option (list Q)) : params := mkParams 2 1000 (1#2) 0 etha ez an gi hi.
Example test_parameters_exceptions :
  map refusal [mkParams (-1) 1000 (1#2) 0 None None None None None; mkParams 1 (-1000) (1#2) 0 None None None None None;
    mkParams 1 1000 (-(1#2)) 0 None None None None None; mkParams 1 1000 (1#2) (-1) None None None None None;
    P2 None (Some 2%Z) None None None; P2 (Some (1#2)) None None None None; P2 (Some (-1)) (Some 2%Z) None None None; P2 (Some (1#2)) (Some 3%Z) None None None;
    P2 None None (Some [20]) None None; P2 None None (Some [20; 370]) None None; P2 None None None (Some [1#2]) None; P2 None None None (Some [1#2; -2]) None;
    P2 None None None None (Some [1#2]); P2 None None None None (Some [1#2; -2])] =
  map Some [NIsNotValidNumberException; LIsNotValidNumberException; GIsNotValidNumberException; PIsNotValidNumberException;
    EthaValueRequiredException; EthaZoneValueRequiredException; EthaValueIsNotValidException; EthaZoneValueIsNotValidException;
    AngleListLengthIsNotValidException; AngleValueIsNotValidException; GiListLengthIsNotValidException; GiValueIsNotValidException;
    HiListLengthIsNotValidException; HiValueIsNotValidException].
Proof. vm_compute. reflexivity. Qed.

(** write1_test.PAJEK: the file of a city with etha = 0.5 towards zone 1, angles 10 and 50, Gi = Hi = [2, 0.5]; the
    cosines and sines of the two angles are the floats of the file itself (divided by the radius of the CBD and of SC_2) *)
Definition test_geo : geo := mkGeo
  (fun a => if Qeqb a 10 then 984807753012208#1000000000000000 else 32139380484326966#50000000000000000)
  (fun a => if Qeqb a 10 then 17364817766693034#100000000000000000 else 383022221559489#500000000000000)
  ex_sqrt ex_acos.
Definition written (x y : Q) (n : node) : bool := Qle_bool (Qabs (nd_x n - x)) (1#1000000000) && Qle_bool (Qabs (nd_y n - y)) (1#1000000000).
Example test_graph_to_pajek : exists C,
  build_from_parameters test_geo (mkParams 2 1000 (1#2) 0 (Some (1#2)) (Some 1%Z) (Some [10; 50]) (Some [2; 1#2]) (Some [2; 1#2])) = Ok C /\
  map (fun n => (nd_id n, nd_name n, nd_zone n, Qred (nd_width n))) (g_nodes (c_graph C)) =
    [(0%Z, "CBD", 0%Z, 0); (1%Z, "P_1", 1%Z, 0); (2%Z, "SC_1", 1%Z, 0); (3%Z, "P_2", 2%Z, 0); (4%Z, "SC_2", 2%Z, 0)]%string /\
  map (fun '(n, (x, y)) => written x y n) (combine (g_nodes (c_graph C))
    [(984807753012208#1000000000000, 17364817766693034#100000000000000); (2954423259036624#1000000000000, 520944533000791#1000000000000);
     (1969615506024416#1000000000000, 3472963553338607#10000000000000); (4820907072649045#10000000000000, 5745333323392335#10000000000000);
     (32139380484326966#100000000000000, 383022221559489#1000000000000)]) = [true; true; true; true; true].
Proof. eexists. split; [vm_compute; reflexivity|]. vm_compute. repeat split. Qed.

(** ** test_demand *)
Definition nodes3 : list node := g_nodes (c_graph (city_of 3 1000 (1#2) 2)).
Definition int_io : floatio := mkFloatIO (fun q => str_of_Z (Qnum q)) (nf_read int_fmt).
Definition raised {A} (r : res A) : option exn := match r with Ok _ => None | Err e => Some e end.
Example test_demand_parameters_exceptions :
  map (fun '(y, a, al, be) => raised (demand_from_parameters nodes3 3 y a al be))
    [(-100, 1#2, 1#3, 1#3); (1000, 2, 1#3, 1#3); (1000, 1#2, 2, 1#3); (1000, 1#2, 1#3, 2); (1000, 1#2, 8#10, 8#10)] =
  map Some [YOutOfRangeException; AOutOfRangeException; AlphaOutOfRangeException; BetaOutOfRangeException; AlphaBetaOutOfRangeException].
Proof. vm_compute. reflexivity. Qed.
Example test_demand_from_parameters :
  map (fun n => match demand_from_parameters (g_nodes (c_graph (city_of n 1000 (1#2) 2))) n 1000 (1#2) (1#3) (1#3) with
                | Ok D => length (dm_matrix D) | Err _ => 0%nat end) [0; 1; 2]%Z = [1; 3; 5]%nat.
Proof. vm_compute. reflexivity. Qed.
Example test_demand_from_file :
  match demand_from_lines int_io nodes3 3 ["origin,destination,vij"; "0,1,100"; "1,2,200"; "2,1,300"; "1,0,100"; "2,0,100"; "1,3,100"; "1,4,100"]%string with Ok D => length (dm_matrix D) = 7%nat | Err _ => False end /\
  map (fun l => raised (demand_from_lines int_io nodes3 3 l))
    [["origin,destination,vij"; "hola,1,0"]%string; ["origin,destination,vij"; "0,1,-100"]%string; ["origin,destination,vij"; "1,10,100"]%string;
     ["origin,destination,vij"; "10,1,100"]%string; ["origin,destination,vij"; "0,1"]%string] =
  map Some [NodeIdDemandIsNotAnInteger; TripsValueIsNotValidException; DestinationIdDoesNotFoundException; OriginIdDoesNotFoundException; FileFormatIsNotValidException].
Proof. vm_compute. repeat split. Qed.
(** write1_test.csv *)
Example test_matrix_to_file :
  let rows := matrix_rows (dm_matrix (getr (new_demand [] 0) (demand_from_parameters (g_nodes (c_graph (city_of 2 1000 (1#2) 2))) 2 1000 (1#2) (1#3) (1#3)))) in
  let wrote : list (Z * Z * Q) := [(0%Z, 0%Z, 0); (0%Z, 1%Z, 0); (0%Z, 2%Z, 0); (0%Z, 3%Z, 0); (0%Z, 4%Z, 0); (1%Z, 0%Z, 8333333333333333#100000000000000); (1%Z, 1%Z, 0); (1%Z, 2%Z, 8333333333333333#100000000000000); (1%Z, 3%Z, 0); (1%Z, 4%Z, 1041666666666667#12500000000000); (2%Z, 0%Z, 12499999999999999#100000000000000); (2%Z, 1%Z, 0); (2%Z, 2%Z, 0); (2%Z, 3%Z, 0); (2%Z, 4%Z, 12500000000000003#100000000000000); (3%Z, 0%Z, 8333333333333333#100000000000000); (3%Z, 1%Z, 0); (3%Z, 2%Z, 1041666666666667#12500000000000); (3%Z, 3%Z, 0); (3%Z, 4%Z, 8333333333333333#100000000000000); (4%Z, 0%Z, 12499999999999999#100000000000000); (4%Z, 1%Z, 0); (4%Z, 2%Z, 12500000000000003#100000000000000); (4%Z, 3%Z, 0); (4%Z, 4%Z, 0)] in
  length rows = length wrote /\ forallb (fun '((o, d, v), (o', d', v')) => (o =? o')%Z && (d =? d')%Z && close v v') (combine rows wrote) = true.
Proof. vm_compute. repeat split. Qed.

(** ** test_transport_network *)
Definition route_of (i ni nr si sr : string) : res route := new_route (Some i) (Some ex_bus) (Some ni) (Some nr) (Some si) (Some sr) CUSTOM.
Example test_routes : raised (route_of "r1" "1,2,0,4,3" "3,4,0,2,1" "1,0,3" "3,0,1") = None.
Proof. vm_compute. reflexivity. Qed.
Example test_raises_routes_exceptions :
  map raised [new_route None (Some ex_bus) (Some "1,2,0,4,3") (Some "3,4,0,2,1") (Some "1,0,3") (Some "3,0,1") CUSTOM;
    new_route (Some "r1") None (Some "1,2,0,4,3") (Some "3,4,0,2,1") (Some "1,0,3") (Some "3,0,1") CUSTOM;
    route_of "r1" "1,2,0,4,3" "3,4,0,2,1" "1,5,3" "3,0,1"; route_of "r1" "1,2,0,4,3" "3,4,0,2,1" "2,0,3" "3,0,1";
    route_of "r1" "1,2,0,4,3" "3,4,0,2,1" "1,0,2" "3,0,1"; route_of "r1" "1,2,0,4,3" "4,0,2,1" "1,0,3" "4,0,1";
    route_of "r2" "1,3,0,4,3" "3,4,0,2,1" "1,0,3" "3,0,1"]%string =
  map Some [RouteIdIsNotValidException; ModeIsNotValidException; StopsSequencesException; FirstStopIsNotValidException; LastStopIsNotValidException;
    NotCycleException; NodeSequencesIsNotValidException].
Proof. vm_compute. reflexivity. Qed.
Definition r1 : route := getr dflt_route (route_of "r1" "1,2,0,4,3" "3,4,0,2,1" "1,0,3" "3,0,1").
Definition r2 : route := getr dflt_route (new_route (Some "r2"%string) (Some ex_metro) (Some "1,2,0,4,3"%string) (Some "3,4,0,2,1"%string) (Some "1,0,3"%string) (Some "3,0,1"%string) CUSTOM).
Definition with_r1 : network := nrun (new_network g5) [NAddRoute r1].
Example test_add_and_remove_route :
  get_route with_r1 "r1" = Ok r1 /\ length (nw_routes with_r1) = 1%nat /\ snd (nstep with_r1 (NAddRoute r1)) = Some RouteIdDuplicatedException /\
  nw_routes (nrun with_r1 [NRemoveRoute "r1"]) = [] /\ snd (nstep (nrun with_r1 [NRemoveRoute "r1"%string]) (NRemoveRoute "r1")) = Some RouteIdNotFoundException /\
  get_route (new_network g5) "r1" = Err RouteIdNotFoundException.
Proof. vm_compute. repeat split. Qed.
Example test_network_to_file : routes_table (nrun with_r1 [NAddRoute r2]) =
  [("r1", "bus", "1,2,0,4,3", "3,4,0,2,1", "1,0,3", "3,0,1"); ("r2", "metro", "1,2,0,4,3", "3,4,0,2,1", "1,0,3", "3,0,1")]%string.
Proof. vm_compute. reflexivity. Qed.
(** the number of routes and the sequences of the first and last one *)
Definition shape (r : route) : list Z * list Z * list Z * list Z := (r_ni r, r_nr r, r_si r, r_sr r).
Definition ends (rs : res (list route)) : nat * (list Z * list Z * list Z * list Z) * (list Z * list Z * list Z * list Z) :=
  let l := getr [] rs in (length l, shape (hd dflt_route l), shape (last l dflt_route)).
Example test_get_feeder_routes : map shape (firstn 2 (getr [] (get_feeder_routes g5 ex_bus))) = [([1;2],[2;1],[1;2],[2;1]); ([3;4],[4;3],[3;4],[4;3])]%Z /\
  length (getr [] (get_feeder_routes g5 ex_bus)) = 5%nat.
Proof. vm_compute. repeat split. Qed.
Example test_get_circular_routes : map shape (getr [] (get_circular_routes g5 ex_bus)) =
    [([2;4;6;8;10;2],[],[2;4;6;8;10;2],[]); ([],[10;8;6;4;2;10],[],[10;8;6;4;2;10])]%Z /\
  raised (get_circular_routes (c_graph (city_of 1 1000 (1#2) 2)) ex_bus) = Some CircularRouteIsNotValidException.
Proof. vm_compute. repeat split. Qed.
Example test_get_radial_routes :
  map (fun '(s, e) => map shape (firstn 2 (getr [] (get_radial_routes g5 ex_bus s e)))) [(false, false); (true, false); (false, true); (true, true)] =
  [[([1;2;0],[0;2;1],[1;2;0],[0;2;1]); ([3;4;0],[0;4;3],[3;4;0],[0;4;3])]; [([2;0],[0;2],[2;0],[0;2]); ([4;0],[0;4],[4;0],[0;4])];
   [([1;2;0],[0;2;1],[1;0],[0;1]); ([3;4;0],[0;4;3],[3;0],[0;3])]; [([2;0],[0;2],[2;0],[0;2]); ([4;0],[0;4],[4;0],[0;4])]]%Z.
Proof. vm_compute. reflexivity. Qed.
Example test_get_diametral_routes :
  map (fun '(j, s, e) => ends (get_diametral_routes g5 ex_bus j s e)) [(2, false, false); (2, true, false); (2, false, true); (2, true, true); (1, true, true)]%Z =
  [(5%nat, ([1;2;0;6;5],[5;6;0;2;1],[1;2;0;6;5],[5;6;0;2;1]), ([9;10;0;4;3],[3;4;0;10;9],[9;10;0;4;3],[3;4;0;10;9]));
   (5%nat, ([2;0;6],[6;0;2],[2;0;6],[6;0;2]), ([10;0;4],[4;0;10],[10;0;4],[4;0;10]));
   (5%nat, ([1;2;0;6;5],[5;6;0;2;1],[1;5],[5;1]), ([9;10;0;4;3],[3;4;0;10;9],[9;3],[3;9]));
   (5%nat, ([2;0;6],[6;0;2],[2;6],[6;2]), ([10;0;4],[4;0;10],[10;4],[4;10]));
   (5%nat, ([2;0;4],[4;0;2],[2;4],[4;2]), ([10;0;2],[2;0;10],[10;2],[2;10]))]%Z /\
  raised (get_diametral_routes g5 ex_bus 6 true true) = Some JumpIsNotValidException.
Proof. vm_compute. repeat split. Qed.
Example test_get_tangencial_routes :
  map (fun '(j, s, e) => ends (get_tangencial_routes g5 ex_bus j s e)) [(2, false, false); (2, true, false); (2, false, true); (2, true, true); (1, true, true)]%Z =
  [(5%nat, ([1;2;4;6;5],[5;6;4;2;1],[1;2;4;6;5],[5;6;4;2;1]), ([9;10;2;4;3],[3;4;2;10;9],[9;10;2;4;3],[3;4;2;10;9]));
   (5%nat, ([2;4;6],[6;4;2],[2;4;6],[6;4;2]), ([10;2;4],[4;2;10],[10;2;4],[4;2;10]));
   (5%nat, ([1;2;4;6;5],[5;6;4;2;1],[1;5],[5;1]), ([9;10;2;4;3],[3;4;2;10;9],[9;3],[3;9]));
   (5%nat, ([2;4;6],[6;4;2],[2;6],[6;2]), ([10;2;4],[4;2;10],[10;4],[4;10]));
   (5%nat, ([2;4],[4;2],[2;4],[4;2]), ([10;2],[2;10],[10;2],[2;10]))]%Z /\
  raised (get_tangencial_routes g5 ex_bus 6 true true) = Some JumpIsNotValidException.
Proof. vm_compute. repeat split. Qed.

(** ** Arguments: test_graph.py 73-160, test_demand.py 17-43, test_transport_mode.py 28-82, test_transport_user.py 35-58 *)
Definition fl (q : Q) : pyval := VFloat (Fin q).
Definition argfail {A} (r : res A) : option exn := match r with Ok _ => None | Err e => Some e end.
Example test_node_exceptions : let i := VInt 0 in
  map argfail [node_init Periphery i i i i i i i VNone; node_init Periphery VNone i i i i i i (VStr "CBD"); node_init Periphery i i i i i i VNone (VStr "CBD");
    node_init Periphery i i i (VInt (-2)) i i i (VStr "CBD"); node_init Periphery i i i i (VInt (-10)) i i (VStr "CBD"); node_init Periphery i i i i i (VInt (-2)) i (VStr "CBD");
    node_init CBD i i i i i i (VInt 2) (VStr "CBD")] =
  map Some [NameIsNotDefinedException; NodeIdIsNotValidException; ZoneIdIsNotValidException; NodeRadiusIsNotValidException; NodeAngleIsNotValidException; NodeWidthIsNotValidException; ZoneIdIsNotValidException].
Proof. vm_compute. reflexivity. Qed.
Example test_Zone_and_Edge_Exceptions : let i := VInt 1 in
  let p := ONode (mkANode Periphery i i i i i i i (VStr "p")) in let sc := ONode (mkANode Subcenter (VInt 2) i i i i i i (VStr "sc")) in
  let cbd := ONode (mkANode CBD (VInt 0) (VInt 0) (VInt 0) (VInt 0) (VInt 0) (VInt 0) (VInt 0) (VStr "CBD")) in
  map argfail [zone_init (VInt (-1)) p sc; zone_init VNone p sc; zone_init i sc sc; zone_init i p p; zone_init (VInt 2) p sc; edge_init VNone p sc; edge_init i p p; edge_init i p cbd; edge_init i cbd p] =
  map Some [ZoneIdIsNotValidException; ZoneIdIsNotValidException; PeripheryNodeTypeIsNotValidException; SubcenterNodeTypeIsNotValidException; ZoneIdIsNotValidException;
    EdgeIdIsNotValidException; EdgeIsNotAvailableException; EdgeIsNotAvailableException; EdgeIsNotAvailableException].
Proof. vm_compute. reflexivity. Qed.
Example test_demand_argument_exceptions : let y := VInt 1000 in let a := fl (1#2) in let t := fl (1#3) in
  map argfail [demand_check VNone a t t; demand_check y VNone t t; demand_check y a VNone t; demand_check y a t VNone; demand_check (VInt (-100)) a t t;
    demand_check y (VInt 2) t t; demand_check y a (VInt 2) t; demand_check y a t (VInt 2); demand_check y a (fl (8#10)) (fl (8#10))] =
  map Some [YIsNotValidException; AIsNotValidException; AlphaIsNotValidException; BetaIsNotValidException; YOutOfRangeException;
    AOutOfRangeException; AlphaOutOfRangeException; BetaOutOfRangeException; AlphaBetaOutOfRangeException].
Proof. vm_compute. reflexivity. Qed.
Example test_raises_mode_exceptions :
  let arg := fun a => match a with A_v => VInt 20 | A_t => fl (2#10) | A_fmax => VInt 100 | A_kmax => VInt 50 | A_theta => fl (5#10) | A_fini => VInt 28 | _ => VInt 1 end in
  let but := fun a v b => if match a, b with A_bya, A_bya | A_co, A_co | A_c1, A_c1 | A_c2, A_c2 | A_v, A_v | A_t, A_t | A_fmax, A_fmax | A_kmax, A_kmax | A_theta, A_theta | A_tat, A_tat | A_fini, A_fini => true | _, _ => false end then v else arg b in
  mode_init (VStr "bus") arg = Ok tt /\
  map argfail [mode_init VNone arg; mode_init (VStr "bus") (but A_bya (VInt (-1))); mode_init (VStr "bus") (but A_co (VInt (-2))); mode_init (VStr "bus") (but A_c1 VNone);
    mode_init (VStr "bus") (but A_c2 (VInt (-3))); mode_init (VStr "bus") (but A_v VNone); mode_init (VStr "bus") (but A_t (VInt (-3))); mode_init (VStr "bus") (but A_fmax (VInt (-200)));
    mode_init (VStr "bus") (but A_kmax (VInt (-100))); mode_init (VStr "bus") (but A_theta (VInt 2)); mode_init (VStr "bus") (but A_tat VNone); mode_init (VStr "bus") (but A_fini (VInt (-1)))] =
  map Some [NameIsNotValidExceptions; ByaIsNotValidExceptions; CoIsNotValidExceptions; C1IsNotValidExceptions; C2IsNotValidExceptions; VIsNotValidExceptions; TIsNotValidExceptions; FmaxIsNotValidExceptions;
    KmaxIsNotValidExceptions; ThetaIsNotValidExceptions; TatIsNotValidExceptions; FiniIsNotValidException].
Proof. vm_compute. split; reflexivity. Qed.
Example test_raises_user_exceptions :
  let but := fun a v b => match a, b with P_va, P_va | P_pv, P_pv | P_pw, P_pw | P_pa, P_pa | P_pt, P_pt | P_spv, P_spv | P_spw, P_spw | P_spa, P_spa | P_spt, P_spt => VInt v | _, _ => VInt 1 end in
  argfail (passenger_init (but P_va 0%Z)) = Some VaIsNotValidExceptions /\
  map (fun a => argfail (passenger_init (but a (-1)%Z))) [P_pv; P_pw; P_pa; P_pt; P_spv; P_spw; P_spa; P_spt] =
  map Some [PvIsNotValidExceptions; PwIsNotValidExceptions; PaIsNotValidExceptions; PtIsNotValidExceptions; SpvIsNotValidExceptions; SpwIsNotValidExceptions; SpaIsNotValidExceptions; SptIsNotValidExceptions].
Proof. vm_compute. split; reflexivity. Qed.
