{"id": "C01", "title": "Parametric city has the announced nodes and zones", "statement": "For every accepted parameter set, Graph.build_from_parameters returns a graph whose get_nodes() is CBD (id 0) followed, for each zone z=1..n, by periphery 2z-1 and subcenter 2z named P_z and SC_z; all ids are distinct and get_zones() lists zone z with exactly those two node objects.", "quantifier": "all n >= 0 and all l, g, p, etha, etha_zone, angles, Gi, Hi accepted by the validator", "why_tests_cant": "n and the real parameters are unbounded; tests build n <= 8 cities", "anchors": ["sidermit/city/graph.py: Graph.build_from_parameters, __add_cbd, __add_zone, __add_nodes"]}
{"id": "C02", "title": "City edges are exactly the ring-radial pattern", "statement": "get_edges() of a built city holds the arcs P-SC of the same zone, SC-CBD, and SC-SC of cyclically adjacent zones, each in both directions, each exactly once, with no other arc; hence 0, 4, 10 or 6n arcs for n = 0, 1, 2, n >= 3, edge ids 1..m, and the class docstring's '6n edges' is false for n = 1 and n = 2.", "quantifier": "all n and all accepted parameters", "why_tests_cant": "needs every n; the wrap-around arc and small n are special cases", "anchors": ["sidermit/city/graph.py: Graph.__build_edges, Edge, edge_exist, get_edges"]}
{"id": "C03", "title": "Arc relation and distances are symmetric and agree", "statement": "In every built city edge_exist(i,j) = edge_exist(j,i), no arc joins two peripheries or a periphery and the CBD, and get_edges_distance() holds an entry [i][j] exactly when edge_exist(i,j), with d[i][j] = d[j][i] >= 0 equal to the Euclidean distance of the two nodes.", "quantifier": "all n, all parameters, all node id pairs", "why_tests_cant": "all pairs of ids in all cities, including asymmetric ones", "anchors": ["sidermit/city/graph.py: edge_exist, get_edges_distance, Edge.__init__"]}
{"id": "C04", "title": "Asymmetry parameters give the closed-form positions", "statement": "After build_from_parameters with angles, Gi, Hi and etha, zone z has its subcenter at radius l*G_z and its periphery at radius (l+g*l)*H_z, both at angle angles_z (default 360/n*(z-1)), with x,y the polar conversion of them; the CBD sits at radius etha*l*G_e and angle of zone e; omitted parameters act as 1, default angle, or centre.", "quantifier": "all n, all accepted values of every optional list, in any combination", "why_tests_cant": "mutations are applied in sequence to shared objects; every combination of options and sizes must agree", "anchors": ["sidermit/city/graph.py: __angles_asymmetry, __Gi_asymmetry, __Hi_asymmetry, __etha_asymmetry, get_xy"]}
{"id": "C05", "title": "Parameter validation accepts exactly the documented domain", "statement": "Graph.parameters_validator returns True iff n,l,g,p >= 0, etha and etha_zone are both absent or both present with 0 <= etha <= 1 and 1 <= etha_zone <= n, and each of angles, Gi, Hi is absent or has n entries in range; otherwise it raises the exception of the first violated condition.", "quantifier": "all parameter tuples", "why_tests_cant": "decision rule over unbounded lists and numbers", "anchors": ["sidermit/city/graph.py: Graph.parameters_validator"]}
{"id": "C06", "title": "City graph is strongly connected", "statement": "From every node of a built city there is a directed walk along get_edges() to every other node.", "quantifier": "all n, all ordered pairs of nodes", "why_tests_cant": "walks of unbounded length in unbounded cities", "anchors": ["sidermit/city/graph.py: __build_edges"]}
{"id": "C07", "title": "Polar conversion round-trips", "statement": "Over the reals get_angle(get_xy(r,a)) = a for every r > 0 and 0 <= a < 360 (and 0 for a = 360), sqrt(x^2+y^2) = r, and get_angle always lies in [0,360].", "quantifier": "all real radii and angles", "why_tests_cant": "continuum of inputs, four quadrants and the axes", "anchors": ["sidermit/city/graph.py: Graph.get_angle, Graph.get_xy"]}
{"id": "C08", "title": "Pajek export/import round-trips", "statement": "When build_from_content accepts the text of export_graph() of a parametric city, it returns the same nodes (id, name, x, y, type, zone, width) in the same order, the same zones and the same edges; if the polar conversion recovers the positions, also the same radii, directions and CBD position in its parameters. It accepts the text exactly when n < 5000, the subcenters are not all at the origin and on average not farther than the peripheries, no subcenter in the direction of the CBD is at the origin, and the last of them is not nearer than the CBD; in particular for every city without Gi and Hi and with l > 0. A city that was itself imported is exported and imported with no change. The unconditional round trip is false: l = 0, small mean Hi, some Gi = 0, or two zones in one direction make it raise.", "quantifier": "all parametric cities, all texts accepted by the import, all number formats that read back what they print", "why_tests_cant": "round-trip over all graphs and all number formats", "anchors": ["sidermit/city/graph.py: export_graph, build_from_content, __pajekfile_to_dataframe"]}
{"id": "C09", "title": "Accepted Pajek files describe a well-formed city", "statement": "A text in the documented format is accepted by build_from_content exactly when its rows, in any order, are one node, or one CBD plus one periphery and one subcenter for each zone 1..n with ids not shared between zones and positions consistent with the parameter ranges. Every accepted text with n >= 1 zones yields 2n+1 nodes with exactly one CBD, first; zone z holds a periphery and a subcenter of zone z; edges are the ring-radial arcs; an id occurs in one zone only. Three stronger readings are false: P and SC of one zone may share an id, a one-row file without CBD is accepted and gives an empty graph, and the number of nodes need not be the announced one.", "quantifier": "all file contents", "why_tests_cant": "all text inputs; error paths depend on counts and orders", "anchors": ["sidermit/city/graph.py: build_from_content, __add_nodes, __add_zone"]}
{"id": "C10", "title": "Total trips always equals the sum of the OD matrix", "statement": "After any sequence of change_vij calls (accepted or rejected) and matrix reads, get_total_trips() equals the sum of all cells of get_matrix().", "quantifier": "all histories of calls on all graphs", "why_tests_cant": "the total is maintained incrementally over unbounded histories", "anchors": ["sidermit/city/demand.py: change_vij, get_total_trips, get_matrix"]}
{"id": "C11", "title": "change_vij is atomic and changes one cell", "statement": "change_vij(o,d,v) with v >= 0 and known ids changes cell (o,d) to v and no other cell; in every other case it raises (negative value first, then origin, then destination) and leaves matrix and total unchanged; cells stay >= 0 through any history.", "quantifier": "all states, ids and values", "why_tests_cant": "quantifies over all histories and all cells", "anchors": ["sidermit/city/demand.py: change_vij"]}
{"id": "C12", "title": "Parametric demand distributes exactly y trips", "statement": "For n >= 1 Demand.build_from_parameters gives total y; each periphery emits a*y/n, each subcenter (1-a)*y/n, the CBD nothing; peripheries attract nothing; the P->CBD, P->own SC, P->other SC, SC->CBD, SC->other SC cells have the documented shares. For n = 0 all trips are lost. Parameters out of range are refused with the exception of the first violated condition.", "quantifier": "all n and all accepted y, a, alpha, beta", "why_tests_cant": "algebraic identity over all n and all real shares", "anchors": ["sidermit/city/demand.py: build_from_parameters, parameters_validator"]}
{"id": "C13", "title": "Demand from a matrix lands on the right pairs", "statement": "build_from_content accepts a matrix iff it is square of size number of nodes with non-negative cells, and then cell (nodes[i].id, nodes[j].id) = matrix[i][j] and the total is the sum of the entries.", "quantifier": "all graphs with distinct ids, all matrices", "why_tests_cant": "all sizes and contents", "anchors": ["sidermit/city/demand.py: build_from_content"]}
{"id": "C14", "title": "Demand CSV round-trips", "statement": "Reading with build_from_file the rows written by matrix_to_file for the same graph restores every cell and the total.", "quantifier": "all demand states reachable by any history", "why_tests_cant": "all matrices, all numbers", "anchors": ["sidermit/city/demand.py: matrix_to_file, build_from_file"]}
{"id": "C15", "title": "Unknown nodes are rejected by change_vij", "statement": "Whatever happened before, change_vij with an origin or destination that is not a node of the graph raises. (False after a read of a missing cell through the matrix returned by get_matrix(), which inserts it.)", "quantifier": "all histories of updates and reads", "why_tests_cant": "needs a history that includes default-dict reads", "anchors": ["sidermit/city/demand.py: change_vij, get_matrix"]}
{"id": "C16", "title": "Transport mode attributes stay in range", "statement": "Through any sequence of attribute assignments after construction, v > 0, co,c1,c2,t,fmax,kmax,tat,d,fini >= 0, 0 <= theta <= 1, bya in {0,1} for all non-NaN values, and a rejected assignment changes nothing. A NaN passes every range check. A mode that is constructed has the values given, with the two frequencies multiplied by the number of lines as floats (0 times infinity is NaN, so d = inf with fini = 0 is accepted and starts from NaN). The default manager has a bus and a metro with the documented numbers.", "quantifier": "all assignment histories, all numbers including inf and NaN", "why_tests_cant": "unbounded histories and float special values", "anchors": ["sidermit/publictransportsystem/mode.py: TransportMode, mode_property"]}
{"id": "C17", "title": "Mode manager keeps names and modes aligned", "statement": "Through any sequence of add_mode/remove_mode (failing ones included), names are unique, get_mode(n) returns the mode object added under n, get_modes_names is the list of names under which get_modes were added, and failing calls change nothing. get_mode(n).name = n unless the mode is renamed after being added.", "quantifier": "all histories, all mode objects", "why_tests_cant": "two parallel lists mutated over unbounded histories", "anchors": ["sidermit/publictransportsystem/mode.py: TransportModeManager"]}
{"id": "C18", "title": "Mode set validity rule", "statement": "is_valid_to_assignment_step returns True iff there is exactly one mode, or exactly two and one of them has d = 1; otherwise raises TransportNetworkException.", "quantifier": "all mode sets", "why_tests_cant": "all counts and d values", "anchors": ["sidermit/publictransportsystem/mode.py: is_valid_to_assignment_step"]}
{"id": "C19", "title": "Per-line capacity and initial frequency scale with d", "statement": "A mode constructed with fmax, fini and d has fmax/d and fini/d equal to the constructor arguments as long as d > 0 is not reassigned; reassigning d does not rescale them.", "quantifier": "all constructor arguments and later assignments", "why_tests_cant": "all numbers, histories", "anchors": ["sidermit/publictransportsystem/mode.py: TransportMode.__init__"]}
{"id": "C20", "title": "Passenger attributes stay in range", "statement": "Through any sequence of assignments va > 0 and the eight prices/penalties >= 0 (non-NaN), rejected assignments change nothing. The constructor accepts its arguments exactly when every one of them is in range (or NaN), keeps them as given, and otherwise raises the exception of the first one that is not.", "quantifier": "all histories, all numbers", "why_tests_cant": "unbounded histories", "anchors": ["sidermit/publictransportsystem/passenger.py: Passenger, passenger_property"]}
{"id": "C21", "title": "Node sequence text round-trips", "statement": "sequences_to_list(sequences_to_string(l)) = l for every list of ints.", "quantifier": "all lists of integers", "why_tests_cant": "unbounded lists and integers", "anchors": ["sidermit/publictransportsystem/network.py: Route.sequences_to_string, sequences_to_list"]}
{"id": "C22", "title": "Custom route acceptance", "statement": "Route(...) of type CUSTOM is accepted iff the four sequences are non-empty integer lists, each direction visits no node twice, the directions close a cycle, stops are nodes of the direction, and first/last stops are its end nodes. Stops need not follow travel order (order is not checked).", "quantifier": "all strings / integer sequences", "why_tests_cant": "all sequences of all lengths", "anchors": ["sidermit/publictransportsystem/network.py: Route.__init__, parameters_validator, stops_validator, direction_validator, sequences_validator"]}
{"id": "C23", "title": "Network keeps routes addressable", "statement": "Through any history of add_route, remove_route, add_transport_mode, remove_transport_mode: route ids are unique, get_route(id) returns the route with that id iff present, and the relative order of routes is insertion order.", "quantifier": "all histories on all graphs", "why_tests_cant": "parallel lists over unbounded histories", "anchors": ["sidermit/publictransportsystem/network.py: TransportNetwork.add_route, remove_route, get_route"]}
{"id": "C24", "title": "Accepted routes travel on existing arcs", "statement": "Every route in a network built with add_route uses only arcs of the city graph, in both directions. (False: only the forward direction is ever checked.)", "quantifier": "all histories, all routes", "why_tests_cant": "all routes and graphs", "anchors": ["sidermit/publictransportsystem/network.py: add_route, __edges_validator"]}
{"id": "C25", "title": "Network operations are atomic", "statement": "Any add_route, remove_route, add_transport_mode call that raises leaves routes, ids and modes unchanged.", "quantifier": "all states and arguments", "why_tests_cant": "all states", "anchors": ["sidermit/publictransportsystem/network.py: add_route, add_transport_mode, remove_route"]}
{"id": "C26", "title": "Removing a mode: which lines go and which stay", "statement": "remove_transport_mode(m) never fails; the mode m is gone afterwards and no other mode is, no route of another mode is touched, and a route of mode m is deleted except when it directly follows one just deleted, so that all go when no two routes of mode m are consecutive. (The documented effect, that no route of mode m remains, is false.) After any history the registered modes are at most two, with different names, and with two one has d = 1; adding a mode succeeds exactly when that stays true or the mode is already there; without removals of modes every route's mode is registered.", "quantifier": "all networks, modes and histories of additions and removals", "why_tests_cant": "loop mutates the list it iterates; depends on list layout", "anchors": ["sidermit/publictransportsystem/network.py: remove_transport_mode, add_transport_mode"]}
{"id": "C27", "title": "Predefined routes are valid lines of the city", "statement": "For every city and every admissible jump/short/express combination, each route returned by get_circular/feeder/radial/diametral/tangencial_routes walks only on existing arcs in both directions, closes a cycle, stops only at visited nodes including both ends, visits no node twice (circular: only start = end), and is accepted by add_route of a network on that city exactly when no route there has its id and its mode is registered or can be added.", "quantifier": "all n, jumps, flags and modes", "why_tests_cant": "all n and jumps with modular wrap-around", "anchors": ["sidermit/publictransportsystem/network.py: get_circular_routes, get_feeder_routes, get_radial_routes, get_diametral_routes, get_tangencial_routes"]}
{"id": "C28", "title": "Predefined families cover each zone (pair) once", "statement": "Feeder and radial families contain exactly one route per zone; diametral and tangencial families with jump j contain exactly one route for each unordered pair of zones at cyclic distance j (n routes, or n/2 when 2j = n), with the documented node sequences; jump outside 1..n/2 is rejected.", "quantifier": "all n and jumps", "why_tests_cant": "halving rule and wrap-around for all n, j", "anchors": ["sidermit/publictransportsystem/network.py: get_diametral_routes, get_tangencial_routes"]}
{"id": "C29", "title": "Predefined route ids never collide", "statement": "Two predefined routes have the same id only if family, flags, jump, mode name and zone coincide.", "quantifier": "all mode names (any string), zones, jumps", "why_tests_cant": "all strings, including names containing underscores and digits", "anchors": ["sidermit/publictransportsystem/network.py: get_*_routes route_id formats"]}
{"id": "C30", "title": "Extended graph has one stop per city node and mode", "statement": "For every city and list of routes whose stops are city nodes: the extended graph has exactly one StopNode for each (city node, mode) served by a route, one RouteNode per stop visit (circular: per distinct stop visit), each attached to the StopNode of its own node and mode.", "quantifier": "all cities, all route lists", "why_tests_cant": "structure over unbounded inputs", "anchors": ["sidermit/optimization/preoptimization/extended_graph.py: build_city_nodes, build_tree_graph, build_stop_nodes, build_route_nodes, build_extended_graph_nodes"]}
{"id": "C31", "title": "Extended edges are well formed", "statement": "Every edge joins nodes of the extended graph: access edges pair CityNode and StopNode of the same place in both directions with t = tat/60; boarding edges go StopNode->RouteNode with t = 0 and f = frequency/d; alighting edges RouteNode->StopNode with t = TP/60; route edges join consecutive stops of one route and direction; only boarding edges have finite frequency; edge identities are distinct and all times are >= 0.", "quantifier": "all extended graphs", "why_tests_cant": "all inputs", "anchors": ["sidermit/optimization/preoptimization/extended_graph.py: build_access_edges, build_boarding_edges, build_alighting_edges, build_route_edges"]}
{"id": "C32", "title": "No boarding at the end and no alighting at the start of a line", "statement": "A non-circular route offers boarding at each of its stops except its last node and alighting at each except its first node; a circular route offers both at every stop.", "quantifier": "all routes", "why_tests_cant": "all routes", "anchors": ["sidermit/optimization/preoptimization/extended_graph.py: build_boarding_edges, build_alighting_edges"]}
{"id": "C33", "title": "Ride time between stops is path length over speed", "statement": "The time of a route edge is the length of the node path between the two stops divided by mode speed. (False when an intermediate node is not served by any route of the network: its legs are replaced by a straight line. True when all intermediate nodes are served.)", "quantifier": "all routes with non-repeating nodes, all geometries", "why_tests_cant": "all geometries and networks", "anchors": ["sidermit/optimization/preoptimization/extended_graph.py: build_route_edges"]}
{"id": "C34", "title": "Hyperpath search terminates", "statement": "build_hyperpath_graph and get_hyperpath_OD terminate on every extended graph, origin and destination, reachable or not.", "quantifier": "all graphs and OD pairs", "why_tests_cant": "termination over all inputs", "anchors": ["sidermit/optimization/preoptimization/hyper_path.py: build_hyperpath_graph, get_hyperpath_OD"]}
{"id": "C35", "title": "Hyperpath labels are optimal expected costs", "statement": "For pv > 0 and accepted parameters (with waiting costing something or rides taking time), the label of each node is the minimum expected generalised cost to the destination over all hyperpaths of the extended graph that avoid the origin city node, and is infinite iff no hyperpath exists (plus the access time at the origin stops).", "quantifier": "all extended graphs, OD pairs, passengers, frequencies", "why_tests_cant": "optimality against every strategy", "anchors": ["sidermit/optimization/preoptimization/hyper_path.py: build_hyperpath_graph"]}
{"id": "C36", "title": "Returned strategy realises the labels", "statement": "The successors of each node are edges leaving it whose heads have a smaller processing rank (no cycles), the label equals the cost of that strategy, the frequency equals the sum of the successor frequencies, and zero-frequency lines are never used.", "quantifier": "all extended graphs and OD pairs", "why_tests_cant": "all inputs", "anchors": ["sidermit/optimization/preoptimization/hyper_path.py: build_hyperpath_graph"]}
{"id": "C37", "title": "Elementary paths are exactly the strategy's simple paths", "statement": "get_hyperpath_OD returns for each origin stop exactly the walks origin, stop, ..., destination following successors; each is simple.", "quantifier": "all graphs and OD pairs", "why_tests_cant": "enumeration completeness for all graphs", "anchors": ["sidermit/optimization/preoptimization/hyper_path.py: get_hyperpath_OD"]}
{"id": "C38", "title": "Network validation accepts exactly connected networks", "statement": "network_validator returns True iff every OD pair with trips has a hyperpath from some origin stop and the mode set is valid; otherwise raises TransportNetworkException.", "quantifier": "all networks and OD matrices", "why_tests_cant": "all matrices", "anchors": ["sidermit/optimization/preoptimization/hyper_path.py: network_validator"]}
{"id": "C39", "title": "The hyperpath search raises no arithmetic error", "statement": "The hyperpath search raises no error for any mode and passenger parameters accepted by the setters with pv > 0, including theta = 0 and pw = 0 when rides take time. (Without pv > 0 it is false: pv = 0 is accepted by the setter and divides by zero.)", "quantifier": "all accepted modes and passengers", "why_tests_cant": "needs the boundary values", "anchors": ["sidermit/optimization/preoptimization/hyper_path.py: build_hyperpath_graph", "sidermit/publictransportsystem/mode.py: theta"]}
{"id": "C40", "title": "Lateral assignment distributes 100 percent", "statement": "For each OD pair the percentages over the origin's stops are in [0,100] and sum to 100. (False when the indifference walk equals the last stop position, e.g. two d = 1 modes with equal labels: nothing is assigned.) With an even number of lines of the second mode the share of the central stop is where the walk makes up for the difference of the labels, and it does not fall when the central stop becomes better relative to the other.", "quantifier": "all labels, widths, speeds, prices, d", "why_tests_cant": "continuum of labels and boundary equality", "anchors": ["sidermit/optimization/preoptimization/assignment.py: Assignment.get_assignment"]}
{"id": "C41", "title": "Passenger flow is conserved", "statement": "Total boardings minus total alightings is zero on every route, each RouteNode's inflow (boardings + arriving load) equals its outflow (alightings + leaving load), and passengers alighting at the destination equal the assigned demand.", "quantifier": "all strategies, demands and positive frequencies", "why_tests_cant": "all networks", "anchors": ["sidermit/optimization/preoptimization/assignment.py: get_alighting_and_boarding"]}
{"id": "C42", "title": "Most loaded section is the maximum", "statement": "most_loaded_section(r) is >= every section load of r and is attained, or 0 when there is none positive.", "quantifier": "all load tables", "why_tests_cant": "all tables", "anchors": ["sidermit/optimization/preoptimization/assignment.py: most_loaded_section", "sidermit/optimization/optimizer.py: get_k"]}
{"id": "C43", "title": "Travel time of a line is path length over speed", "statement": "lines_travel_time[r] = (length of forward + backward node sequence)/v for routes on existing arcs; arcs missing from the graph count 0.", "quantifier": "all routes and graphs", "why_tests_cant": "all lengths", "anchors": ["sidermit/optimization/operators_cost.py: lines_travel_time"]}
{"id": "C44", "title": "Cycle time adds dwell per stop", "statement": "cycle_time = travel time + t/3600 * sum over stops of (z+v) if sequential, of max(z,v) if simultaneous, each stop counted once per direction; simultaneous <= sequential; >= travel time.", "quantifier": "all boarding/alighting tables", "why_tests_cant": "default-dict side effects, all key sets", "anchors": ["sidermit/optimization/operators_cost.py: get_cycle_time"]}
{"id": "C45", "title": "Operator cost is additive, ignores idle lines", "statement": "get_operators_cost = sum over routes with f != 0 of (co + c1 k) f tc; >= 0 on non-negative inputs; additive over route lists.", "quantifier": "all route lists and tables", "why_tests_cant": "all lists", "anchors": ["sidermit/optimization/operators_cost.py: get_operators_cost"]}
{"id": "C46", "title": "Infrastructure counts each street once per mode", "statement": "get_mode_network_distance[m] = d * sum of lengths of undirected arcs used (in either direction) by some active route of m; independent of route order and of duplicated routes.", "quantifier": "all graphs, networks, frequencies", "why_tests_cant": "all networks", "anchors": ["sidermit/optimization/infrastructure_cost.py: get_mode_network_distance, get_infrastruture_cost"]}
{"id": "C47", "title": "Constraint vector means feasibility", "statement": "All entries of get_constrains are <= 0 iff for each route the most loaded section is <= kmax and for each arc and mode the summed frequency of lines crossing it is <= fmax; its length is |routes| + |edges|*|modes| for every f.", "quantifier": "all networks, frequencies", "why_tests_cant": "all f vectors; scipy needs constant length", "anchors": ["sidermit/optimization/constrains.py: most_loaded_section_constrains, fmax_constrains", "sidermit/optimization/optimizer.py: get_constrains"]}
{"id": "C48", "title": "The users' resources are what the flow of travellers consumes", "statement": "resources_consumer ends without an exception and returns four non-negative quantities. Waiting time and transfers are, summed over the OD pairs, the flow of travellers on every edge of their strategy times what one traveller consumes there; so is the time on board when every line goes and comes back by the same stops, and the access time is that of the trip starts when nobody walks between two stops of a node (always so with one mode). Hence they scale linearly with the demand, and get_users_cost is their value at the prices of the passenger. (Not so otherwise: a walk between stops is counted once whatever the number of travellers, and the first leg of a circular line reads the tables of the other direction; both are refuted by a witness.)", "quantifier": "all networks, strategies, demands, assignments, frequencies under which the strategies can be used, and tables of boardings and alightings", "why_tests_cant": "every flow, every table and every network", "anchors": ["sidermit/optimization/users_cost.py: resources_consumer, get_users_cost"]}
{"id": "C49", "title": "Frequency dict/vector conversions", "statement": "fopt_to_f(f_opt) assigns to the n-th route the n-th value and raises KeyError iff the vector is longer than the list of routes; with no frequencies given the dictionary holds mode.fini for each route, with a dictionary f given it holds f[route]; the initial vector handed to the solver always holds mode.fini, even when the caller gives f (so the caller's start is ignored by the first internal optimisation: refuted).", "quantifier": "all networks, vectors and given dictionaries", "why_tests_cant": "all lengths", "anchors": ["sidermit/optimization/optimizer.py: f0, fopt_to_f"]}
{"id": "C50", "title": "Frequency distance is a metric", "statement": "f_distance is >= 0, symmetric, zero iff equal, satisfies the triangle inequality on equal-length vectors; the tolerance test is true iff distance < tol.", "quantifier": "all vectors", "why_tests_cant": "all lengths", "anchors": ["sidermit/optimization/optimizer.py: f_distance, external_optimization_tolerance"]}
{"id": "C51", "title": "Best result selection", "statement": "get_better_result returns an entry with status not in {0,3,-1}, |violation| < 0.001, non-negative frequencies and minimal fun among such entries (the first one on ties; an entry whose fun is not a number or infinite is never chosen); None iff there is none.", "quantifier": "all result lists", "why_tests_cant": "all lists", "anchors": ["sidermit/optimization/optimizer.py: get_better_result"]}
{"id": "C52", "title": "External loop respects the iteration bound", "statement": "Every internal optimisation of external_optimization starts from an Optimizer built from the previous answer; with number_of_iteration = N it runs at most N+1 internal optimisations, it stops as soon as successive answers are closer than tolerance; without a bound there is a solver for which it never ends (refuted).", "quantifier": "all solver behaviours (oracle), networks, bounds and tolerances", "why_tests_cant": "all solver behaviours, unbounded loops", "anchors": ["sidermit/optimization/optimizer.py: external_optimization"]}
{"id": "C53", "title": "Returned solution is clean", "statement": "What external_optimization returns comes from an acceptable internal answer (the best one) with every frequency below 1/24 set to 0, so every frequency is 0 or >= 1/24; when no answer is acceptable NoOptimalSolutionFoundException is raised, and after the runs have ended nothing else can be raised.", "quantifier": "all solver behaviours", "why_tests_cant": "all solver behaviours", "anchors": ["sidermit/optimization/optimizer.py: external_optimization, status_optimization, network_optimization"]}
{"id": "C54", "title": "Network results cover every line", "statement": "get_network_results returns one row per route in order; its sections are the arcs of the two node sequences; a line that runs has its frequency, frequency per parallel line, capacity of its most loaded section, vehicles = frequency * cycle time and cycle time; cost per passenger times passengers is the cost of its vehicles; idle lines have zeros. (False: a running line without passengers makes the report divide by zero.)", "quantifier": "all optimisers, results and networks", "why_tests_cant": "all networks; depends on key sets of default dicts mutated elsewhere", "anchors": ["sidermit/optimization/optimizer.py: get_network_results", "sidermit/optimization/operators_cost.py: get_cycle_time"]}
{"id": "C55", "title": "Overall results decompose VRC", "statement": "get_overall_results: VRC = operators + infrastructure + users cost per passenger; vehicles per mode = sum f*tc over active lines of the mode; lines = sum of d; capacity = mean of k.", "quantifier": "all networks and results", "why_tests_cant": "all networks", "anchors": ["sidermit/optimization/optimizer.py: get_overall_results, VRC"]}
{"id": "C56", "title": "Line section loads reported are the carried loads", "statement": "In the per-line table of get_network_results the load of each section is boardings minus alightings accumulated so far over the capacity, which is what the vehicle carries when leaving the last stop before it, hence at most 1; on a circular line with people on board everywhere it is the load leaving the node where the section starts. The minimum load reported for a line is the smallest of the loads of its sections (for a circular line, of its nodes). (False for sequential modes: alightings at stops without boardings are not subtracted; false for circular lines with an empty section: IndexError; a circular line without passengers is reported full.)", "quantifier": "all optimisers, results, networks and demands", "why_tests_cant": "depends on key sets of default dicts mutated elsewhere", "anchors": ["sidermit/optimization/optimizer.py: get_network_results", "sidermit/optimization/operators_cost.py: get_cycle_time"]}
{"id": "C57", "title": "Constraint vector handed to the solver", "statement": "For the whole life of an Optimizer the vector of constraints has the same length (len_constrains) whatever the frequencies, and it is non-positive iff every line carries at most its capacity kmax and at every street arc and mode the frequencies respect fmax.", "quantifier": "all networks and vectors of frequencies of the right length", "why_tests_cant": "the solver evaluates it at unpredictable points", "anchors": ["sidermit/optimization/optimizer.py: get_constrains, __init__"]}
{"id": "C58", "title": "The objective is the value of the resources consumed", "statement": "VRC(f_opt) is operators cost + infrastructure cost + users cost at the boardings, alightings and loads that the same frequencies induce; the zeros that the computation of cycle times inserts in the shared tables never change it. In closed form: sum over lines of (co + c1 times the fullest section) times frequency times cycle time (length over speed plus dwelling), plus c2 times d times the length of the streets each mode uses, plus the priced access, waiting, on-board and transfer times of the users' flows.", "quantifier": "all networks, demands and vectors of frequencies", "why_tests_cant": "depends on aliasing of mutated default dicts", "anchors": ["sidermit/optimization/optimizer.py: VRC, operators_cost, user_cost"]}
{"id": "C59", "title": "The validator knows exactly which trips the lines allow", "statement": "One can travel between two nodes in the extended graph iff they are different and a sequence of rides leads from one to the other: a ride boards a running line at one of its stops and leaves it at a later stop of the same direction (anywhere on a circular line). Hence network_validator accepts a network iff the running lines allow every trip of the demand and its modes have different names and are one, or two of which one has d = 1; otherwise it raises AddModeExceptions when all trips are possible but two modes in use share a name, and TransportNetworkException in every other case. Adding lines or frequency never makes a trip impossible.", "quantifier": "all cities, networks, frequencies and OD matrices", "why_tests_cant": "all graphs; reachability over unbounded chains of transfers", "anchors": ["sidermit/optimization/preoptimization/hyper_path.py: network_validator, build_hyperpath_graph", "sidermit/optimization/preoptimization/extended_graph.py: get_edges"]}
{"id": "C60", "title": "Predefined networks link the whole city", "statement": "On every parametric city, each predefined line allows travel between any two of its stops, in both senses; the radial lines (or the diametral lines of any jump) that stop everywhere link every node to every other; feeder plus circular lines, or the tangencial lines of any jump, link every node but the centre.", "quantifier": "all city sizes, modes, jumps, and networks containing those lines with positive frequencies", "why_tests_cant": "all numbers of zones and jumps", "anchors": ["sidermit/publictransportsystem/network.py: get_radial_routes, get_diametral_routes, get_tangencial_routes, get_feeder_routes, get_circular_routes", "sidermit/optimization/preoptimization/hyper_path.py: network_validator"]}
{"id": "C61", "title": "When the optimiser can be built and evaluated", "statement": "On any city, network, demand and traveller whose parameters are in range, and given frequencies that are not negative, creating the optimiser ends; it succeeds exactly when every trip of the demand goes between two different nodes and can be travelled with the lines of positive frequency, and the modes in use are one, or two of which one has a single line per axis (d = 1), with different names; when all trips are possible but two modes in use share a name it raises AddModeExceptions, and in every other case TransportNetworkException. Once built, the objective VRC and the constraints have a value at every vector of positive frequencies, without an exception, and the objective is not negative when no price and no trip count is.", "quantifier": "all cities, networks, demands, travellers and given frequencies with parameters in range, and all vectors of positive frequencies", "why_tests_cant": "all networks, demands and frequencies; termination of three loops", "anchors": ["sidermit/optimization/optimizer.py: __init__, VRC, get_constrains", "sidermit/optimization/preoptimization/hyper_path.py: network_validator, get_all_hyperpaths", "sidermit/optimization/preoptimization/extended_graph.py: build"]}
{"id": "C62", "title": "Predefined problems can always be optimised", "statement": "Take any city built from parameters with at least one zone, any demand generated from parameters for it, and any network whose lines are predefined lines and include all the radial lines or all the diametral lines of some jump: with modes and travellers in range the optimiser is created without an exception, and objective and constraints have values at every vector of positive frequencies; the objective is not negative when no price is.", "quantifier": "all parameters of cities and demands, all histories of the network without removal of modes, all jumps, all positive frequencies", "why_tests_cant": "all city sizes, jumps and histories, through the whole pipeline", "anchors": ["sidermit/optimization/optimizer.py: __init__, VRC, get_constrains", "sidermit/publictransportsystem/network.py: get_radial_routes, get_diametral_routes", "sidermit/city/demand.py: build_from_parameters", "sidermit/city/graph.py: build_from_parameters"]}
{"id": "C63", "title": "The results file can be read back", "statement": "The results file of an optimisation has one line of ten names and then exactly one line per route, in order. Each line splits at the semicolons into ten columns: the id of the route, seven numbers that show the values of the results to the nearest hundredth (or inf), and the two tables of sections, from which the pairs of nodes and the loads can be read back. This holds for route ids without semicolons and line breaks.", "quantifier": "all networks, results and route ids", "why_tests_cant": "all numbers (rounding and signs), all lengths of tables and routes", "anchors": ["sidermit/optimization/optimizer.py: string_network_results, write_file_network_results, get_network_results"]}
{"id": "C64", "title": "The printed summaries show the results", "statement": "The overall summary has one labelled line per quantity, each to the nearest hundredth, with a total travel time that is the sum of time on board, waiting and access, and one block per mode in use with its name, vehicles, capacity and lines; the optimisation summary lists the frequency of every line, in the order of the routes.", "quantifier": "all results, modes and frequencies", "why_tests_cant": "all numbers, any number of modes and routes", "anchors": ["sidermit/optimization/optimizer.py: string_overall_results, string_network_optimization"]}
{"id": "C65", "title": "A whole optimisation runs through", "statement": "Take a problem with parameters in range whose lines allow every trip, and a solver that does not raise and whose answers have one non-negative frequency per line and leave every trip possible with the lines that run (every answer with positive frequencies only does). Then external_optimization and network_optimization raise nothing but NoOptimalSolutionFoundException, and that only when no answer is acceptable; with number_of_iteration they end; the solution has a frequency for each line, 0 or at least 1/24. (Without the condition on the answers it is false: an acceptable answer at which a trip has become impossible makes the next iteration raise TransportNetworkException, and the answer is lost.)", "quantifier": "all problems with parameters in range, all such solvers, tolerances and bounds", "why_tests_cant": "all solver behaviours over an unbounded number of iterations, each building a new extended graph", "anchors": ["sidermit/optimization/optimizer.py: external_optimization, network_optimization, __init__"]}
{"id": "C66", "title": "When a solution can be reported", "statement": "On such a problem with some trips, get_overall_results of a vector of non-negative frequencies succeeds exactly when the lines that run at it allow every trip; otherwise it raises TransportNetworkException. (A solution found by network_optimization need not be one of these: the frequencies below 1/24 are set to 0 after the last iteration, which can leave a trip without lines; then get_overall_results and get_network_results both raise.)", "quantifier": "all problems with parameters in range and all vectors of frequencies", "why_tests_cant": "all networks, demands and frequencies", "anchors": ["sidermit/optimization/optimizer.py: get_overall_results, get_network_results, last_iteration, external_optimization"]}
{"id": "C67", "title": "When the table of the lines can be made", "statement": "On such a problem with non-negative trips and no circular line, get_network_results of a vector of non-negative frequencies raises TransportNetworkException when the lines that run at it do not allow every trip; when they do, it returns a table exactly if every line that runs carries somebody somewhere, and raises ZeroDivisionError otherwise. With circular lines, it returns a table when moreover no circular line that runs ever leaves a node empty.", "quantifier": "all problems with parameters in range and all vectors of frequencies", "why_tests_cant": "all networks, demands and frequencies", "anchors": ["sidermit/optimization/optimizer.py: get_network_results, last_iteration, get_k", "sidermit/optimization/operators_cost.py: get_cycle_time"]}
{"id": "C68", "title": "The text of boardings and alightings lists the tables", "statement": "str_boarding_alighting prints an empty line, a title, and then one block per line of the table of boardings, in order: its id, under 'Boarding:' and under 'Alighting:' each direction of its tables, and for each stop its mode, its place and the passengers per vehicle to the nearest hundredth. For the tables of an assignment every line from which somebody alights has its block, although only the table of boardings is run through.", "quantifier": "all networks, demands, assignments and frequencies; names without line breaks", "why_tests_cant": "all tables and numbers", "anchors": ["sidermit/optimization/preoptimization/assignment.py: str_boarding_alighting, get_alighting_and_boarding"]}
{"id": "C69", "title": "The text of the extended graph describes it", "statement": "str() of an extended graph has one block of lines per served node of the city, in it one per stop, in it one per vehicle call: the frequency of one of the parallel lines where the line can be boarded (not at its last node), the transfer penalty in minutes where it can be left (not at its first node), the route, its direction, the place of the previous stop and the time of the ride from it in hours. (False: the access time, labelled minutes, is in hours.)", "quantifier": "all cities, networks, frequencies and penalties; names without line breaks", "why_tests_cant": "all networks; edges are found by scanning lists of any length", "anchors": ["sidermit/optimization/preoptimization/extended_graph.py: __str__, build_access_edges, build_boarding_edges, build_alighting_edges, build_route_edges"]}
{"id": "C70", "title": "The summary of the hyperpaths", "statement": "string_all_hyperpaths prints two lines for each OD pair with trips, in the order of the matrix, and for each stop of its origin from which the destination can be reached, and no others: the names of origin and destination, the trips, the mode of the stop, its label to the nearest hundredth (always a number), the number of its elementary paths and of its successors.", "quantifier": "all cities, networks, travellers and OD matrices that get_all_hyperpaths accepts; names without line breaks", "why_tests_cant": "all networks and matrices", "anchors": ["sidermit/optimization/preoptimization/hyper_path.py: string_all_hyperpaths, get_all_hyperpaths"]}
{"id": "C71", "title": "A saved network can be read back", "statement": "The rows written by routes_to_file hold, for each route in order, its id, the name of its mode and its four sequences as texts. Making a custom Route of each row (mode looked up by name) never fails when every route added was a valid two-way line and no mode has been removed, gives the same ids, modes and sequences, and adding these to an empty network of the same city gives a network with the same routes. The same holds for every predefined family except the circular one. (Rows of circular lines cannot be read back: their return sequences are empty.)", "quantifier": "all histories of a network without remove_transport_mode, all cities", "why_tests_cant": "all route texts and histories", "anchors": ["sidermit/publictransportsystem/network.py: routes_to_file, Route.__init__, add_route, get_modes"]}
{"id": "C72", "title": "The texts of one search", "statement": "string_hyperpath_graph prints a title and then, for each node of the extended graph and no other, city by city, its kind and names (a stop: its mode and node; a place of a line: its route, direction and node), its label to the nearest hundredth or inf if the destination cannot be reached from it, its successor edges with their kind and the names of both ends, and its frequency. string_hyperpaths_OD prints, for each stop of the origin from which the destination can be reached, its mode and each of its elementary paths, node by node, with names and label to the nearest ten-thousandth. (The label shown for the origin, the first node of every path, is always inf.)", "quantifier": "all cities, networks, travellers and pairs of places; names without line breaks", "why_tests_cant": "all graphs, labels and paths", "anchors": ["sidermit/optimization/preoptimization/hyper_path.py: string_hyperpath_graph, string_hyperpaths_OD, build_hyperpath_graph, get_hyperpath_OD"]}
{"id": "C73", "title": "The pictures show the city, the lines and the paths", "statement": "Graph.plot draws the peripheries in red, the subcenters in blue and the CBD in purple, each exactly once and at its coordinates, the labels, and each arc of the city once in orange. TransportNetwork.plot draws the same and over it, for exactly the routes asked for (all if none are named) and for exactly the directions asked for (both if none is named), each stop in yellow and each piece of the line in lime (forward) or aqua (return); it fails with RouteIdNotFoundException exactly when a route is asked for that the network does not have. HyperPath.plot draws, for exactly the nodes that lie on a path of the pair, city nodes in yellow, stops in red and places of lines in green under their names, and an orange arrow for exactly the steps of those paths. (A city without zones, and a line with a stop that the city does not have, are drawn with nodes without position.)", "quantifier": "all cities, all networks reached by any operations, all lists of routes and directions, all pairs of places", "why_tests_cant": "all cities, histories of the network and paths", "anchors": ["sidermit/city/graph.py: Graph.plot", "sidermit/publictransportsystem/network.py: TransportNetwork.plot", "sidermit/optimization/preoptimization/hyper_path.py: HyperPath.plot"]}
{"id": "C74", "title": "Arguments of any kind are accepted or refused by the documented rule", "statement": "Whatever is passed (None, a bool, an int, a float including inf and nan, a str), the constructors of nodes, zones, edges, cities, modes and travellers, the attribute setters, the check of the demand parameters and that of a jump of diametral and tangential routes accept it or raise, in a fixed order, exactly the exception of the first argument that breaks its rule: a missing value, a value out of its range, a float where an integer is needed, the wrong kind of node; what cannot be compared with a number raises TypeError. On arguments of the declared types this is the check that the other properties speak of. (nan passes every check, inf every check without an upper bound, True and False count as 1 and 0, and an edge can be made between objects that are not nodes.)", "quantifier": "all values of all arguments", "why_tests_cant": "the arguments are arbitrary values and every combination of good and bad ones decides which exception comes first", "anchors": ["sidermit/city/graph.py: Graph.parameters_validator, Node, CBD, Zone, Edge", "sidermit/city/demand.py: Demand.parameters_validator", "sidermit/publictransportsystem/mode.py: TransportMode", "sidermit/publictransportsystem/passenger.py: Passenger", "sidermit/publictransportsystem/network.py: get_diametral_routes, get_tangencial_routes"]}
{"id": "C75", "title": "A better service is never worse for the travellers", "statement": "Take a set of lines and then a better service: the same lines, at least as frequent, possibly with further lines among them in any order, with a transfer penalty that is not higher and with walking and waiting that are not dearer relative to riding. For every origin and destination, the expected cost that the search reports at any stop does not increase, and every pair of nodes that was connected stays connected. The further lines may not stop at a node that the old lines run through without any vehicle stopping there: otherwise the claim is refuted, since the ride of an express is then measured through that node and adding a line lengthens trips that do not use it.", "quantifier": "all cities, route lists and further routes, frequencies, transfer penalties, price vectors, origins, destinations and stops", "why_tests_cant": "tests compare two networks at most; the claim compares optimal strategies over two arbitrary graphs in which stops and edges are numbered differently", "anchors": ["sidermit/optimization/preoptimization/hyper_path.py: Hyperpath.build_hyperpath_graph, network_validator", "sidermit/optimization/preoptimization/extended_graph.py: ExtendedGraph.__init__, build_route_edges", "sidermit/publictransportsystem/network.py: TransportNetwork.add_route"]}
{"id": "C76", "title": "Travellers pay what the search promised", "statement": "Build the extended graph of a network with some frequencies, find the strategies of all the OD pairs and load the demand on them at the same frequencies. For every OD pair, trips times the cost that the search announces at the stop where they start equal what the travellers pay edge by edge (ride time, transfer penalty, weighted walking, weighted waiting) plus what is still announced at the stops of the destination where they end; and every trip that starts ends there. Hence, when nobody walks between two stops, the hours in moving vehicles, the waiting and the transfers that the users' cost adds up are exactly the announced costs; with one mode they are trips times (label - access - egress). At frequencies other than those of the search this is false.", "quantifier": "every city, set of lines, frequency table, demand, parameters and assignment to the stops of the origin", "why_tests_cant": "two independent computations (labels of a backward search, flows of a forward loading) must agree on every network; a test compares them on one", "anchors": ["sidermit/optimization/preoptimization/hyper_path.py: Hyperpath.build_hyperpath_graph, Hyperpath.get_all_hyperpaths", "sidermit/optimization/preoptimization/assignment.py: Assignment.get_alighting_and_boarding", "sidermit/optimization/users_cost.py: UsersCost.resources_consumer", "sidermit/optimization/optimizer.py: Optimizer.VRC"]}
{"id": "C77", "title": "All the frequencies multiplied by one number", "statement": "Within one optimisation (fixed strategies), evaluate the objective at a vector of frequencies and at q times that vector, q > 0. The second evaluation succeeds whenever the first does; each vehicle then carries, picks up and leaves 1/q of the passengers, its fullest section has 1/q of them, and it stands at stops 1/q of the time. The objective is a q + b + k / q, where a is the cost of empty vehicles moving between stops, k is the waiting, the time on board at stops and the places standing at stops, and b the rest, including the infrastructure. Hence, with positive speeds and vehicle costs that are not negative, no common factor improves a vector exactly when a = k. Of the constraints, each load is divided by q and each frequency on a street multiplied by q: a factor >= 1 breaks no constraint on loads, one <= 1 none on frequencies.", "quantifier": "every problem, optimizer, frequency vector under which the strategies can be used, and every factor q > 0", "why_tests_cant": "a relation between two evaluations of the whole pipeline for all real factors and all inputs; a test compares a few values of one network", "anchors": ["sidermit/optimization/optimizer.py: Optimizer.VRC, Optimizer.fopt_to_f, Optimizer.get_constrains", "sidermit/optimization/constrains.py: Constrains.most_loaded_section_constrains, Constrains.fmax_constrains", "sidermit/optimization/preoptimization/assignment.py: Assignment.get_alighting_and_boarding, Assignment.most_loaded_section", "sidermit/optimization/operators_cost.py: OperatorsCost.get_cycle_time, OperatorsCost.get_operators_cost", "sidermit/optimization/users_cost.py: UsersCost.resources_consumer, UsersCost.get_users_cost", "sidermit/optimization/infrastructure_cost.py: InfrastructureCost.get_infrastruture_cost"]}
{"id": "C78", "title": "The order of the lines does not matter", "statement": "Build the extended graph of a set of lines, and of the same lines listed in another order with the same frequency for each line. The two graphs number stops, route nodes and edges differently, but the stop of every node and mode exists in both, the search announces the same expected cost there (or none in both) for every origin and destination, and the same pairs of nodes are connected.", "quantifier": "every city, list of lines with distinct identifiers, permutation of it, frequencies, parameters, origin and destination", "why_tests_cant": "all permutations of all line lists; the searches visit nodes and edges in different orders, so equality is a theorem on minimality and not a replay", "anchors": ["sidermit/optimization/preoptimization/extended_graph.py: ExtendedGraph.__init__", "sidermit/optimization/preoptimization/hyper_path.py: Hyperpath.build_hyperpath_graph, Hyperpath.network_validator"]}
{"id": "C79", "title": "All the trips multiplied by one number", "statement": "Build a problem again with every number of trips multiplied by p > 0 (for instance, from p Y instead of Y with the same other parameters: every cell and the total are multiplied by p). The optimizer is then built whenever the first one was, with the same strategies and the same split of the travellers among stops. At the same frequencies every vehicle carries, picks up and leaves p times the passengers, and the total cost is F + p L + p^2 K: F is the vehicles moving, the infrastructure and the walks between stops (which the code counts once, not once per traveller), K the time lost at the stops of others and the places so held. With p times the trips and p times the frequencies every vehicle has the same load and the cost is multiplied by p, except for the infrastructure, the total waiting and those walks, which do not change; so, when these are not negative, the cost per trip does not grow with p >= 1.", "quantifier": "every problem, every matrix of trips, every p > 0, every frequency vector (under which the strategies can be used, for the second part)", "why_tests_cant": "a relation between two runs of the whole pipeline on different data for all factors; a test compares one pair", "anchors": ["sidermit/city/demand.py: Demand.build_from_parameters, Demand.change_vij", "sidermit/optimization/preoptimization/hyper_path.py: Hyperpath.get_all_hyperpaths, Hyperpath.network_validator", "sidermit/optimization/preoptimization/assignment.py: Assignment.get_assignment, Assignment.get_alighting_and_boarding", "sidermit/optimization/users_cost.py: UsersCost.resources_consumer", "sidermit/optimization/operators_cost.py: OperatorsCost.get_cycle_time", "sidermit/optimization/optimizer.py: Optimizer.__init__, Optimizer.VRC"]}
{"id": "C80", "title": "Trips add up", "statement": "Split the trips of a demand into two groups, cell by cell. Whenever the optimizer is built for all the trips it is built for each group, on the same network, with the same strategies for the pairs that still have trips. At the same frequencies the boardings, alightings and loads of every line, direction and stop are those of the first group plus those of the second; so each line is at least as full with both groups as with one and no fuller than the sum of the two loads. Frequencies that meet the constraints for some trips meet them for fewer trips (the street constraints are the same numbers), and, with no price and no parameter negative, the total cost at the same frequencies is not higher for fewer trips.", "quantifier": "every problem with parameters in range, every split of its matrix into two non-negative ones (every matrix with no more trips in any cell), every frequency vector under which the strategies can be used", "why_tests_cant": "relates three runs of the whole pipeline on different matrices, with different sets of pairs; a test compares one split", "anchors": ["sidermit/city/demand.py: Demand", "sidermit/optimization/preoptimization/hyper_path.py: Hyperpath.get_all_hyperpaths, Hyperpath.network_validator", "sidermit/optimization/preoptimization/assignment.py: Assignment.get_assignment, Assignment.get_alighting_and_boarding, Assignment.most_loaded_section", "sidermit/optimization/constrains.py: Constrains.most_loaded_section_constrains", "sidermit/optimization/users_cost.py: UsersCost.resources_consumer", "sidermit/optimization/operators_cost.py: OperatorsCost.get_cycle_time, OperatorsCost.get_operators_cost", "sidermit/optimization/optimizer.py: Optimizer.__init__, Optimizer.VRC, Optimizer.get_constrains"]}
{"id": "C81", "title": "A line that does not run makes no difference to the travellers", "statement": "Build the extended graph of a set of lines, and again with further lines whose frequency is zero, among them in any order, such that no line of the first set runs through a node at which only the further ones stop. Although stops of other modes, calls and edges are added, the search announces at every stop of the first graph the same expected cost (or none in both) for every origin and destination, and the same trips are possible. (False without the condition on the nodes: a line without vehicles slows every express that passes one of its stops.)", "quantifier": "all cities, line sets, frequencies, travellers, origins and destinations", "why_tests_cant": "all graphs; the edges of the idle lines have frequency zero but are there", "anchors": ["sidermit/optimization/preoptimization/extended_graph.py: ExtendedGraph, build_route_nodes, build_boarding_edges, build_route_edges", "sidermit/optimization/preoptimization/hyper_path.py: Hyperpath, build_hyperpath"]}
{"id": "C82", "title": "Only the relative values of the times guide the travellers", "statement": "Take two passenger parameter sets that agree on the walking speed and the transfer penalty and in which walking and waiting are valued alike relative to riding (pa/pv and pw/pv are equal, pv not zero). Then every search of a strategy that ends gives, for the second set, the same strategy with the same expected times; whenever the optimizer is built for the first it is built for the second, with the same extended graph, strategies and shares of the stops; at any frequencies the vehicles carry, pick up and leave the same passengers and the restrictions are the same numbers; and the objective differs only by the prices: by the difference of spa times the access hours, of spw times the waiting hours, of spv times the riding hours and of spt*spv/60 times the transfers, all of them the same hours. In particular expressing pa, pw and pv in another unit of money changes nothing at all.", "quantifier": "every extended graph, OD pair and search bound; every problem, initial frequencies, pair of passenger parameter sets with equal ratios and frequencies at which the objective is evaluated", "why_tests_cant": "the claim relates two complete runs for every network and every pair of parameter sets; a test compares a few", "anchors": ["sidermit/optimization/preoptimization/hyper_path.py: Hyperpath, build_hyperpath_graph", "sidermit/optimization/preoptimization/assignment.py: get_assignment", "sidermit/optimization/users_cost.py: resources_consumer, get_users_cost", "sidermit/optimization/optimizer.py: Optimizer, VRC, get_constrains", "sidermit/publictransportsystem/passenger.py: Passenger"]}
{"id": "C83", "title": "Travellers board exactly the lines worth boarding", "statement": "At a stop where the strategy found by the search is to wait, write L for the cost announced at the stop (without the access time at the origin) and t for the expected cost of the rest of the trip once aboard a line that passes there and from which the destination can be reached. Every such line with t < L is in the strategy, and no line with t > L is. The savings L - t of the lines worth boarding, weighted by their frequencies, add up exactly to the weighted waiting time times one departure (theta*pw/pv), and, if waiting costs anything, L is the only number with this property: the lines, their frequencies and the costs once aboard determine what the stop announces. At every stop, also where the strategy is to walk, these savings never exceed the cost of the wait.", "quantifier": "every extended graph of the kind built from a city and valid routes, passenger parameters, origin, destination, search bound and stop", "why_tests_cant": "the claim is about all sets of lines at all stops of all networks; a test looks at a few stops", "anchors": ["sidermit/optimization/preoptimization/hyper_path.py: Hyperpath, build_hyperpath_graph, build_hyperpath", "sidermit/optimization/preoptimization/extended_graph.py: build_boarding_edges"]}
{"id": "C84", "title": "The total of the trips in machine numbers", "statement": "With IEEE doubles as Python uses them: on every history of changes of an OD matrix and of reads through it, if the numbers of trips given are whole numbers of some unit 2^e (whole trips, halves, quarters, ...) and the trips never add up to 2^53 units or more, then nothing is ever rounded: the total is exactly the sum of the cells, it is what a client gets by adding the cells, and matrix and total are those of exact arithmetic (C10). Outside these limits it is not so: after 0.1, 0.2 and setting the first back to 0, the total is not the 0.2 that is left; a total can be 0 with one trip in the matrix; an infinite number of trips is accepted and, set back to 0, leaves nan as the total for ever.", "quantifier": "every list of nodes, unit 2^e with -1074 <= e <= 970 and finite history of calls", "why_tests_cant": "rounding errors depend on the whole history; a test tries a few", "anchors": ["sidermit/city/demand.py: change_vij, get_matrix"]}
{"id": "C85", "title": "The file of the lines can be read whatever the names", "statement": "The text that routes_to_file writes, with quotes where the CSV writer puts them, gives the table back to every reader of such files: header, one row per route in order, six fields, character by character, also when ids or names hold semicolons, quotes or ends of line. So two networks with the same file have the same routes, and valid two-way lines are read back from the file as in C71. (A carriage return is an exception: before Python 3.13 it is not quoted, and a reader that takes it for the end of a line gets other rows.)", "quantifier": "every table of texts, every network and history of calls, both versions of the writer and both kinds of reader", "why_tests_cant": "quoting must be right for every text in every column", "anchors": ["sidermit/publictransportsystem/network.py: routes_to_file"]}
{"id": "C86", "title": "The test of convergence in machine numbers", "statement": "With IEEE doubles: between finite frequencies f_distance never gives nan (it gives a finite number >= 0, or inf), is symmetric to the last bit and is zero only between equal frequencies; and when the tolerance test passes, every frequency has changed by less than the tolerance, exactly. A nan among the frequencies never passes the test. (The triangle inequality of C50 is lost by rounding.)", "quantifier": "all vectors of doubles of the same length and all tolerances", "why_tests_cant": "rounding, overflow and underflow over all doubles", "anchors": ["sidermit/optimization/optimizer.py: f_distance, external_optimization_tolerance"]}
{"id": "C87", "title": "A demand from parameters in machine numbers", "statement": "With IEEE doubles: the range checks of a parametric demand never refuse parameters that are in range as real numbers (0 <= y, 0 <= a <= 1, 0 <= alpha, 0 <= beta < 1, alpha + beta <= 1), and for those the demand is built without an error and no cell is below zero, whatever the rounding, overflow or underflow; with two zones or more the trips from a periphery to the CBD and to its own subcentre and from a subcentre to the CBD are the documented ones up to a relative error of at most 2^-49 (and an absolute one for underflow), those from a periphery to another subcentre up to 2^-49 of the trips of the periphery, and the cells that are documented to be zero are zero; the like holds with one zone. (Between subcentres there is no such bound: the cell can be twice the documented number.) Finite parameters that are accepted are in range, except that alpha + beta may exceed 1 by at most 2^-53. (Such a pair can be accepted and then not be built: 0.8 and 0.2.)", "quantifier": "all doubles, all lists of nodes with distinct ids and all numbers of zones up to 2^53", "why_tests_cant": "rounding, overflow and underflow over all doubles", "anchors": ["sidermit/city/demand.py: build_from_parameters, parameters_validator"]}
