# Design of the Rocq model of Epilef-coder/optimizer (sidermit)

## 1. Method

The source in `/repo/sidermit` is read as text and transcribed, function by function, into total
computable Gallina functions (`/verif/rocq/theories/*.v`).  Every definition cites the file and
lines it models and every simplification is stated in that comment.

* Exceptions are values: `res A := Ok a | Err exn`, one constructor of `exn` per Python exception
  class that the code can raise (library ones and `ZeroDivisionError`, `IndexError`, `KeyError`,
  `ValueError`, `TypeError`, `AttributeError`).
* Python `dict`/`defaultdict` = insertion-ordered association lists; the `defaultdict` insertion on
  read is modelled wherever the code can observe it.
* Object identity = an explicit identity (list index, tag or constructor), so that `==` on objects is
  decidable and mutation of shared objects (nodes, modes) is visible through every alias.
* Loops = structural recursion; `while` loops = recursion on fuel with an explicit out-of-fuel
  outcome which a theorem excludes.
* Numbers: floats are exact rationals `Q` (compared with `==`).  `inf` is a separate constructor.
  For attribute setters a type with `NaN`, `+inf`, `-inf` is used.  Float rounding is NOT modelled,
  except for the OD matrix and the test of convergence (`FloatDemand.v`, `FloatParam.v`, `FloatTol.v`, C84, C86, C87: IEEE doubles, as
  defined by Flocq).
* `sqrt`, `cos`, `sin`, `acos`, number printing/parsing, file systems, pandas, and scipy's optimiser
  are explicit parameters (records of functions, "oracles"); a law about an oracle is a visible
  hypothesis of the theorem that needs it, and an instance satisfying it is exhibited.

Files: `*_model`-style files hold definitions only, `*Spec.v` the independent specifications,
`*Proofs.v` lemmas, `Props_*.v` only the property theorems (`Theorem Cnn_...`), each followed by
`Print Assumptions` and by `Example`s showing that non-trivial instances meet the hypotheses.

## 2. Trusted base

* Coq 8.16.1's kernel (including the VM conversion used by `vm_compute` in examples and witnesses).
* `Print Assumptions` follows every theorem in `Props_*.v`.  Of the 301 theorems, 276 are "Closed under
  the global context"; the others are those about the real-valued polar conversion (C07) and the doubles (C84, C86, C87):
  - `C84_exact`: `ClassicalDedekindReals.sig_forall_dec`, `ClassicalDedekindReals.sig_not_dec`, `Classical_Prop.classic`, `FunctionalExtensionality.functional_extensionality_dep`;
  - `C84_added_up`: `ClassicalDedekindReals.sig_forall_dec`, `ClassicalDedekindReals.sig_not_dec`, `Classical_Prop.classic`, `FunctionalExtensionality.functional_extensionality_dep`;
  - `C84_as_exact`: `ClassicalDedekindReals.sig_forall_dec`, `ClassicalDedekindReals.sig_not_dec`, `Classical_Prop.classic`, `FunctionalExtensionality.functional_extensionality_dep`;
  - `C84_rounded_refuted`: `ClassicalDedekindReals.sig_forall_dec`, `ClassicalDedekindReals.sig_not_dec`, `Classical_Prop.classic`, `FunctionalExtensionality.functional_extensionality_dep`;
  - `C84_lost_trip_refuted`: `ClassicalDedekindReals.sig_forall_dec`, `ClassicalDedekindReals.sig_not_dec`, `Classical_Prop.classic`, `FunctionalExtensionality.functional_extensionality_dep`;
  - `C84_infinity_refuted`: `ClassicalDedekindReals.sig_forall_dec`, `ClassicalDedekindReals.sig_not_dec`, `Classical_Prop.classic`, `FunctionalExtensionality.functional_extensionality_dep`;
  - `C84_nan_stays`: `ClassicalDedekindReals.sig_forall_dec`, `ClassicalDedekindReals.sig_not_dec`, `Classical_Prop.classic`, `FunctionalExtensionality.functional_extensionality_dep`;
  - `C87_accepts`: `ClassicalDedekindReals.sig_forall_dec`, `ClassicalDedekindReals.sig_not_dec`, `Classical_Prop.classic`, `FunctionalExtensionality.functional_extensionality_dep`;
  - `C87_accepted`: `ClassicalDedekindReals.sig_forall_dec`, `ClassicalDedekindReals.sig_not_dec`, `Classical_Prop.classic`, `FunctionalExtensionality.functional_extensionality_dep`;
  - `C87_builds`: `ClassicalDedekindReals.sig_forall_dec`, `ClassicalDedekindReals.sig_not_dec`, `Classical_Prop.classic`, `FunctionalExtensionality.functional_extensionality_dep`;
  - `C87_accurate`: `ClassicalDedekindReals.sig_forall_dec`, `ClassicalDedekindReals.sig_not_dec`, `Classical_Prop.classic`, `FunctionalExtensionality.functional_extensionality_dep`;
  - `C87_one_zone`: `ClassicalDedekindReals.sig_forall_dec`, `ClassicalDedekindReals.sig_not_dec`, `Classical_Prop.classic`, `FunctionalExtensionality.functional_extensionality_dep`;
  - `C87_refuted`: `ClassicalDedekindReals.sig_forall_dec`, `ClassicalDedekindReals.sig_not_dec`, `Classical_Prop.classic`, `FunctionalExtensionality.functional_extensionality_dep`;
  - `C87_subcentres_refuted`: `ClassicalDedekindReals.sig_forall_dec`, `ClassicalDedekindReals.sig_not_dec`, `Classical_Prop.classic`, `FunctionalExtensionality.functional_extensionality_dep`;
  - `C86_defined`: `ClassicalDedekindReals.sig_forall_dec`, `ClassicalDedekindReals.sig_not_dec`, `Classical_Prop.classic`, `FunctionalExtensionality.functional_extensionality_dep`;
  - `C86_symmetric`: `ClassicalDedekindReals.sig_forall_dec`, `ClassicalDedekindReals.sig_not_dec`, `Classical_Prop.classic`, `FunctionalExtensionality.functional_extensionality_dep`;
  - `C86_zero`: `ClassicalDedekindReals.sig_forall_dec`, `ClassicalDedekindReals.sig_not_dec`, `Classical_Prop.classic`, `FunctionalExtensionality.functional_extensionality_dep`;
  - `C86_tolerance`: `ClassicalDedekindReals.sig_forall_dec`, `ClassicalDedekindReals.sig_not_dec`, `Classical_Prop.classic`, `FunctionalExtensionality.functional_extensionality_dep`;
  - `C86_nan`: `ClassicalDedekindReals.sig_forall_dec`, `ClassicalDedekindReals.sig_not_dec`, `Classical_Prop.classic`, `FunctionalExtensionality.functional_extensionality_dep`;
  - `C86_triangle_refuted`: `ClassicalDedekindReals.sig_forall_dec`, `ClassicalDedekindReals.sig_not_dec`, `Classical_Prop.classic`, `FunctionalExtensionality.functional_extensionality_dep`;
  - `C07_angle_round_trip`: `ClassicalDedekindReals.sig_forall_dec`, `ClassicalDedekindReals.sig_not_dec`, `Classical_Prop.classic`, `FunctionalExtensionality.functional_extensionality_dep`;
  - `C07_full_turn`: `ClassicalDedekindReals.sig_forall_dec`, `ClassicalDedekindReals.sig_not_dec`, `Classical_Prop.classic`, `FunctionalExtensionality.functional_extensionality_dep`;
  - `C07_point_round_trip`: `ClassicalDedekindReals.sig_forall_dec`, `ClassicalDedekindReals.sig_not_dec`, `Classical_Prop.classic`, `FunctionalExtensionality.functional_extensionality_dep`;
  - `C07_same_angle`: `ClassicalDedekindReals.sig_forall_dec`, `ClassicalDedekindReals.sig_not_dec`, `Classical_Prop.classic`, `FunctionalExtensionality.functional_extensionality_dep`;
  - `C07_same_point`: `ClassicalDedekindReals.sig_forall_dec`, `ClassicalDedekindReals.sig_not_dec`, `FunctionalExtensionality.functional_extensionality_dep`;
  These are axioms of the standard library (real numbers, classical logic, functional extensionality).  No axiom is added.
* Flocq's definitions of the IEEE doubles and of their sum, difference, product, quotient and comparison (C84, C86, C87 only).
* The transcription from Python to Gallina (by reading), under the simplifications in the comments.
* Laws of oracles are never assumed globally: they are hypotheses of the theorems that need them, with an
  instance shown (`GeoEx.v` for the geometry, `ex_fmt` for the number format).

## 3. What is modelled

| Python | Coq file(s) | not modelled |
|---|---|---|
| `city/graph.py` | `Graph.v`, `Pajek.v` (text export and import), `RGeom.v` (polar conversion over the reals), `Plot.v` (what `plot` hands to the drawing library), `Args.v` (checks of arguments of any type) | the file system around `graph_to_pajek_file`/`build_from_file`, what is built from ill-typed arguments that pass the checks, inf and nan in node files |
| `city/demand.py` | `Demand.v`, `FloatDemand.v`, `FloatParam.v` (the matrix and the construction from parameters in IEEE doubles), `Args.v` (argument checks) | pandas CSV quoting (rows modelled as text lines) |
| `publictransportsystem/mode.py`, `passenger.py` | `Mode.v`, `Args.v` (arguments of any type) | arguments other than None, numbers and str |
| `publictransportsystem/network.py` | `Route.v`, `Network.v`, `Predef.v`, `Csv.v` (text of the file of routes, with pandas' CSV writer), `Plot.v` (`plot`), `Args.v` (the check of a jump) | the file system |
| `preoptimization/extended_graph.py` | `ExtGraph.v`, `Texts.v` (`__str__`) | - |
| `preoptimization/hyper_path.py` | `Hyperpath.v`, `Texts.v` (`string_all_hyperpaths`), `HyperText.v` (`string_hyperpath_graph`, `string_hyperpaths_OD`), `Plot.v` (`plot`) | - |
| `preoptimization/assignment.py` | `Assignment.v`, `Texts.v` (`str_boarding_alighting`) | - |
| `users_cost.py` | `UsersCost.v` | - |
| `operators_cost.py`, `infrastructure_cost.py`, `constrains.py` | `Costs.v` | - |
| `optimizer.py` | `Optimizer.v` (construction, constraints, objective, loop), `FloatTol.v` (the tolerance test in IEEE doubles), `Results.v` (reports), `Report.v` (their texts) | scipy `minimize` (an oracle: any function from the optimiser object to a result), opening and closing the output file, `string_information_internal_optimization`, logging |
| Python strings, dicts, sums | `PyStr.v`, `PyBase.v` | Unicode digits and white space beyond ASCII, float rounding (except in `FloatDemand.v`, `FloatTol.v`, `FloatParam.v`) |

Theorems per subject: `Props_Graph` (C01-C06), `Props_RGeom` (C07), `Props_Pajek` (C08, C09),
`Props_Demand` (C10-C15), `Props_Mode` (C16, C17, C19, C20), `Props_Network` (C18, C21-C26),
`Props_Predef` (C27-C29), `Props_Ext` (C30-C33), `Props_Hyper` (C34-C37, C39), `Props_Assign` (C38, C40),
`Props_Flow` (C41, C42), `Props_Cost` (C43-C47), `Props_Users` (C48), `Props_Opt` (C49-C53, C57),
`Props_Results` and `Props_Loads` (C54-C56), `Props_Value` (C58), `Props_Conn` (C59, C60), `Props_Pipe` (C61, C62), `Props_Report` (C63, C64), `Props_Run` (C65, C66), `Props_Table` (C67), `Props_Text` (C68-C70), `Props_HyperText` (C72), `Props_Plot` (C73), `Props_Args` (C74), `Props_Better` (C75, C78), `Props_Promise` (C76), `Props_Ray` (C77), `Props_Scale` (C79), `Props_Sum` (C80), `Props_Idle` (C81), `Props_More` (C43 for any line, C40 better stops), `Props_Rates` (C82), `Props_Lines` (C83), `Props_Float` (C84), `Props_Csv` (C85), `Props_FloatTol` (C86), `Props_FloatParam` (C87),
`Props_ModeVals` (C16), `Props_Saved` (C71).


`Replay.v` runs the scenarios of the repository's own unit tests (`/repo/tests`) on the model: 43 Examples, computed by
the kernel, compare the model with the values the tests expect of the Python code (users' cost 336.8079, cycle time
1.5032756, the twenty frequency constraints, the node and demand files of `tests/file`, ...).  They are tests of the
model against the program, not proofs about it.  Left out: the tests that only draw.

## 4. Plan per property

* C01-C04, C06: `build_from_parameters` is executed symbolically by induction on the number of added
  zones; the graph after k zones is characterised (invariant), then each asymmetry pass is a map over
  the node store.  The arcs are specified by an inductive relation on (kind, zone) pairs.
* C05: decision rule `validator = Ok true <-> Valid` plus the first-error ordering.
* C07: real analysis (`RGeom.v`): `cos`, `sin`, `acos` of the standard library.
* C08, C09: Pajek text modelled as a string; import = split, parse, stable sort, checks; round trip
  proved from the law `parse (print x) = x` of the number oracle.  C09: proved part plus `_refuted` witnesses.
* C10, C11, C15: invariant over an arbitrary list of operations (`change_vij`, `get_matrix()[i][j]` reads).
* C12: sums over the node list; C13, C14: fold over rows.
* C16, C17, C19, C20: state machines over attribute assignments and manager calls with a heap of modes.
* C18: decision rule.
* C21: string printing/parsing with the standard decimal library.  C22: decision rule.
* C23-C26: invariants over operation histories of the network; `_refuted` witnesses for the return
  direction (C24) and the skipped routes (C26).
* C27-C29: for arbitrary n and jump, with the modular wrap-around done by `lia`; ids by string injectivity.
* C30-C33: the extended graph is a function of (nodes, routes, frequencies, TP); structural induction.
* C34-C37: the hyperpath algorithm is written over an abstract list of nodes and edges, proved to
  terminate, and proved optimal against an inductive definition of hyperpath cost; then instantiated.
* C38: decision rule; C39: witness of division by zero, and absence under theta, pv > 0.
* C40: case analysis over exact rationals, loop invariant on stop positions; witness of the lost demand.
* C41: flow conservation by induction on the worklist.
* C42, C45, C46, C47, C50, C51: folds over lists.
* C43, C44: path lengths; key sets of default dicts.
* C48: invariant on accumulators; witness for the transfer access time.
* C49: zip lemmas and witness.  C52, C53: the solver is an oracle `nat -> result`; induction on iterations.
* C54-C56: row construction, witnesses.  C57, C58: unfolding of the constraint vector and the objective, with the
  lemma that the tables are read only through their values.
* C59, C60: `ConnSpec` states rides and chains of rides on the routes alone; `ConnProofs` shows by induction that the
  node chains of a direction are blocks of the extended graph, so that strategies of finite cost and chains of rides
  are the same thing (both directions).  C60: induction on the zones of the ring, with the exact lines of C28.
* C61, C62: the whole pipeline (extended graph, strategies, assignment, loads, costs) is composed.  `PipeSpec` states the
  range of the parameters and what it means for the lines to serve the demand, on routes and demand alone.  Every stage is
  shown not to raise; the loops get a number of turns `fuel` and the theorems hold for every fuel above some bound, so the
  program itself, which has no bound, ends.  C62 instantiates C61 with C12, C26, C27, C28 and C60.
* C63, C64: the texts are modelled character by character (`Report`, with `{:.2f}` exact); `ReportSpec` is a reader written
  from the file format alone, and the theorems say what it reads.
* C65, C66: `RunSpec` says what is asked of the answers of the solver; induction on the iterations with the construction
  of C61 at each of them; the strategies found at some frequencies use only lines that run at them, so the objective
  has a value there even when other lines are idle.
* C67: the only divisions of the table are by the capacity, the passengers and the parallel lines; with the balance at
  the stops (C41), a line of positive load has positive boardings, so one condition covers both.
* C68-C70: every text is shown to be a list of lines put together (each begun or ended by a line break); splitting it
  at the line breaks gives the lines back, and each line is compared with the data. The edges that the text looks for
  are found by C31 (at most one edge between two nodes).
* C71: `C21` gives the sequences back from their texts, `C22` accepts them, the modes of a network have distinct names
  so the lookup by name finds the mode; then induction over the list of saved routes, each new id being unused.
* C72: as C69 and C70, on the nodes of C30 and the successors and paths of C36 and C37; `{:.4f}` is modelled exactly and
  the text is read back by a reader of four decimals.
* C73: what the three `plot` functions hand to the drawing library (graph, positions, and for each call its nodes or
  edges and colour) is modelled; C01, C02 and C06 describe the city, C23 the routes that the network finds, C37 the paths.
* C74: the checks on arbitrary values (None, bool, int, float, str) with Python's rules for comparison and `or`; each function
  is proved equal to a table of verdicts whose first entry is raised, and, on the declared types, to the check of the typed model.
* C75: the extended graphs of the two services are related node by node; a strategy of the first is carried over to the second,
  dropping the lines that are no longer attractive, without raising its cost; C35 makes this a statement on labels.
* C76: potential argument: at a node the label is the mean, with the shares of the loading, of the edge costs and the next
  labels; summing over the flow telescopes (sums swapped over edges and nodes). The edge costs are then matched with those of C48.
* C77: lockstep induction over the two loadings (same keys visited, values equal or divided by q) and over three runs of the
  users' cost (f, f with empty tables, q f); the fullest section by antisymmetry from C42, the cycle times from C44; the constraints entry by entry.
* C78: C75 in both directions; the places of the visits of a line in the two lists are related by an explicit shift.
* C79: lockstep over the constructor (same pairs with trips, hence same searches) and over three runs of the users' cost, the
  starts of the trips kept apart from the walks; the second part is the first composed with C77.
* C80: the lists of pairs of the two groups merge into that of the whole (left, right, or both with shares that add to 1); each pair adds
  to any tables in proportion to its trips; for the cost, a run over part of the pairs is compared with the run over all of them, component by component.
* C81: one way it is C75; the other way, a strategy of the larger graph is carried back to the smaller one: a wait uses only edges of positive frequency,
  hence of running lines, and leaving or walking at a stop that only idle lines use is never on the way to anywhere.
* C82: lockstep of the two runs: search states with equal strategies and equal (not identical) labels, then the entries, the shares, the tables and the
  hours of the users; the prices enter only in the last sum.
* C83: from C35 and C36: adding a line cheaper than the label, or leaving out a dearer one, would be a strategy cheaper than the minimum; the sum of the
  savings is strictly increasing in L where it is positive.
* C84: `FloatDemand.v` is the matrix with the doubles of Flocq; an invariant over the history (finite, whole cells, total = sum over the reals), with Flocq's
  correctness theorems of addition and subtraction; a simulation with the exact model; the counterexamples by computation.
* C85: `Csv.v` is the writer (minimal quoting), `CsvSpec.v` a reader as an automaton over characters; induction on fields and rows; C71 for the routes.
* C86: `FloatTol.v` is the test in Flocq's doubles; rounding is monotone and no non-zero difference of doubles rounds to zero; induction on the vectors.
* C87: `FloatParam.v` is the construction in Flocq's doubles; products and quotients of doubles not below zero are not below zero, beta <= 1 - alpha survives
  the rounding of 1 - alpha because beta is a double, and the loop keeps the cells and their sign.  The bound 2^-53 is half the gap above 1.  The accuracy
  follows from one lemma per rounding (Flocq's `error_N_FLT`), applied once per operation; the quotient by 1 - beta is relative because 1 - beta is at least 2^-53.

The result status of each property is in `MANIFEST.json`; findings (refuted readings) are in section 5.

## 5. Findings

Readings of a property that are false of the code.  Each is a theorem `..._refuted` with a concrete witness.

City and demand
* C02: the class docstring (graph.py 181) promises 6n edges; false for n = 1 and n = 2.
* C08: valid cities whose exported text cannot be imported: l = 0 and a subcenter at the origin
  (ZeroDivisionError, graph.py 612, 617), peripheries nearer than subcenters on average (g < 0), two zones in
  one direction with the CBD between them (etha > 1).
* C09: the periphery and the subcenter of a zone may share an id (graph.py 715-730); a one-row file without
  CBD gives an empty graph; rows beyond the announced number are ignored and a second `*vertices` line
  goes on, so the announced number is not the number of nodes.
* C12: a city without zones loses all requested trips.
* C14, C15: a read of a missing cell through `get_matrix()` inserts it (defaultdict); afterwards trips are
  accepted on nodes that do not exist, and the exported CSV cannot be imported.

Modes, passengers, routes
* C16, C20: NaN passes every range check of the setters.
* C16: infinitely many lines with an initial frequency of zero are accepted; the mode starts from NaN (mode.py,
  `fini * d`).
* C17: renaming a mode after adding it leaves the manager's name list stale.
* C19: assigning `d` after construction does not rescale `fmax`.
* C22: stops may be listed against the direction of travel.
* C24: the return direction of a custom route is not checked against the graph; C43: the missing arcs then
  cost no time.
* C24: a custom line may stop at a node the city does not have (as its only node, or on its way back); the extended
  graph of such a network cannot be built (C30_unknown_stop: AttributeError, extended_graph.py 376-390).
* C26: removing a mode skips routes (list mutated while iterated); `C26_remove_mode_removes_separated_routes`
  proves what holds.
* C71: the row of a circular line in the file of `routes_to_file` cannot be read back as a custom route (its return
  sequences are empty).

Extended graph, hyperpaths, assignment
* C30: route-node numbers repeat after a circular route.
* C33: when no route of the network stops at an intermediate node, its two legs are replaced by a straight
  line, so the ride is timed shorter than the path.
* C36: the reported frequency of a stop where walking is better is that of lines not used.
* C39: pv = 0 is accepted by the setters and makes the search divide by zero.
* C40: with two modes of equal labels all trips of the pair are lost; with an odd number of lines they are
  misplaced by half a zone; a mode with d = 0 divides by zero.
* C69: `str` of an extended graph gives the access time in hours under the label [min] (extended_graph.py 181).
* C41: a zero frequency on every line of a stop divides by zero.

Costs
* C47: a mode with d = 0 makes the constraints fail.
* C48: a walk between two stops adds its time once, not once per traveller (users_cost.py 144, 147); the first
  leg of a circular line reads the direction "R" that it does not have (users_cost.py 131, 179).

Optimiser
* C49: the frequencies given as a start are ignored (optimizer.py 101).
* C52: without a maximum the outer loop may run for ever.
* C54: a running line without passengers makes the report divide by zero (optimizer.py 644); the mean number
  of passengers of a circular line counts the boardings at its terminal twice (optimizer.py 561-574).
* C55: without trips no overall report (optimizer.py 811).
* C56: sequential boarding reports an empty section as full (optimizer.py 615); a circular line that is empty
  between two stops raises IndexError (561-597), and one that carries nobody is reported full (578).
* C63: the id of a route is written as it is into the results file; a semicolon in it displaces the columns
  (optimizer.py 729-733).
* C65: an acceptable answer of the solver at which some trip has become impossible is lost when another iteration
  follows it: the Optimizer of that iteration raises TransportNetworkException (optimizer.py 390-391).
* C66: the cut-off of frequencies below 1/24 after the last iteration can leave a trip without lines; the solution
  returned can then not be reported (optimizer.py 401-408, 498).
* C72: every path printed by `string_hyperpaths_OD` starts with the origin, whose label is always shown as inf: the search
  leaves out the edges of the origin (hyper_path.py 147-152, 380-382).
* C73: a city without zones is drawn with a node that has no position (graph.py 985-995 gives positions along arcs only),
  and a line whose stops are not nodes of the city, which a network accepts (C24), is drawn with stops without position
  (network.py 752-783).
* C74: nan passes all the checks of arguments, inf those without an upper bound (graph.py, demand.py, mode.py, passenger.py);
  None for n, l, g, p, for a radius or for a jump gives TypeError and not the documented exception; `Edge` takes objects
  that are not nodes (graph.py 155-165).
* C75: adding a line can lengthen the trips of travellers who do not use it: the ride time of an express between two stops is
  the length of the path through those intermediate nodes at which some vehicle stops (extended_graph.py 490-493, 524-545), so
  the first line that stops at such a node makes every express through it slower.
* C76: within an inner optimisation the frequencies vary and the strategies and the split of the origin do not
  (optimizer.py 213-234), so the users' cost at other frequencies is not the one that the search announced, even when every
  line is more frequent.
* C81: an idle line is not always harmless: the stops of a line with frequency 0 are kept when the ride of an express is
  measured (extended_graph.py 490-493, 524-545), so it slows every express that passes a node at which only it stops
  (`C81_idle_stop_refuted`).
* C84: the total of the trips is kept by differences (demand.py 84), so the rounding errors of the past stay in it:
  0.1, 0.2 and then 0 for the first leaves 0.20000000000000004 where the cells add up to 0.2; an infinite number of trips
  passes the check `vij < 0` and makes the total nan for ever once it is set back.
* C85: before Python 3.13 a carriage return in the id of a route or the name of a mode is written without quotes by
  routes_to_file (network.py 351); Python's own reader then splits the row.
* C87: alpha = 0.8 and beta = 0.2 pass the check `alpha + beta > 1` (demand.py 126), but 1 - alpha - beta (demand.py 153) is
  -5.55e-17, so change_vij refuses the program's own number of trips (TripsValueIsNotValidException) when there are two zones
  or more.
* C87: between subcentres the share is (1 - alpha - beta) / (1 - beta) with a rounded numerator (demand.py 153-155): for
  alpha = 2^-54, beta = 1 - 2^-53 the cell is twice the documented number (`C87_subcentres_refuted`).
