{"id": "C01", "title": "Boolean clause helpers mean what they say", "statement": "The clauses returned by literals_same, literals_different, implies, set_literal, set_all_false and set_all_true are satisfied by an assignment exactly when the two literals are equal / differ / (all preconditions true implies the consequences) / the literal has the requested value / all literals are false / all are true.", "quantifier": "every assignment, every pair or list of non-zero literals, every consequence clause list", "why_tests_cant": "The helpers are used with thousands of different literal lists; a test evaluates finitely many assignments of finitely many literals.", "anchors": ["factorio_sat/util.py:literals_same", "factorio_sat/util.py:literals_different", "factorio_sat/util.py:implies", "factorio_sat/util.py:set_literal", "factorio_sat/util.py:set_all_false", "factorio_sat/util.py:set_all_true"]}
{"id": "C02", "title": "Fixing or forbidding a number", "statement": "set_number(v, bits) is satisfied exactly by the assignments in which the little-endian number on bits is v (mod 2^n), set_not_number(v, bits) exactly by those in which it is not, and set_number raises when v needs more than n bits.", "quantifier": "every width n, every value v, every assignment, every list of non-zero literals of length n", "why_tests_cant": "Unbounded widths and values.", "anchors": ["factorio_sat/util.py:set_number", "factorio_sat/util.py:set_not_number", "factorio_sat/util.py:get_bits"]}
{"id": "C03", "title": "Unordered pair of numbers", "statement": "set_numbers(a, b, A, B) is satisfied exactly when (A,B) reads (a,b) or (b,a).", "quantifier": "every width, every pair of values fitting the width, every assignment", "why_tests_cant": "Unbounded widths; the number of differing bits decides which branch runs.", "anchors": ["factorio_sat/util.py:set_numbers"]}
{"id": "C04", "title": "Equality of two binary numbers", "statement": "set_numbers_equal(A, B) is satisfied exactly when the numbers on A and B are equal; with allow_different_lengths the missing high bits count as zero, and without it unequal widths raise.", "quantifier": "every two widths, every assignment", "why_tests_cant": "Unbounded widths.", "anchors": ["factorio_sat/util.py:set_numbers_equal"]}
{"id": "C05", "title": "Upper bound on a binary number", "statement": "set_maximum(v, bits) is satisfied exactly when the number on bits is at most v, and raises when v does not fit the width.", "quantifier": "every width n, every v, every assignment", "why_tests_cant": "The clause set depends on every bit of v; widths are unbounded.", "anchors": ["factorio_sat/util.py:set_maximum"]}
{"id": "C06", "title": "Adder", "statement": "add_numbers(A, B, S, allocator, carry_in, allow_overflow) can be satisfied by choosing only the freshly allocated variables exactly when A+B+carry_in = S (S one bit wider, or same width and overflow forbidden), or A+B+carry_in = S mod 2^n when overflow is allowed; every satisfying assignment obeys that equation.", "quantifier": "every width, every assignment, with or without carry-in, both overflow modes and both output widths", "why_tests_cant": "Ripple carry correctness is an induction on the width.", "anchors": ["factorio_sat/util.py:add_numbers"]}
{"id": "C07", "title": "Sum of many numbers", "statement": "sum_numbers(numbers, S) is satisfiable over fresh variables exactly when the sum of all numbers equals S (or equals it mod 2^n with allow_overflow).", "quantifier": "every list of numbers of every common width, every assignment", "why_tests_cant": "Unbounded list length and width.", "anchors": ["factorio_sat/util.py:sum_numbers"]}
{"id": "C08", "title": "Increment", "statement": "increment_number(A, B) is satisfied exactly when B = A+1 modulo 2^n.", "quantifier": "every width, every assignment", "why_tests_cant": "Unbounded width.", "anchors": ["factorio_sat/util.py:increment_number"]}
{"id": "C09", "title": "Population count", "statement": "get_popcount(bits, out) never raises for two or more bits when out has the required width and is satisfiable over fresh variables exactly when out reads the number of true bits.", "quantifier": "every number of bits >= 2, every assignment", "why_tests_cant": "Recursive halving; the width assertion of every recursive call must hold for all lengths.", "anchors": ["factorio_sat/util.py:get_popcount", "factorio_sat/util.py:bin_length"]}
{"id": "C10", "title": "Two's complement negation", "statement": "invert_number(A, B) is satisfiable over fresh variables exactly when A+B = 0 mod 2^n and A is not the most negative number.", "quantifier": "every width >= 1, every assignment", "why_tests_cant": "Unbounded width.", "anchors": ["factorio_sat/util.py:invert_number"]}
{"id": "C11", "title": "Number reading and bit extraction are inverse", "statement": "read_number(get_bits(v, n)) = v for unsigned v < 2^n, the signed read gives the two's complement value, and get_bits(read_number(bits), n) = bits.", "quantifier": "every width and value", "why_tests_cant": "Unbounded widths.", "anchors": ["factorio_sat/util.py:read_number", "factorio_sat/util.py:get_bits"]}
{"id": "C12", "title": "Symmetry breaking keeps one of each mirrored pair", "statement": "break_symmetry(left, right) is satisfiable over fresh variables exactly when the values of left are lexicographically at most those of right; hence for any assignment and any mirror image that exchanges the two value lists at least one of the two satisfies the constraint.", "quantifier": "every length, every assignment", "why_tests_cant": "Quantifies over all solutions and all lengths.", "anchors": ["factorio_sat/util.py:break_symmetry"]}
{"id": "C13", "title": "At-most-one / exactly-one encodings", "statement": "quadratic_amo and heule_amo are satisfiable over fresh variables exactly when at most one literal is true; quadratic_one, heule_one and logarithmic_one exactly when exactly one is.", "quantifier": "every list of literals, every recursive cut-off >= 3, every assignment", "why_tests_cant": "Recursive splitting with auxiliary variables; unbounded lists.", "anchors": ["factorio_sat/cardinality.py:quadratic_amo", "factorio_sat/cardinality.py:quadratic_one", "factorio_sat/cardinality.py:heule_amo", "factorio_sat/cardinality.py:heule_one", "factorio_sat/cardinality.py:logarithmic_one"]}
{"id": "C14", "title": "logarithmic_amo accepts the empty choice", "statement": "logarithmic_amo should be satisfiable when no literal is true (at most one). [Refuted: it always forces one literal.]", "quantifier": "every list of literals and every assignment with none true", "why_tests_cant": "A test on one-hot inputs passes; the failure is for the all-false assignment of every list.", "anchors": ["factorio_sat/cardinality.py:logarithmic_amo"]}
{"id": "C15", "title": "Directions form the cyclic group and match Factorio's numbering", "statement": "next, prev and reverse are quarter, inverse quarter and half turns of the direction vector, vec is rotated accordingly, and from_factorio inverts factorio_direction (and vice versa on 0,2,4,6).", "quantifier": "every direction and every integer Factorio direction", "why_tests_cant": "Stated as laws used by every other module.", "anchors": ["factorio_sat/direction.py:Direction"]}
{"id": "C16", "title": "Tile JSON round trip", "statement": "BaseTile.read(tile.write()) returns an equal tile for every tile of every class, and no value written by one tile is read back as another tile.", "quantifier": "every tile of every tile class, all parameters", "why_tests_cant": "Must hold for all parameter values and needs injectivity.", "anchors": ["factorio_sat/tile.py:BaseTile", "factorio_sat/blueprint.py:read_tile", "factorio_sat/blueprint.py:write_tile"]}
{"id": "C17", "title": "Grid rotations and flips form the dihedral group", "statement": "Applying ROTATE_90 four times, ROTATE_180 twice, FLIP_X or FLIP_Y twice gives back the same grid; ROTATE_180 is ROTATE_90 twice, ROTATE_270 three times, and the two flips compose to ROTATE_180.", "quantifier": "every rectangular grid size and content of transformable tiles", "why_tests_cant": "All sizes, all contents.", "anchors": ["factorio_sat/rotate.py:Operation", "factorio_sat/tile.py:TransformableTile"]}
{"id": "C18", "title": "Grid transforms preserve belt connectivity", "statement": "A layout is a valid Factorio layout exactly when its rotated or flipped version is: every belt feed, splitter pairing and underground pairing is carried to the image position.", "quantifier": "every grid size and layout, every operation", "why_tests_cant": "Relates positions and directions for all grids.", "anchors": ["factorio_sat/rotate.py:Operation", "factorio_sat/tile.py"]}
{"id": "C19", "title": "Grid transforms carry multi-tile buildings", "statement": "Rotating or flipping a grid containing a 3x3 assembling machine should give a grid containing a 3x3 assembling machine whose cells carry the right offsets. [Refuted: cells move but their offsets are not transformed.]", "quantifier": "every grid with an assembling machine", "why_tests_cant": "Needs a relation between positions and cell contents.", "anchors": ["factorio_sat/rotate.py:Operation", "factorio_sat/tile.py:AssemblingMachine"]}
{"id": "C20", "title": "Text picture round trip", "statement": "Decoding the text picture produced by encode gives back the same grid, for every grid of belts, undergrounds, splitters, empty tiles; distinct grids have distinct pictures.", "quantifier": "every grid size and contents over the drawable tiles", "why_tests_cant": "All sizes and contents.", "anchors": ["factorio_sat/stringifier.py:encode", "factorio_sat/stringifier.py:decode", "factorio_sat/stringifier.py:MAPPING"]}
{"id": "C21", "title": "Blueprint round trip", "statement": "Importing the blueprint made from a layout gives back the same layout (shifted to its bounding box), for every layout in which each belt's input is the one Factorio would infer.", "quantifier": "every grid size and layout of belts, undergrounds and splitters", "why_tests_cant": "All sizes, all layouts.", "anchors": ["factorio_sat/blueprint.py:make_blueprint", "factorio_sat/blueprint.py:import_blueprint", "factorio_sat/blueprint.py:resolve_belt_input_directions"]}
{"id": "C22", "title": "Blueprint entities are well formed", "statement": "make_blueprint numbers the entities 1..n without gaps, emits one entity per belt/underground/inserter and exactly one per splitter pair, at the right half-integer centre, and never two entities with the same position.", "quantifier": "every layout with paired splitters", "why_tests_cant": "All sizes and layouts.", "anchors": ["factorio_sat/blueprint.py:make_blueprint"]}
{"id": "C23", "title": "Blueprint import accepts facing belts", "statement": "import_blueprint should return a grid for every blueprint of belts. [Refuted: two belts that face each other raise.]", "quantifier": "every set of belts at distinct positions", "why_tests_cant": "Failure needs a particular neighbourhood.", "anchors": ["factorio_sat/blueprint.py:resolve_belt_input_directions"]}
{"id": "C24", "title": "Blueprint book and version codec round trip", "statement": "unpack_book(pack_book(l)) returns l with its positions as indices, and decode_factorio_version(encode_factorio_version(v)) = v for every version quadruple.", "quantifier": "every list of blueprints; every quadruple of 16 bit numbers", "why_tests_cant": "Unbounded lists, 2^64 versions.", "anchors": ["factorio_sat/blueprint_book.py", "factorio_sat/blueprint.py:encode_factorio_version", "factorio_sat/blueprint.py:decode_factorio_version"]}
{"id": "C25", "title": "Network file round trip", "statement": "open_network applied to the text written by save_network returns the same network, whatever comments and blank lines are added, for every network without negative colours.", "quantifier": "every network, every colour", "why_tests_cant": "Unbounded networks and numbers.", "anchors": ["factorio_sat/network.py:open_network", "factorio_sat/network.py:save_network"]}
{"id": "C26", "title": "Network flip", "statement": "flip_network is an involution that exchanges input and output colours of the network and of every splitter.", "quantifier": "every network", "why_tests_cant": "All networks.", "anchors": ["factorio_sat/network.py:flip_network", "factorio_sat/network.py:get_input_output_colours"]}
{"id": "C27", "title": "Benes network has n inputs and n outputs", "statement": "create_benes_network(n) terminates for every n >= 2 and yields a network whose unique input colour occurs n times net as an input and whose unique output colour occurs n times net as an output.", "quantifier": "every n >= 2, every iteration order of the sets", "why_tests_cant": "Recursion with odd/even cases over all n.", "anchors": ["factorio_sat/network.py:create_benes_network", "factorio_sat/network.py:get_input_output_colours"]}
{"id": "C28", "title": "Benes network balances", "statement": "In every way of wiring the splitters of create_benes_network(n) according to their colours and every steady flow in which each splitter halves its input, all n outputs carry exactly 1/n of the total input.", "quantifier": "every n >= 2, every colour-respecting wiring, every steady flow", "why_tests_cant": "Quantifies over infinitely many sizes, wirings and real-valued flows.", "anchors": ["factorio_sat/network.py:create_benes_network"]}
{"id": "C29", "title": "Colour clean-up preserves the network", "statement": "fix_colours and tidy_network rename the colours injectively onto 0..k-1 with network inputs first and network outputs last and otherwise keep the multiset of splitters; deduplicate_network keeps the multiset of splitters up to swapping the two sides' belts.", "quantifier": "every network, every set iteration order", "why_tests_cant": "All networks.", "anchors": ["factorio_sat/network.py:fix_colours", "factorio_sat/network.py:tidy_network", "factorio_sat/network.py:deduplicate_network", "factorio_sat/network.py:remap_colours"]}
{"id": "C30", "title": "Divisor enumeration", "statement": "factors(v) yields every pair (a,b) with a*b = v exactly once.", "quantifier": "every v >= 1", "why_tests_cant": "All numbers.", "anchors": ["factorio_sat/calculate_optimal.py:factors"]}
{"id": "C31", "title": "Solution database inference is monotone and sound", "statement": "does_balancer_exist answers True only if a recorded solution fits in the requested size, False only if a recorded impossibility contains the requested size, and None otherwise; in every database reachable by add_solution from an unknown size the answer does not depend on the order of the entries.", "quantifier": "every history of additions", "why_tests_cant": "Histories are unbounded.", "anchors": ["factorio_sat/calculate_optimal.py:NetworkSolutionStore"]}
{"id": "C32", "title": "Database clean-up keeps every answer", "statement": "clean() changes no answer of does_balancer_exist and no stored solution.", "quantifier": "every reachable database, every queried size", "why_tests_cant": "Unbounded databases and queries.", "anchors": ["factorio_sat/calculate_optimal.py:NetworkSolutionStore.clean"]}
{"id": "C33", "title": "Database JSON round trip", "statement": "from_json(to_json(store)) has the same entries as the store.", "quantifier": "every store", "why_tests_cant": "Unbounded databases and numbers.", "anchors": ["factorio_sat/calculate_optimal.py:NetworkSolutionStore.to_json", "factorio_sat/calculate_optimal.py:NetworkSolutionStore.from_json"]}
{"id": "C34", "title": "Length search terminates and is optimal", "statement": "LengthObjective.next_size always returns; it returns None only when the recorded solution of that height has the least width not ruled out, and then the query returns a solution of that width.", "quantifier": "every reachable database, every underground length", "why_tests_cant": "Unbounded loop over widths.", "anchors": ["factorio_sat/calculate_optimal.py:LengthObjective", "factorio_sat/calculate_optimal.py:NetworkSolutionStore.best_current_solution"]}
{"id": "C35", "title": "Area search terminates and is optimal", "statement": "AreaObjective.next_size always returns; it returns None only when every admissible size of smaller area is ruled out and the query then returns a solution of no larger area.", "quantifier": "every reachable database, every underground length", "why_tests_cant": "Unbounded loop over areas.", "anchors": ["factorio_sat/calculate_optimal.py:AreaObjective"]}
{"id": "C36", "title": "The whole computation finds an optimum", "statement": "Running compute until it stops, with any interleaving of the concurrent searches and any truthful solver, leaves every store with an optimal solution under the objective, without asking about any size twice.", "quantifier": "every schedule of task completions, every truthful oracle; searches for several underground lengths may share a database if a longer one makes no size impossible, with one length nothing is assumed about how the sizes depend on each other", "why_tests_cant": "All schedules and histories.", "anchors": ["factorio_sat/calculate_optimal.py:main", "factorio_sat/calculate_optimal.py:NetworkSolutionStore.add_solution"]}
{"id": "C37", "title": "Saving progress survives a crash", "statement": "After a crash at any point of save_progress the result file should still hold the old or the new database. [Refuted: the file is truncated first.]", "quantifier": "every crash point", "why_tests_cant": "All crash points.", "anchors": ["factorio_sat/calculate_optimal.py:save_progress"]}
{"id": "C38", "title": "Cross table reports impossibility only when known", "statement": "export_crosstable should print the impossible mark only when every belt level is known to be impossible. [Refuted.]", "quantifier": "every database", "why_tests_cant": "All databases.", "anchors": ["factorio_sat/calculate_optimal.py:export_crosstable"]}
{"id": "C39", "title": "Variable allocation is injective", "statement": "Every field of every tile of a grid gets its own SAT variables, the extras too, and the variables are numbered 1..N without gaps.", "quantifier": "every grid size, colour count and extra fields", "why_tests_cant": "All sizes.", "anchors": ["factorio_sat/template.py:BaseGrid", "factorio_sat/template.py:CompositeTemplate", "factorio_sat/template.py:ArrayTemplate", "factorio_sat/solver.py:Grid.__init__"]}
{"id": "C40", "title": "Neighbour lookup respects the edge mode", "statement": "get_tile_instance_offset returns the tile at the offset position, modulo the size on wrapping axes, and None exactly when it leaves the grid on a non-wrapping axis.", "quantifier": "every grid size, position, offset and edge mode", "why_tests_cant": "All sizes and offsets.", "anchors": ["factorio_sat/template.py:BaseGrid.get_tile_instance_offset"]}
{"id": "C41", "title": "Block iteration respects its bounds", "statement": "iterate_tile_blocks with min_y/max_y should yield exactly the blocks whose tiles lie within the bounds. [Refuted for y bounds: the x coordinate is tested.]", "quantifier": "every grid and bounds", "why_tests_cant": "All sizes and bounds.", "anchors": ["factorio_sat/template.py:BaseGrid.iterate_tile_blocks"]}
{"id": "C42", "title": "Solution enumeration is complete and duplicate free", "statement": "itersolve with a correct SAT solver yields every solution projected on the important variables exactly once and stops.", "quantifier": "every clause set, every important-variable set, every choice of models by the solver", "why_tests_cant": "All formulas and all solver behaviours.", "anchors": ["factorio_sat/template.py:BaseGrid.itersolve", "factorio_sat/solver.py:Grid.itersolve"]}
{"id": "C43", "title": "External solver output is parsed correctly", "statement": "run_command_solver's reading of DIMACS output returns the printed model for a satisfiable answer, None for an unsatisfiable one, whatever comment lines and line splitting the solver uses.", "quantifier": "every model, every split of the model over v lines, every interleaving of comments", "why_tests_cant": "All outputs.", "anchors": ["factorio_sat/template.py:run_command_solver"]}
{"id": "C44", "title": "Every satisfying assignment decodes to tiles", "statement": "For every assignment satisfying the clauses created by Grid, read_tile/parse_solution returns a tile at every position (no assertion or error), and a tile with exactly one meaning.", "quantifier": "every grid size, colour count, edge mode, satisfying assignment", "why_tests_cant": "All sizes and all models.", "anchors": ["factorio_sat/solver.py:Grid.__init__", "factorio_sat/solver.py:Grid.read_tile"]}
{"id": "C45", "title": "set_tile pins the tile", "statement": "The clauses of set_tile(x, y, tile) together with the grid clauses are satisfied exactly by the assignments whose decoded tile at (x, y) is that tile.", "quantifier": "every grid, tile and assignment", "why_tests_cant": "All sizes and all models.", "anchors": ["factorio_sat/solver.py:Grid.set_tile", "factorio_sat/solver.py:Grid.read_tile"]}
{"id": "C46", "title": "Splitters come in aligned pairs", "statement": "In every solution each splitter half has its other half next to it with the same direction and opposite head flag, and no tile belongs to two splitters.", "quantifier": "every grid size, edge mode and solution", "why_tests_cant": "All sizes and all models.", "anchors": ["factorio_sat/solver.py:Grid.__init__"]}
{"id": "C47", "title": "Belts connect consistently", "statement": "With prevent_intersection, in every solution a tile pushes into its neighbour in direction d exactly when the neighbour takes its input from direction d, and no belt is fed from any other side by a belt, underground exit or splitter.", "quantifier": "every grid size, edge mode and solution", "why_tests_cant": "All sizes and all models.", "anchors": ["factorio_sat/solver.py:Grid.prevent_intersection"]}
{"id": "C48", "title": "Underground belts pair up within the length limit", "statement": "With prevent_bad_undergrounding, enforce_maximum_underground_length and blocked edges, every underground entrance has an exit in its direction at distance 2..L+1 with no underground of the same axis in between, and every exit has an entrance.", "quantifier": "every grid size, length limit, edge mode and solution", "why_tests_cant": "Unbounded tunnels and grids.", "anchors": ["factorio_sat/solver.py:Grid.prevent_bad_undergrounding", "factorio_sat/solver.py:Grid.enforce_maximum_underground_length", "factorio_sat/solver.py:Grid.block_underground_through_edges"]}
{"id": "C49", "title": "No valid layout is lost", "statement": "Every layout that obeys the Factorio rules (as a specification independent of the encoding) is the decoding of some satisfying assignment of the grid's clauses, so an unsatisfiable answer means no layout exists.", "quantifier": "every grid size, every valid layout", "why_tests_cant": "All sizes and all layouts.", "anchors": ["factorio_sat/solver.py:Grid"]}
{"id": "C50", "title": "Edges are closed", "statement": "block_belts_through_edges leaves exactly the solutions in which no tile takes input from or gives output across a non-wrapping edge, other than the permitted ones.", "quantifier": "every grid size and solution", "why_tests_cant": "All sizes and models.", "anchors": ["factorio_sat/solver.py:Grid.block_belts_through_edges"]}
{"id": "C51", "title": "Colour is transported along belts", "statement": "With prevent_bad_colouring, in every solution any two tiles joined by a path of belts and underground tunnels (not passing through a splitter) have the same colour.", "quantifier": "every grid, every path length, every solution", "why_tests_cant": "Unbounded paths.", "anchors": ["factorio_sat/solver.py:Grid.prevent_bad_colouring", "factorio_sat/solver.py:Grid.transport_quantity"]}
{"id": "C52", "title": "Balancer solutions realise the network", "statement": "In every solution of create_balancer the splitters of the layout correspond one-to-one to the splitters of the network, the lines of belts between them, the inputs and the outputs are exactly the belts of the network, and items enter and leave the rectangle at as many places as the network has inputs and outputs.", "quantifier": "every network, grid size and solution", "why_tests_cant": "All networks, sizes and models.", "anchors": ["factorio_sat/belt_balancer.py:create_balancer"]}
{"id": "C53", "title": "Balancer end placement is exhaustive", "statement": "setup_balancer_ends should allow the inputs (outputs) at every contiguous block of rows on the left (right) edge. [Refuted: the last block is never allowed.]", "quantifier": "every height and count", "why_tests_cant": "All heights.", "anchors": ["factorio_sat/belt_balancer.py:setup_balancer_input", "factorio_sat/belt_balancer.py:setup_balancer_output"]}
{"id": "C54", "title": "Balancer ends with explicit offsets colour the right edge", "statement": "setup_balancer_ends_with_offsets should be satisfiable for every valid pair of offsets. [Refuted: it colours the output column with the input colour.]", "quantifier": "every height, counts and offsets", "why_tests_cant": "All sizes.", "anchors": ["factorio_sat/belt_balancer.py:setup_balancer_ends_with_offsets"]}
{"id": "C55", "title": "Mirror symmetry breaking loses nothing", "statement": "break_vertical_symmetry is satisfied, over fresh variables, by every solution or by its mirror image.", "quantifier": "every grid size >= 2 and solution", "why_tests_cant": "All sizes and models.", "anchors": ["factorio_sat/optimisations.py:break_vertical_symmetry"]}
{"id": "C56", "title": "Small loops and hooks are excluded exactly", "statement": "prevent_small_loops excludes exactly the solutions containing a 2x2 belt cycle (either sense); prevent_belt_hooks, prevent_semicircles exactly their patterns.", "quantifier": "every grid size and solution", "why_tests_cant": "All sizes and models.", "anchors": ["factorio_sat/optimisations.py"]}
{"id": "C57", "title": "Network-free balancer conserves and halves flow", "statement": "In every solution of create_n_to_n_balancer each splitter's two outputs both carry exactly half of the sum of its inputs for each source, flow is constant along belts, and every output carries the same share of every source.", "quantifier": "every grid size, count and solution", "why_tests_cant": "All sizes and models.", "anchors": ["factorio_sat/belt_balancer_net_free.py:create_n_to_n_balancer"]}
{"id": "C58", "title": "Single loop block", "statement": "Every solution of make_block --single-loop is one closed loop visiting every tile.", "quantifier": "every grid size and solution", "why_tests_cant": "All sizes and models.", "anchors": ["factorio_sat/make_block.py:ensure_loop_length"]}
{"id": "C59", "title": "IPASIR wrapper lifecycle", "statement": "For every sequence of method calls the wrapper forwards each clause as its literals followed by 0, get_model lists every variable used in a clause once with the solver's value, and after close every method raises without touching the released solver, which is released exactly once. The answers of solve and of unsat_used_assumption are those of the library.", "quantifier": "every sequence of calls", "why_tests_cant": "Unbounded histories.", "anchors": ["factorio_sat/ipasir.py:IPASIRSolver"]}
{"id": "C60", "title": "Arithmetic of the flow encodings", "statement": "next_power_of_two(n) is the least power of two >= n, lcm is the least common multiple, and all integer divisions in create_n_to_m_balancer are exact.", "quantifier": "every input/output count", "why_tests_cant": "All numbers.", "anchors": ["factorio_sat/belt_balancer_net_free.py:next_power_of_two", "factorio_sat/belt_balancer_net_free.py:lcm", "factorio_sat/belt_balancer_net_free.py:create_n_to_m_balancer"]}
{"id": "C61", "title": "Enumeration shows every layout", "statement": "On a grid that does not wrap, Grid.itersolve with a truthful solver shows every layout that has a solution: two solutions that agree on the variables it blocks have the same tiles everywhere. [Refuted on wrapping grids: a ring of splitter halves can be paired in two ways and only one is shown.]", "quantifier": "every closed grid, every clause set including the grid's, every solver", "why_tests_cant": "All sizes, models and solvers.", "anchors": ["factorio_sat/solver.py:Grid.itersolve", "factorio_sat/template.py:BaseGrid.itersolve"]}
{"id": "C62", "title": "Boundary flags", "statement": "The is_input and is_output flags of a tile hold exactly when the tile takes items from, or gives items to, the outside of a closed grid. [Refuted for grids of width one: the right edge is overlooked.]", "quantifier": "every closed grid, every solution, every tile", "why_tests_cant": "All sizes and models.", "anchors": ["factorio_sat/solver.py:Grid.__init__"]}
{"id": "C63", "title": "Ends of a network", "statement": "get_input_output_colours returns a result exactly when one colour is consumed more than produced and one colour produced more than consumed, and it then returns those colours with their surplus; otherwise it fails.", "quantifier": "every network", "why_tests_cant": "All networks.", "anchors": ["factorio_sat/network.py:get_input_output_colours"]}
{"id": "C64", "title": "Exporting the cross table keeps the rest of the file", "statement": "export_crosstable keeps the text before the '# Balancers' heading, replaces the table after it, and exporting twice gives the same file as exporting once. [Refuted for a file whose last line is not terminated: the heading is glued to it and every export repeats the table.]", "quantifier": "every old file, every list of stores", "why_tests_cant": "All texts and databases.", "anchors": ["factorio_sat/calculate_optimal.py:export_crosstable"]}
{"id": "C65", "title": "Networks are listed in numeric order", "statement": "Queries and the cross table list every network once; names of the form AxB or A-B come first, ordered by A, then B as numbers, then the rest of the name; other names follow in alphabetical order.", "quantifier": "every list of network names", "why_tests_cant": "All names and lists.", "anchors": ["factorio_sat/calculate_optimal.py:NetworkSolutionStore.ordering_key", "factorio_sat/calculate_optimal.py:main"]}
{"id": "C66", "title": "Query results can be exported as blueprints", "statement": "query --export-blueprints should print a blueprint of every stored layout, built with the cheapest belts whose undergrounds are long enough. [Refuted: the level is passed as a string, and every layout with a belt, underground or splitter raises.]", "quantifier": "every stored layout, every underground length", "why_tests_cant": "All layouts and lengths.", "anchors": ["factorio_sat/calculate_optimal.py:get_belt_level", "factorio_sat/calculate_optimal.py:main", "factorio_sat/blueprint.py:make_blueprint"]}
{"id": "C67", "title": "Balancers found for balancing networks balance", "statement": "If the network given to create_balancer balances (for instance a Benes network written by the network command), then in every layout the program finds, in every steady flow, each place where items leave carries the same share of all that enters.", "quantifier": "every balancing network without missing belts, grid size, underground length, cardinality encoder and solution", "why_tests_cant": "All networks, sizes, models and rational flows.", "anchors": ["factorio_sat/belt_balancer.py:create_balancer", "factorio_sat/network.py:deduplicate_network"]}
{"id": "C68", "title": "Setting and preventing colours", "statement": "set_colour leaves exactly the solutions in which the tile has that colour and rejects colours and positions out of range; prevent_colour leaves exactly the solutions in which no tile and no tunnel has that colour (for colour 0, no tile that is not empty).", "quantifier": "every grid, colour, position and solution", "why_tests_cant": "All sizes and models.", "anchors": ["factorio_sat/solver.py:Grid.set_colour", "factorio_sat/solver.py:Grid.prevent_colour"]}
{"id": "C69", "title": "No balancer is lost", "statement": "Every valid belt layout of the rectangle that is the given network, with tunnels no longer than allowed, is found: it can be read off a solution of create_balancer with prevent_intersection and enforce_maximum_underground_length. For networks without missing belts the layouts read off solutions are exactly these, so that an unsatisfiable instance proves that there is no such balancer.", "quantifier": "every network, rectangle, underground length, truthful cardinality encoder and layout", "why_tests_cant": "All layouts of all sizes: that nothing is missed cannot be seen on what is found.", "anchors": ["factorio_sat/belt_balancer.py:create_balancer", "factorio_sat/solver.py:Grid.prevent_intersection", "factorio_sat/solver.py:Grid.enforce_maximum_underground_length"]}
{"id": "C70", "title": "Tunnel rules exclude exactly the tunnels that could be cheaper", "statement": "prevent_empty_along_underground excludes exactly the solutions with a tunnel under nothing but empty cells, prevent_mergeable_underground exactly those with two consecutive tunnels that fit in one, prevent_underground_hook exactly those with a line that turns back beside a tunnel's end, and expand_underground exactly those with a straight belt next to a tunnel that could reach over it within the given region.", "quantifier": "every grid, underground length, region inside the grid and solution", "why_tests_cant": "All sizes, lengths and models.", "anchors": ["factorio_sat/optimisations.py:prevent_empty_along_underground", "factorio_sat/optimisations.py:prevent_mergeable_underground", "factorio_sat/optimisations.py:prevent_underground_hook", "factorio_sat/optimisations.py:expand_underground"]}
{"id": "C71", "title": "Network-free balancers with different numbers of inputs and outputs", "statement": "In every solution of create_n_to_m_balancer with n inputs and m outputs the layout is valid, has n inlets on the left and m outlets on the right and splitters that halve; in every steady flow each outlet carries one m-th of what enters. [Proved when no splitter stands right behind another one without being connected to it in the solution; refuted without that condition, which the code does not enforce.]", "quantifier": "every grid size, underground length, numbers of inputs and outputs, and solution", "why_tests_cant": "All sizes, models and rational flows.", "anchors": ["factorio_sat/belt_balancer_net_free.py:create_n_to_m_balancer", "factorio_sat/belt_balancer_net_free.py:setup_balancer_ends"]}
{"id": "C72", "title": "Blocks are exactly the sealed layouts asked for", "statement": "The layouts found by make_block are exactly the valid layouts of the rectangle (or torus, with --tile) in which nothing crosses a closed border, without splitters, without empty tiles unless --allow-empty is given, without two-by-two loops, without tunnels under empty tiles only, with tunnels no longer than --underground-length; with --single-loop exactly those that are a single loop too. [Refuted for the length: without --single-loop it is ignored and 4 is used. For single loops on a torus see C73.]", "quantifier": "every accepted combination of arguments and every layout", "why_tests_cant": "All sizes and layouts: that nothing is missed cannot be seen on what is found.", "anchors": ["factorio_sat/make_block.py:main", "factorio_sat/make_block.py:ensure_loop_length"]}
{"id": "C73", "title": "No single loop is lost", "statement": "Every block of a closed rectangle that is a single loop is found by make_block --single-loop. [Refuted with --tile: a loop that enters the corner across the border is lost unless the number of tiles is a power of two, for example the ring of three belts.]", "quantifier": "every size and every layout that is a block and a single loop", "why_tests_cant": "All sizes and layouts.", "anchors": ["factorio_sat/make_block.py:ensure_loop_length"]}
{"id": "C74", "title": "Accepted arguments of make_block", "statement": "make_block raises exactly if a size is not positive, the length is negative, --allow-empty is combined with --single-loop, a tileable single loop has one tile, or --no-parallel is given for anything but a single closed tile. [So --no-parallel never works: it raises on every block of more than one tile.]", "quantifier": "every combination of arguments", "why_tests_cant": "All sizes and options.", "anchors": ["factorio_sat/make_block.py:main", "factorio_sat/make_block.py:prevent_parallel"]}
{"id": "C75", "title": "Every block is printed once", "statement": "make_block --all with a truthful solver prints every layout that its clauses describe exactly once, also on a torus, and nothing else.", "quantifier": "every accepted combination of arguments, every truthful solver", "why_tests_cant": "All sizes, models and solvers.", "anchors": ["factorio_sat/make_block.py:main", "factorio_sat/solver.py:Grid.itersolve"]}
{"id": "C76", "title": "Rotating a balancer keeps it a balancer", "statement": "rotate.py applied to a layout gives a layout of the same network of splitters, on the turned rectangle, that balances exactly when the original does.", "quantifier": "every readable layout, operation, network and tunnel length", "why_tests_cant": "All layouts, networks and flows.", "anchors": ["factorio_sat/rotate.py:main"]}
{"id": "C77", "title": "Edge splitters stand at the edge", "statement": "The balancers found with --edge-splitters are exactly those whose splitters fed by the inputs alone stand in the second column facing right, and whose splitters feeding the outputs alone stand in the last but one column facing right; if belts go back to the inputs (from the outputs), all but as many as belts go back stand there. [Hence lossy: a splitter between inputs and outputs has to be in both columns, so on any grid not three cells wide nothing is found.]", "quantifier": "every network without missing belts, grid size, underground length and layout", "why_tests_cant": "All networks, sizes and layouts: that nothing else is lost cannot be seen on what is found.", "anchors": ["factorio_sat/belt_balancer.py:enforce_edge_splitters"]}
{"id": "C78", "title": "No parallel belts at the edge", "statement": "--edge-belts excludes exactly the solutions in which two vertically adjacent cells of the second or of the last but one column are both straight belts to the right, and the call raises exactly on a grid of one column and several rows.", "quantifier": "every grid and solution", "why_tests_cant": "All sizes and models.", "anchors": ["factorio_sat/belt_balancer.py:prevent_double_edge_belts"]}
{"id": "C79", "title": "Power-of-two balancers: valid layouts with every row in use", "statement": "In every solution of the power-of-two program the layout is valid, items enter at every cell of the first column and leave at every cell of the last column and nowhere else, and all four sides of every splitter are connected.", "quantifier": "every grid size, underground length, truthful cardinality encoder and solution", "why_tests_cant": "All sizes and models.", "anchors": ["factorio_sat/belt_balancer_net_free_power_of_2.py:create_balancer", "factorio_sat/belt_balancer_net_free_power_of_2.py:main"]}
{"id": "C80", "title": "Power-of-two balancers balance between two columns of splitters", "statement": "With the first and last column of splitters that the program leaves out, every layout it finds is a valid layout in which, in every steady flow, every output carries the same share of all that enters; the colours of a solution are the sets of input pairs that reach a tile.", "quantifier": "every grid size, underground length, truthful cardinality encoder, solution and rational flow", "why_tests_cant": "All sizes, models and flows.", "anchors": ["factorio_sat/belt_balancer_net_free_power_of_2.py:create_balancer", "factorio_sat/belt_balancer_net_free_power_of_2.py:main"]}
{"id": "C81", "title": "Sizes and numbers of splitters of power-of-two balancers", "statement": "The program builds its clauses for the powers of two from 2 on and raises for every other size; there are solutions for sizes from 4 on only, and each has size/2 times (log2 size - 2) splitters.", "quantifier": "every grid size, underground length, truthful cardinality encoder and solution", "why_tests_cant": "All sizes and models.", "anchors": ["factorio_sat/belt_balancer_net_free_power_of_2.py:create_balancer", "factorio_sat/belt_balancer_net_free_power_of_2.py:main"]}
{"id": "C82", "title": "Interchanges mix the two halves", "statement": "In every solution of the interchange program the layout is valid and has no splitters, items enter at every cell of the first column and leave at every cell of the last one and nowhere else, each pair of outputs gets one line from the upper and one from the lower half of the inputs (in that order with --alternating), and the layout has none of the excluded wasteful patterns (and is its own reverse when turned, with --rot-symmetry). The program raises on grids without columns, rows or with an odd number of rows, and builds its clauses on all others up to eight times as high as wide.", "quantifier": "every grid size, underground length, combination of options, cardinality encoder and solution", "why_tests_cant": "All sizes, options and models.", "anchors": ["factorio_sat/interchange.py:main", "factorio_sat/interchange.py:prevent_passing", "factorio_sat/interchange.py:prevent_awkward_underground_entry", "factorio_sat/interchange.py:require_rotational_symmetry"]}
{"id": "C83", "title": "No interchange is lost", "statement": "The layouts found by the interchange program are exactly the interchanges (C82) of the given size that have none of the excluded patterns.", "quantifier": "every grid size, underground length from 1 on, combination of options, truthful cardinality encoder and layout", "why_tests_cant": "All sizes and layouts: that nothing is missed cannot be seen on what is found.", "anchors": ["factorio_sat/interchange.py:main"]}
{"id": "C84", "title": "Counting the lines through cuts changes nothing", "statement": "The clauses on the numbers of lines of each colour that cross the cuts between rows and columns exclude no solution: every assignment that satisfies the other clauses satisfies them once their own variables are chosen. Between the pairs k and k + 1 of n pairs of rows at least min(k + 1, n - 1 - k) lines are asked for.", "quantifier": "every grid size, underground length, combination of options, truthful cardinality encoder and assignment", "why_tests_cant": "All sizes and models.", "anchors": ["factorio_sat/interchange.py:require_correct_transport_through_edges", "factorio_sat/interchange.py:create_edge", "factorio_sat/interchange.py:flow_counts"]}
{"id": "C85", "title": "Each interchange is printed once", "statement": "With --all and a truthful solver the interchange program prints every interchange without the excluded patterns exactly once, nothing else, and then ends.", "quantifier": "every grid size, underground length from 1 on, combination of options, truthful solver and cardinality encoder", "why_tests_cant": "All sizes and all histories of solver answers.", "anchors": ["factorio_sat/interchange.py:main", "factorio_sat/solver.py:Grid.itersolve"]}
{"id": "C86", "title": "What the two splitter patterns exclude", "statement": "In layouts in which every tile hands its items on, the clauses against belts beside a splitter exclude exactly the belts that run up to a splitter beside a tile that leads to it (whichever way the splitter faces), and the clauses against partial splitters exclude exactly the splitters with one half in use that could stand one cell further on; for networks without missing belts every tile hands its items on and no such splitter exists.", "quantifier": "every grid, solution and layout", "why_tests_cant": "All sizes and models.", "anchors": ["factorio_sat/optimisations.py:prevent_belt_parallel_splitter", "factorio_sat/optimisations.py:glue_partial_splitters"]}
{"id": "C87", "title": "A partial layout is kept and nothing else is asked", "statement": "With --partial the layouts found are those that have the given tiles wherever the given layout is not empty; a non-empty tile outside the grid or of a kind that is not a belt, underground or splitter raises.", "quantifier": "every grid, given layout, solution and layout", "why_tests_cant": "All sizes, given layouts and models.", "anchors": ["factorio_sat/belt_balancer.py:set_nonempty_tiles", "factorio_sat/belt_balancer.py:main"]}
{"id": "C88", "title": "All options of the belt balancer together", "statement": "For a network none of whose belts is missing and any combination of options, the layouts that the belt balancer can print are exactly the valid layouts that are the network and have what each of the given options asks for on its own, --fast standing for six of them; options never add a layout, for any network, and with a network that balances every layout printed balances.", "quantifier": "every network, grid size, combination of options, given partial layout, truthful cardinality encoder and layout", "why_tests_cant": "All options interact through one formula: that no combination loses or adds layouts needs all models.", "anchors": ["factorio_sat/belt_balancer.py:main"]}
{"id": "C89", "title": "Each balancer is printed once", "statement": "With --all and a truthful solver the belt balancer prints, for a network none of whose belts is missing and any combination of options, every layout that is wanted (C88) exactly once, nothing else, and then ends.", "quantifier": "every network, grid size, combination of options, truthful solver and cardinality encoder", "why_tests_cant": "All sizes and all histories of solver answers.", "anchors": ["factorio_sat/belt_balancer.py:main", "factorio_sat/solver.py:Grid.itersolve"]}
{"id": "C90", "title": "When the belt balancer starts", "statement": "The belt balancer raises if options contradict each other, the tunnel length is neither -1 nor positive, the network has no ends or a splitter with two belts missing, an edge is too short for its ends, --edge-belts is used on one column of several rows, --break-symmetry on one row, or a given tile cannot be placed; otherwise it starts its solver whenever there is room for the splitters.", "quantifier": "every network, grid size, combination of options and truthful cardinality encoder", "why_tests_cant": "All networks, sizes and options.", "anchors": ["factorio_sat/belt_balancer.py:main", "factorio_sat/belt_balancer.py:create_balancer", "factorio_sat/belt_balancer.py:setup_balancer_ends"]}
{"id": "C91", "title": "Exactly which layouts the power-of-two program prints", "statement": "The layouts that the power-of-two program can print are exactly those between the two columns that have the form described in C79 (rows grouped in pairs, fours, ... by the splitters), none of the patterns the program avoids and the tiles given with --partial; every layout of that form balances between two columns of splitters; the program starts its solver exactly for a positive width, a size that is a power of two above one, a tunnel length of -1 or above zero and given tiles that can be placed.", "quantifier": "every width, size, tunnel length, given partial layout, truthful cardinality encoder and layout", "why_tests_cant": "All sizes and models.", "anchors": ["factorio_sat/belt_balancer_net_free_power_of_2.py:main", "factorio_sat/belt_balancer_net_free_power_of_2.py:create_balancer", "factorio_sat/belt_balancer.py:set_nonempty_tiles"]}
{"id": "C92", "title": "Each power-of-two layout is printed once", "statement": "With --all and a truthful solver the power-of-two program prints every layout of C91 exactly once, nothing else, and then ends.", "quantifier": "every width, size, tunnel length, given partial layout, truthful solver and cardinality encoder", "why_tests_cant": "All sizes and all histories of solver answers.", "anchors": ["factorio_sat/belt_balancer_net_free_power_of_2.py:main", "factorio_sat/solver.py:Grid.itersolve"]}
{"id": "C93", "title": "--partial of the interchange program", "statement": "With --partial the layouts that the interchange program can print are exactly the interchanges of C82 and C83 that have the given tiles wherever the given layout is not empty; with --all and a truthful solver each of them is printed exactly once and nothing else; a given non-empty tile outside the grid, or of a kind that is not a belt, underground or splitter, raises.", "quantifier": "every size, tunnel length, option, given layout, truthful solver and cardinality encoder", "why_tests_cant": "All sizes, given layouts, models and histories of solver answers.", "anchors": ["factorio_sat/interchange.py:main", "factorio_sat/belt_balancer.py:set_nonempty_tiles", "factorio_sat/solver.py:Grid.itersolve"]}
{"id": "C94", "title": "The free balancer program prints exactly the layouts whose flows can be measured", "statement": "For as many outputs as inputs, the layouts that the free balancer program can print are exactly those that have n straight belts side by side in and out (aligned if asked), whose belts can be labelled with whole-number flows that lines keep, that splitters share out evenly and that leave in equal parts of each input, that have none of the patterns the program avoids and that contain the tiles of --partial; every layout of that form balances.  The solver is started exactly for positive sizes and numbers of belts, not for a column of one tile width and several rows, and for a tunnel length of -1 or at least 1; other arguments raise.", "quantifier": "every width, height, tunnel length, number of belts, option, given layout and layout", "why_tests_cant": "All sizes and models.", "anchors": ["factorio_sat/belt_balancer_net_free.py:main", "factorio_sat/belt_balancer_net_free.py:create_n_to_n_balancer", "factorio_sat/belt_balancer_net_free.py:setup_balancer_ends"]}
{"id": "C95", "title": "Each free balancer is printed once", "statement": "With --all and a truthful solver, for as many outputs as inputs, the free balancer program prints every layout of C94 exactly once, nothing else, and then ends.", "quantifier": "every width, height, tunnel length, number of belts, option, given layout and truthful solver", "why_tests_cant": "All sizes and all histories of solver answers.", "anchors": ["factorio_sat/belt_balancer_net_free.py:main", "factorio_sat/solver.py:Grid.itersolve"]}
{"id": "C96", "title": "The network read out of a layout is the network of the layout", "statement": "Reading a network out of a valid layout of belts (the parse command) gives one splitter for each splitter of the layout and, on each side of its two halves, the name of the line there: 0 where the line comes from the border, j + 1 where it comes from splitter j, one more than the number of splitters where it leaves, nothing where no line is; so two places have the same inner name only if the lines there start at the same splitter.", "quantifier": "every width, height, valid layout, tunnel length, setting of --assume-valid-output and order in which Python iterates a set", "why_tests_cant": "All layouts of all sizes.", "anchors": ["factorio_sat/network.py:parse_network"]}
{"id": "C97", "title": "Which layouts can be read as networks", "statement": "Reading a network out of a valid layout raises exactly when there is an empty tile right before or behind half a splitter, or when the line of a tunnel whose entrance lies in the top row is met first, column by column from the top, at a tile behind that tunnel; so with no tunnel entrance in the top row only the empty tiles matter.", "quantifier": "every width, height, valid layout and iteration order", "why_tests_cant": "All layouts of all sizes.", "anchors": ["factorio_sat/network.py:parse_network"]}
{"id": "C98", "title": "The network read balances exactly when the layout does", "statement": "If no line runs past all splitters, the network that the parse command prints for a layout has as many inputs and outputs as the layout, the layout is built as this network says, and, no belt being missing, the network balances if and only if the layout balances.", "quantifier": "every width, height, valid layout, tunnel length, setting of --assume-valid-output and iteration order", "why_tests_cant": "All layouts, wirings and flows.", "anchors": ["factorio_sat/network.py:parse_network", "factorio_sat/network.py:tidy_network", "factorio_sat/network.py:get_input_output_colours"]}
{"id": "C99", "title": "Printed balancers are read back", "statement": "A layout printed by the belt balancer program for a network without missing belts is read back by `network parse --assume-valid-output` as a network without missing belts that has as many splitters, inputs and outputs; if the network given was a balancer then the network read is a balancer. So what `network create`, `belt_balancer` and `network parse` give one after the other is again a balancer of the same size. The only exception is the tunnel in the top row of C97.", "quantifier": "all networks without missing belts, sizes of the grid, options of the program, solutions, and orders of Python's sets", "why_tests_cant": "The programs meet only through files; the number of networks, layouts and set orders is unbounded.", "anchors": ["factorio_sat/network.py:parse_network", "factorio_sat/network.py:tidy_network", "factorio_sat/network.py:create_benes_network", "factorio_sat/belt_balancer.py:main"]}
{"id": "C100", "title": "Renumbered colours are the cheapest", "statement": "The cost of a network's colours is the number of binary digits in which the colours of two belts on one side of a splitter differ, added up over the sides with a belt inside the network. optimise_colours gives the belts other colours, different belts different ones, only if the cost gets less; and no numbering of the colours from 0 on costs less than what it returns. It raises exactly when a counted side has two belts of one colour, when fewer than two digits are counted, when the cost to begin with does not fit into the counter, or when only one side counts and its colours differ in more than one digit.", "quantifier": "every network of non-negative colours, truthful solver and order of Python's sets", "why_tests_cant": "The claim compares the result with all numberings of networks of any size, and the loop runs over any history of solver answers.", "anchors": ["factorio_sat/network.py:optimise_colours", "factorio_sat/network.py:calculate_cost", "factorio_sat/network.py:pop_count"]}
{"id": "C101", "title": "The size of a network counts its ends", "statement": "calculate_network_size gives the number of colours that only enter splitters and the number of those that only leave them.", "quantifier": "every network", "why_tests_cant": "All networks.", "anchors": ["factorio_sat/network.py:calculate_network_size"]}
{"id": "C102", "title": "Simplified networks do the same", "statement": "simplify ends on every network. If each colour is one belt and every splitter has an input and an output, then every steady flow of the network it is given is one of the network it returns and the other way round, as far as the belts from and to the outside can tell; it returns no more splitters, none with one input and one output, no two in a row that share both belts, and with allow_bottleneck none that share both sources or both drains. On networks without gaps it raises nothing. It raises when a splitter with one output is followed by one with that input only, and when one colour stands for two belts of one side.", "quantifier": "every network, order of Python's sets, both values of the flag", "why_tests_cant": "The loop rewrites networks of any size until nothing applies, and the claim compares all flows.", "anchors": ["factorio_sat/network.py:simplify", "factorio_sat/network.py:remap_colours"]}
{"id": "C103", "title": "Cells in the older formats", "statement": "read_tile should read a cell in one of the older formats (directions as numbers at the top level) as the tile it describes. In fact every belt so described makes it raise, and blueprint encode raises on every layout of such cells with a tile other than an empty one or the second half of a splitter, and gives no entity for any other; in a layout of cells of both formats the entities are those of the cells of the present format alone. Layouts of valid tiles in the present format are encoded as they are. Machines with coordinates outside 0 to 2 make read_tile raise.", "quantifier": "every layout and every record in one of the formats", "why_tests_cant": "All records, of which there are unboundedly many, and layouts of all sizes.", "anchors": ["factorio_sat/blueprint.py:read_tile", "factorio_sat/blueprint.py:make_blueprint", "factorio_sat/tile.py:Belt"]}
{"id": "C104", "title": "Rendered colours tell colours apart", "statement": "create_palette(n) gives n colours, all different, none dark and none the grey of cells without colour, in exact arithmetic. So in a rendered layout every cell and tunnel can be painted, and two are painted alike exactly when their colours are equal. With --colour-count k this holds, also between layouts, when the colours are numbers below k; but k is only compared with the number of colours, so a layout of two colours can be refused for every k.", "quantifier": "every number of colours, every layout, every colour value", "why_tests_cant": "All numbers of colours and layouts of all sizes.", "anchors": ["factorio_sat/render.py:create_palette", "factorio_sat/render.py:HSVtoRGB", "factorio_sat/render.py:render_solution"]}
{"id": "C105", "title": "The picture of a cell tells its tile", "statement": "render_tile draws every valid tile at every time of the animation, except inserters of kinds other than 0 and 1; two valid tiles whose pictures are alike at some time are the same tile, or neither is drawn. Every drawing is the frame of that time of its image, the frames being counted row by row, and both halves of a splitter show the same one.", "quantifier": "every pair of valid tiles and every time of the animation", "why_tests_cant": "All pairs of tiles and times.", "anchors": ["factorio_sat/render.py:render_tile"]}
{"id": "C106", "title": "Animations close, image entries do not overlap", "statement": "For a layout of belts, tunnels and splitters the picture after the last one of the animation is the first one; with a machine and no splitter it is not. Tilemap.render draws a part inside of the image for every entry, rows counted from above, and different entries share no point inside.", "quantifier": "every layout, time, size of an image and pair of entries", "why_tests_cant": "All layouts, times and image sizes.", "anchors": ["factorio_sat/render.py:get_animation_length", "factorio_sat/tilemaps.py:Tilemap"]}
{"id": "C107", "title": "--show-raw shows the value under a path", "statement": "render --show-raw with a path of names shows the value that the path leads to. With a number in the path it should show an element of a list; it raises instead, for every cell.", "quantifier": "every cell and path", "why_tests_cant": "All cells and paths.", "anchors": ["factorio_sat/render.py:render_attributes"]}
{"id": "C108", "title": "The renderer saves whole videos of single layouts", "statement": "Whatever keys are pressed and when, the render program shows pictures of the layout that the keys have led to, at the time of the animation that it is; every video it saves has all pictures of one layout in order, with the number of that layout for a name. i leads to the next layout, from the last to the first, and k to the one before, from the first to the last one read. With --export-all it ends by itself and has then saved one video of each layout of the input, in order, unless the window is closed before.", "quantifier": "every input and every history of key presses and rounds of the loop", "why_tests_cant": "Unboundedly many histories; the cache of pictures and the reading of lines on demand depend on all of it.", "anchors": ["factorio_sat/render.py:main", "factorio_sat/render.py:increment_solution"]}
{"id": "C109", "title": "Balancers found without a network are read as balancers", "statement": "Every layout that belt_balancer_net_free prints for n inputs and n outputs, n at least 2, is read by network parse, unless the line of a tunnel that starts in the top row is found behind that tunnel. The network it prints misses no belt, has n inputs and n outputs and balances. The same holds of every layout that belt_balancer_net_free_power_of_2 prints, between its two columns of splitters; the network then has n/2 times log2 n splitters.", "quantifier": "every width, height, underground length, number of inputs and solution of the solver, every order in which sets are traversed", "why_tests_cant": "All sizes and all solutions of the solver; the round trip goes through two programs.", "anchors": ["factorio_sat/belt_balancer_net_free.py:main", "factorio_sat/belt_balancer_net_free_power_of_2.py:main", "factorio_sat/network.py:parse_network"]}
{"id": "C110", "title": "A size is called impossible only if it is", "statement": "For every network without missing belts and every size that a search for optimal balancers asks about, solve_balancer returns and tells the truth, provided the SAT solver does: what it returns is a layout of that size that is the network, with no tunnel longer than allowed, its ends opposite each other, the splitters at the edges in the columns next to them and none of the patterns excluded by --fast; if it returns nothing then there is no such layout. A size with more room can be impossible although a smaller one is possible.", "quantifier": "every network, size, objective and solver that tells the truth", "why_tests_cant": "All networks and sizes; that there is no layout is a statement about all layouts.", "anchors": ["factorio_sat/calculate_optimal.py:solve_balancer", "factorio_sat/optimisations.py:apply_generic_optimisations", "factorio_sat/belt_balancer.py:enforce_edge_splitters"]}
{"id": "C111", "title": "The search finds optimal balancers, from the clauses to the query", "statement": "calculate_optimal compute never raises on networks without missing belts, whatever the order in which the answers arrive. If every network has a layout of some size that is searched then it ends after a bounded number of answers; but it need not end otherwise, and the search for the shortest balancer never ends for a network of one input and one output, since it looks at a single row only. When it has ended, query prints for every network a layout of that network of the kind that solve_balancer returns, and there is no such layout of a better size among all the sizes with room for the ends and the splitters.", "quantifier": "every list of networks, objective, underground length, database from earlier searches with that length and order of the answers", "why_tests_cant": "Unboundedly many networks, schedules and layouts.", "anchors": ["factorio_sat/calculate_optimal.py:main", "factorio_sat/calculate_optimal.py:solve_balancer", "factorio_sat/calculate_optimal.py:NetworkSolutionStore"]}
{"id": "C112", "title": "The drawing of a network shows its belts", "statement": "network render draws a graph from which one can see, for every two splitters and every colour, whether a belt of that colour leads from the one to the other; where the inputs lead to and where the outputs come from. In fact how many belts a splitter has of a colour is not shown, so networks with different numbers of inputs give the same drawing, and the inputs (outputs) are shown to lead nowhere when their colour is made by one splitter only and taken by one splitter only. It raises exactly when the network has no inputs or outputs.", "quantifier": "every network, every order in which sets are traversed", "why_tests_cant": "All networks.", "anchors": ["factorio_sat/network.py:plot"]}
{"id": "C113", "title": "Shrinking of tunnels excludes tunnels over empty cells at their ends", "statement": "Added to the clauses of a grid, shrink_underground excludes exactly the layouts in which the cell after the entrance of a tunnel or the cell before its exit is empty, whatever the direction and also across the border of grids that wrap around. It contradicts expand_underground: a tunnel next to a straight belt is excluded by the one, and its extension over that cell by the other.", "quantifier": "every grid and every solution of its clauses", "why_tests_cant": "All grids and all their layouts.", "anchors": ["factorio_sat/optimisations.py:shrink_underground"]}
{"id": "C114", "title": "With different numbers of inputs and outputs, every layout with shares is found", "statement": "For different numbers n and m of inputs and outputs belt_balancer_net_free finds, in solutions that connect splitters which face the back of another splitter, exactly the layouts with n straight belts in and m out whose belts can be labelled with how much they carry of each input and how much of what they carry goes to each output, in whole parts of a belt: lines keep these numbers, splitters share the first forwards and the second backwards, at most one side of a splitter is unused, and every output gets the same of each input; with none of the patterns it avoids and with the tiles of --partial. With --all each of them is printed, and just once where no splitter faces the back of another one. All of them share what they get equally.", "quantifier": "every width, height, underground length, pair of different numbers of inputs and outputs, partial solution and solver that tells the truth", "why_tests_cant": "All sizes and layouts; that no layout is missed is a statement about all layouts.", "anchors": ["factorio_sat/belt_balancer_net_free.py:main", "factorio_sat/belt_balancer_net_free.py:create_n_to_m_balancer", "factorio_sat/belt_balancer_net_free.py:setup_balancer_ends"]}
{"id": "C115", "title": "Tables of the game are read as what they say", "statement": "The reading of a data file of the game takes the file if it is one call data:extend of a table of constants, nested in any way with names or numbers for keys, and raises otherwise. A table whose keys are the numbers from 1 to n is read as the list of their values, in this order, and every other table as the dictionary of its keys and values; the last value of a key counts.", "quantifier": "every file and table, nested to any depth", "why_tests_cant": "All tables, to any depth.", "anchors": ["factorio_sat/assets/fetch.py:decode_lua_data"]}
{"id": "C116", "title": "The recipes fetched are those of the game", "statement": "The files with the normal and the expensive recipes have one recipe for each entry that is crafted without fluids, in order, with its ingredients and results, and with the time it takes for that difficulty: that of the table of the difficulty, else that of the entry, else half a second. The table is that of the difficulty if there is one, else the entry itself, else the one of the normal difficulty. In fact the time of that last table is not looked at, so the expensive recipe has a wrong time.", "quantifier": "every list of files and entries", "why_tests_cant": "All lists of entries with all combinations of fields.", "anchors": ["factorio_sat/assets/fetch.py:get_recipes_for_variant", "factorio_sat/assets/fetch.py:fetch_recipes"]}
{"id": "C117", "title": "The cross table shows every recorded result", "statement": "The part that export_crosstable writes for a network reads as a Markdown table: its title is the name of the network, its columns are the widths from 1 to the largest recorded one without the two columns of the ends, its rows the heights from the number of inputs or outputs to the largest recorded one, and the entry of each width and height is the mark of that size. So every recorded result can be looked up; the marks are told apart; networks without results have no part; the parts come in the order of the networks.", "quantifier": "every database and every old file", "why_tests_cant": "All databases, whose sizes are not bounded.", "anchors": ["factorio_sat/calculate_optimal.py:export_crosstable"]}
{"id": "C118", "title": "Functions in a tile's template stand for values of its own fields", "statement": "A template may have functions among its entries. The tile that is made has, in the field of a function, the value of the function at the fields of the same tile that its parameters name, be they members or functions before it; a function that takes everything gets all of those. The functions take no variables: the tile has the variables that it has without them, and what is read from a solution does not have them. A tile is made when the parameters are there and the names are good; it fails when a function has another local variable with the name of a member, or an entry has a name no field can have. In the belt solver the two functions give the five kinds and the eight directions, for every number of colours and all extras with names of their own.", "quantifier": "every template, nested to any depth, and every function", "why_tests_cant": "All templates, to any depth, with any functions.", "anchors": ["factorio_sat/template.py:CompositeTemplate", "factorio_sat/template.py:call_ignoring_unused", "factorio_sat/solver.py:Grid"]}
{"id": "C119", "title": "Every document is read back from its json text", "statement": "The json text of a document, of whatever nesting, with any strings among its keys and values, negative numbers and halves, is read back as the same document. It is one line of printable characters. Whatever text is read, no dictionary in the result has a key twice.", "quantifier": "every document and every text", "why_tests_cant": "All documents, to any depth and with any characters.", "anchors": ["factorio_sat/blueprint.py:encode_blueprint", "factorio_sat/blueprint.py:decode_blueprint"]}
{"id": "C120", "title": "Blueprint strings carry the layout", "statement": "decode_blueprint of the string of encode_blueprint is the document that was encoded, provided that zlib decompresses what it has compressed; different documents have different strings. A string is the digit 0 and letters, digits and the signs + / =. Blanks and line ends pasted into it after the 0 change nothing, and strings that do not start with 0 are refused, also when only a blank precedes; so is a string that was cut off, unless its length is one more than a multiple of four. So a layout written as a blueprint string is imported from the string as it is from its entities, and the string carries the label, if one is given.", "quantifier": "every document, layout, label, level of belts and inserted characters", "why_tests_cant": "All documents and layouts.", "anchors": ["factorio_sat/blueprint.py:encode_blueprint", "factorio_sat/blueprint.py:decode_blueprint", "factorio_sat/blueprint.py:make_blueprint", "factorio_sat/blueprint.py:import_blueprint"]}
{"id": "C121", "title": "The program for books unpacks what it packed", "statement": "blueprint_book pack, given lines that are strings of dictionaries, prints a line from which blueprint_book unpack prints as many lines, in the same order, each of a dictionary with the same fields, save that index is its place. Packing these lines again with the same label prints the same line. The book has the label, if one is given. pack raises just if a line is not the string of a dictionary.", "quantifier": "every list of lines and label", "why_tests_cant": "All lists of lines.", "anchors": ["factorio_sat/blueprint_book.py:main", "factorio_sat/blueprint_book.py:pack_book", "factorio_sat/blueprint_book.py:unpack_book"]}
{"id": "C122", "title": "An imported blueprint has every entity in its place", "statement": "If the entities of a blueprint do not stand on each other and import_blueprint does not raise, there is a corner such that every entity is in the grid at its place relative to the corner: belts, ends of undergrounds, both halves of splitters with the head to the right, inserters with their reach and facing, chests, and the nine parts of assembling machines around the centre. All other cells are empty, each border of the grid touches an entity, and a belt bends just if exactly one neighbour feeds it. An entity with an unknown name, or an underground without type, makes the import raise.", "quantifier": "every list of entities at any positions", "why_tests_cant": "All lists of entities.", "anchors": ["factorio_sat/blueprint.py:import_blueprint", "factorio_sat/blueprint.py:resolve_belt_input_directions"]}
{"id": "C123", "title": "Pictures of things of several cells have no gaps", "statement": "At every time of the animation, what render draws for a machine covers the whole square of its nine cells; its nine parts show together the whole entry of its image for that time, parts further right what is further right and parts further down what is further down. What is drawn for the two halves of a splitter covers both of its cells, in every direction; what is drawn for a belt or the end of a tunnel covers its cell.", "quantifier": "every time, position and point", "why_tests_cant": "All times, positions and points.", "anchors": ["factorio_sat/render.py:render_tile", "factorio_sat/tilemaps.py:Tilemap.render", "factorio_sat/tilemaps.py:init"]}
{"id": "C124", "title": "Texts in pictures fit their cells", "statement": "When render shows attributes of the cells as text, every line lies within the cell it belongs to, the lines of a cell are below each other in order without overlap, and all lines are scaled by the same factor, the largest that fits: a line is as wide as its cell or the lines of a cell are together as high as it. With at least one line per cell nothing is left out, unless no line has a width or no line has a height.", "quantifier": "every grid of cells, every number of lines and every size of lines", "why_tests_cant": "All grids and sizes of lines.", "anchors": ["factorio_sat/render.py:render_attributes"]}
{"id": "C125", "title": "The profile of clauses accounts for every clause", "statement": "A list that traces its additions holds what an ordinary list would after the same additions. Its profile has every place that added to the list exactly once, with the number of elements added there, largest number first; the numbers sum up to the length of the list (which started empty).", "quantifier": "every sequence of additions of one or several elements from any places", "why_tests_cant": "All sequences of additions.", "anchors": ["factorio_sat/util.py:StackTracingList", "factorio_sat/util.py:get_stack"]}
{"id": "C126", "title": "Attributes shown as text are those that were named", "statement": "When render is asked to show an attribute, by a name of pieces separated by dots, the text of each cell is that of the entry of the cell at that path, or null if the last piece names no entry. (This holds for names without numbers; a name with the index of an element of a list makes the program fail, as the index is looked up in the whole cell.)", "quantifier": "every cell, every name", "why_tests_cant": "All cells and names.", "anchors": ["factorio_sat/render.py:render_attributes", "factorio_sat/render.py:main"]}
{"id": "C127", "title": "The lines of the grid are the borders of the cells", "statement": "The grid that render draws has a line over the whole view for every border of cells within the view but for the right and the lower end of the view, each once; other than these there is at most a line less than one cell to the left of or above the view.", "quantifier": "every view, with any rational bounds", "why_tests_cant": "All views.", "anchors": ["factorio_sat/render.py:render_grid"]}
