{
 "claims": [
  {
   "property": "C01",
   "status": "proved",
   "theorems": [
    "C01_literals_same",
    "C01_literals_different",
    "C01_implies",
    "C01_set_literal",
    "C01_set_all_false",
    "C01_set_all_true",
    "C01_invert_components"
   ],
   "note": ""
  },
  {
   "property": "C02",
   "status": "proved",
   "theorems": [
    "C02_set_number",
    "C02_set_not_number"
   ],
   "note": ""
  },
  {
   "property": "C03",
   "status": "proved",
   "theorems": [
    "C03_set_numbers"
   ],
   "note": ""
  },
  {
   "property": "C04",
   "status": "proved",
   "theorems": [
    "C04_set_numbers_equal"
   ],
   "note": ""
  },
  {
   "property": "C05",
   "status": "proved",
   "theorems": [
    "C05_set_maximum"
   ],
   "note": ""
  },
  {
   "property": "C06",
   "status": "proved",
   "theorems": [
    "C06_add_numbers_wide",
    "C06_add_numbers_no_overflow",
    "C06_add_numbers_overflow",
    "C06_add_numbers_fixed_allocator"
   ],
   "note": ""
  },
  {
   "property": "C07",
   "status": "proved",
   "theorems": [
    "C07_sum_numbers"
   ],
   "note": ""
  },
  {
   "property": "C08",
   "status": "proved",
   "theorems": [
    "C08_increment_number"
   ],
   "note": ""
  },
  {
   "property": "C09",
   "status": "proved",
   "theorems": [
    "C09_get_popcount"
   ],
   "note": ""
  },
  {
   "property": "C10",
   "status": "proved",
   "theorems": [
    "C10_invert_number"
   ],
   "note": ""
  },
  {
   "property": "C11",
   "status": "proved",
   "theorems": [
    "C11_read_get_bits",
    "C11_get_bits_read",
    "C11_read_number_value",
    "C11_read_signed"
   ],
   "note": ""
  },
  {
   "property": "C12",
   "status": "proved",
   "theorems": [
    "C12_break_symmetry",
    "C12_one_of_each_pair"
   ],
   "note": ""
  },
  {
   "property": "C13",
   "status": "proved",
   "theorems": [
    "C13_quadratic_amo",
    "C13_quadratic_one",
    "C13_heule_amo",
    "C13_heule_one",
    "C13_logarithmic_one"
   ],
   "note": ""
  },
  {
   "property": "C14",
   "status": "proved",
   "theorems": [
    "C14_logarithmic_amo_is_exactly_one",
    "C14_logarithmic_amo_refuted"
   ],
   "note": "The at-most-one claim is false of the code: the theorem shows logarithmic_amo encodes exactly-one and loses the all-false assignment for every non-empty list of variables."
  },
  {
   "property": "C15",
   "status": "proved",
   "theorems": [
    "C15_vectors",
    "C15_group",
    "C15_factorio"
   ],
   "note": ""
  },
  {
   "property": "C16",
   "status": "proved",
   "theorems": [
    "C16_read_write",
    "C16_write_injective",
    "C16_read_valid"
   ],
   "note": ""
  },
  {
   "property": "C17",
   "status": "proved",
   "theorems": [
    "C17_turns",
    "C17_flips",
    "C17_total"
   ],
   "note": ""
  },
  {
   "property": "C18",
   "status": "proved",
   "theorems": [
    "C18_valid_layout",
    "C18_feeds"
   ],
   "note": ""
  },
  {
   "property": "C19",
   "status": "proved",
   "theorems": [
    "C19_machine_refuted"
   ],
   "note": "Refuted: for every grid, every machine in it and every operation except no_op, the nine image cells never form a machine."
  },
  {
   "property": "C20",
   "status": "proved",
   "theorems": [
    "C20_round_trip",
    "C20_injective",
    "C20_stream",
    "C20_indented",
    "C20_decode_faithful",
    "C20_undrawable_rejected"
   ],
   "note": ""
  },
  {
   "property": "C21",
   "status": "proved",
   "theorems": [
    "C21_round_trip",
    "C21_identity",
    "C21_valid_layouts"
   ],
   "note": ""
  },
  {
   "property": "C22",
   "status": "proved",
   "theorems": [
    "C22_entities",
    "C22_machines_raise"
   ],
   "note": ""
  },
  {
   "property": "C23",
   "status": "proved",
   "theorems": [
    "C23_facing_refuted",
    "C23_accepts"
   ],
   "note": "Refuted: two facing belts, at any position, level and direction, are rejected; C23_accepts proves that facing belts are the only obstacle among belt blueprints."
  },
  {
   "property": "C24",
   "status": "proved",
   "theorems": [
    "C24_book",
    "C24_book_stable",
    "C24_version",
    "C24_version_inverse"
   ],
   "note": ""
  },
  {
   "property": "C25",
   "status": "proved",
   "theorems": [
    "C25_blank",
    "C25_read_any_layout",
    "C25_round_trip"
   ],
   "note": ""
  },
  {
   "property": "C26",
   "status": "proved",
   "theorems": [
    "C26_involution",
    "C26_exchanges_ends"
   ],
   "note": ""
  },
  {
   "property": "C27",
   "status": "proved",
   "theorems": [
    "C27_terminates_with_ends",
    "C27_small"
   ],
   "note": ""
  },
  {
   "property": "C28",
   "status": "proved",
   "theorems": [
    "C28_balances"
   ],
   "note": ""
  },
  {
   "property": "C29",
   "status": "proved",
   "theorems": [
    "C29_fix_colours",
    "C29_deduplicate",
    "C29_tidy"
   ],
   "note": ""
  },
  {
   "property": "C30",
   "status": "proved",
   "theorems": [
    "C30_factors"
   ],
   "note": ""
  },
  {
   "property": "C31",
   "status": "proved",
   "theorems": [
    "C31_sound",
    "C31_complete",
    "C31_order_irrelevant",
    "C31_monotone",
    "C31_add"
   ],
   "note": ""
  },
  {
   "property": "C32",
   "status": "proved",
   "theorems": [
    "C32_clean",
    "C32_minimal"
   ],
   "note": ""
  },
  {
   "property": "C33",
   "status": "proved",
   "theorems": [
    "C33_round_trip",
    "C33_save_load",
    "C33_history"
   ],
   "note": ""
  },
  {
   "property": "C34",
   "status": "proved",
   "theorems": [
    "C34_height",
    "C34_returns",
    "C34_asks",
    "C34_finished",
    "C34_raises"
   ],
   "note": ""
  },
  {
   "property": "C35",
   "status": "proved",
   "theorems": [
    "C35_returns",
    "C35_finished",
    "C35_query"
   ],
   "note": ""
  },
  {
   "property": "C36",
   "status": "proved",
   "theorems": [
    "C36_progress",
    "C36_never_twice",
    "C36_terminates",
    "C36_optimal",
    "C36_saved",
    "C36_one_length"
   ],
   "note": ""
  },
  {
   "property": "C37",
   "status": "proved",
   "theorems": [
    "C37_atomic_refuted",
    "C37_states",
    "C37_finished"
   ],
   "note": "Refuted: for all non-empty old and new texts there is a crash point that leaves neither; C37_states and C37_finished say what does hold."
  },
  {
   "property": "C38",
   "status": "proved",
   "theorems": [
    "C38_marks",
    "C38_impossible_refuted",
    "C38_impossible_whenever",
    "C38_impossible_means"
   ],
   "note": "Refuted; C38_marks says exactly when each mark is printed, C38_impossible_means what the impossible mark does mean for every database with a history."
  },
  {
   "property": "C39",
   "status": "proved",
   "theorems": [
    "C39_variables_contiguous",
    "C39_tiles_disjoint",
    "C39_members",
    "C39_parse_solution"
   ],
   "note": ""
  },
  {
   "property": "C40",
   "status": "proved",
   "theorems": [
    "C40_neighbour_lookup"
   ],
   "note": ""
  },
  {
   "property": "C41",
   "status": "proved",
   "theorems": [
    "C41_blocks_without_y_bounds",
    "C41_block_inside_x_bounds",
    "C41_y_bounds_refuted"
   ],
   "note": "Proved for the calls without y bounds (all calls in the program); refuted with y bounds, where the code adds the y offset to x."
  },
  {
   "property": "C42",
   "status": "proved",
   "theorems": [
    "C42_enumeration",
    "C42_command"
   ],
   "note": ""
  },
  {
   "property": "C43",
   "status": "proved",
   "theorems": [
    "C43_satisfiable",
    "C43_unsatisfiable",
    "C43_no_answer",
    "C43_unknown_status",
    "C43_empty_value_line_refuted"
   ],
   "note": "Holds for every output whose first value line has a value; C43_empty_value_line_refuted shows that an empty first value line raises."
  },
  {
   "property": "C44",
   "status": "proved",
   "theorems": [
    "C44_decodes"
   ],
   "note": ""
  },
  {
   "property": "C45",
   "status": "proved",
   "theorems": [
    "C45_set_tile",
    "C45_set_tile_rejects"
   ],
   "note": ""
  },
  {
   "property": "C46",
   "status": "proved",
   "theorems": [
    "C46_splitters_paired"
   ],
   "note": ""
  },
  {
   "property": "C47",
   "status": "proved",
   "theorems": [
    "C47_connected"
   ],
   "note": ""
  },
  {
   "property": "C48",
   "status": "proved",
   "theorems": [
    "C48_undergrounds"
   ],
   "note": ""
  },
  {
   "property": "C49",
   "status": "proved",
   "theorems": [
    "C49_solutions_are_valid_layouts",
    "C49_no_layout_lost",
    "C49_solutions_iff"
   ],
   "note": ""
  },
  {
   "property": "C50",
   "status": "proved",
   "theorems": [
    "C50_block_belts"
   ],
   "note": ""
  },
  {
   "property": "C51",
   "status": "proved",
   "theorems": [
    "C51_colour_transported"
   ],
   "note": ""
  },
  {
   "property": "C52",
   "status": "proved",
   "theorems": [
    "C52_solutions_realise"
   ],
   "note": ""
  },
  {
   "property": "C53",
   "status": "proved",
   "theorems": [
    "C53_ends",
    "C53_ends_90",
    "C53_ends_180",
    "C53_ends_fail",
    "C53_last_block_refuted"
   ],
   "note": "C53_ends, C53_ends_90 and C53_ends_180 say exactly which placements are allowed; C53_last_block_refuted shows that the English claim is false: with a row to spare the lowest row is never used."
  },
  {
   "property": "C54",
   "status": "proved",
   "theorems": [
    "C54_offsets_refuted",
    "C54_exactly"
   ],
   "note": "Refuted: offsets whose input and output rows meet are contradictory for every network, grid and assignment; C54_exactly says what the clauses mean."
  },
  {
   "property": "C55",
   "status": "proved",
   "theorems": [
    "C55_one_row_raises",
    "C55_one_of_each_pair",
    "C55_both_only_if_symmetric",
    "C55_no_layout_lost",
    "C55_no_balancer_lost",
    "C55_full_height",
    "C55_upper_row_lost_refuted",
    "C55_one_spare_row_refuted"
   ],
   "note": "Proved for grids, for balancers without set ends and for ends of full height; C55_upper_row_lost_refuted and C55_one_spare_row_refuted show that with lower ends balancers are lost, all of them if there is one row to spare."
  },
  {
   "property": "C56",
   "status": "proved",
   "theorems": [
    "C56_small_loops",
    "C56_hooks",
    "C56_semicircles",
    "C56_zigzags",
    "C56_glue",
    "C56_spirals"
   ],
   "note": ""
  },
  {
   "property": "C57",
   "status": "proved",
   "theorems": [
    "C57_variables",
    "C57_layout",
    "C57_constant",
    "C57_halves",
    "C57_ends",
    "C57_no_useless_splitter",
    "C57_balanced",
    "C57_setup_ends"
   ],
   "note": ""
  },
  {
   "property": "C58",
   "status": "proved",
   "theorems": [
    "C58_single_loop"
   ],
   "note": ""
  },
  {
   "property": "C59",
   "status": "proved",
   "theorems": [
    "C59_history",
    "C59_model",
    "C59_closed",
    "C59_closed_callbacks_refuted",
    "C59_answers"
   ],
   "note": "Refuted for set_learn and set_terminate, which do not check for closing and pass a null pointer; proved for all other methods."
  },
  {
   "property": "C60",
   "status": "proved",
   "theorems": [
    "C60_next_power_of_two",
    "C60_lcm",
    "C60_n_to_n",
    "C60_n_to_m",
    "C60_builds",
    "C60_narrow_refuted"
   ],
   "note": "The arithmetic is proved; C60_builds says that the clauses can always be generated on grids at least two wide, C60_narrow_refuted that a grid of width one raises."
  },
  {
   "property": "C61",
   "status": "proved",
   "theorems": [
    "C61_layout_determined",
    "C61_every_layout_listed",
    "C61_wrapping_refuted"
   ],
   "note": "Proved for closed grids; refuted for wrapping ones."
  },
  {
   "property": "C62",
   "status": "proved",
   "theorems": [
    "C62_boundary_flags",
    "C62_narrow_refuted"
   ],
   "note": "Proved for at least two rows and columns; refuted for width one."
  },
  {
   "property": "C63",
   "status": "proved",
   "theorems": [
    "C63_ends"
   ],
   "note": ""
  },
  {
   "property": "C64",
   "status": "proved",
   "theorems": [
    "C64_keeps_text",
    "C64_missing",
    "C64_twice",
    "C64_unterminated_refuted"
   ],
   "note": "Proved for files made of complete lines; refuted for an unterminated last line."
  },
  {
   "property": "C65",
   "status": "proved",
   "theorems": [
    "C65_key",
    "C65_other",
    "C65_sorted",
    "C65_numeric"
   ],
   "note": ""
  },
  {
   "property": "C66",
   "status": "proved",
   "theorems": [
    "C66_belt_level",
    "C66_belt_level_enough",
    "C66_enum",
    "C66_export_refuted"
   ],
   "note": "The choice of the level is proved right, the export itself is refuted for every layout that contains a belt, an underground or a splitter head."
  },
  {
   "property": "C67",
   "status": "proved",
   "theorems": [
    "C67_solutions_balance",
    "C67_benes_balance"
   ],
   "note": ""
  },
  {
   "property": "C68",
   "status": "proved",
   "theorems": [
    "C68_set_colour",
    "C68_prevent_colour",
    "C68_prevent_colour_0"
   ],
   "note": ""
  },
  {
   "property": "C69",
   "status": "proved",
   "theorems": [
    "C69_no_realisation_lost",
    "C69_solutions_are_the_realisations",
    "C69_no_solution_no_balancer"
   ],
   "note": "C69_solutions_are_the_realisations is an equivalence for networks without missing belts; C69_no_realisation_lost covers networks with missing belts for layouts without stray lines."
  },
  {
   "property": "C70",
   "status": "proved",
   "theorems": [
    "C70_empty_tunnels",
    "C70_double_tunnels",
    "C70_underground_hooks",
    "C70_short_tunnels",
    "C70_short_tunnels_unlimited",
    "C70_empty_tunnels_any"
   ],
   "note": ""
  },
  {
   "property": "C71",
   "status": "partial",
   "theorems": [
    "C71_shares_refuted",
    "C71_layout",
    "C71_splitters",
    "C71_ends",
    "C71_shares_partial"
   ],
   "note": "Layout, splitters and ends are proved without condition. The equal share is proved when no splitter stands right behind another one without being connected to it in the solution; C71_shares_refuted exhibits a 2 to 4 solution that violates the condition and does not balance, so the unconditional claim is false of the code."
  },
  {
   "property": "C72",
   "status": "proved",
   "theorems": [
    "C72_described_exactly",
    "C72_length_refuted"
   ],
   "note": "C72_described_exactly is an equivalence for the length in force; C72_length_refuted shows that without --single-loop the length given is not the one in force."
  },
  {
   "property": "C73",
   "status": "proved",
   "theorems": [
    "C73_closed_loops_found",
    "C73_torus_loop_lost_refuted"
   ],
   "note": "Proved on closed rectangles; on a torus C72_described_exactly says exactly which single loops are found and C73_torus_loop_lost_refuted that rings of other lengths than powers of two are lost."
  },
  {
   "property": "C74",
   "status": "proved",
   "theorems": [
    "C74_accepted",
    "C74_no_parallel_refuted"
   ],
   "note": "C74_accepted is an equivalence; C74_no_parallel_refuted draws the conclusion for --no-parallel."
  },
  {
   "property": "C75",
   "status": "proved",
   "theorems": [
    "C75_every_block_once"
   ],
   "note": ""
  },
  {
   "property": "C76",
   "status": "proved",
   "theorems": [
    "C76_rotated_balancer"
   ],
   "note": ""
  },
  {
   "property": "C77",
   "status": "proved",
   "theorems": [
    "C77_solutions_take_the_edges",
    "C77_no_such_balancer_lost",
    "C77_exactly",
    "C77_every_balancer_lost_refuted"
   ],
   "note": ""
  },
  {
   "property": "C78",
   "status": "proved",
   "theorems": [
    "C78_edge_belts",
    "C78_raises"
   ],
   "note": ""
  },
  {
   "property": "C79",
   "status": "proved",
   "theorems": [
    "C79_variables",
    "C79_layout"
   ],
   "note": ""
  },
  {
   "property": "C80",
   "status": "proved",
   "theorems": [
    "C80_sets",
    "C80_flow",
    "C80_balanced"
   ],
   "note": ""
  },
  {
   "property": "C81",
   "status": "proved",
   "theorems": [
    "C81_number",
    "C81_sizes",
    "C81_raises",
    "C81_builds"
   ],
   "note": ""
  },
  {
   "property": "C82",
   "status": "proved",
   "theorems": [
    "C82_solutions_are_interchanges",
    "C82_raises",
    "C82_builds"
   ],
   "note": ""
  },
  {
   "property": "C83",
   "status": "proved",
   "theorems": [
    "C83_interchanges_found"
   ],
   "note": ""
  },
  {
   "property": "C84",
   "status": "proved",
   "theorems": [
    "C84_cuts_implied",
    "C84_flow_counts",
    "C84_cuts_meaning"
   ],
   "note": ""
  },
  {
   "property": "C85",
   "status": "proved",
   "theorems": [
    "C85_every_interchange_once"
   ],
   "note": ""
  },
  {
   "property": "C86",
   "status": "proved",
   "theorems": [
    "C86_parallel_splitters",
    "C86_lagging_splitters",
    "C86_everything_connected"
   ],
   "note": ""
  },
  {
   "property": "C87",
   "status": "proved",
   "theorems": [
    "C87_given_tiles",
    "C87_given_raises",
    "C87_own_output",
    "C87_resume",
    "C87_printed_again"
   ],
   "note": ""
  },
  {
   "property": "C88",
   "status": "proved",
   "theorems": [
    "C88_main_exactly",
    "C88_options_only_remove",
    "C88_balances"
   ],
   "note": ""
  },
  {
   "property": "C89",
   "status": "proved",
   "theorems": [
    "C89_every_balancer_once"
   ],
   "note": ""
  },
  {
   "property": "C90",
   "status": "proved",
   "theorems": [
    "C90_starts",
    "C90_raises",
    "C90_exactly"
   ],
   "note": ""
  },
  {
   "property": "C91",
   "status": "proved",
   "theorems": [
    "C91_exactly",
    "C91_form_balances",
    "C91_given_tiles",
    "C91_starts"
   ],
   "note": ""
  },
  {
   "property": "C92",
   "status": "proved",
   "theorems": [
    "C92_every_layout_once"
   ],
   "note": ""
  },
  {
   "property": "C93",
   "status": "proved",
   "theorems": [
    "C93_exactly",
    "C93_every_interchange_once",
    "C93_starts"
   ],
   "note": ""
  },
  {
   "property": "C94",
   "status": "proved",
   "theorems": [
    "C94_exactly",
    "C94_form_balances",
    "C94_starts"
   ],
   "note": ""
  },
  {
   "property": "C95",
   "status": "proved",
   "theorems": [
    "C95_every_layout_once"
   ],
   "note": ""
  },
  {
   "property": "C96",
   "status": "proved",
   "theorems": [
    "C96_reads",
    "C96_names"
   ],
   "note": ""
  },
  {
   "property": "C97",
   "status": "proved",
   "theorems": [
    "C97_readable",
    "C97_clear",
    "C97_top_row_refuted"
   ],
   "note": "Proved as an equivalence for every valid layout; C97_top_row_refuted shows that reading can raise without an empty tile, when a tunnel starts in the top row."
  },
  {
   "property": "C98",
   "status": "proved",
   "theorems": [
    "C98_read",
    "C98_printed"
   ],
   "note": ""
  },
  {
   "property": "C99",
   "status": "proved",
   "theorems": [
    "C99_built",
    "C99_program",
    "C99_benes"
   ],
   "note": ""
  },
  {
   "property": "C100",
   "status": "proved",
   "theorems": [
    "C100_calculate_cost",
    "C100_optimise_colours_best",
    "C100_optimise_colours_returns",
    "C100_optimise_colours_compact",
    "C100_optimise_colours_refuted"
   ],
   "note": "C100_optimise_colours_best and _returns for every network; C100_optimise_colours_refuted: a network with one counted side, whose colours are 0 to n - 1, makes the final assertion fail."
  },
  {
   "property": "C101",
   "status": "proved",
   "theorems": [
    "C101_calculate_network_size"
   ],
   "note": ""
  },
  {
   "property": "C102",
   "status": "proved",
   "theorems": [
    "C102_simplify",
    "C102_flows_kept",
    "C102_ends",
    "C102_returns",
    "C102_returns_refuted",
    "C102_shared_refuted"
   ],
   "note": "C102_simplify for networks of single belts whose splitters have an input and an output, C102_flows_kept without the second condition, C102_ends for all networks, C102_returns without gaps; C102_returns_refuted and C102_shared_refuted show the two ways in which the assertion fails."
  },
  {
   "property": "C103",
   "status": "proved",
   "theorems": [
    "C103_belts_refuted",
    "C103_read",
    "C103_machine",
    "C103_encode",
    "C103_mixed",
    "C103_present"
   ],
   "note": "C103_belts_refuted and C103_encode: the formats are read for no layout that contains more than empty tiles and second halves of splitters; C103_mixed and C103_present say what does hold."
  },
  {
   "property": "C104",
   "status": "proved",
   "theorems": [
    "C104_palette",
    "C104_paints",
    "C104_counted",
    "C104_counted_refuted"
   ],
   "note": "C104_palette, C104_paints and C104_counted, with rational numbers for floats; C104_counted_refuted: --colour-count is compared with the number of colours, not with the colours."
  },
  {
   "property": "C105",
   "status": "proved",
   "theorems": [
    "C105_drawn",
    "C105_faithful",
    "C105_frames"
   ],
   "note": ""
  },
  {
   "property": "C106",
   "status": "proved",
   "theorems": [
    "C106_loop",
    "C106_loop_refuted",
    "C106_entries"
   ],
   "note": "C106_loop and C106_entries; C106_loop_refuted for machines in layouts without splitters."
  },
  {
   "property": "C107",
   "status": "proved",
   "theorems": [
    "C107_names",
    "C107_numbers_refuted"
   ],
   "note": "C107_names for paths of names; C107_numbers_refuted: a path with a number raises for every cell."
  },
  {
   "property": "C108",
   "status": "proved",
   "theorems": [
    "C108_history",
    "C108_round",
    "C108_keys",
    "C108_export_all"
   ],
   "note": ""
  },
  {
   "property": "C109",
   "status": "proved",
   "theorems": [
    "C109_free",
    "C109_power_of_two"
   ],
   "note": ""
  },
  {
   "property": "C110",
   "status": "proved",
   "theorems": [
    "C110_exactly",
    "C110_answers",
    "C110_true",
    "C110_more_room_refuted"
   ],
   "note": "C110_exactly and C110_answers; C110_more_room_refuted: possibility is not monotone in the size."
  },
  {
   "property": "C111",
   "status": "proved",
   "theorems": [
    "C111_progress",
    "C111_terminates",
    "C111_optimal",
    "C111_ends_refuted"
   ],
   "note": "C111_progress, C111_terminates and C111_optimal; C111_ends_refuted: the search for the shortest balancer never ends for a network of one input and one output."
  },
  {
   "property": "C112",
   "status": "proved",
   "theorems": [
    "C112_arrows",
    "C112_belts",
    "C112_inputs",
    "C112_outputs",
    "C112_raises",
    "C112_numbers_refuted",
    "C112_inputs_refuted"
   ],
   "note": "C112_arrows, C112_belts and C112_raises for all networks; C112_inputs and C112_outputs say exactly when the ends are shown, C112_inputs_refuted and C112_numbers_refuted what is not shown."
  },
  {
   "property": "C113",
   "status": "proved",
   "theorems": [
    "C113_slack_tunnels",
    "C113_clash_always"
   ],
   "note": ""
  },
  {
   "property": "C114",
   "status": "proved",
   "theorems": [
    "C114_exactly",
    "C114_apart",
    "C114_form_shares",
    "C114_every_layout"
   ],
   "note": ""
  },
  {
   "property": "C115",
   "status": "proved",
   "theorems": [
    "C115_constants",
    "C115_values",
    "C115_sequence",
    "C115_record",
    "C115_file"
   ],
   "note": ""
  },
  {
   "property": "C116",
   "status": "proved",
   "theorems": [
    "C116_recipes",
    "C116_normal",
    "C116_borrowed_time_refuted",
    "C116_items",
    "C116_files"
   ],
   "note": "C116_recipes and C116_files; C116_normal without condition; C116_borrowed_time_refuted: the time of a borrowed normal table is not used."
  },
  {
   "property": "C117",
   "status": "proved",
   "theorems": [
    "C117_table",
    "C117_shown",
    "C117_marks",
    "C117_nothing",
    "C117_file"
   ],
   "note": ""
  },
  {
   "property": "C118",
   "status": "proved",
   "theorems": [
    "C118_alias",
    "C118_everything",
    "C118_variables",
    "C118_parse",
    "C118_fields",
    "C118_made",
    "C118_local",
    "C118_name",
    "C118_tile"
   ],
   "note": ""
  },
  {
   "property": "C119",
   "status": "proved",
   "theorems": [
    "C119_round",
    "C119_keys",
    "C119_line"
   ],
   "note": ""
  },
  {
   "property": "C120",
   "status": "proved",
   "theorems": [
    "C120_round",
    "C120_different",
    "C120_plain",
    "C120_broken_up",
    "C120_version",
    "C120_cut",
    "C120_label",
    "C120_layout",
    "C120_identity"
   ],
   "note": ""
  },
  {
   "property": "C121",
   "status": "proved",
   "theorems": [
    "C121_round",
    "C121_stable",
    "C121_label",
    "C121_fails"
   ],
   "note": ""
  },
  {
   "property": "C122",
   "status": "proved",
   "theorems": [
    "C122_places",
    "C122_unknown"
   ],
   "note": ""
  },
  {
   "property": "C123",
   "status": "proved",
   "theorems": [
    "C123_cell",
    "C123_machine",
    "C123_machine_image",
    "C123_machine_order",
    "C123_splitter"
   ],
   "note": ""
  },
  {
   "property": "C124",
   "status": "proved",
   "theorems": [
    "C124_fits",
    "C124_order",
    "C124_scale",
    "C124_drawn"
   ],
   "note": ""
  },
  {
   "property": "C125",
   "status": "proved",
   "theorems": [
    "C125_list",
    "C125_profile"
   ],
   "note": ""
  },
  {
   "property": "C126",
   "status": "proved",
   "theorems": [
    "C126_keys",
    "C126_shown",
    "C126_number_refuted"
   ],
   "note": "C126_keys and C126_shown for names without numbers; C126_number_refuted: a name with a number in it makes the program fail for every cell that is an object, although C126_refuted_case has an entry at that path."
  },
  {
   "property": "C127",
   "status": "proved",
   "theorems": [
    "C127_borders",
    "C127_lines",
    "C127_once"
   ],
   "note": ""
  }
 ]
}