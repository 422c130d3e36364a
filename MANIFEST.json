{
 "claims": [
  {
   "property": "C01",
   "status": "proved",
   "theorems": [
    "C01_nodes_shared",
    "C01_edges_shared",
    "C01_content",
    "C01_provider_accepted",
    "C01_node_accepted",
    "C01_edge_accepted",
    "C01_rejected_unchanged",
    "C01_node_value",
    "C01_edge_value"
   ],
   "note": "Heap model with object identity, any number of providers and own ValueNodes, all programs of calls. Declarations are taken as fixed after construction (see C41 for the shared dictionary). The cache-free provider of the other files is shown to return the same values."
  },
  {
   "property": "C02",
   "status": "proved",
   "theorems": [
    "C02_contract",
    "C02_graph_equality",
    "C02_values"
   ],
   "note": "Objects as stored (frozensets as lists in any order), [==] and hash as in the classes, arbitrary user equality/hash that keeps Python's contract. Also links the stored objects to the value model of the other files."
  },
  {
   "property": "C03",
   "status": "proved",
   "theorems": [
    "C03_is_edges_connected"
   ],
   "note": "Exact result for every edge set and iteration order, including the exceptions."
  },
  {
   "property": "C04",
   "status": "proved",
   "theorems": [
    "C04_add_relation",
    "C04_add_directed_relation"
   ],
   "note": "Exact acceptance condition, effect and frame, in every state a builder can reach."
  },
  {
   "property": "C05",
   "status": "proved",
   "theorems": [
    "C05_built_graphs"
   ],
   "note": "All histories of add_relation / add_directed_relation / join_sample calls, rejected ones included. Joined samples are assumed to have legal edges, which every sample built by the library has."
  },
  {
   "property": "C06",
   "status": "proved",
   "theorems": [
    "C06_join_brings_no_second_value",
    "C06_join_keeps_single_valued",
    "C06_two_values_refuted",
    "C06_build_from_edges_refuted"
   ],
   "note": "The failures of add_relation and build_from_edges are computed runs; join_sample for all inputs, also when it raises half way."
  },
  {
   "property": "C07",
   "status": "proved",
   "theorems": [
    "C07_can_sample_be_joined",
    "C07_check_needed",
    "C07_check_sufficient_refuted",
    "C07_join_sample",
    "C07_join_is_union",
    "C07_order_independent"
   ],
   "note": "Exact acceptance condition, result and order independence, for builders without parallel edges (always true for histories of C05; build_from_edges can create parallel edges). can_sample_be_joined decides exactly that no relation differs: necessary, not sufficient (refuted)."
  },
  {
   "property": "C08",
   "status": "proved",
   "theorems": [
    "C08_join_leftovers",
    "C08_not_atomic_any_order_refuted",
    "C08_join_not_atomic_refuted"
   ],
   "note": "Existential theorems, one for a computed run and one for all iteration orders; what a refused join leaves is characterised for all builders and samples."
  },
  {
   "property": "C09",
   "status": "proved",
   "theorems": [
    "C09_build_from_edges",
    "C09_build_from_edges_unvalidated",
    "C09_parallel_edges_refuted"
   ],
   "note": "Exact result with and without validation on a fresh builder; parallel edges are accepted (refuted)."
  },
  {
   "property": "C10",
   "status": "proved",
   "theorems": [
    "C10_builder_of_graph",
    "C10_builder_copy",
    "C10_copy_of_parallel_refuted",
    "C10_rebuild",
    "C10_view_injective",
    "C10_outcomes_view"
   ],
   "note": "Round trip and injectivity for all well-formed graphs; SampleGraph.builder followed by build gives the graph back; copies of builders equal the original, unless it holds parallel edges (refuted)."
  },
  {
   "property": "C11",
   "status": "proved",
   "theorems": [
    "C11_transform",
    "C11_keeps_well_formed",
    "C11_keeps_simple",
    "C11_replacing_back"
   ],
   "note": "Exact result, preserved well-formedness, replacing back."
  },
  {
   "property": "C12",
   "status": "proved",
   "theorems": [
    "C12_is_subgraph",
    "C12_order"
   ],
   "note": ""
  },
  {
   "property": "C13",
   "status": "proved",
   "theorems": [
    "C13_similarity"
   ],
   "note": "Exact rational arithmetic."
  },
  {
   "property": "C14",
   "status": "proved",
   "theorems": [
    "C14_belt_nodes",
    "C14_external_nodes",
    "C14_no_start_nodes",
    "C14_equal_distance_edge_refuted"
   ],
   "note": "Exact BFS characterisation; the gap (edge between equally distant nodes) is shown by a computed run."
  },
  {
   "property": "C15",
   "status": "proved",
   "theorems": [
    "C15_neighboring_values",
    "C15_neighboring_values_parallel",
    "C15_opposite_endpoint",
    "C15_parallel_order_refuted"
   ],
   "note": "Exact without parallel edges; with parallel edges keys are exact and the edge depends on the order (computed run)."
  },
  {
   "property": "C16",
   "status": "proved",
   "theorems": [
    "C16_point_queries",
    "C16_order_independence"
   ],
   "note": ""
  },
  {
   "property": "C17",
   "status": "proved",
   "theorems": [
    "C17_restriction",
    "C17_laws"
   ],
   "note": ""
  },
  {
   "property": "C18",
   "status": "proved",
   "theorems": [
    "C18_equal",
    "C18_builder_history",
    "C18_since_last_removal",
    "C18_items_and_length"
   ],
   "note": "All histories of add / add_all / remove / remove_all; copy and build are the identity on the modelled value (aliasing: C41). Sets are equal exactly when all counts are."
  },
  {
   "property": "C19",
   "status": "proved",
   "theorems": [
    "C19_union",
    "C19_union_order_independent",
    "C19_union_commutative",
    "C19_union_associative",
    "C19_union_unit",
    "C19_join_sample_set",
    "C19_join_sample_set_any_order"
   ],
   "note": "All sets, counts and orders, including the errors."
  },
  {
   "property": "C20",
   "status": "proved",
   "theorems": [
    "C20_filter",
    "C20_filter_splits",
    "C20_filters_compose"
   ],
   "note": ""
  },
  {
   "property": "C21",
   "status": "proved",
   "theorems": [
    "C21_probabilities",
    "C21_distribution",
    "C21_probability_of"
   ],
   "note": "Exact rational arithmetic; characterised for all integer counts, including the errors. Binary64: C42."
  },
  {
   "property": "C22",
   "status": "proved",
   "theorems": [
    "C22_is_all_values_match"
   ],
   "note": ""
  },
  {
   "property": "C23",
   "status": "proved",
   "theorems": [
    "C23_can_join_samples",
    "C23_necessary",
    "C23_values_match",
    "C23_not_sufficient_refuted"
   ],
   "note": "Hypotheses: one value per variable in each sample (exactness), well-formed samples (necessity)."
  },
  {
   "property": "C24",
   "status": "proved",
   "theorems": [
    "C24_make_joined_sample",
    "C24_all_orders",
    "C24_some_order",
    "C24_order_dependent_refuted"
   ],
   "note": "For sets of well-formed samples (non-empty or empty, connected, legal edges, one edge per pair of nodes, one value per variable)."
  },
  {
   "property": "C25",
   "status": "proved",
   "theorems": [
    "C25_group_intersecting",
    "C25_not_iterable",
    "C25_terminates",
    "C25_sample_lost_refuted",
    "C25_name_split_refuted",
    "C25_names_collide_refuted",
    "C25_same_variables_refuted"
   ],
   "note": "Exact under the stated conditions for every order; five computed counterexamples without them."
  },
  {
   "property": "C26",
   "status": "proved",
   "theorems": [
    "C26_marginals",
    "C26_order_independent",
    "C26_value_u_raises",
    "C26_value_u_silent_refuted"
   ],
   "note": "For every iteration order and every choice of requested variables (empty set = all): result domain, every ratio, sum exactly 1. Value named 'u' with unobserved=True: proved to raise, or (refuted witness) to be silently lost below the 1e-9 tolerance. Exact rationals; binary64 is C42."
  },
  {
   "property": "C27",
   "status": "proved",
   "theorems": [
    "C27_set_queries",
    "C27_included_variables",
    "C27_included_variables_order_independent",
    "C27_included_relations"
   ],
   "note": "Exactly the occurring variables, values and relations, for every iteration order; have_value and have_variable of sample sets agree."
  },
  {
   "property": "C28",
   "status": "proved",
   "theorems": [
    "C28_folded_graph",
    "C28_order_independent",
    "C28_unobserved_count",
    "C28_marginal_distribution",
    "C28_agrees_with_marginals",
    "C28_value_unobserved_lost"
   ],
   "note": "Every node, count, edge and count of the folded graph is specified (folded_ok); unobserved_count, marginal_distribution and agreement with marginals proved; value named 'unobserved' proved to be lost. Exact rationals."
  },
  {
   "property": "C29",
   "status": "proved",
   "theorems": [
    "C29_find",
    "C29_empty_query",
    "C29_composition",
    "C29_monotone"
   ],
   "note": "Exact selection, empty query, composition, monotonicity; for every iteration order."
  },
  {
   "property": "C30",
   "status": "proved",
   "theorems": [
    "C30_factorized",
    "C30_partition",
    "C30_is_factorized",
    "C30_agree"
   ],
   "note": "factorized succeeds iff the outcomes are factorable, iff is_factorized, for independent iteration orders; factors partition the outcomes and are exactly the classes of equal variable pairs; otherwise AssertionError."
  },
  {
   "property": "C31",
   "status": "proved",
   "theorems": [
    "C31_is_joined"
   ],
   "note": "Decides equality of variable sets, for every iteration order."
  },
  {
   "property": "C32",
   "status": "proved",
   "theorems": [
    "C32_accumulates",
    "C32_history_determined",
    "C32_continue",
    "C32_constructor"
   ],
   "note": "All histories of add_outcome / add_outcomes / build_sample with arbitrary callbacks, rejected calls included; also continuing from a built graph and the constructor's argument checks. Callbacks that touch the same builder again are not modelled; sample naming (next_id) is not modelled."
  },
  {
   "property": "C33",
   "status": "proved",
   "theorems": [
    "C33_generates_all",
    "C33_order_independent",
    "C33_nonempty_builder"
   ],
   "note": "For all declared variables, values and relations and every iteration order; a non-empty builder is rejected."
  },
  {
   "property": "C34",
   "status": "proved",
   "theorems": [
    "C34_number_of_outcomes",
    "C34_comb"
   ],
   "note": "Equality with the experiment's formula evaluated exactly (the Python code uses floats), for all numbers of variables, values and relations."
  },
  {
   "property": "C35",
   "status": "proved",
   "theorems": [
    "C35_uniform",
    "C35_experiment"
   ],
   "note": "Equal counts for all values, uniform marginals, and the two assertions of the experiment, for all declared sets."
  },
  {
   "property": "C36",
   "status": "proved",
   "theorems": [
    "C36_conditional",
    "C36_idempotent",
    "C36_commute",
    "C36_length"
   ],
   "note": "Exact selection, idempotence, commutation, length, and the only error."
  },
  {
   "property": "C37",
   "status": "proved",
   "theorems": [
    "C37_activation",
    "C37_determined",
    "C37_no_outcomes",
    "C37_empty_evidence",
    "C37_two_values_refuted"
   ],
   "note": "End to end from conditional_graph: no exception, exact weights (evidence values and reached values), exact relation counts, bounds, uniqueness (hence order independence), and both error cases. An evidence edge is counted for every outcome, as in the code. One value per variable is needed (refutation). Exact rationals instead of floats."
  },
  {
   "property": "C38",
   "status": "proved",
   "theorems": [
    "C38_joined_on_one_variable",
    "C38_joined_on_variables",
    "C38_order_refuted"
   ],
   "note": "One variable: exact characterisation under no_collision_on (no two groups have the same pairs) and self_named. Several variables or all: factorable space with a compatible choice; success, exact result, order independence by uniqueness. The refutation shows that the compatible choice is needed."
  },
  {
   "property": "C39",
   "status": "proved",
   "theorems": [
    "C39_any_support",
    "C39_make_joined",
    "C39_complete_outcomes",
    "C39_is_joined",
    "C39_missing_value_refuted"
   ],
   "note": "Exact result and error characterisation for joinable (full-support factorable) spaces; is_joined characterised for all spaces. C39_any_support gives, for every factorized space with or without full support, exactly when make_joined returns and what, by eliminating the variables in the order visited. The refutation shows the treatment of a missing value as neutral."
  },
  {
   "property": "C40",
   "status": "proved",
   "theorems": [
    "C40_visited",
    "C40_any_order",
    "C40_variable_order",
    "C40_result_order_independent",
    "C40_acyclic_succeeds",
    "C40_missing_value_refuted",
    "C40_success_order_refuted"
   ],
   "note": "All successful orders agree and connected acyclic spaces never raise; for every factorized space only the order of the variables matters (C40_variable_order) and every order of them can occur; refutations show where success or result depend on the order of the variables."
  },
  {
   "property": "C41",
   "status": "proved",
   "theorems": [
    "C41_frozen",
    "C41_set_builder_own_calls",
    "C41_set_builder_copy",
    "C41_set_build",
    "C41_set_to_builder",
    "C41_copied_containers",
    "C41_constructors",
    "C41_graph_builder_own_calls",
    "C41_graph_builder_created",
    "C41_graph_build",
    "C41_space_build",
    "C41_space_builder",
    "C41_set_builder_add",
    "C41_graph_builder_calls",
    "C41_shared_nodes_refuted",
    "C41_shared_sets_refuted",
    "C41_shared_outcomes_refuted",
    "C41_shared_declarations_refuted"
   ],
   "note": "Heap.v: every set and dict is a heap cell, histories of calls and client changes; invariant on ownership of cells. The sharing of containers passed to constructors is refuted by four witnesses."
  },
  {
   "property": "C42",
   "status": "proved",
   "theorems": [
    "C42_quotient",
    "C42_sum_close",
    "C42_sum_error",
    "C42_compensated_sum_close",
    "C42_probabilities",
    "C42_marginals",
    "C42_probabilities_compensated",
    "C42_marginals_compensated",
    "C42_probability_of"
   ],
   "note": "binary64 via Flocq (round to nearest even), int/int rounded once for integers of any size, math.isclose and both versions of sum as in CPython. Uses the standard library axioms of the real numbers."
  },
  {
   "property": "C43",
   "status": "proved",
   "theorems": [
    "C43_name_any_order",
    "C43_text_view_any_order",
    "C43_text_view_is_name",
    "C43_set_any_order",
    "C43_print_any_order",
    "C43_name_identifies",
    "C43_text_view_identifies",
    "C43_set_identifies",
    "C43_print_identifies",
    "C43_ambiguous_refuted",
    "C43_text_view_disconnected_refuted"
   ],
   "note": "Texts as lists of code points, printing of names arbitrary. Order independence for all graphs/sets; injectivity under the stated conditions on names; the two gaps are refuted by witnesses."
  },
  {
   "property": "C44",
   "status": "proved",
   "theorems": [
    "C44_condition_then_join",
    "C44_commute",
    "C44_conditioned_joinable",
    "C44_two_node_evidence_refuted"
   ],
   "note": "Single-node evidence that occurs: conditioned space is joinable again, joint of the conditioned factors = conditioned joint, also as equality of the two API routes. Refuted for two-node evidence."
  },
  {
   "property": "C45",
   "status": "proved",
   "theorems": [
    "C45_reused_builder_refuted",
    "C45_failed_builder_refuted"
   ],
   "note": "Two computed runs as existential theorems (reused builder, builder after a caught exception)."
  },
  {
   "property": "C46",
   "status": "proved",
   "theorems": [
    "C46_two_kinds_succeeds",
    "C46_conditioned_succeeds"
   ],
   "note": "make_joined raises only for disconnected spaces or spaces with a cycle and a variable in three kinds (C39_make_joined states the same error condition); conditioned spaces of any evidence sequence covered."
  },
  {
   "property": "C47",
   "status": "proved",
   "theorems": [
    "C47_exchange",
    "C47_conditional_independence"
   ],
   "note": "Exact counts; both the exchange property and conditional independence of arbitrary decidable events."
  },
  {
   "property": "C48",
   "status": "proved",
   "theorems": [
    "C48_separation",
    "C48_not_separated_refuted"
   ],
   "note": "Exact rationals instead of floats; marginals without the unobserved entry, as in the experiment. Refutation shows the observations of the separator are needed."
  },
  {
   "property": "C49",
   "status": "proved",
   "theorems": [
    "C49_markov_joint",
    "C49_markov_inference",
    "C49_markov_stages",
    "C49_repeated_pair_refuted"
   ],
   "note": "Script functions of comparing_with_markov_network.py modelled in Nets.v, counts exact; the spec (SpecNet.v, SpecScripts.v) is the normalised product of factors. Repeated pair refuted by a witness."
  },
  {
   "property": "C50",
   "status": "proved",
   "theorems": [
    "C50_bayes_joint",
    "C50_chain_rule",
    "C50_bayes_inference",
    "C50_float_counts",
    "C50_float_hundredths",
    "C50_substring_names_refuted"
   ],
   "note": "Script functions of comparing_with_bayes_network.py modelled in Nets.v with positive integer counts; the float conversion of the tables is treated in NetFloats.v (binary64). C50_float_* use the standard library axioms of the real numbers. d-separation helpers of the script are not modelled."
  },
  {
   "property": "C51",
   "status": "proved",
   "theorems": [
    "C51_stages",
    "C51_join_twice",
    "C51_joined_joinable"
   ],
   "note": "SpecStages.v gives the meaning of a sequence of stages; the theorem covers any interleaving that ends with make_joined."
  },
  {
   "property": "C52",
   "status": "proved",
   "theorems": [
    "C52_contract",
    "C52_same_class",
    "C52_folded_activation",
    "C52_folded_meaning",
    "C52_unhashable",
    "C52_marginals_refuted"
   ],
   "note": "Python's reflected-subclass dispatch of == and the rule that a class defining __eq__ without __hash__ is unhashable are modelled in HashVars.v. Lawfulness of the equality and hash of names, values, relations, query values is a hypothesis, as in C43."
  },
  {
   "property": "C53",
   "status": "proved",
   "theorems": [
    "C53_total_probability",
    "C53_bayes_rule",
    "C53_chain_rule",
    "C53_joined",
    "C53_unobserved_variable_refuted"
   ],
   "note": "Exact rationals instead of floats. The condition that every outcome observes the variable is necessary: C53_unobserved_variable_refuted."
  },
  {
   "property": "C54",
   "status": "proved",
   "theorems": [
    "C54_activation_floats",
    "C54_close_to_spec",
    "C54_color",
    "C54_color_evidence",
    "C54_color_order",
    "C54_color_no_values",
    "C54_order_refuted"
   ],
   "note": "Flocq binary64; int operands converted to the nearest double as in CPython (OverflowError beyond the range). The exact computation it is compared with is the one of C37. Uses the standard library axioms of the real numbers."
  },
  {
   "property": "C55",
   "status": "proved",
   "theorems": [
    "C55_pack_roundtrip",
    "C55_as_list",
    "C55_count",
    "C55_hash"
   ],
   "note": "Grids of booleans as lists of columns. Python ints are unbounded, so the packed words are exact."
  },
  {
   "property": "C56",
   "status": "proved",
   "theorems": [
    "C56_positions",
    "C56_pacman_choices",
    "C56_ghost_choices",
    "C56_legal",
    "C56_over",
    "C56_open_border_refuted"
   ],
   "note": "Positions are integers in half cells: all coordinates of the code are multiples of 0.5, which floats hold exactly below 2^52. States reached by generateSuccessor from the first state of a board. C56_open_border_refuted shows the condition on the border is needed."
  },
  {
   "property": "C57",
   "status": "proved",
   "theorems": [
    "C57_pacman_move",
    "C57_ghost_move",
    "C57_accounts",
    "C57_no_food",
    "C57_caught_twice_refuted",
    "C57_no_food_refuted"
   ],
   "note": "pacman_moves and ghost_moves in SpecPacman.v state the complete effect of a move; the accounts are proved over whole plays of arbitrary agents."
  },
  {
   "property": "C58",
   "status": "proved",
   "theorems": [
    "C58_never_raises",
    "C58_turns",
    "C58_goes_on",
    "C58_walled_in_refuted"
   ],
   "note": "Game.run without time limits, catching of exceptions, muting, boinc and drawing. Agents are arbitrary functions of the history, index and copied state."
  },
  {
   "property": "C59",
   "status": "proved",
   "theorems": [
    "C59_layout",
    "C59_short_row",
    "C59_long_row",
    "C59_no_row",
    "C59_first_state",
    "C59_two_pacmans_refuted"
   ],
   "note": "The text is a list of rows of characters; reading the file is not modelled."
  },
  {
   "property": "C60",
   "status": "proved",
   "theorems": [
    "C60_sample",
    "C60_sample_exact",
    "C60_readable_names",
    "C60_outcomes",
    "C60_outcome_ids",
    "C60_empty_outcome",
    "C60_folded",
    "C60_folded_undrawable",
    "C60_active",
    "C60_active_no_values",
    "C60_active_undrawable",
    "C60_active_absent",
    "C60_same_names_refuted",
    "C60_parallel_refuted",
    "C60_digits_refuted",
    "C60_label_refuted"
   ],
   "note": "pyvis is not part of the repository: add_node and add_edge are modelled from its documented behaviour (assert on the id, an id or undirected pair that exists is ignored). File names, sizes and net.show are left out. Printing of names and floats is a parameter."
  },
  {
   "property": "C61",
   "status": "proved",
   "theorems": [
    "C61_draws_all",
    "C61_up_to_eight",
    "C61_too_few",
    "C61_nine_refuted"
   ],
   "note": "The power 3 ** (n*(n-1)/2) is taken to be correctly rounded (as C libraries do when the power is a double, which covers 2 to 8); for n = 9 the exact number is no double, so the result is the same for every rounding to a double. Printing is left out; pyvis as in C60."
  },
  {
   "property": "C62",
   "status": "proved",
   "theorems": [
    "C62_joint",
    "C62_given",
    "C62_net",
    "C62_distinct",
    "C62_unambiguous",
    "C62_describe",
    "C62_experiment",
    "C62_same_coin_refuted"
   ],
   "note": "Python's int on text is a parameter that must read what str writes (C62_reader shows one). Printing and drawing are left out. C62_joint and C62_given are about the two scripts that join the network and condition it, for provider number 0."
  },
  {
   "property": "C63",
   "status": "proved",
   "theorems": [
    "C63_random_ghost",
    "C63_directional_ghost",
    "C63_no_action",
    "C63_keyboard",
    "C63_keyboard2",
    "C63_keyboard_no_action",
    "C63_demo",
    "C63_medium_classic",
    "C63_other_probability_refuted",
    "C63_walled_ghost_refuted"
   ],
   "note": "Random numbers are arbitrary doubles in [0,1), key presses and random.choice arbitrary functions of time. Probabilities are binary64 (Flocq), for both versions of sum. Uses the standard axioms of the real numbers through Flocq."
  },
  {
   "property": "C64",
   "status": "proved",
   "theorems": [
    "C64_priority_queue",
    "C64_priority_queue_determined",
    "C64_heap_sort",
    "C64_stack",
    "C64_queue",
    "C64_with_function",
    "C64_with_function_update_refuted",
    "C64_item",
    "C64_increment_all",
    "C64_total",
    "C64_add",
    "C64_sub",
    "C64_mul",
    "C64_radd",
    "C64_arg_max_refuted",
    "C64_sorted_keys_refuted",
    "C64_zero_plus_refuted",
    "C64_array_invert",
    "C64_array_invert_wide_refuted",
    "C64_matrix_as_list",
    "C64_matrix_raises"
   ],
   "note": "heapq belongs to Python and enters by contract: heappush adds the entry, heapify keeps the entries, heappop removes the least one; their arrangement in the list is arbitrary. Priorities and counts are integers; the floats of normalize and sampling are in C63. divideAll and copy are not modelled; sampling is in C67."
  },
  {
   "property": "C65",
   "status": "proved",
   "theorems": [
    "C65_successor",
    "C65_reads_unique",
    "C65_deep_copy",
    "C65_deep_copy_writes",
    "C65_initial",
    "C65_history",
    "C65_flags_unused",
    "C65_equal",
    "C65_hash",
    "C65_key_kept",
    "C65_parent_unchanged_refuted",
    "C65_deep_copy_independent_refuted",
    "C65_successor_writes_refuted",
    "C65_deep_copy_over_refuted"
   ],
   "note": "A GameState and its GameStateData are one object; the layout is a value, as nothing writes it. Python's hashes of pairs, texts, integers and tuples are arbitrary functions."
  },
  {
   "property": "C66",
   "status": "proved",
   "theorems": [
    "C66_connected_limit",
    "C66_connected_enough",
    "C66_connected_near",
    "C66_join_limit",
    "C66_join_enough",
    "C66_external",
    "C66_joined_limit",
    "C66_joined_on_limit",
    "C66_sets_exact",
    "C66_factors_enough",
    "C66_factors_needs",
    "C66_joined_threshold",
    "C66_joined_on_threshold",
    "C66_joined_needs",
    "C66_cross_exact",
    "C66_group_exact",
    "C66_joined_on_needs",
    "C66_group_enough",
    "C66_long_chain_refuted",
    "C66_join_order_refuted",
    "C66_many_outcomes_refuted"
   ],
   "note": "Limits as fuel of the recursive functions, OutOfFuel stands for RecursionError. For make_joined one limit is shared by join_factors and join_sample_set, for joined_on_variables group and cross_join have it each; frames of other functions are not counted. What make_joined needs is stated for the variable visited first; for the whole of make_joined and joined_on_variables the limit that is enough exists and is exact, a formula for it is proved for join_factors, group and cross_join only."
  },
  {
   "property": "C67",
   "status": "proved",
   "theorems": [
    "C67_n_sample",
    "C67_sample",
    "C67_draws_determined",
    "C67_sample_from_counter",
    "C67_choose",
    "C67_flip_coin",
    "C67_no_values",
    "C67_sample_shares",
    "C67_n_sample_shares",
    "C67_choose_shares",
    "C67_get_probability",
    "C67_n_sample_nonzero",
    "C67_zero_weight_refuted",
    "C67_sample_raises_refuted",
    "C67_n_sample_raises_refuted"
   ],
   "note": "Sampling.v, on binary64 (Flocq); random numbers are arbitrary doubles in [0,1). The exact description holds for all weights, infinities and NaN included; the shares are for probabilities that are quotients of counts. Uses the standard library axioms of the real numbers."
  },
  {
   "property": "C68",
   "status": "proved",
   "theorems": [
    "C68_product",
    "C68_joint",
    "C68_weight",
    "C68_select_child",
    "C68_select_prior",
    "C68_norm",
    "C68_margin",
    "C68_margin_total",
    "C68_root_margin",
    "C68_conditional",
    "C68_second_evidence",
    "C68_two_shared_refuted",
    "C68_association_refuted",
    "C68_prior_again_refuted",
    "C68_names_refuted"
   ],
   "note": "Manual.v; the functions are nested in manual_bayes_net_test. Numbers are exact rationals, not floats; printing is left out. The hypotheses on the tables hold for those of the file (examples)."
  }
 ]
}