# Formal model of probabilistic-relational-network (`Python/research/scripts`)

Everything lives in `rocq/theories/` (logical name `Verif`).  Language: Coq 8.16.1 + std++ (finite
sets/maps), Flocq for binary64 only.  The model is a set of total, executable Gallina functions that
mirror the Python functions branch by branch; Python exceptions are values.

## 1. Modelling decisions

* **`Any`** (variables, values, relations).  A class `Universe` packs three arbitrary types with
  decidable equality and countability (std++ `gset`/`gmap` need it) and one operation, `var_iter`, for
  what Python does on `for v in variable` (a `str` is split into characters, a non-iterable raises
  `TypeError`; this matters in `group_intersecting`).  Every theorem quantifies over the universe.
  `StrU` (all three are strings) and `TinyU` (numbers) are the instances used by examples and
  refutations.  `TinyU` exists because checking a computed example costs time in proportion to the names.
* **Objects and `==`**.  `ValueNode` = `(variable, value)`, `RelationEdge` = `(frozenset of nodes,
  relation)`, `DirectedRelation` is a constructor of `relation`, `SampleGraph` = `(nodes, edges)`; Coq
  equality of these is the Python `__eq__`.  That this is right is itself proved: `Hash.v` has the
  objects as stored and the `__eq__`/`__hash__` methods, `HashFacts.v` links the two.  The display
  `name` never influences control flow and is left out of the core (it is in `Text.v`).
  `is_compatible` compares provider identities (`nat`).
* **Sets and dicts**: `gset` / `gmap` (extensional).  **Iteration order**: Python's set order depends
  on the hash seed and history.  Every loop over a set or dict takes its order from an *oracle*
  `o : list nat -> list nat`, a tree of permutation codes; each dynamic loop gets its own code, every
  permutation is reachable (`perm_by_complete`), so a theorem quantified over `o` covers every order
  Python could use, and no hypothesis about the oracle is needed.
* **Exceptions**: `res A := Ok a | Err exn`, `exn` distinguishes `AssertionError`, `TypeError`,
  `ZeroDivisionError`, `StopIteration`, `IndexError`, `KeyError`, `ValueError`, `OverflowError` and
  `OutOfFuel` (model-only; theorems show it never occurs).  Mutating methods return the (possibly
  partially updated) object next to the result, so what survives a caught exception is visible.
* **Numbers**: counts are `Z` (Python ints).  Floats are exact rationals `Qc` in the core; binary64
  rounding is treated in `Floats.v`, `NetFloats.v` and `ActFloats.v` (Flocq).
* **Recursion** (`trace`, `external_nodes`, `group`, odometer loop) uses fuel; the proofs show it
  suffices.  Python's recursion limit is the subject of C66 only.
* **Aliasing / mutation** is modelled in a separate heap model (`Heap.v`); elsewhere objects are values.
* **Statements**: each `Props*.v` theorem is stated with the vocabulary of a `Spec*.v` file, which
  shares only data types with the model.  Each is `exact`ly a lemma proved in a `*Facts.v` file, and has
  an `Example` next to it that meets its hypotheses.  A claim that is false of the code has a theorem
  `…_refuted : exists …` with a computed witness.

## 2. Files

| file | models / contains |
|---|---|
| `Base.v` | results, exceptions, oracle, loops |
| `Components.v` | `graph_components.py` (nodes, edges, relations as values) |
| `Provider.v` | `graph_components.py`: the caches of `SampleGraphComponentsProvider`, objects with identity |
| `Hash.v` | `__eq__`, `__hash__` of the classes on objects as stored |
| `SampleGraph.v` | `sample_graph.py` |
| `Depth.v` | `is_edges_connected` and `join_sample` with a limit on nested calls (C66; proofs in `DepthFacts.v`, `DepthChain.v`) |
| `DepthJoin.v` | `join_sample_set`, `join_factors`, `make_joined`, `group_intersecting`, `cross_join` and `joined_on_variables` with a limit on nested calls (C66; proofs in `DepthJoinFacts.v`, `DepthJoinMain.v`, `DepthJoinLimit.v`) |
| `SampleSet.v` | `sample_set.py` |
| `SampleSpace.v` | `sample_space.py`, `folded_graph.py`, `variables_graph.py` |
| `RelationGraph.v` | `relation_graph.py` |
| `Activation.v` | `conditional_graph.py`, `activation_graph.py` |
| `Heap.v` | builders and graphs as heap cells, histories of API calls and client changes |
| `Text.v` | `text_view`, `__repr__`, `name` of samples, sample sets |
| `Floats.v` | the probability sums and their `math.isclose` assertions in binary64 |
| `ActFloats.v` | `conditional_graph.py` `activation_graph` in binary64; the node colours of `activation_graph.py` `visualize` |
| `Experiments.v` | the closed formula of `experiments/outcomes_space_power.py` |
| `HashVars.v` | `__eq__`, `__hash__` of `relnet/variables_graph.py`, `folded_graph.py`, `activation_graph.py`; which classes are hashable |
| `Nets.v`, `NetFloats.v` | `experiments/comparing_with_markov_network.py`, `experiments/comparing_with_bayes_network.py` |
| `DemoBase.v` | `demo/game.py` `Grid`; Python lists with negative indices |
| `Draw.v` | `visualize` of `sample_graph.py`, `folded_graph.py`, `activation_graph.py` and `visualize_outcomes` of `sample_space.py`, as calls of pyvis `add_node` and `add_edge` |
| `Subgraphs.v` | `playaround/number_of_subgraphs.py` |
| `Manual.v` | of `playaround/pgmpy_bayes_net_test.py` `manual_bayes_net_test` with its nested functions, on exact rationals; printing left out |
| `Coins.v` | `examples/building_net_from_coin_toss.py`, the evidence of `examples/building_net_with_conditional_probability.py`; what that script and `examples/building_net_with_joint_probability.py` compute is stated in `PropsElim` |
| `Agents.v` | `demo/ghostAgents.py`, `demo/keyboardAgents.py`, `demo/demo.py`; of `demo/util.py` the counters and the sampling that ghosts use |
| `Util.v` | of `demo/util.py` `Stack`, `Queue`, `PriorityQueue`, `PriorityQueueWithFunction`, `Counter` with integer counts, `arrayInvert`, `matrixAsList`; `heapq` by contract, the arrangement of the heap is arbitrary |
| `Sampling.v` | of `demo/util.py` `nSample`, `sample`, `sampleFromCounter`, `getProbability`, `flipCoin`, `chooseFromDistribution` of pairs, on binary64; random numbers are arguments |
| `GameHeap.v` | the states of the demo game as objects on a heap: copies of `GameState`, `GameStateData`, `AgentState` and `Grid` with what they share, all writes of `generateSuccessor` and its rules, `deepCopy`, `initialize`, `__eq__` and `__hash__`; sequences of calls (proofs in `GameHeapFacts.v`, `GameHeapWrites.v`) |
| `Pacman.v` | `demo/game.py`, `demo/pacman.py`, `demo/layout.py`: the rules, layouts and the loop of the game |
| `Spec.v` | paths, connectivity, multiset sums, selections |
| `SpecSets.v`, `SpecSpace.v`, `SpecRel.v`, `SpecAct.v`, `SpecJoin.v`, `SpecSep.v` | vocabulary of the properties of sets, spaces, relation graphs, activation, joining, separation |
| `SpecText.v`, `SpecFloats.v` | vocabulary for text and floats |
| `SpecNet.v`, `SpecScripts.v`, `SpecStages.v` | distributions of networks; the networks of the experiments; chains of conditioning and joining |
| `GraphFacts` `BuilderFacts` `HistoryFacts` `QueryFacts` `BfsFacts` `BuilderMore` | proofs, C03–C17 |
| `SetFacts` `MultiFacts` `MatchFacts` `GroupFacts` | proofs, C18–C25 |
| `SpaceFacts` `FoldFacts` `FactorFacts` | proofs, C26–C31 |
| `BuildFacts` `OdoFacts` `GenFacts` `CountFacts` `UniformFacts` `PowerFacts` | proofs, C32–C36 |
| `ActFacts` | proofs, C37 |
| `JoinFacts` `ClusterFacts` `JoinOnFacts` `JoinedFacts` `CondJoinFacts` | proofs, C38–C40, C44–C46 |
| `SepFacts` | proofs, C47, C48 |
| `ProviderFacts` `HashFacts` `HeapFacts` `TextFacts` `FloatFacts` `FloatSumFacts` | proofs, C01, C02, C41, C43, C42 |
| `NetFacts` `NetNames` `NetBuild` `NetInfer` `NetDist` `StarBuild` `MarkovFacts` `MarkovInfer` `BayesFacts` `BayesBuild` `BayesJoint` `BayesInfer` `StageFacts` | proofs, C49–C51 |
| `HashVarsFacts` `FoldEq` / `SpecProb` `ProbFacts` | proofs, C52 / C53 |
| `SpecActFloat` `MapOrder` `ActFloatFacts` `ActFloatMain` `ActColor` | vocabulary and proofs, C54 |
| `SpecDraw` `DrawFacts` `DrawSample` `DrawOutcomes` `DrawVars` `DrawMain` `PropsDraw` | drawings, C60 |
| `SpecElim` `ElimFacts` `PropsElim` | joining factors of any space variable by variable, C39, C40, C62 |
| `SpecSubgraphs` `SubgraphFacts` `SpecCoins` `CoinFacts` `PropsToys` | scripts, C61 and C62 |
| `SpecAgents` `AgentFacts` `AgentMain` `PropsAgents` | agents of the demo, C63 |
| `SpecUtil` `UtilFacts` `CounterFacts` `MatrixFacts` `PropsUtil` | containers, counters and matrices of the demo, C64 |
| `SpecSampling` `SamplingFacts` `SamplingShares` `SamplingMain` `PropsSampling` | sampling functions of the demo, C67 |
| `SpecManual` `ManualFacts` `PropsManual` | the manual Bayesian network of the playaround script, C68 |
| `SpecPacman` `DemoGridFacts` `PacmanMove` `PacmanStep` `PacmanInv` `PacmanLayout` `PacmanGame` `PacmanScore` `DemoPack` `PacmanMain` `PacmanExamples` | vocabulary, proofs and boards, C55–C59 |
| `Examples.v` `ExamplesSets.v` `NetChecks.v` | concrete objects, boolean checkers of hypotheses |
| `Props*.v` | the property theorems only, with `Print Assumptions` and examples |
| `RepoTests.v`, `RepoTestsSets.v`, `RepoTestsJoin.v` | the unit tests of the repository (`test/relnet/test_*.py`) with their data and expected results, evaluated on the model for two iteration orders: evidence that the model does what the authors expect of the code, not part of any proof. One test is stale: `TestDirectedRelation.test_repr` expects `b[a->r]`, the code gives `r[a->b]` |

## 3. How each property is proved

(S) = direct set/map reasoning, (I) = invariant by induction over operation lists, (R) = refinement,
(O) = order independence via oracle, (W) = refutation with a computed witness.

* C01 provider as a state machine with object identities; (I) over call histories.
* C02 hash functions as arbitrary parameters, frozenset hash as the CPython xor scheme; (O).
* C03 fuelled DFS `trace`; completeness/soundness against reflexive-transitive closure; (O).
* C04 case analysis + frame; C05 (I) over op lists with failures; C06 (W) + (I) for join.
* C07 worklist invariant, closure characterisation, (O); C08 (W).
* C09, C10, C11 (S)+(I) over the edge list; C12, C13, C16, C17 (S).
* C14 BFS layers by induction on fuel; C15 (S)+(W).
* C18 (R) to a map; C19, C20 (S)/(O); C21 rational arithmetic.
* C22 scan invariant (O); C23, C24 (O)+(W); C25 (W)+ theorem under no-collision.
* C26, C28 aggregate invariants of the nested loops; C27, C29, C31 (S)(O); C30 (O).
* C32 (I); C33 odometer enumeration + replacement loop; C34 bijective counting; C35 value swap bijection.
* C36 (S); C37 loops' invariants; C38, C39 selections/product invariants (O); C40 (W); C44 from C39.
* C41 heap model, ownership invariant (I), (W) for the gaps; C42 Flocq error analysis; C43 sorted strings.
* C45, C46 exact conditions for success of joining, by induction on the remaining factors.
* C47 exchange argument on selections of outcomes; C48 sums over it.
* C49, C50 the relation graph built by the script holds the factors of the network (I); then C39/C46 for
  joining, C36 for evidence, and sums of products for marginals.
* C51 the joined graph is itself joinable; (I) over the list of stages.
* C52 laws of a disjoint sum of lawful classes under Python's dispatch; folded graphs read back from objects.
* C54 the float and the exact run in lock step over the same iteration order, with an error invariant (I).
* C53 counting: an outcome observing `v` observes one value (S); chain rule (I) over the list.
* C55 words of 30 bits against one list of bits (I); C56 invariant of `generateSuccessor` (I) and (W);
  C57 case analysis of a move, then (I) over plays; C58 (I) over rounds; C59 (I) over the characters.
* C60 the calls of pyvis as a list, folded over the drawing so far (I); C61 enumeration of edge subsets (S), sizes by float evaluation;
  C62 (I) over the reports; C63 case analysis of the agents, sampling in binary64; C64 (R) of the containers to lists and maps.
* C65 (R) from the heap of objects to values, with a frame: which objects a call writes; (I) over sequences of calls.
* C66 monotonicity in the limit, distance of what a bounded search visits (I), chains as witnesses for every limit (I).
* C67 (I) over the loops; rounding errors of the running sums (I), witnesses for the failures.
* C68 (I) over the dict loops and the list of root tables; witnesses for the refuted parts.

## 4. Trusted base

* Coq's kernel (including its virtual machine for the computed witnesses; `coqchk` rechecks them
  without it).
* The correspondence, by reading, of each definition with the lines of `/repo` cited in its comment.
* std++ and Flocq add no axioms of their own.
* No axiom, parameter or unfinished proof of our own.

`Print Assumptions` was run for every theorem (379).

These 48 use axioms of Coq's standard library, through its real numbers (`ClassicalDedekindReals.sig_forall_dec`, `ClassicalDedekindReals.sig_not_dec`, `Classical_Prop.classic`, `FunctionalExtensionality.functional_extensionality_dep`):

`C42_compensated_sum_close`, `C42_marginals`, `C42_marginals_compensated`, `C42_probabilities`, `C42_probabilities_compensated`, `C42_probability_of`, `C42_quotient`, `C42_sum_close`, `C42_sum_error`, `C50_float_counts`, `C50_float_hundredths`, `C54_activation_floats`, `C54_close_to_spec`, `C54_color`, `C54_color_evidence`, `C54_color_no_values`, `C54_color_order`, `C54_order_refuted`, `C60_active`, `C60_active_absent`, `C60_active_no_values`, `C60_active_undrawable`, `C61_draws_all`, `C61_nine_refuted`, `C61_too_few`, `C61_up_to_eight`, `C63_demo`, `C63_directional_ghost`, `C63_medium_classic`, `C63_no_action`, `C63_other_probability_refuted`, `C63_random_ghost`, `C63_walled_ghost_refuted`, `C67_choose`, `C67_choose_shares`, `C67_draws_determined`, `C67_flip_coin`, `C67_get_probability`, `C67_n_sample`, `C67_n_sample_nonzero`, `C67_n_sample_raises_refuted`, `C67_n_sample_shares`, `C67_no_values`, `C67_sample`, `C67_sample_from_counter`, `C67_sample_raises_refuted`, `C67_sample_shares`, `C67_zero_weight_refuted`.

The other 331 are closed under the global context:

* `C01_content`, `C01_edge_accepted`, `C01_edge_value`, `C01_edges_shared`, `C01_node_accepted`, `C01_node_value`, `C01_nodes_shared`, `C01_provider_accepted`, `C01_rejected_unchanged`
* `C02_contract`, `C02_graph_equality`, `C02_values`
* `C03_is_edges_connected`
* `C04_add_directed_relation`, `C04_add_relation`
* `C05_built_graphs`
* `C06_build_from_edges_refuted`, `C06_join_brings_no_second_value`, `C06_join_keeps_single_valued`, `C06_two_values_refuted`
* `C07_can_sample_be_joined`, `C07_check_needed`, `C07_check_sufficient_refuted`, `C07_join_is_union`, `C07_join_sample`, `C07_order_independent`
* `C08_join_leftovers`, `C08_join_not_atomic_refuted`, `C08_not_atomic_any_order_refuted`
* `C09_build_from_edges`, `C09_build_from_edges_unvalidated`, `C09_parallel_edges_refuted`
* `C10_builder_copy`, `C10_builder_of_graph`, `C10_copy_of_parallel_refuted`, `C10_outcomes_view`, `C10_rebuild`, `C10_view_injective`
* `C11_keeps_simple`, `C11_keeps_well_formed`, `C11_replacing_back`, `C11_transform`
* `C12_is_subgraph`, `C12_order`
* `C13_similarity`
* `C14_belt_nodes`, `C14_equal_distance_edge_refuted`, `C14_external_nodes`, `C14_no_start_nodes`
* `C15_neighboring_values`, `C15_neighboring_values_parallel`, `C15_opposite_endpoint`, `C15_parallel_order_refuted`
* `C16_order_independence`, `C16_point_queries`
* `C17_laws`, `C17_restriction`
* `C18_builder_history`, `C18_equal`, `C18_items_and_length`, `C18_since_last_removal`
* `C19_join_sample_set`, `C19_join_sample_set_any_order`, `C19_union`, `C19_union_associative`, `C19_union_commutative`, `C19_union_order_independent`, `C19_union_unit`
* `C20_filter`, `C20_filter_splits`, `C20_filters_compose`
* `C21_distribution`, `C21_probabilities`, `C21_probability_of`
* `C22_is_all_values_match`
* `C23_can_join_samples`, `C23_necessary`, `C23_not_sufficient_refuted`, `C23_values_match`
* `C24_all_orders`, `C24_make_joined_sample`, `C24_order_dependent_refuted`, `C24_some_order`
* `C25_group_intersecting`, `C25_name_split_refuted`, `C25_names_collide_refuted`, `C25_not_iterable`, `C25_same_variables_refuted`, `C25_sample_lost_refuted`, `C25_terminates`
* `C26_marginals`, `C26_order_independent`, `C26_value_u_raises`, `C26_value_u_silent_refuted`
* `C27_included_relations`, `C27_included_variables`, `C27_included_variables_order_independent`, `C27_set_queries`
* `C28_agrees_with_marginals`, `C28_folded_graph`, `C28_marginal_distribution`, `C28_order_independent`, `C28_unobserved_count`, `C28_value_unobserved_lost`
* `C29_composition`, `C29_empty_query`, `C29_find`, `C29_monotone`
* `C30_agree`, `C30_factorized`, `C30_is_factorized`, `C30_partition`
* `C31_is_joined`
* `C32_accumulates`, `C32_constructor`, `C32_continue`, `C32_history_determined`
* `C33_generates_all`, `C33_nonempty_builder`, `C33_order_independent`
* `C34_comb`, `C34_number_of_outcomes`
* `C35_experiment`, `C35_uniform`
* `C36_commute`, `C36_conditional`, `C36_idempotent`, `C36_length`
* `C37_activation`, `C37_determined`, `C37_empty_evidence`, `C37_no_outcomes`, `C37_two_values_refuted`
* `C38_joined_on_one_variable`, `C38_joined_on_variables`, `C38_order_refuted`
* `C39_any_support`, `C39_complete_outcomes`, `C39_is_joined`, `C39_make_joined`, `C39_missing_value_refuted`
* `C40_acyclic_succeeds`, `C40_any_order`, `C40_missing_value_refuted`, `C40_result_order_independent`, `C40_success_order_refuted`, `C40_variable_order`, `C40_visited`
* `C41_constructors`, `C41_copied_containers`, `C41_frozen`, `C41_graph_build`, `C41_graph_builder_calls`, `C41_graph_builder_created`, `C41_graph_builder_own_calls`, `C41_set_build`, `C41_set_builder_add`, `C41_set_builder_copy`, `C41_set_builder_own_calls`, `C41_set_to_builder`, `C41_shared_declarations_refuted`, `C41_shared_nodes_refuted`, `C41_shared_outcomes_refuted`, `C41_shared_sets_refuted`, `C41_space_build`, `C41_space_builder`
* `C43_ambiguous_refuted`, `C43_name_any_order`, `C43_name_identifies`, `C43_print_any_order`, `C43_print_identifies`, `C43_set_any_order`, `C43_set_identifies`, `C43_text_view_any_order`, `C43_text_view_disconnected_refuted`, `C43_text_view_identifies`, `C43_text_view_is_name`
* `C44_commute`, `C44_condition_then_join`, `C44_conditioned_joinable`, `C44_two_node_evidence_refuted`
* `C45_failed_builder_refuted`, `C45_reused_builder_refuted`
* `C46_conditioned_succeeds`, `C46_two_kinds_succeeds`
* `C47_conditional_independence`, `C47_exchange`
* `C48_not_separated_refuted`, `C48_separation`
* `C49_markov_inference`, `C49_markov_joint`, `C49_markov_stages`, `C49_repeated_pair_refuted`
* `C50_bayes_inference`, `C50_bayes_joint`, `C50_chain_rule`, `C50_substring_names_refuted`
* `C51_join_twice`, `C51_joined_joinable`, `C51_stages`
* `C52_contract`, `C52_folded_activation`, `C52_folded_meaning`, `C52_marginals_refuted`, `C52_same_class`, `C52_unhashable`
* `C53_bayes_rule`, `C53_chain_rule`, `C53_joined`, `C53_total_probability`, `C53_unobserved_variable_refuted`
* `C55_as_list`, `C55_count`, `C55_hash`, `C55_pack_roundtrip`
* `C56_ghost_choices`, `C56_legal`, `C56_open_border_refuted`, `C56_over`, `C56_pacman_choices`, `C56_positions`
* `C57_accounts`, `C57_caught_twice_refuted`, `C57_ghost_move`, `C57_no_food`, `C57_no_food_refuted`, `C57_pacman_move`
* `C58_goes_on`, `C58_never_raises`, `C58_turns`, `C58_walled_in_refuted`
* `C59_first_state`, `C59_layout`, `C59_long_row`, `C59_no_row`, `C59_short_row`, `C59_two_pacmans_refuted`
* `C60_digits_refuted`, `C60_empty_outcome`, `C60_folded`, `C60_folded_undrawable`, `C60_label_refuted`, `C60_outcome_ids`, `C60_outcomes`, `C60_parallel_refuted`, `C60_readable_names`, `C60_same_names_refuted`, `C60_sample`, `C60_sample_exact`
* `C62_describe`, `C62_distinct`, `C62_experiment`, `C62_given`, `C62_joint`, `C62_net`, `C62_same_coin_refuted`, `C62_unambiguous`
* `C63_keyboard`, `C63_keyboard2`, `C63_keyboard_no_action`
* `C64_add`, `C64_arg_max_refuted`, `C64_array_invert`, `C64_array_invert_wide_refuted`, `C64_heap_sort`, `C64_increment_all`, `C64_item`, `C64_matrix_as_list`, `C64_matrix_raises`, `C64_mul`, `C64_priority_queue`, `C64_priority_queue_determined`, `C64_queue`, `C64_radd`, `C64_sorted_keys_refuted`, `C64_stack`, `C64_sub`, `C64_total`, `C64_with_function`, `C64_with_function_update_refuted`, `C64_zero_plus_refuted`
* `C65_deep_copy`, `C65_deep_copy_independent_refuted`, `C65_deep_copy_over_refuted`, `C65_deep_copy_writes`, `C65_equal`, `C65_flags_unused`, `C65_hash`, `C65_history`, `C65_initial`, `C65_key_kept`, `C65_parent_unchanged_refuted`, `C65_reads_unique`, `C65_successor`, `C65_successor_writes_refuted`
* `C66_connected_enough`, `C66_connected_limit`, `C66_connected_near`, `C66_cross_exact`, `C66_external`, `C66_factors_enough`, `C66_factors_needs`, `C66_group_enough`, `C66_group_exact`, `C66_join_enough`, `C66_join_limit`, `C66_join_order_refuted`, `C66_joined_limit`, `C66_joined_needs`, `C66_joined_on_limit`, `C66_joined_on_needs`, `C66_joined_on_threshold`, `C66_joined_threshold`, `C66_long_chain_refuted`, `C66_many_outcomes_refuted`, `C66_sets_exact`
* `C68_association_refuted`, `C68_conditional`, `C68_joint`, `C68_margin`, `C68_margin_total`, `C68_names_refuted`, `C68_norm`, `C68_prior_again_refuted`, `C68_product`, `C68_root_margin`, `C68_second_evidence`, `C68_select_child`, `C68_select_prior`, `C68_two_shared_refuted`, `C68_weight`

## 5. What is not modelled

* pyvis itself: `Draw.v` assumes that `add_node` asserts that the id is a `str` or `int` and ignores an id it has, and that `add_edge` asserts that both ends exist and ignores an undirected pair it has. File names, sizes and `net.show` are left out. Printing to the console, logging.
* Python's recursion limit outside C66, memory limits, integer-to-string limits, threads, signals.
* User types whose `==`/`hash` change over time or disagree (for C02 they are arbitrary but lawful;
  elsewhere `==` on `Any` is equality).
* `numpy`, `pandas`, `pgmpy`, `bayesnet` parts of the experiments (the other side of the comparison).
  The theorems replace them by the mathematical distribution.
* Of `demo/`: graphics, command line, file access, recording, time limits, `boinc`, and what section 2 does not list.
  Positions of the game are integers in half cells (all coordinates are multiples of 0.5, exact in floats below 2^52).
* The remaining experiments and playaround scripts, unless listed in section 2.
