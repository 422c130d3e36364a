{"id": "C01", "title": "Component provider returns one shared instance per node/edge and rejects undeclared ones", "statement": "For any BuilderComponentsProviders, any two get_node calls (at any two points of their lives) return the same object exactly when they were made on the same provider with equal (variable, value); the same holds for get_edge and (endpoints, relation). The constructor accepts exactly non-empty declarations. get_node succeeds exactly when the variable is declared and the value is one of its declared values; get_edge succeeds exactly when it gets two or more endpoints, all created before by this provider, its (unwrapped) relation is declared, and, for a directed relation, source and target are variables of the endpoints. A rejected call changes nothing.", "quantifier": "all declared variable/value/relation sets and all finite sequences of get_node/get_edge calls, including rejected ones", "why_tests_cant": "sharing is a relation between two arbitrary points of an unbounded call history", "anchors": [{"file": "Python/research/scripts/relnet/graph_components.py", "symbols": ["BuilderComponentsProvider.get_node", "BuilderComponentsProvider.get_edge"]}]}
{"id": "C02", "title": "Equal objects have equal hashes", "statement": "If two ValueNodes, RelationEdges, DirectedRelations, SampleGraphs, SampleSets, FoldedNodes, FoldedEdges, ActiveNodes or ActiveEdges compare ==, their __hash__ results are equal, whatever the hashes of the user's variables/values/relations are, whatever order the elements were inserted in, and whatever the display names are; and SampleGraph == holds exactly when the node sets and the edge sets are equal.", "quantifier": "all objects, all underlying hash functions, all insertion orders", "why_tests_cant": "a violation shows up only for particular hash seeds / insertion orders", "anchors": [{"file": "Python/research/scripts/relnet/graph_components.py", "symbols": ["ValueNode.__hash__", "RelationEdge.__hash__", "DirectedRelation.__hash__"]}, {"file": "Python/research/scripts/relnet/sample_graph.py", "symbols": ["SampleGraph.__eq__", "SampleGraph.__hash__"]}, {"file": "Python/research/scripts/relnet/sample_set.py", "symbols": ["SampleSet.__eq__", "SampleSet.__hash__"]}, {"file": "Python/research/scripts/relnet/folded_graph.py", "symbols": ["FoldedNode.__hash__", "FoldedEdge.__hash__"]}, {"file": "Python/research/scripts/relnet/activation_graph.py", "symbols": ["ActiveNode.__hash__", "ActiveEdge.__hash__"]}]}
{"id": "C03", "title": "is_edges_connected decides connectivity", "statement": "For a non-empty set of edges, each with two endpoints, SampleGraphBuilder.is_edges_connected returns True exactly when any two endpoint nodes are linked by a path of the given edges, independently of the iteration order of any set. An edge whose endpoint set does not have size 2 raises AssertionError; the empty set raises StopIteration.", "quantifier": "all finite edge sets of any size and all set-iteration orders", "why_tests_cant": "graphs are unbounded and the traversal order depends on the hash seed", "anchors": [{"file": "Python/research/scripts/relnet/sample_graph.py", "symbols": ["SampleGraphBuilder.is_edges_connected"]}]}
{"id": "C04", "title": "add_relation: exact acceptance condition, exact effect, no effect when it raises", "statement": "add_relation(endpoints, relation) succeeds exactly when: there are two endpoints with different variables, all declared; the relation is declared (and a directed one names endpoint variables); the builder is empty or already has one of the endpoints; and no edge between these two nodes was added before. On success the builder has exactly the old nodes and edges plus the two endpoints and the one new edge; when it raises, the builder is unchanged. add_directed_relation(source, target, r) is add_relation with the directed relation source.variable -> target.variable.", "quantifier": "all builder states, endpoint sets and relations", "why_tests_cant": "acceptance is a conjunction of conditions over arbitrary states; frame conditions are universally quantified", "anchors": [{"file": "Python/research/scripts/relnet/sample_graph.py", "symbols": ["SampleGraphBuilder.add_relation", "SampleGraphBuilder.add_directed_relation", "SampleGraphBuilder.validate_endpoints"]}]}
{"id": "C05", "title": "Every sample graph built incrementally is connected and well formed", "statement": "After any sequence of add_relation, add_directed_relation and join_sample calls (including calls that raised and were caught, and including partially executed joins) on a fresh builder, whenever build() returns, the graph is non-empty and connected, every edge joins two distinct nodes of the graph with different variables, no two edges join the same two nodes, and all nodes and relations were declared. build() raises exactly when nothing has been added.", "quantifier": "all finite operation histories with arbitrary arguments", "why_tests_cant": "invariant over unbounded histories with caught exceptions", "anchors": [{"file": "Python/research/scripts/relnet/sample_graph.py", "symbols": ["SampleGraphBuilder.add_relation", "SampleGraphBuilder.join_sample", "SampleGraphBuilder.build"]}]}
{"id": "C06", "title": "Which builder operations keep one value per variable", "statement": "join_sample never introduces a second value of a variable, whether it succeeds or raises: every variable that newly got a value had none. For add_relation and build_from_edges this guarantee fails: there are accepted calls after which a built sample graph has two nodes with the same variable and different values (which value_for_variable, marginals and activation do not expect).", "quantifier": "all builder histories", "why_tests_cant": "needs a universally quantified claim (or a witness of its failure) over histories", "anchors": [{"file": "Python/research/scripts/relnet/sample_graph.py", "symbols": ["SampleGraphBuilder.add_relation", "SampleGraphBuilder.build_from_edges", "SampleGraphBuilder.join_sample", "SampleGraph.value_for_variable"]}]}
{"id": "C07", "title": "join_sample: succeeds exactly when the union is legal, independently of iteration order", "statement": "join_sample(sample) succeeds exactly when the sample is compatible and: (edge sample) every edge of the sample is reachable from the builder's nodes (or the builder is empty and the sample's edges are connected), no sample edge has the endpoints of a builder edge with another relation (nor two sample edges the same endpoints), and no newly added node's variable already has another value; (single node) the node is present or the builder is empty. On success the builder holds exactly the union of nodes and edges. Success and result do not depend on set iteration order.", "quantifier": "all builders, samples and iteration orders", "why_tests_cant": "iteration order of sets depends on the hash seed; number of passes is unbounded", "anchors": [{"file": "Python/research/scripts/relnet/sample_graph.py", "symbols": ["SampleGraphBuilder.join_sample"]}]}
{"id": "C08", "title": "join_sample is not atomic", "statement": "There are a builder and a sample such that join_sample raises for every iteration order and the builder's nodes and edges are afterwards not what they were before the call (edges processed before the conflict stay added). What any refused join leaves behind is exactly some set of edges of the sample together with their endpoints; the rest of the builder is as before, and a sample of another provider changes nothing.", "quantifier": "all builders, samples and iteration orders", "why_tests_cant": "failure atomicity quantifies over all failing inputs", "anchors": [{"file": "Python/research/scripts/relnet/sample_graph.py", "symbols": ["SampleGraphBuilder.join_sample"]}]}
{"id": "C09", "title": "build_from_edges builds exactly the given edges", "statement": "On a fresh builder, build_from_edges(edges) with connectivity validation succeeds exactly when the edge set is non-empty, connected and every edge is valid and declared; the result has exactly these edges, and exactly their endpoints as nodes. It does not enforce one relation per pair of nodes.", "quantifier": "all edge sets, iteration orders", "why_tests_cant": "unbounded edge sets", "anchors": [{"file": "Python/research/scripts/relnet/sample_graph.py", "symbols": ["SampleGraphBuilder.build_from_edges"]}]}
{"id": "C10", "title": "edges_set_view and build_from_edges / build_single_node are inverse", "statement": "For every non-empty graph the library can build, rebuilding from edges_set_view() (build_from_edges for graphs with edges, build_single_node for single nodes) succeeds and gives an equal graph; graphs with equal views are equal; outcomes_as_edges_sets of two relation graphs are equal exactly when their outcomes and counts are equal.", "quantifier": "all well-formed sample graphs / sample spaces", "why_tests_cant": "round-trip over an unbounded domain", "anchors": [{"file": "Python/research/scripts/relnet/sample_graph.py", "symbols": ["SampleGraph.edges_set_view", "SampleGraphBuilder.build_from_edges", "SampleGraphBuilder.build_single_node"]}, {"file": "Python/research/scripts/relnet/sample_space.py", "symbols": ["SampleSpace.outcomes_as_edges_sets"]}]}
{"id": "C11", "title": "transform_with_replaced_values replaces exactly the requested values and keeps the structure", "statement": "For a well-formed sample the call succeeds exactly when each replaced variable that occurs in the sample gets a declared value; the result's nodes and edges are the images of the originals under the replacement (relations and variables unchanged, connectivity and well-formedness preserved); if nothing changes the same instance is returned; replacing with the original values afterwards restores the graph.", "quantifier": "all sample graphs and replacement dictionaries", "why_tests_cant": "structure preservation is for all graphs and dictionaries", "anchors": [{"file": "Python/research/scripts/relnet/sample_graph.py", "symbols": ["SampleGraph.transform_with_replaced_values"]}]}
{"id": "C12", "title": "is_subgraph is the subgraph order", "statement": "a.is_subgraph(b) holds exactly when all nodes and edges of a are in b; it is reflexive, transitive, and antisymmetric with respect to ==; the empty sample is below everything.", "quantifier": "all sample graphs", "why_tests_cant": "order laws over all pairs and triples", "anchors": [{"file": "Python/research/scripts/relnet/sample_graph.py", "symbols": ["SampleGraph.is_subgraph"]}]}
{"id": "C13", "title": "similarity is the Jaccard index", "statement": "a.similarity(b) equals |common nodes and edges| / |all nodes and edges| , is symmetric, lies in [0,1], is 1 exactly when a == b and 0 exactly when nothing is shared; it raises ZeroDivisionError exactly when both are empty.", "quantifier": "all pairs of sample graphs", "why_tests_cant": "laws over all pairs", "anchors": [{"file": "Python/research/scripts/relnet/sample_graph.py", "symbols": ["SampleGraph.similarity"]}]}
{"id": "C14", "title": "belt_nodes / external_nodes are one BFS layer / the whole reachable outside", "statement": "With non-empty start nodes, belt_nodes maps each outside node adjacent (through edges allowed by the filter) to a start node to exactly those edges; external_nodes always terminates without raising and its keys are exactly the nodes outside the start set reachable from it through allowed edges, each mapped to exactly the allowed edges coming from nodes one BFS step closer. Start set empty: AssertionError. An empty filter means no filter. Expected gap: edges between two nodes at equal distance are reported for neither node.", "quantifier": "all graphs, start sets, filters and iteration orders", "why_tests_cant": "unbounded graph search; order depends on hash seed", "anchors": [{"file": "Python/research/scripts/relnet/sample_graph.py", "symbols": ["SampleGraph.belt_nodes", "SampleGraph.external_nodes"]}]}
{"id": "C15", "title": "neighboring_values lists exactly the neighbours", "statement": "In a graph with at most one edge per pair of nodes, neighboring_values(center, filter) maps exactly the nodes joined to center by an allowed edge, each to that edge; opposite_endpoint is an involution on an edge's endpoints and raises for other nodes. With parallel edges the reported edge depends on iteration order.", "quantifier": "all graphs, centers, filters, iteration orders", "why_tests_cant": "order dependence is invisible to a single run", "anchors": [{"file": "Python/research/scripts/relnet/sample_graph.py", "symbols": ["SampleGraph.neighboring_values"]}, {"file": "Python/research/scripts/relnet/graph_components.py", "symbols": ["RelationEdge.opposite_endpoint", "RelationEdge.is_endpoint"]}]}
{"id": "C16", "title": "Point queries on a sample agree with each other", "statement": "have_value(v,x) iff (v,x) in values(); have_variable(v) iff v in included_variables iff some value of v is in values(); value_for_variable(v) is None iff not have_variable(v) and otherwise returns a value the sample has; it is independent of iteration order exactly when the sample has one value per variable.", "quantifier": "all samples, variables, values, iteration orders", "why_tests_cant": "universally quantified agreement", "anchors": [{"file": "Python/research/scripts/relnet/sample_graph.py", "symbols": ["SampleGraph.value_for_variable", "SampleGraph.values", "SampleGraph.have_value", "SampleGraph.have_variable", "SampleGraph.included_variables"]}]}
{"id": "C17", "title": "variables_subgraph_hash is the induced restriction", "statement": "It contains exactly the nodes whose variable is selected and the edges all of whose endpoint variables are selected; selecting all the sample's variables gives the whole content, selection is monotone and two successive selections equal selecting the intersection.", "quantifier": "all samples and variable sets", "why_tests_cant": "algebraic laws over all sets", "anchors": [{"file": "Python/research/scripts/relnet/sample_graph.py", "symbols": ["SampleGraph.variables_subgraph_hash", "SampleGraph.edges_endpoint_variables"]}]}
{"id": "C18", "title": "A sample-set builder is a counter", "statement": "After any sequence of add, add_all, remove, remove_all, copy, build (including rejected ones), count_of(s) is the sum of the counts added for graphs equal to s since s was last removed; count_of/remove of an absent sample and add of an incompatible one raise and change nothing; length() and SampleSet.length are the sum of all counts; samples()/items() list each distinct graph once.", "quantifier": "all finite operation histories", "why_tests_cant": "refinement over unbounded histories", "anchors": [{"file": "Python/research/scripts/relnet/sample_set.py", "symbols": ["SampleSetBuilder.add", "SampleSetBuilder.add_all", "SampleSetBuilder.remove", "SampleSetBuilder.remove_all", "SampleSetBuilder.length", "Samples.count_of", "Samples.items", "SampleSet.length"]}]}
{"id": "C19", "title": "union is multiset addition", "statement": "union adds counts pointwise; it is commutative, associative, has the empty set as unit and adds lengths, independently of iteration order; join_sample_set of a non-empty list is the sum of all its members in any order, of the empty list raises; union of sets of different providers raises.", "quantifier": "all sample sets and lists of sample sets", "why_tests_cant": "algebraic laws", "anchors": [{"file": "Python/research/scripts/relnet/sample_set.py", "symbols": ["SampleSet.union", "SampleSetBuilder.join_sample_set"]}]}
{"id": "C20", "title": "filter_samples splits a sample set without loss", "statement": "filter_samples(p) has exactly the samples satisfying p with unchanged counts; filtering with p and with not p and uniting gives back the original; lengths add up; filters commute.", "quantifier": "all sample sets and predicates", "why_tests_cant": "laws over all predicates", "anchors": [{"file": "Python/research/scripts/relnet/sample_set.py", "symbols": ["SampleSet.filter_samples"]}]}
{"id": "C21", "title": "Sample probabilities form a distribution", "statement": "For a non-empty sample set with positive counts, probabilities() returns each sample once with probability count/length in (0,1], they sum to exactly 1 in exact arithmetic (so the internal assertion does not fire), and probability_of agrees with it; for the empty set probabilities() raises.", "quantifier": "all sample sets with positive counts", "why_tests_cant": "for all counts and sizes", "anchors": [{"file": "Python/research/scripts/relnet/sample_set.py", "symbols": ["SampleSet.probabilities", "SampleSet.probability_of"]}]}
{"id": "C22", "title": "is_all_values_match detects exactly the conflicting sample sets", "statement": "is_all_values_match() is True exactly when no two nodes occurring anywhere in the set (same sample or different samples) share the variable but not the value; independent of dictionary and set order; True for the empty set.", "quantifier": "all sample sets and iteration orders", "why_tests_cant": "early-exit scan over unbounded data", "anchors": [{"file": "Python/research/scripts/relnet/sample_set.py", "symbols": ["SampleSet.is_all_values_match"]}]}
{"id": "C23", "title": "What can_join_samples decides, and that it is necessary but not sufficient for make_joined_sample", "statement": "can_join_samples returns True exactly when, on every variable common to ALL samples, all agree; values matching implies it; whenever make_joined_sample returns it is True; it raises TypeError on the empty set. It is not sufficient: there are sample sets for which it returns True and make_joined_sample raises for every dictionary order (conflicts on variables shared by only some of the samples are missed).", "quantifier": "all sample sets", "why_tests_cant": "implication over all sample sets", "anchors": [{"file": "Python/research/scripts/relnet/sample_set.py", "symbols": ["SampleSet.can_join_samples", "SampleSet.make_joined_sample"]}]}
{"id": "C24", "title": "make_joined_sample builds the union of the samples; for which dictionary orders", "statement": "Whenever make_joined_sample returns, the sample is the union of all nodes and edges of all samples, it is connected, and the list contains exactly the counts. It returns for every dictionary order exactly when the set is non-empty, values match, no two edges join the same nodes, and any two samples share a node; it returns for some order exactly when, instead of sharing nodes pairwise, the union of the samples is connected. So success can depend on the dictionary order.", "quantifier": "all sample sets and dictionary orders", "why_tests_cant": "order dependence, unbounded sets", "anchors": [{"file": "Python/research/scripts/relnet/sample_set.py", "symbols": ["SampleSet.make_joined_sample"]}]}
{"id": "C25", "title": "group_intersecting: partition into chained groups when keys cannot collide; samples lost otherwise", "statement": "group_intersecting always ends. If no two collections of differently shaped samples have the same united variable pairs and the variables of single-node samples iterate to themselves, every sample is in exactly one returned group with its count, two samples are in one group exactly when linked by a chain of samples overlapping in an edge variable pair, the group key is the set of its variables, and the call raises exactly when two groups have the same variables. Without these conditions it is wrong: a merged key may overwrite another group so that samples disappear, names of single-node variables are split into characters, variables that cannot be iterated raise TypeError.", "quantifier": "all sample sets and dictionary orders", "why_tests_cant": "fix-point merging on unbounded families; failure depends on order", "anchors": [{"file": "Python/research/scripts/relnet/sample_set.py", "symbols": ["SampleSet.group_intersecting"]}]}
{"id": "C26", "title": "Marginals are exact count ratios and sum to one", "statement": "For outcomes with one value per variable and positive counts, marginal_variables_probability(vars) has exactly the requested variables that occur in the outcomes; P(var=val) is (total count of outcomes having val)/(total count of outcomes having var), or with unobserved=True over the total length plus entry 'u' for the outcomes lacking var; each distribution sums to 1 so no assertion fires; independent of iteration order. A value literally named 'u' must not occur when unobserved=True: its entry is overwritten, so the call raises AssertionError unless its share of the count is below the tolerance 1e-9, in which case the value silently gets a wrong probability.", "quantifier": "all sample spaces, variable sets, iteration orders", "why_tests_cant": "for all data; arithmetic identity", "anchors": [{"file": "Python/research/scripts/relnet/sample_space.py", "symbols": ["SampleSpace.marginal_variables_probability"]}]}
{"id": "C27", "title": "included_variables and included_relations list exactly what occurs", "statement": "included_variables pairs every variable occurring in some outcome with exactly the values occurring; included_relations is exactly the set of relations on edges of outcomes.", "quantifier": "all sample spaces", "why_tests_cant": "set equality for all inputs", "anchors": [{"file": "Python/research/scripts/relnet/sample_space.py", "symbols": ["SampleSpace.included_variables", "SampleSpace.included_relations"]}]}
{"id": "C28", "title": "The folded graph counts nodes and edges exactly", "statement": "folded_graph has one node per occurring variable, whose count for a value node is the total count of outcomes containing it, and one edge per occurring endpoint-variable pair with the total count of outcomes containing each relation edge; FoldedNode.marginal_distribution is count/length per declared value plus 'unobserved' for the rest, sums to 1 and agrees with marginal_variables_probability(unobserved=True). A value named 'unobserved' must not occur: its entry is overwritten and the distribution silently sums to less than 1.", "quantifier": "all sample spaces with one value per variable, iteration orders", "why_tests_cant": "aggregate identities over unbounded data", "anchors": [{"file": "Python/research/scripts/relnet/sample_space.py", "symbols": ["SampleSpace.folded_graph"]}, {"file": "Python/research/scripts/relnet/folded_graph.py", "symbols": ["FoldedNode.marginal_distribution", "FoldedNode.unobserved_count", "FoldedGraph.folded_node"]}]}
{"id": "C29", "title": "find_for_values selects exactly the matching outcomes", "statement": "find_for_values(vs) contains exactly the outcomes having all given values with their counts; the empty query returns all outcomes; searching for A then B equals searching for A union B; results shrink as the query grows.", "quantifier": "all sample spaces and queries", "why_tests_cant": "laws over all queries", "anchors": [{"file": "Python/research/scripts/relnet/sample_space.py", "symbols": ["SampleSpace.find_for_values"]}]}
{"id": "C30", "title": "factorized and is_factorized agree and split without loss", "statement": "For non-empty-graph outcomes, factorized() returns exactly when is_factorized() is True, for every iteration order; then the factors are pairwise disjoint, each non-empty, every outcome is in exactly one factor with its count, and two outcomes share a factor exactly when they have the same edge variable pairs (same variable for single nodes). If some outcome is empty or two outcomes overlap only partially, factorized raises AssertionError.", "quantifier": "all sample spaces and iteration orders", "why_tests_cant": "order dependent early exit", "anchors": [{"file": "Python/research/scripts/relnet/sample_space.py", "symbols": ["SampleSpace.factorized"]}, {"file": "Python/research/scripts/relnet/relation_graph.py", "symbols": ["RelationGraph.is_factorized"]}]}
{"id": "C31", "title": "is_joined decides whether all outcomes cover the same variables", "statement": "is_joined() is True exactly when all outcomes have the same set of variables (True for no outcomes), for every iteration order.", "quantifier": "all relation graphs", "why_tests_cant": "universal over outcomes", "anchors": [{"file": "Python/research/scripts/relnet/relation_graph.py", "symbols": ["RelationGraph.is_joined"]}]}
{"id": "C32", "title": "Relation graph building accumulates exactly the accepted outcomes", "statement": "After any sequence of add_outcome/add_outcomes/build_sample calls (rejected ones included), build() returns a relation graph whose count for a graph is the sum of the accepted counts; all counts are >= 1; outcomes.length is their sum; counts < 1 and foreign outcomes are rejected; build raises exactly when nothing was accepted.", "quantifier": "all finite call histories", "why_tests_cant": "invariant over histories", "anchors": [{"file": "Python/research/scripts/relnet/relation_graph.py", "symbols": ["RelationGraphBuilder.add_outcome", "RelationGraphBuilder.add_outcomes", "RelationGraphBuilder.build", "RelationGraphBuilder.build_sample", "RelationGraphBuilder.__init__"]}]}
{"id": "C33", "title": "generate_all_possible_outcomes generates every outcome exactly once", "statement": "On an empty builder with any declared variables, values and relations, the call terminates without raising for every set order, and the result contains, with count 1 each, exactly the non-empty connected sample graphs over the declared variables with one declared value per variable and one declared (undirected) relation per connected pair.", "quantifier": "all declared variable/value/relation sets and iteration orders", "why_tests_cant": "combinatorial completeness for all sizes", "anchors": [{"file": "Python/research/scripts/relnet/relation_graph.py", "symbols": ["RelationGraphBuilder.generate_all_possible_outcomes"]}]}
{"id": "C34", "title": "The number of generated outcomes follows the closed recursion", "statement": "For n variables with m values each and r relations, generate_all_possible_outcomes yields sum_k C(n,k) m^k c_k outcomes, where c_k follows the recursion used in experiments/outcomes_space_power.py.", "quantifier": "all n, m, r", "why_tests_cant": "counting identity for all sizes; the experiment checks n,m,r <= 4", "anchors": [{"file": "Python/research/scripts/relnet/relation_graph.py", "symbols": ["RelationGraphBuilder.generate_all_possible_outcomes"]}, {"file": "Python/research/scripts/experiments/outcomes_space_power.py", "symbols": ["calc_number_of_outcomes"]}]}
{"id": "C35", "title": "All values of a variable are equally likely over the complete outcome space", "statement": "In the relation graph of all possible outcomes, every declared value of a variable has the same marginal probability (1 divided by the number of its values, unobserved outcomes excluded), and in the folded graph each value is more likely than the variable being unobserved.", "quantifier": "all declared sets", "why_tests_cant": "symmetry argument for all sizes; the experiment checks sizes <= 3", "anchors": [{"file": "Python/research/scripts/relnet/relation_graph.py", "symbols": ["RelationGraphBuilder.generate_all_possible_outcomes"]}, {"file": "Python/research/scripts/experiments/random_variables_distribution_for_all_outcomes.py", "symbols": ["calc_variables_distribution"]}]}
{"id": "C36", "title": "Conditioning keeps exactly the outcomes consistent with or unrelated to the evidence", "statement": "conditional_graph(evidence) keeps, with unchanged counts, exactly the outcomes that contain the evidence as subgraph or share no variable with it; it is idempotent, order of two conditionings does not matter, never increases the length, and raises exactly for foreign evidence.", "quantifier": "all relation graphs and evidences", "why_tests_cant": "laws over all evidences", "anchors": [{"file": "Python/research/scripts/relnet/relation_graph.py", "symbols": ["RelationGraph.conditional_graph"]}]}
{"id": "C37", "title": "Activation weights are exactly the documented averages and no internal assertion fires", "statement": "For a conditional graph of outcomes with one value per variable, activation_graph with non-empty evidence and at least one outcome raises nothing; it has one node per declared variable, flagged in_query iff the evidence has the variable; an evidence value's weight is (count of outcomes containing it)/length, another value's weight is sum of similarity*count over outcomes in which it is externally reachable through allowed relations, divided by length; all weights lie in [0,1]; edge counts are exact; empty outcomes raise ZeroDivisionError.", "quantifier": "all conditional graphs, filters, iteration orders", "why_tests_cant": "aggregates over unbounded data; internal 'this is a bug' assertions", "anchors": [{"file": "Python/research/scripts/relnet/conditional_graph.py", "symbols": ["ConditionalGraph.activation_graph"]}]}
{"id": "C38", "title": "joined_on_variables joins consistent outcomes with product counts", "statement": "Joining on one variable leaves outcomes without it untouched and replaces the others by the unions of consistent selections of one outcome from each group, with the product of the counts. For a factorized relation graph that has at least one consistent choice of an outcome per kind, joining on a set of variables (or on all) gives exactly the consistent selections per cluster linked through those variables, with product counts, for every iteration order that returns; the only error is AssertionError, and only if two different collections of kinds are over exactly the same variables, because the grouping of C25 refuses them. As in C25, merged keys must not collide (one variable form) and variables of single-node outcomes must iterate to themselves. Without a consistent choice the result depends on the order (refutation).", "quantifier": "all relation graphs (factorized for the multi-variable form), iteration orders", "why_tests_cant": "nested joins over unbounded data", "anchors": [{"file": "Python/research/scripts/relnet/relation_graph.py", "symbols": ["RelationGraph.joined_on_variables"]}]}
{"id": "C39", "title": "make_joined computes the product distribution", "statement": "For a factorized relation graph in which every factor has an outcome for every combination of occurring values of its variables, whenever make_joined returns, its outcomes are exactly the consistent selections of one outcome per factor (each covering all variables), with count the product of the selected counts, for every iteration order, and is_joined holds of the result; when it does not return it raises AssertionError, and only for a disconnected or cyclic graph. For every factorized relation graph, with full support or not, make_joined returns exactly if the variables can be eliminated one by one in the order visited leaving at most one factor, and returns that factor: for each variable the factors over it are replaced by one that has, for each value, the consistent selections of one outcome with the value from each factor that has such an outcome, with the product of their counts; this is impossible if no factor has an outcome with a value, or if outcomes disagree on a variable but agree on those common to all. Without full support a missing value is treated as neutral instead of probability zero, so an outcome that is no consistent selection can survive (refutation).", "quantifier": "all factorized relation graphs (sharper for full support), iteration orders", "why_tests_cant": "semantic equivalence to a product for all sizes", "anchors": [{"file": "Python/research/scripts/relnet/relation_graph.py", "symbols": ["RelationGraph.make_joined"]}, {"file": "Python/research/scripts/experiments/comparing_with_markov_network.py", "symbols": ["comparing_variable_joint_probability"]}]}
{"id": "C40", "title": "make_joined succeeds independently of iteration order", "statement": "For a full-support factorized relation graph all iteration orders of make_joined that return give the same result, and if the kinds are connected and acyclic every order returns. For any factorized relation graph the result depends on no iteration order but that of the variables, and every order of the variables is possible. Beyond that the outcome depends on the iteration order: there is a full-support graph (a triangle with a pendant edge) for which one order returns and another raises AssertionError, and without full support there is a connected acyclic graph for which two orders return different results and a third raises TypeError (refutations).", "quantifier": "all relation graphs, all iteration orders", "why_tests_cant": "depends on hash seed", "anchors": [{"file": "Python/research/scripts/relnet/relation_graph.py", "symbols": ["RelationGraph.make_joined"]}]}
{"id": "C41", "title": "Built objects never change", "statement": "In any history of API calls on any live objects, with the client changing the containers it holds as it likes: a SampleGraph, SampleSet or RelationGraph once obtained keeps its content; a SampleSetBuilder changes only by its own add/add_all/remove/remove_all, or by add_outcome on a RelationGraphBuilder given this very object; a SampleGraphBuilder made by SampleGraphBuilder(provider), __copy__ or SampleGraph.builder() changes only by its own methods; copies and built objects start with the content of their source; dicts given to SampleSet and SampleSetBuilder and sets returned by items() and samples() can be modified by the caller without effect. Does not hold, and refuted: independence from a non-empty set passed to the SampleGraphBuilder constructor (two builders given the same sets build a graph with two edges on the same endpoints), from a non-empty SampleSetBuilder passed to RelationGraphBuilder, and from the dict of variables passed to the provider.", "quantifier": "all histories of API calls on all live objects", "why_tests_cant": "aliasing: needs all interleavings of operations on shared objects", "anchors": [{"file": "Python/research/scripts/relnet/sample_set.py", "symbols": ["SampleSet.__init__", "SampleSetBuilder.__init__", "SampleSetBuilder.build", "SampleSetBuilder.copy"]}, {"file": "Python/research/scripts/relnet/sample_graph.py", "symbols": ["SampleGraphBuilder.__init__", "SampleGraphBuilder.__copy__", "SampleGraphBuilder.build", "SampleGraph.builder"]}, {"file": "Python/research/scripts/relnet/relation_graph.py", "symbols": ["RelationGraphBuilder.__init__", "RelationGraphBuilder.build"]}]}
{"id": "C42", "title": "The 'sums to 1' assertions hold in floating point", "statement": "With IEEE binary64 arithmetic, SampleSet.probabilities (non-empty set, positive counts of any size, at most 2^23 samples) and SampleSpace.marginal_variables_probability (fewer than 2^23 outcomes, no requested value called 'u' if unobserved) pass their isclose(p_sum, 1.0, rel_tol=1e-9) checks in every summation order, and every float they return is the double nearest to the exact rational result. The same with the compensated sum of Python 3.12+, for about 2^22 samples.", "quantifier": "all positive integer counts, all summation orders, up to 2^23 (2^22 - 2) samples", "why_tests_cant": "rounding errors over all inputs", "anchors": [{"file": "Python/research/scripts/relnet/sample_set.py", "symbols": ["SampleSet.probabilities"]}, {"file": "Python/research/scripts/relnet/sample_space.py", "symbols": ["SampleSpace.marginal_variables_probability"]}]}
{"id": "C43", "title": "Text forms of samples do not depend on iteration order and identify the sample", "statement": "The default name, text_view, the repr of a SampleSet and print_samples are the same for every set iteration order (text_view: for connected samples), and text_view is the default name. If the printed names are pairwise different, variables avoid '_', '-' and ']', values avoid ')' and relations avoid '[' and '}', then different samples have different text, and the text of a set or of print_samples identifies the samples and their counts. Without that the text is ambiguous (a_b,c vs a,b_c), and the text_view of a builder-made sample with several nodes and no edge depends on the order.", "quantifier": "all graphs and orders", "why_tests_cant": "hash-seed dependence", "anchors": [{"file": "Python/research/scripts/relnet/sample_graph.py", "symbols": ["SampleGraph.text_view", "SampleGraph.__init__"]}, {"file": "Python/research/scripts/relnet/graph_components.py", "symbols": ["ValueNode.__repr__", "RelationEdge.__repr__"]}, {"file": "Python/research/scripts/relnet/sample_set.py", "symbols": ["SampleSet.__repr__"]}, {"file": "Python/research/scripts/relnet/sample_space.py", "symbols": ["SampleSpace.print_samples"]}]}
{"id": "C44", "title": "Conditioning and joining commute", "statement": "For a full-support factorized relation graph and a single-value evidence, joining after conditioning gives exactly the joined outcomes that contain the evidence, with their counts: inference by conditioning the factors equals conditioning the joint distribution. With evidence over two variables this fails: factors with only one of them are dropped (refutation).", "quantifier": "all full-support factorized relation graphs and single-node evidences", "why_tests_cant": "semantic identity between two computation routes", "anchors": [{"file": "Python/research/scripts/relnet/relation_graph.py", "symbols": ["RelationGraph.conditional_graph", "RelationGraph.make_joined"]}, {"file": "Python/research/scripts/experiments/comparing_with_bayes_network.py", "symbols": ["comparing_inference"]}]}
{"id": "C45", "title": "A reused or failed builder can build disconnected graphs", "statement": "There are histories (a graph already built from the builder, or a call that raised and was caught) after which build_from_edges or build of a SampleGraphBuilder returns a graph that is not connected: build_from_edges checks only the connectivity of the new edges, not with what the builder already holds, and leaves partial state when it raises.", "quantifier": "all builder histories that contain build_from_edges calls", "why_tests_cant": "tests use a fresh builder for each graph; the defect needs two calls on one builder", "anchors": [{"file": "Python/research/scripts/relnet/sample_graph.py", "symbols": ["SampleGraphBuilder.build_from_edges", "SampleGraphBuilder.build"]}]}
{"id": "C46", "title": "Rings and chains of factors can be joined in every order, also after conditioning", "statement": "For a connected full-support factorized relation graph in which no variable occurs in three kinds of outcomes, make_joined never raises, whatever the set and dictionary iteration order, even when the factors form a cycle (the four-factor ring of the Markov experiment). More precisely, make_joined can raise only if the space is disconnected, or has both a cycle and a variable that occurs in three kinds. Conditioning on single values one after the other keeps this guarantee.", "quantifier": "all full-support factorized relation graphs, evidence sequences and iteration orders", "why_tests_cant": "the failing order of a cyclic space shows up only for some hash seeds; the experiment is one space under one seed", "anchors": [{"file": "Python/research/scripts/relnet/relation_graph.py", "symbols": ["RelationGraph.make_joined", "RelationGraph.conditional_graph"]}, {"file": "Python/research/scripts/experiments/comparing_with_markov_network.py", "symbols": ["comparing_variable_joint_probability", "comparing_inference"]}]}
{"id": "C47", "title": "Factors that share only some variables are conditionally independent given them", "statement": "Let a full-support factorized relation graph be split into two groups of whole factors that share only variables of S. In the joined graph, any event about the variables of one group and any event about the variables of the other are independent given values of S: count(S,E,F)*count(S) = count(S,E)*count(S,F). Outcomes that agree on S can exchange their parts, keeping the product of counts.", "quantifier": "all full-support factorized relation graphs, splits and events", "why_tests_cant": "a statement about all networks and events; the experiment evaluates one marginal of one network", "anchors": [{"file": "Python/research/scripts/relnet/relation_graph.py", "symbols": ["RelationGraph.make_joined"]}, {"file": "Python/research/scripts/experiments/comparing_with_markov_network.py", "symbols": ["relation_graph_separation"]}]}
{"id": "C48", "title": "Observing a separated variable does not change marginals", "statement": "After conditioning a full-support factorized relation graph with positive counts on values of all variables in S (one after the other), conditioning further on a variable beyond S leaves marginal_variables_probability of the joined graph unchanged for every variable on the other side of S: the assertion of relation_graph_separation, for every network. Without the observations of S this is false (refutation on the four-factor ring).", "quantifier": "all full-support factorized relation graphs with positive counts, separators, evidence sequences and iteration orders", "why_tests_cant": "the experiment asserts it for one network and one query", "anchors": [{"file": "Python/research/scripts/experiments/comparing_with_markov_network.py", "symbols": ["relation_graph_separation"]}, {"file": "Python/research/scripts/relnet/relation_graph.py", "symbols": ["RelationGraph.make_joined", "RelationGraph.conditional_graph"]}, {"file": "Python/research/scripts/relnet/sample_space.py", "symbols": ["SampleSpace.marginal_variables_probability"]}]}
{"id": "C49", "title": "The Markov network experiment computes the product distribution for every network", "statement": "For every network of pairwise factors over binary variables (positive integer factor values, no pair twice, every node in a factor, connected, and either acyclic or with no variable in three factors), make_relation_graph followed by make_joined succeeds and _get_relation_graph_prop returns exactly the distribution proportional to the product of the factors; after conditional_graph on a value (comparing_inference), or any sequence of conditioning and joining that ends with joining (relation_graph_separation), it returns the corresponding conditional distribution. Two factors for the same pair are added instead of multiplied (refutation).", "quantifier": "all pairwise binary Markov networks of this kind, all evidence sequences, all iteration orders", "why_tests_cant": "the script compares one network with pgmpy under one hash seed", "anchors": [{"file": "Python/research/scripts/experiments/comparing_with_markov_network.py", "symbols": ["make_relation_graph", "comparing_variable_joint_probability", "comparing_inference", "relation_graph_separation", "_get_relation_graph_prop", "_normalize"]}, {"file": "Python/research/scripts/relnet/relation_graph.py", "symbols": ["RelationGraph.make_joined", "RelationGraph.conditional_graph"]}]}
{"id": "C50", "title": "The Bayesian network experiment computes the chain rule for every network", "statement": "For every Bayesian network (tables of any size with entries that convert to positive counts, no variable its own parent, no mutual parents, connected, and acyclic in its undirected factor structure or with no variable in three factors, no family name contained in a value name of another family member), make_relation_graph and make_joined succeed, the joined graph has one outcome per assignment, normalised counts are the product of the table entries (equal to the product of conditional probabilities when all columns add up to prop_factor), marginal_variables_probability returns its marginals, and _run_inference_on returns the conditional distribution for any evidence. The float conversion int(prop*100) with its assertion returns exactly 100*prop whenever it does not raise; of the two-digit probabilities exactly .07 .14 .28 .29 .55 .56 .57 .58 raise. If a variable name is contained in another, building can raise depending on set order (refutation).", "quantifier": "all Bayesian networks of this kind, all evidence, all iteration orders; all fractions a/b with b up to 2^40 for the float conversion", "why_tests_cant": "the script checks one network; the failing decimals and names show up only for other configurations or hash seeds", "anchors": [{"file": "Python/research/scripts/experiments/comparing_with_bayes_network.py", "symbols": ["make_relation_graph", "_value_map_from_cpd", "_value_combination", "_build_outcome", "_value_map_from_graph", "_normalize", "_run_inference_on", "net_config", "prop_factor"]}, {"file": "Python/research/scripts/relnet/relation_graph.py", "symbols": ["RelationGraph.make_joined", "RelationGraph.conditional_graph"]}, {"file": "Python/research/scripts/relnet/sample_space.py", "symbols": ["SampleSpace.marginal_variables_probability"]}]}
{"id": "C51", "title": "Chains of conditioning and joining depend only on the evidence; joining twice changes nothing", "statement": "For a connected full-support factorized relation graph (acyclic, or with no variable in three kinds of outcomes) any sequence of conditional_graph on single consistent values and make_joined, in any interleaving, that ends with make_joined succeeds and gives the outcomes of the joined graph that contain all the given values, with their counts. A joined graph is again full-support and factorized, has the same values, and make_joined returns it unchanged.", "quantifier": "all such relation graphs, all sequences, all iteration orders", "why_tests_cant": "infinitely many sequences; the experiments run two of them", "anchors": [{"file": "Python/research/scripts/relnet/relation_graph.py", "symbols": ["RelationGraph.make_joined", "RelationGraph.conditional_graph"]}, {"file": "Python/research/scripts/relnet/sample_space.py", "symbols": ["SampleSpace.relation_graph"]}, {"file": "Python/research/scripts/experiments/comparing_with_bayes_network.py", "symbols": ["_run_inference_on"]}]}
{"id": "C52", "title": "Variable-level objects: equality is an equivalence consistent with hashing, across subclasses", "statement": "VariableNode, FoldedNode, ActiveNode (and the edges likewise) override __eq__ in subclasses. Python's dispatch, which tries the subclass's reflected method first, makes == one equivalence over all three classes together, and equal objects have equal hashes; objects of different classes are never equal, even for the same variable. A graph of folded parts equals a graph of active parts only if both are empty. Two folded graphs are equal exactly if every value node and every relation edge is in equally many outcomes of both sample spaces; they may still have different marginals (refutation). Of the classes of the library exactly VariablesGraph, FoldedGraph and ActivationGraph cannot be hashed (they define __eq__ but no __hash__).", "quantifier": "all objects, all lawful equality and hash of names, values and relations, all hash seeds", "why_tests_cant": "equivalence and hash consistency quantify over all pairs and triples of objects of three classes; the tests compare a few of the same class", "anchors": [{"file": "Python/research/scripts/relnet/variables_graph.py", "symbols": ["VariableNode", "VariableEdge", "VariablesGraph"]}, {"file": "Python/research/scripts/relnet/folded_graph.py", "symbols": ["FoldedNode", "FoldedEdge", "FoldedGraph"]}, {"file": "Python/research/scripts/relnet/activation_graph.py", "symbols": ["ActiveNode", "ActiveEdge", "ActivationGraph"]}]}
{"id": "C53", "title": "Conditional graphs obey the rules of probability", "statement": "If every outcome observes the variables concerned (always so after make_joined), then conditional_graph on a value and marginal_variables_probability obey the law of total probability, Bayes' rule, and the chain rule: the product of the successive conditional probabilities of a list of values is the share of the outcomes that find_for_values returns for these values. If some outcome leaves the conditioning variable unobserved the law of total probability fails (refutation), because conditional_graph keeps such outcomes under every value.", "quantifier": "all sample spaces with positive counts and one value per variable in an outcome, all variables and values, all iteration orders", "why_tests_cant": "an algebraic law over all spaces; tests check numbers of single spaces", "anchors": [{"file": "Python/research/scripts/relnet/relation_graph.py", "symbols": ["RelationGraph.conditional_graph", "RelationGraph.make_joined"]}, {"file": "Python/research/scripts/relnet/sample_space.py", "symbols": ["SampleSpace.marginal_variables_probability", "SampleSpace.find_for_values", "SampleSpace.relation_graph"]}]}
{"id": "C54", "title": "Activation graphs in floats: same structure, weights from 0 to 1 and close to the exact ones, valid colours", "statement": "For up to 2^53 samples activation_graph computed with Python floats ends with the same exception as the exact computation or with the same total, edges, variables, values and flags; every weight is a finite float from 0 to 1 (so the validation of ActiveNode accepts it) and differs from the exact weight by at most (n+3)*1.05*2^-53, where n is the number of distinct outcomes; weights of variables of the evidence are the nearest floats of the exact weights. The colour that visualize gives to a node is 'green' for variables of the evidence and otherwise '#RR0000', where RR is two hexadecimal digits of int(255 * largest weight), whatever the order of the values. The weights of other variables depend on the order in which the outcomes are visited (refutation).", "quantifier": "all conditional graphs with positive counts up to 2^53 in total, all filters, all iteration orders", "why_tests_cant": "rounding errors accumulate over arbitrarily many outcomes in an order that depends on hash seeds; tests compare single weights with assertAlmostEqual or for one order", "anchors": [{"file": "Python/research/scripts/relnet/conditional_graph.py", "symbols": ["ConditionalGraph.activation_graph"]}, {"file": "Python/research/scripts/relnet/activation_graph.py", "symbols": ["ActiveNode", "ActivationGraph.visualize"]}, {"file": "Python/research/scripts/relnet/sample_graph.py", "symbols": ["SampleGraph.similarity"]}]}
{"id": "C55", "title": "Demo grids: packing into integers loses nothing, lists and hashes agree with the cells", "statement": "reconstituteGrid(g.packBits()) gives back a grid with the size and cells of g. g.asList(key) lists the cells with that value, each once, and g.count(key) is their number. Two grids of one size are == exactly if the integers that __hash__ hashes are equal.", "quantifier": "all grids of any size", "why_tests_cant": "the packing crosses 30-bit word boundaries at every size; the project has no tests of the demo", "anchors": [{"file": "Python/research/scripts/demo/game.py", "symbols": ["Grid.packBits", "reconstituteGrid", "Grid._unpackBits", "Grid._cellIndexToPosition", "Grid._unpackInt", "Grid.asList", "Grid.count", "Grid.__eq__", "Grid.__hash__"]}]}
{"id": "C56", "title": "Demo game: no agent ever enters a wall or leaves a closed board, and legal actions are exactly the accepted ones", "statement": "On every board whose border consists of walls, with one Pacman and no ghost walled in, in every state that generateSuccessor can reach: Pacman is in the middle of an open cell; a ghost is in an open cell, or, only while it is scared, half way between two adjacent open cells; scared timers are from 0 to 40. Pacman's legal actions are the open neighbours and STOP; a ghost's are the open neighbours, without STOP, and without turning back unless there is no other way; half way it can only go on. Every agent has a legal action until the game is over. generateSuccessor succeeds exactly for the legal actions and raises otherwise; when the game is over there are no legal actions. Without a closed border Pacman can leave the board through negative indices and then only goes on (refutation).", "quantifier": "all boards, all reachable states, all agents and actions", "why_tests_cant": "states are unbounded in number and depend on all move sequences", "anchors": [{"file": "Python/research/scripts/demo/game.py", "symbols": ["Actions.getPossibleActions", "Configuration.generateSuccessor"]}, {"file": "Python/research/scripts/demo/pacman.py", "symbols": ["GameState.generateSuccessor", "GameState.getLegalActions", "PacmanRules", "GhostRules"]}, {"file": "Python/research/scripts/demo/util.py", "symbols": ["nearestPoint", "manhattanDistance"]}]}
{"id": "C57", "title": "Demo game: exact effect of every move, and the score adds up", "statement": "A move of Pacman removes the food and the capsule of the cell it enters and nothing else, scares all ghosts for 40 moves if it ate a capsule, sends the scared ghosts within half a cell back to their start, wins if it ate the last food and otherwise loses if a ghost that is not scared is within half a cell. A ghost moves one cell, or half a cell while scared, its timer decreases, and it is eaten or kills when it comes within half a cell. Over any play on a board with food: the game is won exactly if no food is left, never won and lost at once, and score = 10*food eaten - moves of Pacman + 200*ghosts eaten + 500 if won - 500*ghosts that hit Pacman in the last move. Two ghosts can hit at once, so losing can cost 1000 (refutation). A board without food is never won, so 'no food left means won' fails there (refutation).", "quantifier": "all boards, all plays", "why_tests_cant": "an invariant of all move sequences", "anchors": [{"file": "Python/research/scripts/demo/pacman.py", "symbols": ["GameState.generateSuccessor", "PacmanRules.applyAction", "PacmanRules.consume", "GhostRules.applyAction", "GhostRules.decrementTimer", "GhostRules.checkDeath", "GhostRules.collide"]}]}
{"id": "C58", "title": "Demo game loop: agents move in turn, no exception with legal agents, the history replays", "statement": "With agents that choose among the legal actions the loop raises no exception. Agents move in turn starting with Pacman; moveHistory replayed with generateSuccessor gives the state; the number of agents stays the same; the game is over exactly if it is won or lost, and the loop goes on until then. numMoves stays 0 for ever, because the index never reaches numAgents + 1. A ghost that is walled in has no legal action, so any action of its agent, also the STOP that RandomGhost falls back to, raises (refutation).", "quantifier": "all boards, all agents, any number of rounds", "why_tests_cant": "runs are unbounded and agents arbitrary", "anchors": [{"file": "Python/research/scripts/demo/game.py", "symbols": ["Game.run", "GameStateData.deepCopy"]}, {"file": "Python/research/scripts/demo/pacman.py", "symbols": ["ClassicGameRules.newGame", "ClassicGameRules.process"]}]}
{"id": "C59", "title": "Demo layouts: the board is read cell by cell, ragged texts fail or are cut", "statement": "For a text with rows of one length Layout has a wall, food, capsule or agent exactly where the text has its character, with row 0 at the top, agents sorted by number, and the number of ghosts. A row shorter than the first raises IndexError, longer ones are cut to the length of the first, an empty text raises IndexError. With one 'P' agent 0 of the first state is Pacman at its place and the others are the first ghosts, as many as the game has agents. With two 'P's the state has more agents than the game (refutation).", "quantifier": "all texts", "why_tests_cant": "texts of any size and content", "anchors": [{"file": "Python/research/scripts/demo/layout.py", "symbols": ["Layout.__init__", "Layout.processLayoutText", "Layout.processLayoutChar"]}, {"file": "Python/research/scripts/demo/game.py", "symbols": ["GameStateData.initialize"]}]}
{"id": "C60", "title": "Drawings show exactly what the object contains", "statement": "SampleGraph.visualize draws a well-formed sample: the ids are the names of its nodes and the lines join the related names, labelled with the relation, nothing else, and nothing raises. If names of declared nodes differ every node is drawn once, and in a simple graph every edge once with its own relation. visualize_outcomes draws every outcome with its own copies of the nodes, one of which carries name and count, and the evidence in red; copies are never shared if names differ and do not end in a digit; an outcome without nodes raises IndexError. FoldedGraph.visualize draws every declared variable once: occurring ones with the count of each occurring value and of the outcomes that lack the variable, others in gray, and one line for each pair of related variables. ActivationGraph.visualize draws every declared variable once with all its weights, evidence in green and others in the shade of red of the largest weight, and one line per pair, green if in the evidence and otherwise red; a declared variable that the graph lacks is drawn black with weight 0 for each of its values. Variables that are not str or int raise AssertionError, a declared variable without values makes ActivationGraph.visualize raise ValueError. Refuted: nodes of the same name are merged; of parallel edges one is drawn, depending on the order; with eleven outcomes and names that end in digits nodes of different outcomes are merged; equal relation texts of different edges are listed once, so the counts of a line need not add up.", "quantifier": "all well-formed samples, spaces and evidence, all ways to print names, all iteration orders", "why_tests_cant": "depends on all collisions of names and all orders of iteration; tests do not look at the drawing", "anchors": [{"file": "Python/research/scripts/relnet/sample_graph.py", "symbols": ["SampleGraph.visualize"]}, {"file": "Python/research/scripts/relnet/sample_space.py", "symbols": ["SampleSpace.visualize_outcomes"]}, {"file": "Python/research/scripts/relnet/folded_graph.py", "symbols": ["FoldedGraph.visualize"]}, {"file": "Python/research/scripts/relnet/activation_graph.py", "symbols": ["ActivationGraph.visualize"]}]}
{"id": "C61", "title": "All small graphs are drawn, each once", "statement": "make_all_sub_graphs(n) of number_of_subgraphs.py draws, next to n single nodes, every graph on the nodes 1 to n whose edges have one of two types, each exactly once and with its own copies of the nodes, there are 3^(n(n-1)/2) - 1 of them, and the check against the formula passes for n from 2 to 8. For n <= 1 it raises IndexError. For n >= 2 in general it either does this, or the float formula is inexact and the assertion fails, or the power overflows. Refuted: for nine nodes the assertion fails because the formula is computed in floats.", "quantifier": "all numbers of nodes, all iteration orders", "why_tests_cant": "the number of graphs grows as 3^(n^2/2), running it for all n is impossible", "anchors": [{"file": "Python/research/scripts/playaround/number_of_subgraphs.py", "symbols": ["make_all_sub_graphs"]}]}
{"id": "C62", "title": "The coin toss example counts the reports", "statement": "build_relation_net of the coin toss example succeeds exactly if there is at least one report and every text is a well formed report: a coin and a face, or two tosses of different coins with one word between them. Then the count of each outcome is the number of the reports that mean it: a node for every toss and the relation r1 if the coin of smaller worth was tossed first, else r2. Reports mean the same outcome exactly if they report the same tosses in the same order, and a text is the writing of at most one report. describe_relation_net prints every outcome once with count and share of the reports. For the ten reports of the script the network has the seven outcomes with counts 3, 2, 1, 1, 1, 1, 1. Refuted: two tosses of the same coin are not accepted. Joining the network of the script gives, in every iteration order, exactly two outcomes: all three coins heads with count 6 and all tails with count 1. Conditioned on a one and then a five cent coin showing heads, the network keeps exactly that outcome and the quarter showing tails, with count 1 each.", "quantifier": "all lists of texts, all iteration orders", "why_tests_cant": "there are infinitely many lists of texts, malformed ones included", "anchors": [{"file": "Python/research/scripts/examples/building_net_from_coin_toss.py", "symbols": ["build_outcome", "pare_var", "build_relation_net", "describe_relation_net", "experiment_results"]}, {"file": "Python/research/scripts/examples/building_net_with_joint_probability.py", "symbols": ["__main__"]}, {"file": "Python/research/scripts/examples/building_net_with_conditional_probability.py", "symbols": ["__main__"]}]}
{"id": "C63", "title": "The agents of the demo choose legal actions, with the stated probabilities", "statement": "RandomGhost returns a legal action whatever the random number is, and the legal actions share the unit interval evenly up to 2^-52. DirectionalGhost with default probabilities returns a legal action whatever the random number is; the actions that bring it closest to Pacman (furthest if it is scared) share 4/5 of the unit interval and all legal actions share 1/5, up to 2^-52. KeyboardAgent and KeyboardAgent2 return a legal action: Stop if the stop key is pressed and legal, else the first of south, north, east, west whose key is pressed and that is legal, else the last move if legal, else Stop if legal. So the demo (mediumClassic, two random ghosts, keyboard) and every game of such agents on a good board never raises an exception, whatever keys are pressed. Without legal actions RandomGhost returns Stop, DirectionalGhost raises ValueError and the keyboard agents IndexError. Refuted: with other probabilities the float sums can stay below a random number, and sampling raises IndexError; a walled-in ghost returns Stop, which the rules refuse.", "quantifier": "all states, all random numbers (doubles in [0,1)), all keys pressed, all lengths of play, both versions of sum", "why_tests_cant": "an exception needs a random number within 2^-53 of 1, so tests by sampling do not find it", "anchors": [{"file": "Python/research/scripts/demo/ghostAgents.py", "symbols": ["GhostAgent.getAction", "RandomGhost.getDistribution", "DirectionalGhost.getDistribution"]}, {"file": "Python/research/scripts/demo/keyboardAgents.py", "symbols": ["KeyboardAgent.getAction", "KeyboardAgent.getMove", "KeyboardAgent2.getMove"]}, {"file": "Python/research/scripts/demo/util.py", "symbols": ["Counter.normalize", "sample", "normalize", "chooseFromDistribution"]}, {"file": "Python/research/scripts/demo/demo.py", "symbols": ["main"]}]}
{"id": "C64", "title": "The containers, counters and matrices of the demo", "statement": "Whatever sequence of push, pop, update and isEmpty a client makes: PriorityQueue serves an item of the least priority, the one that has waited longest among equals, pop of an empty queue raises IndexError and changes nothing, update(item, p) lowers the priority of one entry of the item to the smaller of the two priorities without changing its place among equals, or pushes the item if it does not wait; pushing all and popping all is a stable sort. Stack is last in first out, Queue first in first out. Counter: c[k] is the count, 0 for absent keys, changes no count but makes k a key; a + b and a - b have the union of the keys and add or subtract the counts key by key; a * b is the dot product; incrementAll adds count once for every occurrence of a key; totalCount is the sum of the counts. arrayInvert gives the columns as rows if no row is longer than the matrix is high; matrixAsList lists the cells with the value in reading order. Refuted: update of an absent item raises TypeError in PriorityQueueWithFunction; argMax of a non-empty counter raises TypeError, sortedKeys and 0 + c raise AttributeError; dict + counter returns None and changes the counter; arrayInvert of a matrix that is wider than high raises IndexError.", "quantifier": "all sequences of calls, all arrangements of the heap, all items, priorities, counters, keys and matrices", "why_tests_cant": "sequences of calls, counters and matrices are unbounded, and the order among equal priorities depends on the arrangement of the heap", "anchors": [{"file": "Python/research/scripts/demo/util.py", "symbols": ["Stack", "Queue", "PriorityQueue", "PriorityQueueWithFunction", "Counter", "arrayInvert", "matrixAsList"]}]}
{"id": "C65", "title": "Game states of the demo behave as values although copies share objects", "statement": "GameState copies share configurations, grid columns and the list _eaten. For every heap and every state on it: generateSuccessor makes a new state that shows exactly what the value-level successor is, or raises the same exception; every state that was there before (parent, siblings, unrelated ones) still shows what it showed, for moves of Pacman, for failing moves and whenever no ghost is eaten exactly, otherwise up to _eaten flags that get set. deepCopy makes a new state that shows the same but for win, lose and scoreChange, and changes nothing. Any sequence of writes of food cells, capsules, scared timers, configurations and score into a deep copy shows there and in no older state; in a successor such writes may show in its parent (refuted: the food grid is shared while none is eaten). For every sequence of newGame, generateSuccessor and deepCopy calls on earlier results in any order, every state shows at the end the value it would have if states were immutable values, up to _eaten; _eaten influences nothing but _eaten. == compares configurations and scared timers of the agents, food cells, capsules and score; equal states have equal hashes, hashes are in [0, 1048575), and both are unaffected by _eaten, so entries of GameState.explored stay valid. Refuted: an older state changes its _eaten when its successor eats a ghost; deepCopy shares the Configuration objects, so writing a position in the copy moves the agent in the original; the deepCopy of a won state equals it but is not terminal.", "quantifier": "all heaps, all states on them, all agents and actions (legal or not), all sequences of calls, all hash functions of Python", "why_tests_cant": "which objects are shared depends on the history of copies; a write through a shared reference shows only in states that a test happens to keep and compare", "anchors": [{"file": "Python/research/scripts/demo/pacman.py", "symbols": ["GameState", "PacmanRules", "GhostRules"]}, {"file": "Python/research/scripts/demo/game.py", "symbols": ["GameStateData", "AgentState", "Grid", "Configuration"]}]}
{"id": "C66", "title": "How deeply calls are nested: when long graphs or many outcomes raise RecursionError", "statement": "is_edges_connected, join_sample, external_nodes, group_intersecting, joined_on_variables, join_sample_set and make_joined use functions that call themselves. With a limit on nested calls (Python's recursion limit) the result is the one without limit, or RecursionError. is_edges_connected gives its result when there are fewer nodes than the limit, and whenever it answers for connected edges some node has a way of fewer than limit steps to every other node. join_sample gives its result when the sample has fewer edges than the limit. external_nodes gives its result exactly when everything that can be reached is fewer than limit steps away. join_sample_set needs one call for each set; group_intersecting needs, in every order, one call more than it merges kinds of samples; joined_on_variables nests one call more than there are groups for a variable. For every space and iteration order there is one limit from which make_joined, and one from which joined_on_variables, has its result, and below which it raises. When make_joined ends in time, each value of the variable it visits first occurs in fewer than limit outcomes of one kind and in fewer than limit kinds of outcomes. Refuted: for every limit there is a factorized graph of that many outcomes that can be joined but for which make_joined raises in every iteration order; for every limit there is a chain of legal edges, connected, for which is_edges_connected (hence build_from_edges) raises in every iteration order; for every limit there is a legal join that needs a single call in one iteration order of the edges and raises in another.", "quantifier": "all limits, edge sets, builders, samples, sample sets, spaces, starting sets, relation filters and iteration orders", "why_tests_cant": "tests use graphs of a few nodes and sets of a few samples; whether a long graph or a large set fails depends on its size, its shape and the iteration order of sets", "anchors": [{"file": "Python/research/scripts/relnet/sample_graph.py", "symbols": ["SampleGraphBuilder.is_edges_connected", "SampleGraphBuilder.join_sample", "SampleGraph.external_nodes"]}, {"file": "Python/research/scripts/relnet/sample_set.py", "symbols": ["SampleSet.group_intersecting", "SampleSetBuilder.join_sample_set"]}, {"file": "Python/research/scripts/relnet/relation_graph.py", "symbols": ["RelationGraph.joined_on_variables", "RelationGraph.make_joined"]}]}
{"id": "C67", "title": "The sampling functions of the demo draw values by their share of the unit interval", "statement": "For any weights, util.nSample draws for each of its random numbers, in increasing order, the value whose running sum of shares is the first above the number, and raises IndexError exactly when a number draws nothing; util.sample draws the value whose running sum is the first not below the number, IndexError if there is none; without values sample raises TypeError where a position is drawn, else IndexError; sampleFromCounter and sample of a counter agree; chooseFromDistribution of (probability, element) pairs gives the first element whose running sum reaches the number, else None; flipCoin(p) is true exactly for numbers below p. When the weights are probabilities count/total of at most 2^22-2 counts, each value gets its part of the unit interval up to (n+3)/2^51, a number draws nothing only within that distance of 1, and getProbability is the exact probability of the value up to that error. nSample never draws a value of weight zero. Refuted: sample and chooseFromDistribution never draw a value of weight zero (they do for the random number 0); they always draw a value (with seven equal weights sample raises IndexError and chooseFromDistribution returns None, with six nSample raises IndexError).", "quantifier": "all lists of binary64 weights, values, random numbers in [0,1), both versions of Python's sum", "why_tests_cant": "the failures need one random number out of 2^53, and the shares are a statement about all random numbers and all distributions", "anchors": [{"file": "Python/research/scripts/demo/util.py", "symbols": ["normalize", "nSample", "sample", "sampleFromCounter", "getProbability", "flipCoin", "chooseFromDistribution"]}]}
{"id": "C68", "title": "The manual Bayesian network computes joint, marginal and conditional probabilities", "statement": "In manual_bayes_net_test, for tables (dicts from frozensets of value names to numbers) where every root table has single-value keys and no key of the child table has two values of one root: cpd_product and the nested products give exactly the keys of the child for which every root has a value, each with the product of the numbers. Selecting a value in the child table or in a root table and then multiplying gives the entries of the joint table with that value. norm divides by the sum, so the result sums to one, and raises ZeroDivisionError exactly for a non-empty table of sum zero. margin gives for each value whose name contains the text the sum over all keys with it, if every key has exactly one such value; after selecting and norm it is the conditional probability. The marginals of a variable sum to the sum of the table, and the marginal of a value of a root is its prior times what the other tables give to the value. Multiplying a normalised table by the selected prior of a second value and normalising again conditions on that value, although the prior is already contained. Refuted: tables sharing two variables combine only agreeing keys; the products may be associated the other way; multiplying by a whole prior again changes nothing; margin does not depend on iteration order when a name contains the name of another variable.", "quantifier": "all tables with exact rational numbers, any number of root tables, all iteration orders", "why_tests_cant": "the script prints one network; the claims are about all tables, all numbers of roots and all orders of frozensets and dicts", "anchors": [{"file": "Python/research/scripts/playaround/pgmpy_bayes_net_test.py", "symbols": ["manual_bayes_net_test", "cpd_product", "norm", "margin", "select_value"]}]}
