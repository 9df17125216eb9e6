{"id": "C01", "title": "Gate constructors compute their Boolean function", "statement": "In an AIG built through the creation API, the signal returned by create_and/nand/or/nor/lt/le/xor/xnor/ite/maj/xor3/nary_and/nary_or/nary_xor evaluates, under every assignment of the combinational inputs, to the named Boolean function of the operand signals.", "quantifier": "every network reachable by any sequence of creation calls, every operand signal (any polarity, constants, repeated operands), every input assignment", "why_tests_cant": "networks and assignments are unbounded; the constructors take shortcuts (constant folding, operand swaps, structural hashing) whose correctness depends on the whole history", "anchors": ["include/database/network/aig_network.hpp: create_and, create_xor, create_ite, create_maj, create_nary_and", "include/utils/range.hpp: tree_reduce"]}
{"id": "C02", "title": "Structural hashing is canonical", "statement": "create_and called with the same two signals, in either order, always returns the same signal and adds no node the second time; no two AND nodes of a network ever have the same ordered pair of fanins.", "quantifier": "every reachable network, every pair of signals, any number of intervening creations (including hash table growth)", "why_tests_cant": "depends on the linked hash chains being correct after arbitrary insert/rehash histories", "anchors": ["include/database/network/aig_network.hpp: create_and, find_and", "include/database/network/details/storage.hpp: hash_find, hash_insert, hash_reserve"]}
{"id": "C03", "title": "Creating nodes never disturbs existing logic", "statement": "No creation call changes the function of a previously returned signal, the list of primary inputs already created, or any primary output already created.", "quantifier": "every reachable network, every creation call, every previously returned signal and every input assignment", "why_tests_cant": "frame property over all histories", "anchors": ["include/database/network/aig_network.hpp: create_pi, create_po, create_and", "include/database/network/details/storage.hpp: hash_reserve"]}
{"id": "C04", "title": "Trivial ANDs create no node", "statement": "create_and returns an existing signal without adding a node when the operands are equal, complementary, or one is a constant; otherwise it adds at most one node, and adds one only if find_and reported false.", "quantifier": "every reachable network and every pair of operands", "why_tests_cant": "universally quantified over network histories", "anchors": ["include/database/network/aig_network.hpp: create_and, find_and"]}
{"id": "C05", "title": "Hash table is an exact index of the AND nodes", "statement": "After any sequence of inserts, erases and growth steps, hash_find returns node i exactly when node i is in the table and has the requested fanins, and num_gates equals the number of entries.", "quantifier": "every sequence of hash_insert / hash_erase / hash_reserve with pairwise distinct keys, every table size > 0", "why_tests_cant": "pointer-chained buckets; unbounded history and collisions", "anchors": ["include/database/network/details/storage.hpp: hash_find, hash_insert, hash_erase, hash_reserve"]}
{"id": "C06", "title": "Fanout counters equal the number of references", "statement": "fanout_size(n) equals the number of AND fanins plus combinational outputs that refer to n (modulo the 31-bit counter).", "quantifier": "every network reachable by creation calls, every node", "why_tests_cant": "history invariant; the counter shares a word with the dead flag so overflow matters", "anchors": ["include/database/network/aig_network.hpp: fanout_size, create_po, create_ri, create_and"]}
{"id": "C07", "title": "Phase bit is the all-zero simulation value", "statement": "phase(n) is the value of node n when all combinational inputs are 0.", "quantifier": "every reachable network, every node", "why_tests_cant": "history invariant", "anchors": ["include/database/network/aig_network.hpp: phase, create_and, create_pi"]}
{"id": "C08", "title": "Fanins precede their node", "statement": "Every AND node has two distinct non-constant fanin nodes with smaller indices, the first smaller than the second, so index order is a topological order and the network is acyclic.", "quantifier": "every network reachable by creation calls", "why_tests_cant": "history invariant over unbounded networks", "anchors": ["include/database/network/aig_network.hpp: create_and, foreach_gate"]}
{"id": "C09", "title": "Input and output numbering", "statement": "Inputs and outputs keep creation order: ci_at(k) is the k-th created input, ci_index inverts it, pi_at/ro_at and po_at/ri_at split them as documented when all PIs (POs) are created before all registers; otherwise is_pi / pi_at misclassify.", "quantifier": "every sequence of creation calls", "why_tests_cant": "order property over all call interleavings", "anchors": ["include/database/network/aig_network.hpp: create_pi, create_ro, create_po, create_ri, is_pi, is_ro, ci_index, pi_at, ro_at, po_at, ri_at"]}
{"id": "C10", "title": "substitute_node keeps node values; cascades can break the structure", "statement": "Whenever substituting a node by a signal of the same function returns, the inputs, registers and number of outputs are unchanged, every assignment of node values satisfying the network before satisfies it afterwards, and every output keeps its value under it; so if the result is acyclic, every output computes the same function. A substitution without cascaded replacements by a signal that does not depend on the node never creates a cycle. Cascades can create a cycle feeding an output, leave an output on a deleted gate, and leave deleted gates in the hash table so that later calls return them.", "quantifier": "every network, node, equivalent replacement signal and length of the replacement cascade", "why_tests_cant": "cascaded replacement through the hash table explores unboundedly many interleavings", "anchors": ["include/database/network/aig_network.hpp: substitute_node, replace_in_node, replace_in_outputs, take_out_node"]}
{"id": "C11", "title": "take_out_node removes only unreferenced logic", "statement": "In every network obtained by creation calls and deletions: deleting an unreferenced gate succeeds, leaves all fanins and outputs untouched, and deletes exactly that gate and, transitively, the gates whose last references came from deleted gates; nothing an output or a surviving gate depends on is deleted. Fanout counters of surviving nodes equal their references from surviving gates and outputs, the hash table holds exactly the surviving gates, and creating a gate never returns a deleted one.", "quantifier": "every network obtained by creation calls and deletions, every unreferenced gate", "why_tests_cant": "recursive deletion over arbitrary DAGs", "anchors": ["include/database/network/aig_network.hpp: take_out_node, is_dead, decr_fanout_size", "include/database/network/details/storage.hpp: hash_erase"]}
{"id": "C12", "title": "LUT network gates compute their stored function", "statement": "In a k-LUT network each create_* gate evaluates to the named function of its fanins, and the Boolean and truth-table forms of compute agree.", "quantifier": "every LUT network and every assignment", "why_tests_cant": "unbounded networks; the two compute overloads index the table independently", "anchors": ["include/database/network/klut_network.hpp: create_node, compute"]}
{"id": "C13", "title": "Truth-table cache is lossless and canonical", "statement": "insert(tt) returns a literal that reads back exactly tt now and after any later inserts; two inserts return the same node index iff the tables are equal or complementary.", "quantifier": "every sequence of inserts of arbitrary truth tables", "why_tests_cant": "unbounded histories", "anchors": ["include/utils/truth_table_cache.hpp: insert, operator[]"]}
{"id": "C14", "title": "Cut domination and merging are set operations", "statement": "For cuts with sorted duplicate-free leaves, dominates is exactly leaf-set inclusion, and merge succeeds exactly when the union has at most the requested number of leaves and then yields the sorted union; the signature filters never change the answer.", "quantifier": "all cuts over arbitrary leaf indices, all size limits", "why_tests_cant": "signature is a lossy 64-bit hash with collisions; exhaustive testing impossible", "anchors": ["include/database/cut/cut.hpp: dominates, merge, set_leaves"]}
{"id": "C15", "title": "Cut sets are irredundant", "statement": "When cuts are offered the way the enumeration does it (insert unless is_dominated), after any sequence of such insertions and limit calls no cut in the set dominates another one, the cuts are ordered by the given order, every cut in the set was offered, a dominated cut is never added, and while everything fits every offered cut is represented by a cut contained in it. insert alone gives no such guarantee.", "quantifier": "all insertion sequences", "why_tests_cant": "history property", "anchors": ["include/database/cut/cut_set.hpp: insert, is_dominated"]}
{"id": "C16", "title": "Enumerated cuts are cuts and their functions are right", "statement": "For each node and each enumerated cut, the number of leaves and the number of cuts respect the limits and the stored truth table applied to the leaf values gives the node value for every input assignment; unless truth tables are minimised, every path from an input to the node meets a leaf and the enumeration succeeds when two cuts fit into one. Leaves lie in the cone of the node; with a limit of at least three cuts of at least two leaves, every node keeps its trivial cut and every gate a cut with two or more leaves.", "quantifier": "every AIG, every cut size and cut limit, every assignment", "why_tests_cant": "recursive product over arbitrary DAGs", "anchors": ["include/database/cut/cut_enumeration.hpp: merge_cuts2, compute_truth_table"]}
{"id": "C17", "title": "Cut-set limit keeps a prefix of the best cuts", "statement": "limit(k) keeps all cuts if there are at most k, and otherwise exactly the first k-1 of them (one fewer than asked for); limit(0) on a non-empty set is undefined. In particular limit(k) does not keep min(k,size) cuts.", "quantifier": "all cut sets and all k", "why_tests_cant": "boundary behaviour for all sizes", "anchors": ["include/database/cut/cut_set.hpp: limit"]}
{"id": "C18", "title": "Mapping view is a finite map from nodes to LUTs", "statement": "After any sequence of add_to_mapping, remove_from_mapping, clear_mapping and set_cell_function, exactly the nodes added and not removed or cleared since are cell roots, num_cells and has_mapping count them, foreach_cell_fanin of a cell root visits exactly the leaves last added, and cell_function returns the function last set (constant false before). clear_mapping keeps the functions; foreach_cell_fanin on a node that is not a cell root can visit other words of the packed vector.", "quantifier": "all operation sequences with nodes of the network that fit the 32-bit packed vector", "why_tests_cant": "history property; the view packs leaves in a shared vector", "anchors": ["include/database/views/mapping_view.hpp: mapping_view"]}
{"id": "C19", "title": "Mapped network to LUT network preserves functions", "statement": "network_to_klut applied to a combinational AIG whose mapping is a cover (outputs and leaves are constants, inputs or cell roots, leaves lie below their root, cell functions are right) produces a LUT network with the same inputs and outputs in which every output computes the same function, whatever mix of complemented and plain output drivers; choice_to_klut does so when leaves have smaller indices than roots; an unmapped network with gates is refused. Registers are not carried over, and choice_to_klut misreads leaves with larger indices.", "quantifier": "every AIG with every cover, every assignment", "why_tests_cant": "unbounded structure", "anchors": ["include/operations/algorithms/network_to_klut.hpp: network_to_klut_impl, choice_to_klut_impl, network_to_klut, choice_to_klut"]}
{"id": "C20", "title": "cleanup_dangling preserves functions and drops dead logic", "statement": "cleanup_dangling of a combinational network has the same inputs and outputs and each output computes the same function; with the removal flags exactly the unreferenced inputs and the constant or input-driven outputs disappear; if no AND of the source is trivial or duplicated, every AND of the result is reachable from an output. Register outputs of a sequential network become constant 0 in the result.", "quantifier": "every acyclic network (including ones with dead nodes and non-topological indices), every assignment", "why_tests_cant": "unbounded DAGs", "anchors": ["include/operations/algorithms/cleanup.hpp: cleanup_dangling_impl", "include/database/views/topo_view.hpp"]}
{"id": "C21", "title": "topo_view enumerates a topological order", "statement": "The topological view lists the constant, all combinational inputs and exactly the nodes reachable from the outputs, each once, fanins before the node.", "quantifier": "every acyclic network", "why_tests_cant": "DFS over arbitrary DAGs", "anchors": ["include/database/views/topo_view.hpp: update_topo, create_topo_rec"]}
{"id": "C22", "title": "depth_view computes longest path lengths", "statement": "After construction, level(n) of every node below a primary output is the maximum cost of a path from an input to n, other nodes have level 0, and depth() is the maximum over the primary outputs; a view that starts empty keeps exact gate levels (and exact depth when complements are not counted) while gates, inputs and outputs are created through it. Register outputs count as gates without fanins.", "quantifier": "every acyclic network", "why_tests_cant": "unbounded DAGs", "anchors": ["include/database/views/depth_view.hpp"]}
{"id": "C23", "title": "AND balancing preserves functions", "statement": "Balancing a combinational network succeeds and returns a network with the same inputs and outputs whose outputs compute the same functions. (Registers, and gates over constants in networks without inputs, fail an assertion.)", "quantifier": "every acyclic combinational AIG, every order std::sort may choose for equal elements, every assignment", "why_tests_cant": "unbounded supergates, sorting, level-driven pairing", "anchors": ["include/operations/optimization/and_balance.hpp"]}
{"id": "C24", "title": "Supergate simplification is sound", "statement": "Collecting, sorting, de-duplicating and contradiction-checking the inputs of a multi-input AND keeps its Boolean function: the result is constant 0 exactly when some literal occurs in both polarities.", "quantifier": "all literal multisets", "why_tests_cant": "unbounded lists", "anchors": ["include/operations/optimization/and_balance.hpp: balance_unify, push_unique_by_level"]}
{"id": "C25", "title": "SOP division is exact", "statement": "Dividing a sum of products (words that leave the mark bit 63 free) by any divisor leaves the dividend unchanged and yields quotient and remainder with F = D*Q + R as Boolean functions, with no literal shared between a quotient and a divisor product, and, if the divisor has no repeated product, with F equal to {q*d} plus R as multisets; a product q is in the quotient whenever all q*d are in F and no other divisor product fits into one of them. Division by a product or a literal and cube-freeing satisfy the corresponding identities and leave nothing common behind. A divisor with repeated products breaks the multiset identity, and a dividend using bit 63 breaks division.", "quantifier": "all dividends over 63 literal bits, all divisors, all assignments", "why_tests_cant": "combinatorially many cube lists", "anchors": ["include/operations/optimization/detail/sop_refactoring.hpp: sop_divide, sop_divide_by_lit, sop_divide_by_cube, sop_make_cube_free"]}
{"id": "C26", "title": "Factored circuits compute the SOP", "statement": "The factoring operator maps every truth table of at most 31 variables and every list of leaf signals to a signal that computes the table on the leaf values, adding only gates; gen_factor_rec succeeds within (number of literals + 1) recursion levels and computes the sum of products for every non-empty sum of products without empty product in which no product contains another one. With containment (ab + a) an assertion fails at every recursion depth.", "quantifier": "all reachable networks, all truth tables of at most 31 variables, all leaf signals, all assignments; all containment-free SOPs", "why_tests_cant": "recursive factoring on unbounded cube lists", "anchors": ["include/operations/optimization/detail/sop_refactoring.hpp: gen_factor_rec, lit_factor_rec, gen_andor_circuit_rec"]}
{"id": "C27", "title": "ISOP is an exact irredundant cover", "statement": "isop(tt) returns cubes whose disjunction is exactly tt, over the variables of tt; no cube can be dropped and no literal removed. The CNF derived from the covers of tt and its complement characterises tt.", "quantifier": "all truth tables of any number of variables", "why_tests_cant": "doubly exponential number of functions", "anchors": ["libs/kitty/include/kitty/isop.hpp: isop_rec", "include/operations/optimization/detail/sop_refactoring.hpp: get_isop"]}
{"id": "C28", "title": "Miter detects exactly the differences", "statement": "miter(a,b) exists exactly when the interface sizes match, and its single output is 1 on exactly the assignments where some pair of outputs differs.", "quantifier": "all pairs of networks, all assignments", "why_tests_cant": "unbounded networks", "anchors": ["include/operations/algorithms/miter.hpp"]}
{"id": "C29", "title": "CNF encoding is exact", "statement": "For a combinational network (AIG or LUT) the clauses generated are satisfied by precisely the assignments that extend an input assignment with the node values; each gate clause set characterises its gate; with the default node literals every node has its own variable. Register outputs of a sequential network get no variable of their own and are treated as constant 0.", "quantifier": "all networks, all variable assignments", "why_tests_cant": "unbounded networks", "anchors": ["include/operations/algorithms/cnf.hpp: generate_cnf, node_literals, on_and, on_xor, on_maj, on_ite, on_xor3"]}
{"id": "C30", "title": "Equivalence checking verdicts are right", "statement": "Given a correct SAT solver, a verdict of equivalence_checking on a single-output combinational network is right: true only if the output is constant 0, and the counterexample returned with false makes the output 1; no verdict is returned only if the solver gives up. On a miter the verdict decides the equivalence of the two networks. A verdict is reached if and only if the network has a gate, or no input, or its output is constant 0; otherwise an assertion of the solver fails.", "quantifier": "all single-output combinational networks, all correct solvers", "why_tests_cant": "all assignments", "anchors": ["include/operations/algorithms/equivalence_checking.hpp"]}
{"id": "C31", "title": "AIGER delta code is invertible", "statement": "Decoding the bytes produced for any 32-bit delta returns the delta and consumes exactly those bytes.", "quantifier": "all 32-bit numbers and all following bytes", "why_tests_cant": "2^32 values times arbitrary suffixes", "anchors": ["include/operations/io/detail/write_aiger.hpp: encode", "libs/lorina/lorina/aiger.hpp: decode"]}
{"id": "C32", "title": "AIGER write/read round trip", "statement": "A combinational AIG whose inputs are its first nodes, whose gates come after their fanins, none of them dead, and whose literals fit 32 bits, is written, and reading the file gives a network with the same inputs, outputs and functions; for networks made by creation calls it is node by node the same network. Results of cleanup_dangling are such networks. Networks with an input created after a gate or with dead nodes are written to files that describe different functions.", "quantifier": "all clean AIGs", "why_tests_cant": "unbounded networks", "anchors": ["include/operations/io/detail/write_aiger.hpp", "include/operations/io/detail/aiger_reader.hpp", "libs/lorina/lorina/aiger.hpp"]}
{"id": "C33", "title": "LUT and Verilog writers describe the network", "statement": "Reading the text that write_lut or write_verilog produces as Verilog (independent lexer, parser, static rules and meaning) gives a legal module whose inputs and outputs are the port names in order and which computes exactly the output functions of the network. This holds for combinational networks with at least one input (and for AIGs one output), port names that are identifiers, distinct and different from the invented names (_w<n>_, name<n>, n<n>), tables without constant fanins, and always with the default names. The text is not readable without inputs; it is not a legal module when a port name clashes with an invented name; a table with a constant fanin fails the assertion; register outputs are written as tables without inputs.", "quantifier": "all reachable LUT networks / all AIGs, all port names, all orders of the wire set", "why_tests_cant": "unbounded networks, tables and names", "anchors": ["include/operations/io/detail/writer_lut.hpp", "include/operations/io/detail/write_verilog.hpp"]}
{"id": "C34", "title": "Local rewriting replacement preserves functions", "statement": "Rewiring the recorded fanouts or the first output of a rewritten gate to an equivalent signal succeeds and leaves every output function unchanged, provided the signal does not depend on the gate and no gate uses both; a list of such replacements followed by the cleanup returns a network with the same functions. If the gate drives no output it is unused afterwards. The conditions are needed: a gate using both turns into an input (its function becomes constant 0), a dependent signal, or two individually admissible replacements, make the network cyclic, and a gate that drives an output stays in use.", "quantifier": "all acyclic networks of less than 2^30 nodes, all gates, signals and recorded fanout lists of gates", "why_tests_cant": "unbounded networks", "anchors": ["include/operations/optimization/rewrite.hpp: local_replacement"]}
{"id": "C35", "title": "Dereference/reference of a cone are inverse", "statement": "Dereferencing the cone of a node above the leaves of a cut and referencing it again restores every reference count and returns the same size, whatever the counts are; so does the opposite order, and so does an evaluation that creates nodes and tries candidates in between. The assertions of derefed_size and refed_size never fail. When the counts are the true reference counts, dereferencing returns the size of the (unique) fanout-free cone and zeroes the counts inside. ref_node_recursive_contained, in contrast, decrements the counts and always returns size 0.", "quantifier": "all acyclic networks of less than 2^30 nodes, all cuts, all 32-bit counts", "why_tests_cant": "recursive over DAGs", "anchors": ["include/operations/optimization/rewrite.hpp: deref_cut, ref_cut", "include/operations/algorithms/ref_deref.hpp"]}
{"id": "C36", "title": "NPN database structures implement their class", "statement": "exact_npn_canonization (2 to 4 variables) returns the least table of the NPN class together with a permutation and phases that map the function to it, so two functions get the same representative exactly when they are NPN-equivalent. For every well-formed database vector (the one in the source is well-formed) the constructor of node_rewriting succeeds, and for every function of up to four variables, every network and every list of up to four leaf signals, node_rewriting only adds gates and every signal it hands to its callback computes the function of the leaves, whatever the callback does.", "quantifier": "all tables, networks, leaf signals, callbacks and well-formed databases, including the one of the source", "why_tests_cant": "finite but needs the composition of table, canonisation and hashing for all networks", "anchors": ["include/operations/optimization/detail/database_npn4_aig.hpp", "include/operations/optimization/detail/node_rewriting.hpp", "libs/kitty/include/kitty/npn.hpp"]}
{"id": "C37", "title": "MUX recognition is sound", "statement": "If is_mux(n), recognize_mux returns (i,t,e) with n = i ? t : e under every assignment.", "quantifier": "every AIG and node", "why_tests_cant": "all networks and assignments", "anchors": ["include/operations/algorithms/aig_with_choice.hpp: is_mux, recognize_mux"]}
{"id": "C38", "title": "Choice links stay acyclic", "statement": "After any history of creation calls and set_choice calls, the graph in which every AND node points to its fanins and to the next member of its choice class is acyclic and every linked node has an earlier representative. set_choice links an AND node exactly if the representative precedes it and no AND node of that class (from the representative on) lies below it. A node linked at most once has at most one predecessor; the code itself accepts a node into two classes, and does not check links to inputs.", "quantifier": "every sequence of set_choice calls on every AIG", "why_tests_cant": "graph property over histories", "anchors": ["include/operations/algorithms/aig_with_choice.hpp: set_choice, check_tfi"]}
{"id": "C39", "title": "SAT sweeping encodes nodes soundly", "statement": "After any history of queries and creation calls, every input assignment extends to an assignment of the solver's variables that satisfies all clauses, and conversely the clauses determine the value of every encoded node; so an UNSAT answer of a correct solver proves the two nodes equal up to phase under every assignment, and a SAT answer yields an input assignment on which they differ. Calls always go through while the network has fewer nodes than the solver has variables from the start (1000 in the code); beyond that the prover may violate the solver's assertion by asking about an unknown variable (shown for a smaller constant).", "quantifier": "every AIG, node pair and query history", "why_tests_cant": "all assignments and histories", "anchors": ["include/operations/algorithms/choice_computation.hpp: sat_prover"]}
{"id": "C40", "title": "Choice computation preserves functions", "statement": "compute_choice on a network whose inputs are the nodes 1, 2, ..., whose fanins precede their gates, whose phases are right and which has no dead gate: if it returns, the result is combinational with as many inputs, its outputs compute the functions of the given outputs, and every choice link leads from a node to an earlier node with the same or the complementary function. The representatives recorded by sweeping are alike and never later, for arbitrary candidate classes and any sound solver, including one that gives up. Sweeping goes through below 1000 nodes; the derivation goes through if representatives are the first nodes of their kind, and an assertion of set_choice can fail otherwise. Networks built with their inputs first and miters of several networks are such networks.", "quantifier": "every such AIG, every candidate class oracle, every history of sound solver answers", "why_tests_cant": "unbounded networks; the solver's verdicts and the candidate classes vary from run to run", "anchors": ["include/operations/algorithms/choice_computation.hpp: man_sweep, sweep_node, derive_choice_aig, man_dup_dfs"]}
{"id": "C41", "title": "Choice miter merges networks faithfully", "statement": "merge_aigs_to_miter, given 2 to 255 combinational networks with the same numbers of inputs (at least one, created before all other nodes) and outputs, returns a network with that interface whose outputs compute the functions of the first network, and which contains for every node in the cone of every output of every given network a node of the same function. A single network is returned unchanged. The conditions are needed: an input created after a gate changes output functions, reusing the object after clear() doubles the inputs, 256 networks loop forever, and a constant output without inputs recurses forever.", "quantifier": "all lists of networks satisfying the conditions, sharing storage or not", "why_tests_cant": "unbounded", "anchors": ["include/operations/algorithms/choice_miter.hpp: merge_aigs_to_miter, create_internal_nodes, dfs_recursion_po, create_node, clear"]}
{"id": "C42", "title": "Simulation computes network values", "statement": "simulate_nodes/simulate on an AIG whose gates come after their fanins return for each live node and output the value of the network under the assignment to the primary inputs, registers being false; word, truth-table and Boolean simulators agree (dynamic tables need a network without registers). Truth-table simulation of a LUT network computes its meaning; Boolean simulation computes that of the network whose LUTs see their inputs reversed. In every history of added patterns, (re-)simulations of nodes or of the whole network and removed entries, each pattern table holds the values of its node for the first patterns, it is complete after simulating the node, and re-simulation succeeds when tables lack bits of the last block only. After substitution by a younger node the order is lost and simulate_nodes can be wrong; adding the 64th pattern shifts out of range.", "quantifier": "every AIG in order, every LUT network the API can build, every assignment, word, number of variables, every history of pattern additions and simulations", "why_tests_cant": "unbounded networks, inputs and histories", "anchors": ["include/operations/algorithms/simulation.hpp simulate_nodes, simulate, simulate_node, partial_simulator", "include/database/network/aig_network.hpp compute", "include/database/network/klut_network.hpp compute", "libs/kitty/partial_truth_table.hpp"]}
{"id": "C43", "title": "tree_reduce equals the left fold", "statement": "tree_reduce with an associative operation equals the sequential fold of the elements, for any length, and the initial value for an empty range.", "quantifier": "all ranges and associative operations", "why_tests_cant": "all lengths", "anchors": ["include/utils/range.hpp: tree_reduce"]}
{"id": "C44", "title": "Network history of the shell", "statement": "After read_aiger the store holds six networks; history --add with fewer than five saved ones makes the next slot denote the current network and leaves the others alone; a saved network is what choice mapping sees (slots 4 to 0, those with gates, not the current network) until its slot is written again, except that the first rewrite or refactor after the --add edits it in place because the storage is shared. A sixth --add makes every later history command a no-op (also --clear); --clear and read_aiger reset only the networks or only the count; options of a call that stopped with a warning apply to the next call.", "quantifier": "all command sequences, all networks and all effects of the optimization commands", "why_tests_cant": "history property with shared storage", "anchors": ["cli/command/history.hpp", "cli/command/io/read_aiger.hpp", "cli/command/map_fpga.hpp", "libs/alice/include/alice/store.hpp", "include/database/network/aig_network.hpp: copy of shared storage"]}
{"id": "C45", "title": "Reconvergence-driven cuts and cone tables", "statement": "The depth recorded for every node in use is the length of the longest path below it. For a gate in use with two different fanin nodes and a limit between 2 and 30, compute_reconvergence_driven_cut ends with at most limit different leaves strictly below the root that every path from the root meets; collect_cone_nodes lists the gates between, fanins first; and the table of compute_cone_tt over the leaves evaluates to the root's value under every valuation of the network. For a gate in no output's cone the depth lookup is undefined behaviour when a fanin is such a gate too, and with a limit of 1 the final assertion fails.", "quantifier": "all acyclic AIGs (also edited ones), all gates in use, all limits from 2 to 30", "why_tests_cant": "unbounded DAGs", "anchors": ["include/operations/optimization/refactor.hpp"]}
{"id": "C46", "title": "LUT network to AIG conversion preserves functions", "statement": "convert_klut_to_aig on a LUT network without registers, and convert_mapped_graph_to_aig on a combinational AIG with a cover in index order, yield an AIG with the same inputs and outputs whose outputs compute the same functions; so does mapping, network_to_klut and convert_klut_to_aig in a row.", "quantifier": "all LUT networks and all covers, gates of at most 32 fanins", "why_tests_cant": "unbounded", "anchors": ["include/operations/algorithms/detail/convert_to_aig.hpp: convert_klut_to_aig, convert_mapped_graph_to_aig"]}
{"id": "C47", "title": "When cut merging stays in bounds", "statement": "Merging two cuts never writes more leaves than a cut can hold if the two leaf counts add up to at most that capacity; otherwise the signature test does not prevent an overflow, and enumerating cuts of six leaves overflows the seven-element array on some network.", "quantifier": "all pairs of cuts", "why_tests_cant": "signature pre-check is lossy; needs colliding leaves", "anchors": ["include/database/cut/cut.hpp: merge"]}
{"id": "C48", "title": "Binary AIGER reading of truncated files", "statement": "The delta decoder returns after the first byte below 128; on a stream that ends before such a byte it never returns, for any behaviour of over-long shifts. More than five bytes of one delta are undefined.", "quantifier": "all byte streams", "why_tests_cant": "all inputs", "anchors": ["libs/lorina/lorina/aiger.hpp: decode"]}
{"id": "C49", "title": "Port names from the AIGER symbol table", "statement": "If the symbol table names every input and output, the reader gives every port its name (escaped unless it consists of letters, _ and $), in order, even if ports share a signal. If an output that is a named signal has no name of its own, or a name is given for an output that does not exist, vectors are accessed out of bounds.", "quantifier": "all clean AIGs and all tables of non-empty names", "why_tests_cant": "unbounded networks and names; needs shared signals", "anchors": ["include/operations/io/reader.hpp: Reader", "include/operations/io/detail/aiger_reader.hpp: NameMap, on_input_name, on_output_name", "libs/lorina/lorina/aiger.hpp: read_aiger"]}
{"id": "C50", "title": "Candidate classes and resimulation", "statement": "For every sequence of random numbers, cand_equiv_classes partitions the nodes so that nodes with the same or complementary functions are in one class, represented by its first node, and all nodes of a class agree in the last simulation; Abc_PrimeCudd returns the least number from p on that is 1 or an odd prime. Sweeping with these classes never runs into an assertion below 1000 nodes (every counterexample splits a class), and if the computation returns, its network is equivalent and its choices are right. Because resimulate_other_rec visits child0 twice and never child1, nodes with equal functions can be separated, and then set_choice's assertion can fail; if it visited both children this could not happen.", "quantifier": "all networks with inputs first and no dead nodes, all random sequences, all correct solvers returning full models, any number of simulation words", "why_tests_cant": "the failing run needs equal nodes that random patterns do not exercise and outdated marks of an earlier counterexample; definedness ranges over all solver answers", "anchors": ["include/operations/algorithms/choice_computation.hpp: cand_equiv_classes", "include/operations/algorithms/choice_computation.hpp: resimulate", "include/operations/algorithms/choice_computation.hpp: resimulate_other_rec", "include/operations/algorithms/choice_computation.hpp: collect_tfo_cands"]}
{"id": "C51", "title": "LUT mapping keeps the functions", "statement": "Whatever floating-point arithmetic is used and in whatever order stale cuts are reused: if klut_mapping returns on a network built through the API, with or without choices, the mapping is a cover whose cells have 2 to cut_size leaves, every leaf is an input, the constant or the root of another cell and precedes its root, and every cell function gives the value of its root; so the LUT network of choice_to_klut and the AIG of convert_klut_to_aig (map_fpga, lut_opt) have the outputs of the mapped network, also when choices come from compute_choice. The result depends only on the cut parameters and bZeroGain: the iteration numbers given on the command line are overwritten. The mapper does not always return: with choices the trivial cut of a node can become its best cut, a priority size the commands accept can overflow the set of 12 cuts, and if no output is a gate the commands dereference an empty optional.", "quantifier": "all networks, all choices between nodes that agree up to complement, all cut parameters, all arithmetic operations, all orders of stale cuts", "why_tests_cant": "the covers depend on floating-point costs, stale cuts and shared truth tables over several rounds; tests see a few networks with one arithmetic", "anchors": ["include/operations/algorithms/klut_mapping.hpp: klut_mapping_impl::run", "include/operations/algorithms/klut_mapping.hpp: perform_mapping_and_choice", "include/operations/algorithms/klut_mapping.hpp: merge_cuts", "include/operations/algorithms/klut_mapping.hpp: derive_final_mapping", "cli/command/map_fpga.hpp: execute", "cli/command/lut_opt.hpp: execute"]}
{"id": "C52", "title": "Rewriting selects equivalent structures with the gain it computes", "statement": "On any network built through the API for which the cuts can be enumerated and any valid structure database, the selection phase of rewrite succeeds, only adds gates, chooses each gate at most once in node order, and every chosen signal has the function of its gate. Afterwards the reference counts are those of the given network again, and the gain that decided is the true one: the fanout-free cone above the cut is larger than (with b_use_zero_gain: at least as large as) the set of nodes the replacement adds. If the replacements do not interfere (C34), rewrite returns a network with the same functions. Three claims are false for the default parameters: the cut enumeration can overrun the leaf array, rewrite can turn an output into constant 0, and with b_preserve_depth the depth can grow.", "quantifier": "all combinational networks, all databases of valid structures, all cut and rewrite parameters", "why_tests_cant": "the reference counts are changed and restored for every structure of every cut of every gate while the network grows; the wrong result needs a gate whose two fanins become one signal", "anchors": ["include/operations/optimization/rewrite.hpp: run", "include/operations/optimization/rewrite.hpp: initialize_depth", "include/operations/optimization/rewrite.hpp: update_arrive_depth", "include/operations/optimization/rewrite.hpp: local_replacement"]}
{"id": "C53", "title": "Refactoring keeps the functions", "statement": "Whenever refactor returns a network, it has the inputs and outputs of the given network and computes the same functions, for every setting of the parameters and however the unordered sets are ordered; in the loop over the gates every node value is kept. Before the loop the reverse depth of each gate in use is one more than the longest path down to it, the required depth is not below its depth, and the fanout sets hold exactly the gates with that fanin. On a network with gates outside the cones of the outputs the pass reads through the end of a map.", "quantifier": "all combinational networks, parameters, set orders and loop lengths", "why_tests_cant": "the loop edits the network while it walks over it with depths, fanout sets and reference counts that are only partly kept up to date; the functions must survive whatever these say", "anchors": ["include/operations/optimization/refactor.hpp: run", "include/operations/optimization/refactor.hpp: replace_sub_ntk", "include/operations/optimization/refactor.hpp: compute_reverse_depth_info", "include/operations/optimization/refactor.hpp: compute_fanouts_info", "include/operations/optimization/refactor.hpp: sub_ntk_replace"]}
{"id": "C54", "title": "Cut-based balancing keeps the functions", "statement": "balancing with any sound rebalancing function keeps the interface and the functions whenever each gate in use has an enumerated cut that is not a single leaf and not constantly false. With sop_rebalancing, whose candidates compute the function of their inputs, the pass completes and keeps the functions if tables are not minimised, two cuts fit into the leaf array of one, the cut limit is between 3 and 11 and no gate in use is constantly false. It turns outputs into constants with a cut limit of 2 or with minimised tables, fails an assertion on every network with the default limit of 25, and sop_rebalancing announces true for the function false.", "quantifier": "all combinational networks, rebalancing functions, critical-path settings, parameters and orders of priority queues", "why_tests_cant": "every node is replaced by a tree built from one of its cuts, and a node without a considered cut silently becomes a constant", "anchors": ["include/operations/optimization/balancing.hpp: run", "include/operations/optimization/balancing/sop_balancing.hpp: operator(), create_function, balanced_tree", "include/operations/optimization/balancing/utils.hpp: arrival_time_compare"]}
{"id": "C55", "title": "The choice flow maps what its last script returns and checks it against the rewritten network", "statement": "choice_synthesis followed by mapper gives a LUT network with the functions of the network the second script returned, whatever the passes did, and with those of the given network if the rewriting calls kept the functions. A rewriting call whose replacements do not interfere keeps them, in its result and in the storage of its argument. The verdict of the closing equivalence check is right about the network stored as the original one at that time, hence about the given network if the first rewriting was harmless. Copies of networks share storage and rewriting works in place: the check can report success for a LUT network that does not compute the given functions, with every correct solver.", "quantifier": "all combinational networks with inputs, databases, cut and mapping parameters, orders, random numbers and correct solvers, for runs that complete", "why_tests_cant": "the flow's own verification compares with a network the first rewriting has already changed, so it passes when that rewriting is wrong", "anchors": ["include/flow/flow_manager.hpp: run, dch_compress, dch_compress2, choice_synthesis, mapper", "include/operations/algorithms/debugger.hpp: debug_by_miter", "include/operations/algorithms/choice_miter.hpp: merge_aigs_to_miter"]}
{"id": "C56", "title": "What the mapping checker accepts", "statement": "The check of one cell answers equal only if the LUT stored for the cell gives the value of its root on every consistent assignment of the network. If the whole checker answers true and no query timed out, every LUT of the mapping is right, and collapsing the mapping keeps the functions of the network. Conversely there are no false alarms: if fanins have smaller numbers, a cell whose leaves are a cut of its root and whose LUT is the function of the gates in between is never rejected, and if all cells are of this kind the checker does not answer false. The check of an output asks for all LUTs below the output to be wrong at once, so it can pass although the LUT of the output is wrong, for every correct solver. A query that times out counts as passed, so with a solver that gives up the checker answers true for a wrong mapping.", "quantifier": "all reachable combinational networks with choices whose members are alike, all mappings, all correct solvers, for runs that complete", "why_tests_cant": "the verdict depends on an encoding of arbitrary cones into clauses and on a solver; a check that passes wrong mappings looks the same as one that works as long as the mapper is right", "anchors": ["include/operations/algorithms/detail/checker_4_mapped_graph.hpp: run, check_each_luts, check_each_po, is_equal_cell, is_equal_root", "include/operations/algorithms/debugger.hpp: debug_mapped_aig_by_origin"]}
{"id": "C57", "title": "Checking a mapped network by conversion and a miter", "statement": "The network obtained by converting a mapped AIG computes what the cells compute, whatever functions are stored for the cells, and so does the LUT network obtained by collapsing it. The check by conversion and miter answers true exactly if the cells, and hence the LUT network, compute the functions of the AIG; in particular it answers true if every LUT is right. Comparing two combinational networks by a miter answers true exactly if they have the same numbers of inputs and outputs and the same functions. It does not reject a mapping that the mapping checker accepts with a solver that never times out. The converse fails: a LUT that is wrong only where the outputs do not depend on it is rejected by the checker and accepted by the miter.", "quantifier": "all combinational networks without removed gates, all mappings whose outputs and leaves are provided and whose leaves have smaller numbers than the roots, all correct solvers, for checks that return", "why_tests_cant": "the check is itself the test of the mapper; whether its verdict can be trusted for wrong mappings is a statement about all mappings and all solvers", "anchors": ["include/operations/algorithms/debugger.hpp: debug_mapped_aig_by_converted_miter, debug_by_miter", "include/operations/algorithms/detail/convert_to_aig.hpp: convert_mapped_graph_to_aig", "include/operations/algorithms/network_to_klut.hpp: choice_to_klut"]}
