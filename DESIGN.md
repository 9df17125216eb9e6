# Formal model of iMap (Rocq / Coq 8.16.1)

Source: /repo (C++), read as text. Model and proofs: rocq/theories.

## Conventions

* A C++ computation that may hit undefined behaviour, a failed assertion or
  non-termination returns `option`; `None` is that outcome. Loops without a
  syntactic bound take fuel and return `None` when it runs out; theorems prove
  that `Some` is returned (or say which inputs give `None`).
* Model files hold definitions only, `*Sem.v` files and the final
  "specification" sections of model files hold the independent specification
  vocabulary, `*Proofs.v` the lemmas, and `Prop*.v` the property
  theorems (closed by `exact`, followed by `Print Assumptions` and by an
  `Example` that a concrete non-trivial case meets the hypotheses).
* If the code does not satisfy the English property the theorem is named
  `..._refuted` and exhibits a concrete witness; the true restricted statement
  is proved beside it.

## Plan per property

| id | model | proof |
|----|-------|-------|
| C01-C09 | AIG storage and creation API (nodes, chained hash, counters) | invariant over all creation histories; functional semantics by valuations |
| C10, C11 | substitute_node, replace_in_node, take_out_node | invariant + refutation witnesses |
| C12 | k-LUT network | evaluation lemma; refutation of the agreement of both compute overloads |
| C13 | truth-table cache | invariant over insert histories |
| C14, C15, C17, C47 | cuts and cut sets | list/set refinement, signature soundness |
| C16 | cut enumeration | induction over node order |
| C18, C19, C46 | mapping view, network_to_klut, convert_klut_to_aig | refinement to a finite map; simulation of both networks |
| C20-C22 | topo_view, cleanup, depth_view | DFS invariant |
| C23, C24 | and_balance | function preservation through worklists |
| C25-C27 | cube/SOP algebra, ISOP | algebraic laws, structural recursion |
| C28-C30 | miter, CNF, equivalence checking | clause characterisation, oracle-parametric verdict |
| C31-C33, C48 | AIGER code, writers | round trip by induction; refutation of termination |
| C34, C35 | rewrite local replacement, ref/deref | valuation argument; counting invariant |
| C36 | NPN-4 database | exhaustive kernel computation lifted to all networks |
| C37-C41 | choice networks | valuation argument, graph ranking |
| C42, C43 | simulation, tree_reduce | induction |
| C44 | shell history | state machine with shared storage |
| C45 | refactor cuts | worklist invariant |

## Modelled / not modelled

Every model file starts with the simplifications it makes; every definition
cites the lines it models. Summary:

| code | model | simplifications, omissions |
|------|-------|----------------------------|
| database/network/aig_network.hpp, details/storage.hpp, details/node.hpp, details/signal.hpp, details/node_hash.hpp | Aig.v, AigHash.v, Subst.v | indices unbounded; event handlers, `substitute_nodes`, latches beyond their counters, name maps omitted; scratch fields are modelled where an algorithm uses them |
| database/network/klut_network.hpp | Klut.v | as above |
| utils/truth_table_cache.hpp | TtCache.v | - |
| kitty tables, cubes, isop, cnf | Tt.v, Isop.v | word packing omitted: operations by their effect on bits |
| database/cut/cut.hpp, cut_set.hpp, cut_enumeration.hpp | Cut.v, CutEnum.v | cut order and cut data are parameters |
| database/views/mapping_view.hpp, algorithms/network_to_klut.hpp, detail/convert_to_aig.hpp | Mapping.v | - |
| database/views/topo_view.hpp, depth_view.hpp | Topo.v, Depth.v | the parallel-friendly immutable overlays omitted; levels unbounded |
| algorithms/cleanup.hpp, miter.hpp | Clean.v | - |
| utils/range.hpp | Range.v | - |
| optimization/and_balance.hpp | Balance.v | XOR branches (dead code) omitted |
| optimization/detail/sop_refactoring.hpp | Factor.v | counters do not wrap; `sop_kernels_rec`, `sop_least_lit` (never called) omitted |
| algorithms/cnf.hpp, equivalence_checking.hpp, variable bookkeeping of bsat2 | Cnf.v | the SAT solver is an arbitrary oracle, assumed correct only where a theorem says so |
| io/detail/write_aiger.hpp, aiger_reader.hpp, reader.hpp, lorina/aiger.hpp | Aiger.v | files are byte lists; locale and diagnostics omitted |
| algorithms/aig_with_choice.hpp, choice_miter.hpp, choice_computation.hpp:365-781 | Choice.v, ChoiceMiter.v, ChoiceSat.v | traversal numbers unbounded; solver an oracle; initial number of solver variables a parameter; iterator juggling of the miter given by its effect |
| algorithms/simulation.hpp, kitty/partial_truth_table.hpp, utils/node_map.hpp | Sim.v | word packing omitted |
| algorithms/ref_deref.hpp, rewrite.hpp:252-292 | RefDeref.v | results unbounded |
| optimization/rewrite.hpp:131-170, 298-332 | Rewrite.v | - |
| optimization/detail/node_rewriting.hpp, detail/database_npn4_aig.hpp, kitty/npn.hpp:151-263 | NodeRewriting.v, NpnDatabase.v, Npn.v | canonization for 5 and 6 variables |
| optimization/refactor.hpp:124-148, 200-415 (depths, cut, cone, cone table) | Refactor.v | costs and levels unbounded; visited fields are a function; more than 30 leaves (loop counter overflow) is undefined |
| cli/command/history.hpp, read_aiger.hpp, map_fpga.hpp:74-92 and the store accesses of the other commands; alice/store.hpp | Shell.v | optimization commands are arbitrary functions on networks; parsing of option strings and the LUT and port stores omitted |
| io/detail/writer_lut.hpp, io/detail/write_verilog.hpp:84-310, lorina/verilog.hpp:502-707 (writer), kitty/print.hpp:187-210 | Writers.v; reader and meaning of the Verilog subset: Verilog.v (specification) | ports of width 0, module name top, `1 << size` not truncated; order of the unordered wire set arbitrary |
| operations/algorithms/choice_computation.hpp:793-1232 (sweeping, derive_choice_aig, man_dup_dfs) | ChoiceCompute.v | candidate classes are an arbitrary oracle asked once per gate; ChoiceClasses.v has the real ones |
| operations/algorithms/choice_computation.hpp:47-360, 804-893, 935-1066 (cand_equiv_classes, resimulation) | ChoiceClasses.v | random numbers arbitrary; visited marks are sets; a flag tells which child the second call of resimulate_other_rec gets (the source: child0); i * i of the prime test does not overflow |
| operations/algorithms/klut_mapping.hpp, cut orders of database/cut/general_cut_enumeration.hpp, commands map_fpga and lut_opt by composition | KlutMapping.v | floating-point operations arbitrary (one type for float and float_t; exact rationals in the refutations); reference counts unbounded; order of stale cuts after clear() an arbitrary permutation; statistics and printing left out |
| optimization/rewrite.hpp:75-148, 168-250 | RewriteSelect.v | depths and gains unbounded; the cut order and data are parameters |
| optimization/refactor.hpp:76-122, 156-200, 421-605 (initialisation, loop, replacement, updates) | RefactorPass.v | depths and gains unbounded; order of unordered_set arbitrary; erase through an iterator that a rehash may invalidate (525-534) as in libstdc++ |
| optimization/balancing.hpp, balancing/sop_balancing.hpp, balancing/utils.hpp | SopBalance.v | levels unbounded except the largest uint32_t, whose successor is 0; critical nodes and levels of the depth view are arbitrary; order of equal levels in priority queues arbitrary; cache of sums of products omitted |
| flow/flow_manager.hpp:77-118, 157-234, 263-284, operations/algorithms/debugger.hpp:78-96 | Flow.v | a call of rewriting is modelled with what it leaves in the storage its argument shares; files, configuration and reports omitted |
| operations/algorithms/detail/checker_4_mapped_graph.hpp | Checker.v | the solver is any function from the clauses to a model, a refutation or a timeout; the numbers of conflicts and the messages omitted |
| operations/algorithms/debugger.hpp:58-76 | Debugger.v | none beyond those of its parts |
<!--MORE-->

Not modelled: the parallel mapping checker (checker_4_mapped_graph_parallel.hpp), circuit_validator.hpp,
balance.hpp (calls `sweep`, which is defined nowhere, and is included nowhere), choice_synthesis_abc and the file handling of flow_manager.hpp, write_dot.hpp, progress bars, timers,
memory statistics, the Python and Tcl front ends, and the C++ runtime itself
(allocation failure, threads, floating-point rounding of the growth factor,
which is taken as exact decimal).

## Trusted base

* Coq's kernel (8.16.1), including its virtual machine (`vm_compute` is used
  for concrete witnesses; `coqchk` re-checks without it).
* `Print Assumptions` stands after every property theorem and answers "Closed
  under the global context" for all of them: no theorem depends on an axiom.
* std++ is used as a library. The axioms present in the loaded libraries
  (listed by coqchk, used by no theorem) are the seven fields of
  `Coq.ssr.ssrunder.Under_rel`, part of Coq's own distribution.
* The models are transcriptions by hand; that they match the C++ is the part no
  proof covers. seeded/LOG.jsonl lists the wrong programs the theorems were
  tested against.
