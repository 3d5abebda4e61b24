# Formal model of RRZE-HPC/kerncraft in Rocq (Coq 8.16.1)

This document states what is modelled, how each property of `properties.jsonl` is
proved, what is trusted, and which properties turned out to be violated by the code.

## Conventions

* One group of files per source module, in `rocq/theories/`:
  `XModel.v` (definitions only, each with a comment citing `/repo` file and lines),
  `XSpec.v` or a "specification" section in the property file (small, independent of the model),
  `XProofs.v` (lemmas), `XProps.v` (only `Theorem … exact lemma`, non-vacuity `Example`s and
  `Print Assumptions`).
* Models are shallow, total Gallina functions which follow the Python code branch by branch.
  Exceptions are values: `Err SomeError`. Loops without a structural bound take fuel and return
  the explicit value `Err OutOfFuel`; theorems rule it out or state it.
* Python `int` is `Z`; `//` and `%` are `Z.div`/`Z.modulo` (both floor) with a guard raising
  `ZeroDivisionError` where the code can divide by zero.
* Python `float` is modelled by exact rationals `Q`, plus explicit `inf`/`nan` where the code
  depends on them. Rounding errors of binary64 are *not* modelled unless a file says so.
* Python `str` is `list ascii` (or Coq `string`); text is ASCII.
* Python `dict` is an association list in insertion order.
* External programs, sympy, pycparser, the cache simulator, likwid, IACA/OSACA/llvm-mca and the
  file system are oracles (function arguments) or explicit small transition systems.
* A property that is false for the code is recorded as `…_refuted : exists …` with a concrete
  witness, and as a finding below. Where only part of a property is proved the theorem name ends in
  `_partial`.

## Plan per property

| id | model | proof plan |
|----|-------|------------|
| C01 | `Intervals` constructor, merge loop, `&`, `in` over `list (Z*Z)` | invariant of the merge loop: sortedness and union of the members; induction on the list |
| C02 | same, `len`, `==` | refute in general (witness with three ranges), prove for inputs whose result is separated, in particular at most two ranges |
| C03 | ranges as references into a heap of cells (aliasing is explicit) | refute with a witness; prove that operands with no touching ranges are unchanged |
| C04 | quantities over `Q`, prefix table | field reasoning |
| C05 | constructor with unit re-parsing, arithmetic | refute for units starting with a prefix letter, prove for the others |
| C06 | `good_prefix` fold in dictionary order | fold invariant "largest admissible so far"; SI table refuted for T, P, E |
| C07 | `__str__` and string constructor | parser/printer round trip on character lists, refuted for E/Z/Y and for units starting with a prefix letter |
| C08 | `clean_code` index loop with Python slices (negative indices included) | refute with witnesses; prove against a line-wise specification for the inputs on which it is right |
| C09 | `access_to_sympy`, `array_sizes` for any number of dimensions | induction on the dimension list (mixed radix) |
| C10 | the pycparser subset of index expressions, AST rewriting | evaluation semantics of the AST, induction on dimensions |
| C11 | the index computations over a loop stack | mixed radix induction for unit increments, refuted otherwise |
| C12 | `iteration_length` and the two other counting formulas against an operational loop semantics | induction on loops / on the iteration space |
| C13 | layout loop with `land`/`lnot` rounding | bit lemmas, induction on the array list |
| C14 | kernels with constants and the shared LRU memo table as a state machine | refuted; invariant proof for histories respecting `clear_state` |
| C15, C16 | statement/expression AST, `_p_assignment`, `_p_sources`, `_get_offsets` | induction on expression trees, against independent counting specs; refuted for `++`/`--` |
| C17 | transition system: n processes × lock state × file state, flock with non atomic conversion | inductive invariant over all reachable states |
| C18 | same system with crash steps | refuted by a concrete trace |
| C19 | path construction | refuted for layer-condition results and for names with `/`; injectivity proved for the rest |
| C20–C22 | construction of the option lists over evaluated distances, desymbolisation, derived per level lists | induction over sorted distance lists |
| C23 | polynomials as coefficient lists, key construction, tuple comparison | dominance of the leading difference for large arguments |
| C24, C25 | the warm-up schedule as a state machine with the simulator as oracle; alignment arithmetic | invariants over all steps; refuted crash cases |
| C26 | selection fold with extended rationals | fold invariant |
| C27 | memoised constructor as state machine | refuted by a two-call history, first call correct |
| C28–C30 | string functions | induction on strings / grammar |
| C31, C32 | scheduling loop | invariant (partition of events, register sets), termination measure; minimality refuted |
| C33 | fold over blocks | fold invariant |
| C34 | small x86 AT&T semantics for the recognised instructions | refuted for base registers with scaled index; soundness under stated conditions |
| C35 | cache file as list of lines | refuted for overwriting stores, proved for first stores |
| C36 | marker insertion on line lists | list reasoning |
| C37–C39 | ECM formulas over `Q` | arithmetic (`nra`/`field`), list induction |
| C40, C41 | roofline formulas over extended `Q` | fold invariant; precision selection refuted |
| C42 | `space`, range parser | arithmetic over `Q` with banker's rounding; parser proofs |
| C43, C44 | define permutations, identifiers | list reasoning |
| C45, C46 | store file as crash transition system; `update` on nested dictionaries | case analysis on crash points; nested induction |
| C47 | search loop with runtime oracle | termination measure, refutation |
| C48 | environment as map, body as arbitrary transformer | case analysis |
| C49 | adaptation loops with runtime oracle | arithmetic |
| C50 | update decision and resume loop | refuted + invariant |
| C51 | LooseVersion parsing and comparison | refuted by witness, ordering proved for numeric versions |
| C52 | selection function | case analysis |
| C53 | nested objects | nested induction, refuted for key collisions |
| C54 | lock ranks | progress theorem over all states respecting the acquisition order |
| C55 | two list constructions | list induction |
| C56 | integer functions | arithmetic |
| C57, C58 | the transition system of C17, with file contents and modification times | inductive invariant; refuted by traces |
| C59 | comparison and arithmetic operators of quantities | case analysis over `Q`, refuted for units |
| C60 | adaptation of variables with a runtime oracle | arithmetic, termination measure, refuted for zero |
| C61 | dictionary with shared default records | list induction; refuted by aliasing |
| C62 | increment detection with the set order as parameter | permutation invariance; refuted with two registers |
| C63 | file states during marking | case analysis on every failure |
| C64 | printed marker and increment reader | parser/printer round trip |
| C65, C66 | scaling of in-core cycles, in-core roofline | arithmetic, fold invariant |
| C67 | `compile_global_offsets`, from parsed statements to addresses | composition of C11, C13 and C16; refuted for strided loops |
| C68 | checks of `build_symbolic_LCs` on polynomials | normal forms of polynomials, second differences; exact condition for usual references |
| C69 | `split_sympy_access_in_dim_offset`, `access_to_sympy` | normal forms, owner of each term; refuted for numeric sizes |
| C70 | sorting of accesses and distances, up to the second part (C22) | insertion sort invariant, leading coefficients |
| C71 | AArch64 pointer increment, all passes, against register semantics | invariant "moves by a constant after n iterations" through every pass |
| C72 | the same function: absence of errors, detection of a single counter | preservation of the entry of the counter through the passes |
| C73 | search, renaming and reading back of counters in metrics, over texts | positions of counters in the text, replacement as a homomorphism on atoms |
| C74 | line by line reader of likwid-perfctr with its exceptions | invariant "every entry was printed", preservation of entries by later lines |
| C75 | merging of results, choice of registers; the runs of C31/C32 | assignment of events to runs, search through the registers, from the printed output |
| C76 | check of the clock frequency | case analysis on the text |
| C77 | derived rates | field arithmetic over Q, iteration counts of C12 |
| C78 | generated kernel function | semantics of the kernel code and of the generated function; simulation over expressions, statements, iterations and the call |
| C79 | benchmark program | semantics of the main program as traces of actions; initialized elements, simulation of repeated calls |
| C80 | output of llvm-mca | regular expressions as leftmost searches over texts; invariant of the port dictionary, induction over timeline lines |
| C81 | output of IACA | cells of the two table rows as an inductive relation; induction over the columns |
| C82 | throughput of OSACA | results of the library as parameters; greatest element by induction |
| C83 | answers do not depend on earlier calls | store of files by path, calls as state transformers that keep files when they fail; invariant: every file holds what its own request asks for |
| C84 | failed calls leave nothing behind | same model; corollary for later calls, symbolic execution of the failing ones |
| C85 | loops as described | backtracking matcher for patterns (`PyRegex`), pattern of loops on it; every written description matches with the right groups, induction over the options |
| C86 | variables as described | same; numbers by form, value by `float` |
| C87 | information of every region | tables with the default region, heap of shared loops; exact condition of completion |
| C88 | ends of loops follow variables | same; invariant over all adaptations, and a change that breaks it for separate loops |
| C89 | memory hierarchy from likwid-topology | searches, lines and levels modelled; for every text that contains the description of a chain of caches, by induction over its lines |
| C90 | updates of machine descriptions | the two caches of results, shared dictionaries and models as a state; invariant over all histories of checks, updates and changes |
| C91 | check for the current system | same state; exact answer from the invariant, and histories with stale answers |
| C92 | fastest kernel | pattern of the bandwidth, failures and maximum over pairs; induction over kernels |
| C93 | available kernels | splitting of the listing; exact filter for all listings |
| C94 | sizes of benchmarks | formula over Q; inequalities for all hierarchies and core counts, counterexamples from real machines |
| C95 | numbers of sockets, cores, domains | first matching line of the text, for all texts around |
| C96 | output of likwid-perfctr with regions | the region of a line as an inductive relation; invariant over lines, exact for metrics and plain registers; options and commas refuted |
| C97 | choice of regions | exact set for all outputs |
| C98 | counters of regions | values traced back to lines of the region; parameters refuted |
| C99 | phenomenological ECM of both benchmarks | exact contributions for complete machines; other machines refuted |
| C100 | rates of regions | consistency with executed iterations; remainders refuted |
| C101 | runs of a measurement | invariant over the loop of runs |
| C102 | models, dictionaries and files as a state machine | invariants over all histories: what is loaded, who shares a dictionary; stale descriptions refuted |
| C103 | writes of the description program in order | every crash point is a prefix of the writes; work in place refuted |
| C104 | the same | content at the end and at every prefix; loss by emptying refuted |
| C105 | times of files as numbers, directories as trees | induction over trees gives the exact condition; time zone and cache refuted |
| C106 | options as texts and enumerations | case analysis over all texts and sets of models; two defaults refuted |
| C107 | kernels with symbolic sizes, bounds and accesses; free symbols as parameter with a specification | values of expressions depend on required constants and indices only; missed expressions refuted |
| C108 | loop nests with texts of pragmas; the returned nest and the changed tree | words of directives under replacement; parts by owner are a merge; witnesses for pragmas that divide nothing |
| C109 | code of every thread as loads and stores to shared memory, any schedule | commutation of independent operations: every interleaving equals the sequential call (C78); shared scalars refuted |
| C110 | the substitution on the generated text | induction over lines |
| C111 | Caches as lists of lines in order of use; the trace of a kernel that moves by one element per iteration; reuse distances independent of the order of references. Of the code: `Front*` and `LC*` | Stack distance of an access as the number of different lines since the last one; the lines covered by the elements between, counted by disjoint intervals per reference; sums over the iterations of one line, and the link to `reuse_distances` and `build_level`. Exact agreement and caches with sets: witnesses |
| C112 | Syntax trees of pycparser with the text of literals; `_process_code`, `_p_for` with all checks (`Code*`) | C semantics of integers, loops and blocks in which assignments may change what they modify to anything; accepted trees are shown to be perfect nests, each loop is executed by induction on the distance to its bound. Octal literals, steps of zero, assigned indices: witnesses |
| C113 | The same, with `set_variable` and `check` | A grammar of kernel code; soundness by induction on statements, completeness by induction on the derivation; the sections by induction on the list |
| C114 | The same, with `_p_assignment`, `_p_sources` of `Ast*` | Theorems of C112 and C16; literals read alike in subscripts |
| C115 | `get_index_type`, `_find_inner_most_loop` on the same trees | Induction on the nest |
| C116 | `replace_id` on trees with single attributes and lists, the list changed while it is iterated (`Tmpl*`) | Substitution as a function on trees; induction on the tree with an inner induction on the length of the list to be visited. Two uses in a row, lists for single nodes, replacements that use the identifier: witnesses |
| C117 | The template and the six replacements of `get_main_code`, `_build_dummy_calls`, `_build_kernel_call`, parameters of `_build_kernel_function_declaration` | Successive substitutions equal the simultaneous one if no part uses a placeholder; each condition of C116 is preserved by the replacements before it |
| C118 | What `build_symbolic_LCs` takes from an accepted code (`front_of`, `Flow*`); of the code otherwise `Code*`, `Front*`, `LC*`; caches of `Lru*` | The events of C112 are mapped to lines by the declared dimensions; elements move with the position of the iteration in row-major order; the bounds of C111 generalised to references which repeat, come in any order and to missing positions; then C112, C114, C70 and C22 are put together |
| C119 | Constructors of all models and the call of the in-core analysis (`Init*`); texts of options of `Args*` | Relations between written values and settings; case analysis on arguments given or not; counterexamples for calls without arguments and for the misspelled mark |
| C120 | Contributions with names, both formula lines, the table rows and the choice of the prediction (`Report*`), on top of `Ecm*` | Unique readability of the texts; decoding gives the contributions; error bound of rounding by induction; counterexamples for cores of other sockets |
| C121 | LC.analyze and LC.report with the simulator kept by the machine (`Report*`, `Bw*`) | For any history without stored results; invariant over histories for one core; counterexamples |
| C122 | Targets of all print calls of the reports (`Report*`) | Case analysis over verbosity and results; refutations name the calls |
| C123 | Both data transfer tables (`Report*`) | Sorting permutes; sorted names of permuted lists agree; counterexamples |
| C124 | Scaling of the simulator's counters and bytes_per_iteration (`Csim*`), on top of `Sim*` and `Trace*`; the simulator is a parameter | Inversion of the schedule and exact arithmetic; existence by C67; counterexample for two elements written per iteration |
| C125 | The whole predictor with a first level which is a fully associative LRU cache (`Csim*`, `Lru*`, `LC*`, `Front*`) | Addresses of iterations are renamed to elements of references (injectivity on lines), bounds of C111 are summed over all windows of the benchmark, alignment makes them whole; single loops are shown to stream |
| C126 | iterations_per_cacheline against the conversions of ECM and roofline (`Csim*`, `Ecm*`, `Roof*`) | Exact arithmetic for every step; counterexample for step two |
| C127 | string_to_sympy with a tokenizer and parser for sums, products, signs and parentheses (`Desc*`) | Grammars of tokens and expressions as specification; the parser is sound, complete and has enough fuel for all texts; every expression is written down by recursion |
| C128 | Loops, sizes and accesses of descriptions (`Desc*`) against the execution of C code (`Code*`) | Equality of iterations by induction over the nest, elements by the relation between references and accesses, on top of C112 and C114 |
| C129 | The constructor of KernelDescription (`Desc*`) | The constructor is shown to be equivalent to a relation which lists the required entries |
| C130 | iaca_get.py as steps on a file system (`Iaca*`) | Histories as steps of several calls next to each other; invariant: each location is untouched or holds the result of a prefix of the steps of one call; the link looked for is made in the last step |
| C131 | Arguments and choice of the location in iaca_get.main (`Iaca*`) | Finished installations are frozen by the invariant; witnesses for interruptions, --force and other operating systems |
| C132 | Choice of version, PATH and the program run in iaca_analyse_instrumented_binary (`Iaca*`) | On top of C130, with programs looked for in the order of PATH; induction over analyses; witness for the documented place |
| C133 | run of standalone_pheno.py, constants and variables during the adaptation, storing of results (`Alone*`) | Invariant of the session (constants = values of the variables = arguments of the last run); induction over histories with a crash lemma for saving; witnesses for what the key does not tell apart |
| C134 | ParseMarkers and the initial regions of BinaryDescription (`Alone*`, on top of `Region*`) | split after join gives the names back, composed with C97 |
| C135 | evicts of the layer conditions (`LC*`, `Front*`) against write-back LRU caches (`Evict*`, `Still*`, on top of `Lru*`) | Conservation: lines written back and modified lines at the end are modified lines at the start and lines becoming modified; each leading or replaced written reference makes one line modified per line of work, kept ones none |
| C136 | misses of each level of the layer conditions (`LC*`, `Front*`) against hierarchies of LRU caches in which each level gets the misses of the one above (`Hier*`, on top of `Lru*`) | A hit in the second cache means a stack distance below the lines of both (lines missed above since, and lines which stayed above); first accesses reach all levels, so a line is found if the streams since its first access fit |
| C137 | Tables about loops, accesses, operations, variables, constants and regions (`Info*`) | A reader of printed tables (titles, rows, cells, words, columns) is applied to the output; induction over rows, indentation by lines |
| C138 | Caches with sets on the traces of C111 and C118, arrays contiguous at any beginning (`Sets*`); of the code `Front*`, `LC*`, `Code*` | Of consecutive lines at most one more and at least one less than the share of a set fall into it; with this the windows of C111 are counted for each set, and sums over references and iterations as there and in C118 |
| C139 | `report_data_transfers` with its formats, and the cycles of a level (`Vol*`, `Ecm*`) | The words of each row are read back as integers; rounding to half a byte is carried through throughput, bandwidth and duplexness |
| C140 | `uneven_tuple_cmp` and the sorting of accesses (`Vol*`) | The comparison is a lexicographic order counted from the end, which is total and transitive; a sorted list of different tuples is unique |
| C141 | `parse_asm`, `detect_x86_syntax`, choice of the markers and comparison of versions (`Syn*`, `Mark*`) | The version text is split and read back; comparison of tuples is characterised by the first difference; parsing and detection take the same branch |
| C142 | `main` of incore_model.py (`Syn*`, `Mark*`) | The increment chosen by the first run is found in the cache left by it |
| C143 | The argument lists of `assemble_to_object`, `compile_kernel` and `build_executable`, and `reduce_path` (`Cmd*`, with `get_compiler` of `Mach*`) | Splitting at spaces is related to an inductive definition of the words of a text; filtering goes through the parts of the list |
| C144 | The correction of assembly in `compile_kernel` (`Cmd*`) | An inductive definition of replacing is equivalent to `str.replace`, as vkmovb does not overlap itself |
| C145 | `access_to_sympy`, `compile_sympy_accesses`, `compile_relative_distances` and `index_order` on symbolic expressions (`Dist*`); simplification is any function that keeps values | Flattening equals Horner's rule by induction over the dimensions; neighbouring differences telescope |
| C146 | `set_recursionlimit`, `pprint_nosort` and `TemporaryDirectory` as constructs of a small language with calls, exceptions and handlers (`Ctx*`) | Induction over programs; exact depth of nested calls |
| C147 | `_as_function` with `_strip_comments`, and the extent of the first function (`Wrap*`) | Splitting into lines distributes over the parts of the text; induction over texts with matching braces |
| C148 | `get_scalar_declarations` and `_build_scalar_extern_declarations` on a heap of nodes (`Decl*`) | Every step only appends to the heap or changes appended nodes; views of nodes are kept by appending |

## Trusted base

* Coq 8.16.1 kernel (and `coqc`/`coqchk`). `vm_compute` is used for concrete witnesses; it is part
  of the kernel.
* `Print Assumptions` output per theorem: see the section "Assumptions" below.
* The reading of the Python code: nothing here is extracted from or run against the code.
* Documented simplifications in each model comment.

## Assumptions

Every theorem of an `…Props.v` file is followed by `Print Assumptions`. For all of them the output is

    Closed under the global context

so no axiom, neither of the standard library nor of our own, is used by any theorem. (The gate lists the
axioms `Coq.ssr.ssrunder.Under_rel.*`: they are declared by a module of the standard library that gets
loaded, but no theorem depends on them.)

Oracles (sympy, compilers, IACA/OSACA, likwid, `pickle`, `math.log`, …) are arguments of the models. What
a theorem needs of them is an explicit hypothesis of that theorem, and an `Example` next to it shows a
case which meets the hypotheses.

## What is modelled

| source (`kerncraft/`) | modelled | files |
|---|---|---|
| `intervals.py` | all | `Intervals*` |
| `prefixedunit.py` | all arithmetic, comparison, printing, parsing | `Unit*` |
| `kerncraft.py` | `space`, `uniquify`, `AppendStringRange`, `clean_code`, `to_tuple`, `identifier_from_arguments`, `jsonify_obj`, the combination of constants, required constants, checks and defaults of options, storing of results | `Range*`, `Define*`, `Ident*`, `Json*`, `Store*`, `Clean*`, `Args*`; age of its own files in `Life*` |
| `kernel.py` | linearisation of accesses and declarations, array sizes, acceptance of kernel code (`_process_code`, `_p_for`), type of indices, innermost loop, loops (iteration counts, global iterator), sources/destinations, flops, layout of arrays, `subs_consts` with its memo table, the lock and freshness protocol of intermediate files, paths of intermediate files, generated constants, the address trace of the simulator, the generated kernel function and main program as syntax trees, their OpenMP version under all schedules, the chain of intermediate files from the kernel to analysis and executable, kernel descriptions, printed information, command lines of the compiler, listed references and distances, the temporary recursion limit, the text that is parsed, declarations taken from the kernel | `Desc*`, `Info*`, `Cmd*`, `Dist*`, `Ctx*`, `Wrap*`, `Decl*`, `Ast*`, `Code*`, `Tmpl*`, `Loop*`, `Trace*`, `Gen*`, `Const*`, `Lock*`, `Deadlock*`, `Path*`, `Pipe*`, `Omp*` |
| `cacheprediction.py` | layer conditions (checks, splitting of accesses, distances, keys, option lists, per level results), the schedule of the simulator, its alignment and its results, order of accesses | `Front*`, `LC*`, `Flow*`, `Sim*`, `Csim*`, `Vol*`; caches as specification: `Lru*`, `Hier*`, `Sets*`, `Still*`, `Evict*` |
| `machinemodel.py` | `get_bandwidth`, `get_cachesim`, `sanitize_symbolname`, counter events and registers, `build_minimal_runs`, version check, `get_compiler`, update of benchmarks, metrics of counters, readouts, memory hierarchy, updates and checks, kernels and sizes of likwid-bench, loading, sharing and saving of descriptions, the program that writes them | `Bw*`, `Ctr*`, `Mach*`, `Perf*`, `Topo*`, `Life*` |
| `incore_model.py` | block selection, x86 and AArch64 pointer increments and block scores, increment cache, marking of assembly, reading of the results of OSACA, llvm-mca and IACA, choice of the syntax, the tool for marking | `Inc*`, `A64*`, `Mark*`, `Tool*`, `Syn*`, `Iaca*` |
| `iaca_get.py` | search for and installation of IACA, temporary directories | `Iaca*`, `Ctx*` |
| `models/ecm.py` | cycles per level, composition, scaling, unit conversion, constructors, where reports are printed, the table of transfers | `Ecm*`, `Init*`, `Report*`, `Vol*` |
| `models/roofline.py` | both models, bottlenecks, conversions, constructors, where reports are printed | `Roof*`, `Init*`, `Report*` |
| `models/layer_condition.py` | constructor, reports | `Init*`, `Report*` |
| `models/benchmark.py` | environment, repetitions, regions, adaptation of variables, reading of likwid-perfctr output, clock check, matching of counters, derived rates, phenomenological ECM, constructor, reports, temporary order of pprint | `Bench*`, `Perf*`, `Region*`, `Init*`, `Report*`, `Ctx*` |
| `picklemerge.py`, `cachetile.py` | all but argument parsing | `Merge*`, `Store*`, `Tile*` |
| `standalone_pheno.py`, `models/standalone_benchmark.py` | options, described kernel, adaptation of variables and ends of loops, output with regions, choice of regions, counters, ECM and rates of regions, stored results | `PyRegex`, `Pheno*`, `Bench*`, `Region*`, `Alone*` |

Not modelled: pycparser and sympy themselves (their results are parameters or small syntax trees), the
pycachesim and likwid libraries, what compilers and IACA/OSACA/llvm-mca do when they are called, the
formatting of numbers in most reports (which lines are printed, and where, is modelled), argparse itself,
`roofline-plot.py`, `main` and the version option of `kerncraft.py`, `dimension_from_factor` and
`_calculate_relative_offset` (not used), binary64 rounding (except in `PyFloat`),
durability of file systems (only the order of operations is modelled).

## Tests against wrong programs

`seeded/LOG.jsonl` has one line for each edit of a model that was tried in a scratch copy. Most edits were
chosen by hand, two rounds (about 450 lines) were made by a program that changes comparisons, operators, branches,
constants and kinds of exceptions; their claim is taken from the comment of the edited definition and the titles
of the properties. `theorems_failed` are the theorems whose proof, or the proof of a lemma they use, is no longer
accepted. This does not show that each of these theorems is false for the edited model: a script can fail although
the statement still holds, so the lists are upper bounds. They were not checked one by one. Edits no theorem noticed stay in the log with an empty list, either with the theorems
that were added because of them and a line for the repeated test, or with the reason why no claim is broken.

## Findings

Behaviour of the code which contradicts the property; every line names the theorem with the witness.

* **C02 intervals.py**: The length counts ranges twice when one added range touches two others: `Intervals([0,10],[1,2],[3,4])` (`C02_len_refuted`); equal sets may compare as different (`C02_eq_refuted`).
* **C03 intervals.py**: `a & b` writes into the range objects of `a` (`C03_operands_refuted`).
* **C05 prefixedunit.py**: Units whose name starts with a prefix letter, like `Pa`, are split again by every operation (`C05_prefix_like_unit_refuted`); quantities without unit raise (`C05_dimensionless_refuted`).
* **C06 prefixedunit.py**: Negative quantities never get a prefix (`C06_negative_refuted`); the factors of T, P and E are ten times too large (`C06_si_refuted`).
* **C07 prefixedunit.py**: Values printed with E, Z or Y, infinite, negative and dimensionless ones cannot be read back (`C07_large_refuted`, `C07_inf_refuted`, `C07_unparsable_refuted`).
* **C08 kerncraft.py**: `clean_code` leaves the last character of an unterminated line comment, misses touching block comments, and loses code after a line comment longer than everything before it (`C08_unterminated_refuted`, `C08_adjacent_refuted`, `C08_lost_code_refuted`).
* **C11 kernel.py**: Global iterators of strided loops do not match the execution order (`C11_strided_refuted`, `C11_strided_roundtrip_refuted`).
* **C12 kernel.py**: Three formulas count iterations; they disagree if the step does not divide the range (`C12_counts_refuted`), and backward loops get no iterations (`C12_backward_refuted`).
* **C13 kernel.py**: Cache lines whose size is not a power of two are not respected (`C13_aligned_other_refuted`).
* **C14 kernel.py**: `subs_consts` is memoised; after `set_constant` without `clear_state` old values are used (`C14_stale_refuted`).
* **C15, C16 kernel.py**: `++` and `--` inside expressions are counted wrongly and not listed as writes (`C15_flops_refuted`, `C16_incdec_refuted`).
* **C17 kernel.py**: No mutual exclusion without flock, with `--clean-intermediates` (lock files are removed), and when the in-core analysis unlinks under a shared lock (`C17_no_locking_refuted`, `C17_removal_refuted`, `C17_unlink_refuted`).
* **C18, C57 kernel.py**: A partial file after a crash is taken as fresh (`C18_crash_refuted`); so is content made from an old kernel but written after the kernel was modified (`C57_stale_content_refuted`).
* **C19 kernel.py**: Cached results do not depend on all their inputs: machine, directory of the machine file, `--asm-block`, `--pointer-increment`, and flags with `/` or `_` collide (`C19_machine_refuted`, `C19_machine_directory_refuted`, `C19_block_refuted`, `C19_flags_refuted`).
* **C20, C23 cacheprediction.py**: Distances in which identified constants cancel end in an AssertionError (`C20_cancel_refuted`, `C23_cancel_refuted`); the order of distances is wrong for constants of different magnitude and negative leading coefficients (`C23_separate_constants_refuted`, `C23_negative_refuted`).
* **C24 cacheprediction.py**: The simulation aborts with ValueError if the number of iterations is an exact multiple (at most 100) of the warm-up step or at most one cache line (`C24_multiple_refuted`, `C24_small_refuted`).
* **C25 cacheprediction.py**: Alignment goes wrong for steps not dividing cache lines, at row ends and before iteration 0 (`C25_stride_refuted`, `C25_row_refuted`, `C25_negative_refuted`).
* **C27 machinemodel.py**: `get_cachesim` keeps the simulator of the first requested core count; caches shared by small groups are divided by all cores (`C27_other_cores_refuted`, `C27_small_group_refuted`).
* **C29 machinemodel.py**: Parts with colons are read differently; the documented keyword call raises TypeError (`C29_colon_refuted`, `C29_keywords_refuted`).
* **C31, C32 machinemodel.py**: An empty register range loops forever, two events without register raise AttributeError, and the schedule is not minimal (`C31_empty_range_refuted`, `C31_no_register_refuted`, `C32_refuted`).
* **C34, C62 incore_model.py**: The increment is wrong for scaled indices with a moving base, other changes of the register, scaled lea and constant references; the order of a set of strings decides between two registers (`C34_*_refuted`, `C62_refuted`).
* **C35 incore_model.py**: Corrections of the increment cache have no effect; a last line without line feed swallows the next entry; 0 is not stored (`C35_latest_refuted`, `C35_unended_refuted`, `C35_zero_refuted`).
* **C36 incore_model.py**: Selecting a block by number always ends in KeyError (`C36_number_refuted`).
* **C37 models/ecm.py**: Unknown duplexness of the memory is taken for full-duplex; a single level ends in KeyError (`C37_duplex_refuted`, `C37_single_refuted`).
* **C38 models/ecm.py**: If utilization reaches exactly 1, one core too many is reported (`C38_tie_refuted`).
* **C39 models/ecm.py**: In-core cycles per iteration are multiplied instead of divided by the elements per cache line; kernels without operations give nan (`C39_cpu_refuted`, `C39_nan_refuted`).
* **C40, C41 models/roofline.py**: Kernels without array accesses raise TypeError; the peak is always that of single precision, and FLOP/s are used as It/s (`C40_no_access_refuted`, `C41_refuted`, `C41_report_refuted`).
* **C42 kerncraft.py**: Text after a number is ignored (`10k`, `1.5`), backward ranges are empty, counts below 2 and logarithms of 0 abort (`C42_*_refuted`).
* **C43 kerncraft.py**: Line 365 compares a number with pairs, so explicit values do not replace the default and repeated ones are analysed twice; only the largest default is used; empty ranges analyse nothing; the default of the parser is modified (`C43_*_refuted`).
* **C44 kerncraft.py**: Kernels without constants end in TypeError after the analysis; with `-D .` the identifier depends on the order of a set; the content of files does not count, but the name of the JSON file does (`C44_*_refuted`).
* **C45 kerncraft.py, picklemerge.py**: Two runs with one store lose results, up to all of them, because they share the temporary file; a file that ends early is taken for empty; picklemerge rewrites in place (`C45_*_refuted`). The JSON file is never read, so its earlier content is always lost.
* **C46 picklemerge.py**: An empty dictionary does not replace a leaf (`C46_empty_refuted`). `collections.Mapping` does not exist in Python 3.10 and later.
* **C47 cachetile.py**: The last tried length is printed whether it fits or not, minimal lengths of at most 0 never end, "nothing found" is unreachable for windows above 10, and the program always ends in AttributeError (`C47_*_refuted`).
* **C48 models/benchmark.py**: Changes of other environment variables are not undone (`C48_other_refuted`).
* **C49, C60 models/benchmark.py**: Never ends if all runtimes are short, a range starts at 0, or a runtime is 0.0 (`C49_forever_refuted`, `C60_zero_runtime_refuted`, `C60_zero_start_refuted`).
* **C50 machinemodel.py**: Sizes are compared with themselves; two `-v` end in UnboundLocalError (`C50_changed_sizes_refuted`, `C50_verbose_refuted`).
* **C51 machinemodel.py**: 0.8.3 is rejected, 0.8.3.1 raises TypeError, pre-releases count as newer (`C51_refuted`).
* **C52 machinemodel.py**: Empty explicit flags lose against the command line; no flags become one empty flag (`C52_no_flags_refuted`).
* **C53 kerncraft.py**: None becomes the text "None", colliding keys lose entries, inf and nan are no JSON (`C53_*_refuted`).
* **C55 kernel.py**: A kept executable for another set of constants is reused; constants above 32 bits are cut by atoi (`C55_other_constants_refuted`, `C55_large_refuted`).
* **C56 models, kernel**: Fractional bases are rounded wrongly, and the documented example is wrong (`C56_fraction_refuted`, `C56_documentation_refuted`).
* **C58 kernel.py**: `kernel.h` is read without its lock while the benchmark is built (`C58_reading_is_locked_refuted`).
* **C59 prefixedunit.py**: Equality ignores units (`C59_units_refuted`).
* **C61 models/benchmark.py**: Regions without own configuration share one record (`C61_shared_refuted`).
* **C63, C64 incore_model.py**: Failed marking in place empties or removes the assembly; negative increments end the program and remove the marked file (`C63_*_refuted`, `C64_negative_refuted`).
* **C65 kernel.py**: Increments which are no multiple of the element size give results depending on the direction, smaller ones end the program (`C65_direction_refuted`, `C65_small_refuted`).
* **C67 kernel.py**: The address trace of strided loops has addresses which the kernel never uses (`C67_strided_refuted`); negative iterations are not rejected but count from the end (`C67_wraps`, `C67_negative_refuted`).
* **C68 cacheprediction.py**: References with products of loop indices pass the checks of layer conditions: `a[j*j][i]`, and `a[i][i*i-3*i]` in rows of length 3 (`C68_square_refuted`, `C68_nonlinear_refuted`). Arrays with three or more numeric sizes are rejected, since the product of the sizes counts as one factor (`C68_literal_refuted`; this depends on how sympy's `as_powers_dict` lists numbers).
* **C69, C70 cacheprediction.py**: With numeric sizes `a[j+2][i]` is split into `(j, i+20)`, but `a[j+1][i]` into `(j+1, i)`; the distance between both is -10 (`C69_literal_refuted`, `C70_negative_refuted`). The distance of `a[j][i]` and `a[0][i]` contains the loop index (`C70_moving_refuted`).
* **C71, C72 incore_model.py**: On AArch64 a constant subtracted from a counter (`sub x5, x3, x2`) gets the wrong sign; only the scale of the first register counts and it is the one of the last reference with it; a moving base is ignored if the index is a counter; references with an index that is no counter are ignored; operands which are read and written do not count as modified (`C71_*_refuted`). Subtractions of numbers are never recorded, so loops that run downwards always need a cached increment or the user (`C72_down_refuted`).
* **C73 machinemodel.py**: A counter whose text ends like an earlier one is lost (`LOADS:PMC0 + MEM_LOADS:PMC0`), `A:PMC0-B:PMC1` becomes one counter, and a counter with and without a parameter, or counters that differ by punctuation only, break the expression (`C73_*_refuted`).
* **C74 models/benchmark.py**: Counters with options without value (`EDGEDETECT`, as documented in `eventstr`) are dropped, only the first hardware thread is read, and an event that was printed as a metric before ends in TypeError (`C74_*_refuted`).
* **C75 models/benchmark.py**: `measured_ctrs.update` replaces all counts of an event that is measured in several runs, so symbols stay without value (`C75_refuted`).
* **C76 models/benchmark.py**: The clock is not checked without the line `CPU clock:`, nan is accepted, and a number without unit ends in AttributeError (`C76_*_refuted`).
* **C77 models/benchmark.py**: Iterations are fractional if an increment does not divide the range (`C77_refuted`). `Benchmark.__init__` reads `self._args.cores` although the arguments may be None; line 315 tests for the misspelled `INFORAMTION_REQUIRED`.
* **C78 kernel.py**: `swap(a, b)` in the kernel function exchanges the parameters only, so the arrays of the caller stay as they are; `kernel.c` does not include `kerncraft.h` either, which defines `swap` (`C78_swap_refuted`). Scalars `s` and `s_` give a parameter and a local variable of the same name (`C78_names_refuted`).
* **C79 kernel.py**: Initial values of scalars in the kernel code are replaced by random numbers (`C79_initial_value_refuted`). The code that initializes arrays is the loop nest with all calls of `swap`, which exchange the arrays of the main program once (`C79_swap_refuted`).
* **C80 incore_model.py**: The pattern for names of units accepts letters and digits only, so names such as `P10_BF` and `P10_DX` are cut to the same name and merged (`C80_names_refuted`). An instruction of the first iteration without retirement in the timeline ends in ValueError, and without a timeline the latency is minus infinity (`C80_timeline_refuted`).
* **C81 incore_model.py**: A port with a subunit but only one number keeps the raw text of its cell, such as `2   -  D`, as name (`C81_single_refuted`).
* **C83 kernel.py**: The in-core analysis for another `--asm-block` or `--pointer-increment` is the earlier one, in every history (`C83_first`, `C83_block_refuted`); an executable is not linked again with another likwid (`C83_environment_refuted`).
* **C84 kernel.py**: Failures while marking, other than an undetected increment, leave an empty `kernel-marked.s`; the next call finds it, removes it and ends the program, the one after it fails like the first (`C84_marking_refuted`). A block given as number always fails so, since blocks are looked up by label.
* **C85 standalone_pheno.py**: The pattern of `--loop` is not anchored at its end: `0:1e6` is a loop from 0 to 1 (`C85_trailing_refuted`). A fraction is accepted by the pattern and rejected by `int`; the text itself is stored as loop and ends in TypeError later (`C85_fraction_refuted`). `--loop=-1:0:10` is a loop from 0 to 10 for the region `-1` (`C85_negative_refuted`).
* **C86 standalone_pheno.py**: All parts of the pattern of `--define` are optional, so that every text is accepted; without a number the variable is empty and ends in KeyError later (`C86_malformed_refuted`). The notation `start-stop` of the help text is read as the fixed value `start` (`C86_help_refuted`), `.5:10` as 10 for the region `.5` (`C86_dot_refuted`).
* **C88 standalone_benchmark.py**: `adjust_loop` only updates loops of the region whose runtime is too short. Loops of other regions with the same variable keep the old end, so rates of these regions are computed with too few iterations (`C88_stale_refuted`).
* **C89 machinemodel.py**: With groups of different size (processors with two kinds of cores) the cores per group are the average, rounded down, which no group has (`C89_unequal_refuted`).
* **C90 machinemodel.py**: `likwid_bench_auto --no-overwrite` cannot work: without placeholders the hierarchy has no 'cache per group' and every call ends in KeyError (`C90_overwrite_refuted`). Results of `lru_cache` are kept for the whole process, so a later update does not see changed huge page settings (`C90_stale_refuted`).
* **C91 machinemodel.py**: The memory hierarchy is read but not compared, so a machine with other caches is accepted; from the third check on, changes are not seen (`C91_caches_refuted`, `C91_stale_refuted`).
* **C94 machinemodel.py**: The benchmark of main memory uses 15 times the last cache, which fits into the caches of a processor with 16 of them (64 cores, 16 MB for four cores each); with 2 MB of L2 for each of 60 cores and 112.5 MB of L3, the L3 benchmark uses 144 MB; the last, partly used group works inside its previous cache (`C94_memory_refuted`, `C94_fits_refuted`, `C94_partial_group_refuted`).
* **C95 machinemodel.py**: NUMA domains without cores are counted, halving the cores per domain (`C95_memory_only_refuted`).
* **C96 standalone_benchmark.py**: Counts in registers with options (`CBOX0C0:STATE=0xF0`) do not match `[A-Z0-9]+` and are dropped; `benchmark.py` reads them. Region names are cut at commas, so two regions can be merged; an output that ends in the word TABLE is an IndexError (`C96_options_refuted`, `C96_comma_refuted`, `C96_cut_refuted`).
* **C98 standalone_benchmark.py**: Parameters of events are ignored when counts are matched: an event with a parameter gets the count of the same event without one, or there is a KeyError if all its counts have options (`C98_parameters_refuted`, `C98_options_refuted`).
* **C99 benchmark.py, standalone_benchmark.py**: The levels L1, L2, L3 and MEM are fixed in the code, so that A64FX_qpace4.yml is always a KeyError; the stand-alone benchmark reads `accesses` of L1, which no example of a machine file has; the other one needs metrics of the memory, which SandyBridgeEP_E5-2680.yml has not. Loads and stores of full-duplex levels are summed (`C99_levels_refuted`, `C99_accesses_refuted`, `C99_memory_refuted`, `C99_duplex_refuted`).
* **C100 kernel.py**: Iterations of regions are rounded down, so the rates miss the last iteration of ranges that are no multiple of the increment (`C100_refuted`).
* **C102 machinemodel.py**: Loaded descriptions are kept by the class and shared: a new model of a changed file has the old description, and every change made through another model of it; an unsupported one stays refused after the file was corrected (`C102_later_models_refuted`).
* **C103 machinemodel.py**: `argparse.FileType('w')` empties the output while the arguments are read, so continuing a description in place (`-m x.yml x.yml`) loses it and ends in TypeError (`C103_in_place_refuted`).
* **C104 machinemodel.py**: Saving empties the file first, so a crash while saving loses what was saved before; `YAML().dump(data)` of ruamel needs a stream and fails, which leaves an empty file after hours of measurements; `-` writes a file named `<stdout>` (`C104_saved_measurements_stay_refuted`, `C104_without_stream_refuted`).
* **C105 machinemodel.py, kerncraft.py**: A description without file counts as made at the local time, which is compared with UTC: west of Greenwich, old intermediate files are used for new descriptions; changes of kerncraft during a process are not seen (`C105_used_although_older_refuted`).
* **C106 kerncraft.py**: With `-p ECM -p RooflineFLOP` ECM is reported in FLOP/s; `--incore-model` defaults to OSACA, not to the first one in the machine file (`C106_unit_refuted`, `C106_incore_refuted`).
* **C107 kerncraft.py**: Steps of described kernels are not looked at, and symbols named like a loop index are never required, so bounds with outer indices and such sizes stay symbolic (`C107_numbers_refuted`).
* **C108 kernel.py**: If the kernel has `omp simd`, `omp parallel` or another pragma that contains `omp` (for example `prefetch comp`), no `omp for` is inserted and every thread executes all iterations; so it is with a tabulator before `parallel` (`C108_not_divided_refuted`).
* **C109 kernel.py**: Scalars of the kernel become `static` variables, shared by all threads of the team: temporaries race (`C109_temporary_refuted`), and sums are lost because every thread resets the variable (`C109_sum_refuted`).
* **C111 cacheprediction.py**: The requirement of a layer condition is not the exact size an LRU cache needs: `a[i+1]`, `a[i]` in a cache of two elements is predicted to hit once, but misses twice in each iteration (`C111_exact_refuted`); the true number lies between the predictions for slightly larger and smaller caches (`C111_prediction`). Conflicts of caches with sets are not seen (`C111_sets_refuted`), but cost at most one way for each reference (`C138_prediction`).
* **C112 kernel.py**: Octal literals in bounds are read as decimal numbers (`i < 010` is recorded as ten iterations, C executes eight, `C112_octal_refuted`; the same for subscripts, `C114_octal_refuted`). `i += 0` is accepted although the loop does not end (`C112_step_zero_refuted`), and so are assignments to the loop index in the body (`C112_changed_index_refuted`).
* **C116 pycparser_utils.py**: `replace_id` changes the list it iterates. An empty list as replacement skips the next element, so that of two uses in a row one is left (`C116_all_uses_replaced_refuted`); a list put where a single node was leaves a Python list in the tree (`C116_list_for_single_node_refuted`); a list which uses the identifier behind its first element is inserted for ever (`C116_termination_refuted`).
* **C117 kernel.py**: Variables called like a placeholder of the template are replaced as well: for an array `KERNEL_CALL` the dummy call `dummy(KERNEL_CALL)` becomes `dummy(kernel(KERNEL_CALL))` (`C117_any_names_refuted`).
* **C119 models/ecm.py, benchmark.py**: without parsed arguments the ECM model never uses the predictor it is given (441 passes the class CacheSimulationPredictor), integers as *asm_block* or *pointer_increment* raise AttributeError (ecm.py:281, 286 read them from `args`, which is None), the in-core analysis always fails (ecm.py:299 and roofline.py read `self._args.incore_model`), and Benchmark and StandaloneBenchmark cannot be made (benchmark.py:311, standalone_benchmark.py:68). An incomplete metric written as `INFORMATION_REQUIRED` (machinemodel.py:136, 144) does not turn off the phenomenological model, because `INFORAMTION_REQUIRED` is looked for (benchmark.py:315).
* **C120 models/ecm.py**: the prediction for more cores than one socket has is an IndexError (563 indexes a list of `cores per socket` entries), although line 541 provides for all sockets; negative numbers of cores take predictions from the end. Each contribution is rounded on its own: for three contributions of 0.04 the formula reads 0.0 and the total 0.1.
* **C121 models/layer_condition.py**: conditions are always computed for one core (49 does not pass `cores`), the header shows the size for `--cores` (59). Within one run both agree, because the simulator is kept and `--cores` has no effect on either; if the results come from the intermediate file, the header shows the divided size above conditions for the whole cache; and if another model ran before with several cores, the conditions are for the divided cache.
* **C122 several models**: with verbosity above 1 the ECM report calls the reports of its parts without the file (ecm.py:571-572); the line on penalty cycles (219), the whole LC report (layer_condition.py:55-67), the table of data transfers (benchmark.py:558-570, standalone_benchmark.py:487-499) and the complete results (benchmark.py:530, standalone_benchmark.py:457) always go to standard output. RooflineFLOP prints the dict of all units instead of the unit asked for if it is CPU bound (roofline.py:211).
* **C123 models/standalone_benchmark.py**: the heads of the table are the metrics of the first level only, values of other levels are printed in the order of their own names (489-497), so with different metrics values stand below wrong names. models/benchmark.py shows only metrics called loads, misses, stores or evicts (560).
* **C124 kernel.py**: `bytes_per_iteration` (653-664, with a FIXME) takes one element of the first array written per step, so that kernels which write several neighbouring elements per iteration, like `b[2*i]` and `b[2*i+1]`, have results for several cache lines of work.
* **C126 models/ecm.py, models/roofline.py**: cycles and transfers are per cache line of work, which are line size / (element size * step) iterations (ecm.py:99-101, cacheprediction.py:549-550), but rates are computed with line size / element size (ecm.py:181-190 and 356-365, roofline.py:69 and 174): with a step of the innermost loop other than one, iterations and operations per second are too high by the step.
* **C127 kernel.py**: `string_to_sympy` (60-76) gives names of more than one letter which sympy knows (`pi`, `beta`, `gamma`, ...) their meaning there, so that constants with these names cannot be used in descriptions, but they can in C code.
* **C129 kernel.py, tests/test_files/2d-5pt.yml**: the comment in the example says that `flops` is only needed for Roofline, but the constructor (1869) requires it. Types must be tuples (`!!python/tuple`, which only an unsafe loader reads): the list of plain YAML is a TypeError. A description without arrays is an IndexError.
* **C131 iaca_get.py**: a location is only used if its directory can be created (105-118). After interruptions (or failed downloads) in both of them, or in one if the other is not permitted, every further call ends with "Aborted.", also with `--force`, until the directories are removed by hand. `--force` is only understood if an installation is found (80-81); otherwise it is taken for the license option (exit status 1) or for the operating system (AssertionError). A forced installation goes to the directory of the package first (105), but that in the home directory is found first (55), so that it may not be used. Given `mac` on Linux, programs for the Mac are installed where those for Linux are looked for.
* **C132 incore_model.py, README.rst**: the directory of IACA is added at the end of PATH (908), so that any other program of this name on PATH is run instead, and it is added again by each analysis. Versions put in `~/.kerncraft/iaca/vX.Y`, as README.rst:34 says, are not found: find_iaca looks for three links in `~/.kerncraft/iaca/lin64/bin` (55-67).
* **C133 standalone_pheno.py**: results are stored under the file name of the binary only and the constants (381-386): binaries of the same name in other directories, other machine descriptions and other numbers of cores replace each other's results. The constants are not sorted (kernel.py:2026-2040, unlike Kernel.set_constant), so that the same values given in another order are another entry. The file is read before the measurement (336-342) and written after it without a lock (391-395): results stored by another call meanwhile are lost.
* **C134 standalone_pheno.py**: `--marker ""` is the same as `--marker` (256): all regions are analysed. The options --unit, --compiler, --compiler-flags and --clean-intermediates (284-297) are accepted but nothing reads them (not stated as a theorem).
* **C135 cacheprediction.py**: evicts is the number of all written references (385-386, 460, 472), also if elements of the same array are written again while their line is still in the cache: for a[i+1] = ...; a[i] = ... two lines are predicted to be written back per cache line of work, a write-back cache writes one (C135_shared_refuted).
* **C136 cacheprediction.py**: the conditions of each level are checked as if the level saw all accesses (419-476). A cache which is asked only for the misses of the one above does not notice reuse there: for a[i] + a[i+32] + a[i+48] with a first cache of 29 and a second one of 45 lines of two elements, one miss per line is predicted for the second cache, also for all sizes nearby, but two occur (C136_level_refuted).
* **C137 kernel.py**: `prefix_indent` (79-95) says that a single character for later lines is repeated; it takes blanks whatever the character is (line 90, C137_character_refuted). All calls use blanks or longer texts.
* **C140 cacheprediction.py**: `uneven_tuple_cmp` (24-35) takes `(1,)` and `(0, 1)` as equal, so that their order is the one in which they were found (`C140_uneven_refuted`); accesses to one array all have the same length (`C140_deterministic`).
* **C141 incore_model.py**: with a development version of OSACA such as 0.7.0.dev1, `int` fails on the last part and no code can be analysed (583, 603, 704, 754); the version 0.7 counts as older than 0.7.0 (`C141_development_refuted`). Code which both parsers accept gets Intel markers (585-590, 606-613, `C141_both_refuted`).
* **C142 incore_model.py**: the option `--cache` (986-988) is handed to `asm_instrumentation` but not looked at: the cache is always read and written (`C142_cache_refuted`).
* **C143 kernel.py**: with empty flags, or two spaces between flags, `compile_kernel` (1623-1652) and `assemble_to_object` (1597-1602) hand an empty argument to the compiler; only `build_executable` removes them (1804) (`C143_spaces_refuted`). Several options in LIKWID_INCLUDE become one argument (1781, `C143_include_refuted`), unlike those in LIKWID_LIB. The parameter `lflags` of `build_executable` has no effect, but the list of the caller is extended (1789-1791, `C143_lflags_refuted`).
* **C145 kernel.py**: `compile_relative_distances` (452-470) takes the references in the order of a set (1114-1140), so that distances differ between runs and can be negative (`C145_order_refuted`). An element that is read and written gives a distance of 0 (`C145_twice_refuted`).
* **C146 kernel.py, models/benchmark.py, iaca_get.py**: `set_recursionlimit(100000)` lowers a limit that was higher (`C146_lowered_refuted`); blocks of `pprint_nosort` in two threads can leave the changed order (`C146_threads_refuted`); if a temporary directory cannot be removed, its error hides that of the block (`C146_unremovable_refuted`).
* **C147 kernel.py**: the body of the first function is taken (752-753), so that code after a superfluous closing brace that is itself well formed, like `} void other() {`, is ignored without a message (`C147_rest_refuted`); `#line` in the code changes the numbers of lines (`C147_directive_refuted`).
* **C148 kernel.py**: without suffix and pointers `get_scalar_declarations` (1333-1344) returns the nodes of the kernel themselves, unlike with them (`C148_shared_refuted`); its callers in lines 1348, 1357 and 1430 copy them before changing them.
