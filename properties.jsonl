{"id": "C01", "title": "Interval sets keep exactly the given members", "statement": "For every collection of half-open integer ranges, `x in Intervals(*ranges)` is true exactly when x lies in one of the given ranges, and `x in (a & b)` exactly when x is in a or in b.", "quantifier": "all finite lists of integer ranges (any order, overlapping, empty or inverted) and all integers x", "why_tests_cant": "The merge loop skips an index after each deletion; only a proof over all lists shows no member is ever lost or invented.", "anchors": ["kerncraft/intervals.py:Intervals.__init__", "kerncraft/intervals.py:Intervals._enforce_no_overlap", "kerncraft/intervals.py:Intervals.__and__", "kerncraft/intervals.py:Intervals.__contains__"]}
{"id": "C02", "title": "Length of an interval set counts each integer once", "statement": "`len(Intervals(*ranges))` equals the number of distinct integers contained in the ranges, and two interval sets compare equal exactly when they contain the same integers.", "quantifier": "all finite lists of integer ranges", "why_tests_cant": "The existing tests use at most two ranges, for which the merge is exact; the claim is about every number of ranges.", "anchors": ["kerncraft/intervals.py:Intervals.__len__", "kerncraft/intervals.py:Intervals.__eq__", "kerncraft/intervals.py:Intervals._enforce_no_overlap"]}
{"id": "C03", "title": "Combining interval sets leaves the operands alone", "statement": "Evaluating `a & b` (or building an Intervals from caller owned lists) does not change the members, length or data of a, of b, or of the caller's lists.", "quantifier": "all pairs of interval sets and all sharing patterns of the underlying range objects", "why_tests_cant": "Aliasing bugs appear only for particular overlap patterns and are invisible to tests that look at the result only.", "anchors": ["kerncraft/intervals.py:Intervals.__and__", "kerncraft/intervals.py:Intervals._enforce_no_overlap"]}
{"id": "C04", "title": "Changing the prefix of a quantity keeps the quantity", "statement": "`q.with_prefix(p)` and `q.reduced()` denote the same base value and the same unit as q, for every known prefix p; an unknown prefix raises KeyError.", "quantifier": "all values, prefixes and units", "why_tests_cant": "The identity must hold for every value and every pair of prefixes.", "anchors": ["kerncraft/prefixedunit.py:PrefixedUnit.with_prefix", "kerncraft/prefixedunit.py:PrefixedUnit.reduced", "kerncraft/prefixedunit.py:PrefixedUnit.base_value"]}
{"id": "C05", "title": "Arithmetic on quantities is arithmetic on base values", "statement": "Adding, subtracting, multiplying or dividing quantities yields a quantity whose base value is the sum, difference, product or quotient of the base values; addition and subtraction of different units is refused.", "quantifier": "all pairs of quantities (any unit string, any prefix, any value)", "why_tests_cant": "Whether the result is right depends on the spelling of the unit string, which tests sample only with 'B/s' like units.", "anchors": ["kerncraft/prefixedunit.py:PrefixedUnit.__mul__", "kerncraft/prefixedunit.py:PrefixedUnit.__add__", "kerncraft/prefixedunit.py:PrefixedUnit.__sub__", "kerncraft/prefixedunit.py:PrefixedUnit.__truediv__"]}
{"id": "C06", "title": "Automatic prefix choice is the largest admissible one and prefixes are the SI powers of ten", "statement": "The prefix chosen for display is the largest prefix among the known ones, not below the requested minimum, for which the rounded value is not below the 0.9 threshold and the rounding error is within the requested relative error; each prefix stands for the SI power of ten.", "quantifier": "all base values, all minimum prefixes, all error bounds", "why_tests_cant": "The result depends on an interplay of dictionary order, rounding and signs over a continuum of values.", "anchors": ["kerncraft/prefixedunit.py:PrefixedUnit.good_prefix", "kerncraft/prefixedunit.py:PrefixedUnit.PREFIXES"]}
{"id": "C07", "title": "Quantities written to a machine file read back as the same quantity", "statement": "Printing a quantity and parsing the printed text gives back a quantity with the same unit and the same (rounded) value.", "quantifier": "all quantities whose value has at most two decimals in the printed prefix", "why_tests_cant": "Depends on all prefix/unit spellings; the parser knows fewer prefixes than the printer.", "anchors": ["kerncraft/prefixedunit.py:PrefixedUnit.__str__", "kerncraft/prefixedunit.py:PrefixedUnit.__init__"]}
{"id": "C08", "title": "Comment removal keeps code and line numbers", "statement": "clean_code(code, macros=False, pragmas=False) deletes exactly the // and /* */ comments, keeps every other character and keeps the number of lines.", "quantifier": "all source texts", "why_tests_cant": "The scanner moves its index backwards (even below zero) after each removal; only a proof over all texts covers the resulting rescans.", "anchors": ["kerncraft/pycparser_utils.py:clean_code"]}
{"id": "C09", "title": "Array index linearisation is in bounds and one-to-one", "statement": "For an array with given dimensions, in-range index tuples are mapped to offsets between 0 and the number of elements minus one, different tuples to different offsets, in row-major order, and every offset is reached.", "quantifier": "all dimension lists of any length and all in-range index tuples", "why_tests_cant": "Unbounded number of dimensions and sizes.", "anchors": ["kerncraft/kernel.py:Kernel.access_to_sympy", "kerncraft/kernel.py:Kernel.array_sizes"]}
{"id": "C10", "title": "Generated one-dimensional code addresses the same elements as the source", "statement": "After the multi-dimensional declarations and references of a kernel are rewritten to one dimension, every reference addresses the row-major element of the original reference, inside the allocated array, and this is the offset the cache model uses.", "quantifier": "all array dimensions, all index expressions and all values of loop indices and constants", "why_tests_cant": "The rewriting composes syntax trees of unbounded depth and any number of dimensions.", "anchors": ["kerncraft/kernel.py:transform_multidim_to_1d_ref", "kerncraft/kernel.py:transform_multidim_to_1d_decl", "kerncraft/kernel.py:transform_array_decl_to_malloc", "kerncraft/kernel.py:Kernel.access_to_sympy"]}
{"id": "C11", "title": "Global iteration number and loop indices correspond one to one", "statement": "For g from 0 to the number of iterations minus one, the loop indices computed from g are exactly the loop indices of the g-th iteration of the loop nest, and converting these indices back gives g.", "quantifier": "all loop nests (any depth, starts, ends, increments) and all g", "why_tests_cant": "Holds or fails depending on increments and lengths of all loops of arbitrarily deep nests.", "anchors": ["kerncraft/kernel.py:Kernel.global_iterator_to_indices", "kerncraft/kernel.py:Kernel.global_iterator", "kerncraft/kernel.py:Kernel.indices_to_global_iterator", "kerncraft/kernel.py:Kernel.max_global_iteration"]}
{"id": "C12", "title": "Reported iteration count equals executed iterations", "statement": "The iteration length of a loop nest is the number of times the innermost body runs when the nest is executed; the counts used by the benchmark model and by the binary description agree with it.", "quantifier": "all loop nests with positive increments", "why_tests_cant": "Rounding differs per function (ceil, exact division, floor); agreement is a claim about all bounds.", "anchors": ["kerncraft/kernel.py:Kernel.iteration_length", "kerncraft/models/benchmark.py:Benchmark.analyze", "kerncraft/kernel.py:BinaryDescription.region__iterations_per_repetition"]}
{"id": "C13", "title": "Arrays laid out for cache simulation never overlap", "statement": "The address ranges assigned to different arrays are disjoint, each starts on a cache-line boundary, and every in-range access of an array falls in the range of that array.", "quantifier": "all sets of arrays, sizes, element sizes and cache-line sizes", "why_tests_cant": "Depends on bit tricks for rounding and on every array size.", "anchors": ["kerncraft/kernel.py:Kernel.compile_global_offsets"]}
{"id": "C14", "title": "Substituted constants are always the current ones", "statement": "After any sequence of setting constants, clearing state and substituting, substitution uses the most recently set values.", "quantifier": "all histories of set_constant, clear_state and subs_consts calls on any number of kernels", "why_tests_cant": "A memoised result is stale only after particular histories.", "anchors": ["kerncraft/kernel.py:Kernel.subs_consts", "kerncraft/kernel.py:Kernel.set_constant", "kerncraft/kernel.py:Kernel.clear_state"]}
{"id": "C15", "title": "FLOP counts equal the arithmetic operators of the kernel", "statement": "The FLOP dictionary counts every arithmetic operator occurrence of the loop body exactly once under its operator.", "quantifier": "all assignment lists and expression trees accepted by the parser", "why_tests_cant": "Expression trees are unbounded and the count depends on mixing unary and binary operators.", "anchors": ["kerncraft/kernel.py:KernelCode._p_sources", "kerncraft/kernel.py:KernelCode._p_assignment"]}
{"id": "C16", "title": "Data sources and destinations list exactly the accessed elements", "statement": "Every array element or scalar read (written) by a statement of the loop body is listed in sources (destinations) of its variable with its index expressions, and nothing else is.", "quantifier": "all assignment lists accepted by the parser", "why_tests_cant": "Recursion over arbitrary expression trees, including augmented assignments that both read and write.", "anchors": ["kerncraft/kernel.py:KernelCode._p_assignment", "kerncraft/kernel.py:KernelCode._p_sources", "kerncraft/kernel.py:KernelCode._get_offsets"]}
{"id": "C17", "title": "No process reads a half written intermediate file", "statement": "When several kerncraft processes share intermediate files, no process reads an intermediate file while another writes it, at most one process writes at a time, and a process that is told the file is usable finds completely written content.", "quantifier": "all numbers of processes, all interleavings of their steps", "why_tests_cant": "Schedules are unbounded; tests cannot enumerate interleavings.", "anchors": ["kerncraft/kernel.py:KernelCode.lock_intermediate", "kerncraft/kernel.py:KernelCode.release_exclusive_lock", "kerncraft/kernel.py:KernelCode._check_freshness"]}
{"id": "C18", "title": "Crash while writing an intermediate file is recovered from", "statement": "If a process dies at any point while producing an intermediate file, later runs never use the incomplete file.", "quantifier": "all crash points and all later histories", "why_tests_cant": "Crash points cannot be enumerated by unit tests.", "anchors": ["kerncraft/kernel.py:KernelCode.lock_intermediate", "kerncraft/kernel.py:KernelCode._check_freshness"]}
{"id": "C19", "title": "Different analyses never share an intermediate file", "statement": "Two requests map to the same intermediate file only if the kernel, the file name and all inputs that determine the content (machine, compiler, constants, cores) agree.", "quantifier": "all pairs of requests", "why_tests_cant": "Collision freedom is a statement about all pairs of inputs.", "anchors": ["kerncraft/kernel.py:KernelCode.get_intermediate_location", "kerncraft/cacheprediction.py:LayerConditionPredictor", "kerncraft/cacheprediction.py:CacheSimulationPredictor"]}
{"id": "C20", "title": "Layer conditions classify every access and always resolve", "statement": "For every cache level exactly one classification is reported, each access is counted either as hit or as miss, and the loads of a level equal the misses of the level above it.", "quantifier": "all lists of reuse distances and all cache sizes", "why_tests_cant": "The list of options is built by nested loops over unbounded distance lists with early exit.", "anchors": ["kerncraft/cacheprediction.py:LayerConditionPredictor.build_symbolic_LCs", "kerncraft/cacheprediction.py:LayerConditionPredictor.desymbolize", "kerncraft/cacheprediction.py:LayerConditionPredictor.get_misses"]}
{"id": "C21", "title": "A bigger cache never has more misses", "statement": "In the layer condition prediction, increasing the cache size never increases the predicted misses nor decreases the hits.", "quantifier": "all distance lists, all pairs of cache sizes", "why_tests_cant": "Monotonicity is a claim about all pairs of sizes.", "anchors": ["kerncraft/cacheprediction.py:LayerConditionPredictor.build_symbolic_LCs"]}
{"id": "C22", "title": "The reported layer condition is the strongest one fulfilled", "statement": "The classification chosen is the one with the most hits among those whose cache requirement fits; requirements grow with the reuse distance kept in cache.", "quantifier": "all distance lists and cache sizes", "why_tests_cant": "Ordering of options and requirements has to hold for all lists of distances.", "anchors": ["kerncraft/cacheprediction.py:LayerConditionPredictor.build_symbolic_LCs", "kerncraft/cacheprediction.py:LayerConditionPredictor.desymbolize"]}
{"id": "C23", "title": "Symbolic distances are ordered by their size for large problems", "statement": "If the sort key orders one symbolic distance before another, the first is smaller than the second for all sufficiently large values of the size constants; the ordering is a total preorder.", "quantifier": "all distance polynomials", "why_tests_cant": "An asymptotic claim cannot be settled by evaluating samples.", "anchors": ["kerncraft/cacheprediction.py:sympy_expr_abs_distance_key", "kerncraft/cacheprediction.py:uneven_tuple_cmp"]}
{"id": "C24", "title": "Cache simulation runs a valid iteration schedule", "statement": "For every kernel size and cache size the simulator warm-up and benchmark phases visit only existing iterations, warm-up visits a contiguous range without repetition, the benchmark range is not empty, and no run aborts.", "quantifier": "all numbers of iterations, cache sizes, element sizes and all answers of the cache simulator about remaining free lines", "why_tests_cant": "Boundary cases (exact multiples, small kernels) are easy to miss by examples.", "anchors": ["kerncraft/cacheprediction.py:CacheSimulationPredictor.simulate"]}
{"id": "C25", "title": "Benchmark phases start on cache-line boundaries", "statement": "The iteration returned by the alignment helper accesses memory at the beginning of a cache line.", "quantifier": "all iterations, strides, element sizes and cache-line sizes", "why_tests_cant": "Depends on divisibility over all integers.", "anchors": ["kerncraft/cacheprediction.py:CacheSimulationPredictor._align_iteration_with_cl_boundary"]}
{"id": "C26", "title": "Bandwidth comes from the benchmark closest to the kernel's stream mix", "statement": "The measured kernel selected for a given number of read and write streams has a read/write ratio at minimal distance to the requested one; ties and stream mixes without writes are resolved deterministically.", "quantifier": "all benchmark tables and stream counts", "why_tests_cant": "Minimality over arbitrary tables including infinite ratios.", "anchors": ["kerncraft/machinemodel.py:MachineModel.get_bandwidth"]}
{"id": "C27", "title": "The cache simulator matches the requested number of cores", "statement": "get_cachesim(cores) returns a hierarchy whose shared caches are divided for that number of cores, whatever was requested before.", "quantifier": "all histories of get_cachesim calls", "why_tests_cant": "Only call histories with different core counts reveal memoisation.", "anchors": ["kerncraft/machinemodel.py:MachineModel.get_cachesim"]}
{"id": "C28", "title": "Sanitised names are valid identifiers", "statement": "sanitize_symbolname returns a string of the same length consisting of identifier characters not starting with a digit, leaves valid identifiers unchanged and is idempotent.", "quantifier": "all strings", "why_tests_cant": "Claim about all strings.", "anchors": ["kerncraft/machinemodel.py:sanitize_symbolname"]}
{"id": "C29", "title": "Performance counter descriptions survive parsing and printing", "statement": "Parsing an event description and printing it again yields the same text, and parsing the printed form of an event tuple yields the tuple.", "quantifier": "all event strings / all event tuples over parameter lists", "why_tests_cant": "Round trip over all strings with options.", "anchors": ["kerncraft/machinemodel.py:MachineModel.parse_perfctr_event", "kerncraft/models/benchmark.py:eventstr"]}
{"id": "C30", "title": "Register alternatives expand to exactly the described registers", "statement": "register_options enumerates exactly the registers described by ranges, choices and alternatives.", "quantifier": "all register descriptions", "why_tests_cant": "Language equality over unbounded descriptions.", "anchors": ["kerncraft/models/benchmark.py:register_options", "kerncraft/models/benchmark.py:group_iterator"]}
{"id": "C31", "title": "Counter runs cover every event once without register conflicts", "statement": "build_minimal_runs terminates and returns runs in which every distinct event appears exactly once, on one of its allowed registers, and no register is used twice in one run.", "quantifier": "all lists of events", "why_tests_cant": "Combinatorial assignment over unbounded event lists; termination.", "anchors": ["kerncraft/models/benchmark.py:build_minimal_runs"]}
{"id": "C32", "title": "The number of counter runs is minimal", "statement": "build_minimal_runs uses as few runs as possible for the given events.", "quantifier": "all lists of events", "why_tests_cant": "Optimality against all alternative schedules.", "anchors": ["kerncraft/models/benchmark.py:build_minimal_runs"]}
{"id": "C33", "title": "Automatic block selection takes the best scored block", "statement": "The automatically selected assembly block has the maximal score among all candidate blocks, and the first of those.", "quantifier": "all block lists", "why_tests_cant": "Claim about all candidate lists.", "anchors": ["kerncraft/incore_model.py:ISA.select_best_block"]}
{"id": "C34", "title": "Detected pointer increment equals the real address advance", "statement": "If a pointer increment is detected for a loop block, executing the block once advances the addresses of the considered memory references by exactly that number of bytes.", "quantifier": "all instruction blocks and all register contents", "why_tests_cant": "Needs a semantics for arbitrary instruction sequences.", "anchors": ["kerncraft/incore_model.py:x86.get_pointer_increment"]}
{"id": "C35", "title": "The increment cache returns what was stored last", "statement": "After storing a pointer increment for a block, looking up the block returns the stored value, also after further stores for other blocks.", "quantifier": "all histories of stores and lookups", "why_tests_cant": "A history property.", "anchors": ["kerncraft/incore_model.py:find_increment_in_cache", "kerncraft/incore_model.py:store_increment_to_cache"]}
{"id": "C36", "title": "Inserting markers does not change the analysed code", "statement": "Marking a block inserts only the start and end marker around the block; removing them restores the assembly, and exactly the selected block is enclosed.", "quantifier": "all assembly files and block selections", "why_tests_cant": "Claim about all assembly texts.", "anchors": ["kerncraft/incore_model.py:asm_instrumentation"]}
{"id": "C37", "title": "ECM runtime composition follows the overlap rules", "statement": "The predicted single core time is the maximum of the overlapping contributions and the sum of the non-overlapping contributions, each contribution enters exactly once, and machine descriptions with an overlapping level behind a non-overlapping one are refused.", "quantifier": "all numbers of memory levels, overlap flags and cycle counts", "why_tests_cant": "The loop has order dependent state over unbounded hierarchies.", "anchors": ["kerncraft/models/ecm.py:ECM.analyze", "kerncraft/models/ecm.py:ECMData.calculate_cycles"]}
{"id": "C38", "title": "Multi-core ECM scaling is sane", "statement": "The predicted memory utilisation lies between 0 and 1, never decreases with more cores, reaches saturation at the reported core count, and predicted runtime per cache line never increases with more cores inside a NUMA domain.", "quantifier": "all single core predictions, memory times and core counts", "why_tests_cant": "Nonlinear recursion over an unbounded number of cores.", "anchors": ["kerncraft/models/ecm.py:ECM.analyze"]}
{"id": "C39", "title": "Unit conversions of a prediction agree with each other", "statement": "For every prediction, cy/CL equals cy/It times iterations per cache line, It/s equals clock divided by cy/It and FLOP/s equals It/s times FLOPs per iteration, in every model.", "quantifier": "all cycle counts, clocks, element sizes", "why_tests_cant": "Algebraic identity over all values for two different implementations.", "anchors": ["kerncraft/models/ecm.py:ECMData.conv_cy", "kerncraft/models/ecm.py:ECMCPU.conv_cy", "kerncraft/models/roofline.py:RooflineFLOP.conv_perf"]}
{"id": "C40", "title": "The roofline bottleneck is the slowest level", "statement": "The reported bottleneck level has the smallest performance among all memory levels, and the reported minimum performance is that value.", "quantifier": "all memory hierarchies and measured bandwidths", "why_tests_cant": "Minimality over unbounded lists including infinite entries.", "anchors": ["kerncraft/models/roofline.py:Roofline.calculate_cache_access"]}
{"id": "C41", "title": "The roofline compute peak fits the kernel", "statement": "The compute peak compared with the memory roof is the machine's peak for the kernel's precision (double precision for double kernels) in the same unit as the memory roof.", "quantifier": "all kernels and machines", "why_tests_cant": "Wrong precision selection passes tests that only check memory bound kernels.", "anchors": ["kerncraft/models/roofline.py:RooflineFLOP.analyze"]}
{"id": "C42", "title": "Value ranges given on the command line mean what they say", "statement": "A range start-stop:num yields num integers, begins with start, ends with stop, is monotone and each value is the exact linear (or logarithmic) interpolation rounded; malformed text is rejected.", "quantifier": "all starts, stops and counts; all strings", "why_tests_cant": "Claim over all integers and strings.", "anchors": ["kerncraft/kerncraft.py:space", "kerncraft/kerncraft.py:AppendStringRange"]}
{"id": "C43", "title": "Every combination of constants is analysed exactly once", "statement": "Given the -D options, kerncraft analyses each combination of the requested values of the kernel's constants exactly once, explicit values override the default and a missing constant is an error.", "quantifier": "all lists of -D options and required constants", "why_tests_cant": "Combinatorics over unbounded option lists.", "anchors": ["kerncraft/kerncraft.py:run"]}
{"id": "C44", "title": "Stored results are identified by the arguments that matter", "statement": "Two runs are stored under the same identifier exactly when all their arguments other than the ignored ones agree.", "quantifier": "all pairs of argument sets", "why_tests_cant": "Claim about all pairs.", "anchors": ["kerncraft/kerncraft.py:identifier_from_arguments", "kerncraft/kerncraft.py:to_tuple", "kerncraft/kerncraft.py:uniquify"]}
{"id": "C45", "title": "Storing results never loses earlier results", "statement": "When results are stored, at every crash point the store file holds either the complete previous content or the complete new content, and results of other identifiers are kept.", "quantifier": "all crash points and all previous store contents", "why_tests_cant": "Crash points cannot be enumerated by tests.", "anchors": ["kerncraft/kerncraft.py:run", "kerncraft/picklemerge.py:main"]}
{"id": "C46", "title": "Merging result files keeps all entries", "statement": "Merging nested result dictionaries keeps every entry of the destination that the source does not mention and takes every entry the source mentions.", "quantifier": "all nested dictionaries", "why_tests_cant": "Recursive structure of unbounded depth.", "anchors": ["kerncraft/picklemerge.py:update"]}
{"id": "C47", "title": "The tile size search terminates with a good block length", "statement": "The block length search terminates and reports a length whose runtime is not worse than that of the minimal block length.", "quantifier": "all runtime functions and search bounds", "why_tests_cant": "Claim about all runtime functions.", "anchors": ["kerncraft/cachetile.py:run", "kerncraft/cachetile.py:simulate"]}
{"id": "C48", "title": "Environment variables are restored", "statement": "After the benchmark helper finished, normally or by exception, the environment equals the one before.", "quantifier": "all environments, variables and bodies", "why_tests_cant": "Claim about all bodies and exit paths.", "anchors": ["kerncraft/models/benchmark.py:fix_env_variable"]}
{"id": "C49", "title": "Benchmark repetition adaptation terminates with a long enough run", "statement": "The number of repetitions always stays at least one, and if run time grows linearly with repetitions the adaptation stops after at most two runs with a runtime of at least 1.5 s.", "quantifier": "all runtime behaviours", "why_tests_cant": "Claim about all cost functions.", "anchors": ["kerncraft/models/benchmark.py:Benchmark.analyze", "kerncraft/models/standalone_benchmark.py:StandaloneBenchmark.adjust_variables"]}
{"id": "C50", "title": "Machine benchmark updates notice changed measurement sizes", "statement": "When the machine description changes so that other data sizes would be measured, the stored measurements are refreshed; an interrupted update can be resumed and ends with one result per core count.", "quantifier": "all machine descriptions, all interruption points", "why_tests_cant": "Histories of interrupted updates.", "anchors": ["kerncraft/machinemodel.py:MachineModel._update_benchmarks"]}
{"id": "C51", "title": "Machine file version check is a proper ordering", "statement": "A machine file is accepted exactly if its version is not older than the minimal supported version and not newer than the running version, for every version string.", "quantifier": "all version strings", "why_tests_cant": "Depends on comparing mixed numeric and textual components.", "anchors": ["kerncraft/machinemodel.py:MachineModel.__init__"]}
{"id": "C52", "title": "Compiler selection honours precedence", "statement": "The explicitly requested compiler and flags win over the command line, which wins over the machine file; otherwise the first installed compiler of the machine file with its flags is used, and it is an error if there is none.", "quantifier": "all machine files, command lines and sets of installed compilers", "why_tests_cant": "Claim about all combinations.", "anchors": ["kerncraft/machinemodel.py:MachineModel.get_compiler"]}
{"id": "C53", "title": "JSON export keeps results", "statement": "Converting results for JSON export yields only JSON types, changes nothing in data that is already JSON and loses no entry.", "quantifier": "all nested result objects", "why_tests_cant": "Recursive structures of unbounded depth and key collisions.", "anchors": ["kerncraft/kerncraft.py:jsonify_obj"]}
{"id": "C54", "title": "Processes sharing intermediate files never deadlock", "statement": "Any number of processes that compile, analyse and build concurrently always can make progress until all are finished.", "quantifier": "all numbers of processes, all mixes of entry points, all schedules", "why_tests_cant": "Deadlock freedom quantifies over all schedules.", "anchors": ["kerncraft/kernel.py:KernelCode.lock_intermediate", "kerncraft/kernel.py:KernelCode.compile_kernel", "kerncraft/kernel.py:KernelCode.incore_analysis", "kerncraft/kernel.py:KernelCode.build_executable"]}
{"id": "C55", "title": "Benchmark executables receive each constant under its own name", "statement": "The generated main program reads, for each constant, the command line argument at which the benchmark passes the value of that constant.", "quantifier": "all sets of constants and insertion orders", "why_tests_cant": "Positional agreement between two separately built lists for all constant sets.", "anchors": ["kerncraft/kernel.py:KernelCode._build_const_declartions", "kerncraft/models/benchmark.py:Benchmark.analyze", "kerncraft/kernel.py:Kernel.set_constant"]}
{"id": "C56", "title": "Tile and blocking helpers cover their indices", "statement": "blocking returns, sorted and without duplicates, exactly the blocks containing at least one index; round_to_next returns the smallest multiple not below its argument.", "quantifier": "all index lists, block sizes and boundaries", "why_tests_cant": "Claim about all integer lists.", "anchors": ["kerncraft/models/ecm.py:blocking", "kerncraft/models/ecm.py:round_to_next"]}
{"id": "C57", "title": "Cached results belong to the current inputs", "statement": "A process that is told to use an existing intermediate file finds content generated from the kernel and machine description it has itself loaded.", "quantifier": "all histories of modifications of the inputs and all schedules of processes", "why_tests_cant": "Depends on when inputs change relative to the steps of other processes.", "anchors": ["kerncraft/kernel.py:KernelCode._check_freshness", "kerncraft/kernel.py:KernelCode.lock_intermediate"]}
{"id": "C58", "title": "Intermediate files are accessed only under their lock", "statement": "Each intermediate file is written only while its exclusive lock is held and no other process has a lock on it, and is read (also by compilers) only while a lock on it is held.", "quantifier": "all numbers of processes, all sequences of analyses, all schedules", "why_tests_cant": "Unbounded schedules over several nested files.", "anchors": ["kerncraft/kernel.py:KernelCode.compile_kernel", "kerncraft/kernel.py:KernelCode.build_executable", "kerncraft/kernel.py:KernelCode.incore_analysis"]}
{"id": "C59", "title": "Quantities compare and divide by their values, whatever their prefixes", "statement": "The six comparisons of two quantities (or a quantity and a number) agree with the comparison of the values they denote, quantities of different units are never equal, and abs, integer division and remainder give the mathematical result with the right unit.", "quantifier": "all values, prefixes and units", "why_tests_cant": "Infinitely many values and prefix combinations.", "anchors": ["kerncraft/prefixedunit.py:PrefixedUnit.__lt__", "kerncraft/prefixedunit.py:PrefixedUnit.__eq__", "kerncraft/prefixedunit.py:PrefixedUnit.__floordiv__", "kerncraft/prefixedunit.py:PrefixedUnit.__mod__", "kerncraft/prefixedunit.py:PrefixedUnit.__abs__"]}
{"id": "C60", "title": "Variables of measured binaries are adapted within their ranges until runs are long enough", "statement": "When a binary is measured, adjustable variables only move from their start towards the end of their given range, never beyond; the adaptation ends, and then either every region ran at least 1.5 s or a warning is given and no adjustable variable of a region that is too short has room left.", "quantifier": "all variables, ranges, scales, regions and runtime behaviours", "why_tests_cant": "Claim about all runtime behaviours, including termination.", "anchors": ["kerncraft/models/standalone_benchmark.py:StandaloneBenchmark.adjust_variables", "kerncraft/models/standalone_benchmark.py:StandaloneBenchmark.analyze"]}
{"id": "C61", "title": "Each region of a binary is divided by its own number of repetitions", "statement": "The time per repetition reported for a region is its runtime divided by the number of repetitions of that region: the count of its marker, the value of its variable, or the given number.", "quantifier": "all sets of regions, configurations, counts and runtimes", "why_tests_cant": "Depends on which regions share a configuration and the order in which they are visited.", "anchors": ["kerncraft/kernel.py:BinaryDescription.check", "kerncraft/models/standalone_benchmark.py:StandaloneBenchmark.analyze"]}
{"id": "C62", "title": "The detected pointer increment is a function of the assembly block", "statement": "Analysing the same block again, in the same or another process, detects the same pointer increment (or again none).", "quantifier": "all instruction blocks and all enumeration orders of sets of registers", "why_tests_cant": "Depends on the hash seed of the process.", "anchors": ["kerncraft/incore_model.py:x86.get_pointer_increment"]}
{"id": "C63", "title": "Failed marking leaves the files as they were", "statement": "If marking an assembly file fails - because it cannot be parsed, the block does not exist or the increment cannot be determined - the assembly and the increment cache are as before the call.", "quantifier": "all assembly files, selections, detections and user inputs", "why_tests_cant": "Every failing branch for all inputs.", "anchors": ["kerncraft/incore_model.py:asm_instrumentation"]}
{"id": "C64", "title": "Marked assembly that is used again yields the increment it was marked with", "statement": "When an analysis finds already marked assembly in the intermediate directory, it uses the pointer increment the assembly was marked with.", "quantifier": "all assembly files and increments", "why_tests_cant": "Round trip over all integers and texts.", "anchors": ["kerncraft/kernel.py:KernelCode.incore_analysis", "kerncraft/incore_model.py:asm_instrumentation"]}
{"id": "C65", "title": "In-core cycles are scaled to a cache line by the bytes per loop iteration", "statement": "Cycles of the ports and the throughput of an assembly loop are multiplied with cache line size over the bytes by which the pointers advance, independently of the direction, and the larger of T_comp and T_RegL1 equals the throughput reported for a cache line if no port is busier than that.", "quantifier": "all port loads, throughputs, element sizes and pointer increments of either sign", "why_tests_cant": "Integer division of signed increments and a case split on real valued loads.", "anchors": ["kerncraft/models/ecm.py:ECMCPU.analyze"]}
{"id": "C66", "title": "The roofline prediction with in-core analysis is the lowest roof", "statement": "The prediction reported is the smallest of the in-core rate and the rates of all memory levels behind the first cache, the in-core rate follows from the throughput of the loop, and its cycles per cache line equal the throughput reported for a cache line divided by the cores.", "quantifier": "all measured bandwidths, traffic volumes, throughputs, increments of either sign and core counts", "why_tests_cant": "Minimum over unbounded hierarchies with infinite entries, and an algebraic identity over all values.", "anchors": ["kerncraft/models/roofline.py:RooflineASM.analyze", "kerncraft/models/roofline.py:RooflineASM.report"]}
{"id": "C67", "title": "The address trace given to the cache simulator is the trace of the kernel", "statement": "For each requested iteration the trace has the addresses which the kernel reads and writes in that iteration, loads apart from stores: none is added, and none is left out but those references which go to the same element in all iterations. Iterations outside of the iteration space are rejected.", "quantifier": "all loop nests, arrays, data types, statements, constants, spacings and lists of iterations", "why_tests_cant": "Composition of parsing, loop arithmetic, linearisation and layout over unbounded loop nests and arrays.", "anchors": ["kerncraft/kernel.py:Kernel.compile_global_offsets"]}
{"id": "C68", "title": "Layer conditions are only applied to kernels they are valid for", "statement": "A kernel is accepted by the layer condition analysis only if every reference advances by at most one element per iteration of the innermost loop; kernels with constant sizes and indices of the form loop variable plus offset are accepted exactly if all loops have step one and indices appear in the order of the loops.", "quantifier": "all loop nests, arrays and index expressions", "why_tests_cant": "The checks look at the terms of an expanded expression and at two values of the innermost index; whether they imply the condition for all values is a statement about all polynomials.", "anchors": ["kerncraft/cacheprediction.py:LayerConditionPredictor.build_symbolic_LCs"]}
{"id": "C69", "title": "Linearised accesses are split back into the original indices", "statement": "For a reference to an array with symbolic sizes, splitting the linear expression by the dimension factors returns the index expressions of the source code, whatever sizes are equal to each other; whenever splitting succeeds, the parts reproduce the expression.", "quantifier": "all arrays, dimensions and index expressions made of a loop variable and an offset", "why_tests_cant": "Works by syntactic comparison of factors, for any number of dimensions and repeated sizes.", "anchors": ["kerncraft/cacheprediction.py:split_sympy_access_in_dim_offset", "kerncraft/kernel.py:Kernel.access_to_sympy"]}
{"id": "C70", "title": "Reuse distances are the distances between neighbouring references", "statement": "The distances used in layer conditions are, for each array, the differences of the element numbers of neighbouring references, ordered from the leading reference to the last, plus infinity for the first access; none is negative for large arrays, arrays which are not accessed by the innermost index do not contribute, and the resulting hits are those of a cache which keeps the data between two accesses.", "quantifier": "all kernels with references of the same loop variables per dimension, and all comparisons sympy may decide", "why_tests_cant": "Sorting by symbolic tuples with undecidable comparisons; sign of the differences for all sizes.", "anchors": ["kerncraft/cacheprediction.py:LayerConditionPredictor.build_symbolic_LCs", "kerncraft/kernel.py:Kernel.compile_sympy_accesses"]}
{"id": "C71", "title": "Detected AArch64 pointer increments are how far the addresses move", "statement": "If the analysis of an AArch64 loop body reports a pointer increment without asking, then, from some iteration on, every considered memory reference that moves advances by exactly that number of bytes per iteration, at every place in the loop body and for any register contents.", "quantifier": "all loop bodies, register contents, iterations and places in the body", "why_tests_cant": "The detection chains additions, shifts, pre- and post-indexing and sums over several passes; whether the result is the real advance is a statement about all blocks and all executions.", "anchors": ["kerncraft/incore_model.py:AArch64.get_pointer_increment"]}
{"id": "C72", "title": "Simple AArch64 loops need no interaction", "statement": "For a loop body made of well formed instructions the analysis does not fail, and if all considered references use one register which is changed once, by adding or subtracting a number, the increment is found.", "quantifier": "all loop bodies of well formed instructions", "why_tests_cant": "Has to hold for any other instructions around the counter, in any order.", "anchors": ["kerncraft/incore_model.py:AArch64.get_pointer_increment"]}
{"id": "C73", "title": "Metric expressions of performance counters are read as written", "statement": "A metric of a machine description is evaluated as the expression that was written, with exactly its counters as symbols, each with its event, registers and parameters.", "quantifier": "all metrics made of names, numbers, counters and signs", "why_tests_cant": "Counters are found and substituted by text, in any number and order and with any names.", "anchors": ["kerncraft/machinemodel.py:MachineModel.parse_perfmetric"]}
{"id": "C74", "title": "Counts and metrics printed by likwid-perfctr are in the results", "statement": "After a run, every metric and every count that likwid-perfctr printed is in the results under its name, or event and register, with its number, and every number in the results was printed.", "quantifier": "all outputs", "why_tests_cant": "The output is scanned line by line with a series of guesses, for any text.", "anchors": ["kerncraft/models/benchmark.py:Benchmark.perfctr"]}
{"id": "C75", "title": "Counter symbols get counts of their own event", "statement": "In the evaluation of metrics every counter symbol has the count of its own event, with its parameters, in one of its registers.", "quantifier": "all sets of events, all groupings into runs and all counts", "why_tests_cant": "The results of several runs are merged and searched by registers; which runs exist depends on the whole set of events.", "anchors": ["kerncraft/models/benchmark.py:Benchmark.analyze", "kerncraft/models/benchmark.py:build_minimal_runs"]}
{"id": "C76", "title": "Runs at a deviating clock are rejected", "statement": "A measurement at a clock frequency which differs by more than one percent from that of the machine description is not used, others are.", "quantifier": "all frequencies and outputs", "why_tests_cant": "The check depends on text that is absent or different with other versions of LIKWID.", "anchors": ["kerncraft/models/benchmark.py:Benchmark.perfctr"]}
{"id": "C77", "title": "Reported rates are executed work per time", "statement": "Cycles per cache line, MFLOP/s, MLUP/s and MIt/s are the executed iterations and operations per measured time, and consistent with each other.", "quantifier": "all loop nests, times and repetitions", "why_tests_cant": "Has to hold for all bounds and increments.", "anchors": ["kerncraft/models/benchmark.py:Benchmark.analyze"]}
{"id": "C78", "title": "The generated kernel function does what the kernel code does", "statement": "A call of the generated function changes the contents of arrays and scalars exactly as one execution of the kernel code, and accesses only allocated memory.", "quantifier": "all kernels, sizes, contents of arrays and arithmetics", "why_tests_cant": "The function is a rewritten program with flattened arrays, parameters and copies; equivalence of two programs needs all kernels and all contents.", "anchors": ["kerncraft/kernel.py:KernelCode.get_kernel_code", "kerncraft/kernel.py:KernelCode._build_kernel_function_declaration", "kerncraft/kernel.py:KernelCode._build_kernel_call", "kerncraft/kernel.py:transform_multidim_to_1d_ref"]}
{"id": "C79", "title": "The benchmark program initializes what is read and measures the requested repetitions", "statement": "The generated program initializes every element the kernel reads, executes the kernel twice to warm up and then exactly the requested number of times in the measured region, from the initial values that were written.", "quantifier": "all kernels, sizes and repetitions", "why_tests_cant": "Uninitialized reads and the number of executions depend on the whole program and on every loop nest.", "anchors": ["kerncraft/kernel.py:KernelCode.get_main_code", "kerncraft/kernel.py:KernelCode.CODE_TEMPLATE", "kerncraft/kernel.py:KernelCode._build_array_initializations", "kerncraft/kernel.py:KernelCode._build_scalar_initializations"]}
{"id": "C80", "title": "Results of llvm-mca are those of its report", "statement": "The in-core analysis with llvm-mca returns cycles and micro-operations per iteration as printed, for every resource the greatest pressure among its units, and the cycles from the first dispatch to the last retirement of the first iteration.", "quantifier": "all reports of llvm-mca: units, names, pressures, numbers and timelines", "why_tests_cant": "Reports differ with every architecture and kernel; samples cannot show that no name, unit or timeline is misread.", "anchors": ["kerncraft/incore_model.py:llvm_mca_analyse_instrumented_assembly"]}
{"id": "C81", "title": "Results of IACA are those of its report", "statement": "The in-core analysis with IACA returns the block throughput, the number of micro-operations and the cycles of every port and every subunit of a port under their own names, in the order of the table.", "quantifier": "all tables of ports and cycles, with any widths, subunits and numbers", "why_tests_cant": "The table has other columns on every architecture.", "anchors": ["kerncraft/incore_model.py:iaca_analyse_instrumented_binary"]}
{"id": "C82", "title": "Throughput of OSACA bounds all ports and dependencies", "statement": "The throughput returned with OSACA is the greatest of all port loads and the longest loop-carried dependency, every port is returned with its own load, and the latency of the critical path is the sum of its instructions.", "quantifier": "all port loads, dependencies and critical paths", "why_tests_cant": "The greatest element depends on all loads; samples cover only a few orders.", "anchors": ["kerncraft/incore_model.py:osaca_analyse_instrumented_assembly"]}
{"id": "C83", "title": "Answers do not depend on earlier calls", "statement": "Assembly, object, in-core analysis and executable of a kernel are the same with any kept intermediate files as without: what a call answers is determined by its own arguments.", "quantifier": "all sequences of calls with any kernels, compilers, flags, models, blocks and increments, over any number of runs on the same directory", "why_tests_cant": "Wrong answers need two particular calls in one particular order; the space of histories cannot be enumerated.", "anchors": ["kerncraft/kernel.py:KernelCode.compile_kernel", "kerncraft/kernel.py:KernelCode.incore_analysis", "kerncraft/kernel.py:KernelCode.build_executable", "kerncraft/kernel.py:KernelCode.assemble_to_object"]}
{"id": "C84", "title": "Failed calls leave nothing behind", "statement": "A call that fails, because compiler, assembler, marking, analysis or linker fail, does not change the answer to any later call; the same call fails again in the same way.", "quantifier": "all sequences of calls and all reasons for failures", "why_tests_cant": "Failures at every step would have to be combined with every later call.", "anchors": ["kerncraft/kernel.py:KernelCode.incore_analysis", "kerncraft/kernel.py:KernelCode.compile_kernel", "kerncraft/incore_model.py:asm_instrumentation"]}
{"id": "C85", "title": "Loops are read as they are described", "statement": "The options for loops of the stand-alone benchmark give every region exactly the loops described for it, in order, with the described start, step, end and variable; other texts are rejected.", "quantifier": "all sequences of loop options for any regions", "why_tests_cant": "The option is parsed by one pattern with optional parts; that every description is split at the right places cannot be enumerated.", "anchors": ["kerncraft/standalone_pheno.py:AppendLoopRange"]}
{"id": "C86", "title": "Variables are read as they are described", "statement": "A variable of the stand-alone benchmark gets the described regions, first and last value and direction; other texts are rejected.", "quantifier": "all names, numbers, regions and scales", "why_tests_cant": "All parts of the pattern are optional and numbers have several notations.", "anchors": ["kerncraft/standalone_pheno.py:AppendStringRange"]}
{"id": "C87", "title": "Every region has its information", "statement": "Every region that is analysed has its own loops, repetitions and operations or those of the default region; the program ends exactly if some region has neither, and the default region itself is analysed only if no other is.", "quantifier": "all combinations of options and regions", "why_tests_cant": "Defaults interact: options of several kinds, shared objects and the order of a set of regions.", "anchors": ["kerncraft/kernel.py:BinaryDescription.__init__", "kerncraft/kernel.py:BinaryDescription.check", "kerncraft/standalone_pheno.py:AppendFlops", "kerncraft/standalone_pheno.py:AppendRepetitionDefines"]}
{"id": "C88", "title": "Ends of loops follow their variables", "statement": "While variables are adapted to reach a minimum runtime, the end of every loop that depends on a variable keeps its distance to the value of the variable.", "quantifier": "all sequences of adaptations in any regions, with any measured runtimes", "why_tests_cant": "The loops of regions are shared or separate objects depending on the options; a stale end shows only after particular sequences of runtimes.", "anchors": ["kerncraft/models/standalone_benchmark.py:StandaloneBenchmark.adjust_variables", "kerncraft/kernel.py:BinaryDescription.__init__"]}
{"id": "C89", "title": "The memory hierarchy is read from the topology", "statement": "The memory hierarchy written by an update contains the caches that likwid-topology shows, in order, each with its size, its number of groups, the cores and threads of a group, and loads and stores to the next one, followed by main memory; the last cache loads from no other.", "quantifier": "all outputs of likwid-topology that describe a chain of caches, with any text around", "why_tests_cant": "The sections are found by searching words in a text with arbitrary other lines; the numbers of caches, groups and cores are not bounded.", "anchors": ["kerncraft/machinemodel.py:get_memory_hierarchy"]}
{"id": "C90", "title": "Updates of a machine description change only what they should", "statement": "Updating the readouts leaves the memory hierarchy as it is, an update does not depend on earlier checks and updates of this or other descriptions, and updating without overwriting keeps existing values.", "quantifier": "all histories of checks, updates and changes of the machine in one process", "why_tests_cant": "Results are cached between calls and cached dictionaries are changed later, so that only long histories show a mix-up.", "anchors": ["kerncraft/machinemodel.py:MachineModel.update", "kerncraft/machinemodel.py:get_machine_readouts", "kerncraft/machinemodel.py:get_memory_hierarchy"]}
{"id": "C91", "title": "The check for the current system is right", "statement": "The check accepts a description exactly if the machine has the described processor, sockets, cores, threads, domains and caches at the time of the check.", "quantifier": "all descriptions, machines and earlier calls in the process", "why_tests_cant": "The answer depends on cached readouts of earlier calls and on all combinations of differing fields.", "anchors": ["kerncraft/machinemodel.py:MachineModel.current_system"]}
{"id": "C92", "title": "The fastest kernel is chosen", "statement": "Of the kernels that likwid-bench can run, one with the highest bandwidth is chosen, and bandwidths are read as they are printed; the call fails exactly if no kernel gives a bandwidth.", "quantifier": "all lists of kernels, failures and printed bandwidths", "why_tests_cant": "Which kernels fail, and the texts printed around the bandwidth, differ per machine.", "anchors": ["kerncraft/machinemodel.py:find_fastest_bench_kernel", "kerncraft/machinemodel.py:measure_bw"]}
{"id": "C93", "title": "The available kernels are found", "statement": "The kernels offered for a benchmark are exactly those listed by likwid-bench whose name has the prefix and no excluded part, in the listed order.", "quantifier": "all listings, prefixes and excluded parts", "why_tests_cant": "Descriptions are free texts that may contain separators and excluded parts.", "anchors": ["kerncraft/machinemodel.py:get_available_bench_kernels"]}
{"id": "C94", "title": "Benchmarks of a level measure this level", "statement": "The data set of the benchmark of a memory level is larger than the caches before it and fits into the level, for every number of cores.", "quantifier": "all hierarchies, group sizes and numbers of cores", "why_tests_cant": "The sizes depend on ratios of cache sizes and group sizes of machines that are not at hand.", "anchors": ["kerncraft/machinemodel.py:MachineModel._update_benchmarks"]}
{"id": "C95", "title": "Numbers of sockets, cores and domains are read from the topology", "statement": "Sockets, cores, threads and NUMA domains per socket are those that likwid-topology shows; a missing number is reported.", "quantifier": "all outputs of likwid-topology with any text around", "why_tests_cant": "The labels are searched in a text with arbitrary other lines; machines have different NUMA layouts.", "anchors": ["kerncraft/machinemodel.py:get_machine_readouts", "kerncraft/machinemodel.py:get_match_or_error"]}
{"id": "C96", "title": "Measured values belong to the region they were printed for", "statement": "In the results of a measured binary, every metric and count of a region is the last one printed between the header of this region and the next header, information about the machine belongs to the default region, and nothing is reported that was not printed.", "quantifier": "all outputs of likwid-perfctr, with any number of regions in any order", "why_tests_cant": "Outputs differ in the order, repetition and names of regions, events and registers, which depend on the machine and the program.", "anchors": ["kerncraft/models/standalone_benchmark.py:StandaloneBenchmark.perfctr"]}
{"id": "C97", "title": "The analysed regions are those with results", "statement": "Without a selection all regions with results are analysed, the default region only if there is no other; a selection is analysed as given and refused if one of its regions has no results.", "quantifier": "all outputs and selections of regions", "why_tests_cant": "It must hold for every set of region names in the output.", "anchors": ["kerncraft/models/standalone_benchmark.py:StandaloneBenchmark.analyze"]}
{"id": "C98", "title": "Counters of a region get their own counts", "statement": "The value of a performance counter in a region is a count of its event, with its parameters, in one of its registers, measured in this region in one of the runs.", "quantifier": "all runs, regions and counters", "why_tests_cant": "Counts of several runs are merged by event name; which counters share a run depends on the machine file.", "anchors": ["kerncraft/models/standalone_benchmark.py:StandaloneBenchmark.analyze"]}
{"id": "C99", "title": "Phenomenological ECM contributions are transfers at the bandwidths of the machine", "statement": "The measured contributions of the ECM model are the transfers between neighbouring levels per cache line of work, divided by the bandwidth between them, for every machine with performance counter metrics, and both benchmarks agree on the same transfers.", "quantifier": "all machine descriptions and counts", "why_tests_cant": "Machines differ in levels, metrics and kinds of throughput, and most are not at hand.", "anchors": ["kerncraft/models/benchmark.py:Benchmark.analyze", "kerncraft/models/standalone_benchmark.py:StandaloneBenchmark.analyze"]}
{"id": "C100", "title": "Rates of a region belong to its iterations", "statement": "Iterations, lattice updates and flops per second and cycles per cache line of a region follow from the iterations its loops execute in one repetition.", "quantifier": "all loops, times and numbers of repetitions", "why_tests_cant": "It must hold for all ranges and increments of loops.", "anchors": ["kerncraft/models/standalone_benchmark.py:StandaloneBenchmark.analyze", "kerncraft/kernel.py:BinaryDescription.region__iterations_per_repetition"]}
{"id": "C101", "title": "Reported variables are those of the measurement", "statement": "The first run uses the values given by the user; the reported values of the variables are the arguments of the run that gave the reported runtimes, and of all runs for performance counters.", "quantifier": "all adaptations of variables and measured runtimes", "why_tests_cant": "The number of runs depends on measured times; variables may change until the last run.", "anchors": ["kerncraft/models/standalone_benchmark.py:StandaloneBenchmark.analyze", "kerncraft/models/standalone_benchmark.py:StandaloneBenchmark.adjust_variables"]}
{"id": "C102", "title": "A machine description is that of its file", "statement": "A machine model that is made from a file has the description that is in the file; models of one file always have the same description; changing a model does not change models of other files; only changes through a model change its description.", "quantifier": "all histories of making models, setting paths, changing and saving descriptions and of files being edited and removed, all files", "why_tests_cant": "Descriptions are shared between models through a dictionary of the class, so what a model shows depends on every earlier model in the process.", "anchors": ["kerncraft/machinemodel.py: MachineModel.__init__, __getitem__, __setitem__, set_path"]}
{"id": "C103", "title": "Writing a machine description leaves other files alone", "statement": "The program that writes a machine description changes its output file only; the description it is based on is unchanged, whenever the program is stopped, and can also be continued in place.", "quantifier": "all bases, output files, orders of arguments, parts of the update, interruptions and crash points", "why_tests_cant": "Depends on when files are opened relative to when they are read, and on the point where the program stops.", "anchors": ["kerncraft/machinemodel.py: main, MachineModel.dump, MachineModel.update"]}
{"id": "C104", "title": "Saved machine descriptions are complete", "statement": "When the program ends or is interrupted by the user, the output file holds the description with everything done so far; a description once saved is not lost by a crash; a saved description is read again as it was.", "quantifier": "all bases, parts of the update, interruptions and crash points; all histories before a description is saved", "why_tests_cant": "A test sees the final file of a complete run; partial runs leave whatever the order of emptying and writing gives.", "anchors": ["kerncraft/machinemodel.py: main, MachineModel.dump, MachineModel.set_path"]}
{"id": "C105", "title": "Intermediate files are used only if newer than everything they depend on", "statement": "An existing intermediate file is used exactly if it is newer than the machine description, the kernel and every file of kerncraft.", "quantifier": "all times of all files, all directory trees, descriptions with and without a file, all time zones", "why_tests_cant": "Depends on times of all files, the time zone and on whether an earlier check was made in the process.", "anchors": ["kerncraft/kernel.py: KernelCode._check_freshness", "kerncraft/kerncraft.py: get_last_modified_datetime", "kerncraft/machinemodel.py: MachineModel.get_last_modified_datetime"]}
{"id": "C106", "title": "Options of the program mean what their help says", "statement": "A block is accepted exactly if it is auto, manual or a number; a given unit is used, otherwise every model has its own default unit; the default in-core model is the first one in the machine description.", "quantifier": "all texts of options, sets of models and machine descriptions", "why_tests_cant": "Defaults depend on combinations of options and on machine files that tests do not have.", "anchors": ["kerncraft/kerncraft.py: check_arguments, int_or_str, create_parser", "kerncraft/machinemodel.py: MachineModel.get_incore_model"]}
{"id": "C107", "title": "All constants a kernel needs are asked for, and no others", "statement": "After all required constants have values, sizes of arrays, bounds and steps of loops are numbers and accesses depend on loop indices only; a needed constant without value is an error; only constants of the kernel are required.", "quantifier": "all kernels, expressions and definitions of constants, every algebra system that may drop symbols without influence", "why_tests_cant": "Kernels are arbitrary expressions; a missed constant shows only when a model needs the number.", "anchors": ["kerncraft/kerncraft.py: run", "kerncraft/kernel.py: KernelCode, KernelDescription"]}
{"id": "C108", "title": "The threads of a team divide the iterations of the kernel among them", "statement": "When the OpenMP version of the generated kernel function is called by all threads of a team, every iteration of the kernel is executed by exactly one of them, whatever pragmas the kernel code has; calling the generator again gives the same loop nest.", "quantifier": "all loop nests with all texts of pragmas at each level, numbers of threads, schedules and iterations", "why_tests_cant": "Pragmas are free texts; if all threads do all the work the program still runs and gives times.", "anchors": ["kerncraft/kernel.py: KernelCode.get_kernel_loop_nest, get_kernel_code"]}
{"id": "C109", "title": "The OpenMP version computes what the kernel computes for every schedule", "statement": "If the iterations of a kernel do not depend on each other, the arrays and scalars after a call of the generated kernel function by all threads of a team are those of the sequential kernel, for every interleaving of their memory accesses.", "quantifier": "all kernels, sizes, divisions of the iterations among threads and interleavings of their loads and stores", "why_tests_cant": "Races show up only in some schedules; tests execute a few of them and do not check results.", "anchors": ["kerncraft/kernel.py: KernelCode.get_kernel_code, get_kernel_loop_nest, get_main_code"]}
{"id": "C110", "title": "The code for one thread is the same code without OpenMP directives", "statement": "The kernel function generated for one thread consists of the lines of the one for several threads except the OpenMP directives, and both are kept in different files.", "quantifier": "all lines of code with and without directives", "why_tests_cant": "The removal is a regular expression over generated texts of any kernel.", "anchors": ["kerncraft/kernel.py: KernelCode.get_kernel_code"]}
{"id": "C111", "title": "Predicted misses are those of an LRU cache", "statement": "The numbers of hits and misses the layer conditions predict for a cache level are those which a fully associative cache with least recently used replacement of this size has when the kernel streams through its arrays; the reuse distances are the numbers of iterations since an element was accessed last, whatever the order of the references in the statements.", "quantifier": "all kernels with usual references, all sizes of arrays and caches, all orders of references, all lengths of cache lines, all alignments of arrays and all positions in the loop", "why_tests_cant": "Tests compare predictions of a few kernels with reference results of the same program; that the requirement of each tail bounds the stack distance of the accesses holds or fails for all sizes and orders of references.", "anchors": ["kerncraft/cacheprediction.py:LayerConditionPredictor.build_symbolic_LCs"]}
{"id": "C112", "title": "The recorded loops are the iterations executed", "statement": "For every kernel code which is accepted, running its loop nest as a C program executes the assignments of the innermost loop exactly for the iterations of the recorded loops, once each and in the same order, and ends.", "quantifier": "all kernel codes (syntax trees) that are accepted and all values of the constants", "why_tests_cant": "Tests parse a dozen kernels; whether the record of a loop means what the C code does depends on every form of literals, bounds, steps and bodies that passes the checks.", "anchors": ["kerncraft/kernel.py:KernelCode._p_for", "kerncraft/kernel.py:KernelCode._process_code"]}
{"id": "C113", "title": "Exactly the documented form of code is accepted", "statement": "Kernel code is accepted if and only if it consists of declarations of variables of one supported type, pragmas, a single perfect loop nest with increasing indices around assignments, and calls of swap; the variables, dimensions, loops and swaps of an accepted kernel are those written in the code.", "quantifier": "all kernel codes (syntax trees)", "why_tests_cant": "There are infinitely many wrong codes; tests try a few of them and cannot show that no other one gets through or that no correct one is turned down.", "anchors": ["kerncraft/kernel.py:KernelCode._process_code", "kerncraft/kernel.py:KernelCode._p_for", "kerncraft/kernel.py:KernelCode._p_assignment", "kerncraft/kernel.py:KernelCode._p_sources", "kerncraft/kernel.py:Kernel.set_variable", "kerncraft/kernel.py:Kernel.check"]}
{"id": "C114", "title": "The recorded accesses are the elements touched", "statement": "The elements of each array which the execution of an accepted kernel reads (writes) are exactly those which its sources (destinations) give over all iterations of the recorded loops.", "quantifier": "all accepted kernel codes and all values of the constants", "why_tests_cant": "The sets of touched elements depend on all iterations of nests of any depth; tests look at the lists of accesses of single kernels only.", "anchors": ["kerncraft/kernel.py:KernelCode._p_assignment", "kerncraft/kernel.py:KernelCode._p_sources", "kerncraft/kernel.py:KernelCode._p_for"]}
{"id": "C115", "title": "Index type and innermost loop belong to the nest", "statement": "For every accepted kernel the index type used for generated constants is the type of the indices of all loops, and an error if they differ; the innermost loop used to initialise arrays is the one around the assignments.", "quantifier": "all accepted kernel codes with any depth of nests", "why_tests_cant": "Tests use nests of depth up to three with one type; the recursion has to be right for every depth and placement of braces and pragmas.", "anchors": ["kerncraft/kernel.py:KernelCode.get_index_type", "kerncraft/kernel.py:KernelCode._find_inner_most_loop"]}
{"id": "C116", "title": "Replacing an identifier replaces every use of it", "statement": "Replacing an identifier in a syntax tree by a node or a list of nodes gives the tree in which every use of the identifier, and nothing else, is substituted, and always ends.", "quantifier": "all syntax trees, identifiers and replacements", "why_tests_cant": "The tree is changed while it is traversed; tests replace one identifier in a fixed template. Which uses are missed depends on neighbouring nodes, empty lists and on what is put in.", "anchors": ["kerncraft/pycparser_utils.py:replace_id"]}
{"id": "C117", "title": "The benchmark program is the template with the parts of the kernel filled in", "statement": "For every kernel the generated main function is the template with declarations, initialisations, dummy calls and the kernel call filled in for their placeholders at once; no placeholder remains, the dummy calls pass every variable by reference exactly once, and the arguments of the kernel call are those of the parameters of the kernel function in order, number and kind.", "quantifier": "all kernels: any variables, constants and names", "why_tests_cant": "Placeholders are filled one after another in a tree which already has parts of the kernel in it, so the result depends on all names in the kernel; tests compile a few kernels.", "anchors": ["kerncraft/kernel.py:KernelCode.get_main_code", "kerncraft/kernel.py:KernelCode._build_dummy_calls", "kerncraft/kernel.py:KernelCode._build_kernel_call", "kerncraft/kernel.py:KernelCode._build_kernel_function_declaration", "kerncraft/pycparser_utils.py:replace_id"]}
{"id": "C118", "title": "Misses of the executed kernel code are bounded by the layer conditions of that code", "statement": "For every accepted kernel which is a stencil over all its loops: while the compiled code, whatever order it makes the accesses of a statement in, passes one cache line in each stream, a fully associative LRU cache misses at most as often as the layer conditions derived from the source code predict for a slightly smaller cache, and (as long as no end of a row was passed) at least as often as for a slightly larger one; the lines it touches are those of the recorded references.", "quantifier": "all kernel codes, constants, orders of accesses within statements, cache sizes and line sizes", "why_tests_cant": "The statement joins the meaning of C loops, the recorded loops and accesses, the symbolic distances and the behaviour of caches for all kernels and sizes; tests compare predicted numbers for a few kernels with stored ones.", "anchors": ["kerncraft/cacheprediction.py:LayerConditionPredictor.build_symbolic_LCs", "kerncraft/kernel.py:KernelCode._process_code", "kerncraft/kernel.py:Kernel.get_loop_stack"]}
{"id": "C119", "title": "Settings of a model are those it was given", "statement": "A performance model which gets parsed arguments uses exactly the settings of these (predictor, number of cores, assembly block, pointer increment, verbosity, in-core model, iterations), whatever the keyword arguments are, and reports what is no valid setting; without parsed arguments it uses its keyword arguments. Both parts of a combined model use the same settings, and the phenomenological model is not tried with an incomplete machine description.", "quantifier": "all parsed arguments, keyword arguments and option texts", "why_tests_cant": "Constructors are called by tests with a few combinations only, nearly always with parsed arguments; the statement is about all combinations and also the calls which fail.", "anchors": ["kerncraft/models/ecm.py:ECM.__init__", "kerncraft/models/ecm.py:ECMCPU.__init__", "kerncraft/models/ecm.py:ECMData.__init__", "kerncraft/models/roofline.py:RooflineASM.__init__", "kerncraft/models/benchmark.py:Benchmark.__init__", "kerncraft/models/standalone_benchmark.py:StandaloneBenchmark.__init__"]}
{"id": "C120", "title": "The ECM report says what was computed", "statement": "The two lines of the ECM report can be read in only one way: they list the same contributions in the same order, first those that overlap, then those that are summed up, each with its cycles rounded to one digit, and the expression as printed has the value of the total. The table has one column for each number of cores with its prediction, and the prediction for the number of cores asked for is that of this number.", "quantifier": "all contributions, level names, penalties, units, numbers of cores and scaling predictions", "why_tests_cant": "Tests compare results or look for a fixed text; that the text never says something else than the results is about all results.", "anchors": ["kerncraft/models/ecm.py:ECM.report", "kerncraft/models/ecm.py:ECM.analyze"]}
{"id": "C121", "title": "Layer conditions are reported with the cache size they hold for", "statement": "The size printed above a list of layer conditions is the cache size these conditions were computed for, and it is that of the number of cores asked for, whatever was computed before and whether results are taken from an earlier run.", "quantifier": "all machines, numbers of cores, earlier uses of the machine description and stored results", "why_tests_cant": "Depends on the history of a machine object and on files of earlier runs.", "anchors": ["kerncraft/models/layer_condition.py:LC.report", "kerncraft/models/layer_condition.py:LC.analyze", "kerncraft/machinemodel.py:MachineModel.get_cachesim"]}
{"id": "C122", "title": "Reports are written to the file given", "statement": "Everything a model reports is written to the output file it is given (warnings to standard error), for every verbosity.", "quantifier": "all models, verbosities and results", "why_tests_cant": "Tests capture some models with low verbosity; which prints are reached depends on verbosity and results.", "anchors": ["kerncraft/models/ecm.py:ECM.report", "kerncraft/models/ecm.py:ECMData.report", "kerncraft/models/ecm.py:ECMCPU.report", "kerncraft/models/roofline.py:Roofline.report", "kerncraft/models/layer_condition.py:LC.report", "kerncraft/models/benchmark.py:Benchmark.report"]}
{"id": "C123", "title": "Values of the data transfer tables stand below their names", "statement": "In the tables of measured data transfers each value stands in the row of its level and below the name of its metric, and all measured values are shown.", "quantifier": "all measured levels and metrics", "why_tests_cant": "Measurements need hardware; which metrics exist depends on the machine description.", "anchors": ["kerncraft/models/benchmark.py:Benchmark.report", "kerncraft/models/standalone_benchmark.py:StandaloneBenchmark.report"]}
{"id": "C124", "title": "Simulated counts are per cache line of work", "statement": "Loads, hits, misses, stores and evicts which the cache simulation reports for each level are the counters of the simulator for the iterations after the warm-up, divided by the number of cache lines which these iterations write. There is one number for each level of the memory hierarchy, and the bytes written in an iteration are those which it writes one after the other.", "quantifier": "all kernels, cache sizes, schedules of warm-up, simulators and numbers of levels", "why_tests_cant": "Needs pycachesim; tests look at a few kernels with known counts, not at how counts and work belong together for all schedules.", "anchors": ["kerncraft/cacheprediction.py:CacheSimulationPredictor", "kerncraft/kernel.py:Kernel.bytes_per_iteration", "kerncraft/kernel.py:Kernel.compile_global_offsets"]}
{"id": "C125", "title": "Cache simulation and layer conditions agree", "statement": "For the same kernel and the same first-level cache the misses per cache line predicted by simulation lie between those predicted by layer conditions for a slightly larger and a slightly smaller cache.", "quantifier": "all kernels which stream through memory, cache sizes, lengths of loops and counts of invalid cache entries", "why_tests_cant": "The two predictors have nothing in common in the code; tests compare a few results with stored numbers, agreement is about all kernels and sizes.", "anchors": ["kerncraft/cacheprediction.py:CacheSimulationPredictor", "kerncraft/cacheprediction.py:LayerConditionPredictor", "kerncraft/kernel.py:Kernel.compile_global_offsets"]}
{"id": "C126", "title": "Rates count the iterations of a cache line of work", "statement": "Iterations per second of the ECM and roofline models are made from times and transfers per cache line of work with the same number of iterations per cache line with which these were computed.", "quantifier": "all element sizes, steps of the innermost loop, clocks and times", "why_tests_cant": "Existing kernels have step one; whether parts which compute the same number separately agree is about all kernels.", "anchors": ["kerncraft/kernel.py:Kernel.bytes_per_iteration", "kerncraft/models/ecm.py:ECMData.conv_cy", "kerncraft/models/ecm.py:ECMCPU.conv_cy", "kerncraft/models/roofline.py:Roofline.calculate_cache_access", "kerncraft/cacheprediction.py:CacheSimulationPredictor"]}
{"id": "C127", "title": "Texts in kernel descriptions mean what they say", "statement": "A number, text, list or null in a kernel description is taken for the expression it spells, with the usual precedence of operators and all names as positive integer symbols; texts which are no such expression are rejected; every expression can be written.", "quantifier": "all values of a description, all texts and names", "why_tests_cant": "Tests read one file; expressions, spacing and parentheses are unbounded.", "anchors": ["kerncraft/kernel.py:string_to_sympy", "kerncraft/kernel.py:KernelDescription"]}
{"id": "C128", "title": "A description gives the same kernel as the code it describes", "statement": "A kernel description whose loops, sizes and accesses have the values of those of a C kernel has the same iterations as are executed by this code, and stands for the same elements read and written.", "quantifier": "all accepted C kernels, all descriptions of them and all values of the constants", "why_tests_cant": "Tests compare no description with the execution of its code; the values of bounds and subscripts must agree for all constants.", "anchors": ["kerncraft/kernel.py:KernelDescription", "kerncraft/kernel.py:KernelCode"]}
{"id": "C129", "title": "Which kernel descriptions are accepted", "statement": "A kernel description is accepted exactly if it has the required entries of the right form, and the kernel then holds what these say; further entries do not matter; flops are only needed for the Roofline model.", "quantifier": "all objects a YAML file can hold", "why_tests_cant": "There is one description among the tests; the forms of dictionaries are unbounded.", "anchors": ["kerncraft/kernel.py:KernelDescription", "kerncraft/kernel.py:Kernel.set_variable", "tests/test_files/2d-5pt.yml"]}
{"id": "C130", "title": "Only complete installations of IACA are found", "statement": "Whatever calls of iaca_get have been made, at the same time or after each other and interrupted anywhere: if an installation of IACA is found, it is complete, its programs are executable, and all of it comes from the downloads of one call. A call which is not interrupted makes such an installation.", "quantifier": "all histories of calls, all schedules and crash points, all contents of the archives", "why_tests_cant": "Tests do not install anything; the points where a call can be interrupted and the orders of several calls are unbounded.", "anchors": ["kerncraft/iaca_get.py:main", "kerncraft/iaca_get.py:find_iaca"]}
{"id": "C131", "title": "Installations of IACA can be repeated and forced", "statement": "An installation which has been found stays as it is and is found from then on; an interrupted installation can be repeated; a forced installation is made in any case and is used afterwards; the programs are those for the operating system.", "quantifier": "all histories of calls and their arguments", "why_tests_cant": "The effects depend on what earlier calls, possibly interrupted, have left behind.", "anchors": ["kerncraft/iaca_get.py:main", "kerncraft/iaca_get.py:search_path"]}
{"id": "C132", "title": "The analysis runs the installed IACA for the microarchitecture", "statement": "An analysis with IACA runs the version for the microarchitecture of the installation which is found, whatever other programs there are and however often it has been done before; it leaves the environment alone; versions put where the documentation says are used.", "quantifier": "all microarchitectures, environments and contents of directories", "why_tests_cant": "Results of tests are read from recorded outputs; PATH and the programs in its directories are unbounded.", "anchors": ["kerncraft/incore_model.py:iaca_analyse_instrumented_binary", "kerncraft/iaca_get.py:find_iaca", "README.rst"]}
{"id": "C133", "title": "Results of the stand-alone benchmark are stored under the measured values and kept", "statement": "Each result the stand-alone benchmark stores can be found under the name of the binary and the values of the variables it was measured with. After any sequence of calls, some of them failing or killed, the file holds for each binary, setting and values the result of the last call which came to its end, and results of earlier calls for other ones.", "quantifier": "all sequences of calls, all runtimes of binaries, all points where a call is killed, all contents of the file", "why_tests_cant": "Tests do not run the stand-alone benchmark; sequences of calls and crash points are unbounded.", "anchors": ["kerncraft/standalone_pheno.py:run", "kerncraft/models/standalone_benchmark.py:StandaloneBenchmark.adjust_variables", "kerncraft/kernel.py:BinaryDescription.set_constant"]}
{"id": "C134", "title": "The regions named with --marker are analysed", "statement": "Exactly the regions named with the option --marker of the stand-alone benchmark are analysed, whatever their names and the output of likwid-perfctr; if one of them is not there, nothing is. Without names, all regions are.", "quantifier": "all lists of names and all outputs of likwid-perfctr", "why_tests_cant": "Names and outputs are unbounded; tests do not run likwid-perfctr.", "anchors": ["kerncraft/standalone_pheno.py:ParseMarkers", "kerncraft/kernel.py:BinaryDescription.__init__", "kerncraft/models/standalone_benchmark.py:StandaloneBenchmark.analyze"]}
{"id": "C135", "title": "Predicted evictions are those of caches which write back", "statement": "The number of lines the layer conditions predict to be written back for each cache line of work is the number a least recently used write-back cache of this size writes back in the long run; nothing is predicted, and nothing written back, if all data fits.", "quantifier": "all kernels, orders of references, values of constants, cache and line sizes, and numbers of iterations", "why_tests_cant": "A cache model has state which depends on the whole history of accesses; agreement has to hold for every kernel and every length of the loop.", "anchors": ["kerncraft/cacheprediction.py:LayerConditionPredictor.__init__", "kerncraft/cacheprediction.py:LayerConditionPredictor.get_evicts"]}
{"id": "C136", "title": "Predictions hold for each level of a hierarchy of caches", "statement": "The misses which the layer conditions predict for each cache of the machine are those of this cache as part of the hierarchy, where it is asked only for the lines that miss in the caches above it.", "quantifier": "all kernels, orders of references, values of constants, numbers and sizes of caches, line sizes, and positions in the loop", "why_tests_cant": "What reaches a lower cache depends on the whole history of the caches above; a few simulated kernels do not show for which sizes the independent prediction of each level is right.", "anchors": ["kerncraft/cacheprediction.py:LayerConditionPredictor.__init__", "kerncraft/cacheprediction.py:LayerConditionPredictor.get_misses"]}
{"id": "C137", "title": "Printed information about a kernel is the information which is analysed", "statement": "From the tables which are printed with -v and -vv, the loops with their bounds, the accesses with all their offsets, the numbers of operations with their sum, the variables with types and sizes, the constants with their values, and the regions of the stand-alone tool with their loops can be read back.", "quantifier": "all kernels with names in one word, texts of expressions in one line, numbers of loops, accesses, variables, constants and regions", "why_tests_cant": "Whether rows get lost, run together or move between tables depends on lengths of texts and on the numbers of rows; tests only look at whether a few runs end without errors.", "anchors": ["kerncraft/kernel.py:prefix_indent", "kerncraft/kernel.py:Kernel.print_kernel_info", "kerncraft/kernel.py:Kernel.print_variables_info", "kerncraft/kernel.py:Kernel.print_constants_info", "kerncraft/kernel.py:BinaryDescription.print_kernel_info"]}
{"id": "C138", "title": "Layer conditions bound the misses of caches with sets, wherever arrays begin", "statement": "The number of lines which a cache with sets (each replacing its least recently used line) misses while each stream of a kernel passes one line is at least what the layer conditions predict for a cache larger by one way for each reference, and at most what they predict for one which is smaller by one way and one line for each reference, for contiguous arrays at any place in memory.", "quantifier": "all kernels and source codes of stencils, numbers of sets and ways, widths of lines, beginnings of arrays, and positions of the iterations", "why_tests_cant": "Where arrays begin is decided by the allocator in each run, and conflicts show up for few of the places; a test sees one place per run.", "anchors": ["kerncraft/cacheprediction.py:LayerConditionPredictor.build_symbolic_LCs", "kerncraft/cacheprediction.py:LayerConditionPredictor", "kerncraft/kernel.py:KernelCode"]}
{"id": "C139", "title": "The table of transferred data explains the cycles of the ECM model", "statement": "The table which the ECM model prints with -vv has one row for each two neighbouring levels of the memory hierarchy; the loads and stores read from it are, up to rounding to bytes, the data from which the cycles of the level are computed with its throughput or measured bandwidth.", "quantifier": "all memory hierarchies, sizes of cache lines, predicted loads and stores, throughputs, bandwidths and kinds of duplexness", "why_tests_cant": "Offsets between names, loads and cycles of levels would show for some hierarchies only, and no test reads the table.", "anchors": ["kerncraft/models/ecm.py:ECMData.report_data_transfers", "kerncraft/models/ecm.py:ECMData.calculate_cycles"]}
{"id": "C140", "title": "Accesses in verbose output come in an order of their own", "statement": "The accesses to an array which are part of the verbose results are sorted by the first dimension in which they differ; their order depends neither on the order in which they were found nor on that of a set.", "quantifier": "all arrays and lists of accesses with integer offsets, also of different numbers of dimensions", "why_tests_cant": "Different orders of discovery and tuples of different length have to be combined in all ways.", "anchors": ["kerncraft/cacheprediction.py:uneven_tuple_cmp", "kerncraft/cacheprediction.py:LayerConditionPredictor.build_symbolic_LCs"]}
{"id": "C141", "title": "Markers have the syntax in which the code was parsed", "statement": "For every version number of OSACA and every assembly code, the interface of OSACA is chosen by comparison of the version with 0.7.0; x86 code is parsed as Intel code if that is possible and as AT&T code otherwise, and the markers written around the block have the syntax in which the code was parsed.", "quantifier": "all version numbers, parsers, instruction sets, assembly codes, histories of the increment cache and answers of the user", "why_tests_cant": "Versions with several digits, development versions and code accepted by both parsers are not covered by tests, which run with one version of OSACA.", "anchors": ["kerncraft/incore_model.py:parse_asm", "kerncraft/incore_model.py:detect_x86_syntax", "kerncraft/incore_model.py:asm_instrumentation"]}
{"id": "C142", "title": "The tool for marking remembers increments", "statement": "An increment that was entered by the user for a block is not asked for when the block is marked again; the cache of increments is looked at and changed only with the option --cache.", "quantifier": "all assembly codes, contents of the cache, answers of the user and options", "why_tests_cant": "Two runs with a file between them, for all contents of the file, have to be combined.", "anchors": ["kerncraft/incore_model.py:main", "kerncraft/incore_model.py:asm_instrumentation", "kerncraft/incore_model.py:userselect_increment"]}
{"id": "C143", "title": "The compiler is called with the flags of the user", "statement": "Whatever the flags in the machine file or on the command line and the LIKWID variables are, the compiler gets the chosen flags word by word and in order, with the sources, the output file and the options kerncraft needs, and nothing else; without the LIKWID variables the program ends.", "quantifier": "all machine files, command lines, environments, working directories and file names", "why_tests_cant": "Spaces, empty values and missing variables have to be combined; tests run with one setting.", "anchors": ["kerncraft/kernel.py:KernelCode.compile_kernel", "kerncraft/kernel.py:KernelCode.assemble_to_object", "kerncraft/kernel.py:KernelCode.build_executable", "kerncraft/kernel.py:reduce_path"]}
{"id": "C144", "title": "Only invalid instructions of icc are corrected", "statement": "The output of the compiler is kept as it is, except that in assembly written by icc every vkmovb is replaced by kmovb, so that none is left.", "quantifier": "all compilers and outputs", "why_tests_cant": "A claim about every text; no test has the compiler.", "anchors": ["kerncraft/kernel.py:KernelCode.compile_kernel"]}
{"id": "C145", "title": "Distances between references are distances between elements", "statement": "For each array, the flattened references of a kernel are the numbers of the referenced elements in the order of C, and the relative distances between two references add up to the distance of their elements, for all values of sizes and indices; the result depends on the references of the kernel only.", "quantifier": "all arrays with any number of dimensions, references, values of symbols and orders of references", "why_tests_cant": "Sums over any number of references and symbolic sizes; the order of a set differs between runs.", "anchors": ["kerncraft/kernel.py:Kernel.compile_relative_distances", "kerncraft/kernel.py:Kernel.compile_sympy_accesses", "kerncraft/kernel.py:Kernel.access_to_sympy", "kerncraft/kernel.py:Kernel.index_order"]}
{"id": "C146", "title": "Temporary changes are undone", "statement": "The recursion limit, the order in which pprint sorts, and temporary directories are after each block as they were before, however blocks are nested and wherever an exception is raised; inside the block, code of the greater depth runs.", "quantifier": "all programs built from calls, exceptions, handlers and nested blocks, and all limits", "why_tests_cant": "Every nesting and every point of failure; global state of the interpreter is shared by later calls.", "anchors": ["kerncraft/kernel.py:set_recursionlimit", "kerncraft/models/benchmark.py:pprint_nosort", "kerncraft/iaca_get.py:TemporaryDirectory"]}
{"id": "C147", "title": "The parsed text is the text of the kernel", "statement": "Whatever the code of a kernel is, the parser gets it without line comments as the body of one function, with each line under its number in the file, and all of it is analysed.", "quantifier": "all texts of kernels", "why_tests_cant": "Any text with any braces, comments and directives; tests use a few well formed kernels.", "anchors": ["kerncraft/kernel.py:KernelCode._as_function", "kerncraft/kernel.py:KernelCode._strip_comments", "kerncraft/kernel.py:KernelCode.__init__"]}
{"id": "C148", "title": "Taking declarations from a kernel does not change it", "statement": "The declarations of scalars for generated code are those of the kernel in their order, with the requested suffix at all names, as pointers or with storage extern if requested, and the kernel itself is as before, so that code generated later is the same.", "quantifier": "all kernels, suffixes and combinations of options", "why_tests_cant": "Nodes are shared and changed in place; whether a change is visible elsewhere depends on all later uses.", "anchors": ["kerncraft/kernel.py:KernelCode.get_scalar_declarations", "kerncraft/kernel.py:KernelCode._build_scalar_extern_declarations"]}
