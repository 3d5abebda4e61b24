{
 "claims": [
  {
   "property": "C01",
   "status": "proved",
   "theorems": [
    "C01_membership",
    "C01_union"
   ],
   "note": ""
  },
  {
   "property": "C02",
   "status": "partial",
   "theorems": [
    "C02_len_refuted",
    "C02_len_lower_bound",
    "C02_len_partial",
    "C02_two_ranges_partial",
    "C02_eq_sound",
    "C02_eq_refuted",
    "C02_eq_partial"
   ],
   "note": "The full claim is false of the code (refuted with [0,10),[1,2),[3,4)); proved when no range touches two others, and the length is never too small."
  },
  {
   "property": "C03",
   "status": "partial",
   "theorems": [
    "C03_result",
    "C03_operands_refuted",
    "C03_operands_partial"
   ],
   "note": "The full claim is false of the code (a & b writes into the range objects of a); proved when no ranges touch."
  },
  {
   "property": "C04",
   "status": "proved",
   "theorems": [
    "C04_with_prefix",
    "C04_unknown_prefix",
    "C04_reduced"
   ],
   "note": "Floats are modelled as exact rationals plus inf/nan."
  },
  {
   "property": "C05",
   "status": "partial",
   "theorems": [
    "C05_add_partial",
    "C05_sub_partial",
    "C05_mul_partial",
    "C05_div_partial",
    "C05_div_zero",
    "C05_unit_mismatch",
    "C05_prefix_like_unit_refuted",
    "C05_dimensionless_refuted"
   ],
   "note": "Proved for unit names that do not start with a prefix letter; false of the code for units like Pa and for quantities without unit (refuted)."
  },
  {
   "property": "C06",
   "status": "partial",
   "theorems": [
    "C06_largest_partial",
    "C06_rounding",
    "C06_negative_refuted",
    "C06_si_partial",
    "C06_si_refuted"
   ],
   "note": "Proved for non-negative quantities; false of the code for negative ones and the factors of T, P, E are ten times the SI value (refuted)."
  },
  {
   "property": "C07",
   "status": "partial",
   "theorems": [
    "C07_roundtrip_partial",
    "C07_large_refuted",
    "C07_inf_refuted",
    "C07_unparsable_refuted",
    "C07_trimmed"
   ],
   "note": "Proved for non-negative quantities below 8.95e18 with a printable unit; large, infinite, negative and dimensionless quantities do not survive (refuted)."
  },
  {
   "property": "C08",
   "status": "partial",
   "theorems": [
    "C08_removes_comments_partial",
    "C08_line_breaks",
    "C08_line_comments_partial",
    "C08_line_comments_breaks",
    "C08_strip_comments",
    "C08_directives_lines",
    "C08_ordinary_lines_kept",
    "C08_macros_removed",
    "C08_macro_continuation_removed",
    "C08_pragmas_removed",
    "C08_pragmas_kept",
    "C08_unterminated_refuted",
    "C08_adjacent_refuted",
    "C08_lost_code_refuted",
    "C08_strip",
    "C08_backslash"
   ],
   "note": "Proved where no line comment is longer than the code before it and block comments do not touch, or without block comments; false of the code otherwise (refuted). Directive removal is proved in general."
  },
  {
   "property": "C09",
   "status": "proved",
   "theorems": [
    "C09_row_major",
    "C09_injective",
    "C09_surjective"
   ],
   "note": ""
  },
  {
   "property": "C10",
   "status": "proved",
   "theorems": [
    "C10_same_element",
    "C10_agrees_with_cache_model"
   ],
   "note": ""
  },
  {
   "property": "C100",
   "status": "partial",
   "theorems": [
    "C100_partial",
    "C100_refuted"
   ],
   "note": "Proved for ranges that are multiples of the increments, refuted for others."
  },
  {
   "property": "C101",
   "status": "proved",
   "theorems": [
    "C101_arguments"
   ],
   "note": "Values of variables are exact numbers. A measurement that never becomes long enough does not end, which is OutOfFuel in the model."
  },
  {
   "property": "C102",
   "status": "partial",
   "theorems": [
    "C102_first_model_of_file",
    "C102_models_of_one_file_agree",
    "C102_other_models_untouched",
    "C102_kept_until_changed",
    "C102_later_models_refuted",
    "C102_removed"
   ],
   "note": "Proved for the first model of a file in a process, for agreement of models of one file and independence of others, over all histories. Refuted for later models: they have the old description, with the changes of other models, even if the file was changed; an unsupported description stays refused after the file was corrected."
  },
  {
   "property": "C103",
   "status": "partial",
   "theorems": [
    "C103_only_output_written",
    "C103_in_place_refuted"
   ],
   "note": "Proved at every crash point. Refuted in place: if the basis is the output file, it is emptied before it is read and its content is lost."
  },
  {
   "property": "C104",
   "status": "partial",
   "theorems": [
    "C104_saved_at_end",
    "C104_at_every_crash_partial",
    "C104_saved_and_loaded",
    "C104_without_stream_refuted",
    "C104_saved_measurements_stay_refuted"
   ],
   "note": "Proved: the content after the end, after an interruption, and after loading again; at a crash the file is old, empty or complete. Refuted: saving empties the file first, so a crash loses what was saved; with a YAML library that refuses to dump without a stream nothing is ever saved; \"-\" writes to a file named \"<stdout>\"."
  },
  {
   "property": "C105",
   "status": "partial",
   "theorems": [
    "C105_used_iff_newer_partial",
    "C105_missing_files",
    "C105_no_file_never_used_partial",
    "C105_used_although_older_refuted"
   ],
   "note": "Proved as an exact condition for machine files and the first check in a process. Refuted: for descriptions without file the local time is compared with UTC; later changes of kerncraft are not seen."
  },
  {
   "property": "C106",
   "status": "partial",
   "theorems": [
    "C106_asm_block",
    "C106_numbers",
    "C106_unit_partial",
    "C106_unit_refuted",
    "C106_incore_partial",
    "C106_incore_refuted"
   ],
   "note": "Proved for blocks and given units, and for models of one unit. Refuted: together with a roofline model the other models lose their unit; the program uses OSACA instead of the first in-core model of the description."
  },
  {
   "property": "C107",
   "status": "partial",
   "theorems": [
    "C107_sufficient",
    "C107_numbers_partial",
    "C107_no_more",
    "C107_missing_is_error",
    "C107_numbers_refuted"
   ],
   "note": "Proved for all kernels, for sizes and bounds without loop indices, with the expressions of sympy as parameter. Refuted for bounds with outer indices, sizes with the name of an index and steps of described kernels, which are not looked at."
  },
  {
   "property": "C108",
   "status": "partial",
   "theorems": [
    "C108_partial",
    "C108_repeated",
    "C108_again",
    "C108_no_loop",
    "C108_not_divided_refuted"
   ],
   "note": "Proved for all nests whose pragmas are ordinary texts, without OpenMP directives or with exactly one dividing loop; and what happens if none divides. Refuted: with \"omp simd\", \"omp parallel\" alone, another pragma that mentions omp, or a tabulator, every thread executes every iteration."
  },
  {
   "property": "C109",
   "status": "partial",
   "theorems": [
    "C109_partial",
    "C109_generated_partial",
    "C109_deterministic",
    "C109_temporary_refuted",
    "C109_sum_refuted"
   ],
   "note": "Proved for every interleaving of loads and stores, for kernels that assign only elements of arrays and parts that do not access what others write. Refuted for kernels which assign scalars: they are static variables shared by all threads, so temporaries race and sums are lost."
  },
  {
   "property": "C11",
   "status": "partial",
   "theorems": [
    "C11_execution_order_partial",
    "C11_roundtrip_partial",
    "C11_inverse_partial",
    "C11_max_partial",
    "C11_strided_refuted",
    "C11_strided_roundtrip_refuted"
   ],
   "note": "Proved for loops with step 1; false of the code for every other step (refuted)."
  },
  {
   "property": "C110",
   "status": "proved",
   "theorems": [
    "C110_serial",
    "C110_parallel",
    "C110_files"
   ],
   "note": "For all lines; indentation of removed directives stays."
  },
  {
   "property": "C111",
   "status": "partial",
   "theorems": [
    "C111_hit",
    "C111_neighbour",
    "C111_miss",
    "C111_full",
    "C111_misses",
    "C111_iteration",
    "C111_distances",
    "C111_prediction",
    "C111_stays",
    "C111_still_misses",
    "C111_still_distances",
    "C111_still_prediction",
    "C111_exact_refuted",
    "C111_sets_refuted"
   ],
   "note": "Exact agreement is refuted: the order of references and parts of lines matter (C111_exact_refuted), and caches with sets may evict earlier (C111_sets_refuted; bounds for these in C138). Proved instead: distances of kernels are the numbers of iterations since the last access in any order of references (C111_distances); the misses of the cache while each stream passes one line lie between those predicted for a cache larger by one line per reference and for one smaller by two lines less one element per reference (C111_prediction), for the inner loop without the jump at the ends of rows; single accesses also hit across the ends of rows (C111_hit). References in arrays without the innermost index cause no misses and take one place in the cache for each of their lines (C111_still_prediction). Missing: the case that all arrays fit (C111_full on lines only), iterations at ends of rows."
  },
  {
   "property": "C112",
   "status": "partial",
   "theorems": [
    "C112_iterations_partial",
    "C112_octal_refuted",
    "C112_step_zero_refuted",
    "C112_changed_index_refuted"
   ],
   "note": "The full property is refuted: octal literals, steps of zero and assignments to indices are accepted but recorded wrongly. Proved: for accepted code without these (decimal literals, positive steps, heads that use known integers only, bodies that do not change integers) the execution is exactly the recorded one. Overflow of C integers is not modelled."
  },
  {
   "property": "C113",
   "status": "proved",
   "theorems": [
    "C113_accepted",
    "C113_empty",
    "C113_declared",
    "C113_check"
   ],
   "note": "For all syntax trees; the parser itself is not modelled. Numbers are those Python reads as integers. The record of declarations assumes that no name is declared twice (C rejects this)."
  },
  {
   "property": "C114",
   "status": "partial",
   "theorems": [
    "C114_elements_partial",
    "C114_octal_refuted"
   ],
   "note": "Refuted for octal subscripts. Proved for bodies with decimal integers in subscripts and under the conditions of C112; increments inside of expressions are those of C16."
  },
  {
   "property": "C115",
   "status": "proved",
   "theorems": [
    "C115_index_type",
    "C115_innermost"
   ],
   "note": "For all code of the accepted form, index types being named types."
  },
  {
   "property": "C116",
   "status": "partial",
   "theorems": [
    "C116_replacement_is_substitution",
    "C116_other_trees_unchanged",
    "C116_all_uses_replaced_refuted",
    "C116_list_for_single_node_refuted",
    "C116_termination_refuted"
   ],
   "note": "The full property is refuted for empty lists with two uses in a row, lists in places of single nodes and replacements which use the identifier themselves. Proved without these for all trees and replacements."
  },
  {
   "property": "C117",
   "status": "partial",
   "theorems": [
    "C117_program_is_filled_template",
    "C117_dummy_calls_hand_over_all",
    "C117_arguments_match_parameters",
    "C117_any_names_refuted"
   ],
   "note": "Refuted for kernels with variables called like a placeholder; proved for all others. The declarations and initialisations put in are arbitrary trees here (see C10, C55, C79 for them), and printing the tree as C is not modelled."
  },
  {
   "property": "C118",
   "status": "partial",
   "theorems": [
    "C118_trace_partial",
    "C118_upper_partial",
    "C118_lower_partial"
   ],
   "note": "From source code to misses: execution of the code, recorded loops and accesses, distances, layer conditions and LRU caches in one statement, for every order of accesses within a statement. Missing: kernels which are no stencils over all loops (a reference without one of the indices), octal literals, iterations at ends of rows (and later rows for the lower bound). Caches with sets: C138."
  },
  {
   "property": "C119",
   "status": "partial",
   "theorems": [
    "C119_arguments_decide",
    "C119_parts_agree",
    "C119_command_line",
    "C119_measurements",
    "C119_keywords_partial",
    "C119_integer_keywords_refuted",
    "C119_ecm_predictor_refuted",
    "C119_analysis_without_arguments_refuted",
    "C119_incomplete_refuted"
   ],
   "note": "Proved for models made with parsed arguments. Refuted without them: the predictor of the ECM model, integers, the in-core analysis and the measuring models; refuted for incomplete descriptions (misspelled mark)."
  },
  {
   "property": "C12",
   "status": "partial",
   "theorems": [
    "C12_iteration_length",
    "C12_executes",
    "C12_backward_refuted",
    "C12_counts_agree_partial",
    "C12_counts_exact",
    "C12_counts_refuted",
    "C12_region_off_by_at_most_one"
   ],
   "note": "The iteration count is proved for every positive step; the other two counts of the code disagree when the step does not divide the range (refuted), agreement proved otherwise."
  },
  {
   "property": "C120",
   "status": "partial",
   "theorems": [
    "C120_formula",
    "C120_value",
    "C120_table",
    "C120_cores_partial",
    "C120_digits_refuted",
    "C120_cores_refuted",
    "C120_aligned"
   ],
   "note": "Proved: unique reading, names, rounded values, error bound of the printed expression, table, and the prediction chosen for cores of one socket. Refuted: exact value of the printed expression (each number is rounded), cores of other sockets (IndexError)."
  },
  {
   "property": "C121",
   "status": "partial",
   "theorems": [
    "C121_computed_agree",
    "C121_one_core_partial",
    "C121_stored_refuted",
    "C121_cores_refuted"
   ],
   "note": "Proved: header and conditions agree whenever conditions are computed in the same run, and everywhere for one core. Refuted: with stored results, and the number of cores asked for has no effect while models that ran before have."
  },
  {
   "property": "C122",
   "status": "partial",
   "theorems": [
    "C122_to_file_partial",
    "C122_standard_output_refuted",
    "C122_lines",
    "C122_cpu_lines",
    "C122_roofline_lines"
   ],
   "note": "Proved for ECMCPU, both Roofline models, ECMData without penalty, and ECM and Benchmark with low verbosity and without data transfers. Refuted for all others."
  },
  {
   "property": "C123",
   "status": "partial",
   "theorems": [
    "C123_benchmark",
    "C123_standalone_partial",
    "C123_standalone_refuted",
    "C123_other_names_refuted"
   ],
   "note": "Benchmark: always below the right name, complete for the four metrics. StandaloneBenchmark: complete, right if all levels have the same metrics; refuted otherwise."
  },
  {
   "property": "C124",
   "status": "partial",
   "theorems": [
    "C124_per_line",
    "C124_total",
    "C124_bytes",
    "C124_bytes_refuted"
   ],
   "note": "Reported counts are the counters per cache line of work for every schedule and simulator, with an error exactly if levels are missing, and there are results exactly if no array is used without subscripts (given a schedule, see C24). Refuted: bytes per iteration are those of one element, not those written one after the other."
  },
  {
   "property": "C125",
   "status": "partial",
   "theorems": [
    "C125_agreement_partial",
    "C125_single_loop",
    "C125_levels_partial"
   ],
   "note": "Proved for kernels which stream (all single loops do), in loops long enough for a warm-up at their front, with a hierarchy of fully associative LRU caches in which each one gets the misses of the one above; for caches below the first one the agreement is exact if the cache holds all lines while they are used, otherwise there is a lower bound. Missing: ends of rows of nested loops, complete sweeps, elements of different size, lower caches which do not hold all lines (C136_level_refuted shows that there is a difference), caches with sets (for the first level see C138), evicts (for these see C135)."
  },
  {
   "property": "C126",
   "status": "partial",
   "theorems": [
    "C126_rates",
    "C126_unit_partial",
    "C126_roofline",
    "C126_step_refuted"
   ],
   "note": "Proved for innermost loops with step one; for any other step rates are shown to be too high by exactly the step, so the property is refuted in general."
  },
  {
   "property": "C127",
   "status": "partial",
   "theorems": [
    "C127_text_partial",
    "C127_value_partial",
    "C127_unique",
    "C127_all",
    "C127_ends",
    "C127_names_refuted"
   ],
   "note": "Proved for expressions of names, decimal integers, + - * with one or two operands and parentheses: reading is equivalent to the grammar, unique, ends, and every expression can be written. Missing: other notations sympy reads (**, /, calls, fractions). Refuted for names sympy knows."
  },
  {
   "property": "C128",
   "status": "partial",
   "theorems": [
    "C128_iterations_partial",
    "C128_elements_partial",
    "C128_sizes_partial"
   ],
   "note": "Proved for all accepted code with plain numbers, positive steps and assignments which leave indices alone (see C112 for the refuted rest), and all descriptions whose expressions have the values of those in the code. Missing: expressions not modelled in C127."
  },
  {
   "property": "C129",
   "status": "partial",
   "theorems": [
    "C129_accepted",
    "C129_required",
    "C129_types",
    "C129_other_entries",
    "C129_flops_refuted",
    "C129_list_type_refuted",
    "C129_no_arrays_refuted"
   ],
   "note": "Acceptance is equivalent to a relation listing the entries. Refuted: flops are required always, types have to be tuples, no arrays are an IndexError."
  },
  {
   "property": "C13",
   "status": "proved",
   "theorems": [
    "C13_complete",
    "C13_disjoint",
    "C13_nonnegative",
    "C13_aligned",
    "C13_access_inside",
    "C13_elements_disjoint",
    "C13_element_address",
    "C13_aligned_other_refuted"
   ],
   "note": "Alignment holds for cache lines whose size is a power of two; the refuted theorem shows other sizes are not handled."
  },
  {
   "property": "C130",
   "status": "proved",
   "theorems": [
    "C130_found_is_complete",
    "C130_installs"
   ],
   "note": "For every schedule of calls next to each other, each interrupted anywhere, with any archives; other programs may change anything outside the two locations. What the corrections of iaca.sh do to its text is a parameter."
  },
  {
   "property": "C131",
   "status": "partial",
   "theorems": [
    "C131_found_stays",
    "C131_not_repeated",
    "C131_never_again",
    "C131_interrupted_refuted",
    "C131_force_refuted",
    "C131_other_system_refuted"
   ],
   "note": "Proved: a found installation is frozen and found for ever, nothing is done without --force. Refuted: interrupted installations cannot be repeated, --force fails without an installation, programs for another system are installed and found."
  },
  {
   "property": "C132",
   "status": "partial",
   "theorems": [
    "C132_runs_installed",
    "C132_failures",
    "C132_shadowed_refuted",
    "C132_path_grows_refuted",
    "C132_manual_refuted"
   ],
   "note": "Proved if no other directory of PATH has a program of this name, also after earlier analyses. Refuted: other programs on PATH are run instead, PATH grows with each analysis, the documented place is not looked at."
  },
  {
   "property": "C133",
   "status": "partial",
   "theorems": [
    "C133_values",
    "C133_history",
    "C133_unreadable",
    "C133_replaced_refuted",
    "C133_concurrent_refuted",
    "C133_order_refuted"
   ],
   "note": "Proved for all histories of calls one after the other, each killed anywhere, keyed by file name of the binary and constants in their order. Refuted: the directory, machine and number of cores are not part of the key, the order of options is; calls at the same time lose results. Assumed of pickle: it reads what it wrote and an empty file is EOFError."
  },
  {
   "property": "C134",
   "status": "partial",
   "theorems": [
    "C134_named",
    "C134_unnamed",
    "C134_empty_refuted"
   ],
   "note": "Proved for all names without commas. Refuted: an empty name given alone stands for all regions."
  },
  {
   "property": "C135",
   "status": "partial",
   "theorems": [
    "C135_evictions",
    "C135_full",
    "C135_choice",
    "C135_prediction_partial",
    "C135_still_evictions",
    "C135_still_prediction",
    "C135_shared_refuted"
   ],
   "note": "Refuted if several elements of an array are written while the line stays in the cache: each of them is predicted to be written back. Proved: exact up to the content of the cache (n lines) for any number of lines of work if at most one element of each array is written; in general the lines written back are bounded from both sides by the written references ahead of others or replaced, and by those not kept (C135_evictions). References in arrays without the innermost index are not written back in the innermost loop (C135_still_prediction). Missing: ends of rows, caches with sets."
  },
  {
   "property": "C136",
   "status": "partial",
   "theorems": [
    "C136_lower",
    "C136_streams",
    "C136_held",
    "C136_prediction_partial",
    "C136_level_refuted"
   ],
   "note": "Refuted: a lower cache may replace lines which are in use above, so that more misses occur than predicted. Proved: for all traces no level has less misses than one cache of the lines of all levels up to it; for streams misses are bounded by the references whose line is not held since its first access; the prediction is exact if the cache holds all lines from their first to their last use. Missing: ends of rows, references which stay in the innermost loop, caches with sets."
  },
  {
   "property": "C137",
   "status": "partial",
   "theorems": [
    "C137_kernel",
    "C137_variables",
    "C137_constants",
    "C137_regions",
    "C137_indent",
    "C137_character_refuted"
   ],
   "note": "Proved for the tables of kernels, variables, constants and regions, and for indentation by blanks or longer texts; texts of expressions are given. Bounds of loops are read back if they fit into their columns or contain no blanks. Refuted for indentation with another single character, which the description of the function announces."
  },
  {
   "property": "C138",
   "status": "partial",
   "theorems": [
    "C138_hit",
    "C138_neighbour",
    "C138_miss",
    "C138_misses",
    "C138_one_set",
    "C138_prediction",
    "C138_executed_upper_partial",
    "C138_executed_lower_partial"
   ],
   "note": "Proved for kernels whose references all move with the innermost loop, in the inner loop (C138_prediction), and for source code of stencils while it is executed (C138_executed_upper_partial, C138_executed_lower_partial; the upper bound also in later rows). All arrays begin at the border of a line. Missing: iterations at ends of rows, the lower bound in later rows, evicts."
  },
  {
   "property": "C139",
   "status": "proved",
   "theorems": [
    "C139_table",
    "C139_cycles",
    "C139_aligned"
   ],
   "note": "For loads and stores which are not negative and exact numbers; entries 0 of the lists, which are nan for layer conditions, are not used by the code."
  },
  {
   "property": "C14",
   "status": "partial",
   "theorems": [
    "C14_substitutes_current_partial",
    "C14_stale_refuted"
   ],
   "note": "False of the code: a memoised substitution is used after constants have changed (refuted). Proved if the constants of a kernel are set only before its first substitution after clear_state."
  },
  {
   "property": "C140",
   "status": "partial",
   "theorems": [
    "C140_order",
    "C140_sorted",
    "C140_deterministic",
    "C140_uneven_refuted"
   ],
   "note": "Proved for integer offsets; the independence of the order in which accesses were found is refuted for tuples of different length which differ in leading zeros only, and proved for tuples of one length, which accesses to one array have. Missing: symbolic offsets."
  },
  {
   "property": "C141",
   "status": "partial",
   "theorems": [
    "C141_versions",
    "C141_same_syntax",
    "C141_written",
    "C141_aarch64",
    "C141_att",
    "C141_both_refuted",
    "C141_development_refuted"
   ],
   "note": "Refuted for development versions of OSACA, and code that both parsers accept is taken as Intel code; proved for all version numbers, parsers and codes that the interface follows the version and that markers and parsing use the same syntax. OSACA itself is a parameter of the model."
  },
  {
   "property": "C142",
   "status": "partial",
   "theorems": [
    "C142_again",
    "C142_cache_refuted"
   ],
   "note": "The second part is refuted: the option --cache has no effect. Proved for any cache, code and answers that an entered increment other than 0 is used again."
  },
  {
   "property": "C143",
   "status": "partial",
   "theorems": [
    "C143_neat_partial",
    "C143_spaces_refuted",
    "C143_executable",
    "C143_likwid",
    "C143_include_refuted",
    "C143_lflags_refuted",
    "C143_paths",
    "C143_words"
   ],
   "note": "Proved for all flags with single spaces, and for the executable for any flags; the conditions under which the program ends are exact. Refuted for other flags (an empty argument), several options in LIKWID_INCLUDE and the parameter lflags. What the compiler does with its arguments is not modelled."
  },
  {
   "property": "C144",
   "status": "partial",
   "theorems": [
    "C144_others",
    "C144_icc",
    "C144_again_refuted"
   ],
   "note": "Proved exactly for all texts; refuted that none is left: a doubled v leaves a vkmovb."
  },
  {
   "property": "C145",
   "status": "partial",
   "theorems": [
    "C145_accesses",
    "C145_distances",
    "C145_entries",
    "C145_order_refuted",
    "C145_twice_refuted",
    "C145_indices"
   ],
   "note": "Proved for any order of the references. Refuted: the result depends on the order in which sets are iterated, and an element that is both read and written counts twice."
  },
  {
   "property": "C146",
   "status": "partial",
   "theorems": [
    "C146_restored",
    "C146_order",
    "C146_directories_partial",
    "C146_unremovable_refuted",
    "C146_deep",
    "C146_invalid",
    "C146_lowered_refuted",
    "C146_threads_refuted"
   ],
   "note": "Proved for limit and order, and for directories that can be removed. Refuted: a higher limit of the caller is lowered inside the block, overlapping threads, and directories that cannot be removed."
  },
  {
   "property": "C147",
   "status": "partial",
   "theorems": [
    "C147_lines",
    "C147_body_partial",
    "C147_rest_refuted",
    "C147_directive_refuted"
   ],
   "note": "Proved for code without line directives and with matching braces. Refuted: code after a superfluous closing brace is ignored."
  },
  {
   "property": "C148",
   "status": "partial",
   "theorems": [
    "C148_declarations",
    "C148_scalars",
    "C148_new_partial",
    "C148_shared_refuted",
    "C148_extern"
   ],
   "note": "Proved for both functions: result and unchanged kernel. Returned nodes are new only with a suffix or pointers; without them the nodes of the kernel are returned."
  },
  {
   "property": "C15",
   "status": "partial",
   "theorems": [
    "C15_flops_partial",
    "C15_flops_refuted"
   ],
   "note": "Proved for statements without ++/--; with them the code counts wrongly (refuted)."
  },
  {
   "property": "C16",
   "status": "partial",
   "theorems": [
    "C16_sources_destinations",
    "C16_incdec_refuted"
   ],
   "note": "Proved for all reads and assignment targets; writes by ++/-- inside expressions are not listed (refuted)."
  },
  {
   "property": "C17",
   "status": "partial",
   "theorems": [
    "C17_mutual_exclusion_partial",
    "C17_readers_find_complete_file_partial",
    "C17_no_locking_refuted",
    "C17_removal_refuted",
    "C17_unlink_refuted",
    "C17_exclusive_granted",
    "C17_shared_granted"
   ],
   "note": "Proved for all schedules with working file locks and nobody removing files; false of the code without lock support, with --clean-intermediates and at the error exit of the in-core analysis (refuted)."
  },
  {
   "property": "C18",
   "status": "partial",
   "theorems": [
    "C18_recovery_partial",
    "C18_crash_refuted"
   ],
   "note": "False of the code: a file left by a crash while writing is used (refuted). Proved: after an input has been modified it is not used any more."
  },
  {
   "property": "C19",
   "status": "partial",
   "theorems": [
    "C19_same_file_partial",
    "C19_machine_refuted",
    "C19_machine_directory_refuted",
    "C19_block_refuted",
    "C19_flags_refuted"
   ],
   "note": "Proved for every input given to the location, for usual names; inputs that determine the content but are not given, and unusual flags, collide (refuted)."
  },
  {
   "property": "C20",
   "status": "partial",
   "theorems": [
    "C20_resolves",
    "C20_loads",
    "C20_stores",
    "C20_memory_hits",
    "C20_cancel_refuted"
   ],
   "note": "Proved whenever every distance has a sort key, for any answers of sympy; distances in which identified constants cancel make the analysis fail (refuted)."
  },
  {
   "property": "C21",
   "status": "proved",
   "theorems": [
    "C21_bigger_cache"
   ],
   "note": "For every sound oracle in place of sympy and any order of the set of tails."
  },
  {
   "property": "C22",
   "status": "proved",
   "theorems": [
    "C22_strongest",
    "C22_classified",
    "C22_classified_large",
    "C22_requirement_grows"
   ],
   "note": "Most hits among fulfilled conditions holds always; agreement with the numeric specification where the key orders distances by value, in particular for all large square problems."
  },
  {
   "property": "C23",
   "status": "partial",
   "theorems": [
    "C23_total_preorder",
    "C23_order_partial",
    "C23_separate_constants_refuted",
    "C23_negative_refuted",
    "C23_cancel_refuted"
   ],
   "note": "Proved for distances that grow and one common large value of the constants; false for constants of different magnitude, falling distances and cancelling constants (refuted)."
  },
  {
   "property": "C24",
   "status": "partial",
   "theorems": [
    "C24_valid_schedule",
    "C24_completes_partial",
    "C24_multiple_refuted",
    "C24_small_refuted"
   ],
   "note": "Every completed simulation has a valid schedule; with enough iterations the simulation completes exactly if the warm-up does not end with the last iteration, where the code aborts (refuted), as for few iterations."
  },
  {
   "property": "C25",
   "status": "partial",
   "theorems": [
    "C25_aligned_partial",
    "C25_near",
    "C25_stride_refuted",
    "C25_row_refuted",
    "C25_negative_refuted"
   ],
   "note": "Proved where accesses are linear around the iteration and steps divide cache lines; false for other steps, across row ends and for the first iterations (refuted)."
  },
  {
   "property": "C26",
   "status": "proved",
   "theorems": [
    "C26_closest",
    "C26_no_writes",
    "C26_load_required",
    "C26_maximum",
    "C26_number_of_cores"
   ],
   "note": "All tables that contain the kernel \"load\", which the code requires."
  },
  {
   "property": "C27",
   "status": "partial",
   "theorems": [
    "C27_same_cores_partial",
    "C27_fresh",
    "C27_other_cores_refuted",
    "C27_small_group_refuted"
   ],
   "note": "False of the code: the first request decides for all later ones (refuted). Proved if only one number of cores is requested, and that returned simulators are empty."
  },
  {
   "property": "C28",
   "status": "proved",
   "theorems": [
    "C28_length",
    "C28_identifier",
    "C28_unchanged",
    "C28_idempotent",
    "C28_characters"
   ],
   "note": "All texts, as lists of code points."
  },
  {
   "property": "C29",
   "status": "partial",
   "theorems": [
    "C29_parse_print",
    "C29_parse_defined",
    "C29_print_parse",
    "C29_parsed_parts",
    "C29_colon_refuted",
    "C29_keywords_refuted"
   ],
   "note": "Proved for all texts with a colon and for all tuples whose parts have no colon. Refuted otherwise: parts with colons are read differently, and the documented call eventstr(event=..., register=...) raises TypeError."
  },
  {
   "property": "C30",
   "status": "proved",
   "theorems": [
    "C30_exact"
   ],
   "note": "Every description that is a non-empty union of sequences of literals and non-empty groups; the behaviour for other texts is shown as examples."
  },
  {
   "property": "C31",
   "status": "partial",
   "theorems": [
    "C31_schedule",
    "C31_terminates",
    "C31_empty_range_refuted",
    "C31_no_register_refuted"
   ],
   "note": "Every returned result is a schedule, and it is returned after at most one pass per event if every event has a register. Refuted without this condition: an event with an empty range (PMC[3-0]) makes it loop forever, two events without register raise AttributeError."
  },
  {
   "property": "C32",
   "status": "partial",
   "theorems": [
    "C32_partial",
    "C32_refuted"
   ],
   "note": "Refuted in general: the greedy choice needs two runs for A on PMC[01] and B on PMC0. Proved minimal if the register sets of any two events are equal or disjoint."
  },
  {
   "property": "C33",
   "status": "proved",
   "theorems": [
    "C33_a64_lines",
    "C33_a64_instruction",
    "C33_first_best",
    "C33_order",
    "C33_no_blocks",
    "C33_packed",
    "C33_scores"
   ],
   "note": "For any scores compared as tuples; the x86 score is modelled and its first component characterised."
  },
  {
   "property": "C34",
   "status": "partial",
   "theorems": [
    "C34_partial",
    "C34_detects",
    "C34_scaled_base_refuted",
    "C34_other_changes_refuted",
    "C34_lea_refuted",
    "C34_constant_reference_refuted"
   ],
   "note": "Refuted in general: scaled index with moving base, other changes of the register, scaled lea, references with constant registers. Proved: advance of every reference moved only by the detected register, as index or unscaled base; simple blocks are detected. Registers are unbounded integers, AT&T operand order, x86 only."
  },
  {
   "property": "C35",
   "status": "partial",
   "theorems": [
    "C35_first",
    "C35_never",
    "C35_kept",
    "C35_no_file",
    "C35_user_partial",
    "C35_used",
    "C35_latest_refuted",
    "C35_unended_refuted",
    "C35_zero_refuted"
   ],
   "note": "Refuted: the value stored first is found, so corrections have no effect; a hand-written last line without line feed swallows the next entry; 0 is not stored. Proved: after any history of stores the first value of each block is found, also after stores for other blocks. ASCII white space, line feeds only."
  },
  {
   "property": "C36",
   "status": "proved",
   "theorems": [
    "C36_only_markers",
    "C36_auto",
    "C36_manual",
    "C36_number_refuted"
   ],
   "note": "For any parser, loop search, metric and markers (OSACA, not modelled) with distinct lines and contiguous loops. Additionally: the documented selection by number always fails with KeyError."
  },
  {
   "property": "C37",
   "status": "partial",
   "theorems": [
    "C37_composition",
    "C37_refused",
    "C37_levels",
    "C37_cache",
    "C37_cache_ok",
    "C37_memory",
    "C37_duplex_refuted",
    "C37_single_refuted"
   ],
   "note": "Composition, refusal and cycles of every level proved for all hierarchies. Refuted parts: an unknown duplexness of the memory level is silently taken for full-duplex, a hierarchy with one level ends in KeyError."
  },
  {
   "property": "C38",
   "status": "partial",
   "theorems": [
    "C38_partial",
    "C38_steps",
    "C38_incache",
    "C38_tie_refuted"
   ],
   "note": "All parts proved except the exact core count at saturation: refuted if utilization 1 is reached exactly (one core more is reported)."
  },
  {
   "property": "C39",
   "status": "partial",
   "theorems": [
    "C39_data_partial",
    "C39_data_zero",
    "C39_cpu_refuted",
    "C39_nan_refuted",
    "C39_roofline",
    "C39_roofline_zero"
   ],
   "note": "Refuted for the in-core part and the total: cycles per iteration are multiplied instead of divided by the elements per cache line; nan for kernels without operations. Proved for contributions of data transfers and for the roofline models."
  },
  {
   "property": "C40",
   "status": "proved",
   "theorems": [
    "C40_slowest",
    "C40_no_access_refuted"
   ],
   "note": "For every hierarchy, positive bandwidths and traffic of at least 0. Kernels without any array access end in TypeError (C40_no_access_refuted)."
  },
  {
   "property": "C41",
   "status": "partial",
   "theorems": [
    "C41_refuted",
    "C41_tuples",
    "C41_partial",
    "C41_report_refuted"
   ],
   "note": "Refuted: always the single precision peak, and operations per second are taken for iterations per second. Proved: the verdict is the smallest of that (wrong) peak and the levels."
  },
  {
   "property": "C42",
   "status": "partial",
   "theorems": [
    "C42_rejected",
    "C42_single",
    "C42_all",
    "C42_linear",
    "C42_logarithmic",
    "C42_base_default",
    "C42_colons",
    "C42_malformed_refuted",
    "C42_backwards_refuted",
    "C42_count_refuted",
    "C42_log_error_refuted"
   ],
   "note": "Proved for well-formed ranges. Refuted: text after a number is ignored, backward ranges are empty without an error, a count below 2 and logarithmic ranges from 0 abort."
  },
  {
   "property": "C43",
   "status": "partial",
   "theorems": [
    "C43_analyses",
    "C43_no_constants",
    "C43_once_partial",
    "C43_missing",
    "C43_option_order",
    "C43_set_order",
    "C43_models",
    "C43_override_refuted",
    "C43_once_refuted",
    "C43_defaults_refuted",
    "C43_empty_refuted",
    "C43_parser_refuted"
   ],
   "note": "Proved: exactly the product of the values per constant is analysed, once each if no value is repeated, and missing constants are rejected. Refuted: explicit values do not replace the default, repeated options repeat analyses, and others."
  },
  {
   "property": "C44",
   "status": "partial",
   "theorems": [
    "C44_identifier",
    "C44_tuples",
    "C44_stored",
    "C44_stored_refuted",
    "C44_runs_agree_partial",
    "C44_default_refuted",
    "C44_content_refuted",
    "C44_json_refuted",
    "C44_others_kept"
   ],
   "note": "Proved: equal arguments give equal identifiers, and different values different ones. Refuted: kernels without constants (TypeError), default constants (set order), content of files, name of the JSON file."
  },
  {
   "property": "C45",
   "status": "partial",
   "theorems": [
    "C45_crash",
    "C45_complete",
    "C45_broken",
    "C45_merge",
    "C45_truncated_refuted",
    "C45_concurrent_refuted",
    "C45_shared_refuted",
    "C45_merge_refuted"
   ],
   "note": "Proved for every crash point of a single run of kerncraft. Refuted for two runs at the same time, for files that end too early and for picklemerge."
  },
  {
   "property": "C46",
   "status": "partial",
   "theorems": [
    "C46_entries",
    "C46_taken",
    "C46_kept",
    "C46_nothing_else",
    "C46_errors",
    "C46_sources",
    "C46_empty_refuted"
   ],
   "note": "Proved for all nested dictionaries; refuted only for an empty dictionary replacing a leaf."
  },
  {
   "property": "C47",
   "status": "partial",
   "theorems": [
    "C47_terminates_partial",
    "C47_near_partial",
    "C47_terminates_refuted",
    "C47_negative_refuted",
    "C47_good_refuted",
    "C47_nothing_found_refuted",
    "C47_program_refuted",
    "C47_arguments"
   ],
   "note": "Proved: the search ends for positive minimal lengths and is near a switch. Refuted: the printed length need not satisfy the condition, and the program itself cannot run."
  },
  {
   "property": "C48",
   "status": "partial",
   "theorems": [
    "C48_restored",
    "C48_inside",
    "C48_environment",
    "C48_nested",
    "C48_other_refuted",
    "C48_rejected"
   ],
   "note": "The fixed variable is restored in all cases, and the whole environment is if the body changes no other variable. Refuted in full generality: changes of other variables by the body are not undone."
  },
  {
   "property": "C49",
   "status": "proved",
   "theorems": [
    "C49_result",
    "C49_linear",
    "C49_terminates",
    "C49_forever_refuted"
   ],
   "note": "Exact arithmetic instead of floating point; the first number of repetitions (9 in floating point) is any number of at least three. Additionally: it never ends if all measured runtimes are short."
  },
  {
   "property": "C50",
   "status": "partial",
   "theorems": [
    "C50_incomplete_entries",
    "C50_changed_sizes_refuted",
    "C50_finished",
    "C50_resume",
    "C50_verbose_refuted",
    "C50_difference"
   ],
   "note": "Refuted: stored sizes are never compared (sizes_dict is compared with itself), so changed caches are not noticed; with more than one -v the update always fails. Proved: incomplete entries are replaced, and after any interruptions an update ends with one result per core count."
  },
  {
   "property": "C51",
   "status": "partial",
   "theorems": [
    "C51_numeric",
    "C51_order",
    "C51_refuted"
   ],
   "note": "Proved for all versions of numbers and dots outside the series 0.8.3; the comparison is a partial order. Refuted: 0.8.3 is rejected although it is newer than the minimum 0.8.3.dev0, 0.8.3.1 raises TypeError, pre-releases of the running version count as newer."
  },
  {
   "property": "C52",
   "status": "partial",
   "theorems": [
    "C52_explicit",
    "C52_command_line",
    "C52_machine_file",
    "C52_no_compiler",
    "C52_flags",
    "C52_no_flags_refuted"
   ],
   "note": "Proved for non-empty requests. Refuted for empty flags: they do not win over the command line, and no flags are passed on as one empty flag."
  },
  {
   "property": "C53",
   "status": "partial",
   "theorems": [
    "C53_json",
    "C53_unchanged",
    "C53_entries_partial",
    "C53_elements",
    "C53_entries_refuted",
    "C53_null_refuted",
    "C53_infinity_refuted"
   ],
   "note": "Proved: the export is always a JSON value with all elements, and all entries if the texts of the keys differ. Refuted for colliding keys, None and infinity."
  },
  {
   "property": "C54",
   "status": "proved",
   "theorems": [
    "C54_no_deadlock",
    "C54_schedules_end"
   ],
   "note": ""
  },
  {
   "property": "C55",
   "status": "partial",
   "theorems": [
    "C55_constants_partial",
    "C55_other_constants_refuted",
    "C55_large_refuted"
   ],
   "note": "Proved for the same set of constants and values that fit 32 bits; a kept program built for another set of constants and larger values go wrong (refuted)."
  },
  {
   "property": "C56",
   "status": "partial",
   "theorems": [
    "C56_blocking",
    "C56_round",
    "C56_fraction_refuted",
    "C56_documentation_refuted"
   ],
   "note": "Proved for integer bases; refuted for fractional bases and for the documented example."
  },
  {
   "property": "C57",
   "status": "partial",
   "theorems": [
    "C57_current_content_partial",
    "C57_stale_content_refuted",
    "C57_inputs_can_change"
   ],
   "note": "Proved if inputs are not modified while processes run; false otherwise (refuted)."
  },
  {
   "property": "C58",
   "status": "partial",
   "theorems": [
    "C58_writing_is_exclusive",
    "C58_reading_is_locked_partial",
    "C58_reading_is_locked_refuted"
   ],
   "note": "Proved for all files but kernel.h, which is read without its lock when the benchmark program is built (refuted)."
  },
  {
   "property": "C59",
   "status": "partial",
   "theorems": [
    "C59_comparisons",
    "C59_abs_partial",
    "C59_floordiv_partial",
    "C59_mod_partial",
    "C59_division_by_zero",
    "C59_units_refuted"
   ],
   "note": "Comparisons proved for all finite values; equality ignores units (refuted); arithmetic proved for unit names that do not start with a prefix letter."
  },
  {
   "property": "C60",
   "status": "partial",
   "theorems": [
    "C60_adaptation",
    "C60_zero_runtime_refuted",
    "C60_zero_start_refuted"
   ],
   "note": "Proved for ranges with positive ends and positive runtimes. Refuted otherwise: a range starting at 0 and a runtime reported as 0.0 lead to endless repetitions. The ends of loops that depend on variables are not modelled."
  },
  {
   "property": "C61",
   "status": "partial",
   "theorems": [
    "C61_partial",
    "C61_shared_refuted"
   ],
   "note": "Refuted: regions without own configuration share one record, so all are divided by the count of the region visited last. Proved if regions sharing a configuration have the same count."
  },
  {
   "property": "C62",
   "status": "partial",
   "theorems": [
    "C62_partial",
    "C62_refuted"
   ],
   "note": "Refuted: with two incremented registers of equal increment the enumeration order of a set of strings decides. Proved if at most one register of the considered references is incremented."
  },
  {
   "property": "C63",
   "status": "partial",
   "theorems": [
    "C63_partial",
    "C63_removed_refuted",
    "C63_emptied_refuted"
   ],
   "note": "Refuted when marking in place: the file is truncated before the block is looked for, and removed if the increment is not detected. Proved: the cache is unchanged, and the output if parsing fails."
  },
  {
   "property": "C64",
   "status": "partial",
   "theorems": [
    "C64_partial",
    "C64_roundtrip",
    "C64_negative_refuted"
   ],
   "note": "Refuted for negative increments: the program ends and removes the marked assembly. Proved for increments of at least 0 if the assembly does not contain the keyword itself."
  },
  {
   "property": "C65",
   "status": "partial",
   "theorems": [
    "C65_partial",
    "C65_exact",
    "C65_ends",
    "C65_throughput",
    "C65_direction_refuted",
    "C65_small_refuted"
   ],
   "note": "Proved if the size of an element divides the increment; refuted otherwise."
  },
  {
   "property": "C66",
   "status": "proved",
   "theorems": [
    "C66_smallest",
    "C66_no_increment"
   ],
   "note": "In-core throughput and increment are parameters (see C34-C36)."
  },
  {
   "property": "C67",
   "status": "partial",
   "theorems": [
    "C67_trace_partial",
    "C67_range",
    "C67_total",
    "C67_wraps",
    "C67_strided_refuted",
    "C67_negative_refuted"
   ],
   "note": "Proved end to end (statements to addresses) for loops with step one. Refuted for other steps and for negative iterations, which wrap around."
  },
  {
   "property": "C68",
   "status": "partial",
   "theorems": [
    "C68_step",
    "C68_accepts",
    "C68_nonlinear_refuted",
    "C68_square_refuted",
    "C68_literal_refuted"
   ],
   "note": "Proved for all kernels with affine indices (at most one element per step) and exactly for usual references. Refuted for products of the loop index, and for arrays with three or more numeric sizes, which are rejected."
  },
  {
   "property": "C69",
   "status": "partial",
   "theorems": [
    "C69_reproduces",
    "C69_split",
    "C69_linear",
    "C69_literal_refuted"
   ],
   "note": "Proved for all symbolic sizes and usual indices; refuted for numeric sizes."
  },
  {
   "property": "C70",
   "status": "partial",
   "theorems": [
    "C70_distances",
    "C70_unused",
    "C70_kernel",
    "C70_total",
    "C70_classified",
    "C70_negative_refuted",
    "C70_moving_refuted"
   ],
   "note": "Proved for kernels with symbolic sizes and the same variables in each dimension, end to end with C22. Refuted for numeric sizes (negative distances) and for constant indices beside loop variables."
  },
  {
   "property": "C71",
   "status": "partial",
   "theorems": [
    "C71_partial",
    "C71_names",
    "C71_subtraction_refuted",
    "C71_scales_refuted",
    "C71_both_refuted",
    "C71_index_refuted",
    "C71_read_write_refuted",
    "C71_indexing",
    "C71_same_sum"
   ],
   "note": "Proved for chains of counters, shifts and sums which are computed once, with references that move by one register and the same scale. Refuted for a constant subtracted from a counter (wrong sign), for different scales, for references where base and index move, for an index that is no counter, and for registers which are read and written by one operand."
  },
  {
   "property": "C72",
   "status": "partial",
   "theorems": [
    "C72_no_error",
    "C72_detects",
    "C72_down_refuted"
   ],
   "note": "Proved for additions. Refuted for subtractions, which are never recorded."
  },
  {
   "property": "C73",
   "status": "partial",
   "theorems": [
    "C73_partial",
    "C73_suffix_refuted",
    "C73_difference_refuted",
    "C73_parameter_refuted",
    "C73_punctuation_refuted"
   ],
   "note": "Proved for metrics where no counter is part of another one, different counters differ by more than punctuation, and no counter is directly followed by a minus sign. Refuted otherwise."
  },
  {
   "property": "C74",
   "status": "partial",
   "theorems": [
    "C74_metric",
    "C74_counter_partial",
    "C74_registers",
    "C74_sound",
    "C74_defined",
    "C74_options_refuted",
    "C74_threads_refuted",
    "C74_name_refuted"
   ],
   "note": "Everything in the results was printed; metrics and counters of the first thread in registers with options NAME=number are read. Refuted for options without value, for further threads, and for events which are also names of metrics."
  },
  {
   "property": "C75",
   "status": "partial",
   "theorems": [
    "C75_sound",
    "C75_partial",
    "C75_distinct",
    "C75_symbols",
    "C75_output",
    "C75_refuted"
   ],
   "note": "Every value is a genuine count; every symbol has one if each event is measured in one run. The results are derived from the printed output. Refuted for events in several runs, where counts are lost."
  },
  {
   "property": "C76",
   "status": "partial",
   "theorems": [
    "C76_partial",
    "C76_missing_refuted",
    "C76_nan_refuted",
    "C76_unit_refuted"
   ],
   "note": "Proved as an exact boundary for frequencies printed in GHz. Refuted for outputs without the frequency, with nan, or without unit."
  },
  {
   "property": "C77",
   "status": "partial",
   "theorems": [
    "C77_partial",
    "C77_consistent",
    "C77_refuted"
   ],
   "note": "Proved for loops whose ranges are multiples of their increments; the rates are always consistent with each other. Refuted for other loops, with fractional iterations."
  },
  {
   "property": "C78",
   "status": "partial",
   "theorems": [
    "C78_partial",
    "C78_deterministic",
    "C78_generated",
    "C78_swap_refuted",
    "C78_names_refuted"
   ],
   "note": "Proved (simulation of the whole function call, for all memory contents and arithmetics) for kernels without swap and with distinct names. Refuted for swap, which only exchanges pointers of the function, and for a scalar named like another one with an underscore."
  },
  {
   "property": "C79",
   "status": "partial",
   "theorems": [
    "C79_trace",
    "C79_partial",
    "C79_deterministic",
    "C79_initial_value_refuted",
    "C79_swap_refuted"
   ],
   "note": "The sequence of calls and regions is proved for all kernels; initialization, memory safety and results for kernels without swap. Refuted: initial values of scalars are replaced by random numbers, and the initialization exchanges arrays."
  },
  {
   "property": "C80",
   "status": "partial",
   "theorems": [
    "C80_partial",
    "C80_printed",
    "C80_names_refuted",
    "C80_timeline_refuted"
   ],
   "note": "Proved for reports with names of letters and digits and a complete timeline; numbers behind labels for every text. Refuted for names with other characters, which are cut and merged, and for incomplete or missing timelines."
  },
  {
   "property": "C81",
   "status": "partial",
   "theorems": [
    "C81_table",
    "C81_missing",
    "C81_single_refuted"
   ],
   "note": "Proved for all tables in which a port with a subunit has two numbers. Refuted for such a port with one number, which keeps the raw text of the cell as name."
  },
  {
   "property": "C82",
   "status": "proved",
   "theorems": [
    "C82_throughput",
    "C82_ports",
    "C82_path"
   ],
   "note": "Results of the OSACA library are parameters; ports have distinct names and one load each."
  },
  {
   "property": "C83",
   "status": "partial",
   "theorems": [
    "C83_partial",
    "C83_first",
    "C83_block_refuted",
    "C83_environment_refuted"
   ],
   "note": "Proved for all histories in which one compilation is always marked with the same block and increment and linked in the same environment. Refuted for another block, increment or environment, which gets the earlier answer."
  },
  {
   "property": "C84",
   "status": "partial",
   "theorems": [
    "C84_partial",
    "C84_marking_refuted"
   ],
   "note": "Proved for failures of compiler, assembler, linker and analysis and undetected increments. Refuted for all other failures of marking: the empty file they leave ends every second call."
  },
  {
   "property": "C85",
   "status": "partial",
   "theorems": [
    "C85_collected",
    "C85_trailing_refuted",
    "C85_fraction_refuted",
    "C85_negative_refuted"
   ],
   "note": "Proved for every sequence of well-formed options. Refuted for other texts: anything behind the end is ignored, fractions leave a text instead of a loop, a negative start becomes a region."
  },
  {
   "property": "C86",
   "status": "partial",
   "theorems": [
    "C86_read",
    "C86_numbers",
    "C86_malformed_refuted",
    "C86_help_refuted",
    "C86_dot_refuted"
   ],
   "note": "Proved for well-formed descriptions. Refuted for other texts: none is rejected, the notation of the help text is read as a fixed value."
  },
  {
   "property": "C87",
   "status": "proved",
   "theorems": [
    "C87_exact",
    "C87_exit",
    "C87_information",
    "C87_variables",
    "C87_repetitions_read",
    "C87_flops_read"
   ],
   "note": "Texts are ASCII; floating point numbers are exact."
  },
  {
   "property": "C88",
   "status": "partial",
   "theorems": [
    "C88_default_partial",
    "C88_shared_partial",
    "C88_stale_refuted",
    "C88_values",
    "C88_adapted"
   ],
   "note": "Proved for loops of the default region and for loops that belong to all regions where their variable changes. Refuted in general: the loops of other regions keep their old end."
  },
  {
   "property": "C89",
   "status": "partial",
   "theorems": [
    "C89_read",
    "C89_groups",
    "C89_unequal_refuted",
    "C89_name"
   ],
   "note": "Proved for all topologies with equal groups. Refuted for groups of different size: their average is used, rounded down. Prefixed sizes are read by the modelled quantities."
  },
  {
   "property": "C90",
   "status": "partial",
   "theorems": [
    "C90_readouts_keep",
    "C90_history",
    "C90_checks",
    "C90_overwrite_refuted",
    "C90_stale_refuted"
   ],
   "note": "Proved for machines that do not change. Refuted: updates of the hierarchy without overwriting always fail; a second update does not see changes of the machine. Simplified: the topology itself does not change in a process."
  },
  {
   "property": "C91",
   "status": "partial",
   "theorems": [
    "C91_exact",
    "C91_stale_refuted",
    "C91_caches_refuted"
   ],
   "note": "Proved for the compared readouts on a machine that does not change. Refuted: caches are not compared, and changes after the second check are not seen."
  },
  {
   "property": "C92",
   "status": "proved",
   "theorems": [
    "C92_fastest",
    "C92_none",
    "C92_exit",
    "C92_read"
   ],
   "note": "Bandwidths are exact numbers. A run without output ends the program."
  },
  {
   "property": "C93",
   "status": "proved",
   "theorems": [
    "C93_exact"
   ],
   "note": "Names without white space, descriptions of one line; texts are ASCII."
  },
  {
   "property": "C94",
   "status": "partial",
   "theorems": [
    "C94_exceeds",
    "C94_fits",
    "C94_memory",
    "C94_memory_refuted",
    "C94_fits_refuted",
    "C94_partial_group_refuted"
   ],
   "note": "Proved: full groups exceed the cache before, with the exact condition for fitting and for main memory. Refuted for large previous caches, many small last caches and groups that are not full."
  },
  {
   "property": "C95",
   "status": "partial",
   "theorems": [
    "C95_numbers",
    "C95_domains",
    "C95_missing",
    "C95_memory_only_refuted"
   ],
   "note": "Proved for the numbers as shown. Refuted for the domains of machines with memory-only domains. A missing clock or name of the model is not an error."
  },
  {
   "property": "C96",
   "status": "partial",
   "theorems": [
    "C96_metric",
    "C96_counter_partial",
    "C96_info",
    "C96_sound",
    "C96_found",
    "C96_defined",
    "C96_options_refuted",
    "C96_comma_refuted",
    "C96_cut_refuted"
   ],
   "note": "Proved for metrics, information and counts in registers without options. Refuted: counts in registers with options are dropped, region names are cut at commas, an output that ends within a header is an exception."
  },
  {
   "property": "C97",
   "status": "proved",
   "theorems": [
    "C97_all",
    "C97_some",
    "C97_given"
   ],
   "note": "Regions are in the order of the output; the code uses sets."
  },
  {
   "property": "C98",
   "status": "partial",
   "theorems": [
    "C98_sound_partial",
    "C98_found_partial",
    "C98_parameters_refuted",
    "C98_options_refuted"
   ],
   "note": "Proved for events without parameters. Refuted with parameters: the count of another event is taken, or there is an exception."
  },
  {
   "property": "C99",
   "status": "partial",
   "theorems": [
    "C99_benchmark_partial",
    "C99_standalone_partial",
    "C99_levels_refuted",
    "C99_accesses_refuted",
    "C99_memory_refuted",
    "C99_duplex_refuted"
   ],
   "note": "Proved for machines with L1, L2, L3 and MEM and all metrics. Refuted for machines without L3, without L1 accesses (stand-alone), without metrics of the memory, and for full-duplex levels."
  }
 ]
}