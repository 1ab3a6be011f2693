{
 "claims": [
  {
   "property": "C01",
   "status": "proved",
   "theorems": [
    "C01_append_is_concatenation",
    "C01_prepend_is_concatenation",
    "C01_append_prepend_any_list"
   ],
   "note": "Elements of the result are exactly the old elements followed (preceded) by the converted arguments, for lists whose elements are already converted; the any-list form converts both sides."
  },
  {
   "property": "C02",
   "status": "proved",
   "theorems": [
    "C02_append",
    "C02_append_keeps_base",
    "C02_append_without_spare",
    "C02_append_arguments",
    "C02_prepend_arguments",
    "C02_new_list",
    "C02_set_one_cell",
    "C02_earlier_list_kept_refuted",
    "C02_prepend_slice_refuted"
   ],
   "note": "append, prepend, new list and set on slices over backing arrays, for every growth policy; refuted in general with witnesses (spare capacity)"
  },
  {
   "property": "C03",
   "status": "proved",
   "theorems": [
    "C03_get_one",
    "C03_get_many",
    "C03_first_last",
    "C03_set",
    "C03_set_negative"
   ],
   "note": "Get with one or many indexes, First, Last, Set with and without growth, Set with a negative index."
  },
  {
   "property": "C04",
   "status": "proved",
   "theorems": [
    "C04_contains_exact",
    "C04_find_exact",
    "C04_strict_equality_panics",
    "C04_contains_strict_exact",
    "C04_find_strict_exact",
    "C04_contains_strict_total_refuted"
   ],
   "note": "Both the text based and the strict forms. C04_contains_strict_total_refuted: the strict form panics on uncomparable values."
  },
  {
   "property": "C05",
   "status": "proved",
   "theorems": [
    "C05_unique",
    "C05_union",
    "C05_intersect",
    "C05_without",
    "C05_unique_native_refuted"
   ],
   "note": "Unique, Union, Intersect, Without. C05_unique_native_refuted shows that a list holding an unconverted native slice is outside the law."
  },
  {
   "property": "C06",
   "status": "proved",
   "theorems": [
    "C06_remove_in_place",
    "C06_indexes_kept_refuted",
    "C06_remove_exact",
    "C06_pop_exact"
   ],
   "note": "pure result in ListProps, effect on the caller's index slice in HeapProps (with a refutation that the indexes are kept)"
  },
  {
   "property": "C07",
   "status": "proved",
   "theorems": [
    "C07_reverse",
    "C07_remove_empty",
    "C07_remove_nil",
    "C07_remove_idempotent"
   ],
   "note": "Reverse, RemoveEmpty, RemoveNil and their idempotence."
  },
  {
   "property": "C08",
   "status": "proved",
   "theorems": [
    "C08_clone_same_elements",
    "C08_clone_flattens_singleton",
    "C08_clone_same_elements_refuted"
   ],
   "note": "Clone keeps the elements unless the list is a single nested list; C08_clone_same_elements_refuted is the counterexample, C08_clone_flattens_singleton the exact behaviour."
  },
  {
   "property": "C09",
   "status": "proved",
   "theorems": [
    "C09_stored_values_are_converted",
    "C09_conversion_idempotent",
    "C09_need_conversion_exact",
    "C09_lists_hold_converted_values",
    "C09_key_collision_order_independent_refuted"
   ],
   "note": "Stored values are converted, conversion is idempotent, NeedConversion is exact. C09_key_collision_order_independent_refuted: non string keys with equal text collide and iteration order decides."
  },
  {
   "property": "C10",
   "status": "proved",
   "theorems": [
    "C10_keys",
    "C10_values",
    "C10_string",
    "C10_string_any_order",
    "C10_transpose"
   ],
   "note": "Keys, values, String and Transpose for every permutation of the entries; C10_string_any_order covers maps nested at any depth."
  },
  {
   "property": "C11",
   "status": "proved",
   "theorems": [
    "C11_get_set",
    "C11_get_many",
    "C11_has",
    "C11_default",
    "C11_flush",
    "C11_flush_all",
    "C11_pop",
    "C11_omit",
    "C11_keys_stay_distinct"
   ],
   "note": "All update laws; keys are compared by printed form. C11_omit assumes entries without a list made of one list (those are the Clone defect of C08/C15)."
  },
  {
   "property": "C12",
   "status": "proved",
   "theorems": [
    "C12_delete",
    "C12_delete_succeeds",
    "C12_delete_atomic_refuted"
   ],
   "note": "Exact outcome of Delete in both cases; C12_delete_atomic_refuted shows a failing Delete that removed a key."
  },
  {
   "property": "C13",
   "status": "proved",
   "theorems": [
    "C13_merge_recursive",
    "C13_merge_sources",
    "C13_target_wins",
    "C13_first_source_wins",
    "C13_merge_neutral",
    "C13_merge_order_independent",
    "C13_merge_associative",
    "C13_merge_associative_refuted"
   ],
   "note": "Recursive content, any number of sources, neutral elements, order independence at any depth; associativity under the stated condition, C13_merge_associative_refuted otherwise."
  },
  {
   "property": "C14",
   "status": "proved",
   "theorems": [
    "C14_merge_one_source",
    "C14_merge_many_sources",
    "C14_first_source_kept_refuted",
    "C14_shared_target_refuted"
   ],
   "note": "heap model; one and many sources; refuted for two sources and for targets sharing a dictionary"
  },
  {
   "property": "C15",
   "status": "proved",
   "theorems": [
    "C15_clone_isolated",
    "C15_clone_same",
    "C15_clone_same_refuted",
    "C15_dict_in_list_refuted"
   ],
   "note": "heap model; isolation for every later heap, content; refuted for dictionaries in lists and for lists with one list"
  },
  {
   "property": "C16",
   "status": "proved",
   "theorems": [
    "C16_add_accumulates",
    "C16_add_to_list",
    "C16_add_to_nil",
    "C16_add_keeps_existing_refuted",
    "C16_transpose"
   ],
   "note": "Add sequences, Add on a list, Add on nil; Transpose completely characterised. C16_add_keeps_existing_refuted: an existing nil is lost."
  },
  {
   "property": "C17",
   "status": "proved",
   "theorems": [
    "C17_pick",
    "C17_pickv",
    "C17_pickv_returns_picked_refuted",
    "C17_pluck_always_empty",
    "C17_pluck_returns_values_refuted"
   ],
   "note": "pick, pickv and pluck as they behave; C17_pickv_returns_picked_refuted and C17_pluck_returns_values_refuted are the counterexamples to the documented behaviour."
  },
  {
   "property": "C18",
   "status": "proved",
   "theorems": [
    "C18_native",
    "C18_fixed",
    "C18_idempotent",
    "C18_content",
    "C18_back",
    "C18_conv"
   ],
   "note": "For all values without structures and pointers (which are not modelled): the result is native at every depth, native data is unchanged, the content is the same (numbers, texts, keys), also after conversion back to any implementation, and converting first does not matter."
  },
  {
   "property": "C19",
   "status": "proved",
   "theorems": [
    "C19_json",
    "C19_yaml",
    "C19_hcl",
    "C19_map",
    "C19_range_refuted",
    "C19_null_refuted"
   ],
   "note": "For all decoded documents at all depths, with null as an empty dictionary and integral JSON floats in the int64 range as ints of the same value (the floor test is shown exact); HCL after unwrapping lists of one map; map targets receive the same content as native data. Refuted beyond int64; null and {} are confused."
  },
  {
   "property": "C20",
   "status": "proved",
   "theorems": [
    "C20_protect",
    "C20_round_trip",
    "C20_round_trip_crash_refuted",
    "C20_round_trip_text_refuted"
   ],
   "note": "Protect as a scanner with the backslash count; RestoreProtected as a left to right scan for the token pattern (regexp leftmost matches). The round trip theorem has the condition that no token text follows a backtick; two witnesses show a crash and a wrong text without it."
  },
  {
   "property": "C21",
   "status": "proved",
   "theorems": [
    "C21_index_all",
    "C21_unique",
    "C21_empty"
   ],
   "note": "Exact characterisation and uniqueness of the list of positions."
  },
  {
   "property": "C22",
   "status": "proved",
   "theorems": [
    "C22_section",
    "C22_closest",
    "C22_balanced",
    "C22_no_left",
    "C22_no_right",
    "C22_out_of_range",
    "C22_contains_position_refuted"
   ],
   "note": "The claim of the first version that the section contains the position is refuted by a witness; replaced by exact theorems for the closest and nested cases."
  },
  {
   "property": "C23",
   "status": "proved",
   "theorems": [
    "C23_word",
    "C23_unique",
    "C23_breaks",
    "C23_out_of_range"
   ],
   "note": "The classification of bytes as Latin-1 runes is modelled exactly; the theorem on breaks spells it out for ASCII."
  },
  {
   "property": "C24",
   "status": "proved",
   "theorems": [
    "C24_words",
    "C24_lines",
    "C24_width_refuted"
   ],
   "note": "Greedy grouping is characterised exactly; strings.Fields is modelled on UTF-8 runes. The width bound of the first version is refuted for indented lines."
  },
  {
   "property": "C25",
   "status": "proved",
   "theorems": [
    "C25_short",
    "C25_center",
    "C25_center_huge_refuted"
   ],
   "note": "Exact up to fmt's limit of one million per padding; refuted beyond."
  },
  {
   "property": "C26",
   "status": "proved",
   "theorems": [
    "C26_indent_lines",
    "C26_indent_compose",
    "C26_indent_nothing",
    "C26_unindent",
    "C26_unindent_keeps",
    "C26_unindent_indent",
    "C26_unindent_indent_blank_refuted"
   ],
   "note": "The undo property of the first version is refuted when the first line is blank; the proved one needs a first line that starts with a visible character."
  },
  {
   "property": "C27",
   "status": "proved",
   "theorems": [
    "C27_join_split",
    "C27_split_join",
    "C27_split2",
    "C27_split_sep",
    "C27_concat"
   ],
   "note": "Interface2string is the printed form of ValueModel."
  },
  {
   "property": "C28",
   "status": "proved",
   "theorems": [
    "C28_numbers",
    "C28_huge_width_refuted"
   ],
   "note": "For the automatic width (space <= 0) the width is a parameter of the model, because math.Log10 is not modelled."
  },
  {
   "property": "C29",
   "status": "proved",
   "theorems": [
    "C29_slice",
    "C29_slice_text",
    "C29_reverse",
    "C29_reverse_ascii",
    "C29_reverse_refuted",
    "C29_element",
    "C29_extract",
    "C29_extract_text",
    "C29_rest_initial",
    "C29_rest_initial_text",
    "C29_other",
    "C29_many",
    "C29_bad_position",
    "C29_none",
    "C29_safe_index",
    "C29_safe_index_text"
   ],
   "note": "Sections of native and non native lists and of texts for all pairs of signed positions up to 2^52 (the code clips through float min and max), given as two arguments or one list; one position; extract; rest and initial also on empty values; errors; safeIndex. Elements are converted when stored. Reversal of a text section keeps well formed characters (C29_reverse); cutting a character and reversing gives U+FFFD (C29_reverse_refuted)."
  },
  {
   "property": "C30",
   "status": "proved",
   "theorems": [
    "C30_range",
    "C30_order",
    "C30_extract",
    "C30_single",
    "C30_many",
    "C30_native",
    "C30_key_content",
    "C30_key_content_error",
    "C30_key_content_scalar",
    "C30_key_content_list"
   ],
   "note": "Key ranges ascending or descending, independent of the map order; extract with nil for missing keys; one key; more than two keys is an error for slice; native maps through their conversion; key and content of single entry maps and lists of them."
  },
  {
   "property": "C31",
   "status": "proved",
   "theorems": [
    "C31_decimal_of_hex",
    "C31_hex_of_decimal"
   ],
   "note": "hex and decimal on scalars; parse_int transcribes strconv.ParseInt base 16"
  },
  {
   "property": "C32",
   "status": "proved",
   "theorems": [
    "C32_bits",
    "C32_any_order",
    "C32_other_arguments"
   ],
   "note": "arguments are any scalars printing as integers; testbit specification, permutation invariance, errors for other texts"
  },
  {
   "property": "C33",
   "status": "proved",
   "theorems": [
    "C33_lshift",
    "C33_rshift",
    "C33_inverse",
    "C33_lists"
   ],
   "note": "all counts below 2^64; lists of two or more elements are shifted element by element"
  },
  {
   "property": "C34",
   "status": "proved",
   "theorems": [
    "C34_one_argument",
    "C34_two_arguments",
    "C34_step",
    "C34_zero_step",
    "C34_sequence_meaning",
    "C34_terminates_refuted",
    "C34_large_step_refuted",
    "C34_fractional_start_refuted"
   ],
   "note": "floats are SpecFloat binary64; exact for steps printed without dot, refuted for 1e-07 (endless loop), for a large integral step (wrong values) and for fractional bounds (rounded); make limit is a parameter"
  },
  {
   "property": "C35",
   "status": "proved",
   "theorems": [
    "C35_add",
    "C35_add_list",
    "C35_multiply",
    "C35_multiply_list",
    "C35_subtract",
    "C35_divide",
    "C35_divide_by_zero",
    "C35_modulo",
    "C35_average",
    "C35_min_max",
    "C35_exact_refuted",
    "C35_beyond_refuted"
   ],
   "note": "binary64 arithmetic from the standard library; refuted for three operands, beyond 2^53 and beyond int64"
  },
  {
   "property": "C36",
   "status": "proved",
   "theorems": [
    "C36_order",
    "C36_first",
    "C36_errors",
    "C36_errors_all",
    "C36_fallback",
    "C36_plain",
    "C36_plain_fallback",
    "C36_without",
    "C36_once",
    "C36_simplified",
    "C36_first_refuted",
    "C36_target_refuted"
   ],
   "note": "ConvertData with arbitrary decoders (functions of text and target value). Refuted parts: a text accepted as a plain string but holding one of = : { } is an error, and a failing decoder may leave its target partially written."
  },
  {
   "property": "C37",
   "status": "proved",
   "theorems": [
    "C37_order",
    "C37_script",
    "C37_text",
    "C37_tab_refuted",
    "C37_semicolon_refuted",
    "C37_dollar_refuted",
    "C37_items_refuted",
    "C37_newline_refuted"
   ],
   "note": "The shell is a small reader of assignments, declarations and quoted words (BashSpec.v); whether runes beyond ASCII are printable is a parameter. C37_order assumes that printing of opaque values does not depend on map order."
  },
  {
   "property": "C38",
   "status": "proved",
   "theorems": [
    "C38_order",
    "C38_read_back",
    "C38_injective",
    "C38_keys",
    "C38_single",
    "C38_single_refuted",
    "C38_key_refuted",
    "C38_marker_refuted",
    "C38_null_refuted",
    "C38_quote_printable",
    "C38_quote_plain",
    "C38_heredoc",
    "C38_heredoc_plain",
    "C38_heredoc_refuted",
    "C38_margin_refuted",
    "C38_document"
   ],
   "note": "Order independence for every mode; read-back for the compact internal mode (integers, texts, booleans, null, lists, maps); the layout of indented maps and of heredocs is proved against a small layout specification; the layout of indented lists is modelled but only its order independence is proved."
  },
  {
   "property": "C39",
   "status": "proved",
   "theorems": [
    "C39_lines",
    "C39_revert",
    "C39_document",
    "C39_default",
    "C39_custom_refuted",
    "C39_word_refuted"
   ],
   "note": "Default delimiters are covered by C39_default; other delimiters and lines with internal words are refuted with witnesses."
  },
  {
   "property": "C40",
   "status": "proved",
   "theorems": [
    "C40_failed",
    "C40_ends",
    "C40_lenient",
    "C40_first",
    "C40_values",
    "C40_values_hidden",
    "C40_values_refuted",
    "C40_stopped",
    "C40_handler",
    "C40_plain",
    "C40_changed_refuted",
    "C40_script",
    "C40_options"
   ],
   "note": "The engine, its diagnosis, razor rewriting and substitutions are arbitrary functions; stack depth is a parameter of the recursion."
  },
  {
   "property": "C41",
   "status": "proved",
   "theorems": [
    "C41_strict",
    "C41_meant_refuted"
   ],
   "note": "Exact list of strict extensions; the unintended ones are shown by C41_meant_refuted."
  },
  {
   "property": "C42",
   "status": "proved",
   "theorems": [
    "C42_untouched",
    "C42_failed",
    "C42_frame",
    "C42_readable",
    "C42_elsewhere",
    "C42_template",
    "C42_final",
    "C42_overwrite_refuted",
    "C42_outside_refuted",
    "C42_names_refuted"
   ],
   "note": "Crash points are the instants of the instant relation; the hypothesis usual is shown to be needed by two refutations."
  },
  {
   "property": "C43",
   "status": "proved",
   "theorems": [
    "C43_twice"
   ],
   "note": "For any engine, handler and options of the two runs."
  },
  {
   "property": "C44",
   "status": "proved",
   "theorems": [
    "C44_extension",
    "C44_suffixes",
    "C44_plain",
    "C44_template",
    "C44_injective",
    "C44_collision_refuted"
   ],
   "note": "Extension, suffix removal, plain and template names, injectivity of generated names; collision of x.tf.gt and x.tf.template refuted."
  },
  {
   "property": "C45",
   "status": "proved",
   "theorems": [
    "C45_batch",
    "C45_nothing",
    "C45_folder",
    "C45_option_refuted"
   ],
   "note": "Panics end the batch, as in Go."
  },
  {
   "property": "C46",
   "status": "proved",
   "theorems": [
    "C46_razor",
    "C46_code",
    "C46_razor_code"
   ],
   "note": "Exact characterisation of IsRazor and IsCode by the substring relation."
  },
  {
   "property": "C47",
   "status": "proved",
   "theorems": [
    "C47_table",
    "C47_order",
    "C47_runs",
    "C47_reachable",
    "C47_add_functions",
    "C47_shared_refuted",
    "C47_chain_refuted",
    "C47_again",
    "C47_consistent",
    "C47_again_refuted",
    "C47_list",
    "C47_list_order",
    "C47_sprig",
    "C47_sprig_refuted"
   ],
   "note": "Full statement, for all orders Go allows when entries are inserted during the loop; also AddFunctions, the sorted list and the table of sprig functions. The conditions are needed (C47_shared_refuted, C47_chain_refuted); the real sprig table violates them (C47_sprig_refuted)."
  },
  {
   "property": "C48",
   "status": "proved",
   "theorems": [
    "C48_restored",
    "C48_option",
    "C48_argument",
    "C48_args",
    "C48_grows",
    "C48_retry",
    "C48_option_refuted",
    "C48_after_include_refuted",
    "C48_effects_refuted",
    "C48_razor_refuted",
    "C48_inline_refuted",
    "C48_cyclic",
    "C48_twice_refuted",
    "C48_undefined"
   ],
   "note": "The engine is any program that reads and writes the dictionaries and runs other templates; the heap is explicit. C48_argument has the condition that the argument and the new context have no dictionary under the same name (C48_grows holds without it). Refuted: the option missingkey is not restored (C48_option_refuted) and a name of the context is no longer found after an inner include (C48_after_include_refuted); effects of the failed first attempt are there twice (C48_effects_refuted); razor is applied to its own output (C48_razor_refuted); the text inline runs the last text (C48_inline_refuted); an included template that includes twice with its own dictionary overflows the stack (C48_twice_refuted)."
  },
  {
   "property": "C49",
   "status": "proved",
   "theorems": [
    "C49_settings",
    "C49_unknown",
    "C49_definition",
    "C49_defined",
    "C49_settings_refuted",
    "C49_blank_refuted",
    "C49_dictionary",
    "C49_text",
    "C49_positional",
    "C49_restored",
    "C49_number_refuted",
    "C49_leak_refuted",
    "C49_argument_leak_refuted",
    "C49_outer_refuted"
   ],
   "note": "Configuration (settings, kinds, defaults, first words) on values, calls on the heap with sharing; ConvertData is a parameter. Refuted: a setting given under two names depends on the order of the map (C49_settings_refuted); a blank argument name panics (C49_blank_refuted); a single text is turned into data unless exactly one argument is declared (C49_number_refuted); nested defaults keep what the first call found in its context (C49_leak_refuted); the argument is filled in (C49_argument_leak_refuted); a call from an included template makes the outer context cyclic (C49_outer_refuted)."
  },
  {
   "property": "C50",
   "status": "proved",
   "theorems": [
    "C50_command",
    "C50_operand",
    "C50_unambiguous",
    "C50_translated",
    "C50_refused",
    "C50_star_refuted",
    "C50_method_refuted",
    "C50_twice_refuted",
    "C50_literal_refuted"
   ],
   "note": "The text of every expression in the class `fine` reads back, under the argument grammar of text/template, as the prefix call tree of the expression, both as a command and as an operand; texts of different call trees differ; expressions of unknown kinds or operators are refused with an error and never panic. Refuted: stars inside literals of a right operand of a product, methods of the current context with arguments as operands, calling the result of a call, a field of a literal."
  },
  {
   "property": "C51",
   "status": "proved",
   "theorems": [
    "C51_words",
    "C51_dollars",
    "C51_placeholder_refuted",
    "C51_literal_refuted",
    "C51_single_refuted",
    "C51_slice_refuted",
    "C51_symbols_refuted"
   ],
   "note": "Words come back in whatever order, dollar signs after expansion; placeholder-like text, dollar signs in literals, variable slice and symbol order refuted."
  },
  {
   "property": "C52",
   "status": "proved",
   "theorems": [
    "C52_aside",
    "C52_back",
    "C52_document",
    "C52_together",
    "C52_no_crash",
    "C52_fence_refuted",
    "C52_form_refuted",
    "C52_copy_refuted",
    "C52_race_refuted"
   ],
   "note": "Put aside, restored in any arrangement, whole documents, interleaved calls; fence, placeholder form, copy and race refuted."
  },
  {
   "property": "C53",
   "status": "proved",
   "theorems": [
    "C53_precedence",
    "C53_total",
    "C53_required",
    "C53_optional",
    "C53_dropped",
    "C53_null",
    "C53_null_refuted",
    "C53_text_refuted",
    "C53_order",
    "C53_order_refuted",
    "C53_base",
    "C53_base_total"
   ],
   "note": "createContext: the sources of a command line in order, the last value of a name wins, the type of the context is the one of the first source; required, optional and dropped sources; null values panic; independence of the iteration order for data without an empty name. LoadData, ConvertData and the file system are parameters (class Files, decode_map); a name ending with a slash is assumed not to be readable as a file."
  },
  {
   "property": "C54",
   "status": "proved",
   "theorems": [
    "C54_trim",
    "C54_patterns",
    "C54_patterns_app",
    "C54_patterns_order",
    "C54_no_pattern",
    "C54_exclude",
    "C54_kept"
   ],
   "note": "exclude and extend with arbitrary filepath.Abs and doublestar.PathMatch functions, which may fail."
  },
  {
   "property": "C55",
   "status": "proved",
   "theorems": [
    "C55_search",
    "C55_complete",
    "C55_panics",
    "C55_recursive",
    "C55_flat",
    "C55_sound",
    "C55_loop",
    "C55_terminates_refuted",
    "C55_all_found_refuted"
   ],
   "note": "Without links the results are exactly the matches of the folder and of its sub-folders down to the depth, in walk order, up to the first folder for which Glob fails; nothing else is ever found; a link to the searched folder never ends (C55_loop, C55_terminates_refuted); a folder name that is a malformed pattern ends the search silently (C55_all_found_refuted)."
  },
  {
   "property": "C56",
   "status": "proved",
   "theorems": [
    "C56_set",
    "C56_last_wins",
    "C56_default",
    "C56_isolated",
    "C56_child",
    "C56_fresh",
    "C56_cached",
    "C56_folder"
   ],
   "note": "Options in a heap of templates, any history of NewContext/SetOption; isolation, inheritance, freshness, cache."
  },
  {
   "property": "C57",
   "status": "proved",
   "theorems": [
    "C57_iif",
    "C57_default",
    "C57_if_undef"
   ],
   "note": "All three helpers; which opaque values are nil pointers is a parameter."
  },
  {
   "property": "C58",
   "status": "proved",
   "theorems": [
    "C58_kept",
    "C58_added",
    "C58_twice",
    "C58_keys",
    "C58_all",
    "C58_all_refuted",
    "C58_native_refuted"
   ],
   "note": "User entries kept, only missing constants added, idempotent; two refuted full forms with witnesses."
  },
  {
   "property": "C59",
   "status": "proved",
   "theorems": [
    "C59_replace",
    "C59_delete",
    "C59_delete_lines",
    "C59_refuse",
    "C59_refuse_blank",
    "C59_separator_refuted",
    "C59_latin",
    "C59_all",
    "C59_order"
   ],
   "note": "InitReplacers and Substitute with an arbitrary regular expression engine. Refuted: separators that are not ASCII are refused."
  },
  {
   "property": "C60",
   "status": "proved",
   "theorems": [
    "C60_repeat",
    "C60_format_list",
    "C60_format_list_arguments",
    "C60_format_list_length_refuted",
    "C60_merge_lists_concatenates"
   ],
   "note": "repeat, MergeLists, FormatList; C60_format_list_length_refuted for a list made of one list."
  },
  {
   "property": "C61",
   "status": "proved",
   "theorems": [
    "C61_get",
    "C61_has_key",
    "C61_no_dictionary",
    "C61_create_dict",
    "C61_create_dict_odd"
   ],
   "note": "get, hasKey, createDict for all values that convert to a dictionary."
  },
  {
   "property": "C62",
   "status": "proved",
   "theorems": [
    "C62_contains_list",
    "C62_contains_swapped",
    "C62_contains_substring",
    "C62_never_panics"
   ],
   "note": "All argument shapes."
  },
  {
   "property": "C63",
   "status": "proved",
   "theorems": [
    "C63_one",
    "C63_order"
   ],
   "note": "globFunc on texts with an arbitrary filepath.Glob."
  },
  {
   "property": "C64",
   "status": "proved",
   "theorems": [
    "C64_clean",
    "C64_clean_unique",
    "C64_join",
    "C64_rel",
    "C64_target_relative",
    "C64_target_absolute",
    "C64_target_unrelated",
    "C64_target_none",
    "C64_target_same",
    "C64_injective",
    "C64_injective_refuted"
   ],
   "note": "filepath Clean/Join/Rel against walking in a tree of folders; place and injectivity of target files, refuted outside of the source folder."
  },
  {
   "property": "C65",
   "status": "proved",
   "theorems": [
    "C65_only",
    "C65_other",
    "C65_merge_refuted"
   ],
   "note": "Frame theorem for Template.Merge and a refutation: nothing is merged."
  },
  {
   "property": "C66",
   "status": "proved",
   "theorems": [
    "C66_one",
    "C66_two",
    "C66_three",
    "C66_more",
    "C66_nonempty"
   ],
   "note": "Equations for one, two and three delimiters, more are refused, never empty."
  },
  {
   "property": "C67",
   "status": "proved",
   "theorems": [
    "C67_printed",
    "C67_code"
   ],
   "note": "The panic comes from a type assertion of *os.File to string."
  },
  {
   "property": "C68",
   "status": "proved",
   "theorems": [
    "C68_words",
    "C68_adjacent_refuted"
   ],
   "note": "Simultaneous replacement in every order when no two words are adjacent; adjacent words refuted."
  },
  {
   "property": "C69",
   "status": "proved",
   "theorems": [
    "C69_script",
    "C69_parts",
    "C69_other",
    "C69_mode",
    "C69_file",
    "C69_file_known",
    "C69_file_words",
    "C69_text",
    "C69_known",
    "C69_unknown",
    "C69_shell",
    "C69_options_refuted",
    "C69_line_refuted",
    "C69_arguments_refuted",
    "C69_silent_refuted",
    "C69_no_shell_refuted"
   ],
   "note": "exec.LookPath, filepath.Glob and the name of the temporary file are parameters; the regular expression is transcribed and matched by a backtracking matcher (ReModel.v). C69_text and C69_shell are for programs of visible ASCII characters."
  },
  {
   "property": "C70",
   "status": "proved",
   "theorems": [
    "C70_mail",
    "C70_not_mail",
    "C70_reference_documents",
    "C70_keyword_prefix_refuted",
    "C70_full_stop_refuted",
    "C70_underscore_refuted",
    "C70_text_kept_refuted"
   ],
   "note": "the full table of 165 compiled replacements on documents of text, references and escapes; replacements with a parser are parameters and shown not to be reached"
  },
  {
   "property": "C71",
   "status": "proved",
   "theorems": [
    "C71_template_delimiters_refuted"
   ],
   "note": "refuted by a witness; an example of a razor delimiter that works"
  },
  {
   "property": "C72",
   "status": "proved",
   "theorems": [
    "C72_guard",
    "C72_assignments"
   ],
   "note": "all documents of lines of text and assignments; conditions as predicates on the text; go/parser is a parameter with one property assumed, satisfied by a given parser"
  },
  {
   "property": "C73",
   "status": "proved",
   "theorems": [
    "C73_spacing_refuted",
    "C73_hyphen_refuted",
    "C73_slice_refuted",
    "C73_keyword_target_refuted",
    "C73_untranslated_refuted"
   ],
   "note": "refutations: witnesses for spacing, hyphens, slice, end/else and untranslatable expressions"
  },
  {
   "property": "C74",
   "status": "proved",
   "theorems": [
    "C74_one_line",
    "C74_other_errors",
    "C74_running",
    "C74_raising",
    "C74_parsing",
    "C74_unclosed",
    "C74_variable",
    "C74_elsewhere",
    "C74_missing",
    "C74_default",
    "C74_condition",
    "C74_reported"
   ],
   "note": "The handler is modelled completely apart from traces; messages of text/template are texts of the documented form."
  },
  {
   "property": "C75",
   "status": "proved",
   "theorems": [
    "C75_second_refuted",
    "C75_test_refuted",
    "C75_blank_refuted",
    "C75_column_refuted",
    "C75_lines_refuted",
    "C75_text_refuted",
    "C75_variable_refuted",
    "C75_end_refuted",
    "C75_script_refuted"
   ],
   "note": "Refutations by computation; messages of text/template in the witnesses as the engine writes them."
  },
  {
   "property": "C76",
   "status": "proved",
   "theorems": [
    "C76_found",
    "C76_none",
    "C76_first",
    "C76_groups",
    "C76_leftmost",
    "C76_nowhere",
    "C76_replace",
    "C76_replace_only",
    "C76_template",
    "C76_named",
    "C76_unknown",
    "C76_numbered",
    "C76_syntax"
   ],
   "note": "Engine of regular expressions proved against an independent specification: existence and choice of the match, groups, leftmost search, replacement, templates, reading of the syntax. An empty round of a repetition ends it; unsupported syntax is not read."
  },
  {
   "property": "C77",
   "status": "proved",
   "theorems": [
    "C77_blocks"
   ],
   "note": "whole table on documents with blocks and assignments; go/parser is a parameter as in C72; block, define and the single-line commands are not covered"
  },
  {
   "property": "C78",
   "status": "proved",
   "theorems": [
    "C78_elseif_refuted",
    "C78_semicolon_refuted",
    "C78_end_word_refuted",
    "C78_blanks_refuted",
    "C78_loop_variable_refuted"
   ],
   "note": "refutations by witnesses"
  },
  {
   "property": "C79",
   "status": "proved",
   "theorems": [
    "C79_id",
    "C79_always",
    "C79_default",
    "C79_remains"
   ],
   "note": "For ASCII replacements without * | ^ $; C80 shows what happens with these."
  },
  {
   "property": "C80",
   "status": "proved",
   "theorems": [
    "C80_identifier_refuted",
    "C80_empty_refuted",
    "C80_star_refuted",
    "C80_signs_refuted",
    "C80_dollar_refuted"
   ],
   "note": "Refutations: a valid Go identifier is not guaranteed, * panics, | ^ $ change valid texts."
  },
  {
   "property": "C81",
   "status": "proved",
   "theorems": [
    "C81_set",
    "C81_unset",
    "C81_either_side",
    "C81_error",
    "C81_native",
    "C81_stored"
   ],
   "note": "Heap of maps with native containers; the stack is bounded by any number above the depth of the data."
  },
  {
   "property": "C82",
   "status": "proved",
   "theorems": [
    "C82_lost",
    "C82_set_refuted",
    "C82_unset_refuted",
    "C82_nil_refuted",
    "C82_cycle_refuted"
   ],
   "note": "C82_lost is universal; the refutations give concrete maps."
  },
  {
   "property": "C83",
   "status": "proved",
   "theorems": [
    "C83_filter",
    "C83_found",
    "C83_order",
    "C83_groups",
    "C83_lines",
    "C83_columns",
    "C83_details",
    "C83_description_refuted"
   ],
   "note": "Listing of functions over the table of C47; the description part is refuted for names taken by later aliases."
  },
  {
   "property": "C84",
   "status": "proved",
   "theorems": [
    "C84_protected",
    "C84_restored",
    "C84_call",
    "C84_called",
    "C84_missing",
    "C84_ends",
    "C84_options"
   ],
   "note": "For every behaviour of the file system and of the engine (parameters); kingpin is not modelled."
  },
  {
   "property": "C85",
   "status": "proved",
   "theorems": [
    "C85_overwrite",
    "C85_overwrite_refuted",
    "C85_flag_refuted",
    "C85_mark_refuted",
    "C85_base_refuted"
   ],
   "note": "Refutations of the documentation of flags; C85_overwrite holds for all runs."
  },
  {
   "property": "C86",
   "status": "proved",
   "theorems": [
    "C86_call",
    "C86_error"
   ],
   "note": "For every engine and every reader of data (parameters)."
  },
  {
   "property": "C87",
   "status": "proved",
   "theorems": [
    "C87_type_refuted",
    "C87_code_refuted",
    "C87_nil",
    "C87_nil_refuted"
   ],
   "note": "Refutations of the description of ellipsis; C87_nil holds for all functions."
  },
  {
   "property": "C88",
   "status": "proved",
   "theorems": [
    "C88_data",
    "C88_string_refuted"
   ],
   "note": "For every engine and every reader of data (parameters)."
  },
  {
   "property": "C89",
   "status": "proved",
   "theorems": [
    "C89_name",
    "C89_prefix",
    "C89_list"
   ],
   "note": "Delimiters that mean nothing in a regular expression; names of ASCII letters, digits and underscores."
  },
  {
   "property": "C90",
   "status": "proved",
   "theorems": [
    "C90_order_refuted",
    "C90_alternative_refuted",
    "C90_delimiter_refuted",
    "C90_letter_refuted"
   ],
   "note": "Refutations with witnesses."
  },
  {
   "property": "C91",
   "status": "proved",
   "theorems": [
    "C91_env",
    "C91_underscore_refuted"
   ],
   "note": "ConvertData is a parameter."
  },
  {
   "property": "C92",
   "status": "proved",
   "theorems": [
    "C92_document",
    "C92_others",
    "C92_arguments",
    "C92_list",
    "C92_quotes_refuted",
    "C92_empty_refuted",
    "C92_environment_refuted"
   ],
   "note": "Quoted texts without escaped quotes; the printing of lists by JSON is not modelled. C92_quotes_refuted, C92_empty_refuted and C92_environment_refuted are refutations."
  },
  {
   "property": "C93",
   "status": "proved",
   "theorems": [
    "C93_command",
    "C93_exec"
   ],
   "note": "Processes, the file system, templates and ConvertData are parameters."
  },
  {
   "property": "C94",
   "status": "proved",
   "theorems": [
    "C94_razor_refuted",
    "C94_arguments_refuted",
    "C94_retry_refuted",
    "C94_include",
    "C94_included",
    "C94_include_refuted"
   ],
   "note": "C94_include and C94_included hold for all engines; C94_razor_refuted, C94_arguments_refuted, C94_retry_refuted and C94_include_refuted are refutations."
  },
  {
   "property": "C95",
   "status": "proved",
   "theorems": [
    "C95_save",
    "C95_folder",
    "C95_missing",
    "C95_load",
    "C95_fails",
    "C95_nil_refuted"
   ],
   "note": "A file system without links and groups; C95_nil_refuted is a refutation."
  },
  {
   "property": "C96",
   "status": "proved",
   "theorems": [
    "C96_there",
    "C96_missing",
    "C96_user_refuted",
    "C96_exists_refuted"
   ],
   "note": "C96_user_refuted and C96_exists_refuted are refutations."
  },
  {
   "property": "C97",
   "status": "proved",
   "theorems": [
    "C97_loaded",
    "C97_complete",
    "C97_one_folder",
    "C97_any_folder",
    "C97_files",
    "C97_override_refuted"
   ],
   "note": "Definitions registered by a file are arbitrary; C97_override_refuted is a refutation."
  },
  {
   "property": "C98",
   "status": "proved",
   "theorems": [
    "C98_context",
    "C98_folders",
    "C98_names_refuted"
   ],
   "note": "C98_names_refuted is a refutation."
  },
  {
   "property": "C99",
   "status": "proved",
   "theorems": [
    "C99_calls",
    "C99_unparsed"
   ],
   "note": "Conditions in CallSpec.v; what they leave out is in C100. The parser of Go expressions is a parameter as in C72."
  },
  {
   "property": "C100",
   "status": "proved",
   "theorems": [
    "C100_text_taken_refuted",
    "C100_text_breaks_refuted",
    "C100_underscore_refuted",
    "C100_keyword_refuted",
    "C100_indent_refuted",
    "C100_quotes_refuted"
   ],
   "note": "Refutations."
  },
  {
   "property": "C101",
   "status": "proved",
   "theorems": [
    "C101_parameters",
    "C101_names",
    "C101_method",
    "C101_result",
    "C101_own_text",
    "C101_signature",
    "C101_alias_listed",
    "C101_replaced",
    "C101_listed_all",
    "C101_alias_hidden_refuted"
   ],
   "note": "The aliases of functions with a text of their own are hidden (refuted)."
  },
  {
   "property": "C102",
   "status": "proved",
   "theorems": [
    "C102_categories",
    "C102_order",
    "C102_determined"
   ],
   "note": "All the groups of the table are covered."
  },
  {
   "property": "C103",
   "status": "proved",
   "theorems": [
    "C103_list",
    "C103_strict",
    "C103_text",
    "C103_nothing",
    "C103_contains",
    "C103_strict_text_refuted",
    "C103_empty_refuted"
   ],
   "note": "The strict search in a text and the empty text are refuted."
  },
  {
   "property": "C104",
   "status": "proved",
   "theorems": [
    "C104_error",
    "C104_warning"
   ],
   "note": "The formatting of the message is a parameter."
  },
  {
   "property": "C105",
   "status": "proved",
   "theorems": [
    "C105_kind",
    "C105_unknown",
    "C105_size",
    "C105_no_size",
    "C105_shell",
    "C105_shell_fixed",
    "C105_env"
   ],
   "note": "The generated texts are not modelled."
  },
  {
   "property": "C106",
   "status": "proved",
   "theorems": [
    "C106_lines",
    "C106_folder_refuted"
   ],
   "note": "A folder that is not absolute can make it panic (refuted)."
  },
  {
   "property": "C107",
   "status": "proved",
   "theorems": [
    "C107_blank",
    "C107_document",
    "C107_value",
    "C107_error",
    "C107_nothing",
    "C107_no_panic"
   ],
   "note": "The decoder is a parameter."
  },
  {
   "property": "C108",
   "status": "proved",
   "theorems": [
    "C108_completed",
    "C108_always",
    "C108_plain"
   ],
   "note": "Nested brackets are outside of the theorem."
  },
  {
   "property": "C109",
   "status": "proved",
   "theorems": [
    "C109_folders",
    "C109_second",
    "C109_absent",
    "C109_cause_refuted"
   ],
   "note": "The error of the command is lost (refuted)."
  },
  {
   "property": "C110",
   "status": "proved",
   "theorems": [
    "C110_struct",
    "C110_two_keys",
    "C110_last_keys",
    "C110_error",
    "C110_key_refuted",
    "C110_nil_refuted"
   ],
   "note": "The loss of fields beside a key and the panic for a null field are refuted."
  }
 ]
}