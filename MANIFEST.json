{
 "claims": [
  {
   "property": "C01",
   "status": "proved",
   "theorems": [
    "C01_rearrange_moves",
    "C01_rearrange_returns"
   ],
   "note": "Conditions: no length called tensor, pattern or reduction (C01_rearrange_returns)"
  },
  {
   "property": "C02",
   "status": "proved",
   "theorems": [
    "C02_rearrange_permutes",
    "C02_rearrange_permutes_list"
   ],
   "note": ""
  },
  {
   "property": "C03",
   "status": "proved",
   "theorems": [
    "C03_reduce_meaning",
    "C03_unknown_reduction",
    "C03_mean_refused"
   ],
   "note": "Conditions: no length called tensor, pattern or reduction (C03_mean_refused)"
  },
  {
   "property": "C04",
   "status": "proved",
   "theorems": [
    "C04_repeat_copies",
    "C04_repeat_returns",
    "C04_repeat_minus_one_refuted"
   ],
   "note": "for frameworks that add axes by expand, sizes of new axes other than -1; C04_repeat_minus_one_refuted gives the witness. Conditions: no length called tensor, pattern or reduction (C04_repeat_returns)"
  },
  {
   "property": "C05",
   "status": "proved",
   "theorems": [
    "C05_rearrange_inverse",
    "C05_rearrange_inverse_total"
   ],
   "note": "Conditions: no axis written as the character U+2026 (C05_rearrange_inverse_total); no length called tensor, pattern or reduction (C05_rearrange_inverse_total)"
  },
  {
   "property": "C06",
   "status": "proved",
   "theorems": [
    "C06_rearrange_compose",
    "C06_rearrange_compose_total"
   ],
   "note": "Conditions: no axis written as the character U+2026 (C06_rearrange_compose_total); no length called tensor, pattern or reduction (C06_rearrange_compose_total)"
  },
  {
   "property": "C07",
   "status": "proved",
   "theorems": [
    "C07_reduce_of_repeat",
    "C07_reduce_of_repeat_total",
    "C07_copies_minmax",
    "C07_copies_any_all",
    "C07_copies_mean"
   ],
   "note": "Conditions: no -1 as the length of a new axis where the library gives it a meaning (C07_reduce_of_repeat, C07_reduce_of_repeat_total); no axis written as the character U+2026 (C07_reduce_of_repeat_total); no length called tensor, pattern or reduction (C07_reduce_of_repeat_total)"
  },
  {
   "property": "C08",
   "status": "proved",
   "theorems": [
    "C08_rearrange_accepts",
    "C08_repeat_accepts",
    "C08_reduce_accepts"
   ],
   "note": "Conditions: no length called tensor, pattern or reduction; no -1 as the length of a new axis where the library gives it a meaning (C08_repeat_accepts)"
  },
  {
   "property": "C09",
   "status": "proved",
   "theorems": [
    "C09_rearrange_failures",
    "C09_repeat_failures",
    "C09_reduce_failures",
    "C09_only_einops_error_refuted"
   ],
   "note": "the exceptions are listed exactly; C09_only_einops_error_refuted shows that each occurs. Conditions: no length called tensor, pattern or reduction"
  },
  {
   "property": "C10",
   "status": "proved",
   "theorems": [
    "C10_set_order_irrelevant",
    "C10_einmix_set_order_irrelevant",
    "C10_einmix_sorted"
   ],
   "note": ""
  },
  {
   "property": "C11",
   "status": "proved",
   "theorems": [
    "C11_history",
    "C11_rearrange",
    "C11_reduce",
    "C11_repeat",
    "C11_array_api",
    "C11_packing",
    "C11_einsum",
    "C11_symbols",
    "C11_equal_numbers_refuted"
   ],
   "note": "C11_history: any sequence of calls of reduce/rearrange/repeat (core and array API), pack, unpack, einsum gives the results computed without caches, for every size of the caches; per-function theorems hold in every reachable state of the caches (including calls by layers, clearing). Lengths are ints, or symbols for which equal means same (C11_symbols). Callables must have a hash. C11_equal_numbers_refuted: after a failing call with the length 2.0 the same call with 2 fails with TypeError (the key compares 2 == 2.0)."
  },
  {
   "property": "C12",
   "status": "proved",
   "theorems": [
    "C12_sizes_order_irrelevant"
   ],
   "note": ""
  },
  {
   "property": "C13",
   "status": "proved",
   "theorems": [
    "C13_renaming"
   ],
   "note": "Conditions: no length called tensor, pattern or reduction"
  },
  {
   "property": "C14",
   "status": "proved",
   "theorems": [
    "C14_ellipsis_written_out",
    "C14_ellipsis_dropped"
   ],
   "note": "Conditions: no axis written as the character U+2026; no length called tensor, pattern or reduction"
  },
  {
   "property": "C15",
   "status": "proved",
   "theorems": [
    "C15_redundant_space",
    "C15_layout",
    "C15_trivial_parentheses",
    "C15_calls_layout",
    "C15_calls_trivial_parentheses"
   ],
   "note": ""
  },
  {
   "property": "C16",
   "status": "proved",
   "theorems": [
    "C16_accepts",
    "C16_unambiguous",
    "C16_error",
    "C16_ellipsis_character_refuted"
   ],
   "note": "the undocumented exception (the word U+2026) is part of the specification; C16_ellipsis_character_refuted is the witness"
  },
  {
   "property": "C17",
   "status": "proved",
   "theorems": [
    "C17_list_is_stack",
    "C17_unequal_list",
    "C17_empty_list"
   ],
   "note": "Conditions: no length called tensor, pattern or reduction (C17_unequal_list)"
  },
  {
   "property": "C18",
   "status": "proved",
   "theorems": [
    "C18_array_api_agrees",
    "C18_pack",
    "C18_unpack"
   ],
   "note": "Conditions: no -1 as the length of a new axis where the library gives it a meaning (C18_array_api_agrees)"
  },
  {
   "property": "C19",
   "status": "proved",
   "theorems": [
    "C19_adding_axes_agrees",
    "C19_rearrange_agrees",
    "C19_repeat_agrees",
    "C19_reduce_agrees",
    "C19_listed_order",
    "C19_splits_sum",
    "C19_splits_minmax",
    "C19_splits_mean"
   ],
   "note": ""
  },
  {
   "property": "C20",
   "status": "proved",
   "theorems": [
    "C20_rearrange",
    "C20_reduce",
    "C20_rearrange_made",
    "C20_reduce_made",
    "C20_torch_any_refuted"
   ],
   "note": "sizes must not use the names of the functions' parameters (C20_reserved_names shows the differences); in torch the reduction must be a name other than any/all and mean of integers is left to torch: C20_torch_any_refuted is a witness that the torch layer differs from the function otherwise. More than 7 dimensions under the ellipsis: KeyError"
  },
  {
   "property": "C21",
   "status": "proved",
   "theorems": [
    "C21_rearrange",
    "C21_reduce",
    "C21_rearrange_config",
    "C21_reduce_config"
   ],
   "note": "saved state and, for keras, configuration; the restoring process may iterate over sets in other orders"
  },
  {
   "property": "C22",
   "status": "proved",
   "theorems": [
    "C22_callable",
    "C22_callable_accepted"
   ],
   "note": "Conditions: no length called tensor, pattern or reduction"
  },
  {
   "property": "C23",
   "status": "proved",
   "theorems": [
    "C23_parse_shape",
    "C23_keys",
    "C23_entries",
    "C23_errors"
   ],
   "note": ""
  },
  {
   "property": "C24",
   "status": "proved",
   "theorems": [
    "C24_pack_unpack"
   ],
   "note": ""
  },
  {
   "property": "C25",
   "status": "proved",
   "theorems": [
    "C25_unpack_pack",
    "C25_overlap_refuted"
   ],
   "note": "C25_overlap_refuted: without the condition the statement is false, unpack accepts overlapping pieces"
  },
  {
   "property": "C26",
   "status": "proved",
   "theorems": [
    "C26_pack_empty",
    "C26_pack",
    "C26_pack_succeeds",
    "C26_pack_errors"
   ],
   "note": "Conditions: no named axis of length 0 for pack to return (C26_pack is an equivalence: the condition is exact); C26_pack_empty gives the exception otherwise"
  },
  {
   "property": "C27",
   "status": "proved",
   "theorems": [
    "C27_unpack_empty",
    "C27_unpack",
    "C27_only_resolution",
    "C27_unpack_succeeds",
    "C27_unpack_exact",
    "C27_unpack_errors",
    "C27_overlap_refuted",
    "C27_negative_refuted",
    "C27_nothing_requested"
   ],
   "note": "the condition is exact; C27_overlap_refuted and C27_negative_refuted show what happens without it and without the proviso about negative numbers; C27_unpack_exact says exactly what is returned; C27_unpack_empty is about an empty named axis, where the lengths are not checked"
  },
  {
   "property": "C28",
   "status": "proved",
   "theorems": [
    "C28_accepted",
    "C28_rejected"
   ],
   "note": ""
  },
  {
   "property": "C29",
   "status": "proved",
   "theorems": [
    "C29_compactify",
    "C29_injective",
    "C29_unambiguous",
    "C29_errors",
    "C29_no_parentheses_refuted"
   ],
   "note": "numbers, () and groups of several names are rejected; parentheses around a single name or around the ellipsis are accepted (C29_no_parentheses_refuted); the exact condition is in C29_compactify"
  },
  {
   "property": "C30",
   "status": "proved",
   "theorems": [
    "C30_einsum",
    "C30_arguments",
    "C30_library"
   ],
   "note": "for libraries whose einsum computes the formula for one-letter names (einsum_contract); C30_library shows the contract can be met. Calls covered: named dimensions agree exactly, ellipsis dimensions broadcast, an ellipsis on the left needs one on the right"
  },
  {
   "property": "C31",
   "status": "proved",
   "theorems": [
    "C31_einmix",
    "C31_library"
   ],
   "note": "for element types whose addition is commutative and associative; library einsum and += as in einsum_contract and iadd_contract; lengths consistent with the input (C42: not always checked); no U+2026 in the pattern; at most 7 dimensions under the ellipsis when there are groups. How parameters are created is not modelled, their shapes are. Conditions: where a length is to be found, the other lengths of the group are not 0 (C31_einmix)"
  },
  {
   "property": "C32",
   "status": "proved",
   "theorems": [
    "C32_shapes",
    "C32_bias_broadcasts"
   ],
   "note": "Conditions: no axis written as the character U+2026"
  },
  {
   "property": "C33",
   "status": "proved",
   "theorems": [
    "C33_recipe",
    "C33_reduce",
    "C33_rearrange",
    "C33_repeat",
    "C33_unchecked_refuted"
   ],
   "note": ""
  },
  {
   "property": "C34",
   "status": "proved",
   "theorems": [
    "C34_accepts_type",
    "C34_accepts",
    "C34_imported",
    "C34_once",
    "C34_sticky",
    "C34_prefers_loaded",
    "C34_failure",
    "C34_found",
    "C34_accepts_refuted"
   ],
   "note": "acceptance of the tensor itself needs type-determined tests; C34_accepts_refuted gives a history where the Keras test, which looks at more than the type, makes the cached backend reject the tensor"
  },
  {
   "property": "C35",
   "status": "proved",
   "theorems": [
    "C35_preserves"
   ],
   "note": "the function is dead code in this version (called by tests only); model and theorem cover it for all sensible inputs"
  },
  {
   "property": "C36",
   "status": "proved",
   "theorems": [
    "C36_number_reduced",
    "C36_number_repeated"
   ],
   "note": "Conditions: no length called tensor, pattern or reduction"
  },
  {
   "property": "C37",
   "status": "proved",
   "theorems": [
    "C37_rearrange_uses",
    "C37_repeat_uses",
    "C37_reduce_uses",
    "C37_callable_uses",
    "C37_rearrange_identity"
   ],
   "note": ""
  },
  {
   "property": "C38",
   "status": "proved",
   "theorems": [
    "C38_open_grid"
   ],
   "note": ""
  },
  {
   "property": "C39",
   "status": "proved",
   "theorems": [
    "C39_left",
    "C39_left_demands",
    "C39_right"
   ],
   "note": "Conditions: no -1 as the length of a new axis where the library gives it a meaning (C39_right)"
  },
  {
   "property": "C40",
   "status": "proved",
   "theorems": [
    "C40_reduce_of_rearranged",
    "C40_reduce_nothing",
    "C40_symmetric_minmax",
    "C40_symmetric_sum",
    "C40_symmetric_mean"
   ],
   "note": ""
  },
  {
   "property": "C41",
   "status": "proved",
   "theorems": [
    "C41_einmix_accepts"
   ],
   "note": "patterns without the character U+2026"
  },
  {
   "property": "C42",
   "status": "proved",
   "theorems": [
    "C42_other_sizes_ignored",
    "C42_wrong_size_accepted"
   ],
   "note": "C42_wrong_size_accepted is a concrete case. Conditions: no axis written as the character U+2026 (C42_other_sizes_ignored)"
  },
  {
   "property": "C43",
   "status": "proved",
   "theorems": [
    "C43_accepts",
    "C43_one_framework",
    "C43_in_use",
    "C43_known_type",
    "C43_failure",
    "C43_second_try",
    "C43_imported",
    "C43_uninterrupted",
    "C43_failure_refuted",
    "C43_once_refuted",
    "C43_sticky_refuted"
   ],
   "note": "the three ways in which threads break what C34 says for one thread are theorems with witness schedules (_refuted)"
  },
  {
   "property": "C44",
   "status": "proved",
   "theorems": [
    "C44_unnoticed",
    "C44_calls",
    "C44_ends",
    "C44_bounded",
    "C44_uninterrupted"
   ],
   "note": ""
  },
  {
   "property": "C45",
   "status": "proved",
   "theorems": [
    "C45_reduce_twice",
    "C45_reduce_twice_total",
    "C45_rearrange_of_reduced",
    "C45_rearrange_of_reduced_total",
    "C45_splits_sum",
    "C45_splits_minmax",
    "C45_splits_mean"
   ],
   "note": "patterns without the character U+2026; splits and symmetric are shown for the reductions of the library (C45_splits_*, C40_symmetric_*). Conditions: no length called tensor, pattern or reduction (C45_reduce_twice_total, C45_rearrange_of_reduced_total)"
  },
  {
   "property": "C46",
   "status": "proved",
   "theorems": [
    "C46_repeat_twice",
    "C46_repeat_twice_total",
    "C46_swap"
   ],
   "note": "patterns without the character U+2026; lengths of new axes other than -1 where axes are added by expand (see C04). Conditions: no length called tensor, pattern or reduction (C46_repeat_twice_total)"
  },
  {
   "property": "C47",
   "status": "proved",
   "theorems": [
    "C47_lengths",
    "C47_flip",
    "C47_redundant",
    "C47_repeat_back"
   ],
   "note": "patterns without the character U+2026; no axis called like a parameter of the functions (no_reserved)"
  },
  {
   "property": "C48",
   "status": "proved",
   "theorems": [
    "C48_pack_one",
    "C48_pack_stack",
    "C48_unpack_one"
   ],
   "note": "unpack: named axes not empty, lib-specific negative numbers excluded (tame), new names legal and not called like a parameter of the functions"
  },
  {
   "property": "C49",
   "status": "proved",
   "theorems": [
    "C49_einsum_reduce"
   ],
   "note": "assumes the library's einsum computes the formula for single letters (einsum_contract, shown to be satisfiable), an exact sum, and an ellipsis on both sides or neither"
  },
  {
   "property": "C50",
   "status": "proved",
   "theorems": [
    "C50_library_calls",
    "C50_array_api_calls",
    "C50_nothing"
   ],
   "note": "tensor dimensions are ints (symbolic ones: C33); stacking of lists comes before (C17). Conditions: no length called tensor, pattern or reduction (C50_library_calls, C50_array_api_calls)"
  },
  {
   "property": "C51",
   "status": "proved",
   "theorems": [
    "C51_pack",
    "C51_unpack",
    "C51_round_trip",
    "C51_parse_shape",
    "C51_directions",
    "C51_unpack_tensorflow_refuted",
    "C51_parse_shape_number_refuted"
   ],
   "note": "comparison of symbols is modelled (TensorFlow 2 and keras: TypeError on the truth value; pytensor: identity); errors raised when the graph is run are not caught by unpack"
  },
  {
   "property": "C52",
   "status": "proved",
   "theorems": [
    "C52_reconstruct",
    "C52_apply",
    "C52_reduce",
    "C52_array_api",
    "C52_unchanged",
    "C52_recipes",
    "C52_cooked"
   ],
   "note": "functions of the libraries (reshape, transpose, ...) are taken not to change the lists they are given; callables are not restricted except that they cannot reach objects they are not given"
  },
  {
   "property": "C53",
   "status": "proved",
   "theorems": [
    "C53_reduce",
    "C53_array_api",
    "C53_pack",
    "C53_unpack",
    "C53_map",
    "C53_map_packed",
    "C53_map_reduced",
    "C53_zip",
    "C53_zip_reduced"
   ],
   "note": "relational parametricity for every backend, including exceptions; map, zip, linearity and min/max duality as corollaries"
  },
  {
   "property": "C54",
   "status": "proved",
   "theorems": [
    "C54_slices",
    "C54_returns",
    "C54_independent",
    "C54_list"
   ],
   "note": "slices of results are results of slices, in both directions; independence of batch elements; lists of tensors"
  },
  {
   "property": "C55",
   "status": "proved",
   "theorems": [
    "C55_product",
    "C55_order",
    "C55_linear"
   ],
   "note": "einsum in terms of repeat, product and reduce; order of operands; linearity"
  },
  {
   "property": "C56",
   "status": "proved",
   "theorems": [
    "C56_unambiguous",
    "C56_rearrange",
    "C56_reduce",
    "C56_einmix",
    "C56_einmix_config",
    "C56_einmix_config_default"
   ],
   "note": "text denotes exactly the constructor call; unambiguous; remade layers behave the same; EinMix configuration round trip. Reductions given as callables print an address and are outside"
  },
  {
   "property": "C57",
   "status": "proved",
   "theorems": [
    "C57_rearrange",
    "C57_reduce",
    "C57_einmix"
   ],
   "note": "layers on graph nodes compute the eager results for all inputs of the graph; einsum and addition of the library are parameters with a stated contract, which is met by an instance"
  },
  {
   "property": "C58",
   "status": "proved",
   "theorems": [
    "C58_rearrange",
    "C58_reduce",
    "C58_einmix"
   ],
   "note": "flax modules agree with functions (errors included) and with the keyword EinMix layer"
  },
  {
   "property": "C59",
   "status": "proved",
   "theorems": [
    "C59_same_result",
    "C59_expression",
    "C59_call",
    "C59_pack",
    "C59_no_false_alarms",
    "C59_strict",
    "C59_once",
    "C59_keywords_invalid_refuted"
   ],
   "note": "which warnings a pattern causes, in order; once per cached recipe; the docstring's claim that keywords are invalid is refuted"
  },
  {
   "property": "C60",
   "status": "proved",
   "theorems": [
    "C60_rearrange_keeps",
    "C60_rearrange",
    "C60_repeat_and_sum",
    "C60_repeat_backward",
    "C60_sum_backward"
   ],
   "note": "adjointness of rearrange with its flip and of repeat with sum; existence of the adjoint call. Conditions: no -1 as the length of a new axis where the library gives it a meaning (C60_repeat_and_sum, C60_repeat_backward); no axis written as the character U+2026 (C60_repeat_backward, C60_sum_backward); no length called tensor, pattern or reduction (C60_repeat_backward, C60_sum_backward)"
  },
  {
   "property": "C61",
   "status": "proved",
   "theorems": [
    "C61_reshape",
    "C61_transpose",
    "C61_reduce",
    "C61_concatenate",
    "C61_tile",
    "C61_repeat_elements"
   ],
   "note": "the named pattern returns the same tensor as the array function, for any rank. Conditions: no length called tensor, pattern or reduction (C61_tile, C61_repeat_elements)"
  },
  {
   "property": "C62",
   "status": "proved",
   "theorems": [
    "C62_handler",
    "C62_handler_array_api",
    "C62_handler_any"
   ],
   "note": "the model that keeps the messages agrees with the model without them, and never reads an unset variable"
  },
  {
   "property": "C63",
   "status": "proved",
   "theorems": [
    "C63_reports_are_true",
    "C63_reports_are_true_array_api",
    "C63_parse",
    "C63_recipe"
   ],
   "note": "true_of_call says for each of the 24 messages what it claims; every reported message satisfies it"
  },
  {
   "property": "C64",
   "status": "proved",
   "theorems": [
    "C64_without_asserts",
    "C64_recipe"
   ],
   "note": "model with the asserts removed equals the model"
  },
  {
   "property": "C65",
   "status": "proved",
   "theorems": [
    "C65_same_pack",
    "C65_same_unpack",
    "C65_same_parse_shape",
    "C65_same_einsum",
    "C65_pack",
    "C65_unpack",
    "C65_array_api",
    "C65_parse_shape",
    "C65_einsum",
    "C65_split_refuted"
   ],
   "note": "C65_same_*: without the messages these are the functions of the other claims; C65_split_refuted: unpack of shape (0, 5) with shapes (2,), (-1,) says that 5 cannot be split, though it can (the library refuses to infer a -1 beside an empty axis); hence the proviso in true_of_unpack"
  },
  {
   "property": "C66",
   "status": "proved",
   "theorems": [
    "C66_rearrange",
    "C66_reduce",
    "C66_einmix",
    "C66_other"
   ],
   "note": "C66_other needs that no axis is called U+2026 (the internal name of the ellipsis). Example C66_number: 'b 3 -> b 3' is refused as unknown axis, before the check for numbers is reached"
  },
  {
   "property": "C67",
   "status": "proved",
   "theorems": [
    "C67_values",
    "C67_pack_unpack_values",
    "C67_view",
    "C67_view_or_copy",
    "C67_copy",
    "C67_copy_of_list",
    "C67_write",
    "C67_unpack",
    "C67_pack",
    "C67_library"
   ],
   "note": "Assumed of the library (nocopy_ok): a reshape that returns a view keeps places and order; it returns a view when dimensions are only split, ones are added or removed, or there are no elements. C67_library: a reshape that meets this. Callables as reductions: C67_values needs them to treat an array as its elements, C67_view needs nothing. Conditions: no length called tensor, pattern or reduction (C67_view, C67_view_or_copy, C67_copy, C67_write)"
  },
  {
   "property": "C68",
   "status": "proved",
   "theorems": [
    "C68_stages"
   ],
   "note": "The laws of a semiring are hypotheses (floating point numbers do not meet them); multiplication need not commute. C68_chain: three matrices of any sizes; C68_needed: summing away a needed name changes the result"
  },
  {
   "property": "C69",
   "status": "proved",
   "theorems": [
    "C69_values",
    "C69_rearrange",
    "C69_repeat",
    "C69_reduce",
    "C69_mean",
    "C69_floats",
    "C69_pack",
    "C69_unpack"
   ],
   "note": "Promotion and the types of reductions are parameters (type_rules). If the library has no common type, stacking and concatenation fail; C69_values, C69_pack assume there is one. C69_promoted: unpack after pack does not restore the types. Conditions: no length called tensor, pattern or reduction (C69_mean)"
  },
  {
   "property": "C70",
   "status": "proved",
   "theorems": [
    "C70_einsum",
    "C70_pack",
    "C70_parse_shape",
    "C70_einmix_accepts",
    "C70_einmix_shapes",
    "C70_einmix"
   ],
   "note": "Companion of the property on names in rearrange, reduce and repeat. C70_einmix has the hypotheses of C31 (no character U+2026; at most 7 dimensions under the ellipsis when there are groups). C70_einmix_accepts supposes that neither set of names uses the four parameter names of the constructor"
  },
  {
   "property": "C71",
   "status": "proved",
   "theorems": [
    "C71_input",
    "C71_weight",
    "C71_scaled_input",
    "C71_scaled_weight",
    "C71_transposed"
   ],
   "note": "Hypotheses of C31 (no character U+2026; at most 7 dimensions under the ellipsis when there are groups). The arithmetic laws are hypotheses on the element type; floating point satisfies them only approximately. C71_transposed supposes that both layers can be made; C41 says when"
  },
  {
   "property": "C72",
   "status": "proved",
   "theorems": [
    "C72_layers",
    "C72_einmix",
    "C72_einsum",
    "C72_parse_shape",
    "C72_pack"
   ],
   "note": "Companion of C12 and C15, which are about rearrange, reduce and repeat. Includes other iteration orders of sets (C10). Nothing is assumed about the library functions"
  },
  {
   "property": "C73",
   "status": "proved",
   "theorems": [
    "C73_einsum",
    "C73_einsum_repeat",
    "C73_pack_elements",
    "C73_pack",
    "C73_unpack"
   ],
   "note": "Companion of C60 (rearrange, reduce, repeat) and C71 (EinMix). For einsum the operand has no name twice and nothing of it is broadcast; the library's einsum is assumed to meet the formula of C30. unpack with overlapping pieces (C25) is excluded. Conditions: no shape with numbers below -1 where the library accepts those (C73_unpack); no named axis of length 0 (C73_unpack)"
  },
  {
   "property": "C74",
   "status": "proved",
   "theorems": [
    "C74_session",
    "C74_no_memory",
    "C74_backend"
   ],
   "note": "Sequential (threads: C43, C44). is_appropriate_type is taken to look at the type only; backends of other packages are not defined; a tensor's framework is in sys.modules when it is used (C74_not_imported shows the need); callables can be hashed; eager tensors. EinMix layers are not part of the session"
  },
  {
   "property": "C75",
   "status": "proved",
   "theorems": [
    "C75_einsum",
    "C75_pack",
    "C75_unpack",
    "C75_einmix"
   ],
   "note": "C75_einsum, C75_pack, C75_unpack, C75_einmix. Companion of C54 (which is for rearrange, reduce and repeat). Assumes of the libraries' einsum and += only the contracts of C30 and C31; for unpack no named axis of length 0 and shapes that libraries read alike; for EinMix no statement for patterns with U+2026 and at most 7 dimensions under the ellipsis if there are groups. Conditions: no shape with numbers below -1 where the library accepts those (C75_unpack)"
  },
  {
   "property": "C76",
   "status": "proved",
   "theorems": [
    "C76_einsum",
    "C76_einsum_map",
    "C76_einmix",
    "C76_einmix_map"
   ],
   "note": "C76_einsum, C76_einsum_map, C76_einmix, C76_einmix_map. Companion of C53 (rearrange, reduce, repeat, pack on other element types). Under the contracts of C30 and C31; for EinMix no statement for patterns with U+2026 and at most 7 dimensions under the ellipsis if there are groups."
  },
  {
   "property": "C77",
   "status": "proved",
   "theorems": [
    "C77_ranges",
    "C77_symmetric",
    "C77_flax_sign",
    "C77_symmetric_refuted",
    "C77_products",
    "C77_products_refuted",
    "C77_outputs",
    "C77_once",
    "C77_negative"
   ],
   "note": "C77_ranges, C77_symmetric, C77_flax_sign, C77_symmetric_refuted (flax draws from 0 to the bound), C77_products, C77_products_refuted (the comment 'single output element is a combination of fan_in input elements' fails for 'b c d -> b' with weight 'c'), C77_outputs, C77_once, C77_negative. Elements are rational numbers, bounds are compared by their squares; rounding of the bounds to floats is not modelled. Assumes that jax.nn.initializers.uniform(b) draws from 0 to b and that keras calls build once before the first call. Conditions: no axis written as the character U+2026 (C77_ranges, C77_products, C77_outputs); at most 7 dimensions under the ellipsis of a layer (of EinMix: if a side has a group) (C77_outputs)"
  },
  {
   "property": "C78",
   "status": "proved",
   "theorems": [
    "C78_right",
    "C78_left",
    "C78_nothing",
    "C78_reduce",
    "C78_notices_sum",
    "C78_notices_minmax",
    "C78_notices_mean",
    "C78_repeat_refuted",
    "C78_unit_refuted"
   ],
   "note": "Closed under the global context. Compared are the groups of axes of the sides (so spelling, white space and unit axes written as 1 or () inside groups do not count). The difference is found with tensors that are constant except for one element. C78_repeat_refuted and C78_unit_refuted show that the hypotheses are needed. Conditions: no length called tensor, pattern or reduction (C78_right, C78_left, C78_nothing, C78_reduce)"
  },
  {
   "property": "C79",
   "status": "proved",
   "theorems": [
    "C79_rearrange_values",
    "C79_reduce_values",
    "C79_views",
    "C79_rearrange_views",
    "C79_copy",
    "C79_einmix",
    "C79_einmix_values",
    "C79_made",
    "C79_library",
    "C79_alias_refuted"
   ],
   "note": "Closed under the global context. Assumed of the library: when reshape returns views (nocopy_ok), that einsum returns a new array whose elements are at different places (einsum_in_memory; C79_library gives one), and that the sum keeps the shape (keeps_shape). C79_views needs at most 7 dimensions behind the ellipsis (the layers have no recipe for more). Conditions: no length called tensor, pattern or reduction (C79_views, C79_rearrange_views)"
  },
  {
   "property": "C80",
   "status": "proved",
   "theorems": [
    "C80_decides",
    "C80_decides_order",
    "C80_unique",
    "C80_shortest",
    "C80_unit_refuted"
   ],
   "note": "Closed under the global context. Extends C35 (the function preserves the result) by the converse. C80_unit_refuted gives two transformations with an axis of length 1 that do the same to every tensor and keep different forms."
  },
  {
   "property": "C81",
   "status": "proved",
   "theorems": [
    "C81_same_result",
    "C81_layer_first",
    "C81_layer_again",
    "C81_mix",
    "C81_empty_weight",
    "C81_bias_not_string",
    "C81_einsum",
    "C81_no_false_alarms",
    "C81_strict"
   ],
   "note": "Closed under the global context. C81_mix is about an empty cache; C81_empty_weight, C81_no_false_alarms and C81_same_result are about every cache. Conditions: no axis written as the character U+2026 (C81_mix, C81_strict)"
  },
  {
   "property": "C82",
   "status": "proved",
   "theorems": [
    "C82_answers",
    "C82_in_use",
    "C82_refused",
    "C82_second_try",
    "C82_uninterrupted",
    "C82_ends",
    "C82_never_refused_refuted"
   ],
   "note": "Closed under the global context. Assumes that a step (one access of a dict or cache) is atomic, as in C43 and C44, and that frameworks' backends can be constructed (honest). C82_never_refused_refuted is the witness that the exception is needed."
  },
  {
   "property": "C83",
   "status": "proved",
   "theorems": [
    "C83_mistakes",
    "C83_complaints",
    "C83_faults",
    "C83_layers",
    "C83_reports",
    "C83_reports_list",
    "C83_kind",
    "C83_complaint_kind",
    "C83_literal",
    "C83_quotes",
    "C83_set",
    "C83_sizes",
    "C83_texts_differ"
   ],
   "note": "Closed under the global context. Kinds are read for all mistakes except exceptions of other libraries, and for all complaints except two of unpack, whose templates begin with the pattern, and the parser's. That texts differ is for names that are strings, known reductions as strings."
  },
  {
   "property": "C84",
   "status": "proved",
   "theorems": [
    "C84_session",
    "C84_any_time"
   ],
   "note": "Closed under the global context. Assumes that a library's results are tensors of the same library (types_stay; an example shows it is needed). The parameters of a layer are what they are at the call. Flax makes its layers at each call: C58. Threads: an EinMix call is a sequence of layer calls, C82."
  },
  {
   "property": "C85",
   "status": "proved",
   "theorems": [
    "C85_pack",
    "C85_unpack"
   ],
   "note": "Closed under the global context. The proviso for unpack is needed: overlapping pieces (C25) are accepted at once but not in stages. The array_api functions are the same (C18). Conditions: no named axis of length 0 (C85_unpack)"
  },
  {
   "property": "C86",
   "status": "proved",
   "theorems": [
    "C86_recipes",
    "C86_layers",
    "C86_packing",
    "C86_einsum",
    "C86_once",
    "C86_refused",
    "C86_warm",
    "C86_plans"
   ],
   "note": "Closed under the global context. Calls one after the other (threads: C82). For plans (recipe with shape): C86_plans the first time, C86_warm later ones; what happens when plans are put out of the cache is not counted."
  },
  {
   "property": "C87",
   "status": "proved",
   "theorems": [
    "C87_same",
    "C87_same_packing",
    "C87_reduce",
    "C87_array_api",
    "C87_pack",
    "C87_unpack",
    "C87_shapes",
    "C87_shapes_array_api",
    "C87_pack_shapes",
    "C87_unpack_shapes"
   ],
   "note": "Closed under the global context. Counts elements of the tensors the library returns to einops, views included, not bytes, and not what a library allocates inside one of its functions. For an empty input the bound fails (C87_empty_case). Conditions: no length called tensor, pattern or reduction (C87_shapes, C87_shapes_array_api)"
  },
  {
   "property": "C88",
   "status": "proved",
   "theorems": [
    "C88_registered",
    "C88_once",
    "C88_imported_once",
    "C88_only_these",
    "C88_call",
    "C88_versions"
   ],
   "note": "Closed under the global context. C88_versions includes the shortcoming of comparing the first character of the version. After a first import that raised half way some functions are registered twice (C88_failed_case)."
  },
  {
   "property": "C89",
   "status": "proved",
   "theorems": [
    "C89_alone",
    "C89_ends",
    "C89_own_layers"
   ],
   "note": "Closed under the global context. The warm-up is needed: C89_warm_needed (see C82_never_refused_refuted)."
  },
  {
   "property": "C90",
   "status": "proved",
   "theorems": [
    "C90_mixes",
    "C90_decent"
   ],
   "note": "Closed under the global context. An EinMix layer of flax is made again for every call (C58) and is not in this model."
  },
  {
   "property": "C91",
   "status": "proved",
   "theorems": [
    "C91_same_outcome",
    "C91_right_stays_right",
    "C91_new_axes",
    "C91_elements",
    "C91_elements_of_lists",
    "C91_any_process",
    "C91_Reduce",
    "C91_Rearrange",
    "C91_layer_elements",
    "C91_EinMix",
    "C91_EinMix_right",
    "C91_EinMix_zero",
    "C91_silent_refuted",
    "C91_remembered_refuted"
   ],
   "note": "Closed under the global context. C91_silent_refuted and C91_remembered_refuted: einops.py:183 and 187 check lengths only if they are instances of int. The arithmetic of np.int64 is taken to be exact. What _create_parameters does with infinite bounds is a parameter of C91_EinMix (universally quantified)."
  },
  {
   "property": "C92",
   "status": "proved",
   "theorems": [
    "C92_gradients",
    "C92_change",
    "C92_unique"
   ],
   "note": "Closed under the global context. Exact arithmetic (a commutative semiring): rounding, and how a framework computes gradients, are not modelled. Conditions: at most 7 dimensions under the ellipsis of a layer (of EinMix: if a side has a group) (C92_gradients, C92_change); no axis written as the character U+2026 (C92_gradients, C92_change); where a length is to be found, the other lengths of the group are not 0 (C92_gradients, C92_change)"
  },
  {
   "property": "C93",
   "status": "proved",
   "theorems": [
    "C93_one_layer",
    "C93_biased",
    "C93_weight"
   ],
   "note": "Closed under the global context. Exact arithmetic. The limit of 52 names of einsum is never reached (each layer has at most 26). Conditions: at most 7 dimensions under the ellipsis of a layer (of EinMix: if a side has a group) (C93_one_layer, C93_biased); no axis written as the character U+2026 (C93_one_layer, C93_biased)"
  },
  {
   "property": "C94",
   "status": "proved",
   "theorems": [
    "C94_program",
    "C94_symbol"
   ],
   "note": "Closed under the global context. Symbols are of a floating type, as those of create_symbol are. What keras and pytensor do when a graph is run is a model of the libraries, not of einops."
  },
  {
   "property": "C95",
   "status": "proved",
   "theorems": [
    "C95_parse",
    "C95_round_trip",
    "C95_empty_refuted",
    "C95_remembered",
    "C95_tested",
    "C95_collect",
    "C95_listed",
    "C95_main",
    "C95_keras_refuted"
   ],
   "note": "Closed under the global context. The messages of the exceptions and what is printed are left out; os.environ is a dictionary of texts."
  },
  {
   "property": "C96",
   "status": "proved",
   "theorems": [
    "C96_tensordot",
    "C96_dense",
    "C96_trace",
    "C96_three",
    "C96_einmix_einsum",
    "C96_linear"
   ],
   "note": "Closed under the global context. The framework's einsum and += are given by their contracts (C30, C31). Conditions: at most 7 dimensions under the ellipsis of a layer (of EinMix: if a side has a group) (C96_einmix_einsum, C96_linear); no axis written as the character U+2026 (C96_einmix_einsum)"
  },
  {
   "property": "C97",
   "status": "proved",
   "theorems": [
    "C97_before",
    "C97_after",
    "C97_einsum"
   ],
   "note": "Closed under the global context. The framework's einsum and += are given by their contracts (C30, C31). Conditions: at most 7 dimensions under the ellipsis of a layer (of EinMix: if a side has a group) (C97_before, C97_after); no axis written as the character U+2026 (C97_before, C97_after); no length called tensor, pattern or reduction (C97_before, C97_after)"
  },
  {
   "property": "C98",
   "status": "proved",
   "theorems": [
    "C98_einsum_after",
    "C98_einsum_before",
    "C98_mix_after",
    "C98_mix_before"
   ],
   "note": "Closed under the global context. The framework's einsum and += are given by their contracts (C30, C31); 'sum' is the sum of the semiring. Conditions: at most 7 dimensions under the ellipsis of a layer (of EinMix: if a side has a group) (C98_mix_after, C98_mix_before); no axis written as the character U+2026 (C98_mix_after, C98_mix_before); no length called tensor, pattern or reduction (C98_mix_after, C98_mix_before)"
  },
  {
   "property": "C99",
   "status": "proved",
   "theorems": [
    "C99_values",
    "C99_rearrange",
    "C99_reduce",
    "C99_mean",
    "C99_torch",
    "C99_einsum",
    "C99_einmix"
   ],
   "note": "Closed under the global context. Types are names, as in C69; conversion, overflow and rounding of elements are outside. Conditions: at most 7 dimensions under the ellipsis of a layer (of EinMix: if a side has a group) (C99_mean); no length called tensor, pattern or reduction (C99_mean)"
  },
  {
   "property": "C100",
   "status": "proved",
   "theorems": [
    "C100_einmix",
    "C100_einsum"
   ],
   "note": "Closed under the global context. The library's einsum and += enter by their contracts, exact arithmetic (rounding is outside). Conditions: at most 7 dimensions under the ellipsis of a layer (of EinMix: if a side has a group) (C100_einmix); no axis written as the character U+2026 (C100_einmix); no length called tensor, pattern or reduction (C100_einmix)"
  },
  {
   "property": "C101",
   "status": "proved",
   "theorems": [
    "C101_layer",
    "C101_both",
    "C101_groups",
    "C101_accepts",
    "C101_saved",
    "C101_shapes"
   ],
   "note": "Closed under the global context. Conditions: no axis written as the character U+2026 (C101_groups, C101_accepts, C101_saved, C101_shapes)"
  },
  {
   "property": "C102",
   "status": "proved",
   "theorems": [
    "C102_same_reduce",
    "C102_same_rearrange",
    "C102_same_einsum",
    "C102_same_einmix",
    "C102_reduce",
    "C102_rearrange",
    "C102_shapes",
    "C102_einsum",
    "C102_einmix",
    "C102_einmix_made",
    "C102_einmix_shapes"
   ],
   "note": "Closed under the global context. What the library's einsum makes inside is outside. Conditions: at most 7 dimensions under the ellipsis of a layer (of EinMix: if a side has a group) (C102_einmix_shapes); where a length is to be found, the other lengths of the group are not 0 (C102_einmix_shapes)"
  },
  {
   "property": "C103",
   "status": "proved",
   "theorems": [
    "C103_operations",
    "C103_rearrange_layer",
    "C103_reduce_layer",
    "C103_einmix",
    "C103_einsum",
    "C103_pack",
    "C103_unpack",
    "C103_unpack_all"
   ],
   "note": "Closed under the global context. Pieces of length 0 are left out only for pack and for unpack with a -1 in a shape, which fail on them (C104_empty_pack, C104_empty_unpack). The pattern without the axis must be readable too, as in C54 and C75. Conditions: at most 7 dimensions under the ellipsis of a layer (of EinMix: if a side has a group) (C103_rearrange_layer, C103_reduce_layer, C103_einmix); no length called tensor, pattern or reduction (C103_rearrange_layer, C103_reduce_layer); no axis written as the character U+2026 (C103_einmix); no shape with numbers below -1 where the library accepts those (C103_unpack)"
  },
  {
   "property": "C104",
   "status": "proved",
   "theorems": [
    "C104_empty_operations",
    "C104_empty_choice",
    "C104_empty_rearrange_layer",
    "C104_empty_reduce_layer",
    "C104_empty_einmix",
    "C104_empty_einsum",
    "C104_empty_pack",
    "C104_empty_unpack",
    "C104_operations",
    "C104_choice",
    "C104_rearrange_layer",
    "C104_reduce_layer",
    "C104_einmix",
    "C104_einsum",
    "C104_pack",
    "C104_unpack"
   ],
   "note": "Closed under the global context. Choices are non-empty lists of indices in C104_operations and its companions; the theorems with empty in their names are about choosing nothing. For pack and unpack C104_empty_pack and C104_empty_unpack say what happens then: pack fails. The pattern without the axis must be readable too, as in C54 and C75. Conditions: at most 7 dimensions under the ellipsis of a layer (of EinMix: if a side has a group) (C104_rearrange_layer, C104_reduce_layer, C104_einmix and the same with empty); no length called tensor, pattern or reduction (C104_rearrange_layer, C104_reduce_layer and the same with empty); no axis written as the character U+2026 (C104_einmix, C104_empty_einmix); no shape with numbers below -1 where the library accepts those (C104_unpack)"
  },
  {
   "property": "C105",
   "status": "proved",
   "theorems": [
    "C105_reduce",
    "C105_array_api",
    "C105_layer",
    "C105_einmix",
    "C105_pack",
    "C105_unpack"
   ],
   "note": "Closed under the global context. What the library makes inside one of its functions is not counted. Conditions: no length called tensor, pattern or reduction (C105_reduce, C105_array_api); at most 7 dimensions under the ellipsis of a layer (of EinMix: if a side has a group) (C105_einmix); no axis written as the character U+2026 (C105_einmix); where a length is to be found, the other lengths of the group are not 0 (C105_einmix)"
  },
  {
   "property": "C106",
   "status": "proved",
   "theorems": [
    "C106_never",
    "C106_reached",
    "C106_accepted",
    "C106_same",
    "C106_flax"
   ],
   "note": "Closed under the global context."
  }
 ]
}