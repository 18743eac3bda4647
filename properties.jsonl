{"id": "C01", "title": "rearrange puts every element where the pattern says", "statement": "If rearrange(x, 'L -> R', **sizes) returns y, then there is exactly one way to give every axis of the pattern a length that agrees with x.shape, the numbers written in the pattern and the sizes; y.shape is the list of products of the right-hand groups; and for every assignment of an index to every axis, y at the (C-order) positions of the right-hand groups equals x at the positions of the left-hand groups.", "quantifier": "every pattern string, every tensor of every rank/shape/element type, every set of keyword sizes, every index assignment. Conditions: no length called tensor, pattern or reduction (C01_rearrange_returns)", "why_tests_cant": "infinitely many patterns, shapes and index tuples; tests sample a few dozen patterns on small shapes", "anchors": ["einops/einops.py:rearrange", "einops/einops.py:reduce", "einops/einops.py:_prepare_transformation_recipe", "einops/einops.py:_reconstruct_from_shape_uncached", "einops/einops.py:_apply_recipe", "einops/parsing.py:ParsedExpression"]}
{"id": "C02", "title": "rearrange neither loses, duplicates nor invents elements", "statement": "The flat content of rearrange(x, ...) is a permutation of the flat content of x (same multiset, same number of elements).", "quantifier": "every successful rearrange call", "why_tests_cant": "a lost or duplicated element can hide in any untested shape/pattern", "anchors": ["einops/einops.py:rearrange", "einops/einops.py:_apply_recipe"]}
{"id": "C03", "title": "reduce aggregates exactly the named axes", "statement": "If reduce(x, 'L -> R', op, **sizes) returns y for a built-in op, then y.shape is the list of products of the right-hand groups and, for every assignment of indices to right-hand axes, y there equals op applied to the list of x's elements obtained by letting precisely the axes that are missing on the right run over all their values (in C-order of the left side), all other axes fixed.", "quantifier": "every pattern, tensor, built-in reduction and index assignment. Conditions: no length called tensor, pattern or reduction (C03_mean_refused)", "why_tests_cant": "the set of (pattern, shape, op) is unbounded", "anchors": ["einops/einops.py:reduce", "einops/einops.py:_reduce_axes", "einops/einops.py:_apply_recipe"]}
{"id": "C04", "title": "repeat copies exactly along the new axes", "statement": "If repeat(x, 'L -> R', **sizes) returns y, then for every assignment of indices to all axes (old and new), y at the right-hand position equals x at the left-hand position: the value does not depend on the new axes' indices; new axes have exactly the requested lengths. (Where the framework adds axes with expand, a new axis of length -1 is outside this property: it is silently accepted and gets length 1.)", "quantifier": "every pattern, tensor, size, index assignment. Conditions: no length called tensor, pattern or reduction (C04_repeat_returns)", "why_tests_cant": "unbounded patterns and shapes", "anchors": ["einops/einops.py:repeat", "einops/einops.py:_apply_recipe", "einops/_backends.py:AbstractBackend.add_axes"]}
{"id": "C05", "title": "rearrange is invertible by the flipped pattern", "statement": "If y = rearrange(x, 'L -> R', **sizes) and z = rearrange(y, 'R -> L', **s) both succeed and give the same lengths to the axes then z equals x exactly; in particular passing all axis lengths always makes the inverse call succeed.", "quantifier": "every rearrange pattern, tensor and sizes. Conditions: no axis written as the character U+2026 (C05_rearrange_inverse_total); no length called tensor, pattern or reduction (C05_rearrange_inverse_total)", "why_tests_cant": "a round trip law over all inputs", "anchors": ["einops/einops.py:rearrange"]}
{"id": "C06", "title": "rearranges compose", "statement": "rearrange(rearrange(x, 'L -> M'), 'M -> R') = rearrange(x, 'L -> R') whenever they succeed with the same axis lengths.", "quantifier": "every triple of pattern sides, tensor and sizes. Conditions: no axis written as the character U+2026 (C06_rearrange_compose_total); no length called tensor, pattern or reduction (C06_rearrange_compose_total)", "why_tests_cant": "law over all inputs", "anchors": ["einops/einops.py:rearrange"]}
{"id": "C07", "title": "reducing a repeat gives the original back", "statement": "reduce(repeat(x,'L -> R', **sizes), 'R -> L', op, **sizes) = x for every reduction op that maps a non-empty list of copies of v to v (min, max, mean, any/all), provided new axes have positive lengths.", "quantifier": "every repeat pattern, tensor, size. Conditions: no -1 as the length of a new axis where the library gives it a meaning (C07_reduce_of_repeat, C07_reduce_of_repeat_total); no axis written as the character U+2026 (C07_reduce_of_repeat_total); no length called tensor, pattern or reduction (C07_reduce_of_repeat_total)", "why_tests_cant": "the test-suite checks 15 patterns of one shape", "anchors": ["einops/einops.py:repeat", "einops/einops.py:reduce"]}
{"id": "C08", "title": "which calls are accepted", "statement": "A rearrange/repeat/reduce call succeeds exactly when: both sides follow the grammar; identifiers agree as the operation demands; the rank fits; every size keyword is a legal axis name that is used in the pattern; every left group has at most one axis of unknown length; new axes of repeat have sizes; and lengths exist that fit the shape (and no unknown has to be inferred by dividing by zero). Otherwise it raises: a wrong call never returns a tensor.", "quantifier": "every pattern string, shape and sizes (including negative and zero sizes). Conditions: no length called tensor, pattern or reduction; no -1 as the length of a new axis where the library gives it a meaning (C08_repeat_accepts)", "why_tests_cant": "acceptance must be decided for every malformed string and shape", "anchors": ["einops/einops.py:_prepare_transformation_recipe", "einops/einops.py:_reconstruct_from_shape_uncached", "einops/parsing.py:ParsedExpression.__init__"]}
{"id": "C09", "title": "pattern and shape mistakes are reported as EinopsError", "statement": "Once the pattern has exactly one '->', no mistake in the pattern, in the identifiers or in non-negative sizes is reported by anything but EinopsError, except: division by a zero-length known product (ZeroDivisionError), sizes named like the functions' own parameters (TypeError), the undocumented word U+2026 standing for the ellipsis on the right only (an error of the backend), and failures of the reduction itself.", "quantifier": "every failing call. Conditions: no length called tensor, pattern or reduction", "why_tests_cant": "all malformed inputs cannot be enumerated", "anchors": ["einops/einops.py:reduce", "einops/einops.py:_prepare_transformation_recipe", "einops/parsing.py:ParsedExpression.__init__"]}
{"id": "C10", "title": "results do not depend on set iteration order / hash seed", "statement": "Two runs of the same rearrange/reduce/repeat/EinMix call under different hash seeds (different iteration orders of the internal sets, different object addresses) give the same result or the same failure.", "quantifier": "every pair of iteration orders, every call", "why_tests_cant": "tests run under a handful of hash seeds and never see adversarial orders", "anchors": ["einops/einops.py:_prepare_transformation_recipe (lines 382, 403-409)"]}
{"id": "C11", "title": "caching is invisible", "statement": "For any history of calls (any interleaving of patterns, shapes, sizes, failing calls; any evictions) every call served through the LRU caches returns exactly what the uncached computation returns (lengths being ints, or any lengths for which == means identical). For lengths that are equal without being identical, such as 2 and 2.0, this fails: a call with 2.0 makes later calls with 2 fail.", "quantifier": "every finite history of calls, every cache size", "why_tests_cant": "stale-cache bugs need particular histories with >1024 distinct keys", "anchors": ["einops/einops.py:_reconstruct_from_shape", "einops/einops.py:_prepare_transformation_recipe (lru_cache)", "einops/packing.py:analyze_pattern (lru_cache)", "einops/einops.py:_compactify_pattern_for_einsum (lru_cache)"]}
{"id": "C12", "title": "the order of keyword sizes does not matter", "statement": "Permuting the keyword arguments of rearrange/reduce/repeat changes nothing about the result.", "quantifier": "every call, every permutation of the keywords", "why_tests_cant": "factorially many orders", "anchors": ["einops/einops.py:reduce", "einops/einops.py:_reconstruct_from_shape_uncached"]}
{"id": "C13", "title": "axis names are just labels", "statement": "Consistently renaming the axes of a pattern and of the sizes (injectively, to legal names) does not change the result.", "quantifier": "every call, every injective renaming. Conditions: no length called tensor, pattern or reduction", "why_tests_cant": "infinitely many renamings", "anchors": ["einops/einops.py:_prepare_transformation_recipe"]}
{"id": "C14", "title": "ellipsis stands for the missing axes", "statement": "A call whose pattern uses '...' gives the same result as the call in which '...' is replaced by the right number of fresh axis names.", "quantifier": "every pattern with ellipsis, every rank. Conditions: no axis written as the character U+2026; no length called tensor, pattern or reduction", "why_tests_cant": "every rank and every pattern", "anchors": ["einops/einops.py:_prepare_transformation_recipe (lines 331-363)"]}
{"id": "C15", "title": "spacing and trivial parentheses do not matter", "statement": "Adding or removing redundant spaces, writing (a) for a, () for 1, or 1s inside groups never changes the parsed expression.", "quantifier": "every pattern string", "why_tests_cant": "all layouts of all strings", "anchors": ["einops/parsing.py:ParsedExpression.__init__"]}
{"id": "C16", "title": "the parser accepts exactly the documented grammar", "statement": "An expression string is accepted iff it is a sequence of names, positive integers, at most one '...', and one-level parenthesised groups of these, with no repeated name; the parsed composition is exactly the structure written; anything else raises EinopsError. Honest exception: the one-character word U+2026, the parser's internal spelling of '...', is accepted as a name as well.", "quantifier": "every string over Unicode", "why_tests_cant": "strings are unbounded", "anchors": ["einops/parsing.py:ParsedExpression"]}
{"id": "C17", "title": "a list of tensors is the stacked tensor", "statement": "rearrange/reduce/repeat of a non-empty list of equally shaped tensors equals the operation on their stack along a new first axis; element [k, i...] of that is element [i...] of the k-th list member; an empty list raises TypeError.", "quantifier": "every list of tensors and pattern. Conditions: no length called tensor, pattern or reduction (C17_unequal_list)", "why_tests_cant": "all list lengths and shapes", "anchors": ["einops/einops.py:reduce (lines 521-527)"]}
{"id": "C18", "title": "array-API operations agree with the ordinary ones", "statement": "einops.array_api.rearrange/reduce/repeat return the same tensor as einops.rearrange/reduce/repeat on every input the latter accepts.", "quantifier": "every call. Conditions: no -1 as the length of a new axis where the library gives it a meaning (C18_array_api_agrees)", "why_tests_cant": "same unbounded input space twice", "anchors": ["einops/array_api.py:reduce", "einops/einops.py:_apply_recipe_array_api"]}
{"id": "C19", "title": "backends agree", "statement": "Adding axes by expand_dims+tile (numpy-like), and by unsqueeze+expand (torch/paddle/oneflow-like) give the same tensor for all non-negative lengths; reducing one axis at a time from the last (torch any/all/prod, oneflow, tinygrad) agrees with joint reduction for every associative-commutative reduction.", "quantifier": "every tensor, positions, lengths, reduction monoid", "why_tests_cant": "all shapes and op algebra", "anchors": ["einops/_backends.py:AbstractBackend.add_axes", "einops/_backends.py:TorchBackend.add_axes", "einops/_backends.py:TorchBackend.reduce", "einops/_backends.py:OneFlowBackend.reduce"]}
{"id": "C20", "title": "layers behave like the functions", "statement": "Rearrange/Reduce layers applied to x return exactly what rearrange/reduce would return for the same pattern and sizes (including failures), for every x with at most 7 dimensions under the ellipsis; others give KeyError. A layer that cannot be made fails as the function does on every tensor. Provisos: sizes do not use names of parameters (tensor, pattern, reduction, self); the torch layer supports only named reductions other than any and all and does not itself refuse the mean of integers.", "quantifier": "every pattern, sizes and input tensor", "why_tests_cant": "unbounded ranks and patterns; the suite never builds an 8-dim ellipsis", "anchors": ["einops/layers/__init__.py:RearrangeMixin", "einops/layers/__init__.py:ReduceMixin", "einops/einops.py:_prepare_recipes_for_all_dims", "einops/_torch_specific.py:apply_for_scriptable_torch"]}
{"id": "C21", "title": "layers survive pickling", "statement": "Restoring a layer from its saved state, or from its keras configuration, gives a layer that behaves identically on all inputs, also when the restoring process iterates over sets in other orders.", "quantifier": "every layer and input", "why_tests_cant": "all inputs", "anchors": ["einops/layers/__init__.py:RearrangeMixin.__getstate__", "einops/layers/__init__.py:ReduceMixin.__setstate__"]}
{"id": "C22", "title": "a callable reduction sees exactly the reduced axes", "statement": "reduce with a callable f calls f at most once; it is called iff some left axis is missing on the right; the tensor it receives has one dimension per elementary axis, kept axes first in right-hand order, then the reduced ones in left order, and the axes tuple names exactly the trailing dimensions in increasing order; the value f returns is only reshaped afterwards.", "quantifier": "every pattern, tensor, callable. Conditions: no length called tensor, pattern or reduction", "why_tests_cant": "all callables", "anchors": ["einops/einops.py:_reduce_axes", "einops/einops.py:_apply_recipe"]}
{"id": "C23", "title": "parse_shape reports the true axis lengths", "statement": "parse_shape(x, pattern) succeeds iff the pattern is well formed without composite axes, the rank fits, 1s and numbers match the lengths; the result maps each named axis to the length of the dimension it stands for (counting from the right after an ellipsis) and contains nothing else. Patterns with a parenthesised ellipsis end in ValueError, other misfits in RuntimeError, malformed patterns in EinopsError.", "quantifier": "every pattern and shape", "why_tests_cant": "unbounded", "anchors": ["einops/einops.py:parse_shape"]}
{"id": "C24", "title": "pack then unpack is the identity", "statement": "unpack(*pack(tensors, p), p) returns exactly the original tensors whenever pack succeeds.", "quantifier": "every list of tensors, every pattern", "why_tests_cant": "all ranks, shapes, list lengths", "anchors": ["einops/packing.py:pack", "einops/packing.py:unpack"]}
{"id": "C25", "title": "unpack then pack is the identity", "statement": "If unpack(x, ps, p) succeeds on a tensor whose named axes are not empty and ps is non-empty, then packing the result with p gives x and ps with the -1 resolved, exactly when the shapes without -1 together do not ask for more than the axis has. (Otherwise unpack may succeed all the same, with overlapping pieces. Where the library's reshape takes any negative number for -1, shapes have no negative numbers other than -1.)", "quantifier": "every tensor, packed shapes, pattern", "why_tests_cant": "all shapes", "anchors": ["einops/packing.py:unpack", "einops/packing.py:pack"]}
{"id": "C26", "title": "pack concatenates in order", "statement": "pack(tensors, p) returns packed tensor whose element at (before, o_k + pos, after) is tensors[k] at (before, unravel(pos), after) with o_k the sum of the sizes of earlier tensors, and packed_shapes[k] is the part of tensors[k].shape that is matched by '*'. If a named axis of some tensor has length 0 (and every tensor has enough axes), pack fails in the library's reshape.", "quantifier": "every list of tensors and pattern. Conditions: no named axis of length 0 for pack to return (C26_pack is an equivalence: the condition is exact)", "why_tests_cant": "unbounded", "anchors": ["einops/packing.py:pack"]}
{"id": "C27", "title": "unpack never silently returns wrong pieces", "statement": "If unpack(x, ps, p) succeeds on a tensor whose named axes are not empty and ps is non-empty, the pieces are disjoint, consecutive, in order, cover the whole axis, have the requested shapes, and a -1 is resolved to the only possible value, exactly when the shapes without -1 together do not ask for more than the axis has; whenever such pieces exist unpack returns them. Otherwise the pieces before the -1 are counted from the start, those after it from the end, and they may overlap. (Same proviso about negative numbers as C25; with empty ps nothing is checked.) If a named axis is empty, unpack does not check the lengths: it returns empty tensors of the requested shapes if none of them has a negative number, and RuntimeError otherwise.", "quantifier": "every tensor, ps (including negative numbers and several -1), pattern", "why_tests_cant": "python slicing clips and wraps silently, so all out-of-range cases matter", "anchors": ["einops/packing.py:unpack"]}
{"id": "C28", "title": "pack patterns are validated", "statement": "pack/unpack patterns are accepted iff they are whitespace-separated distinct tokens, exactly one of them '*', the others legal axis names; otherwise EinopsError.", "quantifier": "every string", "why_tests_cant": "strings are unbounded", "anchors": ["einops/packing.py:analyze_pattern"]}
{"id": "C29", "title": "einsum pattern compaction is a faithful renaming", "statement": "einsum's pattern is translated to single letters by an injective renaming of axis names that keeps tensor order, axis order and ellipses; it succeeds iff the pattern has exactly one '->', at most 52 distinct names occur, no numbers, empty groups or groups of several names occur and every right-hand name occurs on the left.", "quantifier": "every einsum pattern", "why_tests_cant": "unbounded patterns", "anchors": ["einops/einops.py:_compactify_pattern_for_einsum"]}
{"id": "C30", "title": "einsum computes the named formula", "statement": "einsum(x1,...,xn, pattern) at each assignment of right-hand indices equals the sum over all other names of the product of the operands at their named indices.", "quantifier": "every pattern, operands, index assignment, commutative semiring", "why_tests_cant": "unbounded", "anchors": ["einops/einops.py:einsum", "einops/einops.py:_compactify_pattern_for_einsum"]}
{"id": "C31", "title": "EinMix computes its documented formula", "statement": "EinMix(pattern, weight_shape, bias_shape, **sizes)(x) at each assignment of output axes equals the sum over axes missing from the output of x*weight at their named indices, plus bias at its named indices.", "quantifier": "every pattern, weights, biases, inputs. Conditions: where a length is to be found, the other lengths of the group are not 0 (C31_einmix)", "why_tests_cant": "unbounded", "anchors": ["einops/layers/_einmix.py:_EinmixMixin.initialize_einmix", "einops/layers/torch.py:EinMix.forward"]}
{"id": "C32", "title": "EinMix parameter shapes", "statement": "The weight has exactly the lengths of the weight axes in the order written; the bias has one entry per flattened output axis: the axis' length if it is a bias axis, 1 otherwise, and broadcasts to the output.", "quantifier": "every EinMix construction. Conditions: no axis written as the character U+2026", "why_tests_cant": "unbounded", "anchors": ["einops/layers/_einmix.py:_EinmixMixin.initialize_einmix"]}
{"id": "C33", "title": "symbolic shapes agree with concrete ones", "statement": "If dimensions are symbols, the recipe computed with symbols and then evaluated equals the recipe computed from the evaluated shape (whenever the latter is accepted). So rearrange, reduce and repeat, called while a graph of tensorflow, keras or pytensor is built, build a graph that computes, for every input that is accepted eagerly, the eager result.", "quantifier": "every pattern, every valuation of the symbols, every static knowledge about the shapes", "why_tests_cant": "all valuations", "anchors": ["einops/einops.py:_reconstruct_from_shape_uncached", "einops/_backends.py:TensorflowBackend", "einops/_backends.py:TFKerasBackend", "einops/_backends.py:PyTensorBackend", "einops/_backends.py:UnknownSize"]}
{"id": "C34", "title": "backend selection is sound and sticky", "statement": "get_backend, after any history of calls and changes of sys.modules, returns a backend that accepts tensors of this type (the tensor itself, when backends tell tensors by type only; the Keras backend does not), constructs a backend only if its framework is in sys.modules at that moment, constructs at most one per framework, keeps giving the same backend for a type, constructs none when a backend in use will do, and fails only if every imported framework with a backend class has a backend that rejects the tensor. A tensor that exactly one of the ten backend classes accepts gets this backend once its framework is imported.", "quantifier": "every history of get_backend calls and module imports", "why_tests_cant": "history dependent global state", "anchors": ["einops/_backends.py:get_backend"]}
{"id": "C35", "title": "axis-merging optimisation preserves meaning", "statement": "_optimize_transformation returns (shape', reduced', order') such that reshape/sum/transpose with the new parameters gives the same flat result as with the old ones, and a second application changes nothing (nothing is left to join); it succeeds for all such parameters.", "quantifier": "every shape, set of reduced axes and permutation", "why_tests_cant": "all ranks and permutations", "anchors": ["einops/einops.py:_optimize_transformation"]}
{"id": "C36", "title": "numbers are anonymous axes", "statement": "In reduce and repeat, writing a number n>1 in place of a fresh named axis of size n gives the same result.", "quantifier": "every pattern, number, tensor. Conditions: no length called tensor, pattern or reduction", "why_tests_cant": "unbounded", "anchors": ["einops/parsing.py:AnonymousAxis", "einops/einops.py:_prepare_transformation_recipe"]}
{"id": "C37", "title": "rearrange only reshapes and transposes", "statement": "rearrange never asks the backend for anything but the shape, reshape and transpose (so no copy beyond what reshape needs), an identity pattern makes no backend call at all, and repeat/reduce never call what they do not need.", "quantifier": "every call", "why_tests_cant": "all patterns", "anchors": ["einops/einops.py:_apply_recipe"]}
{"id": "C38", "title": "_enumerate_directions is an open grid", "statement": "The k-th returned tensor has the length of axis k on axis k and 1 elsewhere, and its element at index i along axis k is i.", "quantifier": "every tensor", "why_tests_cant": "all ranks and shapes", "anchors": ["einops/einops.py:_enumerate_directions"]}
{"id": "C39", "title": "the empty parts of a pattern", "statement": "1 or () on the left demands a dimension of length exactly 1; on the right inserts a dimension of length 1; neither changes any element.", "quantifier": "every pattern. Conditions: no -1 as the length of a new axis where the library gives it a meaning (C39_right)", "why_tests_cant": "unbounded", "anchors": ["einops/einops.py:_prepare_transformation_recipe", "einops/parsing.py:ParsedExpression.__init__"]}
{"id": "C40", "title": "reductions commute with rearrangement", "statement": "reduce(x,'L -> R',op) = reduce(rearrange(x,'L -> M'), 'M -> R', op) for order-insensitive op when M has the same axes as L; reduce with no missing axis equals rearrange.", "quantifier": "every pattern, tensor, symmetric reduction", "why_tests_cant": "unbounded", "anchors": ["einops/einops.py:reduce"]}
{"id": "C41", "title": "which EinMix layers can be made", "statement": "EinMix(pattern, weight_shape, bias_shape, **sizes) succeeds exactly when: both sides and the weight can be parsed; output axes are in the input or the weight; the ellipsis is on both sides or on neither, and not in parentheses on the left; no numbers other than 1; the weight is a list of names, all with given lengths, each in the input or output; lengths are given only for axes of input or weight; at most one unknown length per group; bias axes are output axes with given lengths, after the ellipsis; no summed weight axis has length 0; at most 26 names.", "quantifier": "every pattern, weight shape, bias shape, sizes", "why_tests_cant": "tests try a handful of wrong patterns", "anchors": ["einops/layers/_einmix.py:_EinmixMixin.initialize_einmix", "einops/layers/_einmix.py:_EinmixMixin.__init__"]}
{"id": "C42", "title": "lengths that EinMix ignores", "statement": "When every group on the left is a single axis, the layer does not depend on lengths given for axes that are neither in the weight nor in the bias; in particular a length that contradicts the input is accepted silently.", "quantifier": "every such pattern and sizes. Conditions: no axis written as the character U+2026 (C42_other_sizes_ignored)", "why_tests_cant": "nobody tests with contradictory lengths", "anchors": ["einops/layers/_einmix.py:_EinmixMixin.initialize_einmix (lines 88-119)"]}
{"id": "C43", "title": "choice of a backend by several threads", "statement": "When get_backend is called by any number of threads whose steps interleave in any way, while modules are imported: the backend returned accepts tensors of the type asked for; calls for one type get backends of one framework; a call does not fail if, when it starts, a backend in use accepts the tensor or the type is known; a backend is constructed only for an imported framework; after a failure every framework imported before has a backend in use, so a later call for a tensor of such a framework succeeds; a call that is not interrupted does what it does in a single thread. Unlike in a single thread, a call may fail though the framework of its tensor is imported, two backends may be made for a framework, and the backend of a type may be replaced.", "quantifier": "every class tree, every behaviour of constructors, every interleaving of every number of calls and imports", "why_tests_cant": "tests run in one thread, and a race of this kind shows up in a tiny fraction of runs", "anchors": ["einops/_backends.py:get_backend"]}
{"id": "C44", "title": "the caches cannot be noticed by threads", "statement": "When functions of einops are called by any number of threads, whose accesses to the four lru_caches interleave in any way, and caches are cleared at any time, every call returns what it returns without caches, after at most four accesses to the caches; the caches never exceed their sizes; a call that is not interrupted behaves as in a single thread.", "quantifier": "every number of calls, every interleaving, every cache size, every iteration order of sets in each call", "why_tests_cant": "tests run in one thread; interleavings cannot be enumerated", "anchors": ["einops/einops.py:227", "einops/einops.py:_prepare_transformation_recipe", "einops/einops.py:_apply_recipe", "einops/packing.py:analyze_pattern", "einops/einops.py:_compactify_pattern_for_einsum"]}
{"id": "C45", "title": "reductions in stages", "statement": "For every reduction that can be computed block by block and in any order (sum, prod, min, max, any, all, exact mean), reducing L to M and then M to R gives the same tensor as reducing L to R at once; and rearranging what was reduced is one reduction (for every reduction). If the direct call is told all lengths and both stages succeed, it succeeds. The ellipsis and any group may disappear at either stage.", "quantifier": "every tensor, pattern triple with consistent axis lengths, framework, iteration order of sets, element type. Conditions: no length called tensor, pattern or reduction (C45_reduce_twice_total, C45_rearrange_of_reduced_total)", "why_tests_cant": "tests compare a few patterns on small tensors of two or three frameworks", "anchors": ["einops/einops.py:reduce", "einops/einops.py:rearrange", "einops/einops.py:_reduce_axes", "einops/einops.py:_apply_recipe"]}
{"id": "C46", "title": "repetitions in stages, and interchange with reductions", "statement": "Adding axes in two stages, or before or after a rearrangement, gives the same tensor as one repeat; the direct repeat succeeds when it is told all lengths. Adding axes that are kept and then reducing over other axes equals reducing first and then adding the axes.", "quantifier": "every tensor, pattern tuple with consistent axis lengths, framework, iteration order of sets, element type. Conditions: no length called tensor, pattern or reduction (C46_repeat_twice_total)", "why_tests_cant": "the combinations of patterns, ranks and frameworks cannot be enumerated", "anchors": ["einops/einops.py:repeat", "einops/einops.py:rearrange", "einops/einops.py:reduce", "einops/einops.py:_apply_recipe"]}
{"id": "C47", "title": "lengths from parse_shape may be given to later calls", "statement": "What parse_shape reports for a left side (with some items written _) are the lengths that rearrange, reduce and repeat give to the axes of a pattern with that left side. Hence rearrange(rearrange(x, 'L -> R'), 'R -> L', **parse_shape(x, 'L')) returns x, giving the parsed lengths to the first call does not change its result, and repeat(reduce(x, 'L -> R', op), 'R -> L', **parse_shape(x, 'L')) succeeds and has the shape of x.", "quantifier": "every tensor, pattern, framework, reduction, iteration order of sets, element type", "why_tests_cant": "relation between two functions, for all patterns and shapes", "anchors": ["einops/einops.py:parse_shape", "einops/einops.py:rearrange", "einops/einops.py:repeat", "einops/einops.py:reduce"]}
{"id": "C48", "title": "pack and unpack in terms of rearrange", "statement": "pack([x], 'a * b') returns y iff rearrange(x, 'a ... b -> a (...) b') returns y and no named axis is empty. For tensors with the named axes only, pack(ts, 'a * b') is rearrange(ts, 'i a b -> a i b') under the same proviso, with empty packed shapes. unpack(x, [q], 'a * b') returns [t] iff rearrange(x, 'a (i j ..) b -> a i j .. b', lengths from q) returns t, where -1 in q means that the length is not given: both infer the same number and reject the same requests.", "quantifier": "every tensor, packing pattern, spelling of the rearrange pattern, requested shape, framework, iteration order of sets, element type", "why_tests_cant": "two independent implementations of shape inference are compared on all shapes, including empty ones", "anchors": ["einops/packing.py:pack", "einops/packing.py:unpack", "einops/einops.py:rearrange"]}
{"id": "C49", "title": "einsum of one tensor is a sum", "statement": "For a pattern of names and ellipses (no parentheses, no numbers, every name once, at most 52), einsum(x, pattern) and reduce(x, pattern, 'sum') accept the same pattern string and return the same tensor, whatever the library's einsum, provided it computes the einsum formula for single-letter patterns. In particular the dimensions under the ellipsis, which einsum counts from the right and reduce from the left, are the same.", "quantifier": "every tensor, pattern, spelling, framework, library einsum meeting the formula, iteration order of sets, element type with commutative associative addition", "why_tests_cant": "two independent implementations compared over all patterns and shapes", "anchors": ["einops/einops.py:einsum", "einops/einops.py:_compactify_pattern_for_einsum", "einops/einops.py:reduce"]}
{"id": "C50", "title": "which library functions a call runs", "statement": "A correct call of rearrange, reduce or repeat is, for every array library and whatever its functions do, exactly this sequence: reshape to the lengths of all left axes (only if some left dimension is not a single axis); transpose to the axes that stay, in the order of the right side, followed by the axes that go (only if that is not their order already); reduce the last axes (only if axes go); insert the new axes at their positions (only if there are any); reshape to the right-hand shape (only if some right dimension is not a single axis). Each is run at most once, with exactly the stated arguments. Nothing is run, and the very tensor given is returned, exactly when both sides are equal and without groups. The same holds for einops.array_api.", "quantifier": "every backend, tensor type, pattern, shape, sizes, reduction (string or callable), iteration order of sets. Conditions: no length called tensor, pattern or reduction (C50_library_calls, C50_array_api_calls)", "why_tests_cant": "the library is arbitrary, so the statement is about the program and not about results; tests observe results of a few libraries", "anchors": ["einops/einops.py:_apply_recipe", "einops/einops.py:_apply_recipe_array_api", "einops/einops.py:_reconstruct_from_shape_uncached"]}
{"id": "C51", "title": "pack, unpack, parse_shape and _enumerate_directions in graphs", "statement": "Let dimensions of the tensors be symbols of a graph under construction (tensorflow, keras, pytensor). For every input of the graph for which the eager call succeeds: pack builds a graph that computes the eager result, and the shapes it returns evaluate to the eager ones; unpack does so if the requested lengths are ints, or pytensor symbols that do not stand for -1; unpack undoes pack with pytensor always, with tensorflow and keras if the packed dimensions are reported as ints; parse_shape returns symbols that evaluate to the eager lengths if the dimensions matched against numbers are reported as ints; _enumerate_directions builds graphs of the eager grid. The premises are needed: tensorflow's unpack raises TypeError on the symbolic lengths returned by pack; parse_shape rejects the right number at a symbolic dimension in all three frameworks.", "quantifier": "every pattern, list of nodes, valuation of the symbols, static knowledge about the shapes", "why_tests_cant": "all graphs and all valuations; the repository tests packing on graphs only for static shapes", "anchors": ["einops/packing.py:pack", "einops/packing.py:unpack", "einops/einops.py:parse_shape", "einops/einops.py:_enumerate_directions", "einops/_backends.py:TensorflowBackend", "einops/_backends.py:PyTensorBackend"]}
{"id": "C52", "title": "cached objects are never changed", "statement": "Lists and dicts taken as objects with an identity: _reconstruct_from_shape_uncached changes no object that existed before it was called, whether it returns or raises (it works on a copy of the recipe's lengths), although the axes_reordering it returns is the recipe's own list; _apply_recipe and _apply_recipe_array_api change nothing (callables get a tuple). Hence, in a process in which functions are called, layers use recipes with or without the cache, calls fail and caches are cleared in any order: no object reachable from the caches or from a recipe ever changes; each cached object holds what was computed for its key; each call of reduce, rearrange, repeat (and their array-API versions) returns what is computed without caches.", "quantifier": "every sequence of calls, every pattern, shape, axes lengths, every callable (which may change whatever it is given that can be changed), every size of the caches", "why_tests_cant": "a missing copy shows only in some later call that shares a cached recipe; all histories", "anchors": ["einops/einops.py:TransformRecipe", "einops/einops.py:_reconstruct_from_shape_uncached", "einops/einops.py:_apply_recipe", "einops/einops.py:_apply_recipe_array_api", "einops/einops.py:_reduce_axes", "einops/einops.py:_prepare_transformation_recipe", "einops/_torch_specific.py:apply_for_scriptable_torch"]}
{"id": "C53", "title": "the operations treat all elements alike", "statement": "Let R be any relation between the elements of two dtypes. Calls of reduce, rearrange, repeat, pack and unpack (einops and einops.array_api) with the same pattern, sizes and framework and with inputs that have the same shapes and elements related by R either both return tensors of the same shape with elements related by R, or both raise the same exception. For reduce this needs that related lists reduce to related values (or the callables respect R), and, for mean, that the dtypes are both floating or both not. So a function of one element can be applied before or after a call, a function of two elements too (rearranging x+y is adding the rearranged x and y), sums are linear, and max of -x is -min of x, for every pattern.", "quantifier": "all relations, element types, tensors, lists of tensors, patterns, sizes, frameworks and reductions, failing calls included", "why_tests_cant": "Parametricity quantifies over all element types and relations; tests run a few dtypes.", "anchors": ["einops/einops.py:_reduce_axes", "einops/einops.py:_apply_recipe", "einops/einops.py:_apply_recipe_array_api", "einops/einops.py:reduce", "einops/einops.py:rearrange", "einops/einops.py:repeat", "einops/packing.py:pack", "einops/packing.py:unpack", "einops/array_api.py:reduce", "einops/_backends.py:AbstractBackend"]}
{"id": "C54", "title": "an axis that stands alone on both sides is a batch axis", "statement": "Let p' be the pattern p with one more axis b written by itself (not in parentheses) on both sides, anywhere, b not among the sizes. A call of rearrange, repeat or reduce (built-in reduction) with p' works slice by slice: the result has as many slices along b as the input, and slice i of the result is what the call with p returns for slice i of the input. The call with p' returns if there is at least one slice and the call with p returns for each. So a slice of the result depends on nothing but the same slice of the input. A list of tensors of one shape is such a batch: the call with the list returns Y exactly if the call with p returns for every tensor of the list and these results are the slices of Y.", "quantifier": "all patterns with and without ellipsis, all positions of the batch axis, tensors, lists of tensors, sizes, frameworks", "why_tests_cant": "Tests check a few patterns on a few batches; that nothing leaks between elements of a batch is a statement about all patterns and all pairs of batches.", "anchors": ["einops/einops.py:rearrange", "einops/einops.py:repeat", "einops/einops.py:reduce", "einops/einops.py:_apply_recipe", "einops/einops.py:_reconstruct_from_shape_uncached"]}
{"id": "C55", "title": "einsum is repeat, multiply, sum; it is linear and ignores the order of operands", "statement": "einsum(x1, ..., xn, 'l1, ..., ln -> r') without ellipsis and without repeated names in one li equals: repeat every operand to the list of all names (repeat(xi, 'li -> all', lengths of the other names)), multiply the results element by element, reduce with 'all -> r' and 'sum'. With or without ellipsis: exchanging operands together with their part of the pattern changes nothing if the multiplication commutes and associates, and einsum is additive in each operand if the multiplication distributes.", "quantifier": "all numbers of operands, patterns, tensors, element types with the stated laws, frameworks, libraries whose einsum follows the formula", "why_tests_cant": "The tests compare a few patterns with numpy.einsum; the equation holds for all patterns, numbers of operands and shapes.", "anchors": ["einops/einops.py:einsum", "einops/einops.py:_compactify_pattern_for_einsum", "einops/einops.py:repeat", "einops/einops.py:reduce"]}
{"id": "C56", "title": "the text and the configuration of a layer describe it completely", "statement": "What repr() of a Rearrange, Reduce or EinMix layer prints is, as a Python call expression, exactly the call that made the layer: class name, pattern (and reduction, weight shape, bias shape) as string literals without escapes, and the axis lengths as keyword arguments. Such a text denotes at most one call. Whatever call is read from it succeeds and makes a layer that returns or fails the same way on every input, in every framework. So two layers with the same text are the same, and layers that differ in the pattern or in a length have different texts. The configuration of an EinMix layer (get_config, with no bias given as None) restores the layer, with the same shapes of parameters and the same results.", "quantifier": "all patterns, lengths (also negative), reductions given by name, class names, layers that could be made, iteration orders of sets, inputs", "why_tests_cant": "Tests print a few layers, or none; that no pattern contains a character that has to be escaped, and that no two layers print alike, is a statement about all patterns the parser accepts.", "anchors": ["einops/layers/__init__.py:__repr__", "einops/layers/_einmix.py:__repr__", "einops/layers/tensorflow.py:get_config"]}
{"id": "C57", "title": "layers in a graph compute what they compute eagerly", "statement": "When a Rearrange, Reduce or EinMix layer is called on a node of a tensorflow or keras graph (dimensions may be unknown while the graph is built), the node it returns computes, for every input of the graph on which the layer succeeds eagerly, exactly the tensor the layer returns eagerly; the static shape of the returned node is right. The graph is built once; the statement is about all inputs it is run on. For EinMix this holds with every einsum and addition of the library that behave alike in graphs and eagerly. The layer in the graph may have been made in another process (other iteration orders of sets).", "quantifier": "all patterns, sizes, reductions given by name, weights and biases, placeholders with any known and unknown dimensions, inputs of the graph", "why_tests_cant": "Tests build a few models and run them on a few batches; a dimension that is wrongly fixed while building shows only for other inputs.", "anchors": ["einops/layers/tensorflow.py:call", "einops/layers/__init__.py:_apply_recipe", "einops/_backends.py:shape", "einops/einops.py:_reconstruct_from_shape_uncached"]}
{"id": "C58", "title": "the flax layers compute what the functions and the other layers compute", "statement": "A call of the flax module Rearrange or Reduce returns what the function rearrange or reduce returns for the same pattern and sizes, and fails with the same exception where the function fails, although the module is made without looking at the pattern and fails only in the call; the only exceptions are inputs whose ellipsis stands for 8 or more axes, which make the module fail. A call of the flax module EinMix returns y exactly if the keyword EinMix layer with the same arguments can be made and returns y for the same weight, bias and input. As flax takes sizes in a dictionary, axes of its EinMix may have the names of the parameters.", "quantifier": "all patterns, reductions, sizes, tensors, weights and biases, iteration orders of sets", "why_tests_cant": "Tests call a few modules; that postponed construction neither loses an error nor changes a result is a statement about all patterns and inputs.", "anchors": ["einops/layers/flax.py:setup", "einops/layers/flax.py:__call__", "einops/layers/flax.py:_create_rearrange_layers", "einops/layers/_einmix.py:initialize_einmix"]}
{"id": "C59", "title": "warnings about axis names", "statement": "A call whose pattern is accepted issues a RuntimeWarning for each axis name that is a Python keyword and a FutureWarning for each axis named 'axis': once for every time the name is written in the pattern, in order, and once more if a length is given for it; nothing else is warned about, also not in calls that fail, and the warnings do not change the outcome. The same holds for patterns of pack and unpack. If the recipe of the call is still cached there is no warning. With warnings turned into errors a call raises the first of them or does what it does otherwise. (Keywords are accepted as names, although the docstring of check_axis_name says they are not.)", "quantifier": "all strings, operations, lists of names of lengths, all interpretations of 'is a keyword'", "why_tests_cant": "Tests look at a handful of names; that warnings and only those warnings come for every pattern, in every position, is a statement about all strings.", "anchors": ["einops/parsing.py:check_axis_name_return_reason", "einops/parsing.py:ParsedExpression", "einops/einops.py:_prepare_transformation_recipe", "einops/packing.py:analyze_pattern"]}
{"id": "C60", "title": "scalar products and gradients", "statement": "Rearranging two tensors of one shape by one pattern keeps their scalar product. The linear maps x -> rearrange(x, 'l -> r') and z -> rearrange(z, 'r -> l') are adjoint, and so are x -> repeat(x, 'l -> r') and z -> reduce(z, 'r -> l', 'sum'): <op(x), z> = <x, op'(z)>. So the gradient of a repeat is the sum over the flipped pattern and the gradient of a sum is the repeat over the flipped pattern; when all axis lengths are given these calls return tensors of the shape of the argument.", "quantifier": "all patterns, shapes, tensors, all element types with commutative associative addition and distributing products, all frameworks. Conditions: no -1 as the length of a new axis where the library gives it a meaning (C60_repeat_and_sum, C60_repeat_backward); no axis written as the character U+2026 (C60_repeat_backward, C60_sum_backward); no length called tensor, pattern or reduction (C60_repeat_backward, C60_sum_backward)", "why_tests_cant": "The repository's tests compare gradients for a few patterns with what a framework computes; here the identity holds for every pattern and shape, zero lengths and ellipses included.", "anchors": ["einops/einops.py:rearrange", "einops/einops.py:reduce", "einops/einops.py:repeat", "einops/einops.py:_apply_recipe"]}
{"id": "C61", "title": "patterns for well-known array functions", "statement": "A rearrange whose two sides list the same axes in the same order is a reshape: the data in row-major order are unchanged. 'a b c -> c a b' is the transposition by that permutation. Naming every axis and dropping some is the reduction of the library over exactly the dropped positions, and succeeds exactly when that reduction does. Rearranging a list with 'n .. h .. -> .. (n h) ..' is concatenation along that axis. 'a b -> (r a) (s b)' is tile(x, (r, s)), and 'a b -> (a r) (b s)' repeats every element as numpy.repeat does along every axis.", "quantifier": "all numbers and names of axes, all permutations, masks and repetition counts (zero included), all tensors, all frameworks. Conditions: no length called tensor, pattern or reduction (C61_tile, C61_repeat_elements)", "why_tests_cant": "The docstrings say rearrange includes the functionality of transpose, reshape, stack, concatenate and tile; the tests compare a handful of patterns of fixed rank with numpy calls.", "anchors": ["einops/einops.py:rearrange", "einops/einops.py:reduce", "einops/einops.py:repeat", "einops/einops.py:_apply_recipe"]}
{"id": "C62", "title": "the error handler never fails itself", "statement": "When a call of rearrange, reduce or repeat (of the function for any framework, or of einops.array_api) fails with einops' own exception, the code that words the report adds only the wording: it raises EinopsError and nothing else, in particular never an UnboundLocalError for the variable 'shape' that is assigned inside the try block; other exceptions pass unchanged, and successful calls are not affected.", "quantifier": "all patterns, reductions, named lengths, tensors and lists of tensors, for concrete and symbolic dimensions", "why_tests_cant": "The tests only check that an EinopsError is raised for a few dozen bad calls; whether the handler can hit an unset variable depends on which statement of the body raised.", "anchors": ["einops/einops.py:reduce", "einops/array_api.py:reduce"]}
{"id": "C63", "title": "what an error message says is true", "statement": "Every report of rearrange, reduce and repeat shows the pattern, the reduction, the named lengths and the shape of the tensor (for a list, of the stacked tensor), and its last line is true of the call: the duplicate name occurs twice, the invalid identifier, the unknown character and the bad bracket are there, the listed axes are exactly the ones found on one side only, exactly the ones without a length, exactly the ones whose length cannot be inferred; the expected and received numbers of dimensions are the real ones and differ; the two lengths of a mismatch are the length of a dimension and the product of the given lengths of its axes, and differ or do not divide.", "quantifier": "all patterns, reductions, named lengths, tensors, lists of tensors, character databases and iteration orders of sets; library and callable reduction do not raise EinopsError themselves", "why_tests_cant": "The tests do not look at the messages, and a message can be wrong only in combinations nobody tried.", "anchors": ["einops/parsing.py:ParsedExpression.__init__", "einops/einops.py:_prepare_transformation_recipe", "einops/einops.py:_reconstruct_from_shape_uncached", "einops/einops.py:_check_elementary_axis_name", "einops/einops.py:reduce", "einops/array_api.py:reduce"]}
{"id": "C64", "title": "assert statements are never the ones to fail", "statement": "rearrange, reduce and repeat, of the ordinary functions and of einops.array_api, return the same result or raise the same exception with and without their assert statements (python -O): whenever an assert is evaluated during a call, its condition holds, so no check that matters to users is hidden in an assert.", "quantifier": "all patterns, reductions (names and callables), named lengths, tensors and lists, frameworks and orders of sets", "why_tests_cant": "The test suite runs with asserts on; it would have to be run twice, on all inputs.", "anchors": ["einops/einops.py:_reduce_axes", "einops/einops.py:_apply_recipe_array_api", "einops/einops.py:_prepare_transformation_recipe"]}
{"id": "C65", "title": "the messages of pack, unpack, parse_shape and einsum are true", "statement": "Whenever pack, unpack, parse_shape or einsum raises with a message of its own, the message is true of the call: the pattern of pack or unpack has a repeated word, no *, or the named invalid word; tensor number i really has the shown shape and fewer axes than the pattern names; the input of unpack has the shown shape and another number of axes; two requested shapes contain -1; the packed axis has the shown size and cannot be divided into the requested shapes (provided the other axes are not empty); the pattern of parse_shape has a composite axis, another number of axes, an empty axis at a dimension other than 1 or a number at another length, and the shape shown is the one given; the einsum pattern has no arrow, an empty, composite or anonymous axis, more than 52 names, or the named axis on the right side only; fewer than two arguments were given; the last argument is no string. 'Encountered empty axis name' is never said.", "quantifier": "all patterns, shapes, tensors, requested shapes, argument lists, backends and character databases", "why_tests_cant": "The tests do not look at the messages, and a message can be wrong only in combinations nobody tried (as the message of unpack is when another axis is empty).", "anchors": ["einops/packing.py:analyze_pattern", "einops/packing.py:pack", "einops/packing.py:unpack", "einops/array_api.py:pack", "einops/array_api.py:unpack", "einops/einops.py:parse_shape", "einops/einops.py:_validate_einsum_axis_name", "einops/einops.py:_compactify_pattern_for_einsum", "einops/einops.py:einsum"]}
{"id": "C66", "title": "the messages of the layers are true", "statement": "Whenever making a Rearrange, Reduce or EinMix layer raises EinopsError, the error carries one of the messages in the code and what it says is true. For Rearrange and Reduce it is 'Error while preparing', the description of the layer, and a message about the pattern, never about the dimensions of a tensor. For EinMix: the two sides or the weight or the bias have the named defect of spelling; the listed axes of the right side are neither on the left nor in the weight; the weight contains an ellipsis; exactly one side has an ellipsis; the ellipsis of the left side is in brackets; there is a number; the weight has brackets; the named axis of the weight has no length; the listed lengths belong to no axis; the listed weight axes are on neither side; the listed bias axes are not on the right side, or have no length; an axis of the bias stands before the ellipsis; or the inner layer lacks at least two lengths of one group of the left side, which are listed. Any other exception of EinMix has one of five causes: a length with a reserved name; not exactly one way to find the arrow; an axis 1 in the weight; a summed weight axis of length 0; more than 26 names.", "quantifier": "all patterns, reductions, lengths, weight and bias texts, set iteration orders and character databases", "why_tests_cant": "The tests look at the type of an exception only, and the sets in the messages are computed by set operations whose result depends on all axes.", "anchors": ["einops/layers/__init__.py:RearrangeMixin.multirecipe", "einops/layers/__init__.py:ReduceMixin.multirecipe", "einops/layers/_einmix.py:initialize_einmix", "einops/layers/_einmix.py:_report_axes"]}
{"id": "C67", "title": "views, copies and shared memory", "statement": "When tensors are views of buffers with strides, rearrange, reduce, repeat, pack and unpack return what they return for tensors as values, with the same exceptions. If nothing is reduced, no axis is added by tile and no two axes are joined into one dimension, the result of rearrange, repeat or reduce is a view of the input's buffer whatever the strides of the input, and its elements are at the places given by the pattern; writing an element of the result changes the input at exactly that place, and all copies of the element in the result. If axes are joined, the result is such a view or a new buffer. If something is reduced by a named reduction, an axis is added by tile, or the input is a list, the result has a new buffer. The pieces that unpack returns are always views of its argument; pack always returns a new buffer.", "quantifier": "all arrays with any offset and strides (also negative, zero and overlapping), patterns, sizes and memories; any library whose reshape returns a view when dimensions are only split. Conditions: no length called tensor, pattern or reduction (C67_view, C67_view_or_copy, C67_copy, C67_write)", "why_tests_cant": "Tests compare values; whether results share memory, and where, depends on strides and on which of the six steps run.", "anchors": ["einops/einops.py:_apply_recipe", "einops/_backends.py:AbstractBackend.add_axes", "einops/_backends.py:TorchBackend.add_axes", "einops/packing.py:unpack", "einops/packing.py:pack"]}
{"id": "C68", "title": "einsum in stages", "statement": "Some neighbouring operands of an einsum can be contracted first: if the intermediate result keeps the ellipsis and every axis that the other operands or the result name, then einsum of the intermediate result with the other operands returns what one einsum of all operands returns. Dimensions under the ellipsis may be broadcast in either call.", "quantifier": "all patterns, numbers and ranks of operands, sizes (also 0 and broadcast dimensions) and elements of a semiring; any library einsum that computes the formula", "why_tests_cant": "The two ways rename the axes differently and sum in different order; tests compare a few contractions.", "anchors": ["einops/einops.py:einsum", "einops/einops.py:_compactify_pattern_for_einsum"]}
{"id": "C69", "title": "element types", "statement": "The type of the elements plays no role in the values and errors of rearrange, reduce and repeat, except that a mean that has something to reduce is refused (NotImplementedError) when the type is not in the backend's list of floating types. rearrange and repeat return the type of the input (for a list: the type after stacking); reduce returns the type the library's reduction gives, applied once per call of the library, and the type of the input when nothing is reduced. pack returns the common type of the tensors, unpack the type of the packed tensor for every piece.", "quantifier": "all patterns, inputs, element types, and any rules of the library for promotion and for types of reductions. Conditions: no length called tensor, pattern or reduction (C69_mean)", "why_tests_cant": "Tests use a few types; the lists of floating types differ between the backends.", "anchors": ["einops/_backends.py:NumpyBackend.is_float_type", "einops/_backends.py:TorchBackend.is_float_type", "einops/_backends.py:PaddleBackend.is_float_type", "einops/_backends.py:TFKerasBackend.is_float_type", "einops/einops.py:_reduce_axes", "einops/packing.py:pack", "einops/packing.py:unpack"]}
{"id": "C70", "title": "axis names are labels in einsum, pack, unpack, parse_shape and EinMix", "statement": "Replacing the names in a pattern by other names, different ones by different ones, does not change what these functions do. einsum hands the library the same text and fails with the same error; pack and unpack depend only on the numbers of axes before and after the star; parse_shape returns the same dictionary with the keys renamed (the name _ stays). For EinMix, with the pattern, weight_shape, bias_shape and axes_lengths renamed together: the layer can be made under the new names if and only if it can be made under the old ones, the parameters have the same shapes and fan-in, and the layer computes the same, although the pattern it gives to einsum sorts the names and so may differ.", "quantifier": "all patterns, all injective renamings, all inputs; for EinMix calls all libraries that satisfy the einsum contract", "why_tests_cant": "Tests use a few fixed names. Sorting of names, clashes of names with letters of the compact pattern, and the dictionary order are where a dependence on names would hide.", "anchors": ["einops/einops.py:_compactify_pattern_for_einsum", "einops/einops.py:einsum", "einops/einops.py:parse_shape", "einops/packing.py:analyze_pattern", "einops/packing.py:pack", "einops/packing.py:unpack", "einops/layers/_einmix.py:initialize_einmix"]}
{"id": "C71", "title": "EinMix is linear, and its transpose is the layer of the reversed pattern", "statement": "For a fixed weight, the output of an EinMix layer is linear in the input and the bias together: adding inputs (and biases) adds outputs, and multiplying them by a scalar multiplies the output. For a fixed input the same holds in the weight and the bias together. For a layer without bias, the layer of the reversed pattern with the same weight is its transpose: the inner product of the output with z equals the inner product of the input with what the reversed layer returns for z. So the reversed layer carries gradients of outputs back to gradients of inputs.", "quantifier": "all patterns, weights, biases, axis lengths, tensors and element types with the arithmetic laws that are used; all libraries that satisfy the einsum contract", "why_tests_cant": "Tests compare a few shapes in floating point, where linearity holds only up to rounding; a term added or dropped for particular patterns (repeated letters, axes summed in the weight, broadcast bias) would go unseen.", "anchors": ["einops/layers/_einmix.py:initialize_einmix", "einops/layers/_einmix.py:_create_rearrange_layers_and_einsum_pattern", "einops/layers/torch.py:EinMix"]}
{"id": "C72", "title": "spelling of patterns and order of lengths in layers, EinMix, einsum, pack, unpack and parse_shape", "statement": "Spelling a pattern differently (other spacing; (a) for a, () for 1, 1s inside groups) and giving the axis lengths in another order changes nothing: Rearrange, Reduce and EinMix raise the same error or make layers that do the same on every tensor (with the same parameter shapes, fan-in and einsum pattern for EinMix), also for malformed patterns; einsum and parse_shape return the same or raise the same error; pack and unpack only look at the words between white space. For the weight shape of EinMix only the spacing may differ, since parentheses are refused there.", "quantifier": "all patterns including malformed ones, all lengths, all tensors, all libraries, all iteration orders of sets", "why_tests_cant": "Tests write each pattern one way. The layers build new patterns out of pieces of the given text, and the lengths pass through dictionaries filtered by name; a dependence on text or order can hide there.", "anchors": ["einops/layers/__init__.py:RearrangeMixin.__init__", "einops/layers/__init__.py:ReduceMixin.__init__", "einops/layers/_einmix.py:initialize_einmix", "einops/einops.py:_compactify_pattern_for_einsum", "einops/einops.py:_prepare_recipes_for_all_dims", "einops/einops.py:parse_shape", "einops/packing.py:analyze_pattern"]}
{"id": "C73", "title": "gradients of einsum, pack and unpack", "statement": "einsum is linear in each operand and its transpose is again einsum, with the operand and the result exchanged in the pattern (for y = einsum(.., x, ..) and any z of the shape of y: <y, z> = <x, einsum(.., z, ..)>); names that only this operand has are brought back by repeat. pack keeps all elements, none lost or duplicated; its transpose is unpack with the shapes pack returned, and the transpose of unpack (not asking for more than there is) is pack.", "quantifier": "all patterns, numbers of operands, shapes, tensors; all element types with commutative sums and products that distribute; all libraries whose einsum meets the contract. Conditions: no shape with numbers below -1 where the library accepts those (C73_unpack); no named axis of length 0 (C73_unpack)", "why_tests_cant": "Gradient tests compare frameworks on a few patterns with tolerance; that the gradient is the exchanged einsum pattern (and unpack of pack's shapes) is a law about all patterns and shapes.", "anchors": ["einops/einops.py:einsum", "einops/einops.py:_compactify_pattern_for_einsum", "einops/einops.py:repeat", "einops/packing.py:pack", "einops/packing.py:unpack"]}
{"id": "C74", "title": "a whole process: registry, caches and layers together cannot be noticed", "statement": "In one Python process, a user program makes any sequence of einops requests - rearrange, reduce, repeat, parse_shape, asnumpy, einsum, pack, unpack, array_api functions, constructing Rearrange/Reduce layers and calling them - where the next request may depend on all previous answers; modules are imported, caches are cleared, and the iteration order of sets changes in between. Although all requests share the registry of backends and four caches, and layers keep recipes taken from the caches, every answer (value or exception type) is the one given by the functions without registry and caches, using the library the tensor belongs to; objects of no known type give RuntimeError. A request that calls no layer gets the same answer after any two histories.", "quantifier": "all programs (adaptive, any length), all sizes of caches, import histories, iteration orders, libraries, and backend constructors that do not fail", "why_tests_cant": "Tests start from the state their own earlier tests left behind; state shared between the registry, the caches and layers makes errors depend on the history of the whole process.", "anchors": ["einops/_backends.py:get_backend", "einops/einops.py:_prepare_transformation_recipe", "einops/einops.py:_reconstruct_from_shape", "einops/einops.py:_prepare_recipes_for_all_dims", "einops/einops.py:reduce", "einops/einops.py:asnumpy", "einops/einops.py:einsum", "einops/packing.py:pack", "einops/packing.py:unpack"]}
{"id": "C75", "title": "A batch axis stays a batch axis in einsum, EinMix, pack and unpack", "statement": "Put one more name into a pattern. In einsum, into the terms of some operands and into the output: every slice of the result along that axis is the result of the call without the name on the slices of those operands, the other operands being shared. In EinMix, alone on both sides and not among the sizes: every slice of the output is the output, with the same weight and bias, of the layer without the name on the slice of the input, and the output has as many slices as the input. In pack, among the named axes before or after the star: the tensor packed from the slices is the slice of the packed tensor, with the same packed shapes. In unpack: the parts of a slice are the slices of the parts. In pack and unpack the call without the name returns whenever the call with it does.", "quantifier": "all patterns, positions of the name (before and after an ellipsis, on either side of the star), all operand lists with any number of batched and shared operands, all tensors, all weights and biases, all libraries that satisfy the contract of einsum. Conditions: no shape with numbers below -1 where the library accepts those (C75_unpack)", "why_tests_cant": "The place of the axis depends on the number of dimensions under the ellipsis and on the ranks of the packed tensors; mistakes in how places are counted only show for some combinations of places, ranks and operands.", "anchors": ["einops/einops.py:einsum", "einops/einops.py:_compactify_pattern_for_einsum", "einops/packing.py:pack", "einops/packing.py:unpack", "einops/packing.py:analyze_pattern", "einops/layers/_einmix.py:initialize_einmix", "einops/layers/torch.py:forward"]}
{"id": "C76", "title": "einsum and EinMix respect homomorphisms of the elements", "statement": "Let two types of elements be related by a relation that both additions and both multiplications preserve and that relates the zeros and the ones. einsum applied to related operands (same shapes, related elements), with the same pattern, gives related results, whatever einsum of the two libraries computes with as long as each satisfies its contract. In particular a function that respects sums and products may be applied to the operands or to the result: a contraction in fixed-width integers is the exact contraction reduced, a contraction of complex conjugates is the conjugate, larger nonnegative operands give larger results. The same holds for two EinMix layers made from the same texts and lengths, with related inputs, weights and biases.", "quantifier": "all types of elements, relations, patterns, numbers of operands, shapes (with broadcasting and ellipsis), values, weights and biases, all pairs of libraries that satisfy the contract", "why_tests_cant": "Tests compare two dtypes on a few patterns and cannot quantify over the relations; a difference in how patterns are compacted or weights laid out only shows for asymmetric shapes.", "anchors": ["einops/einops.py:einsum", "einops/einops.py:_compactify_pattern_for_einsum", "einops/layers/_einmix.py:initialize_einmix", "einops/layers/torch.py:forward"]}
{"id": "C77", "title": "the first values of the parameters of EinMix", "statement": "A new EinMix layer asks its library for a weight and, if bias_shape is given, a bias of exactly the documented shapes, with values no larger in size than the roots of 3/fan_in and 1/fan_in, where fan_in, the product of the lengths of the weight axes that are not in the output, is positive. An output element combines fan_in times m input elements, where m is the number of combinations of the summed axes that do not belong to the weight (m = 1 when all do; the comment in the code forgets m). Consequently the square of every output element of a new layer, without bias, is at most 3 m times the sum of the squares of the input elements it combines, however many these are. The ranges are symmetric about 0 in torch, tensorflow, paddle and oneflow; in flax, against the documentation, no value is negative. The parameters are drawn exactly once, in the constructor (tensorflow: in the first call), and all calls use them; with a negative length the layer cannot be made (tensorflow: not be used).", "quantifier": "all patterns, weight and bias shapes, lengths, libraries, all random values in the ranges, all inputs, any number of calls. Conditions: no axis written as the character U+2026 (C77_ranges, C77_products, C77_outputs); at most 7 dimensions under the ellipsis of a layer (of EinMix: if a side has a group) (C77_outputs)", "why_tests_cant": "Tests see a few random draws of a few layers; a bound that is wrong for some pattern only changes the distribution of the values.", "anchors": ["einops/layers/_einmix.py:initialize_einmix", "einops/layers/torch.py:_create_parameters", "einops/layers/tensorflow.py:_create_parameters", "einops/layers/tensorflow.py:build", "einops/layers/flax.py:_create_parameters", "einops/layers/paddle.py:_create_parameters", "einops/layers/oneflow.py:_create_parameters"]}
{"id": "C78", "title": "Patterns that do the same have the same groups", "statement": "Different patterns do different things. On tensors of one shape in which no axis of the pattern has length 1: two rearrange patterns whose left sides have the same groups of axes return the same for every tensor exactly when their right sides have the same groups; with the same right side, exactly when their left sides have the same groups; and a rearrange pattern returns every tensor unchanged exactly when its two sides have the same groups. Two reduce patterns with the same left side and the same reduction return the same for every tensor exactly when their right sides have the same groups, provided the reduction notices a single different element (proved for sum, prod, min, max, any, all and the mean in exact arithmetic). It fails for repeat (two new axes of the same length can be exchanged) and for axes of length 1; both are shown.", "quantifier": "all element types with two different elements, all pairs of patterns, sizes and shapes for which the calls are correct and no axis of the left side has length 1, all numbers of dimensions behind the ellipsis, all frameworks. Conditions: no length called tensor, pattern or reduction (C78_right, C78_left, C78_nothing, C78_reduce)", "why_tests_cant": "That no two different patterns coincide is a statement about all pairs of patterns; a test compares particular ones.", "anchors": ["einops/einops.py:rearrange", "einops/einops.py:reduce", "einops/einops.py:_apply_recipe"]}
{"id": "C79", "title": "Layers and EinMix do not change their inputs, and share memory as the functions do", "statement": "For arrays that are views of buffers, a Rearrange or Reduce layer shows exactly the elements the same layer computes for tensors as values, with the same exceptions. If nothing is reduced, the layer returns the very array the function returns (same buffer, offset, shape, strides), in every framework, torch included; if something is reduced the result is in a new buffer. An EinMix layer, which adds its bias by += (in place or not, as the library has it), computes what it computes for values, changes neither its input nor its weight nor its bias, and returns an array that shares memory with none of them - provided the library's einsum returns a new array without repeated places. If einsum's result is not new but its places are different, the result is still right and nothing is changed but its buffer - which can be the input's; a witness is given.", "quantifier": "all memories, all arrays (any strides and offsets, overlapping ones too), all patterns, lengths, weights and biases, all rules for when reshape copies, all frameworks. Conditions: no length called tensor, pattern or reduction (C79_views, C79_rearrange_views)", "why_tests_cant": "Whether an in-place sum reaches memory of the caller depends on strides and on which intermediate results are views; tests of values on fresh arrays cannot see it.", "anchors": ["einops/layers/torch.py:forward", "einops/layers/tensorflow.py:call", "einops/layers/paddle.py:forward", "einops/layers/oneflow.py:forward", "einops/layers/__init__.py:_apply_recipe", "einops/_torch_specific.py:apply_for_scriptable_torch"]}
{"id": "C80", "title": "_optimize_transformation computes a normal form", "statement": "For transformations (reshape, reduce axes, transpose) all of whose lengths are at least 2, and any reduction that notices a single different element, _optimize_transformation gives equal results for two transformations exactly if they have equally many elements and do the same to every tensor. Any form in which nothing is left to join and whose reduced axes are sorted is this normal form, and no transformation that does the same has fewer axes. Without reduced axes it is enough that there are two different elements. With axes of length 1 this is false; a witness is given.", "quantifier": "all shapes with lengths at least 2, all sets of reduced axes in any order, all orders of the remaining axes, all element types with two elements, all reductions that notice one element", "why_tests_cant": "It says of all pairs of transformations that agree on all tensors that two loops over their axes end in the same lists; tests compare a few pairs, and cannot show that no shorter form exists.", "anchors": ["einops/einops.py:_optimize_transformation"]}
{"id": "C81", "title": "Warnings issued while layers are made, and by einsum", "statement": "Which warnings are issued, how often and in what order, when Rearrange, Reduce and EinMix layers are made and when an einsum pattern is translated. A layer reports the names on the left once, and then all names and the names of given lengths once per recipe (8 recipes with an ellipsis) if the recipes are not cached; made again, it reports the names on the left only, and always. EinMix reports the pattern and the weight, the layers it needs before and after, a weight without axes exactly if there are none, and the bias. einsum reports every entry. There are no false alarms, also in calls that fail. Neither warnings nor cache change the outcome. A bias that is not a string is refused with an EinopsError.", "quantifier": "all patterns, weights, biases and lengths, all contents of the recipe cache, all orders of sets, all predicates for keywords. Conditions: no axis written as the character U+2026 (C81_mix, C81_strict)", "why_tests_cant": "The warnings depend on what the cache holds from earlier calls and on which inner layers are made; tests fix one history, and pytest shows each warning once.", "anchors": ["einops/einops.py:_prepare_recipes_for_all_dims", "einops/einops.py:_compactify_pattern_for_einsum", "einops/layers/_einmix.py:initialize_einmix", "einops/layers/__init__.py:multirecipe", "einops/parsing.py:check_axis_name_return_reason"]}
{"id": "C82", "title": "Threads calling anything in einops in one process", "statement": "Threads call reduce (rearrange, repeat), parse_shape, pack, unpack, einsum, asnumpy, enumerate_directions and the array API functions, make layers and call the layers made by others. Registry and caches are shared; the steps of the calls, one access of a shared dict each, come in any order, and between them modules are imported and caches cleared. Every answer is the one of the functions without registry, caches and threads, or the refusal (RuntimeError where get_backend is called) that tensors of an unknown type get. There is no refusal if a backend in use accepts the tensor or its type has been seen when the call starts, if the call asks for no backend, or if no other call makes a step during the call and the framework is imported. A refused call leaves all frameworks imported when it started with their backends in use, so a second try gets the right answer. Each call has ended after 69 steps of its own. A refusal of a tensor of an imported framework is possible: two threads that start at once (witness).", "quantifier": "all requests, numbers of calls and interleavings of their steps, all imports and clearings in between, all orders of sets, all libraries, all cache limits", "why_tests_cant": "Interleavings of steps inside einops cannot be chosen by a test, and their number grows exponentially.", "anchors": ["einops/_backends.py:get_backend", "einops/einops.py:reduce", "einops/einops.py:_prepare_transformation_recipe", "einops/einops.py:_apply_recipe", "einops/packing.py:pack", "einops/packing.py:unpack", "einops/einops.py:einsum", "einops/layers/__init__.py:multirecipe"]}
{"id": "C83", "title": "The words of error messages", "statement": "Every message of einops' exceptions is one of the strings in the source with its arguments put in, as str.format does it. From the text of a mistake in a pattern or a shape one can read which mistake it is, and likewise for pack, unpack, parse_shape and einsum. The sets of axes, the axis sizes and the names in a message, written by Python's repr, are read back unchanged by Python's rules for literals, whatever characters the names contain. Two different mistakes have different texts.", "quantifier": "all mistakes, names made of any Unicode characters, all sizes and sets of axes, any choice of printable characters", "why_tests_cant": "Names, numbers and sets in messages are unbounded; a text which two mistakes share would not show in any one test.", "anchors": ["einops/parsing.py:ParsedExpression.__init__", "einops/einops.py:_prepare_transformation_recipe", "einops/einops.py:_reconstruct_from_shape_uncached", "einops/einops.py:reduce", "einops/packing.py:analyze_pattern", "einops/layers/_einmix.py:initialize_einmix"]}
{"id": "C84", "title": "EinMix layers in a whole process", "statement": "A program makes and calls any number of EinMix layers of torch, tensorflow, paddle and oneflow, among any other calls of einops, imports and clearings of caches; what it does next may depend on the answers. The inner Rearrange layers are made and called through the process-wide caches and the registry of backends. All answers, results and errors, are those of EinMix without caches and registry. A layer answers the same whatever happens between its making and its call.", "quantifier": "all programs, patterns, axis sizes, tensors and parameters, cache limits, orders of sets, sets of imported modules", "why_tests_cant": "Histories of a process are unbounded; a recipe mixed up in a cache would show only after particular calls.", "anchors": ["einops/layers/_einmix.py:initialize_einmix", "einops/layers/torch.py:_create_rearrange_layers", "einops/layers/tensorflow.py:call", "einops/layers/paddle.py:forward", "einops/einops.py:_prepare_transformation_recipe", "einops/_backends.py:get_backend"]}
{"id": "C85", "title": "Packing and unpacking in stages", "statement": "Packing groups of tensors and then packing the packed groups gives the same tensor as packing all tensors at once, and the shapes of all groups one after the other are the shapes for the whole; one way works exactly when the other does. Unpacking into groups and then each group gives the same tensors, or the same error, as unpacking at once; a group with an undetermined shape is asked for as -1.", "quantifier": "all libraries, patterns, groupings, numbers of tensors, shapes and elements; for unpack: at most one -1, and if there is one the other shapes do not ask for more than there is. Conditions: no named axis of length 0 (C85_unpack)", "why_tests_cant": "Numbers and shapes of tensors and ways to group them are unbounded.", "anchors": ["einops/packing.py:pack", "einops/packing.py:unpack", "einops/packing.py:analyze_pattern"]}
{"id": "C86", "title": "How often patterns are looked at", "statement": "After any history of calls, new layers and clearings of caches, a call parses and analyses its pattern exactly if that is not remembered: if the same request was not accepted since the cache was cleared, or since it was last asked for at least as many other requests were accepted as the cache has room for. Requests that are refused take no room and are analysed again each time. If all accepted requests fit into the cache, each of them is analysed exactly once. A call like one that returned before then runs none of the cached functions at all. A call whose pattern, shape and lengths did not occur together before makes its plan, once.", "quantifier": "all histories of calls of einops functions, layers made and used and caches cleared; all cache limits; all patterns, shapes, libraries and set orders", "why_tests_cant": "Histories are unbounded and the work done is invisible in the results; tests compare results only.", "anchors": ["einops/einops.py:_prepare_transformation_recipe", "einops/einops.py:_reconstruct_from_shape_uncached", "einops/einops.py:_apply_recipe", "einops/einops.py:_compactify_pattern_for_einsum", "einops/packing.py:analyze_pattern", "einops/einops.py:reduce"]}
{"id": "C87", "title": "Sizes of the tensors made on the way", "statement": "Unless its input is empty, no tensor that rearrange, reduce or repeat makes on the way to its result has more elements than the input (all tensors of a list together) or the result. This holds for every library class, for reductions taken one axis at a time and for the array API functions. All that pack makes has at most as many elements as its result. All that unpack makes has at most as many elements as its argument. For a correct call with a named operation the shapes of all these tensors are known exactly from the pattern: one for each step that is run, one for each axis where a library class reduces axes one by one, one for each new axis.", "quantifier": "all patterns, inputs (tensors and lists), axis lengths, reductions, libraries and set orders; callables that make nothing larger than their argument. Conditions: no length called tensor, pattern or reduction (C87_shapes, C87_shapes_array_api)", "why_tests_cant": "Intermediate tensors are not visible in the results that tests compare, and a test sees a few shapes only.", "anchors": ["einops/einops.py:_apply_recipe", "einops/einops.py:_apply_recipe_array_api", "einops/_backends.py:add_axes", "einops/_backends.py:reduce", "einops/packing.py:pack", "einops/packing.py:unpack"]}
{"id": "C88", "title": "What torch.compile is told about", "statement": "After get_backend has returned a TorchBackend the six functions rearrange, reduce, repeat, einsum, pack and unpack are registered with torch.compile, in whatever order torch, the layers and the backends were imported and used before, provided torch can register. Unless allow_ops_in_compiled_graph is called by hand they are registered all together, once, or not at all, and nothing else ever is. A call that does not raise registers all six or none, and sets the global flag in the first case only. The test of the version is right for torch 0 to 9; torch 10 to 19 is taken for a version without torch.compile.", "quantifier": "all histories of imports, get_backend calls and direct calls, all backend trees, all outcomes of imports, of the warning and of allow_in_graph", "why_tests_cant": "The registration happens once per process, at an import, so a test process sees one order of imports and one version of torch.", "anchors": ["einops/_torch_specific.py:allow_ops_in_compiled_graph", "einops/_backends.py:get_backend"]}
{"id": "C89", "title": "Programs in threads do not notice each other", "statement": "Programs run in any number of threads of one process, next to any other calls, imports and clearings of caches; each program chooses its calls by the answers it got, makes layers and calls layers that it made or was given. If the backends it needs are in use when the threads start, the answers a program gets and its result are those it gets alone, without registry, caches and threads; it ends after at most 71 steps of its own per call, whatever the other threads do.", "quantifier": "all programs (functions from answers to next calls), all numbers of threads, all interleavings, all histories before the start, all cache sizes", "why_tests_cant": "The interleavings of a few threads with a few dozen steps each cannot be enumerated, and the scheduler decides which of them a test sees.", "anchors": ["einops/_backends.py:get_backend", "einops/einops.py:_prepare_transformation_recipe", "einops/einops.py:_reconstruct_from_shape", "einops/layers/__init__.py:RearrangeMixin"]}
{"id": "C90", "title": "EinMix layers in several threads", "statement": "C89 for programs that make and call EinMix layers of torch, tensorflow, paddle and oneflow, their own and ones made before the threads started: the inner layers of one EinMix may be called by several threads at once, and the result of each program is the one it has alone, with EinMix as in C31; it ends after at most 71 steps per call of einops, an EinMix being made or called with at most two.", "quantifier": "all programs, all EinMix layers, all numbers of threads, all interleavings", "why_tests_cant": "Same as C89; the tests call EinMix from one thread.", "anchors": ["einops/layers/_einmix.py:_EinmixMixin", "einops/layers/torch.py:EinMix", "einops/layers/tensorflow.py:EinMix"]}
{"id": "C91", "title": "Lengths that are integers of numpy", "statement": "rearrange, reduce and repeat with lengths of which some are integers of numpy (np.int64, not a subclass of int) give what they give with Python's ints whenever that is not refused with EinopsError or ZeroDivisionError, with empty caches and in any process; they give the same in all cases if such integers are given for new axes only. rearrange never loses, repeats or makes up an element, whatever it lets pass. Layers Rearrange and Reduce made with such lengths are made or refused as with ints, and their calls, with empty caches, are related to those of the layer with ints in the same way; Rearrange keeps all elements. EinMix made with such lengths has parameters of the same shapes and bounds and is related to EinMix with ints in the same way, except that where ints make the constructor divide by zero (no elements are summed) the bounds may be infinite instead. (Calls that ints make fail may succeed: the checks of lengths are passed over, a 4 x 9 tensor can be taken for 6 x 6, and as 2 and np.int64(2) are the same key of the cache, a later call with ints is then not refused either; both with witnesses.)", "quantifier": "all patterns, tensors, lists of tensors, reductions and lengths; all frameworks; all histories of the caches; any einsum and addition of the library for EinMix", "why_tests_cant": "The tests pass Python ints; what is passed over for other integers depends on the pattern, the shape and the calls made before.", "anchors": ["einops/einops.py:_reconstruct_from_shape_uncached", "einops/einops.py:_reconstruct_from_shape", "einops/einops.py:reduce", "einops/einops.py:rearrange", "einops/einops.py:repeat", "einops/layers/__init__.py:RearrangeMixin", "einops/layers/__init__.py:ReduceMixin", "einops/_torch_specific.py:apply_for_scriptable_torch", "einops/layers/_einmix.py:initialize_einmix"]}
{"id": "C92", "title": "Gradients of the parameters of EinMix", "statement": "For an input x of an EinMix layer and a gradient z of a function of its outputs, the scalar product of the output with z is the scalar product of the weight with a tensor gw of the shape of the weight, plus, with a bias, that of the bias with a tensor gb of the shape of the bias; a change of the parameters changes it by the scalar products of the changes with gw and gb. gw holds at every index of the weight the sum, over all other axes of input and output, of the products of the elements of x and z; gb the sum of the elements of z over the axes of the output the bias lacks. Neither depends on the parameters, and they are the only such tensors.", "quantifier": "all patterns, weight_shape, bias_shape, lengths, inputs, parameters and gradients of outputs; all commutative (semi)rings of elements; all frameworks whose einsum follows its contract. Conditions: at most 7 dimensions under the ellipsis of a layer (of EinMix: if a side has a group) (C92_gradients, C92_change); no axis written as the character U+2026 (C92_gradients, C92_change); where a length is to be found, the other lengths of the group are not 0 (C92_gradients, C92_change)", "why_tests_cant": "The tests check that a backward pass runs and that outputs agree with einsum for some patterns; a wrong axis of the weight or a bias broadcast along the wrong axis shows only for suitable lengths and patterns.", "anchors": ["einops/layers/_einmix.py:_EinmixMixin", "einops/layers/torch.py:EinMix", "einops/layers/__init__.py:RearrangeMixin"]}
{"id": "C93", "title": "Two EinMix layers in a row are one", "statement": "An EinMix layer L -> K without a bias followed by a layer K -> R with any bias computes what the single layer L -> R computes with the same bias and the weight einsum(w1, w2, 'axes1, axes2 -> axes3'), where axes3 are, in any order, those axes of the two weights that are axes of the input or the output; provided no name is summed over by the first layer and used again for an axis that the second makes (without this it is false, with a witness). If the first layer has a bias b1, the single layer needs the bias b2 + sum(b1 * w2) over the axes that the second layer removes; it exists for every bias shape that has the axes of the output occurring in b1, w2 or b2.", "quantifier": "all patterns, weight shapes, bias shapes, lengths, inputs and parameters; all commutative semirings of elements; all frameworks whose einsum follows its contract. Conditions: at most 7 dimensions under the ellipsis of a layer (of EinMix: if a side has a group) (C93_one_layer, C93_biased); no axis written as the character U+2026 (C93_one_layer, C93_biased)", "why_tests_cant": "No test puts layers together; the claim involves three layers and an einsum, for all patterns, groupings, ellipses and orders of axes.", "anchors": ["einops/layers/_einmix.py:_EinmixMixin", "einops/einops.py:einsum", "einops/layers/torch.py:EinMix"]}
{"id": "C94", "title": "Programs that build a graph compute what they compute eagerly", "statement": "Symbols of declared shapes (some lengths unknown) are made by create_symbol; a program of calls of rearrange, reduce, repeat, einsum, pack, unpack, parse_shape and functions of the library is run on them once, each call on tensors and lists of tensors made before, with lengths that are numbers, dimensions of tensors made before, or entries of what parse_shape returned. Then eval_symbol of every node made, on any values of the declared shapes on which the program succeeds eagerly, given in any order, is the tensor made eagerly; and a program that fails on symbols fails eagerly on all values of the declared shapes. eval_symbol of a symbol itself is the value given for it, and exists exactly if that has the declared shape. Premises (needed, see C51): unpack with the shapes returned by pack only with pytensor; no numbers in patterns of parse_shape.", "quantifier": "all programs of any length, all patterns, declared shapes and values; tensorflow, keras and pytensor; all functions of the library that behave alike in graphs and eagerly", "why_tests_cant": "The tests build graphs of single calls, mostly with static shapes, and evaluate them on one value; here the graph is fixed while programs and values range over everything.", "anchors": ["einops/_backends.py:create_symbol", "einops/_backends.py:eval_symbol", "einops/_backends.py:TFKerasBackend", "einops/_backends.py:PyTensorBackend", "einops/einops.py:parse_shape"]}
{"id": "C95", "title": "The tests run on the frameworks that were asked for", "statement": "parse_backends_to_test returns the names listed in EINOPS_TEST_BACKENDS, in order, if there are only names of frameworks, and raises RuntimeError otherwise; it undoes unparse_backends on nonempty lists of names without commas (refuted for the empty list: written without complaint, rejected when read); its first success is remembered whatever the environment becomes. is_backend_tested says whether a known framework is listed. collect_test_backends returns, in the order of its list, the backends of the selected frameworks, leaves out with a warning those whose import fails, and raises the first other exception. run_tests without names starts nothing; with a name that is neither a framework nor a synonym it starts nothing and raises RuntimeError; otherwise it installs (if told) pytest and the requirements of each framework and runs the tests, stopping at the first program that fails, and the tests read from their environment exactly the frameworks asked for, the rest of the environment being unchanged. Refuted: every class in the lists of collect_test_backends can be tested through run_tests (TFKerasBackend cannot).", "quantifier": "all sets of backend classes, environments, command lines, exit codes of the programs started, outcomes of the constructors", "why_tests_cant": "This is the code that decides what is tested; nothing tests it, and a mistake in it makes the tests pass by not running.", "anchors": ["einops/tests/__init__.py:parse_backends_to_test", "einops/tests/__init__.py:unparse_backends", "einops/tests/__init__.py:is_backend_tested", "einops/tests/__init__.py:collect_test_backends", "einops/tests/run_tests.py:main", "einops/tests/run_tests.py:run"]}
{"id": "C96", "title": "The formulas in the documentation of einsum and EinMix hold", "statement": "einsum with 'b l m, b m n -> b l n' (each letter any number of distinct axes, one of them possibly an ellipsis) returns a tensor of shape b l n with z[h,i,k] the sum over j of x[h,i,j]*y[h,j,k]: matrix products, inner and outer products, filters on images. 'out in, ... in -> ... out' gives z[h,k] the sum over j of w[k,j]*x[h,j]. 'i i ->' on a square matrix gives its trace. 'a b c, c b d, a g k -> a b k' gives the sum over c, d, g written in the docstring. EinMix without parentheses and without a bias equals einsum of the input and the weight. EinMix with 'b... (heads in) -> b... (heads out)', weight 'heads in out' and an optional bias 'heads out' is the linear layer of each head: y[h,(q,k)] is the sum over j of x[h,(q,j)]*w[q,j,k], plus the bias [q,k]; without heads it is the linear layer.", "quantifier": "all patterns of these forms, sizes, tensors, element types with commutative associative addition and a right unit of multiplication, libraries meeting the einsum and iadd contracts, orders of iteration over sets. Conditions: at most 7 dimensions under the ellipsis of a layer (of EinMix: if a side has a group) (C96_einmix_einsum, C96_linear); no axis written as the character U+2026 (C96_einmix_einsum)", "why_tests_cant": "Tests compare a few patterns at fixed sizes with numpy; they do not show that the formulas in the documentation hold for every number of axes, every size and with an ellipsis.", "anchors": ["einops/einops.py:einsum", "einops/layers/_einmix.py:_EinmixMixin.__init__"]}
{"id": "C97", "title": "A rearrange before or after einsum or EinMix can be written into its pattern", "statement": "A rearrange 'L -> K' of the input followed by the EinMix layer 'K -> R' equals the EinMix layer 'L -> R' with the same weight and bias (and the same shapes of them). The EinMix layer 'L -> K' followed by a rearrange 'K -> R' equals the layer 'L -> R' with the same weight and with the bias transposed as the names are. For einsum: transposing any of the operands by rearrange beforehand and the result by rearrange afterwards equals one einsum of the operands as they were, with the transpositions written into its pattern; operands and result may contain an ellipsis. All the calls succeed.", "quantifier": "all patterns (grouped axes and ellipsis included for EinMix, flat for einsum), lengths, tensors, numbers of operands, element types with sums and products, libraries meeting the einsum and iadd contracts, orders of iteration over sets. Conditions: at most 7 dimensions under the ellipsis of a layer (of EinMix: if a side has a group) (C97_before, C97_after); no axis written as the character U+2026 (C97_before, C97_after); no length called tensor, pattern or reduction (C97_before, C97_after)", "why_tests_cant": "Tests check a few layers and einsum patterns against fixed results. That merging a rearrange into a layer never changes the result is a statement about all pairs of patterns and all lengths.", "anchors": ["einops/layers/_einmix.py:_EinmixMixin.__init__", "einops/einops.py:rearrange", "einops/einops.py:einsum"]}
{"id": "C98", "title": "A sum before or after einsum or EinMix can be written into its pattern", "statement": "einsum followed by reduce(..., 'K -> R', 'sum') equals einsum with R instead of K on the right. Reducing an operand with 'L -> K' and 'sum' before einsum equals einsum with L instead of K for this operand, if no axis that is dropped is named elsewhere. An EinMix layer 'L -> K' without bias followed by reduce(..., 'K -> R', 'sum') equals the layer 'L -> R' with the same weight, if this layer can be made. reduce(..., 'L -> K', 'sum') followed by the EinMix layer 'K -> R' without bias equals the layer 'L -> R' with the same weight, if no axis that is dropped is on the right. All the calls succeed.", "quantifier": "all patterns (ellipsis included; grouped axes included for EinMix), lengths, tensors, numbers of operands, semirings of elements (commutativity of the product is not needed), backends, libraries meeting the einsum and iadd contracts, orders of iteration over sets. Conditions: at most 7 dimensions under the ellipsis of a layer (of EinMix: if a side has a group) (C98_mix_after, C98_mix_before); no axis written as the character U+2026 (C98_mix_after, C98_mix_before); no length called tensor, pattern or reduction (C98_mix_after, C98_mix_before)", "why_tests_cant": "Tests check single calls against fixed results. That the merged pattern gives the same for all patterns and lengths, empty tensors included, is a law, not a case.", "anchors": ["einops/layers/_einmix.py:_EinmixMixin.__init__", "einops/einops.py:reduce", "einops/einops.py:einsum"]}
{"id": "C99", "title": "Element types in layers, einsum and EinMix", "statement": "The type of the elements plays no role in whether a Rearrange, Reduce or EinMix layer can be made. In a call of a layer it plays no role for values and errors, except that a Reduce layer with 'mean' that has something to reduce refuses types that are not floating (NotImplementedError); the torch layers never look at the type and hand it to the library. Rearrange layers return the type of the input, Reduce layers the type that reduce returns (C69). einsum and EinMix never look at types: the values do not depend on them as long as the library accepts the types; the type of einsum's result is the library's for the types of the operands, in order; the type of EinMix's result is that of einsum for the types of input and weight, followed by that of += with the type of the bias.", "quantifier": "all patterns, reductions, lengths, inputs, element types, frameworks, orders of iteration over sets, and any rules of the library for types of reductions, of einsum and of +=. Conditions: at most 7 dimensions under the ellipsis of a layer (of EinMix: if a side has a group) (C99_mean); no length called tensor, pattern or reduction (C99_mean)", "why_tests_cant": "Tests of layers use float32 only.", "anchors": ["einops/layers/__init__.py:RearrangeMixin._apply_recipe", "einops/layers/__init__.py:ReduceMixin._apply_recipe", "einops/_torch_specific.py:apply_for_scriptable_torch", "einops/layers/torch.py:EinMix.forward", "einops/layers/_einmix.py:_EinmixMixin.initialize_einmix", "einops/einops.py:einsum"]}
{"id": "C100", "title": "A repeat before einsum or EinMix can be left out", "statement": "Repeating operands of einsum along axes that some other operand has (with the lengths it has there), and transposing them, does not change the result: einsum of the operands as they were, with the new axes left out of their terms, returns the same tensor. In the same way repeating the input 'L -> K' and applying an EinMix layer 'K -> R' is the layer 'L -> R' with the same weight and bias, provided the new axes stay in the output.", "quantifier": "all einsum and EinMix patterns within the documented grammar, any number of operands of which any are repeated, ellipses, all lengths, all elements, all libraries that satisfy the contracts for einsum and +=. Conditions: at most 7 dimensions under the ellipsis of a layer (of EinMix: if a side has a group) (C100_einmix); no axis written as the character U+2026 (C100_einmix); no length called tensor, pattern or reduction (C100_einmix)", "why_tests_cant": "Tests compare einsum and EinMix with other ways to write the same product on a few fixed shapes.", "anchors": ["einops/einops.py:einsum", "einops/einops.py:repeat", "einops/layers/_einmix.py:_EinmixMixin.initialize_einmix", "einops/layers/torch.py:EinMix.forward"]}
{"id": "C101", "title": "What the tests of EinMix look at is what the layers are made from", "statement": "The class _EinmixDebugger, through which the tests look at EinMix, accepts whatever a layer accepts, and then saves exactly the shapes, the einsum pattern and the patterns and lengths of the Rearrange layers that the layer uses. It accepts more than a layer in one case only: when two lengths of a group of the input are unknown. Patterns are saved only where there is something to reshape; a saved pattern reads as the side of the pattern and the list of its axes, the saved lengths are those of the names on the left.", "quantifier": "all patterns, weight and bias shapes, lengths, orders of iteration over sets. Conditions: no axis written as the character U+2026 (C101_groups, C101_accepts, C101_saved, C101_shapes)", "why_tests_cant": "The tests look at seven patterns through this class only; that real layers are made from the same things is assumed.", "anchors": ["einops/layers/_einmix.py:_EinmixDebugger", "einops/layers/_einmix.py:_EinmixMixin.initialize_einmix"]}
{"id": "C102", "title": "Sizes of the tensors made by layers, einsum and EinMix", "statement": "Unless the input is empty, no tensor that a Reduce layer makes on the way (results of all calls of the library, views included) has more elements than the input or the result, in any framework. A Rearrange layer makes at most three tensors, all with as many elements as the input. For a correct call the shapes that a layer makes are exactly those, in the same order, that the function makes (C87). einsum makes one tensor, the result. EinMix makes tensors of two sizes only: at most one with as many elements as the input, before the contraction, and with as many elements as the result: the result of the contraction, one more if there is a bias, and at most one after that (at most three and five if a name in the pattern is the character of the ellipsis). For a correct call of EinMix, with a library whose einsum contracts as it should, all shapes are known: that of the single axes of the left side if it has a group; that of the single axes of the right side, twice if there is a bias; that of the result if the right side has a group. Noting the shapes changes no result and no error.", "quantifier": "all frameworks, patterns, reductions (callables only if they do not make larger tensors), lengths, inputs, weights, biases, element types, orders of iteration over sets, any library einsum, and any += that keeps the shape of its left side. Conditions: at most 7 dimensions under the ellipsis of a layer (of EinMix: if a side has a group) (C102_einmix_shapes); where a length is to be found, the other lengths of the group are not 0 (C102_einmix_shapes)", "why_tests_cant": "Tests compare results; the sizes of intermediate tensors, and with them the memory used, are not observed.", "anchors": ["einops/layers/__init__.py:RearrangeMixin._apply_recipe", "einops/layers/__init__.py:ReduceMixin._apply_recipe", "einops/_torch_specific.py:apply_for_scriptable_torch", "einops/layers/torch.py:EinMix.forward", "einops/layers/_einmix.py:_EinmixMixin.initialize_einmix", "einops/einops.py:einsum"]}
{"id": "C103", "title": "A batch can be worked through in pieces", "statement": "If an axis stands by itself on both sides of the pattern and its length is not given, then an operation (rearrange, repeat, reduce with a built-in reduction; the Rearrange and Reduce layers) on tensors laid end to end along that axis returns exactly when it does on every piece and the results can be laid end to end along the place of the axis in the result, and this is what it returns. For EinMix with given weight and bias, whenever the lengths fit the whole, both the whole and the pieces return, and the result for the whole is the results for the pieces laid end to end. For einsum, when some operands are cut into pieces along a name of theirs that is also in the output and the others go into every call as they are, the results of the calls laid end to end are the result of the call with the whole operands. pack of the pieces gives, laid end to end along the axis, the packed tensor, each time with the same shapes; the parts that unpack gives for the pieces make up its parts for the whole, if no named axis has length 0.", "quantifier": "all frameworks, any library einsum that computes the formula, patterns, lengths, element values, orders of iteration over sets, and all divisions of a batch into any number of pieces of any lengths (pack, and unpack with a -1 in a shape: not 0). Conditions: at most 7 dimensions under the ellipsis of a layer (of EinMix: if a side has a group) (C103_rearrange_layer, C103_reduce_layer, C103_einmix); no length called tensor, pattern or reduction (C103_rearrange_layer, C103_reduce_layer); no axis written as the character U+2026 (C103_einmix); no shape with numbers below -1 where the library accepts those (C103_unpack)", "why_tests_cant": "The tests run on one batch at a time and never compare a batch with its parts.", "anchors": ["einops/einops.py:reduce", "einops/einops.py:rearrange", "einops/einops.py:repeat", "einops/layers/__init__.py:RearrangeMixin._apply_recipe", "einops/layers/__init__.py:ReduceMixin._apply_recipe", "einops/layers/torch.py:EinMix.forward", "einops/einops.py:einsum", "einops/packing.py:pack", "einops/packing.py:unpack"]}
{"id": "C104", "title": "Elements of a batch can be chosen before or after", "statement": "If an axis stands by itself on both sides of the pattern and its length is not given, then choosing elements along it (any list of indices: a part, another order, repetitions, nothing) and then calling rearrange, repeat, reduce with a built-in reduction, a Rearrange or Reduce layer or EinMix gives the same choice of the result of the call on the whole; the call returns if the one on the whole does (EinMix: both return if the lengths fit). The same holds for einsum when the choice is made from all operands that have the name. pack on the same choice from all tensors gives the choice of the packed tensor and the same shapes, and unpack of a choice gives the choices of the parts, if no named axis has length 0. For each list of valid indices there is exactly one such choice. In particular a call that returns on a batch returns on an empty one. Only for pack and unpack nothing must not be chosen: pack on an empty choice always fails in the library's reshape; unpack on an empty choice gives the empty choices of the parts if no shape has a -1, and RuntimeError otherwise.", "quantifier": "all frameworks, any library einsum that computes the formula, all patterns, lengths, element values, orders of iteration over sets, and all lists of indices. Conditions: at most 7 dimensions under the ellipsis of a layer (of EinMix: if a side has a group) (C104_rearrange_layer, C104_reduce_layer, C104_einmix and the same with empty); no length called tensor, pattern or reduction (C104_rearrange_layer, C104_reduce_layer and the same with empty); no axis written as the character U+2026 (C104_einmix, C104_empty_einmix); no shape with numbers below -1 where the library accepts those (C104_unpack)", "why_tests_cant": "Tests call the functions on whole tensors; mixing between the elements of a batch would only be seen by comparing calls on many different selections.", "anchors": ["einops/einops.py:reduce", "einops/einops.py:rearrange", "einops/einops.py:repeat", "einops/einops.py:einsum", "einops/layers/__init__.py:RearrangeMixin._apply_recipe", "einops/layers/__init__.py:ReduceMixin._apply_recipe", "einops/layers/torch.py:EinMix.forward", "einops/packing.py:pack", "einops/packing.py:unpack"]}
{"id": "C105", "title": "Dimensions of the tensors made on the way", "statement": "For a correct call of rearrange, repeat or reduce with a built-in reduction (also through the array API), of a Rearrange or Reduce layer, and of EinMix (where the library's einsum contracts as it should), no tensor that is made has more dimensions than the largest of: the dimensions of the input, of the result, the axes on the left, the axes on the right of the pattern. All tensors that pack makes have as many dimensions as its result. unpack makes for each piece one tensor with as many dimensions as its argument, and the piece.", "quantifier": "all frameworks, patterns, shapes, lengths, element values and orders of iteration over sets. Conditions: no length called tensor, pattern or reduction (C105_reduce, C105_array_api); at most 7 dimensions under the ellipsis of a layer (of EinMix: if a side has a group) (C105_einmix); no axis written as the character U+2026 (C105_einmix); where a length is to be found, the other lengths of the group are not 0 (C105_einmix)", "why_tests_cant": "Libraries limit the number of dimensions; tests look at results only, and a tensor with more dimensions than needed on the way would not be seen.", "anchors": ["einops/einops.py:_apply_recipe", "einops/einops.py:_apply_recipe_array_api", "einops/_backends.py:AbstractBackend.add_axes", "einops/_torch_specific.py:apply_for_scriptable_torch", "einops/packing.py:pack", "einops/packing.py:unpack", "einops/layers/torch.py:EinMix.forward"]}
{"id": "C106", "title": "The class behind EinMix cannot be instantiated by itself", "statement": "_EinmixMixin(pattern, weight_shape, bias_shape, **lengths) never returns. It raises NotImplementedError exactly when no length is called like a parameter and the pattern and the weight pass the checks before the layers are made (both sides and the weight can be read; every name on the right is on the left or in the weight; no ellipsis, number or parenthesis in the weight; an ellipsis on both sides or on none, not in parentheses on the left; no numbers), whatever the lengths and the bias. Arguments that EinMix of a framework or _EinmixDebugger accept lead to NotImplementedError. Any other exception is EinopsError, ValueError or TypeError, and is the one that those classes raise for the same arguments. EinopsError and ValueError are also what a call of flax's EinMix raises for these arguments.", "quantifier": "all patterns, weights, biases (strings or None), lengths and orders of iteration over sets", "why_tests_cant": "No test makes an object of this class; that its checks come before the methods of the frameworks for every pattern is a statement about all strings.", "anchors": ["einops/layers/_einmix.py:_EinmixMixin.initialize_einmix", "einops/layers/_einmix.py:_EinmixMixin._create_rearrange_layers", "einops/layers/_einmix.py:_EinmixMixin._create_parameters", "einops/layers/flax.py:setup"]}
