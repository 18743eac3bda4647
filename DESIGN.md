# Formal model of einops in Rocq (Coq 8.16.1)

Sources modelled: `/repo/einops` (einops.py, parsing.py, packing.py, array_api.py, _backends.py,
_torch_specific.py, layers/). Everything is under `rocq/theories` (logical name `Verif`).

## 1. Trusted base

1. Coq's kernel (8.16.1). No kernel check is switched off, no plugin is used, `Admitted`/`admit`/`Axiom`/
   `Parameter` do not occur, there are no functors or module types.
2. Axioms: none. Every property theorem is followed by `Print Assumptions`, and each prints
   *Closed under the global context* (no axiom of the standard library is used either).
3. That the definitions of the model say what the Python code does. Each definition cites file and
   lines and says where it simplifies. Section 3 lists what is modelled, section 4 what is not.
4. That the primitives of array libraries do what `Tensor.v` says (section 2), and that the other
   assumptions about the environment, all of which are hypotheses or parameters visible in the
   theorem statements, hold.
5. That the specifications (`Spec*.v`) and theorem statements (`Prop*.v`) say what the English
   properties say. They are kept apart from the proofs for that purpose.

## 2. How the world is represented

* **Exceptions** are values: `result A := Ok a | Err class`. Messages are left out here; `Messages.v` models the ones of rearrange, reduce and repeat (C62, C63), `Complaints.v` those of pack, unpack, parse_shape and einsum (C65).
* **Strings** are lists of Unicode code points. `str.isalnum`, `isdecimal`, `isidentifier`, `isspace`
  come from a record `unicode`, a universally quantified parameter restricted by `unicode_ok`, which
  fixes ASCII and says that U+2026 is neither alphanumeric nor part of identifiers.
* **Sets** iterate in an order given by an oracle (`orders`), universally quantified, restricted by
  `orders_ok` to permutations of the set. Each theorem therefore holds for all hash seeds; that
  results do not depend on the oracle is C10.
* **Dicts** are association lists in insertion order. Keyword arguments have distinct names
  (`NoDup (map fst sizes)`), as Python guarantees.
* **AnonymousAxis** objects carry a serial number standing for their identity.
* **Lengths** are elements of a dimension algebra `dim_ops`; integers for eager frameworks, symbols for
  graphs (`Symbolic.v`), possibly-float numbers for the cache counterexample.
* **Tensors** are a shape with a flat list of elements in C order; the element type is arbitrary.
  Array primitives (reshape with -1, transpose, expand_dims, tile, expand, broadcast_to, reductions,
  stack, concatenate, slicing with Python's clipping) are executable definitions in `Tensor.v`. All errors
  of a library are the class `BackendError`. Libraries differ in which negative numbers reshape accepts: parameter
  `rt_lib`, universally quantified.
* **Reductions** of the library are a parameter `rt_red : name -> list of elements -> result element`,
  arbitrary; where a framework reduces one axis after the other, the property assumes that the reduction can
  be split (`splits`), and `RedFacts.v` shows that sum, prod, min, max, any, all (and mean over exact
  numbers) can.
* **A runtime** (`Api.v`) is a Unicode database, iteration orders, one of the frameworks numpy, jax, cupy,
  tensorflow (eager), keras, pytensor, torch, oneflow, paddle, tinygrad, torch-jit, and the library
  parameters. `backend_of` follows the eleven backend classes.
* **einsum, `+=`** of libraries: contracts `einsum_contract` (C30, C31), `iadd_contract` (C31); for both, an
  implementation is given and shown to satisfy the contract (`C30_library`, `C31_library`).

### Conditions of the theorems

Some theorems carry conditions that the plain wording of a property leaves out. Each is in the
note of the property in MANIFEST.json, with the theorems it belongs to if not all have it:

* *no axis written as the character U+2026* (`plain`): the parser takes it for the ellipsis, see section 7;
* *at most 7 dimensions under the ellipsis of a layer* (`e < 8`): layers have no recipes for more;
* *no length called tensor, pattern or reduction* (`no_reserved`): Python binds these to parameters of the function;
* *no -1 as the length of a new axis* (`repeat_sizes_ok`), where the library's expand gives it a meaning (`C04_repeat_minus_one_refuted`);
* *no number below -1 in a packed shape* (`tame`), where the library's reshape accepts those;
* *no named axis of length 0* for pack and unpack: reshape cannot find a length then;
* *the other lengths of a group are not 0* where a length of that group is to be found: the code divides by their product.

## 3. What is modelled

| code | model | remarks |
|---|---|---|
| parsing.py: `ParsedExpression`, `AnonymousAxis`, `check_axis_name` | `Parsing.v` | whole file; warnings about names in `Warnings.v`, those of layers and einsum in `LayerWarnings.v` |
| einops.py: `_prepare_transformation_recipe`, `_reconstruct_from_shape_uncached`, `TransformRecipe` | `Recipe.v` | whole functions |
| einops.py: `_apply_recipe`, `_apply_recipe_array_api`, `_reduce_axes`, `reduce`, `rearrange`, `repeat`, `parse_shape`, `_enumerate_directions` | `Ops.v`, `Api.v` | messages dropped (see the next line) |
| the error messages of parsing.py, einops.py, packing.py, array_api.py | `Messages.v`, `Complaints.v` | |
| the error messages of the layers (layers/__init__.py, _einmix.py) | `LayerMessages.v` | not those of flax, nor a `bias_shape` that is not a string (_einmix.py:128-129) |
| rearrange, reduce, repeat without their assert statements (python -O) | `Unasserted.v` | C64 |
| einops.py: `_optimize_transformation` | `Optimize.v` | dead code in this version (only tests call it) |
| einops.py: `einsum`, `_compactify_pattern_for_einsum`, `_validate_einsum_axis_name` | `Einsum.v` | |
| the four `lru_cache`s | `Cache.v` | most-recently-used lists with a bound; identity of recipes as keys; hash/equality of lengths explicit; `_reconstruct_from_shape`'s TypeError fallback |
| the same, used by several threads | `CacheThreads.v` | lru_cache is atomic in two pieces, lookup and insertion; the computation in between is not |
| packing.py, array_api.py | `Packing.v`, `Ops.v` | |
| rearrange, reduce, repeat, pack, unpack, parse_shape, `_enumerate_directions` while a graph is built (tensorflow, keras, pytensor) | `Symbolic.v`, `SymPacking.v` | dimensions are ints or symbols; a node is what it computes for given inputs of the graph, plus what is known statically; comparison of symbols: TypeError (tensorflow 2, keras), identity (pytensor) |
| `create_symbol`, `eval_symbol`, and programs of calls in between | `GraphProg.v` | C94; that a library refuses values for symbols that do not occur is left out |
| selection of backends for the tests (`tests/__init__.py`), `tests/run_tests.py` | `Selection.v` | C95; messages and printing left out |
| objects: recipes and cooked recipes shared through the caches (`_reconstruct_from_shape_uncached`, `_apply_recipe`, `_apply_recipe_array_api`, `_reduce_axes` again, with identities) | `Heap.v` | a heap of lists and dicts; lists that are only used within one expression are not allocated; library functions do not change their arguments |
| _backends.py: all backend classes (shape, reshape, transpose, reduce, add_axes, stack, concat, slicing, arange) | `Backends.v`, `Symbolic.v` | see section 2 |
| _backends.py: `get_backend` | `Registry.v` | the two global dictionaries, `sys.modules`, constructors that may fail |
| a process: `get_backend`, the caches and the layers together; `asnumpy`; `_prepare_recipes_for_all_dims` through the cache | `Session.v` | sequential; `to_numpy` keeps the elements (Keras: NotImplementedError, as for its einsum) |
| `get_backend` alone, called by several threads | `Threads.v` | a step is one access to a dictionary or `sys.modules`, or one constructor call; any interleaving |
| the same with EinMix layers | `MixSession.v` | sequential; parameters are given at each call |
| _torch_specific.py: `allow_ops_in_compiled_graph`, run by the import of the module; the constructor of TorchBackend | `Dynamo.v` | C88; on top of `Registry.v`; classes derived from TorchBackend by users, which would run its constructor too, and unloading the module from `sys.modules` are outside |
| shapes of the tensors made on the way | `Footprint.v` | C87; the code of `Ops.v` and `Packing.v` over tensors with logs; the backend classes repeated with a note after each library call |
| the same for layers, einsum and EinMix | `LayerFootprint.v` | C102; layers/__init__.py, _torch_specific.py:77-99, layers/torch.py; einsum and += of the library are parameters |
| which bodies of the functions under `lru_cache` are run | `Work.v` | on top of `Cache.v`; sequential |
| whole calls and layers in several threads | `Crowd.v` | steps as in `Threads.v` and `CacheThreads.v`; a layer is called once the call that makes it has returned |
| programs in several threads, without and with EinMix layers | `Team.v`, `MixTeam.v` | C89, C90; on top of `Crowd.v`; a program is a function from answers to the next call |
| lengths that are integers of numpy | `NumpyInts.v`, `NumpyIntLayers.v`, `NumpyIntMix.v` | C91; layers and EinMix with empty caches; exact arithmetic; numpy's floor division by zero gives zero, its true division by zero the infinity |
| _torch_specific.py: `TorchJitBackend`, `apply_for_scriptable_torch` | `Backends.v`, `Layers.v` | scripting itself not |
| layers/__init__.py, `Rearrange`, `Reduce` of torch, tensorflow, keras, paddle, oneflow | `Layers.v` | `__getstate__`/`__setstate__`, `get_config` |
| `__repr__` of the layers, `get_config` of EinMix (tensorflow) | `Texts.v` | which non-ASCII characters are printable is a parameter |
| layers/flax.py (`setup` postponed to the call, sizes in a dictionary) | `Flax.v` | parameters are given; flax itself not |
| `call` of the layers in tensorflow.py on graph nodes | `SymLayers.v` | tf.einsum and + on nodes are parameters |
| rearrange, reduce, repeat, pack, unpack on arrays that are views of buffers (numpy, cupy, torch, oneflow, paddle) | `Strides.v` | C67; which library functions return views is taken from the libraries' documentation; when reshape does is a parameter |
| the layers and EinMix on such arrays, with the in-place `result += bias` | `LayerMemory.v` | C79; whether `+=` writes in place is a parameter; that the library's einsum returns a new array is an assumption of C79_einmix, not of C79_einmix_values |
| rearrange, reduce, repeat, pack, unpack and `is_float_type` on tensors with element types | `Dtypes.v` | C69; a type is its name; promotion and types of reductions are parameters |
| Layers, einsum and EinMix on tensors with element types | `LayerDtypes.v` | C99; the types after einsum and `+=` are parameters |
| layers/_einmix.py and the `EinMix` classes | `EinMix.v` | shapes of the parameters and the number under the root of the bounds; the warning for an empty weight and a `bias_shape` that is not a string are in `LayerWarnings.v` |
| layers/_einmix.py, `_EinmixDebugger` | `Debugger.v` | the attributes that the tests read |
| layers/_einmix.py, `_EinmixMixin` itself | `Abstract.v` | C106 |

## 4. What is not modelled

* Floating point rounding (elements are an abstract type, the order in which a library adds is outside), devices,
  autograd, the libraries' rules for element types (parameters, C69), overlap of a write with a read inside one library call.
* Type annotations, `_debug_importing`, the test functions of `einops/tests` (their cases are examples in `Test*.v`), `experimental` (empty).
* The limit on the number of digits of `int(...)`; recursion and memory limits.
* Base classes of framework layers (`torch.nn.Module`, keras `Layer`, flax `Module`): only the attributes einops sets. The
  distribution of random numbers (of the first parameters of EinMix only the range, C77). TorchScript and `torch.compile`
  (C88 is about the registration of functions, not about what torch does with it).
* Most of the model has values instead of mutable objects. That sharing of recipes and cooked recipes between calls is harmless
  is C52, on a model with object identities; there the functions of the libraries are taken not to change the lists they get.
* Non-integer lengths (other than in C11's counterexample), `Tensor` subclasses overriding methods.
* `from_numpy`: used by tests only. `to_numpy` (behind `asnumpy`) is taken to keep the elements.

## 5. Layout

| files | content |
|---|---|
| `Py.v`, `Tensor.v` | Python fragment, tensors and library primitives |
| `Parsing Recipe Ops Backends Api Packing Symbolic SymPacking Einsum Optimize Registry Threads Cache CacheThreads Heap Layers EinMix Texts SymLayers Flax Warnings Messages Complaints LayerMessages Unasserted Strides Dtypes Session Initial LayerMemory LayerWarnings Crowd MixSession Work Footprint Dynamo Team MixTeam NumpyInts NumpyIntLayers NumpyIntMix GraphProg Selection` | the model |
| `Spec*.v` | specifications, independent of the model's functions: grammar (`SpecGrammar`), meaning of groups of named axes (`SpecSem`), patterns (`SpecPattern`), operations (`SpecOps`), spellings and parse_shape (`SpecForms`), packing, einsum, EinMix, joining of axes, registry, layers |
| `*Facts*.v`, `*Laws*.v`, `Compile.v` | proofs |
| `Instances.v` | a concrete runtime and tactics for the examples |
| `Test*.v` | the library's own tests, run on the model (section 9) |
| `Prop*.v` | the property theorems, each closed by one lemma, with `Print Assumptions` and a concrete case beside it |

## 6. The properties

Full statements are in `properties.jsonl`, theorem names in `MANIFEST.json`.

The central notion: `reads U pattern L R` (the string is written according to the grammar and denotes the
expressions L and R), `call_ok` (the conditions of C08: a length `len a` for each axis a that fits shape, numbers and
sizes), `moves`/`reduces`/`spread` (elements of the result in terms of elements of the argument for every assignment
of indices to axes). Spec files do not mention recipes, positions, or any helper of the code.

| property | how it is proved |
|---|---|
| C01, C03, C04, C22, C39 | end to end, from the pattern string to the elements: the parser implements the grammar (`ParseFacts*`); the recipe is rewritten without positions and set orders (`RecipeFacts`, `InferFacts`); one lemma for each of the five steps about tensors with labelled axes (`StepFacts`, `ApplyFacts`); put together in `MainFacts*`, `ApiFacts*` |
| C02, C05, C06, C07, C36, C40, C12–C14 | from the meaning: tensors are determined by their elements (`Laws`, `RelabelFacts`, `RelabelLaws`, `UnitLaws`) |
| C08, C09 | every place that raises, in order (`MainFacts2`) |
| C10 | two runs with different oracles (`CallFacts`, `MixFacts9`) |
| C11 | invariant of the caches over all histories (`CacheFacts`); the counterexample for 2 == 2.0 is a theorem |
| C15, C16 | parser against an inductive grammar |
| C17, C18, C19, C37 | simulations between backends (`ApiFacts4`, `ApiFacts5`); for the order in which axes are listed, sorting gives one list for all permutations (`ReduceOrder`) |
| C20, C21 | the recipe stored for a rank is the recipe the function computes (`LayerFacts`) |
| C23, C38 | directly (`ParseLaws`) |
| C24–C28 | split positions, slices and reshapes around one axis (`PackFacts*`) |
| C29, C30 | compaction as a renaming; the formula does not depend on names (`EinsumFacts*`) |
| C31, C32, C41, C42 | constructor characterised (`MixFacts`–`MixFacts5`), then the three stages of a call (`MixFacts5`–`MixFacts8`) |
| C33 | simulation of the graph backend by the eager one over a relation between symbols and numbers (`SymFacts*`) |
| C34 | invariants of the registry over all histories (`RegistryFacts`) |
| C43 | invariants over all interleavings (`ThreadFacts`); witness schedules for what fails |
| C44 | invariant over all interleavings: entries are right, and what is left of each call leads to the uncached result whatever it finds (`CacheThreadFacts`) |
| C35 | invariant of the two joining loops (`OptFacts*`) |
| C45, C46 | composition of the relations `moves` and `reduces` (`Laws2`), lifted to calls (`ApiFacts7`) |
| C47 | induction over the items of the left side: each reported length is the length of a group with one axis (`ShapeLaws`) |
| C48 | the pieces of C26/C27 are the elements of C01; the conditions on requested shapes are the conditions of C08 (`PackLaws`, `PackLaws2`) |
| C49 | a bijection between the labels of C30 and those of C03; the formula with one factor is the sum over the missing axes (`EinsumLaws`) |
| C50 | the cooked recipe in closed form, translated from axes to labels; then equality of programs step by step (`CallsFacts`) |
| C51 | simulation of the graph backend by the eager one (as C33), with comparisons of symbols that may fail (`SymPackFacts*`) |
| C52 | a heap of objects (`Heap`); each program on the heap is shown to keep the existing objects and to agree with the program on values of `Recipe`/`Ops`; the caches of references are simulated by those of `Cache`, so that C11 applies (`HeapFacts`) |
| C53 | SpecElements.v says what it means that tensors, inputs, reductions are related; ElementFacts.v shows that every tensor primitive, backend method, and then every step of `_apply_recipe`, `_apply_recipe_array_api`, `pack`, `unpack` preserves the relation. Maps are the case where the relation is a graph; two tensors are handled as one tensor of pairs. |
| C54 | SpecBatch.v defines slices and names the three operations; BatchFacts.v compares the meaning of the two patterns (C01-C04): groups, lengths, reduced axes and the conditions of a call for p and p' differ in the label of b only. |
| C55 | EinsumLaws2.v: both calls follow the formula of C30, whose value is compared (permuted products, distributed sums). EinsumLaws3.v: the repeated tensors have the elements of the operands at the same indices (C02), their product is the product in the formula, and C49 turns the sum into reduce. |
| C56 | SpecTexts.v gives the grammar of call expressions (literals, keywords, numerals). TextFacts.v: the grammar is unambiguous; patterns the parser accepts have only characters printed as they are; names of lengths are identifiers; numerals through the decimal numbers of the standard library. Then C21, C10. Python keywords as axis names and the normalisation of non-ASCII keyword names by Python's parser are outside. |
| C57 | SymLayers.v models `call` of the tensorflow layers on the nodes of Symbolic.v. SymLayerFacts.v: a layer for nodes has the recipes of the layer for tensors; the simulation of C33 is applied to the steps of the recipe; layers made elsewhere by C21 and C10. |
| C58 | Flax.v models setup and __call__ of the flax modules, with the reshapes of EinMix made when they are called. FlaxFacts.v: the layers inside are those of C20, so the facts of C20 apply; for EinMix the programs are compared step by step, the order of construction being the only difference. |
| C59 | Warnings.v follows the functions that check names again, with a list of warnings. WarnFacts.v: the outcome is that of Parsing.v, Recipe.v, Packing.v; the warnings issued so far are determined by the axes stored in the composition so far (invariant of the loop). |
| C60 | AdjointFacts.v: the scalar product as a sum over index tuples of elementary axes (Laws.flat_data), reordered so that the axes only the repeated tensor has come last; the inner sum is what `reduces` says about sum. `filled` gives a tensor from a function on assignments, so that the adjoint call exists. |
| C61 | EquivalentFacts.v: each pattern is accepted (ApiFacts), its result is determined by `moves`/`reduces`/`spread`, and the array function (t_transpose, t_reduce, t_concat, t_tile of Tensor.v) satisfies the same description, so the two tensors are equal (Tensor extensionality). numpy.repeat is described by `quotients` (index divided by the count), as it is not among the primitives of the backends. |
| C62 | Messages.v repeats the functions of Parsing.v, Recipe.v and Ops.v with the message of every EinopsError, and models the two handlers with the state of the local variables `tensor` and `shape`. MessageFacts.v: forgetting the messages gives back the other model, step by step, so nothing is assumed about the copy. A backend that cannot be found, or a stacking function that raises EinopsError, is outside (get_backend raises RuntimeError). |
| C63 | SpecMessages.v states the claim of each message with the vocabulary of the grammar (tokens, atoms, labels of the pattern), not with the parser's data. MessageFacts2.v: messages of the parser, by induction on the characters with the tokens read so far. MessageFacts3.v: messages of the recipe (sets of axes, numbers of dimensions, named lengths, axes that cannot be inferred). MessageFacts4.v: messages about lengths (invariant: given lengths stay as given while dimensions are inferred), and no other step raises EinopsError. The texts themselves (mistake_text, report) are model definitions; two complete reports are computed as tests. |
| C64 | Unasserted.v is the model with the assert statements left out. UnassertedFacts.v: groups of a pattern have no duplicates, so the assert on known/unknown axes holds for any lengths; a named operation other than the reductions never gets to reduce anything (for patterns that use the character U+2026 literally the library refuses a permutation with duplicates before). |
| C65 | Complaints.v repeats the functions of Packing.v, Ops.v (parse_shape) and Einsum.v with the message an exception carries; ComplaintFacts.v shows that forgetting the messages gives the original functions. SpecComplaints.v states the claim of each message with the vocabulary of the other specifications. ComplaintFacts2.v: pack and unpack; for the message about splitting, if the axis could be divided then the pieces exist and unpack would have returned them (completeness theorem of C27). ComplaintFacts3.v: parse_shape and einsum, by the first element at which a loop stops. The texts (complaint_text) are model definitions; four complete texts are computed as tests. |
| C66 | LayerMessages.v repeats the constructors of Layers.v and EinMix.v with the message an EinopsError carries; LayerMessageFacts.v shows that forgetting the messages gives the original functions. SpecLayerMessages.v states the claim of each message. LayerMessageFacts2.v and 3.v: truth, stage by stage of initialize_einmix, from C63's lemmas about prepare_recipe and parse_expression; LayerMessageFacts4.v: no EinopsError without a message, and the classification of the other exceptions. Not covered: a bias_shape that is not a string (lines 128-129) and flax, whose description is flax's. |
| C67 | Strides.v models a tensor as buffer, offset, shape and strides, and instantiates the generic model of Ops.v and Packing.v with operations on these: transpose, expand_dims, expand and slicing make views; reshape makes a view if the library's rule (parameter nocopy) gives strides, else a copy; everything else fills a new buffer. SpecStrides.v: an array shows a tensor. StrideFacts.v: each view operation is the reference operation on the tensor of places. StrideFacts2.v: values, by simulation. StrideFacts3.v: sharing; the plan of the call is known from CallsFacts.v (cooked_known), the first reshape only splits, the last only inserts ones. StrideFacts4.v: unpack, pack, lists, writing. StrideFacts5.v: an example of a reshape rule. |
| C68 | EinsumLaws4.v, from C30: the labels summed over in the one call are those of the second followed by those of the first; the first call may see smaller lengths under the ellipsis (inner_len), then its dimension is broadcast in the second; the product distributes over the inner sum. |
| C69 | Dtypes.v runs the same generic code (Ops.v, Packing.v) over tensors with a type; DtypeFacts.v relates each operation of that backend to the one without types and follows the type through the recipe. |
| C70 | LabelFacts.v: outcome of the translation for any pattern that reads (errors included) depends on names only through their order of first appearance. MixLaws.v: the description of EinMix results (mixes) determines the result and is invariant under renaming; the rest is C31 and C41 for both layers. |
| C71 | MixLaws2.v: the description of EinMix results (mixes) is closed under sums and scalars, and determines the result, so C31 for the three calls gives linearity. Transposition: both inner products are the same sum over all axes of the pattern, taken in two orders. |
| C72 | SpellingFacts.v: texts that parse alike lead to the same recipes; calls of layers are calls of the common core (LayerFacts.v), which does not depend on the order of lengths; EinMix step by step, errors included. |
| C73 | GradFacts.v: both scalar products are the same sum over all labels of the call, in another order. GradFacts3.v: the same with axes of the operand alone. GradFacts2.v: the elements of a packed tensor, stretch by stretch. |
| C74 | Session.v puts Registry.v, Cache.v and Layers.v together. Invariant: the registry was reached by a history of our backends and knows all imported modules; the caches are reachable; each stored layer has recipes that are kept under their identities and behaves like the layer made without caches. Each request preserves it and answers right; induction on the program. |
| C75 | einsum: both calls computed by the formula of C30 with the same list of summed labels; per operand, the element at an index of the batch is the element of the slice (`op_element`). pack/unpack: a slice of a piece is a piece of the slice (`piece_before`, `piece_after`), with the exact descriptions of C26 and C27. EinMix: the formula of C31 restricted to one index of the batch is the formula for the slice (`mixes_slice`), and the formula determines the output. |
| C76 | Both calls are computed by the formula of C30 (C31) with one list of summed labels; `element_alike`, `product_alike`, `sum_alike` carry the relation through the formula, `mixes_alike` for EinMix. |
| C77 | `create_parameters` per library gives requests (shape, lower and upper bound as sign and square); a library answers any request whose range contains 0. `products_count`: the summed axes are those of the weight (product fan_in) and the others. `first_output`: (sum of n terms)^2 <= n * sum of squares, applied to the formula of C31. Objects: a small state machine with the parameters and the number of draws. |
| C78 | SpecDistinct.v says when a reduction notices a single element. DistinctFacts.v: a list of axes of lengths at least 2 is determined by the positions it gives to the assignments that are 1 on one axis and 0 elsewhere (induction from the last axis, whose stride is 1); a tensor that is constant except at one position goes to a result that differs from the constant one exactly at the image of the position. DistinctFacts2.v carries this to rearrange and reduce through the meanings of C01 and C03; for reduce it is first shown that both patterns reduce the same number of elements, so either both reduce or none does. |
| C79 | LayerMemory.v: the layers of Layers.v and EinMix.v on the arrays of Strides.v; the in-place sum returns the memory after it. LayerMemoryFacts.v: values by simulation, buffers by following the four steps; the plan of a layer is that of the function (cooked_known, for two orders of set iteration). LayerMemoryFacts2.v: storing at pairwise different places, the constructors on arrays and tensors, the call of EinMix, examples of libraries. LayerMemoryFacts3.v: the same when einsum may return memory in use. |
| C80 | NormalFacts.v: numbers written in mixed radix with given strides have one representation in which no two digits can be merged. NormalFacts2.v: strides, kept axes in output order, the position in the output as such a number; the least input position for an output position. NormalFacts3.v: the result on a tensor with one different element. NormalFacts4.v: from equal results on these tensors to equal plans; lengths stay at least 2 under joining. NormalFacts5.v: examples. |
| C81 | LayerWarnings.v: the constructors again, as functions from the contents of the recipe cache to warnings, outcome and new contents. LayerWarnFacts.v: the loop over the numbers of dimensions. LayerWarnFacts2.v: Rearrange and Reduce. LayerWarnFacts3.v: EinMix; the patterns of the layers before and after differ, so neither finds recipes of the other. LayerWarnFacts4.v: the weight without axes, no false alarms, einsum. |
| C82 | Crowd.v: a call is a tree of steps on the registry and the caches; a process is a list of calls. SpecCrowd.v: the right answer is that of SpecSession.v. CrowdFacts.v: the registry's and the caches' invariants, and what a call may still do. CrowdFacts2.v: all requests start that way. CrowdFacts3.v: histories. CrowdFacts4.v: the number of steps. CrowdFacts5.v: calls that are not interrupted. |
| C83 | SpecWording.v: the templates as in the source, str.format, a reader of Python literals, sets and dicts. WordFacts.v: the model's texts are the templates filled in; the reader undoes str_repr, set_text and dict_text. |
| C84 | MixSession.v: Session.v plus stored mixes, whose inner layers are layers of the process. SpecMixSession.v: the answers by EinMix and call_einmix, hypotheses. Proof: the invariant of C74 for all layers, own and inner. |
| C85 | SpecPackStages.v: the length asked for a group. PackStages.v: a tensor consists of pieces iff it consists of groups that consist of the pieces. UnpackStages.v: both stages by C27. |
| C86 | Work.v: which bodies of cached functions a call of Cache.v runs, and the caches after a history. SpecWork.v: when a request is remembered, in terms of the requests made and which are accepted. WorkFacts.v: a least recently used cache holds the latest different accepted keys, as many as fit. WorkFacts2-4.v: this for the caches of patterns, and warm plans. WorkFacts5.v: new plans, by an invariant on the identities of recipes. |
| C87 | Footprint.v runs the generic code of Ops.v and Packing.v over tensors with a log of the shapes made on the way to them. FootprintFacts.v: without logs these are the functions of Api.v and Packing.v (C87_same); each operation keeps the logged sizes below the bound, since a step either keeps the number of elements, reduces, or is the one repetition that leads to the size of the result. FootprintShapes.v: the exact list of shapes, from C50 applied to tensors with logs. |
| C88 | Dynamo.v models the function and the constructor of TorchBackend on top of the registry of Registry.v. DynamoFacts.v: invariant over histories: the module is in sys.modules iff exactly one import ended without an exception, and every TorchBackend object in the registry was made after that; all effects come from calls in worlds met. |
| C89 | Team.v: threads that run programs, on top of Crowd.v. SpecTeam.v: a program alone. TeamFacts.v: invariant of one thread (its layers are those of the calls it made; the call it is in is on its way, in at most n steps) kept by its own steps and by everything else. |
| C90 | MixTeam.v: EinMix as a program of Team.v: its making and its call are calls of Rearrange layers with computations between them. SpecMixTeam.v: a program alone with EinMix.v. MixTeamFacts.v: the program with EinMix, written out, gets alone what the specification says; the rest is C89. |
| C91 | NumpyInts.v: a length is an int or an integer of numpy; the model of Recipe.v over such lengths. NumpyIntFacts.v: the computation with ints, step by step next to the one with such lengths; they differ only where the former raises. NumpyIntFacts2.v: calls; a transposition permutes the elements. NumpyIntFacts3.v: elements; caches, whose keys compare by value. NumpyIntLayers.v, NumpyIntLayerFacts.v: the layers Rearrange and Reduce, not EinMix, with empty caches. NumpyIntCases.v: the witnesses. NumpyIntMix.v, NumpyIntMixFacts.v: EinMix; each step of the constructor with ints is the step with such lengths, read as ints, up to the division. |
| C92 | SpecMixGrad.v: the two gradients as sums over the remaining axes. MixGradFacts.v: a scalar product of an output with z is a sum over all axes; sums over all axes are split into the axes of a parameter and the others; the layer is described by C31, its linearity by C71. |
| C93 | SpecMixFuse.v: the weight as a sum over the axes that occur only between the layers. MixFuseFacts.v: sums over axes may be split, reordered and taken out of products, so the formulas of C31 compose. MixFuseFacts2.v: einsum of the weights computes that weight (C30); the three layers (C31). MixFuseFacts3.v: a bias in the first layer leaves the second as part of its bias; such a bias exists and is given by a formula. |
| C94 | GraphProg.v: programs over any kind of tensors, instantiated eagerly and with nodes; create_symbol, eval_symbol. GraphProgFacts.v: one simulation for all calls, from those of C33 and C51, then induction on the program. |
| C95 | Selection.v: the selection of backends and the program run_tests, with the programs it starts (arguments, environment) recorded and their exit codes given. SelectionFacts.v: splitting at commas undoes joining; main is the execution of an explicit list of programs. Two refuted claims: the empty list does not survive unparse/parse, and keras cannot be asked for. |
| C96 | SpecDocumented.v: elements at an index, nested sums, the forms of the patterns. DocumentedFacts.v: the contract of einsum with assignments of lengths to labels, split into blocks, gives the explicit sums. DocumentedFacts2.v: a flat EinMix is einsum with the weight. DocumentedFacts3.v: the linear layer of each head from the general law of EinMix (C31). |
| C97 | MixMoveFacts.v: the law of elements of EinMix (C31) composed with the law of elements of rearrange (C04); the bias moves by the names of the right side. SpecTurned.v: transposed operands; TurnedFacts.v: a flat rearrange relabels, and the contract of einsum reads the operands by labels only. |
| C98 | SumAfterFacts.v: reduce with 'sum' is einsum of one operand (C49), einsum in stages (C68). MixSumFacts.v: the law of elements of EinMix (C31) and of reduce (C03) composed as sums over labelled axes. |
| C99 | LayerDtypes.v: the calls of Layers.v, Einsum.v and EinMix.v on the typed tensors of Dtypes.v, with the library's rules for types as parameters. LayerDtypeFacts.v: a step-by-step simulation that forgets the types; constructors are compared with `both`. Types: a Rearrange layer that had something to reduce would have raised, on every backend. |
| C100 | SpecWidened.v: an operand left as it is or repeated. WidenedFacts.v: both calls of einsum are the documented sum (`einsum_exact`) over the same labels; a repeated operand has the same elements at the labels it had before. RepeatDropFacts.v: the same for the step inside EinMix between the two rearranges, then as in C97. |
| C101 | Debugger.v: the constructor of EinMix.v with the saving methods of _EinmixDebugger. DebuggerFacts.v: step by step beside the constructor of the layers; acceptance as in C41. The examples are the seven cases of the tests. |
| C102 | LayerFootprint.v: the calls of Layers.v, Einsum.v and EinMix.v on the tensors with a log of Footprint.v. LayerFootprintFacts.v: erasing the log gives the calls of the model (constructors are compared with `both`); a layer's call runs the steps of its recipe on the backend of its framework, so the bounds and shapes of C87 apply; a Rearrange layer's recipe adds no axes and could not reduce any. LayerFootprintFacts2.v: the recipes of EinMix's two layers keep the order of the axes and only split, or only join, so each needs at most one reshape. MixShapes.v: the shapes EinMix makes, from those of its two layers and the contract of einsum. |
| C103 | No new model: `t_concat` is the library's concatenate (Tensor.v). ChunkFacts.v: slices of a concatenation; an operation that is given by an operation on slices commutes with concatenation; C54 gives this for the operations, C20 carries it to the layers. MixChunks.v: the same from C75, whose statement for EinMix also says that the batch keeps its length. SpecChunks.v, EinsumChunks.v: the same for einsum; with another length for one name a good call stays a good call. PackChunks.v: for pack and unpack a piece is a choice of consecutive elements (PackSelect.v, C104). ChunkEmpty.v, ChunkEmptyMix.v, EinsumChunksAll.v, PackChunksAll.v allow empty pieces: concatenation ignores them, and the call on an empty piece returns an empty result (BatchEmpty.v). |
| C104 | No new model. SpecSelect.v says what a choice is, by slices. SelectFacts.v: an operation that is given by an operation on slices (C54, C75) commutes with choices; for einsum the chosen operands fit the lengths with another length of the one name (EinsumChunks.v). pack and unpack are compared piece by piece in PackSelect.v, without a pattern that lacks the axis. Choosing nothing has no slices to compare, so it is proved apart (SpecEmpty.v, BatchEmpty.v, BatchEmptyMix.v, EinsumEmpty.v, PropEmpty.v): with length 0 for the one name the lengths still fit, so the call returns, and the shape is that of the whole with 0. For pack and unpack see PackEmpty.v and PropPackEmpty.v: the reshape has a -1 next to a 0 in pack, and in unpack only if a shape has one. |
| C105 | No new model: the logging version of the backends of C87 and of the layers of C102 (Footprint.v, LayerFootprint.v). The exact shapes of C87 and C102 are bounded in RankFacts.v, those of EinMix in MixShapes.v; pack and unpack directly. |
| C106 | Abstract.v: the steps of EinMix.v with the two methods that raise NotImplementedError. AbstractFacts.v: the condition is that of the parsing part of EinMix (MixFacts4.v). |

## 7. Where the code does not do what one would expect

Stated as theorems (names ending in `_refuted`, or part of the statement):

* repeat with a new axis of length -1 in torch/oneflow/paddle: accepted, length 1 (`C04_repeat_minus_one_refuted`).
* ZeroDivisionError, TypeError, backend errors instead of EinopsError (`C09_only_einops_error_refuted`).
* A call with the length 2.0 poisons the cache for the length 2 (`C11_equal_numbers_refuted`).
* The character U+2026 is accepted as an ellipsis (`C16_ellipsis_character_refuted`).
* torch layers do not support any/all, and do not refuse means of integers (`C20_torch_any_refuted`); KeyError for layers and more than 7 dimensions under the ellipsis.
* unpack returns overlapping pieces when the known shapes ask for more than there is and one shape has -1 (`C25_overlap_refuted`, `C27_overlap_refuted`, `C27_negative_refuted`).
* einsum accepts parentheses around one name (`C29_no_parentheses_refuted`).
* The Keras backend's test looks at more than the type, so the cached choice can be wrong (`C34_accepts_refuted`).
* get_backend is not thread-safe: it may raise "Tensor type unknown" for a tensor whose backend another thread is just adding (`C43_failure_refuted`; a second try succeeds, `C43_second_try`), make two backends for a framework (`C43_once_refuted`), and replace the backend of a type (`C43_sticky_refuted`).
* In graphs, lengths that are symbols are not compared with given sizes (`C33_unchecked_refuted`); tensorflow's unpack fails on what pack returned if a packed length is not known (`C51_unpack_tensorflow_refuted`); parse_shape rejects the right number at a symbolic dimension, with keras at every dimension (`C51_parse_shape_number_refuted`).
* unpack says that an axis could not be split although it could be, if another axis is empty (`C65_split_refuted`).
* pack fails on an empty batch, where all other functions return (`C104_empty_pack`); unpack of an empty batch accepts shapes that do not add up to the packed axis (`C27_unpack_empty`).
* Python keywords are accepted as names of axes, contrary to the docstring of `check_axis_name` (`C59_keywords_invalid_refuted`).
* `run_tests` cannot be asked for `tensorflow.keras`, hence the tests of symbolic layers never run through it (`C95_keras_refuted`); `unparse_backends([])` gives a value that `parse_backends_to_test` rejects (`C95_empty_refuted`).
* EinMix silently ignores some contradictory lengths (`C42_wrong_size_accepted`), raises KeyError beyond 26 names, ZeroDivisionError for a summed axis of length 0.

## 8. Mutation tests

`seeded/LOG.jsonl`: edits of the model that make it a wrong program, with the lemmas and property theorems that
fail. (The driver replaces the proof of each failing lemma by an admission and goes on, then reads off the
`Print Assumptions` outputs which property theorems now depend on an admission.)

## 9. The library's own tests, run on the model

The code cannot be run here, so that the model does what the code does rests on reading it. As a check, the files
`Test*.v` transcribe the cases of `/repo/einops/tests` and of the docstrings (patterns, lengths, shapes, expected results
and exceptions) and evaluate the model on them, for every framework a test runs on: parsing and parse_shape (`TestParsing`),
rearrange, reduce, repeat, array API, lists, callables, directions (`TestOps`), graphs (`TestGraphs`), pack and unpack
(`TestPacking`), einsum, EinMix, flax (`TestEinsum`), layers and pickling (`TestLayers`), docstrings and test_examples.py
(`TestExamples`). All hold. Left out: gradients, `torch.compile`, scripting, conversion to and from numpy, dtypes, the random
stress tests (replaced by chosen permutations; C01-C04 cover them), means of floats; shapes are smaller where evaluation
would take long. The test of `_optimize_transformation` is C35. These are tests
on samples, not unbounded claims: each is checked by the kernel while building (`Succeed Definition holds : ... := ...`; the
build fails if it does not hold) and not kept, because coqchk would redo the evaluation without the virtual machine.
