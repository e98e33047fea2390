# Formal model of xtensor in Rocq: design

## Approach

The model is a set of small total Gallina functions that follow the C++ sources
function by function. Every definition carries a comment with the file and lines
of `/repo` it models. C++ failure is explicit: model functions return

    res A := Ok a | Throw exception | UB reason

so out-of-bounds array accesses, division by zero and the like are a distinct
outcome (`UB`), and a theorem that concludes `= Ok ...` also states memory safety.

* Extents, strides, offsets and indices are `Z`; numbers of dimensions and loop
  counters are `nat`. Unless a definition says otherwise machine arithmetic is
  the mathematical one; property C06 shows when this is exact.
* C++ loops are `for_up`/`for_down`/fuelled loops over an explicit state.
* Elements are an arbitrary type `A`; buffers are `list A`.

Files, per area `X`: `X_Model.v` (definitions only), `X_Spec.v` (the small
independent specification, when one is needed), `X_Proofs.v` (lemmas),
`X_Props.v` (only the property theorems, each closed by `exact`, followed by
`Print Assumptions`, and `Example`s showing the hypotheses are met).

## Per-property plan

| id | model | proof |
|----|-------|-------|
| C01, C02 | `compute_strides`, `adapt_strides`, `element_offset` as loops | loop invariant, Horner form of positions |
| C03 | `unravel_noexcept`, `ravel_index` | mixed-radix division, induction on shape |
| C04, C05 | `data_offset`, `raw_data_offset`, `layout_data_offset` recursion on argument packs | induction on the argument list |
| C06 | checked 64-bit versions of the C01 functions returning `UB` on signed overflow, wrapping for unsigned | refinement to the unbounded functions; witness without the hypothesis |
| C07-C09 | `broadcast_shape` with its sentinel, folded over operands | per-axis join semilattice, induction on operands |
| C10 | `normalize_periodic`, `check_in_bounds` | modular arithmetic; refutation for short index lists |
| C11-C13 | steppers and `stepper_tools` as state machines | simulation between the stepper state and the multi-index |
| C14-C16 | assigners over buffers | refinement to a pointwise specification; schedules as permutations |
| C17, C18 | the slice classes with C division | arithmetic; comparison with a Python slice specification |
| C19 | `fill_args`, `xview` index maps | induction on slices, composition lemmas |
| C20, C21 | `xstrided_container` state machine | invariant by induction over operations |
| C22 | `svector` with explicit inline buffer, heap buffers and pointers | refinement to lists |
| C23-C27 | manipulation functions on (shape, strides, offset) triples | index algebra |
| C28 | bitwise-and table | exhaustive cases + induction on the list |
| C29, C30 | `do_strides_match`, `xt::strides` with its stride types | loop invariant; exactness in both directions |
| C31 | `check_access`, `at()` | comparison with `in_bounds` |
| C32, C33 | `xfunction` shape cache, `xbroadcast` | state machine of the cache; per-axis arguments |
| C34, C35 | expression trees with one stepper per leaf | simulation lifted from leaves to trees |
| C36 | `operator=` of containers and views, overlap test, temporaries | refinement to "evaluate first, then store" |
| C37 | `concatenate_invoker`, `stack_access`, `hstack`, `vstack` | index algebra |
| C38-C40 | generators: `eye`, `diag`, `arange`, `linspace`, `meshgrid` | closed form of each element |
| C41 | `xreducer`, its stepper and nested aggregation | the stepper is back where it was after each aggregation (invariant over the axes); element = fold in row major order |
| C42 | `reduce_immediate`: copy shortcut, complete reduction, loops with merged inner axes | invariant over the flat loop; column major by mirroring; agreement with C41 |
| C43 | `accumulator_impl` with and without axis, `accumulator_init_with_f` | invariant of the loops over flat positions (block, axis, inner); column major is the same with the sides exchanged; strides hypothesis proved an invariant of container histories |
| C44 | `sort`: lanes over the leading axis, permutation and evaluation of the transpose | the flat blocks of a leading axis are its lanes; the transposition maps lanes to lanes; any `std::sort` that meets the standard |
| C45 | `argsort`, `argsort_iter` | the same with a second array of positions; stability from `std::stable_sort` on positions |
| C46 | `partition`, `argpartition`, `partition_iter` | invariant: the range beyond the last position is in its final place; any `std::nth_element` |
| C47 | `argmin`, `argmax`, `arg_func_impl` | fold invariant on a lane; order of the result iterator = order of the lanes when the layouts agree |
| C48 | `unique`, `setdiff1d` | induction over `std::unique` and `std::set_difference` |
| C49 | `isin`, `searchsorted` | partition points of sorted sequences; one-argument access covers a row major array |
| C50 | `median` | counting: an element in place is equivalent to the element of the sorted sequence |
| C51 | `xchunked_array`, its chunk iterator and assignment, `as_chunked` | division with remainder per axis; `++` of the chunk iterator is the row major successor; histories simulate an array |
| C52 | `next_idx`, `argwhere`, `nonzero`, `flatnonzero`, `ravel_indices`, `flatten_indices` | the index loop is iteration over the list of indices in order L; result characterised by membership and strict order |
| C53 | `index_view` reads, fills, scalar and expression assignments with the overlap check, `filter`, `filtration` | contents after the n-th write; the memory ranges of views whose ends are extreme enclose their elements |
| C54 | `operator==` on expressions, `trim_zeros` | induction on the index list / on the position found |
| C55 | `pad` in all six modes, one width for all axes | one lemma for a copy along an axis whose source misses its target; invariant: after the axes below k, every index whose other coordinates are in the centre is right |
| C56 | `tile` | the same lemma, with an inner loop over the repetitions |
| C57 | `dump_npy`, `load_npy`; the npy format is specified on bytes (decimal numbers, Python tuple and dictionary, little endian length) and a value type is any type with an encoding in a fixed number of bytes | the writer produces a file of the format; the parser is run on any file of the format; the buffer gives back the elements |
| C58 | the reader on files that are cut, or of another version, type or order | every cut point of a file is covered: before the header it throws, in the header it is undefined, in the data a prefix of the elements is right |
| C59 | `repeat`: the shape, the stepper with its positions, sub-position and remaining steps, element access, iteration and the assignment loop, over any expression tree | the stepper obeys the laws used for C11 (relation between positions and blocks of repeats), so the general iteration proof applies; loops by induction on the remaining blocks |
| C60 | `view(e, slices...)` of expressions without a buffer or with keep/drop slices: `xview_stepper`, its position keeper, its start and end, iteration, the assignment loop reading and writing through it | the stepper driven through the view obeys the (weakened) laws of steppers: the position in the expression is a function of the index of the view, one axis at a time; the start and end loops by induction on the slices |
| C61 | `axis_begin/axis_end`, `axis_slice_begin/axis_slice_end`: construction of the views, `++` with its wrapping offset and remainder test, equality | the state after k increments in closed form; the jump test is right for every k exactly under `slices_ok` (both directions proved); end iterators compared for every k |
| C62 | `xstrided_view::fill` and `= scalar`: the run over consecutive memory and the stepper loop | C19 gives the strides and the label of the view; a contiguous label means that the positions of its elements are an interval, otherwise the stepper law of C11 |
| C63 | `histogram_imp` (both loops), the overloads, `linspace` edges, `digitize`, over an abstract arithmetic with two instances: exact rationals and binary64 of Coq's `SpecFloat` | loop invariant: the counts so far are the sums over the items visited; the sorted loop uses C44; refutations by computation in binary64 |
| C64 | `bincount`, `histogram_bin_edges` with mode uniform, `bin_items` | loop invariants; `bin_items`: the excess of the rounded-up counts is less than the number of positive weights, and the largest weights come first after the argsort |
| C65 | `shuffle`, `permutation` over an engine that is any function from its state to a number in range | invariant of the Fisher-Yates loop over a list of memory positions; naturality of the swaps to lift rows of a container to row numbers; induction on the last position for the bijection between draws and orders |
| C66 | `choice` with and without weights | loop invariants; reservoir sampling: induction on the number of items seen, counting the draws that lead to a given subset; weighted: partition point of the cumulative weights, and the specification of `std::partial_sort` |
| C67 | `reshape_view`, one extent -1, `ravel`, `flatten`, access to a strided view by position | the flat adaptor turns a position into the index of that rank; ranks of both shapes are bijections onto the same interval; product of the other extents by induction; ravel through the random access iterators of C35 |
| C68 | `dynamic_view`, its element access and the adjustments for keep and drop slices | the loop of `fill_args` as a relation between slices and axes, by induction; offsets of kept and dropped positions are added axis by axis; the strided part as in C19 |
| C69 | the multi-index iterator, the constructor, the ranges of blocks, `assign_to`, the functors cell by cell | the loop over blocks visits the row-major list of multi-indices; the boxes of the blocks partition the reduced elements (a permutation), by `NoDup` and equal membership; merging is folding on; variance from the sums of elements and squares, by `field` |
| C70 | `convolve` in both modes, over integers; the loops read by checked index | the two nested loops are sums over ranges; the double sum over all pairs is reindexed |
| C71 | `interp` with and without end values, over rationals | invariant of the three loops: the counters split the sorted points into below, between and above |
| C72 | `mean`, `variance`, `average` on top of the reducers, over rationals | the lazy reducer theorem gives the sums; sizes of blocks times the size of the result is the size of the operand; the reshaped means read through their strides are the means of the block |
| C73 | functors of the NaN reductions, counts and minmax as arguments of the lazy and immediate reducers and accumulators | each functor obeys the merge law; folds computed by induction; the reducer and accumulator theorems C41, C42, C43 |
| C74 | diff, trapz with a step and with points, the slices they build, on top of strided views, assignment and reducers | the two views of the array are its elements at i + 1 and i; invariant over the n assignments from C36; the sum from C72 |
| C75 | radix2, Bluestein's transform, fft, ifft and fft::convolve over an arithmetic given by its operations, on top of the slice iterators | even and odd halves by induction; orthogonality of the characters and the convolution theorem; the lines by an invariant over the slices of C61 |
| C76 | getline, the conversions of cells, load_csv, dump_csv over any expression, load_file and dump_file | induction over the lines and cells of an independently described text; loop invariants over the stepper for writing |
| C77 | uvector, the owning and the non-owning buffer storage, over an explicit heap with failing allocations | invariant "every live block has exactly one owner" over all programs; the contents refine value semantics |
| C78 | the comparison operators of uvector and of buffer adaptors | induction over both sequences, against an independent lexicographic order |
| C79 | to_json and from_json, on the model of strided_view: the recursion over integer slices, json_dimension, json_shape with the storage of the shape vector, resize | induction over the remaining axes with an in-bounds prefix; nested lists as the specification |
| C80 | quantile along an axis: the ranks and coefficients, partition (C46), the list of indices of select_indices, the two reshape_views, the sum over the pairs, eval and moveaxis; exact rationals | every step as a function of a shape split at the axis; row-major ranks of the merged axes agree; order statistics from in_place and a sorted permutation; Hyndman and Fan's formula as the specification |
| C81 | xtensor_fixed: compile-time strides, backstrides and size, construction, reshape, is_contiguous; the shape type and the flag `trivial` of functions of fixed containers; assignment to and from them | compile-time values equal those of compute_strides; broadcasting of the argument types equals broadcasting of the operands; then the assignment theorem of C36 with a fixed destination or a statically known shape |
| C82 | construction of xarray, xtensor and xtensor_fixed from nested initializer lists: the shape of the list, nested_copy through a pointer or a row-major iterator | the copy is a fold over the leaves in order; pointer by list surgery, iterator by the invariant of C11; leaves of a rectangular list by row-major rank |
| C83 | norms of integral types with their promotions and overflows, the reductions built from them (lazy, immediate, without axes, axes in braces), induced norms | the merge law for sums that wrap or overflow, over accumulated values that may be undefined; folds of the blocks of C41 and C42; noexcept turns exceptions into termination |
| C84 | functor views (xfunctor_view, xoffset_view, real and imag) of strided objects: reading, iteration, fill, assignments with the overlap test on address ranges; functor adaptors | a functor is a get/put pair with the offset of the part it refers to; induction over the traversal with the invariant that unvisited elements and other parts are unchanged; the overlap test is complete for strides of one sign |
| C85 | printing: recurser_run, xoutput, print options, the printers of integers, bool and strings, as functions to byte lists | the loop over an axis is the fold over the shown positions; induction over the shape with the queue of elements; injectivity of nested lists by parsing; the column of each character for the line width |
| C86 | missing values: expressions of optional arrays, their split into values and flags, assemblies (two containers), assignment as two loops without overlap check, containers of optional values, the functors of reductions | the meaning of an element is an inductive relation into `option`; induction over the expression for access and for the split; assignment through the lemma on plain containers (C36) applied twice; reductions through C41 and the fold of the optional operation |
| C87 | masked views: element access, iteration by a stepper over data and mask together, fill, assignment of expressions (with masked operands) and of masked views; masks that are stored or expressions of the data | the meaning of an element is a value or none; a loop invariant on the part of data and mask already assigned, over an arbitrary behaviour of xtl when a hidden value is assigned |
| C88 | the functors of `pow<N>` (square and multiply, with the intermediate variable of the element type), `square`, `cube`, `minimum`, `maximum`, `clip`, `sign`, `isclose`, `nan_to_num`, `amax`, `amin`; `all`, `any`, `allclose` | exact arithmetic with NaN and infinities; integers with promotion, wrapping and undefined overflow; strong induction on the exponent, folds of a total order, the reducers of C41 and the shapes of C07 |
| C89 | `unwrap` with its three overloads' defaults; an array is a function of the indices, its shape and the axis (`diff` and `cumsum` are the subjects of C74 and C43) | exact arithmetic; the remainder with the sign of the divisor is characterised by its bounds; the cumulative correction by induction along the axis |
| C90 | `adapt` with a layout or strides, and the constructors, `resize` and assignments of `xarray_adaptor` and `xtensor_adaptor`, over a vector or a buffer of a fixed size | the state is that of a container whose data is the client's buffer; assignment is reduced to that of C36, with the size of the buffer as the extra condition |
| C91 | `cov` with its three branches; a matrix is a function of row and column | exact arithmetic; the two loops fill the lower triangle (induction over the loops), the sum with the transpose is case analysis; semidefiniteness by writing the quadratic form as a sum of squares |
| C92 | variables and holders as numbered cells; what a holder contains is an array, a reference to a variable, or a reference to a holder | induction over the program for holders of temporaries; otherwise by following the chain of references, which is shorter than the number of holders (no repetition); the JSON functions are those of C79 |
| C93 | the HTML table of `mime_bundle_repr` as a list of tags, cells and texts with its rendering to bytes, on the recurser and printers of C85 | the exact page is computed by induction over the shape with the queue of elements; cells, nesting and columns are read off the page; titles are parsed back |
| C94 | programs of statements over variables (arrays, handles, functions containing or referring to others) and a heap of counted arrays; freed cells and dangling references are UB | the invariant `count = number of holders, and references go to earlier variables` is kept by every statement, induction over the program; evaluation by induction over what an expression shows |
| C95 | the two storages as lists, iterators as pairs of positions, programs on two storages | refinement of programs on sequences of (value, flag), by induction over the program; iteration by induction over the length; the order through that of C78 |
| C96 | what the lambda of `isin` captures, in a memory of variables with lifetimes; programs between the call and the use; using what has ended is UB | invariants over programs (ended stays ended; a range stays a range), and `isin` of C49 |
| C97 | trees of functions over sequences and scalars, and their trees of iterators: moves, dereference, `equal`, `less_than`, `operator-`, and loops | nested induction over trees; loops by induction on the remaining length |
| C98 | programs of global settings, manipulators, prints and format changes over streams with their words, precision and flags; the text is that of Print (C85) | invariant relating the state to functions of the past, by induction on the program |
| C99 | memories of containers, views and expressions with lifetimes; `eval` and `as_strided` of variables and temporaries; programs of new objects, ends and writes | invariant that the copy is neither named nor viewed, by induction on the program; ended objects stay ended |
| C100 | memories of function objects, operands, vectorized functions and lazy results; programs of new variables, ends, assignments, `vectorize` and calls | vectorized functions and results never change and ended objects stay ended, by induction on the program |

Where the faithful model does not satisfy the full statement, the file contains a
`..._refuted` theorem with a concrete witness and a `..._partial` theorem with the
hypothesis under which the statement holds. These are listed under "Findings".

## Trusted base

* The kernel of Coq 8.16.1 (`coqc`, checked again with `coqchk`).
* `Print Assumptions` follows every property theorem in the `*_Props.v` files. It
  prints "Closed under the global context" for each theorem: no axiom is used,
  neither of the standard library nor of this development.
* Two examples, `C75_complex_numbers` and `C75_case_transform`, show that the laws
  which the theorems of C75 assume of the complex numbers hold of the pairs of real
  numbers. They depend on the axioms of the standard library's real numbers:
  `ClassicalDedekindReals.sig_not_dec`, `ClassicalDedekindReals.sig_forall_dec` and
  `FunctionalExtensionality.functional_extensionality_dep`. Because `Fft5_Proofs.v`
  loads `Reals`, a whole-environment listing also shows the sealed fields of its
  modules `RbaseSymbolsImpl` and `RinvImpl` and `Classical_Prop.classic`; no theorem
  and no example here depends on `classic`.
* Coq's default prelude loads `Coq.ssr.ssrunder`, whose module type `Under_rel` has
  seven fields (`Under_rel`, `Under_relE`, `Under_rel_from_rel`, `under_rel_done`,
  `over_rel`, `Over_rel`, `over_rel_done`). A whole-environment listing shows them.
  No theorem here depends on them.
* Only the standard library is imported.
* The reading of the C++ sources into Gallina is by hand. Each definition cites the
  lines it models and says where it simplifies.

Simplifications made throughout:

* Template parameters become ordinary arguments (layouts, static shapes, which
  assigner is chosen). Code that would not compile is not excluded by the model.
* Index arithmetic is unbounded except where C06 or an explicit `to_size_t` or
  `to_int` says otherwise.
* Element types are arbitrary; conversions between element types are part of the
  functions applied to the elements. SIMD batches act lane by lane.
* Allocation never fails. Element operations do not throw.
* Iterator and stepper objects are values (position in a buffer, or index tuple);
  pointers before or after a buffer are representable, dereferencing them is `UB`.

### Modelled, by header of `/repo/include/xtensor`

| header | modelled in |
|--------|-------------|
| `core/xstrides.hpp` | Strides, Access, Machine, Broadcast |
| `core/xshape.hpp`, `core/xlayout.hpp` | Broadcast, Layout |
| `core/xiterator.hpp`, `core/xiterable.hpp` | Stepper |
| `core/xfunction.hpp` | Broadcast, Stepper |
| `core/xassign.hpp` | Assign |
| `core/xsemantic.hpp`, `core/xnoalias.hpp` | Semantic |
| `containers/xcontainer.hpp`, `containers/xarray.hpp`, `containers/xtensor.hpp` | Access, Container |
| `containers/xstorage.hpp` (`svector`) | Svector |
| `containers/xscalar.hpp` | Stepper, Assign |
| `views/xslice.hpp` | Slice |
| `views/xbroadcast.hpp` | Broadcast, Stepper |
| `views/xstrided_view.hpp`, `views/xstrided_view_base.hpp` | SView |
| `views/xview.hpp` | XView |
| `misc/xmanipulation.hpp` | Manip, Roll |
| `generators/xbuilder.hpp`, `generators/xgenerator.hpp` | Builder |
| `reducers/xreducer.hpp` | Reduce |
| `reducers/xaccumulator.hpp` | Accum |
| `misc/xsort.hpp` | Sort, Quantile, QuantileAll |
| `misc/xset_operation.hpp` | SetOp |
| `chunk/xchunked_array.hpp`, `chunk/xchunked_assign.hpp`, `chunk/xchunked_view.hpp` | Chunk |
| `views/xindex_view.hpp`, `core/xoperation.hpp` 625-665 and 790-924, `utils/xutils.hpp` 808-938 (memory ranges) | Select |
| `misc/xpad.hpp` | Pad |
| `io/xnpy.hpp` | Npy |
| `views/xrepeat.hpp`, `misc/xmanipulation.hpp` repeat | Repeat |
| `views/xview.hpp` xview_stepper | VStep |
| `views/xaxis_iterator.hpp`, `views/xaxis_slice_iterator.hpp`, `views/xstrided_view.hpp` fill | AxisIt |
| `misc/xhistogram.hpp` | Hist |
| `generators/xrandom.hpp`: `shuffle`, `permutation`, `choice` | Random |
| `views/xstrided_view.hpp`: `reshape_view`, `recalculate_shape`, `flat`, `data_element`, linear iterators; `misc/xmanipulation.hpp`: `ravel`, `flatten` | Reshape |
| `views/xdynamic_view.hpp`: construction and element access; `views/xstrided_view_base.hpp`: `fill_args` with the policy of dynamic views | DView |
| `reducers/xblockwise_reducer.hpp`, `reducers/xblockwise_reducer_functors.hpp`: all but options other than keep_dims, and `norm_lp`'s last root; `core/xmultiindex_iterator.hpp` | Block |
| `core/xmath.hpp`: `convolve`, `interp`, in exact arithmetic | Line |
| `core/xmath.hpp`: `mean`, `variance`, `average`, in exact arithmetic | Stats |
| `core/xmath.hpp`: `nansum`, `nanprod`, `nanmin`, `nanmax`, `nanmean`, `nanvar`, `count_nonzero`, `count_nonnan`, `minmax`, `nancumsum`, `nancumprod`, in exact arithmetic without infinities | Nan |
| `core/xmath.hpp`: `diff`, `trapz` | Diff |
| `core/xmath.hpp`: `pow<N>`, `square`, `cube`, `minimum`, `maximum`, `clip`, `sign`, `isclose`, `allclose`, `nan_to_num`, `amax`, `amin`; `core/xoperation.hpp`: `all`, `any`; in exact arithmetic | Elem |
| `core/xmath.hpp`: `unwrap`, in exact arithmetic | Unwrap |
| `containers/xadapt.hpp`, `containers/xarray.hpp` and `containers/xtensor.hpp`: adaptors; `containers/xbuffer_adaptor.hpp`: `resize` and assignment without ownership | Adapt |
| `core/xmath.hpp`: `cov`, in exact arithmetic | Cov |
| `misc/xexpression_holder.hpp` | Holder |
| `io/xmime.hpp` (not: element types with a precision, the bundle around the text, `xmasked_value`) | Mime |
| `core/xexpression.hpp` 84-103, 257-298, 515-767 (not: sharing of functions and views, the forwarded members of `xshared_expression`, `xclosure` of views) | Shared |
| `optional/xoptional_assembly_storage.hpp` (not: `data`, storages held by reference) | OStore |
| `misc/xset_operation.hpp` 28-176: what is captured (the functor itself: SetOp) | Isin |
| `core/xfunction.hpp` 413-466, 754-808, 937-1064; `containers/xscalar.hpp` 410-492, 1029-1099: linear iterators | LinIter |
| `io/xio.hpp` 35-182, 693-738, 749-819: options of streams (the text itself: Print) | PrintOpt |
| `core/xeval.hpp` 26-174: `eval`, `as_strided` (views and expressions of container variables only) | Eval |
| `core/xvectorize.hpp` 27-108, `core/xexpression.hpp` 257-276: what functions hold of their functor and operands | Vectorize |
| `misc/xfft.hpp` | Fft |
| `io/xcsv.hpp` (float, double and long double cells: only as an abstract conversion) | Csv |
| `containers/xstorage.hpp` (uvector: memory, comparisons; not its iterators), `containers/xbuffer_adaptor.hpp` (xbuffer_storage, xbuffer_owner_storage, comparisons; not the smart pointer storage nor the iterator adaptors) | Storage |
| `io/xjson.hpp` (from_json into xarray and into strided views; nlohmann::json is a tree of lists and scalars) | Json |
| `containers/xfixed.hpp`, `core/xshape.hpp` 395-497, `core/xassign.hpp` 552-607 (fixed shapes) | Fixed |
| `utils/xutils.hpp` 331-348, `core/xshape.hpp` 150-215, list constructors of `containers/xarray.hpp`, `xtensor.hpp`, `xfixed.hpp` | Init |
| `reducers/xnorm.hpp`: norm_l0, norm_l1, norm_sq, norm_linf, induced norms of integral types (not norm_l2, norm_lp: roots; not floating-point nor complex elements) | Norm |
| `views/xfunctor_view.hpp`, `views/xoffset_view.hpp`, real and imag of `misc/xcomplex.hpp` (not SIMD, steppers of functor views, adaptors' resize overloads) | Functor |
| `io/xio.hpp` (not the printers of floating-point and complex numbers, custom formatters; log10 exact; streams in their default state) | Print |
| `optional/xoptional.hpp`, `optional/xoptional_assembly.hpp`, `optional/xoptional_assembly_base.hpp` (not the storage class of assemblies, its comparison operators, steppers and adaptors; xtl's optional values are assumed to be as described in the model) | Optional |
| `views/xmasked_view.hpp` (not masked views over assemblies, linear iterators, masks with more axes than the data; the assignment of a hidden xtl value is a parameter of the theorems) | Masked |

### Not modelled

File-backed chunked arrays, I/O (`io/`) other than npy, CSV, JSON and printing, random number engines and distributions, floating-point
mathematics (`core/xmath.hpp` beyond the functions listed above; no rounding anywhere),
expression serialisation, thread scheduling inside TBB or OpenMP (C14 quantifies
over every partition and order of the loop instead), compile-time selection by
SFINAE, and exception safety of allocation except in uvector (C77). This list shrinks as the model grows.

## Findings

The following behaviours of the pinned commit contradict what a user would expect
from the documentation. Each one with a theorem name is proved of the model with a
concrete witness.

1. Range(start, stop, step) whose step points away from stop has a negative size; step 0 divides by zero. `C17_wrong_direction_refuted`.
2. `xnewaxis::operator!=` is always true; `xstepped_range::contains` and `revert_index` are wrong for negative steps. `C17_negative_step_queries_refuted`, `C17_newaxis_comparison_refuted`.
3. `drop` with unsorted or repeated positions keeps wrong positions; `revert_index` is wrong and divides by zero when everything is dropped; a drop slice reused on another axis keeps its old state. `C18_drop_duplicate_refuted`, `C18_drop_reuse_refuted`, `C18_drop_revert_refuted`, `C18_drop_unsorted_refuted`.
4. `noalias(a) += e` where an axis of extent 1 of `a` meets extent 0 is undefined. `C16_noalias_vanishing_refuted`.
5. `a += s` where `s` is a reference to an element of `a` reads the updated element. `C16_scalar_element_refuted`.
6. Signed reshape: zero extents with -1 divide by zero, other negative extents are accepted, the layout argument is not checked. `C20_reshape_negative_extents_refuted`, `C20_reshape_signed_layout_refuted`, `C20_reshape_zero_extent_refuted`.
7. Constructing or resizing a container with custom strides allocates `prod(shape)` elements whatever the strides. `C21_custom_strides_refuted`.
8. Squeeze ignores the data offset of a view, and filters shape and strides independently. `C26_squeeze_axis_refuted`, `C26_squeeze_empty_refuted`, `C26_squeeze_offset_refuted`.
9. Roll along an axis: negative axis throws, shift beyond the extent reads out of bounds, extent 0 loops for ever; flat roll of an empty array divides by zero. `C25_column_major_refuted`, `C25_endless_refuted`, `C25_large_shift_refuted`, `C25_negative_axis_refuted`, `C25_roll_flat_empty_refuted`.
10. Transpose without check accepts a repeated axis and gives an out-of-bounds view. `C23_repeated_axis_refuted`.
11. Transpose of a lazy column-major expression reports a wrong layout. `C23_lazy_layout_refuted`.
12. `flip(e)` without an axis modifies its argument. `C24_flip_all_refuted`.
13. `svector::push_back`/`insert` of one of its own elements when full uses freed memory; non-trivial element types are assigned into raw memory. `C22_nontrivial_elements_refuted`, `C22_self_reference_refuted`.
14. `in_bounds` and `periodic` align short index lists on the left, access on the right. `C10_in_bounds_short_refuted`, `C10_periodic_short_refuted`.
15. `at()` with fewer indices than dimensions and an empty leading axis reads outside the buffer. `C31_at_always_checks_refuted`.
16. Broadcasting fixed shapes with an extent 0 gives the other extent. `C07_fixed_zero_refuted`.
17. An `xfunction` keeps its cached shape when an operand is resized. `C32_stale_cache_refuted`.
18. `broadcast(e, s)` silently enlarges `s`. `C33_requested_shape_refuted`.
19. Iteration over a 0-dimensional indexed expression writes out of bounds; reverse iteration of 0-d containers leaves the buffer. `C34_indexed_0d_refuted`, `C35_reverse_broadcast_scalar_refuted`, `C35_reverse_indexed_column_refuted`.
20. Operator= with generators reading the destination, views with strides of mixed sign, or a larger right-hand side does not behave as if the right-hand side was evaluated first. `C36_generator_alias_refuted`, `C36_mixed_strides_refuted`, `C36_noalias_smaller_refuted`, `C36_overlapping_larger_refuted`.
21. SIMD linear assignment of a strided view with an offset and a static layout. `C14_offset_strided_view_refuted`.
22. The size of a container wraps around. `C06_empty_overflow_refuted`, `C06_size_wraps_refuted`.
23. Negative integers in `strided_view` are not taken from the end. `C19_strided_view_negative_integer_refuted`.
24. A strided view with newaxis reports a layout its strides do not have. `C19_newaxis_layout_refuted`.
25. `xview::operator()` with two newaxis before an axis applies the wrong slice; `operator()` and `element` with an integer after a newaxis read the wrong element. `C19_two_newaxis_refuted`, `C19_int_after_newaxis_refuted`.
26. `xview::data_offset` treats slices beyond the number of axes as having stride 1. `C19_view_offset_refuted`.
27. `xview` called with fewer indices than dimensions applies slices to the wrong axes; its `element` aligns short lists on the left. `C19_short_call_refuted`, `C19_no_argument_refuted`, `C19_short_element_refuted`.
28. Concatenate accumulates strides in an `int`; an axis out of range is not rejected; `element` with indices in excess is wrong. `C27_large_refuted`, `C27_axis_refuted`, `C27_extra_element_refuted`.
29. Stack does not reject mismatched shapes; extra leading indices select wrong operands. `C37_mismatch_refuted`, `C37_extra_indices_refuted`.
30. Diagonal with an offset beyond the last diagonal has a negative extent. `C38_beyond_refuted`.
31. Signed arange with 0 < |stop - start| < |step| is empty; extra indices are not dropped. `C39_short_refuted`, `C39_extra_index_refuted`.
32. A lazy reduction with keep_dims broadcast along a reduced axis, or read backwards from the end, reads out of bounds. `C41_keep_broadcast_refuted`, `C41_reverse_refuted`.
33. More axes than dimensions gives std::bad_alloc, an axis of a 0-dimensional expression is accepted. `C41_many_axes_refuted`, `C41_axis_0d_refuted`.
34. An immediate reduction of an empty array that has a non-empty result reads out of bounds. `C42_empty_refuted`.
35. An immediate reduction over unit axes (or no axis) copies the elements: the functor is not applied (norm_l1, norm_sq, count_nonzero) and the initial value is ignored. `C42_copy_functor_refuted`, `C42_copy_initial_refuted`.
36. Accumulation along an axis of a container with dynamic layout that is row major uses the column major loop sizes: results continue across rows or the loop leaves the storage. `C43_dynamic_refuted`.
37. nancumsum and nancumprod along an axis miss the initial values when another axis on the same side has extent 1 (the smallest stride is then 0). `C43_init_unit_refuted`.
38. cumsum and cumprod without axis of an xtensor with more than one dimension write outside an empty result. `C43_flat_tensor_refuted`.
39. sort, argsort and partition of an xarray of dynamic layout holding an array of the other layout sort along the wrong axis or mix lanes; arrays of no dimension are undefined. `C44_sort_dynamic_refuted`, `C44_sort_scalar_refuted`, `C45_argsort_dynamic_refuted`.
40. argpartition without axis indexes the array with one argument: with a last extent 1 nothing is compared, a column major array is read out of bounds. `C46_argpartition_unit_refuted`, `C46_argpartition_column_refuted`.
41. argmin and argmax along an axis of a column major array with the default traversal write the results at the wrong indices; along an empty axis the result is uninitialised. `C47_argmin_column_refuted`, `C47_argmin_empty_refuted`.
42. The median of an empty array is undefined. `C50_median_empty_refuted`.
43. searchsorted gives the last suitable position for right = false and the first for right = true, the reverse of its documentation; values with a last extent 1 or column major are wrong. `C49_searchsorted_side_refuted`, `C49_searchsorted_unit_refuted`, `C49_searchsorted_column_refuted`.
44. A chunked array indexed with fewer indices than dimensions reads the wrong element, with more indices it reads out of bounds. `C51_missing_indices_refuted`, `C51_extra_indices_refuted`.
45. The `chunk_memory_layout` argument of `chunked_array` is refused unless it is the default layout; a chunked array with column major chunks cannot be assigned to; assigning an expression with more dimensions is undefined; with a column major default traversal the chunks are mixed up. `C51_chunk_layout_refuted`, `C51_assign_column_major_refuted`, `C51_assign_more_dimensions_refuted`, `C51_column_traversal_refuted`.
46. An assignment to an index view evaluates its right-hand side element by element when the memory range from the first to the last selected element misses the source, although selected elements in between are part of the source: `index_view(a, {0, 5, 1}) = index_view(a, {3, 4, 5})`; likewise `filter` on a column major array. `C53_aliasing_refuted`, `C53_filter_order_refuted`.
47. `index_view(a, {1, 1}) += 1` adds 2, `+=` with an array of ones adds 1; `element` with several indices uses the first, the call operator the last; a `filtration` whose condition reads other elements sees those already modified. `C53_scalar_like_array_refuted`, `C53_extra_arguments_refuted`, `C53_filtration_global_refuted`.
48. `pad` in a mode other than constant, with a width larger than what the axis has to show (numpy repeats the pattern), copies elements that were never written. `C55_pad_wide_refuted`. `tile` with 0 repetitions throws a broadcast_error instead of giving an empty array; `tile(e, n)` of a 0-dimensional array writes outside a vector. `C56_tile_zero_refuted`.
49. `load_npy` shifts the bytes of the header length as plain chars. Where chars are signed, a length whose low byte is above 127 is read as another number: an array of 22 dimensions, or any file with 182 bytes of header, is not read back (the header runs past the file). `C57_roundtrip_refuted`.
50. A one-dimensional column major array is dumped in C order, and `load_npy<T, column_major>` refuses it. `C57_column_vector_refuted`. The array `load_npy` returns for a Fortran order file has a dynamic layout, so dumping it writes the elements in Fortran order and says C order. `C57_reload_refuted`.
51. `load_npy` does not look at the stream after the magic string: a file cut in its data gives an array with indeterminate elements, `C58_truncated_refuted`, and a file cut in its header is parsed from indeterminate bytes, `C58_cut_header_refuted`. `parse_header` wants the keys in alphabetical order, which the format forbids readers to rely on (so it says itself).
52. `repeat` with a first count of 0 still shows the first element, `C59_first_zero_refuted`; with a last count of 0 iteration and assignment read the wrong elements (the sub-stepper is reset from a position that is not the last), `C59_last_zero_refuted`. Its stepper cannot be broadcast (positions are indexed by the axis of the larger shape), `C59_broadcast_refuted`, cannot be run backwards over two axes, `C59_reverse_refuted`, and the constructor reads the shape of a temporary after moving it, `C59_temporary_refuted`. With fewer arguments than axes `operator()` counts axes from the left, `C59_few_arguments_refuted`, and `element` with more indices than axes is undefined, `C59_many_indices_refuted`.
53. The stepper of a view that is not strided cannot be broadcast: axes of the larger shape are taken for axes of the view (its offset is compared with, not subtracted), `C60_broadcast_refuted`. Iterated backwards from end() such a view reads wrong elements or out of bounds when the last slice is a stepped range, an integer, a newaxis or a single kept index, when a keep or drop slice is followed by whole axes or preceded by an integer, or when it has no axis: `C60_reverse_step_refuted`, `C60_reverse_keep_refuted`, `C60_reverse_integer_refuted`, `C60_reverse_integer_keep_refuted`, `C60_reverse_scalar_refuted`, `C60_reverse_newaxis_refuted`, `C60_reverse_single_refuted`. begin() and end() of a view with an empty keep() read out of bounds, `C60_empty_keep_refuted`.
54. `axis_end(e, axis)` ignores where `e` starts: over a view with an offset the iterators from `axis_begin` never equal it and a loop up to it runs off the buffer, `C61_axis_end_refuted` (for every such view).
55. `axis_slice_begin` visits wrong slices of most tensors with four or more axes: `++` jumps over the axis when the position modulo the size of one outermost slab lies in one interval, but with two axes outside the chosen one there are several such intervals. `C61_slices_refuted` says exactly when. The Fourier transforms and `fftconvolve` along an axis use these iterators. Extent 0 makes `++` divide by 0, `C61_slices_empty_refuted`; the slices of an `xtensor` have shape {n, 0, ...}, `C61_slices_fixed_refuted`; strided views are treated as column major, `C61_slices_strides_refuted`.
56. The views given by both iterators carry the layout of the whole tensor, so `*it = x` and `it->fill(x)` write consecutive memory instead of the slice, `C62_slice_fill_refuted`, `C62_axis_fill_refuted`.
57. `histogram` with a number of bins rounds `n_bins * (v - left) * norm` up to `n_bins` for some doubles below the right bound and then writes beyond the counts: the largest double below 5 with 5 bins on [0, 5], `C63_overflow_refuted`.
58. `histogram` with a number of bins counts values equal to an edge in the bin before it (7 in seven bins on [0, 49]), `C63_wrong_bin_refuted`; for integers its bins are not those of the truncated edges that `histogram_bin_edges` returns, `C63_int_edges_refuted`.
59. With `density` the counts are divided by the number of items, not by their total weight within the edges: the integral is not one with weights or with items outside, `C63_density_weights_refuted`, `C63_density_outside_refuted`.
60. `bincount` of empty data asks for `size_t(lowest + 1)` elements, `C64_bincount_empty_refuted`. `histogram_bin_edges` with mode uniform and the default integer weights divides with truncation and reads and writes out of bounds, `C64_uniform_refuted`; with more bins than items edges stay uninitialised, `C64_uniform_few_refuted`. `bin_items` of more than 2^53 items does not give N items, `C64_bin_items_refuted`.
61. `shuffle` of an empty expression counts down from `size_t(-1)` and swaps out of bounds, also `permutation(0)`, `C65_empty_refuted`, `C65_no_rows_refuted`. `permutation(view)` copies the view, not its elements, and shuffles the viewed array, `C65_permutation_view_refuted`.
62. `choice` of a view uses `storage()` of the viewed array from its start: for a view that starts late enough no element of the sample is in the view, `C66_view_refuted`. With replacement from an empty container, or with all weights zero, it reads out of bounds, `C66_empty_refuted`, `C66_weights_zero_refuted`.
63. `linear_rbegin` and `linear_rend` of a strided view are exchanged: `rbegin()` of a `reshape_view` whose expression has the static layout of the view reads before the first element and never reaches `rend()`, `C67_reverse_refuted`.
64. `flat(i)` and `data_element(i)` of a strided view leave out its offset, `C67_flat_refuted`.
65. `reshape_view` with one extent -1: the product of the others is an `int` that overflows (undefined behaviour for 65536 x 65536), another extent 0 divides by zero, a size that is not divisible drops the last elements without error, and the overload with an order does not know -1: `C67_missing_overflow_refuted`, `C67_missing_zero_refuted`, `C67_missing_rest_refuted`, `C67_order_refuted`. A shape of the wrong size is not checked and gives indices outside the expression, `C67_size_refuted`.
66. Dynamic views: `unchecked` throws away the offset it computes and uses the first argument instead, `C68_unchecked_refuted`; `v()` of a view without axes reads the first element of an empty vector, `C68_scalar_refuted`; missing leading arguments skip the keep or drop of their axes, `C68_missing_refuted`; `data_offset()` and `flat` use only the first slice, `C68_flat_refuted`; negative integers are not counted from the end, `C68_negative_int_refuted`.
67. Blockwise reducers: where a reduced axis has extent 0 no block is merged and the container keeps its old elements, `C69_empty_refuted`; a negative axis, accepted by the other reducers, writes past the end of the result's shape in the constructor, `C69_negative_axis_refuted`; `blockwise::norm_lp_to_p` and `norm_lp` take powers of the elements, not of their absolute values, `C69_lp_refuted`.
68. `convolve` in valid mode does not reverse the second expression, `C70_valid_flip_refuted`, and for two expressions of different lengths always reads the shorter one past its end, `C70_valid_length_refuted`; `interp` uses `left` and `right` also at the first and last point themselves, `C71_ends_refuted`.
69. `variance(e, axes, ddof)` subtracts `ddof` from the number of all elements, not from the number per result, `C72_ddof_refuted`; axes counted from the end make it write out of bounds, `C72_negative_refuted`, or throw, `C72_braces_refuted`; `average` with one-dimensional weights and several axes is not an average, `C72_average_axes_refuted`, and with `keep_dims` and weights of the same shape has a wrong shape, `C72_average_keep_refuted`.
70. Immediate `nansum` and `count_nonzero` over axes of extent 1 copy the elements: NaN stays, `C73_copy_nansum_refuted`, and a count is the element itself, `C73_copy_count_refuted`; `nanvar` with axes counted from the end writes out of bounds, `C73_negative_refuted`; `nancumsum` with an extent of 1 leaves NaN, `C73_cumulated_refuted`.
71. `diff` compares n with the number of elements, not with the extent: an array of shape (0, 3) gives shape (0, 0) along axis 1, not (0, 2), `C74_diff_empty_refuted`.
72. `ifft` is not the inverse of `fft`: nothing divides by the extent, `C75_inverse_refuted`, `C75_round_trip_partial`.
73. `ifft(e)` and `fft::convolve(x, y)` with their default axis -1, and with any negative axis, read `shape()[2^64 - 1]`: `ifft` calls `e.shape(axis)` before the axis is normalized, `C75_ifft_default_refuted`, `C75_convolve_default_refuted`.
74. `fft` along an axis of which the slices are not enumerated correctly (finding 55) leaves some lines as they are and transforms others twice, `C75_axis_refuted`. Along an axis of extent 0 it divides by 0, `C75_empty_refuted`.
75. `fft::convolve` compares only the extents along the axis: with fewer lines in the second operand it reads past its end, `C75_convolve_shapes_refuted`.
76. `load_csv` accepts rows of different lengths when their total is rows times the length of the last row, `C76_ragged_refuted`. An empty cell at the end of a row is lost, `C76_trailing_cell_refuted`. `max_rows = 0` is no limit, `C76_max_rows_refuted`, and an empty comment mark makes every line a comment, `C76_empty_mark`.
77. `load_csv` compares each line with the comment mark without looking at the length of the line: an empty line is read past its end, `C76_empty_line_refuted`.
78. `dump_file` ignores the delimiter of its configuration while `load_file` uses it, `C76_delimiter_refuted`. Matrices without elements lose their shape when written, `C76_round_trip_refuted`.
79. Cells: strings keep blanks after the text when there are blanks before it (`substr(first, last + 1)` takes a length), `C76_trim_refuted`; numbers too large for `unsigned int` are truncated, `C76_unsigned_int_refuted`; for types without a specialisation of `lexical_cast` (`short`), invalid cells are not reported and empty ones give an uninitialised value, `C76_short_refuted`.
80. An owning buffer adaptor must not be given a value after it was moved from: `swap` does not exchange `m_moved_from` and `resize`, `operator=` and `reset_data` do not look at it. The next destructor frees memory twice and another block is lost. `C77_buffers_refuted`, `C77_buffers_leak_refuted`, `C77_buffers_resize_refuted`.
81. A `uvector` whose element type has a throwing constructor loses the block it has just allocated when a constructor throws: `C77_throwing_element_refuted`.
82. `uvector::resize` (and `xarray`'s storage with it) keeps nothing of the former contents, unlike `std::vector`: `C77_resize_keeps_refuted`.
83. The operators `<=`, `>` and `>=` of buffer adaptors pass `less_equal`, `greater` and `greater_equal` to `lexicographical_compare`: `{1,2} <= {1,1}` holds, `{1} > {}` does not, `{} <= {}` does not. `C78_buffers_greater_refuted`, `C78_buffers_at_most_refuted`, `C78_buffers_reflexive_refuted`.
84. Read, not modelled: `xiterator_owner_adaptor::operator=(const self_type&)` and `operator=(self_type&&)` (xbuffer_adaptor.hpp) end without a return statement, which is undefined behaviour when called.
85. An array with an extent 0 written by to_json is not read back by from_json: nlohmann throws a type error, after the target has been resized; with four or more extents before the 0, json_shape writes outside of the vector of the shape. `C79_empty_refuted`.
86. from_json into a container takes its shape from the first element of every list: values of longer lists are dropped and shorter ones are read past their end. `C79_ragged_refuted`.
87. from_json into a view compares an empty shape with that of the view, so the announced "Shape mismatch" is never reported: longer lists are cut, shorter ones are read past their end, and lists of more than four levels write outside of the vector of the shape. `C79_view_shape_refuted`, `C79_view_depth_refuted`.
88. quantile relies on reshape_view following row-major order: with XTENSOR_DEFAULT_TRAVERSAL column_major the list of selected elements, which is row major, is read in the other order and the quantiles are those of mixed samples. `C80_column_major_refuted`.
89. quantile along an axis without elements reads elements that do not exist instead of reporting an error. `C80_empty_refuted`.
90. Functions of fixed containers: whether broadcasting happens is decided from the shapes of the arguments of the outermost function. `r = -(x + y)` or `r = (x + y) + z` with `x` of shape (2,3) and `y` of shape (3) is taken for a plain elementwise loop and reads past the end of `y`. `C81_hidden_broadcast_refuted`.
91. Assigning an expression of another shape to an xtensor_fixed is not rejected (`resize` does nothing unless assertions are on): the elements are copied in storage order, and with fewer elements the source is read past its end. `C81_shape_mismatch_refuted`.
92. `reshape` of an xtensor_fixed to a shape that continues its own, such as (2,3) to (2,3,1), compares beyond the end of the stored shape instead of throwing. `C81_reshape_longer_refuted`.
93. A 0-dimensional xtensor_fixed plus a scalar has shape (1) instead of (). `C81_zero_d_scalar_refuted`.
94. `is_contiguous()` of an xtensor_fixed is false when its last (row major) or first (column major) extent is 1, although every xtensor_fixed is contiguous. `C81_is_contiguous`.
95. Nested initializer lists that are not rectangular are not rejected: a longer inner list than the first writes past the end of the storage, a shorter one shifts the rest and leaves elements unset. `C82_ragged_refuted`.
96. A nested list of another shape than that of an xtensor_fixed is not rejected (assertions off). `C82_fixed_list_refuted`.
97. The squared norm of an array of int is undefined as soon as one element exceeds 46340 in absolute value, that of unsigned short above 46340, although results have 64 bits; of unsigned int elements the squares wrap around in 32 bits (norm_sq of {65536} is 0); norm_l1 and norm_linf of the least int are undefined. `C83_overflow_refuted`, `C83_unsigned_squares_refuted`.
98. The norm functions are noexcept: invalid axes end the program instead of throwing std::runtime_error. `C83_bad_axes_refuted`.
99. `norm_l1(e, {-1})` ends the program, whereas `sum(e, {-1})` reduces the last axis: axes in braces are converted to std::size_t without being normalised. `C83_negative_braces_refuted`.
100. operator< of the iterators of functor views is inverted: `it < it` holds and `begin < end` does not. `C84_iterator_order_refuted`.
101. Assigning to a functor view whose functor returns a proxy never makes a temporary, because the view has no address: `v = reversed v` reads elements already overwritten. `C84_proxy_refuted`.
102. The range of addresses of a functor view with strides of different signs is wrong, and an overlapping operand is read after it was changed. `C84_mixed_strides_refuted`.
103. Assigning to a functor adaptor from a container of the same dynamic layout copies in storage order, whatever the strides. `C84_adaptor_dynamic_refuted`.
104. Assigning a function that broadcasts to a functor adaptor of the same layout walks the storages of the operands: with the smaller operand first only part of the adaptor is assigned, with the larger first the smaller one is read past its end. `C84_adaptor_broadcast_refuted`.
105. Printing with one edge item (`po::edge_items(1)`) an array beyond the threshold with an axis of more than two elements does not stop at the end of the axis: elements outside the array are read. `C85_edge_one_refuted`.
106. `line_width` is not a bound on the lines: indents, braces and ellipses are not counted, and rows whose elements do not fit are not broken at all. `C85_line_width_refuted`.
107. Printing the least value of int, long or long long is undefined; with the least signed char or short the elements are not aligned. `C85_least_refuted`.
108. When one string has more than 20 characters, none is padded. `C85_aligned_texts_refuted`.
109. Assigning to an optional assembly never makes a temporary, as its elements have no address: `a = flip(a)` reads elements already overwritten. `C86_alias_refuted`.
110. `a += e` for an optional assembly and `e` of a larger shape resizes `a` first and adds to what is left. `C86_grow_refuted`.
111. An optional assembly built from an xarray of values that is moved reads the shape after the move: all the elements share one flag. `C86_moved_refuted`.
112. `where(c, x, y)` of optional arrays has an element that is present when the chosen operand is, but assigned to an assembly it is missing when the other one is missing. `C86_where_refuted`.
113. `flat(i)` of an assembly whose flags have another layout than the values combines different elements. `C86_flat_refuted`.
114. `value()` and `has_value()` of an xarray_optional with dynamic layout, column major at run time, are in row-major order. `C86_value_refuted`.
115. Assignment to a masked view looks for no overlap: `masked_view(a, m) = reverse of a` reads elements it already changed. `C87_alias_refuted`.
116. When the mask is an expression of other elements of the data, it changes while the view is assigned, and elements visible before are skipped. `C87_lazy_refuted`.
117. `v = w` for two masked views of the same type neither checks nor broadcasts the shape: elements are left unassigned, or memory beyond the view is written. `C87_copy_shape_refuted`.
118. A mask need not fit the data: with more columns than the data, `v(i, j)` and iteration (thus `fill` and assignment) take different flags. `C87_wide_mask_refuted`.
119. With a broadcast mask, an assignment that hides one element hides all those that share its flag, and they are not assigned. `C87_shared_flag_refuted`.
120. `pow<N>` of an array of a narrow integer type stores the half power in a variable of that type: `pow<4>` of the `int8_t` 12 is 12544, not 20736, although the result type is `int`. `C88_power_narrow_refuted`.
121. `amax` starts from the lowest finite number: the maximum of an array of negative infinities is that number (`amin` likewise). `C88_amax_inf_refuted`. With NaN the result depends on their place. `C88_amax_nan_refuted`.
122. The documented formula of `isclose`, `abs(a - b) <= atol + rtol * abs(b)`, is not the one computed (`max` of the two tolerances, the greater magnitude). `C88_isclose_doc_refuted`.
123. `isclose` with a positive relative tolerance holds between an infinity and every number. `C88_isclose_inf_refuted`.
124. `allclose` is `noexcept`: operands that cannot be broadcast end the program instead of throwing. `C88_allclose`.
125. `unwrap(p)` with a variable `p` overwrites `p` with the result (`E1 up(p)` is a reference). `C89_argument_refuted`.
126. `unwrap` of an array of integers with a period that is not an integer (the default is 2π) truncates the corrections: the result does not differ from the argument by multiples of the period. `C89_integer_refuted`.
127. `adapt(buffer, shape, strides)` requires a buffer of exactly as many elements as the shape: with strides that leave gaps a buffer of a fixed size is refused, and a vector is cut short, so that the last elements are outside. `C90_strides_refuted`.
128. Assigning an expression of another size to an adaptor of a pointer throws, but the adaptor already has the new shape: indices within it are outside the buffer. `C90_size_refuted`.
129. An adaptor with a dynamic layout, assigned through a temporary, takes the strides of the temporary but keeps its own `layout()`: it reports column-major with row-major strides. `C90_dynamic_layout_refuted`.
130. Assigning an adaptor of a pointer to another of the same type copies the pointer and not the elements, unlike the assignment of any other expression. `C90_copy_refuted`.
131. `cov` of one observation gives NaN (for integers: undefined), and `cov` of no observations gives 0, because the divisor wraps to the greatest index. `C91_one_refuted`, `C91_empty_refuted`.
132. `cov` of an array of integers truncates the entries to integers: the variance of 0 and 1 is 0. `C91_integer_refuted`.
133. Reading JSON into an empty `xexpression_holder` throws in every case, because the last statement of `init_pointer_from_json` is reached for the supported types as well; the holder is then no longer empty, and the same call succeeds the second time. `C92_read_refuted`.
134. `xexpression_holder b(a)` with `a` not const is no copy: the template constructor is chosen, and `b` refers to `a`. Reading into `b` changes `a`; after `a = b` both refer to `a`, the array is lost and `to_json` recurs without end. `C92_copy_refuted`, `C92_assign_back_refuted`.
135. A copy of an empty holder and the empty list read into an empty holder are undefined; an array without axes is written as a scalar, which no holder reads. `C92_empty_refuted`, `C92_scalar_refuted`.
136. `mime_bundle_repr` of an array without elements reads elements outside the array (printing it as text gives `{}`). `C93_empty_refuted`.
137. `mime_bundle_repr` does not escape the texts of the elements: strings can contain markup, and two arrays of different shapes have the same page. `C93_escape_refuted`.
138. An array that was shared keeps a pointer to the shared copy (`p_shared`), which assignment to it does not renew and which copies of it take over: sharing it, or the copy, again gives the old value. `C94_share_again_refuted`, `C94_share_copy_refuted`.
139. `const_xclosure` copies an `xshared_expression` only if it is not const: a function of a const handle refers to the handle, and dangles. `C94_const_handle_refuted`.
140. The comment on `xshared_expression` says that `use_count` is 3 in its example; the source array counts as well, so it is 4 (as in the project's test). `C94_documented_count_refuted`.
141. The comparisons of `xoptional_assembly_storage` look at the values of missing elements, and all of them are false when the flags differ. `C95_hidden_refuted`, `C95_total_refuted`.
142. `xoptional_assembly_storage::data` has no return statement (lines 320-329): calling it is undefined (not modelled).
143. `xoptional_assembly_storage` accepts parts of different lengths; its iterators then read past the end of the flags. `C95_lengths_refuted`.
144. `isin(e, {...})` and `isin(e, v.begin(), v.end())` give lazy results that refer to temporaries; stored in a variable, they dangle. `C96_list_refuted`, `C96_begin_end_refuted`.
145. `isin(e, it1, it2)` captures the iterator variables by reference: moving one later changes the result. `C96_moved_refuted`.
146. The difference of two linear iterators of a function is never negative: `begin - end` is 0. `C97_negative_difference_refuted`.
147. The linear iterators of a function whose first non-scalar operand is a function of scalars only, such as `(s + t) + a`, all compare equal: a loop visits nothing. `C97_loop_refuted`.
148. `tril`, `triu` of a vector and `eye` of a shape with one axis read an index that is not there. `C38_one_axis_refuted`.
149. `tril` and `triu` of more than two axes use the first two, `eye` the last two. `C38_last_axes_refuted`.
150. `reshape_view(e, {-1, -1})` is accepted: a view of shape (0, 2^64 - 1). `C67_missing_twice_refuted`.
151. `out << po::threshold(0)` (or any other print option with value 0, also `po::precision(0)`) is ignored. `C98_zero_ignored`, `C98_zero_refuted`.
152. `auto&& b = xt::eval(f());`, where `f` returns a container, is a dangling reference: the container overload returns `T&&`. With a lazy expression the same line is correct. `C99_temporary_refuted`, `C99_eval_copy`.
153. `auto&& b = xt::as_strided<L>(f());` dangles when the container or view returned by `f` has layout `L`, and is correct otherwise. `C99_strided_temporary_refuted`, `C99_strided_copy`.
154. A scalar variable given to a vectorized function is held by reference (`xscalar<T&>`): returning `vecf(a, x)` from a function dangles for a local `double x`, and a later change of `x` changes the result. `C100_operand_refuted`, `C100_value`.
155. With assertions enabled, `element(first, last)` with fewer indices than dimensions compares the indices of the last axes with the extents of the first ones: shape (2, 3), `element({2})` throws although it is the element (0, 2), and shape (5, 3), `element({4})` passes. Negative indices of signed types pass too. `C31_element_short_refuted`, `C31_element_negative_refuted`.
156. `chunked_array(e)` without a chunk shape takes the shape of `e` as chunk shape; if `e` has an extent 0, the number of chunks is computed with a division by 0. `C51_whole_empty_refuted`.
157. `is_contiguous` of a container looks only at the innermost non-zero stride, so it does not notice gaps between rows; for strides computed by the library the answer is right. `C15_contiguous_gaps`, `C15_computed_contiguous`.

Read in the source, not proved: `xarray_adaptor` assigned from a temporary
keeps its old layout; `sum<T>(e, axis)` and the other reducer functions with one integral axis forget `T`.
