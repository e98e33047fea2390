{"id": "C01", "title": "Dense element addressing is a bijection", "statement": "For a row_major or column_major container of any shape, the buffer position used for element (i0,...,in-1) lies in [0,size()), two different in-bounds indices never share a position, and every position in [0,size()) belongs to some index.", "quantifier": "every number of dimensions, every shape (including extents 0 and 1), both layouts, every in-bounds index", "why_tests_cant": "Shapes and index tuples are unbounded families; tests only sample small shapes and cannot exclude a collision or overrun for some untested shape.", "anchors": ["include/xtensor/core/xstrides.hpp:compute_strides", "include/xtensor/core/xstrides.hpp:element_offset", "include/xtensor/core/xstrides.hpp:data_offset"]}
{"id": "C02", "title": "Strides are what the documentation says", "statement": "After a container is given a shape in row_major (column_major) order, size() is the product of the extents, strides()[k] is the product of the extents after (before) k, or 0 when extent k is 1, and backstrides()[k] is strides()[k]*(shape()[k]-1).", "quantifier": "every shape, both layouts, every axis", "why_tests_cant": "Universally quantified over shapes of every length.", "anchors": ["include/xtensor/core/xstrides.hpp:compute_strides", "include/xtensor/core/xstrides.hpp:adapt_strides", "include/xtensor/core/xstrides.hpp:compute_size"]}
{"id": "C03", "title": "ravel_index and unravel_index are inverse", "statement": "For any shape and layout row_major or column_major, unravel_index(ravel_index(i)) = i for every in-bounds index and ravel_index(unravel_index(k)) = k for every k < size; the unravelled index is always in bounds; any other layout makes unravel_index throw.", "quantifier": "every shape, layout, in-bounds index and flat position", "why_tests_cant": "Inverse laws over all shapes and all positions.", "anchors": ["include/xtensor/core/xstrides.hpp:ravel_index", "include/xtensor/core/xstrides.hpp:unravel_index", "include/xtensor/core/xstrides.hpp:unravel_noexcept"]}
{"id": "C04", "title": "Access with too few, too many or missing indices", "statement": "a(args...) with more arguments than dimensions ignores the leading extra arguments; with fewer it behaves as if zeros were prepended; with a trailing xt::missing as if zeros were appended; a.element(first,last) follows the first two rules. So each always denotes the same element as one full index.", "quantifier": "every container shape/strides, every argument list of every length", "why_tests_cant": "All combinations of number of arguments and number of dimensions.", "anchors": ["include/xtensor/core/xstrides.hpp:data_offset", "include/xtensor/core/xstrides.hpp:element_offset", "include/xtensor/core/xstrides.hpp:raw_data_offset"]}
{"id": "C05", "title": "unchecked() and static-layout access agree with operator()", "statement": "For a container whose strides come from its static layout, a.unchecked(i...) with as many indices as dimensions, a(i...), a.element(...) and a[index] all denote the same element, although the static-layout paths replace the innermost stride by the constant 1.", "quantifier": "every shape, both static layouts, every in-bounds index", "why_tests_cant": "The shortcut is only right because an extent-1 axis is always indexed by 0; it must hold for every shape.", "anchors": ["include/xtensor/core/xstrides.hpp:layout_data_offset", "include/xtensor/core/xstrides.hpp:unchecked_data_offset", "include/xtensor/containers/xcontainer.hpp:unchecked"]}
{"id": "C06", "title": "Machine arithmetic on sizes and strides", "statement": "If all the partial products of the extents fit in ptrdiff_t, the 64-bit computation of size, strides, backstrides and in-bounds offsets never overflows and equals the mathematical one. Without that hypothesis size() can be smaller than the product of the extents.", "quantifier": "every shape whose partial products fit; refuted by a witness otherwise", "why_tests_cant": "Overflow needs huge shapes that tests cannot allocate.", "anchors": ["include/xtensor/core/xstrides.hpp:compute_size", "include/xtensor/core/xstrides.hpp:compute_strides", "include/xtensor/core/xstrides.hpp:element_offset"]}
{"id": "C07", "title": "Broadcasting computes the common shape, whatever the operand order", "statement": "Broadcasting the shapes of any number of operands gives, right aligned, on each axis the unique extent different from 1 (or 1 when there is none); it throws exactly when two operands have different extents, neither of which is 1, on an axis; the outcome does not depend on the order of the operands.", "quantifier": "every finite sequence of shapes, every order", "why_tests_cant": "Sequences of shapes and their permutations are unbounded.", "anchors": ["include/xtensor/core/xstrides.hpp:broadcast_shape", "include/xtensor/core/xstrides.hpp:uninitialized_shape", "include/xtensor/core/xfunction.hpp:broadcast_shape"]}
{"id": "C08", "title": "The 'trivial broadcast' answer is sound", "statement": "When broadcasting reports that it is trivial, every operand has exactly the result shape, so flat, index-free assignment is allowed.", "quantifier": "every finite sequence of shapes", "why_tests_cant": "A single unsound answer makes assignment read past a buffer; must hold for all shapes.", "anchors": ["include/xtensor/core/xstrides.hpp:broadcast_shape", "include/xtensor/core/xassign.hpp:assign_data"]}
{"id": "C09", "title": "broadcastable is the decision procedure of broadcasting", "statement": "broadcastable(src, dst) is true exactly when broadcasting src into dst succeeds and leaves dst unchanged, i.e. when src right-aligns with dst and each extent is equal or 1.", "quantifier": "every pair of shapes", "why_tests_cant": "All pairs of shapes of all lengths.", "anchors": ["include/xtensor/core/xstrides.hpp:broadcastable", "include/xtensor/core/xstrides.hpp:broadcast_shape"]}
{"id": "C10", "title": "periodic() and in_bounds()", "statement": "a.periodic(i...) accesses the element whose index is, on each axis, the given index reduced modulo the extent into [0,extent), and equals a(i...) when in bounds; a.in_bounds(i...) is true exactly when a(i...) denotes an element with every index in range.", "quantifier": "every shape with positive extents, every list of signed indices, including shorter lists", "why_tests_cant": "All integers and all shapes; the case of fewer indices than dimensions is easily untested.", "anchors": ["include/xtensor/core/xstrides.hpp:normalize_periodic", "include/xtensor/core/xstrides.hpp:check_in_bounds", "include/xtensor/core/xaccessible.hpp:periodic"]}
{"id": "C11", "title": "Iteration visits each element exactly once in layout order", "statement": "Starting from begin() and incrementing size() times yields, in order, the elements at flat positions 0,1,...,size()-1 of the iteration layout, each exactly once, and then compares equal to end(), for any strides (including 0 and negative ones).", "quantifier": "every container shape (extents 0 and 0-d included) and strides, both traversal layouts", "why_tests_cant": "Odometer carry logic over arbitrary dimensions.", "anchors": ["include/xtensor/core/xiterator.hpp:stepper_tools", "include/xtensor/core/xiterator.hpp:xiterator", "include/xtensor/core/xiterator.hpp:xstepper"]}
{"id": "C12", "title": "Iterators are random access", "statement": "it += n lands where n increments land, it -= n where n decrements land, ++ and -- undo each other, iterating backwards from end() visits the same elements in reverse, and comparison and difference agree with the flat position.", "quantifier": "every container shape with positive extents, every finite sequence of ++, --, += n, -= n from begin() or end() that stays in range, both layouts", "why_tests_cant": "Jump arithmetic (carry over several axes at once) over unbounded shapes and n.", "anchors": ["include/xtensor/core/xiterator.hpp:increment_stepper", "include/xtensor/core/xiterator.hpp:decrement_stepper"]}
{"id": "C13", "title": "Broadcast iteration of an operand", "statement": "While an assignment loop walks the result shape, the stepper of each operand points at the operand's element whose index is the result index with the extra leading axes dropped and 0 on axes of extent 1.", "quantifier": "every result shape, every operand shape broadcastable to it, every loop step", "why_tests_cant": "Invariant of a loop of unbounded length over unbounded dimensions.", "anchors": ["include/xtensor/core/xiterator.hpp:xstepper", "include/xtensor/core/xassign.hpp:stepper_assigner", "include/xtensor/containers/xcontainer.hpp:stepper_begin"]}
{"id": "C14", "title": "Assignment stores the expression value at every index", "statement": "After a = expr (or noalias(a) = expr) element i of a is expr evaluated at i, for every in-bounds i, and nothing else in the destination buffer changes.", "quantifier": "every shape, destination strides without overlap, every expression value function", "why_tests_cant": "All shapes and buffers.", "anchors": ["include/xtensor/core/xassign.hpp:stepper_assigner", "include/xtensor/core/xassign.hpp:assign_data"]}
{"id": "C15", "title": "Every assignment strategy gives the same result", "statement": "The linear loop, the SIMD loop (any vector width that is a power of two, any alignment of the destination), the strided loop (any split in outer and inner loops, any partition of the outer loop among threads) and the stepper loop leave the same destination buffer whenever their selection conditions hold.", "quantifier": "every size, alignment offset, SIMD width, shape, strides, and schedule of the outer iterations", "why_tests_cant": "Heads, tails and splits depend on every combination of size, alignment and width, and on thread schedules.", "anchors": ["include/xtensor/core/xassign.hpp:linear_assigner", "include/xtensor/core/xassign.hpp:strided_loop_assigner", "include/xtensor/core/xassign.hpp:get_loop_sizes"]}
{"id": "C16", "title": "Computed assignment grows or broadcasts safely", "statement": "a += expr gives a the broadcast shape of a and expr and never reads or writes outside a buffer; if the shapes are incompatible it throws and leaves a unchanged.", "quantifier": "every pair of shapes, including zero extents", "why_tests_cant": "All pairs of shapes; the corner cases have zero extents.", "anchors": ["include/xtensor/core/xassign.hpp:computed_assign", "include/xtensor/core/xassign.hpp:scalar_computed_assign"]}
{"id": "C17", "title": "range(start, stop, step) selects what Python selects", "statement": "xt::range with any of start, stop, step omitted, positive or negative, applied to an axis of any extent, selects exactly the indices numpy's slice selects, in the same order, all within the axis.", "quantifier": "every extent, every optional signed start/stop/step with step nonzero", "why_tests_cant": "Three unbounded signed parameters with optional omissions.", "anchors": ["include/xtensor/views/xslice.hpp:xrange_adaptor", "include/xtensor/views/xslice.hpp:xrange", "include/xtensor/views/xslice.hpp:xstepped_range"]}
{"id": "C18", "title": "keep and drop slices select complementary indices", "statement": "keep(i...) selects the listed indices (negative ones counted from the end) in order; drop(i...) selects, in increasing order, exactly the indices not listed; step_size and revert_index are consistent with the selection.", "quantifier": "every extent and every list of indices", "why_tests_cant": "Unbounded index lists; run-length compression of dropped indices.", "anchors": ["include/xtensor/views/xslice.hpp:xkeep_slice", "include/xtensor/views/xslice.hpp:xdrop_slice"]}
{"id": "C19", "title": "A view aliases exactly the selected elements", "statement": "view(e, s0, s1, ...)(i...) is e at the index obtained by applying each slice; its shape is the list of slice sizes; writing through the view changes exactly those elements of e; the strides and data_offset of a strided view address the same elements; a view of a view is the composition.", "quantifier": "every expression shape, every slice list (integers, ranges, all, newaxis, ellipsis), every index", "why_tests_cant": "All slice combinations and all nestings.", "anchors": ["include/xtensor/views/xview.hpp:xview", "include/xtensor/views/xstrided_view_base.hpp:strided_view_args", "include/xtensor/views/xstrided_view.hpp:strided_view"]}
{"id": "C20", "title": "reshape keeps the elements", "statement": "reshape succeeds exactly when the number of elements is unchanged (after replacing one -1 by the missing extent), keeps the flat sequence of elements, and leaves shape, strides and layout consistent with each other; otherwise it throws and changes nothing.", "quantifier": "every container size, every requested shape, signed or unsigned, every layout argument", "why_tests_cant": "All sizes and shapes with -1 inference.", "anchors": ["include/xtensor/containers/xcontainer.hpp:reshape_impl", "include/xtensor/containers/xcontainer.hpp:reshape", "include/xtensor/views/xstrided_view.hpp:reshape_view"]}
{"id": "C21", "title": "Container invariant under any history", "statement": "After any sequence of construction, resize, reshape, copy and assignment on a dense container, storage().size() = product of shape(), strides match the layout, and every in-bounds access stays inside the storage.", "quantifier": "every finite sequence of operations with arbitrary arguments", "why_tests_cant": "Histories are unbounded.", "anchors": ["include/xtensor/containers/xcontainer.hpp:xstrided_container", "include/xtensor/containers/xcontainer.hpp:resize", "include/xtensor/containers/xcontainer.hpp:reshape"]}
{"id": "C22", "title": "svector behaves like std::vector", "statement": "Any history of push_back, pop_back, insert, erase, resize, assign, swap, copy and move on xt::svector produces the same sequence of elements as on std::vector, whether or not it spilled from its inline buffer to the heap, also when an argument refers to one of its own elements.", "quantifier": "every inline capacity, every finite history of operations", "why_tests_cant": "Histories crossing the inline/heap boundary are unbounded; aliasing bugs appear only at reallocation points.", "anchors": ["include/xtensor/containers/xstorage.hpp:svector"]}
{"id": "C23", "title": "transpose permutes axes and nothing else", "statement": "transpose(e, p)(i) = e(i permuted by p); shape is permuted likewise; transposing twice gives e back; a p that is not a permutation is rejected when checking is requested; swapaxes and moveaxis are the corresponding permutations.", "quantifier": "every dimension, shape, permutation and index", "why_tests_cant": "All permutations of all lengths.", "anchors": ["include/xtensor/misc/xmanipulation.hpp:transpose", "include/xtensor/misc/xmanipulation.hpp:swapaxes", "include/xtensor/misc/xmanipulation.hpp:moveaxis"]}
{"id": "C24", "title": "flip and rot90", "statement": "flip(e, axis)(...,i,...) = e(...,n-1-i,...), flipping twice is the identity, and rot90 applied four times, or rot90<k> composed k times, agree with the rotation of indices.", "quantifier": "every shape, axes and index", "why_tests_cant": "All shapes and axis pairs.", "anchors": ["include/xtensor/misc/xmanipulation.hpp:flip", "include/xtensor/misc/xmanipulation.hpp:rot90"]}
{"id": "C25", "title": "roll shifts circularly", "statement": "roll(e, shift)(k) = e((k - shift) mod size) on the flattened array and roll(e, shift, axis) shifts each line along the axis circularly, for any signed shift and any valid axis, never touching memory outside the array.", "quantifier": "every shape, every signed shift, every axis in [-dim,dim)", "why_tests_cant": "All shifts, including larger than the extent and negative.", "anchors": ["include/xtensor/misc/xmanipulation.hpp:roll"]}
{"id": "C26", "title": "squeeze and expand_dims keep the elements", "statement": "squeeze(e) denotes the same elements as e with the extent-1 axes removed, also when e is a view; expand_dims inserts an extent-1 axis; squeezing after expanding gives e back.", "quantifier": "every shape, offset, strides and axis", "why_tests_cant": "All shapes and all views.", "anchors": ["include/xtensor/misc/xmanipulation.hpp:squeeze", "include/xtensor/misc/xmanipulation.hpp:expand_dims"]}
{"id": "C27", "title": "split and concatenate are inverse", "statement": "split(e, n, axis) gives n views whose concatenation along axis is e, and throws when the extent is not divisible by n.", "quantifier": "every shape, axis and n>0", "why_tests_cant": "All shapes and n.", "anchors": ["include/xtensor/misc/xmanipulation.hpp:split", "include/xtensor/generators/xbuilder.hpp:concatenate"]}
{"id": "C28", "title": "Layout algebra", "statement": "The layout of an expression built from operands follows the documented table whatever the grouping or order of the operands, and a static layout is only reported when all operands are compatible with it.", "quantifier": "every finite list of layouts", "why_tests_cant": "All finite lists (associativity, commutativity).", "anchors": ["include/xtensor/core/xlayout.hpp:compute_layout"]}
{"id": "C29", "title": "A reported layout is truthful", "statement": "When strides are recognised as row_major or column_major (by views, adaptors, transposes), the flat buffer order of the elements is exactly that layout's order; and a container's own strides are always recognised.", "quantifier": "every shape and every strides vector", "why_tests_cant": "All shapes and strides; a wrong answer silently permutes data in linear assignment.", "anchors": ["include/xtensor/core/xstrides.hpp:do_strides_match", "include/xtensor/core/xstrides.hpp:stride_match_condition"]}
{"id": "C30", "title": "xt::strides reports true strides", "statement": "xt::strides(e) and xt::strides(e, axis) give, for each axis, the number of elements (or bytes) between neighbours along it in storage, also on axes of extent 1 where the stored stride is 0; both overloads agree.", "quantifier": "every shape, both layouts, every axis, every element size", "why_tests_cant": "All shapes and axes.", "anchors": ["include/xtensor/core/xstrides.hpp:strides", "include/xtensor/core/xstrides.hpp:compute_stride_impl"]}
{"id": "C31", "title": "at() is bounds-checked", "statement": "a.at(i...) never addresses memory outside the array: it throws out_of_range when there are more indices than dimensions or when an index is out of range on an axis of extent other than 1, and otherwise addresses the element the indices name (an axis of extent 1 ignores its index).", "quantifier": "every shape below 2^63 per axis, both layouts, every list of signed 64-bit indices", "why_tests_cant": "The check goes through a signed-to-unsigned conversion and must be right for every shape and every index.", "anchors": ["include/xtensor/utils/xexception.hpp:check_access", "include/xtensor/utils/xexception.hpp:check_index", "include/xtensor/core/xaccessible.hpp:at"]}
{"id": "C32", "title": "A lazy expression always reports the shape of its operands", "statement": "dimension(), shape() and the shape given to the destination of an assignment are those of the operands as they are at that moment, whatever was asked or resized before.", "quantifier": "every expression tree and every history of queries and operand resizes", "why_tests_cant": "Histories are unbounded; the shape is cached at the first query, so the answer depends on the order of events.", "anchors": ["include/xtensor/core/xfunction.hpp:shape", "include/xtensor/core/xfunction.hpp:compute_cached_shape", "include/xtensor/core/xfunction.hpp:broadcast_shape", "include/xtensor/core/xassign.hpp:resize"]}
{"id": "C33", "title": "xt::broadcast shows the right elements", "statement": "broadcast(e, s) has shape s, its element at i is the element of e whose trailing indices are those of i (0 on axes of extent 1), always inside e, and it throws broadcast_error when e cannot be broadcast to s.", "quantifier": "every shape of e, every target shape, both layouts, every in-bounds index", "why_tests_cant": "All pairs of shapes of all lengths.", "anchors": ["include/xtensor/views/xbroadcast.hpp:xbroadcast", "include/xtensor/views/xbroadcast.hpp:broadcast", "include/xtensor/core/xstrides.hpp:broadcast_shape"]}
{"id": "C34", "title": "Iterating over a lazy expression", "statement": "Incrementing begin() of any expression (functions of any number of operands, containers, generators, scalars, iterated with its own shape or a larger one) reads at step k the value of the expression at the k-th index of the traversal order, every operand being read at its broadcast index, and size() increments reach end().", "quantifier": "every expression tree, every iteration shape its operands broadcast to, both layouts", "why_tests_cant": "Expression trees and shapes are unbounded.", "anchors": ["include/xtensor/core/xiterator.hpp:xindexed_stepper", "include/xtensor/core/xfunction.hpp:xfunction_stepper", "include/xtensor/core/xiterator.hpp:xiterator"]}
{"id": "C35", "title": "Random access and reverse iteration over a lazy expression", "statement": "Any sequence of ++, --, += n, -= n from begin() or end() of an expression that stays in range lands on the element at the resulting position; comparison and difference agree with the positions.", "quantifier": "every expression tree, iteration shape, finite sequence of moves, both layouts", "why_tests_cant": "Histories of moves and trees are unbounded.", "anchors": ["include/xtensor/core/xiterator.hpp:xindexed_stepper", "include/xtensor/core/xfunction.hpp:xfunction_stepper", "include/xtensor/core/xstrides.hpp:strided_data_end"]}
{"id": "C36", "title": "Assignment behaves as if the right-hand side was evaluated first", "statement": "After a = e, where a is a container or a view, every element of a holds the value e had at that index before the statement, also when e reads elements of a; for a view, nothing outside the view changes; when the shapes do not fit, the statement throws broadcast_error and changes nothing. This holds for every build (SIMD, parallel, default layouts).", "quantifier": "all destinations, all right-hand sides over any number of operands that may share memory with the destination, all shapes, memory contents, builds and thread schedules", "why_tests_cant": "Aliasing depends on the exact overlap of address ranges, element order, vector width and thread schedule; the number of combinations is unbounded and a wrong value only shows up in some of them.", "anchors": ["include/xtensor/core/xsemantic.hpp: xsemantic_base::operator=, xview_semantic::operator=, xcontainer_semantic::assign_xexpression", "include/xtensor/utils/xutils.hpp: memory_range, overlapping_memory_checker", "include/xtensor/core/xassign.hpp: assign_xexpression, assert_compatible_shape, resize", "include/xtensor/views/xview.hpp: assign_temporary_impl"]}
{"id": "C37", "title": "stack, hstack and vstack", "statement": "stack(t, axis) has a new axis of extent the number of operands, element (.., k, ..) being the element of the k-th operand; hstack concatenates along the second axis (the first for one-dimensional operands); vstack stacks one-dimensional operands as rows and concatenates the others along the first axis. operator(), unchecked and element agree.", "quantifier": "all tuples of expressions of every shape and layout, all axes and indices", "why_tests_cant": "The element read depends on every extent and on the operand picked at run time; tests try small arrays of two operands.", "anchors": ["include/xtensor/generators/xbuilder.hpp: stack_access, vstack_access, stack, hstack, vstack"]}
{"id": "C38", "title": "eye, diag, diagonal, tril and triu", "statement": "eye(shape, k) is one exactly where the last two indices differ by k; diag(v, k) has v on its k-th diagonal and zeros elsewhere; diagonal(a, k, ax1, ax2) holds exactly the elements of a whose indices along the two axes differ by k; tril and triu keep exactly the elements on and below (above) the k-th diagonal.", "quantifier": "all shapes, all offsets k of either sign, all pairs of axes, all indices", "why_tests_cant": "Offsets of either sign are mixed with unsigned indices: a wrap-around shows only at particular offsets and extents.", "anchors": ["include/xtensor/generators/xbuilder.hpp: eye_fn, diag_fn, diagonal_fn, trilu_fn, diagonal, diag, tril, triu"]}
{"id": "C39", "title": "arange and linspace", "statement": "arange(start, stop, step) has one element start + i*step for each such value before stop; linspace with the end point included ends exactly at stop; reading an element and assigning the whole expression to a container give the same values.", "quantifier": "all start, stop, step of either sign and step size, all numbers of samples, any arithmetic of the value type", "why_tests_cant": "The number of elements comes from integer divisions whose boundary cases tests sample only sparsely.", "anchors": ["include/xtensor/generators/xbuilder.hpp: arange_impl, arange_generator, arange_assign_to, linspace"]}
{"id": "C40", "title": "meshgrid", "statement": "The k-th expression returned by meshgrid(x1, .., xn) has shape (size of x1, .., size of xn) and its element at (i1, .., in) is xk(ik).", "quantifier": "any number of vectors of any sizes, all indices", "why_tests_cant": "It quantifies over the number of arguments.", "anchors": ["include/xtensor/generators/xbuilder.hpp: repeat_impl, meshgrid"]}
{"id": "C41", "title": "lazy reduction", "statement": "A lazy reduction (sum, prod, amax, norm... or any reduce with a functor and an initial value) over increasing axes has the shape of the expression without these axes (or with extent 1 there, with keep_dims); each element is the fold of the elements of the expression along the axes from the initial value, by index or through an iterator in either order, alone or broadcast; an empty expression gives the initial value; invalid axes are reported by std::runtime_error; negative axes count from the last one.", "quantifier": "every expression of any shape, every subset of axes, every functor, any index, any traversal order and broadcast shape", "why_tests_cant": "Nested loops over an arbitrary subset of axes with a shared stepper that is moved and must be put back: correctness is an invariant over all dimensions, extents and sequences of reads.", "anchors": ["include/xtensor/reducers/xreducer.hpp: xreducer, xreducer_stepper, aggregate_impl, shape_and_mapping_computation", "include/xtensor/utils/xutils.hpp: normalize_axis"]}
{"id": "C42", "title": "immediate reduction", "statement": "reduce, sum, prod, amax... with evaluation_strategy::immediate return a container of the layout of the argument whose shape is that of the argument without the axes (extent 1 there with keep_dims) and whose elements are the folds, from the initial value, of the elements along the axes; this is what the lazy reduction of the same arguments gives; invalid axes are reported by std::runtime_error.", "quantifier": "every row or column major container of any shape, every subset of axes, every functor and initial value, whatever the fresh storage contains", "why_tests_cant": "The loop walks the storage once and decides by comparing positions whether an output is visited for the first time, with inner axes merged: correct only by an invariant over all shapes and axis subsets.", "anchors": ["include/xtensor/reducers/xreducer.hpp: reduce_immediate, copy_to_reduced, shape_computation"]}
{"id": "C43", "title": "cumulative sums and products", "statement": "accumulate, cumsum, cumprod, nancumsum and nancumprod along an axis (negative ones count from the last) return an array of the same shape and layout whose element at an index is the accumulation of the elements along the axis up to it; an axis out of range throws std::runtime_error; without axis they return the one-dimensional array of the accumulations in traversal order.", "quantifier": "every container of any shape (extents 0 and 1 included), every axis, every accumulation and initialisation functor", "why_tests_cant": "The loops walk the storage with two strides computed from the shape; a wrong count or stride shows only for particular combinations of extents, axis and layout.", "anchors": ["include/xtensor/reducers/xaccumulator.hpp: accumulator_impl, accumulator_init_with_f, accumulate", "include/xtensor/core/xmath.hpp: cumsum, nancumsum"]}
{"id": "C44", "title": "sort", "statement": "sort(e, axis) returns an array of the same shape and layout in which every lane along the axis (negative axes count from the last) is the lane of e in sorted order; without axis it returns the sorted elements.", "quantifier": "every array of any shape and layout, every axis, every strict weak order on the elements, every conforming std::sort", "why_tests_cant": "The lanes are reached by transposing into a temporary whose layout and strides depend on the shape, the layout and the axis; unit and zero extents change the strides.", "anchors": ["include/xtensor/misc/xsort.hpp: sort, map_axis, call_over_leading_axis, get_permutations, flat_sort_impl"]}
{"id": "C45", "title": "argsort", "statement": "argsort(e, axis) returns an array of the same shape in which every lane along the axis lists each position of the lane of e once, in the order that sorts it; with sorting_method::stable equal elements keep their order.", "quantifier": "every array of any shape, every axis, every strict weak order, every conforming standard library", "why_tests_cant": "Stability and the pairing of lanes of two arrays must hold for every shape and every pattern of equal elements.", "anchors": ["include/xtensor/misc/xsort.hpp: argsort, argsort_iter, flatten_argsort_impl, call_over_leading_axis"]}
{"id": "C46", "title": "partition and argpartition", "statement": "partition(e, kth, axis) permutes every lane so that each position of kth holds the element it would hold in the sorted lane, with nothing greater before it and nothing less after it; argpartition gives the positions that do so; without axis the same holds of all elements.", "quantifier": "every array, axis, and list of positions in any order with repetitions, every conforming std::nth_element", "why_tests_cant": "Several positions are treated one after the other on shrinking ranges; the invariant must survive every combination.", "anchors": ["include/xtensor/misc/xsort.hpp: partition, argpartition, partition_iter"]}
{"id": "C47", "title": "argmin and argmax", "statement": "argmin(e, axis) and argmax(e, axis) return an array with the shape of e without the axis, holding for each lane the position of its first smallest (greatest) element; without axis they return the position of the first one in the traversal.", "quantifier": "every non-empty array of any shape and layout, every axis, every strict weak order", "why_tests_cant": "Results are written through an iterator while lanes are read from a transposed temporary: the two orders must agree for every shape.", "anchors": ["include/xtensor/misc/xsort.hpp: argmin, argmax, arg_func_impl"]}
{"id": "C48", "title": "unique and setdiff1d", "statement": "unique(e) is the strictly increasing sequence of the distinct elements of e; setdiff1d(a, b) is the strictly increasing sequence of the elements of a that are not in b.", "quantifier": "all arrays of any size, any total preorder whose equivalence is the equality of the elements", "why_tests_cant": "All multisets of elements.", "anchors": ["include/xtensor/misc/xsort.hpp: unique, setdiff1d"]}
{"id": "C49", "title": "isin and searchsorted", "statement": "isin(e, t) is true exactly at the elements of e equal to an element of t; searchsorted(a, v, right) gives for every element of v a position of the sorted a where it can be inserted keeping the order: the first such position if right is false, the last if it is true.", "quantifier": "all arrays, all shapes of v, all sorted a", "why_tests_cant": "The position must be right for every multiset of equal elements and every shape of v.", "anchors": ["include/xtensor/misc/xset_operation.hpp: isin, in1d, searchsorted"]}
{"id": "C50", "title": "median", "statement": "median(e) of a non-empty array is the middle element of its sorted elements, or the mean of the two middle ones.", "quantifier": "all non-empty arrays of any size", "why_tests_cant": "It rests on a double partition at two positions for every size and pattern of equal elements.", "anchors": ["include/xtensor/misc/xsort.hpp: median"]}
{"id": "C51", "title": "Chunked arrays behave as arrays", "statement": "A chunked array built with chunked_array(shape, chunk_shape) or chunked_array(e, chunk_shape), whatever chunk shape, and then changed by element writes, noalias and ordinary assignments and scalar compound assignments, holds at every in-bounds index the value an ordinary array holds after the same operations; no in-bounds access fails and distinct indices never share storage. The chunk iterator visits every chunk once in row major order and its slices partition the index space. Assigning an expression or a chunked array to as_chunked(a) gives a the elements of the right-hand side.", "quantifier": "all shapes, chunk shapes with positive extents (dividing the shape or not), layouts of chunks and grid, expressions, in-bounds indices and finite sequences of operations", "why_tests_cant": "edge chunks depend on the remainders of arbitrary extents; tests cover a few shapes", "anchors": ["include/xtensor/chunk/xchunked_array.hpp: xchunked_array, chunked_array", "include/xtensor/chunk/xchunked_assign.hpp: xchunk_iterator, xchunked_semantic", "include/xtensor/chunk/xchunked_view.hpp: xchunked_view, as_chunked"]}
{"id": "C52", "title": "argwhere, nonzero, flatnonzero", "statement": "argwhere<L>(arr) lists every index whose element is non-zero, exactly once, in the order L; nonzero(arr) and where(arr) list the same indices coordinate by coordinate in the default traversal; flatnonzero<L>(arr) lists their positions in the order L; ravel_indices maps indices to their positions and flatten_indices concatenates them.", "quantifier": "all shapes (including no dimension and zero extents), orders, conditions", "why_tests_cant": "the index is carried from axis to axis for arbitrary shapes; tests try a few", "anchors": ["include/xtensor/core/xoperation.hpp: next_idx, nonzero, argwhere, where", "include/xtensor/misc/xmanipulation.hpp: flatnonzero", "include/xtensor/containers/xtensor.hpp: flatten_indices, ravel_indices"]}
{"id": "C53", "title": "Index views, filters and filtrations", "statement": "index_view(a, l) reads a at l[i]. Assigning through it, or through filter(a, condition), changes exactly the selected elements; the right-hand side is evaluated as if before the assignment, even when it reads a; where an index is listed several times the last value wins. filtration(a, condition) op= x applies the operation exactly where the condition holds.", "quantifier": "all arrays, index lists (with or without repetitions), conditions, right-hand sides built from the array itself and other expressions", "why_tests_cant": "overlap of source and destination depends on the order of arbitrary index lists in memory", "anchors": ["include/xtensor/views/xindex_view.hpp: xindex_view, xfiltration, index_view, filter, filtration", "include/xtensor/core/xsemantic.hpp: xview_semantic", "include/xtensor/utils/xutils.hpp: overlapping_memory_checker"]}
{"id": "C54", "title": "Equality of expressions and trim_zeros", "statement": "e1 == e2 is true exactly when the shapes are equal and all elements compare equal, and != is its negation; trim_zeros drops all the zeros at the sides asked for and nothing else.", "quantifier": "all pairs of expressions of any shapes; all one-dimensional sequences and directions", "why_tests_cant": "ranges over all shapes and contents", "anchors": ["include/xtensor/core/xoperation.hpp: operator==, operator!=", "include/xtensor/misc/xmanipulation.hpp: trim_zeros"]}
{"id": "C55", "title": "Padding repeats the right elements", "statement": "pad(e, widths, mode, value) has the extent of e plus both widths on every axis. The centre is e. Everywhere else, the constant mode has the value given; the modes edge, wrap (periodic), symmetric and reflect show the element of e that the mode designates axis by axis, for widths up to the elements available.", "quantifier": "all shapes of any dimension (also with empty axes), all widths, elements, modes, element types, layouts of the result, traversal orders and choices of a temporary", "why_tests_cant": "The axes are padded one after the other from the result itself, so each region must only copy positions already written; a test checks a few shapes.", "anchors": ["include/xtensor/misc/xpad.hpp pad"]}
{"id": "C56", "title": "Tiling repeats the array", "statement": "tile(e, reps) has extent n * r on an axis of extent n repeated r >= 1 times and its element at index ix is the element of e at ix modulo the extents; tile(e, r) repeats along the first axis.", "quantifier": "all shapes of any dimension (also with empty axes), all numbers of repetitions at least 1, elements, element types, layouts and traversal orders", "why_tests_cant": "The copies are made from the result itself in sequence, for every number of repetitions and dimension.", "anchors": ["include/xtensor/misc/xpad.hpp tile, detail::tile"]}
{"id": "C57", "title": "npy files are written and read back", "statement": "dump_npy(e) writes a file of the npy format: magic string, version, header length, a dictionary with the type, the order and the shape, and the elements, starting at a multiple of 64 bytes. load_npy<T>() of any well formed file of type T gives the array that the file describes, whatever its padding, version (1 or 2) and order, and load_npy(dump_npy(e)) has the shape and the elements of e.", "quantifier": "every value type with a fixed-size encoding, byte order, shape, row or column major array, padding, version, contents", "why_tests_cant": "The header depends on the digits of every extent and its length on their number; round trips are tried on a few shapes, none with a header longer than 127 bytes.", "anchors": ["include/xtensor/io/xnpy.hpp: dump_npy_stream, write_header, build_typestring, load_npy, load_npy_file, parse_header, read_header_1_0, read_header_2_0, npy_file::cast"]}
{"id": "C58", "title": "Damaged or foreign npy files are rejected", "statement": "load_npy throws when the file is too short, does not start with the magic string, has another version, another type or the other order; a file that is cut short is not accepted as complete.", "quantifier": "every file, every cut point", "why_tests_cant": "There are as many damaged files as byte strings; the claim is about each place where a file can stop.", "anchors": ["include/xtensor/io/xnpy.hpp: read_magic, load_npy_file, read_header_1_0, read_header_2_0, npy_file::cast_impl"]}
{"id": "C59", "title": "Repeat copies each element the given number of times", "statement": "repeat(e, counts, axis) has the shape of e with the sum of the counts along the axis; reading it by call, by iterator or by assigning it to a container gives e at the same index, with the position along the axis replaced by the position of the block of counts it falls in; one count stands for all; a wrong number of counts throws std::invalid_argument.", "quantifier": "every expression, axis, list of counts (also 0), index, iteration order and sequence of iterator moves", "why_tests_cant": "Which element is read depends on the running sums of an arbitrary list of counts and on the state the stepper accumulated before; a test shows a few counts.", "anchors": ["include/xtensor/views/xrepeat.hpp: xrepeat, xrepeat_stepper", "include/xtensor/misc/xmanipulation.hpp: repeat, make_xrepeat"]}
{"id": "C60", "title": "Views of lazy expressions and keep/drop views can be iterated and assigned", "statement": "Iterating over view(e, slices...) visits, in the chosen order, exactly the elements of e the slices select, and ends at end(); assigning the view to a container reads, and assigning to the view writes, the same elements; moving iterators backwards or by any distance gives the element at the resulting position.", "quantifier": "every expression, list of slices (integers, ranges, newaxis, keep, drop), order, number of steps and sequence of moves", "why_tests_cant": "The stepper keeps a position per axis and drives the stepper of the expression by differences; which state it is in depends on all moves before.", "anchors": ["include/xtensor/views/xview.hpp: xview_stepper, xview::stepper_begin, xview::stepper_end"]}
{"id": "C61", "title": "Iterators over the slices of a tensor visit the right slices and stop", "statement": "axis_begin(e, axis) incremented k times gives the view of the elements of e whose index on that axis is k, and equals axis_end(e, axis) after as many increments as the axis has elements and at no other time. axis_slice_begin(e, axis) incremented k times gives the one-dimensional view along the axis at the k-th index of the other axes, in the order of e, and equals axis_slice_end(e, axis) after one increment per such index.", "quantifier": "every expression with a buffer, its shape, strides and offset, every axis, every number of increments, every index in the slice", "why_tests_cant": "The slice iterator decides with remainders and comparisons when to jump; it is right for two and three axes and wrong for most shapes with four, and the end iterator forgets the offset of a view. The tests walk a few small shapes.", "anchors": ["include/xtensor/views/xaxis_iterator.hpp: xaxis_iterator, axis_begin, axis_end", "include/xtensor/views/xaxis_slice_iterator.hpp: xaxis_slice_iterator, axis_slice_begin, axis_slice_end"]}
{"id": "C62", "title": "Filling a view writes its elements and nothing else", "statement": "v.fill(x), and v = x for a value x, on a strided view sets every element of v to x and leaves every other element of the underlying buffer as it was.", "quantifier": "every strided view made by slicing an expression with a buffer, every value, every content of the buffer; and the views given by the slice iterators", "why_tests_cant": "fill takes a shortcut over consecutive memory when the view says that it is contiguous, so it is right only if every constructor of views labels them rightly.", "anchors": ["include/xtensor/views/xstrided_view.hpp: xstrided_view::fill, xstrided_view::operator=, linear_begin, linear_end", "include/xtensor/views/xaxis_slice_iterator.hpp: xaxis_slice_iterator", "include/xtensor/views/xaxis_iterator.hpp: derive_xstrided_view"]}
{"id": "C63", "title": "Histograms count every item in its bin", "statement": "histogram(data, edges, weights, density) for sorted edges returns one number per bin: the sum of the weights of the items x with edges[b] <= x < edges[b+1] (the last bin also holds its right edge), items outside the edges counting nowhere; with density the number is divided by the width of the bin and the number of items, so that the integral over the edges is one for unit weights. With a number of bins instead of edges, the bins have equal widths between the bounds, or the minimum and the maximum of the data. digitize returns for every element the number of edges below it.", "quantifier": "all data, edges (repeated ones included), weights, value types and additions; for bins of equal width all rational data, bounds and numbers of bins", "why_tests_cant": "whether an item falls on the right side of an edge depends on the exact values; the failures of the equal-width variant are single floating-point numbers", "anchors": ["include/xtensor/misc/xhistogram.hpp: histogram, detail::histogram_imp, digitize, histogram_bin_edges", "include/xtensor/core/xmath.hpp: minmax", "include/xtensor/generators/xbuilder.hpp: linspace"]}
{"id": "C64", "title": "Counts per integer, bins with equal contents and distribution of items", "statement": "bincount(data, weights, minlength) returns max(minlength, largest item + 1) sums, the x-th being the sum of the weights of the items equal to x, and throws if an item is negative. histogram_bin_edges with mode uniform places the edges so that every bin holds the same number of items up to rounding. bin_items(N, weights) returns non-negative counts that add up to N, each within one of N times the relative weight of the bin.", "quantifier": "all integer data, weights and lengths; all data sets with at least as many items as bins; all N and all non-negative weights with a positive sum", "why_tests_cant": "sums over all items and the interplay of rounding with sorting; tests use a few fixed data sets", "anchors": ["include/xtensor/misc/xhistogram.hpp: bincount, histogram_bin_edges, bin_items"]}
{"id": "C65", "title": "Random reordering keeps the elements and every order is equally likely", "statement": "shuffle(e) of any non-empty one-dimensional expression or view permutes its elements and changes nothing else in memory; of a container with more dimensions it permutes the rows along the first axis and keeps each row. Every order of n elements results from exactly one sequence of the n-1 numbers drawn, so with uniform draws all orders are equally likely. permutation(n) is a permutation of 0..n-1; permutation(e) leaves e unchanged.", "quantifier": "all element types, sizes, shapes, strides and positions; every sequence of numbers an engine can draw", "why_tests_cant": "the result is random: a test with a seed sees one of n! outcomes, and a slightly biased or off-by-one shuffle still looks random", "anchors": ["include/xtensor/generators/xrandom.hpp: shuffle, permutation"]}
{"id": "C66", "title": "Random samples come from the expression, are distinct where asked and unbiased", "statement": "choice(e, n, true) returns n elements of e, the k-th at the k-th position drawn. choice(e, n, false) returns elements at n distinct positions, and every n-element subset results from the same number of draw sequences. choice(e, n, w, true) picks the element whose weight covers the drawn fraction of the total weight, so never one of weight zero; choice(e, n, w, false) returns the n elements with the largest weight/exponential keys, at distinct positions, none of weight zero while n weights are positive.", "quantifier": "all data, sample sizes and weights; every sequence of numbers an engine can draw", "why_tests_cant": "bias of a sampling algorithm is a statement about all sequences of draws; tests look at a few seeds", "anchors": ["include/xtensor/generators/xrandom.hpp: choice"]}
{"id": "C67", "title": "Reshaped views hold every element once, in order", "statement": "reshape_view<L>(e, shape) with as many elements as e holds every element of e exactly once: the element at an index of the view is the element of e with the same rank in the order L. One extent of a signed shape may be -1 and is then the one that gives the right size. flat(k) and the k-th element of an iteration give the k-th element of e, forwards and backwards. ravel<L>(e) and flatten<L>(e) have as element i the i-th element of e in the order L.", "quantifier": "every expression shape, every new shape with the same number of elements, both orders, every index, every position of the -1", "why_tests_cant": "The number of shapes and of index pairs is unbounded; tests use a few small shapes, and only forward iteration.", "anchors": ["include/xtensor/views/xstrided_view.hpp: reshape_view, detail::recalculate_shape_impl, xstrided_view::flat, linear_begin, linear_rbegin", "include/xtensor/views/xstrided_view_base.hpp: detail::flat_expression_adaptor", "include/xtensor/misc/xmanipulation.hpp: ravel, flatten", "include/xtensor/core/xiterable.hpp: xcontiguous_iterable::rbegin"]}
{"id": "C68", "title": "Dynamic views select what their slices say", "statement": "dynamic_view(e, slices), with a list of slices built at run time (integers, ranges, all(), newaxis(), an ellipsis, and lists of kept or dropped positions), has the shape numpy-style indexing gives; for every index the element of the view, read with v(i, j, ...), v.element(index), v.unchecked(i, j, ...) or v.flat(i), is the element of e that numpy-style indexing gives, missing leading arguments counting as zeros and extra leading arguments being ignored; two ellipses or more slices than axes throw.", "quantifier": "every expression with or without data, of any shape, every list of in-range slices and every index", "why_tests_cant": "The slices of a list are resolved one by one with running counters for the axes they use; a wrong counter, stride or adjustment shows only for particular mixtures of slices, dimensions and argument counts, of which there are unboundedly many.", "anchors": ["include/xtensor/views/xdynamic_view.hpp: dynamic_view, xdynamic_view", "include/xtensor/views/xstrided_view_base.hpp: strided_view_args::fill_args"]}
{"id": "C69", "title": "A blockwise reduction is the reduction of the whole expression", "statement": "blockwise::sum, prod, amin, amax, mean, variance, stddev and the norms over an expression cut into blocks of a given shape, over any list of distinct axes, with or without keep_dims, assigned to a container of the result's shape, give at each index the sum (product, smallest, ...) of all the elements of the expression that are reduced into that index, the same as the reduction of the whole expression, whatever the shape of the blocks (also when it does not divide the shape of the expression) and whatever the container held before. The multi-index iterator used to visit the blocks visits each multi-index between its bounds exactly once, in row-major order.", "quantifier": "every shape, block shape, list of axes, keep_dims, layout, element values, old contents of the container", "why_tests_cant": "Tests use a few shapes and block shapes; partial blocks at the borders, the first-block logic and the parallel variance formula must be right for every decomposition.", "anchors": ["include/xtensor/reducers/xblockwise_reducer.hpp: xblockwise_reducer", "include/xtensor/reducers/xblockwise_reducer_functors.hpp: sum_functor, mean_functor, variance_functor, norm_lp_to_p_functor", "include/xtensor/core/xmultiindex_iterator.hpp: xmultiindex_iterator"]}
{"id": "C70", "title": "convolve gives the discrete convolution", "statement": "convolve(a, v, full) of two one-dimensional non-empty expressions, whichever is longer, has length len(a) + len(v) - 1 and its element k is the sum of the products of all the pairs of elements whose positions add up to k; convolve(a, v, valid) gives the elements where the shorter lies entirely within the longer one. Expressions that do not have exactly one axis are rejected by an exception. No element outside the two expressions is read.", "quantifier": "every pair of non-empty one-dimensional expressions, both modes", "why_tests_cant": "Tests compare a few literals; index arithmetic at both ends must be right for every pair of lengths.", "anchors": ["include/xtensor/core/xmath.hpp: convolve"]}
{"id": "C71", "title": "interp is the piecewise linear function through the given points", "statement": "interp(x, xp, fp) for increasing x and strictly increasing xp gives at each x the value of the piecewise linear function through the points (xp, fp), constant before the first and after the last point; with left and right given, these replace the constant values below the first and above the last point. Every element of the result is written and no element outside the points is read.", "quantifier": "every sorted x, every non-empty sorted list of points, every end value", "why_tests_cant": "Tests interpolate a few literals; the three loops share a counter whose bounds must hold for every interleaving of x and xp.", "anchors": ["include/xtensor/core/xmath.hpp: interp"]}
{"id": "C72", "title": "mean, variance and average are those of the reduced elements", "statement": "mean(e, axes) has for each index the sum of the elements that are reduced divided by their number, for axes counted from the front or from the end, with or without keep_dims, and no number where there are none; mean(e) that of all elements. variance(e, axes, ddof) is the sum of the squared distances to that mean divided by the number of elements less ddof; average(e, weights, axes) is the sum of the products with the weights divided by the sum of the weights, for weights of the shape of e or one for each index along an axis, and weights that do not fit are rejected.", "quantifier": "every shape, expression, set of axes, keep_dims, ddof and weights", "why_tests_cant": "Tests compare a few literal arrays; the divisor is a quotient of two sizes and the means are broadcast back through a reshaped view, which must fit for every shape and set of axes.", "anchors": ["include/xtensor/core/xmath.hpp: mean, variance, average, detail::mean, detail::mean_noaxis, detail::mean_division"]}
{"id": "C73", "title": "The NaN-ignoring reductions, counts and minmax", "statement": "nansum, nanprod, nanmin, nanmax, nanmean and nanvar have for each index the sum, product, least, greatest, mean and variance of the elements that are reduced and are not NaN, lazily and immediately, over every set of axes with or without keep_dims; count_nonzero and count_nonnan count the reduced elements that are not zero, not NaN; minmax gives the least and the greatest of all elements; nancumsum and nancumprod have at each index the sum and product of the elements up to it that are not NaN.", "quantifier": "every shape, expression, set of axes, keep_dims, and every placement of NaN", "why_tests_cant": "Whether the first element of a block, of a line or of a nested block is NaN decides which of the functors sees it; tests place one NaN in one array.", "anchors": ["include/xtensor/core/xmath.hpp: nansum, nanprod, nanmin, nanmax, nanmean, nanvar, count_nonzero, count_nonnan, minmax, nancumsum, nancumprod"]}
{"id": "C74", "title": "diff and trapz", "statement": "diff(a, n, axis) yields one array, n shorter along the axis (empty if n is not less than the extent) and the same elsewhere, whose elements are the n-th differences of those of a: on integers, the alternating binomial sums. trapz(y, dx, axis) and trapz(y, x, axis) have the shape of y without the axis and sum the areas of the trapezoids between consecutive points along it, of width dx or of the difference of consecutive x.", "quantifier": "all shapes with extents below 2^63, axes counted from the front or the end, orders n, layouts, operands, element types and subtractions (diff); all finite values (trapz)", "why_tests_cant": "diff repeatedly assigns to an array the difference of two views of that same array; whether the temporary, the resize and the views agree depends on every shape, axis, order and layout.", "anchors": ["include/xtensor/core/xmath.hpp: diff, trapz", "include/xtensor/views/xstrided_view.hpp: strided_view", "include/xtensor/core/xsemantic.hpp: operator="]}
{"id": "C75", "title": "Fourier transforms and circular convolutions are the sums that define them", "statement": "fft(e, axis) has the shape of e and each of its lines along the axis is the discrete Fourier transform of that line of e: element k is the sum over j of e_j exp(-2 pi i j k / n). This holds for every length n: powers of two, by recursive halving, and all others, by a convolution of padded lines. ifft(e, axis) has the conjugate factors; ifft after fft, and fft after ifft, give back the array times n. fft::convolve(x, y, axis) of arrays of the same shape has the circular convolutions of their lines as its lines; operands with different numbers of dimensions or different extents along the axis are rejected. Negative axes count from the end.", "quantifier": "All lengths, all shapes and axes, all complex elements in an exact arithmetic", "why_tests_cant": "Tests transform a few lengths of a few signals and compare up to rounding; they cannot cover all lengths of both algorithms nor all shapes and axes over which the lines are enumerated.", "anchors": ["include/xtensor/misc/xfft.hpp: radix2, transform_bluestein, fft, ifft, convolve", "include/xtensor/views/xaxis_slice_iterator.hpp: axis_slice_begin, axis_slice_end"]}
{"id": "C76", "title": "CSV texts are read and written faithfully", "statement": "load_csv skips the first skip_rows lines and every line that starts with the comment mark, reads up to max_rows rows, splits each at the delimiter, converts every cell and returns the matrix of the values, element (i, j) being cell j of row i. A row of another length than the others is rejected with runtime_error, and a cell that is not converted with the exception of the conversion. dump_csv writes the elements of a 2-D expression row by row, separated by commas, each row ended by a newline, and rejects other dimensions. What dump_csv (dump_file) wrote of a non-empty matrix of integers or strings is read back by load_csv (load_file) with the same configuration as the same matrix.", "quantifier": "All texts (any lines, comments, cells, with or without a final newline), all skip_rows, max_rows, marks and delimiters, all 2-D expressions of all extents and layouts", "why_tests_cant": "Tests read a few well-formed texts; they cannot cover all texts, nor show that every matrix survives the round trip.", "anchors": ["include/xtensor/io/xcsv.hpp: load_csv, load_csv_row, lexical_cast, dump_csv, xcsv_config, load_file, dump_file"]}
{"id": "C77", "title": "Storages own their memory exactly once", "statement": "In any program that constructs, copies, moves, assigns, resizes, clears, swaps, reads, writes and destroys uvectors (the storage of xarray and xtensor), whichever allocations fail, no freed or foreign memory is touched, each block is freed exactly once with the size it was allocated with, each vector holds what value semantics says, and an operation that throws bad_alloc changes nothing. The same holds for buffer adaptors that acquired ownership; adaptors that did not acquire it write through and never allocate or free.", "quantifier": "every finite program over any number of variables, every element type (trivial or not), every pattern of failing allocations", "why_tests_cant": "tests run a few histories without failing allocations, and a double free or a leak is not visible in the values they compare", "anchors": ["include/xtensor/containers/xstorage.hpp: uvector, safe_init_allocate, safe_destroy_deallocate", "include/xtensor/containers/xbuffer_adaptor.hpp: xbuffer_owner_storage, xbuffer_storage, xbuffer_adaptor"]}
{"id": "C78", "title": "Storages compare lexicographically", "statement": "The operators ==, <, <=, > and >= of uvectors and of buffer adaptors agree with equality and the lexicographic order of the sequences they hold.", "quantifier": "every pair of sequences of any lengths over any totally ordered element type", "why_tests_cant": "tests compare a few sequences whose first elements already differ", "anchors": ["include/xtensor/containers/xstorage.hpp: operator<, operator<=, operator>, operator>=", "include/xtensor/containers/xbuffer_adaptor.hpp: operator<, operator<=, operator>, operator>="]}
{"id": "C79", "title": "JSON serialisation keeps shape and elements", "statement": "to_json of any expression (container, view, lazy expression) produces the nested lists of its elements, a scalar for a 0-d expression; from_json into an array gives it the shape of the nested lists and their values whatever it held before, so writing and reading back gives an equal array; from_json into a view writes the elements of the view and nothing else.", "quantifier": "every element type, number of axes, shape, layout, previous content of the target, and every expression or view", "why_tests_cant": "The recursion goes as deep as the number of axes and the number of elements is unbounded; tests fix a few 2-d arrays.", "anchors": ["include/xtensor/io/xjson.hpp: to_json, from_json, detail::to_json_impl, detail::from_json_impl, detail::json_shape, detail::json_dimension", "include/xtensor/views/xstrided_view.hpp: strided_view"]}
{"id": "C80", "title": "quantile is the interpolated order statistic of each sample", "statement": "quantile(e, probas, axis, alpha, beta) has the probabilities along a new first axis in place of the given axis, and each element is the Hyndman-Fan quantile, with parameters alpha and beta, of the numbers of e along the axis: the linear interpolation between the two neighbouring order statistics. It lies between the smallest and the largest of these numbers and does not decrease with the probability, and each named method reproduces the k-th smallest number at its plotting position.", "quantifier": "every number of axes, shape with numbers along the axis, layout, positive or negative axis, list of probabilities, alpha and beta, method, and content", "why_tests_cant": "Ranks depend on the order of arbitrary numbers and on rational rounding, and the elements pass through three index mappings; tests compare a handful of small arrays with precomputed values.", "anchors": ["include/xtensor/misc/xsort.hpp: quantile, quantile_method, detail::quantile_kth_gamma, detail::select_indices, detail::fancy_indexing, detail::unsqueeze_shape", "include/xtensor/views/xstrided_view.hpp: reshape_view", "include/xtensor/misc/xmanipulation.hpp: moveaxis"]}
{"id": "C81", "title": "Containers with a static shape behave like those with a run-time shape", "statement": "An xtensor_fixed has the strides, the size and the element order an xarray of its shape and layout has; construction from a value gives that value at every index; reshape accepts only the shape of the type. Assigning an expression to an xtensor_fixed, or an expression of xtensor_fixed operands to any container, gives the destination the value the expression had before at every index, also when it reads the destination.", "quantifier": "every shape, layout, content, expression tree, destination, build setting and schedule of the parallel loops", "why_tests_cant": "The shape and the choice of the assignment loop are made by the compiler for each combination of shape types, and a wrong choice reads other memory only for some trees of expressions.", "anchors": ["include/xtensor/containers/xfixed.hpp: calculate_stride, get_strides, get_backstrides, fixed_compute_size, xfixed_container", "include/xtensor/core/xshape.hpp: promote_fixed, promote_index, filter_scalar", "include/xtensor/core/xassign.hpp: static_trivial_broadcast, xexpression_assigner::resize"]}
{"id": "C82", "title": "A nested initializer list gives the array it is written as", "statement": "A container built from a rectangular nested list has the shape of the list, and its element at (i, j, ...) is list[i][j]..., for every layout of the container.", "quantifier": "every rectangular nested list of every depth and size, including empty ones, every layout, xarray, xtensor and xtensor_fixed", "why_tests_cant": "The copy walks storage with a pointer or a row-major iterator while elements sit at strides of another order; depths and lengths are unbounded.", "anchors": ["include/xtensor/utils/xutils.hpp: nested_copy", "include/xtensor/core/xshape.hpp: initializer_shape_impl, shape", "include/xtensor/containers/xarray.hpp: xarray_container(nested_initializer_list_t)", "include/xtensor/containers/xtensor.hpp: xtensor_container(nested_initializer_list_t)", "include/xtensor/containers/xfixed.hpp: xfixed_container(nested_initializer_list_t)"]}
{"id": "C83", "title": "Norms of integer arrays along axes", "statement": "norm_l0, norm_l1, norm_sq and norm_linf of an array of integers, over given axes or all of them, lazy or immediate, are the number of non-zero elements, the sum of absolute values, the sum of squares and the greatest absolute value of the elements reduced; norm_induced_l1 and norm_induced_linf of a matrix are the greatest L1 norm of its columns and rows. Invalid axes are reported by an exception.", "quantifier": "all integral element types, shapes, elements, axes counted from either end, keep_dims, both evaluation strategies", "why_tests_cant": "integer promotion and overflow depend on the values of the elements and on their type; axes and shapes range over infinitely many combinations", "anchors": ["include/xtensor/reducers/xnorm.hpp: norm_l0, norm_l1, norm_sq, norm_linf, norm_induced_l1, norm_induced_linf, XTENSOR_NORM_FUNCTION, XTENSOR_NORM_FUNCTION_AXES"]}
{"id": "C84", "title": "Views and adaptors through a functor", "statement": "A view that applies a functor to the elements of an array (real and imaginary parts, members of structures, user functors) reads the functor's value of each element, in the order of the array. Filling it, assigning an expression to it (also one that reads the same array through the same or another functor) and compound assignments change exactly the part of each element the functor refers to, to the value of the expression before the assignment; other parts and other elements do not change. Expressions of a shape that does not broadcast are rejected. Assigning to an adaptor resizes the array and assigns element by element.", "quantifier": "every functor given as a part of the element, every array and view with its strides, every expression with its operands, every layout and shape", "why_tests_cant": "whether a temporary is made depends on address ranges; a finite set of overlapping views does not show that the test covers all strides, and storage-order copies agree with index-order copies on most examples", "anchors": ["include/xtensor/views/xfunctor_view.hpp: xfunctor_view, xfunctor_adaptor, xfunctor_iterator, xfunctor_applier_base", "include/xtensor/views/xoffset_view.hpp: xoffset_view", "include/xtensor/misc/xcomplex.hpp: real, imag", "include/xtensor/core/xsemantic.hpp: xview_semantic"]}
{"id": "C85", "title": "Printed arrays show the elements of the array", "statement": "Writing an array of integers, booleans or strings to a stream writes a nested list in braces with the elements in order; beyond the threshold, the first and last edge items of each axis with an ellipsis between them. All elements are written with the same width, lines are broken at the line width, and two arrays printed in full with the same text have the same shape and elements. Options given to the stream apply to one printing.", "quantifier": "every shape, every content, every threshold, number of edge items and line width", "why_tests_cant": "the loops jump over the middle of each axis and break lines by counting; examples with a few shapes and the default options do not reach the jumps that miss the end of the loop", "anchors": ["include/xtensor/io/xio.hpp: operator<<, pretty_print, xoutput, recurser_run, get_print_options, printer, print_options"]}
{"id": "C86", "title": "Arrays with missing values", "statement": "An element of an expression of optional arrays, plain arrays and scalars is missing exactly when an element it depends on is missing, and otherwise has the value computed from the values; value(e) and has_value(e) agree with it. Assigning such an expression to an optional assembly resizes it and gives it these elements; incompatible shapes are reported and leave it unchanged. Constructors give every element the stated value and flag, writing an element changes this one only, reshape and flat access keep values and flags together, a reduction is missing exactly when one of the reduced elements is.", "quantifier": "all expressions, shapes, layouts, values and patterns of missing elements", "why_tests_cant": "Whether values and flags stay in step depends on the shapes, layouts, overlaps and patterns of missing elements in combination; tests use a handful of small arrays.", "anchors": ["include/xtensor/optional/xoptional.hpp: value, has_value, optional_bitwise, assign_data_impl, xfunction_optional_base, xreducer_optional, xcontainer_optional_base", "include/xtensor/optional/xoptional_assembly.hpp: xoptional_assembly", "include/xtensor/optional/xoptional_assembly_base.hpp: operator(), resize, reshape, flat, broadcast_shape"]}
{"id": "C87", "title": "Masked views read, fill and assign the visible elements only", "statement": "A masked view shows element ix of the data with flag ix of the mask (broadcast to the data), the same by index and by iteration. Filling it or assigning an expression to it (operator=, and the compound assignments with scalars and expressions, which may contain masked views) gives every visible element its value and leaves hidden elements, the rest of the data and the mask unchanged; an element assigned a hidden value is the only kind that may become hidden; an expression that does not fit throws and changes nothing.", "quantifier": "every value type and operation, every shape and stride, every stored or computed mask, every right-hand side expression, every traversal layout, every behaviour of the assignment of a hidden value", "why_tests_cant": "Tests use small arrays, masks of the same shape and right-hand sides that do not overlap.", "anchors": ["include/xtensor/views/xmasked_view.hpp: xmasked_view, xmasked_view_stepper, masked_view, operator=, fill, assign_temporary_impl", "include/xtensor/core/xsemantic.hpp: xview_semantic"]}
{"id": "C88", "title": "Element-wise functions and truth tests", "statement": "pow<N>(e), square and cube give the product of N, 2 and 3 factors; minimum, maximum and clip select an argument according to the order; amax and amin over any axes give the greatest and the least of the elements reduced to an index; sign gives -1, 0 or 1; nan_to_num replaces what is not finite; isclose is symmetric, reflexive for numbers, and holds when the distance is within one of the tolerances; all, any and allclose tell whether all or some elements, or all pairs of the broadcast operands, satisfy the condition.", "quantifier": "all exponents, all values including NaN and infinities, all orders, all shapes, layouts and axes, all tolerances", "why_tests_cant": "The number of exponents, values, shapes and tolerances is unbounded, and the wrong cases (narrow types, infinities, NaN in some positions, operands that cannot be broadcast) are easily missed by examples.", "anchors": ["include/xtensor/core/xmath.hpp: pow, square, cube, minimum, maximum, clip, sign, isclose, allclose, nan_to_num, amax, amin", "include/xtensor/core/xoperation.hpp: all, any"]}
{"id": "C89", "title": "unwrap removes the jumps of a wrapped quantity", "statement": "unwrap(p, discontinuity, axis, period) differs from p by multiples of the period, starts with the same elements, keeps every step of p shorter than the discontinuity, and replaces every other step by one of at most half a period; there is exactly one such array. A discontinuity below half a period acts like half a period, and unwrapping again changes nothing.", "quantifier": "all shapes, axes (also negative), positive periods, discontinuities and values", "why_tests_cant": "The claim is about all values and lengths: corrections accumulate along the axis, so an error in one step shows only in particular sequences.", "anchors": ["include/xtensor/core/xmath.hpp: unwrap, calculate_discontinuity, calculate_interval"]}
{"id": "C90", "title": "Adaptors show and change the client's buffer", "statement": "adapt(buffer, shape, layout) shows the elements of the buffer in the order of the layout without copying; a buffer of a fixed size that does not match the shape, or a layout other than the static one, is refused by an exception. Assigning an expression to an adaptor gives it the shape of the expression and puts its values in the client's buffer, also when the expression reads that buffer; if the shapes cannot be broadcast, or a buffer of a fixed size has another size, an exception is thrown and the buffer is unchanged.", "quantifier": "all buffers, shapes, layouts, strides and expressions; buffers with and without a fixed size", "why_tests_cant": "The claim ranges over all expressions and all ways they may overlap the buffer, and over the state after an exception, which tests seldom look at.", "anchors": ["include/xtensor/containers/xadapt.hpp: adapt", "include/xtensor/containers/xarray.hpp: xarray_adaptor", "include/xtensor/containers/xtensor.hpp: xtensor_adaptor", "include/xtensor/containers/xbuffer_adaptor.hpp: xbuffer_storage, xbuffer_adaptor"]}
{"id": "C91", "title": "cov gives the sample covariance matrix", "statement": "cov(x) for k rows of n observations is the matrix of the sample covariances of the rows; cov of a vector is its sample variance, and cov(x, y) the matrix for the two rows. The matrix is symmetric and positive semidefinite, does not change when a constant is added to a row, and scales with the rows.", "quantifier": "all numbers of rows and observations, all values", "why_tests_cant": "The claim is about all values and sizes; only one triangle is computed and then mirrored, so an error may show only off the diagonal or for particular sizes.", "anchors": ["include/xtensor/core/xmath.hpp: cov"]}
{"id": "C92", "title": "An expression holder has the value it was made of, and copies are independent", "statement": "A holder made of a temporary has a value of its own: copies, assignments, exchanges and moves treat holders as values, and reading JSON into one changes no other holder and no variable. A holder made of a variable stands for the variable: reading into the holder changes the variable and what every holder of it shows, and nothing else. to_json writes the array the holder shows, and from_json of what another holder wrote gives the same shape and elements.", "quantifier": "all sequences of statements on any number of holders, all arrays and JSON texts", "why_tests_cant": "Whether a holder owns or refers depends on the way each holder it came from was made, so the claim is about histories; a test of a few statements does not reach the shared or circular cases.", "anchors": ["include/xtensor/misc/xexpression_holder.hpp: xexpression_holder, xexpression_wrapper"]}
{"id": "C93", "title": "The HTML table of an array shows its elements at their indices", "statement": "mime_bundle_repr gives a table with one cell for every element shown, with the index of the element as title and its text as contents, in order; the markup is well nested, and the table of a matrix is rectangular. An array with no more elements than the threshold is shown in full; otherwise the edge items of each axis are shown, with ellipses between them.", "quantifier": "all shapes, elements, thresholds and numbers of edge items", "why_tests_cant": "The texts come from a queue filled by a separate traversal with its own rule for the edges; that the two traversals agree is a claim about every shape and number of edge items.", "anchors": ["include/xtensor/io/xmime.hpp: mime_bundle_repr, compute_nd_table, compute_2d_table, compute_1d_table"]}
{"id": "C94", "title": "Shared expressions keep their arrays alive exactly as long as they are used", "statement": "After any sequence of creating arrays, sharing them (make_xshared, share), copying, destroying and writing variables and building functions of them: the shared array exists exactly as long as something alive holds it, use_count() is the number of holders, no statement on living variables touches freed memory or frees twice; an expression built from handles and from values handed over can be evaluated whatever else was destroyed, its value is the function of its arguments' values, and only writing through a handle of one of its arrays changes it; what is written through one handle is seen through all. Sharing an array again after it, or a copy of it, was changed does not give the new value, and an expression of a const handle dangles when the handle is gone (refuted).", "quantifier": "every program of such statements of any length, every value type, every binary function, every nesting of expressions", "why_tests_cant": "Lifetimes depend on the whole history of copies and destructions; a test runs a few short histories, and use after free often goes unnoticed.", "anchors": ["include/xtensor/core/xexpression.hpp: xsharable_expression, xshared_expression, make_xshared, share, use_count, xclosure, const_xclosure", "include/xtensor/core/xfunction.hpp: xfunction"]}
{"id": "C95", "title": "The storage of an array with missing values is a sequence of optional values", "statement": "The storage that optional_assembly gives (storage(), optional_assembly_storage(values, flags)) behaves as one sequence of values with flags under any history of element assignments, xtl::missing, resize, swap and assignment: size, empty, operator[], front, back and the iterators in both directions show that sequence, values and flags stay in step, and only indices out of range are undefined. Equality is that of the sequences. The order compares values, and only storages with the same flags: it is not total, and values of missing elements count (refuted as an order of what is visible).", "quantifier": "all value types, lengths and histories of operations on two storages", "why_tests_cant": "Values and flags live in two containers; that they stay in step after every history is an invariant, and the laws of an order quantify over all pairs.", "anchors": ["include/xtensor/optional/xoptional_assembly_storage.hpp: xoptional_assembly_storage, xoptional_assembly_linear_iterator, operator==, operator<, swap"]}
{"id": "C96", "title": "isin keeps what it needs of its test elements", "statement": "The lazy result of isin and in1d can be used later: made of a temporary container it always marks the elements contained in it; made of a variable it marks those contained in its present elements as long as the variable lives; made of iterator variables those between them, as long as variables, block and iterators stay. Used within the full expression lists and begin()/end() work too. A result of a list in braces or of v.begin(), v.end() that is stored refers to temporaries that have ended, and moving an iterator variable changes a stored result (refuted).", "quantifier": "every program of statements between the call and the use, all element types, equalities, lists and lengths", "why_tests_cant": "A dangling reference often reads the old bytes, so a test passes; the claim is about every later program.", "anchors": ["include/xtensor/misc/xset_operation.hpp: isin, in1d, lambda_isin"]}
{"id": "C97", "title": "Linear iterators of a function walk its elements", "statement": "The linear iterators of a lazy function of arrays and scalars behave as positions: ++, --, += and -= are additions, end is size() moves from begin, the iterator k moves from begin refers to element k of the function, comparison is that of the positions, a loop from begin to end visits every element once and in order and a reverse loop in the opposite order, and the difference of two iterators is the number of moves between them. (Refuted: a negative difference is 0; a function whose first operand that is no scalar is itself a function of scalars only has begin equal to end, so that a loop visits nothing.)", "quantifier": "all function trees of any arity, depth and functor over arrays of any equal length and scalars, all positions and moves", "why_tests_cant": "The comparison looks at one operand only and the difference is a maximum over operands; whether that is right depends on the shape of the whole tree, and tests have a few trees.", "anchors": ["include/xtensor/core/xfunction.hpp: xfunction_iterator, linear_begin, linear_end, tuple_max_diff, equal, less_than", "include/xtensor/containers/xscalar.hpp: xdummy_iterator"]}
{"id": "C98", "title": "Print options apply where and once as given", "statement": "In a program that prints arrays to several streams, an array is printed with the options in force: for each of edge items, line width, threshold and precision the value a manipulator gave to that stream since the last array printed to it, or else the last global value (3, 75, 1000 and none at first). Options given to one stream never affect another or a later array; precision and flags of the streams are left as the program set them. (Refuted for manipulators of value 0, which are ignored.)", "quantifier": "every sequence of settings, manipulators, prints and format changes on any number of streams, all arrays and element printers", "why_tests_cant": "Options are hidden state of streams that lives between statements; a test prints a few arrays in one order.", "anchors": ["include/xtensor/io/xio.hpp: print_options, get_print_options, pretty_print, fmtflags_guard, DEFINE_LOCAL_PRINT_OPTION"]}
{"id": "C99", "title": "What eval and as_strided share with their argument", "statement": "eval of an expression that is no container, and as_strided<L> of an expression without data interface or of another layout than L, give a new container with the elements at the call, which nothing that happens to the operands later changes. eval of a container variable and as_strided of a variable with a data interface and the layout are that variable, without copy: writes through one are seen in the other. as_strided<L> of a variable always has a data interface and, unless L is any, layout L, and the same elements. A result bound with auto&& can be read as long as the variables of the program it was made of live.", "quantifier": "every memory of containers, views and expressions, every argument (variable or temporary), every layout and every later program", "why_tests_cant": "the result is a copy or a reference depending on the type of the argument, and what matters is every later write and every later end of a lifetime; a dangling reference usually still shows the old elements in a test", "anchors": ["include/xtensor/core/xeval.hpp: eval, as_strided, has_same_layout"]}
{"id": "C100", "title": "What vectorized functions and their results hold", "statement": "vectorize(f) keeps a copy of f: later assignments to f, and its end, change neither the vectorized function nor its results. The result of calling it is lazy: it keeps a copy of the function, so that the vectorized function may end, holds temporaries itself, and refers to variables, scalar ones too: reading it gives the function of their present elements. It can be read as long as it exists.", "quantifier": "every function object with state, every list of variable and temporary operands, every program before, between and after the calls", "why_tests_cant": "which changes are seen and which are not, and which ends of lifetimes are harmless, depends on every later statement; a dangling scalar usually still shows its old value in a test", "anchors": ["include/xtensor/core/xvectorize.hpp: xvectorizer, vectorize", "include/xtensor/core/xexpression.hpp: xclosure", "include/xtensor/core/xfunction.hpp: xfunction"]}
