{"id": "C01", "title": "State lookup after update", "statement": "After state.with<tag>(v), get<tag> returns v and every other tag keeps its value; after remove<tag> the tag is absent and all other tags are unchanged; filter keeps exactly the listed tags.", "quantifier": "every state, every tag, every static or dynamic value", "why_tests_cant": "the number of tags and the order of updates are unbounded", "anchors": ["include/noarr/structures/base/state.hpp: state::get, with, remove, filter, items_restrict"]}
{"id": "C02", "title": "State merge is right-biased and associative", "statement": "For a & b every tag present in b has b's value and every other tag has a's value; the merge is associative, idempotent and has the empty state as neutral element, observed through get.", "quantifier": "all states a, b, c", "why_tests_cant": "algebraic laws over all tag sets", "anchors": ["include/noarr/structures/base/state.hpp: operator&"]}
{"id": "C03", "title": "State comparison laws", "statement": "a == b holds exactly when both states bind the same tags to equal numbers; == is an equivalence; <= is reflexive, transitive and antisymmetric w.r.t. ==; a < b is a <= b without ==.", "quantifier": "all states with pairwise distinct tags", "why_tests_cant": "laws over all triples of states", "anchors": ["include/noarr/structures/base/state.hpp: operator==, <=, >=, <, >"]}
{"id": "C04", "title": "State arithmetic is pointwise", "statement": "For states with dynamic (run-time) values, (a+b) and (a-b) bind every tag of either operand to the sum/difference modulo 2^64 with an absent tag read as 0; (a+b)-b reads like a with b's extra tags set to 0; -a negates. With statically known values the result type keeps the left operand's constant, so the law fails (refuted).", "quantifier": "all states over size_t values", "why_tests_cant": "depends on all tag overlaps and wrap-around", "anchors": ["include/noarr/structures/base/state.hpp: operator+, operator-"]}
{"id": "C05", "title": "Compile-time arithmetic equals run-time arithmetic", "statement": "Adding, subtracting, multiplying, dividing or taking the remainder of lengths/indices gives the same number modulo 2^64 whether each operand is a compile-time constant or a run-time size_t, and short-cuts (x+0, 0*x, 0/x ...) never change the number; division is undefined only when a run-time division by zero is really executed.", "quantifier": "all pairs of 64-bit values and all static/dynamic combinations", "why_tests_cant": "2^128 operand pairs", "anchors": ["include/noarr/structures/base/utility.hpp: constexpr_arithmetic"]}
{"id": "C06", "title": "Every in-range access is inside the allocation", "statement": "If every dimension of a structure is given an index smaller than the length the structure reports for that dimension, then offset(state) is defined and offset + sizeof(element) <= get_size().", "quantifier": "every structure built from any nesting of layouts and views (documented preconditions on view parameters hold), every in-range state", "why_tests_cant": "unbounded nesting, lengths and indices", "anchors": ["include/noarr/structures/structs/layouts.hpp: vector_t, tuple_t", "include/noarr/structures/base/structs_common.hpp: offset_of", "include/noarr/structures/structs/*.hpp: sub_state, size, length"]}
{"id": "C07", "title": "Distinct in-range states never alias", "statement": "Two in-range states of a structure without bcast that differ in some index address byte ranges [offset, offset+sizeof) that do not overlap.", "quantifier": "every structure built from layouts and injective views, every pair of in-range states", "why_tests_cant": "quadratic in the index space, unbounded nesting", "anchors": ["include/noarr/structures/structs/layouts.hpp: strict_offset_of", "include/noarr/structures/structs/*.hpp: sub_state"]}
{"id": "C08", "title": "Row-major formula for nested vectors", "statement": "scalar<T>() ^ vectors<D1..Dn>(L1..Ln) places index (i1..in) at sizeof(T) * (i1 + L1*(i2 + L2*(...))) and has size sizeof(T)*L1*...*Ln.", "quantifier": "every number of dimensions, all lengths whose total size fits in size_t, all indices", "why_tests_cant": "unbounded rank and lengths", "anchors": ["include/noarr/structures/structs/layouts.hpp: vector_t", "include/noarr/structures/extra/shortcuts.hpp: vectors"]}
{"id": "C09", "title": "Views do not change the amount of memory", "statement": "Applying rename, hoist, reorder, reverse, slice, span, step, fix, shift, into_blocks*, merge_blocks, merge_zcurve or bcast to a structure whose lengths are already set leaves get_size() unchanged.", "quantifier": "every structure and every admissible view", "why_tests_cant": "all structures", "anchors": ["include/noarr/structures/structs/slice.hpp, blocks.hpp, views.hpp, zcurve.hpp, setters.hpp, bcast.hpp: size"]}
{"id": "C10", "title": "State entries for foreign dimensions are ignored", "statement": "Adding or changing an index or length of a dimension that a structure does not have changes none of its answers (has_size, size, has_length, length, offset).", "quantifier": "every structure, every state, every dimension not in the structure's signature", "why_tests_cant": "universal over names and structures; this is what makes bag[state] with a bigger traverser state sound", "anchors": ["include/noarr/structures/base/signature.hpp: any_accept", "include/noarr/structures/structs/*.hpp: sub_state"]}
{"id": "C11", "title": "Traverser visits every index exactly once, in order", "statement": "traverser(s).for_each(f) calls f once for every combination of in-range indices and for nothing else, in lexicographic order of the signature.", "quantifier": "every structure for which the traversal compiles, all lengths", "why_tests_cant": "unbounded number of iterations", "anchors": ["include/noarr/structures/extra/traverser.hpp: for_each_impl, for_each_impl_dep"]}
{"id": "C12", "title": "Order changes only the order", "statement": "traverser(s).order(p).for_each visits exactly the same elements of s (each once) for every order p composed of hoist, reorder, rename, reverse, merge_blocks, merge_zcurve, into_blocks (divisible length), into_blocks_static and into_blocks_dynamic.", "quantifier": "every structure, every admissible composition p", "why_tests_cant": "unbounded compositions", "anchors": ["include/noarr/structures/extra/traverser.hpp: order, top_struct, state"]}
{"id": "C13", "title": "Traversing several structures together is safe", "statement": "A traverser over several structures with equal lengths in shared dimensions produces only states that are in range for each of the structures, and its dimensions are the union of theirs.", "quantifier": "every list of structures with consistent lengths", "why_tests_cant": "all combinations of structures", "anchors": ["include/noarr/structures/extra/traverser.hpp: union_t, sig_union"]}
{"id": "C14", "title": "hoist and reorder only change the loop nest", "statement": "hoist<D..>() and a complete reorder<D..>() leave size and every offset unchanged, keep the multiset of dimensions and put the named dimensions outermost in the order given.", "quantifier": "every structure, every list of dimensions", "why_tests_cant": "all structures", "anchors": ["include/noarr/structures/structs/views.hpp: reorder_t, hoist_t, reassemble_build"]}
{"id": "C15", "title": "rename only changes names", "statement": "rename<old,new,..> gives the same offset, size and length for the correspondingly renamed indices, including permutations of names, and renaming back restores the original behaviour.", "quantifier": "every structure, every injective renaming", "why_tests_cant": "all structures and permutations", "anchors": ["include/noarr/structures/structs/views.hpp: rename_t"]}
{"id": "C16", "title": "slice, span and shift select the documented interval", "statement": "Index i of slice(a,n), span(a,b), shift(a) addresses index a+i of the original, the length is n, b-a, len-a respectively, compositions add up, and a valid index of the view is a valid index of the original.", "quantifier": "every structure, all 64-bit parameters satisfying the documented bounds", "why_tests_cant": "all parameters incl. boundary values", "anchors": ["include/noarr/structures/structs/slice.hpp: shift_t, slice_t, span_t"]}
{"id": "C17", "title": "step views partition a dimension", "statement": "The n views step(0,n)..step(n-1,n) have lengths adding up to the original length, and every original index is reached from exactly one view at exactly one index.", "quantifier": "every n>=1, every length", "why_tests_cant": "all lengths and strides", "anchors": ["include/noarr/structures/structs/slice.hpp: step_t"]}
{"id": "C18", "title": "reverse is an involution", "statement": "reverse<D> sends index i to len-1-i, keeps the length, maps valid indices one-to-one onto valid indices, and applying it twice gives the original offsets. When the length of another dimension depends on D the reported length is that of the unreversed index (refuted for tuples and into_blocks_dynamic).", "quantifier": "every structure and index", "why_tests_cant": "all lengths", "anchors": ["include/noarr/structures/structs/slice.hpp: reverse_t"]}
{"id": "C19", "title": "into_blocks and merge_blocks are inverse", "statement": "Splitting a dimension whose length is divisible by the block size and merging it back gives the same length and offsets; (major, minor) pairs correspond one-to-one to original indices; merging two dimensions gives major*len(minor)+minor.", "quantifier": "every structure, every block size dividing the length", "why_tests_cant": "all lengths and block sizes", "anchors": ["include/noarr/structures/structs/blocks.hpp: into_blocks_t, merge_blocks_t"]}
{"id": "C20", "title": "into_blocks_dynamic covers everything once", "statement": "For any length and block size > 0 the triples (block, index in block, is_present index) that are in range correspond one-to-one to the original indices; absent positions are exactly those past the end.", "quantifier": "every length and block size", "why_tests_cant": "all non-divisible combinations", "anchors": ["include/noarr/structures/structs/blocks.hpp: into_blocks_dynamic_t"]}
{"id": "C21", "title": "into_blocks_static covers everything once", "statement": "For any length and static block size > 0, body and border together reach each original index exactly once; the border has len mod block elements.", "quantifier": "every length and block size", "why_tests_cant": "all non-divisible combinations", "anchors": ["include/noarr/structures/structs/blocks.hpp: into_blocks_static_t"]}
{"id": "C22", "title": "merge_zcurve enumerates the whole grid once", "statement": "The merged dimension has length equal to the product of the lengths and its indices correspond one-to-one to the tuples of original indices, for any lengths up to MaxLen; for the aligned special case the index bits are interleaved.", "quantifier": "all numbers of dimensions, lengths <= MaxLen, levels", "why_tests_cant": "unbounded sizes and dimensions", "anchors": ["include/noarr/structures/structs/zcurve.hpp: zc_general, zc_special, merge_zcurve_t"]}
{"id": "C23", "title": "fix and set_length are partial application", "statement": "offset of s^fix<D>(i) at a state equals offset of s at the state with index D = i; s^set_length<D>(n) behaves like s with length D = n in the state; fixes and set_lengths of different dimensions commute.", "quantifier": "every structure, every dimension, every value", "why_tests_cant": "all structures", "anchors": ["include/noarr/structures/structs/setters.hpp: fix_t, set_length_t"]}
{"id": "C24", "title": "join traverses the diagonal", "statement": "The joined dimension indexes both joined dimensions with the same index.", "quantifier": "every structure with two equal-length dimensions", "why_tests_cant": "all structures", "anchors": ["include/noarr/structures/structs/views.hpp: join_t"]}
{"id": "C25", "title": "bcast repeats the same element", "statement": "The index in a bcast dimension does not influence offset and size, and the dimension has exactly the length set for it.", "quantifier": "every structure, every index", "why_tests_cant": "all structures", "anchors": ["include/noarr/structures/structs/bcast.hpp: bcast_t"]}
{"id": "C26", "title": "Availability queries agree with the operations", "statement": "has_size/has_offset/has_length answer true exactly when size/offset/length of the same structure and state are accepted by the compiler.", "quantifier": "every structure and state", "why_tests_cant": "all structures and states", "anchors": ["include/noarr/structures/structs/*.hpp: has_length/length, has_size/size", "include/noarr/structures/base/structs_common.hpp: has_offset_of/offset_of"]}
{"id": "C27", "title": "Availability is decided at compile time", "statement": "has_size, has_length, has_offset and the set of accepted programs depend only on which tags are present and on compile-time constants, never on run-time values.", "quantifier": "every structure and every pair of states of the same type", "why_tests_cant": "all run-time values", "anchors": ["include/noarr/structures/structs/*.hpp: has_*"]}
{"id": "C28", "title": "Sections partition the traversal", "statement": "for_sections/for_dims over some dimensions, with an inner for_each in each section, visits exactly the states of a plain for_each, each once. The order is that of the loops: sorted first by the dimensions of the sections (in the order of the structure for for_sections, in the listed order for for_dims), then by the remaining dimensions; if the section dimensions are the outermost ones, the order is that of the plain for_each.", "quantifier": "every structure and every chosen list of dimensions", "why_tests_cant": "all structures and dimension lists", "anchors": ["include/noarr/structures/extra/traverser.hpp: for_sections, for_dims"]}
{"id": "C29", "title": "Ranges split without loss", "statement": "Splitting a traverser range at any point, recursively in any pattern, and traversing the pieces visits exactly the iterations of the whole range in the same order when pieces are taken in order.", "quantifier": "every range, every split tree", "why_tests_cant": "every schedule of a parallel runtime", "anchors": ["include/noarr/structures/interop/traverser_iter.hpp: traverser_range_t", "include/noarr/structures/interop/tbb.hpp: splitting constructor"]}
{"id": "C30", "title": "Range iterators behave like integers", "statement": "begin/end/+/-/[]/comparisons of the range iterators agree with index arithmetic and dereferencing the k-th element fixes the outermost dimension to begin+k.", "quantifier": "every range and offset", "why_tests_cant": "all ranges", "anchors": ["include/noarr/structures/interop/traverser_iter.hpp: traverser_iterator_t"]}
{"id": "C31", "title": "Planner runs the same iterations", "statement": "A planner with a single innermost ending performs the same calls in the same order as the traverser's for_each; sections run around the loops they enclose exactly once per outer state.", "quantifier": "every structure, every list of sections", "why_tests_cant": "all structures", "anchors": ["include/noarr/structures/extra/planner.hpp: planner_t::for_each_impl"]}
{"id": "C32", "title": "Serialize then deserialize is identity", "statement": "Writing a structure's elements in traversal order and reading them back into a structure with the same index space that is traversed in the same order, whatever its memory layout, restores every element, provided the element type's printed form reads back. (Different traversal orders and character elements are refuted.)", "quantifier": "every pair of layouts over the same dimensions traversed in the same order, every contents", "why_tests_cant": "all layouts and contents", "anchors": ["include/noarr/structures/interop/serialize_data.hpp: serialize_data, deserialize_data"]}
{"id": "C33", "title": "Bag element writes are isolated", "statement": "Writing one element through bag.at(state) makes that element read back the value and leaves every other element of the structure unchanged. A bag made by make_vector_bag has enough zero bytes, and reading its elements is defined.", "quantifier": "every structure without bcast, all pairs of in-range states, every memory contents", "why_tests_cant": "all memory contents", "anchors": ["include/noarr/structures/interop/bag.hpp: bag::at, operator[]", "include/noarr/structures/extra/funcs.hpp: get_at", "include/noarr/structures/interop/bag.hpp: make_vector_bag"]}
{"id": "C34", "title": "Striped copies are disjoint and in bounds", "statement": "In cuda_striped<N> every stripe has its own copy of every element: accesses of different stripes never overlap, stay within size, and the offset differs by a constant between neighbouring stripes.", "quantifier": "every element size, bank count/width and number of stripes accepted by the compiler", "why_tests_cant": "all parameters", "anchors": ["include/noarr/structures/interop/cuda_striped.cuh: cuda_striped_t"]}
{"id": "C35", "title": "Strided parallel steps cover everything once", "statement": "Giving worker k of n the view step(k,n), with the dimension named or left out (the outermost one), or giving each thread of a CUDA group its cuda_step, makes the workers' index sets disjoint and their union the whole dimension, so that every call of the traversal is made by exactly one worker.", "quantifier": "every number of workers and length", "why_tests_cant": "every schedule and thread count", "anchors": ["include/noarr/structures/interop/cuda_step.cuh", "include/noarr/structures/structs/slice.hpp: step_t, step_proto, auto_step_proto"]}
{"id": "C36", "title": "index_space_size counts iterations", "statement": "index_space_size(s) equals the number of iterations of traverser(s).for_each (modulo 2^64).", "quantifier": "every structure for which it compiles", "why_tests_cant": "all lengths", "anchors": ["include/noarr/structures/extra/shortcuts.hpp: index_space_size"]}
{"id": "C37", "title": "Offsets along a dimension", "statement": "offset_along/stride_along of a dimension reproduce offset differences for the documented uniform layouts. Where the size of the structure is available, the stride along a dimension compiles wherever the query says there is one (reverse excluded), and so does the offset (blocks excluded).", "quantifier": "every structure for which the queries are accepted", "why_tests_cant": "all structures", "anchors": ["include/noarr/structures/introspection/offset_along.hpp, stride_along.hpp, uniform_along.hpp"]}
{"id": "C38", "title": "Contiguity answer", "statement": "is_contiguous is true only if the traversal of the structure addresses one gap-free block of memory.", "quantifier": "every structure", "why_tests_cant": "all structures", "anchors": ["include/noarr/structures/introspection/contiguous.hpp"]}
{"id": "C39", "title": "Lower bound answer", "statement": "lower_bound_along is the smallest offset reachable by varying the index over the given interval. Without blocks and slices the lower bound compiles wherever the query says there is one.", "quantifier": "every structure and interval", "why_tests_cant": "all structures and intervals", "anchors": ["include/noarr/structures/introspection/lower_bound_along.hpp"]}
{"id": "C40", "title": "Tuple components do not overlap", "statement": "Different components of a tuple occupy disjoint byte ranges in order, all inside the tuple's size.", "quantifier": "every tuple of any structures", "why_tests_cant": "all component lists", "anchors": ["include/noarr/structures/structs/layouts.hpp: tuple_t"]}
{"id": "C41", "title": "Offset of a sub-structure composes", "statement": "For a structure s containing sub-structure t, offset of an element in s equals offset of t in s plus the offset of the element in t at state_at<t>(s, state).", "quantifier": "every structure and every sub-structure of it", "why_tests_cant": "all structures", "anchors": ["include/noarr/structures/base/structs_common.hpp: offset_of, state_at"]}
{"id": "C42", "title": "Parallel reduction equals sequential reduction", "statement": "tbb_reduce over any splitting and any assignment of pieces to threads, with an associative and commutative join and a neutral element, gives the sequential result.", "quantifier": "every split tree, every assignment of leaves to threads", "why_tests_cant": "every schedule", "anchors": ["include/noarr/structures/interop/tbb.hpp: tbb_reduce"]}
{"id": "C43", "title": "vectors_like copies the index space", "statement": "vectors_like(s) has the dimensions, order and lengths of s.", "quantifier": "every structure without tuples", "why_tests_cant": "all structures", "anchors": ["include/noarr/structures/extra/shortcuts.hpp: vectors_like", "include/noarr/structures/extra/sig_utils.hpp: sig_dim_seq"]}
{"id": "C44", "title": "Mangled names are faithful", "statement": "The decimal text produced for a compile-time integer determines that integer, for every non-negative value.", "quantifier": "every integer", "why_tests_cant": "all 64-bit integers", "anchors": ["include/noarr/structures/extra/mangle.hpp"]}
{"id": "C45", "title": "Threads that share the output of a reduction do not race", "statement": "When tbb_reduce lets all threads write to the output directly, calls made for different parts of the range write to disjoint bytes, provided the body writes to the output element that has its own index in the outermost dimension.", "quantifier": "every traverser, order, output structure, splitting of the range and pair of calls on different parts", "why_tests_cant": "a race depends on the schedule and shows for some orders and output structures only", "anchors": ["include/noarr/structures/interop/tbb.hpp: tbb_reduce", "include/noarr/structures/interop/traverser_iter.hpp: traverser_range_t"]}
{"id": "C46", "title": "A kernel launch makes each call exactly once", "statement": "A launch over a traverser with cuda_threads, with the grid and block sizes it reports, gives each thread a traverser; together the threads make exactly the calls of the traversal, each once. The traverser converts to true exactly if the launch has at least one thread.", "quantifier": "every traverser, order and list of pairs of dimensions bound to the grid and the block, with lengths below 2^32", "why_tests_cant": "grids of any size and any nesting of orders; the host cannot observe which elements the threads were given", "anchors": ["include/noarr/structures/interop/cuda_traverser.cuh: cuda_threads, traverser_cuda_t"]}
{"id": "C47", "title": "Parallel loops give the result of the sequential loop", "statement": "Let the calls of a traversal be distributed over threads, as whole pieces of a split range or one by one, and let each call read and write only its own elements of the output bag. Then, however the single reads and writes of the threads interleave, no access is undefined, all threads finish, and the bag ends up with exactly the bytes that the sequential loop gives.", "quantifier": "every structure, traverser, splitting, distribution over threads, body and interleaving of single accesses", "why_tests_cant": "the number of schedules is unbounded and a test sees only a few of them", "anchors": ["include/noarr/structures/interop/tbb.hpp: tbb_for_each, tbb_reduce", "include/noarr/structures/interop/omp.hpp: omp_for_each", "include/noarr/structures/interop/std_para.hpp", "include/noarr/structures/interop/bag.hpp"]}
{"id": "C48", "title": "Ranges over planners divide the work of the planner", "statement": "Iterating over a planner (as planner_omp_execute does) gives inner planners which, executed in any order, make exactly the calls of the planner, with or without sections; a part of the range, taken as a planner, makes exactly the calls of that part; iterator arithmetic is integer arithmetic on positions.", "quantifier": "every list of structures, order, function, set of sections, part of the range and iterator", "why_tests_cant": "all shapes, orders and schedules", "anchors": ["include/noarr/structures/interop/planner_iter.hpp: planner_iterator_t, planner_range_t, range, begin, end", "include/noarr/structures/interop/omp.hpp: planner_omp_execute", "include/noarr/structures/interop/std_para.hpp: planner_std_execute"]}
{"id": "C49", "title": "Stencils over the inner part of a structure stay inside", "statement": "neighbor moves the listed indices by the given differences and keeps every other entry; moving by the opposite differences leads back. If a traversal is ordered by symmetric_spans with margins taken from a structure, then every neighbour of a visited element whose differences do not exceed the margins is an element of that structure, in its memory.", "quantifier": "every structure or set of structures traversed together, set of dimensions, margins, further order, visited element and differences within the margins", "why_tests_cant": "every shape, margin and element, including empty inner parts and wrap-around of negative differences", "anchors": ["include/noarr/structures/extra/shortcuts.hpp: neighbor, symmetric_span, symmetric_spans", "include/noarr/structures/structs/slice.hpp: span"]}
{"id": "C50", "title": "Helpers for working with states do what their names say", "statement": "s ^ fix(state) and s ^ fix<Dims...>(state) answer every query as s does with the (listed) indices of the state added; s ^ set_length(state), s ^ set_length<Dims...>(state) and s ^ lengths_like<Dims...>(other) do the same with lengths. get_indices, get_lengths_in, filter_indices, filter_lengths and update_index read and change exactly the entries they name. fix_zeros names the element a traversal visits first, if the all-zero indices name one.", "quantifier": "every structure, state, list of dimensions and query", "why_tests_cant": "every nesting of views and every mixture of indices and lengths in the state", "anchors": ["include/noarr/structures/extra/shortcuts.hpp: fix, set_length, lengths_like, get_indices, get_lengths_in, filter_indices, filter_lengths, update_index, fix_zeros"]}
{"id": "C51", "title": "The text of a structure identifies it", "statement": "The text that mangle gives for a type names the structure's template with its arguments in the order of their declaration, and the text that mangle_expr gives initialises each member with its value. Two structures have the same mangle text exactly if they have the same type, and the same mangle_expr text exactly if they also store the same indices and lengths; then they answer every query about lengths, sizes and offsets in the same way. There is a text exactly if the dimensions are characters, the elements are arithmetic, the constants fit an int and the values are initialised.", "quantifier": "every structure and pair of structures whose element types have different names, and every state queried", "why_tests_cant": "a text that could be read in two ways may need any nesting, any dimension name (also quotes and commas) and any values", "anchors": ["include/noarr/structures/extra/mangle.hpp: mangle, mangle_to_str, mangle_expr, scalar_name, mangle_desc, append", "include/noarr/structures/base/utility.hpp: integer_sequence_concat_sep", "docs/other/Mangling.md"]}
{"id": "C52", "title": "Shortcuts that take a length do what the longer form does", "statement": "into_blocks<D, M, m>(n), into_blocks_dynamic<D, M, m, p>(n), merge_blocks<M, m, D>(n) and bcast<Dims...>(lengths...) give the dimension they name the given length: an element of the result is the element of the original structure at block * n + position, at (i / n, i mod n), or independent of the broadcast index. strip_mine and strip_mine_dynamic answer every query as into_blocks does, and a traversal ordered by them visits every element exactly once, strip after strip, and inside each strip in the order in which the original traversal visits its elements. array<D, n>() adds a dimension of compile-time length n, vectors<Dims...>() are the same vectors with lengths taken from the state, and length_like, vector_like and vectors_like take over the lengths of another structure; they compile exactly if it has them.", "quantifier": "every structure, dimension, length, state and query; every traversal whose length the block length divides (any length for the dynamic one)", "why_tests_cant": "every nesting below the shortcut, tuples included, and every combination of length and block length", "anchors": ["include/noarr/structures/extra/shortcuts.hpp: into_blocks, into_blocks_dynamic, merge_blocks, strip_mine, strip_mine_dynamic, bcast", "include/noarr/structures/structs/blocks.hpp: into_blocks_t, into_blocks_dynamic_t, merge_blocks_t", "include/noarr/structures/extra/shortcuts.hpp: array, vectors, length_like, vector_like, vectors_like"]}
{"id": "C53", "title": "Members are stored and read back, constants take no space", "statement": "An object that holds members (a structure, a bag, a traverser) gives back each member as it was given, whatever mixture of empty and other members it holds; writing it touches its own bytes only; its parts do not overlap and are aligned; and copying its bytes copies it. A structure without run-time values is an empty type. Otherwise it takes 8 bytes for each run-time value, and nothing for compile-time values, unless two members have the same empty type. contain_cat joins members in order.", "quantifier": "every list of members of any sizes and alignments, every nesting, every address and memory content, every structure", "why_tests_cant": "every mixture and nesting of empty and other members chooses between different layouts", "anchors": ["include/noarr/structures/base/contain.hpp: contain_impl, contain, get, contain_cat", "docs/dev/Contain.md", "docs/DimensionKinds.md"]}
{"id": "C54", "title": "A bag seen through views stays on its own memory", "statement": "bag ^ proto accepts only protos that keep the layout, takes reference bags and bags that are moved in, and gives a bag over the same memory with the same policy. The new bag reports the size of the old one. Every element of the new bag lies in the memory of the old one, so no access to it is undefined; writing one element leaves every other element unless the view broadcasts; and where the view names an element of the original structure both bags read the same value and write the same bytes. get_ref gives a bag over the same memory, which reads the same, can be written exactly where the bag can, and can be seen through views.", "quantifier": "every bag whose memory has the size of its structure, every composition of views, every element and value", "why_tests_cant": "every composition of views over every structure, and every element of it", "anchors": ["include/noarr/structures/interop/bag.hpp: operator^, bag_t", "include/noarr/structures/base/structs_common.hpp: proto_preserves_layout", "docs/BasicUsage.md", "include/noarr/structures/interop/bag.hpp: get_ref"]}
{"id": "C55", "title": "Structure traits say what the documentation says", "statement": "is_point holds exactly for structures that have no dimension in any state; fixing dimensions takes exactly these dimensions away, so a structure is a point exactly if all dimensions of the element have been fixed, and traversing it makes one call. is_cube holds only if the size is known, all elements have one type, and all have the same dimensions without a tuple among them; conversely a structure of known size that is no cube has a tuple. HasDims holds exactly if each dimension belongs to some element. dim_tree_to_sequence and dim_tree_from_sequence are inverse to each other, and the tree of a cube is the sequence of its dimensions.", "quantifier": "every structure, every set of dimensions, every state, every tree of dimensions", "why_tests_cant": "every composition of structures", "anchors": ["include/noarr/structures/extra/struct_traits.hpp: is_point, is_cube, scalar_t", "include/noarr/structures/extra/struct_concepts.hpp: HasDims", "include/noarr/structures/base/utility.hpp: dim_tree_from_sequence, dim_tree_to_sequence", "docs/other/StructureTraits.md"]}
{"id": "C56", "title": "Lengths promised by the type are the lengths reported", "statement": "If the type of a structure (its signature) carries a static length for a dimension, or a tuple dimension with a number of components, then length<dim>() answers exactly this number, for every state that does not itself set this length. In particular join accepts two dimensions with static lengths only if these lengths are equal. Excepted are static lengths set over an existing length, span with a static end and a start other than 0, and step with a static stride (recorded as findings).", "quantifier": "every composition of structures and views, every dimension, every state", "why_tests_cant": "every composition of views with static parameters", "anchors": ["include/noarr/structures/base/signature.hpp: static_arg_length, function_sig, dep_function_sig", "include/noarr/structures/structs/slice.hpp: shift_t, slice_t, span_t, step_t dim_replacement", "include/noarr/structures/structs/blocks.hpp: into_blocks_static_t, merge_blocks_t dim_replacement", "include/noarr/structures/structs/zcurve.hpp: dim_replacer", "include/noarr/structures/structs/views.hpp: join_t, hoist_t, reorder_t, rename_t"]}
{"id": "C57", "title": "Elements of a well laid out structure are aligned", "statement": "If the sizes of all scalars in a structure are multiples of a power of two, every part of the structure begins at a multiple of it and the size of the structure is one, whatever the lengths and indices are and even if the computation of the offset wraps around. If moreover the elements of vectors and the components of tuples can be placed one after another (each scalar's alignment divides the sizes of what stands before it; in particular if all scalars have the same alignment), then every element is at an address its type allows, provided the start of the allocation is. Copies in a striped structure are aligned too if a row of banks and the banks of one stripe are multiples of the alignment. Vectors of pairs of different scalars and some numbers of stripes are not aligned (recorded as findings).", "quantifier": "every composition of layouts and views without unions, every state, every power of two", "why_tests_cant": "every structure, every length and index; on the test machine misaligned accesses succeed silently", "anchors": ["include/noarr/structures/structs/layouts.hpp: tuple::size_inner, tuple::align_inner, tuple::strict_offset_of, vector::strict_offset_of", "include/noarr/structures/structs/scalar.hpp: scalar::size, scalar::align", "include/noarr/structures/interop/cuda_striped.cuh: cuda_striped_t::strict_offset_of, offset_inner"]}
{"id": "C58", "title": "A loop over bags computes its formula, in every layout and loop order", "statement": "Traversing structures together and updating one bag from the elements of others at the same state (for example c[state] += a[state] * b[state]) calls the function exactly once with each combination of indices, makes no undefined access, and leaves in each element of the output the value it had, combined with the inputs at all the combinations of indices that extend the element's indices. If the accumulation does not depend on the order, the result depends neither on the memory layouts of the bags nor on the order of the traverser; in particular the loop over three matrices computes the product of matrices modulo the range of the element type. The calls may also be made in any other order (as parallel loops do). If the output has all the dimensions, each of its elements is updated exactly once, for any function. If the order of accumulation matters or the elements of the output share memory, this fails (recorded as findings).", "quantifier": "every number of bags, every layout of each (any composition of structures and views without tuple dimensions), every order that rearranges the loops, every function applied to the elements, all lengths and all contents", "why_tests_cant": "a test runs one layout and one loop order with one content; the claim relates all of them", "anchors": ["docs/Traverser.md: traversing multiple structures, order", "docs/BasicUsage.md: bags", "include/noarr/structures/extra/traverser.hpp: traverser_t::for_each, order", "include/noarr/structures/interop/bag.hpp: bag::operator[]"]}
{"id": "C59", "title": "Sections that accumulate locally and store once compute the same formula", "statement": "A traversal is cut into sections by for_sections, for_dims, iteration or CUDA threads, and sections may be cut again. Each section accumulates a value over its own elements and stores it once at its own indices of the output bag (docs: `trav.for_each(...result += a[state] * b[state]...); c[trav] = result;`). If every section has the indices of one element of the output and no two sections of the same element, then in every order of the sections no access is undefined, every element with a section ends up with the inputs accumulated over all the remaining dimensions, and every element has a section unless a remaining dimension has length 0. In particular the documented kernel computes the product of matrices. If the sections also cut a dimension that the output does not have, parts of the sums are lost (recorded as a finding).", "quantifier": "every way and depth of cutting, every order of the sections, every number and layout of bags, every order of the traverser that rearranges the loops, every accumulation that does not depend on the order, all lengths and contents", "why_tests_cant": "a test fixes the layouts, the grid and the cutting; the claim relates all of them, and a section that misses or repeats an element shows only for some lengths", "anchors": ["docs/Traverser.md: nested for_dims, cuda_threads, for loops over traversers", "include/noarr/structures/extra/traverser.hpp: traverser_t::for_sections, for_dims, state, get_fixes", "include/noarr/structures/interop/cuda_traverser.cuh: cuda_threads", "include/noarr/structures/interop/traverser_iter.hpp: traverser_range_t", "include/noarr/structures/interop/bag.hpp: bag::operator[]"]}
{"id": "C60", "title": "Stencil loops compute their formula in the inner part and leave the rest alone", "statement": "A traversal ordered by symmetric_spans (or any spans) and then by anything that rearranges the loops calls the function exactly once for each combination of indices that is at least the margins away from both ends of each dimension, and for no other. A loop that reads bags at neighbor(state, differences...) with differences within the margins and writes one element per call has no undefined access in any layout and in any order of the calls; afterwards the elements of the inner part have the formula applied to the values around them, and all other elements are unchanged. In particular a convolution of a matrix of unsigned integers computes the weighted sums of the neighbours. Accumulating into a bag with fewer dimensions takes in exactly the inner elements. Without the margins the loop silently reads the end of the previous row or is undefined (recorded as a finding).", "quantifier": "all layouts of the bags, all lengths, margins and differences within them (positive or negative), every rearrangement of the loops after the spans, every order of the calls, every formula and all contents", "why_tests_cant": "a test fixes the sizes, the layouts and the order; reading one element too far or skipping a row at the border shows only for some of them, and an element that is not visited looks like one whose formula keeps its value", "anchors": ["include/noarr/structures/extra/shortcuts.hpp: neighbor, symmetric_span, symmetric_spans", "include/noarr/structures/structs/slice.hpp: span", "include/noarr/structures/extra/traverser.hpp: traverser_t::order, for_each", "include/noarr/structures/interop/bag.hpp: bag::operator[]", "tests/traverser_test.cpp: Traverser neighbor (stencil example)"]}
{"id": "C61", "title": "Parallel reductions into bags give the sums of the sequential loop, also when the output is indexed by the data", "statement": "tbb_reduce with a bag as the output, called with documented functions (store the neutral element, read inputs and update one output element, join two elements by the operation), stores in each output element its old value plus exactly what the calls add whose updates go to it, each call counted once. This holds for both strategies, for the row and column sums (sums along the missing dimensions) and for the histogram, whose output index is the value read (number of occurrences modulo the width of the counter); the result is the one of the sequential loop, and no access is undefined. A value that is no index of the histogram is undefined behaviour, and the shared strategy, chosen by dimension names only, loses updates if the output has the outermost input dimension but is not indexed by the state (recorded as findings).", "quantifier": "all layouts of inputs and output, all lengths and contents, every order of the loops, every way to split the range, distribute the pieces over threads, order the calls and join the copies, all contents of fresh memory, every commutative associative operation with a neutral element", "why_tests_cant": "a test runs one schedule of one layout; a copy that is joined twice, not cleared or dropped shows only under some schedules, and a lost update only under some interleavings", "anchors": ["include/noarr/structures/interop/tbb.hpp: tbb_reduce (both overloads)", "include/noarr/structures/interop/traverser_iter.hpp: traverser_range_t", "include/noarr/structures/interop/bag.hpp: make_bag, bag::operator[]", "docs/Traverser.md: tbb_reduce, histogram"]}
{"id": "C62", "title": "Loops over indices written by hand compute the same in every layout, and the matrix example never fails its assertion", "statement": "The functions of the matrix example, which access bags element by element with at<'n','m'>(i, j), do what their names say for every layout: the product has the sum of products in each element (if products and partial sums fit int), a copy into another layout has the same elements (and zeros where the target is larger), transposition in place exchanges the elements of a square matrix, multiplication by a number multiplies each element, conversion to and from a matrix in a std::vector keeps every element and is the identity there and back. No access is undefined. The assertion at the end of the example holds for every layout and all random numbers, for sizes with 81 * size < 2^31. A negative size on the command line is not rejected and leads to an access outside of a vector (recorded as a finding).", "quantifier": "all structures with the two dimensions in which elements do not share memory (rows, columns, tiles, reversed, ...), all sizes, all contents, all results of rand", "why_tests_cant": "the example is run with two layouts and a few sizes; a wrong offset in another layout, or an element exchanged twice, shows only for particular sizes", "anchors": ["examples/matrix/noarr_matrix_functions.hpp: noarr_matrix_multiply, noarr_matrix_copy, noarr_matrix_transpose, noarr_matrix_scalar_multiplication", "examples/matrix/matrix.cpp: classic_matrix, noarr_matrix_to_clasic, clasic_matrix_to_noarr, clasic_matrix_multiply, matrix_demo, main", "include/noarr/structures/interop/bag.hpp: make_bag, bag::at, bag::length"]}
{"id": "C63", "title": "Planners over bags compute the formula of the loop, however they are cut into sections and run", "statement": "planner(ins..., out).for_each_elem(f) takes the elements of the bags at the states of the traversal, in the same order, whatever sections are added (each running its inner planner, or completing it with for_each_elem itself, nested to any depth) and whatever order is given. Run in parallel over the outermost dimension, it takes the elements at the same states in another order. So, for an accumulation whose order does not matter, each element of the output gets the same formula in every layout, order and cut, a matrix product gets the sums of products, an output with all the dimensions is updated once per element, and no access is undefined behaviour. With into_blocks_dynamic in the order, the planner accesses elements behind the end of a bag where the traverser does not (recorded as a finding).", "quantifier": "all numbers of input bags, all layouts in which elements of the output do not share memory, all orders of views that hand the loop indices on, all lists of sections at any depth, all schedules of the calls, all functions (order-independent where elements are updated repeatedly)", "why_tests_cant": "the test runs one product of 20 x 30 x 40 with two orders and two sections; which elements a section reaches depends on the whole order, the layouts and the dimensions of the sections", "anchors": ["include/noarr/structures/extra/planner.hpp: planner_ending_elem_t, planner, planner_t::for_each_elem, planner_t::for_sections, planner_t::order, planner_t::execute", "include/noarr/structures/interop/omp.hpp: operator| (planner_omp_execute_t)", "include/noarr/structures/interop/bag.hpp: bag_t::get_ref, bag_t::operator[]", "tests/planner_test.cpp"]}
{"id": "C64", "title": "Accumulating into stripes and adding them up gives what one accumulator gives", "statement": "When the threads of a block share a bag over cuda_striped<N>(s), clear it with order(cuda_step(current_stripe_cg())), accumulate into their own stripes (or into stripes that their states name) and then add up bag[state & cuda_stripe_idx(i)] over all i into an output bag, then each element of the output becomes its old value combined with all the values given to that element by any thread, whatever the shared memory contained and in whatever order the clearing, the updates and the adding up are done, for every accumulation that is associative and commutative with the cleared value as neutral element; unsigned counters get the sum modulo 2^(8n). No access is undefined behaviour. Updates in different stripes can be exchanged, whatever they do with the values. With fewer threads than stripes this fails: the stripes without a thread are not cleared (recorded as a finding).", "quantifier": "all structures without shared elements and their striped forms, all layouts of the output with the same dimensions and lengths, all numbers of stripes and block sizes with at least one thread per stripe, all contents of the memory, all lists of updates, all orders of the calls in each phase, all associative and commutative accumulations", "why_tests_cant": "needs a GPU; which thread clears which bytes depends on the thread number, the number of stripes and the layout, and the updates come in any order", "anchors": ["include/noarr/structures/interop/cuda_striped.cuh: cuda_striped_t::offset, cuda_striped_t::current_stripe_cg, cuda_stripe_idx, stripe_cg_t", "include/noarr/structures/interop/cuda_step.cuh: cuda_step", "include/noarr/structures/interop/bag.hpp: bag_t::operator[]", "docs/structs/cuda_striped.md"]}
{"id": "C65", "title": "Loops over bags compute their formula in threads, however their reads and writes interleave", "statement": "When the calls of a traversal are cut into parts that update different elements of the output bag (the pieces of a split range, the iterations of omp_for_each or the planners that planner_omp_execute runs, if an index of the output determines the index of the outermost dimension) and the parts are given to threads in any way, then, however the threads take turns at the single reads and writes of elements, no access is undefined behaviour and the result is always that of the parts one after another; for an accumulation whose order does not matter it is the formula of the loop. The same holds for sections that accumulate locally and store once, such as the threads of a CUDA launch. If two parts update the same element, an update can be lost (recorded as a finding).", "quantifier": "all layouts of inputs and outputs in which elements of the output do not share memory, all orders of documented views, all numbers of threads, all assignments of parts to threads, all interleavings of reads and writes, all functions (order-independent for the formula)", "why_tests_cant": "a test sees one interleaving of one run; lost updates depend on timing", "anchors": ["include/noarr/structures/interop/traverser_iter.hpp: traverser_range_t", "include/noarr/structures/interop/tbb.hpp: tbb_for_each, tbb_for_sections", "include/noarr/structures/interop/omp.hpp: omp_for_each, omp_for_sections", "include/noarr/structures/interop/std_para.hpp", "include/noarr/structures/interop/cuda_traverser.cuh: cuda_threads", "include/noarr/structures/interop/bag.hpp: bag_t::operator[]"]}
{"id": "C66", "title": "Programs that name elements by their indices do not depend on the layouts", "statement": "Take any program that uses bags only by reading and writing elements named by their indices (bag[idx<...>(...)]), asking for lengths of dimensions, and going through the indices of a traverser whose dimensions it puts in order with reorder or hoist; what it does next may depend on everything it has read. As long as it stays within the lengths, it does with bags exactly what it does with mathematical arrays that have the same dimensions and values: it has no undefined behaviour, returns the same and leaves the same values. In particular it cannot tell apart two sets of bags that hold the same arrays in different layouts. The traverser calls its function with all combinations of indices in the stated order, whatever the layouts of the bags it goes through. Whether an access with an index for each dimension compiles does not depend on the indices, so if one such access to each bag compiles, and the traversals do, the whole program runs.", "quantifier": "all programs of reads, writes, length queries and ordered traversals, of any length and with any dependence on the values read; all layouts of the bags without tuple dimensions (elements of bags that are written do not share memory); all values; all sets of bags traversed together", "why_tests_cant": "a test runs one program on a few layouts; the claim is about every program and every layout", "anchors": ["README.md: Layout-agnostic data access", "include/noarr/structures/interop/bag.hpp: bag_t::operator[], bag_t::length", "include/noarr/structures/extra/traverser.hpp: traverser, for_each", "include/noarr/structures/structs/views.hpp: reorder, hoist"]}
{"id": "C67", "title": "Structures whose lengths are known can be used: queries, accesses, traversals and programs are not rejected", "statement": "Take a structure without tuples in which every vector and every broadcast dimension is given its length (by set_length, by vector with a length, or by a view above that determines it), every dimension split into blocks is given the number of blocks or their length but not both, and merged dimensions are given no length. Then each dimension has a length and the structure has a size, whatever indices are already in the state; an index for each dimension is enough to access an element of a bag; traversals of several such structures, in any order made of views that keeps the lengths known, are not rejected, and neither are loops over chosen dimensions (for_sections, for_dims), whose sections can be traversed in turn. Hence a program that names elements by their indices compiles for every layout of this kind, and does with the bags what it does with mathematical arrays. It does not suffice that the structure reports all its lengths and its size: an access can still be rejected (recorded as a finding). A bag whose lengths are known can be written as text with serialize_data and read with deserialize_data.", "quantifier": "all structures of scalars, vectors and views (except joins and blocks with a border or bounds checks) of any depth, all states without lengths, all sets of structures traversed together, all orders made of views, all programs of C66", "why_tests_cant": "a test instantiates a few templates; whether some combination of views rejects an access is a question about all of them", "anchors": ["include/noarr/structures/structs/layouts.hpp: vector", "include/noarr/structures/structs/setters.hpp: set_length, fix", "include/noarr/structures/structs/blocks.hpp: into_blocks, merge_blocks", "include/noarr/structures/structs/zcurve.hpp: merge_zcurve", "include/noarr/structures/structs/views.hpp: reorder, hoist, rename", "include/noarr/structures/extra/traverser.hpp: for_each", "include/noarr/structures/interop/bag.hpp: bag_t::operator[]", "include/noarr/structures/interop/serialize_data.hpp: serialize_data, deserialize_data"]}
{"id": "C68", "title": "Views in the order of a traverser and views around the structure visit the same elements", "statement": "traverser(s).order(p ^ q) and traverser(s ^ p).order(q) are two ways to write the same traversal: for_sections and for_dims run the same loops with the same indices, and in each iteration of for_each the state made for s reaches in s the same place of the same sub-structure as the state made for s ^ p reaches in s ^ p. What the two states read from a bag and from the bag with the views around its structure is the same, and so is what they write. If the first traversal is rejected and the second is not (without tuples), no access with the states of the second one compiles. In particular the lengths of a structure can be left out and set in the order of the traverser: the states then carry the lengths, and sizes and offsets in the structure without lengths are those in the structure with lengths.", "quantifier": "all structures, all sequences p and q of views applied to structures that have the dimensions they name, all lists of dimensions given to for_each, for_sections and for_dims, all bags and their contents", "why_tests_cant": "tests compare a few orders with a few structures; the claim is about every composition of views", "anchors": ["include/noarr/structures/extra/traverser.hpp: traverser_t::order, for_each, for_sections, for_dims, state", "include/noarr/structures/structs/setters.hpp: set_length", "include/noarr/structures/base/structs_common.hpp: state_at, offset_of", "include/noarr/structures/interop/bag.hpp: operator^, bag_t::operator[]", "docs/Traverser.md", "docs/other/SeparateLengths.md"]}
{"id": "C69", "title": "Copying a bag into another layout copies every element, and copying back restores it", "statement": "traverser(to, from).order(p).for_each([&](auto state) { to[state] = from[state]; }) makes every element of `to` equal to the element of `from` with the same indices, whatever the layouts of the two bags, the order of the loops, the schedule of the iterations and the previous contents of `to`. Copying back afterwards, perhaps in another order or only in part, leaves every byte of `from` as it was. No access is undefined, and the copy compiles whenever the lengths of both structures are known, the elements have the same size and `to` can be written.", "quantifier": "all pairs of structures with the same dimensions and lengths (the destination without dimensions that share elements), all orders made of views that only rearrange, all schedules of the iterations, all contents", "why_tests_cant": "tests copy between a few pairs of layouts and compare a few elements; the claim is about every pair of layouts, every order and every schedule", "anchors": ["docs/structs/rename.md: copy as if they had the same structure", "include/noarr/structures/interop/bag.hpp: bag_t::operator[]", "include/noarr/structures/extra/traverser.hpp: traverser_t::for_each"]}
{"id": "C70", "title": "Views of different dimensions can be applied in either order", "statement": "Two of fix, set_length, shift, slice, span, step, bcast and hoist that name different dimensions give the same structure in either order, as far as can be observed: the same size, alignment, offsets and lengths for every state, and the same queries are available. reverse can be exchanged with each of them, and with another reverse if the length of neither dimension depends on the index of the other. Each of them can also be moved from above a vector to below it, and from above a tuple to all of its components.", "quantifier": "all structures, all pairs of these views naming different dimensions, all arguments, all states, whenever both orders compile", "why_tests_cant": "tests apply a few views to a few structures in one order; the claim is about every structure, every pair of views and every state", "anchors": ["include/noarr/structures/structs/slice.hpp: shift_t, slice_t, span_t, step_t, reverse_t", "include/noarr/structures/structs/setters.hpp: fix_t, set_length_t", "include/noarr/structures/structs/bcast.hpp: bcast_t", "include/noarr/structures/structs/views.hpp: hoist_t"]}
{"id": "C71", "title": "Blocks and merges of separate dimensions can be applied in either order", "statement": "Splitting a dimension into blocks, merging dimensions (also in z-order) or joining them, and doing the same to other dimensions, gives the same structure in either order: the same size, alignment, offsets and lengths for every state. Views that change one other dimension (fix, set_length, slice, ...) can be exchanged with all of these without further conditions. For two views that both look at lengths, the lengths of one group of dimensions must not depend on the other group; this holds in all structures made of vectors, tuples of other dimensions and views that change one dimension.", "quantifier": "all structures, all pairs of such views naming disjoint sets of dimensions, all arguments, all states", "why_tests_cant": "tests tile one or two matrices in one order; the claim is about every structure, every pair of views and every state, including states that give only some of the lengths", "anchors": ["include/noarr/structures/structs/blocks.hpp: into_blocks_t, into_blocks_dynamic_t, into_blocks_static_t, merge_blocks_t", "include/noarr/structures/structs/zcurve.hpp: merge_zcurve_t", "include/noarr/structures/structs/views.hpp: join_t"]}
{"id": "C72", "title": "A block is a slice, and one position of all blocks is a step", "statement": "Fixing the block index k of into_blocks<D, M, m>(n) gives the structure slice<D>(k * n, n) gives: position i of the block is element i of the slice, and both have length n. Fixing the position k inside the blocks gives what step<D>(k, n) gives: block i is element i of the step, and, if n divides the length, both have as many elements as there are blocks. The first also holds for into_blocks_dynamic.", "quantifier": "all structures, dimensions, block lengths, block indices, positions and states", "why_tests_cant": "tests compare some offsets of some matrices; kernels that replace a blocked loop by a slice rely on it for every layout, block length and state", "anchors": ["include/noarr/structures/structs/blocks.hpp: into_blocks_t, into_blocks_dynamic_t", "include/noarr/structures/structs/slice.hpp: slice_t, step_t", "include/noarr/structures/structs/setters.hpp: fix_t"]}
{"id": "C73", "title": "Different ways to select from one dimension agree", "statement": "span(b, e) is slice(b, e - b); shift(b) is the slice of the rest; slice(0, n) and step(0, 1) leave the elements where they are; step(b, r) of a slice, span or shift from a is a step of r from b + a; step(b, r) of step(a, s) is step(b * s + a, r * s). In each case sizes, alignments and offsets agree for every state; the lengths agree where both are the same selection.", "quantifier": "all structures, dimensions, starts, ends, strides, indices and states; for steps of steps strides whose product fits in size_t and run-time indices", "why_tests_cant": "tests compare a few intervals of a few vectors; code that rewrites one selection into another relies on it for every structure, number and state, compile-time or run-time", "anchors": ["include/noarr/structures/structs/slice.hpp: shift_t, slice_t, span_t, step_t"]}
{"id": "C74", "title": "Fixing an index of a view fixes the right element below", "statement": "Fixing index i of a slice, span or shift from b is fixing i + b in the structure below; of step(b, r), fixing i * r + b; of a reversed dimension of length l, fixing l - 1 - i; of a renamed dimension, fixing i under the old name; of two joined dimensions, fixing i in both; of merged dimensions, fixing i / n in the major and i mod n in the minor one; and fixing position b of block a of length n is fixing a * n + b, also for dynamic blocks and for the whole blocks of static blocks, whose rest starts at l / n * n; fixing an index of merge_zcurve is fixing all merged dimensions at that point of the curve. Sizes, alignments and offsets agree for every state. For slices, spans, shifts, steps, blocks, renamed, joined and merged dimensions, the lengths of the other dimensions agree too.", "quantifier": "all structures, dimensions, indices (constants or run-time numbers), starts, strides, lengths and states", "why_tests_cant": "tests fix a few indices of a few views; code that passes a fixed part of a view to a function relies on it for every structure, index and state", "anchors": ["include/noarr/structures/structs/setters.hpp: fix_t", "include/noarr/structures/structs/slice.hpp", "include/noarr/structures/structs/blocks.hpp: into_blocks_t, merge_blocks_t", "include/noarr/structures/structs/views.hpp: rename_t, join_t"]}
