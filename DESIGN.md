# Formal model of noarr-structures: design

## Approach

The library computes everything (sizes, lengths, offsets, loop nests) by recursion over structure *types*.
The model is a deep embedding: an inductive type of structures, a type of states (association lists of tags and values),
and one Gallina function per C++ member function.

- A value (`val`) remembers whether it is a compile-time constant (`Sta`) or a run-time number (`Dyn`), because the code
  branches on that. All arithmetic is modulo 2^64.
- A program the compiler rejects is `None`.
- A run-time computation with undefined behaviour (division by zero, over-wide shift) is the distinct value `Undef`, and a
  traversal that meets one has the outcome `Undefined`.
- Dimension names are integers (`dim := Z`). The code only compares them for equality.

Most layout theorems are proved through a second, purely integer reading of structures (`Sem.v`: lengths, sizes and
offsets as functions on mathematical integers, with no wrap-around and no notion of compilation). A refinement lemma per
operation (`SemFacts.v` and following) says that the code computes the integer reading modulo 2^64 whenever it compiles.
The properties themselves are stated about the code-level functions; the integer reading appears in statements only
through the small specification files `Spec*.v`.

## Files

- Model of the code, no proofs: `Base.v`, `Sig.v`, `Struct.v`, `ZCurve.v`, `Protos.v`, `Shortcuts.v`, `StateTools.v`,
  `Traverser.v`, `Range.v`, `Reduce.v`, `Planner.v`, `PlanRange.v`, `Bag.v`, `Striped.v`, `Cuda.v`, `AutoStep.v`, `Introspect.v`, `Traits.v`,
  `LowerBound.v`, `Mangle.v`, `MangleStruct.v`, `Contain.v`.
- Specifications, no proofs: `Spec.v`, `Spec*.v`, `Good.v` (documented preconditions), `Sem.v` (integer reading).
- Theorems: `Props*.v`. They contain only statements, one-line proofs by a lemma, `Print Assumptions`, and examples
  showing that the hypotheses are met by concrete structures.
- Everything else is proofs. `Check.v` holds boolean checkers, proved sound, that the examples use.

## Trusted base

- Coq 8.16.1: its kernel, and `vm_compute` (used in the examples and the refutations).
- `Print Assumptions` answers "Closed under the global context" for every theorem in the `Props*.v` files. No axiom is used,
  neither ours nor one of the standard library. `coqchk -o` over all `Props*.v` files and
  everything they need reports no axioms. (With `-norec` it lists axioms of libraries that are merely loaded, such as
  `Coq.ssr.ssrunder`; no theorem depends on them.)
- The reading of the C++ code by which the model was written. Each definition cites the file and lines it models and
  says where it simplifies. The C++ code was not run.
- The translation of each English property into its theorem. The specification files are kept short for that reason.

## What is modelled

| code (`include/noarr/structures/`) | model |
|---|---|
| `base/utility.hpp` literals `lit_t`, `constexpr_arithmetic`, dimension sequences and dimension trees | `Base.v`, `Sig.v` |
| `base/state.hpp` all operations on states | `Base.v` |
| `base/contain.hpp` storage of members (everywhere else members are arguments of the model's constructors) | `Contain.v` |
| `base/signature.hpp`, `extra/sig_utils.hpp` signatures and their search, reorder, hoist, reassembly | `Sig.v`, `Struct.v` |
| `extra/struct_traits.hpp`, `extra/struct_concepts.hpp`, dimension trees of `base/utility.hpp` | `Traits.v`, `Struct.v` |
| `base/structs_common.hpp`, `extra/funcs.hpp`, `extra/to_struct.hpp` application of protos, `offset_of`, size, length, accept checks | `Struct.v`, `Shortcuts.v` |
| `structs/scalar.hpp`, `structs/layouts.hpp` scalar, vector, tuple | `Struct.v` |
| `structs/bcast.hpp`, `structs/setters.hpp` bcast, fix, set_length | `Struct.v` |
| `structs/slice.hpp` shift, slice, span, step, reverse | `Struct.v`, `AutoStep.v` |
| `structs/blocks.hpp` into_blocks, into_blocks_dynamic, into_blocks_static, merge_blocks | `Struct.v` |
| `structs/zcurve.hpp` | `ZCurve.v`, `Struct.v` |
| `structs/views.hpp` reorder, hoist, rename, join, strip_dims | `Struct.v`, `Protos.v` |
| `extra/shortcuts.hpp` | `Shortcuts.v`, `StateTools.v` |
| `extra/traverser.hpp` union, for_each, for_sections, for_dims, order, state | `Traverser.v` |
| `extra/planner.hpp` | `Planner.v` |
| `introspection/contiguous.hpp`, `offset_along.hpp`, `stride_along.hpp`, `uniform_along.hpp` | `Introspect.v` |
| `introspection/lower_bound_along.hpp` | `LowerBound.v` |
| `interop/traverser_iter.hpp` ranges and iterators | `Range.v` |
| `interop/planner_iter.hpp`, and the loops of `interop/omp.hpp` and `interop/std_para.hpp` | `PlanRange.v`, `Range.v` |
| `interop/tbb.hpp` for_each, for_sections and reduce over any splitting | `Range.v`, `Reduce.v` |
| `interop/bag.hpp`, `interop/serialize_data.hpp` | `Bag.v` |
| `interop/cuda_striped.cuh` | `Striped.v` |
| `interop/cuda_traverser.cuh` grid and block sizes, the traverser of each thread | `Cuda.v` |
| `interop/cuda_step.cuh` | `AutoStep.v` |
| `extra/mangle.hpp` text of integers and literals; text of structures and their types | `Mangle.v`, `MangleStruct.v` |
| the loops over bags in `docs/` | `Kernel.v`, `SectionKernel.v`, `StencilKernel.v`, `ReduceBag.v` |
| `examples/matrix` | `Matrix.v` |

## What is not modelled

- The names and parameters that `extra/mangle.hpp` uses for the structures of the CUDA headers.
- Element types are bytes of a given size and alignment. Constructors, destructors and copies of elements are not modelled.
- Threads are modelled by every splitting and every order of the pieces, and in C47 by every interleaving of single reads
  and writes of elements. There is no model of relaxed memory: C45 and C47 show that different threads touch different
  bytes, so the C++ memory model gives such programs the interleaved meaning.
- The C++ type system beyond acceptance by the library's own checks: overload resolution, `static_assert` texts, noexcept.
- Error messages, printing of types, and the tests of the repository. Of its examples, the matrix example is modelled (C62), without its output.

Simplifications that matter for reading the theorems:

- The sources of a copy of a state are compared by lookups, so two states that differ only in the order of entries count as
  the same state.
- Lengths of dimensions that merge_blocks or merge_zcurve create cannot be given through the state in the layout theorems
  (hypothesis `lenok`): the code would take the state's length for the merged dimension and the stored one for the parts.
- Unions (several structures in one traverser) are restricted to structures without tuple dimensions, as the library does.

## Properties: plan and result

For each property: what is modelled and how it is proved, then what was proved. The theorem names are those of `MANIFEST.json`.

### C01 State lookup after update (proved)

Plan: Base.v state ops on association lists; direct list induction.

Theorems: `C01_with_get`, `C01_with_other`, `C01_with_many`, `C01_remove`, `C01_filter`.

all states, tags and values

### C02 State merge is right-biased and associative (proved)

Plan: Base.v `st_and`; extensional equality of lookups.

Theorems: `C02_right_biased`, `C02_assoc`, `C02_idem`, `C02_neutral`.

observed through get

### C03 State comparison laws (proved)

Plan: Base.v comparison functions as booleans; reflected to lookups.

Theorems: `C03_eq_meaning`, `C03_eq_refl`, `C03_eq_sym`, `C03_eq_trans`, `C03_le_meaning`, `C03_le_refl`, `C03_le_trans`, `C03_le_antisym`, `C03_lt`, `C03_lt_meaning`, `C03_exchanged`, `C03_lt_trans`.

reflexivity needs all values to be defined

### C04 State arithmetic is pointwise (proved)

Plan: Base.v `st_add`/`st_sub` modelled item by item incl. the type-keeping behaviour; positive law for run-time values, refutation for constants.

Theorems: `C04_add_pointwise`, `C04_sub_pointwise`, `C04_neg_pointwise`, `C04_add_sub_cancel`, `C04_static_add_refuted`, `C04_static_neg_refuted`.

pointwise laws for run-time values; refuted for compile-time constants

### C05 Compile-time arithmetic equals run-time arithmetic (proved)

Plan: Base.v `vadd..vmod` case by case as the C++ overload set; compared with Z arithmetic mod 2^64.

Theorems: `C05_add`, `C05_sub`, `C05_mul`, `C05_div`, `C05_mod`, `C05_div_by_zero`.

### C06 Every in-range access is inside the allocation (proved)

Plan: Struct.v deep embedding of structures; induction over the structure with a per-view lemma 'in-range states map to in-range states'.

Theorems: `C06_in_bounds`, `C06_set_length_refuted`, `C06_reverse_refuted`, `C06_zcurve_refuted`.

for structures used as documented (Spec.v, Good.v); the refuted theorems show accesses leaving the allocation without those preconditions

### C07 Distinct in-range states never alias (proved)

Plan: same induction, two states.

Theorems: `C07_no_alias`.

same preconditions as C06

### C08 Row-major formula for nested vectors (proved)

Plan: induction on the list of dimensions; independent closed formula.

Theorems: `C08_row_major`, `C08_size`.

any rank; the offset and the size also compile

### C09 Views do not change the amount of memory (proved)

Plan: induction/case analysis per view on `size`.

Theorems: `C09_views_keep_size`, `C09_compiles_refuted`.

Any sequence of views. The size of the view need not compile although the size of the structure does: fix over merge_zcurve over a tuple (refuted).

### C10 State entries for foreign dimensions are ignored (proved)

Plan: induction over the structure for all queries simultaneously.

Theorems: `C10_foreign_ignored`, `C10_add_foreign`, `C10_signature_refuted`.

Foreign means: a name the structure is not written with. The reading 'not in the signature' is refuted: fix on a tuple drops the dimensions of the other components from the signature, but size still asks the state for their lengths.

### C11 Traverser visits every index exactly once, in order (proved)

Plan: Traverser.v model of the recursive expansion; characterised by membership, NoDup and sortedness.

Theorems: `C11_for_each`, `C11_for_each_one`, `C11_ordered`, `C11_defined`, `C11_once`.

sound, complete and strictly sorted; loop bounds defined under the documented preconditions

### C12 Order changes only the order (proved)

Plan: bijection of in-range states per view, composed by induction over the order.

Theorems: `C12_order`, `C12_reorder`, `C12_order_twice`.

Permutation of the index lists (indices of the traversed structures) of the visited states; hypothesis 'complete': every state passed to the body has all indices (reverse and merge_blocks silently drop an index when a length below is unavailable).

### C13 Traversing several structures together is safe (proved)

Plan: union_t modelled as a structure constructor.

Theorems: `C13_in_range`, `C13_dims`, `C13_first_length`.

Structures without tuple dimensions (the library does not support tuples in a union). consistent: every structure that has the dimension reports a length that is not smaller than the one of the union. C13_first_length: the hypothesis is needed.

### C14 hoist and reorder only change the loop nest (proved)

Plan: signature functions `reassemble`, `hoist`; offsets by unfolding sub_state = identity, signature multiset by induction.

Theorems: `C14_hoist`, `C14_reorder`, `C14_reorder_complete`, `C14_reorder_dims`.

works_as: size, offset and their availability; the reordered dimensions are those of the structure

### C15 rename only changes names (proved)

Plan: rename as tag map; inverse law by extensionality.

Theorems: `C15_rename`, `C15_rename_back`.

renaming back restores the queries; names hidden by the renaming cannot be used

### C16 slice, span and shift select the documented interval (proved)

Plan: per-view semantics and composition lemmas.

Theorems: `C16_slice`, `C16_span`, `C16_shift`, `C16_index`, `C16_length`, `C16_compose`, `C16_compose_length`, `C16_traversal`.

value level (no bounds needed) plus the numeric reading under the documented bounds, plus traversal

### C17 step views partition a dimension (proved)

Plan: arithmetic + model of step_t.

Theorems: `C17_step`, `C17_index`, `C17_length`, `C17_lengths`, `C17_once`, `C17_partition`.

### C18 reverse is an involution (proved)

Plan: arithmetic + model of reverse_t; refutations by computation.

Theorems: `C18_reverse`, `C18_lengths`, `C18_index`, `C18_twice`, `C18_other_lengths_refuted`.

Other dimensions: refuted for tuples (C18_other_lengths_refuted).

### C19 into_blocks and merge_blocks are inverse (proved)

Plan: model of into_blocks_t/merge_blocks_t; bijection.

Theorems: `C19_blocks`, `C19_blocks_lengths`, `C19_count`, `C19_count_lengths`, `C19_both`, `C19_merge`, `C19_merge_length`, `C19_merge_after_split`, `C19_merge_after_split_length`, `C19_split_after_merge`, `C19_once`, `C19_blocks_traversal`, `C19_merge_traversal`.

merge after split and split after merge, for run-time indices; traversal versions as permutations

### C20 into_blocks_dynamic covers everything once (proved)

Plan: model; bijection with is_present.

Theorems: `C20_blocks`, `C20_lengths`, `C20_count`, `C20_present`, `C20_once`, `C20_traversal`.

### C21 into_blocks_static covers everything once (proved)

Plan: model; body/border bijection.

Theorems: `C21_blocks`, `C21_lengths`, `C21_once`, `C21_traversal`.

### C22 merge_zcurve enumerates the whole grid once (proved)

Plan: Zcurve.v: loop model of zc_general/zc_special; bijection by induction on levels.

Theorems: `C22_zcurve`, `C22_length`, `C22_once`, `C22_bits`, `C22_traversal`.

zc_good states the documented alignment and maximal length and that volumes fit in 64 bits

### C23 fix and set_length are partial application (proved)

Plan: model of fix_t/set_length_t.

Theorems: `C23_fix`, `C23_set_length`, `C23_commute`, `C23_set_twice_refuted`.

Setting the length twice is accepted, against the documentation (C23_set_twice_refuted).

### C24 join traverses the diagonal (proved)

Plan: model of join_t.

Theorems: `C24_join`, `C24_traversal_refuted`.

Indexing is proved; traversing a join is rejected because it has no length (C24_traversal_refuted).

### C25 bcast repeats the same element (proved)

Plan: model of bcast_t.

Theorems: `C25_bcast`, `C25_independent`.

### C26 Availability queries agree with the operations (proved)

Plan: has_* and operations modelled separately; implication by induction (with refutations where the code disagrees).

Theorems: `C26_sound`, `C26_length`, `C26_size`, `C26_offset`.

Conditions: no reversed dimension, stepped dimensions lose their length when indexed, equal alignments inside tuples nested in tuples, and (for offsets) the size is available. C26_length_refuted, C26_size_refuted and C26_offset_refuted show that without them a query answers true for an operation that does not compile.

### C27 Availability is decided at compile time (proved)

Plan: erasure relation on states/structures; simultaneous induction.

Theorems: `C27_compile_time`.

### C28 Sections partition the traversal (proved)

Plan: Traverser.v sections; list equalities/permutations; the order is stated with SpecSections.v (sorted by the indices of the section dimensions, then the others).

Theorems: `C28_sections`, `C28_dims`, `C28_sections_order`, `C28_dims_order`, `C28_outermost`.

Any order of the traverser, any list of dimensions for which the calls compile and finish; the states agree on every index and length. C28_sections/C28_dims: the same states up to a permutation; C28_sections_order/C28_dims_order: the exact order (for_dims: dimensions listed once); C28_outermost: the same order as the plain for_each.

### C29 Ranges split without loss (proved)

Plan: Range.v split trees.

Theorems: `C29_cut`, `C29_split`, `C29_divisible`, `C29_empty`, `C29_order`.

Any ascending cut points and any splitting pattern of the range; results compared call by call up to the order of entries in the state. Divisible ranges split into two nonempty parts of nearly equal size.

### C30 Range iterators behave like integers (proved)

Plan: Range.v iterators.

Theorems: `C30_arithmetic`, `C30_comparison`, `C30_range`, `C30_begin_end`, `C30_elements`.

Iterator arithmetic is modulo 2^64; stated for iterators and ranges below 2^64.

### C31 Planner runs the same iterations (proved)

Plan: Planner.v.

Theorems: `C31_for_each`, `C31_calls`, `C31_sections`, `C31_tuple_refuted`, `C31_bcast_refuted`, `C31_blocks_dynamic_refuted`.

For planners that compile and orders made of views that hand every loop index on (hands_on: no bcast, into_blocks_dynamic, join; reverse not of a tuple dimension). C31_for_each: same calls as the traverser. C31_calls: sections leave the calls of the body unchanged. C31_sections: sections are at distinct places, with their dimensions known, and contain the traversal in order. The refuted theorems: a planner over a tuple does not compile; inside a broadcast dimension calls are missing; with into_blocks_dynamic the body is called out of range.

### C32 Serialize then deserialize is identity (proved)

Plan: Memory.v byte memory + traversal order.

Theorems: `C32_round_trip`, `C32_decimal`, `C32_order_refuted`, `C32_char_refuted`.

Proved for every pair of layouts that are traversed in the same order and every element type whose printed form reads back (C32_decimal: the decimal integers). The wider claim is false of the code: C32_order_refuted (same dimensions, different traversal order), C32_char_refuted (whitespace characters are skipped on reading).

### C33 Bag element writes are isolated (proved)

Plan: Memory.v.

Theorems: `C33_make_bag`, `C33_defined`, `C33_write`, `C33_bcast_refuted`, `C33_make_vector_bag`, `C33_vector_read`, `C33_vector_write_refuted`.

Holds for every sound structure without bcast; with bcast two index states share an element, C33_bcast_refuted. Bags of make_vector_bag are read-only, C33_vector_write_refuted.

### C34 Striped copies are disjoint and in bounds (proved)

Plan: Striped.v.

Theorems: `C34_disjoint`, `C34_in_size`, `C34_neighbours`, `C34_banks`, `C34_no_conflicts`, `C34_threads`, `C34_scalar`, `C34_elements_refuted`, `C34_scalar_striped`.

The sub-structure must consist of whole elements of the given element type; cuda_striped<N>() without an element type ensures this for vectors and views over one scalar (C34_scalar). Otherwise the size is too small, C34_elements_refuted.

### C35 Strided parallel steps cover everything once (proved)

Plan: Range.v/step.

Theorems: `C35_workers`, `C35_indices`, `C35_auto_workers`, `C35_group`.

Any number of workers below 2^64 minus the length of the stepped dimension.

### C36 index_space_size counts iterations (proved)

Plan: index_space_size vs length of the visit list.

Theorems: `C36_index_space_size`.

Number of states visited by for_each, modulo 2^64. C36_tuple_refuted: for a tuple with dimensions inside its components the query does not compile although the traversal does.

### C37 Offsets along a dimension (proved)

Plan: Introspect.v.

Theorems: `C37_stride`, `C37_offset`, `C37_uniform`, `C37_step_refuted`, `C37_merge_refuted`, `C37_zcurve_refuted`, `C37_stride_available`, `C37_offset_available`, `C37_stride_available_refuted`.

For every structure and every dimension that is not merged from several ones, offset_along and stride_along reproduce the differences of offsets (mod 2^64). Refuted: stride_along below a step in another dimension is multiplied by that step; is_uniform_along answers true for merged and Z-curve dimensions along which the offset is not affine.

### C38 Contiguity answer (proved)

Plan: Introspect.v (refutations expected).

Theorems: `C38_contiguous`, `C38_fix_refuted`, `C38_slice_refuted`, `C38_shift_refuted`, `C38_padding_refuted`.

When is_contiguous answers true, the bytes of all elements a traverser visits form one interval, provided elements are left out only along the outermost stored dimension that has several indices and tuples have no padding. The refuted theorems show wrong answers without that: fixed, sliced or shifted inner dimension, padded tuple.

### C39 Lower bound answer (proved)

Plan: Introspect.v (refutations expected).

Theorems: `C39_lower_bound_at`, `C39_lower_bound_along`, `C39_lower_bound_at_defined`, `C39_reverse_twice_refuted`, `C39_shift_refuted`, `C39_blocks_refuted`, `C39_merge_refuted`, `C39_block_offset_refuted`, `C39_along_reverse_twice_refuted`, `C39_along_static_blocks_refuted`, `C39_along_merge_refuted`, `C39_along_two_lengths_refuted`, `C39_available`, `C39_available_refuted`.

lower_bound_at and lower_bound_along: proved for every structure and interval, and for every dimension (tuple indices and block indices included) except the cases that are refuted: a dimension reversed twice, a shifted reversed dimension (lower_bound_at without interval; lower_bound_along when a second length is set above the shift), the index of a block of a reversed dimension without interval, block indices of a part that does not begin at 0 (lower_bound_along), an interval for the index that chooses between the whole blocks and the rest (lower_bound_along), merged dimensions. steady (the dimension reaches one vector in every component) is assumed.

### C40 Tuple components do not overlap (proved)

Plan: part of the layout induction.

Theorems: `C40_components`.

Components are disjoint, in order and inside the tuple. C40_alignment_refuted: the offset of a component is not rounded up to its alignment although the size of the tuple counts the padding.

### C41 Offset of a sub-structure composes (proved)

Plan: induction over the path to the sub-structure.

Theorems: `C41_composes`, `C41_exact`, `C41_state_at`.

### C42 Parallel reduction equals sequential reduction (proved)

Plan: Range.v reduction over split trees.

Theorems: `C42_private`, `C42_shared`, `C42_alias_refuted`.

Needs distinct places of the output elements; C42_alias_refuted shows that a broadcast output is joined too often.

### C43 vectors_like copies the index space (proved)

Plan: signature induction.

Theorems: `C43_vectors_like`.

Same dimensions in the same order, same lengths.

### C44 Mangled names are faithful (proved)

Plan: Mangle.v decimal printing.

Theorems: `C44_value`, `C44_value_injective`, `C44_value_negative`, `C44_literal_type`, `C44_runtime`, `C44_runtime_defined`, `C44_runtime_literal`, `C44_negative_refuted`.

The text of a non-negative compile-time integer is its decimal numeral, so it determines the integer; for negative values the last digit is lost (C44_negative_refuted: two different integers have the same text).

### C45 Threads that share the output of a reduction do not race (proved)

Plan: SpecRace.v states when two states write different bytes, and which index below a view determines an index above it. The pieces of a split range are followed down to disjoint intervals of the outermost index; the inverse of each view carries a difference of indices down, and C07 turns it into disjoint bytes.

Theorems: `C45_race_free`, `C45_race_free_kept`, `C45_swapped_refuted`, `C45_merged_refuted`, `C45_repeated_refuted`.

C45_race_free: orders where the index of the output dimension determines the outermost index (shifts, slices, steps, reversals, blocks under a reused name, renaming there and back), used as documented, and outputs without repeated elements. C45_race_free_kept: orders that leave that dimension alone, with no assumption about the other dimensions. The library shares the output in more cases, and the claim is false there: the refuted theorems show races for an order that swaps names, an order that merges dimensions under a reused name, and an output with a broadcast outermost dimension.

### C46 A kernel launch makes each call exactly once (proved)

Plan: Cuda.v lists the threads of the launch with the inner traverser each computes; the lists of calls are glued together by the argument of C28, generalised from sections to any complete list of fixed indices.

Theorems: `C46_launch`, `C46_bool`, `C46_truncated_refuted`.

For lengths below 2^32; C46_truncated_refuted shows that longer dimensions are truncated and elements are left out.

### C47 Parallel loops give the result of the sequential loop (proved)

Plan: SpecPar.v gives threads a small-step semantics whose steps are single reads and writes of elements of one bag. Invariant: every call has got as far as it would have got alone, on its own bytes. C07 and C45 make the bytes of different calls disjoint.

Theorems: `C47_elements`, `C47_for_each`, `C47_rows`, `C47_regrouped`, `C47_in_turn`, `C47_ends`, `C47_shared_refuted`.

C47_elements and C47_for_each: calls with one element each. C47_rows and C47_regrouped: pieces of a range, under the conditions of C45. C47_shared_refuted shows the lost update when the library says that the output must not be shared.

### C48 Ranges over planners divide the work of the planner (proved)

Plan: PlanRange.v; the inner planners are planners with a longer order, so C31 applies to each of them and C28 glues their calls together.

Theorems: `C48_inner`, `C48_sections`, `C48_part`, `C48_iterators`, `C48_ranges`, `C48_begin_end`, `C48_order`.

For orders covered by C31 and inner planners that compile. planner_std_execute uses member functions that do not exist; the statement about the inner planners is the same.

### C49 Stencils over the inner part of a structure stay inside (proved)

Plan: StateTools.v models neighbor and symmetric_spans. The span views shift each index by the margin (C16 gives the element of the structure below), so an index moved by at most the margin stays below the length; lengths that depend on other indices are excluded (`fixed_lengths`), and refuted.

Theorems: `C49_moves`, `C49_accepted`, `C49_back`, `C49_inside`, `C49_margins`, `C49_memory`, `C49_blocks_refuted`.

Hypotheses: the lengths in the spanned dimensions do not depend on other indices (fixed_lengths; refuted without it by C49_blocks_refuted), the visited states name a complete element (complete), documented preconditions of the views in the order.

### C50 Helpers for working with states do what their names say (proved)

Plan: Each fix or set_length layer is partial application (C23); induction over the entries of the state composes them. fix_zeros: the all-zero index list is the least in the order in which C11 lists the elements.

Theorems: `C50_fix_state`, `C50_fix_dims`, `C50_set_length_state`, `C50_set_length_dims`, `C50_lengths_like`, `C50_get_indices`, `C50_get_lengths`, `C50_filter_indices`, `C50_filter_lengths`, `C50_update_index`, `C50_zeros`, `C50_zeros_first`, `C50_lengths_like_accepted`.

works_as and length_as (SpecViews.v) compare all queries of the two structures.

### C51 The text of a structure identifies it (proved)

Plan: Texts are printed trees. A tree can be read back in one way only, because names and numbers contain no brackets, commas or quotes (a quoted dimension takes exactly three characters). Trees of structures are equal exactly if the types are; the members of an expression give the values. The equal answers follow from the congruence lemma behind C27.

Theorems: `C51_type_reads`, `C51_type_identifies`, `C51_type_same`, `C51_type_defined`, `C51_expr_reads`, `C51_expr_identifies`, `C51_expr_defined`, `C51_expr_behaves`, `C51_bool_refuted`.

Element types that the library names alike (bool and unsigned char, long and long long) are excluded by the hypothesis told_apart; C51_bool_refuted shows that it is needed. The text is read by the small grammar is_type and is_expr, not by a C++ compiler.

### C52 Shortcuts that take a length do what the longer form does (proved)

Plan: The shortcuts are two or three layers; C23, C19, C20 and C25 are composed. For the order of visits: the path of an element under strip_mine is the block index followed by the path of the original element with the position in place of the index, so the first difference between two paths decides both orders in the same way.

Theorems: `C52_bcast`, `C52_into_blocks`, `C52_into_blocks_dynamic`, `C52_into_blocks_dynamic_lengths`, `C52_into_blocks_lengths`, `C52_merge_blocks`, `C52_merge_blocks_length`, `C52_strip_mine`, `C52_strip_mine_dynamic`, `C52_strip_mine_dynamic_traversal`, `C52_strip_mine_traversal`, `C52_array`, `C52_array_size`, `C52_array_offset`, `C52_vectors_offset`, `C52_vectors_size`, `C52_length_like`, `C52_vectors_like_accepted`, `C52_vectors_like`.

The traversal theorems assume that every state passed to the function has all the indices of the traversed structures (as C12).

### C53 Members are stored and read back, constants take no space (proved)

Plan: Memory is a function from addresses to bytes. Layouts follow the five cases of contain_impl and the rule that objects of one type do not share an address. By induction on the members: reading looks only at the bytes of the object, writing changes only those, and the second member begins after the first one ends. The size follows because a shift is needed only if an empty base meets one of the same type.

Theorems: `C53_get`, `C53_object`, `C53_parts`, `C53_copy`, `C53_structure_bytes`, `C53_structure_size`, `C53_size`, `C53_cat`, `C53_static_free_refuted`.

Layouts follow the Itanium ABI. That constants take no space is refuted when two members have the same empty type (C53_static_free_refuted); C53_size bounds the extra space.

### C54 A bag seen through views stays on its own memory (proved)

Plan: Bag.v models operator^. The size of a structure whose size needs no further lengths does not change when a view above it knows more lengths (induction on the structure); so the memory that the view needs is that of the original, and the argument of C33 applies. Equal elements: a state reaches elements of one type only.

Theorems: `C54_view`, `C54_size`, `C54_defined`, `C54_write`, `C54_same_memory`, `C54_get_ref`, `C54_get_ref_view`, `C54_vector_view`, `C54_set_length_refuted`, `C54_owned_refuted`.

The size of the original bag must be known without a state (enough_data); otherwise C54_set_length_refuted. Views of std::unique_ptr bags do not compile, even of rvalues, C54_owned_refuted.

### C55 Structure traits say what the documentation says (proved)

Plan: Traits.v models the traits. What they should say is stated through the dimensions of the elements (introspection of C35) for every state; induction on the signature. Fixing dimensions is a filter of the path of dimensions, by induction on the state.

Theorems: `C55_point`, `C55_point_trav`, `C55_point_cube`, `C55_cube`, `C55_cube_needs`, `C55_not_cube`, `C55_has_dims`, `C55_sequence`, `C55_cube_sequence`, `C55_fix_dims`, `C55_fix_point`, `C55_point_not_cube_refuted`.

A point without a known length is not a cube (finding C55_point_not_cube_refuted), so the statements about cubes ask for a known size. HasDims is stated for structures without repeated dimensions and without empty tuples.

### C56 Lengths promised by the type are the lengths reported (proved)

Plan: SpecSig.v reads the promised length off the signature. Every view replaces nodes of the signature, so a promise above comes from a node that is kept or from one that was replaced (`replace_promise`); for each view the replaced node promises what `length` computes from the length below, in arithmetic modulo 2^64. Induction on the structure. The product of a z-curve does not depend on the order of the dimensions in the signature.

Theorems: `C56_promised_length`, `C56_join`, `C56_span_refuted`, `C56_step_refuted`, `C56_set_length_refuted`, `C56_join_refuted`.

For all structures of the covered class (uswf) without the constructs that `trusted` leaves out; each of these is refuted.

### C57 Elements of a well laid out structure are aligned (proved)

Plan: SpecAlign.v collects the scalars of a structure and says which structures can stand after which. AlignFacts.v shows that two divisors of 2^64 divide one another one way or the other, so rounding up keeps multiples, also when it wraps; then by induction on the structure that sizes and offsets are multiples. The element's own alignment is carried down through the tuples as the requirement on the start.

Theorems: `C57_multiple`, `C57_size`, `C57_aligned`, `C57_uniform`, `C57_striped`, `C57_pairs_refuted`, `C57_striped_refuted`.

Structures of real C++ types (alignments are powers of two); the start of the allocation is assumed to be aligned. The two refuted theorems show which structures are not aligned.

### C58 A loop over bags computes its formula, in every layout and loop order (proved)

Plan: Kernel.v models the loop body (read the inputs and the output at a state, write the output). SpecKernel.v speaks of bags as functions from indices to values. KernelFacts.v proves that the value at given indices does not depend on the state that names them, and follows one element through the loop; KernelTrav.v proves that the calls of an ordered traversal are a permutation of the box of indices; KernelThms.v puts the two together, splits the box into the element's own and the remaining dimensions, and computes the product of matrices modulo 2^(8w). The calls may come in any order (any permutation of the list of calls).

Theorems: `C58_one_value`, `C58_each_once`, `C58_defined`, `C58_calls`, `C58_result`, `C58_reduction`, `C58_any_schedule`, `C58_pointwise`, `C58_matmul`, `C58_order_matters_refuted`, `C58_broadcast_refuted`.

The function updates one output bag, once per call, and the bags do not share memory. Structures with tuple dimensions are left out. The result holds for every order that only rearranges the loops; C58_calls also covers orders that select.

### C59 Sections that accumulate locally and store once compute the same formula (proved)

Plan: SectionKernel.v models the body of a section: read the output at the section's state, accumulate over the section's own for_each, store once. SpecSectionKernel.v says what it means to cut a traversal into sections, again and again, and that each section has the indices of one element. SectionParts.v proves that sections of sections still are a partition of the elements (the invariant `parts`, established for for_sections, for_dims, CUDA launches and iteration in Sections.v, Sections2.v and CudaFacts.v). SectionKernelFacts.v proves that the elements of a section have the indices of its state, so the calls of the section at x are exactly the calls with the indices x, and follows one element of the output through the stores.

Theorems: `C59_nested`, `C59_store`, `C59_all_stored`, `C59_defined`, `C59_matmul`, `C59_lost_refuted`.

As in C58: one output bag, bags that do not share memory, no tuple dimensions. Sections run one after another in any order; C45 and C47 treat interleavings.

### C60 Stencil loops compute their formula in the inner part and leave the rest alone (proved)

Plan: StencilKernel.v models a loop whose calls read bags at `neighbor` of their state; the loop itself is the one of Kernel.v with another way to read. SpecStencilKernel.v says which indices are in the inner part and what indices a signed difference leads to. StencilKernelFacts.v proves that spans lead exactly to the indices in them: downwards with the lemmas of C49 and upwards (`spans_up`) by induction on the spans, then through the rearranging views with the chain lemmas of Select.v, so the calls are a permutation of the filtered index box. The state of a neighbour names the moved indices because the unsigned sum does not wrap within the margins. The rest is the argument of C58 restricted to the inner part.

Theorems: `C60_calls`, `C60_inner_calls`, `C60_stencil`, `C60_accumulate`, `C60_convolution`, `C60_margins_refuted`.

The bags do not share memory, and the output has no broadcast dimension. C60_margins_refuted shows what happens without margins.

### C61 Parallel reductions into bags give the sums of the sequential loop, also when the output is indexed by the data (proved)

Plan: ReduceBag.v models the bag overload of tbb_reduce on bytes: filling the private copy, the calls, joining, and the choice of the strategy; the schedule (splitting, distribution, order, fresh memory) is an argument. SpecReduceBag.v says what a sum is, what TBB may do, and which element a call updates. ReduceBagFacts.v proves one lemma about updates at computed places (the element at x takes in exactly the updates that go to x); filling and joining are instances of it, and the elements of the output are each visited once by C58. By induction on the threads the output takes in the parts of all calls; the algebra of the operation and the lemma that pieces make the calls of the whole traversal (C29) turn this into a fold over the box of indices. Histograms and sums are instances.

Theorems: `C61_reduce`, `C61_defined`, `C61_loop`, `C61_same_as_sequential`, `C61_along`, `C61_uint`, `C61_sums`, `C61_histogram`, `C61_histogram_defined`, `C61_range_refuted`, `C61_shared_refuted`.

Each call is atomic; interleavings inside calls are C45 and C47 (and C61_shared_refuted shows what they can do to an output that is not indexed by the state).

### C62 Loops over indices written by hand compute the same in every layout, and the matrix example never fails its assertion (proved)

Plan: Matrix.v models the functions of examples/matrix statement by statement: counted loops, reads and writes of bags at run-time indices, int arithmetic whose overflow is undefined behaviour, the matrix in a std::vector, the demo and main with the results of rand as arguments. SpecMatrix.v says what a layout of matrices is and when a bag or a vector holds a matrix. MatrixFacts.v proves a rule for counted loops with an invariant, and that writing one element changes that element only (from the facts about bags behind C58). MatrixThms.v finds an invariant for each loop; for the transposition it says which pairs have been exchanged. The demo composes them; two vectors that hold the same matrix are equal, so the assertion compares a vector with itself.

Theorems: `C62_multiply`, `C62_copy`, `C62_transpose`, `C62_scale`, `C62_to_classic`, `C62_from_classic`, `C62_round_trip`, `C62_demo`, `C62_layouts`, `C62_main`, `C62_negative_refuted`.

All layouts with the two dimensions, all sizes and contents. Elements are int (four bytes); overflow of int is undefined behaviour and excluded by a hypothesis; a failing assert counts as undefined behaviour. C62_negative_refuted is a finding about the command line of the example.

### C63 Planners over bags compute the formula of the loop, however they are cut into sections and run (proved)

Plan: PlanElem.v models for_each_elem on top of the planner (Planner.v) and of loops over bags (Kernel.v), and sections that complete their inner planner themselves. SpecPlanElem.v lists the ways to run such a planner. PlanElemThms.v shows by induction over the nesting that a section runs exactly the rest of the loop nest at its place (the lemmas about places in the loop nest behind C31), that states with the same indices reach the same elements, and then applies the theorems behind C48 and C58.

Theorems: `C63_same`, `C63_parallel`, `C63_reduction`, `C63_pointwise`, `C63_matmul`, `C63_blocks_dynamic_refuted`.

planner accepted and traversal accepted; order of views that hand the indices on (no bcast, join or into_blocks_dynamic); the calls of a parallel run are taken as atomic

### C64 Accumulating into stripes and adding them up gives what one accumulator gives (proved)

Plan: StripedKernel.v models accesses through bags over striped structures and the three phases (clear, accumulate, add up) on the bytes of the shared memory. SpecStripedKernel.v says when an accumulation collects values in any order and which values are given to an element. StripedKernelFacts.v shows that an access reaches one copy of one element and leaves all the other copies alone (from C34), and StripedKernelThms.v that the threads of a stripe clear it completely (from C40 and C58), so the copies start with the neutral value, and that adding them up regroups the values given. Atomicity of the updates and the barriers between the phases are assumed.

Theorems: `C64_result`, `C64_sum`, `C64_private`, `C64_few_threads_refuted`.

the updates are atomic and the phases are separated by barriers; with fewer threads than stripes the result is wrong (C64_few_threads_refuted)

### C65 Loops over bags compute their formula in threads, however their reads and writes interleave (proved)

Plan: ThreadKernel.v writes the calls of a loop (Kernel.v) and the sections of SectionKernel.v as programs of single reads and writes of the output, for the threads of SpecPar.v (C47). ThreadKernelThms.v shows that programs which reach elements with different indices touch different bytes, so the determinism behind C47 applies, and takes the formula from C58 and C59.

Theorems: `C65_loop`, `C65_result`, `C65_pieces`, `C65_iterations`, `C65_planners`, `C65_sections`, `C65_sections_same`, `C65_alone`, `C65_lost_refuted`.

parts that update the same element can lose updates (C65_lost_refuted); the inputs do not change during the loop

### C66 Programs that name elements by their indices do not depend on the layouts (proved)

Plan: Agnostic.v defines programs as trees of reads, writes, length queries and traversals in a stated order, and runs them on bags. SpecAgnostic.v runs the same programs on functions from indices to values. AgnosticCalls.v shows that a traversal with all dimensions reordered or hoisted makes its calls in lexicographic order (from C11, C14 and C58), and AgnosticThms.v proves the refinement by induction on the program. AgnosticAccept.v uses C27 to show that one access that compiles is enough for all of them, so that the program runs.

Theorems: `C66_order`, `C66_refines`, `C66_defined`, `C66_layouts`, `C66_access`, `C66_done`.

A program either is not accepted by the compiler or does with bags what it does with arrays; it is accepted if one access to each bag is and the traversals are. The function passed to for_each is given the indices of the calls; the layouts have no tuple dimensions.

### C67 Structures whose lengths are known can be used: queries, accesses, traversals and programs are not rejected (proved)

Plan: SpecKnown.v states, from the outside in, which lengths each layer is given and which ones it needs. KnownFacts.v shows by induction on the structure that the state handed to each sub-structure exists and gives just these lengths, so that has_length, has_size and has_offset hold everywhere; with C26 the queries themselves compile. KnownThms.v (and KnownSections.v, for sections) follows the loops of for_each and concludes C66 without its alternative that the program is rejected. KnownText.v adds reading and writing text (C67_text).

Theorems: `C67_length`, `C67_size`, `C67_access`, `C67_together`, `C67_each`, `C67_sections`, `C67_text`, `C67_programs`, `C67_answers_refuted`.

For structures without tuples, joins, static or bounds-checked blocks. C67_answers_refuted shows that the stated condition on the lengths cannot be replaced by the answers of has_length and has_size.

### C68 Views in the order of a traverser and views around the structure visit the same elements (proved)

Plan: SpecWrap.v says which views suit a structure and when two states reach the same places. WrapFacts.v shows that the union of one structure with views around it and the structure with the same views inside the union answer all questions about dimensions and lengths alike, so the loops are the same; the state of the first traverser is that of the second, passed down through the views p, and offsets are preserved by passing states down. WrapReject.v compares the one state that the compiler sees with the states of the run (same types of indices) for C68_rejected.

Theorems: `C68_loops`, `C68_each`, `C68_rejected`, `C68_passes`, `C68_bags`, `C68_lengths`.

C68_each leaves open that the traversal of the bare structure is rejected because a view needs lengths to compute an index; C68_rejected shows that then no access compiles either, C68_passes excludes it for views that need none.

### C69 Copying a bag into another layout copies every element, and copying back restores it (proved)

Plan: Copy.v is the loop as written in the documentation. A copy that succeeds is a loop of C58 that ignores the old element, so every element is the last of the values written to it; these are all equal because the states that name it name one element of the source. Copying back writes what is there already, so no byte changes. Acceptance uses C67 (accesses of structures with known lengths compile).

Theorems: `C69_copy`, `C69_keeps`, `C69_back`, `C69_defined`, `C69_accepted`, `C69_broadcast_refuted`.

copying from a renamed view, as in the documentation, is the example; destinations that share elements are excluded, with a counterexample

### C70 Views of different dimensions can be applied in either order (proved)

Plan: Each of these views edits only the entries of its own dimension in the state, by a function of these entries alone, so the edits of two different dimensions can be exchanged. reverse also reads the length of its dimension, which a view of another dimension passes through. Vectors and tuples pass on the entries of the other dimensions, so the view below sees the same ones. For two reversed dimensions see C70_reverses_refuted.

Theorems: `C70_commute`, `C70_reverse`, `C70_reverses`, `C70_reverses_refuted`, `C70_vector`, `C70_tuple`.

views of different dimensions can be exchanged and moved below vectors and tuples; two reversed dimensions only if their lengths do not depend on each other

### C71 Blocks and merges of separate dimensions can be applied in either order (proved)

Plan: Two runs of the same view over two structures with the same lengths of its dimensions produce states that agree on its dimensions, and leave the rest alone (about_sub, about_len). A view about other dimensions passes these lengths on, so the two orders reach the innermost structure with the same state. Offsets of into_blocks_dynamic are compared only if all its indices are given (given). For reverse see C70.

Theorems: `C71_change`, `C71_commute`, `C71_separate`.

into_blocks, into_blocks_dynamic, into_blocks_static, merge_blocks, merge_zcurve and join about separate dimensions can be exchanged

### C72 A block is a slice, and one position of all blocks is a step (proved)

Plan: Both sides are shown to use the original structure with the same state: the theorems about fix (C23), into_blocks (C52), slice (C16) and step (C17) give the state on each side, and addition of sizes is commutative.

Theorems: `C72_block`, `C72_block_length`, `C72_block_dynamic`, `C72_stride`, `C72_stride_length`.

### C73 Different ways to select from one dimension agree (proved)

Plan: By the theorems of C16 and C17 each selection uses the original structure with an edited state; the edits are compared, with arithmetic modulo 2^64 and the distinction between constants and run-time numbers. The length of a step of a step is computed with floor division of a floor division.

Theorems: `C73_span_slice`, `C73_shift_slice`, `C73_slice_all`, `C73_step_all`, `C73_step_moved`, `C73_step_step`, `C73_step_step_length`.

### C74 Fixing an index of a view fixes the right element below (proved)

Plan: By the theorems about single views (C13 to C25) both sides use the same structure, each with an edited state; the two edits are compared tag by tag.

Theorems: `C74_moved`, `C74_step`, `C74_reverse`, `C74_rename`, `C74_join`, `C74_merge`, `C74_blocks`, `C74_static`, `C74_dynamic`, `C74_zcurve`, `C74_moved_length`, `C74_step_length`, `C74_join_length`, `C74_merge_length`, `C74_rename_length`, `C74_blocks_length`, `C74_reverse_length_refuted`.

For reverse, merge, merge_zcurve and static blocks the lengths below must be available; for join both dimensions have lengths or neither has. Lengths of other dimensions are compared for states without an index in them; for reversed tuple dimensions they can differ (C74_reverse_length_refuted).

## Findings

Places where the code, as modelled, does not do what its documentation or its own other parts say. Those with a theorem
name are proved by a concrete witness; the others were noticed while writing the model.

Layout and access
- `C06_set_length_refuted`: a length set on top of a shift replaces the reported length, and in-range indices leave the allocation.
- `C06_reverse_refuted`: reversing the block index of into_blocks_dynamic checks the presence of the unreversed block, and
  accepted indices leave the allocation.
- `C06_zcurve_refuted`: merge_zcurve with a generous maximal length overflows and addresses memory far outside.
- `C40_alignment_refuted`: a tuple of a char and an int has size 8 because padding is counted, but the int is placed at offset 1.
  The documentation says there is no padding. A tuple of components with different alignments inside a tuple does not compile.
- `C09_compiles_refuted`: the size of a fixed dimension over a z-curve over a tuple does not compile although the size below does.
- `C10_signature_refuted`: fixing a tuple dimension removes the other components' dimensions from the signature, but `size`
  still asks for their lengths.
- `C23_set_twice_refuted`: setting a length twice is accepted; the documentation says it is an error.
- `C24_traversal_refuted`: a joined dimension has no length, so it cannot be traversed.
- `C18_other_lengths_refuted`: with a reversed tuple dimension, lengths are those of the unreversed component.
- reverse drops the index silently when the length below is not available; merge_blocks does the same.
- merge_blocks and merge_zcurve on a path with only some of the merged dimensions remove those from the signature.
- into_blocks with a length that does not divide drops the elements of the last partial block.
- A vector of static length 1 ignores its index.
- step's length underflows when start is at least length plus stride; shift, span and reverse underflow likewise.
- The z-curve computes `1U << SL*N` in 32 bits (undefined from 32 on) and shifts by 64 for one dimension.

State
- `C04_static_add_refuted`, `C04_static_neg_refuted`: adding states keeps the left operand's compile-time value and drops the sum.

Availability queries
- `C26_length_refuted`, `C26_size_refuted`, `C26_offset_refuted`: has_length, has_size and has_offset answer true for
  operations that do not compile.
- shift answers has_length although the index is set; into_blocks_dynamic answers it for the presence dimension whatever the index;
  into_blocks_static's has_length of the block index without the border index is a hard error.
- rename, merge_zcurve and join answer has_length for the hidden names.
- The static lengths in the signatures of span and step disagree with `length()`.

Traversal and planning
- `C13_first_length`: a union takes the length of the first structure that has it.
- `C31_tuple_refuted`: a planner over a tuple does not compile.
- `C31_bcast_refuted`: a planner whose order broadcasts a dimension loses calls.
- `C31_blocks_dynamic_refuted`: a planner over into_blocks_dynamic calls the body for absent elements, outside the allocation.
- `C36_tuple_refuted`: index_space_size of a tuple whose components have dimensions does not compile.
- `traverser.order` does not check `proto_preserves_layout`.

Parallel reduction
- `C42_alias_refuted`: an output with a broadcast dimension is joined too often.
- `C45_swapped_refuted`, `C45_merged_refuted`, `C45_repeated_refuted`: tbb_reduce lets threads write to a shared output by a
  test on dimension names only. Orders that swap names or merge dimensions under a reused name, and outputs that repeat
  elements, pass the test and race.

Serialization and bags
- `C32_order_refuted`: data written with one layout and read with another is permuted when the traversal orders differ.
- `C32_char_refuted`: whitespace characters are lost.
- `C33_bcast_refuted`: writing one element of a bag with a broadcast dimension changes others.
- `C54_set_length_refuted`: a bag of a structure without a length accepts `^ set_length`, whatever memory it has; reading an
  element of the result may be undefined.

Introspection
- `C37_step_refuted`: stride_along of every dimension is multiplied by the step of another one.
- `C37_merge_refuted`, `C37_zcurve_refuted`: merged and z-curve dimensions answer uniform although offsets are not affine.
- `C38_fix_refuted`, `C38_slice_refuted`, `C38_shift_refuted`, `C38_padding_refuted`: is_contiguous is true for structures with gaps.
- `C39_reverse_twice_refuted`, `C39_shift_refuted`, `C39_blocks_refuted`, `C39_merge_refuted`: wrong lower bounds.
- `C39_block_offset_refuted`: for a block index, `lower_bound_along` counts the start of the blocked part, `offset_along` does not.
- `C39_along_reverse_twice_refuted`, `C39_along_static_blocks_refuted`, `C39_along_merge_refuted`, `C39_along_two_lengths_refuted`: wrong answers of `lower_bound_along` for a dimension reversed twice, for an interval of the index that chooses between whole blocks and the rest, for merged dimensions, and for a shifted reversed dimension whose length is set again above the shift.
- lower_bound_at of a block index without interval returns two different types and does not compile unless they coincide;
  into_blocks_dynamic lacks one of the overloads.
- `C55_point_not_cube_refuted`: a point or matrix whose length is not known is not a cube, although the documentation says that any
  point is a cube and that only tuples make a structure not a cube.
- `C56_span_refuted`, `C56_step_refuted`: the signature of `span` has the static end as the length instead of end minus start
  (slice.hpp 389), and the signature of `step` has the static stride as the length (slice.hpp 542). `C56_join_refuted`: `join`
  compares these numbers (views.hpp 598), so it rejects two dimensions of length 3 and accepts dimensions of lengths 3 and 5.
- `C56_set_length_refuted`: a static length set over a slice is promised, but the length of the slice is answered.

Stencils
- `C49_blocks_refuted`: with the blocks of into_blocks_dynamic, a neighbour within the margins of symmetric_spans may lie
  outside the memory of the structure, because the next block may be shorter.

Loops over bags
- `C58_order_matters_refuted`: a loop whose update depends on the order (such as keeping the last value) depends on the order of the
  traverser. `C58_broadcast_refuted`: accumulating into a bag with a broadcast dimension adds everything into each element.
- `C62_negative_refuted`: the matrix example does not reject a negative size: it is converted to `std::size_t` before the test `size < 1`, the
  number of elements wraps around, and printing the first matrix reads outside of its vector (examples/matrix/matrix.cpp 253-266).
- `C63_blocks_dynamic_refuted`: a planner over a bag whose order has `into_blocks_dynamic` accesses elements behind the end of the bag (undefined
  behaviour) unless the length is a multiple of the block; the traverser with the same order does not (extra/planner.hpp 400-423, see also C31).
- `C64_few_threads_refuted`: clearing a striped bag with `order(cuda_step<d>(current_stripe_cg()))` leaves the stripes that no thread of the block has
  as they are; in a block with fewer threads than stripes, adding up all the stripes adds what the memory contained (interop/cuda_striped.cuh 190-199).
- `C65_lost_refuted`: a loop run in parallel over a dimension that the output does not have can lose updates. Nothing in `omp_for_each`, `tbb_for_each`
  or the standard parallel algorithms over a traverser range prevents it (`tbb_reduce` makes copies in this case).
- `C67_answers_refuted`: a structure can have all its lengths and its size and still reject an access with all the indices (into_blocks
  with both lengths given, over a z-curve whose dimensions have no lengths).
- `C69_broadcast_refuted`: a destination with a dimension that shares one element among several indices (`bcast`) keeps only the last element copied, so the copy does not have the elements of the source.
- `C70_reverses_refuted`: a tuple of arrays of lengths 3 and 5 with both dimensions reversed. If the tuple is reversed first, the reversal of the arrays takes the length of the wrong array (see C18_other_lengths_refuted), so index 0 of the array of length 3 becomes index 4, outside of the array. The other order is right.
- `C54_owned_refuted`: `bag ^ proto` never compiles for a bag that owns its data through a `std::unique_ptr`, not even for an rvalue. docs/BasicUsage.md
  195-197 allow "a call to `make_bag`, `std::move`". The operator (bag.hpp 246-249) moves from `get<1>()`, which returns a reference to const, so
  the constructor that copies the data is chosen. `get_ref()` first is a way around it (`C54_get_ref_view`).
- `C33_vector_write_refuted`: the elements of a bag made by `make_vector_bag` can be read but never assigned. `data()` is a const member and
  chooses the overload for a const vector, so `bag[state]` is a reference to const; a fresh bag of this kind holds zeros (`C33_vector_read`).
- `C37_stride_available_refuted`: `has_stride_along` is true for a vector with a length over a vector without one, but `stride_along` needs the size
  of the inner vector and does not compile. `C37_stride_available` asks for the size.
- `C39_available_refuted`: `has_lower_bound_along` is true for the positions in blocks whose length is not set (lower_bound_along.hpp 890-896), but
  `lower_bound_along` asks for that length (934-943) and does not compile.
- `C74_reverse_length_refuted`: index 0 of a reversed tuple of arrays of lengths 3 and 5 is the array of length 5, but its reported length is 3 (the same cause as `C18_other_lengths_refuted`).
- `C61_shared_refuted`: `tbb_reduce` shares the output between threads if the output has the outermost dimension of the input, whatever the
  functions do. A histogram whose dimension has the same name as the outermost dimension of the values (the documentation allows the output to be
  indexed by something else than the state) is updated by two threads at once, and an update can be lost (tbb.hpp 47-53).
- `C61_range_refuted`: a value that is not an index of the histogram is undefined behaviour; indices are not checked.
- `C60_margins_refuted`: `neighbor` does not look at lengths. Without a margin in a dimension, the difference -1 at the start of a row
  leads to the end of the previous row, and at the start of the structure outside its memory (shortcuts.hpp 240-250).
- `C59_lost_refuted`: when the sections also cut a dimension that the output does not have, `c[trav] = result` still compiles and keeps
  only the part of the last section.

Parallel execution
- `planner | planner_std_execute()` calls members `begin()` and `end()` of the planner, which it does not have (they are free
  functions), so it does not compile; planner ranges have no splitting constructor and cannot be given to TBB.

CUDA and names
- `C57_pairs_refuted`: the size of a tuple is not rounded up to its alignment, so in a vector of pairs (double, int) every second double
  is misaligned (layouts.hpp 153-180), even though the components are in the best order.
- `C57_striped_refuted`: with 10 stripes over 32 banks of 4 bytes a stripe has 12 bytes, and the doubles of every second stripe are
  misaligned (cuda_striped.cuh 82-103).
- `C34_elements_refuted`: cuda_striped reports too small a size when the element type does not divide the structure.
- `C46_truncated_refuted`: cuda_threads truncates grid and block sizes to 32 bits, so elements are left out, while the
  conversion to bool looks at the full lengths.
- cuda_striped's `align` does not compile.
- `C44_negative_refuted`: the text of negative integers loses the last digit.
- `C53_static_free_refuted`: fixing two dimensions by the same static index makes a structure with run-time lengths larger by 8
  bytes, because two bases of the same empty type must not share an address. The documentation says that empty members take
  no space.
- `C51_bool_refuted`: element types of one size and signedness share a name, such as `bool` and `unsigned char`, so that
  structures of different types have the same text. Also (examples of C51): the dimensions `'\''` and `'\\'` are not escaped,
  so their text is not C++; lengths known at compile time above the greatest `int` have no text.
- The type name of a literal above INT_MAX does not compile.

## Tests against wrong programs

`seeded/LOG.jsonl` records edits of the model made in a scratch copy, one line per edit: the definition, the edit, the claim
it breaks, the theorems that no longer prove, and the theorems that were added or tightened when none failed.
