{
 "claims": [
  {
   "property": "C01",
   "status": "proved",
   "theorems": [
    "C01_with_get",
    "C01_with_other",
    "C01_with_many",
    "C01_remove",
    "C01_filter"
   ],
   "note": "all states, tags and values"
  },
  {
   "property": "C02",
   "status": "proved",
   "theorems": [
    "C02_right_biased",
    "C02_assoc",
    "C02_idem",
    "C02_neutral"
   ],
   "note": "observed through get"
  },
  {
   "property": "C03",
   "status": "proved",
   "theorems": [
    "C03_eq_meaning",
    "C03_eq_refl",
    "C03_eq_sym",
    "C03_eq_trans",
    "C03_le_meaning",
    "C03_le_refl",
    "C03_le_trans",
    "C03_le_antisym",
    "C03_lt",
    "C03_lt_meaning",
    "C03_exchanged",
    "C03_lt_trans"
   ],
   "note": "reflexivity needs all values to be defined"
  },
  {
   "property": "C04",
   "status": "proved",
   "theorems": [
    "C04_add_pointwise",
    "C04_sub_pointwise",
    "C04_neg_pointwise",
    "C04_add_sub_cancel",
    "C04_static_add_refuted",
    "C04_static_neg_refuted"
   ],
   "note": "pointwise laws for run-time values; refuted for compile-time constants"
  },
  {
   "property": "C05",
   "status": "proved",
   "theorems": [
    "C05_add",
    "C05_sub",
    "C05_mul",
    "C05_div",
    "C05_mod",
    "C05_div_by_zero"
   ],
   "note": ""
  },
  {
   "property": "C06",
   "status": "proved",
   "theorems": [
    "C06_in_bounds",
    "C06_set_length_refuted",
    "C06_reverse_refuted",
    "C06_zcurve_refuted"
   ],
   "note": "for structures used as documented (Spec.v, Good.v); the refuted theorems show accesses leaving the allocation without those preconditions"
  },
  {
   "property": "C07",
   "status": "proved",
   "theorems": [
    "C07_no_alias"
   ],
   "note": "same preconditions as C06"
  },
  {
   "property": "C08",
   "status": "proved",
   "theorems": [
    "C08_row_major",
    "C08_size"
   ],
   "note": "any rank; the offset and the size also compile"
  },
  {
   "property": "C09",
   "status": "proved",
   "theorems": [
    "C09_views_keep_size",
    "C09_compiles_refuted"
   ],
   "note": "Any sequence of views. The size of the view need not compile although the size of the structure does: fix over merge_zcurve over a tuple (refuted)."
  },
  {
   "property": "C10",
   "status": "proved",
   "theorems": [
    "C10_foreign_ignored",
    "C10_add_foreign",
    "C10_signature_refuted"
   ],
   "note": "Foreign means: a name the structure is not written with. The reading 'not in the signature' is refuted: fix on a tuple drops the dimensions of the other components from the signature, but size still asks the state for their lengths."
  },
  {
   "property": "C11",
   "status": "proved",
   "theorems": [
    "C11_for_each",
    "C11_for_each_one",
    "C11_ordered",
    "C11_defined",
    "C11_once"
   ],
   "note": "sound, complete and strictly sorted; loop bounds defined under the documented preconditions"
  },
  {
   "property": "C12",
   "status": "proved",
   "theorems": [
    "C12_order",
    "C12_reorder",
    "C12_order_twice"
   ],
   "note": "Permutation of the index lists (indices of the traversed structures) of the visited states; hypothesis 'complete': every state passed to the body has all indices (reverse and merge_blocks silently drop an index when a length below is unavailable)."
  },
  {
   "property": "C13",
   "status": "proved",
   "theorems": [
    "C13_in_range",
    "C13_dims",
    "C13_first_length"
   ],
   "note": "Structures without tuple dimensions (the library does not support tuples in a union). consistent: every structure that has the dimension reports a length that is not smaller than the one of the union. C13_first_length: the hypothesis is needed."
  },
  {
   "property": "C14",
   "status": "proved",
   "theorems": [
    "C14_hoist",
    "C14_reorder",
    "C14_reorder_complete",
    "C14_reorder_dims"
   ],
   "note": "works_as: size, offset and their availability; the reordered dimensions are those of the structure"
  },
  {
   "property": "C15",
   "status": "proved",
   "theorems": [
    "C15_rename",
    "C15_rename_back"
   ],
   "note": "renaming back restores the queries; names hidden by the renaming cannot be used"
  },
  {
   "property": "C16",
   "status": "proved",
   "theorems": [
    "C16_slice",
    "C16_span",
    "C16_shift",
    "C16_index",
    "C16_length",
    "C16_compose",
    "C16_compose_length",
    "C16_traversal"
   ],
   "note": "value level (no bounds needed) plus the numeric reading under the documented bounds, plus traversal"
  },
  {
   "property": "C17",
   "status": "proved",
   "theorems": [
    "C17_step",
    "C17_index",
    "C17_length",
    "C17_lengths",
    "C17_once",
    "C17_partition"
   ],
   "note": ""
  },
  {
   "property": "C18",
   "status": "proved",
   "theorems": [
    "C18_reverse",
    "C18_lengths",
    "C18_index",
    "C18_twice",
    "C18_other_lengths_refuted"
   ],
   "note": "Other dimensions: refuted for tuples (C18_other_lengths_refuted)."
  },
  {
   "property": "C19",
   "status": "proved",
   "theorems": [
    "C19_blocks",
    "C19_blocks_lengths",
    "C19_count",
    "C19_count_lengths",
    "C19_both",
    "C19_merge",
    "C19_merge_length",
    "C19_merge_after_split",
    "C19_merge_after_split_length",
    "C19_split_after_merge",
    "C19_once",
    "C19_blocks_traversal",
    "C19_merge_traversal"
   ],
   "note": "merge after split and split after merge, for run-time indices; traversal versions as permutations"
  },
  {
   "property": "C20",
   "status": "proved",
   "theorems": [
    "C20_blocks",
    "C20_lengths",
    "C20_count",
    "C20_present",
    "C20_once",
    "C20_traversal"
   ],
   "note": ""
  },
  {
   "property": "C21",
   "status": "proved",
   "theorems": [
    "C21_blocks",
    "C21_lengths",
    "C21_once",
    "C21_traversal"
   ],
   "note": ""
  },
  {
   "property": "C22",
   "status": "proved",
   "theorems": [
    "C22_zcurve",
    "C22_length",
    "C22_once",
    "C22_bits",
    "C22_traversal"
   ],
   "note": "zc_good states the documented alignment and maximal length and that volumes fit in 64 bits"
  },
  {
   "property": "C23",
   "status": "proved",
   "theorems": [
    "C23_fix",
    "C23_set_length",
    "C23_commute",
    "C23_set_twice_refuted"
   ],
   "note": "Setting the length twice is accepted, against the documentation (C23_set_twice_refuted)."
  },
  {
   "property": "C24",
   "status": "proved",
   "theorems": [
    "C24_join",
    "C24_traversal_refuted"
   ],
   "note": "Indexing is proved; traversing a join is rejected because it has no length (C24_traversal_refuted)."
  },
  {
   "property": "C25",
   "status": "proved",
   "theorems": [
    "C25_bcast",
    "C25_independent"
   ],
   "note": ""
  },
  {
   "property": "C26",
   "status": "proved",
   "theorems": [
    "C26_sound",
    "C26_length",
    "C26_size",
    "C26_offset"
   ],
   "note": "Conditions: no reversed dimension, stepped dimensions lose their length when indexed, equal alignments inside tuples nested in tuples, and (for offsets) the size is available. C26_length_refuted, C26_size_refuted and C26_offset_refuted show that without them a query answers true for an operation that does not compile."
  },
  {
   "property": "C27",
   "status": "proved",
   "theorems": [
    "C27_compile_time"
   ],
   "note": ""
  },
  {
   "property": "C28",
   "status": "proved",
   "theorems": [
    "C28_sections",
    "C28_dims",
    "C28_sections_order",
    "C28_dims_order",
    "C28_outermost"
   ],
   "note": "Any order of the traverser, any list of dimensions for which the calls compile and finish; the states agree on every index and length. C28_sections/C28_dims: the same states up to a permutation; C28_sections_order/C28_dims_order: the exact order (for_dims: dimensions listed once); C28_outermost: the same order as the plain for_each."
  },
  {
   "property": "C29",
   "status": "proved",
   "theorems": [
    "C29_cut",
    "C29_split",
    "C29_divisible",
    "C29_empty",
    "C29_order"
   ],
   "note": "Any ascending cut points and any splitting pattern of the range; results compared call by call up to the order of entries in the state. Divisible ranges split into two nonempty parts of nearly equal size."
  },
  {
   "property": "C30",
   "status": "proved",
   "theorems": [
    "C30_arithmetic",
    "C30_comparison",
    "C30_range",
    "C30_begin_end",
    "C30_elements"
   ],
   "note": "Iterator arithmetic is modulo 2^64; stated for iterators and ranges below 2^64."
  },
  {
   "property": "C31",
   "status": "proved",
   "theorems": [
    "C31_for_each",
    "C31_calls",
    "C31_sections",
    "C31_tuple_refuted",
    "C31_bcast_refuted",
    "C31_blocks_dynamic_refuted"
   ],
   "note": "For planners that compile and orders made of views that hand every loop index on (hands_on: no bcast, into_blocks_dynamic, join; reverse not of a tuple dimension). C31_for_each: same calls as the traverser. C31_calls: sections leave the calls of the body unchanged. C31_sections: sections are at distinct places, with their dimensions known, and contain the traversal in order. The refuted theorems: a planner over a tuple does not compile; inside a broadcast dimension calls are missing; with into_blocks_dynamic the body is called out of range."
  },
  {
   "property": "C32",
   "status": "proved",
   "theorems": [
    "C32_round_trip",
    "C32_decimal",
    "C32_order_refuted",
    "C32_char_refuted"
   ],
   "note": "Proved for every pair of layouts that are traversed in the same order and every element type whose printed form reads back (C32_decimal: the decimal integers). The wider claim is false of the code: C32_order_refuted (same dimensions, different traversal order), C32_char_refuted (whitespace characters are skipped on reading)."
  },
  {
   "property": "C33",
   "status": "proved",
   "theorems": [
    "C33_make_bag",
    "C33_defined",
    "C33_write",
    "C33_bcast_refuted",
    "C33_make_vector_bag",
    "C33_vector_read",
    "C33_vector_write_refuted"
   ],
   "note": "Holds for every sound structure without bcast; with bcast two index states share an element, C33_bcast_refuted. Bags of make_vector_bag are read-only, C33_vector_write_refuted."
  },
  {
   "property": "C34",
   "status": "proved",
   "theorems": [
    "C34_disjoint",
    "C34_in_size",
    "C34_neighbours",
    "C34_banks",
    "C34_no_conflicts",
    "C34_threads",
    "C34_scalar",
    "C34_elements_refuted",
    "C34_scalar_striped"
   ],
   "note": "The sub-structure must consist of whole elements of the given element type; cuda_striped<N>() without an element type ensures this for vectors and views over one scalar (C34_scalar). Otherwise the size is too small, C34_elements_refuted."
  },
  {
   "property": "C35",
   "status": "proved",
   "theorems": [
    "C35_workers",
    "C35_indices",
    "C35_auto_workers",
    "C35_group"
   ],
   "note": "Any number of workers below 2^64 minus the length of the stepped dimension."
  },
  {
   "property": "C36",
   "status": "proved",
   "theorems": [
    "C36_index_space_size"
   ],
   "note": "Number of states visited by for_each, modulo 2^64. C36_tuple_refuted: for a tuple with dimensions inside its components the query does not compile although the traversal does."
  },
  {
   "property": "C37",
   "status": "proved",
   "theorems": [
    "C37_stride",
    "C37_offset",
    "C37_uniform",
    "C37_step_refuted",
    "C37_merge_refuted",
    "C37_zcurve_refuted",
    "C37_stride_available",
    "C37_offset_available",
    "C37_stride_available_refuted"
   ],
   "note": "For every structure and every dimension that is not merged from several ones, offset_along and stride_along reproduce the differences of offsets (mod 2^64). Refuted: stride_along below a step in another dimension is multiplied by that step; is_uniform_along answers true for merged and Z-curve dimensions along which the offset is not affine."
  },
  {
   "property": "C38",
   "status": "proved",
   "theorems": [
    "C38_contiguous",
    "C38_fix_refuted",
    "C38_slice_refuted",
    "C38_shift_refuted",
    "C38_padding_refuted"
   ],
   "note": "When is_contiguous answers true, the bytes of all elements a traverser visits form one interval, provided elements are left out only along the outermost stored dimension that has several indices and tuples have no padding. The refuted theorems show wrong answers without that: fixed, sliced or shifted inner dimension, padded tuple."
  },
  {
   "property": "C39",
   "status": "proved",
   "theorems": [
    "C39_lower_bound_at",
    "C39_lower_bound_along",
    "C39_lower_bound_at_defined",
    "C39_reverse_twice_refuted",
    "C39_shift_refuted",
    "C39_blocks_refuted",
    "C39_merge_refuted",
    "C39_block_offset_refuted",
    "C39_along_reverse_twice_refuted",
    "C39_along_static_blocks_refuted",
    "C39_along_merge_refuted",
    "C39_along_two_lengths_refuted",
    "C39_available",
    "C39_available_refuted"
   ],
   "note": "lower_bound_at and lower_bound_along: proved for every structure and interval, and for every dimension (tuple indices and block indices included) except the cases that are refuted: a dimension reversed twice, a shifted reversed dimension (lower_bound_at without interval; lower_bound_along when a second length is set above the shift), the index of a block of a reversed dimension without interval, block indices of a part that does not begin at 0 (lower_bound_along), an interval for the index that chooses between the whole blocks and the rest (lower_bound_along), merged dimensions. steady (the dimension reaches one vector in every component) is assumed."
  },
  {
   "property": "C40",
   "status": "proved",
   "theorems": [
    "C40_components"
   ],
   "note": "Components are disjoint, in order and inside the tuple. C40_alignment_refuted: the offset of a component is not rounded up to its alignment although the size of the tuple counts the padding."
  },
  {
   "property": "C41",
   "status": "proved",
   "theorems": [
    "C41_composes",
    "C41_exact",
    "C41_state_at"
   ],
   "note": ""
  },
  {
   "property": "C42",
   "status": "proved",
   "theorems": [
    "C42_private",
    "C42_shared",
    "C42_alias_refuted"
   ],
   "note": "Needs distinct places of the output elements; C42_alias_refuted shows that a broadcast output is joined too often."
  },
  {
   "property": "C43",
   "status": "proved",
   "theorems": [
    "C43_vectors_like"
   ],
   "note": "Same dimensions in the same order, same lengths."
  },
  {
   "property": "C44",
   "status": "proved",
   "theorems": [
    "C44_value",
    "C44_value_injective",
    "C44_value_negative",
    "C44_literal_type",
    "C44_runtime",
    "C44_runtime_defined",
    "C44_runtime_literal",
    "C44_negative_refuted"
   ],
   "note": "The text of a non-negative compile-time integer is its decimal numeral, so it determines the integer; for negative values the last digit is lost (C44_negative_refuted: two different integers have the same text)."
  },
  {
   "property": "C45",
   "status": "proved",
   "theorems": [
    "C45_race_free",
    "C45_race_free_kept",
    "C45_swapped_refuted",
    "C45_merged_refuted",
    "C45_repeated_refuted"
   ],
   "note": "C45_race_free: orders where the index of the output dimension determines the outermost index (shifts, slices, steps, reversals, blocks under a reused name, renaming there and back), used as documented, and outputs without repeated elements. C45_race_free_kept: orders that leave that dimension alone, with no assumption about the other dimensions. The library shares the output in more cases, and the claim is false there: the refuted theorems show races for an order that swaps names, an order that merges dimensions under a reused name, and an output with a broadcast outermost dimension."
  },
  {
   "property": "C46",
   "status": "proved",
   "theorems": [
    "C46_launch",
    "C46_bool",
    "C46_truncated_refuted"
   ],
   "note": "For lengths below 2^32; C46_truncated_refuted shows that longer dimensions are truncated and elements are left out."
  },
  {
   "property": "C47",
   "status": "proved",
   "theorems": [
    "C47_elements",
    "C47_for_each",
    "C47_rows",
    "C47_regrouped",
    "C47_in_turn",
    "C47_ends",
    "C47_shared_refuted"
   ],
   "note": "C47_elements and C47_for_each: calls with one element each. C47_rows and C47_regrouped: pieces of a range, under the conditions of C45. C47_shared_refuted shows the lost update when the library says that the output must not be shared."
  },
  {
   "property": "C48",
   "status": "proved",
   "theorems": [
    "C48_inner",
    "C48_sections",
    "C48_part",
    "C48_iterators",
    "C48_ranges",
    "C48_begin_end",
    "C48_order"
   ],
   "note": "For orders covered by C31 and inner planners that compile. planner_std_execute uses member functions that do not exist; the statement about the inner planners is the same."
  },
  {
   "property": "C49",
   "status": "proved",
   "theorems": [
    "C49_moves",
    "C49_accepted",
    "C49_back",
    "C49_inside",
    "C49_margins",
    "C49_memory",
    "C49_blocks_refuted"
   ],
   "note": "Hypotheses: the lengths in the spanned dimensions do not depend on other indices (fixed_lengths; refuted without it by C49_blocks_refuted), the visited states name a complete element (complete), documented preconditions of the views in the order."
  },
  {
   "property": "C50",
   "status": "proved",
   "theorems": [
    "C50_fix_state",
    "C50_fix_dims",
    "C50_set_length_state",
    "C50_set_length_dims",
    "C50_lengths_like",
    "C50_get_indices",
    "C50_get_lengths",
    "C50_filter_indices",
    "C50_filter_lengths",
    "C50_update_index",
    "C50_zeros",
    "C50_zeros_first",
    "C50_lengths_like_accepted"
   ],
   "note": "works_as and length_as (SpecViews.v) compare all queries of the two structures."
  },
  {
   "property": "C51",
   "status": "proved",
   "theorems": [
    "C51_type_reads",
    "C51_type_identifies",
    "C51_type_same",
    "C51_type_defined",
    "C51_expr_reads",
    "C51_expr_identifies",
    "C51_expr_defined",
    "C51_expr_behaves",
    "C51_bool_refuted"
   ],
   "note": "Element types that the library names alike (bool and unsigned char, long and long long) are excluded by the hypothesis told_apart; C51_bool_refuted shows that it is needed. The text is read by the small grammar is_type and is_expr, not by a C++ compiler."
  },
  {
   "property": "C52",
   "status": "proved",
   "theorems": [
    "C52_bcast",
    "C52_into_blocks",
    "C52_into_blocks_dynamic",
    "C52_into_blocks_dynamic_lengths",
    "C52_into_blocks_lengths",
    "C52_merge_blocks",
    "C52_merge_blocks_length",
    "C52_strip_mine",
    "C52_strip_mine_dynamic",
    "C52_strip_mine_dynamic_traversal",
    "C52_strip_mine_traversal",
    "C52_array",
    "C52_array_size",
    "C52_array_offset",
    "C52_vectors_offset",
    "C52_vectors_size",
    "C52_length_like",
    "C52_vectors_like_accepted",
    "C52_vectors_like"
   ],
   "note": "The traversal theorems assume that every state passed to the function has all the indices of the traversed structures (as C12)."
  },
  {
   "property": "C53",
   "status": "proved",
   "theorems": [
    "C53_get",
    "C53_object",
    "C53_parts",
    "C53_copy",
    "C53_structure_bytes",
    "C53_structure_size",
    "C53_size",
    "C53_cat",
    "C53_static_free_refuted"
   ],
   "note": "Layouts follow the Itanium ABI. That constants take no space is refuted when two members have the same empty type (C53_static_free_refuted); C53_size bounds the extra space."
  },
  {
   "property": "C54",
   "status": "proved",
   "theorems": [
    "C54_view",
    "C54_size",
    "C54_defined",
    "C54_write",
    "C54_same_memory",
    "C54_get_ref",
    "C54_get_ref_view",
    "C54_vector_view",
    "C54_set_length_refuted",
    "C54_owned_refuted"
   ],
   "note": "The size of the original bag must be known without a state (enough_data); otherwise C54_set_length_refuted. Views of std::unique_ptr bags do not compile, even of rvalues, C54_owned_refuted."
  },
  {
   "property": "C55",
   "status": "proved",
   "theorems": [
    "C55_point",
    "C55_point_trav",
    "C55_point_cube",
    "C55_cube",
    "C55_cube_needs",
    "C55_not_cube",
    "C55_has_dims",
    "C55_sequence",
    "C55_cube_sequence",
    "C55_fix_dims",
    "C55_fix_point",
    "C55_point_not_cube_refuted"
   ],
   "note": "A point without a known length is not a cube (finding C55_point_not_cube_refuted), so the statements about cubes ask for a known size. HasDims is stated for structures without repeated dimensions and without empty tuples."
  },
  {
   "property": "C56",
   "status": "proved",
   "theorems": [
    "C56_promised_length",
    "C56_join",
    "C56_span_refuted",
    "C56_step_refuted",
    "C56_set_length_refuted",
    "C56_join_refuted"
   ],
   "note": "For all structures of the covered class (uswf) without the constructs that `trusted` leaves out; each of these is refuted."
  },
  {
   "property": "C57",
   "status": "proved",
   "theorems": [
    "C57_multiple",
    "C57_size",
    "C57_aligned",
    "C57_uniform",
    "C57_striped",
    "C57_pairs_refuted",
    "C57_striped_refuted"
   ],
   "note": "Structures of real C++ types (alignments are powers of two); the start of the allocation is assumed to be aligned. The two refuted theorems show which structures are not aligned."
  },
  {
   "property": "C58",
   "status": "proved",
   "theorems": [
    "C58_one_value",
    "C58_each_once",
    "C58_defined",
    "C58_calls",
    "C58_result",
    "C58_reduction",
    "C58_any_schedule",
    "C58_pointwise",
    "C58_matmul",
    "C58_order_matters_refuted",
    "C58_broadcast_refuted"
   ],
   "note": "The function updates one output bag, once per call, and the bags do not share memory. Structures with tuple dimensions are left out. The result holds for every order that only rearranges the loops; C58_calls also covers orders that select."
  },
  {
   "property": "C59",
   "status": "proved",
   "theorems": [
    "C59_nested",
    "C59_store",
    "C59_all_stored",
    "C59_defined",
    "C59_matmul",
    "C59_lost_refuted"
   ],
   "note": "As in C58: one output bag, bags that do not share memory, no tuple dimensions. Sections run one after another in any order; C45 and C47 treat interleavings."
  },
  {
   "property": "C60",
   "status": "proved",
   "theorems": [
    "C60_calls",
    "C60_inner_calls",
    "C60_stencil",
    "C60_accumulate",
    "C60_convolution",
    "C60_margins_refuted"
   ],
   "note": "The bags do not share memory, and the output has no broadcast dimension. C60_margins_refuted shows what happens without margins."
  },
  {
   "property": "C61",
   "status": "proved",
   "theorems": [
    "C61_reduce",
    "C61_defined",
    "C61_loop",
    "C61_same_as_sequential",
    "C61_along",
    "C61_uint",
    "C61_sums",
    "C61_histogram",
    "C61_histogram_defined",
    "C61_range_refuted",
    "C61_shared_refuted"
   ],
   "note": "Each call is atomic; interleavings inside calls are C45 and C47 (and C61_shared_refuted shows what they can do to an output that is not indexed by the state)."
  },
  {
   "property": "C62",
   "status": "proved",
   "theorems": [
    "C62_multiply",
    "C62_copy",
    "C62_transpose",
    "C62_scale",
    "C62_to_classic",
    "C62_from_classic",
    "C62_round_trip",
    "C62_demo",
    "C62_layouts",
    "C62_main",
    "C62_negative_refuted"
   ],
   "note": "All layouts with the two dimensions, all sizes and contents. Elements are int (four bytes); overflow of int is undefined behaviour and excluded by a hypothesis; a failing assert counts as undefined behaviour. C62_negative_refuted is a finding about the command line of the example."
  },
  {
   "property": "C63",
   "status": "proved",
   "theorems": [
    "C63_same",
    "C63_parallel",
    "C63_reduction",
    "C63_pointwise",
    "C63_matmul",
    "C63_blocks_dynamic_refuted"
   ],
   "note": "planner accepted and traversal accepted; order of views that hand the indices on (no bcast, join or into_blocks_dynamic); the calls of a parallel run are taken as atomic"
  },
  {
   "property": "C64",
   "status": "proved",
   "theorems": [
    "C64_result",
    "C64_sum",
    "C64_private",
    "C64_few_threads_refuted"
   ],
   "note": "the updates are atomic and the phases are separated by barriers; with fewer threads than stripes the result is wrong (C64_few_threads_refuted)"
  },
  {
   "property": "C65",
   "status": "proved",
   "theorems": [
    "C65_loop",
    "C65_result",
    "C65_pieces",
    "C65_iterations",
    "C65_planners",
    "C65_sections",
    "C65_sections_same",
    "C65_alone",
    "C65_lost_refuted"
   ],
   "note": "parts that update the same element can lose updates (C65_lost_refuted); the inputs do not change during the loop"
  },
  {
   "property": "C66",
   "status": "proved",
   "theorems": [
    "C66_order",
    "C66_refines",
    "C66_defined",
    "C66_layouts",
    "C66_access",
    "C66_done"
   ],
   "note": "A program either is not accepted by the compiler or does with bags what it does with arrays; it is accepted if one access to each bag is and the traversals are. The function passed to for_each is given the indices of the calls; the layouts have no tuple dimensions."
  },
  {
   "property": "C67",
   "status": "proved",
   "theorems": [
    "C67_length",
    "C67_size",
    "C67_access",
    "C67_together",
    "C67_each",
    "C67_sections",
    "C67_text",
    "C67_programs",
    "C67_answers_refuted"
   ],
   "note": "For structures without tuples, joins, static or bounds-checked blocks. C67_answers_refuted shows that the stated condition on the lengths cannot be replaced by the answers of has_length and has_size."
  },
  {
   "property": "C68",
   "status": "proved",
   "theorems": [
    "C68_loops",
    "C68_each",
    "C68_rejected",
    "C68_passes",
    "C68_bags",
    "C68_lengths"
   ],
   "note": "C68_each leaves open that the traversal of the bare structure is rejected because a view needs lengths to compute an index; C68_rejected shows that then no access compiles either, C68_passes excludes it for views that need none."
  },
  {
   "property": "C69",
   "status": "proved",
   "theorems": [
    "C69_copy",
    "C69_keeps",
    "C69_back",
    "C69_defined",
    "C69_accepted",
    "C69_broadcast_refuted"
   ],
   "note": "copying from a renamed view, as in the documentation, is the example; destinations that share elements are excluded, with a counterexample"
  },
  {
   "property": "C70",
   "status": "proved",
   "theorems": [
    "C70_commute",
    "C70_reverse",
    "C70_reverses",
    "C70_reverses_refuted",
    "C70_vector",
    "C70_tuple"
   ],
   "note": "views of different dimensions can be exchanged and moved below vectors and tuples; two reversed dimensions only if their lengths do not depend on each other"
  },
  {
   "property": "C71",
   "status": "proved",
   "theorems": [
    "C71_change",
    "C71_commute",
    "C71_separate"
   ],
   "note": "into_blocks, into_blocks_dynamic, into_blocks_static, merge_blocks, merge_zcurve and join about separate dimensions can be exchanged"
  },
  {
   "property": "C72",
   "status": "proved",
   "theorems": [
    "C72_block",
    "C72_block_length",
    "C72_block_dynamic",
    "C72_stride",
    "C72_stride_length"
   ],
   "note": ""
  },
  {
   "property": "C73",
   "status": "proved",
   "theorems": [
    "C73_span_slice",
    "C73_shift_slice",
    "C73_slice_all",
    "C73_step_all",
    "C73_step_moved",
    "C73_step_step",
    "C73_step_step_length"
   ],
   "note": ""
  },
  {
   "property": "C74",
   "status": "proved",
   "theorems": [
    "C74_moved",
    "C74_step",
    "C74_reverse",
    "C74_rename",
    "C74_join",
    "C74_merge",
    "C74_blocks",
    "C74_static",
    "C74_dynamic",
    "C74_zcurve",
    "C74_moved_length",
    "C74_step_length",
    "C74_join_length",
    "C74_merge_length",
    "C74_rename_length",
    "C74_blocks_length",
    "C74_reverse_length_refuted"
   ],
   "note": "For reverse, merge, merge_zcurve and static blocks the lengths below must be available; for join both dimensions have lengths or neither has. Lengths of other dimensions are compared for states without an index in them; for reversed tuple dimensions they can differ (C74_reverse_length_refuted)."
  }
 ]
}
