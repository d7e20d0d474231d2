{
 "claims": [
  {
   "property": "C01",
   "status": "proved",
   "theorems": [
    "C01_many_exact"
   ],
   "note": ""
  },
  {
   "property": "C02",
   "status": "proved",
   "theorems": [
    "C02_unit_exact",
    "C02_unique_exact",
    "C02_empty_exact"
   ],
   "note": ""
  },
  {
   "property": "C03",
   "status": "proved",
   "theorems": [
    "C03_trees_well_formed"
   ],
   "note": ""
  },
  {
   "property": "C04",
   "status": "proved",
   "theorems": [
    "C04_len_is_empty"
   ],
   "note": ""
  },
  {
   "property": "C05",
   "status": "proved",
   "theorems": [
    "C05_occurrences_exact"
   ],
   "note": ""
  },
  {
   "property": "C06",
   "status": "proved",
   "theorems": [
    "C06_equality_extensional"
   ],
   "note": ""
  },
  {
   "property": "C07",
   "status": "proved",
   "theorems": [
    "C07_subset_exact"
   ],
   "note": ""
  },
  {
   "property": "C08",
   "status": "proved",
   "theorems": [
    "C08_subset_not_exact"
   ],
   "note": ""
  },
  {
   "property": "C09",
   "status": "proved",
   "theorems": [
    "C09_subset_all_exact"
   ],
   "note": ""
  },
  {
   "property": "C10",
   "status": "partial",
   "theorems": [
    "C10_subset_none_refuted",
    "C10_subset_none_partial",
    "C10_subset_none_exact_partial"
   ],
   "note": "False of the code as stated (C10_subset_none_refuted: many([[1],[3],[2,3]]).subset_none([1,2]) keeps {2,3}, because Node::intersect is not set intersection; also one unknown element disables the filter). Partial: total, sound w.r.t. the forest, complete, and exact under the stated conditions. C10_subset_none_exact_partial says exactly which trees are kept for every forest and every list of elements."
  },
  {
   "property": "C11",
   "status": "partial",
   "theorems": [
    "C11_union_refuted",
    "C11_union_partial",
    "C11_order_kept_partial",
    "C11_union_disjoint_partial",
    "C11_union_exact_partial",
    "C11_union_determined_partial",
    "C11_resorted_total_partial",
    "C11_union_bounds_partial"
   ],
   "note": "False of the code as stated (C11_union_refuted: root translation through Node::branch corrupts diagrams when merged counts reorder items). Partial: total always; exact when both sides are settled (an inductive condition on the two families only); C11_union_exact_partial: for any two forests the result is the union of what is left of each side after re-ordering, and a side is left intact if and only if it is settled; what is left is determined by the two families (resorted in Spec: C11_resorted_total_partial, one result for every pair of forests; C11_union_determined_partial); C11_order_kept_partial: in particular intact when items of one tree keep their order or occur in the same trees, so for item-disjoint forests, equal counts, one tree; C11_union_bounds_partial bounds size, emptiness and items."
  },
  {
   "property": "C12",
   "status": "partial",
   "theorems": [
    "C12_intersect_refuted",
    "C12_intersect_partial",
    "C12_intersect_exact_partial",
    "C12_intersect_determined_partial"
   ],
   "note": "False of the code as stated (C12_intersect_refuted: {{1}} ∩ {{1,2}} = {{1,2}}). Partial: total always; under harmless translation a superset of the intersection with characterised extras, exact if no tree is a proper subset of a tree of the other side. C12_intersect_exact_partial says exactly which trees are returned, given the re-ordered sides. C12_intersect_determined_partial: the re-ordered sides are what resorted (Spec) says, so the result is determined by the two families."
  },
  {
   "property": "C13",
   "status": "partial",
   "theorems": [
    "C13_product_refuted",
    "C13_product_partial",
    "C13_product_disjoint_partial",
    "C13_product_exact_partial",
    "C13_product_determined_partial"
   ],
   "note": "False of the code as stated (C13_product_refuted: unique([1,2]) × itself misses {1,2}). Partial: total; sound under harmless translation; exact if item-disjoint or one side has at most one tree. C13_product_exact_partial says exactly which unions are returned, given the re-ordered sides. C13_product_determined_partial: the re-ordered sides are what resorted (Spec) says, so the result is determined by the two families."
  },
  {
   "property": "C14",
   "status": "proved",
   "theorems": [
    "C14_laws"
   ],
   "note": ""
  },
  {
   "property": "C15",
   "status": "proved",
   "theorems": [
    "C15_total"
   ],
   "note": ""
  },
  {
   "property": "C16",
   "status": "proved",
   "theorems": [
    "C16_hash_order_matrix",
    "C16_hash_order_zdd2"
   ],
   "note": ""
  },
  {
   "property": "C17",
   "status": "proved",
   "theorems": [
    "C17_occurrence_is_subset_len"
   ],
   "note": ""
  },
  {
   "property": "C18",
   "status": "proved",
   "theorems": [
    "C18_root_shape"
   ],
   "note": ""
  },
  {
   "property": "C19",
   "status": "proved",
   "theorems": [
    "C19_one_id_per_node",
    "C19_ids_are_stable",
    "C19_leaf_ids",
    "C19_ids_are_diagrams"
   ],
   "note": ""
  },
  {
   "property": "C20",
   "status": "proved",
   "theorems": [
    "C20_isolation",
    "C20_schedule_independent",
    "C20_progress",
    "C20_bounded_recursion",
    "C20_finite_steps"
   ],
   "note": ""
  },
  {
   "property": "C21",
   "status": "proved",
   "theorems": [
    "C21_node_round_trip",
    "C21_forest_root_round_trip"
   ],
   "note": ""
  },
  {
   "property": "C22",
   "status": "proved",
   "theorems": [
    "C22_forest_round_trip"
   ],
   "note": ""
  },
  {
   "property": "C23",
   "status": "proved",
   "theorems": [
    "C23_total",
    "C23_exact",
    "C23_normal"
   ],
   "note": ""
  },
  {
   "property": "C24",
   "status": "proved",
   "theorems": [
    "C24_many_exact",
    "C24_unit_unique_empty_exact"
   ],
   "note": ""
  },
  {
   "property": "C25",
   "status": "proved",
   "theorems": [
    "C25_union_exact",
    "C25_intersect_exact"
   ],
   "note": ""
  },
  {
   "property": "C26",
   "status": "proved",
   "theorems": [
    "C26_product_exact"
   ],
   "note": ""
  },
  {
   "property": "C27",
   "status": "proved",
   "theorems": [
    "C27_subsets_exact"
   ],
   "note": ""
  },
  {
   "property": "C28",
   "status": "proved",
   "theorems": [
    "C28_observers_exact"
   ],
   "note": ""
  },
  {
   "property": "C29",
   "status": "partial",
   "theorems": [
    "C29_equality_exact_partial",
    "C29_equality_refuted",
    "C29_equality_partial"
   ],
   "note": "False of the code as stated (C29_equality_refuted: many([[1],[1]]) and many([[1]]) hold the same tree but are different enum variants). Partial: equal forests hold the same trees; same trees imply == unless exactly one tree is held. C29_equality_exact_partial: for every two programs, == holds exactly if they stand for the same family and both or neither came to a single set in a roundabout way (`roundabout` in AgreeSpec, a syntactic condition with `family`)."
  },
  {
   "property": "C30",
   "status": "partial",
   "theorems": [
    "C30_matrix_exact",
    "C30_agreement_settled_partial",
    "C30_zdd2_exact_partial",
    "C30_tame_orderly_partial",
    "C30_agreement_refuted",
    "C30_empty_set_refuted",
    "C30_agreement_partial"
   ],
   "note": "False of the code as stated (C30_agreement_refuted: zdd2 intersect; C30_empty_set_refuted: {∅}). C30_matrix_exact: for every program the matrix forests hold exactly the family of sets the program stands for (`family` in AgreeSpec). Partial, zdd2: C30_zdd2_exact_partial: every program, right or wrong, runs to the end and holds exactly the one family that `held` (AgreeSpec, in terms of families only) says; C30_agreement_settled_partial: the non-empty members of that family, hence agreement, for every program whose binary operands are settled, with no proper subsets across an intersection, products item-disjoint or with a one-member side and without the empty set, and subset_none under C10's conditions; C30_agreement_partial is the special case of operands mentioning no common item (C30_tame_orderly_partial)."
  },
  {
   "property": "C31",
   "status": "proved",
   "theorems": [
    "C31_tree_constructors"
   ],
   "note": ""
  },
  {
   "property": "C32",
   "status": "partial",
   "theorems": [
    "C32_union_refuted",
    "C32_union_partial",
    "C32_union_exact_partial"
   ],
   "note": "False of the code as stated (C32_union_refuted: one(3).union(many([1,2])) is empty, in both copies of the code). Partial: exactly when the union is exact (unless one operand is One of an element and the other a Many that lacks it), and then the result is empty; exact for two one()s and whenever no tree has exactly one element that the other lacks."
  },
  {
   "property": "C33",
   "status": "proved",
   "theorems": [
    "C33_tree_intersect_exact"
   ],
   "note": ""
  },
  {
   "property": "C34",
   "status": "proved",
   "theorems": [
    "C34_tree_product_exact"
   ],
   "note": "One theorem for both copies: matrix::Tree::product and zdd2::Tree::product."
  },
  {
   "property": "C35",
   "status": "proved",
   "theorems": [
    "C35_constructors_exact"
   ],
   "note": ""
  },
  {
   "property": "C36",
   "status": "proved",
   "theorems": [
    "C36_combinations_exact"
   ],
   "note": ""
  },
  {
   "property": "C37",
   "status": "proved",
   "theorems": [
    "C37_union_exact"
   ],
   "note": ""
  },
  {
   "property": "C38",
   "status": "partial",
   "theorems": [
    "C38_intersect_refuted",
    "C38_intersect_partial",
    "C38_intersect_exact_partial"
   ],
   "note": "False of the code: {{1}}∩{{}} = {{1}} and {{1},{3}}∩{{2}} = {{1,2},{3}} (refuted). Proved: common combinations are kept, each result combination is covered by one of each operand and contains one of them whole, exact for equal or empty operands. C38_intersect_exact_partial says exactly which combinations are returned for all operands (duplicate-free combinations)."
  },
  {
   "property": "C39",
   "status": "partial",
   "theorems": [
    "C39_product_refuted",
    "C39_product_partial",
    "C39_product_exact_partial"
   ],
   "note": "False of the code for operands sharing items: {{1},{2}}×{{1}} lacks {1,2} (refuted). Proved: sound for all reachable trees, exact for item-disjoint operands. C39_product_exact_partial says exactly which unions are returned for all operands (duplicate-free combinations)."
  },
  {
   "property": "C40",
   "status": "proved",
   "theorems": [
    "C40_combinations_with_exact",
    "C40_restrict_exact"
   ],
   "note": ""
  },
  {
   "property": "C41",
   "status": "proved",
   "theorems": [
    "C41_summarize_exact",
    "C41_summarize_deterministic"
   ],
   "note": ""
  },
  {
   "property": "C42",
   "status": "proved",
   "theorems": [
    "C42_node_round_trip",
    "C42_exact"
   ],
   "note": ""
  },
  {
   "property": "C43",
   "status": "proved",
   "theorems": [
    "C43_and_or_eval"
   ],
   "note": ""
  },
  {
   "property": "C44",
   "status": "partial",
   "theorems": [
    "C44_not_xor_refuted",
    "C44_not_partial",
    "C44_xor_partial",
    "C44_exact_partial"
   ],
   "note": "False of the code as stated (C44_not_xor_refuted: Not swaps only the top children, so !(x&y) and true^(x&y) are wrong). Partial: Not is correct exactly on leaves and branches with complementary children; xor is correct whenever Not is on both operands. C44_exact_partial: on an ordered node Not computes the function with the top item read the wrong way round, applied twice it is the identity, and xor is the usual formula over that Not."
  },
  {
   "property": "C45",
   "status": "proved",
   "theorems": [
    "C45_reduce",
    "C45_restrict"
   ],
   "note": ""
  },
  {
   "property": "C46",
   "status": "proved",
   "theorems": [
    "C46_canonical",
    "C46_ordered_reduced"
   ],
   "note": ""
  },
  {
   "property": "C47",
   "status": "proved",
   "theorems": [
    "C47_build_ok_iff_legal",
    "C47_errors_exact"
   ],
   "note": ""
  },
  {
   "property": "C48",
   "status": "proved",
   "theorems": [
    "C48_admits_valid_outfits",
    "C48_families"
   ],
   "note": ""
  },
  {
   "property": "C49",
   "status": "proved",
   "theorems": [
    "C49_outfit_count"
   ],
   "note": "u64 counters are modelled as unbounded naturals: exact as long as the count is below 2^64."
  },
  {
   "property": "C50",
   "status": "proved",
   "theorems": [
    "C50_counts",
    "C50_depth"
   ],
   "note": ""
  },
  {
   "property": "C51",
   "status": "proved",
   "theorems": [
    "C51_summary"
   ],
   "note": ""
  },
  {
   "property": "C52",
   "status": "partial",
   "theorems": [
    "C52_select_refuted",
    "C52_unknown",
    "C52_select_partial",
    "C52_no_outfit_partial"
   ],
   "note": "False of the code as stated for closets without any valid outfit (C52_select_refuted: their summary is empty, so select_item accepts a known item). Partial: UnknownItem and the narrowing of admitted outfits hold for every reachable closet; the ExcludedItem clause holds for every reachable closet that still admits an outfit. C52_no_outfit_partial: on a reachable closet that admits no outfit the summary is the selections only, ExcludedItem is never given and exactly the known items are accepted; so the outcome is settled for every reachable closet."
  },
  {
   "property": "C53",
   "status": "proved",
   "theorems": [
    "C53_order_irrelevant",
    "C53_idempotent",
    "C53_acceptance"
   ],
   "note": ""
  },
  {
   "property": "C54",
   "status": "proved",
   "theorems": [
    "C54_result_valid",
    "C54_returns"
   ],
   "note": ""
  },
  {
   "property": "C55",
   "status": "proved",
   "theorems": [
    "C55_unknown",
    "C55_multiple",
    "C55_incompatible"
   ],
   "note": ""
  },
  {
   "property": "C56",
   "status": "partial",
   "theorems": [
    "C56_earlier_selections_refuted",
    "C56_earlier_selections_partial"
   ],
   "note": "False of the code as stated (C56_earlier_selections_refuted: previously selected items are missing from the returned outfit). Partial: returned items together with the earlier selections form a valid outfit, and existence of a result is characterised. An earlier selection is in the outfit only if given again. Which outfit is returned: C80."
  },
  {
   "property": "C57",
   "status": "proved",
   "theorems": [
    "C57_round_trip"
   ],
   "note": ""
  },
  {
   "property": "C58",
   "status": "proved",
   "theorems": [
    "C58_categorize"
   ],
   "note": ""
  },
  {
   "property": "C59",
   "status": "proved",
   "theorems": [
    "C59_zdd_one_id_per_node",
    "C59_zdd_ids_are_stable",
    "C59_zdd_ids_are_diagrams",
    "C59_zdd_isolation",
    "C59_zdd_schedule_independent",
    "C59_zdd_progress",
    "C59_bowtie_one_id_per_node",
    "C59_bowtie_ids_are_stable",
    "C59_bowtie_ids_are_diagrams",
    "C59_bowtie_isolation",
    "C59_bowtie_schedule_independent",
    "C59_bowtie_progress"
   ],
   "note": "Every public operation of weave/src/zdd (ZddProg.v) and of bowtie's nodes, closets and builder (BddProg.v) is written as a program of atomic arena accesses; any interleaving of any number of client scripts is covered. A panic outside the arena (expect/unwrap) is a shown result, not the end of the thread."
  },
  {
   "property": "C60",
   "status": "partial",
   "theorems": [
    "C60_node_round_trip_refuted",
    "C60_node_round_trip_partial",
    "C60_exact_partial"
   ],
   "note": "False of the code as stated (C60_node_round_trip_refuted: Content keys items by depth, so two items at one depth collide). Partial: exact for nodes with one item per depth, which closet roots always are (C57). C60_exact_partial: exactly these survive; in general the shape comes back with every branch carrying the item of the last branch of its depth."
  },
  {
   "property": "C61",
   "status": "proved",
   "theorems": [
    "C61_traverse_exact",
    "C61_mirrors"
   ],
   "note": ""
  },
  {
   "property": "C62",
   "status": "proved",
   "theorems": [
    "C62_laws"
   ],
   "note": ""
  },
  {
   "property": "C63",
   "status": "proved",
   "theorems": [
    "C63_equality",
    "C63_histories",
    "C63_any",
    "C63_canonical",
    "C63_duplicates_break_equality"
   ],
   "note": ""
  },
  {
   "property": "C64",
   "status": "partial",
   "theorems": [
    "C64_family_refuted",
    "C64_family_partial",
    "C64_repeats_partial",
    "C64_exact_partial"
   ],
   "note": "False of the code as stated (C64_family_refuted: \"(1 (N) (0 (A) (A)))\" spells {{1},{0,1}} but parses to {{0},{0,1}}, because Node::branch with an out-of-order label is not the diagram spelled). Partial: exact for every text whose labels increase downwards, reduced or not, with any layout. C64_exact_partial: for every text, in any label order, the parser answers and the resulting family is the one parsed_as (ParserSpec) describes, which the text determines."
  },
  {
   "property": "C65",
   "status": "proved",
   "theorems": [
    "C65_tree_round_trip"
   ],
   "note": ""
  },
  {
   "property": "C66",
   "status": "partial",
   "theorems": [
    "C66_untrusted_refuted",
    "C66_untrusted_partial",
    "C66_exact_partial",
    "C66_filters_partial"
   ],
   "note": "False of the code as stated (C66_untrusted_refuted: text \"(5 (N) (A))\" with an empty map is accepted and the next union panics). Partial: listing, union, intersect and product succeed when every label indexes an entry of the map. C66_exact_partial: union, intersect and product succeed exactly if every label of both operands indexes an entry of the map, {:?} exactly if every label of its own does. C66_filters_partial: listing, len and the filters never panic; subset, subset_not and subset_all are exact on what is listed (empty tree aside) and subset_none keeps only listed trees. What they give is C98."
  },
  {
   "property": "C67",
   "status": "proved",
   "theorems": [
    "C67_debug_total"
   ],
   "note": ""
  },
  {
   "property": "C68",
   "status": "proved",
   "theorems": [
    "C68_shape_decides_hash",
    "C68_hash_decides_shape"
   ],
   "note": ""
  },
  {
   "property": "C69",
   "status": "partial",
   "theorems": [
    "C69_split_refuted",
    "C69_split_partial"
   ],
   "note": "False of the code as stated (C69_split_refuted: many([[1,3],[1],[3]]) split by 3, because the added counts re-order the items of the part with 3). Partial: the parts always partition the trees; the recombined forest has at most as many trees and only items of the original, and is the original exactly if both parts are settled."
  },
  {
   "property": "C70",
   "status": "partial",
   "theorems": [
    "C70_assoc_refuted",
    "C70_product_assoc_refuted",
    "C70_disjoint_partial",
    "C70_settled_partial",
    "C70_union_exact_partial",
    "C70_product_exact_partial"
   ],
   "note": "False of the code as stated (C70_assoc_refuted, C70_product_assoc_refuted: concrete triples). Exactly when the two bracketings agree is proved for every three forests, union and product (C70_union_exact_partial, C70_product_exact_partial); in particular for pairwise item-disjoint forests, and for union whenever each union made is settled on both sides."
  },
  {
   "property": "C71",
   "status": "proved",
   "theorems": [
    "C71_filters_compose"
   ],
   "note": ""
  },
  {
   "property": "C72",
   "status": "proved",
   "theorems": [
    "C72_counting"
   ],
   "note": ""
  },
  {
   "property": "C73",
   "status": "proved",
   "theorems": [
    "C73_union_intersect_laws",
    "C73_product_laws",
    "C73_filter_laws",
    "C73_counting"
   ],
   "note": ""
  },
  {
   "property": "C74",
   "status": "proved",
   "theorems": [
    "C74_history_irrelevant"
   ],
   "note": ""
  },
  {
   "property": "C75",
   "status": "proved",
   "theorems": [
    "C75_family_sum"
   ],
   "note": ""
  },
  {
   "property": "C76",
   "status": "proved",
   "theorems": [
    "C76_rules_monotone",
    "C76_independent",
    "C76_rule_free"
   ],
   "note": ""
  },
  {
   "property": "C77",
   "status": "proved",
   "theorems": [
    "C77_counters64",
    "C77_outfits64"
   ],
   "note": ""
  },
  {
   "property": "C78",
   "status": "proved",
   "theorems": [
    "C78_nodes",
    "C78_zdd_trees",
    "C78_bowtie_nodes",
    "C78_forests"
   ],
   "note": ""
  },
  {
   "property": "C79",
   "status": "proved",
   "theorems": [
    "C79_page",
    "C79_page_determines",
    "C79_entries_distinct"
   ],
   "note": ""
  },
  {
   "property": "C80",
   "status": "proved",
   "theorems": [
    "C80_first_outfit",
    "C80_selections_only"
   ],
   "note": ""
  },
  {
   "property": "C81",
   "status": "proved",
   "theorems": [
    "C81_zdd2_store_contents",
    "C81_zdd2_store_canonical",
    "C81_zdd2_rerun_adds_nothing",
    "C81_zdd_store_contents",
    "C81_zdd_store_canonical",
    "C81_zdd_rerun_adds_nothing",
    "C81_bowtie_store_contents",
    "C81_bowtie_store_canonical",
    "C81_bowtie_rerun_adds_nothing",
    "C81_zdd2_reading_adds_nothing",
    "C81_zdd_reading_adds_nothing",
    "C81_bowtie_reading_adds_nothing"
   ],
   "note": ""
  },
  {
   "property": "C82",
   "status": "proved",
   "theorems": [
    "C82_dag_size_counts",
    "C82_zdd_growth",
    "C82_zdd_store_bound",
    "C82_bowtie_growth",
    "C82_bowtie_store_bound",
    "C82_select_no_larger",
    "C82_outfit_cost",
    "C82_and_or_size"
   ],
   "note": "The store of zdd2 is bounded by C94."
  },
  {
   "property": "C83",
   "status": "proved",
   "theorems": [
    "C83_isolation",
    "C83_when_panics",
    "C83_schedule_independent",
    "C83_progress",
    "C83_ids",
    "C83_reload_same_handle",
    "C83_written_data_is_safe"
   ],
   "note": ""
  },
  {
   "property": "C84",
   "status": "proved",
   "theorems": [
    "C84_union",
    "C84_product",
    "C84_filters",
    "C84_intersect",
    "C84_observers",
    "C84_results",
    "C84_tree_data",
    "C84_trees"
   ],
   "note": ""
  },
  {
   "property": "C85",
   "status": "proved",
   "theorems": [
    "C85_load",
    "C85_traverse",
    "C85_safe_results",
    "C85_constructors",
    "C85_mixed",
    "C85_ordered"
   ],
   "note": ""
  },
  {
   "property": "C86",
   "status": "proved",
   "theorems": [
    "C86_load",
    "C86_new",
    "C86_select",
    "C86_select_order",
    "C86_complete_errors",
    "C86_complete_meaning",
    "C86_conditions",
    "C86_unreduced"
   ],
   "note": ""
  },
  {
   "property": "C87",
   "status": "proved",
   "theorems": [
    "C87_atomic",
    "C87_complete",
    "C87_exclusion",
    "C87_no_torn_reads",
    "C87_ids",
    "C87_progress",
    "C87_short_guards",
    "C87_zdd_isolation",
    "C87_bowtie_isolation",
    "C87_zdd2_isolation"
   ],
   "note": ""
  },
  {
   "property": "C88",
   "status": "proved",
   "theorems": [
    "C88_panics",
    "C88_fits",
    "C88_built",
    "C88_union_exact",
    "C88_intersect_exact",
    "C88_product_exact",
    "C88_determined",
    "C88_commutes",
    "C88_self",
    "C88_subset_none"
   ],
   "note": "Proved as stated. Finding: Universe::merge adds counts that come from untrusted data with an unchecked `+=`: loading is enough to make a later union panic (overflow checks on) or list trees neither operand has (off); C88_example shows both."
  },
  {
   "property": "C89",
   "status": "proved",
   "theorems": [
    "C89_zdd2",
    "C89_zdd2_equality",
    "C89_matrix",
    "C89_zdd",
    "C89_build",
    "C89_bowtie",
    "C89_reached"
   ],
   "note": "Every result of zdd2, matrix, zdd and bowtie commutes with order-preserving renamings, for all programs and hash orders; closets, errors and completed outfits included."
  },
  {
   "property": "C90",
   "status": "partial",
   "theorems": [
    "C90_matrix",
    "C90_zdd2_refuted",
    "C90_zdd2_partial",
    "C90_zdd2_tame_partial",
    "C90_zdd",
    "C90_reached",
    "C90_bowtie"
   ],
   "note": "False of the zdd2 forests as stated (C90_zdd2_refuted: swapping items 1 and 2 makes the union of {1},{1,2} and {2} lose a tree). Partial, zdd2: C90_zdd2_partial for programs that are orderly (C30) under both names, C90_zdd2_tame_partial for those whose binary operands share no items. For every program: C90_matrix, C90_zdd (same diagram), C90_reached and C90_bowtie (everything but listing order, diagram shape and which outfit is picked)."
  },
  {
   "property": "C91",
   "status": "proved",
   "theorems": [
    "C91_equality",
    "C91_histories"
   ],
   "note": "C91_equality for any closets; C91_histories in terms of the histories alone."
  },
  {
   "property": "C92",
   "status": "partial",
   "theorems": [
    "C92_equality_refuted",
    "C92_equality_partial",
    "C92_constructors",
    "C92_laws"
   ],
   "note": "False of the code as stated (C92_equality_refuted: many([1,1]) and one(1) hold the same element but are different enum variants). Partial: C92_equality_partial: == holds exactly if the elements are the same and, for a single element, both or neither are == to one of it; so it is extensional for all other trees. C92_constructors and C92_laws hold without restriction."
  },
  {
   "property": "C93",
   "status": "proved",
   "theorems": [
    "C93_text",
    "C93_text_identifies",
    "C93_forest",
    "C93_same_data",
    "C93_zdd",
    "C93_closet"
   ],
   "note": "The formats of serde itself (JSON, ...) are not modelled: the data is what the serializer is handed. C93_same_data needs labels below 2^64 (as the code, whose labels are usize)."
  },
  {
   "property": "C94",
   "status": "proved",
   "theorems": [
    "C94_store_bound",
    "C94_growth",
    "C94_costs"
   ],
   "note": "Upper bounds only: the counts are not claimed to be tight. What exactly is stored, and that repeated work adds nothing, is C81."
  },
  {
   "property": "C95",
   "status": "proved",
   "theorems": [
    "C95_accepts",
    "C95_contents",
    "C95_equal",
    "C95_stable",
    "C95_usable",
    "C95_genuine"
   ],
   "note": "The data is the pair (node text, entries of the occurrence map) of ParserModel; serde wire formats are outside the model. Which labels an unordered text comes out with is parsed_as (C64)."
  },
  {
   "property": "C96",
   "status": "proved",
   "theorems": [
    "C96_nodes",
    "C96_bowtie_nodes",
    "C96_zdd_trees",
    "C96_forests",
    "C96_same_text"
   ],
   "note": "The items' own {:?} texts are a parameter (show). C96_same_text assumes them single-line and distinct, as the derived Debug of strings and numbers is."
  },
  {
   "property": "C97",
   "status": "proved",
   "theorems": [
    "C97_parts",
    "C97_lookup",
    "C97_map",
    "C97_option_map",
    "C97_closet_parts",
    "C97_closet_lookup"
   ],
   "note": "option_map on a list is modelled as filter_map of the method, as a caller would use it."
  },
  {
   "property": "C98",
   "status": "proved",
   "theorems": [
    "C98_union",
    "C98_intersect",
    "C98_product",
    "C98_filters",
    "C98_subset_none",
    "C98_kept"
   ],
   "note": "When the operations return at all is C66_exact_partial/C95: exactly if every label has an entry. Same data model as C95."
  },
  {
   "property": "C99",
   "status": "proved",
   "theorems": [
    "C99_total_order",
    "C99_items_first",
    "C99_order_is_stable",
    "C99_id_round_trip",
    "C99_ids_by_age",
    "C99_saved_ids"
   ],
   "note": "A node is held if it is, or is the root of, a handle some thread has finished computing. The order of Item is a parameter (any total order)."
  },
  {
   "property": "C100",
   "status": "proved",
   "theorems": [
    "C100_node_order_exact",
    "C100_id_order_exact",
    "C100_numbers_across_processes"
   ],
   "note": "Both directions are proved: for the pairs left out the proof constructs executions that order them the other way."
  },
  {
   "property": "C101",
   "status": "proved",
   "theorems": [
    "C101_is_the_program",
    "C101_depth",
    "C101_items_only"
   ],
   "note": "Depth counts nested calls of the recursive functions of the source (branch, union, intersect, product, the subset functions, translate_root), which the model runs with decreasing fuel; helpers that do not recurse (conversions between Node and NodeId, iterators, std's sort) are not counted. The frame size in bytes is not modelled."
  },
  {
   "property": "C102",
   "status": "proved",
   "theorems": [
    "C102_is_the_program",
    "C102_depth",
    "C102_items",
    "C102_levels",
    "C102_widest"
   ],
   "note": "The bounds on the nesting are proved for all reachable stores, all trees including loaded ones, all texts and all interleavings (C102_depth); for trees over one universe from duplicate-free combinations the bound is items + 1 (C102_items, C102_levels). Rounds of while loops are counted apart and are finite."
  },
  {
   "property": "C103",
   "status": "proved",
   "theorems": [
    "C103_is_the_program",
    "C103_depth",
    "C103_items",
    "C103_levels"
   ],
   "note": "The bounds on the nesting are proved for all reachable stores, all closets and nodes including received ones, and all interleavings (C103_depth); for diagrams in item order the bound is items + 1 (C103_items), and built closets are such (C103_levels). Rounds of while loops (summarize, complete_outfit) are counted apart and are finite. Panics on received data (C60, C66) are results of the call, as in BddProg.v."
  },
  {
   "property": "C104",
   "status": "proved",
   "theorems": [
    "C104_zdd2",
    "C104_zdd",
    "C104_bowtie",
    "C104_returned",
    "C104_counts"
   ],
   "note": "For every list of calls and every starting values one bound on the accesses (ARENA.read() / ARENA.write() sections) holds in all reachable stores and under all interleavings (C104_zdd2, C104_zdd, C104_bowtie), after which the calls have returned (C104_returned). The bound is shown to exist, not computed. That std's RwLock grants every lock asked for is assumed. For zdd2 the starting forests are those the API builds (Forall Reach); panics on bad data (C60, C66) are results of the call, as in BddProg.v."
  },
  {
   "property": "C105",
   "status": "proved",
   "theorems": [
    "C105_zdd",
    "C105_zdd_items",
    "C105_forest",
    "C105_bowtie",
    "C105_bowtie_items",
    "C105_worst",
    "C105_every_path",
    "C105_paths_of_parity",
    "C105_every_path_zdd",
    "C105_every_path_traverse",
    "C105_paths_of_zparity",
    "C105_worst_zdd"
   ],
   "note": "Upper bounds for the calls that walk diagrams (C105_zdd, C105_bowtie by levels; C105_zdd_items, C105_bowtie_items by items) and a matching exponential lower bound for & and | (C105_worst) and for union, intersection and product of zdd trees (C105_worst_zdd). Calls with loops (hyper_tree, build, select, the zdd2 forest calls) have the bound of C104 only, which is not explicit."
  }
 ]
}