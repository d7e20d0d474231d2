{
 "C10": {
  "note": "False of the code as stated (C10_subset_none_refuted: many([[1],[3],[2,3]]).subset_none([1,2]) keeps {2,3}, because Node::intersect is not set intersection; also one unknown element disables the filter). Partial: total, sound w.r.t. the forest, complete, and exact under the stated conditions. C10_subset_none_exact_partial says exactly which trees are kept for every forest and every list of elements."
 },
 "C11": {
  "note": "False of the code as stated (C11_union_refuted: root translation through Node::branch corrupts diagrams when merged counts reorder items). Partial: total always; exact when both sides are settled (an inductive condition on the two families only); C11_union_exact_partial: for any two forests the result is the union of what is left of each side after re-ordering, and a side is left intact if and only if it is settled; what is left is determined by the two families (resorted in Spec: C11_resorted_total_partial, one result for every pair of forests; C11_union_determined_partial); C11_order_kept_partial: in particular intact when items of one tree keep their order or occur in the same trees, so for item-disjoint forests, equal counts, one tree; C11_union_bounds_partial bounds size, emptiness and items."
 },
 "C12": {
  "note": "False of the code as stated (C12_intersect_refuted: {{1}} ∩ {{1,2}} = {{1,2}}). Partial: total always; under harmless translation a superset of the intersection with characterised extras, exact if no tree is a proper subset of a tree of the other side. C12_intersect_exact_partial says exactly which trees are returned, given the re-ordered sides. C12_intersect_determined_partial: the re-ordered sides are what resorted (Spec) says, so the result is determined by the two families."
 },
 "C13": {
  "note": "False of the code as stated (C13_product_refuted: unique([1,2]) × itself misses {1,2}). Partial: total; sound under harmless translation; exact if item-disjoint or one side has at most one tree. C13_product_exact_partial says exactly which unions are returned, given the re-ordered sides. C13_product_determined_partial: the re-ordered sides are what resorted (Spec) says, so the result is determined by the two families."
 },
 "C16": {
  "note": ""
 },
 "C44": {
  "note": "False of the code as stated (C44_not_xor_refuted: Not swaps only the top children, so !(x&y) and true^(x&y) are wrong). Partial: Not is correct exactly on leaves and branches with complementary children; xor is correct whenever Not is on both operands. C44_exact_partial: on an ordered node Not computes the function with the top item read the wrong way round, applied twice it is the identity, and xor is the usual formula over that Not."
 },
 "C52": {
  "note": "False of the code as stated for closets without any valid outfit (C52_select_refuted: their summary is empty, so select_item accepts a known item). Partial: UnknownItem and the narrowing of admitted outfits hold for every reachable closet; the ExcludedItem clause holds for every reachable closet that still admits an outfit. C52_no_outfit_partial: on a reachable closet that admits no outfit the summary is the selections only, ExcludedItem is never given and exactly the known items are accepted; so the outcome is settled for every reachable closet."
 },
 "C56": {
  "note": "False of the code as stated (C56_earlier_selections_refuted: previously selected items are missing from the returned outfit). Partial: returned items together with the earlier selections form a valid outfit, and existence of a result is characterised. An earlier selection is in the outfit only if given again. Which outfit is returned: C80."
 },
 "C60": {
  "note": "False of the code as stated (C60_node_round_trip_refuted: Content keys items by depth, so two items at one depth collide). Partial: exact for nodes with one item per depth, which closet roots always are (C57). C60_exact_partial: exactly these survive; in general the shape comes back with every branch carrying the item of the last branch of its depth."
 },
 "C49": {
  "note": "u64 counters are modelled as unbounded naturals: exact as long as the count is below 2^64."
 },
 "C29": {
  "note": "False of the code as stated (C29_equality_refuted: many([[1],[1]]) and many([[1]]) hold the same tree but are different enum variants). Partial: equal forests hold the same trees; same trees imply == unless exactly one tree is held. C29_equality_exact_partial: for every two programs, == holds exactly if they stand for the same family and both or neither came to a single set in a roundabout way (`roundabout` in AgreeSpec, a syntactic condition with `family`)."
 },
 "C30": {
  "note": "False of the code as stated (C30_agreement_refuted: zdd2 intersect; C30_empty_set_refuted: {∅}). C30_matrix_exact: for every program the matrix forests hold exactly the family of sets the program stands for (`family` in AgreeSpec). Partial, zdd2: C30_zdd2_exact_partial: every program, right or wrong, runs to the end and holds exactly the one family that `held` (AgreeSpec, in terms of families only) says; C30_agreement_settled_partial: the non-empty members of that family, hence agreement, for every program whose binary operands are settled, with no proper subsets across an intersection, products item-disjoint or with a one-member side and without the empty set, and subset_none under C10's conditions; C30_agreement_partial is the special case of operands mentioning no common item (C30_tame_orderly_partial)."
 },
 "C32": {
  "note": "False of the code as stated (C32_union_refuted: one(3).union(many([1,2])) is empty, in both copies of the code). Partial: exactly when the union is exact (unless one operand is One of an element and the other a Many that lacks it), and then the result is empty; exact for two one()s and whenever no tree has exactly one element that the other lacks."
 },
 "C34": {
  "note": "One theorem for both copies: matrix::Tree::product and zdd2::Tree::product."
 },
 "C38": {
  "note": "False of the code: {{1}}∩{{}} = {{1}} and {{1},{3}}∩{{2}} = {{1,2},{3}} (refuted). Proved: common combinations are kept, each result combination is covered by one of each operand and contains one of them whole, exact for equal or empty operands. C38_intersect_exact_partial says exactly which combinations are returned for all operands (duplicate-free combinations)."
 },
 "C39": {
  "note": "False of the code for operands sharing items: {{1},{2}}×{{1}} lacks {1,2} (refuted). Proved: sound for all reachable trees, exact for item-disjoint operands. C39_product_exact_partial says exactly which unions are returned for all operands (duplicate-free combinations)."
 },
 "C64": {
  "note": "False of the code as stated (C64_family_refuted: \"(1 (N) (0 (A) (A)))\" spells {{1},{0,1}} but parses to {{0},{0,1}}, because Node::branch with an out-of-order label is not the diagram spelled). Partial: exact for every text whose labels increase downwards, reduced or not, with any layout. C64_exact_partial: for every text, in any label order, the parser answers and the resulting family is the one parsed_as (ParserSpec) describes, which the text determines."
 },
 "C66": {
  "note": "False of the code as stated (C66_untrusted_refuted: text \"(5 (N) (A))\" with an empty map is accepted and the next union panics). Partial: listing, union, intersect and product succeed when every label indexes an entry of the map. C66_exact_partial: union, intersect and product succeed exactly if every label of both operands indexes an entry of the map, {:?} exactly if every label of its own does. C66_filters_partial: listing, len and the filters never panic; subset, subset_not and subset_all are exact on what is listed (empty tree aside) and subset_none keeps only listed trees. What they give is C98."
 },
 "C59": {
  "note": "Every public operation of weave/src/zdd (ZddProg.v) and of bowtie's nodes, closets and builder (BddProg.v) is written as a program of atomic arena accesses; any interleaving of any number of client scripts is covered. A panic outside the arena (expect/unwrap) is a shown result, not the end of the thread."
 },
 "C69": {
  "note": "False of the code as stated (C69_split_refuted: many([[1,3],[1],[3]]) split by 3, because the added counts re-order the items of the part with 3). Partial: the parts always partition the trees; the recombined forest has at most as many trees and only items of the original, and is the original exactly if both parts are settled."
 },
 "C70": {
  "note": "False of the code as stated (C70_assoc_refuted, C70_product_assoc_refuted: concrete triples). Exactly when the two bracketings agree is proved for every three forests, union and product (C70_union_exact_partial, C70_product_exact_partial); in particular for pairwise item-disjoint forests, and for union whenever each union made is settled on both sides."
 },
 "C88": {
  "note": "Proved as stated. Finding: Universe::merge adds counts that come from untrusted data with an unchecked `+=`: loading is enough to make a later union panic (overflow checks on) or list trees neither operand has (off); C88_example shows both."
 },
 "C89": {
  "note": "Every result of zdd2, matrix, zdd and bowtie commutes with order-preserving renamings, for all programs and hash orders; closets, errors and completed outfits included."
 },
 "C90": {
  "note": "False of the zdd2 forests as stated (C90_zdd2_refuted: swapping items 1 and 2 makes the union of {1},{1,2} and {2} lose a tree). Partial, zdd2: C90_zdd2_partial for programs that are orderly (C30) under both names, C90_zdd2_tame_partial for those whose binary operands share no items. For every program: C90_matrix, C90_zdd (same diagram), C90_reached and C90_bowtie (everything but listing order, diagram shape and which outfit is picked)."
 },
 "C91": {
  "note": "C91_equality for any closets; C91_histories in terms of the histories alone."
 },
 "C92": {
  "note": "False of the code as stated (C92_equality_refuted: many([1,1]) and one(1) hold the same element but are different enum variants). Partial: C92_equality_partial: == holds exactly if the elements are the same and, for a single element, both or neither are == to one of it; so it is extensional for all other trees. C92_constructors and C92_laws hold without restriction."
 },
 "C93": {
  "note": "The formats of serde itself (JSON, ...) are not modelled: the data is what the serializer is handed. C93_same_data needs labels below 2^64 (as the code, whose labels are usize)."
 },
 "C94": {
  "note": "Upper bounds only: the counts are not claimed to be tight. What exactly is stored, and that repeated work adds nothing, is C81."
 },
 "C82": {
  "note": "The store of zdd2 is bounded by C94."
 },
 "C95": {
  "note": "The data is the pair (node text, entries of the occurrence map) of ParserModel; serde wire formats are outside the model. Which labels an unordered text comes out with is parsed_as (C64)."
 },
 "C96": {
  "note": "The items' own {:?} texts are a parameter (show). C96_same_text assumes them single-line and distinct, as the derived Debug of strings and numbers is."
 },
 "C97": {
  "note": "option_map on a list is modelled as filter_map of the method, as a caller would use it."
 },
 "C98": {
  "note": "When the operations return at all is C66_exact_partial/C95: exactly if every label has an entry. Same data model as C95."
 },
 "C99": {
  "note": "A node is held if it is, or is the root of, a handle some thread has finished computing. The order of Item is a parameter (any total order)."
 },
 "C100": {
  "note": "Both directions are proved: for the pairs left out the proof constructs executions that order them the other way."
 },
 "C101": {
  "note": "Depth counts nested calls of the recursive functions of the source (branch, union, intersect, product, the subset functions, translate_root), which the model runs with decreasing fuel; helpers that do not recurse (conversions between Node and NodeId, iterators, std's sort) are not counted. The frame size in bytes is not modelled."
 },
 "C102": {
  "note": "The bounds on the nesting are proved for all reachable stores, all trees including loaded ones, all texts and all interleavings (C102_depth); for trees over one universe from duplicate-free combinations the bound is items + 1 (C102_items, C102_levels). Rounds of while loops are counted apart and are finite."
 },
 "C103": {
  "note": "The bounds on the nesting are proved for all reachable stores, all closets and nodes including received ones, and all interleavings (C103_depth); for diagrams in item order the bound is items + 1 (C103_items), and built closets are such (C103_levels). Rounds of while loops (summarize, complete_outfit) are counted apart and are finite. Panics on received data (C60, C66) are results of the call, as in BddProg.v."
 },
 "C104": {
  "note": "For every list of calls and every starting values one bound on the accesses (ARENA.read() / ARENA.write() sections) holds in all reachable stores and under all interleavings (C104_zdd2, C104_zdd, C104_bowtie), after which the calls have returned (C104_returned). The bound is shown to exist, not computed. That std's RwLock grants every lock asked for is assumed. For zdd2 the starting forests are those the API builds (Forall Reach); panics on bad data (C60, C66) are results of the call, as in BddProg.v."
 },
 "C105": {
  "note": "Upper bounds for the calls that walk diagrams (C105_zdd, C105_bowtie by levels; C105_zdd_items, C105_bowtie_items by items) and a matching exponential lower bound for & and | (C105_worst) and for union, intersection and product of zdd trees (C105_worst_zdd). Calls with loops (hyper_tree, build, select, the zdd2 forest calls) have the bound of C104 only, which is not explicit."
 }
}