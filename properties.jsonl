{"id": "C01", "title": "zdd2 Forest::many holds exactly the given sets", "statement": "For any matrix of item rows, Forest::many(rows).trees() lists exactly the distinct non-empty item sets occurring as rows: every non-empty row appears once as a sorted duplicate-free vector, nothing else appears (empty rows are dropped).", "quantifier": "every item type with a total order, every finite list of finite rows, in any order, with repeats inside and between rows", "why_tests_cant": "The node order depends on occurrence counts and every insertion goes through the rewriting Node::branch; only an induction over all matrices rules out a lost or invented set.", "anchors": ["weave/src/zdd2/forest/mod.rs: Forest::many, trees", "weave/src/zdd2/forest/node/mod.rs: Node::branch, FromIterator<Priority>", "weave/src/zdd2/forest/node/union.rs: union", "weave/src/zdd2/forest/universe/mod.rs: from_matrix, get_priorities"]}
{"id": "C02", "title": "zdd2 Forest::unit and Forest::unique hold exactly the given set / singletons", "statement": "Forest::unit(items).trees() is the one sorted duplicate-free set of the items (and no tree at all if items is empty); Forest::unique(items).trees() is exactly the singletons of the distinct items; Forest::empty().trees() is empty.", "quantifier": "every slice of items, any order, any repeats", "why_tests_cant": "Duplicate handling relies on the 'same priority' clauses of Node::branch firing on every arrangement of repeated items.", "anchors": ["weave/src/zdd2/forest/mod.rs: empty, unit, unique", "weave/src/zdd2/forest/node/mod.rs: Node::branch", "weave/src/zdd2/forest/universe/mod.rs: from_items"]}
{"id": "C03", "title": "zdd2 tree listings are well formed", "statement": "For every forest obtainable through the public API (constructors and any nesting of operations), trees() returns strictly ascending duplicate-free vectors, never an empty vector, and never the same vector twice.", "quantifier": "every forest reachable by a finite sequence of API calls", "why_tests_cant": "Quantifies over all operation histories, including those where union/translation compute a wrong family.", "anchors": ["weave/src/zdd2/forest/mod.rs: trees, canonical, all operations", "weave/src/zdd2/forest/trees.rs: trees", "weave/src/zdd2/forest/universe/mod.rs: get_items"]}
{"id": "C04", "title": "zdd2 len and is_empty count the distinct trees", "statement": "For every reachable forest len() equals the number of vectors returned by trees(), which are pairwise different sets, and is_empty() is true iff len() is 0.", "quantifier": "every API-reachable forest", "why_tests_cant": "Needs the no-duplicates invariant for every history.", "anchors": ["weave/src/zdd2/forest/mod.rs: len, is_empty", "weave/src/zdd2/forest/trees.rs"]}
{"id": "C05", "title": "zdd2 occurrences are exact", "statement": "For every reachable forest occurrences() is the list, strictly ascending by item, of pairs (item, k) where k > 0 is the number of trees of that forest containing item; items in no tree do not appear.", "quantifier": "every API-reachable forest and every item", "why_tests_cant": "The count is kept in the universe, separately from the diagram; they must agree after every operation history.", "anchors": ["weave/src/zdd2/forest/mod.rs: occurrences, canonical", "weave/src/zdd2/forest/universe/mod.rs: from_matrix, from_items, merge"]}
{"id": "C06", "title": "zdd2 forest equality is extensional", "statement": "Two API-reachable forests compare equal (==) if and only if they contain the same trees, no matter through which constructors and operations each was produced.", "quantifier": "every pair of API-reachable forests", "why_tests_cant": "Equality compares arena node ids and universes; canonicity for every pair of histories is a theorem about the whole representation.", "anchors": ["weave/src/zdd2/forest/mod.rs: Forest (derive Eq), canonical", "weave/src/zdd2/forest/node/arena.rs", "weave/src/zdd2/forest/universe/mod.rs: from_occurrences"]}
{"id": "C07", "title": "zdd2 subset is exact", "statement": "forest.subset(e) contains exactly the trees of forest that contain e (none if e is unknown).", "quantifier": "every API-reachable forest, every element", "why_tests_cant": "Recursion with a keep flag over arbitrary diagrams.", "anchors": ["weave/src/zdd2/forest/subset.rs: subset", "weave/src/zdd2/forest/node/subset.rs: subset, subset_inner, reduce_branch"]}
{"id": "C08", "title": "zdd2 subset_not is exact", "statement": "forest.subset_not(e) contains exactly the trees of forest that do not contain e (all of them if e is unknown).", "quantifier": "every API-reachable forest, every element", "why_tests_cant": "Removing the high edge must reduce correctly on every diagram.", "anchors": ["weave/src/zdd2/forest/subset.rs: subset_not", "weave/src/zdd2/forest/node/subset.rs: subset_not"]}
{"id": "C09", "title": "zdd2 subset_all is exact", "statement": "forest.subset_all(es) contains exactly the trees containing every element of es (the forest itself if es is empty, nothing if some element is unknown).", "quantifier": "every API-reachable forest, every slice of elements (repeats allowed)", "why_tests_cant": "It folds Node::intersect, which treats Always as neutral; correctness needs an argument about which families can meet, for all inputs.", "anchors": ["weave/src/zdd2/forest/mod.rs: subset_all", "weave/src/zdd2/forest/subset.rs: subset_many", "weave/src/zdd2/forest/node/subset.rs: subset_all", "weave/src/zdd2/forest/node/intersect.rs"]}
{"id": "C10", "title": "zdd2 subset_none is exact", "statement": "forest.subset_none(es) contains exactly the trees containing no element of es.", "quantifier": "every API-reachable forest, every slice of elements", "why_tests_cant": "Unknown elements and the Always clause of Node::intersect interact; the code violates the property on some inputs, which sampled tests miss.", "anchors": ["weave/src/zdd2/forest/mod.rs: subset_none", "weave/src/zdd2/forest/subset.rs: subset_many", "weave/src/zdd2/forest/node/subset.rs: subset_none", "weave/src/zdd2/forest/node/intersect.rs"]}
{"id": "C11", "title": "zdd2 union is set union", "statement": "f.union(g) contains exactly the trees of f and the trees of g.", "quantifier": "every pair of API-reachable forests", "why_tests_cant": "Correctness depends on how merged occurrence counts reorder the two diagrams; the reordering case of Node::branch is wrong for some pairs.", "anchors": ["weave/src/zdd2/forest/mod.rs: union, translate_roots, translate_root, canonical", "weave/src/zdd2/forest/node/union.rs", "weave/src/zdd2/forest/node/mod.rs: Node::branch"]}
{"id": "C12", "title": "zdd2 intersect is set intersection", "statement": "f.intersect(g) contains exactly the trees that are in both f and g.", "quantifier": "every pair of API-reachable forests", "why_tests_cant": "The Always clauses and translation reorderings fail only for particular shapes.", "anchors": ["weave/src/zdd2/forest/mod.rs: intersect", "weave/src/zdd2/forest/node/intersect.rs", "weave/src/zdd2/forest/node/mod.rs: Node::branch"]}
{"id": "C13", "title": "zdd2 product is the pairwise-union product", "statement": "f.product(g) contains exactly the sets a \u222a b with a a tree of f and b a tree of g.", "quantifier": "every pair of API-reachable forests", "why_tests_cant": "The equality shortcut is taken at arbitrary depth.", "anchors": ["weave/src/zdd2/forest/mod.rs: product", "weave/src/zdd2/forest/node/product.rs", "weave/src/zdd2/forest/node/union.rs"]}
{"id": "C14", "title": "zdd2 set-operation laws", "statement": "union, intersect and product are commutative (==); f.union(f) == f.intersect(f) == f; f.union(empty) == f; f.intersect(empty) and f.product(empty) are empty().", "quantifier": "every API-reachable forest / pair of forests", "why_tests_cant": "Laws over all pairs, including those on which the operation computes a wrong family.", "anchors": ["weave/src/zdd2/forest/mod.rs: union, intersect, product", "weave/src/zdd2/forest/node/union.rs", "weave/src/zdd2/forest/node/intersect.rs", "weave/src/zdd2/forest/node/product.rs"]}
{"id": "C15", "title": "zdd2 API never panics and always terminates", "statement": "No sequence of Forest API calls panics (no missing node, no unwrap of None in root translation) or recurses forever.", "quantifier": "every finite sequence of API calls on any inputs, from any state of the shared arena", "why_tests_cant": "Node::branch re-calls itself with rebuilt arguments; termination and arena-completeness quantify over all inputs and histories.", "anchors": ["weave/src/zdd2/forest/mod.rs: translate_root (unwrap)", "weave/src/zdd2/forest/node/mod.rs: Node::branch, From<NodeId> for Node (panic)"]}
{"id": "C16", "title": "results are independent of hash iteration order", "statement": "For fixed arguments, every zdd2 Forest operation gives the same forest (==), and the same trees()/occurrences() vectors, whatever order the HashMaps are iterated in; the matrix Forest gives the same set of trees for every iteration order.", "quantifier": "every iteration order of every hash map/set and every API call", "why_tests_cant": "A test run sees one iteration order per process.", "anchors": ["weave/src/zdd2/forest/universe/mod.rs: from_occurrences, merge", "weave/src/matrix/forest/mod.rs: trees, occurrences"]}
{"id": "C17", "title": "occurrence count equals the size of the subset", "statement": "For every reachable forest and item, the count listed in occurrences() is forest.subset(item).len() (0 if not listed), and subset(e).len() + subset_not(e).len() == len().", "quantifier": "every API-reachable forest and item", "why_tests_cant": "Relates three independently computed observables for all histories.", "anchors": ["weave/src/zdd2/forest/mod.rs: occurrences, subset, subset_not, len"]}
{"id": "C18", "title": "serialized zdd2 diagrams are ordered and zero-suppressed", "statement": "In the text form of every reachable forest's root, priorities strictly increase along every path, no branch has the Never node as its high child, and every priority is a valid index into the serialized universe.", "quantifier": "every API-reachable forest", "why_tests_cant": "A structural invariant over all histories.", "anchors": ["weave/src/zdd2/forest/node/mod.rs: Node::branch", "weave/src/zdd2/forest/node/parser.rs: build_node_string", "weave/src/zdd2/forest/mod.rs"]}
{"id": "C19", "title": "interning: one id per node, ids never change meaning", "statement": "At every moment of every execution no node is stored under two ids, an id once handed out always yields the same node, ids 0 and 1 are Never and Always, and structurally equal diagrams have equal ids.", "quantifier": "every sequence of additions/lookups by any number of threads in any interleaving of lock-protected steps", "why_tests_cant": "Races between the read-locked lookup and the write-locked add appear only under particular schedules.", "anchors": ["weave/src/zdd2/forest/node/arena.rs: NodeArena", "weave/src/zdd2/forest/node/mod.rs: From<Node> for NodeId, From<NodeId> for Node, ARENA"]}
{"id": "C20", "title": "concurrent zdd2 operations behave as if run alone", "statement": "For any number of threads running diagram operations against the shared arena, in any interleaving, each operation returns the diagram it would return when run alone, and never panics.", "quantifier": "every set of threads, every operation, every schedule, every initial well-formed arena", "why_tests_cant": "Schedules cannot be enumerated by tests.", "anchors": ["weave/src/zdd2/forest/node/mod.rs: ARENA, From impls, Node::branch", "weave/src/zdd2/forest/node/union.rs", "weave/src/zdd2/forest/node/intersect.rs", "weave/src/zdd2/forest/node/product.rs", "weave/src/zdd2/forest/node/subset.rs"]}
{"id": "C21", "title": "zdd2 node text round trip", "statement": "Parsing the text form of the root diagram of any reachable forest yields the same diagram.", "quantifier": "every API-reachable diagram whose priorities fit usize", "why_tests_cant": "Recursive grammar over unbounded diagrams and numbers.", "anchors": ["weave/src/zdd2/forest/node/parser.rs: build_node_string, parse_node_string"]}
{"id": "C22", "title": "zdd2 Forest serialization round trip", "statement": "Deserializing a serialized reachable forest gives an equal forest.", "quantifier": "every API-reachable forest over any serializable item type", "why_tests_cant": "The universe is rebuilt from its occurrence map and the root from text; both must be canonical for all histories.", "anchors": ["weave/src/zdd2/forest/mod.rs: derive Serialize/Deserialize", "weave/src/zdd2/forest/universe/serialize.rs", "weave/src/zdd2/forest/node/serialize.rs", "weave/src/zdd2/forest/node/parser.rs"]}
{"id": "C23", "title": "zdd2 node parser is total and normalising", "statement": "On any byte string the parser either rejects it or returns an ordered, zero-suppressed diagram (it never panics or diverges), even when the text itself is unordered or unreduced.", "quantifier": "every input string", "why_tests_cant": "All strings; the parser calls the rewriting Node::branch on attacker-chosen shapes.", "anchors": ["weave/src/zdd2/forest/node/parser.rs: parse_node_string, node", "weave/src/zdd2/forest/node/mod.rs: Node::branch"]}
{"id": "C24", "title": "matrix Forest constructors are exact", "statement": "matrix Forest::empty/unit/unique/many contain exactly the given sets (rows as sorted duplicate-free vectors, repeated rows once); unlike zdd2 the empty set is kept.", "quantifier": "every input slice/matrix", "why_tests_cant": "All inputs including repeats.", "anchors": ["weave/src/matrix/forest/mod.rs: empty, unit, many, unique, filter_repeats"]}
{"id": "C25", "title": "matrix union and intersect are exact", "statement": "matrix f.union(g) / f.intersect(g) contain exactly the trees in either / both.", "quantifier": "every pair of API-reachable matrix forests, every hash iteration order", "why_tests_cant": "Many representation cases \u00d7 iteration orders.", "anchors": ["weave/src/matrix/forest/union.rs", "weave/src/matrix/forest/intersect.rs"]}
{"id": "C26", "title": "matrix product is exact", "statement": "matrix f.product(g) contains exactly the sets a \u222a b, a in f, b in g.", "quantifier": "every pair of API-reachable matrix forests, every hash iteration order", "why_tests_cant": "All pairs.", "anchors": ["weave/src/matrix/forest/product.rs"]}
{"id": "C27", "title": "matrix subset family is exact", "statement": "matrix subset/subset_not/subset_all/subset_none keep exactly the trees that contain e / do not contain e / contain all of es / contain none of es.", "quantifier": "every API-reachable matrix forest, every element list", "why_tests_cant": "All inputs.", "anchors": ["weave/src/matrix/forest/subset.rs"]}
{"id": "C28", "title": "matrix len, is_empty, trees and occurrences are exact", "statement": "For every reachable matrix forest trees() lists each set once as an ascending duplicate-free vector, len() is their number, is_empty() iff there are none, occurrences() is ascending with exact positive counts.", "quantifier": "every API-reachable matrix forest, every hash iteration order", "why_tests_cant": "All histories.", "anchors": ["weave/src/matrix/forest/mod.rs: len, is_empty, occurrences, Into<Vec<Vec<T>>>"]}
{"id": "C29", "title": "matrix forest equality is extensional", "statement": "Two matrix forests compare equal iff they contain the same trees.", "quantifier": "every pair of API-reachable matrix forests", "why_tests_cant": "Different variants can hold the same set; the code violates this on some pairs.", "anchors": ["weave/src/matrix/forest/mod.rs: Forest (derive Eq), many"]}
{"id": "C30", "title": "the two Forest implementations agree", "statement": "For the same program of Forest trait calls, the zdd2 and matrix implementations hold the same non-empty trees.", "quantifier": "every program of Forest-trait calls", "why_tests_cant": "All programs; the implementations share no code.", "anchors": ["weave/src/types.rs: Forest", "weave/src/zdd2/mod.rs", "weave/src/matrix/mod.rs"]}
{"id": "C31", "title": "Tree constructors and size", "statement": "Tree::empty/one/many hold exactly the given elements; len() is the number of distinct elements; is_empty() iff there are none.", "quantifier": "every element slice", "why_tests_cant": "All inputs.", "anchors": ["weave/src/zdd2/tree/mod.rs", "weave/src/matrix/tree/mod.rs"]}
{"id": "C32", "title": "Tree union is set union", "statement": "tree1.union(tree2) holds exactly the elements of either tree.", "quantifier": "every pair of trees", "why_tests_cant": "Falls through to a catch-all case for particular variant pairs.", "anchors": ["weave/src/zdd2/tree/union.rs", "weave/src/matrix/tree/union.rs"]}
{"id": "C33", "title": "Tree intersect is set intersection", "statement": "tree1.intersect(tree2) holds exactly the common elements.", "quantifier": "every pair of trees", "why_tests_cant": "All pairs, all hash orders.", "anchors": ["weave/src/zdd2/tree/intersect.rs", "weave/src/matrix/tree/intersect.rs"]}
{"id": "C34", "title": "Tree product is the forest of pairs", "statement": "tree1.product(tree2) is the forest of all sets {a,b} with a in tree1 and b in tree2, in both implementations.", "quantifier": "every pair of trees, every hash iteration order", "why_tests_cant": "All pairs.", "anchors": ["weave/src/zdd2/tree/product.rs", "weave/src/matrix/tree/product.rs"]}
{"id": "C35", "title": "zdd Universe builds exact trees", "statement": "universe.tree(c) has the single combination c\u2229universe; hyper_tree(cs) has exactly the given combinations restricted to known items; unique_tree(items) has one singleton per known item (and the empty combination when some given item is unknown); empty_tree has none and unit_tree only the empty combination.", "quantifier": "every universe built from a vector (repetitions allowed), every combination list", "why_tests_cant": "All inputs.", "anchors": ["weave/src/zdd/tree/universe.rs: empty_tree, unit_tree, tree, unique_tree, hyper_tree"]}
{"id": "C36", "title": "zdd combinations: both enumerators agree and are exact", "statement": "tree.combinations() equals tree.combinations_recursive() and is exactly the set of paths to TRUE, for every tree (including trees built from arbitrary nodes).", "quantifier": "every tree", "why_tests_cant": "Explicit-stack loop versus recursion on unbounded diagrams.", "anchors": ["weave/src/zdd/tree/combinations.rs: combinations_recursive, combinations_iter", "weave/src/zdd/tree/mod.rs: combinations, combinations_recursive"]}
{"id": "C37", "title": "zdd union is set union of combinations", "statement": "For trees over the same universe, t.union(u).combinations() is the union of both combination sets.", "quantifier": "every pair of trees over one universe", "why_tests_cant": "All pairs.", "anchors": ["weave/src/zdd/tree/union.rs", "weave/src/zdd/tree/mod.rs: union"]}
{"id": "C38", "title": "zdd intersect is set intersection of combinations", "statement": "For trees over the same universe, t.intersect(u).combinations() is the intersection of both combination sets.", "quantifier": "every pair of trees over one universe", "why_tests_cant": "Violated on some pairs.", "anchors": ["weave/src/zdd/tree/intersect.rs", "weave/src/zdd/tree/mod.rs: intersect"]}
{"id": "C39", "title": "zdd product is the pairwise-union product", "statement": "For trees over the same universe, t.product(u).combinations() is exactly the set of unions of one combination from each.", "quantifier": "every pair of trees over one universe", "why_tests_cant": "Cross terms are missed for trees sharing items.", "anchors": ["weave/src/zdd/tree/product.rs", "weave/src/zdd/tree/mod.rs: product"]}
{"id": "C40", "title": "zdd combinations_with and restrict are exact filters", "statement": "combinations_with(inc, exc) is exactly the combinations containing every item of inc and none of exc; restrict(inc, exc) is a tree with exactly these combinations.", "quantifier": "every tree, every inclusion and exclusion list", "why_tests_cant": "All inputs.", "anchors": ["weave/src/zdd/tree/mod.rs: combinations_with, restrict", "weave/src/zdd/tree/universe.rs: hyper_tree"]}
{"id": "C41", "title": "zdd summarize statuses are exact", "statement": "summarize(inc, exc) gives each universe item exactly one status: Excluded iff it is in none of combinations_with(inc,exc), else Selected iff it is in inc, else Required iff it is in all of them, else Available; sorted.", "quantifier": "every tree, every inclusion and exclusion list", "why_tests_cant": "All inputs.", "anchors": ["weave/src/zdd/tree/mod.rs: summarize", "weave/src/status.rs: ItemStatus"]}
{"id": "C42", "title": "zdd node text round trip", "statement": "Parsing the text form of any zdd node yields the same node.", "quantifier": "every node", "why_tests_cant": "Unbounded recursion.", "anchors": ["weave/src/zdd/node/parser.rs", "weave/src/zdd/node/serialize.rs"]}
{"id": "C43", "title": "BDD and / or compute the boolean function", "statement": "For every assignment of items, (a & b) is true iff a and b are, and (a | b) iff a or b is.", "quantifier": "every pair of nodes (ordered or not) and every assignment", "why_tests_cant": "All diagrams and assignments.", "anchors": ["bowtie-core/src/bdd/node/bit_operations.rs: BitAnd, BitOr, split_branch"]}
{"id": "C44", "title": "BDD not / xor compute the boolean function", "statement": "For every assignment, !a is true iff a is false, and (a ^ b) iff exactly one is true.", "quantifier": "every pair of nodes and every assignment", "why_tests_cant": "Not only swaps the top children; wrong for deeper nodes.", "anchors": ["bowtie-core/src/bdd/node/bit_operations.rs: Not, BitXor"]}
{"id": "C45", "title": "BDD reduce and restrict preserve / specialise the function", "statement": "reduce(a) denotes the same boolean function as a and has no branch with equal children; on ordered nodes restrict(a, item, b) denotes a with item fixed to b and no longer mentions item.", "quantifier": "every (ordered) node, item, value and assignment", "why_tests_cant": "All diagrams.", "anchors": ["bowtie-core/src/bdd/node/reduce.rs", "bowtie-core/src/bdd/node/restrict.rs"]}
{"id": "C46", "title": "equal boolean functions have equal nodes", "statement": "Nodes produced from single-item branches with & | and restrict are equal iff they denote the same boolean function.", "quantifier": "every pair of such expressions", "why_tests_cant": "Canonicity for all expressions.", "anchors": ["bowtie-core/src/bdd/node/bit_operations.rs", "bowtie-core/src/bdd/node/arena.rs"]}
{"id": "C47", "title": "ClosetBuilder accepts exactly the legal closets", "statement": "build() succeeds iff no item was added to two families, every rule mentions only added items and no rule relates two items of one family; otherwise the error names exactly the violations: each reported violation is real and every real one detected at that stage is reported, a single one bare, several in a CompoundError without repeats.", "quantifier": "every sequence of builder calls", "why_tests_cant": "All builder histories.", "anchors": ["bowtie-core/src/closet_builder.rs: validate_closet, find_conflicting_families, find_illegal_rules", "bowtie-core/src/bdd/closet_builder/mod.rs: add_item, add_exclusion_rule, add_inclusion_rule, build"]}
{"id": "C48", "title": "a built closet admits exactly the valid outfits", "statement": "The closet returned by build() admits exactly the item sets that take exactly one item of each family, never both sides of an exclusion rule, and the included item whenever the selecting item is taken.", "quantifier": "every accepted sequence of builder calls, every item set", "why_tests_cant": "All closets, all outfits.", "anchors": ["bowtie-core/src/bdd/closet_builder/mod.rs: build, sibling_relationship, exclusion_relationship, inclusion_relationship"]}
{"id": "C49", "title": "outfit_count is the number of valid outfits", "statement": "outfit_count() is the number of valid outfits compatible with the selections made so far.", "quantifier": "every closet reachable by build and select_item", "why_tests_cant": "The count sums over paths, which is only right because no level is skipped in any reachable diagram.", "anchors": ["bowtie-core/src/bdd/closet/node_count.rs: outfit_count", "bowtie-core/src/bdd/closet/select.rs"]}
{"id": "C50", "title": "node_count, leaf_count and depth are consistent", "statement": "node_count() = 2*leaf_count() - 1 for every closet, depth() = number of undecided items + 1 for every reachable satisfiable closet (1 for an unsatisfiable one), outfit_count() <= leaf_count().", "quantifier": "every closet", "why_tests_cant": "All diagrams.", "anchors": ["bowtie-core/src/bdd/closet/node_count.rs"]}
{"id": "C51", "title": "closet summary is exact", "statement": "summary() of a satisfiable reachable closet lists every item exactly once: Selected iff it was selected, Available iff it is not selected and some valid outfit compatible with the selections contains it, Excluded otherwise; sorted.", "quantifier": "every satisfiable closet reachable by build and select_item", "why_tests_cant": "All closets, all selection sequences.", "anchors": ["bowtie-core/src/bdd/node/summarize.rs", "bowtie-core/src/bdd/closet/mod.rs", "bowtie-core/src/bdd/closet/select.rs"]}
{"id": "C52", "title": "select_item accepts exactly the completable selections", "statement": "select_item(i) fails with UnknownItem iff i was never added, with ExcludedItem iff i is known but no valid outfit compatible with the selections so far contains it, and otherwise yields a closet admitting exactly the previously admitted outfits that contain i.", "quantifier": "every reachable closet and item", "why_tests_cant": "All closets and selection histories.", "anchors": ["bowtie-core/src/bdd/closet/select.rs", "bowtie-core/src/bdd/node/restrict.rs"]}
{"id": "C53", "title": "selection order does not matter", "statement": "Two accepted sequences of selections with the same set of items, in any order and with any repetitions, give equal closets; selecting an already selected item is accepted and changes nothing; and from a satisfiable built closet a sequence is accepted iff some valid outfit contains all its items.", "quantifier": "every built closet, every pair of accepted selection sequences", "why_tests_cant": "All permutations.", "anchors": ["bowtie-core/src/bdd/closet/select.rs", "bowtie-core/src/bdd/node/restrict.rs"]}
{"id": "C54", "title": "complete_outfit returns a valid outfit containing the selections", "statement": "On a built closet complete_outfit(sel) = Ok(o) implies o is sorted, contains sel, and is a valid outfit of the closet; it is Ok whenever sel are known items of different families that some valid outfit contains.", "quantifier": "every built closet and selection list", "why_tests_cant": "All closets and selections.", "anchors": ["bowtie-core/src/bdd/closet/complete_outfit.rs"]}
{"id": "C55", "title": "complete_outfit errors are exact", "statement": "On a built closet: UnknownItems(u) iff some selection is unknown, u listing exactly these in order; else MultipleItemsPerFamily iff two selections share a family, listing exactly those families with their selections; else IncompatibleSelections(sorted selections) iff no valid outfit contains all selections.", "quantifier": "every built closet and selection list", "why_tests_cant": "All closets and selections.", "anchors": ["bowtie-core/src/bdd/closet/complete_outfit.rs: validate, find_unknown_items, find_duplicate_items, find_conflicting_items"]}
{"id": "C56", "title": "complete_outfit honours earlier selections", "statement": "After select_item calls, complete_outfit(sel) returns an outfit with one item of every family, including the previously selected items.", "quantifier": "every closet reachable by build and select_item", "why_tests_cant": "Violated: earlier selections are not part of the returned outfit.", "anchors": ["bowtie-core/src/bdd/closet/complete_outfit.rs", "bowtie-core/src/bdd/closet/select.rs"]}
{"id": "C57", "title": "closet serialization round trip", "statement": "Deserializing the serialized form of a closet obtained from the builder and any number of accepted select_item calls gives an equal closet.", "quantifier": "every closet reachable by build and select_item", "why_tests_cant": "The text stores one item per depth; only reachable diagrams have uniform levels.", "anchors": ["bowtie-core/src/bdd/node/serialize.rs", "bowtie-core/src/bdd/node/structure.rs", "bowtie-core/src/bdd/closet/mod.rs"]}
{"id": "C58", "title": "categorize groups items by family", "statement": "categorize(items) maps each family to its items in the given order, unknown items under UNKNOWN, loses and invents nothing.", "quantifier": "every closet and item list", "why_tests_cant": "All inputs.", "anchors": ["bowtie-core/src/bdd/closet/categorize.rs"]}
{"id": "C59", "title": "zdd and bowtie arenas intern correctly under concurrency", "statement": "For the zdd and bowtie node arenas: in any interleaving of threads no node gets two ids, ids keep their meaning, and every operation returns what it would return alone.", "quantifier": "every schedule of any number of threads", "why_tests_cant": "Schedules cannot be enumerated.", "anchors": ["weave/src/zdd/node/arena.rs", "weave/src/zdd/node/mod.rs", "bowtie-core/src/bdd/node/arena.rs", "bowtie-core/src/bdd/node/mod.rs"]}
{"id": "C60", "title": "BDD node serialization round trip", "statement": "Deserializing a serialized BDD node gives an equal node.", "quantifier": "every node built from single-item branches with & and |", "why_tests_cant": "must hold for every shape of diagram; tests serialize a few closet roots, whose levels are uniform by construction", "anchors": ["bowtie-core/src/bdd/node/serialize.rs: Serialize/Deserialize for Node", "bowtie-core/src/bdd/node/structure.rs: to_structure, to_content, to_node"]}
{"id": "C61", "title": "zdd traverse is total and faithful", "statement": "tree.traverse() never panics on a tree obtained through the API, mirrors the diagram branch for branch, and the item paths of the result name exactly the tree's combinations.", "quantifier": "every API-reachable tree", "why_tests_cant": "The unwrap on the item lookup must be safe for every history of operations.", "anchors": ["weave/src/zdd/tree/traversable.rs: TreeNode::from", "weave/src/zdd/tree/mod.rs: traverse"]}
{"id": "C62", "title": "zdd tree operation laws", "statement": "Over one universe union, intersect and product are commutative (equal trees), union and intersect idempotent, empty_tree is the unit of union and the zero of product, unit_tree the unit of product, and union is associative on combinations.", "quantifier": "every trees over one universe", "why_tests_cant": "Universal laws over unbounded diagrams.", "anchors": ["weave/src/zdd/tree/union.rs", "weave/src/zdd/tree/intersect.rs", "weave/src/zdd/tree/product.rs"]}
{"id": "C63", "title": "zdd trees are canonical", "statement": "Two trees (==) over any two universes, built from duplicate-free combinations, are equal iff the universes list the same items in the same order and the trees have the same combinations, whatever operations built them. Built from any combinations, they are equal iff the universes are and traverse shows the same diagram.", "quantifier": "every pair of API-reachable trees, of one or of two universes", "why_tests_cant": "All construction histories.", "anchors": ["weave/src/zdd/tree/mod.rs: derive PartialEq for Tree", "weave/src/zdd/tree/universe.rs: tree, hyper_tree"]}
{"id": "C64", "title": "Parsing a node text preserves the family it spells", "statement": "If a text spells a diagram (labels, low child, high child), then the diagram parsed from it denotes the same family of sets.", "quantifier": "every diagram text, any layout", "why_tests_cant": "Ranges over all texts, including hand-written ones whose labels are not increasing.", "anchors": ["weave/src/zdd2/forest/node/parser.rs: parse_node_string, node", "weave/src/zdd2/forest/node/mod.rs: Node::branch"]}
{"id": "C65", "title": "zdd Tree serialization round trip", "statement": "Serializing a zdd Tree and deserializing the data (item index entries in any order) yields an equal tree.", "quantifier": "every API-reachable tree, every order of the map entries", "why_tests_cant": "Unbounded trees and universes, all entry orders.", "anchors": ["weave/src/zdd/tree/mod.rs: derive Serialize/Deserialize", "weave/src/zdd/tree/universe.rs", "weave/src/zdd/node/serialize.rs"]}
{"id": "C66", "title": "Deserialized forests are safe to use", "statement": "Every forest that deserialization accepts can be listed and combined (union, intersect, product) with other forests without a panic.", "quantifier": "every serialized datum, including ones not produced by serialization", "why_tests_cant": "Ranges over all untrusted inputs.", "anchors": ["weave/src/zdd2/forest/universe/serialize.rs", "weave/src/zdd2/forest/node/serialize.rs", "weave/src/zdd2/forest/mod.rs: translate_roots"]}
{"id": "C67", "title": "Debug formatting of a forest never panics", "statement": "Formatting any API-reachable forest with {:?} terminates without a panic.", "quantifier": "every reachable forest, every item Debug implementation", "why_tests_cant": "The formatter unwraps a lookup at every branch; unbounded forests and histories.", "anchors": ["weave/src/zdd2/forest/mod.rs: fmt_inner, impl Debug for Forest"]}
{"id": "C68", "title": "bowtie structural hash identifies the shape of a node", "statement": "Node::hash_structure gives equal strings for two nodes that differ only in the items at their branches; and two nodes with equal strings have the same shape, unless the standard hasher itself maps two different byte strings (one written for each node) to the same number.", "quantifier": "every pair of nodes and every hash function behind the Hasher", "why_tests_cant": "Ranges over all pairs of diagrams and over the hash function; a separator or ordering mistake shows only on particular shapes.", "anchors": ["bowtie-core/src/bdd/node/hash_structure.rs: Node::hash_structure", "bowtie-core/src/bdd/node/mod.rs: Node"]}
{"id": "C69", "title": "zdd2 splitting a forest by an item and recombining the parts", "statement": "For every forest f and item e: f.subset(e).union(&f.subset_not(e)) == f.", "quantifier": "every API-reachable forest, every item, every hash iteration order", "why_tests_cant": "Whether recombining is the identity depends on how the counts of the two parts re-order items; unbounded forests.", "anchors": ["weave/src/zdd2/forest/subset.rs: subset, subset_not", "weave/src/zdd2/forest/union.rs: union"]}
{"id": "C70", "title": "zdd2 union and product are associative", "statement": "f.union(&g).union(&k) == f.union(&g.union(&k)), and the same for product.", "quantifier": "all triples of API-reachable forests", "why_tests_cant": "Triples of unbounded forests; counterexamples need particular item frequencies.", "anchors": ["weave/src/zdd2/forest/union.rs: union", "weave/src/zdd2/forest/product.rs: product"]}
{"id": "C71", "title": "zdd2 filters compose", "statement": "Filtering with subset by several items one after the other gives, for any order and repetition of the items, the forest that subset_all gives; subset_not by several items one after the other does not depend on order or repetition and leaves exactly the trees without any of them; subset and subset_not commute and are idempotent; subset(e) then subset_not(e) (or the reverse) is the empty forest. All as ==.", "quantifier": "every API-reachable forest, every list of items", "why_tests_cant": "Lists of calls of any length on unbounded forests.", "anchors": ["weave/src/zdd2/forest/subset.rs: subset, subset_not, subset_all"]}
{"id": "C72", "title": "zdd2 counts add up", "statement": "The occurrence counts of a forest add up to the sum of the sizes of its trees; an item is listed exactly if some tree has it, with a count of at most len(); for forests with no common item, the union has len f + len g trees and the product len f * len g.", "quantifier": "every (pair of) API-reachable forest(s)", "why_tests_cant": "Unbounded forests and histories.", "anchors": ["weave/src/zdd2/forest/mod.rs: occurrences, len", "weave/src/zdd2/forest/union.rs", "weave/src/zdd2/forest/product.rs"]}
{"id": "C73", "title": "matrix forests obey the algebra of families of sets", "statement": "Union and intersect are commutative, associative, idempotent, absorb and distribute over each other; product is commutative, associative, distributes over union, with {\u2205} neutral and the empty forest absorbing; subset/subset_not split a forest, distribute over union, intersect and product, and compose to subset_all/subset_none; sizes satisfy inclusion-exclusion; occurrence counts add up to the sum of the tree sizes.", "quantifier": "all triples of API-reachable matrix forests, all items, all iteration orders", "why_tests_cant": "Universally quantified equations over unbounded forests and hash orders.", "anchors": ["weave/src/matrix/forest/mod.rs: union, intersect, product, subset"]}
{"id": "C74", "title": "bowtie: only what the builder calls say matters", "statement": "Two histories of ClosetBuilder calls with the same (family, item) pairs, the same inclusion rules and the same exclusion rules up to swapping the two items - in any order, with any repetitions, one by one or with the bulk methods - are accepted or refused alike, and build equal closets; so do equal sets of selections afterwards.", "quantifier": "every pair of builder call histories, every pair of selection histories, every hash order", "why_tests_cant": "All permutations, repetitions and groupings of unbounded histories.", "anchors": ["bowtie-core/src/bdd/closet_builder/mod.rs: add_item(s), add_exclusion_rule(s), add_inclusion_rule(s), build", "bowtie-core/src/bdd/closet/select.rs: select_item"]}
{"id": "C75", "title": "bowtie: selecting within a family partitions the outfits", "statement": "For each family of a closet, the outfit counts after selecting each of its items in turn (0 where the selection is refused) add up to the outfit count of the closet.", "quantifier": "every reachable closet (built and after any accepted selections), every family, every hash order", "why_tests_cant": "Unbounded closets and selection histories.", "anchors": ["bowtie-core/src/bdd/closet/node_count.rs: outfit_count", "bowtie-core/src/bdd/closet/select.rs: select_item"]}
{"id": "C76", "title": "bowtie: how outfits combine", "statement": "Adding rules or selections never adds outfits; wardrobes without a common family or item combine to the product of their outfit counts, also after selections; a closet without rules has the product of its family sizes as outfit count.", "quantifier": "every pair of histories, all selections", "why_tests_cant": "Unbounded histories; the product law relates three closets.", "anchors": ["bowtie-core/src/bdd/closet_builder/mod.rs: build, sibling_relationship", "bowtie-core/src/bdd/closet/node_count.rs: outfit_count"]}
{"id": "C77", "title": "bowtie: the u64 counters", "statement": "With overflow checks, node_count, leaf_count, outfit_count and depth return the exact number, and panic exactly if it exceeds u64::MAX; without overflow checks the three counts return the exact number modulo 2^64 and depth the exact number below 2^64.", "quantifier": "every node, every reachable closet", "why_tests_cant": "Overflow needs diagrams far larger than any test can enumerate.", "anchors": ["bowtie-core/src/bdd/closet/node_count.rs: node_count, leaf_count, outfit_count, depth"]}
{"id": "C78", "title": "Debug texts identify values", "statement": "Two zdd nodes, two zdd2 nodes, two bowtie nodes, two zdd trees of one universe, or two zdd2 forests with the same {:?} text are the same value (for bowtie nodes and forests: provided the items' own texts are single lines and differ for different items).", "quantifier": "all nodes; all trees of one universe; all forests obtainable through the API; all item texts", "why_tests_cant": "Injectivity of a printer over nested values of any depth quantifies over all pairs of values.", "anchors": ["weave/src/zdd/node/mod.rs: Debug for Node, fmt_inner", "weave/src/zdd/tree/mod.rs: Debug for Tree", "weave/src/zdd2/forest/node/mod.rs: Debug for Node, fmt_inner", "weave/src/zdd2/forest/mod.rs: Debug for Forest", "bowtie-core/src/bdd/node/mod.rs: Debug for Node, fmt_inner"]}
{"id": "C79", "title": "visualizer: the page shows the tree", "statement": "For every tree the visualizer renders a page without panicking; its list has exactly one entry per combination, in ascending order, reading the combination's items in ascending order separated by ', '; its tree panel draws the diagram branch for branch (label, low child, high child), so two trees of one universe with the same page are equal; if no item is empty or contains a comma, no two entries read the same.", "quantifier": "every tree of strings obtainable through the API over any universe", "why_tests_cant": "Trees of unbounded size; injectivity over all pairs of trees.", "anchors": ["weave-visualizer/src/visualizer.rs: Model::view, view_tree, view_node, view_branch, view_leaf, view_combinations, create"]}
{"id": "C80", "title": "complete_outfit returns the first outfit in item order", "statement": "When complete_outfit returns an outfit, any other valid outfit that contains the closet's and the call's selections lacks the first item (in item order) on which the two differ. Hence the completed outfit depends only on the set of selected items: not on their order, on which were made by select_item and which in the call, on hash iteration order or on the order of builder calls.", "quantifier": "all builder call sequences, all closets reachable by selections, all selections passed to complete_outfit", "why_tests_cant": "A preference between all pairs of valid outfits of arbitrary closets; a test compares finitely many.", "anchors": ["bowtie-core/src/bdd/closet/complete_outfit.rs: complete_outfit", "bowtie-core/src/bdd/closet/select.rs: select_item"]}
{"id": "C81", "title": "the shared node store grows only by what the work needs", "statement": "What the global node store of zdd2, of zdd and of bowtie holds depends only on which pieces of work (a sequence of API calls and the values it starts from) have been done, not on threads, their interleaving, their order or how often work is repeated: a store from which all of another's work was finished holds every diagram the other holds and at least as many nodes; executions that finish the same work leave the same diagrams and the same number of nodes; doing finished work again adds no node, and a thread that only makes calls that look (trees, len, combinations, counts, ==, serialize, ...) never changes the store. (Node ids, by contrast, may differ between executions.)", "quantifier": "all states of all executions: any number of threads, any scripts, any starting values, any interleaving, all hash iteration orders", "why_tests_cant": "Quantifies over all pairs of interleavings of unboundedly many threads, including the window between the read-locked lookup and the write-locked insert; the ids do change from run to run, so a test cannot compare stores by eye.", "anchors": ["weave/src/zdd2/forest/node/arena.rs: NodeArena::add", "weave/src/zdd2/forest/node/mod.rs: From<Node> for NodeId", "weave/src/zdd/node/arena.rs: NodeArena::add", "bowtie-core/src/bdd/node/arena.rs: Arena::add"]}
{"id": "C82", "title": "the shared node store grows by at most the cost of the calls made", "statement": "The node stores of zdd and of bowtie are never emptied, so what a call can add is bounded: union, intersect, product, & and | add at most one node per pair of different nodes of their operands; reduce, restrict and select_item at most one per node of the operand; tree one per item, deserializing one per byte of the text (zdd) or per element of the structure (bowtie); calls that fold such operations (hyper_tree, unique_tree, restrict of zdd, xor, complete_outfit, build) at most the sum over what they fold; calls that only look add nothing. In every state of every execution, whatever other threads do, a thread adds only diagrams of a list no longer than the cost of its script, that depends on the script and the values it starts from only; and the store has at most two nodes plus the cost of all the scripts. The root of a closet never gets more different nodes by select_item, complete_outfit costs at most the size of the root per selection, and the result of & and | has at most as many nodes as the product of the operands' sizes.", "quantifier": "all states of all executions: any number of threads, any scripts, any starting values (deserialized and hand-made nodes included), any interleaving; all closets reached by builder calls and selections", "why_tests_cant": "An upper bound over all operands and all interleavings; a test measures the growth of one run.", "anchors": ["weave/src/zdd/node/arena.rs: NodeArena::add", "weave/src/zdd/tree/union.rs: union", "weave/src/zdd/tree/intersect.rs: intersect", "weave/src/zdd/tree/product.rs: product", "weave/src/zdd/tree/universe.rs: tree, unique_tree, hyper_tree", "weave/src/zdd/node/parser.rs: node", "bowtie-core/src/bdd/node/arena.rs: Arena::add", "bowtie-core/src/bdd/node/bit_operations.rs: BitAnd, BitOr, BitXor", "bowtie-core/src/bdd/node/restrict.rs: restrict", "bowtie-core/src/bdd/closet_builder/mod.rs: build", "bowtie-core/src/bdd/closet/complete_outfit.rs: complete_outfit"]}
{"id": "C83", "title": "loading bad data or panicking in one thread harms no other thread", "statement": "Threads that share the zdd2 node store may also serialize forests, load any data whatever and print forests with {:?}. In every state of every execution: a thread that finished shows exactly the observations and holds exactly the forests its calls yield when run alone, and a thread that panicked would have panicked alone; a thread panics exactly at union, intersect or product with a forest one of whose labels is no index of its map, or at {:?} of such a forest; two runs of the same calls from equal forests never end differently; a thread that has neither finished nor panicked can go on, at a recursion depth set by its calls alone; the store stays hash-consed with stable ids. Loading what Serialize wrote for a forest gives the very handle by which any thread already holds it; and if all loaded data was written by Serialize, no thread ever panics.", "quantifier": "all states of all executions: any number of threads, any calls, any loaded data, any interleaving, all hash iteration orders", "why_tests_cant": "Quantifies over all interleavings of unboundedly many threads and all untrusted texts; a crashing thread's effect on others depends on the crash point.", "anchors": ["weave/src/zdd2/forest/node/parser.rs: build_node_string, parse_node_string", "weave/src/zdd2/forest/node/serialize.rs: Serialize for NodeId, Deserialize for NodeId", "weave/src/zdd2/forest/mod.rs: fmt_inner, translate_root", "weave/src/zdd2/forest/universe/serialize.rs", "weave/src/zdd2/forest/node/arena.rs: NodeArena::add"]}
{"id": "C84", "title": "matrix forests and trees that no constructor made still behave as sets", "statement": "The variants of the matrix Forest and of Tree are public, and trees can be deserialized, so values exist that no constructor builds: vectors out of order or with repeats, Many of one set or of none. For every such value union, product and the four subset filters return exactly the sets they should; intersect keeps exactly the sets that both operands list as the same vector, and is exact if all vectors are ascending; trees lists no vector twice and len is their number; nothing is listed exactly for Empty and for Many of no set (which is_empty denies); the entries of occurrences add up, per item, to how often the item is listed, and are ascending unless the forest is a Unit; no result depends on iteration order, and each is an operand or a forest the constructors make. A tree written and read back is the same tree, in whatever order its elements were written; on every tree intersect and product are exact, len counts the elements, and union is exact except if one operand is One of an element and the other a Many that lacks it, when the result is Empty.", "quantifier": "all values of the public enums, all data a tree can be read from, all pairs of operands, all hash iteration orders", "why_tests_cant": "Ranges over all values of the types, most of which no test constructs, and over all iteration orders.", "anchors": ["weave/src/matrix/forest/mod.rs: Forest", "weave/src/matrix/forest/union.rs: union", "weave/src/matrix/forest/intersect.rs: intersect", "weave/src/matrix/forest/product.rs: product", "weave/src/matrix/forest/subset.rs: subset, subset_not, subset_all, subset_none", "weave/src/matrix/tree/mod.rs: Tree", "weave/src/matrix/tree/union.rs: union", "weave/src/zdd2/tree/mod.rs: Tree"]}
{"id": "C85", "title": "zdd trees and universes loaded from any data, and operands of different universes, have an exact meaning", "statement": "A zdd Tree is deserialized from a node text, a list of items and an index, none checked against the others. Loading accepts exactly the texts that begin with a spelled node, whatever the items and the index; of several index entries for one item the last counts; writing the tree and reading it back gives the same tree. combinations never panics and names the paths of the diagram by the items at their positions; traverse panics exactly if some label of the diagram is no position of the items, and otherwise mirrors the diagram; if both operands of an operation can be traversed in the universe of the first, so can the result. Over a universe loaded from any items and any index, tree, hyper_tree, unique_tree and restrict send each member of a combination through the index to the item at that position and drop what leads nowhere. For operands of any two universes the result is that of reading the second diagram in the universe of the first: union has exactly the combinations of both, every combination of product is the union of one of each (all of them, if no label occurs in both diagrams), and for ordered zero-suppressed diagrams the paths of intersect and product are known exactly.", "quantifier": "all node texts, item lists and indexes; all trees, in or out of order; all pairs of trees of any two universes; all requests", "why_tests_cant": "Ranges over all untrusted texts and over unrelated item lists and indexes, and over all pairs of universes.", "anchors": ["weave/src/zdd/tree/universe.rs: Universe", "weave/src/zdd/tree/mod.rs: Tree, union, intersect, product, restrict, traverse", "weave/src/zdd/node/serialize.rs", "weave/src/zdd/node/parser.rs: parse_node_string", "weave/src/zdd/tree/combinations.rs"]}
{"id": "C86", "title": "every closet, however made, answers consistently and never panics", "statement": "A Closet can be made by Closet::new from any index and any node, or deserialized with an index, a summary and a node that need not fit together. Loading succeeds unless the structure mentions a depth for which the content has no item (then it panics), takes index and summary as they are, and the root is what the structure spells. Closet::new selects nothing and lists each item of the diagram once: Available if some branch on it has a high child other than false, else Excluded. For every closet: select_item fails as unknown exactly for items without a family and as excluded exactly for items the summary calls Excluded; otherwise the outfits still admitted are exactly those admitted before that contain the item, and the order of two accepted selections does not matter. complete_outfit never panics, and reports unknown items, then families with two selections, then incompatibility, each exactly; otherwise it returns the selections together with the items of the first path. If the root is reduced and has no item twice on a path, incompatible means that no wearing of the selections satisfies the diagram, and an outfit returned lists each item once, contains the selections and satisfies the diagram; select_item keeps these conditions and reduce establishes them. Without them a returned outfit may be rejected by the diagram or list an item twice.", "quantifier": "all closets: all indexes, summaries and nodes (in or out of order, reduced or not), all structures and contents loaded, all selections, all iteration orders", "why_tests_cant": "Ranges over all values of the type, most of which no builder makes, and over all untrusted data.", "anchors": ["bowtie-core/src/bdd/closet/mod.rs: Closet, Closet::new, get_family", "bowtie-core/src/bdd/closet/select.rs: select_item", "bowtie-core/src/bdd/closet/complete_outfit.rs: complete_outfit, validate", "bowtie-core/src/bdd/node/structure.rs: to_node", "bowtie-core/src/bdd/node/serialize.rs: Deserialize for Node", "bowtie-core/src/bdd/node/summarize.rs: summarize", "bowtie-core/src/bdd/node/restrict.rs: restrict", "bowtie-core/src/bdd/node/reduce.rs: reduce"]}
{"id": "C87", "title": "the locks: accesses of the node store look instantaneous, never deadlock, tear or poison", "statement": "Each access of a node store takes a read or write guard of its RwLock, looks a node up or inserts one in several steps (entry, push, insert), and drops the guard; other threads may step in between any two of these. Nevertheless every execution of any number of threads shows only what some execution with instantaneous accesses shows, step for step, and each such execution can happen. A thread with the write guard is alone; the lock is never poisoned; while a read guard is out the node list and the id map agree, and what a reader looked up is still true when it drops its guard; an id, once it yields a node, yields it for ever, half-done insertions included. Whichever waiting thread the lock serves, there is no deadlock and no endless execution: a thread with a guard can always go on and drops it within four of its own steps, when no guard is out every unfinished thread can go on, and where no thread can go on all have finished. Hence every finished thread of zdd, zdd2 or bowtie calls shows exactly what its script yields when run alone.", "quantifier": "all numbers of threads, all scripts of calls of the three libraries (and any other client of the store), all interleavings of the single steps of the accesses, all policies of granting the lock", "why_tests_cant": "Ranges over all interleavings at the granularity of lock operations and single updates; the windows are a few instructions wide.", "anchors": ["weave/src/zdd2/forest/node/mod.rs: From<Node> for NodeId, From<NodeId> for Node", "weave/src/zdd2/forest/node/arena.rs: NodeArena::add, get_by_id, get_by_node", "weave/src/zdd/node/mod.rs: From<Node> for NodeId, From<NodeId> for Node", "weave/src/zdd/node/arena.rs: NodeArena", "bowtie-core/src/bdd/node/arena.rs: ARENA, add, get"]}
{"id": "C88", "title": "zdd2: combining any forests, loaded data with any counts included", "statement": "For any two forests, built by the API or loaded, whose counts are values of the word type: union, intersect and product panic exactly if a label of one of them is no index of its map or - in a build with overflow checks - their maps differ and the counts of some item add up beyond the word type; a build without checks wraps instead. While the counts add up they do what they do with unbounded counts, and two built forests with fewer than 2^64 trees together always do. The result lists, the empty tree aside, exactly the trees of both forests after re-ordering their items by the merged counts, joined, met or combined as for built forests - hence exactly the trees of both (union) if the merged counts keep the order of the items within each tree. The order of the two operands and hash iteration order never matter; a forest combined with itself lists exactly its trees; subset_none gives the same result as for a built forest with these counts. Wrapped counts can make union list a tree that neither forest lists.", "quantifier": "all pairs of forests built by API calls or accepted by deserialization, all counts, all word sizes, both overflow modes, all hash iteration orders", "why_tests_cant": "Ranges over all untrusted data: any text, any map with any counts, and over all pairs of such forests.", "anchors": ["weave/src/zdd2/forest/universe/mod.rs: Universe::merge, from_occurrences", "weave/src/zdd2/forest/mod.rs: translate_roots, translate_root, union, intersect, product", "weave/src/zdd2/forest/mod.rs: subset_none", "weave/src/zdd2/forest/universe/serialize.rs: Deserialize for Universe"]}
{"id": "C89", "title": "renaming the items in order renames every result and nothing else", "statement": "Take any program of Forest calls, any program over a zdd universe, or any history of ClosetBuilder and select_item calls, and give the items (and families) other names that keep their order. Then every result is the old one with the new names: zdd2 trees in the same listing order, len, is_empty, counts and equality of forests, also where the library's answer is not the mathematically right one; matrix trees up to hash order; zdd combinations, filtered combinations, summaries and views on the very same diagram; closets, build errors, selections, summaries, counts, completed outfits and every error. No answer depends on what the items are beyond their order, nor on hash iteration order.", "quantifier": "all ordered item types, all order-preserving renamings, all programs of API calls, all hash iteration orders of either run", "why_tests_cant": "Ranges over all programs and all renamings between all ordered types; tests use a few strings or numbers.", "anchors": ["weave/src/types.rs: Forest", "weave/src/zdd2/forest/mod.rs", "weave/src/zdd2/forest/universe/mod.rs: from_occurrences, merge", "weave/src/matrix/forest/mod.rs", "weave/src/zdd/tree/universe.rs", "weave/src/zdd/tree/mod.rs", "bowtie-core/src/bdd/closet_builder/mod.rs", "bowtie-core/src/bdd/closet/mod.rs", "bowtie-core/src/bdd/closet/select.rs", "bowtie-core/src/bdd/closet/complete_outfit.rs"]}
{"id": "C90", "title": "renaming the items in any way renames the results, up to order", "statement": "Give the items (and families) new names, no two the same, in any order. Then every program of Forest calls yields the renamed family of sets, with the same len, is_empty and counts; a zdd universe with its items renamed in place yields for every program the same diagram, hence the renamed combinations, filtered combinations, summary and view; and a closet is built from the same histories, accepts the same selections, admits the renamed outfits and no others, with the same number of outfits and depth, the renamed summary and families, and the same select and completion errors. Only the order of listing, the number of nodes and which admissible outfit complete_outfit picks may depend on the order of the names.", "quantifier": "all ordered item types, all injective renamings, all programs of API calls, all hash iteration orders of either run", "why_tests_cant": "Ranges over all programs and all renamings; a wrong answer that appears only under certain orders of the names is met only by trying those names.", "anchors": ["weave/src/types.rs: Forest", "weave/src/zdd2/forest/mod.rs: union, intersect, product", "weave/src/zdd2/forest/universe/mod.rs: from_occurrences (ties by item)", "weave/src/matrix/forest/mod.rs", "weave/src/zdd/tree/mod.rs: restrict, summarize", "bowtie-core/src/bdd/closet_builder/mod.rs: build", "bowtie-core/src/bdd/closet/complete_outfit.rs: complete_outfit"]}
{"id": "C91", "title": "bowtie: closets are equal exactly when they cannot be told apart", "statement": "Comparing two closets with == compares all they hold. For closets reached by building and selecting, however the calls were made: they are equal exactly if the same items were added to the same families, the same items are selected, and the same outfits remain possible.", "quantifier": "all pairs of closets, built from any histories of builder calls and selections under any hash iteration orders, or loaded", "why_tests_cant": "Ranges over all pairs of histories; equality must hold for histories that differ in every call but mean the same.", "anchors": ["bowtie-core/src/bdd/closet/mod.rs: Closet (derived PartialEq, Eq)", "bowtie-core/src/bdd/node/mod.rs: Node (derived PartialEq, Eq)"]}
{"id": "C92", "title": "Tree equality is extensional, and the laws of trees", "statement": "Two trees (either copy of the type) are == exactly if they hold the same elements, however they were made. In particular one(e) == many([e]), empty() == many([]) and the order in which many gets its elements does not matter. union and intersect commute, do not depend on hash iteration order, and give the tree itself for equal operands; empty() is neutral for union and absorbing for intersect.", "quantifier": "all item types, all trees made by any sequence of constructors, unions and intersections, all hash iteration orders", "why_tests_cant": "Ranges over all pairs of trees and all ways of making them; the enum has two representations of a one-element set.", "anchors": ["weave/src/matrix/tree/mod.rs: Tree (derived PartialEq), many, one, empty", "weave/src/matrix/tree/union.rs", "weave/src/matrix/tree/intersect.rs", "weave/src/zdd2/tree/mod.rs"]}
{"id": "C93", "title": "what serialization writes", "statement": "The serialized data is a fixed, self-describing format. The text of a node is the one text with labels as decimal numerals without leading zeros and exactly one space before each child, '(A)'/'(N)' (zdd2) or '(T)'/'(F)' (zdd) for the leaves; different nodes have different texts. The data of a zdd2 forest is the text of an ordered zero-suppressed diagram and the items in ascending order with the number of trees that hold them; numbering these entries by (more trees first, then smaller item), the paths of the diagram are exactly the trees; two forests, whatever calls made them, are written alike exactly if they hold the same trees. The data of a zdd tree is the text of a diagram whose paths name the combinations through the listed items, the items as given, and for each item its last position. Two closets are written alike exactly if they are equal.", "quantifier": "all nodes; all zdd2 forests and zdd trees the API can make; all closets reached by builder calls and selections", "why_tests_cant": "A test compares a few texts; stored data must stay readable and comparable for all diagrams, labels and histories.", "anchors": ["weave/src/zdd2/forest/node/parser.rs: build_node_string", "weave/src/zdd2/forest/universe/serialize.rs: Serialize", "weave/src/zdd2/forest/universe/mod.rs: from_occurrences", "weave/src/zdd/node/parser.rs: build_node_string", "weave/src/zdd/tree/universe.rs: Universe", "bowtie-core/src/bdd/node/serialize.rs: Serialize"]}
{"id": "C94", "title": "the zdd2 node store grows by at most a polynomial in the trees worked on", "statement": "The node store behind zdd2 forests is never emptied, but what a call can add to it is bounded by the trees involved, not by how they are represented: unit and unique of m items add at most 1 + m^2 nodes; many at most 1 + the sum over its rows of (length of the row)^2 + 2k; union and intersect of forests of n1 and n2 trees at most 2 + (n1+n2) k (3k+6); product at most 2 + (n1+n2) k (2k+2) + n1 n2 k (5k+4); subset and subset_not of n trees at most 2 + n k (k+4); subset_all and subset_none by m elements at most 2 + n k (k+2+6m), where k is the number of different items of the operands. empty, ==, trees, len, is_empty and occurrences add nothing. In every state of every execution, whatever the interleaving, the store has at most two nodes plus the cost of all the calls made; and after any moment with no call under way it has grown by at most the cost of the calls made since.", "quantifier": "all states of all executions: any number of threads, any scripts of calls, any starting forests, any interleaving of store accesses, any hash iteration order", "why_tests_cant": "A bound over all forests, all call sequences and all schedules; measuring the store in a test shows a few sizes.", "anchors": ["weave/src/zdd2/forest/node/mod.rs: Node::branch", "weave/src/zdd2/forest/node/mod.rs: From<Node> for NodeId", "weave/src/zdd2/forest/node/union.rs: union", "weave/src/zdd2/forest/node/product.rs: product", "weave/src/zdd2/forest/node/subset.rs: subset", "weave/src/zdd2/forest/mod.rs: canonical", "weave/src/zdd2/forest/mod.rs: translate_root"]}
{"id": "C95", "title": "a forest loaded from any data is what the data says", "statement": "Deserializing a zdd2 Forest accepts exactly the data whose text is, after white space and before anything else, the text of a diagram, whatever the entries. The loaded forest is what the data says: the last entry for an item is its count and occurrences lists these; numbering the items by (larger count first, then smaller item), the trees are the label lists of the diagram read through that numbering, one per label list, a label beyond the numbering being dropped. It does not depend on the hash order; two loaded forests are == exactly if the texts say the same family and the entries leave the same counts; writing and loading it again gives the same forest. union, intersect, product and {:?} of loaded forests succeed exactly if every label has an entry. The loaded forest is one that API calls could have made exactly if moreover the empty set is not among its trees and every count is the number of trees that hold the item.", "quantifier": "all texts, all entry lists (repeated items included), all item types with a total order, all hash orders", "why_tests_cant": "The data comes from outside: any text and any entries; tests load what was written before.", "anchors": ["weave/src/zdd2/forest/mod.rs: Forest (derive Deserialize)", "weave/src/zdd2/forest/node/serialize.rs: Deserialize for NodeId", "weave/src/zdd2/forest/node/parser.rs: parse_node_string", "weave/src/zdd2/forest/universe/serialize.rs: Deserialize for Universe", "weave/src/zdd2/forest/universe/mod.rs: from_occurrences"]}
{"id": "C96", "title": "Debug texts are outlines of the diagram", "statement": "The {:?} text of a node, of a zdd tree and of a zdd2 forest is the outline of its diagram and nothing else: every node on a new line, a branch's low child below it and its high child below that, one level deeper each, every level marked by '| '. zdd nodes and trees show 'n:' for a branch and true/false for a leaf, zdd2 nodes 'Priority(n):' and Always/Never, bowtie nodes their item's text and ':' (every line one level deeper), n being a plain decimal numeral. For a zdd tree the paths drawn, through the listed items, are its combinations. For a forest each branch shows its rank and the item of that rank (more trees first, then smaller item), the diagram is ordered and zero-suppressed, and the paths drawn, read through the ranking, are exactly its trees; so (for single-line item texts that tell items apart) two forests have the same text exactly if they hold the same trees, whatever calls made them.", "quantifier": "all nodes, all zdd trees and zdd2 forests obtainable through the API, all item texts", "why_tests_cant": "The layout and its meaning must be right for diagrams of any shape and depth and for all labels; tests compare a few texts.", "anchors": ["weave/src/zdd/node/mod.rs: Debug for Node, fmt_inner", "weave/src/zdd/tree/mod.rs: Debug for Tree", "weave/src/zdd2/forest/node/mod.rs: Debug for Node, fmt_inner", "weave/src/zdd2/forest/mod.rs: Debug for Forest, fmt_inner", "bowtie-core/src/bdd/node/mod.rs: Debug for Node, fmt_inner"]}
{"id": "C97", "title": "Summaries can be read through the status methods", "statement": "Cut by is_required, is_excluded, is_available and is_selected, the summary of a zdd tree under any inclusions and exclusions falls into four consecutive parts in that order; each part lists, strictly ascending, exactly the items of the universe with that status: required = not included, in every remaining combination (of which there is one); excluded = in none; available = not included, in some but not all; selected = included and in some. Looking an item up with is() finds exactly one status, with the kind just described, if the universe has the item, and nothing otherwise. map with an order-preserving renaming turns the summary into the summary of the renamed tree; option_map, dropping items without a new name, keeps the kinds, the order and one status per item. A bowtie closet's summary is likewise its excluded, available and selected parts, and is() finds the one status of a known item and nothing for an unknown one (a closet that admits no outfit knows its selections only).", "quantifier": "all zdd trees, inclusions, exclusions, hash orders, items, renamings and partial renamings; all closets reachable by building and selecting", "why_tests_cant": "It relates every answer of the status methods to the remaining combinations of an arbitrary tree; the repository has no test of these methods at all.", "anchors": ["weave/src/status.rs: item, is_required, is_excluded, is_available, is_selected, is, option_map, map", "weave/src/zdd/tree/summarize.rs: summarize", "bowtie-core/src/core.rs: ItemStatus::is_excluded, is_available, is_selected, is", "bowtie-core/src/bdd/closet/mod.rs: summary"]}
{"id": "C98", "title": "Operations on forests loaded from any data give a definite result, a genuine forest", "statement": "For zdd2 forests that were made by API calls or loaded from any data at all: whenever union, intersect or product returns, the result is a forest API calls can make, and its trees are determined by the trees listed and the counts that occurrences reports for the two operands (whether or not these are the counts of the trees): both sides are re-ordered by the added counts; union holds what is left of either side, intersect and product what the exact rules of C12 and C13 say of the re-ordered sides, the empty set left out. If any two items of one tree keep their order under the added counts, union is the plain union of the nonempty trees. subset and subset_all give exactly the listed trees with the item(s) (subset_all of nothing gives the forest back). subset_not gives the nonempty trees without the item if the item has an entry in occurrences, and the forest unchanged otherwise. subset_none gives the forest unchanged if some item has no entry, and otherwise (labels all having entries) the empty set met with the trees without each item in turn.", "quantifier": "all pairs of forests reachable by API calls or loaded from any text and entries, all items and item lists, all hash orders", "why_tests_cant": "Loaded data may carry counts that belong to no family; what operations make of them depends on both diagrams and all counts.", "anchors": ["weave/src/zdd2/forest/mod.rs: union, intersect, product, subset, subset_not, subset_all, subset_none, canonical", "weave/src/zdd2/forest/mod.rs: translate_roots, translate_root", "weave/src/zdd2/forest/universe/mod.rs: merge", "weave/src/zdd2/forest/node/serialize.rs"]}
{"id": "C99", "title": "Within a process, the order of BDD nodes and node ids is a fixed total order and saved ids keep their meaning", "statement": "In every state of every execution of any number of threads, < on the nodes that client code holds is a total order on diagrams: neither is less exactly when the diagrams are equal, it is antisymmetric and transitive; branches come before leaves and branches are ordered by their items first. It never changes: nodes obtained later for the same diagrams are the same nodes and compare the same. NodeId::from followed by Node::from gives the node back, and once a node has an id, asking again at any later time gives the same id and stores nothing. Ids are ordered by age: a diagram that is in the store has a smaller id than one that comes in later, and ids are equal exactly for equal diagrams. An id saved and read back later in the same process stands for the same node; Node::from of a number panics exactly when the number is not below the number of nodes stored.", "quantifier": "all executions of any number of threads making bowtie calls, all pairs and triples of nodes held, all ids and numbers, all later states", "why_tests_cant": "The order depends on the ids, which depend on the history of the whole process; a test sees one history.", "anchors": ["bowtie-core/src/bdd/node/mod.rs: Node, NodeId (derived Ord, Serialize, Deserialize), From<Node> for NodeId, From<NodeId> for Node", "bowtie-core/src/bdd/node/arena.rs: add, get, Arena", "bowtie-core/src/bdd/closet/mod.rs: root"]}
{"id": "C100", "title": "Which comparisons of BDD nodes and ids are the same in every process", "statement": "One diagram's node is less than another's in every process in which both are held exactly if: it is a branch and the other a leaf; or they are false and true; or its item is smaller; or the items are equal and its low side is always older than the other's; or the low sides are equal and its high side is always older. One diagram's id is less than another's in every process exactly if it is the false leaf and the other is different, or the true leaf and the other a branch, or a branch that is a proper part of the other. For all other pairs of different diagrams there are processes in which they compare the other way. The number of an id stands for the same diagram in every process exactly for the two leaves, 0 and 1.", "quantifier": "all pairs of diagrams, all executions of any number of threads, all numbers", "why_tests_cant": "It quantifies over all processes, and for the pairs left out requires a history that orders them the other way.", "anchors": ["bowtie-core/src/bdd/node/mod.rs: Node, NodeId (derived Ord, Serialize, Deserialize), From<Node> for NodeId, From<NodeId> for Node", "bowtie-core/src/bdd/node/arena.rs: add, get, Arena", "bowtie-core/src/bdd/closet/mod.rs: root"]}
{"id": "C101", "title": "The recursion of zdd2 is as deep as there are items, not as there are trees", "statement": "An API call on forests (constructors, union, intersect, product, subset, subset_not, subset_all, subset_none, trees, len, is_empty) nests at most 2k+3 calls of the recursive functions on nodes, where k is the number of different items in the trees of its operands (for a constructor: among its arguments); the number of trees, the number of stored nodes, the history of the store and what other threads store meanwhile do not matter. Under that limit the call does not panic and returns what it returns run alone.", "quantifier": "all reachable stores, all forests built by any history, all calls, all interleavings with other threads", "why_tests_cant": "Stack use has to be bounded for every family, every history and every schedule; a test overflows only on the one input that is too deep.", "anchors": ["weave/src/zdd2/forest/node/mod.rs: Node::branch, union, intersect, product", "weave/src/zdd2/forest/node/subset.rs: subset, subset_not, subset_all, subset_none", "weave/src/zdd2/forest/mod.rs: translate_root, canonical, unit, many, unique", "weave/src/zdd2/forest/trees.rs: trees"]}
{"id": "C102", "title": "The recursion of zdd is as deep as the trees, not as the families", "statement": "An API call on zdd trees nests at most d calls of the recursive functions on nodes, where d is: for union, intersection and product one more than the levels of the two trees together; for combinations_recursive, traverse and serialize one more than the levels of the tree; for hyper_tree, unique_tree and restrict one more than the number of items of the combinations (each counted as often as the combination that lists it most); for deserialize one more than the parentheses of the text that are open at once. If the trees are over one universe and were built from combinations without repeated items, one more than the number of different items is enough for every call, and such a tree has at most that many levels. The number of combinations and of stored nodes, the history of the store and what other threads store meanwhile do not matter. Under that limit the call does not panic and returns what it returns run alone.", "quantifier": "all reachable stores, all trees (built by any history or loaded), all calls, all texts, all interleavings with other threads", "why_tests_cant": "Stack use has to be bounded for every tree, every text, every history and every schedule; a test overflows only on the one input that is too deep.", "anchors": ["weave/src/zdd/tree/union.rs: union", "weave/src/zdd/tree/intersect.rs: intersect", "weave/src/zdd/tree/product.rs: product", "weave/src/zdd/tree/combinations.rs: combinations_inner, combinations_iter", "weave/src/zdd/node/parser.rs: build_node_string, node", "weave/src/zdd/tree/traversable.rs: from_node", "weave/src/zdd/tree/universe.rs: hyper_tree, unique_tree", "weave/src/zdd/tree/mod.rs: restrict"]}
{"id": "C103", "title": "The recursion of bowtie is as deep as the items, not as the rules or the nodes", "statement": "An API call on bowtie closets and nodes nests at most d calls of the recursive functions on nodes, where d is: for building a closet one more than the number of different items added; for selecting, completing outfits, counts and depth, serialize, reduce and restrict one more than the levels of the diagram; for `&` and `|` one more than the levels of the two diagrams together, for `^` one more than twice that; for deserialize one more than the nested branches of the received data. If the diagrams of the call are in the order of the items, one more than the number of different items is enough for every call except deserialize; every closet that a builder built, whatever was selected on it, has such a diagram over the items added, has at most that many levels, and `depth` shows one more than its levels. The number of families, rules and stored nodes, the history of the store and what other threads store meanwhile do not matter. Under that limit the call does not panic in the store and returns what it returns run alone.", "quantifier": "all reachable stores, all closets and nodes (built by any history, combined or received, ordered or not), all calls, all hash orders, all interleavings with other threads", "why_tests_cant": "Stack use has to be bounded for every closet, every node, every history and every schedule; a test overflows only on the one input that is too deep.", "anchors": ["bowtie-core/src/bdd/node/apply.rs: apply", "bowtie-core/src/bdd/node/bit_operations.rs: bitand, bitor, bitxor", "bowtie-core/src/bdd/node/reduce.rs: reduce", "bowtie-core/src/bdd/node/restrict.rs: restrict", "bowtie-core/src/bdd/node/structure.rs: to_node", "bowtie-core/src/bdd/closet_builder/mod.rs: build", "bowtie-core/src/bdd/closet/select.rs: select_item", "bowtie-core/src/bdd/closet/complete_outfit.rs: complete_outfit"]}
{"id": "C104", "title": "Every call finishes after a bounded number of its own accesses to the node store", "statement": "For any list of API calls and any values of the forests, trees, closets or nodes they start from there is a number N such that, started in any state that any number of threads can reach, the calls lock the shared node store at most N times in total and then have returned: N does not depend on what else is stored, on the ids the nodes have, on how often a node asked for is already there, or on what other threads store between two of the accesses. As long as the calls have not returned, their next access can be made; none of them ever waits for something another thread has to store, retries, or panics in the store. (That the lock itself is granted is std's affair.)", "quantifier": "all lists of calls, all starting values, all reachable stores, all handles for the values in them, all hash orders, all interleavings with other threads", "why_tests_cant": "A retry loop or a walk over the shared store is unbounded only under other stores and schedules than the test's; a test can only see the accesses of its own run.", "anchors": ["weave/src/zdd2/forest/node/mod.rs: Arena, Into<Node>, Into<NodeId>", "weave/src/zdd/node/mod.rs: From<Node> for NodeId, From<NodeId> for Node", "bowtie-core/src/bdd/node/arena.rs: From<Node> for NodeId, From<NodeId> for Node", "weave/src/zdd2/forest/*.rs", "weave/src/zdd/*.rs", "bowtie-core/src/bdd/**/*.rs"]}
{"id": "C105", "title": "Walking diagrams costs at most exponentially in the items, and binary operations really do", "statement": "In every reachable state and under every interleaving, union, intersection and product of two zdd trees and `&` and `|` of two bowtie nodes lock the shared node store at most 6 * 2^d times, where d is one more than the levels of the two diagrams together, or, for trees from duplicate-free combinations and diagrams in item order, one more than the number of different items; the recursive combinations, traverse and serialize of a tree and `reduce` and `restrict` at most 6 * 2^(1 + levels); `^` three times, serialize of a closet twice and its counts four times as many; unique_tree and hyper_tree twice as many for every item or combination given; `unit`, `unique` and `many` of forests at most 5 * 3^(3 + 2 * different items) for every item and row given and once more. The number of stored nodes and of families does not matter. And since nothing is remembered between the recursive calls, the exponent is real: the parity of n items has a diagram of at most 2n + 2 nodes, and every run of `&` or `|` of two such diagrams that returns has locked the store at least 4 * (2^n - 1) times; the combinations of an even or odd number of n + 1 items have zdd trees of at most 2n + 3 nodes, and every run of union, intersection or product of the two that returns has locked the store at least 4 * (2^n - 1) times. Whatever the diagram, every pass of `reduce`, of `restrict` to an item it does not have, of serialize and of the counts locks the store at least twice for every branch of the diagram unfolded into a tree (2^n - 1 for the parity of n items), and so do the recursive combinations, serialize and traverse of a zdd tree.", "quantifier": "all reachable stores, all trees, nodes and closets, all handles for them, all interleavings with other threads; all n and all lists of n items for the worst case", "why_tests_cant": "A running time is a statement about all inputs: no test is large enough to tell an exponential walk from a slow one, or to exclude a slower case.", "anchors": ["bowtie-core/src/bdd/node/bit_operations.rs: bitand, bitor, bitxor", "bowtie-core/src/bdd/node/reduce.rs: reduce", "bowtie-core/src/bdd/node/restrict.rs: restrict", "bowtie-core/src/bdd/node/serialize.rs", "bowtie-core/src/bdd/closet/node_count.rs", "weave/src/zdd/tree/union.rs: union", "weave/src/zdd/tree/intersect.rs: intersect", "weave/src/zdd/tree/product.rs: product", "weave/src/zdd/tree/traversable.rs", "weave/src/zdd/tree/combinations.rs", "weave/src/zdd/tree/universe.rs: unique_tree, hyper_tree", "weave/src/zdd2/forest/mod.rs: unit, many, unique", "weave/src/zdd2/forest/node/mod.rs: branch", "weave/src/zdd2/forest/node/union.rs", "weave/src/zdd/node/serialize.rs"]}
