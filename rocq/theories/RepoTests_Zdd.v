(** GENERATED by tools/rust_tests.py: the repository's own tests, transcribed and run on the
    model.  These are checks of the MODEL against the values the authors expect, not proofs of
    properties (those are in Properties_*.v). *)
From Coq Require Import String List Bool.
From Verif Require Import RepoPrelude_Zdd.
Import ListNotations.
Open Scope list_scope.
Open Scope bool_scope.

(** weave/src/zdd/node/arena.rs, get_has_true_leaf_saved, L50 *)
Example weave_zdd_node_arena_tests_get_has_true_leaf_saved : (
  let v_arena := NodeArena_new in
  let v_true_leaf := (m_expect (m_get v_arena Node_TRUE)) in
  teq (Node_Leaf true) v_true_leaf &&
  true) = true.
Proof. vm_compute. reflexivity. Qed.

(** weave/src/zdd/node/arena.rs, get_has_false_leaf_saved, L62 *)
Example weave_zdd_node_arena_tests_get_has_false_leaf_saved : (
  let v_arena := NodeArena_new in
  let v_false_leaf := (m_expect (m_get v_arena Node_FALSE)) in
  teq (Node_Leaf false) v_false_leaf &&
  true) = true.
Proof. vm_compute. reflexivity. Qed.

(** weave/src/zdd/node/arena.rs, add_returns_unique_node_id_for_different_nodes, L74 *)
Example weave_zdd_node_arena_tests_add_returns_unique_node_id_for_different_nodes : (
  let v_node1 := (Node_branch 1 Node_FALSE Node_TRUE) in
  let v_node2 := (Node_branch 2 Node_TRUE Node_FALSE) in
  let v_arena := NodeArena_new in
  let '(v_node1_id, v_arena) := (m_add v_arena v_node1) in
  let '(v_node2_id, v_arena) := (m_add v_arena v_node2) in
  teq v_node1 (m_expect (m_get v_arena v_node1_id)) &&
  teq v_node2 (m_expect (m_get v_arena v_node2_id)) &&
  true) = true.
Proof. vm_compute. reflexivity. Qed.

(** weave/src/zdd/node/arena.rs, add_returns_same_node_id_for_same_nodes, L94 *)
Example weave_zdd_node_arena_tests_add_returns_same_node_id_for_same_nodes : (
  let v_node1 := (Node_branch 1 Node_FALSE Node_TRUE) in
  let v_arena := NodeArena_new in
  let '(v_node1_id, v_arena) := (m_add v_arena v_node1) in
  let '(v_node2_id, v_arena) := (m_add v_arena v_node1) in
  teq v_node1_id v_node2_id &&
  true) = true.
Proof. vm_compute. reflexivity. Qed.

(** weave/src/zdd/node/parser.rs, test_parse_leafs, L57 *)
Example weave_zdd_node_parser_tests_test_parse_leafs : (
  teq (Ok (Node_Leaf true)) (parse_node_string "(T)"%string) &&
  teq (Ok (Node_Leaf false)) (parse_node_string "(F)"%string) &&
  true) = true.
Proof. vm_compute. reflexivity. Qed.

(** weave/src/zdd/node/parser.rs, test_parse_branch_no_whitespace, L67 *)
Example weave_zdd_node_parser_tests_test_parse_branch_no_whitespace : (
  teq (Ok (Node_branch 0 (Node_Leaf true) (Node_Leaf false))) (parse_node_string "(0(T)(F))"%string) &&
  true) = true.
Proof. vm_compute. reflexivity. Qed.

(** weave/src/zdd/node/parser.rs, test_parse_branch_with_whitespace, L77 *)
Example weave_zdd_node_parser_tests_test_parse_branch_with_whitespace : (
  teq (Ok (Node_branch 0 (Node_Leaf true) (Node_Leaf false))) (parse_node_string "(  0 (T)   
             (F) 	 )"%string) &&
  true) = true.
Proof. vm_compute. reflexivity. Qed.

(** weave/src/zdd/node/parser.rs, test_parse_branches_recursively, L87 *)
Example weave_zdd_node_parser_tests_test_parse_branches_recursively : (
  teq (Ok (Node_branch 0 (Node_Leaf true) (Node_branch 1 (Node_Leaf true) (Node_Leaf false)))) (parse_node_string "(0 (T)(1 (T)(F)))"%string) &&
  teq (Ok (Node_branch 0 (Node_branch 1 (Node_Leaf true) (Node_Leaf false)) (Node_Leaf true))) (parse_node_string "(0 (1 (T) (F)) (T))"%string) &&
  true) = true.
Proof. vm_compute. reflexivity. Qed.

(** weave/src/zdd/tree/mod.rs, universe_can_create_empty_tree, L150 *)
Example weave_zdd_tree_mod_tests_universe_can_create_empty_tree : (
  let v_universe := Universe_default in
  let v_empty_tree := (m_empty_tree v_universe) in
  teq (btreeset []) (m_combinations v_empty_tree) &&
  true) = true.
Proof. vm_compute. reflexivity. Qed.

(** weave/src/zdd/tree/mod.rs, universe_can_create_unit_tree, L161 *)
Example weave_zdd_tree_mod_tests_universe_can_create_unit_tree : (
  let v_universe := Universe_default in
  let v_unit_tree := (m_unit_tree v_universe) in
  teq (btreeset [(btreeset [])]) (m_combinations v_unit_tree) &&
  true) = true.
Proof. vm_compute. reflexivity. Qed.

(** weave/src/zdd/tree/mod.rs, universe_can_create_tree_that_represents_a_set_of_none, L172 *)
Example weave_zdd_tree_mod_tests_universe_can_create_tree_that_represents_a_set_of_none : (
  let v_universe := Universe_default in
  let v_tree := (m_tree v_universe []) in
  teq (m_unit_tree v_universe) v_tree &&
  teq (btreeset [(btreeset [])]) (m_combinations v_tree) &&
  true) = true.
Proof. vm_compute. reflexivity. Qed.

(** weave/src/zdd/tree/mod.rs, universe_can_create_tree_that_represents_a_set_of_one, L187 *)
Example weave_zdd_tree_mod_tests_universe_can_create_tree_that_represents_a_set_of_one : (
  let v_item := "1"%string in
  let v_universe := (Universe_from [v_item]) in
  teq (btreeset [(btreeset [v_item])]) (m_combinations (m_tree v_universe [v_item])) &&
  true) = true.
Proof. vm_compute. reflexivity. Qed.

(** weave/src/zdd/tree/mod.rs, universe_can_create_tree_that_represents_a_set_of_multiple, L199 *)
Example weave_zdd_tree_mod_tests_universe_can_create_tree_that_represents_a_set_of_multiple : (
  let v_item1 := "1"%string in
  let v_item2 := "2"%string in
  let v_universe := (Universe_from [v_item1; v_item2]) in
  let v_tree := (m_tree v_universe [v_item1; v_item2]) in
  teq (btreeset [(btreeset [v_item1; v_item2])]) (m_combinations v_tree) &&
  true) = true.
Proof. vm_compute. reflexivity. Qed.

(** weave/src/zdd/tree/mod.rs, universe_can_create_tree_that_represents_an_empty_set_unknown_items_are_ignored, L213 *)
Example weave_zdd_tree_mod_tests_universe_can_create_tree_that_represents_an_empty_set_unknown_items_are_ignored : (
  let v_item1 := "1"%string in
  let v_item2 := "2"%string in
  let v_universe := Universe_default in
  let v_tree := (m_tree v_universe [v_item1; v_item2]) in
  teq (m_unit_tree v_universe) v_tree &&
  teq (btreeset [(btreeset [])]) (m_combinations v_tree) &&
  true) = true.
Proof. vm_compute. reflexivity. Qed.

(** weave/src/zdd/tree/mod.rs, universe_can_create_tree_that_represents_a_set_unknown_items_are_ignored, L231 *)
Example weave_zdd_tree_mod_tests_universe_can_create_tree_that_represents_a_set_unknown_items_are_ignored : (
  let v_item1 := "1"%string in
  let v_item2 := "2"%string in
  let v_universe := (Universe_from [v_item1]) in
  let v_tree := (m_tree v_universe [v_item1; v_item2]) in
  teq (btreeset [(btreeset [v_item1])]) (m_combinations v_tree) &&
  true) = true.
Proof. vm_compute. reflexivity. Qed.

(** weave/src/zdd/tree/traversable.rs, test, L46 *)
Example weave_zdd_tree_traversable_tests_test : (
  let v_item1 := "1"%string in
  let v_item2 := "2"%string in
  let v_universe := (Universe_from [v_item1; v_item2]) in
  let v_tree := (m_tree v_universe [v_item1; v_item2]) in
  teq (TreeNode_Branch v_item1 (Box_new (TreeNode_Leaf false)) (Box_new (TreeNode_Branch v_item2 (Box_new (TreeNode_Leaf false)) (Box_new (TreeNode_Leaf true))))) (TreeNode_from v_tree) &&
  true) = true.
Proof. vm_compute. reflexivity. Qed.

(** weave/src/zdd/tree/restrict.rs, restrict_returns_tree_that_has_no_combinations_when_requiring_an_item_that_does_not_exist, L6 *)
Example weave_zdd_tree_restrict_tests_restrict_returns_tree_that_has_no_combinations_when_requiring_an_item_that_does_not_exist : (
  let v_item1 := "1"%string in
  let v_item2 := "2"%string in
  let v_universe := (Universe_from [v_item1; v_item2]) in
  let v_tree := (m_hyper_tree v_universe [[v_item1]]) in
  let v_tree := (m_restrict v_tree [v_item2] []) in
  teq (btreeset []) (m_combinations v_tree) &&
  true) = true.
Proof. vm_compute. reflexivity. Qed.

(** weave/src/zdd/tree/restrict.rs, restrict_returns_tree_that_has_no_combinations_when_requiring, L23 *)
Example weave_zdd_tree_restrict_tests_restrict_returns_tree_that_has_no_combinations_when_requiring : (
  let v_item1 := "1"%string in
  let v_item2 := "2"%string in
  let v_universe := (Universe_from [v_item1; v_item2]) in
  let v_tree := (m_hyper_tree v_universe [[v_item1]; [v_item2]]) in
  let v_tree := (m_restrict v_tree [v_item1; v_item2] []) in
  teq (btreeset []) (m_combinations v_tree) &&
  true) = true.
Proof. vm_compute. reflexivity. Qed.

(** weave/src/zdd/tree/restrict.rs, restrict_returns_tree_that_has_one_combination_when_requiring, L41 *)
Example weave_zdd_tree_restrict_tests_restrict_returns_tree_that_has_one_combination_when_requiring : (
  let v_item1 := "1"%string in
  let v_item2 := "2"%string in
  let v_universe := (Universe_from [v_item1; v_item2]) in
  let v_tree := (m_hyper_tree v_universe [[v_item1]; [v_item2]]) in
  let v_tree := (m_restrict v_tree [v_item1] []) in
  teq (btreeset [(btreeset [v_item1])]) (m_combinations v_tree) &&
  true) = true.
Proof. vm_compute. reflexivity. Qed.

(** weave/src/zdd/tree/restrict.rs, restrict_returns_tree_that_has_many_combination_when_requiring, L59 *)
Example weave_zdd_tree_restrict_tests_restrict_returns_tree_that_has_many_combination_when_requiring : (
  let v_item1 := "1"%string in
  let v_item2 := "2"%string in
  let v_item3 := "3"%string in
  let v_universe := (Universe_from [v_item1; v_item2; v_item3]) in
  let v_tree := (m_hyper_tree v_universe [[v_item1]; [v_item2]; [v_item3]; [v_item1; v_item2]; [v_item1; v_item3]; [v_item2; v_item3]]) in
  (let v_tree := (m_restrict v_tree [v_item1] []) in
  teq (btreeset [(btreeset [v_item1]); (btreeset [v_item1; v_item2]); (btreeset [v_item1; v_item3])]) (m_combinations v_tree) &&
  true) &&
  (let v_tree := (m_restrict v_tree [v_item1; v_item2] []) in
  teq (btreeset [(btreeset [v_item1; v_item2])]) (m_combinations v_tree) &&
  true) &&
  true) = true.
Proof. vm_compute. reflexivity. Qed.

(** weave/src/zdd/tree/restrict.rs, restrict_returns_tree_that_has_no_combinations_when_excluding, L98 *)
Example weave_zdd_tree_restrict_tests_restrict_returns_tree_that_has_no_combinations_when_excluding : (
  let v_item1 := "1"%string in
  let v_item2 := "2"%string in
  let v_universe := (Universe_from [v_item1; v_item2]) in
  let v_tree := (m_hyper_tree v_universe [[v_item1]; [v_item2]]) in
  let v_tree := (m_restrict v_tree [] [v_item1; v_item2]) in
  teq (btreeset []) (m_combinations v_tree) &&
  true) = true.
Proof. vm_compute. reflexivity. Qed.

(** weave/src/zdd/tree/restrict.rs, restrict_returns_tree_that_has_one_combination_when_excluding, L116 *)
Example weave_zdd_tree_restrict_tests_restrict_returns_tree_that_has_one_combination_when_excluding : (
  let v_item1 := "1"%string in
  let v_item2 := "2"%string in
  let v_universe := (Universe_from [v_item1; v_item2]) in
  let v_tree := (m_hyper_tree v_universe [[v_item1]; [v_item2]]) in
  let v_tree := (m_restrict v_tree [] [v_item1]) in
  teq (btreeset [(btreeset [v_item2])]) (m_combinations v_tree) &&
  true) = true.
Proof. vm_compute. reflexivity. Qed.

(** weave/src/zdd/tree/restrict.rs, restrict_returns_tree_that_has_many_combination_when_excluding, L134 *)
Example weave_zdd_tree_restrict_tests_restrict_returns_tree_that_has_many_combination_when_excluding : (
  let v_item1 := "1"%string in
  let v_item2 := "2"%string in
  let v_item3 := "3"%string in
  let v_universe := (Universe_from [v_item1; v_item2; v_item3]) in
  let v_tree := (m_hyper_tree v_universe [[v_item1]; [v_item2]; [v_item3]; [v_item1; v_item2]; [v_item1; v_item3]; [v_item2; v_item3]]) in
  let v_tree := (m_restrict v_tree [] [v_item1]) in
  teq (btreeset [(btreeset [v_item2]); (btreeset [v_item2; v_item3]); (btreeset [v_item3])]) (m_combinations v_tree) &&
  true) = true.
Proof. vm_compute. reflexivity. Qed.

(** weave/src/zdd/tree/combinations.rs, hyper_tree_with_two_sets_with_no_overlap, L63 *)
Example weave_zdd_tree_combinations_tests_hyper_tree_with_two_sets_with_no_overlap : (
  let v_item1 := "1"%string in
  let v_item2 := "2"%string in
  let v_universe := (Universe_from [v_item1; v_item2]) in
  let v_tree := (m_hyper_tree v_universe [[v_item1]; [v_item2]]) in
  teq (btreeset [(btreeset [v_item1]); (btreeset [v_item2])]) (m_combinations_recursive v_tree) &&
  teq (btreeset [(btreeset [v_item1]); (btreeset [v_item2])]) (m_combinations v_tree) &&
  teq (btreeset [(btreeset [v_item1])]) (m_combinations_with v_tree [] [v_item2]) &&
  teq (btreeset [(btreeset [v_item1])]) (m_combinations_with v_tree [v_item1] []) &&
  true) = true.
Proof. vm_compute. reflexivity. Qed.

(** weave/src/zdd/tree/combinations.rs, unique_tree_with_two_sets_with_no_overlap, L95 *)
Example weave_zdd_tree_combinations_tests_unique_tree_with_two_sets_with_no_overlap : (
  let v_item1 := "1"%string in
  let v_item2 := "2"%string in
  let v_universe := (Universe_from [v_item1; v_item2]) in
  let v_tree := (m_unique_tree v_universe [v_item1; v_item2; v_item2]) in
  teq (btreeset [(btreeset [v_item1]); (btreeset [v_item2])]) (m_combinations_recursive v_tree) &&
  teq (btreeset [(btreeset [v_item1]); (btreeset [v_item2])]) (m_combinations v_tree) &&
  teq (btreeset [(btreeset [v_item1])]) (m_combinations_with v_tree [] [v_item2]) &&
  teq (btreeset [(btreeset [v_item1])]) (m_combinations_with v_tree [v_item1] []) &&
  true) = true.
Proof. vm_compute. reflexivity. Qed.

(** weave/src/zdd/tree/combinations.rs, tree_with_two_sets_with_one_overlap, L128 *)
Example weave_zdd_tree_combinations_tests_tree_with_two_sets_with_one_overlap : (
  let v_item1 := "1"%string in
  let v_item2 := "2"%string in
  let v_item3 := "3"%string in
  let v_universe := (Universe_from [v_item1; v_item2; v_item3]) in
  let v_tree := (m_hyper_tree v_universe [[v_item1; v_item2]; [v_item2; v_item3]]) in
  teq (btreeset [(btreeset [v_item1; v_item2]); (btreeset [v_item2; v_item3])]) (m_combinations v_tree) &&
  teq (btreeset []) (m_combinations_with v_tree [] [v_item2]) &&
  teq (btreeset [(btreeset [v_item2; v_item3])]) (m_combinations_with v_tree [] [v_item1]) &&
  teq (btreeset [(btreeset [v_item1; v_item2])]) (m_combinations_with v_tree [v_item1] []) &&
  true) = true.
Proof. vm_compute. reflexivity. Qed.

(** weave/src/zdd/tree/summarize.rs, summarize_returns_all_excluded_for_empty_tree, L47 *)
Example weave_zdd_tree_summarize_summarize_tests_summarize_returns_all_excluded_for_empty_tree : (
  let v_item1 := "1"%string in
  let v_item2 := "2"%string in
  let v_universe := (Universe_from [v_item1; v_item2]) in
  let v_tree := (m_empty_tree v_universe) in
  teq [(ItemStatus_Excluded v_item1); (ItemStatus_Excluded v_item2)] (m_summarize v_tree [] []) &&
  true) = true.
Proof. vm_compute. reflexivity. Qed.

(** weave/src/zdd/tree/summarize.rs, summarize_returns_available_item_status_if_item_is_in_all_combinations, L64 *)
Example weave_zdd_tree_summarize_summarize_tests_summarize_returns_available_item_status_if_item_is_in_all_combinations : (
  let v_item1 := "1"%string in
  let v_item2 := "2"%string in
  let v_universe := (Universe_from [v_item1; v_item2]) in
  let v_tree := (m_hyper_tree v_universe [[v_item1; v_item2]; [v_item1]]) in
  teq [(ItemStatus_Required v_item1); (ItemStatus_Available v_item2)] (m_summarize v_tree [] []) &&
  true) = true.
Proof. vm_compute. reflexivity. Qed.

(** weave/src/zdd/tree/summarize.rs, summarize_returns_available_item_status_if_item_is_in_some_combinations, L84 *)
Example weave_zdd_tree_summarize_summarize_tests_summarize_returns_available_item_status_if_item_is_in_some_combinations : (
  let v_item1 := "1"%string in
  let v_item2 := "2"%string in
  let v_item3 := "3"%string in
  let v_item4 := "4"%string in
  let v_universe := (Universe_from [v_item1; v_item2; v_item3; v_item4]) in
  let v_tree := (m_hyper_tree v_universe [[v_item1; v_item3]; [v_item1; v_item4]; [v_item2; v_item3]; [v_item2; v_item4]]) in
  teq [(ItemStatus_Available v_item1); (ItemStatus_Available v_item2); (ItemStatus_Available v_item3); (ItemStatus_Available v_item4)] (m_summarize v_tree [] []) &&
  true) = true.
Proof. vm_compute. reflexivity. Qed.

(** weave/src/zdd/tree/summarize.rs, summarize_returns_selected_item_status_if_item_is_selected, L111 *)
Example weave_zdd_tree_summarize_summarize_tests_summarize_returns_selected_item_status_if_item_is_selected : (
  let v_item1 := "1"%string in
  let v_item2 := "2"%string in
  let v_item3 := "3"%string in
  let v_item4 := "4"%string in
  let v_universe := (Universe_from [v_item1; v_item2; v_item3; v_item4]) in
  let v_tree := (m_hyper_tree v_universe [[v_item1; v_item3]; [v_item1; v_item4]; [v_item2; v_item3]; [v_item2; v_item4]]) in
  teq [(ItemStatus_Excluded v_item2); (ItemStatus_Available v_item3); (ItemStatus_Available v_item4); (ItemStatus_Selected v_item1)] (m_summarize v_tree [v_item1] []) &&
  true) = true.
Proof. vm_compute. reflexivity. Qed.

(** weave/src/zdd/tree/intersect.rs, intersect_returns_tree_that_has_shared_combination, L48 *)
Example weave_zdd_tree_intersect_tests_intersect_returns_tree_that_has_shared_combination : (
  let v_item1 := "1"%string in
  let v_item2 := "2"%string in
  let v_universe := (Universe_from [v_item1; v_item2]) in
  let v_tree1 := (m_tree v_universe [v_item1; v_item2]) in
  let v_tree2 := (m_tree v_universe [v_item2]) in
  let v_tree := (Tree_intersect v_tree1 v_tree2) in
  teq (btreeset [(btreeset [v_item1; v_item2])]) (m_combinations v_tree) &&
  let v_tree := (Tree_intersect v_tree2 v_tree1) in
  teq (btreeset [(btreeset [v_item1; v_item2])]) (m_combinations v_tree) &&
  let v_expected := (m_hyper_tree v_universe [[v_item1; v_item2]]) in
  teq v_expected v_tree &&
  true) = true.
Proof. vm_compute. reflexivity. Qed.

(** weave/src/zdd/tree/intersect.rs, intersect_returns_identity_when_trees_are_equal, L76 *)
Example weave_zdd_tree_intersect_tests_intersect_returns_identity_when_trees_are_equal : (
  let v_item1 := "1"%string in
  let v_item2 := "2"%string in
  let v_universe := (Universe_from [v_item1; v_item2]) in
  let v_tree1 := (m_tree v_universe [v_item1]) in
  let v_tree2 := (m_tree v_universe [v_item1]) in
  let v_tree := (Tree_intersect v_tree1 v_tree2) in
  teq (btreeset [(btreeset [v_item1])]) (m_combinations v_tree) &&
  let v_tree := (Tree_intersect v_tree2 v_tree1) in
  teq (btreeset [(btreeset [v_item1])]) (m_combinations v_tree) &&
  let v_expected := (m_hyper_tree v_universe [[v_item1]]) in
  teq v_expected v_tree &&
  true) = true.
Proof. vm_compute. reflexivity. Qed.

(** weave/src/zdd/tree/intersect.rs, intersect_returns_empty_when_one_tree_is_empty, L104 *)
Example weave_zdd_tree_intersect_tests_intersect_returns_empty_when_one_tree_is_empty : (
  let v_item1 := "1"%string in
  let v_item2 := "2"%string in
  let v_universe := (Universe_from [v_item1; v_item2]) in
  let v_tree1 := (m_empty_tree v_universe) in
  let v_tree2 := (m_tree v_universe [v_item1]) in
  let v_tree := (Tree_intersect v_tree1 v_tree2) in
  teq (btreeset []) (m_combinations v_tree) &&
  let v_tree := (Tree_intersect v_tree2 v_tree1) in
  teq (btreeset []) (m_combinations v_tree) &&
  let v_expected := (m_hyper_tree v_universe []) in
  teq v_expected v_tree &&
  true) = true.
Proof. vm_compute. reflexivity. Qed.

(** weave/src/zdd/tree/intersect.rs, intersect_returns_unit_when_one_tree_is_unit, L132 *)
Example weave_zdd_tree_intersect_tests_intersect_returns_unit_when_one_tree_is_unit : (
  let v_item1 := "1"%string in
  let v_item2 := "2"%string in
  let v_universe := (Universe_from [v_item1; v_item2]) in
  let v_tree1 := (m_unit_tree v_universe) in
  let v_tree2 := (m_tree v_universe [v_item1]) in
  let v_tree := (Tree_intersect v_tree1 v_tree2) in
  teq (btreeset [(btreeset [v_item1])]) (m_combinations v_tree) &&
  let v_tree := (Tree_intersect v_tree2 v_tree1) in
  teq (btreeset [(btreeset [v_item1])]) (m_combinations v_tree) &&
  let v_expected := (m_hyper_tree v_universe [[v_item1]]) in
  teq v_expected v_tree &&
  true) = true.
Proof. vm_compute. reflexivity. Qed.

(** weave/src/zdd/tree/intersect.rs, intersect_returns_unit_when_both_trees_are_unit, L160 *)
Example weave_zdd_tree_intersect_tests_intersect_returns_unit_when_both_trees_are_unit : (
  let v_universe := Universe_default in
  let v_tree1 := (m_unit_tree v_universe) in
  let v_tree2 := (m_unit_tree v_universe) in
  let v_tree := (Tree_intersect v_tree1 v_tree2) in
  teq (btreeset [(btreeset [])]) (m_combinations v_tree) &&
  let v_expected := (m_hyper_tree v_universe [[]]) in
  teq v_expected v_tree &&
  true) = true.
Proof. vm_compute. reflexivity. Qed.

(** weave/src/zdd/tree/intersect.rs, intersect_returns_empty_when_both_trees_are_empty, L179 *)
Example weave_zdd_tree_intersect_tests_intersect_returns_empty_when_both_trees_are_empty : (
  let v_universe := Universe_default in
  let v_tree1 := (m_empty_tree v_universe) in
  let v_tree2 := (m_empty_tree v_universe) in
  let v_tree := (Tree_intersect v_tree1 v_tree2) in
  teq (btreeset []) (m_combinations v_tree) &&
  let v_expected := (m_hyper_tree v_universe []) in
  teq v_expected v_tree &&
  true) = true.
Proof. vm_compute. reflexivity. Qed.

(** weave/src/zdd/tree/intersect.rs, intersect_returns_empty_when_there_are_no_common_combinations_THIS_MIGHT_BE_A_BUG, L198 *)
Example weave_zdd_tree_intersect_tests_intersect_returns_empty_when_there_are_no_common_combinations_THIS_MIGHT_BE_A_BUG : (
  let v_item1 := "1"%string in
  let v_item2 := "2"%string in
  let v_item3 := "3"%string in
  let v_universe := (Universe_from [v_item1; v_item2; v_item3]) in
  let v_tree1 := (m_tree v_universe [v_item1; v_item2]) in
  let v_tree2 := (m_tree v_universe [v_item3]) in
  let v_tree := (Tree_intersect v_tree1 v_tree2) in
  teq (btreeset [(btreeset [v_item1; v_item2; v_item3])]) (m_combinations v_tree) &&
  let v_tree := (Tree_intersect v_tree2 v_tree1) in
  teq (btreeset [(btreeset [v_item1; v_item2; v_item3])]) (m_combinations v_tree) &&
  let v_expected := (m_hyper_tree v_universe [[v_item1; v_item2; v_item3]]) in
  teq v_expected v_tree &&
  true) = true.
Proof. vm_compute. reflexivity. Qed.

(** weave/src/zdd/tree/intersect.rs, intersect_returns_empty_when_there_are_no_common_items_THIS_MIGHT_BE_A_BUG, L227 *)
Example weave_zdd_tree_intersect_tests_intersect_returns_empty_when_there_are_no_common_items_THIS_MIGHT_BE_A_BUG : (
  let v_item1 := "1"%string in
  let v_item2 := "2"%string in
  let v_universe := (Universe_from [v_item1; v_item2]) in
  let v_tree1 := (m_tree v_universe [v_item1]) in
  let v_tree2 := (m_tree v_universe [v_item2]) in
  let v_tree := (Tree_intersect v_tree1 v_tree2) in
  teq (btreeset [(btreeset [v_item1; v_item2])]) (m_combinations v_tree) &&
  let v_tree := (Tree_intersect v_tree2 v_tree1) in
  teq (btreeset [(btreeset [v_item1; v_item2])]) (m_combinations v_tree) &&
  let v_expected := (m_hyper_tree v_universe [[v_item1; v_item2]]) in
  teq v_expected v_tree &&
  true) = true.
Proof. vm_compute. reflexivity. Qed.

(** weave/src/zdd/tree/union.rs, union_returns_tree_that_has_both_combinations, L60 *)
Example weave_zdd_tree_union_tests_union_returns_tree_that_has_both_combinations : (
  let v_item1 := "1"%string in
  let v_item2 := "2"%string in
  let v_universe := (Universe_from [v_item1; v_item2]) in
  let v_tree1 := (m_tree v_universe [v_item1]) in
  let v_tree2 := (m_tree v_universe [v_item2]) in
  let v_tree := (Tree_union v_tree1 v_tree2) in
  teq (btreeset [(btreeset [v_item1]); (btreeset [v_item2])]) (m_combinations v_tree) &&
  let v_tree := (Tree_union v_tree2 v_tree1) in
  teq (btreeset [(btreeset [v_item1]); (btreeset [v_item2])]) (m_combinations v_tree) &&
  let v_expected := (m_hyper_tree v_universe [[v_item1]; [v_item2]]) in
  teq v_expected v_tree &&
  true) = true.
Proof. vm_compute. reflexivity. Qed.

(** weave/src/zdd/tree/union.rs, union_returns_identity_when_trees_are_equal, L88 *)
Example weave_zdd_tree_union_tests_union_returns_identity_when_trees_are_equal : (
  let v_item1 := "1"%string in
  let v_item2 := "2"%string in
  let v_universe := (Universe_from [v_item1; v_item2]) in
  let v_tree1 := (m_tree v_universe [v_item1]) in
  let v_tree2 := (m_tree v_universe [v_item1]) in
  let v_tree := (Tree_union v_tree1 v_tree2) in
  teq (btreeset [(btreeset [v_item1])]) (m_combinations v_tree) &&
  let v_tree := (Tree_union v_tree2 v_tree1) in
  teq (btreeset [(btreeset [v_item1])]) (m_combinations v_tree) &&
  let v_expected := (m_hyper_tree v_universe [[v_item1]]) in
  teq v_expected v_tree &&
  true) = true.
Proof. vm_compute. reflexivity. Qed.

(** weave/src/zdd/tree/union.rs, union_returns_identity_when_one_tree_is_empty, L116 *)
Example weave_zdd_tree_union_tests_union_returns_identity_when_one_tree_is_empty : (
  let v_item1 := "1"%string in
  let v_item2 := "2"%string in
  let v_universe := (Universe_from [v_item1; v_item2]) in
  let v_tree1 := (m_empty_tree v_universe) in
  let v_tree2 := (m_tree v_universe [v_item1]) in
  let v_tree := (Tree_union v_tree1 v_tree2) in
  teq (btreeset [(btreeset [v_item1])]) (m_combinations v_tree) &&
  let v_tree := (Tree_union v_tree2 v_tree1) in
  teq (btreeset [(btreeset [v_item1])]) (m_combinations v_tree) &&
  let v_expected := (m_hyper_tree v_universe [[v_item1]]) in
  teq v_expected v_tree &&
  true) = true.
Proof. vm_compute. reflexivity. Qed.

(** weave/src/zdd/tree/union.rs, union_returns_correct_when_one_tree_is_unit, L144 *)
Example weave_zdd_tree_union_tests_union_returns_correct_when_one_tree_is_unit : (
  let v_item1 := "1"%string in
  let v_item2 := "2"%string in
  let v_universe := (Universe_from [v_item1; v_item2]) in
  let v_tree1 := (m_unit_tree v_universe) in
  let v_tree2 := (m_tree v_universe [v_item1]) in
  let v_tree := (Tree_union v_tree1 v_tree2) in
  teq (btreeset [(btreeset [v_item1]); (btreeset [])]) (m_combinations v_tree) &&
  let v_tree := (Tree_union v_tree2 v_tree1) in
  teq (btreeset [(btreeset [v_item1]); (btreeset [])]) (m_combinations v_tree) &&
  let v_expected := (m_hyper_tree v_universe [[v_item1]; []]) in
  teq v_expected v_tree &&
  true) = true.
Proof. vm_compute. reflexivity. Qed.

(** weave/src/zdd/tree/union.rs, union_returns_unit_when_both_trees_are_unit, L172 *)
Example weave_zdd_tree_union_tests_union_returns_unit_when_both_trees_are_unit : (
  let v_universe := Universe_default in
  let v_tree1 := (m_unit_tree v_universe) in
  let v_tree2 := (m_unit_tree v_universe) in
  let v_tree := (Tree_union v_tree1 v_tree2) in
  teq (btreeset [(btreeset [])]) (m_combinations v_tree) &&
  let v_expected := (m_hyper_tree v_universe [[]]) in
  teq v_expected v_tree &&
  true) = true.
Proof. vm_compute. reflexivity. Qed.

(** weave/src/zdd/tree/union.rs, union_returns_empty_when_both_trees_are_empty, L191 *)
Example weave_zdd_tree_union_tests_union_returns_empty_when_both_trees_are_empty : (
  let v_universe := Universe_default in
  let v_tree1 := (m_empty_tree v_universe) in
  let v_tree2 := (m_empty_tree v_universe) in
  let v_tree := (Tree_union v_tree1 v_tree2) in
  teq (btreeset []) (m_combinations v_tree) &&
  let v_expected := (m_hyper_tree v_universe []) in
  teq v_expected v_tree &&
  true) = true.
Proof. vm_compute. reflexivity. Qed.

(** weave/src/zdd/tree/product.rs, product_returns_tree_that_has_correct_combination, L48 *)
Example weave_zdd_tree_product_tests_product_returns_tree_that_has_correct_combination : (
  let v_item1 := "1"%string in
  let v_item2 := "2"%string in
  let v_universe := (Universe_from [v_item1; v_item2]) in
  let v_tree1 := (m_tree v_universe [v_item1]) in
  let v_tree2 := (m_tree v_universe [v_item2]) in
  let v_tree := (Tree_product v_tree1 v_tree2) in
  teq (btreeset [(btreeset [v_item1; v_item2])]) (m_combinations v_tree) &&
  let v_tree := (Tree_product v_tree2 v_tree1) in
  teq (btreeset [(btreeset [v_item1; v_item2])]) (m_combinations v_tree) &&
  let v_expected := (m_hyper_tree v_universe [[v_item1; v_item2]]) in
  teq v_expected v_tree &&
  true) = true.
Proof. vm_compute. reflexivity. Qed.

(** weave/src/zdd/tree/product.rs, product_returns_tree_that_has_correct_combinations_one, L76 *)
Example weave_zdd_tree_product_tests_product_returns_tree_that_has_correct_combinations_one : (
  let v_item1 := "1"%string in
  let v_item2 := "2"%string in
  let v_item3 := "3"%string in
  let v_item4 := "4"%string in
  let v_universe := (Universe_from [v_item1; v_item2; v_item3; v_item4]) in
  let v_tree1 := (m_unique_tree v_universe [v_item1; v_item2; v_item3]) in
  let v_tree2 := (m_unique_tree v_universe [v_item4]) in
  let v_expected := (btreeset [(btreeset [v_item1; v_item4]); (btreeset [v_item2; v_item4]); (btreeset [v_item3; v_item4])]) in
  let v_tree := (Tree_product v_tree1 v_tree2) in
  teq v_expected (m_combinations v_tree) &&
  let v_tree := (Tree_product v_tree2 v_tree1) in
  teq v_expected (m_combinations v_tree) &&
  let v_expected := (m_hyper_tree v_universe [[v_item1; v_item4]; [v_item2; v_item4]; [v_item3; v_item4]]) in
  teq v_expected v_tree &&
  true) = true.
Proof. vm_compute. reflexivity. Qed.

(** weave/src/zdd/tree/product.rs, product_returns_tree_that_has_correct_combinations_many, L116 *)
Example weave_zdd_tree_product_tests_product_returns_tree_that_has_correct_combinations_many : (
  let v_item1 := "1"%string in
  let v_item2 := "2"%string in
  let v_item3 := "3"%string in
  let v_item4 := "4"%string in
  let v_universe := (Universe_from [v_item1; v_item2; v_item3; v_item4]) in
  let v_tree1 := (m_unique_tree v_universe [v_item1; v_item2]) in
  let v_tree2 := (m_unique_tree v_universe [v_item3; v_item4]) in
  let v_expected := (btreeset [(btreeset [v_item1; v_item3]); (btreeset [v_item1; v_item4]); (btreeset [v_item2; v_item3]); (btreeset [v_item2; v_item4])]) in
  let v_tree := (Tree_product v_tree1 v_tree2) in
  teq v_expected (m_combinations v_tree) &&
  let v_tree := (Tree_product v_tree2 v_tree1) in
  teq v_expected (m_combinations v_tree) &&
  let v_expected := (m_hyper_tree v_universe [[v_item1; v_item3]; [v_item1; v_item4]; [v_item2; v_item3]; [v_item2; v_item4]]) in
  teq v_expected v_tree &&
  true) = true.
Proof. vm_compute. reflexivity. Qed.

(** weave/tests/node_zdd_serde.rs, tokenize_small_node, L11 *)
Example weave_tests_node_zdd_serde_tests_tokenize_small_node : (
  let v_item1 := "1"%string in
  let v_item2 := "2"%string in
  let v_universe := (Universe_from [v_item1; v_item2]) in
  let v_tree := (m_hyper_tree v_universe [[v_item1; v_item2]]) in
  assert_tokens v_tree [(Token_Struct "Tree"%string 2); (Token_Str "root"%string); (Token_NewtypeStruct "Node"%string); (Token_Str "(0 (F) (1 (F) (T)))"%string); (Token_Str "universe"%string); (Token_Struct "Universe"%string 2); (Token_Str "items"%string); (Token_Seq (Some 2)); (Token_BorrowedStr "1"%string); (Token_BorrowedStr "2"%string); Token_SeqEnd; (Token_Str "item_index"%string); (Token_Map (Some 2)); (Token_BorrowedStr "1"%string); (Token_U64 0); (Token_BorrowedStr "2"%string); (Token_U64 1); Token_MapEnd; Token_StructEnd; Token_StructEnd] &&
  true) = true.
Proof. vm_compute. reflexivity. Qed.
