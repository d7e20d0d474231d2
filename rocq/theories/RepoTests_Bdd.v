(** GENERATED by tools/rust_tests.py: the repository's own tests, transcribed and run on the
    model.  These are checks of the MODEL against the values the authors expect, not proofs of
    properties (those are in Properties_*.v). *)
From Coq Require Import String List Bool.
From Verif Require Import RepoPrelude_Bdd.
Import ListNotations.
Open Scope list_scope.
Open Scope bool_scope.

(** bowtie-core/src/bdd/node/reduce.rs, or_can_be_reduced_if_low_and_high_are_equal, L31 *)
Example bowtie_core_bdd_node_reduce_reduce_tests_or_can_be_reduced_if_low_and_high_are_equal : (
  let v_jeans := (Item_new "pants:jeans"%string) in
  let v_blue_shirt := (Item_new "shirts:blue"%string) in
  let v_low_branch := (Node_positive_branch v_jeans) in
  let v_high_branch := (Node_positive_branch v_jeans) in
  let v_parent_branch := (Node_branch v_blue_shirt v_low_branch v_high_branch) in
  let v_actual := (Node_reduce v_parent_branch) in
  let v_expected := (Node_positive_branch v_jeans) in
  teq v_expected v_actual &&
  true) = true.
Proof. vm_compute. reflexivity. Qed.

(** bowtie-core/src/bdd/node/reduce.rs, sibling_relationship_cannot_be_reduced_in_nodes, L50 *)
Example bowtie_core_bdd_node_reduce_reduce_tests_sibling_relationship_cannot_be_reduced_in_nodes : (
  let v_jeans := (Item_new "pants:jeans"%string) in
  let v_slacks := (Item_new "pants:slacks"%string) in
  let v_low_branch := (Node_negative_branch v_jeans) in
  let v_high_branch := (Node_positive_branch v_jeans) in
  let v_parent_branch := (Node_branch v_slacks v_low_branch v_high_branch) in
  let v_actual := (Node_reduce v_parent_branch) in
  let v_expected := (Node_branch v_slacks v_low_branch v_high_branch) in
  teq v_expected v_actual &&
  true) = true.
Proof. vm_compute. reflexivity. Qed.

(** bowtie-core/src/bdd/node/reduce.rs, exclusion_rule_can_be_reduced, L68 *)
Example bowtie_core_bdd_node_reduce_reduce_tests_exclusion_rule_can_be_reduced : (
  let v_jeans := (Item_new "pants:jeans"%string) in
  let v_blue_shirt := (Item_new "shirts:blue"%string) in
  let v_low_branch := (Node_branch v_jeans Node_TRUE_LEAF Node_TRUE_LEAF) in
  let v_high_branch := (Node_negative_branch v_jeans) in
  let v_parent_branch := (Node_branch v_blue_shirt v_low_branch v_high_branch) in
  let v_actual := (Node_reduce v_parent_branch) in
  let v_expected := (Node_branch v_blue_shirt Node_TRUE_LEAF v_high_branch) in
  teq v_expected v_actual &&
  true) = true.
Proof. vm_compute. reflexivity. Qed.

(** bowtie-core/src/bdd/node/reduce.rs, inclusion_rule_can_be_reduced, L86 *)
Example bowtie_core_bdd_node_reduce_reduce_tests_inclusion_rule_can_be_reduced : (
  let v_jeans := (Item_new "pants:jeans"%string) in
  let v_blue_shirt := (Item_new "shirts:blue"%string) in
  let v_low_branch := (Node_branch v_jeans Node_TRUE_LEAF Node_TRUE_LEAF) in
  let v_high_branch := (Node_positive_branch v_jeans) in
  let v_parent_branch := (Node_branch v_blue_shirt v_low_branch v_high_branch) in
  let v_actual := (Node_reduce v_parent_branch) in
  let v_expected := (Node_branch v_blue_shirt Node_TRUE_LEAF v_high_branch) in
  teq v_expected v_actual &&
  true) = true.
Proof. vm_compute. reflexivity. Qed.

(** bowtie-core/src/bdd/node/hash_structure.rs, hash_structure_of_true_leaf, L37 *)
Example bowtie_core_bdd_node_hash_structure_tests_hash_structure_of_true_leaf : (
  let v_root := Node_TRUE_LEAF in
  teq (hash v_root) (Node_hash_structure v_root) &&
  true) = true.
Proof. vm_compute. reflexivity. Qed.

(** bowtie-core/src/bdd/node/hash_structure.rs, hash_structure_of_false_leaf, L47 *)
Example bowtie_core_bdd_node_hash_structure_tests_hash_structure_of_false_leaf : (
  let v_root := Node_FALSE_LEAF in
  teq (hash v_root) (Node_hash_structure v_root) &&
  true) = true.
Proof. vm_compute. reflexivity. Qed.

(** bowtie-core/src/bdd/node/hash_structure.rs, hash_structure_of_branch_with_depth_1, L57 *)
Example bowtie_core_bdd_node_hash_structure_tests_hash_structure_of_branch_with_depth_1 : (
  let v_red := (Item_new "shirts:red"%string) in
  let v_root := (Node_branch v_red Node_FALSE_LEAF Node_TRUE_LEAF) in
  teq (hash_two (hash Node_FALSE_LEAF) (hash Node_TRUE_LEAF)) (Node_hash_structure v_root) &&
  true) = true.
Proof. vm_compute. reflexivity. Qed.

(** bowtie-core/src/bdd/node/hash_structure.rs, hash_structure_of_branch_with_unbalanced_depth_2, L71 *)
Example bowtie_core_bdd_node_hash_structure_tests_hash_structure_of_branch_with_unbalanced_depth_2 : (
  let v_red := (Item_new "shirts:red"%string) in
  let v_blue := (Item_new "shirts:blue"%string) in
  let v_red_branch := (Node_branch v_red Node_FALSE_LEAF Node_TRUE_LEAF) in
  let v_root := (Node_branch v_blue Node_FALSE_LEAF v_red_branch) in
  teq (hash_two (hash Node_FALSE_LEAF) (hash_two (hash Node_FALSE_LEAF) (hash Node_TRUE_LEAF))) (Node_hash_structure v_root) &&
  true) = true.
Proof. vm_compute. reflexivity. Qed.

(** bowtie-core/src/bdd/node/hash_structure.rs, hash_structure_of_branch_with_balanced_depth_2, L91 *)
Example bowtie_core_bdd_node_hash_structure_tests_hash_structure_of_branch_with_balanced_depth_2 : (
  let v_red := (Item_new "shirts:red"%string) in
  let v_blue := (Item_new "shirts:blue"%string) in
  let v_green := (Item_new "shirts:green"%string) in
  let v_red_branch := (Node_branch v_red Node_FALSE_LEAF Node_TRUE_LEAF) in
  let v_blue_branch := (Node_branch v_blue Node_TRUE_LEAF Node_FALSE_LEAF) in
  let v_root := (Node_branch v_green v_blue_branch v_red_branch) in
  teq (hash_two (hash_two (hash Node_TRUE_LEAF) (hash Node_FALSE_LEAF)) (hash_two (hash Node_FALSE_LEAF) (hash Node_TRUE_LEAF))) (Node_hash_structure v_root) &&
  true) = true.
Proof. vm_compute. reflexivity. Qed.

(** bowtie-core/src/bdd/node/restrict.rs, selecting_child_returns_correct_node, L36 *)
Example bowtie_core_bdd_node_restrict_restrict_tests_selecting_child_returns_correct_node : (
  let v_jeans := (Item_new "pants:jeans"%string) in
  let v_slacks := (Item_new "pants:slacks"%string) in
  let v_low_branch := (Node_negative_branch v_jeans) in
  let v_high_branch := (Node_positive_branch v_jeans) in
  let v_parent_branch := (Node_branch v_slacks v_low_branch v_high_branch) in
  let v_actual := (Node_restrict v_parent_branch v_jeans true) in
  let v_expected := (Node_positive_branch v_slacks) in
  teq v_expected v_actual &&
  let v_actual := (Node_restrict v_parent_branch v_jeans false) in
  let v_expected := (Node_negative_branch v_slacks) in
  teq v_expected v_actual &&
  true) = true.
Proof. vm_compute. reflexivity. Qed.

(** bowtie-core/src/bdd/node/restrict.rs, selecting_parent_returns_correct_node, L63 *)
Example bowtie_core_bdd_node_restrict_restrict_tests_selecting_parent_returns_correct_node : (
  let v_jeans := (Item_new "pants:jeans"%string) in
  let v_slacks := (Item_new "pants:slacks"%string) in
  let v_low_branch := (Node_negative_branch v_jeans) in
  let v_high_branch := (Node_positive_branch v_jeans) in
  let v_parent_branch := (Node_branch v_slacks v_low_branch v_high_branch) in
  let v_actual := (Node_restrict v_parent_branch v_slacks true) in
  let v_expected := (Node_positive_branch v_jeans) in
  teq v_expected v_actual &&
  let v_actual := (Node_restrict v_parent_branch v_slacks false) in
  let v_expected := (Node_negative_branch v_jeans) in
  teq v_expected v_actual &&
  true) = true.
Proof. vm_compute. reflexivity. Qed.

(** bowtie-core/src/bdd/node/arena.rs, add, L74 *)
Example bowtie_core_bdd_node_arena_tests_add : (
  let v_node1 := Node_TRUE_LEAF in
  let v_node2 := Node_FALSE_LEAF in
  let v_arena := Arena_new in
  let '(v_node1_id, v_arena) := (m_add v_arena v_node1) in
  let '(v_node2_id, v_arena) := (m_add v_arena v_node2) in
  teq v_node1 (m_expect (m_get v_arena v_node1_id)) &&
  teq v_node2 (m_expect (m_get v_arena v_node2_id)) &&
  true) = true.
Proof. vm_compute. reflexivity. Qed.

(** bowtie-core/src/bdd/node/arena.rs, add_does_not_duplicate, L88 *)
Example bowtie_core_bdd_node_arena_tests_add_does_not_duplicate : (
  let v_node1 := Node_TRUE_LEAF in
  let v_arena := Arena_new in
  let '(v_node1_id, v_arena) := (m_add v_arena v_node1) in
  let '(v_node2_id, v_arena) := (m_add v_arena v_node1) in
  teq v_node1_id v_node2_id &&
  true) = true.
Proof. vm_compute. reflexivity. Qed.

(** bowtie-core/src/bdd/node/structure.rs, structure_represents_available_items, L137 *)
Example bowtie_core_bdd_node_structure_tests_structure_represents_available_items : (
  let v_blue := (Item_new "shirts:blue"%string) in
  let v_jeans := (Item_new "pants:jeans"%string) in
  let v_root := (Node_branch v_blue (Node_positive_branch v_jeans) (Node_negative_branch v_jeans)) in
  let v_structure := (Structure_from v_root) in
  teq (Structure_available 0 (Structure_required 1 (Structure_Outcome true)) (Structure_excluded 1 (Structure_Outcome true))) v_structure &&
  true) = true.
Proof. vm_compute. reflexivity. Qed.

(** bowtie-core/src/bdd/node/structure.rs, structure_represents_required_items, L160 *)
Example bowtie_core_bdd_node_structure_tests_structure_represents_required_items : (
  let v_blue := (Item_new "shirts:blue"%string) in
  let v_root := (Node_positive_branch v_blue) in
  let v_structure := (Structure_from v_root) in
  teq (Structure_required 0 (Structure_Outcome true)) v_structure &&
  true) = true.
Proof. vm_compute. reflexivity. Qed.

(** bowtie-core/src/bdd/node/structure.rs, structure_represents_excluded_items, L173 *)
Example bowtie_core_bdd_node_structure_tests_structure_represents_excluded_items : (
  let v_blue := (Item_new "shirts:blue"%string) in
  let v_root := (Node_negative_branch v_blue) in
  let v_structure := (Structure_from v_root) in
  teq (Structure_excluded 0 (Structure_Outcome true)) v_structure &&
  true) = true.
Proof. vm_compute. reflexivity. Qed.

(** bowtie-core/src/bdd/node/summarize.rs, summarize_returns_empty_for_leaves, L47 *)
Example bowtie_core_bdd_node_summarize_summarize_tests_summarize_returns_empty_for_leaves : (
  let v_summary := (Node_summarize Node_TRUE_LEAF) in
  let v_expected := [] in
  teq v_expected v_summary &&
  let v_summary := (Node_summarize Node_FALSE_LEAF) in
  let v_expected := [] in
  teq v_expected v_summary &&
  true) = true.
Proof. vm_compute. reflexivity. Qed.

(** bowtie-core/src/bdd/node/summarize.rs, summarize_returns_available_items_for_depth_1, L58 *)
Example bowtie_core_bdd_node_summarize_summarize_tests_summarize_returns_available_items_for_depth_1 : (
  let v_red := (Item_new "shirts:red"%string) in
  let v_red_branch := (Node_positive_branch v_red) in
  let v_summary := (Node_summarize v_red_branch) in
  let v_expected := [(ItemStatus_Available v_red)] in
  teq v_expected v_summary &&
  true) = true.
Proof. vm_compute. reflexivity. Qed.

(** bowtie-core/src/bdd/node/summarize.rs, summarize_returns_excluded_items_for_depth_1, L68 *)
Example bowtie_core_bdd_node_summarize_summarize_tests_summarize_returns_excluded_items_for_depth_1 : (
  let v_red := (Item_new "shirts:red"%string) in
  let v_red_branch := (Node_negative_branch v_red) in
  let v_summary := (Node_summarize v_red_branch) in
  let v_expected := [(ItemStatus_Excluded v_red)] in
  teq v_expected v_summary &&
  true) = true.
Proof. vm_compute. reflexivity. Qed.

(** bowtie-core/src/bdd/node/summarize.rs, summarize_returns_available_items_for_depth_2, L78 *)
Example bowtie_core_bdd_node_summarize_summarize_tests_summarize_returns_available_items_for_depth_2 : (
  let v_red := (Item_new "shirts:red"%string) in
  let v_blue := (Item_new "shirts:blue"%string) in
  let v_expected := [(ItemStatus_Available v_blue); (ItemStatus_Available v_red)] in
  let v_red_branch := (op_xor (Node_positive_branch v_red) (Node_positive_branch v_blue)) in
  let v_summary := (Node_summarize v_red_branch) in
  teq v_expected v_summary &&
  true) = true.
Proof. vm_compute. reflexivity. Qed.

(** bowtie-core/src/bdd/node/bit_operations.rs, and_leaf_nodes, L122 *)
Example bowtie_core_bdd_node_bit_operations_bitand_tests_and_leaf_nodes : (
  teq Node_TRUE_LEAF (op_and Node_TRUE_LEAF Node_TRUE_LEAF) &&
  teq Node_FALSE_LEAF (op_and Node_FALSE_LEAF Node_TRUE_LEAF) &&
  teq Node_FALSE_LEAF (op_and Node_TRUE_LEAF Node_FALSE_LEAF) &&
  teq Node_FALSE_LEAF (op_and Node_FALSE_LEAF Node_FALSE_LEAF) &&
  true) = true.
Proof. vm_compute. reflexivity. Qed.

(** bowtie-core/src/bdd/node/bit_operations.rs, and_leaf_node_with_branch, L131 *)
Example bowtie_core_bdd_node_bit_operations_bitand_tests_and_leaf_node_with_branch : (
  let v_jeans := (Item_new "pants:jeans"%string) in
  let v_pants_family := (Node_positive_branch v_jeans) in
  teq v_pants_family (op_and Node_TRUE_LEAF v_pants_family) &&
  teq v_pants_family (op_and v_pants_family Node_TRUE_LEAF) &&
  teq Node_FALSE_LEAF (op_and Node_FALSE_LEAF v_pants_family) &&
  teq Node_FALSE_LEAF (op_and v_pants_family Node_FALSE_LEAF) &&
  true) = true.
Proof. vm_compute. reflexivity. Qed.

(** bowtie-core/src/bdd/node/bit_operations.rs, and_with_identical_branches_is_a_tautology, L144 *)
Example bowtie_core_bdd_node_bit_operations_bitand_tests_and_with_identical_branches_is_a_tautology : (
  let v_jeans := (Item_new "pants:jeans"%string) in
  let v_pants_family := (Node_positive_branch v_jeans) in
  teq v_pants_family (op_and v_pants_family v_pants_family) &&
  true) = true.
Proof. vm_compute. reflexivity. Qed.

(** bowtie-core/src/bdd/node/bit_operations.rs, and_with_opposite_branches_is_always_false, L153 *)
Example bowtie_core_bdd_node_bit_operations_bitand_tests_and_with_opposite_branches_is_always_false : (
  let v_jeans := (Item_new "pants:jeans"%string) in
  let v_pants_family := (Node_positive_branch v_jeans) in
  let v_prime_pants_family := (Node_negative_branch v_jeans) in
  teq Node_FALSE_LEAF (op_and v_pants_family v_prime_pants_family) &&
  true) = true.
Proof. vm_compute. reflexivity. Qed.

(** bowtie-core/src/bdd/node/bit_operations.rs, and_two_branches, L163 *)
Example bowtie_core_bdd_node_bit_operations_bitand_tests_and_two_branches : (
  let v_blue := (Item_new "shirts:blue"%string) in
  let v_red := (Item_new "shirts:red"%string) in
  let v_jeans := (Item_new "pants:jeans"%string) in
  let v_slacks := (Item_new "pants:slacks"%string) in
  let v_blue_low_branch := (Node_positive_branch v_red) in
  let v_blue_high_branch := (Node_negative_branch v_red) in
  let v_blue_branch := (Node_branch v_blue v_blue_low_branch v_blue_high_branch) in
  let v_slacks_low_branch := (Node_positive_branch v_jeans) in
  let v_slacks_high_branch := (Node_negative_branch v_jeans) in
  let v_slacks_branch := (Node_branch v_slacks v_slacks_low_branch v_slacks_high_branch) in
  let v_expected := (let v_slacks_low_branch := (Node_branch v_jeans Node_FALSE_LEAF v_blue_branch) in
  let v_slacks_high_branch := (Node_branch v_jeans v_blue_branch Node_FALSE_LEAF) in
  let v_slacks_branch := (Node_branch v_slacks v_slacks_low_branch v_slacks_high_branch) in
  v_slacks_branch) in
  teq v_expected (op_and v_slacks_branch v_blue_branch) &&
  teq v_expected (op_and v_blue_branch v_slacks_branch) &&
  true) = true.
Proof. vm_compute. reflexivity. Qed.

(** bowtie-core/src/bdd/node/bit_operations.rs, nand_leaf_nodes, L196 *)
Example bowtie_core_bdd_node_bit_operations_bitnand_tests_nand_leaf_nodes : (
  teq Node_FALSE_LEAF (op_not ((op_and Node_TRUE_LEAF Node_TRUE_LEAF))) &&
  teq Node_TRUE_LEAF (op_not ((op_and Node_FALSE_LEAF Node_TRUE_LEAF))) &&
  teq Node_TRUE_LEAF (op_not ((op_and Node_TRUE_LEAF Node_FALSE_LEAF))) &&
  teq Node_TRUE_LEAF (op_not ((op_and Node_FALSE_LEAF Node_FALSE_LEAF))) &&
  true) = true.
Proof. vm_compute. reflexivity. Qed.

(** bowtie-core/src/bdd/node/bit_operations.rs, nand_two_branches, L205 *)
Example bowtie_core_bdd_node_bit_operations_bitnand_tests_nand_two_branches : (
  let v_blue := (Item_new "shirts:blue"%string) in
  let v_red := (Item_new "shirts:red"%string) in
  let v_jeans := (Item_new "pants:jeans"%string) in
  let v_slacks := (Item_new "pants:slacks"%string) in
  let v_blue_low_branch := (Node_positive_branch v_red) in
  let v_blue_high_branch := (Node_negative_branch v_red) in
  let v_blue_branch := (Node_branch v_blue v_blue_low_branch v_blue_high_branch) in
  let v_slacks_low_branch := (Node_positive_branch v_jeans) in
  let v_slacks_high_branch := (Node_negative_branch v_jeans) in
  let v_slacks_branch := (Node_branch v_slacks v_slacks_low_branch v_slacks_high_branch) in
  let v_expected := (let v_slacks_high_branch := (Node_branch v_jeans Node_FALSE_LEAF v_blue_branch) in
  let v_slacks_low_branch := (Node_branch v_jeans v_blue_branch Node_FALSE_LEAF) in
  let v_slacks_branch := (Node_branch v_slacks v_slacks_low_branch v_slacks_high_branch) in
  v_slacks_branch) in
  teq v_expected (op_not ((op_and v_slacks_branch v_blue_branch))) &&
  teq v_expected (op_not ((op_and v_blue_branch v_slacks_branch))) &&
  true) = true.
Proof. vm_compute. reflexivity. Qed.

(** bowtie-core/src/bdd/node/bit_operations.rs, nand_two_items_from_different_families, L232 *)
Example bowtie_core_bdd_node_bit_operations_bitnand_tests_nand_two_items_from_different_families : (
  let v_blue := (Item_new "shirts:blue"%string) in
  let v_red := (Item_new "shirts:red"%string) in
  let v_jeans := (Item_new "pants:jeans"%string) in
  let v_expected := (let v_red_branch := (Node_negative_branch v_red) in
  let v_blue_branch := (Node_branch v_blue v_red_branch Node_FALSE_LEAF) in
  let v_jeans_branch := (Node_branch v_jeans Node_FALSE_LEAF v_blue_branch) in
  v_jeans_branch) in
  let v_actual := (let v_blue_high_branch := (Node_positive_branch v_red) in
  let v_blue_low_branch := (Node_negative_branch v_red) in
  let v_shirts_family_branch := (Node_branch v_blue v_blue_low_branch v_blue_high_branch) in
  let v_pants_family_branch := (Node_positive_branch v_jeans) in
  let v_root := (op_and v_pants_family_branch v_shirts_family_branch) in
  let v_jeans_exclude_blue := (let v_jeans_exclude_blue := (Node_restrict v_root v_jeans true) in
  let v_jeans_exclude_blue := (Node_restrict v_jeans_exclude_blue v_blue false) in
  v_jeans_exclude_blue) in
  (op_and v_root v_jeans_exclude_blue)) in
  teq v_expected v_actual &&
  true) = true.
Proof. vm_compute. reflexivity. Qed.

(** bowtie-core/src/bdd/node/bit_operations.rs, or_leaf_nodes, L273 *)
Example bowtie_core_bdd_node_bit_operations_bitor_tests_or_leaf_nodes : (
  teq Node_TRUE_LEAF (op_or Node_TRUE_LEAF Node_TRUE_LEAF) &&
  teq Node_TRUE_LEAF (op_or Node_FALSE_LEAF Node_TRUE_LEAF) &&
  teq Node_TRUE_LEAF (op_or Node_TRUE_LEAF Node_FALSE_LEAF) &&
  teq Node_FALSE_LEAF (op_or Node_FALSE_LEAF Node_FALSE_LEAF) &&
  true) = true.
Proof. vm_compute. reflexivity. Qed.

(** bowtie-core/src/bdd/node/bit_operations.rs, or_leaf_node_with_branch, L281 *)
Example bowtie_core_bdd_node_bit_operations_bitor_tests_or_leaf_node_with_branch : (
  let v_jeans := (Item_new "pants:jeans"%string) in
  let v_pants_family := (Node_positive_branch v_jeans) in
  teq Node_TRUE_LEAF (op_or Node_TRUE_LEAF v_pants_family) &&
  teq Node_TRUE_LEAF (op_or v_pants_family Node_TRUE_LEAF) &&
  teq v_pants_family (op_or Node_FALSE_LEAF v_pants_family) &&
  teq v_pants_family (op_or v_pants_family Node_FALSE_LEAF) &&
  true) = true.
Proof. vm_compute. reflexivity. Qed.

(** bowtie-core/src/bdd/node/bit_operations.rs, or_with_identical_branches_is_a_tautology, L294 *)
Example bowtie_core_bdd_node_bit_operations_bitor_tests_or_with_identical_branches_is_a_tautology : (
  let v_jeans := (Item_new "pants:jeans"%string) in
  let v_pants_family := (Node_positive_branch v_jeans) in
  teq v_pants_family (op_or v_pants_family v_pants_family) &&
  true) = true.
Proof. vm_compute. reflexivity. Qed.

(** bowtie-core/src/bdd/node/bit_operations.rs, or_with_opposite_branches_is_always_false, L303 *)
Example bowtie_core_bdd_node_bit_operations_bitor_tests_or_with_opposite_branches_is_always_false : (
  let v_jeans := (Item_new "pants:jeans"%string) in
  let v_pants_family := (Node_positive_branch v_jeans) in
  let v_prime_pants_family := (Node_negative_branch v_jeans) in
  teq Node_TRUE_LEAF (op_or v_pants_family v_prime_pants_family) &&
  true) = true.
Proof. vm_compute. reflexivity. Qed.

(** bowtie-core/src/bdd/node/bit_operations.rs, or_two_branches, L313 *)
Example bowtie_core_bdd_node_bit_operations_bitor_tests_or_two_branches : (
  let v_blue := (Item_new "shirts:blue"%string) in
  let v_red := (Item_new "shirts:red"%string) in
  let v_jeans := (Item_new "pants:jeans"%string) in
  let v_slacks := (Item_new "pants:slacks"%string) in
  let v_expected := (let v_red_branch := (Node_positive_branch v_red) in
  let v_blue_branch := (Node_branch v_blue v_red_branch Node_TRUE_LEAF) in
  let v_slacks_branch := (Node_branch v_slacks v_blue_branch Node_TRUE_LEAF) in
  let v_jeans_branch := (Node_branch v_jeans v_slacks_branch Node_TRUE_LEAF) in
  v_jeans_branch) in
  let v_actual := (op_or (op_or (op_or (Node_positive_branch v_red) (Node_positive_branch v_blue)) (Node_positive_branch v_jeans)) (Node_positive_branch v_slacks)) in
  teq v_expected v_actual &&
  let v_actual := (op_or (op_or (op_or (Node_positive_branch v_blue) (Node_positive_branch v_red)) (Node_positive_branch v_slacks)) (Node_positive_branch v_jeans)) in
  teq v_expected v_actual &&
  true) = true.
Proof. vm_compute. reflexivity. Qed.

(** bowtie-core/src/bdd/node/bit_operations.rs, xor_leaf_nodes, L343 *)
Example bowtie_core_bdd_node_bit_operations_bitxor_tests_xor_leaf_nodes : (
  teq Node_FALSE_LEAF (op_xor Node_TRUE_LEAF Node_TRUE_LEAF) &&
  teq Node_TRUE_LEAF (op_xor Node_FALSE_LEAF Node_TRUE_LEAF) &&
  teq Node_TRUE_LEAF (op_xor Node_TRUE_LEAF Node_FALSE_LEAF) &&
  teq Node_FALSE_LEAF (op_xor Node_FALSE_LEAF Node_FALSE_LEAF) &&
  true) = true.
Proof. vm_compute. reflexivity. Qed.

(** bowtie-core/src/bdd/node/bit_operations.rs, xor_leaf_node_with_branch, L351 *)
Example bowtie_core_bdd_node_bit_operations_bitxor_tests_xor_leaf_node_with_branch : (
  let v_jeans := (Item_new "pants:jeans"%string) in
  let v_pants_family := (Node_positive_branch v_jeans) in
  teq (op_not v_pants_family) (op_xor Node_TRUE_LEAF v_pants_family) &&
  teq (op_not v_pants_family) (op_xor v_pants_family Node_TRUE_LEAF) &&
  teq v_pants_family (op_xor Node_FALSE_LEAF v_pants_family) &&
  teq v_pants_family (op_xor v_pants_family Node_FALSE_LEAF) &&
  true) = true.
Proof. vm_compute. reflexivity. Qed.

(** bowtie-core/src/bdd/node/bit_operations.rs, xor_with_identical_branches_is_always_false, L364 *)
Example bowtie_core_bdd_node_bit_operations_bitxor_tests_xor_with_identical_branches_is_always_false : (
  let v_jeans := (Item_new "pants:jeans"%string) in
  let v_pants_family := (Node_positive_branch v_jeans) in
  teq Node_FALSE_LEAF (op_xor v_pants_family v_pants_family) &&
  true) = true.
Proof. vm_compute. reflexivity. Qed.

(** bowtie-core/src/bdd/node/bit_operations.rs, xor_with_opposite_branches_is_always_true, L373 *)
Example bowtie_core_bdd_node_bit_operations_bitxor_tests_xor_with_opposite_branches_is_always_true : (
  let v_jeans := (Item_new "pants:jeans"%string) in
  let v_pants_family := (Node_positive_branch v_jeans) in
  let v_prime_pants_family := (Node_negative_branch v_jeans) in
  teq Node_TRUE_LEAF (op_xor v_pants_family v_prime_pants_family) &&
  true) = true.
Proof. vm_compute. reflexivity. Qed.

(** bowtie-core/src/bdd/node/bit_operations.rs, xor_between_two_different_positive_items_expands, L383 *)
Example bowtie_core_bdd_node_bit_operations_bitxor_tests_xor_between_two_different_positive_items_expands : (
  let v_jeans := (Item_new "pants:jeans"%string) in
  let v_slacks := (Item_new "pants:slacks"%string) in
  let v_jeans_branch := (Node_positive_branch v_jeans) in
  let v_slacks_branch := (Node_positive_branch v_slacks) in
  let v_expected := (let v_slacks_branch := (Node_positive_branch v_slacks) in
  let v_slacks_branch_prime := (Node_negative_branch v_slacks) in
  (Node_branch v_jeans v_slacks_branch v_slacks_branch_prime)) in
  teq v_expected (op_xor v_jeans_branch v_slacks_branch) &&
  true) = true.
Proof. vm_compute. reflexivity. Qed.

(** bowtie-core/src/bdd/node/bit_operations.rs, xor_two_branches, L401 *)
Example bowtie_core_bdd_node_bit_operations_bitxor_tests_xor_two_branches : (
  let v_blue := (Item_new "shirts:blue"%string) in
  let v_red := (Item_new "shirts:red"%string) in
  let v_jeans := (Item_new "pants:jeans"%string) in
  let v_slacks := (Item_new "pants:slacks"%string) in
  let v_expected := (let v_blue_low_branch := (Node_positive_branch v_red) in
  let v_blue_high_branch := (Node_negative_branch v_red) in
  let v_blue_branch := (Node_branch v_blue v_blue_low_branch v_blue_high_branch) in
  let v_jeans_low_branch := (Node_branch v_slacks v_blue_branch (op_not v_blue_branch)) in
  let v_jeans_high_branch := (Node_branch v_slacks (op_not v_blue_branch) v_blue_branch) in
  let v_jeans_branch := (Node_branch v_jeans v_jeans_low_branch v_jeans_high_branch) in
  v_jeans_branch) in
  let v_actual := (op_xor (op_xor (op_xor (Node_positive_branch v_red) (Node_positive_branch v_blue)) (Node_positive_branch v_jeans)) (Node_positive_branch v_slacks)) in
  teq v_expected v_actual &&
  let v_actual := (op_xor (op_xor (op_xor (Node_positive_branch v_blue) (Node_positive_branch v_red)) (Node_positive_branch v_slacks)) (Node_positive_branch v_jeans)) in
  teq v_expected v_actual &&
  true) = true.
Proof. vm_compute. reflexivity. Qed.

(** bowtie-core/src/bdd/closet/select.rs, one_selection_families_2_items_4, L52 *)
Example bowtie_core_bdd_closet_select_tests_one_selection_families_2_items_4 : (
  let v_blue := (Item_new "shirts:blue"%string) in
  let v_red := (Item_new "shirts:red"%string) in
  let v_jeans := (Item_new "pants:jeans"%string) in
  let v_slacks := (Item_new "pants:slacks"%string) in
  let v_shirts := (Family_new "shirts"%string) in
  let v_pants := (Family_new "pants"%string) in
  let v_closet_builder := (m_add_item (m_add_item (m_add_item (m_add_item ClosetBuilder_new v_shirts v_red) v_shirts v_blue) v_pants v_jeans) v_pants v_slacks) in
  let v_closet := (m_must_build v_closet_builder) in
  let v_closet := (m_expect (m_select_item v_closet v_blue)) in
  let v_expected := [(ItemStatus_Excluded v_red); (ItemStatus_Available v_jeans); (ItemStatus_Available v_slacks); (ItemStatus_Selected v_blue)] in
  teq v_expected (m_summary v_closet) &&
  true) = true.
Proof. vm_compute. reflexivity. Qed.

(** bowtie-core/src/bdd/closet/select.rs, one_selection_families_2_items_4_selecting_two_same_item, L81 *)
Example bowtie_core_bdd_closet_select_tests_one_selection_families_2_items_4_selecting_two_same_item : (
  let v_blue := (Item_new "shirts:blue"%string) in
  let v_red := (Item_new "shirts:red"%string) in
  let v_jeans := (Item_new "pants:jeans"%string) in
  let v_slacks := (Item_new "pants:slacks"%string) in
  let v_shirts := (Family_new "shirts"%string) in
  let v_pants := (Family_new "pants"%string) in
  let v_closet_builder := (m_add_item (m_add_item (m_add_item (m_add_item ClosetBuilder_new v_shirts v_red) v_shirts v_blue) v_pants v_jeans) v_pants v_slacks) in
  let v_closet := (m_must_build v_closet_builder) in
  let v_closet := (m_expect (m_select_item v_closet v_blue)) in
  let v_closet := (m_expect (m_select_item v_closet v_blue)) in
  let v_expected := [(ItemStatus_Excluded v_red); (ItemStatus_Available v_jeans); (ItemStatus_Available v_slacks); (ItemStatus_Selected v_blue)] in
  teq v_expected (m_summary v_closet) &&
  true) = true.
Proof. vm_compute. reflexivity. Qed.

(** bowtie-core/src/bdd/closet/select.rs, one_selection_families_2_items_4_selecting_unknown_item, L111 *)
Example bowtie_core_bdd_closet_select_tests_one_selection_families_2_items_4_selecting_unknown_item : (
  let v_blue := (Item_new "shirts:blue"%string) in
  let v_red := (Item_new "shirts:red"%string) in
  let v_black := (Item_new "shirts:black"%string) in
  let v_jeans := (Item_new "pants:jeans"%string) in
  let v_slacks := (Item_new "pants:slacks"%string) in
  let v_shirts := (Family_new "shirts"%string) in
  let v_pants := (Family_new "pants"%string) in
  let v_closet_builder := (m_add_item (m_add_item (m_add_item (m_add_item ClosetBuilder_new v_shirts v_red) v_shirts v_blue) v_pants v_jeans) v_pants v_slacks) in
  let v_closet := (m_must_build v_closet_builder) in
  let v_expected := (Err (SelectItemError_UnknownItem v_black)) in
  teq v_expected (m_select_item v_closet v_black) &&
  true) = true.
Proof. vm_compute. reflexivity. Qed.

(** bowtie-core/src/bdd/closet/select.rs, one_selection_families_2_items_4_one_exclusion_rule, L138 *)
Example bowtie_core_bdd_closet_select_tests_one_selection_families_2_items_4_one_exclusion_rule : (
  let v_blue := (Item_new "shirts:blue"%string) in
  let v_red := (Item_new "shirts:red"%string) in
  let v_jeans := (Item_new "pants:jeans"%string) in
  let v_slacks := (Item_new "pants:slacks"%string) in
  let v_shirts := (Family_new "shirts"%string) in
  let v_pants := (Family_new "pants"%string) in
  let v_closet_builder := (m_add_exclusion_rule (m_add_item (m_add_item (m_add_item (m_add_item ClosetBuilder_new v_shirts v_red) v_shirts v_blue) v_pants v_jeans) v_pants v_slacks) v_red v_jeans) in
  let v_closet := (m_must_build v_closet_builder) in
  let v_closet := (m_expect (m_select_item v_closet v_red)) in
  let v_expected := [(ItemStatus_Excluded v_jeans); (ItemStatus_Excluded v_blue); (ItemStatus_Available v_slacks); (ItemStatus_Selected v_red)] in
  teq v_expected (m_summary v_closet) &&
  true) = true.
Proof. vm_compute. reflexivity. Qed.

(** bowtie-core/src/bdd/closet/select.rs, one_selection_families_2_items_4_one_inclusion_rule, L168 *)
Example bowtie_core_bdd_closet_select_tests_one_selection_families_2_items_4_one_inclusion_rule : (
  let v_blue := (Item_new "shirts:blue"%string) in
  let v_red := (Item_new "shirts:red"%string) in
  let v_jeans := (Item_new "pants:jeans"%string) in
  let v_slacks := (Item_new "pants:slacks"%string) in
  let v_shirts := (Family_new "shirts"%string) in
  let v_pants := (Family_new "pants"%string) in
  let v_closet_builder := (m_add_inclusion_rule (m_add_item (m_add_item (m_add_item (m_add_item ClosetBuilder_new v_shirts v_red) v_shirts v_blue) v_pants v_jeans) v_pants v_slacks) v_red v_jeans) in
  let v_closet := (m_must_build v_closet_builder) in
  let v_closet := (m_expect (m_select_item v_closet v_red)) in
  let v_expected := [(ItemStatus_Excluded v_slacks); (ItemStatus_Excluded v_blue); (ItemStatus_Available v_jeans); (ItemStatus_Selected v_red)] in
  teq v_expected (m_summary v_closet) &&
  true) = true.
Proof. vm_compute. reflexivity. Qed.

(** bowtie-core/src/bdd/closet/select.rs, one_selection_families_2_items_4_selecting_two_same_family, L198 *)
Example bowtie_core_bdd_closet_select_tests_one_selection_families_2_items_4_selecting_two_same_family : (
  let v_blue := (Item_new "shirts:blue"%string) in
  let v_red := (Item_new "shirts:red"%string) in
  let v_jeans := (Item_new "pants:jeans"%string) in
  let v_slacks := (Item_new "pants:slacks"%string) in
  let v_shirts := (Family_new "shirts"%string) in
  let v_pants := (Family_new "pants"%string) in
  let v_closet_builder := (m_add_item (m_add_item (m_add_item (m_add_item ClosetBuilder_new v_shirts v_red) v_shirts v_blue) v_pants v_jeans) v_pants v_slacks) in
  let v_closet := (m_must_build v_closet_builder) in
  let v_closet := (m_expect (m_select_item v_closet v_red)) in
  let v_expected := (Err (SelectItemError_ExcludedItem v_blue)) in
  teq v_expected (m_select_item v_closet v_blue) &&
  true) = true.
Proof. vm_compute. reflexivity. Qed.

(** bowtie-core/src/bdd/closet/node_count.rs, count_nodes_families_2_items_4, L84 *)
Example bowtie_core_bdd_closet_node_count_tests_count_nodes_families_2_items_4 : (
  let v_shirt1 := (Item_new "shirts:1"%string) in
  let v_shirt2 := (Item_new "shirts:2"%string) in
  let v_pants1 := (Item_new "pants:1"%string) in
  let v_pants2 := (Item_new "pants:2"%string) in
  let v_shirts := (Family_new "shirts"%string) in
  let v_pants := (Family_new "pants"%string) in
  let v_closet_builder := (m_add_item (m_add_item (m_add_item (m_add_item ClosetBuilder_new v_shirts v_shirt1) v_shirts v_shirt2) v_pants v_pants1) v_pants v_pants2) in
  let v_closet := (m_must_build v_closet_builder) in
  teq 19 (m_node_count v_closet) &&
  teq 10 (m_leaf_count v_closet) &&
  teq 4 (m_outfit_count v_closet) &&
  teq 5 (m_depth v_closet) &&
  true) = true.
Proof. vm_compute. reflexivity. Qed.

(** bowtie-core/src/bdd/closet/node_count.rs, count_nodes_families_2_items_4_one_exclusion, L109 *)
Example bowtie_core_bdd_closet_node_count_tests_count_nodes_families_2_items_4_one_exclusion : (
  let v_shirt1 := (Item_new "shirts:1"%string) in
  let v_shirt2 := (Item_new "shirts:2"%string) in
  let v_pants1 := (Item_new "pants:1"%string) in
  let v_pants2 := (Item_new "pants:2"%string) in
  let v_shirts := (Family_new "shirts"%string) in
  let v_pants := (Family_new "pants"%string) in
  let v_closet_builder := (m_add_exclusion_rule (m_add_item (m_add_item (m_add_item (m_add_item ClosetBuilder_new v_shirts v_shirt1) v_shirts v_shirt2) v_pants v_pants1) v_pants v_pants2) v_shirt1 v_pants1) in
  let v_closet := (m_must_build v_closet_builder) in
  teq 17 (m_node_count v_closet) &&
  teq 9 (m_leaf_count v_closet) &&
  teq 3 (m_outfit_count v_closet) &&
  teq 5 (m_depth v_closet) &&
  true) = true.
Proof. vm_compute. reflexivity. Qed.

(** bowtie-core/src/bdd/closet/node_count.rs, count_nodes_families_2_items_16, L135 *)
Example bowtie_core_bdd_closet_node_count_tests_count_nodes_families_2_items_16 : (
  let v_shirt1 := (Item_new "shirts:1"%string) in
  let v_shirt2 := (Item_new "shirts:2"%string) in
  let v_shirt3 := (Item_new "shirts:3"%string) in
  let v_shirt4 := (Item_new "shirts:4"%string) in
  let v_shirt5 := (Item_new "shirts:5"%string) in
  let v_shirt6 := (Item_new "shirts:6"%string) in
  let v_shirt7 := (Item_new "shirts:7"%string) in
  let v_shirt8 := (Item_new "shirts:8"%string) in
  let v_pants1 := (Item_new "pants:1"%string) in
  let v_pants2 := (Item_new "pants:2"%string) in
  let v_pants3 := (Item_new "pants:3"%string) in
  let v_pants4 := (Item_new "pants:4"%string) in
  let v_pants5 := (Item_new "pants:5"%string) in
  let v_pants6 := (Item_new "pants:6"%string) in
  let v_pants7 := (Item_new "pants:7"%string) in
  let v_pants8 := (Item_new "pants:8"%string) in
  let v_shirts := (Family_new "shirts"%string) in
  let v_pants := (Family_new "pants"%string) in
  let v_closet_builder := (m_add_item (m_add_item (m_add_item (m_add_item (m_add_item (m_add_item (m_add_item (m_add_item (m_add_item (m_add_item (m_add_item (m_add_item (m_add_item (m_add_item (m_add_item (m_add_item ClosetBuilder_new v_shirts v_shirt1) v_shirts v_shirt2) v_shirts v_shirt3) v_shirts v_shirt4) v_shirts v_shirt5) v_shirts v_shirt6) v_shirts v_shirt7) v_shirts v_shirt8) v_pants v_pants1) v_pants v_pants2) v_pants v_pants3) v_pants v_pants4) v_pants v_pants5) v_pants v_pants6) v_pants v_pants7) v_pants v_pants8) in
  let v_closet := (m_must_build v_closet_builder) in
  teq 649 (m_node_count v_closet) &&
  teq 325 (m_leaf_count v_closet) &&
  teq 64 (m_outfit_count v_closet) &&
  teq 17 (m_depth v_closet) &&
  true) = true.
Proof. vm_compute. reflexivity. Qed.

(** bowtie-core/src/bdd/closet/node_count.rs, count_nodes_families_4_items_16, L184 *)
Example bowtie_core_bdd_closet_node_count_tests_count_nodes_families_4_items_16 : (
  let v_shirt1 := (Item_new "shirts:1"%string) in
  let v_shirt2 := (Item_new "shirts:2"%string) in
  let v_shirt3 := (Item_new "shirts:3"%string) in
  let v_shirt4 := (Item_new "shirts:4"%string) in
  let v_pants1 := (Item_new "pants:1"%string) in
  let v_pants2 := (Item_new "pants:2"%string) in
  let v_pants3 := (Item_new "pants:3"%string) in
  let v_pants4 := (Item_new "pants:4"%string) in
  let v_shoes1 := (Item_new "shoes:1"%string) in
  let v_shoes2 := (Item_new "shoes:2"%string) in
  let v_shoes3 := (Item_new "shoes:3"%string) in
  let v_shoes4 := (Item_new "shoes:4"%string) in
  let v_socks1 := (Item_new "socks:1"%string) in
  let v_socks2 := (Item_new "socks:2"%string) in
  let v_socks3 := (Item_new "socks:3"%string) in
  let v_socks4 := (Item_new "socks:4"%string) in
  let v_shirts := (Family_new "shirts"%string) in
  let v_pants := (Family_new "pants"%string) in
  let v_socks := (Family_new "socks"%string) in
  let v_shoes := (Family_new "shoes"%string) in
  let v_closet_builder := (m_add_item (m_add_item (m_add_item (m_add_item (m_add_item (m_add_item (m_add_item (m_add_item (m_add_item (m_add_item (m_add_item (m_add_item (m_add_item (m_add_item (m_add_item (m_add_item ClosetBuilder_new v_shirts v_shirt1) v_shirts v_shirt2) v_shirts v_shirt3) v_shirts v_shirt4) v_pants v_pants1) v_pants v_pants2) v_pants v_pants3) v_pants v_pants4) v_socks v_socks1) v_socks v_socks2) v_socks v_socks3) v_socks v_socks4) v_shoes v_shoes1) v_shoes v_shoes2) v_shoes v_shoes3) v_shoes v_shoes4) in
  let v_closet := (m_must_build v_closet_builder) in
  teq 1701 (m_node_count v_closet) &&
  teq 851 (m_leaf_count v_closet) &&
  teq 256 (m_outfit_count v_closet) &&
  teq 17 (m_depth v_closet) &&
  true) = true.
Proof. vm_compute. reflexivity. Qed.

(** bowtie-core/src/bdd/closet/categorize.rs, count_nodes_families_2_items_4, L28 *)
Example bowtie_core_bdd_closet_categorize_tests_count_nodes_families_2_items_4 : (
  let v_shirt1 := (Item_new "shirts:1"%string) in
  let v_shirt2 := (Item_new "shirts:2"%string) in
  let v_pants1 := (Item_new "pants:1"%string) in
  let v_pants2 := (Item_new "pants:2"%string) in
  let v_shirts := (Family_new "shirts"%string) in
  let v_pants := (Family_new "pants"%string) in
  let v_closet_builder := (m_add_item (m_add_item (m_add_items ClosetBuilder_new v_shirts [v_shirt1; v_shirt2]) v_pants v_pants1) v_pants v_pants2) in
  let v_closet := (m_must_build v_closet_builder) in
  let v_expected := (let v_expected := HashMap_new in
  let v_expected := (m_or_insert (m_entry v_expected v_shirts) [v_shirt1; v_shirt2]) in
  let v_expected := (m_or_insert (m_entry v_expected v_pants) [v_pants1; v_pants2]) in
  v_expected) in
  teq v_expected (m_categorize v_closet [v_shirt1; v_shirt2; v_pants1; v_pants2]) &&
  true) = true.
Proof. vm_compute. reflexivity. Qed.

(** bowtie-core/src/bdd/closet_builder/mod.rs, two_families_with_one_item_each, L127 *)
Example bowtie_core_bdd_closet_builder_mod_no_rules_tests_two_families_with_one_item_each : (
  let v_blue := (Item_new "shirts:blue"%string) in
  let v_jeans := (Item_new "pants:jeans"%string) in
  let v_shirts := (Family_new "shirts"%string) in
  let v_pants := (Family_new "pants"%string) in
  let v_closet_builder := (m_add_item (m_add_item ClosetBuilder_new v_shirts v_blue) v_pants v_jeans) in
  let v_closet := (m_must_build v_closet_builder) in
  let v_expected_cousin_node := (let v_high_branch := (Node_positive_branch v_blue) in
  let v_parent_branch := (Node_branch v_jeans Node_FALSE_LEAF v_high_branch) in
  v_parent_branch) in
  teq v_expected_cousin_node (m_root v_closet) &&
  let v_both_selected := (let v_closet := (m_unwrap (m_select_item v_closet v_jeans)) in
  (m_unwrap (m_select_item v_closet v_blue))) in
  teq Node_TRUE_LEAF (m_root v_both_selected) &&
  let v_expected := (Node_positive_branch v_jeans) in
  let v_blue_selected := (m_unwrap (m_select_item v_closet v_blue)) in
  teq v_expected (m_root v_blue_selected) &&
  let v_expected := (Node_positive_branch v_blue) in
  let v_jeans_selected := (m_unwrap (m_select_item v_closet v_jeans)) in
  teq v_expected (m_root v_jeans_selected) &&
  true) = true.
Proof. vm_compute. reflexivity. Qed.

(** bowtie-core/src/bdd/closet_builder/mod.rs, one_family_with_two_items, L179 *)
Example bowtie_core_bdd_closet_builder_mod_no_rules_tests_one_family_with_two_items : (
  let v_blue := (Item_new "shirts:blue"%string) in
  let v_red := (Item_new "shirts:red"%string) in
  let v_shirts := (Family_new "shirts"%string) in
  let v_closet_builder := (m_add_item (m_add_item ClosetBuilder_new v_shirts v_red) v_shirts v_blue) in
  let v_closet := (m_must_build v_closet_builder) in
  let v_expected_sibling_node := (let v_low_branch := (Node_positive_branch v_red) in
  let v_high_branch := (Node_negative_branch v_red) in
  let v_parent_branch := (Node_branch v_blue v_low_branch v_high_branch) in
  v_parent_branch) in
  teq v_expected_sibling_node (m_root v_closet) &&
  let v_expected := (Node_negative_branch v_blue) in
  let v_red_selected := (m_unwrap (m_select_item v_closet v_red)) in
  teq v_expected (m_root v_red_selected) &&
  let v_expected := (Node_negative_branch v_red) in
  let v_blue_selected := (m_unwrap (m_select_item v_closet v_blue)) in
  teq v_expected (m_root v_blue_selected) &&
  true) = true.
Proof. vm_compute. reflexivity. Qed.

(** bowtie-core/src/bdd/closet_builder/mod.rs, two_families_with_two_items, L219 *)
Example bowtie_core_bdd_closet_builder_mod_no_rules_tests_two_families_with_two_items : (
  let v_blue := (Item_new "shirts:blue"%string) in
  let v_red := (Item_new "shirts:red"%string) in
  let v_jeans := (Item_new "pants:jeans"%string) in
  let v_slacks := (Item_new "pants:slacks"%string) in
  let v_shirts := (Family_new "shirts"%string) in
  let v_pants := (Family_new "pants"%string) in
  let v_closet_builder := (m_add_item (m_add_item (m_add_item (m_add_item ClosetBuilder_new v_shirts v_red) v_shirts v_blue) v_pants v_jeans) v_pants v_slacks) in
  let v_closet := (m_must_build v_closet_builder) in
  let v_blue_low_branch := (Node_positive_branch v_red) in
  let v_blue_high_branch := (Node_negative_branch v_red) in
  let v_blue_branch := (Node_branch v_blue v_blue_low_branch v_blue_high_branch) in
  let v_jeans_low_branch := (Node_branch v_slacks Node_FALSE_LEAF v_blue_branch) in
  let v_jeans_high_branch := (Node_branch v_slacks v_blue_branch Node_FALSE_LEAF) in
  let v_jeans_branch := (Node_branch v_jeans v_jeans_low_branch v_jeans_high_branch) in
  let v_expected_sibling_node := v_jeans_branch in
  teq v_expected_sibling_node (m_root v_closet) &&
  let v_red_selected := (m_unwrap (m_select_item v_closet v_red)) in
  let v_expected := (let v_jeans_low_branch := (op_and (Node_positive_branch v_slacks) (Node_negative_branch v_blue)) in
  let v_jeans_high_branch := (op_and (Node_negative_branch v_slacks) (Node_negative_branch v_blue)) in
  (Node_branch v_jeans v_jeans_low_branch v_jeans_high_branch)) in
  teq v_expected (m_root v_red_selected) &&
  let v_blue_selected := (m_unwrap (m_select_item v_closet v_blue)) in
  let v_expected := (let v_jeans_low_branch := (op_and (Node_positive_branch v_slacks) (Node_negative_branch v_red)) in
  let v_jeans_high_branch := (op_and (Node_negative_branch v_slacks) (Node_negative_branch v_red)) in
  (Node_branch v_jeans v_jeans_low_branch v_jeans_high_branch)) in
  teq v_expected (m_root v_blue_selected) &&
  true) = true.
Proof. vm_compute. reflexivity. Qed.

(** bowtie-core/src/bdd/closet_builder/mod.rs, one_families_with_three_items, L279 *)
Example bowtie_core_bdd_closet_builder_mod_no_rules_tests_one_families_with_three_items : (
  let v_blue := (Item_new "shirts:blue"%string) in
  let v_red := (Item_new "shirts:red"%string) in
  let v_black := (Item_new "shirts:black"%string) in
  let v_shirts := (Family_new "shirts"%string) in
  let v_closet_builder := (m_add_item (m_add_item (m_add_item ClosetBuilder_new v_shirts v_red) v_shirts v_blue) v_shirts v_black) in
  let v_closet := (m_must_build v_closet_builder) in
  let v_blue_low_branch := (Node_positive_branch v_red) in
  let v_blue_high_branch := (Node_negative_branch v_red) in
  let v_black_low_branch := (Node_branch v_blue v_blue_low_branch v_blue_high_branch) in
  let v_black_high_branch := (Node_branch v_blue v_blue_high_branch Node_FALSE_LEAF) in
  let v_black_branch := (Node_branch v_black v_black_low_branch v_black_high_branch) in
  let v_expected_sibling_node := v_black_branch in
  teq v_expected_sibling_node (m_root v_closet) &&
  true) = true.
Proof. vm_compute. reflexivity. Qed.

(** bowtie-core/src/bdd/closet_builder/mod.rs, one_families_with_four_items, L308 *)
Example bowtie_core_bdd_closet_builder_mod_no_rules_tests_one_families_with_four_items : (
  let v_blue := (Item_new "shirts:blue"%string) in
  let v_red := (Item_new "shirts:red"%string) in
  let v_black := (Item_new "shirts:black"%string) in
  let v_grey := (Item_new "shirts:grey"%string) in
  let v_shirts := (Family_new "shirts"%string) in
  let v_closet_builder := (m_add_item (m_add_item (m_add_item (m_add_item ClosetBuilder_new v_shirts v_red) v_shirts v_blue) v_shirts v_black) v_shirts v_grey) in
  let v_closet := (m_must_build v_closet_builder) in
  let v_grey_low_branch := (Node_positive_branch v_red) in
  let v_grey_high_branch := (Node_negative_branch v_red) in
  let v_blue_low_branch := (Node_branch v_grey v_grey_low_branch v_grey_high_branch) in
  let v_blue_high_branch := (Node_branch v_grey v_grey_high_branch Node_FALSE_LEAF) in
  let v_black_low_branch := (Node_branch v_blue v_blue_low_branch v_blue_high_branch) in
  let v_black_high_branch := (Node_branch v_blue v_blue_high_branch Node_FALSE_LEAF) in
  let v_black_branch := (Node_branch v_black v_black_low_branch v_black_high_branch) in
  let v_expected_sibling_node := v_black_branch in
  teq v_expected_sibling_node (m_root v_closet) &&
  true) = true.
Proof. vm_compute. reflexivity. Qed.

(** bowtie-core/src/bdd/closet_builder/mod.rs, one_families_with_five_items, L341 *)
Example bowtie_core_bdd_closet_builder_mod_no_rules_tests_one_families_with_five_items : (
  let v_blue := (Item_new "shirts:blue"%string) in
  let v_red := (Item_new "shirts:red"%string) in
  let v_black := (Item_new "shirts:black"%string) in
  let v_grey := (Item_new "shirts:grey"%string) in
  let v_green := (Item_new "shirts:green"%string) in
  let v_shirts := (Family_new "shirts"%string) in
  let v_closet_builder := (m_add_item (m_add_item (m_add_item (m_add_item (m_add_item ClosetBuilder_new v_shirts v_red) v_shirts v_blue) v_shirts v_black) v_shirts v_grey) v_shirts v_green) in
  let v_closet := (m_must_build v_closet_builder) in
  let v_grey_low_branch := (Node_positive_branch v_red) in
  let v_grey_high_branch := (Node_negative_branch v_red) in
  let v_green_low_branch := (Node_branch v_grey v_grey_low_branch v_grey_high_branch) in
  let v_green_high_branch := (Node_branch v_grey v_grey_high_branch Node_FALSE_LEAF) in
  let v_blue_low_branch := (Node_branch v_green v_green_low_branch v_green_high_branch) in
  let v_blue_high_branch := (Node_branch v_green v_green_high_branch Node_FALSE_LEAF) in
  let v_black_low_branch := (Node_branch v_blue v_blue_low_branch v_blue_high_branch) in
  let v_black_high_branch := (Node_branch v_blue v_blue_high_branch Node_FALSE_LEAF) in
  let v_black_branch := (Node_branch v_black v_black_low_branch v_black_high_branch) in
  let v_expected_sibling_node := v_black_branch in
  teq v_expected_sibling_node (m_root v_closet) &&
  true) = true.
Proof. vm_compute. reflexivity. Qed.

(** bowtie-core/src/bdd/closet_builder/mod.rs, exclusion_rule_produces_expected_bdd, L386 *)
Example bowtie_core_bdd_closet_builder_mod_exclude_rules_tests_exclusion_rule_produces_expected_bdd : (
  let v_blue := (Item_new "shirts:blue"%string) in
  let v_red := (Item_new "shirts:red"%string) in
  let v_jeans := (Item_new "pants:jeans"%string) in
  let v_slacks := (Item_new "pants:slacks"%string) in
  let v_shirts := (Family_new "shirts"%string) in
  let v_pants := (Family_new "pants"%string) in
  let v_closet_builder := (m_add_exclusion_rule (m_add_item (m_add_item (m_add_item (m_add_item ClosetBuilder_new v_shirts v_red) v_shirts v_blue) v_pants v_slacks) v_pants v_jeans) v_red v_jeans) in
  let v_closet := (m_must_build v_closet_builder) in
  let v_expected := (let v_shirts_branch := (op_xor (Node_positive_branch v_red) (Node_positive_branch v_blue)) in
  let v_pants_branch := (op_xor (Node_positive_branch v_slacks) (Node_positive_branch v_jeans)) in
  let v_exclusion := (op_or (Node_negative_branch v_red) (Node_negative_branch v_jeans)) in
  let v_root := (op_and v_shirts_branch v_pants_branch) in
  (op_and v_root v_exclusion)) in
  teq v_expected (m_root v_closet) &&
  true) = true.
Proof. vm_compute. reflexivity. Qed.

(** bowtie-core/src/bdd/closet_builder/mod.rs, selecting_red_disallows_selecting_jeans, L421 *)
Example bowtie_core_bdd_closet_builder_mod_exclude_rules_tests_selecting_red_disallows_selecting_jeans : (
  let v_blue := (Item_new "shirts:blue"%string) in
  let v_red := (Item_new "shirts:red"%string) in
  let v_jeans := (Item_new "pants:jeans"%string) in
  let v_slacks := (Item_new "pants:slacks"%string) in
  let v_shirts := (Family_new "shirts"%string) in
  let v_pants := (Family_new "pants"%string) in
  let v_closet_builder := (m_add_exclusion_rule (m_add_item (m_add_item (m_add_item (m_add_item ClosetBuilder_new v_shirts v_red) v_shirts v_blue) v_pants v_slacks) v_pants v_jeans) v_red v_jeans) in
  let v_closet := (m_must_build v_closet_builder) in
  let v_red_and_jeans_selected := (m_unwrap (m_select_item v_closet v_red)) in
  let v_expected := (op_and (op_and (Node_negative_branch v_jeans) (Node_positive_branch v_slacks)) (Node_negative_branch v_blue)) in
  teq v_expected (m_root v_red_and_jeans_selected) &&
  true) = true.
Proof. vm_compute. reflexivity. Qed.

(** bowtie-core/src/bdd/closet_builder/mod.rs, selecting_jeans_does_not_allow_selecting_red, L451 *)
Example bowtie_core_bdd_closet_builder_mod_exclude_rules_tests_selecting_jeans_does_not_allow_selecting_red : (
  let v_blue := (Item_new "shirts:blue"%string) in
  let v_red := (Item_new "shirts:red"%string) in
  let v_jeans := (Item_new "pants:jeans"%string) in
  let v_slacks := (Item_new "pants:slacks"%string) in
  let v_shirts := (Family_new "shirts"%string) in
  let v_pants := (Family_new "pants"%string) in
  let v_closet_builder := (m_add_exclusion_rule (m_add_item (m_add_item (m_add_item (m_add_item ClosetBuilder_new v_shirts v_red) v_shirts v_blue) v_pants v_slacks) v_pants v_jeans) v_red v_jeans) in
  let v_closet := (m_must_build v_closet_builder) in
  let v_red_and_jeans_selected := (m_unwrap (m_select_item v_closet v_jeans)) in
  let v_expected := (op_and (op_and (Node_positive_branch v_blue) (Node_negative_branch v_red)) (Node_negative_branch v_slacks)) in
  teq v_expected (m_root v_red_and_jeans_selected) &&
  true) = true.
Proof. vm_compute. reflexivity. Qed.

(** bowtie-core/src/bdd/closet_builder/mod.rs, selecting_blue_does_not_exclude_any_selection, L481 *)
Example bowtie_core_bdd_closet_builder_mod_exclude_rules_tests_selecting_blue_does_not_exclude_any_selection : (
  let v_blue := (Item_new "shirts:blue"%string) in
  let v_red := (Item_new "shirts:red"%string) in
  let v_jeans := (Item_new "pants:jeans"%string) in
  let v_slacks := (Item_new "pants:slacks"%string) in
  let v_shirts := (Family_new "shirts"%string) in
  let v_pants := (Family_new "pants"%string) in
  let v_closet_builder := (m_add_exclusion_rule (m_add_item (m_add_item (m_add_item (m_add_item ClosetBuilder_new v_shirts v_red) v_shirts v_blue) v_pants v_slacks) v_pants v_jeans) v_red v_jeans) in
  let v_closet := (m_must_build v_closet_builder) in
  let v_red_and_jeans_selected := (m_unwrap (m_select_item v_closet v_blue)) in
  let v_expected := (op_xor (Node_positive_branch v_slacks) (op_and (Node_positive_branch v_jeans) (Node_negative_branch v_red))) in
  teq v_expected (m_root v_red_and_jeans_selected) &&
  true) = true.
Proof. vm_compute. reflexivity. Qed.

(** bowtie-core/src/bdd/closet_builder/mod.rs, selecting_slacks_does_not_exclude_any_selection, L511 *)
Example bowtie_core_bdd_closet_builder_mod_exclude_rules_tests_selecting_slacks_does_not_exclude_any_selection : (
  let v_blue := (Item_new "shirts:blue"%string) in
  let v_red := (Item_new "shirts:red"%string) in
  let v_jeans := (Item_new "pants:jeans"%string) in
  let v_slacks := (Item_new "pants:slacks"%string) in
  let v_shirts := (Family_new "shirts"%string) in
  let v_pants := (Family_new "pants"%string) in
  let v_closet_builder := (m_add_exclusion_rule (m_add_item (m_add_item (m_add_item (m_add_item ClosetBuilder_new v_shirts v_red) v_shirts v_blue) v_pants v_slacks) v_pants v_jeans) v_red v_jeans) in
  let v_closet := (m_must_build v_closet_builder) in
  let v_red_and_jeans_selected := (m_unwrap (m_select_item v_closet v_slacks)) in
  let v_expected := (op_and ((op_xor (Node_positive_branch v_blue) (Node_positive_branch v_red))) (Node_negative_branch v_jeans)) in
  teq v_expected (m_root v_red_and_jeans_selected) &&
  true) = true.
Proof. vm_compute. reflexivity. Qed.

(** bowtie-core/src/bdd/closet_builder/mod.rs, inclusion_rule_produces_expected_bdd, L549 *)
Example bowtie_core_bdd_closet_builder_mod_include_rules_tests_inclusion_rule_produces_expected_bdd : (
  let v_blue := (Item_new "shirts:blue"%string) in
  let v_red := (Item_new "shirts:red"%string) in
  let v_jeans := (Item_new "pants:jeans"%string) in
  let v_slacks := (Item_new "pants:slacks"%string) in
  let v_shirts := (Family_new "shirts"%string) in
  let v_pants := (Family_new "pants"%string) in
  let v_closet_builder := (m_add_inclusion_rule (m_add_item (m_add_item (m_add_item (m_add_item ClosetBuilder_new v_shirts v_red) v_shirts v_blue) v_pants v_slacks) v_pants v_jeans) v_red v_jeans) in
  let v_closet := (m_must_build v_closet_builder) in
  let v_expected := (let v_shirts_branch := (op_xor (Node_positive_branch v_red) (Node_positive_branch v_blue)) in
  let v_pants_branch := (op_xor (Node_positive_branch v_slacks) (Node_positive_branch v_jeans)) in
  let v_inclusion := (op_or (Node_negative_branch v_red) (Node_positive_branch v_jeans)) in
  let v_root := (op_and v_shirts_branch v_pants_branch) in
  (op_and v_root v_inclusion)) in
  teq v_expected (m_root v_closet) &&
  true) = true.
Proof. vm_compute. reflexivity. Qed.

(** bowtie-core/src/bdd/closet_builder/mod.rs, selecting_red_requires_selecting_jeans, L584 *)
Example bowtie_core_bdd_closet_builder_mod_include_rules_tests_selecting_red_requires_selecting_jeans : (
  let v_blue := (Item_new "shirts:blue"%string) in
  let v_red := (Item_new "shirts:red"%string) in
  let v_jeans := (Item_new "pants:jeans"%string) in
  let v_slacks := (Item_new "pants:slacks"%string) in
  let v_shirts := (Family_new "shirts"%string) in
  let v_pants := (Family_new "pants"%string) in
  let v_closet_builder := (m_add_inclusion_rule (m_add_item (m_add_item (m_add_item (m_add_item ClosetBuilder_new v_shirts v_red) v_shirts v_blue) v_pants v_slacks) v_pants v_jeans) v_red v_jeans) in
  let v_closet := (m_must_build v_closet_builder) in
  let v_red_and_jeans_selected := (m_unwrap (m_select_item v_closet v_red)) in
  let v_expected := (op_and (op_and (Node_negative_branch v_slacks) (Node_positive_branch v_jeans)) (Node_negative_branch v_blue)) in
  teq v_expected (m_root v_red_and_jeans_selected) &&
  true) = true.
Proof. vm_compute. reflexivity. Qed.

(** bowtie-core/src/bdd/closet_builder/mod.rs, selecting_blue_does_not_require_any_selection, L614 *)
Example bowtie_core_bdd_closet_builder_mod_include_rules_tests_selecting_blue_does_not_require_any_selection : (
  let v_blue := (Item_new "shirts:blue"%string) in
  let v_red := (Item_new "shirts:red"%string) in
  let v_jeans := (Item_new "pants:jeans"%string) in
  let v_slacks := (Item_new "pants:slacks"%string) in
  let v_shirts := (Family_new "shirts"%string) in
  let v_pants := (Family_new "pants"%string) in
  let v_closet_builder := (m_add_inclusion_rule (m_add_item (m_add_item (m_add_item (m_add_item ClosetBuilder_new v_shirts v_red) v_shirts v_blue) v_pants v_slacks) v_pants v_jeans) v_red v_jeans) in
  let v_closet := (m_must_build v_closet_builder) in
  let v_red_and_jeans_selected := (m_unwrap (m_select_item v_closet v_blue)) in
  let v_expected := (op_xor (Node_positive_branch v_slacks) (op_and (Node_positive_branch v_jeans) (Node_negative_branch v_red))) in
  teq v_expected (m_root v_red_and_jeans_selected) &&
  true) = true.
Proof. vm_compute. reflexivity. Qed.

(** bowtie-core/src/bdd/closet_builder/mod.rs, selecting_jeans_does_not_require_any_selection, L644 *)
Example bowtie_core_bdd_closet_builder_mod_include_rules_tests_selecting_jeans_does_not_require_any_selection : (
  let v_blue := (Item_new "shirts:blue"%string) in
  let v_red := (Item_new "shirts:red"%string) in
  let v_jeans := (Item_new "pants:jeans"%string) in
  let v_slacks := (Item_new "pants:slacks"%string) in
  let v_shirts := (Family_new "shirts"%string) in
  let v_pants := (Family_new "pants"%string) in
  let v_closet_builder := (m_add_inclusion_rule (m_add_item (m_add_item (m_add_item (m_add_item ClosetBuilder_new v_shirts v_red) v_shirts v_blue) v_pants v_slacks) v_pants v_jeans) v_red v_jeans) in
  let v_closet := (m_must_build v_closet_builder) in
  let v_red_and_jeans_selected := (m_unwrap (m_select_item v_closet v_jeans)) in
  let v_expected := (op_and ((op_xor (Node_positive_branch v_blue) (Node_positive_branch v_red))) (Node_negative_branch v_slacks)) in
  teq v_expected (m_root v_red_and_jeans_selected) &&
  true) = true.
Proof. vm_compute. reflexivity. Qed.

(** bowtie-core/src/bdd/closet_builder/mod.rs, selecting_slacks_does_not_require_any_selection, L674 *)
Example bowtie_core_bdd_closet_builder_mod_include_rules_tests_selecting_slacks_does_not_require_any_selection : (
  let v_blue := (Item_new "shirts:blue"%string) in
  let v_red := (Item_new "shirts:red"%string) in
  let v_jeans := (Item_new "pants:jeans"%string) in
  let v_slacks := (Item_new "pants:slacks"%string) in
  let v_shirts := (Family_new "shirts"%string) in
  let v_pants := (Family_new "pants"%string) in
  let v_closet_builder := (m_add_inclusion_rule (m_add_item (m_add_item (m_add_item (m_add_item ClosetBuilder_new v_shirts v_red) v_shirts v_blue) v_pants v_slacks) v_pants v_jeans) v_red v_jeans) in
  let v_closet := (m_must_build v_closet_builder) in
  let v_red_and_jeans_selected := (m_unwrap (m_select_item v_closet v_slacks)) in
  let v_expected := (op_and (op_and (Node_positive_branch v_blue) (Node_negative_branch v_red)) (Node_negative_branch v_jeans)) in
  teq v_expected (m_root v_red_and_jeans_selected) &&
  true) = true.
Proof. vm_compute. reflexivity. Qed.

(** bowtie-core/tests/closet_builder_bdd.rs, adding_item_to_two_families_returns_error, L11 *)
Example bowtie_core_tests_closet_builder_bdd_tests_adding_item_to_two_families_returns_error : (
  let v_blue := (Item_new "shirts:blue"%string) in
  let v_shirts := (Family_new "shirts"%string) in
  let v_pants := (Family_new "pants"%string) in
  let v_closet_builder := (m_add_item (m_add_item ClosetBuilder_new v_shirts v_blue) v_pants v_blue) in
  let v_closet := (m_build v_closet_builder) in
  let v_error := (m_expect_err v_closet) in
  teq (ClosetBuilderError_ConflictingFamilies v_blue [v_shirts; v_pants]) v_error &&
  true) = true.
Proof. vm_compute. reflexivity. Qed.

(** bowtie-core/tests/closet_builder_bdd.rs, include_rule_on_same_family_returns_error, L31 *)
Example bowtie_core_tests_closet_builder_bdd_tests_include_rule_on_same_family_returns_error : (
  let v_blue := (Item_new "shirts:blue"%string) in
  let v_red := (Item_new "shirts:red"%string) in
  let v_jeans := (Item_new "pants:jeans"%string) in
  let v_slacks := (Item_new "pants:slacks"%string) in
  let v_shirts := (Family_new "shirts"%string) in
  let v_pants := (Family_new "pants"%string) in
  let v_closet_builder := (m_add_inclusion_rule (m_add_item (m_add_item (m_add_item (m_add_item ClosetBuilder_new v_shirts v_blue) v_shirts v_red) v_pants v_jeans) v_pants v_slacks) v_blue v_red) in
  let v_closet := (m_build v_closet_builder) in
  let v_error := (m_expect_err v_closet) in
  teq (ClosetBuilderError_InclusionError v_shirts [v_blue; v_red]) v_error &&
  true) = true.
Proof. vm_compute. reflexivity. Qed.

(** bowtie-core/tests/closet_builder_bdd.rs, include_rule_on_unknown_item_returns_error, L58 *)
Example bowtie_core_tests_closet_builder_bdd_tests_include_rule_on_unknown_item_returns_error : (
  let v_blue := (Item_new "shirts:blue"%string) in
  let v_red := (Item_new "shirts:red"%string) in
  let v_green := (Item_new "shirts:green"%string) in
  let v_jeans := (Item_new "pants:jeans"%string) in
  let v_slacks := (Item_new "pants:slacks"%string) in
  let v_shirts := (Family_new "shirts"%string) in
  let v_pants := (Family_new "pants"%string) in
  let v_closet_builder := (m_add_inclusion_rule (m_add_item (m_add_item (m_add_item (m_add_item ClosetBuilder_new v_shirts v_blue) v_shirts v_red) v_pants v_jeans) v_pants v_slacks) v_green v_jeans) in
  let v_closet := (m_build v_closet_builder) in
  let v_error := (m_expect_err v_closet) in
  teq (ClosetBuilderError_MissingFamily v_green) v_error &&
  true) = true.
Proof. vm_compute. reflexivity. Qed.

(** bowtie-core/tests/closet_builder_bdd.rs, exclude_rule_on_same_family_returns_error, L86 *)
Example bowtie_core_tests_closet_builder_bdd_tests_exclude_rule_on_same_family_returns_error : (
  let v_blue := (Item_new "shirts:blue"%string) in
  let v_red := (Item_new "shirts:red"%string) in
  let v_jeans := (Item_new "pants:jeans"%string) in
  let v_slacks := (Item_new "pants:slacks"%string) in
  let v_shirts := (Family_new "shirts"%string) in
  let v_pants := (Family_new "pants"%string) in
  let v_closet_builder := (m_add_exclusion_rule (m_add_item (m_add_item (m_add_item (m_add_item ClosetBuilder_new v_shirts v_blue) v_shirts v_red) v_pants v_jeans) v_pants v_slacks) v_blue v_red) in
  let v_closet := (m_build v_closet_builder) in
  let v_error := (m_expect_err v_closet) in
  teq (ClosetBuilderError_ExclusionError v_shirts [v_blue; v_red]) v_error &&
  true) = true.
Proof. vm_compute. reflexivity. Qed.

(** bowtie-core/tests/closet_builder_bdd.rs, exclude_rule_on_unknown_item_returns_error, L113 *)
Example bowtie_core_tests_closet_builder_bdd_tests_exclude_rule_on_unknown_item_returns_error : (
  let v_blue := (Item_new "shirts:blue"%string) in
  let v_red := (Item_new "shirts:red"%string) in
  let v_green := (Item_new "shirts:green"%string) in
  let v_jeans := (Item_new "pants:jeans"%string) in
  let v_slacks := (Item_new "pants:slacks"%string) in
  let v_shirts := (Family_new "shirts"%string) in
  let v_pants := (Family_new "pants"%string) in
  let v_closet_builder := (m_add_exclusion_rule (m_add_exclusion_rule (m_add_item (m_add_item (m_add_item (m_add_item ClosetBuilder_new v_shirts v_blue) v_shirts v_red) v_pants v_jeans) v_pants v_slacks) v_green v_jeans) v_slacks v_green) in
  let v_closet := (m_build v_closet_builder) in
  let v_error := (m_expect_err v_closet) in
  teq (ClosetBuilderError_MissingFamily v_green) v_error &&
  true) = true.
Proof. vm_compute. reflexivity. Qed.

(** bowtie-core/tests/complete_outfit_bdd.rs, no_rules_no_selections, L14 *)
Example bowtie_core_tests_complete_outfit_bdd_no_rules_tests_no_rules_no_selections : (
  let v_blue := (Item_new "shirts:blue"%string) in
  let v_red := (Item_new "shirts:red"%string) in
  let v_grey := (Item_new "shirts:grey"%string) in
  let v_jeans := (Item_new "pants:jeans"%string) in
  let v_slacks := (Item_new "pants:slacks"%string) in
  let v_shirts := (Family_new "shirts"%string) in
  let v_pants := (Family_new "pants"%string) in
  let v_closet_builder := (m_add_item (m_add_item (m_add_item (m_add_item (m_add_item ClosetBuilder_new v_shirts v_blue) v_shirts v_red) v_shirts v_grey) v_pants v_jeans) v_pants v_slacks) in
  let v_closet := (m_must_build v_closet_builder) in
  let v_expected := (Ok (Outfit_new [v_jeans; v_blue])) in
  teq v_expected (m_complete_outfit v_closet []) &&
  true) = true.
Proof. vm_compute. reflexivity. Qed.

(** bowtie-core/tests/complete_outfit_bdd.rs, no_rules_one_selection, L41 *)
Example bowtie_core_tests_complete_outfit_bdd_no_rules_tests_no_rules_one_selection : (
  let v_blue := (Item_new "shirts:blue"%string) in
  let v_red := (Item_new "shirts:red"%string) in
  let v_jeans := (Item_new "pants:jeans"%string) in
  let v_slacks := (Item_new "pants:slacks"%string) in
  let v_shirts := (Family_new "shirts"%string) in
  let v_pants := (Family_new "pants"%string) in
  let v_closet_builder := (m_add_item (m_add_item (m_add_item (m_add_item ClosetBuilder_new v_shirts v_blue) v_shirts v_red) v_pants v_jeans) v_pants v_slacks) in
  let v_closet := (m_must_build v_closet_builder) in
  let v_expected := (Ok (Outfit_new [v_jeans; v_red])) in
  teq v_expected (m_complete_outfit v_closet [v_red]) &&
  true) = true.
Proof. vm_compute. reflexivity. Qed.

(** bowtie-core/tests/complete_outfit_bdd.rs, no_rules_selection_for_each_family, L66 *)
Example bowtie_core_tests_complete_outfit_bdd_no_rules_tests_no_rules_selection_for_each_family : (
  let v_blue := (Item_new "shirts:blue"%string) in
  let v_red := (Item_new "shirts:red"%string) in
  let v_jeans := (Item_new "pants:jeans"%string) in
  let v_slacks := (Item_new "pants:slacks"%string) in
  let v_shirts := (Family_new "shirts"%string) in
  let v_pants := (Family_new "pants"%string) in
  let v_closet_builder := (m_add_item (m_add_item (m_add_item (m_add_item ClosetBuilder_new v_shirts v_blue) v_shirts v_red) v_pants v_jeans) v_pants v_slacks) in
  let v_closet := (m_must_build v_closet_builder) in
  let v_expected := (Ok (Outfit_new [v_slacks; v_blue])) in
  teq v_expected (m_complete_outfit v_closet [v_slacks; v_blue]) &&
  true) = true.
Proof. vm_compute. reflexivity. Qed.

(** bowtie-core/tests/complete_outfit_bdd.rs, no_rules_unknown_selection, L91 *)
Example bowtie_core_tests_complete_outfit_bdd_no_rules_tests_no_rules_unknown_selection : (
  let v_blue := (Item_new "shirts:blue"%string) in
  let v_red := (Item_new "shirts:red"%string) in
  let v_black := (Item_new "shirts:black"%string) in
  let v_jeans := (Item_new "pants:jeans"%string) in
  let v_slacks := (Item_new "pants:slacks"%string) in
  let v_shirts := (Family_new "shirts"%string) in
  let v_pants := (Family_new "pants"%string) in
  let v_closet_builder := (m_add_item (m_add_item (m_add_item (m_add_item ClosetBuilder_new v_shirts v_blue) v_shirts v_red) v_pants v_jeans) v_pants v_slacks) in
  let v_closet := (m_must_build v_closet_builder) in
  let v_expected := (Err (UnknownItems [v_black])) in
  teq v_expected (m_complete_outfit v_closet [v_jeans; v_black]) &&
  true) = true.
Proof. vm_compute. reflexivity. Qed.

(** bowtie-core/tests/complete_outfit_bdd.rs, no_rules_more_selections_than_families, L117 *)
Example bowtie_core_tests_complete_outfit_bdd_no_rules_tests_no_rules_more_selections_than_families : (
  let v_blue := (Item_new "shirts:blue"%string) in
  let v_red := (Item_new "shirts:red"%string) in
  let v_jeans := (Item_new "pants:jeans"%string) in
  let v_slacks := (Item_new "pants:slacks"%string) in
  let v_shirts := (Family_new "shirts"%string) in
  let v_pants := (Family_new "pants"%string) in
  let v_closet_builder := (m_add_item (m_add_item (m_add_item (m_add_item ClosetBuilder_new v_shirts v_blue) v_shirts v_red) v_pants v_jeans) v_pants v_slacks) in
  let v_closet := (m_must_build v_closet_builder) in
  let v_expected := (let v_duplicates := BTreeMap_new in
  let v_duplicates := (m_insert v_duplicates v_pants [v_jeans; v_slacks]) in
  (Err (MultipleItemsPerFamily v_duplicates))) in
  teq v_expected (m_complete_outfit v_closet [v_jeans; v_blue; v_slacks]) &&
  true) = true.
Proof. vm_compute. reflexivity. Qed.

(** bowtie-core/tests/complete_outfit_bdd.rs, exclusion_rule_with_one_selection, L157 *)
Example bowtie_core_tests_complete_outfit_bdd_exclusion_rules_tests_exclusion_rule_with_one_selection : (
  let v_blue := (Item_new "shirts:blue"%string) in
  let v_red := (Item_new "shirts:red"%string) in
  let v_jeans := (Item_new "pants:jeans"%string) in
  let v_slacks := (Item_new "pants:slacks"%string) in
  let v_shirts := (Family_new "shirts"%string) in
  let v_pants := (Family_new "pants"%string) in
  let v_closet_builder := (m_add_exclusion_rule (m_add_item (m_add_item (m_add_item (m_add_item ClosetBuilder_new v_shirts v_blue) v_shirts v_red) v_pants v_jeans) v_pants v_slacks) v_blue v_jeans) in
  let v_closet := (m_must_build v_closet_builder) in
  let v_expected := (Ok (Outfit_new [v_slacks; v_blue])) in
  teq v_expected (m_complete_outfit v_closet [v_blue]) &&
  let v_expected := (Ok (Outfit_new [v_jeans; v_red])) in
  teq v_expected (m_complete_outfit v_closet [v_jeans]) &&
  true) = true.
Proof. vm_compute. reflexivity. Qed.

(** bowtie-core/tests/complete_outfit_bdd.rs, exclusion_rule_with_conflicting_selection, L189 *)
Example bowtie_core_tests_complete_outfit_bdd_exclusion_rules_tests_exclusion_rule_with_conflicting_selection : (
  let v_blue := (Item_new "shirts:blue"%string) in
  let v_red := (Item_new "shirts:red"%string) in
  let v_jeans := (Item_new "pants:jeans"%string) in
  let v_slacks := (Item_new "pants:slacks"%string) in
  let v_shirts := (Family_new "shirts"%string) in
  let v_pants := (Family_new "pants"%string) in
  let v_closet_builder := (m_add_exclusion_rule (m_add_item (m_add_item (m_add_item (m_add_item ClosetBuilder_new v_shirts v_blue) v_shirts v_red) v_pants v_jeans) v_pants v_slacks) v_blue v_jeans) in
  let v_closet := (m_must_build v_closet_builder) in
  let v_expected := (Err (IncompatibleSelections [v_jeans; v_blue])) in
  teq v_expected (m_complete_outfit v_closet [v_blue; v_jeans]) &&
  true) = true.
Proof. vm_compute. reflexivity. Qed.

(** bowtie-core/tests/complete_outfit_bdd.rs, exclusion_rules_with_impossible_selection, L215 *)
Example bowtie_core_tests_complete_outfit_bdd_exclusion_rules_tests_exclusion_rules_with_impossible_selection : (
  let v_blue := (Item_new "shirts:blue"%string) in
  let v_red := (Item_new "shirts:red"%string) in
  let v_jeans := (Item_new "pants:jeans"%string) in
  let v_slacks := (Item_new "pants:slacks"%string) in
  let v_shirts := (Family_new "shirts"%string) in
  let v_pants := (Family_new "pants"%string) in
  let v_closet_builder := (m_add_exclusion_rule (m_add_exclusion_rule (m_add_item (m_add_item (m_add_item (m_add_item ClosetBuilder_new v_shirts v_blue) v_shirts v_red) v_pants v_jeans) v_pants v_slacks) v_blue v_jeans) v_blue v_slacks) in
  let v_closet := (m_must_build v_closet_builder) in
  let v_expected := (Err (IncompatibleSelections [v_blue])) in
  teq v_expected (m_complete_outfit v_closet [v_blue]) &&
  true) = true.
Proof. vm_compute. reflexivity. Qed.

(** bowtie-core/tests/complete_outfit_bdd.rs, inclusion_rule_with_one_selection, L250 *)
Example bowtie_core_tests_complete_outfit_bdd_inclusion_rules_tests_inclusion_rule_with_one_selection : (
  let v_blue := (Item_new "shirts:blue"%string) in
  let v_red := (Item_new "shirts:red"%string) in
  let v_jeans := (Item_new "pants:jeans"%string) in
  let v_slacks := (Item_new "pants:slacks"%string) in
  let v_shirts := (Family_new "shirts"%string) in
  let v_pants := (Family_new "pants"%string) in
  let v_closet_builder := (m_add_item (m_add_item (m_add_item (m_add_item ClosetBuilder_new v_shirts v_blue) v_shirts v_red) v_pants v_jeans) v_pants v_slacks) in
  let v_closet := (m_must_build v_closet_builder) in
  let v_expected := (Ok (Outfit_new [v_jeans; v_blue])) in
  teq v_expected (m_complete_outfit v_closet []) &&
  let v_closet_builder := (m_add_inclusion_rule (m_add_item (m_add_item (m_add_item (m_add_item ClosetBuilder_new v_shirts v_blue) v_shirts v_red) v_pants v_jeans) v_pants v_slacks) v_jeans v_red) in
  let v_closet := (m_must_build v_closet_builder) in
  let v_expected := (Ok (Outfit_new [v_jeans; v_red])) in
  teq v_expected (m_complete_outfit v_closet []) &&
  true) = true.
Proof. vm_compute. reflexivity. Qed.

(** bowtie-core/tests/complete_outfit_bdd.rs, inclusion_rule_is_one_way, L290 *)
Example bowtie_core_tests_complete_outfit_bdd_inclusion_rules_tests_inclusion_rule_is_one_way : (
  let v_blue := (Item_new "shirts:blue"%string) in
  let v_red := (Item_new "shirts:red"%string) in
  let v_jeans := (Item_new "pants:jeans"%string) in
  let v_slacks := (Item_new "pants:slacks"%string) in
  let v_shirts := (Family_new "shirts"%string) in
  let v_pants := (Family_new "pants"%string) in
  let v_closet_builder := (m_add_inclusion_rule (m_add_item (m_add_item (m_add_item (m_add_item ClosetBuilder_new v_shirts v_blue) v_shirts v_red) v_pants v_jeans) v_pants v_slacks) v_red v_slacks) in
  let v_closet := (m_must_build v_closet_builder) in
  let v_expected := (Ok (Outfit_new [v_slacks; v_blue])) in
  teq v_expected (m_complete_outfit v_closet [v_slacks]) &&
  true) = true.
Proof. vm_compute. reflexivity. Qed.

(** bowtie-core/tests/complete_outfit_bdd.rs, three_families_eight_items, L324 *)
Example bowtie_core_tests_complete_outfit_bdd_all_rules_tests_three_families_eight_items : (
  let v_blue := (Item_new "shirts:blue"%string) in
  let v_red := (Item_new "shirts:red"%string) in
  let v_grey := (Item_new "shirts:grey"%string) in
  let v_jeans := (Item_new "pants:jeans"%string) in
  let v_slacks := (Item_new "pants:slacks"%string) in
  let v_sneakers := (Item_new "shoes:sneakers"%string) in
  let v_birkenstocks := (Item_new "shoes:birkenstocks"%string) in
  let v_topsiders := (Item_new "shoes:topsiders"%string) in
  let v_shirts := (Family_new "shirts"%string) in
  let v_pants := (Family_new "pants"%string) in
  let v_shoes := (Family_new "shoes"%string) in
  let v_closet_builder := (m_add_item (m_add_item (m_add_item (m_add_item (m_add_item (m_add_item (m_add_item (m_add_item ClosetBuilder_new v_shirts v_blue) v_shirts v_red) v_shirts v_grey) v_pants v_jeans) v_pants v_slacks) v_shoes v_birkenstocks) v_shoes v_sneakers) v_shoes v_topsiders) in
  let v_closet := (m_must_build v_closet_builder) in
  let v_expected := (Ok (Outfit_new [v_jeans; v_blue; v_birkenstocks])) in
  teq v_expected (m_complete_outfit v_closet []) &&
  true) = true.
Proof. vm_compute. reflexivity. Qed.

(** bowtie-core/tests/node_bdd_serde.rs, tokenize_small_node, L13 *)
Example bowtie_core_tests_node_bdd_serde_tests_tokenize_small_node : (
  let v_blue := (Item_new "shirts:blue"%string) in
  let v_red := (Item_new "shirts:red"%string) in
  let v_root := (op_and (Node_positive_branch v_blue) (Node_positive_branch v_red)) in
  assert_tokens v_root [(Token_Struct "Node"%string 2); (Token_Str "structure"%string); (Token_TupleVariant "Structure"%string "Required"%string 2); (Token_U64 0); (Token_TupleVariant "Structure"%string "Required"%string 2); (Token_U64 1); (Token_NewtypeVariant "Structure"%string "Outcome"%string); (Token_Bool true); Token_TupleVariantEnd; Token_TupleVariantEnd; (Token_Str "content"%string); (Token_Map (Some 2)); (Token_U64 0); (Token_NewtypeStruct "Item"%string); (Token_Str "shirts:blue"%string); (Token_U64 1); (Token_NewtypeStruct "Item"%string); (Token_Str "shirts:red"%string); Token_MapEnd; Token_StructEnd] &&
  true) = true.
Proof. vm_compute. reflexivity. Qed.

(** bowtie-core/tests/node_bdd_serde.rs, tokenize_large_node, L48 *)
Example bowtie_core_tests_node_bdd_serde_tests_tokenize_large_node : (
  let v_blue := (Item_new "shirts:blue"%string) in
  let v_red := (Item_new "shirts:red"%string) in
  let v_grey := (Item_new "shirts:grey"%string) in
  let v_jeans := (Item_new "pants:jeans"%string) in
  let v_slacks := (Item_new "pants:slacks"%string) in
  let v_sneakers := (Item_new "shoes:sneakers"%string) in
  let v_birkenstocks := (Item_new "shoes:birkenstocks"%string) in
  let v_topsiders := (Item_new "shoes:topsiders"%string) in
  let v_shirts := (Family_new "shirts"%string) in
  let v_pants := (Family_new "pants"%string) in
  let v_shoes := (Family_new "shoes"%string) in
  let v_closet_builder := (m_add_inclusion_rule (m_add_inclusion_rule (m_add_exclusion_rule (m_add_exclusion_rule (m_add_exclusion_rule (m_add_item (m_add_item (m_add_item (m_add_item (m_add_item (m_add_item (m_add_item (m_add_item ClosetBuilder_new v_shirts v_blue) v_shirts v_red) v_shirts v_grey) v_pants v_jeans) v_pants v_slacks) v_shoes v_birkenstocks) v_shoes v_sneakers) v_shoes v_topsiders) v_blue v_jeans) v_red v_slacks) v_grey v_jeans) v_birkenstocks v_slacks) v_birkenstocks v_blue) in
  let v_closet := (m_must_build v_closet_builder) in
  let v_root := (m_root v_closet) in
  assert_tokens v_root [(Token_Struct "Node"%string 2); (Token_Str "structure"%string); (Token_TupleVariant "Structure"%string "Available"%string 3); (Token_U64 0); (Token_TupleVariant "Structure"%string "Required"%string 2); (Token_U64 1); (Token_TupleVariant "Structure"%string "Available"%string 3); (Token_U64 2); (Token_TupleVariant "Structure"%string "Required"%string 2); (Token_U64 3); (Token_TupleVariant "Structure"%string "Excluded"%string 2); (Token_U64 4); (Token_TupleVariant "Structure"%string "Excluded"%string 2); (Token_U64 5); (Token_TupleVariant "Structure"%string "Available"%string 3); (Token_U64 6); (Token_TupleVariant "Structure"%string "Required"%string 2); (Token_U64 7); (Token_NewtypeVariant "Structure"%string "Outcome"%string); (Token_Bool true); Token_TupleVariantEnd; (Token_TupleVariant "Structure"%string "Excluded"%string 2); (Token_U64 7); (Token_NewtypeVariant "Structure"%string "Outcome"%string); (Token_Bool true); Token_TupleVariantEnd; Token_TupleVariantEnd; Token_TupleVariantEnd; Token_TupleVariantEnd; Token_TupleVariantEnd; (Token_TupleVariant "Structure"%string "Excluded"%string 2); (Token_U64 3); (Token_TupleVariant "Structure"%string "Excluded"%string 2); (Token_U64 4); (Token_TupleVariant "Structure"%string "Available"%string 3); (Token_U64 5); (Token_TupleVariant "Structure"%string "Available"%string 3); (Token_U64 6); (Token_TupleVariant "Structure"%string "Required"%string 2); (Token_U64 7); (Token_NewtypeVariant "Structure"%string "Outcome"%string); (Token_Bool true); Token_TupleVariantEnd; (Token_TupleVariant "Structure"%string "Excluded"%string 2); (Token_U64 7); (Token_NewtypeVariant "Structure"%string "Outcome"%string); (Token_Bool true); Token_TupleVariantEnd; Token_TupleVariantEnd; (Token_TupleVariant "Structure"%string "Excluded"%string 2); (Token_U64 6); (Token_TupleVariant "Structure"%string "Excluded"%string 2); (Token_U64 7); (Token_NewtypeVariant "Structure"%string "Outcome"%string); (Token_Bool true); Token_TupleVariantEnd; Token_TupleVariantEnd; Token_TupleVariantEnd; Token_TupleVariantEnd; Token_TupleVariantEnd; Token_TupleVariantEnd; Token_TupleVariantEnd; (Token_TupleVariant "Structure"%string "Excluded"%string 2); (Token_U64 1); (Token_TupleVariant "Structure"%string "Excluded"%string 2); (Token_U64 2); (Token_TupleVariant "Structure"%string "Excluded"%string 2); (Token_U64 3); (Token_TupleVariant "Structure"%string "Required"%string 2); (Token_U64 4); (Token_TupleVariant "Structure"%string "Excluded"%string 2); (Token_U64 5); (Token_TupleVariant "Structure"%string "Available"%string 3); (Token_U64 6); (Token_TupleVariant "Structure"%string "Required"%string 2); (Token_U64 7); (Token_NewtypeVariant "Structure"%string "Outcome"%string); (Token_Bool true); Token_TupleVariantEnd; (Token_TupleVariant "Structure"%string "Excluded"%string 2); (Token_U64 7); (Token_NewtypeVariant "Structure"%string "Outcome"%string); (Token_Bool true); Token_TupleVariantEnd; Token_TupleVariantEnd; Token_TupleVariantEnd; Token_TupleVariantEnd; Token_TupleVariantEnd; Token_TupleVariantEnd; Token_TupleVariantEnd; Token_TupleVariantEnd; (Token_Str "content"%string); (Token_Map (Some 8)); (Token_U64 0); (Token_NewtypeStruct "Item"%string); (Token_Str "pants:jeans"%string); (Token_U64 1); (Token_NewtypeStruct "Item"%string); (Token_Str "pants:slacks"%string); (Token_U64 2); (Token_NewtypeStruct "Item"%string); (Token_Str "shirts:blue"%string); (Token_U64 3); (Token_NewtypeStruct "Item"%string); (Token_Str "shirts:grey"%string); (Token_U64 4); (Token_NewtypeStruct "Item"%string); (Token_Str "shirts:red"%string); (Token_U64 5); (Token_NewtypeStruct "Item"%string); (Token_Str "shoes:birkenstocks"%string); (Token_U64 6); (Token_NewtypeStruct "Item"%string); (Token_Str "shoes:sneakers"%string); (Token_U64 7); (Token_NewtypeStruct "Item"%string); (Token_Str "shoes:topsiders"%string); Token_MapEnd; Token_StructEnd] &&
  true) = true.
Proof. vm_compute. reflexivity. Qed.
