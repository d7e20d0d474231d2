(** GENERATED by tools/rust_tests.py: the repository's own tests, transcribed and run on the
    model.  These are checks of the MODEL against the values the authors expect, not proofs of
    properties (those are in Properties_*.v). *)
From Coq Require Import String List Bool.
From Verif Require Import RepoPrelude_Zdd2Tree.
Import ListNotations.
Open Scope list_scope.
Open Scope bool_scope.

(** weave/src/zdd2/tree/mod.rs, empty_tree, L94 *)
Example weave_zdd2_tree_mod_eq_tree_tests_empty_tree : (
  let v_tree1 := Tree_default in
  let v_tree2 := Tree_default in
  teq v_tree1 v_tree2 &&
  true) = true.
Proof. vm_compute. reflexivity. Qed.

(** weave/src/zdd2/tree/mod.rs, single_element, L102 *)
Example weave_zdd2_tree_mod_eq_tree_tests_single_element : (
  let v_tree1 := (Tree_one "1"%string) in
  let v_tree2 := (Tree_one "1"%string) in
  teq v_tree1 v_tree2 &&
  true) = true.
Proof. vm_compute. reflexivity. Qed.

(** weave/src/zdd2/tree/mod.rs, many_element, L110 *)
Example weave_zdd2_tree_mod_eq_tree_tests_many_element : (
  let v_tree1 := (Tree_many ["1"%string; "2"%string]) in
  let v_tree2 := (Tree_many ["1"%string; "2"%string]) in
  teq v_tree1 v_tree2 &&
  true) = true.
Proof. vm_compute. reflexivity. Qed.

(** weave/src/zdd2/tree/mod.rs, many_element_with_none, L118 *)
Example weave_zdd2_tree_mod_eq_tree_tests_many_element_with_none : (
  let v_tree1 := (Tree_many []) in
  let v_tree2 := Tree_default in
  teq v_tree1 v_tree2 &&
  true) = true.
Proof. vm_compute. reflexivity. Qed.

(** weave/src/zdd2/tree/mod.rs, many_element_with_one, L126 *)
Example weave_zdd2_tree_mod_eq_tree_tests_many_element_with_one : (
  let v_tree1 := (Tree_many ["1"%string]) in
  let v_tree2 := (Tree_one "1"%string) in
  teq v_tree1 v_tree2 &&
  true) = true.
Proof. vm_compute. reflexivity. Qed.

(** weave/src/zdd2/tree/mod.rs, empty_tree_is_default, L139 *)
Example weave_zdd2_tree_mod_empty_tree_tests_empty_tree_is_default : (
  let v_tree := Tree_default in
  teq 0 (m_len v_tree) &&
  true) = true.
Proof. vm_compute. reflexivity. Qed.

(** weave/src/zdd2/tree/mod.rs, empty_tree_has_size_0, L146 *)
Example weave_zdd2_tree_mod_empty_tree_tests_empty_tree_has_size_0 : (
  let v_tree := Tree_empty in
  teq 0 (m_len v_tree) &&
  true) = true.
Proof. vm_compute. reflexivity. Qed.

(** weave/src/zdd2/tree/mod.rs, empty_tree_is_empty, L153 *)
Example weave_zdd2_tree_mod_empty_tree_tests_empty_tree_is_empty : (
  let v_tree := Tree_empty in
  teq true (m_is_empty v_tree) &&
  true) = true.
Proof. vm_compute. reflexivity. Qed.

(** weave/src/zdd2/tree/mod.rs, empty_tree_into, L160 *)
Example weave_zdd2_tree_mod_empty_tree_tests_empty_tree_into : (
  let v_tree := Tree_empty in
  teq Vec_new (Into_into v_tree) &&
  true) = true.
Proof. vm_compute. reflexivity. Qed.

(** weave/src/zdd2/tree/mod.rs, one_element_tree_has_size_1, L172 *)
Example weave_zdd2_tree_mod_one_element_tree_tests_one_element_tree_has_size_1 : (
  let v_tree := (Tree_one "1"%string) in
  teq 1 (m_len v_tree) &&
  true) = true.
Proof. vm_compute. reflexivity. Qed.

(** weave/src/zdd2/tree/mod.rs, one_element_tree_is_not_empty, L179 *)
Example weave_zdd2_tree_mod_one_element_tree_tests_one_element_tree_is_not_empty : (
  let v_tree := (Tree_one "1"%string) in
  teq false (m_is_empty v_tree) &&
  true) = true.
Proof. vm_compute. reflexivity. Qed.

(** weave/src/zdd2/tree/mod.rs, one_element_tree_into, L186 *)
Example weave_zdd2_tree_mod_one_element_tree_tests_one_element_tree_into : (
  let v_tree := (Tree_one "1"%string) in
  teq ["1"%string] (Into_into v_tree) &&
  true) = true.
Proof. vm_compute. reflexivity. Qed.

(** weave/src/zdd2/tree/mod.rs, many_element_tree_has_size_n, L198 *)
Example weave_zdd2_tree_mod_many_element_tree_tests_many_element_tree_has_size_n : (
  let v_tree := (Tree_many ["1"%string; "2"%string]) in
  teq 2 (m_len v_tree) &&
  true) = true.
Proof. vm_compute. reflexivity. Qed.

(** weave/src/zdd2/tree/mod.rs, many_element_tree_is_not_empty, L205 *)
Example weave_zdd2_tree_mod_many_element_tree_tests_many_element_tree_is_not_empty : (
  let v_tree := (Tree_many ["1"%string; "2"%string]) in
  teq false (m_is_empty v_tree) &&
  true) = true.
Proof. vm_compute. reflexivity. Qed.

(** weave/src/zdd2/tree/mod.rs, many_element_tree_into, L212 *)
Example weave_zdd2_tree_mod_many_element_tree_tests_many_element_tree_into : (
  let v_tree := (Tree_many ["1"%string; "2"%string]) in
  teq ["1"%string; "2"%string] (Into_into v_tree) &&
  true) = true.
Proof. vm_compute. reflexivity. Qed.

(** weave/src/zdd2/tree/union.rs, union_returns_right_when_left_is_one_subset, L37 *)
Example weave_zdd2_tree_union_subset_tests_union_returns_right_when_left_is_one_subset : (
  let v_tree1 := (Tree_one "1"%string) in
  let v_tree2 := (Tree_many ["1"%string; "2"%string]) in
  teq (Tree_many ["1"%string; "2"%string]) (Tree_union v_tree1 v_tree2) &&
  true) = true.
Proof. vm_compute. reflexivity. Qed.

(** weave/src/zdd2/tree/union.rs, union_returns_left_when_right_is_one_subset, L48 *)
Example weave_zdd2_tree_union_subset_tests_union_returns_left_when_right_is_one_subset : (
  let v_tree1 := (Tree_many ["1"%string; "2"%string]) in
  let v_tree2 := (Tree_one "2"%string) in
  teq (Tree_many ["1"%string; "2"%string]) (Tree_union v_tree1 v_tree2) &&
  true) = true.
Proof. vm_compute. reflexivity. Qed.

(** weave/src/zdd2/tree/union.rs, union_returns_left_when_left_is_many_subset, L59 *)
Example weave_zdd2_tree_union_subset_tests_union_returns_left_when_left_is_many_subset : (
  let v_tree1 := (Tree_many ["1"%string; "2"%string]) in
  let v_tree2 := (Tree_many ["1"%string; "2"%string; "3"%string]) in
  teq (Tree_many ["1"%string; "2"%string; "3"%string]) (Tree_union v_tree1 v_tree2) &&
  true) = true.
Proof. vm_compute. reflexivity. Qed.

(** weave/src/zdd2/tree/union.rs, union_returns_right_when_right_is_many_subset, L70 *)
Example weave_zdd2_tree_union_subset_tests_union_returns_right_when_right_is_many_subset : (
  let v_tree1 := (Tree_many ["1"%string; "2"%string; "3"%string]) in
  let v_tree2 := (Tree_many ["1"%string; "2"%string]) in
  teq (Tree_many ["1"%string; "2"%string; "3"%string]) (Tree_union v_tree1 v_tree2) &&
  true) = true.
Proof. vm_compute. reflexivity. Qed.

(** weave/src/zdd2/tree/union.rs, left_side_empty, L86 *)
Example weave_zdd2_tree_union_tests_left_side_empty : (
  let v_tree1 := Tree_empty in
  let v_tree2 := (Tree_one "1"%string) in
  teq (Tree_one "1"%string) (Tree_union v_tree1 v_tree2) &&
  true) = true.
Proof. vm_compute. reflexivity. Qed.

(** weave/src/zdd2/tree/union.rs, right_side_empty, L97 *)
Example weave_zdd2_tree_union_tests_right_side_empty : (
  let v_tree1 := (Tree_one "1"%string) in
  let v_tree2 := Tree_empty in
  teq (Tree_one "1"%string) (Tree_union v_tree1 v_tree2) &&
  true) = true.
Proof. vm_compute. reflexivity. Qed.

(** weave/src/zdd2/tree/union.rs, returns_all_when_trees_are_disjoint, L108 *)
Example weave_zdd2_tree_union_tests_returns_all_when_trees_are_disjoint : (
  let v_tree1 := (Tree_one "1"%string) in
  let v_tree2 := (Tree_one "2"%string) in
  teq (Tree_many ["1"%string; "2"%string]) (Tree_union v_tree1 v_tree2) &&
  true) = true.
Proof. vm_compute. reflexivity. Qed.

(** weave/src/zdd2/tree/union.rs, union_returns_identity_when_trees_are_equal, L119 *)
Example weave_zdd2_tree_union_tests_union_returns_identity_when_trees_are_equal : (
  let v_tree1 := Tree_empty in
  let v_tree2 := Tree_empty in
  teq Tree_empty (Tree_union v_tree1 v_tree2) &&
  true) = true.
Proof. vm_compute. reflexivity. Qed.

(** weave/src/zdd2/tree/union.rs, union_returns_identity_when_trees_are_equal_one, L130 *)
Example weave_zdd2_tree_union_tests_union_returns_identity_when_trees_are_equal_one : (
  let v_tree1 := (Tree_one "1"%string) in
  let v_tree2 := (Tree_one "1"%string) in
  teq (Tree_one "1"%string) (Tree_union v_tree1 v_tree2) &&
  true) = true.
Proof. vm_compute. reflexivity. Qed.

(** weave/src/zdd2/tree/union.rs, union_returns_identity_when_trees_are_equal_many, L141 *)
Example weave_zdd2_tree_union_tests_union_returns_identity_when_trees_are_equal_many : (
  let v_tree1 := (Tree_many ["1"%string; "2"%string]) in
  let v_tree2 := (Tree_many ["1"%string; "2"%string]) in
  teq (Tree_many ["1"%string; "2"%string]) (Tree_union v_tree1 v_tree2) &&
  true) = true.
Proof. vm_compute. reflexivity. Qed.

(** weave/src/zdd2/tree/union.rs, union_returns_many, L152 *)
Example weave_zdd2_tree_union_tests_union_returns_many : (
  let v_tree1 := (Tree_many ["2"%string; "3"%string]) in
  let v_tree2 := (Tree_many ["1"%string; "2"%string]) in
  teq (Tree_many ["1"%string; "2"%string; "3"%string]) (Tree_union v_tree1 v_tree2) &&
  true) = true.
Proof. vm_compute. reflexivity. Qed.

(** weave/src/zdd2/tree/intersect.rs, intersect_returns_left_when_left_is_subset_one, L40 *)
Example weave_zdd2_tree_intersect_subset_tests_intersect_returns_left_when_left_is_subset_one : (
  let v_tree1 := (Tree_one "1"%string) in
  let v_tree2 := (Tree_many ["1"%string; "2"%string]) in
  teq (Tree_one "1"%string) (Tree_intersect v_tree1 v_tree2) &&
  true) = true.
Proof. vm_compute. reflexivity. Qed.

(** weave/src/zdd2/tree/intersect.rs, intersect_returns_right_when_right_is_subset_one, L51 *)
Example weave_zdd2_tree_intersect_subset_tests_intersect_returns_right_when_right_is_subset_one : (
  let v_tree1 := (Tree_many ["1"%string; "2"%string]) in
  let v_tree2 := (Tree_one "2"%string) in
  teq (Tree_one "2"%string) (Tree_intersect v_tree1 v_tree2) &&
  true) = true.
Proof. vm_compute. reflexivity. Qed.

(** weave/src/zdd2/tree/intersect.rs, intersect_returns_left_when_left_is_subset_many, L62 *)
Example weave_zdd2_tree_intersect_subset_tests_intersect_returns_left_when_left_is_subset_many : (
  let v_tree1 := (Tree_many ["1"%string; "2"%string]) in
  let v_tree2 := (Tree_many ["1"%string; "2"%string; "3"%string]) in
  teq (Tree_many ["1"%string; "2"%string]) (Tree_intersect v_tree1 v_tree2) &&
  true) = true.
Proof. vm_compute. reflexivity. Qed.

(** weave/src/zdd2/tree/intersect.rs, intersect_returns_right_when_right_is_subset_many, L73 *)
Example weave_zdd2_tree_intersect_subset_tests_intersect_returns_right_when_right_is_subset_many : (
  let v_tree1 := (Tree_many ["1"%string; "2"%string; "3"%string]) in
  let v_tree2 := (Tree_many ["1"%string; "2"%string]) in
  teq (Tree_many ["1"%string; "2"%string]) (Tree_intersect v_tree1 v_tree2) &&
  true) = true.
Proof. vm_compute. reflexivity. Qed.

(** weave/src/zdd2/tree/intersect.rs, left_side_empty, L89 *)
Example weave_zdd2_tree_intersect_tests_left_side_empty : (
  let v_tree1 := Tree_empty in
  let v_tree2 := (Tree_one "1"%string) in
  teq Tree_empty (Tree_intersect v_tree1 v_tree2) &&
  true) = true.
Proof. vm_compute. reflexivity. Qed.

(** weave/src/zdd2/tree/intersect.rs, right_side_empty, L100 *)
Example weave_zdd2_tree_intersect_tests_right_side_empty : (
  let v_tree1 := (Tree_one "1"%string) in
  let v_tree2 := Tree_empty in
  teq Tree_empty (Tree_intersect v_tree1 v_tree2) &&
  true) = true.
Proof. vm_compute. reflexivity. Qed.

(** weave/src/zdd2/tree/intersect.rs, returns_empty_when_trees_are_disjoint, L111 *)
Example weave_zdd2_tree_intersect_tests_returns_empty_when_trees_are_disjoint : (
  let v_tree1 := (Tree_one "1"%string) in
  let v_tree2 := (Tree_one "2"%string) in
  teq Tree_empty (Tree_intersect v_tree1 v_tree2) &&
  true) = true.
Proof. vm_compute. reflexivity. Qed.

(** weave/src/zdd2/tree/intersect.rs, intersect_returns_identity_when_both_trees_are_empty, L122 *)
Example weave_zdd2_tree_intersect_tests_intersect_returns_identity_when_both_trees_are_empty : (
  let v_tree1 := Tree_empty in
  let v_tree2 := Tree_empty in
  teq Tree_empty (Tree_intersect v_tree1 v_tree2) &&
  true) = true.
Proof. vm_compute. reflexivity. Qed.

(** weave/src/zdd2/tree/intersect.rs, intersect_returns_identity_when_trees_are_equal_one, L133 *)
Example weave_zdd2_tree_intersect_tests_intersect_returns_identity_when_trees_are_equal_one : (
  let v_tree1 := (Tree_one "1"%string) in
  let v_tree2 := (Tree_one "1"%string) in
  teq (Tree_one "1"%string) (Tree_intersect v_tree1 v_tree2) &&
  true) = true.
Proof. vm_compute. reflexivity. Qed.

(** weave/src/zdd2/tree/intersect.rs, intersect_returns_identity_when_trees_are_equal_many, L144 *)
Example weave_zdd2_tree_intersect_tests_intersect_returns_identity_when_trees_are_equal_many : (
  let v_tree1 := (Tree_many ["1"%string; "2"%string]) in
  let v_tree2 := (Tree_many ["1"%string; "2"%string]) in
  teq (Tree_many ["1"%string; "2"%string]) (Tree_intersect v_tree1 v_tree2) &&
  true) = true.
Proof. vm_compute. reflexivity. Qed.

(** weave/src/zdd2/tree/intersect.rs, intersect_returns_common_one, L155 *)
Example weave_zdd2_tree_intersect_tests_intersect_returns_common_one : (
  let v_tree1 := (Tree_many ["2"%string; "3"%string]) in
  let v_tree2 := (Tree_many ["1"%string; "2"%string]) in
  teq (Tree_one "2"%string) (Tree_intersect v_tree1 v_tree2) &&
  true) = true.
Proof. vm_compute. reflexivity. Qed.

(** weave/src/zdd2/tree/intersect.rs, intersect_returns_common_many, L166 *)
Example weave_zdd2_tree_intersect_tests_intersect_returns_common_many : (
  let v_tree1 := (Tree_many ["1"%string; "2"%string; "3"%string]) in
  let v_tree2 := (Tree_many ["2"%string; "3"%string; "4"%string]) in
  teq (Tree_many ["2"%string; "3"%string]) (Tree_intersect v_tree1 v_tree2) &&
  true) = true.
Proof. vm_compute. reflexivity. Qed.

(** weave/src/zdd2/tree/product.rs, left_side_empty, L48 *)
Example weave_zdd2_tree_product_tests_left_side_empty : (
  let v_tree1 := Tree_empty in
  let v_tree2 := (Tree_one "1"%string) in
  teq Forest_empty (Tree_product v_tree1 v_tree2) &&
  true) = true.
Proof. vm_compute. reflexivity. Qed.

(** weave/src/zdd2/tree/product.rs, right_side_empty, L59 *)
Example weave_zdd2_tree_product_tests_right_side_empty : (
  let v_tree1 := (Tree_one "1"%string) in
  let v_tree2 := Tree_empty in
  teq Forest_empty (Tree_product v_tree1 v_tree2) &&
  true) = true.
Proof. vm_compute. reflexivity. Qed.

(** weave/src/zdd2/tree/product.rs, returns_unit_when_trees_are_disjoint, L70 *)
Example weave_zdd2_tree_product_tests_returns_unit_when_trees_are_disjoint : (
  let v_tree1 := (Tree_one "1"%string) in
  let v_tree2 := (Tree_one "2"%string) in
  teq (Forest_unit ["1"%string; "2"%string]) (Tree_product v_tree1 v_tree2) &&
  true) = true.
Proof. vm_compute. reflexivity. Qed.

(** weave/src/zdd2/tree/product.rs, product_returns_identity_when_both_trees_are_empty, L81 *)
Example weave_zdd2_tree_product_tests_product_returns_identity_when_both_trees_are_empty : (
  let v_tree1 := Tree_empty in
  let v_tree2 := Tree_empty in
  teq Forest_empty (Tree_product v_tree1 v_tree2) &&
  true) = true.
Proof. vm_compute. reflexivity. Qed.

(** weave/src/zdd2/tree/product.rs, product_returns_identity_when_trees_are_equal_one, L92 *)
Example weave_zdd2_tree_product_tests_product_returns_identity_when_trees_are_equal_one : (
  let v_tree1 := (Tree_one "1"%string) in
  let v_tree2 := (Tree_one "1"%string) in
  teq (Forest_unit ["1"%string]) (Tree_product v_tree1 v_tree2) &&
  true) = true.
Proof. vm_compute. reflexivity. Qed.

(** weave/src/zdd2/tree/product.rs, product_returns_many_when_trees_are_equal_many, L103 *)
Example weave_zdd2_tree_product_tests_product_returns_many_when_trees_are_equal_many : (
  let v_tree1 := (Tree_many ["1"%string; "2"%string]) in
  let v_tree2 := (Tree_many ["1"%string; "2"%string]) in
  teq (Forest_many [["1"%string]; ["1"%string; "2"%string]; ["2"%string]]) (Tree_product v_tree1 v_tree2) &&
  true) = true.
Proof. vm_compute. reflexivity. Qed.

(** weave/src/zdd2/tree/product.rs, product_returns_many_trees_of_2, L118 *)
Example weave_zdd2_tree_product_tests_product_returns_many_trees_of_2 : (
  let v_tree1 := (Tree_many ["2"%string; "3"%string]) in
  let v_tree2 := (Tree_many ["1"%string; "2"%string]) in
  teq (Forest_many [["1"%string; "2"%string]; ["1"%string; "3"%string]; ["2"%string; "3"%string]; ["2"%string]]) (Tree_product v_tree1 v_tree2) &&
  true) = true.
Proof. vm_compute. reflexivity. Qed.

(** weave/src/zdd2/tree/product.rs, product_returns_many_trees_of_3, L134 *)
Example weave_zdd2_tree_product_tests_product_returns_many_trees_of_3 : (
  let v_tree1 := (Tree_many ["1"%string; "2"%string; "3"%string]) in
  let v_tree2 := (Tree_many ["2"%string; "3"%string; "4"%string]) in
  teq (Forest_many [["1"%string; "2"%string]; ["1"%string; "3"%string]; ["1"%string; "4"%string]; ["2"%string]; ["2"%string; "3"%string]; ["2"%string; "4"%string]; ["3"%string]; ["3"%string; "4"%string]]) (Tree_product v_tree1 v_tree2) &&
  true) = true.
Proof. vm_compute. reflexivity. Qed.
