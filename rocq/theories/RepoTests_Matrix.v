(** GENERATED by tools/rust_tests.py: the repository's own tests, transcribed and run on the
    model.  These are checks of the MODEL against the values the authors expect, not proofs of
    properties (those are in Properties_*.v). *)
From Coq Require Import String List Bool.
From Verif Require Import RepoPrelude_Matrix.
Import ListNotations.
Open Scope list_scope.
Open Scope bool_scope.

(** weave/src/matrix/forest/mod.rs, empty_forest, L152 *)
Example weave_matrix_forest_mod_eq_forest_tests_empty_forest : (
  let v_forest1 := Forest_empty in
  let v_forest2 := Forest_empty in
  teq v_forest1 v_forest2 &&
  true) = true.
Proof. vm_compute. reflexivity. Qed.

(** weave/src/matrix/forest/mod.rs, unit_forest, L160 *)
Example weave_matrix_forest_mod_eq_forest_tests_unit_forest : (
  let v_forest1 := (Forest_unit ["1"%string; "2"%string]) in
  let v_forest2 := (Forest_unit ["2"%string; "1"%string]) in
  teq v_forest1 v_forest2 &&
  true) = true.
Proof. vm_compute. reflexivity. Qed.

(** weave/src/matrix/forest/mod.rs, many_forest, L168 *)
Example weave_matrix_forest_mod_eq_forest_tests_many_forest : (
  let v_forest1 := (Forest_many [["1"%string; "2"%string]]) in
  let v_forest2 := (Forest_many [["2"%string; "1"%string]]) in
  teq v_forest1 v_forest2 &&
  true) = true.
Proof. vm_compute. reflexivity. Qed.

(** weave/src/matrix/forest/mod.rs, many_forest_with_none, L176 *)
Example weave_matrix_forest_mod_eq_forest_tests_many_forest_with_none : (
  let v_forest1 := (Forest_many []) in
  let v_forest2 := Forest_empty in
  teq v_forest1 v_forest2 &&
  true) = true.
Proof. vm_compute. reflexivity. Qed.

(** weave/src/matrix/forest/mod.rs, many_forest_with_one, L184 *)
Example weave_matrix_forest_mod_eq_forest_tests_many_forest_with_one : (
  let v_forest1 := (Forest_many [["1"%string]]) in
  let v_forest2 := (Forest_unit ["1"%string]) in
  teq v_forest1 v_forest2 &&
  true) = true.
Proof. vm_compute. reflexivity. Qed.

(** weave/src/matrix/forest/mod.rs, empty_forest_has_size_0, L197 *)
Example weave_matrix_forest_mod_empty_forest_tests_empty_forest_has_size_0 : (
  let v_forest := Forest_empty in
  teq 0 (m_len v_forest) &&
  true) = true.
Proof. vm_compute. reflexivity. Qed.

(** weave/src/matrix/forest/mod.rs, empty_forest_is_empty, L204 *)
Example weave_matrix_forest_mod_empty_forest_tests_empty_forest_is_empty : (
  let v_forest := Forest_empty in
  teq true (m_is_empty v_forest) &&
  true) = true.
Proof. vm_compute. reflexivity. Qed.

(** weave/src/matrix/forest/mod.rs, empty_forest_into, L211 *)
Example weave_matrix_forest_mod_empty_forest_tests_empty_forest_into : (
  let v_forest := Forest_empty in
  teq Vec_new (Into_into v_forest) &&
  true) = true.
Proof. vm_compute. reflexivity. Qed.

(** weave/src/matrix/forest/mod.rs, unit_forest_has_size_1, L226 *)
Example weave_matrix_forest_mod_unit_forest_tests_unit_forest_has_size_1 : (
  let v_forest := (Forest_unit ["1"%string; "2"%string]) in
  teq 1 (m_len v_forest) &&
  true) = true.
Proof. vm_compute. reflexivity. Qed.

(** weave/src/matrix/forest/mod.rs, unit_forest_is_empty, L233 *)
Example weave_matrix_forest_mod_unit_forest_tests_unit_forest_is_empty : (
  let v_forest := (Forest_unit ["1"%string; "2"%string]) in
  teq false (m_is_empty v_forest) &&
  true) = true.
Proof. vm_compute. reflexivity. Qed.

(** weave/src/matrix/forest/mod.rs, unit_forest_into, L240 *)
Example weave_matrix_forest_mod_unit_forest_tests_unit_forest_into : (
  let v_forest := (Forest_unit ["1"%string; "2"%string]) in
  let v_expected := [["1"%string; "2"%string]] in
  teq v_expected (Into_into v_forest) &&
  true) = true.
Proof. vm_compute. reflexivity. Qed.

(** weave/src/matrix/forest/mod.rs, many_forest_has_size_2, L256 *)
Example weave_matrix_forest_mod_many_forest_tests_many_forest_has_size_2 : (
  let v_forest := (Forest_many [["1"%string; "2"%string]; ["2"%string; "3"%string]]) in
  teq 2 (m_len v_forest) &&
  true) = true.
Proof. vm_compute. reflexivity. Qed.

(** weave/src/matrix/forest/mod.rs, many_forest_is_not_empty, L266 *)
Example weave_matrix_forest_mod_many_forest_tests_many_forest_is_not_empty : (
  let v_forest := (Forest_many [["1"%string; "2"%string]; ["2"%string; "3"%string]]) in
  teq false (m_is_empty v_forest) &&
  true) = true.
Proof. vm_compute. reflexivity. Qed.

(** weave/src/matrix/forest/mod.rs, many_forest_into, L276 *)
Example weave_matrix_forest_mod_many_forest_tests_many_forest_into : (
  let v_forest := (Forest_many [["1"%string; "2"%string]; ["2"%string; "3"%string]]) in
  let v_expected := [["1"%string; "2"%string]; ["2"%string; "3"%string]] in
  teq v_expected (Into_into v_forest) &&
  true) = true.
Proof. vm_compute. reflexivity. Qed.

(** weave/src/matrix/forest/mod.rs, unique_forest_into, L293; the expected order is the reverse of the order of insertion *)
Example weave_matrix_forest_mod_many_forest_tests_unique_forest_into : (
  let v_forest := (Forest_unique ["1"%string; "2"%string]) in
  let v_expected := [["2"%string]; ["1"%string]] in
  teq v_expected (Into_into_rev v_forest) &&
  true) = true.
Proof. vm_compute. reflexivity. Qed.

(** weave/src/matrix/forest/mod.rs, product_of_two_forests_of_two, L312 *)
Example weave_matrix_forest_mod_random_tests_product_of_two_forests_of_two : (
  let v_forest := (m_product (Forest_unique ["1-1"%string; "1-2"%string; "1-3"%string]) (Forest_unique ["2-1"%string; "2-2"%string; "2-3"%string])) in
  teq 9 (m_len v_forest) &&
  let v_expected := (Forest_many [["1-3"%string; "2-1"%string]; ["1-3"%string; "2-2"%string]; ["2-3"%string; "1-2"%string]; ["1-1"%string; "2-2"%string]; ["1-2"%string; "2-2"%string]; ["2-1"%string; "1-2"%string]; ["1-3"%string; "2-3"%string]; ["1-1"%string; "2-1"%string]; ["1-1"%string; "2-3"%string]]) in
  teq v_expected v_forest &&
  true) = true.
Proof. vm_compute. reflexivity. Qed.

(** weave/src/matrix/forest/mod.rs, product_of_three_forests_of_three, L337 *)
Example weave_matrix_forest_mod_random_tests_product_of_three_forests_of_three : (
  let v_forest := (m_product (m_product (Forest_unique ["1-1"%string; "1-2"%string; "1-3"%string]) (Forest_unique ["2-1"%string; "2-2"%string; "2-3"%string])) (Forest_unique ["3-1"%string; "3-2"%string; "3-3"%string])) in
  teq 27 (m_len v_forest) &&
  let v_expected := (Forest_many [["1-1"%string; "2-1"%string; "3-1"%string]; ["1-1"%string; "2-1"%string; "3-2"%string]; ["1-1"%string; "2-1"%string; "3-3"%string]; ["1-1"%string; "2-2"%string; "3-1"%string]; ["1-1"%string; "2-2"%string; "3-2"%string]; ["1-1"%string; "2-2"%string; "3-3"%string]; ["1-1"%string; "2-3"%string; "3-1"%string]; ["1-1"%string; "2-3"%string; "3-2"%string]; ["1-1"%string; "2-3"%string; "3-3"%string]; ["1-2"%string; "2-1"%string; "3-1"%string]; ["1-2"%string; "2-1"%string; "3-2"%string]; ["1-2"%string; "2-1"%string; "3-3"%string]; ["1-2"%string; "2-2"%string; "3-1"%string]; ["1-2"%string; "2-2"%string; "3-2"%string]; ["1-2"%string; "2-2"%string; "3-3"%string]; ["1-2"%string; "2-3"%string; "3-1"%string]; ["1-2"%string; "2-3"%string; "3-2"%string]; ["1-2"%string; "2-3"%string; "3-3"%string]; ["1-3"%string; "2-1"%string; "3-1"%string]; ["1-3"%string; "2-1"%string; "3-2"%string]; ["1-3"%string; "2-1"%string; "3-3"%string]; ["1-3"%string; "2-2"%string; "3-1"%string]; ["1-3"%string; "2-2"%string; "3-2"%string]; ["1-3"%string; "2-2"%string; "3-3"%string]; ["1-3"%string; "2-3"%string; "3-1"%string]; ["1-3"%string; "2-3"%string; "3-2"%string]; ["1-3"%string; "2-3"%string; "3-3"%string]]) in
  teq v_expected v_forest &&
  true) = true.
Proof. vm_compute. reflexivity. Qed.

(** weave/src/matrix/forest/union.rs, union_returns_identity_when_both_trees_are_empty, L52 *)
Example weave_matrix_forest_union_tests_union_returns_identity_when_both_trees_are_empty : (
  let v_tree1 := Forest_empty in
  let v_tree2 := Forest_empty in
  teq Forest_empty (Forest_union v_tree1 v_tree2) &&
  true) = true.
Proof. vm_compute. reflexivity. Qed.

(** weave/src/matrix/forest/union.rs, union_returns_unit_when_left_is_empty_right_is_unit, L63 *)
Example weave_matrix_forest_union_tests_union_returns_unit_when_left_is_empty_right_is_unit : (
  let v_tree1 := Forest_empty in
  let v_tree2 := (Forest_unit ["1"%string; "2"%string]) in
  teq (Forest_unit ["1"%string; "2"%string]) (Forest_union v_tree1 v_tree2) &&
  true) = true.
Proof. vm_compute. reflexivity. Qed.

(** weave/src/matrix/forest/union.rs, union_returns_many_when_left_is_empty_right_is_many, L74 *)
Example weave_matrix_forest_union_tests_union_returns_many_when_left_is_empty_right_is_many : (
  let v_tree1 := Forest_empty in
  let v_tree2 := (Forest_many [["1"%string; "2"%string]; ["2"%string; "3"%string]]) in
  teq (Forest_many [["1"%string; "2"%string]; ["2"%string; "3"%string]]) (Forest_union v_tree1 v_tree2) &&
  true) = true.
Proof. vm_compute. reflexivity. Qed.

(** weave/src/matrix/forest/union.rs, union_returns_unit_when_left_is_unit_right_is_empty, L91 *)
Example weave_matrix_forest_union_tests_union_returns_unit_when_left_is_unit_right_is_empty : (
  let v_tree1 := (Forest_unit ["1"%string; "2"%string]) in
  let v_tree2 := Forest_empty in
  teq (Forest_unit ["1"%string; "2"%string]) (Forest_union v_tree1 v_tree2) &&
  true) = true.
Proof. vm_compute. reflexivity. Qed.

(** weave/src/matrix/forest/union.rs, union_returns_identity_when_trees_are_equal_unit, L102 *)
Example weave_matrix_forest_union_tests_union_returns_identity_when_trees_are_equal_unit : (
  let v_tree1 := (Forest_unit ["1"%string; "2"%string]) in
  let v_tree2 := (Forest_unit ["1"%string; "2"%string]) in
  teq (Forest_unit ["1"%string; "2"%string]) (Forest_union v_tree1 v_tree2) &&
  true) = true.
Proof. vm_compute. reflexivity. Qed.

(** weave/src/matrix/forest/union.rs, union_returns_many_when_trees_are_disjoint_units, L113 *)
Example weave_matrix_forest_union_tests_union_returns_many_when_trees_are_disjoint_units : (
  let v_tree1 := (Forest_unit ["1"%string; "2"%string]) in
  let v_tree2 := (Forest_unit ["2"%string; "3"%string]) in
  teq (Forest_many [["1"%string; "2"%string]; ["2"%string; "3"%string]]) (Forest_union v_tree1 v_tree2) &&
  true) = true.
Proof. vm_compute. reflexivity. Qed.

(** weave/src/matrix/forest/union.rs, union_returns_many_when_left_is_unit_right_is_many, L127 *)
Example weave_matrix_forest_union_tests_union_returns_many_when_left_is_unit_right_is_many : (
  let v_tree1 := (Forest_unit ["3"%string; "4"%string]) in
  let v_tree2 := (Forest_many [["1"%string; "2"%string]; ["2"%string; "3"%string]]) in
  teq (Forest_many [["1"%string; "2"%string]; ["2"%string; "3"%string]; ["3"%string; "4"%string]]) (Forest_union v_tree1 v_tree2) &&
  true) = true.
Proof. vm_compute. reflexivity. Qed.

(** weave/src/matrix/forest/union.rs, union_returns_many_when_left_is_many_right_is_unit, L145 *)
Example weave_matrix_forest_union_tests_union_returns_many_when_left_is_many_right_is_unit : (
  let v_tree1 := (Forest_many [["1"%string; "2"%string]; ["2"%string; "3"%string]]) in
  let v_tree2 := (Forest_unit ["3"%string; "4"%string]) in
  teq (Forest_many [["1"%string; "2"%string]; ["2"%string; "3"%string]; ["3"%string; "4"%string]]) (Forest_union v_tree1 v_tree2) &&
  true) = true.
Proof. vm_compute. reflexivity. Qed.

(** weave/src/matrix/forest/union.rs, union_returns_identity_when_trees_are_equal_many, L163 *)
Example weave_matrix_forest_union_tests_union_returns_identity_when_trees_are_equal_many : (
  let v_tree1 := (Forest_many [["1"%string; "2"%string]; ["2"%string; "3"%string]]) in
  let v_tree2 := (Forest_many [["1"%string; "2"%string]; ["2"%string; "3"%string]]) in
  teq (Forest_many [["1"%string; "2"%string]; ["2"%string; "3"%string]]) (Forest_union v_tree1 v_tree2) &&
  true) = true.
Proof. vm_compute. reflexivity. Qed.

(** weave/src/matrix/forest/union.rs, union_returns_many_when_trees_are_disjoint_many, L183 *)
Example weave_matrix_forest_union_tests_union_returns_many_when_trees_are_disjoint_many : (
  let v_tree1 := (Forest_many [["1"%string; "2"%string]; ["2"%string; "3"%string]]) in
  let v_tree2 := (Forest_many [["1"%string; "3"%string]; ["2"%string; "4"%string]]) in
  teq (Forest_many [["1"%string; "2"%string]; ["1"%string; "3"%string]; ["2"%string; "3"%string]; ["2"%string; "4"%string]]) (Forest_union v_tree1 v_tree2) &&
  true) = true.
Proof. vm_compute. reflexivity. Qed.

(** weave/src/matrix/forest/union.rs, union_returns_many_when_trees_are_have_commonality, L205 *)
Example weave_matrix_forest_union_tests_union_returns_many_when_trees_are_have_commonality : (
  let v_tree1 := (Forest_many [["1"%string; "2"%string]; ["2"%string; "3"%string]; ["3"%string; "4"%string]]) in
  let v_tree2 := (Forest_many [["2"%string; "3"%string]; ["3"%string; "4"%string]; ["4"%string; "5"%string]]) in
  teq (Forest_many [["1"%string; "2"%string]; ["2"%string; "3"%string]; ["3"%string; "4"%string]; ["4"%string; "5"%string]]) (Forest_union v_tree1 v_tree2) &&
  true) = true.
Proof. vm_compute. reflexivity. Qed.

(** weave/src/matrix/forest/union.rs, union_returns_identity_when_left_is_unit_right_is_many, L229 *)
Example weave_matrix_forest_union_tests_union_returns_identity_when_left_is_unit_right_is_many : (
  let v_tree1 := (Forest_unit ["1"%string; "2"%string]) in
  let v_tree2 := (Forest_many [["1"%string; "2"%string]; ["2"%string; "3"%string]]) in
  teq (Forest_many [["1"%string; "2"%string]; ["2"%string; "3"%string]]) (Forest_union v_tree1 v_tree2) &&
  true) = true.
Proof. vm_compute. reflexivity. Qed.

(** weave/src/matrix/forest/intersect.rs, intersect_returns_identity_when_both_trees_are_empty, L31 *)
Example weave_matrix_forest_intersect_tests_intersect_returns_identity_when_both_trees_are_empty : (
  let v_tree1 := Forest_empty in
  let v_tree2 := Forest_empty in
  teq Forest_empty (Forest_intersect v_tree1 v_tree2) &&
  true) = true.
Proof. vm_compute. reflexivity. Qed.

(** weave/src/matrix/forest/intersect.rs, intersect_returns_empty_when_left_is_empty_right_is_unit, L42 *)
Example weave_matrix_forest_intersect_tests_intersect_returns_empty_when_left_is_empty_right_is_unit : (
  let v_tree1 := Forest_empty in
  let v_tree2 := (Forest_unit ["1"%string; "2"%string]) in
  teq Forest_empty (Forest_intersect v_tree1 v_tree2) &&
  true) = true.
Proof. vm_compute. reflexivity. Qed.

(** weave/src/matrix/forest/intersect.rs, intersect_returns_empty_when_left_is_empty_right_is_many, L53 *)
Example weave_matrix_forest_intersect_tests_intersect_returns_empty_when_left_is_empty_right_is_many : (
  let v_tree1 := Forest_empty in
  let v_tree2 := (Forest_many [["1"%string; "2"%string]; ["2"%string; "3"%string]]) in
  teq Forest_empty (Forest_intersect v_tree1 v_tree2) &&
  true) = true.
Proof. vm_compute. reflexivity. Qed.

(** weave/src/matrix/forest/intersect.rs, intersect_returns_empty_when_left_is_unit_right_is_empty, L67 *)
Example weave_matrix_forest_intersect_tests_intersect_returns_empty_when_left_is_unit_right_is_empty : (
  let v_tree1 := (Forest_unit ["1"%string; "2"%string]) in
  let v_tree2 := Forest_empty in
  teq Forest_empty (Forest_intersect v_tree1 v_tree2) &&
  true) = true.
Proof. vm_compute. reflexivity. Qed.

(** weave/src/matrix/forest/intersect.rs, intersect_returns_identity_when_trees_are_equal_unit, L78 *)
Example weave_matrix_forest_intersect_tests_intersect_returns_identity_when_trees_are_equal_unit : (
  let v_tree1 := (Forest_unit ["1"%string; "2"%string]) in
  let v_tree2 := (Forest_unit ["1"%string; "2"%string]) in
  teq (Forest_unit ["1"%string; "2"%string]) (Forest_intersect v_tree1 v_tree2) &&
  true) = true.
Proof. vm_compute. reflexivity. Qed.

(** weave/src/matrix/forest/intersect.rs, intersect_returns_empty_when_trees_are_disjoint_units, L89 *)
Example weave_matrix_forest_intersect_tests_intersect_returns_empty_when_trees_are_disjoint_units : (
  let v_tree1 := (Forest_unit ["1"%string; "2"%string]) in
  let v_tree2 := (Forest_unit ["2"%string; "3"%string]) in
  teq Forest_empty (Forest_intersect v_tree1 v_tree2) &&
  true) = true.
Proof. vm_compute. reflexivity. Qed.

(** weave/src/matrix/forest/intersect.rs, intersect_returns_unit_when_left_is_unit_right_is_many, L100 *)
Example weave_matrix_forest_intersect_tests_intersect_returns_unit_when_left_is_unit_right_is_many : (
  let v_tree1 := (Forest_unit ["1"%string; "2"%string]) in
  let v_tree2 := (Forest_many [["1"%string; "2"%string]; ["2"%string; "3"%string]]) in
  teq (Forest_unit ["1"%string; "2"%string]) (Forest_intersect v_tree1 v_tree2) &&
  true) = true.
Proof. vm_compute. reflexivity. Qed.

(** weave/src/matrix/forest/intersect.rs, intersect_returns_identity_when_trees_are_equal_many, L114 *)
Example weave_matrix_forest_intersect_tests_intersect_returns_identity_when_trees_are_equal_many : (
  let v_tree1 := (Forest_many [["1"%string; "2"%string]; ["2"%string; "3"%string]]) in
  let v_tree2 := (Forest_many [["1"%string; "2"%string]; ["2"%string; "3"%string]]) in
  teq (Forest_many [["1"%string; "2"%string]; ["2"%string; "3"%string]]) (Forest_intersect v_tree1 v_tree2) &&
  true) = true.
Proof. vm_compute. reflexivity. Qed.

(** weave/src/matrix/forest/intersect.rs, intersect_returns_empty_when_trees_are_disjoint_many, L134 *)
Example weave_matrix_forest_intersect_tests_intersect_returns_empty_when_trees_are_disjoint_many : (
  let v_tree1 := (Forest_many [["1"%string; "2"%string]; ["2"%string; "3"%string]]) in
  let v_tree2 := (Forest_many [["1"%string; "3"%string]; ["2"%string; "4"%string]]) in
  teq Forest_empty (Forest_intersect v_tree1 v_tree2) &&
  true) = true.
Proof. vm_compute. reflexivity. Qed.

(** weave/src/matrix/forest/intersect.rs, intersect_returns_one_when_trees_are_have_commonality, L151 *)
Example weave_matrix_forest_intersect_tests_intersect_returns_one_when_trees_are_have_commonality : (
  let v_tree1 := (Forest_many [["1"%string; "2"%string]; ["2"%string; "3"%string]]) in
  let v_tree2 := (Forest_many [["2"%string; "3"%string]; ["3"%string; "4"%string]; ["4"%string; "5"%string]]) in
  teq (Forest_unit ["2"%string; "3"%string]) (Forest_intersect v_tree1 v_tree2) &&
  true) = true.
Proof. vm_compute. reflexivity. Qed.

(** weave/src/matrix/forest/intersect.rs, intersect_returns_many_when_trees_are_have_commonality, L169 *)
Example weave_matrix_forest_intersect_tests_intersect_returns_many_when_trees_are_have_commonality : (
  let v_tree1 := (Forest_many [["1"%string; "2"%string]; ["2"%string; "3"%string]; ["3"%string; "4"%string]]) in
  let v_tree2 := (Forest_many [["2"%string; "3"%string]; ["3"%string; "4"%string]; ["4"%string; "5"%string]]) in
  teq (Forest_many [["2"%string; "3"%string]; ["3"%string; "4"%string]]) (Forest_intersect v_tree1 v_tree2) &&
  true) = true.
Proof. vm_compute. reflexivity. Qed.

(** weave/src/matrix/forest/product.rs, empty_right_returns_empty, L54 *)
Example weave_matrix_forest_product_tests_empty_right_returns_empty : (
  let v_forest1 := (Forest_unit ["1"%string; "2"%string]) in
  let v_forest2 := Forest_empty in
  teq Forest_empty (Forest_product v_forest1 v_forest2) &&
  true) = true.
Proof. vm_compute. reflexivity. Qed.

(** weave/src/matrix/forest/product.rs, empty_left_returns_empty, L65 *)
Example weave_matrix_forest_product_tests_empty_left_returns_empty : (
  let v_forest1 := Forest_empty in
  let v_forest2 := (Forest_unit ["1"%string]) in
  teq Forest_empty (Forest_product v_forest1 v_forest2) &&
  true) = true.
Proof. vm_compute. reflexivity. Qed.

(** weave/src/matrix/forest/product.rs, unit_forests_with_overlap_returns_many, L76 *)
Example weave_matrix_forest_product_tests_unit_forests_with_overlap_returns_many : (
  let v_forest1 := (Forest_unit ["1"%string; "2"%string]) in
  let v_forest2 := (Forest_unit ["1"%string]) in
  teq (Forest_many [["1"%string; "2"%string]]) (Forest_product v_forest1 v_forest2) &&
  true) = true.
Proof. vm_compute. reflexivity. Qed.

(** weave/src/matrix/forest/product.rs, disjoint_unit_forests_returns_many_1, L89 *)
Example weave_matrix_forest_product_tests_disjoint_unit_forests_returns_many_1 : (
  let v_forest1 := (Forest_unit ["1"%string; "2"%string]) in
  let v_forest2 := (Forest_unit ["3"%string]) in
  teq (Forest_many [["1"%string; "2"%string; "3"%string]]) (Forest_product v_forest1 v_forest2) &&
  true) = true.
Proof. vm_compute. reflexivity. Qed.

(** weave/src/matrix/forest/product.rs, disjoint_unit_forests_returns_unit, L102 *)
Example weave_matrix_forest_product_tests_disjoint_unit_forests_returns_unit : (
  let v_forest1 := (Forest_unit ["1"%string; "2"%string]) in
  let v_forest2 := (Forest_unit ["3"%string; "4"%string]) in
  teq (Forest_unit ["1"%string; "2"%string; "3"%string; "4"%string]) (Forest_product v_forest1 v_forest2) &&
  true) = true.
Proof. vm_compute. reflexivity. Qed.

(** weave/src/matrix/forest/product.rs, many_forest_and_single_unit_forest_returns_many, L113 *)
Example weave_matrix_forest_product_tests_many_forest_and_single_unit_forest_returns_many : (
  let v_forest1 := (Forest_many [["1"%string; "2"%string]; ["2"%string; "3"%string]]) in
  let v_forest2 := (Forest_unit ["4"%string]) in
  teq (Forest_many [["1"%string; "2"%string; "4"%string]; ["2"%string; "3"%string; "4"%string]]) (Forest_product v_forest1 v_forest2) &&
  true) = true.
Proof. vm_compute. reflexivity. Qed.

(** weave/src/matrix/forest/product.rs, many_forest_and_double_unit_forest_with_overlap_returns_many, L130 *)
Example weave_matrix_forest_product_tests_many_forest_and_double_unit_forest_with_overlap_returns_many : (
  let v_forest1 := (Forest_many [["1"%string; "2"%string]; ["2"%string; "3"%string]]) in
  let v_forest2 := (Forest_unit ["3"%string; "4"%string]) in
  teq (Forest_many [["1"%string; "2"%string; "3"%string; "4"%string]; ["2"%string; "3"%string; "4"%string]]) (Forest_product v_forest1 v_forest2) &&
  true) = true.
Proof. vm_compute. reflexivity. Qed.

(** weave/src/matrix/forest/product.rs, many_forest_and_unique_forest_with_overlap_returns_many, L147 *)
Example weave_matrix_forest_product_tests_many_forest_and_unique_forest_with_overlap_returns_many : (
  let v_forest1 := (Forest_many [["1"%string; "2"%string]; ["2"%string; "3"%string]]) in
  let v_forest2 := (Forest_unique ["3"%string; "4"%string]) in
  teq (Forest_many [["1"%string; "2"%string; "3"%string]; ["1"%string; "2"%string; "4"%string]; ["2"%string; "3"%string]; ["2"%string; "3"%string; "4"%string]]) (Forest_product v_forest1 v_forest2) &&
  true) = true.
Proof. vm_compute. reflexivity. Qed.

(** weave/src/matrix/forest/product.rs, many_forest_and_unique_forest_returns_many, L166 *)
Example weave_matrix_forest_product_tests_many_forest_and_unique_forest_returns_many : (
  let v_forest1 := (Forest_many [["1"%string; "2"%string]; ["5"%string; "6"%string]]) in
  let v_forest2 := (Forest_unique ["3"%string; "4"%string]) in
  teq (Forest_many [["1"%string; "2"%string; "3"%string]; ["1"%string; "2"%string; "4"%string]; ["5"%string; "6"%string; "3"%string]; ["5"%string; "6"%string; "4"%string]]) (Forest_product v_forest1 v_forest2) &&
  true) = true.
Proof. vm_compute. reflexivity. Qed.

(** weave/src/matrix/forest/product.rs, many_forest_and_double_unit_forest_returns_many, L185 *)
Example weave_matrix_forest_product_tests_many_forest_and_double_unit_forest_returns_many : (
  let v_forest1 := (Forest_many [["1"%string; "2"%string]; ["5"%string; "6"%string]]) in
  let v_forest2 := (Forest_unit ["3"%string; "4"%string]) in
  teq (Forest_many [["1"%string; "2"%string; "3"%string; "4"%string]; ["5"%string; "6"%string; "3"%string; "4"%string]]) (Forest_product v_forest1 v_forest2) &&
  true) = true.
Proof. vm_compute. reflexivity. Qed.

(** weave/src/matrix/forest/product.rs, many_forests_returns_many_1, L202 *)
Example weave_matrix_forest_product_tests_many_forests_returns_many_1 : (
  let v_forest1 := (Forest_unique ["1"%string; "2"%string]) in
  let v_forest2 := (Forest_unique ["3"%string; "4"%string]) in
  teq (Forest_many [["1"%string; "3"%string]; ["1"%string; "4"%string]; ["2"%string; "3"%string]; ["2"%string; "4"%string]]) (Forest_product v_forest1 v_forest2) &&
  true) = true.
Proof. vm_compute. reflexivity. Qed.

(** weave/src/matrix/forest/product.rs, many_forests_returns_many_2, L218 *)
Example weave_matrix_forest_product_tests_many_forests_returns_many_2 : (
  let v_forest1 := (Forest_unique ["1"%string; "2"%string]) in
  let v_forest2 := (Forest_many [["3"%string; "4"%string]; ["7"%string; "8"%string]]) in
  teq (Forest_many [["1"%string; "3"%string; "4"%string]; ["1"%string; "7"%string; "8"%string]; ["2"%string; "3"%string; "4"%string]; ["2"%string; "7"%string; "8"%string]]) (Forest_product v_forest1 v_forest2) &&
  true) = true.
Proof. vm_compute. reflexivity. Qed.

(** weave/src/matrix/forest/subset.rs, subset_of_empty_returns_empty, L88 *)
Example weave_matrix_forest_subset_subset_tests_subset_of_empty_returns_empty : (
  let v_forest := Forest_empty in
  let v_element := "1"%string in
  teq Forest_empty (Forest_subset v_forest v_element) &&
  true) = true.
Proof. vm_compute. reflexivity. Qed.

(** weave/src/matrix/forest/subset.rs, subset_of_disjoint_unit_returns_empty, L99 *)
Example weave_matrix_forest_subset_subset_tests_subset_of_disjoint_unit_returns_empty : (
  let v_forest := (Forest_unit ["2"%string; "3"%string]) in
  let v_element := "1"%string in
  teq Forest_empty (Forest_subset v_forest v_element) &&
  true) = true.
Proof. vm_compute. reflexivity. Qed.

(** weave/src/matrix/forest/subset.rs, subset_of_disjoint_many_returns_empty, L110 *)
Example weave_matrix_forest_subset_subset_tests_subset_of_disjoint_many_returns_empty : (
  let v_forest := (Forest_many [["1"%string; "3"%string]; ["2"%string; "3"%string]]) in
  let v_element := "4"%string in
  teq Forest_empty (Forest_subset v_forest v_element) &&
  true) = true.
Proof. vm_compute. reflexivity. Qed.

(** weave/src/matrix/forest/subset.rs, subset_of_containing_returns_identity, L124 *)
Example weave_matrix_forest_subset_subset_tests_subset_of_containing_returns_identity : (
  let v_forest := (Forest_unit ["1"%string; "3"%string]) in
  let v_element := "1"%string in
  teq (Forest_unit ["1"%string; "3"%string]) (Forest_subset v_forest v_element) &&
  true) = true.
Proof. vm_compute. reflexivity. Qed.

(** weave/src/matrix/forest/subset.rs, subset_of_containing_returns_unit_1, L135 *)
Example weave_matrix_forest_subset_subset_tests_subset_of_containing_returns_unit_1 : (
  let v_forest := (Forest_many [["1"%string; "3"%string]; ["2"%string; "3"%string]]) in
  let v_element := "1"%string in
  teq (Forest_unit ["1"%string; "3"%string]) (Forest_subset v_forest v_element) &&
  true) = true.
Proof. vm_compute. reflexivity. Qed.

(** weave/src/matrix/forest/subset.rs, subset_of_containing_returns_unit_2, L149 *)
Example weave_matrix_forest_subset_subset_tests_subset_of_containing_returns_unit_2 : (
  let v_forest := (Forest_many [["1"%string; "3"%string]; ["2"%string; "3"%string]]) in
  let v_element := "2"%string in
  teq (Forest_unit ["2"%string; "3"%string]) (Forest_subset v_forest v_element) &&
  true) = true.
Proof. vm_compute. reflexivity. Qed.

(** weave/src/matrix/forest/subset.rs, subset_all_of_empty_returns_empty, L168 *)
Example weave_matrix_forest_subset_subset_all_tests_subset_all_of_empty_returns_empty : (
  let v_forest := Forest_empty in
  let v_elements := ["1"%string] in
  teq Forest_empty (Forest_subset_all v_forest v_elements) &&
  true) = true.
Proof. vm_compute. reflexivity. Qed.

(** weave/src/matrix/forest/subset.rs, subset_all_with_empty_elements_returns_identity, L179 *)
Example weave_matrix_forest_subset_subset_all_tests_subset_all_with_empty_elements_returns_identity : (
  let v_forest := (Forest_unit ["2"%string; "3"%string]) in
  let v_elements := [] in
  teq (Forest_unit ["2"%string; "3"%string]) (Forest_subset_all v_forest v_elements) &&
  true) = true.
Proof. vm_compute. reflexivity. Qed.

(** weave/src/matrix/forest/subset.rs, subset_all_with_one_element_returns_identity, L190 *)
Example weave_matrix_forest_subset_subset_all_tests_subset_all_with_one_element_returns_identity : (
  let v_forest := (Forest_unit ["2"%string; "3"%string]) in
  let v_elements := ["2"%string] in
  teq (Forest_unit ["2"%string; "3"%string]) (Forest_subset_all v_forest v_elements) &&
  true) = true.
Proof. vm_compute. reflexivity. Qed.

(** weave/src/matrix/forest/subset.rs, subset_all_with_disjoint_elements_returns_empty, L201 *)
Example weave_matrix_forest_subset_subset_all_tests_subset_all_with_disjoint_elements_returns_empty : (
  let v_forest := (Forest_unit ["2"%string; "3"%string]) in
  let v_elements := ["1"%string; "2"%string] in
  teq Forest_empty (Forest_subset_all v_forest v_elements) &&
  true) = true.
Proof. vm_compute. reflexivity. Qed.

(** weave/src/matrix/forest/subset.rs, subset_all_with_one_element_returns_many, L212 *)
Example weave_matrix_forest_subset_subset_all_tests_subset_all_with_one_element_returns_many : (
  let v_forest := (Forest_many [["1"%string; "3"%string]; ["2"%string; "3"%string]; ["1"%string; "2"%string]]) in
  let v_elements := ["3"%string] in
  teq (Forest_many [["1"%string; "3"%string]; ["2"%string; "3"%string]]) (Forest_subset_all v_forest v_elements) &&
  true) = true.
Proof. vm_compute. reflexivity. Qed.

(** weave/src/matrix/forest/subset.rs, subset_all_with_many_elements_returns_unit, L230 *)
Example weave_matrix_forest_subset_subset_all_tests_subset_all_with_many_elements_returns_unit : (
  let v_forest := (Forest_many [["1"%string; "3"%string]; ["2"%string; "3"%string]; ["1"%string; "2"%string]]) in
  let v_elements := ["1"%string; "3"%string] in
  teq (Forest_unit ["1"%string; "3"%string]) (Forest_subset_all v_forest v_elements) &&
  true) = true.
Proof. vm_compute. reflexivity. Qed.

(** weave/tests/forest/intersect.rs, both_forests_are_empty, L5, run as in weave/tests/forest/mod.rs for weave::matrix::Forest *)
Example tests_forest_intersect_both_forests_are_empty : (
  let '(forest1, forest2, expected) := (let v_forest1 := F_empty in
  let v_forest2 := F_empty in
  let v_expected := F_empty in
  (v_forest1, v_forest2, v_expected)) in
  teq expected (Forest_intersect forest1 forest2) &&
  teq expected (Forest_intersect forest2 forest1)) = true.
Proof. vm_compute. reflexivity. Qed.

(** weave/tests/forest/intersect.rs, left_is_empty_right_is_unit, L14, run as in weave/tests/forest/mod.rs for weave::matrix::Forest *)
Example tests_forest_intersect_left_is_empty_right_is_unit : (
  let '(forest1, forest2, expected) := (let v_forest1 := F_empty in
  let v_forest2 := (F_unit ["1"%string; "2"%string]) in
  let v_expected := F_empty in
  (v_forest1, v_forest2, v_expected)) in
  teq expected (Forest_intersect forest1 forest2) &&
  teq expected (Forest_intersect forest2 forest1)) = true.
Proof. vm_compute. reflexivity. Qed.

(** weave/tests/forest/intersect.rs, left_is_empty_right_is_many, L23, run as in weave/tests/forest/mod.rs for weave::matrix::Forest *)
Example tests_forest_intersect_left_is_empty_right_is_many : (
  let '(forest1, forest2, expected) := (let v_forest1 := F_empty in
  let v_forest2 := (F_many [["1"%string; "2"%string]; ["2"%string; "3"%string]]) in
  let v_expected := F_empty in
  (v_forest1, v_forest2, v_expected)) in
  teq expected (Forest_intersect forest1 forest2) &&
  teq expected (Forest_intersect forest2 forest1)) = true.
Proof. vm_compute. reflexivity. Qed.

(** weave/tests/forest/intersect.rs, left_is_unit_right_is_empty, L35, run as in weave/tests/forest/mod.rs for weave::matrix::Forest *)
Example tests_forest_intersect_left_is_unit_right_is_empty : (
  let '(forest1, forest2, expected) := (let v_forest1 := (F_unit ["1"%string; "2"%string]) in
  let v_forest2 := F_empty in
  let v_expected := F_empty in
  (v_forest1, v_forest2, v_expected)) in
  teq expected (Forest_intersect forest1 forest2) &&
  teq expected (Forest_intersect forest2 forest1)) = true.
Proof. vm_compute. reflexivity. Qed.

(** weave/tests/forest/intersect.rs, forests_are_equal_unit, L44, run as in weave/tests/forest/mod.rs for weave::matrix::Forest *)
Example tests_forest_intersect_forests_are_equal_unit : (
  let '(forest1, forest2, expected) := (let v_forest1 := (F_unit ["1"%string; "2"%string]) in
  let v_forest2 := (F_unit ["1"%string; "2"%string]) in
  let v_expected := (F_unit ["1"%string; "2"%string]) in
  (v_forest1, v_forest2, v_expected)) in
  teq expected (Forest_intersect forest1 forest2) &&
  teq expected (Forest_intersect forest2 forest1)) = true.
Proof. vm_compute. reflexivity. Qed.

(** weave/tests/forest/intersect.rs, forests_are_disjoint_units, L53, run as in weave/tests/forest/mod.rs for weave::matrix::Forest *)
Example tests_forest_intersect_forests_are_disjoint_units : (
  let '(forest1, forest2, expected) := (let v_forest1 := (F_unit ["1"%string; "2"%string]) in
  let v_forest2 := (F_unit ["2"%string; "3"%string]) in
  let v_expected := F_empty in
  (v_forest1, v_forest2, v_expected)) in
  teq expected (Forest_intersect forest1 forest2) &&
  teq expected (Forest_intersect forest2 forest1)) = true.
Proof. vm_compute. reflexivity. Qed.

(** weave/tests/forest/intersect.rs, left_is_unit_right_is_many, L62, run as in weave/tests/forest/mod.rs for weave::matrix::Forest *)
Example tests_forest_intersect_left_is_unit_right_is_many : (
  let '(forest1, forest2, expected) := (let v_forest1 := (F_unit ["1"%string; "2"%string]) in
  let v_forest2 := (F_many [["1"%string; "2"%string]; ["2"%string; "3"%string]]) in
  let v_expected := (F_unit ["1"%string; "2"%string]) in
  (v_forest1, v_forest2, v_expected)) in
  teq expected (Forest_intersect forest1 forest2) &&
  teq expected (Forest_intersect forest2 forest1)) = true.
Proof. vm_compute. reflexivity. Qed.

(** weave/tests/forest/intersect.rs, forests_are_equal_many, L74, run as in weave/tests/forest/mod.rs for weave::matrix::Forest *)
Example tests_forest_intersect_forests_are_equal_many : (
  let '(forest1, forest2, expected) := (let v_forest1 := (F_many [["1"%string; "2"%string]; ["2"%string; "3"%string]]) in
  let v_forest2 := (F_many [["1"%string; "2"%string]; ["2"%string; "3"%string]]) in
  let v_expected := (F_many [["1"%string; "2"%string]; ["2"%string; "3"%string]]) in
  (v_forest1, v_forest2, v_expected)) in
  teq expected (Forest_intersect forest1 forest2) &&
  teq expected (Forest_intersect forest2 forest1)) = true.
Proof. vm_compute. reflexivity. Qed.

(** weave/tests/forest/intersect.rs, forests_are_disjoint_many, L92, run as in weave/tests/forest/mod.rs for weave::matrix::Forest *)
Example tests_forest_intersect_forests_are_disjoint_many : (
  let '(forest1, forest2, expected) := (let v_forest1 := (F_many [["1"%string; "2"%string]; ["2"%string; "3"%string]]) in
  let v_forest2 := (F_many [["1"%string; "3"%string]; ["2"%string; "4"%string]]) in
  let v_expected := F_empty in
  (v_forest1, v_forest2, v_expected)) in
  teq expected (Forest_intersect forest1 forest2) &&
  teq expected (Forest_intersect forest2 forest1)) = true.
Proof. vm_compute. reflexivity. Qed.

(** weave/tests/forest/intersect.rs, forests_are_have_single_commonality, L107, run as in weave/tests/forest/mod.rs for weave::matrix::Forest *)
Example tests_forest_intersect_forests_are_have_single_commonality : (
  let '(forest1, forest2, expected) := (let v_forest1 := (F_many [["1"%string; "2"%string]; ["2"%string; "3"%string]]) in
  let v_forest2 := (F_many [["2"%string; "3"%string]; ["3"%string; "4"%string]; ["4"%string; "5"%string]]) in
  let v_expected := (F_unit ["2"%string; "3"%string]) in
  (v_forest1, v_forest2, v_expected)) in
  teq expected (Forest_intersect forest1 forest2) &&
  teq expected (Forest_intersect forest2 forest1)) = true.
Proof. vm_compute. reflexivity. Qed.

(** weave/tests/forest/intersect.rs, forests_are_have_multiple_commonality, L123, run as in weave/tests/forest/mod.rs for weave::matrix::Forest *)
Example tests_forest_intersect_forests_are_have_multiple_commonality : (
  let '(forest1, forest2, expected) := (let v_forest1 := (F_many [["1"%string; "2"%string]; ["2"%string; "3"%string]; ["3"%string; "4"%string]]) in
  let v_forest2 := (F_many [["2"%string; "3"%string]; ["3"%string; "4"%string]; ["4"%string; "5"%string]]) in
  let v_expected := (F_many [["2"%string; "3"%string]; ["3"%string; "4"%string]]) in
  (v_forest1, v_forest2, v_expected)) in
  teq expected (Forest_intersect forest1 forest2) &&
  teq expected (Forest_intersect forest2 forest1)) = true.
Proof. vm_compute. reflexivity. Qed.

(** weave/tests/forest/union.rs, both_forests_are_empty, L5, run as in weave/tests/forest/mod.rs for weave::matrix::Forest *)
Example tests_forest_union_both_forests_are_empty : (
  let '(forest1, forest2, expected) := (let v_forest1 := F_empty in
  let v_forest2 := F_empty in
  let v_expected := F_empty in
  (v_forest1, v_forest2, v_expected)) in
  teq expected (Forest_union forest1 forest2) &&
  teq expected (Forest_union forest2 forest1)) = true.
Proof. vm_compute. reflexivity. Qed.

(** weave/tests/forest/union.rs, left_is_empty_right_is_unit, L14, run as in weave/tests/forest/mod.rs for weave::matrix::Forest *)
Example tests_forest_union_left_is_empty_right_is_unit : (
  let '(forest1, forest2, expected) := (let v_forest1 := F_empty in
  let v_forest2 := (F_unit ["1"%string; "2"%string]) in
  let v_expected := (F_unit ["1"%string; "2"%string]) in
  (v_forest1, v_forest2, v_expected)) in
  teq expected (Forest_union forest1 forest2) &&
  teq expected (Forest_union forest2 forest1)) = true.
Proof. vm_compute. reflexivity. Qed.

(** weave/tests/forest/union.rs, left_is_empty_right_is_many, L23, run as in weave/tests/forest/mod.rs for weave::matrix::Forest *)
Example tests_forest_union_left_is_empty_right_is_many : (
  let '(forest1, forest2, expected) := (let v_forest1 := F_empty in
  let v_forest2 := (F_many [["1"%string; "2"%string]; ["2"%string; "3"%string]]) in
  let v_expected := (F_many [["1"%string; "2"%string]; ["2"%string; "3"%string]]) in
  (v_forest1, v_forest2, v_expected)) in
  teq expected (Forest_union forest1 forest2) &&
  teq expected (Forest_union forest2 forest1)) = true.
Proof. vm_compute. reflexivity. Qed.

(** weave/tests/forest/union.rs, forests_are_equal_unit, L38, run as in weave/tests/forest/mod.rs for weave::matrix::Forest *)
Example tests_forest_union_forests_are_equal_unit : (
  let '(forest1, forest2, expected) := (let v_forest1 := (F_unit ["1"%string; "2"%string]) in
  let v_forest2 := (F_unit ["1"%string; "2"%string]) in
  let v_expected := (F_unit ["1"%string; "2"%string]) in
  (v_forest1, v_forest2, v_expected)) in
  teq expected (Forest_union forest1 forest2) &&
  teq expected (Forest_union forest2 forest1)) = true.
Proof. vm_compute. reflexivity. Qed.

(** weave/tests/forest/union.rs, forests_are_disjoint_units, L47, run as in weave/tests/forest/mod.rs for weave::matrix::Forest *)
Example tests_forest_union_forests_are_disjoint_units : (
  let '(forest1, forest2, expected) := (let v_forest1 := (F_unit ["1"%string; "2"%string]) in
  let v_forest2 := (F_unit ["2"%string; "3"%string]) in
  let v_expected := (F_many [["1"%string; "2"%string]; ["2"%string; "3"%string]]) in
  (v_forest1, v_forest2, v_expected)) in
  teq expected (Forest_union forest1 forest2) &&
  teq expected (Forest_union forest2 forest1)) = true.
Proof. vm_compute. reflexivity. Qed.

(** weave/tests/forest/union.rs, left_is_unit_right_is_many, L59, run as in weave/tests/forest/mod.rs for weave::matrix::Forest *)
Example tests_forest_union_left_is_unit_right_is_many : (
  let '(forest1, forest2, expected) := (let v_forest1 := (F_unit ["3"%string; "4"%string]) in
  let v_forest2 := (F_many [["1"%string; "2"%string]; ["2"%string; "3"%string]]) in
  let v_expected := (F_many [["1"%string; "2"%string]; ["2"%string; "3"%string]; ["3"%string; "4"%string]]) in
  (v_forest1, v_forest2, v_expected)) in
  teq expected (Forest_union forest1 forest2) &&
  teq expected (Forest_union forest2 forest1)) = true.
Proof. vm_compute. reflexivity. Qed.

(** weave/tests/forest/union.rs, forests_are_equal_many, L75, run as in weave/tests/forest/mod.rs for weave::matrix::Forest *)
Example tests_forest_union_forests_are_equal_many : (
  let '(forest1, forest2, expected) := (let v_forest1 := (F_many [["1"%string; "2"%string]; ["2"%string; "3"%string]]) in
  let v_forest2 := (F_many [["1"%string; "2"%string]; ["2"%string; "3"%string]]) in
  let v_expected := (F_many [["1"%string; "2"%string]; ["2"%string; "3"%string]]) in
  (v_forest1, v_forest2, v_expected)) in
  teq expected (Forest_union forest1 forest2) &&
  teq expected (Forest_union forest2 forest1)) = true.
Proof. vm_compute. reflexivity. Qed.

(** weave/tests/forest/union.rs, forests_are_disjoint_many, L93, run as in weave/tests/forest/mod.rs for weave::matrix::Forest *)
Example tests_forest_union_forests_are_disjoint_many : (
  let '(forest1, forest2, expected) := (let v_forest1 := (F_many [["1"%string; "2"%string]; ["2"%string; "3"%string]]) in
  let v_forest2 := (F_many [["1"%string; "3"%string]; ["2"%string; "4"%string]]) in
  let v_expected := (F_many [["1"%string; "2"%string]; ["1"%string; "3"%string]; ["2"%string; "3"%string]; ["2"%string; "4"%string]]) in
  (v_forest1, v_forest2, v_expected)) in
  teq expected (Forest_union forest1 forest2) &&
  teq expected (Forest_union forest2 forest1)) = true.
Proof. vm_compute. reflexivity. Qed.

(** weave/tests/forest/union.rs, forests_are_have_commonality, L113, run as in weave/tests/forest/mod.rs for weave::matrix::Forest *)
Example tests_forest_union_forests_are_have_commonality : (
  let '(forest1, forest2, expected) := (let v_forest1 := (F_many [["1"%string; "2"%string]; ["2"%string; "3"%string]; ["3"%string; "4"%string]]) in
  let v_forest2 := (F_many [["2"%string; "3"%string]; ["3"%string; "4"%string]; ["4"%string; "5"%string]]) in
  let v_expected := (F_many [["1"%string; "2"%string]; ["2"%string; "3"%string]; ["3"%string; "4"%string]; ["4"%string; "5"%string]]) in
  (v_forest1, v_forest2, v_expected)) in
  teq expected (Forest_union forest1 forest2) &&
  teq expected (Forest_union forest2 forest1)) = true.
Proof. vm_compute. reflexivity. Qed.

(** weave/tests/forest/union.rs, left_is_unit_right_is_many_overlapping, L135, run as in weave/tests/forest/mod.rs for weave::matrix::Forest *)
Example tests_forest_union_left_is_unit_right_is_many_overlapping : (
  let '(forest1, forest2, expected) := (let v_forest1 := (F_unit ["1"%string; "2"%string]) in
  let v_forest2 := (F_many [["1"%string; "2"%string]; ["2"%string; "3"%string]]) in
  let v_expected := (F_many [["1"%string; "2"%string]; ["2"%string; "3"%string]]) in
  (v_forest1, v_forest2, v_expected)) in
  teq expected (Forest_union forest1 forest2) &&
  teq expected (Forest_union forest2 forest1)) = true.
Proof. vm_compute. reflexivity. Qed.

(** weave/tests/forest/product.rs, left_is_empty_right_is_unit, L5, run as in weave/tests/forest/mod.rs for weave::matrix::Forest *)
Example tests_forest_product_left_is_empty_right_is_unit : (
  let '(forest1, forest2, expected) := (let v_forest1 := (F_unit ["1"%string; "2"%string]) in
  let v_forest2 := F_empty in
  let v_expected := F_empty in
  (v_forest1, v_forest2, v_expected)) in
  teq expected (Forest_product forest1 forest2) &&
  teq expected (Forest_product forest2 forest1)) = true.
Proof. vm_compute. reflexivity. Qed.

(** weave/tests/forest/product.rs, overlapping_unit_forests, L14, run as in weave/tests/forest/mod.rs for weave::matrix::Forest *)
Example tests_forest_product_overlapping_unit_forests : (
  let '(forest1, forest2, expected) := (let v_forest1 := (F_unit ["1"%string; "2"%string]) in
  let v_forest2 := (F_unit ["1"%string]) in
  let v_expected := (F_many [["1"%string; "2"%string]]) in
  (v_forest1, v_forest2, v_expected)) in
  teq expected (Forest_product forest1 forest2) &&
  teq expected (Forest_product forest2 forest1)) = true.
Proof. vm_compute. reflexivity. Qed.

(** weave/tests/forest/product.rs, overlapping_many_forest_and_double_unit_forest, L25, run as in weave/tests/forest/mod.rs for weave::matrix::Forest *)
Example tests_forest_product_overlapping_many_forest_and_double_unit_forest : (
  let '(forest1, forest2, expected) := (let v_forest1 := (F_many [["1"%string; "2"%string]; ["2"%string; "3"%string]]) in
  let v_forest2 := (F_unit ["3"%string; "4"%string]) in
  let v_expected := (F_many [["1"%string; "2"%string; "3"%string; "4"%string]; ["2"%string; "3"%string; "4"%string]]) in
  (v_forest1, v_forest2, v_expected)) in
  teq expected (Forest_product forest1 forest2) &&
  teq expected (Forest_product forest2 forest1)) = true.
Proof. vm_compute. reflexivity. Qed.

(** weave/tests/forest/product.rs, overlapping_many_forest_and_unique_forest, L40, run as in weave/tests/forest/mod.rs for weave::matrix::Forest *)
Example tests_forest_product_overlapping_many_forest_and_unique_forest : (
  let '(forest1, forest2, expected) := (let v_forest1 := (F_many [["1"%string; "2"%string]; ["2"%string; "3"%string]]) in
  let v_forest2 := (F_unique ["3"%string; "4"%string]) in
  let v_expected := (F_many [["1"%string; "2"%string; "3"%string]; ["1"%string; "2"%string; "4"%string]; ["2"%string; "3"%string]; ["2"%string; "3"%string; "4"%string]]) in
  (v_forest1, v_forest2, v_expected)) in
  teq expected (Forest_product forest1 forest2) &&
  teq expected (Forest_product forest2 forest1)) = true.
Proof. vm_compute. reflexivity. Qed.

(** weave/tests/forest/product.rs, disjoint_unit_forest_and_single_unit_forest, L57, run as in weave/tests/forest/mod.rs for weave::matrix::Forest *)
Example tests_forest_product_disjoint_unit_forest_and_single_unit_forest : (
  let '(forest1, forest2, expected) := (let v_forest1 := (F_unit ["1"%string; "2"%string]) in
  let v_forest2 := (F_unit ["3"%string]) in
  let v_expected := (F_many [["1"%string; "2"%string; "3"%string]]) in
  (v_forest1, v_forest2, v_expected)) in
  teq expected (Forest_product forest1 forest2) &&
  teq expected (Forest_product forest2 forest1)) = true.
Proof. vm_compute. reflexivity. Qed.

(** weave/tests/forest/product.rs, disjoint_unit_forest_and_double_unit_forest, L68, run as in weave/tests/forest/mod.rs for weave::matrix::Forest *)
Example tests_forest_product_disjoint_unit_forest_and_double_unit_forest : (
  let '(forest1, forest2, expected) := (let v_forest1 := (F_unit ["1"%string; "2"%string]) in
  let v_forest2 := (F_unit ["3"%string; "4"%string]) in
  let v_expected := (F_unit ["1"%string; "2"%string; "3"%string; "4"%string]) in
  (v_forest1, v_forest2, v_expected)) in
  teq expected (Forest_product forest1 forest2) &&
  teq expected (Forest_product forest2 forest1)) = true.
Proof. vm_compute. reflexivity. Qed.

(** weave/tests/forest/product.rs, disjoint_many_forest_and_single_unit_forest, L77, run as in weave/tests/forest/mod.rs for weave::matrix::Forest *)
Example tests_forest_product_disjoint_many_forest_and_single_unit_forest : (
  let '(forest1, forest2, expected) := (let v_forest1 := (F_many [["1"%string; "2"%string]; ["2"%string; "3"%string]]) in
  let v_forest2 := (F_unit ["4"%string]) in
  let v_expected := (F_many [["1"%string; "2"%string; "4"%string]; ["2"%string; "3"%string; "4"%string]]) in
  (v_forest1, v_forest2, v_expected)) in
  teq expected (Forest_product forest1 forest2) &&
  teq expected (Forest_product forest2 forest1)) = true.
Proof. vm_compute. reflexivity. Qed.

(** weave/tests/forest/product.rs, disjoint_many_forest_and_unique_forest, L92, run as in weave/tests/forest/mod.rs for weave::matrix::Forest *)
Example tests_forest_product_disjoint_many_forest_and_unique_forest : (
  let '(forest1, forest2, expected) := (let v_forest1 := (F_many [["1"%string; "2"%string]; ["5"%string; "6"%string]]) in
  let v_forest2 := (F_unique ["3"%string; "4"%string]) in
  let v_expected := (F_many [["1"%string; "2"%string; "3"%string]; ["1"%string; "2"%string; "4"%string]; ["5"%string; "6"%string; "3"%string]; ["5"%string; "6"%string; "4"%string]]) in
  (v_forest1, v_forest2, v_expected)) in
  teq expected (Forest_product forest1 forest2) &&
  teq expected (Forest_product forest2 forest1)) = true.
Proof. vm_compute. reflexivity. Qed.

(** weave/tests/forest/product.rs, disjoint_many_forest_and_double_unit_forest, L109, run as in weave/tests/forest/mod.rs for weave::matrix::Forest *)
Example tests_forest_product_disjoint_many_forest_and_double_unit_forest : (
  let '(forest1, forest2, expected) := (let v_forest1 := (F_many [["1"%string; "2"%string]; ["5"%string; "6"%string]]) in
  let v_forest2 := (F_unit ["3"%string; "4"%string]) in
  let v_expected := (F_many [["1"%string; "2"%string; "3"%string; "4"%string]; ["5"%string; "6"%string; "3"%string; "4"%string]]) in
  (v_forest1, v_forest2, v_expected)) in
  teq expected (Forest_product forest1 forest2) &&
  teq expected (Forest_product forest2 forest1)) = true.
Proof. vm_compute. reflexivity. Qed.

(** weave/tests/forest/product.rs, disjoint_unique_forests, L124, run as in weave/tests/forest/mod.rs for weave::matrix::Forest *)
Example tests_forest_product_disjoint_unique_forests : (
  let '(forest1, forest2, expected) := (let v_forest1 := (F_unique ["1"%string; "2"%string]) in
  let v_forest2 := (F_unique ["3"%string; "4"%string]) in
  let v_expected := (F_many [["1"%string; "3"%string]; ["1"%string; "4"%string]; ["2"%string; "3"%string]; ["2"%string; "4"%string]]) in
  (v_forest1, v_forest2, v_expected)) in
  teq expected (Forest_product forest1 forest2) &&
  teq expected (Forest_product forest2 forest1)) = true.
Proof. vm_compute. reflexivity. Qed.

(** weave/tests/forest/product.rs, forests_are_disjoint_many, L138, run as in weave/tests/forest/mod.rs for weave::matrix::Forest *)
Example tests_forest_product_forests_are_disjoint_many : (
  let '(forest1, forest2, expected) := (let v_forest1 := (F_unique ["1"%string; "2"%string]) in
  let v_forest2 := (F_many [["3"%string; "4"%string]; ["7"%string; "8"%string]]) in
  let v_expected := (F_many [["1"%string; "3"%string; "4"%string]; ["1"%string; "7"%string; "8"%string]; ["2"%string; "3"%string; "4"%string]; ["2"%string; "7"%string; "8"%string]]) in
  (v_forest1, v_forest2, v_expected)) in
  teq expected (Forest_product forest1 forest2) &&
  teq expected (Forest_product forest2 forest1)) = true.
Proof. vm_compute. reflexivity. Qed.

(** weave/tests/forest/subset.rs, empty_forest, L5, run as in weave/tests/forest/mod.rs for weave::matrix::Forest *)
Example tests_forest_subset_empty_forest : (
  let '(forest, element, expected) := (let v_forest := F_empty in
  let v_element := "1"%string in
  let v_expected := F_empty in
  (v_forest, v_element, v_expected)) in teq expected (Forest_subset forest element)) = true.
Proof. vm_compute. reflexivity. Qed.

(** weave/tests/forest/subset.rs, unit_forest_with_disjoint_element, L14, run as in weave/tests/forest/mod.rs for weave::matrix::Forest *)
Example tests_forest_subset_unit_forest_with_disjoint_element : (
  let '(forest, element, expected) := (let v_forest := (F_unit ["2"%string; "3"%string]) in
  let v_element := "1"%string in
  let v_expected := F_empty in
  (v_forest, v_element, v_expected)) in teq expected (Forest_subset forest element)) = true.
Proof. vm_compute. reflexivity. Qed.

(** weave/tests/forest/subset.rs, many_forest_with_disjoint_element, L23, run as in weave/tests/forest/mod.rs for weave::matrix::Forest *)
Example tests_forest_subset_many_forest_with_disjoint_element : (
  let '(forest, element, expected) := (let v_forest := (F_many [["1"%string; "3"%string]; ["2"%string; "3"%string]]) in
  let v_element := "4"%string in
  let v_expected := F_empty in
  (v_forest, v_element, v_expected)) in teq expected (Forest_subset forest element)) = true.
Proof. vm_compute. reflexivity. Qed.

(** weave/tests/forest/subset.rs, unit_forest_with_matching_element, L35, run as in weave/tests/forest/mod.rs for weave::matrix::Forest *)
Example tests_forest_subset_unit_forest_with_matching_element : (
  let '(forest, element, expected) := (let v_forest := (F_unit ["1"%string; "3"%string]) in
  let v_element := "1"%string in
  let v_expected := (F_unit ["1"%string; "3"%string]) in
  (v_forest, v_element, v_expected)) in teq expected (Forest_subset forest element)) = true.
Proof. vm_compute. reflexivity. Qed.

(** weave/tests/forest/subset.rs, many_forest_with_matching_element_1, L44, run as in weave/tests/forest/mod.rs for weave::matrix::Forest *)
Example tests_forest_subset_many_forest_with_matching_element_1 : (
  let '(forest, element, expected) := (let v_forest := (F_many [["1"%string; "3"%string]; ["2"%string; "3"%string]]) in
  let v_element := "1"%string in
  let v_expected := (F_unit ["1"%string; "3"%string]) in
  (v_forest, v_element, v_expected)) in teq expected (Forest_subset forest element)) = true.
Proof. vm_compute. reflexivity. Qed.

(** weave/tests/forest/subset.rs, many_forest_with_matching_element_2, L56, run as in weave/tests/forest/mod.rs for weave::matrix::Forest *)
Example tests_forest_subset_many_forest_with_matching_element_2 : (
  let '(forest, element, expected) := (let v_forest := (F_many [["1"%string; "3"%string]; ["2"%string; "3"%string]]) in
  let v_element := "2"%string in
  let v_expected := (F_unit ["2"%string; "3"%string]) in
  (v_forest, v_element, v_expected)) in teq expected (Forest_subset forest element)) = true.
Proof. vm_compute. reflexivity. Qed.

(** weave/tests/forest/subset_not.rs, empty_forest, L5, run as in weave/tests/forest/mod.rs for weave::matrix::Forest *)
Example tests_forest_subset_not_empty_forest : (
  let '(forest, element, expected) := (let v_forest := F_empty in
  let v_element := "1"%string in
  let v_expected := F_empty in
  (v_forest, v_element, v_expected)) in teq expected (Forest_subset_not forest element)) = true.
Proof. vm_compute. reflexivity. Qed.

(** weave/tests/forest/subset_not.rs, unit_forest_with_disjoint_element, L14, run as in weave/tests/forest/mod.rs for weave::matrix::Forest *)
Example tests_forest_subset_not_unit_forest_with_disjoint_element : (
  let '(forest, element, expected) := (let v_forest := (F_unit ["2"%string; "3"%string]) in
  let v_element := "1"%string in
  let v_expected := (F_unit ["2"%string; "3"%string]) in
  (v_forest, v_element, v_expected)) in teq expected (Forest_subset_not forest element)) = true.
Proof. vm_compute. reflexivity. Qed.

(** weave/tests/forest/subset_not.rs, many_forest_with_disjoint_element, L23, run as in weave/tests/forest/mod.rs for weave::matrix::Forest *)
Example tests_forest_subset_not_many_forest_with_disjoint_element : (
  let '(forest, element, expected) := (let v_forest := (F_many [["1"%string; "3"%string]; ["2"%string; "3"%string]]) in
  let v_element := "4"%string in
  let v_expected := (F_many [["1"%string; "3"%string]; ["2"%string; "3"%string]]) in
  (v_forest, v_element, v_expected)) in teq expected (Forest_subset_not forest element)) = true.
Proof. vm_compute. reflexivity. Qed.

(** weave/tests/forest/subset_not.rs, unit_forest_with_matching_element, L38, run as in weave/tests/forest/mod.rs for weave::matrix::Forest *)
Example tests_forest_subset_not_unit_forest_with_matching_element : (
  let '(forest, element, expected) := (let v_forest := (F_unit ["1"%string; "3"%string]) in
  let v_element := "1"%string in
  let v_expected := F_empty in
  (v_forest, v_element, v_expected)) in teq expected (Forest_subset_not forest element)) = true.
Proof. vm_compute. reflexivity. Qed.

(** weave/tests/forest/subset_not.rs, many_forest_with_matching_element_1, L47, run as in weave/tests/forest/mod.rs for weave::matrix::Forest *)
Example tests_forest_subset_not_many_forest_with_matching_element_1 : (
  let '(forest, element, expected) := (let v_forest := (F_many [["1"%string; "3"%string]; ["2"%string; "3"%string]]) in
  let v_element := "1"%string in
  let v_expected := (F_unit ["2"%string; "3"%string]) in
  (v_forest, v_element, v_expected)) in teq expected (Forest_subset_not forest element)) = true.
Proof. vm_compute. reflexivity. Qed.

(** weave/tests/forest/subset_not.rs, many_forest_with_matching_element_2, L59, run as in weave/tests/forest/mod.rs for weave::matrix::Forest *)
Example tests_forest_subset_not_many_forest_with_matching_element_2 : (
  let '(forest, element, expected) := (let v_forest := (F_many [["1"%string; "3"%string]; ["2"%string; "3"%string]]) in
  let v_element := "2"%string in
  let v_expected := (F_unit ["1"%string; "3"%string]) in
  (v_forest, v_element, v_expected)) in teq expected (Forest_subset_not forest element)) = true.
Proof. vm_compute. reflexivity. Qed.

(** weave/tests/forest/subset_all.rs, empty_forest_with_single_element, L5, run as in weave/tests/forest/mod.rs for weave::matrix::Forest *)
Example tests_forest_subset_all_empty_forest_with_single_element : (
  let '(forest, element, expected) := (let v_forest := F_empty in
  let v_elements := ["1"%string] in
  let v_expected := F_empty in
  (v_forest, v_elements, v_expected)) in teq expected (Forest_subset_all forest element)) = true.
Proof. vm_compute. reflexivity. Qed.

(** weave/tests/forest/subset_all.rs, unit_forest_with_empty_elements, L14, run as in weave/tests/forest/mod.rs for weave::matrix::Forest *)
Example tests_forest_subset_all_unit_forest_with_empty_elements : (
  let '(forest, element, expected) := (let v_forest := (F_unit ["2"%string; "3"%string]) in
  let v_elements := [] in
  let v_expected := (F_unit ["2"%string; "3"%string]) in
  (v_forest, v_elements, v_expected)) in teq expected (Forest_subset_all forest element)) = true.
Proof. vm_compute. reflexivity. Qed.

(** weave/tests/forest/subset_all.rs, unit_forest_with_one_element, L23, run as in weave/tests/forest/mod.rs for weave::matrix::Forest *)
Example tests_forest_subset_all_unit_forest_with_one_element : (
  let '(forest, element, expected) := (let v_forest := (F_unit ["2"%string; "3"%string]) in
  let v_elements := ["2"%string] in
  let v_expected := (F_unit ["2"%string; "3"%string]) in
  (v_forest, v_elements, v_expected)) in teq expected (Forest_subset_all forest element)) = true.
Proof. vm_compute. reflexivity. Qed.

(** weave/tests/forest/subset_all.rs, unit_forest_with_disjoint_elements, L32, run as in weave/tests/forest/mod.rs for weave::matrix::Forest *)
Example tests_forest_subset_all_unit_forest_with_disjoint_elements : (
  let '(forest, element, expected) := (let v_forest := (F_unit ["2"%string; "3"%string]) in
  let v_elements := ["1"%string; "2"%string] in
  let v_expected := F_empty in
  (v_forest, v_elements, v_expected)) in teq expected (Forest_subset_all forest element)) = true.
Proof. vm_compute. reflexivity. Qed.

(** weave/tests/forest/subset_all.rs, many_forest_with_one_element, L41, run as in weave/tests/forest/mod.rs for weave::matrix::Forest *)
Example tests_forest_subset_all_many_forest_with_one_element : (
  let '(forest, element, expected) := (let v_forest := (F_many [["1"%string; "3"%string]; ["2"%string; "3"%string]; ["1"%string; "2"%string]]) in
  let v_elements := ["3"%string] in
  let v_expected := (F_many [["1"%string; "3"%string]; ["2"%string; "3"%string]]) in
  (v_forest, v_elements, v_expected)) in teq expected (Forest_subset_all forest element)) = true.
Proof. vm_compute. reflexivity. Qed.

(** weave/tests/forest/subset_all.rs, many_forest_with_many_elements, L57, run as in weave/tests/forest/mod.rs for weave::matrix::Forest *)
Example tests_forest_subset_all_many_forest_with_many_elements : (
  let '(forest, element, expected) := (let v_forest := (F_many [["1"%string; "3"%string]; ["2"%string; "3"%string]; ["1"%string; "2"%string]]) in
  let v_elements := ["1"%string; "3"%string] in
  let v_expected := (F_unit ["1"%string; "3"%string]) in
  (v_forest, v_elements, v_expected)) in teq expected (Forest_subset_all forest element)) = true.
Proof. vm_compute. reflexivity. Qed.

(** weave/tests/forest/subset_none.rs, empty_forest_with_single_element, L5, run as in weave/tests/forest/mod.rs for weave::matrix::Forest *)
Example tests_forest_subset_none_empty_forest_with_single_element : (
  let '(forest, element, expected) := (let v_forest := F_empty in
  let v_elements := ["1"%string] in
  let v_expected := F_empty in
  (v_forest, v_elements, v_expected)) in teq expected (Forest_subset_none forest element)) = true.
Proof. vm_compute. reflexivity. Qed.

(** weave/tests/forest/subset_none.rs, unit_forest_with_empty_elements, L14, run as in weave/tests/forest/mod.rs for weave::matrix::Forest *)
Example tests_forest_subset_none_unit_forest_with_empty_elements : (
  let '(forest, element, expected) := (let v_forest := (F_unit ["2"%string; "3"%string]) in
  let v_elements := [] in
  let v_expected := (F_unit ["2"%string; "3"%string]) in
  (v_forest, v_elements, v_expected)) in teq expected (Forest_subset_none forest element)) = true.
Proof. vm_compute. reflexivity. Qed.

(** weave/tests/forest/subset_none.rs, unit_forest_with_one_element, L23, run as in weave/tests/forest/mod.rs for weave::matrix::Forest *)
Example tests_forest_subset_none_unit_forest_with_one_element : (
  let '(forest, element, expected) := (let v_forest := (F_unit ["2"%string; "3"%string]) in
  let v_elements := ["2"%string] in
  let v_expected := F_empty in
  (v_forest, v_elements, v_expected)) in teq expected (Forest_subset_none forest element)) = true.
Proof. vm_compute. reflexivity. Qed.

(** weave/tests/forest/subset_none.rs, unit_forest_with_disjoint_elements, L32, run as in weave/tests/forest/mod.rs for weave::matrix::Forest *)
Example tests_forest_subset_none_unit_forest_with_disjoint_elements : (
  let '(forest, element, expected) := (let v_forest := (F_unit ["2"%string; "3"%string]) in
  let v_elements := ["1"%string] in
  let v_expected := (F_unit ["2"%string; "3"%string]) in
  (v_forest, v_elements, v_expected)) in teq expected (Forest_subset_none forest element)) = true.
Proof. vm_compute. reflexivity. Qed.

(** weave/tests/forest/subset_none.rs, many_forest_with_one_element, L41, run as in weave/tests/forest/mod.rs for weave::matrix::Forest *)
Example tests_forest_subset_none_many_forest_with_one_element : (
  let '(forest, element, expected) := (let v_forest := (F_many [["1"%string; "3"%string]; ["2"%string; "3"%string]; ["1"%string; "2"%string]]) in
  let v_elements := ["3"%string] in
  let v_expected := (F_unit ["1"%string; "2"%string]) in
  (v_forest, v_elements, v_expected)) in teq expected (Forest_subset_none forest element)) = true.
Proof. vm_compute. reflexivity. Qed.

(** weave/tests/forest/subset_none.rs, many_forest_with_many_elements, L54, run as in weave/tests/forest/mod.rs for weave::matrix::Forest *)
Example tests_forest_subset_none_many_forest_with_many_elements : (
  let '(forest, element, expected) := (let v_forest := (F_many [["1"%string; "3"%string]; ["2"%string; "3"%string]; ["1"%string; "2"%string]]) in
  let v_elements := ["1"%string; "3"%string] in
  let v_expected := F_empty in
  (v_forest, v_elements, v_expected)) in teq expected (Forest_subset_none forest element)) = true.
Proof. vm_compute. reflexivity. Qed.

(** weave/tests/forest/occurrences.rs, empty, L5, run as in weave/tests/forest/mod.rs for weave::matrix::Forest *)
Example tests_forest_occurrences_empty : (
  let '(forest, expected) := (let v_forest := F_empty in
  let v_expected := [] in
  (v_forest, v_expected)) in teq expected (Forest_occurrences forest)) = true.
Proof. vm_compute. reflexivity. Qed.

(** weave/tests/forest/occurrences.rs, unit_with_one, L13, run as in weave/tests/forest/mod.rs for weave::matrix::Forest *)
Example tests_forest_occurrences_unit_with_one : (
  let '(forest, expected) := (let v_forest := (F_unit ["1"%string; "1"%string]) in
  let v_expected := [("1"%string, 1)] in
  (v_forest, v_expected)) in teq expected (Forest_occurrences forest)) = true.
Proof. vm_compute. reflexivity. Qed.

(** weave/tests/forest/occurrences.rs, unit_with_two, L23, run as in weave/tests/forest/mod.rs for weave::matrix::Forest *)
Example tests_forest_occurrences_unit_with_two : (
  let '(forest, expected) := (let v_forest := (F_unit ["1"%string; "2"%string]) in
  let v_expected := [("1"%string, 1); ("2"%string, 1)] in
  (v_forest, v_expected)) in teq expected (Forest_occurrences forest)) = true.
Proof. vm_compute. reflexivity. Qed.

(** weave/tests/forest/occurrences.rs, overlapping_many, L34, run as in weave/tests/forest/mod.rs for weave::matrix::Forest *)
Example tests_forest_occurrences_overlapping_many : (
  let '(forest, expected) := (let v_forest := (F_many [["1"%string; "2"%string]; ["2"%string; "3"%string]]) in
  let v_expected := [("1"%string, 1); ("2"%string, 2); ("3"%string, 1)] in
  (v_forest, v_expected)) in teq expected (Forest_occurrences forest)) = true.
Proof. vm_compute. reflexivity. Qed.

(** weave/tests/forest/occurrences.rs, disjoint_many, L49, run as in weave/tests/forest/mod.rs for weave::matrix::Forest *)
Example tests_forest_occurrences_disjoint_many : (
  let '(forest, expected) := (let v_forest := (F_many [["1"%string; "2"%string]; ["3"%string; "4"%string]; ["1"%string; "2"%string]]) in
  let v_expected := [("1"%string, 1); ("2"%string, 1); ("3"%string, 1); ("4"%string, 1)] in
  (v_forest, v_expected)) in teq expected (Forest_occurrences forest)) = true.
Proof. vm_compute. reflexivity. Qed.
