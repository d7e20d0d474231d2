(** GENERATED by tools/rust_tests.py: the repository's own tests, transcribed and run on the
    model.  These are checks of the MODEL against the values the authors expect, not proofs of
    properties (those are in Properties_*.v). *)
From Coq Require Import String List Bool.
From Verif Require Import RepoPrelude_Zdd2.
Import ListNotations.
Open Scope list_scope.
Open Scope bool_scope.

(** weave/src/zdd2/forest/mod.rs, empty_forest, L209 *)
Example weave_zdd2_forest_mod_eq_forest_tests_empty_forest : (
  let v_forest1 := Forest_empty in
  let v_forest2 := Forest_empty in
  teq v_forest1 v_forest2 &&
  true) = true.
Proof. vm_compute. reflexivity. Qed.

(** weave/src/zdd2/forest/mod.rs, unit_forest, L217 *)
Example weave_zdd2_forest_mod_eq_forest_tests_unit_forest : (
  let v_forest1 := (Forest_unit ["1"%string; "2"%string]) in
  let v_forest2 := (Forest_unit ["2"%string; "1"%string]) in
  teq v_forest1 v_forest2 &&
  true) = true.
Proof. vm_compute. reflexivity. Qed.

(** weave/src/zdd2/forest/mod.rs, many_forest, L225 *)
Example weave_zdd2_forest_mod_eq_forest_tests_many_forest : (
  let v_forest1 := (Forest_many [["1"%string; "2"%string]]) in
  let v_forest2 := (Forest_many [["2"%string; "1"%string]]) in
  teq v_forest1 v_forest2 &&
  true) = true.
Proof. vm_compute. reflexivity. Qed.

(** weave/src/zdd2/forest/mod.rs, unit_forest_with_none, L233 *)
Example weave_zdd2_forest_mod_eq_forest_tests_unit_forest_with_none : (
  let v_forest1 := (Forest_unit []) in
  let v_forest2 := Forest_empty in
  teq v_forest1 v_forest2 &&
  true) = true.
Proof. vm_compute. reflexivity. Qed.

(** weave/src/zdd2/forest/mod.rs, many_forest_with_none, L241 *)
Example weave_zdd2_forest_mod_eq_forest_tests_many_forest_with_none : (
  let v_forest1 := (Forest_many []) in
  let v_forest2 := Forest_empty in
  teq v_forest1 v_forest2 &&
  true) = true.
Proof. vm_compute. reflexivity. Qed.

(** weave/src/zdd2/forest/mod.rs, many_forest_with_one, L249 *)
Example weave_zdd2_forest_mod_eq_forest_tests_many_forest_with_one : (
  let v_forest1 := (Forest_many [["1"%string]]) in
  let v_forest2 := (Forest_unit ["1"%string]) in
  teq v_forest1 v_forest2 &&
  true) = true.
Proof. vm_compute. reflexivity. Qed.

(** weave/src/zdd2/forest/mod.rs, empty_forest_has_size_0, L262 *)
Example weave_zdd2_forest_mod_empty_forest_tests_empty_forest_has_size_0 : (
  let v_forest := Forest_empty in
  teq (Some 0) (m_len v_forest) &&
  true) = true.
Proof. vm_compute. reflexivity. Qed.

(** weave/src/zdd2/forest/mod.rs, empty_forest_is_empty, L269 *)
Example weave_zdd2_forest_mod_empty_forest_tests_empty_forest_is_empty : (
  let v_forest := Forest_empty in
  teq (Some true) (m_is_empty v_forest) &&
  true) = true.
Proof. vm_compute. reflexivity. Qed.

(** weave/src/zdd2/forest/mod.rs, empty_forest_into, L276 *)
Example weave_zdd2_forest_mod_empty_forest_tests_empty_forest_into : (
  let v_forest := Forest_empty in
  teq Vec_new (m_trees v_forest) &&
  true) = true.
Proof. vm_compute. reflexivity. Qed.

(** weave/src/zdd2/forest/mod.rs, unit_forest_has_size_1, L291 *)
Example weave_zdd2_forest_mod_unit_forest_tests_unit_forest_has_size_1 : (
  let v_forest := (Forest_unit ["1"%string; "2"%string]) in
  teq (Some 1) (m_len v_forest) &&
  true) = true.
Proof. vm_compute. reflexivity. Qed.

(** weave/src/zdd2/forest/mod.rs, unit_forest_is_empty, L298 *)
Example weave_zdd2_forest_mod_unit_forest_tests_unit_forest_is_empty : (
  let v_forest := (Forest_unit ["1"%string; "2"%string]) in
  teq (Some false) (m_is_empty v_forest) &&
  true) = true.
Proof. vm_compute. reflexivity. Qed.

(** weave/src/zdd2/forest/mod.rs, unit_forest_into, L305 *)
Example weave_zdd2_forest_mod_unit_forest_tests_unit_forest_into : (
  let v_forest := (Forest_unit ["1"%string; "2"%string]) in
  let v_expected := [["1"%string; "2"%string]] in
  teq v_expected (m_trees v_forest) &&
  true) = true.
Proof. vm_compute. reflexivity. Qed.

(** weave/src/zdd2/forest/mod.rs, many_forest_has_size_2, L321 *)
Example weave_zdd2_forest_mod_many_forest_tests_many_forest_has_size_2 : (
  let v_forest := (Forest_many [["1"%string; "2"%string]; ["2"%string; "3"%string]]) in
  teq (Some 2) (m_len v_forest) &&
  true) = true.
Proof. vm_compute. reflexivity. Qed.

(** weave/src/zdd2/forest/mod.rs, many_forest_is_not_empty, L331 *)
Example weave_zdd2_forest_mod_many_forest_tests_many_forest_is_not_empty : (
  let v_forest := (Forest_many [["1"%string; "2"%string]; ["2"%string; "3"%string]]) in
  teq (Some false) (m_is_empty v_forest) &&
  true) = true.
Proof. vm_compute. reflexivity. Qed.

(** weave/src/zdd2/forest/mod.rs, many_forest_into, L341 *)
Example weave_zdd2_forest_mod_many_forest_tests_many_forest_into : (
  let v_forest := (Forest_many [["1"%string; "2"%string]; ["2"%string; "3"%string]]) in
  let v_expected := [["1"%string; "2"%string]; ["2"%string; "3"%string]] in
  teq v_expected (m_trees v_forest) &&
  true) = true.
Proof. vm_compute. reflexivity. Qed.

(** weave/src/zdd2/forest/mod.rs, unique_forest_into, L358 *)
Example weave_zdd2_forest_mod_many_forest_tests_unique_forest_into : (
  let v_forest := (Forest_unique ["1"%string; "2"%string]) in
  let v_expected := [["1"%string]; ["2"%string]] in
  teq v_expected (m_trees v_forest) &&
  true) = true.
Proof. vm_compute. reflexivity. Qed.

(** weave/src/zdd2/forest/mod.rs, product_of_two_forests_of_two, L377 *)
Example weave_zdd2_forest_mod_random_tests_product_of_two_forests_of_two : (
  let v_forest := (m_product (Forest_unique ["1-1"%string; "1-2"%string; "1-3"%string]) (Forest_unique ["2-1"%string; "2-2"%string; "2-3"%string])) in
  teq (Some 9) (m_len v_forest) &&
  let v_expected := (Forest_many [["1-3"%string; "2-1"%string]; ["1-3"%string; "2-2"%string]; ["2-3"%string; "1-2"%string]; ["1-1"%string; "2-2"%string]; ["1-2"%string; "2-2"%string]; ["2-1"%string; "1-2"%string]; ["1-3"%string; "2-3"%string]; ["1-1"%string; "2-1"%string]; ["1-1"%string; "2-3"%string]]) in
  teq v_expected v_forest &&
  true) = true.
Proof. vm_compute. reflexivity. Qed.

(** weave/src/zdd2/forest/mod.rs, product_of_three_forests_of_three, L402 *)
Example weave_zdd2_forest_mod_random_tests_product_of_three_forests_of_three : (
  let v_forest := (m_product (m_product (Forest_unique ["1-1"%string; "1-2"%string; "1-3"%string]) (Forest_unique ["2-1"%string; "2-2"%string; "2-3"%string])) (Forest_unique ["3-1"%string; "3-2"%string; "3-3"%string])) in
  teq (Some 27) (m_len v_forest) &&
  let v_expected := (Forest_many [["1-1"%string; "2-1"%string; "3-1"%string]; ["1-1"%string; "2-1"%string; "3-2"%string]; ["1-1"%string; "2-1"%string; "3-3"%string]; ["1-1"%string; "2-2"%string; "3-1"%string]; ["1-1"%string; "2-2"%string; "3-2"%string]; ["1-1"%string; "2-2"%string; "3-3"%string]; ["1-1"%string; "2-3"%string; "3-1"%string]; ["1-1"%string; "2-3"%string; "3-2"%string]; ["1-1"%string; "2-3"%string; "3-3"%string]; ["1-2"%string; "2-1"%string; "3-1"%string]; ["1-2"%string; "2-1"%string; "3-2"%string]; ["1-2"%string; "2-1"%string; "3-3"%string]; ["1-2"%string; "2-2"%string; "3-1"%string]; ["1-2"%string; "2-2"%string; "3-2"%string]; ["1-2"%string; "2-2"%string; "3-3"%string]; ["1-2"%string; "2-3"%string; "3-1"%string]; ["1-2"%string; "2-3"%string; "3-2"%string]; ["1-2"%string; "2-3"%string; "3-3"%string]; ["1-3"%string; "2-1"%string; "3-1"%string]; ["1-3"%string; "2-1"%string; "3-2"%string]; ["1-3"%string; "2-1"%string; "3-3"%string]; ["1-3"%string; "2-2"%string; "3-1"%string]; ["1-3"%string; "2-2"%string; "3-2"%string]; ["1-3"%string; "2-2"%string; "3-3"%string]; ["1-3"%string; "2-3"%string; "3-1"%string]; ["1-3"%string; "2-3"%string; "3-2"%string]; ["1-3"%string; "2-3"%string; "3-3"%string]]) in
  teq v_expected v_forest &&
  true) = true.
Proof. vm_compute. reflexivity. Qed.

(** weave/src/zdd2/forest/union.rs, union_returns_identity_when_both_trees_are_empty, L6 *)
Example weave_zdd2_forest_union_tests_union_returns_identity_when_both_trees_are_empty : (
  let v_tree1 := Forest_empty in
  let v_tree2 := Forest_empty in
  teq Forest_empty (Forest_union v_tree1 v_tree2) &&
  true) = true.
Proof. vm_compute. reflexivity. Qed.

(** weave/src/zdd2/forest/union.rs, union_returns_unit_when_left_is_empty_right_is_unit, L17 *)
Example weave_zdd2_forest_union_tests_union_returns_unit_when_left_is_empty_right_is_unit : (
  let v_tree1 := Forest_empty in
  let v_tree2 := (Forest_unit ["1"%string; "2"%string]) in
  teq (Forest_unit ["1"%string; "2"%string]) (Forest_union v_tree1 v_tree2) &&
  true) = true.
Proof. vm_compute. reflexivity. Qed.

(** weave/src/zdd2/forest/union.rs, union_returns_many_when_left_is_empty_right_is_many, L28 *)
Example weave_zdd2_forest_union_tests_union_returns_many_when_left_is_empty_right_is_many : (
  let v_tree1 := Forest_empty in
  let v_tree2 := (Forest_many [["1"%string; "2"%string]; ["2"%string; "3"%string]]) in
  teq (Forest_many [["1"%string; "2"%string]; ["2"%string; "3"%string]]) (Forest_union v_tree1 v_tree2) &&
  true) = true.
Proof. vm_compute. reflexivity. Qed.

(** weave/src/zdd2/forest/union.rs, union_returns_unit_when_left_is_unit_right_is_empty, L45 *)
Example weave_zdd2_forest_union_tests_union_returns_unit_when_left_is_unit_right_is_empty : (
  let v_tree1 := (Forest_unit ["1"%string; "2"%string]) in
  let v_tree2 := Forest_empty in
  teq (Forest_unit ["1"%string; "2"%string]) (Forest_union v_tree1 v_tree2) &&
  true) = true.
Proof. vm_compute. reflexivity. Qed.

(** weave/src/zdd2/forest/union.rs, union_returns_identity_when_trees_are_equal_unit, L56 *)
Example weave_zdd2_forest_union_tests_union_returns_identity_when_trees_are_equal_unit : (
  let v_tree1 := (Forest_unit ["1"%string; "2"%string]) in
  let v_tree2 := (Forest_unit ["1"%string; "2"%string]) in
  teq (Forest_unit ["1"%string; "2"%string]) (Forest_union v_tree1 v_tree2) &&
  true) = true.
Proof. vm_compute. reflexivity. Qed.

(** weave/src/zdd2/forest/union.rs, union_returns_many_when_trees_are_disjoint_units, L67 *)
Example weave_zdd2_forest_union_tests_union_returns_many_when_trees_are_disjoint_units : (
  let v_tree1 := (Forest_unit ["1"%string; "2"%string]) in
  let v_tree2 := (Forest_unit ["2"%string; "3"%string]) in
  teq (Forest_many [["1"%string; "2"%string]; ["2"%string; "3"%string]]) (Forest_union v_tree1 v_tree2) &&
  true) = true.
Proof. vm_compute. reflexivity. Qed.

(** weave/src/zdd2/forest/union.rs, union_returns_many_when_left_is_unit_right_is_many, L81 *)
Example weave_zdd2_forest_union_tests_union_returns_many_when_left_is_unit_right_is_many : (
  let v_tree1 := (Forest_unit ["3"%string; "4"%string]) in
  let v_tree2 := (Forest_many [["1"%string; "2"%string]; ["2"%string; "3"%string]]) in
  teq (Forest_many [["1"%string; "2"%string]; ["2"%string; "3"%string]; ["3"%string; "4"%string]]) (Forest_union v_tree1 v_tree2) &&
  true) = true.
Proof. vm_compute. reflexivity. Qed.

(** weave/src/zdd2/forest/union.rs, union_returns_many_when_left_is_many_right_is_unit, L99 *)
Example weave_zdd2_forest_union_tests_union_returns_many_when_left_is_many_right_is_unit : (
  let v_tree1 := (Forest_many [["1"%string; "2"%string]; ["2"%string; "3"%string]]) in
  let v_tree2 := (Forest_unit ["3"%string; "4"%string]) in
  teq (Forest_many [["1"%string; "2"%string]; ["2"%string; "3"%string]; ["3"%string; "4"%string]]) (Forest_union v_tree1 v_tree2) &&
  true) = true.
Proof. vm_compute. reflexivity. Qed.

(** weave/src/zdd2/forest/union.rs, union_returns_identity_when_trees_are_equal_many, L117 *)
Example weave_zdd2_forest_union_tests_union_returns_identity_when_trees_are_equal_many : (
  let v_tree1 := (Forest_many [["1"%string; "2"%string]; ["2"%string; "3"%string]]) in
  let v_tree2 := (Forest_many [["1"%string; "2"%string]; ["2"%string; "3"%string]]) in
  teq (Forest_many [["1"%string; "2"%string]; ["2"%string; "3"%string]]) (Forest_union v_tree1 v_tree2) &&
  true) = true.
Proof. vm_compute. reflexivity. Qed.

(** weave/src/zdd2/forest/union.rs, union_returns_many_when_trees_are_disjoint_many, L137 *)
Example weave_zdd2_forest_union_tests_union_returns_many_when_trees_are_disjoint_many : (
  let v_tree1 := (Forest_many [["1"%string; "2"%string]; ["2"%string; "3"%string]]) in
  let v_tree2 := (Forest_many [["1"%string; "3"%string]; ["2"%string; "4"%string]]) in
  teq (Forest_many [["1"%string; "2"%string]; ["1"%string; "3"%string]; ["2"%string; "3"%string]; ["2"%string; "4"%string]]) (Forest_union v_tree1 v_tree2) &&
  true) = true.
Proof. vm_compute. reflexivity. Qed.

(** weave/src/zdd2/forest/union.rs, union_returns_many_when_trees_are_have_commonality, L159 *)
Example weave_zdd2_forest_union_tests_union_returns_many_when_trees_are_have_commonality : (
  let v_tree1 := (Forest_many [["1"%string; "2"%string]; ["2"%string; "3"%string]; ["3"%string; "4"%string]]) in
  let v_tree2 := (Forest_many [["2"%string; "3"%string]; ["3"%string; "4"%string]; ["4"%string; "5"%string]]) in
  teq (Forest_many [["1"%string; "2"%string]; ["2"%string; "3"%string]; ["3"%string; "4"%string]; ["4"%string; "5"%string]]) (Forest_union v_tree1 v_tree2) &&
  true) = true.
Proof. vm_compute. reflexivity. Qed.

(** weave/src/zdd2/forest/union.rs, union_returns_identity_when_left_is_unit_right_is_many, L183 *)
Example weave_zdd2_forest_union_tests_union_returns_identity_when_left_is_unit_right_is_many : (
  let v_tree1 := (Forest_unit ["1"%string; "2"%string]) in
  let v_tree2 := (Forest_many [["1"%string; "2"%string]; ["2"%string; "3"%string]]) in
  teq (Forest_many [["1"%string; "2"%string]; ["2"%string; "3"%string]]) (Forest_union v_tree1 v_tree2) &&
  true) = true.
Proof. vm_compute. reflexivity. Qed.

(** weave/src/zdd2/forest/intersect.rs, intersect_returns_identity_when_both_trees_are_empty, L6 *)
Example weave_zdd2_forest_intersect_tests_intersect_returns_identity_when_both_trees_are_empty : (
  let v_tree1 := Forest_empty in
  let v_tree2 := Forest_empty in
  teq Forest_empty (Forest_intersect v_tree1 v_tree2) &&
  true) = true.
Proof. vm_compute. reflexivity. Qed.

(** weave/src/zdd2/forest/intersect.rs, intersect_returns_empty_when_left_is_empty_right_is_unit, L17 *)
Example weave_zdd2_forest_intersect_tests_intersect_returns_empty_when_left_is_empty_right_is_unit : (
  let v_tree1 := Forest_empty in
  let v_tree2 := (Forest_unit ["1"%string; "2"%string]) in
  teq Forest_empty (Forest_intersect v_tree1 v_tree2) &&
  true) = true.
Proof. vm_compute. reflexivity. Qed.

(** weave/src/zdd2/forest/intersect.rs, intersect_returns_empty_when_left_is_empty_right_is_many, L28 *)
Example weave_zdd2_forest_intersect_tests_intersect_returns_empty_when_left_is_empty_right_is_many : (
  let v_tree1 := Forest_empty in
  let v_tree2 := (Forest_many [["1"%string; "2"%string]; ["2"%string; "3"%string]]) in
  teq Forest_empty (Forest_intersect v_tree1 v_tree2) &&
  true) = true.
Proof. vm_compute. reflexivity. Qed.

(** weave/src/zdd2/forest/intersect.rs, intersect_returns_empty_when_left_is_unit_right_is_empty, L42 *)
Example weave_zdd2_forest_intersect_tests_intersect_returns_empty_when_left_is_unit_right_is_empty : (
  let v_tree1 := (Forest_unit ["1"%string; "2"%string]) in
  let v_tree2 := Forest_empty in
  teq Forest_empty (Forest_intersect v_tree1 v_tree2) &&
  true) = true.
Proof. vm_compute. reflexivity. Qed.

(** weave/src/zdd2/forest/intersect.rs, intersect_returns_identity_when_trees_are_equal_unit, L53 *)
Example weave_zdd2_forest_intersect_tests_intersect_returns_identity_when_trees_are_equal_unit : (
  let v_tree1 := (Forest_unit ["1"%string; "2"%string]) in
  let v_tree2 := (Forest_unit ["1"%string; "2"%string]) in
  teq (Forest_unit ["1"%string; "2"%string]) (Forest_intersect v_tree1 v_tree2) &&
  true) = true.
Proof. vm_compute. reflexivity. Qed.

(** weave/src/zdd2/forest/intersect.rs, intersect_returns_empty_when_trees_are_disjoint_units, L64 *)
Example weave_zdd2_forest_intersect_tests_intersect_returns_empty_when_trees_are_disjoint_units : (
  let v_tree1 := (Forest_unit ["1"%string; "2"%string]) in
  let v_tree2 := (Forest_unit ["2"%string; "3"%string]) in
  teq Forest_empty (Forest_intersect v_tree1 v_tree2) &&
  true) = true.
Proof. vm_compute. reflexivity. Qed.

(** weave/src/zdd2/forest/intersect.rs, intersect_returns_unit_when_left_is_unit_right_is_many, L75 *)
Example weave_zdd2_forest_intersect_tests_intersect_returns_unit_when_left_is_unit_right_is_many : (
  let v_tree1 := (Forest_unit ["1"%string; "2"%string]) in
  let v_tree2 := (Forest_many [["1"%string; "2"%string]; ["2"%string; "3"%string]]) in
  teq (Forest_unit ["1"%string; "2"%string]) (Forest_intersect v_tree1 v_tree2) &&
  true) = true.
Proof. vm_compute. reflexivity. Qed.

(** weave/src/zdd2/forest/intersect.rs, intersect_returns_identity_when_trees_are_equal_many, L89 *)
Example weave_zdd2_forest_intersect_tests_intersect_returns_identity_when_trees_are_equal_many : (
  let v_tree1 := (Forest_many [["1"%string; "2"%string]; ["2"%string; "3"%string]]) in
  let v_tree2 := (Forest_many [["1"%string; "2"%string]; ["2"%string; "3"%string]]) in
  teq (Forest_many [["1"%string; "2"%string]; ["2"%string; "3"%string]]) (Forest_intersect v_tree1 v_tree2) &&
  true) = true.
Proof. vm_compute. reflexivity. Qed.

(** weave/src/zdd2/forest/intersect.rs, intersect_returns_empty_when_trees_are_disjoint_many, L109 *)
Example weave_zdd2_forest_intersect_tests_intersect_returns_empty_when_trees_are_disjoint_many : (
  let v_tree1 := (Forest_many [["1"%string; "2"%string]; ["2"%string; "3"%string]]) in
  let v_tree2 := (Forest_many [["1"%string; "3"%string]; ["2"%string; "4"%string]]) in
  teq Forest_empty (Forest_intersect v_tree1 v_tree2) &&
  true) = true.
Proof. vm_compute. reflexivity. Qed.

(** weave/src/zdd2/forest/intersect.rs, intersect_returns_one_when_trees_are_have_commonality, L126 *)
Example weave_zdd2_forest_intersect_tests_intersect_returns_one_when_trees_are_have_commonality : (
  let v_tree1 := (Forest_many [["1"%string; "2"%string]; ["2"%string; "3"%string]]) in
  let v_tree2 := (Forest_many [["2"%string; "3"%string]; ["3"%string; "4"%string]; ["4"%string; "5"%string]]) in
  teq (Forest_unit ["2"%string; "3"%string]) (Forest_intersect v_tree1 v_tree2) &&
  true) = true.
Proof. vm_compute. reflexivity. Qed.

(** weave/src/zdd2/forest/intersect.rs, intersect_returns_many_when_trees_are_have_commonality, L144 *)
Example weave_zdd2_forest_intersect_tests_intersect_returns_many_when_trees_are_have_commonality : (
  let v_tree1 := (Forest_many [["1"%string; "2"%string]; ["2"%string; "3"%string]; ["3"%string; "4"%string]]) in
  let v_tree2 := (Forest_many [["2"%string; "3"%string]; ["3"%string; "4"%string]; ["4"%string; "5"%string]]) in
  teq (Forest_many [["2"%string; "3"%string]; ["3"%string; "4"%string]]) (Forest_intersect v_tree1 v_tree2) &&
  true) = true.
Proof. vm_compute. reflexivity. Qed.

(** weave/src/zdd2/forest/product.rs, empty_right_returns_empty, L6 *)
Example weave_zdd2_forest_product_tests_empty_right_returns_empty : (
  let v_forest1 := (Forest_unit ["1"%string; "2"%string]) in
  let v_forest2 := Forest_empty in
  teq Forest_empty (Forest_product v_forest1 v_forest2) &&
  true) = true.
Proof. vm_compute. reflexivity. Qed.

(** weave/src/zdd2/forest/product.rs, empty_left_returns_empty, L17 *)
Example weave_zdd2_forest_product_tests_empty_left_returns_empty : (
  let v_forest1 := Forest_empty in
  let v_forest2 := (Forest_unit ["1"%string]) in
  teq Forest_empty (Forest_product v_forest1 v_forest2) &&
  true) = true.
Proof. vm_compute. reflexivity. Qed.

(** weave/src/zdd2/forest/product.rs, unit_forests_with_overlap_returns_many, L28 *)
Example weave_zdd2_forest_product_tests_unit_forests_with_overlap_returns_many : (
  let v_forest1 := (Forest_unit ["1"%string; "2"%string]) in
  let v_forest2 := (Forest_unit ["1"%string]) in
  teq (Forest_many [["1"%string; "2"%string]]) (Forest_product v_forest1 v_forest2) &&
  true) = true.
Proof. vm_compute. reflexivity. Qed.

(** weave/src/zdd2/forest/product.rs, disjoint_unit_forests_returns_many_1, L41 *)
Example weave_zdd2_forest_product_tests_disjoint_unit_forests_returns_many_1 : (
  let v_forest1 := (Forest_unit ["1"%string; "2"%string]) in
  let v_forest2 := (Forest_unit ["3"%string]) in
  teq (Forest_many [["1"%string; "2"%string; "3"%string]]) (Forest_product v_forest1 v_forest2) &&
  true) = true.
Proof. vm_compute. reflexivity. Qed.

(** weave/src/zdd2/forest/product.rs, disjoint_unit_forests_returns_unit, L54 *)
Example weave_zdd2_forest_product_tests_disjoint_unit_forests_returns_unit : (
  let v_forest1 := (Forest_unit ["1"%string; "2"%string]) in
  let v_forest2 := (Forest_unit ["3"%string; "4"%string]) in
  teq (Forest_unit ["1"%string; "2"%string; "3"%string; "4"%string]) (Forest_product v_forest1 v_forest2) &&
  true) = true.
Proof. vm_compute. reflexivity. Qed.

(** weave/src/zdd2/forest/product.rs, many_forest_and_single_unit_forest_returns_many, L65 *)
Example weave_zdd2_forest_product_tests_many_forest_and_single_unit_forest_returns_many : (
  let v_forest1 := (Forest_many [["1"%string; "2"%string]; ["2"%string; "3"%string]]) in
  let v_forest2 := (Forest_unit ["4"%string]) in
  teq (Forest_many [["1"%string; "2"%string; "4"%string]; ["2"%string; "3"%string; "4"%string]]) (Forest_product v_forest1 v_forest2) &&
  true) = true.
Proof. vm_compute. reflexivity. Qed.

(** weave/src/zdd2/forest/product.rs, many_forest_and_double_unit_forest_with_overlap_returns_many, L82 *)
Example weave_zdd2_forest_product_tests_many_forest_and_double_unit_forest_with_overlap_returns_many : (
  let v_forest1 := (Forest_many [["1"%string; "2"%string]; ["2"%string; "3"%string]]) in
  let v_forest2 := (Forest_unit ["3"%string; "4"%string]) in
  teq (Forest_many [["1"%string; "2"%string; "3"%string; "4"%string]; ["2"%string; "3"%string; "4"%string]]) (Forest_product v_forest1 v_forest2) &&
  true) = true.
Proof. vm_compute. reflexivity. Qed.

(** weave/src/zdd2/forest/product.rs, many_forest_and_unique_forest_with_overlap_returns_many, L99 *)
Example weave_zdd2_forest_product_tests_many_forest_and_unique_forest_with_overlap_returns_many : (
  let v_forest1 := (Forest_many [["1"%string; "2"%string]; ["2"%string; "3"%string]]) in
  let v_forest2 := (Forest_unique ["3"%string; "4"%string]) in
  teq (Forest_many [["1"%string; "2"%string; "3"%string]; ["1"%string; "2"%string; "4"%string]; ["2"%string; "3"%string]; ["2"%string; "3"%string; "4"%string]]) (Forest_product v_forest1 v_forest2) &&
  true) = true.
Proof. vm_compute. reflexivity. Qed.

(** weave/src/zdd2/forest/product.rs, many_forest_and_unique_forest_returns_many, L118 *)
Example weave_zdd2_forest_product_tests_many_forest_and_unique_forest_returns_many : (
  let v_forest1 := (Forest_many [["1"%string; "2"%string]; ["5"%string; "6"%string]]) in
  let v_forest2 := (Forest_unique ["3"%string; "4"%string]) in
  teq (Forest_many [["1"%string; "2"%string; "3"%string]; ["1"%string; "2"%string; "4"%string]; ["5"%string; "6"%string; "3"%string]; ["5"%string; "6"%string; "4"%string]]) (Forest_product v_forest1 v_forest2) &&
  true) = true.
Proof. vm_compute. reflexivity. Qed.

(** weave/src/zdd2/forest/product.rs, many_forest_and_double_unit_forest_returns_many, L137 *)
Example weave_zdd2_forest_product_tests_many_forest_and_double_unit_forest_returns_many : (
  let v_forest1 := (Forest_many [["1"%string; "2"%string]; ["5"%string; "6"%string]]) in
  let v_forest2 := (Forest_unit ["3"%string; "4"%string]) in
  teq (Forest_many [["1"%string; "2"%string; "3"%string; "4"%string]; ["5"%string; "6"%string; "3"%string; "4"%string]]) (Forest_product v_forest1 v_forest2) &&
  true) = true.
Proof. vm_compute. reflexivity. Qed.

(** weave/src/zdd2/forest/product.rs, many_forests_returns_many_1, L154 *)
Example weave_zdd2_forest_product_tests_many_forests_returns_many_1 : (
  let v_forest1 := (Forest_unique ["1"%string; "2"%string]) in
  let v_forest2 := (Forest_unique ["3"%string; "4"%string]) in
  teq (Forest_many [["1"%string; "3"%string]; ["1"%string; "4"%string]; ["2"%string; "3"%string]; ["2"%string; "4"%string]]) (Forest_product v_forest1 v_forest2) &&
  true) = true.
Proof. vm_compute. reflexivity. Qed.

(** weave/src/zdd2/forest/product.rs, many_forests_returns_many_2, L170 *)
Example weave_zdd2_forest_product_tests_many_forests_returns_many_2 : (
  let v_forest1 := (Forest_unique ["1"%string; "2"%string]) in
  let v_forest2 := (Forest_many [["3"%string; "4"%string]; ["7"%string; "8"%string]]) in
  teq (Forest_many [["1"%string; "3"%string; "4"%string]; ["1"%string; "7"%string; "8"%string]; ["2"%string; "3"%string; "4"%string]; ["2"%string; "7"%string; "8"%string]]) (Forest_product v_forest1 v_forest2) &&
  true) = true.
Proof. vm_compute. reflexivity. Qed.

(** weave/src/zdd2/forest/subset.rs, subset_of_empty_returns_empty, L56 *)
Example weave_zdd2_forest_subset_subset_tests_subset_of_empty_returns_empty : (
  let v_forest := Forest_empty in
  let v_element := "1"%string in
  teq Forest_empty (Forest_subset v_forest v_element) &&
  true) = true.
Proof. vm_compute. reflexivity. Qed.

(** weave/src/zdd2/forest/subset.rs, subset_of_disjoint_unit_returns_empty, L67 *)
Example weave_zdd2_forest_subset_subset_tests_subset_of_disjoint_unit_returns_empty : (
  let v_forest := (Forest_unit ["2"%string; "3"%string]) in
  let v_element := "1"%string in
  teq Forest_empty (Forest_subset v_forest v_element) &&
  true) = true.
Proof. vm_compute. reflexivity. Qed.

(** weave/src/zdd2/forest/subset.rs, subset_of_disjoint_many_returns_empty, L78 *)
Example weave_zdd2_forest_subset_subset_tests_subset_of_disjoint_many_returns_empty : (
  let v_forest := (Forest_many [["1"%string; "3"%string]; ["2"%string; "3"%string]]) in
  let v_element := "4"%string in
  teq Forest_empty (Forest_subset v_forest v_element) &&
  true) = true.
Proof. vm_compute. reflexivity. Qed.

(** weave/src/zdd2/forest/subset.rs, subset_of_containing_returns_identity, L92 *)
Example weave_zdd2_forest_subset_subset_tests_subset_of_containing_returns_identity : (
  let v_forest := (Forest_unit ["1"%string; "3"%string]) in
  let v_element := "1"%string in
  teq (Forest_unit ["1"%string; "3"%string]) (Forest_subset v_forest v_element) &&
  true) = true.
Proof. vm_compute. reflexivity. Qed.

(** weave/src/zdd2/forest/subset.rs, subset_of_containing_returns_unit_1, L103 *)
Example weave_zdd2_forest_subset_subset_tests_subset_of_containing_returns_unit_1 : (
  let v_forest := (Forest_many [["1"%string; "3"%string]; ["2"%string; "3"%string]]) in
  let v_element := "1"%string in
  teq (Forest_unit ["1"%string; "3"%string]) (Forest_subset v_forest v_element) &&
  true) = true.
Proof. vm_compute. reflexivity. Qed.

(** weave/src/zdd2/forest/subset.rs, subset_of_containing_returns_unit_2, L117 *)
Example weave_zdd2_forest_subset_subset_tests_subset_of_containing_returns_unit_2 : (
  let v_forest := (Forest_many [["1"%string; "3"%string]; ["2"%string; "3"%string]]) in
  let v_element := "2"%string in
  teq (Forest_unit ["2"%string; "3"%string]) (Forest_subset v_forest v_element) &&
  true) = true.
Proof. vm_compute. reflexivity. Qed.

(** weave/src/zdd2/forest/subset.rs, subset_all_of_empty_returns_empty, L136 *)
Example weave_zdd2_forest_subset_subset_all_tests_subset_all_of_empty_returns_empty : (
  let v_forest := Forest_empty in
  let v_elements := ["1"%string] in
  teq Forest_empty (Forest_subset_all v_forest v_elements) &&
  true) = true.
Proof. vm_compute. reflexivity. Qed.

(** weave/src/zdd2/forest/subset.rs, subset_all_with_empty_elements_returns_identity, L147 *)
Example weave_zdd2_forest_subset_subset_all_tests_subset_all_with_empty_elements_returns_identity : (
  let v_forest := (Forest_unit ["2"%string; "3"%string]) in
  let v_elements := [] in
  teq (Forest_unit ["2"%string; "3"%string]) (Forest_subset_all v_forest v_elements) &&
  true) = true.
Proof. vm_compute. reflexivity. Qed.

(** weave/src/zdd2/forest/subset.rs, subset_all_with_one_element_returns_identity, L158 *)
Example weave_zdd2_forest_subset_subset_all_tests_subset_all_with_one_element_returns_identity : (
  let v_forest := (Forest_unit ["2"%string; "3"%string]) in
  let v_elements := ["2"%string] in
  teq (Forest_unit ["2"%string; "3"%string]) (Forest_subset_all v_forest v_elements) &&
  true) = true.
Proof. vm_compute. reflexivity. Qed.

(** weave/src/zdd2/forest/subset.rs, subset_all_with_disjoint_elements_returns_empty, L169 *)
Example weave_zdd2_forest_subset_subset_all_tests_subset_all_with_disjoint_elements_returns_empty : (
  let v_forest := (Forest_unit ["2"%string; "3"%string]) in
  let v_elements := ["1"%string; "2"%string] in
  teq Forest_empty (Forest_subset_all v_forest v_elements) &&
  true) = true.
Proof. vm_compute. reflexivity. Qed.

(** weave/src/zdd2/forest/subset.rs, subset_all_with_one_element_returns_many, L180 *)
Example weave_zdd2_forest_subset_subset_all_tests_subset_all_with_one_element_returns_many : (
  let v_forest := (Forest_many [["1"%string; "3"%string]; ["2"%string; "3"%string]; ["1"%string; "2"%string]]) in
  let v_elements := ["3"%string] in
  teq (Forest_many [["1"%string; "3"%string]; ["2"%string; "3"%string]]) (Forest_subset_all v_forest v_elements) &&
  true) = true.
Proof. vm_compute. reflexivity. Qed.

(** weave/src/zdd2/forest/subset.rs, subset_all_with_many_elements_returns_unit, L198 *)
Example weave_zdd2_forest_subset_subset_all_tests_subset_all_with_many_elements_returns_unit : (
  let v_forest := (Forest_many [["1"%string; "3"%string]; ["2"%string; "3"%string]; ["1"%string; "2"%string]]) in
  let v_elements := ["1"%string; "3"%string] in
  teq (Forest_unit ["1"%string; "3"%string]) (Forest_subset_all v_forest v_elements) &&
  true) = true.
Proof. vm_compute. reflexivity. Qed.

(** weave/src/zdd2/forest/node/mod.rs, zdd_nodes_reduce_when_high_is_never_node, L191 *)
Example weave_zdd2_forest_node_mod_tests_zdd_nodes_reduce_when_high_is_never_node : (
  (let v_node := (Node_branch (Priority 0) Node_Always Node_Always) in
  teq (Node_Branch (Priority 0) Node_ALWAYS Node_ALWAYS) v_node &&
  true) &&
  (let v_node := (Node_branch (Priority 0) Node_Always Node_Never) in
  teq Node_Always v_node &&
  true) &&
  (let v_node := (Node_branch (Priority 0) Node_Never Node_Never) in
  teq Node_Never v_node &&
  true) &&
  (let v_node := (Node_branch (Priority 0) Node_Never Node_Always) in
  teq (Node_Branch (Priority 0) Node_NEVER Node_ALWAYS) v_node &&
  true) &&
  true) = true.
Proof. vm_compute. reflexivity. Qed.

(** weave/src/zdd2/forest/node/mod.rs, zdd_nodes_reorder_when_low_has_higher_priority, L239 *)
Example weave_zdd2_forest_node_mod_tests_zdd_nodes_reorder_when_low_has_higher_priority : (
  let v_initial := (Node_branch (Priority 1) (Node_branch (Priority 0) Node_Never Node_Always) (Node_branch (Priority 2) Node_Never Node_Always)) in
  let v_expected := (Node_branch (Priority 0) (Node_branch (Priority 1) Node_Never (Node_branch (Priority 2) Node_Never Node_Always)) Node_Always) in
  teq v_expected v_initial &&
  true) = true.
Proof. vm_compute. reflexivity. Qed.

(** weave/src/zdd2/forest/node/mod.rs, zdd_nodes_reorder_when_high_has_higher_priority, L263 *)
Example weave_zdd2_forest_node_mod_tests_zdd_nodes_reorder_when_high_has_higher_priority : (
  let v_initial := (Node_branch (Priority 1) (Node_branch (Priority 2) Node_Never Node_Always) (Node_branch (Priority 0) Node_Never Node_Always)) in
  let v_expected := (Node_branch (Priority 0) (Node_branch (Priority 2) Node_Never Node_Always) (Node_branch (Priority 1) Node_Never Node_Always)) in
  teq v_expected v_initial &&
  true) = true.
Proof. vm_compute. reflexivity. Qed.

(** weave/src/zdd2/forest/node/mod.rs, zdd_nodes_reorder_when_high_and_low_have_higher_priority, L283 *)
Example weave_zdd2_forest_node_mod_tests_zdd_nodes_reorder_when_high_and_low_have_higher_priority : (
  let v_initial := (Node_branch (Priority 1) (Node_branch (Priority 0) Node_Never (Node_branch (Priority 2) Node_Never Node_Always)) (Node_branch (Priority 0) (Node_branch (Priority 3) Node_Never Node_Always) Node_Always)) in
  let v_expected := (Node_branch (Priority 0) (Node_branch (Priority 1) Node_Never (Node_branch (Priority 3) Node_Never Node_Always)) (Node_branch (Priority 1) (Node_branch (Priority 2) Node_Never Node_Always) Node_Always)) in
  teq v_expected v_initial &&
  true) = true.
Proof. vm_compute. reflexivity. Qed.

(** weave/src/zdd2/forest/node/mod.rs, zdd_nodes_reorder_when_empty_set_is_allowed, L320 *)
Example weave_zdd2_forest_node_mod_tests_zdd_nodes_reorder_when_empty_set_is_allowed : (
  let v_initial := (Node_branch (Priority 1) Node_Always (Node_branch (Priority 0) Node_Never Node_Always)) in
  let v_expected := (Node_branch (Priority 0) Node_Always (Node_branch (Priority 1) Node_Never Node_Always)) in
  teq v_expected v_initial &&
  true) = true.
Proof. vm_compute. reflexivity. Qed.

(** weave/src/zdd2/forest/node/mod.rs, zdd_nodes_dedup_when_low_has_same_priority, L340 *)
Example weave_zdd2_forest_node_mod_tests_zdd_nodes_dedup_when_low_has_same_priority : (
  let v_initial := (Node_branch (Priority 1) (Node_branch (Priority 1) Node_Never Node_Always) (Node_branch (Priority 2) Node_Never Node_Always)) in
  let v_expected := (Node_branch (Priority 1) Node_Never (Node_branch (Priority 2) Node_Never Node_Always)) in
  teq v_expected v_initial &&
  true) = true.
Proof. vm_compute. reflexivity. Qed.

(** weave/src/zdd2/forest/node/mod.rs, zdd_nodes_dedup_when_high_has_same_priority, L360 *)
Example weave_zdd2_forest_node_mod_tests_zdd_nodes_dedup_when_high_has_same_priority : (
  let v_initial := (Node_branch (Priority 1) Node_Never (Node_branch (Priority 1) Node_Never (Node_branch (Priority 2) Node_Never Node_Always))) in
  let v_expected := (Node_branch (Priority 1) Node_Never (Node_branch (Priority 2) Node_Never Node_Always)) in
  teq v_expected v_initial &&
  true) = true.
Proof. vm_compute. reflexivity. Qed.

(** weave/src/zdd2/forest/node/macros.rs, leaves, L27 *)
Example weave_zdd2_forest_node_macros_tests_leaves : (
  (let v_node := Node_Always in
  teq Node_Always v_node &&
  true) &&
  (let v_node := Node_Never in
  teq Node_Never v_node &&
  true) &&
  true) = true.
Proof. vm_compute. reflexivity. Qed.

(** weave/src/zdd2/forest/node/macros.rs, branches, L47 *)
Example weave_zdd2_forest_node_macros_tests_branches : (
  (let v_node := (Node_branch (Priority 0) Node_Always Node_Always) in
  teq (Node_Branch (Priority 0) Node_ALWAYS Node_ALWAYS) v_node &&
  true) &&
  (let v_node := (Node_branch (Priority 0) Node_Always Node_Never) in
  teq Node_Always v_node &&
  true) &&
  (let v_node := (Node_branch (Priority 0) Node_Never Node_Never) in
  teq Node_Never v_node &&
  true) &&
  (let v_node := (Node_branch (Priority 0) Node_Never Node_Always) in
  teq (Node_Branch (Priority 0) Node_NEVER Node_ALWAYS) v_node &&
  true) &&
  true) = true.
Proof. vm_compute. reflexivity. Qed.

(** weave/src/zdd2/forest/node/macros.rs, nested_branches, L96 *)
Example weave_zdd2_forest_node_macros_tests_nested_branches : (
  let v_node := (Node_branch (Priority 1) Node_Never (Node_branch (Priority 2) Node_Never Node_Always)) in
  let v_expected := (let v_high := (Node_Branch (Priority 2) Node_NEVER Node_ALWAYS) in
  (Node_Branch (Priority 1) Node_NEVER (m_into v_high))) in
  teq v_expected v_node &&
  true) = true.
Proof. vm_compute. reflexivity. Qed.

(** weave/src/zdd2/forest/node/parser.rs, parse_leafs, L60 *)
Example weave_zdd2_forest_node_parser_tests_parse_leafs : (
  teq Node_Always (m_unwrap (parse_node_string "(A)"%string)) &&
  teq Node_Never (m_unwrap (parse_node_string "(N)"%string)) &&
  true) = true.
Proof. vm_compute. reflexivity. Qed.

(** weave/src/zdd2/forest/node/parser.rs, parse_branch_no_whitespace, L71 *)
Example weave_zdd2_forest_node_parser_tests_parse_branch_no_whitespace : (
  teq (Node_branch (Priority 0) Node_Always Node_Never) (m_unwrap (parse_node_string "(0(A)(N))"%string)) &&
  teq (Node_branch (Priority 0) Node_Never Node_Always) (m_unwrap (parse_node_string "(0(N)(A))"%string)) &&
  true) = true.
Proof. vm_compute. reflexivity. Qed.

(** weave/src/zdd2/forest/node/parser.rs, parse_branch_with_whitespace, L82 *)
Example weave_zdd2_forest_node_parser_tests_parse_branch_with_whitespace : (
  teq (Node_branch (Priority 0) Node_Never Node_Always) (m_unwrap (parse_node_string " (  0 (N)   
             (A) 	 )"%string)) &&
  true) = true.
Proof. vm_compute. reflexivity. Qed.

(** weave/src/zdd2/forest/node/parser.rs, parse_branches_recursively, L89 *)
Example weave_zdd2_forest_node_parser_tests_parse_branches_recursively : (
  teq (Node_branch (Priority 0) Node_Always (Node_branch (Priority 1) Node_Never Node_Always)) (m_unwrap (parse_node_string "(0 (A)(1 (N)(A)))"%string)) &&
  teq (Node_branch (Priority 0) (Node_branch (Priority 1) Node_Never Node_Always) Node_Always) (m_unwrap (parse_node_string "(0 (1 (N) (A)) (A))"%string)) &&
  true) = true.
Proof. vm_compute. reflexivity. Qed.

(** weave/src/zdd2/forest/node/serialize.rs, tokenize_leaves, L71 *)
Example weave_zdd2_forest_node_serialize_tests_tokenize_leaves : (
  (let v_node := Node_Always in
  assert_tokens v_node [(Token_NewtypeStruct "Node"%string); (Token_Str "(A)"%string)] &&
  true) &&
  (let v_node := Node_Never in
  assert_tokens v_node [(Token_NewtypeStruct "Node"%string); (Token_Str "(N)"%string)] &&
  true) &&
  true) = true.
Proof. vm_compute. reflexivity. Qed.

(** weave/src/zdd2/forest/node/serialize.rs, tokenize_branch, L92 *)
Example weave_zdd2_forest_node_serialize_tests_tokenize_branch : (
  let v_node := (Node_branch (Priority 1) Node_Never Node_Always) in
  assert_tokens v_node [(Token_NewtypeStruct "Node"%string); (Token_Str "(1 (N) (A))"%string)] &&
  true) = true.
Proof. vm_compute. reflexivity. Qed.

(** weave/src/zdd2/forest/node/serialize.rs, tokenize_nested_branches, L102 *)
Example weave_zdd2_forest_node_serialize_tests_tokenize_nested_branches : (
  let v_node := (Node_branch (Priority 1) Node_Always (Node_branch (Priority 2) Node_Never Node_Always)) in
  assert_tokens v_node [(Token_NewtypeStruct "Node"%string); (Token_Str "(1 (A) (2 (N) (A)))"%string)] &&
  true) = true.
Proof. vm_compute. reflexivity. Qed.

(** weave/src/zdd2/forest/node/arena.rs, get_has_always_node_saved, L55 *)
Example weave_zdd2_forest_node_arena_tests_get_has_always_node_saved : (
  let v_arena := NodeArena_new in
  let v_always_node := (m_expect (m_get_by_id v_arena Node_ALWAYS)) in
  teq Node_Always v_always_node &&
  true) = true.
Proof. vm_compute. reflexivity. Qed.

(** weave/src/zdd2/forest/node/arena.rs, get_has_never_node_saved, L67 *)
Example weave_zdd2_forest_node_arena_tests_get_has_never_node_saved : (
  let v_arena := NodeArena_new in
  let v_never_node := (m_expect (m_get_by_id v_arena Node_NEVER)) in
  teq Node_Never v_never_node &&
  true) = true.
Proof. vm_compute. reflexivity. Qed.

(** weave/src/zdd2/forest/node/arena.rs, add_returns_unique_node_id_for_different_nodes, L79 *)
Example weave_zdd2_forest_node_arena_tests_add_returns_unique_node_id_for_different_nodes : (
  let v_node1 := (Node_branch (Priority 1) Node_NEVER Node_ALWAYS) in
  let v_node2 := (Node_branch (Priority 2) Node_ALWAYS Node_NEVER) in
  let v_arena := NodeArena_new in
  let '(v_node1_id, v_arena) := (m_add v_arena v_node1) in
  let '(v_node2_id, v_arena) := (m_add v_arena v_node2) in
  teq v_node1 (m_expect (m_get_by_id v_arena v_node1_id)) &&
  teq v_node2 (m_expect (m_get_by_id v_arena v_node2_id)) &&
  true) = true.
Proof. vm_compute. reflexivity. Qed.

(** weave/src/zdd2/forest/node/arena.rs, add_returns_same_node_id_for_same_nodes, L99 *)
Example weave_zdd2_forest_node_arena_tests_add_returns_same_node_id_for_same_nodes : (
  let v_node1 := (Node_branch (Priority 1) Node_NEVER Node_ALWAYS) in
  let v_arena := NodeArena_new in
  let '(v_node1_id, v_arena) := (m_add v_arena v_node1) in
  let '(v_node2_id, v_arena) := (m_add v_arena v_node1) in
  teq v_node1_id v_node2_id &&
  true) = true.
Proof. vm_compute. reflexivity. Qed.

(** weave/src/zdd2/forest/universe/mod.rs, from_matrix, L130 *)
Example weave_zdd2_forest_universe_mod_tests_from_matrix : (
  let v_matrix := [["1"%string; "4"%string; "7"%string]; ["1"%string; "4"%string; "8"%string]; ["1"%string; "4"%string; "9"%string]; ["1"%string; "5"%string; "7"%string]; ["1"%string; "5"%string; "8"%string]; ["1"%string; "5"%string; "9"%string]; ["1"%string; "6"%string; "7"%string]; ["1"%string; "6"%string; "8"%string]; ["1"%string; "6"%string; "9"%string]; ["2"%string; "4"%string; "7"%string]; ["2"%string; "4"%string; "8"%string]; ["2"%string; "4"%string; "9"%string]; ["2"%string; "5"%string; "7"%string]; ["2"%string; "5"%string; "8"%string]; ["2"%string; "5"%string; "9"%string]; ["3"%string; "4"%string; "7"%string]; ["3"%string; "4"%string; "8"%string]; ["3"%string; "4"%string; "9"%string]] in
  let v_universe := (Universe_from_matrix v_matrix) in
  let v_occurrences := (hashmap [("1"%string, 9); ("4"%string, 9); ("2"%string, 6); ("5"%string, 6); ("7"%string, 6); ("8"%string, 6); ("9"%string, 6); ("6"%string, 3); ("3"%string, 3)]) in
  teq v_occurrences (fld_occurrences v_universe) &&
  let v_priority := (hashmap [("1"%string, (Priority 0)); ("4"%string, (Priority 1)); ("2"%string, (Priority 2)); ("5"%string, (Priority 3)); ("7"%string, (Priority 4)); ("8"%string, (Priority 5)); ("9"%string, (Priority 6)); ("3"%string, (Priority 7)); ("6"%string, (Priority 8))]) in
  teq v_priority (fld_priority v_universe) &&
  let v_index := ["1"%string; "4"%string; "2"%string; "5"%string; "7"%string; "8"%string; "9"%string; "3"%string; "6"%string] in
  teq v_index (fld_index v_universe) &&
  true) = true.
Proof. vm_compute. reflexivity. Qed.

(** weave/src/zdd2/forest/universe/mod.rs, from_matrix_does_not_duplicate_occurances, L194 *)
Example weave_zdd2_forest_universe_mod_tests_from_matrix_does_not_duplicate_occurances : (
  let v_matrix := [["1"%string; "4"%string]; ["1"%string; "4"%string]; ["2"%string; "5"%string]] in
  let v_universe := (Universe_from_matrix v_matrix) in
  let v_occurrences := (hashmap [("1"%string, 1); ("4"%string, 1); ("2"%string, 1); ("5"%string, 1)]) in
  teq v_occurrences (fld_occurrences v_universe) &&
  let v_priority := (hashmap [("1"%string, (Priority 0)); ("2"%string, (Priority 1)); ("4"%string, (Priority 2)); ("5"%string, (Priority 3))]) in
  teq v_priority (fld_priority v_universe) &&
  let v_index := ["1"%string; "2"%string; "4"%string; "5"%string] in
  teq v_index (fld_index v_universe) &&
  true) = true.
Proof. vm_compute. reflexivity. Qed.

(** weave/src/zdd2/forest/universe/mod.rs, from_items, L228 *)
Example weave_zdd2_forest_universe_mod_tests_from_items : (
  let v_items := ["1"%string; "2"%string; "3"%string; "2"%string] in
  let v_universe := (Universe_from_items v_items) in
  let v_occurrences := (hashmap [("1"%string, 1); ("2"%string, 1); ("3"%string, 1)]) in
  teq v_occurrences (fld_occurrences v_universe) &&
  let v_priority := (hashmap [("1"%string, (Priority 0)); ("2"%string, (Priority 1)); ("3"%string, (Priority 2))]) in
  teq v_priority (fld_priority v_universe) &&
  let v_index := ["1"%string; "2"%string; "3"%string] in
  teq v_index (fld_index v_universe) &&
  true) = true.
Proof. vm_compute. reflexivity. Qed.

(** weave/src/zdd2/forest/universe/mod.rs, get_item_is_consistent, L256 *)
Example weave_zdd2_forest_universe_mod_tests_get_item_is_consistent : (
  let v_matrix := [["1"%string; "4"%string; "7"%string]; ["1"%string; "4"%string; "8"%string]; ["1"%string; "5"%string; "8"%string]] in
  let v_universe := (Universe_from_matrix v_matrix) in
  (let v_priority := (m_unwrap (m_get_priority v_universe "1"%string)) in
  teq (Priority 0) v_priority &&
  let v_item := (m_unwrap (m_get_item v_universe v_priority)) in
  teq "1"%string v_item &&
  true) &&
  (let v_priority := (m_unwrap (m_get_priority v_universe "4"%string)) in
  teq (Priority 1) v_priority &&
  let v_item := (m_unwrap (m_get_item v_universe v_priority)) in
  teq "4"%string v_item &&
  true) &&
  (let v_priority := (m_unwrap (m_get_priority v_universe "7"%string)) in
  teq (Priority 4) v_priority &&
  let v_item := (m_unwrap (m_get_item v_universe v_priority)) in
  teq "7"%string v_item &&
  true) &&
  true) = true.
Proof. vm_compute. reflexivity. Qed.

(** weave/src/zdd2/forest/universe/mod.rs, merge, L289 *)
Example weave_zdd2_forest_universe_mod_tests_merge : (
  let v_matrix1 := [["1"%string; "4"%string; "7"%string]] in
  let v_universe1 := (Universe_from_matrix v_matrix1) in
  let v_matrix2 := [["1"%string; "4"%string; "8"%string]; ["1"%string; "5"%string; "8"%string]] in
  let v_universe2 := (Universe_from_matrix v_matrix2) in
  let v_expected_matrix := [["1"%string; "4"%string; "7"%string]; ["1"%string; "4"%string; "8"%string]; ["1"%string; "5"%string; "8"%string]] in
  let v_expected_universe := (Universe_from_matrix v_expected_matrix) in
  teq v_expected_universe (Universe_merge v_universe1 v_universe2) &&
  true) = true.
Proof. vm_compute. reflexivity. Qed.

(** weave/src/zdd2/forest/universe/serialize.rs, tokenize_empty, L48 *)
Example weave_zdd2_forest_universe_serialize_tests_tokenize_empty : (
  let v_universe := Universe_default in
  assert_tokens v_universe [(Token_NewtypeStruct "Universe"%string); (Token_Map (Some 0)); Token_MapEnd] &&
  true) = true.
Proof. vm_compute. reflexivity. Qed.

(** weave/src/zdd2/forest/universe/serialize.rs, tokenize_from_items, L60 *)
Example weave_zdd2_forest_universe_serialize_tests_tokenize_from_items : (
  let v_universe := (Universe_from_items ["11"%string; "22"%string; "33"%string]) in
  assert_tokens v_universe [(Token_NewtypeStruct "Universe"%string); (Token_Map (Some 3)); (Token_BorrowedStr "11"%string); (Token_U64 1); (Token_BorrowedStr "22"%string); (Token_U64 1); (Token_BorrowedStr "33"%string); (Token_U64 1); Token_MapEnd] &&
  true) = true.
Proof. vm_compute. reflexivity. Qed.

(** weave/src/zdd2/forest/universe/serialize.rs, tokenize_from_matrix, L78 *)
Example weave_zdd2_forest_universe_serialize_tests_tokenize_from_matrix : (
  let v_universe := (Universe_from_matrix [["11"%string; "22"%string; "33"%string]; ["11"%string; "22"%string]; ["22"%string; "33"%string]; ["11"%string; "33"%string]; ["11"%string]]) in
  assert_tokens v_universe [(Token_NewtypeStruct "Universe"%string); (Token_Map (Some 3)); (Token_BorrowedStr "11"%string); (Token_U64 4); (Token_BorrowedStr "22"%string); (Token_U64 3); (Token_BorrowedStr "33"%string); (Token_U64 3); Token_MapEnd] &&
  true) = true.
Proof. vm_compute. reflexivity. Qed.

(** weave/tests/zdd.rs, empty, L27 *)
Example weave_tests_zdd_serde_tests_empty : (
  let v_forest := Forest_empty in
  assert_tokens v_forest [(Token_Struct "Forest"%string 2); (Token_Str "root"%string); (Token_NewtypeStruct "Node"%string); (Token_Str "(N)"%string); (Token_Str "universe"%string); (Token_NewtypeStruct "Universe"%string); (Token_Map (Some 0)); Token_MapEnd; Token_StructEnd] &&
  true) = true.
Proof. vm_compute. reflexivity. Qed.

(** weave/tests/zdd.rs, unit, L48 *)
Example weave_tests_zdd_serde_tests_unit : (
  let v_forest := (Forest_unit ["1"%string; "2"%string]) in
  assert_tokens v_forest [(Token_Struct "Forest"%string 2); (Token_Str "root"%string); (Token_NewtypeStruct "Node"%string); (Token_Str "(0 (N) (1 (N) (A)))"%string); (Token_Str "universe"%string); (Token_NewtypeStruct "Universe"%string); (Token_Map (Some 2)); (Token_BorrowedStr "1"%string); (Token_U64 1); (Token_BorrowedStr "2"%string); (Token_U64 1); Token_MapEnd; Token_StructEnd] &&
  true) = true.
Proof. vm_compute. reflexivity. Qed.

(** weave/tests/zdd.rs, many, L73 *)
Example weave_tests_zdd_serde_tests_many : (
  let v_forest := (Forest_many [["1"%string; "2"%string]; ["2"%string; "3"%string]]) in
  assert_tokens v_forest [(Token_Struct "Forest"%string 2); (Token_Str "root"%string); (Token_NewtypeStruct "Node"%string); (Token_Str "(0 (N) (1 (2 (N) (A)) (A)))"%string); (Token_Str "universe"%string); (Token_NewtypeStruct "Universe"%string); (Token_Map (Some 3)); (Token_BorrowedStr "1"%string); (Token_U64 1); (Token_BorrowedStr "2"%string); (Token_U64 2); (Token_BorrowedStr "3"%string); (Token_U64 1); Token_MapEnd; Token_StructEnd] &&
  true) = true.
Proof. vm_compute. reflexivity. Qed.

(** weave/tests/forest/intersect.rs, both_forests_are_empty, L5, run as in weave/tests/forest/mod.rs for weave::zdd2::Forest *)
Example tests_forest_intersect_both_forests_are_empty : (
  let '(forest1, forest2, expected) := (let v_forest1 := F_empty in
  let v_forest2 := F_empty in
  let v_expected := F_empty in
  (v_forest1, v_forest2, v_expected)) in
  teq expected (Forest_intersect forest1 forest2) &&
  teq expected (Forest_intersect forest2 forest1)) = true.
Proof. vm_compute. reflexivity. Qed.

(** weave/tests/forest/intersect.rs, left_is_empty_right_is_unit, L14, run as in weave/tests/forest/mod.rs for weave::zdd2::Forest *)
Example tests_forest_intersect_left_is_empty_right_is_unit : (
  let '(forest1, forest2, expected) := (let v_forest1 := F_empty in
  let v_forest2 := (F_unit ["1"%string; "2"%string]) in
  let v_expected := F_empty in
  (v_forest1, v_forest2, v_expected)) in
  teq expected (Forest_intersect forest1 forest2) &&
  teq expected (Forest_intersect forest2 forest1)) = true.
Proof. vm_compute. reflexivity. Qed.

(** weave/tests/forest/intersect.rs, left_is_empty_right_is_many, L23, run as in weave/tests/forest/mod.rs for weave::zdd2::Forest *)
Example tests_forest_intersect_left_is_empty_right_is_many : (
  let '(forest1, forest2, expected) := (let v_forest1 := F_empty in
  let v_forest2 := (F_many [["1"%string; "2"%string]; ["2"%string; "3"%string]]) in
  let v_expected := F_empty in
  (v_forest1, v_forest2, v_expected)) in
  teq expected (Forest_intersect forest1 forest2) &&
  teq expected (Forest_intersect forest2 forest1)) = true.
Proof. vm_compute. reflexivity. Qed.

(** weave/tests/forest/intersect.rs, left_is_unit_right_is_empty, L35, run as in weave/tests/forest/mod.rs for weave::zdd2::Forest *)
Example tests_forest_intersect_left_is_unit_right_is_empty : (
  let '(forest1, forest2, expected) := (let v_forest1 := (F_unit ["1"%string; "2"%string]) in
  let v_forest2 := F_empty in
  let v_expected := F_empty in
  (v_forest1, v_forest2, v_expected)) in
  teq expected (Forest_intersect forest1 forest2) &&
  teq expected (Forest_intersect forest2 forest1)) = true.
Proof. vm_compute. reflexivity. Qed.

(** weave/tests/forest/intersect.rs, forests_are_equal_unit, L44, run as in weave/tests/forest/mod.rs for weave::zdd2::Forest *)
Example tests_forest_intersect_forests_are_equal_unit : (
  let '(forest1, forest2, expected) := (let v_forest1 := (F_unit ["1"%string; "2"%string]) in
  let v_forest2 := (F_unit ["1"%string; "2"%string]) in
  let v_expected := (F_unit ["1"%string; "2"%string]) in
  (v_forest1, v_forest2, v_expected)) in
  teq expected (Forest_intersect forest1 forest2) &&
  teq expected (Forest_intersect forest2 forest1)) = true.
Proof. vm_compute. reflexivity. Qed.

(** weave/tests/forest/intersect.rs, forests_are_disjoint_units, L53, run as in weave/tests/forest/mod.rs for weave::zdd2::Forest *)
Example tests_forest_intersect_forests_are_disjoint_units : (
  let '(forest1, forest2, expected) := (let v_forest1 := (F_unit ["1"%string; "2"%string]) in
  let v_forest2 := (F_unit ["2"%string; "3"%string]) in
  let v_expected := F_empty in
  (v_forest1, v_forest2, v_expected)) in
  teq expected (Forest_intersect forest1 forest2) &&
  teq expected (Forest_intersect forest2 forest1)) = true.
Proof. vm_compute. reflexivity. Qed.

(** weave/tests/forest/intersect.rs, left_is_unit_right_is_many, L62, run as in weave/tests/forest/mod.rs for weave::zdd2::Forest *)
Example tests_forest_intersect_left_is_unit_right_is_many : (
  let '(forest1, forest2, expected) := (let v_forest1 := (F_unit ["1"%string; "2"%string]) in
  let v_forest2 := (F_many [["1"%string; "2"%string]; ["2"%string; "3"%string]]) in
  let v_expected := (F_unit ["1"%string; "2"%string]) in
  (v_forest1, v_forest2, v_expected)) in
  teq expected (Forest_intersect forest1 forest2) &&
  teq expected (Forest_intersect forest2 forest1)) = true.
Proof. vm_compute. reflexivity. Qed.

(** weave/tests/forest/intersect.rs, forests_are_equal_many, L74, run as in weave/tests/forest/mod.rs for weave::zdd2::Forest *)
Example tests_forest_intersect_forests_are_equal_many : (
  let '(forest1, forest2, expected) := (let v_forest1 := (F_many [["1"%string; "2"%string]; ["2"%string; "3"%string]]) in
  let v_forest2 := (F_many [["1"%string; "2"%string]; ["2"%string; "3"%string]]) in
  let v_expected := (F_many [["1"%string; "2"%string]; ["2"%string; "3"%string]]) in
  (v_forest1, v_forest2, v_expected)) in
  teq expected (Forest_intersect forest1 forest2) &&
  teq expected (Forest_intersect forest2 forest1)) = true.
Proof. vm_compute. reflexivity. Qed.

(** weave/tests/forest/intersect.rs, forests_are_disjoint_many, L92, run as in weave/tests/forest/mod.rs for weave::zdd2::Forest *)
Example tests_forest_intersect_forests_are_disjoint_many : (
  let '(forest1, forest2, expected) := (let v_forest1 := (F_many [["1"%string; "2"%string]; ["2"%string; "3"%string]]) in
  let v_forest2 := (F_many [["1"%string; "3"%string]; ["2"%string; "4"%string]]) in
  let v_expected := F_empty in
  (v_forest1, v_forest2, v_expected)) in
  teq expected (Forest_intersect forest1 forest2) &&
  teq expected (Forest_intersect forest2 forest1)) = true.
Proof. vm_compute. reflexivity. Qed.

(** weave/tests/forest/intersect.rs, forests_are_have_single_commonality, L107, run as in weave/tests/forest/mod.rs for weave::zdd2::Forest *)
Example tests_forest_intersect_forests_are_have_single_commonality : (
  let '(forest1, forest2, expected) := (let v_forest1 := (F_many [["1"%string; "2"%string]; ["2"%string; "3"%string]]) in
  let v_forest2 := (F_many [["2"%string; "3"%string]; ["3"%string; "4"%string]; ["4"%string; "5"%string]]) in
  let v_expected := (F_unit ["2"%string; "3"%string]) in
  (v_forest1, v_forest2, v_expected)) in
  teq expected (Forest_intersect forest1 forest2) &&
  teq expected (Forest_intersect forest2 forest1)) = true.
Proof. vm_compute. reflexivity. Qed.

(** weave/tests/forest/intersect.rs, forests_are_have_multiple_commonality, L123, run as in weave/tests/forest/mod.rs for weave::zdd2::Forest *)
Example tests_forest_intersect_forests_are_have_multiple_commonality : (
  let '(forest1, forest2, expected) := (let v_forest1 := (F_many [["1"%string; "2"%string]; ["2"%string; "3"%string]; ["3"%string; "4"%string]]) in
  let v_forest2 := (F_many [["2"%string; "3"%string]; ["3"%string; "4"%string]; ["4"%string; "5"%string]]) in
  let v_expected := (F_many [["2"%string; "3"%string]; ["3"%string; "4"%string]]) in
  (v_forest1, v_forest2, v_expected)) in
  teq expected (Forest_intersect forest1 forest2) &&
  teq expected (Forest_intersect forest2 forest1)) = true.
Proof. vm_compute. reflexivity. Qed.

(** weave/tests/forest/union.rs, both_forests_are_empty, L5, run as in weave/tests/forest/mod.rs for weave::zdd2::Forest *)
Example tests_forest_union_both_forests_are_empty : (
  let '(forest1, forest2, expected) := (let v_forest1 := F_empty in
  let v_forest2 := F_empty in
  let v_expected := F_empty in
  (v_forest1, v_forest2, v_expected)) in
  teq expected (Forest_union forest1 forest2) &&
  teq expected (Forest_union forest2 forest1)) = true.
Proof. vm_compute. reflexivity. Qed.

(** weave/tests/forest/union.rs, left_is_empty_right_is_unit, L14, run as in weave/tests/forest/mod.rs for weave::zdd2::Forest *)
Example tests_forest_union_left_is_empty_right_is_unit : (
  let '(forest1, forest2, expected) := (let v_forest1 := F_empty in
  let v_forest2 := (F_unit ["1"%string; "2"%string]) in
  let v_expected := (F_unit ["1"%string; "2"%string]) in
  (v_forest1, v_forest2, v_expected)) in
  teq expected (Forest_union forest1 forest2) &&
  teq expected (Forest_union forest2 forest1)) = true.
Proof. vm_compute. reflexivity. Qed.

(** weave/tests/forest/union.rs, left_is_empty_right_is_many, L23, run as in weave/tests/forest/mod.rs for weave::zdd2::Forest *)
Example tests_forest_union_left_is_empty_right_is_many : (
  let '(forest1, forest2, expected) := (let v_forest1 := F_empty in
  let v_forest2 := (F_many [["1"%string; "2"%string]; ["2"%string; "3"%string]]) in
  let v_expected := (F_many [["1"%string; "2"%string]; ["2"%string; "3"%string]]) in
  (v_forest1, v_forest2, v_expected)) in
  teq expected (Forest_union forest1 forest2) &&
  teq expected (Forest_union forest2 forest1)) = true.
Proof. vm_compute. reflexivity. Qed.

(** weave/tests/forest/union.rs, forests_are_equal_unit, L38, run as in weave/tests/forest/mod.rs for weave::zdd2::Forest *)
Example tests_forest_union_forests_are_equal_unit : (
  let '(forest1, forest2, expected) := (let v_forest1 := (F_unit ["1"%string; "2"%string]) in
  let v_forest2 := (F_unit ["1"%string; "2"%string]) in
  let v_expected := (F_unit ["1"%string; "2"%string]) in
  (v_forest1, v_forest2, v_expected)) in
  teq expected (Forest_union forest1 forest2) &&
  teq expected (Forest_union forest2 forest1)) = true.
Proof. vm_compute. reflexivity. Qed.

(** weave/tests/forest/union.rs, forests_are_disjoint_units, L47, run as in weave/tests/forest/mod.rs for weave::zdd2::Forest *)
Example tests_forest_union_forests_are_disjoint_units : (
  let '(forest1, forest2, expected) := (let v_forest1 := (F_unit ["1"%string; "2"%string]) in
  let v_forest2 := (F_unit ["2"%string; "3"%string]) in
  let v_expected := (F_many [["1"%string; "2"%string]; ["2"%string; "3"%string]]) in
  (v_forest1, v_forest2, v_expected)) in
  teq expected (Forest_union forest1 forest2) &&
  teq expected (Forest_union forest2 forest1)) = true.
Proof. vm_compute. reflexivity. Qed.

(** weave/tests/forest/union.rs, left_is_unit_right_is_many, L59, run as in weave/tests/forest/mod.rs for weave::zdd2::Forest *)
Example tests_forest_union_left_is_unit_right_is_many : (
  let '(forest1, forest2, expected) := (let v_forest1 := (F_unit ["3"%string; "4"%string]) in
  let v_forest2 := (F_many [["1"%string; "2"%string]; ["2"%string; "3"%string]]) in
  let v_expected := (F_many [["1"%string; "2"%string]; ["2"%string; "3"%string]; ["3"%string; "4"%string]]) in
  (v_forest1, v_forest2, v_expected)) in
  teq expected (Forest_union forest1 forest2) &&
  teq expected (Forest_union forest2 forest1)) = true.
Proof. vm_compute. reflexivity. Qed.

(** weave/tests/forest/union.rs, forests_are_equal_many, L75, run as in weave/tests/forest/mod.rs for weave::zdd2::Forest *)
Example tests_forest_union_forests_are_equal_many : (
  let '(forest1, forest2, expected) := (let v_forest1 := (F_many [["1"%string; "2"%string]; ["2"%string; "3"%string]]) in
  let v_forest2 := (F_many [["1"%string; "2"%string]; ["2"%string; "3"%string]]) in
  let v_expected := (F_many [["1"%string; "2"%string]; ["2"%string; "3"%string]]) in
  (v_forest1, v_forest2, v_expected)) in
  teq expected (Forest_union forest1 forest2) &&
  teq expected (Forest_union forest2 forest1)) = true.
Proof. vm_compute. reflexivity. Qed.

(** weave/tests/forest/union.rs, forests_are_disjoint_many, L93, run as in weave/tests/forest/mod.rs for weave::zdd2::Forest *)
Example tests_forest_union_forests_are_disjoint_many : (
  let '(forest1, forest2, expected) := (let v_forest1 := (F_many [["1"%string; "2"%string]; ["2"%string; "3"%string]]) in
  let v_forest2 := (F_many [["1"%string; "3"%string]; ["2"%string; "4"%string]]) in
  let v_expected := (F_many [["1"%string; "2"%string]; ["1"%string; "3"%string]; ["2"%string; "3"%string]; ["2"%string; "4"%string]]) in
  (v_forest1, v_forest2, v_expected)) in
  teq expected (Forest_union forest1 forest2) &&
  teq expected (Forest_union forest2 forest1)) = true.
Proof. vm_compute. reflexivity. Qed.

(** weave/tests/forest/union.rs, forests_are_have_commonality, L113, run as in weave/tests/forest/mod.rs for weave::zdd2::Forest *)
Example tests_forest_union_forests_are_have_commonality : (
  let '(forest1, forest2, expected) := (let v_forest1 := (F_many [["1"%string; "2"%string]; ["2"%string; "3"%string]; ["3"%string; "4"%string]]) in
  let v_forest2 := (F_many [["2"%string; "3"%string]; ["3"%string; "4"%string]; ["4"%string; "5"%string]]) in
  let v_expected := (F_many [["1"%string; "2"%string]; ["2"%string; "3"%string]; ["3"%string; "4"%string]; ["4"%string; "5"%string]]) in
  (v_forest1, v_forest2, v_expected)) in
  teq expected (Forest_union forest1 forest2) &&
  teq expected (Forest_union forest2 forest1)) = true.
Proof. vm_compute. reflexivity. Qed.

(** weave/tests/forest/union.rs, left_is_unit_right_is_many_overlapping, L135, run as in weave/tests/forest/mod.rs for weave::zdd2::Forest *)
Example tests_forest_union_left_is_unit_right_is_many_overlapping : (
  let '(forest1, forest2, expected) := (let v_forest1 := (F_unit ["1"%string; "2"%string]) in
  let v_forest2 := (F_many [["1"%string; "2"%string]; ["2"%string; "3"%string]]) in
  let v_expected := (F_many [["1"%string; "2"%string]; ["2"%string; "3"%string]]) in
  (v_forest1, v_forest2, v_expected)) in
  teq expected (Forest_union forest1 forest2) &&
  teq expected (Forest_union forest2 forest1)) = true.
Proof. vm_compute. reflexivity. Qed.

(** weave/tests/forest/product.rs, left_is_empty_right_is_unit, L5, run as in weave/tests/forest/mod.rs for weave::zdd2::Forest *)
Example tests_forest_product_left_is_empty_right_is_unit : (
  let '(forest1, forest2, expected) := (let v_forest1 := (F_unit ["1"%string; "2"%string]) in
  let v_forest2 := F_empty in
  let v_expected := F_empty in
  (v_forest1, v_forest2, v_expected)) in
  teq expected (Forest_product forest1 forest2) &&
  teq expected (Forest_product forest2 forest1)) = true.
Proof. vm_compute. reflexivity. Qed.

(** weave/tests/forest/product.rs, overlapping_unit_forests, L14, run as in weave/tests/forest/mod.rs for weave::zdd2::Forest *)
Example tests_forest_product_overlapping_unit_forests : (
  let '(forest1, forest2, expected) := (let v_forest1 := (F_unit ["1"%string; "2"%string]) in
  let v_forest2 := (F_unit ["1"%string]) in
  let v_expected := (F_many [["1"%string; "2"%string]]) in
  (v_forest1, v_forest2, v_expected)) in
  teq expected (Forest_product forest1 forest2) &&
  teq expected (Forest_product forest2 forest1)) = true.
Proof. vm_compute. reflexivity. Qed.

(** weave/tests/forest/product.rs, overlapping_many_forest_and_double_unit_forest, L25, run as in weave/tests/forest/mod.rs for weave::zdd2::Forest *)
Example tests_forest_product_overlapping_many_forest_and_double_unit_forest : (
  let '(forest1, forest2, expected) := (let v_forest1 := (F_many [["1"%string; "2"%string]; ["2"%string; "3"%string]]) in
  let v_forest2 := (F_unit ["3"%string; "4"%string]) in
  let v_expected := (F_many [["1"%string; "2"%string; "3"%string; "4"%string]; ["2"%string; "3"%string; "4"%string]]) in
  (v_forest1, v_forest2, v_expected)) in
  teq expected (Forest_product forest1 forest2) &&
  teq expected (Forest_product forest2 forest1)) = true.
Proof. vm_compute. reflexivity. Qed.

(** weave/tests/forest/product.rs, overlapping_many_forest_and_unique_forest, L40, run as in weave/tests/forest/mod.rs for weave::zdd2::Forest *)
Example tests_forest_product_overlapping_many_forest_and_unique_forest : (
  let '(forest1, forest2, expected) := (let v_forest1 := (F_many [["1"%string; "2"%string]; ["2"%string; "3"%string]]) in
  let v_forest2 := (F_unique ["3"%string; "4"%string]) in
  let v_expected := (F_many [["1"%string; "2"%string; "3"%string]; ["1"%string; "2"%string; "4"%string]; ["2"%string; "3"%string]; ["2"%string; "3"%string; "4"%string]]) in
  (v_forest1, v_forest2, v_expected)) in
  teq expected (Forest_product forest1 forest2) &&
  teq expected (Forest_product forest2 forest1)) = true.
Proof. vm_compute. reflexivity. Qed.

(** weave/tests/forest/product.rs, disjoint_unit_forest_and_single_unit_forest, L57, run as in weave/tests/forest/mod.rs for weave::zdd2::Forest *)
Example tests_forest_product_disjoint_unit_forest_and_single_unit_forest : (
  let '(forest1, forest2, expected) := (let v_forest1 := (F_unit ["1"%string; "2"%string]) in
  let v_forest2 := (F_unit ["3"%string]) in
  let v_expected := (F_many [["1"%string; "2"%string; "3"%string]]) in
  (v_forest1, v_forest2, v_expected)) in
  teq expected (Forest_product forest1 forest2) &&
  teq expected (Forest_product forest2 forest1)) = true.
Proof. vm_compute. reflexivity. Qed.

(** weave/tests/forest/product.rs, disjoint_unit_forest_and_double_unit_forest, L68, run as in weave/tests/forest/mod.rs for weave::zdd2::Forest *)
Example tests_forest_product_disjoint_unit_forest_and_double_unit_forest : (
  let '(forest1, forest2, expected) := (let v_forest1 := (F_unit ["1"%string; "2"%string]) in
  let v_forest2 := (F_unit ["3"%string; "4"%string]) in
  let v_expected := (F_unit ["1"%string; "2"%string; "3"%string; "4"%string]) in
  (v_forest1, v_forest2, v_expected)) in
  teq expected (Forest_product forest1 forest2) &&
  teq expected (Forest_product forest2 forest1)) = true.
Proof. vm_compute. reflexivity. Qed.

(** weave/tests/forest/product.rs, disjoint_many_forest_and_single_unit_forest, L77, run as in weave/tests/forest/mod.rs for weave::zdd2::Forest *)
Example tests_forest_product_disjoint_many_forest_and_single_unit_forest : (
  let '(forest1, forest2, expected) := (let v_forest1 := (F_many [["1"%string; "2"%string]; ["2"%string; "3"%string]]) in
  let v_forest2 := (F_unit ["4"%string]) in
  let v_expected := (F_many [["1"%string; "2"%string; "4"%string]; ["2"%string; "3"%string; "4"%string]]) in
  (v_forest1, v_forest2, v_expected)) in
  teq expected (Forest_product forest1 forest2) &&
  teq expected (Forest_product forest2 forest1)) = true.
Proof. vm_compute. reflexivity. Qed.

(** weave/tests/forest/product.rs, disjoint_many_forest_and_unique_forest, L92, run as in weave/tests/forest/mod.rs for weave::zdd2::Forest *)
Example tests_forest_product_disjoint_many_forest_and_unique_forest : (
  let '(forest1, forest2, expected) := (let v_forest1 := (F_many [["1"%string; "2"%string]; ["5"%string; "6"%string]]) in
  let v_forest2 := (F_unique ["3"%string; "4"%string]) in
  let v_expected := (F_many [["1"%string; "2"%string; "3"%string]; ["1"%string; "2"%string; "4"%string]; ["5"%string; "6"%string; "3"%string]; ["5"%string; "6"%string; "4"%string]]) in
  (v_forest1, v_forest2, v_expected)) in
  teq expected (Forest_product forest1 forest2) &&
  teq expected (Forest_product forest2 forest1)) = true.
Proof. vm_compute. reflexivity. Qed.

(** weave/tests/forest/product.rs, disjoint_many_forest_and_double_unit_forest, L109, run as in weave/tests/forest/mod.rs for weave::zdd2::Forest *)
Example tests_forest_product_disjoint_many_forest_and_double_unit_forest : (
  let '(forest1, forest2, expected) := (let v_forest1 := (F_many [["1"%string; "2"%string]; ["5"%string; "6"%string]]) in
  let v_forest2 := (F_unit ["3"%string; "4"%string]) in
  let v_expected := (F_many [["1"%string; "2"%string; "3"%string; "4"%string]; ["5"%string; "6"%string; "3"%string; "4"%string]]) in
  (v_forest1, v_forest2, v_expected)) in
  teq expected (Forest_product forest1 forest2) &&
  teq expected (Forest_product forest2 forest1)) = true.
Proof. vm_compute. reflexivity. Qed.

(** weave/tests/forest/product.rs, disjoint_unique_forests, L124, run as in weave/tests/forest/mod.rs for weave::zdd2::Forest *)
Example tests_forest_product_disjoint_unique_forests : (
  let '(forest1, forest2, expected) := (let v_forest1 := (F_unique ["1"%string; "2"%string]) in
  let v_forest2 := (F_unique ["3"%string; "4"%string]) in
  let v_expected := (F_many [["1"%string; "3"%string]; ["1"%string; "4"%string]; ["2"%string; "3"%string]; ["2"%string; "4"%string]]) in
  (v_forest1, v_forest2, v_expected)) in
  teq expected (Forest_product forest1 forest2) &&
  teq expected (Forest_product forest2 forest1)) = true.
Proof. vm_compute. reflexivity. Qed.

(** weave/tests/forest/product.rs, forests_are_disjoint_many, L138, run as in weave/tests/forest/mod.rs for weave::zdd2::Forest *)
Example tests_forest_product_forests_are_disjoint_many : (
  let '(forest1, forest2, expected) := (let v_forest1 := (F_unique ["1"%string; "2"%string]) in
  let v_forest2 := (F_many [["3"%string; "4"%string]; ["7"%string; "8"%string]]) in
  let v_expected := (F_many [["1"%string; "3"%string; "4"%string]; ["1"%string; "7"%string; "8"%string]; ["2"%string; "3"%string; "4"%string]; ["2"%string; "7"%string; "8"%string]]) in
  (v_forest1, v_forest2, v_expected)) in
  teq expected (Forest_product forest1 forest2) &&
  teq expected (Forest_product forest2 forest1)) = true.
Proof. vm_compute. reflexivity. Qed.

(** weave/tests/forest/subset.rs, empty_forest, L5, run as in weave/tests/forest/mod.rs for weave::zdd2::Forest *)
Example tests_forest_subset_empty_forest : (
  let '(forest, element, expected) := (let v_forest := F_empty in
  let v_element := "1"%string in
  let v_expected := F_empty in
  (v_forest, v_element, v_expected)) in teq expected (Forest_subset forest element)) = true.
Proof. vm_compute. reflexivity. Qed.

(** weave/tests/forest/subset.rs, unit_forest_with_disjoint_element, L14, run as in weave/tests/forest/mod.rs for weave::zdd2::Forest *)
Example tests_forest_subset_unit_forest_with_disjoint_element : (
  let '(forest, element, expected) := (let v_forest := (F_unit ["2"%string; "3"%string]) in
  let v_element := "1"%string in
  let v_expected := F_empty in
  (v_forest, v_element, v_expected)) in teq expected (Forest_subset forest element)) = true.
Proof. vm_compute. reflexivity. Qed.

(** weave/tests/forest/subset.rs, many_forest_with_disjoint_element, L23, run as in weave/tests/forest/mod.rs for weave::zdd2::Forest *)
Example tests_forest_subset_many_forest_with_disjoint_element : (
  let '(forest, element, expected) := (let v_forest := (F_many [["1"%string; "3"%string]; ["2"%string; "3"%string]]) in
  let v_element := "4"%string in
  let v_expected := F_empty in
  (v_forest, v_element, v_expected)) in teq expected (Forest_subset forest element)) = true.
Proof. vm_compute. reflexivity. Qed.

(** weave/tests/forest/subset.rs, unit_forest_with_matching_element, L35, run as in weave/tests/forest/mod.rs for weave::zdd2::Forest *)
Example tests_forest_subset_unit_forest_with_matching_element : (
  let '(forest, element, expected) := (let v_forest := (F_unit ["1"%string; "3"%string]) in
  let v_element := "1"%string in
  let v_expected := (F_unit ["1"%string; "3"%string]) in
  (v_forest, v_element, v_expected)) in teq expected (Forest_subset forest element)) = true.
Proof. vm_compute. reflexivity. Qed.

(** weave/tests/forest/subset.rs, many_forest_with_matching_element_1, L44, run as in weave/tests/forest/mod.rs for weave::zdd2::Forest *)
Example tests_forest_subset_many_forest_with_matching_element_1 : (
  let '(forest, element, expected) := (let v_forest := (F_many [["1"%string; "3"%string]; ["2"%string; "3"%string]]) in
  let v_element := "1"%string in
  let v_expected := (F_unit ["1"%string; "3"%string]) in
  (v_forest, v_element, v_expected)) in teq expected (Forest_subset forest element)) = true.
Proof. vm_compute. reflexivity. Qed.

(** weave/tests/forest/subset.rs, many_forest_with_matching_element_2, L56, run as in weave/tests/forest/mod.rs for weave::zdd2::Forest *)
Example tests_forest_subset_many_forest_with_matching_element_2 : (
  let '(forest, element, expected) := (let v_forest := (F_many [["1"%string; "3"%string]; ["2"%string; "3"%string]]) in
  let v_element := "2"%string in
  let v_expected := (F_unit ["2"%string; "3"%string]) in
  (v_forest, v_element, v_expected)) in teq expected (Forest_subset forest element)) = true.
Proof. vm_compute. reflexivity. Qed.

(** weave/tests/forest/subset_not.rs, empty_forest, L5, run as in weave/tests/forest/mod.rs for weave::zdd2::Forest *)
Example tests_forest_subset_not_empty_forest : (
  let '(forest, element, expected) := (let v_forest := F_empty in
  let v_element := "1"%string in
  let v_expected := F_empty in
  (v_forest, v_element, v_expected)) in teq expected (Forest_subset_not forest element)) = true.
Proof. vm_compute. reflexivity. Qed.

(** weave/tests/forest/subset_not.rs, unit_forest_with_disjoint_element, L14, run as in weave/tests/forest/mod.rs for weave::zdd2::Forest *)
Example tests_forest_subset_not_unit_forest_with_disjoint_element : (
  let '(forest, element, expected) := (let v_forest := (F_unit ["2"%string; "3"%string]) in
  let v_element := "1"%string in
  let v_expected := (F_unit ["2"%string; "3"%string]) in
  (v_forest, v_element, v_expected)) in teq expected (Forest_subset_not forest element)) = true.
Proof. vm_compute. reflexivity. Qed.

(** weave/tests/forest/subset_not.rs, many_forest_with_disjoint_element, L23, run as in weave/tests/forest/mod.rs for weave::zdd2::Forest *)
Example tests_forest_subset_not_many_forest_with_disjoint_element : (
  let '(forest, element, expected) := (let v_forest := (F_many [["1"%string; "3"%string]; ["2"%string; "3"%string]]) in
  let v_element := "4"%string in
  let v_expected := (F_many [["1"%string; "3"%string]; ["2"%string; "3"%string]]) in
  (v_forest, v_element, v_expected)) in teq expected (Forest_subset_not forest element)) = true.
Proof. vm_compute. reflexivity. Qed.

(** weave/tests/forest/subset_not.rs, unit_forest_with_matching_element, L38, run as in weave/tests/forest/mod.rs for weave::zdd2::Forest *)
Example tests_forest_subset_not_unit_forest_with_matching_element : (
  let '(forest, element, expected) := (let v_forest := (F_unit ["1"%string; "3"%string]) in
  let v_element := "1"%string in
  let v_expected := F_empty in
  (v_forest, v_element, v_expected)) in teq expected (Forest_subset_not forest element)) = true.
Proof. vm_compute. reflexivity. Qed.

(** weave/tests/forest/subset_not.rs, many_forest_with_matching_element_1, L47, run as in weave/tests/forest/mod.rs for weave::zdd2::Forest *)
Example tests_forest_subset_not_many_forest_with_matching_element_1 : (
  let '(forest, element, expected) := (let v_forest := (F_many [["1"%string; "3"%string]; ["2"%string; "3"%string]]) in
  let v_element := "1"%string in
  let v_expected := (F_unit ["2"%string; "3"%string]) in
  (v_forest, v_element, v_expected)) in teq expected (Forest_subset_not forest element)) = true.
Proof. vm_compute. reflexivity. Qed.

(** weave/tests/forest/subset_not.rs, many_forest_with_matching_element_2, L59, run as in weave/tests/forest/mod.rs for weave::zdd2::Forest *)
Example tests_forest_subset_not_many_forest_with_matching_element_2 : (
  let '(forest, element, expected) := (let v_forest := (F_many [["1"%string; "3"%string]; ["2"%string; "3"%string]]) in
  let v_element := "2"%string in
  let v_expected := (F_unit ["1"%string; "3"%string]) in
  (v_forest, v_element, v_expected)) in teq expected (Forest_subset_not forest element)) = true.
Proof. vm_compute. reflexivity. Qed.

(** weave/tests/forest/subset_all.rs, empty_forest_with_single_element, L5, run as in weave/tests/forest/mod.rs for weave::zdd2::Forest *)
Example tests_forest_subset_all_empty_forest_with_single_element : (
  let '(forest, element, expected) := (let v_forest := F_empty in
  let v_elements := ["1"%string] in
  let v_expected := F_empty in
  (v_forest, v_elements, v_expected)) in teq expected (Forest_subset_all forest element)) = true.
Proof. vm_compute. reflexivity. Qed.

(** weave/tests/forest/subset_all.rs, unit_forest_with_empty_elements, L14, run as in weave/tests/forest/mod.rs for weave::zdd2::Forest *)
Example tests_forest_subset_all_unit_forest_with_empty_elements : (
  let '(forest, element, expected) := (let v_forest := (F_unit ["2"%string; "3"%string]) in
  let v_elements := [] in
  let v_expected := (F_unit ["2"%string; "3"%string]) in
  (v_forest, v_elements, v_expected)) in teq expected (Forest_subset_all forest element)) = true.
Proof. vm_compute. reflexivity. Qed.

(** weave/tests/forest/subset_all.rs, unit_forest_with_one_element, L23, run as in weave/tests/forest/mod.rs for weave::zdd2::Forest *)
Example tests_forest_subset_all_unit_forest_with_one_element : (
  let '(forest, element, expected) := (let v_forest := (F_unit ["2"%string; "3"%string]) in
  let v_elements := ["2"%string] in
  let v_expected := (F_unit ["2"%string; "3"%string]) in
  (v_forest, v_elements, v_expected)) in teq expected (Forest_subset_all forest element)) = true.
Proof. vm_compute. reflexivity. Qed.

(** weave/tests/forest/subset_all.rs, unit_forest_with_disjoint_elements, L32, run as in weave/tests/forest/mod.rs for weave::zdd2::Forest *)
Example tests_forest_subset_all_unit_forest_with_disjoint_elements : (
  let '(forest, element, expected) := (let v_forest := (F_unit ["2"%string; "3"%string]) in
  let v_elements := ["1"%string; "2"%string] in
  let v_expected := F_empty in
  (v_forest, v_elements, v_expected)) in teq expected (Forest_subset_all forest element)) = true.
Proof. vm_compute. reflexivity. Qed.

(** weave/tests/forest/subset_all.rs, many_forest_with_one_element, L41, run as in weave/tests/forest/mod.rs for weave::zdd2::Forest *)
Example tests_forest_subset_all_many_forest_with_one_element : (
  let '(forest, element, expected) := (let v_forest := (F_many [["1"%string; "3"%string]; ["2"%string; "3"%string]; ["1"%string; "2"%string]]) in
  let v_elements := ["3"%string] in
  let v_expected := (F_many [["1"%string; "3"%string]; ["2"%string; "3"%string]]) in
  (v_forest, v_elements, v_expected)) in teq expected (Forest_subset_all forest element)) = true.
Proof. vm_compute. reflexivity. Qed.

(** weave/tests/forest/subset_all.rs, many_forest_with_many_elements, L57, run as in weave/tests/forest/mod.rs for weave::zdd2::Forest *)
Example tests_forest_subset_all_many_forest_with_many_elements : (
  let '(forest, element, expected) := (let v_forest := (F_many [["1"%string; "3"%string]; ["2"%string; "3"%string]; ["1"%string; "2"%string]]) in
  let v_elements := ["1"%string; "3"%string] in
  let v_expected := (F_unit ["1"%string; "3"%string]) in
  (v_forest, v_elements, v_expected)) in teq expected (Forest_subset_all forest element)) = true.
Proof. vm_compute. reflexivity. Qed.

(** weave/tests/forest/subset_none.rs, empty_forest_with_single_element, L5, run as in weave/tests/forest/mod.rs for weave::zdd2::Forest *)
Example tests_forest_subset_none_empty_forest_with_single_element : (
  let '(forest, element, expected) := (let v_forest := F_empty in
  let v_elements := ["1"%string] in
  let v_expected := F_empty in
  (v_forest, v_elements, v_expected)) in teq expected (Forest_subset_none forest element)) = true.
Proof. vm_compute. reflexivity. Qed.

(** weave/tests/forest/subset_none.rs, unit_forest_with_empty_elements, L14, run as in weave/tests/forest/mod.rs for weave::zdd2::Forest *)
Example tests_forest_subset_none_unit_forest_with_empty_elements : (
  let '(forest, element, expected) := (let v_forest := (F_unit ["2"%string; "3"%string]) in
  let v_elements := [] in
  let v_expected := (F_unit ["2"%string; "3"%string]) in
  (v_forest, v_elements, v_expected)) in teq expected (Forest_subset_none forest element)) = true.
Proof. vm_compute. reflexivity. Qed.

(** weave/tests/forest/subset_none.rs, unit_forest_with_one_element, L23, run as in weave/tests/forest/mod.rs for weave::zdd2::Forest *)
Example tests_forest_subset_none_unit_forest_with_one_element : (
  let '(forest, element, expected) := (let v_forest := (F_unit ["2"%string; "3"%string]) in
  let v_elements := ["2"%string] in
  let v_expected := F_empty in
  (v_forest, v_elements, v_expected)) in teq expected (Forest_subset_none forest element)) = true.
Proof. vm_compute. reflexivity. Qed.

(** weave/tests/forest/subset_none.rs, unit_forest_with_disjoint_elements, L32, run as in weave/tests/forest/mod.rs for weave::zdd2::Forest *)
Example tests_forest_subset_none_unit_forest_with_disjoint_elements : (
  let '(forest, element, expected) := (let v_forest := (F_unit ["2"%string; "3"%string]) in
  let v_elements := ["1"%string] in
  let v_expected := (F_unit ["2"%string; "3"%string]) in
  (v_forest, v_elements, v_expected)) in teq expected (Forest_subset_none forest element)) = true.
Proof. vm_compute. reflexivity. Qed.

(** weave/tests/forest/subset_none.rs, many_forest_with_one_element, L41, run as in weave/tests/forest/mod.rs for weave::zdd2::Forest *)
Example tests_forest_subset_none_many_forest_with_one_element : (
  let '(forest, element, expected) := (let v_forest := (F_many [["1"%string; "3"%string]; ["2"%string; "3"%string]; ["1"%string; "2"%string]]) in
  let v_elements := ["3"%string] in
  let v_expected := (F_unit ["1"%string; "2"%string]) in
  (v_forest, v_elements, v_expected)) in teq expected (Forest_subset_none forest element)) = true.
Proof. vm_compute. reflexivity. Qed.

(** weave/tests/forest/subset_none.rs, many_forest_with_many_elements, L54, run as in weave/tests/forest/mod.rs for weave::zdd2::Forest *)
Example tests_forest_subset_none_many_forest_with_many_elements : (
  let '(forest, element, expected) := (let v_forest := (F_many [["1"%string; "3"%string]; ["2"%string; "3"%string]; ["1"%string; "2"%string]]) in
  let v_elements := ["1"%string; "3"%string] in
  let v_expected := F_empty in
  (v_forest, v_elements, v_expected)) in teq expected (Forest_subset_none forest element)) = true.
Proof. vm_compute. reflexivity. Qed.

(** weave/tests/forest/occurrences.rs, empty, L5, run as in weave/tests/forest/mod.rs for weave::zdd2::Forest *)
Example tests_forest_occurrences_empty : (
  let '(forest, expected) := (let v_forest := F_empty in
  let v_expected := [] in
  (v_forest, v_expected)) in teq expected (Forest_occurrences forest)) = true.
Proof. vm_compute. reflexivity. Qed.

(** weave/tests/forest/occurrences.rs, unit_with_one, L13, run as in weave/tests/forest/mod.rs for weave::zdd2::Forest *)
Example tests_forest_occurrences_unit_with_one : (
  let '(forest, expected) := (let v_forest := (F_unit ["1"%string; "1"%string]) in
  let v_expected := [("1"%string, 1)] in
  (v_forest, v_expected)) in teq expected (Forest_occurrences forest)) = true.
Proof. vm_compute. reflexivity. Qed.

(** weave/tests/forest/occurrences.rs, unit_with_two, L23, run as in weave/tests/forest/mod.rs for weave::zdd2::Forest *)
Example tests_forest_occurrences_unit_with_two : (
  let '(forest, expected) := (let v_forest := (F_unit ["1"%string; "2"%string]) in
  let v_expected := [("1"%string, 1); ("2"%string, 1)] in
  (v_forest, v_expected)) in teq expected (Forest_occurrences forest)) = true.
Proof. vm_compute. reflexivity. Qed.

(** weave/tests/forest/occurrences.rs, overlapping_many, L34, run as in weave/tests/forest/mod.rs for weave::zdd2::Forest *)
Example tests_forest_occurrences_overlapping_many : (
  let '(forest, expected) := (let v_forest := (F_many [["1"%string; "2"%string]; ["2"%string; "3"%string]]) in
  let v_expected := [("1"%string, 1); ("2"%string, 2); ("3"%string, 1)] in
  (v_forest, v_expected)) in teq expected (Forest_occurrences forest)) = true.
Proof. vm_compute. reflexivity. Qed.

(** weave/tests/forest/occurrences.rs, disjoint_many, L49, run as in weave/tests/forest/mod.rs for weave::zdd2::Forest *)
Example tests_forest_occurrences_disjoint_many : (
  let '(forest, expected) := (let v_forest := (F_many [["1"%string; "2"%string]; ["3"%string; "4"%string]; ["1"%string; "2"%string]]) in
  let v_expected := [("1"%string, 1); ("2"%string, 1); ("3"%string, 1); ("4"%string, 1)] in
  (v_forest, v_expected)) in teq expected (Forest_occurrences forest)) = true.
Proof. vm_compute. reflexivity. Qed.
