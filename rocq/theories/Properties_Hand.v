(** Properties_Hand.v: C84: matrix forests and trees that no constructor made
    Generated by tools/gen_props.py from HandThm.v: the property theorems, each followed by
    instances that meet its hypotheses (examples). *)
From Coq Require Import List Arith Lia Bool Permutation Sorted.
From Verif Require Import Base DD Spec Zdd2Model Zdd2Thm MatrixModel MatrixProofs MatrixThm HandModel.
Import ListNotations.
From Verif Require Import HandThm.
Open Scope nat_scope.

(** C84.  For every value of the enum: [union], [product] and the four filters are
    exact as families of sets ... *)
Theorem C84_union : forall (T : Type) (O : Ord T) (h h1 h2 h3 : hash_order) (f g : mforest T),
  any_forest f -> any_forest g ->
  forall s, has_set (m_trees h3 (m_union h f g)) s <-> has_set (m_trees h1 f) s \/ has_set (m_trees h2 g) s.
Proof. exact C84_union_pf. Qed.
Print Assumptions C84_union.

Theorem C84_product : forall (T : Type) (O : Ord T) (h h1 h2 h3 : hash_order) (f g : mforest T),
  any_forest f -> any_forest g ->
  forall s, has_set (m_trees h3 (m_product h f g)) s <->
            exists a b, In a (m_trees h1 f) /\ In b (m_trees h2 g) /\ is_union s a b.
Proof. exact C84_product_pf. Qed.
Print Assumptions C84_product.

Theorem C84_filters : forall (T : Type) (O : Ord T) (h h1 h2 : hash_order) (f : mforest T) e es,
  any_forest f -> forall s,
  (has_set (m_trees h1 (m_subset h f e)) s <-> has_set (m_trees h2 f) s /\ In e s) /\
  (has_set (m_trees h1 (m_subset_not h f e)) s <-> has_set (m_trees h2 f) s /\ ~ In e s) /\
  (has_set (m_trees h1 (m_subset_all h f es)) s <-> has_set (m_trees h2 f) s /\ forall x, In x es -> In x s) /\
  (has_set (m_trees h1 (m_subset_none h f es)) s <-> has_set (m_trees h2 f) s /\ forall x, In x es -> ~ In x s).
Proof. exact C84_filters_pf. Qed.
Print Assumptions C84_filters.

(** ... [intersect] keeps exactly the sets of which both operands list the same
    vector, so it is exact if the vectors of both are ascending; two forests that
    spell one set differently have no intersection. *)
Theorem C84_intersect : forall (T : Type) (O : Ord T) (h h1 h2 h3 : hash_order) (f g : mforest T),
  any_forest f -> any_forest g ->
  (forall s, has_set (m_trees h3 (m_intersect h f g)) s <->
             exists t, In t (m_trees h1 f) /\ In t (m_trees h2 g) /\ same_elems t s) /\
  ((forall t, In t (m_trees h1 f) -> ssorted t) -> (forall t, In t (m_trees h2 g) -> ssorted t) ->
   forall s, has_set (m_trees h3 (m_intersect h f g)) s <-> has_set (m_trees h1 f) s /\ has_set (m_trees h2 g) s).
Proof. exact C84_intersect_pf. Qed.
Print Assumptions C84_intersect.

(** ... [trees] lists no vector twice and [len] is their number; only [Many] of an
    empty set is not [is_empty] but lists nothing; the entries of [occurrences] for an
    item add up to how often the item is listed. *)
Theorem C84_observers : forall (T : Type) (O : Ord T) (h h1 : hash_order) (f : mforest T), any_forest f ->
  NoDup (m_trees h f) /\ m_len f = length (m_trees h f) /\
  (m_trees h f = [] <-> m_is_empty f = true \/ f = MMany []) /\
  (forall x, total (m_occurrences h1 f) x = count_occ eq_dec_ (concat (m_trees h f)) x) /\
  (m_len f <> 1 -> ssorted (map fst (m_occurrences h1 f))) /\
  ((forall t, In t (m_trees h f) -> NoDup t) -> forall x, total (m_occurrences h1 f) x = count (m_trees h f) x).
Proof. exact C84_observers_pf. Qed.
Print Assumptions C84_observers.

(** ... no result depends on the iteration orders, each is an operand or a forest that
    the constructors make, and [many] of the listing is such a forest with the same sets. *)
Theorem C84_results : forall (T : Type) (O : Ord T) (h h' : hash_order) (f g : mforest T) e es,
  any_forest f -> any_forest g ->
  (m_union h f g = m_union h' f g /\ (m_union h f g = f \/ m_union h f g = g \/ MReach (m_union h f g))) /\
  (m_intersect h f g = m_intersect h' f g /\ (m_intersect h f g = f \/ m_intersect h f g = g \/ MReach (m_intersect h f g))) /\
  (m_product h f g = m_product h' f g /\ MReach (m_product h f g)) /\
  (m_subset h f e = m_subset h' f e /\ (m_subset h f e = f \/ MReach (m_subset h f e))) /\
  (m_subset_not h f e = m_subset_not h' f e /\ (m_subset_not h f e = f \/ MReach (m_subset_not h f e))) /\
  (m_subset_all h f es = m_subset_all h' f es /\ (m_subset_all h f es = f \/ MReach (m_subset_all h f es))) /\
  (m_subset_none h f es = m_subset_none h' f es /\ (m_subset_none h f es = f \/ MReach (m_subset_none h f es))) /\
  (MReach (m_many (m_trees h f)) /\ m_many (m_trees h f) = m_many (m_trees h' f) /\
   forall s, has_set (m_trees h' (m_many (m_trees h f))) s <-> has_set (m_trees h f) s).
Proof. exact C84_results_pf. Qed.
Print Assumptions C84_results.

(** Trees: writing and reading back gives the tree, from any order of the elements;
    any data gives some value of the enum.  For every such value [intersect] and both
    products are exact, [len] counts the elements, and [union] is exact unless just one
    operand is [One] and the other, not [Empty], lacks its element: then the result is
    empty. *)
Theorem C84_tree_data : forall (T : Type) (O : Ord T) (h : hash_order),
  (forall t : tree T, any_tree t -> t_deserialize (t_serialize h t) = t) /\
  (forall l l' : list T, Permutation l l' -> t_deserialize (DMany l) = t_deserialize (DMany l')) /\
  (forall d, any_tree (t_deserialize d)).
Proof. exact C84_tree_data_pf. Qed.
Print Assumptions C84_tree_data.

Theorem C84_trees : forall (T : Type) (O : Ord T) (h h1 : hash_order) (t u : tree T), any_tree t -> any_tree u ->
  (NoDup (t_elems h1 t) /\ t_len t = length (t_elems h1 t)) /\
  (forall x, In x (t_elems h1 (t_intersect h t u)) <-> In x (t_elems h1 t) /\ In x (t_elems h1 u)) /\
  ((forall x, In x (t_elems h1 (t_union h t u)) <-> In x (t_elems h1 t) \/ In x (t_elems h1 u)) <->
   ~ lost t u (t_elems h1 u) /\ ~ lost u t (t_elems h1 t)) /\
  ((lost t u (t_elems h1 u) \/ lost u t (t_elems h1 t)) -> t_union h t u = t_empty) /\
  (forall s, has_set (m_trees h1 (t_product_m h t u)) s <->
             exists a b, In a (t_elems h1 t) /\ In b (t_elems h1 u) /\ same_elems s [a; b]) /\
  (exists f ts, t_product_z h t u = Some f /\ f_trees f = Some ts /\
     forall s, has_set ts s <->
               exists a b, In a (t_elems h1 t) /\ In b (t_elems h1 u) /\ same_elems s [a; b]).
Proof. exact C84_trees_pf. Qed.
Print Assumptions C84_trees.

(** Non-vacuity: forests and trees that no constructor makes. *)
Example C84_example :
  let f := MMany [[2;1]; [3;3]] in let g := MUnit [1;2] in
  any_forest f /\ any_forest g /\
  m_trees ho_id (m_union ho_rev f g) = [[1;2]; [3]] /\
  m_trees ho_id (m_intersect ho_rev f g) = [] /\
  m_trees ho_id (m_product ho_rev f g) = [[1;2]; [1;2;3]] /\
  m_trees ho_id (m_subset ho_rev f 1) = [[1;2]] /\
  m_occurrences ho_id f = [(1, 1); (2, 1); (3, 2)] /\
  m_occurrences ho_id (MUnit [3;3]) = [(3, 1); (3, 1)] /\
  m_is_empty (MMany (@nil (list nat))) = false /\ m_len (MMany (@nil (list nat))) = 0 /\
  m_union ho_id (MMany []) g = m_unit [1;2].
Proof. exact HandThm.C84_example. Qed.

Example C84_tree_example :
  let u := t_deserialize (DMany [5;2;5]) in
  any_tree u /\ t_serialize ho_rev u = DMany [5;2] /\
  lost (TOne 3) u (t_elems ho_id u) /\ t_union ho_id (TOne 3) u = TEmpty /\
  t_deserialize (T:=nat) (DMany []) = TMany [] /\ t_union ho_id (TOne 3) (TMany []) = TEmpty /\
  t_elems ho_id (t_intersect ho_rev u (TMany [1;2])) = [2].
Proof. exact HandThm.C84_tree_example. Qed.
