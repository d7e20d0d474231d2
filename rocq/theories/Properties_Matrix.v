(** Properties_Matrix.v: matrix forests, trees, and agreement with zdd2
    Generated by tools/gen_props.py from MatrixThm.v: the property theorems, each followed by
    instances that meet its hypotheses (examples). *)
From Coq Require Import List Arith Lia Bool Permutation Sorted.
From Verif Require Import Base DD Spec Zdd2Model Zdd2Thm MatrixModel MatrixProofs.
Import ListNotations.
From Verif Require Import MatrixThm.

(** C24.  The constructors: [trees] (under any iteration order) lists exactly the
    given sets, as ascending duplicate-free vectors, each once; the empty set is
    kept. *)
Theorem C24_many_exact : forall (T : Type) (O : Ord T) (h : hash_order) (rows : list (list T)),
  let ts := m_trees h (m_many rows) in
  well_listed ts /\
  (forall row, In row rows -> has_set ts row) /\
  (forall t, In t ts -> exists row, In row rows /\ same_elems t row).
Proof. exact C24_many_exact_pf. Qed.
Print Assumptions C24_many_exact.

Example C24_example : m_trees ho_id (m_many [[3;1;3];[];[2];[1;3]]) = [[];[1;3];[2]].
Proof. exact MatrixThm.C24_example. Qed.

Theorem C24_unit_unique_empty_exact : forall (T : Type) (O : Ord T) (h : hash_order) (items : list T),
  (exists t, m_trees h (m_unit items) = [t] /\ ssorted t /\ same_elems t items) /\
  (NoDup (m_trees h (m_unique items)) /\
   forall t, In t (m_trees h (m_unique items)) <-> exists x, In x items /\ t = [x]) /\
  m_trees h (m_empty (T:=T)) = [].
Proof. exact C24_unit_unique_empty_exact_pf. Qed.
Print Assumptions C24_unit_unique_empty_exact.

(** C25.  Union and intersection are exact, whatever order any of the sets
    involved is iterated in. *)
Theorem C25_union_exact : forall (T : Type) (O : Ord T) (h h1 h2 h3 : hash_order) (f g : mforest T),
  MReach f -> MReach g ->
  forall t, In t (m_trees h3 (m_union h f g)) <-> In t (m_trees h1 f) \/ In t (m_trees h2 g).
Proof. exact C25_union_exact_pf. Qed.
Print Assumptions C25_union_exact.

Theorem C25_intersect_exact : forall (T : Type) (O : Ord T) (h h1 h2 h3 : hash_order) (f g : mforest T),
  MReach f -> MReach g ->
  forall t, In t (m_trees h3 (m_intersect h f g)) <-> In t (m_trees h1 f) /\ In t (m_trees h2 g).
Proof. exact C25_intersect_exact_pf. Qed.
Print Assumptions C25_intersect_exact.

Example C25_example :
  let f := m_many [[1;2];[3]] in let g := m_many [[3];[4;1]] in
  MReach f /\ MReach g /\
  m_trees ho_id (m_union ho_rev f g) = [[1;2];[1;4];[3]] /\ m_trees ho_id (m_intersect ho_rev f g) = [[3]].
Proof. exact MatrixThm.C25_example. Qed.

(** C26 *)
Theorem C26_product_exact : forall (T : Type) (O : Ord T) (h h1 h2 h3 : hash_order) (f g : mforest T),
  MReach f -> MReach g ->
  forall s, has_set (m_trees h3 (m_product h f g)) s <->
            exists a b, In a (m_trees h1 f) /\ In b (m_trees h2 g) /\ is_union s a b.
Proof. exact C26_product_exact_pf. Qed.
Print Assumptions C26_product_exact.

Example C26_example :
  m_trees ho_id (m_product ho_rev (m_unique [1;2]) (m_unique [1;2])) = [[1];[1;2];[2]].
Proof. exact MatrixThm.C26_example. Qed.

(** C27 *)
Theorem C27_subsets_exact : forall (T : Type) (O : Ord T) (h h1 h2 : hash_order) (f : mforest T) e es,
  MReach f ->
  (forall t, In t (m_trees h1 (m_subset h f e)) <-> In t (m_trees h2 f) /\ In e t) /\
  (forall t, In t (m_trees h1 (m_subset_not h f e)) <-> In t (m_trees h2 f) /\ ~ In e t) /\
  (forall t, In t (m_trees h1 (m_subset_all h f es)) <-> In t (m_trees h2 f) /\ (forall x, In x es -> In x t)) /\
  (forall t, In t (m_trees h1 (m_subset_none h f es)) <-> In t (m_trees h2 f) /\ (forall x, In x es -> ~ In x t)).
Proof. exact C27_subsets_exact_pf. Qed.
Print Assumptions C27_subsets_exact.

Example C27_example :
  let f := m_many [[1];[3];[3;2];[]] in MReach f /\
  m_trees ho_id (m_subset_none ho_rev f [1;2]) = [[];[3]] /\
  m_trees ho_id (m_subset_all ho_rev f [2;3]) = [[2;3]] /\
  m_trees ho_id (m_subset ho_rev f 3) = [[2;3];[3]] /\
  m_trees ho_id (m_subset_not ho_rev f 3) = [[];[1]].
Proof. exact MatrixThm.C27_example. Qed.

(** C28 *)
Theorem C28_observers_exact : forall (T : Type) (O : Ord T) (h h1 : hash_order) (f : mforest T),
  MReach f ->
  let ts := m_trees h f in
  well_listed ts /\ m_len f = length ts /\ (m_is_empty f = true <-> ts = []) /\
  ssorted (map fst (m_occurrences h1 f)) /\
  (forall x k, In (x, k) (m_occurrences h1 f) <-> 0 < k /\ k = count ts x).
Proof. exact C28_observers_exact_pf. Qed.
Print Assumptions C28_observers_exact.

Example C28_example :
  let f := m_many [[1;2];[2;3];[2]] in MReach f /\
  m_len f = 3 /\ m_occurrences ho_rev f = [(1,1);(2,3);(3,1)].
Proof. exact MatrixThm.C28_example. Qed.

(** C16, matrix half: no call's result depends on the iteration orders, and the
    listing is the same up to order. *)
Theorem C16_hash_order_matrix : forall (T : Type) (O : Ord T) (h h' : hash_order) (f g : mforest T) e es,
  MReach f -> MReach g ->
  m_union h f g = m_union h' f g /\ m_intersect h f g = m_intersect h' f g /\
  m_product h f g = m_product h' f g /\
  m_subset h f e = m_subset h' f e /\ m_subset_not h f e = m_subset_not h' f e /\
  m_subset_all h f es = m_subset_all h' f es /\ m_subset_none h f es = m_subset_none h' f es /\
  m_occurrences h f = m_occurrences h' f /\
  Permutation (m_trees h f) (m_trees h' f).
Proof. exact C16_hash_order_matrix_pf. Qed.
Print Assumptions C16_hash_order_matrix.

(** many([[1],[1]]) and many([[1]]) hold the same trees but are not [==]. *)
Theorem C29_equality_refuted : ~ C29_claim nat _.
Proof. exact C29_equality_refuted_pf. Qed.
Print Assumptions C29_equality_refuted.

(** Equal forests hold the same trees, and forests holding the same trees are
    equal unless they hold exactly one. *)
Theorem C29_equality_partial : forall (T : Type) (O : Ord T) (h : hash_order) (f g : mforest T),
  MReach f -> MReach g ->
  (m_eqb f g = true -> forall t, In t (m_trees h f) <-> In t (m_trees h g)) /\
  ((forall t, In t (m_trees h f) <-> In t (m_trees h g)) -> m_len f <> 1 -> m_eqb f g = true).
Proof. exact C29_equality_partial_pf. Qed.
Print Assumptions C29_equality_partial.

Example C29_example :
  let f := m_many [[1];[2;3];[1]] in let g := m_union ho_id (m_unit [3;2]) (m_unit [1]) in
  MReach f /\ MReach g /\ m_len f <> 1 /\ m_eqb f g = true.
Proof. exact MatrixThm.C29_example. Qed.

(** unit([1]).intersect(unit([1,2])): empty for matrix, {{1,2}} for zdd2. *)
Theorem C30_agreement_refuted : ~ C30_claim nat _.
Proof. exact C30_agreement_refuted_pf. Qed.
Print Assumptions C30_agreement_refuted.

(** Also: a product with {∅} (unit([])), {∅} being dropped by zdd2. *)
Theorem C30_empty_set_refuted :
  exists (p : fexpr nat) f g ts, runz p f /\ runm p g /\ f_trees f = Some ts /\
    ~ In [1] ts /\ forall h, In [1] (m_trees h g).
Proof. exact C30_empty_set_refuted_pf. Qed.
Print Assumptions C30_empty_set_refuted.

(** Every program runs to the end in both implementations; if the operands of
    its binary operations mention no common item, its [subset_none]s have at
    most one distinct element and its [product]s are not given the empty set,
    both hold the same non-empty trees. *)
Theorem C30_agreement_partial : forall (T : Type) (O : Ord T) (p : fexpr T),
  (exists f g, runz p f /\ runm p g) /\
  (tame p -> forall (h : hash_order) f g ts, runz p f -> runm p g -> f_trees f = Some ts ->
   forall t, In t ts <-> t <> [] /\ In t (m_trees h g)).
Proof. exact C30_agreement_partial_pf. Qed.
Print Assumptions C30_agreement_partial.

Example C30_example : tame (T:=nat)
  (ESubsetNone (EProduct (EUnion (EMany [[1;2];[3]]) (EUnique [4;5]))
                         (ESubsetAll (EMany [[6];[7;6];[8]]) [6])) [3]).
Proof. exact MatrixThm.C30_example. Qed.

(** C31 *)
Theorem C31_tree_constructors : forall (T : Type) (O : Ord T) (h : hash_order) (es : list T) (e : T) (t : tree T),
  (forall x, In x (t_elems h (t_many es)) <-> In x es) /\
  t_elems h (t_one e) = [e] /\ t_elems h (t_empty (T:=T)) = [] /\
  (TReach t -> NoDup (t_elems h t) /\ t_len t = length (t_elems h t) /\
               (t_is_empty t = true <-> t_elems h t = [])).
Proof. exact C31_tree_constructors_pf. Qed.
Print Assumptions C31_tree_constructors.

Example C31_example : TReach (t_many [3; 1; 3; 2]) /\ t_len (t_many [3; 1; 3; 2]) = 3 /\
  t_is_empty (t_many [3; 1; 3; 2]) = false.
Proof. exact MatrixThm.C31_example. Qed.

(** one(3).union(many([1,2])) is empty. *)
Theorem C32_union_refuted : ~ C32_claim nat _.
Proof. exact C32_union_refuted_pf. Qed.
Print Assumptions C32_union_refuted.

(** A union never holds anything else than elements of the two trees; it is
    exact or completely empty; it is exact unless one of the trees has exactly
    one element and the other does not contain it. *)
Theorem C32_union_partial : forall (T : Type) (O : Ord T) (h h1 : hash_order) (t u : tree T),
  TReach t -> TReach u ->
  ((forall x, In x (t_elems h1 (t_union h t u)) <-> In x (t_elems h1 t) \/ In x (t_elems h1 u)) \/
   t_elems h1 (t_union h t u) = []) /\
  ((t_len t <> 1 \/ incl (t_elems h1 t) (t_elems h1 u)) -> (t_len u <> 1 \/ incl (t_elems h1 u) (t_elems h1 t)) ->
   forall x, In x (t_elems h1 (t_union h t u)) <-> In x (t_elems h1 t) \/ In x (t_elems h1 u)) /\
  (forall a b, t = t_one a -> u = t_one b ->
   forall x, In x (t_elems h1 (t_union h t u)) <-> x = a \/ x = b).
Proof. exact C32_union_partial_pf. Qed.
Print Assumptions C32_union_partial.

Theorem C32_union_exact_partial : forall (T : Type) (O : Ord T) (h h1 : hash_order) (t u : tree T),
  TReach t -> TReach u ->
  ((forall x, In x (t_elems h1 (t_union h t u)) <-> In x (t_elems h1 t) \/ In x (t_elems h1 u)) <->
   ~ lost t u (t_elems h1 u) /\ ~ lost u t (t_elems h1 t)) /\
  ((lost t u (t_elems h1 u) \/ lost u t (t_elems h1 t)) -> t_union h t u = t_empty).
Proof. exact C32_union_exact_partial_pf. Qed.
Print Assumptions C32_union_exact_partial.

Example C32_example :
  let t := t_many [1;2] in let u := t_many [2;3] in
  TReach t /\ TReach u /\ t_len t <> 1 /\ t_len u <> 1 /\ t_elems ho_id (t_union ho_rev t u) = [1;2;3].
Proof. exact MatrixThm.C32_example. Qed.

(** C33 *)
Theorem C33_tree_intersect_exact : forall (T : Type) (O : Ord T) (h h1 : hash_order) (t u : tree T),
  TReach t -> TReach u ->
  forall x, In x (t_elems h1 (t_intersect h t u)) <-> In x (t_elems h1 t) /\ In x (t_elems h1 u).
Proof. exact C33_tree_intersect_exact_pf. Qed.
Print Assumptions C33_tree_intersect_exact.

Example C33_example : t_elems ho_id (t_intersect ho_rev (t_many [1;2;4]) (t_many [2;3;4])) = [2;4].
Proof. exact MatrixThm.C33_example. Qed.

(** C34: both copies of [product]. *)
Theorem C34_tree_product_exact : forall (T : Type) (O : Ord T) (h h1 : hash_order) (t u : tree T),
  TReach t -> TReach u ->
  (forall s, has_set (m_trees h1 (t_product_m h t u)) s <->
             exists a b, In a (t_elems h1 t) /\ In b (t_elems h1 u) /\ same_elems s [a; b]) /\
  (exists f ts, t_product_z h t u = Some f /\ f_trees f = Some ts /\
     forall s, has_set ts s <->
               exists a b, In a (t_elems h1 t) /\ In b (t_elems h1 u) /\ same_elems s [a; b]).
Proof. exact C34_tree_product_exact_pf. Qed.
Print Assumptions C34_tree_product_exact.

Example C34_example :
  m_trees ho_id (t_product_m ho_rev (t_many [1;2]) (t_many [2;3])) = [[1;2];[1;3];[2];[2;3]].
Proof. exact MatrixThm.C34_example. Qed.
