(** Properties_Algebra.v: laws that relate several calls
    Generated by tools/gen_props.py from AlgebraThm.v: the property theorems, each followed by
    instances that meet its hypotheses (examples). *)
From Coq Require Import List Arith Lia Bool Permutation Sorted.
From Verif Require Import Base DD Spec Zdd2Model Zdd2Node Zdd2Node2 Zdd2Univ Zdd2Forest Zdd2Forest2 Zdd2Forest3 Zdd2Exact2 Zdd2Laws Zdd2Thm MatrixModel MatrixProofs MatrixThm.
Import ListNotations.
From Verif Require Import AlgebraThm.

(** many([[1,3],[1],[3]]) split by 3: the union of the two parts is not the forest. *)
Theorem C69_split_refuted : ~ C69_claim nat _.
Proof. exact C69_split_refuted_pf. Qed.
Print Assumptions C69_split_refuted.

(** The two parts always exist and partition the trees; their union has at most
    as many trees as the forest and only items of it, and it is the forest ([==])
    exactly if the two parts are [settled]. *)
Theorem C69_split_partial : forall (T : Type) (O : Ord T) (h : hash_order) (f : forest T) e ts,
  Reach f -> f_trees f = Some ts ->
  exists a b ta tb r tr, f_subset h f e = Some a /\ f_subset_not h f e = Some b /\
    f_trees a = Some ta /\ f_trees b = Some tb /\ f_union h a b = Some r /\ f_trees r = Some tr /\
    (forall t, In t ts <-> In t ta \/ In t tb) /\ (forall t, In t ta -> In t tb -> False) /\
    length tr <= length ts /\ (tr = [] -> ts = []) /\
    (forall t x, In t tr -> In x t -> exists t', In t' ts /\ In x t') /\
    (r = f <-> settled ta tb /\ settled tb ta).
Proof. exact C69_split_partial_pf. Qed.
Print Assumptions C69_split_partial.

Example C69_example : exists f a b : forest nat, Reach f /\ f_trees f = Some [[1;2];[1;3];[1]] /\
  f_subset ho_id f 2 = Some a /\ f_trees a = Some [[1;2]] /\ f_subset_not ho_id f 2 = Some b /\ f_trees b = Some [[1;3];[1]] /\
  settled [[1;2]] [[1;3];[1]] /\ settled [[1;3];[1]] [[1;2]] /\ f_union ho_id a b = Some f.
Proof. exact AlgebraThm.C69_example. Qed.

(** ({{1,2,3}} ∪ {{1,3},{3}}) ∪ {{2,3},{2}} is not {{1,2,3}} ∪ ({{1,3},{3}} ∪ {{2,3},{2}}). *)
Theorem C70_assoc_refuted : ~ C70_claim nat _.
Proof. exact C70_assoc_refuted_pf. Qed.
Print Assumptions C70_assoc_refuted.

(** also for the product: ({{1,3},{3}} × {{1,3},{3}}) × {{2,3}} *)
Theorem C70_product_assoc_refuted : exists f g fg gk r r' : forest nat, Reach f /\ Reach g /\
  f_product ho_id f f = Some fg /\ f_product ho_id f g = Some gk /\
  f_product ho_id fg g = Some r /\ f_product ho_id f gk = Some r' /\ f_eqb r r' = false.
Proof. exact C70_product_assoc_refuted_pf. Qed.
Print Assumptions C70_product_assoc_refuted.

(** Forests with no item in common: union and product are associative,
    as [==]. *)
Theorem C70_disjoint_partial : forall (T : Type) (O : Ord T) (h : hash_order) (f g k : forest T) tf tg tk,
  Reach f -> Reach g -> Reach k -> f_trees f = Some tf -> f_trees g = Some tg -> f_trees k = Some tk ->
  item_disjoint tf tg -> item_disjoint tf tk -> item_disjoint tg tk ->
  (exists fg gk r, f_union h f g = Some fg /\ f_union h g k = Some gk /\ f_union h fg k = Some r /\ f_union h f gk = Some r) /\
  (exists fg gk r, f_product h f g = Some fg /\ f_product h g k = Some gk /\ f_product h fg k = Some r /\ f_product h f gk = Some r).
Proof. exact C70_disjoint_partial_pf. Qed.
Print Assumptions C70_disjoint_partial.

(** In general union is associative whenever every union made is [settled] on both sides. *)
Theorem C70_settled_partial : forall (T : Type) (O : Ord T) (h : hash_order) (f g k : forest T) tf tg tk,
  Reach f -> Reach g -> Reach k -> f_trees f = Some tf -> f_trees g = Some tg -> f_trees k = Some tk ->
  exists fg gk tfg tgk r r', f_union h f g = Some fg /\ f_union h g k = Some gk /\
    f_trees fg = Some tfg /\ f_trees gk = Some tgk /\ f_union h fg k = Some r /\ f_union h f gk = Some r' /\
    (settled tf tg -> settled tg tf -> settled tg tk -> settled tk tg ->
     settled tfg tk -> settled tk tfg -> settled tf tgk -> settled tgk tf -> r = r').
Proof. exact C70_settled_partial_pf. Qed.
Print Assumptions C70_settled_partial.

(** In general the two bracketings agree exactly if the last unions make the same family of their sides
    ([resorted], as in C11: one result for each side, which always exists). *)
Theorem C70_union_exact_partial : forall (T : Type) (O : Ord T) (h : hash_order) (f g k : forest T) tf tg tk,
  Reach f -> Reach g -> Reach k -> f_trees f = Some tf -> f_trees g = Some tg -> f_trees k = Some tk ->
  exists fg gk tfg tgk r r' p q p' q', f_union h f g = Some fg /\ f_union h g k = Some gk /\
    f_trees fg = Some tfg /\ f_trees gk = Some tgk /\ f_union h fg k = Some r /\ f_union h f gk = Some r' /\
    resorted (count tfg) (fun z => count tfg z + count tk z) tfg p /\
    resorted (count tk) (fun z => count tk z + count tfg z) tk q /\
    resorted (count tf) (fun z => count tf z + count tgk z) tf p' /\
    resorted (count tgk) (fun z => count tgk z + count tf z) tgk q' /\
    (r = r' <-> forall t, (In t p \/ In t q) <-> (In t p' \/ In t q')).
Proof. exact C70_union_exact_partial_pf. Qed.
Print Assumptions C70_union_exact_partial.

(** Likewise for the product, with what C13 says the last products make of their sides. *)
Theorem C70_product_exact_partial : forall (T : Type) (O : Ord T) (h : hash_order) (f g k : forest T) tf tg tk,
  Reach f -> Reach g -> Reach k -> f_trees f = Some tf -> f_trees g = Some tg -> f_trees k = Some tk ->
  exists fg gk tfg tgk r r' p q p' q', f_product h f g = Some fg /\ f_product h g k = Some gk /\
    f_trees fg = Some tfg /\ f_trees gk = Some tgk /\ f_product h fg k = Some r /\ f_product h f gk = Some r' /\
    resorted (count tfg) (fun z => count tfg z + count tk z) tfg p /\
    resorted (count tk) (fun z => count tk z + count tfg z) tk q /\
    resorted (count tf) (fun z => count tf z + count tgk z) tf p' /\
    resorted (count tgk) (fun z => count tgk z + count tf z) tgk q' /\
    let paired o (es gs : list (list T)) s := exists a b, In a es /\ In b gs /\ is_union s a b /\
      forall c, same_rest o c es a gs b -> agree_after o c a b in
    (r = r' <-> forall s, paired (fun z => count tfg z + count tk z) p q s <->
                          paired (fun z => count tf z + count tgk z) p' q' s).
Proof. exact C70_product_exact_partial_pf. Qed.
Print Assumptions C70_product_exact_partial.

Example C70_example : exists f g k fg r p : forest nat, Reach f /\ Reach g /\ Reach k /\
  f_trees f = Some [[1;2];[1]] /\ f_trees g = Some [[3]] /\ f_trees k = Some [[4;5];[5]] /\
  item_disjoint [[1;2];[1]] [[3]] /\ item_disjoint [[1;2];[1]] [[4;5];[5]] /\ item_disjoint [[3]] [[4;5];[5]] /\
  f_union ho_id f g = Some fg /\ f_union ho_id fg k = Some r /\ f_trees r = Some [[1;2];[1];[4;5];[5];[3]] /\
  f_product ho_id fg k = Some p /\ f_len p = Some 6.
Proof. exact AlgebraThm.C70_example. Qed.

(** Filtering by several items one after the other, in any order and with
    repetitions, is [subset_all]; excluding items one after the other does not
    depend on order or repetitions, and keeps exactly the trees without them;
    requiring and excluding commute; requiring an item and then excluding it
    leaves the empty forest.  All as [==]. *)
Theorem C71_filters_compose : forall (T : Type) (O : Ord T) (h : hash_order) (f : forest T) ts es es' e e',
  Reach f -> f_trees f = Some ts -> same_elems es es' ->
  (exists r, subset_each h f es = Some r /\ subset_each h f es' = Some r /\ f_subset_all h f es = Some r /\ f_subset_all h f es' = Some r) /\
  (exists r tr, subset_not_each h f es = Some r /\ subset_not_each h f es' = Some r /\ f_trees r = Some tr /\
     forall t, In t tr <-> In t ts /\ forall x, In x es -> ~ In x t) /\
  (exists a b r, f_subset h f e = Some a /\ f_subset_not h f e' = Some b /\ f_subset_not h a e' = Some r /\ f_subset h b e = Some r) /\
  (exists a b, f_subset h f e = Some a /\ f_subset h a e = Some a /\ f_subset_not h a e = Some f_empty /\
     f_subset_not h f e = Some b /\ f_subset_not h b e = Some b /\ f_subset h b e = Some f_empty).
Proof. exact C71_filters_compose_pf. Qed.
Print Assumptions C71_filters_compose.

Example C71_example : exists f r q : forest nat, Reach f /\ f_trees f = Some [[1;2;3];[1;2];[1];[2;3]] /\
  same_elems [3;2;3] [2;3] /\ subset_each ho_id f [3;2;3] = Some r /\ f_subset_all ho_rev f [2;3] = Some r /\
  f_trees r = Some [[1;2;3];[2;3]] /\ subset_not_each ho_id f [3;2] = Some q /\ f_trees q = Some [[1]].
Proof. exact AlgebraThm.C71_example. Qed.

(** The occurrence counts of a forest add up to the sizes of its trees added up;
    an item is listed exactly if it is in some tree, and never more often than
    there are trees; forests with no common item: a union has as many trees as
    both together, a product has as many as there are pairs. *)
Theorem C72_counting : forall (T : Type) (O : Ord T) (h : hash_order) (f g : forest T) tf tg,
  Reach f -> Reach g -> f_trees f = Some tf -> f_trees g = Some tg ->
  total_count (f_occurrences h f) = total_size tf /\
  (forall x, In x (map fst (f_occurrences h f)) <-> exists t, In t tf /\ In x t) /\
  (forall x k, In (x, k) (f_occurrences h f) -> k <= length tf) /\
  (item_disjoint tf tg -> exists u p, f_union h f g = Some u /\ f_product h f g = Some p /\
     f_len u = Some (length tf + length tg) /\ f_len p = Some (length tf * length tg)).
Proof. exact C72_counting_pf. Qed.
Print Assumptions C72_counting.

Example C72_example : exists f g p : forest nat, Reach f /\ Reach g /\ f_trees f = Some [[1;2];[1;3];[1]] /\ f_trees g = Some [[4];[5]] /\
  item_disjoint [[1;2];[1;3];[1]] [[4];[5]] /\ f_occurrences ho_rev f = [(1,3);(2,1);(3,1)] /\
  total_size [[1;2];[1;3];[1]] = 5 /\ f_product ho_id f g = Some p /\ f_len p = Some 6.
Proof. exact AlgebraThm.C72_example. Qed.

Theorem C73_union_intersect_laws : forall (T : Type) (O : Ord T) (h : hash_order) (f g k : mforest T),
  MReach f -> MReach g -> MReach k ->
  let U := m_union h in let N := m_intersect h in
  same_trees (U f g) (U g f) /\ same_trees (N f g) (N g f) /\
  same_trees (U (U f g) k) (U f (U g k)) /\ same_trees (N (N f g) k) (N f (N g k)) /\
  same_trees (U f (N f g)) f /\ same_trees (N f (U f g)) f /\
  same_trees (N f (U g k)) (U (N f g) (N f k)) /\ same_trees (U f (N g k)) (N (U f g) (U f k)) /\
  same_trees (U f f) f /\ same_trees (N f f) f /\
  same_trees (U f m_empty) f /\ same_trees (N f m_empty) m_empty /\
  m_len (U f g) + m_len (N f g) = m_len f + m_len g.
Proof. exact C73_union_intersect_laws_pf. Qed.
Print Assumptions C73_union_intersect_laws.

(** product: commutative, associative, [{∅}] neutral, empty absorbing,
    distributes over union; size at most the number of pairs *)
Theorem C73_product_laws : forall (T : Type) (O : Ord T) (h : hash_order) (f g k : mforest T),
  MReach f -> MReach g -> MReach k ->
  let U := m_union h in let P := m_product h in
  same_trees (P f g) (P g f) /\ same_trees (P (P f g) k) (P f (P g k)) /\
  same_trees (P f (m_unit [])) f /\ same_trees (P f m_empty) m_empty /\
  same_trees (P f (U g k)) (U (P f g) (P f k)) /\
  m_len (P f g) <= m_len f * m_len g.
Proof. exact C73_product_laws_pf. Qed.
Print Assumptions C73_product_laws.

(** filters: they split a forest, commute with union and intersection, and
    reach into a product *)
Theorem C73_filter_laws : forall (T : Type) (O : Ord T) (h : hash_order) (f g : mforest T) e e' es es',
  MReach f -> MReach g ->
  let U := m_union h in let N := m_intersect h in let P := m_product h in
  let S := m_subset h in let S' := m_subset_not h in
  same_trees (U (S f e) (S' f e)) f /\ same_trees (N (S f e) (S' f e)) m_empty /\
  m_len (S f e) + m_len (S' f e) = m_len f /\
  same_trees (S (U f g) e) (U (S f e) (S g e)) /\ same_trees (S' (U f g) e) (U (S' f e) (S' g e)) /\
  same_trees (S (N f g) e) (N (S f e) g) /\ same_trees (S' (N f g) e) (N (S' f e) g) /\
  same_trees (S (P f g) e) (U (P (S f e) g) (P f (S g e))) /\ same_trees (S' (P f g) e) (P (S' f e) (S' g e)) /\
  same_trees (S (S f e) e') (m_subset_all h f [e; e']) /\ same_trees (S' (S' f e) e') (m_subset_none h f [e; e']) /\
  same_trees (S (S' f e) e') (S' (S f e') e) /\
  (same_elems es es' -> same_trees (m_subset_all h f es) (m_subset_all h f es') /\ same_trees (m_subset_none h f es) (m_subset_none h f es')).
Proof. exact C73_filter_laws_pf. Qed.
Print Assumptions C73_filter_laws.

Theorem C73_counting : forall (T : Type) (O : Ord T) (h h1 : hash_order) (f : mforest T), MReach f ->
  total_count (m_occurrences h f) = total_size (m_trees h1 f) /\
  (forall x, In x (map fst (m_occurrences h f)) <-> exists t, In t (m_trees h1 f) /\ In x t) /\
  (forall x k, In (x, k) (m_occurrences h f) -> k <= m_len f).
Proof. exact C73_counting_pf. Qed.
Print Assumptions C73_counting.

Example C73_example :
  let f := m_many [[1;2];[3]] in let g := m_many [[3];[4;1]] in let k := m_unique [2] in
  MReach f /\ MReach g /\ MReach k /\
  m_trees ho_id (m_intersect ho_rev f (m_union ho_rev g k)) = [[3]] /\
  m_trees ho_id (m_product ho_rev f (m_union ho_rev g k)) = [[1;2];[1;2;3];[1;2;4];[1;3;4];[2;3];[3]] /\
  m_len (m_union ho_rev f g) = 3 /\ m_len (m_intersect ho_rev f g) = 1.
Proof. exact AlgebraThm.C73_example. Qed.
