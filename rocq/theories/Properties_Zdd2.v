(** Properties_Zdd2.v: zdd2 forests
    Generated by tools/gen_props.py from Zdd2Thm.v: the property theorems, each followed by
    instances that meet its hypotheses (examples). *)
From Coq Require Import List Arith Lia Bool Permutation Sorted.
From Verif Require Import Base DD Spec Zdd2Model Zdd2Node Zdd2Node2 Zdd2Univ Zdd2Forest Zdd2Forest2 Zdd2Resort Zdd2Forest3 Zdd2Exact2 Zdd2Laws.
Import ListNotations.
From Verif Require Import Zdd2Thm.

(** C01.  [Forest::many(rows)] succeeds; its listing is strictly ascending
    vectors without repetition; it holds exactly the sets of the non-empty rows. *)
Theorem C01_many_exact : forall (T : Type) (O : Ord T) (h : hash_order) (rows : list (list T)),
  exists f ts, f_many h rows = Some f /\ f_trees f = Some ts /\ well_listed ts /\
    (forall row, In row rows -> row <> [] -> has_set ts row) /\
    (forall t, In t ts -> t <> [] /\ exists row, In row rows /\ same_elems t row).
Proof. exact C01_many_exact_pf. Qed.
Print Assumptions C01_many_exact.

Example C01_example : exists f, f_many ho_rev [[3;1;3];[];[2];[1;3]] = Some f /\ f_trees f = Some [[1;3];[2]].
Proof. exact Zdd2Thm.C01_example. Qed.

(** C02.  [unit], [unique] and [empty]. *)
Theorem C02_unit_exact : forall (T : Type) (O : Ord T) (h : hash_order) (items : list T),
  exists f ts, f_unit h items = Some f /\ f_trees f = Some ts /\
    (items = [] -> ts = []) /\
    (items <> [] -> exists t, ts = [t] /\ ssorted t /\ same_elems t items).
Proof. exact C02_unit_exact_pf. Qed.
Print Assumptions C02_unit_exact.

Theorem C02_unique_exact : forall (T : Type) (O : Ord T) (h : hash_order) (items : list T),
  exists f ts, f_unique h items = Some f /\ f_trees f = Some ts /\ NoDup ts /\
    forall t, In t ts <-> exists x, In x items /\ t = [x].
Proof. exact C02_unique_exact_pf. Qed.
Print Assumptions C02_unique_exact.

Theorem C02_empty_exact : forall (T : Type) (O : Ord T), f_trees (f_empty (T:=T)) = Some [].
Proof. exact C02_empty_exact_pf. Qed.
Print Assumptions C02_empty_exact.

Example C02_example : exists f g, f_unit ho_id [5;2;5] = Some f /\ f_trees f = Some [[2;5]] /\
  f_unique ho_rev [5;2;5] = Some g /\ f_trees g = Some [[2];[5]].
Proof. exact Zdd2Thm.C02_example. Qed.

(** C03.  Listings of reachable forests are well formed. *)
Theorem C03_trees_well_formed : forall (T : Type) (O : Ord T) (f : forest T), Reach f ->
  exists ts, f_trees f = Some ts /\ well_listed ts /\ ~ In [] ts.
Proof. exact C03_trees_well_formed_pf. Qed.
Print Assumptions C03_trees_well_formed.

(** a forest obtained through several operations *)
Example C03_example : exists f g r, Reach f /\ Reach g /\ Reach r /\ f_union ho_rev f g = Some r /\
  f_trees r = Some [[1;2];[1;3];[4;5];[5;6]].
Proof. exact Zdd2Thm.C03_example. Qed.

(** C04.  [len] and [is_empty] agree with the listing. *)
Theorem C04_len_is_empty : forall (T : Type) (O : Ord T) (f : forest T), Reach f ->
  exists ts, f_trees f = Some ts /\ NoDup ts /\ f_len f = Some (length ts) /\
    exists b, f_is_empty f = Some b /\ (b = true <-> length ts = 0).
Proof. exact C04_len_is_empty_pf. Qed.
Print Assumptions C04_len_is_empty.

Example C04_example : exists f, f_many ho_id [[1;2];[2;1];[];[3]] = Some f /\ Reach f /\
  f_len f = Some 2 /\ f_is_empty f = Some false.
Proof. exact Zdd2Thm.C04_example. Qed.

(** C05.  [occurrences] is ascending by item and exact. *)
Theorem C05_occurrences_exact : forall (T : Type) (O : Ord T) (h : hash_order) (f : forest T) ts,
  Reach f -> f_trees f = Some ts ->
  ssorted (map fst (f_occurrences h f)) /\
  forall x k, In (x, k) (f_occurrences h f) <-> 0 < k /\ k = count ts x.
Proof. exact C05_occurrences_exact_pf. Qed.
Print Assumptions C05_occurrences_exact.

Example C05_example : exists f, f_many ho_rev [[3;1];[3];[3;2];[1;3]] = Some f /\
   Reach f /\ f_occurrences ho_rev f = [(1,1);(2,1);(3,3)].
Proof. exact Zdd2Thm.C05_example. Qed.

(** C06.  [==] is extensional on reachable forests. *)
Theorem C06_equality_extensional : forall (T : Type) (O : Ord T) (f g : forest T) tf tg,
  Reach f -> Reach g -> f_trees f = Some tf -> f_trees g = Some tg ->
  (f_eqb f g = true <-> forall s, has_set tf s <-> has_set tg s).
Proof. exact C06_equality_extensional_pf. Qed.
Print Assumptions C06_equality_extensional.

Example C06_example : exists f g, f_many ho_id [[1;2];[3]] = Some f /\
  (exists a b, f_unit ho_id [2;1] = Some a /\ f_unique ho_id [3] = Some b /\ f_union ho_id a b = Some g) /\ f_eqb f g = true.
Proof. exact Zdd2Thm.C06_example. Qed.

(** C07. *)
Theorem C07_subset_exact : forall (T : Type) (O : Ord T) (h : hash_order) (f : forest T) e ts,
  Reach f -> f_trees f = Some ts ->
  exists r tr, f_subset h f e = Some r /\ f_trees r = Some tr /\
    forall t, In t tr <-> In t ts /\ In e t.
Proof. exact C07_subset_exact_pf. Qed.
Print Assumptions C07_subset_exact.

(** C08. *)
Theorem C08_subset_not_exact : forall (T : Type) (O : Ord T) (h : hash_order) (f : forest T) e ts,
  Reach f -> f_trees f = Some ts ->
  exists r tr, f_subset_not h f e = Some r /\ f_trees r = Some tr /\
    forall t, In t tr <-> In t ts /\ ~ In e t.
Proof. exact C08_subset_not_exact_pf. Qed.
Print Assumptions C08_subset_not_exact.

(** C09. *)
Theorem C09_subset_all_exact : forall (T : Type) (O : Ord T) (h : hash_order) (f : forest T) es ts,
  Reach f -> f_trees f = Some ts ->
  exists r tr, f_subset_all h f es = Some r /\ f_trees r = Some tr /\
    forall t, In t tr <-> In t ts /\ (forall e, In e es -> In e t).
Proof. exact C09_subset_all_exact_pf. Qed.
Print Assumptions C09_subset_all_exact.

Example C07_example : exists f r, Reach f /\ f_subset ho_id f 3 = Some r /\ f_trees r = Some [[1;3];[2;3;4]].
Proof. exact Zdd2Thm.C07_example. Qed.

Example C08_example : exists f r, Reach f /\ f_subset_not ho_id f 3 = Some r /\ f_trees r = Some [[1;2];[5]].
Proof. exact Zdd2Thm.C08_example. Qed.

Example C09_example : exists f r, Reach f /\ f_subset_all ho_id f [3;2] = Some r /\ f_trees r = Some [[2;3;4]].
Proof. exact Zdd2Thm.C09_example. Qed.

(** [[1],[3],[2,3]].subset_none([1,2]) keeps [2,3]. *)
Theorem C10_subset_none_refuted : ~ C10_claim nat _.
Proof. exact C10_subset_none_refuted_pf. Qed.
Print Assumptions C10_subset_none_refuted.

(** For every forest: total, only trees of the forest are kept, and all that
    should be kept are; exact if all elements occur in the forest and either
    they are all the same or no tree is a proper subset of another, and exact
    if no element occurs at all. *)
Theorem C10_subset_none_partial : forall (T : Type) (O : Ord T) (h : hash_order) (f : forest T) es ts,
  Reach f -> f_trees f = Some ts ->
  exists r tr, f_subset_none h f es = Some r /\ f_trees r = Some tr /\
    (forall t, In t tr -> In t ts) /\
    (forall t, In t ts -> (forall e, In e es -> ~ In e t) -> In t tr) /\
    (((forall e, In e es -> exists t, In t ts /\ In e t) /\
      (no_proper_subset ts ts \/ (exists e, forall x, In x es -> x = e))) \/
     (forall e t, In e es -> In t ts -> ~ In e t) ->
     forall t, In t tr <-> In t ts /\ (forall e, In e es -> ~ In e t)).
Proof. exact C10_subset_none_partial_pf. Qed.
Print Assumptions C10_subset_none_partial.

Example C10_example : exists f r, Reach f /\ f_trees f = Some [[1;2];[1;3];[2;3;4];[5]] /\
  no_proper_subset [[1;2];[1;3];[2;3;4];[5]] [[1;2];[1;3];[2;3;4];[5]] /\
  f_subset_none ho_id f [2;5] = Some r /\ f_trees r = Some [[1;3]].
Proof. exact Zdd2Thm.C10_example. Qed.

(** For every forest and every list of elements: exactly which trees are kept.
    Nothing is filtered if the list is empty or some element occurs nowhere;
    otherwise the trees without the first element are met, one element after the
    other, with the trees without that element, where meeting two families keeps
    the trees of both and also a tree of one along which the other ends. *)
Theorem C10_subset_none_exact_partial : forall (T : Type) (O : Ord T) (h : hash_order) (f : forest T) es ts,
  Reach f -> f_trees f = Some ts ->
  exists r tr, f_subset_none h f es = Some r /\ f_trees r = Some tr /\
    match es with
    | [] => tr = ts
    | e :: es' =>
        (forall x, In x es -> exists t, In t ts /\ In x t) ->
        met_all (count ts) ts (without e ts) es' tr
    end /\
    ((exists x, In x es /\ forall t, In t ts -> ~ In x t) -> tr = ts).
Proof. exact C10_subset_none_exact_partial_pf. Qed.
Print Assumptions C10_subset_none_exact_partial.

(** the refuting case: {2,3} is a tree of [without 1] along which [without 2] ends (at {3}) *)
Example C10_exact_example : exists f r, Reach f /\ f_trees f = Some [[2;3];[3];[1]] /\
  f_subset_none ho_id f [1;2] = Some r /\ f_trees r = Some [[2;3];[3]] /\
  without 1 [[2;3];[3];[1]] = [[2;3];[3]] /\ without 2 [[2;3];[3];[1]] = [[3];[1]] /\
  ends_along (count [[2;3];[3];[1]]) [[3];[1]] [2;3].
Proof. exact Zdd2Thm.C10_exact_example. Qed.

(** many([[1],[1,2]]) ∪ many([[2,3],[2,4],[2,5]]) loses {1} (and gains {2}). *)
Theorem C11_union_refuted : ~ C11_claim nat _.
Proof. exact C11_union_refuted_pf. Qed.
Print Assumptions C11_union_refuted.

(** Union never fails, and is exact when each side is [settled] (Spec): its trees
    survive putting its items in the order of the added counts. *)
Theorem C11_union_partial : forall (T : Type) (O : Ord T) (h : hash_order) (f g : forest T) tf tg,
  Reach f -> Reach g -> f_trees f = Some tf -> f_trees g = Some tg ->
  exists r tr, f_union h f g = Some r /\ f_trees r = Some tr /\
    (settled tf tg -> settled tg tf ->
     forall t, In t tr <-> In t tf \/ In t tg).
Proof. exact C11_union_partial_pf. Qed.
Print Assumptions C11_union_partial.

(** A side is settled if any two items of one of its trees keep their order when
    the counts of the other side are added, or occur in exactly the same trees. *)
Theorem C11_order_kept_partial : forall (T : Type) (O : Ord T) (f g : forest T) tf tg,
  Reach f -> Reach g -> f_trees f = Some tf -> f_trees g = Some tg ->
  order_kept tf tg -> settled tf tg.
Proof. exact C11_order_kept_partial_pf. Qed.
Print Assumptions C11_order_kept_partial.

(** 1 and 2 are in the same trees of the first side; 2 overtakes 1, 1 overtakes nothing *)
Example C11_order_kept_example : exists f g r : forest nat, Reach f /\ Reach g /\ f_trees f = Some [[1;2];[3]] /\ f_trees g = Some [[2;4]] /\
  order_kept [[1;2];[3]] [[2;4]] /\ order_kept [[2;4]] [[1;2];[3]] /\ ~ order_stable [[1;2];[3]] [[2;4]] /\
  f_union ho_id f g = Some r /\ f_trees r = Some [[1;2];[2;4];[3]].
Proof. exact Zdd2Thm.C11_order_kept_example. Qed.

(** A settled side where neither holds: 1 and 2 change places, and {1}, {2} are trees too *)
Example C11_settled_example : exists f g r : forest nat, Reach f /\ Reach g /\ f_trees f = Some [[1;2];[1];[2]] /\ f_trees g = Some [[2;3]] /\
  settled [[1;2];[1];[2]] [[2;3]] /\ settled [[2;3]] [[1;2];[1];[2]] /\ ~ order_kept [[1;2];[1];[2]] [[2;3]] /\
  f_union ho_id f g = Some r /\ f_trees r = Some [[1;2];[2;3];[2];[1]].
Proof. exact Zdd2Thm.C11_settled_example. Qed.

(** Two sufficient conditions: no item in common; every item equally frequent on both sides. *)
Theorem C11_union_disjoint_partial : forall (T : Type) (O : Ord T) (h : hash_order) (f g : forest T) tf tg,
  Reach f -> Reach g -> f_trees f = Some tf -> f_trees g = Some tg ->
  item_disjoint tf tg \/ (forall x, count tf x = count tg x) \/ (at_most_one tf /\ at_most_one tg) ->
  exists r tr, f_union h f g = Some r /\ f_trees r = Some tr /\
    forall t, In t tr <-> In t tf \/ In t tg.
Proof. exact C11_union_disjoint_partial_pf. Qed.
Print Assumptions C11_union_disjoint_partial.

Example C11_example : exists f g r, Reach f /\ Reach g /\ f_trees f = Some [[1;2];[1;3]] /\ f_trees g = Some [[4;5];[5;6]] /\
  item_disjoint [[1;2];[1;3]] [[4;5];[5;6]] /\
  f_union ho_id f g = Some r /\ f_trees r = Some [[1;2];[1;3];[4;5];[5;6]].
Proof. exact Zdd2Thm.C11_example. Qed.

(** Whatever the two forests: the result is the union of what is left of each
    side after re-ordering it by the added counts ([reordered] in Spec). *)
Theorem C11_union_exact_partial : forall (T : Type) (O : Ord T) (h : hash_order) (f g : forest T) tf tg,
  Reach f -> Reach g -> f_trees f = Some tf -> f_trees g = Some tg ->
  exists r tr ef eg, f_union h f g = Some r /\ f_trees r = Some tr /\
    reordered tf tg ef /\ reordered tg tf eg /\
    forall t, In t tr <-> In t ef \/ In t eg.
Proof. exact C11_union_exact_partial_pf. Qed.
Print Assumptions C11_union_exact_partial.

(** [resorted] has exactly one result, so the trees of a union are determined by
    the trees of the two sides: for any two families, what [resorted] makes of them
    is what the union has. *)
Theorem C11_union_determined_partial : forall (T : Type) (O : Ord T) (h : hash_order) (f g : forest T) tf tg ef eg,
  Reach f -> Reach g -> f_trees f = Some tf -> f_trees g = Some tg ->
  resorted (count tf) (fun z => count tf z + count tg z) tf ef ->
  resorted (count tg) (fun z => count tg z + count tf z) tg eg ->
  exists r tr, f_union h f g = Some r /\ f_trees r = Some tr /\
    forall t, In t tr <-> In t ef \/ In t eg.
Proof. exact C11_union_determined_partial_pf. Qed.
Print Assumptions C11_union_determined_partial.

Theorem C11_resorted_total_partial : forall (T : Type) (O : Ord T) (f g : forest T) tf tg,
  Reach f -> Reach g -> f_trees f = Some tf -> f_trees g = Some tg ->
  exists ef, resorted (count tf) (fun z => count tf z + count tg z) tf ef /\
    forall ef', resorted (count tf) (fun z => count tf z + count tg z) tf ef' -> forall t, In t ef' <-> In t ef.
Proof. exact C11_resorted_total_partial_pf. Qed.
Print Assumptions C11_resorted_total_partial.

(** {{1},{1,2}} beside three trees with 2: item 2 moves ahead of 1, and {1} becomes {2} *)
Example C11_resorted_example :
  resorted (count [[1;2];[1]]) (fun z => count [[1;2];[1]] z + count [[2;3];[2;4];[2;5]] z) [[1;2];[1]] [[2];[1;2]] /\
  exists f g, Reach f /\ Reach g /\ f_trees f = Some [[1;2];[1]] /\ f_trees g = Some [[2;3];[2;4];[2;5]].
Proof. exact Zdd2Thm.C11_resorted_example. Qed.

(** so a union has at most as many trees as the two sides together, is empty
    only if both are, and never invents an item *)
Theorem C11_union_bounds_partial : forall (T : Type) (O : Ord T) (h : hash_order) (f g : forest T) tf tg,
  Reach f -> Reach g -> f_trees f = Some tf -> f_trees g = Some tg ->
  exists r tr, f_union h f g = Some r /\ f_trees r = Some tr /\
    length tr <= length tf + length tg /\ (tr = [] -> tf = [] /\ tg = []) /\
    (forall t x, In t tr -> In x t -> exists t', (In t' tf \/ In t' tg) /\ In x t').
Proof. exact C11_union_bounds_partial_pf. Qed.
Print Assumptions C11_union_bounds_partial.

(** the refuting case: [{1}] is lost and [{2}] is new, but the bounds hold *)
Example C11_exact_example : exists f g r, Reach f /\ Reach g /\ f_trees f = Some [[1;2];[1]] /\ f_trees g = Some [[2;3];[2;4];[2;5]] /\
  f_union ho_id f g = Some r /\ f_trees r = Some [[1;2];[2;3];[2;4];[2;5];[2]].
Proof. exact Zdd2Thm.C11_exact_example. Qed.

(** {{1}} ∩ {{1,2}} = {{1,2}} in the code. *)
Theorem C12_intersect_refuted : ~ C12_claim nat _.
Proof. exact C12_intersect_refuted_pf. Qed.
Print Assumptions C12_intersect_refuted.

(** Intersect never fails.  When root translation is harmless (as in C11) it
    keeps every common tree, and any other tree it returns is a tree of one side
    that includes a tree of the other; so it is exact if no tree of one side is
    a proper subset of a tree of the other. *)
Theorem C12_intersect_partial : forall (T : Type) (O : Ord T) (h : hash_order) (f g : forest T) tf tg,
  Reach f -> Reach g -> f_trees f = Some tf -> f_trees g = Some tg ->
  exists r tr, f_intersect h f g = Some r /\ f_trees r = Some tr /\
    (settled tf tg -> settled tg tf ->
     (forall t, In t tf -> In t tg -> In t tr) /\
     (forall t, In t tr -> (In t tf /\ exists p, In p tg /\ incl p t) \/
                           (In t tg /\ exists p, In p tf /\ incl p t)) /\
     (no_proper_subset tf tg -> no_proper_subset tg tf ->
      forall t, In t tr <-> In t tf /\ In t tg)).
Proof. exact C12_intersect_partial_pf. Qed.
Print Assumptions C12_intersect_partial.

Example C12_example : exists f g r, Reach f /\ Reach g /\ f_trees f = Some [[1;2];[1;3]] /\ f_trees g = Some [[1;2];[1;4]] /\
  settled [[1;2];[1;3]] [[1;2];[1;4]] /\ settled [[1;2];[1;4]] [[1;2];[1;3]] /\
  no_proper_subset [[1;2];[1;3]] [[1;2];[1;4]] /\ no_proper_subset [[1;2];[1;4]] [[1;2];[1;3]] /\
  f_intersect ho_id f g = Some r /\ f_trees r = Some [[1;2]].
Proof. exact Zdd2Thm.C12_example. Qed.

(** Whatever the two forests, exactly which trees are returned: the two sides,
    re-ordered by the added counts, are met ([met] in Spec): trees of both, and
    trees of one side along which the other side ends. *)
Theorem C12_intersect_exact_partial : forall (T : Type) (O : Ord T) (h : hash_order) (f g : forest T) tf tg,
  Reach f -> Reach g -> f_trees f = Some tf -> f_trees g = Some tg ->
  exists r tr ef eg, f_intersect h f g = Some r /\ f_trees r = Some tr /\
    reordered tf tg ef /\ reordered tg tf eg /\
    forall t, In t tr <-> met (fun z => count tf z + count tg z) ef eg t.
Proof. exact C12_intersect_exact_partial_pf. Qed.
Print Assumptions C12_intersect_exact_partial.

Theorem C12_intersect_determined_partial : forall (T : Type) (O : Ord T) (h : hash_order) (f g : forest T) tf tg ef eg,
  Reach f -> Reach g -> f_trees f = Some tf -> f_trees g = Some tg ->
  resorted (count tf) (fun z => count tf z + count tg z) tf ef ->
  resorted (count tg) (fun z => count tg z + count tf z) tg eg ->
  exists r tr, f_intersect h f g = Some r /\ f_trees r = Some tr /\
    forall t, In t tr <-> met (fun z => count tf z + count tg z) ef eg t.
Proof. exact C12_intersect_determined_partial_pf. Qed.
Print Assumptions C12_intersect_determined_partial.

(** {{1}} ∩ {{1,2}}: {1,2} is a tree along which {{1}} ends *)
Example C12_exact_example : exists f g r, Reach f /\ Reach g /\ f_trees f = Some [[1]] /\ f_trees g = Some [[1;2]] /\
  f_intersect ho_id f g = Some r /\ f_trees r = Some [[1;2]] /\
  ends_along (fun z => count [[1]] z + count [[1;2]] z) [[1]] [1;2].
Proof. exact Zdd2Thm.C12_exact_example. Qed.

(** unique([1,2]).product(unique([1,2])) misses {1,2}. *)
Theorem C13_product_refuted : ~ C13_claim nat _.
Proof. exact C13_product_refuted_pf. Qed.
Print Assumptions C13_product_refuted.

(** Product never fails.  When root translation is harmless every result is the
    union of one tree of each side; if moreover no item is shared or one side
    has at most one tree, every such union is there. *)
Theorem C13_product_partial : forall (T : Type) (O : Ord T) (h : hash_order) (f g : forest T) tf tg,
  Reach f -> Reach g -> f_trees f = Some tf -> f_trees g = Some tg ->
  exists r tr, f_product h f g = Some r /\ f_trees r = Some tr /\
    (settled tf tg -> settled tg tf ->
     (forall t, In t tr -> exists a b, In a tf /\ In b tg /\ is_union t a b) /\
     (item_disjoint tf tg \/ at_most_one tf \/ at_most_one tg ->
      forall s, has_set tr s <-> exists a b, In a tf /\ In b tg /\ is_union s a b)).
Proof. exact C13_product_partial_pf. Qed.
Print Assumptions C13_product_partial.

(** In particular: exact when the two forests share no item. *)
Theorem C13_product_disjoint_partial : forall (T : Type) (O : Ord T) (h : hash_order) (f g : forest T) tf tg,
  Reach f -> Reach g -> f_trees f = Some tf -> f_trees g = Some tg -> item_disjoint tf tg ->
  exists r tr, f_product h f g = Some r /\ f_trees r = Some tr /\
    forall s, has_set tr s <-> exists a b, In a tf /\ In b tg /\ is_union s a b.
Proof. exact C13_product_disjoint_partial_pf. Qed.
Print Assumptions C13_product_disjoint_partial.

Example C13_example : exists f g r, Reach f /\ Reach g /\ f_trees f = Some [[1;2];[1;3]] /\ f_trees g = Some [[4;5];[5;6]] /\
  item_disjoint [[1;2];[1;3]] [[4;5];[5;6]] /\
  f_product ho_id f g = Some r /\ f_trees r = Some [[1;2;4;5];[1;2;5;6];[1;3;4;5];[1;3;5;6]].
Proof. exact Zdd2Thm.C13_example. Qed.

(** Whatever the two forests, exactly which trees are returned: after re-ordering
    both sides by the added counts, the unions of one tree of each side, except
    of pairs that differ after a cut at which what is left of the two sides is
    the same family (the code then returns that family instead of its product). *)
Theorem C13_product_exact_partial : forall (T : Type) (O : Ord T) (h : hash_order) (f g : forest T) tf tg,
  Reach f -> Reach g -> f_trees f = Some tf -> f_trees g = Some tg ->
  exists r tr ef eg, f_product h f g = Some r /\ f_trees r = Some tr /\
    reordered tf tg ef /\ reordered tg tf eg /\
    let o := fun z => count tf z + count tg z in
    forall s, has_set tr s <-> exists a b, In a ef /\ In b eg /\ is_union s a b /\
      forall c, same_rest o c ef a eg b -> agree_after o c a b.
Proof. exact C13_product_exact_partial_pf. Qed.
Print Assumptions C13_product_exact_partial.

Theorem C13_product_determined_partial : forall (T : Type) (O : Ord T) (h : hash_order) (f g : forest T) tf tg ef eg,
  Reach f -> Reach g -> f_trees f = Some tf -> f_trees g = Some tg ->
  resorted (count tf) (fun z => count tf z + count tg z) tf ef ->
  resorted (count tg) (fun z => count tg z + count tf z) tg eg ->
  exists r tr, f_product h f g = Some r /\ f_trees r = Some tr /\
    let o := fun z => count tf z + count tg z in
    forall s, has_set tr s <-> exists a b, In a ef /\ In b eg /\ is_union s a b /\
      forall c, same_rest o c ef a eg b -> agree_after o c a b.
Proof. exact C13_product_determined_partial_pf. Qed.
Print Assumptions C13_product_determined_partial.

(** unique([1,2]) × itself: the pair {1},{2} is left out, because before any item
    the two sides are already the same family *)
Example C13_exact_example : exists f r, Reach f /\ f_trees f = Some [[1];[2]] /\
  f_product ho_id f f = Some r /\ f_trees r = Some [[1];[2]] /\
  same_rest (fun z => count [[1];[2]] z + count [[1];[2]] z) None [[1];[2]] [1] [[1];[2]] [2] /\
  ~ agree_after (fun z => count [[1];[2]] z + count [[1];[2]] z) None [1] [2].
Proof. exact Zdd2Thm.C13_exact_example. Qed.

(** C14: the laws, for all reachable forests (no side condition), as [==]. *)
Theorem C14_laws : forall (T : Type) (O : Ord T) (h : hash_order) (f g : forest T), Reach f -> Reach g ->
  f_union h f g = f_union h g f /\
  f_intersect h f g = f_intersect h g f /\
  f_product h f g = f_product h g f /\
  f_union h f f = Some f /\ f_intersect h f f = Some f /\
  f_union h f f_empty = Some f /\
  f_intersect h f f_empty = Some f_empty /\
  f_product h f f_empty = Some f_empty.
Proof. exact C14_laws_pf. Qed.
Print Assumptions C14_laws.

Example C14_example : exists f g r : forest nat, Reach f /\ Reach g /\ f_eqb f g = false /\ f_union ho_id f g = Some r /\ f_union ho_rev g f = Some r.
Proof. exact Zdd2Thm.C14_example. Qed.

(** C15: every API call on reachable forests returns (no panic, no divergence),
    and the listings, counts of a reachable forest are available. *)
Theorem C15_total : forall (T : Type) (O : Ord T) (h : hash_order) (f g : forest T) (rows : list (list T)) items e,
  Reach f -> Reach g ->
  f_many h rows <> None /\ f_unit h items <> None /\ f_unique h items <> None /\
  f_union h f g <> None /\ f_intersect h f g <> None /\ f_product h f g <> None /\
  f_subset h f e <> None /\ f_subset_not h f e <> None /\
  f_subset_all h f items <> None /\ f_subset_none h f items <> None /\
  f_trees f <> None /\ f_len f <> None /\ f_is_empty f <> None.
Proof. exact C15_total_pf. Qed.
Print Assumptions C15_total.

(** also where the results are wrong (C11): nothing fails *)
Example C15_example : exists f g : forest nat, Reach f /\ Reach g /\
  f_union ho_rev f g <> None /\ f_product ho_rev f g <> None /\ f_trees f = Some [[1;2];[1]].
Proof. exact Zdd2Thm.C15_example. Qed.

(** C16 (zdd2 half): results do not depend on hash iteration order. *)
Theorem C16_hash_order_zdd2 : forall (T : Type) (O : Ord T) (h h' : hash_order) (f g : forest T) (rows : list (list T)) items e,
  Reach f -> Reach g ->
  f_many h rows = f_many h' rows /\ f_unit h items = f_unit h' items /\ f_unique h items = f_unique h' items /\
  f_union h f g = f_union h' f g /\ f_intersect h f g = f_intersect h' f g /\ f_product h f g = f_product h' f g /\
  f_subset h f e = f_subset h' f e /\ f_subset_not h f e = f_subset_not h' f e /\
  f_subset_all h f items = f_subset_all h' f items /\ f_subset_none h f items = f_subset_none h' f items /\
  f_occurrences h f = f_occurrences h' f.
Proof. exact C16_hash_order_zdd2_pf. Qed.
Print Assumptions C16_hash_order_zdd2.

(** the two hash orders of the example do list a map differently *)
Example C16_example : exists f g : forest nat, Reach f /\ Reach g /\
  ho_iter ho_id 0 [(1,2);(3,4)] <> ho_iter ho_rev 0 [(1,2);(3,4)] /\
  f_union ho_id f g = f_union ho_rev f g /\ f_union ho_id f g <> None.
Proof. exact Zdd2Thm.C16_example. Qed.

(** C17 *)
Theorem C17_occurrence_is_subset_len : forall (T : Type) (O : Ord T) (h : hash_order) (f : forest T) e, Reach f ->
  exists r1 r2 n n1 n2,
    f_subset h f e = Some r1 /\ f_subset_not h f e = Some r2 /\
    f_len f = Some n /\ f_len r1 = Some n1 /\ f_len r2 = Some n2 /\
    n1 + n2 = n /\
    (forall k, In (e, k) (f_occurrences h f) -> k = n1) /\
    ((forall k, ~ In (e, k) (f_occurrences h f)) -> n1 = 0).
Proof. exact C17_occurrence_is_subset_len_pf. Qed.
Print Assumptions C17_occurrence_is_subset_len.

Example C17_example : exists f r1 r2 : forest nat, Reach f /\ f_len f = Some 4 /\
  f_subset ho_id f 1 = Some r1 /\ f_len r1 = Some 2 /\ f_subset_not ho_id f 1 = Some r2 /\ f_len r2 = Some 2 /\
  In (1, 2) (f_occurrences ho_id f) /\ In (5, 1) (f_occurrences ho_id f).
Proof. exact Zdd2Thm.C17_example. Qed.

(** C18: shape of the serialized root, and its priorities index the universe. *)
Theorem C18_root_shape : forall (T : Type) (O : Ord T) (f : forest T), Reach f ->
  ordered (f_root f) /\ zero_suppressed (f_root f) /\
  forall p, In p (labels (f_root f)) -> exists x, get_item (f_univ f) p = Some x /\ get_priority (f_univ f) x = Some p.
Proof. exact C18_root_shape_pf. Qed.
Print Assumptions C18_root_shape.

Example C18_example : exists f, f_many ho_id [[1;2];[2;3]] = Some f /\ Reach f /\
  f_root f = Branch 0 Never (Branch 1 (Branch 2 Never Always) Always).
Proof. exact Zdd2Thm.C18_example. Qed.
