(** Properties_LoadOps.v: C98: operations on loaded forests
    Generated by tools/gen_props.py from LoadOpsThm.v: the property theorems, each followed by
    instances that meet its hypotheses (examples). *)
From Coq Require Import List Arith NArith Lia Bool Permutation Sorted.
From Verif Require Import Base DD Spec Zdd2Model ParserModel LoadOpsSpec.
From Verif Require Import Zdd2Node Zdd2Node2 Zdd2Exact Zdd2Univ Zdd2Forest Zdd2Forest2 Zdd2Forest3 Zdd2Exact2 Zdd2Laws Zdd2Thm ParserThm LoadProofs.
Import ListNotations.
From Verif Require Import LoadOpsThm.

(** C98.  Union of two forests that were made by the API or loaded from any data: if it returns at all
    (C95 says when), the result is a forest the API can make, and it holds the union of what is left
    of each side after re-ordering its items by the added counts, the empty set left out; the counts
    are those that [occurrences] reports, whether or not they are those of the trees. *)
Theorem C98_union : forall (T : Type) (O : Ord T) (h h1 h2 : hash_order) (f g r : forest T) tf tg,
  obtainable f -> obtainable g -> f_trees f = Some tf -> f_trees g = Some tg -> f_union h f g = Some r ->
  let c1 := reported (f_occurrences h1 f) in let c2 := reported (f_occurrences h2 g) in
  Reach r /\ exists tr, f_trees r = Some tr /\
  (exists ef eg, resorted c1 (fun z => c1 z + c2 z) tf ef /\ resorted c2 (fun z => c2 z + c1 z) tg eg) /\
  forall ef eg, resorted c1 (fun z => c1 z + c2 z) tf ef -> resorted c2 (fun z => c2 z + c1 z) tg eg ->
    forall t, In t tr <-> t <> [] /\ (In t ef \/ In t eg).
Proof. exact C98_union_pf. Qed.
Print Assumptions C98_union.

(** Intersect: what [met] says of the re-ordered sides. *)
Theorem C98_intersect : forall (T : Type) (O : Ord T) (h h1 h2 : hash_order) (f g r : forest T) tf tg,
  obtainable f -> obtainable g -> f_trees f = Some tf -> f_trees g = Some tg -> f_intersect h f g = Some r ->
  let c1 := reported (f_occurrences h1 f) in let c2 := reported (f_occurrences h2 g) in
  Reach r /\ exists tr, f_trees r = Some tr /\
  (exists ef eg, resorted c1 (fun z => c1 z + c2 z) tf ef /\ resorted c2 (fun z => c2 z + c1 z) tg eg) /\
  forall ef eg, resorted c1 (fun z => c1 z + c2 z) tf ef -> resorted c2 (fun z => c2 z + c1 z) tg eg ->
    forall t, In t tr <-> t <> [] /\ met (fun z => c1 z + c2 z) ef eg t.
Proof. exact C98_intersect_pf. Qed.
Print Assumptions C98_intersect.

(** Product: the unions of pairs that [same_rest] leaves. *)
Theorem C98_product : forall (T : Type) (O : Ord T) (h h1 h2 : hash_order) (f g r : forest T) tf tg,
  obtainable f -> obtainable g -> f_trees f = Some tf -> f_trees g = Some tg -> f_product h f g = Some r ->
  let c1 := reported (f_occurrences h1 f) in let c2 := reported (f_occurrences h2 g) in
  let o := fun z => c1 z + c2 z in
  Reach r /\ exists tr, f_trees r = Some tr /\
  (exists ef eg, resorted c1 (fun z => c1 z + c2 z) tf ef /\ resorted c2 (fun z => c2 z + c1 z) tg eg) /\
  forall ef eg, resorted c1 (fun z => c1 z + c2 z) tf ef -> resorted c2 (fun z => c2 z + c1 z) tg eg ->
    forall t, In t tr <-> t <> [] /\ ssorted t /\ exists a b, In a ef /\ In b eg /\ is_union t a b /\
      forall k, same_rest o k ef a eg b -> agree_after o k a b.
Proof. exact C98_product_pf. Qed.
Print Assumptions C98_product.

(** The filters on such a forest.  What counts is which items have an entry in [occurrences]: with
    entries for all given items the forest is filtered, the empty set dropped and the result one the API
    can make; without, [subset] and [subset_all] give the empty forest, [subset_not] and [subset_none]
    the forest itself. *)
Theorem C98_filters : forall (T : Type) (O : Ord T) (h h1 : hash_order) (f : forest T) (e : T) (es : list T) ts,
  obtainable f -> f_trees f = Some ts ->
  let entry x := In x (map fst (f_occurrences h1 f)) in
  (exists r rs, f_subset h f e = Some r /\ Reach r /\ f_trees r = Some rs /\
     forall t, In t rs <-> In t ts /\ In e t) /\
  (exists r rs, f_subset_not h f e = Some r /\ f_trees r = Some rs /\
     (entry e -> Reach r /\ forall t, In t rs <-> t <> [] /\ In t ts /\ ~ In e t) /\ (~ entry e -> r = f)) /\
  (exists r rs, f_subset_all h f es = Some r /\ f_trees r = Some rs /\
     (es = [] -> r = f) /\ (es <> [] -> Reach r /\ forall t, In t rs <-> In t ts /\ forall x, In x es -> In x t)) /\
  (exists r, f_subset_none h f es = Some r /\ (es = [] \/ (exists x, In x es /\ ~ entry x) -> r = f)).
Proof. exact C98_filters_pf. Qed.
Print Assumptions C98_filters.

(** [subset_none] when every given item has an entry (and no label is dropped in the listing): the
    family of the empty set, met with the trees without the first item, then with those without the
    second, and so on; the empty set is left out of the result. *)
Theorem C98_subset_none : forall (T : Type) (O : Ord T) (h h1 : hash_order) (f r : forest T) (e : T) (es : list T) ts fs,
  obtainable f -> indexed f -> f_trees f = Some ts ->
  (forall x, In x (e :: es) -> In x (map fst (f_occurrences h1 f))) ->
  met_all (reported (f_occurrences h1 f)) ts [[]] (e :: es) fs ->
  f_subset_none h f (e :: es) = Some r ->
  Reach r /\ exists rs, f_trees r = Some rs /\ forall t, In t rs <-> t <> [] /\ In t fs.
Proof. exact C98_subset_none_pf. Qed.
Print Assumptions C98_subset_none.

(** When do all trees survive the re-ordering?  In particular if any two items of one tree keep their
    order under the added counts.  Then union is the plain union (empty set left out). *)
Theorem C98_kept : forall (T : Type) (O : Ord T) (h h1 h2 : hash_order) (f g r : forest T) tf tg,
  obtainable f -> obtainable g -> f_trees f = Some tf -> f_trees g = Some tg -> f_union h f g = Some r ->
  let c1 := reported (f_occurrences h1 f) in let c2 := reported (f_occurrences h2 g) in
  let o := fun z => c1 z + c2 z in
  (forall t x y, In t tf -> In x t -> In y t -> before c1 x y -> before o x y) ->
  (forall t x y, In t tg -> In x t -> In y t -> before c2 x y -> before o x y) ->
  exists tr, f_trees r = Some tr /\ forall t, In t tr <-> t <> [] /\ (In t tf \/ In t tg).
Proof. exact C98_kept_pf. Qed.
Print Assumptions C98_kept.

(** " (1 (A) (A))x" with the entries 7:1, 8:1 loads as {{8},{}}, which is not a forest of the API, and
    whose count for 7 is not that of the trees; its operations with {{7},{9}} and with {{8},{9}}. *)
Example C98_example :
  let data := ([32;40;49;32;40;65;41;32;40;65;41;41;120]%N, [(7, 1); (8, 1)]) in
  exists f g k u p i, f_deserialize ho_id data = Some f /\ f_many ho_rev [[7];[9]] = Some g /\ f_many ho_id [[8];[9]] = Some k /\
    obtainable f /\ obtainable g /\ obtainable k /\ f_trees f = Some [[8]; []] /\ f_occurrences ho_id f = [(7, 1); (8, 1)] /\
    f_union ho_id f g = Some u /\ f_trees u = Some [[7]; [8]; [9]] /\
    f_product ho_id f g = Some p /\ f_trees p = Some [[7; 8]; [7]; [8; 9]; [9]] /\
    f_intersect ho_id f k = Some i /\ f_trees i = Some [[8]; [9]] /\
    (forall t x y, In t [[8]; []] -> In x t -> In y t -> before (reported (f_occurrences ho_id f)) x y ->
       before (fun z => reported (f_occurrences ho_id f) z + reported (f_occurrences ho_id g) z) x y).
Proof. exact LoadOpsThm.C98_example. Qed.

(** filters: 7 has an entry though no tree holds it, 9 has none; and [subset_none] of 7 and of 8 *)
Example C98_filters_example :
  let data := ([32;40;49;32;40;65;41;32;40;65;41;41;120]%N, [(7, 1); (8, 1)]) in
  exists f a b, f_deserialize ho_id data = Some f /\ f_subset_not ho_id f 7 = Some a /\ f_trees a = Some [[8]] /\
    f_subset_not ho_id f 9 = Some f /\ f_trees f = Some [[8]; []] /\ f_subset_none ho_id f [7; 9] = Some f /\
    f_subset_none ho_id f [8] = Some b /\ f_trees b = Some [] /\ indexed f /\ obtainable f /\
    (forall x, In x [8] -> In x (map fst (f_occurrences ho_id f))) /\
    met_all (reported (f_occurrences ho_id f)) [[8]; []] [[]] [8] [[]].
Proof. exact LoadOpsThm.C98_filters_example. Qed.
