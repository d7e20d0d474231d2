(** Properties_Bdd.v: bowtie-core: BDD nodes, closet builder, closets
    Generated by tools/gen_props.py from BddThm.v: the property theorems, each followed by
    instances that meet its hypotheses (examples). *)
From Coq Require Import List Arith Lia Bool Permutation Sorted.
From Verif Require Import Base DD Spec BddSpec BddModel BddRun BddNode BddCloset.
Import ListNotations.
From Verif Require Import BddThm.

(** C43.  [&] and [|] on any two nodes, ordered or not. *)
Theorem C43_and_or_eval : forall (I : Type) (O : Ord I) (env : I -> bool) (a b : dd I),
  eval env (bitand a b) = eval env a && eval env b /\
  eval env (bitor a b) = eval env a || eval env b.
Proof. exact C43_and_or_eval_pf. Qed.
Print Assumptions C43_and_or_eval.

Example C43_example : bitand (bitor (positive_branch 1) (positive_branch 2)) (negative_branch 1)
  = Branch 1 (Branch 2 (Leaf false) (Leaf true)) (Leaf false).
Proof. exact BddThm.C43_example. Qed.

(** C44 is false: [!] and [^] go wrong on [x & y]. *)
Theorem C44_not_xor_refuted :
  ~ (forall (env : nat -> bool) (a b : dd nat), eval env (bitnot a) = negb (eval env a)) /\
  ~ (forall (env : nat -> bool) (a b : dd nat), eval env (bitxor a b) = xorb (eval env a) (eval env b)).
Proof. exact C44_not_xor_refuted_pf. Qed.
Print Assumptions C44_not_xor_refuted.

(** C44, what holds: on an ordered node [!] is right exactly for leaves and for
    branches whose children are complementary (such as single-item branches) ... *)
Theorem C44_not_partial : forall (I : Type) (O : Ord I) (a : dd I), bordered a ->
  ((forall env, eval env (bitnot a) = negb (eval env a)) <->
   match a with
   | Leaf _ => True
   | Branch _ lo hi => forall env, eval env lo = negb (eval env hi)
   end).
Proof. exact C44_not_partial_pf. Qed.
Print Assumptions C44_not_partial.

(** ... and [^] is right whenever [!] is right on both operands. *)
Theorem C44_xor_partial : forall (I : Type) (O : Ord I) (a b : dd I) (env : I -> bool),
  eval env (bitnot a) = negb (eval env a) -> eval env (bitnot b) = negb (eval env b) ->
  eval env (bitxor a b) = xorb (eval env a) (eval env b).
Proof. exact C44_xor_partial_pf. Qed.
Print Assumptions C44_xor_partial.

(** ... and what they compute on any node, ordered or not where said: [!] reads its
    top item the wrong way round and leaves everything below as it was, and [^] is
    the usual formula over that. *)
Theorem C44_exact_partial : forall (I : Type) (O : Ord I) (a b : dd I) (env : I -> bool),
  (bordered a -> eval env (bitnot a) =
     match a with
     | Leaf v => negb v
     | Branch i _ _ => eval (upd env i (negb (env i))) a
     end) /\
  bitnot (bitnot a) = a /\
  eval env (bitxor a b) =
    (eval env a && eval env (bitnot b)) || (eval env (bitnot a) && eval env b).
Proof. exact C44_exact_partial_pf. Qed.
Print Assumptions C44_exact_partial.

Example C44_example : bitxor (positive_branch 1) (positive_branch 2)
  = Branch 1 (Branch 2 (Leaf false) (Leaf true)) (Branch 2 (Leaf true) (Leaf false)).
Proof. exact BddThm.C44_example. Qed.

(** C45.  [reduce]. *)
Theorem C45_reduce : forall (I : Type) (O : Ord I) (a : dd I) (env : I -> bool),
  eval env (reduce a) = eval env a /\ breduced (reduce a).
Proof. exact C45_reduce_pf. Qed.
Print Assumptions C45_reduce.

(** [restrict] *)
Theorem C45_restrict : forall (I : Type) (O : Ord I) (a : dd I) (i : I) (v : bool), bordered a ->
  (forall env, eval env (restrict a i v) = eval (upd env i v) a) /\
  ~ In i (labels (restrict a i v)) /\ bordered (restrict a i v).
Proof. exact C45_restrict_pf. Qed.
Print Assumptions C45_restrict.

Example C45_example : restrict (Branch 1 (Branch 2 (Leaf false) (Leaf true)) (Branch 2 (Leaf true) (Leaf false))) 2 true
  = Branch 1 (Leaf true) (Leaf false).
Proof. exact BddThm.C45_example. Qed.

(** C46.  Nodes made from single-item branches are equal iff they denote the same boolean function. *)
Theorem C46_canonical : forall (I : Type) (O : Ord I) (a b : dd I), made a -> made b ->
  ((forall env, eval env a = eval env b) <-> a = b).
Proof. exact C46_canonical_pf. Qed.
Print Assumptions C46_canonical.

(** In particular they are ordered, without redundant branches. *)
Theorem C46_ordered_reduced : forall (I : Type) (O : Ord I) (a : dd I), made a -> bordered a /\ breduced a.
Proof. exact C46_ordered_reduced_pf. Qed.
Print Assumptions C46_ordered_reduced.

Example C46_example :
  bitor (bitand (positive_branch 2) (positive_branch 1)) (positive_branch 2) = positive_branch 2.
Proof. exact BddThm.C46_example. Qed.

(** C47.  [build] succeeds exactly on legal histories ... *)
Theorem C47_build_ok_iff_legal : forall (I F : Type) (OI : Ord I) (OF : Ord F) (h : hash_order) (calls : list (bcall I F)),
  (exists c, build h (run_calls calls) = Ok c) <-> legal calls.
Proof. exact C47_build_ok_iff_legal_pf. Qed.
Print Assumptions C47_build_ok_iff_legal.

(** ... and otherwise reports exactly the real violations, a single one bare,
    several in a [CompoundError] without repeats. *)
Theorem C47_errors_exact : forall (I F : Type) (OI : Ord I) (OF : Ord F) (h : hash_order) (calls : list (bcall I F)) e,
  build h (run_calls calls) = Err e ->
  exists l, NoDup l /\ (forall v, In v l <-> real_violation calls v) /\
    ((exists v, l = [v] /\ e = Single v) \/ (2 <= length l /\ e = CompoundError l)).
Proof. exact C47_errors_exact_pf. Qed.
Print Assumptions C47_errors_exact.

Example C47_example_ok : legal ex_calls.
Proof. exact BddThm.C47_example_ok. Qed.

Example C47_example_err : build ho_id (run_calls ([AddItem 1 11; AddItem 2 11; AddExcl 11 30; AddIncl 11 11] : list (bcall nat nat)))
  = Err (CompoundError [ConflictingFamilies 11 [1; 2]; MissingFamily 30; InclusionError 1 [11; 11]]).
Proof. exact BddThm.C47_example_err. Qed.

(** C48.  A built closet admits exactly the valid outfits; after selections,
    exactly those that contain them. *)
Theorem C48_admits_valid_outfits : forall (I F : Type) (OI : Ord I) (OF : Ord F) (calls : list (bcall I F)) sels c (o : list I),
  reached calls sels c -> (admits c o <-> valid_outfit calls o /\ incl sels o).
Proof. exact C48_admits_valid_outfits_pf. Qed.
Print Assumptions C48_admits_valid_outfits.

(** every item of the history, and no other, is known to the closet, under the
    family it was added to *)
Theorem C48_families : forall (I F : Type) (OI : Ord I) (OF : Ord F) (calls : list (bcall I F)) sels c i f,
  reached calls sels c -> (get_family c i = Some f <-> In (f, i) (adds calls)).
Proof. exact C48_families_pf. Qed.
Print Assumptions C48_families.

Example C48_example : exists c, reached ex_calls [] c /\ admits c [12; 22] /\ ~ admits c [11; 21].
Proof. exact BddThm.C48_example. Qed.

(** C49.  [outfit_count] is the length of the list of all the valid outfits
    containing the selections. *)
Theorem C49_outfit_count : forall (I F : Type) (OI : Ord I) (OF : Ord F) (calls : list (bcall I F)) sels c,
  reached calls sels c ->
  exists outfits, NoDup outfits /\
    (forall o, In o outfits <-> ssorted o /\ valid_outfit calls o /\ incl sels o) /\
    outfit_count (c_root c) = length outfits.
Proof. exact C49_outfit_count_pf. Qed.
Print Assumptions C49_outfit_count.

Example C49_example : exists c, reached ex_calls [] c /\ outfit_count (c_root c) = 6.
Proof. exact BddThm.C49_example. Qed.

(** C50.  The counts of any closet, reachable or not ... *)
Theorem C50_counts : forall (I : Type) (root : dd I),
  node_count root = 2 * leaf_count root - 1 /\ 1 <= leaf_count root /\ outfit_count root <= leaf_count root.
Proof. exact C50_counts_pf. Qed.
Print Assumptions C50_counts.

(** ... and the depth of a reachable one: 1 + the number of undecided items if
    some valid outfit remains, 1 if none does. *)
Theorem C50_depth : forall (I F : Type) (OI : Ord I) (OF : Ord F) (calls : list (bcall I F)) sels c undecided,
  reached calls sels c -> NoDup undecided -> (forall i, In i undecided <-> known calls i /\ ~ In i sels) ->
  (satisfiable calls sels -> depth (c_root c) = length undecided + 1) /\
  (~ satisfiable calls sels -> depth (c_root c) = 1).
Proof. exact C50_depth_pf. Qed.
Print Assumptions C50_depth.

Example C50_example : exists c, reached ex_calls [] c /\ node_count (c_root c) = 39 /\ leaf_count (c_root c) = 20 /\ depth (c_root c) = 7.
Proof. exact BddThm.C50_example. Qed.

(** C51.  The summary of a closet that still admits an outfit. *)
Theorem C51_summary : forall (I F : Type) (OI : Ord I) (OF : Ord F) (calls : list (bcall I F)) sels c,
  reached calls sels c -> satisfiable calls sels ->
  (forall i, In (Selected i) (c_summary c) <-> In i sels) /\
  (forall i, In (Available i) (c_summary c) <->
     ~ In i sels /\ exists o, valid_outfit calls o /\ incl sels o /\ In i o) /\
  (forall i, In (Excluded i) (c_summary c) <->
     known calls i /\ ~ In i sels /\ ~ exists o, valid_outfit calls o /\ incl sels o /\ In i o) /\
  ssorted (c_summary c) /\
  NoDup (map status_item (c_summary c)) /\
  (forall i, In i (map status_item (c_summary c)) <-> known calls i).
Proof. exact C51_summary_pf. Qed.
Print Assumptions C51_summary.

Example C51_example : exists c, reached ex_calls [12] c /\
  c_summary c = [Excluded 11; Excluded 13; Excluded 21; Excluded 23; Available 22; Selected 12].
Proof. exact BddThm.C51_example. Qed.

(** C52 is false for closets without any valid outfit: families {1}, {2} with an
    exclusion between the two items; selecting one of them is accepted. *)
Theorem C52_select_refuted :
  ~ (forall (calls : list (bcall nat nat)) sels c h i, reached calls sels c ->
       (select_item h c i = Err (ExcludedItem i) <->
        known calls i /\ ~ exists o, valid_outfit calls o /\ incl sels o /\ In i o)).
Proof. exact C52_select_refuted_pf. Qed.
Print Assumptions C52_select_refuted.

(** C52, what holds on every reachable closet ... *)
Theorem C52_unknown : forall (I F : Type) (OI : Ord I) (OF : Ord F) (calls : list (bcall I F)) sels c h i,
  reached calls sels c ->
  (select_item h c i = Err (UnknownItem i) <-> ~ known calls i) /\
  (forall c', select_item h c i = Ok c' -> forall o, admits c' o <-> admits c o /\ In i o).
Proof. exact C52_unknown_pf. Qed.
Print Assumptions C52_unknown.

(** ... and the full claim on every reachable closet that still admits an outfit. *)
Theorem C52_select_partial : forall (I F : Type) (OI : Ord I) (OF : Ord F) (calls : list (bcall I F)) sels c h i,
  reached calls sels c -> satisfiable calls sels ->
  (select_item h c i = Err (ExcludedItem i) <->
     known calls i /\ ~ exists o, valid_outfit calls o /\ incl sels o /\ In i o) /\
  ((exists c', select_item h c i = Ok c') <-> exists o, valid_outfit calls o /\ incl sels o /\ In i o).
Proof. exact C52_select_partial_pf. Qed.
Print Assumptions C52_select_partial.

(** ... and on a reachable closet that admits none, nothing is ever refused as
    excluded: the summary shows the selections only, and every known item is accepted. *)
Theorem C52_no_outfit_partial : forall (I F : Type) (OI : Ord I) (OF : Ord F) (calls : list (bcall I F)) sels c h i,
  reached calls sels c -> ~ satisfiable calls sels ->
  (forall s, In s (c_summary c) <-> exists x, s = Selected x /\ In x sels) /\
  (forall j, select_item h c i <> Err (ExcludedItem j)) /\
  ((exists c', select_item h c i = Ok c') <-> known calls i).
Proof. exact C52_no_outfit_partial_pf. Qed.
Print Assumptions C52_no_outfit_partial.

Example C52_example : exists c, reached ex_calls [] c /\ satisfiable ex_calls [].
Proof. exact BddThm.C52_example. Qed.

(** C53.  Selections with the same set of items - in whatever order, with
    whatever repetitions - give equal closets. *)
Theorem C53_order_irrelevant : forall (I F : Type) (OI : Ord I) (OF : Ord F) (calls : list (bcall I F)) sels1 sels2 c1 c2,
  reached calls sels1 c1 -> reached calls sels2 c2 -> same_elems sels1 sels2 -> c1 = c2.
Proof. exact C53_order_irrelevant_pf. Qed.
Print Assumptions C53_order_irrelevant.

(** Selecting an already selected item is accepted and changes nothing. *)
Theorem C53_idempotent : forall (I F : Type) (OI : Ord I) (OF : Ord F) (calls : list (bcall I F)) sels c h i,
  reached calls sels c -> In i sels -> select_item h c i = Ok c.
Proof. exact C53_idempotent_pf. Qed.
Print Assumptions C53_idempotent.

(** From a built closet that admits an outfit, a list of selections is accepted
    step by step iff some valid outfit contains them all: so acceptance does not
    depend on the order either. *)
Theorem C53_acceptance : forall (I F : Type) (OI : Ord I) (OF : Ord F) (calls : list (bcall I F)) c0 sels,
  reached calls [] c0 -> satisfiable calls [] ->
  ((exists c, reached calls sels c) <-> satisfiable calls sels).
Proof. exact C53_acceptance_pf. Qed.
Print Assumptions C53_acceptance.

(** the same two items selected in both orders, one of them twice *)
Example C53_example : exists c0 c1 c2 c3, reached ex_calls [] c0 /\ satisfiable ex_calls [] /\
  reached ex_calls [12; 22] c1 /\ reached ex_calls [22; 12; 22] c2 /\ same_elems [12; 22] [22; 12; 22] /\ c1 = c2 /\
  select_item ho_rev c1 12 = Ok c3 /\ c3 = c1 /\ ~ satisfiable ex_calls [12; 21].
Proof. exact BddThm.C53_example. Qed.

(** C54.  On a built closet: an outfit returned is sorted without repetition,
    contains the selections and is valid ... *)
Theorem C54_result_valid : forall (I F : Type) (OI : Ord I) (OF : Ord F) (calls : list (bcall I F)) c (sel o : list I),
  reached calls [] c -> complete_outfit c sel = Some (Ok o) ->
  ssorted o /\ incl sel o /\ valid_outfit calls o.
Proof. exact C54_result_valid_pf. Qed.
Print Assumptions C54_result_valid.

(** ... and one is returned whenever the selections are known items of different
    families that some valid outfit contains. *)
Theorem C54_returns : forall (I F : Type) (OI : Ord I) (OF : Ord F) (calls : list (bcall I F)) c (sel : list I),
  reached calls [] c -> (forall i, In i sel -> known calls i) -> NoDup (map (first_family calls) sel) ->
  satisfiable calls sel -> exists o, complete_outfit c sel = Some (Ok o).
Proof. exact C54_returns_pf. Qed.
Print Assumptions C54_returns.

Example C54_example : exists c, reached ex_calls [] c /\ complete_outfit c [12] = Some (Ok [12; 22]) /\
  complete_outfit c [] = Some (Ok [11; 22]).
Proof. exact BddThm.C54_example. Qed.

(** C55.  [complete_outfit] never panics, and its errors are exact - also after
    selections.  Unknown selections come first, listed in order; ... *)
Theorem C55_unknown : forall (I F : Type) (OI : Ord I) (OF : Ord F) (calls : list (bcall I F)) sels c (sel : list I),
  reached calls sels c ->
  complete_outfit c sel <> None /\
  forall u, complete_outfit c sel = Some (Err (UnknownItems u)) <->
    u = filter (fun i => match first_family calls i with None => true | Some _ => false end) sel /\ u <> [].
Proof. exact C55_unknown_pf. Qed.
Print Assumptions C55_unknown.

(** ... then families with two or more selections, exactly these, each with its
    selections in order; ... *)
Theorem C55_multiple : forall (I F : Type) (OI : Ord I) (OF : Ord F) (calls : list (bcall I F)) sels c (sel : list I) m,
  reached calls sels c ->
  (complete_outfit c sel = Some (Err (MultipleItemsPerFamily m)) <->
   (forall i, In i sel -> known calls i) /\ ~ NoDup (map (first_family calls) sel) /\ ssorted (map fst m) /\
   forall f l, In (f, l) m <->
     l = filter (fun i => match first_family calls i with Some g => eqb_ g f | None => false end) sel /\ 2 <= length l).
Proof. exact C55_multiple_pf. Qed.
Print Assumptions C55_multiple.

(** ... then selections that no remaining valid outfit contains together. *)
Theorem C55_incompatible : forall (I F : Type) (OI : Ord I) (OF : Ord F) (calls : list (bcall I F)) sels c (sel l : list I),
  reached calls sels c ->
  (complete_outfit c sel = Some (Err (IncompatibleSelections l)) <->
   (forall i, In i sel -> known calls i) /\ NoDup (map (first_family calls) sel) /\
   ~ satisfiable calls (sels ++ sel) /\ ssorted l /\ same_elems l sel).
Proof. exact C55_incompatible_pf. Qed.
Print Assumptions C55_incompatible.

Example C55_example : exists c, reached ex_calls [] c /\
  complete_outfit c [12; 99; 98] = Some (Err (UnknownItems [99; 98])) /\
  complete_outfit c [12; 21; 11] = Some (Err (MultipleItemsPerFamily [(1, [12; 11])])) /\
  complete_outfit c [21; 11] = Some (Err (IncompatibleSelections [11; 21])).
Proof. exact BddThm.C55_example. Qed.

(** C56 is false: an outfit completed after a selection lacks the selected item. *)
Theorem C56_earlier_selections_refuted :
  ~ (forall (calls : list (bcall nat nat)) sels c sel o,
       reached calls sels c -> complete_outfit c sel = Some (Ok o) -> valid_outfit calls o).
Proof. exact C56_earlier_selections_refuted_pf. Qed.
Print Assumptions C56_earlier_selections_refuted.

(** C56, what holds: the items returned, together with the selected ones, are a
    valid outfit, and an earlier selection is among them only if it was given again;
    and something is returned iff the selections are known, of different families, and some valid outfit contains old and new selections. *)
Theorem C56_earlier_selections_partial : forall (I F : Type) (OI : Ord I) (OF : Ord F) (calls : list (bcall I F)) sels c (sel : list I),
  reached calls sels c ->
  (forall o, complete_outfit c sel = Some (Ok o) ->
     ssorted o /\ incl sel o /\ valid_outfit calls (sels ++ o) /\ (forall i, In i o -> In i sels -> In i sel)) /\
  ((exists o, complete_outfit c sel = Some (Ok o)) <->
   (forall i, In i sel -> known calls i) /\ NoDup (map (first_family calls) sel) /\ satisfiable calls (sels ++ sel)).
Proof. exact C56_earlier_selections_partial_pf. Qed.
Print Assumptions C56_earlier_selections_partial.

Example C56_example : exists c, reached ex_calls [12] c /\ complete_outfit c [] = Some (Ok [22]) /\
  complete_outfit c [22] = Some (Ok [22]) /\ complete_outfit c [21] = Some (Err (IncompatibleSelections [21])).
Proof. exact BddThm.C56_example. Qed.

(** C80.  The outfit returned is the first: any other valid outfit with the same
    selections lacks the first item on which the two differ ... *)
Theorem C80_first_outfit : forall (I F : Type) (OI : Ord I) (OF : Ord F) (calls : list (bcall I F)) sels c (sel o : list I),
  reached calls sels c -> complete_outfit c sel = Some (Ok o) ->
  forall o', valid_outfit calls o' -> incl sels o' -> incl sel o' ->
  same_elems o' (sels ++ o) \/ preferred (sels ++ o) o'.
Proof. exact C80_first_outfit_pf. Qed.
Print Assumptions C80_first_outfit.

(** ... so the outfit depends on what was selected, not on the order of the
    selections, nor on which were made on the closet and which in the call. *)
Theorem C80_selections_only : forall (I F : Type) (OI : Ord I) (OF : Ord F) (calls : list (bcall I F)) sels1 sels2 c1 c2 (sel1 sel2 o1 o2 : list I),
  reached calls sels1 c1 -> reached calls sels2 c2 -> same_elems (sels1 ++ sel1) (sels2 ++ sel2) ->
  complete_outfit c1 sel1 = Some (Ok o1) -> complete_outfit c2 sel2 = Some (Ok o2) ->
  same_elems (sels1 ++ o1) (sels2 ++ o2) /\ (same_elems sel1 sel2 -> same_elems sels1 sels2 -> o1 = o2).
Proof. exact C80_selections_only_pf. Qed.
Print Assumptions C80_selections_only.

Example C80_example : exists c, reached ex_calls [] c /\ complete_outfit c [] = Some (Ok [11; 22]) /\
  valid_outfit ex_calls [12; 22] /\ preferred [11; 22] [12; 22].
Proof. exact BddThm.C80_example. Qed.

(** C57.  Closets survive serialization. *)
Theorem C57_round_trip : forall (I F : Type) (OI : Ord I) (OF : Ord F) (calls : list (bcall I F)) sels c,
  reached calls sels c -> closet_de (closet_ser c) = Some c.
Proof. exact C57_round_trip_pf. Qed.
Print Assumptions C57_round_trip.

Example C57_example : exists c, reached ex_calls [] c /\ fst (node_ser (c_root c)) <> SOutcome true /\ closet_de (closet_ser c) = Some c.
Proof. exact BddThm.C57_example. Qed.

(** C58.  [categorize], on any closet: each family has its items, in order;
    nothing is lost or invented. *)
Theorem C58_categorize : forall (I F : Type) (OI : Ord I) (OF : Ord F) (unknown : F) (c : closet I F) (items : list I),
  (forall f, map_get (categorize unknown c items) f =
     let mine := filter (fun i => eqb_ (match get_family c i with Some g => g | None => unknown end) f) items in
     match mine with [] => None | _ => Some mine end) /\
  ssorted (map fst (categorize unknown c items)) /\
  Permutation (flat_map snd (categorize unknown c items)) items.
Proof. exact C58_categorize_pf. Qed.
Print Assumptions C58_categorize.

Example C58_example : exists c, reached ex_calls [] c /\
  categorize 0 c [22; 11; 99; 12] = [(0, [99]); (1, [11; 12]); (2, [22])].
Proof. exact BddThm.C58_example. Qed.

(** C60 is false: a node with two items at one depth does not survive. *)
Theorem C60_node_round_trip_refuted :
  ~ (forall a : dd nat, made a -> node_de (node_ser a) = Some a).
Proof. exact C60_node_round_trip_refuted_pf. Qed.
Print Assumptions C60_node_round_trip_refuted.

(** C60, what holds: nodes with one item per depth do. *)
Theorem C60_node_round_trip_partial : forall (I : Type) (O : Ord I) (a : dd I),
  level_uniform a -> node_de (node_ser a) = Some a.
Proof. exact C60_node_round_trip_partial_pf. Qed.
Print Assumptions C60_node_round_trip_partial.

(** ... and only those do: whatever the node, what comes back has its shape, with
    every branch carrying the item of the last branch of its depth. *)
Theorem C60_exact_partial : forall (I : Type) (O : Ord I) (a : dd I),
  node_de (node_ser a) = Some (relabelled (fun d i => last (row a d) i) a 0) /\
  (node_de (node_ser a) = Some a <-> level_uniform a).
Proof. exact C60_exact_partial_pf. Qed.
Print Assumptions C60_exact_partial.

Example C60_example : let a := bitand (positive_branch 0) (bitor (negative_branch 1) (positive_branch 2)) in
  made a /\ level_uniform a /\ node_de (node_ser a) = Some a.
Proof. exact BddThm.C60_example. Qed.
