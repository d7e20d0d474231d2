(** Properties_BddAny.v: C86: every closet, however made
    Generated by tools/gen_props.py from BddAnyThm.v: the property theorems, each followed by
    instances that meet its hypotheses (examples). *)
From Coq Require Import List Arith Lia Bool Permutation Sorted.
From Verif Require Import Base DD Spec BddSpec BddModel BddRun BddNode BddCloset BddThm.
Import ListNotations.
From Verif Require Import BddAnyThm.

(** C86.  A closet loads unless the structure mentions a depth without an item, when
    the [expect] panics; index and summary are taken as they are, and the root is
    what the structure spells. *)
Theorem C86_load : forall (I F : Type) (OI : Ord I) (index : list (I * F)) (summary : list (status I)) (s : structure) (content : list (nat * I)),
  ((exists c, closet_de (index, summary, (s, content)) = Some c) <-> forall d, mentions s d -> map_get content d <> None) /\
  forall c, closet_de (index, summary, (s, content)) = Some c <->
    c_index c = index /\ c_summary c = summary /\ spelled (map_get content) s (c_root c).
Proof. exact C86_load_pf. Qed.
Print Assumptions C86_load.

(** [Closet::new] with any index and any node: nothing is selected; an item of the
    diagram is Available iff some branch on it has a high child other than [false],
    else Excluded; each once, in order, whatever the iteration order. *)
Theorem C86_new : forall (I F : Type) (OI : Ord I) (h : hash_order) (index : list (I * F)) (root : dd I),
  let c := closet_new h index root in
  c_index c = index /\ c_root c = root /\ ssorted (c_summary c) /\ NoDup (map status_item (c_summary c)) /\
  (forall x, In (Available x) (c_summary c) <-> exists hi, tests x hi root /\ hi <> Leaf false) /\
  (forall x, In (Excluded x) (c_summary c) <-> In x (labels root) /\ forall hi, tests x hi root -> hi = Leaf false) /\
  (forall x, ~ In (Selected x) (c_summary c)) /\
  forall h', closet_new h' index root = c.
Proof. exact C86_new_pf. Qed.
Print Assumptions C86_new.

(** [select_item] on any closet: which error, and what the result is. *)
Theorem C86_select : forall (I F : Type) (OI : Ord I) (h : hash_order) (c : closet I F) (i : I),
  (forall j, select_item h c i = Err (UnknownItem j) <-> j = i /\ get_family c i = None) /\
  (forall j, select_item h c i = Err (ExcludedItem j) <-> j = i /\ get_family c i <> None /\ In (Excluded i) (c_summary c)) /\
  ((exists c', select_item h c i = Ok c') <-> get_family c i <> None /\ ~ In (Excluded i) (c_summary c)) /\
  (forall h', select_item h' c i = select_item h c i) /\
  (forall c', select_item h c i = Ok c' ->
     c_index c' = c_index c /\ ssorted (c_summary c') /\
     (forall s, In s (c_summary c') <->
        s = Selected i \/ (exists j, s = Selected j /\ In s (c_summary c)) \/
        In s (c_summary (closet_new h (c_index c') (c_root c')))) /\
     (forall o, admits c' o <-> admits c o /\ In i o)).
Proof. exact C86_select_pf. Qed.
Print Assumptions C86_select.

(** Two selections in either order leave the same outfits; the closets are even equal
    if the root is ordered and reduced. *)
Theorem C86_select_order : forall (I F : Type) (OI : Ord I) (h : hash_order) (c : closet I F) (i j : I) ci cij cj cji,
  select_item h c i = Ok ci -> select_item h ci j = Ok cij -> select_item h c j = Ok cj -> select_item h cj i = Ok cji ->
  (forall o, admits cij o <-> admits cji o) /\
  (bordered (c_root c) -> breduced (c_root c) -> cij = cji).
Proof. exact C86_select_order_pf. Qed.
Print Assumptions C86_select_order.

(** [complete_outfit] on any closet never panics; the errors come in this order ... *)
Theorem C86_complete_errors : forall (I F : Type) (OI : Ord I) (OF : Ord F) (c : closet I F) (sel : list I),
  let all_known := forall i, In i sel -> get_family c i <> None in
  let of_family f := filter (fun i => match get_family c i with Some g => eqb_ g f | None => false end) sel in
  let one_each := forall f, length (of_family f) <= 1 in
  complete_outfit c sel <> None /\
  (forall u, complete_outfit c sel = Some (Err (UnknownItems u)) <->
     ~ all_known /\ u = filter (fun i => match get_family c i with None => true | Some _ => false end) sel) /\
  (forall m, complete_outfit c sel = Some (Err (MultipleItemsPerFamily m)) <->
     all_known /\ ~ one_each /\ ssorted (map fst m) /\
     forall f l, In (f, l) m <-> l = of_family f /\ 2 <= length l) /\
  (forall l, complete_outfit c sel = Some (Err (IncompatibleSelections l)) <->
     all_known /\ one_each /\ restrict_all (c_root c) sel = Leaf false /\ ssorted l /\ Permutation l sel) /\
  (forall o, complete_outfit c sel = Some (Ok o) <->
     all_known /\ one_each /\ restrict_all (c_root c) sel <> Leaf false /\
     StronglySorted (fun a b => leb_ a b = true) o /\
     exists p v, first_path (restrict_all (c_root c) sel) p v /\ Permutation o (sel ++ p)).
Proof. exact C86_complete_errors_pf. Qed.
Print Assumptions C86_complete_errors.

(** ... and on a reduced diagram without repeated items they mean what they say:
    incompatible means that no wearing of the selections satisfies the diagram; an
    outfit returned contains the selections, each item once, otherwise only items of
    the diagram, and satisfies it.  [reduce] makes any diagram so, short of repeats. *)
Theorem C86_complete_meaning : forall (I F : Type) (OI : Ord I) (OF : Ord F) (c : closet I F) (sel : list I),
  read_once (c_root c) -> breduced (c_root c) ->
  (restrict_all (c_root c) sel = Leaf false <->
     ~ exists worn : I -> bool, (forall i, In i sel -> worn i = true) /\ eval worn (c_root c) = true) /\
  (forall o, complete_outfit c sel = Some (Ok o) ->
     ssorted o /\ incl sel o /\ (forall x, In x o -> In x sel \/ In x (labels (c_root c))) /\
     eval (fun x => memb x o) (c_root c) = true).
Proof. exact C86_complete_meaning_pf. Qed.
Print Assumptions C86_complete_meaning.

(** The conditions survive [select_item] and can be had from any diagram without
    repeats; ordered diagrams have none. *)
Theorem C86_conditions : forall (I F : Type) (OI : Ord I) (h : hash_order) (c : closet I F) (i : I) c',
  (read_once (c_root c) -> read_once (reduce (c_root c)) /\ breduced (reduce (c_root c)) /\
     forall worn, eval worn (reduce (c_root c)) = eval worn (c_root c)) /\
  (bordered (c_root c) -> read_once (c_root c)) /\
  (select_item h c i = Ok c' ->
     (breduced (c_root c) -> breduced (c_root c')) /\
     (read_once (c_root c) -> read_once (c_root c') /\ ~ In i (labels (c_root c')) /\
        forall worn, eval worn (c_root c') = eval (upd worn i true) (c_root c))).
Proof. exact C86_conditions_pf. Qed.
Print Assumptions C86_conditions.

(** Without these conditions an outfit may be returned that the diagram rejects, or
    that lists an item twice; and a loaded summary can contradict the diagram. *)
Theorem C86_unreduced :
  (exists c : closet nat nat, read_once (c_root c) /\ complete_outfit c [] = Some (Ok [1]) /\
     forall worn, eval worn (c_root c) = false) /\
  (exists c : closet nat nat, breduced (c_root c) /\ complete_outfit c [] = Some (Ok [1; 1]) /\
     forall o, memb 1 o = true -> eval (fun x => memb x o) (c_root c) = false) /\
  (exists (c : closet nat nat) o, c_root c = positive_branch 1 /\ admits c o /\ In 1 o /\
     select_item ho_id c 1 = Err (ExcludedItem 1)).
Proof. exact C86_unreduced_pf. Qed.
Print Assumptions C86_unreduced.

(** Non-vacuity: a closet loaded from a structure with odd depths. *)
Example C86_example :
  let s := SAvailable 7 (SExcluded 3 (SOutcome true)) (SRequired 3 (SOutcome true)) in
  exists c : closet nat nat,
    closet_de ([(10, 1); (20, 2); (30, 3)], [Selected 30; Excluded 20], (s, [(3, 20); (7, 10)])) = Some c /\
    c_root c = Branch 10 (negative_branch 20) (positive_branch 20) /\ read_once (c_root c) /\ breduced (c_root c) /\
    closet_de ([(10, 1)], [], (s, [(3, 20)])) = @None (closet nat nat) /\
    complete_outfit c [] = Some (Ok [10; 20]) /\ complete_outfit c [30; 20] = Some (Ok [10; 20; 30]) /\
    complete_outfit c [10; 10] = Some (Err (MultipleItemsPerFamily [(1, [10; 10])])) /\
    select_item ho_id c 20 = Err (ExcludedItem 20) /\
    (exists c', select_item ho_id c 10 = Ok c' /\ c_root c' = positive_branch 20 /\ admits c' [10; 20; 30]).
Proof. exact BddAnyThm.C86_example. Qed.
