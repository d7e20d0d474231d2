(** Properties_Status.v: C97: reading summaries
    Generated by tools/gen_props.py from StatusThm.v: the property theorems, each followed by
    instances that meet its hypotheses (examples). *)
From Coq Require Import List Arith Lia Bool Permutation Sorted.
From Verif Require Import Base DD Spec BddSpec Zdd2Model ZddModel BddModel BddRun RenameSpec ZddSpec StatusModel.
From Verif Require Import ZddProofs ZddThm BddCloset BddThm RenameThm.
Import ListNotations.
From Verif Require Import StatusThm.

(** C97.  Cut by [is_required], [is_excluded], [is_available] and [is_selected], a
    summary of a zdd tree falls into four consecutive parts; each lists, ascending, the
    items of the universe with that status, read off the remaining combinations. *)
Theorem C97_parts : forall (T : Type) (O : Ord T) (h : hash_order) (t : ztree T) (inc exc : list T),
  exists cs r, z_combinations_with t inc exc = Some cs /\ z_summarize h t inc exc = Some r /\
    r = filter zs_is_required r ++ filter zs_is_excluded r ++ filter zs_is_available r ++ filter zs_is_selected r /\
    ssorted (map zs_item (filter zs_is_required r)) /\ ssorted (map zs_item (filter zs_is_excluded r)) /\
    ssorted (map zs_item (filter zs_is_available r)) /\ ssorted (map zs_item (filter zs_is_selected r)) /\
    (forall x, In x (map zs_item (filter zs_is_required r)) <->
       In x (zu_items (zt_univ t)) /\ ~ In x inc /\ cs <> [] /\ forall c, In c cs -> In x c) /\
    (forall x, In x (map zs_item (filter zs_is_excluded r)) <->
       In x (zu_items (zt_univ t)) /\ forall c, In c cs -> ~ In x c) /\
    (forall x, In x (map zs_item (filter zs_is_available r)) <->
       In x (zu_items (zt_univ t)) /\ ~ In x inc /\ (exists c, In c cs /\ In x c) /\ exists c, In c cs /\ ~ In x c) /\
    (forall x, In x (map zs_item (filter zs_is_selected r)) <->
       In x (zu_items (zt_univ t)) /\ In x inc /\ exists c, In c cs /\ In x c).
Proof. exact C97_parts_pf. Qed.
Print Assumptions C97_parts.

(** Looking an item up with [is] finds its one status if the universe has the item, and
    nothing otherwise. *)
Theorem C97_lookup : forall (T : Type) (O : Ord T) (h : hash_order) (t : ztree T) (inc exc : list T),
  exists cs r, z_combinations_with t inc exc = Some cs /\ z_summarize h t inc exc = Some r /\
    (forall x, In x (zu_items (zt_univ t)) -> exists s,
       filter (fun s => zs_is s x) r = [s] /\ find (fun s => zs_is s x) r = Some s /\ zs_item s = x /\
       (zs_is_required s = true <-> ~ In x inc /\ cs <> [] /\ forall c, In c cs -> In x c) /\
       (zs_is_excluded s = true <-> forall c, In c cs -> ~ In x c) /\
       (zs_is_available s = true <-> ~ In x inc /\ (exists c, In c cs /\ In x c) /\ exists c, In c cs /\ ~ In x c) /\
       (zs_is_selected s = true <-> In x inc /\ exists c, In c cs /\ In x c)) /\
    (forall x, ~ In x (zu_items (zt_univ t)) ->
       filter (fun s => zs_is s x) r = [] /\ find (fun s => zs_is s x) r = None).
Proof. exact C97_lookup_pf. Qed.
Print Assumptions C97_lookup.

(** [map] over a summary with a renaming that keeps the order gives the summary of the
    renamed tree; [option_map], dropping the items without a new name, keeps the statuses,
    their order and one status per item. *)
Theorem C97_map : forall (T U : Type) (OT : Ord T) (OU : Ord U) (f : T -> U) (items : list T) (p : zexpr T)
    (h h' : hash_order) (inc exc : list T) t t' r,
  order_preserving f -> zrun (zu_from items) p = Some t -> zrun (zu_from (map f items)) (zrenamed f p) = Some t' ->
  z_summarize h t inc exc = Some r ->
  z_summarize h' t' (map f inc) (map f exc) = Some (map (fun s => zs_map s f) r).
Proof. exact C97_map_pf. Qed.
Print Assumptions C97_map.

Theorem C97_option_map : forall (T U : Type) (OT : Ord T) (OU : Ord U) (f : T -> option U)
    (h : hash_order) (t : ztree T) (inc exc : list T) r,
  (forall x y a b, lt_ x y -> f x = Some a -> f y = Some b -> lt_ a b) ->
  z_summarize h t inc exc = Some r ->
  let r' := filter_map (fun s => zs_option_map s f) r in
  StronglySorted status_before r' /\ NoDup (map zs_item r') /\
  (forall y, In (ZRequired y) r' <-> exists x, In (ZRequired x) r /\ f x = Some y) /\
  (forall y, In (ZExcluded y) r' <-> exists x, In (ZExcluded x) r /\ f x = Some y) /\
  (forall y, In (ZAvailable y) r' <-> exists x, In (ZAvailable x) r /\ f x = Some y) /\
  (forall y, In (ZSelected y) r' <-> exists x, In (ZSelected x) r /\ f x = Some y).
Proof. exact C97_option_map_pf. Qed.
Print Assumptions C97_option_map.

Example C97_example :
  let t := z_hyper_tree (zu_from [1; 2; 3; 4; 5]) [[1; 2; 4]; [1; 3; 4]; [2]; [5]] in
  (exists r, z_summarize ho_rev t [1] [5] = Some r /\
    map zs_item (filter zs_is_required r) = [4] /\ map zs_item (filter zs_is_excluded r) = [5] /\
    map zs_item (filter zs_is_available r) = [2; 3] /\ map zs_item (filter zs_is_selected r) = [1] /\
    find (fun s => zs_is s 3) r = Some (ZAvailable 3) /\ find (fun s => zs_is s 6) r = None /\
    filter_map (fun s => zs_option_map s (fun n => if n <? 4 then Some (10 * n) else None)) r =
      [ZAvailable 20; ZAvailable 30; ZSelected 10]).
Proof. exact StatusThm.C97_example. Qed.

Theorem C97_closet_parts : forall (I F : Type) (OI : Ord I) (OF : Ord F) (calls : list (bcall I F)) sels c,
  reached calls sels c -> satisfiable calls sels ->
  let r := c_summary c in
  r = filter is_excluded r ++ filter is_available r ++ filter is_selected r /\
  ssorted (map BddModel.status_item (filter is_excluded r)) /\ ssorted (map BddModel.status_item (filter is_available r)) /\
  ssorted (map BddModel.status_item (filter is_selected r)) /\
  (forall i, In i (map BddModel.status_item (filter is_excluded r)) <->
     known calls i /\ ~ In i sels /\ ~ exists o, valid_outfit calls o /\ incl sels o /\ In i o) /\
  (forall i, In i (map BddModel.status_item (filter is_available r)) <->
     ~ In i sels /\ exists o, valid_outfit calls o /\ incl sels o /\ In i o) /\
  (forall i, In i (map BddModel.status_item (filter is_selected r)) <-> In i sels).
Proof. exact C97_closet_parts_pf. Qed.
Print Assumptions C97_closet_parts.

(** Looking up an item of a closet with [is]; a closet that admits no outfit knows its selections only. *)
Theorem C97_closet_lookup : forall (I F : Type) (OI : Ord I) (OF : Ord F) (calls : list (bcall I F)) sels c,
  reached calls sels c ->
  let find_status i := find (fun s => status_is s i) (c_summary c) in
  (satisfiable calls sels -> forall i,
     (find_status i = Some (Selected i) <-> In i sels) /\
     (find_status i = Some (Available i) <-> ~ In i sels /\ exists o, valid_outfit calls o /\ incl sels o /\ In i o) /\
     (find_status i = Some (Excluded i) <->
        known calls i /\ ~ In i sels /\ ~ exists o, valid_outfit calls o /\ incl sels o /\ In i o) /\
     (find_status i = None <-> ~ known calls i) /\
     (known calls i -> exists s, filter (fun s => status_is s i) (c_summary c) = [s])) /\
  (~ satisfiable calls sels ->
     filter is_excluded (c_summary c) = [] /\ filter is_available (c_summary c) = [] /\
     forall i, (find_status i = Some (Selected i) <-> In i sels) /\ (find_status i = None <-> ~ In i sels)).
Proof. exact C97_closet_lookup_pf. Qed.
Print Assumptions C97_closet_lookup.

Example C97_closet_example : exists c, reached ex_calls [12] c /\ satisfiable ex_calls [12] /\
  filter is_selected (c_summary c) = [Selected 12] /\ find (fun s => status_is s 11) (c_summary c) = Some (Excluded 11).
Proof. exact StatusThm.C97_closet_example. Qed.
