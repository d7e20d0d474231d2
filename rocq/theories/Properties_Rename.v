(** Properties_Rename.v: renaming the items
    Generated by tools/gen_props.py from RenameThm.v: the property theorems, each followed by
    instances that meet its hypotheses (examples). *)
From Coq Require Import List Arith Lia Bool Permutation Sorted.
From Verif Require Import Base DD Spec BddSpec Zdd2Model MatrixModel ZddModel BddModel BddRun Zdd2Thm MatrixProofs MatrixThm
  Zdd2Forest Zdd2Laws ZddThm BddThm AgreeSpec AgreeThm RenameSpec RenameBase ZddSpec ZddProofs RenameZdd2 RenameZdd RenameBdd RenameAny RenameAny2.
Import BddModel BddRun BddSpec.
Import ListNotations.
From Verif Require Import RenameThm.

(** C89.  A program of zdd2 calls run with every item renamed, the order of the items kept, gives the
    renamed trees in the same order of listing, the same length and the renamed counts - whether or not
    the program computes its family exactly, and whatever the hash orders of the two runs. *)
Theorem C89_zdd2 : forall (T U : Type) (OT : Ord T) (OU : Ord U) (r : T -> U) (p : fexpr T) (h h' : hash_order),
  order_preserving r ->
  (exists f, runz p f) /\ (exists f', runz (renamed r p) f') /\
  forall f f', runz p f -> runz (renamed r p) f' ->
    f_trees f' = option_map (map (map r)) (f_trees f) /\
    f_len f' = f_len f /\ f_is_empty f' = f_is_empty f /\
    f_occurrences h' f' = map (renamed_count r) (f_occurrences h f).
Proof. exact C89_zdd2_pf. Qed.
Print Assumptions C89_zdd2.

Theorem C89_zdd2_equality : forall (T U : Type) (OT : Ord T) (OU : Ord U) (r : T -> U) (p q : fexpr T) f g f' g',
  order_preserving r -> runz p f -> runz q g -> runz (renamed r p) f' -> runz (renamed r q) g' ->
  (f' = g' <-> f = g).
Proof. exact C89_zdd2_equality_pf. Qed.
Print Assumptions C89_zdd2_equality.

(** The same for the matrix forests, whose listing order is that of a hash set. *)
Theorem C89_matrix : forall (T U : Type) (OT : Ord T) (OU : Ord U) (r : T -> U) (p : fexpr T) (h h' : hash_order),
  order_preserving r ->
  (exists f, runm p f) /\ (exists f', runm (renamed r p) f') /\
  forall f f', runm p f -> runm (renamed r p) f' ->
    Permutation (m_trees h' f') (map (map r) (m_trees h f)) /\
    m_len f' = m_len f /\ m_is_empty f' = m_is_empty f /\
    m_occurrences h' f' = map (renamed_count r) (m_occurrences h f).
Proof. exact C89_matrix_pf. Qed.
Print Assumptions C89_matrix.

(** C89, the zdd module: over the universe of the renamed items, the renamed program gives a tree with
    the renamed combinations in the same order, the renamed summary and the renamed view. *)
Theorem C89_zdd : forall (T U : Type) (OT : Ord T) (OU : Ord U) (r : T -> U) (items : list T) (p : zexpr T),
  order_preserving r ->
  (zrun (zu_from items) p = None <-> zrun (zu_from (map r items)) (zrenamed r p) = None) /\
  forall t t', zrun (zu_from items) p = Some t -> zrun (zu_from (map r items)) (zrenamed r p) = Some t' ->
    zt_root t' = zt_root t /\
    z_combinations t' = option_map (map (map r)) (z_combinations t) /\
    z_combinations_recursive t' = map (map r) (z_combinations_recursive t) /\
    z_traverse t' = option_map (dd_renamed r) (z_traverse t) /\
    forall inc exc (h h' : hash_order),
      z_combinations_with t' (map r inc) (map r exc) = option_map (map (map r)) (z_combinations_with t inc exc) /\
      z_summarize h' t' (map r inc) (map r exc) = option_map (map (zstatus_renamed r)) (z_summarize h t inc exc).
Proof. exact C89_zdd_pf. Qed.
Print Assumptions C89_zdd.

(** C89, bowtie: the outcome of [build], *)
Theorem C89_build : forall (I J F G : Type) (OI : Ord I) (OJ : Ord J) (OF : Ord F) (OG : Ord G)
    (r : I -> J) (s : F -> G) (calls : list (bcall I F)) (h h' : hash_order),
  order_preserving r -> order_preserving s ->
  build h' (run_calls (map (call_renamed r s) calls)) =
  res_renamed (closet_renamed r s) (build_error_renamed r s) (build h (run_calls calls)).
Proof. exact C89_build_pf. Qed.
Print Assumptions C89_build.

(** ... and everything a closet reached by building and selecting answers. *)
Theorem C89_bowtie : forall (I J F G : Type) (OI : Ord I) (OJ : Ord J) (OF : Ord F) (OG : Ord G)
    (r : I -> J) (s : F -> G) (calls : list (bcall I F)) (sels : list I) (c : closet I F) (c' : closet J G),
  order_preserving r -> order_preserving s ->
  reached calls sels c -> reached (map (call_renamed r s) calls) (map r sels) c' ->
  c_summary c' = map (status_renamed r) (c_summary c) /\
  c_root c' = dd_renamed r (c_root c) /\
  outfit_count (c_root c') = outfit_count (c_root c) /\ node_count (c_root c') = node_count (c_root c) /\
  leaf_count (c_root c') = leaf_count (c_root c) /\ depth (c_root c') = depth (c_root c) /\
  (forall i, get_family c' (r i) = option_map s (get_family c i)) /\
  (forall h h' i, select_item h' c' (r i) =
     res_renamed (closet_renamed r s) (select_error_renamed r) (select_item h c i)) /\
  (forall sel, complete_outfit c' (map r sel) =
     option_map (res_renamed (map r) (outfit_error_renamed r s)) (complete_outfit c sel)) /\
  (forall unknown items, categorize (s unknown) c' (map r items) = by_family r s (categorize unknown c items)).
Proof. exact C89_bowtie_pf. Qed.
Print Assumptions C89_bowtie.

(** ... the same selections are accepted *)
Theorem C89_reached : forall (I J F G : Type) (OI : Ord I) (OJ : Ord J) (OF : Ord F) (OG : Ord G)
    (r : I -> J) (s : F -> G) (calls : list (bcall I F)) (sels : list I),
  order_preserving r -> order_preserving s ->
  ((exists c, reached calls sels c) <-> exists c', reached (map (call_renamed r s) calls) (map r sels) c').
Proof. exact C89_reached_pf. Qed.
Print Assumptions C89_reached.

(** C89 at work: 1, 2, 3, ... become 10, 20, 30, ... *)
Example C89_example : order_preserving (fun n => 10 * n) /\
  (let p := EUnion (EMany [[2];[1;2]]) (EMany [[1]]) in
   (exists f, runz p f /\ f_trees f = Some [[1;2];[1]]) /\
   exists f', runz (renamed (fun n => 10 * n) p) f' /\ f_trees f' = Some [[10;20];[10]]).
Proof. exact RenameThm.C89_example. Qed.

(** The matrix forests: every program gives the renamed family. *)
Theorem C90_matrix : forall (T U : Type) (OT : Ord T) (OU : Ord U) (r : T -> U) (p : fexpr T) (h h' : hash_order) f f',
  injective r -> runm p f -> runm (renamed r p) f' ->
  carried_family r (m_trees h f) (m_trees h' f') /\
  m_len f' = m_len f /\ m_is_empty f' = m_is_empty f /\
  carried_counts r (m_occurrences h f) (m_occurrences h' f').
Proof. exact C90_matrix_pf. Qed.
Print Assumptions C90_matrix.

Example C90_matrix_example : injective (fun n => match n with 1 => 2 | 2 => 1 | _ => n end) /\
  runm (EUnion (EMany [[2];[1;2]]) (EMany [[1]])) (MMany [[1];[1;2];[2]]) /\
  ~ order_preserving (fun n => match n with 1 => 2 | 2 => 1 | _ => n end).
Proof. exact RenameThm.C90_matrix_example. Qed.

(** The zdd2 forests: not so.  Swapping the items 1 and 2 loses a tree of a union. *)
(* RenameThm.v defines
   C90_claim : Prop := forall (T U : Type) (OT : Ord T) (OU : Ord U) (r : T -> U) (p : fexpr T) f f',
  injective r -> runz p f -> runz (renamed r p) f' -> f_len f' = f_len f. *)

Theorem C90_zdd2_refuted :
  (let r := fun n => match n with 1 => 2 | 2 => 1 | _ => n end in
   let p := EUnion (EMany [[1];[1;2]]) (EMany [[2]]) in
   injective r /\
   (exists f, runz p f /\ f_trees f = Some [[1;2];[1];[2]]) /\
   exists f', runz (renamed r p) f' /\ f_trees f' = Some [[1;2];[1]]) /\
  ~ C90_claim.
Proof. exact C90_zdd2_refuted_pf. Qed.
Print Assumptions C90_zdd2_refuted.

(** They do for programs that are orderly under both names ... *)
Theorem C90_zdd2_partial : forall (T U : Type) (OT : Ord T) (OU : Ord U) (r : T -> U) (p : fexpr T) (h h' : hash_order) f f' ts,
  injective r -> orderly p -> orderly (renamed r p) -> runz p f -> runz (renamed r p) f' -> f_trees f = Some ts ->
  exists ts', f_trees f' = Some ts' /\ carried_family r ts ts' /\
    f_len f' = f_len f /\ f_is_empty f' = f_is_empty f /\
    carried_counts r (f_occurrences h f) (f_occurrences h' f').
Proof. exact C90_zdd2_partial_pf. Qed.
Print Assumptions C90_zdd2_partial.

Theorem C90_zdd2_tame_partial : forall (T U : Type) (OT : Ord T) (OU : Ord U) (r : T -> U) (p : fexpr T) (h h' : hash_order) f f' ts,
  injective r -> tame p -> runz p f -> runz (renamed r p) f' -> f_trees f = Some ts ->
  exists ts', f_trees f' = Some ts' /\ carried_family r ts ts' /\
    f_len f' = f_len f /\ f_is_empty f' = f_is_empty f /\
    carried_counts r (f_occurrences h f) (f_occurrences h' f').
Proof. exact C90_zdd2_tame_partial_pf. Qed.
Print Assumptions C90_zdd2_tame_partial.

Example C90_tame_example : tame (T:=nat) (EProduct (EUnion (EMany [[1;2];[3]]) (EUnique [4;5])) (EUnit [6])).
Proof. exact RenameThm.C90_tame_example. Qed.

(** The zdd module: with the items of the universe renamed in place, every program gives the very same
    diagram, hence the renamed combinations, filtered combinations, summary and view. *)
Theorem C90_zdd : forall (T U : Type) (OT : Ord T) (OU : Ord U) (r : T -> U) (items : list T) (p : zexpr T), injective r ->
  exists t t' cs cs', zrun (zu_from items) p = Some t /\ zrun (zu_from (map r items)) (zrenamed r p) = Some t' /\
    zt_root t' = zt_root t /\
    z_combinations t = Some cs /\ z_combinations t' = Some cs' /\ carried_family r cs cs' /\
    z_traverse t' = option_map (dd_renamed r) (z_traverse t) /\
    forall inc exc (h h' : hash_order), exists rs rs' ss ss',
      z_combinations_with t inc exc = Some rs /\ z_combinations_with t' (map r inc) (map r exc) = Some rs' /\
      carried_family r rs rs' /\
      z_summarize h t inc exc = Some ss /\ z_summarize h' t' (map r inc) (map r exc) = Some ss' /\
      NoDup ss' /\ forall x', In x' ss' <-> exists x, In x ss /\ x' = zstatus_renamed r x.
Proof. exact C90_zdd_pf. Qed.
Print Assumptions C90_zdd.

Example C90_zdd_example :
  let r := fun n => match n with 1 => 3 | 3 => 1 | _ => n end in
  let p := ZERestrict (ZEProduct (ZEHyper [[1;2];[2]]) (ZEUnique [3;4])) [2] [4] in
  (exists t, zrun (zu_from [1;2;3;4]) p = Some t /\ z_combinations t = Some [[1;2;3];[2;3]]) /\
  (exists t, zrun (zu_from [3;2;1;4]) (zrenamed r p) = Some t /\ z_combinations t = Some [[1;2];[1;2;3]]).
Proof. exact RenameThm.C90_zdd_example. Qed.

(** bowtie: the same histories build, the same selections are accepted, *)
Theorem C90_reached : forall (I J F G : Type) (OI : Ord I) (OJ : Ord J) (OF : Ord F) (OG : Ord G)
    (r : I -> J) (s : F -> G) (calls : list (bcall I F)) (sels : list I),
  injective r -> injective s ->
  ((exists c, reached calls sels c) <-> exists c', reached (map (call_renamed r s) calls) (map r sels) c').
Proof. exact C90_reached_pf. Qed.
Print Assumptions C90_reached.

(** ... and the closets agree on everything but the order of listing, the shape of the diagram and which
    outfit [complete_outfit] picks. *)
Theorem C90_bowtie : forall (I J F G : Type) (OI : Ord I) (OJ : Ord J) (OF : Ord F) (OG : Ord G)
    (r : I -> J) (s : F -> G) (calls : list (bcall I F)) (sels : list I) (c : closet I F) (c' : closet J G),
  injective r -> injective s ->
  reached calls sels c -> reached (map (call_renamed r s) calls) (map r sels) c' ->
  (forall o', admits c' o' <-> exists o, admits c o /\ o' = map r o) /\
  outfit_count (c_root c') = outfit_count (c_root c) /\ depth (c_root c') = depth (c_root c) /\
  (forall i, get_family c' (r i) = option_map s (get_family c i)) /\
  (forall x', In x' (c_summary c') <-> exists x, In x (c_summary c) /\ x' = status_renamed r x) /\
  (forall h h' i, ((exists d, select_item h c i = Ok d) <-> exists d', select_item h' c' (r i) = Ok d') /\
     forall e, select_item h c i = Err e <-> select_item h' c' (r i) = Err (select_error_renamed r e)) /\
  (forall sel,
     ((exists o, complete_outfit c sel = Some (Ok o)) <-> exists o', complete_outfit c' (map r sel) = Some (Ok o')) /\
     (forall u, complete_outfit c sel = Some (Err (UnknownItems u)) <->
                complete_outfit c' (map r sel) = Some (Err (UnknownItems (map r u)))) /\
     (forall m m', complete_outfit c sel = Some (Err (MultipleItemsPerFamily m)) ->
                complete_outfit c' (map r sel) = Some (Err (MultipleItemsPerFamily m')) ->
                forall g l', In (g, l') m' <-> exists f l, In (f, l) m /\ g = s f /\ l' = map r l) /\
     ((exists m, complete_outfit c sel = Some (Err (MultipleItemsPerFamily m))) <->
      exists m', complete_outfit c' (map r sel) = Some (Err (MultipleItemsPerFamily m'))) /\
     ((exists l, complete_outfit c sel = Some (Err (IncompatibleSelections l))) <->
      exists l', complete_outfit c' (map r sel) = Some (Err (IncompatibleSelections l')))).
Proof. exact C90_bowtie_pf. Qed.
Print Assumptions C90_bowtie.

(** [complete_outfit] does pick by the order of the names: with 1 and 2 swapped, it still picks 1 *)
Example C90_bowtie_example :
  let r := fun n => match n with 1 => 2 | 2 => 1 | _ => n end in
  let calls := [AddItems 0 [1;2]; AddItem 7 3; AddIncl 1 3] in
  exists c c' : closet nat nat, injective r /\ reached calls [3] c /\ reached (map (call_renamed r (fun f => f)) calls) (map r [3]) c' /\
    outfit_count (c_root c) = 2 /\ complete_outfit c [] = Some (Ok [1]) /\ complete_outfit c' [] = Some (Ok [1]).
Proof. exact RenameThm.C90_bowtie_example. Qed.
