(** ZddModel: weave/src/zdd, function by function.

    Nodes are diagrams as values ([dd nat]); a label is a [Priority] (usize).
    [BTreeSet]s are strictly sorted lists.  No proofs in this file. *)
From Coq Require Import List Arith Lia Bool Permutation Sorted.
From Verif Require Import Base DD Spec Zdd2Model.
Import ListNotations.

(** [Node::branch], weave/src/zdd/node/mod.rs L51-53: no reduction.
    [required_branch], L55-57 *)
Definition zbranch (i : nat) (low high : dd nat) : dd nat := Branch i low high.
Definition required_branch (i : nat) (high : dd nat) : dd nat := zbranch i (Leaf false) high.

(** the tail shared by weave/src/zdd/tree/union.rs L47-51, weave/src/zdd/tree/intersect.rs L35-39, weave/src/zdd/tree/product.rs L35-39 *)
Definition zfinish (id : nat) (low high : dd nat) : dd nat :=
  if dd_eqb high (Leaf false) then low else zbranch id low high.

(** ** weave/src/zdd/tree/union.rs L3-52 *)
Fixpoint zunion (node1 : dd nat) : dd nat -> dd nat :=
  fix zunion1 (node2 : dd nat) : dd nat :=
    if dd_eqb node1 node2 then node1 else
    match node1, node2 with
    | _, Leaf false => node1
    | Leaf false, _ => node2
    | Leaf true, Leaf true => Leaf true
    | Branch id low high, Leaf true => zfinish id (zunion low node2) high
    | Leaf true, Branch id low high => zfinish id (zunion1 low) high
    | Branch id1 low1 high1, Branch id2 low2 high2 =>
        if id1 <? id2 then zfinish id1 (zunion low1 node2) high1
        else if id2 <? id1 then zfinish id2 (zunion1 low2) high2
        else zfinish id1 (zunion low1 low2) (zunion high1 high2)
    end.

(** ** weave/src/zdd/tree/intersect.rs L3-40 *)
Fixpoint zintersect (node1 : dd nat) : dd nat -> dd nat :=
  fix zintersect1 (node2 : dd nat) : dd nat :=
    if dd_eqb node1 node2 then node1 else
    match node1, node2 with
    | _, Leaf true => node1
    | Leaf true, _ => node2
    | _, Leaf false => Leaf false
    | Leaf false, _ => Leaf false
    | Branch id1 low1 high1, Branch id2 low2 high2 =>
        if id1 <? id2 then zfinish id1 low1 (zintersect high1 node2)
        else if id2 <? id1 then zfinish id2 low2 (zintersect1 high2)
        else zfinish id1 (zintersect low1 low2) (zintersect high1 high2)
    end.

(** ** weave/src/zdd/tree/product.rs L3-40 *)
Fixpoint zproduct (node1 : dd nat) : dd nat -> dd nat :=
  fix zproduct1 (node2 : dd nat) : dd nat :=
    if dd_eqb node1 node2 then node1 else
    match node1, node2 with
    | _, Leaf true => node1
    | Leaf true, _ => node2
    | _, Leaf false => Leaf false
    | Leaf false, _ => Leaf false
    | Branch id1 low1 high1, Branch id2 low2 high2 =>
        if id1 <? id2 then zfinish id1 (zproduct low1 node2) (zproduct high1 node2)
        else if id2 <? id1 then zfinish id2 (zproduct1 low2) (zproduct1 high2)
        else zfinish id1 (zproduct low1 low2) (zproduct high1 high2)
    end.

(** ** weave/src/zdd/tree/combinations.rs *)

(** combinations_inner, L10-32 *)
Fixpoint combinations_inner (root : dd nat) (path : list nat) : option (list (list nat)) :=
  match root with
  | Branch id low high =>
      let low := combinations_inner low path in
      let high := combinations_inner high (path ++ [id]) in
      Some (match low with Some l => l | None => [] end ++ match high with Some l => l | None => [] end)
  | Leaf true => Some [path]
  | Leaf false => None
  end.
(** combinations_recursive, L5-8 *)
Definition zcombinations_recursive (root : dd nat) : list (list nat) :=
  match combinations_inner root [] with Some l => l | None => [] end.

(** the [while let] loop of combinations_iter, L38-53; the head of [queue] is
    the top of the stack.  The loop has no structural measure: fuel, [None] when
    it runs out. *)
Fixpoint combinations_loop (fuel : nat) (queue : list (dd nat * list nat)) (combinations : list (list nat))
  : option (list (list nat)) :=
  match queue with
  | [] => Some combinations
  | (node, path) :: queue' =>
      match fuel with
      | O => None
      | S k =>
          match node with
          | Branch id low high =>
              combinations_loop k ((high, path ++ [id]) :: (low, path) :: queue') combinations
          | Leaf true => combinations_loop k queue' (combinations ++ [path])
          | Leaf false => combinations_loop k queue' combinations
          end
      end
  end.
(** combinations_iter, L34-56 *)
Definition zcombinations_iter (root : dd nat) : option (list (list nat)) :=
  combinations_loop (size root) [(root, [])] [].

(** ** Universe, weave/src/zdd/tree/universe.rs L11-16 *)
Record zuniverse (T : Type) := mkZU { zu_items : list T; zu_index : list (T * nat) }.
Arguments mkZU {T} zu_items zu_index.
Arguments zu_items {T} z.
Arguments zu_index {T} z.

(** Tree, weave/src/zdd/tree/mod.rs L26-30 *)
Record ztree (T : Type) := mkZT { zt_root : dd nat; zt_univ : zuniverse T }.
Arguments mkZT {T} zt_root zt_univ.
Arguments zt_root {T} z.
Arguments zt_univ {T} z.

(** ItemStatus, weave/src/status.rs L3-10 *)
Inductive zstatus (T : Type) :=
| ZRequired (x : T) | ZExcluded (x : T) | ZAvailable (x : T) | ZSelected (x : T).
Arguments ZRequired {T} x.
Arguments ZExcluded {T} x.
Arguments ZAvailable {T} x.
Arguments ZSelected {T} x.

Section Zdd.
  Context {T : Type} `{Ord T}.

  (** the derived [Ord], weave/src/status.rs L3: by variant in the order of declaration, then by item *)
  Definition zstatus_code (s : zstatus T) : nat * T :=
    match s with
    | ZRequired x => (0, x) | ZExcluded x => (1, x) | ZAvailable x => (2, x) | ZSelected x => (3, x)
    end.
  Definition zstatus_leb (s t : zstatus T) : bool := leb_ (zstatus_code s) (zstatus_code t).

  (** From<Vec<T>>, weave/src/zdd/tree/universe.rs L23-32 (later duplicates win, as [collect] into a
      map does) *)
  Definition zu_from (items : list T) : zuniverse T := mkZU items (enumerate_map items).
  (** Default, L34-38 *)
  Definition zu_default : zuniverse T := mkZU [] [].

  (** empty_tree L41-43, unit_tree L45-47 (weave/src/zdd/tree/mod.rs L39-45) *)
  Definition z_empty_tree (u : zuniverse T) : ztree T := mkZT (Leaf false) u.
  Definition z_unit_tree (u : zuniverse T) : ztree T := mkZT (Leaf true) u.

  (** tree, L49-58 *)
  Definition z_tree (u : zuniverse T) (combination : list T) : ztree T :=
    mkZT (fold_left (fun next id => required_branch id next)
            (rev (sort (filter_map (map_get (zu_index u)) combination))) (Leaf true)) u.

  (** Tree::union, intersect, product: weave/src/zdd/tree/mod.rs L107-129 *)
  Definition z_union (t o : ztree T) : ztree T := mkZT (zunion (zt_root t) (zt_root o)) (zt_univ t).
  Definition z_intersect (t o : ztree T) : ztree T := mkZT (zintersect (zt_root t) (zt_root o)) (zt_univ t).
  Definition z_product (t o : ztree T) : ztree T := mkZT (zproduct (zt_root t) (zt_root o)) (zt_univ t).

  (** unique_tree, weave/src/zdd/tree/universe.rs L60-64 *)
  Definition z_unique_tree (u : zuniverse T) (items : list T) : ztree T :=
    fold_left (fun root next => z_union root next) (map (fun x => z_tree u [x]) items) (z_empty_tree u).
  (** hyper_tree, L66-70 *)
  Definition z_hyper_tree (u : zuniverse T) (combinations : list (list T)) : ztree T :=
    fold_left (fun root next => z_union root next) (map (z_tree u) combinations) (z_empty_tree u).

  (** get_item, L72-74; get_items, L76-81 *)
  Definition z_get_item (u : zuniverse T) (p : nat) : option T := nth_error (zu_items u) p.
  Definition z_get_items (u : zuniverse T) (ps : list nat) : list T :=
    filter_repeats (filter_map (z_get_item u) ps).

  (** combinations_recursive, weave/src/zdd/tree/mod.rs L81-86 *)
  Definition z_combinations_recursive (t : ztree T) : list (list T) :=
    filter_repeats (map (z_get_items (zt_univ t)) (zcombinations_recursive (zt_root t))).
  (** combinations, L88-93 *)
  Definition z_combinations (t : ztree T) : option (list (list T)) :=
    let! ps := zcombinations_iter (zt_root t) in
    Some (filter_repeats (map (z_get_items (zt_univ t)) ps)).
  (** combinations_with, L95-105; [a.intersection(b)] of two ordered sets *)
  Definition z_set_inter (a b : list T) : list T := filter (fun x => memb x b) a.
  Definition z_combinations_with (t : ztree T) (inclusions exclusions : list T) : option (list (list T)) :=
    let inclusions := filter_repeats inclusions in
    let exclusions := filter_repeats exclusions in
    let! ps := zcombinations_iter (zt_root t) in
    Some (filter_repeats
            (filter (fun set => match z_set_inter set exclusions with [] => true | _ => false end)
               (filter (fun set => eqb_ (filter_repeats (z_set_inter set inclusions)) inclusions)
                  (map (z_get_items (zt_univ t)) ps)))).
  (** restrict, L131-138 *)
  Definition z_restrict (t : ztree T) (inclusions exclusions : list T) : option (ztree T) :=
    let! cs := z_combinations_with t inclusions exclusions in
    Some (z_hyper_tree (zt_univ t) cs).

  (** itertools [group_by] on equality, with the size of each group (weave/src/zdd/tree/mod.rs L51-79) *)
  Fixpoint group_counts (l : list T) : list (T * nat) :=
    match l with
    | [] => []
    | x :: l' =>
        match group_counts l' with
        | (y, c) :: r => if eqb_ x y then (y, S c) :: r else (x, 1) :: (y, c) :: r
        | [] => [(x, 1)]
        end
    end.

  (** summarize, L51-79 *)
  Definition z_summarize (h : hash_order) (t : ztree T) (inclusions exclusions : list T)
    : option (list (zstatus T)) :=
    let! cs := z_combinations_with t inclusions exclusions in
    let total := length cs in
    let counts := fold_left (fun m p => map_insert m (fst p) (snd p))
                    (map (fun x => (x, 0)) (zu_items (zt_univ t)) ++ group_counts (sort (concat cs))) [] in
    Some (sort_by zstatus_leb
            (map (fun p => let '(item, count) := p in
                           if count =? 0 then ZExcluded item
                           else if memb item inclusions then ZSelected item
                           else if count =? total then ZRequired item
                           else ZAvailable item)
                 (ho_iter h 20 counts))).

  (** TreeNode::from, weave/src/zdd/tree/traversable.rs L13-40; a [TreeNode] is a diagram labelled
      with items, [None] is the [unwrap] on an index outside the universe *)
  Fixpoint z_from_node (u : zuniverse T) (n : dd nat) : option (dd T) :=
    match n with
    | Leaf v => Some (Leaf v)
    | Branch id low high =>
        let! value := z_get_item u id in
        let! low' := z_from_node u low in
        let! high' := z_from_node u high in
        Some (Branch value low' high')
    end.
  (** traverse, weave/src/zdd/tree/mod.rs L140-142 *)
  Definition z_traverse (t : ztree T) : option (dd T) := z_from_node (zt_univ t) (zt_root t).

  (** Everything a client obtains over the universe [u], the combinations
      handed to [tree] and [hyper_tree] being all [ok] *)
  Inductive ZReach (ok : list T -> Prop) (u : zuniverse T) : ztree T -> Prop :=
  | ZR_empty : ZReach ok u (z_empty_tree u)
  | ZR_unit : ZReach ok u (z_unit_tree u)
  | ZR_tree c : ok c -> ZReach ok u (z_tree u c)
  | ZR_unique items : ZReach ok u (z_unique_tree u items)
  | ZR_hyper cs : (forall c, In c cs -> ok c) -> ZReach ok u (z_hyper_tree u cs)
  | ZR_union t o : ZReach ok u t -> ZReach ok u o -> ZReach ok u (z_union t o)
  | ZR_intersect t o : ZReach ok u t -> ZReach ok u o -> ZReach ok u (z_intersect t o)
  | ZR_product t o : ZReach ok u t -> ZReach ok u o -> ZReach ok u (z_product t o)
  | ZR_restrict t inc exc r : ZReach ok u t -> z_restrict t inc exc = Some r -> ZReach ok u r.
End Zdd.
