(** Zdd2Model: weave/src/zdd2/forest, function by function.

    Nodes are diagrams as values ([dd nat]); a label is a [Priority].
    [None] is a panic or non-termination.  No proofs in this file. *)
From Coq Require Import List Arith Lia Bool.
From Verif Require Import Base DD.
Import ListNotations.

(** weave/src/zdd2/forest/node/mod.rs L31-36 *)
Notation node := (dd nat).
Notation Never := (Leaf false).
Notation Always := (Leaf true).

(** ** Node::branch, weave/src/zdd2/forest/node/mod.rs L67-96.
    The match arms are tried in the order of the source, on [(high, low)]:
    L72 high is Never; L73 both tops equal and above [id]; L80 high's top above
    [id]; L85 low's top above [id]; L91 high's top is [id]; L92 low's top is
    [id]; L94 otherwise.  The source recursion has no structural measure: fuel. *)
Fixpoint branch_f (fuel : nat) (id : nat) (low high : node) : option node :=
  match fuel with
  | O => None
  | S k =>
      match high, low with
      | Leaf false, _ => Some low
      | Branch h hl hh, Branch l ll lh =>
          if (h <? id) && (l =? h) then
            let! low' := branch_f k id ll hl in
            let! high' := branch_f k id lh hh in
            branch_f k h low' high'
          else if h <? id then
            let! high' := branch_f k id hl hh in
            branch_f k h low high'
          else if l <? id then
            let! low' := branch_f k id ll high in
            branch_f k l low' lh
          else if h =? id then branch_f k id low hh
          else if l =? id then branch_f k id ll high
          else Some (Branch id low high)
      | Branch h hl hh, Leaf _ =>
          if h <? id then
            let! high' := branch_f k id hl hh in
            branch_f k h low high'
          else if h =? id then branch_f k id low hh
          else Some (Branch id low high)
      | Leaf true, Branch l ll lh =>
          if l <? id then
            let! low' := branch_f k id ll high in
            branch_f k l low' lh
          else if l =? id then branch_f k id ll high
          else Some (Branch id low high)
      | Leaf true, Leaf _ => Some (Branch id low high)
      end
  end.

(** Node::branch (weave/src/zdd2/forest/node/mod.rs, as above) with a fuel that is always enough on
    ordered diagrams (Zdd2Node.branch_total). *)
Definition branch (id : nat) (low high : node) : option node :=
  branch_f (size low + size high + 3) id low high.

(** ** Node::union, weave/src/zdd2/forest/node/union.rs L3-48 *)
Fixpoint union (node1 : node) : node -> option node :=
  fix union1 (node2 : node) : option node :=
    if dd_eqb node1 node2 then Some node1 else
    match node1, node2 with
    | _, Leaf false => Some node1
    | Leaf false, _ => Some node2
    | Leaf true, Leaf true => Some Always
    | Branch id low high, Leaf true =>
        let! low' := union low node2 in branch id low' high
    | Leaf true, Branch id low high =>
        let! low' := union1 low in branch id low' high
    | Branch id1 low1 high1, Branch id2 low2 high2 =>
        if id1 <? id2 then
          let! low' := union low1 node2 in branch id1 low' high1
        else if id2 <? id1 then
          let! low' := union1 low2 in branch id2 low' high2
        else
          let! low' := union low1 low2 in
          let! high' := union high1 high2 in
          branch id1 low' high'
    end.

(** ** Node::intersect, weave/src/zdd2/forest/node/intersect.rs L3-28 *)
Fixpoint intersect (node1 : node) : node -> option node :=
  fix intersect1 (node2 : node) : option node :=
    if dd_eqb node1 node2 then Some node1 else
    match node1, node2 with
    | _, Leaf true => Some node1
    | Leaf true, _ => Some node2
    | _, Leaf false => Some Never
    | Leaf false, _ => Some Never
    | Branch id1 low1 high1, Branch id2 low2 high2 =>
        if id1 <? id2 then intersect low1 node2
        else if id2 <? id1 then intersect1 low2
        else
          let! low' := intersect low1 low2 in
          let! high' := intersect high1 high2 in
          branch id1 low' high'
    end.

(** ** Node::product, weave/src/zdd2/forest/node/product.rs L3-45 *)
Fixpoint product (node1 : node) : node -> option node :=
  fix product1 (node2 : node) : option node :=
    if dd_eqb node1 node2 then Some node1 else
    match node1, node2 with
    | _, Leaf true => Some node1
    | Leaf true, _ => Some node2
    | _, Leaf false => Some Never
    | Leaf false, _ => Some Never
    | Branch id1 low1 high1, Branch id2 low2 high2 =>
        if id1 <? id2 then
          let! low' := product low1 node2 in
          let! high' := product high1 node2 in
          branch id1 low' high'
        else if id2 <? id1 then
          let! low' := product1 low2 in
          let! high' := product1 high2 in
          branch id2 low' high'
        else
          let! low1_low2 := product low1 low2 in
          let! low1_high2 := product low1 high2 in
          let! high1_low2 := product high1 low2 in
          let! high1_high2 := product high1 high2 in
          let! new_high := union high1_low2 high1_high2 in
          let! high' := union low1_high2 new_high in
          branch id1 low1_low2 high'
    end.

(** ** weave/src/zdd2/forest/node/subset.rs *)

(** reduce_branch, L60-65 *)
Definition reduce_branch (m : node * bool) : node * bool :=
  if snd m then m else (Never, false).

(** subset_inner, L10-31 *)
Fixpoint subset_inner (root : node) (element : nat) : option (node * bool) :=
  match root with
  | Branch id low high =>
      if element =? id then
        let! r := branch id Never high in Some (r, true)
      else
        let! ml := subset_inner low element in
        let! mh := subset_inner high element in
        let (low', keep_low) := reduce_branch ml in
        let (high', keep_high) := reduce_branch mh in
        let! r := branch id low' high' in
        Some (r, keep_low || keep_high)
  | _ => Some (root, false)
  end.

(** subset, L6-8 *)
Definition node_subset (root : node) (element : nat) : option node :=
  let! m := subset_inner root element in Some (fst m).

(** subset_not, L33-46 *)
Fixpoint node_subset_not (root : node) (element : nat) : option node :=
  match root with
  | Branch id low high =>
      if element =? id then Some low
      else
        let! low' := node_subset_not low element in
        let! high' := node_subset_not high element in
        branch id low' high'
  | _ => Some root
  end.

(** subset_all, L48-52 *)
Definition node_subset_all (root : node) (elements : list nat) : option node :=
  foldM (fun acc e => let! s := node_subset root e in intersect acc s) elements Always.

(** subset_none, L54-58 *)
Definition node_subset_none (root : node) (elements : list nat) : option node :=
  foldM (fun acc e => let! s := node_subset_not root e in intersect acc s) elements Always.

(** ** trees, weave/src/zdd2/forest/trees.rs L5-31: explicit stack, top of the
    stack = head of the list; [acc] is the result vector, reversed. *)
Fixpoint trees_loop (fuel : nat) (queue : list (node * list nat)) (acc : list (list nat))
  : option (list (list nat)) :=
  match queue with
  | [] => Some (rev acc)
  | (n, path) :: queue' =>
      match fuel with
      | O => None
      | S k =>
          match n with
          | Branch id low high =>
              trees_loop k ((high, path ++ [id]) :: (low, path) :: queue') acc
          | Leaf true => trees_loop k queue' (path :: acc)
          | Leaf false => trees_loop k queue' acc
          end
      end
  end.
(** L5-9: the initial queue *)
Definition node_trees (root : node) : option (list (list nat)) :=
  trees_loop (size root) [(root, [])] [].

(** ** Universe, weave/src/zdd2/forest/universe/mod.rs *)

Record universe (T : Type) := mkU {
  u_occ : list (T * nat);      (* occurrences: HashMap<T, usize>   L14 *)
  u_prio : list (T * nat);     (* priority: HashMap<T, Priority>   L15 *)
  u_index : list T             (* index: Vec<T>                    L16 *)
}.
Arguments mkU {T} u_occ u_prio u_index.
Arguments u_occ {T} u.
Arguments u_prio {T} u.
Arguments u_index {T} u.

Section Universe.
  Context {T : Type} `{Ord T}.

  (** Default, L19-27 *)
  Definition u_default : universe T := mkU [] [] [].

  (** the closure [ordering], L100: count descending, then name ascending *)
  Definition occ_leb (p q : T * nat) : bool :=
    match Nat.compare (snd q) (snd p) with
    | Lt => true
    | Gt => false
    | Eq => leb_ (fst p) (fst q)
    end.

  (** [iter.enumerate().map(|(index, item)| (item, Priority(index))).collect()],
      weave/src/zdd2/forest/universe/mod.rs L102-107 *)
  Definition enumerate_map (l : list T) : list (T * nat) :=
    fold_left (fun m p => map_insert m (fst p) (snd p)) (combine l (seq 0 (length l))) [].

  (** from_occurrences, L99-119.  Both iterations of [occurrences] run over the
      same unmodified map, hence in the same order. *)
  Definition from_occurrences (h : hash_order) (site : nat) (occ : list (T * nat)) : universe T :=
    let items := map fst (sort_by occ_leb (ho_iter h site occ)) in
    mkU occ (enumerate_map items) items.

  (** from_items, L30-38 *)
  Definition from_items (h : hash_order) (site : nat) (items : list T) : universe T :=
    from_occurrences h site (fold_left (fun m x => map_insert m x 1) items []).

  (** [*entry.or_insert(0usize) += k], L46 and L64 *)
  Definition incr (k : nat) (o : option nat) : nat :=
    match o with Some c => c + k | None => 0 + k end.

  (** from_matrix, L40-51 *)
  Definition from_matrix (h : hash_order) (site : nat) (matrix : list (list T)) : universe T :=
    from_occurrences h site
      (fold_left (fun m x => map_update m x (incr 1)) (concat (unique (map filter_repeats matrix))) []).

  (** [==] on universes: derived, field by field (weave/src/zdd2/forest/universe/mod.rs L12) *)
  Definition u_eqb (u v : universe T) : bool :=
    eqb_ (u_occ u) (u_occ v) && eqb_ (u_prio u) (u_prio v) && eqb_ (u_index u) (u_index v).

  (** merge, L57-69 *)
  Definition u_merge (h : hash_order) (site : nat) (u v : universe T) : universe T :=
    if u_eqb u v then u
    else from_occurrences h (S site)
           (fold_left (fun m p => map_update m (fst p) (incr (snd p)))
                      (ho_iter h site (u_occ v)) (u_occ u)).

  (** get_priority, L71-73 *)
  Definition get_priority (u : universe T) (x : T) : option nat := map_get (u_prio u) x.
  (** get_priorities::<Vec<_>>, L75-79 *)
  Definition get_priorities (u : universe T) (xs : list T) : list nat :=
    filter_map (get_priority u) xs.
  (** get_item, L89-91 *)
  Definition get_item (u : universe T) (p : nat) : option T := nth_error (u_index u) p.
  (** get_items::<Vec<_>>, L81-87 *)
  Definition get_items (u : universe T) (ps : list nat) : list T :=
    sort (filter_map (get_item u) ps).

  (** get_priorities::<Node>, L75-79, with [FromIterator<Priority> for Node],
      weave/src/zdd2/forest/node/mod.rs L173-183.  The upper bound of the
      [filter_map] iterator is the slice's length. *)
  Definition get_priorities_node (u : universe T) (xs : list T) : option node :=
    match length xs with
    | O => Some Never
    | S _ => foldM (fun root item => branch item Never root) (get_priorities u xs) Always
    end.
End Universe.

(** ** Forest, weave/src/zdd2/forest/mod.rs L26-29 *)
Record forest (T : Type) := mkF { f_root : node; f_univ : universe T }.
Arguments mkF {T} f_root f_univ.
Arguments f_root {T} f.
Arguments f_univ {T} f.

(** hash-order sites *)
Definition site_new := 0.      (* a constructor's universe *)
Definition site_merge := 2.    (* merge (and site 3 for its from_occurrences) *)

Section Forest.
  Context {T : Type} `{Ord T}.

  (** empty, L57-62 *)
  Definition f_empty : forest T := mkF Never u_default.

  (** unit, L64-69 *)
  Definition f_unit (h : hash_order) (items : list T) : option (forest T) :=
    let u := from_items h site_new items in
    let! root := get_priorities_node u items in
    Some (mkF root u).

  (** many, L71-79 *)
  Definition f_many (h : hash_order) (matrix : list (list T)) : option (forest T) :=
    let u := from_matrix h site_new matrix in
    let! root := foldM (fun acc items => let! n := get_priorities_node u items in union acc n)
                       matrix Never in
    Some (mkF root u).

  (** unique, L81-89 *)
  Definition f_unique (h : hash_order) (set : list T) : option (forest T) :=
    let u := from_items h site_new set in
    let! root := foldM (fun root item => branch item root Always) (get_priorities u set) Never in
    Some (mkF root u).

  (** canonical, L91-98 *)
  Definition f_canonical (h : hash_order) (root : node) (u : universe T) : option (forest T) :=
    let! ts := node_trees root in
    f_many h (map (get_items u) ts).

  (** len, L100-102 *)
  Definition f_len (f : forest T) : option nat :=
    let! ts := node_trees (f_root f) in Some (length ts).
  (** is_empty, L104-106 *)
  Definition f_is_empty (f : forest T) : option bool :=
    let! ts := node_trees (f_root f) in Some (match ts with [] => true | _ => false end).
  (** trees, L108-113 *)
  Definition f_trees (f : forest T) : option (list (list T)) :=
    let! ts := node_trees (f_root f) in Some (map (get_items (f_univ f)) ts).
  (** occurrences, L115-121: a stable sort of the map's iteration by item *)
  Definition f_occurrences (h : hash_order) (f : forest T) : list (T * nat) :=
    sort_by (fun p q => leb_ (fst p) (fst q)) (ho_iter h site_new (u_occ (f_univ f))).

  (** translate_root, L189-202; the two [unwrap]s are the [None] results *)
  Fixpoint translate_root (old new : universe T) (root : node) : option node :=
    match root with
    | Branch id low high =>
        let! low' := translate_root old new low in
        let! high' := translate_root old new high in
        let! item := get_item old id in
        let! id' := get_priority new item in
        branch id' low' high'
    | _ => Some root
    end.

  (** translate_roots, L180-187 *)
  Definition translate_roots (h : hash_order) (f g : forest T) : option (universe T * node * node) :=
    let u := u_merge h site_merge (f_univ f) (f_univ g) in
    let! r1 := translate_root (f_univ f) u (f_root f) in
    let! r2 := translate_root (f_univ g) u (f_root g) in
    Some (u, r1, r2).

  Definition f_binop (op : node -> node -> option node) (h : hash_order) (f g : forest T)
    : option (forest T) :=
    let! x := translate_roots h f g in
    let '(u, r1, r2) := x in
    let! root := op r1 r2 in
    f_canonical h root u.

  (** intersect, L123-131 *)
  Definition f_intersect := f_binop intersect.
  (** union, L133-141 *)
  Definition f_union := f_binop union.
  (** product, L143-151 *)
  Definition f_product := f_binop product.

  (** subset, weave/src/zdd2/forest/subset.rs L7-16 *)
  Definition f_subset (h : hash_order) (f : forest T) (element : T) : option (forest T) :=
    match get_priority (f_univ f) element with
    | None => Some f_empty
    | Some p => let! root := node_subset (f_root f) p in f_canonical h root (f_univ f)
    end.

  (** subset_not, weave/src/zdd2/forest/subset.rs L18-27 *)
  Definition f_subset_not (h : hash_order) (f : forest T) (element : T) : option (forest T) :=
    match get_priority (f_univ f) element with
    | None => Some f
    | Some p => let! root := node_subset_not (f_root f) p in f_canonical h root (f_univ f)
    end.

  (** subset_many, weave/src/zdd2/forest/subset.rs L29-49 *)
  Definition f_subset_many (h : hash_order) (f : forest T) (elements : list T)
      (default : forest T -> forest T) (func : node -> list nat -> option node) : option (forest T) :=
    match elements with
    | [] => Some f
    | _ =>
        let known := get_priorities (f_univ f) elements in
        if negb (length elements =? length known) then Some (default f)
        else let! root := func (f_root f) known in f_canonical h root (f_univ f)
    end.

  (** subset_all, weave/src/zdd2/forest/mod.rs L161-168 *)
  Definition f_subset_all (h : hash_order) (f : forest T) (elements : list T) :=
    f_subset_many h f elements (fun _ => f_empty) node_subset_all.
  (** subset_none, weave/src/zdd2/forest/mod.rs L170-177 *)
  Definition f_subset_none (h : hash_order) (f : forest T) (elements : list T) :=
    f_subset_many h f elements (fun f => f) node_subset_none.

  (** [==] on forests: derived, weave/src/zdd2/forest/mod.rs L25 *)
  Definition f_eqb (f g : forest T) : bool :=
    dd_eqb (f_root f) (f_root g) && u_eqb (f_univ f) (f_univ g).

  (** Everything a client can obtain through the API, for any hash orders. *)
  Inductive Reach : forest T -> Prop :=
  | R_empty : Reach f_empty
  | R_unit h items f : f_unit h items = Some f -> Reach f
  | R_many h rows f : f_many h rows = Some f -> Reach f
  | R_unique h items f : f_unique h items = Some f -> Reach f
  | R_union h f g r : Reach f -> Reach g -> f_union h f g = Some r -> Reach r
  | R_intersect h f g r : Reach f -> Reach g -> f_intersect h f g = Some r -> Reach r
  | R_product h f g r : Reach f -> Reach g -> f_product h f g = Some r -> Reach r
  | R_subset h f e r : Reach f -> f_subset h f e = Some r -> Reach r
  | R_subset_not h f e r : Reach f -> f_subset_not h f e = Some r -> Reach r
  | R_subset_all h f es r : Reach f -> f_subset_all h f es = Some r -> Reach r
  | R_subset_none h f es r : Reach f -> f_subset_none h f es = Some r -> Reach r.
End Forest.
