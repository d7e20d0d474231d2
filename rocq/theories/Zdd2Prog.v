(** Zdd2Prog: the zdd2 code again, this time on node ids and with every access
    to the shared arena explicit, so that threads can interleave at each of them.
    The universe part (no shared state) is shared with Zdd2Model.v.
    [OutOfFuel] is not a behaviour of the code; recursion of the source is
    unfolded to any depth by the [fuel].  No proofs in this file. *)
From Coq Require Import List Arith Lia Bool Permutation Sorted.
From Verif Require Import Base DD Zdd2Model ArenaModel.
Import ListNotations.

Notation zprog := (prog nat).
Notation znode := (gnode nat).

(** an argument of type [impl Into<NodeId>]: an id, or a node still to be interned *)
Inductive arg := AId (i : nat) | ANode (n : znode).

(** [.into() : NodeId]; weave/src/zdd2/forest/node/mod.rs L127-138 for a [Node], the identity for a [NodeId] *)
Definition m_into (x : arg) : zprog nat :=
  match x with AId i => Ret i | ANode n => intern2 n end.

(** Node::branch, weave/src/zdd2/forest/node/mod.rs L67-96 *)
Fixpoint m_branch (fuel : nat) (id : nat) (low high : arg) : zprog znode :=
  match fuel with
  | O => OutOfFuel
  | S k =>
      do li <- m_into low ;
      do low <- get_node li ;
      do hi <- m_into high ;
      do high <- get_node hi ;
      let last := (do l <- intern2 low ; do h <- intern2 high ; Ret (GBranch id l h)) in
      match high, low with
      | GLeaf false, _ => Ret low
      | GBranch h hl hh, GBranch l ll lh =>
          if (h <? id) && (l =? h) then
            do low' <- m_branch k id (AId ll) (AId hl) ;
            do high' <- m_branch k id (AId lh) (AId hh) ;
            m_branch k h (ANode low') (ANode high')
          else if h <? id then
            do high' <- m_branch k id (AId hl) (AId hh) ;
            m_branch k h (ANode low) (ANode high')
          else if l <? id then
            do low' <- m_branch k id (AId ll) (ANode high) ;
            m_branch k l (ANode low') (AId lh)
          else if h =? id then m_branch k id (ANode low) (AId hh)
          else if l =? id then m_branch k id (AId ll) (ANode high)
          else last
      | GBranch h hl hh, GLeaf _ =>
          if h <? id then
            do high' <- m_branch k id (AId hl) (AId hh) ;
            m_branch k h (ANode low) (ANode high')
          else if h =? id then m_branch k id (ANode low) (AId hh)
          else last
      | GLeaf true, GBranch l ll lh =>
          if l <? id then
            do low' <- m_branch k id (AId ll) (ANode high) ;
            m_branch k l (ANode low') (AId lh)
          else if l =? id then m_branch k id (AId ll) (ANode high)
          else last
      | GLeaf true, GLeaf _ => last
      end
  end.

(** weave/src/zdd2/forest/node/union.rs L3-48 *)
Fixpoint m_union (fuel : nat) (node1 node2 : znode) : zprog znode :=
  match fuel with
  | O => OutOfFuel
  | S k =>
      if gnode_eqb node1 node2 then Ret node1 else
      match node1, node2 with
      | _, GLeaf false => Ret node1
      | GLeaf false, _ => Ret node2
      | GLeaf true, GLeaf true => Ret (GLeaf true)
      | GBranch id low high, GLeaf true =>
          do l <- get_node low ;
          do low' <- m_union k l node2 ;
          do high' <- get_node high ;
          m_branch k id (ANode low') (ANode high')
      | GLeaf true, GBranch id low high =>
          do l <- get_node low ;
          do low' <- m_union k node1 l ;
          do high' <- get_node high ;
          m_branch k id (ANode low') (ANode high')
      | GBranch id1 low1 high1, GBranch id2 low2 high2 =>
          if id1 <? id2 then
            do l <- get_node low1 ;
            do low' <- m_union k l node2 ;
            do high' <- get_node high1 ;
            m_branch k id1 (ANode low') (ANode high')
          else if id2 <? id1 then
            do l <- get_node low2 ;
            do low' <- m_union k node1 l ;
            do high' <- get_node high2 ;
            m_branch k id2 (ANode low') (ANode high')
          else
            do l1 <- get_node low1 ;
            do l2 <- get_node low2 ;
            do low' <- m_union k l1 l2 ;
            do h1 <- get_node high1 ;
            do h2 <- get_node high2 ;
            do high' <- m_union k h1 h2 ;
            m_branch k id1 (ANode low') (ANode high')
      end
  end.

(** weave/src/zdd2/forest/node/intersect.rs L3-28 *)
Fixpoint m_intersect (fuel : nat) (node1 node2 : znode) : zprog znode :=
  match fuel with
  | O => OutOfFuel
  | S k =>
      if gnode_eqb node1 node2 then Ret node1 else
      match node1, node2 with
      | _, GLeaf true => Ret node1
      | GLeaf true, _ => Ret node2
      | _, GLeaf false => Ret (GLeaf false)
      | GLeaf false, _ => Ret (GLeaf false)
      | GBranch id1 low1 high1, GBranch id2 low2 high2 =>
          if id1 <? id2 then
            do l <- get_node low1 ;
            m_intersect k l node2
          else if id2 <? id1 then
            do l <- get_node low2 ;
            m_intersect k node1 l
          else
            do l1 <- get_node low1 ;
            do l2 <- get_node low2 ;
            do low' <- m_intersect k l1 l2 ;
            do h1 <- get_node high1 ;
            do h2 <- get_node high2 ;
            do high' <- m_intersect k h1 h2 ;
            m_branch k id1 (ANode low') (ANode high')
      end
  end.

(** weave/src/zdd2/forest/node/product.rs L3-45 *)
Fixpoint m_product (fuel : nat) (node1 node2 : znode) : zprog znode :=
  match fuel with
  | O => OutOfFuel
  | S k =>
      if gnode_eqb node1 node2 then Ret node1 else
      match node1, node2 with
      | _, GLeaf true => Ret node1
      | GLeaf true, _ => Ret node2
      | _, GLeaf false => Ret (GLeaf false)
      | GLeaf false, _ => Ret (GLeaf false)
      | GBranch id1 low1 high1, GBranch id2 low2 high2 =>
          if id1 <? id2 then
            do l <- get_node low1 ;
            do low' <- m_product k l node2 ;
            do h <- get_node high1 ;
            do high' <- m_product k h node2 ;
            m_branch k id1 (ANode low') (ANode high')
          else if id2 <? id1 then
            do l <- get_node low2 ;
            do low' <- m_product k node1 l ;
            do h <- get_node high2 ;
            do high' <- m_product k node1 h ;
            m_branch k id2 (ANode low') (ANode high')
          else
            do l1 <- get_node low1 ;
            do l2 <- get_node low2 ;
            do low1_low2 <- m_product k l1 l2 ;
            do l1 <- get_node low1 ;
            do h2 <- get_node high2 ;
            do low1_high2 <- m_product k l1 h2 ;
            do h1 <- get_node high1 ;
            do l2 <- get_node low2 ;
            do high1_low2 <- m_product k h1 l2 ;
            do h1 <- get_node high1 ;
            do h2 <- get_node high2 ;
            do high1_high2 <- m_product k h1 h2 ;
            do new_high <- m_union k high1_low2 high1_high2 ;
            do high' <- m_union k low1_high2 new_high ;
            m_branch k id1 (ANode low1_low2) (ANode high')
      end
  end.

(** reduce_branch, weave/src/zdd2/forest/node/subset.rs L60-65 *)
Definition m_reduce_branch (m : znode * bool) : znode * bool :=
  if snd m then m else (GLeaf false, false).

(** subset_inner, weave/src/zdd2/forest/node/subset.rs L10-31 ([Node::NEVER] is id 0) *)
Fixpoint m_subset_inner (fuel : nat) (root : znode) (element : nat) : zprog (znode * bool) :=
  match fuel with
  | O => OutOfFuel
  | S k =>
      match root with
      | GBranch id low high =>
          if element =? id then
            do r <- m_branch k id (AId 0) (AId high) ; Ret (r, true)
          else
            do l <- get_node low ;
            do ml <- m_subset_inner k l element ;
            let (low', keep_low) := m_reduce_branch ml in
            do h <- get_node high ;
            do mh <- m_subset_inner k h element ;
            let (high', keep_high) := m_reduce_branch mh in
            do r <- m_branch k id (ANode low') (ANode high') ;
            Ret (r, keep_low || keep_high)
      | _ => Ret (root, false)
      end
  end.

(** subset, weave/src/zdd2/forest/node/subset.rs L6-8 *)
Definition m_node_subset (fuel : nat) (root : znode) (element : nat) : zprog znode :=
  do m <- m_subset_inner fuel root element ; Ret (fst m).

(** subset_not, weave/src/zdd2/forest/node/subset.rs L33-46 *)
Fixpoint m_node_subset_not (fuel : nat) (root : znode) (element : nat) : zprog znode :=
  match fuel with
  | O => OutOfFuel
  | S k =>
      match root with
      | GBranch id low high =>
          if element =? id then get_node low
          else
            do l <- get_node low ;
            do low' <- m_node_subset_not k l element ;
            do h <- get_node high ;
            do high' <- m_node_subset_not k h element ;
            m_branch k id (ANode low') (ANode high')
      | _ => Ret root
      end
  end.

(** subset_all L48-52, subset_none L54-58 (a lazy [map] under a [fold]) *)
Definition m_node_subset_all (fuel : nat) (root : znode) (elements : list nat) : zprog znode :=
  pfoldM (fun acc e => do s <- m_node_subset fuel root e ; m_intersect fuel acc s) elements (GLeaf true).
Definition m_node_subset_none (fuel : nat) (root : znode) (elements : list nat) : zprog znode :=
  pfoldM (fun acc e => do s <- m_node_subset_not fuel root e ; m_intersect fuel acc s) elements (GLeaf true).

(** trees, weave/src/zdd2/forest/trees.rs L5-31; a node is read from the arena before it is queued *)
Fixpoint m_trees_loop (fuel : nat) (queue : list (znode * list nat)) (acc : list (list nat))
  : zprog (list (list nat)) :=
  match queue with
  | [] => Ret (rev acc)
  | (n, path) :: queue' =>
      match fuel with
      | O => OutOfFuel
      | S k =>
          match n with
          | GBranch id low high =>
              do l <- get_node low ;
              do h <- get_node high ;
              m_trees_loop k ((h, path ++ [id]) :: (l, path) :: queue') acc
          | GLeaf true => m_trees_loop k queue' (path :: acc)
          | GLeaf false => m_trees_loop k queue' acc
          end
      end
  end.
Definition m_trees (fuel : nat) (root : nat) : zprog (list (list nat)) :=
  do n <- get_node root ; m_trees_loop fuel [(n, [])] [].

(** [struct Forest { root: NodeId, universe }], weave/src/zdd2/forest/mod.rs L26-29 *)
Record mforest (T : Type) := mkMF { mf_root : nat; mf_univ : universe T }.
Arguments mkMF {T} mf_root mf_univ.
Arguments mf_root {T} m.
Arguments mf_univ {T} m.

Section Forest.
  Context {T : Type} `{Ord T}.

  (** get_priorities::<Node>, weave/src/zdd2/forest/universe/mod.rs L75-79 with weave/src/zdd2/forest/node/mod.rs L173-183 *)
  Definition m_priorities_node (fuel : nat) (u : universe T) (xs : list T) : zprog znode :=
    match length xs with
    | O => Ret (GLeaf false)
    | S _ => pfoldM (fun root item => m_branch fuel item (ANode (GLeaf false)) (ANode root))
                    (get_priorities u xs) (GLeaf true)
    end.

  (** empty L57-62, unit L64-69, many L71-79, unique L81-89, canonical L91-98 *)
  Definition m_empty : mforest T := mkMF 0 u_default.
  Definition m_unit (fuel : nat) (h : hash_order) (items : list T) : zprog (mforest T) :=
    let u := from_items h site_new items in
    do root <- m_priorities_node fuel u items ;
    do i <- intern2 root ;
    Ret (mkMF i u).
  Definition m_many (fuel : nat) (h : hash_order) (matrix : list (list T)) : zprog (mforest T) :=
    let u := from_matrix h site_new matrix in
    do root <- pfoldM (fun acc items => do n <- m_priorities_node fuel u items ; m_union fuel acc n)
                      matrix (GLeaf false) ;
    do i <- intern2 root ;
    Ret (mkMF i u).
  Definition m_unique (fuel : nat) (h : hash_order) (set : list T) : zprog (mforest T) :=
    let u := from_items h site_new set in
    do root <- pfoldM (fun root item => m_branch fuel item (ANode root) (ANode (GLeaf true)))
                      (get_priorities u set) (GLeaf false) ;
    do i <- intern2 root ;
    Ret (mkMF i u).
  Definition m_canonical (fuel : nat) (h : hash_order) (root : znode) (u : universe T) : zprog (mforest T) :=
    do i <- intern2 root ;
    do ts <- m_trees fuel i ;
    m_many fuel h (map (get_items u) ts).

  (** len L100-102, is_empty L104-106, trees L108-113 *)
  Definition m_len (fuel : nat) (f : mforest T) : zprog nat :=
    do ts <- m_trees fuel (mf_root f) ; Ret (length ts).
  Definition m_is_empty (fuel : nat) (f : mforest T) : zprog bool :=
    do ts <- m_trees fuel (mf_root f) ; Ret (match ts with [] => true | _ => false end).
  Definition m_ftrees (fuel : nat) (f : mforest T) : zprog (list (list T)) :=
    do ts <- m_trees fuel (mf_root f) ; Ret (map (get_items (mf_univ f)) ts).
  (** occurrences, L115-121 *)
  Definition m_occurrences (h : hash_order) (f : mforest T) : list (T * nat) :=
    sort_by (fun p q => leb_ (fst p) (fst q)) (ho_iter h site_new (u_occ (mf_univ f))).

  (** translate_root, L189-202; [Panic] is an [unwrap] of [None] *)
  Fixpoint m_translate_root (fuel : nat) (old new : universe T) (root : znode) : zprog znode :=
    match fuel with
    | O => OutOfFuel
    | S k =>
        match root with
        | GBranch id low high =>
            do l <- get_node low ;
            do low' <- m_translate_root k old new l ;
            do h <- get_node high ;
            do high' <- m_translate_root k old new h ;
            match get_item old id with
            | None => Panic
            | Some item =>
                match get_priority new item with
                | None => Panic
                | Some id' => m_branch k id' (ANode low') (ANode high')
                end
            end
        | _ => Ret root
        end
    end.

  (** intersect L123-131, union L133-141, product L143-151, with translate_roots L180-187;
      the two roots are read first, as arguments of the call *)
  Definition m_binop (op : nat -> znode -> znode -> zprog znode) (fuel : nat) (h : hash_order)
      (f g : mforest T) : zprog (mforest T) :=
    do n1 <- get_node (mf_root f) ;
    do n2 <- get_node (mf_root g) ;
    let u := u_merge h site_merge (mf_univ f) (mf_univ g) in
    do r1 <- m_translate_root fuel (mf_univ f) u n1 ;
    do r2 <- m_translate_root fuel (mf_univ g) u n2 ;
    do root <- op fuel r1 r2 ;
    m_canonical fuel h root u.

  (** subset, weave/src/zdd2/forest/subset.rs L7-16; subset_not, L18-27; subset_many, L29-49 *)
  Definition m_subset (fuel : nat) (h : hash_order) (f : mforest T) (element : T) : zprog (mforest T) :=
    match get_priority (mf_univ f) element with
    | None => Ret m_empty
    | Some p =>
        do n <- get_node (mf_root f) ;
        do root <- m_node_subset fuel n p ;
        m_canonical fuel h root (mf_univ f)
    end.
  Definition m_subset_not (fuel : nat) (h : hash_order) (f : mforest T) (element : T) : zprog (mforest T) :=
    match get_priority (mf_univ f) element with
    | None => Ret f
    | Some p =>
        do n <- get_node (mf_root f) ;
        do root <- m_node_subset_not fuel n p ;
        m_canonical fuel h root (mf_univ f)
    end.
  Definition m_subset_many (fuel : nat) (h : hash_order) (f : mforest T) (elements : list T)
      (default : mforest T -> mforest T) (func : nat -> znode -> list nat -> zprog znode)
      : zprog (mforest T) :=
    match elements with
    | [] => Ret f
    | _ =>
        let known := get_priorities (mf_univ f) elements in
        if negb (length elements =? length known) then Ret (default f)
        else
          do n <- get_node (mf_root f) ;
          do root <- func fuel n known ;
          m_canonical fuel h root (mf_univ f)
    end.

  (** derived [==], weave/src/zdd2/forest/mod.rs L25: the ids and the universes are compared *)
  Definition m_eqb (f g : mforest T) : bool :=
    (mf_root f =? mf_root g) && u_eqb (mf_univ f) (mf_univ g).

  (** ** Client code: a straight-line program of API calls on numbered forests.
      An index that is out of range stands for [Forest::empty()]. *)
  Inductive call :=
  | CEmpty
  | CUnit (h : hash_order) (items : list T)
  | CMany (h : hash_order) (rows : list (list T))
  | CUnique (h : hash_order) (items : list T)
  | CUnion (h : hash_order) (i j : nat)
  | CIntersect (h : hash_order) (i j : nat)
  | CProduct (h : hash_order) (i j : nat)
  | CSubset (h : hash_order) (i : nat) (e : T)
  | CSubsetNot (h : hash_order) (i : nat) (e : T)
  | CSubsetAll (h : hash_order) (i : nat) (es : list T)
  | CSubsetNone (h : hash_order) (i : nat) (es : list T)
  | CTrees (i : nat)
  | CLen (i : nat)
  | CIsEmpty (i : nat)
  | COccurrences (h : hash_order) (i : nat)
  | CEq (i j : nat).

  (** what a call shows to the caller *)
  Inductive obs :=
  | ONone
  | OTrees (ts : list (list T))
  | OLen (n : nat)
  | OBool (b : bool)
  | OOcc (l : list (T * nat)).

  (** ... on values (Zdd2Model.v): the meaning of the call run alone *)
  Definition reg (fs : list (forest T)) (i : nat) : forest T := nth i fs f_empty.
  Definition new (o : option (forest T)) (fs : list (forest T)) : option (list (forest T) * obs) :=
    let! f := o in Some (fs ++ [f], ONone).
  Definition run_call (fs : list (forest T)) (c : call) : option (list (forest T) * obs) :=
    match c with
    | CEmpty => new (Some f_empty) fs
    | CUnit h items => new (f_unit h items) fs
    | CMany h rows => new (f_many h rows) fs
    | CUnique h items => new (f_unique h items) fs
    | CUnion h i j => new (f_union h (reg fs i) (reg fs j)) fs
    | CIntersect h i j => new (f_intersect h (reg fs i) (reg fs j)) fs
    | CProduct h i j => new (f_product h (reg fs i) (reg fs j)) fs
    | CSubset h i e => new (f_subset h (reg fs i) e) fs
    | CSubsetNot h i e => new (f_subset_not h (reg fs i) e) fs
    | CSubsetAll h i es => new (f_subset_all h (reg fs i) es) fs
    | CSubsetNone h i es => new (f_subset_none h (reg fs i) es) fs
    | CTrees i => let! ts := f_trees (reg fs i) in Some (fs, OTrees ts)
    | CLen i => let! n := f_len (reg fs i) in Some (fs, OLen n)
    | CIsEmpty i => let! b := f_is_empty (reg fs i) in Some (fs, OBool b)
    | COccurrences h i => Some (fs, OOcc (f_occurrences h (reg fs i)))
    | CEq i j => Some (fs, OBool (f_eqb (reg fs i) (reg fs j)))
    end.
  Fixpoint run_script (cs : list call) (fs : list (forest T)) : option (list (forest T) * list obs) :=
    match cs with
    | [] => Some (fs, [])
    | c :: cs' =>
        let! x := run_call fs c in
        let! y := run_script cs' (fst x) in
        Some (fst y, snd x :: snd y)
    end.

  (** ... and on ids, against the shared arena *)
  Definition mreg (fs : list (mforest T)) (i : nat) : mforest T := nth i fs m_empty.
  Definition mnew (p : zprog (mforest T)) (fs : list (mforest T)) : zprog (list (mforest T) * obs) :=
    do f <- p ; Ret (fs ++ [f], ONone).
  Definition m_call (fuel : nat) (fs : list (mforest T)) (c : call) : zprog (list (mforest T) * obs) :=
    match c with
    | CEmpty => mnew (Ret m_empty) fs
    | CUnit h items => mnew (m_unit fuel h items) fs
    | CMany h rows => mnew (m_many fuel h rows) fs
    | CUnique h items => mnew (m_unique fuel h items) fs
    | CUnion h i j => mnew (m_binop m_union fuel h (mreg fs i) (mreg fs j)) fs
    | CIntersect h i j => mnew (m_binop m_intersect fuel h (mreg fs i) (mreg fs j)) fs
    | CProduct h i j => mnew (m_binop m_product fuel h (mreg fs i) (mreg fs j)) fs
    | CSubset h i e => mnew (m_subset fuel h (mreg fs i) e) fs
    | CSubsetNot h i e => mnew (m_subset_not fuel h (mreg fs i) e) fs
    | CSubsetAll h i es => mnew (m_subset_many fuel h (mreg fs i) es (fun _ => m_empty) m_node_subset_all) fs
    | CSubsetNone h i es => mnew (m_subset_many fuel h (mreg fs i) es (fun f => f) m_node_subset_none) fs
    | CTrees i => do ts <- m_ftrees fuel (mreg fs i) ; Ret (fs, OTrees ts)
    | CLen i => do n <- m_len fuel (mreg fs i) ; Ret (fs, OLen n)
    | CIsEmpty i => do b <- m_is_empty fuel (mreg fs i) ; Ret (fs, OBool b)
    | COccurrences h i => Ret (fs, OOcc (m_occurrences h (mreg fs i)))
    | CEq i j => Ret (fs, OBool (m_eqb (mreg fs i) (mreg fs j)))
    end.
  Fixpoint m_script (fuel : nat) (cs : list call) (fs : list (mforest T)) : zprog (list (mforest T) * list obs) :=
    match cs with
    | [] => Ret (fs, [])
    | c :: cs' =>
        do x <- m_call fuel fs c ;
        do y <- m_script fuel cs' (fst x) ;
        Ret (fst y, snd x :: snd y)
    end.

  (** ** Threads.  A thread runs one script; the forests it starts from are
      forests some thread has finished computing ([p_done]). *)
  Record thread := mkT {
    t_fuel : nat;
    t_script : list call;
    t_init : list (mforest T);
    t_prog : zprog (list (mforest T) * list obs)
  }.
  Record pool := mkP { p_arena : arena nat; p_threads : list thread; p_done : list (mforest T) }.

  Definition p_start : pool := mkP a_new [] [].

  Inductive pool_step : pool -> pool -> Prop :=
  | S_spawn a ts d fuel cs fs : incl fs d ->
      pool_step (mkP a ts d) (mkP a (ts ++ [mkT fuel cs fs (m_script fuel cs fs)]) d)
  | S_thread a ts1 ts2 d fuel cs fs p a' p' : pstep a p a' p' ->
      pool_step (mkP a (ts1 ++ mkT fuel cs fs p :: ts2) d)
                (mkP a' (ts1 ++ mkT fuel cs fs p' :: ts2) d)
  | S_share a ts d fuel cs fs rs os : In (mkT fuel cs fs (Ret (rs, os))) ts ->
      pool_step (mkP a ts d) (mkP a ts (d ++ rs)).

  Inductive pool_reach : pool -> Prop :=
  | PR_start : pool_reach p_start
  | PR_step p q : pool_reach p -> pool_step p q -> pool_reach q.
End Forest.
Arguments call T : clear implicits.
Arguments obs T : clear implicits.
Arguments thread T : clear implicits.
Arguments pool T : clear implicits.
