(** ZddProg: weave/src/zdd again, on node ids and with every access to the
    shared arena explicit (compare ZddModel.v, the same code on values; the
    universe part has no shared state and is shared with it).
    [OutOfFuel] is not a behaviour of the code; recursion of the source is
    unfolded to any depth by the [fuel].  A panic outside the arena (an [unwrap]
    while no lock is held) ends the call and is shown to the caller as [None].
    No proofs in this file. *)
From Coq Require Import List Arith NArith Lia Bool Permutation Sorted.
From Verif Require Import Base DD Spec Zdd2Model ZddModel ParserModel ArenaModel PoolModel.
Import ListNotations.
Open Scope nat_scope.

Notation znd := (gnode nat).

(** Node::branch on two nodes, weave/src/zdd/node/mod.rs L51-53 with the
    conversions L62-72 (the write lock, once for each child) *)
Definition m_zbranch (id : nat) (low high : znd) : prog nat znd :=
  do l <- intern low ;
  do h <- intern high ;
  Ret (GBranch id l h).
(** the tail of weave/src/zdd/tree/union.rs (L47-51), weave/src/zdd/tree/intersect.rs (L35-39), weave/src/zdd/tree/product.rs (L35-39) *)
Definition m_zfinish (id : nat) (low high : znd) : prog nat znd :=
  if gnode_eqb high (GLeaf false) then Ret low else m_zbranch id low high.

(** weave/src/zdd/tree/union.rs L3-52 *)
Fixpoint m_zunion (fuel : nat) (node1 node2 : znd) : prog nat znd :=
  match fuel with
  | O => OutOfFuel
  | S k =>
      if gnode_eqb node1 node2 then Ret node1 else
      match node1, node2 with
      | _, GLeaf false => Ret node1
      | GLeaf false, _ => Ret node2
      | GLeaf true, GLeaf true => Ret (GLeaf true)
      | GBranch id low high, GLeaf true =>
          do l <- get_node low ;
          do low' <- m_zunion k l node2 ;
          do high' <- get_node high ;
          m_zfinish id low' high'
      | GLeaf true, GBranch id low high =>
          do l <- get_node low ;
          do low' <- m_zunion k node1 l ;
          do high' <- get_node high ;
          m_zfinish id low' high'
      | GBranch id1 low1 high1, GBranch id2 low2 high2 =>
          if id1 <? id2 then
            do l <- get_node low1 ;
            do low' <- m_zunion k l node2 ;
            do high' <- get_node high1 ;
            m_zfinish id1 low' high'
          else if id2 <? id1 then
            do l <- get_node low2 ;
            do low' <- m_zunion k node1 l ;
            do high' <- get_node high2 ;
            m_zfinish id2 low' high'
          else
            do l1 <- get_node low1 ;
            do l2 <- get_node low2 ;
            do low' <- m_zunion k l1 l2 ;
            do h1 <- get_node high1 ;
            do h2 <- get_node high2 ;
            do high' <- m_zunion k h1 h2 ;
            m_zfinish id1 low' high'
      end
  end.

(** weave/src/zdd/tree/intersect.rs L3-40 *)
Fixpoint m_zintersect (fuel : nat) (node1 node2 : znd) : prog nat znd :=
  match fuel with
  | O => OutOfFuel
  | S k =>
      if gnode_eqb node1 node2 then Ret node1 else
      match node1, node2 with
      | _, GLeaf true => Ret node1
      | GLeaf true, _ => Ret node2
      | _, GLeaf false => Ret (GLeaf false)
      | GLeaf false, _ => Ret (GLeaf false)
      | GBranch id1 low1 high1, GBranch id2 low2 high2 =>
          if id1 <? id2 then
            do low' <- get_node low1 ;
            do h <- get_node high1 ;
            do high' <- m_zintersect k h node2 ;
            m_zfinish id1 low' high'
          else if id2 <? id1 then
            do low' <- get_node low2 ;
            do h <- get_node high2 ;
            do high' <- m_zintersect k node1 h ;
            m_zfinish id2 low' high'
          else
            do l1 <- get_node low1 ;
            do l2 <- get_node low2 ;
            do low' <- m_zintersect k l1 l2 ;
            do h1 <- get_node high1 ;
            do h2 <- get_node high2 ;
            do high' <- m_zintersect k h1 h2 ;
            m_zfinish id1 low' high'
      end
  end.

(** weave/src/zdd/tree/product.rs L3-40 *)
Fixpoint m_zproduct (fuel : nat) (node1 node2 : znd) : prog nat znd :=
  match fuel with
  | O => OutOfFuel
  | S k =>
      if gnode_eqb node1 node2 then Ret node1 else
      match node1, node2 with
      | _, GLeaf true => Ret node1
      | GLeaf true, _ => Ret node2
      | _, GLeaf false => Ret (GLeaf false)
      | GLeaf false, _ => Ret (GLeaf false)
      | GBranch id1 low1 high1, GBranch id2 low2 high2 =>
          if id1 <? id2 then
            do l <- get_node low1 ;
            do low' <- m_zproduct k l node2 ;
            do h <- get_node high1 ;
            do high' <- m_zproduct k h node2 ;
            m_zfinish id1 low' high'
          else if id2 <? id1 then
            do l <- get_node low2 ;
            do low' <- m_zproduct k node1 l ;
            do h <- get_node high2 ;
            do high' <- m_zproduct k node1 h ;
            m_zfinish id2 low' high'
          else
            do l1 <- get_node low1 ;
            do l2 <- get_node low2 ;
            do low' <- m_zproduct k l1 l2 ;
            do h1 <- get_node high1 ;
            do h2 <- get_node high2 ;
            do high' <- m_zproduct k h1 h2 ;
            m_zfinish id1 low' high'
      end
  end.

(** combinations_inner and combinations_recursive, weave/src/zdd/tree/combinations.rs L5-32 *)
Fixpoint m_zcomb_inner (fuel : nat) (root : nat) (path : list nat) : prog nat (option (list (list nat))) :=
  match fuel with
  | O => OutOfFuel
  | S k =>
      do n <- get_node root ;
      match n with
      | GBranch id low high =>
          do lo <- m_zcomb_inner k low path ;
          do hi <- m_zcomb_inner k high (path ++ [id]) ;
          Ret (Some (match lo with Some l => l | None => [] end ++ match hi with Some l => l | None => [] end))
      | GLeaf true => Ret (Some [path])
      | GLeaf false => Ret None
      end
  end.
(** combinations_recursive, weave/src/zdd/tree/combinations.rs L5-8 *)
Definition m_zcomb_recursive (fuel : nat) (root : nat) : prog nat (list (list nat)) :=
  do o <- m_zcomb_inner fuel root [] ; Ret (match o with Some l => l | None => [] end).

(** combinations_iter, L34-56 *)
Fixpoint m_zcomb_loop (fuel : nat) (queue : list (znd * list nat)) (combinations : list (list nat))
  : prog nat (list (list nat)) :=
  match queue with
  | [] => Ret combinations
  | (n, path) :: queue' =>
      match fuel with
      | O => OutOfFuel
      | S k =>
          match n with
          | GBranch id low high =>
              do l <- get_node low ;
              do h <- get_node high ;
              m_zcomb_loop k ((h, path ++ [id]) :: (l, path) :: queue') combinations
          | GLeaf true => m_zcomb_loop k queue' (combinations ++ [path])
          | GLeaf false => m_zcomb_loop k queue' combinations
          end
      end
  end.
Definition m_zcomb_iter (fuel : nat) (root : nat) : prog nat (list (list nat)) :=
  do n <- get_node root ; m_zcomb_loop fuel [(n, [])] [].

(** build_node_string, weave/src/zdd/node/parser.rs L9-20 *)
Fixpoint m_zprint (fuel : nat) (n : znd) : prog nat (list N) :=
  match fuel with
  | O => OutOfFuel
  | S k =>
      match n with
      | GLeaf true => Ret text_T
      | GLeaf false => Ret text_F
      | GBranch id low high =>
          do l <- get_node low ;
          do sl <- m_zprint k l ;
          do h <- get_node high ;
          do sh <- m_zprint k h ;
          Ret ([40%N] ++ decimal (N.of_nat id) ++ [32%N] ++ sl ++ [32%N] ++ sh ++ [41%N])
      end
  end.

(** [named!(node<Node>, ...)], weave/src/zdd/node/parser.rs L36-48: the two
    children are interned when the closing parenthesis has been read *)
Fixpoint m_zparse (fuel : nat) (i : list N) : prog nat (presult znd) :=
  match fuel with
  | O => OutOfFuel
  | S k =>
      match tag text_T i with
      | Some r => Ret (POk r (GLeaf true))
      | None =>
          match tag text_F i with
          | Some r => Ret (POk r (GLeaf false))
          | None =>
              match tag [40%N] i with
              | None => Ret PErr
              | Some i1 =>
                  match ws node_id i1 with
                  | POk i2 id =>
                      do x <- m_zparse k (sp i2) ;
                      match x with
                      | POk i3 low =>
                          do y <- m_zparse k (sp (sp i3)) ;
                          match y with
                          | POk i4 high =>
                              match tag [41%N] (sp i4) with
                              | None => Ret PErr
                              | Some r =>
                                  do n <- m_zbranch (N.to_nat id) low high ;
                                  Ret (POk r n)
                              end
                          | z => Ret z
                          end
                      | z => Ret z
                      end
                  | _ => Ret PErr
                  end
              end
          end
      end
  end.

(** [struct Tree { root: NodeId, universe }], weave/src/zdd/tree/mod.rs L26-30 *)
Record mztree (T : Type) := mkMZ { mz_root : nat; mz_univ : zuniverse T }.
Arguments mkMZ {T} mz_root mz_univ.
Arguments mz_root {T} m.
Arguments mz_univ {T} m.

Section Zdd.
  Context {T : Type} `{Ord T}.

  (** tree, weave/src/zdd/tree/universe.rs L49-58; required_branch, weave/src/zdd/node/mod.rs
      L55-57, on ids: [Node::FALSE] is id 0, [Node::TRUE] id 1 *)
  Definition m_ztree (u : zuniverse T) (combination : list T) : prog nat (mztree T) :=
    do i <- pfoldM (fun next id => intern (GBranch id 0 next))
              (rev (sort (filter_map (map_get (zu_index u)) combination))) 1 ;
    Ret (mkMZ i u).
  (** union, intersect, product, weave/src/zdd/tree/mod.rs L107-129 *)
  Definition m_zop (op : nat -> znd -> znd -> prog nat znd) (fuel : nat) (t o : mztree T) : prog nat (mztree T) :=
    do n1 <- get_node (mz_root t) ;
    do n2 <- get_node (mz_root o) ;
    do r <- op fuel n1 n2 ;
    do i <- intern r ;
    Ret (mkMZ i (mz_univ t)).
  (** unique_tree L60-64, hyper_tree L66-70: a lazy [map] under a [fold] *)
  Definition m_zhyper (fuel : nat) (u : zuniverse T) (cs : list (list T)) : prog nat (mztree T) :=
    pfoldM (fun root c => do next <- m_ztree u c ; m_zop m_zunion fuel root next) cs (mkMZ 0 u).
  Definition m_zunique (fuel : nat) (u : zuniverse T) (items : list T) : prog nat (mztree T) :=
    m_zhyper fuel u (map (fun x => [x]) items).

  (** combinations_recursive L81-86, combinations L88-93, combinations_with L95-105 *)
  Definition m_zcombinations_recursive (fuel : nat) (t : mztree T) : prog nat (list (list T)) :=
    do ps <- m_zcomb_recursive fuel (mz_root t) ;
    Ret (filter_repeats (map (z_get_items (mz_univ t)) ps)).
  Definition m_zcombinations (fuel : nat) (t : mztree T) : prog nat (list (list T)) :=
    do ps <- m_zcomb_iter fuel (mz_root t) ;
    Ret (filter_repeats (map (z_get_items (mz_univ t)) ps)).
  Definition m_zcombinations_with (fuel : nat) (t : mztree T) (inclusions exclusions : list T) : prog nat (list (list T)) :=
    let inclusions := filter_repeats inclusions in
    let exclusions := filter_repeats exclusions in
    do ps <- m_zcomb_iter fuel (mz_root t) ;
    Ret (filter_repeats
           (filter (fun set => match z_set_inter set exclusions with [] => true | _ => false end)
              (filter (fun set => eqb_ (filter_repeats (z_set_inter set inclusions)) inclusions)
                 (map (z_get_items (mz_univ t)) ps)))).
  (** restrict, L131-138 *)
  Definition m_zrestrict (fuel : nat) (t : mztree T) (inc exc : list T) : prog nat (mztree T) :=
    do cs <- m_zcombinations_with fuel t inc exc ; m_zhyper fuel (mz_univ t) cs.
  (** summarize, L51-79: after the combinations there is no shared state.  The
      pure part is the one of ZddModel.z_summarize. *)
  Definition z_status_list (h : hash_order) (items : list T) (inclusions : list T) (cs : list (list T)) : list (zstatus T) :=
    let total := length cs in
    let counts := fold_left (fun m p => map_insert m (fst p) (snd p))
                    (map (fun x => (x, 0)) items ++ group_counts (sort (concat cs))) [] in
    sort_by zstatus_leb
      (map (fun p => let '(item, count) := p in
                     if count =? 0 then ZExcluded item
                     else if memb item inclusions then ZSelected item
                     else if count =? total then ZRequired item
                     else ZAvailable item)
           (ho_iter h 20 counts)).
  (** summarize, weave/src/zdd/tree/mod.rs L51-79 *)
  Definition m_zsummarize (fuel : nat) (h : hash_order) (t : mztree T) (inc exc : list T) : prog nat (list (zstatus T)) :=
    do cs <- m_zcombinations_with fuel t inc exc ;
    Ret (z_status_list h (zu_items (mz_univ t)) inc cs).
  (** from_node, weave/src/zdd/tree/traversable.rs L27-40; [None]: the [unwrap] of L31 panics *)
  Fixpoint m_ztraverse (fuel : nat) (u : zuniverse T) (root : nat) : prog nat (option (dd T)) :=
    match fuel with
    | O => OutOfFuel
    | S k =>
        do n <- get_node root ;
        match n with
        | GLeaf v => Ret (Some (Leaf v))
        | GBranch id low high =>
            match z_get_item u id with
            | None => Ret None
            | Some value =>
                do lo <- m_ztraverse k u low ;
                match lo with
                | None => Ret None
                | Some lo' =>
                    do hi <- m_ztraverse k u high ;
                    match hi with
                    | None => Ret None
                    | Some hi' => Ret (Some (Branch value lo' hi'))
                    end
                end
            end
        end
    end.

  (** ** Client code over any number of universes.  An index that is out of
      range stands for [Universe::default().empty_tree()]. *)
  Inductive zcall :=
  | ZCEmpty (items : list T)
  | ZCUnit (items : list T)
  | ZCTree (items : list T) (c : list T)
  | ZCUnique (items : list T) (xs : list T)
  | ZCHyper (items : list T) (cs : list (list T))
  | ZCUnion (i j : nat)
  | ZCIntersect (i j : nat)
  | ZCProduct (i j : nat)
  | ZCRestrict (i : nat) (inc exc : list T)
  | ZCCombinations (i : nat)
  | ZCCombinationsRec (i : nat)
  | ZCCombinationsWith (i : nat) (inc exc : list T)
  | ZCSummarize (h : hash_order) (i : nat) (inc exc : list T)
  | ZCTraverse (i : nat)
  | ZCEq (i j : nat)
  | ZCSerialize (i : nat)
  | ZCDeserialize (d : list N * (list T * list (T * nat))).

  (** what a call shows to the caller *)
  Inductive zobs :=
  | ZONone
  | ZOSets (l : list (list T))
  | ZOStatus (l : list (zstatus T))
  | ZOTree (o : option (dd T))
  | ZOBool (b : bool)
  | ZOData (d : list N * (list T * list (T * nat))).

  (** derived [==] of trees, weave/src/zdd/tree/mod.rs L26: ids and universes are compared *)
  Definition zu_eqb (u v : zuniverse T) : bool := eqb_ (zu_items u) (zu_items v) && eqb_ (zu_index u) (zu_index v).
  Definition z_eqb (t o : ztree T) : bool := dd_eqb (zt_root t) (zt_root o) && zu_eqb (zt_univ t) (zt_univ o).
  Definition m_zeqb (t o : mztree T) : bool := (mz_root t =? mz_root o) && zu_eqb (mz_univ t) (mz_univ o).

  (** ... on values: the meaning of the call run alone *)
  Definition zreg (ts : list (ztree T)) (i : nat) : ztree T := nth i ts (z_empty_tree zu_default).
  Definition z_call (ts : list (ztree T)) (c : zcall) : option (list (ztree T) * zobs) :=
    match c with
    | ZCEmpty items => Some (ts ++ [z_empty_tree (zu_from items)], ZONone)
    | ZCUnit items => Some (ts ++ [z_unit_tree (zu_from items)], ZONone)
    | ZCTree items c => Some (ts ++ [z_tree (zu_from items) c], ZONone)
    | ZCUnique items xs => Some (ts ++ [z_unique_tree (zu_from items) xs], ZONone)
    | ZCHyper items cs => Some (ts ++ [z_hyper_tree (zu_from items) cs], ZONone)
    | ZCUnion i j => Some (ts ++ [z_union (zreg ts i) (zreg ts j)], ZONone)
    | ZCIntersect i j => Some (ts ++ [z_intersect (zreg ts i) (zreg ts j)], ZONone)
    | ZCProduct i j => Some (ts ++ [z_product (zreg ts i) (zreg ts j)], ZONone)
    | ZCRestrict i inc exc => let! t := z_restrict (zreg ts i) inc exc in Some (ts ++ [t], ZONone)
    | ZCCombinations i => let! l := z_combinations (zreg ts i) in Some (ts, ZOSets l)
    | ZCCombinationsRec i => Some (ts, ZOSets (z_combinations_recursive (zreg ts i)))
    | ZCCombinationsWith i inc exc => let! l := z_combinations_with (zreg ts i) inc exc in Some (ts, ZOSets l)
    | ZCSummarize h i inc exc => let! l := z_summarize h (zreg ts i) inc exc in Some (ts, ZOStatus l)
    | ZCTraverse i => Some (ts, ZOTree (z_traverse (zreg ts i)))
    | ZCEq i j => Some (ts, ZOBool (z_eqb (zreg ts i) (zreg ts j)))
    | ZCSerialize i => Some (ts, ZOData (z_serialize (zreg ts i)))
    | ZCDeserialize d =>
        match z_deserialize d with
        | Some t => Some (ts ++ [t], ZOBool true)
        | None => Some (ts, ZOBool false)
        end
    end.

  (** ... and on ids, against the shared arena *)
  Definition mzreg (ts : list (mztree T)) (i : nat) : mztree T := nth i ts (mkMZ 0 zu_default).
  Definition mznew (p : prog nat (mztree T)) (ts : list (mztree T)) : prog nat (list (mztree T) * zobs) :=
    do t <- p ; Ret (ts ++ [t], ZONone).
  Definition m_zcall (fuel : nat) (ts : list (mztree T)) (c : zcall) : prog nat (list (mztree T) * zobs) :=
    match c with
    | ZCEmpty items => mznew (Ret (mkMZ 0 (zu_from items))) ts
    | ZCUnit items => mznew (Ret (mkMZ 1 (zu_from items))) ts
    | ZCTree items c => mznew (m_ztree (zu_from items) c) ts
    | ZCUnique items xs => mznew (m_zunique fuel (zu_from items) xs) ts
    | ZCHyper items cs => mznew (m_zhyper fuel (zu_from items) cs) ts
    | ZCUnion i j => mznew (m_zop m_zunion fuel (mzreg ts i) (mzreg ts j)) ts
    | ZCIntersect i j => mznew (m_zop m_zintersect fuel (mzreg ts i) (mzreg ts j)) ts
    | ZCProduct i j => mznew (m_zop m_zproduct fuel (mzreg ts i) (mzreg ts j)) ts
    | ZCRestrict i inc exc => mznew (m_zrestrict fuel (mzreg ts i) inc exc) ts
    | ZCCombinations i => do l <- m_zcombinations fuel (mzreg ts i) ; Ret (ts, ZOSets l)
    | ZCCombinationsRec i => do l <- m_zcombinations_recursive fuel (mzreg ts i) ; Ret (ts, ZOSets l)
    | ZCCombinationsWith i inc exc => do l <- m_zcombinations_with fuel (mzreg ts i) inc exc ; Ret (ts, ZOSets l)
    | ZCSummarize h i inc exc => do l <- m_zsummarize fuel h (mzreg ts i) inc exc ; Ret (ts, ZOStatus l)
    | ZCTraverse i => do o <- m_ztraverse fuel (mz_univ (mzreg ts i)) (mz_root (mzreg ts i)) ; Ret (ts, ZOTree o)
    | ZCEq i j => Ret (ts, ZOBool (m_zeqb (mzreg ts i) (mzreg ts j)))
    | ZCSerialize i =>
        (* weave/src/zdd/node/serialize.rs L8-20 *)
        do n <- get_node (mz_root (mzreg ts i)) ;
        do s <- m_zprint fuel n ;
        Ret (ts, ZOData (s, (zu_items (mz_univ (mzreg ts i)), zu_index (mz_univ (mzreg ts i)))))
    | ZCDeserialize d =>
        (* L36-58 *)
        do x <- m_zparse fuel (as_bytes (fst d)) ;
        match x with
        | POk _ n =>
            do i <- intern n ;
            Ret (ts ++ [mkMZ i (mkZU (fst (snd d)) (map_collect (snd (snd d))))], ZOBool true)
        | _ => Ret (ts, ZOBool false)
        end
    end.
End Zdd.
Arguments zcall T : clear implicits.
Arguments zobs T : clear implicits.
