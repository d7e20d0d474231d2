(** BddProg: bowtie-core/src/bdd again, on node ids and with every access to the
    shared arena explicit (compare BddModel.v, the same code on values; the
    builder's tables have no shared state and are shared with it).  A handle is a
    [Node], whose children are ids.
    [OutOfFuel] is not a behaviour of the code; recursion of the source is
    unfolded to any depth by the [fuel].  The panic of [expect] in [to_node]
    happens while no lock is held and is shown to the caller as [None].
    No proofs in this file. *)
From Coq Require Import List Arith Lia Bool Permutation Sorted.
From Verif Require Import Base DD BddSpec BddModel BddRun ArenaModel PoolModel.
Import ListNotations.

Section Node.
  Context {I : Type} `{Ord I}.
  Notation nd := (gnode I).

  (** Node::branch, bowtie-core/src/bdd/node/mod.rs L49-51 with the conversions L62-72 (the
      write lock, once for each child) *)
  Definition m_bbranch (id : I) (low high : nd) : prog I nd :=
    do l <- intern low ;
    do h <- intern high ;
    Ret (GBranch id l h).
  (** positive_branch, negative_branch, bowtie-core/src/bdd/node/mod.rs L53-59 *)
  Definition m_pos (id : I) : prog I nd := m_bbranch id (GLeaf false) (GLeaf true).
  Definition m_neg (id : I) : prog I nd := m_bbranch id (GLeaf true) (GLeaf false).
  (** the last lines of [bitor], [bitand], [reduce] and [restrict] *)
  Definition m_collapse (id : I) (low high : nd) : prog I nd :=
    if gnode_eqb low high then Ret low else m_bbranch id low high.
  (** split_branch, bowtie-core/src/bdd/node/bit_operations.rs L9-19 *)
  Definition m_split (n : nd) (first_id : I) : prog I (nd * nd) :=
    match n with
    | GBranch id low high =>
        if eqb_ first_id id then
          do l <- get_node low ;
          do h <- get_node high ;
          Ret (l, h)
        else Ret (n, n)
    | GLeaf _ => Ret (n, n)
    end.

  (** the tail shared by [bitor] (L45-57) and [bitand] (L80-92) *)
  Definition m_both (op : nd -> nd -> prog I nd) (id : I) (node1 node2 : nd) : prog I nd :=
    do s1 <- m_split node1 id ;
    do s2 <- m_split node2 id ;
    do low <- op (fst s1) (fst s2) ;
    do high <- op (snd s1) (snd s2) ;
    m_collapse id low high.

  (** BitOr, bowtie-core/src/bdd/node/bit_operations.rs L22-59 *)
  Fixpoint m_bitor (fuel : nat) (node1 node2 : nd) : prog I nd :=
    match fuel with
    | O => OutOfFuel
    | S k =>
        match node1, node2 with
        | _, GLeaf false => Ret node1
        | GLeaf false, _ => Ret node2
        | GLeaf v1, GLeaf v2 => Ret (GLeaf (v1 || v2))
        | GBranch id _ _, GLeaf _ => m_both (m_bitor k) id node1 node2
        | GLeaf _, GBranch id _ _ => m_both (m_bitor k) id node1 node2
        | GBranch id1 _ _, GBranch id2 _ _ =>
            m_both (m_bitor k) (match cmp id1 id2 with Lt | Eq => id1 | Gt => id2 end) node1 node2
        end
    end.
  (** BitAnd, bowtie-core/src/bdd/node/bit_operations.rs L61-94 *)
  Fixpoint m_bitand (fuel : nat) (node1 node2 : nd) : prog I nd :=
    match fuel with
    | O => OutOfFuel
    | S k =>
        match node1, node2 with
        | _, GLeaf true => Ret node1
        | GLeaf true, _ => Ret node2
        | GLeaf v1, GLeaf v2 => Ret (GLeaf (v1 && v2))
        | GBranch id _ _, GLeaf _ => m_both (m_bitand k) id node1 node2
        | GLeaf _, GBranch id _ _ => m_both (m_bitand k) id node1 node2
        | GBranch id1 _ _, GBranch id2 _ _ =>
            m_both (m_bitand k) (match cmp id1 id2 with Lt | Eq => id1 | Gt => id2 end) node1 node2
        end
    end.
  (** Not, bowtie-core/src/bdd/node/bit_operations.rs L104-114 *)
  Definition m_bitnot (n : nd) : nd :=
    match n with
    | GLeaf true => GLeaf false
    | GLeaf false => GLeaf true
    | GBranch id low high => GBranch id high low
    end.
  (** BitXor, bowtie-core/src/bdd/node/bit_operations.rs L96-102 *)
  Definition m_bitxor (fuel : nat) (a b : nd) : prog I nd :=
    do x <- m_bitand fuel a (m_bitnot b) ;
    do y <- m_bitand fuel (m_bitnot a) b ;
    m_bitor fuel x y.

  (** reduce, bowtie-core/src/bdd/node/reduce.rs L4-23 *)
  Fixpoint m_breduce (fuel : nat) (n : nd) : prog I nd :=
    match fuel with
    | O => OutOfFuel
    | S k =>
        match n with
        | GLeaf b => Ret (GLeaf b)
        | GBranch id low high =>
            do l <- get_node low ;
            do h <- get_node high ;
            do l' <- m_breduce k l ;
            do h' <- m_breduce k h ;
            m_collapse id l' h'
        end
    end.
  (** restrict, bowtie-core/src/bdd/node/restrict.rs L5-27 *)
  Fixpoint m_brestrict (fuel : nat) (n : nd) (item : I) (selected : bool) : prog I nd :=
    match fuel with
    | O => OutOfFuel
    | S k =>
        match n with
        | GLeaf b => Ret (GLeaf b)
        | GBranch id low high =>
            do l <- get_node low ;
            do h <- get_node high ;
            if eqb_ id item then (if negb selected then Ret l else Ret h)
            else
              do l' <- m_brestrict k l item selected ;
              do h' <- m_brestrict k h item selected ;
              m_collapse id l' h'
        end
    end.

  (** summarize, bowtie-core/src/bdd/node/summarize.rs L10-38 *)
  Fixpoint m_bsummarize_loop (fuel : nat) (queue : list nd) (nodes : list (I * list (status I)))
    : prog I (list (I * list (status I))) :=
    match queue with
    | [] => Ret nodes
    | n :: queue' =>
        match fuel with
        | O => OutOfFuel
        | S k =>
            match n with
            | GBranch item low high =>
                do l <- get_node low ;
                do h <- get_node high ;
                let st := match h with GLeaf false => Excluded item | _ => Available item end in
                m_bsummarize_loop k (h :: l :: queue')
                  (map_update nodes item (fun o => match o with Some s => st :: s | None => [st] end))
            | GLeaf _ => m_bsummarize_loop k queue' nodes
            end
        end
    end.
  (** ... and the result, bowtie-core/src/bdd/node/summarize.rs L32-36 *)
  Definition m_bsummarize (fuel : nat) (h : hash_order) (n : nd) : prog I (list (status I)) :=
    do m <- m_bsummarize_loop fuel [n] [] ;
    Ret (sort (filter_map peek (ho_iter h 0 (map snd m)))).

  (** the four recursions of bowtie-core/src/bdd/closet/node_count.rs, L10-20, L26-36, L42-52, L58-74 *)
  Fixpoint m_count (leaf : bool -> nat) (join : nat -> nat -> nat) (fuel : nat) (n : nd) : prog I nat :=
    match fuel with
    | O => OutOfFuel
    | S k =>
        match n with
        | GLeaf b => Ret (leaf b)
        | GBranch _ low high =>
            do l <- get_node low ;
            do h <- get_node high ;
            do cl <- m_count leaf join k l ;
            do ch <- m_count leaf join k h ;
            Ret (join cl ch)
        end
    end.
  Definition m_node_count := m_count (fun _ => 1) (fun l h => 1 + l + h).
  Definition m_leaf_count := m_count (fun _ => 1) (fun l h => l + h).
  Definition m_outfit_count := m_count (fun b => if b then 1 else 0) (fun l h => l + h).
  Definition m_depth := m_count (fun _ => 1) (fun l h =>
    match Nat.compare l h with Lt => 1 + h | Eq => 1 + l | Gt => 1 + l end).

  (** to_structure, bowtie-core/src/bdd/node/structure.rs L46-66 *)
  Fixpoint m_to_structure (fuel : nat) (n : nd) (d : nat) : prog I structure :=
    match fuel with
    | O => OutOfFuel
    | S k =>
        match n with
        | GLeaf b => Ret (SOutcome b)
        | GBranch _ low high =>
            do l <- get_node low ;
            do lo' <- m_to_structure k l (S d) ;
            do h <- get_node high ;
            do hi' <- m_to_structure k h (S d) ;
            Ret (if is_false lo' then SRequired d hi'
                 else if is_false hi' then SExcluded d lo'
                 else SAvailable d lo' hi')
        end
    end.
  (** to_content, L84-94 *)
  Fixpoint m_to_content (fuel : nat) (n : nd) (content : list (nat * I)) (d : nat) : prog I (list (nat * I)) :=
    match fuel with
    | O => OutOfFuel
    | S k =>
        match n with
        | GLeaf _ => Ret content
        | GBranch id low high =>
            do l <- get_node low ;
            do c <- m_to_content k l (map_insert content d id) (S d) ;
            do h <- get_node high ;
            m_to_content k h c (S d)
        end
    end.
  (** to_node, L102-128; [None] is the panic of [expect] *)
  Fixpoint m_to_node (s : structure) (content : list (nat * I)) : prog I (option nd) :=
    match s with
    | SOutcome b => Ret (Some (GLeaf b))
    | SRequired d hi =>
        match map_get content d with
        | None => Ret None
        | Some item =>
            do h <- m_to_node hi content ;
            match h with
            | None => Ret None
            | Some h' => do n <- m_bbranch item (GLeaf false) h' ; Ret (Some n)
            end
        end
    | SExcluded d lo =>
        match map_get content d with
        | None => Ret None
        | Some item =>
            do l <- m_to_node lo content ;
            match l with
            | None => Ret None
            | Some l' => do n <- m_bbranch item l' (GLeaf false) ; Ret (Some n)
            end
        end
    | SAvailable d lo hi =>
        match map_get content d with
        | None => Ret None
        | Some item =>
            do l <- m_to_node lo content ;
            match l with
            | None => Ret None
            | Some l' =>
                do h <- m_to_node hi content ;
                match h with
                | None => Ret None
                | Some h' => do n <- m_bbranch item l' h' ; Ret (Some n)
                end
            end
        end
    end.
End Node.

Section Closet.
  Context {I F : Type} `{Ord I} `{Ord F}.
  Notation nd := (gnode I).

  (** [struct Closet], bowtie-core/src/bdd/closet/mod.rs L13-17 *)
  Record mcloset := mkMC { mc_index : list (I * F); mc_summary : list (status I); mc_root : nd }.
  (** new, L20-29 *)
  Definition m_closet_new (fuel : nat) (h : hash_order) (index : list (I * F)) (root : nd) : prog I mcloset :=
    do s <- m_bsummarize fuel h root ; Ret (mkMC index s root).

  (** select_item, bowtie-core/src/bdd/closet/select.rs L10-41 *)
  Definition m_select_item (fuel : nat) (h : hash_order) (c : mcloset) (item : I) : prog I (res mcloset (select_error I)) :=
    match map_get (mc_index c) item with
    | None => Ret (Err (UnknownItem item))
    | Some _ =>
        match find (fun s => status_is s item) (filter is_excluded (mc_summary c)) with
        | Some _ => Ret (Err (ExcludedItem item))
        | None =>
            do root <- m_brestrict fuel (mc_root c) item true ;
            do summary <- m_bsummarize fuel h root ;
            Ret (Ok (mkMC (mc_index c)
                      (sort (unique (filter is_selected (mc_summary c) ++ [Selected item] ++ summary))) root))
        end
    end.

  (** complete_outfit, bowtie-core/src/bdd/closet/complete_outfit.rs L13-42 *)
  Definition m_restrict_all (fuel : nat) (root : nd) (selections : list I) : prog I nd :=
    pfoldM (fun r s => m_brestrict fuel r s true) selections root.
  Fixpoint m_walk (fuel : nat) (root : nd) (items : list I) : prog I (list I) :=
    match fuel with
    | O => OutOfFuel
    | S k =>
        match root with
        | GBranch id low high =>
            do h <- get_node high ;
            do l <- get_node low ;
            match h with
            | GLeaf false => m_walk k l items
            | _ => m_walk k h (items ++ [id])
            end
        | GLeaf _ => Ret items
        end
    end.
  (** ... validate L45-57; its first two checks do not touch the arena and read
      only the index (they are those of BddModel.v, on a closet with this index) *)
  Definition m_complete_outfit (fuel : nat) (c : mcloset) (selections : list I)
    : prog I (option (res (list I) (outfit_error I F))) :=
    let c0 := mkC (mc_index c) (mc_summary c) (Leaf false) in
    match find_unknown_items c0 selections with
    | Some items => Ret (Some (Err (UnknownItems items)))
    | None =>
        match find_duplicate_items c0 selections with
        | None => Ret None
        | Some (Some m) => Ret (Some (Err (MultipleItemsPerFamily m)))
        | Some None =>
            do r <- m_restrict_all fuel (mc_root c) selections ;
            match r with
            | GLeaf false => Ret (Some (Err (IncompatibleSelections (sort selections))))
            | _ =>
                do r' <- m_restrict_all fuel (mc_root c) selections ;
                do items <- m_walk fuel r' selections ;
                Ret (Some (Ok (sort items)))
            end
        end
    end.

  (** ClosetBuilder::sibling_relationship, bowtie-core/src/bdd/closet_builder/mod.rs L94-108: the
      negative branches first, then for each item the positive one and the fold *)
  Definition m_sibling (fuel : nat) (items : list I) : prog I nd :=
    do all_nodes <- pfoldM (fun m i => do n <- m_neg i ; Ret (map_insert m i n)) items [] ;
    pfoldM (fun other item =>
        do p <- m_pos item ;
        do x <- pfoldM (fun r q => m_bitand fuel r (snd q)) (map_insert all_nodes item p) (GLeaf true) ;
        m_bitor fuel other x) items (GLeaf false).
  (** exclusion_relationship L110-112, inclusion_relationship L114-116 *)
  Definition m_exclusion (fuel : nat) (s x : I) : prog I nd :=
    do a <- m_neg s ; do b <- m_neg x ; m_bitor fuel a b.
  Definition m_inclusion (fuel : nat) (s x : I) : prog I nd :=
    do a <- m_neg s ; do b <- m_pos x ; m_bitor fuel a b.
  (** build, L73-92 *)
  Definition m_build_root (fuel : nat) (b : builder I F) : prog I nd :=
    do r1 <- pfoldM (fun r p => do n <- m_sibling fuel (snd p) ; m_bitand fuel r n) (b_contents b) (GLeaf true) ;
    do r2 <- pfoldM (fun r p => do n <- m_exclusion fuel (fst p) (snd p) ; m_bitand fuel r n) (rule_pairs (b_excl b)) r1 ;
    pfoldM (fun r p => do n <- m_inclusion fuel (fst p) (snd p) ; m_bitand fuel r n) (rule_pairs (b_incl b)) r2.
  Definition m_build (fuel : nat) (h : hash_order) (b : builder I F) : prog I (res mcloset (build_error I F)) :=
    match validate_closet b with
    | Err e => Ret (Err e)
    | Ok _ => do root <- m_build_root fuel b ; do c <- m_closet_new fuel h (b_index b) root ; Ret (Ok c)
    end.

  (** ** Client code.  A handle is a closet or a node (both are public); where a
      node is wanted a closet stands for its [root()].  Where a closet is wanted
      a node, or an index that is out of range, stands for
      [Closet::new(BTreeMap::new(), Node::TRUE_LEAF)]. *)
  Inductive bval := VClo (c : closet I F) | VNode (n : dd I).
  Inductive mval := MClo (c : mcloset) | MNode (n : nd).
  Definition no_closet : closet I F := mkC [] [] (Leaf true).
  Definition m_no_closet : mcloset := mkMC [] [] (GLeaf true).
  Definition val_node (v : bval) : dd I := match v with VClo c => c_root c | VNode n => n end.
  Definition val_clo (v : bval) : closet I F := match v with VClo c => c | VNode _ => no_closet end.
  Definition mval_node (v : mval) : nd := match v with MClo c => mc_root c | MNode n => n end.
  Definition mval_clo (v : mval) : mcloset := match v with MClo c => c | MNode _ => m_no_closet end.
  Definition breg (vs : list bval) (i : nat) : bval := nth i vs (VClo no_closet).
  Definition mbreg (vs : list mval) (i : nat) : mval := nth i vs (MClo m_no_closet).

  Definition bdata : Type := (list (I * F) * list (status I) * (structure * list (nat * I)))%type.
  Inductive bop := BAnd | BOr | BXor.
  Inductive bdcall :=
  | BDBuild (h : hash_order) (calls : list (bcall I F))
  | BDSelect (h : hash_order) (i : nat) (item : I)
  | BDOutfit (i : nat) (selections : list I)
  | BDSummary (i : nat)
  | BDCounts (i : nat)
  | BDCategorize (unknown : F) (i : nat) (items : list I)
  | BDEq (i j : nat)
  | BDSerialize (i : nat)
  | BDDeserialize (d : bdata)
  | BDLeaf (b : bool)
  | BDPos (item : I)
  | BDNeg (item : I)
  | BDBranch (item : I) (i j : nat)
  | BDOp (o : bop) (i j : nat)
  | BDNot (i : nat)
  | BDReduce (i : nat)
  | BDRestrict (i : nat) (item : I) (selected : bool)
  | BDNodeSummary (h : hash_order) (i : nat)
  | BDNodeEq (i j : nat)
  | BDNew (h : hash_order) (index : list (I * F)) (i : nat).

  (** what a call shows to the caller *)
  Inductive bobs :=
  | BONone
  | BOBuildError (e : build_error I F)
  | BOSelectError (e : select_error I)
  | BOOutfit (o : option (res (list I) (outfit_error I F)))
  | BOStatus (l : list (status I))
  | BOCounts (nodes leaves outfits depth : nat)
  | BOFamilies (m : list (F * list I))
  | BOBool (b : bool)
  | BOData (d : bdata).

  Definition v_op (o : bop) : dd I -> dd I -> dd I :=
    match o with BAnd => bitand | BOr => bitor | BXor => bitxor end.
  Definition m_op (o : bop) : nat -> nd -> nd -> prog I nd :=
    match o with BAnd => m_bitand | BOr => m_bitor | BXor => m_bitxor end.

  (** ... on values: the meaning of the call run alone *)
  Definition b_vcall (vs : list bval) (c : bdcall) : option (list bval * bobs) :=
    let add n := Some (vs ++ [VNode n], BONone) in
    let node i := val_node (breg vs i) in
    let clo i := val_clo (breg vs i) in
    match c with
    | BDBuild h calls =>
        Some (match build h (run_calls calls) with Ok c => (vs ++ [VClo c], BONone) | Err e => (vs, BOBuildError e) end)
    | BDSelect h i item =>
        Some (match select_item h (clo i) item with Ok c => (vs ++ [VClo c], BONone) | Err e => (vs, BOSelectError e) end)
    | BDOutfit i selections => Some (vs, BOOutfit (complete_outfit (clo i) selections))
    | BDSummary i => Some (vs, BOStatus (c_summary (clo i)))
    | BDCounts i => let r := c_root (clo i) in Some (vs, BOCounts (node_count r) (leaf_count r) (outfit_count r) (depth r))
    | BDCategorize unknown i items => Some (vs, BOFamilies (categorize unknown (clo i) items))
    | BDEq i j => Some (vs, BOBool (closet_eqb (clo i) (clo j)))
    | BDSerialize i => Some (vs, BOData (closet_ser (clo i)))
    | BDDeserialize d =>
        Some (match closet_de d with Some c => (vs ++ [VClo c], BOBool true) | None => (vs, BOBool false) end)
    | BDLeaf b => add (Leaf b)
    | BDPos item => add (positive_branch item)
    | BDNeg item => add (negative_branch item)
    | BDBranch item i j => add (Branch item (node i) (node j))
    | BDOp o i j => add (v_op o (node i) (node j))
    | BDNot i => add (bitnot (node i))
    | BDReduce i => add (reduce (node i))
    | BDRestrict i item selected => add (restrict (node i) item selected)
    | BDNodeSummary h i => Some (vs, BOStatus (summarize h (node i)))
    | BDNodeEq i j => Some (vs, BOBool (dd_eqb (node i) (node j)))
    | BDNew h index i => Some (vs ++ [VClo (closet_new h index (node i))], BONone)
    end.

  (** derived [==] of closets, bowtie-core/src/bdd/closet/mod.rs L12: the roots as nodes *)
  Definition m_closet_eqb (c d : mcloset) : bool :=
    eqb_ (mc_index c) (mc_index d) && eqb_ (mc_summary c) (mc_summary d) && gnode_eqb (mc_root c) (mc_root d).

  (** ... and on ids, against the shared arena *)
  Definition m_bcall (fuel : nat) (vs : list mval) (c : bdcall) : prog I (list mval * bobs) :=
    let add p := do n <- p ; Ret (vs ++ [MNode n], BONone) in
    let node i := mval_node (mbreg vs i) in
    let clo i := mval_clo (mbreg vs i) in
    match c with
    | BDBuild h calls =>
        do r <- m_build fuel h (run_calls calls) ;
        Ret (match r with Ok c => (vs ++ [MClo c], BONone) | Err e => (vs, BOBuildError e) end)
    | BDSelect h i item =>
        do r <- m_select_item fuel h (clo i) item ;
        Ret (match r with Ok c => (vs ++ [MClo c], BONone) | Err e => (vs, BOSelectError e) end)
    | BDOutfit i selections => do o <- m_complete_outfit fuel (clo i) selections ; Ret (vs, BOOutfit o)
    | BDSummary i => Ret (vs, BOStatus (mc_summary (clo i)))
    | BDCounts i =>
        do a <- m_node_count fuel (mc_root (clo i)) ;
        do b <- m_leaf_count fuel (mc_root (clo i)) ;
        do c <- m_outfit_count fuel (mc_root (clo i)) ;
        do d <- m_depth fuel (mc_root (clo i)) ;
        Ret (vs, BOCounts a b c d)
    | BDCategorize unknown i items =>
        (* reads only the index *)
        Ret (vs, BOFamilies (categorize unknown (mkC (mc_index (clo i)) (mc_summary (clo i)) (Leaf false)) items))
    | BDEq i j => Ret (vs, BOBool (m_closet_eqb (clo i) (clo j)))
    | BDSerialize i =>
        (* bowtie-core/src/bdd/node/serialize.rs L8-18 *)
        do s <- m_to_structure fuel (mc_root (clo i)) 0 ;
        do t <- m_to_content fuel (mc_root (clo i)) [] 0 ;
        Ret (vs, BOData (mc_index (clo i), mc_summary (clo i), (s, t)))
    | BDDeserialize d =>
        (* bowtie-core/src/bdd/node/serialize.rs L22-74 *)
        do n <- m_to_node (fst (snd d)) (snd (snd d)) ;
        Ret (match n with
             | Some root => (vs ++ [MClo (mkMC (fst (fst d)) (snd (fst d)) root)], BOBool true)
             | None => (vs, BOBool false)
             end)
    | BDLeaf b => add (Ret (GLeaf b))
    | BDPos item => add (m_pos item)
    | BDNeg item => add (m_neg item)
    | BDBranch item i j => add (m_bbranch item (node i) (node j))
    | BDOp o i j => add (m_op o fuel (node i) (node j))
    | BDNot i => add (Ret (m_bitnot (node i)))
    | BDReduce i => add (m_breduce fuel (node i))
    | BDRestrict i item selected => add (m_brestrict fuel (node i) item selected)
    | BDNodeSummary h i => do l <- m_bsummarize fuel h (node i) ; Ret (vs, BOStatus l)
    | BDNodeEq i j => Ret (vs, BOBool (gnode_eqb (node i) (node j)))
    | BDNew h index i => do c <- m_closet_new fuel h index (node i) ; Ret (vs ++ [MClo c], BONone)
    end.
End Closet.
Arguments mcloset I F : clear implicits.
Arguments bval I F : clear implicits.
Arguments mval I F : clear implicits.
Arguments bdcall I F : clear implicits.
Arguments bobs I F : clear implicits.
