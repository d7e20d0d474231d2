(** StackBModel: how deep the calls of the bowtie API nest (compare StackModel.v, the same for zdd2, and
    StackZModel.v, for zdd).  In BddProg.v a recursive call is run with one unit of fuel less than its caller, so the
    fuel of a call is the number of nested calls it may make, itself included; the loops of [summarize]
    (bowtie-core/src/bdd/node/summarize.rs L14-30) and of [complete_outfit] (bowtie-core/src/bdd/closet/complete_outfit.rs
    L22-41), which nest nothing, also count their rounds with fuel.  Here the two are told apart: [depth] for the
    nesting, [loops] for the rounds.  [to_node] recurses on the data it is given and has no fuel in BddProg.v; here it
    has.  With [depth] = [loops] this is BddProg's [m_bcall] (proved: C103_is_the_program).  No proofs here. *)
From Coq Require Import List Arith Lia Bool.
From Verif Require Import Base DD Spec BddSpec BddModel BddRun ArenaModel PoolModel BddProg Growth2Spec StackZModel.
Import ListNotations.

Section StackB.
  Context {I F : Type} `{Ord I} `{Ord F}.
  Notation nd := (gnode I).

  (** to_node, bowtie-core/src/bdd/node/structure.rs L102-128; [None] is the panic of [expect] *)
  Fixpoint bs_to_node (depth : nat) (s : structure) (content : list (nat * I)) : prog I (option nd) :=
    match depth with O => OutOfFuel | S k =>
    match s with
    | SOutcome b => Ret (Some (GLeaf b))
    | SRequired d hi =>
        match map_get content d with
        | None => Ret None
        | Some item =>
            do h <- bs_to_node k hi content ;
            match h with
            | None => Ret None
            | Some h' => do n <- m_bbranch item (GLeaf false) h' ; Ret (Some n)
            end
        end
    | SExcluded d lo =>
        match map_get content d with
        | None => Ret None
        | Some item =>
            do l <- bs_to_node k lo content ;
            match l with
            | None => Ret None
            | Some l' => do n <- m_bbranch item l' (GLeaf false) ; Ret (Some n)
            end
        end
    | SAvailable d lo hi =>
        match map_get content d with
        | None => Ret None
        | Some item =>
            do l <- bs_to_node k lo content ;
            match l with
            | None => Ret None
            | Some l' =>
                do h <- bs_to_node k hi content ;
                match h with
                | None => Ret None
                | Some h' => do n <- m_bbranch item l' h' ; Ret (Some n)
                end
            end
        end
    end end.

  (** select_item, bowtie-core/src/bdd/closet/select.rs L10-41 *)
  Definition bs_select_item (depth loops : nat) (h : hash_order) (c : mcloset I F) (item : I) : prog I (res (mcloset I F) (select_error I)) :=
    match map_get (mc_index c) item with
    | None => Ret (Err (UnknownItem item))
    | Some _ =>
        match find (fun s => status_is s item) (filter is_excluded (mc_summary c)) with
        | Some _ => Ret (Err (ExcludedItem item))
        | None =>
            do root <- m_brestrict depth (mc_root c) item true ;
            do summary <- m_bsummarize loops h root ;
            Ret (Ok (mkMC (mc_index c)
                      (sort (unique (filter is_selected (mc_summary c) ++ [Selected item] ++ summary))) root))
        end
    end.

  (** complete_outfit, bowtie-core/src/bdd/closet/complete_outfit.rs L13-42, with validate L45-57 *)
  Definition bs_complete_outfit (depth loops : nat) (c : mcloset I F) (selections : list I)
    : prog I (option (res (list I) (outfit_error I F))) :=
    let c0 := mkC (mc_index c) (mc_summary c) (Leaf false) in
    match find_unknown_items c0 selections with
    | Some items => Ret (Some (Err (UnknownItems items)))
    | None =>
        match find_duplicate_items c0 selections with
        | None => Ret None
        | Some (Some m) => Ret (Some (Err (MultipleItemsPerFamily m)))
        | Some None =>
            do r <- m_restrict_all depth (mc_root c) selections ;
            match r with
            | GLeaf false => Ret (Some (Err (IncompatibleSelections (sort selections))))
            | _ =>
                do r' <- m_restrict_all depth (mc_root c) selections ;
                do items <- m_walk loops r' selections ;
                Ret (Some (Ok (sort items)))
            end
        end
    end.

  (** ClosetBuilder::build, bowtie-core/src/bdd/closet_builder/mod.rs L73-92 *)
  Definition bs_build (depth loops : nat) (h : hash_order) (b : builder I F) : prog I (res (mcloset I F) (build_error I F)) :=
    match validate_closet b with
    | Err e => Ret (Err e)
    | Ok _ => do root <- m_build_root depth b ; do c <- m_closet_new loops h (b_index b) root ; Ret (Ok c)
    end.

  (** one call of the API (see [m_bcall] in BddProg.v) *)
  Definition bs_call (depth loops : nat) (vs : list (mval I F)) (c : bdcall I F) : prog I (list (mval I F) * bobs I F) :=
    let add p := do n <- p ; Ret (vs ++ [MNode n], BONone) in
    let node i := mval_node (mbreg vs i) in
    let clo i := mval_clo (mbreg vs i) in
    match c with
    | BDBuild h calls =>
        do r <- bs_build depth loops h (run_calls calls) ;
        Ret (match r with Ok c => (vs ++ [MClo c], BONone) | Err e => (vs, BOBuildError e) end)
    | BDSelect h i item =>
        do r <- bs_select_item depth loops h (clo i) item ;
        Ret (match r with Ok c => (vs ++ [MClo c], BONone) | Err e => (vs, BOSelectError e) end)
    | BDOutfit i selections => do o <- bs_complete_outfit depth loops (clo i) selections ; Ret (vs, BOOutfit o)
    | BDSummary i => Ret (vs, BOStatus (mc_summary (clo i)))
    | BDCounts i =>
        do a <- m_node_count depth (mc_root (clo i)) ;
        do b <- m_leaf_count depth (mc_root (clo i)) ;
        do c <- m_outfit_count depth (mc_root (clo i)) ;
        do d <- m_depth depth (mc_root (clo i)) ;
        Ret (vs, BOCounts a b c d)
    | BDCategorize unknown i items =>
        (* reads only the index *)
        Ret (vs, BOFamilies (categorize unknown (mkC (mc_index (clo i)) (mc_summary (clo i)) (Leaf false)) items))
    | BDEq i j => Ret (vs, BOBool (m_closet_eqb (clo i) (clo j)))
    | BDSerialize i =>
        (* bowtie-core/src/bdd/node/serialize.rs L8-18 *)
        do s <- m_to_structure depth (mc_root (clo i)) 0 ;
        do t <- m_to_content depth (mc_root (clo i)) [] 0 ;
        Ret (vs, BOData (mc_index (clo i), mc_summary (clo i), (s, t)))
    | BDDeserialize d =>
        (* bowtie-core/src/bdd/node/serialize.rs L22-74 *)
        do n <- bs_to_node depth (fst (snd d)) (snd (snd d)) ;
        Ret (match n with
             | Some root => (vs ++ [MClo (mkMC (fst (fst d)) (snd (fst d)) root)], BOBool true)
             | None => (vs, BOBool false)
             end)
    | BDLeaf b => add (Ret (GLeaf b))
    | BDPos item => add (m_pos item)
    | BDNeg item => add (m_neg item)
    | BDBranch item i j => add (m_bbranch item (node i) (node j))
    | BDOp o i j => add (m_op o depth (node i) (node j))
    | BDNot i => add (Ret (m_bitnot (node i)))
    | BDReduce i => add (m_breduce depth (node i))
    | BDRestrict i item selected => add (m_brestrict depth (node i) item selected)
    | BDNodeSummary h i => do l <- m_bsummarize loops h (node i) ; Ret (vs, BOStatus l)
    | BDNodeEq i j => Ret (vs, BOBool (gnode_eqb (node i) (node j)))
    | BDNew h index i => do c <- m_closet_new loops h index (node i) ; Ret (vs ++ [MClo c], BONone)
    end.

  (** ** The bounds *)
  (** how deep the branches of a received structure nest *)
  Fixpoint nesting (s : structure) : nat :=
    match s with
    | SOutcome _ => 0
    | SRequired _ s | SExcluded _ s => S (nesting s)
    | SAvailable _ lo hi => S (Nat.max (nesting lo) (nesting hi))
    end.

  Definition bcall_depth (vs : list (bval I F)) (c : bdcall I F) : nat :=
    let deep i := height (val_node (breg vs i)) in
    let closet_deep i := height (c_root (val_clo (breg vs i))) in
    match c with
    | BDBuild _ calls => S (length (once (map snd (adds calls))))
    | BDSelect _ i _ | BDOutfit i _ | BDCounts i | BDSerialize i => S (closet_deep i)
    | BDDeserialize d => S (nesting (fst (snd d)))
    | BDOp (BAnd | BOr) i j => S (deep i + deep j)
    | BDOp BXor i j => S (2 * (deep i + deep j))
    | BDReduce i | BDRestrict i _ _ => S (deep i)
    | _ => 0
    end.

  (** what the call works on: diagrams in the order of the items, with only these items *)
  Definition over (items : list I) (t : dd I) : Prop := bordered t /\ forall x, In x (labels t) -> In x items.
  Definition bplain (items : list I) (vs : list (bval I F)) (c : bdcall I F) : Prop :=
    let plain i := over items (val_node (breg vs i)) in
    let plain_closet i := over items (c_root (val_clo (breg vs i))) in
    match c with
    | BDBuild _ calls => forall x, In x (map snd (adds calls)) -> In x items
    | BDSelect _ i _ | BDOutfit i _ | BDCounts i | BDSerialize i => plain_closet i
    | BDDeserialize _ => False
    | BDOp _ i j => plain i /\ plain j
    | BDReduce i | BDRestrict i _ _ => plain i
    | _ => True
    end.
End StackB.
