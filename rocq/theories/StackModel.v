(** StackModel: how deep the calls of the zdd2 API nest.  In Zdd2Prog a recursive call of a node function
    (branch, union, intersect, product, subset..., translate_root) is run with one unit of fuel less than its
    caller, whichever of them is called, so the fuel of a call is the number of nested calls of these functions
    it may make, itself included; the loop of trees (weave/src/zdd2/forest/trees.rs L10-28), which is a [while]
    and nests nothing, also counts its rounds with fuel.  Here the two are told apart: [depth] for the nesting,
    [loops] for the rounds.  With [depth] = [loops] this is Zdd2Prog's [m_call] (proved: C101_is_the_program).
    No proofs here. *)
From Coq Require Import List Arith Lia Bool.
From Verif Require Import Base DD Spec Zdd2Model ArenaModel Zdd2Prog Growth2Spec.
Import ListNotations.

Section Stack.
  Context {T : Type} `{Ord T}.

  (** canonical, weave/src/zdd2/forest/mod.rs L91-98 *)
  Definition s_canonical (depth loops : nat) (h : hash_order) (root : znode) (u : universe T) : zprog (mforest T) :=
    do i <- intern2 root ;
    do ts <- m_trees loops i ;
    m_many depth h (map (get_items u) ts).

  (** len L100-102, is_empty L104-106, trees L108-113 are loops only *)

  (** intersect L123-131, union L133-141, product L143-151, translate_roots L180-187 *)
  Definition s_binop (op : nat -> znode -> znode -> zprog znode) (depth loops : nat) (h : hash_order)
      (f g : mforest T) : zprog (mforest T) :=
    do n1 <- get_node (mf_root f) ;
    do n2 <- get_node (mf_root g) ;
    let u := u_merge h site_merge (mf_univ f) (mf_univ g) in
    do r1 <- m_translate_root depth (mf_univ f) u n1 ;
    do r2 <- m_translate_root depth (mf_univ g) u n2 ;
    do root <- op depth r1 r2 ;
    s_canonical depth loops h root u.

  (** subset, weave/src/zdd2/forest/subset.rs L7-16; subset_not, L18-27; subset_many, L29-49 *)
  Definition s_subset (depth loops : nat) (h : hash_order) (f : mforest T) (element : T) : zprog (mforest T) :=
    match get_priority (mf_univ f) element with
    | None => Ret m_empty
    | Some p =>
        do n <- get_node (mf_root f) ;
        do root <- m_node_subset depth n p ;
        s_canonical depth loops h root (mf_univ f)
    end.
  Definition s_subset_not (depth loops : nat) (h : hash_order) (f : mforest T) (element : T) : zprog (mforest T) :=
    match get_priority (mf_univ f) element with
    | None => Ret f
    | Some p =>
        do n <- get_node (mf_root f) ;
        do root <- m_node_subset_not depth n p ;
        s_canonical depth loops h root (mf_univ f)
    end.
  Definition s_subset_many (depth loops : nat) (h : hash_order) (f : mforest T) (elements : list T)
      (default : mforest T -> mforest T) (func : nat -> znode -> list nat -> zprog znode)
      : zprog (mforest T) :=
    match elements with
    | [] => Ret f
    | _ =>
        let known := get_priorities (mf_univ f) elements in
        if negb (length elements =? length known) then Ret (default f)
        else
          do n <- get_node (mf_root f) ;
          do root <- func depth n known ;
          s_canonical depth loops h root (mf_univ f)
    end.

  (** one call of the API (see [m_call] in Zdd2Prog.v) *)
  Definition s_call (depth loops : nat) (fs : list (mforest T)) (c : call T) : zprog (list (mforest T) * obs T) :=
    match c with
    | CEmpty => mnew (Ret m_empty) fs
    | CUnit h items => mnew (m_unit depth h items) fs
    | CMany h rows => mnew (m_many depth h rows) fs
    | CUnique h items => mnew (m_unique depth h items) fs
    | CUnion h i j => mnew (s_binop m_union depth loops h (mreg fs i) (mreg fs j)) fs
    | CIntersect h i j => mnew (s_binop m_intersect depth loops h (mreg fs i) (mreg fs j)) fs
    | CProduct h i j => mnew (s_binop m_product depth loops h (mreg fs i) (mreg fs j)) fs
    | CSubset h i e => mnew (s_subset depth loops h (mreg fs i) e) fs
    | CSubsetNot h i e => mnew (s_subset_not depth loops h (mreg fs i) e) fs
    | CSubsetAll h i es => mnew (s_subset_many depth loops h (mreg fs i) es (fun _ => m_empty) m_node_subset_all) fs
    | CSubsetNone h i es => mnew (s_subset_many depth loops h (mreg fs i) es (fun f => f) m_node_subset_none) fs
    | CTrees i => do ts <- m_ftrees loops (mreg fs i) ; Ret (fs, OTrees ts)
    | CLen i => do n <- m_len loops (mreg fs i) ; Ret (fs, OLen n)
    | CIsEmpty i => do b <- m_is_empty loops (mreg fs i) ; Ret (fs, OBool b)
    | COccurrences h i => Ret (fs, OOcc (m_occurrences h (mreg fs i)))
    | CEq i j => Ret (fs, OBool (m_eqb (mreg fs i) (mreg fs j)))
    end.

  (** ** The bound: two calls for every different item of the operands, and three *)
  Definition call_items (fs : list (forest T)) (c : call T) : list T :=
    match c with
    | CUnit _ items | CUnique _ items => items
    | CMany _ rows => concat rows
    | CUnion _ i j | CIntersect _ i j | CProduct _ i j => concat (trees_of (reg fs i) ++ trees_of (reg fs j))
    | CSubset _ i _ | CSubsetNot _ i _ | CSubsetAll _ i _ | CSubsetNone _ i _ => concat (trees_of (reg fs i))
    | _ => []
    end.
  Definition call_depth (fs : list (forest T)) (c : call T) : nat := 2 * length (once (call_items fs c)) + 3.
End Stack.

(** ** A call running among other threads: between any two of its steps they may store any node whose children are stored *)
Definition others_add {L : Type} `{Ord L} (a b : arena L) : Prop :=
  exists n, b = fst (a_add a n) /\
    match n with GLeaf _ => True | GBranch _ l h => a_get a l <> None /\ a_get a h <> None end.
Inductive runs {L : Type} `{Ord L} {R : Type} : arena L -> prog L R -> arena L -> prog L R -> Prop :=
| runs_now a p : runs a p a p
| runs_others a p b q c : runs a p b q -> others_add b c -> runs a p c q
| runs_step a p b q c r : runs a p b q -> pstep b q c r -> runs a p c r.
