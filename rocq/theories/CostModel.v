(** CostModel: which calls of C105 only walk down diagrams, and how many accesses to the shared node store they are
    allowed; and the two diagrams of its worst case.  The accesses are those of StepsModel.v.  No proofs here. *)
From Coq Require Import List Arith.
From Verif Require Import Base DD Zdd2Model ZddModel BddModel BddRun Zdd2Prog ZddProg BddProg ArenaModel Growth2Spec.
Import ListNotations.

(** [k] walks of diagrams of [d - 1] levels, with at most six accesses to a pair of nodes: two to read the children of each operand and two to store
    (weave/src/zdd/node/*.rs; bowtie-core/src/bdd/node/bit_operations.rs L22-102, reduce.rs, restrict.rs, serialize.rs).
    [unique_tree] and [hyper_tree] make a tree of every combination and unite it with what they have
    (weave/src/zdd/tree/universe.rs L60-70): two walks for each *)
Definition zwalks {T} (c : zcall T) : option nat :=
  match c with
  | ZCUnion _ _ | ZCIntersect _ _ | ZCProduct _ _ => Some 1
  | ZCCombinationsRec _ | ZCTraverse _ | ZCSerialize _ => Some 1
  | ZCUnique _ xs => Some (2 * length xs)
  | ZCHyper _ cs => Some (2 * length cs)
  | _ => None
  end.
(** [^] is two [&] and a [|] (bit_operations.rs L96-102); the counts are four walks (bowtie-core/src/bdd/closet/node_count.rs),
    serialize is two (node/serialize.rs L8-18) *)
Definition bwalks {I F} (c : bdcall I F) : option nat :=
  match c with
  | BDOp BXor _ _ => Some 3
  | BDOp _ _ _ => Some 1
  | BDReduce _ | BDRestrict _ _ _ => Some 1
  | BDCounts _ => Some 4
  | BDSerialize _ => Some 2
  | _ => None
  end.

(** true if the number of selected [items] is even ([even = true]) or odd: two nodes for every item but the first *)
Fixpoint parity {I} (items : list I) (even : bool) : dd I :=
  match items with
  | [] => Leaf even
  | i :: items' => Branch i (parity items' even) (parity items' (negb even))
  end.

(** the combinations of an even ([even = true]) or odd number of the [items] and [last], as a tree of weave/src/zdd *)
Fixpoint zparity (items : list nat) (last : nat) (even : bool) : dd nat :=
  match items with
  | [] => if even then Leaf true else Branch last (Leaf false) (Leaf true)
  | i :: items' => Branch i (zparity items' last even) (zparity items' last (negb even))
  end.

(** [unit], [unique] and [many] of forests: a [Node::branch] for every item given and a union for every row, and the
    node interned at the end (weave/src/zdd2/forest/mod.rs L64-89).  One of these makes at most 5 * 3^d accesses at
    [d] nested calls: [Node::branch] calls itself up to three times and has ten accesses of its own
    (weave/src/zdd2/forest/node/mod.rs L67-96) *)
Definition fmade {T} (c : call T) : option nat :=
  match c with
  | CUnit _ items | CUnique _ items => Some (S (length items))
  | CMany _ rows => Some (S (length rows + length (concat rows)))
  | _ => None
  end.

(** the branches of a diagram unfolded into a tree: a node reached along two paths counts twice *)
Fixpoint inner {I} (t : dd I) : nat := match t with Leaf _ => 0 | Branch _ l h => 1 + inner l + inner h end.
(** how many times a call goes through the whole diagram, at least *)
Definition bpasses {I F} (c : bdcall I F) : nat :=
  match c with BDReduce _ | BDRestrict _ _ _ => 1 | BDCounts _ => 4 | BDSerialize _ => 2 | _ => 0 end.
(** the diagram it goes through *)
Definition bwalked {I F} (vs : list (bval I F)) (c : bdcall I F) : dd I :=
  match c with
  | BDReduce i | BDRestrict i _ _ => val_node (breg vs i)
  | BDCounts i | BDSerialize i => c_root (val_clo (breg vs i))
  | _ => Leaf false
  end.
