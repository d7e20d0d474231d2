(** Properties_NodeOrd.v: the order of bowtie nodes and node ids
    Generated by tools/gen_props.py from NodeOrdThm.v: the property theorems, each followed by
    instances that meet its hypotheses (examples). *)
From Coq Require Import List Arith NArith Lia Bool Permutation Sorted.
From Verif Require Import Base DD Spec BddSpec BddModel BddRun ArenaModel ArenaProofs PoolModel BddProg.
From Verif Require Import PoolProofs BddProgProofs Conc2Thm ArenaSim GrowthSpec NodeOrdModel NodeOrdSpec.
Import ListNotations.
From Verif Require Import NodeOrdThm.
Open Scope nat_scope.

(** C99, nodes.  In every state of every execution, the order of the nodes that
    client code holds is a total order on diagrams: [==] exactly on equal
    diagrams, antisymmetric and transitive ... *)
Theorem C99_total_order : forall (I F : Type) (OI : Ord I) (OF : Ord F) (p : bpool I F) d1 d2 d3 n1 n2 n3,
  breach p -> held p d1 n1 -> held p d2 n2 -> held p d3 n3 ->
  (node_cmp n1 n2 = Eq <-> d1 = d2) /\
  (node_cmp n1 n2 = Lt <-> node_cmp n2 n1 = Gt) /\
  (node_cmp n1 n2 = Lt -> node_cmp n2 n3 = Lt -> node_cmp n1 n3 = Lt).
Proof. exact C99_total_order_pf. Qed.
Print Assumptions C99_total_order.

(** ... branches before leaves, and branches in the order of their items, in
    every process ... *)
Theorem C99_items_first : forall (I F : Type) (OI : Ord I) (OF : Ord F) (p : bpool I F) x l h n1 d2 n2,
  breach p -> held p (Branch x l h) n1 -> held p d2 n2 ->
  match d2 with
  | Leaf _ => node_cmp n1 n2 = Lt
  | Branch y _ _ => (lt_ x y -> node_cmp n1 n2 = Lt) /\ (node_cmp n1 n2 = Lt -> lt_ x y \/ x = y)
  end.
Proof. exact C99_items_first_pf. Qed.
Print Assumptions C99_items_first.

(** ... and it never changes while the process runs: nodes that are held later
    for the same diagrams are the same nodes, so compare the same. *)
Theorem C99_order_is_stable : forall (I F : Type) (OI : Ord I) (OF : Ord F) (p q : bpool I F) d1 d2 n1 n2 n1' n2',
  breach p -> blater p q -> held p d1 n1 -> held p d2 n2 -> held q d1 n1' -> held q d2 n2' ->
  n1' = n1 /\ n2' = n2 /\ node_cmp n1' n2' = node_cmp n1 n2.
Proof. exact C99_order_is_stable_pf. Qed.
Print Assumptions C99_order_is_stable.

(** C99, ids.  [NodeId::from] of a node that is held gives an id from which
    [Node::from] gives the node back; asking again, at any later time and from
    any thread, gives the same id and stores nothing. *)
Theorem C99_id_round_trip : forall (I F : Type) (OI : Ord I) (OF : Ord F) (p : bpool I F) d n,
  breach p -> held p d n ->
  a_get (fst (a_add (gp_arena p) n)) (snd (a_add (gp_arena p) n)) = Some n /\
  forall q, blater p q -> a_get (gp_arena q) (snd (a_add (gp_arena p) n)) = Some n ->
    a_add (gp_arena q) n = (gp_arena q, snd (a_add (gp_arena p) n)).
Proof. exact C99_id_round_trip_pf. Qed.
Print Assumptions C99_id_round_trip.

(** The order of ids is the order in which diagrams were first stored: it is
    total, [==] exactly on equal diagrams, and a diagram that is in the store has
    a smaller id than one that comes in later. *)
Theorem C99_ids_by_age : forall (I F : Type) (OI : Ord I) (OF : Ord F) (p q : bpool I F) d1 d2 i1 i2,
  breach p -> blater p q -> den (gp_arena q) i1 d1 -> den (gp_arena q) i2 d2 ->
  (id_cmp i1 i2 = Eq <-> d1 = d2) /\
  ((exists i, den (gp_arena p) i d1) -> ~ (exists i, den (gp_arena p) i d2) -> id_cmp i1 i2 = Lt).
Proof. exact C99_ids_by_age_pf. Qed.
Print Assumptions C99_ids_by_age.

(** A saved id read back later in the same process stands for the same node;
    [Node::from] of any other number panics, exactly when the number is not
    below the number of nodes stored. *)
Theorem C99_saved_ids : forall (I F : Type) (OI : Ord I) (OF : Ord F) (p q : bpool I F) i n,
  breach p -> blater p q ->
  (a_get (gp_arena p) i = Some n -> a_get (gp_arena q) (id_de (id_ser i)) = Some n) /\
  (forall k, pstep (gp_arena q) (get_node (id_de k)) (gp_arena q) Panic <-> length (a_nodes (gp_arena q)) <= k).
Proof. exact C99_saved_ids_pf. Qed.
Print Assumptions C99_saved_ids.

(** C100.  One node is less than another in every process exactly if their
    diagrams say so ... *)
Theorem C100_node_order_exact : forall (I F : Type) (OI : Ord I) (OF : Ord F) (d1 d2 : dd I),
  (forall (p : bpool I F) n1 n2, breach p -> held p d1 n1 -> held p d2 n2 -> node_cmp n1 n2 = Lt) <-> node_before d1 d2.
Proof. exact C100_node_order_exact_pf. Qed.
Print Assumptions C100_node_order_exact.

(** ... and one id is less than another in every process exactly if one diagram
    is part of the other or is an earlier leaf ... *)
Theorem C100_id_order_exact : forall (I F : Type) (OI : Ord I) (OF : Ord F) (d1 d2 : dd I),
  (forall (p : bpool I F) i1 i2, breach p -> den (gp_arena p) i1 d1 -> den (gp_arena p) i2 d2 -> id_cmp i1 i2 = Lt) <-> older d1 d2.
Proof. exact C100_id_order_exact_pf. Qed.
Print Assumptions C100_id_order_exact.

(** ... and the number of an id means the same diagram in every process exactly
    for the ids of the two leaves: a saved [NodeId] is of no use to another process. *)
Theorem C100_numbers_across_processes : forall (I F : Type) (OI : Ord I) (OF : Ord F) (x : I) (k : nat),
  (forall (p q : bpool I F) d1 d2, breach p -> breach q ->
     den (gp_arena p) (id_de k) d1 -> den (gp_arena q) (id_de k) d2 -> d1 = d2) <-> k < 2.
Proof. exact C100_numbers_across_processes_pf. Qed.
Print Assumptions C100_numbers_across_processes.

Example C100_example :
  let a := Branch 1 (positive_branch 5) (positive_branch 9) in
  let b := Branch 1 (positive_branch 7) (positive_branch 9) in
  ~ node_before a b /\ ~ node_before b a /\
  (exists (p : bpool nat nat) n1 n2, breach p /\ held p a n1 /\ held p b n2 /\ node_cmp n1 n2 = Lt) /\
  (exists (q : bpool nat nat) n1 n2, breach q /\ held q a n1 /\ held q b n2 /\ node_cmp n1 n2 = Gt).
Proof. exact NodeOrdThm.C100_example. Qed.

(** ... the leaves are not held but stored; ids 2, 3 and 4 are in the order the
    parts were stored in, a number read back means the same node, and 5 is not an id yet *)
Example C99_example :
  breach no_p /\ length (a_nodes (gp_arena no_p)) = 5 /\
  held no_p (positive_branch 9) (GBranch 9 0 1) /\ held no_p (positive_branch 7) (GBranch 7 0 1) /\
  node_cmp (GBranch 9 0 1) (GBranch 7 0 1) = Gt /\ id_cmp 3 4 = Lt /\
  a_get (gp_arena no_p) (id_de (id_ser 3)) = Some (GBranch 9 0 1) /\
  pstep (gp_arena no_p) (get_node (id_de 5)) (gp_arena no_p) Panic.
Proof. exact NodeOrdThm.C99_example. Qed.
