(** Properties_Cost.v: C105, the cost of walking diagrams
    Generated by tools/gen_props.py from CostThm.v: the property theorems, each followed by
    instances that meet its hypotheses (examples). *)
From Coq Require Import List Arith Lia Bool.
From Verif Require Import Base DD Spec Zdd2Model ZddModel ZddProofs ZddSpec BddSpec BddModel BddRun ArenaModel ArenaProofs PoolModel PoolProofs.
From Verif Require Import ZddProg ZddProgProofs BddProg BddProgProofs Conc2Thm GrowthSpec Growth2Spec StackModel StackThm StackZModel StackZdd StackZThm StackBModel StackB StackBThm.
From Verif Require Import Zdd2Prog Zdd2Thm ConcThm Growth2Spec StackForest StepsModel Steps StepsF StepsZ StepsB StepsThm CostModel Cost CostF CostL.
Import ListNotations.
From Verif Require Import CostThm.

(** C105.  Whatever is stored and whatever other threads store meanwhile, union, intersection and product of zdd trees
    make at most 6 * 2^(1 + levels of both together) accesses, recursive combinations, [traverse] and serialize at
    most 6 * 2^(1 + levels of the tree), and [unique_tree] and [hyper_tree] at most twice 6 * 2^(1 + levels) for every
    item or combination. *)
Theorem C105_zdd : forall (T : Type) (O : Ord T) (p : zpool T) (ms : list (mztree T)) (ts : list (ztree T)) (c : zcall T) w,
  zreach p -> Forall2 (zholds p) ms ts -> zwalks c = Some w ->
  forall fuel, zcall_depth ts c <= fuel -> forall n b q, runs_in n (gp_arena p) (m_zcall fuel ms c) b q ->
  n <= w * (6 * 2 ^ zcall_depth ts c) /\ q <> OutOfFuel /\ q <> Panic /\ returned_or_can_step b q.
Proof. exact C105_zdd_pf. Qed.
Print Assumptions C105_zdd.

(** C105.  For trees over one universe built from combinations without repeated items: at most 6 * 2^(1 + items). *)
Theorem C105_zdd_items : forall (T : Type) (O : Ord T) (p : zpool T) (ms : list (mztree T)) (ts : list (ztree T)) (items : list T) (c : zcall T) w,
  zreach p -> Forall2 (zholds p) ms ts -> zwalks c = Some w -> zplain items ts c ->
  forall fuel, S (length (once items)) <= fuel -> forall n b q, runs_in n (gp_arena p) (m_zcall fuel ms c) b q ->
  n <= w * (6 * 2 ^ S (length (once items))) /\ q <> OutOfFuel /\ q <> Panic /\ returned_or_can_step b q.
Proof. exact C105_zdd_items_pf. Qed.
Print Assumptions C105_zdd_items.

(** C105.  [unit], [unique] and [many] of zdd2 forests make at most 5 * 3^(3 + 2 * different items) accesses for every
    item given, every row and once more. *)
Theorem C105_forest : forall (T : Type) (O : Ord T) (p : pool T) (ms : list (mforest T)) (fs : list (forest T)) (c : call T) w,
  pool_reach p -> Forall2 (holds p) ms fs -> Forall Reach fs -> fmade c = Some w ->
  forall fuel, call_depth fs c <= fuel -> forall n b q, runs_in n (p_arena p) (m_call fuel ms c) b q ->
  n <= w * (5 * 3 ^ call_depth fs c) /\ q <> OutOfFuel /\ q <> Panic /\ returned_or_can_step b q.
Proof. exact C105_forest_pf. Qed.
Print Assumptions C105_forest.

(** C105.  The same for bowtie: [&] and [|] make at most 6 * 2^(1 + levels of both together) accesses, [reduce] and
    [restrict] at most 6 * 2^(1 + levels), [^] three times, serialize twice and the counts four times as many. *)
Theorem C105_bowtie : forall (I F : Type) (OI : Ord I) (OF : Ord F) (p : bpool I F) (ms : list (mval I F)) (vs : list (bval I F)) (c : bdcall I F) w,
  breach p -> Forall2 (bholds p) ms vs -> bwalks c = Some w ->
  forall fuel, bcall_depth vs c <= fuel -> forall n b q, runs_in n (gp_arena p) (m_bcall fuel ms c) b q ->
  n <= w * (6 * 2 ^ bcall_depth vs c) /\ q <> OutOfFuel /\ q <> Panic /\ returned_or_can_step b q.
Proof. exact C105_bowtie_pf. Qed.
Print Assumptions C105_bowtie.

(** C105.  For diagrams in the order of the items, with only these items: at most 6 * 2^(1 + items). *)
Theorem C105_bowtie_items : forall (I F : Type) (OI : Ord I) (OF : Ord F) (p : bpool I F) (ms : list (mval I F)) (vs : list (bval I F)) (items : list I) (c : bdcall I F) w,
  breach p -> Forall2 (bholds p) ms vs -> bwalks c = Some w -> bplain items vs c ->
  forall fuel, S (length (once items)) <= fuel -> forall n b q, runs_in n (gp_arena p) (m_bcall fuel ms c) b q ->
  n <= w * (6 * 2 ^ S (length (once items))) /\ q <> OutOfFuel /\ q <> Panic /\ returned_or_can_step b q.
Proof. exact C105_bowtie_items_pf. Qed.
Print Assumptions C105_bowtie_items.

(** C105.  That it is exponential is not the fault of the proof: the parity of [n] items has a diagram of at most
    2 * n + 2 nodes and [n] levels, and in every reachable state every run of [&] or [|] of two such diagrams that
    returns has made at least 4 * (2^n - 1) accesses: what was computed for a pair of nodes once is computed again each time
    the pair is met. *)
Theorem C105_worst : forall (I F : Type) (OI : Ord I) (OF : Ord F) (items : list I) (e1 e2 : bool)
    (p : bpool I F) (ms : list (mval I F)) (vs : list (bval I F)) (o : bop) i j,
  breach p -> Forall2 (bholds p) ms vs -> o <> BXor ->
  breg vs i = VNode (parity items e1) -> breg vs j = VNode (parity items e2) ->
  dag_size (parity items e1) <= 2 * length items + 2 /\ dag_size (parity items e2) <= 2 * length items + 2 /\
  height (parity items e1) = length items /\ height (parity items e2) = length items /\
  forall fuel n b x, runs_in n (gp_arena p) (m_bcall fuel ms (BDOp o i j)) b (Ret x) -> 4 * 2 ^ length items <= n + 4.
Proof. exact C105_worst_pf. Qed.
Print Assumptions C105_worst.

(** C105.  Every pass through a diagram visits each of its paths separately, shared nodes once for every path to them:
    whatever the diagram, [reduce], and [restrict] to an item it does not have, make at least two accesses for every
    branch of the diagram unfolded into a tree, serialize twice and the counts four times as many.  Unfolded, the parity
    of [n] items has 2^n - 1 branches. *)
Theorem C105_every_path : forall (I F : Type) (OI : Ord I) (OF : Ord F) (p : bpool I F) (ms : list (mval I F)) (vs : list (bval I F)) (c : bdcall I F),
  breach p -> Forall2 (bholds p) ms vs ->
  (forall i x s, c = BDRestrict i x s -> ~ In x (labels (val_node (breg vs i)))) ->
  forall fuel n b x, runs_in n (gp_arena p) (m_bcall fuel ms c) b (Ret x) -> bpasses c * (2 * inner (bwalked vs c)) <= n.
Proof. exact C105_every_path_pf. Qed.
Print Assumptions C105_every_path.

Theorem C105_paths_of_parity : forall (I : Type) (items : list I) (even : bool), inner (parity items even) + 1 = 2 ^ length items.
Proof. exact C105_paths_of_parity_pf. Qed.
Print Assumptions C105_paths_of_parity.

(** C105.  The same in zdd: the recursive combinations and serialize of a tree make at least one access and two for
    every branch of the tree with nothing shared, at least 2^n - 1 for the combinations of an even or odd number of
    [n + 1] items. *)
Theorem C105_every_path_zdd : forall (T : Type) (O : Ord T) (p : zpool T) (ms : list (mztree T)) (ts : list (ztree T)) (c : zcall T) i,
  zreach p -> Forall2 (zholds p) ms ts -> In c [ZCCombinationsRec i; ZCSerialize i] ->
  forall fuel n b x, runs_in n (gp_arena p) (m_zcall fuel ms c) b (Ret x) -> 1 + 2 * inner (zt_root (zreg ts i)) <= n.
Proof. exact C105_every_path_zdd_pf. Qed.
Print Assumptions C105_every_path_zdd.

(** C105.  ... and so does a [traverse] that finds the item of every branch. *)
Theorem C105_every_path_traverse : forall (T : Type) (O : Ord T) (p : zpool T) (ms : list (mztree T)) (ts : list (ztree T)) i,
  zreach p -> Forall2 (zholds p) ms ts ->
  forall fuel n b ms' d, runs_in n (gp_arena p) (m_zcall fuel ms (ZCTraverse i)) b (Ret (ms', ZOTree (Some d))) -> 1 + 2 * inner (zt_root (zreg ts i)) <= n.
Proof. exact C105_every_path_traverse_pf. Qed.
Print Assumptions C105_every_path_traverse.

Theorem C105_paths_of_zparity : forall (items : list nat) (last : nat) (even : bool), 2 ^ length items <= inner (zparity items last even) + 1.
Proof. exact C105_paths_of_zparity_pf. Qed.
Print Assumptions C105_paths_of_zparity.

(** C105.  Nor is it in zdd: the combinations of an even number, or of an odd number, of [n + 1] items have a tree of at
    most 2 * n + 3 nodes, and in every reachable state every run of the union, the intersection or the product of the two
    trees that returns has made at least 4 * (2^n - 1) accesses. *)
Theorem C105_worst_zdd : forall (T : Type) (O : Ord T) (items : list nat) (last : nat) (even : bool) (u v : zuniverse T)
    (p : zpool T) (ms : list (mztree T)) (ts : list (ztree T)) (c : zcall T) i j,
  zreach p -> Forall2 (zholds p) ms ts -> In c [ZCUnion i j; ZCIntersect i j; ZCProduct i j] ->
  zreg ts i = mkZT (zparity items last even) u -> zreg ts j = mkZT (zparity items last (negb even)) v ->
  dag_size (zt_root (zreg ts i)) <= 2 * length items + 3 /\ dag_size (zt_root (zreg ts j)) <= 2 * length items + 3 /\
  forall fuel n b x, runs_in n (gp_arena p) (m_zcall fuel ms c) b (Ret x) -> 4 * 2 ^ length items <= n + 4.
Proof. exact C105_worst_zdd_pf. Qed.
Print Assumptions C105_worst_zdd.

(** the parity of five items, ten nodes: [even & odd] makes exactly 4 * (2^5 - 1) accesses (of 6 * 2^6 allowed) in a
    reachable state, as do [reduce] and [restrict] of one (at least 2 * 31); the union of two trees over four items twenty-three (of 6 * 2^5), of the even and the odd
    combinations of four items seventy-seven (at least 4 * (2^3 - 1)) *)
Example C105_example :
  (exists (p : bpool nat nat) ms vs, breach p /\ Forall2 (bholds p) ms vs /\
     breg vs 10 = VNode (parity [1; 2; 3; 4; 5] true) /\ breg vs 11 = VNode (parity [1; 2; 3; 4; 5] false) /\
     bwalks (BDOp (I := nat) (F := nat) BAnd 10 11) = Some 1 /\ bcall_depth vs (BDOp BAnd 10 11) = 11 /\
     bplain [1; 2; 3; 4; 5] vs (BDOp BAnd 10 11) /\
     (exists b x, runs_in 124 (gp_arena p) (m_bcall 40 ms (BDOp BAnd 10 11)) b (Ret x)) /\
     inner (bwalked vs (BDReduce 10)) = 31 /\ ~ In 9 (labels (val_node (breg vs 10))) /\
     (exists b x, runs_in 124 (gp_arena p) (m_bcall 40 ms (BDReduce 10)) b (Ret x)) /\
     exists b x, runs_in 124 (gp_arena p) (m_bcall 40 ms (BDRestrict 10 9 true)) b (Ret x)) /\
  (exists (p : zpool nat) ms ts, zreach p /\ Forall2 (zholds p) ms ts /\ zplain [1; 2; 3; 4] ts (ZCUnion 0 1) /\
     (exists b x, runs_in 23 (gp_arena p) (m_zcall 40 ms (ZCUnion 0 1)) b (Ret x)) /\
     zplain [5; 6; 7] ts (ZCHyper [5; 6; 7] [[5; 6]; [7]; [6; 7; 5]]) /\
     exists b x, runs_in 35 (gp_arena p) (m_zcall 40 ms (ZCHyper [5; 6; 7] [[5; 6]; [7]; [6; 7; 5]])) b (Ret x)) /\
  (exists (p : zpool nat) ms ts, zreach p /\ Forall2 (zholds p) ms ts /\
     zreg ts 0 = mkZT (zparity [0; 1; 2] 3 true) (zu_from [1; 2; 3; 4]) /\ zreg ts 1 = mkZT (zparity [0; 1; 2] 3 false) (zu_from [1; 2; 3; 4]) /\
     (exists b x, runs_in 77 (gp_arena p) (m_zcall 40 ms (ZCUnion 0 1)) b (Ret x)) /\
     inner (zt_root (zreg ts 0)) = 11 /\ (exists b x, runs_in 23 (gp_arena p) (m_zcall 40 ms (ZCSerialize 0)) b (Ret x)) /\
     (exists b x, runs_in 23 (gp_arena p) (m_zcall 40 ms (ZCCombinationsRec 0)) b (Ret x)) /\
     exists b ms' d, runs_in 23 (gp_arena p) (m_zcall 40 ms (ZCTraverse 0)) b (Ret (ms', ZOTree (Some d)))) /\
  (exists (p : pool nat) ms fs, pool_reach p /\ Forall2 (holds p) ms fs /\ Forall Reach fs /\
     fmade (CMany ho_id [[5; 6]; [7]; [6; 7; 5]]) = Some 10 /\ call_depth fs (CMany ho_id [[5; 6]; [7]; [6; 7; 5]]) = 9 /\
     exists b x, runs_in 92 (p_arena p) (m_call 40 ms (CMany ho_id [[5; 6]; [7]; [6; 7; 5]])) b (Ret x)).
Proof. exact CostThm.C105_example. Qed.
