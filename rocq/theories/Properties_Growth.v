(** Properties_Growth.v: The shared node store: growth (C82)
    Generated by tools/gen_props.py from GrowthThm.v: the property theorems, each followed by
    instances that meet its hypotheses (examples). *)
From Coq Require Import List Arith NArith Lia Bool Permutation Sorted.
From Verif Require Import Base DD Spec Zdd2Model ZddModel ParserModel BddSpec BddModel BddRun ArenaModel ArenaProofs PoolModel ZddProg BddProg.
From Verif Require Import PoolProofs ZddProgProofs BddNode BddCloset BddThm BddProgProofs Conc2Thm ArenaSim PoolStore StoreThm.
From Verif Require Import GrowthSpec GrowthProofs GrowthCalls.
Import ListNotations.
From Verif Require Import GrowthThm.
Open Scope nat_scope.

(** C82: [dag_size] counts the different nodes of a diagram *)
Theorem C82_dag_size_counts : forall (L : Type) (O : Ord L) (t : dd L) l,
  NoDup l -> (forall x, In x l <-> sub x t) -> length l = dag_size t.
Proof. exact C82_dag_size_counts_pf. Qed.
Print Assumptions C82_dag_size_counts.

(** C82, zdd.  For every script and every list of values it starts from there
    is a list of diagrams, no longer than the cost of the script, such that in
    every state of every execution a step of a thread that runs the script from
    those values adds nothing to the store but diagrams of the list. *)
Theorem C82_zdd_growth : forall (T : Type) (O : Ord T) (cs : list (zcall T)) (vs : list (ztree T)),
  exists l, length l <= script_cost z_call z_cost cs vs /\
  forall (p : zpool T) t a' k, zreach p -> In t (gp_threads p) -> gt_script t = cs -> Forall2 (zholds p) (gt_init t) vs ->
    pstep (gp_arena p) (gt_prog t) a' k ->
    forall d, (exists i, den a' i d) -> (exists i, den (gp_arena p) i d) \/ In d l.
Proof. exact C82_zdd_growth_pf. Qed.
Print Assumptions C82_zdd_growth.

(** ... and the store never has more nodes than the two leaves and the cost of
    the scripts of all the threads there have been *)
Theorem C82_zdd_store_bound : forall (T : Type) (O : Ord T) (p : zpool T) vs,
  zreach p -> (forall t, In t (gp_threads p) -> Forall2 (zholds p) (gt_init t) (vs t)) ->
  length (a_nodes (gp_arena p)) <= 2 + list_sum (map (fun t => script_cost z_call z_cost (gt_script t) (vs t)) (gp_threads p)).
Proof. exact C82_zdd_store_bound_pf. Qed.
Print Assumptions C82_zdd_store_bound.

(** C82, bowtie: the same two statements *)
Theorem C82_bowtie_growth : forall (I F : Type) (OI : Ord I) (OF : Ord F) (cs : list (bdcall I F)) (vs : list (bval I F)),
  exists l, length l <= script_cost b_vcall b_cost cs vs /\
  forall (p : bpool I F) t a' k, breach p -> In t (gp_threads p) -> gt_script t = cs -> Forall2 (bholds p) (gt_init t) vs ->
    pstep (gp_arena p) (gt_prog t) a' k ->
    forall d, (exists i, den a' i d) -> (exists i, den (gp_arena p) i d) \/ In d l.
Proof. exact C82_bowtie_growth_pf. Qed.
Print Assumptions C82_bowtie_growth.

Theorem C82_bowtie_store_bound : forall (I F : Type) (OI : Ord I) (OF : Ord F) (p : bpool I F) vs,
  breach p -> (forall t, In t (gp_threads p) -> Forall2 (bholds p) (gt_init t) (vs t)) ->
  length (a_nodes (gp_arena p)) <= 2 + list_sum (map (fun t => script_cost b_vcall b_cost (gt_script t) (vs t)) (gp_threads p)).
Proof. exact C82_bowtie_store_bound_pf. Qed.
Print Assumptions C82_bowtie_store_bound.

Theorem C82_select_no_larger : forall (I F : Type) (OI : Ord I) (OF : Ord F) (calls : list (bcall I F)) sels c h i c',
  reached calls sels c -> select_item h c i = Ok c' -> dag_size (c_root c') <= dag_size (c_root c).
Proof. exact C82_select_no_larger_pf. Qed.
Print Assumptions C82_select_no_larger.

Theorem C82_outfit_cost : forall (I F : Type) (OI : Ord I) (OF : Ord F) (calls : list (bcall I F)) sels c selections,
  reached calls sels c -> outfit_cost (c_root c) selections <= length selections * dag_size (c_root c).
Proof. exact C82_outfit_cost_pf. Qed.
Print Assumptions C82_outfit_cost.

(** C82: the result of [&] or [|] has at most one node for each pair of nodes of the operands *)
Theorem C82_and_or_size : forall (I : Type) (O : Ord I) (a b : dd I),
  dag_size (bitand a b) <= dag_size a * dag_size b /\ dag_size (bitor a b) <= dag_size a * dag_size b.
Proof. exact C82_and_or_size_pf. Qed.
Print Assumptions C82_and_or_size.

(** the two threads of C81's examples: what their scripts cost, and what the store holds *)
Example C82_zdd_example : zreach z81_p /\ map gt_script (gp_threads z81_p) = [z81_one; z81_two] /\
  (forall t, In t (gp_threads z81_p) -> Forall2 (zholds z81_p) (gt_init t) []) /\
  script_cost z_call z_cost z81_one [] = 34 /\ script_cost z_call z_cost z81_two [] = 14 /\
  length (a_nodes (gp_arena z81_p)) = 8.
Proof. exact GrowthThm.C82_zdd_example. Qed.

Example C82_bowtie_example : breach b81_p /\ map gt_script (gp_threads b81_p) = [b81_one; b81_two] /\
  (forall t, In t (gp_threads b81_p) -> Forall2 (bholds b81_p) (gt_init t) []) /\
  script_cost b_vcall b_cost b81_one [] = 108 /\ script_cost b_vcall b_cost b81_two [] = 28 /\
  length (a_nodes (gp_arena b81_p)) = 8.
Proof. exact GrowthThm.C82_bowtie_example. Qed.

(** a thread that starts from a closet of another one: the cost depends on it *)
Example C82_values_example : let c := closet_new ho_id [(10, 1); (20, 2)] (Branch 10 (Leaf false) (Branch 20 (Leaf false) (Leaf true))) in
  script_cost b_vcall b_cost [BDSelect ho_id 0 10; BDOutfit 0 [10; 20]; BDSummary 0] [VClo c] = 11 /\
  dag_size (c_root c) = 4 /\ script_cost b_vcall b_cost [BDSelect ho_id 0 10; BDOutfit 0 [10; 20]; BDSummary 0] [VClo no_closet] = 3.
Proof. exact GrowthThm.C82_values_example. Qed.

Example C82_closet_example : exists c c', reached (F := nat) [AddItem 1 10; AddItem 1 11; AddItem 2 20; AddExcl 10 20] [] c /\
  select_item ho_id c 11 = Ok c' /\ dag_size (c_root c) = 5 /\ dag_size (c_root c') = 4 /\ outfit_cost (c_root c) [11; 20] = 9.
Proof. exact GrowthThm.C82_closet_example. Qed.
