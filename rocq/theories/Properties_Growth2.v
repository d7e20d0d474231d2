(** Properties_Growth2.v: Growth of the store of zdd2 (C94)
    Generated by tools/gen_props.py from Growth2Thm.v: the property theorems, each followed by
    instances that meet its hypotheses (examples). *)
From Coq Require Import List Arith Lia Bool Permutation Sorted.
From Verif Require Import Base DD Spec Zdd2Model Zdd2Laws ArenaModel ArenaProofs Zdd2Prog Zdd2ProgProofs GrowthSpec Growth2Spec Growth2F Growth2H.
From Verif Require Import Zdd2Thm ConcThm.
Import ListNotations.
From Verif Require Import Growth2Thm.

(** C94: in every state of every execution the store has at most the two leaves
    and the cost of the scripts of all the threads there have been *)
Theorem C94_store_bound : forall (T : Type) (O : Ord T) (p : pool T) vs, pool_reach p ->
  (forall t, In t (p_threads p) -> Forall2 (holds p) (t_init t) (vs t)) ->
  length (a_nodes (p_arena p)) <= 2 + list_sum (map (fun t => script_cost run_call f_cost (t_script t) (vs t)) (p_threads p)).
Proof. exact C94_store_bound_pf. Qed.
Print Assumptions C94_store_bound.

(** ... and after any moment [p] when no call is under way, the threads [ts]
    started since then have added at most the cost of their scripts *)
Theorem C94_growth : forall (T : Type) (O : Ord T) (p q : pool T) vs, pool_reach p ->
  (forall t, In t (p_threads p) -> exists r, t_prog t = Ret r) -> pool_steps p q ->
  exists ts, p_threads q = p_threads p ++ ts /\
  ((forall t, In t ts -> Forall2 (holds q) (t_init t) (vs t)) ->
   length (a_nodes (p_arena q)) <= length (a_nodes (p_arena p)) + list_sum (map (fun t => script_cost run_call f_cost (t_script t) (vs t)) ts)).
Proof. exact C94_growth_pf. Qed.
Print Assumptions C94_growth.

(** C94: the cost of a call that makes a forest, from the number of trees and of
    different items: a union of two forests with [n] trees over [k] items, ... *)
Theorem C94_costs : forall (T : Type) (O : Ord T) (f g : forest T) n1 n2 k,
  f_len f = Some n1 -> f_len g = Some n2 ->
  (forall l : list T, NoDup l -> (forall x, In x l -> exists t, (In t (trees_of f) \/ In t (trees_of g)) /\ In x t) -> length l <= k) ->
  join_cost f g <= 2 + (n1 + n2) * (k * (3 * k + 6)) /\
  product_cost f g <= 2 + (n1 + n2) * (k * (2 * k + 2)) + n1 * n2 * (k * (5 * k + 4)) /\
  filter_cost f <= 2 + n1 * (k * (k + 4)) /\ (forall m, filters_cost f m <= 2 + n1 * (k * (k + 2 + 6 * m))).
Proof. exact C94_costs_pf. Qed.
Print Assumptions C94_costs.

Example C94_store_bound_example : exists p : pool nat, pool_reach p /\ map t_script (p_threads p) = [g_one] /\
  (forall t, In t (p_threads p) -> Forall2 (holds p) (t_init t) []) /\
  map (fun t => match t_prog t with Ret (r, o) => Some (map mf_root r, o) | _ => None end) (p_threads p) =
    [Some ([6; 3; 7], [ONone; ONone; ONone; OTrees [[2; 3]; [1; 2]; [3]]])] /\
  length (a_nodes (p_arena p)) = 8 /\ script_cost run_call f_cost g_one [] = 160.
Proof. exact Growth2Thm.C94_store_bound_example. Qed.

Example C94_costs_example : exists f g : forest nat, f_many ho_id [[1; 2]; [2; 3]] = Some f /\ f_unit ho_id [3] = Some g /\
  f_len f = Some 2 /\ f_len g = Some 1 /\ trees_of f ++ trees_of g = [[1; 2]; [2; 3]; [3]] /\ different (trees_of f ++ trees_of g) = 3 /\
  join_cost f g = 137 /\ product_cost f g = 188 /\ filter_cost f = 44 /\ filters_cost f 2 = 104.
Proof. exact Growth2Thm.C94_costs_example. Qed.

Example C94_growth_example : exists (p q : pool nat) t, pool_reach p /\ (forall t, In t (p_threads p) -> exists r, t_prog t = Ret r) /\ pool_steps p q /\
  p_threads q = p_threads p ++ [t] /\ t_script t = g_two /\ Forall2 (holds q) (t_init t) [g_f] /\
  length (a_nodes (p_arena p)) = 8 /\ length (a_nodes (p_arena q)) = 18 /\ script_cost run_call f_cost g_two [g_f] = 452.
Proof. exact Growth2Thm.C94_growth_example. Qed.
