(** Properties_ZEq.v: equality of zdd trees
    Generated by tools/gen_props.py from ZEqThm.v: the property theorems, each followed by
    instances that meet its hypotheses (examples). *)
From Coq Require Import List Arith Lia Bool Permutation Sorted.
From Verif Require Import Base DD Spec Zdd2Model ZddModel ZddSpec ZddProofs ZddExact ZddThm ArenaModel ZddProg.
Import ListNotations.
From Verif Require Import ZEqThm.

(** C63.  [==] on trees - built or loaded - is equality of the diagram, of the list of items and of
    the index of the items. *)
Theorem C63_equality : forall (T : Type) (O : Ord T) (t o : ztree T),
  z_eqb t o = true <->
  zt_root t = zt_root o /\ zu_items (zt_univ t) = zu_items (zt_univ o) /\ zu_index (zt_univ t) = zu_index (zt_univ o).
Proof. exact C63_equality_pf. Qed.
Print Assumptions C63_equality.

(** Trees of any two universes, built from duplicate-free combinations by any calls, are [==] exactly
    if the universes list the same items in the same order and the combinations are the same. *)
Theorem C63_histories : forall (T : Type) (O : Ord T) (items items' : list T) (t o : ztree T),
  ZReach (@NoDup T) (zu_from items) t -> ZReach (@NoDup T) (zu_from items') o ->
  (z_eqb t o = true <-> items = items' /\ z_combinations t = z_combinations o).
Proof. exact C63_histories_pf. Qed.
Print Assumptions C63_histories.

(** A concrete pair: the same combinations through different calls are [==]; the same combinations
    over the same items in another order are not. *)
Example C63_histories_example :
  let u := zu_from [1; 2; 3] in let v := zu_from [3; 2; 1] in
  let t := z_union (z_tree u [2; 1]) (z_tree u [3]) in
  ZReach (@NoDup nat) u t /\ ZReach (@NoDup nat) u (z_hyper_tree u [[3]; [1; 2]]) /\
  ZReach (@NoDup nat) v (z_hyper_tree v [[3]; [1; 2]]) /\
  z_eqb t (z_hyper_tree u [[3]; [1; 2]]) = true /\
  z_combinations t = z_combinations (z_hyper_tree v [[3]; [1; 2]]) /\
  z_eqb t (z_hyper_tree v [[3]; [1; 2]]) = false.
Proof. exact ZEqThm.C63_histories_example. Qed.

(** Trees built from any combinations, repeated items included, are [==] exactly if the universes list
    the same items in the same order and [traverse] shows the same diagram. *)
Theorem C63_any : forall (T : Type) (O : Ord T) (ok ok' : list T -> Prop) (items items' : list T) (t o : ztree T),
  ZReach ok (zu_from items) t -> ZReach ok' (zu_from items') o ->
  (z_eqb t o = true <-> items = items' /\ z_traverse t = z_traverse o).
Proof. exact C63_any_pf. Qed.
Print Assumptions C63_any.

(** with a repeated item: the trees of [a,a] and of [a] have one combination each, the same, and are not [==] *)
Example C63_any_example :
  let u := zu_from [1; 2] in
  ZReach (fun _ => True) u (z_tree u [1; 1]) /\ ZReach (fun _ => True) u (z_tree u [1]) /\
  z_combinations (z_tree u [1; 1]) = z_combinations (z_tree u [1]) /\
  z_eqb (z_tree u [1; 1]) (z_tree u [1]) = false /\ z_eqb (z_tree u [1; 1]) (z_union (z_tree u [1; 1]) (z_empty_tree u)) = true.
Proof. exact ZEqThm.C63_any_example. Qed.
