(** Properties_TreeEq.v: equality and laws of Tree
    Generated by tools/gen_props.py from TreeEqThm.v: the property theorems, each followed by
    instances that meet its hypotheses (examples). *)
From Coq Require Import List Arith Lia Bool Permutation Sorted.
From Verif Require Import Base DD Spec Zdd2Model MatrixModel MatrixProofs MatrixThm.
Import ListNotations.
From Verif Require Import TreeEqThm.

(** many([1, 1]) and one(1) hold the same element. *)
Theorem C92_equality_refuted : ~ C92_claim nat _.
Proof. exact C92_equality_refuted_pf. Qed.
Print Assumptions C92_equality_refuted.

(** [==] holds exactly if the same elements are held and, where that is a single element, both
    or neither are [==] to [one] of it.  (So it is extensional for all trees that do not hold
    exactly one element.) *)
Theorem C92_equality_partial : forall (T : Type) (O : Ord T) (h h' : hash_order) (t u : tree T),
  TReach t -> TReach u ->
  (t_eqb t u = true <->
   same_elems (t_elems h t) (t_elems h' u) /\
   forall e, t_elems h t = [e] -> (t_eqb t (t_one e) = true <-> t_eqb u (t_one e) = true)) /\
  (t_len t <> 1 -> (t_eqb t u = true <-> same_elems (t_elems h t) (t_elems h' u))).
Proof. exact C92_equality_partial_pf. Qed.
Print Assumptions C92_equality_partial.

(** What the constructors give: one(e) == many([e]), empty() == many([]), the order of the
    elements does not matter. *)
Theorem C92_constructors : forall (T : Type) (O : Ord T) (es es' : list T) (e : T),
  t_eqb (t_many [e]) (t_one e) = true /\ t_eqb (t_many []) (t_empty (T:=T)) = true /\
  (Permutation es es' -> t_eqb (t_many es) (t_many es') = true) /\
  (length es <> 1 -> length es' <> 1 -> same_elems es es' -> t_eqb (t_many es) (t_many es') = true).
Proof. exact C92_constructors_pf. Qed.
Print Assumptions C92_constructors.

(** The laws, in terms of [==]: the operations do not depend on iteration order, commute, are
    idempotent, and [empty] is neutral for union and absorbing for intersect. *)
Theorem C92_laws : forall (T : Type) (O : Ord T) (h h' : hash_order) (t u : tree T),
  TReach t -> TReach u ->
  t_eqb (t_union h t u) (t_union h' u t) = true /\ t_eqb (t_intersect h t u) (t_intersect h' u t) = true /\
  t_eqb (t_union h t u) (t_union h' t u) = true /\ t_eqb (t_intersect h t u) (t_intersect h' t u) = true /\
  t_eqb (t_union h t t) t = true /\ t_eqb (t_intersect h t t) t = true /\
  t_eqb (t_union h t t_empty) t = true /\ t_eqb (t_union h t_empty t) t = true /\
  t_eqb (t_intersect h t t_empty) t_empty = true /\ t_eqb (t_intersect h t_empty t) t_empty = true.
Proof. exact C92_laws_pf. Qed.
Print Assumptions C92_laws.

Example C92_example :
  let t := t_many [1;2;3] in let u := t_many [3;4;5] in
  TReach t /\ TReach u /\ t_len t <> 1 /\
  t_eqb (t_intersect ho_rev t u) (t_one 3) = true /\ t_eqb (t_many [3;3]) (t_one 3) = false.
Proof. exact TreeEqThm.C92_example. Qed.
