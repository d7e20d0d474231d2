(** Properties_Debug.v: Debug texts
    Generated by tools/gen_props.py from DebugThm.v: the property theorems, each followed by
    instances that meet its hypotheses (examples). *)
From Coq Require Import List Arith NArith Lia Bool Permutation Sorted.
From Verif Require Import Base DD Spec Zdd2Model ZddModel ParserSpec ParserModel DebugModel.
Import ListNotations.
From Verif Require Import DebugThm.
Open Scope N_scope.

(** C78.  Equal Debug texts of zdd nodes, of zdd2 nodes: equal nodes. *)
Theorem C78_nodes : forall a b : dd nat,
  (z_debug a = z_debug b -> a = b) /\ (n_debug a = n_debug b -> a = b).
Proof. exact C78_nodes_pf. Qed.
Print Assumptions C78_nodes.

(** Trees of one universe with equal Debug texts are equal. *)
Theorem C78_zdd_trees : forall (T : Type) (t o : ztree T), zt_univ t = zt_univ o -> zt_debug t = zt_debug o -> t = o.
Proof. exact C78_zdd_trees_pf. Qed.
Print Assumptions C78_zdd_trees.

(** bowtie nodes, for one-line item texts that tell items apart (the derived [Debug] of a string escapes newlines). *)
Theorem C78_bowtie_nodes : forall (I : Type) (show : I -> list N),
  (forall i, one_line (show i)) -> (forall i j, show i = show j -> i = j) ->
  forall a b : dd I, b_debug show a = b_debug show b -> a = b.
Proof. exact C78_bowtie_nodes_pf. Qed.
Print Assumptions C78_bowtie_nodes.

(** Reachable forests with equal Debug texts are equal, for one-line item texts
    that tell items apart. *)
Theorem C78_forests : forall (T : Type) (O : Ord T) (show : T -> list N),
  (forall x, one_line (show x)) -> (forall x y, show x = show y -> x = y) ->
  forall f g : forest T, Reach f -> Reach g -> f_debug show f = f_debug show g -> f = g.
Proof. exact C78_forests_pf. Qed.
Print Assumptions C78_forests.

Example C78_example : exists f g : forest nat, Reach f /\ Reach g /\ f_many ho_id [[1;2];[2;3]]%nat = Some f /\ f_many ho_id [[1;2];[1;3]]%nat = Some g /\
  f_root f = f_root g /\ f_debug (fun n => decimal (N.of_nat n)) f <> f_debug (fun n => decimal (N.of_nat n)) g /\
  (forall x, one_line (decimal (N.of_nat x))) /\ (forall x y, decimal (N.of_nat x) = decimal (N.of_nat y) -> x = y).
Proof. exact DebugThm.C78_example. Qed.

(** "\n1:\n| false\n| 0:\n| | true\n| | false" *)
Example C78_example_node : z_debug (Branch 1 (Leaf false) (Branch 0 (Leaf true) (Leaf false)))%nat =
  [10; 49; 58; 10; 124; 32; 102; 97; 108; 115; 101; 10; 124; 32; 48; 58; 10; 124; 32; 124; 32; 116; 114; 117; 101; 10; 124; 32; 124; 32; 102; 97; 108; 115; 101].
Proof. exact DebugThm.C78_example_node. Qed.
