(** Properties_Outline.v: Debug texts are outlines (C96)
    Generated by tools/gen_props.py from OutlineThm.v: the property theorems, each followed by
    instances that meet its hypotheses (examples). *)
From Coq Require Import Ascii String.
From Coq Require Import List Arith NArith Lia Bool Permutation Sorted.
From Verif Require Import Base DD Spec Zdd2Model ZddModel ParserSpec ParserModel ZddSpec TextSpec DebugModel OutlineSpec.
From Verif Require Import Zdd2Node Zdd2Univ Zdd2Forest Zdd2Forest2 Zdd2Laws Zdd2Thm ZddProofs ParserProofs ParserThm ZddThm TextThm DebugThm.
Import ListNotations.
From Verif Require Import OutlineThm.
Open Scope N_scope.

(** C96.  The Debug text of a diagram is its outline, one node a line: zdd and zdd2 nodes with
    their labels, ... *)
Theorem C96_nodes : forall (n : dd nat) (s : list N),
  (s = z_debug n <-> exists ls, outline true_false numbered 0 n ls /\ s = written ls) /\
  (s = n_debug n <-> exists ls, outline always_never prioritized 0 n ls /\ s = written ls).
Proof. exact C96_nodes_pf. Qed.
Print Assumptions C96_nodes.

(** ... bowtie nodes with the texts of their items, every line one level deeper, ... *)
Theorem C96_bowtie_nodes : forall (I : Type) (show : I -> list N) (n : dd I) (s : list N),
  s = b_debug show n <-> exists ls, outline true_false (itemized show) 1 n ls /\ s = written ls.
Proof. exact C96_bowtie_nodes_pf. Qed.
Print Assumptions C96_bowtie_nodes.

(** ... zdd trees: the paths of the diagram drawn are the combinations, through the listed items, ... *)
Theorem C96_zdd_trees : forall (T : Type) (O : Ord T) (ok : list T -> Prop) (items : list T) (t : ztree T) cs,
  ZReach ok (zu_from items) t -> z_combinations t = Some cs ->
  exists d ls, outline true_false numbered 0 d ls /\ zt_debug t = written ls /\
    forall s, In s cs <-> exists p, In p (paths d) /\ named_by items p s.
Proof. exact C96_zdd_trees_pf. Qed.
Print Assumptions C96_zdd_trees.

(** ... and zdd2 forests: every line names the item next to its rank, and the paths of the diagram
    drawn, read through the ranking, are the trees. *)
Theorem C96_forests : forall (T : Type) (O : Ord T) (show : T -> list N) (f : forest T) ts,
  Reach f -> f_trees f = Some ts ->
  exists d ranks entries ls, f_debug show f = Some (written ls) /\ outline always_never (ranked show ranks) 0 d ls /\
    ordered d /\ zero_suppressed d /\
    (ssorted (map fst entries) /\ forall x k, In (x, k) entries <-> (0 < k)%nat /\ k = count ts x) /\ ranking entries ranks /\
    forall t, In t ts <-> ssorted t /\ exists p, In p (paths d) /\ reads ranks p t.
Proof. exact C96_forests_pf. Qed.
Print Assumptions C96_forests.

(** so a forest's text says which trees it holds and nothing else, however it was made *)
Theorem C96_same_text : forall (T : Type) (O : Ord T) (show : T -> list N),
  (forall x, one_line (show x)) -> (forall x y, show x = show y -> x = y) ->
  forall (f g : forest T) tf tg, Reach f -> Reach g -> f_trees f = Some tf -> f_trees g = Some tg ->
  (f_debug show f = f_debug show g <-> forall s, has_set tf s <-> has_set tg s).
Proof. exact C96_same_text_pf. Qed.
Print Assumptions C96_same_text.

Example C96_example : exists f, f_many ho_id [[1;2];[2;3]]%nat = Some f /\ Reach f /\ f_trees f = Some [[1;2];[2;3]]%nat /\
  f_debug (fun n => decimal (N.of_nat n)) f = Some (written (map str
    ["Priority(0): 2"; "| Never"; "| Priority(1): 1"; "| | Priority(2): 3"; "| | | Never"; "| | | Always"; "| | Always"]))%string.
Proof. exact OutlineThm.C96_example. Qed.

Example C96_zdd_example : let t := z_hyper_tree (zu_from [7; 8; 9]%nat) [[7]; [8; 9]]%nat in
  ZReach (fun _ => True) (zu_from [7; 8; 9]%nat) t /\ z_combinations t = Some [[7]; [8; 9]]%nat /\
  zt_debug t = written (map str ["0:"; "| 1:"; "| | false"; "| | 2:"; "| | | false"; "| | | true"; "| true"])%string.
Proof. exact OutlineThm.C96_zdd_example. Qed.

Example C96_bowtie_example : b_debug (fun n => decimal (N.of_nat n)) (Branch 4 (Leaf true) (Branch 12 (Leaf false) (Leaf true)))%nat =
  written (map str ["| 4:"; "| | true"; "| | 12:"; "| | | false"; "| | | true"])%string.
Proof. exact OutlineThm.C96_bowtie_example. Qed.
