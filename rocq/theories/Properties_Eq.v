(** Properties_Eq.v: equality of closets
    Generated by tools/gen_props.py from EqThm.v: the property theorems, each followed by
    instances that meet its hypotheses (examples). *)
From Coq Require Import List Arith Lia Bool Permutation Sorted.
From Verif Require Import Base DD Spec BddModel BddRun BddNode BddCloset BddThm BddSpec.
Import ListNotations.
From Verif Require Import EqThm.

(** C91.  [==] on closets - built, selected from or loaded - is equality of all that they hold. *)
Theorem C91_equality : forall (I F : Type) (OI : Ord I) (OF : Ord F) (c d : closet I F),
  closet_eqb c d = true <-> c = d.
Proof. exact C91_equality_pf. Qed.
Print Assumptions C91_equality.

(** Two closets reached by any histories are equal exactly if the same items are in the same families,
    the same items are selected, and the same outfits remain. *)
Theorem C91_histories : forall (I F : Type) (OI : Ord I) (OF : Ord F) (calls calls' : list (bcall I F)) sels sels' c c',
  reached calls sels c -> reached calls' sels' c' ->
  (closet_eqb c c' = true <->
   same_elems (adds calls) (adds calls') /\ same_elems sels sels' /\
   forall o, valid_outfit calls o /\ incl sels o <-> valid_outfit calls' o /\ incl sels' o).
Proof. exact C91_histories_pf. Qed.
Print Assumptions C91_histories.

(** Two different histories with equal closets, and the same history after another selection. *)
Example C91_example :
  let calls := [AddItems 0 [1;2]; AddItems 7 [3;4]; AddExcl 1 3] in
  let calls' := [AddItems 7 [4;3]; AddItem 0 2; AddItem 0 1; AddIncl 1 4] in
  exists c c' d : closet nat nat, reached calls [] c /\ reached calls' [] c' /\ reached calls' [1] d /\
    closet_eqb c c' = true /\ closet_eqb c d = false.
Proof. exact EqThm.C91_example. Qed.
