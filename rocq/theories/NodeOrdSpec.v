(** NodeOrdSpec: what the order of nodes and of node ids can depend on, stated
    on the diagrams alone.  No proofs here. *)
From Coq Require Import List Arith Bool.
From Verif Require Import Base DD ArenaModel ArenaProofs PoolModel BddProg Conc2Thm GrowthSpec.
Import ListNotations.
Open Scope nat_scope.

(** some thread of the state holds the node [n], itself or as the root of a
    closet, and [n] stands for the diagram [d] *)
Definition held {I F} `{Ord I} (p : bpool I F) (d : dd I) (n : gnode I) : Prop :=
  exists m, In m (gp_done p) /\ mval_node m = n /\ nden (gp_arena p) n d.

(** [older a b]: the store of every process has [a] before [b].  The leaves come
    first, [false] before [true]; a branch comes before the diagrams it is part of. *)
Definition older {I} (a b : dd I) : Prop :=
  a <> b /\
  (a = Leaf false \/ (a = Leaf true /\ b <> Leaf false) \/ (exists x l h, a = Branch x l h /\ sub a b)).

(** [node_before a b]: the node of [a] is less than that of [b] in every process:
    branches before leaves, [false] before [true]; branches by their item, then
    by the age of the low side, then by the age of the high side *)
Definition node_before {I} `{Ord I} (a b : dd I) : Prop :=
  match a, b with
  | Branch x l h, Branch y l' h' => lt_ x y \/ (x = y /\ (older l l' \/ (l = l' /\ older h h')))
  | Branch _ _ _, Leaf _ => True
  | Leaf b, Leaf c => b = false /\ c = true
  | Leaf _, Branch _ _ _ => False
  end.
