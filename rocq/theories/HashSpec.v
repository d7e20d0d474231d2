(** HashSpec: what the structural hash of a bowtie node is about. *)
From Coq Require Import List Arith NArith Lia Bool.
From Verif Require Import Base DD HashModel.
Import ListNotations.
Open Scope N_scope.

(** the same diagram but for the items at its branches *)
Fixpoint same_shape {I : Type} (a b : dd I) : Prop :=
  match a, b with
  | Leaf v, Leaf w => v = w
  | Branch _ l h, Branch _ l' h' => same_shape l l' /\ same_shape h h'
  | _, _ => False
  end.
(** the byte strings handed to the hasher for the nodes of a diagram *)
Fixpoint messages {I : Type} (finish : list N -> N) (n : dd I) : list (list N) :=
  match n with
  | Leaf v => [leaf_bytes v]
  | Branch _ l h =>
      (string_bytes (hash_structure finish l) ++ string_bytes (hash_structure finish h))
        :: messages finish l ++ messages finish h
  end.
