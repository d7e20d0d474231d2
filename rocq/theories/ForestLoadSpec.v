(** ForestLoadSpec: how the data of a serialized Forest is to be read (no proofs here). *)
From Coq Require Import List Arith NArith Lia Bool Permutation Sorted.
From Verif Require Import Base DD Spec ParserSpec TextSpec ZLoadThm.
Import ListNotations.
Open Scope N_scope.

(** [kept entries l]: [l] is the map that the entries leave, in item order: for each item its last entry *)
Definition kept {T} `{Ord T} (entries l : list (T * nat)) : Prop :=
  ssorted (map fst l) /\ forall x k, In (x, k) l <-> entry_of entries x k.
(** [says text es]: the text is the text of a diagram, after white space and before anything, and that
    diagram comes out as the family [es] of label lists *)
Definition says (text : list N) (es : family) : Prop :=
  exists raw w t rest, text = w ++ t ++ rest /\ white w /\ spells 65 78 raw t /\ parsed_as raw es.

(** every label has an entry at its rank *)
Definition readable {T} (es : family) (l : list (T * nat)) : Prop := forall p i, es p -> In i p -> (i < length l)%nat.
