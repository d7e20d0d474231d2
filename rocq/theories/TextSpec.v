(** TextSpec: the one text the library writes for a diagram (no proofs here). *)
From Coq Require Import List Arith NArith Lia Bool Permutation Sorted.
From Verif Require Import Base DD ParserSpec.
Import ListNotations.
Open Scope N_scope.

(** a decimal numeral without leading zeros *)
Definition plain_numeral (ds : list N) (v : N) : Prop :=
  numeral ds v /\ forall ds', ds = 48 :: ds' -> ds' = [].

(** [plain a b n s]: the text [s] of [n] has exactly one space before each child and
    no other layout: "(a)", "(b)", "(" label " " low " " high ")" *)
Inductive plain (a b : N) : dd nat -> list N -> Prop :=
| pl_true : plain a b (Leaf true) [40; a; 41]
| pl_false : plain a b (Leaf false) [40; b; 41]
| pl_branch i low high ds sl sh :
    plain_numeral ds (N.of_nat i) -> plain a b low sl -> plain a b high sh ->
    plain a b (Branch i low high) ([40] ++ ds ++ [32] ++ sl ++ [32] ++ sh ++ [41]).

(** [last_position items x k]: [x] is the item at [k] and at no later place *)
Definition last_position {T} (items : list T) (x : T) (k : nat) : Prop :=
  nth_error items k = Some x /\ forall j, (k < j)%nat -> nth_error items j <> Some x.

(** the entries in the order in which the labels number them: items held by more trees first,
    then smaller items *)
Definition ranks_before {T} `{Ord T} (p q : T * nat) : Prop :=
  (snd q < snd p)%nat \/ (snd p = snd q /\ lt_ (fst p) (fst q)).
Definition ranking {T} `{Ord T} (entries ranks : list (T * nat)) : Prop :=
  Permutation ranks entries /\ StronglySorted ranks_before ranks.
(** [reads ranks p t]: the item set [t] is the path [p] read through the ranking *)
Definition reads {T} (ranks : list (T * nat)) (p : list nat) (t : list T) : Prop :=
  forall x, In x t <-> exists i k, In i p /\ nth_error ranks i = Some (x, k).
