(** VizSpec: reading a rendered page back, independently of how it is drawn. *)
From Coq Require Import String List Bool.
From Verif Require Import Base DD VizModel.
Import ListNotations.
Local Open Scope string_scope.
Local Open Scope list_scope.

(** all elements with the given tag, in document order *)
Fixpoint by_tag (tag : string) (h : html) : list html :=
  match h with
  | El t _ ch => (if String.eqb t tag then [h] else []) ++ concat (map (by_tag tag) ch)
  | Text _ => []
  end.
(** all elements with the given class, in document order *)
Fixpoint by_class (cls : string) (h : html) : list html :=
  match h with
  | El _ c ch =>
      (match c with Some c => if String.eqb c cls then [h] else [] | None => [] end) ++ concat (map (by_class cls) ch)
  | Text _ => []
  end.
(** the visible text *)
Fixpoint text_of (h : html) : string :=
  match h with
  | El _ _ ch => String.concat EmptyString (map text_of ch)
  | Text s => s
  end.
(** what the user reads in the list of combinations: the text of every list entry *)
Definition entries (h : html) : list string := map text_of (by_tag "li" h).
(** and in the tree: the texts of the branch labels, and of the leaves *)
Definition branch_labels (h : html) : list string := map text_of (by_class "tree-branch-label" h).
Definition leaf_texts (h : html) : list string := map text_of (by_class "tree-leaf" h).

(** [h] is a drawing of the diagram [n] over [items]: a box for a branch carries the item as its
    label and holds the drawings of the low and the high child, in this order *)
Inductive draws (items : list string) : dd nat -> html -> Prop :=
| draws_leaf b : draws items (Leaf b)
    (El "div" (Some "tree-leaf") [El "label" None [Text (if b then "true" else "false")]])
| draws_branch i x lo hi l h : nth_error items i = Some x -> draws items lo l -> draws items hi h ->
    draws items (Branch i lo hi)
      (El "div" (Some "tree-branch")
        [El "label" (Some "tree-branch-label") [Text x]; El "div" (Some "tree-branch-children") [l; h]]).

(** the page's two panels *)
Definition panels (page : html) (combos tree : html) : Prop :=
  by_class "combo-wrapper" page = [El "div" (Some "combo-wrapper") [combos]] /\
  by_class "tree-wrapper" page = [El "div" (Some "tree-wrapper") [tree]].
