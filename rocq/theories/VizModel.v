(** VizModel: the page weave-visualizer draws for a zdd tree of strings. *)
From Coq Require Import String List Arith Bool.
From Verif Require Import Base DD ZddModel.
Import ListNotations.
Local Open Scope string_scope.
Local Open Scope list_scope.

(** yew's [Html]: an element with tag, class and children, or a text.  Only what the
    [html!] invocations of this crate use: no attributes but [class], no events. *)
Inductive html : Type :=
| El (tag : string) (class : option string) (children : list html)
| Text (s : string).

(** [{ value }] of a [bool] prints through [Display] *)
Definition bool_text (b : bool) : string := if b then "true" else "false".

(** view_leaf, weave-visualizer/src/visualizer.rs L121-127 ([depth] is unused) *)
Definition view_leaf (value : bool) : html :=
  El "div" (Some "tree-leaf") [El "label" None [Text (bool_text value)]].
(** view_node L102-107 and view_branch L109-119, mutually recursive in the source *)
Fixpoint view_node (node : dd string) : html :=
  match node with
  | Branch value low high =>
      El "div" (Some "tree-branch")
        [El "label" (Some "tree-branch-label") [Text value];
         El "div" (Some "tree-branch-children") [view_node low; view_node high]]
  | Leaf value => view_leaf value
  end.
(** view_tree, L98-100 *)
Definition view_tree (t : ztree string) : option html :=
  let! d := z_traverse t in Some (view_node d).

(** [slice::join], on the sorted contents of the [BTreeSet] (L136) *)
Fixpoint join (sep : string) (l : list string) : string :=
  match l with
  | [] => ""
  | [x] => x
  | x :: r => x ++ sep ++ join sep r
  end%string.
(** render_combo, L132-140 *)
Definition render_combo (combo : list string) : html :=
  El "li" None [El "div" (Some "view") [El "label" None [Text (join ", " combo)]]].
(** view_combinations, L131-147; [combinations] is a [BTreeSet], iterated in ascending order *)
Definition view_combinations (t : ztree string) : option html :=
  let! cs := z_combinations t in Some (El "ul" (Some "combo-list") (map render_combo cs)).

(** view, L75-95 *)
Definition view (t : ztree string) : option html :=
  let! combos := view_combinations t in
  let! tree := view_tree t in
  Some (El "div" (Some "weave-viz-wrapper")
    [El "section" (Some "weaveviz-app")
      [El "header" (Some "header") [El "h1" None [Text "Weave Viz"]];
       El "section" (Some "main")
         [El "div" (Some "combo-wrapper") [combos];
          El "div" (Some "tree-wrapper") [tree]]]]).

(** create, L28-64 *)
Definition viz_items : list string :=
  ["red shirt"; "blue shirt"; "black jeans"; "blue jeans"; "purple jeans"; "blue shoes"; "flip flops"]%string.
Definition viz_create : ztree string :=
  z_hyper_tree (zu_from viz_items)
    [["red shirt"; "black jeans"; "blue shoes"]; ["blue shirt"; "black jeans"; "blue shoes"];
     ["red shirt"; "blue jeans"; "blue shoes"]; ["blue shirt"; "blue jeans"; "blue shoes"];
     ["red shirt"; "purple jeans"; "blue shoes"]; ["blue shirt"; "purple jeans"; "blue shoes"];
     ["red shirt"; "black jeans"; "flip flops"]; ["blue shirt"; "black jeans"; "flip flops"];
     ["red shirt"; "blue jeans"; "flip flops"]; ["blue shirt"; "blue jeans"; "flip flops"];
     ["red shirt"; "purple jeans"; "flip flops"]; ["blue shirt"; "purple jeans"; "flip flops"]]%string.
