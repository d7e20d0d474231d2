(** Properties_Viz.v: the visualizer's page
    Generated by tools/gen_props.py from VizThm.v: the property theorems, each followed by
    instances that meet its hypotheses (examples). *)
From Coq Require Import String Ascii List Arith Lia Bool.
From Verif Require Import Base DD Spec ZddModel ZddSpec ZddProofs ZddThm VizModel VizSpec.
Import ListNotations.
From Verif Require Import VizThm.
Local Open Scope string_scope.
Local Open Scope list_scope.

(** C79.  The visualizer's page: it is always drawn; the list on the left has one entry per
    combination, in ascending order, each the combination's items in ascending order joined by
    ", "; the tree on the right is the diagram, branch for branch. *)
Theorem C79_page : forall (ok : list string -> Prop) (items : list string) (t : ztree string),
  ZReach ok (zu_from items) t ->
  exists page combos tree cs, view t = Some page /\ panels page combos tree /\
    z_combinations t = Some cs /\
    entries page = map (String.concat ", ") cs /\ entries combos = map (String.concat ", ") cs /\ entries tree = [] /\
    draws items (zt_root t) tree.
Proof. exact C79_page_pf. Qed.
Print Assumptions C79_page.

(** The page determines the tree. *)
Theorem C79_page_determines : forall (ok : list string -> Prop) (items : list string) (t o : ztree string),
  ZReach ok (zu_from items) t -> ZReach ok (zu_from items) o -> view t = view o -> t = o.
Proof. exact C79_page_determines_pf. Qed.
Print Assumptions C79_page_determines.

(** No two entries of the list read the same, if no item is empty or contains a comma. *)
Theorem C79_entries_distinct : forall (ok : list string -> Prop) (items : list string) (t : ztree string) page,
  ZReach ok (zu_from items) t ->
  (forall x, In x items -> x <> EmptyString /\ forall a b, x <> (a ++ "," ++ b)%string) ->
  view t = Some page -> NoDup (entries page).
Proof. exact C79_entries_distinct_pf. Qed.
Print Assumptions C79_entries_distinct.

(** With a comma in an item two different combinations may read the same. *)
Example C79_example_comma :
  match view (z_hyper_tree (zu_from ["a"; "b"; "a, b"]%string) [["a"; "b"]; ["a, b"]]%string) with
  | Some page => entries page = ["a, b"; "a, b"]%string | None => False end.
Proof. exact VizThm.C79_example_comma. Qed.

(** What the application itself shows: the twelve outfits it was built from. *)
Example C79_example_app :
  match view viz_create with
  | Some page =>
      entries page =
        ["black jeans, blue shirt, blue shoes"; "black jeans, blue shirt, flip flops";
         "black jeans, blue shoes, red shirt"; "black jeans, flip flops, red shirt";
         "blue jeans, blue shirt, blue shoes"; "blue jeans, blue shirt, flip flops";
         "blue jeans, blue shoes, red shirt"; "blue jeans, flip flops, red shirt";
         "blue shirt, blue shoes, purple jeans"; "blue shirt, flip flops, purple jeans";
         "blue shoes, purple jeans, red shirt"; "flip flops, purple jeans, red shirt"]%string /\
      length (branch_labels page) = (length (leaf_texts page) - 1)%nat
  | None => False end /\ ZReach (fun _ => True) (zu_from viz_items) viz_create.
Proof. exact VizThm.C79_example_app. Qed.
