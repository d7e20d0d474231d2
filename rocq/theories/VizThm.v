(** VizThm: what weave-visualizer shows. *)
From Coq Require Import String Ascii List Arith Lia Bool.
From Verif Require Import Base DD Spec ZddModel ZddSpec ZddProofs ZddThm VizModel VizSpec.
Import ListNotations.
Local Open Scope string_scope.
Local Open Scope list_scope.

Lemma html_ind' (P : html -> Prop) :
  (forall t c ch, Forall P ch -> P (El t c ch)) -> (forall s, P (Text s)) -> forall h, P h.
Proof.
  intros E X. fix F 1. intros [t c ch|s]; [|apply X]. apply E. induction ch as [|a r IH]; constructor; auto.
Qed.

Lemma draws_view items n d : mirrors items n d -> draws items n (view_node d).
Proof.
  revert d. induction n as [b|i lo IHl hi IHh]; intros [c|x l h] M; cbn in M; try contradiction.
  - subst c. exact (draws_leaf items b).
  - destruct M as (X & L & H). cbn [view_node]. constructor; auto.
Qed.
Lemma view_node_class c d : ~ In c ["tree-branch"; "tree-branch-label"; "tree-branch-children"; "tree-leaf"]%string ->
  by_class c (view_node d) = [].
Proof.
  intros N. assert (E : forall s, In s ["tree-branch"; "tree-branch-label"; "tree-branch-children"; "tree-leaf"]%string -> String.eqb s c = false).
  { intros s I. apply String.eqb_neq. intros ->. auto. }
  induction d as [b|x lo IHl hi IHh]; cbn [view_node view_leaf by_class map concat].
  - rewrite E by (cbn; auto). reflexivity.
  - rewrite !E by (cbn; auto). rewrite IHl, IHh. reflexivity.
Qed.
Lemma view_node_tag d : by_tag "li" (view_node d) = [].
Proof.
  induction d as [b|x lo IHl hi IHh]; [reflexivity|]. cbn [view_node by_tag map concat]. rewrite IHl, IHh. reflexivity.
Qed.
Lemma combos_class c cs : ~ In c ["view"]%string -> concat (map (by_class c) (map render_combo cs)) = [].
Proof.
  intros N. induction cs as [|s r IH]; [reflexivity|]. cbn [map concat render_combo by_class].
  destruct (String.eqb "view" c) eqn:E; [apply String.eqb_eq in E; subst; exfalso; apply N; left; reflexivity|].
  rewrite IH. reflexivity.
Qed.
Lemma combos_tag cs : concat (map (by_tag "li") (map render_combo cs)) = map render_combo cs.
Proof.
  induction cs as [|s r IH]; [reflexivity|].
  change (concat (map (by_tag "li") (map render_combo (s :: r)))) with
    (render_combo s :: concat (map (by_tag "li") (map render_combo r))). rewrite IH. reflexivity.
Qed.
Lemma join_concat sep l : join sep l = String.concat sep l.
Proof. reflexivity. Qed.
Lemma view_list_view_class d : by_class "view" (view_node d) = [].
Proof. apply view_node_class. intros [E|[E|[E|[E|[]]]]]; discriminate. Qed.

(** C79.  The visualizer's page: it is always drawn; the list on the left has one entry per
    combination, in ascending order, each the combination's items in ascending order joined by
    ", "; the tree on the right is the diagram, branch for branch. *)
Lemma C79_page_pf : forall (ok : list string -> Prop) (items : list string) (t : ztree string),
  ZReach ok (zu_from items) t ->
  exists page combos tree cs, view t = Some page /\ panels page combos tree /\
    z_combinations t = Some cs /\
    entries page = map (String.concat ", ") cs /\ entries combos = map (String.concat ", ") cs /\ entries tree = [] /\
    draws items (zt_root t) tree.
Proof.
  intros ok items t R. destruct (C61_mirrors_pf _ _ _ _ _ R) as (d & D & M).
  destruct (C61_traverse_exact_pf _ _ _ _ _ R) as (d' & cs & D' & C & _ & _).
  unfold view, view_combinations, view_tree. rewrite C, D. cbn [bind].
  eexists _, _, _, cs. split; [reflexivity|].
  assert (En : entries (El "ul" (Some "combo-list") (map render_combo cs)) = map (String.concat ", ") cs).
  { unfold entries. cbn [by_tag String.eqb Ascii.eqb Bool.eqb app]. rewrite combos_tag, map_map. apply map_ext. intros s.
    cbn [render_combo text_of map String.concat]. apply join_concat. }
  split; [|split; [reflexivity|split; [|split; [exact En|split]]]].
  - split; cbn [by_class String.eqb Ascii.eqb Bool.eqb app map concat].
    + rewrite combos_class, view_node_class; [reflexivity| |].
      * intros [E|[E|[E|[E|[]]]]]; discriminate.
      * intros [E|[]]; discriminate.
    + rewrite combos_class, view_node_class; [reflexivity| |].
      * intros [E|[E|[E|[E|[]]]]]; discriminate.
      * intros [E|[]]; discriminate.
  - rewrite <- En. unfold entries. cbn [by_tag String.eqb Ascii.eqb Bool.eqb app map concat].
    rewrite view_node_tag, !app_nil_r. reflexivity.
  - unfold entries. rewrite view_node_tag. reflexivity.
  - apply draws_view; exact M.
Qed.

Lemma draws_inj items n m h :
  (forall i, In i (labels n) -> canon_label (zu_from items) i) -> (forall i, In i (labels m) -> canon_label (zu_from items) i) ->
  draws items n h -> draws items m h -> n = m.
Proof.
  intros Cn Cm D. revert m Cm. induction D as [b|i x lo hi l h X Dl IHl Dh IHh]; intros m Cm D'; inversion D'; subst.
  - destruct b, b0; try reflexivity; discriminate.
  - assert (Ei : i = i0).
    { destruct (Cn i) as (y & Y & Z); [left; reflexivity|]. destruct (Cm i0) as (y' & Y' & Z'); [left; reflexivity|].
      cbn [zu_from zu_items] in Y, Y'.
      assert (y = x) by congruence. assert (y' = x) by congruence. subst. congruence. }
    subst i0. f_equal; [apply IHl|apply IHh]; auto; intros j J;
      first [apply Cn; right; apply in_or_app; solve [auto]|apply Cm; right; apply in_or_app; solve [auto]].
Qed.
(** The page determines the tree. *)
Lemma C79_page_determines_pf : forall (ok : list string -> Prop) (items : list string) (t o : ztree string),
  ZReach ok (zu_from items) t -> ZReach ok (zu_from items) o -> view t = view o -> t = o.
Proof.
  intros ok items t o R R' E.
  destruct (C79_page_pf _ _ _ R) as (p & c & h & cs & V & (_ & P) & _ & _ & _ & _ & D).
  destruct (C79_page_pf _ _ _ R') as (p' & c' & h' & cs' & V' & (_ & P') & _ & _ & _ & _ & D').
  rewrite V, V' in E. injection E as ->. rewrite P in P'. injection P' as ->.
  apply zreach_inv in R, R'. destruct R as (U & _ & L), R' as (U' & _ & L').
  destruct t as [r u], o as [r' u']. cbn in *. subst u u'. f_equal.
  exact (draws_inj items r r' h' L L' D D').
Qed.

(** *** entries tell combinations apart *)
Fixpoint has_comma (s : string) : bool :=
  match s with EmptyString => false | String a r => Ascii.eqb a "," || has_comma r end.
Lemma comma_split x : forall y r r', has_comma x = false -> has_comma y = false ->
  (x ++ String "," r = y ++ String "," r' -> x = y /\ r = r')%string.
Proof.
  induction x as [|a x IH]; intros [|b y] r r' Hx Hy E; cbn in *.
  - injection E as ->. auto.
  - injection E as <- E. discriminate.
  - injection E as -> E. discriminate.
  - injection E as -> E. apply orb_false_iff in Hx, Hy. destruct (IH y r r') as (-> & ->); tauto.
Qed.
Lemma comma_none x : forall y r, has_comma x = false -> (x = y ++ String "," r)%string -> False.
Proof.
  induction x as [|a x IH]; intros [|b y] r H E; cbn in *; try discriminate.
  - injection E as -> _. discriminate.
  - injection E as -> E. apply orb_false_iff in H. exact (IH y r (proj2 H) E).
Qed.
Lemma concat_inj l : forall m, (forall x, In x l -> has_comma x = false /\ x <> EmptyString) ->
  (forall x, In x m -> has_comma x = false /\ x <> EmptyString) ->
  String.concat ", " l = String.concat ", " m -> l = m.
Proof.
  assert (C2 : forall (a b : string) r, String.concat ", " (a :: b :: r) = (a ++ String "," (String " " (String.concat ", " (b :: r))))%string).
  { intros. reflexivity. }
  assert (C1 : forall a : string, String.concat ", " [a] = a) by reflexivity.
  induction l as [|x l IH]; intros [|y m] Hl Hm E.
  - reflexivity.
  - destruct (Hm y (or_introl eq_refl)) as (_ & N). destruct y; [contradiction|]. destruct m; discriminate.
  - destruct (Hl x (or_introl eq_refl)) as (_ & N). destruct x; [contradiction|]. destruct l; discriminate.
  - destruct (Hl x (or_introl eq_refl)) as (Cx & _), (Hm y (or_introl eq_refl)) as (Cy & _).
    destruct l as [|x' l], m as [|y' m].
    + rewrite !C1 in E. subst. reflexivity.
    + rewrite C1, C2 in E. exfalso. exact (comma_none _ _ _ Cx E).
    + rewrite C1, C2 in E. exfalso. symmetry in E. exact (comma_none _ _ _ Cy E).
    + rewrite !C2 in E. apply comma_split in E; auto. destruct E as (-> & E). injection E as E.
      f_equal. apply IH; [intros z Z; apply Hl; right; exact Z|intros z Z; apply Hm; right; exact Z|exact E].
Qed.
(** No two entries of the list read the same, if no item is empty or contains a comma. *)
Lemma C79_entries_distinct_pf : forall (ok : list string -> Prop) (items : list string) (t : ztree string) page,
  ZReach ok (zu_from items) t ->
  (forall x, In x items -> x <> EmptyString /\ forall a b, x <> (a ++ "," ++ b)%string) ->
  view t = Some page -> NoDup (entries page).
Proof.
  intros ok items t page R H V. destruct (C79_page_pf _ _ _ R) as (p & c & h & cs & V' & _ & C & E & _).
  rewrite V in V'. injection V' as <-. rewrite E. clear E V.
  destruct (C36_combinations_exact_pf _ _ t) as (cs' & C' & _ & S & X). rewrite C in C'. injection C' as <-.
  assert (K : forall s x, In s cs -> In x s -> has_comma x = false /\ x <> EmptyString).
  { intros s x Is Ix. apply X in Is. destruct Is as (p' & _ & _ & Q). apply Q in Ix. destruct Ix as (i & _ & Ni).
    apply zreach_inv in R. destruct R as (U & _ & _). rewrite U in Ni. apply nth_error_In in Ni. destruct (H x Ni) as (N & Cm).
    split; [|exact N]. clear -Cm. induction x as [|a x IH]; [reflexivity|]. cbn. apply orb_false_iff. split.
    - apply Ascii.eqb_neq. intros ->. apply (Cm EmptyString x). reflexivity.
    - apply IH. intros u v ->. apply (Cm (String a u) v). reflexivity. }
  apply ssorted_NoDup in S. clear C X. induction cs as [|s r IH]; [constructor|]. inversion S as [|s0 r0 Ns Sr]; subst. cbn. constructor.
  - rewrite in_map_iff. intros (s' & E & I). apply concat_inj in E.
    + subst. contradiction.
    + intros x Ix. apply (K s' x); [right; exact I|exact Ix].
    + intros x Ix. apply (K s x); [left; reflexivity|exact Ix].
  - apply IH; [exact Sr|]. intros s' x Is' Ix. apply (K s' x); [right; exact Is'|exact Ix].
Qed.
(** With a comma in an item two different combinations may read the same. *)
Example C79_example_comma :
  match view (z_hyper_tree (zu_from ["a"; "b"; "a, b"]%string) [["a"; "b"]; ["a, b"]]%string) with
  | Some page => entries page = ["a, b"; "a, b"]%string | None => False end.
Proof. vm_compute. reflexivity. Qed.

(** What the application itself shows: the twelve outfits it was built from. *)
Example C79_example_app :
  match view viz_create with
  | Some page =>
      entries page =
        ["black jeans, blue shirt, blue shoes"; "black jeans, blue shirt, flip flops";
         "black jeans, blue shoes, red shirt"; "black jeans, flip flops, red shirt";
         "blue jeans, blue shirt, blue shoes"; "blue jeans, blue shirt, flip flops";
         "blue jeans, blue shoes, red shirt"; "blue jeans, flip flops, red shirt";
         "blue shirt, blue shoes, purple jeans"; "blue shirt, flip flops, purple jeans";
         "blue shoes, purple jeans, red shirt"; "flip flops, purple jeans, red shirt"]%string /\
      length (branch_labels page) = (length (leaf_texts page) - 1)%nat
  | None => False end /\ ZReach (fun _ => True) (zu_from viz_items) viz_create.
Proof. split; [vm_compute; split; reflexivity|]. apply ZR_hyper. auto. Qed.
