(** RenameZdd: zdd trees under renamings that keep the order. *)
From Coq Require Import List Arith Lia Bool Permutation Sorted.
From Verif Require Import Base DD Spec Zdd2Model MatrixModel ZddModel RenameSpec RenameBase RenameZdd2.
Import ListNotations.

Section Zdd.
  Context {T U : Type} `{Ord T} `{Ord U} (r : T -> U) (M : mono r).
  Definition zu_map (u : zuniverse T) : zuniverse U := mkZU (map r (zu_items u)) (map (pmap r idn) (zu_index u)).
  Definition z_map (t : ztree T) : ztree U := mkZT (zt_root t) (zu_map (zt_univ t)).

  Lemma zu_from_r items : zu_from (map r items) = zu_map (zu_from items).
  Proof. unfold zu_from, zu_map. cbn [zu_items zu_index]. rewrite (enumerate_map_r r M). reflexivity. Qed.
  Lemma z_tree_r u c : z_tree (zu_map u) (map r c) = z_map (z_tree u c).
  Proof.
    unfold z_tree, z_map. cbn [zt_root zt_univ]. do 4 f_equal.
    cbn [zu_map zu_index]. rewrite (filter_map_r r idn (map_get (zu_index u))).
    - rewrite map_id. reflexivity.
    - intros x. apply (map_get_r r M idn).
  Qed.
  Lemma z_union_r t o : z_union (z_map t) (z_map o) = z_map (z_union t o).
  Proof. reflexivity. Qed.
  Lemma fold_union_r l : forall t, fold_left (fun root next => z_union root next) (map z_map l) (z_map t) =
    z_map (fold_left (fun root next => z_union root next) l t).
  Proof. apply fold_left_map_r. intros; apply z_union_r. Qed.
  Lemma z_unique_tree_r u l : z_unique_tree (zu_map u) (map r l) = z_map (z_unique_tree u l).
  Proof.
    unfold z_unique_tree. rewrite <- fold_union_r. f_equal. rewrite !map_map. apply map_ext. intros x.
    apply (z_tree_r u [x]).
  Qed.
  Lemma z_hyper_tree_r u l : z_hyper_tree (zu_map u) (map (map r) l) = z_map (z_hyper_tree u l).
  Proof.
    unfold z_hyper_tree. rewrite <- fold_union_r. f_equal. rewrite !map_map. apply map_ext. intros x. apply z_tree_r.
  Qed.
  Lemma z_get_item_r u p : z_get_item (zu_map u) p = option_map r (z_get_item u p).
  Proof. unfold z_get_item, zu_map. cbn [zu_items]. apply nth_error_map_. Qed.
  Lemma z_get_items_r u ps : z_get_items (zu_map u) ps = map r (z_get_items u ps).
  Proof.
    unfold z_get_items. rewrite <- (filter_repeats_r r M). f_equal.
    rewrite <- (map_id ps) at 1. apply filter_map_r. intros p. apply z_get_item_r.
  Qed.
  Lemma map_get_items_r u pss : map (z_get_items (zu_map u)) pss = map (map r) (map (z_get_items u) pss).
  Proof. rewrite map_map. apply map_ext. intros p. apply z_get_items_r. Qed.
  Let ML := mono_list r M.
  Lemma z_combinations_recursive_r t : z_combinations_recursive (z_map t) = map (map r) (z_combinations_recursive t).
  Proof. unfold z_combinations_recursive. cbn [z_map zt_root zt_univ]. rewrite map_get_items_r. apply (filter_repeats_r _ ML). Qed.
  Lemma z_combinations_r t : z_combinations (z_map t) = option_map (map (map r)) (z_combinations t).
  Proof.
    unfold z_combinations. cbn [z_map zt_root zt_univ]. destruct (zcombinations_iter (zt_root t)); [|reflexivity].
    cbn [bind option_map]. rewrite map_get_items_r. f_equal. apply (filter_repeats_r _ ML).
  Qed.
  Lemma z_set_inter_r a b : z_set_inter (map r a) (map r b) = map r (z_set_inter a b).
  Proof. unfold z_set_inter. apply filter_r. intros x. apply (memb_r r M). Qed.
  Lemma z_combinations_with_r t inc exc :
    z_combinations_with (z_map t) (map r inc) (map r exc) = option_map (map (map r)) (z_combinations_with t inc exc).
  Proof.
    unfold z_combinations_with. cbn [z_map zt_root zt_univ]. destruct (zcombinations_iter (zt_root t)) as [ps|]; [|reflexivity].
    cbn [bind option_map]. rewrite map_get_items_r, !(filter_repeats_r r M). f_equal.
    rewrite <- (filter_repeats_r _ ML). f_equal.
    rewrite (filter_r (map r) (fun set => eqb_ (filter_repeats (z_set_inter set (filter_repeats inc))) (filter_repeats inc))).
    - apply filter_r. intros x. rewrite z_set_inter_r. destruct (z_set_inter x (filter_repeats exc)); reflexivity.
    - intros x. rewrite z_set_inter_r, (filter_repeats_r r M). apply (eqb_r _ ML).
  Qed.
  Lemma z_restrict_r t inc exc : z_restrict (z_map t) (map r inc) (map r exc) = option_map z_map (z_restrict t inc exc).
  Proof.
    unfold z_restrict. rewrite z_combinations_with_r. destruct (z_combinations_with t inc exc); [|reflexivity].
    cbn [bind option_map]. f_equal. apply z_hyper_tree_r.
  Qed.
  Lemma zrun_r u p : zrun (zu_map u) (zrenamed r p) = option_map z_map (zrun u p).
  Proof.
    induction p as [| |c|items|cs|a IHa b IHb|a IHa b IHb|a IHa b IHb|a IHa inc exc]; cbn [zrun zrenamed].
    - reflexivity.
    - reflexivity.
    - rewrite z_tree_r. reflexivity.
    - rewrite z_unique_tree_r. reflexivity.
    - rewrite z_hyper_tree_r. reflexivity.
    - rewrite IHa, IHb. destruct (zrun u a); [|reflexivity]. destruct (zrun u b); reflexivity.
    - rewrite IHa, IHb. destruct (zrun u a); [|reflexivity]. destruct (zrun u b); reflexivity.
    - rewrite IHa, IHb. destruct (zrun u a); [|reflexivity]. destruct (zrun u b); reflexivity.
    - rewrite IHa. destruct (zrun u a) as [t|]; [|reflexivity]. cbn [bind option_map]. apply z_restrict_r.
  Qed.
  Lemma group_counts_r l : group_counts (map r l) = map (renamed_count r) (group_counts l).
  Proof.
    induction l as [|x l IH]; cbn [group_counts map]; [reflexivity|]. rewrite IH.
    destruct (group_counts l) as [|[y c] m]; [reflexivity|]. cbn [map renamed_count fst snd]. unfold renamed_count at 1. cbn [fst snd].
    rewrite (eqb_r r M). destruct (eqb_ x y); reflexivity.
  Qed.
  Lemma zstatus_leb_r s t : zstatus_leb (zstatus_renamed r s) (zstatus_renamed r t) = zstatus_leb s t.
  Proof.
    unfold zstatus_leb.
    assert (E : forall s, zstatus_code (zstatus_renamed r s) = pmap (fun x : nat => x) r (zstatus_code s)) by (intros []; reflexivity).
    rewrite !E. apply leb_r. apply mono_pair; [apply mono_id|exact M].
  Qed.
  Lemma z_summarize_r t inc exc :
    z_summarize ho_id (z_map t) (map r inc) (map r exc) = option_map (map (zstatus_renamed r)) (z_summarize ho_id t inc exc).
  Proof.
    unfold z_summarize. rewrite z_combinations_with_r. destruct (z_combinations_with t inc exc) as [cs|]; [|reflexivity].
    cbn [bind option_map ho_iter ho_id z_map zt_univ zu_map zu_items]. rewrite map_length, concat_map_map, (sort_r r M), group_counts_r, map_map.
    f_equal.
    set (L := map (fun x => (x, 0)) (zu_items (zt_univ t)) ++ group_counts (sort (concat cs))).
    assert (E : map (fun x => (r x, 0)) (zu_items (zt_univ t)) ++ map (renamed_count r) (group_counts (sort (concat cs))) =
      map (renamed_count r) L).
    { unfold L. rewrite map_app, map_map. reflexivity. }
    rewrite E.
    rewrite (fold_left_map_r (renamed_count r) (map (renamed_count r)) (fun m p => map_insert m (fst p) (snd p))
      (fun m p => map_insert m (fst p) (snd p))) with (m := []).
    2: { intros m [x k]. apply (map_insert_r r M idn). }
    rewrite <- (sort_by_map (zstatus_renamed r) _ _ zstatus_leb_r). f_equal.
    rewrite !map_map. apply map_ext. intros [x k]. cbn [renamed_count fst snd].
    destruct (k =? 0); [reflexivity|]. rewrite (memb_r r M). destruct (memb x inc); [reflexivity|].
    destruct (k =? length cs); reflexivity.
  Qed.
  Lemma z_from_node_r u n : z_from_node (zu_map u) n = option_map (dd_renamed r) (z_from_node u n).
  Proof.
    induction n as [b|i lo IHl hi IHh]; cbn [z_from_node]; [reflexivity|].
    rewrite z_get_item_r. destruct (z_get_item u i); [|reflexivity]. cbn [bind option_map].
    rewrite IHl. destruct (z_from_node u lo); [|reflexivity]. cbn [bind option_map].
    rewrite IHh. destruct (z_from_node u hi); reflexivity.
  Qed.
  Lemma z_traverse_r t : z_traverse (z_map t) = option_map (dd_renamed r) (z_traverse t).
  Proof. apply z_from_node_r. Qed.
End Zdd.
