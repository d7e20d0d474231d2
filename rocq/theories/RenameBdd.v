(** RenameBdd: bowtie closets under renamings that keep the order. *)
From Coq Require Import List Arith Lia Bool Permutation Sorted.
From Verif Require Import Base DD Spec BddSpec BddModel BddRun RenameSpec RenameBase.
Import ListNotations.

Section Node.
  Context {I J : Type} `{Ord I} `{Ord J} (r : I -> J) (M : mono r).
  Notation R := (dd_renamed r).
  Lemma dd_renamed_inj a : forall b, R a = R b -> a = b.
  Proof.
    induction a as [v|i lo IHl hi IHh]; intros [w|j lo' hi'] E; cbn in E; try discriminate; injection E; intros; subst; auto.
    f_equal; auto. apply (mono_inj r M). assumption.
  Qed.
  Lemma dd_eqb_renamed a b : dd_eqb (R a) (R b) = dd_eqb a b.
  Proof.
    destruct (dd_eqb_spec a b) as [E|E]; destruct (dd_eqb_spec (R a) (R b)) as [E'|E']; try reflexivity.
    - subst. congruence.
    - apply dd_renamed_inj in E'. congruence.
  Qed.
  Lemma collapse_r i a b : collapse (r i) (R a) (R b) = R (collapse i a b).
  Proof. unfold collapse. rewrite dd_eqb_renamed. destruct (dd_eqb a b); reflexivity. Qed.
  Lemma bitor_r a : forall b, bitor (R a) (R b) = R (bitor a b).
  Proof.
    induction a as [v|i lo IHl hi IHh].
    - induction b as [w|j lo' IHl' hi' IHh'].
      + destruct v, w; reflexivity.
      + destruct v; [|reflexivity]. cbn in *. rewrite IHl', IHh'. apply collapse_r.
    - induction b as [w|j lo' IHl' hi' IHh'].
      + destruct w; [|reflexivity]. cbn. rewrite (IHl (Leaf true) : bitor (R lo) (Leaf true) = _), (IHh (Leaf true) : bitor (R hi) (Leaf true) = _). apply collapse_r.
      + cbn. rewrite M. destruct (cmp i j).
        * rewrite IHl, IHh. apply collapse_r.
        * rewrite (IHl (Branch j lo' hi') : bitor (R lo) (Branch (r j) (R lo') (R hi')) = _),
            (IHh (Branch j lo' hi') : bitor (R hi) (Branch (r j) (R lo') (R hi')) = _). apply collapse_r.
        * cbn in IHl', IHh'. rewrite IHl', IHh'. apply collapse_r.
  Qed.
  Lemma bitand_r a : forall b, bitand (R a) (R b) = R (bitand a b).
  Proof.
    induction a as [v|i lo IHl hi IHh].
    - induction b as [w|j lo' IHl' hi' IHh'].
      + destruct v, w; reflexivity.
      + destruct v; [reflexivity|]. cbn in *. rewrite IHl', IHh'. apply collapse_r.
    - induction b as [w|j lo' IHl' hi' IHh'].
      + destruct w; [reflexivity|]. cbn. rewrite (IHl (Leaf false) : bitand (R lo) (Leaf false) = _), (IHh (Leaf false) : bitand (R hi) (Leaf false) = _). apply collapse_r.
      + cbn. rewrite M. destruct (cmp i j).
        * rewrite IHl, IHh. apply collapse_r.
        * rewrite (IHl (Branch j lo' hi') : bitand (R lo) (Branch (r j) (R lo') (R hi')) = _),
            (IHh (Branch j lo' hi') : bitand (R hi) (Branch (r j) (R lo') (R hi')) = _). apply collapse_r.
        * cbn in IHl', IHh'. rewrite IHl', IHh'. apply collapse_r.
  Qed.
  Lemma restrict_r n i v : restrict (R n) (r i) v = R (restrict n i v).
  Proof.
    induction n as [b|j lo IHl hi IHh]; cbn; [reflexivity|]. rewrite (eqb_r r M), IHl, IHh.
    destruct (eqb_ j i); [destruct (negb v); reflexivity|apply collapse_r].
  Qed.
  Lemma size_r n : size (R n) = size n.
  Proof. induction n; cbn; congruence. Qed.
  Lemma node_count_r n : node_count (R n) = node_count n.
  Proof. induction n; cbn; congruence. Qed.
  Lemma leaf_count_r n : leaf_count (R n) = leaf_count n.
  Proof. induction n; cbn; congruence. Qed.
  Lemma outfit_count_r n : outfit_count (R n) = outfit_count n.
  Proof. induction n; cbn; congruence. Qed.
  Lemma depth_r n : depth (R n) = depth n.
  Proof. induction n as [b|i lo IHl hi IHh]; cbn; [reflexivity|]. rewrite IHl, IHh. reflexivity. Qed.

  Notation S_ := (status_renamed r).
  Lemma mono_status : mono S_.
  Proof.
    intros x y. change (cmp (status_code (S_ x)) (status_code (S_ y)) = cmp (status_code x) (status_code y)).
    assert (E : forall s, status_code (S_ s) = pmap (fun x : nat => x) r (status_code s)) by (intros []; reflexivity).
    rewrite !E. apply mono_pair; [apply mono_id|exact M].
  Qed.
  Lemma peek_r l : peek (map S_ l) = option_map S_ (peek l).
  Proof.
    induction l as [|x l IH]; cbn [peek map]; [reflexivity|]. rewrite IH. destruct (peek l); cbn [option_map]; [|reflexivity].
    rewrite (leb_r _ mono_status). destruct (leb_ x s); reflexivity.
  Qed.
  Lemma summarize_loop_r k : forall q m,
    summarize_loop k (map R q) (map (pmap r (map S_)) m) = map (pmap r (map S_)) (summarize_loop k q m).
  Proof.
    induction k as [|k IH]; intros q m; [reflexivity|]. destruct q as [|n q]; [reflexivity|].
    destruct n as [b|i lo hi]; cbn [map dd_renamed summarize_loop].
    - apply IH.
    - rewrite <- IH. cbn [map]. f_equal. apply (map_update_r r M (map S_)).
      intros [l|]; cbn [option_map]; destruct hi as [[]|]; reflexivity.
  Qed.
  Lemma sort_filter_perm {A} (f : A -> option (status I)) l l' : Permutation l l' ->
    sort (filter_map f l) = sort (filter_map f l').
  Proof.
    intros P. apply (SS_unique_perm (fun a b => leb_ a b = true)).
    - intros a b. apply leb_antisym_.
    - apply sort_by_sorted; [apply leb_total_|apply leb_trans_].
    - apply sort_by_sorted; [apply leb_total_|apply leb_trans_].
    - unfold sort. rewrite !sort_by_perm. induction P; cbn.
      + reflexivity.
      + destruct (f x); [constructor|]; exact IHP.
      + destruct (f x), (f y); try reflexivity. apply perm_swap.
      + etransitivity; eassumption.
  Qed.
End Node.

Lemma summarize_hash {I} `{Ord I} h h' (n : dd I) : summarize h n = summarize h' n.
Proof. unfold summarize. apply sort_filter_perm. rewrite (ho_perm h), (ho_perm h'). reflexivity. Qed.

Section Summ.
  Context {I J : Type} `{Ord I} `{Ord J} (r : I -> J) (M : mono r).
  Lemma summarize_r h h' n : summarize h (dd_renamed r n) = map (status_renamed r) (summarize h' n).
  Proof.
    rewrite (summarize_hash h ho_id), (summarize_hash h' ho_id). unfold summarize. cbn [ho_iter ho_id].
    rewrite size_r.
    rewrite (summarize_loop_r r M (size n) [n] [] :
      summarize_loop (size n) [dd_renamed r n] [] = _).
    rewrite <- (sort_r _ (mono_status r M)). f_equal. rewrite map_map. cbn [pmap snd].
    rewrite <- (map_map snd (map (status_renamed r))).
    apply filter_map_r. intros l. apply (peek_r r M).
  Qed.
End Summ.

Section Closet.
  Context {I I' F F' : Type} `{Ord I} `{Ord I'} `{Ord F} `{Ord F'} (r : I -> I') (s : F -> F') (M : mono r) (N : mono s).
  Notation R := (dd_renamed r).
  Notation RC := (closet_renamed r s).

  Lemma get_family_r c i : get_family (RC c) (r i) = option_map s (get_family c i).
  Proof. unfold get_family, closet_renamed. cbn [c_index]. apply (map_get_r r M s). Qed.
  Lemma closet_new_r h h' index root :
    closet_new h (map (pmap r s) index) (R root) = RC (closet_new h' index root).
  Proof. unfold closet_new, closet_renamed. cbn [c_index c_summary c_root]. rewrite (summarize_r r M h h'). reflexivity. Qed.

  Lemma filter_status_r (p : status I -> bool) (p' : status I' -> bool) l :
    (forall x, p' (status_renamed r x) = p x) -> filter p' (map (status_renamed r) l) = map (status_renamed r) (filter p l).
  Proof. intros E. apply filter_r. exact E. Qed.
  Lemma find_r {A B} (f : A -> B) (p : A -> bool) (p' : B -> bool) l :
    (forall x, p' (f x) = p x) -> find p' (map f l) = option_map f (find p l).
  Proof. intros E. induction l as [|x l IH]; cbn; [reflexivity|]. rewrite E. destruct (p x); [reflexivity|exact IH]. Qed.

  Lemma select_item_r h h' c i :
    select_item h (RC c) (r i) = res_renamed RC (select_error_renamed r) (select_item h' c i).
  Proof.
    unfold select_item. rewrite get_family_r. destruct (get_family c i); [|reflexivity]. cbn [option_map].
    cbn [closet_renamed c_summary c_root c_index].
    rewrite (filter_status_r is_excluded is_excluded) by (intros []; reflexivity).
    rewrite (find_r (status_renamed r) (fun x => status_is x i)).
    2: { intros []; cbn; unfold status_is; cbn; apply (eqb_r r M). }
    destruct (find (fun x => status_is x i) (filter is_excluded (c_summary c))); [reflexivity|].
    cbn [option_map res_renamed]. unfold closet_renamed. cbn [c_summary c_root c_index]. rewrite (restrict_r r M).
    do 2 f_equal. rewrite <- (sort_r _ (mono_status r M)), <- (unique_r _ (mono_status r M)). do 2 f_equal.
    rewrite !map_app, (filter_status_r is_selected is_selected) by (intros []; reflexivity).
    rewrite (summarize_r r M h h'). reflexivity.
  Qed.

  Lemma map_push_r {K L V W} `{Ord K} `{Ord L} (f : K -> L) (MF : mono f) (g : V -> W) m k v :
    map_push (map (pmap f (map g)) m) (f k) (g v) = map (pmap f (map g)) (map_push m k v).
  Proof.
    unfold map_push. apply (map_update_r f MF (map g)). intros [l|]; cbn [option_map]; [|reflexivity].
    rewrite map_app. reflexivity.
  Qed.

  Lemma find_unknown_r c sels : find_unknown_items (RC c) (map r sels) = option_map (map r) (find_unknown_items c sels).
  Proof.
    unfold find_unknown_items.
    rewrite (filter_r r (fun i => match get_family c i with None => true | Some _ => false end)).
    2: { intros x. rewrite get_family_r. destruct (get_family c x); reflexivity. }
    destruct (filter _ sels); reflexivity.
  Qed.
  Lemma find_duplicate_r c sels :
    find_duplicate_items (RC c) (map r sels) = option_map (option_map (by_family r s)) (find_duplicate_items c sels).
  Proof.
    unfold find_duplicate_items.
    rewrite (mapM_r r (pmap s r) (fun i => let! f := get_family c i in Some (f, i))).
    2: { intros x. rewrite get_family_r. destruct (get_family c x); reflexivity. }
    destruct (mapM _ sels) as [fams|]; [|reflexivity]. cbn [bind option_map]. f_equal.
    rewrite (fold_left_map_r (pmap s r) (map (pmap s (map r))) (fun m p => map_push m (fst p) (snd p))
       (fun m p => map_push m (fst p) (snd p))) with (m := []).
    2: { intros m [f i]. apply (map_push_r s N r). }
    rewrite (filter_r (pmap s (map r)) (fun p => 1 <? length (snd p))).
    2: { intros [f l]. cbn [pmap snd]. rewrite map_length. reflexivity. }
    destruct (filter _ _); reflexivity.
  Qed.
  Lemma restrict_all_r root sels : restrict_all (R root) (map r sels) = R (restrict_all root sels).
  Proof. unfold restrict_all. apply fold_left_map_r. intros m x. apply (restrict_r r M). Qed.
  Lemma find_conflicting_r c sels :
    find_conflicting_items (RC c) (map r sels) = option_map (map r) (find_conflicting_items c sels).
  Proof.
    unfold find_conflicting_items. cbn [closet_renamed c_root]. rewrite restrict_all_r.
    destruct (restrict_all (c_root c) sels) as [[]|]; try reflexivity. cbn [dd_renamed option_map]. rewrite (sort_r r M). reflexivity.
  Qed.
  Lemma walk_r root : forall items, walk (R root) (map r items) = map r (walk root items).
  Proof.
    induction root as [b|i lo IHl hi IHh]; intros items; [reflexivity|]. cbn [dd_renamed walk].
    assert (E : map r items ++ [r i] = map r (items ++ [i])) by (rewrite map_app; reflexivity).
    rewrite E, IHl, IHh. destruct hi as [[]|]; reflexivity.
  Qed.
  Lemma complete_outfit_r c sels :
    complete_outfit (RC c) (map r sels) =
    option_map (res_renamed (map r) (outfit_error_renamed r s)) (complete_outfit c sels).
  Proof.
    unfold complete_outfit. rewrite find_unknown_r. destruct (find_unknown_items c sels); [reflexivity|]. cbn [option_map].
    rewrite find_duplicate_r. destruct (find_duplicate_items c sels) as [[m|]|]; try reflexivity. cbn [bind option_map].
    rewrite find_conflicting_r. destruct (find_conflicting_items c sels); [reflexivity|]. cbn [option_map res_renamed].
    cbn [closet_renamed c_root]. rewrite restrict_all_r, walk_r, (sort_r r M). reflexivity.
  Qed.
  Lemma categorize_r unknown c items :
    categorize (s unknown) (RC c) (map r items) = by_family r s (categorize unknown c items).
  Proof.
    unfold categorize, by_family.
    apply (fold_left_map_r r (map (pmap s (map r))) (fun m i => map_push m (match get_family c i with Some f => f | None => unknown end) i)
      ) with (m := []).
    intros m x. rewrite get_family_r.
    assert (E : match option_map s (get_family c x) with Some f => f | None => s unknown end =
      s (match get_family c x with Some f => f | None => unknown end)) by (destruct (get_family c x); reflexivity).
    rewrite E. apply (map_push_r s N r).
  Qed.

  (** ** the builder *)
  Definition b_map (b : builder I F) : builder I' F' :=
    mkB (map (pmap s (map r)) (b_contents b)) (map (pmap r s) (b_index b))
        (map (pmap r (map r)) (b_excl b)) (map (pmap r (map r)) (b_incl b)).
  Lemma add_item_r b f i : add_item (b_map b) (s f) (r i) = b_map (add_item b f i).
  Proof.
    unfold add_item, b_map. cbn [b_contents b_index b_excl b_incl]. f_equal.
    - apply (map_push_r s N r).
    - apply (map_update_r r M s). intros [g|]; reflexivity.
  Qed.
  Lemma add_items_r b f l : add_items (b_map b) (s f) (map r l) = b_map (add_items b f l).
  Proof. unfold add_items. apply fold_left_map_r. intros m x. apply add_item_r. Qed.
  Lemma add_excl_r b a x : add_exclusion_rule (b_map b) (r a) (r x) = b_map (add_exclusion_rule b a x).
  Proof. unfold add_exclusion_rule, b_map. cbn [b_contents b_index b_excl b_incl]. f_equal. apply (map_push_r r M r). Qed.
  Lemma add_incl_r b a x : add_inclusion_rule (b_map b) (r a) (r x) = b_map (add_inclusion_rule b a x).
  Proof. unfold add_inclusion_rule, b_map. cbn [b_contents b_index b_excl b_incl]. f_equal. apply (map_push_r r M r). Qed.
  Lemma b_call_r b c : b_call (b_map b) (call_renamed r s c) = b_map (b_call b c).
  Proof.
    destruct c; cbn [call_renamed b_call].
    - apply add_item_r.
    - apply add_items_r.
    - apply add_excl_r.
    - unfold add_exclusion_rules. apply fold_left_map_r. intros m y. apply add_excl_r.
    - apply add_incl_r.
    - unfold add_inclusion_rules. apply fold_left_map_r. intros m y. apply add_incl_r.
  Qed.
  Lemma run_calls_r calls : run_calls (map (call_renamed r s) calls) = b_map (run_calls calls).
  Proof. unfold run_calls. apply (fold_left_map_r (call_renamed r s) b_map) with (m := b_new). apply b_call_r. Qed.

  Notation RV := (violation_renamed r s).
  Lemma mono_violation : mono RV.
  Proof.
    intros x y. change (cmp (violation_code (RV x)) (violation_code (RV y)) = cmp (violation_code x) (violation_code y)).
    assert (E : forall v, violation_code (RV v) = pmap (fun x : nat => x) (pmap (map r) (map s)) (violation_code v)) by (intros []; reflexivity).
    rewrite !E. apply mono_pair; [apply mono_id|]. apply mono_pair; apply mono_list; assumption.
  Qed.
  Lemma find_families_r contents index :
    find_conflicting_families (map (pmap s (map r)) contents) (map (pmap r s) index) =
    map RV (find_conflicting_families contents index).
  Proof.
    unfold find_conflicting_families. apply flat_map_r. intros [f l]. cbn [pmap fst snd].
    apply filter_map_r. intros x. rewrite (map_get_r r M s). destruct (map_get index x) as [g|]; [|reflexivity]. cbn [option_map].
    rewrite (eqb_r s N). destruct (negb (eqb_ g f)); reflexivity.
  Qed.
  Lemma find_illegal_r rules index e e' : (forall f l, e' (s f) (map r l) = RV (e f l)) ->
    find_illegal_rules (map (pmap r (map r)) rules) (map (pmap r s) index) e' = map RV (find_illegal_rules rules index e).
  Proof.
    intros E. unfold find_illegal_rules. apply flat_map_r. intros [a l]. cbn [pmap fst snd].
    rewrite (map_get_r r M s). destruct (map_get index a) as [g|]; [|reflexivity]. cbn [option_map].
    apply filter_map_r. intros x. rewrite (map_get_r r M s). destruct (map_get index x) as [k|]; [|reflexivity]. cbn [option_map].
    rewrite (eqb_r s N). destruct (eqb_ g k); [|reflexivity]. cbn [option_map]. f_equal. rewrite <- E. f_equal.
    apply (sort_r r M [a; x]).
  Qed.
  Lemma conflicts_r b : conflicts_of (b_map b) = map RV (conflicts_of b).
  Proof.
    unfold conflicts_of. cbn [b_map b_contents b_index b_excl b_incl].
    rewrite find_families_r, (find_illegal_r _ _ ExclusionError), (find_illegal_r _ _ InclusionError) by reflexivity.
    rewrite <- !map_app. apply (unique_r _ mono_violation).
  Qed.
  Lemma sibling_r l : sibling_relationship (map r l) = R (sibling_relationship l).
  Proof.
    unfold sibling_relationship.
    rewrite (fold_left_map_r r (map (pmap r R)) (fun m i => map_insert m i (negative_branch i))) with (m := []).
    2: { intros m x. apply (map_insert_r r M R m x (negative_branch x)). }
    rewrite map_map.
    match goal with |- fold_left bitor (map ?g l) _ = R (fold_left bitor (map ?h l) _) =>
      assert (E : map g l = map R (map h l)) end.
    { rewrite map_map. apply map_ext. intros x.
      change (positive_branch (r x)) with (R (positive_branch x)). rewrite (map_insert_r r M R).
      apply (fold_left_map_r (pmap r R) R (fun a p => bitand a (snd p))) with (m := Leaf true).
      intros m p. apply (bitand_r r M). }
    rewrite E. apply (fold_left_map_r R R bitor bitor) with (m := Leaf false). intros m x. apply (bitor_r r M).
  Qed.
  Lemma rule_pairs_r rules : rule_pairs (map (pmap r (map r)) rules) = map (pmap r r) (rule_pairs rules).
  Proof. unfold rule_pairs. apply flat_map_r. intros [a l]. cbn [pmap fst snd]. rewrite !map_map. reflexivity. Qed.
  Lemma build_root_r b : build_root (b_map b) = R (build_root b).
  Proof.
    unfold build_root. cbn [b_map b_contents b_excl b_incl]. rewrite !rule_pairs_r.
    rewrite (fold_left_map_r (pmap s (map r)) R (fun a p => bitand a (sibling_relationship (snd p)))) with (m := Leaf true).
    2: { intros m [f l]. cbn [pmap snd]. rewrite sibling_r. apply (bitand_r r M). }
    rewrite (fold_left_map_r (pmap r r) R (fun a p => bitand a (exclusion_relationship (fst p) (snd p)))).
    2: { intros m [x y]. cbn [pmap fst snd]. rewrite <- (bitand_r r M). f_equal.
         apply (bitor_r r M (negative_branch x) (negative_branch y)). }
    apply (fold_left_map_r (pmap r r) R (fun a p => bitand a (inclusion_relationship (fst p) (snd p)))).
    intros m [x y]. cbn [pmap fst snd]. rewrite <- (bitand_r r M). f_equal.
    apply (bitor_r r M (negative_branch x) (positive_branch y)).
  Qed.
  Lemma build_r h h' calls :
    build h (run_calls (map (call_renamed r s) calls)) =
    res_renamed RC (build_error_renamed r s) (build h' (run_calls calls)).
  Proof.
    rewrite run_calls_r. unfold build, validate_closet. rewrite conflicts_r.
    destruct (conflicts_of (run_calls calls)) as [|v [|v' l]]; try reflexivity.
    cbn [map]. cbn [res_renamed]. rewrite build_root_r, <- (closet_new_r h h'). reflexivity.
  Qed.
  Lemma reached_r calls sels c : reached calls sels c -> reached (map (call_renamed r s) calls) (map r sels) (RC c).
  Proof.
    induction 1 as [h c E|sels c h i c' R1 IH E].
    - apply (reached_build _ h). rewrite (build_r h h), E. reflexivity.
    - rewrite map_app. apply (reached_select _ _ (RC c) h). { exact IH. }
      cbn [map]. rewrite (select_item_r h h), E. reflexivity.
  Qed.
End Closet.

Section Det.
  Context {I F : Type} `{Ord I} `{Ord F}.
  Lemma build_hash h h' (b : builder I F) : build h b = build h' b.
  Proof. unfold build, closet_new. rewrite (summarize_hash h h'). reflexivity. Qed.
  Lemma select_hash h h' (c : closet I F) i : select_item h c i = select_item h' c i.
  Proof. unfold select_item. rewrite (summarize_hash h h'). reflexivity. Qed.
  Lemma reached_det calls sels (c d : closet I F) : reached calls sels c -> reached calls sels d -> c = d.
  Proof.
    intros R1. revert d. induction R1 as [h c E|sels c h i c' R1 IH E]; intros d R2.
    - inversion R2 as [h' ? E'|]; [|destruct sels; discriminate]. subst.
      rewrite (build_hash h' h), E in E'. congruence.
    - inversion R2 as [h' ? E' Q|sels' c0 h' i' ? R2' E' Q]; [destruct sels; discriminate|].
      apply app_inj_tail in Q. destruct Q as [-> ->]. subst.
      rewrite (IH _ R2'), (select_hash h h') in E. congruence.
  Qed.
End Det.
