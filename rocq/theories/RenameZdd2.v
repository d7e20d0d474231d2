(** RenameZdd2: zdd2 forests and matrix forests under renamings that keep the order. *)
From Coq Require Import List Arith Lia Bool Permutation Sorted.
From Verif Require Import Base DD Spec Zdd2Model MatrixModel RenameSpec RenameBase.
From Verif Require Import Zdd2Forest Zdd2Forest2 Zdd2Forest3 Zdd2Laws Zdd2Thm MatrixProofs MatrixThm AgreeSpec AgreeThm.
Import ListNotations.

Section Zdd2.
  Context {T U : Type} `{Ord T} `{Ord U} (r : T -> U) (M : mono r).

  Definition u_map (u : universe T) : universe U :=
    mkU (map (pmap r idn) (u_occ u)) (map (pmap r idn) (u_prio u)) (map r (u_index u)).
  Definition f_map (f : forest T) : forest U := mkF (f_root f) (u_map (f_univ f)).

  Lemma occ_leb_r p q : occ_leb (pmap r idn p) (pmap r idn q) = occ_leb p q.
  Proof. unfold occ_leb, pmap, idn. cbn [fst snd]. rewrite (leb_r r M). reflexivity. Qed.
  Lemma enumerate_map_r l : enumerate_map (map r l) = map (pmap r idn) (enumerate_map l).
  Proof.
    unfold enumerate_map. rewrite map_length, combine_map_l.
    apply (fold_left_map_r (pmap r idn) (map (pmap r idn)) (fun m p => map_insert m (fst p) (snd p))
             (fun m p => map_insert m (fst p) (snd p)) ) with (m := []).
    intros m [x k]. cbn [fst snd pmap]. apply (map_insert_r r M idn).
  Qed.
  Lemma from_occurrences_r site occ :
    from_occurrences ho_id site (map (pmap r idn) occ) = u_map (from_occurrences ho_id site occ).
  Proof.
    unfold from_occurrences, u_map. cbn [u_occ u_prio u_index ho_iter ho_id].
    rewrite (sort_by_map (pmap r idn) occ_leb occ_leb occ_leb_r).
    assert (E : map fst (map (pmap r idn) (sort_by occ_leb occ)) = map r (map fst (sort_by occ_leb occ))).
    { rewrite !map_map. reflexivity. }
    rewrite E, enumerate_map_r. reflexivity.
  Qed.
  Lemma incr_r k (o : option nat) : incr k (option_map idn o) = idn (incr k o).
  Proof. destruct o; reflexivity. Qed.
  Lemma from_items_r site items : from_items ho_id site (map r items) = u_map (from_items ho_id site items).
  Proof.
    unfold from_items. rewrite <- from_occurrences_r. f_equal.
    apply (fold_left_map_r r (map (pmap r idn)) (fun m x => map_insert m x 1) (fun m x => map_insert m x 1)) with (m := []).
    intros m x. apply (map_insert_r r M idn).
  Qed.
  Lemma from_matrix_r site m : from_matrix ho_id site (map (map r) m) = u_map (from_matrix ho_id site m).
  Proof.
    unfold from_matrix. rewrite <- from_occurrences_r. f_equal.
    assert (E : map filter_repeats (map (map r) m) = map (map r) (map filter_repeats m)).
    { rewrite !map_map. apply map_ext. intros a. apply (filter_repeats_r r M). }
    rewrite E, (unique_r (map r) (mono_list r M)), concat_map_map.
    apply (fold_left_map_r r (map (pmap r idn)) (fun m x => map_update m x (incr 1)) (fun m x => map_update m x (incr 1)))
      with (m := []).
    intros a x. apply (map_update_r r M idn). intros o. apply incr_r.
  Qed.
  Lemma mono_occ : mono (pmap r (@idn nat)).
  Proof. apply mono_pair; [exact M|]. intros x y. reflexivity. Qed.
  Lemma u_eqb_r u v : u_eqb (u_map u) (u_map v) = u_eqb u v.
  Proof.
    unfold u_eqb, u_map. cbn [u_occ u_prio u_index].
    rewrite !(eqb_r _ (mono_list _ mono_occ)), (eqb_r _ (mono_list _ M)). reflexivity.
  Qed.
  Lemma u_merge_r site u v : u_merge ho_id site (u_map u) (u_map v) = u_map (u_merge ho_id site u v).
  Proof.
    unfold u_merge. rewrite u_eqb_r. destruct (u_eqb u v); [reflexivity|].
    rewrite <- from_occurrences_r. f_equal. cbn [ho_iter ho_id u_map u_occ].
    apply (fold_left_map_r (pmap r idn) (map (pmap r idn)) (fun m p => map_update m (fst p) (incr (snd p)))
      (fun m p => map_update m (fst p) (incr (snd p)))).
    intros m [x k]. cbn [fst snd pmap]. apply (map_update_r r M idn). intros o. apply incr_r.
  Qed.
  Lemma get_priority_r u x : get_priority (u_map u) (r x) = get_priority u x.
  Proof. unfold get_priority, u_map. cbn [u_prio]. rewrite (map_get_r r M idn). apply option_map_id. Qed.
  Lemma get_priorities_r u xs : get_priorities (u_map u) (map r xs) = get_priorities u xs.
  Proof.
    unfold get_priorities. rewrite (filter_map_r r idn (get_priority u)).
    - apply map_id.
    - intros x. rewrite get_priority_r. symmetry. apply option_map_id.
  Qed.
  Lemma get_item_r u p : get_item (u_map u) p = option_map r (get_item u p).
  Proof. unfold get_item, u_map. cbn [u_index]. apply nth_error_map_. Qed.
  Lemma get_items_r u ps : get_items (u_map u) ps = map r (get_items u ps).
  Proof.
    unfold get_items. rewrite <- (sort_r r M). f_equal.
    rewrite <- (map_id ps) at 1. apply filter_map_r. intros p. apply get_item_r.
  Qed.
  Lemma get_priorities_node_r u xs : get_priorities_node (u_map u) (map r xs) = get_priorities_node u xs.
  Proof. unfold get_priorities_node. rewrite map_length, get_priorities_r. reflexivity. Qed.

  Lemma f_empty_r : f_empty = f_map f_empty.
  Proof. reflexivity. Qed.
  Lemma f_unit_r items : f_unit ho_id (map r items) = option_map f_map (f_unit ho_id items).
  Proof.
    unfold f_unit. rewrite from_items_r, get_priorities_node_r.
    destruct (get_priorities_node (from_items ho_id site_new items) items); reflexivity.
  Qed.
  Lemma f_many_r m : f_many ho_id (map (map r) m) = option_map f_map (f_many ho_id m).
  Proof.
    unfold f_many. rewrite from_matrix_r.
    rewrite (foldM_r (map r) idn
      (fun acc items => let! n := get_priorities_node (from_matrix ho_id site_new m) items in union acc n)
      (fun acc items => let! n := get_priorities_node (u_map (from_matrix ho_id site_new m)) items in union acc n)
      ) with (m := Never).
    - rewrite option_map_id.
      match goal with |- context [foldM ?f m ?b] => destruct (foldM f m b) end; reflexivity.
    - intros a x. rewrite get_priorities_node_r. symmetry. apply option_map_id.
  Qed.
  Lemma f_unique_r s : f_unique ho_id (map r s) = option_map f_map (f_unique ho_id s).
  Proof.
    unfold f_unique. rewrite from_items_r, get_priorities_r.
    match goal with |- context [foldM ?f ?m ?b] => destruct (foldM f m b) end; reflexivity.
  Qed.
  Lemma f_canonical_r root u : f_canonical ho_id root (u_map u) = option_map f_map (f_canonical ho_id root u).
  Proof.
    unfold f_canonical. destruct (node_trees root) as [ts|]; cbn [bind option_map]; [|reflexivity].
    rewrite <- f_many_r. f_equal. rewrite map_map. apply map_ext. intros p. apply get_items_r.
  Qed.
  Lemma translate_root_r u v t : translate_root (u_map u) (u_map v) t = translate_root u v t.
  Proof.
    induction t as [b|i lo IHl hi IHh]; cbn [translate_root]; [reflexivity|].
    rewrite IHl, IHh. destruct (translate_root u v lo); [|reflexivity]. destruct (translate_root u v hi); [|reflexivity].
    cbn [bind]. rewrite get_item_r. destruct (get_item u i); [|reflexivity]. cbn [bind option_map].
    rewrite get_priority_r. reflexivity.
  Qed.
  Lemma f_binop_r op f g : f_binop op ho_id (f_map f) (f_map g) = option_map f_map (f_binop op ho_id f g).
  Proof.
    unfold f_binop, translate_roots. cbn [f_map f_univ f_root]. rewrite u_merge_r, !translate_root_r.
    destruct (translate_root (f_univ f) _ (f_root f)) as [n|]; [|reflexivity]. cbn [bind].
    destruct (translate_root (f_univ g) _ (f_root g)) as [n0|]; [|reflexivity]. cbn [bind].
    destruct (op n n0); [|reflexivity]. cbn [bind]. apply f_canonical_r.
  Qed.
  Lemma f_subset_r f e : f_subset ho_id (f_map f) (r e) = option_map f_map (f_subset ho_id f e).
  Proof.
    unfold f_subset. cbn [f_map f_univ f_root]. rewrite get_priority_r.
    destruct (get_priority (f_univ f) e); [|reflexivity].
    destruct (node_subset (f_root f) n); [|reflexivity]. apply f_canonical_r.
  Qed.
  Lemma f_subset_not_r f e : f_subset_not ho_id (f_map f) (r e) = option_map f_map (f_subset_not ho_id f e).
  Proof.
    unfold f_subset_not. cbn [f_map f_univ f_root]. rewrite get_priority_r.
    destruct (get_priority (f_univ f) e); [|reflexivity].
    destruct (node_subset_not (f_root f) n); [|reflexivity]. apply f_canonical_r.
  Qed.
  Lemma f_subset_many_r f es d d' k : (forall x, d' (f_map x) = f_map (d x)) ->
    f_subset_many ho_id (f_map f) (map r es) d' k = option_map f_map (f_subset_many ho_id f es d k).
  Proof.
    intros D. unfold f_subset_many. destruct es as [|e es]; [reflexivity|].
    change (map r (e :: es)) with (r e :: map r es) at 1. cbn iota.
    cbn [f_map f_univ f_root]. rewrite get_priorities_r, map_length.
    destruct (negb _); [cbn [option_map]; rewrite <- D; reflexivity|].
    destruct (k (f_root f) _); [|reflexivity]. apply f_canonical_r.
  Qed.
  Lemma f_subset_all_r f es : f_subset_all ho_id (f_map f) (map r es) = option_map f_map (f_subset_all ho_id f es).
  Proof. unfold f_subset_all. apply f_subset_many_r. reflexivity. Qed.
  Lemma f_subset_none_r f es : f_subset_none ho_id (f_map f) (map r es) = option_map f_map (f_subset_none ho_id f es).
  Proof. unfold f_subset_none. apply f_subset_many_r. reflexivity. Qed.

  Lemma f_trees_r f : f_trees (f_map f) = option_map (map (map r)) (f_trees f).
  Proof.
    unfold f_trees. cbn [f_map f_root f_univ]. destruct (node_trees (f_root f)) as [ts|]; [|reflexivity].
    cbn. f_equal. rewrite map_map. apply map_ext. intros p. apply get_items_r.
  Qed.
  Lemma f_occurrences_r f : f_occurrences ho_id (f_map f) = map (renamed_count r) (f_occurrences ho_id f).
  Proof.
    unfold f_occurrences. cbn [ho_iter ho_id f_map f_univ u_map u_occ].
    apply (sort_by_map (pmap r idn)). intros p q. apply (leb_r r M).
  Qed.

  Lemma runz_id p (f : forest T) : runz p f ->
    match p with
    | EEmpty => f = f_empty
    | EUnit s => f_unit ho_id s = Some f
    | EMany m => f_many ho_id m = Some f
    | EUnique s => f_unique ho_id s = Some f
    | EUnion a b => exists x y, runz a x /\ runz b y /\ f_union ho_id x y = Some f
    | EIntersect a b => exists x y, runz a x /\ runz b y /\ f_intersect ho_id x y = Some f
    | EProduct a b => exists x y, runz a x /\ runz b y /\ f_product ho_id x y = Some f
    | ESubset a e => exists x, runz a x /\ f_subset ho_id x e = Some f
    | ESubsetNot a e => exists x, runz a x /\ f_subset_not ho_id x e = Some f
    | ESubsetAll a es => exists x, runz a x /\ f_subset_all ho_id x es = Some f
    | ESubsetNone a es => exists x, runz a x /\ f_subset_none ho_id x es = Some f
    end.
  Proof.
    assert (C : forall a (x : forest T), runz a x -> Canon x).
    { intros a x R. apply Reach_Canon. exact (runz_reach _ _ R). }
    intros R; destruct R as [|h s f E|h m f E|h s f E|h a b f g k Ra Rb E|h a b f g k Ra Rb E|h a b f g k Ra Rb E
      |h a f e k Ra E|h a f e k Ra E|h a f es k Ra E|h a f es k Ra E].
    - reflexivity.
    - rewrite <- E, !unit_many. apply many_hash.
    - rewrite <- E. apply many_hash.
    - rewrite <- E, !unique_many. apply many_hash.
    - exists f, g. repeat split; auto. rewrite <- E. apply binop_hash; eapply C; eassumption.
    - exists f, g. repeat split; auto. rewrite <- E. apply binop_hash; eapply C; eassumption.
    - exists f, g. repeat split; auto. rewrite <- E. apply binop_hash; eapply C; eassumption.
    - exists f. split; auto. rewrite <- E. apply subset_hash.
    - exists f. split; auto. rewrite <- E. apply subset_not_hash.
    - exists f. split; auto. rewrite <- E. apply subset_many_hash.
    - exists f. split; auto. rewrite <- E. apply subset_many_hash.
  Qed.
End Zdd2.

Lemma runz_det {T : Type} `{Ord T} p : forall f g : forest T, runz p f -> runz p g -> f = g.
Proof.
  induction p as [|s|m|s|a IHa b IHb|a IHa b IHb|a IHa b IHb|a IHa e|a IHa e|a IHa es|a IHa es];
    intros f g F G; apply runz_id in F; apply runz_id in G; try congruence.
  - destruct F as (x & y & A & B & E). destruct G as (x' & y' & A' & B' & E').
    rewrite (IHa _ _ A A'), (IHb _ _ B B') in E. congruence.
  - destruct F as (x & y & A & B & E). destruct G as (x' & y' & A' & B' & E').
    rewrite (IHa _ _ A A'), (IHb _ _ B B') in E. congruence.
  - destruct F as (x & y & A & B & E). destruct G as (x' & y' & A' & B' & E').
    rewrite (IHa _ _ A A'), (IHb _ _ B B') in E. congruence.
  - destruct F as (x & A & E). destruct G as (x' & A' & E'). rewrite (IHa _ _ A A') in E. congruence.
  - destruct F as (x & A & E). destruct G as (x' & A' & E'). rewrite (IHa _ _ A A') in E. congruence.
  - destruct F as (x & A & E). destruct G as (x' & A' & E'). rewrite (IHa _ _ A A') in E. congruence.
  - destruct F as (x & A & E). destruct G as (x' & A' & E'). rewrite (IHa _ _ A A') in E. congruence.
Qed.

Section Zdd2Runs.
  Context {T U : Type} `{Ord T} `{Ord U} (r : T -> U) (M : mono r).
  Lemma runz_r p : forall f, runz p f -> runz (renamed r p) (f_map r f).
  Proof.
    induction p as [|s|m|s|a IHa b IHb|a IHa b IHb|a IHa b IHb|a IHa e|a IHa e|a IHa es|a IHa es];
      intros f F; apply runz_id in F; cbn [renamed].
    - subst f. apply Z_empty.
    - apply (Z_unit ho_id). rewrite (f_unit_r r M), F. reflexivity.
    - apply (Z_many ho_id). rewrite (f_many_r r M), F. reflexivity.
    - apply (Z_unique ho_id). rewrite (f_unique_r r M), F. reflexivity.
    - destruct F as (x & y & A & B & E). eapply (Z_union ho_id); [exact (IHa _ A)|exact (IHb _ B)|].
      unfold f_union in *. rewrite (f_binop_r r M), E. reflexivity.
    - destruct F as (x & y & A & B & E). eapply (Z_intersect ho_id); [exact (IHa _ A)|exact (IHb _ B)|].
      unfold f_intersect in *. rewrite (f_binop_r r M), E. reflexivity.
    - destruct F as (x & y & A & B & E). eapply (Z_product ho_id); [exact (IHa _ A)|exact (IHb _ B)|].
      unfold f_product in *. rewrite (f_binop_r r M), E. reflexivity.
    - destruct F as (x & A & E). eapply (Z_subset ho_id); [exact (IHa _ A)|]. rewrite (f_subset_r r M), E. reflexivity.
    - destruct F as (x & A & E). eapply (Z_subset_not ho_id); [exact (IHa _ A)|]. rewrite (f_subset_not_r r M), E. reflexivity.
    - destruct F as (x & A & E). eapply (Z_subset_all ho_id); [exact (IHa _ A)|]. rewrite (f_subset_all_r r M), E. reflexivity.
    - destruct F as (x & A & E). eapply (Z_subset_none ho_id); [exact (IHa _ A)|]. rewrite (f_subset_none_r r M), E. reflexivity.
  Qed.
End Zdd2Runs.

(** ** matrix forests *)
Section Matrix.
  Context {T U : Type} `{Ord T} `{Ord U} (r : T -> U) (M : mono r).
  Definition m_map (f : mforest T) : mforest U :=
    match f with MEmpty => MEmpty | MUnit s => MUnit (map r s) | MMany m => MMany (map (map r) m) end.
  Let ML := mono_list r M.
  Let MLL := mono_list (map r) ML.

  Lemma m_eqb_r f g : m_eqb (m_map f) (m_map g) = m_eqb f g.
  Proof. destruct f, g; cbn [m_eqb m_map]; auto; apply eqb_r; assumption. Qed.
  Lemma m_unit_r s : m_unit (map r s) = m_map (m_unit s).
  Proof. unfold m_unit. cbn [m_map]. rewrite (filter_repeats_r r M). reflexivity. Qed.
  Lemma m_many_r m : m_many (map (map r) m) = m_map (m_many m).
  Proof.
    destruct m as [|s [|s' m]]; [reflexivity|apply m_unit_r|].
    change (MMany (hset (unique (map filter_repeats (map (map r) (s :: s' :: m))))) =
            m_map (MMany (hset (unique (map filter_repeats (s :: s' :: m)))))).
    cbn [m_map]. f_equal. generalize (s :: s' :: m). intros l.
    assert (E : map filter_repeats (map (map r) l) = map (map r) (map filter_repeats l)).
    { rewrite !map_map. apply map_ext. intros a. apply (filter_repeats_r r M). }
    rewrite E, (unique_r _ ML). unfold hset. apply (filter_repeats_r _ ML).
  Qed.
  Lemma m_unique_r s : m_unique (map r s) = m_map (m_unique s).
  Proof. unfold m_unique. rewrite <- m_many_r. f_equal. rewrite !map_map. reflexivity. Qed.
  Lemma set_subset_r a b : set_subset (map (map r) a) (map (map r) b) = set_subset a b.
  Proof. unfold set_subset. apply forallb_r. intros x. apply (memb_r _ ML). Qed.
  Lemma set_union_r a b : set_union (map (map r) a) (map (map r) b) = map (map r) (set_union a b).
  Proof.
    unfold set_union. rewrite map_app. f_equal. apply filter_r. intros x. rewrite (memb_r _ ML). reflexivity.
  Qed.
  Lemma set_inter_r a b : set_inter (map (map r) a) (map (map r) b) = map (map r) (set_inter a b).
  Proof. unfold set_inter. apply filter_r. intros x. apply (memb_r _ ML). Qed.
  Lemma m_union_r f g : m_union ho_id (m_map f) (m_map g) = m_map (m_union ho_id f g).
  Proof.
    unfold m_union. rewrite m_eqb_r. destruct (m_eqb f g); [reflexivity|].
    destruct f, g; try reflexivity; cbn [m_map ho_iter ho_id].
    - apply (m_many_r [set; set0]).
    - rewrite <- m_many_r, map_app. reflexivity.
    - rewrite <- m_many_r, map_app. reflexivity.
    - rewrite !set_subset_r. destruct (set_subset matrix matrix0); [reflexivity|].
      destruct (set_subset matrix0 matrix); [reflexivity|]. rewrite set_union_r. apply m_many_r.
  Qed.
  Lemma m_intersect_r f g : m_intersect ho_id (m_map f) (m_map g) = m_map (m_intersect ho_id f g).
  Proof.
    unfold m_intersect. rewrite m_eqb_r. destruct (m_eqb f g); [reflexivity|].
    destruct f, g; try reflexivity; cbn [m_map ho_iter ho_id].
    - rewrite (memb_r _ ML). destruct (memb set matrix); reflexivity.
    - rewrite (memb_r _ ML). destruct (memb set matrix); reflexivity.
    - rewrite set_inter_r. apply m_many_r.
  Qed.
  Lemma m_product_r f g : m_product ho_id (m_map f) (m_map g) = m_map (m_product ho_id f g).
  Proof.
    destruct f, g; try reflexivity; cbn [m_map ho_iter ho_id m_product].
    - rewrite <- map_app. apply m_unit_r.
    - unfold many_to_matrix. cbn [ho_iter ho_id]. rewrite <- m_many_r, !map_map. f_equal. apply map_ext.
      intros a. rewrite map_app. reflexivity.
    - unfold many_to_matrix. cbn [ho_iter ho_id]. rewrite <- m_many_r, !map_map. f_equal. apply map_ext.
      intros a. rewrite map_app. reflexivity.
    - rewrite <- m_many_r. f_equal. apply flat_map_r. intros x. rewrite !map_map. apply map_ext. intros a.
      symmetry. apply map_app.
  Qed.
  Lemma memb_all_r es s : forallb (fun e => memb e (map r s)) (map r es) = forallb (fun e => memb e s) es.
  Proof. apply forallb_r. intros x. apply (memb_r r M). Qed.
  Lemma memb_none_r es s : forallb (fun e => negb (memb e (map r s))) (map r es) = forallb (fun e => negb (memb e s)) es.
  Proof. apply forallb_r. intros x. rewrite (memb_r r M). reflexivity. Qed.
  Lemma m_subset_r f e : m_subset ho_id (m_map f) (r e) = m_map (m_subset ho_id f e).
  Proof.
    destruct f; cbn [m_map m_subset ho_iter ho_id]; [reflexivity| |].
    - rewrite (memb_r r M). destruct (memb e set); reflexivity.
    - rewrite <- m_many_r. f_equal. apply filter_r. intros x. apply (memb_r r M).
  Qed.
  Lemma m_subset_not_r f e : m_subset_not ho_id (m_map f) (r e) = m_map (m_subset_not ho_id f e).
  Proof.
    destruct f; cbn [m_map m_subset_not ho_iter ho_id]; [reflexivity| |].
    - rewrite (memb_r r M). destruct (memb e set); reflexivity.
    - rewrite <- m_many_r. f_equal. apply filter_r. intros x. rewrite (memb_r r M). reflexivity.
  Qed.
  Lemma m_subset_all_r f es : m_subset_all ho_id (m_map f) (map r es) = m_map (m_subset_all ho_id f es).
  Proof.
    destruct es as [|e es]; [reflexivity|]. unfold m_subset_all. cbn [map]. change (r e :: map r es) with (map r (e :: es)).
    destruct f; cbn [m_map ho_iter ho_id]; [reflexivity| |].
    - rewrite memb_all_r. destruct (forallb _ _); reflexivity.
    - rewrite <- m_many_r. f_equal. apply filter_r. intros x. apply memb_all_r.
  Qed.
  Lemma m_subset_none_r f es : m_subset_none ho_id (m_map f) (map r es) = m_map (m_subset_none ho_id f es).
  Proof.
    destruct es as [|e es]; [reflexivity|]. unfold m_subset_none. cbn [map]. change (r e :: map r es) with (map r (e :: es)).
    destruct f; cbn [m_map ho_iter ho_id]; [reflexivity| |].
    - rewrite memb_none_r. destruct (forallb _ _); reflexivity.
    - rewrite <- m_many_r. f_equal. apply filter_r. intros x. apply memb_none_r.
  Qed.
  Lemma m_trees_r f : m_trees ho_id (m_map f) = map (map r) (m_trees ho_id f).
  Proof. destruct f; reflexivity. Qed.
  Lemma m_len_r f : m_len (m_map f) = m_len f.
  Proof. destruct f; cbn; [reflexivity..|apply map_length]. Qed.
  Lemma m_is_empty_r f : m_is_empty (m_map f) = m_is_empty f.
  Proof. destruct f; reflexivity. Qed.
  Lemma m_occurrences_r f : m_occurrences ho_id (m_map f) = map (renamed_count r) (m_occurrences ho_id f).
  Proof.
    destruct f; cbn [m_map m_occurrences ho_iter ho_id]; [reflexivity| |].
    - rewrite !map_map. reflexivity.
    - rewrite concat_map_map.
      rewrite (fold_left_map_r r (map (pmap r idn)) (fun m x => map_update m x (incr 1)) (fun m x => map_update m x (incr 1)))
        with (m := []).
      + apply (sort_by_map (pmap r idn)). intros p q. apply (leb_r r M).
      + intros a x. apply (map_update_r r M idn). intros o. apply incr_r.
  Qed.
End Matrix.

Section MatrixRuns.
  Context {T : Type} `{Ord T}.
  Lemma m_bin_hash h (f g : mforest T) : MReach f -> MReach g ->
    m_union h f g = m_union ho_id f g /\ m_intersect h f g = m_intersect ho_id f g /\ m_product h f g = m_product ho_id f g.
  Proof.
    intros _ _.
    assert (P : forall A site (l : list A), Permutation (ho_iter h site l) (ho_iter ho_id site l)).
    { intros. rewrite (ho_perm h), (ho_perm ho_id). reflexivity. }
    split; [|split].
    - unfold m_union. destruct (m_eqb f g); [reflexivity|]. destruct f, g; try reflexivity.
      + apply m_many_perm, Permutation_app; [apply P|reflexivity].
      + apply m_many_perm, Permutation_app; [apply P|reflexivity].
      + destruct (set_subset _ _); [reflexivity|]. destruct (set_subset _ _); [reflexivity|].
        apply m_many_perm, P.
    - unfold m_intersect. destruct (m_eqb f g); [reflexivity|]. destruct f, g; try reflexivity.
      apply m_many_perm, P.
    - destruct f, g; try reflexivity; cbn [m_product].
      + apply m_many_perm, Permutation_map, P.
      + apply m_many_perm, Permutation_map, P.
      + apply m_many_perm. rewrite (Permutation_flat_map _ (P _ site_m1 matrix)).
        induction (ho_iter ho_id site_m1 matrix) as [|r l IH]; [reflexivity|]. simpl.
        apply Permutation_app; [apply Permutation_map, P|exact IH].
  Qed.
  Lemma runm_id p (f : mforest T) : runm p f ->
    match p with
    | EEmpty => f = m_empty
    | EUnit s => f = m_unit s
    | EMany m => f = m_many m
    | EUnique s => f = m_unique s
    | EUnion a b => exists x y, runm a x /\ runm b y /\ f = m_union ho_id x y
    | EIntersect a b => exists x y, runm a x /\ runm b y /\ f = m_intersect ho_id x y
    | EProduct a b => exists x y, runm a x /\ runm b y /\ f = m_product ho_id x y
    | ESubset a e => exists x, runm a x /\ f = m_subset ho_id x e
    | ESubsetNot a e => exists x, runm a x /\ f = m_subset_not ho_id x e
    | ESubsetAll a es => exists x, runm a x /\ f = m_subset_all ho_id x es
    | ESubsetNone a es => exists x, runm a x /\ f = m_subset_none ho_id x es
    end.
  Proof.
    assert (C : forall a (x : mforest T), runm a x -> MReach x) by (intros a x X; exact (runm_reach _ _ X)).
    intros R; destruct R as [|s|m|s|h a b f g Ra Rb|h a b f g Ra Rb|h a b f g Ra Rb|h a f e Ra|h a f e Ra|h a f es Ra|h a f es Ra];
      try reflexivity.
    - exists f, g. repeat split; auto. apply (m_bin_hash h f g); eapply C; eassumption.
    - exists f, g. repeat split; auto. apply (m_bin_hash h f g); eapply C; eassumption.
    - exists f, g. repeat split; auto. apply (m_bin_hash h f g); eapply C; eassumption.
    - exists f. split; auto. destruct (C16_hash_order_matrix_pf T _ h ho_id f f e [] (C _ _ Ra) (C _ _ Ra)) as (_ & _ & _ & Q & _). exact Q.
    - exists f. split; auto. destruct (C16_hash_order_matrix_pf T _ h ho_id f f e [] (C _ _ Ra) (C _ _ Ra)) as (_ & _ & _ & _ & Q & _). exact Q.
    - exists f. split; auto. destruct es as [|e es]; [reflexivity|].
      destruct (C16_hash_order_matrix_pf T _ h ho_id f f e (e :: es) (C _ _ Ra) (C _ _ Ra)) as (_ & _ & _ & _ & _ & Q & _). exact Q.
    - exists f. split; auto. destruct es as [|e es]; [reflexivity|].
      destruct (C16_hash_order_matrix_pf T _ h ho_id f f e (e :: es) (C _ _ Ra) (C _ _ Ra)) as (_ & _ & _ & _ & _ & _ & Q & _). exact Q.
  Qed.
  Lemma runm_det p : forall f g : mforest T, runm p f -> runm p g -> f = g.
  Proof.
    induction p as [|s|m|s|a IHa b IHb|a IHa b IHb|a IHa b IHb|a IHa e|a IHa e|a IHa es|a IHa es];
      intros f g F G; apply runm_id in F; apply runm_id in G; try congruence;
      try (destruct F as (x & y & A & B & E); destruct G as (x' & y' & A' & B' & E');
           rewrite (IHa _ _ A A'), (IHb _ _ B B') in E; congruence);
      destruct F as (x & A & E); destruct G as (x' & A' & E'); rewrite (IHa _ _ A A') in E; congruence.
  Qed.
End MatrixRuns.

Section MatrixRename.
  Context {T U : Type} `{Ord T} `{Ord U} (r : T -> U) (M : mono r).
  Lemma runm_r p : forall f, runm p f -> runm (renamed r p) (m_map r f).
  Proof.
    induction p as [|s|m|s|a IHa b IHb|a IHa b IHb|a IHa b IHb|a IHa e|a IHa e|a IHa es|a IHa es];
      intros f F; apply runm_id in F; cbn [renamed].
    - subst f. apply X_empty.
    - subst f. rewrite <- (m_unit_r r M). apply X_unit.
    - subst f. rewrite <- (m_many_r r M). apply X_many.
    - subst f. rewrite <- (m_unique_r r M). apply X_unique.
    - destruct F as (x & y & A & B & E). subst f. rewrite <- (m_union_r r M). apply X_union; auto.
    - destruct F as (x & y & A & B & E). subst f. rewrite <- (m_intersect_r r M). apply X_intersect; auto.
    - destruct F as (x & y & A & B & E). subst f. rewrite <- (m_product_r r M). apply X_product; auto.
    - destruct F as (x & A & E). subst f. rewrite <- (m_subset_r r M). apply X_subset; auto.
    - destruct F as (x & A & E). subst f. rewrite <- (m_subset_not_r r M). apply X_subset_not; auto.
    - destruct F as (x & A & E). subst f. rewrite <- (m_subset_all_r r M). apply X_subset_all; auto.
    - destruct F as (x & A & E). subst f. rewrite <- (m_subset_none_r r M). apply X_subset_none; auto.
  Qed.
End MatrixRename.
