(** Zdd2Laws: reachable forests, algebraic laws, independence of hash order. *)
From Coq Require Import List Arith Lia Bool Permutation Sorted.
From Verif Require Import Base DD Spec Zdd2Model Zdd2Node Zdd2Node2 Zdd2Univ Zdd2Forest Zdd2Forest2 Zdd2Forest3.
Import ListNotations.

Section Laws.
  Context {T : Type} `{Ord T}.

  Lemma Canon_ext (f g : forest T) : Canon f -> Canon g ->
    (forall s, In s (tl_ f) <-> In s (tl_ g)) -> f = g.
  Proof. intros [o Hf] [o' Hg]. eapply canon_ext; eauto. Qed.

  Lemma many_hash h h' (rows : list (list T)) : f_many h rows = f_many h' rows.
  Proof.
    destruct (many_spec h rows) as (f & o & E & Hc & Ht). rewrite E. symmetry.
    apply many_is; auto. exists o; auto.
  Qed.

  Lemma canonical_hash h h' root (u : universe T) : f_canonical h root u = f_canonical h' root u.
  Proof. unfold f_canonical. rewrite node_trees_paths. cbn [bind]. apply many_hash. Qed.

  Lemma merge_hash h h' (f g : forest T) : Canon f -> Canon g ->
    u_merge h site_merge (f_univ f) (f_univ g) = u_merge h' site_merge (f_univ f) (f_univ g).
  Proof.
    intros [o Hf] [o' Hg]. rewrite (merge_comm h h f g o o' Hf Hg). apply (merge_comm h h' g f o' o Hg Hf).
  Qed.

  Lemma roots_hash h h' (f g : forest T) : Canon f -> Canon g ->
    translate_roots h f g = translate_roots h' f g.
  Proof.
    intros Hf Hg. unfold translate_roots. rewrite (merge_hash h h' f g Hf Hg). reflexivity.
  Qed.

  Lemma binop_hash op h h' (f g : forest T) : Canon f -> Canon g ->
    f_binop op h f g = f_binop op h' f g.
  Proof.
    intros Hf Hg. unfold f_binop. rewrite (roots_hash h h') by auto.
    destruct (translate_roots h' f g) as [[[u r1] r2]|]; auto. cbn [bind].
    destruct (op r1 r2) as [r|]; auto. cbn [bind]. apply canonical_hash.
  Qed.

  Lemma subset_hash h h' (f : forest T) e : f_subset h f e = f_subset h' f e.
  Proof.
    unfold f_subset. destruct (get_priority _ _); auto. destruct (node_subset _ _); auto.
    cbn [bind]. apply canonical_hash.
  Qed.
  Lemma subset_not_hash h h' (f : forest T) e : f_subset_not h f e = f_subset_not h' f e.
  Proof.
    unfold f_subset_not. destruct (get_priority _ _); auto. destruct (node_subset_not _ _); auto.
    cbn [bind]. apply canonical_hash.
  Qed.
  Lemma subset_many_hash h h' (f : forest T) es d fn : f_subset_many h f es d fn = f_subset_many h' f es d fn.
  Proof.
    unfold f_subset_many. destruct es; auto. destruct (negb _); auto. destruct (fn _ _); auto.
    cbn [bind]. apply canonical_hash.
  Qed.

  Lemma Reach_Canon f : Reach f -> Canon f.
  Proof.
    induction 1.
    - apply empty_Canon.
    - rewrite unit_many in H0. eapply many_Canon; eauto.
    - eapply many_Canon; eauto.
    - rewrite unique_many in H0. eapply many_Canon; eauto.
    - destruct (f_union_spec h f g IHReach1 IHReach2) as (r' & E & C & _). congruence.
    - destruct (f_intersect_spec h f g IHReach1 IHReach2) as (r' & E & C & _). congruence.
    - destruct (f_product_spec h f g IHReach1 IHReach2) as (r' & E & C & _). congruence.
    - destruct (subset_spec h f e IHReach) as (r' & E & C & _). congruence.
    - destruct (subset_not_spec h f e IHReach) as (r' & E & C & _). congruence.
    - destruct (subset_all_spec h f es IHReach) as (r' & E & C & _). congruence.
    - destruct (subset_none_spec h f es IHReach) as (r' & E & C & _). congruence.
  Qed.

  (** ** laws *)
  Lemma roots_swap h h' (f g : forest T) : Canon f -> Canon g ->
    forall u r1 r2, translate_roots h f g = Some (u, r1, r2) -> translate_roots h' g f = Some (u, r2, r1).
  Proof.
    intros [o Hf] [o' Hg] u r1 r2. unfold translate_roots.
    rewrite (merge_comm h' h g f o' o Hg Hf).
    set (w := u_merge h site_merge (f_univ f) (f_univ g)). intros E.
    apply bind_some in E. destruct E as (a & Ea & E). apply bind_some in E. destruct E as (b & Eb & E).
    injection E as <- <- <-. rewrite Eb. cbn [bind]. rewrite Ea. reflexivity.
  Qed.

  Lemma binop_comm op h h' (f g : forest T) :
    (forall a b, zwf 0 a -> zwf 0 b -> op a b = op b a) ->
    Canon f -> Canon g -> f_binop op h f g = f_binop op h' g f.
  Proof.
    intros Hop Hf Hg. unfold f_binop. pose proof Hf as [o Cf]. pose proof Hg as [o' Cg].
    destruct (roots_spec h f g _ _ Cf Cg) as (m & r1 & r2 & Hm & E & W1 & W2 & _).
    rewrite E, (roots_swap h h' f g Hf Hg _ _ _ E). cbn [bind].
    rewrite (Hop r1 r2 W1 W2). destruct (op r2 r1); auto. cbn [bind]. apply canonical_hash.
  Qed.

  Lemma union_comm h h' (f g : forest T) : Canon f -> Canon g -> f_union h f g = f_union h' g f.
  Proof. apply binop_comm. apply union_comm_node. Qed.
  Lemma intersect_comm h h' (f g : forest T) : Canon f -> Canon g -> f_intersect h f g = f_intersect h' g f.
  Proof. apply binop_comm. intros. apply intersect_comm_node. Qed.
  Lemma product_comm h h' (f g : forest T) : Canon f -> Canon g -> f_product h f g = f_product h' g f.
  Proof. apply binop_comm. intros. eapply product_comm_node; eauto. Qed.

  Lemma roots_same h (f : forest T) : Canon f -> translate_roots h f f = Some (f_univ f, f_root f, f_root f).
  Proof.
    intros [o Hf]. unfold translate_roots.
    destruct (merge_spec h f f o o Hf Hf) as (m & Hm & Em & [[_ ->]|[? _]] & _); [|congruence].
    rewrite Em, (c_univ _ _ Hf).
    rewrite (translate_id o o (c_ok _ _ Hf) (c_ok _ _ Hf) (fun x h => h) (f_root f) 0 eq_refl (c_wf _ _ Hf) (canon_known_labels _ _ Hf)).
    reflexivity.
  Qed.

  Lemma canonical_self h (f : forest T) : Canon f -> f_canonical h (f_root f) (f_univ f) = Some f.
  Proof.
    intros Hf. unfold f_canonical. rewrite node_trees_paths. cbn [bind]. apply many_self. auto.
  Qed.

  Lemma binop_idem op h (f : forest T) : (forall a, op a a = Some a) -> Canon f -> f_binop op h f f = Some f.
  Proof.
    intros Hop Hf. unfold f_binop. rewrite roots_same by auto. cbn [bind]. rewrite Hop. cbn [bind].
    apply canonical_self; auto.
  Qed.

  Lemma union_idem h (f : forest T) : Canon f -> f_union h f f = Some f.
  Proof. apply binop_idem. intros a. rewrite union_unfold. destruct (dd_eqb_spec a a); congruence. Qed.
  Lemma intersect_idem h (f : forest T) : Canon f -> f_intersect h f f = Some f.
  Proof. apply binop_idem. intros a. rewrite intersect_unfold. destruct (dd_eqb_spec a a); congruence. Qed.
  Lemma product_idem h (f : forest T) : Canon f -> f_product h f f = Some f.
  Proof. apply binop_idem. intros a. rewrite product_unfold. destruct (dd_eqb_spec a a); congruence. Qed.

  Lemma fsafe_empty_r (f : forest T) : Canon f -> fsafe f f_empty.
  Proof.
    intros Hf. apply kept_settled; auto using empty_Canon. apply stable_order_kept. intros t x y Ht Hx Hy B. unfold before in *. simpl. intuition lia.
  Qed.
  Lemma fsafe_empty_l (f : forest T) : Canon f -> fsafe f_empty f.
  Proof. intros Hf. apply kept_settled; auto using empty_Canon. intros t x y []. Qed.

  Lemma union_empty h (f : forest T) : Canon f -> f_union h f f_empty = Some f.
  Proof.
    intros Hf. destruct (f_union_spec h f f_empty Hf empty_Canon) as (r & E & C & S).
    rewrite E. f_equal. apply Canon_ext; auto. intros s.
    rewrite (S (fsafe_empty_r f Hf) (fsafe_empty_l f Hf)). simpl. tauto.
  Qed.
  Lemma intersect_empty h (f : forest T) : Canon f -> f_intersect h f f_empty = Some f_empty.
  Proof.
    intros Hf. destruct (f_intersect_spec h f f_empty Hf empty_Canon) as (r & E & C & S).
    rewrite E. f_equal. apply Canon_ext; auto using empty_Canon. intros s.
    destruct (S (fsafe_empty_r f Hf) (fsafe_empty_l f Hf)) as [_ S2]. split; [|intros []].
    intros Hs. apply S2 in Hs. destruct Hs as [(_ & p & [] & _)|([] & _)].
  Qed.
  Lemma product_empty h (f : forest T) : Canon f -> f_product h f f_empty = Some f_empty.
  Proof.
    intros Hf. destruct (f_product_spec h f f_empty Hf empty_Canon) as (r & E & C & S).
    rewrite E. f_equal. apply Canon_ext; auto using empty_Canon. intros s.
    destruct (S (fsafe_empty_r f Hf) (fsafe_empty_l f Hf)) as [S2 _]. split; [|intros []].
    intros Hs. apply S2 in Hs. destruct Hs as (a & b & _ & [] & _).
  Qed.

  (** ** occurrences *)
  Lemma occurrences_any h (f : forest T) occ : map_ok occ -> f_univ f = univ_of occ -> f_occurrences h f = occ.
  Proof.
    intros Hok U. unfold f_occurrences. rewrite U. simpl.
    set (le := fun p q : T * nat => leb_ (fst p) (fst q)).
    assert (Hp : Permutation (sort_by le (ho_iter h site_new occ)) occ).
    { eapply perm_trans; [apply sort_by_perm|apply ho_perm]. }
    assert (Hs : StronglySorted (fun a b => le a b = true) (sort_by le (ho_iter h site_new occ))).
    { apply sort_by_sorted; unfold le; intros; [apply leb_total_|eapply leb_trans_; eauto]. }
    assert (Hnd : NoDup (map fst (sort_by le (ho_iter h site_new occ)))).
    { eapply Permutation_NoDup; [apply Permutation_map, Permutation_sym, Hp|]. apply ssorted_NoDup. exact Hok. }
    assert (Hok' : map_ok (sort_by le (ho_iter h site_new occ))).
    { unfold map_ok. apply SS_leb_NoDup; auto. clear -Hs. induction Hs as [|a l Hl IH Hall]; simpl; constructor; auto.
      rewrite Forall_forall in *. intros x Hx. apply in_map_iff in Hx. destruct Hx as (y & <- & Hy). apply (Hall y Hy). }
    apply amap_ext; auto. intros k.
    destruct (map_get occ k) as [v|] eqn:E.
    - apply map_get_in in E; auto. apply map_get_in; auto. eapply Permutation_in; [apply Permutation_sym, Hp|auto].
    - apply map_get_none in E; auto. apply map_get_none; auto. intros Hin. apply E.
      eapply Permutation_in; [apply Permutation_map, Hp|auto].
  Qed.
  Lemma occurrences_eq h f occ : canon f occ -> f_occurrences h f = occ.
  Proof. intros Hc. apply occurrences_any; apply Hc. Qed.

  Lemma occ_in f occ x k : canon f occ -> (In (x, k) occ <-> 0 < k /\ k = count (tl_ f) x).
  Proof.
    intros Hc. rewrite <- map_get_in by apply Hc. rewrite (c_cnt _ _ Hc). rewrite opt_of_some. intuition lia.
  Qed.

  Lemma f_eqb_spec (f g : forest T) : f_eqb f g = true <-> f = g.
  Proof.
    unfold f_eqb. destruct f as [rf uf], g as [rg ug]. simpl.
    destruct (dd_eqb_spec rf rg), (u_eqb_spec uf ug); simpl; split; intros; try congruence; try discriminate.
  Qed.

  Lemma subset_split (f r1 r2 : forest T) e : Canon f -> Canon r1 -> Canon r2 ->
    (forall s, In s (tl_ r1) <-> In s (tl_ f) /\ In e s) ->
    (forall s, In s (tl_ r2) <-> In s (tl_ f) /\ ~ In e s) ->
    length (tl_ r1) = count (tl_ f) e /\ length (tl_ r1) + length (tl_ r2) = length (tl_ f).
  Proof.
    intros [o Hf] [o1 H1] [o2 H2] S1 S2.
    pose proof (proj2 (proj1 (canon_tl _ _ Hf))) as N. pose proof (proj2 (proj1 (canon_tl _ _ H1))) as N1.
    pose proof (proj2 (proj1 (canon_tl _ _ H2))) as N2.
    assert (P1 : Permutation (tl_ r1) (filter (memb e) (tl_ f))).
    { apply NoDup_Permutation; auto using NoDup_filter. intros s. rewrite filter_In, S1, memb_spec. tauto. }
    assert (P2 : Permutation (tl_ r2) (filter (fun s => negb (memb e s)) (tl_ f))).
    { apply NoDup_Permutation; auto using NoDup_filter. intros s. rewrite filter_In, S2, negb_true_iff, memb_false. tauto. }
    split.
    - rewrite count_filter. apply Permutation_length; auto.
    - rewrite (Permutation_length P1), (Permutation_length P2).
      clear. induction (tl_ f) as [|t l IH]; simpl; auto. destruct (memb e t); simpl; lia.
  Qed.
End Laws.
