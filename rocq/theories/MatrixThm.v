(** MatrixThm: proofs of the property theorems about the matrix forests, the
    trees, and the agreement of the two Forest implementations. *)
From Coq Require Import List Arith Lia Bool Permutation Sorted.
From Verif Require Import Base DD Spec Zdd2Model Zdd2Thm MatrixModel MatrixProofs.
Import ListNotations.

(** C24.  The constructors: [trees] (under any iteration order) lists exactly the
    given sets, as ascending duplicate-free vectors, each once; the empty set is
    kept. *)
Lemma C24_many_exact_pf : forall (T : Type) (O : Ord T) (h : hash_order) (rows : list (list T)),
  let ts := m_trees h (m_many rows) in
  well_listed ts /\
  (forall row, In row rows -> has_set ts row) /\
  (forall t, In t ts -> exists row, In row rows /\ same_elems t row).
Proof.
  intros T O h rows ts. split; [apply minv_listed, m_many_inv|]. split.
  - intros row I. exists (filter_repeats row). split.
    + apply m_trees_in, m_many_in. exists row; auto.
    + intros x. apply filter_repeats_in.
  - intros t I. apply m_trees_in, m_many_in in I. destruct I as (row & I & ->).
    exists row. split; [exact I|]. intros x. apply filter_repeats_in.
Qed.
Example C24_example : m_trees ho_id (m_many [[3;1;3];[];[2];[1;3]]) = [[];[1;3];[2]].
Proof. reflexivity. Qed.

Lemma C24_unit_unique_empty_exact_pf : forall (T : Type) (O : Ord T) (h : hash_order) (items : list T),
  (exists t, m_trees h (m_unit items) = [t] /\ ssorted t /\ same_elems t items) /\
  (NoDup (m_trees h (m_unique items)) /\
   forall t, In t (m_trees h (m_unique items)) <-> exists x, In x items /\ t = [x]) /\
  m_trees h (m_empty (T:=T)) = [].
Proof.
  intros T O h items. split; [|split; [split|]].
  - exists (filter_repeats items). split; [reflexivity|]. split; [apply filter_repeats_ssorted|].
    intros x. apply filter_repeats_in.
  - apply minv_listed. apply (m_many_inv (map (fun e => [e]) items)).
  - intros t. rewrite m_trees_in. apply m_unique_in.
  - reflexivity.
Qed.

(** C25.  Union and intersection are exact, whatever order any of the sets
    involved is iterated in. *)
Lemma C25_union_exact_pf : forall (T : Type) (O : Ord T) (h h1 h2 h3 : hash_order) (f g : mforest T),
  MReach f -> MReach g ->
  forall t, In t (m_trees h3 (m_union h f g)) <-> In t (m_trees h1 f) \/ In t (m_trees h2 g).
Proof.
  intros T O h h1 h2 h3 f g Rf Rg t. apply reach_minv in Rf, Rg. rewrite !m_trees_in.
  apply (m_union_spec h f g Rf Rg).
Qed.
Lemma C25_intersect_exact_pf : forall (T : Type) (O : Ord T) (h h1 h2 h3 : hash_order) (f g : mforest T),
  MReach f -> MReach g ->
  forall t, In t (m_trees h3 (m_intersect h f g)) <-> In t (m_trees h1 f) /\ In t (m_trees h2 g).
Proof.
  intros T O h h1 h2 h3 f g Rf Rg t. apply reach_minv in Rf, Rg. rewrite !m_trees_in.
  apply (m_intersect_spec h f g Rf Rg).
Qed.
Example C25_example :
  let f := m_many [[1;2];[3]] in let g := m_many [[3];[4;1]] in
  MReach f /\ MReach g /\
  m_trees ho_id (m_union ho_rev f g) = [[1;2];[1;4];[3]] /\ m_trees ho_id (m_intersect ho_rev f g) = [[3]].
Proof. cbv zeta. split; [apply MR_many|]. split; [apply MR_many|]. split; reflexivity. Qed.

(** C26 *)
Lemma C26_product_exact_pf : forall (T : Type) (O : Ord T) (h h1 h2 h3 : hash_order) (f g : mforest T),
  MReach f -> MReach g ->
  forall s, has_set (m_trees h3 (m_product h f g)) s <->
            exists a b, In a (m_trees h1 f) /\ In b (m_trees h2 g) /\ is_union s a b.
Proof.
  intros T O h h1 h2 h3 f g Rf Rg s. destruct (m_product_spec h f g) as [_ E]. split.
  - intros (t & I & S). apply m_trees_in, E in I. destruct I as (a & b & A & B & ->).
    exists a, b. rewrite !m_trees_in. split; [exact A|]. split; [exact B|].
    intros x. rewrite <- (S x), filter_repeats_in, in_app_iff. tauto.
  - intros (a & b & A & B & U). rewrite m_trees_in in A, B. exists (filter_repeats (a ++ b)). split.
    + apply m_trees_in, E. exists a, b; auto.
    + intros x. rewrite (U x), filter_repeats_in, in_app_iff. tauto.
Qed.
Example C26_example :
  m_trees ho_id (m_product ho_rev (m_unique [1;2]) (m_unique [1;2])) = [[1];[1;2];[2]].
Proof. reflexivity. Qed.

(** C27 *)
Lemma C27_subsets_exact_pf : forall (T : Type) (O : Ord T) (h h1 h2 : hash_order) (f : mforest T) e es,
  MReach f ->
  (forall t, In t (m_trees h1 (m_subset h f e)) <-> In t (m_trees h2 f) /\ In e t) /\
  (forall t, In t (m_trees h1 (m_subset_not h f e)) <-> In t (m_trees h2 f) /\ ~ In e t) /\
  (forall t, In t (m_trees h1 (m_subset_all h f es)) <-> In t (m_trees h2 f) /\ (forall x, In x es -> In x t)) /\
  (forall t, In t (m_trees h1 (m_subset_none h f es)) <-> In t (m_trees h2 f) /\ (forall x, In x es -> ~ In x t)).
Proof.
  intros T O h h1 h2 f e es Rf. apply reach_minv in Rf.
  repeat split; rewrite ?m_trees_in in *;
  try (apply (m_subset_spec h f e Rf); assumption);
  try (apply (m_subset_not_spec h f e Rf); assumption);
  try (apply (m_subset_all_spec h f es Rf); assumption);
  try (apply (m_subset_none_spec h f es Rf); assumption).
Qed.
Example C27_example :
  let f := m_many [[1];[3];[3;2];[]] in MReach f /\
  m_trees ho_id (m_subset_none ho_rev f [1;2]) = [[];[3]] /\
  m_trees ho_id (m_subset_all ho_rev f [2;3]) = [[2;3]] /\
  m_trees ho_id (m_subset ho_rev f 3) = [[2;3];[3]] /\
  m_trees ho_id (m_subset_not ho_rev f 3) = [[];[1]].
Proof. cbv zeta. split; [apply MR_many|]. repeat split; reflexivity. Qed.

(** C28 *)
Lemma C28_observers_exact_pf : forall (T : Type) (O : Ord T) (h h1 : hash_order) (f : mforest T),
  MReach f ->
  let ts := m_trees h f in
  well_listed ts /\ m_len f = length ts /\ (m_is_empty f = true <-> ts = []) /\
  ssorted (map fst (m_occurrences h1 f)) /\
  (forall x k, In (x, k) (m_occurrences h1 f) <-> 0 < k /\ k = count ts x).
Proof.
  intros T O h h1 f Rf ts. apply reach_minv in Rf.
  split; [apply minv_listed; exact Rf|]. split; [apply m_len_trees|]. split.
  - pose proof (m_len_trees h f) as L. fold ts in L. destruct Rf as (_ & _ & N). destruct f as [|s|m].
    + simpl. tauto.
    + simpl. split; [discriminate|]. unfold ts. simpl. discriminate.
    + simpl. split; [discriminate|]. intros E. rewrite E in L. simpl in L. exfalso. apply (N m eq_refl).
      destruct m; [reflexivity|discriminate].
  - destruct (m_occurrences_spec h1 f Rf) as (S & E). split; [exact S|].
    intros x k. rewrite E. rewrite (count_perm ts (mts f)); [tauto|]. apply m_trees_perm.
Qed.
Example C28_example :
  let f := m_many [[1;2];[2;3];[2]] in MReach f /\
  m_len f = 3 /\ m_occurrences ho_rev f = [(1,1);(2,3);(3,1)].
Proof. cbv zeta. split; [apply MR_many|]. split; reflexivity. Qed.

(** C16, matrix half: no call's result depends on the iteration orders, and the
    listing is the same up to order. *)
Lemma C16_hash_order_matrix_pf : forall (T : Type) (O : Ord T) (h h' : hash_order) (f g : mforest T) e es,
  MReach f -> MReach g ->
  m_union h f g = m_union h' f g /\ m_intersect h f g = m_intersect h' f g /\
  m_product h f g = m_product h' f g /\
  m_subset h f e = m_subset h' f e /\ m_subset_not h f e = m_subset_not h' f e /\
  m_subset_all h f es = m_subset_all h' f es /\ m_subset_none h f es = m_subset_none h' f es /\
  m_occurrences h f = m_occurrences h' f /\
  Permutation (m_trees h f) (m_trees h' f).
Proof.
  intros T O h h' f g e es Rf Rg. apply reach_minv in Rf, Rg.
  assert (P : forall A site (l : list A), Permutation (ho_iter h site l) (ho_iter h' site l)).
  { intros. rewrite (ho_perm h), (ho_perm h'). reflexivity. }
  repeat split.
  - unfold m_union. destruct (m_eqb f g); [reflexivity|]. destruct f, g; try reflexivity.
    + apply m_many_perm, Permutation_app; [apply P|reflexivity].
    + apply m_many_perm, Permutation_app; [apply P|reflexivity].
    + destruct (set_subset _ _); [reflexivity|]. destruct (set_subset _ _); [reflexivity|].
      apply m_many_perm, P.
  - unfold m_intersect. destruct (m_eqb f g); [reflexivity|]. destruct f, g; try reflexivity.
    apply m_many_perm, P.
  - destruct f, g; try reflexivity; cbn [m_product].
    + apply m_many_perm, Permutation_map, P.
    + apply m_many_perm, Permutation_map, P.
    + apply m_many_perm. rewrite (Permutation_flat_map _ (P _ site_m1 matrix)).
      induction (ho_iter h' site_m1 matrix) as [|r l IH]; [reflexivity|]. simpl.
      apply Permutation_app; [apply Permutation_map, P|exact IH].
  - apply (m_filter_perm h h').
  - apply (m_filter_perm h h').
  - destruct es; [reflexivity|]. rewrite !m_subset_all_filter by discriminate. apply m_filter_perm.
  - destruct es; [reflexivity|]. rewrite !m_subset_none_filter by discriminate. apply m_filter_perm.
  - apply m_occurrences_perm; exact Rf.
  - rewrite (m_trees_perm h f), (m_trees_perm h' f). reflexivity.
Qed.

(** C29: the full claim (false of the code), its refutation, and what holds. *)
Definition C29_claim (T : Type) (O : Ord T) : Prop := forall (h : hash_order) (f g : mforest T),
  MReach f -> MReach g ->
  (m_eqb f g = true <-> forall t, In t (m_trees h f) <-> In t (m_trees h g)).

(** many([[1],[1]]) and many([[1]]) hold the same trees but are not [==]. *)
Lemma C29_equality_refuted_pf : ~ C29_claim nat _.
Proof.
  intros C. pose proof (proj2 (C ho_id (m_many [[1];[1]]) (m_many [[1]]) (MR_many _) (MR_many _))) as X.
  assert (E : m_eqb (m_many [[1];[1]]) (m_many [[1]]) = true) by (apply X; intros t; reflexivity).
  discriminate E.
Qed.
(** Equal forests hold the same trees, and forests holding the same trees are
    equal unless they hold exactly one. *)
Lemma C29_equality_partial_pf : forall (T : Type) (O : Ord T) (h : hash_order) (f g : mforest T),
  MReach f -> MReach g ->
  (m_eqb f g = true -> forall t, In t (m_trees h f) <-> In t (m_trees h g)) /\
  ((forall t, In t (m_trees h f) <-> In t (m_trees h g)) -> m_len f <> 1 -> m_eqb f g = true).
Proof.
  intros T O h f g Rf Rg. apply reach_minv in Rf, Rg. split.
  - intros E. apply m_eqb_eq in E. subst; tauto.
  - intros S L. apply m_eqb_eq. destruct Rf as (_ & Sf & Nf), Rg as (_ & Sg & Ng).
    assert (E : mts f = mts g).
    { apply ssorted_ext; [exact Sf|exact Sg|]. intros t. rewrite <- !(m_trees_in h). apply S. }
    destruct f as [|s|m], g as [|s2|m2]; simpl in *; try congruence; try lia.
    + exfalso. apply (Ng m2 eq_refl). congruence.
    + exfalso. apply (Nf m eq_refl). congruence.
    + subst m. simpl in L. lia.
Qed.
Example C29_example :
  let f := m_many [[1];[2;3];[1]] in let g := m_union ho_id (m_unit [3;2]) (m_unit [1]) in
  MReach f /\ MReach g /\ m_len f <> 1 /\ m_eqb f g = true.
Proof.
  cbv zeta. split; [apply MR_many|]. split; [apply MR_union; apply MR_unit|]. split; [|reflexivity]. vm_compute. lia.
Qed.

(** ** Agreement of the two implementations *)
Definition C30_claim (T : Type) (O : Ord T) : Prop :=
  forall (p : fexpr T) (h : hash_order) f g ts, runz p f -> runm p g -> f_trees f = Some ts ->
  forall t, t <> [] -> (In t ts <-> In t (m_trees h g)).

(** unit([1]).intersect(unit([1,2])): empty for matrix, {{1,2}} for zdd2. *)
Lemma C30_agreement_refuted_pf : ~ C30_claim nat _.
Proof.
  intros C.
  assert (X : In [1;2] [[1;2]] <-> In [1;2] (m_trees ho_id (m_intersect ho_id (m_unit [1]) (m_unit [1;2])))).
  { eapply (C (EIntersect (EUnit [1]) (EUnit [1;2]))).
    - eapply (Z_intersect ho_id); [eapply (Z_unit ho_id)|eapply (Z_unit ho_id)|]; vm_compute; reflexivity.
    - apply (X_intersect ho_id); apply X_unit.
    - vm_compute; reflexivity.
    - discriminate. }
  destruct X as [X _]. destruct X. left; reflexivity.
Qed.
(** Also: a product with {∅} (unit([])), {∅} being dropped by zdd2. *)
Lemma C30_empty_set_refuted_pf :
  exists (p : fexpr nat) f g ts, runz p f /\ runm p g /\ f_trees f = Some ts /\
    ~ In [1] ts /\ forall h, In [1] (m_trees h g).
Proof.
  exists (EProduct (EUnit [1]) (EUnit [])). eexists. eexists. eexists. split; [|split; [|split; [|split]]].
  - eapply (Z_product ho_id); [eapply (Z_unit ho_id)|eapply (Z_unit ho_id)|]; vm_compute; reflexivity.
  - apply (X_product ho_id); apply X_unit.
  - vm_compute; reflexivity.
  - simpl. tauto.
  - intros h. simpl. left; reflexivity.
Qed.

Section Agree.
  Context {T : Type} `{OT : Ord T}.
  Implicit Types p : fexpr T.

  Lemma runz_reach p f : runz p f -> Reach f.
  Proof.
    induction 1.
    - apply R_empty.
    - eapply R_unit; eassumption.
    - eapply R_many; eassumption.
    - eapply R_unique; eassumption.
    - eapply R_union; [| |eassumption]; assumption.
    - eapply R_intersect; [| |eassumption]; assumption.
    - eapply R_product; [| |eassumption]; assumption.
    - eapply R_subset; [|eassumption]; assumption.
    - eapply R_subset_not; [|eassumption]; assumption.
    - eapply R_subset_all; [|eassumption]; assumption.
    - eapply R_subset_none; [|eassumption]; assumption.
  Qed.
  Lemma runm_reach p g : runm p g -> MReach g.
  Proof. induction 1; constructor; assumption. Qed.

  Lemma mentions_ok p g : runm p g -> forall t, In t (mts g) -> incl t (mentions p).
  Proof.
    induction 1 as [|s|m|s|h a b f g Ra IHa Rb IHb|h a b f g Ra IHa Rb IHb|h a b f g Ra IHa Rb IHb
                   |h a f e Ra IHa|h a f e Ra IHa|h a f es Ra IHa|h a f es Ra IHa];
      intros t I; cbn [mentions] in *.
    - destruct I.
    - destruct I as [<-|[]]. intros x. rewrite filter_repeats_in. auto.
    - apply m_many_in in I. destruct I as (row & I & ->). intros x Hx. rewrite filter_repeats_in in Hx.
      apply in_concat. exists row; auto.
    - apply m_unique_in in I. destruct I as (y & I & ->). intros x [<-|[]]. exact I.
    - apply m_union_spec in I; try (apply reach_minv; eapply runm_reach; eassumption).
      destruct I as [I|I]; [apply incl_appl|apply incl_appr]; auto.
    - apply m_intersect_spec in I; try (apply reach_minv; eapply runm_reach; eassumption).
      apply incl_appl. apply IHa, I.
    - apply m_product_spec in I. destruct I as (x & y & A & B & ->). intros z Hz.
      rewrite filter_repeats_in, in_app_iff in Hz. rewrite in_app_iff.
      destruct Hz as [Hz|Hz]; [left; eapply IHa|right; eapply IHb]; eassumption.
    - apply m_subset_spec in I; try (apply reach_minv; eapply runm_reach; eassumption). apply IHa, I.
    - apply m_subset_not_spec in I; try (apply reach_minv; eapply runm_reach; eassumption). apply IHa, I.
    - apply m_subset_all_spec in I; try (apply reach_minv; eapply runm_reach; eassumption). apply IHa, I.
    - apply m_subset_none_spec in I; try (apply reach_minv; eapply runm_reach; eassumption). apply IHa, I.
  Qed.

  Lemma no_empty_ok p g : runm p g -> no_empty_row p -> ~ In [] (mts g).
  Proof.
    induction 1 as [|s|m|s|h a b f g Ra IHa Rb IHb|h a b f g Ra IHa Rb IHb|h a b f g Ra IHa Rb IHb
                   |h a f e Ra IHa|h a f e Ra IHa|h a f es Ra IHa|h a f es Ra IHa];
      intros N I; cbn [no_empty_row] in *.
    - destruct I.
    - destruct I as [E|[]]. apply (proj1 (filter_repeats_nil _)) in E. contradiction.
    - apply m_many_in in I. destruct I as (row & I & E). symmetry in E.
      apply (proj1 (filter_repeats_nil _)) in E. subst. contradiction.
    - apply m_unique_in in I. destruct I as (y & I & E). discriminate.
    - apply m_union_spec in I; try (apply reach_minv; eapply runm_reach; eassumption). tauto.
    - apply m_intersect_spec in I; try (apply reach_minv; eapply runm_reach; eassumption). tauto.
    - apply m_product_spec in I. destruct I as (x & y & A & B & E). symmetry in E.
      apply (proj1 (filter_repeats_nil _)) in E. apply app_eq_nil in E. destruct E; subst. tauto.
    - apply m_subset_spec in I; try (apply reach_minv; eapply runm_reach; eassumption). tauto.
    - apply m_subset_not_spec in I; try (apply reach_minv; eapply runm_reach; eassumption). tauto.
    - apply m_subset_all_spec in I; try (apply reach_minv; eapply runm_reach; eassumption). tauto.
    - apply m_subset_none_spec in I; try (apply reach_minv; eapply runm_reach; eassumption). tauto.
  Qed.

  Definition agree (ts us : list (list T)) : Prop := forall t, In t ts <-> t <> [] /\ In t us.

  Lemma tame_agree p : tame p -> forall f g ts, runz p f -> runm p g -> f_trees f = Some ts -> agree ts (mts g).
  Proof.
    induction p as [|s|m|s|a IHa b IHb|a IHa b IHb|a IHa b IHb|a IHa e|a IHa e|a IHa es|a IHa es];
      intros Tm f g ts Z X E; cbn [tame] in Tm.
    - inversion Z; subst. inversion X; subst. rewrite C02_empty_exact_pf in E. injection E as <-.
      intros t. simpl. tauto.
    - inversion Z as [|h' ? ? F| | | | | | | | |]; subst. inversion X; subst.
      destruct (C02_unit_exact_pf T OT h' s) as (f' & ts' & F' & E' & N0 & N1).
      rewrite F in F'. injection F' as <-. rewrite E in E'. injection E' as <-.
      destruct (list_eq_dec eq_dec_ s []) as [->|Ns].
      + rewrite (N0 eq_refl). intros t. simpl. split; [tauto|]. intros [A [B|[]]].
        change (@nil T = t) in B. congruence.
      + destruct (N1 Ns) as (t0 & -> & S0 & E0).
        assert (t0 = filter_repeats s) as ->.
        { apply ssorted_ext; [exact S0|apply filter_repeats_ssorted|]. intros x.
          rewrite filter_repeats_in. apply E0. }
        intros t. simpl. split; [|tauto]. intros [<-|[]]. split; [|auto].
        intros C. apply (proj1 (filter_repeats_nil _)) in C. contradiction.
    - inversion Z as [| |h' ? ? F| | | | | | | |]; subst. inversion X; subst.
      destruct (C01_many_exact_pf T OT h' m) as (f' & ts' & F' & E' & (W & _) & A & B).
      rewrite F in F'. injection F' as <-. rewrite E in E'. injection E' as <-.
      intros t. rewrite m_many_in. split.
      + intros I. destruct (B t I) as (N & row & Ir & S). split; [exact N|].
        exists row. split; [exact Ir|]. apply ssorted_ext; [apply W; exact I|apply filter_repeats_ssorted|].
        intros x. rewrite filter_repeats_in. apply S.
      + intros (N & row & Ir & ->). destruct (A row Ir) as (t & It & S).
        { intros ->. apply N. reflexivity. }
        replace (filter_repeats row) with t; [exact It|].
        apply ssorted_ext; [apply W; exact It|apply filter_repeats_ssorted|].
        intros x. rewrite filter_repeats_in. apply S.
    - inversion Z as [| | |h' ? ? F| | | | | | |]; subst. inversion X; subst.
      destruct (C02_unique_exact_pf T OT h' s) as (f' & ts' & F' & E' & _ & A).
      rewrite F in F'. injection F' as <-. rewrite E in E'. injection E' as <-.
      intros t. rewrite m_unique_in, A. split; [|tauto].
      intros (x & I & ->). split; [discriminate|]. exists x; auto.
    - inversion Z as [| | | |h' ? ? fa fb ? Za Zb F| | | | | |]; subst.
      inversion X as [| | | |h2 ? ? ga gb Xa Xb| | | | | |]; subst.
      destruct Tm as (Ta & Tb & D).
      pose proof (runz_reach _ _ Za) as Ra. pose proof (runz_reach _ _ Zb) as Rb.
      destruct (C03_trees_well_formed_pf T OT fa Ra) as (ta & Ea & _ & _).
      destruct (C03_trees_well_formed_pf T OT fb Rb) as (tb & Eb & _ & _).
      specialize (IHa Ta _ _ _ Za Xa Ea). specialize (IHb Tb _ _ _ Zb Xb Eb).
      assert (DJ : item_disjoint ta tb).
      { intros u v x Iu Iv Hu Hv. apply IHa in Iu. apply IHb in Iv.
        apply (D x); [eapply (mentions_ok a ga Xa u); tauto|eapply (mentions_ok b gb Xb v); tauto]. }
      destruct (C11_union_disjoint_partial_pf T OT h' fa fb ta tb Ra Rb Ea Eb (or_introl DJ)) as (r & tr & Er & Et & Sp).
      rewrite F in Er. injection Er as <-. rewrite E in Et. injection Et as <-.
      intros t. rewrite Sp. rewrite (IHa t), (IHb t).
      rewrite (proj2 (m_union_spec h2 ga gb (reach_minv _ (runm_reach _ _ Xa)) (reach_minv _ (runm_reach _ _ Xb))) t).
      tauto.
    - inversion Z as [| | | | |h' ? ? fa fb ? Za Zb F| | | | |]; subst.
      inversion X as [| | | | |h2 ? ? ga gb Xa Xb| | | | |]; subst.
      destruct Tm as (Ta & Tb & D).
      pose proof (runz_reach _ _ Za) as Ra. pose proof (runz_reach _ _ Zb) as Rb.
      destruct (C03_trees_well_formed_pf T OT fa Ra) as (ta & Ea & _ & _).
      destruct (C03_trees_well_formed_pf T OT fb Rb) as (tb & Eb & _ & _).
      specialize (IHa Ta _ _ _ Za Xa Ea). specialize (IHb Tb _ _ _ Zb Xb Eb).
      assert (DJ : item_disjoint ta tb).
      { intros u v x Iu Iv Hu Hv. apply IHa in Iu. apply IHb in Iv.
        apply (D x); [eapply (mentions_ok a ga Xa u); tauto|eapply (mentions_ok b gb Xb v); tauto]. }
      assert (DJ' : item_disjoint tb ta) by (intros u v x Iu Iv Hu Hv; eapply (DJ v u x); eassumption).
      assert (NP : forall us vs : list (list T), item_disjoint us vs -> (forall t, In t us -> t <> []) -> no_proper_subset us vs).
      { intros us vs DJ0 N u v Iu Iv I. destruct u as [|x u]; [exfalso; exact (N _ Iu eq_refl)|].
        exfalso. eapply (DJ0 _ _ x Iu Iv); [left; reflexivity|]. apply I. left; reflexivity. }
      assert (OS : forall us vs : list (list T), item_disjoint us vs -> order_stable us vs).
      { intros us vs DJ0 t x y It Hx Hy Bf.
        assert (C0 : forall z, In z t -> count vs z = 0).
        { intros z Hz. clear - DJ0 It Hz. unfold item_disjoint in DJ0. induction vs as [|v vs IH]; [reflexivity|].
          cbn [count]. destruct (memb z v) eqn:M.
          - apply memb_spec in M. exfalso. eapply (DJ0 t v z); auto. left; reflexivity.
          - rewrite IH; [reflexivity|]. intros a b w A B. eapply DJ0; [exact A|right; exact B]. }
        unfold before in *. rewrite (C0 x Hx), (C0 y Hy).
        destruct Bf as [Bf|[Bf L]]; [left; lia|right; split; [lia|exact L]]. }
      destruct (C12_intersect_partial_pf T OT h' fa fb ta tb Ra Rb Ea Eb) as (r & tr & Er & Et & Sp).
      rewrite F in Er. injection Er as <-. rewrite E in Et. injection Et as <-.
      destruct (Sp (C11_order_kept_partial_pf T OT _ _ _ _ Ra Rb Ea Eb (Zdd2Forest3.stable_order_kept _ _ (OS _ _ DJ)))
                   (C11_order_kept_partial_pf T OT _ _ _ _ Rb Ra Eb Ea (Zdd2Forest3.stable_order_kept _ _ (OS _ _ DJ')))) as (_ & _ & Ex).
      intros t. rewrite (Ex (NP _ _ DJ (fun t I => proj1 (proj1 (IHa t) I))) (NP _ _ DJ' (fun t I => proj1 (proj1 (IHb t) I)))).
      rewrite (IHa t), (IHb t).
      rewrite (proj2 (m_intersect_spec h2 ga gb (reach_minv _ (runm_reach _ _ Xa)) (reach_minv _ (runm_reach _ _ Xb))) t).
      tauto.
    - inversion Z as [| | | | | |h' ? ? fa fb ? Za Zb F| | | |]; subst.
      inversion X as [| | | | | |h2 ? ? ga gb Xa Xb| | | |]; subst.
      destruct Tm as (Ta & Tb & D & Na & Nb).
      pose proof (runz_reach _ _ Za) as Ra. pose proof (runz_reach _ _ Zb) as Rb.
      destruct (C03_trees_well_formed_pf T OT fa Ra) as (ta & Ea & _ & _).
      destruct (C03_trees_well_formed_pf T OT fb Rb) as (tb & Eb & _ & _).
      specialize (IHa Ta _ _ _ Za Xa Ea). specialize (IHb Tb _ _ _ Zb Xb Eb).
      pose proof (no_empty_ok _ _ Xa Na) as Ka. pose proof (no_empty_ok _ _ Xb Nb) as Kb.
      assert (DJ : item_disjoint ta tb).
      { intros u v x Iu Iv Hu Hv. apply IHa in Iu. apply IHb in Iv.
        apply (D x); [eapply (mentions_ok a ga Xa u); tauto|eapply (mentions_ok b gb Xb v); tauto]. }
      destruct (C13_product_disjoint_partial_pf T OT h' fa fb ta tb Ra Rb Ea Eb DJ) as (r & tr & Er & Et & Sp).
      rewrite F in Er. injection Er as <-. rewrite E in Et. injection Et as <-.
      destruct (C03_trees_well_formed_pf T OT f (runz_reach _ _ Z)) as (ts' & E' & (W & _) & N0).
      rewrite E in E'. injection E' as <-.
      assert (IA : forall t, In t (mts ga) <-> In t ta).
      { intros t. rewrite (IHa t). split; [|tauto]. intros I. split; [|exact I]. intros ->. contradiction. }
      assert (IB : forall t, In t (mts gb) <-> In t tb).
      { intros t. rewrite (IHb t). split; [|tauto]. intros I. split; [|exact I]. intros ->. contradiction. }
      intros t. rewrite (proj2 (m_product_spec h2 ga gb) t). split.
      + intros I. split; [intros ->; contradiction|].
        destruct (proj1 (Sp t)) as (u & v & Iu & Iv & U); [exists t; split; [exact I|intros x; tauto]|].
        exists u, v. rewrite IA, IB. split; [exact Iu|]. split; [exact Iv|].
        apply ssorted_ext; [apply W; exact I|apply filter_repeats_ssorted|].
        intros x. rewrite filter_repeats_in, in_app_iff. apply U.
      + intros (N & u & v & Iu & Iv & ->). rewrite IA in Iu. rewrite IB in Iv.
        destruct (proj2 (Sp (filter_repeats (u ++ v)))) as (t & It & S).
        { exists u, v. split; [exact Iu|]. split; [exact Iv|]. intros x.
          rewrite filter_repeats_in, in_app_iff. tauto. }
        replace (filter_repeats (u ++ v)) with t; [exact It|].
        apply ssorted_ext; [apply W; exact It|apply filter_repeats_ssorted|exact S].
    - inversion Z as [| | | | | | |h' ? fa ? ? Za F| | |]; subst.
      inversion X as [| | | | | | |h2 ? ga ? Xa| | |]; subst.
      pose proof (runz_reach _ _ Za) as Ra.
      destruct (C03_trees_well_formed_pf T OT fa Ra) as (ta & Ea & _ & _).
      specialize (IHa Tm _ _ _ Za Xa Ea).
      destruct (C07_subset_exact_pf T OT h' fa e ta Ra Ea) as (r & tr & Er & Et & Sp).
      rewrite F in Er. injection Er as <-. rewrite E in Et. injection Et as <-.
      intros t. rewrite Sp, (IHa t), (proj2 (m_subset_spec h2 ga e (reach_minv _ (runm_reach _ _ Xa))) t). tauto.
    - inversion Z as [| | | | | | | |h' ? fa ? ? Za F| |]; subst.
      inversion X as [| | | | | | | |h2 ? ga ? Xa| |]; subst.
      pose proof (runz_reach _ _ Za) as Ra.
      destruct (C03_trees_well_formed_pf T OT fa Ra) as (ta & Ea & _ & _).
      specialize (IHa Tm _ _ _ Za Xa Ea).
      destruct (C08_subset_not_exact_pf T OT h' fa e ta Ra Ea) as (r & tr & Er & Et & Sp).
      rewrite F in Er. injection Er as <-. rewrite E in Et. injection Et as <-.
      intros t. rewrite Sp, (IHa t), (proj2 (m_subset_not_spec h2 ga e (reach_minv _ (runm_reach _ _ Xa))) t). tauto.
    - inversion Z as [| | | | | | | | |h' ? fa ? ? Za F|]; subst.
      inversion X as [| | | | | | | | |h2 ? ga ? Xa|]; subst.
      pose proof (runz_reach _ _ Za) as Ra.
      destruct (C03_trees_well_formed_pf T OT fa Ra) as (ta & Ea & _ & _).
      specialize (IHa Tm _ _ _ Za Xa Ea).
      destruct (C09_subset_all_exact_pf T OT h' fa es ta Ra Ea) as (r & tr & Er & Et & Sp).
      rewrite F in Er. injection Er as <-. rewrite E in Et. injection Et as <-.
      intros t. rewrite Sp, (IHa t), (proj2 (m_subset_all_spec h2 ga es (reach_minv _ (runm_reach _ _ Xa))) t). tauto.
    - inversion Z as [| | | | | | | | | |h' ? fa ? ? Za F]; subst.
      inversion X as [| | | | | | | | | |h2 ? ga ? Xa]; subst.
      pose proof (runz_reach _ _ Za) as Ra. destruct Tm as (Ta & One).
      destruct (C03_trees_well_formed_pf T OT fa Ra) as (ta & Ea & _ & _).
      specialize (IHa Ta _ _ _ Za Xa Ea).
      destruct (C10_subset_none_partial_pf T OT h' fa es ta Ra Ea) as (r & tr & Er & Et & _ & _ & Sp).
      rewrite F in Er. injection Er as <-. rewrite E in Et. injection Et as <-.
      assert (C : ((forall e, In e es -> exists t, In t ta /\ In e t) /\
                   (no_proper_subset ta ta \/ (exists e, forall x, In x es -> x = e))) \/
                  (forall e t, In e es -> In t ta -> ~ In e t)).
      { destruct es as [|e es']; [right; intros ? ? []|].
        destruct (existsb (fun t => memb e t) ta) eqn:Q.
        - left. apply existsb_exists in Q. destruct Q as (t & It & M). apply memb_spec in M. split.
          + intros e' Ie'. exists t. split; [exact It|]. rewrite (One e' e Ie' (or_introl eq_refl)). exact M.
          + right. exists e. intros x Ix. apply One; [exact Ix|left; reflexivity].
        - right. intros e' t Ie' It Me. rewrite (One e' e Ie' (or_introl eq_refl)) in Me.
          apply not_true_iff_false in Q. apply Q. apply existsb_exists. exists t. split; [exact It|].
          apply memb_spec. exact Me. }
      specialize (Sp C).
      intros t. rewrite Sp, (IHa t), (proj2 (m_subset_none_spec h2 ga es (reach_minv _ (runm_reach _ _ Xa))) t). tauto.
  Qed.

  Lemma runz_exists p : exists f, runz p f.
  Proof.
    induction p as [|s|m|s|a [f Ra] b [g Rb]|a [f Ra] b [g Rb]|a [f Ra] b [g Rb]|a [f Ra] e|a [f Ra] e|a [f Ra] es|a [f Ra] es].
    - eexists; constructor.
    - destruct (C02_unit_exact_pf T OT ho_id s) as (f & _ & E & _). exists f. eapply Z_unit; exact E.
    - destruct (C01_many_exact_pf T OT ho_id m) as (f & _ & E & _). exists f. eapply Z_many; exact E.
    - destruct (C02_unique_exact_pf T OT ho_id s) as (f & _ & E & _). exists f. eapply Z_unique; exact E.
    - pose proof (runz_reach _ _ Ra) as Qa. pose proof (runz_reach _ _ Rb) as Qb.
      destruct (C03_trees_well_formed_pf T OT f Qa) as (ta & Ea & _).
      destruct (C03_trees_well_formed_pf T OT g Qb) as (tb & Eb & _).
      destruct (C11_union_partial_pf T OT ho_id f g ta tb Qa Qb Ea Eb) as (r & _ & E & _).
      exists r. eapply Z_union; eassumption.
    - pose proof (runz_reach _ _ Ra) as Qa. pose proof (runz_reach _ _ Rb) as Qb.
      destruct (C03_trees_well_formed_pf T OT f Qa) as (ta & Ea & _).
      destruct (C03_trees_well_formed_pf T OT g Qb) as (tb & Eb & _).
      destruct (C12_intersect_partial_pf T OT ho_id f g ta tb Qa Qb Ea Eb) as (r & _ & E & _).
      exists r. eapply Z_intersect; eassumption.
    - pose proof (runz_reach _ _ Ra) as Qa. pose proof (runz_reach _ _ Rb) as Qb.
      destruct (C03_trees_well_formed_pf T OT f Qa) as (ta & Ea & _).
      destruct (C03_trees_well_formed_pf T OT g Qb) as (tb & Eb & _).
      destruct (C13_product_partial_pf T OT ho_id f g ta tb Qa Qb Ea Eb) as (r & _ & E & _).
      exists r. eapply Z_product; eassumption.
    - pose proof (runz_reach _ _ Ra) as Qa.
      destruct (C03_trees_well_formed_pf T OT f Qa) as (ta & Ea & _).
      destruct (C07_subset_exact_pf T OT ho_id f e ta Qa Ea) as (r & _ & E & _).
      exists r. eapply Z_subset; eassumption.
    - pose proof (runz_reach _ _ Ra) as Qa.
      destruct (C03_trees_well_formed_pf T OT f Qa) as (ta & Ea & _).
      destruct (C08_subset_not_exact_pf T OT ho_id f e ta Qa Ea) as (r & _ & E & _).
      exists r. eapply Z_subset_not; eassumption.
    - pose proof (runz_reach _ _ Ra) as Qa.
      destruct (C03_trees_well_formed_pf T OT f Qa) as (ta & Ea & _).
      destruct (C09_subset_all_exact_pf T OT ho_id f es ta Qa Ea) as (r & _ & E & _).
      exists r. eapply Z_subset_all; eassumption.
    - pose proof (runz_reach _ _ Ra) as Qa.
      destruct (C03_trees_well_formed_pf T OT f Qa) as (ta & Ea & _).
      destruct (C10_subset_none_partial_pf T OT ho_id f es ta Qa Ea) as (r & _ & E & _).
      exists r. eapply Z_subset_none; eassumption.
  Qed.

  Lemma runm_exists p : exists g, runm p g.
  Proof.
    induction p as [|s|m|s|a [f Ra] b [g Rb]|a [f Ra] b [g Rb]|a [f Ra] b [g Rb]|a [f Ra] e|a [f Ra] e|a [f Ra] es|a [f Ra] es];
      eexists; try solve [econstructor]; (econstructor; eassumption).
    Unshelve. all: exact ho_id.
  Qed.
End Agree.

(** Every program runs to the end in both implementations; if the operands of
    its binary operations mention no common item, its [subset_none]s have at
    most one distinct element and its [product]s are not given the empty set,
    both hold the same non-empty trees. *)
Lemma C30_agreement_partial_pf : forall (T : Type) (O : Ord T) (p : fexpr T),
  (exists f g, runz p f /\ runm p g) /\
  (tame p -> forall (h : hash_order) f g ts, runz p f -> runm p g -> f_trees f = Some ts ->
   forall t, In t ts <-> t <> [] /\ In t (m_trees h g)).
Proof.
  intros T O p. split.
  - destruct (runz_exists p) as [f Z]. destruct (runm_exists p) as [g X]. exists f, g; auto.
  - intros Tm h f g ts Z X E t. rewrite m_trees_in. exact (tame_agree p Tm f g ts Z X E t).
Qed.
Example C30_example : tame (T:=nat)
  (ESubsetNone (EProduct (EUnion (EMany [[1;2];[3]]) (EUnique [4;5]))
                         (ESubsetAll (EMany [[6];[7;6];[8]]) [6])) [3]).
Proof.
  simpl. repeat split; try tauto; try (intros x; simpl; intuition lia);
    try (intros x y [<-|[]] [<-|[]]; reflexivity); intuition discriminate.
Qed.

(** ** Trees *)

(** C31 *)
Lemma C31_tree_constructors_pf : forall (T : Type) (O : Ord T) (h : hash_order) (es : list T) (e : T) (t : tree T),
  (forall x, In x (t_elems h (t_many es)) <-> In x es) /\
  t_elems h (t_one e) = [e] /\ t_elems h (t_empty (T:=T)) = [] /\
  (TReach t -> NoDup (t_elems h t) /\ t_len t = length (t_elems h t) /\
               (t_is_empty t = true <-> t_elems h t = [])).
Proof.
  intros T O h es e t. split; [intros x; rewrite t_elems_in; apply t_many_in|].
  split; [reflexivity|]. split; [reflexivity|]. intros R. apply treach_inv in R. destruct R as (S & N).
  pose proof (t_len_elems h t) as L. split; [|split].
  - eapply Permutation_NoDup; [symmetry; apply t_elems_perm|apply ssorted_NoDup; exact S].
  - exact L.
  - destruct t as [|a|s]; simpl.
    + tauto.
    + split; discriminate.
    + split; [discriminate|]. intros E. simpl in L. rewrite E in L. exfalso. apply (N s eq_refl).
      destruct s; [reflexivity|discriminate].
Qed.
Example C31_example : TReach (t_many [3; 1; 3; 2]) /\ t_len (t_many [3; 1; 3; 2]) = 3 /\
  t_is_empty (t_many [3; 1; 3; 2]) = false.
Proof. split; [apply TR_many|split; reflexivity]. Qed.

(** C32: the full claim (false of the code), its refutation, and what holds. *)
Definition C32_claim (T : Type) (O : Ord T) : Prop := forall (h h1 : hash_order) (t u : tree T),
  TReach t -> TReach u ->
  forall x, In x (t_elems h1 (t_union h t u)) <-> In x (t_elems h1 t) \/ In x (t_elems h1 u).
(** one(3).union(many([1,2])) is empty. *)
Lemma C32_union_refuted_pf : ~ C32_claim nat _.
Proof.
  intros C. pose proof (proj2 (C ho_id ho_id (t_one 3) (t_many [1;2]) (TR_one _) (TR_many _) 3)) as X.
  destruct X. left. left. reflexivity.
Qed.
(** A union never holds anything else than elements of the two trees; it is
    exact or completely empty; it is exact unless one of the trees has exactly
    one element and the other does not contain it. *)
Lemma C32_union_partial_pf : forall (T : Type) (O : Ord T) (h h1 : hash_order) (t u : tree T),
  TReach t -> TReach u ->
  ((forall x, In x (t_elems h1 (t_union h t u)) <-> In x (t_elems h1 t) \/ In x (t_elems h1 u)) \/
   t_elems h1 (t_union h t u) = []) /\
  ((t_len t <> 1 \/ incl (t_elems h1 t) (t_elems h1 u)) -> (t_len u <> 1 \/ incl (t_elems h1 u) (t_elems h1 t)) ->
   forall x, In x (t_elems h1 (t_union h t u)) <-> In x (t_elems h1 t) \/ In x (t_elems h1 u)) /\
  (forall a b, t = t_one a -> u = t_one b ->
   forall x, In x (t_elems h1 (t_union h t u)) <-> x = a \/ x = b).
Proof.
  intros T O h h1 t u Rt Ru. apply treach_inv in Rt, Ru.
  assert (G : (forall e s, t = TOne e -> u = TMany s -> In e s) ->
              (forall e s, t = TMany s -> u = TOne e -> In e s) ->
              forall x, In x (t_elems h1 (t_union h t u)) <-> In x (t_elems h1 t) \/ In x (t_elems h1 u)).
  { intros D1 D2 x. rewrite !t_elems_in. apply t_union_spec; assumption. }
  split; [|split].
  - destruct t as [|a|s], u as [|b|s2]; try (left; apply G; intros; discriminate).
    + destruct (memb a s2) eqn:M.
      * left. apply memb_spec in M. apply G; intros; congruence.
      * right. unfold t_union. simpl. rewrite M. reflexivity.
    + destruct (memb b s) eqn:M.
      * left. apply memb_spec in M. apply G; intros; congruence.
      * right. unfold t_union. simpl. rewrite M. reflexivity.
  - intros A B. apply G.
    + intros e s -> ->. destruct A as [A|A]; [exfalso; apply A; reflexivity|].
      specialize (A e). rewrite !t_elems_in in A. apply A. left; reflexivity.
    + intros e s -> ->. destruct B as [B|B]; [exfalso; apply B; reflexivity|].
      specialize (B e). rewrite !t_elems_in in B. apply B. left; reflexivity.
  - intros a b -> -> x. rewrite G by (intros; discriminate). simpl. intuition.
Qed.
(** exactly when: no operand is [One] of an element that a [Many] on the other side
    lacks *)
Definition lost {T} (t u : tree T) (us : list T) : Prop :=
  exists e, t = TOne e /\ u <> TEmpty /\ (forall d, u <> TOne d) /\ ~ In e us.
Lemma tree_union_exact : forall (T : Type) (O : Ord T) (h h1 : hash_order) (t u : tree T),
  ((forall x, In x (t_elems h1 (t_union h t u)) <-> In x (t_elems h1 t) \/ In x (t_elems h1 u)) <->
   ~ lost t u (t_elems h1 u) /\ ~ lost u t (t_elems h1 t)) /\
  ((lost t u (t_elems h1 u) \/ lost u t (t_elems h1 t)) -> t_union h t u = t_empty).
Proof.
  intros T O h h1 t u.
  assert (G : (forall e s, t = TOne e -> u = TMany s -> In e s) ->
              (forall e s, t = TMany s -> u = TOne e -> In e s) ->
              forall x, In x (t_elems h1 (t_union h t u)) <-> In x (t_elems h1 t) \/ In x (t_elems h1 u)).
  { intros D1 D2 x. rewrite !t_elems_in. apply t_union_spec; assumption. }
  assert (L : (lost t u (t_elems h1 u) \/ lost u t (t_elems h1 t)) -> t_union h t u = t_empty).
  { intros [(e & -> & N1 & N2 & N3)|(e & -> & N1 & N2 & N3)].
    - destruct u as [|d|s]; [congruence|destruct (N2 d eq_refl)|].
      rewrite t_elems_in in N3. unfold t_union. simpl in *. rewrite (proj2 (memb_false _ _) N3). reflexivity.
    - destruct t as [|d|s]; [congruence|destruct (N2 d eq_refl)|].
      rewrite t_elems_in in N3. unfold t_union. simpl in *. rewrite (proj2 (memb_false _ _) N3). reflexivity. }
  split; [|exact L]. split.
  - intros X. split; intros N.
    + rewrite (L (or_introl N)) in X. destruct N as (e & -> & _). apply (proj2 (X e)). left; left; reflexivity.
    + rewrite (L (or_intror N)) in X. destruct N as (e & -> & _). apply (proj2 (X e)). right; left; reflexivity.
  - intros [N1 N2]. apply G.
    + intros e s -> ->. destruct (memb e s) eqn:M; [apply memb_spec; exact M|]. exfalso. apply N1. exists e.
      apply memb_false in M. rewrite t_elems_in. repeat split; try discriminate. exact M.
    + intros e s -> ->. destruct (memb e s) eqn:M; [apply memb_spec; exact M|]. exfalso. apply N2. exists e.
      apply memb_false in M. rewrite t_elems_in. repeat split; try discriminate. exact M.
Qed.
Lemma C32_union_exact_partial_pf : forall (T : Type) (O : Ord T) (h h1 : hash_order) (t u : tree T),
  TReach t -> TReach u ->
  ((forall x, In x (t_elems h1 (t_union h t u)) <-> In x (t_elems h1 t) \/ In x (t_elems h1 u)) <->
   ~ lost t u (t_elems h1 u) /\ ~ lost u t (t_elems h1 t)) /\
  ((lost t u (t_elems h1 u) \/ lost u t (t_elems h1 t)) -> t_union h t u = t_empty).
Proof. intros T O h h1 t u _ _. apply tree_union_exact. Qed.
Example C32_example :
  let t := t_many [1;2] in let u := t_many [2;3] in
  TReach t /\ TReach u /\ t_len t <> 1 /\ t_len u <> 1 /\ t_elems ho_id (t_union ho_rev t u) = [1;2;3].
Proof. cbv zeta. split; [apply TR_many|]. split; [apply TR_many|]. vm_compute. repeat split; lia. Qed.

(** C33 *)
Lemma C33_tree_intersect_exact_pf : forall (T : Type) (O : Ord T) (h h1 : hash_order) (t u : tree T),
  TReach t -> TReach u ->
  forall x, In x (t_elems h1 (t_intersect h t u)) <-> In x (t_elems h1 t) /\ In x (t_elems h1 u).
Proof.
  intros T O h h1 t u Rt Ru x. apply treach_inv in Rt, Ru. rewrite !t_elems_in.
  apply (t_intersect_spec h t u Rt Ru).
Qed.
Example C33_example : t_elems ho_id (t_intersect ho_rev (t_many [1;2;4]) (t_many [2;3;4])) = [2;4].
Proof. reflexivity. Qed.

Lemma tree_product_exact : forall (T : Type) (O : Ord T) (h h1 : hash_order) (t u : tree T),
  (forall s, has_set (m_trees h1 (t_product_m h t u)) s <->
             exists a b, In a (t_elems h1 t) /\ In b (t_elems h1 u) /\ same_elems s [a; b]) /\
  (exists f ts, t_product_z h t u = Some f /\ f_trees f = Some ts /\
     forall s, has_set ts s <->
               exists a b, In a (t_elems h1 t) /\ In b (t_elems h1 u) /\ same_elems s [a; b]).
Proof.
  intros T O h h1 t u. split.
  - intros s. split.
    + intros (w & I & S). rewrite m_trees_in, t_product_m_rows, m_many_in in I. destruct I as (row & I & ->).
      apply t_rows_in in I. destruct I as (a & b & A & B & SE). exists a, b. rewrite !t_elems_in.
      split; [exact A|]. split; [exact B|]. intros x. rewrite <- (S x), filter_repeats_in. apply SE.
    + intros (a & b & A & B & S). rewrite t_elems_in in A, B.
      destruct (t_rows_has h t u a b A B) as (row & I & SE & _). exists (filter_repeats row). split.
      * rewrite m_trees_in, t_product_m_rows, m_many_in. exists row; auto.
      * intros x. rewrite filter_repeats_in, (SE x), (S x). tauto.
  - assert (K : exists f ts, t_product_z h t u = Some f /\ f_trees f = Some ts /\
        (forall row, In row (t_rows h t u) -> row <> [] -> has_set ts row) /\
        (forall w, In w ts -> exists row, In row (t_rows h t u) /\ same_elems w row)).
    { assert (M : forall rows, exists f ts, f_many h rows = Some f /\ f_trees f = Some ts /\
        (forall row, In row rows -> row <> [] -> has_set ts row) /\
        (forall w, In w ts -> exists row, In row rows /\ same_elems w row)).
      { intros rows. destruct (C01_many_exact_pf T O h rows) as (f & ts & F & E & _ & P & Q).
        exists f, ts. split; [exact F|]. split; [exact E|]. split; [exact P|].
        intros w I. destruct (Q w I) as (_ & X). exact X. }
      assert (Emp : exists f ts, Some (f_empty (T:=T)) = Some f /\ f_trees f = Some ts /\
        (forall row : list T, In row [] -> row <> [] -> has_set ts row) /\
        (forall w, In w ts -> exists row : list T, In row [] /\ same_elems w row)).
      { exists f_empty, []. split; [reflexivity|]. split; [apply C02_empty_exact_pf|]. simpl. tauto. }
      destruct t as [|a|s], u as [|b|s2]; cbn [t_product_z t_product_with t_rows]; try exact Emp; try apply M.
      destruct (C02_unit_exact_pf T O h [a; b]) as (f & ts & F & E & _ & P).
      destruct P as (w & -> & _ & S); [discriminate|].
      exists f, [w]. split; [exact F|]. split; [exact E|]. split.
      - intros row [<-|[]] _. exists w. split; [left; reflexivity|exact S].
      - intros w' [<-|[]]. exists [a; b]. split; [left; reflexivity|exact S]. }
    destruct K as (f & ts & F & E & P & Q). exists f, ts. split; [exact F|]. split; [exact E|].
    intros s. split.
    + intros (w & I & S). destruct (Q w I) as (row & Ir & S'). apply t_rows_in in Ir.
      destruct Ir as (a & b & A & B & SE). exists a, b. rewrite !t_elems_in.
      split; [exact A|]. split; [exact B|]. intros x. rewrite <- (S x), (S' x). apply SE.
    + intros (a & b & A & B & S). rewrite t_elems_in in A, B.
      destruct (t_rows_has h t u a b A B) as (row & I & SE & N).
      destruct (P row I N) as (w & Iw & Sw). exists w. split; [exact Iw|].
      intros x. rewrite (Sw x), (SE x), (S x). tauto.
Qed.
(** C34: both copies of [product]. *)
Lemma C34_tree_product_exact_pf : forall (T : Type) (O : Ord T) (h h1 : hash_order) (t u : tree T),
  TReach t -> TReach u ->
  (forall s, has_set (m_trees h1 (t_product_m h t u)) s <->
             exists a b, In a (t_elems h1 t) /\ In b (t_elems h1 u) /\ same_elems s [a; b]) /\
  (exists f ts, t_product_z h t u = Some f /\ f_trees f = Some ts /\
     forall s, has_set ts s <->
               exists a b, In a (t_elems h1 t) /\ In b (t_elems h1 u) /\ same_elems s [a; b]).
Proof. intros T O h h1 t u _ _. apply tree_product_exact. Qed.
Example C34_example :
  m_trees ho_id (t_product_m ho_rev (t_many [1;2]) (t_many [2;3])) = [[1;2];[1;3];[2];[2;3]].
Proof. reflexivity. Qed.
