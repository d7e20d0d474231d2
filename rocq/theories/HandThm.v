(** HandThm: matrix forests and trees that no constructor made: assembled from the
    public variants, or (trees) deserialized (C84). *)
From Coq Require Import List Arith Lia Bool Permutation Sorted.
From Verif Require Import Base DD Spec Zdd2Model Zdd2Thm MatrixModel MatrixProofs MatrixThm HandModel.
Import ListNotations.
Open Scope nat_scope.

Section HandProofs.
  Context {T : Type} `{OT : Ord T}.
  Implicit Types f g : mforest T.

  Lemma has_set_ext (ts us : list (list T)) s : (forall t, In t ts <-> In t us) -> has_set ts s <-> has_set us s.
  Proof. intros E. split; intros (t & I & S); exists t; (split; [apply E; exact I|exact S]). Qed.
  Lemma has_set_trees h f s : has_set (m_trees h f) s <-> has_set (mts f) s.
  Proof. apply has_set_ext. intros t. apply m_trees_in. Qed.
  Lemma has_set_many rows s : has_set (mts (m_many rows)) s <-> has_set rows s.
  Proof.
    split.
    - intros (t & I & S). apply m_many_in in I. destruct I as (row & I & ->). exists row. split; [exact I|].
      intros x. rewrite <- (S x). symmetry. apply filter_repeats_in.
    - intros (row & I & S). exists (filter_repeats row). split; [apply m_many_in; eauto|].
      intros x. rewrite <- (S x). apply filter_repeats_in.
  Qed.
  Lemma has_set_or (ts us vs : list (list T)) s : (forall t, In t vs <-> In t ts \/ In t us) ->
    has_set vs s <-> has_set ts s \/ has_set us s.
  Proof.
    intros E. split.
    - intros (t & I & S). apply E in I. destruct I as [I|I]; [left|right]; exists t; auto.
    - intros [(t & I & S)|(t & I & S)]; exists t; (split; [apply E; auto|exact S]).
  Qed.

  Lemma hand_union h f g s : has_set (mts (m_union h f g)) s <-> has_set (mts f) s \/ has_set (mts g) s.
  Proof.
    unfold m_union. destruct (m_eqb f g) eqn:E.
    { apply m_eqb_eq in E. subst g. tauto. }
    assert (N : has_set (@nil (list T)) s <-> False) by (split; [intros (t & [] & _)|intros []]).
    destruct f as [|s1|m1], g as [|s2|m2]; try discriminate; try (cbn [mts]; rewrite ?N; tauto).
    - rewrite has_set_many. apply has_set_or. intros t. simpl. tauto.
    - rewrite has_set_many. apply has_set_or. intros t. rewrite in_app_iff, ho_in. simpl. tauto.
    - rewrite has_set_many. apply has_set_or. intros t. rewrite in_app_iff, ho_in. simpl. tauto.
    - destruct (set_subset m1 m2) eqn:E1.
      { apply set_subset_spec in E1. apply has_set_or. intros t. specialize (E1 t). simpl. tauto. }
      destruct (set_subset m2 m1) eqn:E2.
      { apply set_subset_spec in E2. apply has_set_or. intros t. specialize (E2 t). simpl. tauto. }
      rewrite has_set_many. apply has_set_or. intros t. rewrite ho_in, set_union_in. reflexivity.
  Qed.

  Lemma hand_intersect h f g s : has_set (mts (m_intersect h f g)) s <->
    exists t, In t (mts f) /\ In t (mts g) /\ same_elems t s.
  Proof.
    unfold m_intersect. destruct (m_eqb f g) eqn:E.
    { apply m_eqb_eq in E. subst g. split; intros (t & X); exists t; tauto. }
    assert (N : has_set (@nil (list T)) s <-> False) by (split; [intros (t & [] & _)|intros []]).
    destruct f as [|s1|m1], g as [|s2|m2]; try discriminate;
      try (cbn [mts m_empty]; rewrite N; split; [tauto|intros (t & A & B & _); contradiction]).
    - cbn [mts m_empty]; rewrite N. split; [tauto|]. intros (t & [<-|[]] & [<-|[]] & _).
      rewrite (proj2 (m_eqb_eq _ _) eq_refl) in E. discriminate.
    - destruct (memb s1 m2) eqn:M.
      + apply memb_spec in M. cbn [mts]. split; [intros (t & [<-|[]] & S); exists s1; simpl; auto|].
        intros (t & A & _ & S). exists t. auto.
      + apply memb_false in M. cbn [mts m_empty]; rewrite N. split; [tauto|]. intros (t & [<-|[]] & B & _). contradiction.
    - destruct (memb s2 m1) eqn:M.
      + apply memb_spec in M. cbn [mts]. split; [intros (t & [<-|[]] & S); exists s2; simpl; auto|].
        intros (t & _ & A & S). exists t. auto.
      + apply memb_false in M. cbn [mts m_empty]; rewrite N. split; [tauto|]. intros (t & A & [<-|[]] & _). contradiction.
    - rewrite has_set_many. split.
      + intros (t & I & S). rewrite ho_in, set_inter_in in I. exists t. simpl. tauto.
      + intros (t & A & B & S). exists t. rewrite ho_in, set_inter_in. auto.
  Qed.

  Lemma hand_filter h f (p : list T -> bool) (P : list T -> Prop) s :
    (forall t, p t = true <-> P t) -> (forall t t', same_elems t t' -> P t -> P t') ->
    has_set (mts (m_filter h f p)) s <-> has_set (mts f) s /\ P s.
  Proof.
    intros Hp Hc.
    assert (SY : forall t, same_elems t s -> same_elems s t) by (intros t X x; symmetry; apply X).
    assert (N : has_set (@nil (list T)) s <-> False) by (split; [intros (t & [] & _)|intros []]).
    destruct f as [|s1|m]; cbn [m_filter].
    - cbn [mts m_empty]. rewrite N. tauto.
    - destruct (p s1) eqn:E.
      + apply Hp in E. cbn [mts]. split; [|tauto]. intros (t & [<-|[]] & S). split; [exists s1; simpl; auto|]. eapply Hc; eauto.
      + cbn [mts m_empty]. rewrite N. split; [tauto|]. intros ((t & [<-|[]] & S) & Q).
        assert (p s1 = true) by (apply Hp; eapply Hc; eauto). congruence.
    - rewrite has_set_many. cbn [mts]. split.
      + intros (t & I & S). rewrite filter_In, ho_in in I. destruct I as [I1 I2]. apply Hp in I2.
        split; [exists t; auto|]. eapply Hc; eauto.
      + intros ((t & I & S) & Q). exists t. split; [|exact S]. rewrite filter_In, ho_in. split; [exact I|]. apply Hp. eapply Hc; eauto.
  Qed.

  (** entries of [x] in an occurrence list, added up *)
  Fixpoint total (occ : list (T * nat)) (x : T) : nat :=
    match occ with [] => 0 | (y, k) :: r => (if eqb_ x y then k else 0) + total r x end.
  Lemma total_perm occ occ' x : Permutation occ occ' -> total occ x = total occ' x.
  Proof.
    induction 1 as [|p l l' _ IH|p q l|l m n _ IH1 _ IH2]; simpl; try lia; destruct p; try lia; try (destruct q; lia).
  Qed.
  Lemma total_absent m x : ~ In x (map fst m) -> total m x = 0.
  Proof.
    induction m as [|[y k] m IH]; intros N; [reflexivity|]. cbn [total map fst In] in *.
    destruct (eqb_spec_ x y) as [->|E]; [destruct N; auto|]. apply IH. intros X; apply N; auto.
  Qed.
  Lemma total_get m x : map_ok m -> total m x = mget m x.
  Proof.
    intros K. unfold mget. destruct (map_get m x) as [k|] eqn:E.
    - apply map_get_in in E; [|exact K]. unfold map_ok in K. apply ssorted_NoDup in K.
      induction m as [|[y j] m IH]; [destruct E|]. cbn [total map fst] in *. inversion K as [|? ? N0 N1]; subst.
      destruct E as [E0|E].
      + injection E0 as E1 E2. rewrite E1, E2 in *. destruct (eqb_spec_ x x); [|congruence]. rewrite total_absent by exact N0. lia.
      + destruct (eqb_spec_ x y) as [->|_]; [exfalso; apply N0; apply in_map_iff; exists (y, k); auto|]. rewrite IH; auto.
    - apply map_get_none in E; [|exact K]. apply total_absent. exact E.
  Qed.
  Lemma hand_occurrences h h1 f x : total (m_occurrences h1 f) x = count_occ eq_dec_ (concat (m_trees h f)) x.
  Proof.
    destruct f as [|s|m]; cbn [m_occurrences m_trees concat].
    - reflexivity.
    - rewrite app_nil_r. induction s as [|y s IH]; [reflexivity|]. cbn [map total count_occ].
      destruct (eqb_spec_ x y) as [E|E]; destruct (eq_dec_ y x) as [E'|E']; try congruence; lia.
    - destruct (occ_fold (concat (ho_iter h1 site_m1 m)) []) as (K & P & E); [constructor|intros ? ? X; discriminate X|].
      rewrite (sorted_by_key _ _ K (ho_perm h1 _ _ _)), total_get by exact K. rewrite E. unfold mget. simpl.
      apply (Permutation_count_occ eq_dec_).
      assert (X : forall l l' : list (list T), Permutation l l' -> Permutation (concat l) (concat l')).
      { induction 1; simpl; auto; [apply Permutation_app_head; auto|rewrite !app_assoc; apply Permutation_app_tail, Permutation_app_comm|etransitivity; eauto]. }
      apply X. rewrite (ho_perm h1), (ho_perm h). reflexivity.
  Qed.
  Lemma occ_keys h1 f (occ := m_occurrences h1 f) : match f with MUnit _ => True | _ => ssorted (map fst occ) end.
  Proof.
    destruct f as [|s|m]; [constructor|exact I|]. unfold occ; cbn [m_occurrences].
    destruct (occ_fold (concat (ho_iter h1 site_m1 m)) []) as (K & P & E); [constructor|intros ? ? X; discriminate X|].
    rewrite (sorted_by_key _ _ K (ho_perm h1 _ _ _)). exact K.
  Qed.
End HandProofs.

(** C84.  For every value of the enum: [union], [product] and the four filters are
    exact as families of sets ... *)
Lemma C84_union_pf : forall (T : Type) (O : Ord T) (h h1 h2 h3 : hash_order) (f g : mforest T),
  any_forest f -> any_forest g ->
  forall s, has_set (m_trees h3 (m_union h f g)) s <-> has_set (m_trees h1 f) s \/ has_set (m_trees h2 g) s.
Proof. intros T O h h1 h2 h3 f g _ _ s. rewrite !has_set_trees. apply hand_union. Qed.
Lemma C84_product_pf : forall (T : Type) (O : Ord T) (h h1 h2 h3 : hash_order) (f g : mforest T),
  any_forest f -> any_forest g ->
  forall s, has_set (m_trees h3 (m_product h f g)) s <->
            exists a b, In a (m_trees h1 f) /\ In b (m_trees h2 g) /\ is_union s a b.
Proof.
  intros T O h h1 h2 h3 f g _ _ s. destruct (m_product_spec h f g) as [_ E]. split.
  - intros (t & I & S). apply m_trees_in, E in I. destruct I as (a & b & A & B & ->).
    exists a, b. rewrite !m_trees_in. split; [exact A|]. split; [exact B|].
    intros x. rewrite <- (S x), filter_repeats_in, in_app_iff. tauto.
  - intros (a & b & A & B & U). rewrite m_trees_in in A, B. exists (filter_repeats (a ++ b)). split.
    + apply m_trees_in, E. exists a, b; auto.
    + intros x. rewrite (U x), filter_repeats_in, in_app_iff. tauto.
Qed.
Lemma C84_filters_pf : forall (T : Type) (O : Ord T) (h h1 h2 : hash_order) (f : mforest T) e es,
  any_forest f -> forall s,
  (has_set (m_trees h1 (m_subset h f e)) s <-> has_set (m_trees h2 f) s /\ In e s) /\
  (has_set (m_trees h1 (m_subset_not h f e)) s <-> has_set (m_trees h2 f) s /\ ~ In e s) /\
  (has_set (m_trees h1 (m_subset_all h f es)) s <-> has_set (m_trees h2 f) s /\ forall x, In x es -> In x s) /\
  (has_set (m_trees h1 (m_subset_none h f es)) s <-> has_set (m_trees h2 f) s /\ forall x, In x es -> ~ In x s).
Proof.
  intros T O h h1 h2 f e es _ s. rewrite !has_set_trees. split; [|split; [|split]].
  - rewrite m_subset_filter. apply hand_filter; [intros t; apply memb_spec|]. intros t t' S I. apply S. exact I.
  - rewrite m_subset_not_filter. apply (hand_filter h f _ (fun t => ~ In e t)); [intros t; apply negb_memb|]. intros t t' S N I. apply N, S, I.
  - destruct es as [|e0 es']; [simpl; split; [split; [assumption|intros x []]|tauto]|].
    rewrite m_subset_all_filter by discriminate. apply (hand_filter h f _ (fun t => forall x, In x (e0 :: es') -> In x t)).
    + intros t. rewrite forallb_forall. split; intros X x I; apply memb_spec; auto.
    + intros t t' S A x I. apply S, A, I.
  - destruct es as [|e0 es']; [simpl; split; [split; [assumption|intros x []]|tauto]|].
    rewrite m_subset_none_filter by discriminate. apply (hand_filter h f _ (fun t => forall x, In x (e0 :: es') -> ~ In x t)).
    + intros t. rewrite forallb_forall. split; intros X x I; apply negb_memb; auto.
    + intros t t' S A x I J. apply (A x I), S, J.
Qed.
(** ... [intersect] keeps exactly the sets of which both operands list the same
    vector, so it is exact if the vectors of both are ascending; two forests that
    spell one set differently have no intersection. *)
Lemma C84_intersect_pf : forall (T : Type) (O : Ord T) (h h1 h2 h3 : hash_order) (f g : mforest T),
  any_forest f -> any_forest g ->
  (forall s, has_set (m_trees h3 (m_intersect h f g)) s <->
             exists t, In t (m_trees h1 f) /\ In t (m_trees h2 g) /\ same_elems t s) /\
  ((forall t, In t (m_trees h1 f) -> ssorted t) -> (forall t, In t (m_trees h2 g) -> ssorted t) ->
   forall s, has_set (m_trees h3 (m_intersect h f g)) s <-> has_set (m_trees h1 f) s /\ has_set (m_trees h2 g) s).
Proof.
  intros T O h h1 h2 h3 f g _ _.
  assert (X : forall s, has_set (m_trees h3 (m_intersect h f g)) s <->
             exists t, In t (m_trees h1 f) /\ In t (m_trees h2 g) /\ same_elems t s).
  { intros s. rewrite has_set_trees, hand_intersect. split; intros (t & A & B & S); exists t; rewrite !m_trees_in in *; auto. }
  split; [exact X|]. intros Sf Sg s. rewrite X. split.
  - intros (t & A & B & S). split; exists t; auto.
  - intros ((t & A & S) & (u & B & S')). exists t. split; [exact A|]. split; [|exact S].
    replace t with u; [exact B|]. apply ssorted_ext; auto. intros x. rewrite (S' x), (S x). tauto.
Qed.
(** ... [trees] lists no vector twice and [len] is their number; only [Many] of an
    empty set is not [is_empty] but lists nothing; the entries of [occurrences] for an
    item add up to how often the item is listed. *)
Lemma C84_observers_pf : forall (T : Type) (O : Ord T) (h h1 : hash_order) (f : mforest T), any_forest f ->
  NoDup (m_trees h f) /\ m_len f = length (m_trees h f) /\
  (m_trees h f = [] <-> m_is_empty f = true \/ f = MMany []) /\
  (forall x, total (m_occurrences h1 f) x = count_occ eq_dec_ (concat (m_trees h f)) x) /\
  (m_len f <> 1 -> ssorted (map fst (m_occurrences h1 f))) /\
  ((forall t, In t (m_trees h f) -> NoDup t) -> forall x, total (m_occurrences h1 f) x = count (m_trees h f) x).
Proof.
  intros T O h h1 f A. split; [|split; [apply m_len_trees|split; [|split; [|split]]]].
  - eapply Permutation_NoDup; [symmetry; apply m_trees_perm|]. destruct f as [|s|m]; simpl; [constructor|repeat constructor; auto|].
    apply ssorted_NoDup. exact A.
  - destruct f as [|s|m]; simpl; [tauto|split; [discriminate|intros [X|X]; discriminate]|].
    split; [|intros [X|[= ->]]; [discriminate|]; apply Permutation_nil; symmetry; apply ho_perm].
    intros E. right. f_equal. apply Permutation_nil. rewrite <- E. apply ho_perm.
  - intros x. apply hand_occurrences.
  - intros L. pose proof (occ_keys h1 f) as K. destruct f; auto. simpl in L. congruence.
  - intros N x. rewrite (hand_occurrences h h1 f x). apply count_occ_concat. exact N.
Qed.
(** ... no result depends on the iteration orders, each is an operand or a forest that
    the constructors make, and [many] of the listing is such a forest with the same sets. *)
Lemma C84_results_pf : forall (T : Type) (O : Ord T) (h h' : hash_order) (f g : mforest T) e es,
  any_forest f -> any_forest g ->
  (m_union h f g = m_union h' f g /\ (m_union h f g = f \/ m_union h f g = g \/ MReach (m_union h f g))) /\
  (m_intersect h f g = m_intersect h' f g /\ (m_intersect h f g = f \/ m_intersect h f g = g \/ MReach (m_intersect h f g))) /\
  (m_product h f g = m_product h' f g /\ MReach (m_product h f g)) /\
  (m_subset h f e = m_subset h' f e /\ (m_subset h f e = f \/ MReach (m_subset h f e))) /\
  (m_subset_not h f e = m_subset_not h' f e /\ (m_subset_not h f e = f \/ MReach (m_subset_not h f e))) /\
  (m_subset_all h f es = m_subset_all h' f es /\ (m_subset_all h f es = f \/ MReach (m_subset_all h f es))) /\
  (m_subset_none h f es = m_subset_none h' f es /\ (m_subset_none h f es = f \/ MReach (m_subset_none h f es))) /\
  (MReach (m_many (m_trees h f)) /\ m_many (m_trees h f) = m_many (m_trees h' f) /\
   forall s, has_set (m_trees h' (m_many (m_trees h f))) s <-> has_set (m_trees h f) s).
Proof.
  intros T O h h' f g e es _ _.
  assert (P : forall A site (l : list A), Permutation (ho_iter h site l) (ho_iter h' site l)).
  { intros. rewrite (ho_perm h), (ho_perm h'). reflexivity. }
  assert (Fi : forall p, m_filter h f p = m_filter h' f p /\ (m_filter h f p = f \/ MReach (m_filter h f p))).
  { intros p. split; [apply m_filter_perm|]. destruct f as [|s|m]; cbn [m_filter]; [right; apply MR_empty| |right; apply MR_many].
    destruct (p s); [left; reflexivity|right; apply MR_empty]. }
  split; [|split; [|split; [|split; [apply (Fi (fun set => memb e set))|split; [apply (Fi (fun set => negb (memb e set)))|split; [|split; [|split; [|split]]]]]]]].
  - split.
    + unfold m_union. destruct (m_eqb f g); [reflexivity|]. destruct f, g; try reflexivity.
      * apply m_many_perm, Permutation_app; [apply P|reflexivity].
      * apply m_many_perm, Permutation_app; [apply P|reflexivity].
      * destruct (set_subset _ _); [reflexivity|]. destruct (set_subset _ _); [reflexivity|]. apply m_many_perm, P.
    + unfold m_union. destruct (m_eqb f g); [auto|]. destruct f, g; auto; try (right; right; apply MR_many).
      destruct (set_subset _ _); [auto|]. destruct (set_subset _ _); [auto|]. right; right; apply MR_many.
  - split.
    + unfold m_intersect. destruct (m_eqb f g); [reflexivity|]. destruct f, g; try reflexivity. apply m_many_perm, P.
    + unfold m_intersect. destruct (m_eqb f g); [auto|]. destruct f, g; auto; try (right; right; apply MR_many); try (right; right; apply MR_empty).
      * destruct (memb _ _); [auto|right; right; apply MR_empty].
      * destruct (memb _ _); [auto|right; right; apply MR_empty].
  - split.
    + destruct f, g; try reflexivity; cbn [m_product].
      * apply m_many_perm, Permutation_map, P.
      * apply m_many_perm, Permutation_map, P.
      * apply m_many_perm. rewrite (Permutation_flat_map _ (P _ site_m1 matrix)).
        induction (ho_iter h' site_m1 matrix) as [|r l IH]; [reflexivity|]. simpl.
        apply Permutation_app; [apply Permutation_map, P|exact IH].
    + destruct f, g; cbn [m_product]; try apply MR_empty; try apply MR_unit; apply MR_many.
  - destruct es; [split; [reflexivity|left; reflexivity]|]. rewrite !m_subset_all_filter by discriminate. apply Fi.
  - destruct es; [split; [reflexivity|left; reflexivity]|]. rewrite !m_subset_none_filter by discriminate. apply Fi.
  - apply MR_many.
  - apply m_many_perm. rewrite (m_trees_perm h f), (m_trees_perm h' f). reflexivity.
  - intros s. rewrite (has_set_trees h'). apply has_set_many.
Qed.
(** Trees: writing and reading back gives the tree, from any order of the elements;
    any data gives some value of the enum.  For every such value [intersect] and both
    products are exact, [len] counts the elements, and [union] is exact unless just one
    operand is [One] and the other, not [Empty], lacks its element: then the result is
    empty. *)
Lemma C84_tree_data_pf : forall (T : Type) (O : Ord T) (h : hash_order),
  (forall t : tree T, any_tree t -> t_deserialize (t_serialize h t) = t) /\
  (forall l l' : list T, Permutation l l' -> t_deserialize (DMany l) = t_deserialize (DMany l')) /\
  (forall d, any_tree (t_deserialize d)).
Proof.
  intros T O h. split; [|split].
  - intros [|e|s] A; simpl in *; try reflexivity. f_equal. apply ssorted_ext; [apply hset_ssorted|exact A|].
    intros x. rewrite hset_in. apply ho_in.
  - intros l l' P. simpl. f_equal. apply ssorted_ext; try apply hset_ssorted. intros x. rewrite !hset_in.
    split; apply Permutation_in; [|symmetry]; exact P.
  - intros [|e|l]; simpl; auto. apply hset_ssorted.
Qed.
Lemma C84_trees_pf : forall (T : Type) (O : Ord T) (h h1 : hash_order) (t u : tree T), any_tree t -> any_tree u ->
  (NoDup (t_elems h1 t) /\ t_len t = length (t_elems h1 t)) /\
  (forall x, In x (t_elems h1 (t_intersect h t u)) <-> In x (t_elems h1 t) /\ In x (t_elems h1 u)) /\
  ((forall x, In x (t_elems h1 (t_union h t u)) <-> In x (t_elems h1 t) \/ In x (t_elems h1 u)) <->
   ~ lost t u (t_elems h1 u) /\ ~ lost u t (t_elems h1 t)) /\
  ((lost t u (t_elems h1 u) \/ lost u t (t_elems h1 t)) -> t_union h t u = t_empty) /\
  (forall s, has_set (m_trees h1 (t_product_m h t u)) s <->
             exists a b, In a (t_elems h1 t) /\ In b (t_elems h1 u) /\ same_elems s [a; b]) /\
  (exists f ts, t_product_z h t u = Some f /\ f_trees f = Some ts /\
     forall s, has_set ts s <->
               exists a b, In a (t_elems h1 t) /\ In b (t_elems h1 u) /\ same_elems s [a; b]).
Proof.
  intros T O h h1 t u At Au. destruct (tree_union_exact T O h h1 t u) as [U1 U2].
  split; [split|split; [|split; [exact U1|split; [exact U2|]]]].
  - eapply Permutation_NoDup; [symmetry; apply t_elems_perm|]. apply ssorted_NoDup.
    destruct t as [|e|s]; simpl in *; [constructor|repeat constructor|exact At].
  - apply t_len_elems.
  - intros x. rewrite !t_elems_in. apply t_intersect_elems.
  - apply tree_product_exact.
Qed.

(** Non-vacuity: forests and trees that no constructor makes. *)
Example C84_example :
  let f := MMany [[2;1]; [3;3]] in let g := MUnit [1;2] in
  any_forest f /\ any_forest g /\
  m_trees ho_id (m_union ho_rev f g) = [[1;2]; [3]] /\
  m_trees ho_id (m_intersect ho_rev f g) = [] /\
  m_trees ho_id (m_product ho_rev f g) = [[1;2]; [1;2;3]] /\
  m_trees ho_id (m_subset ho_rev f 1) = [[1;2]] /\
  m_occurrences ho_id f = [(1, 1); (2, 1); (3, 2)] /\
  m_occurrences ho_id (MUnit [3;3]) = [(3, 1); (3, 1)] /\
  m_is_empty (MMany (@nil (list nat))) = false /\ m_len (MMany (@nil (list nat))) = 0 /\
  m_union ho_id (MMany []) g = m_unit [1;2].
Proof. cbv zeta. split; [cbv; repeat constructor|]. split; [exact I|]. vm_compute. repeat split. Qed.
Example C84_tree_example :
  let u := t_deserialize (DMany [5;2;5]) in
  any_tree u /\ t_serialize ho_rev u = DMany [5;2] /\
  lost (TOne 3) u (t_elems ho_id u) /\ t_union ho_id (TOne 3) u = TEmpty /\
  t_deserialize (T:=nat) (DMany []) = TMany [] /\ t_union ho_id (TOne 3) (TMany []) = TEmpty /\
  t_elems ho_id (t_intersect ho_rev u (TMany [1;2])) = [2].
Proof.
  cbv zeta. split; [cbv; repeat constructor|]. split; [reflexivity|]. split; [|vm_compute; repeat split].
  exists 3. vm_compute. repeat split; try discriminate. intros [X|[X|[]]]; discriminate.
Qed.
