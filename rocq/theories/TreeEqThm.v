(** TreeEqThm: equality and the laws of the Tree type. *)
From Coq Require Import List Arith Lia Bool Permutation Sorted.
From Verif Require Import Base DD Spec Zdd2Model MatrixModel MatrixProofs MatrixThm.
Import ListNotations.

(** C92: the full claim (false of the code), its refutation, and what holds. *)
Definition C92_claim (T : Type) (O : Ord T) : Prop := forall (h : hash_order) (t u : tree T),
  TReach t -> TReach u -> (t_eqb t u = true <-> same_elems (t_elems h t) (t_elems h u)).
(** many([1, 1]) and one(1) hold the same element. *)
Lemma C92_equality_refuted_pf : ~ C92_claim nat _.
Proof.
  intros C. pose proof (proj2 (C ho_id (t_many [1;1]) (t_one 1) (TR_many _) (TR_one _))) as X.
  discriminate X. intros x. simpl. tauto.
Qed.

Lemma tes_ext {T} {O : Ord T} (t u : tree T) : tinv t -> tinv u -> same_elems (tes t) (tes u) -> tes t = tes u.
Proof. intros (A & _) (B & _) E. apply ssorted_ext; assumption. Qed.

(** [==] holds exactly if the same elements are held and, where that is a single element, both
    or neither are [==] to [one] of it.  (So it is extensional for all trees that do not hold
    exactly one element.) *)
Lemma C92_equality_partial_pf : forall (T : Type) (O : Ord T) (h h' : hash_order) (t u : tree T),
  TReach t -> TReach u ->
  (t_eqb t u = true <->
   same_elems (t_elems h t) (t_elems h' u) /\
   forall e, t_elems h t = [e] -> (t_eqb t (t_one e) = true <-> t_eqb u (t_one e) = true)) /\
  (t_len t <> 1 -> (t_eqb t u = true <-> same_elems (t_elems h t) (t_elems h' u))).
Proof.
  intros T O h h' t u Rt Ru. apply treach_inv in Rt, Ru.
  assert (K : t_eqb t u = true <->
   same_elems (t_elems h t) (t_elems h' u) /\
   forall e, t_elems h t = [e] -> (t_eqb t (t_one e) = true <-> t_eqb u (t_one e) = true)).
  { rewrite t_eqb_eq. split.
    - intros <-. split; [intros x; rewrite !t_elems_in; reflexivity|tauto].
    - intros (S & N).
      assert (E : tes t = tes u).
      { apply tes_ext; [assumption|assumption|]. intros x. specialize (S x). rewrite !t_elems_in in S. exact S. }
      destruct t as [|a|s], u as [|b|s2]; simpl in E; try congruence.
      + subst. destruct Ru as (_ & Ru). destruct (Ru [] eq_refl eq_refl).
      + specialize (N a eq_refl). simpl in N. rewrite eqb_refl_ in N. apply proj1 in N. specialize (N eq_refl). discriminate.
      + subst. destruct Rt as (_ & Rt). destruct (Rt [] eq_refl eq_refl).
      + subst s. specialize (N b). cbn [t_elems t_eqb t_one] in N. rewrite eqb_refl_ in N.
        assert (X : ho_iter h site_m1 [b] = [b]) by (apply Permutation_length_1_inv; symmetry; apply ho_perm).
        pose proof (proj2 (N X) eq_refl). discriminate. }
  split; [exact K|]. intros L. rewrite K. split; [tauto|]. intros S. split; [exact S|].
  intros e X. exfalso. apply L. rewrite (t_len_elems h), X. reflexivity.
Qed.

(** What the constructors give: one(e) == many([e]), empty() == many([]), the order of the
    elements does not matter. *)
Lemma C92_constructors_pf : forall (T : Type) (O : Ord T) (es es' : list T) (e : T),
  t_eqb (t_many [e]) (t_one e) = true /\ t_eqb (t_many []) (t_empty (T:=T)) = true /\
  (Permutation es es' -> t_eqb (t_many es) (t_many es') = true) /\
  (length es <> 1 -> length es' <> 1 -> same_elems es es' -> t_eqb (t_many es) (t_many es') = true).
Proof.
  intros T O es es' e.
  assert (K : length es <> 1 -> length es' <> 1 -> same_elems es es' -> t_eqb (t_many es) (t_many es') = true).
  { intros L L' S. apply t_eqb_eq.
    destruct es as [|a [|b r]]; destruct es' as [|a' [|b' r']]; try (exfalso; simpl in *; lia); try reflexivity.
    - exfalso. apply (proj2 (S a')). left; reflexivity.
    - exfalso. apply (proj1 (S a)). left; reflexivity.
    - rewrite !t_many_big by (simpl; lia). f_equal. apply ssorted_ext; try apply hset_ssorted.
      intros x. rewrite !hset_in. apply S. }
  split; [apply t_eqb_eq; reflexivity|]. split; [reflexivity|]. split; [|exact K].
  intros P. pose proof (Permutation_length P) as L. destruct (Nat.eq_dec (length es) 1) as [Q|Q].
  - destruct es as [|a [|b r]]; try discriminate. apply Permutation_length_1_inv in P. subst es'. apply t_eqb_eq. reflexivity.
  - apply K; [exact Q|congruence|]. intros x. split; apply Permutation_in; [|symmetry]; exact P.
Qed.

Lemma t_many_same {T} {O : Ord T} (l l' : list T) : NoDup l -> NoDup l' -> same_elems l l' -> t_many l = t_many l'.
Proof.
  intros N N' S. destruct l as [|e l].
  - destruct l' as [|a r]; [reflexivity|]. destruct (proj2 (S a)). left; reflexivity.
  - apply t_eqb_eq. apply (proj1 (proj2 (proj2 (C92_constructors_pf T O (e :: l) l' e)))). apply NoDup_Permutation; assumption.
Qed.
Lemma nodup_app {A} (l m : list A) : NoDup l -> NoDup m -> (forall x, In x l -> In x m -> False) -> NoDup (l ++ m).
Proof.
  intros L M D. induction L as [|x l Nx L IH]; [exact M|]. simpl. constructor.
  - rewrite in_app_iff. intros [X|X]; [exact (Nx X)|]. apply (D x); [left; reflexivity|exact X].
  - apply IH. intros y Y Z. apply (D y); [right; exact Y|exact Z].
Qed.
Lemma set_union_nodup {T} {O : Ord T} (a b : list T) : NoDup a -> NoDup b -> NoDup (set_union a b).
Proof.
  intros A B. unfold set_union. apply nodup_app; [exact A|apply NoDup_filter; exact B|].
  intros x X Y. apply filter_In in Y. destruct Y as (_ & Y). apply negb_true_iff in Y.
  exact (proj1 (memb_false _ _) Y X).
Qed.
Lemma ho_nodup {T} {O : Ord T} (h : hash_order) k (l : list T) : NoDup l -> NoDup (ho_iter h k l).
Proof. apply Permutation_NoDup. symmetry. apply ho_perm. Qed.

(** The laws, in terms of [==]: the operations do not depend on iteration order, commute, are
    idempotent, and [empty] is neutral for union and absorbing for intersect. *)
Lemma C92_laws_pf : forall (T : Type) (O : Ord T) (h h' : hash_order) (t u : tree T),
  TReach t -> TReach u ->
  t_eqb (t_union h t u) (t_union h' u t) = true /\ t_eqb (t_intersect h t u) (t_intersect h' u t) = true /\
  t_eqb (t_union h t u) (t_union h' t u) = true /\ t_eqb (t_intersect h t u) (t_intersect h' t u) = true /\
  t_eqb (t_union h t t) t = true /\ t_eqb (t_intersect h t t) t = true /\
  t_eqb (t_union h t t_empty) t = true /\ t_eqb (t_union h t_empty t) t = true /\
  t_eqb (t_intersect h t t_empty) t_empty = true /\ t_eqb (t_intersect h t_empty t) t_empty = true.
Proof.
  intros T O h h' t u Rt Ru. apply treach_inv in Rt, Ru.
  assert (RF : forall v : tree T, t_eqb v v = true) by (intros v; apply t_eqb_eq; reflexivity).
  assert (U : forall h h', t_union h t u = t_union h' u t).
  { clear h h'. intros h h'. unfold t_union. destruct (t_eqb t u) eqn:E.
    - apply t_eqb_eq in E. subst u. rewrite RF. reflexivity.
    - destruct (t_eqb u t) eqn:E'.
      { apply t_eqb_eq in E'. subst u. rewrite RF in E. discriminate. }
      destruct t as [|a|s], u as [|b|s2]; try reflexivity.
      + apply t_eqb_eq. apply (proj1 (proj2 (proj2 (C92_constructors_pf T O [a; b] [b; a] a)))). apply perm_swap.
      + destruct (set_subset s s2) eqn:A, (set_subset s2 s) eqn:B; try reflexivity.
        * exfalso. apply set_subset_spec in A, B. assert (s = s2).
          { apply ssorted_ext; [apply Rt|apply Ru|]. intros x. split; [apply A|apply B]. }
          subst. rewrite RF in E. discriminate.
        * destruct Rt as (St & _), Ru as (Su & _). simpl in St, Su. apply ssorted_NoDup in St, Su.
          apply t_many_same; try (apply ho_nodup; apply set_union_nodup; assumption).
          intros x. rewrite !ho_in, !set_union_in. tauto. }
  assert (V : forall h h', t_intersect h t u = t_intersect h' u t).
  { clear h h' U. intros h h'. unfold t_intersect. destruct (t_eqb t u) eqn:E.
    - apply t_eqb_eq in E. subst u. rewrite RF. reflexivity.
    - destruct (t_eqb u t) eqn:E'.
      { apply t_eqb_eq in E'. subst u. rewrite RF in E. discriminate. }
      destruct t as [|a|s], u as [|b|s2]; try reflexivity.
      destruct (set_subset s s2) eqn:A, (set_subset s2 s) eqn:B; try reflexivity.
      * exfalso. apply set_subset_spec in A, B. assert (s = s2).
        { apply ssorted_ext; [apply Rt|apply Ru|]. intros x. split; [apply A|apply B]. }
        subst. rewrite RF in E. discriminate.
      * destruct Rt as (St & _), Ru as (Su & _). simpl in St, Su. apply ssorted_NoDup in St, Su.
        apply t_many_same; try (apply ho_nodup; apply NoDup_filter; assumption).
        intros x. rewrite !ho_in, !set_inter_in. tauto. }
  split; [rewrite (U h h'); apply RF|]. split; [rewrite (V h h'); apply RF|].
  split; [rewrite (U h h), <- (U h' h); apply RF|]. split; [rewrite (V h h), <- (V h' h); apply RF|].
  split; [unfold t_union; rewrite RF; apply RF|]. split; [unfold t_intersect; rewrite RF; apply RF|].
  destruct t; cbn; rewrite ?eqb_refl_; auto.
Qed.
Example C92_example :
  let t := t_many [1;2;3] in let u := t_many [3;4;5] in
  TReach t /\ TReach u /\ t_len t <> 1 /\
  t_eqb (t_intersect ho_rev t u) (t_one 3) = true /\ t_eqb (t_many [3;3]) (t_one 3) = false.
Proof. cbv zeta. split; [apply TR_many|]. split; [apply TR_many|]. vm_compute. repeat split; lia. Qed.
