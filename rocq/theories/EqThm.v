(** EqThm: equality of closets. *)
From Coq Require Import List Arith Lia Bool Permutation Sorted.
From Verif Require Import Base DD Spec BddModel BddRun BddNode BddCloset BddThm BddSpec.
Import ListNotations.

Lemma map_ok_ext {K V : Type} `{Ord K} (m m' : list (K * V)) : map_ok m -> map_ok m' ->
  (forall k, map_get m k = map_get m' k) -> m = m'.
Proof.
  revert m'. induction m as [|[k v] m IH]; intros [|[k' v'] m'] M M' E.
  - reflexivity.
  - specialize (E k'). cbn in E. rewrite cmp_refl in E. discriminate.
  - specialize (E k). cbn in E. rewrite cmp_refl in E. discriminate.
  - assert (A : In (k, v) ((k', v') :: m')).
    { apply map_get_in; [exact M'|]. rewrite <- E. apply map_get_in; [exact M|]. left; reflexivity. }
    assert (B : In (k', v') ((k, v) :: m)).
    { apply map_get_in; [exact M|]. rewrite E. apply map_get_in; [exact M'|]. left; reflexivity. }
    unfold map_ok in M, M'. cbn [map fst] in M, M'.
    destruct (ssorted_inv _ _ M) as (Mt & F). destruct (ssorted_inv _ _ M') as (Mt' & F').
    rewrite Forall_forall in F, F'.
    destruct A as [A|A]; [injection A as -> ->|].
    2: { assert (L : lt_ k' k) by (apply F'; apply (in_map fst) in A; exact A).
         destruct B as [B|B]; [injection B as -> ->; destruct (lt_irrefl_ _ L)|].
         apply (in_map fst) in B. apply F in B. destruct (lt_asym_ _ _ L B). }
    f_equal. apply IH; [exact Mt|exact Mt'|]. intros x. specialize (E x). cbn [map_get] in E.
    assert (Q : forall l : list (K * V), ssorted (map fst l) -> (forall y, In y (map fst l) -> lt_ k y) -> x = k \/ lt_ x k -> map_get l x = None).
    { intros l Sl Fl X. apply map_get_none; [exact Sl|]. intros Y. apply Fl in Y. destruct X as [->|X]; [exact (lt_irrefl_ _ Y)|exact (lt_asym_ _ _ X Y)]. }
    destruct (cmp x k) eqn:C; [apply cmp_eq in C| |exact E]; rewrite !Q; auto.
Qed.

Lemma valid_outfit_same {I F : Type} `{Ord I} `{Ord F} (calls : list (bcall I F)) o o' :
  (forall x, In x o <-> In x o') -> valid_outfit calls o -> valid_outfit calls o'.
Proof.
  intros E (A & B & C & D). split; [|split; [|split]].
  - intros i X. apply A, E, X.
  - intros f i X. destruct (B f i X) as (j & Y & Z & W). exists j. split; [exact Y|]. split; [apply E; exact Z|].
    intros k K O. apply W; [exact K|]. apply E. exact O.
  - intros a b X (Y & Z). apply (C a b X). rewrite !E. auto.
  - intros a b X Y. apply E. apply (D a b X). apply E. exact Y.
Qed.

(** C91.  [==] on closets - built, selected from or loaded - is equality of all that they hold. *)
Lemma C91_equality_pf : forall (I F : Type) (OI : Ord I) (OF : Ord F) (c d : closet I F),
  closet_eqb c d = true <-> c = d.
Proof.
  intros I F OI OF [a b e] [a' b' e']. unfold closet_eqb. cbn [c_index c_summary c_root].
  rewrite !andb_true_iff, !eqb_true_. destruct (dd_eqb_spec e e') as [->|N].
  - split; [intros ((-> & ->) & _); reflexivity|intros [= -> ->]; auto].
  - split; [intros (_ & X); discriminate|intros [= _ _ X]; contradiction].
Qed.

(** Two closets reached by any histories are equal exactly if the same items are in the same families,
    the same items are selected, and the same outfits remain. *)
Lemma C91_histories_pf : forall (I F : Type) (OI : Ord I) (OF : Ord F) (calls calls' : list (bcall I F)) sels sels' c c',
  reached calls sels c -> reached calls' sels' c' ->
  (closet_eqb c c' = true <->
   same_elems (adds calls) (adds calls') /\ same_elems sels sels' /\
   forall o, valid_outfit calls o /\ incl sels o <-> valid_outfit calls' o /\ incl sels' o).
Proof.
  intros I F OI OF calls calls' sels sels' c c' R R'. rewrite C91_equality_pf. split.
  - intros <-. split; [|split].
    + intros (f, i). rewrite <- (C48_families_pf _ _ _ _ _ _ _ i f R), <- (C48_families_pf _ _ _ _ _ _ _ i f R'). reflexivity.
    + intros i. rewrite <- (inv_sel _ _ _ (reached_inv _ _ _ R)), <- (inv_sel _ _ _ (reached_inv _ _ _ R')). reflexivity.
    + intros o. rewrite <- (C48_admits_valid_outfits_pf _ _ _ _ _ _ _ o R), <- (C48_admits_valid_outfits_pf _ _ _ _ _ _ _ o R'). reflexivity.
  - intros (A & S & V).
    pose proof (reached_inv _ _ _ R) as IV. pose proof (reached_inv _ _ _ R') as IV'.
    assert (K : forall x, known calls x <-> known calls' x).
    { intros x. unfold known. split; intros (f & X); exists f; apply A; exact X. }
    assert (EI : c_index c = c_index c').
    { rewrite (inv_index _ _ _ IV), (inv_index _ _ _ IV'). apply map_ok_ext; try apply index_of_ok. intros i.
      rewrite <- (inv_index _ _ _ IV), <- (inv_index _ _ _ IV'). change (get_family c i = get_family c' i).
      destruct (get_family c i) as [f|] eqn:E.
      - symmetry. apply (C48_families_pf _ _ _ _ _ _ _ i f R'), A, (C48_families_pf _ _ _ _ _ _ _ i f R), E.
      - destruct (get_family c' i) as [f|] eqn:E'; [|reflexivity].
        apply (C48_families_pf _ _ _ _ _ _ _ i f R'), A, (C48_families_pf _ _ _ _ _ _ _ i f R) in E'. congruence. }
    assert (IO : items_of calls = items_of calls').
    { unfold items_of. rewrite <- (inv_index _ _ _ IV), <- (inv_index _ _ _ IV'), EI. reflexivity. }
    assert (ER : c_root c = c_root c').
    { rewrite (inv_root _ _ _ IV), (inv_root _ _ _ IV'). apply robdd_ext.
      - apply robdd_restrict_all, robdd_root.
      - apply robdd_restrict_all, robdd_root.
      - intros env. set (p := filter env (items_of calls)).
        assert (L : forall cs ss d, Inv cs ss d -> items_of cs = items_of calls ->
          eval env (restrict_all (root_of cs) ss) = eval (fun x => memb x p) (restrict_all (root_of cs) ss)).
        { intros cs ss d J E. apply eval_ext. intros x X.
          pose proof (full_labels _ _ x (full_root cs ss (inv_legal _ _ _ J)) X) as Y. apply rest_in in Y. destruct Y as (Y & _).
          apply items_of_in in Y. rewrite E in Y. destruct (env x) eqn:Q; symmetry.
          - apply memb_spec, filter_In. auto.
          - apply memb_false. intros Z. apply filter_In in Z. destruct Z. congruence. }
        rewrite (L _ _ _ IV eq_refl), (L _ _ _ IV' (eq_sym IO)). apply eq_true_iff_eq.
        assert (P : incl p (items_of calls)) by (intros x X; apply filter_In in X; apply X).
        rewrite (eval_outfit calls sels p (inv_legal _ _ _ IV) (inv_known _ _ _ IV) P).
        rewrite (eval_outfit calls' sels' p (inv_legal _ _ _ IV') (inv_known _ _ _ IV') ltac:(rewrite <- IO; exact P)).
        assert (Q : forall x, In x (sels ++ p) <-> In x (sels' ++ p)) by (intros x; rewrite !in_app_iff, (S x); reflexivity).
        split; intros W.
        + apply (valid_outfit_same calls' (sels ++ p)); [exact Q|]. apply V. split; [exact W|]. intros x X. apply in_app_iff; auto.
        + apply (valid_outfit_same calls (sels' ++ p)); [intros x; symmetry; apply Q|]. apply V. split; [exact W|]. intros x X. apply in_app_iff; auto. }
    assert (ES : c_summary c = c_summary c').
    { apply ssorted_ext; [apply (inv_sorted _ _ _ IV)|apply (inv_sorted _ _ _ IV')|]. intros s. destruct (is_selected s) eqn:Es.
      - destruct s as [x|x|x]; try discriminate. rewrite (inv_sel _ _ _ IV x), (inv_sel _ _ _ IV' x). apply S.
      - rewrite (inv_oth _ _ _ IV s Es), (inv_oth _ _ _ IV' s Es), ER. reflexivity. }
    destruct c, c'. cbn in *. congruence.
Qed.
(** Two different histories with equal closets, and the same history after another selection. *)
Example C91_example :
  let calls := [AddItems 0 [1;2]; AddItems 7 [3;4]; AddExcl 1 3] in
  let calls' := [AddItems 7 [4;3]; AddItem 0 2; AddItem 0 1; AddIncl 1 4] in
  exists c c' d : closet nat nat, reached calls [] c /\ reached calls' [] c' /\ reached calls' [1] d /\
    closet_eqb c c' = true /\ closet_eqb c d = false.
Proof.
  cbv zeta. do 3 eexists. split; [eapply (reached_build _ ho_id); reflexivity|].
  split; [eapply (reached_build _ ho_rev); reflexivity|].
  split; [eapply (reached_select _ [] _ ho_rev); [eapply (reached_build _ ho_rev); reflexivity|reflexivity]|].
  split; reflexivity.
Qed.
