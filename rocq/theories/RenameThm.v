(** RenameThm: what depends on the names of the items, and what does not. *)
From Coq Require Import List Arith Lia Bool Permutation Sorted.
From Verif Require Import Base DD Spec BddSpec Zdd2Model MatrixModel ZddModel BddModel BddRun Zdd2Thm MatrixProofs MatrixThm
  Zdd2Forest Zdd2Laws ZddThm BddThm AgreeSpec AgreeThm RenameSpec RenameBase ZddSpec ZddProofs RenameZdd2 RenameZdd RenameBdd RenameAny RenameAny2.
Import BddModel BddRun BddSpec.
Import ListNotations.

Lemma f_map_len {T U} `{Ord T} `{Ord U} (r : T -> U) (f : forest T) :
  f_len (f_map r f) = f_len f /\ f_is_empty (f_map r f) = f_is_empty f.
Proof. split; reflexivity. Qed.

(** C89.  A program of zdd2 calls run with every item renamed, the order of the items kept, gives the
    renamed trees in the same order of listing, the same length and the renamed counts - whether or not
    the program computes its family exactly, and whatever the hash orders of the two runs. *)
Lemma C89_zdd2_pf : forall (T U : Type) (OT : Ord T) (OU : Ord U) (r : T -> U) (p : fexpr T) (h h' : hash_order),
  order_preserving r ->
  (exists f, runz p f) /\ (exists f', runz (renamed r p) f') /\
  forall f f', runz p f -> runz (renamed r p) f' ->
    f_trees f' = option_map (map (map r)) (f_trees f) /\
    f_len f' = f_len f /\ f_is_empty f' = f_is_empty f /\
    f_occurrences h' f' = map (renamed_count r) (f_occurrences h f).
Proof.
  intros T U OT OU r p h h' P. apply order_preserving_mono in P.
  destruct (C30_zdd2_exact_partial_pf T OT p) as ((f0 & ts & R0 & _) & _).
  split; [exists f0; exact R0|]. split; [exists (f_map r f0); apply runz_r; assumption|].
  intros f f' R1 R2. rewrite (runz_det _ f' (f_map r f) R2 (runz_r r P _ _ R1)).
  split; [apply f_trees_r; exact P|]. split; [reflexivity|]. split; [reflexivity|].
  pose proof (runz_r r P _ _ R1) as R3. apply runz_reach in R1, R3. apply Reach_Canon in R1, R3.
  destruct R1 as [o Hc], R3 as [o' Hc'].
  rewrite (occurrences_eq h _ _ Hc), <- (occurrences_eq ho_id _ _ Hc).
  rewrite (occurrences_eq h' _ _ Hc'), <- (occurrences_eq ho_id _ _ Hc').
  apply f_occurrences_r. exact P.
Qed.

(** ... and two programs give equal forests exactly when the renamed ones do. *)
Lemma f_map_inj {T U} `{Ord T} `{Ord U} (r : T -> U) : injective r -> forall f g : forest T, f_map r f = f_map r g -> f = g.
Proof.
  intros J [n u] [n' u'] E. unfold f_map in E. cbn in E. injection E as E1 E2 E3 E4. subst n'.
  destruct u as [a b c], u' as [a' b' c']. cbn in *. 
  assert (Q : forall l l' : list (T * nat), map (pmap r idn) l = map (pmap r idn) l' -> l = l').
  { induction l as [|[x k] l IH]; intros [|[x' k'] l'] E; try discriminate; [reflexivity|].
    cbn in E. injection E as A B C. apply J in A. unfold idn in B. subst. f_equal; auto. }
  f_equal. f_equal; auto. revert c' E4. clear -J. induction c as [|x c IH]; intros [|x' c'] E; try discriminate; [reflexivity|].
  cbn in E. injection E as A B. apply J in A. subst. f_equal; auto.
Qed.
Lemma C89_zdd2_equality_pf : forall (T U : Type) (OT : Ord T) (OU : Ord U) (r : T -> U) (p q : fexpr T) f g f' g',
  order_preserving r -> runz p f -> runz q g -> runz (renamed r p) f' -> runz (renamed r q) g' ->
  (f' = g' <-> f = g).
Proof.
  intros T U OT OU r p q f g f' g' P F G F' G'. apply order_preserving_mono in P.
  rewrite (runz_det _ f' (f_map r f) F' (runz_r r P _ _ F)), (runz_det _ g' (f_map r g) G' (runz_r r P _ _ G)).
  split; [apply f_map_inj, mono_inj, P|intros ->; reflexivity].
Qed.

(** The same for the matrix forests, whose listing order is that of a hash set. *)
Lemma C89_matrix_pf : forall (T U : Type) (OT : Ord T) (OU : Ord U) (r : T -> U) (p : fexpr T) (h h' : hash_order),
  order_preserving r ->
  (exists f, runm p f) /\ (exists f', runm (renamed r p) f') /\
  forall f f', runm p f -> runm (renamed r p) f' ->
    Permutation (m_trees h' f') (map (map r) (m_trees h f)) /\
    m_len f' = m_len f /\ m_is_empty f' = m_is_empty f /\
    m_occurrences h' f' = map (renamed_count r) (m_occurrences h f).
Proof.
  intros T U OT OU r p h h' P. apply order_preserving_mono in P.
  destruct (C30_matrix_exact_pf T OT p) as ((f0 & R0) & _).
  split; [exists f0; exact R0|]. split; [exists (m_map r f0); apply runm_r; assumption|].
  intros f f' R1 R2. rewrite (runm_det _ f' (m_map r f) R2 (runm_r r P _ _ R1)).
  split. { rewrite m_trees_perm, (m_trees_perm h f).
    rewrite <- (m_trees_perm ho_id (m_map r f)), (m_trees_r r), (m_trees_perm ho_id f). reflexivity. }
  split; [apply m_len_r|]. split; [apply m_is_empty_r|].
  pose proof (runm_r r P _ _ R1) as R3. apply runm_reach in R1, R3. apply reach_minv in R1, R3.
  rewrite (m_occurrences_perm h' ho_id _ R3), (m_occurrences_perm h ho_id _ R1). apply m_occurrences_r. exact P.
Qed.

(** C89, the zdd module: over the universe of the renamed items, the renamed program gives a tree with
    the renamed combinations in the same order, the renamed summary and the renamed view. *)
Lemma C89_zdd_pf : forall (T U : Type) (OT : Ord T) (OU : Ord U) (r : T -> U) (items : list T) (p : zexpr T),
  order_preserving r ->
  (zrun (zu_from items) p = None <-> zrun (zu_from (map r items)) (zrenamed r p) = None) /\
  forall t t', zrun (zu_from items) p = Some t -> zrun (zu_from (map r items)) (zrenamed r p) = Some t' ->
    zt_root t' = zt_root t /\
    z_combinations t' = option_map (map (map r)) (z_combinations t) /\
    z_combinations_recursive t' = map (map r) (z_combinations_recursive t) /\
    z_traverse t' = option_map (dd_renamed r) (z_traverse t) /\
    forall inc exc (h h' : hash_order),
      z_combinations_with t' (map r inc) (map r exc) = option_map (map (map r)) (z_combinations_with t inc exc) /\
      z_summarize h' t' (map r inc) (map r exc) = option_map (map (zstatus_renamed r)) (z_summarize h t inc exc).
Proof.
  intros T U OT OU r items p P. apply order_preserving_mono in P.
  rewrite (zu_from_r r P), (zrun_r r P). split.
  { destruct (zrun (zu_from items) p); split; intros E; cbn in *; congruence. }
  intros t t' R1 R2. rewrite R1 in R2. injection R2 as <-.
  split; [reflexivity|]. split; [apply z_combinations_r; exact P|]. split; [apply z_combinations_recursive_r; exact P|].
  split; [apply z_traverse_r|]. intros inc exc h h'.
  split; [apply z_combinations_with_r; exact P|].
  rewrite (C41_summarize_deterministic_pf U OU h' ho_id), (C41_summarize_deterministic_pf T OT h ho_id).
  apply z_summarize_r. exact P.
Qed.

(** C89, bowtie: the outcome of [build], *)
Lemma C89_build_pf : forall (I J F G : Type) (OI : Ord I) (OJ : Ord J) (OF : Ord F) (OG : Ord G)
    (r : I -> J) (s : F -> G) (calls : list (bcall I F)) (h h' : hash_order),
  order_preserving r -> order_preserving s ->
  build h' (run_calls (map (call_renamed r s) calls)) =
  res_renamed (closet_renamed r s) (build_error_renamed r s) (build h (run_calls calls)).
Proof.
  intros I J F G OI OJ OF OG r s calls h h' P Q. apply order_preserving_mono in P, Q.
  apply build_r; assumption.
Qed.
(** ... and everything a closet reached by building and selecting answers. *)
Lemma C89_bowtie_pf : forall (I J F G : Type) (OI : Ord I) (OJ : Ord J) (OF : Ord F) (OG : Ord G)
    (r : I -> J) (s : F -> G) (calls : list (bcall I F)) (sels : list I) (c : closet I F) (c' : closet J G),
  order_preserving r -> order_preserving s ->
  reached calls sels c -> reached (map (call_renamed r s) calls) (map r sels) c' ->
  c_summary c' = map (status_renamed r) (c_summary c) /\
  c_root c' = dd_renamed r (c_root c) /\
  outfit_count (c_root c') = outfit_count (c_root c) /\ node_count (c_root c') = node_count (c_root c) /\
  leaf_count (c_root c') = leaf_count (c_root c) /\ depth (c_root c') = depth (c_root c) /\
  (forall i, get_family c' (r i) = option_map s (get_family c i)) /\
  (forall h h' i, select_item h' c' (r i) =
     res_renamed (closet_renamed r s) (select_error_renamed r) (select_item h c i)) /\
  (forall sel, complete_outfit c' (map r sel) =
     option_map (res_renamed (map r) (outfit_error_renamed r s)) (complete_outfit c sel)) /\
  (forall unknown items, categorize (s unknown) c' (map r items) = by_family r s (categorize unknown c items)).
Proof.
  intros I J F G OI OJ OF OG r s calls sels c c' P Q R1 R2. apply order_preserving_mono in P, Q.
  rewrite (reached_det _ _ c' (closet_renamed r s c) R2) by (apply reached_r; assumption).
  cbn [closet_renamed c_summary c_root]. split; [reflexivity|]. split; [reflexivity|].
  split; [apply outfit_count_r|]. split; [apply node_count_r|]. split; [apply leaf_count_r|]. split; [apply depth_r|].
  split; [intros; apply get_family_r; exact P|]. split; [intros; apply select_item_r; exact P|].
  split; [intros; apply complete_outfit_r; assumption|]. intros; apply categorize_r; assumption.
Qed.
(** ... the same selections are accepted *)
Lemma C89_reached_pf : forall (I J F G : Type) (OI : Ord I) (OJ : Ord J) (OF : Ord F) (OG : Ord G)
    (r : I -> J) (s : F -> G) (calls : list (bcall I F)) (sels : list I),
  order_preserving r -> order_preserving s ->
  ((exists c, reached calls sels c) <-> exists c', reached (map (call_renamed r s) calls) (map r sels) c').
Proof.
  intros I J F G OI OJ OF OG r s calls sels P Q. apply order_preserving_mono in P, Q. split.
  { intros [c R]. exists (closet_renamed r s c). apply reached_r; assumption. }
  intros [c' R]. remember (map r sels) as l eqn:E. revert sels E.
  induction R as [h c0 B|sl c0 h i c1 R1 IH B]; intros sels E.
  - destruct sels; [|discriminate]. rewrite (build_r r s P Q h h) in B.
    destruct (build h (run_calls calls)) eqn:D; [|discriminate]. eexists. eapply reached_build. exact D.
  - destruct sels as [|x sels _] using rev_ind; [destruct sl; discriminate|].
    rewrite map_app in E. cbn [map] in E. apply app_inj_tail in E. destruct E as [-> ->].
    destruct (IH sels eq_refl) as [c Rc].
    pose proof (reached_r r s P Q _ _ _ Rc) as Rr.
    rewrite (reached_det _ _ _ _ R1 Rr), (select_item_r r s P h h) in B.
    destruct (select_item h c x) eqn:D; [|discriminate]. exists a. eapply reached_select; eassumption.
Qed.

(** C89 at work: 1, 2, 3, ... become 10, 20, 30, ... *)
Example C89_example : order_preserving (fun n => 10 * n) /\
  (let p := EUnion (EMany [[2];[1;2]]) (EMany [[1]]) in
   (exists f, runz p f /\ f_trees f = Some [[1;2];[1]]) /\
   exists f', runz (renamed (fun n => 10 * n) p) f' /\ f_trees f' = Some [[10;20];[10]]).
Proof.
  split. { intros x y L. apply lt_nat. apply lt_nat in L. lia. }
  split; eexists; (split; [eapply (Z_union ho_id); [eapply (Z_many ho_id)|eapply (Z_many ho_rev)|]; reflexivity|reflexivity]).
Qed.

Section Aux.
  Context {I F : Type} `{OI : Ord I} `{OF : Ord F}.
  Implicit Types (calls : list (bcall I F)) (c : closet I F).
  Lemma filter_none {A} (p : A -> bool) l : (forall x, In x l -> p x = false) -> filter p l = [].
  Proof.
    induction l as [|x l IH]; intros E; [reflexivity|]. cbn [filter]. rewrite (E x) by (left; reflexivity).
    apply IH. intros y Y. apply E. right; exact Y.
  Qed.
  Lemma valid_same calls o o' : (forall x, In x o <-> In x o') -> valid_outfit calls o -> valid_outfit calls o'.
  Proof.
    intros E (A & B & C & D). split; [|split; [|split]].
    - intros i X. apply A, E, X.
    - intros f i X. destruct (B f i X) as (j & Y & Z & W). exists j. split; [exact Y|]. split; [apply E; exact Z|].
      intros k K O. apply W; [exact K|]. apply E. exact O.
    - intros a b X (Y & Z). apply (C a b X). rewrite !E. auto.
    - intros a b X Y. apply E. apply (D a b X). apply E. exact Y.
  Qed.
  Lemma undecided_exists calls sels c : reached calls sels c ->
    exists un, NoDup un /\ forall i, In i un <-> known calls i /\ ~ In i sels.
  Proof.
    intros _. exists (filter (fun i => negb (memb i sels)) (filter_repeats (map snd (adds calls)))). split.
    - apply NoDup_filter, ssorted_NoDup, filter_repeats_ssorted.
    - intros i. rewrite filter_In, filter_repeats_in, in_map_iff, negb_true_iff, memb_false. unfold known. split.
      + intros (((f & j) & <- & A) & B). eauto.
      + intros ((f & A) & B). split; [exists (f, i)|]; auto.
  Qed.
  Lemma no_outfit_summary calls sels c : reached calls sels c -> ~ satisfiable calls sels ->
    forall s, In s (c_summary c) <-> exists x, s = Selected x /\ In x sels.
  Proof.
    intros R S s. assert (i : I) by (destruct s as [i|i|i]; exact i).
    exact (proj1 (C52_no_outfit_partial_pf _ _ _ _ _ _ _ ho_id i R S) s).
  Qed.
  Lemma select_error_item h c i e : select_item h c i = Err e -> e = ExcludedItem i \/ e = UnknownItem i.
  Proof.
    unfold select_item. intros E. repeat match type of E with context [match ?x with _ => _ end] => destruct x end; inversion E; auto.
  Qed.
  Lemma outcome_cases calls sels c sel : reached calls sels c ->
    ((exists m, complete_outfit c sel = Some (Err (MultipleItemsPerFamily m))) <->
     (forall i, In i sel -> known calls i) /\ ~ NoDup (map (first_family calls) sel)) /\
    ((exists l, complete_outfit c sel = Some (Err (IncompatibleSelections l))) <->
     (forall i, In i sel -> known calls i) /\ NoDup (map (first_family calls) sel) /\ ~ satisfiable calls (sels ++ sel)).
  Proof.
    intros R. split; split.
    - intros (m & E). apply (C55_multiple_pf _ _ _ _ _ _ _ sel m R) in E. tauto.
    - intros (K & N). destruct (C55_unknown_pf _ _ _ _ _ _ _ sel R) as (P & U).
      destruct (complete_outfit c sel) as [[o|[u|l|m]]|] eqn:E; [| | |eauto|congruence]; exfalso.
      + destruct (proj1 (proj2 (C56_earlier_selections_partial_pf _ _ _ _ _ _ _ sel R)) (ex_intro _ o E)) as (_ & B & _). contradiction.
      + destruct (proj1 (U u) eq_refl) as (-> & B). apply B. apply filter_none. intros x X.
        destruct (K x X) as (f & A). unfold first_family. destruct (find _ _) eqn:D; [reflexivity|].
        exfalso. apply (find_none _ _ D) in A. cbn in A. rewrite eqb_refl_ in A. discriminate.
      + apply (C55_incompatible_pf _ _ _ _ _ _ _ sel l R) in E. tauto.
    - intros (l & E). apply (C55_incompatible_pf _ _ _ _ _ _ _ sel l R) in E. tauto.
    - intros (K & N & S). exists (sort sel). apply (C55_incompatible_pf _ _ _ _ _ _ _ sel _ R).
      split; [exact K|]. split; [exact N|]. split; [exact S|]. split.
      + apply sort_ssorted. exact (NoDup_map_inv _ _ N).
      + intros x. apply sort_in.
  Qed.
End Aux.

(** ** C90: renamings that confuse no two items, but may change their order *)
Lemma nil_length_iff {A B} (l : list A) (l' : list B) : length l = length l' -> (l = [] <-> l' = []).
Proof. destruct l, l'; cbn; intros E; try discriminate; split; congruence. Qed.

(** The matrix forests: every program gives the renamed family. *)
Lemma C90_matrix_pf : forall (T U : Type) (OT : Ord T) (OU : Ord U) (r : T -> U) (p : fexpr T) (h h' : hash_order) f f',
  injective r -> runm p f -> runm (renamed r p) f' ->
  carried_family r (m_trees h f) (m_trees h' f') /\
  m_len f' = m_len f /\ m_is_empty f' = m_is_empty f /\
  carried_counts r (m_occurrences h f) (m_occurrences h' f').
Proof.
  intros T U OT OU r p h h' f f' J R R'.
  destruct (proj2 (C30_matrix_exact_pf T OT p) h f R) as (N & M).
  destruct (proj2 (C30_matrix_exact_pf U OU (renamed r p)) h' f' R') as (N' & M').
  destruct (C28_observers_exact_pf T OT h h f (runm_reach _ _ R)) as (W & L & E & So & O).
  destruct (C28_observers_exact_pf U OU h' h' f' (runm_reach _ _ R')) as (W' & L' & E' & So' & O').
  assert (S : forall t, In t (m_trees h f) -> ssorted t) by (intros t It; apply M in It; exact (proj2 (family_ok p) t It)).
  assert (C : carried_family r (m_trees h f) (m_trees h' f')).
  { apply (img_carried r J); auto. intros t'. rewrite (M' t'), (family_renamed r J p t').
    split; intros (t & A & B); exists t; rewrite (M t) in *; auto. }
  split; [exact C|]. split; [destruct C as (_ & Q & _); congruence|]. split.
  - destruct C as (_ & Q & _). pose proof (nil_length_iff _ _ Q) as K.
    destruct (m_is_empty f) eqn:B, (m_is_empty f') eqn:B'; try reflexivity; exfalso.
    + assert (X : m_trees h f = []) by (apply E; reflexivity). apply K, E' in X. discriminate.
    + assert (X : m_trees h' f' = []) by (apply E'; reflexivity). apply K, E in X. discriminate.
  - eapply (counts_carried r J); eauto.
Qed.
Example C90_matrix_example : injective (fun n => match n with 1 => 2 | 2 => 1 | _ => n end) /\
  runm (EUnion (EMany [[2];[1;2]]) (EMany [[1]])) (MMany [[1];[1;2];[2]]) /\
  ~ order_preserving (fun n => match n with 1 => 2 | 2 => 1 | _ => n end).
Proof.
  split. { intros [|[|[|x]]] [|[|[|y]]]; cbn; congruence. }
  split. { exact (X_union ho_id _ _ _ _ (X_many [[2];[1;2]]) (X_many [[1]])). }
  intros P. assert (L : lt_ 1 2) by reflexivity. apply P in L. discriminate.
Qed.

(** The zdd2 forests: not so.  Swapping the items 1 and 2 loses a tree of a union. *)
Definition C90_claim : Prop := forall (T U : Type) (OT : Ord T) (OU : Ord U) (r : T -> U) (p : fexpr T) f f',
  injective r -> runz p f -> runz (renamed r p) f' -> f_len f' = f_len f.
Lemma C90_zdd2_refuted_pf :
  (let r := fun n => match n with 1 => 2 | 2 => 1 | _ => n end in
   let p := EUnion (EMany [[1];[1;2]]) (EMany [[2]]) in
   injective r /\
   (exists f, runz p f /\ f_trees f = Some [[1;2];[1];[2]]) /\
   exists f', runz (renamed r p) f' /\ f_trees f' = Some [[1;2];[1]]) /\
  ~ C90_claim.
Proof.
  assert (W : let r := fun n => match n with 1 => 2 | 2 => 1 | _ => n end in
   let p := EUnion (EMany [[1];[1;2]]) (EMany [[2]]) in
   injective r /\
   (exists f, runz p f /\ f_trees f = Some [[1;2];[1];[2]] /\ f_len f = Some 3) /\
   exists f', runz (renamed r p) f' /\ f_trees f' = Some [[1;2];[1]] /\ f_len f' = Some 2).
  { cbv zeta. split. { intros [|[|[|x]]] [|[|[|y]]]; cbn; congruence. }
    split; eexists; (split; [eapply (Z_union ho_id); [eapply (Z_many ho_id)|eapply (Z_many ho_rev)|]; reflexivity|split; reflexivity]). }
  cbv zeta in W. destruct W as (J & (f & R & E & L) & (f' & R' & E' & L')). split.
  - cbv zeta. split; [exact J|]. split; [exists f|exists f']; auto.
  - intros C. specialize (C _ _ _ _ _ _ _ _ J R R'). congruence.
Qed.

(** They do for programs that are orderly under both names ... *)
Lemma C90_zdd2_partial_pf : forall (T U : Type) (OT : Ord T) (OU : Ord U) (r : T -> U) (p : fexpr T) (h h' : hash_order) f f' ts,
  injective r -> orderly p -> orderly (renamed r p) -> runz p f -> runz (renamed r p) f' -> f_trees f = Some ts ->
  exists ts', f_trees f' = Some ts' /\ carried_family r ts ts' /\
    f_len f' = f_len f /\ f_is_empty f' = f_is_empty f /\
    carried_counts r (f_occurrences h f) (f_occurrences h' f').
Proof.
  intros T U OT OU r p h h' f f' ts J D D' R R' E.
  destruct (C03_trees_well_formed_pf U OU f' (runz_reach _ _ R')) as (ts' & E' & (W1' & W2') & _).
  destruct (C03_trees_well_formed_pf T OT f (runz_reach _ _ R)) as (ts0 & E0 & (W1 & W2) & _).
  rewrite E in E0. injection E0 as <-.
  pose proof (orderly_exact p D f ts R E) as X. pose proof (orderly_exact _ D' f' ts' R' E') as X'.
  assert (C : carried_family r ts ts').
  { apply (img_carried r J); auto. intros t'. rewrite (X' t'), proper_in, (family_renamed r J p t'). split.
    - intros (N & t & A & ->). exists t. split; [|reflexivity]. apply X, proper_in. split; [|exact A].
      intros ->. apply N. reflexivity.
    - intros (t & A & ->). apply X, proper_in in A. split; [|exists t; tauto]. rewrite (rset_nil r). apply A. }
  exists ts'. split; [exact E'|]. split; [exact C|].
  destruct C as (N' & Q & I').
  assert (L : f_len f' = f_len f /\ f_is_empty f' = f_is_empty f).
  { unfold f_trees in E, E'. unfold f_len, f_is_empty.
    destruct (node_trees (f_root f)) as [n|]; [|discriminate]. destruct (node_trees (f_root f')) as [n'|]; [|discriminate].
    cbn [bind] in *. injection E as <-. injection E' as <-. rewrite !map_length in Q. rewrite Q. split; [reflexivity|].
    destruct n, n'; cbn in Q; try discriminate; reflexivity. }
  split; [apply L|]. split; [apply L|].
  destruct (C05_occurrences_exact_pf T OT h f ts (runz_reach _ _ R) E) as (So & O).
  destruct (C05_occurrences_exact_pf U OU h' f' ts' (runz_reach _ _ R') E') as (So' & O').
  eapply (counts_carried r J); eauto. repeat split; auto; apply I'.
Qed.
(** ... in particular for those whose binary operations have operands without common items, whose products
    are not given the empty set and whose [subset_none] has one element. *)
Lemma mentions_renamed {T U : Type} (r : T -> U) (p : fexpr T) : mentions (renamed r p) = map r (mentions p).
Proof.
  induction p as [|s|m|s|a IHa b IHb|a IHa b IHb|a IHa b IHb|a IHa e|a IHa e|a IHa es|a IHa es]; cbn [renamed mentions];
    try reflexivity; try assumption; [symmetry; apply concat_map|..]; rewrite map_app, IHa, IHb; reflexivity.
Qed.
Lemma no_empty_renamed {T U : Type} (r : T -> U) (p : fexpr T) : no_empty_row (renamed r p) <-> no_empty_row p.
Proof.
  induction p as [|s|m|s|a IHa b IHb|a IHa b IHb|a IHa b IHb|a IHa e|a IHa e|a IHa es|a IHa es]; cbn [renamed no_empty_row]; try tauto.
  - split; intros N E; apply N; [subst; reflexivity|destruct s; [reflexivity|discriminate]].
  - split; intros N E; apply N.
    + change (@nil U) with (map r []). apply in_map. exact E.
    + apply in_map_iff in E. destruct E as ([|x s] & E & A); [exact A|discriminate].
Qed.
Lemma tame_renamed {T U : Type} (r : T -> U) (p : fexpr T) : injective r -> tame p -> tame (renamed r p).
Proof.
  intros J. induction p as [|s|m|s|a IHa b IHb|a IHa b IHb|a IHa b IHb|a IHa e|a IHa e|a IHa es|a IHa es]; cbn [renamed tame]; try tauto.
  - intros (A & B & C). split; [auto|]. split; [auto|]. rewrite !mentions_renamed. intros y Y Y'. apply in_map_iff in Y, Y'.
    destruct Y as (x & <- & Y), Y' as (x' & E & Y'). apply J in E. subst. exact (C _ Y Y').
  - intros (A & B & C). split; [auto|]. split; [auto|]. rewrite !mentions_renamed. intros y Y Y'. apply in_map_iff in Y, Y'.
    destruct Y as (x & <- & Y), Y' as (x' & E & Y'). apply J in E. subst. exact (C _ Y Y').
  - intros (A & B & C & D & E'). split; [auto|]. split; [auto|]. rewrite !mentions_renamed, !no_empty_renamed. split; [|auto].
    intros y Y Y'. apply in_map_iff in Y, Y'.
    destruct Y as (x & <- & Y), Y' as (x' & E & Y'). apply J in E. subst. exact (C _ Y Y').
  - intros (A & B). split; [auto|]. intros x y X Y. apply in_map_iff in X, Y. destruct X as (u1 & <- & X), Y as (u2 & <- & Y).
    f_equal. auto.
Qed.
Lemma C90_zdd2_tame_partial_pf : forall (T U : Type) (OT : Ord T) (OU : Ord U) (r : T -> U) (p : fexpr T) (h h' : hash_order) f f' ts,
  injective r -> tame p -> runz p f -> runz (renamed r p) f' -> f_trees f = Some ts ->
  exists ts', f_trees f' = Some ts' /\ carried_family r ts ts' /\
    f_len f' = f_len f /\ f_is_empty f' = f_is_empty f /\
    carried_counts r (f_occurrences h f) (f_occurrences h' f').
Proof.
  intros T U OT OU r p h h' f f' ts J Tm. apply C90_zdd2_partial_pf; auto.
  - apply C30_tame_orderly_partial_pf; exact Tm.
  - apply C30_tame_orderly_partial_pf, tame_renamed; assumption.
Qed.
Example C90_tame_example : tame (T:=nat) (EProduct (EUnion (EMany [[1;2];[3]]) (EUnique [4;5])) (EUnit [6])).
Proof. cbn. repeat split; try (intros x; cbn; intuition lia); intuition discriminate. Qed.

(** The zdd module: with the items of the universe renamed in place, every program gives the very same
    diagram, hence the renamed combinations, filtered combinations, summary and view. *)
Lemma C90_zdd_pf : forall (T U : Type) (OT : Ord T) (OU : Ord U) (r : T -> U) (items : list T) (p : zexpr T), injective r ->
  exists t t' cs cs', zrun (zu_from items) p = Some t /\ zrun (zu_from (map r items)) (zrenamed r p) = Some t' /\
    zt_root t' = zt_root t /\
    z_combinations t = Some cs /\ z_combinations t' = Some cs' /\ carried_family r cs cs' /\
    z_traverse t' = option_map (dd_renamed r) (z_traverse t) /\
    forall inc exc (h h' : hash_order), exists rs rs' ss ss',
      z_combinations_with t inc exc = Some rs /\ z_combinations_with t' (map r inc) (map r exc) = Some rs' /\
      carried_family r rs rs' /\
      z_summarize h t inc exc = Some ss /\ z_summarize h' t' (map r inc) (map r exc) = Some ss' /\
      NoDup ss' /\ forall x', In x' ss' <-> exists x, In x ss /\ x' = zstatus_renamed r x.
Proof.
  intros T U OT OU r items p J. destruct (zrun_any r J items p) as (t & t' & R & R' & V & V' & Q).
  exists t, t', (zcombs t), (zcombs t'). split; [exact R|]. split; [exact R'|]. split; [exact Q|].
  split; [apply z_combinations_eq|]. split; [apply z_combinations_eq|].
  split.
  { apply (img_carried r J); [apply ssorted_NoDup, filter_repeats_ssorted|apply ssorted_NoDup, filter_repeats_ssorted|apply zcombs_ssorted|].
    apply (zcombs_any r items t t' V V' Q). }
  split.
  { unfold z_traverse. rewrite Q, V, V'. clear. induction (zt_root t) as [b|i lo IHl hi IHh]; [reflexivity|].
    cbn [z_from_node]. rewrite IHl, IHh. unfold z_get_item. cbn [zu_from zu_items]. rewrite nth_error_map.
    destruct (nth_error items i); [|reflexivity]. cbn [option_map bind].
    destruct (z_from_node (zu_from items) lo); [|reflexivity]. cbn [option_map bind].
    destruct (z_from_node (zu_from items) hi); reflexivity. }
  intros inc exc h h'.
  destruct (with_any r J items t t' inc exc V V' Q) as (rs & rs' & A & A' & S & S' & SS & M).
  destruct (C41_summarize_exact_pf T OT h t inc exc) as (k & ss & K & X & Y1 & Y2 & Y3). rewrite A in K. injection K as <-.
  destruct (C41_summarize_exact_pf U OU h' t' (map r inc) (map r exc)) as (k & ss' & K & X' & Y1' & Y2' & Y3'). rewrite A' in K. injection K as <-.
  exists rs, rs', ss, ss'. split; [exact A|]. split; [exact A'|].
  split. { apply (img_carried r J); [apply ssorted_NoDup; exact S|apply ssorted_NoDup; exact S'|exact SS|exact M]. }
  split; [exact X|]. split; [exact X'|]. split; [exact (NoDup_map_inv _ _ Y2')|].
  assert (RR : forall x, status_rule (map r inc) rs' (zstatus_renamed r x) <-> status_rule inc rs x).
  { assert (B1 : forall x, (forall c, In c rs' -> ~ In (r x) c) <-> (forall c, In c rs -> ~ In x c)).
    { intros x. split; intros B c I C.
      - apply (B (rset r c)); [apply M; eauto|apply rset_in; assumption].
      - apply M in I. destruct I as (d & I & ->). apply (rset_in r J) in C. exact (B d I C). }
    assert (B2 : forall x, (forall c, In c rs' -> In (r x) c) <-> (forall c, In c rs -> In x c)).
    { intros x. split; intros B c I.
      - apply (rset_in r J). apply B. apply M. eauto.
      - apply M in I. destruct I as (d & I & ->). apply rset_in; auto. }
    assert (B3 : forall x, (exists c, In c rs' /\ In (r x) c) <-> (exists c, In c rs /\ In x c)).
    { intros x. split; intros (c & I & B).
      - apply M in I. destruct I as (d & I & ->). apply (rset_in r J) in B. eauto.
      - exists (rset r c). split; [apply M; eauto|apply rset_in; assumption]. }
    assert (B4 : forall x, (exists c, In c rs' /\ ~ In (r x) c) <-> (exists c, In c rs /\ ~ In x c)).
    { intros x. split; intros (c & I & B).
      - apply M in I. destruct I as (d & I & ->). rewrite (rset_in r J) in B. exists d. auto.
      - exists (rset r c). split; [apply M; eauto|]. rewrite (rset_in r J). exact B. }
    intros [x|x|x|x]; cbn [zstatus_renamed status_rule]; rewrite ?B1, ?B2, ?B3, ?B4, ?(in_map_inj r J); reflexivity. }
  intros x'. rewrite (Y3' x'), V'. cbn [zu_from zu_items]. split.
  - intros (I & B). apply in_map_iff in I. destruct I as (x & E & I).
    assert (Z : exists z, x' = zstatus_renamed r z /\ ZddSpec.status_item z = x).
    { destruct x' as [y|y|y|y]; cbn in E; subst y; [exists (ZRequired x)|exists (ZExcluded x)|exists (ZAvailable x)|exists (ZSelected x)]; split; reflexivity. }
    destruct Z as (z & -> & <-). exists z. split; [|reflexivity]. apply Y3. rewrite V. split; [exact I|]. apply RR. exact B.
  - intros (x & I & ->). apply Y3 in I. rewrite V in I. cbn [zu_from zu_items] in I. destruct I as (I & B). split; [|apply RR; exact B].
    destruct x; cbn in *; apply in_map; exact I.
Qed.
Example C90_zdd_example :
  let r := fun n => match n with 1 => 3 | 3 => 1 | _ => n end in
  let p := ZERestrict (ZEProduct (ZEHyper [[1;2];[2]]) (ZEUnique [3;4])) [2] [4] in
  (exists t, zrun (zu_from [1;2;3;4]) p = Some t /\ z_combinations t = Some [[1;2;3];[2;3]]) /\
  (exists t, zrun (zu_from [3;2;1;4]) (zrenamed r p) = Some t /\ z_combinations t = Some [[1;2];[1;2;3]]).
Proof. cbv zeta. split; eexists; (split; [reflexivity|reflexivity]). Qed.

(** bowtie: the same histories build, the same selections are accepted, *)
Lemma C90_reached_pf : forall (I J F G : Type) (OI : Ord I) (OJ : Ord J) (OF : Ord F) (OG : Ord G)
    (r : I -> J) (s : F -> G) (calls : list (bcall I F)) (sels : list I),
  injective r -> injective s ->
  ((exists c, reached calls sels c) <-> exists c', reached (map (call_renamed r s) calls) (map r sels) c').
Proof. intros I J F G OI OJ OF OG r s calls sels P Q. apply reached_any; assumption. Qed.

(** ... and the closets agree on everything but the order of listing, the shape of the diagram and which
    outfit [complete_outfit] picks. *)
Lemma C90_bowtie_pf : forall (I J F G : Type) (OI : Ord I) (OJ : Ord J) (OF : Ord F) (OG : Ord G)
    (r : I -> J) (s : F -> G) (calls : list (bcall I F)) (sels : list I) (c : closet I F) (c' : closet J G),
  injective r -> injective s ->
  reached calls sels c -> reached (map (call_renamed r s) calls) (map r sels) c' ->
  (forall o', admits c' o' <-> exists o, admits c o /\ o' = map r o) /\
  outfit_count (c_root c') = outfit_count (c_root c) /\ depth (c_root c') = depth (c_root c) /\
  (forall i, get_family c' (r i) = option_map s (get_family c i)) /\
  (forall x', In x' (c_summary c') <-> exists x, In x (c_summary c) /\ x' = status_renamed r x) /\
  (forall h h' i, ((exists d, select_item h c i = Ok d) <-> exists d', select_item h' c' (r i) = Ok d') /\
     forall e, select_item h c i = Err e <-> select_item h' c' (r i) = Err (select_error_renamed r e)) /\
  (forall sel,
     ((exists o, complete_outfit c sel = Some (Ok o)) <-> exists o', complete_outfit c' (map r sel) = Some (Ok o')) /\
     (forall u, complete_outfit c sel = Some (Err (UnknownItems u)) <->
                complete_outfit c' (map r sel) = Some (Err (UnknownItems (map r u)))) /\
     (forall m m', complete_outfit c sel = Some (Err (MultipleItemsPerFamily m)) ->
                complete_outfit c' (map r sel) = Some (Err (MultipleItemsPerFamily m')) ->
                forall g l', In (g, l') m' <-> exists f l, In (f, l) m /\ g = s f /\ l' = map r l) /\
     ((exists m, complete_outfit c sel = Some (Err (MultipleItemsPerFamily m))) <->
      exists m', complete_outfit c' (map r sel) = Some (Err (MultipleItemsPerFamily m'))) /\
     ((exists l, complete_outfit c sel = Some (Err (IncompatibleSelections l))) <->
      exists l', complete_outfit c' (map r sel) = Some (Err (IncompatibleSelections l')))).
Proof.
  intros I J F G OI OJ OF OG r s calls sels c c' Jr Js R R'.
  assert (Ad : forall o, admits c o <-> valid_outfit calls o /\ incl sels o) by (intros o; exact (C48_admits_valid_outfits_pf _ _ _ _ _ _ _ o R)).
  assert (Ad' : forall o, admits c' o <-> valid_outfit (map (call_renamed r s) calls) o /\ incl (map r sels) o)
    by (intros o; exact (C48_admits_valid_outfits_pf _ _ _ _ _ _ _ o R')).
  assert (Kd : forall i, known (map (call_renamed r s) calls) (r i) <-> known calls i) by (intros i; exact (known_r r s Jr Js calls i)).
  assert (Dec := reached_dec _ _ _ R).
  split; [|split; [|split; [|split; [|split; [|split]]]]].
  - intros o'. rewrite Ad'. split.
    + intros (V & C). destruct (valid_image r s Jr Js calls o' V) as (o & ->). exists o.
      rewrite (valid_any r s Jr Js) in V. rewrite (incl_any r Jr) in C. rewrite Ad. auto.
    + intros (o & A & ->). apply Ad in A. rewrite (valid_any r s Jr Js), (incl_any r Jr). exact A.
  - destruct (C49_outfit_count_pf _ _ _ _ _ _ _ R) as (os & N & M & ->).
    destruct (C49_outfit_count_pf _ _ _ _ _ _ _ R') as (os' & N' & M' & ->).
    assert (C : carried_family r os os'); [|destruct C as (_ & Q & _); exact Q].
    apply (img_carried r Jr); auto. { intros t It. apply M in It. apply It. }
    intros t'. rewrite (M' t'). split.
    + intros (S & V & C). destruct (valid_image r s Jr Js calls t' V) as (o & ->).
      exists (filter_repeats o). rewrite (valid_any r s Jr Js) in V. rewrite (incl_any r Jr) in C. split.
      * apply M. split; [apply filter_repeats_ssorted|]. split.
        -- apply (valid_same calls o); [|exact V]. intros x. symmetry. apply filter_repeats_in.
        -- intros x X. apply filter_repeats_in, C, X.
      * rewrite (rset_fr r). symmetry. apply fr_id. exact S.
    + intros (t & A & ->). apply M in A. destruct A as (S & V & C). split; [apply filter_repeats_ssorted|]. split.
      * apply (valid_same _ (map r t)); [|apply (valid_any r s Jr Js); exact V]. intros y. unfold rset. rewrite filter_repeats_in. reflexivity.
      * intros y Y. apply in_map_iff in Y. destruct Y as (i & <- & Y). apply (rset_in r Jr). apply C, Y.
  - destruct (undecided_exists _ _ _ R) as (un & N & M).
    assert (X : (satisfiable calls sels -> depth (c_root c) = length un + 1) /\ (~ satisfiable calls sels -> depth (c_root c) = 1))
      by (exact (C50_depth_pf _ _ _ _ _ _ _ un R N M)).
    assert (X' : (satisfiable (map (call_renamed r s) calls) (map r sels) -> depth (c_root c') = length (map r un) + 1) /\
                 (~ satisfiable (map (call_renamed r s) calls) (map r sels) -> depth (c_root c') = 1)).
    { refine (C50_depth_pf _ _ _ _ _ _ _ (map r un) R' _ _).
      - apply FinFun.Injective_map_NoDup; [exact Jr|exact N].
      - intros y. rewrite in_map_iff, (known_any r s Jr Js). split.
        + intros (i & <- & A). apply M in A. split; [exists i; tauto|]. rewrite (in_map_inj r Jr). apply A.
        + intros ((i & -> & K) & A). exists i. split; [reflexivity|]. apply M. rewrite (in_map_inj r Jr) in A. auto. }
    rewrite (sat_any r s Jr Js) in X'. rewrite map_length in X'. destruct Dec as [S|S].
    + rewrite (proj1 X S), (proj1 X' S). reflexivity.
    + rewrite (proj2 X S), (proj2 X' S). reflexivity.
  - intros i. destruct (get_family c i) as [f|] eqn:E.
    + apply (C48_families_pf _ _ _ _ _ _ _ _ _ R) in E. cbn [option_map].
      apply (C48_families_pf _ _ _ _ _ _ _ _ _ R'). apply in_adds_r; assumption.
    + destruct (get_family c' (r i)) as [g|] eqn:E'; [|reflexivity]. exfalso.
      apply (C48_families_pf _ _ _ _ _ _ _ _ _ R') in E'. apply in_adds_any in E'. destruct E' as (f & j & -> & Q & A).
      apply Jr in Q. subst j. apply (C48_families_pf _ _ _ _ _ _ _ _ _ R) in A. congruence.
  - destruct Dec as [S|S].
    + destruct (C51_summary_pf _ _ _ _ _ _ _ R S) as (Y1 & Y2 & Y3 & _).
      destruct (C51_summary_pf _ _ _ _ _ _ _ R' (proj2 (sat_any r s Jr Js _ _) S)) as (Z1 & Z2 & Z3 & _ & _ & Z4).
      intros x'. assert (K : In x' (c_summary c') -> exists x, x' = status_renamed r x).
      { intros X. assert (K : known (map (call_renamed r s) calls) (status_item x')) by (apply Z4, in_map, X).
        apply (known_any r s Jr Js) in K. destruct K as (i & E & _).
        destruct x' as [y|y|y]; cbn in E; subst y; [exists (Excluded i)|exists (Available i)|exists (Selected i)]; reflexivity. }
      assert (B : forall x, In (status_renamed r x) (c_summary c') <-> In x (c_summary c)).
      { intros [i|i|i]; cbn [status_renamed].
        - rewrite Z3, Y3, Kd, (in_map_inj r Jr), (possible_any r s Jr Js). reflexivity.
        - rewrite Z2, Y2, (in_map_inj r Jr), (possible_any r s Jr Js). reflexivity.
        - rewrite Z1, Y1. apply in_map_inj, Jr. }
      split.
      * intros X. destruct (K X) as (x & ->). exists x. split; [apply B; exact X|reflexivity].
      * intros (x & X & ->). apply B. exact X.
    + assert (S' : ~ satisfiable (map (call_renamed r s) calls) (map r sels)) by (rewrite (sat_any r s Jr Js); exact S).
      intros x'. rewrite (no_outfit_summary _ _ _ R' S' x'). split.
      * intros (y & -> & Y). apply in_map_iff in Y. destruct Y as (i & <- & Y). exists (Selected i). split; [|reflexivity].
        apply (no_outfit_summary _ _ _ R S). eauto.
      * intros (x & X & ->). apply (no_outfit_summary _ _ _ R S) in X. destruct X as (i & -> & X). exists (r i). split; [reflexivity|apply in_map; exact X].
  - intros h h' i. assert (OK := select_ok_any r s Jr Js calls sels c c' h h' i R R'). split; [exact OK|].
    assert (U : select_item h c i = Err (UnknownItem i) <-> select_item h' c' (r i) = Err (UnknownItem (r i))).
    { rewrite (proj1 (C52_unknown_pf _ _ _ _ _ _ _ h i R)), (proj1 (C52_unknown_pf _ _ _ _ _ _ _ h' (r i) R')), Kd. reflexivity. }
    pose proof (select_error_item h c i) as Q. pose proof (select_error_item h' c' (r i)) as Q'.
    destruct (select_item h c i) as [d|e0] eqn:E; destruct (select_item h' c' (r i)) as [d'|e0'] eqn:E'.
    + intros e. split; discriminate.
    + exfalso. destruct (proj1 OK (ex_intro _ d eq_refl)) as (? & ?). discriminate.
    + exfalso. destruct (proj2 OK (ex_intro _ d' eq_refl)) as (? & ?). discriminate.
    + destruct (Q e0 eq_refl) as [-> | ->]; destruct (Q' e0' eq_refl) as [-> | ->]; try reflexivity.
      * intros e. split; intros X; injection X as X; [subst e; reflexivity|]. destruct e as [j|j]; cbn in X; [|discriminate].
        injection X as X. apply Jr in X. congruence.
      * discriminate (proj2 U eq_refl).
      * discriminate (proj1 U eq_refl).
      * intros e. split; intros X; injection X as X; [subst e; reflexivity|]. destruct e as [j|j]; cbn in X; [discriminate|].
        injection X as X. apply Jr in X. congruence.
  - intros sel.
    assert (Ks := all_known_any r s Jr Js calls sel). assert (Ns := NoDup_families_any r s Jr Js calls sel).
    assert (Ss := sat_any r s Jr Js calls (sels ++ sel)). rewrite map_app in Ss.
    split; [|split; [|split; [|split]]].
    + rewrite (proj2 (C56_earlier_selections_partial_pf _ _ _ _ _ _ _ sel R)).
      rewrite (proj2 (C56_earlier_selections_partial_pf _ _ _ _ _ _ _ (map r sel) R')). rewrite Ks, Ns, Ss. reflexivity.
    + intros u. rewrite (proj2 (C55_unknown_pf _ _ _ _ _ _ _ sel R) u), (proj2 (C55_unknown_pf _ _ _ _ _ _ _ (map r sel) R') (map r u)).
      assert (Fl : filter (fun i => match first_family (map (call_renamed r s) calls) i with None => true | Some _ => false end) (map r sel) =
                   map r (filter (fun i => match first_family calls i with None => true | Some _ => false end) sel)).
      { clear - Jr Js. induction sel as [|i sel IH]; [reflexivity|]. cbn [map filter]. rewrite (first_family_any r s Jr), IH.
        destruct (first_family calls i); reflexivity. }
      rewrite Fl. split; intros (A & B); split.
      * subst u. reflexivity.
      * destruct u; [contradiction|discriminate].
      * clear - A Jr. revert A. generalize (filter (fun i => match first_family calls i with None => true | Some _ => false end) sel). revert u.
        induction u as [|x u IH]; intros [|y l] A; try discriminate; [reflexivity|]. injection A as A B. apply Jr in A. f_equal; auto.
      * intros ->. apply B. reflexivity.
    + intros m m' A A'.
      apply (C55_multiple_pf _ _ _ _ _ _ _ sel m R) in A. apply (C55_multiple_pf _ _ _ _ _ _ _ (map r sel) m' R') in A'.
      destruct A as (K & _ & _ & A). destruct A' as (_ & _ & _ & A').
      assert (Fl : forall f, filter (fun i => match first_family (map (call_renamed r s) calls) i with Some g => eqb_ g (s f) | None => false end) (map r sel) =
                   map r (filter (fun i => match first_family calls i with Some g => eqb_ g f | None => false end) sel)).
      { clear - Jr Js. intros f. induction sel as [|i sel IH]; [reflexivity|]. cbn [map filter]. rewrite (first_family_any r s Jr), IH.
        destruct (first_family calls i) as [f'|]; [|reflexivity]. cbn [option_map].
        replace (eqb_ (s f') (s f)) with (eqb_ f' f); [destruct (eqb_ f' f); reflexivity|].
        destruct (eqb_spec_ f' f) as [E1|N]; destruct (eqb_spec_ (s f') (s f)) as [E'|N']; try reflexivity; exfalso; [|apply N, Js, E'].
        apply N'. congruence. }
      intros g l'. rewrite (A' g l'). split.
      * intros (E & L). 
        assert (X : exists f, g = s f).
        { destruct l' as [|y l']; [cbn in L; lia|]. assert (Y : In y (y :: l')) by (left; reflexivity). rewrite E in Y.
          apply filter_In in Y. destruct Y as (Y & Z). apply in_map_iff in Y. destruct Y as (i & <- & Y).
          rewrite (first_family_any r s Jr) in Z. destruct (first_family calls i) as [f|]; [|discriminate]. cbn [option_map] in Z.
          apply eqb_true_ in Z. exists f. congruence. }
        destruct X as (f & ->). rewrite Fl in E. exists f. eexists. split; [apply A; split; [reflexivity|]|split; [reflexivity|exact E]].
        rewrite E, map_length in L. exact L.
      * intros (f & l & X & -> & ->). apply A in X. destruct X as (-> & L). rewrite Fl, map_length. split; [reflexivity|exact L].
    + destruct (outcome_cases _ _ _ sel R) as (B1 & B2). destruct (outcome_cases _ _ _ (map r sel) R') as (B1' & B2').
      rewrite B1, B1', Ks, Ns. reflexivity.
    + destruct (outcome_cases _ _ _ sel R) as (B1 & B2). destruct (outcome_cases _ _ _ (map r sel) R') as (B1' & B2').
      rewrite B2, B2', Ks, Ns, Ss. reflexivity.
Qed.
(** [complete_outfit] does pick by the order of the names: with 1 and 2 swapped, it still picks 1 *)
Example C90_bowtie_example :
  let r := fun n => match n with 1 => 2 | 2 => 1 | _ => n end in
  let calls := [AddItems 0 [1;2]; AddItem 7 3; AddIncl 1 3] in
  exists c c' : closet nat nat, injective r /\ reached calls [3] c /\ reached (map (call_renamed r (fun f => f)) calls) (map r [3]) c' /\
    outfit_count (c_root c) = 2 /\ complete_outfit c [] = Some (Ok [1]) /\ complete_outfit c' [] = Some (Ok [1]).
Proof.
  cbv zeta. do 2 eexists. split. { intros [|[|[|x]]] [|[|[|y]]]; cbn; congruence. }
  split. { eapply (reached_select _ [] _ ho_id); [eapply (reached_build _ ho_id); reflexivity|reflexivity]. }
  split. { eapply (reached_select _ [] _ ho_id); [eapply (reached_build _ ho_id); reflexivity|reflexivity]. }
  split; [reflexivity|]. split; reflexivity.
Qed.
