(** RenameAny: renamings that confuse no two items but may change their order. *)
From Coq Require Import List Arith Lia Bool Permutation Sorted.
From Verif Require Import Base DD Spec Zdd2Model MatrixModel ZddModel RenameSpec.
From Verif Require Import Zdd2Forest Zdd2Laws Zdd2Thm MatrixProofs MatrixThm ZddSpec ZddProofs ZddThm AgreeSpec AgreeThm.
Import ListNotations.

Section Sets.
  Context {T U : Type} `{OT : Ord T} `{OU : Ord U} (r : T -> U) (J : injective r).
  Definition rset (t : list T) : list U := filter_repeats (map r t).
  Lemma in_map_inj x (l : list T) : In (r x) (map r l) <-> In x l.
  Proof. rewrite in_map_iff. split; [intros (y & E & I); apply J in E; subst; exact I|eauto]. Qed.
  Lemma rset_in x t : In (r x) (rset t) <-> In x t.
  Proof. unfold rset. rewrite filter_repeats_in. apply in_map_inj. Qed.
  Lemma rset_carried t : carried r t (rset t).
  Proof. split; [apply filter_repeats_ssorted|]. intros y. apply filter_repeats_in. Qed.
  Lemma carried_iff t t' : carried r t t' <-> t' = rset t.
  Proof.
    split; [|intros ->; apply rset_carried]. intros (S & E). apply ssorted_ext; [exact S|apply filter_repeats_ssorted|].
    intros y. rewrite (E y). unfold rset. rewrite filter_repeats_in. reflexivity.
  Qed.
  Lemma rset_inj s t : ssorted s -> ssorted t -> rset s = rset t -> s = t.
  Proof. intros S S' E. apply ssorted_ext; auto. intros x. rewrite <- !rset_in, E. reflexivity. Qed.
  Lemma rset_fr l : rset (filter_repeats l) = filter_repeats (map r l).
  Proof. apply filter_repeats_ext. intros y. rewrite !in_map_iff. setoid_rewrite filter_repeats_in. reflexivity. Qed.
  Lemma memb_rset e t : memb (r e) (rset t) = memb e t.
  Proof.
    destruct (memb e t) eqn:E.
    - apply memb_spec. apply memb_spec in E. apply rset_in. exact E.
    - apply memb_false. intros I. apply rset_in in I. apply memb_false in E. contradiction.
  Qed.
  Lemma rset_nil t : rset t = [] <-> t = [].
  Proof. unfold rset. rewrite filter_repeats_nil. split; [|intros ->; reflexivity]. destruct t; [reflexivity|discriminate]. Qed.
  Lemma forallb_rset (neg : bool -> bool) es t :
    forallb (fun e => neg (memb e (rset t))) (map r es) = forallb (fun e => neg (memb e t)) es.
  Proof. induction es as [|e es IH]; [reflexivity|]. cbn [map forallb]. rewrite memb_rset, IH. reflexivity. Qed.

  Notation img fam fam' := (forall t', In t' fam' <-> exists t, In t fam /\ t' = rset t).
  Lemma img_filter fam fam' g g' : img fam fam' -> (forall t, In t fam -> g' (rset t) = g t) -> img (filter g fam) (filter g' fam').
  Proof.
    intros I E t'. rewrite filter_In, (I t'). split.
    - intros ((t & A & ->) & B). exists t. rewrite filter_In, <- E by exact A. auto.
    - intros (t & A & ->). apply filter_In in A. rewrite E by apply A. split; [exists t|]; tauto.
  Qed.
  Lemma img_sets l : img (sets l) (sets (map (map r) l)).
  Proof.
    intros t'. rewrite sets_in. split.
    - intros (s' & A & ->). apply in_map_iff in A. destruct A as (s & <- & A). exists (filter_repeats s).
      split; [apply sets_in; eauto|]. symmetry. apply rset_fr.
    - intros (t & A & ->). apply sets_in in A. destruct A as (s & A & ->). exists (map r s).
      split; [apply in_map; exact A|]. apply rset_fr.
  Qed.
  Lemma sets_ssorted (l : list (list T)) t : In t (sets l) -> ssorted t.
  Proof. intros I. apply sets_in in I. destruct I as (s & _ & ->). apply filter_repeats_ssorted. Qed.

  Lemma family_renamed p : img (family p) (family (renamed r p)).
  Proof.
    induction p as [|s|m|s|a IHa b IHb|a IHa b IHb|a IHa b IHb|a IHa e|a IHa e|a IHa es|a IHa es]; cbn [renamed family].
    - intros t'. split; [intros []|intros (t & [] & _)].
    - apply (img_sets [s]).
    - apply img_sets.
    - replace (map (fun x => [x]) (map r s)) with (map (map r) (map (fun x : T => [x]) s)); [apply img_sets|].
      rewrite !map_map. reflexivity.
    - intros t'. rewrite sets_in. split.
      + intros (s' & A & ->). apply in_app_iff in A.
        assert (X : exists s, In s (family a ++ family b) /\ s' = rset s).
        { destruct A as [A|A]; [apply IHa in A|apply IHb in A]; destruct A as (s & A & ->); exists s; rewrite in_app_iff; auto. }
        destruct X as (s & B & ->). exists (filter_repeats s). split; [apply sets_in; eauto|].
        rewrite rset_fr. apply fr_id, filter_repeats_ssorted.
      + intros (t & A & ->). apply sets_in in A. destruct A as (s & A & ->). exists (rset s). split.
        { apply in_app_iff in A. apply in_app_iff. destruct A; [left; apply IHa|right; apply IHb]; eauto. }
        rewrite rset_fr. symmetry. apply fr_id, filter_repeats_ssorted.
    - apply img_filter; [exact IHa|]. intros t It. pose proof (proj2 (family_ok a) t It) as St.
      destruct (memb t (family b)) eqn:M2.
      + apply memb_spec. apply memb_spec in M2. apply IHb. eauto.
      + apply memb_false. intros C. apply IHb in C. destruct C as (s & A & E). apply rset_inj in E; [|exact St|exact (proj2 (family_ok b) s A)].
        subst s. apply memb_false in M2. contradiction.
    - intros t'. rewrite sets_in. split.
      + intros (s' & A & ->). apply in_map_iff in A. destruct A as ((x' & y') & <- & A). apply in_prod_iff in A. destruct A as (A & B).
        apply IHa in A. apply IHb in B. destruct A as (x & A & ->), B as (y & B & ->). cbn [fst snd].
        exists (filter_repeats (x ++ y)). split.
        * apply sets_in. exists (x ++ y). split; [|reflexivity]. apply in_map_iff. exists (x, y). split; [reflexivity|]. apply in_prod; assumption.
        * rewrite rset_fr. apply filter_repeats_ext. intros z. rewrite map_app, !in_app_iff. unfold rset. rewrite !filter_repeats_in. reflexivity.
      + intros (t & A & ->). apply sets_in in A. destruct A as (s & A & ->). apply in_map_iff in A. destruct A as ((x & y) & <- & A).
        apply in_prod_iff in A. destruct A as (A & B). cbn [fst snd]. exists (rset x ++ rset y). split.
        * apply in_map_iff. exists (rset x, rset y). split; [reflexivity|]. apply in_prod; [apply IHa|apply IHb]; eauto.
        * rewrite rset_fr. apply filter_repeats_ext. intros z. rewrite map_app, !in_app_iff. unfold rset. rewrite !filter_repeats_in. reflexivity.
    - apply img_filter; [exact IHa|]. intros t _. apply memb_rset.
    - apply img_filter; [exact IHa|]. intros t _. rewrite memb_rset. reflexivity.
    - apply img_filter; [exact IHa|]. intros t _. apply (forallb_rset (fun b => b)).
    - apply img_filter; [exact IHa|]. intros t _. apply (forallb_rset negb).
  Qed.

  (** families, as duplicate-free lists of ascending lists *)
  Lemma img_carried fam fam' : NoDup fam -> NoDup fam' -> (forall t, In t fam -> ssorted t) -> img fam fam' ->
    carried_family r fam fam'.
  Proof.
    intros N N' S I. split; [exact N'|]. split.
    - assert (NM : NoDup (map rset fam)).
      { clear I N'. induction fam as [|x fam IH]; [constructor|]. inversion N; subst. cbn [map]. constructor.
        - intros C. apply in_map_iff in C. destruct C as (y & E & C). apply rset_inj in E; [subst; contradiction| |]; apply S; [right|left]; auto.
        - apply IH; auto. intros t It. apply S. right; exact It. }
      assert (P : Permutation fam' (map rset fam)).
      { apply NoDup_Permutation; auto. intros t'. rewrite (I t'), in_map_iff. split; intros (t & A & B); exists t; auto. }
      rewrite (Permutation_length P). apply map_length.
    - intros t'. rewrite (I t'). setoid_rewrite carried_iff. reflexivity.
  Qed.
  Lemma carried_perm fam fam' : (forall t, In t fam -> ssorted t) -> NoDup fam -> carried_family r fam fam' -> Permutation fam' (map rset fam).
  Proof.
    intros S N (N' & L & I). apply NoDup_Permutation; auto.
    - clear - J S N. induction fam as [|x fam IH]; [constructor|]. inversion N; subst. cbn [map]. constructor.
      + intros C. apply in_map_iff in C. destruct C as (y & E & C). apply rset_inj in E; [subst; contradiction| |]; apply S; [right|left]; auto.
      + apply IH; auto. intros t It. apply S. right; exact It.
    - intros t'. rewrite (I t'), in_map_iff. setoid_rewrite carried_iff. split; intros (t & A & B); exists t; auto.
  Qed.
  Lemma count_rset fam x : count (map rset fam) (r x) = count fam x.
  Proof. induction fam as [|t fam IH]; [reflexivity|]. cbn [map count]. rewrite memb_rset, IH. reflexivity. Qed.
  Lemma counts_carried fam fam' o o' : (forall t, In t fam -> ssorted t) -> NoDup fam -> carried_family r fam fam' ->
    ssorted (map fst o') -> (forall x k, In (x, k) o <-> 0 < k /\ k = count fam x) ->
    (forall y k, In (y, k) o' <-> 0 < k /\ k = count fam' y) -> carried_counts r o o'.
  Proof.
    intros S N C So O O'. pose proof (carried_perm _ _ S N C) as P. split; [exact So|]. intros y k. rewrite (O' y k).
    rewrite (count_perm _ _ y P). split.
    - intros (L & E).
      assert (X : exists t', In t' (map rset fam) /\ In y t').
      { rewrite E in L. clear - L. induction (map rset fam) as [|t' l IH]; [cbn in L; lia|]. cbn [count] in L.
        destruct (memb y t') eqn:M; [exists t'; apply memb_spec in M; split; [left; reflexivity|exact M]|].
        destruct (IH L) as (t & A & B). exists t. split; [right; exact A|exact B]. }
      destruct X as (t' & A & B). apply in_map_iff in A. destruct A as (t & <- & A). unfold rset in B. rewrite filter_repeats_in in B.
      apply in_map_iff in B. destruct B as (x & <- & B). exists x. split; [reflexivity|]. apply O. rewrite count_rset in E. auto.
    - intros (x & -> & A). apply O in A. rewrite count_rset. exact A.
  Qed.
End Sets.

(** ** zdd trees *)
Section ZddAny.
  Context {T U : Type} `{OT : Ord T} `{OU : Ord U} (r : T -> U) (J : injective r).
  Lemma index_any items x : map_get (zu_index (zu_from (map r items))) (r x) = map_get (zu_index (zu_from items)) x.
  Proof.
    unfold zu_from, enumerate_map. cbn [zu_index]. rewrite map_length.
    assert (G : forall l k (m : list (T * nat)) (m' : list (U * nat)), map_ok m -> map_ok m' ->
      (forall x, map_get m' (r x) = map_get m x) ->
      forall x, map_get (fold_left (fun m p => map_insert m (fst p) (snd p)) (combine (map r l) (seq k (length l))) m') (r x) =
        map_get (fold_left (fun m p => map_insert m (fst p) (snd p)) (combine l (seq k (length l))) m) x).
    { induction l as [|y l IH]; intros k m m' K K' E z; [apply E|]. cbn [map length seq combine fold_left fst snd]. apply IH.
      - apply map_update_ok; exact K.
      - apply map_update_ok; exact K'.
      - intros w. unfold map_insert. rewrite !map_update_get by assumption.
        replace (eqb_ (r w) (r y)) with (eqb_ w y); [rewrite (E w); reflexivity|].
        destruct (eqb_spec_ w y) as [E1|N]; destruct (eqb_spec_ (r w) (r y)) as [E'|N']; try reflexivity; exfalso.
        + apply N'. congruence.
        + apply N, J, E'. }
    apply G; [constructor|constructor|reflexivity].
  Qed.
  Lemma index_any_list items c : filter_map (map_get (zu_index (zu_from (map r items)))) (map r c) =
    filter_map (map_get (zu_index (zu_from items))) c.
  Proof. induction c as [|x c IH]; [reflexivity|]. cbn [map filter_map]. rewrite index_any, IH. reflexivity. Qed.
  Lemma z_tree_any items c : zt_root (z_tree (zu_from (map r items)) (map r c)) = zt_root (z_tree (zu_from items) c).
  Proof. rewrite !z_tree_root, index_any_list. reflexivity. Qed.
  Lemma fold_any {A B} (g : A -> ztree T) (g' : B -> ztree U) (k : A -> B) l :
    (forall a, zt_root (g' (k a)) = zt_root (g a)) -> forall t t', zt_root t' = zt_root t ->
    zt_root (fold_left (fun root next => z_union root next) (map g' (map k l)) t') =
    zt_root (fold_left (fun root next => z_union root next) (map g l) t).
  Proof.
    intros E. induction l as [|a l IH]; intros t t' R; [exact R|]. cbn [map fold_left]. apply IH.
    unfold z_union. cbn [zt_root]. rewrite R, E. reflexivity.
  Qed.
  Lemma z_hyper_any items cs : zt_root (z_hyper_tree (zu_from (map r items)) (map (map r) cs)) = zt_root (z_hyper_tree (zu_from items) cs).
  Proof. apply fold_any; [|reflexivity]. intros c. apply z_tree_any. Qed.
  Lemma z_unique_any items xs : zt_root (z_unique_tree (zu_from (map r items)) (map r xs)) = zt_root (z_unique_tree (zu_from items) xs).
  Proof. apply fold_any; [|reflexivity]. intros x. apply (z_tree_any items [x]). Qed.

  Lemma filter_map_perm {A B} (f : A -> option B) l l' : Permutation l l' -> Permutation (filter_map f l) (filter_map f l').
  Proof.
    induction 1 as [|x l l' P IH|x y l|l l' l'' P IH P' IH']; cbn [filter_map]; [constructor| | |eapply Permutation_trans; eassumption].
    - destruct (f x); [constructor|]; exact IH.
    - destruct (f x), (f y); try constructor; reflexivity.
  Qed.
  Lemma rset_perm t : ssorted t -> Permutation (rset r t) (map r t).
  Proof.
    intros S. apply NoDup_Permutation; [apply ssorted_NoDup, filter_repeats_ssorted| |intros y; apply filter_repeats_in].
    apply ssorted_NoDup in S. induction S as [|x l N S IH]; constructor; [|exact IH]. intros C. apply (in_map_inj r J) in C. contradiction.
  Qed.
  Lemma z_tree_rset items c : ssorted c -> zt_root (z_tree (zu_from (map r items)) (rset r c)) = zt_root (z_tree (zu_from items) c).
  Proof.
    intros S. rewrite <- z_tree_any, !z_tree_root. f_equal. apply (SS_unique_perm (fun a b => leb_ a b = true)).
    - intros a b. apply leb_antisym_.
    - apply sort_by_sorted; [apply leb_total_|apply leb_trans_].
    - apply sort_by_sorted; [apply leb_total_|apply leb_trans_].
    - unfold sort. rewrite !sort_by_perm. apply filter_map_perm, rset_perm, S.
  Qed.

  Lemma hyper_paths {A} `{Ord A} (u : zuniverse A) cs s : In s (paths (zt_root (z_hyper_tree u cs))) <->
    exists c, In c cs /\ In s (paths (zt_root (z_tree u c))).
  Proof.
    unfold z_hyper_tree.
    assert (G : forall t, In s (paths (zt_root (fold_left (fun root next => z_union root next) (map (z_tree u) cs) t))) <->
      In s (paths (zt_root t)) \/ exists c, In c cs /\ In s (paths (zt_root (z_tree u c)))).
    { induction cs as [|c cs IH]; intros t.
      - cbn [map fold_left]. split; [auto|]. intros [X|(c & [] & _)]. exact X.
      - cbn [map fold_left]. rewrite IH. unfold z_union at 1. cbn [zt_root]. rewrite zunion_paths. split.
        + intros [[X|X]|(c' & X & Y)]; [auto|right; exists c; split; [left; reflexivity|exact X]|right; exists c'; split; [right|]; assumption].
        + intros [X|(c' & [->|X] & Y)]; [auto|auto|right; exists c'; auto]. }
    rewrite G. cbn [z_empty_tree zt_root paths]. split; [intros [[]|X]; exact X|auto].
  Qed.

  (** combinations of two trees with the same root *)
  Lemma get_items_any items p : z_get_items (zu_from (map r items)) p = rset r (z_get_items (zu_from items) p).
  Proof.
    apply ssorted_ext; [apply z_get_items_ssorted|apply filter_repeats_ssorted|].
    intros y. rewrite z_get_items_in. unfold rset. rewrite filter_repeats_in, in_map_iff. cbn [zu_from zu_items]. split.
    - intros (i & A & B). rewrite nth_error_map in B. destruct (nth_error items i) as [x|] eqn:E; [|discriminate].
      injection B as <-. exists x. split; [reflexivity|]. apply z_get_items_in. eauto.
    - intros (x & <- & A). apply z_get_items_in in A. destruct A as (i & A & B). exists i. split; [exact A|].
      cbn [zu_from zu_items] in B. rewrite nth_error_map, B. reflexivity.
  Qed.
  Lemma zcombs_any items t t' : zt_univ t = zu_from items -> zt_univ t' = zu_from (map r items) -> zt_root t' = zt_root t ->
    forall s', In s' (zcombs t') <-> exists s, In s (zcombs t) /\ s' = rset r s.
  Proof.
    intros E E' R s'. rewrite zcombs_in, E', R. setoid_rewrite zcombs_in. rewrite E. split.
    - intros (p & A & ->). exists (z_get_items (zu_from items) p). split; [eauto|]. apply get_items_any.
    - intros (s & (p & A & ->) & ->). exists p. split; [exact A|]. symmetry. apply get_items_any.
  Qed.
  Lemma meets_any inc exc s : meets (map r inc) (map r exc) (rset r s) <-> meets inc exc s.
  Proof.
    unfold meets. split; intros (A & B).
    - split; intros x I; [apply (rset_in r J), A, in_map, I|]. intros C. apply (B (r x)); [apply in_map, I|apply rset_in; assumption].
    - split; intros y I; apply in_map_iff in I; destruct I as (x & <- & I); [apply rset_in; auto|].
      intros C. apply (B x I). apply (rset_in r J). exact C.
  Qed.
  Lemma with_any items t t' inc exc : zt_univ t = zu_from items -> zt_univ t' = zu_from (map r items) -> zt_root t' = zt_root t ->
    exists cs cs', z_combinations_with t inc exc = Some cs /\ z_combinations_with t' (map r inc) (map r exc) = Some cs' /\
      ssorted cs /\ ssorted cs' /\ (forall s, In s cs -> ssorted s) /\
      forall s', In s' cs' <-> exists s, In s cs /\ s' = rset r s.
  Proof.
    intros E E' R.
    destruct (C40_combinations_with_exact_pf _ _ t inc exc) as (k & cs & Ek & Ec & S & M).
    destruct (C40_combinations_with_exact_pf _ _ t' (map r inc) (map r exc)) as (k' & cs' & Ek' & Ec' & S' & M').
    rewrite z_combinations_eq in Ek. rewrite z_combinations_eq in Ek'. injection Ek as <-. injection Ek' as <-.
    exists cs, cs'. split; [exact Ec|]. split; [exact Ec'|]. split; [exact S|]. split; [exact S'|].
    split. { intros s I. apply M in I. eapply zcombs_ssorted. apply I. }
    intros s'. rewrite (M' s'), (zcombs_any items t t' E E' R s'). split.
    - intros ((s & A & ->) & B). apply meets_any in B. exists s. split; [apply M; auto|reflexivity].
    - intros (s & A & ->). apply M in A. split; [exists s; tauto|]. apply meets_any. apply A.
  Qed.
  Lemma restrict_any items t t' inc exc : zt_univ t = zu_from items -> zt_univ t' = zu_from (map r items) -> zt_root t' = zt_root t ->
    exists q q', z_restrict t inc exc = Some q /\ z_restrict t' (map r inc) (map r exc) = Some q' /\
      zt_univ q = zu_from items /\ zt_univ q' = zu_from (map r items) /\ zt_root q' = zt_root q.
  Proof.
    intros E E' R. destruct (with_any items t t' inc exc E E' R) as (cs & cs' & A & A' & S & S' & SS & M).
    unfold z_restrict. rewrite A, A'. cbn [bind]. do 2 eexists. split; [reflexivity|]. split; [reflexivity|].
    rewrite E, E'. split; [apply zinv_hyper|]. split; [apply zinv_hyper|].
    assert (SS' : forall s', In s' cs' -> ssorted s') by (intros s' I; apply M in I; destruct I as (s & _ & ->); apply filter_repeats_ssorted).
    apply zcanonical.
    - apply z_hyper_ordered. intros c I. apply ssorted_NoDup; auto.
    - apply (zinv_hyper (map r items)).
    - apply z_hyper_ordered. intros c I. apply ssorted_NoDup; auto.
    - apply (zinv_hyper items).
    - intros p. rewrite !hyper_paths. split.
      + intros (c' & I & P). apply M in I. destruct I as (c & I & ->). rewrite z_tree_rset in P by auto. eauto.
      + intros (c & I & P). exists (rset r c). split; [apply M; eauto|]. rewrite z_tree_rset by auto. exact P.
  Qed.
  Lemma zrun_any items p : exists t t', zrun (zu_from items) p = Some t /\ zrun (zu_from (map r items)) (zrenamed r p) = Some t' /\
    zt_univ t = zu_from items /\ zt_univ t' = zu_from (map r items) /\ zt_root t' = zt_root t.
  Proof.
    assert (H1 : forall (A : Type) (OA : Ord A) (l : list A) cs, zt_univ (z_hyper_tree (zu_from l) cs) = zu_from l) by (intros; apply zinv_hyper).
    induction p as [| |c|xs|cs|a IHa b IHb|a IHa b IHb|a IHa b IHb|a IHa inc exc]; cbn [zrenamed zrun].
    - do 2 eexists. do 4 (split; [reflexivity|]). reflexivity.
    - do 2 eexists. do 4 (split; [reflexivity|]). reflexivity.
    - do 2 eexists. do 4 (split; [reflexivity|]). apply z_tree_any.
    - do 2 eexists. do 2 (split; [reflexivity|]). rewrite !z_unique_hyper, !H1. do 2 (split; [reflexivity|]).
      rewrite <- !z_unique_hyper. apply z_unique_any.
    - do 2 eexists. do 2 (split; [reflexivity|]). rewrite !H1. do 2 (split; [reflexivity|]). apply z_hyper_any.
    - destruct IHa as (t & t' & -> & -> & U1 & U2 & R). destruct IHb as (o & o' & -> & -> & V1 & V2 & Q). cbn [bind].
      do 2 eexists. do 2 (split; [reflexivity|]). split; [exact U1|]. split; [exact U2|]. cbn. rewrite R, Q. reflexivity.
    - destruct IHa as (t & t' & -> & -> & U1 & U2 & R). destruct IHb as (o & o' & -> & -> & V1 & V2 & Q). cbn [bind].
      do 2 eexists. do 2 (split; [reflexivity|]). split; [exact U1|]. split; [exact U2|]. cbn. rewrite R, Q. reflexivity.
    - destruct IHa as (t & t' & -> & -> & U1 & U2 & R). destruct IHb as (o & o' & -> & -> & V1 & V2 & Q). cbn [bind].
      do 2 eexists. do 2 (split; [reflexivity|]). split; [exact U1|]. split; [exact U2|]. cbn. rewrite R, Q. reflexivity.
    - destruct IHa as (t & t' & -> & -> & U1 & U2 & R). cbn [bind].
      destruct (restrict_any items t t' inc exc U1 U2 R) as (q & q' & A & A' & X). rewrite A, A'. eauto 10.
  Qed.
End ZddAny.
