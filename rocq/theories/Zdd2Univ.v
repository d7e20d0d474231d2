(** Zdd2Univ: facts about [Universe]. *)
From Coq Require Import List Arith Lia Bool Permutation Sorted.
From Verif Require Import Base DD Zdd2Model.
Import ListNotations.

Section Univ.
  Context {T : Type} `{Ord T}.

  (** ** the ordering closure *)
  Lemma occ_leb_total (p q : T * nat) : occ_leb p q = true \/ occ_leb q p = true.
  Proof.
    unfold occ_leb. rewrite (Nat.compare_antisym (snd p) (snd q)).
    destruct (Nat.compare (snd p) (snd q)) eqn:E; simpl; auto. apply leb_total_.
  Qed.

  (** [before c d x y]: higher count first, then smaller item *)
  Definition occ_before (p q : T * nat) : Prop :=
    snd q < snd p \/ (snd p = snd q /\ lt_ (fst p) (fst q)).

  Lemma occ_leb_iff (p q : T * nat) : occ_leb p q = true <-> occ_before p q \/ p = q.
  Proof.
    unfold occ_leb, occ_before. destruct p as [x c], q as [y d]; simpl.
    destruct (Nat.compare_spec d c) as [->|L|L].
    - rewrite leb_iff_. split; [intros [A| ->]; auto|].
      intros [[A|[_ A]]|A]; [lia|auto|injection A; auto].
    - split; auto.
    - split; [discriminate|]. intros [[A|[A _]]|A]; [lia|lia|injection A; lia].
  Qed.

  Lemma occ_before_trans p q r : occ_before p q -> occ_before q r -> occ_before p r.
  Proof.
    unfold occ_before. intros [A|[A A']] [B|[B B']]; try (left; lia).
    right. split; [lia|]. eapply lt_trans_; eassumption.
  Qed.

  Lemma occ_before_irrefl p : ~ occ_before p p.
  Proof. unfold occ_before. intros [A|[_ A]]; [lia|]. exact (lt_irrefl_ _ A). Qed.

  Lemma occ_leb_trans (p q r : T * nat) : occ_leb p q = true -> occ_leb q r = true -> occ_leb p r = true.
  Proof.
    rewrite !occ_leb_iff. intros [A| ->] [B| ->]; auto. left. eapply occ_before_trans; eassumption.
  Qed.

  Lemma occ_leb_antisym (p q : T * nat) : occ_leb p q = true -> occ_leb q p = true -> p = q.
  Proof.
    rewrite !occ_leb_iff. intros [A| ->] [B|B]; auto.
    exfalso. apply (occ_before_irrefl p). eapply occ_before_trans; eassumption.
  Qed.

  (** ** the iteration order of the hash map does not matter *)
  Definition ordered_occ (occ : list (T * nat)) : list (T * nat) := sort_by occ_leb occ.
  Definition univ_of (occ : list (T * nat)) : universe T :=
    let items := map fst (ordered_occ occ) in mkU occ (enumerate_map items) items.

  Lemma sort_occ_perm l1 l2 : Permutation l1 l2 -> sort_by occ_leb l1 = sort_by occ_leb l2.
  Proof.
    intros P. apply (SS_unique_perm (fun a b => occ_leb a b = true)).
    - apply occ_leb_antisym.
    - apply sort_by_sorted; [apply occ_leb_total|apply occ_leb_trans].
    - apply sort_by_sorted; [apply occ_leb_total|apply occ_leb_trans].
    - rewrite !sort_by_perm. exact P.
  Qed.

  Lemma from_occurrences_univ h site occ : from_occurrences h site occ = univ_of occ.
  Proof.
    unfold from_occurrences, univ_of, ordered_occ.
    rewrite (sort_occ_perm _ occ (ho_perm h _ site occ)). reflexivity.
  Qed.

  (** ** priorities and index are inverse *)
  Lemma enum_get l : NoDup l -> forall x p, map_get (enumerate_map l) x = Some p <-> nth_error l p = Some x.
  Proof.
    intros N x p. unfold enumerate_map.
    assert (G : forall l k m, NoDup l -> map_ok m -> (forall y, In y l -> map_get m y = None) ->
       forall p, map_get (fold_left (fun m q => map_insert m (fst q) (snd q)) (combine l (seq k (length l))) m) x = Some p
       <-> (map_get m x = Some p) \/ (exists i, p = k + i /\ nth_error l i = Some x)).
    { clear l p N. induction l as [|y l IH]; intros k m N M D p.
      - simpl. split; [auto|]. intros [A|(i & _ & A)]; [exact A|]. destruct i; discriminate.
      - cbn [length seq combine fold_left fst snd]. inversion N as [|? ? Ny N']; subst.
        rewrite IH; auto.
        + unfold map_insert. rewrite map_update_get by exact M.
          destruct (eqb_spec_ x y) as [->|Nxy].
          * rewrite (D y) by (left; reflexivity). split.
            -- intros [A|(i & A & B)].
               ++ injection A as <-. right. exists 0. split; [lia|reflexivity].
               ++ right. exists (S i). split; [lia|exact B].
            -- intros [A|([|i] & A & B)]; [discriminate| |].
               ++ left. f_equal. lia.
               ++ simpl in B. apply nth_error_In in B. contradiction.
          * split.
            -- intros [A|(i & A & B)]; [auto|]. right. exists (S i). split; [lia|exact B].
            -- intros [A|([|i] & A & B)]; [auto| |].
               ++ simpl in B. congruence.
               ++ right. exists i. split; [lia|exact B].
        + apply map_update_ok; exact M.
        + intros z Hz. unfold map_insert. rewrite map_update_get by exact M.
          destruct (eqb_spec_ z y) as [->|_]; [contradiction|]. apply D. right; exact Hz. }
    rewrite (G l 0 []); auto.
    - simpl. split; [intros [A|(i & -> & A)]; [discriminate|exact A]|]. intros A. right. eauto.
    - constructor.
  Qed.

  Lemma ordered_occ_perm occ : Permutation (ordered_occ occ) occ.
  Proof. apply sort_by_perm. Qed.

  Lemma univ_index_NoDup occ : map_ok occ -> NoDup (u_index (univ_of occ)).
  Proof.
    intros M. simpl. eapply Permutation_NoDup; [|apply ssorted_NoDup; exact M].
    apply Permutation_map. symmetry. apply ordered_occ_perm.
  Qed.

  Lemma univ_index_in occ x : In x (u_index (univ_of occ)) <-> In x (map fst occ).
  Proof.
    simpl. split; apply Permutation_in; apply Permutation_map; [|symmetry]; apply ordered_occ_perm.
  Qed.

  Lemma univ_index_length occ : length (u_index (univ_of occ)) = length occ.
  Proof. simpl. rewrite map_length. apply Permutation_length, ordered_occ_perm. Qed.

  Lemma get_priority_item occ x p : map_ok occ ->
    (get_priority (univ_of occ) x = Some p <-> get_item (univ_of occ) p = Some x).
  Proof. intros M. apply enum_get. apply (univ_index_NoDup occ M). Qed.

  Lemma get_priority_known occ x : map_ok occ ->
    In x (map fst occ) -> exists p, get_priority (univ_of occ) x = Some p.
  Proof.
    intros M I. apply univ_index_in in I. apply In_nth_error in I. destruct I as [p E].
    exists p. apply get_priority_item; assumption.
  Qed.

  Lemma get_priority_in occ x p : map_ok occ ->
    get_priority (univ_of occ) x = Some p -> In x (map fst occ) /\ p < length occ.
  Proof.
    intros M E. apply get_priority_item in E; [|exact M]. unfold get_item in E. split.
    - apply univ_index_in. eapply nth_error_In; eassumption.
    - rewrite <- univ_index_length. apply nth_error_Some. congruence.
  Qed.

  Lemma get_priority_none occ x : map_ok occ ->
    (get_priority (univ_of occ) x = None <-> ~ In x (map fst occ)).
  Proof.
    intros M. split.
    - intros E I. destruct (get_priority_known occ x M I) as [p E']. congruence.
    - intros N. destruct (get_priority (univ_of occ) x) as [p|] eqn:E; [|reflexivity].
      apply get_priority_in in E; [|exact M]. tauto.
  Qed.

  Lemma get_item_known occ p : p < length occ -> exists x, get_item (univ_of occ) p = Some x.
  Proof.
    intros L. unfold get_item. destruct (nth_error (u_index (univ_of occ)) p) as [x|] eqn:E; [eauto|].
    apply nth_error_None in E. rewrite univ_index_length in E. lia.
  Qed.

  Lemma get_item_inj occ p q x : map_ok occ ->
    get_item (univ_of occ) p = Some x -> get_item (univ_of occ) q = Some x -> p = q.
  Proof. intros M A B. apply get_priority_item in A, B; try exact M. congruence. Qed.

  (** priorities are ordered by [occ_before] *)
  Lemma SS_nth {A} (R : A -> A -> Prop) l : StronglySorted R l ->
    forall i j a b, nth_error l i = Some a -> nth_error l j = Some b -> i < j -> R a b.
  Proof.
    induction 1 as [|z l S IH F]; intros i j a b Ei Ej L; [destruct i; discriminate|].
    destruct j as [|j]; [lia|]. destruct i as [|i]; simpl in *.
    - injection Ei as ->. rewrite Forall_forall in F. apply F. eapply nth_error_In; eassumption.
    - eapply IH; eauto. lia.
  Qed.

  Lemma priority_order occ x y p q c d : map_ok occ ->
    get_priority (univ_of occ) x = Some p -> get_priority (univ_of occ) y = Some q ->
    map_get occ x = Some c -> map_get occ y = Some d ->
    (p < q <-> occ_before (x, c) (y, d)).
  Proof.
    intros M Ep Eq_ Ec Ed.
    assert (Z : forall x p c, get_priority (univ_of occ) x = Some p -> map_get occ x = Some c ->
              nth_error (ordered_occ occ) p = Some (x, c)).
    { clear x y p q c d Ep Eq_ Ec Ed. intros x p c Ep Ec. apply get_priority_item in Ep; [|exact M].
      unfold get_item in Ep. simpl in Ep. rewrite nth_error_map in Ep.
      destruct (nth_error (ordered_occ occ) p) as [[x' c']|] eqn:E; [|discriminate].
      simpl in Ep. injection Ep as ->. f_equal. f_equal.
      apply nth_error_In in E. apply (Permutation_in _ (ordered_occ_perm occ)) in E.
      apply map_get_in in E; [|exact M]. congruence. }
    pose proof (Z _ _ _ Ep Ec) as N1. pose proof (Z _ _ _ Eq_ Ed) as N2.
    assert (SS : StronglySorted (fun a b => occ_leb a b = true) (ordered_occ occ))
      by (apply sort_by_sorted; [apply occ_leb_total|apply occ_leb_trans]).
    assert (W : forall p q a b, nth_error (ordered_occ occ) p = Some a ->
              nth_error (ordered_occ occ) q = Some b -> p < q -> occ_before a b).
    { intros p0 q0 a b A B L. pose proof (SS_nth _ _ SS _ _ _ _ A B L) as X. apply occ_leb_iff in X.
      destruct X as [X| ->]; [exact X|]. exfalso.
      assert (ND : NoDup (ordered_occ occ)).
      { eapply Permutation_NoDup; [symmetry; apply ordered_occ_perm|].
        eapply NoDup_map_inv, ssorted_NoDup; exact M. }
      rewrite NoDup_nth_error in ND. assert (p0 = q0); [|lia]. apply ND; [|congruence].
      apply nth_error_Some. congruence. }
    split; [apply W; assumption|]. intros B.
    destruct (Nat.lt_trichotomy p q) as [L|[L|L]]; [exact L| |].
    - subst. rewrite N1 in N2. injection N2 as -> ->. exfalso; exact (occ_before_irrefl _ B).
    - exfalso. apply (occ_before_irrefl (x, c)). eapply occ_before_trans; [exact B|]. eapply W; eassumption.
  Qed.

  (** ** counting *)
  Definition cnt (x : T) (l : list T) : nat := count_occ eq_dec_ l x.

  Definition opt_of (c : nat) : option nat := match c with O => None | S _ => Some c end.

  Lemma count_fold l : forall m, map_ok m ->
    let m' := fold_left (fun m x => map_update m x (incr 1)) l m in
    map_ok m' /\ forall x, map_get m' x =
      match map_get m x with Some c => Some (c + cnt x l) | None => opt_of (cnt x l) end.
  Proof.
    induction l as [|y l IH]; intros m M; simpl.
    - split; [exact M|]. intros x. destruct (map_get m x); [f_equal; lia|reflexivity].
    - destruct (IH (map_update m y (incr 1))) as [M' G]; [apply map_update_ok; exact M|].
      split; [exact M'|]. intros x. rewrite G, map_update_get by exact M.
      unfold cnt; simpl. destruct (eqb_spec_ x y) as [->|Nxy].
      + destruct (eq_dec_ y y) as [_|C]; [|congruence].
        destruct (map_get m y); unfold incr; simpl; [f_equal; lia|reflexivity].
      + destruct (eq_dec_ y x) as [C|_]; [congruence|]. reflexivity.
  Qed.

  (** the occurrence map of a list of rows *)
  Definition occ_of_rows (rows : list (list T)) : list (T * nat) :=
    fold_left (fun m x => map_update m x (incr 1)) (concat rows) [].

  Lemma occ_of_rows_ok rows : map_ok (occ_of_rows rows).
  Proof. apply (count_fold (concat rows) []). constructor. Qed.

  Lemma occ_of_rows_get rows x : map_get (occ_of_rows rows) x = opt_of (cnt x (concat rows)).
  Proof. unfold occ_of_rows. rewrite (proj2 (count_fold (concat rows) [] ltac:(constructor))). reflexivity. Qed.

  Lemma cnt_app x l m : cnt x (l ++ m) = cnt x l + cnt x m.
  Proof. apply count_occ_app. Qed.

  Lemma cnt_NoDup x l : NoDup l -> cnt x l = if memb x l then 1 else 0.
  Proof.
    intros N. unfold cnt. destruct (memb x l) eqn:E.
    - apply memb_spec in E. apply NoDup_count_occ'; assumption.
    - apply memb_false in E. apply count_occ_not_In; exact E.
  Qed.

  Lemma cnt_concat x rows : Forall ssorted rows ->
    cnt x (concat rows) = length (filter (memb x) rows).
  Proof.
    induction 1 as [|r rows S F IH]; simpl; [reflexivity|].
    rewrite cnt_app, IH, cnt_NoDup by (apply ssorted_NoDup; exact S).
    destruct (memb x r); reflexivity.
  Qed.

  Lemma opt_of_some c d : opt_of c = Some d <-> c = d /\ 0 < c.
  Proof. destruct c; simpl; split; try discriminate; intuition (try congruence; try lia). Qed.

  Lemma occ_keys rows x : In x (map fst (occ_of_rows rows)) <-> In x (concat rows).
  Proof.
    pose proof (occ_of_rows_ok rows) as M. split.
    - intros I. destruct (in_dec_ x (concat rows)) as [Y|N]; [exact Y|exfalso].
      apply (proj1 (map_get_none _ x M)); [|exact I].
      rewrite occ_of_rows_get. unfold cnt. rewrite (proj1 (count_occ_not_In eq_dec_ _ _) N). reflexivity.
    - intros I. destruct (in_dec_ x (map fst (occ_of_rows rows))) as [Y|N]; [exact Y|exfalso].
      apply (map_get_none _ _ M) in N. rewrite occ_of_rows_get in N.
      apply (count_occ_In eq_dec_) in I. unfold cnt in N. destruct (count_occ eq_dec_ (concat rows) x); simpl in N; [lia|discriminate].
  Qed.

  Lemma from_matrix_univ h site rows :
    from_matrix h site rows = univ_of (occ_of_rows (unique (map filter_repeats rows))).
  Proof. unfold from_matrix. rewrite from_occurrences_univ. reflexivity. Qed.

  (** ** merge *)
  Lemma u_eqb_spec (u v : universe T) : reflect (u = v) (u_eqb u v).
  Proof.
    unfold u_eqb. destruct u as [o p i], v as [o' p' i']; simpl.
    destruct (eqb_spec_ o o') as [->|N]; simpl; [|constructor; congruence].
    destruct (eqb_spec_ p p') as [->|N]; simpl; [|constructor; congruence].
    destruct (eqb_spec_ i i') as [->|N]; constructor; congruence.
  Qed.

  Definition merge_occ (l : list (T * nat)) (m : list (T * nat)) : list (T * nat) :=
    fold_left (fun m p => map_update m (fst p) (incr (snd p))) l m.

  Definition oplus (a b : option nat) : option nat :=
    match a, b with
    | Some c, Some d => Some (c + d)
    | Some c, None => Some c
    | None, Some d => Some d
    | None, None => None
    end.

  Lemma merge_occ_spec l : forall m, map_ok m -> NoDup (map fst l) ->
    map_ok (merge_occ l m) /\
    forall x, map_get (merge_occ l m) x =
      oplus (map_get m x) (option_map snd (find (fun p => eqb_ x (fst p)) l)).
  Proof.
    induction l as [|[y c] l IH]; intros m M N; simpl.
    - split; [exact M|]. intros x. destruct (map_get m x); reflexivity.
    - inversion N as [|? ? Ny N']; subst.
      destruct (IH (map_update m y (incr c))) as [M' G]; [apply map_update_ok; exact M|exact N'|].
      split; [exact M'|]. intros x. unfold merge_occ in *. rewrite G, map_update_get by exact M.
      destruct (eqb_spec_ x y) as [->|Nxy]; [|reflexivity].
      assert (find (fun p => eqb_ y (fst p)) l = None) as ->.
      { destruct (find (fun p => eqb_ y (fst p)) l) as [[z d]|] eqn:E; [|reflexivity].
        apply find_some in E. destruct E as [I E]. apply eqb_true_ in E. simpl in E. subst.
        exfalso. apply Ny. apply in_map_iff. exists (z, d); auto. }
      simpl. destruct (map_get m y); reflexivity.
  Qed.

  Lemma find_map_get (m : list (T * nat)) l x : map_ok m -> Permutation l m ->
    option_map snd (find (fun p => eqb_ x (fst p)) l) = map_get m x.
  Proof.
    intros M P. destruct (find (fun p => eqb_ x (fst p)) l) as [[z d]|] eqn:E; simpl.
    - apply find_some in E. destruct E as [I E]. apply eqb_true_ in E. simpl in E. subst.
      symmetry. apply map_get_in; [exact M|]. eapply Permutation_in; eassumption.
    - symmetry. apply map_get_none; [exact M|]. intros I. apply in_map_iff in I.
      destruct I as ([z d] & <- & I). apply (Permutation_in _ (Permutation_sym P)) in I.
      pose proof (find_none _ _ E _ I) as X. simpl in X. rewrite eqb_refl_ in X. discriminate.
  Qed.

  (** merge of two canonical universes: either they are equal, or the canonical
      universe of the added counts *)
  Lemma u_merge_spec h site occ1 occ2 : map_ok occ1 -> map_ok occ2 ->
    (occ1 = occ2 /\ u_merge h site (univ_of occ1) (univ_of occ2) = univ_of occ1) \/
    (occ1 <> occ2 /\ exists m, map_ok m /\ u_merge h site (univ_of occ1) (univ_of occ2) = univ_of m /\
      forall x, map_get m x = oplus (map_get occ1 x) (map_get occ2 x)).
  Proof.
    intros M1 M2. unfold u_merge. destruct (u_eqb_spec (univ_of occ1) (univ_of occ2)) as [E|N].
    - left. split; [|reflexivity]. injection E; auto.
    - right. split; [congruence|].
      destruct (merge_occ_spec (ho_iter h site occ2) occ1 M1) as [M G].
      { eapply Permutation_NoDup; [|apply ssorted_NoDup; exact M2].
        apply Permutation_map. symmetry. apply ho_perm. }
      eexists. split; [exact M|]. split; [apply from_occurrences_univ|].
      intros x. simpl u_occ. rewrite G. f_equal. apply find_map_get; [exact M2|apply ho_perm].
  Qed.
End Univ.
