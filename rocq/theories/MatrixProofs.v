(** MatrixProofs: the invariant of reachable matrix forests and trees. *)
From Coq Require Import List Arith Lia Bool Permutation Sorted.
From Verif Require Import Base DD Spec Zdd2Model MatrixModel.
Import ListNotations.

Section SetLemmas.
  Context {A : Type} `{Ord A}.
  Lemma set_subset_spec (a b : list A) : set_subset a b = true <-> incl a b.
  Proof.
    unfold set_subset. rewrite forallb_forall. unfold incl.
    split; intros F x Hx; specialize (F x Hx); apply memb_spec; exact F.
  Qed.
  Lemma set_union_in (a b : list A) x : In x (set_union a b) <-> In x a \/ In x b.
  Proof.
    unfold set_union. rewrite in_app_iff, filter_In.
    destruct (memb x a) eqn:E.
    - apply memb_spec in E. tauto.
    - simpl. tauto.
  Qed.
  Lemma set_inter_in (a b : list A) x : In x (set_inter a b) <-> In x a /\ In x b.
  Proof. unfold set_inter. rewrite filter_In. rewrite memb_spec. tauto. Qed.
  Lemma hset_in (a : list A) x : In x (hset a) <-> In x a.
  Proof. apply filter_repeats_in. Qed.
  Lemma hset_ssorted (a : list A) : ssorted (hset a).
  Proof. apply filter_repeats_ssorted. Qed.
  Lemma hset_nil (a : list A) : hset a = [] <-> a = [].
  Proof. apply filter_repeats_nil. Qed.
End SetLemmas.

Section MForestProofs.
  Context {T : Type} `{OT : Ord T}.
  Implicit Types f g : mforest T.

  Definition mts f : list (list T) :=
    match f with MEmpty => [] | MUnit s => [s] | MMany m => m end.

  Definition minv f : Prop :=
    (forall t, In t (mts f) -> ssorted t) /\ ssorted (mts f) /\
    (forall m, f = MMany m -> m <> []).

  Lemma m_trees_perm h f : Permutation (m_trees h f) (mts f).
  Proof. destruct f; simpl; try reflexivity. apply ho_perm. Qed.

  Lemma m_trees_in h f t : In t (m_trees h f) <-> In t (mts f).
  Proof. split; apply Permutation_in; [|symmetry]; apply m_trees_perm. Qed.

  Lemma m_eqb_eq f g : m_eqb f g = true <-> f = g.
  Proof.
    destruct f, g; simpl; try (split; [discriminate|congruence]); [tauto| |];
    rewrite eqb_true_; split; congruence.
  Qed.

  Lemma m_many_big rows : 2 <= length rows -> m_many rows = MMany (hset (unique (map filter_repeats rows))).
  Proof. destruct rows as [|a [|b rows]]; simpl; intros L; try lia. reflexivity. Qed.

  Lemma m_many_in rows t :
    In t (mts (m_many rows)) <-> exists row, In row rows /\ t = filter_repeats row.
  Proof.
    destruct rows as [|r [|r2 rows]].
    - simpl. split; [tauto|]. intros (? & [] & _).
    - simpl. split.
      + intros [<-|[]]. exists r; auto.
      + intros (? & [<-|[]] & ->). left; reflexivity.
    - rewrite m_many_big by (simpl; lia). cbn [mts]. rewrite hset_in, unique_in, in_map_iff.
      split; intros (row & A & B); exists row; auto.
  Qed.

  Lemma m_many_inv rows : minv (m_many rows).
  Proof.
    split; [|split].
    - intros t Ht. apply m_many_in in Ht. destruct Ht as (row & _ & ->). apply filter_repeats_ssorted.
    - destruct rows as [|r [|r2 rows]].
      + constructor.
      + repeat constructor.
      + rewrite m_many_big by (simpl; lia). apply hset_ssorted.
    - destruct rows as [|r [|r2 rows]]; intros m E; try discriminate.
      rewrite m_many_big in E by (simpl; lia). injection E as <-.
      intros E. apply (proj1 (hset_nil _)) in E.
      assert (I : In (filter_repeats r) (unique (map filter_repeats (r :: r2 :: rows))))
        by (apply unique_in; left; reflexivity).
      change (unique (map filter_repeats (r :: r2 :: rows)) = []) in E. rewrite E in I. destruct I.
  Qed.

  Lemma m_unit_inv s : minv (m_unit s).
  Proof. apply (m_many_inv [s]). Qed.

  Lemma m_empty_inv : minv (m_empty (T:=T)).
  Proof. apply (m_many_inv []). Qed.

  Lemma m_many_perm rows rows' : Permutation rows rows' -> m_many rows = m_many rows'.
  Proof.
    intros P. pose proof (Permutation_length P) as L.
    destruct rows as [|r [|r2 rows]].
    - apply Permutation_nil in P. subst; reflexivity.
    - apply Permutation_length_1_inv in P. subst; reflexivity.
    - rewrite !m_many_big by (simpl in *; lia). f_equal. apply filter_repeats_ext.
      intros x. rewrite !unique_in. split; apply Permutation_in; [|symmetry];
        apply Permutation_map; [exact P|exact P].
  Qed.

  (** rows that are already sorted and duplicate-free are kept as they are *)
  Lemma m_many_in_sorted rows t : (forall r, In r rows -> ssorted r) ->
    (In t (mts (m_many rows)) <-> In t rows).
  Proof.
    intros S. rewrite m_many_in. split.
    - intros (row & I & ->). rewrite filter_repeats_id by auto. exact I.
    - intros I. exists t. split; [exact I|]. rewrite filter_repeats_id; auto.
  Qed.

  Lemma filter_perm {A} (p : A -> bool) (l m : list A) :
    Permutation l m -> Permutation (filter p l) (filter p m).
  Proof.
    induction 1; simpl; auto.
    - destruct (p x); auto.
    - destruct (p x), (p y); auto. apply perm_swap.
    - etransitivity; eassumption.
  Qed.

  (** *** union *)
  Lemma m_union_spec h f g : minv f -> minv g ->
    minv (m_union h f g) /\ forall t, In t (mts (m_union h f g)) <-> In t (mts f) \/ In t (mts g).
  Proof.
    intros If Ig. pose proof If as (Sf & _ & Nf). pose proof Ig as (Sg & _ & Ng). unfold m_union.
    destruct (m_eqb f g) eqn:E.
    { apply m_eqb_eq in E. subst g. split; [exact If|tauto]. }
    destruct f as [|s1|m1], g as [|s2|m2]; try discriminate.
    - split; [exact Ig|]. simpl; tauto.
    - split; [exact Ig|]. simpl; tauto.
    - split; [exact If|]. simpl; tauto.
    - split; [apply m_many_inv|]. intros t. rewrite m_many_in_sorted.
      + simpl. tauto.
      + intros r [<-|[<-|[]]]; [apply Sf|apply Sg]; left; reflexivity.
    - split; [apply m_many_inv|]. intros t. rewrite m_many_in_sorted.
      + rewrite in_app_iff, ho_in. simpl. tauto.
      + intros r I. apply in_app_iff in I. rewrite ho_in in I. destruct I as [I|I]; [apply Sg|apply Sf]; exact I.
    - split; [exact If|]. simpl; tauto.
    - split; [apply m_many_inv|]. intros t. rewrite m_many_in_sorted.
      + rewrite in_app_iff, ho_in. simpl. tauto.
      + intros r I. apply in_app_iff in I. rewrite ho_in in I. destruct I as [I|I]; [apply Sf|apply Sg]; exact I.
    - destruct (set_subset m1 m2) eqn:E1.
      { split; [exact Ig|]. apply set_subset_spec in E1. intros t. specialize (E1 t). simpl. tauto. }
      destruct (set_subset m2 m1) eqn:E2.
      { split; [exact If|]. apply set_subset_spec in E2. intros t. specialize (E2 t). simpl. tauto. }
      split; [apply m_many_inv|]. intros t. rewrite m_many_in_sorted.
      + rewrite ho_in, set_union_in. reflexivity.
      + intros r I. rewrite ho_in, set_union_in in I. destruct I as [I|I]; [apply Sf|apply Sg]; exact I.
  Qed.

  (** *** intersect *)
  Lemma m_intersect_spec h f g : minv f -> minv g ->
    minv (m_intersect h f g) /\ forall t, In t (mts (m_intersect h f g)) <-> In t (mts f) /\ In t (mts g).
  Proof.
    intros If Ig. pose proof If as (Sf & _ & Nf). pose proof Ig as (Sg & _ & Ng). unfold m_intersect.
    destruct (m_eqb f g) eqn:E.
    { apply m_eqb_eq in E. subst g. split; [exact If|tauto]. }
    destruct f as [|s1|m1], g as [|s2|m2]; try discriminate;
      try (split; [apply m_empty_inv|simpl; tauto]).
    - split; [apply m_empty_inv|]. simpl. intros t. split; [tauto|].
      intros [[<-|[]] [E1|[]]]. subst. rewrite (proj2 (m_eqb_eq _ _) eq_refl) in E. discriminate.
    - destruct (memb s1 m2) eqn:M.
      + apply memb_spec in M. split; [exact If|]. simpl. intros t. split; [|tauto].
        intros [<-|[]]. auto.
      + apply memb_false in M. split; [apply m_empty_inv|]. simpl. intros t. split; [tauto|].
        intros [[<-|[]] I]. contradiction.
    - destruct (memb s2 m1) eqn:M.
      + apply memb_spec in M. split; [exact Ig|]. simpl. intros t. split; [|tauto].
        intros [<-|[]]. auto.
      + apply memb_false in M. split; [apply m_empty_inv|]. simpl. intros t. split; [tauto|].
        intros [I [<-|[]]]. contradiction.
    - split; [apply m_many_inv|]. intros t. rewrite m_many_in_sorted.
      + rewrite ho_in, set_inter_in. reflexivity.
      + intros r I. rewrite ho_in, set_inter_in in I. apply Sf, I.
  Qed.

  (** *** product *)
  Lemma m_product_spec h f g :
    minv (m_product h f g) /\ forall t, In t (mts (m_product h f g)) <->
      exists a b, In a (mts f) /\ In b (mts g) /\ t = filter_repeats (a ++ b).
  Proof.
    assert (C : forall a b : list T, filter_repeats (a ++ b) = filter_repeats (b ++ a)).
    { intros a b. apply filter_repeats_ext. intros x. rewrite !in_app_iff. tauto. }
    destruct f as [|s1|m1], g as [|s2|m2];
      try (split; [apply m_empty_inv|]; simpl; intros t; split;
           [tauto|intros (a & b & A & B & _); contradiction]);
      cbn [m_product].
    - split; [apply m_unit_inv|]. intros t. simpl. split.
      + intros [<-|[]]. exists s1, s2. auto.
      + intros (a & b & [<-|[]] & [<-|[]] & ->). auto.
    - split; [apply m_many_inv|]. intros t. unfold many_to_matrix. rewrite m_many_in. simpl. split.
      + intros (row & I & ->). apply in_map_iff in I. destruct I as (r & <- & I). rewrite ho_in in I.
        exists s1, r. auto.
      + intros (a & b & [<-|[]] & B & ->). exists (b ++ s1). split; [|apply C].
        apply in_map_iff. exists b. rewrite ho_in. auto.
    - split; [apply m_many_inv|]. intros t. unfold many_to_matrix. rewrite m_many_in. simpl. split.
      + intros (row & I & ->). apply in_map_iff in I. destruct I as (r & <- & I). rewrite ho_in in I.
        exists r, s2. auto.
      + intros (a & b & A & [<-|[]] & ->). exists (a ++ s2). split; [|reflexivity].
        apply in_map_iff. exists a. rewrite ho_in. auto.
    - split; [apply m_many_inv|]. intros t. rewrite m_many_in. simpl. split.
      + intros (row & I & ->). apply in_flat_map in I. destruct I as (r & I & J). rewrite ho_in in I.
        apply in_map_iff in J. destruct J as (r2 & <- & J). rewrite ho_in in J. exists r, r2; auto.
      + intros (a & b & A & B & ->). exists (a ++ b). split; [|reflexivity].
        apply in_flat_map. exists a. rewrite ho_in. split; [exact A|].
        apply in_map_iff. exists b. rewrite ho_in. auto.
  Qed.

  (** *** the subset family: all four are one filter *)
  Definition m_filter (h : hash_order) f (p : list T -> bool) : mforest T :=
    match f with
    | MUnit set => if p set then f else m_empty
    | MMany matrix => m_many (filter p (ho_iter h site_m1 matrix))
    | MEmpty => m_empty
    end.

  Lemma m_filter_spec h f p : minv f ->
    minv (m_filter h f p) /\ forall t, In t (mts (m_filter h f p)) <-> In t (mts f) /\ p t = true.
  Proof.
    intros If. pose proof If as (Sf & _ & Nf). destruct f as [|s|m]; cbn [m_filter].
    - split; [apply m_empty_inv|]. simpl; tauto.
    - destruct (p s) eqn:E.
      + split; [exact If|]. simpl. intros t. split; [|tauto]. intros [<-|[]]; auto.
      + split; [apply m_empty_inv|]. simpl. intros t. split; [tauto|]. intros [[<-|[]] ?]; congruence.
    - split; [apply m_many_inv|]. intros t. rewrite m_many_in_sorted.
      + rewrite filter_In, ho_in. reflexivity.
      + intros r I. rewrite filter_In, ho_in in I. apply Sf, I.
  Qed.

  Lemma m_filter_perm h h' f p : m_filter h f p = m_filter h' f p.
  Proof.
    destruct f; simpl; try reflexivity. apply m_many_perm. apply filter_perm.
    rewrite (ho_perm h), (ho_perm h'). reflexivity.
  Qed.

  Lemma m_subset_filter h f e : m_subset h f e = m_filter h f (fun set => memb e set).
  Proof. reflexivity. Qed.
  Lemma m_subset_not_filter h f e : m_subset_not h f e = m_filter h f (fun set => negb (memb e set)).
  Proof. reflexivity. Qed.
  Lemma m_subset_all_filter h f es : es <> [] ->
    m_subset_all h f es = m_filter h f (fun set => forallb (fun e => memb e set) es).
  Proof. destruct es; [congruence|]. reflexivity. Qed.
  Lemma m_subset_none_filter h f es : es <> [] ->
    m_subset_none h f es = m_filter h f (fun set => forallb (fun e => negb (memb e set)) es).
  Proof. destruct es; [congruence|]. reflexivity. Qed.

  Lemma negb_memb x (l : list T) : negb (memb x l) = true <-> ~ In x l.
  Proof. rewrite negb_true_iff. apply memb_false. Qed.

  Lemma m_subset_spec h f e : minv f ->
    minv (m_subset h f e) /\ forall t, In t (mts (m_subset h f e)) <-> In t (mts f) /\ In e t.
  Proof.
    intros I. rewrite m_subset_filter. destruct (m_filter_spec h f (fun set => memb e set) I) as [A B].
    split; [exact A|]. intros t. rewrite B, memb_spec. tauto.
  Qed.

  Lemma m_subset_not_spec h f e : minv f ->
    minv (m_subset_not h f e) /\ forall t, In t (mts (m_subset_not h f e)) <-> In t (mts f) /\ ~ In e t.
  Proof.
    intros I. rewrite m_subset_not_filter.
    destruct (m_filter_spec h f (fun set => negb (memb e set)) I) as [A B].
    split; [exact A|]. intros t. rewrite B, negb_memb. tauto.
  Qed.

  Lemma m_subset_all_spec h f es : minv f ->
    minv (m_subset_all h f es) /\
    forall t, In t (mts (m_subset_all h f es)) <-> In t (mts f) /\ (forall e, In e es -> In e t).
  Proof.
    intros I. destruct es as [|e0 es'].
    { split; [exact I|]. intros t. simpl. tauto. }
    rewrite m_subset_all_filter by discriminate.
    destruct (m_filter_spec h f (fun set => forallb (fun e => memb e set) (e0 :: es')) I) as [A B].
    split; [exact A|]. intros t. rewrite B. rewrite forallb_forall.
    split; intros [P Q]; (split; [exact P|]); intros e Ie; apply memb_spec; auto.
  Qed.

  Lemma m_subset_none_spec h f es : minv f ->
    minv (m_subset_none h f es) /\
    forall t, In t (mts (m_subset_none h f es)) <-> In t (mts f) /\ (forall e, In e es -> ~ In e t).
  Proof.
    intros I. destruct es as [|e0 es'].
    { split; [exact I|]. intros t. simpl. tauto. }
    rewrite m_subset_none_filter by discriminate.
    destruct (m_filter_spec h f (fun set => forallb (fun e => negb (memb e set)) (e0 :: es')) I) as [A B].
    split; [exact A|]. intros t. rewrite B. rewrite forallb_forall.
    split; intros [P Q]; (split; [exact P|]); intros e Ie; apply negb_memb; auto.
  Qed.

  Lemma m_unique_in items t : In t (mts (m_unique items)) <-> exists x, In x items /\ t = [x].
  Proof.
    unfold m_unique. rewrite m_many_in_sorted.
    - rewrite in_map_iff. split; intros (x & A & B); exists x; auto.
    - intros r I. apply in_map_iff in I. destruct I as (x & <- & _). repeat constructor.
  Qed.

  Lemma reach_minv f : MReach f -> minv f.
  Proof.
    induction 1.
    - apply m_empty_inv.
    - apply m_unit_inv.
    - apply m_many_inv.
    - apply m_many_inv.
    - apply m_union_spec; assumption.
    - apply m_intersect_spec; assumption.
    - apply m_product_spec.
    - apply m_subset_spec; assumption.
    - apply m_subset_not_spec; assumption.
    - apply m_subset_all_spec; assumption.
    - apply m_subset_none_spec; assumption.
  Qed.

  Lemma minv_listed h f : minv f -> well_listed (m_trees h f).
  Proof.
    intros (S & L & _). split.
    - intros t I. apply m_trees_in in I. auto.
    - eapply Permutation_NoDup; [symmetry; apply m_trees_perm|]. apply ssorted_NoDup; exact L.
  Qed.

  Lemma m_len_trees h f : m_len f = length (m_trees h f).
  Proof.
    rewrite (Permutation_length (m_trees_perm h f)). destruct f; reflexivity.
  Qed.

  (** *** occurrences *)
  Definition mget (m : list (T * nat)) (x : T) : nat :=
    match map_get m x with Some k => k | None => 0 end.

  Lemma occ_fold (l : list T) : forall m, map_ok m -> (forall y k, map_get m y = Some k -> 0 < k) ->
    let r := fold_left (fun m x => map_update m x (incr 1)) l m in
    map_ok r /\ (forall y k, map_get r y = Some k -> 0 < k) /\
    forall y, mget r y = mget m y + count_occ eq_dec_ l y.
  Proof.
    induction l as [|x l IH]; intros m K P; cbn [fold_left].
    - simpl. split; [exact K|]. split; [exact P|]. intros; lia.
    - destruct (IH (map_update m x (incr 1))) as (K' & P' & E).
      + apply map_update_ok; exact K.
      + intros y k. rewrite map_update_get by exact K. destruct (eqb_ y x).
        * injection 1 as <-. destruct (map_get m x); simpl; lia.
        * apply P.
      + split; [exact K'|]. split; [exact P'|]. intros y. rewrite E. unfold mget at 1.
        rewrite map_update_get by exact K. cbn [count_occ].
        destruct (eqb_spec_ y x) as [->|N].
        * destruct (eq_dec_ x x); [|congruence]. unfold mget. destruct (map_get m x); simpl; lia.
        * destruct (eq_dec_ x y); [congruence|]. unfold mget. lia.
  Qed.

  Lemma count_occ_concat (m : list (list T)) y : (forall t, In t m -> NoDup t) ->
    count_occ eq_dec_ (concat m) y = count m y.
  Proof.
    induction m as [|t m IH]; intros N; [reflexivity|]. cbn [concat count].
    rewrite count_occ_app, IH by (intros; apply N; right; assumption). f_equal.
    assert (Nt : NoDup t) by (apply N; left; reflexivity).
    destruct (memb y t) eqn:E.
    - apply memb_spec in E. pose proof (proj1 (NoDup_count_occ eq_dec_ t) Nt y).
      apply (count_occ_In eq_dec_) in E. lia.
    - apply memb_false in E. apply count_occ_not_In. exact E.
  Qed.

  Lemma count_perm (m m' : list (list T)) y : Permutation m m' -> count m y = count m' y.
  Proof. induction 1; simpl; lia. Qed.

  Lemma sorted_by_key (m m' : list (T * nat)) : map_ok m -> Permutation m' m ->
    sort_by (fun p q => leb_ (fst p) (fst q)) m' = m.
  Proof.
    intros K P.
    assert (S : StronglySorted (fun p q : T * nat => leb_ (fst p) (fst q) = true)
                  (sort_by (fun p q => leb_ (fst p) (fst q)) m')).
    { apply sort_by_sorted.
      - intros x y. apply leb_total_.
      - intros x y z. apply leb_trans_. }
    assert (P' : Permutation (sort_by (fun p q => leb_ (fst p) (fst q)) m') m)
      by (rewrite sort_by_perm; exact P).
    assert (K' : map_ok (sort_by (fun p q : T * nat => leb_ (fst p) (fst q)) m')).
    { unfold map_ok. apply SS_leb_NoDup.
      - clear - S. induction S as [|x l S IH F]; simpl; constructor; auto.
        apply Forall_map. exact F.
      - eapply Permutation_NoDup; [|apply ssorted_NoDup; exact K].
        apply Permutation_map. symmetry. exact P'. }
    apply amap_ext; [exact K'|exact K|]. intros k.
    destruct (map_get m k) as [v|] eqn:E.
    - apply map_get_in; [exact K'|]. apply map_get_in in E; [|exact K].
      eapply Permutation_in; [symmetry; exact P'|exact E].
    - apply map_get_none; [exact K'|]. apply map_get_none in E; [|exact K].
      intros C. apply E. eapply Permutation_in; [apply Permutation_map; exact P'|exact C].
  Qed.

  Lemma occ_map_ok h (m : list (list T)) : (forall t, In t m -> ssorted t) ->
    let r := fold_left (fun m x => map_update m x (incr 1)) (concat (ho_iter h site_m1 m)) [] in
    map_ok r /\ forall y k, map_get r y = Some k <-> 0 < k /\ k = count m y.
  Proof.
    intros S r.
    destruct (occ_fold (concat (ho_iter h site_m1 m)) []) as (K & P & E).
    - constructor.
    - intros ? ? X; discriminate X.
    - split; [exact K|]. intros y k. fold r in K, P, E.
      specialize (E y). rewrite count_occ_concat in E.
      2:{ intros t I. rewrite ho_in in I. apply ssorted_NoDup, S, I. }
      rewrite (count_perm _ m y (ho_perm h _ _ m)) in E. unfold mget in E. simpl in E.
      specialize (P y). destruct (map_get r y) as [k'|] eqn:G.
      + specialize (P k' eq_refl). split; [intros [= ->]; lia|]. intros [_ ->]. congruence.
      + split; [discriminate|]. lia.
  Qed.

  Lemma m_occurrences_spec h f : minv f ->
    ssorted (map fst (m_occurrences h f)) /\
    forall x k, In (x, k) (m_occurrences h f) <-> 0 < k /\ k = count (mts f) x.
  Proof.
    intros (S & _ & _). destruct f as [|s|m].
    - simpl. split; [constructor|]. intros. split; [tauto|lia].
    - cbn [m_occurrences mts]. rewrite map_map. cbn. rewrite map_id.
      split; [apply S; left; reflexivity|]. intros x k. rewrite in_map_iff. split.
      + intros (y & [= <- <-] & I). apply memb_spec in I. cbn [count]. rewrite I. lia.
      + cbn [count]. destruct (memb x s) eqn:E; [|lia]. intros [_ ->]. apply memb_spec in E. exists x. auto.
    - cbn [m_occurrences mts]. destruct (occ_map_ok h m S) as (K & G). cbn zeta in *.
      rewrite (sorted_by_key _ _ K (ho_perm h _ _ _)). split; [exact K|].
      intros x k. rewrite <- G. symmetry. apply map_get_in. exact K.
  Qed.

  Lemma m_occurrences_perm h h' f : minv f -> m_occurrences h f = m_occurrences h' f.
  Proof.
    intros I. destruct f as [|s|m]; try reflexivity. destruct I as (S & _ & _).
    cbn [m_occurrences]. destruct (occ_map_ok h m S) as (K & G). destruct (occ_map_ok h' m S) as (K' & G').
    cbn zeta in *. rewrite (sorted_by_key _ _ K (ho_perm h _ _ _)), (sorted_by_key _ _ K' (ho_perm h' _ _ _)).
    apply amap_ext; auto. intros x.
    match goal with |- ?a = ?b => destruct a as [v|] eqn:E1; destruct b as [w|] eqn:E2 end; try reflexivity.
    - apply G in E1. apply G' in E2. f_equal. lia.
    - apply G in E1. apply G' in E1. congruence.
    - apply G' in E2. apply G in E2. congruence.
  Qed.
End MForestProofs.

Section TreeProofs.
  Context {T : Type} `{OT : Ord T}.
  Implicit Types t u : tree T.

  Definition tes t : list T := match t with TEmpty => [] | TOne e => [e] | TMany s => s end.
  Definition tinv t : Prop := ssorted (tes t) /\ (forall s, t = TMany s -> s <> []).

  Lemma t_elems_perm h t : Permutation (t_elems h t) (tes t).
  Proof. destruct t; simpl; try reflexivity. apply ho_perm. Qed.
  Lemma t_elems_in h t x : In x (t_elems h t) <-> In x (tes t).
  Proof. split; apply Permutation_in; [|symmetry]; apply t_elems_perm. Qed.
  Lemma t_eqb_eq t u : t_eqb t u = true <-> t = u.
  Proof.
    destruct t, u; simpl; try (split; [discriminate|congruence]); [tauto| |];
    rewrite eqb_true_; split; congruence.
  Qed.

  Lemma t_many_big es : 2 <= length es -> t_many es = TMany (hset es).
  Proof. destruct es as [|a [|b es]]; simpl; intros; try lia; reflexivity. Qed.
  Lemma t_many_in es x : In x (tes (t_many es)) <-> In x es.
  Proof.
    destruct es as [|a [|b es]]; try (simpl; tauto).
    rewrite t_many_big by (simpl; lia). cbn [tes]. apply hset_in.
  Qed.
  Lemma t_many_inv es : tinv (t_many es).
  Proof.
    split.
    - destruct es as [|a [|b es]]; [constructor|repeat constructor|].
      rewrite t_many_big by (simpl; lia). apply hset_ssorted.
    - intros s. destruct es as [|a [|b es]]; try discriminate.
      rewrite t_many_big by (simpl; lia). intros [= <-] E. apply (proj1 (hset_nil _)) in E. discriminate.
  Qed.
  Lemma t_empty_inv : tinv TEmpty. Proof. apply (t_many_inv []). Qed.

  Lemma t_union_inv h t u : tinv t -> tinv u -> tinv (t_union h t u).
  Proof.
    intros It Iu. unfold t_union. destruct (t_eqb t u); [exact It|].
    destruct t as [|a|s], u as [|b|s2]; auto using t_many_inv, t_empty_inv.
    - destruct (memb a s2); auto using t_empty_inv.
    - destruct (memb b s); auto using t_empty_inv.
    - destruct (set_subset s s2); auto. destruct (set_subset s2 s); auto. apply t_many_inv.
  Qed.

  Lemma t_intersect_elems h t u x : In x (tes (t_intersect h t u)) <-> In x (tes t) /\ In x (tes u).
  Proof.
    unfold t_intersect. destruct (t_eqb t u) eqn:E.
    { apply t_eqb_eq in E. subst. tauto. }
    destruct t as [|a|s], u as [|b|s2]; try discriminate; try (simpl; tauto).
    - simpl. split; [tauto|].
      intros [[<-|[]] [->|[]]]. rewrite (proj2 (t_eqb_eq _ _) eq_refl) in E. discriminate.
    - destruct (memb a s2) eqn:M.
      + apply memb_spec in M. simpl. split; [|tauto]. intros [<-|[]]; auto.
      + apply memb_false in M. simpl. split; [tauto|]. intros [[<-|[]] ?]; contradiction.
    - destruct (memb b s) eqn:M.
      + apply memb_spec in M. simpl. split; [|tauto]. intros [<-|[]]; auto.
      + apply memb_false in M. simpl. split; [tauto|]. intros [? [<-|[]]]; contradiction.
    - destruct (set_subset s s2) eqn:E1.
      { apply set_subset_spec in E1. specialize (E1 x). simpl; tauto. }
      destruct (set_subset s2 s) eqn:E2.
      { apply set_subset_spec in E2. specialize (E2 x). simpl; tauto. }
      rewrite t_many_in, ho_in, set_inter_in. reflexivity.
  Qed.
  Lemma t_intersect_spec h t u : tinv t -> tinv u ->
    tinv (t_intersect h t u) /\ forall x, In x (tes (t_intersect h t u)) <-> In x (tes t) /\ In x (tes u).
  Proof.
    intros It Iu. split; [|apply t_intersect_elems]. unfold t_intersect. destruct (t_eqb t u); [exact It|].
    destruct t as [|a|s], u as [|b|s2]; try apply t_empty_inv.
    - destruct (memb a s2); [exact It|apply t_empty_inv].
    - destruct (memb b s); [exact Iu|apply t_empty_inv].
    - destruct (set_subset s s2); [exact It|]. destruct (set_subset s2 s); [exact Iu|]. apply t_many_inv.
  Qed.

  (** union misbehaves only for a single element against a larger set without it *)
  Lemma t_union_spec h t u :
    (forall e s, t = TOne e -> u = TMany s -> In e s) ->
    (forall e s, t = TMany s -> u = TOne e -> In e s) ->
    forall x, In x (tes (t_union h t u)) <-> In x (tes t) \/ In x (tes u).
  Proof.
    intros D1 D2. unfold t_union. destruct (t_eqb t u) eqn:E.
    { apply t_eqb_eq in E. subst. tauto. }
    destruct t as [|a|s], u as [|b|s2]; try discriminate; try (simpl; tauto).
    - intros x. rewrite t_many_in. simpl. tauto.
    - specialize (D1 a s2 eq_refl eq_refl). rewrite (proj2 (memb_spec _ _) D1). simpl. intros x.
      split; [tauto|]. intros [[<-|[]]|?]; auto.
    - specialize (D2 b s eq_refl eq_refl). rewrite (proj2 (memb_spec _ _) D2). simpl. intros x.
      split; [tauto|]. intros [?|[<-|[]]]; auto.
    - destruct (set_subset s s2) eqn:E1.
      { apply set_subset_spec in E1. intros x. specialize (E1 x). simpl; tauto. }
      destruct (set_subset s2 s) eqn:E2.
      { apply set_subset_spec in E2. intros x. specialize (E2 x). simpl; tauto. }
      intros x. rewrite t_many_in, ho_in, set_union_in. reflexivity.
  Qed.

  Lemma treach_inv t : TReach t -> tinv t.
  Proof.
    induction 1.
    - apply t_empty_inv.
    - apply (t_many_inv [e]).
    - apply t_many_inv.
    - apply t_union_inv; assumption.
    - apply t_intersect_spec; assumption.
  Qed.

  Lemma t_len_elems h t : t_len t = length (t_elems h t).
  Proof. rewrite (Permutation_length (t_elems_perm h t)). destruct t; reflexivity. Qed.

  (** the rows of a product *)
  Definition t_rows (h : hash_order) t u : list (list T) :=
    match t, u with
    | _, TEmpty => []
    | TEmpty, _ => []
    | TOne e1, TOne e2 => [[e1; e2]]
    | TOne e, TMany set => one_to_many_rows h e set
    | TMany set, TOne e => one_to_many_rows h e set
    | TMany set1, TMany set2 => many_to_many_rows h set1 set2
    end.

  Lemma t_rows_in h t u row : In row (t_rows h t u) ->
    exists a b, In a (tes t) /\ In b (tes u) /\ same_elems row [a; b].
  Proof.
    assert (SE : forall a b : T, same_elems [a; b] [b; a]) by (intros a b x; simpl; tauto).
    assert (SR : forall r : list T, same_elems r r) by (intros r x; tauto).
    destruct t as [|a|s], u as [|b|s2]; simpl; try tauto.
    - intros [<-|[]]. exists a, b. auto.
    - intros I. apply in_map_iff in I. destruct I as (b & <- & I). rewrite ho_in in I. exists a, b. auto.
    - intros I. apply in_map_iff in I. destruct I as (x & <- & I). rewrite ho_in in I. exists x, b. auto.
    - intros I. apply in_flat_map in I. destruct I as (x & I & J). apply in_map_iff in J.
      destruct J as (y & <- & J). rewrite ho_in in I, J. exists x, y; auto.
  Qed.

  Lemma t_rows_has h t u a b : In a (tes t) -> In b (tes u) ->
    exists row, In row (t_rows h t u) /\ same_elems row [a; b] /\ row <> [].
  Proof.
    assert (SE : forall a b : T, same_elems [a; b] [b; a]) by (intros x y z; simpl; tauto).
    assert (SR : forall r : list T, same_elems r r) by (intros r x; tauto).
    destruct t as [|x|s], u as [|y|s2]; simpl; try tauto.
    - intros [<-|[]] [<-|[]]. exists [x; y]. split; [auto|]. split; [auto|discriminate].
    - intros [<-|[]] B. exists [x; b]. split; [|split; [auto|discriminate]].
      apply in_map_iff. exists b. rewrite ho_in. auto.
    - intros A [<-|[]]. exists [y; a]. split; [|split; [auto|discriminate]].
      apply in_map_iff. exists a. rewrite ho_in. auto.
    - intros A B. exists [a; b]. split; [|split; [auto|discriminate]].
      apply in_flat_map. exists a. rewrite ho_in. split; [exact A|]. apply in_map_iff. exists b. rewrite ho_in. auto.
  Qed.

  Lemma t_rows_nonempty h t u row : In row (t_rows h t u) -> row <> [].
  Proof.
    intros I. apply t_rows_in in I. destruct I as (a & b & _ & _ & S). intros ->.
    apply (S a). left; reflexivity.
  Qed.

  Lemma t_product_m_rows h t u : mts (t_product_m h t u) = mts (m_many (t_rows h t u)).
  Proof. destruct t as [|a|s], u as [|b|s2]; reflexivity. Qed.

End TreeProofs.
