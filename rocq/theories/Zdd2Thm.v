(** Zdd2Thm: proofs of the property theorems about zdd2 forests, in the form
    in which Properties_Zdd2.v states them, with non-vacuity examples. *)
From Coq Require Import List Arith Lia Bool Permutation Sorted.
From Verif Require Import Base DD Spec Zdd2Model Zdd2Node Zdd2Node2 Zdd2Univ Zdd2Forest Zdd2Forest2 Zdd2Resort Zdd2Forest3 Zdd2Exact2 Zdd2Laws.
Import ListNotations.

Ltac trees :=
  repeat match goal with
  | H : f_trees ?f = Some ?t |- _ => rewrite f_trees_tl in H; injection H as <-
  end;
  match goal with Hf : Reach ?f |- _ => pose proof (Reach_Canon f Hf) end.
Ltac trees2 Hf Hg :=
  repeat match goal with
  | H : f_trees ?f = Some ?t |- _ => rewrite f_trees_tl in H; injection H as <-
  end;
  pose proof (Reach_Canon _ Hf) as H; pose proof (Reach_Canon _ Hg) as H0.

(** C01.  [Forest::many(rows)] succeeds; its listing is strictly ascending
    vectors without repetition; it holds exactly the sets of the non-empty rows. *)
Lemma C01_many_exact_pf : forall (T : Type) (O : Ord T) (h : hash_order) (rows : list (list T)),
  exists f ts, f_many h rows = Some f /\ f_trees f = Some ts /\ well_listed ts /\
    (forall row, In row rows -> row <> [] -> has_set ts row) /\
    (forall t, In t ts -> t <> [] /\ exists row, In row rows /\ same_elems t row).
Proof.
  intros T O h rows. destruct (many_spec h rows) as (f & occ & E & Hc & Ht).
  exists f, (tl_ f). split; [exact E|]. split; [apply f_trees_tl|].
  split; [apply (canon_tl _ _ Hc)|]. split.
  - intros row Hr Hne. exists (filter_repeats row). split; [|intros x; apply filter_repeats_in].
    apply Ht. split; [|apply in_map; auto]. intros E0. apply (proj1 (filter_repeats_nil _)) in E0. contradiction.
  - intros t Hin. apply Ht in Hin. destruct Hin as (Hn & Hin). split; auto.
    apply in_map_iff in Hin. destruct Hin as (row & <- & Hr). exists row. split; auto.
    intros x; apply filter_repeats_in.
Qed.
Example C01_example : exists f, f_many ho_rev [[3;1;3];[];[2];[1;3]] = Some f /\ f_trees f = Some [[1;3];[2]].
Proof. eexists. split; vm_compute; reflexivity. Qed.

(** C02.  [unit], [unique] and [empty]. *)
Lemma C02_unit_exact_pf : forall (T : Type) (O : Ord T) (h : hash_order) (items : list T),
  exists f ts, f_unit h items = Some f /\ f_trees f = Some ts /\
    (items = [] -> ts = []) /\
    (items <> [] -> exists t, ts = [t] /\ ssorted t /\ same_elems t items).
Proof.
  intros T O h items. rewrite unit_many. destruct (many_spec h [items]) as (f & occ & E & Hc & Ht).
  exists f, (tl_ f). split; [exact E|]. split; [apply f_trees_tl|]. split.
  - intros ->. destruct (tl_ f) as [|t l] eqn:Et; auto. exfalso.
    destruct (proj1 (Ht t) (or_introl eq_refl)) as (Hn & [<-|[]]). apply Hn. reflexivity.
  - intros Hne. exists (filter_repeats items).
    split; [|split; [apply filter_repeats_ssorted|intros x; apply filter_repeats_in]].
    destruct (canon_tl _ _ Hc) as [[_ Hnd] _].
    assert (Hall : forall t, In t (tl_ f) -> t = filter_repeats items).
    { intros t Hin. apply Ht in Hin. destruct Hin as (_ & [<-|[]]). reflexivity. }
    assert (Hin : In (filter_repeats items) (tl_ f)).
    { apply Ht. split; [|left; auto]. intros E0. apply (proj1 (filter_repeats_nil _)) in E0. contradiction. }
    destruct (tl_ f) as [|a [|b l]]; [destruct Hin| |].
    + rewrite (Hall a) by (left; auto). reflexivity.
    + exfalso. inversion Hnd; subst. apply H1. left. rewrite (Hall a), (Hall b); simpl; auto.
Qed.

Lemma C02_unique_exact_pf : forall (T : Type) (O : Ord T) (h : hash_order) (items : list T),
  exists f ts, f_unique h items = Some f /\ f_trees f = Some ts /\ NoDup ts /\
    forall t, In t ts <-> exists x, In x items /\ t = [x].
Proof.
  intros T O h items. rewrite unique_many.
  destruct (many_spec h (map (fun x => [x]) items)) as (f & occ & E & Hc & Ht).
  exists f, (tl_ f). split; [exact E|]. split; [apply f_trees_tl|].
  split; [apply (canon_tl _ _ Hc)|]. intros t. rewrite Ht, map_map, in_map_iff. split.
  - intros (_ & x & <- & Hx). exists x. auto.
  - intros (x & Hx & ->). split; [congruence|]. exists x. auto.
Qed.

Lemma C02_empty_exact_pf : forall (T : Type) (O : Ord T), f_trees (f_empty (T:=T)) = Some [].
Proof. reflexivity. Qed.

Example C02_example : exists f g, f_unit ho_id [5;2;5] = Some f /\ f_trees f = Some [[2;5]] /\
  f_unique ho_rev [5;2;5] = Some g /\ f_trees g = Some [[2];[5]].
Proof. eexists. eexists. repeat split; vm_compute; reflexivity. Qed.

(** C03.  Listings of reachable forests are well formed. *)
Lemma C03_trees_well_formed_pf : forall (T : Type) (O : Ord T) (f : forest T), Reach f ->
  exists ts, f_trees f = Some ts /\ well_listed ts /\ ~ In [] ts.
Proof.
  intros T O f Hf. apply Reach_Canon in Hf. destruct Hf as [occ Hc].
  exists (tl_ f). split; [apply f_trees_tl|]. apply (canon_tl _ _ Hc).
Qed.
(** a forest obtained through several operations *)
Example C03_example : exists f g r, Reach f /\ Reach g /\ Reach r /\ f_union ho_rev f g = Some r /\
  f_trees r = Some [[1;2];[1;3];[4;5];[5;6]].
Proof.
  do 3 eexists. split; [eapply (R_many ho_id [[2;1;1];[3;1]]); vm_compute; reflexivity|].
  split; [eapply (R_many ho_id [[5;6];[4;5];[6;5]]); vm_compute; reflexivity|].
  split; [|split].
  - eapply (R_union ho_rev); [eapply (R_many ho_id [[2;1;1];[3;1]])|eapply (R_many ho_id [[5;6];[4;5];[6;5]])|]; vm_compute; reflexivity.
  - vm_compute; reflexivity.
  - vm_compute; reflexivity.
Qed.

(** C04.  [len] and [is_empty] agree with the listing. *)
Lemma C04_len_is_empty_pf : forall (T : Type) (O : Ord T) (f : forest T), Reach f ->
  exists ts, f_trees f = Some ts /\ NoDup ts /\ f_len f = Some (length ts) /\
    exists b, f_is_empty f = Some b /\ (b = true <-> length ts = 0).
Proof.
  intros T O f Hf. apply Reach_Canon in Hf. destruct Hf as [occ Hc].
  exists (tl_ f). split; [apply f_trees_tl|]. split; [apply (canon_tl _ _ Hc)|].
  unfold f_len, f_is_empty. rewrite node_trees_paths. cbn [bind].
  unfold tl_. rewrite map_length. split; auto.
  eexists. split; [reflexivity|]. destruct (paths (f_root f)); simpl; split; intros; congruence || discriminate.
Qed.
Example C04_example : exists f, f_many ho_id [[1;2];[2;1];[];[3]] = Some f /\ Reach f /\
  f_len f = Some 2 /\ f_is_empty f = Some false.
Proof.
  eexists. split; [vm_compute; reflexivity|]. split; [eapply (R_many ho_id [[1;2];[2;1];[];[3]])|split]; vm_compute; reflexivity.
Qed.

(** C05.  [occurrences] is ascending by item and exact. *)
Lemma C05_occurrences_exact_pf : forall (T : Type) (O : Ord T) (h : hash_order) (f : forest T) ts,
  Reach f -> f_trees f = Some ts ->
  ssorted (map fst (f_occurrences h f)) /\
  forall x k, In (x, k) (f_occurrences h f) <-> 0 < k /\ k = count ts x.
Proof.
  intros T O h f ts Hf Ht. trees. destruct H as [occ Hc]. rewrite (occurrences_eq h f occ Hc).
  split; [apply Hc|]. intros x k. apply occ_in; auto.
Qed.
Example C05_example : exists f, f_many ho_rev [[3;1];[3];[3;2];[1;3]] = Some f /\
   Reach f /\ f_occurrences ho_rev f = [(1,1);(2,1);(3,3)].
Proof. eexists. split; [vm_compute; reflexivity|]. split; [eapply (R_many ho_rev [[3;1];[3];[3;2];[1;3]]); vm_compute; reflexivity|vm_compute; reflexivity]. Qed.

(** C06.  [==] is extensional on reachable forests. *)
Lemma C06_equality_extensional_pf : forall (T : Type) (O : Ord T) (f g : forest T) tf tg,
  Reach f -> Reach g -> f_trees f = Some tf -> f_trees g = Some tg ->
  (f_eqb f g = true <-> forall s, has_set tf s <-> has_set tg s).
Proof.
  intros T O f g tf tg Hf Hg Ef Eg. trees2 Hf Hg. rewrite f_eqb_spec. split; [intros ->; tauto|].
  intros Hs. apply Canon_ext; auto. destruct H as [o Hcf], H0 as [o' Hcg].
  assert (X : forall (a b : forest T) oa ob, canon a oa -> canon b ob ->
    (forall s, has_set (tl_ a) s -> has_set (tl_ b) s) -> forall s, In s (tl_ a) -> In s (tl_ b)).
  { intros a b oa ob Ha Hb Hab s Hin. destruct (Hab s) as (t & Ht & He); [exists s; split; auto; intros x; tauto|].
    assert (t = s); [|congruence]. apply ssorted_ext; auto.
    - apply (canon_tl _ _ Hb); auto.
    - apply (canon_tl _ _ Ha); auto. }
  intros s. split; [eapply X|eapply X]; eauto; intros; apply Hs; auto.
Qed.
Example C06_example : exists f g, f_many ho_id [[1;2];[3]] = Some f /\
  (exists a b, f_unit ho_id [2;1] = Some a /\ f_unique ho_id [3] = Some b /\ f_union ho_id a b = Some g) /\ f_eqb f g = true.
Proof.
  eexists. eexists. split; [vm_compute; reflexivity|]. split.
  - eexists. eexists. split; [vm_compute; reflexivity|]. split; [vm_compute; reflexivity|]. vm_compute; reflexivity.
  - vm_compute; reflexivity.
Qed.

(** C07. *)
Lemma C07_subset_exact_pf : forall (T : Type) (O : Ord T) (h : hash_order) (f : forest T) e ts,
  Reach f -> f_trees f = Some ts ->
  exists r tr, f_subset h f e = Some r /\ f_trees r = Some tr /\
    forall t, In t tr <-> In t ts /\ In e t.
Proof.
  intros T O h f e ts Hf Ht. trees. destruct (subset_spec h f e H) as (r & E & _ & S).
  exists r, (tl_ r). split; auto. split; [apply f_trees_tl|exact S].
Qed.

(** C08. *)
Lemma C08_subset_not_exact_pf : forall (T : Type) (O : Ord T) (h : hash_order) (f : forest T) e ts,
  Reach f -> f_trees f = Some ts ->
  exists r tr, f_subset_not h f e = Some r /\ f_trees r = Some tr /\
    forall t, In t tr <-> In t ts /\ ~ In e t.
Proof.
  intros T O h f e ts Hf Ht. trees. destruct (subset_not_spec h f e H) as (r & E & _ & S).
  exists r, (tl_ r). split; auto. split; [apply f_trees_tl|exact S].
Qed.

(** C09. *)
Lemma C09_subset_all_exact_pf : forall (T : Type) (O : Ord T) (h : hash_order) (f : forest T) es ts,
  Reach f -> f_trees f = Some ts ->
  exists r tr, f_subset_all h f es = Some r /\ f_trees r = Some tr /\
    forall t, In t tr <-> In t ts /\ (forall e, In e es -> In e t).
Proof.
  intros T O h f es ts Hf Ht. trees. destruct (subset_all_spec h f es H) as (r & E & _ & S).
  exists r, (tl_ r). split; auto. split; [apply f_trees_tl|exact S].
Qed.

(** a forest with several trees, used in the examples *)
Definition ex_rows := [[1;2];[1;3];[2;3;4];[5]].
Lemma ex_reach : exists f, Reach f /\ f_trees f = Some [[1;2];[1;3];[2;3;4];[5]].
Proof.
  eexists. split; [eapply (R_many ho_id ex_rows); vm_compute; reflexivity|]. vm_compute. reflexivity.
Qed.
Example C07_example : exists f r, Reach f /\ f_subset ho_id f 3 = Some r /\ f_trees r = Some [[1;3];[2;3;4]].
Proof. eexists. eexists. split; [eapply (R_many ho_id ex_rows); vm_compute; reflexivity|]. split; vm_compute; reflexivity. Qed.
Example C08_example : exists f r, Reach f /\ f_subset_not ho_id f 3 = Some r /\ f_trees r = Some [[1;2];[5]].
Proof. eexists. eexists. split; [eapply (R_many ho_id ex_rows); vm_compute; reflexivity|]. split; vm_compute; reflexivity. Qed.
Example C09_example : exists f r, Reach f /\ f_subset_all ho_id f [3;2] = Some r /\ f_trees r = Some [[2;3;4]].
Proof. eexists. eexists. split; [eapply (R_many ho_id ex_rows); vm_compute; reflexivity|]. split; vm_compute; reflexivity. Qed.

(** C10: the full claim (false of the code), its refutation, and what holds. *)
Definition C10_claim (T : Type) (O : Ord T) : Prop := forall (h : hash_order) (f : forest T) es ts r tr,
  Reach f -> f_trees f = Some ts -> f_subset_none h f es = Some r -> f_trees r = Some tr ->
  forall t, In t tr <-> In t ts /\ (forall e, In e es -> ~ In e t).

(** [[1],[3],[2,3]].subset_none([1,2]) keeps [2,3]. *)
Lemma C10_subset_none_refuted_pf : ~ C10_claim nat _.
Proof.
  intros C.
  assert (X : In [2;3] [[2;3];[3]] <-> In [2;3] [[2;3];[3];[1]] /\ (forall e, In e [1;2] -> ~ In e [2;3])).
  { eapply (C ho_id _ [1;2]); [eapply (R_many ho_id [[1];[3];[3;2]])| | |]; vm_compute; reflexivity. }
  destruct X as [X _]. destruct X as [_ X]; [simpl; auto|]. apply (X 2); simpl; auto.
Qed.

(** For every forest: total, only trees of the forest are kept, and all that
    should be kept are; exact if all elements occur in the forest and either
    they are all the same or no tree is a proper subset of another, and exact
    if no element occurs at all. *)
Lemma C10_subset_none_partial_pf : forall (T : Type) (O : Ord T) (h : hash_order) (f : forest T) es ts,
  Reach f -> f_trees f = Some ts ->
  exists r tr, f_subset_none h f es = Some r /\ f_trees r = Some tr /\
    (forall t, In t tr -> In t ts) /\
    (forall t, In t ts -> (forall e, In e es -> ~ In e t) -> In t tr) /\
    (((forall e, In e es -> exists t, In t ts /\ In e t) /\
      (no_proper_subset ts ts \/ (exists e, forall x, In x es -> x = e))) \/
     (forall e t, In e es -> In t ts -> ~ In e t) ->
     forall t, In t tr <-> In t ts /\ (forall e, In e es -> ~ In e t)).
Proof.
  intros T O h f es ts Hf Ht. trees. destruct (subset_none_spec h f es H) as (r & E & _ & S1 & S2 & S3).
  exists r, (tl_ r). split; auto. split; [apply f_trees_tl|]. auto.
Qed.
Example C10_example : exists f r, Reach f /\ f_trees f = Some [[1;2];[1;3];[2;3;4];[5]] /\
  no_proper_subset [[1;2];[1;3];[2;3;4];[5]] [[1;2];[1;3];[2;3;4];[5]] /\
  f_subset_none ho_id f [2;5] = Some r /\ f_trees r = Some [[1;3]].
Proof.
  eexists. eexists. split; [eapply (R_many ho_id ex_rows); vm_compute; reflexivity|].
  split; [vm_compute; reflexivity|]. split; [|split; vm_compute; reflexivity].
  intros a b Ha Hb Hi x. simpl in Ha, Hb.
  repeat (destruct Ha as [<-|Ha]; [repeat (destruct Hb as [<-|Hb]; [
     first [tauto | exfalso; clear -Hi; unfold incl in Hi; 
       first [pose proof (Hi 1) as Q; simpl in Q; intuition discriminate|pose proof (Hi 2) as Q; simpl in Q; intuition discriminate
       |pose proof (Hi 3) as Q; simpl in Q; intuition discriminate|pose proof (Hi 4) as Q; simpl in Q; intuition discriminate|
       pose proof (Hi 5) as Q; simpl in Q; intuition discriminate]] |]); destruct Hb|]). destruct Ha.
Qed.

(** For every forest and every list of elements: exactly which trees are kept.
    Nothing is filtered if the list is empty or some element occurs nowhere;
    otherwise the trees without the first element are met, one element after the
    other, with the trees without that element, where meeting two families keeps
    the trees of both and also a tree of one along which the other ends. *)
Lemma C10_subset_none_exact_partial_pf : forall (T : Type) (O : Ord T) (h : hash_order) (f : forest T) es ts,
  Reach f -> f_trees f = Some ts ->
  exists r tr, f_subset_none h f es = Some r /\ f_trees r = Some tr /\
    match es with
    | [] => tr = ts
    | e :: es' =>
        (forall x, In x es -> exists t, In t ts /\ In x t) ->
        met_all (count ts) ts (without e ts) es' tr
    end /\
    ((exists x, In x es /\ forall t, In t ts -> ~ In x t) -> tr = ts).
Proof.
  intros T O h f es ts Hf Ht. trees. destruct (subset_none_exact h f es H) as (r & E & _ & S1 & S2).
  exists r, (tl_ r). split; auto. split; [apply f_trees_tl|]. split.
  - destruct es; [congruence|exact S1].
  - intros X. rewrite (S2 X). reflexivity.
Qed.
(** the refuting case: {2,3} is a tree of [without 1] along which [without 2] ends (at {3}) *)
Example C10_exact_example : exists f r, Reach f /\ f_trees f = Some [[2;3];[3];[1]] /\
  f_subset_none ho_id f [1;2] = Some r /\ f_trees r = Some [[2;3];[3]] /\
  without 1 [[2;3];[3];[1]] = [[2;3];[3]] /\ without 2 [[2;3];[3];[1]] = [[3];[1]] /\
  ends_along (count [[2;3];[3];[1]]) [[3];[1]] [2;3].
Proof.
  eexists. eexists. split; [eapply (R_many ho_id [[1];[3];[3;2]]); vm_compute; reflexivity|].
  do 5 (split; [vm_compute; reflexivity|]).
  exists (Some 3). split.
  - exists [3]. split; [left; reflexivity|]. intros x [->|B]; [cbn; tauto|]. destruct B as [B|[B B']].
    + exfalso. do 4 (destruct x as [|x]; [vm_compute in B; lia|]). vm_compute in B. lia.
    + exfalso. do 4 (destruct x as [|x]; [vm_compute in B, B'; first [lia|discriminate]|]). vm_compute in B. lia.
  - intros g x G A X. destruct G as [<-|[<-|[]]].
    + destruct X as [<-|[]]. left; reflexivity.
    + destruct X as [<-|[]]. exfalso. specialize (A 3 (or_introl eq_refl)). cbn in A.
      destruct A as [_ A]. destruct A as [A|[]]; [auto|discriminate].
Qed.

(** C11 *)
Definition C11_claim (T : Type) (O : Ord T) : Prop := forall (h : hash_order) (f g r : forest T) tf tg tr,
  Reach f -> Reach g -> f_union h f g = Some r ->
  f_trees f = Some tf -> f_trees g = Some tg -> f_trees r = Some tr ->
  forall t, In t tr <-> In t tf \/ In t tg.

(** many([[1],[1,2]]) ∪ many([[2,3],[2,4],[2,5]]) loses {1} (and gains {2}). *)
Lemma C11_union_refuted_pf : ~ C11_claim nat _.
Proof.
  intros C.
  assert (X : In [1] [[1;2];[2;3];[2;4];[2;5];[2]] <-> In [1] [[1;2];[1]] \/ In [1] [[2;3];[2;4];[2;5]]).
  { eapply (C ho_id); [eapply (R_many ho_id [[1];[1;2]])|eapply (R_many ho_id [[2;3];[2;4];[2;5]])| | | |]; vm_compute; reflexivity. }
  destruct X as [_ X]. destruct X as [X|[X|[X|[X|[X|[]]]]]]; try discriminate. simpl. auto.
Qed.

(** Union never fails, and is exact when each side is [settled] (Spec): its trees
    survive putting its items in the order of the added counts. *)
Lemma C11_union_partial_pf : forall (T : Type) (O : Ord T) (h : hash_order) (f g : forest T) tf tg,
  Reach f -> Reach g -> f_trees f = Some tf -> f_trees g = Some tg ->
  exists r tr, f_union h f g = Some r /\ f_trees r = Some tr /\
    (settled tf tg -> settled tg tf ->
     forall t, In t tr <-> In t tf \/ In t tg).
Proof.
  intros T O h f g tf tg Hf Hg Ef Eg. trees2 Hf Hg.
  destruct (f_union_spec h f g H H0) as (r & E & _ & S).
  exists r, (tl_ r). split; auto. split; [apply f_trees_tl|exact S].
Qed.

(** A side is settled if any two items of one of its trees keep their order when
    the counts of the other side are added, or occur in exactly the same trees. *)
Lemma C11_order_kept_partial_pf : forall (T : Type) (O : Ord T) (f g : forest T) tf tg,
  Reach f -> Reach g -> f_trees f = Some tf -> f_trees g = Some tg ->
  order_kept tf tg -> settled tf tg.
Proof. intros T O f g tf tg Hf Hg Ef Eg. trees2 Hf Hg. apply kept_settled; auto. Qed.
(** 1 and 2 are in the same trees of the first side; 2 overtakes 1, 1 overtakes nothing *)
Example C11_order_kept_example : exists f g r : forest nat, Reach f /\ Reach g /\ f_trees f = Some [[1;2];[3]] /\ f_trees g = Some [[2;4]] /\
  order_kept [[1;2];[3]] [[2;4]] /\ order_kept [[2;4]] [[1;2];[3]] /\ ~ order_stable [[1;2];[3]] [[2;4]] /\
  f_union ho_id f g = Some r /\ f_trees r = Some [[1;2];[2;4];[3]].
Proof.
  do 3 eexists. split; [eapply (R_many ho_id [[1;2];[3]]); vm_compute; reflexivity|].
  split; [eapply (R_many ho_id [[2;4]]); vm_compute; reflexivity|].
  do 2 (split; [vm_compute; reflexivity|]). split; [|split; [|split; [|split; vm_compute; reflexivity]]].
  - intros t x y J X Y B. right. intros t' [<-|[<-|[]]]; destruct J as [<-|[<-|[]]]; simpl in *; intuition (subst; intuition congruence).
  - apply one_order_kept. intros a b [<-|[]] [<-|[]]; reflexivity.
  - intros A. destruct (A [1;2] 1 2) as [B|[B _]]; simpl; auto; [right; split; reflexivity|vm_compute in B; lia|vm_compute in B; lia].
Qed.
(** A settled side where neither holds: 1 and 2 change places, and {1}, {2} are trees too *)
Example C11_settled_example : exists f g r : forest nat, Reach f /\ Reach g /\ f_trees f = Some [[1;2];[1];[2]] /\ f_trees g = Some [[2;3]] /\
  settled [[1;2];[1];[2]] [[2;3]] /\ settled [[2;3]] [[1;2];[1];[2]] /\ ~ order_kept [[1;2];[1];[2]] [[2;3]] /\
  f_union ho_id f g = Some r /\ f_trees r = Some [[1;2];[2;3];[2];[1]].
Proof.
  do 3 eexists. assert (Rf := R_many ho_id [[1;2];[1];[2]]). assert (Rg := R_many ho_id [[2;3]]).
  specialize (Rf _ eq_refl). specialize (Rg _ eq_refl).
  split; [exact Rf|]. split; [exact Rg|].
  do 2 (split; [vm_compute; reflexivity|]). split; [|split; [|split; [|split; vm_compute; reflexivity]]].
  - apply (settles_split _ _ 1).
    + split; [exists [1]; simpl; auto|]. intros t z J Z. simpl in J.
      repeat (destruct J as [<-|J]; [simpl in Z; repeat (destruct Z as [<-|Z]; [first [left; reflexivity|right; right; split; reflexivity]|]); destruct Z|]). destruct J.
    + change (without 1 [[1;2];[1];[2]]) with [[2]]. apply (settles_split _ _ 2).
      * split; [exists [2]; simpl; auto|]. intros t z [<-|[]] [<-|[]]. left; reflexivity.
      * change (without 2 [[2]]) with (@nil (list nat)). apply settles_done. intros t x [].
      * change (link 2 [[2]]) with [@nil nat]. apply settles_done. intros t x [<-|[]] [].
      * apply sinks_stay. intros t z [<-|[]] [].
    + change (link 1 [[1;2];[1];[2]]) with [[2];[]]. apply (settles_split _ _ 2).
      * split; [exists [2]; simpl; auto|]. intros t z [<-|[<-|[]]] Z; [destruct Z as [<-|[]]; left; reflexivity|destruct Z].
      * change (without 2 [[2];[]]) with [@nil nat]. apply settles_done. intros t x [<-|[]] [].
      * change (link 2 [[2];[]]) with [@nil nat]. apply settles_done. intros t x [<-|[]] [].
      * apply sinks_stay. intros t z [<-|[]] [].
    + change (without 1 [[1;2];[1];[2]]) with [[2]]. change (link 1 [[1;2];[1];[2]]) with [[2];[]].
      apply (sinks_both _ _ 2).
      * left. vm_compute. lia.
      * split; [exists [2]; simpl; auto|]. intros t z [<-|[]] [<-|[]]. left; reflexivity.
      * split; [exists [2]; simpl; auto|]. intros t z [<-|[<-|[]]] Z; [destruct Z as [<-|[]]; left; reflexivity|destruct Z].
      * apply sinks_stay. intros t z [<-|[]] [].
      * apply sinks_stay. intros t z [<-|[]] [].
  - eapply C11_order_kept_partial_pf; [exact Rg|exact Rf|vm_compute; reflexivity|vm_compute; reflexivity|].
    apply one_order_kept. intros a b [<-|[]] [<-|[]]; reflexivity.
  - intros A. destruct (A [1;2] 1 2) as [[B|[B _]]|B]; simpl; auto.
    + right. split; reflexivity.
    + vm_compute in B. lia.
    + vm_compute in B. lia.
    + specialize (B [1]). simpl in B. intuition discriminate.
Qed.

(** Two sufficient conditions: no item in common; every item equally frequent on both sides. *)
Lemma C11_union_disjoint_partial_pf : forall (T : Type) (O : Ord T) (h : hash_order) (f g : forest T) tf tg,
  Reach f -> Reach g -> f_trees f = Some tf -> f_trees g = Some tg ->
  item_disjoint tf tg \/ (forall x, count tf x = count tg x) \/ (at_most_one tf /\ at_most_one tg) ->
  exists r tr, f_union h f g = Some r /\ f_trees r = Some tr /\
    forall t, In t tr <-> In t tf \/ In t tg.
Proof.
  intros T O h f g tf tg Hf Hg Ef Eg Hd.
  destruct (C11_union_partial_pf T O h f g tf tg Hf Hg Ef Eg) as (r & tr & E & Et & S).
  exists r, tr. split; auto. split; auto.
  pose proof (C11_order_kept_partial_pf T O f g tf tg Hf Hg Ef Eg) as K1.
  pose proof (C11_order_kept_partial_pf T O g f tg tf Hg Hf Eg Ef) as K2.
  destruct Hd as [Hd|[Hd|[H1 H2]]]; apply S; first [apply K1|apply K2].
  - apply stable_order_kept, item_disjoint_stable; auto.
  - apply stable_order_kept, item_disjoint_stable, item_disjoint_sym; auto.
  - apply stable_order_kept, same_counts_stable; auto.
  - apply stable_order_kept, same_counts_stable; auto.
  - apply one_order_kept; auto.
  - apply one_order_kept; auto.
Qed.
Example C11_example : exists f g r, Reach f /\ Reach g /\ f_trees f = Some [[1;2];[1;3]] /\ f_trees g = Some [[4;5];[5;6]] /\
  item_disjoint [[1;2];[1;3]] [[4;5];[5;6]] /\
  f_union ho_id f g = Some r /\ f_trees r = Some [[1;2];[1;3];[4;5];[5;6]].
Proof.
  do 3 eexists. split; [eapply (R_many ho_id [[1;2];[1;3]]); vm_compute; reflexivity|].
  split; [eapply (R_many ho_id [[5;6];[4;5]]); vm_compute; reflexivity|].
  do 2 (split; [vm_compute; reflexivity|]). split; [|split; vm_compute; reflexivity].
  intros a b x [<-|[<-|[]]] [<-|[<-|[]]]; simpl; intuition congruence.
Qed.

(** Whatever the two forests: the result is the union of what is left of each
    side after re-ordering it by the added counts ([reordered] in Spec). *)
Lemma C11_union_exact_partial_pf : forall (T : Type) (O : Ord T) (h : hash_order) (f g : forest T) tf tg,
  Reach f -> Reach g -> f_trees f = Some tf -> f_trees g = Some tg ->
  exists r tr ef eg, f_union h f g = Some r /\ f_trees r = Some tr /\
    reordered tf tg ef /\ reordered tg tf eg /\
    forall t, In t tr <-> In t ef \/ In t eg.
Proof.
  intros T O h f g tf tg Hf Hg Ef Eg. trees2 Hf Hg.
  destruct (union_exact h f g H H0) as (r & ef & eg & E & _ & D1 & D2 & S).
  exists r, (tl_ r), ef, eg. split; auto. split; [apply f_trees_tl|]. auto.
Qed.
(** [resorted] has exactly one result, so the trees of a union are determined by
    the trees of the two sides: for any two families, what [resorted] makes of them
    is what the union has. *)
Lemma C11_union_determined_partial_pf : forall (T : Type) (O : Ord T) (h : hash_order) (f g : forest T) tf tg ef eg,
  Reach f -> Reach g -> f_trees f = Some tf -> f_trees g = Some tg ->
  resorted (count tf) (fun z => count tf z + count tg z) tf ef ->
  resorted (count tg) (fun z => count tg z + count tf z) tg eg ->
  exists r tr, f_union h f g = Some r /\ f_trees r = Some tr /\
    forall t, In t tr <-> In t ef \/ In t eg.
Proof.
  intros T O h f g tf tg ef eg Hf Hg Ef Eg R1 R2.
  destruct (C11_union_exact_partial_pf T O h f g tf tg Hf Hg Ef Eg) as (r & tr & ef' & eg' & E & Et & (D1 & _) & (D2 & _) & S).
  exists r, tr. split; auto. split; auto. intros t. rewrite S.
  rewrite (resorted_fun _ _ _ _ R1 _ _ (fun t => iff_refl _) D1 t), (resorted_fun _ _ _ _ R2 _ _ (fun t => iff_refl _) D2 t). reflexivity.
Qed.
Lemma C11_resorted_total_partial_pf : forall (T : Type) (O : Ord T) (f g : forest T) tf tg,
  Reach f -> Reach g -> f_trees f = Some tf -> f_trees g = Some tg ->
  exists ef, resorted (count tf) (fun z => count tf z + count tg z) tf ef /\
    forall ef', resorted (count tf) (fun z => count tf z + count tg z) tf ef' -> forall t, In t ef' <-> In t ef.
Proof.
  intros T O f g tf tg Hf Hg Ef Eg.
  destruct (C11_union_exact_partial_pf T O ho_id f g tf tg Hf Hg Ef Eg) as (r & tr & ef & eg & E & Et & (D1 & _) & _).
  exists ef. split; [exact D1|]. intros ef' R t. apply (resorted_fun _ _ _ _ R tf); [reflexivity|exact D1].
Qed.
(** {{1},{1,2}} beside three trees with 2: item 2 moves ahead of 1, and {1} becomes {2} *)
Example C11_resorted_example :
  resorted (count [[1;2];[1]]) (fun z => count [[1;2];[1]] z + count [[2;3];[2;4];[2;5]] z) [[1;2];[1]] [[2];[1;2]] /\
  exists f g, Reach f /\ Reach g /\ f_trees f = Some [[1;2];[1]] /\ f_trees g = Some [[2;3];[2;4];[2;5]].
Proof.
  split.
  2:{ do 2 eexists. split; [eapply (R_many ho_id [[1];[1;2]]); vm_compute; reflexivity|].
      split; [eapply (R_many ho_id [[2;3];[2;4];[2;5]]); vm_compute; reflexivity|]. split; vm_compute; reflexivity. }
  assert (W : forall (x : nat) s t, ssorted t -> (forall z, In z t <-> z = x \/ In z s) -> with_item x s t).
  { intros x s t A B. split; [exact A|]. intros z. rewrite B. cbn. intuition congruence. }
  assert (S1 : forall x : nat, ssorted [x]) by (intros x; apply ssorted_cons; constructor).
  assert (S2 : ssorted [1;2]) by (apply ssorted_cons; [apply S1|]; constructor; [reflexivity|constructor]).
  assert (U : forall (x : nat) t, with_item x [] t <-> t = [x]).
  { intros x t. split; [|intros ->; apply W; [apply S1|cbn; intuition congruence]].
    intros X. eapply with_item_fun; [exact X|]. apply W; [apply S1|cbn; intuition congruence]. }
  assert (U2 : forall t, with_item 2 [1] t <-> t = [1;2]).
  { intros t. split; [|intros ->; apply W; [exact S2|cbn; intuition congruence]].
    intros X. eapply with_item_fun; [exact X|]. apply W; [exact S2|cbn; intuition congruence]. }
  apply (resorted_split _ _ 1 _ [] [[];[2]]).
  - split; [exists [1]; cbn; auto|]. intros t z [<-|[<-|[]]] Z; cbn in Z.
    + destruct Z as [<-|[<-|[]]]; [auto|]. right. left. vm_compute. lia.
    + destruct Z as [<-|[]]; auto.
  - apply resorted_done; cbn; tauto.
  - apply (resorted_split _ _ 2 _ [[]] [[]]).
    + split; [exists [2]; cbn; auto|]. intros t z [<-|[<-|[]]] Z; cbn in Z; [destruct Z as [<-|[]]; auto|destruct Z].
    + apply resorted_done; cbn; [|tauto]. intros t x [<-|[]] [].
    + apply resorted_done; cbn; [|tauto]. intros t x [<-|[]] [].
    + apply pushed_top; [exists []; cbn; auto|intros t z [<-|[]] []|]. intros t. cbn. split.
      * intros [<-|[<-|[]]]; [auto|]. right. exists []. split; [auto|]. apply U. reflexivity.
      * intros [[<-|[]]|(s & [<-|[]] & X)]; [auto|]. apply U in X. auto.
  - apply (pushed_high _ _ 2 _ _ _ [[];[1]]).
    + left. vm_compute. lia.
    + intros ((t & [] & _) & _).
    + split; [exists [2]; cbn; auto|]. intros t z [<-|[<-|[]]] Z; cbn in Z; [destruct Z|destruct Z as [<-|[]]; auto].
    + apply pushed_top; [exists []; cbn; auto|intros t z [<-|[]] []|]. intros t. cbn. split.
      * intros [<-|[<-|[]]]; [auto|]. right. exists []. split; [auto|]. apply U. reflexivity.
      * intros [[<-|[]]|(s & [<-|[]] & X)]; [auto|]. apply U in X. auto.
    + intros t. cbn [In]. split.
      * intros [<-|[<-|[]]]; right; [exists []; split; [auto|apply U; reflexivity]|exists [1]; split; [auto|apply U2; reflexivity]].
      * intros [([] & _)|(s & [<-|[<-|[]]] & X)]; [apply U in X; auto|apply U2 in X; auto].
Qed.

(** so a union has at most as many trees as the two sides together, is empty
    only if both are, and never invents an item *)
Lemma C11_union_bounds_partial_pf : forall (T : Type) (O : Ord T) (h : hash_order) (f g : forest T) tf tg,
  Reach f -> Reach g -> f_trees f = Some tf -> f_trees g = Some tg ->
  exists r tr, f_union h f g = Some r /\ f_trees r = Some tr /\
    length tr <= length tf + length tg /\ (tr = [] -> tf = [] /\ tg = []) /\
    (forall t x, In t tr -> In x t -> exists t', (In t' tf \/ In t' tg) /\ In x t').
Proof.
  intros T O h f g tf tg Hf Hg Ef Eg.
  destruct (C11_union_exact_partial_pf T O h f g tf tg Hf Hg Ef Eg) as (r & tr & ef & eg & E & Et & D1 & D2 & S).
  exists r, tr. split; auto. split; auto.
  destruct D1 as (_ & _ & _ & _ & L1 & N1 & I1). destruct D2 as (_ & _ & _ & _ & L2 & N2 & I2). split; [|split].
  - assert (Cr : NoDup tr).
    { assert (Rr : Reach r) by (eapply (R_union h f g); eauto). apply Reach_Canon in Rr. destruct Rr as [o Co].
      rewrite (f_trees_tl r) in Et. injection Et as <-. apply (canon_tl _ _ Co). }
    pose proof (NoDup_incl_length Cr (l' := ef ++ eg)) as L. rewrite app_length in L.
    enough (length tr <= length ef + length eg) by lia. apply L. intros t J. apply in_or_app, S, J.
  - intros ->. split; [apply N1|apply N2].
    + destruct ef as [|t ef]; [reflexivity|]. exfalso. apply (S t). left; left; reflexivity.
    + destruct eg as [|t eg]; [reflexivity|]. exfalso. apply (S t). right; left; reflexivity.
  - intros t x J X. apply S in J. destruct J as [J|J]; [destruct (I1 t x J X) as (t' & A & B)|destruct (I2 t x J X) as (t' & A & B)]; eauto.
Qed.
(** the refuting case: [{1}] is lost and [{2}] is new, but the bounds hold *)
Example C11_exact_example : exists f g r, Reach f /\ Reach g /\ f_trees f = Some [[1;2];[1]] /\ f_trees g = Some [[2;3];[2;4];[2;5]] /\
  f_union ho_id f g = Some r /\ f_trees r = Some [[1;2];[2;3];[2;4];[2;5];[2]].
Proof.
  do 3 eexists. split; [eapply (R_many ho_id [[1];[1;2]]); vm_compute; reflexivity|].
  split; [eapply (R_many ho_id [[2;3];[2;4];[2;5]]); vm_compute; reflexivity|].
  repeat (split; [vm_compute; reflexivity|]). vm_compute; reflexivity.
Qed.

(** C12 *)
Definition C12_claim (T : Type) (O : Ord T) : Prop := forall (h : hash_order) (f g r : forest T) tf tg tr,
  Reach f -> Reach g -> f_intersect h f g = Some r ->
  f_trees f = Some tf -> f_trees g = Some tg -> f_trees r = Some tr ->
  forall t, In t tr <-> In t tf /\ In t tg.

(** {{1}} ∩ {{1,2}} = {{1,2}} in the code. *)
Lemma C12_intersect_refuted_pf : ~ C12_claim nat _.
Proof.
  intros C.
  assert (X : In [1;2] [[1;2]] <-> In [1;2] [[1]] /\ In [1;2] [[1;2]]).
  { eapply (C ho_id); [eapply (R_unit ho_id [1])|eapply (R_unit ho_id [1;2])| | | |]; vm_compute; reflexivity. }
  destruct X as [X _]. destruct X as [[X|[]] _]; [simpl; auto|discriminate].
Qed.

(** Intersect never fails.  When root translation is harmless (as in C11) it
    keeps every common tree, and any other tree it returns is a tree of one side
    that includes a tree of the other; so it is exact if no tree of one side is
    a proper subset of a tree of the other. *)
Lemma C12_intersect_partial_pf : forall (T : Type) (O : Ord T) (h : hash_order) (f g : forest T) tf tg,
  Reach f -> Reach g -> f_trees f = Some tf -> f_trees g = Some tg ->
  exists r tr, f_intersect h f g = Some r /\ f_trees r = Some tr /\
    (settled tf tg -> settled tg tf ->
     (forall t, In t tf -> In t tg -> In t tr) /\
     (forall t, In t tr -> (In t tf /\ exists p, In p tg /\ incl p t) \/
                           (In t tg /\ exists p, In p tf /\ incl p t)) /\
     (no_proper_subset tf tg -> no_proper_subset tg tf ->
      forall t, In t tr <-> In t tf /\ In t tg)).
Proof.
  intros T O h f g tf tg Hf Hg Ef Eg. trees2 Hf Hg.
  destruct (f_intersect_spec h f g H H0) as (r & E & _ & S).
  exists r, (tl_ r). split; auto. split; [apply f_trees_tl|]. intros F1 F2.
  destruct (S F1 F2) as [S1 S2]. split; auto. split; auto. intros N1 N2 t. split.
  - intros Ht. destruct H as [o Hcf], H0 as [o' Hcg].
    destruct (canon_tl _ _ Hcf) as [[W1 _] _]. destruct (canon_tl _ _ Hcg) as [[W2 _] _].
    destruct (S2 t Ht) as [[Ht1 (p & Hp & Hi)]|[Ht1 (p & Hp & Hi)]]; split; auto.
    + assert (p = t) by (apply ssorted_ext; auto; apply N2; auto). congruence.
    + assert (p = t) by (apply ssorted_ext; auto; apply N1; auto). congruence.
  - intros [? ?]; auto.
Qed.
Example C12_example : exists f g r, Reach f /\ Reach g /\ f_trees f = Some [[1;2];[1;3]] /\ f_trees g = Some [[1;2];[1;4]] /\
  settled [[1;2];[1;3]] [[1;2];[1;4]] /\ settled [[1;2];[1;4]] [[1;2];[1;3]] /\
  no_proper_subset [[1;2];[1;3]] [[1;2];[1;4]] /\ no_proper_subset [[1;2];[1;4]] [[1;2];[1;3]] /\
  f_intersect ho_id f g = Some r /\ f_trees r = Some [[1;2]].
Proof.
  do 3 eexists. assert (Rf := R_many ho_id [[1;2];[1;3]] _ eq_refl). assert (Rg := R_many ho_id [[1;2];[1;4]] _ eq_refl).
  split; [exact Rf|]. split; [exact Rg|].
  do 2 (split; [vm_compute; reflexivity|]).
  split; [|split; [|split; [|split; [|split; vm_compute; reflexivity]]]];
    [eapply C11_order_kept_partial_pf; [exact Rf|exact Rg|vm_compute; reflexivity|vm_compute; reflexivity|apply stable_order_kept]
    |eapply C11_order_kept_partial_pf; [exact Rg|exact Rf|vm_compute; reflexivity|vm_compute; reflexivity|apply stable_order_kept]| |].
  - intros t x y [<-|[<-|[]]] Hx Hy B; simpl in Hx, Hy;
    repeat match goal with H : _ \/ _ |- _ => destruct H as [<-|H] | H : False |- _ => destruct H end;
    unfold before in *; simpl in *; intuition (try lia; try discriminate).
  - intros t x y [<-|[<-|[]]] Hx Hy B; simpl in Hx, Hy;
    repeat match goal with H : _ \/ _ |- _ => destruct H as [<-|H] | H : False |- _ => destruct H end;
    unfold before in *; simpl in *; intuition (try lia; try discriminate).
  - intros a b [<-|[<-|[]]] [<-|[<-|[]]] Hi x; try tauto; exfalso;
      first [pose proof (Hi 2) as Q; simpl in Q; intuition discriminate|pose proof (Hi 3) as Q; simpl in Q; intuition discriminate].
  - intros a b [<-|[<-|[]]] [<-|[<-|[]]] Hi x; try tauto; exfalso;
      first [pose proof (Hi 2) as Q; simpl in Q; intuition discriminate|pose proof (Hi 4) as Q; simpl in Q; intuition discriminate].
Qed.

(** Whatever the two forests, exactly which trees are returned: the two sides,
    re-ordered by the added counts, are met ([met] in Spec): trees of both, and
    trees of one side along which the other side ends. *)
Lemma C12_intersect_exact_partial_pf : forall (T : Type) (O : Ord T) (h : hash_order) (f g : forest T) tf tg,
  Reach f -> Reach g -> f_trees f = Some tf -> f_trees g = Some tg ->
  exists r tr ef eg, f_intersect h f g = Some r /\ f_trees r = Some tr /\
    reordered tf tg ef /\ reordered tg tf eg /\
    forall t, In t tr <-> met (fun z => count tf z + count tg z) ef eg t.
Proof.
  intros T O h f g tf tg Hf Hg Ef Eg. trees2 Hf Hg.
  destruct (intersect_exact_f h f g H H0) as (r & ef & eg & E & _ & D1 & D2 & S).
  exists r, (tl_ r), ef, eg. split; auto. split; [apply f_trees_tl|]. auto.
Qed.
Lemma C12_intersect_determined_partial_pf : forall (T : Type) (O : Ord T) (h : hash_order) (f g : forest T) tf tg ef eg,
  Reach f -> Reach g -> f_trees f = Some tf -> f_trees g = Some tg ->
  resorted (count tf) (fun z => count tf z + count tg z) tf ef ->
  resorted (count tg) (fun z => count tg z + count tf z) tg eg ->
  exists r tr, f_intersect h f g = Some r /\ f_trees r = Some tr /\
    forall t, In t tr <-> met (fun z => count tf z + count tg z) ef eg t.
Proof.
  intros T O h f g tf tg ef eg Hf Hg Ef Eg R1 R2.
  destruct (C12_intersect_exact_partial_pf T O h f g tf tg Hf Hg Ef Eg) as (r & tr & ef' & eg' & E & Et & (D1 & _) & (D2 & _) & S).
  exists r, tr. split; auto. split; auto. intros t. rewrite S. apply met_ext; intros z; symmetry.
  - apply (resorted_fun _ _ _ _ R1 tf); [reflexivity|exact D1].
  - apply (resorted_fun _ _ _ _ R2 tg); [reflexivity|exact D2].
Qed.
(** {{1}} ∩ {{1,2}}: {1,2} is a tree along which {{1}} ends *)
Example C12_exact_example : exists f g r, Reach f /\ Reach g /\ f_trees f = Some [[1]] /\ f_trees g = Some [[1;2]] /\
  f_intersect ho_id f g = Some r /\ f_trees r = Some [[1;2]] /\
  ends_along (fun z => count [[1]] z + count [[1;2]] z) [[1]] [1;2].
Proof.
  do 3 eexists. split; [eapply (R_unit ho_id [1]); vm_compute; reflexivity|].
  split; [eapply (R_unit ho_id [1;2]); vm_compute; reflexivity|].
  do 4 (split; [vm_compute; reflexivity|]).
  exists (Some 1). split.
  - exists [1]. split; [left; reflexivity|]. intros x [->|B]; [cbn; tauto|]. exfalso.
    destruct B as [B|[B B']]; do 3 (destruct x as [|x]; [vm_compute in B; try vm_compute in B'; first [lia|discriminate]|]); vm_compute in B; lia.
  - intros g x [<-|[]] A [<-|[]]. left; reflexivity.
Qed.

(** C13 *)
Definition C13_claim (T : Type) (O : Ord T) : Prop := forall (h : hash_order) (f g r : forest T) tf tg tr,
  Reach f -> Reach g -> f_product h f g = Some r ->
  f_trees f = Some tf -> f_trees g = Some tg -> f_trees r = Some tr ->
  forall s, has_set tr s <-> exists a b, In a tf /\ In b tg /\ is_union s a b.

(** unique([1,2]).product(unique([1,2])) misses {1,2}. *)
Lemma C13_product_refuted_pf : ~ C13_claim nat _.
Proof.
  intros C.
  assert (X : has_set [[1];[2]] [1;2] <-> exists a b, In a [[1];[2]] /\ In b [[1];[2]] /\ is_union [1;2] a b).
  { eapply (C ho_id); [eapply (R_unique ho_id [1;2])|eapply (R_unique ho_id [1;2])| | | |]; vm_compute; reflexivity. }
  destruct X as [_ X]. destruct X as (t & Ht & He).
  - exists [1], [2]. simpl. split; auto. split; auto. intros x. simpl. tauto.
  - pose proof (proj2 (He 1)) as Q1. pose proof (proj2 (He 2)) as Q2. simpl in *.
    destruct Ht as [<-|[<-|[]]]; simpl in *; intuition discriminate.
Qed.

(** Product never fails.  When root translation is harmless every result is the
    union of one tree of each side; if moreover no item is shared or one side
    has at most one tree, every such union is there. *)
Lemma C13_product_partial_pf : forall (T : Type) (O : Ord T) (h : hash_order) (f g : forest T) tf tg,
  Reach f -> Reach g -> f_trees f = Some tf -> f_trees g = Some tg ->
  exists r tr, f_product h f g = Some r /\ f_trees r = Some tr /\
    (settled tf tg -> settled tg tf ->
     (forall t, In t tr -> exists a b, In a tf /\ In b tg /\ is_union t a b) /\
     (item_disjoint tf tg \/ at_most_one tf \/ at_most_one tg ->
      forall s, has_set tr s <-> exists a b, In a tf /\ In b tg /\ is_union s a b)).
Proof.
  intros T O h f g tf tg Hf Hg Ef Eg. trees2 Hf Hg.
  destruct (f_product_spec h f g H H0) as (r & E & _ & S).
  exists r, (tl_ r). split; auto. split; [apply f_trees_tl|]. intros F1 F2.
  destruct (S F1 F2) as [S1 S2]. split; auto. intros Hd s. split.
  - intros (t & Ht & He). destruct (S1 t Ht) as (a & b & Ha & Hb & Hu). exists a, b.
    split; auto. split; auto. intros x. rewrite <- (He x). apply Hu.
  - intros (a & b & Ha & Hb & Hu). destruct (S2 Hd a b Ha Hb) as (t & Ht & Hu').
    exists t. split; auto. intros x. rewrite (Hu' x), (Hu x). reflexivity.
Qed.

(** In particular: exact when the two forests share no item. *)
Lemma C13_product_disjoint_partial_pf : forall (T : Type) (O : Ord T) (h : hash_order) (f g : forest T) tf tg,
  Reach f -> Reach g -> f_trees f = Some tf -> f_trees g = Some tg -> item_disjoint tf tg ->
  exists r tr, f_product h f g = Some r /\ f_trees r = Some tr /\
    forall s, has_set tr s <-> exists a b, In a tf /\ In b tg /\ is_union s a b.
Proof.
  intros T O h f g tf tg Hf Hg Ef Eg Hd.
  destruct (C13_product_partial_pf T O h f g tf tg Hf Hg Ef Eg) as (r & tr & E & Et & S).
  exists r, tr. split; auto. split; auto. 
  pose proof (C11_order_kept_partial_pf T O f g tf tg Hf Hg Ef Eg) as K1.
  pose proof (C11_order_kept_partial_pf T O g f tg tf Hg Hf Eg Ef) as K2.
  apply S; auto; first [apply K1|apply K2].
  - apply stable_order_kept, item_disjoint_stable; auto.
  - apply stable_order_kept, item_disjoint_stable, item_disjoint_sym; auto.
Qed.
Example C13_example : exists f g r, Reach f /\ Reach g /\ f_trees f = Some [[1;2];[1;3]] /\ f_trees g = Some [[4;5];[5;6]] /\
  item_disjoint [[1;2];[1;3]] [[4;5];[5;6]] /\
  f_product ho_id f g = Some r /\ f_trees r = Some [[1;2;4;5];[1;2;5;6];[1;3;4;5];[1;3;5;6]].
Proof.
  do 3 eexists. split; [eapply (R_many ho_id [[1;2];[1;3]]); vm_compute; reflexivity|].
  split; [eapply (R_many ho_id [[5;6];[4;5]]); vm_compute; reflexivity|].
  do 2 (split; [vm_compute; reflexivity|]). split; [|split; vm_compute; reflexivity].
  intros a b x [<-|[<-|[]]] [<-|[<-|[]]]; simpl; intuition congruence.
Qed.

(** Whatever the two forests, exactly which trees are returned: after re-ordering
    both sides by the added counts, the unions of one tree of each side, except
    of pairs that differ after a cut at which what is left of the two sides is
    the same family (the code then returns that family instead of its product). *)
Lemma C13_product_exact_partial_pf : forall (T : Type) (O : Ord T) (h : hash_order) (f g : forest T) tf tg,
  Reach f -> Reach g -> f_trees f = Some tf -> f_trees g = Some tg ->
  exists r tr ef eg, f_product h f g = Some r /\ f_trees r = Some tr /\
    reordered tf tg ef /\ reordered tg tf eg /\
    let o := fun z => count tf z + count tg z in
    forall s, has_set tr s <-> exists a b, In a ef /\ In b eg /\ is_union s a b /\
      forall c, same_rest o c ef a eg b -> agree_after o c a b.
Proof.
  intros T O h f g tf tg Hf Hg Ef Eg. trees2 Hf Hg.
  destruct (product_exact_f h f g H H0) as (r & ef & eg & E & _ & D1 & D2 & S).
  exists r, (tl_ r), ef, eg. split; auto. split; [apply f_trees_tl|]. auto.
Qed.
Lemma C13_product_determined_partial_pf : forall (T : Type) (O : Ord T) (h : hash_order) (f g : forest T) tf tg ef eg,
  Reach f -> Reach g -> f_trees f = Some tf -> f_trees g = Some tg ->
  resorted (count tf) (fun z => count tf z + count tg z) tf ef ->
  resorted (count tg) (fun z => count tg z + count tf z) tg eg ->
  exists r tr, f_product h f g = Some r /\ f_trees r = Some tr /\
    let o := fun z => count tf z + count tg z in
    forall s, has_set tr s <-> exists a b, In a ef /\ In b eg /\ is_union s a b /\
      forall c, same_rest o c ef a eg b -> agree_after o c a b.
Proof.
  intros T O h f g tf tg ef eg Hf Hg Ef Eg R1 R2.
  destruct (C13_product_exact_partial_pf T O h f g tf tg Hf Hg Ef Eg) as (r & tr & ef' & eg' & E & Et & (D1 & _) & (D2 & _) & S).
  assert (Q1 : forall t, In t ef <-> In t ef') by (apply (resorted_fun _ _ _ _ R1 tf); [reflexivity|exact D1]).
  assert (Q2 : forall t, In t eg <-> In t eg') by (apply (resorted_fun _ _ _ _ R2 tg); [reflexivity|exact D2]).
  exists r, tr. split; auto. split; auto. cbv zeta in S |- *. intros s. rewrite S. unfold same_rest.
  setoid_rewrite Q1. setoid_rewrite Q2. reflexivity.
Qed.
(** unique([1,2]) × itself: the pair {1},{2} is left out, because before any item
    the two sides are already the same family *)
Example C13_exact_example : exists f r, Reach f /\ f_trees f = Some [[1];[2]] /\
  f_product ho_id f f = Some r /\ f_trees r = Some [[1];[2]] /\
  same_rest (fun z => count [[1];[2]] z + count [[1];[2]] z) None [[1];[2]] [1] [[1];[2]] [2] /\
  ~ agree_after (fun z => count [[1];[2]] z + count [[1];[2]] z) None [1] [2].
Proof.
  do 2 eexists. split; [eapply (R_unique ho_id [1;2]); vm_compute; reflexivity|].
  do 3 (split; [vm_compute; reflexivity|]). split.
  - split; intros g G _; exists g; (split; [exact G|]); (split; [intros x []|]); intros x _; reflexivity.
  - intros A. specialize (A 1 (fun X => X)). cbn in A. destruct A as [A _]. destruct A as [A|[]]; [auto|discriminate].
Qed.

(** C14: the laws, for all reachable forests (no side condition), as [==]. *)
Lemma C14_laws_pf : forall (T : Type) (O : Ord T) (h : hash_order) (f g : forest T), Reach f -> Reach g ->
  f_union h f g = f_union h g f /\
  f_intersect h f g = f_intersect h g f /\
  f_product h f g = f_product h g f /\
  f_union h f f = Some f /\ f_intersect h f f = Some f /\
  f_union h f f_empty = Some f /\
  f_intersect h f f_empty = Some f_empty /\
  f_product h f f_empty = Some f_empty.
Proof.
  intros T O h f g Hf Hg. apply Reach_Canon in Hf, Hg.
  repeat split; auto using union_comm, intersect_comm, product_comm, union_idem, intersect_idem,
    union_empty, intersect_empty, product_empty.
Qed.
Example C14_example : exists f g r : forest nat, Reach f /\ Reach g /\ f_eqb f g = false /\ f_union ho_id f g = Some r /\ f_union ho_rev g f = Some r.
Proof.
  do 3 eexists. split; [eapply (R_many ho_id [[1;2];[1;3]]); vm_compute; reflexivity|].
  split; [eapply (R_many ho_id [[2;3];[2;4];[2;5]]); vm_compute; reflexivity|].
  split; [vm_compute; reflexivity|]. split; vm_compute; reflexivity.
Qed.

(** C15: every API call on reachable forests returns (no panic, no divergence),
    and the listings, counts of a reachable forest are available. *)
Lemma C15_total_pf : forall (T : Type) (O : Ord T) (h : hash_order) (f g : forest T) (rows : list (list T)) items e,
  Reach f -> Reach g ->
  f_many h rows <> None /\ f_unit h items <> None /\ f_unique h items <> None /\
  f_union h f g <> None /\ f_intersect h f g <> None /\ f_product h f g <> None /\
  f_subset h f e <> None /\ f_subset_not h f e <> None /\
  f_subset_all h f items <> None /\ f_subset_none h f items <> None /\
  f_trees f <> None /\ f_len f <> None /\ f_is_empty f <> None.
Proof.
  intros T O h f g rows items e Hf Hg. apply Reach_Canon in Hf, Hg.
  rewrite unit_many, unique_many, f_trees_tl. unfold f_len, f_is_empty. rewrite node_trees_paths.
  destruct (many_spec h rows) as (r1 & o1 & -> & _).
  destruct (many_spec h [items]) as (r2 & o2 & -> & _).
  destruct (many_spec h (map (fun x => [x]) items)) as (r3 & o3 & -> & _).
  destruct (f_union_spec h f g Hf Hg) as (r4 & -> & _).
  destruct (f_intersect_spec h f g Hf Hg) as (r5 & -> & _).
  destruct (f_product_spec h f g Hf Hg) as (r6 & -> & _).
  destruct (subset_spec h f e Hf) as (r7 & -> & _).
  destruct (subset_not_spec h f e Hf) as (r8 & -> & _).
  destruct (subset_all_spec h f items Hf) as (r9 & -> & _).
  destruct (subset_none_spec h f items Hf) as (r10 & -> & _).
  cbn [bind]. repeat split; discriminate.
Qed.
(** also where the results are wrong (C11): nothing fails *)
Example C15_example : exists f g : forest nat, Reach f /\ Reach g /\
  f_union ho_rev f g <> None /\ f_product ho_rev f g <> None /\ f_trees f = Some [[1;2];[1]].
Proof.
  do 2 eexists. split; [eapply (R_many ho_id [[1];[1;2]]); vm_compute; reflexivity|].
  split; [eapply (R_many ho_id [[2;3];[2;4];[2;5]]); vm_compute; reflexivity|].
  split; [vm_compute; discriminate|]. split; [vm_compute; discriminate|vm_compute; reflexivity].
Qed.

(** C16 (zdd2 half): results do not depend on hash iteration order. *)
Lemma C16_hash_order_zdd2_pf : forall (T : Type) (O : Ord T) (h h' : hash_order) (f g : forest T) (rows : list (list T)) items e,
  Reach f -> Reach g ->
  f_many h rows = f_many h' rows /\ f_unit h items = f_unit h' items /\ f_unique h items = f_unique h' items /\
  f_union h f g = f_union h' f g /\ f_intersect h f g = f_intersect h' f g /\ f_product h f g = f_product h' f g /\
  f_subset h f e = f_subset h' f e /\ f_subset_not h f e = f_subset_not h' f e /\
  f_subset_all h f items = f_subset_all h' f items /\ f_subset_none h f items = f_subset_none h' f items /\
  f_occurrences h f = f_occurrences h' f.
Proof.
  intros T O h h' f g rows items e Hf Hg. apply Reach_Canon in Hf, Hg.
  rewrite !unit_many, !unique_many.
  repeat split; auto using many_hash, binop_hash, subset_hash, subset_not_hash, subset_many_hash.
  - apply binop_hash; auto.
  - apply binop_hash; auto.
  - apply binop_hash; auto.
  - apply subset_many_hash.
  - apply subset_many_hash.
  - destruct Hf as [o Hc]. rewrite (occurrences_eq h f o Hc), (occurrences_eq h' f o Hc). reflexivity.
Qed.
(** the two hash orders of the example do list a map differently *)
Example C16_example : exists f g : forest nat, Reach f /\ Reach g /\
  ho_iter ho_id 0 [(1,2);(3,4)] <> ho_iter ho_rev 0 [(1,2);(3,4)] /\
  f_union ho_id f g = f_union ho_rev f g /\ f_union ho_id f g <> None.
Proof.
  do 2 eexists. split; [eapply (R_many ho_id [[1;2];[1;3]]); vm_compute; reflexivity|].
  split; [eapply (R_many ho_id [[2;3];[2;4];[2;5]]); vm_compute; reflexivity|].
  split; [vm_compute; discriminate|]. split; [vm_compute; reflexivity|vm_compute; discriminate].
Qed.

(** C17 *)
Lemma C17_occurrence_is_subset_len_pf : forall (T : Type) (O : Ord T) (h : hash_order) (f : forest T) e, Reach f ->
  exists r1 r2 n n1 n2,
    f_subset h f e = Some r1 /\ f_subset_not h f e = Some r2 /\
    f_len f = Some n /\ f_len r1 = Some n1 /\ f_len r2 = Some n2 /\
    n1 + n2 = n /\
    (forall k, In (e, k) (f_occurrences h f) -> k = n1) /\
    ((forall k, ~ In (e, k) (f_occurrences h f)) -> n1 = 0).
Proof.
  intros T O h f e Hf. apply Reach_Canon in Hf.
  destruct (subset_spec h f e Hf) as (r1 & E1 & C1 & S1).
  destruct (subset_not_spec h f e Hf) as (r2 & E2 & C2 & S2).
  destruct (subset_split f r1 r2 e Hf C1 C2 S1 S2) as [L1 L2].
  exists r1, r2, (length (tl_ f)), (length (tl_ r1)), (length (tl_ r2)).
  split; auto. split; auto.
  assert (L : forall g : forest T, f_len g = Some (length (tl_ g))).
  { intros g. unfold f_len. rewrite node_trees_paths. cbn [bind]. unfold tl_. rewrite map_length. reflexivity. }
  rewrite !L. split; auto. split; auto. split; auto. split; auto.
  destruct Hf as [o Hc]. rewrite (occurrences_eq h f o Hc). split.
  - intros k Hk. apply (occ_in f o e k Hc) in Hk. lia.
  - intros Hn. rewrite L1. destruct (count (tl_ f) e) as [|c] eqn:E; auto. exfalso.
    apply (Hn (S c)). apply (occ_in f o e (S c) Hc). lia.
Qed.
Example C17_example : exists f r1 r2 : forest nat, Reach f /\ f_len f = Some 4 /\
  f_subset ho_id f 1 = Some r1 /\ f_len r1 = Some 2 /\ f_subset_not ho_id f 1 = Some r2 /\ f_len r2 = Some 2 /\
  In (1, 2) (f_occurrences ho_id f) /\ In (5, 1) (f_occurrences ho_id f).
Proof.
  do 3 eexists. split; [eapply (R_many ho_id ex_rows); vm_compute; reflexivity|].
  do 5 (split; [vm_compute; reflexivity|]). vm_compute. intuition.
Qed.

(** C18: shape of the serialized root, and its priorities index the universe. *)
Lemma C18_root_shape_pf : forall (T : Type) (O : Ord T) (f : forest T), Reach f ->
  ordered (f_root f) /\ zero_suppressed (f_root f) /\
  forall p, In p (labels (f_root f)) -> exists x, get_item (f_univ f) p = Some x /\ get_priority (f_univ f) x = Some p.
Proof.
  intros T O f Hf. apply Reach_Canon in Hf. destruct Hf as [o Hc].
  assert (X : forall t n, zwf n t -> ordered t /\ zero_suppressed t).
  { induction t as [b|i lo IHlo hi IHhi]; intros n W; simpl; auto. simpl in W.
    destruct W as (_ & Hh & Wl & Wh). destruct (IHlo _ Wl), (IHhi _ Wh). repeat split; auto.
    intros j [Hj|Hj]; [apply (zwf_label _ _ _ Wl) in Hj|apply (zwf_label _ _ _ Wh) in Hj]; lia. }
  destruct (X _ _ (c_wf _ _ Hc)). split; auto. split; auto. intros p Hp.
  rewrite (c_univ _ _ Hc). destruct (get_item_known o p (canon_known_labels _ _ Hc p Hp)) as (x & Hx).
  exists x. split; auto. apply get_priority_item; auto. apply Hc.
Qed.
Example C18_example : exists f, f_many ho_id [[1;2];[2;3]] = Some f /\ Reach f /\
  f_root f = Branch 0 Never (Branch 1 (Branch 2 Never Always) Always).
Proof.
  eexists. split; [vm_compute; reflexivity|]. split; [eapply (R_many ho_id [[1;2];[2;3]])|]; vm_compute; reflexivity.
Qed.
