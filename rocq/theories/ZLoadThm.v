(** ZLoadThm: zdd trees and universes loaded from any data, and trees of different
    universes (C85). *)
From Coq Require Import List Arith NArith Lia Bool Permutation Sorted.
From Verif Require Import Base DD Spec Zdd2Model ZddModel ZddSpec ZddProofs ZddExact ZddThm ParserModel ParserSpec ParserThm.
Import ListNotations.
Open Scope nat_scope.

(** [Universe] read from its items and the entries of its index
    (derive(Deserialize), weave/src/zdd/tree/universe.rs L11-16) *)
Definition zu_load {T} `{Ord T} (items : list T) (entries : list (T * nat)) : zuniverse T :=
  mkZU items (map_collect entries).

(** the last entry for [y] says [i] *)
Definition entry_of {T} (entries : list (T * nat)) (y : T) (i : nat) : Prop :=
  exists l1 l2, entries = l1 ++ (y, i) :: l2 /\ ~ In y (map fst l2).
(** what such a universe makes of a combination: the items at the positions that the
    index gives for the members of [c] *)
Definition read_as {T} `{Ord T} (items : list T) (entries : list (T * nat)) (c s : list T) : Prop :=
  ssorted s /\ forall x, In x s <-> exists y i, In y c /\ entry_of entries y i /\ nth_error items i = Some x.
(** a tree with the same root, read in another universe *)
Definition read_in {T} (u : zuniverse T) (t : ztree T) : ztree T := mkZT (zt_root t) u.

Section P.
  Context {T : Type} `{OT : Ord T}.

  Lemma collect_ok (l : list (T * nat)) : forall m, map_ok m ->
    map_ok (fold_left (fun m p => map_insert m (fst p) (snd p)) l m).
  Proof. induction l as [|p l IH]; intros m K; [exact K|]. cbn [fold_left]. apply IH, map_update_ok, K. Qed.
  Lemma collect_get (l : list (T * nat)) y i : map_get (map_collect l) y = Some i <-> entry_of l y i.
  Proof.
    unfold map_collect.
    assert (G : forall l m, map_ok m ->
      (map_get (fold_left (fun m p => map_insert m (fst p) (snd p)) l m) y = Some i <->
       entry_of l y i \/ (~ In y (map fst l) /\ map_get m y = Some i))).
    { clear l. induction l as [|[z j] l IH]; intros m K; cbn [fold_left fst snd map].
      - split; [right; split; [intros []|assumption]|]. intros [(l1 & l2 & E & _)|(_ & E)]; [destruct l1; discriminate|exact E].
      - rewrite IH by (apply map_update_ok, K). unfold map_insert. rewrite map_update_get by exact K. split.
        + intros [(l1 & l2 & -> & N)|(N & E)]; [left; exists ((z, j) :: l1), l2; auto|].
          destruct (eqb_spec_ y z) as [->|D].
          * injection E as <-. left. exists [], l. auto.
          * right. split; [|exact E]. intros [X|X]; [congruence|auto].
        + intros [(l1 & l2 & E & N)|(N & E)].
          * destruct l1 as [|p l1]; cbn [app] in E; injection E; intros; subst.
            { right. split; [exact N|]. destruct (eqb_spec_ y y); [reflexivity|congruence]. }
            left. exists l1, l2. auto.
          * right. split; [intros X; apply N; right; exact X|]. destruct (eqb_spec_ y z) as [->|D]; [destruct N; left; reflexivity|exact E]. }
    rewrite (G l []) by constructor. split; [intros [E|(_ & E)]; [exact E|discriminate]|auto].
  Qed.

  Lemma tree_any (u : zuniverse T) c : zcombs (z_tree u c) = [z_get_items u (sort (filter_map (map_get (zu_index u)) c))].
  Proof. unfold zcombs. rewrite z_tree_root, chain_paths. reflexivity. Qed.
  Lemma tree_read items entries c s : In s (zcombs (z_tree (zu_load items entries) c)) <-> read_as items entries c s.
  Proof.
    rewrite tree_any.
    assert (X : read_as items entries c (z_get_items (zu_load items entries) (sort (filter_map (map_get (zu_index (zu_load items entries))) c)))).
    { split; [apply z_get_items_ssorted|]. intros x. rewrite z_get_items_in. cbn [zu_items zu_index zu_load].
      split.
      - intros (i & I & E). rewrite sort_in, filter_map_in in I. destruct I as (y & Y & G). apply collect_get in G. eauto.
      - intros (y & i & Y & G & E). exists i. split; [|exact E]. rewrite sort_in, filter_map_in. exists y. split; [exact Y|].
        apply collect_get; exact G. }
    split; [intros [<-|[]]; exact X|]. intros (S & R). left. destruct X as (S' & R').
    apply ssorted_ext; auto. intros x. rewrite (R' x), (R x). tauto.
  Qed.
  Lemma hyper_read items entries cs s :
    In s (zcombs (z_hyper_tree (zu_load items entries) cs)) <-> exists c, In c cs /\ read_as items entries c s.
  Proof.
    unfold z_hyper_tree. rewrite (zcombs_fold (zu_load items entries)); [|reflexivity|].
    2:{ intros o I. apply in_map_iff in I. destruct I as (c & <- & _). reflexivity. }
    rewrite zcombs_empty. split.
    - intros [[]|(o & I & A)]. apply in_map_iff in I. destruct I as (c & <- & I). exists c.
      split; [exact I|]. apply tree_read; exact A.
    - intros (c & I & R). right. exists (z_tree (zu_load items entries) c). split; [apply in_map; exact I|].
      apply tree_read; exact R.
  Qed.
  Lemma named_read (u : zuniverse T) t s : In s (zcombs (read_in u t)) <-> exists p, In p (paths (zt_root t)) /\ named_by (zu_items u) p s.
  Proof.
    rewrite zcombs_in. cbn [zt_root zt_univ read_in]. split; intros (p & P & E); exists p; (split; [exact P|]).
    - subst s. split; [apply z_get_items_ssorted|]. intros x. apply z_get_items_in.
    - destruct E as (S & E). apply ssorted_ext; [exact S|apply z_get_items_ssorted|]. intros x. rewrite (E x), z_get_items_in. tauto.
  Qed.
  Lemma from_node_labels (u : zuniverse T) n d : z_from_node u n = Some d -> forall i, In i (labels n) -> i < length (zu_items u).
  Proof.
    revert d. induction n as [b|j lo IHl hi IHh]; intros d E i I; [destruct I|].
    cbn [z_from_node] in E. apply bind_some in E. destruct E as (x & X & E).
    apply bind_some in E. destruct E as (l & El & E). apply bind_some in E. destruct E as (h & Eh & E).
    cbn [labels] in I. destruct I as [<-|I].
    - unfold z_get_item in X. apply nth_error_Some. congruence.
    - apply in_app_iff in I. destruct I; eauto.
  Qed.
End P.

(** C85.  Loading accepts exactly the texts that start with a spelled node, whatever
    the items and the index; the tree is what the data says, and writing it and
    reading it back gives the same tree. *)
Lemma C85_load_pf : forall (T : Type) (O : Ord T) (text : list N) (items : list T) (entries : list (T * nat)),
  ((exists t, z_deserialize (text, (items, entries)) = Some t) <->
   exists d word rest, text = word ++ rest /\ spells 84 70 d word) /\
  forall t, z_deserialize (text, (items, entries)) = Some t ->
    zt_univ t = zu_load items entries /\
    (exists word rest, text = word ++ rest /\ spells 84 70 (zt_root t) word) /\
    (forall y i, map_get (zu_index (zt_univ t)) y = Some i <-> entry_of entries y i) /\
    (forall entries', Permutation entries' (snd (snd (z_serialize t))) ->
       z_deserialize (fst (z_serialize t), (fst (snd (z_serialize t)), entries')) = Some t).
Proof.
  intros T O text items entries. unfold z_deserialize. cbn [fst snd]. split.
  - split.
    + intros (t & E). destruct (zparse_node_string text) as [n| |] eqn:P; try discriminate.
      apply (proj2 (C42_exact_pf text n)) in P. destruct P as (w & r & X). exists n, w, r. exact X.
    + intros (d & w & r & X). assert (P : zparse_node_string text = Parsed d) by (apply (proj2 (C42_exact_pf text d)); eauto).
      rewrite P. eauto.
  - intros t E. destruct (zparse_node_string text) as [n| |] eqn:P; try discriminate. injection E as <-.
    assert (Sp := proj1 (proj2 (C42_exact_pf text n)) P).
    cbn [zt_univ zt_root zu_index z_serialize fst snd zu_items].
    split; [reflexivity|]. split; [exact Sp|]. split; [intros y i; apply collect_get|].
    intros entries' Pe.
    assert (F : fits n).
    { destruct Sp as (w & r & _ & X). clear - X. induction X; intros i I; try destruct I as [<-|I]; try contradiction.
      - rewrite N2Nat.id. assumption.
      - apply in_app_iff in I. destruct I; auto. }
    rewrite (C42_node_round_trip_pf n F). rewrite (map_collect_perm entries' (map_collect entries)); [reflexivity| |exact Pe].
    apply (collect_ok entries []). constructor.
Qed.
(** [traverse] of any tree panics exactly if a label is no index of the items, and
    otherwise mirrors the tree; the three operations and [restrict] add no labels,
    so trees without such labels never get one. *)
Lemma C85_traverse_pf : forall (T : Type) (O : Ord T) (t : ztree T),
  ((exists d, z_traverse t = Some d) <-> forall i, In i (labels (zt_root t)) -> i < length (zu_items (zt_univ t))) /\
  (forall d, z_traverse t = Some d -> mirrors (zu_items (zt_univ t)) (zt_root t) d).
Proof.
  intros T O t. split; [split|].
  - intros (d & E). exact (from_node_labels _ _ _ E).
  - intros L. destruct (z_from_node_spec (zt_univ t) (zt_root t)) as (d & E & _).
    { intros p I. specialize (L p I). destruct (nth_error (zu_items (zt_univ t)) p) as [x|] eqn:E; [eauto|].
      apply nth_error_None in E. lia. }
    exists d. exact E.
  - unfold z_traverse. generalize (zt_root t). intros n. induction n as [b|i lo IHl hi IHh]; intros d E.
    + injection E as <-. reflexivity.
    + cbn [z_from_node] in E. apply bind_some in E. destruct E as (x & X & E).
      apply bind_some in E. destruct E as (l & El & E). apply bind_some in E. destruct E as (h & Eh & E).
      injection E as <-. cbn [mirrors]. split; [exact X|]. auto.
Qed.
Lemma C85_safe_results_pf : forall (T : Type) (O : Ord T) (t o : ztree T) d e,
  z_traverse t = Some d -> z_traverse (read_in (zt_univ t) o) = Some e ->
  (exists r, z_traverse (z_union t o) = Some r) /\
  (exists r, z_traverse (z_intersect t o) = Some r) /\
  (exists r, z_traverse (z_product t o) = Some r).
Proof.
  intros T O t o d e D E.
  assert (A := proj1 (proj1 (C85_traverse_pf T O t)) (ex_intro _ d D)).
  assert (B := proj1 (proj1 (C85_traverse_pf T O (read_in (zt_univ t) o))) (ex_intro _ e E)).
  cbn [zt_root zt_univ read_in] in B.
  destruct (zops_labels (fun i => i < length (zu_items (zt_univ t))) (zt_root t) (zt_root o) A B) as (X & Y & Z).
  split; [|split].
  - apply (proj2 (proj1 (C85_traverse_pf T O (z_union t o)))). exact X.
  - apply (proj2 (proj1 (C85_traverse_pf T O (z_intersect t o)))). exact Y.
  - apply (proj2 (proj1 (C85_traverse_pf T O (z_product t o)))). exact Z.
Qed.
(** Over a universe loaded from any items and any index, the constructors and
    [restrict] send every member through the index to an item. *)
Lemma C85_constructors_pf : forall (T : Type) (O : Ord T) (items : list T) (entries : list (T * nat)),
  let u := zu_load items entries in
  (forall c, exists s, z_combinations (z_tree u c) = Some [s] /\ read_as items entries c s) /\
  (forall cs, exists ss, z_combinations (z_hyper_tree u cs) = Some ss /\
     forall s, In s ss <-> exists c, In c cs /\ read_as items entries c s) /\
  (forall xs, exists ss, z_combinations (z_unique_tree u xs) = Some ss /\
     forall s, In s ss <-> exists x, In x xs /\ read_as items entries [x] s) /\
  (forall t inc exc, zt_univ t = u -> exists cs r rs, z_combinations t = Some cs /\ z_restrict t inc exc = Some r /\
     zt_univ r = u /\ z_combinations r = Some rs /\
     forall s, In s rs <-> exists c, In c cs /\ meets inc exc c /\ read_as items entries c s).
Proof.
  intros T O items entries u. split; [|split; [|split]].
  - intros c. exists (z_get_items u (sort (filter_map (map_get (zu_index u)) c))). rewrite z_combinations_eq, tree_any.
    split; [reflexivity|]. apply tree_read. rewrite tree_any. left; reflexivity.
  - intros cs. eexists. split; [apply z_combinations_eq|]. intros s. apply hyper_read.
  - intros xs. eexists. split; [apply z_combinations_eq|]. intros s. rewrite z_unique_hyper. unfold u. rewrite hyper_read. split.
    + intros (c & I & R). apply in_map_iff in I. destruct I as (x & <- & I). eauto.
    + intros (x & I & R). exists [x]. split; [apply in_map_iff; eauto|exact R].
  - intros t inc exc U. destruct (z_combinations_with_eq t inc exc) as (cs & E & _ & G).
    exists (zcombs t), (z_hyper_tree u cs), (zcombs (z_hyper_tree u cs)). split; [apply z_combinations_eq|]. split.
    { unfold z_restrict. rewrite E, U. reflexivity. }
    split. { apply z_fold_univ; [reflexivity|]. intros o I. apply in_map_iff in I. destruct I as (c & <- & _). reflexivity. }
    split; [apply z_combinations_eq|]. intros s. unfold u. rewrite hyper_read. split.
    + intros (c & I & R). apply G in I. destruct I as (I & M). exists c. auto.
    + intros (c & I & M & R). exists c. split; [|exact R]. apply G. auto.
Qed.
(** Operands of any two universes, any roots: the result is what one gets after
    reading the other tree in the universe of the first; [union] has exactly the
    combinations of both; a combination of the [product] is the union of one of each,
    and all of these if no label occurs in both. *)
Lemma C85_mixed_pf : forall (T : Type) (O : Ord T) (t o : ztree T),
  let o' := read_in (zt_univ t) o in
  z_union t o = z_union t o' /\ z_intersect t o = z_intersect t o' /\ z_product t o = z_product t o' /\
  exists a b r p, z_combinations t = Some a /\ z_combinations o' = Some b /\
    (forall s, In s b <-> exists p, In p (paths (zt_root o)) /\ named_by (zu_items (zt_univ t)) p s) /\
    z_combinations (z_union t o) = Some r /\ z_combinations (z_product t o) = Some p /\
    (forall s, In s r <-> In s a \/ In s b) /\
    (forall s, In s p -> exists x y, In x a /\ In y b /\ is_union s x y) /\
    ((forall i, In i (labels (zt_root t)) -> ~ In i (labels (zt_root o))) ->
     forall s, In s p <-> ssorted s /\ exists x y, In x a /\ In y b /\ is_union s x y).
Proof.
  intros T O t o o'. split; [reflexivity|]. split; [reflexivity|]. split; [reflexivity|].
  exists (zcombs t), (zcombs o'), (zcombs (z_union t o)), (zcombs (z_product t o)).
  split; [apply z_combinations_eq|]. split; [apply z_combinations_eq|].
  split; [intros s; apply named_read|]. split; [apply z_combinations_eq|]. split; [apply z_combinations_eq|].
  split; [|].
  { intros s. change (z_union t o) with (z_union t o'). apply zcombs_union. reflexivity. }
  assert (Im : forall q x y, (forall i, In i q <-> In i x \/ In i y) ->
    is_union (z_get_items (zt_univ t) q) (z_get_items (zt_univ t) x) (z_get_items (zt_univ t) y)).
  { intros q x y E z. rewrite !z_get_items_in. split.
    - intros (i & I & N). apply E in I. destruct I; [left|right]; eauto.
    - intros [(i & I & N)|(i & I & N)]; exists i; (split; [apply E; auto|exact N]). }
  assert (So : forall s, In s (zcombs (z_product t o)) -> ssorted s /\ exists x y, In x (zcombs t) /\ In y (zcombs o') /\ is_union s x y).
  { intros s I. split; [eapply zcombs_ssorted; exact I|]. apply zcombs_in in I. cbn [zt_root zt_univ z_product] in I.
    destruct I as (q & Q & ->). destruct (zproduct_sound _ _ q Q) as (x & y & X & Y & E).
    exists (z_get_items (zt_univ t) x), (z_get_items (zt_univ t) y). split; [apply zcombs_in; eauto|].
    split; [apply zcombs_in; exists y; auto|]. apply Im. exact E. }
  split; [intros s I; apply So; exact I|].
  intros D s. split; [apply So|]. intros (S & x & y & X & Y & U). apply zcombs_in in X, Y.
  destruct X as (x' & X & ->), Y as (y' & Y & ->). cbn [zt_root zt_univ read_in o'] in *.
  destruct (zproduct_complete _ _ D x' y' X Y) as (q & Q & E). apply zcombs_in. exists q. cbn [zt_root zt_univ z_product].
  split; [exact Q|]. apply ssorted_ext; [exact S|apply z_get_items_ssorted|]. intros z. rewrite (U z), (Im q x' y' E z). tauto.
Qed.
(** For diagrams that are ordered and zero-suppressed, as texts of trees are, the
    paths of the results are known exactly, whatever the universes ([joined], [paired]
    as in C38 and C39, on positions). *)
Lemma C85_ordered_pf : forall (T : Type) (O : Ord T) (t o : ztree T),
  ordered (zt_root t) -> ordered (zt_root o) -> zero_suppressed (zt_root t) -> zero_suppressed (zt_root o) ->
  exists i p, z_combinations (z_intersect t o) = Some i /\ z_combinations (z_product t o) = Some p /\
    (forall s, In s i <-> exists q, ssorted q /\ joined lt (paths (zt_root t)) (paths (zt_root o)) q /\
                                    named_by (zu_items (zt_univ t)) q s) /\
    (forall s, In s p <-> exists q, ssorted q /\ named_by (zu_items (zt_univ t)) q s /\
       exists x y, In x (paths (zt_root t)) /\ In y (paths (zt_root o)) /\ is_union q x y /\
                   forall k, paired lt (paths (zt_root t)) (paths (zt_root o)) x y k).
Proof.
  intros T O t o Ot Oo Zt Zo. destruct (zops_ordered _ _ Ot Oo) as (_ & Oi & Op).
  exists (zcombs (z_intersect t o)), (zcombs (z_product t o)).
  split; [apply z_combinations_eq|]. split; [apply z_combinations_eq|]. split; intros s.
  - change (z_intersect t o) with (read_in (zt_univ t) (z_intersect t o)). rewrite named_read. cbn [zt_root z_intersect].
    split; intros (q & Q & R).
    + assert (Sq : ssorted q) by (eapply ordered_path; [exact Oi|exact Q]). exists q. split; [exact Sq|]. split; [|exact R].
      apply (zintersect_exact _ _ Ot Oo Zt Zo q Sq). exact Q.
    + destruct R as (R & N). exists q. split; [|exact N]. apply (zintersect_exact _ _ Ot Oo Zt Zo q Q). exact R.
  - change (z_product t o) with (read_in (zt_univ t) (z_product t o)). rewrite named_read. cbn [zt_root z_product].
    split; intros (q & Q & R).
    + assert (Sq : ssorted q) by (eapply ordered_path; [exact Op|exact Q]). exists q. split; [exact Sq|]. split; [exact R|].
      apply (zproduct_exact _ _ Ot Oo Zt Zo q Sq). exact Q.
    + destruct R as (N & R). exists q. split; [|exact N]. apply (zproduct_exact _ _ Ot Oo Zt Zo q Q). exact R.
Qed.

(** Non-vacuity: an index that contradicts the items, a root with repeated and
    unknown labels, two universes. *)
Example C85_example :
  let text := [40;53;32;40;84;41;32;40;49;32;40;84;41;32;40;84;41;41;41]%N in
  let items := [7; 8; 9] in let entries := [(7, 2); (8, 0); (7, 1); (4, 2); (9, 6)] in
  exists t, z_deserialize (text, (items, entries)) = Some t /\
    zt_root t = Branch 5 (Leaf true) (Branch 1 (Leaf true) (Leaf true)) /\
    z_combinations t = Some [[]; [8]] /\ z_traverse t = None /\
    entry_of entries 7 1 /\ ~ entry_of entries 7 2 /\
    z_combinations (z_tree (zu_load items entries) [7; 8; 4; 9]) = Some [[7; 8; 9]] /\
    (let! r := z_restrict t [8] [] in z_combinations r) = Some [[7]] /\
    z_combinations (z_union t (z_tree (zu_from [1; 2; 3]) [3])) = Some [[]; [8]; [9]].
Proof.
  cbv zeta. eexists. split; [reflexivity|]. split; [reflexivity|]. split; [reflexivity|]. split; [reflexivity|].
  split. { exists [(7, 2); (8, 0)], [(4, 2); (9, 6)]. split; [reflexivity|]. simpl. intuition discriminate. }
  split. { intros E. apply collect_get in E. vm_compute in E. discriminate. }
  split; [reflexivity|]. split; reflexivity.
Qed.
