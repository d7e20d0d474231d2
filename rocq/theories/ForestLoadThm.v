(** ForestLoadThm: what a Forest loaded from any data is (C95). *)
From Coq Require Import List Arith NArith Lia Bool Permutation Sorted.
From Verif Require Import Base DD Spec Zdd2Model ZddModel ParserSpec ParserModel TextSpec.
From Verif Require Import Zdd2Node Zdd2Univ Zdd2Forest Zdd2Forest2 Zdd2Laws Zdd2Thm ParserProofs ParserPlaced ParserThm ZLoadThm TextThm ForestLoadSpec.
Import ListNotations.
Open Scope N_scope.

Lemma kept_collect {T} `{Ord T} (entries : list (T * nat)) : kept entries (map_collect entries).
Proof.
  assert (K : map_ok (map_collect entries)) by (apply collect_ok; constructor).
  split; [exact K|]. intros x k. rewrite <- collect_get. symmetry. apply map_get_in. exact K.
Qed.
Lemma kept_unique {T} `{Ord T} (entries l : list (T * nat)) : kept entries l -> l = map_collect entries.
Proof.
  intros (S & A). destruct (kept_collect entries) as (S' & A'). apply amap_ext; [exact S|exact S'|]. intros x.
  destruct (map_get (map_collect entries) x) as [k|] eqn:E.
  - apply map_get_in; [exact S|]. apply A, A'. apply map_get_in; [exact S'|exact E].
  - destruct (map_get l x) as [k|] eqn:E'; [|reflexivity]. apply map_get_in in E'; [|exact S]. apply A, A' in E'.
    apply map_get_in in E'; [|exact S']. congruence.
Qed.
Lemma labels_in_paths n t : zwf n t -> forall i, In i (labels t) -> exists p, In p (paths t) /\ In i p.
Proof.
  revert n; induction t as [b|j lo IHl hi IHh]; intros n W i Hi; [destruct Hi|].
  destruct W as (W1 & W2 & W3 & W4). cbn [labels In] in Hi. rewrite in_app_iff in Hi. destruct Hi as [<-|[Hi|Hi]].
  - destruct (zwf_nonempty _ _ W4 W2) as (s & Hs). exists (j :: s). split; [apply paths_branch; eauto|left; reflexivity].
  - destruct (IHl _ W3 i Hi) as (p & A & B). exists p. split; [apply paths_branch; auto|exact B].
  - destruct (IHh _ W4 i Hi) as (p & A & B). exists (j :: p). split; [apply paths_branch; eauto|right; exact B].
Qed.
Lemma spells_fits a b raw t : spells a b raw t -> fits raw.
Proof.
  induction 1 as [| |v lo hi w1 ds w2 sl w3 sh w4 Nu L _ _ _ _ _ IHl _ IHh]; intros i Hi; [destruct Hi|destruct Hi|].
  cbn [labels In] in Hi. rewrite in_app_iff in Hi. destruct Hi as [<-|[Hi|Hi]]; [rewrite N2Nat.id; exact L|auto|auto].
Qed.
Lemma build_labels raw : forall d, build branch raw = Some d -> forall i, In i (labels d) -> In i (labels raw).
Proof.
  induction raw as [v|j lo IHl hi IHh]; intros d E i Hi; cbn [build] in E.
  - injection E as <-. destruct Hi.
  - destruct (build_parsed_as lo) as (l & El & Wl & _). destruct (build_parsed_as hi) as (h & Eh & Wh & _).
    rewrite El, Eh in E. cbn [bind] in E.
    destruct (branch_total 0 j l h (Nat.le_0_l _) Wl Wh) as (r & Er & _ & L). rewrite Er in E. injection E as <-.
    cbn [labels In]. rewrite in_app_iff. destruct (L i Hi) as [->|[X|X]]; eauto.
Qed.

(** the parser's answer *)
Lemma says_parse text es : says text es -> exists d, parse_node_string text = Parsed d /\ zwf 0 d /\ fits d /\ forall p, es p <-> In p (paths d).
Proof.
  intros (raw & w & t & rest & E & W & S & P). destruct (build_parsed_as raw) as (d & B & Z & P').
  exists d. split; [apply C23_exact_pf; exists raw, w, t, rest; auto|]. split; [exact Z|].
  split; [intros i Hi; exact (spells_fits _ _ _ _ S i (build_labels raw d B i Hi))|]. exact (parsed_as_fun raw _ _ P P').
Qed.
Lemma parse_says text d : parse_node_string text = Parsed d -> says text (fun p => In p (paths d)).
Proof.
  intros E. apply C23_exact_pf in E. destruct E as (raw & w & t & rest & E & W & S & B). exists raw, w, t, rest.
  split; [exact E|]. split; [exact W|]. split; [exact S|]. destruct (build_parsed_as raw) as (d' & B' & _ & P).
  rewrite B in B'. injection B' as <-. exact P.
Qed.

Section L.
  Context {T : Type} `{OT : Ord T}.
  Lemma load_eq h text (entries : list (T * nat)) d : parse_node_string text = Parsed d ->
    f_deserialize h (text, entries) = Some (mkF d (univ_of (map_collect entries))).
  Proof. intros E. unfold f_deserialize. cbn [fst snd]. rewrite E, from_occurrences_univ. reflexivity. Qed.
  Lemma load_inv h text (entries : list (T * nat)) f : f_deserialize h (text, entries) = Some f ->
    exists d, parse_node_string text = Parsed d /\ f = mkF d (univ_of (map_collect entries)).
  Proof.
    intros E. destruct (parse_node_string text) as [d| |] eqn:P.
    - exists d. split; [reflexivity|]. rewrite (load_eq h text entries d P) in E. congruence.
    - unfold f_deserialize in E. cbn [fst] in E. rewrite P in E. discriminate.
    - unfold f_deserialize in E. cbn [fst] in E. rewrite P in E. discriminate.
  Qed.
  Lemma item_rank (occ : list (T * nat)) i x : get_item (univ_of occ) i = Some x <-> exists k, nth_error (ordered_occ occ) i = Some (x, k).
  Proof.
    unfold get_item, univ_of. cbn [u_index]. rewrite nth_error_map.
    destruct (nth_error (ordered_occ occ) i) as [[y k]|]; cbn [option_map fst]; split.
    - intros [= ->]. eauto.
    - intros (k' & [= -> ->]). reflexivity.
    - discriminate.
    - intros (k' & X). discriminate.
  Qed.
  Lemma items_read (occ : list (T * nat)) p : reads (ordered_occ occ) p (get_items (univ_of occ) p).
  Proof.
    intros x. rewrite items_in. split.
    - intros (i & A & B). apply item_rank in B. destruct B as (k & B). eauto.
    - intros (i & k & A & B). exists i. split; [exact A|]. apply item_rank. eauto.
  Qed.
  Lemma occ_ranking (occ : list (T * nat)) : map_ok occ -> ranking occ (ordered_occ occ).
  Proof.
    intros K. split; [apply ordered_occ_perm|]. apply sorted_strict; [apply sort_by_sorted; [apply occ_leb_total|apply occ_leb_trans]|].
    eapply Permutation_NoDup; [symmetry; apply ordered_occ_perm|]. eapply NoDup_map_inv, ssorted_NoDup. exact K.
  Qed.
End L.
Lemma ranking_unique {T} `{Ord T} (l r r' : list (T * nat)) : ranking l r -> ranking l r' -> r = r'.
Proof.
  intros (P & S) (P' & S').
  apply (SS_unique_perm ranks_before); [|exact S|exact S'|rewrite P, P'; reflexivity].
  intros p q [A|(A & A')] [B|(B & B')]; exfalso; try lia. exact (lt_asym_ _ _ A' B').
Qed.

(** C95.  Loading a [Forest] accepts exactly the texts that are the text of a diagram after white
    space and before anything, whatever the entries. *)
Lemma C95_accepts_pf : forall (T : Type) (O : Ord T) (h : hash_order) (text : list N) (entries : list (T * nat)),
  (exists f, f_deserialize h (text, entries) = Some f) <->
  exists raw w t rest, text = w ++ t ++ rest /\ white w /\ spells 65 78 raw t.
Proof.
  intros T O h text entries. split.
  - intros (f & E). apply load_inv in E. destruct E as (d & E & _). apply C23_exact_pf in E.
    destruct E as (raw & w & t & rest & A & B & C & _). exists raw, w, t, rest. auto.
  - intros (raw & w & t & rest & A & B & C). destruct (build_parsed_as raw) as (d & D & _).
    exists (mkF d (univ_of (map_collect entries))). apply load_eq, C23_exact_pf. exists raw, w, t, rest. auto.
Qed.

(** What is loaded is what the data says: the last entry for each item is its count, the entries ranked
    by descending count, then by item, number the labels, and each label list of the diagram is
    listed as the items at its ranks (a label beyond the ranks is listed as nothing). *)
Lemma C95_contents_pf : forall (T : Type) (O : Ord T) (h h' : hash_order) text (entries l ranks : list (T * nat)) (es : family) f,
  f_deserialize h (text, entries) = Some f -> says text es -> kept entries l -> ranking l ranks ->
  f_deserialize h' (text, entries) = Some f /\ f_occurrences h' f = l /\ snd (f_serialize f) = l /\
  exists ps ts, NoDup ps /\ (forall p, In p ps <-> es p) /\
    f_trees f = Some ts /\ Forall2 (fun p t => ssorted t /\ reads ranks p t) ps ts /\
    f_len f = Some (length ps) /\ (f_is_empty f = Some true <-> ps = []).
Proof.
  intros T O h h' text entries l ranks es f E S K R. apply load_inv in E. destruct E as (d & P & ->).
  destruct (says_parse text es S) as (d' & P' & W & _ & Es). rewrite P in P'. injection P' as <-.
  pose proof (kept_unique entries l K) as ->. destruct K as (K & _).
  pose proof (ranking_unique _ _ _ R (occ_ranking _ K)) as ->.
  split; [apply load_eq; exact P|]. split; [apply occurrences_any; [exact K|reflexivity]|]. split; [reflexivity|].
  exists (paths d), (map (get_items (univ_of (map_collect entries))) (paths d)).
  split; [exact (paths_NoDup _ _ W)|]. split; [intros p; symmetry; apply Es|].
  split; [apply f_trees_tl|]. split; [|split].
  - assert (A : forall p, In p (paths d) -> asc 0 p) by (intros p; apply (zwf_paths _ _ _ W)). clear - A K.
    induction (paths d) as [|p ps IH]; [constructor|]. cbn [map]. constructor.
    + split; [apply items_ssorted; [exact K|]; apply A; left; reflexivity|apply items_read].
    + apply IH. intros q Q. apply A. right; exact Q.
  - unfold f_len. cbn [f_root]. rewrite node_trees_paths. reflexivity.
  - unfold f_is_empty. cbn [f_root]. rewrite node_trees_paths. cbn [bind]. destruct (paths d); split; intros X; congruence.
Qed.

(** Two loaded forests are equal exactly if the texts say the same family and the entries leave the same
    counts: the layout, the order of the entries and entries that are replaced do not matter. *)
Lemma C95_equal_pf : forall (T : Type) (O : Ord T) (h h' : hash_order) text text' (entries entries' : list (T * nat)) (es es' : family) f f',
  f_deserialize h (text, entries) = Some f -> f_deserialize h' (text', entries') = Some f' -> says text es -> says text' es' ->
  (f_eqb f f' = true <-> (forall p, es p <-> es' p) /\ forall x k, entry_of entries x k <-> entry_of entries' x k).
Proof.
  intros T O h h' text text' entries entries' es es' f f' E E' S S'.
  apply load_inv in E. destruct E as (d & P & ->). apply load_inv in E'. destruct E' as (d' & P' & ->).
  destruct (says_parse text es S) as (d0 & X & W & _ & Es). rewrite P in X. injection X as <-.
  destruct (says_parse text' es' S') as (d0 & X & W' & _ & Es'). rewrite P' in X. injection X as <-.
  rewrite f_eqb_spec. split.
  - intros X. pose proof (f_equal (fun f => u_occ (f_univ f)) X) as X'. apply (f_equal (@f_root T)) in X.
    cbn [f_root f_univ u_occ univ_of] in X, X'. subst d'. split; [intros p; rewrite (Es p), (Es' p); reflexivity|].
    intros x k. rewrite <- !collect_get. rewrite X'. reflexivity.
  - intros (A & B). assert (d = d') as ->.
    { eapply canonicity; [exact W|exact W'|]. intros p. rewrite <- (Es p), <- (Es' p). apply A. }
    f_equal. f_equal. apply kept_unique. destruct (kept_collect entries) as (K & C). split; [exact K|]. intros x k. rewrite (C x k). apply B.
Qed.

(** Written and loaded again, under any hash order and with the entries in any order, it is the same forest. *)
Lemma C95_stable_pf : forall (T : Type) (O : Ord T) (h h' : hash_order) data (entries' : list (T * nat)) f,
  f_deserialize h data = Some f -> Permutation entries' (snd (f_serialize f)) ->
  f_deserialize h' (fst (f_serialize f), entries') = Some f.
Proof.
  intros T O h h' [text entries] entries' f E P. apply load_inv in E. destruct E as (d & E & ->).
  cbn [f_serialize f_root f_univ fst snd u_occ univ_of] in *.
  destruct (says_parse text _ (parse_says text d E)) as (d' & E' & W & Ft & _). rewrite E in E'. injection E' as <-.
  rewrite (load_eq h' _ entries' d); [|destruct (C23_normal_pf _ _ E); apply C21_node_round_trip_pf; assumption].
  rewrite (map_collect_perm entries' (map_collect entries)); [reflexivity| |exact P]. apply kept_collect.
Qed.

Lemma readable_indexed {T} `{Ord T} h text (entries l : list (T * nat)) es (f : forest T) :
  f_deserialize h (text, entries) = Some f -> says text es -> kept entries l -> (indexed f <-> readable es l).
Proof.
  intros E S K. apply load_inv in E. destruct E as (d & P & ->).
  destruct (says_parse text es S) as (d' & P' & W & _ & Es). rewrite P in P'. injection P' as <-.
  pose proof (kept_unique entries l K) as ->. unfold indexed, readable. cbn [f_root f_univ u_occ univ_of]. split.
  - intros A p i Hp Hi. apply A. apply Es in Hp. eapply paths_labels; eauto.
  - intros A i Hi. destruct (labels_in_paths _ _ W i Hi) as (p & B & C). apply (A p i); [apply Es; exact B|exact C].
Qed.
(** Combining loaded forests and printing them succeeds exactly if every label has a rank. *)
Lemma C95_usable_pf : forall (T : Type) (O : Ord T) (h h1 h2 : hash_order) text1 text2 (entries1 entries2 l1 l2 : list (T * nat)) (es1 es2 : family) (show : T -> list N) f g,
  f_deserialize h1 (text1, entries1) = Some f -> f_deserialize h2 (text2, entries2) = Some g ->
  says text1 es1 -> says text2 es2 -> kept entries1 l1 -> kept entries2 l2 ->
  ((exists r, f_union h f g = Some r) <-> readable es1 l1 /\ readable es2 l2) /\
  ((exists r, f_intersect h f g = Some r) <-> readable es1 l1 /\ readable es2 l2) /\
  ((exists r, f_product h f g = Some r) <-> readable es1 l1 /\ readable es2 l2) /\
  ((exists s, f_debug show f = Some s) <-> readable es1 l1).
Proof.
  intros T O h h1 h2 text1 text2 entries1 entries2 l1 l2 es1 es2 show f g E1 E2 S1 S2 K1 K2.
  rewrite <- (readable_indexed h1 text1 entries1 l1 es1 f E1 S1 K1), <- (readable_indexed h2 text2 entries2 l2 es2 g E2 S2 K2).
  exact (C66_exact_partial_pf T O h h1 h2 _ _ show f g E1 E2).
Qed.

(** A loaded forest is one that calls of the API can make exactly if every label has a rank, the empty
    set is not among its trees, and the counts are those of its trees. *)
Lemma C95_genuine_pf : forall (T : Type) (O : Ord T) (h : hash_order) text (entries l : list (T * nat)) (es : family) f ts,
  f_deserialize h (text, entries) = Some f -> says text es -> kept entries l -> f_trees f = Some ts ->
  (Reach f <-> readable es l /\ ~ es [] /\ forall x k, In (x, k) l <-> (0 < k)%nat /\ k = count ts x).
Proof.
  intros T O h text entries l es f ts E S K Ht. pose proof (readable_indexed h text entries l es f E S K) as Ri.
  apply load_inv in E. destruct E as (d & P & ->).
  destruct (says_parse text es S) as (d' & P' & W & _ & Es). rewrite P in P'. injection P' as <-.
  pose proof (kept_unique entries l K) as ->. rewrite f_trees_tl in Ht. injection Ht as <-. destruct K as (K & _). split.
  - intros R. apply Reach_Canon in R. destruct R as (occ & C). pose proof (c_univ _ _ C) as U. cbn [f_univ] in U.
    apply (f_equal (@u_occ T)) in U. change (map_collect entries = occ) in U. subst occ. split; [|split].
    + intros p i Hp Hi. apply (c_known _ _ C p); [apply Es; exact Hp|exact Hi].
    + intros X. apply Es in X. exact (c_ne _ _ C X).
    + intros x k. apply occ_in. exact C.
  - intros (A & B & C). set (f := mkF d (univ_of (map_collect entries))) in *.
    assert (Cf : Canon f).
    { exists (map_collect entries). constructor; [exact K|reflexivity|exact W| | |].
      - intros p Hp i Hi. apply (A p i); [apply Es; exact Hp|exact Hi].
      - intros X. apply B, Es, X.
      - intros x. destruct (map_get (map_collect entries) x) as [k|] eqn:G.
        + apply map_get_in in G; [|exact K]. apply C in G. symmetry. apply opt_of_some. lia.
        + destruct (count (tl_ f) x) as [|k] eqn:Ck; [reflexivity|]. exfalso. apply map_get_none in G; [|exact K]. apply G.
          change x with (fst (x, Datatypes.S k)). apply in_map. apply C. split; [lia|symmetry; exact Ck]. }
    exact (R_many ho_id _ f (many_self f ho_id Cf)).
Qed.

(** " (1 (A) (A))x" with the entries 7:3, 8:1, 7:1 -- the last entry for 7 counts, so 7 and 8 have rank 0 and 1:
    the trees are {8} and {}, and the counts are not those of the trees *)
Example C95_example :
  let text := [32;40;49;32;40;65;41;32;40;65;41;41;120] in
  let entries := [(7, 3); (8, 1); (7, 1)]%nat in
  exists f, f_deserialize ho_id (text, entries) = Some f /\
    says text (fun p => p = [] \/ p = [1%nat]) /\ kept entries [(7, 1); (8, 1)]%nat /\
    ranking [(7, 1); (8, 1)]%nat [(7, 1); (8, 1)]%nat /\ f_trees f = Some [[8]; []]%nat /\
    readable (fun p => p = [] \/ p = [1%nat]) [(7, 1); (8, 1)]%nat /\ ~ Reach f.
Proof.
  assert (K : kept [(7, 3); (8, 1); (7, 1)]%nat [(7, 1); (8, 1)]%nat) by exact (kept_collect [(7, 3); (8, 1); (7, 1)]%nat).
  assert (Tt : parsed_as (Leaf true) (fun s => s = [])) by (constructor; intros t; tauto).
  assert (S : says [32;40;49;32;40;65;41;32;40;65;41;41;120] (fun p => p = [] \/ p = [1%nat])).
  { exists (Branch 1%nat (Leaf true) (Leaf true)), [32], [40;49;32;40;65;41;32;40;65;41;41], [120].
    split; [reflexivity|]. split; [intros c [<-|[]]; vm_compute; tauto|]. split.
    - apply (sp_branch 65 78 1 (Leaf true) (Leaf true) [] [49] [32] [40;65;41] [32] [40;65;41] []);
        try (intros c Hc; cbn in Hc; intuition; fail); try constructor; try reflexivity; try discriminate.
      split; [|reflexivity]. intros c [<-|[]]. lia.
    - eapply parsed_branch; [exact Tt|exact Tt|]. apply placed_top; [eauto|intros t z -> []|]. intros t. split.
      + intros [->| ->]; [left; split; [reflexivity|discriminate]|right; eauto].
      + intros [(-> & _)|(s & -> & ->)]; auto. }
  cbv zeta.
  assert (E : f_deserialize ho_id ([32;40;49;32;40;65;41;32;40;65;41;41;120], [(7, 3); (8, 1); (7, 1)]%nat)
     = Some (mkF (Branch 1%nat (Leaf true) (Leaf true)) (univ_of [(7, 1); (8, 1)]%nat))) by reflexivity.
  eexists. split; [exact E|]. split; [exact S|]. split; [exact K|].
  split; [exact (occ_ranking _ (proj1 K))|]. split; [reflexivity|]. split.
  - intros p i [->| ->] Hi; [destruct Hi|]. destruct Hi as [<-|[]]. cbn. lia.
  - intros R. apply (proj1 (C95_genuine_pf nat _ ho_id _ _ _ _ _ _ E S K eq_refl)) in R.
    destruct R as (_ & R & _). apply R. left. reflexivity.
Qed.
(** "(0 (N) (A))" with the entry 7:1 is genuine; with 7:2 it is not; without entries it cannot be read *)
Example C95_genuine_example :
  let text := [40;48;32;40;78;41;32;40;65;41;41] in
  exists f f' f0, f_deserialize ho_rev (text, [(7, 1)]%nat) = Some f /\ f_deserialize ho_rev (text, [(7, 2)]%nat) = Some f' /\
    f_deserialize ho_rev (text, []) = Some f0 /\
    f_trees f = Some [[7%nat]] /\ f_trees f' = Some [[7%nat]] /\ f_trees f0 = Some [[]] /\
    f_unit ho_id [7%nat] = Some f /\ f_eqb f f' = false /\ f_occurrences ho_id f' = [(7, 2)]%nat /\
    f_union ho_id f f' = Some f /\ f_union ho_id f f0 = None.
Proof. cbv zeta. do 3 eexists. repeat (split; [reflexivity|]). reflexivity. Qed.
