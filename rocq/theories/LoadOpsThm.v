(** LoadOpsThm: exactly what union, intersect, product and subset_none give on forests loaded
    from any data (C98). *)
From Coq Require Import List Arith NArith Lia Bool Permutation Sorted.
From Verif Require Import Base DD Spec Zdd2Model ParserModel LoadOpsSpec.
From Verif Require Import Zdd2Node Zdd2Node2 Zdd2Exact Zdd2Univ Zdd2Forest Zdd2Forest2 Zdd2Forest3 Zdd2Exact2 Zdd2Laws Zdd2Thm ParserThm LoadProofs.
Import ListNotations.

Section LoadOps.
  Context {T : Type} `{OT : Ord T}.
  Implicit Types f g : forest T.

  (** what is needed of a forest, and what its universe says of the order *)
  Definition loose f (occ : list (T * nat)) : Prop :=
    map_ok occ /\ f_univ f = univ_of occ /\ zwf 0 (f_root f).
  Lemma obtainable_loose f : obtainable f -> exists occ, loose f occ.
  Proof. intros X. destruct (origin_loadable f X) as (occ & A & B & C). exists occ. split; [exact A|split; [exact B|exact C]]. Qed.

  Definition told (m : list (T * nat)) (x : T) : nat := match map_get m x with Some k => k | None => 0 end.
  Lemma told_order m : map_ok m ->
    forall p q x y, get_item (univ_of m) p = Some x -> get_item (univ_of m) q = Some y -> (p < q <-> before (told m) x y).
  Proof.
    intros Hm p q x y Ex Ey. apply get_priority_item in Ex, Ey; auto.
    destruct (get_priority_map_get _ _ _ Hm Ex) as (cx & Cx). destruct (get_priority_map_get _ _ _ Hm Ey) as (cy & Cy).
    rewrite (priority_order m x y _ _ cx cy Hm Ex Ey Cx Cy). unfold occ_before, before, told. cbn [fst snd]. rewrite Cx, Cy.
    intuition lia.
  Qed.
  Lemma occurrences_told h f occ x : loose f occ -> reported (f_occurrences h f) x = told occ x.
  Proof.
    intros (K & U & _). unfold reported, told.
    assert (P : Permutation (f_occurrences h f) occ).
    { unfold f_occurrences. rewrite sort_by_perm. rewrite U. cbn [u_occ univ_of]. apply ho_perm. }
    destruct (find _ _) as [[y k]|] eqn:E.
    - apply find_some in E. destruct E as [E1 E2]. cbn [fst] in E2. apply eqb_true_ in E2. subst y.
      apply (Permutation_in _ P) in E1. apply map_get_in in E1; [|exact K]. rewrite E1. reflexivity.
    - destruct (map_get occ x) as [k|] eqn:G; [|reflexivity]. exfalso. apply map_get_in in G; [|exact K].
      apply (Permutation_in _ (Permutation_sym P)) in G. apply (find_none _ _ E) in G. cbn [fst] in G.
      rewrite eqb_refl_ in G. discriminate G.
  Qed.
  Lemma before_ext (c c' : T -> nat) x y : (forall z, c z = c' z) -> (before c x y <-> before c' x y).
  Proof. intros E. unfold before. rewrite !E. reflexivity. Qed.

  Lemma merge_loose h occ1 occ2 : map_ok occ1 -> map_ok occ2 ->
    exists m, map_ok m /\ u_merge h site_merge (univ_of occ1) (univ_of occ2) = univ_of m /\
      (forall x, In x (map fst occ1) -> In x (map fst m)) /\ (forall x, In x (map fst occ2) -> In x (map fst m)) /\
      (forall p q x y, get_item (univ_of m) p = Some x -> get_item (univ_of m) q = Some y ->
         (p < q <-> before (fun z => told occ1 z + told occ2 z) x y)).
  Proof.
    intros K1 K2. destruct (u_merge_spec h site_merge occ1 occ2 K1 K2) as [(E0 & E)|(_ & m & K & E & G)].
    - exists occ1. subst occ2. split; [exact K1|]. split; [exact E|]. split; [auto|]. split; [auto|].
      intros p q x y X Y. rewrite before_double. apply told_order; auto.
    - exists m. split; [exact K|]. split; [exact E|]. split; [|split].
      + intros x X. apply (keys_get m x K). rewrite G. apply (keys_get occ1 x K1) in X.
        destruct (map_get occ1 x); [|congruence]. destruct (map_get occ2 x); discriminate.
      + intros x X. apply (keys_get m x K). rewrite G. apply (keys_get occ2 x K2) in X.
        destruct (map_get occ2 x); [|congruence]. destruct (map_get occ1 x); discriminate.
      + intros p q x y X Y. rewrite (told_order m K p q x y X Y). apply before_ext. intros z. unfold told. rewrite G.
        destruct (map_get occ1 z), (map_get occ2 z); cbn; lia.
  Qed.

  Lemma loose_dfam f occ : loose f occ -> dfam occ (f_root f) = tl_ f.
  Proof. intros (_ & U & _). unfold dfam, tl_. rewrite U. reflexivity. Qed.
  Lemma indexed_known f occ : loose f occ -> indexed f -> known_labels occ (f_root f).
  Proof. intros (_ & U & _) I0 p X. specialize (I0 p X). rewrite U in I0. exact I0. Qed.

  Lemma roots_loose h f g o1 o2 op r (c1 c2 : T -> nat) : loose f o1 -> loose g o2 ->
    (forall x, c1 x = told o1 x) -> (forall x, c2 x = told o2 x) -> f_binop op h f g = Some r ->
    exists m r1 r2 q, map_ok m /\ zwf 0 r1 /\ zwf 0 r2 /\ knownt m r1 /\ knownt m r2 /\
      (forall p q x y, get_item (univ_of m) p = Some x -> get_item (univ_of m) q = Some y ->
         (p < q <-> before (fun z => c1 z + c2 z) x y)) /\
      resorted c1 (fun z => c1 z + c2 z) (tl_ f) (fam m r1) /\
      resorted c2 (fun z => c2 z + c1 z) (tl_ g) (fam m r2) /\
      op r1 r2 = Some q /\ f_canonical h q (univ_of m) = Some r.
  Proof.
    intros L1 L2 T1 T2 E. pose proof L1 as (K1 & U1 & W1). pose proof L2 as (K2 & U2 & W2).
    destruct (binop_indexed op h f g o1 o2 r K1 U1 K2 U2 E) as (I1 & I2).
    destruct (merge_loose h o1 o2 K1 K2) as (m & K & Em & S1 & S2 & Om0).
    assert (Om : forall p q x y, get_item (univ_of m) p = Some x -> get_item (univ_of m) q = Some y ->
      (p < q <-> before (fun z => c1 z + c2 z) x y)).
    { intros p q x y X Y. rewrite (Om0 p q x y X Y). apply before_ext. intros z. rewrite T1, T2. reflexivity. }
    pose proof (indexed_known f o1 L1 I1) as N1. pose proof (indexed_known g o2 L2 I2) as N2.
    unfold f_binop, translate_roots in E. rewrite U1, U2, Em in E.
    destruct (translate_total o1 m K S1 (f_root f) 0 W1 N1) as (r1 & E1 & X1 & B1).
    destruct (translate_total o2 m K S2 (f_root g) 0 W2 N2) as (r2 & E2 & X2 & B2).
    rewrite E1, E2 in E. cbn [bind] in E. destruct (op r1 r2) as [q|] eqn:Eq; [|discriminate E]. cbn [bind] in E.
    exists m, r1, r2, q. split; [exact K|]. split; [exact X1|]. split; [exact X2|].
    split; [|split; [|split; [exact Om|split; [|split; [|split; [exact Eq|exact E]]]]]].
    - intros s Hs i Hi. destruct (B1 i (paths_labels _ _ _ Hs Hi)) as (p & P & ->). apply tr_known; auto.
    - intros s Hs i Hi. destruct (B2 i (paths_labels _ _ _ Hs Hi)) as (p & P & ->). apply tr_known; auto.
    - rewrite <- (loose_dfam f o1 L1). change (fam m r1) with (dfam m r1).
      refine (translate_resorted o1 m K1 K S1 _ _ _ Om (f_root f) 0 r1 W1 N1 E1).
      intros p q' x y X Y. rewrite (told_order o1 K1 p q' x y X Y). apply before_ext. intros z. rewrite T1. reflexivity.
    - rewrite <- (loose_dfam g o2 L2). change (fam m r2) with (dfam m r2).
      refine (translate_resorted o2 m K2 K S2 _ _ _ _ (f_root g) 0 r2 W2 N2 E2).
      + intros p q' x y X Y. rewrite (told_order o2 K2 p q' x y X Y). apply before_ext. intros z. rewrite T2. reflexivity.
      + intros p q' x y X Y. rewrite (Om p q' x y X Y). apply before_ext. intros z. lia.
  Qed.

  Lemma same_in (es es' : list (list T)) : (forall t, In t es <-> In t es') -> forall t, In t es' <-> In t es.
  Proof. intros A t. symmetry. apply A. Qed.
  Lemma canonical_loose h q m r : map_ok m -> zwf 0 q -> f_canonical h q (univ_of m) = Some r ->
    Reach r /\ forall s, In s (tl_ r) <-> s <> [] /\ exists p, In p (paths q) /\ s = get_items (univ_of m) p.
  Proof.
    intros K W E. destruct (canonical_any h q m K W) as (r' & E' & R & X). rewrite E in E'.
    assert (r' = r) by congruence. subst r'. auto.
  Qed.
  Lemma agree_after_ext c k (g g' t : list T) : agree_after c k g t -> same_elems g' g -> agree_after c k g' t.
  Proof. intros A B x X. rewrite (B x). apply A, X. Qed.
  Lemma same_rest_ext c k (ts ts' us us' : list (list T)) a b :
    (forall t, In t ts <-> In t ts') -> (forall t, In t us <-> In t us') ->
    (same_rest c k ts a us b <-> same_rest c k ts' a us' b).
  Proof.
    intros A B. unfold same_rest. split; intros [X Y]; (split; intros g G Q; [destruct (X g) as (g' & G' & R)|destruct (Y g) as (g' & G' & R)]);
      try (apply A; exact G); try (apply B; exact G); try exact Q; exists g'; (split; [first [apply A; exact G'|apply B; exact G']|exact R]).
  Qed.
End LoadOps.

(** C98.  Union of two forests that were made by the API or loaded from any data: if it returns at all
    (C95 says when), the result is a forest the API can make, and it holds the union of what is left
    of each side after re-ordering its items by the added counts, the empty set left out; the counts
    are those that [occurrences] reports, whether or not they are those of the trees. *)
Lemma C98_union_pf : forall (T : Type) (O : Ord T) (h h1 h2 : hash_order) (f g r : forest T) tf tg,
  obtainable f -> obtainable g -> f_trees f = Some tf -> f_trees g = Some tg -> f_union h f g = Some r ->
  let c1 := reported (f_occurrences h1 f) in let c2 := reported (f_occurrences h2 g) in
  Reach r /\ exists tr, f_trees r = Some tr /\
  (exists ef eg, resorted c1 (fun z => c1 z + c2 z) tf ef /\ resorted c2 (fun z => c2 z + c1 z) tg eg) /\
  forall ef eg, resorted c1 (fun z => c1 z + c2 z) tf ef -> resorted c2 (fun z => c2 z + c1 z) tg eg ->
    forall t, In t tr <-> t <> [] /\ (In t ef \/ In t eg).
Proof.
  intros T O h h1 h2 f g r tf tg Hf Hg Ef Eg E c1 c2.
  rewrite f_trees_tl in Ef, Eg. assert (tf = tl_ f) by congruence. assert (tg = tl_ g) by congruence. subst tf tg. clear Ef Eg.
  destruct (obtainable_loose f Hf) as (o1 & L1). destruct (obtainable_loose g Hg) as (o2 & L2).
  destruct (roots_loose h f g o1 o2 union r c1 c2 L1 L2 (fun x => occurrences_told h1 f o1 x L1) (fun x => occurrences_told h2 g o2 x L2) E)
    as (m & r1 & r2 & q & K & W1 & W2 & N1 & N2 & Om & R1 & R2 & Eq & Ec).
  destruct (union_spec r1 r2 0 W1 W2) as (q' & Eq' & Wq & Pq). rewrite Eq in Eq'. assert (q' = q) by congruence. subst q'.
  destruct (canonical_loose h q m r K Wq Ec) as (Rr & Tr). split; [exact Rr|].
  exists (tl_ r). split; [apply f_trees_tl|]. split; [eauto|].
  intros ef eg D1 D2 t. rewrite Tr.
  rewrite (resorted_fun _ _ _ _ D1 _ _ (fun t => iff_refl _) R1 t), (resorted_fun _ _ _ _ D2 _ _ (fun t => iff_refl _) R2 t), !fam_in.
  split; intros (Ne & X); (split; [exact Ne|]).
  - destruct X as (p & P & ->). apply Pq in P. destruct P; [left|right]; eauto.
  - destruct X as [(p & P & ->)|(p & P & ->)]; exists p; (split; [apply Pq; auto|reflexivity]).
Qed.

(** Intersect: what [met] says of the re-ordered sides. *)
Lemma C98_intersect_pf : forall (T : Type) (O : Ord T) (h h1 h2 : hash_order) (f g r : forest T) tf tg,
  obtainable f -> obtainable g -> f_trees f = Some tf -> f_trees g = Some tg -> f_intersect h f g = Some r ->
  let c1 := reported (f_occurrences h1 f) in let c2 := reported (f_occurrences h2 g) in
  Reach r /\ exists tr, f_trees r = Some tr /\
  (exists ef eg, resorted c1 (fun z => c1 z + c2 z) tf ef /\ resorted c2 (fun z => c2 z + c1 z) tg eg) /\
  forall ef eg, resorted c1 (fun z => c1 z + c2 z) tf ef -> resorted c2 (fun z => c2 z + c1 z) tg eg ->
    forall t, In t tr <-> t <> [] /\ met (fun z => c1 z + c2 z) ef eg t.
Proof.
  intros T O h h1 h2 f g r tf tg Hf Hg Ef Eg E c1 c2.
  rewrite f_trees_tl in Ef, Eg. assert (tf = tl_ f) by congruence. assert (tg = tl_ g) by congruence. subst tf tg. clear Ef Eg.
  destruct (obtainable_loose f Hf) as (o1 & L1). destruct (obtainable_loose g Hg) as (o2 & L2).
  destruct (roots_loose h f g o1 o2 intersect r c1 c2 L1 L2 (fun x => occurrences_told h1 f o1 x L1) (fun x => occurrences_told h2 g o2 x L2) E)
    as (m & r1 & r2 & q & K & W1 & W2 & N1 & N2 & Om & R1 & R2 & Eq & Ec).
  destruct (intersect_exact r1 r2 0 W1 W2) as (q' & Eq' & Wq & Pq). rewrite Eq in Eq'. assert (q' = q) by congruence. subst q'.
  destruct (canonical_loose h q m r K Wq Ec) as (Rr & Tr). split; [exact Rr|].
  exists (tl_ r). split; [apply f_trees_tl|]. split; [eauto|].
  intros ef eg D1 D2 t. rewrite Tr, (int_exact_items m _ K Om r1 r2 q W1 W2 Wq N1 N2 Pq).
  rewrite (met_ext _ ef (fam m r1) eg (fam m r2) t
    (resorted_fun _ _ _ _ D1 _ _ (fun t => iff_refl _) R1) (resorted_fun _ _ _ _ D2 _ _ (fun t => iff_refl _) R2)). reflexivity.
Qed.

(** Product: the unions of pairs that [same_rest] leaves. *)
Lemma C98_product_pf : forall (T : Type) (O : Ord T) (h h1 h2 : hash_order) (f g r : forest T) tf tg,
  obtainable f -> obtainable g -> f_trees f = Some tf -> f_trees g = Some tg -> f_product h f g = Some r ->
  let c1 := reported (f_occurrences h1 f) in let c2 := reported (f_occurrences h2 g) in
  let o := fun z => c1 z + c2 z in
  Reach r /\ exists tr, f_trees r = Some tr /\
  (exists ef eg, resorted c1 (fun z => c1 z + c2 z) tf ef /\ resorted c2 (fun z => c2 z + c1 z) tg eg) /\
  forall ef eg, resorted c1 (fun z => c1 z + c2 z) tf ef -> resorted c2 (fun z => c2 z + c1 z) tg eg ->
    forall t, In t tr <-> t <> [] /\ ssorted t /\ exists a b, In a ef /\ In b eg /\ is_union t a b /\
      forall k, same_rest o k ef a eg b -> agree_after o k a b.
Proof.
  intros T O h h1 h2 f g r tf tg Hf Hg Ef Eg E c1 c2 o.
  rewrite f_trees_tl in Ef, Eg. assert (tf = tl_ f) by congruence. assert (tg = tl_ g) by congruence. subst tf tg. clear Ef Eg.
  destruct (obtainable_loose f Hf) as (o1 & L1). destruct (obtainable_loose g Hg) as (o2 & L2).
  destruct (roots_loose h f g o1 o2 product r c1 c2 L1 L2 (fun x => occurrences_told h1 f o1 x L1) (fun x => occurrences_told h2 g o2 x L2) E)
    as (m & r1 & r2 & q & K & W1 & W2 & N1 & N2 & Om & R1 & R2 & Eq & Ec).
  destruct (product_exact r1 r2 0 W1 W2) as (q' & Eq' & Wq & Pq). rewrite Eq in Eq'. assert (q' = q) by congruence. subst q'.
  assert (Nq : knownt m q).
  { intros p Hp. pose proof (zwf_paths _ _ _ Wq Hp) as As. apply (Pq p As) in Hp.
    destruct Hp as (a & b & A & B & J & _). intros x X. apply J in X. destruct X as [X|X]; [apply (N1 a A)|apply (N2 b B)]; exact X. }
  destruct (canonical_loose h q m r K Wq Ec) as (Rr & Tr). split; [exact Rr|].
  exists (tl_ r). split; [apply f_trees_tl|]. split; [eauto|].
  intros ef eg D1 D2.
  pose proof (resorted_fun _ _ _ _ D1 _ _ (fun t => iff_refl _) R1) as A1.
  pose proof (resorted_fun _ _ _ _ D2 _ _ (fun t => iff_refl _) R2) as A2.
  pose proof (prod_exact_items m o K Om r1 r2 q W1 W2 Wq N1 N2 Nq Pq) as PI.
  assert (Sq : forall p, In p (paths q) -> ssorted (get_items (univ_of m) p)).
  { intros p P. apply items_ssorted; auto. eapply zwf_paths; eauto. }
  assert (Q : forall t, (exists a b, In a (fam m r1) /\ In b (fam m r2) /\ is_union t a b /\
        (forall c, same_rest o c (fam m r1) a (fam m r2) b -> agree_after o c a b)) <->
      exists a b, In a ef /\ In b eg /\ is_union t a b /\ forall k, same_rest o k ef a eg b -> agree_after o k a b).
  { intros t. split; intros (a & b & A & B & U & X); exists a, b; (split; [apply A1; exact A|split; [apply A2; exact B|split; [exact U|]]]);
      intros k Y; apply X; apply (same_rest_ext o k ef (fam m r1) eg (fam m r2) a b A1 A2); exact Y. }
  intros t. rewrite Tr. split.
  - intros (Ne & p & P & Z). split; [exact Ne|]. split; [rewrite Z; apply Sq; exact P|]. apply Q, PI. exists p.
    split; [exact P|]. rewrite Z. intros x. reflexivity.
  - intros (Ne & St & X). split; [exact Ne|]. apply Q, PI in X. destruct X as (p & P & X). exists p. split; [exact P|].
    apply ssorted_ext; [exact St|apply Sq; exact P|]. intros x. symmetry. apply X.
Qed.

Section LoadFilters.
  Context {T : Type} `{OT : Ord T}.
  Implicit Types f : forest T.
  Lemma entry_priority h f occ e : loose f occ -> (In e (map fst (f_occurrences h f)) <-> get_priority (f_univ f) e <> None).
  Proof.
    intros (K & U & _).
    assert (P : Permutation (map fst (f_occurrences h f)) (map fst occ)).
    { apply Permutation_map. unfold f_occurrences. rewrite sort_by_perm. rewrite U. cbn [u_occ univ_of]. apply ho_perm. }
    rewrite U. split.
    - intros X. apply (Permutation_in _ P) in X. destruct (get_priority (univ_of occ) e) as [p|] eqn:E; [discriminate|].
      destruct (get_priority_known occ e K X) as (p & Q). congruence.
    - intros X. apply (Permutation_in _ (Permutation_sym P)). destruct (get_priority (univ_of occ) e) as [p|] eqn:E; [|congruence].
      apply get_priority_in in E; auto. apply E.
  Qed.
  Lemma reach_no_empty f : Reach f -> ~ In [] (tl_ f).
  Proof. intros R. apply Reach_Canon in R. destruct R as (o & C). apply (canon_tl _ _ C). Qed.

  Lemma none_fold_loose f occ c : loose f occ -> known_labels occ (f_root f) -> (forall x, c x = told occ x) ->
    forall es acc, zwf 0 acc -> knownt occ acc -> (forall e, In e es -> get_priority (f_univ f) e <> None) ->
    exists r, foldM (fun a e => let! s := node_subset_not (f_root f) e in intersect a s) (get_priorities (f_univ f) es) acc = Some r /\
      zwf 0 r /\ knownt occ r /\ met_all c (tl_ f) (fam occ acc) es (fam occ r).
  Proof.
    intros (Hm & U & W) Kl Tc.
    assert (O1 : forall p q x y, get_item (univ_of occ) p = Some x -> get_item (univ_of occ) q = Some y -> (p < q <-> before c x y)).
    { intros p q x y X Y. rewrite (told_order occ Hm p q x y X Y). apply before_ext. intros z. rewrite Tc. reflexivity. }
    induction es as [|e es IH]; intros acc Wa Ka Hk.
    - exists acc. cbn. repeat split; auto.
    - destruct (get_priority (f_univ f) e) as [p|] eqn:E; [|exfalso; apply (Hk e); [left; reflexivity|exact E]].
      unfold get_priorities. cbn [filter_map]. rewrite E. cbn [foldM].
      destruct (node_subset_not_spec (f_root f) p 0 W) as (s & Es & Ws & Ps).
      rewrite Es. cbn [bind]. destruct (intersect_exact acc s 0 Wa Ws) as (a' & Ea & Wa' & Pa). rewrite Ea. cbn [bind].
      assert (Ks : knownt occ s) by (intros q Q x X; apply Ps in Q; apply Kl; eapply paths_labels; [apply Q|exact X]).
      assert (Ka' : knownt occ a').
      { intros q Q. apply Pa in Q. destruct Q as [(X & _)|[(X & _)|(X & _)]]; [apply Ka|apply Ka|apply Ks]; exact X. }
      destruct (IH a' Wa' Ka') as (r & Er & Wr & Kr & M); [intros; apply Hk; right; assumption|].
      exists r. split; [exact Er|]. split; [exact Wr|]. split; [exact Kr|].
      cbn [met_all]. exists (fam occ a'). split; [|exact M].
      intros t. rewrite fam_in, (int_exact_items occ c Hm O1 acc s a' Wa Ws Wa' Ka Ks Pa t).
      apply met_ext; [reflexivity|]. intros z. rewrite without_in, fam_in. unfold tl_. rewrite U in *.
      rewrite in_map_iff. setoid_rewrite Ps. split.
      + intros (q & (Q & N) & ->). split; [eauto|]. rewrite (item_path occ e p q); auto.
      + intros ((q & <- & Q) & N). exists q. split; [|reflexivity]. split; [exact Q|]. rewrite <- (item_path occ e p q); auto.
  Qed.
End LoadFilters.

(** The filters on such a forest.  What counts is which items have an entry in [occurrences]: with
    entries for all given items the forest is filtered, the empty set dropped and the result one the API
    can make; without, [subset] and [subset_all] give the empty forest, [subset_not] and [subset_none]
    the forest itself. *)
Lemma C98_filters_pf : forall (T : Type) (O : Ord T) (h h1 : hash_order) (f : forest T) (e : T) (es : list T) ts,
  obtainable f -> f_trees f = Some ts ->
  let entry x := In x (map fst (f_occurrences h1 f)) in
  (exists r rs, f_subset h f e = Some r /\ Reach r /\ f_trees r = Some rs /\
     forall t, In t rs <-> In t ts /\ In e t) /\
  (exists r rs, f_subset_not h f e = Some r /\ f_trees r = Some rs /\
     (entry e -> Reach r /\ forall t, In t rs <-> t <> [] /\ In t ts /\ ~ In e t) /\ (~ entry e -> r = f)) /\
  (exists r rs, f_subset_all h f es = Some r /\ f_trees r = Some rs /\
     (es = [] -> r = f) /\ (es <> [] -> Reach r /\ forall t, In t rs <-> In t ts /\ forall x, In x es -> In x t)) /\
  (exists r, f_subset_none h f es = Some r /\ (es = [] \/ (exists x, In x es /\ ~ entry x) -> r = f)).
Proof.
  intros T O h h1 f e es ts Hf Ht entry.
  rewrite f_trees_tl in Ht. assert (ts = tl_ f) by congruence. subst ts. clear Ht.
  destruct (obtainable_loose f Hf) as (occ & L). pose proof L as (K & U & W).
  assert (En : forall x, entry x <-> get_priority (f_univ f) x <> None) by (intros x; exact (entry_priority h1 f occ x L)).
  split; [|split; [|split]].
  - unfold f_subset. destruct (get_priority (f_univ f) e) as [p|] eqn:E.
    + destruct (node_subset_any (f_root f) p 0 W) as (r & Er & Wr & Pr). rewrite Er. cbn [bind].
      destruct (filter_any h f occ r (fun s => In p s) (fun t => In e t) K U Wr Pr) as (q & Eq & Rq & Q).
      { intros s _. rewrite U in E. symmetry. apply item_path; auto. }
      exists q, (tl_ q). split; [exact Eq|]. split; [exact Rq|]. split; [apply f_trees_tl|]. intros [|x t].
      * split; [intros X; destruct (reach_no_empty q Rq X)|intros (_ & [])].
      * apply Q. discriminate.
    + exists f_empty, []. split; [reflexivity|]. split; [constructor|]. split; [reflexivity|]. intros t. split; [intros []|].
      intros (I1 & I2). exact (unlisted f occ e K U E t I1 I2).
  - unfold f_subset_not. destruct (get_priority (f_univ f) e) as [p|] eqn:E.
    + destruct (node_subset_not_spec (f_root f) p 0 W) as (r & Er & Wr & Pr). rewrite Er. cbn [bind].
      destruct (filter_any h f occ r (fun s => ~ In p s) (fun t => ~ In e t) K U Wr (fun s _ => Pr s)) as (q & Eq & Rq & Q).
      { intros s _. rewrite U in E. rewrite (item_path occ e p s); auto. reflexivity. }
      exists q, (tl_ q). split; [exact Eq|]. split; [apply f_trees_tl|]. split.
      * intros _. split; [exact Rq|]. intros t. split.
        -- intros X. assert (N : t <> []) by (intros ->; exact (reach_no_empty q Rq X)). split; [exact N|]. apply Q; assumption.
        -- intros (N & X). apply Q; assumption.
      * intros X. exfalso. apply X, En. congruence.
    + exists f, (tl_ f). split; [reflexivity|]. split; [apply f_trees_tl|]. split; [|reflexivity].
      intros X. exfalso. apply En in X. congruence.
  - unfold f_subset_all, f_subset_many. destruct es as [|e0 es0].
    { exists f, (tl_ f). split; [reflexivity|]. split; [apply f_trees_tl|]. split; [reflexivity|]. congruence. }
    set (l := e0 :: es0). assert (Hl : l <> []) by (unfold l; congruence).
    destruct (Nat.eqb_spec (length l) (length (get_priorities (f_univ f) l))) as [El|El]; cbn [negb].
    + rewrite priorities_length_any in El.
      assert (Hne : get_priorities (f_univ f) l <> []).
      { intros E. unfold l, get_priorities in E. cbn in E.
        destruct (get_priority (f_univ f) e0) eqn:E0; [discriminate|]. apply (El e0); auto. left; auto. }
      destruct (node_subset_all_any (f_root f) 0 _ W Hne) as (r & Er & Wr & Pr). rewrite Er. cbn [bind].
      destruct (filter_any h f occ r _ (fun t => forall x, In x l -> In x t) K U Wr Pr) as (q & Eq & Rq & Q).
      { intros s _. rewrite U in *. split.
        - intros Hp x Hx. destruct (get_priority (univ_of occ) x) as [p|] eqn:E; [|exfalso; eapply El; eauto].
          apply (item_path occ x p s); auto. apply Hp. apply filter_map_in; eauto.
        - intros He p Hp. apply filter_map_in in Hp. destruct Hp as (x & Hin & E). apply (item_path occ x p s); auto. }
      exists q, (tl_ q). split; [exact Eq|]. split; [apply f_trees_tl|]. split; [congruence|]. intros _. split; [exact Rq|].
      intros [|x t].
      * split; [intros X; destruct (reach_no_empty q Rq X)|]. intros (_ & X). destruct (X e0 (or_introl eq_refl)).
      * apply Q. discriminate.
    + exists f_empty, []. split; [reflexivity|]. split; [reflexivity|]. split; [congruence|]. intros _. split; [constructor|].
      intros t. split; [intros []|].
      intros (I1 & I2). apply El. apply priorities_length_any. intros x Hx E. exact (unlisted f occ x K U E t I1 (I2 x Hx)).
  - unfold f_subset_none, f_subset_many. destruct es as [|e0 es0]; [exists f; auto|].
    set (l := e0 :: es0).
    destruct (Nat.eqb_spec (length l) (length (get_priorities (f_univ f) l))) as [El|El]; cbn [negb].
    + assert (Hne : get_priorities (f_univ f) l <> []) by (intros E; rewrite E in El; discriminate El).
      destruct (node_subset_none_sub (f_root f) 0 _ W Hne) as (r & Er & Wr & _). rewrite Er. cbn [bind].
      rewrite U. destruct (canonical_any h r occ K Wr) as (q & Eq & _). exists q. split; [exact Eq|].
      rewrite priorities_length_any in El. intros [X|(x & X & Y)]; [discriminate X|]. exfalso. apply Y, En, El, X.
    + exists f. auto.
Qed.

(** [subset_none] when every given item has an entry (and no label is dropped in the listing): the
    family of the empty set, met with the trees without the first item, then with those without the
    second, and so on; the empty set is left out of the result. *)
Lemma C98_subset_none_pf : forall (T : Type) (O : Ord T) (h h1 : hash_order) (f r : forest T) (e : T) (es : list T) ts fs,
  obtainable f -> indexed f -> f_trees f = Some ts ->
  (forall x, In x (e :: es) -> In x (map fst (f_occurrences h1 f))) ->
  met_all (reported (f_occurrences h1 f)) ts [[]] (e :: es) fs ->
  f_subset_none h f (e :: es) = Some r ->
  Reach r /\ exists rs, f_trees r = Some rs /\ forall t, In t rs <-> t <> [] /\ In t fs.
Proof.
  intros T O h h1 f r e es ts fs Hf I0 Ht En M E.
  rewrite f_trees_tl in Ht. assert (ts = tl_ f) by congruence. subst ts. clear Ht.
  destruct (obtainable_loose f Hf) as (occ & L). pose proof L as (K & U & W).
  assert (En' : forall x, In x (e :: es) -> get_priority (f_univ f) x <> None).
  { intros x X. exact (proj1 (entry_priority h1 f occ x L) (En x X)). }
  unfold f_subset_none, f_subset_many in E.
  rewrite (proj2 (Nat.eqb_eq _ _) (proj2 (priorities_length_any f (e :: es)) En')) in E. cbn [negb] in E.
  unfold node_subset_none in E.
  destruct (none_fold_loose f occ (reported (f_occurrences h1 f)) L (indexed_known f occ L I0)
     (fun x => occurrences_told h1 f occ x L) (e :: es) Always I) as (q & Eq & Wq & Kq & Mq).
  { intros p [<-|[]] i []. }
  { exact En'. }
  rewrite Eq in E. cbn [bind] in E. rewrite U in E.
  destruct (canonical_loose h q occ r K Wq E) as (Rr & Tr). split; [exact Rr|]. exists (tl_ r). split; [apply f_trees_tl|].
  assert (Same : forall t, In t fs <-> In t (fam occ q)).
  { clear -M Mq. change (fam occ Always) with [@nil T] in Mq. revert M Mq.
    generalize (reported (f_occurrences h1 f)) (tl_ f) ([@nil T] : list (list T)) (e :: es) (fam occ q). intros c ts.
    assert (G : forall es a a' tr tr', (forall t, In t a <-> In t a') -> met_all c ts a es tr -> met_all c ts a' es tr' -> forall t, In t tr <-> In t tr').
    { induction es0 as [|x es0 IH]; intros a a' tr tr' A; cbn [met_all].
      - intros M M' t. rewrite (M t), (M' t). apply A.
      - intros (g & G1 & M) (g' & G2 & M'). apply (IH g g' tr tr'); [|exact M|exact M'].
        intros t. rewrite (G1 t), (G2 t). apply met_ext; [exact A|reflexivity]. }
    intros a es0 tr M M'. exact (G es0 a a fs tr (fun t => iff_refl _) M M'). }
  intros t. rewrite Tr, Same, fam_in. reflexivity.
Qed.

Section Kept.
  Context {T : Type} `{OT : Ord T}.
  Lemma filter_ssorted (p : T -> bool) t : ssorted t -> ssorted (filter p t).
  Proof.
    intros H. induction H as [|x l S IH F]; cbn [filter]; [constructor|].
    destruct (p x); [|exact IH]. constructor; [exact IH|]. rewrite Forall_forall in *. intros y Y. apply filter_In in Y. apply F, Y.
  Qed.
  Lemma resorted_kept (c c' : T -> nat) fs es : resorted c c' fs es -> (forall t, In t fs -> ssorted t) ->
    (forall t x y, In t fs -> In x t -> In y t -> before c x y -> before c' x y) -> forall t, In t es <-> In t fs.
  Proof.
    induction 1 as [fs es N E|x fs l h es L R1 IH1 R2 IH2 P]; intros Ss Kp; [exact E|].
    assert (Q1 : forall t, In t l <-> In t (without x fs)).
    { apply IH1; intros t; intros; [apply Ss|apply (Kp t); auto]; apply without_in in H; apply H. }
    assert (Q2 : forall t, In t h <-> In t (link x fs)).
    { apply IH2.
      - intros t H. apply link_in in H. destruct H as (u & A & _ & ->). apply filter_ssorted, Ss, A.
      - intros t a b H A B. apply link_in in H. destruct H as (u & U & _ & ->). apply filter_In in A, B. apply (Kp u); tauto. }
    assert (F : forall t z, In t h -> In z t -> before c' x z).
    { intros t z H Z. apply Q2, link_in in H. destruct H as (u & U & X & ->). apply filter_In in Z. destruct Z as (Z & Ne).
      apply (Kp u); auto. destruct (proj2 L u z U Z) as [->|B]; [|exact B]. rewrite eqb_refl_ in Ne. discriminate Ne. }
    assert (Irr : forall y, before c' x y -> before c' y x -> False).
    { intros y [A|(A & A')] [B|(B & B')]; try lia. exact (lt_irrefl_ _ (lt_trans_ _ _ _ A' B')). }
    assert (Main : forall t, In t es <-> In t l \/ exists s, In s h /\ with_item x s t).
    { inversion P as [? ? ? N E|? ? ? _ _ E|y ? ? ? e0 e1 By L1 ((u & U & Y) & _)|y ? ? ? e1 By L1 ((u & U & Y) & _)]; subst.
      - exfalso. destruct (proj1 L) as (t & A & B). apply (N (filter (fun z => negb (eqb_ z x)) t)), Q2, link_in. eauto.
      - exact E.
      - exfalso. exact (Irr y (F u y U Y) By).
      - exfalso. exact (Irr y (F u y U Y) By). }
    intros t. rewrite Main, Q1, without_in. split.
    - intros [A|(s & A & St & Se)]; [apply A|]. apply Q2, link_in in A. destruct A as (u & U & X & ->).
      assert (t = u) as ->; [|exact U]. apply ssorted_ext; [exact St|apply Ss, U|]. intros z. rewrite (Se z). cbn [In]. rewrite filter_In.
      destruct (eqb_ z x) eqn:E; cbn.
      + apply eqb_true_ in E. subst z. tauto.
      + apply eqb_false_ in E. intuition congruence.
    - intros A. destruct (memb x t) eqn:M; [right|left].
      + apply memb_spec in M. exists (filter (fun z => negb (eqb_ z x)) t). split; [apply Q2, link_in; eauto|].
        split; [apply Ss, A|]. intros z. cbn [In]. rewrite filter_In. destruct (eqb_ z x) eqn:E; cbn.
        * apply eqb_true_ in E. subst z. tauto.
        * apply eqb_false_ in E. intuition congruence.
      + split; [exact A|]. intros X. apply memb_spec in X. congruence.
  Qed.
  Lemma loose_ssorted (f : forest T) occ t : loose f occ -> In t (tl_ f) -> ssorted t.
  Proof.
    intros (K & U & W) X. unfold tl_ in X. rewrite U in X. apply in_map_iff in X. destruct X as (p & <- & P).
    apply items_ssorted; auto. eapply zwf_paths; eauto.
  Qed.
End Kept.

(** When do all trees survive the re-ordering?  In particular if any two items of one tree keep their
    order under the added counts.  Then union is the plain union (empty set left out). *)
Lemma C98_kept_pf : forall (T : Type) (O : Ord T) (h h1 h2 : hash_order) (f g r : forest T) tf tg,
  obtainable f -> obtainable g -> f_trees f = Some tf -> f_trees g = Some tg -> f_union h f g = Some r ->
  let c1 := reported (f_occurrences h1 f) in let c2 := reported (f_occurrences h2 g) in
  let o := fun z => c1 z + c2 z in
  (forall t x y, In t tf -> In x t -> In y t -> before c1 x y -> before o x y) ->
  (forall t x y, In t tg -> In x t -> In y t -> before c2 x y -> before o x y) ->
  exists tr, f_trees r = Some tr /\ forall t, In t tr <-> t <> [] /\ (In t tf \/ In t tg).
Proof.
  intros T O h h1 h2 f g r tf tg Hf Hg Ef Eg E c1 c2 o K1 K2.
  destruct (C98_union_pf T O h h1 h2 f g r tf tg Hf Hg Ef Eg E) as (_ & tr & Et & (ef & eg & D1 & D2) & X). fold c1 c2 in D1, D2, X.
  exists tr. split; [exact Et|]. intros t. rewrite (X ef eg D1 D2 t).
  rewrite f_trees_tl in Ef, Eg. assert (tf = tl_ f) by congruence. assert (tg = tl_ g) by congruence. subst tf tg.
  destruct (obtainable_loose f Hf) as (o1 & L1). destruct (obtainable_loose g Hg) as (o2 & L2).
  rewrite (resorted_kept _ _ _ _ D1 (fun t => loose_ssorted f o1 t L1) K1 t).
  rewrite (resorted_kept _ _ _ _ D2 (fun t => loose_ssorted g o2 t L2)); [reflexivity|].
  intros s x y S X' Y B. apply (before_ext o); [intros z; unfold o; lia|]. eapply K2; eauto.
Qed.

(** " (1 (A) (A))x" with the entries 7:1, 8:1 loads as {{8},{}}, which is not a forest of the API, and
    whose count for 7 is not that of the trees; its operations with {{7},{9}} and with {{8},{9}}. *)
Example C98_example :
  let data := ([32;40;49;32;40;65;41;32;40;65;41;41;120]%N, [(7, 1); (8, 1)]) in
  exists f g k u p i, f_deserialize ho_id data = Some f /\ f_many ho_rev [[7];[9]] = Some g /\ f_many ho_id [[8];[9]] = Some k /\
    obtainable f /\ obtainable g /\ obtainable k /\ f_trees f = Some [[8]; []] /\ f_occurrences ho_id f = [(7, 1); (8, 1)] /\
    f_union ho_id f g = Some u /\ f_trees u = Some [[7]; [8]; [9]] /\
    f_product ho_id f g = Some p /\ f_trees p = Some [[7; 8]; [7]; [8; 9]; [9]] /\
    f_intersect ho_id f k = Some i /\ f_trees i = Some [[8]; [9]] /\
    (forall t x y, In t [[8]; []] -> In x t -> In y t -> before (reported (f_occurrences ho_id f)) x y ->
       before (fun z => reported (f_occurrences ho_id f) z + reported (f_occurrences ho_id g) z) x y).
Proof.
  cbv zeta.
  assert (E : f_deserialize ho_id ([32;40;49;32;40;65;41;32;40;65;41;41;120]%N, [(7, 1); (8, 1)])
     = Some (mkF (Branch 1 (Leaf true) (Leaf true)) (univ_of [(7, 1); (8, 1)]))) by reflexivity.
  do 6 eexists. split; [exact E|]. split; [reflexivity|]. split; [reflexivity|].
  split; [right; eexists; eexists; exact E|].
  split; [left; apply (R_many ho_rev [[7];[9]]); reflexivity|]. split; [left; apply (R_many ho_id [[8];[9]]); reflexivity|].
  repeat (split; [reflexivity|]).
  intros t x y [<-|[<-|[]]] X Y B; [|destruct X].
  destruct X as [<-|[]]. destruct Y as [<-|[]]. destruct B as [B|(_ & B)]; [lia|discriminate B].
Qed.
(** filters: 7 has an entry though no tree holds it, 9 has none; and [subset_none] of 7 and of 8 *)
Example C98_filters_example :
  let data := ([32;40;49;32;40;65;41;32;40;65;41;41;120]%N, [(7, 1); (8, 1)]) in
  exists f a b, f_deserialize ho_id data = Some f /\ f_subset_not ho_id f 7 = Some a /\ f_trees a = Some [[8]] /\
    f_subset_not ho_id f 9 = Some f /\ f_trees f = Some [[8]; []] /\ f_subset_none ho_id f [7; 9] = Some f /\
    f_subset_none ho_id f [8] = Some b /\ f_trees b = Some [] /\ indexed f /\ obtainable f /\
    (forall x, In x [8] -> In x (map fst (f_occurrences ho_id f))) /\
    met_all (reported (f_occurrences ho_id f)) [[8]; []] [[]] [8] [[]].
Proof.
  cbv zeta.
  assert (E : f_deserialize ho_id ([32;40;49;32;40;65;41;32;40;65;41;41;120]%N, [(7, 1); (8, 1)])
     = Some (mkF (Branch 1 (Leaf true) (Leaf true)) (univ_of [(7, 1); (8, 1)]))) by reflexivity.
  do 3 eexists. split; [exact E|]. do 7 (split; [reflexivity|]). split; [|split; [|split]].
  - intros p. cbn. intuition lia.
  - right; eexists; eexists; exact E.
  - intros x [<-|[]]. cbn. auto.
  - cbn [met_all]. exists [[]]. split; [|intros t; reflexivity].
    change (without 8 [[8]; []]) with [@nil nat]. intros t. unfold met. cbn [In]. split; [auto|]. intros [([A|[]] & _)|[([A|[]] & _)|([A|[]] & _)]]; auto.
Qed.
