(** Zdd2Forest3: root translation and the binary operations. *)
From Coq Require Import List Arith Lia Bool Permutation Sorted.
From Verif Require Import Base DD Spec Zdd2Model Zdd2Node Zdd2Node2 Zdd2Exact Zdd2Sink Zdd2Univ Zdd2Forest Zdd2Forest2.
From Verif Require Export Zdd2Settle Zdd2Resort.
Import ListNotations.

Section Binary.
  Context {T : Type} `{Ord T}.

  Lemma oplus_counts c d : oplus (opt_of c) (opt_of d) = opt_of (c + d).
  Proof. destruct c, d; simpl; auto; f_equal; lia. Qed.

  (** the merged universe *)
  Lemma merge_spec h f g of_ og : canon f of_ -> canon g og ->
    exists m, map_ok m /\ u_merge h site_merge (f_univ f) (f_univ g) = univ_of m /\
      ((of_ = og /\ m = of_) \/
       (of_ <> og /\ forall x, map_get m x = opt_of (count (tl_ f) x + count (tl_ g) x))) /\
      (forall x, In x (map fst m) <-> In x (map fst of_) \/ In x (map fst og)).
  Proof.
    intros Hf Hg. rewrite (c_univ _ _ Hf), (c_univ _ _ Hg).
    pose proof (c_ok _ _ Hf) as Of. pose proof (c_ok _ _ Hg) as Og.
    destruct (u_merge_spec h site_merge of_ og Of Og) as [[-> E]|(Hne & m & Hm & E & Hget)].
    - exists og. split; auto. split; auto. split; [left; auto|]. tauto.
    - exists m. split; auto. split; auto. split.
      + right. split; auto. intros x. rewrite Hget, (c_cnt _ _ Hf), (c_cnt _ _ Hg). apply oplus_counts.
      + intros x. destruct (in_dec_ x (map fst m)) as [Hi|Hi].
        * split; auto. intros _. destruct (in_dec_ x (map fst of_)) as [|H1]; auto.
          destruct (in_dec_ x (map fst og)) as [|H2]; auto. exfalso.
          apply map_get_none in H1; auto. apply map_get_none in H2; auto.
          assert (X : map_get m x = None) by (rewrite Hget, H1, H2; reflexivity).
          apply map_get_none in X; auto.
        * split; [contradiction|]. intros Hor. exfalso. apply map_get_none in Hi; auto.
          rewrite Hget in Hi. destruct (map_get of_ x) eqn:E1, (map_get og x) eqn:E2; try discriminate.
          apply map_get_none in E1; auto. apply map_get_none in E2; auto. tauto.
  Qed.

  Lemma merge_comm h h' f g of_ og : canon f of_ -> canon g og ->
    u_merge h site_merge (f_univ f) (f_univ g) = u_merge h' site_merge (f_univ g) (f_univ f).
  Proof.
    intros Hf Hg. destruct (merge_spec h f g _ _ Hf Hg) as (m & Hm & -> & C & _).
    destruct (merge_spec h' g f _ _ Hg Hf) as (m' & Hm' & -> & C' & _).
    f_equal. destruct C as [[E ->]|[E C]], C' as [[E' ->]|[E' C']]; try congruence.
    apply amap_ext; auto. intros x. rewrite C, C'. f_equal. lia.
  Qed.

  Lemma canon_known_labels f occ : canon f occ -> known_labels occ (f_root f).
  Proof.
    intros Hc x Hx. destruct (label_in_path _ _ _ (c_wf _ _ Hc) Hx) as (s & Hs & Hin).
    eapply (c_known _ _ Hc); eauto.
  Qed.

  (** condition on [f] when combined with [g] *)
  Definition fsafe (f g : forest T) : Prop :=
    settled (tl_ f) (tl_ g).

  Lemma get_priority_map_get occ x p : map_ok occ -> get_priority (univ_of occ) x = Some p ->
    exists c, map_get occ x = Some c.
  Proof.
    intros Hok Hp. destruct (map_get occ x) eqn:E; eauto. exfalso.
    apply map_get_none in E; auto. apply get_priority_in in Hp; auto. tauto.
  Qed.

  Lemma before_double c x y : before (fun z : T => c z + c z) x y <-> before c x y.
  Proof. unfold before. intuition lia. Qed.

  (** the merged universe orders items by the added counts *)
  Lemma merged_order f g of_ og m : canon f of_ -> canon g og -> map_ok m ->
    ((of_ = og /\ m = of_) \/ (forall x, map_get m x = opt_of (count (tl_ f) x + count (tl_ g) x))) ->
    let o := fun z => count (tl_ f) z + count (tl_ g) z in
    (forall p q x y, get_item (univ_of m) p = Some x -> get_item (univ_of m) q = Some y -> (p < q <-> before o x y)) /\
    (forall x, In x (map fst m) -> 0 < o x) /\ (forall x, ~ In x (map fst m) -> o x = 0).
  Proof.
    intros Hf Hg Hm C o.
    assert (Q : (forall x, map_get m x = opt_of (o x)) \/ (forall x, o x = count (tl_ f) x + count (tl_ f) x /\ map_get m x = opt_of (count (tl_ f) x))).
    { destruct C as [[E ->]|C]; [right|left; exact C]. intros x. pose proof (c_cnt _ _ Hf x) as X.
      pose proof (c_cnt _ _ Hg x) as Y. rewrite <- E in Y. split; [|exact X]. unfold o. f_equal.
      rewrite X in Y. destruct (count (tl_ f) x), (count (tl_ g) x); cbn in Y; congruence. }
    assert (Z : forall x, (In x (map fst m) <-> 0 < o x)).
    { intros x. destruct (in_dec_ x (map fst m)) as [I|N].
      - split; [|auto]. intros _. destruct (map_get m x) as [c|] eqn:E.
        + destruct Q as [Q|Q]; [rewrite Q in E|destruct (Q x) as (Q1 & Q2); rewrite Q2 in E]; apply opt_of_some in E; lia.
        + apply map_get_none in E; auto. contradiction.
      - split; [contradiction|]. intros L. apply map_get_none in N; auto.
        destruct Q as [Q|Q]; [rewrite Q in N|destruct (Q x) as (Q1 & Q2); rewrite Q2 in N].
        + destruct (o x); [lia|discriminate].
        + destruct (count (tl_ f) x); [lia|discriminate]. }
    split; [|split; [intros x; apply Z|]].
    - intros p q x y Ex Ey. apply get_priority_item in Ex, Ey; auto.
      destruct (get_priority_map_get _ _ _ Hm Ex) as (cx & Cx). destruct (get_priority_map_get _ _ _ Hm Ey) as (cy & Cy).
      rewrite (priority_order m x y _ _ cx cy Hm Ex Ey Cx Cy). unfold occ_before, before. cbn [fst snd].
      destruct Q as [Q|Q].
      + rewrite Q in Cx, Cy. apply opt_of_some in Cx, Cy. intuition lia.
      + destruct (Q x) as (Qx & Q2). destruct (Q y) as (Qy & Q4). rewrite Q2 in Cx. rewrite Q4 in Cy. apply opt_of_some in Cx, Cy.
        intuition lia.
    - intros x N. destruct (o x) eqn:E; [reflexivity|]. exfalso. apply N, Z. lia.
  Qed.

  Lemma canon_order f occ : canon f occ ->
    (forall p q x y, get_item (univ_of occ) p = Some x -> get_item (univ_of occ) q = Some y ->
       (p < q <-> before (count (tl_ f)) x y)) /\
    (forall x, In x (map fst occ) -> 0 < count (tl_ f) x) /\ (forall x, ~ In x (map fst occ) -> count (tl_ f) x = 0).
  Proof.
    intros Hf. pose proof (c_ok _ _ Hf) as Hm.
    destruct (merged_order f f occ occ occ Hf Hf Hm) as (A & B & C); [left; auto|]. split; [|split].
    - intros p q x y Ex Ey. rewrite <- before_double. apply (A p q x y Ex Ey).
    - intros x J. specialize (B x J). cbn in B. lia.
    - intros x J. specialize (C x J). cbn in C. lia.
  Qed.

  Lemma canon_dfam f occ : canon f occ -> dfam occ (f_root f) = tl_ f.
  Proof. intros Hc. unfold dfam, tl_. rewrite (c_univ _ _ Hc). reflexivity. Qed.

  (** root translation keeps the trees of [f] exactly if they are [settled] *)
  Lemma translate_settled f g of_ og m r : canon f of_ -> canon g og -> map_ok m ->
    (forall x, In x (map fst of_) -> In x (map fst m)) ->
    ((of_ = og /\ m = of_) \/ (forall x, map_get m x = opt_of (count (tl_ f) x + count (tl_ g) x))) ->
    translate_root (univ_of of_) (univ_of m) (f_root f) = Some r ->
    (fsafe f g <-> forall z, (exists s, In s (paths r) /\ z = get_items (univ_of m) s) <-> In z (tl_ f)).
  Proof.
    intros Hf Hg Hm Hk C E. unfold fsafe, settled. rewrite <- (canon_dfam f of_ Hf) at 2.
    destruct (canon_order f of_ Hf) as (Oo & _). destruct (merged_order f g of_ og m Hf Hg Hm C) as (On & _).
    rewrite (translate_settles of_ m (c_ok _ _ Hf) Hm Hk _ _ Oo On (f_root f) 0 r (c_wf _ _ Hf) (canon_known_labels _ _ Hf) E).
    rewrite (canon_dfam f of_ Hf). split; intros X z; specialize (X z); [rewrite <- dfam_in|rewrite dfam_in]; exact X.
  Qed.

  (** and in any case makes of them what [resorted] says *)
  Lemma translate_resorts f g of_ og m r : canon f of_ -> canon g og -> map_ok m ->
    (forall x, In x (map fst of_) -> In x (map fst m)) ->
    ((of_ = og /\ m = of_) \/ (forall x, map_get m x = opt_of (count (tl_ f) x + count (tl_ g) x))) ->
    translate_root (univ_of of_) (univ_of m) (f_root f) = Some r ->
    resorted (count (tl_ f)) (fun z => count (tl_ f) z + count (tl_ g) z) (tl_ f) (dfam m r).
  Proof.
    intros Hf Hg Hm Hk C E. rewrite <- (canon_dfam f of_ Hf) at 2.
    destruct (canon_order f of_ Hf) as (Oo & _). destruct (merged_order f g of_ og m Hf Hg Hm C) as (On & _).
    exact (translate_resorted of_ m (c_ok _ _ Hf) Hm Hk _ _ Oo On (f_root f) 0 r (c_wf _ _ Hf) (canon_known_labels _ _ Hf) E).
  Qed.

  Lemma order_kept_settled f g of_ og m : canon f of_ -> canon g og -> map_ok m ->
    (forall x, In x (map fst of_) -> In x (map fst m)) ->
    ((of_ = og /\ m = of_) \/ (forall x, map_get m x = opt_of (count (tl_ f) x + count (tl_ g) x))) ->
    order_kept (tl_ f) (tl_ g) -> fsafe f g.
  Proof.
    intros Hf Hg Hm Hk C O. unfold fsafe, settled. rewrite <- (canon_dfam f of_ Hf) at 2.
    destruct (canon_order f of_ Hf) as (Oo & _). destruct (merged_order f g of_ og m Hf Hg Hm C) as (On & _).
    apply (dsettled_settles of_ m (c_ok _ _ Hf) Hm Hk _ _ Oo On (f_root f) 0); [apply (c_wf _ _ Hf)|apply (canon_known_labels _ _ Hf)|reflexivity|].
    apply (dkept_settled of_ m (c_ok _ _ Hf) Hm Hk (f_root f) 0 (c_wf _ _ Hf) (canon_known_labels _ _ Hf)).
    intros s p q S_ P Q L. pose proof (canon_known_labels _ _ Hf) as K.
    destruct (get_item_known of_ p) as (x & Ex); [apply K; eapply paths_labels; eauto|].
    destruct (get_item_known of_ q) as (y & Ey); [apply K; eapply paths_labels; eauto|].
    assert (T1 : forall s', In s' (paths (f_root f)) -> In (get_items (univ_of of_) s') (tl_ f)).
    { intros s' S'. rewrite <- (canon_dfam f of_ Hf). apply dfam_in. eauto. }
    pose proof (item_in_iff of_ (c_ok _ _ Hf) p x) as Ip. pose proof (item_in_iff of_ (c_ok _ _ Hf) q y) as Iq.
    destruct (O (get_items (univ_of of_) s) x y) as [B|B].
    - apply T1, S_.
    - apply Ip; auto.
    - apply Iq; auto.
    - apply (Oo p q x y Ex Ey), L.
    - left. apply (On (tr of_ m p) (tr of_ m q) x y); [apply tr_get_item; auto|apply tr_get_item; auto|exact B];
        apply K; eapply paths_labels; eauto.
    - right. intros s' S'. rewrite <- (Ip s' Ex), <- (Iq s' Ey). apply B, T1, S'.
  Qed.
  Lemma kept_settled f g : Canon f -> Canon g -> order_kept (tl_ f) (tl_ g) -> fsafe f g.
  Proof.
    intros [of_ Hf] [og Hg]. destruct (merge_spec ho_id f g _ _ Hf Hg) as (m & Hm & _ & C & Hk).
    apply (order_kept_settled f g of_ og m Hf Hg Hm); [intros x X; apply Hk; auto|]. destruct C as [?|[_ ?]]; auto.
  Qed.
  Lemma one_order_kept (ts us : list (list T)) : at_most_one ts -> order_kept ts us.
  Proof. intros A t x y J X Y _. right. intros t' J'. rewrite (A t' t J' J). tauto. Qed.
  Lemma stable_order_kept (ts us : list (list T)) : order_stable ts us -> order_kept ts us.
  Proof. intros A t x y J X Y B. left. eapply A; eauto. Qed.

  Lemma roots_spec h f g of_ og : canon f of_ -> canon g og ->
    exists m r1 r2, map_ok m /\ translate_roots h f g = Some (univ_of m, r1, r2) /\
      zwf 0 r1 /\ zwf 0 r2 /\
      (forall p, In p (paths r1) -> known m p) /\ (forall p, In p (paths r2) -> known m p) /\
      (forall q x, In q (labels r1) -> get_item (univ_of m) q = Some x -> exists t, In t (tl_ f) /\ In x t) /\
      (forall q x, In q (labels r2) -> get_item (univ_of m) q = Some x -> exists t, In t (tl_ g) /\ In x t) /\
      (fsafe f g <-> forall z, (exists s, In s (paths r1) /\ z = get_items (univ_of m) s) <-> In z (tl_ f)) /\
      (fsafe g f <-> forall z, (exists s, In s (paths r2) /\ z = get_items (univ_of m) s) <-> In z (tl_ g)).
  Proof.
    intros Hf Hg. destruct (merge_spec h f g _ _ Hf Hg) as (m & Hm & Em & C & Hk).
    assert (Kf : forall x, In x (map fst of_) -> In x (map fst m)) by (intros; apply Hk; auto).
    assert (Kg : forall x, In x (map fst og) -> In x (map fst m)) by (intros; apply Hk; auto).
    destruct (translate_total of_ m Hm Kf (f_root f) 0 (c_wf _ _ Hf) (canon_known_labels _ _ Hf)) as (r1 & E1 & W1 & L1).
    destruct (translate_total og m Hm Kg (f_root g) 0 (c_wf _ _ Hg) (canon_known_labels _ _ Hg)) as (r2 & E2 & W2 & L2).
    assert (N1 : forall p, In p (paths r1) -> known m p).
    { intros s S_ q Q. destruct (L1 q (paths_labels _ _ _ S_ Q)) as (p & P & ->). apply tr_known; auto. apply (canon_known_labels _ _ Hf), P. }
    assert (N2 : forall p, In p (paths r2) -> known m p).
    { intros s S_ q Q. destruct (L2 q (paths_labels _ _ _ S_ Q)) as (p & P & ->). apply tr_known; auto. apply (canon_known_labels _ _ Hg), P. }
    exists m, r1, r2. split; [auto|]. split.
    { unfold translate_roots. rewrite Em, (c_univ _ _ Hf), (c_univ _ _ Hg), E1. cbn [bind]. rewrite E2. reflexivity. }
    assert (HL : forall (f0 : forest T) of0 r, canon f0 of0 -> (forall x, In x (map fst of0) -> In x (map fst m)) ->
      (forall q, In q (labels r) -> exists p, In p (labels (f_root f0)) /\ q = tr of0 m p) ->
      forall q x, In q (labels r) -> get_item (univ_of m) q = Some x -> exists t, In t (tl_ f0) /\ In x t).
    { intros f0 of0 r Hf0 Kf0 L q x Hq Hx. destruct (L q Hq) as (p & Hp & ->).
      destruct (tr_item of0 m Hm Kf0 p (canon_known_labels _ _ Hf0 p Hp)) as (y & Ey & Py).
      apply get_priority_item in Py; auto. assert (x = y) by congruence. subst y.
      destruct (label_in_path _ _ _ (c_wf _ _ Hf0) Hp) as (s & Hs & Hin).
      exists (get_items (univ_of of0) s). split.
      - unfold tl_. rewrite (c_univ _ _ Hf0). apply in_map; auto.
      - apply items_in; eauto. }
    split; [auto|]. split; [auto|]. split; [auto|]. split; [auto|].
    split; [eapply HL; eauto|]. split; [eapply HL; eauto|]. split.
    - apply (translate_settled f g of_ og m r1 Hf Hg Hm Kf); [destruct C as [?|[_ ?]]; auto|exact E1].
    - apply (translate_settled g f og of_ m r2 Hg Hf Hm Kg); [|exact E2].
      destruct C as [[-> ->]|[_ C]]; auto. right. intros x. rewrite C. f_equal. lia.
  Qed.

  (** ** union *)
  Lemma f_union_spec h f g : Canon f -> Canon g ->
    exists r, f_union h f g = Some r /\ Canon r /\
      (fsafe f g -> fsafe g f -> forall s, In s (tl_ r) <-> In s (tl_ f) \/ In s (tl_ g)).
  Proof.
    intros [of_ Hf] [og Hg].
    destruct (roots_spec h f g _ _ Hf Hg) as (m & r1 & r2 & Hm & E & W1 & W2 & N1 & N2 & _ & _ & (S1 & _) & (S2 & _)).
    unfold f_union, f_binop. rewrite E. cbn [bind].
    destruct (union_spec r1 r2 0 W1 W2) as (r & Er & Wr & Pr). rewrite Er. cbn [bind].
    destruct (canonical_spec h r m Hm Wr) as (q & Eq & Cq & Tq).
    { intros p Hp. apply Pr in Hp. destruct Hp; auto. }
    exists q. split; [exact Eq|]. split; [exact Cq|]. intros F1 F2 s. rewrite Tq.
    rewrite <- (S1 F1), <- (S2 F2). split.
    - intros (_ & p & Hp & ->). apply Pr in Hp. destruct Hp; [left|right]; eauto.
    - intros Hs. split.
      + intros ->. destruct Hs as [Hs|Hs]; [apply (S1 F1) in Hs|apply (S2 F2) in Hs].
        * apply (canon_tl _ _ Hf). exact Hs.
        * apply (canon_tl _ _ Hg). exact Hs.
      + destruct Hs as [(p & Hp & ->)|(p & Hp & ->)]; exists p; split; auto; apply Pr; auto.
  Qed.

  (** ** intersect *)
  Lemma f_intersect_spec h f g : Canon f -> Canon g ->
    exists r, f_intersect h f g = Some r /\ Canon r /\
      (fsafe f g -> fsafe g f ->
        (forall s, In s (tl_ f) -> In s (tl_ g) -> In s (tl_ r)) /\
        (forall s, In s (tl_ r) -> (In s (tl_ f) /\ exists p, In p (tl_ g) /\ incl p s) \/
                                   (In s (tl_ g) /\ exists p, In p (tl_ f) /\ incl p s))).
  Proof.
    intros [of_ Hf] [og Hg].
    destruct (roots_spec h f g _ _ Hf Hg) as (m & r1 & r2 & Hm & E & W1 & W2 & N1 & N2 & _ & _ & (S1 & _) & (S2 & _)).
    unfold f_intersect, f_binop. rewrite E. cbn [bind].
    destruct (intersect_spec r1 r2 0 W1 W2) as (r & Er & Wr & Cr & Sr). rewrite Er. cbn [bind].
    destruct (canonical_spec h r m Hm Wr) as (q & Eq & Cq & Tq).
    { intros p Hp. apply Sr in Hp. destruct Hp as [[Hp _]|[Hp _]]; auto. }
    exists q. split; [exact Eq|]. split; [exact Cq|]. intros F1 F2. split.
    - intros s Hs1 Hs2. apply Tq. split.
      + intros ->. apply (canon_tl _ _ Hf). exact Hs1.
      + apply (S1 F1) in Hs1. apply (S2 F2) in Hs2.
        destruct Hs1 as (p1 & H1 & E1). destruct Hs2 as (p2 & H2 & E2).
        assert (p1 = p2).
        { apply (items_inj m Hm); auto; [eapply zwf_paths; [exact W1|auto]|eapply zwf_paths; [exact W2|auto]|congruence]. }
        subst p2. exists p1. split; auto.
    - intros s Hs. apply Tq in Hs. destruct Hs as (_ & p & Hp & ->).
      apply Sr in Hp. destruct Hp as [[Hp (p' & Hp' & Hi)]|[Hp (p' & Hp' & Hi)]].
      + left. split; [apply (S1 F1); eauto|]. exists (get_items (univ_of m) p').
        split; [apply (S2 F2); eauto|]. apply items_incl; auto.
      + right. split; [apply (S2 F2); eauto|]. exists (get_items (univ_of m) p').
        split; [apply (S1 F1); eauto|]. apply items_incl; auto.
  Qed.

  (** ** product *)
  Lemma f_product_spec h f g : Canon f -> Canon g ->
    exists r, f_product h f g = Some r /\ Canon r /\
      (fsafe f g -> fsafe g f ->
        (forall s, In s (tl_ r) -> exists a b, In a (tl_ f) /\ In b (tl_ g) /\ is_union s a b) /\
        (item_disjoint (tl_ f) (tl_ g) \/ at_most_one (tl_ f) \/ at_most_one (tl_ g) ->
          forall a b, In a (tl_ f) -> In b (tl_ g) -> exists s, In s (tl_ r) /\ is_union s a b)).
  Proof.
    intros [of_ Hf] [og Hg].
    destruct (roots_spec h f g _ _ Hf Hg) as (m & r1 & r2 & Hm & E & W1 & W2 & N1 & N2 & L1 & L2 & (S1 & _) & (S2 & _)).
    unfold f_product, f_binop. rewrite E. cbn [bind].
    destruct (product_spec r1 r2 0 W1 W2) as (r & Er & Wr & Sr & Cr). rewrite Er. cbn [bind].
    assert (Jk : forall a b s, In a (paths r1) -> In b (paths r2) -> is_join a b s -> known m s).
    { intros a b s Ha Hb Hj q Hq. apply Hj in Hq. destruct Hq; [eapply N1|eapply N2]; eauto. }
    destruct (canonical_spec h r m Hm Wr) as (q & Eq & Cq & Tq).
    { intros p Hp. apply Sr in Hp. destruct Hp as (a & b & Ha & Hb & Hj). eapply Jk; eauto. }
    assert (JU : forall a b s, is_join a b s ->
       is_union (get_items (univ_of m) s) (get_items (univ_of m) a) (get_items (univ_of m) b)).
    { intros a b s Hj x. rewrite !items_in. split.
      - intros (p & Hp & Ex). apply Hj in Hp. destruct Hp; [left|right]; eauto.
      - intros [(p & Hp & Ex)|(p & Hp & Ex)]; exists p; split; auto; apply Hj; auto. }
    exists q. split; [exact Eq|]. split; [exact Cq|]. intros F1 F2. split.
    - intros s Hs. apply Tq in Hs. destruct Hs as (_ & p & Hp & ->).
      apply Sr in Hp. destruct Hp as (a & b & Ha & Hb & Hj).
      exists (get_items (univ_of m) a), (get_items (univ_of m) b).
      split; [apply (S1 F1); eauto|]. split; [apply (S2 F2); eauto|]. apply JU; auto.
    - intros Hd a b Ha Hb.
      assert (Hne : a <> []) by (intros ->; apply (canon_tl _ _ Hf); exact Ha).
      apply (S1 F1) in Ha. apply (S2 F2) in Hb.
      destruct Ha as (pa & Ha & ->). destruct Hb as (pb & Hb & ->).
      assert (inj : forall rr (ff : forest T), zwf 0 rr -> (forall p, In p (paths rr) -> known m p) ->
        (forall z, (exists s, In s (paths rr) /\ z = get_items (univ_of m) s) <-> In z (tl_ ff)) ->
        at_most_one (tl_ ff) -> forall a b, In a (paths rr) -> In b (paths rr) -> a = b).
      { intros rr ff Wrr Nr Sx Ha1 a b Haa Hbb. apply (items_inj m Hm); auto; try (eapply zwf_paths; eauto; fail).
        apply Ha1; apply Sx; eauto. }
      destruct (Cr) with (a := pa) (b := pb) as (s & Hs & Hj); auto.
      { destruct Hd as [Hd|[Hd|Hd]].
        - left. intros x Hx1 Hx2.
          destruct (label_in_path _ _ _ W1 Hx1) as (s & Hs & Hin).
          destruct (get_item_known m x (N1 s Hs x Hin)) as (y & Ey).
          destruct (L1 x y Hx1 Ey) as (t1 & Ht1 & Hy1). destruct (L2 x y Hx2 Ey) as (t2 & Ht2 & Hy2).
          eapply Hd; eauto.
        - right. left. eapply inj; eauto.
        - right. right. eapply inj; eauto. }
      exists (get_items (univ_of m) s). split; [|apply JU; auto].
      apply Tq. split; [|eauto].
      intros En. apply Hne. destruct (get_items (univ_of m) pa) as [|x l] eqn:Ea; auto.
      assert (Hx : In x (get_items (univ_of m) s)).
      { apply (JU pa pb s Hj). rewrite Ea. left. left. auto. }
      rewrite En in Hx. destruct Hx.
  Qed.

  (** ** sufficient conditions for the translation to be harmless *)
  Lemma count_zero (ts : list (list T)) x : (forall t, In t ts -> ~ In x t) -> count ts x = 0.
  Proof.
    intros Hn. destruct (count ts x) eqn:E; auto. exfalso.
    assert (Hp : 0 < count ts x) by lia. apply count_pos in Hp. destruct Hp as (t & Ht & Hx).
    eapply Hn; eauto.
  Qed.

  Lemma item_disjoint_stable (ts us : list (list T)) : item_disjoint ts us -> order_stable ts us.
  Proof.
    intros Hd t x y Ht Hx Hy B. unfold before in *.
    rewrite (count_zero us x), (count_zero us y).
    - intuition lia.
    - intros u Hu Hin. exact (Hd t u _ Ht Hu Hy Hin).
    - intros u Hu Hin. exact (Hd t u _ Ht Hu Hx Hin).
  Qed.

  Lemma item_disjoint_sym (ts us : list (list T)) : item_disjoint ts us -> item_disjoint us ts.
  Proof. intros Hd a b x Ha Hb Hx Hy. eapply Hd; eauto. Qed.

  Lemma same_counts_stable (ts us : list (list T)) :
    (forall x, count ts x = count us x) -> order_stable ts us.
  Proof.
    intros He t x y Ht Hx Hy B. unfold before in *. rewrite <- !He. intuition lia.
  Qed.

  (** ** commutativity *)
  Lemma union_comm_node r1 r2 : zwf 0 r1 -> zwf 0 r2 -> union r1 r2 = union r2 r1.
  Proof.
    intros W1 W2. destruct (union_spec r1 r2 0 W1 W2) as (a & -> & Wa & Pa).
    destruct (union_spec r2 r1 0 W2 W1) as (b & -> & Wb & Pb). f_equal.
    eapply canonicity; eauto. intros s. rewrite Pa, Pb. tauto.
  Qed.
End Binary.

Lemma dd_eqb_sym (a b : node) : dd_eqb a b = dd_eqb b a.
Proof. destruct (dd_eqb_spec a b), (dd_eqb_spec b a); congruence. Qed.

Lemma intersect_comm_node r1 : forall r2, intersect r1 r2 = intersect r2 r1.
Proof.
  induction r1 as [b1|i1 l1 IHl h1 IHh]; induction r2 as [b2|i2 l2 IHl2 h2 IHh2].
  - destruct b1, b2; reflexivity.
  - rewrite intersect_unfold, (intersect_unfold (Branch i2 l2 h2)). simpl. destruct b1; reflexivity.
  - rewrite intersect_unfold, (intersect_unfold (Leaf b2)). simpl. destruct b2; reflexivity.
  - rewrite (intersect_unfold (Branch i1 l1 h1)), (intersect_unfold (Branch i2 l2 h2)).
    destruct (dd_eqb_spec (Branch i1 l1 h1) (Branch i2 l2 h2)) as [E|E];
    destruct (dd_eqb_spec (Branch i2 l2 h2) (Branch i1 l1 h1)) as [E'|E']; try congruence.
    destruct (Nat.ltb_spec i1 i2), (Nat.ltb_spec i2 i1); try lia.
    + apply IHl.
    + apply IHl2.
    + assert (i1 = i2) by lia. subst i2. rewrite (IHl l2), (IHh h2). reflexivity.
Qed.

Lemma union_assoc_node n a b c : zwf n a -> zwf n b -> zwf n c ->
  forall ab bc, union a b = Some ab -> union b c = Some bc -> union ab c = union a bc.
Proof.
  intros Wa Wb Wc ab bc E1 E2.
  destruct (union_spec a b n Wa Wb) as (ab' & E1' & W1 & P1). assert (ab' = ab) by congruence. subst ab'.
  destruct (union_spec b c n Wb Wc) as (bc' & E2' & W2 & P2). assert (bc' = bc) by congruence. subst bc'.
  destruct (union_spec ab c n W1 Wc) as (x & -> & Wx & Px).
  destruct (union_spec a bc n Wa W2) as (y & -> & Wy & Py).
  f_equal. eapply canonicity; eauto. intros s. rewrite Px, Py, P1, P2. tauto.
Qed.

Lemma product_comm_node r1 : forall r2 n, zwf n r1 -> zwf n r2 -> product r1 r2 = product r2 r1.
Proof.
  induction r1 as [b1|i1 l1 IHl h1 IHh]; induction r2 as [b2|i2 l2 IHl2 h2 IHh2]; intros n W1 W2.
  - destruct b1, b2; reflexivity.
  - rewrite product_unfold, (product_unfold (Branch i2 l2 h2)). simpl. destruct b1; reflexivity.
  - rewrite product_unfold, (product_unfold (Leaf b2)). simpl. destruct b2; reflexivity.
  - rewrite (product_unfold (Branch i1 l1 h1)), (product_unfold (Branch i2 l2 h2)).
    destruct (dd_eqb_spec (Branch i1 l1 h1) (Branch i2 l2 h2)) as [E|E];
    destruct (dd_eqb_spec (Branch i2 l2 h2) (Branch i1 l1 h1)) as [E'|E']; try congruence.
    pose proof W1 as W1'. pose proof W2 as W2'.
    simpl in W1, W2. destruct W1 as (N1 & Hh1 & Wl1 & Wh1). destruct W2 as (N2 & Hh2 & Wl2 & Wh2).
    destruct (Nat.ltb_spec i1 i2), (Nat.ltb_spec i2 i1); try lia.
    + rewrite (IHl _ (S i1)), (IHh _ (S i1)); auto; simpl; repeat split; auto; lia.
    + rewrite (IHl2 (S i2)), (IHh2 (S i2)); auto; simpl; repeat split; auto; lia.
    + assert (i1 = i2) by lia. subst i2.
      rewrite (IHl l2 (S i1)), (IHl h2 (S i1)), (IHh l2 (S i1)), (IHh h2 (S i1)) by auto.
      destruct (product_spec l2 l1 _ Wl2 Wl1) as (a & -> & Wa & _).
      destruct (product_spec h2 l1 _ Wh2 Wl1) as (b & -> & Wb & _).
      destruct (product_spec l2 h1 _ Wl2 Wh1) as (c & -> & Wc & _).
      destruct (product_spec h2 h1 _ Wh2 Wh1) as (d & -> & Wd & _). cbn [bind].
      destruct (union_spec c d _ Wc Wd) as (cd & Ecd & Wcd & Pcd). rewrite Ecd. cbn [bind].
      destruct (union_spec b d _ Wb Wd) as (bd & Ebd & Wbd & Pbd). rewrite Ebd. cbn [bind].
      destruct (union_spec b cd _ Wb Wcd) as (x & -> & Wx & Px).
      destruct (union_spec c bd _ Wc Wbd) as (y & -> & Wy & Py). cbn [bind].
      replace y with x; [reflexivity|]. eapply canonicity; eauto.
      intros s. rewrite Px, Py, Pcd, Pbd. tauto.
Qed.
