(** BddSim: every program of BddProg.v asks the store for the same diagrams
    whatever the store holds (ArenaSim.v). *)
From Coq Require Import List Arith Lia Bool Permutation Sorted.
From Verif Require Import Base DD BddSpec BddModel BddRun ArenaModel ArenaProofs ArenaSim PoolModel PoolProofs PoolStore BddProg BddProgProofs.
Import ListNotations.

Section Node.
  Context {I : Type} `{Ord I}.
  Notation nd := (gnode I).

  Lemma m_bbranch_sim (a b : arena I) id n1 n2 m1 m2 t u : AInv a -> AInv b ->
    nden a n1 t -> nden b m1 t -> nden a n2 u -> nden b m2 u -> sim nsim a b (m_bbranch id n1 n2) (m_bbranch id m1 m2).
  Proof.
    intros Ia Ib D1 D2 D3 D4. unfold m_bbranch. nput.
    nstep @sim_intern; [exact D3|exact D4|]. destruct Hq. eapply sim_node; constructor; eassumption.
  Qed.
  Lemma m_pos_sim (a b : arena I) id : AInv a -> AInv b -> sim nsim a b (m_pos id) (m_pos id).
  Proof. intros Ia Ib. eapply m_bbranch_sim; auto; constructor. Qed.
  Lemma m_neg_sim (a b : arena I) id : AInv a -> AInv b -> sim nsim a b (m_neg id) (m_neg id).
  Proof. intros Ia Ib. eapply m_bbranch_sim; auto; constructor. Qed.
  Lemma m_collapse_sim (a b : arena I) id n1 n2 m1 m2 t u : AInv a -> AInv b ->
    nden a n1 t -> nden b m1 t -> nden a n2 u -> nden b m2 u -> sim nsim a b (m_collapse id n1 n2) (m_collapse id m1 m2).
  Proof.
    intros Ia Ib D1 D2 D3 D4. unfold m_collapse. neqtest Ia Ib D1 D2 D3 D4.
    destruct (dd_eqb t u); [eapply sim_node; eauto|eapply m_bbranch_sim; eauto].
  Qed.
  Lemma m_split_sim (a b : arena I) n m id t : AInv a -> AInv b -> nden a n t -> nden b m t ->
    sim (fun a b x y => nsim a b (fst x) (fst y) /\ nsim a b (snd x) (snd y)) a b (m_split n id) (m_split m id).
  Proof.
    intros Ia Ib D1 D2. unfold m_split.
    assert (X : sim (fun a b x y => nsim a b (fst x) (fst y) /\ nsim a b (snd x) (snd y)) a b (Ret (n, n)) (Ret (m, m))).
    { apply M_ret. intros a' b' [Ea Eb _ _]. split; exists t; split; eapply nden_ext; eauto. }
    destruct t as [c|i l h]; nopen; [exact X|]. destruct (eqb_ id i); [|exact X].
    nget. nget. apply M_ret. intros a' b' Lt. ncarry Lt. split; [exists l|exists h]; split; assumption.
  Qed.
  Definition bop_sim (op : nd -> nd -> prog I nd) (op' : nd -> nd -> prog I nd) : Prop :=
    forall n1 n2 m1 m2 t u a b, AInv a -> AInv b ->
    nden a n1 t -> nden b m1 t -> nden a n2 u -> nden b m2 u -> sim nsim a b (op n1 n2) (op' m1 m2).
  Lemma m_both_sim op op' id : bop_sim op op' -> bop_sim (m_both op id) (m_both op' id).
  Proof.
    intros Hop n1 n2 m1 m2 t u a b Ia Ib D1 D2 D3 D4. unfold m_both.
    nstep m_split_sim; [eassumption..|]. destruct Hq as [(t1 & X1 & X2) (t2 & X3 & X4)].
    nstep m_split_sim; [eassumption..|exact D3|exact D4|]. destruct Hq as [(u1 & Y1 & Y2) (u2 & Y3 & Y4)].
    nstep Hop; [eassumption|eassumption|exact X1|exact X2|exact Y1|exact Y2|]. nres.
    nstep Hop; [eassumption|eassumption|exact X3|exact X4|exact Y3|exact Y4|]. nres.
    eapply m_collapse_sim; eassumption.
  Qed.
  Lemma m_bitor_sim k : forall k', bop_sim (m_bitor k) (m_bitor k').
  Proof.
    induction k as [|k IH]; intros k' n1 n2 m1 m2 t u a b Ia Ib D1 D2 D3 D4; [constructor|].
    destruct k' as [|k']; [constructor|]. cbn [m_bitor].
    destruct t as [[|]|i1 l1 h1], u as [[|]|i2 l2 h2]; nopen; cbv beta iota;
      first [eapply sim_node; [eassumption|eassumption]|eapply sim_node; constructor|eapply m_both_sim; [apply IH|eassumption..]].
  Qed.
  Lemma m_bitand_sim k : forall k', bop_sim (m_bitand k) (m_bitand k').
  Proof.
    induction k as [|k IH]; intros k' n1 n2 m1 m2 t u a b Ia Ib D1 D2 D3 D4; [constructor|].
    destruct k' as [|k']; [constructor|]. cbn [m_bitand].
    destruct t as [[|]|i1 l1 h1], u as [[|]|i2 l2 h2]; nopen; cbv beta iota;
      first [eapply sim_node; [eassumption|eassumption]|eapply sim_node; constructor|eapply m_both_sim; [apply IH|eassumption..]].
  Qed.
  Lemma m_bitnot_sim (a b : arena I) n m t : nden a n t -> nden b m t -> nsim a b (m_bitnot n) (m_bitnot m).
  Proof.
    intros D1 D2. destruct t as [[|]|i l h]; nopen; simpl.
    - exists (Leaf false). split; constructor.
    - exists (Leaf true). split; constructor.
    - exists (Branch i h l). split; constructor; auto.
  Qed.
  Lemma m_bitxor_sim k k' : bop_sim (m_bitxor k) (m_bitxor k').
  Proof.
    intros n1 n2 m1 m2 t u a b Ia Ib D1 D2 D3 D4. unfold m_bitxor.
    destruct (m_bitnot_sim a b n1 m1 t D1 D2) as (t' & N1 & N2). destruct (m_bitnot_sim a b n2 m2 u D3 D4) as (u' & N3 & N4).
    nstep m_bitand_sim; [eassumption|eassumption|exact D1|exact D2|exact N3|exact N4|]. nres.
    nstep m_bitand_sim; [eassumption|eassumption|exact N1|exact N2|exact D3|exact D4|]. nres.
    eapply m_bitor_sim; eassumption.
  Qed.
  Lemma m_breduce_sim k : forall k' n m t a b, AInv a -> AInv b -> nden a n t -> nden b m t ->
    sim nsim a b (m_breduce k n) (m_breduce k' m).
  Proof.
    induction k as [|k IH]; intros k' n m t a b Ia Ib D1 D2; [constructor|].
    destruct k' as [|k']; [constructor|]. cbn [m_breduce]. destruct t as [c|i l h]; nopen; [eapply sim_node; constructor|].
    nget. nget. nstep IH; [eassumption..|]. nres. nstep IH; [eassumption|eassumption| | |].
    3: nres; eapply m_collapse_sim; eassumption.
    all: eassumption.
  Qed.
  Lemma m_brestrict_sim k : forall k' n m item sel t a b, AInv a -> AInv b -> nden a n t -> nden b m t ->
    sim nsim a b (m_brestrict k n item sel) (m_brestrict k' m item sel).
  Proof.
    induction k as [|k IH]; intros k' n m item sel t a b Ia Ib D1 D2; [constructor|].
    destruct k' as [|k']; [constructor|]. cbn [m_brestrict]. destruct t as [c|i l h]; nopen; [eapply sim_node; constructor|].
    eapply sim_bind; [eapply sim_get_node; eassumption|auto|auto|]. intros a1 b1 l1 l2 Lt [L1 L2]. ncarry Lt.
    eapply sim_bind; [eapply sim_get_node; eassumption|auto|auto|]. intros a2 b2 h1 h2 Lt [H1 H2]. ncarry Lt.
    destruct (eqb_ i item); [destruct (negb sel); eapply sim_node; eassumption|].
    nstep IH; [eassumption|eassumption|exact L1|exact L2|]. nres. nstep IH; [eassumption|eassumption|exact H1|exact H2|]. nres.
    eapply m_collapse_sim; eassumption.
  Qed.

  Definition bsame {R} (_ _ : arena I) (x y : R) : Prop := x = y.
  Lemma nsims_later (a b a' b' : arena I) q q' : later a b a' b' -> Forall2 (nsim a b) q q' -> Forall2 (nsim a' b') q q'.
  Proof. intros Lt F. induction F; constructor; auto. eapply nsim_later; eauto. Qed.
  Lemma m_bsummarize_loop_sim k : forall k' q q' acc a b, AInv a -> AInv b -> Forall2 (nsim a b) q q' ->
    sim bsame a b (m_bsummarize_loop k q acc) (m_bsummarize_loop k' q' acc).
  Proof.
    induction k as [|k IH]; intros k' q q' acc a b Ia Ib Hq; destruct Hq as [|n m q q' (t & D1 & D2) Hq].
    - destruct k'; apply sim_val; auto.
    - constructor.
    - destruct k'; apply sim_val; auto.
    - destruct k' as [|k']; [constructor|]. cbn [m_bsummarize_loop]. destruct t as [c|i l h]; nopen; [apply IH; auto|].
      eapply sim_bind; [eapply sim_get_node; eassumption|auto|auto|]. intros a1 b1 l1 l2 Lt [L1 L2].
      eapply sim_bind; [eapply sim_get_node; eapply den_ext; try apply Lt; eassumption|apply Lt|apply Lt|]. intros a2 b2 h1 h2 Lt2 [H1 H2].
      assert (Eh : match h1 with GLeaf false => Excluded i | _ => Available i end = match h2 with GLeaf false => Excluded i | _ => Available i end).
      { destruct h as [c|i' l' h']; inversion H1; subst; inversion H2; subst; reflexivity. }
      cbv zeta. rewrite Eh. apply IH; [apply Lt2|apply Lt2|]. constructor; [exists h; auto|].
      constructor; [eapply nsim_later; [exact Lt2|]; exists l; auto|]. eapply nsims_later; [exact Lt2|]. eapply nsims_later; eauto.
  Qed.
  Lemma m_bsummarize_sim k k' h n m t a b : AInv a -> AInv b -> nden a n t -> nden b m t ->
    sim bsame a b (m_bsummarize k h n) (m_bsummarize k' h m).
  Proof.
    intros Ia Ib D1 D2. unfold m_bsummarize. eapply sim_bind; [apply m_bsummarize_loop_sim; auto|auto|auto|].
    - constructor; [|constructor]. exists t; auto.
    - intros a1 b1 r s Lt E. red in E; subst. apply sim_val; auto.
  Qed.
  Lemma m_count_sim leaf join k : forall k' n m t a b, AInv a -> AInv b -> nden a n t -> nden b m t ->
    sim bsame a b (m_count leaf join k n) (m_count leaf join k' m).
  Proof.
    induction k as [|k IH]; intros k' n m t a b Ia Ib D1 D2; [constructor|].
    destruct k' as [|k']; [constructor|]. cbn [m_count]. destruct t as [c|i l h]; nopen; [apply sim_val; auto|].
    eapply sim_bind; [eapply sim_get_node; eassumption|auto|auto|]. intros a1 b1 l1 l2 Lt [L1 L2]. ncarry Lt.
    eapply sim_bind; [eapply sim_get_node; eassumption|auto|auto|]. intros a2 b2 h1 h2 Lt [H1 H2]. ncarry Lt.
    nstep IH; [eassumption|eassumption|exact L1|exact L2|]. red in Hq; subst. nstep IH; [eassumption|eassumption|exact H1|exact H2|].
    red in Hq; subst. apply sim_val; auto.
  Qed.
  Lemma m_to_structure_sim k : forall k' n m d t a b, AInv a -> AInv b -> nden a n t -> nden b m t ->
    sim bsame a b (m_to_structure k n d) (m_to_structure k' m d).
  Proof.
    induction k as [|k IH]; intros k' n m d t a b Ia Ib D1 D2; [constructor|].
    destruct k' as [|k']; [constructor|]. cbn [m_to_structure]. destruct t as [c|i l h]; nopen; [apply sim_val; auto|].
    nget. nstep IH; [eassumption..|]. red in Hq; subst. nget. nstep IH; [eassumption..|]. red in Hq; subst. apply sim_val; auto.
  Qed.
  Lemma m_to_content_sim k : forall k' n m c d t a b, AInv a -> AInv b -> nden a n t -> nden b m t ->
    sim bsame a b (m_to_content k n c d) (m_to_content k' m c d).
  Proof.
    induction k as [|k IH]; intros k' n m c d t a b Ia Ib D1 D2; [constructor|].
    destruct k' as [|k']; [constructor|]. cbn [m_to_content]. destruct t as [c'|i l h]; nopen; [apply sim_val; auto|].
    nget. nstep IH; [eassumption..|]. red in Hq; subst. nget. eapply IH; eassumption.
  Qed.
  Definition onsim (a b : arena I) (x y : option nd) : Prop :=
    match x, y with Some n, Some m => nsim a b n m | None, None => True | _, _ => False end.
  Lemma onsim_ret a b x y : onsim a b x y -> sim onsim a b (Ret x) (Ret y).
  Proof. intros Q. apply M_ret. intros a' b' Lt. destruct x, y; simpl in *; auto. eapply nsim_later; eauto. Qed.
  Lemma m_to_node_sim s : forall content a b, AInv a -> AInv b -> sim onsim a b (m_to_node s content) (m_to_node s content).
  Proof.
    induction s as [d lo IHlo hi IHhi|d hi IHhi|d lo IHlo|c]; intros content a b Ia Ib; cbn [m_to_node].
    - destruct (map_get content d) as [item|]; [|apply onsim_ret; exact Logic.I].
      nstep IHlo; [eassumption..|]. destruct r as [n|], s as [m|]; simpl in Hq; try contradiction; [|apply onsim_ret; exact Logic.I].
      destruct Hq as (t & D1 & D2).
      nstep IHhi; [eassumption..|]. destruct r as [n2|], s as [m2|]; simpl in Hq; try contradiction; [|apply onsim_ret; exact Logic.I].
      destruct Hq as (u & D3 & D4). nstep m_bbranch_sim; [eassumption|eassumption|exact D1|exact D2|exact D3|exact D4|].
      apply onsim_ret. exact Hq.
    - destruct (map_get content d) as [item|]; [|apply onsim_ret; exact Logic.I].
      nstep IHhi; [eassumption..|]. destruct r as [n|], s as [m|]; simpl in Hq; try contradiction; [|apply onsim_ret; exact Logic.I].
      destruct Hq as (t & D1 & D2). nstep m_bbranch_sim; [eassumption|eassumption|constructor|constructor|eassumption|eassumption|].
      apply onsim_ret. exact Hq.
    - destruct (map_get content d) as [item|]; [|apply onsim_ret; exact Logic.I].
      nstep IHlo; [eassumption..|]. destruct r as [n|], s as [m|]; simpl in Hq; try contradiction; [|apply onsim_ret; exact Logic.I].
      destruct Hq as (t & D1 & D2). nstep m_bbranch_sim; [eassumption|eassumption|eassumption|eassumption|constructor|constructor|].
      apply onsim_ret. exact Hq.
    - apply onsim_ret. exists (Leaf c). split; constructor.
  Qed.
End Node.

Section Closet.
  Context {I F : Type} `{Ord I} `{Ord F}.
  Notation nd := (gnode I).

  Definition csim (a b : arena I) (c d : mcloset I F) : Prop :=
    mc_index c = mc_index d /\ mc_summary c = mc_summary d /\ nsim a b (mc_root c) (mc_root d).
  Lemma csim_later a b a' b' c d : later a b a' b' -> csim a b c d -> csim a' b' c d.
  Proof. intros Lt (E1 & E2 & Q). split; auto. split; auto. eapply nsim_later; eauto. Qed.
  Definition rcsim {E} (a b : arena I) (x y : res (mcloset I F) E) : Prop :=
    match x, y with Ok c, Ok d => csim a b c d | Err e, Err f => e = f | _, _ => False end.
  Lemma rcsim_ret {E} a b (x y : res (mcloset I F) E) : rcsim a b x y -> sim rcsim a b (Ret x) (Ret y).
  Proof. intros Q. apply M_ret. intros a' b' Lt. destruct x, y; simpl in *; auto. eapply csim_later; eauto. Qed.

  Lemma m_closet_new_sim k k' h index n m t a b : AInv a -> AInv b -> nden a n t -> nden b m t ->
    sim csim a b (m_closet_new (F:=F) k h index n) (m_closet_new k' h index m).
  Proof.
    intros Ia Ib D1 D2. unfold m_closet_new. nstep (@m_bsummarize_sim I _); [eassumption..|]. red in Hq; subst.
    apply M_ret. intros a' b' Lt. ncarry Lt. split; auto. split; auto. exists t. split; assumption.
  Qed.
  Lemma m_select_item_sim k k' h c d item a b : AInv a -> AInv b -> csim a b c d ->
    sim rcsim a b (m_select_item k h c item) (m_select_item k' h d item).
  Proof.
    intros Ia Ib (E1 & E2 & (t & D1 & D2)). unfold m_select_item. rewrite <- E1, <- E2.
    destruct (map_get (mc_index c) item); [|apply rcsim_ret; reflexivity].
    destruct (find _ _); [apply rcsim_ret; reflexivity|].
    nstep (@m_brestrict_sim I _); [eassumption..|]. nres. nstep (@m_bsummarize_sim I _); [eassumption|eassumption| | |].
    3: { red in Hq; subst. apply rcsim_ret. split; [reflexivity|]. split; [reflexivity|]. eexists; split; eassumption. }
    all: eassumption.
  Qed.
  Lemma m_restrict_all_sim k k' (n m : nd) sel t a b : AInv a -> AInv b -> nden a n t -> nden b m t ->
    sim nsim a b (m_restrict_all k n sel) (m_restrict_all k' m sel).
  Proof.
    intros Ia Ib D1 D2. unfold m_restrict_all. apply (sim_fold nsim); auto.
    - intros a1 b1 a2 b2 x y. apply nsim_later.
    - intros a1 b1 c x y _ I1 I2 (u & X1 & X2). eapply (@m_brestrict_sim I _); eassumption.
    - exists t; auto.
  Qed.
  Lemma m_walk_sim k : forall k' (n m : nd) items t a b, AInv a -> AInv b -> nden a n t -> nden b m t ->
    sim bsame a b (m_walk k n items) (m_walk k' m items).
  Proof.
    induction k as [|k IH]; intros k' n m items t a b Ia Ib D1 D2; [constructor|].
    destruct k' as [|k']; [constructor|]. cbn [m_walk]. destruct t as [c|i l h]; nopen; [apply sim_val; auto|].
    eapply sim_bind; [eapply sim_get_node; eassumption|auto|auto|]. intros a1 b1 h1 h2 Lt [H1 H2]. ncarry Lt.
    eapply sim_bind; [eapply sim_get_node; eassumption|auto|auto|]. intros a2 b2 l1 l2 Lt [L1 L2]. ncarry Lt.
    destruct h as [[|]|i' l' h']; inversion H1; subst; inversion H2; subst; eapply IH; eassumption.
  Qed.
  Lemma m_complete_outfit_sim k k' (c d : mcloset I F) sel a b : AInv a -> AInv b -> csim a b c d ->
    sim bsame a b (m_complete_outfit k c sel) (m_complete_outfit k' d sel).
  Proof.
    intros Ia Ib (E1 & E2 & (t & D1 & D2)). unfold m_complete_outfit. cbv zeta. rewrite <- E1, <- E2.
    destruct (find_unknown_items _ _); [apply sim_val; auto|]. destruct (find_duplicate_items _ _) as [[x|]|]; [apply sim_val; auto| |apply sim_val; auto].
    eapply sim_bind; [eapply m_restrict_all_sim; eassumption|auto|auto|]. intros a1 b1 r s Lt (u & R1 & R2). ncarry Lt.
    assert (Rest : sim bsame a1 b1
        (do r' <- m_restrict_all k (mc_root c) sel; do items <- m_walk k r' sel; Ret (Some (Ok (sort items))))
        (do r' <- m_restrict_all k' (mc_root d) sel; do items <- m_walk k' r' sel; Ret (Some (@Ok (list I) (outfit_error I F) (sort items))))).
    { nstep m_restrict_all_sim; [eassumption|eassumption|exact D1|exact D2|]. destruct Hq as (v & V1 & V2). nstep m_walk_sim; [eassumption|eassumption|exact V1|exact V2|].
      red in Hq; subst. apply sim_val; auto. }
    destruct u as [[|]|i l h]; nopen; auto. apply sim_val; auto.
  Qed.

  Definition esim (a b : arena I) (x y : I * nd) : Prop := fst x = fst y /\ nsim a b (snd x) (snd y).
  Lemma esims_later a b a' b' l l' : later a b a' b' -> Forall2 (esim a b) l l' -> Forall2 (esim a' b') l l'.
  Proof. intros Lt Q. induction Q as [|x y l l' [E1 E2] Q IH]; constructor; auto. split; auto. eapply nsim_later; eauto. Qed.
  Lemma map_insert_sim a b i n m l l' : nsim a b n m -> Forall2 (esim a b) l l' ->
    Forall2 (esim a b) (map_insert l i n) (map_insert l' i m).
  Proof.
    intros Hn Hl. unfold map_insert. induction Hl as [|[i1 n1] [i2 n2] l l' [E1 E2] Hl IH]; cbn [map_update].
    - constructor; [split; auto|constructor].
    - cbn [fst snd] in E1, E2. subst i2. destruct (cmp i i1).
      + constructor; auto. split; auto.
      + constructor; [split; auto|]. constructor; auto. split; auto.
      + constructor; auto. split; auto.
  Qed.
  Lemma sim_fold2 (Q : arena I -> arena I -> nd -> nd -> Prop) (f f' : nd -> I * nd -> prog I nd) :
    (forall a b a' b' x y, later a b a' b' -> Q a b x y -> Q a' b' x y) ->
    (forall a b c d x y, AInv a -> AInv b -> esim a b c d -> Q a b x y -> sim Q a b (f x c) (f' y d)) ->
    forall l l' a b x y, AInv a -> AInv b -> Forall2 (esim a b) l l' -> Q a b x y -> sim Q a b (pfoldM f l x) (pfoldM f' l' y).
  Proof.
    intros HL Hf l. induction l as [|c l IH]; intros l' a b x y Ia Ib Hl Hq; inversion Hl as [|c0 d l0 l1 Hc Hl']; subst; cbn [pfoldM].
    - apply M_ret. intros a' b' Lt. eapply HL; eauto.
    - eapply sim_bind; [apply Hf; eauto|auto|auto|]. intros a' b' r s Lt Hr. apply IH; [apply Lt|apply Lt| |exact Hr].
      eapply esims_later; eauto.
  Qed.

  Lemma m_sibling_sim k k' (items : list I) a b : AInv a -> AInv b -> sim nsim a b (m_sibling k items) (m_sibling k' items).
  Proof.
    intros Ia Ib. unfold m_sibling. eapply sim_bind; [apply (sim_fold (fun a b => Forall2 (esim a b))); auto|auto|auto|].
    - intros a1 b1 a2 b2 x y. apply esims_later.
    - intros a1 b1 i x y _ I1 I2 Q. eapply sim_bind; [apply (@m_neg_sim I _); auto|auto|auto|].
      intros a2 b2 n m Lt Qn. apply M_ret. intros a3 b3 Lt3. eapply esims_later; [exact Lt3|].
      apply map_insert_sim; auto. eapply esims_later; eauto.
    - intros a1 b1 ns ms Lt Qm. pose proof Lt as [_ _ Ia1 Ib1].
      eapply sim_mono; [apply (sim_fold (fun a b x y => Forall2 (esim a b) ns ms /\ nsim a b x y)); auto|].
      + intros a2 b2 a3 b3 x y Lt2 [Q1 Q2]. split; [eapply esims_later; eauto|eapply nsim_later; eauto].
      + intros a2 b2 i x y _ I1 I2 [Q1 Q2].
        eapply sim_bind; [apply (@m_pos_sim I _); auto|auto|auto|]. intros a3 b3 p q Lt3 Qp. pose proof Lt3 as [_ _ Ia3 Ib3].
        eapply sim_bind; [apply (sim_fold2 nsim); auto|auto|auto|].
        * intros c d c' d' u v. apply nsim_later.
        * intros c d e f u v Ic Id [_ (w & W1 & W2)] (z & Z1 & Z2). eapply (@m_bitand_sim I _); eassumption.
        * apply map_insert_sim; [exact Qp|]. eapply esims_later; eauto.
        * exists (Leaf true). split; constructor.
        * intros a4 b4 r s Lt4 Qr. pose proof Lt4 as [_ _ Ia4 Ib4]. pose proof (later_trans _ _ _ _ _ _ Lt3 Lt4) as Lt5.
          pose proof (nsim_later _ _ _ _ _ _ Lt5 Q2) as (v & V1 & V2). destruct Qr as (w & W1 & W2).
          eapply sim_mono; [eapply (@m_bitor_sim I _); eassumption|]. intros a6 b6 r6 s6 Lt6 Q6. split; auto.
          eapply esims_later; [|exact Q1]. eapply later_trans; eauto.
      + split; auto. exists (Leaf false). split; constructor.
      + intros a2 b2 r s _ [_ Q]. exact Q.
  Qed.
  Lemma m_exclusion_sim k k' (s x : I) a b : AInv a -> AInv b -> sim nsim a b (m_exclusion k s x) (m_exclusion k' s x).
  Proof.
    intros Ia Ib. unfold m_exclusion. nstep (@m_neg_sim I _); [eassumption..|]. nres. nstep (@m_neg_sim I _); [eassumption..|]. nres. eapply (@m_bitor_sim I _); eassumption.
  Qed.
  Lemma m_inclusion_sim k k' (s x : I) a b : AInv a -> AInv b -> sim nsim a b (m_inclusion k s x) (m_inclusion k' s x).
  Proof.
    intros Ia Ib. unfold m_inclusion. nstep (@m_neg_sim I _); [eassumption..|]. nres. nstep (@m_pos_sim I _); [eassumption..|]. nres. eapply (@m_bitor_sim I _); eassumption.
  Qed.
  Lemma and_fold_sim {A} (p : nat -> A -> prog I nd) k k' (l : list A) :
    (forall k k' x a b, AInv a -> AInv b -> sim nsim a b (p k x) (p k' x)) ->
    forall n m a b, AInv a -> AInv b -> nsim a b n m ->
    sim nsim a b (pfoldM (fun r x => do n <- p k x ; m_bitand k r n) l n) (pfoldM (fun r x => do n <- p k' x ; m_bitand k' r n) l m).
  Proof.
    intros Hp n m a b Ia Ib Q. apply (sim_fold nsim); auto.
    - intros a1 b1 a2 b2 x y. apply nsim_later.
    - intros a1 b1 c x y _ I1 I2 (t & X1 & X2). nstep Hp; [eassumption..|]. nres. eapply (@m_bitand_sim I _); eassumption.
  Qed.
  Lemma m_build_root_sim k k' (bl : builder I F) a b : AInv a -> AInv b -> sim nsim a b (m_build_root k bl) (m_build_root k' bl).
  Proof.
    intros Ia Ib. unfold m_build_root.
    eapply sim_bind; [apply (and_fold_sim (fun k p => m_sibling k (snd p))); auto|auto|auto|].
    { intros; apply m_sibling_sim; auto. }
    { exists (Leaf true). split; constructor. }
    intros a1 b1 r1 s1 [_ _ Ia1 Ib1] Q1.
    eapply sim_bind; [apply (and_fold_sim (fun k p => m_exclusion k (fst p) (snd p))); auto|auto|auto|].
    { intros; apply m_exclusion_sim; auto. }
    intros a2 b2 r2 s2 [_ _ Ia2 Ib2] Q2.
    apply (and_fold_sim (fun k p => m_inclusion k (fst p) (snd p))); auto.
    intros; apply m_inclusion_sim; auto.
  Qed.
  Lemma m_build_sim k k' h (bl : builder I F) a b : AInv a -> AInv b -> sim rcsim a b (m_build k h bl) (m_build k' h bl).
  Proof.
    intros Ia Ib. unfold m_build. destruct (validate_closet bl); [|apply rcsim_ret; reflexivity].
    nstep m_build_root_sim; [eassumption..|]. nres. nstep m_closet_new_sim; [eassumption..|]. apply rcsim_ret. exact Hq.
  Qed.

  (** calls *)
  Definition vsim (a b : arena I) (x y : mval I F) : Prop :=
    match x, y with MClo c, MClo d => csim a b c d | MNode n, MNode m => nsim a b n m | _, _ => False end.
  Lemma vsim_den a b x y : vsim a b x y <-> exists v, bden a x v /\ bden b y v.
  Proof.
    split.
    - destruct x as [c|n], y as [d|m]; simpl; try contradiction.
      + intros (E1 & E2 & (t & D1 & D2)). exists (VClo (mkC (mc_index c) (mc_summary c) t)). simpl. unfold cden; simpl. auto.
      + intros (t & D1 & D2). exists (VNode t). simpl. auto.
    - intros (v & D1 & D2). destruct x as [c|n], y as [d|m], v as [e|t]; simpl in *; try contradiction.
      + destruct D1 as (A1 & A2 & A3), D2 as (B1 & B2 & B3). split; [congruence|]. split; [congruence|]. eexists; eauto.
      + exists t; auto.
  Qed.
  Lemma vsim_later a b a' b' x y : later a b a' b' -> vsim a b x y -> vsim a' b' x y.
  Proof. intros Lt. destruct x, y; simpl; auto; [apply csim_later|apply nsim_later]; auto. Qed.

  Lemma mbreg_sim a b ms ms' vs i : AInv a -> AInv b -> hden bden a ms vs -> hden bden b ms' vs -> vsim a b (mbreg ms i) (mbreg ms' i).
  Proof.
    intros Ia Ib D1 D2. unfold mbreg.
    assert (Z : vsim a b (MClo m_no_closet) (MClo m_no_closet)).
    { simpl. split; auto. split; auto. exists (Leaf true). split; constructor. }
    revert ms ms' vs D1 D2. induction i as [|i IH]; intros ms ms' vs D1 D2;
      inversion D1 as [|m f ms1 fs1 X1 R1]; subst; inversion D2 as [|m' f' ms2 fs2 X3 R2]; subst; cbn [nth]; auto.
    - apply vsim_den. eauto.
    - eapply IH; eauto.
  Qed.
  Lemma mval_node_sim a b x y : vsim a b x y -> nsim a b (mval_node x) (mval_node y).
  Proof. destruct x, y; simpl; try contradiction; auto. intros (_ & _ & Q). exact Q. Qed.
  Lemma mval_clo_sim a b x y : vsim a b x y -> csim a b (mval_clo x) (mval_clo y).
  Proof.
    destruct x, y; simpl; try contradiction; auto. intros _. split; auto. split; auto. exists (Leaf true). split; constructor.
  Qed.
  Lemma bpush_sim a b (ms ms' : list (mval I F)) vs x y (o : bobs I F) : hden bden a ms vs -> hden bden b ms' vs ->
    vsim a b x y -> hsim bden a b (ms ++ [x], o) (ms' ++ [y], o).
  Proof.
    intros D1 D2 Q. apply vsim_den in Q. destruct Q as (v & X1 & X2). split; [|reflexivity]. exists (vs ++ [v]).
    cbn [fst]. split; apply Forall2_app; auto.
  Qed.
  Lemma bkeep_sim a b (ms ms' : list (mval I F)) vs (o : bobs I F) : hden bden a ms vs -> hden bden b ms' vs ->
    hsim bden a b (ms, o) (ms', o).
  Proof. intros D1 D2. split; [|reflexivity]. exists vs. auto. Qed.
  Lemma hden_later {a b a' b' : arena I} {ms ms' : list (mval I F)} {vs} : later a b a' b' -> hden bden a ms vs -> hden bden b ms' vs ->
    hden bden a' ms vs /\ hden bden b' ms' vs.
  Proof. intros [Ea Eb _ _] D1 D2. split; (eapply hden_ext; [exact bden_ext| |]; eassumption). Qed.
  Lemma badd_sim a b p q (ms ms' : list (mval I F)) vs : AInv a -> AInv b -> hden bden a ms vs -> hden bden b ms' vs -> sim nsim a b p q ->
    sim (hsim bden) a b (do n <- p ; Ret (ms ++ [MNode n], @BONone I F)) (do n <- q ; Ret (ms' ++ [MNode n], BONone)).
  Proof.
    intros Ia Ib D1 D2 S0. eapply sim_bind; [exact S0|auto|auto|].
    intros a' b' f g Lt Q. apply M_ret. intros a2 b2 Lt2. pose proof (later_trans _ _ _ _ _ _ Lt Lt2) as Lt3.
    destruct (hden_later Lt3 D1 D2). eapply bpush_sim; [eassumption|eassumption|]. exact (nsim_later _ _ _ _ _ _ Lt2 Q).
  Qed.
  Lemma bobs_sim {R} a b (p q : prog I R) (o : R -> bobs I F) (ms ms' : list (mval I F)) vs : AInv a -> AInv b ->
    hden bden a ms vs -> hden bden b ms' vs -> sim bsame a b p q ->
    sim (hsim bden) a b (do x <- p ; Ret (ms, o x)) (do x <- q ; Ret (ms', o x)).
  Proof.
    intros Ia Ib D1 D2 S0. eapply sim_bind; [exact S0|auto|auto|].
    intros a' b' x y Lt E. red in E; subst. apply M_ret. intros a2 b2 Lt2. pose proof (later_trans _ _ _ _ _ _ Lt Lt2) as Lt3.
    destruct (hden_later Lt3 D1 D2). eapply bkeep_sim; eauto.
  Qed.
  Lemma bclo_sim {E} a b (p q : prog I (res (mcloset I F) E)) (o : E -> bobs I F) (ms ms' : list (mval I F)) vs : AInv a -> AInv b ->
    hden bden a ms vs -> hden bden b ms' vs -> sim rcsim a b p q ->
    sim (hsim bden) a b (do r <- p ; Ret (match r with Ok c => (ms ++ [MClo c], BONone) | Err e => (ms, o e) end))
                        (do r <- q ; Ret (match r with Ok c => (ms' ++ [MClo c], BONone) | Err e => (ms', o e) end)).
  Proof.
    intros Ia Ib D1 D2 S0. eapply sim_bind; [exact S0|auto|auto|].
    intros a' b' x y Lt Q. apply M_ret. intros a2 b2 Lt2. pose proof (later_trans _ _ _ _ _ _ Lt Lt2) as Lt3.
    destruct (hden_later Lt3 D1 D2). destruct x as [c|e], y as [d|e']; simpl in Q; try contradiction.
    - eapply bpush_sim; [eassumption|eassumption|]. exact (csim_later _ _ _ _ _ _ Lt2 Q).
    - subst. eapply bkeep_sim; eauto.
  Qed.

  Ltac kstep lem :=
    let a := fresh "a" in let b := fresh "b" in let r := fresh "r" in let s := fresh "s" in
    let Lt := fresh "Lt" in let Hq := fresh "Hq" in
    eapply sim_bind; [eapply lem|eassumption|eassumption|intros a b r s Lt Hq;
      match goal with D1 : hden _ _ _ _, D2 : hden _ _ _ _ |- _ =>
        let X := fresh in pose proof (hden_later Lt D1 D2) as X; clear D1 D2; destruct X as [D1 D2] end;
      ncarry Lt; cbv beta in Hq].

  Lemma m_bcall_sim c vs k k' a b (ms ms' : list (mval I F)) : AInv a -> AInv b -> hden bden a ms vs -> hden bden b ms' vs ->
    sim (hsim bden) a b (m_bcall k ms c) (m_bcall k' ms' c).
  Proof.
    intros Ia Ib D1 D2. pose proof (fun i => mbreg_sim a b ms ms' vs i Ia Ib D1 D2) as R0.
    pose proof (fun i => mval_node_sim _ _ _ _ (R0 i)) as RN. pose proof (fun i => mval_clo_sim _ _ _ _ (R0 i)) as RC.
    destruct c as [h calls|h i item|i sel|i|i|unk i items|i j|i|d|v|item|item|item i j|o i j|i|i|i item sel|h i|i j|h index i]; cbn [m_bcall]; cbv zeta;
      try (eapply badd_sim; try eassumption).
    - eapply bclo_sim; eauto. apply m_build_sim; auto.
    - eapply bclo_sim; eauto. apply m_select_item_sim; auto.
    - eapply bobs_sim; eauto. apply m_complete_outfit_sim; auto.
    - destruct (RC i) as (_ & -> & _). apply M_ret. intros a2 b2 Lt2. destruct (hden_later Lt2 D1 D2). eapply bkeep_sim; eauto.
    - destruct (RC i) as (_ & _ & (t & X1 & X2)).
      do 4 (kstep (@m_count_sim I _); [eassumption..|]; red in Hq; subst).
      apply M_ret. intros a9 b9 Lt9. destruct (hden_later Lt9 D1 D2). eapply bkeep_sim; eauto.
    - destruct (RC i) as (-> & -> & _). apply M_ret. intros a2 b2 Lt2. destruct (hden_later Lt2 D1 D2). eapply bkeep_sim; eauto.
    - assert (E : m_closet_eqb (mval_clo (mbreg ms i)) (mval_clo (mbreg ms j)) = m_closet_eqb (mval_clo (mbreg ms' i)) (mval_clo (mbreg ms' j))).
      { destruct (RC i) as (E1 & E2 & (t & X1 & X2)), (RC j) as (E3 & E4 & (u & Y1 & Y2)). unfold m_closet_eqb. rewrite E1, E2, E3, E4.
        rewrite (gnode_eqb_den _ _ _ _ _ Ia X1 Y1), (gnode_eqb_den _ _ _ _ _ Ib X2 Y2). reflexivity. }
      rewrite E. apply M_ret. intros a2 b2 Lt2. destruct (hden_later Lt2 D1 D2). eapply bkeep_sim; eauto.
    - destruct (RC i) as (-> & -> & (t & X1 & X2)).
      kstep (@m_to_structure_sim I _); [eassumption..|]. red in Hq; subst. kstep (@m_to_content_sim I _); [eassumption..|]. red in Hq; subst.
      apply M_ret. intros a9 b9 Lt9. destruct (hden_later Lt9 D1 D2). eapply bkeep_sim; eauto.
    - kstep (@m_to_node_sim I _); [eassumption..|]. apply M_ret. intros a9 b9 Lt9. destruct (hden_later Lt9 D1 D2).
      destruct r as [n|], s as [m|]; simpl in Hq; try contradiction.
      + eapply bpush_sim; [eassumption|eassumption|]. split; auto. split; auto. exact (nsim_later _ _ _ _ _ _ Lt9 Hq).
      + eapply bkeep_sim; eauto.
    - eapply sim_node; constructor.
    - apply (@m_pos_sim I _); auto.
    - apply (@m_neg_sim I _); auto.
    - destruct (RN i) as (t & X1 & X2), (RN j) as (u & Y1 & Y2). eapply (@m_bbranch_sim I _); eassumption.
    - destruct (RN i) as (t & X1 & X2), (RN j) as (u & Y1 & Y2).
      destruct o; simpl; [eapply (@m_bitand_sim I _)|eapply (@m_bitor_sim I _)|eapply (@m_bitxor_sim I _)]; eassumption.
    - destruct (RN i) as (t & X1 & X2). destruct (@m_bitnot_sim I a b _ _ t X1 X2) as (u & Y1 & Y2). eapply sim_node; eassumption.
    - destruct (RN i) as (t & X1 & X2). eapply (@m_breduce_sim I _); eassumption.
    - destruct (RN i) as (t & X1 & X2). eapply (@m_brestrict_sim I _); eassumption.
    - destruct (RN i) as (t & X1 & X2). eapply bobs_sim; eauto. eapply (@m_bsummarize_sim I _); eassumption.
    - assert (E : gnode_eqb (mval_node (mbreg ms i)) (mval_node (mbreg ms j)) = gnode_eqb (mval_node (mbreg ms' i)) (mval_node (mbreg ms' j))).
      { destruct (RN i) as (t & X1 & X2), (RN j) as (u & Y1 & Y2).
        rewrite (gnode_eqb_den _ _ _ _ _ Ia X1 Y1), (gnode_eqb_den _ _ _ _ _ Ib X2 Y2). reflexivity. }
      rewrite E. apply M_ret. intros a2 b2 Lt2. destruct (hden_later Lt2 D1 D2). eapply bkeep_sim; eauto.
    - destruct (RN i) as (t & X1 & X2). kstep m_closet_new_sim; [eassumption..|].
      apply M_ret. intros a9 b9 Lt9. destruct (hden_later Lt9 D1 D2). eapply bpush_sim; [eassumption|eassumption|]. exact (csim_later _ _ _ _ _ _ Lt9 Hq).
  Qed.
End Closet.
