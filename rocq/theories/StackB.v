(** StackB: how deep the operations of BddProg.v nest. *)
From Coq Require Import List Arith Lia Bool Permutation Sorted.
From Verif Require Import Base DD Spec BddSpec BddModel BddRun ArenaModel PoolModel BddProg Growth2Spec StackZModel StackBModel.
From Verif Require Import BddNode BddCloset ArenaProofs PoolProofs BddProgProofs Growth2F.
Import ListNotations.

Section Node.
  Context {I : Type} `{OI : Ord I}.
  Notation nd := (gnode I).
  Implicit Types (a : arena I) (t : dd I).

  Definition lead (i j : I) : I := match cmp i j with Lt | Eq => i | Gt => j end.
  (** [Q k t1 t2] says that k levels are left *)
  Record dives (Q : nat -> dd I -> dd I -> Prop) : Prop := {
    dv_both : forall k i1 l1 h1 i2 l2 h2, Q k (Branch i1 l1 h1) (Branch i2 l2 h2) -> exists k', k = S k' /\
      Q k' (fst (v_split (Branch i1 l1 h1) (lead i1 i2))) (fst (v_split (Branch i2 l2 h2) (lead i1 i2))) /\
      Q k' (snd (v_split (Branch i1 l1 h1) (lead i1 i2))) (snd (v_split (Branch i2 l2 h2) (lead i1 i2)));
    dv_left : forall k i l h b, Q k (Branch i l h) (Leaf b) -> exists k', k = S k' /\ Q k' l (Leaf b) /\ Q k' h (Leaf b);
    dv_right : forall k i l h b, Q k (Leaf b) (Branch i l h) -> exists k', k = S k' /\ Q k' (Leaf b) l /\ Q k' (Leaf b) h }.

  Definition bdepth_spec (op : dd I -> dd I -> dd I) (m : nat -> nd -> nd -> prog I nd) : Prop :=
    forall Q, dives Q -> forall k t1 t2, Q k t1 t2 -> forall fuel tot, suffices (S k) fuel tot ->
    forall a n1 n2, AInv a -> nden a n1 t1 -> nden a n2 t2 ->
    wp tot a (m fuel n1 n2) (fun a' n => nden a' n (op t1 t2)).

  Ltac bstart :=
    intros Q HQ k; induction k as [k IH0] using lt_wf_ind; intros t1 t2 Hk fuel tot Hf a n1 n2 I0 D1 D2;
    pose proof (fun k' (h : k' < k) u1 u2 (q : Q k' u1 u2) fu to (hs : suffices k fu to) =>
      IH0 k' h u1 u2 q fu to (suffices_le _ _ _ _ h hs)) as IH; clear IH0;
    pstart Hf.
  Ltac brec IH q Hf := intros; eapply (IH _ (Nat.lt_succ_diag_r _) _ _ q); [exact Hf|eassumption|eassumption|eassumption].
  Lemma m_bitor_depth : bdepth_spec bitor m_bitor.
  Proof.
    unfold bdepth_spec. bstart.
    destruct t1 as [[]|id1 lo1 hi1]; inversion D1; subst; destruct t2 as [[]|id2 lo2 hi2]; inversion D2; subst;
      cbn [m_bitor]; try (apply wp_same; first [exact D1|exact D2|constructor]).
    - rewrite bitor_LB. destruct (dv_right Q HQ _ _ _ _ _ Hk) as (k' & -> & q1 & q2).
      pose proof (m_both_spec bitor m_bitor k0 tot id2 (Leaf true) (Branch id2 lo2 hi2) a (GLeaf true) (GBranch id2 lo hi)) as M.
      rewrite v_split_leaf, v_split_top in M. apply M; auto; [brec IH q1 Hf|brec IH q2 Hf].
    - change (bitor (Branch id1 lo1 hi1) (Leaf true)) with (collapse id1 (bitor lo1 (Leaf true)) (bitor hi1 (Leaf true))).
      destruct (dv_left Q HQ _ _ _ _ _ Hk) as (k' & -> & q1 & q2).
      pose proof (m_both_spec bitor m_bitor k0 tot id1 (Branch id1 lo1 hi1) (Leaf true) a (GBranch id1 lo hi) (GLeaf true)) as M.
      rewrite v_split_leaf, v_split_top in M. apply M; auto; [brec IH q1 Hf|brec IH q2 Hf].
    - destruct (dv_both Q HQ _ _ _ _ _ _ _ Hk) as (k' & -> & q1 & q2).
      destruct (bitor_split id1 lo1 hi1 id2 lo2 hi2) as (E & _). rewrite E. clear E. fold (lead id1 id2).
      apply m_both_spec; auto; [brec IH q1 Hf|brec IH q2 Hf].
  Qed.
  Lemma m_bitand_depth : bdepth_spec bitand m_bitand.
  Proof.
    unfold bdepth_spec. bstart.
    destruct t1 as [[]|id1 lo1 hi1]; inversion D1; subst; destruct t2 as [[]|id2 lo2 hi2]; inversion D2; subst;
      cbn [m_bitand]; try (apply wp_same; first [exact D1|exact D2|constructor]).
    - rewrite bitand_LB. destruct (dv_right Q HQ _ _ _ _ _ Hk) as (k' & -> & q1 & q2).
      pose proof (m_both_spec bitand m_bitand k0 tot id2 (Leaf false) (Branch id2 lo2 hi2) a (GLeaf false) (GBranch id2 lo hi)) as M.
      rewrite v_split_leaf, v_split_top in M. apply M; auto; [brec IH q1 Hf|brec IH q2 Hf].
    - change (bitand (Branch id1 lo1 hi1) (Leaf false)) with (collapse id1 (bitand lo1 (Leaf false)) (bitand hi1 (Leaf false))).
      destruct (dv_left Q HQ _ _ _ _ _ Hk) as (k' & -> & q1 & q2).
      pose proof (m_both_spec bitand m_bitand k0 tot id1 (Branch id1 lo1 hi1) (Leaf false) a (GBranch id1 lo hi) (GLeaf false)) as M.
      rewrite v_split_leaf, v_split_top in M. apply M; auto; [brec IH q1 Hf|brec IH q2 Hf].
    - destruct (dv_both Q HQ _ _ _ _ _ _ _ Hk) as (k' & -> & q1 & q2).
      destruct (bitand_split id1 lo1 hi1 id2 lo2 hi2) as (E & _). rewrite E. clear E. fold (lead id1 id2).
      apply m_both_spec; auto; [brec IH q1 Hf|brec IH q2 Hf].
  Qed.

  (** ** two measures *)
  Lemma split_cases i1 l1 h1 i2 l2 h2 :
    let t1 := Branch i1 l1 h1 in let t2 := Branch i2 l2 h2 in let id := lead i1 i2 in
    (lt_ i1 i2 /\ id = i1 /\ v_split t1 id = (l1, h1) /\ v_split t2 id = (t2, t2)) \/
    (lt_ i2 i1 /\ id = i2 /\ v_split t1 id = (t1, t1) /\ v_split t2 id = (l2, h2)) \/
    (i1 = i2 /\ id = i1 /\ v_split t1 id = (l1, h1) /\ v_split t2 id = (l2, h2)).
  Proof.
    cbv zeta. unfold lead. cbn [v_split]. unfold eqb_, lt_. destruct (cmp i1 i2) eqn:E.
    - apply cmp_eq in E. subst. right. right. rewrite cmp_refl. auto.
    - left. rewrite cmp_refl, E. auto.
    - right. left. rewrite cmp_refl. rewrite (cmp_antisym i1 i2), E. auto.
  Qed.
  Definition by_levels (k : nat) t1 t2 : Prop := height t1 + height t2 <= k.
  Lemma by_levels_dives : dives by_levels.
  Proof.
    unfold by_levels. split.
    - intros k i1 l1 h1 i2 l2 h2 Hk. cbn [height] in Hk. destruct k as [|k]; [lia|]. exists k. split; [reflexivity|].
      pose proof (split_cases i1 l1 h1 i2 l2 h2) as X. cbv zeta in X.
      destruct X as [(_ & _ & E1 & E2)|[(_ & _ & E1 & E2)|(_ & _ & E1 & E2)]]; rewrite E1, E2; cbn [fst snd height]; lia.
    - intros k i l h b Hk. cbn [height] in *. destruct k as [|k]; [lia|]. exists k. split; [reflexivity|]. lia.
    - intros k i l h b Hk. cbn [height] in *. destruct k as [|k]; [lia|]. exists k. split; [reflexivity|]. lia.
  Qed.

  Definition within (L : list I) t : Prop := bordered t /\ forall x, In x (labels t) -> In x L.
  Lemma within_leaf L b : within L (Leaf b).
  Proof. split; [exact Logic.I|intros x []]. Qed.
  Definition by_items (k : nat) t1 t2 : Prop := exists L, length L <= k /\ within L t1 /\ within L t2.
  Definition drop (i : I) (L : list I) : list I := filter (fun x => negb (eqb_ x i)) L.
  Lemma drop_in i L x : In x L -> x <> i -> In x (drop i L).
  Proof. intros J N. apply filter_In. split; [exact J|]. destruct (eqb_ x i) eqn:E; [|reflexivity]. apply eqb_true_ in E. contradiction. Qed.
  Lemma drop_length i L : In i L -> S (length (drop i L)) <= length L.
  Proof.
    induction L as [|x L IH]; [intros []|]. intros [->|J]; cbn [drop filter length].
    - rewrite (proj2 (eqb_true_ i i) eq_refl). cbn [negb]. apply le_n_S. clear IH. fold (drop i L).
      induction L as [|y L IH]; [reflexivity|]. cbn [drop filter]. destruct (eqb_ y i); cbn; fold (drop i L); lia.
    - specialize (IH J). fold (drop i L). destruct (eqb_ x i); cbn [negb length]; lia.
  Qed.
  Lemma within_children i l h L : within L (Branch i l h) -> In i L /\ within (drop i L) l /\ within (drop i L) h.
  Proof.
    intros (O & J). pose proof (fresh_lo _ _ _ O) as Fl. pose proof (fresh_hi _ _ _ O) as Fh. destruct O as (_ & Ol & Oh).
    split; [apply J; left; reflexivity|]. split; (split; [assumption|]); intros x Hx.
    - apply drop_in; [apply J; cbn; rewrite in_app_iff; auto|]. intros ->. contradiction.
    - apply drop_in; [apply J; cbn; rewrite in_app_iff; auto|]. intros ->. contradiction.
  Qed.
  Lemma within_later i j l h L : within L (Branch j l h) -> lt_ i j -> within (drop i L) (Branch j l h).
  Proof.
    intros (O & J) Lt. split; [exact O|]. intros x Hx. apply drop_in; [apply J, Hx|]. intros ->.
    exact (below_fresh _ _ _ _ O Lt Hx).
  Qed.
  Lemma by_items_dives : dives by_items.
  Proof.
    unfold by_items. split.
    - intros k i1 l1 h1 i2 l2 h2 (L & Hk & W1 & W2).
      pose proof (split_cases i1 l1 h1 i2 l2 h2) as X. cbv zeta in X.
      destruct (within_children _ _ _ _ W1) as (J1 & A1 & B1). destruct (within_children _ _ _ _ W2) as (J2 & A2 & B2).
      destruct k as [|k]; [destruct L; [destruct J1|cbn in Hk; lia]|]. exists k. split; [reflexivity|].
      destruct X as [(Lt & -> & E1 & E2)|[(Lt & -> & E1 & E2)|(<- & -> & E1 & E2)]]; rewrite E1, E2; cbn [fst snd].
      + pose proof (drop_length _ _ J1). pose proof (within_later _ _ _ _ _ W2 Lt).
        split; (exists (drop i1 L); split; [lia|]; split; assumption).
      + pose proof (drop_length _ _ J2). pose proof (within_later _ _ _ _ _ W1 Lt).
        split; (exists (drop i2 L); split; [lia|]; split; assumption).
      + pose proof (drop_length _ _ J1). split; (exists (drop i1 L); split; [lia|]; split; assumption).
    - intros k i l h b (L & Hk & W1 & _). destruct (within_children _ _ _ _ W1) as (J1 & A1 & B1). pose proof (drop_length _ _ J1).
      destruct k as [|k]; [lia|]. exists k. split; [reflexivity|].
      split; (exists (drop i L); split; [lia|]; split; [assumption|apply within_leaf]).
    - intros k i l h b (L & Hk & _ & W1). destruct (within_children _ _ _ _ W1) as (J1 & A1 & B1). pose proof (drop_length _ _ J1).
      destruct k as [|k]; [lia|]. exists k. split; [reflexivity|].
      split; (exists (drop i L); split; [lia|]; split; [apply within_leaf|assumption]).
  Qed.
  Lemma within_height t : forall L, within L t -> height t <= length L.
  Proof.
    induction t as [b|i l IHl h IHh]; intros L W; cbn [height]; [lia|]. destruct (within_children _ _ _ _ W) as (J & A & B).
    pose proof (drop_length _ _ J). specialize (IHl _ A). specialize (IHh _ B). lia.
  Qed.
  Lemma within_bitand L t1 t2 : within L t1 -> within L t2 -> within L (bitand t1 t2).
  Proof.
    intros (O1 & J1) (O2 & J2). split; [apply bordered_bitand; assumption|]. intros x Hx. apply labels_bitand in Hx. destruct Hx; auto.
  Qed.
  Lemma within_bitor L t1 t2 : within L t1 -> within L t2 -> within L (bitor t1 t2).
  Proof.
    intros (O1 & J1) (O2 & J2). split; [apply bordered_bitor; assumption|]. intros x Hx. apply labels_bitor in Hx. destruct Hx; auto.
  Qed.
  Lemma within_pos L x : In x L -> within L (positive_branch x).
  Proof. intros J. split; [cbn; repeat split; intros j [[]|[]]|]. intros y [<-|[]]. exact J. Qed.
  Lemma within_neg L x : In x L -> within L (negative_branch x).
  Proof. intros J. split; [cbn; repeat split; intros j [[]|[]]|]. intros y [<-|[]]. exact J. Qed.
  Lemma within_bitnot L t : within L t -> within L (bitnot t).
  Proof.
    destruct t as [b|i l h]; [intros _; destruct b; apply within_leaf|]. intros ((O & Ol & Oh) & J). split.
    - split; [|split; assumption]. intros j [K|K]; apply O; auto.
    - intros x Hx. apply J. cbn in *. rewrite in_app_iff in *. tauto.
  Qed.
  Lemma height_bitnot t : height (bitnot t) = height t.
  Proof. destruct t as [[]|i l h]; [reflexivity|reflexivity|]. cbn [bitnot height]. lia. Qed.

  Lemma height_collapse i l h n : height l <= n -> height h <= n -> height (collapse i l h) <= S n.
  Proof. intros A B. unfold collapse. destruct (dd_eqb l h); cbn [height]; lia. Qed.
  Lemma height_bitand_ k : forall t1 t2, height t1 + height t2 <= k -> height (bitand t1 t2) <= k.
  Proof.
    induction k as [|k IH]; intros t1 t2 Hk.
    - destruct t1 as [b|], t2 as [c|]; cbn [height] in Hk; try lia. destruct b, c; cbn; lia.
    - destruct t1 as [b|i1 l1 h1], t2 as [c|i2 l2 h2].
      + destruct b, c; cbn; lia.
      + destruct b; [cbn [bitand height] in *; lia|]. rewrite bitand_LB. cbn [height] in Hk. apply height_collapse; apply IH; cbn [height]; lia.
      + destruct c; [cbn [bitand height] in *; lia|].
        change (bitand (Branch i1 l1 h1) (Leaf false)) with (collapse i1 (bitand l1 (Leaf false)) (bitand h1 (Leaf false))).
        cbn [height] in Hk. apply height_collapse; apply IH; cbn [height]; lia.
      + destruct (dv_both _ by_levels_dives _ _ _ _ _ _ _ Hk) as (k' & Ek & q1 & q2). injection Ek as <-.
        destruct (bitand_split i1 l1 h1 i2 l2 h2) as (E & _). rewrite E. clear E. fold (lead i1 i2).
        apply height_collapse; apply IH; assumption.
  Qed.
  Lemma height_bitand t1 t2 : height (bitand t1 t2) <= height t1 + height t2.
  Proof. apply height_bitand_, Nat.le_refl. Qed.
  Lemma height_restrict t i b : height (restrict t i b) <= height t.
  Proof.
    induction t as [c|j l IHl h IHh]; [cbn; lia|]. cbn [restrict]. destruct (eqb_ j i).
    - destruct (negb b); cbn [height]; lia.
    - cbn [height]. apply height_collapse; lia.
  Qed.
  Lemma height_depth t : depth t = S (height t).
  Proof.
    induction t as [b|i l IHl h IHh]; [reflexivity|]. cbn [depth height]. rewrite IHl, IHh.
    destruct (Nat.compare_spec (S (height l)) (S (height h))); lia.
  Qed.

  Lemma m_bitxor_depth t1 t2 d : (exists Q, dives Q /\ exists k, S k <= d /\
      Q k t1 (bitnot t2) /\ Q k (bitnot t1) t2 /\ Q k (bitand t1 (bitnot t2)) (bitand (bitnot t1) t2)) ->
    forall fuel tot, suffices d fuel tot -> forall a n1 n2, AInv a -> nden a n1 t1 -> nden a n2 t2 ->
    wp tot a (m_bitxor fuel n1 n2) (fun a' n => nden a' n (bitxor t1 t2)).
  Proof.
    intros (Q & HQ & k & Hk & q1 & q2 & q3) fuel tot Hf a n1 n2 I0 D1 D2. unfold m_bitxor, bitxor.
    assert (Hs : suffices (S k) fuel tot) by (eapply suffices_le; [exact Hk|exact Hf]).
    eapply wp_bind; [eapply (m_bitand_depth Q HQ k _ _ q1); [exact Hs|exact I0|exact D1|apply m_bitnot_spec; exact D2]|intros a1 x E1 I1 Dx; cbv beta in Dx; plift E1|exact I0].
    eapply wp_bind; [eapply (m_bitand_depth Q HQ k _ _ q2); [exact Hs|exact I1|apply m_bitnot_spec; exact D1|exact D2]|intros a2 y E2 I2 Dy; cbv beta in Dy; plift E2|exact I1].
    eapply (m_bitor_depth Q HQ k _ _ q3); [exact Hs|exact I2|exact Dx|exact Dy].
  Qed.

  Lemma m_breduce_depth t : forall fuel tot, suffices (S (height t)) fuel tot -> forall a n, AInv a -> nden a n t ->
    wp tot a (m_breduce fuel n) (fun a' r => nden a' r (reduce t)).
  Proof.
    induction t as [b|id lo IHl hi IHh]; intros fuel tot Hf a n I0 D; pstart Hf; inversion D; subst; cbn [m_breduce reduce].
    - apply wp_same. constructor.
    - pget. pget. pstep_with IHl; [pfuel Hf|eassumption|eassumption|]. pstep_with IHh; [pfuel Hf|eassumption|eassumption|].
      apply m_collapse_spec; auto.
  Qed.
  Lemma m_brestrict_depth t item sel : forall fuel tot, suffices (S (height t)) fuel tot -> forall a n, AInv a -> nden a n t ->
    wp tot a (m_brestrict fuel n item sel) (fun a' r => nden a' r (restrict t item sel)).
  Proof.
    induction t as [b|id lo IHl hi IHh]; intros fuel tot Hf a n I0 D; pstart Hf; inversion D; subst; cbn [m_brestrict restrict].
    - apply wp_same. constructor.
    - pget. pget. destruct (eqb_ id item).
      + destruct (negb sel); apply wp_same; assumption.
      + pstep_with IHl; [pfuel Hf|eassumption|eassumption|]. pstep_with IHh; [pfuel Hf|eassumption|eassumption|].
        apply m_collapse_spec; auto.
  Qed.
  Lemma m_count_depth leaf join (f : dd I -> nat) : (forall b, f (Leaf b) = leaf b) ->
    (forall i lo hi, f (Branch i lo hi) = join (f lo) (f hi)) ->
    forall t fuel tot, suffices (S (height t)) fuel tot -> forall a n, AInv a -> nden a n t ->
    wp tot a (m_count leaf join fuel n) (fun _ r => r = f t).
  Proof.
    intros Fl Fb t. induction t as [b|id lo IHl hi IHh]; intros fuel tot Hf a n I0 D; pstart Hf; inversion D; subst; cbn [m_count].
    - apply wp_val. rewrite Fl. reflexivity.
    - pget. pget. pstep_with IHl; [pfuel Hf|eassumption|eassumption|]. pstep_with IHh; [pfuel Hf|eassumption|eassumption|].
      subst. apply wp_val. rewrite Fb. reflexivity.
  Qed.
  Lemma m_to_structure_depth t : forall d fuel tot, suffices (S (height t)) fuel tot -> forall a n, AInv a -> nden a n t ->
    wp tot a (m_to_structure fuel n d) (fun _ r => r = to_structure t d).
  Proof.
    induction t as [b|id lo IHl hi IHh]; intros d fuel tot Hf a n I0 D; pstart Hf; inversion D; subst; cbn [m_to_structure to_structure].
    - apply wp_val. reflexivity.
    - pget. pstep_with IHl; [pfuel Hf|eassumption|eassumption|]. pget. pstep_with IHh; [pfuel Hf|eassumption|eassumption|].
      subst. apply wp_val. reflexivity.
  Qed.
  Lemma m_to_content_depth t : forall c d fuel tot, suffices (S (height t)) fuel tot -> forall a n, AInv a -> nden a n t ->
    wp tot a (m_to_content fuel n c d) (fun _ r => r = to_content t c d).
  Proof.
    induction t as [b|id lo IHl hi IHh]; intros c d fuel tot Hf a n I0 D; pstart Hf; inversion D; subst; cbn [m_to_content to_content].
    - apply wp_val. reflexivity.
    - pget. pstep_with IHl; [pfuel Hf|eassumption|eassumption|]. subst. pget. apply IHh; [pfuel Hf|eassumption|eassumption].
  Qed.

  (** enough nested calls: the program of BddProg.v *)
  Lemma bs_to_node_enough (c : list (nat * I)) s : forall depth, S (nesting s) <= depth -> bs_to_node depth s c = m_to_node s c.
  Proof.
    induction s as [d lo IHl hi IHh|d hi IHh|d lo IHl|b]; intros [|k] Hd; try (cbn in Hd; lia); cbn [bs_to_node m_to_node];
      try reflexivity; cbn [nesting] in Hd.
    - rewrite (IHl k), (IHh k) by lia. reflexivity.
    - rewrite (IHh k) by lia. reflexivity.
    - rewrite (IHl k) by lia. reflexivity.
  Qed.
  Lemma bs_to_node_spec c tot s depth : suffices (S (nesting s)) depth tot -> forall a, AInv a ->
    wp tot a (bs_to_node depth s c) (fun a' r => oden a' r (to_node s c)).
  Proof.
    revert depth. induction s as [d lo IHl hi IHh|d hi IHh|d lo IHl|b]; intros depth Hf a I0; pstart Hf; cbn [bs_to_node to_node nesting] in *.
    - destruct (map_get c d) as [item|]; [|apply wp_oden; exact Logic.I]. cbn [bind].
      eapply wp_bind; [eapply IHl; [pfuel Hf|exact I0]|intros a1 l E1 I1 D1; cbv beta in D1|exact I0].
      destruct (to_node lo c) as [tl|], l as [l|]; simpl in D1; try contradiction; cbn [bind]; [|apply wp_oden; exact Logic.I].
      eapply wp_bind; [eapply IHh; [pfuel Hf|exact I1]|intros a2 h E2 I2 D2; cbv beta in D2|exact I1]. plift E2.
      destruct (to_node hi c) as [th|], h as [h|]; simpl in D2; try contradiction; cbn [bind]; [|apply wp_oden; exact Logic.I].
      eapply wp_bind; [eapply m_bbranch_spec; eassumption|intros a3 n E3 I3 Dn; cbv beta in Dn|exact I2]. apply wp_oden. exact Dn.
    - destruct (map_get c d) as [item|]; [|apply wp_oden; exact Logic.I]. cbn [bind].
      eapply wp_bind; [eapply IHh; [pfuel Hf|exact I0]|intros a1 l E1 I1 D1; cbv beta in D1|exact I0].
      destruct (to_node hi c) as [tl|], l as [l|]; simpl in D1; try contradiction; cbn [bind]; [|apply wp_oden; exact Logic.I].
      eapply wp_bind; [eapply m_bbranch_spec; [exact I1|apply nden_leaf|exact D1]|intros a3 n E3 I3 Dn; cbv beta in Dn|exact I1]. apply wp_oden. exact Dn.
    - destruct (map_get c d) as [item|]; [|apply wp_oden; exact Logic.I]. cbn [bind].
      eapply wp_bind; [eapply IHl; [pfuel Hf|exact I0]|intros a1 l E1 I1 D1; cbv beta in D1|exact I0].
      destruct (to_node lo c) as [tl|], l as [l|]; simpl in D1; try contradiction; cbn [bind]; [|apply wp_oden; exact Logic.I].
      eapply wp_bind; [eapply m_bbranch_spec; [exact I1|exact D1|apply nden_leaf]|intros a3 n E3 I3 Dn; cbv beta in Dn|exact I1]. apply wp_oden. exact Dn.
    - apply wp_oden. apply nden_leaf.
  Qed.
End Node.

Section Closet.
  Context {I F : Type} `{OI : Ord I} `{OF : Ord F}.
  Notation nd := (gnode I).

  Section Build.
    Variables (L : list I) (fuel : nat) (tot : bool).
    Hypothesis Hs : suffices (S (length L)) fuel tot.
    Lemma and_depth t u a m n : within L t -> within L u -> AInv a -> nden a m t -> nden a n u ->
      wp tot a (m_bitand fuel m n) (fun a' r => nden a' r (bitand t u)).
    Proof.
      intros W1 W2. apply (m_bitand_depth by_items by_items_dives (length L) t u); [|exact Hs]. exists L. auto.
    Qed.
    Lemma or_depth t u a m n : within L t -> within L u -> AInv a -> nden a m t -> nden a n u ->
      wp tot a (m_bitor fuel m n) (fun a' r => nden a' r (bitor t u)).
    Proof.
      intros W1 W2. apply (m_bitor_depth by_items by_items_dives (length L) t u); [|exact Hs]. exists L. auto.
    Qed.
    Lemma and_list_depth (v : list (I * dd I)) : (forall p, In p v -> within L (snd p)) -> forall t, within L t ->
      within L (fold_left (fun r p => bitand r (snd p)) v t) /\
      forall a m n, AInv a -> mapden a m v -> nden a n t ->
      wp tot a (pfoldM (fun r q => m_bitand fuel r (snd q)) m n) (fun a' r => nden a' r (fold_left (fun r p => bitand r (snd p)) v t)).
    Proof.
      induction v as [|[k u] v IH]; intros Wv t W.
      - split; [exact W|]. intros a m n I0 Dm D. inversion Dm; subst. apply wp_same. exact D.
      - pose proof (Wv _ (or_introl eq_refl)) as Wu. cbn [snd] in Wu.
        destruct (IH (fun p J => Wv p (or_intror J)) (bitand t u) (within_bitand _ _ _ W Wu)) as (W' & S1). cbn [fold_left snd].
        split; [exact W'|]. intros a m n I0 Dm D.
        inversion Dm as [|[k' x] y m' v' [A B] Dm']; subst. simpl in A, B. cbn [pfoldM snd].
        eapply wp_bind; [eapply (and_depth t u); [exact W|exact Wu|exact I0|exact D|exact B]|intros a1 r E1 I1 D1; cbv beta in D1|exact I0].
        apply S1; [exact I1|eapply mapden_ext; eauto|exact D1].
    Qed.
    Lemma m_sibling_depth (items : list I) : (forall x, In x items -> In x L) ->
      within L (sibling_relationship items) /\
      forall a, AInv a -> wp tot a (m_sibling fuel items) (fun a' r => nden a' r (sibling_relationship items)).
    Proof.
      intros J. unfold m_sibling, sibling_relationship. cbv zeta. fold (negs items []).
      set (all := negs items []).
      assert (X : forall l, (forall x, In x l -> In x L) -> forall t, within L t ->
        within L (fold_left bitor (map (fun item => fold_left (fun r p => bitand r (snd p)) (map_insert all item (positive_branch item)) (Leaf true)) l) t) /\
        forall a m n, AInv a -> mapden a m all -> nden a n t ->
        wp tot a (pfoldM (fun other item => do p <- m_pos item ;
            do x <- pfoldM (fun r q => m_bitand fuel r (snd q)) (map_insert m item p) (GLeaf true) ;
            m_bitor fuel other x) l n)
          (fun a' r => nden a' r (fold_left bitor (map (fun item => fold_left (fun r p => bitand r (snd p))
                            (map_insert all item (positive_branch item)) (Leaf true)) l) t))).
      { induction l as [|x l IH]; intros Jl t W.
        - split; [exact W|]. intros a m n I0 Dm D. apply wp_same. exact D.
        - cbn [map fold_left].
          destruct (and_list_depth (map_insert all x (positive_branch x))) with (t := Leaf true : dd I) as (Wu & S1); [|apply within_leaf|].
          { intros [k u] Hp. cbn [snd]. assert (Hu : In u (map snd (map_insert all x (positive_branch x)))) by (apply in_map_iff; exists (k, u); auto).
            apply sibling_inner in Hu. destruct Hu as [->|(j & Hj & ->)]; [apply within_pos, Jl; left; reflexivity|apply within_neg; auto]. }
          set (u := fold_left (fun r p => bitand r (snd p)) (map_insert all x (positive_branch x)) (Leaf true)) in *.
          destruct (IH (fun y Hy => Jl y (or_intror Hy)) (bitor t u) (within_bitor _ _ _ W Wu)) as (W' & S2). split; [exact W'|].
          intros a m n I0 Dm D. cbn [pfoldM].
          eapply wp_bind; [|intros a3 r3 E3 I3 D3; cbv beta in D3; apply S2; [exact I3|eapply mapden_ext; [exact E3|exact Dm]|exact D3]|exact I0].
          eapply wp_bind; [eapply m_pos_spec; exact I0|intros a1 p E1 I1 D1; cbv beta in D1|exact I0]. plift E1.
          eapply wp_bind; [eapply S1; [exact I1|apply mapden_insert; [eapply mapden_ext; eauto|exact D1]|apply nden_leaf]|intros a2 r E2 I2 D2; cbv beta in D2|exact I1].
          plift E2. eapply (or_depth t u); [exact W|exact Wu|exact I2|exact D|exact D2]. }
      destruct (X items J (Leaf false) (within_leaf _ _)) as (W & S1). split; [exact W|]. intros a I0.
      eapply wp_bind; [eapply (m_negs_spec tot items a [] []); [exact I0|constructor]|intros a1 m E1 I1 D1; cbv beta in D1|exact I0].
      apply S1; [exact I1|exact D1|apply nden_leaf].
    Qed.
    Lemma m_exclusion_depth (s x : I) : In s L -> In x L -> within L (exclusion_relationship s x) /\
      forall a, AInv a -> wp tot a (m_exclusion fuel s x) (fun a' r => nden a' r (exclusion_relationship s x)).
    Proof.
      intros Js Jx. pose proof (within_neg _ _ Js) as Ws. pose proof (within_neg _ _ Jx) as Wx.
      split; [apply within_bitor; assumption|]. intros a I0. unfold m_exclusion.
      pstep_with (@m_neg_spec I OI); [eassumption|]. pstep_with (@m_neg_spec I OI); [eassumption|].
      eapply or_depth; [exact Ws|exact Wx| | |]; assumption.
    Qed.
    Lemma m_inclusion_depth (s x : I) : In s L -> In x L -> within L (inclusion_relationship s x) /\
      forall a, AInv a -> wp tot a (m_inclusion fuel s x) (fun a' r => nden a' r (inclusion_relationship s x)).
    Proof.
      intros Js Jx. pose proof (within_neg _ _ Js) as Ws. pose proof (within_pos _ _ Jx) as Wx.
      split; [apply within_bitor; assumption|]. intros a I0. unfold m_inclusion.
      pstep_with (@m_neg_spec I OI); [eassumption|]. pstep_with (@m_pos_spec I OI); [eassumption|].
      eapply or_depth; [exact Ws|exact Wx| | |]; assumption.
    Qed.
    Lemma fold_depth {A} (f : A -> prog I nd) (g : A -> dd I) (l : list A) :
      (forall x, In x l -> within L (g x) /\ forall a, AInv a -> wp tot a (f x) (fun a' r => nden a' r (g x))) ->
      forall t, within L t -> within L (fold_left (fun r x => bitand r (g x)) l t) /\
      forall a n, AInv a -> nden a n t ->
      wp tot a (pfoldM (fun r x => do n <- f x ; m_bitand fuel r n) l n) (fun a' r => nden a' r (fold_left (fun r x => bitand r (g x)) l t)).
    Proof.
      induction l as [|x l IH]; intros Hl t W.
      - split; [exact W|]. intros a n I0 D. apply wp_same. exact D.
      - destruct (Hl x (or_introl eq_refl)) as (Wx & Sx).
        destruct (IH (fun y Hy => Hl y (or_intror Hy)) (bitand t (g x)) (within_bitand _ _ _ W Wx)) as (W' & S1).
        split; [exact W'|]. intros a n I0 D. cbn [pfoldM fold_left].
        eapply wp_bind; [|intros a2 r E2 I2 D2; cbv beta in D2; apply S1; [exact I2|exact D2]|exact I0].
        eapply wp_bind; [apply Sx; exact I0|intros a1 y E1 I1 D1; cbv beta in D1|exact I0]. plift E1.
        eapply (and_depth t (g x)); [exact W|exact Wx|exact I1|exact D|exact D1].
    Qed.
    Lemma m_build_root_depth (calls : list (bcall I F)) : legal calls -> (forall x, known calls x -> In x L) ->
      within L (build_root (run_calls calls)) /\
      forall a, AInv a -> wp tot a (m_build_root fuel (run_calls calls)) (fun a' r => nden a' r (build_root (run_calls calls))).
    Proof.
      intros (_ & Lg) K. unfold m_build_root, build_root. rewrite run_calls_spec. cbn [b_contents b_index b_excl b_incl]. cbn zeta.
      set (r1 := fold_left _ (push_all _) (Leaf true)).
      match goal with |- context [fold_left _ (rule_pairs _) r1] => set (r2 := fold_left _ (rule_pairs _) r1) end.
      destruct (fold_depth (fun p : F * list I => m_sibling fuel (snd p)) (fun p => sibling_relationship (snd p)) (push_all (adds calls))) with (t := Leaf true : dd I) as (W1 & S1);
        [|apply within_leaf|].
      { intros [f is] Hp. apply push_all_in in Hp. destruct Hp as (-> & _). cbn [snd]. apply m_sibling_depth. intros x Hx. apply K. apply vals_in in Hx. exists f; exact Hx. }
      fold r1 in W1, S1.
      destruct (fold_depth (fun p : I * I => m_exclusion fuel (fst p) (snd p)) (fun p => exclusion_relationship (fst p) (snd p)) (rule_pairs (push_all (excls calls)))) with (t := r1) as (W2 & S2);
        [|exact W1|].
      { intros [s y] Hy. apply (proj1 (push_all_pairs _ _ _)) in Hy. destruct (Lg s y (or_introl Hy)) as (A & B & _). cbn [fst snd].
        apply m_exclusion_depth; auto. }
      fold r2 in W2, S2.
      destruct (fold_depth (fun p : I * I => m_inclusion fuel (fst p) (snd p)) (fun p => inclusion_relationship (fst p) (snd p)) (rule_pairs (push_all (incls calls)))) with (t := r2) as (W3 & S3);
        [|exact W2|].
      { intros [s y] Hy. apply (proj1 (push_all_pairs _ _ _)) in Hy. destruct (Lg s y (or_intror Hy)) as (A & B & _). cbn [fst snd].
        apply m_inclusion_depth; auto. }
      split; [exact W3|]. intros a I0.
      eapply wp_bind; [eapply S1; [exact I0|apply nden_leaf]|intros a1 x1 E1 I1 D1; cbv beta in D1|exact I0].
      eapply wp_bind; [eapply S2; [exact I1|exact D1]|intros a2 x2 E2 I2 D2; cbv beta in D2|exact I1].
      eapply S3; [exact I2|exact D2].
    Qed.
  End Build.

  Lemma bs_build_depth h (calls : list (bcall I F)) d depth tot : S (length (once (map snd (adds calls)))) <= d -> suffices d depth tot ->
    exists G, forall loops, suffices G loops tot -> forall a, AInv a ->
    wp tot a (bs_build depth loops h (run_calls calls)) (fun a' r => rcden a' r (build h (run_calls calls))).
  Proof.
    intros Hd Hf. exists (size (build_root (run_calls calls))). intros loops Hl a I0. unfold bs_build, build.
    destruct (validate_closet (run_calls calls)) as [[]|e] eqn:V; [|apply wp_rcden; reflexivity].
    apply validate_ok in V.
    destruct (m_build_root_depth (once (map snd (adds calls))) depth tot) with (calls := calls) as (_ & S1).
    - eapply suffices_le; [exact Hd|exact Hf].
    - exact V.
    - intros x (f & J). apply once_in. apply in_map_iff. exists (f, x). auto.
    - eapply wp_bind; [eapply S1; exact I0|intros a1 x1 E1 I1 D1; cbv beta in D1|exact I0].
      eapply wp_bind; [eapply (m_closet_new_spec h (b_index (run_calls calls)) (build_root (run_calls calls))); [exact Hl|exact I1|exact D1]|intros a2 c E2 I2 D2; cbv beta in D2|exact I1].
      apply wp_rcden. exact D2.
  Qed.
  Lemma m_restrict_all_depth (sels : list I) d depth tot : suffices (S d) depth tot -> forall t, height t <= d ->
    forall a n, AInv a -> nden a n t ->
    wp tot a (m_restrict_all depth n sels) (fun a' r => nden a' r (restrict_all t sels)).
  Proof.
    intros Hf. induction sels as [|x sels IH]; intros t Ht a n I0 D; [apply wp_same; exact D|].
    unfold m_restrict_all. cbn [pfoldM].
    eapply wp_bind; [eapply (m_brestrict_depth t); [eapply suffices_le; [|exact Hf]; lia|exact I0|exact D]|intros a1 r E1 I1 D1; cbv beta in D1|exact I0].
    apply (IH (restrict t x true)); [|exact I1|exact D1]. etransitivity; [apply height_restrict|exact Ht].
  Qed.
  Lemma bs_select_depth h (c : closet I F) item depth tot : suffices (S (height (c_root c))) depth tot ->
    exists G, forall loops, suffices G loops tot -> forall a m, AInv a -> cden a m c ->
    wp tot a (bs_select_item depth loops h m item) (fun a' r => rcden a' r (select_item h c item)).
  Proof.
    intros Hf. exists (size (restrict (c_root c) item true)). intros loops Hl a m I0 (A & B & D).
    unfold bs_select_item, select_item, get_family. rewrite A, B.
    destruct (map_get (c_index c) item); [|apply wp_rcden; reflexivity].
    destruct (find _ _); [apply wp_rcden; reflexivity|].
    eapply wp_bind; [eapply (m_brestrict_depth (c_root c)); [exact Hf|exact I0|exact D]|intros a1 r E1 I1 D1; cbv beta in D1|exact I0].
    eapply wp_bind; [eapply (m_bsummarize_spec h (restrict (c_root c) item true)); [exact Hl|exact I1|exact D1]|intros a2 s E2 I2 ->|exact I1].
    apply wp_rcden. split; [reflexivity|]. split; [reflexivity|]. simpl. plift E2. exact D1.
  Qed.
  Lemma bs_outfit_depth (c : closet I F) sels depth tot : suffices (S (height (c_root c))) depth tot ->
    exists G, forall loops, suffices G loops tot -> forall a m, AInv a -> cden a m c ->
    wp tot a (bs_complete_outfit depth loops m sels) (fun _ r => r = complete_outfit c sels).
  Proof.
    intros Hf. pose proof (m_restrict_all_depth sels (height (c_root c)) depth tot Hf (c_root c) (Nat.le_refl _)) as S1.
    exists (size (restrict_all (c_root c) sels)). intros loops Hl a m I0 (A & B & D).
    unfold bs_complete_outfit, complete_outfit. cbv zeta. rewrite A, B.
    change (find_unknown_items (mkC (c_index c) (c_summary c) (Leaf false)) sels) with (find_unknown_items c sels).
    change (find_duplicate_items (mkC (c_index c) (c_summary c) (Leaf false)) sels) with (find_duplicate_items c sels).
    destruct (find_unknown_items c sels); [apply wp_val; reflexivity|].
    destruct (find_duplicate_items c sels) as [[dup|]|]; cbn [bind]; [apply wp_val; reflexivity| |apply wp_val; reflexivity].
    eapply wp_bind; [eapply S1; [exact I0|exact D]|intros a1 r E1 I1 D1; cbv beta in D1|exact I0].
    plift E1. unfold find_conflicting_items.
    assert (REST : wp tot a1 (do r' <- m_restrict_all depth (mc_root m) sels ; do items <- m_walk loops r' sels ; Ret (Some (Ok (sort items))))
                    (fun _ r => r = Some (Ok (E:=outfit_error I F) (sort (walk (restrict_all (c_root c) sels) sels))))).
    { eapply wp_bind; [eapply S1; [exact I1|exact D]|intros a2 r2 E2 I2 D2; cbv beta in D2|exact I1].
      eapply wp_bind; [eapply (m_walk_spec (restrict_all (c_root c) sels)); [exact Hl|exact I2|exact D2]|intros a3 r3 E3 I3 ->|exact I2].
      apply wp_val. reflexivity. }
    revert D1 REST. generalize (restrict_all (c_root c) sels). intros R D1 REST.
    inversion D1; subst; [destruct b|].
    - exact REST.
    - apply wp_val. reflexivity.
    - exact REST.
  Qed.

  (** ** one call *)
  Notation bgden := (gden bden).
  Notation bgsden := (gsden bden).
  Definition bneed (d : nat) (vs : list (bval I F)) (c : bdcall I F) : Prop :=
    let node i := val_node (breg vs i) in
    let root i := c_root (val_clo (breg vs i)) in
    match c with
    | BDBuild _ calls => S (length (once (map snd (adds calls)))) <= d
    | BDSelect _ i _ | BDOutfit i _ | BDCounts i | BDSerialize i => S (height (root i)) <= d
    | BDDeserialize x => S (nesting (fst (snd x))) <= d
    | BDOp (BAnd | BOr) i j => exists Q, dives Q /\ exists k, S k <= d /\ Q k (node i) (node j)
    | BDOp BXor i j => exists Q, dives Q /\ exists k, S k <= d /\
        Q k (node i) (bitnot (node j)) /\ Q k (bitnot (node i)) (node j) /\
        Q k (bitand (node i) (bitnot (node j))) (bitand (bitnot (node i)) (node j))
    | BDReduce i | BDRestrict i _ _ => S (height (node i)) <= d
    | _ => True
    end.
  Lemma bneed_call vs c : bneed (bcall_depth vs c) vs c.
  Proof.
    destruct c as [h calls|h i item|i sels|i|i|un i items|i j|i|d|b|item|item|item i j|o i j|i|i|i item sel|h i|i j|h index i];
      cbn [bneed bcall_depth]; auto.
    assert (AO : exists Q, dives Q /\ exists k, S k <= S (height (val_node (breg vs i)) + height (val_node (breg vs j))) /\ Q k (val_node (breg vs i)) (val_node (breg vs j))).
    { exists by_levels. split; [exact by_levels_dives|]. eexists. split; [apply Nat.le_refl|]. unfold by_levels. apply Nat.le_refl. }
    destruct o; [exact AO|exact AO|].
    exists by_levels. split; [exact by_levels_dives|]. eexists. split; [apply Nat.le_refl|]. unfold by_levels. rewrite !height_bitnot.
    pose proof (height_bitand (val_node (breg vs i)) (bitnot (val_node (breg vs j)))) as A.
    pose proof (height_bitand (bitnot (val_node (breg vs i))) (val_node (breg vs j))) as B. rewrite height_bitnot in A, B. lia.
  Qed.
  Lemma once_le_ (l m : list I) : (forall x, In x l -> In x m) -> length (once l) <= length (once m).
  Proof. intros J. apply NoDup_incl_length; [apply once_NoDup|]. intros x Hx. apply once_in. apply J. apply once_in, Hx. Qed.
  Lemma over_within items (t : dd I) : over items t -> within (once items) t.
  Proof. intros (O & J). split; [exact O|]. intros x Hx. apply once_in, J, Hx. Qed.
  Lemma bneed_plain items vs c : bplain items vs c -> bneed (S (length (once items))) vs c.
  Proof.
    destruct c as [h calls|h i item|i sels|i|i|un i items'|i j|i|d|b|item|item|item i j|o i j|i|i|i item sel|h i|i j|h index i];
      cbn [bneed bplain]; auto; try (intros W; apply le_n_S, within_height, over_within, W).
    - intros J. apply le_n_S, once_le_, J.
    - intros [].
    - intros (W1 & W2). apply over_within in W1. apply over_within in W2.
      assert (AO : forall t1 t2, within (once items) t1 -> within (once items) t2 -> by_items (length (once items)) t1 t2).
      { intros t1 t2 A B. exists (once items). auto. }
      destruct o; exists by_items; (split; [exact by_items_dives|]); exists (length (once items)); (split; [apply Nat.le_refl|]).
      + auto.
      + auto.
      + pose proof (within_bitnot _ _ W1). pose proof (within_bitnot _ _ W2). split; [|split]; apply AO; try assumption; apply within_bitand; assumption.
  Qed.

  Lemma depth_bcall c (vs : list (bval I F)) y d depth tot : b_vcall vs c = Some y -> bneed d vs c -> suffices d depth tot ->
    exists G, forall loops, suffices G loops tot -> forall a ms, AInv a -> bgden a ms vs ->
    wp tot a (bs_call depth loops ms c) (fun a' x => bgsden a' x y).
  Proof.
    intros E N Hd.
    assert (NN : forall a ms i, bgden a ms vs -> nden a (mval_node (mbreg ms i)) (val_node (breg vs i)))
      by (intros a ms i D; apply bden_node; apply bgden_reg; exact D).
    assert (CC : forall a ms i, bgden a ms vs -> cden a (mval_clo (mbreg ms i)) (val_clo (breg vs i)))
      by (intros a ms i D; apply bden_clo; apply bgden_reg; exact D).
    assert (OLD : (forall depth loops ms, bs_call depth loops ms c = m_bcall loops ms c) -> exists G, forall loops, suffices G loops tot -> forall a ms, AInv a -> bgden a ms vs ->
      wp tot a (bs_call depth loops ms c) (fun a' x => bgsden a' x y)).
    { intros Eq. destruct (m_bcall_refines c vs y E) as (G & S1). exists G. intros loops Hl a ms I0 D. rewrite Eq. apply S1; auto. }
    destruct c as [h calls|h i item|i sels|i|i|un i items|i j|i|x|b|item|item|item i j|o i j|i|i|i item sel|h i|i j|h index i];
      try (apply OLD; reflexivity); clear OLD; cbn [bneed] in N; cbn [b_vcall] in E; cbv zeta in E; injection E as <-.
    - destruct (bs_build_depth h calls d depth tot N Hd) as (G & S1). exists G. intros loops Hl a ms I0 D. cbn [bs_call].
      apply (mclo_spec tot a (bs_build depth loops h (run_calls calls)) (build h (run_calls calls)) BOBuildError); auto.
    - destruct (bs_select_depth h (val_clo (breg vs i)) item depth tot) as (G & S1); [eapply suffices_le; [exact N|exact Hd]|].
      exists G. intros loops Hl a ms I0 D. cbn [bs_call].
      apply (mclo_spec tot a _ (select_item h (val_clo (breg vs i)) item) BOSelectError); auto.
    - destruct (bs_outfit_depth (val_clo (breg vs i)) sels depth tot) as (G & S1); [eapply suffices_le; [exact N|exact Hd]|].
      exists G. intros loops Hl a ms I0 D. cbn [bs_call]. apply (mbobs_spec tot a _ _ BOOutfit); auto.
    - exists 0. intros loops _ a ms I0 D. cbn [bs_call].
      assert (Hs : suffices (S (height (c_root (val_clo (breg vs i))))) depth tot) by (eapply suffices_le; [exact N|exact Hd]).
      destruct (CC a ms i D) as (_ & _ & Dr).
      eapply wp_bind; [eapply (m_count_depth _ _ node_count); [reflexivity|reflexivity|exact Hs|exact I0|exact Dr]|intros a1 x1 E1 I1 ->|exact I0]. plift E1.
      eapply wp_bind; [eapply (m_count_depth _ _ leaf_count); [reflexivity|reflexivity|exact Hs|exact I1|exact Dr]|intros a2 x2 E2 I2 ->|exact I1]. plift E2.
      eapply wp_bind; [eapply (m_count_depth _ _ outfit_count); [reflexivity|reflexivity|exact Hs|exact I2|exact Dr]|intros a3 x3 E3 I3 ->|exact I2]. plift E3.
      apply (mbobs_spec tot a3 (m_depth depth (mc_root (mval_clo (mbreg ms i)))) _ (fun d => BOCounts _ _ _ d)); auto.
      + eapply bgden_ext; [|exact D]. eapply ext_trans; [exact E1|]. eapply ext_trans; eauto.
      + eapply (m_count_depth _ _ BddModel.depth); [reflexivity|reflexivity|exact Hs|exact I3|exact Dr].
    - exists 0. intros loops _ a ms I0 D. cbn [bs_call].
      assert (Hs : suffices (S (height (c_root (val_clo (breg vs i))))) depth tot) by (eapply suffices_le; [exact N|exact Hd]).
      destruct (CC a ms i D) as (A & B & Dr). rewrite A, B.
      eapply wp_bind; [eapply m_to_structure_depth; [exact Hs|exact I0|exact Dr]|intros a1 x1 E1 I1 ->|exact I0]. plift E1.
      apply (mbobs_spec tot a1 (m_to_content depth (mc_root (mval_clo (mbreg ms i))) [] 0) _ (fun t => BOData (_, _, (_, t)))); auto.
      + eapply bgden_ext; eauto.
      + eapply m_to_content_depth; [exact Hs|exact I1|exact Dr].
    - exists 0. intros loops _ a ms I0 D. cbn [bs_call]. destruct x as [[index summary] [s t]]. unfold closet_de, node_de. cbn [fst snd] in *.
      eapply wp_bind; [eapply bs_to_node_spec; [eapply suffices_le; [exact N|exact Hd]|exact I0]|intros a1 x1 E1 I1 D1; cbv beta in D1|exact I0].
      apply wp_ret. intros a2 E2 I2. destruct (to_node s t) as [u|], x1 as [n|]; simpl in D1; try contradiction; cbn [bind]; split; simpl; auto.
      + apply Forall2_app.
        * eapply bgden_ext; [|exact D]. eapply ext_trans; eauto.
        * constructor; [|constructor]. simpl. plift E2. split; [reflexivity|split; [reflexivity|exact D1]].
      + eapply bgden_ext; [|exact D]. eapply ext_trans; eauto.
    - assert (OP : forall a n1 n2, AInv a -> nden a n1 (val_node (breg vs i)) -> nden a n2 (val_node (breg vs j)) ->
        wp tot a (m_op o depth n1 n2) (fun a' n => nden a' n (v_op o (val_node (breg vs i)) (val_node (breg vs j))))).
      { destruct o; cbn [m_op v_op].
        - destruct N as (Q & HQ & k & Hk & q). eapply (m_bitand_depth Q HQ k _ _ q). eapply suffices_le; [exact Hk|exact Hd].
        - destruct N as (Q & HQ & k & Hk & q). eapply (m_bitor_depth Q HQ k _ _ q). eapply suffices_le; [exact Hk|exact Hd].
        - eapply (m_bitxor_depth _ _ d N depth tot Hd). }
      exists 0. intros loops _ a ms I0 D. apply mnode_spec; auto.
    - exists 0. intros loops _ a ms I0 D. apply mnode_spec; auto. eapply m_breduce_depth; [eapply suffices_le; [exact N|exact Hd]|exact I0|auto].
    - exists 0. intros loops _ a ms I0 D. apply mnode_spec; auto. eapply m_brestrict_depth; [eapply suffices_le; [exact N|exact Hd]|exact I0|auto].
  Qed.

  (** ** closets that were built *)
  Lemma reached_over (calls : list (bcall I F)) sels c : reached calls sels c -> over (map snd (adds calls)) (c_root c).
  Proof.
    intros R. induction R as [h c E|sels c h i c' R IH E].
    - unfold build in E. destruct (validate_closet (run_calls calls)) as [[]|e] eqn:V; [|discriminate]. injection E as <-. cbn.
      apply validate_ok in V. split; [apply robdd_root|]. intros x Hx. destruct (labels_root calls x V Hx) as (f & J).
      apply in_map_iff. exists (f, x). auto.
    - unfold select_item in E. destruct (get_family c i); [|discriminate]. destruct (find _ _); [discriminate|]. injection E as <-. cbn.
      destruct IH as (O & J). split; [apply bordered_restrict, O|]. intros x Hx. apply J. eapply labels_restrict; exact Hx.
  Qed.
End Closet.
