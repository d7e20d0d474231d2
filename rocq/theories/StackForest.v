(** StackForest: how deep the calls of the zdd2 API recurse (see StackModel.v). *)
From Coq Require Import List Arith Lia Bool Permutation Sorted.
From Verif Require Import Base DD Spec Zdd2Model Zdd2Node Zdd2Node2 Zdd2Univ Zdd2Forest Zdd2Forest2 Zdd2Forest3 Zdd2Laws Zdd2Settle Zdd2Exact2.
From Verif Require Import ArenaModel ArenaProofs Zdd2Prog Zdd2ProgProofs StackNode StackModel Growth2Spec.
From Verif Require Import Growth2Proofs Growth2F Growth2G Growth2H Zdd2Thm ConcThm.
Import ListNotations.

(** a fold whose accumulator stays inside [Inv] *)
Lemma fold_depth {A} (f : node -> A -> option node) (m : znode -> A -> zprog znode) (Inv : node -> Prop) tot l :
  (forall b x b', Inv b -> In x l -> f b x = Some b' ->
     Inv b' /\ forall a n, AInv a -> nden a n b -> wp tot a (m n x) (fun a' r => nden a' r b')) ->
  forall b t, Inv b -> foldM f l b = Some t ->
  Inv t /\ forall a n, AInv a -> nden a n b -> wp tot a (pfoldM m l n) (fun a' r => nden a' r t).
Proof.
  induction l as [|x l IH]; intros Hs b t Ib E; cbn [foldM] in E.
  - injection E as <-. split; [exact Ib|]. intros a n I0 D. cbn [pfoldM]. apply wp_nden. exact D.
  - inv_bind E. destruct (Hs b x x0 Ib (or_introl eq_refl) E0) as (Ix & Sx).
    destruct (IH (fun b y b' I J => Hs b y b' I (or_intror J)) x0 t Ix E) as (It & St). split; [exact It|].
    intros a n I0 D. cbn [pfoldM]. eapply (@wp_bind nat _); [apply Sx; [exact I0|exact D]| |exact I0].
    intros a' r Ex I1 Dr. cbv beta in Dr. apply St; auto.
Qed.

Definition inside (n : nat) (t : node) : Prop := zwf 0 t /\ below n t.
Lemma inside_leaf n b : inside n (Leaf b).
Proof. split; [exact Logic.I|apply below_leaf]. Qed.

Lemma inside_branch n id lo hi r : id < n -> inside n lo -> inside n hi -> branch id lo hi = Some r -> inside n r.
Proof. intros L (W1 & B1) (W2 & B2) E. exact (branch_below n 0 id lo hi r (Nat.le_0_l _) L W1 W2 B1 B2 E). Qed.

Lemma inside_m_branch n id lo hi t fuel tot : inside n lo -> inside n hi -> branch id lo hi = Some t ->
  enough (S (S n)) fuel tot -> forall a x y, AInv a -> aden a x lo -> aden a y hi ->
  wp tot a (m_branch fuel id x y) (fun a' r => nden a' r t).
Proof. intros (W1 & B1) (W2 & B2) E Hf. exact (m_branch_depth n 0 n id lo hi t (Nat.le_refl _) W1 B1 W2 B2 E fuel tot Hf). Qed.

Section Calls.
  Context {T : Type} `{Ord T}.

  Lemma once_length_incl (l m : list T) : incl l m -> length (once l) <= length (once m).
  Proof. intros J. apply NoDup_incl_length; [apply once_NoDup|]. intros x Hx. apply once_in. apply J. apply once_in, Hx. Qed.

  Lemma keys_le (occ : list (T * nat)) (l : list T) : map_ok occ -> incl (map fst occ) l -> length occ <= length (once l).
  Proof.
    intros M Hk. rewrite <- (map_length fst). apply NoDup_incl_length; [apply ssorted_NoDup; exact M|].
    intros x Hx. apply once_in. apply Hk, Hx.
  Qed.

  Section Univ.
    Variable occ : list (T * nat).
    Hypothesis Hok : map_ok occ.
    Notation K := (length occ).

    Lemma prio_lt row p : In p (get_priorities (univ_of occ) row) -> p < K.
    Proof.
      unfold get_priorities. intros Hp. induction row as [|x row IH]; [destruct Hp|]. cbn [filter_map] in Hp.
      destruct (get_priority (univ_of occ) x) as [q|] eqn:Eq; [|apply IH, Hp]. destruct Hp as [<-|Hp]; [|apply IH, Hp].
      exact (proj2 (get_priority_in occ x q Hok Eq)).
    Qed.

    Lemma depth_priorities row t fuel tot : get_priorities_node (univ_of occ) row = Some t -> enough (K + 2) fuel tot ->
      inside K t /\ forall a, AInv a -> wp tot a (m_priorities_node fuel (univ_of occ) row) (fun a' n => nden a' n t).
    Proof.
      intros E Hf. unfold get_priorities_node, m_priorities_node in *. destruct (length row).
      - injection E as <-. split; [apply inside_leaf|]. intros a I0. apply wp_nden. constructor.
      - destruct (fold_depth (fun root item => branch item Never root) (fun root item => m_branch fuel item (ANode (GLeaf false)) (ANode root))
          (inside K) tot (get_priorities (univ_of occ) row)) with (3 := E) as (It & St); [|apply inside_leaf|].
        + intros b x b' Ib Hx Eb. split; [eapply inside_branch; [apply (prio_lt row), Hx|apply inside_leaf|exact Ib|exact Eb]|].
          intros a n0 I0 D. eapply (inside_m_branch K); [apply inside_leaf|exact Ib|exact Eb|enf Hf|exact I0|constructor|exact D].
        + split; [exact It|]. intros a I0. apply St; [exact I0|constructor].
    Qed.

    Lemma depth_unique row t fuel tot : foldM (fun root item => branch item root Always) (get_priorities (univ_of occ) row) Never = Some t ->
      enough (K + 2) fuel tot ->
      inside K t /\ forall a, AInv a -> wp tot a (pfoldM (fun root item => m_branch fuel item (ANode root) (ANode (GLeaf true)))
                                                    (get_priorities (univ_of occ) row) (GLeaf false)) (fun a' n => nden a' n t).
    Proof.
      intros E Hf.
      destruct (fold_depth (fun root item => branch item root Always) (fun root item => m_branch fuel item (ANode root) (ANode (GLeaf true)))
          (inside K) tot (get_priorities (univ_of occ) row)) with (3 := E) as (It & St); [|apply inside_leaf|].
      - intros b x b' Ib Hx Eb. split; [eapply inside_branch; [apply (prio_lt row), Hx|exact Ib|apply inside_leaf|exact Eb]|].
        intros a n0 I0 D. eapply (inside_m_branch K); [exact Ib|apply inside_leaf|exact Eb|enf Hf|exact I0|exact D|constructor].
      - split; [exact It|]. intros a I0. apply St; [exact I0|constructor].
    Qed.

    Lemma depth_rows rows t fuel tot :
      foldM (fun acc items => let! n := get_priorities_node (univ_of occ) items in union acc n) rows Never = Some t ->
      enough (K + 2) fuel tot ->
      forall a, AInv a -> wp tot a (pfoldM (fun acc items => do n <- m_priorities_node fuel (univ_of occ) items ; m_union fuel acc n) rows (GLeaf false))
        (fun a' n => nden a' n t).
    Proof.
      intros E Hf.
      destruct (fold_depth (fun acc items => let! n := get_priorities_node (univ_of occ) items in union acc n)
          (fun acc items => do n <- m_priorities_node fuel (univ_of occ) items ; m_union fuel acc n)
          (inside K) tot rows) with (3 := E) as (_ & St); [|apply inside_leaf|].
      - intros b x b' (Wb & Bb) _ Eb. inv_bind Eb. destruct (depth_priorities x x0 fuel tot E0 Hf) as ((Wx & Bx) & Sx).
        split; [exact (union_out K 0 b x0 b' Wb Wx Bb Bx Eb)|]. intros a n0 I0 D.
        step Sx; [eassumption|].
        eapply (m_union_depth K K 0 b x0 b' (Nat.le_refl _) Wb Wx Bb Bx Eb); [enf Hf|eassumption|eassumption|eassumption].
      - intros a I0. apply St; [exact I0|constructor].
    Qed.
  End Univ.

  Lemma items_keys (occ : list (T * nat)) (items : list T) : map_ok occ -> (forall x, map_get occ x = if memb x items then Some 1 else None) ->
    length occ <= length (once items).
  Proof.
    intros Hok Hg. apply keys_le; [exact Hok|]. intros y Hy. destruct (memb y items) eqn:M; [apply memb_spec, M|].
    pose proof (Hg y) as G. rewrite M in G. apply (proj1 (map_get_none occ y Hok)) in G. contradiction.
  Qed.

  Lemma depth_unit h (items : list T) f fuel tot : f_unit h items = Some f -> enough (length (once items) + 2) fuel tot ->
    forall a, AInv a -> wp tot a (m_unit fuel h items) (fun a' m => fden a' m f).
  Proof.
    intros E Hf a I0. unfold f_unit in E. inv_bind E. injection E as <-. unfold m_unit.
    destruct (from_items_univ h site_new items) as (occ & Hok & Hu & Hg). rewrite Hu in *.
    pose proof (items_keys occ items Hok Hg) as L.
    destruct (depth_priorities occ Hok items x fuel tot E0) as (_ & Sx); [enf Hf|].
    step Sx; [eassumption|]. apply m_finish; auto.
  Qed.
  Lemma depth_unique_f h (items : list T) f fuel tot : f_unique h items = Some f -> enough (length (once items) + 2) fuel tot ->
    forall a, AInv a -> wp tot a (m_unique fuel h items) (fun a' m => fden a' m f).
  Proof.
    intros E Hf a I0. unfold f_unique in E. inv_bind E. injection E as <-. unfold m_unique.
    destruct (from_items_univ h site_new items) as (occ & Hok & Hu & Hg). rewrite Hu in *.
    pose proof (items_keys occ items Hok Hg) as L.
    destruct (depth_unique occ Hok items x fuel tot E0) as (_ & Sx); [enf Hf|].
    step Sx; [eassumption|]. apply m_finish; auto.
  Qed.

  Lemma rows_keys (rows : list (list T)) : length (occ_of_rows (rows_of rows)) <= length (once (concat rows)).
  Proof.
    apply keys_le; [apply occ_of_rows_ok|]. intros x Hx. apply occ_keys in Hx. apply in_concat in Hx. destruct Hx as (r & Hr & Hx).
    apply unique_in, in_map_iff in Hr. destruct Hr as (row & <- & Hr). apply in_concat. exists row. split; [exact Hr|].
    exact (proj1 (filter_repeats_in _ _) Hx).
  Qed.
  Lemma depth_many h (rows : list (list T)) f fuel tot : f_many h rows = Some f -> enough (length (once (concat rows)) + 2) fuel tot ->
    forall a, AInv a -> wp tot a (m_many fuel h rows) (fun a' m => fden a' m f).
  Proof.
    intros E Hf a I0. unfold f_many in E. inv_bind E. injection E as <-. unfold m_many.
    rewrite from_matrix_univ in *. fold (rows_of rows) in *. pose proof (rows_keys rows) as L.
    pose proof (depth_rows _ (occ_of_rows_ok _) rows x fuel tot E0 ltac:(enf Hf)) as Sx.
    step Sx; [eassumption|]. apply m_finish; auto.
  Qed.

  Lemma decoded_items (occ : list (T * nat)) (ps : list (list nat)) : map_ok occ ->
    length (once (concat (map (get_items (univ_of occ)) ps))) <= length occ.
  Proof.
    intros Hok. rewrite <- (univ_index_length occ). apply NoDup_incl_length; [apply once_NoDup|].
    intros x Hx. apply (proj1 (once_in _ _)) in Hx. apply in_concat in Hx. destruct Hx as (r & Hr & Hx).
    apply in_map_iff in Hr. destruct Hr as (p & <- & _). apply items_in in Hx. destruct Hx as (q & _ & Eq). eapply nth_error_In. exact Eq.
  Qed.

  Lemma depth_canonical h (occ : list (T * nat)) t f depth tot : map_ok occ -> f_canonical h t (univ_of occ) = Some f ->
    enough (length occ + 2) depth tot ->
    exists L, forall loops, enough L loops tot -> forall a n, AInv a -> nden a n t ->
    wp tot a (s_canonical depth loops h n (univ_of occ)) (fun a' m => fden a' m f).
  Proof.
    intros Hok E Hd. unfold f_canonical in E. inv_bind E. destruct (m_trees_spec _ _ E0) as (F1 & S1).
    exists F1. intros loops Hf a n I0 D. unfold s_canonical.
    step (@wp_intern2 nat _); [eassumption|]. step S1; [enf Hf|eassumption|eassumption|]. subst r0.
    pose proof (decoded_items occ x Hok) as L. apply depth_many; [exact E|enf Hd|assumption].
  Qed.

  Section Translate.
    Variables old new : list (T * nat).
    Hypothesis Hnew : map_ok new.
    Hypothesis Hkeys : forall x, In x (map fst old) -> In x (map fst new).

    Lemma translate_inside t n r : zwf n t -> known_labels old t -> translate_root (univ_of old) (univ_of new) t = Some r -> inside (length new) r.
    Proof.
      intros Z Hk E. destruct (translate_total old new Hnew Hkeys t n Z Hk) as (r' & E' & Zr & Lr). assert (r' = r) by congruence. subst r'.
      split; [exact Zr|]. intros x Hx. destruct (Lr x Hx) as (p & Hp & ->). apply (tr_known old new Hnew Hkeys), Hk, Hp.
    Qed.

    Lemma depth_translate d : forall t n r, length old <= n + d -> zwf n t -> known_labels old t ->
      translate_root (univ_of old) (univ_of new) t = Some r ->
      forall fuel tot, enough (d + length new + 3) fuel tot -> forall a m, AInv a -> nden a m t ->
      wp tot a (m_translate_root fuel (univ_of old) (univ_of new) m) (fun a' x => nden a' x r).
    Proof.
      induction d as [|d IH]; intros t n r Hd W Hk E fuel tot Hf a m I0 D.
      - destruct t as [b|i lo hi].
        + replace (0 + length new + 3) with (S (length new + 2)) in Hf by lia. start Hf. inversion D; subst. cbn [translate_root m_translate_root] in *. injection E as <-. apply wp_nden. constructor.
        + destruct W as (Y & _). specialize (Hk i (or_introl eq_refl)). lia.
      - replace (S d + length new + 3) with (S (d + length new + 3)) in Hf by lia. destruct t as [b|i lo hi].
        { start Hf. inversion D; subst. cbn [translate_root m_translate_root] in *. injection E as <-. apply wp_nden. constructor. }
        start Hf. cbn [translate_root] in E. inv_bind E. inv_bind E. inv_bind E. inv_bind E.
        destruct W as (Y & N & Wl & Wh).
        assert (Kl : known_labels old lo) by (intros y Hy; apply Hk; simpl; right; apply in_or_app; auto).
        assert (Kh : known_labels old hi) by (intros y Hy; apply Hk; simpl; right; apply in_or_app; auto).
        pose proof (translate_inside lo _ _ Wl Kl E0) as Ix. pose proof (translate_inside hi _ _ Wh Kh E1) as Iy.
        inversion D; subst. cbn [m_translate_root].
        getn. step (IH lo (S i) _ ltac:(lia) Wl Kl E0); [exact Hf|eassumption|eassumption|].
        getn. step (IH hi (S i) _ ltac:(lia) Wh Kh E1); [exact Hf|eassumption|eassumption|].
        rewrite E2, E3. eapply (inside_m_branch (length new)); [exact Ix|exact Iy|exact E|enf Hf|eassumption|simpl; eassumption|simpl; eassumption].
    Qed.
  End Translate.

  Definition inside_op (op : node -> node -> option node) : Prop :=
    forall n l t1 t2 t, zwf l t1 -> zwf l t2 -> below n t1 -> below n t2 -> op t1 t2 = Some t -> zwf l t /\ below n t.

  Lemma canon_below (f : forest T) occ : canon f occ -> below (length occ) (f_root f).
  Proof. intros C x Hx. exact (canon_known_labels _ _ C x Hx). Qed.

  Lemma depth_binop op mop h (f g r : forest T) depth tot : (forall n, depth2 op mop n) -> inside_op op -> Canon f -> Canon g ->
    f_binop op h f g = Some r ->
    enough (2 * length (once (concat (trees_of f ++ trees_of g))) + 3) depth tot ->
    exists L, forall loops, enough L loops tot -> forall a mf mg, AInv a -> fden a mf f -> fden a mg g ->
    wp tot a (s_binop mop depth loops h mf mg) (fun a' m => fden a' m r).
  Proof.
    intros Hop Hin (of_ & Cf) (og & Cg) E Hd. set (k := once _) in Hd. unfold f_binop in E. inv_bind E. unfold translate_roots in E0. inv_bind E0. inv_bind E0.
    injection E0 as <-. inv_bind E.
    destruct (merge_spec h f g _ _ Cf Cg) as (m & Hm & Em & _ & Hk). rewrite Em in *. rewrite (c_univ _ _ Cf), (c_univ _ _ Cg) in *.
    assert (Kf : forall x, In x (map fst of_) -> In x (map fst m)) by (intros; apply Hk; auto).
    assert (Kg : forall x, In x (map fst og) -> In x (map fst m)) by (intros; apply Hk; auto).
    assert (Lm : length m <= length k).
    { apply keys_le; [exact Hm|]. intros y Hy. apply in_concat. apply concat_in_app. rewrite !trees_of_tl. apply Hk in Hy.
      destruct Hy as [Hy|Hy]; [left; exact (proj1 (canon_key f of_ y Cf) Hy)|right; exact (proj1 (canon_key g og y Cg) Hy)]. }
    assert (Lf : length of_ <= length m).
    { rewrite <- !(map_length fst). apply NoDup_incl_length; [apply ssorted_NoDup, (c_ok _ _ Cf)|exact Kf]. }
    assert (Lg : length og <= length m).
    { rewrite <- !(map_length fst). apply NoDup_incl_length; [apply ssorted_NoDup, (c_ok _ _ Cg)|exact Kg]. }
    pose proof (c_wf _ _ Cf) as Zf. pose proof (c_wf _ _ Cg) as Zg. pose proof (canon_known_labels _ _ Cf) as Nf. pose proof (canon_known_labels _ _ Cg) as Ng.
    destruct (translate_inside of_ m Hm Kf _ 0 _ Zf Nf E1) as [Z1 B1]. destruct (translate_inside og m Hm Kg _ 0 _ Zg Ng E2) as [Z2 B2].
    destruct (depth_canonical h m _ r depth tot Hm E ltac:(enf Hd)) as (L & SL).
    exists L. intros loops Hl a mf mg I0 [D1 Q1] [D2 Q2]. unfold s_binop. rewrite Q1, Q2, (c_univ _ _ Cf), (c_univ _ _ Cg), Em.
    getn. getn.
    step (depth_translate of_ m Hm Kf (length of_) _ 0 _ (Nat.le_refl _) Zf Nf E1); [enf Hd|eassumption|eassumption|].
    step (depth_translate og m Hm Kg (length og) _ 0 _ (Nat.le_refl _) Zg Ng E2); [enf Hd|eassumption|eassumption|].
    step (Hop (length m) (length m) 0 _ _ _ (Nat.le_refl _) Z1 Z2 B1 B2 E0); [enf Hd|eassumption|eassumption|eassumption|].
    apply SL; auto.
  Qed.

  Lemma depth_of_trees (f : forest T) occ : canon f occ -> length occ <= length (once (concat (trees_of f))).
  Proof. intros C. exact (canon_different f occ C). Qed.

  Lemma depth_subset h (f r : forest T) e depth tot : Canon f -> f_subset h f e = Some r ->
    enough (2 * length (once (concat (trees_of f))) + 3) depth tot ->
    exists L, forall loops, enough L loops tot -> forall a mf, AInv a -> fden a mf f ->
    wp tot a (s_subset depth loops h mf e) (fun a' m => fden a' m r).
  Proof.
    intros (occ & C) E Hd. pose proof (depth_of_trees f occ C) as Lk. unfold f_subset, s_subset in *.
    pose proof (c_wf _ _ C) as Z. pose proof (canon_below _ _ C) as B. rewrite (c_univ _ _ C) in *.
    destruct (get_priority (univ_of occ) e) as [p|] eqn:Ep.
    - inv_bind E. destruct (depth_canonical h occ _ r depth tot (c_ok _ _ C) E ltac:(enf Hd)) as (L & SL).
      exists L. intros loops Hl a mf I0 [D Q]. rewrite Q, (c_univ _ _ C), Ep. getn.
      step (m_node_subset_depth (length occ) p (length occ) 0 _ _ (Nat.le_refl _) Z B E0); [enf Hd|eassumption|eassumption|].
      apply SL; auto.
    - injection E as <-. exists 0. intros loops _ a mf I0 [D Q]. rewrite Q, (c_univ _ _ C), Ep.
      apply (@wp_ret nat _). intros. apply m_empty_den; auto.
  Qed.
  Lemma depth_subset_not h (f r : forest T) e depth tot : Canon f -> f_subset_not h f e = Some r ->
    enough (2 * length (once (concat (trees_of f))) + 3) depth tot ->
    exists L, forall loops, enough L loops tot -> forall a mf, AInv a -> fden a mf f ->
    wp tot a (s_subset_not depth loops h mf e) (fun a' m => fden a' m r).
  Proof.
    intros (occ & C) E Hd. pose proof (depth_of_trees f occ C) as Lk. unfold f_subset_not, s_subset_not in *.
    pose proof (c_wf _ _ C) as Z. pose proof (canon_below _ _ C) as B. rewrite (c_univ _ _ C) in *.
    destruct (get_priority (univ_of occ) e) as [p|] eqn:Ep.
    - inv_bind E. destruct (depth_canonical h occ _ r depth tot (c_ok _ _ C) E ltac:(enf Hd)) as (L & SL).
      exists L. intros loops Hl a mf I0 [D Q]. rewrite Q, (c_univ _ _ C), Ep. getn.
      step (m_node_subset_not_depth (length occ) p (length occ) 0 _ _ (Nat.le_refl _) Z B E0); [enf Hd|eassumption|eassumption|].
      apply SL; auto.
    - injection E as <-. exists 0. intros loops _ a mf I0 [D Q]. rewrite Q, (c_univ _ _ C), Ep.
      apply (@wp_ret nat _). intros. eapply fden_ext; eauto. split; auto.
  Qed.
  Lemma depth_subset_many h (f : forest T) es d md fn mfn r depth tot : Canon f ->
    (forall a mf, AInv a -> fden a mf f -> fden a (md mf) (d f)) ->
    (forall n t t' ps, zwf 0 t -> below n t -> fn t ps = Some t' -> enough (S n) depth tot ->
       forall a m, AInv a -> nden a m t -> wp tot a (mfn depth m ps) (fun a' x => nden a' x t')) ->
    f_subset_many h f es d fn = Some r ->
    enough (2 * length (once (concat (trees_of f))) + 3) depth tot ->
    exists L, forall loops, enough L loops tot -> forall a mf, AInv a -> fden a mf f ->
    wp tot a (s_subset_many depth loops h mf es md mfn) (fun a' m => fden a' m r).
  Proof.
    intros (occ & C) Hdef Hfn E Hd. pose proof (depth_of_trees f occ C) as Lk. unfold f_subset_many, s_subset_many in *.
    pose proof (c_wf _ _ C) as Z. pose proof (canon_below _ _ C) as B. destruct es as [|e es].
    - injection E as <-. exists 0. intros loops _ a mf I0 D. apply (@wp_ret nat _). intros. eapply fden_ext; eauto.
    - destruct (negb (length (e :: es) =? length (get_priorities (f_univ f) (e :: es)))) eqn:En.
      + injection E as <-. exists 0. intros loops _ a mf I0 [D Q]. rewrite Q, En. apply (@wp_ret nat _). intros a' Ex I1.
        apply Hdef; auto. eapply fden_ext; eauto. split; auto.
      + inv_bind E. rewrite (c_univ _ _ C) in E.
        destruct (depth_canonical h occ _ r depth tot (c_ok _ _ C) E ltac:(enf Hd)) as (L & SL).
        exists L. intros loops Hl a mf I0 [D Q]. rewrite Q, En. getn.
        step (Hfn (length occ) _ _ _ Z B E0); [enf Hd|eassumption|eassumption|].
        rewrite (c_univ _ _ C). apply SL; auto.
  Qed.

  Lemma inside_union : inside_op union.
  Proof. intros n l t1 t2 t. apply union_out. Qed.
  Lemma inside_intersect : inside_op intersect.
  Proof. intros n l t1 t2 t. apply intersect_out. Qed.
  Lemma inside_product : inside_op product.
  Proof. intros n l t1 t2 t. apply product_out. Qed.

  Lemma depth_call c (fs : list (forest T)) y depth tot : Forall Reach fs -> run_call fs c = Some y ->
    enough (call_depth fs c) depth tot ->
    exists L, forall loops, enough L loops tot -> forall a ms, AInv a -> rden a ms fs ->
    wp tot a (s_call depth loops ms c) (fun a' x => sden a' x y).
  Proof.
    intros R E Hd. assert (Cr : forall i, Canon (reg fs i)) by (intros; apply Reach_Canon, reg_reach; auto).
    assert (N0 : forall o, new o fs = Some y -> forall m,
      (forall f, o = Some f -> exists L, forall loops, enough L loops tot -> forall a ms, AInv a -> rden a ms fs ->
         wp tot a (m loops ms) (fun a' x => fden a' x f)) ->
      exists L, forall loops, enough L loops tot -> forall a ms, AInv a -> rden a ms fs ->
        wp tot a (mnew (m loops ms) ms) (fun a' x => sden a' x y)).
    { intros o Eo m Hm. destruct o as [f|]; [|discriminate]. injection Eo as <-. destruct (Hm _ eq_refl) as (L & S1).
      exists L. intros loops Hf a ms I0 D. apply mnew_spec; auto. }
    unfold call_depth in Hd.
    assert (OB : forall op mop h i j, (forall n, depth2 op mop n) -> inside_op op ->
      enough (2 * length (once (concat (trees_of (reg fs i) ++ trees_of (reg fs j)))) + 3) depth tot ->
      new (f_binop op h (reg fs i) (reg fs j)) fs = Some y ->
      exists L, forall loops, enough L loops tot -> forall a ms, AInv a -> rden a ms fs ->
        wp tot a (mnew (s_binop mop depth loops h (mreg ms i) (mreg ms j)) ms) (fun a' x => sden a' x y)).
    { intros op mop h i j H1 H2 Hd' Eo. apply (N0 _ Eo (fun loops ms => s_binop mop depth loops h (mreg ms i) (mreg ms j))).
      intros f Ef. destruct (depth_binop op mop h _ _ f depth tot H1 H2 (Cr i) (Cr j) Ef Hd') as (L & SL).
      exists L. intros loops Hl a ms I0 D. apply SL; auto using rden_reg. }
    destruct c as [|h items|h rows|h items|h i j|h i j|h i j|h i e|h i e|h i es|h i es|i|i|i|h i|i j]; cbn [run_call s_call call_items] in *.
    - apply (N0 _ E (fun _ _ => Ret m_empty)). intros f Ef. injection Ef as <-. exists 0. intros loops _ a ms I0 D.
      apply (@wp_ret nat _). intros. apply m_empty_den; auto.
    - apply (N0 _ E (fun _ _ => m_unit depth h items)). intros f Ef. exists 0. intros loops _ a ms I0 D. apply depth_unit; [exact Ef|enf Hd|exact I0].
    - apply (N0 _ E (fun _ _ => m_many depth h rows)). intros f Ef. exists 0. intros loops _ a ms I0 D. apply depth_many; [exact Ef|enf Hd|exact I0].
    - apply (N0 _ E (fun _ _ => m_unique depth h items)). intros f Ef. exists 0. intros loops _ a ms I0 D. apply depth_unique_f; [exact Ef|enf Hd|exact I0].
    - apply (OB union m_union); auto using m_union_depth, inside_union.
    - apply (OB intersect m_intersect); auto using m_intersect_depth, inside_intersect.
    - apply (OB product m_product); auto using m_product_depth, inside_product.
    - apply (N0 _ E (fun loops ms => s_subset depth loops h (mreg ms i) e)). intros f Ef.
      destruct (depth_subset h _ f e depth tot (Cr i) Ef Hd) as (L & SL). exists L. intros loops Hl a ms I0 D. apply SL; auto using rden_reg.
    - apply (N0 _ E (fun loops ms => s_subset_not depth loops h (mreg ms i) e)). intros f Ef.
      destruct (depth_subset_not h _ f e depth tot (Cr i) Ef Hd) as (L & SL). exists L. intros loops Hl a ms I0 D. apply SL; auto using rden_reg.
    - apply (N0 _ E (fun loops ms => s_subset_many depth loops h (mreg ms i) es (fun _ => m_empty) m_node_subset_all)). intros f Ef.
      destruct (depth_subset_many h (reg fs i) es (fun _ => f_empty) (fun _ => m_empty) node_subset_all m_node_subset_all f depth tot (Cr i)) as (L & SL);
        [intros; apply m_empty_den; auto| |exact Ef|exact Hd|exists L; intros loops Hl a ms I0 D; apply SL; auto using rden_reg].
      intros n t t' ps Z B E' Hn. apply (m_node_subset_all_depth n ps n 0 t t' (Nat.le_refl _) Z B E'); exact Hn.
    - apply (N0 _ E (fun loops ms => s_subset_many depth loops h (mreg ms i) es (fun f => f) m_node_subset_none)). intros f Ef.
      destruct (depth_subset_many h (reg fs i) es (fun f => f) (fun f => f) node_subset_none m_node_subset_none f depth tot (Cr i)) as (L & SL);
        [auto| |exact Ef|exact Hd|exists L; intros loops Hl a ms I0 D; apply SL; auto using rden_reg].
      intros n t t' ps Z B E' Hn. apply (m_node_subset_none_depth n ps n 0 t t' (Nat.le_refl _) Z B E'); exact Hn.
    - destruct (m_call_spec (CTrees i) fs y E) as (F & S1). exists F. exact (fun loops Hl => S1 loops tot Hl).
    - destruct (m_call_spec (CLen i) fs y E) as (F & S1). exists F. exact (fun loops Hl => S1 loops tot Hl).
    - destruct (m_call_spec (CIsEmpty i) fs y E) as (F & S1). exists F. exact (fun loops Hl => S1 loops tot Hl).
    - destruct (m_call_spec (COccurrences h i) fs y E) as (F & S1). exists F. exact (fun loops Hl => S1 loops tot Hl).
    - destruct (m_call_spec (CEq i j) fs y E) as (F & S1). exists F. exact (fun loops Hl => S1 loops tot Hl).
  Qed.
End Calls.
