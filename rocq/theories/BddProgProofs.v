(** BddProgProofs: every program of BddProg.v, run against the shared arena with
    any interference, computes what BddModel.v computes on values. *)
From Coq Require Import List Arith Lia Bool Permutation Sorted.
From Verif Require Import Base DD BddSpec BddModel BddRun ArenaModel PoolModel BddProg.
Import ListNotations.
From Verif Require Import BddNode ArenaProofs PoolProofs.

Section Node.
  Context {I : Type} `{OI : Ord I}.
  Notation nd := (gnode I).
  Implicit Types (a : arena I) (t : dd I).

  Lemma m_bbranch_spec tot a id low high tl th : AInv a -> nden a low tl -> nden a high th ->
    wp tot a (m_bbranch id low high) (fun a' n => nden a' n (Branch id tl th)).
  Proof.
    intros I0 D1 D2. unfold m_bbranch. pstep_with @wp_intern; [eassumption|]. pstep_with @wp_intern; [eassumption|].
    apply wp_ret. intros a' E _. plift E. constructor; auto.
  Qed.
  Lemma nden_leaf a b : nden a (GLeaf b) (Leaf b).
  Proof. constructor. Qed.
  Lemma m_pos_spec tot a id : AInv a -> wp tot a (m_pos id) (fun a' n => nden a' n (positive_branch id)).
  Proof. intros I0. apply m_bbranch_spec; auto using nden_leaf. Qed.
  Lemma m_neg_spec tot a id : AInv a -> wp tot a (m_neg id) (fun a' n => nden a' n (negative_branch id)).
  Proof. intros I0. apply m_bbranch_spec; auto using nden_leaf. Qed.
  Lemma m_collapse_spec tot a id low high tl th : AInv a -> nden a low tl -> nden a high th ->
    wp tot a (m_collapse id low high) (fun a' n => nden a' n (collapse id tl th)).
  Proof.
    intros I0 D1 D2. unfold m_collapse, collapse. rewrite (gnode_eqb_den a low high tl th I0 D1 D2).
    destruct (dd_eqb tl th); [apply wp_same; auto|apply m_bbranch_spec; auto].
  Qed.

  (** split_branch on values *)
  Definition v_split (t : dd I) (id : I) : dd I * dd I :=
    match t with
    | Branch i l h => if eqb_ id i then (l, h) else (t, t)
    | Leaf _ => (t, t)
    end.
  Definition sden a (x : nd * nd) (y : dd I * dd I) : Prop := nden a (fst x) (fst y) /\ nden a (snd x) (snd y).
  Lemma m_split_spec tot a n t id : AInv a -> nden a n t ->
    wp tot a (m_split n id) (fun a' x => sden a' x (v_split t id)).
  Proof.
    intros I0 D. inversion D; subst; cbn [m_split v_split].
    - apply wp_ret. intros a' E _. plift E. split; auto.
    - destruct (eqb_ id l).
      + pget. pget. apply wp_ret. intros a' E _. plift E. split; auto.
      + apply wp_ret. intros a' E _. plift E. split; auto.
  Qed.
  Lemma bitor_split i lo hi j lo' hi' :
    let t1 := Branch i lo hi in let t2 := Branch j lo' hi' in
    let id := match cmp i j with Lt | Eq => i | Gt => j end in
    bitor t1 t2 = collapse id (bitor (fst (v_split t1 id)) (fst (v_split t2 id))) (bitor (snd (v_split t1 id)) (snd (v_split t2 id)))
    /\ size (fst (v_split t1 id)) + size (fst (v_split t2 id)) < size t1 + size t2
    /\ size (snd (v_split t1 id)) + size (snd (v_split t2 id)) < size t1 + size t2.
  Proof.
    cbv zeta. rewrite bitor_BB. cbn [v_split]. unfold eqb_.
    destruct (cmp i j) eqn:E.
    - apply cmp_eq in E. subst. rewrite cmp_refl. cbn [fst snd size]. repeat split; lia.
    - rewrite cmp_refl, E. cbn [fst snd size]. repeat split; lia.
    - rewrite cmp_refl. rewrite (cmp_antisym i j), E. cbn [fst snd size CompOpp]. repeat split; lia.
  Qed.
  Lemma bitand_split i lo hi j lo' hi' :
    let t1 := Branch i lo hi in let t2 := Branch j lo' hi' in
    let id := match cmp i j with Lt | Eq => i | Gt => j end in
    bitand t1 t2 = collapse id (bitand (fst (v_split t1 id)) (fst (v_split t2 id))) (bitand (snd (v_split t1 id)) (snd (v_split t2 id)))
    /\ size (fst (v_split t1 id)) + size (fst (v_split t2 id)) < size t1 + size t2
    /\ size (snd (v_split t1 id)) + size (snd (v_split t2 id)) < size t1 + size t2.
  Proof.
    cbv zeta. rewrite bitand_BB. cbn [v_split]. unfold eqb_.
    destruct (cmp i j) eqn:E.
    - apply cmp_eq in E. subst. rewrite cmp_refl. cbn [fst snd size]. repeat split; lia.
    - rewrite cmp_refl, E. cbn [fst snd size]. repeat split; lia.
    - rewrite cmp_refl. rewrite (cmp_antisym i j), E. cbn [fst snd size CompOpp]. repeat split; lia.
  Qed.

  Definition bop_spec (op : dd I -> dd I -> dd I) (m : nat -> nd -> nd -> prog I nd) : Prop :=
    forall t1 t2 fuel tot, suffices (size t1 + size t2) fuel tot ->
    forall a n1 n2, AInv a -> nden a n1 t1 -> nden a n2 t2 ->
    wp tot a (m fuel n1 n2) (fun a' n => nden a' n (op t1 t2)).

  Lemma m_both_spec op (m : nat -> nd -> nd -> prog I nd) k tot id t1 t2 a n1 n2 :
    (forall a n1 n2, AInv a -> nden a n1 (fst (v_split t1 id)) -> nden a n2 (fst (v_split t2 id)) ->
       wp tot a (m k n1 n2) (fun a' n => nden a' n (op (fst (v_split t1 id)) (fst (v_split t2 id))))) ->
    (forall a n1 n2, AInv a -> nden a n1 (snd (v_split t1 id)) -> nden a n2 (snd (v_split t2 id)) ->
       wp tot a (m k n1 n2) (fun a' n => nden a' n (op (snd (v_split t1 id)) (snd (v_split t2 id))))) ->
    AInv a -> nden a n1 t1 -> nden a n2 t2 ->
    wp tot a (m_both (m k) id n1 n2)
      (fun a' n => nden a' n (collapse id (op (fst (v_split t1 id)) (fst (v_split t2 id)))
                                          (op (snd (v_split t1 id)) (snd (v_split t2 id))))).
  Proof.
    intros H1 H2 I0 D1 D2. unfold m_both.
    pstep_with m_split_spec; [eassumption|eassumption|]. destruct D as [Da Db].
    pstep_with m_split_spec; [eassumption|eassumption|]. destruct D as [Dc Dd].
    pstep_with H1; [eassumption|eassumption|eassumption|].
    pstep_with H2; [eassumption|eassumption|eassumption|].
    apply m_collapse_spec; auto.
  Qed.

  Ltac bop_start t1 t2 :=
    let k := fresh "k" in
    intros t1 t2; remember (size t1 + size t2) as k eqn:Hk; revert t1 t2 Hk;
    induction k as [k IH0] using lt_wf_ind; intros t1 t2 Hk fuel tot Hf a n1 n2 I0 D1 D2;
    pose proof (size_pos t1); pose proof (size_pos t2);
    destruct k as [|k]; [lia|];
    pose proof (fun u1 u2 (h : size u1 + size u2 < S k) fu to (hs : suffices k fu to) =>
      IH0 _ h u1 u2 eq_refl fu to (suffices_le _ _ _ _ (le_S_n _ _ h) hs)) as IH; clear IH0;
    pstart Hf.

  Lemma v_split_leaf b id : v_split (Leaf b) id = (Leaf b, Leaf b).
  Proof. reflexivity. Qed.
  Lemma v_split_top id l h : v_split (Branch id l h) id = (l, h).
  Proof. cbn [v_split]. unfold eqb_. rewrite cmp_refl. reflexivity. Qed.

  Lemma m_bitor_spec : bop_spec bitor m_bitor.
  Proof.
    unfold bop_spec. bop_start t1 t2.
    destruct t1 as [[]|id1 lo1 hi1]; inversion D1; subst; destruct t2 as [[]|id2 lo2 hi2]; inversion D2; subst;
      cbn [m_bitor]; try (apply wp_same; first [exact D1|exact D2|constructor]).
    - rewrite bitor_LB.
      pose proof (m_both_spec bitor m_bitor k0 tot id2 (Leaf true) (Branch id2 lo2 hi2) a (GLeaf true) (GBranch id2 lo hi)) as M.
      rewrite v_split_leaf, v_split_top in M. apply M; auto; intros; (apply IH; [simpl in *; lia|exact Hf| | |]; assumption).
    - change (bitor (Branch id1 lo1 hi1) (Leaf true)) with (collapse id1 (bitor lo1 (Leaf true)) (bitor hi1 (Leaf true))).
      pose proof (m_both_spec bitor m_bitor k0 tot id1 (Branch id1 lo1 hi1) (Leaf true) a (GBranch id1 lo hi) (GLeaf true)) as M.
      rewrite v_split_leaf, v_split_top in M. apply M; auto; intros; (apply IH; [simpl in *; lia|exact Hf| | |]; assumption).
    - destruct (bitor_split id1 lo1 hi1 id2 lo2 hi2) as (E & S1 & S2). rewrite E. clear E.
      apply m_both_spec; auto; intros; (apply IH; [lia|exact Hf| | |]; assumption).
  Qed.
  Lemma m_bitand_spec : bop_spec bitand m_bitand.
  Proof.
    unfold bop_spec. bop_start t1 t2.
    destruct t1 as [[]|id1 lo1 hi1]; inversion D1; subst; destruct t2 as [[]|id2 lo2 hi2]; inversion D2; subst;
      cbn [m_bitand]; try (apply wp_same; first [exact D1|exact D2|constructor]).
    - rewrite bitand_LB.
      pose proof (m_both_spec bitand m_bitand k0 tot id2 (Leaf false) (Branch id2 lo2 hi2) a (GLeaf false) (GBranch id2 lo hi)) as M.
      rewrite v_split_leaf, v_split_top in M. apply M; auto; intros; (apply IH; [simpl in *; lia|exact Hf| | |]; assumption).
    - change (bitand (Branch id1 lo1 hi1) (Leaf false)) with (collapse id1 (bitand lo1 (Leaf false)) (bitand hi1 (Leaf false))).
      pose proof (m_both_spec bitand m_bitand k0 tot id1 (Branch id1 lo1 hi1) (Leaf false) a (GBranch id1 lo hi) (GLeaf false)) as M.
      rewrite v_split_leaf, v_split_top in M. apply M; auto; intros; (apply IH; [simpl in *; lia|exact Hf| | |]; assumption).
    - destruct (bitand_split id1 lo1 hi1 id2 lo2 hi2) as (E & S1 & S2). rewrite E. clear E.
      apply m_both_spec; auto; intros; (apply IH; [lia|exact Hf| | |]; assumption).
  Qed.

  Lemma m_bitnot_spec a n t : nden a n t -> nden a (m_bitnot n) (bitnot t).
  Proof. intros D. inversion D; subst; simpl; [destruct b; constructor|constructor; auto]. Qed.
  Lemma m_bitxor_spec t1 t2 : exists F, forall fuel tot, suffices F fuel tot ->
    forall a n1 n2, AInv a -> nden a n1 t1 -> nden a n2 t2 ->
    wp tot a (m_bitxor fuel n1 n2) (fun a' n => nden a' n (bitxor t1 t2)).
  Proof.
    exists (size t1 + size (bitnot t2) + (size (bitnot t1) + size t2) + (size (bitand t1 (bitnot t2)) + size (bitand (bitnot t1) t2))).
    intros fuel tot Hf a n1 n2 I0 D1 D2. unfold m_bitxor, bitxor.
    eapply wp_bind; [eapply (m_bitand_spec t1 (bitnot t2)); [eapply suffices_le; [|exact Hf]; lia|exact I0|exact D1|apply m_bitnot_spec; exact D2]|intros a1 x E1 I1 Dx; cbv beta in Dx; plift E1|exact I0].
    eapply wp_bind; [eapply (m_bitand_spec (bitnot t1) t2); [eapply suffices_le; [|exact Hf]; lia|exact I1|apply m_bitnot_spec; exact D1|exact D2]|intros a2 y E2 I2 Dy; cbv beta in Dy; plift E2|exact I1].
    eapply (m_bitor_spec (bitand t1 (bitnot t2)) (bitand (bitnot t1) t2)); [eapply suffices_le; [|exact Hf]; lia|exact I2|exact Dx|exact Dy].
  Qed.

  Lemma m_breduce_spec t : forall fuel tot, suffices (size t) fuel tot -> forall a n, AInv a -> nden a n t ->
    wp tot a (m_breduce fuel n) (fun a' r => nden a' r (reduce t)).
  Proof.
    induction t as [b|id lo IHl hi IHh]; intros fuel tot Hf a n I0 D; pstart Hf; inversion D; subst; cbn [m_breduce reduce].
    - apply wp_same. constructor.
    - pget. pget. pstep_with IHl; [pfuel Hf|eassumption|eassumption|]. pstep_with IHh; [pfuel Hf|eassumption|eassumption|].
      apply m_collapse_spec; auto.
  Qed.
  Lemma m_brestrict_spec t item sel : forall fuel tot, suffices (size t) fuel tot -> forall a n, AInv a -> nden a n t ->
    wp tot a (m_brestrict fuel n item sel) (fun a' r => nden a' r (restrict t item sel)).
  Proof.
    induction t as [b|id lo IHl hi IHh]; intros fuel tot Hf a n I0 D; pstart Hf; inversion D; subst; cbn [m_brestrict restrict].
    - apply wp_same. constructor.
    - pget. pget. destruct (eqb_ id item).
      + destruct (negb sel); apply wp_same; assumption.
      + pstep_with IHl; [pfuel Hf|eassumption|eassumption|]. pstep_with IHh; [pfuel Hf|eassumption|eassumption|].
        apply m_collapse_spec; auto.
  Qed.

  Definition lden a (q : list nd) (v : list (dd I)) : Prop := Forall2 (nden a) q v.
  Lemma lden_ext a b q v : ext a b -> lden a q v -> lden b q v.
  Proof. intros E D. induction D; constructor; auto. eapply nden_ext; eauto. Qed.
  Fixpoint sizes (v : list (dd I)) : nat := match v with [] => 0 | t :: v' => size t + sizes v' end.
  Lemma m_bsummarize_loop_spec K : forall v nodes, sizes v <= K -> forall fuel tot, suffices (sizes v) fuel tot ->
    forall a q, AInv a -> lden a q v ->
    wp tot a (m_bsummarize_loop fuel q nodes) (fun _ r => r = summarize_loop K v nodes).
  Proof.
    induction K as [|K IH]; intros v nodes Hs fuel tot Hf a q I0 D.
    - destruct v as [|t v]; [|pose proof (size_pos t); simpl in Hs; lia]. inversion D; subst.
      destruct fuel; apply wp_val; reflexivity.
    - destruct v as [|t v]; inversion D as [|m u q' v' A D']; subst.
      + destruct fuel; apply wp_val; reflexivity.
      + destruct t as [b|id lo hi]; cbn [sizes size Nat.add] in Hs, Hf; (apply suffices_S in Hf; destruct Hf as (k & [(-> & Hf)|(-> & ->)]); [|reflexivity]);
          inversion A; subst; cbn [m_bsummarize_loop summarize_loop].
        * apply IH; [lia|exact Hf|exact I0|exact D'].
        * eapply wp_bind; [eapply wp_get_node; eassumption|intros a1 l E1 I1 Dl; cbv beta in Dl|exact I0]. plift E1.
          eapply wp_bind; [eapply wp_get_node; eassumption|intros a2 h E2 I2 Dh; cbv beta in Dh|exact I1]. plift E2. cbv zeta.
          replace (match h with GLeaf false => Excluded id | _ => Available id end)
            with (match hi with Leaf false => Excluded id | _ => Available id end).
          2:{ inversion Dh; subst; [destruct b|]; reflexivity. }
          apply IH; [cbn [sizes]; lia|eapply suffices_le; [|exact Hf]; cbn [sizes]; lia|exact I2|].
          constructor; [exact Dh|]. constructor; [exact Dl|]. eapply lden_ext; [|exact D']. eapply ext_trans; eauto.
  Qed.
  Lemma m_bsummarize_spec h t fuel tot a n : suffices (size t) fuel tot -> AInv a -> nden a n t ->
    wp tot a (m_bsummarize fuel h n) (fun _ r => r = summarize h t).
  Proof.
    intros Hf I0 D. unfold m_bsummarize.
    eapply wp_bind; [eapply (m_bsummarize_loop_spec (size t) [t] []);
      [simpl; lia|eapply suffices_le; [|exact Hf]; simpl; lia|exact I0|constructor; [exact D|constructor]]
      |intros a1 m E1 I1 ->|exact I0].
    apply wp_val. reflexivity.
  Qed.

  Lemma m_count_spec leaf join (f : dd I -> nat) : (forall b, f (Leaf b) = leaf b) ->
    (forall i lo hi, f (Branch i lo hi) = join (f lo) (f hi)) ->
    forall t fuel tot, suffices (size t) fuel tot -> forall a n, AInv a -> nden a n t ->
    wp tot a (m_count leaf join fuel n) (fun _ r => r = f t).
  Proof.
    intros Fl Fb t. induction t as [b|id lo IHl hi IHh]; intros fuel tot Hf a n I0 D; pstart Hf; inversion D; subst; cbn [m_count].
    - apply wp_val. rewrite Fl. reflexivity.
    - pget. pget. pstep_with IHl; [pfuel Hf|eassumption|eassumption|]. pstep_with IHh; [pfuel Hf|eassumption|eassumption|].
      subst. apply wp_val. rewrite Fb. reflexivity.
  Qed.

  Lemma m_to_structure_spec t : forall d fuel tot, suffices (size t) fuel tot -> forall a n, AInv a -> nden a n t ->
    wp tot a (m_to_structure fuel n d) (fun _ r => r = to_structure t d).
  Proof.
    induction t as [b|id lo IHl hi IHh]; intros d fuel tot Hf a n I0 D; pstart Hf; inversion D; subst; cbn [m_to_structure to_structure].
    - apply wp_val. reflexivity.
    - pget. pstep_with IHl; [pfuel Hf|eassumption|eassumption|]. pget. pstep_with IHh; [pfuel Hf|eassumption|eassumption|].
      subst. apply wp_val. reflexivity.
  Qed.
  Lemma m_to_content_spec t : forall c d fuel tot, suffices (size t) fuel tot -> forall a n, AInv a -> nden a n t ->
    wp tot a (m_to_content fuel n c d) (fun _ r => r = to_content t c d).
  Proof.
    induction t as [b|id lo IHl hi IHh]; intros c d fuel tot Hf a n I0 D; pstart Hf; inversion D; subst; cbn [m_to_content to_content].
    - apply wp_val. reflexivity.
    - pget. pstep_with IHl; [pfuel Hf|eassumption|eassumption|]. subst. pget. apply IHh; [pfuel Hf|eassumption|eassumption].
  Qed.
  Definition oden a (x : option nd) (y : option (dd I)) : Prop :=
    match x, y with Some n, Some t => nden a n t | None, None => True | _, _ => False end.
  Lemma oden_ext a b x y : ext a b -> oden a x y -> oden b x y.
  Proof. destruct x, y; simpl; auto. intros E D. eapply nden_ext; eauto. Qed.
  Lemma wp_oden tot a x y : oden a x y -> wp tot a (Ret x) (fun a' r => oden a' r y).
  Proof. intros D a' E _. eapply oden_ext; eauto. Qed.
  Lemma m_to_node_spec c tot s : forall a, AInv a ->
    wp tot a (m_to_node s c) (fun a' r => oden a' r (to_node s c)).
  Proof.
    assert (FIN : forall a item l h tl th, AInv a -> nden a l tl -> nden a h th ->
      wp tot a (do n <- m_bbranch item l h ; Ret (Some n)) (fun a' r => oden a' r (Some (Branch item tl th)))).
    { intros a item l h tl th I0 D1 D2. eapply wp_bind; [eapply m_bbranch_spec; eassumption|intros a1 n E1 I1 Dn; cbv beta in Dn|exact I0].
      apply wp_oden. exact Dn. }
    induction s as [d lo IHl hi IHh|d hi IHh|d lo IHl|b]; intros a I0; cbn [m_to_node to_node].
    - destruct (map_get c d) as [item|]; [|apply wp_oden; exact Logic.I]. cbn [bind].
      eapply wp_bind; [eapply IHl; exact I0|intros a1 l E1 I1 D1; cbv beta in D1|exact I0].
      destruct (to_node lo c) as [tl|], l as [l|]; simpl in D1; try contradiction; cbn [bind]; [|apply wp_oden; exact Logic.I].
      eapply wp_bind; [eapply IHh; exact I1|intros a2 h E2 I2 D2; cbv beta in D2|exact I1]. plift E2.
      destruct (to_node hi c) as [th|], h as [h|]; simpl in D2; try contradiction; cbn [bind]; [|apply wp_oden; exact Logic.I].
      apply FIN; auto.
    - destruct (map_get c d) as [item|]; [|apply wp_oden; exact Logic.I]. cbn [bind].
      eapply wp_bind; [eapply IHh; exact I0|intros a1 l E1 I1 D1; cbv beta in D1|exact I0].
      destruct (to_node hi c) as [tl|], l as [l|]; simpl in D1; try contradiction; cbn [bind]; [|apply wp_oden; exact Logic.I].
      apply FIN; auto using nden_leaf.
    - destruct (map_get c d) as [item|]; [|apply wp_oden; exact Logic.I]. cbn [bind].
      eapply wp_bind; [eapply IHl; exact I0|intros a1 l E1 I1 D1; cbv beta in D1|exact I0].
      destruct (to_node lo c) as [tl|], l as [l|]; simpl in D1; try contradiction; cbn [bind]; [|apply wp_oden; exact Logic.I].
      apply FIN; auto using nden_leaf.
    - apply wp_oden. apply nden_leaf.
  Qed.
End Node.

Section Closet.
  Context {I F : Type} `{OI : Ord I} `{OF : Ord F}.
  Notation nd := (gnode I).

  Definition cden (a : arena I) (m : mcloset I F) (c : closet I F) : Prop :=
    mc_index m = c_index c /\ mc_summary m = c_summary c /\ nden a (mc_root m) (c_root c).
  Lemma cden_ext a b m c : ext a b -> cden a m c -> cden b m c.
  Proof. intros E (A & B & D). split; auto. split; auto. eapply nden_ext; eauto. Qed.
  Definition bden (a : arena I) (m : mval I F) (v : bval I F) : Prop :=
    match m, v with MClo m, VClo c => cden a m c | MNode n, VNode t => nden a n t | _, _ => False end.
  Lemma bden_ext a b m v : ext a b -> bden a m v -> bden b m v.
  Proof. destruct m, v; simpl; auto; intros E D; [eapply cden_ext|eapply nden_ext]; eauto. Qed.
  Lemma bden_fun a m v w : bden a m v -> bden a m w -> v = w.
  Proof.
    destruct m as [m|n], v as [c|t], w as [c'|t']; simpl; try contradiction.
    - intros (A & B & D) (A' & B' & D'). destruct c as [i1 s1 r1], c' as [i2 s2 r2]. simpl in *.
      f_equal. f_equal; [congruence|congruence|]. exact (nden_fun _ _ _ _ D D').
    - intros D D'. f_equal. exact (nden_fun _ _ _ _ D D').
  Qed.

  Lemma m_closet_new_spec h index t fuel tot a n : suffices (size t) fuel tot -> AInv a -> nden a n t ->
    wp tot a (m_closet_new fuel h index n) (fun a' m => cden a' m (closet_new (F:=F) h index t)).
  Proof.
    intros Hf I0 D. unfold m_closet_new.
    eapply wp_bind; [eapply m_bsummarize_spec; [exact Hf|exact I0|exact D]|intros a1 s E1 I1 ->|exact I0].
    apply wp_ret. intros a2 E2 _. split; [reflexivity|]. split; [reflexivity|]. simpl. plift E1. plift E2. exact D.
  Qed.

  Definition rcden {E} (a : arena I) (x : res (mcloset I F) E) (y : res (closet I F) E) : Prop :=
    match x, y with Ok m, Ok c => cden a m c | Err e, Err e' => e = e' | _, _ => False end.
  Lemma rcden_ext {E} a b (x : res (mcloset I F) E) y : ext a b -> rcden a x y -> rcden b x y.
  Proof. destruct x, y; simpl; auto. apply cden_ext. Qed.
  Lemma wp_rcden {E} tot a (x : res (mcloset I F) E) y : rcden a x y -> wp tot a (Ret x) (fun a' r => rcden a' r y).
  Proof. intros D a' X _. eapply rcden_ext; eauto. Qed.

  Lemma m_select_item_spec h (c : closet I F) item : exists G, forall fuel tot, suffices G fuel tot ->
    forall a m, AInv a -> cden a m c ->
    wp tot a (m_select_item fuel h m item) (fun a' r => rcden a' r (select_item h c item)).
  Proof.
    exists (size (c_root c) + size (restrict (c_root c) item true)). intros fuel tot Hf a m I0 (A & B & D).
    unfold m_select_item, select_item, get_family. rewrite A, B.
    destruct (map_get (c_index c) item); [|apply wp_rcden; reflexivity].
    destruct (find _ _); [apply wp_rcden; reflexivity|].
    eapply wp_bind; [eapply (m_brestrict_spec (c_root c)); [eapply suffices_le; [|exact Hf]; lia|exact I0|exact D]|intros a1 r E1 I1 D1; cbv beta in D1|exact I0].
    eapply wp_bind; [eapply (m_bsummarize_spec h (restrict (c_root c) item true)); [eapply suffices_le; [|exact Hf]; lia|exact I1|exact D1]|intros a2 s E2 I2 ->|exact I1].
    apply wp_rcden. split; [reflexivity|]. split; [reflexivity|]. simpl. plift E2. exact D1.
  Qed.

  Lemma m_restrict_all_spec (sels : list I) : forall t, exists G, forall fuel tot, suffices G fuel tot ->
    forall a n, AInv a -> nden a n t ->
    wp tot a (m_restrict_all fuel n sels) (fun a' r => nden a' r (restrict_all t sels)).
  Proof.
    induction sels as [|x sels IH]; intros t.
    - exists 0. intros fuel tot _ a n I0 D. apply wp_same. exact D.
    - destruct (IH (restrict t x true)) as (G & S1). exists (size t + G). intros fuel tot Hf a n I0 D.
      unfold m_restrict_all. cbn [pfoldM].
      eapply wp_bind; [eapply (m_brestrict_spec t); [eapply suffices_le; [|exact Hf]; lia|exact I0|exact D]|intros a1 r E1 I1 D1; cbv beta in D1|exact I0].
      apply S1; [eapply suffices_le; [|exact Hf]; lia|exact I1|exact D1].
  Qed.
  Lemma m_walk_spec (t : dd I) : forall items fuel tot, suffices (size t) fuel tot -> forall a n, AInv a -> nden a n t ->
    wp tot a (m_walk fuel n items) (fun _ r => r = walk t items).
  Proof.
    induction t as [b|id lo IHl hi IHh]; intros items fuel tot Hf a n I0 D; pstart Hf; inversion D; subst; cbn [m_walk].
    - apply wp_val. reflexivity.
    - eapply wp_bind; [eapply wp_get_node; eassumption|intros a1 h E1 I1 Dh; cbv beta in Dh|exact I0]. plift E1.
      eapply wp_bind; [eapply wp_get_node; eassumption|intros a2 l E2 I2 Dl; cbv beta in Dl|exact I1]. plift E2.
      inversion Dh; subst; [destruct b|].
      + change (walk (Branch id lo (Leaf true)) items) with (walk (Leaf true : dd I) (items ++ [id])).
        apply IHh; [pfuel Hf|exact I2|exact Dh].
      + change (walk (Branch id lo (Leaf false)) items) with (walk lo items).
        apply IHl; [pfuel Hf|exact I2|exact Dl].
      + match goal with |- wp _ _ (m_walk _ ?n _) (fun _ r => r = walk (Branch _ _ ?t) _) =>
          change (walk (Branch id lo t) items) with (walk t (items ++ [id])) end.
        apply IHh; [pfuel Hf|exact I2|exact Dh].
  Qed.

  Lemma m_complete_outfit_spec (c : closet I F) sels : exists G, forall fuel tot, suffices G fuel tot ->
    forall a m, AInv a -> cden a m c ->
    wp tot a (m_complete_outfit fuel m sels) (fun _ r => r = complete_outfit c sels).
  Proof.
    destruct (m_restrict_all_spec sels (c_root c)) as (G & S1).
    exists (G + size (restrict_all (c_root c) sels)). intros fuel tot Hf a m I0 (A & B & D).
    unfold m_complete_outfit, complete_outfit. cbv zeta. rewrite A, B.
    change (find_unknown_items (mkC (c_index c) (c_summary c) (Leaf false)) sels) with (find_unknown_items c sels).
    change (find_duplicate_items (mkC (c_index c) (c_summary c) (Leaf false)) sels) with (find_duplicate_items c sels).
    destruct (find_unknown_items c sels); [apply wp_val; reflexivity|].
    destruct (find_duplicate_items c sels) as [[dup|]|]; cbn [bind]; [apply wp_val; reflexivity| |apply wp_val; reflexivity].
    eapply wp_bind; [eapply S1; [eapply suffices_le; [|exact Hf]; lia|exact I0|exact D]|intros a1 r E1 I1 D1; cbv beta in D1|exact I0].
    plift E1. unfold find_conflicting_items.
    assert (REST : wp tot a1 (do r' <- m_restrict_all fuel (mc_root m) sels ; do items <- m_walk fuel r' sels ; Ret (Some (Ok (sort items))))
                    (fun _ r => r = Some (Ok (E:=outfit_error I F) (sort (walk (restrict_all (c_root c) sels) sels))))).
    { eapply wp_bind; [eapply S1; [eapply suffices_le; [|exact Hf]; lia|exact I1|exact D]|intros a2 r2 E2 I2 D2; cbv beta in D2|exact I1].
      eapply wp_bind; [eapply (m_walk_spec (restrict_all (c_root c) sels)); [eapply suffices_le; [|exact Hf]; lia|exact I2|exact D2]|intros a3 r3 E3 I3 ->|exact I2].
      apply wp_val. reflexivity. }
    revert D1 REST. generalize (restrict_all (c_root c) sels). intros R D1 REST.
    inversion D1; subst; [destruct b|].
    - exact REST.
    - apply wp_val. reflexivity.
    - exact REST.
  Qed.

  (** folds *)
  Lemma pfold_node {A} (f : nat -> nd -> A -> prog I nd) (g : dd I -> A -> dd I) :
    (forall t x, exists G, forall fuel tot, suffices G fuel tot -> forall a n, AInv a -> nden a n t ->
       wp tot a (f fuel n x) (fun a' r => nden a' r (g t x))) ->
    forall l t, exists G, forall fuel tot, suffices G fuel tot -> forall a n, AInv a -> nden a n t ->
       wp tot a (pfoldM (f fuel) l n) (fun a' r => nden a' r (fold_left g l t)).
  Proof.
    intros Hf l. induction l as [|x l IH]; intros t.
    - exists 0. intros fuel tot _ a n I0 D. apply wp_same. exact D.
    - destruct (Hf t x) as (G1 & S1). destruct (IH (g t x)) as (G2 & S2). exists (G1 + G2).
      intros fuel tot Hs a n I0 D. cbn [pfoldM fold_left].
      eapply wp_bind; [eapply S1; [eapply suffices_le; [|exact Hs]; lia|exact I0|exact D]|intros a1 r E1 I1 D1; cbv beta in D1|exact I0].
      apply S2; [eapply suffices_le; [|exact Hs]; lia|exact I1|exact D1].
  Qed.

  (** fold a fixed list of already computed nodes with [&] *)
  Definition mapden (a : arena I) (m : list (I * nd)) (v : list (I * dd I)) : Prop :=
    Forall2 (fun x y => fst x = fst y /\ nden a (snd x) (snd y)) m v.
  Lemma mapden_ext a b m v : ext a b -> mapden a m v -> mapden b m v.
  Proof. intros E D. induction D as [|x y m v [A B] D IH]; constructor; auto. split; auto. eapply nden_ext; eauto. Qed.
  Lemma mapden_insert a m v i n t : mapden a m v -> nden a n t -> mapden a (map_insert m i n) (map_insert v i t).
  Proof.
    intros D Dn. induction D as [|[k x] [k' y] m v [A B] D IH]; simpl in *.
    - constructor; [|constructor]. simpl; auto.
    - subst k'. unfold map_insert in *; cbn [map_update]; destruct (cmp i k); (apply Forall2_cons; [simpl; auto|]); auto; apply Forall2_cons; simpl; auto.
  Qed.
  Lemma m_and_list_spec (v : list (I * dd I)) : forall t, exists G, forall fuel tot, suffices G fuel tot ->
    forall a m n, AInv a -> mapden a m v -> nden a n t ->
    wp tot a (pfoldM (fun r q => m_bitand fuel r (snd q)) m n) (fun a' r => nden a' r (fold_left (fun r p => bitand r (snd p)) v t)).
  Proof.
    induction v as [|[k u] v IH]; intros t.
    - exists 0. intros fuel tot _ a m n I0 Dm D. inversion Dm; subst. apply wp_same. exact D.
    - destruct (IH (bitand t u)) as (G & S1). exists (size t + size u + G). intros fuel tot Hs a m n I0 Dm D.
      inversion Dm as [|[k' x] y m' v' [A B] Dm']; subst. simpl in A, B. cbn [pfoldM fold_left snd].
      eapply wp_bind; [eapply (m_bitand_spec t u); [eapply suffices_le; [|exact Hs]; lia|exact I0|exact D|exact B]|intros a1 r E1 I1 D1; cbv beta in D1|exact I0].
      apply S1; [eapply suffices_le; [|exact Hs]; lia|exact I1|eapply mapden_ext; eauto|exact D1].
  Qed.

  Lemma m_negs_spec tot (items : list I) : forall a m v, AInv a -> mapden a m v ->
    wp tot a (pfoldM (fun m i => do n <- m_neg i ; Ret (map_insert m i n)) items m)
       (fun a' r => mapden a' r (fold_left (fun m i => map_insert m i (negative_branch i)) items v)).
  Proof.
    induction items as [|i items IH]; intros a m v I0 D; cbn [pfoldM fold_left].
    - apply wp_ret. intros a' E _. eapply mapden_ext; eauto.
    - eapply wp_bind; [eapply wp_bind; [eapply m_neg_spec; exact I0|intros a1 n E1 I1 D1; cbv beta in D1|exact I0]|intros a2 r E2 I2 D2; cbv beta in D2|exact I0].
      + apply wp_ret. intros a2 E2 I2.
        instantiate (1 := fun a' r => mapden a' r (map_insert v i (negative_branch i))). cbv beta.
        plift E2. apply mapden_insert; [|exact D1]. eapply mapden_ext; [|exact D]. eapply ext_trans; eauto.
      + apply IH; auto.
  Qed.

  Lemma m_sibling_spec (items : list I) : exists G, forall fuel tot, suffices G fuel tot -> forall a, AInv a ->
    wp tot a (m_sibling fuel items) (fun a' r => nden a' r (sibling_relationship items)).
  Proof.
    unfold m_sibling, sibling_relationship. cbv zeta.
    set (all := fold_left (fun m i => map_insert m i (negative_branch i)) items []).
    assert (X : forall l t, exists G, forall fuel tot, suffices G fuel tot -> forall a m n, AInv a -> mapden a m all -> nden a n t ->
      wp tot a (pfoldM (fun other item => do p <- m_pos item ;
          do x <- pfoldM (fun r q => m_bitand fuel r (snd q)) (map_insert m item p) (GLeaf true) ;
          m_bitor fuel other x) l n)
        (fun a' r => nden a' r (fold_left bitor (map (fun item => fold_left (fun r p => bitand r (snd p))
                          (map_insert all item (positive_branch item)) (Leaf true)) l) t))).
    { induction l as [|x l IH]; intros t.
      - exists 0. intros fuel tot _ a m n I0 Dm D. apply wp_same. exact D.
      - cbn [map fold_left].
        destruct (m_and_list_spec (map_insert all x (positive_branch x)) (Leaf true)) as (G1 & S1).
        set (u := fold_left (fun r p => bitand r (snd p)) (map_insert all x (positive_branch x)) (Leaf true)) in *.
        destruct (IH (bitor t u)) as (G2 & S2). exists (G1 + G2 + (size t + size u)).
        intros fuel tot Hs a m n I0 Dm D. cbn [pfoldM].
        eapply wp_bind; [|intros a3 r3 E3 I3 D3; cbv beta in D3; apply S2; [eapply suffices_le; [|exact Hs]; lia|exact I3|eapply mapden_ext; [exact E3|exact Dm]|exact D3]|exact I0].
        eapply wp_bind; [eapply m_pos_spec; exact I0|intros a1 p E1 I1 D1; cbv beta in D1|exact I0]. plift E1.
        eapply wp_bind; [eapply S1; [eapply suffices_le; [|exact Hs]; lia|exact I1|apply mapden_insert; [eapply mapden_ext; eauto|exact D1]|apply nden_leaf]|intros a2 r E2 I2 D2; cbv beta in D2|exact I1].
        plift E2. eapply (m_bitor_spec t u); [eapply suffices_le; [|exact Hs]; lia|exact I2|exact D|exact D2]. }
    destruct (X items (Leaf false)) as (G & S1). exists G. intros fuel tot Hs a I0.
    eapply wp_bind; [eapply (m_negs_spec tot items a [] []); [exact I0|constructor]|intros a1 m E1 I1 D1; cbv beta in D1|exact I0].
    apply S1; [exact Hs|exact I1|exact D1|apply nden_leaf].
  Qed.
  Lemma m_exclusion_spec (s x : I) : exists G, forall fuel tot, suffices G fuel tot -> forall a, AInv a ->
    wp tot a (m_exclusion fuel s x) (fun a' r => nden a' r (exclusion_relationship s x)).
  Proof.
    exists (size (negative_branch s) + size (negative_branch x)). intros fuel tot Hs a I0. unfold m_exclusion.
    pstep_with (@m_neg_spec I OI); [eassumption|]. pstep_with (@m_neg_spec I OI); [eassumption|]. eapply (@m_bitor_spec I OI); [exact Hs| | |]; assumption.
  Qed.
  Lemma m_inclusion_spec (s x : I) : exists G, forall fuel tot, suffices G fuel tot -> forall a, AInv a ->
    wp tot a (m_inclusion fuel s x) (fun a' r => nden a' r (inclusion_relationship s x)).
  Proof.
    exists (size (negative_branch s) + size (positive_branch x)). intros fuel tot Hs a I0. unfold m_inclusion.
    pstep_with (@m_neg_spec I OI); [eassumption|]. pstep_with (@m_pos_spec I OI); [eassumption|]. eapply (@m_bitor_spec I OI); [exact Hs| | |]; assumption.
  Qed.
  Lemma m_and_new (p : nat -> prog I nd) u : (exists G, forall fuel tot, suffices G fuel tot -> forall a, AInv a ->
      wp tot a (p fuel) (fun a' r => nden a' r u)) ->
    forall t, exists G, forall fuel tot, suffices G fuel tot -> forall a n, AInv a -> nden a n t ->
      wp tot a (do x <- p fuel ; m_bitand fuel n x) (fun a' r => nden a' r (bitand t u)).
  Proof.
    intros (G & S1) t. exists (G + (size t + size u)). intros fuel tot Hs a n I0 D.
    eapply wp_bind; [eapply S1; [eapply suffices_le; [|exact Hs]; lia|exact I0]|intros a1 x E1 I1 D1; cbv beta in D1|exact I0]. plift E1.
    eapply (m_bitand_spec t u); [eapply suffices_le; [|exact Hs]; lia|exact I1|exact D|exact D1].
  Qed.
  Lemma m_build_root_spec (b : builder I F) : exists G, forall fuel tot, suffices G fuel tot -> forall a, AInv a ->
    wp tot a (m_build_root fuel b) (fun a' r => nden a' r (build_root b)).
  Proof.
    unfold m_build_root, build_root. cbv zeta.
    set (r1 := fold_left _ (b_contents b) _). set (r2 := fold_left _ (rule_pairs (b_excl b)) _).
    destruct (pfold_node (fun fuel r (p : F * list I) => do n <- m_sibling fuel (snd p) ; m_bitand fuel r n)
      (fun r p => bitand r (sibling_relationship (snd p))) (fun t x => m_and_new _ _ (m_sibling_spec (snd x)) t) (b_contents b) (Leaf true)) as (G1 & S1).
    destruct (pfold_node (fun fuel r (p : I * I) => do n <- m_exclusion fuel (fst p) (snd p) ; m_bitand fuel r n)
      (fun r p => bitand r (exclusion_relationship (fst p) (snd p))) (fun t x => m_and_new _ _ (m_exclusion_spec (fst x) (snd x)) t) (rule_pairs (b_excl b)) r1) as (G2 & S2).
    destruct (pfold_node (fun fuel r (p : I * I) => do n <- m_inclusion fuel (fst p) (snd p) ; m_bitand fuel r n)
      (fun r p => bitand r (inclusion_relationship (fst p) (snd p))) (fun t x => m_and_new _ _ (m_inclusion_spec (fst x) (snd x)) t) (rule_pairs (b_incl b)) r2) as (G3 & S3).
    exists (G1 + G2 + G3). intros fuel tot Hs a I0.
    eapply wp_bind; [eapply S1; [eapply suffices_le; [|exact Hs]; lia|exact I0|apply nden_leaf]|intros a1 x1 E1 I1 D1; cbv beta in D1|exact I0].
    eapply wp_bind; [eapply S2; [eapply suffices_le; [|exact Hs]; lia|exact I1|exact D1]|intros a2 x2 E2 I2 D2; cbv beta in D2|exact I1].
    eapply S3; [eapply suffices_le; [|exact Hs]; lia|exact I2|exact D2].
  Qed.
  Lemma m_build_spec h (b : builder I F) : exists G, forall fuel tot, suffices G fuel tot -> forall a, AInv a ->
    wp tot a (m_build fuel h b) (fun a' r => rcden a' r (build h b)).
  Proof.
    destruct (m_build_root_spec b) as (G & S1). exists (G + size (build_root b)). intros fuel tot Hs a I0.
    unfold m_build, build. destruct (validate_closet b); [|apply wp_rcden; reflexivity].
    eapply wp_bind; [eapply S1; [eapply suffices_le; [|exact Hs]; lia|exact I0]|intros a1 x1 E1 I1 D1; cbv beta in D1|exact I0].
    eapply wp_bind; [eapply (m_closet_new_spec h (b_index b) (build_root b)); [eapply suffices_le; [|exact Hs]; lia|exact I1|exact D1]|intros a2 c E2 I2 D2; cbv beta in D2|exact I1].
    apply wp_rcden. exact D2.
  Qed.

  Lemma m_closet_eqb_spec a m n (c d : closet I F) : AInv a -> cden a m c -> cden a n d -> m_closet_eqb m n = closet_eqb c d.
  Proof.
    intros I0 (A & B & D) (A' & B' & D'). unfold m_closet_eqb, closet_eqb. rewrite A, B, A', B'.
    rewrite (gnode_eqb_den a _ _ _ _ I0 D D'). reflexivity.
  Qed.

  Notation bgden := (gden bden).
  Notation bgsden := (gsden bden).
  Lemma bgden_ext a b ms vs : ext a b -> bgden a ms vs -> bgden b ms vs.
  Proof. apply gden_ext. exact bden_ext. Qed.
  Lemma bgden_reg a ms vs i : bgden a ms vs -> bden a (mbreg ms i) (breg vs i).
  Proof.
    intros D. unfold mbreg, breg. revert i. induction D as [|m t ms ts D0 D IH]; intros i.
    - destruct i; (split; [reflexivity|split; [reflexivity|apply nden_leaf]]).
    - destruct i; simpl; auto.
  Qed.
  Lemma bden_node a m v : bden a m v -> nden a (mval_node m) (val_node v).
  Proof. destruct m, v; simpl; try contradiction; auto. intros (_ & _ & D). exact D. Qed.
  Lemma bden_clo a m v : bden a m v -> cden a (mval_clo m) (val_clo v).
  Proof.
    destruct m, v; simpl; try contradiction; auto. intros _. split; [reflexivity|split; [reflexivity|apply nden_leaf]].
  Qed.

  Lemma b_vcall_total (vs : list (bval I F)) c : exists y, b_vcall vs c = Some y.
  Proof. destruct c; cbn [b_vcall]; eexists; reflexivity. Qed.

  Lemma mnode_spec tot a (p : prog I nd) t ms (vs : list (bval I F)) : AInv a -> bgden a ms vs -> wp tot a p (fun a' n => nden a' n t) ->
    wp tot a (do n <- p ; Ret (ms ++ [MNode n], BONone)) (fun a' x => bgsden a' x (vs ++ [VNode t], BONone (I:=I) (F:=F))).
  Proof.
    intros I0 D Hw. eapply wp_bind; [exact Hw| |exact I0].
    intros a' m E I1 Dm. cbv beta in Dm. apply wp_ret. intros a2 E2 I2. split; simpl; auto.
    apply Forall2_app.
    - eapply bgden_ext; [|exact D]. eapply ext_trans; eauto.
    - constructor; [|constructor]. simpl. eapply nden_ext; eauto.
  Qed.
  Lemma mclo_spec {E} tot a (p : prog I (res (mcloset I F) E)) r (f : E -> bobs I F) ms (vs : list (bval I F)) : AInv a -> bgden a ms vs -> wp tot a p (fun a' m => rcden a' m r) ->
    wp tot a (do x <- p ; Ret (match x with Ok c => (ms ++ [MClo c], BONone) | Err e => (ms, f e) end))
       (fun a' x => bgsden a' x (match r with Ok c => (vs ++ [VClo c], BONone) | Err e => (vs, f e) end)).
  Proof.
    intros I0 D Hw. eapply wp_bind; [exact Hw| |exact I0].
    intros a' m X I1 Dm. cbv beta in Dm. apply wp_ret. intros a2 E2 I2.
    destruct m as [m|e], r as [c|e']; simpl in Dm; try contradiction; split; simpl; try congruence.
    - apply Forall2_app.
      + eapply bgden_ext; [|exact D]. eapply ext_trans; eauto.
      + constructor; [|constructor]. simpl. eapply cden_ext; eauto.
    - eapply bgden_ext; [|exact D]. eapply ext_trans; eauto.
  Qed.
  Lemma mbobs_spec {R} tot a (p : prog I R) (v : R) (f : R -> bobs I F) ms vs : AInv a -> bgden a ms vs ->
    wp tot a p (fun _ r => r = v) ->
    wp tot a (do r <- p ; Ret (ms, f r)) (fun a' x => bgsden a' x (vs, f v)).
  Proof.
    intros I0 D Hw. eapply wp_bind; [exact Hw| |exact I0].
    intros a' r E I1 ->. apply wp_ret. intros a2 E2 I2. split; simpl; auto.
    eapply bgden_ext; [|exact D]. eapply ext_trans; eauto.
  Qed.
  Lemma mbret_spec tot a (o o' : bobs I F) ms vs : AInv a -> bgden a ms vs -> o = o' ->
    wp tot a (Ret (ms, o)) (fun a' x => bgsden a' x (vs, o')).
  Proof. intros I0 D ->. apply wp_ret. intros a2 E2 I2. split; simpl; auto. eapply bgden_ext; eauto. Qed.

  Lemma m_bcall_refines c (vs : list (bval I F)) y : b_vcall vs c = Some y ->
    exists G, forall fuel tot, suffices G fuel tot -> forall a ms, AInv a -> bgden a ms vs ->
    wp tot a (m_bcall fuel ms c) (fun a' x => bgsden a' x y).
  Proof.
    assert (NN : forall a ms i, bgden a ms vs -> nden a (mval_node (mbreg ms i)) (val_node (breg vs i)))
      by (intros a ms i D; apply bden_node; apply bgden_reg; exact D).
    assert (CC : forall a ms i, bgden a ms vs -> cden a (mval_clo (mbreg ms i)) (val_clo (breg vs i)))
      by (intros a ms i D; apply bden_clo; apply bgden_reg; exact D).
    destruct c as [h calls|h i item|i sels|i|i|un i items|i j|i|d|b|item|item|item i j|o i j|i|i|i item sel|h i|i j|h index i];
      cbn [b_vcall]; cbv zeta; intros E; injection E as <-.
    - destruct (m_build_spec h (run_calls calls)) as (G & S1). exists G. intros fuel tot Hs a ms I0 D. cbn [m_bcall].
      apply (mclo_spec tot a (m_build fuel h (run_calls calls)) (build h (run_calls calls)) BOBuildError); auto.
    - destruct (m_select_item_spec h (val_clo (breg vs i)) item) as (G & S1). exists G. intros fuel tot Hs a ms I0 D. cbn [m_bcall].
      apply (mclo_spec tot a _ (select_item h (val_clo (breg vs i)) item) BOSelectError); auto.
    - destruct (m_complete_outfit_spec (val_clo (breg vs i)) sels) as (G & S1). exists G. intros fuel tot Hs a ms I0 D. cbn [m_bcall].
      apply (mbobs_spec tot a _ _ BOOutfit); auto.
    - exists 0. intros fuel tot _ a ms I0 D. apply mbret_spec; auto. destruct (CC a ms i D) as (_ & -> & _). reflexivity.
    - exists (size (c_root (val_clo (breg vs i)))). intros fuel tot Hs a ms I0 D. cbn [m_bcall].
      destruct (CC a ms i D) as (_ & _ & Dr). 
      eapply wp_bind; [eapply (m_count_spec _ _ node_count); [reflexivity|reflexivity|exact Hs|exact I0|exact Dr]|intros a1 x1 E1 I1 ->|exact I0]. plift E1.
      eapply wp_bind; [eapply (m_count_spec _ _ leaf_count); [reflexivity|reflexivity|exact Hs|exact I1|exact Dr]|intros a2 x2 E2 I2 ->|exact I1]. plift E2.
      eapply wp_bind; [eapply (m_count_spec _ _ outfit_count); [reflexivity|reflexivity|exact Hs|exact I2|exact Dr]|intros a3 x3 E3 I3 ->|exact I2]. plift E3.
      apply (mbobs_spec tot a3 (m_depth fuel (mc_root (mval_clo (mbreg ms i)))) _ (fun d => BOCounts _ _ _ d)); auto.
      + eapply bgden_ext; [|exact D]. eapply ext_trans; [exact E1|]. eapply ext_trans; eauto.
      + eapply (m_count_spec _ _ depth); [reflexivity|reflexivity|exact Hs|exact I3|exact Dr].
    - exists 0. intros fuel tot _ a ms I0 D. apply mbret_spec; auto. destruct (CC a ms i D) as (A & B & _).
      rewrite A. reflexivity.
    - exists 0. intros fuel tot _ a ms I0 D. apply mbret_spec; auto. f_equal. eapply m_closet_eqb_spec; eauto.
    - exists (size (c_root (val_clo (breg vs i)))). intros fuel tot Hs a ms I0 D. cbn [m_bcall].
      destruct (CC a ms i D) as (A & B & Dr). rewrite A, B.
      eapply wp_bind; [eapply m_to_structure_spec; [exact Hs|exact I0|exact Dr]|intros a1 x1 E1 I1 ->|exact I0]. plift E1.
      apply (mbobs_spec tot a1 (m_to_content fuel (mc_root (mval_clo (mbreg ms i))) [] 0) _ (fun t => BOData (_, _, (_, t)))); auto.
      + eapply bgden_ext; eauto.
      + eapply m_to_content_spec; [exact Hs|exact I1|exact Dr].
    - exists 0. intros fuel tot _ a ms I0 D. cbn [m_bcall]. destruct d as [[index summary] [s t]]. unfold closet_de, node_de. cbn [fst snd].
      eapply wp_bind; [eapply m_to_node_spec; exact I0|intros a1 x1 E1 I1 D1; cbv beta in D1|exact I0].
      apply wp_ret. intros a2 E2 I2. destruct (to_node s t) as [u|], x1 as [n|]; simpl in D1; try contradiction; cbn [bind]; split; simpl; auto.
      + apply Forall2_app.
        * eapply bgden_ext; [|exact D]. eapply ext_trans; eauto.
        * constructor; [|constructor]. simpl. plift E2. split; [reflexivity|split; [reflexivity|exact D1]].
      + eapply bgden_ext; [|exact D]. eapply ext_trans; eauto.
    - exists 0. intros fuel tot _ a ms I0 D. apply mnode_spec; auto. apply wp_same. constructor.
    - exists 0. intros fuel tot _ a ms I0 D. apply mnode_spec; auto. apply m_pos_spec; auto.
    - exists 0. intros fuel tot _ a ms I0 D. apply mnode_spec; auto. apply m_neg_spec; auto.
    - exists 0. intros fuel tot _ a ms I0 D. apply mnode_spec; auto. apply m_bbranch_spec; auto.
    - assert (OP : exists G, forall fuel tot, suffices G fuel tot -> forall a n1 n2, AInv a ->
        nden a n1 (val_node (breg vs i)) -> nden a n2 (val_node (breg vs j)) ->
        wp tot a (m_op o fuel n1 n2) (fun a' n => nden a' n (v_op o (val_node (breg vs i)) (val_node (breg vs j))))).
      { destruct o; cbn [m_op v_op]; [eexists; apply m_bitand_spec|eexists; apply m_bitor_spec|apply m_bitxor_spec]. }
      destruct OP as (G & S1). exists G. intros fuel tot Hs a ms I0 D. apply mnode_spec; auto.
    - exists 0. intros fuel tot _ a ms I0 D. apply mnode_spec; auto. apply wp_same. apply m_bitnot_spec. auto.
    - eexists. intros fuel tot Hs a ms I0 D. apply mnode_spec; auto. eapply m_breduce_spec; eauto.
    - eexists. intros fuel tot Hs a ms I0 D. apply mnode_spec; auto. eapply m_brestrict_spec; eauto.
    - eexists. intros fuel tot Hs a ms I0 D. apply (mbobs_spec tot a _ _ BOStatus); auto. eapply m_bsummarize_spec; eauto.
    - exists 0. intros fuel tot _ a ms I0 D. apply mbret_spec; auto. f_equal. apply (gnode_eqb_den a); auto.
    - eexists. intros fuel tot Hs a ms I0 D. cbn [m_bcall].
      eapply wp_bind; [eapply m_closet_new_spec; [exact Hs|exact I0|apply NN; exact D]|intros a1 c E1 I1 D1; cbv beta in D1|exact I0].
      apply wp_ret. intros a2 E2 I2. split; simpl; auto. apply Forall2_app.
      + eapply bgden_ext; [|exact D]. eapply ext_trans; eauto.
      + constructor; [|constructor]. simpl. eapply cden_ext; eauto.
  Qed.
End Closet.
