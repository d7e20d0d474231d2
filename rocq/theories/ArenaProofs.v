(** ArenaProofs: hash consing invariant, denotation of ids, weakest
    preconditions that are stable under the steps of other threads. *)
From Coq Require Import List Arith Lia Bool Permutation Sorted.
From Verif Require Import Base DD ArenaModel.
Import ListNotations.

Section Arena.
  Context {L : Type} `{Ord L}.

  Lemma gnode_eqb_spec (m n : gnode L) : reflect (m = n) (gnode_eqb m n).
  Proof.
    destruct m as [b|i l h], n as [c|j l' h']; simpl; try (constructor; discriminate).
    - destruct (Bool.eqb_spec b c); constructor; congruence.
    - destruct (eqb_spec_ i j); simpl; [|constructor; congruence].
      destruct (Nat.eqb_spec l l'); simpl; [|constructor; congruence].
      destruct (Nat.eqb_spec h h'); constructor; congruence.
  Qed.

  (** children of stored nodes are stored, at smaller ids *)
  Definition child_ok (n : gnode L) (bound : nat) : Prop :=
    match n with GLeaf _ => True | GBranch _ lo hi => lo < bound /\ hi < bound end.

  Record AInv (a : arena L) : Prop := {
    inv_index : forall n i, idx_get (a_index a) n = Some i <-> nth_error (a_nodes a) i = Some n;
    inv_child : forall i n, nth_error (a_nodes a) i = Some n -> child_ok n i;
    inv_false : nth_error (a_nodes a) 0 = Some (GLeaf false);
    inv_true : nth_error (a_nodes a) 1 = Some (GLeaf true)
  }.

  Definition ext (a a' : arena L) : Prop := exists sfx, a_nodes a' = a_nodes a ++ sfx.

  Lemma ext_refl a : ext a a.
  Proof. exists []. rewrite app_nil_r. reflexivity. Qed.
  Lemma ext_trans a b c : ext a b -> ext b c -> ext a c.
  Proof. intros [x Hx] [y Hy]. exists (x ++ y). rewrite Hy, Hx, app_assoc. reflexivity. Qed.
  Lemma ext_get a b i n : ext a b -> a_get a i = Some n -> a_get b i = Some n.
  Proof.
    intros [x Hx] Hn. unfold a_get in *. rewrite Hx. rewrite nth_error_app1; auto.
    apply nth_error_Some. congruence.
  Qed.
  Lemma ext_len a b : ext a b -> length (a_nodes a) <= length (a_nodes b).
  Proof. intros [x Hx]. rewrite Hx, app_length. lia. Qed.

  Lemma a_new_inv : AInv a_new.
  Proof.
    constructor.
    - intros n i. destruct n as [[|]|l lo hi]; unfold a_new, a_add; simpl.
      + split; [intros E; injection E as <-; reflexivity|]. destruct i as [|[|[|i]]]; simpl; congruence.
      + split; [intros E; injection E as <-; reflexivity|]. destruct i as [|[|[|i]]]; simpl; congruence.
      + split; [discriminate|]. destruct i as [|[|[|i]]]; simpl; congruence.
    - intros i n. destruct i as [|[|[|i]]]; simpl; intros E; try discriminate; injection E as <-; exact I.
    - reflexivity.
    - reflexivity.
  Qed.

  Lemma a_add_spec a n : AInv a -> child_ok n (length (a_nodes a)) ->
    AInv (fst (a_add a n)) /\ ext a (fst (a_add a n)) /\ a_get (fst (a_add a n)) (snd (a_add a n)) = Some n.
  Proof.
    intros I0 Hc. unfold a_add. destruct (idx_get (a_index a) n) as [i|] eqn:E; simpl.
    - split; auto. split; [apply ext_refl|]. apply (inv_index a I0). exact E.
    - assert (Hget : nth_error (a_nodes a ++ [n]) (length (a_nodes a)) = Some n).
      { rewrite nth_error_app2 by lia. rewrite Nat.sub_diag. reflexivity. }
      split; [|split; [exists [n]; reflexivity|exact Hget]].
      constructor; cbn [a_nodes a_index].
      + intros m i. cbn [idx_get]. destruct (gnode_eqb_spec m n) as [->|Hne].
        * split.
          { intros E'. injection E' as <-. exact Hget. }
          { intros Hn. destruct (Nat.lt_trichotomy i (length (a_nodes a))) as [Hlt|[->|Hgt]]; auto.
            - rewrite nth_error_app1 in Hn by auto. apply (inv_index a I0) in Hn. congruence.
            - rewrite nth_error_app2 in Hn by lia. destruct (i - length (a_nodes a)) as [|[|j]] eqn:Ej; simpl in Hn; try discriminate. lia. }
        * rewrite (inv_index a I0). split.
          { intros Hn. rewrite nth_error_app1; [exact Hn|]. apply nth_error_Some. congruence. }
          { intros Hn. destruct (Nat.lt_ge_cases i (length (a_nodes a))) as [Hlt|Hge].
            - rewrite nth_error_app1 in Hn by auto. auto.
            - rewrite nth_error_app2 in Hn by auto. destruct (i - length (a_nodes a)) as [|[|j]]; simpl in Hn; try discriminate.
              congruence. }
      + intros i m Hm. destruct (Nat.lt_ge_cases i (length (a_nodes a))) as [Hlt|Hge].
        * rewrite nth_error_app1 in Hm by auto. eapply (inv_child a I0); eauto.
        * rewrite nth_error_app2 in Hm by auto. destruct (i - length (a_nodes a)) as [|[|j]] eqn:Ej; simpl in Hm; try discriminate.
          injection Hm as <-. assert (i = length (a_nodes a)) by lia. subst i. exact Hc.
      + rewrite nth_error_app1; [exact (inv_false a I0)|]. apply nth_error_Some. rewrite (inv_false a I0). discriminate.
      + rewrite nth_error_app1; [exact (inv_true a I0)|]. apply nth_error_Some. rewrite (inv_true a I0). discriminate.
  Qed.

  Lemma a_find_spec a n i : AInv a -> a_find a n = Some i -> a_get a i = Some n.
  Proof. intros I0 E. apply (inv_index a I0). exact E. Qed.

  (** two ids never hold the same node *)
  Lemma a_get_inj a i j n : AInv a -> a_get a i = Some n -> a_get a j = Some n -> i = j.
  Proof. intros I0 E1 E2. apply (inv_index a I0) in E1, E2. congruence. Qed.

  (** ** denotation: the diagram an id / a node stands for *)
  Inductive den (a : arena L) : nat -> dd L -> Prop :=
  | D_id i n t : a_get a i = Some n -> nden a n t -> den a i t
  with nden (a : arena L) : gnode L -> dd L -> Prop :=
  | D_leaf b : nden a (GLeaf b) (Leaf b)
  | D_branch l lo hi tl th : den a lo tl -> den a hi th -> nden a (GBranch l lo hi) (Branch l tl th).
  Scheme den_mut := Induction for den Sort Prop with nden_mut := Induction for nden Sort Prop.

  Lemma den_ext_both a b : ext a b ->
    (forall t i, den a i t -> den b i t) /\ (forall t n, nden a n t -> nden b n t).
  Proof.
    intros He.
    assert (X : forall t, (forall i, den a i t -> den b i t) /\ (forall n, nden a n t -> nden b n t)).
    { induction t as [c|l lo [IHlo1 _] hi [IHhi1 _]].
      - assert (Y : forall n, nden a n (Leaf c) -> nden b n (Leaf c)) by (intros n Hn; inversion Hn; constructor).
        split; auto. intros i Hi. inversion Hi; subst. econstructor; [eapply ext_get; eauto|]. auto.
      - assert (Y : forall n, nden a n (Branch l lo hi) -> nden b n (Branch l lo hi)).
        { intros n Hn. inversion Hn; subst. constructor; auto. }
        split; auto. intros i Hi. inversion Hi; subst. econstructor; [eapply ext_get; eauto|]. auto. }
    split; intros t; apply X.
  Qed.
  Lemma den_ext a b i t : ext a b -> den a i t -> den b i t.
  Proof. intros He. apply den_ext_both; auto. Qed.
  Lemma nden_ext a b n t : ext a b -> nden a n t -> nden b n t.
  Proof. intros He. apply den_ext_both; auto. Qed.

  Lemma den_fun_both a : forall t, (forall i t', den a i t -> den a i t' -> t = t') /\
                                   (forall n t', nden a n t -> nden a n t' -> t = t').
  Proof.
    induction t as [c|l lo [IHlo _] hi [IHhi _]].
    - assert (Y : forall n t', nden a n (Leaf c) -> nden a n t' -> Leaf c = t').
      { intros n t' H1 H2. inversion H1; subst. inversion H2; subst. reflexivity. }
      split; auto. intros i t' H1 H2. inversion H1; subst. inversion H2; subst.
      assert (n = n0) by congruence. subst. eauto.
    - assert (Y : forall n t', nden a n (Branch l lo hi) -> nden a n t' -> Branch l lo hi = t').
      { intros n t' H1 H2. inversion H1; subst. inversion H2; subst. f_equal; eauto. }
      split; auto. intros i t' H1 H2. inversion H1; subst. inversion H2; subst.
      assert (n = n0) by congruence. subst. eauto.
  Qed.
  Lemma den_fun a i t t' : den a i t -> den a i t' -> t = t'.
  Proof. apply den_fun_both. Qed.
  Lemma nden_fun a n t t' : nden a n t -> nden a n t' -> t = t'.
  Proof. apply den_fun_both. Qed.

  (** hash consing: equal diagrams have equal ids *)
  Lemma den_inj_both a : AInv a -> forall t, (forall i j, den a i t -> den a j t -> i = j) /\
                                             (forall m n, nden a m t -> nden a n t -> m = n).
  Proof.
    intros I0. induction t as [c|l lo [IHlo _] hi [IHhi _]].
    - assert (Y : forall m n, nden a m (Leaf c) -> nden a n (Leaf c) -> m = n).
      { intros m n H1 H2. inversion H1; subst. inversion H2; subst. reflexivity. }
      split; auto. intros i j H1 H2. inversion H1; subst. inversion H2; subst.
      assert (n = n0) by eauto. subst. eapply a_get_inj; eauto.
    - assert (Y : forall m n, nden a m (Branch l lo hi) -> nden a n (Branch l lo hi) -> m = n).
      { intros m n H1 H2. inversion H1; subst. inversion H2; subst. f_equal; eauto. }
      split; auto. intros i j H1 H2. inversion H1; subst. inversion H2; subst.
      assert (n = n0) by eauto. subst. eapply a_get_inj; eauto.
  Qed.
  Lemma den_inj a i j t : AInv a -> den a i t -> den a j t -> i = j.
  Proof. intros I0. apply den_inj_both; auto. Qed.
  Lemma nden_inj a m n t : AInv a -> nden a m t -> nden a n t -> m = n.
  Proof. intros I0. apply den_inj_both; auto. Qed.

  (** [==] on nodes decides equality of diagrams *)
  Lemma gnode_eqb_den a m n t u : AInv a -> nden a m t -> nden a n u -> gnode_eqb m n = dd_eqb t u.
  Proof.
    intros I0 Hm Hn. destruct (gnode_eqb_spec m n) as [->|Hne], (dd_eqb_spec t u) as [->|Hne']; auto; exfalso.
    - apply Hne'. eapply nden_fun; eauto.
    - apply Hne. eapply nden_inj; eauto.
  Qed.

  Lemma den_bound a i t : den a i t -> i < length (a_nodes a).
  Proof. intros Hd. inversion Hd as [j n u Hg Hn]; subst. apply nth_error_Some. unfold a_get in Hg. congruence. Qed.
  Lemma nden_child a n t : nden a n t -> child_ok n (length (a_nodes a)).
  Proof. intros Hn. inversion Hn; subst; simpl; auto. split; eapply den_bound; eauto. Qed.
  Lemma den_leaf a (b : bool) : AInv a -> den a (if b then 1 else 0) (Leaf b).
  Proof.
    intros I0. destruct b; econstructor; try constructor; [apply (inv_true a I0)|apply (inv_false a I0)].
  Qed.

  (** every id of a valid arena denotes a diagram *)
  Lemma den_total a : AInv a -> forall i, i < length (a_nodes a) -> exists t, den a i t.
  Proof.
    intros I0 i. induction i as [i IH] using lt_wf_ind. intros Hi.
    destruct (nth_error (a_nodes a) i) as [n|] eqn:E; [|apply nth_error_None in E; lia].
    pose proof (inv_child a I0 i n E) as Hc. destruct n as [b|l lo hi].
    - exists (Leaf b). econstructor; [exact E|constructor].
    - simpl in Hc. destruct (IH lo) as [tl Hl]; try lia. destruct (IH hi) as [th Hh]; try lia.
      exists (Branch l tl th). econstructor; [exact E|constructor; auto].
  Qed.
End Arena.

Section WP.
  Context {L : Type} `{Ord L}.

  (** [wp tot a p Q]: from any valid arena extending [a], whatever the other
      threads add in between, [p] never panics, (if [tot]) never runs out of
      fuel, and when it returns [r] in arena [a'], [Q a' r] holds. *)
  Fixpoint wp {R} (tot : bool) (a : arena L) (p : prog L R) (Q : arena L -> R -> Prop) : Prop :=
    match p with
    | Ret r => forall a', ext a a' -> AInv a' -> Q a' r
    | Get i k => forall a', ext a a' -> AInv a' -> exists n, a_get a' i = Some n /\ wp tot a' (k n) Q
    | Find n k => forall a', ext a a' -> AInv a' -> wp tot a' (k (a_find a' n)) Q
    | Add n k => forall a', ext a a' -> AInv a' ->
        child_ok n (length (a_nodes a')) /\ wp tot (fst (a_add a' n)) (k (snd (a_add a' n))) Q
    | Panic => False
    | OutOfFuel => tot = false
    end.

  Lemma wp_ext {R} tot (p : prog L R) Q : forall a a', ext a a' -> wp tot a p Q -> wp tot a' p Q.
  Proof.
    destruct p as [r|i k|n k|n k| |]; simpl; intros a a' He Hw; auto; intros b Hb I0; apply Hw; auto;
      eapply ext_trans; eauto.
  Qed.

  Lemma wp_mono {R} tot (p : prog L R) : forall a (Q Q' : arena L -> R -> Prop),
    (forall a' r, ext a a' -> AInv a' -> Q a' r -> Q' a' r) -> wp tot a p Q -> wp tot a p Q'.
  Proof.
    induction p as [r|i k IH|n k IH|n k IH| |]; simpl; intros a Q Q' HQ Hw; auto.
    - intros a' He Hi. destruct (Hw a' He Hi) as (n & E & Hn). exists n. split; auto.
      eapply IH; [|exact Hn]. intros; apply HQ; auto. eapply ext_trans; eauto.
    - intros a' He Hi. eapply IH; [|exact (Hw a' He Hi)]. intros; apply HQ; auto. eapply ext_trans; eauto.
    - intros a' He Hi. destruct (Hw a' He Hi) as [Hc Hk]. split; auto.
      eapply IH; [|exact Hk]. intros; apply HQ; auto.
      destruct (a_add_spec a' n Hi Hc) as (_ & He' & _).
      eapply ext_trans; [exact He|]. eapply ext_trans; eauto.
  Qed.

  Lemma wp_bind {A B} tot (p : prog L A) (f : A -> prog L B) : forall a Q Q',
    wp tot a p Q ->
    (forall a' r, ext a a' -> AInv a' -> Q a' r -> wp tot a' (f r) Q') ->
    AInv a -> wp tot a (pbind p f) Q'.
  Proof.
    induction p as [r|i k IH|n k IH|n k IH| |]; simpl; intros a Q Q' Hw HQ I0; auto.
    - apply HQ; auto using ext_refl.
    - intros a' He Hi. destruct (Hw a' He Hi) as (n & E & Hn). exists n. split; auto.
      eapply IH; [exact Hn| |exact Hi]. intros; apply HQ; auto. eapply ext_trans; eauto.
    - intros a' He Hi. eapply IH; [exact (Hw a' He Hi)| |exact Hi]. intros; apply HQ; auto. eapply ext_trans; eauto.
    - intros a' He Hi. destruct (Hw a' He Hi) as [Hc Hk]. split; auto.
      destruct (a_add_spec a' n Hi Hc) as (Hi' & He' & _).
      eapply IH; [exact Hk| |exact Hi']. intros; apply HQ; auto.
      eapply ext_trans; [exact He|]. eapply ext_trans; eauto.
  Qed.

  Lemma wp_ret {R} tot a (r : R) (Q : arena L -> R -> Prop) : (forall a', ext a a' -> AInv a' -> Q a' r) -> wp tot a (Ret r) Q.
  Proof. auto. Qed.

  Lemma wp_get_node tot a i t : den a i t -> wp tot a (get_node i) (fun a' n => nden a' n t).
  Proof.
    intros Hd a' He Hi. inversion Hd; subst. exists n. split; [eapply ext_get; eauto|].
    intros a'' He' _. eapply nden_ext; [|eassumption]. eapply ext_trans; eauto.
  Qed.

  Lemma wp_intern tot a n t : nden a n t -> wp tot a (intern n) (fun a' i => den a' i t).
  Proof.
    intros Hn a' He Hi. pose proof (nden_ext _ _ _ _ He Hn) as Hn'.
    split; [eapply nden_child; eauto|].
    destruct (a_add_spec a' n Hi (nden_child _ _ _ Hn')) as (I1 & E1 & G1).
    intros a'' He' Hi'. econstructor; [eapply ext_get; eauto|]. eapply nden_ext; [|exact Hn'].
    eapply ext_trans; eauto.
  Qed.

  Lemma wp_intern2 tot a n t : nden a n t -> wp tot a (intern2 n) (fun a' i => den a' i t).
  Proof.
    intros Hn a' He Hi. pose proof (nden_ext _ _ _ _ He Hn) as Hn'.
    destruct (a_find a' n) as [i|] eqn:E.
    - intros a'' He' _. apply a_find_spec in E; auto.
      econstructor; [eapply ext_get; eauto|]. eapply nden_ext; eauto.
    - apply wp_intern. exact Hn'.
  Qed.

  (** one step of the thread itself, in any arena reached by the others *)
  Lemma wp_step {R} tot (p : prog L R) Q a a0 p' a' : AInv a -> ext a0 a ->
    wp tot a0 p Q -> pstep a p a' p' -> AInv a' /\ ext a a' /\ wp tot a' p' Q.
  Proof.
    intros I0 He Hw Hs. inversion Hs; subst; simpl in Hw.
    - destruct (Hw _ He I0) as (n' & E & Hn). assert (n' = n) by congruence. subst. auto using ext_refl.
    - destruct (Hw _ He I0) as (n' & E & Hn). congruence.
    - split; auto. split; auto using ext_refl.
    - destruct (Hw _ He I0) as [Hc Hk]. destruct (a_add_spec a n I0 Hc) as (I1 & E1 & _). auto.
  Qed.
End WP.
