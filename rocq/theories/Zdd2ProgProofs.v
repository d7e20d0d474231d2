(** Zdd2ProgProofs: every program of Zdd2Prog.v, run against the shared arena
    with any interference, computes what Zdd2Model.v computes on values. *)
From Coq Require Import List Arith Lia Bool Permutation Sorted.
From Verif Require Import Base DD Spec Zdd2Model Zdd2Node Zdd2Node2 Zdd2Univ Zdd2Forest Zdd2Forest2 Zdd2Forest3 Zdd2Laws.
From Verif Require Import ArenaModel ArenaProofs Zdd2Prog.
Import ListNotations.

Definition aden (a : arena nat) (x : arg) (t : node) : Prop :=
  match x with AId i => den a i t | ANode n => nden a n t end.
Lemma aden_ext a b x t : ext a b -> aden a x t -> aden b x t.
Proof. destruct x; simpl; [apply den_ext|apply nden_ext]. Qed.

Ltac lift E :=
  repeat match goal with
  | H : den _ _ _ |- _ => apply (den_ext _ _ _ _ E) in H
  | H : nden _ _ _ |- _ => apply (nden_ext _ _ _ _ E) in H
  | H : aden _ _ _ |- _ => apply (aden_ext _ _ _ _ E) in H
  end.

(** run the first program of a [do], with the given specification lemma *)
Ltac step lem :=
  let a' := fresh "a" in let r := fresh "r" in let E := fresh "E" in let I1 := fresh "I" in let D := fresh "D" in
  eapply (@wp_bind nat _); [eapply lem|intros a' r E I1 D; cbv beta in D; lift E; clear E|eassumption].
Ltac getn := step (@wp_get_node nat _); [eassumption|].

Lemma m_into_spec tot a x t : aden a x t -> wp tot a (m_into x) (fun a' i => den a' i t).
Proof.
  destruct x as [i|n]; simpl; intros D.
  - intros a' E _. eapply den_ext; eauto.
  - apply wp_intern2; auto.
Qed.

Lemma m_last_spec tot (a : arena nat) id (low high : znode) (t u : node) : AInv a -> nden a low t -> nden a high u ->
  wp tot a (do l <- intern2 low ; do h <- intern2 high ; Ret (GBranch id l h))
     (fun a' n => nden a' n (Branch id t u)).
Proof.
  intros I0 D1 D2. step (@wp_intern2 nat _); [eassumption|]. step (@wp_intern2 nat _); [eassumption|].
  apply (@wp_ret nat _). intros a' E _. lift E. constructor; auto.
Qed.

Lemma wp_nden tot (a : arena nat) (n : znode) (t : node) : nden a n t -> wp tot a (Ret n) (fun a' r => nden a' r t).
Proof. intros D a' E _. eapply nden_ext; eauto. Qed.

Ltac inv_bind H :=
  match type of H with
  | bind _ _ = Some _ => apply bind_some in H; let x := fresh "x" in let E := fresh "E" in destruct H as (x & E & H)
  end.

Lemma m_branch_spec k : forall fuel tot, (tot = true -> k <= fuel) ->
  forall id low high t, branch_f k id low high = Some t ->
  forall a x y, AInv a -> aden a x low -> aden a y high ->
  wp tot a (m_branch fuel id x y) (fun a' n => nden a' n t).
Proof.
  induction k as [|k IH]; intros fuel tot Hf id low high t E a x y I0 Dx Dy; [discriminate|].
  destruct fuel as [|fuel]; [simpl; destruct tot; auto; specialize (Hf eq_refl); lia|].
  assert (Hf' : tot = true -> k <= fuel) by (intros Q; specialize (Hf Q); lia). clear Hf.
  specialize (IH fuel tot Hf').
  cbn [m_branch]. step m_into_spec; [eassumption|]. getn. step m_into_spec; [eassumption|]. getn.
  simpl in E.
  destruct high as [[|]|h hl hh]; [| inversion E; subst; inversion D2; subst; apply wp_nden; assumption |].
  - inversion D2; subst. destruct low as [b|l ll lh]; inversion D0; subst; rename D0 into DL; rename D2 into DH.
    + inversion E; subst. apply m_last_spec; auto.
    + destruct (l <? id).
      * inv_bind E. step IH; [exact E0|eassumption|simpl; eassumption|exact DH|]. eapply IH; eauto.
      * destruct (l =? id); [eapply IH; eauto|]. inversion E; subst. apply m_last_spec; auto.
  - inversion D2; subst. destruct low as [b|l ll lh]; inversion D0; subst; rename D0 into DL; rename D2 into DH.
    + destruct (h <? id).
      * inv_bind E. step IH; [exact E0|eassumption|simpl; eassumption|simpl; eassumption|]. eapply IH; eauto.
      * destruct (h =? id); [eapply IH; eauto|]. inversion E; subst. apply m_last_spec; auto.
    + destruct ((h <? id) && (l =? h)).
      { inv_bind E. inv_bind E.
        step IH; [exact E0|eassumption|simpl; eassumption|simpl; eassumption|].
        step IH; [exact E1|eassumption|simpl; eassumption|simpl; eassumption|].
        eapply IH; eauto. }
      destruct (h <? id).
      { inv_bind E. step IH; [exact E0|eassumption|simpl; eassumption|simpl; eassumption|]. eapply IH; eauto. }
      destruct (l <? id).
      { inv_bind E. step IH; [exact E0|eassumption|simpl; eassumption|exact DH|]. eapply IH; eauto. }
      destruct (h =? id); [eapply IH; eauto|].
      destruct (l =? id); [eapply IH; eauto|].
      inversion E; subst. apply m_last_spec; auto.
Qed.

(** The common shape: with enough fuel total, with any fuel safe. *)
Definition enough (F fuel : nat) (tot : bool) := tot = true -> F <= fuel.
Lemma enough_le F F' fuel tot : F' <= F -> enough F fuel tot -> enough F' fuel tot.
Proof. unfold enough. intros; specialize (H0 H1); lia. Qed.
Lemma enough_S F fuel tot : enough (S F) fuel tot -> exists k, (fuel = S k /\ enough F k tot) \/ (fuel = 0 /\ tot = false).
Proof.
  unfold enough. intros H. destruct fuel as [|k].
  - exists 0. right. split; auto. destruct tot; auto. specialize (H eq_refl). lia.
  - exists k. left. split; auto. intros E. specialize (H E). lia.
Qed.

Lemma m_branch_spec' id low high t : branch id low high = Some t ->
  exists F, forall fuel tot, enough F fuel tot -> forall a x y, AInv a -> aden a x low -> aden a y high ->
  wp tot a (m_branch fuel id x y) (fun a' n => nden a' n t).
Proof. intros E. eexists. intros fuel tot Hf. eapply m_branch_spec; [exact Hf|exact E]. Qed.

Definition op2_spec (op : node -> node -> option node) (m : nat -> znode -> znode -> zprog znode) (t1 t2 : node) : Prop :=
  forall t, op t1 t2 = Some t ->
  exists F, forall fuel tot, enough F fuel tot -> forall a n1 n2, AInv a -> nden a n1 t1 -> nden a n2 t2 ->
  wp tot a (m fuel n1 n2) (fun a' n => nden a' n t).

(** start of a recursive program: peel one unit of fuel, and the equality test *)
Ltac start Hf :=
  apply enough_S in Hf; destruct Hf as (k & [(-> & Hf)|(-> & ->)]); [|reflexivity].
Ltac enf Hf := (eapply enough_le; [|exact Hf]; lia).

Lemma m_union_spec t1 : forall t2, op2_spec union m_union t1 t2.
Proof.
  induction t1 as [b1|id1 lo1 IHlo hi1 IHhi].
  - induction t2 as [b2|id2 lo2 IHlo2 hi2 IHhi2]; intros t E; rewrite union_unfold in E.
    + exists 1. intros fuel tot Hf a n1 n2 I0 D1 D2. start Hf.
      cbn [m_union]. rewrite (gnode_eqb_den a n1 n2 _ _ I0 D1 D2).
      inversion D1; subst; inversion D2; subst. destruct b1, b2; simpl in E; inversion E; subst; apply wp_nden; constructor.
    + destruct (dd_eqb (Leaf b1) (Branch id2 lo2 hi2)) eqn:Eq; [discriminate|]. destruct b1.
      * inv_bind E. destruct (IHlo2 _ E0) as (F1 & S1). destruct (m_branch_spec' _ _ _ _ E) as (F2 & S2).
        exists (S (F1 + F2)). intros fuel tot Hf a n1 n2 I0 D1 D2. start Hf.
        cbn [m_union]. rewrite (gnode_eqb_den a n1 n2 _ _ I0 D1 D2), Eq.
        inversion D1; subst; inversion D2; subst.
        getn. step S1; [enf Hf|eassumption|exact D1|eassumption|]. getn.
        eapply S2; [enf Hf|eassumption|simpl;eassumption|simpl;eassumption].
      * inversion E; subst. exists 1. intros fuel tot Hf a n1 n2 I0 D1 D2. start Hf.
        cbn [m_union]. rewrite (gnode_eqb_den a n1 n2 _ _ I0 D1 D2), Eq.
        inversion D1; subst; inversion D2; subst. apply wp_nden; auto.
  - induction t2 as [b2|id2 lo2 IHlo2 hi2 IHhi2]; intros t E; rewrite union_unfold in E;
      destruct (dd_eqb _ _) eqn:Eq.
    1, 3: inversion E; subst; exists 1; intros fuel tot Hf a n1 n2 I0 D1 D2; start Hf;
        cbn [m_union]; rewrite (gnode_eqb_den a n1 n2 _ _ I0 D1 D2), Eq; apply wp_nden; auto.
    + destruct b2.
      * inv_bind E. destruct (IHlo _ _ E0) as (F1 & S1). destruct (m_branch_spec' _ _ _ _ E) as (F2 & S2).
        exists (S (F1 + F2)). intros fuel tot Hf a n1 n2 I0 D1 D2. start Hf.
        cbn [m_union]. rewrite (gnode_eqb_den a n1 n2 _ _ I0 D1 D2), Eq.
        inversion D1; subst; inversion D2; subst.
        getn. step S1; [enf Hf|eassumption|eassumption|exact D2|]. getn.
        eapply S2; [enf Hf|eassumption|simpl;eassumption|simpl;eassumption].
      * inversion E; subst. exists 1. intros fuel tot Hf a n1 n2 I0 D1 D2. start Hf.
        cbn [m_union]. rewrite (gnode_eqb_den a n1 n2 _ _ I0 D1 D2), Eq.
        inversion D1; subst; inversion D2; subst. apply wp_nden; auto.
    + destruct (id1 <? id2) eqn:E12; [|destruct (id2 <? id1) eqn:E21].
      * inv_bind E. destruct (IHlo _ _ E0) as (F1 & S1). destruct (m_branch_spec' _ _ _ _ E) as (F2 & S2).
        exists (S (F1 + F2)). intros fuel tot Hf a n1 n2 I0 D1 D2. start Hf.
        cbn [m_union]. rewrite (gnode_eqb_den a n1 n2 _ _ I0 D1 D2), Eq.
        inversion D1; subst; inversion D2; subst. rewrite E12.
        getn. step S1; [enf Hf|eassumption|eassumption|exact D2|]. getn.
        eapply S2; [enf Hf|eassumption|simpl;eassumption|simpl;eassumption].
      * inv_bind E. destruct (IHlo2 _ E0) as (F1 & S1). destruct (m_branch_spec' _ _ _ _ E) as (F2 & S2).
        exists (S (F1 + F2)). intros fuel tot Hf a n1 n2 I0 D1 D2. start Hf.
        cbn [m_union]. rewrite (gnode_eqb_den a n1 n2 _ _ I0 D1 D2), Eq.
        inversion D1; subst; inversion D2; subst. rewrite E12, E21.
        getn. step S1; [enf Hf|eassumption|exact D1|eassumption|]. getn.
        eapply S2; [enf Hf|eassumption|simpl;eassumption|simpl;eassumption].
      * inv_bind E. inv_bind E. destruct (IHlo _ _ E0) as (F1 & S1). destruct (IHhi _ _ E1) as (F2 & S2).
        destruct (m_branch_spec' _ _ _ _ E) as (F3 & S3).
        exists (S (F1 + F2 + F3)). intros fuel tot Hf a n1 n2 I0 D1 D2. start Hf.
        cbn [m_union]. rewrite (gnode_eqb_den a n1 n2 _ _ I0 D1 D2), Eq.
        inversion D1; subst; inversion D2; subst. rewrite E12, E21.
        getn. getn. step S1; [enf Hf|eassumption|eassumption|eassumption|]. getn. getn.
        step S2; [enf Hf|eassumption|eassumption|eassumption|].
        eapply S3; [enf Hf|eassumption|simpl;eassumption|simpl;eassumption].
Qed.

Lemma m_intersect_spec t1 : forall t2, op2_spec intersect m_intersect t1 t2.
Proof.
  induction t1 as [b1|id1 lo1 IHlo hi1 IHhi].
  - induction t2 as [b2|id2 lo2 IHlo2 hi2 IHhi2]; intros t E; rewrite intersect_unfold in E.
    + exists 1. intros fuel tot Hf a n1 n2 I0 D1 D2. start Hf.
      cbn [m_intersect]. rewrite (gnode_eqb_den a n1 n2 _ _ I0 D1 D2).
      inversion D1; subst; inversion D2; subst. destruct b1, b2; simpl in E; inversion E; subst; apply wp_nden; constructor.
    + destruct (dd_eqb (Leaf b1) (Branch id2 lo2 hi2)) eqn:Eq; [discriminate|].
      destruct b1; inversion E; subst; exists 1; intros fuel tot Hf a n1 n2 I0 D1 D2; start Hf;
        cbn [m_intersect]; rewrite (gnode_eqb_den a n1 n2 _ _ I0 D1 D2), Eq;
        inversion D1; subst; inversion D2; subst; apply wp_nden; auto; constructor.
  - induction t2 as [b2|id2 lo2 IHlo2 hi2 IHhi2]; intros t E; rewrite intersect_unfold in E;
      destruct (dd_eqb _ _) eqn:Eq.
    1, 3: inversion E; subst; exists 1; intros fuel tot Hf a n1 n2 I0 D1 D2; start Hf;
        cbn [m_intersect]; rewrite (gnode_eqb_den a n1 n2 _ _ I0 D1 D2), Eq; apply wp_nden; auto.
    + destruct b2; inversion E; subst; exists 1; intros fuel tot Hf a n1 n2 I0 D1 D2; start Hf;
        cbn [m_intersect]; rewrite (gnode_eqb_den a n1 n2 _ _ I0 D1 D2), Eq;
        inversion D1; subst; inversion D2; subst; apply wp_nden; auto; constructor.
    + destruct (id1 <? id2) eqn:E12; [|destruct (id2 <? id1) eqn:E21].
      * destruct (IHlo _ _ E) as (F1 & S1).
        exists (S F1). intros fuel tot Hf a n1 n2 I0 D1 D2. start Hf.
        cbn [m_intersect]. rewrite (gnode_eqb_den a n1 n2 _ _ I0 D1 D2), Eq.
        inversion D1; subst; inversion D2; subst. rewrite E12.
        getn. eapply S1; [enf Hf|eassumption|eassumption|exact D2].
      * destruct (IHlo2 _ E) as (F1 & S1).
        exists (S F1). intros fuel tot Hf a n1 n2 I0 D1 D2. start Hf.
        cbn [m_intersect]. rewrite (gnode_eqb_den a n1 n2 _ _ I0 D1 D2), Eq.
        inversion D1; subst; inversion D2; subst. rewrite E12, E21.
        getn. eapply S1; [enf Hf|eassumption|exact D1|eassumption].
      * inv_bind E. inv_bind E. destruct (IHlo _ _ E0) as (F1 & S1). destruct (IHhi _ _ E1) as (F2 & S2).
        destruct (m_branch_spec' _ _ _ _ E) as (F3 & S3).
        exists (S (F1 + F2 + F3)). intros fuel tot Hf a n1 n2 I0 D1 D2. start Hf.
        cbn [m_intersect]. rewrite (gnode_eqb_den a n1 n2 _ _ I0 D1 D2), Eq.
        inversion D1; subst; inversion D2; subst. rewrite E12, E21.
        getn. getn. step S1; [enf Hf|eassumption|eassumption|eassumption|]. getn. getn.
        step S2; [enf Hf|eassumption|eassumption|eassumption|].
        eapply S3; [enf Hf|eassumption|simpl;eassumption|simpl;eassumption].
Qed.

Lemma m_product_spec t1 : forall t2, op2_spec product m_product t1 t2.
Proof.
  induction t1 as [b1|id1 lo1 IHlo hi1 IHhi].
  - induction t2 as [b2|id2 lo2 IHlo2 hi2 IHhi2]; intros t E; rewrite product_unfold in E.
    + exists 1. intros fuel tot Hf a n1 n2 I0 D1 D2. start Hf.
      cbn [m_product]. rewrite (gnode_eqb_den a n1 n2 _ _ I0 D1 D2).
      inversion D1; subst; inversion D2; subst. destruct b1, b2; simpl in E; inversion E; subst; apply wp_nden; constructor.
    + destruct (dd_eqb (Leaf b1) (Branch id2 lo2 hi2)) eqn:Eq; [discriminate|].
      destruct b1; inversion E; subst; exists 1; intros fuel tot Hf a n1 n2 I0 D1 D2; start Hf;
        cbn [m_product]; rewrite (gnode_eqb_den a n1 n2 _ _ I0 D1 D2), Eq;
        inversion D1; subst; inversion D2; subst; apply wp_nden; auto; constructor.
  - induction t2 as [b2|id2 lo2 IHlo2 hi2 IHhi2]; intros t E; rewrite product_unfold in E;
      destruct (dd_eqb _ _) eqn:Eq.
    1, 3: inversion E; subst; exists 1; intros fuel tot Hf a n1 n2 I0 D1 D2; start Hf;
        cbn [m_product]; rewrite (gnode_eqb_den a n1 n2 _ _ I0 D1 D2), Eq; apply wp_nden; auto.
    + destruct b2; inversion E; subst; exists 1; intros fuel tot Hf a n1 n2 I0 D1 D2; start Hf;
        cbn [m_product]; rewrite (gnode_eqb_den a n1 n2 _ _ I0 D1 D2), Eq;
        inversion D1; subst; inversion D2; subst; apply wp_nden; auto; constructor.
    + destruct (id1 <? id2) eqn:E12; [|destruct (id2 <? id1) eqn:E21].
      * inv_bind E. inv_bind E. destruct (IHlo _ _ E0) as (F1 & S1). destruct (IHhi _ _ E1) as (F2 & S2).
        destruct (m_branch_spec' _ _ _ _ E) as (F3 & S3).
        exists (S (F1 + F2 + F3)). intros fuel tot Hf a n1 n2 I0 D1 D2. start Hf.
        cbn [m_product]. rewrite (gnode_eqb_den a n1 n2 _ _ I0 D1 D2), Eq.
        inversion D1; subst; inversion D2; subst. rewrite E12.
        getn. step S1; [enf Hf|eassumption|eassumption|exact D2|]. getn.
        step S2; [enf Hf|eassumption|eassumption|exact D2|].
        eapply S3; [enf Hf|eassumption|simpl;eassumption|simpl;eassumption].
      * inv_bind E. inv_bind E. destruct (IHlo2 _ E0) as (F1 & S1). destruct (IHhi2 _ E1) as (F2 & S2).
        destruct (m_branch_spec' _ _ _ _ E) as (F3 & S3).
        exists (S (F1 + F2 + F3)). intros fuel tot Hf a n1 n2 I0 D1 D2. start Hf.
        cbn [m_product]. rewrite (gnode_eqb_den a n1 n2 _ _ I0 D1 D2), Eq.
        inversion D1; subst; inversion D2; subst. rewrite E12, E21.
        getn. step S1; [enf Hf|eassumption|exact D1|eassumption|]. getn.
        step S2; [enf Hf|eassumption|exact D1|eassumption|].
        eapply S3; [enf Hf|eassumption|simpl;eassumption|simpl;eassumption].
      * inv_bind E. inv_bind E. inv_bind E. inv_bind E. inv_bind E. inv_bind E.
        destruct (IHlo _ _ E0) as (F1 & S1). destruct (IHlo _ _ E1) as (F2 & S2).
        destruct (IHhi _ _ E2) as (F3 & S3). destruct (IHhi _ _ E3) as (F4 & S4).
        destruct (m_union_spec _ _ _ E4) as (F5 & S5). destruct (m_union_spec _ _ _ E5) as (F6 & S6).
        destruct (m_branch_spec' _ _ _ _ E) as (F7 & S7).
        exists (S (F1 + F2 + F3 + F4 + F5 + F6 + F7)). intros fuel tot Hf a n1 n2 I0 D1 D2. start Hf.
        cbn [m_product]. rewrite (gnode_eqb_den a n1 n2 _ _ I0 D1 D2), Eq.
        inversion D1; subst; inversion D2; subst. rewrite E12, E21.
        getn. getn. step S1; [enf Hf|eassumption|eassumption|eassumption|].
        getn. getn. step S2; [enf Hf|eassumption|eassumption|eassumption|].
        getn. getn. step S3; [enf Hf|eassumption|eassumption|eassumption|].
        getn. getn. step S4; [enf Hf|eassumption|eassumption|eassumption|].
        step S5; [enf Hf|eassumption|eassumption|eassumption|].
        step S6; [enf Hf|eassumption|eassumption|eassumption|].
        eapply S7; [enf Hf|eassumption|simpl;eassumption|simpl;eassumption].
Qed.

Definition mden (a : arena nat) (m : znode * bool) (v : node * bool) : Prop :=
  nden a (fst m) (fst v) /\ snd m = snd v.

Lemma reduce_den a m v : mden a m v -> mden a (m_reduce_branch m) (reduce_branch v).
Proof.
  intros [D E]. unfold m_reduce_branch, reduce_branch. rewrite E. destruct (snd v) eqn:Ev.
  - split; auto. congruence.
  - split; simpl; auto. constructor.
Qed.

Lemma m_subset_inner_spec e t : forall v, subset_inner t e = Some v ->
  exists F, forall fuel tot, enough F fuel tot -> forall a n, AInv a -> nden a n t ->
  wp tot a (m_subset_inner fuel n e) (fun a' m => mden a' m v).
Proof.
  induction t as [b|id lo IHlo hi IHhi]; intros v E.
  - simpl in E. inversion E; subst. exists 1. intros fuel tot Hf a n I0 D. start Hf.
    inversion D; subst. simpl. intros a' Ex _. split; simpl; auto. constructor.
  - cbn [subset_inner] in E. destruct (e =? id) eqn:Ee.
    + inv_bind E. inversion E; subst. destruct (m_branch_spec' _ _ _ _ E0) as (F & S1).
      exists (S F). intros fuel tot Hf a n I0 D. start Hf. inversion D; subst. cbn [m_subset_inner]. rewrite Ee.
      step S1; [enf Hf|eassumption|exact (den_leaf a false I0)|simpl;eassumption|].
      apply (@wp_ret nat _). intros a' Ex _. lift Ex. split; auto.
    + inv_bind E. inv_bind E.
      destruct (IHlo _ E0) as (F1 & S1). destruct (IHhi _ E1) as (F2 & S2).
      destruct (reduce_branch x) as [lo' kl] eqn:Rl. destruct (reduce_branch x0) as [hi' kh] eqn:Rh.
      inv_bind E. inversion E; subst. destruct (m_branch_spec' _ _ _ _ E2) as (F3 & S3).
      exists (S (F1 + F2 + F3)). intros fuel tot Hf a n I0 D. start Hf. inversion D; subst.
      cbn [m_subset_inner]. rewrite Ee. getn. step S1; [enf Hf|eassumption|eassumption|].
      apply reduce_den in D1. destruct (m_reduce_branch r0) as [ml bl]. rewrite Rl in D1. destruct D1 as [D1 Q1]; simpl in D1, Q1; subst bl.
      getn. step S2; [enf Hf|eassumption|eassumption|].
      apply reduce_den in D3. destruct (m_reduce_branch r2) as [mh bh]. rewrite Rh in D3. destruct D3 as [D3 Q3]; simpl in D3, Q3; subst bh.
      step S3; [enf Hf|eassumption|simpl;eassumption|simpl;eassumption|].
      apply (@wp_ret nat _). intros a' Ex _. lift Ex. split; auto.
Qed.

Lemma m_node_subset_spec e t t' : node_subset t e = Some t' ->
  exists F, forall fuel tot, enough F fuel tot -> forall a n, AInv a -> nden a n t ->
  wp tot a (m_node_subset fuel n e) (fun a' m => nden a' m t').
Proof.
  intros E. unfold node_subset in E. inv_bind E. inversion E; subst.
  destruct (m_subset_inner_spec _ _ _ E0) as (F & S1).
  exists F. intros fuel tot Hf a n I0 D. unfold m_node_subset.
  step S1; [enf Hf|eassumption|eassumption|]. destruct D0 as [D0 _].
  apply (@wp_ret nat _). intros a' Ex _. lift Ex. auto.
Qed.

Lemma m_node_subset_not_spec e t : forall t', node_subset_not t e = Some t' ->
  exists F, forall fuel tot, enough F fuel tot -> forall a n, AInv a -> nden a n t ->
  wp tot a (m_node_subset_not fuel n e) (fun a' m => nden a' m t').
Proof.
  induction t as [b|id lo IHlo hi IHhi]; intros t' E.
  - simpl in E. inversion E; subst. exists 1. intros fuel tot Hf a n I0 D. start Hf.
    inversion D; subst. simpl. intros a' Ex _. constructor.
  - cbn [node_subset_not] in E. destruct (e =? id) eqn:Ee.
    + inversion E; subst.
      exists 1. intros fuel tot Hf a n I0 D. start Hf. inversion D; subst. cbn [m_node_subset_not]. rewrite Ee.
      apply (@wp_get_node nat _); auto.
    + inv_bind E. inv_bind E.
      destruct (IHlo _ E0) as (F1 & S1). destruct (IHhi _ E1) as (F2 & S2).
      destruct (m_branch_spec' _ _ _ _ E) as (F3 & S3).
      exists (S (F1 + F2 + F3)). intros fuel tot Hf a n I0 D. start Hf. inversion D; subst.
      cbn [m_node_subset_not]. rewrite Ee. getn. step S1; [enf Hf|eassumption|eassumption|].
      getn. step S2; [enf Hf|eassumption|eassumption|].
      eapply S3; [enf Hf|eassumption|simpl;eassumption|simpl;eassumption].
Qed.

(** folds; [Z] is what the body reads besides the accumulator *)
Lemma m_fold_spec {A Z} (f : node -> A -> option node) (m : nat -> Z -> znode -> A -> zprog znode) (P : arena nat -> Z -> Prop)
  (Pext : forall a a' z, ext a a' -> P a z -> P a' z) l :
  (forall b x t, In x l -> f b x = Some t -> exists F, forall fuel tot, enough F fuel tot -> forall a z n, AInv a -> P a z -> nden a n b ->
     wp tot a (m fuel z n x) (fun a' n' => nden a' n' t)) ->
  forall b t, foldM f l b = Some t ->
  exists F, forall fuel tot, enough F fuel tot -> forall a z n, AInv a -> P a z -> nden a n b ->
     wp tot a (pfoldM (m fuel z) l n) (fun a' n' => nden a' n' t).
Proof.
  induction l as [|x l IH]; intros Hs b t E; simpl in E.
  - inversion E; subst. exists 0. intros fuel tot Hf a z n I0 _ D. cbn [pfoldM]. apply wp_nden. auto.
  - inv_bind E. destruct (Hs _ _ _ (or_introl eq_refl) E0) as (F1 & S1).
    destruct (IH (fun b x t I => Hs b x t (or_intror I)) _ _ E) as (F2 & S2).
    exists (F1 + F2). intros fuel tot Hf a z n I0 HP D. simpl.
    eapply (@wp_bind nat _); [eapply S1; [enf Hf|eassumption|exact HP|eassumption]| |eassumption].
    intros a' r Ex I1 D1. cbv beta in D1. eapply S2; [enf Hf|auto|eapply Pext; eauto|auto].
Qed.

Definition nil_env (a : arena nat) (z : unit) := True.

Lemma m_node_subset_all_spec es t t' : node_subset_all t es = Some t' ->
  exists F, forall fuel tot, enough F fuel tot -> forall a n, AInv a -> nden a n t ->
  wp tot a (m_node_subset_all fuel n es) (fun a' m => nden a' m t').
Proof.
  intros E. unfold node_subset_all in E.
  destruct (m_fold_spec (fun acc e => let! s := node_subset t e in intersect acc s) (fun fuel z acc e => do s <- m_node_subset fuel z e ; m_intersect fuel acc s)
              (fun a z => nden a z t) (fun a a' z => nden_ext a a' z t) es) with (2 := E) as (F & S1).
  - intros b x u _ Eu. inv_bind Eu. destruct (m_node_subset_spec _ _ _ E0) as (F1 & S1).
    destruct (m_intersect_spec _ _ _ Eu) as (F2 & S2). exists (F1 + F2). intros fuel tot Hf a z n I0 Dz D.
    step S1; [enf Hf|eassumption|exact Dz|]. eapply S2; [enf Hf| | |]; eassumption.
  - exists F. intros fuel tot Hf a n I0 D. apply S1; auto. constructor.
Qed.

Lemma m_node_subset_none_spec es t t' : node_subset_none t es = Some t' ->
  exists F, forall fuel tot, enough F fuel tot -> forall a n, AInv a -> nden a n t ->
  wp tot a (m_node_subset_none fuel n es) (fun a' m => nden a' m t').
Proof.
  intros E. unfold node_subset_none in E.
  destruct (m_fold_spec (fun acc e => let! s := node_subset_not t e in intersect acc s) (fun fuel z acc e => do s <- m_node_subset_not fuel z e ; m_intersect fuel acc s)
              (fun a z => nden a z t) (fun a a' z => nden_ext a a' z t) es) with (2 := E) as (F & S1).
  - intros b x u _ Eu. inv_bind Eu. destruct (m_node_subset_not_spec _ _ _ E0) as (F1 & S1).
    destruct (m_intersect_spec _ _ _ Eu) as (F2 & S2). exists (F1 + F2). intros fuel tot Hf a z n I0 Dz D.
    step S1; [enf Hf|eassumption|exact Dz|]. eapply S2; [enf Hf| | |]; eassumption.
  - exists F. intros fuel tot Hf a n I0 D. apply S1; auto. constructor.
Qed.

Lemma Forall2_impl_ {A B} (R S : A -> B -> Prop) l m : (forall x y, R x y -> S x y) -> Forall2 R l m -> Forall2 S l m.
Proof. intros Himp F. induction F; constructor; auto. Qed.

(** trees *)
Definition qden (a : arena nat) (q : list (znode * list nat)) (v : list (node * list nat)) : Prop :=
  Forall2 (fun x y => nden a (fst x) (fst y) /\ snd x = snd y) q v.
Lemma qden_ext a b q v : ext a b -> qden a q v -> qden b q v.
Proof. intros E. apply Forall2_impl_. intros x y [D Q]. split; auto. eapply nden_ext; eauto. Qed.

Lemma m_trees_loop_spec d : forall v acc r, trees_loop d v acc = Some r ->
  forall fuel tot, enough d fuel tot -> forall a q, AInv a -> qden a q v ->
  wp tot a (m_trees_loop fuel q acc) (fun _ r' => r' = r).
Proof.
  induction d as [|d IH]; intros v acc r E fuel tot Hf a q I0 D.
  - destruct v as [|[n p] v]; [|discriminate]. inversion D; subst. destruct fuel; simpl in *; intros; congruence.
  - destruct v as [|[n p] v].
    { inversion D; subst. destruct fuel; simpl in *; intros; congruence. }
    inversion D as [|[n' p'] y q' v' [D1 Q1] D2]; subst. simpl in D1, Q1. subst p'. start Hf.
    cbn [m_trees_loop]. simpl in E. destruct n as [[|]|id lo hi]; inversion D1; subst.
    + eapply IH; eauto.
    + eapply IH; eauto.
    + eapply (@wp_bind nat _); [eapply (@wp_get_node nat _); eassumption|intros a1 r1 E1 I1 X1|eassumption].
      cbv beta in X1. lift E1. apply (qden_ext _ _ _ _ E1) in D2.
      eapply (@wp_bind nat _); [eapply (@wp_get_node nat _); eassumption|intros a2 r2 E2 I2 X2|eassumption].
      cbv beta in X2. lift E2. apply (qden_ext _ _ _ _ E2) in D2.
      eapply IH; [exact E|exact Hf|auto|]. constructor; [split; auto|]. constructor; [split; auto|]. exact D2.
Qed.

Lemma m_trees_spec t r : node_trees t = Some r ->
  exists F, forall fuel tot, enough F fuel tot -> forall a i, AInv a -> den a i t ->
  wp tot a (m_trees fuel i) (fun _ r' => r' = r).
Proof.
  intros E. exists (size t). intros fuel tot Hf a i I0 D. unfold m_trees. getn.
  eapply m_trees_loop_spec; [exact E|exact Hf|auto|]. constructor; [split; auto|constructor].
Qed.

Section Forest.
  Context {T : Type} `{Ord T}.

  Definition fden (a : arena nat) (m : mforest T) (f : forest T) : Prop :=
    den a (mf_root m) (f_root f) /\ mf_univ m = f_univ f.
  Lemma fden_ext a b m f : ext a b -> fden a m f -> fden b m f.
  Proof. intros E [D Q]. split; auto. eapply den_ext; eauto. Qed.

  Lemma m_priorities_node_spec u (xs : list T) t : get_priorities_node u xs = Some t ->
    exists F, forall fuel tot, enough F fuel tot -> forall a, AInv a ->
    wp tot a (m_priorities_node fuel u xs) (fun a' n => nden a' n t).
  Proof.
    unfold get_priorities_node, m_priorities_node. destruct (length xs); intros E.
    - inversion E; subst. exists 0. intros fuel tot _ a I0. apply wp_nden. constructor.
    - destruct (m_fold_spec (fun root item => branch item Never root) (fun fuel (_ : unit) root item => m_branch fuel item (ANode (GLeaf false)) (ANode root))
                 nil_env (fun _ _ _ _ x => x) (get_priorities u xs)) with (2 := E) as (F & S1).
      + intros b x u' _ Eu. destruct (m_branch_spec' _ _ _ _ Eu) as (F & S1). exists F.
        intros fuel tot Hf a z n0 I0 _ D. apply S1; auto. constructor.
      + exists F. intros fuel tot Hf a I0. apply (S1 fuel tot Hf a tt); auto; constructor.
  Qed.

  Lemma m_finish tot a root t (u : universe T) : AInv a -> nden a root t ->
    wp tot a (do i <- intern2 root ; Ret (mkMF i u)) (fun a' m => fden a' m (mkF t u)).
  Proof.
    intros I0 D. step (@wp_intern2 nat _); [eassumption|]. apply (@wp_ret nat _).
    intros a' E _. lift E. split; auto.
  Qed.

  Lemma m_unit_spec h (items : list T) f : f_unit h items = Some f ->
    exists F, forall fuel tot, enough F fuel tot -> forall a, AInv a ->
    wp tot a (m_unit fuel h items) (fun a' m => fden a' m f).
  Proof.
    intros E. unfold f_unit in E. inv_bind E. inversion E; subst.
    destruct (m_priorities_node_spec _ _ _ E0) as (F & S1). exists F. intros fuel tot Hf a I0. unfold m_unit.
    step S1; [enf Hf|eassumption|]. apply m_finish; auto.
  Qed.

  Lemma m_many_spec h (rows : list (list T)) f : f_many h rows = Some f ->
    exists F, forall fuel tot, enough F fuel tot -> forall a, AInv a ->
    wp tot a (m_many fuel h rows) (fun a' m => fden a' m f).
  Proof.
    intros E. unfold f_many in E. inv_bind E. inversion E; subst. clear E.
    destruct (m_fold_spec (fun acc items => let! n := get_priorities_node (from_matrix h site_new rows) items in union acc n) (fun fuel (_ : unit) acc items => do n <- m_priorities_node fuel (from_matrix h site_new rows) items ; m_union fuel acc n)
                 nil_env (fun _ _ _ _ x => x) rows) with (2 := E0) as (F & S1).
    - intros b y t _ Eu. inv_bind Eu. destruct (m_priorities_node_spec _ _ _ E) as (F1 & S1).
      destruct (m_union_spec _ _ _ Eu) as (F2 & S2). exists (F1 + F2). intros fuel tot Hf a z n I0 _ D.
      step S1; [enf Hf|eassumption|]. eapply S2; [enf Hf| | |]; eassumption.
    - exists F. intros fuel tot Hf a I0. unfold m_many.
      step (S1 fuel tot Hf a tt); [assumption|constructor|constructor|]. apply m_finish; auto.
  Qed.

  Lemma m_unique_spec h (items : list T) f : f_unique h items = Some f ->
    exists F, forall fuel tot, enough F fuel tot -> forall a, AInv a ->
    wp tot a (m_unique fuel h items) (fun a' m => fden a' m f).
  Proof.
    intros E. unfold f_unique in E. inv_bind E. inversion E; subst. clear E.
    destruct (m_fold_spec (fun root item => branch item root Always) (fun fuel (_ : unit) root item => m_branch fuel item (ANode root) (ANode (GLeaf true)))
                 nil_env (fun _ _ _ _ x => x) (get_priorities (from_items h site_new items) items)) with (2 := E0) as (F & S1).
    - intros b y t _ Eu. destruct (m_branch_spec' _ _ _ _ Eu) as (F & S1). exists F.
      intros fuel tot Hf a z n0 I0 _ D. apply S1; auto. constructor.
    - exists F. intros fuel tot Hf a I0. unfold m_unique.
      step (S1 fuel tot Hf a tt); [assumption|constructor|constructor|]. apply m_finish; auto.
  Qed.

  Lemma m_canonical_spec h t (u : universe T) f : f_canonical h t u = Some f ->
    exists F, forall fuel tot, enough F fuel tot -> forall a n, AInv a -> nden a n t ->
    wp tot a (m_canonical fuel h n u) (fun a' m => fden a' m f).
  Proof.
    intros E. unfold f_canonical in E. inv_bind E.
    destruct (m_trees_spec _ _ E0) as (F1 & S1). destruct (m_many_spec _ _ _ E) as (F2 & S2).
    exists (F1 + F2). intros fuel tot Hf a n I0 D. unfold m_canonical.
    step (@wp_intern2 nat _); [eassumption|]. step S1; [enf Hf|eassumption|eassumption|]. subst r0.
    eapply S2; [enf Hf|auto].
  Qed.

  Lemma m_translate_root_spec (old new : universe T) t : forall t', translate_root old new t = Some t' ->
    exists F, forall fuel tot, enough F fuel tot -> forall a n, AInv a -> nden a n t ->
    wp tot a (m_translate_root fuel old new n) (fun a' m => nden a' m t').
  Proof.
    induction t as [b|id lo IHlo hi IHhi]; intros t' E.
    - simpl in E. inversion E; subst. exists 1. intros fuel tot Hf a n I0 D. start Hf.
      inversion D; subst. apply wp_nden. constructor.
    - cbn [translate_root] in E. inv_bind E. inv_bind E. inv_bind E. inv_bind E.
      destruct (IHlo _ E0) as (F1 & S1). destruct (IHhi _ E1) as (F2 & S2).
      destruct (m_branch_spec' _ _ _ _ E) as (F3 & S3).
      exists (S (F1 + F2 + F3)). intros fuel tot Hf a n I0 D. start Hf. inversion D; subst.
      cbn [m_translate_root]. getn. step S1; [enf Hf|eassumption|eassumption|].
      getn. step S2; [enf Hf|eassumption|eassumption|]. rewrite E2, E3.
      eapply S3; [enf Hf|eassumption|simpl;eassumption|simpl;eassumption].
  Qed.

  Lemma m_binop_spec op m : (forall t1 t2, op2_spec op m t1 t2) ->
    forall h (f g r : forest T), f_binop op h f g = Some r ->
    exists F, forall fuel tot, enough F fuel tot -> forall a mf mg, AInv a -> fden a mf f -> fden a mg g ->
    wp tot a (m_binop m fuel h mf mg) (fun a' m => fden a' m r).
  Proof.
    intros Hop h f g r E. unfold f_binop in E. inv_bind E. unfold translate_roots in E0. inv_bind E0. inv_bind E0.
    inversion E0; subst. clear E0. inv_bind E.
    destruct (m_translate_root_spec _ _ _ _ E1) as (F1 & S1).
    destruct (m_translate_root_spec _ _ _ _ E2) as (F2 & S2).
    destruct (Hop _ _ _ E0) as (F3 & S3). destruct (m_canonical_spec _ _ _ _ E) as (F4 & S4).
    exists (F1 + F2 + F3 + F4). intros fuel tot Hf a mf mg I0 [D1 Q1] [D2 Q2]. unfold m_binop. rewrite Q1, Q2.
    getn. getn. step S1; [enf Hf|eassumption|eassumption|].
    step S2; [enf Hf|eassumption|eassumption|].
    step S3; [enf Hf|eassumption|eassumption|eassumption|]. eapply S4; [enf Hf| |]; eassumption.
  Qed.

  Lemma m_empty_den a : AInv a -> fden a m_empty (f_empty (T:=T)).
  Proof. intros I0. split; auto. exact (den_leaf a false I0). Qed.

  Lemma m_subset_spec h (f : forest T) e r : f_subset h f e = Some r ->
    exists F, forall fuel tot, enough F fuel tot -> forall a mf, AInv a -> fden a mf f ->
    wp tot a (m_subset fuel h mf e) (fun a' m => fden a' m r).
  Proof.
    unfold f_subset, m_subset. destruct (get_priority (f_univ f) e) as [p|] eqn:Ep; intros E.
    - inv_bind E. destruct (m_node_subset_spec _ _ _ E0) as (F1 & S1). destruct (m_canonical_spec _ _ _ _ E) as (F2 & S2).
      exists (F1 + F2). intros fuel tot Hf a mf I0 [D Q]. rewrite Q, Ep. getn.
      step S1; [enf Hf|eassumption|eassumption|]. eapply S2; [enf Hf| |]; eassumption.
    - inversion E; subst. exists 0. intros fuel tot Hf a mf I0 [D Q]. rewrite Q, Ep.
      apply (@wp_ret nat _). intros. apply m_empty_den; auto.
  Qed.

  Lemma m_subset_not_spec h (f : forest T) e r : f_subset_not h f e = Some r ->
    exists F, forall fuel tot, enough F fuel tot -> forall a mf, AInv a -> fden a mf f ->
    wp tot a (m_subset_not fuel h mf e) (fun a' m => fden a' m r).
  Proof.
    unfold f_subset_not, m_subset_not. destruct (get_priority (f_univ f) e) as [p|] eqn:Ep; intros E.
    - inv_bind E. destruct (m_node_subset_not_spec _ _ _ E0) as (F1 & S1). destruct (m_canonical_spec _ _ _ _ E) as (F2 & S2).
      exists (F1 + F2). intros fuel tot Hf a mf I0 [D Q]. rewrite Q, Ep. getn.
      step S1; [enf Hf|eassumption|eassumption|]. eapply S2; [enf Hf| |]; eassumption.
    - inversion E; subst. exists 0. intros fuel tot Hf a mf I0 D. destruct D as [D Q]. rewrite Q, Ep.
      apply (@wp_ret nat _). intros. eapply fden_ext; eauto. split; auto.
  Qed.

  Lemma m_subset_many_spec h (f : forest T) es d md fn mfn r :
    (forall a mf, AInv a -> fden a mf f -> fden a (md mf) (d f)) ->
    (forall t t' ps, fn t ps = Some t' -> exists F, forall fuel tot, enough F fuel tot -> forall a n, AInv a -> nden a n t ->
       wp tot a (mfn fuel n ps) (fun a' m => nden a' m t')) ->
    f_subset_many h f es d fn = Some r ->
    exists F, forall fuel tot, enough F fuel tot -> forall a mf, AInv a -> fden a mf f ->
    wp tot a (m_subset_many fuel h mf es md mfn) (fun a' m => fden a' m r).
  Proof.
    intros Hd Hfn. unfold f_subset_many, m_subset_many. destruct es as [|e es]; intros E.
    - inversion E; subst. exists 0. intros fuel tot Hf a mf I0 D. apply (@wp_ret nat _). intros. eapply fden_ext; eauto.
    - destruct (negb (length (e :: es) =? length (get_priorities (f_univ f) (e :: es)))) eqn:En.
      + inversion E; subst. exists 0. intros fuel tot Hf a mf I0 [D Q]. rewrite Q, En. apply (@wp_ret nat _). intros a' Ex I1.
        apply Hd; auto. eapply fden_ext; eauto. split; auto.
      + inv_bind E. destruct (Hfn _ _ _ E0) as (F1 & S1). destruct (m_canonical_spec _ _ _ _ E) as (F2 & S2).
        exists (F1 + F2). intros fuel tot Hf a mf I0 [D Q]. rewrite Q, En. getn.
        step S1; [enf Hf|eassumption|eassumption|]. eapply S2; [enf Hf| |]; eassumption.
  Qed.

  Lemma m_eqb_spec a m n (f g : forest T) : AInv a -> fden a m f -> fden a n g -> m_eqb m n = f_eqb f g.
  Proof.
    intros I0 [D1 Q1] [D2 Q2]. unfold m_eqb, f_eqb. rewrite Q1, Q2. f_equal.
    destruct (Nat.eqb_spec (mf_root m) (mf_root n)) as [En|En], (dd_eqb_spec (f_root f) (f_root g)) as [Ed|Ed]; auto; exfalso.
    - apply Ed. rewrite En in D1. exact (den_fun a _ _ _ D1 D2).
    - apply En. rewrite Ed in D1. exact (den_inj a _ _ _ I0 D1 D2).
  Qed.

  (** scripts *)
  Definition rden (a : arena nat) (ms : list (mforest T)) (fs : list (forest T)) : Prop := Forall2 (fden a) ms fs.
  Lemma rden_ext a b ms fs : ext a b -> rden a ms fs -> rden b ms fs.
  Proof. intros E. apply Forall2_impl_. intros x y. apply fden_ext; auto. Qed.
  Lemma rden_reg a ms fs i : AInv a -> rden a ms fs -> fden a (mreg ms i) (reg fs i).
  Proof.
    intros I0 D. unfold mreg, reg. revert i. induction D as [|m f ms fs D0 D IH]; intros i.
    - destruct i; apply m_empty_den; auto.
    - destruct i; simpl; auto.
  Qed.

  Definition sden (a : arena nat) {O} (x : list (mforest T) * O) (y : list (forest T) * O) : Prop :=
    rden a (fst x) (fst y) /\ snd x = snd y.

  Lemma mnew_spec tot a p f ms fs : AInv a -> rden a ms fs -> wp tot a p (fun a' m => fden a' m f) ->
    wp tot a (mnew p ms) (fun a' x => sden a' x (fs ++ [f], ONone (T:=T))).
  Proof.
    intros I0 D Hw. unfold mnew. eapply (@wp_bind nat _); [exact Hw| |exact I0].
    intros a' m E I1 Dm. cbv beta in Dm. apply (@wp_ret nat _). intros a2 E2 I2. split; simpl; auto.
    apply Forall2_app.
    - eapply rden_ext; [|exact D]. eapply ext_trans; eauto.
    - constructor; [|constructor]. eapply fden_ext; eauto.
  Qed.

  Lemma m_call_spec c fs y : run_call fs c = Some y ->
    exists F, forall fuel tot, enough F fuel tot -> forall a ms, AInv a -> rden a ms fs ->
    wp tot a (m_call fuel ms c) (fun a' x => sden a' x y).
  Proof.
    assert (N0 : forall o, new o fs = Some y -> forall m,
      (forall f, o = Some f -> exists F, forall fuel tot, enough F fuel tot -> forall a ms, AInv a -> rden a ms fs ->
         wp tot a (m fuel ms) (fun a' x => fden a' x f)) ->
      exists F, forall fuel tot, enough F fuel tot -> forall a ms, AInv a -> rden a ms fs ->
        wp tot a (mnew (m fuel ms) ms) (fun a' x => sden a' x y)).
    { intros o E m Hm. destruct o as [f|]; [|discriminate]. inversion E; subst. destruct (Hm _ eq_refl) as (F & S1).
      exists F. intros fuel tot Hf a ms I0 D. apply mnew_spec; auto. }
    assert (B : forall op m h i j, (forall t1 t2, op2_spec op m t1 t2) -> new (f_binop op h (reg fs i) (reg fs j)) fs = Some y ->
      exists F, forall fuel tot, enough F fuel tot -> forall a ms, AInv a -> rden a ms fs ->
        wp tot a (mnew (m_binop m fuel h (mreg ms i) (mreg ms j)) ms) (fun a' x => sden a' x y)).
    { intros op m h i j Hop E. apply (N0 _ E (fun fuel ms => m_binop m fuel h (mreg ms i) (mreg ms j))).
      intros f Ef. destruct (m_binop_spec op m Hop _ _ _ _ Ef) as (F & S1). exists F. intros fuel tot Hf a ms I0 D.
      apply S1; auto using rden_reg. }
    destruct c as [|h items|h rows|h items|h i j|h i j|h i j|h i e|h i e|h i es|h i es|i|i|i|h i|i j]; cbn [run_call m_call]; intros E.
    - eapply (N0 _ E (fun fuel ms => Ret m_empty)). intros f Ef. inversion Ef; subst. exists 0. intros fuel tot _ a ms I0 _.
      apply (@wp_ret nat _). intros; apply m_empty_den; auto.
    - eapply (N0 _ E (fun fuel ms => m_unit fuel h items)). intros f Ef. destruct (m_unit_spec _ _ _ Ef) as (F & S1). exists F. auto.
    - eapply (N0 _ E (fun fuel ms => m_many fuel h rows)). intros f Ef. destruct (m_many_spec _ _ _ Ef) as (F & S1). exists F. auto.
    - eapply (N0 _ E (fun fuel ms => m_unique fuel h items)). intros f Ef. destruct (m_unique_spec _ _ _ Ef) as (F & S1). exists F. auto.
    - eapply B; [exact m_union_spec|exact E].
    - eapply B; [exact m_intersect_spec|exact E].
    - eapply B; [exact m_product_spec|exact E].
    - eapply (N0 _ E (fun fuel ms => m_subset fuel h (mreg ms i) e)). intros f Ef. destruct (m_subset_spec _ _ _ _ Ef) as (F & S1).
      exists F. intros; apply S1; auto using rden_reg.
    - eapply (N0 _ E (fun fuel ms => m_subset_not fuel h (mreg ms i) e)). intros f Ef. destruct (m_subset_not_spec _ _ _ _ Ef) as (F & S1).
      exists F. intros; apply S1; auto using rden_reg.
    - eapply (N0 _ E (fun fuel ms => m_subset_many fuel h (mreg ms i) es (fun _ => m_empty) m_node_subset_all)). intros f Ef.
      destruct (m_subset_many_spec h (reg fs i) es (fun _ => f_empty) (fun _ => m_empty) node_subset_all m_node_subset_all f) as (F & S1); auto.
      + intros; apply m_empty_den; auto.
      + intros t t' ps. apply m_node_subset_all_spec.
      + exists F. intros; apply S1; auto using rden_reg.
    - eapply (N0 _ E (fun fuel ms => m_subset_many fuel h (mreg ms i) es (fun f => f) m_node_subset_none)). intros f Ef.
      destruct (m_subset_many_spec h (reg fs i) es (fun f => f) (fun f => f) node_subset_none m_node_subset_none f) as (F & S1); auto.
      + intros t t' ps. apply m_node_subset_none_spec.
      + exists F. intros; apply S1; auto using rden_reg.
    - inv_bind E. inversion E; subst. unfold f_trees in E0. inv_bind E0. inversion E0; subst.
      destruct (m_trees_spec _ _ E1) as (F & S1). exists F. intros fuel tot Hf a ms I0 D.
      pose proof (rden_reg a ms fs i I0 D) as [Dr Qr].
      eapply (@wp_bind nat _); [|intros a' r Ex I1 Dr'|exact I0].
      { unfold m_ftrees. eapply (@wp_bind nat _); [eapply S1; eauto| |exact I0]. intros a' r Ex I1 Dr'. cbv beta in Dr'. subst r.
        apply (@wp_ret nat _). intros. instantiate (1 := fun _ r => r = map (get_items (mf_univ (mreg ms i))) x0). reflexivity. }
      apply (@wp_ret nat _). intros a2 E2 I2. cbv beta in Dr'. subst r. rewrite Qr. split; simpl; auto.
      eapply rden_ext; [|exact D]. eapply ext_trans; eauto.
    - inv_bind E. inversion E; subst. unfold f_len in E0. inv_bind E0. inversion E0; subst.
      destruct (m_trees_spec _ _ E1) as (F & S1). exists F. intros fuel tot Hf a ms I0 D.
      pose proof (rden_reg a ms fs i I0 D) as [Dr Qr].
      eapply (@wp_bind nat _); [|intros a' r Ex I1 Dr'|exact I0].
      { unfold m_len. eapply (@wp_bind nat _); [eapply S1; eauto| |exact I0]. intros a' r Ex I1 Dr'. cbv beta in Dr'. subst r.
        apply (@wp_ret nat _). intros. instantiate (1 := fun _ r => r = length x0). reflexivity. }
      apply (@wp_ret nat _). intros a2 E2 I2. cbv beta in Dr'. subst r. split; simpl; auto.
      eapply rden_ext; [|exact D]. eapply ext_trans; eauto.
    - inv_bind E. inversion E; subst. unfold f_is_empty in E0. inv_bind E0. inversion E0; subst.
      destruct (m_trees_spec _ _ E1) as (F & S1). exists F. intros fuel tot Hf a ms I0 D.
      pose proof (rden_reg a ms fs i I0 D) as [Dr Qr].
      eapply (@wp_bind nat _); [|intros a' r Ex I1 Dr'|exact I0].
      { unfold m_is_empty. eapply (@wp_bind nat _); [eapply S1; eauto| |exact I0]. intros a' r Ex I1 Dr'. cbv beta in Dr'. subst r.
        apply (@wp_ret nat _). intros. instantiate (1 := fun _ r => r = match x0 with [] => true | _ => false end). reflexivity. }
      apply (@wp_ret nat _). intros a2 E2 I2. cbv beta in Dr'. subst r. split; simpl; auto.
      eapply rden_ext; [|exact D]. eapply ext_trans; eauto.
    - inversion E; subst. exists 0. intros fuel tot _ a ms I0 D. apply (@wp_ret nat _). intros a' Ex I1.
      pose proof (rden_reg a ms fs i I0 D) as [Dr Qr].
      split; simpl; [eapply rden_ext; eauto|]. unfold m_occurrences, f_occurrences. rewrite Qr. reflexivity.
    - inversion E; subst. exists 0. intros fuel tot _ a ms I0 D. apply (@wp_ret nat _). intros a' Ex I1.
      split; simpl; [eapply rden_ext; eauto|]. f_equal. eapply m_eqb_spec; [exact I0| |]; apply rden_reg; auto.
  Qed.

  Lemma m_script_spec cs : forall fs y, run_script cs fs = Some y ->
    exists F, forall fuel tot, enough F fuel tot -> forall a ms, AInv a -> rden a ms fs ->
    wp tot a (m_script fuel cs ms) (fun a' x => sden a' x y).
  Proof.
    induction cs as [|c cs IH]; intros fs y E; simpl in E.
    - inversion E; subst. exists 0. intros fuel tot _ a ms I0 D. apply (@wp_ret nat _). intros a' Ex I1.
      split; simpl; auto. eapply rden_ext; eauto.
    - inv_bind E. inv_bind E. inversion E; subst. destruct (m_call_spec _ _ _ E0) as (F1 & S1).
      destruct (IH _ _ E1) as (F2 & S2). exists (F1 + F2). intros fuel tot Hf a ms I0 D. cbn [m_script].
      eapply (@wp_bind nat _); [eapply S1; [enf Hf| |]; eassumption| |exact I0].
      intros a1 r1 X1 I1 [D1 Q1].
      eapply (@wp_bind nat _); [eapply S2; [enf Hf| |]; eassumption| |exact I1].
      intros a2 r2 X2 I2 [D2 Q2]. apply (@wp_ret nat _). intros a3 X3 I3. split; simpl.
      + eapply rden_ext; eauto.
      + congruence.
  Qed.
End Forest.
