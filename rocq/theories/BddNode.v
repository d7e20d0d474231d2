(** BddNode: proofs about bowtie nodes (values). *)
From Coq Require Import List Arith Lia Bool Permutation Sorted.
From Verif Require Import Base DD Spec BddSpec BddModel.
Import ListNotations.

Section BddNode.
  Context {I : Type} `{Ord I}.
  Implicit Types (t n a lo hi : dd I) (env : I -> bool).

  Lemma upd_same env i b : upd env i b i = b.
  Proof. unfold upd. rewrite eqb_refl_. reflexivity. Qed.
  Lemma upd_other env i b x : x <> i -> upd env i b x = env x.
  Proof. intros N. unfold upd. apply eqb_false_ in N. rewrite N. reflexivity. Qed.

  Lemma eval_ext t e1 e2 : (forall x, In x (labels t) -> e1 x = e2 x) -> eval e1 t = eval e2 t.
  Proof.
    induction t as [b|i lo IHl hi IHh]; simpl; intros E; [reflexivity|].
    rewrite (E i) by auto. rewrite IHl, IHh; [reflexivity| |]; intros; apply E; right; apply in_or_app; auto.
  Qed.
  Lemma eval_upd_fresh t env i b : ~ In i (labels t) -> eval (upd env i b) t = eval env t.
  Proof.
    intros N. apply eval_ext. intros x Hx. apply upd_other. intros ->. contradiction.
  Qed.

  (** ** and, or *)
  Lemma eval_collapse env i lo hi : eval env (collapse i lo hi) = if env i then eval env hi else eval env lo.
  Proof.
    unfold collapse. destruct (dd_eqb_spec lo hi) as [->|]; simpl; destruct (env i); reflexivity.
  Qed.

  (** unfolding equations *)
  Lemma bitor_BB i lo hi j lo' hi' : bitor (Branch i lo hi) (Branch j lo' hi') =
    match cmp i j with
    | Lt => collapse i (bitor lo (Branch j lo' hi')) (bitor hi (Branch j lo' hi'))
    | Eq => collapse i (bitor lo lo') (bitor hi hi')
    | Gt => collapse j (bitor (Branch i lo hi) lo') (bitor (Branch i lo hi) hi')
    end.
  Proof. reflexivity. Qed.
  Lemma bitand_BB i lo hi j lo' hi' : bitand (Branch i lo hi) (Branch j lo' hi') =
    match cmp i j with
    | Lt => collapse i (bitand lo (Branch j lo' hi')) (bitand hi (Branch j lo' hi'))
    | Eq => collapse i (bitand lo lo') (bitand hi hi')
    | Gt => collapse j (bitand (Branch i lo hi) lo') (bitand (Branch i lo hi) hi')
    end.
  Proof. reflexivity. Qed.
  Lemma bitor_LB j lo' hi' : bitor (Leaf true) (Branch j lo' hi') = collapse j (bitor (Leaf true) lo') (bitor (Leaf true) hi').
  Proof. reflexivity. Qed.
  Lemma bitand_LB j lo' hi' : bitand (Leaf false) (Branch j lo' hi') = collapse j (bitand (Leaf false) lo') (bitand (Leaf false) hi').
  Proof. reflexivity. Qed.
  Lemma bitor_FB (b : dd I) : bitor (Leaf false) b = b.
  Proof. destruct b as [[]|]; reflexivity. Qed.
  Lemma bitand_TB (b : dd I) : bitand (Leaf true) b = b.
  Proof. destruct b as [[]|]; reflexivity. Qed.

  Lemma eval_bitor env a : forall b, eval env (bitor a b) = eval env a || eval env b.
  Proof.
    induction a as [v|i lo IHl hi IHh].
    - induction b as [w|j lo' IHl' hi' IHh'].
      + destruct v, w; reflexivity.
      + destruct v.
        * rewrite bitor_LB. rewrite eval_collapse, IHl', IHh'.
          cbn [eval]. destruct (env j); reflexivity.
        * reflexivity.
    - induction b as [w|j lo' IHl' hi' IHh'].
      + destruct w.
        * cbn [bitor]. rewrite eval_collapse, IHl, IHh. cbn [eval]. destruct (env i); reflexivity.
        * cbn. rewrite orb_false_r. reflexivity.
      + rewrite bitor_BB. destruct (cmp i j) eqn:E.
        * apply cmp_eq in E; subst j. rewrite eval_collapse, IHl, IHh. cbn [eval]. destruct (env i); reflexivity.
        * rewrite eval_collapse, IHl, IHh. cbn [eval]. destruct (env i); reflexivity.
        * rewrite eval_collapse, IHl', IHh'. cbn [eval]. destruct (env j); reflexivity.
  Qed.

  Lemma eval_bitand env a : forall b, eval env (bitand a b) = eval env a && eval env b.
  Proof.
    induction a as [v|i lo IHl hi IHh].
    - induction b as [w|j lo' IHl' hi' IHh'].
      + destruct v, w; reflexivity.
      + destruct v.
        * reflexivity.
        * rewrite bitand_LB. rewrite eval_collapse, IHl', IHh'.
          cbn [eval]. destruct (env j); reflexivity.
    - induction b as [w|j lo' IHl' hi' IHh'].
      + destruct w.
        * cbn. rewrite andb_true_r. reflexivity.
        * cbn [bitand]. rewrite eval_collapse, IHl, IHh. cbn [eval]. destruct (env i); reflexivity.
      + rewrite bitand_BB. destruct (cmp i j) eqn:E.
        * apply cmp_eq in E; subst j. rewrite eval_collapse, IHl, IHh. cbn [eval]. destruct (env i); reflexivity.
        * rewrite eval_collapse, IHl, IHh. cbn [eval]. destruct (env i); reflexivity.
        * rewrite eval_collapse, IHl', IHh'. cbn [eval]. destruct (env j); reflexivity.
  Qed.

  (** ** labels, order and reducedness of the results *)
  Lemma labels_collapse i lo hi x : In x (labels (collapse i lo hi)) -> x = i \/ In x (labels lo) \/ In x (labels hi).
  Proof.
    unfold collapse. destruct (dd_eqb lo hi); simpl; [auto|]. rewrite in_app_iff. intuition.
  Qed.

  Lemma labels_bitor a : forall b x, In x (labels (bitor a b)) -> In x (labels a) \/ In x (labels b).
  Proof.
    induction a as [v|i lo IHl hi IHh].
    - induction b as [w|j lo' IHl' hi' IHh']; intros x.
      + destruct v, w; simpl; auto.
      + destruct v; [rewrite bitor_LB|rewrite bitor_FB; auto].
        intros Hx. apply labels_collapse in Hx. cbn [labels]. right. simpl. rewrite in_app_iff.
        destruct Hx as [->|[Hx|Hx]]; auto; [apply IHl' in Hx|apply IHh' in Hx]; simpl in Hx; intuition.
    - induction b as [w|j lo' IHl' hi' IHh']; intros x.
      + destruct w; cbn [bitor]; auto.
        intros Hx. apply labels_collapse in Hx. cbn [labels]. left. simpl. rewrite in_app_iff.
        destruct Hx as [->|[Hx|Hx]]; auto; [apply IHl in Hx|apply IHh in Hx]; simpl in Hx; intuition.
      + rewrite bitor_BB.
        destruct (cmp i j) eqn:E; intros Hx; apply labels_collapse in Hx.
        * cbn [labels]. simpl. rewrite !in_app_iff.
          destruct Hx as [->|[Hx|Hx]]; auto; [apply IHl in Hx|apply IHh in Hx]; intuition.
        * destruct Hx as [->|[Hx|Hx]]; [left; left; reflexivity|apply IHl in Hx|apply IHh in Hx];
            (destruct Hx as [Hx|Hx]; [left; simpl; rewrite in_app_iff; auto|right; exact Hx]).
        * destruct Hx as [->|[Hx|Hx]]; [right; left; reflexivity|apply IHl' in Hx|apply IHh' in Hx];
            (destruct Hx as [Hx|Hx]; [left; exact Hx|right; simpl; rewrite in_app_iff; auto]).
  Qed.

  Lemma labels_bitand a : forall b x, In x (labels (bitand a b)) -> In x (labels a) \/ In x (labels b).
  Proof.
    induction a as [v|i lo IHl hi IHh].
    - induction b as [w|j lo' IHl' hi' IHh']; intros x.
      + destruct v, w; simpl; auto.
      + destruct v; [rewrite bitand_TB; auto|rewrite bitand_LB].
        intros Hx. apply labels_collapse in Hx. cbn [labels]. right. simpl. rewrite in_app_iff.
        destruct Hx as [->|[Hx|Hx]]; auto; [apply IHl' in Hx|apply IHh' in Hx]; simpl in Hx; intuition.
    - induction b as [w|j lo' IHl' hi' IHh']; intros x.
      + destruct w; cbn [bitand]; auto.
        intros Hx. apply labels_collapse in Hx. cbn [labels]. left. simpl. rewrite in_app_iff.
        destruct Hx as [->|[Hx|Hx]]; auto; [apply IHl in Hx|apply IHh in Hx]; simpl in Hx; intuition.
      + rewrite bitand_BB.
        destruct (cmp i j) eqn:E; intros Hx; apply labels_collapse in Hx.
        * cbn [labels]. simpl. rewrite !in_app_iff.
          destruct Hx as [->|[Hx|Hx]]; auto; [apply IHl in Hx|apply IHh in Hx]; intuition.
        * destruct Hx as [->|[Hx|Hx]]; [left; left; reflexivity|apply IHl in Hx|apply IHh in Hx];
            (destruct Hx as [Hx|Hx]; [left; simpl; rewrite in_app_iff; auto|right; exact Hx]).
        * destruct Hx as [->|[Hx|Hx]]; [right; left; reflexivity|apply IHl' in Hx|apply IHh' in Hx];
            (destruct Hx as [Hx|Hx]; [left; exact Hx|right; simpl; rewrite in_app_iff; auto]).
  Qed.

  Lemma bordered_collapse i lo hi :
    (forall j, In j (labels lo) \/ In j (labels hi) -> lt_ i j) -> bordered lo -> bordered hi ->
    bordered (collapse i lo hi).
  Proof. unfold collapse. destruct (dd_eqb lo hi); simpl; auto. Qed.
  Lemma breduced_collapse i lo hi : breduced lo -> breduced hi -> breduced (collapse i lo hi).
  Proof. unfold collapse. destruct (dd_eqb_spec lo hi); simpl; auto. Qed.

  Lemma label_above i lo hi j : bordered (Branch i lo hi) -> In j (labels (Branch i lo hi)) -> j = i \/ lt_ i j.
  Proof. simpl. rewrite in_app_iff. intros (A & _). intuition. Qed.

  Lemma bordered_bitor a : forall b, bordered a -> bordered b -> bordered (bitor a b).
  Proof.
    induction a as [v|i lo IHl hi IHh].
    - induction b as [w|j lo' IHl' hi' IHh']; intros A B.
      + destruct v, w; simpl; auto.
      + destruct v; [rewrite bitor_LB|rewrite bitor_FB; auto].
        destruct B as (B1 & B2 & B3). apply bordered_collapse; auto.
        intros x [Hx|Hx]; apply labels_bitor in Hx; simpl in Hx; destruct Hx as [[]|Hx]; auto.
    - induction b as [w|j lo' IHl' hi' IHh']; intros A B.
      + destruct w; cbn [bitor]; auto. destruct A as (A1 & A2 & A3). apply bordered_collapse; auto.
        intros x [Hx|Hx]; apply labels_bitor in Hx; simpl in Hx; destruct Hx as [Hx|[]]; auto.
      + pose proof A as A0. pose proof B as B0.
        destruct A as (A1 & A2 & A3). destruct B as (B1 & B2 & B3).
        rewrite bitor_BB. destruct (cmp i j) eqn:E.
        * apply cmp_eq in E; subst j. apply bordered_collapse; auto.
          intros x [Hx|Hx]; apply labels_bitor in Hx; intuition.
        * apply bordered_collapse; auto.
          intros x [Hx|Hx]; apply labels_bitor in Hx; (destruct Hx as [Hx|Hx]; [auto|]);
            (apply (label_above _ _ _ _ B0) in Hx; destruct Hx as [->|Hx]; [exact E|eapply lt_trans_; [exact E|exact Hx]]).
        * apply cmp_gt in E. apply bordered_collapse; auto.
          intros x [Hx|Hx]; apply labels_bitor in Hx; (destruct Hx as [Hx|Hx]; [|auto]);
            (apply (label_above _ _ _ _ A0) in Hx; destruct Hx as [->|Hx]; [exact E|eapply lt_trans_; [exact E|exact Hx]]).
  Qed.

  Lemma bordered_bitand a : forall b, bordered a -> bordered b -> bordered (bitand a b).
  Proof.
    induction a as [v|i lo IHl hi IHh].
    - induction b as [w|j lo' IHl' hi' IHh']; intros A B.
      + destruct v, w; simpl; auto.
      + destruct v; [rewrite bitand_TB; auto|rewrite bitand_LB].
        destruct B as (B1 & B2 & B3). apply bordered_collapse; auto.
        intros x [Hx|Hx]; apply labels_bitand in Hx; simpl in Hx; destruct Hx as [[]|Hx]; auto.
    - induction b as [w|j lo' IHl' hi' IHh']; intros A B.
      + destruct w; cbn [bitand]; auto. destruct A as (A1 & A2 & A3). apply bordered_collapse; auto.
        intros x [Hx|Hx]; apply labels_bitand in Hx; simpl in Hx; destruct Hx as [Hx|[]]; auto.
      + pose proof A as A0. pose proof B as B0.
        destruct A as (A1 & A2 & A3). destruct B as (B1 & B2 & B3).
        rewrite bitand_BB. destruct (cmp i j) eqn:E.
        * apply cmp_eq in E; subst j. apply bordered_collapse; auto.
          intros x [Hx|Hx]; apply labels_bitand in Hx; intuition.
        * apply bordered_collapse; auto.
          intros x [Hx|Hx]; apply labels_bitand in Hx; (destruct Hx as [Hx|Hx]; [auto|]);
            (apply (label_above _ _ _ _ B0) in Hx; destruct Hx as [->|Hx]; [exact E|eapply lt_trans_; [exact E|exact Hx]]).
        * apply cmp_gt in E. apply bordered_collapse; auto.
          intros x [Hx|Hx]; apply labels_bitand in Hx; (destruct Hx as [Hx|Hx]; [|auto]);
            (apply (label_above _ _ _ _ A0) in Hx; destruct Hx as [->|Hx]; [exact E|eapply lt_trans_; [exact E|exact Hx]]).
  Qed.

  Lemma breduced_bitor a : forall b, breduced a -> breduced b -> breduced (bitor a b).
  Proof.
    induction a as [v|i lo IHl hi IHh].
    - induction b as [w|j lo' IHl' hi' IHh']; intros A B.
      + destruct v, w; simpl; auto.
      + destruct v; [rewrite bitor_LB|rewrite bitor_FB; auto].
        destruct B as (B1 & B2 & B3). apply breduced_collapse; auto.
    - induction b as [w|j lo' IHl' hi' IHh']; intros A B.
      + destruct w; cbn [bitor]; auto. destruct A as (A1 & A2 & A3). apply breduced_collapse; auto.
      + rewrite bitor_BB. pose proof A as A0. pose proof B as B0.
        destruct A as (A1 & A2 & A3). destruct B as (B1 & B2 & B3).
        destruct (cmp i j) eqn:E; apply breduced_collapse; auto.
  Qed.
  Lemma breduced_bitand a : forall b, breduced a -> breduced b -> breduced (bitand a b).
  Proof.
    induction a as [v|i lo IHl hi IHh].
    - induction b as [w|j lo' IHl' hi' IHh']; intros A B.
      + destruct v, w; simpl; auto.
      + destruct v; [rewrite bitand_TB; auto|rewrite bitand_LB].
        destruct B as (B1 & B2 & B3). apply breduced_collapse; auto.
    - induction b as [w|j lo' IHl' hi' IHh']; intros A B.
      + destruct w; cbn [bitand]; auto. destruct A as (A1 & A2 & A3). apply breduced_collapse; auto.
      + rewrite bitand_BB. pose proof A as A0. pose proof B as B0.
        destruct A as (A1 & A2 & A3). destruct B as (B1 & B2 & B3).
        destruct (cmp i j) eqn:E; apply breduced_collapse; auto.
  Qed.

  (** ** reduce, restrict *)
  Lemma eval_reduce env t : eval env (reduce t) = eval env t.
  Proof. induction t; simpl; [reflexivity|]. rewrite eval_collapse, IHt1, IHt2. reflexivity. Qed.
  Lemma breduced_reduce t : breduced (reduce t).
  Proof. induction t; simpl; auto. apply breduced_collapse; auto. Qed.
  Lemma labels_reduce t x : In x (labels (reduce t)) -> In x (labels t).
  Proof.
    induction t as [|i lo IHl hi IHh]; simpl; auto. intros Hx. apply labels_collapse in Hx.
    rewrite in_app_iff. destruct Hx as [->|[Hx|Hx]]; auto.
  Qed.
  Lemma bordered_reduce t : bordered t -> bordered (reduce t).
  Proof.
    induction t as [|i lo IHl hi IHh]; simpl; auto. intros (A & B & C). apply bordered_collapse; auto.
    intros j [Hj|Hj]; apply labels_reduce in Hj; auto.
  Qed.

  Lemma labels_restrict t i b x : In x (labels (restrict t i b)) -> In x (labels t).
  Proof.
    induction t as [|j lo IHl hi IHh]; simpl; auto. rewrite in_app_iff.
    destruct (eqb_ j i); [destruct b; simpl; auto|].
    intros Hx. apply labels_collapse in Hx. destruct Hx as [->|[Hx|Hx]]; auto.
  Qed.
  Lemma restrict_gone t i b : bordered t -> ~ In i (labels (restrict t i b)).
  Proof.
    induction t as [|j lo IHl hi IHh]; simpl; auto. intros (A & B & C).
    destruct (eqb_spec_ j i) as [->|N].
    - intros Hx. apply (lt_irrefl_ i). apply A. destruct b; simpl in Hx; auto.
    - intros Hx. apply labels_collapse in Hx. destruct Hx as [Hx|[Hx|Hx]]; [congruence| |]; firstorder.
  Qed.
  Lemma restrict_other t i b x : bordered t -> x <> i -> In x (labels (restrict t i b)) -> In x (labels t).
  Proof. intros _ _. apply labels_restrict. Qed.
  Lemma bordered_restrict t i b : bordered t -> bordered (restrict t i b).
  Proof.
    induction t as [|j lo IHl hi IHh]; simpl; auto. intros (A & B & C).
    destruct (eqb_ j i); [destruct b; simpl; auto|]. apply bordered_collapse; auto.
    intros x [Hx|Hx]; apply labels_restrict in Hx; auto.
  Qed.
  Lemma breduced_restrict t i b : breduced t -> breduced (restrict t i b).
  Proof.
    induction t as [|j lo IHl hi IHh]; simpl; auto. intros (A & B & C).
    destruct (eqb_ j i); [destruct b; simpl; auto|]. apply breduced_collapse; auto.
  Qed.
  Lemma eval_restrict t i b env : bordered t -> eval env (restrict t i b) = eval (upd env i b) t.
  Proof.
    induction t as [|j lo IHl hi IHh]; simpl; auto. intros (A & B & C).
    destruct (eqb_spec_ j i) as [->|N].
    - rewrite upd_same.
      assert (~ In i (labels lo)) by (intros X; apply (lt_irrefl_ i), A; auto).
      assert (~ In i (labels hi)) by (intros X; apply (lt_irrefl_ i), A; auto).
      destruct b; simpl; rewrite eval_upd_fresh; auto.
    - rewrite eval_collapse, upd_other, IHl, IHh by auto. reflexivity.
  Qed.
  Lemma restrict_fresh t i b : breduced t -> ~ In i (labels t) -> restrict t i b = t.
  Proof.
    induction t as [|j lo IHl hi IHh]; simpl; auto. rewrite in_app_iff. intros (A & B & C) N.
    destruct (eqb_spec_ j i) as [->|N']; [tauto|].
    rewrite IHl, IHh by tauto. unfold collapse. destruct (dd_eqb_spec lo hi); congruence.
  Qed.

  (** ** canonicity *)
  Lemma fresh_lo i lo hi : bordered (Branch i lo hi) -> ~ In i (labels lo).
  Proof. intros (A & _) X. apply (lt_irrefl_ i), A; auto. Qed.
  Lemma fresh_hi i lo hi : bordered (Branch i lo hi) -> ~ In i (labels hi).
  Proof. intros (A & _) X. apply (lt_irrefl_ i), A; auto. Qed.

  Lemma below_fresh i j lo hi : bordered (Branch j lo hi) -> lt_ i j -> ~ In i (labels (Branch j lo hi)).
  Proof.
    intros B L X. apply (label_above _ _ _ _ B) in X. destruct X as [->|X].
    - exact (lt_irrefl_ _ L).
    - exact (lt_asym_ _ _ L X).
  Qed.

  (** if the function of a branch does not depend on its item, its children agree *)
  Lemma branch_indep i lo hi : bordered (Branch i lo hi) ->
    (forall env b, eval (upd env i b) (Branch i lo hi) = eval env (Branch i lo hi)) ->
    forall env, eval env lo = eval env hi.
  Proof.
    intros B E env.
    pose proof (E env true) as E1. pose proof (E env false) as E2. simpl in *. rewrite upd_same in *.
    rewrite eval_upd_fresh in E1 by (eapply fresh_hi; eauto).
    rewrite eval_upd_fresh in E2 by (eapply fresh_lo; eauto). congruence.
  Qed.

  Lemma canonical k : forall a b, size a + size b < k ->
    bordered a -> bordered b -> breduced a -> breduced b ->
    (forall env, eval env a = eval env b) -> a = b.
  Proof.
    induction k as [|k IH]; intros a b L Oa Ob Ra Rb E; [lia|].
    assert (NB : forall i lo hi, size (Branch i lo hi) <= k -> bordered (Branch i lo hi) -> breduced (Branch i lo hi) ->
                 ~ (forall env v, eval (upd env i v) (Branch i lo hi) = eval env (Branch i lo hi))).
    { intros i lo hi Ls (O1 & O2 & O3) (R1 & R2 & R3) C. apply R1. simpl in Ls. apply IH; auto.
      apply (branch_indep i); simpl; auto. }
    destruct a as [v|i lo hi]; destruct b as [w|j lo' hi'].
    - f_equal. apply (E (fun _ => false)).
    - exfalso. simpl in L. apply (NB j lo' hi'); auto; [simpl; lia|].
      intros env u. rewrite <- !E. reflexivity.
    - exfalso. simpl in L. apply (NB i lo hi); auto; [simpl; lia|].
      intros env u. rewrite !E. reflexivity.
    - destruct (cmp i j) eqn:C.
      + apply cmp_eq in C; subst j.
        assert (El : forall env, eval env lo = eval env lo').
        { intros env. specialize (E (upd env i false)). simpl in E. rewrite upd_same in E.
          rewrite !eval_upd_fresh in E by (eapply fresh_lo; eauto). exact E. }
        assert (Eh : forall env, eval env hi = eval env hi').
        { intros env. specialize (E (upd env i true)). simpl in E. rewrite upd_same in E.
          rewrite !eval_upd_fresh in E by (eapply fresh_hi; eauto). exact E. }
        simpl in L. simpl in Oa, Ob, Ra, Rb. f_equal; apply IH; auto; try tauto; lia.
      + exfalso. apply (NB i lo hi); auto; [simpl in *; lia|].
        intros env u. rewrite !E. apply eval_upd_fresh, below_fresh; auto.
      + apply cmp_gt in C. exfalso. apply (NB j lo' hi'); auto; [simpl in *; lia|].
        intros env u. rewrite <- !E. apply eval_upd_fresh, below_fresh; auto.
  Qed.

  Definition robdd t : Prop := bordered t /\ breduced t.
  Lemma robdd_ext a (b : dd I) : robdd a -> robdd b -> (forall env, eval env a = eval env b) -> a = b.
  Proof. intros (A1 & A2) (B1 & B2). apply (canonical (S (size a + size b))); auto. Qed.

  Lemma robdd_leaf v : robdd (Leaf v).
  Proof. split; exact Logic.I. Qed.
  Lemma robdd_pos i : robdd (positive_branch i).
  Proof. split; simpl; intuition congruence. Qed.
  Lemma robdd_neg i : robdd (negative_branch i).
  Proof. split; simpl; intuition congruence. Qed.
  Lemma robdd_or a (b : dd I) : robdd a -> robdd b -> robdd (bitor a b).
  Proof. intros [A1 A2] [B1 B2]. split; [apply bordered_bitor|apply breduced_bitor]; auto. Qed.
  Lemma robdd_and a (b : dd I) : robdd a -> robdd b -> robdd (bitand a b).
  Proof. intros [A1 A2] [B1 B2]. split; [apply bordered_bitand|apply breduced_bitand]; auto. Qed.
  Lemma robdd_restrict a i v : robdd a -> robdd (restrict a i v).
  Proof. intros [A1 A2]. split; [apply bordered_restrict|apply breduced_restrict]; auto. Qed.
  Lemma robdd_reduce a : robdd a -> robdd (reduce a).
  Proof. intros [A1 A2]. split; [apply bordered_reduce|apply breduced_reduce]; auto. Qed.

  Lemma eval_pos env i : eval env (positive_branch i) = env i.
  Proof. simpl. destruct (env i); reflexivity. Qed.
  Lemma eval_neg env i : eval env (negative_branch i) = negb (env i).
  Proof. simpl. destruct (env i); reflexivity. Qed.

  (** restricting commutes *)
  Lemma restrict_comm t i j : robdd t -> restrict (restrict t i true) j true = restrict (restrict t j true) i true.
  Proof.
    intros R. apply robdd_ext; auto using robdd_restrict.
    intros env. pose proof R as [O _].
    rewrite !eval_restrict by auto using bordered_restrict. apply eval_ext. intros x _.
    unfold upd. destruct (eqb_ x i), (eqb_ x j); reflexivity.
  Qed.

  (** ** diagrams in which every path visits every item *)
  Fixpoint full (xs : list I) (t : dd I) : Prop :=
    t = Leaf false \/
    match xs with
    | [] => t = Leaf true
    | x :: xs' => exists lo hi, t = Branch x lo hi /\ full xs' lo /\ full xs' hi /\ lo <> hi
    end.

  (** flipping one item of [xs] turns a satisfying assignment into an unsatisfying one *)
  Definition isolated (xs : list I) (t : dd I) : Prop :=
    forall env x, In x xs -> eval env t = true -> eval (upd env x (negb (env x))) t = false.

  Lemma full_of_isolated xs : forall t, ssorted xs -> robdd t ->
    (forall x, In x (labels t) -> In x xs) -> isolated xs t -> full xs t.
  Proof.
    induction xs as [|x xs IH]; intros t S [O R] L Is; simpl.
    - destruct t as [[]|i lo hi]; auto. exfalso. apply (L i); left; reflexivity.
    - destruct t as [[]|i lo hi]; auto.
      + exfalso. specialize (Is (fun _ => true) x (or_introl eq_refl) eq_refl). discriminate.
      + right. apply ssorted_inv in S. destruct S as [S Fx]. rewrite Forall_forall in Fx.
        assert (i = x) as ->.
        { destruct (L i (or_introl eq_refl)) as [E|Hi]; [auto|]. exfalso.
          assert (Branch i lo hi = Leaf false) as C; [|discriminate].
          apply robdd_ext; [split; auto|apply robdd_leaf|].
          intros env. destruct (eval env (Branch i lo hi)) eqn:Ev; [|reflexivity].
          specialize (Is env x (or_introl eq_refl) Ev).
          rewrite eval_upd_fresh in Is; [congruence|]. apply below_fresh; auto. }
        assert (Lc : forall y, In y (labels lo) \/ In y (labels hi) -> In y xs).
        { intros y Hy. assert (In y (x :: xs)) as [E|E] by (apply L; simpl; rewrite in_app_iff; auto); [|exact E].
          subst y. exfalso. apply (lt_irrefl_ x). apply O; exact Hy. }
        pose proof O as (O1 & O2 & O3). pose proof R as (R1 & R2 & R3).
        exists lo, hi. split; [reflexivity|]. split; [|split; [|exact R1]].
        * apply IH; auto; [split; auto|].
          intros env y Hy Ev. assert (y <> x) as Ny by (apply not_eq_sym, lt_neq_, Fx; exact Hy).
          specialize (Is (upd env x false) y (or_intror Hy)).
          assert (V : forall w, upd (upd env x false) y w x = false) by (intros w; rewrite upd_other, upd_same; auto).
          cbn [eval] in Is. rewrite V, upd_same, (upd_other env x _ y Ny) in Is.
          rewrite (eval_upd_fresh lo env) in Is by (eapply fresh_lo; eauto). specialize (Is Ev).
          rewrite <- Is. apply eval_ext. intros z Hz.
          assert (z <> x) as Nz by (intros ->; eapply fresh_lo; eauto).
          unfold upd. destruct (eqb_ z y); [reflexivity|]. apply eqb_false_ in Nz. rewrite Nz. reflexivity.
        * apply IH; auto; [split; auto|].
          intros env y Hy Ev. assert (y <> x) as Ny by (apply not_eq_sym, lt_neq_, Fx; exact Hy).
          specialize (Is (upd env x true) y (or_intror Hy)).
          assert (V : forall w, upd (upd env x true) y w x = true) by (intros w; rewrite upd_other, upd_same; auto).
          cbn [eval] in Is. rewrite V, upd_same, (upd_other env x _ y Ny) in Is.
          rewrite (eval_upd_fresh hi env) in Is by (eapply fresh_hi; eauto). specialize (Is Ev).
          rewrite <- Is. apply eval_ext. intros z Hz.
          assert (z <> x) as Nz by (intros ->; eapply fresh_hi; eauto).
          unfold upd. destruct (eqb_ z y); [reflexivity|]. apply eqb_false_ in Nz. rewrite Nz. reflexivity.
  Qed.

  Lemma full_false xs : full xs (Leaf false).
  Proof. destruct xs; left; reflexivity. Qed.
  Lemma full_labels xs t x : full xs t -> In x (labels t) -> In x xs.
  Proof.
    revert t; induction xs as [|y xs IH]; intros t; simpl.
    - intros [->| ->] [].
    - intros [->|(lo & hi & -> & A & B & _)]; [intros []|]. simpl. rewrite in_app_iff.
      intros [->|[X|X]]; eauto.
  Qed.

  Lemma outfit_count_paths t : outfit_count t = length (paths t).
  Proof.
    induction t as [[]|i lo IHl hi IHh]; simpl; auto. rewrite app_length, map_length. lia.
  Qed.

  Lemma memb_cons (y x : I) l : memb y (x :: l) = eqb_ y x || memb y l.
  Proof. reflexivity. Qed.

  Lemma full_paths xs : forall t, ssorted xs -> full xs t -> forall p,
    In p (paths t) <-> ssorted p /\ incl p xs /\ eval (fun x => memb x p) t = true.
  Proof.
    induction xs as [|x xs IH]; intros t S Fu p.
    - destruct Fu as [->| ->]; simpl.
      + intuition congruence.
      + split.
        * intros [<-|[]]. repeat split; [constructor|intros y []].
        * intros (_ & A & _). left. destruct p as [|y p]; auto. destruct (A y (or_introl eq_refl)).
    - apply ssorted_inv in S. destruct S as [S Fx]. rewrite Forall_forall in Fx.
      destruct Fu as [->|(lo & hi & -> & Fl & Fh & Nlh)]; [simpl; intuition congruence|].
      rewrite paths_branch. cbn [eval].
      assert (Nl : forall q, incl q xs -> memb x q = false).
      { intros q Hq. apply memb_false. intros C. apply (lt_irrefl_ x). apply Fx, Hq, C. }
      split.
      + intros [(q & -> & Hq)|Hq].
        * apply (IH hi S Fh) in Hq. destruct Hq as (A & B & C). split; [|split].
          -- constructor; [exact A|]. apply Forall_forall. intros y Hy. apply Fx, B, Hy.
          -- intros y [<-|Hy]; [left; reflexivity|right; auto].
          -- rewrite memb_cons, eqb_refl_. simpl. rewrite <- C. apply eval_ext.
             intros y Hy. destruct (eqb_spec_ y x) as [->|]; [|reflexivity].
             exfalso. apply (lt_irrefl_ x), Fx. eapply full_labels; eauto.
        * apply (IH lo S Fl) in Hq. destruct Hq as (A & B & C). split; [exact A|]. split; [intros y Hy; right; auto|].
          rewrite Nl by exact B. exact C.
      + intros (A & B & C). destruct (memb x p) eqn:M.
        * left. apply memb_spec in M. destruct p as [|y q]; [destruct M|].
          apply ssorted_inv in A. destruct A as [A Fy]. rewrite Forall_forall in Fy.
          assert (y = x) as ->.
          { destruct M as [M|M]; [exact M|]. exfalso.
            destruct (B y (or_introl eq_refl)) as [E|E]; [subst; exact (lt_irrefl_ _ (Fy _ M))|].
            exact (lt_asym_ _ _ (Fy _ M) (Fx _ E)). }
          exists q. split; [reflexivity|]. apply (IH hi S Fh). split; [exact A|]. split.
          -- intros z Hz. destruct (B z (or_intror Hz)) as [E|E]; [|exact E]. subst. exfalso. exact (lt_irrefl_ _ (Fy _ Hz)).
          -- rewrite <- C. apply eval_ext. intros z Hz. rewrite memb_cons.
             destruct (eqb_spec_ z x) as [->|]; [|reflexivity]. exfalso. apply (lt_irrefl_ x), Fx. eapply full_labels; eauto.
        * right. apply (IH lo S Fl). split; [exact A|]. split; [|exact C].
          intros z Hz. destruct (B z Hz) as [E|E]; [|exact E]. subst. apply memb_spec in Hz. congruence.
  Qed.

  Lemma NoDup_app_ {A} (l m : list A) : NoDup l -> NoDup m -> (forall x, In x l -> In x m -> False) -> NoDup (l ++ m).
  Proof.
    induction l as [|y l IH]; intros Nl Nm D; simpl; auto.
    inversion Nl; subst. constructor.
    - rewrite in_app_iff. intros [X|X]; [contradiction|]. apply (D y); [left|]; auto.
    - apply IH; auto. intros x X1 X2. apply (D x); [right|]; auto.
  Qed.
  Lemma NoDup_map_inj {A B} (f : A -> B) l : (forall x y, In x l -> In y l -> f x = f y -> x = y) -> NoDup l -> NoDup (map f l).
  Proof.
    induction l as [|a l IH]; intros J N; simpl; constructor; inversion N; subst.
    - rewrite in_map_iff. intros (y & E & Hy). apply J in E; [congruence|right; auto|left; auto].
    - apply IH; auto. intros x y Hx Hy. apply J; right; auto.
  Qed.

  Lemma full_paths_NoDup xs : forall t, ssorted xs -> full xs t -> NoDup (paths t).
  Proof.
    induction xs as [|x xs IH]; intros t S Fu.
    - destruct Fu as [->| ->]; simpl; repeat constructor. intros [].
    - apply ssorted_inv in S. destruct S as [S Fx]. rewrite Forall_forall in Fx.
      destruct Fu as [->|(lo & hi & -> & Fl & Fh & _)]; [simpl; constructor|]. simpl.
      apply NoDup_app_; [apply NoDup_map_inj; [congruence|]; auto|auto|].
      intros p Hp Hq. apply in_map_iff in Hp. destruct Hp as (q & <- & Hp).
      apply (full_paths xs lo S Fl) in Hq. destruct Hq as (_ & B & _).
      apply (lt_irrefl_ x), Fx, B. left; reflexivity.
  Qed.

  Lemma full_sat xs t : full xs t -> t <> Leaf false -> exists p, In p (paths t).
  Proof.
    revert t; induction xs as [|x xs IH]; intros t Fu N.
    - destruct Fu as [->| ->]; [congruence|]. exists []. left; reflexivity.
    - destruct Fu as [->|(lo & hi & -> & Fl & Fh & D)]; [congruence|].
      destruct (dd_eqb_spec hi (Leaf false)) as [E|E].
      + subst hi. destruct (IH lo Fl) as (p & Hp); [congruence|]. exists p. simpl. exact Hp.
      + destruct (IH hi Fh E) as (p & Hp). exists (x :: p). simpl. apply in_or_app. left. apply in_map. exact Hp.
  Qed.

  Lemma full_depth xs t : full xs t -> t <> Leaf false -> depth t = S (length xs).
  Proof.
    revert t; induction xs as [|x xs IH]; intros t Fu N.
    - destruct Fu as [->| ->]; [congruence|]. reflexivity.
    - destruct Fu as [->|(lo & hi & -> & Fl & Fh & D)]; [congruence|]. simpl.
      assert (Hd : forall u, full xs u -> depth u = S (length xs) \/ u = Leaf false).
      { intros u Hu. destruct (dd_eqb_spec u (Leaf false)); auto. }
      destruct (Hd lo Fl) as [El| ->].
      + rewrite El. destruct (Hd hi Fh) as [Eh| ->].
        * rewrite Eh. rewrite (proj2 (Nat.compare_eq_iff _ _) eq_refl). reflexivity.
        * cbn [depth]. destruct (Nat.compare_spec (S (length xs)) 1); lia.
      + destruct (Hd hi Fh) as [Eh| ->]; [|congruence]. rewrite Eh. cbn [depth].
        destruct (Nat.compare_spec 1 (S (length xs))); lia.
  Qed.

  (** the greedy walk of complete_outfit *)
  Lemma walk_full xs t items : full xs t -> t <> Leaf false ->
    exists p, In p (paths t) /\ walk t items = items ++ p.
  Proof.
    revert t items; induction xs as [|x xs IH]; intros t items Fu N.
    - destruct Fu as [->| ->]; [congruence|]. exists []. simpl. rewrite app_nil_r. auto.
    - destruct Fu as [->|(lo & hi & -> & Fl & Fh & D)]; [congruence|].
      destruct (dd_eqb_spec hi (Leaf false)) as [E|E].
      + subst hi. destruct (IH lo items Fl) as (p & Hp & W); [congruence|]. exists p. simpl. auto.
      + destruct (IH hi (items ++ [x]) Fh E) as (p & Hp & W). exists (x :: p). split.
        * simpl. apply in_or_app. left. apply in_map. exact Hp.
        * rewrite <- app_assoc in W. simpl in W. rewrite <- W. cbn [walk]. destruct hi as [[]|]; congruence.
  Qed.

  (** ... and it is the path that takes every item as early as possible *)
  Lemma walk_first xs t items : ssorted xs -> full xs t -> t <> Leaf false ->
    exists p, In p (paths t) /\ walk t items = items ++ p /\
      forall q, In q (paths t) -> q = p \/ preferred p q.
  Proof.
    revert t items; induction xs as [|x xs IH]; intros t items So Fu N.
    - destruct Fu as [->| ->]; [congruence|]. exists []. simpl. rewrite app_nil_r.
      split; auto. split; auto. intros q [<-|[]]; auto.
    - assert (Sx : Forall (lt_ x) xs) by (apply ssorted_inv in So; tauto).
      rewrite Forall_forall in Sx. apply ssorted_inv in So. destruct So as (So & _).
      destruct Fu as [->|(lo & hi & -> & Fl & Fh & D)]; [congruence|].
      assert (AB : forall t q z, full xs t -> In q (paths t) -> In z q -> lt_ x z).
      { intros t q z Ft Hq Hz. apply Sx. eapply full_labels; eauto. eapply paths_labels; eauto. }
      destruct (dd_eqb_spec hi (Leaf false)) as [E|E].
      + subst hi. destruct (IH lo items So Fl) as (p & Hp & W & Pr); [congruence|]. exists p. simpl. auto.
      + destruct (IH hi (items ++ [x]) So Fh E) as (p & Hp & W & Pr). exists (x :: p). split; [|split].
        * simpl. apply in_or_app. left. apply in_map. exact Hp.
        * rewrite <- app_assoc in W. simpl in W. rewrite <- W. cbn [walk]. destruct hi as [[]|]; congruence.
        * intros q Hq. simpl in Hq. apply in_app_iff in Hq. destruct Hq as [Hq|Hq].
          -- apply in_map_iff in Hq. destruct Hq as (q' & <- & Hq). destruct (Pr q' Hq) as [->|(z & Z1 & Z2 & Z3)]; auto.
             right. exists z. split; [right; auto|]. split.
             ++ intros [<-|Z]; [|auto]. apply (lt_irrefl_ x). apply (AB hi p x Fh Hp Z1).
             ++ intros y Hy. specialize (Z3 y Hy). simpl. tauto.
          -- right. exists x. split; [left; auto|]. split.
             ++ intros Z. apply (lt_irrefl_ x). apply (AB lo q x Fl Hq Z).
             ++ intros y Hy. split.
                ** intros [<-|Z]; [destruct (lt_irrefl_ _ Hy)|]. destruct (lt_asym_ _ _ Hy). apply (AB hi p y Fh Hp Z).
                ** intros Z. destruct (lt_asym_ _ _ Hy). apply (AB lo q y Fl Hq Z).
  Qed.

  Lemma full_label_path xs t x : full xs t -> t <> Leaf false -> In x xs -> In x (labels t).
  Proof.
    revert t; induction xs as [|y xs IH]; intros t Fu N Hx; [destruct Hx|].
    destruct Fu as [->|(lo & hi & -> & Fl & Fh & D)]; [congruence|]. simpl. rewrite in_app_iff.
    destruct Hx as [->|Hx]; [auto|]. right.
    destruct (dd_eqb_spec hi (Leaf false)) as [E|E]; [|right; auto].
    left. apply IH; auto. congruence.
  Qed.

  (** ** summarize *)
  (** the branches of a diagram, as (item, high child is the false leaf) *)
  Fixpoint brs t : list (I * bool) :=
    match t with
    | Leaf _ => []
    | Branch i lo hi => (i, match hi with Leaf false => true | _ => false end) :: brs lo ++ brs hi
    end.
  Definition st_of (p : I * bool) : status I := if snd p then Excluded (fst p) else Available (fst p).

  Lemma summarize_loop_spec fuel : forall queue m,
    fold_right (fun t k => size t + k) 0 queue <= fuel -> map_ok m ->
    map_ok (summarize_loop fuel queue m) /\
    forall x s, (exists l, map_get (summarize_loop fuel queue m) x = Some l /\ In s l) <->
      (exists l, map_get m x = Some l /\ In s l) \/
      (exists p, In p (flat_map brs queue) /\ fst p = x /\ s = st_of p).
  Proof.
    induction fuel as [|fuel IH]; intros queue m L M.
    - destruct queue as [|t q]; [|simpl in L; pose proof (size_pos t); lia]. simpl. split; auto.
      intros x s. split; [auto|]. intros [X|(p & [] & _)]; exact X.
    - destruct queue as [|t q].
      + simpl. split; auto. intros x s. split; [auto|]. intros [X|(p & [] & _)]; exact X.
      + destruct t as [v|i lo hi].
        * simpl in L. simpl. apply IH; [lia|auto].
        * simpl in L. cbn [summarize_loop].
          set (st := match hi with Leaf false => Excluded i | _ => Available i end).
          set (m' := map_update m i _).
          assert (M' : map_ok m') by (apply map_update_ok; auto).
          destruct (IH (hi :: lo :: q) m') as (A & B); [simpl; lia|exact M'|].
          split; [exact A|]. intros x s. rewrite B. clear A B.
          assert (Est : st = st_of (i, match hi with Leaf false => true | _ => false end)).
          { unfold st, st_of. destruct hi as [[]|]; reflexivity. }
          unfold m'. rewrite map_update_get by exact M.
          assert (Q : forall p, In p (flat_map brs (Branch i lo hi :: q)) <->
                      p = (i, match hi with Leaf false => true | _ => false end) \/ In p (flat_map brs (hi :: lo :: q))).
          { intros p. simpl. rewrite !in_app_iff. intuition congruence. }
          split.
          -- intros [(l & E & Hs)|(p & Hp & E1 & E2)].
             ++ destruct (eqb_spec_ x i) as [->|Nx].
                ** injection E as <-. destruct (map_get m i) as [l0|] eqn:G.
                   --- destruct Hs as [<-|Hs]; [|left; eauto]. right. eexists. split; [apply Q; left; reflexivity|]. split; [reflexivity|exact Est].
                   --- destruct Hs as [<-|[]]. right. eexists. split; [apply Q; left; reflexivity|]. split; [reflexivity|exact Est].
                ** left. eauto.
             ++ right. exists p. rewrite Q. auto.
          -- intros [(l & E & Hs)|(p & Hp & E1 & E2)].
             ++ left. destruct (eqb_spec_ x i) as [->|Nx]; [|eauto].
                rewrite E. eexists. split; [reflexivity|]. right; exact Hs.
             ++ apply Q in Hp. destruct Hp as [->|Hp]; [|right; eauto].
                simpl in E1. subst x. left. rewrite eqb_refl_. eexists. split; [reflexivity|].
                rewrite E2, <- Est. destruct (map_get m i); left; reflexivity.
  Qed.

  Lemma peek_some l : l <> [] -> exists s, peek l = Some s /\ In s l /\ forall u, In u l -> leb_ u s = true.
  Proof.
    induction l as [|x l IH]; [congruence|]. intros _. simpl.
    destruct l as [|y l].
    - exists x. simpl. split; auto. split; auto. intros u [<-|[]]. apply leb_iff_; auto.
    - destruct IH as (s & E & Hs & Mx); [discriminate|]. rewrite E.
      destruct (leb_ x s) eqn:Lx.
      + exists s. split; auto. split; [right; auto|]. intros u [<-|Hu]; auto.
      + exists x. split; auto. split; [left; auto|].
        assert (Ls : leb_ s x = true) by (destruct (leb_total_ x s); congruence).
        intros u [<-|Hu]; [apply leb_iff_; auto|]. eapply leb_trans_; [apply Mx; exact Hu|exact Ls].
  Qed.
  Lemma peek_none (l : list (status I)) : peek l = None -> l = [].
  Proof. destruct l; auto. intros E. destruct (peek_some (s :: l)) as (u & E' & _); congruence. Qed.

  (** the order of statuses of one item *)
  Lemma leb_status_ex_av (i : I) : leb_ (Excluded i) (Available i) = true.
  Proof. reflexivity. Qed.
  Lemma leb_status_av_ex (i : I) : leb_ (Available i) (Excluded i) = false.
  Proof. reflexivity. Qed.

  Definition available_in t (x : I) : Prop := In (x, false) (brs t).
  Lemma brs_labels t x : In x (labels t) <-> exists b, In (x, b) (brs t).
  Proof.
    induction t as [|i lo IHl hi IHh]; simpl; [firstorder|]. rewrite in_app_iff, IHl, IHh. split.
    - intros [<-|[(b & Hb)|(b & Hb)]]; eexists; [left; reflexivity| |]; right; apply in_or_app; eauto.
    - intros (b & [E|Hb]); [injection E as -> _; auto|]. apply in_app_iff in Hb. destruct Hb; eauto.
  Qed.

  Lemma summarize_spec h t s : In s (summarize h t) <->
    (exists x, s = Available x /\ available_in t x) \/
    (exists x, s = Excluded x /\ In x (labels t) /\ ~ available_in t x).
  Proof.
    unfold summarize. rewrite sort_in, filter_map_in.
    destruct (summarize_loop_spec (size t) [t] []) as (M & B); [simpl; lia|constructor|].
    set (m := summarize_loop (size t) [t] []) in *.
    assert (B' : forall x u, (exists l, map_get m x = Some l /\ In u l) <-> exists b, In (x, b) (brs t) /\ u = st_of (x, b)).
    { intros x u. rewrite B. split.
      - intros [(l & E & _)|(p & Hp & <- & ->)]; [discriminate|]. simpl in Hp. rewrite app_nil_r in Hp.
        destruct p as [y b]. simpl. eauto.
      - intros (b & Hb & ->). right. exists (x, b). simpl. rewrite app_nil_r. auto. }
    clear B.
    assert (Ne : forall x l, map_get m x = Some l -> l <> []).
    { (* every entry was created by a push *)
      intros x l. unfold m. clear B' M m.
      assert (G : forall fuel queue (m : list (I * list (status I))), map_ok m -> (forall y k, map_get m y = Some k -> k <> []) ->
                  forall y k, map_get (summarize_loop fuel queue m) y = Some k -> k <> []).
      { induction fuel as [|fuel IH]; intros queue m M A; [destruct queue; exact A|].
        destruct queue as [|u q]; [exact A|]. destruct u as [v|i lo hi]; cbn [summarize_loop]; [apply IH; auto|].
        apply IH; [apply map_update_ok; exact M|]. intros y k E.
        rewrite map_update_get in E by exact M. destruct (eqb_spec_ y i) as [->|Ny]; [|eauto].
        injection E as <-. destruct (map_get m i); discriminate. }
      apply G; [constructor|]. simpl. discriminate. }
    assert (St : forall x l u, map_get m x = Some l -> In u l -> exists b, In (x, b) (brs t) /\ u = st_of (x, b)).
    { intros x l u E Hu. apply B'. eauto. }
    split.
    - intros (l & Hl & Pk). apply ho_in in Hl. apply in_map_iff in Hl. destruct Hl as ([x l'] & E & Hl). simpl in E. subst l'.
      apply (map_get_in m x l M) in Hl.
      destruct (peek_some l (Ne _ _ Hl)) as (s' & E & Hs & Mx). rewrite E in Pk. injection Pk as ->.
      destruct (St _ _ _ Hl Hs) as (b & Hb & ->). destruct b; unfold st_of; simpl.
      + right. exists x. split; auto. split; [apply brs_labels; eauto|]. intros A.
        assert (exists l0, map_get m x = Some l0 /\ In (Available x) l0) as (l0 & E0 & H0).
        { apply B'. exists false. split; [exact A|reflexivity]. }
        rewrite Hl in E0. injection E0 as <-. specialize (Mx _ H0).
        unfold st_of in Mx. simpl in Mx. rewrite leb_status_av_ex in Mx. discriminate.
      + left. exists x. auto.
    - intros Hs.
      assert (exists x, s = Available x /\ available_in t x \/ s = Excluded x /\ In x (labels t) /\ ~ available_in t x) as (x & Hx).
      { destruct Hs as [(x & Hx)|(x & Hx)]; exists x; auto. }
      assert (exists b, In (x, b) (brs t)) as (b & Hb).
      { destruct Hx as [(_ & A)|(_ & A & _)]; [exists false; exact A|]. apply brs_labels in A. exact A. }
      assert (exists l0, map_get m x = Some l0 /\ In (st_of (x, b)) l0) as (l0 & E0 & H0) by (apply B'; eauto).
      exists l0. rewrite ho_in. split.
      + apply in_map_iff. exists (x, l0). split; auto. apply map_get_in; auto.
      + destruct (peek_some l0 (Ne _ _ E0)) as (s' & E & Hs' & Mx). rewrite E. f_equal.
        destruct (St _ _ _ E0 Hs') as (b' & Hb' & ->). destruct Hx as [(-> & A)|(-> & A & N)].
        * destruct b'; unfold st_of; simpl; [|reflexivity]. exfalso.
          assert (exists l1, map_get m x = Some l1 /\ In (Available x) l1) as (l1 & E1 & H1).
          { apply B'. exists false. split; [exact A|reflexivity]. }
          rewrite E0 in E1. injection E1 as <-. specialize (Mx _ H1). unfold st_of in Mx. simpl in Mx.
          rewrite leb_status_av_ex in Mx. discriminate.
        * destruct b'; unfold st_of; simpl; [reflexivity|]. contradiction.
  Qed.

  Lemma peek_item t x l s : map_get (summarize_loop (size t) [t] []) x = Some l -> peek l = Some s -> status_item s = x.
  Proof.
    intros G P. destruct (summarize_loop_spec (size t) [t] []) as (M & B); [simpl; lia|constructor|].
    destruct l as [|y l]; [discriminate|].
    destruct (peek_some (y :: l)) as (u & E & Hu & _); [discriminate|]. rewrite P in E. injection E as ->.
    assert (exists l0, map_get (summarize_loop (size t) [t] []) x = Some l0 /\ In u l0) as X by eauto.
    apply B in X. destruct X as [(? & X & _)|(p & _ & <- & ->)]; [discriminate|].
    unfold st_of. destruct (snd p); reflexivity.
  Qed.

  Lemma filter_map_NoDup {A B} (g : A -> option B) l :
    (forall x y s, In x l -> In y l -> g x = Some s -> g y = Some s -> x = y) -> NoDup l -> NoDup (filter_map g l).
  Proof.
    induction l as [|a l IH]; intros J N; simpl; [constructor|]. inversion N; subst.
    assert (NoDup (filter_map g l)) by (apply IH; auto; intros x y s Hx Hy; apply J; right; auto).
    destruct (g a) eqn:E; auto. constructor; auto. rewrite filter_map_in. intros (x & Hx & E').
    assert (a = x) by (eapply J; eauto; [left|right]; auto). subst; contradiction.
  Qed.

  Lemma summarize_ssorted h t : ssorted (summarize h t).
  Proof.
    unfold summarize. apply sort_ssorted.
    destruct (summarize_loop_spec (size t) [t] []) as (M & _); [simpl; lia|constructor|].
    pose proof (peek_item t) as PI. set (m := summarize_loop (size t) [t] []) in *.
    apply (Permutation_NoDup (l := filter_map peek (map snd m))).
    { assert (P : forall l l' : list (list (status I)), Permutation l l' -> Permutation (filter_map peek l) (filter_map peek l')).
      { induction 1; simpl; auto.
        - destruct (peek x); auto.
        - destruct (peek x), (peek y); auto. apply perm_swap.
        - etransitivity; eauto. }
      apply P. symmetry. apply ho_perm. }
    assert (E : filter_map peek (map snd m) = filter_map (fun p => peek (snd p)) m).
    { clear. induction m as [|p m IH]; simpl; auto. destruct (peek (snd p)); rewrite IH; reflexivity. }
    rewrite E. apply filter_map_NoDup; [|eapply NoDup_map_inv, ssorted_NoDup; exact M].
    intros [x l] [y k] s Hx Hy. simpl. intros Ex Ey.
    apply (proj2 (map_get_in m x l M)) in Hx. apply (proj2 (map_get_in m y k M)) in Hy.
    pose proof (PI _ _ _ Hx Ex). pose proof (PI _ _ _ Hy Ey). assert (x = y) by congruence. subst. congruence.
  Qed.

  (** in a full diagram an item is available iff it is on a path *)
  Lemma full_available xs : forall t x, ssorted xs -> full xs t ->
    (available_in t x <-> exists p, In p (paths t) /\ In x p).
  Proof.
    induction xs as [|y xs IH]; intros t x S Fu.
    - destruct Fu as [->| ->]; unfold available_in; simpl.
      + split; [tauto|]. intros (p & [] & _).
      + split; [tauto|]. intros (p & [<-|[]] & []).
    - apply ssorted_inv in S. destruct S as [S Fy]. rewrite Forall_forall in Fy.
      destruct Fu as [->|(lo & hi & -> & Fl & Fh & D)].
      + unfold available_in; simpl. split; [tauto|]. intros (p & [] & _).
      + specialize (IH lo x S Fl) as IHl. specialize (IH hi x S Fh) as IHh. unfold available_in in *.
        cbn [brs]. simpl. rewrite in_app_iff, IHl, IHh. split.
        * intros [E|[(p & Hp & Hx)|(p & Hp & Hx)]].
          -- assert (hi <> Leaf false) by (intros ->; discriminate).
             assert (y = x) by congruence. subst.
             destruct (full_sat xs hi Fh) as (p & Hp); auto. exists (x :: p).
             split; [apply in_or_app; left; apply in_map; auto|left; auto].
          -- exists p. split; auto. apply in_or_app; auto.
          -- exists (y :: p). split; [apply in_or_app; left; apply in_map; auto|right; auto].
        * intros (p & Hp & Hx). apply in_app_iff in Hp. destruct Hp as [Hp|Hp]; [|right; left; eauto].
          apply in_map_iff in Hp. destruct Hp as (q & <- & Hq). destruct Hx as [->|Hx]; [|right; right; eauto].
          left. destruct hi as [[]|]; simpl in Hq; try reflexivity. destruct Hq.
  Qed.

  (** ** counts *)
  Lemma node_leaf_count t : node_count t = 2 * leaf_count t - 1 /\ 1 <= leaf_count t.
  Proof. induction t as [|i lo [E1 L1] hi [E2 L2]]; simpl; [lia|]. lia. Qed.
  Lemma outfit_le_leaf t : outfit_count t <= leaf_count t.
  Proof. induction t as [[]|]; simpl; lia. Qed.

  (** ** serialization *)
  Definition agrees (c : list (nat * I)) (P : nat -> I -> Prop) : Prop :=
    forall d x, map_get c d = Some x -> P d x.

  Lemma to_content_ok t : forall c d, map_ok c -> map_ok (to_content t c d).
  Proof.
    induction t as [|i lo IHl hi IHh]; intros c d M; simpl; auto.
    apply IHh, IHl, map_update_ok, M.
  Qed.
  Lemma to_content_agrees (P : nat -> I -> Prop) t : forall c d, map_ok c -> agrees c P -> levels t d P -> agrees (to_content t c d) P.
  Proof.
    induction t as [|i lo IHl hi IHh]; intros c d M A L; simpl; auto.
    destruct L as (L1 & L2 & L3).
    assert (M1 : map_ok (map_insert c d i)) by (apply map_update_ok; auto).
    apply IHh; auto; [apply to_content_ok; auto|]. apply IHl; auto.
    intros k x. unfold map_insert. rewrite map_update_get by auto.
    destruct (eqb_spec_ k d) as [->|]; [|apply A]. injection 1 as <-. exact L1.
  Qed.
  Lemma to_content_mono t : forall c d k, map_ok c -> (exists x, map_get c k = Some x) -> exists x, map_get (to_content t c d) k = Some x.
  Proof.
    induction t as [|i lo IHl hi IHh]; intros c d k M E; simpl; auto.
    assert (M1 : map_ok (map_insert c d i)) by (apply map_update_ok; auto).
    apply IHh; [apply to_content_ok; auto|]. apply IHl; auto.
    unfold map_insert. rewrite map_update_get by auto. destruct (eqb_ k d); eauto.
  Qed.
  Lemma levels_mono t : forall d (P Q : nat -> I -> Prop), (forall k i, P k i -> Q k i) -> levels t d P -> levels t d Q.
  Proof.
    induction t as [|i lo IHl hi IHh]; simpl; auto. intros d P Q PQ (A & B & C). repeat split; eauto.
  Qed.
  (** all depths with a branch are in the content *)
  Lemma to_content_covers t : forall c d, map_ok c -> levels t d (fun k _ => exists x, map_get (to_content t c d) k = Some x).
  Proof.
    induction t as [|i lo IHl hi IHh]; intros c d M; simpl; auto.
    assert (M1 : map_ok (map_insert c d i)) by (apply map_update_ok; auto).
    assert (M2 : map_ok (to_content lo (map_insert c d i) (S d))) by (apply to_content_ok; auto).
    split; [|split].
    - apply to_content_mono; auto. apply to_content_mono; auto.
      unfold map_insert. rewrite map_update_get by auto. rewrite eqb_refl_. eauto.
    - eapply levels_mono; [|apply (IHl (map_insert c d i) (S d) M1)]. intros k ? E. apply to_content_mono; auto.
    - apply IHh; auto.
  Qed.
  Lemma levels_and t d (P Q : nat -> I -> Prop) : levels t d P -> levels t d Q -> levels t d (fun k i => P k i /\ Q k i).
  Proof. revert d; induction t; simpl; intuition. Qed.

  Lemma to_node_structure c t : forall d, levels t d (fun k i => map_get c k = Some i) -> to_node (to_structure t d) c = Some t.
  Proof.
    induction t as [|i lo IHl hi IHh]; intros d L; simpl; auto. destruct L as (L1 & L2 & L3).
    specialize (IHl _ L2). specialize (IHh _ L3).
    destruct (is_false (to_structure lo (S d))) eqn:E1.
    - cbn [to_node]. rewrite L1, IHh. simpl.
      destruct (to_structure lo (S d)) as [| | |[]]; try discriminate. simpl in IHl. injection IHl as <-. reflexivity.
    - destruct (is_false (to_structure hi (S d))) eqn:E2.
      + cbn [to_node]. rewrite L1, IHl. simpl.
        destruct (to_structure hi (S d)) as [| | |[]]; try discriminate. simpl in IHh. injection IHh as <-. reflexivity.
      + cbn [to_node]. rewrite L1, IHl, IHh. reflexivity.
  Qed.

  Lemma node_round_trip t : level_uniform t -> node_de (node_ser t) = Some t.
  Proof.
    intros (xs & L). unfold node_de, node_ser. simpl. apply to_node_structure.
    assert (A : agrees (to_content t [] 0) (fun d i => nth_error xs d = Some i)).
    { apply to_content_agrees; auto; [constructor|]. intros d x; simpl; discriminate. }
    pose proof (to_content_covers t [] 0 ltac:(constructor)) as C.
    pose proof (levels_and _ _ _ _ L C) as LC.
    eapply levels_mono; [|exact LC]. intros k i (E & x & G). simpl in *. pose proof (A _ _ G). congruence.
  Qed.

  (** what comes back in general: every depth has one item, its last *)
  Lemma to_content_get t : forall c d k, map_ok c ->
    map_get (to_content t c d) k =
      if k <? d then map_get c k
      else match rev (row t (k - d)) with [] => map_get c k | x :: _ => Some x end.
  Proof.
    induction t as [|i lo IHl hi IHh]; intros c d k M; cbn [to_content].
    - simpl. destruct (k <? d); reflexivity.
    - assert (M1 : map_ok (map_insert c d i)) by (apply map_update_ok; auto).
      assert (M2 : map_ok (to_content lo (map_insert c d i) (S d))) by (apply to_content_ok; auto).
      rewrite IHh, IHl by auto. unfold map_insert. rewrite map_update_get by auto.
      destruct (Nat.ltb_spec k d) as [A|A].
      + replace (k <? S d) with true by (symmetry; apply Nat.ltb_lt; lia).
        destruct (eqb_spec_ k d); [lia|reflexivity].
      + destruct (Nat.ltb_spec k (S d)) as [B|B].
        * assert (k = d) by lia. subst k. rewrite eqb_refl_, Nat.sub_diag. reflexivity.
        * replace (k - d) with (S (k - S d)) by lia. cbn [row]. rewrite rev_app_distr.
          destruct (rev (row hi (k - S d))); [|reflexivity]. cbn [app].
          destruct (rev (row lo (k - S d))); [|reflexivity].
          destruct (eqb_spec_ k d); [lia|reflexivity].
  Qed.
  Lemma to_node_relabelled c g t : forall d, levels t d (fun k i => map_get c k = Some (g k i)) ->
    to_node (to_structure t d) c = Some (relabelled g t d).
  Proof.
    induction t as [|i lo IHl hi IHh]; intros d L; simpl; auto. destruct L as (L1 & L2 & L3).
    specialize (IHl _ L2). specialize (IHh _ L3).
    destruct (is_false (to_structure lo (S d))) eqn:E1.
    - cbn [to_node]. rewrite L1, IHh. simpl.
      destruct (to_structure lo (S d)) as [| | |[]]; try discriminate. simpl in IHl. injection IHl as <-. reflexivity.
    - destruct (is_false (to_structure hi (S d))) eqn:E2.
      + cbn [to_node]. rewrite L1, IHl. simpl.
        destruct (to_structure hi (S d)) as [| | |[]]; try discriminate. simpl in IHh. injection IHh as <-. reflexivity.
      + cbn [to_node]. rewrite L1, IHl, IHh. reflexivity.
  Qed.
  Lemma levels_row t : forall d, levels t d (fun k i => d <= k /\ In i (row t (k - d))).
  Proof.
    induction t as [|i lo IHl hi IHh]; intros d; simpl; auto. split; [|split].
    - rewrite Nat.sub_diag. simpl. auto.
    - eapply levels_mono; [|apply IHl]. intros k j (A & B). split; [lia|].
      replace (k - d) with (S (k - S d)) by lia. simpl. apply in_or_app. auto.
    - eapply levels_mono; [|apply IHh]. intros k j (A & B). split; [lia|].
      replace (k - d) with (S (k - S d)) by lia. simpl. apply in_or_app. auto.
  Qed.
  Lemma node_round_trip_exact t :
    node_de (node_ser t) = Some (relabelled (fun d i => last (row t d) i) t 0).
  Proof.
    unfold node_de, node_ser. simpl. apply to_node_relabelled.
    eapply levels_mono; [|apply (levels_row t 0)]. intros k i (_ & X). cbv beta in *.
    rewrite to_content_get by constructor. simpl. rewrite Nat.sub_0_r in *.
    rewrite <- (rev_involutive (row t k)) at 2. destruct (rev (row t k)) as [|x l] eqn:E.
    - apply in_rev in X. rewrite E in X. destruct X.
    - simpl. rewrite last_last. reflexivity.
  Qed.
  Lemma relabelled_same g t : forall d, relabelled g t d = t <-> levels t d (fun k i => g k i = i).
  Proof.
    induction t as [|i lo IHl hi IHh]; intros d; simpl; [tauto|]. rewrite <- IHl, <- IHh. split.
    - intros E. injection E as E1 E2 E3. rewrite E2, E3. auto.
    - intros (E1 & E2 & E3). rewrite E1, E2, E3. reflexivity.
  Qed.
  Lemma last_indep (l : list I) (a b : I) : l <> [] -> last l a = last l b.
  Proof.
    induction l as [|x l IH]; [congruence|]. intros _. destruct l as [|y l]; [reflexivity|].
    change (last (y :: l) a = last (y :: l) b). apply IH. discriminate.
  Qed.
  Lemma levels_last_uniform t : levels t 0 (fun d i => last (row t d) i = i) -> level_uniform t.
  Proof.
    intros L.
    assert (B : forall u : dd I, exists h, forall k i, In i (row u k) -> k < h).
    { induction u as [|i lo (h1 & IHl) hi (h2 & IHh)]; [exists 0; intros k j []|].
      exists (S (Nat.max h1 h2)). intros [|k] j Hj; [lia|]. simpl in Hj. apply in_app_iff in Hj.
      destruct Hj as [Hj|Hj]; [apply IHl in Hj|apply IHh in Hj]; lia. }
    destruct (B t) as (h & Bt).
    assert (Q : t = t) by reflexivity. revert Q. generalize t at 1 as u. intros u Q.
    destruct u as [b|z zl zh]; [exists []; rewrite <- Q; exact Logic.I|].
    exists (map (fun k => last (row t k) z) (seq 0 h)).
    eapply levels_mono; [|exact (levels_and _ _ _ _ L (levels_row t 0))].
    intros k i (E & _ & X). cbv beta in *. rewrite Nat.sub_0_r in X.
    rewrite nth_error_map. pose proof (Bt k i X) as Lt.
    rewrite (nth_error_nth' _ 0) by (rewrite seq_length; lia). rewrite seq_nth by lia. simpl. f_equal.
    etransitivity; [|exact E]. apply last_indep. intros Z. rewrite Z in X. destruct X.
  Qed.

  Lemma full_levels xs t : full xs t -> forall pre d, length pre = d -> levels t d (fun k i => nth_error (pre ++ xs) k = Some i).
  Proof.
    revert t; induction xs as [|x xs IH]; intros t Fu pre d Lp.
    - destruct Fu as [->| ->]; exact Logic.I.
    - destruct Fu as [->|(lo & hi & -> & Fl & Fh & _)]; [exact Logic.I|].
      simpl. split; [|split].
      + rewrite nth_error_app2 by lia. rewrite Lp, Nat.sub_diag. reflexivity.
      + specialize (IH lo Fl (pre ++ [x]) (S d)). rewrite <- app_assoc in IH. apply IH. rewrite app_length; simpl; lia.
      + specialize (IH hi Fh (pre ++ [x]) (S d)). rewrite <- app_assoc in IH. apply IH. rewrite app_length; simpl; lia.
  Qed.
  Lemma full_uniform xs t : full xs t -> level_uniform t.
  Proof. intros Fu. exists xs. apply (full_levels xs t Fu [] 0). reflexivity. Qed.
End BddNode.
