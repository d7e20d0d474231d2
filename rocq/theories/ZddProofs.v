(** ZddProofs: facts about the zdd nodes and trees. *)
From Coq Require Import List Arith Lia Bool Permutation Sorted.
From Verif Require Import Base DD Spec Zdd2Model Zdd2Node Zdd2Forest MatrixModel MatrixProofs ZddModel ZddSpec.
Import ListNotations.

Notation znode := (dd nat).

(** ** Nodes *)
Lemma paths_zfinish i lo hi s :
  In s (paths (zfinish i lo hi)) <-> (exists s', s = i :: s' /\ In s' (paths hi)) \/ In s (paths lo).
Proof.
  unfold zfinish. destruct (dd_eqb_spec hi (Leaf false)) as [->|N].
  - simpl. split; [auto|]. intros [(? & _ & [])|]; auto.
  - unfold zbranch. apply paths_branch.
Qed.

Lemma labels_zfinish i lo hi x :
  In x (labels (zfinish i lo hi)) -> x = i \/ In x (labels lo) \/ In x (labels hi).
Proof.
  unfold zfinish. destruct (dd_eqb hi (Leaf false)); [auto|].
  simpl. rewrite in_app_iff. intuition.
Qed.

Lemma zfinish_zs i lo hi : zero_suppressed lo -> zero_suppressed hi -> zero_suppressed (zfinish i lo hi).
Proof.
  intros A B. unfold zfinish. destruct (dd_eqb_spec hi (Leaf false)); [exact A|]. simpl. auto.
Qed.

Lemma zfinish_ordered i lo hi :
  (forall j, In j (labels lo) \/ In j (labels hi) -> i < j) -> ordered lo -> ordered hi -> ordered (zfinish i lo hi).
Proof.
  intros D A B. unfold zfinish. destruct (dd_eqb hi (Leaf false)); [exact A|]. simpl. auto.
Qed.

Lemma zunion_eq n1 n2 : zunion n1 n2 =
    if dd_eqb n1 n2 then n1 else
    match n1, n2 with
    | _, Leaf false => n1
    | Leaf false, _ => n2
    | Leaf true, Leaf true => Leaf true
    | Branch id low high, Leaf true => zfinish id (zunion low n2) high
    | Leaf true, Branch id low high => zfinish id (zunion n1 low) high
    | Branch id1 low1 high1, Branch id2 low2 high2 =>
        if id1 <? id2 then zfinish id1 (zunion low1 n2) high1
        else if id2 <? id1 then zfinish id2 (zunion n1 low2) high2
        else zfinish id1 (zunion low1 low2) (zunion high1 high2)
    end.
Proof. destruct n1 as [[]|]; destruct n2 as [[]|]; reflexivity. Qed.

Lemma zintersect_eq n1 n2 : zintersect n1 n2 =
    if dd_eqb n1 n2 then n1 else
    match n1, n2 with
    | _, Leaf true => n1
    | Leaf true, _ => n2
    | _, Leaf false => Leaf false
    | Leaf false, _ => Leaf false
    | Branch id1 low1 high1, Branch id2 low2 high2 =>
        if id1 <? id2 then zfinish id1 low1 (zintersect high1 n2)
        else if id2 <? id1 then zfinish id2 low2 (zintersect n1 high2)
        else zfinish id1 (zintersect low1 low2) (zintersect high1 high2)
    end.
Proof. destruct n1 as [[]|]; destruct n2 as [[]|]; reflexivity. Qed.

Lemma zproduct_eq n1 n2 : zproduct n1 n2 =
    if dd_eqb n1 n2 then n1 else
    match n1, n2 with
    | _, Leaf true => n1
    | Leaf true, _ => n2
    | _, Leaf false => Leaf false
    | Leaf false, _ => Leaf false
    | Branch id1 low1 high1, Branch id2 low2 high2 =>
        if id1 <? id2 then zfinish id1 (zproduct low1 n2) (zproduct high1 n2)
        else if id2 <? id1 then zfinish id2 (zproduct n1 low2) (zproduct n1 high2)
        else zfinish id1 (zproduct low1 low2) (zproduct high1 high2)
    end.
Proof. destruct n1 as [[]|]; destruct n2 as [[]|]; reflexivity. Qed.

(** induction over pairs of nodes *)
Lemma pair_ind (P : znode -> znode -> Prop) :
  (forall n1 n2, (forall m1 m2, size m1 + size m2 < size n1 + size n2 -> P m1 m2) -> P n1 n2) ->
  forall n1 n2, P n1 n2.
Proof.
  intros S. assert (G : forall k n1 n2, size n1 + size n2 < k -> P n1 n2).
  { induction k as [|k IH]; intros n1 n2 L; [lia|]. apply S. intros. apply IH. lia. }
  intros. eapply G. apply Nat.lt_succ_diag_r.
Qed.

Lemma zunion_paths n1 n2 : forall s, In s (paths (zunion n1 n2)) <-> In s (paths n1) \/ In s (paths n2).
Proof.
  revert n1 n2. apply (pair_ind (fun n1 n2 => forall s, In s (paths (zunion n1 n2)) <-> In s (paths n1) \/ In s (paths n2))).
  intros n1 n2 IH s. rewrite zunion_eq. destruct (dd_eqb_spec n1 n2) as [<-|N]; [tauto|].
  destruct n1 as [[]|i1 l1 h1]; destruct n2 as [[]|i2 l2 h2]; try (simpl; tauto).
  - rewrite paths_zfinish, paths_branch, IH by (simpl; lia). simpl. tauto.
  - rewrite paths_zfinish, paths_branch, IH by (simpl; pose proof (size_pos h1); lia). simpl. tauto.
  - destruct (Nat.ltb_spec i1 i2).
    + rewrite paths_zfinish, paths_branch, IH by (simpl; pose proof (size_pos h1); lia). tauto.
    + destruct (Nat.ltb_spec i2 i1).
      * rewrite paths_zfinish, (paths_branch i2), IH by (simpl; pose proof (size_pos h2); lia). tauto.
      * assert (i1 = i2) by lia. subst i2. rewrite paths_zfinish, !paths_branch.
        rewrite (IH l1 l2) by (simpl; pose proof (size_pos h1); lia).
        setoid_rewrite (IH h1 h2); [|simpl; pose proof (size_pos l1); lia].
        split.
        -- intros [(s' & -> & [A|A])|[A|A]]; eauto 6.
        -- intros [[(s' & -> & A)|A]|[(s' & -> & A)|A]]; eauto 6.
Qed.

(** a property of nodes closed under [zfinish] and going to children is kept by
    the three operations *)
Section Closed.
  Variable Q : znode -> Prop.
  Hypothesis Q_low : forall i lo hi, Q (Branch i lo hi) -> Q lo.
  Hypothesis Q_high : forall i lo hi, Q (Branch i lo hi) -> Q hi.
  Hypothesis Q_fin : forall i lo hi lo' hi', Q (Branch i lo hi) -> Q lo' -> Q hi' -> Q (zfinish i lo' hi').

  Lemma zops_closed n1 n2 : Q n1 -> Q n2 ->
    Q (zunion n1 n2) /\ Q (zintersect n1 n2) /\ Q (zproduct n1 n2).
  Proof.
    revert n1 n2. apply (pair_ind (fun n1 n2 => Q n1 -> Q n2 -> Q (zunion n1 n2) /\ Q (zintersect n1 n2) /\ Q (zproduct n1 n2))).
    intros n1 n2 IH Q1 Q2. rewrite zunion_eq, zintersect_eq, zproduct_eq.
    destruct (dd_eqb_spec n1 n2) as [<-|N]; [tauto|].
    destruct n1 as [[]|i1 l1 h1]; destruct n2 as [[]|i2 l2 h2]; auto 6.
    - split; [|auto]. eapply Q_fin; [exact Q2| |eauto]. apply IH; [simpl; lia|auto|eauto].
    - split; [|auto]. eapply Q_fin; [exact Q1| |eauto]. apply IH; [simpl; pose proof (size_pos h1); lia|eauto|auto].
    - pose proof (Q_low _ _ _ Q1). pose proof (Q_low _ _ _ Q2).
      pose proof (Q_high _ _ _ Q1). pose proof (Q_high _ _ _ Q2).
      pose proof (size_pos h1). pose proof (size_pos l1). pose proof (size_pos h2). pose proof (size_pos l2).
      destruct (Nat.ltb_spec i1 i2); [|destruct (Nat.ltb_spec i2 i1)].
      + pose proof (IH l1 (Branch i2 l2 h2)) as Ia. pose proof (IH h1 (Branch i2 l2 h2)) as Ib.
        destruct Ia as (? & ? & ?); [simpl in *; lia|auto|auto|].
        destruct Ib as (? & ? & ?); [simpl in *; lia|auto|auto|].
        repeat split; eapply Q_fin; eauto.
      + pose proof (IH (Branch i1 l1 h1) l2) as Ia. pose proof (IH (Branch i1 l1 h1) h2) as Ib.
        destruct Ia as (? & ? & ?); [simpl in *; lia|auto|auto|].
        destruct Ib as (? & ? & ?); [simpl in *; lia|auto|auto|].
        repeat split; eapply Q_fin; try exact Q2; eauto.
      + pose proof (IH l1 l2) as Ia. pose proof (IH h1 h2) as Ib.
        destruct Ia as (? & ? & ?); [simpl in *; lia|auto|auto|].
        destruct Ib as (? & ? & ?); [simpl in *; lia|auto|auto|].
        repeat split; eapply Q_fin; eauto.
  Qed.
End Closed.

Lemma zops_labels (P : nat -> Prop) n1 n2 :
  (forall x, In x (labels n1) -> P x) -> (forall x, In x (labels n2) -> P x) ->
  (forall x, In x (labels (zunion n1 n2)) -> P x) /\
  (forall x, In x (labels (zintersect n1 n2)) -> P x) /\
  (forall x, In x (labels (zproduct n1 n2)) -> P x).
Proof.
  apply (zops_closed (fun n => forall x, In x (labels n) -> P x)).
  - intros i lo hi A x I. apply A. simpl. rewrite in_app_iff. auto.
  - intros i lo hi A x I. apply A. simpl. rewrite in_app_iff. auto.
  - intros i lo hi lo' hi' A B C x I. apply labels_zfinish in I. destruct I as [->|[I|I]]; auto.
    apply A. left; reflexivity.
Qed.

Lemma zops_zs n1 n2 : zero_suppressed n1 -> zero_suppressed n2 ->
  zero_suppressed (zunion n1 n2) /\ zero_suppressed (zintersect n1 n2) /\ zero_suppressed (zproduct n1 n2).
Proof.
  apply (zops_closed zero_suppressed); simpl; try tauto. intros. apply zfinish_zs; assumption.
Qed.

Lemma zops_ordered n1 n2 : ordered n1 -> ordered n2 ->
  ordered (zunion n1 n2) /\ ordered (zintersect n1 n2) /\ ordered (zproduct n1 n2).
Proof.
  revert n1 n2.
  apply (pair_ind (fun n1 n2 => ordered n1 -> ordered n2 ->
    ordered (zunion n1 n2) /\ ordered (zintersect n1 n2) /\ ordered (zproduct n1 n2))).
  intros n1 n2 IH Q1 Q2. rewrite zunion_eq, zintersect_eq, zproduct_eq.
  destruct (dd_eqb_spec n1 n2) as [<-|N]; [tauto|].
  destruct n1 as [[]|i1 l1 h1]; destruct n2 as [[]|i2 l2 h2]; auto 6.
  - split; [|auto]. pose proof Q2 as (D & Ql & Qh). apply zfinish_ordered; [|apply IH; [simpl; lia|auto|auto]|auto].
    intros j [I|I]; [|auto]. revert j I. apply (zops_labels (fun j => i2 < j)); [simpl; tauto|auto].
  - split; [|auto]. pose proof Q1 as (D & Ql & Qh).
    apply zfinish_ordered; [|apply IH; [simpl; pose proof (size_pos h1); lia|auto|auto]|auto].
    intros j [I|I]; [|auto]. revert j I. apply (zops_labels (fun j => i1 < j)); [auto|simpl; tauto].
  - pose proof Q1 as (D1 & Ql1 & Qh1). pose proof Q2 as (D2 & Ql2 & Qh2).
    pose proof (size_pos h1). pose proof (size_pos l1). pose proof (size_pos h2). pose proof (size_pos l2).
    destruct (Nat.ltb_spec i1 i2); [|destruct (Nat.ltb_spec i2 i1)].
    + assert (B : forall x, In x (labels (Branch i2 l2 h2)) -> i1 < x).
      { intros x [<-|I]; [lia|]. apply in_app_iff in I. specialize (D2 x I). lia. }
      destruct (IH l1 (Branch i2 l2 h2)) as (? & ? & ?); [simpl in *; lia|auto|auto|].
      destruct (IH h1 (Branch i2 l2 h2)) as (? & ? & ?); [simpl in *; lia|auto|auto|].
      destruct (zops_labels (fun x => i1 < x) l1 (Branch i2 l2 h2)) as (? & ? & ?); [auto|exact B|].
      destruct (zops_labels (fun x => i1 < x) h1 (Branch i2 l2 h2)) as (? & ? & ?); [auto|exact B|].
      split; [|split]; apply zfinish_ordered; auto; intros j [I|I]; auto.
    + assert (B : forall x, In x (labels (Branch i1 l1 h1)) -> i2 < x).
      { intros x [<-|I]; [lia|]. apply in_app_iff in I. specialize (D1 x I). lia. }
      destruct (IH (Branch i1 l1 h1) l2) as (? & ? & ?); [simpl in *; lia|auto|auto|].
      destruct (IH (Branch i1 l1 h1) h2) as (? & ? & ?); [simpl in *; lia|auto|auto|].
      destruct (zops_labels (fun x => i2 < x) (Branch i1 l1 h1) l2) as (? & ? & ?); [exact B|auto|].
      destruct (zops_labels (fun x => i2 < x) (Branch i1 l1 h1) h2) as (? & ? & ?); [exact B|auto|].
      split; [|split]; apply zfinish_ordered; auto; intros j [I|I]; auto.
    + assert (i1 = i2) by lia. subst i2.
      destruct (IH l1 l2) as (? & ? & ?); [simpl in *; lia|auto|auto|].
      destruct (IH h1 h2) as (? & ? & ?); [simpl in *; lia|auto|auto|].
      destruct (zops_labels (fun x => i1 < x) l1 l2) as (? & ? & ?); [auto|auto|].
      destruct (zops_labels (fun x => i1 < x) h1 h2) as (? & ? & ?); [auto|auto|].
      split; [|split]; apply zfinish_ordered; auto; intros j [I|I]; auto.
Qed.

(** *** product: sound always, complete for disjoint labels *)
Lemma zproduct_sound n1 n2 : forall s, In s (paths (zproduct n1 n2)) ->
  exists a b, In a (paths n1) /\ In b (paths n2) /\ (forall x, In x s <-> In x a \/ In x b).
Proof.
  revert n1 n2. apply (pair_ind (fun n1 n2 => forall s, In s (paths (zproduct n1 n2)) ->
    exists a b, In a (paths n1) /\ In b (paths n2) /\ (forall x, In x s <-> In x a \/ In x b))).
  intros n1 n2 IH s I. rewrite zproduct_eq in I. destruct (dd_eqb_spec n1 n2) as [<-|N].
  { exists s, s. split; [exact I|]. split; [exact I|]. tauto. }
  assert (T1 : forall n, In s (paths n) -> exists a b, In a (paths n) /\ In b [@nil nat] /\ (forall x, In x s <-> In x a \/ In x b)).
  { intros n J. exists s, []. simpl. intuition. }
  assert (T2 : forall n, In s (paths n) -> exists a b, In a [@nil nat] /\ In b (paths n) /\ (forall x, In x s <-> In x a \/ In x b)).
  { intros n J. exists [], s. simpl. intuition. }
  destruct n1 as [[]|i1 l1 h1]; destruct n2 as [[]|i2 l2 h2];
    try (apply (T1 (Leaf true) I)); try (apply (T2 (Leaf false) I)); try (destruct I; fail).
  - apply (T2 (Branch i2 l2 h2) I).
  - apply (T1 (Branch i1 l1 h1) I).
  - pose proof (size_pos h1). pose proof (size_pos l1). pose proof (size_pos h2). pose proof (size_pos l2).
    destruct (Nat.ltb_spec i1 i2); [|destruct (Nat.ltb_spec i2 i1)].
    + apply paths_zfinish in I. destruct I as [(s' & -> & I)|I]; apply IH in I; try (simpl in *; lia);
        destruct I as (a & b & A & B & E).
      * exists (i1 :: a), b. rewrite (paths_branch i1). split; [eauto|]. split; [exact B|].
        intros x. simpl. rewrite E. tauto.
      * exists a, b. rewrite (paths_branch i1). auto.
    + apply paths_zfinish in I. destruct I as [(s' & -> & I)|I]; apply IH in I; try (simpl in *; lia);
        destruct I as (a & b & A & B & E).
      * exists a, (i2 :: b). rewrite (paths_branch i2). split; [exact A|]. split; [eauto|].
        intros x. simpl. rewrite E. tauto.
      * exists a, b. rewrite (paths_branch i2). auto.
    + assert (i1 = i2) by lia. subst i2.
      apply paths_zfinish in I. destruct I as [(s' & -> & I)|I]; apply IH in I; try (simpl in *; lia);
        destruct I as (a & b & A & B & E).
      * exists (i1 :: a), (i1 :: b). rewrite !(paths_branch i1). split; [eauto|]. split; [eauto|].
        intros x. simpl. rewrite E. tauto.
      * exists a, b. rewrite !(paths_branch i1). auto.
Qed.

Lemma zproduct_complete n1 n2 : (forall x, In x (labels n1) -> ~ In x (labels n2)) ->
  forall a b, In a (paths n1) -> In b (paths n2) ->
  exists s, In s (paths (zproduct n1 n2)) /\ (forall x, In x s <-> In x a \/ In x b).
Proof.
  revert n1 n2. apply (pair_ind (fun n1 n2 => (forall x, In x (labels n1) -> ~ In x (labels n2)) ->
    forall a b, In a (paths n1) -> In b (paths n2) ->
    exists s, In s (paths (zproduct n1 n2)) /\ (forall x, In x s <-> In x a \/ In x b))).
  intros n1 n2 IH D a b A B. rewrite zproduct_eq. destruct (dd_eqb_spec n1 n2) as [<-|N].
  { destruct n1 as [[]|i l h].
    - destruct A as [<-|[]], B as [<-|[]]. exists []. simpl. intuition.
    - destruct A.
    - exfalso. apply (D i); simpl; auto. }
  destruct n1 as [[]|i1 l1 h1]; destruct n2 as [[]|i2 l2 h2]; try (destruct A; fail); try (destruct B; fail).
  - destruct A as [<-|[]], B as [<-|[]]. exists []. simpl. intuition.
  - destruct A as [<-|[]]. exists b. simpl. intuition.
  - destruct B as [<-|[]]. exists a. simpl. intuition.
  - pose proof (size_pos h1). pose proof (size_pos l1). pose proof (size_pos h2). pose proof (size_pos l2).
    assert (Dsub : forall m1 m2, incl (labels m1) (labels (Branch i1 l1 h1)) -> incl (labels m2) (labels (Branch i2 l2 h2)) ->
              forall x, In x (labels m1) -> ~ In x (labels m2)).
    { intros m1 m2 I1 I2 x X1 X2. apply (D x); auto. }
    assert (Il1 : incl (labels l1) (labels (Branch i1 l1 h1))) by (intros x X; simpl; rewrite in_app_iff; auto).
    assert (Ih1 : incl (labels h1) (labels (Branch i1 l1 h1))) by (intros x X; simpl; rewrite in_app_iff; auto).
    assert (Il2 : incl (labels l2) (labels (Branch i2 l2 h2))) by (intros x X; simpl; rewrite in_app_iff; auto).
    assert (Ih2 : incl (labels h2) (labels (Branch i2 l2 h2))) by (intros x X; simpl; rewrite in_app_iff; auto).
    destruct (Nat.ltb_spec i1 i2); [|destruct (Nat.ltb_spec i2 i1)].
    + apply paths_branch in A. destruct A as [(a' & -> & A)|A].
      * destruct (IH h1 (Branch i2 l2 h2) ltac:(simpl in *; lia) (Dsub _ _ Ih1 (incl_refl _)) a' b A B) as (s & S & E).
        exists (i1 :: s). rewrite paths_zfinish. split; [eauto|]. intros x. simpl. rewrite E. tauto.
      * destruct (IH l1 (Branch i2 l2 h2) ltac:(simpl in *; lia) (Dsub _ _ Il1 (incl_refl _)) a b A B) as (s & S & E).
        exists s. rewrite paths_zfinish. auto.
    + apply (paths_branch i2) in B. destruct B as [(b' & -> & B)|B].
      * destruct (IH (Branch i1 l1 h1) h2 ltac:(simpl in *; lia) (Dsub _ _ (incl_refl _) Ih2) a b' A B) as (s & S & E).
        exists (i2 :: s). rewrite paths_zfinish. split; [eauto|]. intros x. simpl. rewrite E. tauto.
      * destruct (IH (Branch i1 l1 h1) l2 ltac:(simpl in *; lia) (Dsub _ _ (incl_refl _) Il2) a b A B) as (s & S & E).
        exists s. rewrite paths_zfinish. auto.
    + exfalso. assert (i1 = i2) by lia. subst. apply (D i2); simpl; auto.
Qed.

(** *** intersect: complete on ordered diagrams; what else it returns *)
Lemma zintersect_complete n1 n2 : ordered n1 -> ordered n2 ->
  forall s, In s (paths n1) -> In s (paths n2) -> In s (paths (zintersect n1 n2)).
Proof.
  revert n1 n2. apply (pair_ind (fun n1 n2 => ordered n1 -> ordered n2 ->
    forall s, In s (paths n1) -> In s (paths n2) -> In s (paths (zintersect n1 n2)))).
  intros n1 n2 IH O1 O2 s A B. rewrite zintersect_eq. destruct (dd_eqb_spec n1 n2) as [<-|N]; [exact A|].
  destruct n1 as [[]|i1 l1 h1]; destruct n2 as [[]|i2 l2 h2]; auto.
  pose proof (size_pos h1). pose proof (size_pos l1). pose proof (size_pos h2). pose proof (size_pos l2).
  pose proof O1 as (D1 & Ol1 & Oh1). pose proof O2 as (D2 & Ol2 & Oh2).
  destruct (Nat.ltb_spec i1 i2); [|destruct (Nat.ltb_spec i2 i1)]; rewrite paths_zfinish.
  - apply (paths_branch i1) in A. destruct A as [(a & -> & A)|A]; [|auto]. exfalso.
    pose proof (paths_labels _ _ i1 B (or_introl eq_refl)) as [E|J]; [lia|].
    apply in_app_iff in J. specialize (D2 _ J). lia.
  - apply (paths_branch i2) in B. destruct B as [(b & -> & B)|B]; [|auto]. exfalso.
    pose proof (paths_labels _ _ i2 A (or_introl eq_refl)) as [E|J]; [lia|].
    apply in_app_iff in J. specialize (D1 _ J). lia.
  - assert (i1 = i2) by lia. subst i2. apply (paths_branch i1) in A. apply (paths_branch i1) in B.
    assert (NL : forall (l h : znode) t, (forall j, In j (labels l) \/ In j (labels h) -> i1 < j) ->
                  In (i1 :: t) (paths l) -> False).
    { intros l h t D I. pose proof (paths_labels _ _ i1 I (or_introl eq_refl)) as J.
      specialize (D _ (or_introl J)). lia. }
    destruct A as [(a & -> & A)|A].
    + destruct B as [(b & E & B)|B]; [|exfalso; eapply NL; [exact D2|exact B]].
      injection E as <-. left. exists a. split; [reflexivity|]. apply IH; auto. simpl in *; lia.
    + destruct B as [(b & -> & B)|B]; [exfalso; eapply NL; [exact D1|exact A]|].
      right. apply IH; auto. simpl in *; lia.
Qed.

Lemma zops_comm n1 n2 :
  zunion n1 n2 = zunion n2 n1 /\ zintersect n1 n2 = zintersect n2 n1 /\ zproduct n1 n2 = zproduct n2 n1.
Proof.
  revert n1 n2. apply (pair_ind (fun n1 n2 =>
    zunion n1 n2 = zunion n2 n1 /\ zintersect n1 n2 = zintersect n2 n1 /\ zproduct n1 n2 = zproduct n2 n1)).
  intros n1 n2 IH. rewrite (zunion_eq n1), (zunion_eq n2), (zintersect_eq n1), (zintersect_eq n2), (zproduct_eq n1), (zproduct_eq n2).
  destruct (dd_eqb_spec n1 n2) as [<-|N].
  { destruct (dd_eqb_spec n1 n1) as [_|C]; [tauto|congruence]. }
  destruct (dd_eqb_spec n2 n1) as [E|_]; [congruence|].
  destruct n1 as [[]|i1 l1 h1]; destruct n2 as [[]|i2 l2 h2]; auto.
  - split; [|auto]. f_equal. apply (IH (Leaf true) l2). simpl; lia.
  - split; [|auto]. f_equal. apply (IH l1 (Leaf true)). simpl; pose proof (size_pos h1); lia.
  - pose proof (size_pos h1). pose proof (size_pos l1). pose proof (size_pos h2). pose proof (size_pos l2).
    destruct (Nat.ltb_spec i1 i2); destruct (Nat.ltb_spec i2 i1); try lia.
    + destruct (IH l1 (Branch i2 l2 h2)) as (-> & _ & ->); [simpl in *; lia|].
      destruct (IH h1 (Branch i2 l2 h2)) as (_ & -> & ->); [simpl in *; lia|]. auto.
    + destruct (IH (Branch i1 l1 h1) l2) as (-> & _ & ->); [simpl in *; lia|].
      destruct (IH (Branch i1 l1 h1) h2) as (_ & -> & ->); [simpl in *; lia|]. auto.
    + assert (i1 = i2) by lia. subst i2.
      destruct (IH l1 l2) as (-> & -> & ->); [simpl in *; lia|].
      destruct (IH h1 h2) as (-> & -> & ->); [simpl in *; lia|]. auto.
Qed.

(** ** Enumerators *)
Lemma combinations_inner_in n : forall path s,
  In s (match combinations_inner n path with Some l => l | None => [] end) <->
  exists p, In p (paths n) /\ s = path ++ p.
Proof.
  induction n as [[]|i lo IHl hi IHh]; intros path s.
  - simpl. split.
    + intros [<-|[]]. exists []. rewrite app_nil_r. auto.
    + intros (p & [<-|[]] & ->). rewrite app_nil_r. auto.
  - simpl. split; [tauto|]. intros (p & [] & _).
  - cbn [combinations_inner]. rewrite in_app_iff, IHl, IHh. setoid_rewrite (paths_branch i). split.
    + intros [(p & A & ->)|(p & A & ->)]; [eauto|]. exists (i :: p). rewrite <- app_assoc. simpl. eauto.
    + intros (p & [(p' & -> & A)|A] & ->); [|eauto]. right. exists p'. rewrite <- app_assoc. auto.
Qed.

Definition stack_size (q : list (znode * list nat)) : nat := fold_right (fun e n => size (fst e) + n) 0 q.
Definition stack_paths (q : list (znode * list nat)) : list (list nat) :=
  flat_map (fun e => map (app (snd e)) (paths (fst e))) q.

Lemma combinations_loop_spec fuel : forall q acc, stack_size q <= fuel ->
  combinations_loop fuel q acc = Some (acc ++ stack_paths q).
Proof.
  induction fuel as [|k IH]; intros q acc L.
  - destruct q as [|[n p] q]; [simpl; rewrite app_nil_r; reflexivity|].
    simpl in L. pose proof (size_pos n). lia.
  - destruct q as [|[n p] q]; [simpl; rewrite app_nil_r; reflexivity|].
    destruct n as [[]|i lo hi]; cbn [combinations_loop].
    + rewrite IH by (simpl in L; lia). unfold stack_paths. simpl. rewrite app_nil_r, <- app_assoc. reflexivity.
    + rewrite IH by (simpl in L; lia). reflexivity.
    + rewrite IH by (simpl in *; lia). f_equal. f_equal. unfold stack_paths. cbn [flat_map fst snd paths].
      rewrite map_app, map_map, <- app_assoc. f_equal. apply map_ext. intros s. rewrite <- app_assoc. reflexivity.
Qed.

Lemma zcombinations_iter_spec n : zcombinations_iter n = Some (paths n).
Proof.
  unfold zcombinations_iter. rewrite combinations_loop_spec by (simpl; lia).
  simpl. rewrite app_nil_r. f_equal. rewrite <- (map_id (paths n)) at 2. apply map_ext. reflexivity.
Qed.

(** every label of a zero-suppressed diagram is on a path *)
Lemma zs_path (n : znode) : zero_suppressed n -> n <> Leaf false -> exists s, In s (paths n).
Proof.
  induction n as [[]|i lo IHl hi IHh]; intros Z N.
  - exists []. left; reflexivity.
  - congruence.
  - simpl in Z. destruct Z as (Nh & _ & Zh). destruct (IHh Zh Nh) as (s & S).
    exists (i :: s). apply paths_branch. eauto.
Qed.
Lemma zs_label_path (n : znode) x : zero_suppressed n -> In x (labels n) -> exists s, In s (paths n) /\ In x s.
Proof.
  induction n as [b|i lo IHl hi IHh]; intros Z I; [destruct I|].
  simpl in Z. destruct Z as (Nh & Zl & Zh). simpl in I. rewrite in_app_iff in I.
  setoid_rewrite (paths_branch i). destruct I as [<-|[I|I]].
  - destruct (zs_path hi Zh Nh) as (s & S). exists (i :: s). split; [eauto|left; reflexivity].
  - destruct (IHl Zl I) as (s & S & X). eauto.
  - destruct (IHh Zh I) as (s & S & X). exists (i :: s). split; [eauto|right; exact X].
Qed.
Lemma ordered_path n s : ordered n -> In s (paths n) -> ssorted s.
Proof.
  revert s. induction n as [[]|i lo IHl hi IHh]; intros s O I.
  - destruct I as [<-|[]]. constructor.
  - destruct I.
  - destruct O as (D & Ol & Oh). apply paths_branch in I. destruct I as [(s' & -> & I)|I]; [|auto].
    apply ssorted_cons; [auto|]. apply Forall_forall. intros x X. apply lt_nat. apply D. right.
    eapply paths_labels; eassumption.
Qed.

(** ** Trees *)
Section ZTreeProofs.
  Context {T : Type} `{OT : Ord T}.
  Implicit Types (u : zuniverse T) (t o : ztree T) (items c : list T).

  Definition zcombs t : list (list T) := filter_repeats (map (z_get_items (zt_univ t)) (paths (zt_root t))).

  Lemma z_combinations_eq t : z_combinations t = Some (zcombs t).
  Proof. unfold z_combinations. rewrite zcombinations_iter_spec. reflexivity. Qed.

  Lemma zcombs_in t s : In s (zcombs t) <-> exists p, In p (paths (zt_root t)) /\ s = z_get_items (zt_univ t) p.
  Proof.
    unfold zcombs. rewrite filter_repeats_in, in_map_iff. split; intros (p & A & B); exists p; auto.
  Qed.

  Lemma z_combinations_recursive_eq t : z_combinations_recursive t = zcombs t.
  Proof.
    unfold z_combinations_recursive, zcombs. apply filter_repeats_ext. intros s. rewrite !in_map_iff.
    unfold zcombinations_recursive. split; intros (p & A & B).
    - apply combinations_inner_in in B. destruct B as (q & B & ->). exists q. auto.
    - exists p. split; [exact A|]. apply combinations_inner_in. exists p. auto.
  Qed.

  Lemma z_get_items_in u p x : In x (z_get_items u p) <-> exists i, In i p /\ nth_error (zu_items u) i = Some x.
  Proof. unfold z_get_items. rewrite filter_repeats_in, filter_map_in. reflexivity. Qed.
  Lemma z_get_items_ssorted u p : ssorted (z_get_items u p).
  Proof. apply filter_repeats_ssorted. Qed.

  Lemma zcombs_ssorted t s : In s (zcombs t) -> ssorted s.
  Proof. intros I. apply zcombs_in in I. destruct I as (p & _ & ->). apply z_get_items_ssorted. Qed.
  Lemma zcombs_sub t s x : In s (zcombs t) -> In x s -> In x (zu_items (zt_univ t)).
  Proof.
    intros I X. apply zcombs_in in I. destruct I as (p & _ & ->). apply z_get_items_in in X.
    destruct X as (i & _ & E). eapply nth_error_In; exact E.
  Qed.

  (** the index of a universe built by [From<Vec>] *)
  Lemma enum_fold l : forall k m, map_ok m -> 
    let r := fold_left (fun m p => map_insert m (fst p) (snd p)) (combine l (seq k (length l))) m in
    map_ok r /\ forall x i, map_get r x = Some i ->
      (k <= i /\ nth_error l (i - k) = Some x) \/ (~ In x l /\ map_get m x = Some i).
  Proof.
    induction l as [|y l IH]; intros k m K; cbn [length seq combine fold_left].
    - split; [exact K|]. intros x i E. right. split; [intros []|exact E].
    - destruct (IH (S k) (map_insert m y k)) as (K' & G).
      + apply map_update_ok; exact K.
      + split; [exact K'|]. intros x i E. apply G in E. destruct E as [(L & E)|(N & E)].
        * left. split; [lia|]. replace (i - k) with (S (i - S k)) by lia. exact E.
        * unfold map_insert in E. cbn [fst snd] in E. rewrite map_update_get in E by exact K.
          destruct (eqb_spec_ x y) as [->|Nx].
          -- injection E as <-. left. split; [lia|]. rewrite Nat.sub_diag. reflexivity.
          -- right. split; [|exact E]. intros [->|C]; [congruence|contradiction].
  Qed.

  Lemma zindex_sound items x i : map_get (zu_index (zu_from items)) x = Some i -> nth_error items i = Some x.
  Proof.
    intros E. unfold zu_from, enumerate_map in E. cbn [zu_index] in E.
    destruct (enum_fold items 0 [] ltac:(constructor)) as (_ & G). apply G in E.
    destruct E as [(_ & E)|(_ & E)]; [rewrite Nat.sub_0_r in E; exact E|discriminate].
  Qed.

  Lemma enum_keys l : forall k m x, In x l -> 
    In x (map fst (fold_left (fun m p => map_insert m (fst p) (snd p)) (combine l (seq k (length l))) m)).
  Proof.
    assert (P : forall l' k m x, In x (map fst m) ->
      In x (map fst (fold_left (fun m p => map_insert m (fst p) (snd p)) (combine (A:=T) l' (seq k (length l'))) m))).
    { induction l' as [|y l' IH]; intros k m x I; [exact I|]. cbn [length seq combine fold_left]. apply IH.
      apply map_update_keys_sub. auto. }
    induction l as [|y l IH]; intros k m x I; [destruct I|]. cbn [length seq combine fold_left].
    destruct I as [->|I]; [|apply IH; exact I]. apply P. apply map_update_keys_sub. auto.
  Qed.

  Lemma zindex_complete items x : In x items -> exists i, map_get (zu_index (zu_from items)) x = Some i.
  Proof.
    intros I. destruct (map_get (zu_index (zu_from items)) x) as [i|] eqn:E; [eauto|]. exfalso.
    destruct (enum_fold items 0 [] ltac:(constructor)) as (K & _).
    apply map_get_none in E; [|exact K]. apply E. apply enum_keys. exact I.
  Qed.

  (** labels that are the index of their item *)
  Definition canon_label u p : Prop := exists x, nth_error (zu_items u) p = Some x /\ map_get (zu_index u) x = Some p.

  (** *** [tree] *)
  Definition chain (l : list nat) : znode := fold_right (fun i n => required_branch i n) (Leaf true) l.
  Lemma z_tree_root u c :
    zt_root (z_tree u c) = chain (sort (filter_map (map_get (zu_index u)) c)).
  Proof.
    unfold z_tree, chain. cbn [zt_root]. rewrite <- fold_left_rev_right. rewrite rev_involutive. reflexivity.
  Qed.
  Lemma chain_paths l : paths (chain l) = [l].
  Proof. induction l as [|i l IH]; [reflexivity|]. simpl. fold (chain l). rewrite IH. reflexivity. Qed.
  Lemma chain_labels l : labels (chain l) = l.
  Proof. induction l as [|i l IH]; [reflexivity|]. simpl. fold (chain l). rewrite IH. reflexivity. Qed.
  Lemma chain_nonempty l : chain l <> Leaf false.
  Proof. destruct l; discriminate. Qed.
  Lemma chain_zs l : zero_suppressed (chain l).
  Proof.
    induction l as [|i l IH]; [exact I|]. simpl. fold (chain l). split; [apply chain_nonempty|auto].
  Qed.
  Lemma chain_ordered l : ssorted l -> ordered (chain l).
  Proof.
    induction l as [|i l IH]; [simpl; auto|]. intros S. apply ssorted_inv in S. destruct S as (S & F).
    cbn [chain fold_right]. fold (chain l). simpl. split; [|split; [exact I|auto]].
    intros j [[]|J]. rewrite chain_labels in J. rewrite Forall_forall in F. apply lt_nat. auto.
  Qed.

  Lemma zcombs_tree items c : exists s, zcombs (z_tree (zu_from items) c) = [s] /\ ssorted s /\
    forall x, In x s <-> In x c /\ In x items.
  Proof.
    set (u := zu_from items). exists (z_get_items u (sort (filter_map (map_get (zu_index u)) c))).
    unfold zcombs. rewrite z_tree_root, chain_paths. split; [reflexivity|]. split; [apply z_get_items_ssorted|].
    intros x. rewrite z_get_items_in. setoid_rewrite sort_in. setoid_rewrite filter_map_in. split.
    - intros (i & (y & Iy & E) & E'). apply zindex_sound in E. change (zu_items u) with items in E'.
      assert (y = x) by congruence. subst y. split; [exact Iy|]. eapply nth_error_In; exact E.
    - intros (Ic & Ii). destruct (zindex_complete items x Ii) as (i & E). exists i. split; [eauto|].
      apply zindex_sound; exact E.
  Qed.

  Lemma z_tree_canon items c p : In p (labels (zt_root (z_tree (zu_from items) c))) -> canon_label (zu_from items) p.
  Proof.
    rewrite z_tree_root, chain_labels, sort_in, filter_map_in. intros (x & _ & E). exists x. split; [|exact E].
    apply zindex_sound; exact E.
  Qed.

  Lemma z_tree_NoDup items c : NoDup c -> ordered (zt_root (z_tree (zu_from items) c)).
  Proof.
    intros N. rewrite z_tree_root. apply chain_ordered, sort_ssorted.
    induction N as [|x c Nx N IH]; [constructor|]. cbn [filter_map].
    destruct (map_get (zu_index (zu_from items)) x) as [i|] eqn:E; [|exact IH].
    constructor; [|exact IH]. rewrite filter_map_in. intros (y & Iy & Ey).
    apply zindex_sound in E, Ey. assert (x = y) by congruence. subst. contradiction.
  Qed.

  (** *** union, and the folds *)
  Lemma zcombs_union t o : zt_univ t = zt_univ o ->
    forall s, In s (zcombs (z_union t o)) <-> In s (zcombs t) \/ In s (zcombs o).
  Proof.
    intros E s. rewrite !zcombs_in. unfold z_union. cbn [zt_root zt_univ]. setoid_rewrite zunion_paths.
    rewrite <- E. split.
    - intros (p & [A|A] & B); [left|right]; exists p; auto.
    - intros [(p & A & B)|(p & A & B)]; exists p; auto.
  Qed.

  Lemma z_fold_univ u l : forall t, zt_univ t = u -> (forall o, In o l -> zt_univ o = u) ->
    zt_univ (fold_left (fun root next => z_union root next) l t) = u.
  Proof.
    induction l as [|o l IH]; intros t E F; [exact E|]. cbn [fold_left]. apply IH; [exact E|].
    intros o' I. apply F. right; exact I.
  Qed.

  Lemma zcombs_fold u l : forall t, zt_univ t = u -> (forall o, In o l -> zt_univ o = u) ->
    forall s, In s (zcombs (fold_left (fun root next => z_union root next) l t)) <->
              In s (zcombs t) \/ exists o, In o l /\ In s (zcombs o).
  Proof.
    induction l as [|o l IH]; intros t E F s; cbn [fold_left].
    - split; [auto|]. intros [A|(o & [] & _)]; exact A.
    - rewrite IH; [|exact E|intros o' I; apply F; right; exact I].
      rewrite zcombs_union by (rewrite E; symmetry; apply F; left; reflexivity). split.
      + intros [[A|A]|(o' & I & A)]; [auto| |]; right; eauto using in_eq, in_cons.
      + intros [A|(o' & [<-|I] & A)]; [auto|auto|]. right. eauto.
  Qed.

  Lemma zcombs_empty u : zcombs (z_empty_tree u) = [].
  Proof. reflexivity. Qed.

  Definition restricted items c (s : list T) : Prop := ssorted s /\ forall x, In x s <-> In x c /\ In x items.

  Lemma restricted_unique items c s s' : restricted items c s -> restricted items c s' -> s = s'.
  Proof.
    intros (A & B) (A' & B'). apply ssorted_ext; auto. intros x. rewrite B, B'. tauto.
  Qed.

  Lemma zcombs_tree_in items c s : In s (zcombs (z_tree (zu_from items) c)) <-> restricted items c s.
  Proof.
    destruct (zcombs_tree items c) as (s' & -> & S & E). split.
    - intros [<-|[]]. split; assumption.
    - intros R. left. eapply restricted_unique; [split; eassumption|exact R].
  Qed.

  Lemma zcombs_hyper items cs s :
    In s (zcombs (z_hyper_tree (zu_from items) cs)) <-> exists c, In c cs /\ restricted items c s.
  Proof.
    unfold z_hyper_tree. rewrite (zcombs_fold (zu_from items)); [|reflexivity|].
    2:{ intros o I. apply in_map_iff in I. destruct I as (c & <- & _). reflexivity. }
    rewrite zcombs_empty. split.
    - intros [[]|(o & I & A)]. apply in_map_iff in I. destruct I as (c & <- & I). exists c.
      split; [exact I|]. apply zcombs_tree_in; exact A.
    - intros (c & I & R). right. exists (z_tree (zu_from items) c). split; [apply in_map; exact I|].
      apply zcombs_tree_in; exact R.
  Qed.

  Lemma z_unique_hyper u xs : z_unique_tree u xs = z_hyper_tree u (map (fun x => [x]) xs).
  Proof. unfold z_unique_tree, z_hyper_tree. rewrite map_map. reflexivity. Qed.

  (** *** combinations_with, restrict *)
  Lemma z_combinations_with_eq t inc exc : exists cs, z_combinations_with t inc exc = Some cs /\ ssorted cs /\
    forall s, In s cs <-> In s (zcombs t) /\ (forall x, In x inc -> In x s) /\ (forall x, In x exc -> ~ In x s).
  Proof.
    unfold z_combinations_with. rewrite zcombinations_iter_spec. cbn [bind]. eexists. split; [reflexivity|].
    split; [apply filter_repeats_ssorted|]. intros s.
    rewrite filter_repeats_in, !filter_In, zcombs_in, in_map_iff. rewrite eqb_true_.
    assert (A : filter_repeats (z_set_inter s (filter_repeats inc)) = filter_repeats inc <->
                (forall x, In x inc -> In x s)).
    { split.
      - intros E x I. apply filter_repeats_in in I. rewrite <- E in I. rewrite filter_repeats_in in I.
        unfold z_set_inter in I. rewrite filter_In in I. apply I.
      - intros F. apply filter_repeats_ext. intros x. unfold z_set_inter. rewrite filter_In, memb_spec, filter_repeats_in.
        split; [tauto|]. auto. }
    assert (B : (match z_set_inter s (filter_repeats exc) with [] => true | _ => false end) = true <->
                (forall x, In x exc -> ~ In x s)).
    { unfold z_set_inter. destruct (filter _ s) as [|y l] eqn:E.
      - split; [|reflexivity]. intros _ x I X.
        assert (J : In x (filter (fun x => memb x (filter_repeats exc)) s))
          by (rewrite filter_In, memb_spec, filter_repeats_in; auto).
        rewrite E in J. destruct J.
      - split; [discriminate|]. intros F. exfalso.
        assert (J : In y (filter (fun x => memb x (filter_repeats exc)) s)) by (rewrite E; left; reflexivity).
        rewrite filter_In, memb_spec, filter_repeats_in in J. apply (F y); tauto. }
    rewrite A, B. split.
    - intros ((( p & <- & P) & X) & Y). eauto.
    - intros ((p & P & ->) & X & Y). repeat split; eauto.
  Qed.

  Lemma z_restrict_spec items t inc exc : zt_univ t = zu_from items ->
    exists r, z_restrict t inc exc = Some r /\ zt_univ r = zu_from items /\
      (forall s, In s (zcombs r) <-> In s (zcombs t) /\ (forall x, In x inc -> In x s) /\ (forall x, In x exc -> ~ In x s)) /\
      exists cs, r = z_hyper_tree (zu_from items) cs /\ (forall c, In c cs -> ssorted c).
  Proof.
    intros U. destruct (z_combinations_with_eq t inc exc) as (cs & E & _ & G). unfold z_restrict. rewrite E. cbn [bind].
    rewrite U. eexists. split; [reflexivity|]. split.
    { apply z_fold_univ; [reflexivity|]. intros o I. apply in_map_iff in I. destruct I as (c & <- & _). reflexivity. }
    split.
    - intros s. rewrite zcombs_hyper, <- G. split.
      + intros (c & I & R). replace s with c; [exact I|]. pose proof (proj1 (proj1 (G c) I)) as J.
        eapply restricted_unique; [|exact R]. split; [eapply zcombs_ssorted; exact J|].
        intros x. split; [|tauto]. intros X. split; [exact X|]. eapply zcombs_sub in X; [|exact J]. rewrite U in X. exact X.
      + intros I. exists s. split; [exact I|]. pose proof (proj1 (proj1 (G s) I)) as J.
        split; [eapply zcombs_ssorted; exact J|]. intros x. split; [|tauto]. intros X. split; [exact X|].
        eapply zcombs_sub in X; [|exact J]. rewrite U in X. exact X.
    - exists cs. split; [reflexivity|]. intros c I. apply G in I. eapply zcombs_ssorted. apply I.
  Qed.

  (** *** the invariant of reachable trees *)
  Definition zinv items t : Prop :=
    zt_univ t = zu_from items /\ zero_suppressed (zt_root t) /\
    forall p, In p (labels (zt_root t)) -> canon_label (zu_from items) p.

  Lemma zinv_union items t o : zinv items t -> zinv items o -> zinv items (z_union t o).
  Proof.
    intros (U & Z & L) (U' & Z' & L'). split; [exact U|]. split; [apply zops_zs; assumption|].
    apply (zops_labels (canon_label (zu_from items))); assumption.
  Qed.
  Lemma zinv_hyper items cs : zinv items (z_hyper_tree (zu_from items) cs).
  Proof.
    unfold z_hyper_tree.
    assert (G : forall t, zinv items t ->
      zinv items (fold_left (fun root next => z_union root next) (map (z_tree (zu_from items)) cs) t)).
    { induction cs as [|c cs IH]; intros t I; [exact I|]. cbn [map fold_left]. apply IH. apply zinv_union; [exact I|].
      split; [reflexivity|]. split; [rewrite z_tree_root; apply chain_zs|]. apply z_tree_canon. }
    apply G. split; [reflexivity|]. split; [exact I|]. intros p [].
  Qed.
  Lemma zreach_inv ok items t : ZReach ok (zu_from items) t -> zinv items t.
  Proof.
    induction 1 as [| |c _|xs|cs _|t o _ IHt _ IHo|t o _ IHt _ IHo|t o _ IHt _ IHo|t inc exc r _ IHt E].
    - split; [reflexivity|]. split; [exact I|]. intros p [].
    - split; [reflexivity|]. split; [exact I|]. intros p [].
    - split; [reflexivity|]. split; [rewrite z_tree_root; apply chain_zs|]. apply z_tree_canon.
    - rewrite z_unique_hyper. apply zinv_hyper.
    - apply zinv_hyper.
    - apply zinv_union; assumption.
    - destruct IHt as (U & Z & L), IHo as (U' & Z' & L'). split; [exact U|]. split; [apply zops_zs; assumption|].
      apply (zops_labels (canon_label (zu_from items))); assumption.
    - destruct IHt as (U & Z & L), IHo as (U' & Z' & L'). split; [exact U|]. split; [apply zops_zs; assumption|].
      apply (zops_labels (canon_label (zu_from items))); assumption.
    - destruct IHt as (U & _). destruct (z_restrict_spec items t inc exc U) as (r' & E' & _ & _ & cs & -> & _).
      rewrite E in E'. injection E' as ->. apply zinv_hyper.
  Qed.

  Lemma z_hyper_ordered items cs : (forall c, In c cs -> NoDup c) ->
    ordered (zt_root (z_hyper_tree (zu_from items) cs)).
  Proof.
    intros N. unfold z_hyper_tree.
    assert (G : forall t, ordered (zt_root t) ->
      ordered (zt_root (fold_left (fun root next => z_union root next) (map (z_tree (zu_from items)) cs) t))).
    { induction cs as [|c cs IH]; intros t O; [exact O|]. cbn [map fold_left]. apply IH.
      - intros c' I. apply N. right; exact I.
      - apply zops_ordered; [exact O|]. apply z_tree_NoDup. apply N. left; reflexivity. }
    apply G. exact I.
  Qed.
  Lemma zreach_ordered items t : ZReach (@NoDup T) (zu_from items) t -> ordered (zt_root t).
  Proof.
    induction 1 as [| |c N|xs|cs N|t o _ IHt _ IHo|t o _ IHt _ IHo|t o _ IHt _ IHo|t inc exc r R IHt E].
    - exact I.
    - exact I.
    - apply z_tree_NoDup; exact N.
    - rewrite z_unique_hyper. apply z_hyper_ordered. intros c I. apply in_map_iff in I. destruct I as (x & <- & _).
      repeat constructor. intros [].
    - apply z_hyper_ordered; exact N.
    - apply zops_ordered; assumption.
    - apply zops_ordered; assumption.
    - apply zops_ordered; assumption.
    - apply zreach_inv in R. destruct R as (U & _).
      destruct (z_restrict_spec items t inc exc U) as (r' & E' & _ & _ & cs & -> & S).
      rewrite E in E'. injection E' as ->. apply z_hyper_ordered. intros c Ic. apply ssorted_NoDup; auto.
  Qed.

  (** two canonical ordered paths with the same items are the same *)
  Lemma canon_items items p q :
    (forall i, In i p -> canon_label (zu_from items) i) -> (forall i, In i q -> canon_label (zu_from items) i) ->
    (forall x, In x (z_get_items (zu_from items) p) <-> In x (z_get_items (zu_from items) q)) ->
    forall i, In i p -> In i q.
  Proof.
    intros P Q E i I. destruct (P i I) as (x & A & B).
    assert (X : In x (z_get_items (zu_from items) q)).
    { apply E. apply z_get_items_in. exists i. auto. }
    apply z_get_items_in in X. destruct X as (j & J & C). destruct (Q j J) as (y & C' & D).
    rewrite C in C'. injection C' as <-. rewrite B in D. injection D as <-. exact J.
  Qed.

  Lemma zcombs_intersect items t o : zinv items t -> zinv items o -> ordered (zt_root t) -> ordered (zt_root o) ->
    forall s, In s (zcombs t) -> In s (zcombs o) -> In s (zcombs (z_intersect t o)).
  Proof.
    intros (U & Z & L) (U' & Z' & L') O O' s A B. rewrite zcombs_in in A, B |- *.
    destruct A as (p & A & ->). destruct B as (q & B & E). rewrite U, U' in E.
    assert (p = q).
    { apply ssorted_ext; [exact (ordered_path _ _ O A)|exact (ordered_path _ _ O' B)|].
      assert (Cp : forall i, In i p -> canon_label (zu_from items) i) by (intros i I; apply L; eapply paths_labels; eauto).
      assert (Cq : forall i, In i q -> canon_label (zu_from items) i) by (intros i I; apply L'; eapply paths_labels; eauto).
      intros i. split.
      - apply (canon_items items p q Cp Cq). intros x. rewrite E. tauto.
      - apply (canon_items items q p Cq Cp). intros x. rewrite E. tauto. }
    subst q. exists p. cbn [z_intersect zt_root zt_univ]. split; [|reflexivity].
    apply zintersect_complete; assumption.
  Qed.

  (** *** product *)
  Lemma z_items_union u (s a b : list nat) : (forall i, In i s <-> In i a \/ In i b) ->
    forall x, In x (z_get_items u s) <-> In x (z_get_items u a) \/ In x (z_get_items u b).
  Proof.
    intros E x. rewrite !z_get_items_in. setoid_rewrite E. split.
    - intros (i & [A|A] & X); eauto.
    - intros [(i & A & X)|(i & A & X)]; eauto.
  Qed.

  Lemma zcombs_product_sound t o : zt_univ t = zt_univ o ->
    forall s, In s (zcombs (z_product t o)) ->
    exists a b, In a (zcombs t) /\ In b (zcombs o) /\ is_union s a b.
  Proof.
    intros U s I. apply zcombs_in in I. destruct I as (p & I & ->). cbn [z_product zt_root zt_univ] in *.
    apply zproduct_sound in I. destruct I as (a & b & A & B & E).
    exists (z_get_items (zt_univ t) a), (z_get_items (zt_univ t) b). rewrite !zcombs_in, <- U.
    split; [eauto|]. split; [eauto|]. intros x. apply z_items_union. exact E.
  Qed.

  Lemma zcombs_product_complete items t o : zinv items t -> zinv items o -> item_disjoint (zcombs t) (zcombs o) ->
    forall a b, In a (zcombs t) -> In b (zcombs o) -> exists s, In s (zcombs (z_product t o)) /\ is_union s a b.
  Proof.
    intros (U & Z & L) (U' & Z' & L') D a b A B. rewrite zcombs_in in A, B.
    destruct A as (p & A & ->). destruct B as (q & B & ->).
    destruct (zproduct_complete (zt_root t) (zt_root o)) with (a := p) (b := q) as (s & S & E); auto.
    - intros i I I'. destruct (L i I) as (x & X & _).
      destruct (zs_label_path _ _ Z I) as (pa & Pa & Ia). destruct (zs_label_path _ _ Z' I') as (pb & Pb & Ib).
      apply (D (z_get_items (zt_univ t) pa) (z_get_items (zt_univ o) pb) x).
      + apply zcombs_in; eauto.
      + apply zcombs_in; eauto.
      + apply z_get_items_in. rewrite U. eauto.
      + apply z_get_items_in. rewrite U'. eauto.
    - exists (z_get_items (zt_univ t) s). split; [apply zcombs_in; cbn [z_product zt_root zt_univ]; eauto|].
      intros x. rewrite U', <- U. apply z_items_union. exact E.
  Qed.

  (** *** summarize *)
  Lemma group_counts_spec (l : list T) : StronglySorted (fun a b => leb_ a b = true) l ->
    ssorted (map fst (group_counts l)) /\
    forall x k, In (x, k) (group_counts l) <-> 0 < k /\ k = count_occ eq_dec_ l x.
  Proof.
    induction 1 as [|x l SS IH F].
    - simpl. split; [constructor|]. intros; split; [tauto|lia].
    - destruct IH as (So & G). cbn [group_counts]. rewrite Forall_forall in F.
      assert (Kin : forall y k, In (y, k) (group_counts l) -> In y l).
      { intros y k I. apply G in I. apply (count_occ_In eq_dec_). lia. }
      destruct (group_counts l) as [|[y c] r] eqn:E.
      + assert (l = []) as ->.
        { destruct l as [|z l]; [reflexivity|]. exfalso.
          destruct (count_occ eq_dec_ (z :: l) z) as [|k] eqn:C.
          - apply count_occ_not_In in C. apply C. left; reflexivity.
          - assert (I : In (z, S k) []) by (apply G; lia). destruct I. }
        split; [repeat constructor|]. intros z k. simpl. split.
        * intros [[= <- <-]|[]]. destruct (eq_dec_ x x); [lia|congruence].
        * destruct (eq_dec_ x z) as [->|N]; [|lia]. intros [_ ->]. auto.
      + destruct (eqb_spec_ x y) as [->|N].
        * split; [exact So|]. intros z k. cbn [count_occ]. destruct (eq_dec_ y z) as [->|Nz].
          -- split.
             ++ intros [[= <-]|I].
                ** assert (I : In (z, c) ((z, c) :: r)) by (left; reflexivity). apply G in I. lia.
                ** exfalso. simpl in So. apply ssorted_inv in So. destruct So as (_ & Fr).
                   rewrite Forall_forall in Fr. apply (lt_irrefl_ z). apply Fr. apply in_map_iff. exists (z, k). auto.
             ++ intros [K ->]. left. f_equal.
                assert (I : In (z, c) ((z, c) :: r)) by (left; reflexivity). apply G in I. lia.
          -- rewrite <- (G z k). simpl. split; intros [X|X]; auto; congruence.
        * assert (Lx : forall z, In z (map fst ((y, c) :: r)) -> lt_ x z).
          { assert (Lxy : lt_ x y).
            { assert (I : In y l) by (apply (Kin y c); left; reflexivity). specialize (F y I).
              apply leb_iff_ in F. destruct F as [F|F]; [exact F|congruence]. }
            intros z [<-|I]; [exact Lxy|]. simpl in So. apply ssorted_inv in So. destruct So as (_ & Fr).
            rewrite Forall_forall in Fr. eapply lt_trans_; [exact Lxy|]. apply Fr; exact I. }
          split.
          { cbn [map fst]. apply ssorted_cons; [exact So|]. apply Forall_forall. exact Lx. }
          assert (Nx : ~ In x l).
          { intros I. destruct (count_occ eq_dec_ l x) as [|k] eqn:C.
            - apply count_occ_not_In in C. contradiction.
            - assert (J : In (x, S k) ((y, c) :: r)) by (apply G; lia).
              apply (lt_irrefl_ x). apply Lx. apply in_map_iff. exists (x, S k). auto. }
          intros z k. cbn [count_occ]. destruct (eq_dec_ x z) as [->|Nz].
          -- apply (count_occ_not_In eq_dec_) in Nx. rewrite Nx. split.
             ++ intros [[= <-]|I]; [lia|]. exfalso. apply (lt_irrefl_ z). apply Lx. apply in_map_iff. exists (z, k). auto.
             ++ intros [_ ->]. left; reflexivity.
          -- rewrite <- (G z k). simpl. split; intros [X|X]; auto; congruence.
  Qed.
End ZTreeProofs.

(** ** what [intersect] may return *)
Lemma zintersect_sound n1 n2 : zero_suppressed n1 -> zero_suppressed n2 -> forall s, In s (paths (zintersect n1 n2)) ->
  exists a b, In a (paths n1) /\ In b (paths n2) /\ (forall x, In x s -> In x a \/ In x b) /\ (incl a s \/ incl b s).
Proof.
  revert n1 n2. apply (pair_ind (fun n1 n2 => zero_suppressed n1 -> zero_suppressed n2 -> forall s, In s (paths (zintersect n1 n2)) ->
    exists a b, In a (paths n1) /\ In b (paths n2) /\ (forall x, In x s -> In x a \/ In x b) /\ (incl a s \/ incl b s))).
  intros n1 n2 IH Z1 Z2 s I. rewrite zintersect_eq in I. destruct (dd_eqb_spec n1 n2) as [<-|N].
  { exists s, s. repeat split; auto using incl_refl. }
  assert (L : forall (a b : list nat) n m, In a (paths n) -> In b (paths m) -> s = a \/ s = b ->
     exists a b, In a (paths n) /\ In b (paths m) /\ (forall x, In x s -> In x a \/ In x b) /\ (incl a s \/ incl b s)).
  { intros a b n m A B [<-|<-]; [exists s, b|exists a, s]; repeat split; auto using incl_refl. }
  destruct n1 as [[]|i1 l1 h1]; destruct n2 as [[]|i2 l2 h2]; try (destruct I; fail).
  - congruence.
  - apply (L [] s); auto. left; reflexivity.
  - apply (L s []); auto. left; reflexivity.
  - pose proof (size_pos h1). pose proof (size_pos l1). pose proof (size_pos h2). pose proof (size_pos l2).
    pose proof Z1 as (Nh1 & Zl1 & Zh1). pose proof Z2 as (Nh2 & Zl2 & Zh2).
    destruct (Nat.ltb_spec i1 i2); [|destruct (Nat.ltb_spec i2 i1)]; apply paths_zfinish in I.
    + destruct I as [(s' & -> & I)|I].
      * destruct (IH h1 (Branch i2 l2 h2) ltac:(simpl in *; lia) Zh1 Z2 s' I) as (a & b & A & B & C & D).
        exists (i1 :: a), b. split; [apply paths_branch; eauto|]. split; [exact B|]. split.
        -- intros x [<-|X]; [left; left; reflexivity|]. apply C in X. simpl; tauto.
        -- destruct D as [D|D]; [left|right]; intros x; simpl; [|auto]. intros [X|X]; auto.
      * destruct (zs_path _ Z2 ltac:(discriminate)) as (b & B). apply (L s b); auto. apply paths_branch; auto.
    + destruct I as [(s' & -> & I)|I].
      * destruct (IH (Branch i1 l1 h1) h2 ltac:(simpl in *; lia) Z1 Zh2 s' I) as (a & b & A & B & C & D).
        exists a, (i2 :: b). split; [exact A|]. split; [apply paths_branch; eauto|]. split.
        -- intros x [<-|X]; [right; left; reflexivity|]. apply C in X. simpl; tauto.
        -- destruct D as [D|D]; [left|right]; intros x; simpl; [auto|]. intros [X|X]; auto.
      * destruct (zs_path _ Z1 ltac:(discriminate)) as (a & A). apply (L a s); auto. apply paths_branch; auto.
    + assert (i1 = i2) by lia. subst i2. destruct I as [(s' & -> & I)|I].
      * destruct (IH h1 h2 ltac:(simpl in *; lia) Zh1 Zh2 s' I) as (a & b & A & B & C & D).
        exists (i1 :: a), (i1 :: b). split; [apply paths_branch; eauto|]. split; [apply paths_branch; eauto|]. split.
        -- intros x [<-|X]; [left; left; reflexivity|]. apply C in X. simpl; tauto.
        -- destruct D as [D|D]; [left|right]; intros x; simpl; intros [X|X]; auto.
      * destruct (IH l1 l2 ltac:(simpl in *; lia) Zl1 Zl2 s I) as (a & b & A & B & C & D).
        exists a, b. split; [apply paths_branch; auto|]. split; [apply paths_branch; auto|]. auto.
Qed.

(** an ordered, zero-suppressed diagram is determined by its paths *)
Lemma ordered_zwf n t : ordered t -> zero_suppressed t -> (forall j, In j (labels t) -> n <= j) -> zwf n t.
Proof.
  revert n. induction t as [b|i lo IHl hi IHh]; intros n O Z L; [exact I|].
  destruct O as (D & Ol & Oh), Z as (N & Zl & Zh). simpl. split; [apply L; left; reflexivity|]. split; [exact N|].
  split; [apply IHl|apply IHh]; auto; intros j J; apply D; auto.
Qed.
Lemma zcanonical t1 t2 : ordered t1 -> zero_suppressed t1 -> ordered t2 -> zero_suppressed t2 ->
  (forall s, In s (paths t1) <-> In s (paths t2)) -> t1 = t2.
Proof.
  intros. apply (canonicity 0); auto; apply ordered_zwf; auto; intros; lia.
Qed.

Section ZTreeProofs2.
  Context {T : Type} `{OT : Ord T}.
  Implicit Types (u : zuniverse T) (t o : ztree T) (items c : list T).

  Lemma zcombs_paths items t o : zinv items t -> zinv items o -> ordered (zt_root t) -> ordered (zt_root o) ->
    (forall s, In s (zcombs t) -> In s (zcombs o)) -> forall p, In p (paths (zt_root t)) -> In p (paths (zt_root o)).
  Proof.
    intros (U & Z & L) (U' & Z' & L') O O' E p P.
    assert (A : In (z_get_items (zt_univ t) p) (zcombs o)) by (apply E, zcombs_in; eauto).
    apply zcombs_in in A. destruct A as (q & Q & A). rewrite U, U' in A.
    assert (p = q) as ->; [|exact Q].
    apply ssorted_ext; [exact (ordered_path _ _ O P)|exact (ordered_path _ _ O' Q)|].
    assert (Cp : forall i, In i p -> canon_label (zu_from items) i) by (intros i I; apply L; eapply paths_labels; eauto).
    assert (Cq : forall i, In i q -> canon_label (zu_from items) i) by (intros i I; apply L'; eapply paths_labels; eauto).
    intros i. split.
    - apply (canon_items items p q Cp Cq). intros x. rewrite A. tauto.
    - apply (canon_items items q p Cq Cp). intros x. rewrite A. tauto.
  Qed.

  Lemma zcombs_canonical items t o : zinv items t -> zinv items o -> ordered (zt_root t) -> ordered (zt_root o) ->
    (forall s, In s (zcombs t) <-> In s (zcombs o)) -> t = o.
  Proof.
    intros I I' O O' E.
    assert (R : zt_root t = zt_root o).
    { destruct I as (U & Z & L), I' as (U' & Z' & L').
      apply zcanonical; auto. intros p. split.
      - apply (zcombs_paths items); auto; try (split; auto; fail). intros s S; apply E; exact S.
      - apply (zcombs_paths items); auto; try (split; auto; fail). intros s S; apply E; exact S. }
    destruct t as [r u], o as [r' u'], I as (U & _), I' as (U' & _). simpl in *. congruence.
  Qed.

  (** *** traverse *)
  Lemma z_from_node_spec u n : (forall p, In p (labels n) -> exists x, nth_error (zu_items u) p = Some x) ->
    exists d, z_from_node u n = Some d /\ size d = size n /\
      (forall q, In q (paths d) <-> exists p, In p (paths n) /\ q = filter_map (z_get_item u) p).
  Proof.
    induction n as [b|i lo IHl hi IHh]; intros L.
    - exists (Leaf b). split; [reflexivity|]. split; [reflexivity|]. intros q. destruct b; simpl.
      + split; [intros [<-|[]]; exists []; auto|intros (p & [<-|[]] & ->); auto].
      + split; [tauto|intros (p & [] & _)].
    - destruct (L i (or_introl eq_refl)) as (x & X).
      destruct IHl as (dl & El & Sl & Pl); [intros p I; apply L; simpl; rewrite in_app_iff; auto|].
      destruct IHh as (dh & Eh & Sh & Ph); [intros p I; apply L; simpl; rewrite in_app_iff; auto|].
      exists (Branch x dl dh). cbn [z_from_node]. unfold z_get_item at 1. rewrite X, El, Eh. cbn [bind].
      split; [reflexivity|]. split; [simpl; lia|]. intros q. rewrite (paths_branch x). setoid_rewrite (paths_branch i).
      rewrite Pl. setoid_rewrite Ph. split.
      + intros [(s' & -> & p & P & ->)|(p & P & ->)]; [|eauto]. exists (i :: p). split; [eauto|].
        cbn [filter_map]. unfold z_get_item at 2. rewrite X. reflexivity.
      + intros (p & [(p' & -> & P)|P] & ->); [|eauto]. left. exists (filter_map (z_get_item u) p'). split; [|eauto].
        cbn [filter_map]. unfold z_get_item at 1. rewrite X. reflexivity.
  Qed.

  (** *** summarize *)
  Lemma zfold_zeros l : forall m : list (T * nat), map_ok m ->
    let r := fold_left (fun m p => map_insert m (fst p) (snd p)) (map (fun x => (x, 0)) l) m in
    map_ok r /\ forall x, map_get r x = if memb x l then Some 0 else map_get m x.
  Proof.
    induction l as [|y l IH]; intros m K; cbn [map fold_left].
    - split; [exact K|reflexivity].
    - destruct (IH (map_insert m y 0)) as (K' & G); [apply map_update_ok; exact K|]. cbn [fst snd].
      split; [exact K'|]. intros x. rewrite G. unfold map_insert at 1. rewrite map_update_get by exact K.
      unfold memb. cbn [existsb]. fold (memb x l). destruct (memb x l); [rewrite orb_true_r; reflexivity|].
      rewrite orb_false_r. reflexivity.
  Qed.
  Lemma zfold_pairs (l : list (T * nat)) : forall m : list (T * nat), map_ok m -> NoDup (map fst l) ->
    let r := fold_left (fun m p => map_insert m (fst p) (snd p)) l m in
    map_ok r /\ (forall x k, In (x, k) l -> map_get r x = Some k) /\
    (forall x, ~ In x (map fst l) -> map_get r x = map_get m x).
  Proof.
    induction l as [|[y c] l IH]; intros m K N; cbn [map fold_left fst snd].
    - split; [exact K|]. split; [intros x k []|auto].
    - inversion N as [|? ? Ny Nl]; subst.
      destruct (IH (map_insert m y c)) as (K' & G & G'); [apply map_update_ok; exact K|exact Nl|].
      split; [exact K'|]. split.
      + intros x k [[= -> ->]|I]; [|auto]. rewrite G' by exact Ny. unfold map_insert.
        rewrite map_update_get by exact K. rewrite eqb_refl_. reflexivity.
      + intros x Nx. rewrite G' by (intros C; apply Nx; right; exact C). unfold map_insert.
        rewrite map_update_get by exact K. destruct (eqb_spec_ x y) as [->|]; [|reflexivity].
        exfalso. apply Nx. left; reflexivity.
  Qed.

  Lemma zsummary_counts items (cs : list (list T)) :
    (forall c, In c cs -> ssorted c) -> (forall c x, In c cs -> In x c -> In x items) ->
    let counts := fold_left (fun m p => map_insert m (fst p) (snd p))
                    (map (fun x => (x, 0)) items ++ group_counts (sort (concat cs))) [] in
    map_ok counts /\ forall x k, In (x, k) counts <-> In x items /\ k = count cs x.
  Proof.
    intros So Su counts. unfold counts. clear counts. rewrite fold_left_app.
    destruct (group_counts_spec (sort (concat cs)) (sort_sorted _)) as (S & G).
    destruct (zfold_zeros items [] ltac:(constructor)) as (K & Z).
    set (m := fold_left _ (map _ items) []) in *. clearbody m.
    destruct (zfold_pairs (group_counts (sort (concat cs))) m K (ssorted_NoDup _ S)) as (K' & P & Q).
    set (r := fold_left _ _ m) in *. clearbody r. split; [exact K'|].
    assert (C : forall x, count_occ eq_dec_ (sort (concat cs)) x = count cs x).
    { intros x. rewrite <- count_occ_concat by (intros t I; apply ssorted_NoDup; auto).
      apply Permutation_count_occ. apply sort_perm. }
    assert (V : forall x, map_get r x = if memb x items then Some (count cs x) else None).
    { intros x. destruct (count cs x) as [|k] eqn:E.
      - rewrite Q.
        + rewrite Z. reflexivity.
        + intros I. apply in_map_iff in I. destruct I as ([y k] & <- & I). cbn [fst] in E. apply G in I.
          rewrite C in I. lia.
      - rewrite (P x (count cs x)) by (apply G; rewrite C; lia). rewrite E.
        assert (I : memb x items = true); [|rewrite I; reflexivity].
        apply memb_spec. assert (X : 0 < count cs x) by lia. apply count_pos in X. destruct X as (c & Ic & Ix). eauto. }
    intros x k. rewrite <- (map_get_in r x k K'), V. destruct (memb x items) eqn:E.
    - apply memb_spec in E. split; [intros [= <-]; auto|intros (_ & ->); reflexivity].
    - apply memb_false in E. split; [discriminate|tauto].
  Qed.

  Lemma count_zero_iff (cs : list (list T)) x : count cs x = 0 <-> forall c, In c cs -> ~ In x c.
  Proof.
    split.
    - intros E c I X. assert (0 < count cs x) by (apply count_pos; eauto). lia.
    - intros N. destruct (count cs x) eqn:E; [reflexivity|]. exfalso.
      assert (P : 0 < count cs x) by lia. apply count_pos in P. destruct P as (c & I & X). exact (N c I X).
  Qed.
  Lemma count_all_iff (cs : list (list T)) x : count cs x = length cs <-> forall c, In c cs -> In x c.
  Proof.
    assert (L : forall ds : list (list T), count ds x <= length ds).
    { induction ds as [|d ds IH]; [auto|]. cbn [count length]. destruct (memb x d); lia. }
    induction cs as [|d cs IH]; [split; [intros _ c []|reflexivity]|].
    cbn [count length]. specialize (L cs). destruct (memb x d) eqn:E.
    - apply memb_spec in E. split.
      + intros Q c [<-|I]; [exact E|]. apply IH; [lia|exact I].
      + intros Q. cut (count cs x = length cs); [lia|]. apply IH. intros c I. apply Q. right; exact I.
    - apply memb_false in E. split; [lia|]. intros Q. exfalso. apply E. apply Q. left; reflexivity.
  Qed.
End ZTreeProofs2.
