(** Zdd2Exact: what Node::intersect and Node::product return, exactly, and what
    Node::branch keeps when it has to re-order.  (Zdd2Node and Zdd2Node2 prove the
    weaker facts used for the exact cases.) *)
From Coq Require Import List Arith Lia Bool Permutation Sorted.
From Verif Require Import Base DD Spec Zdd2Model Zdd2Node Zdd2Node2.
Import ListNotations.

(** [g] and [s] have the same labels below [k] / from [k] on *)
Definition agr (k : nat) (g s : list nat) : Prop := forall x, x < k -> (In x g <-> In x s).
Definition aft (k : nat) (g s : list nat) : Prop := forall x, k <= x -> (In x g <-> In x s).
(** below [k], [t] has paths agreeing with [s], and they all end there *)
Definition ends (k : nat) (t : node) (s : list nat) : Prop :=
  (exists g, In g (paths t) /\ agr k g s) /\
  (forall g x, In g (paths t) -> agr k g s -> In x g -> x < k).

Lemma agr_cons i k g s : i < k -> agr k g s -> agr k (i :: g) (i :: s).
Proof. intros L A x X. cbn [In]. rewrite (A x X). tauto. Qed.
Lemma agr_cons_inv i k g s : asc (S i) g -> asc (S i) s -> agr k (i :: g) (i :: s) -> agr k g s.
Proof.
  intros G S_ A x X. specialize (A x X). cbn [In] in A. split; intros J.
  - pose proof (asc_ge _ _ _ G J). destruct (proj1 A (or_intror J)) as [->|K]; [lia|exact K].
  - pose proof (asc_ge _ _ _ S_ J). destruct (proj2 A (or_intror J)) as [->|K]; [lia|exact K].
Qed.
Lemma aft_cons_inv i k g s : asc (S i) g -> asc (S i) s -> S i <= k -> aft k (i :: g) (i :: s) -> aft k g s.
Proof.
  intros G S_ L A x X. specialize (A x X). cbn [In] in A. split; intros J.
  - destruct (proj1 A (or_intror J)) as [->|K]; [lia|exact K].
  - destruct (proj2 A (or_intror J)) as [->|K]; [lia|exact K].
Qed.
(** nothing below [n]: all cuts up to [n] are the same *)
Lemma agr_low n k g s : k <= n -> asc n g -> asc n s -> agr k g s.
Proof.
  intros L G S_ x X. split; intros J; exfalso;
    [pose proof (asc_ge _ _ _ G J)|pose proof (asc_ge _ _ _ S_ J)]; lia.
Qed.
Lemma ends_low n k t s : k <= n -> zwf n t -> asc n s -> ends k t s -> t = Always.
Proof.
  intros L W S_ ((g & G & _) & B).
  assert (All : forall g, In g (paths t) -> g = []).
  { intros g' G'. pose proof (zwf_paths _ _ _ W G') as A. destruct g' as [|x g']; [reflexivity|exfalso].
    assert (x < k) by (apply (B (x :: g') x G'); [apply (agr_low n); assumption|left; reflexivity]).
    cbn in A. lia. }
  apply (canonicity n); [exact W|exact I|]. intros s'. cbn. split.
  - intros J. left. symmetry. apply All; exact J.
  - intros [<-|[]]. rewrite <- (All g G). exact G.
Qed.
Lemma ends_always k s : (forall x, In x s -> k <= x) -> ends k Always s.
Proof.
  intros B. split.
  - exists []. split; [left; reflexivity|]. intros x X. split; [intros []|]. intros J. specialize (B x J). lia.
  - intros g x [<-|[]] _ [].
Qed.
Lemma ends_hi k i lo hi s : zwf (S i) lo -> zwf (S i) hi -> asc (S i) s -> i < k ->
  (ends k (Branch i lo hi) (i :: s) <-> ends k hi s).
Proof.
  intros Wl Wh S_ L. unfold ends. setoid_rewrite paths_branch. split; intros ((g & G & A) & B); split.
  - destruct G as [(g' & -> & G)|G].
    + exists g'. split; [exact G|]. apply agr_cons_inv in A; auto. eapply zwf_paths; eauto.
    + exfalso. assert (K : In i g) by (apply (A i L); left; reflexivity).
      pose proof (asc_ge _ _ _ (zwf_paths _ _ _ Wl G) K). lia.
  - intros g' x G' A' J. apply (B (i :: g') x); [left; eauto|apply agr_cons; assumption|right; exact J].
  - exists (i :: g). split; [left; eauto|apply agr_cons; assumption].
  - intros g' x [(g2 & -> & G')|G'] A' J.
    + destruct J as [->|J]; [exact L|]. apply (B g2); auto. apply agr_cons_inv in A'; auto. eapply zwf_paths; eauto.
    + exfalso. assert (K : In i g') by (apply (A' i L); left; reflexivity).
      pose proof (asc_ge _ _ _ (zwf_paths _ _ _ Wl G') K). lia.
Qed.
Lemma ends_lo k i lo hi s : zwf (S i) lo -> zwf (S i) hi -> asc (S i) s -> i < k ->
  (ends k (Branch i lo hi) s <-> ends k lo s).
Proof.
  intros Wl Wh S_ L. assert (Ns : ~ In i s) by (intros J; pose proof (asc_ge _ _ _ S_ J); lia).
  unfold ends. setoid_rewrite paths_branch. split; intros ((g & G & A) & B); split.
  - destruct G as [(g' & -> & G)|G]; [|eauto]. exfalso. apply Ns, (A i L). left; reflexivity.
  - intros g' x G' A' J. apply (B g' x); auto.
  - eauto.
  - intros g' x [(g2 & -> & G')|G'] A' J; [|eauto]. exfalso. apply Ns, (A' i L). left; reflexivity.
Qed.
Lemma ends_up n k t s : k <= n -> zwf n t -> asc n s -> ends k t s -> ends n t s.
Proof.
  intros L W S_ E. rewrite (ends_low n k t s L W S_ E). apply ends_always. intros x. apply asc_ge; assumption.
Qed.
Lemma ends_branch_low n i lo hi s k : zwf n (Branch i lo hi) -> asc i s -> ends k (Branch i lo hi) s -> i < k.
Proof.
  intros W S_ E. destruct (Nat.lt_ge_cases i k) as [|G]; [assumption|exfalso].
  assert (X : Branch i lo hi = Always); [|discriminate].
  apply (ends_low i k _ s); auto. destruct W as (_ & B & C & D). repeat split; auto.
Qed.

(** ** intersect *)
Definition int_exact (t1 t2 : node) (s : list nat) : Prop :=
  (In s (paths t1) /\ In s (paths t2)) \/
  (In s (paths t1) /\ exists k, ends k t2 s) \/ (In s (paths t2) /\ exists k, ends k t1 s).
Lemma int_exact_sym t1 t2 s : int_exact t1 t2 s -> int_exact t2 t1 s.
Proof. unfold int_exact. tauto. Qed.

(** the left top comes first: its high side is dropped *)
Lemma int_exact_skip n i lo hi t2 s : zwf n (Branch i lo hi) -> zwf (S i) t2 ->
  t2 <> Always -> (int_exact (Branch i lo hi) t2 s <-> int_exact lo t2 s).
Proof.
  intros W W2 N2. pose proof W as (A1 & A2 & A3 & A4). unfold int_exact. rewrite paths_branch.
  assert (Hi : forall s', In s' (paths hi) -> In (i :: s') (paths t2) -> False).
  { intros s' _ J. pose proof (zwf_paths _ _ _ W2 J) as X. cbn in X. lia. }
  split.
  - intros [([(s' & -> & J)|J] & K)|[([(s' & -> & J)|J] & k & K)|(J & k & K)]].
    + exfalso; eauto.
    + auto.
    + exfalso. pose proof (zwf_paths _ _ _ A4 J) as As. destruct (Nat.lt_ge_cases i k) as [L|L].
      * destruct K as ((g & G & A) & _). assert (X : In i g) by (apply (A i L); left; reflexivity).
        pose proof (asc_ge _ _ _ (zwf_paths _ _ _ W2 G) X). lia.
      * apply N2. apply (ends_low i k t2 (i :: s')); auto; [apply (zwf_mono (S i)); auto|cbn; auto].
    + right; left; eauto.
    + pose proof (zwf_paths _ _ _ W2 J) as As. right; right. split; [exact J|]. exists k.
      apply (ends_lo k i lo hi s); auto. eapply ends_branch_low; [exact W| |exact K].
      apply (asc_mono (S i)); auto.
  - intros [(J & K)|[(J & k & K)|(J & k & K)]].
    + auto.
    + right; left; eauto.
    + pose proof (zwf_paths _ _ _ W2 J) as As. right; right. split; [exact J|].
      destruct (Nat.lt_ge_cases i k) as [L|L].
      * exists k. apply ends_lo; auto.
      * exists (S i). apply ends_lo; auto. apply (ends_up (S i) k); auto.
Qed.

(** both tops the same *)
Lemma int_exact_same n i lo hi lo2 hi2 s : zwf n (Branch i lo hi) -> zwf n (Branch i lo2 hi2) ->
  (int_exact (Branch i lo hi) (Branch i lo2 hi2) s <->
   (exists s', s = i :: s' /\ int_exact hi hi2 s') \/ int_exact lo lo2 s).
Proof.
  intros W W2. pose proof W as (A1 & A2 & A3 & A4). pose proof W2 as (B1 & B2 & B3 & B4).
  unfold int_exact. rewrite !paths_branch.
  assert (Up : forall t k s', zwf (S i) t -> asc (S i) s' -> ends k t s' -> exists k', i < k' /\ ends k' t s').
  { intros t k s' Wt As E. destruct (Nat.lt_ge_cases i k); [eauto|]. exists (S i). split; [lia|]. apply (ends_up (S i) k); auto. }
  split.
  - intros [([(s' & -> & J)|J] & K)|[([(s' & -> & J)|J] & k & K)|([(s' & -> & J)|J] & k & K)]].
    + destruct K as [(s2 & X & K)|K]; [injection X as <-; left; exists s'; auto|].
      pose proof (zwf_paths _ _ _ B3 K) as X. cbn in X. lia.
    + destruct K as [(s2 & -> & K)|K]; [|auto]. pose proof (zwf_paths _ _ _ A3 J) as X. cbn in X. lia.
    + left. exists s'. split; [reflexivity|]. right; left. split; [exact J|]. exists k.
      pose proof (zwf_paths _ _ _ A4 J). apply (ends_hi k i lo2 hi2); auto.
      eapply ends_branch_low; [exact W2| |exact K]. cbn; auto.
    + right. right; left. split; [exact J|]. exists k. pose proof (zwf_paths _ _ _ A3 J).
      apply (ends_lo k i lo2 hi2); auto. eapply ends_branch_low; [exact W2| |exact K]. apply (asc_mono (S i)); auto.
    + left. exists s'. split; [reflexivity|]. right; right. split; [exact J|]. exists k.
      pose proof (zwf_paths _ _ _ B4 J). apply (ends_hi k i lo hi); auto.
      eapply ends_branch_low; [exact W| |exact K]. cbn; auto.
    + right. right; right. split; [exact J|]. exists k. pose proof (zwf_paths _ _ _ B3 J).
      apply (ends_lo k i lo hi); auto. eapply ends_branch_low; [exact W| |exact K]. apply (asc_mono (S i)); auto.
  - intros [(s' & -> & [(J & K)|[(J & k & K)|(J & k & K)]])|[(J & K)|[(J & k & K)|(J & k & K)]]].
    + left. split; left; eauto.
    + right; left. split; [left; eauto|]. pose proof (zwf_paths _ _ _ A4 J) as As.
      destruct (Up _ _ _ B4 As K) as (k' & L & K'). exists k'. apply ends_hi; auto.
    + right; right. split; [left; eauto|]. pose proof (zwf_paths _ _ _ B4 J) as As.
      destruct (Up _ _ _ A4 As K) as (k' & L & K'). exists k'. apply ends_hi; auto.
    + left. auto.
    + right; left. split; [auto|]. pose proof (zwf_paths _ _ _ A3 J) as As.
      destruct (Up _ _ _ B3 As K) as (k' & L & K'). exists k'. apply ends_lo; auto.
    + right; right. split; [auto|]. pose proof (zwf_paths _ _ _ B3 J) as As.
      destruct (Up _ _ _ A3 As K) as (k' & L & K'). exists k'. apply ends_lo; auto.
Qed.
Lemma ends_nil k t : ends k t [] -> In [] (paths t).
Proof.
  intros ((g & G & A) & B). destruct g as [|x g]; [exact G|].
  exfalso. assert (L : x < k) by (apply (B (x :: g) x G A); left; reflexivity).
  apply (A x L). left; reflexivity.
Qed.
Lemma int_exact_always t s : int_exact t Always s <-> In s (paths t).
Proof.
  unfold int_exact. split; [|intros J; right; left; split; [exact J|]; exists 0; apply ends_always; lia].
  intros [(J & _)|[(J & _)|(J & k & K)]]; try exact J. destruct J as [<-|[]]. apply (ends_nil k); exact K.
Qed.
Lemma int_exact_never t s : ~ int_exact t Never s.
Proof.
  unfold int_exact. intros [(_ & [])|[(_ & k & (g & [] & _) & _)|([] & _)]].
Qed.
Lemma int_exact_diag t s : int_exact t t s <-> In s (paths t).
Proof. unfold int_exact. tauto. Qed.

Lemma intersect_exact t1 : forall t2 n, zwf n t1 -> zwf n t2 ->
  exists r, intersect t1 t2 = Some r /\ zwf n r /\ forall s, In s (paths r) <-> int_exact t1 t2 s.
Proof.
  induction t1 as [b|i lo IHl hi IHh]; intros t2 n W1; revert n W1.
  - destruct t2 as [c|j lo2 hi2]; intros n W1 W2; rewrite intersect_unfold.
    + destruct b, c; simpl; eexists; (split; [reflexivity|]); (split; [exact I|]); intros s.
      * symmetry; apply int_exact_diag.
      * split; [intros []|]. apply int_exact_never.
      * split; [intros []|]. intros X. apply int_exact_sym in X. apply int_exact_never in X. destruct X.
      * symmetry; apply int_exact_diag.
    + cbn [dd_eqb]. destruct b; eexists; (split; [reflexivity|]).
      * split; [exact W2|]. intros s. rewrite <- int_exact_always. split; apply int_exact_sym.
      * split; [exact I|]. intros s. split; [intros []|]. intros X. apply int_exact_sym in X. apply int_exact_never in X. destruct X.
  - induction t2 as [c|j lo2 IHl2 hi2 _]; intros n W1 W2; rewrite intersect_unfold.
    + cbn [dd_eqb]. destruct c; eexists; (split; [reflexivity|]).
      * split; [exact W1|]. intros s. symmetry. apply int_exact_always.
      * split; [exact I|]. intros s. split; [intros []|]. apply int_exact_never.
    + destruct (dd_eqb_spec (Branch i lo hi) (Branch j lo2 hi2)) as [<-|NE].
      { eexists; split; [reflexivity|]. split; [exact W1|]. intros s. symmetry. apply int_exact_diag. }
      pose proof W1 as W10. pose proof W2 as W20.
      destruct W1 as (A1 & A2 & A3 & A4). destruct W2 as (B1 & B2 & B3 & B4).
      destruct (Nat.ltb_spec i j) as [L|L]; [|destruct (Nat.ltb_spec j i) as [L'|L']].
      * destruct (IHl (Branch j lo2 hi2) (S i) A3) as (r & E & Wr & P); [simpl; auto|].
        exists r. split; [exact E|]. split; [apply (zwf_mono (S i)); auto; lia|].
        intros s. rewrite P. symmetry. apply (int_exact_skip n); auto; [simpl; auto|discriminate].
      * destruct (IHl2 (S j)) as (r & E & Wr & P); [simpl; auto|exact B3|].
        exists r. split; [exact E|]. split; [apply (zwf_mono (S j)); auto; lia|].
        intros s. rewrite P. split; intros X; apply int_exact_sym in X; apply int_exact_sym.
        -- apply (int_exact_skip n); auto; [simpl; auto|discriminate].
        -- apply (int_exact_skip n) in X; auto; [simpl; auto|discriminate].
      * assert (i = j) as -> by lia.
        destruct (IHl lo2 (S j) A3 B3) as (r & E & Wr & P).
        destruct (IHh hi2 (S j) A4 B4) as (r' & E' & Wr' & P').
        rewrite E. cbn [bind]. rewrite E'. cbn [bind]. rewrite branch_direct by assumption.
        eexists; split; [reflexivity|]. split; [apply zmk_wf; auto|].
        intros s. rewrite zmk_paths, (int_exact_same n) by assumption. rewrite P. setoid_rewrite P'. tauto.
Qed.

(** ** product: all unions, except that where the two remaining families have
    become the same only the pairs that go on identically are taken *)
Definition req (k : nat) (t1 : node) (a : list nat) (t2 : node) (b : list nat) : Prop :=
  (forall g, In g (paths t1) -> agr k g a -> exists g', In g' (paths t2) /\ agr k g' b /\ aft k g g') /\
  (forall g, In g (paths t2) -> agr k g b -> exists g', In g' (paths t1) /\ agr k g' a /\ aft k g g').
Definition pair_ok (t1 t2 : node) (a b : list nat) : Prop :=
  forall k, req k t1 a t2 b -> aft k a b.
Lemma aft_sym k a b : aft k a b -> aft k b a.
Proof. intros A x X. symmetry. apply A; exact X. Qed.
Lemma req_sym k t1 a t2 b : req k t1 a t2 b -> req k t2 b t1 a.
Proof. unfold req. tauto. Qed.
Lemma pair_ok_sym t1 t2 a b : pair_ok t1 t2 a b <-> pair_ok t2 t1 b a.
Proof. split; intros P k R; apply aft_sym, P, req_sym, R. Qed.

(** the side of a branch that [a] follows *)
Definition side (i : nat) (a : list nat) : bool := existsb (Nat.eqb i) a.
Lemma side_spec i a : side i a = true <-> In i a.
Proof.
  unfold side. rewrite existsb_exists. split.
  - intros (x & X & E). apply Nat.eqb_eq in E. congruence.
  - intros J. exists i. split; [exact J|apply Nat.eqb_refl].
Qed.

(** [t] split off at label [i] along [a]: the child and the rest *)
Definition follows (i : nat) (t : node) (a : list nat) (c : node) (a' : list nat) : Prop :=
  zwf (S i) c /\ asc (S i) a' /\
  (forall k g, i < k -> In g (paths c) -> agr k g a' -> exists g0, In g0 (paths t) /\ agr k g0 a /\ aft k g0 g) /\
  (forall k g, i < k -> In g (paths t) -> agr k g a -> exists g0, In g0 (paths c) /\ agr k g0 a' /\ aft k g0 g) /\
  (forall k, i < k -> aft k a a').
Lemma aft_trans k a b c : aft k a b -> aft k b c -> aft k a c.
Proof. intros A B x X. rewrite (A x X). apply B; exact X. Qed.
Lemma follows_hi i lo hi a : zwf (S i) lo -> zwf (S i) hi -> In a (paths hi) -> follows i (Branch i lo hi) (i :: a) hi a.
Proof.
  intros Wl Wh J. pose proof (zwf_paths _ _ _ Wh J) as As.
  assert (AC : forall k g, i < k -> aft k (i :: g) g).
  { intros k g L x X. cbn [In]. split; [|auto]. intros [->|Y]; [lia|exact Y]. }
  split; [exact Wh|]. split; [exact As|]. split; [|split].
  - intros k g L G A. exists (i :: g). split; [apply paths_branch; left; eauto|]. split; [apply agr_cons; assumption|auto].
  - intros k g L G A. apply paths_branch in G. destruct G as [(g' & -> & G)|G].
    + exists g'. split; [exact G|]. split; [|apply aft_sym; auto]. apply agr_cons_inv in A; auto. eapply zwf_paths; eauto.
    + exfalso. assert (K : In i g) by (apply (A i L); left; reflexivity).
      pose proof (asc_ge _ _ _ (zwf_paths _ _ _ Wl G) K). lia.
  - auto.
Qed.
Lemma follows_lo i lo hi a : zwf (S i) lo -> zwf (S i) hi -> In a (paths lo) -> follows i (Branch i lo hi) a lo a.
Proof.
  intros Wl Wh J. pose proof (zwf_paths _ _ _ Wl J) as As.
  split; [exact Wl|]. split; [exact As|]. split; [|split].
  - intros k g L G A. exists g. split; [apply paths_branch; auto|]. split; [exact A|]. intros x X; tauto.
  - intros k g L G A. apply paths_branch in G. destruct G as [(g' & -> & G)|G].
    + exfalso. assert (K : In i a) by (apply (A i L); left; reflexivity). pose proof (asc_ge _ _ _ As K). lia.
    + exists g. split; [exact G|]. split; [exact A|]. intros x X; tauto.
  - intros k L x X; tauto.
Qed.
Lemma follows_id i t a : zwf (S i) t -> In a (paths t) -> follows i t a t a.
Proof.
  intros W J. pose proof (zwf_paths _ _ _ W J). split; [exact W|]. split; [assumption|]. split; [|split].
  - intros k g L G A. exists g. split; [exact G|]. split; [exact A|]. intros x X; tauto.
  - intros k g L G A. exists g. split; [exact G|]. split; [exact A|]. intros x X; tauto.
  - intros k L x X; tauto.
Qed.
Lemma req_low n k t1 t2 a b : k <= n -> zwf n t1 -> zwf n t2 -> asc n a -> asc n b ->
  req k t1 a t2 b -> t1 = t2.
Proof.
  intros L W1 W2 Aa Ab (R1 & R2). apply (canonicity n); auto.
  assert (X : forall t t' a' b', zwf n t -> zwf n t' -> asc n a' -> asc n b' ->
     (forall g, In g (paths t) -> agr k g a' -> exists g', In g' (paths t') /\ agr k g' b' /\ aft k g g') ->
     forall s, In s (paths t) -> In s (paths t')).
  { intros t t' a' b' W W' A' B' R s J. pose proof (zwf_paths _ _ _ W J) as As.
    destruct (R s J) as (g & G & _ & Af); [apply (agr_low n); auto|].
    pose proof (zwf_paths _ _ _ W' G) as Ag. assert (s = g) as ->; [|exact G].
    apply (asc_ext n n); auto. intros x. destruct (Nat.lt_ge_cases x n) as [Lx|Lx].
    - split; intros K; [pose proof (asc_ge _ _ _ As K)|pose proof (asc_ge _ _ _ Ag K)]; lia.
    - apply Af. lia. }
  intros s. split; [apply (X t1 t2 a b)|apply (X t2 t1 b a)]; auto.
Qed.
Lemma aft_low n k a b : asc n a -> asc n b -> aft n a b -> aft k a b.
Proof.
  intros A B F x X. destruct (Nat.lt_ge_cases x n) as [L|L]; [|apply F; exact L].
  split; intros K; [pose proof (asc_ge _ _ _ A K)|pose proof (asc_ge _ _ _ B K)]; lia.
Qed.
Lemma pair_ok_follows n i t1 t2 a b c1 c2 a' b' :
  zwf n t1 -> zwf n t2 -> In a (paths t1) -> In b (paths t2) -> n <= i ->
  zwf i t1 -> zwf i t2 -> t1 <> t2 ->
  follows i t1 a c1 a' -> follows i t2 b c2 b' ->
  (pair_ok t1 t2 a b <-> pair_ok c1 c2 a' b').
Proof.
  intros W1 W2 Ja Jb Ln V1 V2 NE (Wc1 & A1 & F1 & G1 & T1) (Wc2 & A2 & F2 & G2 & T2).
  pose proof (zwf_paths _ _ _ V1 Ja) as Asa. pose proof (zwf_paths _ _ _ V2 Jb) as Asb.
  assert (RE : forall k, i < k -> (req k t1 a t2 b <-> req k c1 a' c2 b')).
  { intros k L. unfold req. split.
    - intros (R1 & R2). split.
      + intros g G A. destruct (F1 k g L G A) as (g0 & H1 & H2 & H3).
        destruct (R1 g0 H1 H2) as (g1 & K1 & K2 & K3). destruct (G2 k g1 L K1 K2) as (g2 & M1 & M2 & M3).
        exists g2. split; [exact M1|]. split; [exact M2|].
        eapply aft_trans; [apply aft_sym; exact H3|]. eapply aft_trans; [exact K3|apply aft_sym; exact M3].
      + intros g G A. destruct (F2 k g L G A) as (g0 & H1 & H2 & H3).
        destruct (R2 g0 H1 H2) as (g1 & K1 & K2 & K3). destruct (G1 k g1 L K1 K2) as (g2 & M1 & M2 & M3).
        exists g2. split; [exact M1|]. split; [exact M2|].
        eapply aft_trans; [apply aft_sym; exact H3|]. eapply aft_trans; [exact K3|apply aft_sym; exact M3].
    - intros (R1 & R2). split.
      + intros g G A. destruct (G1 k g L G A) as (g0 & H1 & H2 & H3).
        destruct (R1 g0 H1 H2) as (g1 & K1 & K2 & K3). destruct (F2 k g1 L K1 K2) as (g2 & M1 & M2 & M3).
        exists g2. split; [exact M1|]. split; [exact M2|].
        eapply aft_trans; [apply aft_sym; exact H3|]. eapply aft_trans; [exact K3|apply aft_sym; exact M3].
      + intros g G A. destruct (G2 k g L G A) as (g0 & H1 & H2 & H3).
        destruct (R2 g0 H1 H2) as (g1 & K1 & K2 & K3). destruct (F1 k g1 L K1 K2) as (g2 & M1 & M2 & M3).
        exists g2. split; [exact M1|]. split; [exact M2|].
        eapply aft_trans; [apply aft_sym; exact H3|]. eapply aft_trans; [exact K3|apply aft_sym; exact M3]. }
  split; intros P k R.
  - destruct (Nat.lt_ge_cases i k) as [L|L].
    + apply RE in R; auto. specialize (P k R). eapply aft_trans; [apply aft_sym, T1; exact L|].
      eapply aft_trans; [exact P|apply T2; exact L].
    + (* the children are the same *)
      assert (c1 = c2) by (apply (req_low (S i) k c1 c2 a' b'); auto). subst c2.
      apply (aft_low (S i)); auto.
      assert (R' : req (S i) c1 a' c1 b').
      { split; intros g G A; exists g; (split; [exact G|]); split; try (apply (agr_low (S i)); auto; eapply zwf_paths; eauto); intros x X; tauto. }
      assert (P' := P (S i)). rewrite RE in P' by lia. specialize (P' R').
      eapply aft_trans; [apply aft_sym, T1; lia|]. eapply aft_trans; [exact P'|apply T2; lia].
  - destruct (Nat.lt_ge_cases i k) as [L|L].
    + apply RE in R; auto. specialize (P k R). eapply aft_trans; [apply T1; exact L|].
      eapply aft_trans; [exact P|apply aft_sym, T2; exact L].
    + exfalso. apply NE. apply (req_low i k t1 t2 a b); auto.
Qed.

Definition prod_exact (t1 t2 : node) (s : list nat) : Prop :=
  exists a b, In a (paths t1) /\ In b (paths t2) /\ is_join a b s /\ pair_ok t1 t2 a b.
Lemma prod_exact_sym t1 t2 s : prod_exact t1 t2 s -> prod_exact t2 t1 s.
Proof. intros (a & b & A & B & J & P). exists b, a. split; [exact B|]. split; [exact A|]. split; [apply is_join_sym; exact J|apply pair_ok_sym; exact P]. Qed.
Lemma prod_exact_diag n t s : zwf n t -> asc n s -> (prod_exact t t s <-> In s (paths t)).
Proof.
  intros W As. split.
  - intros (a & b & A & B & J & P).
    assert (E : aft 0 a b).
    { apply P. split; intros g G _; exists g; (split; [exact G|]); split; intros x X; try lia; tauto. }
    assert (s = a) as ->; [|exact A]. apply (asc_ext n n); auto; [eapply zwf_paths; eauto|].
    intros x. rewrite (J x), (E x) by lia. tauto.
  - intros J. exists s, s. split; [exact J|]. split; [exact J|]. split; [intros x; tauto|]. intros k _ x X. tauto.
Qed.
Lemma prod_exact_always n t s : zwf n t -> asc n s -> (prod_exact t Always s <-> In s (paths t)).
Proof.
  intros W As. split.
  - intros (a & b & A & [<-|[]] & J & _). assert (s = a) as ->; [|exact A].
    apply (asc_ext n n); auto; [eapply zwf_paths; eauto|]. intros x. rewrite (J x). cbn. tauto.
  - intros J. exists s, []. split; [exact J|]. split; [left; reflexivity|]. split; [intros x; cbn; tauto|].
    intros k (R & _). destruct (R s J) as (g' & [<-|[]] & _ & F); [intros x X; tauto|exact F].
Qed.
Lemma prod_exact_never t s : ~ prod_exact t Never s.
Proof. intros (a & b & _ & [] & _). Qed.
Lemma prod_exact_skip n i lo hi t2 s : zwf n (Branch i lo hi) -> zwf (S i) t2 -> asc n s ->
  (prod_exact (Branch i lo hi) t2 s <-> (exists s', s = i :: s' /\ asc (S i) s' /\ prod_exact hi t2 s') \/ (asc (S i) s /\ prod_exact lo t2 s)).
Proof.
  intros W W2 As. pose proof W as (A1 & A2 & A3 & A4).
  assert (V2 : zwf i t2) by (apply (zwf_mono (S i)); auto).
  assert (V1 : zwf i (Branch i lo hi)) by (repeat split; auto).
  assert (V2n : zwf n t2) by (apply (zwf_mono (S i)); auto; lia).
  assert (NE : Branch i lo hi <> t2) by (intros <-; cbn in W2; lia).
  split.
  - intros (a & b & A & B & J & P). pose proof A as A0. apply paths_branch in A. destruct A as [(a' & -> & A)|A].
    + left. pose proof (zwf_paths _ _ _ A4 A) as Ha. pose proof (zwf_paths _ _ _ W2 B) as Hb.
      assert (Is : In i s) by (apply (J i); left; left; reflexivity).
      destruct s as [|z s]; [destruct Is|]. cbn in As. destruct As as (L & As).
      assert (z = i) as ->.
      { assert (X : z = i \/ In z a' \/ In z b).
        { destruct (proj1 (J z) (or_introl eq_refl)) as [[X|X]|X]; auto. }
        destruct Is as [X'|X']; [exact X'|]. pose proof (asc_ge _ _ _ As X').
        destruct X as [X|[X|X]]; [exact X| |]; [pose proof (asc_ge _ _ _ Ha X)|pose proof (asc_ge _ _ _ Hb X)]; lia. }
      exists s. split; [reflexivity|]. split; [exact As|]. exists a', b. split; [exact A|]. split; [exact B|]. split.
      * intros x. specialize (J x). cbn [In] in J. split.
        -- intros X. pose proof (asc_ge _ _ _ As X). destruct (proj1 J (or_intror X)) as [[->|Y]|Y]; [lia|auto|auto].
        -- intros [X|X].
           ++ pose proof (asc_ge _ _ _ Ha X). destruct (proj2 J) as [->|Y]; [auto|lia|exact Y].
           ++ pose proof (asc_ge _ _ _ Hb X). destruct (proj2 J) as [->|Y]; [auto|lia|exact Y].
      * apply (pair_ok_follows n i (Branch i lo hi) t2 (i :: a') b); auto; [apply follows_hi; auto|apply follows_id; auto].
    + right. pose proof (zwf_paths _ _ _ A3 A) as Ha. pose proof (zwf_paths _ _ _ W2 B) as Hb. split.
      * destruct s as [|z s]; [exact I|]. cbn in As |- *. destruct As as (L & As). split; [|exact As].
        destruct (proj1 (J z) (or_introl eq_refl)) as [X|X]; [exact (asc_ge _ _ _ Ha X)|exact (asc_ge _ _ _ Hb X)].
      * exists a, b. split; [exact A|]. split; [exact B|]. split; [exact J|].
        apply (pair_ok_follows n i (Branch i lo hi) t2 a b); auto; [apply follows_lo; auto|apply follows_id; auto].
  - intros [(s' & -> & As' & a & b & A & B & J & P)|(As' & a & b & A & B & J & P)].
    + exists (i :: a), b. split; [apply paths_branch; left; eauto|]. split; [exact B|]. split; [apply is_join_consl; exact J|].
      apply (pair_ok_follows n i _ _ _ _ hi t2 a b); auto; [apply paths_branch; left; eauto|apply follows_hi; auto|apply follows_id; auto].
    + exists a, b. split; [apply paths_branch; auto|]. split; [exact B|]. split; [exact J|].
      apply (pair_ok_follows n i _ _ _ _ lo t2 a b); auto; [apply paths_branch; auto|apply follows_lo; auto|apply follows_id; auto].
Qed.

Lemma join_cons_inv i s a b a0 b0 : asc (S i) s -> asc (S i) a0 -> asc (S i) b0 ->
  (forall x, In x a <-> In x a0 \/ (In i a /\ x = i)) -> (forall x, In x b <-> In x b0 \/ (In i b /\ x = i)) ->
  is_join a b (i :: s) -> is_join a0 b0 s.
Proof.
  intros As Aa Ab Ea Eb J x. specialize (J x). rewrite Ea, Eb in J. cbn [In] in J. split.
  - intros X. pose proof (asc_ge _ _ _ As X). destruct (proj1 J (or_intror X)) as [[Y|(_ & ->)]|[Y|(_ & ->)]]; auto; lia.
  - intros [X|X].
    + pose proof (asc_ge _ _ _ Aa X). destruct (proj2 J) as [->|Y]; [auto|lia|exact Y].
    + pose proof (asc_ge _ _ _ Ab X). destruct (proj2 J) as [->|Y]; [auto|lia|exact Y].
Qed.
Lemma join_head n i s a b : asc n s -> is_join a b s -> (forall x, In x a -> i <= x) -> (forall x, In x b -> i <= x) ->
  (In i a \/ In i b -> exists s', s = i :: s' /\ asc (S i) s') /\ (~ In i a -> ~ In i b -> asc (S i) s).
Proof.
  intros As J La Lb. split.
  - intros Ii. apply J in Ii. destruct s as [|z s]; [destruct Ii|]. destruct As as (L & As).
    assert (i <= z) by (destruct (proj1 (J z) (or_introl eq_refl)); auto).
    destruct Ii as [->|Ii]; [eauto|]. pose proof (asc_ge _ _ _ As Ii). lia.
  - intros Na Nb. destruct s as [|z s]; [exact I|]. destruct As as (L & As). split; [|exact As].
    destruct (proj1 (J z) (or_introl eq_refl)) as [X|X]; [assert (i <= z) by auto|assert (i <= z) by auto];
      (destruct (Nat.eq_dec i z) as [->|]; [contradiction|lia]).
Qed.
Lemma prod_exact_same n i lo hi lo2 hi2 s : zwf n (Branch i lo hi) -> zwf n (Branch i lo2 hi2) ->
  Branch i lo hi <> Branch i lo2 hi2 -> asc n s ->
  (prod_exact (Branch i lo hi) (Branch i lo2 hi2) s <->
   (exists s', s = i :: s' /\ asc (S i) s' /\ (prod_exact lo hi2 s' \/ prod_exact hi lo2 s' \/ prod_exact hi hi2 s')) \/
   (asc (S i) s /\ prod_exact lo lo2 s)).
Proof.
  intros W W2 NE As. pose proof W as (A1 & A2 & A3 & A4). pose proof W2 as (B1 & B2 & B3 & B4).
  assert (V1 : zwf i (Branch i lo hi)) by (repeat split; auto).
  assert (V2 : zwf i (Branch i lo2 hi2)) by (repeat split; auto).
  split.
  - intros (a & b & A & B & J & P). pose proof A as A0. pose proof B as B0.
    pose proof (zwf_paths _ _ _ V1 A0) as Ha. pose proof (zwf_paths _ _ _ V2 B0) as Hb.
    destruct (join_head n i s a b As J (fun x => asc_ge _ _ _ Ha) (fun x => asc_ge _ _ _ Hb)) as (J1 & J2).
    apply paths_branch in A. apply paths_branch in B.
    assert (Ei : forall c, asc (S i) c -> forall x, In x (i :: c) <-> In x c \/ (In i (i :: c) /\ x = i)).
    { intros c Hc x. cbn [In]. intuition. }
    assert (En : forall c, asc (S i) c -> forall x, In x c <-> In x c \/ (In i c /\ x = i)).
    { intros c Hc x. split; [auto|]. intros [X|(X & ->)]; exact X. }
    destruct A as [(a' & -> & A)|A]; destruct B as [(b' & -> & B)|B].
    + pose proof (zwf_paths _ _ _ A4 A) as Ha'. pose proof (zwf_paths _ _ _ B4 B) as Hb'.
      destruct J1 as (s' & -> & As'); [left; left; reflexivity|].
      left. exists s'. split; [reflexivity|]. split; [exact As'|]. right; right. exists a', b'.
      split; [exact A|]. split; [exact B|]. split; [eapply join_cons_inv; [exact As'|exact Ha'|exact Hb'|apply Ei; exact Ha'|apply Ei; exact Hb'|exact J]|].
      apply (pair_ok_follows n i _ _ _ _ hi hi2 a' b') in P; auto; apply follows_hi; auto.
    + pose proof (zwf_paths _ _ _ A4 A) as Ha'. pose proof (zwf_paths _ _ _ B3 B) as Hb'.
      destruct J1 as (s' & -> & As'); [left; left; reflexivity|].
      left. exists s'. split; [reflexivity|]. split; [exact As'|]. right; left. exists a', b.
      split; [exact A|]. split; [exact B|]. split; [eapply join_cons_inv; [exact As'|exact Ha'|exact Hb'|apply Ei; exact Ha'|apply En; exact Hb'|exact J]|].
      apply (pair_ok_follows n i _ _ _ _ hi lo2 a' b) in P; auto; [apply follows_hi; auto|apply follows_lo; auto].
    + pose proof (zwf_paths _ _ _ A3 A) as Ha'. pose proof (zwf_paths _ _ _ B4 B) as Hb'.
      destruct J1 as (s' & -> & As'); [right; left; reflexivity|].
      left. exists s'. split; [reflexivity|]. split; [exact As'|]. left. exists a, b'.
      split; [exact A|]. split; [exact B|]. split; [eapply join_cons_inv; [exact As'|exact Ha'|exact Hb'|apply En; exact Ha'|apply Ei; exact Hb'|exact J]|].
      apply (pair_ok_follows n i _ _ _ _ lo hi2 a b') in P; auto; [apply follows_lo; auto|apply follows_hi; auto].
    + pose proof (zwf_paths _ _ _ A3 A) as Ha'. pose proof (zwf_paths _ _ _ B3 B) as Hb'.
      right. split; [apply J2; intros X; [pose proof (asc_ge _ _ _ Ha' X)|pose proof (asc_ge _ _ _ Hb' X)]; lia|].
      exists a, b. split; [exact A|]. split; [exact B|]. split; [exact J|].
      apply (pair_ok_follows n i _ _ _ _ lo lo2 a b) in P; auto; apply follows_lo; auto.
  - intros [(s' & -> & As' & [(a & b & A & B & J & P)|[(a & b & A & B & J & P)|(a & b & A & B & J & P)]])|(As' & a & b & A & B & J & P)].
    + assert (Pa : In a (paths (Branch i lo hi))) by (apply paths_branch; auto).
      assert (Pb : In (i :: b) (paths (Branch i lo2 hi2))) by (apply paths_branch; left; eauto).
      exists a, (i :: b). split; [exact Pa|]. split; [exact Pb|]. split; [apply is_join_consr; exact J|].
      apply (pair_ok_follows n i _ _ _ _ lo hi2 a b); auto; [apply follows_lo; auto|apply follows_hi; auto].
    + assert (Pa : In (i :: a) (paths (Branch i lo hi))) by (apply paths_branch; left; eauto).
      assert (Pb : In b (paths (Branch i lo2 hi2))) by (apply paths_branch; auto).
      exists (i :: a), b. split; [exact Pa|]. split; [exact Pb|]. split; [apply is_join_consl; exact J|].
      apply (pair_ok_follows n i _ _ _ _ hi lo2 a b); auto; [apply follows_hi; auto|apply follows_lo; auto].
    + assert (Pa : In (i :: a) (paths (Branch i lo hi))) by (apply paths_branch; left; eauto).
      assert (Pb : In (i :: b) (paths (Branch i lo2 hi2))) by (apply paths_branch; left; eauto).
      exists (i :: a), (i :: b). split; [exact Pa|]. split; [exact Pb|]. split; [apply is_join_cons2; exact J|].
      apply (pair_ok_follows n i _ _ _ _ hi hi2 a b); auto; apply follows_hi; auto.
    + assert (Pa : In a (paths (Branch i lo hi))) by (apply paths_branch; auto).
      assert (Pb : In b (paths (Branch i lo2 hi2))) by (apply paths_branch; auto).
      exists a, b. split; [exact Pa|]. split; [exact Pb|]. split; [exact J|].
      apply (pair_ok_follows n i _ _ _ _ lo lo2 a b); auto; apply follows_lo; auto.
Qed.

Lemma product_exact t1 : forall t2 n, zwf n t1 -> zwf n t2 ->
  exists r, product t1 t2 = Some r /\ zwf n r /\ forall s, asc n s -> (In s (paths r) <-> prod_exact t1 t2 s).
Proof.
  induction t1 as [b|i lo IHl hi IHh]; intros t2 n W1; revert n W1.
  - destruct t2 as [c|j lo2 hi2]; intros n W1 W2; rewrite product_unfold.
    + destruct b, c; simpl; eexists; (split; [reflexivity|]); (split; [exact I|]); intros s As.
      * symmetry; apply (prod_exact_diag n); auto.
      * split; [intros []|]. apply prod_exact_never.
      * split; [intros []|]. intros X. apply prod_exact_sym in X. apply prod_exact_never in X. destruct X.
      * symmetry; apply (prod_exact_diag n); auto.
    + cbn [dd_eqb]. destruct b; eexists; (split; [reflexivity|]).
      * split; [exact W2|]. intros s As. rewrite <- (prod_exact_always n) by assumption. split; apply prod_exact_sym.
      * split; [exact I|]. intros s As. split; [intros []|]. intros X. apply prod_exact_sym in X. apply prod_exact_never in X. destruct X.
  - induction t2 as [c|j lo2 IHl2 hi2 IHh2]; intros n W1 W2; rewrite product_unfold.
    + cbn [dd_eqb]. destruct c; eexists; (split; [reflexivity|]).
      * split; [exact W1|]. intros s As. symmetry. apply (prod_exact_always n); auto.
      * split; [exact I|]. intros s As. split; [intros []|]. apply prod_exact_never.
    + destruct (dd_eqb_spec (Branch i lo hi) (Branch j lo2 hi2)) as [<-|NE].
      { eexists; split; [reflexivity|]. split; [exact W1|]. intros s As. symmetry. apply (prod_exact_diag n); auto. }
      pose proof W1 as W10. pose proof W2 as W20.
      destruct W1 as (A1 & A2 & A3 & A4). destruct W2 as (B1 & B2 & B3 & B4).
      assert (Z : forall k lo' hi' (P Q : list nat -> Prop) s, n <= k -> asc n s -> zwf (S k) lo' -> zwf (S k) hi' ->
        (forall s', asc (S k) s' -> (In s' (paths hi') <-> P s')) -> (forall s', asc (S k) s' -> (In s' (paths lo') <-> Q s')) ->
        (In s (paths (zmk k lo' hi')) <-> (exists s', s = k :: s' /\ asc (S k) s' /\ P s') \/ (asc (S k) s /\ Q s))).
      { intros k lo' hi' P Q s L As Wl Wh HP HQ. rewrite zmk_paths. split.
        - intros [(s' & -> & J)|J].
          + left. exists s'. pose proof (zwf_paths _ _ _ Wh J). split; [reflexivity|]. split; [assumption|]. apply HP; assumption.
          + right. pose proof (zwf_paths _ _ _ Wl J). split; [assumption|]. apply HQ; assumption.
        - intros [(s' & -> & A' & J)|(A' & J)]; [left; exists s'; split; [reflexivity|]; apply HP; assumption|right; apply HQ; assumption]. }
      destruct (Nat.ltb_spec i j) as [L|L]; [|destruct (Nat.ltb_spec j i) as [L'|L']].
      * destruct (IHl (Branch j lo2 hi2) (S i) A3) as (r & E & Wr & P); [simpl; auto|].
        destruct (IHh (Branch j lo2 hi2) (S i) A4) as (r' & E' & Wr' & P'); [simpl; auto|].
        rewrite E. cbn [bind]. rewrite E'. cbn [bind]. rewrite branch_direct by assumption.
        eexists; split; [reflexivity|]. split; [apply zmk_wf; auto|]. intros s As.
        rewrite (prod_exact_skip n) by (auto; simpl; auto). apply Z; auto.
      * destruct (IHl2 (S j)) as (r & E & Wr & P); [simpl; auto|exact B3|].
        destruct (IHh2 (S j)) as (r' & E' & Wr' & P'); [simpl; auto|exact B4|].
        rewrite E. cbn [bind]. rewrite E'. cbn [bind]. rewrite branch_direct by assumption.
        eexists; split; [reflexivity|]. split; [apply zmk_wf; auto|]. intros s As.
        assert (SK : prod_exact (Branch i lo hi) (Branch j lo2 hi2) s <->
          (exists s', s = j :: s' /\ asc (S j) s' /\ prod_exact (Branch i lo hi) hi2 s') \/ (asc (S j) s /\ prod_exact (Branch i lo hi) lo2 s)).
        { assert (SY : forall t1 t2 s0, prod_exact t1 t2 s0 <-> prod_exact t2 t1 s0) by (split; apply prod_exact_sym).
          rewrite SY, (prod_exact_skip n) by (auto; simpl; auto). rewrite (SY lo2). setoid_rewrite (SY hi2). tauto. }
        rewrite SK. apply Z; auto.
      * assert (i = j) as -> by lia.
        destruct (IHl lo2 (S j) A3 B3) as (ll & Ell & Wll & Pll).
        destruct (IHl hi2 (S j) A3 B4) as (lh & Elh & Wlh & Plh).
        destruct (IHh lo2 (S j) A4 B3) as (hl & Ehl & Whl & Phl).
        destruct (IHh hi2 (S j) A4 B4) as (hh & Ehh & Whh & Phh).
        rewrite Ell. cbn [bind]. rewrite Elh. cbn [bind]. rewrite Ehl. cbn [bind]. rewrite Ehh. cbn [bind].
        destruct (union_spec hl hh (S j) Whl Whh) as (nh & Enh & Wnh & Pnh). rewrite Enh. cbn [bind].
        destruct (union_spec lh nh (S j) Wlh Wnh) as (hi' & Ehi & Whi & Phi). rewrite Ehi. cbn [bind].
        rewrite branch_direct by assumption.
        eexists; split; [reflexivity|]. split; [apply zmk_wf; auto|]. intros s As.
        rewrite (prod_exact_same n) by auto. apply Z; auto.
        intros s' As'. rewrite Phi, Pnh, Plh, Phl, Phh by assumption. tauto.
Qed.

(** ** what Node::branch keeps in every case, re-ordered or not: at most as many
    paths as went in, none only if none went in, and the empty path only from [low] *)
Definition kept (lo hi r : node) : Prop :=
  length (paths r) <= length (paths lo) + length (paths hi) /\
  (r = Never -> lo = Never /\ hi = Never) /\
  (In [] (paths r) -> In [] (paths lo)).
Lemma len_branch (i : nat) lo hi : length (paths (Branch i lo hi)) = length (paths lo) + length (paths hi).
Proof. cbn [paths]. rewrite app_length, map_length. lia. Qed.
Lemma kept_zmk i lo hi : kept lo hi (zmk i lo hi).
Proof.
  unfold kept. destruct (dd_eqb_spec hi Never) as [->|N].
  - cbn [zmk]. split; [lia|]. split; [auto|auto].
  - assert (E : zmk i lo hi = Branch i lo hi) by (destruct hi as [[]|]; [reflexivity|congruence|reflexivity]).
    rewrite E, len_branch. split; [lia|]. split; [discriminate|]. rewrite paths_branch. intros [(s & X & _)|X]; [discriminate|exact X].
Qed.
Lemma kept_ins_lo i lo hi : hi <> Never -> kept lo hi (ins_lo i lo hi).
Proof.
  intros N. induction lo as [b|l ll IHl lh _].
  - cbn [ins_lo]. unfold kept. rewrite len_branch. split; [lia|]. split; [discriminate|].
    rewrite paths_branch. intros [(s & X & _)|X]; [discriminate|exact X].
  - cbn [ins_lo]. destruct (l <? i); [|destruct (l =? i)].
    + destruct IHl as (H1 & H2 & H3). unfold kept. rewrite !len_branch. split; [lia|]. split; [discriminate|].
      rewrite !paths_branch. intros [(s & X & _)|X]; [discriminate|]. right. auto.
    + unfold kept. rewrite !len_branch. split; [lia|]. split; [discriminate|].
      rewrite !paths_branch. intros [(s & X & _)|X]; [discriminate|]. right. auto.
    + unfold kept. rewrite !len_branch. split; [lia|]. split; [discriminate|].
      rewrite !paths_branch. intros [(s & X & _)|X]; [discriminate|]. exact X.
Qed.
Lemma branch_f_kept k : forall n id lo hi r, n <= id -> zwf n lo -> zwf n hi ->
  branch_f k id lo hi = Some r -> kept lo hi r.
Proof.
  induction k as [|k IH]; intros n id lo hi r L Wl Wh E; [discriminate|].
  assert (Hd : forall i0 a b r0, zwf (S i0) a -> zwf (S i0) b -> branch_f k i0 a b = Some r0 -> kept a b r0).
  { intros i0 a b r0 Wa Wb Er. apply (IH i0 i0 a b r0); auto; [apply (zwf_mono (S i0)); auto|apply (zwf_mono (S i0)); auto]. }
  assert (Tot : forall i0 a b x, branch_f k i0 a b = Some x -> forall m, m <= i0 -> zwf m a -> zwf m b -> zwf m x).
  { intros i0 a b x Ex m Lm Wa Wb. destruct (branch_total m i0 a b Lm Wa Wb) as (x' & Ex' & Wx & _).
    assert (x = x'); [|subst; exact Wx].
    unfold branch in Ex'. destruct (Nat.le_ge_cases k (size a + size b + 3)) as [G|G].
    - apply (branch_f_mono k) with (k' := size a + size b + 3) in Ex; [congruence|exact G].
    - apply (branch_f_mono _ k) in Ex'; [congruence|exact G]. }
  destruct hi as [[]|h hl hh].
  - destruct lo as [b|l ll lh]; cbn [branch_f] in E.
    + injection E as <-. exact (kept_zmk id (Leaf b) Always).
    + destruct Wl as (A1 & A2 & A3 & A4). destruct (Nat.ltb_spec l id).
      * apply bind_some in E. destruct E as (x & E1 & E2).
        assert (Wx : zwf (S l) x) by (apply (Tot id ll Always x E1); [lia|auto|exact I]).
        destruct (IH (S l) id ll Always x) as (H1 & H2 & H3); auto; try exact I.
        destruct (Hd l x lh r Wx A4 E2) as (K1 & K2 & K3). unfold kept. rewrite len_branch.
        split; [lia|]. split; [intros ->; destruct (K2 eq_refl) as (-> & _); destruct (H2 eq_refl); discriminate|].
        intros J. apply paths_branch. right. auto.
      * destruct (Nat.eqb_spec l id) as [->|].
        -- destruct (Hd id ll Always r) as (K1 & K2 & K3); auto; try exact I. unfold kept. rewrite len_branch.
           split; [lia|]. split; [intros ->; destruct (K2 eq_refl); discriminate|]. intros J. apply paths_branch. auto.
        -- injection E as <-. exact (kept_zmk id (Branch l ll lh) Always).
  - assert (r = lo) as -> by (cbn [branch_f] in E; destruct lo; congruence).
    unfold kept. cbn. split; [lia|auto].
  - pose proof Wh as (B1 & B2 & B3 & B4).
    assert (Hi : h < id -> (let! high' := branch_f k id hl hh in branch_f k h lo high') = Some r ->
       kept lo (Branch h hl hh) r).
    { intros Lh Er. apply bind_some in Er. destruct Er as (x & E1 & E2).
      assert (Wx : zwf (S h) x) by (apply (Tot id hl hh x E1); auto; lia).
      destruct (IH (S h) id hl hh x) as (H1 & H2 & H3); auto.
      destruct (IH n h lo x r) as (K1 & K2 & K3); auto; [apply (zwf_mono (S h)); auto; lia|].
      unfold kept. rewrite len_branch. split; [lia|]. split; [|exact K3].
      intros ->. destruct (K2 eq_refl) as (_ & ->). destruct (H2 eq_refl); contradiction. }
    destruct lo as [b|l ll lh]; cbn [branch_f] in E.
    + destruct (Nat.ltb_spec h id); [auto|]. destruct (Nat.eqb_spec h id) as [->|].
      * destruct (Hd id (Leaf b) hh r) as (K1 & K2 & K3); auto; try exact I. unfold kept. rewrite len_branch.
        split; [lia|]. split; [intros ->; destruct (K2 eq_refl); contradiction|exact K3].
      * injection E as <-. exact (kept_zmk id (Leaf b) (Branch h hl hh)).
    + pose proof Wl as (A1 & A2 & A3 & A4). destruct (Nat.ltb_spec h id) as [Lh|Lh]; cbn [andb] in E.
      * destruct (Nat.eqb_spec l h) as [->|Nlh]; [|auto].
        apply bind_some in E. destruct E as (x & E1 & E). apply bind_some in E. destruct E as (y & E2 & E3).
        assert (Wx : zwf (S h) x) by (apply (Tot id ll hl x E1); auto; lia).
        assert (Wy : zwf (S h) y) by (apply (Tot id lh hh y E2); auto; lia).
        destruct (IH (S h) id ll hl x) as (H1 & H2 & H3); auto.
        destruct (IH (S h) id lh hh y) as (H1' & H2' & H3'); auto.
        destruct (Hd h x y r Wx Wy E3) as (K1 & K2 & K3). unfold kept. rewrite !len_branch.
        split; [lia|]. split.
        -- intros ->. destruct (K2 eq_refl) as (_ & ->). destruct (H2' eq_refl); contradiction.
        -- intros J. apply paths_branch. right. auto.
      * destruct (Nat.ltb_spec l id) as [Ll|Ll].
        -- apply bind_some in E. destruct E as (x & E1 & E2).
           assert (Wh' : zwf (S l) (Branch h hl hh)) by (repeat split; auto; lia).
           assert (Wx : zwf (S l) x) by (apply (Tot id ll (Branch h hl hh) x E1); auto; lia).
           destruct (IH (S l) id ll (Branch h hl hh) x) as (H1 & H2 & H3); auto.
           destruct (Hd l x lh r Wx A4 E2) as (K1 & K2 & K3). unfold kept. rewrite len_branch.
           split; [lia|]. split; [intros ->; destruct (K2 eq_refl) as (-> & _); destruct (H2 eq_refl); discriminate|].
           intros J. apply paths_branch. right. auto.
        -- destruct (Nat.eqb_spec h id) as [->|Nh].
           ++ destruct (IH n id (Branch l ll lh) hh r) as (K1 & K2 & K3); auto; [apply (zwf_mono (S id)); auto; lia|].
              unfold kept. rewrite (len_branch id). split; [lia|].
              split; [intros ->; destruct (K2 eq_refl); contradiction|exact K3].
           ++ destruct (Nat.eqb_spec l id) as [->|Nl].
              ** destruct (IH n id ll (Branch h hl hh) r) as (K1 & K2 & K3); auto; [apply (zwf_mono (S id)); auto; lia|].
                 unfold kept. rewrite (len_branch id). split; [lia|].
                 split; [intros ->; destruct (K2 eq_refl); discriminate|]. intros J. apply paths_branch. auto.
              ** injection E as <-. exact (kept_zmk id (Branch l ll lh) (Branch h hl hh)).
Qed.
Lemma branch_kept n id lo hi r : n <= id -> zwf n lo -> zwf n hi -> branch id lo hi = Some r -> kept lo hi r.
Proof. intros L Wl Wh. apply (branch_f_kept _ n); assumption. Qed.
