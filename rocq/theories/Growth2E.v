(** Growth2E: filters and readers (see Growth2Proofs.v). *)
From Coq Require Import List Arith Lia Bool Permutation Sorted.
From Verif Require Import Base DD Spec Zdd2Model Zdd2Node Zdd2Node2 Zdd2Univ Zdd2Forest Zdd2Forest2 Zdd2Forest3 Zdd2Laws Zdd2Settle Zdd2Exact2.
From Verif Require Import ArenaModel ArenaProofs Zdd2Prog Zdd2ProgProofs Growth2Proofs Growth2B Growth2C Growth2D.
Import ListNotations.

Lemma no_tot F fuel : enough F fuel false.
Proof. intros X; discriminate X. Qed.

(** ** subset *)
Lemma res_subset_inner e t v : subset_inner t e = Some v -> forall fuel a n, AInv a -> nden a n t ->
  wp false a (m_subset_inner fuel n e) (fun a' m => mden a' m v).
Proof. intros E. destruct (m_subset_inner_spec _ _ _ E) as (F & S1). intros. apply S1; auto using no_tot. Qed.
Lemma res_subset e t v : node_subset t e = Some v -> forall fuel a n, AInv a -> nden a n t ->
  wp false a (m_node_subset fuel n e) (fun a' m => nden a' m v).
Proof. intros E. destruct (m_node_subset_spec _ _ _ E) as (F & S1). intros. apply S1; auto using no_tot. Qed.
Lemma res_subset_not e t v : node_subset_not t e = Some v -> forall fuel a n, AInv a -> nden a n t ->
  wp false a (m_node_subset_not fuel n e) (fun a' m => nden a' m v).
Proof. intros E. destruct (m_node_subset_not_spec _ _ _ E) as (F & S1). intros. apply S1; auto using no_tot. Qed.

Lemma mden_ext a b m v : ext a b -> mden a m v -> mden b m v.
Proof. intros E [D Q]. split; auto. eapply nden_ext; eauto. Qed.
Lemma reduce_wf n v : zwf n (fst v) -> zwf n (fst (reduce_branch v)).
Proof. unfold reduce_branch. destruct (snd v); auto. intros _. exact I. Qed.

Lemma cost_subset_inner e fuel : forall t n a m, zwf n t -> AInv a -> nden a m t -> wpn (2 * W t) a (m_subset_inner fuel m e).
Proof.
  induction fuel as [|k IH]; intros t n a m Z I0 D; [exact I|]. cbn [m_subset_inner].
  destruct t as [b|i lo hi]; inversion D; subst; [exact I|]. pose proof Z as (Z1 & Z2 & Z3 & Z4).
  destruct (Nat.eqb_spec e i) as [->|Ne].
  - assert (Dn : aden a (AId 0) Never) by exact (@den_leaf nat _ a false I0).
    pose proof (branch_direct i Never hi Logic.I Z4) as Et.
    cbind (res_branch _ _ _ _ Et) (fun a x y => cost_branch_direct k i Never hi a x y Logic.I Z4); [eassumption|exact Dn|simpl; eassumption|eassumption|exact Dn|simpl; eassumption|apply (wpn_ret 0)|]. simpl; lia.
  - destruct (subset_inner_spec lo e _ Z3) as (rl & kl & El & Zl & _). destruct (subset_inner_spec hi e _ Z4) as (rh & kh & Eh & Zh & _).
    cget; [|apply Nat.le_refl].
    cbind (res_subset_inner _ _ _ El) (fun a m => IH lo (S i) a m Z3); [eassumption|exact D0|eassumption|exact D0| |].
    + apply reduce_den in D1. pose proof (reduce_wf (S i) (rl, kl) Zl) as Zl'. destruct (m_reduce_branch r0) as [ml bl]. destruct (reduce_branch (rl, kl)) as [lo' kl'].
      destruct D1 as [D1 Q1]. cbn [fst snd] in D1, Q1, Zl'.
      cget; [|apply Nat.le_refl].
      cbind (res_subset_inner _ _ _ Eh) (fun a m => IH hi (S i) a m Z4); [eassumption|exact D2|eassumption|exact D2| |apply Nat.le_refl].
      apply reduce_den in D3. pose proof (reduce_wf (S i) (rh, kh) Zh) as Zh'. destruct (m_reduce_branch r2) as [mh bh]. destruct (reduce_branch (rh, kh)) as [hi' kh'].
      destruct D3 as [D3 Q3]. cbn [fst snd] in D3, Q3, Zh'.
      pose proof (branch_direct i lo' hi' Zl' Zh') as Et.
      apply (wpn_le _ 2 2 _ (Nat.le_refl _)).
      cbind (res_branch _ _ _ _ Et) (fun a x y => direct_nn k i lo' hi' a x y Zl' Zh'); [eassumption|exact D1|exact D3|eassumption|exact D1|exact D3|apply (wpn_ret 0)|].
      pose proof (tc_le lo'). pose proof (tc_le hi'). lia.
    + cbn [W]. lia.
Qed.
Lemma cost_subset e fuel t n a m : zwf n t -> AInv a -> nden a m t -> wpn (2 * W t) a (m_node_subset fuel m e).
Proof.
  intros Z I0 D. unfold m_node_subset. destruct (subset_inner_spec t e _ Z) as (r & k & E & _).
  cbind (res_subset_inner _ _ _ E) (fun a m => cost_subset_inner e fuel t n a m Z); [eassumption|exact D|eassumption|exact D|apply (wpn_ret 0)|]. lia.
Qed.
Lemma cost_subset_not e fuel : forall t n a m, zwf n t -> AInv a -> nden a m t -> wpn (2 * W t) a (m_node_subset_not fuel m e).
Proof.
  induction fuel as [|k IH]; intros t n a m Z I0 D; [exact I|]. cbn [m_node_subset_not].
  destruct t as [b|i lo hi]; inversion D; subst; [exact I|]. pose proof Z as (Z1 & Z2 & Z3 & Z4).
  destruct (Nat.eqb_spec e i) as [->|Ne]; [apply (wpn_get (2 * W (Branch i lo hi)))|].
  destruct (node_subset_not_spec lo e _ Z3) as (rl & El & Zl & _). destruct (node_subset_not_spec hi e _ Z4) as (rh & Eh & Zh & _).
  cget; [|apply Nat.le_refl].
  cbind (res_subset_not _ _ _ El) (fun a m => IH lo (S i) a m Z3); [eassumption|exact D0|eassumption|exact D0| |].
  - cget; [|apply Nat.le_refl].
    cbind (res_subset_not _ _ _ Eh) (fun a m => IH hi (S i) a m Z4); [eassumption|exact D2|eassumption|exact D2| |apply Nat.le_refl].
    eapply direct_nn; [exact Zl|exact Zh|eassumption|exact D1|exact D3].
  - pose proof (tc_le rl). pose proof (tc_le rh). cbn [W]. lia.
Qed.

(** filters by several elements: what is kept is always among the trees there were *)
Lemma P_incl n t r : zwf n r -> (forall s, In s (paths r) -> In s (paths t)) -> P r <= P t.
Proof. intros Z Hi. unfold P. apply NoDup_incl_length; [eapply paths_NoDup; eauto|exact Hi]. Qed.
Definition within (t acc : node) : Prop := acc = Always \/ forall s, In s (paths acc) -> In s (paths t).
Lemma within_step n t acc s r : zwf n acc -> zwf n s -> within t acc -> (forall x, In x (paths s) -> In x (paths t)) -> intersect acc s = Some r ->
  zwf n r /\ within t r.
Proof.
  intros Za Zs Wa Hs E. destruct (intersect_spec acc s n Za Zs) as (r' & E' & Zr & _ & Sr). assert (r' = r) by congruence. subst r'.
  split; [exact Zr|]. destruct Wa as [->|Wa].
  - right. intros x Hx. rewrite intersect_unfold in E. destruct s as [[|]|j sl sh]; cbn in E; injection E as <-; auto.
  - right. intros x Hx. destruct (Sr x Hx) as [[A _]|[A _]]; auto.
Qed.
Lemma within_W L n t acc : zwf n acc -> pbound L t -> within t acc -> W acc <= L * P t.
Proof.
  intros Z B [->|Wi]; [apply Nat.le_0_l|]. eapply Nat.le_trans; [apply (W_bound L acc n Z)|].
  - intros s x Hs Hx. apply (B s x); auto.
  - apply Nat.mul_le_mono; [lia|]. eapply P_incl; eauto.
Qed.
Lemma cost_filter_many (sub : nat -> znode -> nat -> zprog znode) (vsub : node -> nat -> option node) t n L es fuel a m :
  zwf n t -> pbound L t ->
  (forall e, exists r, vsub t e = Some r /\ zwf n r /\ forall s, In s (paths r) -> In s (paths t)) ->
  (forall e r, vsub t e = Some r -> forall a m, AInv a -> nden a m t -> wp false a (sub fuel m e) (fun a' x => nden a' x r)) ->
  (forall e a m, AInv a -> nden a m t -> wpn (2 * W t) a (sub fuel m e)) ->
  AInv a -> nden a m t ->
  wpn (length es * (6 * (L * P t))) a (pfoldM (fun acc e => do s <- sub fuel m e ; m_intersect fuel acc s) es (GLeaf true)).
Proof.
  intros Z B Hv Hr Hc I0 D. rewrite <- sum_const.
  set (Inv := fun (a : arena nat) (b : znode) (l : list nat) => nden a m t /\ exists acc, zwf n acc /\ within t acc /\ nden a b acc).
  apply (wpn_fold _ Inv); [|exact I0|].
  - intros b b0 e l' I1 (Dm & acc & Za & Wa & Da). destruct (Hv e) as (r & Er & Zr & Pr).
    destruct (intersect_spec acc r n Za Zr) as (r2 & E2 & _). destruct (within_step n t acc r r2 Za Zr Wa Pr E2) as [Z2 W2].
    split.
    + cbind (Hr e r Er) (Hc e); [eassumption|exact Dm|eassumption|exact Dm| |].
      * eapply (cost_intersect fuel n acc r _ _ _ Za Zr); [eassumption|exact Da|exact D0].
      * pose proof (within_W L n t t Z B (or_intror (fun s h => h))). pose proof (within_W L n t acc Za B Wa). pose proof (within_W L n t r Zr B (or_intror Pr)). lia.
    + eapply (@wp_bind nat _); [apply (Hr e r Er); eassumption| |exact I1]. intros a1 s1 E1 I2 Ds. cbv beta in Ds. lift E1.
      eapply (@wp_mono nat _); [|eapply (op2_res _ _ _ _ _ (m_intersect_spec acc r) E2); [exact I2|exact Da|exact Ds]].
      intros a2 r' E3 I3 D3. cbv beta in D3. lift E3. split; [exact Dm|]. exists r2. auto.
  - split; [exact D|]. exists Always. split; [exact I|]. split; [left; reflexivity|constructor].
Qed.
Lemma node_subset_sub t n e : zwf n t -> exists r, node_subset t e = Some r /\ zwf n r /\ forall s, In s (paths r) -> In s (paths t).
Proof.
  intros Z. destruct t as [[|]|i lo hi].
  - exists Always. split; [reflexivity|]. split; [exact I|auto].
  - exists Never. split; [reflexivity|]. split; [exact I|auto].
  - destruct (node_subset_spec (Branch i lo hi) e n Z ltac:(discriminate)) as (r & E & Zr & Sr). exists r. split; [exact E|]. split; [exact Zr|]. intros s Hs. apply Sr in Hs. tauto.
Qed.
Lemma cost_subset_all t n L es fuel a m : zwf n t -> pbound L t -> AInv a -> nden a m t ->
  wpn (length es * (6 * (L * P t))) a (m_node_subset_all fuel m es).
Proof.
  intros Z B I0 D. apply (cost_filter_many m_node_subset node_subset t n L); auto.
  - intros e. apply node_subset_sub; auto.
  - intros e r E a' m' I1 D1. apply (res_subset e t r E); auto.
  - intros e a' m' I1 D1. eapply cost_subset; eauto.
Qed.
Lemma cost_subset_none t n L es fuel a m : zwf n t -> pbound L t -> AInv a -> nden a m t ->
  wpn (length es * (6 * (L * P t))) a (m_node_subset_none fuel m es).
Proof.
  intros Z B I0 D. apply (cost_filter_many m_node_subset_not node_subset_not t n L); auto.
  - intros e. destruct (node_subset_not_spec t e n Z) as (r & E & Zr & Sr). exists r. split; [exact E|]. split; [exact Zr|]. intros s Hs. apply Sr in Hs. tauto.
  - intros e r E a' m' I1 D1. apply (res_subset_not e t r E); auto.
  - intros e a' m' I1 D1. eapply cost_subset_not; eauto.
Qed.
Lemma fold_within (vsub : node -> nat -> option node) t n : zwf n t ->
  (forall e, exists r, vsub t e = Some r /\ zwf n r /\ forall s, In s (paths r) -> In s (paths t)) ->
  forall es acc r, zwf n acc -> within t acc -> foldM (fun acc e => let! s := vsub t e in intersect acc s) es acc = Some r -> zwf n r /\ within t r.
Proof.
  intros Z Hv. induction es as [|e es IH]; intros acc r Za Wa E; simpl in E; [injection E as <-; auto|].
  destruct (Hv e) as (s & Es & Zs & Ss). rewrite Es in E. cbn [bind] in E. inv_bind E. destruct (within_step n t acc s x Za Zs Wa Ss E0). eapply IH; eauto.
Qed.

(** trees, and the other readers, add nothing *)
Lemma cost_trees_loop fuel : forall q acc a, wpn 0 a (m_trees_loop fuel q acc).
Proof.
  induction fuel as [|k IH]; intros q acc a; destruct q as [|[n path] q]; try exact I. cbn [m_trees_loop].
  destruct n as [[|]|l lo hi]; [apply IH|apply IH|]. intros a1 _ _ x _ a2 _ _ y _. apply IH.
Qed.
Lemma cost_trees fuel a i : wpn 0 a (m_trees fuel i).
Proof. intros a1 _ _ x _. apply cost_trees_loop. Qed.
