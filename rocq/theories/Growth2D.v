(** Growth2D: [intersect] and [product] (see Growth2Proofs.v). *)
From Coq Require Import List Arith Lia Bool Permutation Sorted.
From Verif Require Import Base DD Spec Zdd2Model Zdd2Node Zdd2Node2 Zdd2Univ Zdd2Forest Zdd2Forest2 Zdd2Forest3 Zdd2Laws.
From Verif Require Import ArenaModel ArenaProofs Zdd2Prog Zdd2ProgProofs Growth2Proofs Growth2B Growth2C.
Import ListNotations.

(** ** how many trees the results have *)
Lemma P_leaf b : P (Leaf b) <= 1.
Proof. destruct b; unfold P; simpl; lia. Qed.
Lemma P_branch_f k : forall id lo hi r, branch_f k id lo hi = Some r -> P r <= P lo + P hi.
Proof.
  induction k as [|k IH]; intros id lo hi r E; [discriminate|]. simpl in E.
  destruct hi as [[|]|h hl hh]; [|injection E as <-; lia|].
  - destruct lo as [b|l ll lh].
    + injection E as <-. rewrite P_branch. lia.
    + destruct (l <? id).
      * inv_bind E. apply IH in E0. apply IH in E. rewrite P_branch. lia.
      * destruct (l =? id); [apply IH in E; rewrite P_branch; lia|]. injection E as <-. rewrite !P_branch. lia.
  - destruct lo as [b|l ll lh].
    + destruct (h <? id).
      * inv_bind E. apply IH in E0. apply IH in E. rewrite P_branch. lia.
      * destruct (h =? id); [apply IH in E; rewrite P_branch; lia|]. injection E as <-. rewrite !P_branch. lia.
    + destruct ((h <? id) && (l =? h)).
      { inv_bind E. inv_bind E. apply IH in E0. apply IH in E1. apply IH in E. rewrite !P_branch. lia. }
      destruct (h <? id).
      { inv_bind E. apply IH in E0. apply IH in E. rewrite !P_branch in *. lia. }
      destruct (l <? id).
      { inv_bind E. apply IH in E0. apply IH in E. rewrite !P_branch in *. lia. }
      destruct (h =? id); [apply IH in E; rewrite !P_branch in *; lia|].
      destruct (l =? id); [apply IH in E; rewrite !P_branch in *; lia|]. injection E as <-. rewrite !P_branch. lia.
Qed.
Lemma P_br id lo hi r : branch id lo hi = Some r -> P r <= P lo + P hi.
Proof. apply P_branch_f. Qed.
Lemma P_union t1 : forall t2 r, union t1 t2 = Some r -> P r <= P t1 + P t2.
Proof.
  induction t1 as [b1|i1 l1 IHl h1 IHh]; induction t2 as [b2|i2 l2 IHl2 h2 IHh2]; intros r E; rewrite union_unfold in E;
    (destruct (dd_eqb _ _); [injection E as <-; lia|]).
  - destruct b1, b2; injection E as <-; lia.
  - destruct b1; [|injection E as <-; lia]. inv_bind E. apply IHl2 in E0. apply P_br in E. rewrite P_branch. lia.
  - destruct b2; [|injection E as <-; lia]. inv_bind E. apply IHl in E0. apply P_br in E. rewrite P_branch. lia.
  - destruct (i1 <? i2); [|destruct (i2 <? i1)].
    + inv_bind E. apply IHl in E0. apply P_br in E. rewrite !P_branch in *. lia.
    + inv_bind E. apply IHl2 in E0. apply P_br in E. rewrite !P_branch in *. lia.
    + inv_bind E. inv_bind E. apply IHl in E0. apply IHh in E1. apply P_br in E. rewrite !P_branch in *. lia.
Qed.
Lemma P_intersect t1 : forall t2 r, intersect t1 t2 = Some r -> P r <= P t1 + P t2.
Proof.
  induction t1 as [b1|i1 l1 IHl h1 IHh]; induction t2 as [b2|i2 l2 IHl2 h2 IHh2]; intros r E; rewrite intersect_unfold in E;
    (destruct (dd_eqb _ _); [injection E as <-; lia|]).
  - destruct b1, b2; injection E as <-; lia.
  - destruct b1; injection E as <-; [lia|apply Nat.le_0_l].
  - destruct b2; injection E as <-; [lia|apply Nat.le_0_l].
  - destruct (i1 <? i2); [|destruct (i2 <? i1)].
    + apply IHl in E. rewrite !P_branch in *. lia.
    + apply IHl2 in E. rewrite !P_branch in *. lia.
    + inv_bind E. inv_bind E. apply IHl in E0. apply IHh in E1. apply P_br in E. rewrite !P_branch in *. lia.
Qed.
Lemma sq_le n : n <= n * n.
Proof. destruct n; simpl; lia. Qed.
Lemma P_product t1 : forall t2 r, product t1 t2 = Some r -> P r <= P t1 * P t2.
Proof.
  induction t1 as [b1|i1 l1 IHl h1 IHh]; induction t2 as [b2|i2 l2 IHl2 h2 IHh2]; intros r E; rewrite product_unfold in E;
    match type of E with context[dd_eqb ?u ?v] => destruct (dd_eqb_spec u v) as [Q|_]; [rewrite <- Q; injection E as <-; apply sq_le|] end.
  - destruct b1, b2; injection E as <-; cbn; lia.
  - destruct b1; injection E as <-; [change (P Always) with 1; lia|apply Nat.le_0_l].
  - destruct b2; injection E as <-; [change (P Always) with 1; lia|apply Nat.le_0_l].
  - destruct (i1 <? i2); [|destruct (i2 <? i1)].
    + inv_bind E. inv_bind E. apply IHl in E0. apply IHh in E1. apply P_br in E. rewrite !P_branch in *. lia.
    + inv_bind E. inv_bind E. apply IHl2 in E0. apply IHh2 in E1. apply P_br in E. rewrite !P_branch in *. lia.
    + inv_bind E. inv_bind E. inv_bind E. inv_bind E. inv_bind E. inv_bind E.
      apply IHl in E0. apply IHl in E1. apply IHh in E2. apply IHh in E3. apply P_union in E4. apply P_union in E5. apply P_br in E.
      rewrite !P_branch. lia.
Qed.
Lemma P_subset_inner e t : forall r keep, subset_inner t e = Some (r, keep) -> P r <= P t.
Proof.
  induction t as [b|i lo IHl hi IHh]; intros r keep E; cbn [subset_inner] in E; [injection E as <- <-; lia|].
  destruct (e =? i).
  - inv_bind E. injection E as <- <-. apply P_br in E0. change (P Never) with 0 in E0. rewrite P_branch. lia.
  - inv_bind E. inv_bind E. destruct x as [xl kl], x0 as [xh kh]. apply IHl in E0. apply IHh in E1. unfold reduce_branch in E. cbn [snd] in E.
    destruct kl, kh; inv_bind E; injection E as <- <-; apply P_br in E2; rewrite P_branch; change (P Never) with 0 in *; lia.
Qed.
Lemma P_subset e t r : node_subset t e = Some r -> P r <= P t.
Proof. unfold node_subset. intros E. inv_bind E. destruct x as [x k]. injection E as <-. apply P_subset_inner in E0. exact E0. Qed.
Lemma P_subset_not e t : forall r, node_subset_not t e = Some r -> P r <= P t.
Proof.
  induction t as [b|i lo IHl hi IHh]; intros r E; cbn [node_subset_not] in E; [injection E as <-; lia|].
  destruct (e =? i); [injection E as <-; rewrite P_branch; lia|].
  inv_bind E. inv_bind E. apply IHl in E0. apply IHh in E1. apply P_br in E. rewrite P_branch. lia.
Qed.

(** ** intersect *)
Lemma cost_intersect fuel : forall n t1 t2 a n1 n2, zwf n t1 -> zwf n t2 -> AInv a -> nden a n1 t1 -> nden a n2 t2 ->
  wpn (2 * (W t1 + W t2)) a (m_intersect fuel n1 n2).
Proof.
  induction fuel as [|k IH]; intros n t1 t2 a n1 n2 Z1 Z2 I0 D1 D2; [exact Logic.I|]. cbn [m_intersect].
  destruct (gnode_eqb n1 n2); [exact Logic.I|].
  destruct t1 as [b1|i1 l1 h1]; inversion D1; subst; destruct t2 as [b2|i2 l2 h2]; inversion D2; subst.
  1: destruct b1, b2; exact Logic.I.
  1: destruct b1; exact Logic.I.
  1: destruct b2; exact Logic.I.
  pose proof Z1 as (X1 & X2 & X3 & X4). pose proof Z2 as (Y1 & Y2 & Y3 & Y4).
  destruct (Nat.ltb_spec i1 i2) as [Hi|Hi]; [|destruct (Nat.ltb_spec i2 i1) as [Hj|Hj]].
  + assert (Y : zwf (S i1) (Branch i2 l2 h2)) by (split; [lia|tauto]). cget; [|apply Nat.le_refl].
    eapply wpn_le; [|eapply (IH (S i1) l1 _ _ _ _ X3 Y); [eassumption|exact D|exact D2]]. cbn [W]. lia.
  + assert (X : zwf (S i2) (Branch i1 l1 h1)) by (split; [lia|tauto]). cget; [|apply Nat.le_refl].
    eapply wpn_le; [|eapply (IH (S i2) _ l2 _ _ _ X Y3); [eassumption|exact D1|exact D]]. cbn [W]. lia.
  + assert (i1 = i2) by lia. subst i2. cget; [|apply Nat.le_refl]. cget; [|apply Nat.le_refl].
    destruct (intersect_spec l1 l2 (S i1) X3 Y3) as (r2 & E & Zr & _). destruct (intersect_spec h1 h2 (S i1) X4 Y4) as (r3 & E' & Zr' & _).
    cbind (op2_res _ _ _ _ _ (m_intersect_spec l1 l2) E) (fun a n1 n2 => IH (S i1) l1 l2 a n1 n2 X3 Y3); [eassumption|exact D|exact D0|eassumption|exact D|exact D0| |].
    * cget; [|apply Nat.le_refl]. cget; [|apply Nat.le_refl].
      cbind (op2_res _ _ _ _ _ (m_intersect_spec h1 h2) E') (fun a n1 n2 => IH (S i1) h1 h2 a n1 n2 X4 Y4); [eassumption|exact D4|exact D5|eassumption|exact D4|exact D5| |apply Nat.le_refl].
      eapply direct_nn; [exact Zr|exact Zr'|eassumption|exact D3|exact D6].
    * pose proof (tc_le r2). pose proof (tc_le r3). cbn [W]. lia.
Qed.

(** ** product *)
Lemma pbound_join L t1 t2 r : pbound L t1 -> pbound L t2 ->
  (forall s, In s (paths r) -> exists a b, In a (paths t1) /\ In b (paths t2) /\ is_join a b s) -> pbound L r.
Proof. intros B1 B2 H s x Hs Hx. destruct (H s Hs) as (u & v & Hu & Hv & J). apply J in Hx. destruct Hx as [Hx|Hx]; [exact (B1 u x Hu Hx)|exact (B2 v x Hv Hx)]. Qed.
Lemma pbound_union L t1 t2 r : pbound L t1 -> pbound L t2 -> (forall s, In s (paths r) <-> In s (paths t1) \/ In s (paths t2)) -> pbound L r.
Proof. intros B1 B2 H s x Hs Hx. apply H in Hs. destruct Hs as [Hs|Hs]; [exact (B1 s x Hs Hx)|exact (B2 s x Hs Hx)]. Qed.

Lemma step_bound' c L n i p : n <= i -> i < L -> c * ((L - S i) * p) + c * p <= c * ((L - n) * p).
Proof.
  intros H1 H2. assert (X : (L - n) * p = (L - S i) * p + (S i - n) * p) by (rewrite <- Nat.mul_add_distr_r; f_equal; lia).
  rewrite X, Nat.mul_add_distr_l. apply Nat.add_le_mono_l. apply Nat.mul_le_mono_l.
  rewrite <- (Nat.mul_1_l p) at 1. apply Nat.mul_le_mono_r; lia.
Qed.
Lemma step_bound c L n i p : n <= i -> i < L -> 1 <= p -> c * ((L - S i) * p) + c <= c * ((L - n) * p).
Proof.
  intros H1 H2 H3. eapply Nat.le_trans; [|apply (step_bound' c L n i p H1 H2)]. apply Nat.add_le_mono_l. rewrite <- (Nat.mul_1_r c) at 1. apply Nat.mul_le_mono_l; lia.
Qed.

Lemma cost_product L fuel : forall n t1 t2 a n1 n2, zwf n t1 -> zwf n t2 -> pbound L t1 -> pbound L t2 -> AInv a -> nden a n1 t1 -> nden a n2 t2 ->
  wpn ((4 * L + 2) * ((L - n) * (P t1 * P t2))) a (m_product fuel n1 n2).
Proof.
  induction fuel as [|k IH]; intros n t1 t2 a n1 n2 Z1 Z2 B1 B2 I0 D1 D2; [exact Logic.I|]. cbn [m_product].
  destruct (gnode_eqb n1 n2); [exact Logic.I|].
  destruct t1 as [b1|i1 l1 h1]; inversion D1; subst; destruct t2 as [b2|i2 l2 h2]; inversion D2; subst.
  1: destruct b1, b2; exact Logic.I.
  1: destruct b1; exact Logic.I.
  1: destruct b2; exact Logic.I.
  pose proof Z1 as (X1 & X2 & X3 & X4). pose proof Z2 as (Y1 & Y2 & Y3 & Y4).
  pose proof (pbound_top _ _ _ _ _ Z1 B1) as T1. pose proof (pbound_top _ _ _ _ _ Z2 B2) as T2.
  pose proof (pbound_lo _ _ _ _ B1) as Bl1. pose proof (pbound_hi _ _ _ _ B1) as Bh1. pose proof (pbound_lo _ _ _ _ B2) as Bl2. pose proof (pbound_hi _ _ _ _ B2) as Bh2.
  pose proof (P_pos _ _ Z1 ltac:(discriminate)) as P1. pose proof (P_pos _ _ Z2 ltac:(discriminate)) as P2.
  assert (P12 : 1 <= P (Branch i1 l1 h1) * P (Branch i2 l2 h2)) by (change 1 with (1 * 1) at 1; apply Nat.mul_le_mono; auto).
  destruct (Nat.ltb_spec i1 i2) as [Hi|Hi]; [|destruct (Nat.ltb_spec i2 i1) as [Hj|Hj]].
  + assert (Y : zwf (S i1) (Branch i2 l2 h2)) by (split; [lia|tauto]). cget; [|apply Nat.le_refl].
    destruct (product_spec l1 _ (S i1) X3 Y) as (r2 & E & Zr & _). destruct (product_spec h1 _ (S i1) X4 Y) as (r3 & E' & Zr' & _).
    cbind (op2_res _ _ _ _ _ (m_product_spec l1 _) E) (fun a n1 n2 => IH (S i1) l1 _ a n1 n2 X3 Y Bl1 B2); [eassumption|exact D|exact D2|eassumption|exact D|exact D2| |].
    * cget; [|apply Nat.le_refl].
      cbind (op2_res _ _ _ _ _ (m_product_spec h1 _) E') (fun a n1 n2 => IH (S i1) h1 _ a n1 n2 X4 Y Bh1 B2); [eassumption|exact D3|exact D2|eassumption|exact D3|exact D2| |apply Nat.le_refl].
      eapply direct_nn; [exact Zr|exact Zr'|eassumption|exact D0|exact D4].
    * pose proof (tc_le r2). pose proof (tc_le r3).
      pose proof (step_bound (4 * L + 2) L n i1 _ X1 T1 P12) as X. set (N := P (Branch i1 l1 h1) * P (Branch i2 l2 h2)) in *.
      assert (EN : N = P h1 * P (Branch i2 l2 h2) + P l1 * P (Branch i2 l2 h2)) by (unfold N; rewrite (P_branch i1); lia). clearbody N.
      set (x1 := P h1 * P (Branch i2 l2 h2)) in *. set (x2 := P l1 * P (Branch i2 l2 h2)) in *. clearbody x1 x2.
      assert (Q5 : (4 * L + 2) * ((L - S i1) * N) = (4 * L + 2) * ((L - S i1) * x1) + (4 * L + 2) * ((L - S i1) * x2)) by (rewrite EN; lia). lia.
  + assert (X : zwf (S i2) (Branch i1 l1 h1)) by (split; [lia|tauto]). cget; [|apply Nat.le_refl].
    destruct (product_spec _ l2 (S i2) X Y3) as (r2 & E & Zr & _). destruct (product_spec _ h2 (S i2) X Y4) as (r3 & E' & Zr' & _).
    cbind (op2_res _ _ _ _ _ (m_product_spec _ l2) E) (fun a n1 n2 => IH (S i2) _ l2 a n1 n2 X Y3 B1 Bl2); [eassumption|exact D1|exact D|eassumption|exact D1|exact D| |].
    * cget; [|apply Nat.le_refl].
      cbind (op2_res _ _ _ _ _ (m_product_spec _ h2) E') (fun a n1 n2 => IH (S i2) _ h2 a n1 n2 X Y4 B1 Bh2); [eassumption|exact D1|exact D3|eassumption|exact D1|exact D3| |apply Nat.le_refl].
      eapply direct_nn; [exact Zr|exact Zr'|eassumption|exact D0|exact D4].
    * pose proof (tc_le r2). pose proof (tc_le r3).
      pose proof (step_bound (4 * L + 2) L n i2 _ Y1 T2 P12) as Q. set (N := P (Branch i1 l1 h1) * P (Branch i2 l2 h2)) in *.
      assert (EN : N = P (Branch i1 l1 h1) * P h2 + P (Branch i1 l1 h1) * P l2) by (unfold N; rewrite (P_branch i2); lia). clearbody N.
      set (x1 := P (Branch i1 l1 h1) * P h2) in *. set (x2 := P (Branch i1 l1 h1) * P l2) in *. clearbody x1 x2.
      assert (Q5 : (4 * L + 2) * ((L - S i2) * N) = (4 * L + 2) * ((L - S i2) * x1) + (4 * L + 2) * ((L - S i2) * x2)) by (rewrite EN; lia). lia.
  + assert (i1 = i2) by lia. subst i2.
    destruct (product_spec l1 l2 (S i1) X3 Y3) as (rll & Ell & Zll & Sll & _). destruct (product_spec l1 h2 (S i1) X3 Y4) as (rlh & Elh & Zlh & Slh & _).
    destruct (product_spec h1 l2 (S i1) X4 Y3) as (rhl & Ehl & Zhl & Shl & _). destruct (product_spec h1 h2 (S i1) X4 Y4) as (rhh & Ehh & Zhh & Shh & _).
    destruct (union_spec rhl rhh (S i1) Zhl Zhh) as (rn & En & Zn & Sn). destruct (union_spec rlh rn (S i1) Zlh Zn) as (rh & Eh & Zh & Sh).
    pose proof (pbound_join _ _ _ _ Bl1 Bh2 Slh) as Blh. pose proof (pbound_join _ _ _ _ Bh1 Bl2 Shl) as Bhl. pose proof (pbound_join _ _ _ _ Bh1 Bh2 Shh) as Bhh.
    pose proof (pbound_union _ _ _ _ Bhl Bhh Sn) as Bn.
    pose proof (W_bound _ _ _ Zhl Bhl) as Whl. pose proof (W_bound _ _ _ Zhh Bhh) as Whh. pose proof (W_bound _ _ _ Zlh Blh) as Wlh. pose proof (W_bound _ _ _ Zn Bn) as Wn.
    pose proof (P_product _ _ _ Elh) as Plh. pose proof (P_product _ _ _ Ehl) as Phl. pose proof (P_product _ _ _ Ehh) as Phh. pose proof (P_union _ _ _ En) as Pn.
    cget; [|apply Nat.le_refl]. cget; [|apply Nat.le_refl].
    cbind (op2_res _ _ _ _ _ (m_product_spec l1 l2) Ell) (fun a n1 n2 => IH (S i1) l1 l2 a n1 n2 X3 Y3 Bl1 Bl2); [eassumption|exact D|exact D0|eassumption|exact D|exact D0| |].
    * cget; [|apply Nat.le_refl]. cget; [|apply Nat.le_refl].
      cbind (op2_res _ _ _ _ _ (m_product_spec l1 h2) Elh) (fun a n1 n2 => IH (S i1) l1 h2 a n1 n2 X3 Y4 Bl1 Bh2); [eassumption|exact D4|exact D5|eassumption|exact D4|exact D5| |apply Nat.le_refl].
      cget; [|apply Nat.le_refl]. cget; [|apply Nat.le_refl].
      cbind (op2_res _ _ _ _ _ (m_product_spec h1 l2) Ehl) (fun a n1 n2 => IH (S i1) h1 l2 a n1 n2 X4 Y3 Bh1 Bl2); [eassumption|exact D7|exact D8|eassumption|exact D7|exact D8| |apply Nat.le_refl].
      cget; [|apply Nat.le_refl]. cget; [|apply Nat.le_refl].
      cbind (op2_res _ _ _ _ _ (m_product_spec h1 h2) Ehh) (fun a n1 n2 => IH (S i1) h1 h2 a n1 n2 X4 Y4 Bh1 Bh2); [eassumption|exact D10|exact D11|eassumption|exact D10|exact D11| |apply Nat.le_refl].
      cbind (op2_res _ _ _ _ _ (m_union_spec rhl rhh) En) (fun a n1 n2 => cost_union k (S i1) rhl rhh a n1 n2 Zhl Zhh); [eassumption|exact D9|exact D12|eassumption|exact D9|exact D12| |apply Nat.le_refl].
      cbind (op2_res _ _ _ _ _ (m_union_spec rlh rn) Eh) (fun a n1 n2 => cost_union k (S i1) rlh rn a n1 n2 Zlh Zn); [eassumption|exact D6|exact D13|eassumption|exact D6|exact D13| |apply Nat.le_refl].
      eapply direct_nn; [exact Zll|exact Zh|eassumption|exact D3|exact D14].
    * pose proof (tc_le rll). pose proof (tc_le rh).
      pose proof (step_bound' (4 * L + 2) L n i1 (P (Branch i1 l1 h1) * P (Branch i1 l2 h2)) X1 T1) as Q.
      assert (Hd : L - S i1 <= L) by lia.
      assert (Q1 : W rhl <= L * (P h1 * P l2)) by (eapply Nat.le_trans; [exact Whl|]; apply Nat.mul_le_mono; lia).
      assert (Q2 : W rhh <= L * (P h1 * P h2)) by (eapply Nat.le_trans; [exact Whh|]; apply Nat.mul_le_mono; lia).
      assert (Q3 : W rlh <= L * (P l1 * P h2)) by (eapply Nat.le_trans; [exact Wlh|]; apply Nat.mul_le_mono; lia).
      assert (Q4 : W rn <= L * (P h1 * P l2 + P h1 * P h2)) by (eapply Nat.le_trans; [exact Wn|]; apply Nat.mul_le_mono; lia).
      set (N := P (Branch i1 l1 h1) * P (Branch i1 l2 h2)) in *.
      assert (EN : N = P h1 * P h2 + P h1 * P l2 + P l1 * P h2 + P l1 * P l2) by (unfold N; rewrite !P_branch; lia).
      rewrite !Nat.mul_add_distr_l in Q4. clearbody N.
      set (x1 := P h1 * P h2) in *. set (x2 := P h1 * P l2) in *. set (x3 := P l1 * P h2) in *. set (x4 := P l1 * P l2) in *.
      clearbody x1 x2 x3 x4.
      assert (Q5 : (4 * L + 2) * ((L - S i1) * N) = (4 * L + 2) * ((L - S i1) * x1) + (4 * L + 2) * ((L - S i1) * x2) + (4 * L + 2) * ((L - S i1) * x3) + (4 * L + 2) * ((L - S i1) * x4)) by (rewrite EN; lia).
      assert (Q6 : (4 * L + 2) * N = 4 * (L * x1) + 4 * (L * x2) + 4 * (L * x3) + 4 * (L * x4) + 2 * N) by (rewrite EN; lia).
      lia.
Qed.
