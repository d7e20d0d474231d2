(** Growth2B: what [branch] may add (see Growth2Proofs.v). *)
From Coq Require Import List Arith Lia Bool Permutation Sorted.
From Verif Require Import Base DD Spec Zdd2Model Zdd2Node Zdd2Node2 Zdd2Univ Zdd2Forest Zdd2Forest2 Zdd2Forest3 Zdd2Laws.
From Verif Require Import ArenaModel ArenaProofs Zdd2Prog Zdd2ProgProofs Growth2Proofs.
Import ListNotations.

Lemma direct_nn fuel id lo hi a m n : zwf (S id) lo -> zwf (S id) hi -> AInv a -> nden a m lo -> nden a n hi ->
  wpn (tc lo + tc hi) a (m_branch fuel id (ANode m) (ANode n)).
Proof. intros Z1 Z2 I0 D1 D2. rewrite <- (argc_node _ _ _ D1), <- (argc_node _ _ _ D2). apply (cost_branch_direct fuel id lo hi a (ANode m) (ANode n)); auto. Qed.
Lemma direct_ni fuel id lo hi a m j : zwf (S id) lo -> zwf (S id) hi -> AInv a -> nden a m lo -> den a j hi ->
  wpn (tc lo) a (m_branch fuel id (ANode m) (AId j)).
Proof. intros Z1 Z2 I0 D1 D2. rewrite <- (argc_node _ _ _ D1), <- (Nat.add_0_r (argc _)). apply (cost_branch_direct fuel id lo hi a (ANode m) (AId j)); auto. Qed.

(** [high] below [id]: the node is put into the chain of low edges *)
Lemma cost_ins_lo fuel : forall n id lo hi a x y, n <= id -> zwf n lo -> zwf (S id) hi -> AInv a -> aden a x lo -> aden a y hi ->
  wpn (argc x + argc y + W lo * (1 + tc hi)) a (m_branch fuel id x y).
Proof.
  induction fuel as [|k IH]; intros n id lo hi a x y Hn Zl Zh I0 Dx Dy; [exact Logic.I|].
  destruct lo as [b|l ll lh].
  { eapply wpn_le; [|eapply cost_branch_direct; [| |exact I0|exact Dx|exact Dy]; [exact Logic.I|exact Zh]]. lia. }
  destruct (le_lt_dec (S id) l) as [Hd|Hd].
  { eapply wpn_le; [|eapply cost_branch_direct; [| |exact I0|exact Dx|exact Dy]; [destruct Zl as (? & ?); split; [lia|tauto]|exact Zh]]. lia. }
  cbn [m_branch W]. cbind m_into_spec wpn_into; [exact Dx|eassumption|exact Dx| |].
  2: rewrite <- Nat.add_assoc; apply Nat.le_refl.
  cget; [|apply Nat.le_refl].
  cbind m_into_spec wpn_into; [exact Dy|eassumption|exact Dy| |apply Nat.le_refl].
  cget; [|apply Nat.le_refl].
  destruct Zl as (Zl1 & Zl2 & Zl3 & Zl4).
  destruct hi as [[|]|h hl hh]; inversion D2; subst; rename D2 into DH; inversion D0; subst; rename D0 into DL; [| apply wpn_ret |].
  - destruct (Nat.ltb_spec l id) as [Hl|Hl].
    + destruct (branch_total (S l) id ll Always Hl Zl3 Logic.I) as (t & Et & Zt & _).
      cbind (res_branch _ _ _ _ Et) (fun a x y => IH (S l) id ll Always a x y Hl Zl3 Logic.I); [eassumption|simpl; eassumption|exact DH|eassumption|simpl; eassumption|exact DH| |].
      * eapply direct_ni; [exact Zt|exact Zl4|eassumption|exact D0|eassumption].
      * assert (tc t <= 1) by (destruct t; simpl; lia). simpl. lia.
    + replace (l =? id) with true by (symmetry; apply Nat.eqb_eq; lia). assert (l = id) by lia. subst l.
      eapply wpn_le; [|eapply cost_branch_direct; [exact Zl3| |eassumption|simpl; eassumption|exact DH]]; [simpl; lia|exact Logic.I].
  - destruct Zh as (Zh & Zh'). replace (h <? id) with false by (symmetry; apply Nat.ltb_ge; lia).
    replace (h =? id) with false by (symmetry; apply Nat.eqb_neq; lia). cbn [andb].
    assert (Zhi : zwf (S id) (Branch h hl hh)) by (split; [lia|tauto]).
    destruct (Nat.ltb_spec l id) as [Hl|Hl].
    + destruct (branch_total (S l) id ll (Branch h hl hh) Hl Zl3 (zwf_mono (S id) (S l) _ ltac:(lia) Zhi)) as (t & Et & Zt & _).
      cbind (res_branch _ _ _ _ Et) (fun a x y => IH (S l) id ll (Branch h hl hh) a x y Hl Zl3 Zhi); [eassumption|simpl; eassumption|exact DH|eassumption|simpl; eassumption|exact DH| |].
      * eapply direct_ni; [exact Zt|exact Zl4|eassumption|exact D0|eassumption].
      * assert (tc t <= 1) by (destruct t; simpl; lia). cbn [argc tc]. lia.
    + replace (l =? id) with true by (symmetry; apply Nat.eqb_eq; lia). assert (l = id) by lia. subst l.
      eapply wpn_le; [|eapply cost_branch_direct; [exact Zl3|exact Zhi|eassumption|simpl; eassumption|exact DH]]; [simpl; lia].
Qed.
Lemma tc_le t : tc t <= 1.
Proof. destruct t; simpl; lia. Qed.
Lemma ins_lo_nn fuel n id lo hi a m j : n <= id -> zwf n lo -> zwf (S id) hi -> AInv a -> nden a m lo -> nden a j hi ->
  wpn (tc lo + tc hi + W lo * (1 + tc hi)) a (m_branch fuel id (ANode m) (ANode j)).
Proof.
  intros Hn Z1 Z2 I0 D1 D2. rewrite <- (argc_node _ _ _ D1). replace (argc (ANode m) + tc hi) with (argc (ANode m) + argc (ANode j)) by (rewrite (argc_node _ _ _ D2); reflexivity).
  eapply cost_ins_lo; eauto.
Qed.

(** branch on any ordered children *)
Lemma cost_branch fuel : forall n id lo hi a x y, n <= id -> zwf n lo -> zwf n hi -> AInv a -> aden a x lo -> aden a y hi ->
  wpn (argc x + argc y + 2 * (W lo + W hi)) a (m_branch fuel id x y).
Proof.
  induction fuel as [|k IH]; intros n id lo hi a x y Hn Zl Zh I0 Dx Dy; [exact Logic.I|].
  cbn [m_branch]. cbind m_into_spec wpn_into; [exact Dx|eassumption|exact Dx| |].
  2: rewrite <- Nat.add_assoc; apply Nat.le_refl.
  cget; [|apply Nat.le_refl].
  cbind m_into_spec wpn_into; [exact Dy|eassumption|exact Dy| |apply Nat.le_refl].
  cget; [|apply Nat.le_refl].
  destruct hi as [[|]|h hl hh]; inversion D2; subst; rename D2 into DH; [| apply wpn_ret |].
  - destruct lo as [b|l ll lh]; inversion D0; subst; rename D0 into DL.
    { eapply wpn_le; [|eapply cost_last; eassumption]. lia. }
    destruct Zl as (Zl1 & Zl2 & Zl3 & Zl4).
    destruct (Nat.ltb_spec l id) as [Hl|Hl].
    + destruct (branch_total (S l) id ll Always Hl Zl3 Logic.I) as (t & Et & Zt & _).
      cbind (res_branch _ _ _ _ Et) (fun a x y => IH (S l) id ll Always a x y Hl Zl3 Logic.I); [eassumption|simpl; eassumption|exact DH|eassumption|simpl; eassumption|exact DH| |].
      * eapply direct_ni; [exact Zt|exact Zl4|eassumption|exact D0|eassumption].
      * pose proof (tc_le t). simpl. lia.
    + destruct (Nat.eqb_spec l id) as [->|Hne].
      * eapply wpn_le; [|eapply (IH id id ll Always _ (AId lo) (ANode (GLeaf true))); [lia|apply (zwf_mono (S id)); [lia|exact Zl3]|exact Logic.I|eassumption|simpl; eassumption|exact DH]]. simpl; lia.
      * eapply wpn_le; [|eapply cost_last; eassumption]. lia.
  - pose proof Zh as (Zh1 & Zh2 & Zh3 & Zh4). destruct lo as [b|l ll lh]; inversion D0; subst; rename D0 into DL.
    + destruct (Nat.ltb_spec h id) as [Hh|Hh].
      * destruct (branch_total (S h) id hl hh Hh Zh3 Zh4) as (t & Et & Zt & _).
        cbind (res_branch _ _ _ _ Et) (fun a x y => IH (S h) id hl hh a x y Hh Zh3 Zh4); [eassumption|simpl; eassumption|simpl; eassumption|eassumption|simpl; eassumption|simpl; eassumption| |].
        { eapply direct_nn; [|exact Zt|eassumption|exact DL|exact D0]. exact Logic.I. }
        { pose proof (tc_le t). simpl. lia. }
      * destruct (Nat.eqb_spec h id) as [->|Hne].
        { eapply wpn_le; [|eapply (IH id id (Leaf b) hh _ (ANode (GLeaf b)) (AId hi)); [lia|exact Logic.I|apply (zwf_mono (S id)); [lia|exact Zh4]|eassumption|exact DL|simpl; eassumption]]. simpl; lia. }
        { eapply wpn_le; [|eapply cost_last; eassumption]. lia. }
    + pose proof Zl as (Zl1 & Zl2 & Zl3 & Zl4).
      destruct ((h <? id) && (l =? h)) eqn:Eb.
      { apply andb_prop in Eb. destruct Eb as [E1 E2]. apply Nat.ltb_lt in E1. apply Nat.eqb_eq in E2. subst l.
        destruct (branch_total (S h) id ll hl E1 Zl3 Zh3) as (t1 & Et1 & Zt1 & _).
        destruct (branch_total (S h) id lh hh E1 Zl4 Zh4) as (t2 & Et2 & Zt2 & _).
        cbind (res_branch _ _ _ _ Et1) (fun a x y => IH (S h) id ll hl a x y E1 Zl3 Zh3); [eassumption|simpl; eassumption|simpl; eassumption|eassumption|simpl; eassumption|simpl; eassumption| |].
        - cbind (res_branch _ _ _ _ Et2) (fun a x y => IH (S h) id lh hh a x y E1 Zl4 Zh4); [eassumption|simpl; eassumption|simpl; eassumption|eassumption|simpl; eassumption|simpl; eassumption| |apply Nat.le_refl].
          eapply direct_nn; [exact Zt1|exact Zt2|eassumption|exact D0|exact D2].
        - pose proof (tc_le t1). pose proof (tc_le t2). simpl. lia. }
      destruct (Nat.ltb_spec h id) as [Hh|Hh].
      { destruct (branch_total (S h) id hl hh Hh Zh3 Zh4) as (t & Et & Zt & _).
        cbind (res_branch _ _ _ _ Et) (fun a x y => IH (S h) id hl hh a x y Hh Zh3 Zh4); [eassumption|simpl; eassumption|simpl; eassumption|eassumption|simpl; eassumption|simpl; eassumption| |].
        - eapply (ins_lo_nn k n h (Branch l ll lh) t); [exact Zh1|exact Zl|exact Zt|eassumption|exact DL|exact D0].
        - pose proof (tc_le t). cbn [argc tc W]. assert (X : S (W ll + W lh) * (1 + tc t) <= S (W ll + W lh) * 2) by (apply Nat.mul_le_mono_l; lia). lia. }
      assert (Zhid : zwf id (Branch h hl hh)) by (split; [lia|tauto]).
      destruct (Nat.ltb_spec l id) as [Hl|Hl].
      { assert (Zhl : zwf (S l) (Branch h hl hh)) by (apply (zwf_mono id); [lia|exact Zhid]).
        destruct (branch_total (S l) id ll (Branch h hl hh) Hl Zl3 Zhl) as (t & Et & Zt & _).
        cbind (res_branch _ _ _ _ Et) (fun a x y => IH (S l) id ll (Branch h hl hh) a x y Hl Zl3 Zhl); [eassumption|simpl; eassumption|exact DH|eassumption|simpl; eassumption|exact DH| |].
        - eapply direct_ni; [exact Zt|exact Zl4|eassumption|exact D0|eassumption].
        - pose proof (tc_le t). cbn [argc tc W]. lia. }
      destruct (Nat.eqb_spec h id) as [->|Hne].
      { eapply wpn_le; [|eapply (IH n id (Branch l ll lh) hh _ (ANode _) (AId hi)); [lia|exact Zl|apply (zwf_mono (S id)); [lia|exact Zh4]|eassumption|exact DL|simpl; eassumption]]. cbn [argc W]; lia. }
      destruct (Nat.eqb_spec l id) as [->|Hne'].
      { eapply wpn_le; [|eapply (IH n id ll (Branch h hl hh) _ (AId lo) (ANode _)); [lia|apply (zwf_mono (S id)); [lia|exact Zl3]|exact Zh|eassumption|simpl; eassumption|exact DH]]. cbn [argc W]; lia. }
      eapply wpn_le; [|eapply cost_last; eassumption]. lia.
Qed.
