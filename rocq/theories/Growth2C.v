(** Growth2C: chains, [unique] and [union] (see Growth2Proofs.v). *)
From Coq Require Import List Arith Lia Bool Permutation Sorted.
From Verif Require Import Base DD Spec Zdd2Model Zdd2Node Zdd2Node2 Zdd2Univ Zdd2Forest Zdd2Forest2 Zdd2Forest3 Zdd2Laws.
From Verif Require Import ArenaModel ArenaProofs Zdd2Prog Zdd2ProgProofs Growth2Proofs Growth2B.
Import ListNotations.

(** ** chains *)
Lemma chain_W s : W (chain s) = length s.
Proof. induction s as [|x s IH]; simpl; [reflexivity|]. fold (chain s). lia. Qed.
Lemma ins_s_length x s : length (ins_s x s) <= S (length s).
Proof. induction s as [|y s IH]; simpl; [lia|]. destruct (y <? x); simpl; [lia|]. destruct (y =? x); simpl; lia. Qed.
Lemma aden_never a x : aden a x Never -> argc x = 0.
Proof. destruct x as [i|n]; simpl; [reflexivity|]. intros D. inversion D; reflexivity. Qed.

Lemma cost_chain fuel : forall n id s a x y, asc n s -> AInv a -> aden a x Never -> aden a y (chain s) ->
  wpn (argc y + length s) a (m_branch fuel id x y).
Proof.
  induction fuel as [|k IH]; intros n id s a x y As I0 Dx Dy; [exact Logic.I|].
  pose proof (aden_never _ _ Dx) as Ax.
  destruct s as [|h s].
  { eapply wpn_le; [|eapply (cost_branch_direct (S k) id Never Always); [exact Logic.I|exact Logic.I|exact I0|exact Dx|exact Dy]]. simpl; lia. }
  cbn [chain fold_right] in Dy. fold (chain s) in Dy. cbn [asc] in As. destruct As as [Ah As].
  destruct (le_lt_dec (S id) h) as [Hd|Hd].
  { eapply wpn_le; [|eapply (cost_branch_direct (S k) id Never (Branch h Never (chain s))); [exact Logic.I| |exact I0|exact Dx|exact Dy]]; [lia|].
    split; [lia|]. split; [apply chain_not_never|]. split; [exact Logic.I|apply chain_wf; exact As]. }
  cbn [m_branch]. cbind m_into_spec wpn_into; [exact Dx|eassumption|exact Dx| |].
  2: rewrite Ax; apply Nat.le_refl.
  cget; [|apply Nat.le_refl].
  cbind m_into_spec wpn_into; [exact Dy|eassumption|exact Dy| |apply Nat.le_refl].
  cget; [|apply Nat.le_refl]. inversion D0; subst. rename D0 into DL. inversion D2; subst. rename D2 into DH.
  assert (Zs : zwf (S h) (chain s)) by (apply chain_wf; exact As).
  destruct (Nat.ltb_spec h id) as [Hh|Hh].
  - destruct (branch_total (S h) id Never (chain s) Hh Logic.I Zs) as (t & Et & Zt & _).
    cbind (res_branch _ _ _ _ Et) (fun a x y => IH (S h) id s a x y As); [eassumption|simpl; eassumption|simpl; eassumption|eassumption|simpl; eassumption|simpl; eassumption| |].
    + eapply direct_nn; [|exact Zt|eassumption|exact DL|exact D0]. exact Logic.I.
    + pose proof (tc_le t). simpl. lia.
  - assert (h = id) by lia. subst h. rewrite Nat.eqb_refl.
    eapply wpn_le; [|eapply (cost_branch_direct k id Never (chain s) _ (ANode (GLeaf false)) (AId hi)); [exact Logic.I|exact Zs|eassumption|exact DL|simpl; eassumption]]. simpl; lia.
Qed.

Lemma sum_const {A} (K : nat) (l : list A) : list_sum (map (fun _ => K) l) = length l * K.
Proof. induction l as [|x l IH]; simpl; [reflexivity|]. simpl in IH. lia. Qed.
(** inserting [ps] one after another into an empty chain *)
Lemma cost_chain_fold fuel ps a : AInv a ->
  wpn (length ps * length ps) a (pfoldM (fun root item => m_branch fuel item (ANode (GLeaf false)) (ANode root)) ps (GLeaf true)).
Proof.
  intros I0. set (K := length ps).
  set (Inv := fun (a : arena nat) (b : znode) (l : list nat) => exists s, asc 0 s /\ length s + length l <= K /\ nden a b (chain s)).
  assert (G : wpn (list_sum (map (fun _ => K) ps)) a (pfoldM (fun root item => m_branch fuel item (ANode (GLeaf false)) (ANode root)) ps (GLeaf true))).
  { apply (wpn_fold _ Inv); [|exact I0|].
    - intros b0 b x l' I1 (s & As & Hl & D). cbn [length] in Hl. split.
      + eapply wpn_le; [|eapply (cost_chain fuel 0 x s); [exact As|exact I1|simpl; constructor|simpl; exact D]].
        destruct s; [inversion D; simpl; lia|]. pose proof (argc_le (ANode b)). simpl in *. lia.
      + eapply (@wp_mono nat _); [|eapply (res_branch x Never (chain s)); [eapply branch_chain; exact As|exact I1|simpl; constructor|simpl; exact D]].
        intros a' r _ _ Dr. exists (ins_s x s). split; [apply ins_s_asc; [lia|exact As]|]. split; [|exact Dr].
        pose proof (ins_s_length x s). lia.
    - exists []. split; [exact Logic.I|]. split; [simpl; unfold K; lia|constructor]. }
  eapply wpn_le; [|exact G]. rewrite sum_const. apply Nat.le_refl.
Qed.

Lemma uchain_W s : W (uchain s) = length s.
Proof. induction s as [|x s IH]; simpl; [reflexivity|]. fold (uchain s). lia. Qed.
Lemma cost_uchain_fold fuel ps a : AInv a ->
  wpn (length ps * length ps) a (pfoldM (fun root item => m_branch fuel item (ANode root) (ANode (GLeaf true))) ps (GLeaf false)).
Proof.
  intros I0. set (K := length ps).
  set (Inv := fun (a : arena nat) (b : znode) (l : list nat) => exists s, asc 0 s /\ length s + length l <= K /\ nden a b (uchain s)).
  assert (G : wpn (list_sum (map (fun _ => K) ps)) a (pfoldM (fun root item => m_branch fuel item (ANode root) (ANode (GLeaf true))) ps (GLeaf false))).
  { apply (wpn_fold _ Inv); [|exact I0|].
    - intros b0 b x l' I1 (s & As & Hl & D). cbn [length] in Hl. split.
      + eapply wpn_le; [|eapply (cost_ins_lo fuel 0 x (uchain s) Always); [lia|apply uchain_wf; exact As|exact Logic.I|exact I1|simpl; exact D|simpl; constructor]].
        rewrite uchain_W. destruct s; [inversion D; simpl; lia|]. pose proof (argc_le (ANode b)). simpl in *. lia.
      + eapply (@wp_mono nat _); [|eapply (res_branch x (uchain s) Always); [|exact I1|simpl; exact D|simpl; constructor]].
        2: { rewrite (branch_ins_lo 0 x (uchain s) Always); [rewrite ins_lo_uchain; reflexivity|lia|discriminate|apply uchain_wf; exact As|exact Logic.I]. }
        intros a' r _ _ Dr. exists (ins_s x s). split; [apply ins_s_asc; [lia|exact As]|]. split; [|exact Dr].
        pose proof (ins_s_length x s). lia.
    - exists []. split; [exact Logic.I|]. split; [simpl; unfold K; lia|constructor]. }
  eapply wpn_le; [|exact G]. rewrite sum_const. apply Nat.le_refl.
Qed.

(** ** union *)
Lemma op2_res op m t1 t2 t : op2_spec op m t1 t2 -> op t1 t2 = Some t -> forall fuel a n1 n2, AInv a -> nden a n1 t1 -> nden a n2 t2 ->
  wp false a (m fuel n1 n2) (fun a' n => nden a' n t).
Proof. intros Hs E. destruct (Hs t E) as (F & S1). intros. apply S1; auto. intros X; discriminate X. Qed.

Lemma cost_union fuel : forall n t1 t2 a n1 n2, zwf n t1 -> zwf n t2 -> AInv a -> nden a n1 t1 -> nden a n2 t2 ->
  wpn (2 * (W t1 + W t2)) a (m_union fuel n1 n2).
Proof.
  induction fuel as [|k IH]; intros n t1 t2 a n1 n2 Z1 Z2 I0 D1 D2; [exact Logic.I|]. cbn [m_union].
  destruct (gnode_eqb n1 n2); [exact Logic.I|].
  destruct t1 as [b1|i1 l1 h1]; inversion D1; subst; destruct t2 as [b2|i2 l2 h2]; inversion D2; subst.
  - destruct b1, b2; exact Logic.I.
  - destruct b1; [|exact Logic.I]. pose proof Z2 as (Y1 & Y2 & Y3 & Y4). cget; [|apply Nat.le_refl].
    destruct (union_spec Always l2 (S i2) Logic.I Y3) as (r2 & E & Zr & _).
    cbind (op2_res _ _ _ _ _ (m_union_spec Always l2) E) (fun a n1 n2 => IH (S i2) Always l2 a n1 n2 Logic.I Y3); [eassumption|exact D1|exact D|eassumption|exact D1|exact D| |].
    + cget; [|apply Nat.le_refl]. eapply direct_nn; [exact Zr|exact Y4|eassumption|exact D0|exact D3].
    + pose proof (tc_le r2). pose proof (tc_le h2). simpl. lia.
  - destruct b2; [|exact Logic.I]. pose proof Z1 as (Y1 & Y2 & Y3 & Y4). cget; [|apply Nat.le_refl].
    destruct (union_spec l1 Always (S i1) Y3 Logic.I) as (r2 & E & Zr & _).
    cbind (op2_res _ _ _ _ _ (m_union_spec l1 Always) E) (fun a n1 n2 => IH (S i1) l1 Always a n1 n2 Y3 Logic.I); [eassumption|exact D|exact D2|eassumption|exact D|exact D2| |].
    + cget; [|apply Nat.le_refl]. eapply direct_nn; [exact Zr|exact Y4|eassumption|exact D0|exact D3].
    + pose proof (tc_le r2). pose proof (tc_le h1). simpl. lia.
  - pose proof Z1 as (X1 & X2 & X3 & X4). pose proof Z2 as (Y1 & Y2 & Y3 & Y4).
    destruct (Nat.ltb_spec i1 i2) as [Hi|Hi]; [|destruct (Nat.ltb_spec i2 i1) as [Hj|Hj]].
    + assert (Y : zwf (S i1) (Branch i2 l2 h2)) by (split; [lia|tauto]). cget; [|apply Nat.le_refl].
      destruct (union_spec l1 _ (S i1) X3 Y) as (r2 & E & Zr & _).
      cbind (op2_res _ _ _ _ _ (m_union_spec l1 _) E) (fun a n1 n2 => IH (S i1) l1 _ a n1 n2 X3 Y); [eassumption|exact D|exact D2|eassumption|exact D|exact D2| |].
      * cget; [|apply Nat.le_refl]. eapply direct_nn; [exact Zr|exact X4|eassumption|exact D0|exact D3].
      * pose proof (tc_le r2). pose proof (tc_le h1). cbn [W]. lia.
    + assert (X : zwf (S i2) (Branch i1 l1 h1)) by (split; [lia|tauto]). cget; [|apply Nat.le_refl].
      destruct (union_spec _ l2 (S i2) X Y3) as (r2 & E & Zr & _).
      cbind (op2_res _ _ _ _ _ (m_union_spec _ l2) E) (fun a n1 n2 => IH (S i2) _ l2 a n1 n2 X Y3); [eassumption|exact D1|exact D|eassumption|exact D1|exact D| |].
      * cget; [|apply Nat.le_refl]. eapply direct_nn; [exact Zr|exact Y4|eassumption|exact D0|exact D3].
      * pose proof (tc_le r2). pose proof (tc_le h2). cbn [W]. lia.
    + assert (i1 = i2) by lia. subst i2. cget; [|apply Nat.le_refl]. cget; [|apply Nat.le_refl].
      destruct (union_spec l1 l2 (S i1) X3 Y3) as (r2 & E & Zr & _). destruct (union_spec h1 h2 (S i1) X4 Y4) as (r3 & E' & Zr' & _).
      cbind (op2_res _ _ _ _ _ (m_union_spec l1 l2) E) (fun a n1 n2 => IH (S i1) l1 l2 a n1 n2 X3 Y3); [eassumption|exact D|exact D0|eassumption|exact D|exact D0| |].
      * cget; [|apply Nat.le_refl]. cget; [|apply Nat.le_refl].
        cbind (op2_res _ _ _ _ _ (m_union_spec h1 h2) E') (fun a n1 n2 => IH (S i1) h1 h2 a n1 n2 X4 Y4); [eassumption|exact D4|exact D5|eassumption|exact D4|exact D5| |apply Nat.le_refl].
        eapply direct_nn; [exact Zr|exact Zr'|eassumption|exact D3|exact D6].
      * pose proof (tc_le r2). pose proof (tc_le r3). cbn [W]. lia.
Qed.

Lemma cost_union_never fuel a n1 : wpn 0 a (m_union fuel n1 (GLeaf false)).
Proof. destruct fuel as [|k]; [exact Logic.I|]. cbn [m_union]. destruct (gnode_eqb _ _); [exact Logic.I|]. destruct n1 as [[|]|]; exact Logic.I. Qed.
(** ... with a single path: one new node or two on each level *)
Lemma cost_union_chain fuel : forall L n t s a n1 n2, zwf n t -> asc n s -> pbound L t -> (forall x, In x s -> x < L) -> AInv a -> nden a n1 t -> nden a n2 (chain s) ->
  wpn (2 * (L - n)) a (m_union fuel n1 n2).
Proof.
  induction fuel as [|k IH]; intros L n t s a n1 n2 Z1 As B1 Bs I0 D1 D2; [exact Logic.I|]. cbn [m_union].
  destruct (gnode_eqb n1 n2); [exact Logic.I|].
  destruct s as [|i2 s].
  - inversion D2; subst. destruct t as [b1|i1 l1 h1]; inversion D1; subst; [destruct b1; exact Logic.I|].
    pose proof (pbound_top _ _ _ _ _ Z1 B1) as Hi1.
    pose proof Z1 as (Y1 & Y2 & Y3 & Y4). cget; [|apply Nat.le_refl].
    destruct (union_spec l1 Always (S i1) Y3 Logic.I) as (r2 & E & Zr & _).
    cbind (op2_res _ _ _ _ _ (m_union_spec l1 Always) E) (fun a n1 n2 => IH L (S i1) l1 [] a n1 n2 Y3 Logic.I (pbound_lo _ _ _ _ B1) Bs); [eassumption|exact D|exact D2|eassumption|exact D|exact D2| |].
    + cget; [|apply Nat.le_refl]. eapply direct_nn; [exact Zr|exact Y4|eassumption|exact D0|exact D3].
    + pose proof (tc_le r2). pose proof (tc_le h1). lia.
  - assert (Hi2 : i2 < L) by (apply Bs; left; reflexivity). cbn [asc] in As. destruct As as [An As].
    assert (Bs' : forall x, In x s -> x < L) by (intros; apply Bs; right; auto).
    cbn [chain fold_right] in D2. fold (chain s) in D2.
    assert (Z2 : zwf n (Branch i2 Never (chain s))) by (apply (chain_wf n (i2 :: s)); split; auto).
    pose proof Z2 as (Y1 & Y2 & Y3 & Y4).
    destruct t as [b1|i1 l1 h1]; inversion D1; subst; inversion D2; subst.
    + destruct b1; [|exact Logic.I]. cget; [|apply Nat.le_refl]. inversion D; subst.
      destruct (union_spec Always Never (S i2) Logic.I Logic.I) as (r2 & E & Zr & _).
      cbind (op2_res _ _ _ _ _ (m_union_spec Always Never) E) (fun a n1 n2 => cost_union k (S i2) Always Never a n1 n2 Logic.I Logic.I); [eassumption|exact D1|exact D|eassumption|exact D1|exact D| |].
      * cget; [|apply Nat.le_refl]. eapply direct_nn; [exact Zr|exact Y4|eassumption|exact D0|exact D3].
      * pose proof (tc_le r2). pose proof (tc_le (chain s)). simpl. lia.
    + pose proof (pbound_top _ _ _ _ _ Z1 B1) as Hi1. pose proof Z1 as (X1 & X2 & X3 & X4).
      destruct (Nat.ltb_spec i1 i2) as [Hi|Hi]; [|destruct (Nat.ltb_spec i2 i1) as [Hj|Hj]].
      * assert (A' : asc (S i1) (i2 :: s)) by (split; [lia|exact As]).
        pose proof (chain_wf _ _ A') as Y. cget; [|apply Nat.le_refl].
        destruct (union_spec l1 _ (S i1) X3 Y) as (r2 & E & Zr & _).
        cbind (op2_res _ _ _ _ _ (m_union_spec l1 _) E) (fun a n1 n2 => IH L (S i1) l1 (i2 :: s) a n1 n2 X3 A' (pbound_lo _ _ _ _ B1) Bs); [eassumption|exact D|exact D2|eassumption|exact D|exact D2| |].
        { cget; [|apply Nat.le_refl]. eapply direct_nn; [exact Zr|exact X4|eassumption|exact D0|exact D3]. }
        { pose proof (tc_le r2). pose proof (tc_le h1). lia. }
      * assert (X : zwf (S i2) (Branch i1 l1 h1)) by (split; [lia|tauto]). cget; [|apply Nat.le_refl]. inversion D; subst.
        destruct (union_spec _ Never (S i2) X Logic.I) as (r2 & E & Zr & _).
        cbind (op2_res _ _ _ _ _ (m_union_spec _ Never) E) (fun a n1 => cost_union_never k a n1); [eassumption|exact D1|exact D| |].
        { cget; [|apply Nat.le_refl]. eapply direct_nn; [exact Zr|exact Y4|eassumption|exact D0|exact D3]. }
        { pose proof (tc_le r2). pose proof (tc_le (chain s)). lia. }
      * assert (i1 = i2) by lia. subst i2. cget; [|apply Nat.le_refl]. cget; [|apply Nat.le_refl]. inversion D0; subst.
        destruct (union_spec l1 Never (S i1) X3 Logic.I) as (r2 & E & Zr & _). destruct (union_spec h1 (chain s) (S i1) X4 Y4) as (r3 & E' & Zr' & _).
        cbind (op2_res _ _ _ _ _ (m_union_spec l1 Never) E) (fun a n1 => cost_union_never k a n1); [eassumption|exact D|exact D0| |].
        { cget; [|apply Nat.le_refl]. cget; [|apply Nat.le_refl].
          cbind (op2_res _ _ _ _ _ (m_union_spec h1 (chain s)) E') (fun a n1 n2 => IH L (S i1) h1 s a n1 n2 X4 As (pbound_hi _ _ _ _ B1) Bs'); [eassumption|exact D4|exact D5|eassumption|exact D4|exact D5| |apply Nat.le_refl].
          eapply direct_nn; [exact Zr|exact Zr'|eassumption|exact D3|exact D6]. }
        { pose proof (tc_le r2). pose proof (tc_le r3). lia. }
Qed.
