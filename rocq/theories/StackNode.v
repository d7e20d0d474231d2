(** StackNode: how deep the node functions of zdd2 recurse.  In Zdd2Prog a recursive call is made with
    one unit of fuel less than its caller was given, whichever of the functions is called: the fuel a
    call needs is the number of nested calls it makes, itself included. *)
From Coq Require Import List Arith Lia Bool Permutation Sorted.
From Verif Require Import Base DD Spec Zdd2Model Zdd2Node Zdd2Node2 Zdd2Univ Zdd2Forest Zdd2Forest2 Zdd2Forest3 Zdd2Laws.
From Verif Require Import ArenaModel ArenaProofs Zdd2Prog Zdd2ProgProofs.
Import ListNotations.

Definition below (n : nat) (t : node) : Prop := forall x, In x (labels t) -> x < n.

Lemma below_br n i lo hi : below n (Branch i lo hi) -> i < n /\ below n lo /\ below n hi.
Proof.
  intros B. split; [apply B; left; reflexivity|].
  split; intros x I; apply B; right; apply in_or_app; auto.
Qed.
Lemma below_leaf n b : below n (Leaf b).
Proof. intros x []. Qed.

Lemma zwf_label_path n (t : node) x : zwf n t -> In x (labels t) -> exists s, In s (paths t) /\ In x s.
Proof.
  revert n. induction t as [b|i lo IHl hi IHh]; intros n W I; [destruct I|].
  destruct W as (A1 & A2 & A3 & A4). simpl in I. rewrite in_app_iff in I. destruct I as [<-|[I|I]].
  - destruct (zwf_nonempty _ _ A4 A2) as (s & J). exists (i :: s). split; [apply paths_branch; eauto|left; reflexivity].
  - destruct (IHl _ A3 I) as (s & J & K). exists s. split; [apply paths_branch; auto|exact K].
  - destruct (IHh _ A4 I) as (s & J & K). exists (i :: s). split; [apply paths_branch; eauto|right; exact K].
Qed.

Lemma path_label (t : node) (s : list nat) x : In s (paths t) -> In x s -> In x (labels t).
Proof.
  revert s. induction t as [b|i lo IHl hi IHh]; intros s I J.
  - destruct b; simpl in I; [destruct I as [<-|[]]|destruct I]; destruct J.
  - apply paths_branch in I. simpl. rewrite in_app_iff. destruct I as [(s' & -> & I)|I]; [|right; left; eauto].
    destruct J as [<-|J]; [left; reflexivity|right; right; eauto].
Qed.

Lemma below_paths n l (t : node) : zwf l t -> (forall (s : list nat) x, In s (paths t) -> In x s -> x < n) -> below n t.
Proof. intros W P x I. destruct (zwf_label_path _ _ _ W I) as (s & J & K). eauto. Qed.

Lemma union_out n l t1 t2 t : zwf l t1 -> zwf l t2 -> below n t1 -> below n t2 -> union t1 t2 = Some t -> zwf l t /\ below n t.
Proof.
  intros W1 W2 B1 B2 E. destruct (union_spec t1 t2 l W1 W2) as (r & Er & Wr & P).
  rewrite E in Er. injection Er as <-. split; [exact Wr|]. apply (below_paths n l); [exact Wr|].
  intros s x I J. apply P in I. destruct I as [I|I]; [apply B1|apply B2]; eapply path_label; eauto.
Qed.
Lemma intersect_out n l t1 t2 t : zwf l t1 -> zwf l t2 -> below n t1 -> below n t2 -> intersect t1 t2 = Some t -> zwf l t /\ below n t.
Proof.
  intros W1 W2 B1 B2 E. destruct (intersect_spec t1 t2 l W1 W2) as (r & Er & Wr & _ & P).
  rewrite E in Er. injection Er as <-. split; [exact Wr|]. apply (below_paths n l); [exact Wr|].
  intros s x I J. destruct (P s I) as [(A & _)|(A & _)]; [apply B1|apply B2]; eapply path_label; eauto.
Qed.
Lemma product_out n l t1 t2 t : zwf l t1 -> zwf l t2 -> below n t1 -> below n t2 -> product t1 t2 = Some t -> zwf l t /\ below n t.
Proof.
  intros W1 W2 B1 B2 E. destruct (product_spec t1 t2 l W1 W2) as (r & Er & Wr & P & _).
  rewrite E in Er. injection Er as <-. split; [exact Wr|]. apply (below_paths n l); [exact Wr|].
  intros s x I J. destruct (P s I) as (a & b & A & B & U). apply U in J. destruct J as [J|J]; [apply B1|apply B2]; eapply path_label; eauto.
Qed.

(** ** Node::branch: one call if both sides are below the label; in general two more than the labels left *)
Lemma branch_depth_above d : forall n l id lo hi, n <= l + d -> zwf l lo -> below n lo -> zwf (S id) hi ->
  exists r, branch_f (S d) id lo hi = Some r.
Proof.
  induction d as [|d IH]; intros n l id lo hi Hd W B Wh.
  - destruct lo as [b|i a c]; [eexists; apply branch_f_direct; [exact Logic.I|exact Wh]|].
    destruct (below_br _ _ _ _ B) as (X & _). destruct W as (Y & _). lia.
  - destruct lo as [b|i a c]; [eexists; apply branch_f_direct; [exact Logic.I|exact Wh]|].
    destruct (below_br _ _ _ _ B) as (X & Ba & Bc). destruct W as (Y & Nc & Wa & Wc).
    assert (LT : i < id -> exists r, bind (branch_f (S d) id a hi) (fun low' => branch_f (S d) i low' c) = Some r).
    { intros Hi. destruct (IH n (S i) id a hi) as (r & E); [lia|exact Wa|exact Ba|exact Wh|]. rewrite E. cbn [bind].
      destruct (branch_total (S i) id a hi) as (r' & E' & Wr & _); [lia|exact Wa|apply (zwf_mono (S id)); [lia|exact Wh]|].
      assert (r' = r) as ->.
      { unfold branch in E'. pose proof (branch_f_mono _ (S d + (size a + size hi + 3)) _ _ _ _ E ltac:(lia)) as M1.
        pose proof (branch_f_mono _ (S d + (size a + size hi + 3)) _ _ _ _ E' ltac:(lia)) as M2. congruence. }
      eexists. apply branch_f_direct; [exact Wr|exact Wc]. }
    assert (EQ : i = id -> exists r, branch_f (S d) id a hi = Some r).
    { intros ->. eexists. apply branch_f_direct; [exact Wa|exact Wh]. }
    remember (S d) as k eqn:Ek. clear Ek. cbn [branch_f]. destruct hi as [[]|h hl hh]; [| eauto |].
    + destruct (Nat.ltb_spec i id); [apply LT; assumption|]. destruct (Nat.eqb_spec i id); [apply EQ; assumption|eauto].
    + simpl in Wh. destruct (Nat.ltb_spec h id); [lia|]. cbn [andb].
      destruct (Nat.ltb_spec i id); [apply LT; assumption|].
      destruct (Nat.eqb_spec h id); [lia|]. destruct (Nat.eqb_spec i id); [apply EQ; assumption|eauto].
Qed.

Lemma branch_f_is k id lo hi r t : branch_f k id lo hi = Some r -> branch id lo hi = Some t -> r = t.
Proof.
  intros E E'. unfold branch in E'.
  pose proof (branch_f_mono _ (k + (size lo + size hi + 3)) _ _ _ _ E ltac:(lia)) as M1.
  pose proof (branch_f_mono _ (k + (size lo + size hi + 3)) _ _ _ _ E' ltac:(lia)) as M2. congruence.
Qed.

Lemma branch_f_out k n id lo hi r : n <= id -> zwf n lo -> zwf n hi -> branch_f k id lo hi = Some r -> zwf n r.
Proof.
  intros L Wl Wh E. destruct (branch_total n id lo hi L Wl Wh) as (r' & E' & W & _).
  rewrite (branch_f_is _ _ _ _ _ _ E E'). exact W.
Qed.

Lemma branch_depth d : forall n l id lo hi, n <= l + d -> zwf l lo -> below n lo -> zwf l hi -> below n hi ->
  exists r, branch_f (S (S d)) id lo hi = Some r.
Proof.
  induction d as [|d IH]; intros n l id lo hi Hd Wl Bl Wh Bh.
  - destruct hi as [b|i a c]; [eapply branch_depth_above with (n := n) (l := l); auto; try lia; exact Logic.I|].
    destruct (below_br _ _ _ _ Bh) as (X & _). destruct Wh as (Y & _). lia.
  - destruct hi as [b|h hl hh].
    { destruct (branch_depth_above (S d) n l id lo (Leaf b) Hd Wl Bl Logic.I) as (r & E). exists r.
      eapply branch_f_mono; [exact E|lia]. }
    destruct (Nat.lt_ge_cases id h) as [G|G].
    { destruct (branch_depth_above (S d) n l id lo (Branch h hl hh)) as (r & E); auto.
      { destruct Wh as (Y & N & W1 & W2). repeat split; auto. }
      exists r. eapply branch_f_mono; [exact E|lia]. }
    destruct (below_br _ _ _ _ Bh) as (X & Bhl & Bhh). destruct Wh as (Y & Nh & Whl & Whh).
    assert (LT : h < id -> forall low, zwf l low -> below n low ->
              exists r, bind (branch_f (S (S d)) id hl hh) (fun high' => branch_f (S (S d)) h low high') = Some r).
    { intros Hh low Wlo Blo. destruct (IH n (S h) id hl hh) as (r & E); auto; [lia|]. rewrite E. cbn [bind].
      apply (branch_depth_above (S d) n l h low r); auto. apply (branch_f_out (S (S d)) (S h) id hl hh); auto. }
    assert (EQ : h = id -> forall low, zwf l low -> below n low -> exists r, branch_f (S (S d)) id low hh = Some r).
    { intros -> low Wlo Blo. apply (branch_depth_above (S d) n l id low hh); auto. }
    assert (IH' := IH). clear IH. assert (IH : forall (n l id : nat) (lo hi : node), n <= l + d -> zwf l lo -> below n lo -> zwf l hi -> below n hi -> exists r, branch_f (S (S d)) id lo hi = Some r) by exact IH'. clear IH'.
    remember (S (S d)) as k eqn:Ek. destruct lo as [b|i a c].
    + cbn [branch_f]. destruct (Nat.ltb_spec h id); [apply LT; assumption|].
      destruct (Nat.eqb_spec h id); [apply EQ; assumption|eauto].
    + destruct (below_br _ _ _ _ Bl) as (X' & Ba & Bc). pose proof Wl as Wl0. destruct Wl as (Y' & Nc & Wa & Wc).
      cbn [branch_f]. destruct (Nat.ltb_spec h id) as [Hh|Hh]; cbn [andb].
      * destruct (Nat.eqb_spec i h) as [->|Ni]; [|apply LT; assumption].
        destruct (IH n (S h) id a hl) as (r & E); auto; [lia|]. rewrite E. cbn [bind].
        destruct (IH n (S h) id c hh) as (r' & E'); auto; [lia|]. rewrite E'. cbn [bind].
        subst k. eexists. apply branch_f_direct.
        -- eapply branch_f_out; [|exact Wa|exact Whl|exact E]; lia.
        -- eapply branch_f_out; [|exact Wc|exact Whh|exact E']; lia.
      * assert (h = id) as -> by lia. destruct (Nat.ltb_spec i id) as [Hi|Hi].
        -- destruct (IH n (S i) id a (Branch id hl hh)) as (r & E); auto; [lia|simpl; repeat split; auto; lia|].
           rewrite E. cbn [bind]. subst k. eexists. apply branch_f_direct; [|exact Wc].
           eapply branch_f_out; [|exact Wa| |exact E]; [lia|]. simpl. repeat split; auto; lia.
        -- rewrite Nat.eqb_refl. apply EQ; auto.
Qed.

Lemma m_branch_direct id lo hi t : zwf (S id) lo -> zwf (S id) hi -> branch id lo hi = Some t ->
  forall fuel tot, enough 1 fuel tot -> forall a x y, AInv a -> aden a x lo -> aden a y hi ->
  wp tot a (m_branch fuel id x y) (fun a' n => nden a' n t).
Proof.
  intros Wl Wh E fuel tot Hf. eapply (m_branch_spec 1); [exact Hf|].
  rewrite (branch_f_direct 0 id lo hi Wl Wh). f_equal. rewrite (branch_direct _ _ _ Wl Wh) in E. congruence.
Qed.

Lemma m_branch_depth n l d id lo hi t : n <= l + d -> zwf l lo -> below n lo -> zwf l hi -> below n hi ->
  branch id lo hi = Some t ->
  forall fuel tot, enough (S (S d)) fuel tot -> forall a x y, AInv a -> aden a x lo -> aden a y hi ->
  wp tot a (m_branch fuel id x y) (fun a' n => nden a' n t).
Proof.
  intros Hd Wl Bl Wh Bh E fuel tot Hf. destruct (branch_depth d n l id lo hi) as (r & Er); auto.
  rewrite (branch_f_is _ _ _ _ _ _ Er E) in Er. eapply m_branch_spec; [exact Hf|exact Er].
Qed.

(** ** union, intersect, product: at most one call for every label, and one more *)
Definition depth2 (op : node -> node -> option node) (m : nat -> znode -> znode -> zprog znode) (n : nat) : Prop :=
  forall d l t1 t2 t, n <= l + d -> zwf l t1 -> zwf l t2 -> below n t1 -> below n t2 -> op t1 t2 = Some t ->
  forall fuel tot, enough (S d) fuel tot -> forall a n1 n2, AInv a -> nden a n1 t1 -> nden a n2 t2 ->
  wp tot a (m fuel n1 n2) (fun a' r => nden a' r t).

Ltac leafcase := intros; match goal with E : Some _ = Some _ |- _ => injection E as <- end; apply wp_nden; auto; constructor.

Lemma m_union_depth n : depth2 union m_union n.
Proof.
  intros d. induction d as [|d IH]; intros l t1 t2 t Hd W1 W2 B1 B2 E fuel tot Hf a n1 n2 I0 D1 D2; start Hf;
    cbn [m_union]; rewrite (gnode_eqb_den a n1 n2 _ _ I0 D1 D2); rewrite union_unfold in E;
    (destruct (dd_eqb t1 t2) eqn:Eq; [injection E as <-; apply wp_nden; auto|]).
  - assert (X : forall i a0 b0, zwf l (Branch i a0 b0) -> below n (Branch i a0 b0) -> False).
    { intros i a0 b0 W B. destruct (below_br _ _ _ _ B) as (X & _). destruct W as (Y & _). lia. }
    destruct t1 as [b1|]; [|exfalso; eauto]. destruct t2 as [b2|]; [|exfalso; eauto].
    inversion D1; subst; inversion D2; subst. destruct b1, b2; injection E as <-; apply wp_nden; constructor.
  - destruct t1 as [b1|i1 lo1 hi1]; destruct t2 as [b2|i2 lo2 hi2].
    + inversion D1; subst; inversion D2; subst. destruct b1, b2; injection E as <-; apply wp_nden; constructor.
    + destruct (below_br _ _ _ _ B2) as (X2 & Bl2 & Bh2). destruct W2 as (Y2 & N2 & Wl2 & Wh2).
      inversion D1; subst; inversion D2; subst. destruct b1; [|injection E as <-; apply wp_nden; auto].
      inv_bind E.
      destruct (union_out n (S i2) _ _ _ (Logic.I : zwf (S i2) (Leaf true)) Wl2 (below_leaf n true) Bl2 E0) as (Wx & Bx).
      getn. eapply (@wp_bind nat _); [eapply IH with (l := S i2); [lia|exact (Logic.I : zwf (S i2) (Leaf true))|exact Wl2|apply below_leaf|exact Bl2|exact E0|exact Hf|eassumption|exact D1|eassumption]|intros ? ? Ex Ix Dr; cbv beta in Dr; lift Ex; clear Ex|eassumption].
      getn. eapply m_branch_direct; [exact Wx|exact Wh2|exact E|enf Hf|eassumption|simpl; eassumption|simpl; eassumption].
    + destruct (below_br _ _ _ _ B1) as (X1 & Bl1 & Bh1). destruct W1 as (Y1 & N1 & Wl1 & Wh1).
      inversion D1; subst; inversion D2; subst. destruct b2; [|injection E as <-; apply wp_nden; auto].
      inv_bind E.
      destruct (union_out n (S i1) _ _ _ Wl1 (Logic.I : zwf (S i1) (Leaf true)) Bl1 (below_leaf n true) E0) as (Wx & Bx).
      getn. eapply (@wp_bind nat _); [eapply IH with (l := S i1); [lia|exact Wl1|exact (Logic.I : zwf (S i1) (Leaf true))|exact Bl1|apply below_leaf|exact E0|exact Hf|eassumption|eassumption|exact D2]|intros ? ? Ex Ix Dr; cbv beta in Dr; lift Ex; clear Ex|eassumption].
      getn. eapply m_branch_direct; [exact Wx|exact Wh1|exact E|enf Hf|eassumption|simpl; eassumption|simpl; eassumption].
    + destruct (below_br _ _ _ _ B1) as (X1 & Bl1 & Bh1). destruct (below_br _ _ _ _ B2) as (X2 & Bl2 & Bh2).
      pose proof W1 as W1'. pose proof W2 as W2'.
      destruct W1 as (Y1 & N1 & Wl1 & Wh1). destruct W2 as (Y2 & N2 & Wl2 & Wh2).
      inversion D1; subst; inversion D2; subst. destruct (Nat.ltb_spec i1 i2) as [L|G]; [|destruct (Nat.ltb_spec i2 i1) as [L|G']].
      * assert (W2s : zwf (S i1) (Branch i2 lo2 hi2)) by (repeat split; auto). inv_bind E.
        destruct (union_out n (S i1) _ _ _ Wl1 W2s Bl1 B2 E0) as (Wx & Bx).
        getn. eapply (@wp_bind nat _); [eapply IH with (l := S i1); [lia|exact Wl1|exact W2s|exact Bl1|exact B2|exact E0|exact Hf|eassumption|eassumption|exact D2]|intros ? ? Ex Ix Dr; cbv beta in Dr; lift Ex; clear Ex|eassumption].
        getn. eapply m_branch_direct; [exact Wx|exact Wh1|exact E|enf Hf|eassumption|simpl; eassumption|simpl; eassumption].
      * assert (W1s : zwf (S i2) (Branch i1 lo1 hi1)) by (repeat split; auto). inv_bind E.
        destruct (union_out n (S i2) _ _ _ W1s Wl2 B1 Bl2 E0) as (Wx & Bx).
        getn. eapply (@wp_bind nat _); [eapply IH with (l := S i2); [lia|exact W1s|exact Wl2|exact B1|exact Bl2|exact E0|exact Hf|eassumption|exact D1|eassumption]|intros ? ? Ex Ix Dr; cbv beta in Dr; lift Ex; clear Ex|eassumption].
        getn. eapply m_branch_direct; [exact Wx|exact Wh2|exact E|enf Hf|eassumption|simpl; eassumption|simpl; eassumption].
      * assert (i1 = i2) as -> by lia. inv_bind E. inv_bind E.
        destruct (union_out n (S i2) _ _ _ Wl1 Wl2 Bl1 Bl2 E0) as (Wx & Bx).
        destruct (union_out n (S i2) _ _ _ Wh1 Wh2 Bh1 Bh2 E1) as (Wy & By).
        getn. getn. eapply (@wp_bind nat _); [eapply IH with (l := S i2); [lia|exact Wl1|exact Wl2|exact Bl1|exact Bl2|exact E0|exact Hf|eassumption|eassumption|eassumption]|intros ? ? Ex Ix Dr; cbv beta in Dr; lift Ex; clear Ex|eassumption].
        getn. getn. eapply (@wp_bind nat _); [eapply IH with (l := S i2); [lia|exact Wh1|exact Wh2|exact Bh1|exact Bh2|exact E1|exact Hf|eassumption|eassumption|eassumption]|intros ? ? Ey Iy Dr2; cbv beta in Dr2; lift Ey; clear Ey|eassumption].
        eapply m_branch_direct; [exact Wx|exact Wy|exact E|enf Hf|eassumption|simpl; eassumption|simpl; eassumption].
Qed.

Lemma no_label n l i (a b : node) : n <= l + 0 -> zwf l (Branch i a b) -> below n (Branch i a b) -> False.
Proof. intros Hd W B. destruct (below_br _ _ _ _ B) as (X & _). destruct W as (Y & _). lia. Qed.

Ltac mbranch Wx Wy E Hf := eapply m_branch_direct; [exact Wx|exact Wy|exact E|enf Hf|eassumption|simpl; eassumption|simpl; eassumption].

Lemma m_intersect_depth n : depth2 intersect m_intersect n.
Proof.
  intros d. induction d as [|d IH]; intros l t1 t2 t Hd W1 W2 B1 B2 E fuel tot Hf a n1 n2 I0 D1 D2; start Hf;
    cbn [m_intersect]; rewrite (gnode_eqb_den a n1 n2 _ _ I0 D1 D2); rewrite intersect_unfold in E;
    (destruct (dd_eqb t1 t2) eqn:Eq; [injection E as <-; apply wp_nden; auto|]).
  - destruct t1 as [b1|]; [|exfalso; eapply no_label; eauto]. destruct t2 as [b2|]; [|exfalso; eapply no_label; eauto].
    inversion D1; subst; inversion D2; subst. destruct b1, b2; injection E as <-; apply wp_nden; constructor.
  - destruct t1 as [b1|i1 lo1 hi1]; destruct t2 as [b2|i2 lo2 hi2].
    + inversion D1; subst; inversion D2; subst. destruct b1, b2; injection E as <-; apply wp_nden; constructor.
    + inversion D1; subst; inversion D2; subst. destruct b1; injection E as <-; apply wp_nden; auto; constructor.
    + inversion D1; subst; inversion D2; subst. destruct b2; injection E as <-; apply wp_nden; auto; constructor.
    + destruct (below_br _ _ _ _ B1) as (X1 & Bl1 & Bh1). destruct (below_br _ _ _ _ B2) as (X2 & Bl2 & Bh2).
      pose proof W1 as W1'. pose proof W2 as W2'.
      destruct W1 as (Y1 & N1 & Wl1 & Wh1). destruct W2 as (Y2 & N2 & Wl2 & Wh2).
      inversion D1; subst; inversion D2; subst. destruct (Nat.ltb_spec i1 i2) as [L|G]; [|destruct (Nat.ltb_spec i2 i1) as [L|G']].
      * assert (W2s : zwf (S i1) (Branch i2 lo2 hi2)) by (repeat split; auto).
        getn. eapply (IH (S i1) _ _ _ ltac:(lia) Wl1 W2s Bl1 B2 E); [exact Hf|eassumption|eassumption|exact D2].
      * assert (W1s : zwf (S i2) (Branch i1 lo1 hi1)) by (repeat split; auto).
        getn. eapply (IH (S i2) _ _ _ ltac:(lia) W1s Wl2 B1 Bl2 E); [exact Hf|eassumption|exact D1|eassumption].
      * assert (i1 = i2) as -> by lia. inv_bind E. inv_bind E.
        destruct (intersect_out n (S i2) _ _ _ Wl1 Wl2 Bl1 Bl2 E0) as (Wx & Bx).
        destruct (intersect_out n (S i2) _ _ _ Wh1 Wh2 Bh1 Bh2 E1) as (Wy & By).
        getn. getn. step (IH (S i2) _ _ _ ltac:(lia) Wl1 Wl2 Bl1 Bl2 E0); [exact Hf|eassumption|eassumption|eassumption|].
        getn. getn. step (IH (S i2) _ _ _ ltac:(lia) Wh1 Wh2 Bh1 Bh2 E1); [exact Hf|eassumption|eassumption|eassumption|].
        mbranch Wx Wy E Hf.
Qed.

Lemma m_product_depth n : depth2 product m_product n.
Proof.
  intros d. induction d as [|d IH]; intros l t1 t2 t Hd W1 W2 B1 B2 E fuel tot Hf a n1 n2 I0 D1 D2; start Hf;
    cbn [m_product]; rewrite (gnode_eqb_den a n1 n2 _ _ I0 D1 D2); rewrite product_unfold in E;
    (destruct (dd_eqb t1 t2) eqn:Eq; [injection E as <-; apply wp_nden; auto|]).
  - destruct t1 as [b1|]; [|exfalso; eapply no_label; eauto]. destruct t2 as [b2|]; [|exfalso; eapply no_label; eauto].
    inversion D1; subst; inversion D2; subst. destruct b1, b2; injection E as <-; apply wp_nden; constructor.
  - destruct t1 as [b1|i1 lo1 hi1]; destruct t2 as [b2|i2 lo2 hi2].
    + inversion D1; subst; inversion D2; subst. destruct b1, b2; injection E as <-; apply wp_nden; constructor.
    + inversion D1; subst; inversion D2; subst. destruct b1; injection E as <-; apply wp_nden; auto; constructor.
    + inversion D1; subst; inversion D2; subst. destruct b2; injection E as <-; apply wp_nden; auto; constructor.
    + destruct (below_br _ _ _ _ B1) as (X1 & Bl1 & Bh1). destruct (below_br _ _ _ _ B2) as (X2 & Bl2 & Bh2).
      pose proof W1 as W1'. pose proof W2 as W2'.
      destruct W1 as (Y1 & N1 & Wl1 & Wh1). destruct W2 as (Y2 & N2 & Wl2 & Wh2).
      inversion D1; subst; inversion D2; subst. destruct (Nat.ltb_spec i1 i2) as [L|G]; [|destruct (Nat.ltb_spec i2 i1) as [L|G']].
      * assert (W2s : zwf (S i1) (Branch i2 lo2 hi2)) by (repeat split; auto). inv_bind E. inv_bind E.
        destruct (product_out n (S i1) _ _ _ Wl1 W2s Bl1 B2 E0) as (Wx & Bx).
        destruct (product_out n (S i1) _ _ _ Wh1 W2s Bh1 B2 E1) as (Wy & By).
        getn. step (IH (S i1) _ _ _ ltac:(lia) Wl1 W2s Bl1 B2 E0); [exact Hf|eassumption|eassumption|exact D2|].
        getn. step (IH (S i1) _ _ _ ltac:(lia) Wh1 W2s Bh1 B2 E1); [exact Hf|eassumption|eassumption|exact D2|].
        mbranch Wx Wy E Hf.
      * assert (W1s : zwf (S i2) (Branch i1 lo1 hi1)) by (repeat split; auto). inv_bind E. inv_bind E.
        destruct (product_out n (S i2) _ _ _ W1s Wl2 B1 Bl2 E0) as (Wx & Bx).
        destruct (product_out n (S i2) _ _ _ W1s Wh2 B1 Bh2 E1) as (Wy & By).
        getn. step (IH (S i2) _ _ _ ltac:(lia) W1s Wl2 B1 Bl2 E0); [exact Hf|eassumption|exact D1|eassumption|].
        getn. step (IH (S i2) _ _ _ ltac:(lia) W1s Wh2 B1 Bh2 E1); [exact Hf|eassumption|exact D1|eassumption|].
        mbranch Wx Wy E Hf.
      * assert (i1 = i2) as -> by lia. inv_bind E. inv_bind E. inv_bind E. inv_bind E. inv_bind E. inv_bind E.
        destruct (product_out n (S i2) _ _ _ Wl1 Wl2 Bl1 Bl2 E0) as (Wx & Bx).
        destruct (product_out n (S i2) _ _ _ Wl1 Wh2 Bl1 Bh2 E1) as (Wx0 & Bx0).
        destruct (product_out n (S i2) _ _ _ Wh1 Wl2 Bh1 Bl2 E2) as (Wx1 & Bx1).
        destruct (product_out n (S i2) _ _ _ Wh1 Wh2 Bh1 Bh2 E3) as (Wx2 & Bx2).
        destruct (union_out n (S i2) _ _ _ Wx1 Wx2 Bx1 Bx2 E4) as (Wx3 & Bx3).
        destruct (union_out n (S i2) _ _ _ Wx0 Wx3 Bx0 Bx3 E5) as (Wx4 & Bx4).
        getn. getn. step (IH (S i2) _ _ _ ltac:(lia) Wl1 Wl2 Bl1 Bl2 E0); [exact Hf|eassumption|eassumption|eassumption|].
        getn. getn. step (IH (S i2) _ _ _ ltac:(lia) Wl1 Wh2 Bl1 Bh2 E1); [exact Hf|eassumption|eassumption|eassumption|].
        getn. getn. step (IH (S i2) _ _ _ ltac:(lia) Wh1 Wl2 Bh1 Bl2 E2); [exact Hf|eassumption|eassumption|eassumption|].
        getn. getn. step (IH (S i2) _ _ _ ltac:(lia) Wh1 Wh2 Bh1 Bh2 E3); [exact Hf|eassumption|eassumption|eassumption|].
        step (m_union_depth n d (S i2) _ _ _ ltac:(lia) Wx1 Wx2 Bx1 Bx2 E4); [exact Hf|eassumption|eassumption|eassumption|].
        step (m_union_depth n d (S i2) _ _ _ ltac:(lia) Wx0 Wx3 Bx0 Bx3 E5); [exact Hf|eassumption|eassumption|eassumption|].
        mbranch Wx Wx4 E Hf.
Qed.

(** ** subset, subset_not *)
Lemma branch_labels n id lo hi r : n <= id -> zwf n lo -> zwf n hi -> branch id lo hi = Some r ->
  zwf n r /\ forall x, In x (labels r) -> x = id \/ In x (labels lo) \/ In x (labels hi).
Proof. intros L Wl Wh E. destruct (branch_total n id lo hi L Wl Wh) as (r' & E' & X). rewrite E in E'. injection E' as <-. exact X. Qed.

Lemma branch_below n l id lo hi r : l <= id -> id < n -> zwf l lo -> zwf l hi -> below n lo -> below n hi -> branch id lo hi = Some r ->
  zwf l r /\ below n r.
Proof.
  intros L X Wl Wh Bl Bh E. destruct (branch_labels l id lo hi r L Wl Wh E) as (W & P). split; [exact W|].
  intros x I. destruct (P x I) as [->|[J|J]]; auto.
Qed.

Lemma subset_inner_out n e t : forall l r k, zwf l t -> below n t -> subset_inner t e = Some (r, k) -> zwf l r /\ below n r.
Proof.
  induction t as [b|i lo IHl hi IHh]; intros l r k W B E.
  - injection E as <- <-. auto.
  - destruct (below_br _ _ _ _ B) as (X & Bl & Bh). destruct W as (Y & N & Wl & Wh). cbn [subset_inner] in E.
    destruct (e =? i).
    + inv_bind E. injection E as <- <-. eapply (branch_below n l i); [exact Y|exact X|exact (Logic.I : zwf l (Leaf false))|apply (zwf_mono (S i)); [lia|exact Wh]|apply below_leaf|exact Bh|exact E0].
    + inv_bind E. inv_bind E. destruct x as (rl & kl), x0 as (rh & kh).
      destruct (IHl _ _ _ Wl Bl E0) as (Wrl & Brl). destruct (IHh _ _ _ Wh Bh E1) as (Wrh & Brh).
      assert (Red : forall v : node * bool, zwf (S i) (fst v) -> below n (fst v) -> zwf (S i) (fst (reduce_branch v)) /\ below n (fst (reduce_branch v))).
      { intros (v & b) W0 B0. unfold reduce_branch. destruct b; cbn [fst snd] in *; [auto|split; [exact Logic.I|apply below_leaf]]. }
      destruct (Red (rl, kl) Wrl Brl) as (W1 & B1). destruct (Red (rh, kh) Wrh Brh) as (W2 & B2).
      destruct (reduce_branch (rl, kl)) as (lo' & bl). destruct (reduce_branch (rh, kh)) as (hi' & bh). cbn [fst] in *.
      inv_bind E. injection E as <- <-.
      eapply (branch_below n l i); [exact Y|exact X|apply (zwf_mono (S i)); [lia|exact W1]|apply (zwf_mono (S i)); [lia|exact W2]|exact B1|exact B2|exact E2].
Qed.

Lemma node_subset_not_out n e t : forall l r, zwf l t -> below n t -> node_subset_not t e = Some r -> zwf l r /\ below n r.
Proof.
  induction t as [b|i lo IHl hi IHh]; intros l r W B E.
  - injection E as <-. auto.
  - destruct (below_br _ _ _ _ B) as (X & Bl & Bh). destruct W as (Y & N & Wl & Wh). cbn [node_subset_not] in E.
    destruct (e =? i).
    + injection E as <-. split; [apply (zwf_mono (S i)); [lia|exact Wl]|exact Bl].
    + inv_bind E. inv_bind E.
      destruct (IHl _ _ Wl Bl E0) as (W1 & B1). destruct (IHh _ _ Wh Bh E1) as (W2 & B2).
      eapply (branch_below n l i); [exact Y|exact X|apply (zwf_mono (S i)); [lia|exact W1]|apply (zwf_mono (S i)); [lia|exact W2]|exact B1|exact B2|exact E].
Qed.

Lemma m_subset_inner_depth n e d : forall l t v, n <= l + d -> zwf l t -> below n t -> subset_inner t e = Some v ->
  forall fuel tot, enough (S d) fuel tot -> forall a m, AInv a -> nden a m t ->
  wp tot a (m_subset_inner fuel m e) (fun a' r => mden a' r v).
Proof.
  induction d as [|d IH]; intros l t v Hd W B E fuel tot Hf a m I0 D; start Hf.
  - destruct t as [b|]; [|exfalso; eapply no_label; eauto]. injection E as <-. inversion D; subst.
    apply (@wp_ret nat _). intros a' Ex _. split; simpl; auto. constructor.
  - destruct t as [b|i lo hi].
    { injection E as <-. inversion D; subst. apply (@wp_ret nat _). intros a' Ex _. split; simpl; auto. constructor. }
    destruct (below_br _ _ _ _ B) as (X & Bl & Bh). destruct W as (Y & N & Wl & Wh). cbn [subset_inner] in E.
    inversion D; subst. cbn [m_subset_inner]. destruct (e =? i) eqn:Ee.
    + inv_bind E. injection E as <-.
      step (m_branch_direct i (Leaf false) hi x Logic.I Wh E0); [enf Hf|eassumption|exact (den_leaf a false I0)|simpl;eassumption|].
      apply (@wp_ret nat _). intros a' Ex _. lift Ex. split; auto.
    + inv_bind E. inv_bind E. destruct x as (rl & kl), x0 as (rh & kh).
      destruct (subset_inner_out n e _ _ _ _ Wl Bl E0) as (Wrl & Brl). destruct (subset_inner_out n e _ _ _ _ Wh Bh E1) as (Wrh & Brh).
      assert (Red : forall v : node * bool, zwf (S i) (fst v) -> zwf (S i) (fst (reduce_branch v))).
      { intros (v0 & b) W0. unfold reduce_branch. destruct b; cbn [fst snd] in *; [auto|exact Logic.I]. }
      pose proof (Red (rl, kl) Wrl) as W1. pose proof (Red (rh, kh) Wrh) as W2.
      destruct (reduce_branch (rl, kl)) as (lo' & bl) eqn:Rl. destruct (reduce_branch (rh, kh)) as (hi' & bh) eqn:Rh. cbn [fst] in *.
      inv_bind E. injection E as <-.
      getn. step (IH (S i) lo _ ltac:(lia) Wl Bl E0); [exact Hf|eassumption|eassumption|].
      match goal with Dr : mden _ ?r (rl, kl) |- _ => apply reduce_den in Dr; rewrite Rl in Dr; destruct (m_reduce_branch r) as [ml nl]; destruct Dr as [Da Qa]; simpl in Da, Qa; subst nl end.
      getn. step (IH (S i) hi _ ltac:(lia) Wh Bh E1); [exact Hf|eassumption|eassumption|].
      match goal with Dr : mden _ ?r (rh, kh) |- _ => apply reduce_den in Dr; rewrite Rh in Dr; destruct (m_reduce_branch r) as [mh nh]; destruct Dr as [Db Qb]; simpl in Db, Qb; subst nh end.
      step (m_branch_direct i lo' hi' x W1 W2 E2); [enf Hf|eassumption|simpl;eassumption|simpl;eassumption|].
      apply (@wp_ret nat _). intros a' Ex _. lift Ex. split; auto.
Qed.

Lemma m_node_subset_depth n e d l t t' : n <= l + d -> zwf l t -> below n t -> node_subset t e = Some t' ->
  forall fuel tot, enough (S d) fuel tot -> forall a m, AInv a -> nden a m t ->
  wp tot a (m_node_subset fuel m e) (fun a' r => nden a' r t').
Proof.
  intros Hd W B E fuel tot Hf a m I0 D. unfold node_subset in E. inv_bind E. injection E as <-. unfold m_node_subset.
  step (m_subset_inner_depth n e d l t x Hd W B E0); [exact Hf|eassumption|eassumption|].
  match goal with Dr : mden _ _ _ |- _ => destruct Dr as [Da _] end.
  apply (@wp_ret nat _). intros a' Ex _. lift Ex. auto.
Qed.

Lemma node_subset_out n e l t t' : zwf l t -> below n t -> node_subset t e = Some t' -> zwf l t' /\ below n t'.
Proof.
  intros W B E. unfold node_subset in E. inv_bind E. injection E as <-. destruct x as (r & k).
  exact (subset_inner_out n e t l r k W B E0).
Qed.

Lemma m_node_subset_not_depth n e d : forall l t t', n <= l + d -> zwf l t -> below n t -> node_subset_not t e = Some t' ->
  forall fuel tot, enough (S d) fuel tot -> forall a m, AInv a -> nden a m t ->
  wp tot a (m_node_subset_not fuel m e) (fun a' r => nden a' r t').
Proof.
  induction d as [|d IH]; intros l t v Hd W B E fuel tot Hf a m I0 D; start Hf.
  - destruct t as [b|]; [|exfalso; eapply no_label; eauto]. injection E as <-. inversion D; subst. apply wp_nden. constructor.
  - destruct t as [b|i lo hi].
    { injection E as <-. inversion D; subst. apply wp_nden. constructor. }
    destruct (below_br _ _ _ _ B) as (X & Bl & Bh). destruct W as (Y & N & Wl & Wh). cbn [node_subset_not] in E.
    inversion D; subst. cbn [m_node_subset_not]. destruct (e =? i) eqn:Ee.
    + injection E as <-. apply (@wp_get_node nat _). assumption.
    + inv_bind E. inv_bind E.
      destruct (node_subset_not_out n e _ _ _ Wl Bl E0) as (W1 & B1). destruct (node_subset_not_out n e _ _ _ Wh Bh E1) as (W2 & B2).
      getn. step (IH (S i) lo _ ltac:(lia) Wl Bl E0); [exact Hf|eassumption|eassumption|].
      getn. step (IH (S i) hi _ ltac:(lia) Wh Bh E1); [exact Hf|eassumption|eassumption|].
      mbranch W1 W2 E Hf.
Qed.

(** ** subset_all, subset_none *)
Lemma m_filter_depth n (f : node -> nat -> option node) (mf : nat -> znode -> nat -> zprog znode) d l t :
  n <= l + d -> zwf l t -> below n t ->
  (forall e t', f t e = Some t' -> zwf l t' /\ below n t') ->
  (forall e t', f t e = Some t' -> forall fuel tot, enough (S d) fuel tot -> forall a m, AInv a -> nden a m t ->
     wp tot a (mf fuel m e) (fun a' r => nden a' r t')) ->
  forall es acc t', zwf l acc -> below n acc -> foldM (fun acc e => let! s := f t e in intersect acc s) es acc = Some t' ->
  (zwf l t' /\ below n t') /\
  forall fuel tot, enough (S d) fuel tot -> forall a m ma, AInv a -> nden a m t -> nden a ma acc ->
  wp tot a (pfoldM (fun acc e => do s <- mf fuel m e ; m_intersect fuel acc s) es ma) (fun a' r => nden a' r t').
Proof.
  intros Hd W B Out Sp es. induction es as [|e es IH]; intros acc t' Wa Ba E; cbn [foldM] in E.
  - injection E as <-. split; [auto|]. intros fuel tot Hf a m ma I0 D Da. cbn [pfoldM]. apply wp_nden. exact Da.
  - inv_bind E. inv_bind E0. destruct (Out _ _ E1) as (Ws & Bs).
    destruct (intersect_out n l _ _ _ Wa Ws Ba Bs E0) as (Wx & Bx).
    destruct (IH _ _ Wx Bx E) as (O & S2). split; [exact O|].
    intros fuel tot Hf a m ma I0 D Da. cbn [pfoldM].
    eapply (@wp_bind nat _) with (Q := fun a' r => nden a' r x).
    + step (Sp e x0 E1 fuel tot Hf); [eassumption|eassumption|].
      eapply (m_intersect_depth n d l _ _ _ Hd Wa Ws Ba Bs E0); [exact Hf|eassumption|eassumption|eassumption].
    + intros a' r Ex Ix Dr. cbv beta in Dr. lift Ex. apply S2; auto.
    + exact I0.
Qed.

Lemma m_node_subset_all_depth n es d l t t' : n <= l + d -> zwf l t -> below n t -> node_subset_all t es = Some t' ->
  (zwf l t' /\ below n t') /\
  forall fuel tot, enough (S d) fuel tot -> forall a m, AInv a -> nden a m t ->
  wp tot a (m_node_subset_all fuel m es) (fun a' r => nden a' r t').
Proof.
  intros Hd W B E. destruct (m_filter_depth n node_subset m_node_subset d l t Hd W B
    (fun e t' E => node_subset_out n e l t t' W B E) (fun e t' E => m_node_subset_depth n e d l t t' Hd W B E)
    es Always t' Logic.I (below_leaf n true) E) as (O & S1).
  split; [exact O|]. intros fuel tot Hf a m I0 D. unfold m_node_subset_all. apply S1; auto. constructor.
Qed.
Lemma m_node_subset_none_depth n es d l t t' : n <= l + d -> zwf l t -> below n t -> node_subset_none t es = Some t' ->
  (zwf l t' /\ below n t') /\
  forall fuel tot, enough (S d) fuel tot -> forall a m, AInv a -> nden a m t ->
  wp tot a (m_node_subset_none fuel m es) (fun a' r => nden a' r t').
Proof.
  intros Hd W B E. destruct (m_filter_depth n node_subset_not m_node_subset_not d l t Hd W B
    (fun e t' E => node_subset_not_out n e t l t' W B E) (fun e t' E => m_node_subset_not_depth n e d l t t' Hd W B E)
    es Always t' Logic.I (below_leaf n true) E) as (O & S1).
  split; [exact O|]. intros fuel tot Hf a m I0 D. unfold m_node_subset_none. apply S1; auto. constructor.
Qed.
