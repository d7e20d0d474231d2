(** Cost: explicit bounds on the accesses of the calls that walk diagrams. *)
From Coq Require Import List Arith Lia Bool Permutation.
From Verif Require Import Base DD Spec Zdd2Model ZddModel BddSpec BddModel BddRun ArenaModel ArenaProofs PoolModel PoolProofs ZddProg ZddProgProofs BddProg BddProgProofs BddNode.
From Verif Require Import GrowthSpec GrowthCalls StackModel StackThm StackZModel StackZdd StackBModel StackB StepsModel Steps StepsZ StepsB CostModel.
Import ListNotations.

Fixpoint cost (d : nat) : nat := match d with O => 0 | S k => 6 + 2 * cost k end.
Lemma cost_pow d : cost d + 6 = 6 * 2 ^ d.
Proof. induction d as [|k IH]; [reflexivity|]. cbn [cost]. rewrite Nat.pow_succ_r'. lia. Qed.

Section Zdd.
  Context {T : Type} `{Ord T}.
  Lemma cz_union fuel : forall n1 n2, am (cost fuel) (m_zunion fuel n1 n2) any.
  Proof. pose proof amz_finish as F. induction fuel as [|k IH]; intros n1 n2; [exact Logic.I|]. cbn [m_zunion cost]. ams. Qed.
  Lemma cz_intersect fuel : forall n1 n2, am (cost fuel) (m_zintersect fuel n1 n2) any.
  Proof. pose proof amz_finish as F. induction fuel as [|k IH]; intros n1 n2; [exact Logic.I|]. cbn [m_zintersect cost]. ams. Qed.
  Lemma cz_product fuel : forall n1 n2, am (cost fuel) (m_zproduct fuel n1 n2) any.
  Proof. pose proof amz_finish as F. induction fuel as [|k IH]; intros n1 n2; [exact Logic.I|]. cbn [m_zproduct cost]. ams. Qed.
  Lemma cz_inner fuel : forall r path, am (cost fuel) (m_zcomb_inner fuel r path) any.
  Proof. induction fuel as [|k IH]; intros r path; [exact Logic.I|]. cbn [m_zcomb_inner cost]. ams. Qed.
  Lemma cz_print fuel : forall n, am (cost fuel) (m_zprint fuel n) any.
  Proof. induction fuel as [|k IH]; intros n; [exact Logic.I|]. cbn [m_zprint cost]. ams. Qed.
  Lemma cz_traverse fuel : forall (u : zuniverse T) r, am (cost fuel) (m_ztraverse fuel u r) any.
  Proof. induction fuel as [|k IH]; intros u r; [exact Logic.I|]. cbn [m_ztraverse cost]. ams. Qed.
  Lemma widest_wide (cs : list (list T)) c : In c cs -> length c <= widest cs.
  Proof.
    intros J. destruct (multi_sub c (merged cs) (fun x => times_merged cs c x J)) as (d & P). apply Permutation_length in P.
    rewrite app_length, merged_length in P. lia.
  Qed.
  Lemma cz_hyper fuel (u : zuniverse T) cs : S (widest cs) <= fuel -> am (2 * length cs * (cost fuel + 6)) (m_zhyper fuel u cs) any.
  Proof.
    intros L. pose proof (cost_pow fuel) as P. pose proof (Nat.pow_gt_lin_r 2 fuel ltac:(lia)) as G. unfold m_zhyper.
    replace (2 * length cs * (cost fuel + 6)) with (2 * (cost fuel + 6) * length cs) by lia.
    apply am_folds; [|apply Nat.le_refl]. intros c b Hc. pose proof (widest_wide cs c Hc) as W. pose proof (cz_union fuel) as U.
    eapply am_bind; [apply (amz_tree u c _ W)| |intros t _; unfold m_zop; eapply (am_le _ (3 + cost fuel) _ any); [lia|intros x J; exact J|ams]]. lia.
  Qed.
  Lemma cz_call (c : zcall T) ts w fuel ms : zwalks c = Some w -> need fuel ts c -> am (w * (6 * 2 ^ fuel)) (m_zcall fuel ms c) any.
  Proof.
    pose proof (cost_pow fuel) as P. pose proof (cz_union fuel) as U. pose proof (cz_intersect fuel) as X. pose proof (cz_product fuel) as Y.
    pose proof (cz_inner fuel) as C. pose proof (cz_print fuel) as R. pose proof (cz_traverse fuel) as V.
    destruct c; cbn [zwalks need]; intros E Nd; try discriminate E; injection E as <-; rewrite <- P; cbn [m_zcall]; unfold mznew, m_zop, m_zcombinations_recursive, m_zcomb_recursive.
    1-2: eapply am_bind; [apply cz_hyper; exact Nd| |intros; exact Logic.I]; rewrite ?map_length; lia.
    1-3: eapply (am_bind _ _ (3 + cost fuel) _ any); [ams|lia|intros; exact Logic.I].
    - eapply (am_bind _ _ (cost fuel) _ any); [|lia|intros; exact Logic.I]. eapply (am_bind _ _ (cost fuel) _ any); [|lia|intros; exact Logic.I]. ams.
    - ams.
    - ams.
  Qed.
End Zdd.

Section Bdd.
  Context {I : Type} `{OI : Ord I}.
  Notation nd := (gnode I).
  Lemma cb_or fuel : forall n1 n2 : nd, am (cost fuel) (m_bitor fuel n1 n2) any.
  Proof. pose proof (amb_collapse (I := I)) as C. pose proof (amb_split (I := I)) as S. induction fuel as [|k IH]; intros n1 n2; [exact Logic.I|]. cbn [m_bitor cost]. unfold m_both. ams. Qed.
  Lemma cb_and fuel : forall n1 n2 : nd, am (cost fuel) (m_bitand fuel n1 n2) any.
  Proof. pose proof (amb_collapse (I := I)) as C. pose proof (amb_split (I := I)) as S. induction fuel as [|k IH]; intros n1 n2; [exact Logic.I|]. cbn [m_bitand cost]. unfold m_both. ams. Qed.
  Lemma cb_xor fuel : forall n1 n2 : nd, am (3 * cost fuel) (m_bitxor fuel n1 n2) any.
  Proof. pose proof (cb_or fuel) as O. pose proof (cb_and fuel) as A. intros n1 n2. unfold m_bitxor. ams. Qed.
  Lemma cb_reduce fuel : forall n : nd, am (cost fuel) (m_breduce fuel n) any.
  Proof. pose proof (amb_collapse (I := I)) as C. induction fuel as [|k IH]; intros n; [exact Logic.I|]. cbn [m_breduce cost]. ams. Qed.
  Lemma cb_restrict fuel : forall (n : nd) x b, am (cost fuel) (m_brestrict fuel n x b) any.
  Proof. pose proof (amb_collapse (I := I)) as C. induction fuel as [|k IH]; intros n x b; [exact Logic.I|]. cbn [m_brestrict cost]. ams. Qed.
  Lemma cb_count leaf join fuel : forall n : nd, am (cost fuel) (m_count leaf join fuel n) any.
  Proof. induction fuel as [|k IH]; intros n; [exact Logic.I|]. cbn [m_count cost]. ams. Qed.
  Lemma cb_structure fuel : forall (n : nd) d, am (cost fuel) (m_to_structure fuel n d) any.
  Proof. induction fuel as [|k IH]; intros n d; [exact Logic.I|]. cbn [m_to_structure cost]. ams. Qed.
  Lemma cb_content fuel : forall (n : nd) c d, am (cost fuel) (m_to_content fuel n c d) any.
  Proof. induction fuel as [|k IH]; intros n c d; [exact Logic.I|]. cbn [m_to_content cost]. ams. Qed.
  Lemma cb_call {F} `{OF : Ord F} (c : bdcall I F) w fuel ms : bwalks c = Some w -> am (w * (6 * 2 ^ fuel)) (m_bcall fuel ms c) any.
  Proof.
    pose proof (cost_pow fuel) as P. pose proof (cb_or fuel) as O. pose proof (cb_and fuel) as A. pose proof (cb_xor fuel) as X.
    pose proof (cb_reduce fuel) as R. pose proof (cb_restrict fuel) as V. pose proof (fun l j => cb_count l j fuel) as C.
    pose proof (cb_structure fuel) as S1. pose proof (cb_content fuel) as S2.
    destruct c as [h calls|h i item|i sels|i|i|un i items|i j|i|x|b|item|item|item i j|o i j|i|i|i item sel|h i|i j|h index i]; cbn [bwalks]; intros E; try discriminate E; [| |destruct o| |]; injection E as <-; rewrite <- P; cbn [m_bcall]; cbv zeta; unfold m_node_count, m_leaf_count, m_outfit_count, m_depth, m_op; try solve [ams].
  Qed.
End Bdd.

(** ** the worst case *)
Lemma runs_in_ret {L R} `{Ord L} n (x : R) (a b : arena L) q : runs_in n a (Ret x) b q -> n = 0 /\ q = Ret x.
Proof.
  intros Hr. remember (Ret x) as p eqn:E. induction Hr as [a p|n a p b q c Hr IH Ho|n a p b q c r Hr IH Hs]; [split; [reflexivity|first [exact E|reflexivity]]|exact (IH E)|].
  destruct (IH E) as (_ & ->). rewrite E in Hs. inversion Hs.
Qed.
Lemma runs_in_bind {L A B} `{Ord L} n (p : prog L A) (f : A -> prog L B) a b q : runs_in n a (pbind p f) b q ->
  (exists p', q = pbind p' f /\ runs_in n a p b p') \/
  (exists n1 n2 x c, n = n1 + n2 /\ runs_in n1 a p c (Ret x) /\ runs_in n2 c (f x) b q).
Proof.
  intros Hr. remember (pbind p f) as pf eqn:E. induction Hr as [a pf|n a pf b q c Hr IH Ho|n a pf b q c r Hr IH Hs].
  - left. exists p. split; [exact E|constructor].
  - destruct (IH E) as [(p' & -> & R)|(n1 & n2 & x & d & -> & R1 & R2)].
    + left. exists p'. split; [reflexivity|]. econstructor; eassumption.
    + right. exists n1, n2, x, d. split; [reflexivity|]. split; [exact R1|]. econstructor; eassumption.
  - destruct (IH E) as [(p' & -> & R)|(n1 & n2 & x & d & -> & R1 & R2)].
    + destruct p' as [x|i k|i k|i k| |]; cbn [pbind] in Hs.
      * right. exists n, 1, x, b. split; [lia|]. split; [exact R|]. eapply runs_in_step; [constructor|exact Hs].
      * left. inversion Hs; subst.
        -- exists (k n0). split; [reflexivity|]. eapply runs_in_step; [exact R|]. constructor; assumption.
        -- exists Panic. split; [reflexivity|]. eapply runs_in_step; [exact R|]. constructor; assumption.
      * left. inversion Hs; subst. eexists. split; [reflexivity|]. eapply runs_in_step; [exact R|]. constructor; assumption.
      * left. inversion Hs; subst. eexists. split; [reflexivity|]. eapply runs_in_step; [exact R|]. constructor; assumption.
      * inversion Hs.
      * inversion Hs.
    + right. exists n1, (S n2), x, d. split; [lia|]. split; [exact R1|]. econstructor; eassumption.
Qed.
Lemma runs_in_bind_ret {L A B} `{Ord L} n (p : prog L A) (f : A -> prog L B) a b y : runs_in n a (pbind p f) b (Ret y) ->
  exists n1 n2 x c, n = n1 + n2 /\ runs_in n1 a p c (Ret x) /\ runs_in n2 c (f x) b (Ret y).
Proof.
  intros Hr. destruct (runs_in_bind _ _ _ _ _ _ Hr) as [(p' & E & R)|X]; [|exact X]. destruct p' as [x| | | | |]; try discriminate E. cbn [pbind] in E.
  exists n, 0, x, b. split; [lia|]. split; [exact R|]. rewrite E. constructor.
Qed.
Lemma runs_in_zero {L R} `{Ord L} n (p : prog L R) (a b : arena L) q : runs_in n a p b q -> n = 0 -> q = p.
Proof. intros Hr. induction Hr as [a p|n a p b q c Hr IH Ho|n a p b q c r Hr IH Hs]; intros E; [reflexivity|auto|discriminate E]. Qed.
Lemma runs_in_stuck {L R} `{Ord L} n (a b : arena L) (q : prog L R) : runs_in n a OutOfFuel b q -> q = OutOfFuel.
Proof.
  intros Hr. remember OutOfFuel as p eqn:E. induction Hr as [a p|n a p b q c Hr IH Ho|n a p b q c r Hr IH Hs]; [reflexivity|exact (IH E)|].
  rewrite (IH E), E in Hs. inversion Hs.
Qed.

Section Worst.
  Context {I : Type} `{OI : Ord I}.
  Notation nd := (gnode I).

  Lemma get_one i n a b (x : gnode I) : runs_in n a (get_node i) b (Ret x) -> 1 <= n.
  Proof. intros Hr. destruct n as [|n]; [|lia]. discriminate (runs_in_zero _ _ _ _ _ Hr eq_refl). Qed.
  Lemma split_two i l h n a b (x : nd * nd) : runs_in n a (m_split (GBranch i l h) i) b (Ret x) -> 2 <= n.
  Proof.
    unfold m_split. rewrite eqb_refl_. intros Hr. destruct (runs_in_bind_ret _ _ _ _ _ _ Hr) as (n1 & n2 & y & c & -> & R1 & Hr1).
    destruct (runs_in_bind_ret _ _ _ _ _ _ Hr1) as (n3 & n4 & z & d & -> & R2 & _). apply get_one in R1, R2. lia.
  Qed.
  Lemma lower (op : dd I -> dd I -> dd I) (m : nat -> nd -> nd -> prog I nd) : bop_spec op m ->
    (forall n1 n2, m 0 n1 n2 = OutOfFuel) ->
    (forall k i lo hi lo' hi', m (S k) (GBranch i lo hi) (GBranch i lo' hi') = m_both (m k) i (GBranch i lo hi) (GBranch i lo' hi')) ->
    forall items e1 e2 fuel a n1 n2 n b x, AInv a -> nden a n1 (parity items e1) -> nden a n2 (parity items e2) ->
    runs_in n a (m fuel n1 n2) b (Ret x) -> 4 * 2 ^ length items <= n + 4.
  Proof.
    intros Sp Hz Hb. induction items as [|i items IH]; intros e1 e2 fuel a n1 n2 n b x I0 D1 D2 Hr; [cbn; lia|].
    destruct fuel as [|k]; [rewrite Hz in Hr; discriminate (runs_in_stuck _ _ _ _ Hr)|]. cbn [parity] in D1, D2.
    inversion D1 as [|j1 l1 h1 tl1 th1 Dl1 Dh1]; subst. inversion D2 as [|j2 l2 h2 tl2 th2 Dl2 Dh2]; subst. rewrite Hb in Hr. unfold m_both in Hr.
    destruct (runs_in_bind_ret _ _ _ _ _ _ Hr) as (k1 & k2 & s1 & c1 & -> & R1 & Hr1). clear Hr.
    pose proof (split_two i l1 h1 _ _ _ _ R1) as P1.
    destruct (runs_wp _ false _ _ _ _ I0 (m_split_spec false a _ _ i I0 D1) (runs_in_runs _ _ _ _ _ R1)) as (I1 & E1 & W1).
    destruct (W1 c1 (ext_refl c1) I1) as (Da & Db). rewrite v_split_top in Da, Db. cbn [fst snd] in Da, Db.
    assert (D2' : nden c1 (GBranch i l2 h2) (Branch i (parity items e2) (parity items (negb e2)))) by (eapply nden_ext; eassumption).
    destruct (runs_in_bind_ret _ _ _ _ _ _ Hr1) as (k3 & k4 & s2 & c2 & -> & R2 & Hr2). clear Hr1.
    pose proof (split_two i l2 h2 _ _ _ _ R2) as P2.
    destruct (runs_wp _ false _ _ _ _ I1 (m_split_spec false c1 _ _ i I1 D2') (runs_in_runs _ _ _ _ _ R2)) as (I2 & E2 & W2).
    destruct (W2 c2 (ext_refl c2) I2) as (Dc & Dd). rewrite v_split_top in Dc, Dd. cbn [fst snd] in Dc, Dd.
    destruct (runs_in_bind_ret _ _ _ _ _ _ Hr2) as (k5 & k6 & lo & c3 & -> & R3 & Hr3). clear Hr2.
    assert (Da' : nden c2 (fst s1) (parity items e1)) by (eapply nden_ext; eassumption).
    pose proof (IH e1 e2 k c2 (fst s1) (fst s2) k5 c3 lo I2 Da' Dc R3) as L1.
    destruct (runs_wp _ false _ _ _ _ I2 (Sp (parity items e1) (parity items e2) k false (fun e => ltac:(discriminate e)) c2 _ _ I2 Da' Dc) (runs_in_runs _ _ _ _ _ R3)) as (I3 & E3 & _).
    destruct (runs_in_bind_ret _ _ _ _ _ _ Hr3) as (k7 & k8 & hi & c4 & -> & R4 & _). clear Hr3.
    assert (L2 : 4 * 2 ^ length items <= k7 + 4).
    { apply (IH (negb e1) (negb e2) k c3 (snd s1) (snd s2) k7 c4 hi I3); [| |exact R4]; eapply nden_ext; try eassumption. eapply nden_ext; eassumption. }
    cbn [length]. rewrite Nat.pow_succ_r'. lia.
  Qed.
  Lemma lower_and items e1 e2 fuel a n1 n2 n b x : AInv a -> nden a n1 (parity items e1) -> nden a n2 (parity items e2) ->
    runs_in n a (m_bitand fuel n1 n2) b (Ret x) -> 4 * 2 ^ length items <= n + 4.
  Proof.
    apply (lower bitand m_bitand m_bitand_spec); [reflexivity|]. intros k i lo hi lo' hi'. cbn [m_bitand]. rewrite cmp_refl. reflexivity.
  Qed.
  Lemma lower_or items e1 e2 fuel a n1 n2 n b x : AInv a -> nden a n1 (parity items e1) -> nden a n2 (parity items e2) ->
    runs_in n a (m_bitor fuel n1 n2) b (Ret x) -> 4 * 2 ^ length items <= n + 4.
  Proof.
    apply (lower bitor m_bitor m_bitor_spec); [reflexivity|]. intros k i lo hi lo' hi'. cbn [m_bitor]. rewrite cmp_refl. reflexivity.
  Qed.

  (** the diagrams of the worst case are small *)
  Fixpoint below (items : list I) : list (dd I) :=
    match items with [] => [Leaf true; Leaf false] | _ :: l => parity items true :: parity items false :: below l end.
  Lemma below_length items : length (below items) = 2 * length items + 2.
  Proof. induction items as [|i l IH]; cbn [below length]; [reflexivity|]. rewrite IH. lia. Qed.
  Lemma below_sub items : forall e x, sub x (parity items e) -> In x (below items).
  Proof.
    induction items as [|i l IH]; intros e x S.
    - cbn in S. inversion S. destruct e; cbn; auto.
    - cbn [parity] in S. inversion S; subst; [destruct e; cbn [below parity]; [left|right; left]; reflexivity|right; right; eauto|right; right; eauto].
  Qed.
  Lemma parity_small (items : list I) e : dag_size (parity items e) <= 2 * length items + 2.
  Proof.
    rewrite <- below_length. unfold dag_size. apply NoDup_incl_length; [apply all_subs_NoDup|]. intros x J.
    apply (below_sub items e), all_subs_in, J.
  Qed.
  Lemma parity_height (items : list I) e : height (parity items e) = length items.
  Proof. revert e. induction items as [|i l IH]; intros e; [reflexivity|]. cbn [parity height length]. rewrite !IH. lia. Qed.
End Worst.

Section ZWorst.
  Lemma zparity_neq l x e : zparity l x e <> zparity l x (negb e).
  Proof. revert e. induction l as [|i l IH]; intros e E; [destruct e; discriminate E|]. cbn [zparity] in E. injection E as E _. exact (IH e E). Qed.

  Lemma zlower (op : dd nat -> dd nat -> dd nat) (m : nat -> gnode nat -> gnode nat -> prog nat (gnode nat)) : zop_spec op m ->
    (forall n1 n2, m 0 n1 n2 = OutOfFuel) ->
    (forall k i l1 h1 l2 h2, m (S k) (GBranch i l1 h1) (GBranch i l2 h2) =
       if gnode_eqb (GBranch i l1 h1) (GBranch i l2 h2) then Ret (GBranch i l1 h1) else
       pbind (get_node l1) (fun a => pbind (get_node l2) (fun b => pbind (m k a b) (fun lo =>
       pbind (get_node h1) (fun c => pbind (get_node h2) (fun d => pbind (m k c d) (fun hi => m_zfinish i lo hi))))))) ->
    forall items last e fuel a n1 n2 n b x, AInv a -> nden a n1 (zparity items last e) -> nden a n2 (zparity items last (negb e)) ->
    runs_in n a (m fuel n1 n2) b (Ret x) -> 4 * 2 ^ length items <= n + 4.
  Proof.
    intros Sp Hz Hb. induction items as [|i items IH]; intros last e fuel a n1 n2 n b x I0 D1 D2 Hr; [cbn; lia|].
    destruct fuel as [|k]; [rewrite Hz in Hr; discriminate (runs_in_stuck _ _ _ _ Hr)|].
    assert (Ne : gnode_eqb n1 n2 = false).
    { rewrite (gnode_eqb_den a n1 n2 _ _ I0 D1 D2). destruct (dd_eqb_spec (zparity (i :: items) last e) (zparity (i :: items) last (negb e))) as [E|E]; [|reflexivity].
      destruct (zparity_neq _ _ _ E). }
    cbn [zparity] in D1, D2. inversion D1 as [|j1 l1 h1 tl1 th1 Dl1 Dh1]; subst. inversion D2 as [|j2 l2 h2 tl2 th2 Dl2 Dh2]; subst. rewrite Hb, Ne in Hr.
    destruct (runs_in_bind_ret _ _ _ _ _ _ Hr) as (k1 & r1 & a1 & c1 & -> & R1 & Hr1). clear Hr. pose proof (get_one _ _ _ _ _ R1) as P1.
    destruct (runs_wp _ false _ _ _ _ I0 (wp_get_node false a _ _ Dl1) (runs_in_runs _ _ _ _ _ R1)) as (I1 & E1 & W1). specialize (W1 c1 (ext_refl c1) I1). cbv beta in W1.
    assert (Dl2' : den c1 l2 (zparity items last (negb e))) by (eapply den_ext; eassumption).
    destruct (runs_in_bind_ret _ _ _ _ _ _ Hr1) as (k2 & r2 & a2 & c2 & -> & R2 & Hr2). clear Hr1. pose proof (get_one _ _ _ _ _ R2) as P2.
    destruct (runs_wp _ false _ _ _ _ I1 (wp_get_node false c1 _ _ Dl2') (runs_in_runs _ _ _ _ _ R2)) as (I2 & E2 & W2). specialize (W2 c2 (ext_refl c2) I2). cbv beta in W2.
    assert (W1' : nden c2 a1 (zparity items last e)) by (eapply nden_ext; eassumption).
    destruct (runs_in_bind_ret _ _ _ _ _ _ Hr2) as (k3 & r3 & lo & c3 & -> & R3 & Hr3). clear Hr2.
    pose proof (IH last e k c2 a1 a2 k3 c3 lo I2 W1' W2 R3) as L1.
    destruct (runs_wp _ false _ _ _ _ I2 (Sp _ _ k false (fun e => ltac:(discriminate e)) c2 _ _ I2 W1' W2) (runs_in_runs _ _ _ _ _ R3)) as (I3 & E3 & _).
    assert (Dh1' : den c3 h1 (zparity items last (negb e))) by (do 3 (eapply den_ext; [eassumption|]); exact Dh1).
    assert (Dh2' : den c3 h2 (zparity items last (negb (negb e)))) by (do 3 (eapply den_ext; [eassumption|]); exact Dh2).
    destruct (runs_in_bind_ret _ _ _ _ _ _ Hr3) as (k4 & r4 & a4 & c4 & -> & R4 & Hr4). clear Hr3. pose proof (get_one _ _ _ _ _ R4) as P4.
    destruct (runs_wp _ false _ _ _ _ I3 (wp_get_node false c3 _ _ Dh1') (runs_in_runs _ _ _ _ _ R4)) as (I4 & E4 & W4). specialize (W4 c4 (ext_refl c4) I4). cbv beta in W4.
    assert (Dh2'' : den c4 h2 (zparity items last (negb (negb e)))) by (eapply den_ext; eassumption).
    destruct (runs_in_bind_ret _ _ _ _ _ _ Hr4) as (k5 & r5 & a5 & c5 & -> & R5 & Hr5). clear Hr4. pose proof (get_one _ _ _ _ _ R5) as P5.
    destruct (runs_wp _ false _ _ _ _ I4 (wp_get_node false c4 _ _ Dh2'') (runs_in_runs _ _ _ _ _ R5)) as (I5 & E5 & W5). specialize (W5 c5 (ext_refl c5) I5). cbv beta in W5.
    assert (W4' : nden c5 a4 (zparity items last (negb e))) by (eapply nden_ext; eassumption).
    destruct (runs_in_bind_ret _ _ _ _ _ _ Hr5) as (k6 & r6 & hi & c6 & -> & R6 & _). clear Hr5.
    pose proof (IH last (negb e) k c5 a4 a5 k6 c6 hi I5 W4' W5 R6) as L2.
    cbn [length]. rewrite Nat.pow_succ_r'. lia.
  Qed.
  Lemma zlower_of (op : dd nat -> dd nat -> dd nat) m : In (op, m) [(zunion, m_zunion); (zintersect, m_zintersect); (zproduct, m_zproduct)] ->
    forall items last e fuel a n1 n2 n b x, AInv a -> nden a n1 (zparity items last e) -> nden a n2 (zparity items last (negb e)) ->
    runs_in n a (m fuel n1 n2) b (Ret x) -> 4 * 2 ^ length items <= n + 4.
  Proof.
    intros J. apply (zlower op m).
    - destruct J as [E|[E|[E|[]]]]; injection E as <- <-; [apply m_zunion_spec|apply m_zintersect_spec|apply m_zproduct_spec].
    - destruct J as [E|[E|[E|[]]]]; injection E as <- <-; reflexivity.
    - intros k i l1 h1 l2 h2. destruct J as [E|[E|[E|[]]]]; injection E as <- <-; cbn [m_zunion m_zintersect m_zproduct]; rewrite Nat.ltb_irrefl; reflexivity.
  Qed.
  Fixpoint zbelow (items : list nat) (last : nat) : list (dd nat) :=
    match items with [] => [Leaf true; Branch last (Leaf false) (Leaf true); Leaf false] | _ :: l => zparity items last true :: zparity items last false :: zbelow l last end.
  Lemma zbelow_length items last : length (zbelow items last) = 2 * length items + 3.
  Proof. induction items as [|i l IH]; cbn [zbelow length]; [reflexivity|]. rewrite IH. lia. Qed.
  Lemma zbelow_sub items last : forall e x, sub x (zparity items last e) -> In x (zbelow items last).
  Proof.
    induction items as [|i l IH]; intros e x S.
    - cbn in S. destruct e; inversion S as [|? ? ? ? S1|? ? ? ? S1]; subst; cbn; auto; inversion S1; auto.
    - cbn [zparity] in S. inversion S; subst; [destruct e; cbn [zbelow zparity]; [left|right; left]; reflexivity|right; right; eauto|right; right; eauto].
  Qed.
  Lemma zparity_small items last e : dag_size (zparity items last e) <= 2 * length items + 3.
  Proof. rewrite <- (zbelow_length items last). apply dag_size_le. intros x. apply zbelow_sub. Qed.
End ZWorst.
