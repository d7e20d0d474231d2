(** ZEqThm: the derived [==] of zdd trees. *)
From Coq Require Import List Arith Lia Bool Permutation Sorted.
From Verif Require Import Base DD Spec Zdd2Model ZddModel ZddSpec ZddProofs ZddExact ZddThm ArenaModel ZddProg.
Import ListNotations.

(** C63.  [==] on trees - built or loaded - is equality of the diagram, of the list of items and of
    the index of the items. *)
Lemma C63_equality_pf : forall (T : Type) (O : Ord T) (t o : ztree T),
  z_eqb t o = true <->
  zt_root t = zt_root o /\ zu_items (zt_univ t) = zu_items (zt_univ o) /\ zu_index (zt_univ t) = zu_index (zt_univ o).
Proof.
  intros T O t o. unfold z_eqb, zu_eqb. rewrite !andb_true_iff, !eqb_true_.
  destruct (dd_eqb_spec (zt_root t) (zt_root o)) as [E|N]; [tauto|].
  split; [intros (X & _); discriminate|tauto].
Qed.

Lemma zeqb_univ {T : Type} `{Ord T} ok ok' (items items' : list T) t o :
  ZReach ok (zu_from items) t -> ZReach ok' (zu_from items') o ->
  (z_eqb t o = true <-> items = items' /\ t = o).
Proof.
  intros R R'. destruct (zreach_inv _ _ _ R) as (U & _). destruct (zreach_inv _ _ _ R') as (U' & _).
  rewrite C63_equality_pf. destruct t as [r u], o as [r' u']. cbn [zt_root zt_univ] in *. subst u u'. cbn [zu_items zu_index zu_from]. split.
  - intros (-> & -> & _). auto.
  - intros (-> & [= ->]). auto.
Qed.

(** Trees of any two universes, built from duplicate-free combinations by any calls, are [==] exactly
    if the universes list the same items in the same order and the combinations are the same. *)
Lemma C63_histories_pf : forall (T : Type) (O : Ord T) (items items' : list T) (t o : ztree T),
  ZReach (@NoDup T) (zu_from items) t -> ZReach (@NoDup T) (zu_from items') o ->
  (z_eqb t o = true <-> items = items' /\ z_combinations t = z_combinations o).
Proof.
  intros T O items items' t o R R'. rewrite (zeqb_univ _ _ _ _ _ _ R R'). split.
  - intros (E & ->). auto.
  - intros (<- & E). split; [reflexivity|]. exact (proj2 (C63_canonical_pf T O items t o R R') E).
Qed.

(** A concrete pair: the same combinations through different calls are [==]; the same combinations
    over the same items in another order are not. *)
Example C63_histories_example :
  let u := zu_from [1; 2; 3] in let v := zu_from [3; 2; 1] in
  let t := z_union (z_tree u [2; 1]) (z_tree u [3]) in
  ZReach (@NoDup nat) u t /\ ZReach (@NoDup nat) u (z_hyper_tree u [[3]; [1; 2]]) /\
  ZReach (@NoDup nat) v (z_hyper_tree v [[3]; [1; 2]]) /\
  z_eqb t (z_hyper_tree u [[3]; [1; 2]]) = true /\
  z_combinations t = z_combinations (z_hyper_tree v [[3]; [1; 2]]) /\
  z_eqb t (z_hyper_tree v [[3]; [1; 2]]) = false.
Proof.
  cbv zeta. assert (N : forall c : list nat, In c [[3]; [1; 2]] -> NoDup c).
  { intros c [<-|[<-|[]]]; repeat constructor; cbn; lia. }
  split; [|split; [|split; [|split; [|split]]]]; try reflexivity.
  - apply ZR_union; apply ZR_tree; repeat constructor; cbn; lia.
  - apply ZR_hyper, N.
  - apply ZR_hyper, N.
Qed.

Lemma z_from_node_inj {T : Type} `{Ord T} (items : list T) (n m : dd nat) d :
  (forall p, In p (labels n) -> canon_label (zu_from items) p) ->
  (forall p, In p (labels m) -> canon_label (zu_from items) p) ->
  z_from_node (zu_from items) n = Some d -> z_from_node (zu_from items) m = Some d -> n = m.
Proof.
  revert m d. induction n as [b|i lo IHl hi IHh]; intros [c|j lo' hi'] d L L' E E'; cbn [z_from_node] in E, E'.
  - congruence.
  - injection E as <-. destruct (z_get_item _ j); [|discriminate]. cbn [bind] in E'.
    destruct (z_from_node _ lo'); [|discriminate]. cbn [bind] in E'. destruct (z_from_node _ hi'); discriminate.
  - injection E' as <-. destruct (z_get_item _ i); [|discriminate]. cbn [bind] in E.
    destruct (z_from_node _ lo); [|discriminate]. cbn [bind] in E. destruct (z_from_node _ hi); discriminate.
  - destruct (z_get_item _ i) as [x|] eqn:X; [|discriminate]. destruct (z_get_item _ j) as [y|] eqn:Y; [|discriminate].
    cbn [bind] in E, E'.
    destruct (z_from_node (zu_from items) lo) as [l|] eqn:A; [|discriminate]. destruct (z_from_node (zu_from items) hi) as [r|] eqn:B; [|discriminate].
    destruct (z_from_node (zu_from items) lo') as [l'|] eqn:A'; [|discriminate]. destruct (z_from_node (zu_from items) hi') as [r'|] eqn:B'; [|discriminate].
    cbn [bind] in E, E'. injection E as <-. injection E' as <- <- <-.
    cbn [labels] in L, L'.
    destruct (L i (or_introl eq_refl)) as (x' & P & Q). destruct (L' j (or_introl eq_refl)) as (y' & P' & Q').
    unfold z_get_item in X, Y. rewrite X in P. injection P as <-. rewrite Y in P'. injection P' as <-.
    rewrite Q in Q'. injection Q' as <-.
    f_equal.
    + eapply IHl; [intros p Ip; apply L|intros p Ip; apply L'|reflexivity|exact A']; right; rewrite in_app_iff; auto.
    + eapply IHh; [intros p Ip; apply L|intros p Ip; apply L'|reflexivity|exact B']; right; rewrite in_app_iff; auto.
Qed.

(** Trees built from any combinations, repeated items included, are [==] exactly if the universes list
    the same items in the same order and [traverse] shows the same diagram. *)
Lemma C63_any_pf : forall (T : Type) (O : Ord T) (ok ok' : list T -> Prop) (items items' : list T) (t o : ztree T),
  ZReach ok (zu_from items) t -> ZReach ok' (zu_from items') o ->
  (z_eqb t o = true <-> items = items' /\ z_traverse t = z_traverse o).
Proof.
  intros T O ok ok' items items' t o R R'. rewrite (zeqb_univ _ _ _ _ _ _ R R'). split.
  - intros (E & ->). auto.
  - intros (<- & E). split; [reflexivity|].
    destruct (zreach_inv _ _ _ R) as (U & _ & L). destruct (zreach_inv _ _ _ R') as (U' & _ & L').
    destruct (C61_mirrors_pf T O ok items t R) as (d & D & _).
    destruct t as [r u], o as [r' u']. cbn [zt_root zt_univ] in *. subst u u'.
    unfold z_traverse in D, E. cbn [zt_root zt_univ] in D, E. rewrite D in E. symmetry in E.
    f_equal. exact (z_from_node_inj items r r' d L L' D E).
Qed.

(** with a repeated item: the trees of [a,a] and of [a] have one combination each, the same, and are not [==] *)
Example C63_any_example :
  let u := zu_from [1; 2] in
  ZReach (fun _ => True) u (z_tree u [1; 1]) /\ ZReach (fun _ => True) u (z_tree u [1]) /\
  z_combinations (z_tree u [1; 1]) = z_combinations (z_tree u [1]) /\
  z_eqb (z_tree u [1; 1]) (z_tree u [1]) = false /\ z_eqb (z_tree u [1; 1]) (z_union (z_tree u [1; 1]) (z_empty_tree u)) = true.
Proof. cbv zeta. split; [|split; [|split; [|split]]]; try reflexivity; apply ZR_tree; exact Logic.I. Qed.
