(** ZddProgProofs: every program of ZddProg.v, run against the shared arena with
    any interference, computes what ZddModel.v computes on values. *)
From Coq Require Import List Arith NArith Lia Bool Permutation Sorted.
From Verif Require Import Base DD Spec Zdd2Model ZddModel ParserModel ArenaModel PoolModel ZddProg.
Import ListNotations.
From Verif Require Import ZddProofs ParserProofs ParserThm ArenaProofs PoolProofs.
Open Scope nat_scope.

Lemma m_zbranch_spec tot (a : arena nat) id low high tl th : AInv a -> nden a low tl -> nden a high th ->
  wp tot a (m_zbranch id low high) (fun a' n => nden a' n (Branch id tl th)).
Proof.
  intros I0 D1 D2. unfold m_zbranch. pstep_with @wp_intern; [eassumption|]. pstep_with @wp_intern; [eassumption|].
  apply wp_ret. intros a' E _. plift E. constructor; auto.
Qed.
Lemma m_zfinish_spec tot (a : arena nat) id low high tl th : AInv a -> nden a low tl -> nden a high th ->
  wp tot a (m_zfinish id low high) (fun a' n => nden a' n (zfinish id tl th)).
Proof.
  intros I0 D1 D2. unfold m_zfinish, zfinish.
  rewrite (gnode_eqb_den a high (GLeaf false) th (Leaf false) I0 D2 (D_leaf a false)).
  destruct (dd_eqb th (Leaf false)); [apply wp_same; auto|apply m_zbranch_spec; auto].
Qed.

Definition zop_spec (op : dd nat -> dd nat -> dd nat) (m : nat -> znd -> znd -> prog nat znd) : Prop :=
  forall t1 t2 fuel tot, suffices (size t1 + size t2) fuel tot ->
  forall a n1 n2, AInv a -> nden a n1 t1 -> nden a n2 t2 ->
  wp tot a (m fuel n1 n2) (fun a' n => nden a' n (op t1 t2)).

Ltac zop_start t1 t2 eqn :=
  let k := fresh "k" in
  intros t1 t2; remember (size t1 + size t2) as k eqn:Hk; revert t1 t2 Hk;
  induction k as [k IH0] using lt_wf_ind; intros t1 t2 Hk fuel tot Hf a n1 n2 I0 D1 D2;
  pose proof (size_pos t1); pose proof (size_pos t2);
  destruct k as [|k]; [lia|];
  pose proof (fun u1 u2 (h : size u1 + size u2 < S k) fu to (hs : suffices k fu to) =>
    IH0 _ h u1 u2 eq_refl fu to (suffices_le _ _ _ _ (le_S_n _ _ h) hs)) as IH; clear IH0;
  pstart Hf; cbn [m_zunion m_zintersect m_zproduct];
  rewrite eqn, (gnode_eqb_den a n1 n2 _ _ I0 D1 D2);
  destruct (dd_eqb t1 t2); [apply wp_same; exact D1|].
Ltac zrec IH Hf := pstep_with IH; [|exact Hf|eassumption|eassumption|eassumption|]; [simpl in *; lia|].

Lemma m_zunion_spec : zop_spec zunion m_zunion.
Proof.
  unfold zop_spec. zop_start t1 t2 zunion_eq.
  destruct t1 as [[]|id1 lo1 hi1]; inversion D1; subst; destruct t2 as [[]|id2 lo2 hi2]; inversion D2; subst;
    try (apply wp_same; first [exact D1|exact D2|constructor]).
  - pget. zrec IH Hf. pget. apply m_zfinish_spec; auto.
  - pget. zrec IH Hf. pget. apply m_zfinish_spec; auto.
  - destruct (id1 <? id2); [|destruct (id2 <? id1)].
    + pget. zrec IH Hf. pget. apply m_zfinish_spec; auto.
    + pget. zrec IH Hf. pget. apply m_zfinish_spec; auto.
    + pget. pget. zrec IH Hf. pget. pget. zrec IH Hf. apply m_zfinish_spec; auto.
Qed.
Lemma m_zintersect_spec : zop_spec zintersect m_zintersect.
Proof.
  unfold zop_spec. zop_start t1 t2 zintersect_eq.
  destruct t1 as [[]|id1 lo1 hi1]; inversion D1; subst; destruct t2 as [[]|id2 lo2 hi2]; inversion D2; subst;
    try (apply wp_same; first [exact D1|exact D2|constructor]).
  destruct (id1 <? id2); [|destruct (id2 <? id1)].
  - pget. pget. zrec IH Hf. apply m_zfinish_spec; auto.
  - pget. pget. zrec IH Hf. apply m_zfinish_spec; auto.
  - pget. pget. zrec IH Hf. pget. pget. zrec IH Hf. apply m_zfinish_spec; auto.
Qed.
Lemma m_zproduct_spec : zop_spec zproduct m_zproduct.
Proof.
  unfold zop_spec. zop_start t1 t2 zproduct_eq.
  destruct t1 as [[]|id1 lo1 hi1]; inversion D1; subst; destruct t2 as [[]|id2 lo2 hi2]; inversion D2; subst;
    try (apply wp_same; first [exact D1|exact D2|constructor]).
  destruct (id1 <? id2); [|destruct (id2 <? id1)].
  - pget. zrec IH Hf. pget. zrec IH Hf. apply m_zfinish_spec; auto.
  - pget. zrec IH Hf. pget. zrec IH Hf. apply m_zfinish_spec; auto.
  - pget. pget. zrec IH Hf. pget. pget. zrec IH Hf. apply m_zfinish_spec; auto.
Qed.

Lemma m_zcomb_inner_spec t : forall fuel tot, suffices (size t) fuel tot -> forall a i path, AInv a -> den a i t ->
  wp tot a (m_zcomb_inner fuel i path) (fun _ r => r = combinations_inner t path).
Proof.
  induction t as [b|id lo IHl hi IHh]; intros fuel tot Hf a i path I0 D; pstart Hf; cbn [m_zcomb_inner]; pget.
  - inversion D0; subst. destruct b; apply wp_val; reflexivity.
  - inversion D0; subst. pstep_with IHl; [pfuel Hf|eassumption|eassumption|].
    pstep_with IHh; [pfuel Hf|eassumption|eassumption|]. subst. apply wp_val. reflexivity.
Qed.
Lemma m_zcomb_recursive_spec t fuel tot a i : suffices (size t) fuel tot -> AInv a -> den a i t ->
  wp tot a (m_zcomb_recursive fuel i) (fun _ r => r = zcombinations_recursive t).
Proof.
  intros Hf I0 D. unfold m_zcomb_recursive. pstep_with m_zcomb_inner_spec; [exact Hf|eassumption|eassumption|].
  subst. apply wp_val. reflexivity.
Qed.

Definition qden (a : arena nat) (q : list (znd * list nat)) (v : list (dd nat * list nat)) : Prop :=
  Forall2 (fun x y => nden a (fst x) (fst y) /\ snd x = snd y) q v.
Lemma qden_ext a b q v : ext a b -> qden a q v -> qden b q v.
Proof. intros E D. induction D as [|x y q v [A B] D IH]; constructor; auto. split; auto. eapply nden_ext; eauto. Qed.
Lemma m_zcomb_loop_spec k : forall v acc r, combinations_loop k v acc = Some r ->
  forall fuel tot, suffices k fuel tot -> forall a q, AInv a -> qden a q v ->
  wp tot a (m_zcomb_loop fuel q acc) (fun _ x => x = r).
Proof.
  induction k as [|k IH]; intros v acc r E fuel tot Hf a q I0 D.
  - destruct v as [|[n p] v]; [|discriminate]. simpl in E. inversion E; subst. inversion D; subst.
    destruct fuel; apply wp_val; reflexivity.
  - destruct v as [|[n p] v]; simpl in E.
    + inversion E; subst. inversion D; subst. destruct fuel; apply wp_val; reflexivity.
    + inversion D as [|[m p'] y q' v' [A B] D']; subst. simpl in A, B. subst p'.
      destruct n as [[]|id lo hi]; inversion A; subst.
      * pstart Hf. cbn [m_zcomb_loop]. eapply IH; eauto.
      * pstart Hf. cbn [m_zcomb_loop]. eapply IH; eauto.
      * pstart Hf. cbn [m_zcomb_loop].
        eapply wp_bind; [eapply (@wp_get_node nat _); eassumption|intros a1 r1 E1 I1 D1; cbv beta in D1|eassumption].
        eapply wp_bind; [eapply (@wp_get_node nat _); eapply den_ext; eassumption|intros a2 r2 E2 I2 D2; cbv beta in D2|eassumption].
        eapply IH; [exact E|exact Hf|exact I2|]. constructor; [split; [exact D2|reflexivity]|].
        constructor; [split; [eapply nden_ext; eauto|reflexivity]|]. eapply qden_ext; [|exact D'].
        eapply ext_trans; eauto.
Qed.
Lemma m_zcomb_iter_spec t ps fuel tot a i : zcombinations_iter t = Some ps -> suffices (size t) fuel tot -> AInv a -> den a i t ->
  wp tot a (m_zcomb_iter fuel i) (fun _ r => r = ps).
Proof.
  intros E Hf I0 D. unfold m_zcomb_iter. pget. eapply m_zcomb_loop_spec; [exact E|exact Hf|eassumption|].
  constructor; [split; [exact D0|reflexivity]|constructor].
Qed.

Lemma m_zprint_spec t : forall fuel tot, suffices (size t) fuel tot -> forall a n, AInv a -> nden a n t ->
  wp tot a (m_zprint fuel n) (fun _ r => r = zbuild_node_string t).
Proof.
  induction t as [b|id lo IHl hi IHh]; intros fuel tot Hf a n I0 D; pstart Hf; inversion D; subst; cbn [m_zprint].
  - destruct b; apply wp_val; reflexivity.
  - pget. pstep_with IHl; [pfuel Hf|eassumption|eassumption|]. pget.
    pstep_with IHh; [pfuel Hf|eassumption|eassumption|]. subst. apply wp_val. reflexivity.
Qed.

Definition pden (a : arena nat) (x : presult znd) (y : presult (dd nat)) : Prop :=
  match x, y with
  | POk r n, POk r' t => r = r' /\ nden a n t
  | PErr, PErr => True
  | _, _ => False
  end.
Lemma pden_ext a b x y : ext a b -> pden a x y -> pden b x y.
Proof. destruct x, y; simpl; auto. intros E [A B]. split; auto. eapply nden_ext; eauto. Qed.
Lemma wp_pden tot (a : arena nat) x y : pden a x y -> wp tot a (Ret x) (fun a' r => pden a' r y).
Proof. intros D a' E _. eapply pden_ext; eauto. Qed.
Lemma m_zparse_spec k : forall i, node_parser text_T text_F (fun id lo hi => Some (zbranch id lo hi)) k i <> PStuck ->
  forall fuel tot, suffices k fuel tot -> forall a, AInv a ->
  wp tot a (m_zparse fuel i) (fun a' r => pden a' r (node_parser text_T text_F (fun id lo hi => Some (zbranch id lo hi)) k i)).
Proof.
  induction k as [|k IH]; intros i NS fuel tot Hf a I0; [exfalso; apply NS; reflexivity|].
  pstart Hf. cbn [m_zparse]. cbn [node_parser] in *.
  destruct (tag text_T i) as [r|]; [apply wp_pden; split; [reflexivity|constructor]|].
  destruct (tag text_F i) as [r|]; [apply wp_pden; split; [reflexivity|constructor]|].
  destruct (tag [40%N] i) as [i1|]; [|apply wp_pden; exact I].
  destruct (ws node_id i1) as [i2 id| |] eqn:E2; cbn [ParserModel.pbind] in *; [|apply wp_pden; exact I|congruence].
  unfold ws in NS. set (pa := node_parser text_T text_F (fun id lo hi => Some (zbranch id lo hi)) k) in *.
  assert (N1 : pa (sp i2) <> PStuck) by (intros X; rewrite X in NS; apply NS; reflexivity).
  eapply wp_bind; [eapply IH; [exact N1|exact Hf|exact I0]|intros a1 x E1 I1 D1; cbv beta in D1|exact I0].
  fold pa in D1. unfold ws at 1. destruct (pa (sp i2)) as [i3 tl| |]; destruct x as [i3' low| |]; simpl in D1; try contradiction;
    cbn [ParserModel.pbind] in *; [|apply wp_pden; exact I]. destruct D1 as [-> D1].
  assert (N2 : pa (sp (sp i3)) <> PStuck) by (intros X; rewrite X in NS; apply NS; reflexivity).
  eapply wp_bind; [eapply IH; [exact N2|exact Hf|exact I1]|intros a2 y E2' I2 D2; cbv beta in D2|exact I1].
  fold pa in D2. unfold ws. destruct (pa (sp (sp i3))) as [i4 th| |]; destruct y as [i4' high| |]; simpl in D2; try contradiction;
    cbn [ParserModel.pbind] in *; [|apply wp_pden; exact I]. destruct D2 as [-> D2]. plift E2'.
  destruct (tag [41%N] (sp i4)) as [r|]; [|apply wp_pden; exact I].
  pstep_with m_zbranch_spec; [eassumption|eassumption|eassumption|]. apply wp_pden. split; [reflexivity|exact D].
Qed.

Section Zdd.
  Context {T : Type} `{Ord T}.

  Definition zden (a : arena nat) (m : mztree T) (t : ztree T) : Prop :=
    den a (mz_root m) (zt_root t) /\ mz_univ m = zt_univ t.
  Lemma zden_ext a b m t : ext a b -> zden a m t -> zden b m t.
  Proof. intros E [A B]. split; auto. eapply den_ext; eauto. Qed.
  Lemma zden_fun a m t u : zden a m t -> zden a m u -> t = u.
  Proof.
    intros [A B] [A' B']. destruct t as [r1 u1], u as [r2 u2]. simpl in *. f_equal; [|congruence].
    exact (den_fun _ _ _ _ A A').
  Qed.

  Lemma wp_zden tot a m t : zden a m t -> wp tot a (Ret m) (fun a' x => zden a' x t).
  Proof. intros D a' E _. eapply zden_ext; eauto. Qed.

  Lemma m_ztree_spec tot a (u : zuniverse T) c : AInv a ->
    wp tot a (m_ztree u c) (fun a' m => zden a' m (z_tree u c)).
  Proof.
    intros I0. unfold m_ztree, z_tree.
    assert (X : forall l a i t, AInv a -> den a i t ->
      wp tot a (pfoldM (fun next id => intern (GBranch id 0 next)) l i)
         (fun a' j => den a' j (fold_left (fun next id => required_branch id next) l t))).
    { induction l as [|x l IH]; intros b i t Ib D.
      - apply wp_ret. intros a' E _. eapply den_ext; eauto.
      - cbn [pfoldM fold_left]. eapply wp_bind; [eapply wp_intern|intros b' j E Ib' D'; cbv beta in D'; eapply IH; [exact Ib'|exact D']|exact Ib].
        constructor; [exact (den_leaf b false Ib)|exact D]. }
    eapply wp_bind; [eapply X; [exact I0|exact (den_leaf a true I0)]|intros a' j E I1 D|exact I0]. cbv beta in D.
    apply wp_zden. split; [exact D|reflexivity].
  Qed.

  Lemma m_zop_spec op m : zop_spec op m -> forall t o fuel tot a mt mo,
    suffices (size (zt_root t) + size (zt_root o)) fuel tot -> AInv a -> zden a mt t -> zden a mo o ->
    wp tot a (m_zop m fuel mt mo) (fun a' x => zden a' x (mkZT (op (zt_root t) (zt_root o)) (zt_univ t))).
  Proof.
    intros S t o fuel tot a mt mo Hf I0 [D1 U1] [D2 U2]. unfold m_zop. pget. pget.
    pstep_with S; [exact Hf|eassumption|eassumption|eassumption|].
    pstep_with @wp_intern; [eassumption|]. apply wp_zden. split; [assumption|exact U1].
  Qed.

  Lemma m_zhyper_spec (u : zuniverse T) cs : forall root, zt_univ root = u -> exists F, forall fuel tot, suffices F fuel tot -> forall a m, AInv a -> zden a m root ->
    wp tot a (pfoldM (fun root c => do next <- m_ztree u c ; m_zop m_zunion fuel root next) cs m)
       (fun a' x => zden a' x (fold_left (fun root next => z_union root next) (map (z_tree u) cs) root)).
  Proof.
    induction cs as [|c cs IH]; intros root Hu.
    - exists 0. intros fuel tot _ a m I0 D. apply wp_zden. exact D.
    - cbn [map fold_left]. destruct (IH (z_union root (z_tree u c)) Hu) as (F & S1).
      exists (F + (size (zt_root root) + size (zt_root (z_tree u c)))). intros fuel tot Hf a m I0 D. cbn [pfoldM].
      eapply wp_bind; [|intros a2 m2 E2 I2 D2; cbv beta in D2; eapply S1; [pfuel Hf|exact I2|exact D2]|exact I0].
      eapply wp_bind; [eapply m_ztree_spec; exact I0|intros a1 m1 E1 I1 D1; cbv beta in D1|exact I0].
      eapply (m_zop_spec zunion m_zunion m_zunion_spec root (z_tree u c)); [pfuel Hf|exact I1|eapply zden_ext; eauto|exact D1].
  Qed.
  Lemma m_zhyper_spec' (u : zuniverse T) cs : exists F, forall fuel tot, suffices F fuel tot -> forall a, AInv a ->
    wp tot a (m_zhyper fuel u cs) (fun a' x => zden a' x (z_hyper_tree u cs)).
  Proof.
    destruct (m_zhyper_spec u cs (z_empty_tree u) eq_refl) as (F & S1). exists F. intros fuel tot Hf a I0.
    apply S1; auto. split; [exact (den_leaf a false I0)|reflexivity].
  Qed.

  Lemma m_zcombinations_with_spec t inc exc cs fuel tot a m : z_combinations_with t inc exc = Some cs ->
    suffices (size (zt_root t)) fuel tot -> AInv a -> zden a m t ->
    wp tot a (m_zcombinations_with fuel m inc exc) (fun _ x => x = cs).
  Proof.
    intros E Hf I0 [D U]. unfold z_combinations_with in E. cbv zeta in E. apply bind_some in E. destruct E as (ps & E1 & E2).
    unfold m_zcombinations_with. cbv zeta.
    eapply wp_bind; [eapply m_zcomb_iter_spec; [exact E1|exact Hf|exact I0|exact D]|intros a' r Ex I1 Dr; cbv beta in Dr; subst r|exact I0].
    apply wp_val. rewrite U. congruence.
  Qed.

  Lemma m_ztraverse_spec (u : zuniverse T) t : forall fuel tot, suffices (size t) fuel tot -> forall a i, AInv a -> den a i t ->
    wp tot a (m_ztraverse fuel u i) (fun _ r => r = z_from_node u t).
  Proof.
    induction t as [b|id lo IHl hi IHh]; intros fuel tot Hf a i I0 D; pstart Hf; cbn [m_ztraverse]; pget; inversion D0; subst.
    - apply wp_val. reflexivity.
    - cbn [z_from_node]. destruct (z_get_item u id) as [v|]; [|apply wp_val; reflexivity]. cbn [bind].
      pstep_with IHl; [pfuel Hf|eassumption|eassumption|]. subst. destruct (z_from_node u lo) as [lo'|]; [|apply wp_val; reflexivity]. cbn [bind].
      pstep_with IHh; [pfuel Hf|eassumption|eassumption|]. subst. destruct (z_from_node u hi) as [hi'|]; apply wp_val; reflexivity.
  Qed.

  Lemma m_zeqb_spec a m n (t o : ztree T) : AInv a -> zden a m t -> zden a n o -> m_zeqb m n = z_eqb t o.
  Proof.
    intros I0 [D1 Q1] [D2 Q2]. unfold m_zeqb, z_eqb. rewrite Q1, Q2. f_equal.
    destruct (Nat.eqb_spec (mz_root m) (mz_root n)) as [En|En], (dd_eqb_spec (zt_root t) (zt_root o)) as [Ed|Ed]; auto; exfalso.
    - apply Ed. rewrite En in D1. exact (den_fun a _ _ _ D1 D2).
    - apply En. rewrite Ed in D1. exact (den_inj a _ _ _ I0 D1 D2).
  Qed.

  Notation zgden := (gden zden).
  Notation zgsden := (gsden zden).
  Lemma zgden_ext a b ms ts : ext a b -> zgden a ms ts -> zgden b ms ts.
  Proof. apply gden_ext. exact zden_ext. Qed.
  Lemma zgden_reg a ms ts i : AInv a -> zgden a ms ts -> zden a (mzreg ms i) (zreg ts i).
  Proof.
    intros I0 D. unfold mzreg, zreg. revert i. induction D as [|m t ms ts D0 D IH]; intros i.
    - destruct i; (split; [exact (den_leaf a false I0)|reflexivity]).
    - destruct i; simpl; auto.
  Qed.

  Lemma z_call_total (ts : list (ztree T)) c : exists y, z_call ts c = Some y.
  Proof.
    destruct c; cbn [z_call]; try (eexists; reflexivity).
    - unfold z_restrict. destruct (z_combinations_with_eq (zreg ts i) inc exc) as (cs & -> & _). eexists; reflexivity.
    - rewrite z_combinations_eq. eexists; reflexivity.
    - destruct (z_combinations_with_eq (zreg ts i) inc exc) as (cs & -> & _). eexists; reflexivity.
    - unfold z_summarize. destruct (z_combinations_with_eq (zreg ts i) inc exc) as (cs & -> & _). eexists; reflexivity.
    - destruct (z_deserialize d); eexists; reflexivity.
  Qed.

  Lemma mznew_spec tot a p t ms ts : AInv a -> zgden a ms ts -> wp tot a p (fun a' m => zden a' m t) ->
    wp tot a (mznew p ms) (fun a' x => zgsden a' x (ts ++ [t], ZONone (T:=T))).
  Proof.
    intros I0 D Hw. unfold mznew. eapply wp_bind; [exact Hw| |exact I0].
    intros a' m E I1 Dm. cbv beta in Dm. apply wp_ret. intros a2 E2 I2. split; simpl; auto.
    apply Forall2_app.
    - eapply zgden_ext; [|exact D]. eapply ext_trans; eauto.
    - constructor; [|constructor]. eapply zden_ext; eauto.
  Qed.
  Lemma mzobs_spec {R} tot a (p : prog nat R) (v : R) (f : R -> zobs T) ms ts : AInv a -> zgden a ms ts ->
    wp tot a p (fun _ r => r = v) ->
    wp tot a (do r <- p ; Ret (ms, f r)) (fun a' x => zgsden a' x (ts, f v)).
  Proof.
    intros I0 D Hw. eapply wp_bind; [exact Hw| |exact I0].
    intros a' r E I1 ->. apply wp_ret. intros a2 E2 I2. split; simpl; auto.
    eapply zgden_ext; [|exact D]. eapply ext_trans; eauto.
  Qed.

  Lemma m_zcall_refines c (ts : list (ztree T)) y : z_call ts c = Some y ->
    exists F, forall fuel tot, suffices F fuel tot -> forall a ms, AInv a -> zgden a ms ts ->
    wp tot a (m_zcall fuel ms c) (fun a' x => zgsden a' x y).
  Proof.
    assert (OP : forall op m i j, zop_spec op m -> exists F, forall fuel tot, suffices F fuel tot -> forall a ms, AInv a -> zgden a ms ts ->
      wp tot a (mznew (m_zop m fuel (mzreg ms i) (mzreg ms j)) ms)
        (fun a' x => zgsden a' x (ts ++ [mkZT (op (zt_root (zreg ts i)) (zt_root (zreg ts j))) (zt_univ (zreg ts i))], ZONone (T:=T)))).
    { intros op m i j S. eexists. intros fuel tot Hf a ms I0 D. apply mznew_spec; auto.
      eapply (m_zop_spec op m S (zreg ts i) (zreg ts j)); [exact Hf|exact I0| |]; apply zgden_reg; auto. }
    destruct c as [items|items|items c|items xs|items cs|i j|i j|i j|i inc exc|i|i|i inc exc|h i inc exc|i|i j|i|d];
      cbn [z_call]; intros E.
    - injection E as <-. exists 0. intros fuel tot _ a ms I0 D. apply mznew_spec; auto. apply wp_zden.
      split; [exact (den_leaf a false I0)|reflexivity].
    - injection E as <-. exists 0. intros fuel tot _ a ms I0 D. apply mznew_spec; auto. apply wp_zden.
      split; [exact (den_leaf a true I0)|reflexivity].
    - injection E as <-. exists 0. intros fuel tot _ a ms I0 D. apply mznew_spec; auto. apply m_ztree_spec; auto.
    - injection E as <-. destruct (m_zhyper_spec' (zu_from items) (map (fun x => [x]) xs)) as (F & S1). exists F.
      intros fuel tot Hf a ms I0 D. apply mznew_spec; auto.
      replace (z_unique_tree (zu_from items) xs) with (z_hyper_tree (zu_from items) (map (fun x => [x]) xs)); [apply S1; auto|].
      unfold z_hyper_tree, z_unique_tree. rewrite map_map. reflexivity.
    - injection E as <-. destruct (m_zhyper_spec' (zu_from items) cs) as (F & S1). exists F.
      intros fuel tot Hf a ms I0 D. apply mznew_spec; auto.
    - injection E as <-. apply (OP zunion m_zunion i j m_zunion_spec).
    - injection E as <-. apply (OP zintersect m_zintersect i j m_zintersect_spec).
    - injection E as <-. apply (OP zproduct m_zproduct i j m_zproduct_spec).
    - apply bind_some in E. destruct E as (t & E1 & E). injection E as <-. unfold z_restrict in E1.
      apply bind_some in E1. destruct E1 as (cs & E1 & E2). injection E2 as <-.
      destruct (m_zhyper_spec' (zt_univ (zreg ts i)) cs) as (F & S1). exists (F + size (zt_root (zreg ts i))).
      intros fuel tot Hf a ms I0 D. apply mznew_spec; auto. unfold m_zrestrict.
      pose proof (zgden_reg a ms ts i I0 D) as Di.
      eapply wp_bind; [eapply m_zcombinations_with_spec; [exact E1|pfuel Hf|exact I0|exact Di]|intros a' r Ex I1 ->|exact I0].
      destruct Di as [_ Ui]. rewrite Ui. apply S1; [pfuel Hf|exact I1].
    - apply bind_some in E. destruct E as (l & E1 & E). injection E as <-. unfold z_combinations in E1.
      apply bind_some in E1. destruct E1 as (ps & E1 & E2). injection E2 as <-.
      eexists. intros fuel tot Hf a ms I0 D. apply mzobs_spec; auto.
      pose proof (zgden_reg a ms ts i I0 D) as [Di Ui]. unfold m_zcombinations.
      eapply wp_bind; [eapply m_zcomb_iter_spec; [exact E1|exact Hf|exact I0|exact Di]|intros a' r Ex I1 ->|exact I0].
      apply wp_val. rewrite Ui. reflexivity.
    - injection E as <-. eexists. intros fuel tot Hf a ms I0 D. apply mzobs_spec; auto.
      pose proof (zgden_reg a ms ts i I0 D) as [Di Ui]. unfold m_zcombinations_recursive.
      eapply wp_bind; [eapply m_zcomb_recursive_spec; [exact Hf|exact I0|exact Di]|intros a' r Ex I1 ->|exact I0].
      apply wp_val. rewrite Ui. reflexivity.
    - apply bind_some in E. destruct E as (l & E1 & E). injection E as <-.
      eexists. intros fuel tot Hf a ms I0 D. apply mzobs_spec; auto.
      eapply m_zcombinations_with_spec; [exact E1|exact Hf|exact I0|]. apply zgden_reg; auto.
    - apply bind_some in E. destruct E as (l & E1 & E). injection E as <-. unfold z_summarize in E1. cbv zeta in E1.
      apply bind_some in E1. destruct E1 as (cs & E1 & E2). injection E2 as <-.
      eexists. intros fuel tot Hf a ms I0 D. apply (mzobs_spec _ _ _ _ (@ZOStatus T)); auto.
      pose proof (zgden_reg a ms ts i I0 D) as Di. unfold m_zsummarize.
      eapply wp_bind; [eapply m_zcombinations_with_spec; [exact E1|exact Hf|exact I0|exact Di]|intros a' r Ex I1 ->|exact I0].
      apply wp_val. destruct Di as [_ Ui]. rewrite Ui. reflexivity.
    - injection E as <-. eexists. intros fuel tot Hf a ms I0 D. apply (mzobs_spec _ _ _ _ (@ZOTree T)); auto.
      pose proof (zgden_reg a ms ts i I0 D) as [Di Ui]. rewrite Ui. eapply m_ztraverse_spec; [exact Hf|exact I0|exact Di].
    - injection E as <-. exists 0. intros fuel tot _ a ms I0 D. apply wp_ret. intros a' Ex I1.
      split; simpl; [eapply zgden_ext; eauto|]. f_equal. eapply m_zeqb_spec; [exact I0| |]; apply zgden_reg; auto.
    - injection E as <-. eexists. intros fuel tot Hf a ms I0 D. cbn [m_zcall].
      pose proof (zgden_reg a ms ts i I0 D) as [Di Ui]. rewrite Ui.
      eapply wp_bind; [eapply wp_get_node; exact Di|intros a1 n1 E1 I1 D1; cbv beta in D1|exact I0].
      apply (mzobs_spec _ _ (m_zprint fuel n1) _ (fun s => ZOData (s, (zu_items (zt_univ (zreg ts i)), zu_index (zt_univ (zreg ts i)))))).
      + exact I1.
      + eapply zgden_ext; eauto.
      + eapply m_zprint_spec; [exact Hf|exact I1|exact D1].
    - unfold z_deserialize in E. pose proof (zparse_node_not_stuck (fst d)) as NS. unfold zparse_node_string in *. cbv zeta in *.
      set (i := as_bytes (fst d)) in *.
      assert (NS' : node_parser text_T text_F (fun id lo hi => Some (zbranch id lo hi)) (S (length i)) i <> PStuck)
        by (intros X; rewrite X in NS; apply NS; reflexivity).
      exists (S (length i)). intros fuel tot Hf a ms I0 D. cbn [m_zcall]. fold i.
      eapply wp_bind; [eapply m_zparse_spec; [exact NS'|exact Hf|exact I0]|intros a1 x E1 I1 D1; cbv beta in D1|exact I0].
      destruct (node_parser text_T text_F _ (S (length i)) i) as [rest t| |]; destruct x as [rest' n| |]; simpl in D1; try contradiction;
        cbn [finish] in E; injection E as <-.
      + destruct D1 as [_ D1].
        eapply wp_bind; [eapply wp_intern; exact D1|intros a2 j E2 I2 D2; cbv beta in D2|exact I1].
        apply wp_ret. intros a3 E3 I3. split; simpl; auto. apply Forall2_app.
        * eapply zgden_ext; [|exact D]. eapply ext_trans; [eassumption|]. eapply ext_trans; eassumption.
        * constructor; [|constructor]. split; [|reflexivity]. eapply den_ext; eauto.
      + apply wp_ret. intros a3 E3 I3. split; simpl; auto. eapply zgden_ext; [|exact D]. eapply ext_trans; eauto.
  Qed.
End Zdd.
