(** Zdd2Sim: every program of Zdd2Prog.v asks the store for the same diagrams
    whatever the store holds (ArenaSim.v). *)
From Coq Require Import List Arith Lia Bool Permutation Sorted.
From Verif Require Import Base DD Spec Zdd2Model ArenaModel ArenaProofs ArenaSim PoolModel PoolStore Zdd2Prog Zdd2ProgProofs.
Import ListNotations.

(** carry what is known to the later stores *)
Ltac carry Lt :=
  let Ea := fresh "Ea" in let Eb := fresh "Eb" in let Ia := fresh "Ia" in let Ib := fresh "Ib" in
  destruct Lt as [Ea Eb Ia Ib]; lift Ea; lift Eb; clear Ea Eb.
(** run the first program of a [do] in both stores *)
Ltac sstep lem :=
  let a := fresh "a" in let b := fresh "b" in let r := fresh "r" in let s := fresh "s" in
  let Lt := fresh "Lt" in let Hq := fresh "Hq" in
  eapply sim_bind; [eapply lem|eassumption|eassumption|intros a b r s Lt Hq; carry Lt; cbv beta in Hq].
Ltac sget := sstep (@sim_get_node nat _); [eassumption|eassumption|];
  match goal with Hq : nden _ _ _ /\ nden _ _ _ |- _ => destruct Hq end.
(** open the nodes whose diagrams are known *)
Ltac openn :=
  repeat match goal with
  | H : nden _ ?n (Leaf _) |- _ => is_var n; inversion H; subst
  | H : nden _ ?n (Branch _ _ _) |- _ => is_var n; inversion H; subst
  end.
Ltac cases := repeat match goal with |- context [if ?c then _ else _] => destruct c end.
Ltac show := match goal with |- ?G => idtac G end.
Ltac open_n := match goal with Hq : nsim _ _ _ _ |- _ => destruct Hq as (? & ? & ?) end.

Lemma m_into_sim (a b : arena nat) x x' t : aden a x t -> aden b x' t ->
  (match x, x' with AId _, AId _ => True | ANode _, ANode _ => True | _, _ => False end) ->
  sim (fun a' b' i j => den a' i t /\ den b' j t) a b (m_into x) (m_into x').
Proof.
  destruct x as [i|n], x' as [j|m]; simpl; intros D1 D2 []; [|apply sim_intern2; auto].
  apply M_ret. intros a' b' [Ea Eb _ _]. split; eapply den_ext; eauto.
Qed.

Definition asim (a b : arena nat) (x y : arg) (t : dd nat) : Prop :=
  aden a x t /\ aden b y t /\ match x, y with AId _, AId _ => True | ANode _, ANode _ => True | _, _ => False end.
Lemma asim_id (a b : arena nat) i j t : den a i t -> den b j t -> asim a b (AId i) (AId j) t.
Proof. repeat split; auto. Qed.
Lemma asim_node (a b : arena nat) n m t : nden a n t -> nden b m t -> asim a b (ANode n) (ANode m) t.
Proof. repeat split; auto. Qed.

Ltac asimt := first [apply asim_id; [eassumption|eassumption]|apply asim_node; [eassumption|eassumption]].

Lemma last_sim (a b : arena nat) id low high low' high' t u : AInv a -> AInv b ->
  nden a low t -> nden b low' t -> nden a high u -> nden b high' u ->
  sim nsim a b (do l <- intern2 low ; do h <- intern2 high ; Ret (GBranch id l h))
               (do l <- intern2 low' ; do h <- intern2 high' ; Ret (GBranch id l h)).
Proof.
  intros Ia Ib D1 D2 D3 D4. sstep (@sim_intern2 nat _); [exact D1|exact D2|]. destruct Hq.
  sstep (@sim_intern2 nat _); [exact D3|exact D4|]. destruct Hq.
  eapply sim_node; constructor; eassumption.
Qed.

Lemma m_branch_sim k : forall k' id x y x' y' t u a b, AInv a -> AInv b ->
  asim a b x x' t -> asim a b y y' u -> sim nsim a b (m_branch k id x y) (m_branch k' id x' y').
Proof.
  induction k as [|k IH]; intros k' id x y x' y' t u a b Ia Ib (D1 & D2 & K1) (D3 & D4 & K2); [constructor|].
  destruct k' as [|k']; [constructor|]. specialize (IH k').
  cbn [m_branch]. sstep m_into_sim; [exact D1|exact D2|exact K1|]. destruct Hq as [L1 L2]. sget.
  sstep m_into_sim; [exact D3|exact D4|exact K2|]. destruct Hq as [H1 H2]. sget.
  clear D1 D2 D3 D4 K1 K2.
  destruct u as [[|]|h hl hh], t as [c|l ll lh]; openn; cbv beta iota; cases.
  all: try (eapply sim_node; eauto; constructor; fail).
  all: try (eapply last_sim; eauto; constructor; fail).
  all: repeat (sstep IH; [eassumption|eassumption|asimt|asimt|open_n]).
  all: eapply IH; [eassumption|eassumption|asimt|asimt].
Qed.

Lemma nsim_ext (a b a' b' : arena nat) n m : later a b a' b' -> nsim a b n m -> nsim a' b' n m.
Proof. apply nsim_later. Qed.
Ltac branch := eapply m_branch_sim; [eassumption|eassumption|asimt|asimt].
Ltac eqtest Ia Ib D1 D2 D3 D4 :=
  rewrite (gnode_eqb_den _ _ _ _ _ Ia D1 D3), (gnode_eqb_den _ _ _ _ _ Ib D2 D4).

Definition op_sim (op : nat -> znode -> znode -> zprog znode) : Prop :=
  forall k k' n1 n2 m1 m2 t u a b, AInv a -> AInv b ->
  nden a n1 t -> nden b m1 t -> nden a n2 u -> nden b m2 u -> sim nsim a b (op k n1 n2) (op k' m1 m2).

Ltac sgo IH :=
  first
  [ eapply sim_node; [eassumption|eassumption]
  | eapply sim_node; constructor
  | branch
  | eapply IH; eassumption
  | sget; sgo IH
  | sstep IH; [eassumption|eassumption|eassumption|eassumption|eassumption|eassumption|open_n; sgo IH] ].

Lemma m_union_sim : op_sim m_union.
Proof.
  intros k. induction k as [|k IH]; intros k' n1 n2 m1 m2 t u a b Ia Ib D1 D2 D3 D4; [constructor|].
  destruct k' as [|k']; [constructor|]. specialize (IH k'). cbn [m_union]. eqtest Ia Ib D1 D2 D3 D4.
  destruct (dd_eqb t u); [eapply sim_node; eauto|].
  destruct t as [[|]|i1 l1 h1], u as [[|]|i2 l2 h2]; openn; cbv beta iota; cases; sgo IH.
Qed.
Lemma m_intersect_sim : op_sim m_intersect.
Proof.
  intros k. induction k as [|k IH]; intros k' n1 n2 m1 m2 t u a b Ia Ib D1 D2 D3 D4; [constructor|].
  destruct k' as [|k']; [constructor|]. specialize (IH k'). cbn [m_intersect]. eqtest Ia Ib D1 D2 D3 D4.
  destruct (dd_eqb t u); [eapply sim_node; eauto|].
  destruct t as [[|]|i1 l1 h1], u as [[|]|i2 l2 h2]; openn; cbv beta iota; cases; sgo IH.
Qed.
Lemma m_product_sim : op_sim m_product.
Proof.
  intros k. induction k as [|k IH]; intros k' n1 n2 m1 m2 t u a b Ia Ib D1 D2 D3 D4; [constructor|].
  destruct k' as [|k']; [constructor|]. specialize (IH k'). cbn [m_product]. eqtest Ia Ib D1 D2 D3 D4.
  destruct (dd_eqb t u); [eapply sim_node; eauto|].
  destruct t as [[|]|i1 l1 h1], u as [[|]|i2 l2 h2]; openn; cbv beta iota; cases; try sgo IH.
  do 2 sget. sstep IH; [eassumption..|]. open_n.
  do 2 sget. sstep IH; [eassumption..|]. open_n.
  do 2 sget. sstep IH; [eassumption..|]. open_n.
  do 2 sget. sstep IH; [eassumption..|]. open_n.
  sstep m_union_sim; [eassumption..|]. open_n. sstep m_union_sim; [eassumption..|]. open_n. branch.
Qed.

Definition nbsim (a b : arena nat) (x y : znode * bool) : Prop := nsim a b (fst x) (fst y) /\ snd x = snd y.
Lemma m_reduce_branch_sim (a b : arena nat) x y : nbsim a b x y -> nbsim a b (m_reduce_branch x) (m_reduce_branch y).
Proof.
  intros [S0 E]. unfold m_reduce_branch. rewrite <- E. destruct (snd x) eqn:Ex.
  - split; auto. congruence.
  - split; auto. exists (Leaf false). split; constructor.
Qed.

Lemma m_subset_inner_sim k : forall k' root root' e t a b, AInv a -> AInv b ->
  nden a root t -> nden b root' t -> sim nbsim a b (m_subset_inner k root e) (m_subset_inner k' root' e).
Proof.
  induction k as [|k IH]; intros k' root root' e t a b Ia Ib D1 D2; [constructor|].
  destruct k' as [|k']; [constructor|]. specialize (IH k'). cbn [m_subset_inner].
  destruct t as [c|id l h]; openn.
  - apply M_ret. intros a' b' Lt. split; auto. cbn [fst]. exists (Leaf c). split; constructor.
  - destruct (e =? id).
    + pose proof (den_leaf a false Ia) as Z1. pose proof (den_leaf b false Ib) as Z2. cbv iota in Z1, Z2.
      sstep m_branch_sim; [eassumption|eassumption|asimt|asimt|].
      apply M_ret. intros a' b' Lt. split; auto. eapply nsim_later; eauto.
    + sget. sstep IH; [eassumption..|]. apply m_reduce_branch_sim in Hq.
      destruct (m_reduce_branch r0) as [low' kl], (m_reduce_branch s0) as [low2 kl2]. destruct Hq as [Q1 Q2]. cbn [fst snd] in Q1, Q2. subst kl2. destruct Q1 as (? & ? & ?).
      sget. sstep IH; [eassumption..|]. apply m_reduce_branch_sim in Hq.
      destruct (m_reduce_branch r2) as [high' kh], (m_reduce_branch s2) as [high2 kh2]. destruct Hq as [Q1 Q2]. cbn [fst snd] in Q1, Q2. subst kh2. destruct Q1 as (? & ? & ?).
      sstep m_branch_sim; [eassumption|eassumption|asimt|asimt|].
      apply M_ret. intros a' b' Lt. split; auto. eapply nsim_later; eauto.
Qed.
Definition nop_sim (op : nat -> znode -> nat -> zprog znode) : Prop :=
  forall k k' n m e t a b, AInv a -> AInv b -> nden a n t -> nden b m t -> sim nsim a b (op k n e) (op k' m e).
Lemma m_node_subset_sim : nop_sim m_node_subset.
Proof.
  intros k k' n m e t a b Ia Ib D1 D2. unfold m_node_subset. sstep m_subset_inner_sim; [eassumption..|].
  destruct Hq as [(v & X1 & X2) _]. eapply sim_node; eauto.
Qed.
Lemma m_node_subset_not_sim : nop_sim m_node_subset_not.
Proof.
  intros k. induction k as [|k IH]; intros k' n m e t a b Ia Ib D1 D2; [constructor|].
  destruct k' as [|k']; [constructor|]. specialize (IH k'). cbn [m_node_subset_not].
  destruct t as [c|id l h]; openn; [eapply sim_node; eassumption|]. destruct (e =? id).
  - eapply sim_mono; [eapply sim_get_node; eassumption|]. intros a' b' r s Lt [X1 X2]. exists l. auto.
  - sget. sstep IH; [eassumption..|]. open_n. sget. sstep IH; [eassumption..|]. open_n. branch.
Qed.

Lemma m_fold_sim (op : nat -> znode -> nat -> zprog znode) : nop_sim op ->
  forall k k' n m es t a b, AInv a -> AInv b -> nden a n t -> nden b m t ->
  sim nsim a b (pfoldM (fun acc e => do s <- op k n e ; m_intersect k acc s) es (GLeaf true))
               (pfoldM (fun acc e => do s <- op k' m e ; m_intersect k' acc s) es (GLeaf true)).
Proof.
  intros Hop k k' n m es t a b Ia Ib D1 D2.
  eapply sim_mono; [eapply (sim_fold (fun a b x y => (nden a n t /\ nden b m t) /\ nsim a b x y))|].
  - intros a1 b1 a2 b2 x y Lt [[E1 E2] Q]. split; [|eapply nsim_later; eauto]. destruct Lt as [Ea Eb _ _].
    split; eapply nden_ext; eauto.
  - intros a1 b1 e x y _ I1 I2 [[E1 E2] (v & Q1 & Q2)]. sstep Hop; [eassumption..|]. open_n.
    eapply sim_mono; [eapply m_intersect_sim; eassumption|].
    intros a3 b3 r1 s1 [Ea Eb _ _] Q. split; auto. split; eapply nden_ext; eauto.
  - auto.
  - auto.
  - split; auto. exists (Leaf true). split; constructor.
  - intros a' b' r s Lt [_ Q]. exact Q.
Qed.
Lemma m_node_subset_all_sim k k' n m es t a b : AInv a -> AInv b -> nden a n t -> nden b m t ->
  sim nsim a b (m_node_subset_all k n es) (m_node_subset_all k' m es).
Proof. apply m_fold_sim, m_node_subset_sim. Qed.
Lemma m_node_subset_none_sim k k' n m es t a b : AInv a -> AInv b -> nden a n t -> nden b m t ->
  sim nsim a b (m_node_subset_none k n es) (m_node_subset_none k' m es).
Proof. apply m_fold_sim, m_node_subset_not_sim. Qed.

Definition qsim (a b : arena nat) (x y : znode * list nat) : Prop := nsim a b (fst x) (fst y) /\ snd x = snd y.
Lemma qsim_later (a b a' b' : arena nat) q q' : later a b a' b' -> Forall2 (qsim a b) q q' -> Forall2 (qsim a' b') q q'.
Proof. intros Lt F. induction F as [|x y l l' [Q1 Q2] F IH]; constructor; auto. split; auto. eapply nsim_later; eauto. Qed.
Lemma m_trees_loop_sim k : forall k' q q' acc a b, AInv a -> AInv b -> Forall2 (qsim a b) q q' ->
  sim (fun _ _ x y => x = y) a b (m_trees_loop k q acc) (m_trees_loop k' q' acc).
Proof.
  induction k as [|k IH]; intros k' q q' acc a b Ia Ib Hq; destruct Hq as [|[n p] [m p'] q q' [Q1 Q2] Hq]; cbn [fst snd] in *.
  - destruct k'; apply M_ret; auto.
  - constructor.
  - destruct k'; apply M_ret; auto.
  - subst p'. destruct k' as [|k']; [constructor|]. cbn [m_trees_loop]. destruct Q1 as (t & D1 & D2).
    destruct t as [[|]|id l h]; openn.
    + apply IH; auto.
    + apply IH; auto.
    + eapply sim_bind; [eapply sim_get_node; eassumption|auto|auto|]. intros a1 b1 n1 m1 Lt [X1 X2].
      eapply sim_bind; [eapply sim_get_node; eapply den_ext; try apply Lt; eassumption|apply Lt|apply Lt|]. intros a2 b2 n2 m2 Lt2 [X3 X4].
      apply IH; [apply Lt2|apply Lt2|]. constructor; [split; [exists h; auto|auto]|].
      constructor; [split; [|auto]; eapply nsim_later; [exact Lt2|]; exists l; auto|].
      eapply qsim_later; [exact Lt2|]. eapply qsim_later; eauto.
Qed.
Lemma m_trees_sim k k' i j t a b : AInv a -> AInv b -> den a i t -> den b j t ->
  sim (fun _ _ x y => x = y) a b (m_trees k i) (m_trees k' j).
Proof.
  intros Ia Ib D1 D2. unfold m_trees. sget. apply m_trees_loop_sim; auto.
  constructor; [|constructor]. split; auto. exists t. auto.
Qed.

Section Forest.
  Context {T : Type} `{Ord T}.

  Definition fsim (a b : arena nat) (f g : mforest T) : Prop :=
    isim a b (mf_root f) (mf_root g) /\ mf_univ f = mf_univ g.
  Lemma fsim_later a b a' b' f g : later a b a' b' -> fsim a b f g -> fsim a' b' f g.
  Proof. intros Lt [Q1 Q2]. split; auto. eapply isim_later; eauto. Qed.
  Lemma fsim_empty a b : AInv a -> AInv b -> fsim a b m_empty m_empty.
  Proof. intros Ia Ib. split; auto. exists (Leaf false). split; [apply (den_leaf a false Ia)|apply (den_leaf b false Ib)]. Qed.
  Lemma sim_forest a b f g : fsim a b f g -> sim fsim a b (Ret f) (Ret g).
  Proof. intros Q. apply M_ret. intros a' b' Lt. eapply fsim_later; eauto. Qed.
  Lemma m_finish_sim a b n m t (u : universe T) : nden a n t -> nden b m t ->
    sim fsim a b (do i <- intern2 n ; Ret (mkMF i u)) (do i <- intern2 m ; Ret (mkMF i u)).
  Proof.
    intros D1 D2. eapply M_find with (k := fun i => Ret (mkMF i u)) (k' := fun i => Ret (mkMF i u)); eauto.
    intros a' b' i j Lt Di Dj. apply sim_forest. split; auto. exists t. auto.
  Qed.

  Lemma m_priorities_node_sim k k' (u : universe T) xs a b : AInv a -> AInv b ->
    sim nsim a b (m_priorities_node k u xs) (m_priorities_node k' u xs).
  Proof.
    intros Ia Ib. unfold m_priorities_node. destruct (length xs); [eapply sim_node; constructor|].
    apply sim_fold; auto.
    - intros a1 b1 a2 b2 x y. apply nsim_later.
    - intros a1 b1 e x y _ I1 I2 (v & X1 & X2). eapply m_branch_sim; auto; apply asim_node; eauto; constructor.
    - exists (Leaf true). split; constructor.
  Qed.
  Lemma m_unit_sim k k' h (items : list T) a b : AInv a -> AInv b -> sim fsim a b (m_unit k h items) (m_unit k' h items).
  Proof.
    intros Ia Ib. unfold m_unit. cbv zeta. sstep m_priorities_node_sim; [eassumption..|]. open_n. eapply m_finish_sim; eauto.
  Qed.
  Lemma m_many_sim k k' h (rows : list (list T)) a b : AInv a -> AInv b -> sim fsim a b (m_many k h rows) (m_many k' h rows).
  Proof.
    intros Ia Ib. unfold m_many. cbv zeta. eapply sim_bind; [|exact Ia|exact Ib|].
    - apply (sim_fold nsim); auto.
      + intros a1 b1 a2 b2 x y. apply nsim_later.
      + intros a1 b1 e x y _ I1 I2 (v & X1 & X2). sstep m_priorities_node_sim; [eassumption..|]. open_n.
        eapply m_union_sim; eassumption.
      + exists (Leaf false). split; constructor.
    - intros a1 b1 r s Lt (v & X1 & X2). eapply m_finish_sim; eauto.
  Qed.
  Lemma m_unique_sim k k' h (items : list T) a b : AInv a -> AInv b -> sim fsim a b (m_unique k h items) (m_unique k' h items).
  Proof.
    intros Ia Ib. unfold m_unique. cbv zeta. eapply sim_bind; [|exact Ia|exact Ib|].
    - apply (sim_fold nsim); auto.
      + intros a1 b1 a2 b2 x y. apply nsim_later.
      + intros a1 b1 e x y _ I1 I2 (v & X1 & X2). eapply m_branch_sim; auto; apply asim_node; eauto; constructor.
      + exists (Leaf false). split; constructor.
    - intros a1 b1 r s Lt (v & X1 & X2). eapply m_finish_sim; eauto.
  Qed.
  Lemma m_canonical_sim k k' h n m t (u : universe T) a b : AInv a -> AInv b -> nden a n t -> nden b m t ->
    sim fsim a b (m_canonical k h n u) (m_canonical k' h m u).
  Proof.
    intros Ia Ib D1 D2. unfold m_canonical. sstep (@sim_intern2 nat _); [eassumption..|]. destruct Hq.
    sstep m_trees_sim; [eassumption..|]. subst. apply m_many_sim; auto.
  Qed.

  Lemma m_translate_root_sim k : forall k' (old new : universe T) n m t a b, AInv a -> AInv b -> nden a n t -> nden b m t ->
    sim nsim a b (m_translate_root k old new n) (m_translate_root k' old new m).
  Proof.
    induction k as [|k IH]; intros k' old new n m t a b Ia Ib D1 D2; [constructor|].
    destruct k' as [|k']; [constructor|]. specialize (IH k'). cbn [m_translate_root].
    destruct t as [c|id l h]; openn; [eapply sim_node; eassumption|].
    sget. sstep IH; [eassumption..|]. open_n. sget. sstep IH; [eassumption..|]. open_n.
    destruct (get_item old id) as [item|]; [|constructor]. destruct (get_priority new item); [|constructor]. branch.
  Qed.

  Lemma m_binop_sim op k k' h (f g f' g' : mforest T) a b : op_sim op -> AInv a -> AInv b -> fsim a b f f' -> fsim a b g g' ->
    sim fsim a b (m_binop op k h f g) (m_binop op k' h f' g').
  Proof.
    intros Hop Ia Ib [(t & D1 & D2) E1] [(u & D3 & D4) E2]. unfold m_binop. cbv zeta. rewrite <- E1, <- E2.
    sget. sget. sstep m_translate_root_sim; [eassumption..|]. open_n. sstep m_translate_root_sim; [eassumption..|]. open_n.
    sstep Hop; [eassumption..|]. open_n. eapply m_canonical_sim; eassumption.
  Qed.
  Lemma m_subset_sim k k' h (f f' : mforest T) e a b : AInv a -> AInv b -> fsim a b f f' ->
    sim fsim a b (m_subset k h f e) (m_subset k' h f' e).
  Proof.
    intros Ia Ib [(t & D1 & D2) E1]. unfold m_subset. rewrite <- E1. destruct (get_priority (mf_univ f) e) as [p|].
    - sget. sstep m_node_subset_sim; [eassumption..|]. open_n. eapply m_canonical_sim; eassumption.
    - apply sim_forest, fsim_empty; auto.
  Qed.
  Lemma m_subset_not_sim k k' h (f f' : mforest T) e a b : AInv a -> AInv b -> fsim a b f f' ->
    sim fsim a b (m_subset_not k h f e) (m_subset_not k' h f' e).
  Proof.
    intros Ia Ib Q. pose proof Q as [(t & D1 & D2) E1]. unfold m_subset_not. rewrite <- E1. destruct (get_priority (mf_univ f) e) as [p|].
    - sget. sstep m_node_subset_not_sim; [eassumption..|]. open_n. eapply m_canonical_sim; eassumption.
    - apply sim_forest; auto.
  Qed.
  Lemma m_subset_many_sim func dflt k k' h (f f' : mforest T) es a b :
    (forall k k' n m es t a b, AInv a -> AInv b -> nden a n t -> nden b m t -> sim nsim a b (func k n es) (func k' m es)) ->
    (forall a b f f', AInv a -> AInv b -> fsim a b f f' -> fsim a b (dflt f) (dflt f')) ->
    AInv a -> AInv b -> fsim a b f f' ->
    sim fsim a b (m_subset_many k h f es dflt func) (m_subset_many k' h f' es dflt func).
  Proof.
    intros Hf Hd Ia Ib Q. pose proof Q as [(t & D1 & D2) E1]. unfold m_subset_many. rewrite <- E1.
    destruct es as [|e es]; [apply sim_forest; auto|]. cbv zeta. destruct (negb _); [apply sim_forest; auto|].
    sget. sstep Hf; [eassumption..|]. open_n. eapply m_canonical_sim; eassumption.
  Qed.

  (** calls and scripts *)
  Lemma mreg_sim a b ms ms' fs i : AInv a -> AInv b -> rden a ms fs -> rden b ms' fs -> fsim a b (mreg ms i) (mreg ms' i).
  Proof.
    intros Ia Ib D1 D2. unfold mreg. revert ms ms' fs D1 D2. induction i as [|i IH]; intros ms ms' fs D1 D2;
      inversion D1 as [|m f ms1 fs1 [X1 X2] R1]; subst; inversion D2 as [|m' f' ms2 fs2 [X3 X4] R2]; subst; cbn [nth];
      try (apply fsim_empty; auto; fail).
    - split; [exists (f_root f); auto|congruence].
    - eapply IH; eauto.
  Qed.

  Lemma mnew_sim a b p q ms ms' fs : AInv a -> AInv b -> rden a ms fs -> rden b ms' fs -> sim fsim a b p q ->
    sim (hsim (@fden T)) a b (mnew p ms) (mnew q ms').
  Proof.
    intros Ia Ib D1 D2 S0. unfold mnew. eapply sim_bind; [exact S0|auto|auto|].
    intros a' b' f g Lt [(t & X1 & X2) E]. apply M_ret. intros a2 b2 Lt2. pose proof (later_trans _ _ _ _ _ _ Lt Lt2) as Lt3.
    split; [|reflexivity]. exists (fs ++ [mkF t (mf_univ f)]). cbn [fst]. unfold hden. split; apply Forall2_app.
    - eapply rden_ext; [apply Lt3|exact D1].
    - constructor; [|constructor]. split; cbn; [eapply den_ext; [apply Lt2|exact X1]|reflexivity].
    - eapply rden_ext; [apply Lt3|exact D2].
    - constructor; [|constructor]. split; cbn; [eapply den_ext; [apply Lt2|exact X2]|congruence].
  Qed.
  Lemma obs_sim {R} a b (p q : zprog R) (o : R -> obs T) (ms ms' : list (mforest T)) fs : AInv a -> AInv b -> rden a ms fs -> rden b ms' fs ->
    sim (fun _ _ x y => x = y) a b p q ->
    sim (hsim (@fden T)) a b (do x <- p ; Ret (ms, o x)) (do x <- q ; Ret (ms', o x)).
  Proof.
    intros Ia Ib D1 D2 S0. eapply sim_bind; [exact S0|auto|auto|].
    intros a' b' x y Lt ->. apply M_ret. intros a2 b2 Lt2. pose proof (later_trans _ _ _ _ _ _ Lt Lt2) as Lt3.
    split; [|reflexivity]. exists fs. cbn [fst]. split; eapply rden_ext; try eassumption; apply Lt3.
  Qed.
  Lemma trees_sim {R} k k' (f f' : mforest T) (o : list (list nat) -> R) a b : AInv a -> AInv b -> fsim a b f f' ->
    sim (fun _ _ x y => x = y) a b (do ts <- m_trees k (mf_root f) ; Ret (o ts)) (do ts <- m_trees k' (mf_root f') ; Ret (o ts)).
  Proof.
    intros Ia Ib [(t & D1 & D2) _]. sstep m_trees_sim; [eassumption..|]. subst. apply M_ret. auto.
  Qed.

  Lemma m_call_sim c fs k k' a b ms ms' : AInv a -> AInv b -> rden a ms fs -> rden b ms' fs ->
    sim (hsim (@fden T)) a b (m_call k ms c) (m_call k' ms' c).
  Proof.
    intros Ia Ib D1 D2. pose proof (fun i => mreg_sim a b ms ms' fs i Ia Ib D1 D2) as R0.
    destruct c as [|h items|h rows|h items|h i j|h i j|h i j|h i e|h i e|h i es|h i es|i|i|i|h i|i j]; cbn [m_call];
      try (eapply mnew_sim; try eassumption).
    - apply sim_forest, fsim_empty; auto.
    - apply m_unit_sim; auto.
    - apply m_many_sim; auto.
    - apply m_unique_sim; auto.
    - apply m_binop_sim; auto. apply m_union_sim.
    - apply m_binop_sim; auto. apply m_intersect_sim.
    - apply m_binop_sim; auto. apply m_product_sim.
    - apply m_subset_sim; auto.
    - apply m_subset_not_sim; auto.
    - apply m_subset_many_sim; auto; [apply m_node_subset_all_sim|]. intros; apply fsim_empty; auto.
    - apply m_subset_many_sim; auto. apply m_node_subset_none_sim.
    - unfold m_ftrees. rewrite <- (proj2 (R0 i)). eapply obs_sim; try eassumption. apply trees_sim; auto.
    - unfold m_len. eapply obs_sim; try eassumption. apply trees_sim; auto.
    - unfold m_is_empty. eapply obs_sim; try eassumption. apply trees_sim; auto.
    - unfold m_occurrences. rewrite <- (proj2 (R0 i)).
      apply M_ret. intros a2 b2 Lt2. split; [|reflexivity]. exists fs. cbn [fst]. split; eapply rden_ext; try eassumption; apply Lt2.
    - assert (E : m_eqb (mreg ms i) (mreg ms j) = m_eqb (mreg ms' i) (mreg ms' j)).
      { destruct (R0 i) as [(t & X1 & X2) E1], (R0 j) as [(u & X3 & X4) E2]. unfold m_eqb. rewrite <- E1, <- E2. f_equal.
        destruct (Nat.eqb_spec (mf_root (mreg ms i)) (mf_root (mreg ms j))) as [E|E],
          (Nat.eqb_spec (mf_root (mreg ms' i)) (mf_root (mreg ms' j))) as [E'|E']; auto; exfalso.
        - apply E'. rewrite <- E in X3. rewrite (den_fun _ _ _ _ X1 X3) in X2. exact (den_inj _ _ _ _ Ib X2 X4).
        - apply E. rewrite <- E' in X4. rewrite (den_fun _ _ _ _ X2 X4) in X1. exact (den_inj _ _ _ _ Ia X1 X3). }
      rewrite E. apply M_ret. intros a2 b2 Lt2. split; [|reflexivity]. exists fs. cbn [fst].
      split; eapply rden_ext; try eassumption; apply Lt2.
  Qed.
End Forest.
