(** ZddSim: every program of ZddProg.v asks the store for the same diagrams
    whatever the store holds (ArenaSim.v). *)
From Coq Require Import List Arith NArith Lia Bool Permutation Sorted.
From Verif Require Import Base DD Spec Zdd2Model ZddModel ParserModel ArenaModel ArenaProofs ArenaSim PoolModel PoolProofs PoolStore ZddProg ZddProgProofs.
Import ListNotations.
Open Scope nat_scope.

Lemma m_zbranch_sim (a b : arena nat) id n1 n2 m1 m2 t u : AInv a -> AInv b ->
  nden a n1 t -> nden b m1 t -> nden a n2 u -> nden b m2 u -> sim nsim a b (m_zbranch id n1 n2) (m_zbranch id m1 m2).
Proof.
  intros Ia Ib D1 D2 D3 D4. unfold m_zbranch. nput.
  nstep @sim_intern; [exact D3|exact D4|]. destruct Hq. eapply sim_node; constructor; eassumption.
Qed.
Lemma m_zfinish_sim (a b : arena nat) id n1 n2 m1 m2 t u : AInv a -> AInv b ->
  nden a n1 t -> nden b m1 t -> nden a n2 u -> nden b m2 u -> sim nsim a b (m_zfinish id n1 n2) (m_zfinish id m1 m2).
Proof.
  intros Ia Ib D1 D2 D3 D4. unfold m_zfinish.
  neqtest Ia Ib D3 D4 (D_leaf a false) (D_leaf b false).
  destruct (dd_eqb u (Leaf false)); [eapply sim_node; eauto|eapply m_zbranch_sim; eauto].
Qed.

Definition zop_sim (op : nat -> znd -> znd -> prog nat znd) : Prop :=
  forall k k' n1 n2 m1 m2 t u a b, AInv a -> AInv b ->
  nden a n1 t -> nden b m1 t -> nden a n2 u -> nden b m2 u -> sim nsim a b (op k n1 n2) (op k' m1 m2).
Ltac zgo IH :=
  first
  [ eapply sim_node; [eassumption|eassumption]
  | eapply sim_node; constructor
  | eapply m_zfinish_sim; eassumption
  | nget; zgo IH
  | nstep IH; [eassumption|eassumption|eassumption|eassumption|eassumption|eassumption|nres; zgo IH] ].
Ltac zop IH :=
  intros k; induction k as [|k IH]; intros k' n1 n2 m1 m2 t u a b Ia Ib D1 D2 D3 D4; [constructor|];
  destruct k' as [|k']; [constructor|]; specialize (IH k').

Lemma m_zunion_sim : zop_sim m_zunion.
Proof.
  zop IH. cbn [m_zunion]. neqtest Ia Ib D1 D2 D3 D4. destruct (dd_eqb t u); [eapply sim_node; eauto|].
  destruct t as [[|]|i1 l1 h1], u as [[|]|i2 l2 h2]; nopen; cbv beta iota; ncases; zgo IH.
Qed.
Lemma m_zintersect_sim : zop_sim m_zintersect.
Proof.
  zop IH. cbn [m_zintersect]. neqtest Ia Ib D1 D2 D3 D4. destruct (dd_eqb t u); [eapply sim_node; eauto|].
  destruct t as [[|]|i1 l1 h1], u as [[|]|i2 l2 h2]; nopen; cbv beta iota; ncases; zgo IH.
Qed.
Lemma m_zproduct_sim : zop_sim m_zproduct.
Proof.
  zop IH. cbn [m_zproduct]. neqtest Ia Ib D1 D2 D3 D4. destruct (dd_eqb t u); [eapply sim_node; eauto|].
  destruct t as [[|]|i1 l1 h1], u as [[|]|i2 l2 h2]; nopen; cbv beta iota; ncases; zgo IH.
Qed.

Definition same {R} (_ _ : arena nat) (x y : R) : Prop := x = y.
Lemma m_zcomb_inner_sim k : forall k' i j path t a b, AInv a -> AInv b -> den a i t -> den b j t ->
  sim same a b (m_zcomb_inner k i path) (m_zcomb_inner k' j path).
Proof.
  induction k as [|k IH]; intros k' i j path t a b Ia Ib D1 D2; [constructor|].
  destruct k' as [|k']; [constructor|]. cbn [m_zcomb_inner]. nget. destruct t as [[|]|id l h]; nopen.
  - apply sim_val; auto.
  - apply sim_val; auto.
  - nstep IH; [eassumption..|]. red in Hq; subst. nstep IH; [eassumption..|]. red in Hq; subst. apply sim_val; auto.
Qed.
Lemma m_zcomb_recursive_sim k k' i j t a b : AInv a -> AInv b -> den a i t -> den b j t ->
  sim same a b (m_zcomb_recursive k i) (m_zcomb_recursive k' j).
Proof. intros Ia Ib D1 D2. unfold m_zcomb_recursive. nstep m_zcomb_inner_sim; [eassumption..|]. red in Hq; subst. apply sim_val; auto. Qed.

Definition zqsim (a b : arena nat) (x y : znd * list nat) : Prop := nsim a b (fst x) (fst y) /\ snd x = snd y.
Lemma zqsim_later (a b a' b' : arena nat) q q' : later a b a' b' -> Forall2 (zqsim a b) q q' -> Forall2 (zqsim a' b') q q'.
Proof. intros Lt F. induction F as [|x y l l' [Q1 Q2] F IH]; constructor; auto. split; auto. eapply nsim_later; eauto. Qed.
Lemma m_zcomb_loop_sim k : forall k' q q' acc a b, AInv a -> AInv b -> Forall2 (zqsim a b) q q' ->
  sim same a b (m_zcomb_loop k q acc) (m_zcomb_loop k' q' acc).
Proof.
  induction k as [|k IH]; intros k' q q' acc a b Ia Ib Hq; destruct Hq as [|[n p] [m p'] q q' [Q1 Q2] Hq]; cbn [fst snd] in *.
  - destruct k'; apply sim_val; auto.
  - constructor.
  - destruct k'; apply sim_val; auto.
  - subst p'. destruct k' as [|k']; [constructor|]. cbn [m_zcomb_loop]. destruct Q1 as (t & D1 & D2).
    destruct t as [[|]|id l h]; nopen.
    + apply IH; auto.
    + apply IH; auto.
    + eapply sim_bind; [eapply sim_get_node; eassumption|auto|auto|]. intros a1 b1 n1 m1 Lt [X1 X2].
      eapply sim_bind; [eapply sim_get_node; eapply den_ext; try apply Lt; eassumption|apply Lt|apply Lt|]. intros a2 b2 n2 m2 Lt2 [X3 X4].
      apply IH; [apply Lt2|apply Lt2|]. constructor; [split; [exists h; auto|auto]|].
      constructor; [split; [|auto]; eapply nsim_later; [exact Lt2|]; exists l; auto|].
      eapply zqsim_later; [exact Lt2|]. eapply zqsim_later; eauto.
Qed.
Lemma m_zcomb_iter_sim k k' i j t a b : AInv a -> AInv b -> den a i t -> den b j t ->
  sim same a b (m_zcomb_iter k i) (m_zcomb_iter k' j).
Proof.
  intros Ia Ib D1 D2. unfold m_zcomb_iter. nget. apply m_zcomb_loop_sim; auto.
  constructor; [|constructor]. split; auto. exists t. auto.
Qed.
Lemma m_zprint_sim k : forall k' n m t a b, AInv a -> AInv b -> nden a n t -> nden b m t ->
  sim same a b (m_zprint k n) (m_zprint k' m).
Proof.
  induction k as [|k IH]; intros k' n m t a b Ia Ib D1 D2; [constructor|].
  destruct k' as [|k']; [constructor|]. cbn [m_zprint]. destruct t as [[|]|id l h]; nopen.
  - apply sim_val; auto.
  - apply sim_val; auto.
  - nget. nstep IH; [eassumption..|]. red in Hq; subst. nget. nstep IH; [eassumption..|]. red in Hq; subst. apply sim_val; auto.
Qed.

Definition psim (a b : arena nat) (x y : presult znd) : Prop :=
  match x, y with POk r n, POk s m => r = s /\ nsim a b n m | PErr, PErr => True | PStuck, PStuck => True | _, _ => False end.
Lemma psim_ret (a b : arena nat) x y : psim a b x y -> sim psim a b (Ret x) (Ret y).
Proof.
  intros Q. apply M_ret. intros a' b' Lt. destruct x, y; simpl in *; auto. destruct Q. split; auto. eapply nsim_later; eauto.
Qed.
Lemma m_zparse_sim k : forall k' i a b, AInv a -> AInv b -> sim psim a b (m_zparse k i) (m_zparse k' i).
Proof.
  induction k as [|k IH]; intros k' i a b Ia Ib; [constructor|].
  destruct k' as [|k']; [constructor|]. cbn [m_zparse]. destruct (tag text_T i) as [r|].
  { apply psim_ret. split; auto. exists (Leaf true). split; constructor. }
  destruct (tag text_F i) as [r|].
  { apply psim_ret. split; auto. exists (Leaf false). split; constructor. }
  destruct (tag [40%N] i) as [i1|]; [|apply psim_ret; exact I]. destruct (ws node_id i1) as [i2 id| |]; try (apply psim_ret; exact I).
  nstep IH; [eassumption..|]. destruct r as [i3 low| |], s as [j3 low'| |]; simpl in Hq; try contradiction;
    try (apply psim_ret; exact I). destruct Hq as [-> (t & D1 & D2)].
  nstep IH; [eassumption..|]. destruct r as [i4 high| |], s as [j4 high'| |]; simpl in Hq; try contradiction;
    try (apply psim_ret; exact I). destruct Hq as [-> (u & D3 & D4)].
  destruct (tag [41%N] (sp j4)) as [r|]; [|apply psim_ret; exact I].
  nstep m_zbranch_sim; [eassumption..|]. apply psim_ret. split; auto.
Qed.

Section Zdd.
  Context {T : Type} `{Ord T}.

  Definition tsim (a b : arena nat) (x y : mztree T) : Prop := isim a b (mz_root x) (mz_root y) /\ mz_univ x = mz_univ y.
  Lemma tsim_later a b a' b' x y : later a b a' b' -> tsim a b x y -> tsim a' b' x y.
  Proof. intros Lt [Q1 Q2]. split; auto. eapply isim_later; eauto. Qed.
  Lemma tsim_leaf a b (c : bool) (u : zuniverse T) : AInv a -> AInv b ->
    tsim a b (mkMZ (if c then 1 else 0) u) (mkMZ (if c then 1 else 0) u).
  Proof. intros Ia Ib. split; auto. exists (Leaf c). split; apply den_leaf; auto. Qed.
  Lemma sim_tree a b x y : tsim a b x y -> sim tsim a b (Ret x) (Ret y).
  Proof. intros Q. apply M_ret. intros a' b' Lt. eapply tsim_later; eauto. Qed.
  Lemma tsim_mk a b i j t (u : zuniverse T) : den a i t -> den b j t -> tsim a b (mkMZ i u) (mkMZ j u).
  Proof. intros D1 D2. split; auto. exists t. auto. Qed.

  Lemma m_ztree_sim (u : zuniverse T) c a b : AInv a -> AInv b -> sim tsim a b (m_ztree u c) (m_ztree u c).
  Proof.
    intros Ia Ib. unfold m_ztree. eapply sim_bind; [apply (sim_fold isim)|auto|auto|].
    - intros a1 b1 a2 b2 x y. apply isim_later.
    - intros a1 b1 id x y _ I1 I2 (t & D1 & D2). pose proof (den_leaf a1 false I1) as Z1. pose proof (den_leaf b1 false I2) as Z2.
      cbv iota in Z1, Z2. eapply sim_mono; [eapply sim_intern; constructor; eassumption|].
      intros a2 b2 r s _ [X1 X2]. eexists; eauto.
    - auto.
    - auto.
    - exists (Leaf true). split; [apply (den_leaf a true Ia)|apply (den_leaf b true Ib)].
    - intros a1 b1 i j Lt (t & D1 & D2). apply sim_tree. eapply tsim_mk; eauto.
  Qed.
  Lemma m_zop_sim op k k' (x y x' y' : mztree T) a b : zop_sim op -> AInv a -> AInv b -> tsim a b x x' -> tsim a b y y' ->
    sim tsim a b (m_zop op k x y) (m_zop op k' x' y').
  Proof.
    intros Hop Ia Ib [(t & D1 & D2) E1] [(u & D3 & D4) E2]. unfold m_zop. rewrite <- E1.
    nget. nget. nstep Hop; [eassumption..|]. nres. nput. apply sim_tree. eapply tsim_mk; eauto.
  Qed.
  Lemma m_zhyper_sim k k' (u : zuniverse T) cs a b : AInv a -> AInv b -> sim tsim a b (m_zhyper k u cs) (m_zhyper k' u cs).
  Proof.
    intros Ia Ib. unfold m_zhyper. apply (sim_fold tsim); auto.
    - intros a1 b1 a2 b2 x y. apply tsim_later.
    - intros a1 b1 c x y _ I1 I2 Q. eapply sim_bind; [apply m_ztree_sim; auto|auto|auto|].
      intros a2 b2 r s Lt Q2. apply m_zop_sim; [apply m_zunion_sim|apply Lt|apply Lt|eapply tsim_later; eauto|exact Q2].
    - apply (tsim_leaf a b false); auto.
  Qed.

  Lemma comb_sim {R} k k' (x y : mztree T) (o : list (list nat) -> R) a b : AInv a -> AInv b -> tsim a b x y ->
    sim same a b (do ps <- m_zcomb_iter k (mz_root x) ; Ret (o ps)) (do ps <- m_zcomb_iter k' (mz_root y) ; Ret (o ps)).
  Proof. intros Ia Ib [(t & D1 & D2) _]. nstep m_zcomb_iter_sim; [eassumption..|]. red in Hq; subst. apply sim_val; auto. Qed.
  Lemma m_zcombinations_with_sim k k' (x y : mztree T) inc exc a b : AInv a -> AInv b -> tsim a b x y ->
    sim same a b (m_zcombinations_with k x inc exc) (m_zcombinations_with k' y inc exc).
  Proof. intros Ia Ib Q. unfold m_zcombinations_with. cbv zeta. rewrite <- (proj2 Q). apply comb_sim; auto. Qed.
  Lemma m_zrestrict_sim k k' (x y : mztree T) inc exc a b : AInv a -> AInv b -> tsim a b x y ->
    sim tsim a b (m_zrestrict k x inc exc) (m_zrestrict k' y inc exc).
  Proof.
    intros Ia Ib Q. unfold m_zrestrict. eapply sim_bind; [apply m_zcombinations_with_sim; eauto|auto|auto|].
    intros a1 b1 r s Lt E. red in E; subst. rewrite <- (proj2 Q). apply m_zhyper_sim; apply Lt.
  Qed.
  Lemma m_ztraverse_sim k : forall k' (u : zuniverse T) i j t a b, AInv a -> AInv b -> den a i t -> den b j t ->
    sim same a b (m_ztraverse k u i) (m_ztraverse k' u j).
  Proof.
    induction k as [|k IH]; intros k' u i j t a b Ia Ib D1 D2; [constructor|].
    destruct k' as [|k']; [constructor|]. cbn [m_ztraverse]. nget. destruct t as [c|id l h]; nopen; [apply sim_val; auto|].
    destruct (z_get_item u id) as [v|]; [|apply sim_val; auto].
    nstep IH; [eassumption..|]. red in Hq; subst. match goal with |- context [match ?o with Some _ => _ | None => _ end] => destruct o as [lo'|] end; [|apply sim_val; auto].
    nstep IH; [eassumption..|]. red in Hq; subst. match goal with |- context [match ?o with Some _ => _ | None => _ end] => destruct o as [hi'|] end; apply sim_val; auto.
  Qed.

  (** calls *)
  Lemma mzreg_sim a b ms ms' vs i : AInv a -> AInv b -> hden zden a ms vs -> hden zden b ms' vs -> tsim a b (mzreg ms i) (mzreg ms' i).
  Proof.
    intros Ia Ib D1 D2. unfold mzreg. revert ms ms' vs D1 D2. induction i as [|i IH]; intros ms ms' vs D1 D2;
      inversion D1 as [|m f ms1 fs1 [X1 X2] R1]; subst; inversion D2 as [|m' f' ms2 fs2 [X3 X4] R2]; subst; cbn [nth];
      try (apply (tsim_leaf a b false); auto; fail).
    - split; [exists (zt_root f); auto|congruence].
    - eapply IH; eauto.
  Qed.
  Lemma zpush_sim a b (ms ms' : list (mztree T)) vs x y (o : zobs T) : hden zden a ms vs -> hden zden b ms' vs ->
    tsim a b x y -> hsim (@zden T) a b (ms ++ [x], o) (ms' ++ [y], o).
  Proof.
    intros D1 D2 [(t & X1 & X2) E]. split; [|reflexivity]. exists (vs ++ [mkZT t (mz_univ x)]).
    cbn [fst]. split; apply Forall2_app; auto; (constructor; [|constructor]); split; cbn; auto.
  Qed.
  Lemma mznew_sim a b p q (ms ms' : list (mztree T)) vs : AInv a -> AInv b -> hden zden a ms vs -> hden zden b ms' vs -> sim tsim a b p q ->
    sim (hsim (@zden T)) a b (mznew p ms) (mznew q ms').
  Proof.
    intros Ia Ib D1 D2 S0. unfold mznew. eapply sim_bind; [exact S0|auto|auto|].
    intros a' b' f g Lt Q. apply M_ret. intros a2 b2 Lt2. pose proof (later_trans _ _ _ _ _ _ Lt Lt2) as Lt3.
    eapply zpush_sim; [eapply hden_ext; [exact zden_ext|apply Lt3|exact D1]|eapply hden_ext; [exact zden_ext|apply Lt3|exact D2]|].
    exact (tsim_later _ _ _ _ _ _ Lt2 Q).
  Qed.
  Lemma zobs_sim {R} a b (p q : prog nat R) (o : R -> zobs T) (ms ms' : list (mztree T)) vs : AInv a -> AInv b ->
    hden zden a ms vs -> hden zden b ms' vs -> sim same a b p q ->
    sim (hsim (@zden T)) a b (do x <- p ; Ret (ms, o x)) (do x <- q ; Ret (ms', o x)).
  Proof.
    intros Ia Ib D1 D2 S0. eapply sim_bind; [exact S0|auto|auto|].
    intros a' b' x y Lt E. red in E; subst. apply M_ret. intros a2 b2 Lt2. pose proof (later_trans _ _ _ _ _ _ Lt Lt2) as Lt3.
    split; [|reflexivity]. exists vs. cbn [fst]. split; (eapply hden_ext; [exact zden_ext|apply Lt3|eassumption]).
  Qed.

  Lemma m_zcall_sim c vs k k' a b (ms ms' : list (mztree T)) : AInv a -> AInv b -> hden zden a ms vs -> hden zden b ms' vs ->
    sim (hsim (@zden T)) a b (m_zcall k ms c) (m_zcall k' ms' c).
  Proof.
    intros Ia Ib D1 D2. pose proof (fun i => mzreg_sim a b ms ms' vs i Ia Ib D1 D2) as R0.
    destruct c as [items|items|items c|items xs|items cs|i j|i j|i j|i inc exc|i|i|i inc exc|h i inc exc|i|i j|i|d]; cbn [m_zcall];
      try (eapply mznew_sim; try eassumption).
    - apply sim_tree, (tsim_leaf a b false); auto.
    - apply sim_tree, (tsim_leaf a b true); auto.
    - apply m_ztree_sim; auto.
    - apply m_zhyper_sim; auto.
    - apply m_zhyper_sim; auto.
    - apply m_zop_sim; auto. apply m_zunion_sim.
    - apply m_zop_sim; auto. apply m_zintersect_sim.
    - apply m_zop_sim; auto. apply m_zproduct_sim.
    - apply m_zrestrict_sim; auto.
    - unfold m_zcombinations. rewrite <- (proj2 (R0 i)). eapply zobs_sim; try eassumption. apply comb_sim; auto.
    - unfold m_zcombinations_recursive. rewrite <- (proj2 (R0 i)). eapply zobs_sim; try eassumption.
      destruct (R0 i) as [(t & X1 & X2) _]. eapply sim_bind; [eapply m_zcomb_recursive_sim; eassumption|auto|auto|].
      intros a1 b1 r s Lt E. red in E; subst. apply sim_val; auto.
    - eapply zobs_sim; try eassumption. apply m_zcombinations_with_sim; auto.
    - unfold m_zsummarize. rewrite <- (proj2 (R0 i)). eapply zobs_sim; try eassumption.
      eapply sim_bind; [apply m_zcombinations_with_sim; auto; apply R0|auto|auto|].
      intros a1 b1 r s Lt E. red in E; subst. apply sim_val; auto.
    - rewrite <- (proj2 (R0 i)). eapply zobs_sim; try eassumption. destruct (R0 i) as [(t & X1 & X2) _].
      eapply m_ztraverse_sim; eassumption.
    - assert (E : m_zeqb (mzreg ms i) (mzreg ms j) = m_zeqb (mzreg ms' i) (mzreg ms' j)).
      { destruct (R0 i) as [(t & X1 & X2) E1], (R0 j) as [(u & X3 & X4) E2]. unfold m_zeqb. rewrite <- E1, <- E2. f_equal.
        destruct (Nat.eqb_spec (mz_root (mzreg ms i)) (mz_root (mzreg ms j))) as [E|E],
          (Nat.eqb_spec (mz_root (mzreg ms' i)) (mz_root (mzreg ms' j))) as [E'|E']; auto; exfalso.
        - apply E'. rewrite <- E in X3. rewrite (den_fun _ _ _ _ X1 X3) in X2. exact (den_inj _ _ _ _ Ib X2 X4).
        - apply E. rewrite <- E' in X4. rewrite (den_fun _ _ _ _ X2 X4) in X1. exact (den_inj _ _ _ _ Ia X1 X3). }
      rewrite E. apply M_ret. intros a2 b2 Lt2. split; [|reflexivity]. exists vs. cbn [fst].
      split; (eapply hden_ext; [exact zden_ext|apply Lt2|eassumption]).
    - rewrite <- (proj2 (R0 i)). destruct (R0 i) as [(t & X1 & X2) _].
      eapply sim_bind; [eapply sim_get_node; eassumption|auto|auto|]. intros a1 b1 n m Lt [N1 N2].
      pose proof Lt as [Ea Eb Ia1 Ib1].
      eapply (zobs_sim a1 b1 _ _ (fun s => ZOData (s, (zu_items (mz_univ (mzreg ms i)), zu_index (mz_univ (mzreg ms i)))))); auto;
        try (eapply hden_ext; [exact zden_ext| |eassumption]; eassumption).
      eapply m_zprint_sim; eassumption.
    - eapply sim_bind; [eapply m_zparse_sim; auto|auto|auto|]. intros a1 b1 x y Lt Q. pose proof Lt as [Ea Eb Ia1 Ib1].
      assert (D1' : hden zden a1 ms vs) by (eapply hden_ext; [exact zden_ext| |eassumption]; eassumption).
      assert (D2' : hden zden b1 ms' vs) by (eapply hden_ext; [exact zden_ext| |eassumption]; eassumption).
      assert (Er : sim (hsim (@zden T)) a1 b1 (Ret (ms, @ZOBool T false)) (Ret (ms', @ZOBool T false))).
      { apply M_ret. intros a2 b2 Lt2. split; [|reflexivity]. exists vs. cbn [fst].
        split; (eapply hden_ext; [exact zden_ext|apply Lt2|eassumption]). }
      destruct x as [r n| |], y as [s m| |]; simpl in Q; try contradiction; auto. destruct Q as [_ (t & N1 & N2)].
      eapply sim_bind; [eapply sim_intern; eassumption|auto|auto|]. intros a2 b2 p q Lt2 [X1 X2]. apply M_ret. intros a3 b3 Lt3.
      pose proof (later_trans _ _ _ _ _ _ Lt2 Lt3) as Lt4.
      eapply zpush_sim; [eapply hden_ext; [exact zden_ext|apply Lt4|exact D1']|eapply hden_ext; [exact zden_ext|apply Lt4|exact D2']|].
      eapply tsim_later; [exact Lt3|]. eapply tsim_mk; eauto.
  Qed.
End Zdd.
