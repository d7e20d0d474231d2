(** GrowthCalls: every call of weave/src/zdd and of bowtie-core/src/bdd adds at
    most as many diagrams to the store as its cost (GrowthSpec.v). *)
From Coq Require Import List Arith NArith Lia Bool Permutation Sorted.
From Verif Require Import Base DD Spec Zdd2Model ZddModel ParserModel ParserSpec BddSpec BddModel BddRun ArenaModel ArenaProofs PoolModel ZddProg BddProg.
From Verif Require Import PoolProofs ZddProofs ParserProofs ParserThm ZddProgProofs BddNode BddProgProofs ArenaSim PoolStore StoreThm GrowthSpec GrowthProofs.
From Verif Require Import ArenaModel.
Import ListNotations.
Open Scope nat_scope.

Section Bounded.
  Context {L : Type} `{Ord L}.
  (** [P] holds of a set of at most [n] diagrams, and of every larger set *)
  Definition bounded (n : nat) (P : (dd L -> Prop) -> Prop) : Prop :=
    exists l, length l <= n /\ forall F : dd L -> Prop, (forall d, In d l -> F d) -> P F.
  Lemma bounded_mono n m (P Q : (dd L -> Prop) -> Prop) : bounded n P -> n <= m -> (forall F : dd L -> Prop, P F -> Q F) -> bounded m Q.
  Proof. intros (l & E & Hl) Hn Hq. exists l. split; [lia|]. auto. Qed.
  Lemma bounded_and n m (P Q : (dd L -> Prop) -> Prop) : bounded n P -> bounded m Q -> bounded (n + m) (fun F => P F /\ Q F).
  Proof.
    intros (l & E & Hl) (k & E' & Hk). exists (l ++ k). split; [rewrite app_length; lia|].
    intros F HF. split; [apply Hl|apply Hk]; intros d Hd; apply HF, in_or_app; auto.
  Qed.
  Lemma bounded_triv n (P : (dd L -> Prop) -> Prop) : (forall F, P F) -> bounded n P.
  Proof. intros HP. exists []. split; [simpl; lia|]. auto. Qed.

  (** the different diagrams below one *)
  Lemma add_new_in (x y : dd L) l : In y (add_new x l) <-> y = x \/ In y l.
  Proof.
    unfold add_new. destruct (existsb (dd_eqb x) l) eqn:E; simpl; [|split; intros [A|A]; auto].
    apply existsb_exists in E. destruct E as (z & Hz & Ez). destruct (dd_eqb_spec x z) as [->|]; [|discriminate].
    split; [auto|]. intros [->|A]; auto.
  Qed.
  Lemma add_new_NoDup (x : dd L) l : NoDup l -> NoDup (add_new x l).
  Proof.
    intros N. unfold add_new. destruct (existsb (dd_eqb x) l) eqn:E; auto. constructor; auto. intros Hx.
    assert (X : existsb (dd_eqb x) l = true); [|congruence]. apply existsb_exists. exists x. split; auto.
    destruct (dd_eqb_spec x x); auto.
  Qed.
  Lemma fold_add_in (y : dd L) k l : In y (fold_right add_new k l) <-> In y l \/ In y k.
  Proof.
    induction l as [|x l IH]; simpl; [tauto|]. rewrite add_new_in, IH. split; [intros [->|[A|A]]; auto|intros [[->|A]|A]; auto].
  Qed.
  Lemma fold_add_NoDup (k l : list (dd L)) : NoDup k -> NoDup (fold_right add_new k l).
  Proof. intros N. induction l as [|x l IH]; simpl; auto. apply add_new_NoDup; auto. Qed.
  Lemma all_subs_in (x t : dd L) : In x (all_subs t) <-> sub x t.
  Proof.
    induction t as [b|i lo IHl hi IHh]; cbn [all_subs].
    - split; [intros [<-|[]]; constructor|]. intros Hs. inversion Hs; subst. left; auto.
    - rewrite add_new_in, fold_add_in, IHl, IHh. split.
      + intros [->|[A|A]]; [apply sub_refl|apply sub_low|apply sub_high]; auto.
      + intros Hs. inversion Hs; subst; auto.
  Qed.
  Lemma all_subs_NoDup (t : dd L) : NoDup (all_subs t).
  Proof. induction t as [b|i lo IHl hi IHh]; cbn [all_subs]; [constructor; [simpl; tauto|constructor]|]. apply add_new_NoDup, fold_add_NoDup; auto. Qed.
  (** [dag_size] is the number of different diagrams below [t] *)
  Lemma dag_size_spec (t : dd L) l : NoDup l -> (forall x, In x l <-> sub x t) -> length l = dag_size t.
  Proof.
    intros N Hl. apply Nat.le_antisymm; apply NoDup_incl_length; auto using all_subs_NoDup; intros x Hx.
    - apply all_subs_in, Hl; auto.
    - apply Hl, all_subs_in; auto.
  Qed.
  Lemma dag_size_le (t : dd L) l : (forall x, sub x t -> In x l) -> dag_size t <= length l.
  Proof. intros Hl. apply NoDup_incl_length; [apply all_subs_NoDup|]. intros x Hx. apply Hl, all_subs_in; auto. Qed.
  Definition pairs (op : dd L -> dd L -> dd L) (t1 t2 : dd L) : list (dd L) :=
    map (fun p => op (fst p) (snd p)) (list_prod (all_subs t1) (all_subs t2)).
  Lemma pairs_length op t1 t2 : length (pairs op t1 t2) = dag_size t1 * dag_size t2.
  Proof. unfold pairs. rewrite map_length, prod_length. reflexivity. Qed.
  Lemma pairs_in op t1 t2 x y : sub x t1 -> sub y t2 -> In (op x y) (pairs op t1 t2).
  Proof.
    intros A B. unfold pairs. apply in_map_iff. exists (x, y). split; auto. apply in_prod; apply all_subs_in; auto.
  Qed.
  Lemma bounded_pairs (op : dd L -> dd L -> dd L) t1 t2 (P : (dd L -> Prop) -> Prop) : (forall F : dd L -> Prop, (forall x y, sub x t1 -> sub y t2 -> F (op x y)) -> P F) ->
    bounded (dag_size t1 * dag_size t2) P.
  Proof.
    intros HP. exists (pairs op t1 t2). split; [rewrite pairs_length; lia|]. intros F HF. apply HP. intros x y A B. apply HF, pairs_in; auto.
  Qed.
  Lemma bounded_subs (op : dd L -> dd L) (t : dd L) (P : (dd L -> Prop) -> Prop) : (forall F : dd L -> Prop, (forall x, sub x t -> F (op x)) -> P F) -> bounded (dag_size t) P.
  Proof.
    intros HP. exists (map op (all_subs t)). split; [rewrite map_length; apply le_n|]. intros F HF. apply HP. intros x A.
    apply HF, in_map, all_subs_in; auto.
  Qed.
  Lemma wpo_top {R} (F : dd L -> Prop) (p : prog L R) a Q : AInv a -> wpo F a p Q -> wpo F a p (fun _ _ => True).
  Proof. intros I0 Hw. eapply wpo_mono; [|exact I0|exact Hw|]; auto. Qed.
  Lemma wpo_wp {R} (F : dd L -> Prop) (p : prog L R) : forall a Q Q', wpo F a p Q -> wp false a p Q' -> wpo F a p (fun b r => Q b r /\ Q' b r).
  Proof.
    induction p as [r|i k IH|n k IH|n k IH| |]; intros a Q Q' A B; simpl in *; auto.
    - intros a' E I0 n G. destruct (B a' E I0) as (m & Gm & W). assert (m = n) by congruence. subst. apply IH; auto.
    - intros a' E I0. destruct (A a' E I0) as (t & D & S & W). destruct (B a' E I0) as (_ & W'). exists t. auto.
  Qed.
End Bounded.

(** ** scripts and pools *)
Section PoolGrowth.
  Context {L M C B V : Type} `{Ord L}.
  Variable m_call : nat -> list M -> C -> prog L (list M * B).
  Variable v_call : list V -> C -> option (list V * B).
  Variable cost : list V -> C -> nat.
  Variable mden : arena L -> M -> V -> Prop.
  Hypothesis mden_ext : forall a b m v, ext a b -> mden a m v -> mden b m v.
  Hypothesis mden_fun : forall a m v w, mden a m v -> mden a m w -> v = w.
  Hypothesis v_total : forall vs c, exists y, v_call vs c = Some y.
  Hypothesis m_refines : forall c vs y, v_call vs c = Some y ->
    exists F, forall fuel tot, suffices F fuel tot -> forall a ms, AInv a -> gden mden a ms vs ->
    wp tot a (m_call fuel ms c) (fun a' x => gsden mden a' x y).
  Hypothesis call_bounded : forall vs c, bounded (cost vs c) (fun F => forall fuel a ms, AInv a -> hden mden a ms vs ->
    wpo F a (m_call fuel ms c) (fun _ _ => True)).

  Definition may (F : dd L -> Prop) (cs : list C) (vs : list V) : Prop :=
    forall fuel a ms, AInv a -> hden mden a ms vs -> wpo F a (g_script m_call fuel cs ms) (fun _ _ => True).
  Lemma script_bounded cs : forall vs, bounded (script_cost v_call cost cs vs) (fun F => may F cs vs).
  Proof.
    induction cs as [|c cs IH]; intros vs; cbn [script_cost].
    - apply bounded_triv. intros F fuel a ms I0 D. apply wpo_ret. auto.
    - destruct (v_total vs c) as (y & Ey). rewrite Ey. destruct (m_refines c vs y Ey) as (G & S1).
      refine (bounded_mono _ _ _ _ (bounded_and _ _ _ _ (call_bounded vs c) (IH (fst y))) (le_n _) _).
      intros F [HF1 HF2] fuel a ms I0 D. cbn [g_script].
      eapply wpo_bind; [eapply wpo_wp; [eapply HF1; eauto|eapply S1; [discriminate|exact I0|exact D]]| |exact I0].
      intros a1 r E1 I1 [_ [D1 _]]. eapply wpo_bind; [eapply HF2; [exact I1|exact D1]| |exact I1].
      intros a2 r2 E2 I2 _. apply wpo_ret. auto.
  Qed.

  Definition tgrow (a : arena L) (t : gthread L M C B) : Prop :=
    exists vs, hden mden a (gt_init t) vs /\ forall F : dd L -> Prop, may F (gt_script t) vs -> wpo F a (gt_prog t) (fun _ _ => True).
  Definition source (p : gpool L M C B) (d : dd L) : Prop :=
    (exists c, d = Leaf c) \/
    exists t vs, In t (gp_threads p) /\ hden mden (gp_arena p) (gt_init t) vs /\ forall F : dd L -> Prop, may F (gt_script t) vs -> F d.
  Definition grow_ok (p : gpool L M C B) : Prop :=
    Forall (tgrow (gp_arena p)) (gp_threads p) /\ forall d, stored (gp_arena p) d -> source p d.

  Lemma tgrow_ext a b t : ext a b -> tgrow a t -> tgrow b t.
  Proof.
    intros E (vs & D & Hf). exists vs. split; [eapply hden_ext; eauto|]. intros F HF. eapply wpo_ext; eauto.
  Qed.
  Lemma grow_step p q : AInv (gp_arena p) -> Forall (fun m => exists v, True /\ mden (gp_arena p) m v) (gp_done p) ->
    grow_ok p -> gpool_step m_call p q -> grow_ok q.
  Proof.
    intros I0 Hd [Ht Hc] Hs.
    inversion Hs as [a ts d fuel cs ms Hi|a ts1 ts2 d fuel cs ms pr a' pr' Hpr|a ts d fuel cs ms rs os Hin]; subst; cbn [gp_arena gp_threads gp_done] in *.
    - split; cbn [gp_arena gp_threads].
      + apply Forall_app. split; auto. constructor; [|constructor].
        destruct (hpick mden (fun _ => True) a d ms Hi Hd) as (vs & _ & D). exists vs. split; auto. intros F HF. apply HF; auto.
      + intros x Hx. destruct (Hc x Hx) as [X|(t & vs & Hin & D & Hn)]; [left; auto|]. right. exists t, vs. split; auto.
        apply in_or_app; auto.
    - apply Forall_app in Ht. destruct Ht as [Ht1 Ht2]. inversion Ht2 as [|x l Hx Hl]; subst.
      destruct Hx as (vs & D & Hf). cbn [gt_init gt_script gt_prog] in *.
      destruct (script_bounded cs vs) as (l0 & _ & HF0).
      assert (HF1 : may (fun t => In t l0) cs vs) by (apply HF0; auto).
      destruct (wpo_step _ pr _ a pr' a' I0 (Hf _ HF1) Hpr) as (I1 & E1 & _ & _).
      split; cbn [gp_arena gp_threads].
      + apply Forall_app. split; [eapply Forall_impl; [|exact Ht1]; intros t; apply tgrow_ext; auto|].
        constructor; [|eapply Forall_impl; [|exact Hl]; intros t; apply tgrow_ext; auto].
        exists vs. split; [eapply hden_ext; eauto|]. cbn [gt_init gt_script gt_prog]. intros F HF.
        destruct (wpo_step _ pr _ a pr' a' I0 (Hf F HF) Hpr) as (_ & _ & X & _). exact X.
      + intros x Hx.
        assert (Y : stored a x \/ forall F : dd L -> Prop, may F cs vs -> F x).
        { inversion Hpr as [a1 i k n Hg|a1 i k Hg|a1 n k|a1 n k]; subst; auto.
          destruct (Hf _ HF1 a (ext_refl a) I0) as (t & Dt & _). destruct Hx as (i & Dx).
          destruct (add_only a n t i x I0 Dt Dx) as [X| ->]; auto.
          destruct (idx_get (a_index a) n) as [j|] eqn:Ej.
          - left. exists j. econstructor; [|exact Dt]. apply (inv_index a I0). exact Ej.
          - right. intros F HF. destruct (Hf F HF a (ext_refl a) I0) as (t' & Dt' & [St|Ft] & _); rewrite (nden_fun _ _ _ _ Dt Dt'); auto.
            exfalso. destruct St as (i' & Di'). inversion Di' as [i0 m u Hg Hm]; subst.
            rewrite <- (nden_inj _ _ _ _ I0 Dt' Hm) in Hg. apply (inv_index a I0) in Hg. congruence. }
        unfold source; cbn [gp_arena gp_threads]. destruct Y as [Y|Y].
        * destruct (Hc x Y) as [Z|(t & ws & Hin & Dt & Hn)]; [left; auto|]. right. cbn [gp_arena gp_threads] in Hin, Dt.
          apply in_app_or in Hin. destruct Hin as [Hin|[<-|Hin]].
          { exists t, ws. split; [apply in_or_app; auto|]. split; auto. eapply hden_ext; eauto. }
          { exists (mkGT fuel cs ms pr'), ws. split; [apply in_or_app; right; left; auto|]. split; auto. eapply hden_ext; eauto. }
          { exists t, ws. split; [apply in_or_app; right; right; auto|]. split; auto. eapply hden_ext; eauto. }
        * right. exists (mkGT fuel cs ms pr'), vs. split; [apply in_or_app; right; left; auto|].
          split; [eapply hden_ext; eauto|exact Y].
    - split; auto.
  Qed.
  Hypothesis base : forall p : gpool L M C B, gpool_reach m_call p ->
    AInv (gp_arena p) /\ Forall (fun m => exists v, True /\ mden (gp_arena p) m v) (gp_done p).
  Lemma grow_reach p : gpool_reach m_call p -> grow_ok p.
  Proof.
    intros Hp. induction Hp as [|p q Hp IH Hs].
    - split; [constructor|]. intros d Hd. left. apply new_stored; auto.
    - destruct (base p Hp). eapply grow_step; eauto.
  Qed.

  (** one step of a thread *)
  Theorem pool_growth cs vs : exists l, length l <= script_cost v_call cost cs vs /\
    forall p t a' k, gpool_reach m_call p -> In t (gp_threads p) -> gt_script t = cs ->
      Forall2 (mden (gp_arena p)) (gt_init t) vs -> pstep (gp_arena p) (gt_prog t) a' k ->
      forall d, stored a' d -> stored (gp_arena p) d \/ In d l.
  Proof.
    destruct (script_bounded cs vs) as (l & El & Hl). exists l. split; auto. intros p t a' k Hp Ht Ec D Hs d Hd.
    destruct (base p Hp) as [I0 _]. destruct (grow_reach p Hp) as [Hg _]. rewrite Forall_forall in Hg.
    destruct (Hg t Ht) as (ws & D' & Hf). rewrite (hden_fun mden mden_fun _ _ _ _ D' D) in Hf. rewrite Ec in Hf.
    destruct (wpo_step (fun d => In d l) (gt_prog t) (fun _ _ => True) (gp_arena p) k a' I0 (Hf _ (Hl _ (fun d X => X))) Hs) as (_ & _ & _ & X). auto.
  Qed.
  (** the whole store, after any history *)
  Theorem pool_bound p (vs : gthread L M C B -> list V) : gpool_reach m_call p ->
    (forall t, In t (gp_threads p) -> Forall2 (mden (gp_arena p)) (gt_init t) (vs t)) ->
    length (a_nodes (gp_arena p)) <= 2 + list_sum (map (fun t => script_cost v_call cost (gt_script t) (vs t)) (gp_threads p)).
  Proof.
    intros Hp Hv. destruct (base p Hp) as [I0 _]. destruct (grow_reach p Hp) as [_ Hc].
    assert (X : forall ts, exists l, length l <= list_sum (map (fun t => script_cost v_call cost (gt_script t) (vs t)) ts) /\
              forall t, In t ts -> may (fun d => In d l) (gt_script t) (vs t)).
    { unfold list_sum. induction ts as [|t ts (l & El & Hl)]; cbn [map fold_right].
      - exists []. split; auto. intros t [].
      - destruct (script_bounded (gt_script t) (vs t)) as (k & Ek & Hk). exists (k ++ l). split; [rewrite app_length; lia|].
        intros u [<-|Hu].
        + apply Hk. intros d Hd. apply in_or_app; auto.
        + intros fuel a ms Ia D. eapply wpo_mono; [|exact Ia|exact (Hl u Hu fuel a ms Ia D)|auto]. intros d Hd. apply in_or_app; auto. }
    destruct (X (gp_threads p)) as (l & El & Hl). destruct (store_list (gp_arena p) I0) as (ds & Ed & Nd & Hd).
    rewrite <- Ed. enough (Y : length ds <= length (Leaf false :: Leaf true :: l)) by (simpl in Y; lia).
    apply NoDup_incl_length; auto. intros d Hin. apply Hd in Hin. destruct (Hc d Hin) as [(c & ->)|(t & ws & Ht & D & Hn)].
    - destruct c; simpl; auto.
    - right. right. specialize (Hv t Ht). rewrite (hden_fun mden mden_fun _ _ _ _ D Hv) in Hn. exact (Hn _ (Hl t Ht)).
  Qed.
End PoolGrowth.

(** ** folds *)
Section Fold.
  Context {L : Type} `{Ord L} {A M V : Type}.
  Variable R : arena L -> M -> V -> Prop.
  Hypothesis R_ext : forall a b m v, ext a b -> R a m v -> R b m v.
  Lemma bounded_fold (step : V -> A -> V) (cost : V -> A -> nat) (f : nat -> M -> A -> prog L M) :
    (forall v x, bounded (cost v x) (fun F : dd L -> Prop => forall fuel a m, AInv a -> R a m v ->
       wpo F a (f fuel m x) (fun a' r => R a' r (step v x)))) ->
    forall l v, bounded (fold_cost step cost l v) (fun F : dd L -> Prop => forall fuel a m, AInv a -> R a m v ->
       wpo F a (pfoldM (f fuel) l m) (fun a' r => R a' r (fold_left step l v))).
  Proof.
    intros Hf l. induction l as [|x l IH]; intros v; cbn [fold_cost pfoldM fold_left].
    - apply bounded_triv. intros F fuel a m I0 D. apply wpo_ret. intros a' E _. eapply R_ext; eauto.
    - refine (bounded_mono _ _ _ _ (bounded_and _ _ _ _ (Hf v x) (IH (step v x))) (le_n _) _).
      intros F [H1 H2] fuel a m I0 D. eapply wpo_bind; [apply H1; [exact I0|exact D]| |exact I0].
      intros a1 r E1 I1 D1. apply H2; auto.
  Qed.
End Fold.

(** ** weave/src/zdd *)
Section ZCalls.
  Context {T : Type} `{OT : Ord T}.
  Notation zhden := (hden (@zden T)).
  Lemma filter_map_le {A B} (f : A -> option B) l : length (filter_map f l) <= length l.
  Proof. induction l as [|x l IH]; simpl; [lia|]. destruct (f x); simpl; lia. Qed.
  Lemma ztree_bounded (u : zuniverse T) c : bounded (length c) (fun F : dd nat -> Prop => forall a, AInv a ->
    wpo F a (m_ztree u c) (fun a' m => zden a' m (z_tree u c))).
  Proof.
    unfold m_ztree, z_tree. set (l := rev (sort (filter_map (map_get (zu_index u)) c))).
    assert (El : length l <= length c).
    { unfold l. rewrite rev_length, (Permutation_length (sort_perm _)). apply filter_map_le. }
    assert (X : forall (l : list nat) t, bounded (length l) (fun F : dd nat -> Prop => forall a i, AInv a -> den a i t ->
      wpo F a (pfoldM (fun next id => intern (GBranch id 0 next)) l i)
         (fun a' j => den a' j (fold_left (fun next id => required_branch id next) l t)))).
    { clear. induction l as [|x l IH]; intros t.
      - apply bounded_triv. intros F a i I0 D. apply wpo_ret. intros a' E _. eapply den_ext; eauto.
      - destruct (IH (required_branch x t)) as (k & Ek & Hk). exists (required_branch x t :: k). split; [simpl; lia|].
        intros F HF a i I0 D. cbn [pfoldM fold_left].
        eapply wpo_bind; [eapply (wpo_intern F a _ (required_branch x t))| |exact I0].
        + constructor; [exact (den_leaf a false I0)|exact D].
        + right. apply HF. left; reflexivity.
        + intros b j E Ib D'. cbv beta in D'. apply Hk; auto. intros d Hd. apply HF. right; exact Hd. }
    refine (bounded_mono _ _ _ _ (X l (Leaf true)) El _). intros F HF a I0.
    eapply wpo_bind; [apply HF; [exact I0|exact (den_leaf a true I0)]| |exact I0].
    intros a' j E I1 D. cbv beta in D. apply wpo_ret. intros a2 E2 _. split; [eapply den_ext; eauto|reflexivity].
  Qed.
  Lemma zop_bounded op m (t o : ztree T) : (forall F, zop_only F op m) -> bounded (z_op_cost t o) (fun F : dd nat -> Prop => forall fuel a mt mo,
    AInv a -> zden a mt t -> zden a mo o -> wpo F a (m_zop m fuel mt mo) (fun a' x => zden a' x (mkZT (op (zt_root t) (zt_root o)) (zt_univ t)))).
  Proof. intros Hm. apply (bounded_pairs op). intros F HF fuel a mt mo I0 D1 D2. apply zop_call_only; auto. Qed.
  Lemma zhyper_bounded (u : zuniverse T) cs : bounded (z_hyper_cost u cs) (fun F : dd nat -> Prop => forall fuel a, AInv a ->
    wpo F a (m_zhyper fuel u cs) (fun _ _ => True)).
  Proof.
    refine (bounded_mono _ _ _ _ (bounded_fold (@zden T) zden_ext _ _
      (fun fuel root c => do next <- m_ztree u c ; m_zop m_zunion fuel root next) _ cs (z_empty_tree u)) (le_n _) _).
    - intros v x. refine (bounded_mono _ _ _ _ (bounded_and _ _ _ _ (ztree_bounded u x) (zop_bounded zunion m_zunion v (z_tree u x) zunion_only)) (le_n _) _).
      intros F [H1 H2] fuel a m I0 D. eapply wpo_bind; [apply H1; exact I0| |exact I0].
      intros a1 r E1 I1 D1. cbv beta in D1. apply H2; auto. eapply zden_ext; eauto.
    - intros F HF fuel a I0. eapply wpo_top; [exact I0|]. apply HF; [exact I0|]. split; [exact (den_leaf a false I0)|reflexivity].
  Qed.
  Lemma mznew_only F a p (ms : list (mztree T)) : AInv a -> wpo F a p (fun _ _ => True) -> wpo F a (mznew p ms) (fun _ _ => True).
  Proof. intros I0 Hp. unfold mznew. eapply wpo_bind; [exact Hp| |exact I0]. intros a' m E I1 _. apply wpo_ret. auto. Qed.

  (** the parser: the diagrams that the text spells from some position on *)
  Notation zpa := (node_parser text_T text_F (fun id lo hi => Some (zbranch id lo hi))).
  Definition spelled (i : list N) : list (dd nat) :=
    flat_map (fun j => match zpa (S (length i)) (skipn j i) with POk _ t => [t] | _ => [] end) (seq 0 (length i)).
  Lemma spelled_length i : length (spelled i) <= length i.
  Proof.
    assert (X : forall k l, length (flat_map (fun j => match zpa k (skipn j i) with POk _ t => [t] | _ => [] end) l) <= length l).
    { intros k. induction l as [|x l IH]; cbn [flat_map length]; [lia|]. rewrite app_length. destruct (zpa k (skipn x i)); cbn [length]; lia. }
    unfold spelled. etransitivity; [apply X|]. rewrite seq_length. lia.
  Qed.
  Definition suffix (s i : list N) : Prop := exists w, i = w ++ s.
  Lemma suffix_trans s t i : suffix s t -> suffix t i -> suffix s i.
  Proof. intros (w & ->) (v & ->). exists (v ++ w). apply app_assoc. Qed.
  Lemma suffix_sp i : suffix (sp i) i.
  Proof. destruct (sp_split i) as (w & E & _). exists w. exact E. Qed.
  Lemma suffix_length s i : suffix s i -> length s <= length i.
  Proof. intros (w & ->). rewrite app_length. lia. Qed.
  Lemma zpa_total k i : length i < k -> zpa k i <> PStuck.
  Proof.
    exact (P_total 84 70 TF_neq (fun id lo hi => Some (zbranch id lo hi)) (fun _ => True) (fun _ => Logic.I)
      (fun i lo hi _ _ => ex_intro _ (zbranch i lo hi) (conj eq_refl Logic.I)) k i).
  Qed.
  Lemma zpa_suffix k i r t : zpa k i = POk r t -> suffix r i.
  Proof. intros E. apply (P_sound 84 70) in E. destruct E as (raw & s & E & _). exists s. exact E. Qed.
  Lemma spelled_in i s r t : suffix s i -> zpa (S (length i)) s = POk r t -> In t (spelled i).
  Proof.
    intros (w & E) Et. unfold spelled. apply in_flat_map. exists (length w). split.
    - apply in_seq. pose proof (P_length 84 70 TF_neq _ _ _ _ _ Et) as PL. rewrite E, app_length. lia.
    - replace (skipn (length w) i) with s by (rewrite E, skipn_app, skipn_all, Nat.sub_diag; reflexivity).
      rewrite Et. left; reflexivity.
  Qed.
  Lemma zbranch_only (F : dd nat -> Prop) a id low high tl th : AInv a -> nden a low tl -> nden a high th -> F tl -> F th ->
    wpo F a (m_zbranch id low high) (fun _ _ => True).
  Proof.
    intros I0 D1 D2 F1 F2. unfold m_zbranch. ostep @wpo_intern; [eassumption|auto|]. ostep @wpo_intern; [eassumption|auto|].
    apply wpo_ret. auto.
  Qed.
  Lemma zparse_only i (F : dd nat -> Prop) : (forall d, In d (spelled i) -> F d) -> forall fuel s a, suffix s i -> AInv a ->
    wpo F a (m_zparse fuel s) (fun a' x => pden a' x (zpa (S (length i)) s)).
  Proof.
    intros HF.
    assert (W : forall fuel s a, suffix s i -> AInv a -> wp false a (m_zparse fuel s) (fun a' x => pden a' x (zpa (S (length i)) s))).
    { intros fuel s a Hs I0. apply m_zparse_spec; auto; [apply zpa_total; apply suffix_length in Hs; lia|discriminate]. }
    assert (X : forall fuel s a, suffix s i -> AInv a -> wpo F a (m_zparse fuel s) (fun _ _ => True)).
    2:{ intros fuel s a Hs I0. eapply wpo_mono; [|exact I0|eapply wpo_wp; [apply X; auto|apply W; auto]|]; auto. intros a' r E I1 [_ Y]. exact Y. }
    induction fuel as [|k IH]; intros s a Hs I0; [exact Logic.I|]. cbn [m_zparse].
    destruct (tag text_T s) as [r|]; [apply wpo_ret; auto|].
    destruct (tag text_F s) as [r|]; [apply wpo_ret; auto|].
    destruct (tag [40%N] s) as [i1|] eqn:E1; [|apply wpo_ret; auto].
    destruct (ws node_id i1) as [i2 id| |] eqn:E2; [|apply wpo_ret; auto|apply wpo_ret; auto].
    assert (S2 : suffix (sp i2) i).
    { apply tag_some in E1. apply ws_inv in E2. destruct E2 as (w1 & w2 & r0 & A & _ & B & C & _). apply node_id_inv in B. destruct B as (ds & B & _).
      eapply suffix_trans; [apply suffix_sp|]. eapply suffix_trans; [|exact Hs]. subst s. exists ([40%N] ++ w1 ++ ds ++ w2).
      rewrite A, B, C. rewrite <- !app_assoc. reflexivity. }
    eapply wpo_bind; [eapply wpo_wp; [apply IH; [exact S2|exact I0]|apply W; [exact S2|exact I0]]|intros a1 x Ea I1 [_ D1]; cbv beta in D1|exact I0].
    destruct x as [i3 low| |]; [|apply wpo_ret; auto|apply wpo_ret; auto].
    destruct (zpa (S (length i)) (sp i2)) as [i3' tl| |] eqn:E3; simpl in D1; try contradiction. destruct D1 as [-> D1].
    assert (S3 : suffix (sp (sp i3')) i).
    { eapply suffix_trans; [apply suffix_sp|]. eapply suffix_trans; [apply suffix_sp|]. eapply suffix_trans; [eapply zpa_suffix; exact E3|exact S2]. }
    eapply wpo_bind; [eapply wpo_wp; [apply IH; [exact S3|exact I1]|apply W; [exact S3|exact I1]]|intros a2 y Eb I2 [_ D2]; cbv beta in D2|exact I1].
    destruct y as [i4 high| |]; [|apply wpo_ret; auto|apply wpo_ret; auto].
    destruct (zpa (S (length i)) (sp (sp i3'))) as [i4' th| |] eqn:E4; simpl in D2; try contradiction. destruct D2 as [-> D2].
    destruct (tag [41%N] (sp i4')) as [r|]; [|apply wpo_ret; auto]. olift Eb.
    eapply wpo_bind; [eapply zbranch_only; [exact I2|exact D1|exact D2| |]| |exact I2].
    - apply HF. eapply spelled_in; [exact S2|exact E3].
    - apply HF. eapply spelled_in; [exact S3|exact E4].
    - intros a3 n _ I3 _. apply wpo_ret. auto.
  Qed.

  Lemma zcall_bounded (vs : list (ztree T)) c : bounded (z_cost vs c) (fun F : dd nat -> Prop => forall fuel a ms, AInv a -> zhden a ms vs ->
    wpo F a (m_zcall fuel ms c) (fun _ _ => True)).
  Proof.
    assert (OP : forall op m i j, (forall F, zop_only F op m) -> bounded (z_op_cost (zreg vs i) (zreg vs j)) (fun F : dd nat -> Prop =>
      forall fuel a ms, AInv a -> zhden a ms vs -> wpo F a (mznew (m_zop m fuel (mzreg ms i) (mzreg ms j)) ms) (fun _ _ => True))).
    { intros op m i j Hm. refine (bounded_mono _ _ _ _ (zop_bounded op m (zreg vs i) (zreg vs j) Hm) (le_n _) _).
      intros F HF fuel a ms I0 D. apply mznew_only; auto. eapply wpo_top; [exact I0|]. apply HF; auto; apply zgden_reg; auto. }
    destruct (zdd_reading c) eqn:Er.
    { destruct c; try discriminate Er; apply bounded_triv; intros F fuel a ms I0 D; apply wpo_reads, z_reads; reflexivity. }
    destruct c as [items|items|items c|items xs|items cs|i j|i j|i j|i inc exc|i|i|i inc exc|h i inc exc|i|i j|i|d]; try discriminate Er; cbn [z_cost m_zcall].
    - refine (bounded_mono _ _ _ _ (ztree_bounded (zu_from items) c) (le_n _) _). intros F HF fuel a ms I0 D.
      apply mznew_only; auto. eapply wpo_top; [exact I0|]. apply HF; auto.
    - refine (bounded_mono _ _ _ _ (zhyper_bounded (zu_from items) (map (fun x => [x]) xs)) (le_n _) _). intros F HF fuel a ms I0 D.
      apply mznew_only; auto. apply HF; auto.
    - refine (bounded_mono _ _ _ _ (zhyper_bounded (zu_from items) cs) (le_n _) _). intros F HF fuel a ms I0 D.
      apply mznew_only; auto. 
    - exact (OP zunion m_zunion i j zunion_only).
    - exact (OP zintersect m_zintersect i j zintersect_only).
    - exact (OP zproduct m_zproduct i j zproduct_only).
    - destruct (z_combinations_with_eq (zreg vs i) inc exc) as (cs & E & _). rewrite E.
      refine (bounded_mono _ _ _ _ (zhyper_bounded (zt_univ (zreg vs i)) cs) (le_n _) _). intros F HF fuel a ms I0 D.
      apply mznew_only; auto. unfold m_zrestrict. pose proof (zgden_reg a ms vs i I0 D) as Di.
      eapply wpo_bind; [eapply wpo_wp; [apply wpo_reads, zcw_reads|eapply m_zcombinations_with_spec; [exact E|discriminate|exact I0|exact Di]]| |exact I0].
      intros a1 r E1 I1 [_ ->]. destruct Di as [_ ->]. apply HF; auto.
    - exists (spelled (as_bytes (fst d))). split; [apply spelled_length|]. intros F HF fuel a ms I0 D.
      eapply wpo_bind; [apply zparse_only; [exact HF|exists []; reflexivity|exact I0]|intros a1 x E1 I1 D1; cbv beta in D1|exact I0].
      destruct x as [r n| |]; [|apply wpo_ret; auto|apply wpo_ret; auto].
      destruct (zpa (S (length (as_bytes (fst d)))) (as_bytes (fst d))) as [r' t| |] eqn:Et; simpl in D1; try contradiction. destruct D1 as [_ D1].
      ostep @wpo_intern; [eassumption| |apply wpo_ret; auto]. right. apply HF. eapply spelled_in; [exists []; reflexivity|exact Et].
  Qed.
End ZCalls.

(** ** bowtie-core/src/bdd *)
Section BCalls.
  Context {I F : Type} `{OI : Ord I} `{OF : Ord F}.
  Notation nd := (gnode I).
  Notation bhden := (hden (@bden I F)).
  Implicit Types (P : dd I -> Prop) (a : arena I).
  Lemma leaf_known P a b : AInv a -> known P a (Leaf b).
  Proof. intros I0. left. destruct b; [exists 1; exact (den_leaf a true I0)|exists 0; exact (den_leaf a false I0)]. Qed.
  Lemma pos_only P a i : AInv a -> wpo P a (m_pos i) (fun a' n => nden a' n (positive_branch i)).
  Proof. intros I0. apply bbranch_only; auto using nden_leaf, leaf_known. Qed.
  Lemma neg_only P a i : AInv a -> wpo P a (m_neg i) (fun a' n => nden a' n (negative_branch i)).
  Proof. intros I0. apply bbranch_only; auto using nden_leaf, leaf_known. Qed.
  Lemma and_bounded (t u : dd I) : bounded (and_cost t u) (fun P : dd I -> Prop => forall fuel a n1 n2, AInv a -> nden a n1 t -> nden a n2 u ->
    wpo P a (m_bitand fuel n1 n2) (fun a' n => nden a' n (bitand t u))).
  Proof. apply (bounded_pairs bitand). intros P HP fuel a n1 n2 I0 D1 D2. apply bitand_only; auto. Qed.
  Lemma or_bounded (t u : dd I) : bounded (or_cost t u) (fun P : dd I -> Prop => forall fuel a n1 n2, AInv a -> nden a n1 t -> nden a n2 u ->
    wpo P a (m_bitor fuel n1 n2) (fun a' n => nden a' n (bitor t u))).
  Proof. apply (bounded_pairs bitor). intros P HP fuel a n1 n2 I0 D1 D2. apply bitor_only; auto. Qed.
  Lemma xor_bounded (t u : dd I) : bounded (xor_cost t u) (fun P : dd I -> Prop => forall fuel a n1 n2, AInv a -> nden a n1 t -> nden a n2 u ->
    wpo P a (m_bitxor fuel n1 n2) (fun a' n => nden a' n (bitxor t u))).
  Proof.
    assert (X : forall op (t1 t2 : dd I), bounded (dag_size t1 * dag_size t2) (fun P : dd I -> Prop => on_subs2 P op t1 t2))
      by (intros; apply (bounded_pairs op); auto).
    refine (bounded_mono _ _ _ _ (bounded_and _ _ _ _ (bounded_and _ _ _ _ (X bitand t (bitnot u)) (X bitand (bitnot t) u))
      (X bitor (bitand t (bitnot u)) (bitand (bitnot t) u))) (le_n _) _).
    intros P [[H1 H2] H3] fuel a n1 n2 I0 D1 D2. apply bitxor_only; auto.
  Qed.
  Lemma restrict_bounded (t : dd I) item sel : bounded (dag_size t) (fun P : dd I -> Prop => forall fuel a n, AInv a -> nden a n t ->
    wpo P a (m_brestrict fuel n item sel) (fun a' r => nden a' r (restrict t item sel))).
  Proof. apply (bounded_subs (fun x => restrict x item sel)). intros P HP fuel a n I0 D. apply restrict_only; auto. Qed.
  Lemma reduce_bounded (t : dd I) : bounded (dag_size t) (fun P : dd I -> Prop => forall fuel a n, AInv a -> nden a n t ->
    wpo P a (m_breduce fuel n) (fun a' r => nden a' r (reduce t))).
  Proof. apply (bounded_subs reduce). intros P HP fuel a n I0 D. apply reduce_only; auto. Qed.
  Lemma restrict_all_bounded (t : dd I) sels : bounded (outfit_cost t sels) (fun P : dd I -> Prop => forall fuel a n, AInv a -> nden a n t ->
    wpo P a (m_restrict_all fuel n sels) (fun a' r => nden a' r (restrict_all t sels))).
  Proof.
    exact (bounded_fold (@nden I) (fun a b m v E D => nden_ext a b m v E D) (fun r s => restrict r s true) (fun r _ => dag_size r)
      (fun fuel r s => m_brestrict fuel r s true) (fun v x => restrict_bounded v x true) sels t).
  Qed.
  Lemma walk_reads fuel : forall (n : nd) items, no_add (m_walk fuel n items).
  Proof.
    induction fuel as [|k IH]; intros [v|id lo hi] items; try exact Logic.I. cbn [m_walk].
    apply no_add_bind; [apply no_add_get|]. intros h. apply no_add_bind; [apply no_add_get|]. intros l.
    destruct h as [[|]|i l0 h0]; apply IH.
  Qed.
  Lemma outfit_bounded (c : closet I F) sels : bounded (outfit_cost (c_root c) sels) (fun P : dd I -> Prop => forall fuel a m, AInv a -> cden a m c ->
    wpo P a (m_complete_outfit fuel m sels) (fun _ _ => True)).
  Proof.
    refine (bounded_mono _ _ _ _ (restrict_all_bounded (c_root c) sels) (le_n _) _). intros P HP fuel a m I0 (A & B & D).
    unfold m_complete_outfit. cbv zeta. destruct (find_unknown_items _ _); [apply wpo_ret; auto|].
    destruct (find_duplicate_items _ _) as [[dup|]|]; [apply wpo_ret; auto| |apply wpo_ret; auto].
    eapply wpo_bind; [apply HP; [exact I0|exact D]|intros a1 r E1 I1 D1; cbv beta in D1|exact I0]. olift E1.
    assert (REST : wpo P a1 (do r' <- m_restrict_all fuel (mc_root m) sels ; do items <- m_walk fuel r' sels ;
      Ret (Some (Ok (E:=outfit_error I F) (sort items)))) (fun _ _ => True)).
    { eapply wpo_bind; [apply HP; [exact I1|exact D]|intros a2 r2 E2 I2 D2; cbv beta in D2|exact I1].
      eapply wpo_bind; [apply wpo_reads, walk_reads|intros a3 r3 E3 I3 _|exact I2]. apply wpo_ret. auto. }
    destruct r as [[|]|i l h]; [exact REST|apply wpo_ret; auto|exact REST].
  Qed.
  Lemma select_bounded h (c : closet I F) item : bounded (dag_size (c_root c)) (fun P : dd I -> Prop => forall fuel a m, AInv a -> cden a m c ->
    wpo P a (m_select_item fuel h m item) (fun _ _ => True)).
  Proof.
    refine (bounded_mono _ _ _ _ (restrict_bounded (c_root c) item true) (le_n _) _). intros P HP fuel a m I0 (A & B & D).
    unfold m_select_item. destruct (map_get _ _); [|apply wpo_ret; auto]. destruct (find _ _); [apply wpo_ret; auto|].
    eapply wpo_bind; [apply HP; [exact I0|exact D]|intros a1 r E1 I1 D1; cbv beta in D1|exact I0].
    eapply wpo_bind; [apply wpo_reads, bsum_reads|intros a2 s E2 I2 _|exact I1]. apply wpo_ret. auto.
  Qed.

  (** the rules of a closet *)
  Lemma and_list_bounded (v : list (I * dd I)) : forall t, bounded (fold_cost (fun r p => bitand r (snd p)) (fun r p => and_cost r (snd p)) v t)
    (fun P : dd I -> Prop => forall fuel a m n, AInv a -> mapden a m v -> nden a n t ->
      wpo P a (pfoldM (fun r q => m_bitand fuel r (snd q)) m n) (fun a' r => nden a' r (fold_left (fun r p => bitand r (snd p)) v t))).
  Proof.
    induction v as [|[k u] v IH]; intros t; cbn [fold_cost fold_left snd].
    - apply bounded_triv. intros P fuel a m n I0 Dm D. inversion Dm; subst. osame.
    - refine (bounded_mono _ _ _ _ (bounded_and _ _ _ _ (and_bounded t u) (IH (bitand t u))) (le_n _) _).
      intros P [H1 H2] fuel a m n I0 Dm D. inversion Dm as [|[k' x] y m' v' [A B] Dm']; subst. simpl in A, B. cbn [pfoldM snd].
      eapply wpo_bind; [apply H1; [exact I0|exact D|exact B]|intros a1 r E1 I1 D1; cbv beta in D1|exact I0].
      apply H2; [exact I1|eapply mapden_ext; eauto|exact D1].
  Qed.
  Lemma negs_only P (items : list I) : forall a m v, AInv a -> mapden a m v ->
    wpo P a (pfoldM (fun m i => do n <- m_neg i ; Ret (map_insert m i n)) items m)
       (fun a' r => mapden a' r (fold_left (fun m i => map_insert m i (negative_branch i)) items v)).
  Proof.
    induction items as [|i items IH]; intros a m v I0 D; cbn [pfoldM fold_left].
    - apply wpo_ret. intros a' E _. eapply mapden_ext; eauto.
    - eapply wpo_bind; [eapply wpo_bind; [apply neg_only; exact I0|intros a1 n E1 I1 D1; cbv beta in D1|exact I0]|intros a2 r E2 I2 D2; cbv beta in D2|exact I0].
      + apply wpo_ret. intros a2 E2 I2.
        instantiate (1 := fun a' r => mapden a' r (map_insert v i (negative_branch i))). cbv beta.
        olift E2. apply mapden_insert; [|exact D1]. eapply mapden_ext; [|exact D]. eapply ext_trans; eauto.
      + apply IH; auto.
  Qed.
  Lemma sibling_bounded (items : list I) : bounded (sibling_cost items) (fun P : dd I -> Prop => forall fuel a, AInv a ->
    wpo P a (m_sibling fuel items) (fun a' r => nden a' r (sibling_relationship items))).
  Proof.
    unfold sibling_cost, m_sibling, sibling_relationship, one_of, and_all, and_all_cost. cbv zeta.
    set (all := fold_left (fun m i => map_insert m i (negative_branch i)) items []).
    set (u := fun x => fold_left (fun r p => bitand r (snd p)) (map_insert all x (positive_branch x)) (Leaf true)).
    assert (X : forall l t, bounded (fold_cost (fun other item => bitor other (u item))
        (fun other item => fold_cost (fun r p => bitand r (snd p)) (fun r p => and_cost r (snd p)) (map_insert all item (positive_branch item)) (Leaf true)
           + or_cost other (u item)) l t)
      (fun P : dd I -> Prop => forall fuel a m n, AInv a -> mapden a m all -> nden a n t ->
        wpo P a (pfoldM (fun other item => do p <- m_pos item ;
          do x <- pfoldM (fun r q => m_bitand fuel r (snd q)) (map_insert m item p) (GLeaf true) ;
          m_bitor fuel other x) l n) (fun a' r => nden a' r (fold_left bitor (map u l) t)))).
    { induction l as [|x l IH]; intros t; cbn [fold_cost map fold_left].
      - apply bounded_triv. intros P fuel a m n I0 Dm D. osame.
      - refine (bounded_mono _ _ _ _ (bounded_and _ _ _ _ (bounded_and _ _ _ _ (and_list_bounded (map_insert all x (positive_branch x)) (Leaf true)) (or_bounded t (u x)))
          (IH (bitor t (u x)))) (le_n _) _).
        intros P [[H1 H2] H3] fuel a m n I0 Dm D. cbn [pfoldM].
        eapply wpo_bind; [|intros a3 r3 E3 I3 D3; cbv beta in D3; apply H3; [exact I3|eapply mapden_ext; [exact E3|exact Dm]|exact D3]|exact I0].
        eapply wpo_bind; [eapply pos_only; exact I0|intros a1 p E1 I1 D1; cbv beta in D1|exact I0]. olift E1.
        eapply wpo_bind; [apply H1; [exact I1|apply mapden_insert; [eapply mapden_ext; [exact E1|exact Dm]|exact D1]|apply nden_leaf]|intros a2 r E2 I2 D2; cbv beta in D2|exact I1].
        olift E2. apply H2; auto. }
    refine (bounded_mono _ _ _ _ (X items (Leaf false)) (le_n _) _). intros P HP fuel a I0.
    eapply wpo_bind; [eapply (negs_only P items a [] []); [exact I0|constructor]|intros a1 m E1 I1 D1; cbv beta in D1|exact I0].
    apply HP; [exact I1|exact D1|apply nden_leaf].
  Qed.
  Lemma exclusion_bounded (s x : I) : bounded (exclusion_cost s x) (fun P : dd I -> Prop => forall fuel a, AInv a ->
    wpo P a (m_exclusion fuel s x) (fun a' r => nden a' r (exclusion_relationship s x))).
  Proof.
    refine (bounded_mono _ _ _ _ (or_bounded (negative_branch s) (negative_branch x)) (le_n _) _). intros P HP fuel a I0. unfold m_exclusion.
    ostep neg_only; [eassumption|]. ostep neg_only; [eassumption|]. apply HP; auto.
  Qed.
  Lemma inclusion_bounded (s x : I) : bounded (inclusion_cost s x) (fun P : dd I -> Prop => forall fuel a, AInv a ->
    wpo P a (m_inclusion fuel s x) (fun a' r => nden a' r (inclusion_relationship s x))).
  Proof.
    refine (bounded_mono _ _ _ _ (or_bounded (negative_branch s) (positive_branch x)) (le_n _) _). intros P HP fuel a I0. unfold m_inclusion.
    ostep neg_only; [eassumption|]. ostep pos_only; [eassumption|]. apply HP; auto.
  Qed.
  Lemma rules_bounded {A} (m : nat -> A -> prog I nd) (rule : A -> dd I) (cost : A -> nat) :
    (forall x, bounded (cost x) (fun P : dd I -> Prop => forall fuel a, AInv a -> wpo P a (m fuel x) (fun a' r => nden a' r (rule x)))) ->
    forall l t, bounded (rules_cost rule cost l t) (fun P : dd I -> Prop => forall fuel a n, AInv a -> nden a n t ->
      wpo P a (pfoldM (fun r x => do y <- m fuel x ; m_bitand fuel r y) l n) (fun a' r => nden a' r (fold_left (fun r x => bitand r (rule x)) l t))).
  Proof.
    intros Hm l t. apply (bounded_fold (@nden I) (fun a b m v E D => nden_ext a b m v E D) (fun r x => bitand r (rule x)) _
      (fun fuel r x => do y <- m fuel x ; m_bitand fuel r y)). intros v x.
    refine (bounded_mono _ _ _ _ (bounded_and _ _ _ _ (Hm x) (and_bounded v (rule x))) (le_n _) _).
    intros P [H1 H2] fuel a n I0 D. ostep H1; [eassumption|]. apply H2; auto.
  Qed.
  Lemma build_bounded (b : builder I F) : bounded (build_cost b) (fun P : dd I -> Prop => forall fuel a, AInv a ->
    wpo P a (m_build_root fuel b) (fun _ _ => True)).
  Proof.
    unfold build_cost. cbv zeta. set (r1 := fold_left _ (b_contents b) _). set (r2 := fold_left _ (rule_pairs (b_excl b)) _).
    refine (bounded_mono _ _ _ _ (bounded_and _ _ _ _ (bounded_and _ _ _ _
      (rules_bounded (fun fuel (p : F * list I) => m_sibling fuel (snd p)) (fun p => sibling_relationship (snd p)) _ (fun x => sibling_bounded (snd x)) (b_contents b) (Leaf true))
      (rules_bounded (fun fuel (p : I * I) => m_exclusion fuel (fst p) (snd p)) (fun p => exclusion_relationship (fst p) (snd p)) _ (fun x => exclusion_bounded (fst x) (snd x)) (rule_pairs (b_excl b)) r1))
      (rules_bounded (fun fuel (p : I * I) => m_inclusion fuel (fst p) (snd p)) (fun p => inclusion_relationship (fst p) (snd p)) _ (fun x => inclusion_bounded (fst x) (snd x)) (rule_pairs (b_incl b)) r2))
      (le_n _) _).
    intros P [[H1 H2] H3] fuel a I0. unfold m_build_root.
    eapply wpo_bind; [apply H1; [exact I0|apply nden_leaf]|intros a1 x1 E1 I1 D1; cbv beta in D1|exact I0].
    eapply wpo_bind; [apply H2; [exact I1|exact D1]|intros a2 x2 E2 I2 D2; cbv beta in D2|exact I1].
    eapply wpo_top; [exact I2|]. apply H3; [exact I2|exact D2].
  Qed.
  Lemma to_node_bounded (c : list (nat * I)) s : bounded (structure_size s) (fun P : dd I -> Prop =>
    (forall t, to_node s c = Some t -> P t) /\ forall a, AInv a -> wpo P a (m_to_node s c) (fun a' r => oden a' r (to_node s c))).
  Proof.
    assert (FIN : forall P a item l h tl th, AInv a -> nden a l tl -> nden a h th -> known P a tl -> known P a th ->
      wpo P a (do n <- m_bbranch item l h ; Ret (Some n)) (fun a' r => oden a' r (Some (Branch item tl th)))).
    { intros P a item l h tl th I0 D1 D2 K1 K2. eapply wpo_bind; [eapply bbranch_only; eassumption|intros a1 n E1 I1 Dn; cbv beta in Dn|exact I0].
      apply wpo_ret. intros a2 E2 _. eapply nden_ext; eauto. }
    assert (RET : forall P a (x : option nd) y, oden a x y -> wpo P a (Ret x) (fun a' r => oden a' r y)).
    { intros P a x y D. apply wpo_ret. intros a' E _. eapply oden_ext; eauto. }
    assert (SELF : forall o : option (dd I), bounded 1 (fun P : dd I -> Prop => forall t, o = Some t -> P t)).
    { intros [t|].
      - exists [t]. split; [simpl; lia|]. intros P HP u [= <-]. apply HP. left; reflexivity.
      - apply bounded_triv. discriminate. }
    induction s as [d lo IHl hi IHh|d hi IHh|d lo IHl|b]; cbn [structure_size].
    - refine (bounded_mono _ _ _ _ (bounded_and _ _ _ _ (SELF (to_node (SAvailable d lo hi) c)) (bounded_and _ _ _ _ IHl IHh)) (le_n _) _).
      intros P [H0 [[L1 L2] [R1 R2]]]. split; [exact H0|]. intros a I0. cbn [m_to_node to_node].
      destruct (map_get c d) as [item|]; [|apply RET; exact Logic.I]. cbn [bind].
      eapply wpo_bind; [apply L2; exact I0|intros a1 l E1 I1 D1; cbv beta in D1|exact I0].
      destruct (to_node lo c) as [tl|], l as [l|]; simpl in D1; try contradiction; cbn [bind]; [|apply RET; exact Logic.I].
      eapply wpo_bind; [apply R2; exact I1|intros a2 h E2 I2 D2; cbv beta in D2|exact I1]. olift E2.
      destruct (to_node hi c) as [th|], h as [h|]; simpl in D2; try contradiction; cbn [bind]; [|apply RET; exact Logic.I].
      apply FIN; auto; right; auto.
    - refine (bounded_mono _ _ _ _ (bounded_and _ _ _ _ (SELF (to_node (SRequired d hi) c)) IHh) (le_n _) _).
      intros P [H0 [R1 R2]]. split; [exact H0|]. intros a I0. cbn [m_to_node to_node].
      destruct (map_get c d) as [item|]; [|apply RET; exact Logic.I]. cbn [bind].
      eapply wpo_bind; [apply R2; exact I0|intros a1 l E1 I1 D1; cbv beta in D1|exact I0].
      destruct (to_node hi c) as [tl|], l as [l|]; simpl in D1; try contradiction; cbn [bind]; [|apply RET; exact Logic.I].
      apply FIN; auto using nden_leaf, leaf_known. right; auto.
    - refine (bounded_mono _ _ _ _ (bounded_and _ _ _ _ (SELF (to_node (SExcluded d lo) c)) IHl) (le_n _) _).
      intros P [H0 [R1 R2]]. split; [exact H0|]. intros a I0. cbn [m_to_node to_node].
      destruct (map_get c d) as [item|]; [|apply RET; exact Logic.I]. cbn [bind].
      eapply wpo_bind; [apply R2; exact I0|intros a1 l E1 I1 D1; cbv beta in D1|exact I0].
      destruct (to_node lo c) as [tl|], l as [l|]; simpl in D1; try contradiction; cbn [bind]; [|apply RET; exact Logic.I].
      apply FIN; auto using nden_leaf, leaf_known. right; auto.
    - refine (bounded_mono _ _ _ _ (SELF (to_node (SOutcome b) c)) (le_n _) _). intros P H0. split; [exact H0|].
      intros a I0. apply RET. apply nden_leaf.
  Qed.

  Lemma bcall_bounded (vs : list (bval I F)) c : bounded (b_cost vs c) (fun P : dd I -> Prop => forall fuel a ms, AInv a -> bhden a ms vs ->
    wpo P a (m_bcall fuel ms c) (fun _ _ => True)).
  Proof.
    assert (NN : forall a ms i, bhden a ms vs -> nden a (mval_node (mbreg ms i)) (val_node (breg vs i)))
      by (intros a ms i D; apply bden_node; apply bgden_reg; exact D).
    assert (CC : forall a ms i, bhden a ms vs -> cden a (mval_clo (mbreg ms i)) (val_clo (breg vs i)))
      by (intros a ms i D; apply bden_clo; apply bgden_reg; exact D).
    assert (END : forall {R S} P a (p : prog I R) (f : R -> S) Q, AInv a -> wpo P a p Q -> wpo P a (do n <- p ; Ret (f n)) (fun _ _ => True)).
    { intros R S P a p f Q I0 Hp. eapply wpo_bind; [exact Hp| |exact I0]. intros a' m E I1 _. apply wpo_ret. auto. }
    destruct (bowtie_reading c) eqn:Er.
    { destruct c; try discriminate Er; apply bounded_triv; intros P fuel a ms I0 D; apply wpo_reads, b_reads; reflexivity. }
    destruct c as [h calls|h i item|i sels|i|i|un i items|i j|i|d|b|item|item|item i j|o i j|i|i|i item sel|h i|i j|h index i];
      try discriminate Er; cbn [b_cost m_bcall]; cbv zeta.
    - unfold m_build. destruct (validate_closet (run_calls calls)) as [v|e].
      + refine (bounded_mono _ _ _ _ (build_bounded (run_calls calls)) (le_n _) _). intros P HP fuel a ms I0 D.
        eapply END; [exact I0|]. eapply wpo_bind; [apply HP; exact I0|intros a1 x1 E1 I1 _|exact I0].
        unfold m_closet_new. eapply END; [exact I1|]. eapply END; [exact I1|]. apply wpo_reads, bsum_reads.
      + apply bounded_triv. intros P fuel a ms I0 D. apply wpo_ret. auto.
    - refine (bounded_mono _ _ _ _ (select_bounded h (val_clo (breg vs i)) item) (le_n _) _). intros P HP fuel a ms I0 D.
      eapply END; [exact I0|]. apply HP; auto.
    - refine (bounded_mono _ _ _ _ (outfit_bounded (val_clo (breg vs i)) sels) (le_n _) _). intros P HP fuel a ms I0 D.
      eapply END; [exact I0|]. apply HP; auto.
    - refine (bounded_mono _ _ _ _ (to_node_bounded (snd (snd d)) (fst (snd d))) (le_n _) _). intros P [_ HP] fuel a ms I0 D.
      eapply END; [exact I0|]. apply HP; auto.
    - apply bounded_triv. intros P fuel a ms I0 D. eapply END; [exact I0|]. apply pos_only; auto.
    - apply bounded_triv. intros P fuel a ms I0 D. eapply END; [exact I0|]. apply neg_only; auto.
    - exists [val_node (breg vs i); val_node (breg vs j)]. split; [simpl; lia|]. intros P HP fuel a ms I0 D.
      eapply END; [exact I0|]. apply bbranch_only with (tl := val_node (breg vs i)) (th := val_node (breg vs j)); auto; right; apply HP; simpl; auto.
    - destruct o; cbn [m_op].
      + refine (bounded_mono _ _ _ _ (and_bounded (val_node (breg vs i)) (val_node (breg vs j))) (le_n _) _). intros P HP fuel a ms I0 D.
        eapply END; [exact I0|]. apply HP; auto.
      + refine (bounded_mono _ _ _ _ (or_bounded (val_node (breg vs i)) (val_node (breg vs j))) (le_n _) _). intros P HP fuel a ms I0 D.
        eapply END; [exact I0|]. apply HP; auto.
      + refine (bounded_mono _ _ _ _ (xor_bounded (val_node (breg vs i)) (val_node (breg vs j))) (le_n _) _). intros P HP fuel a ms I0 D.
        eapply END; [exact I0|]. apply HP; auto.
    - refine (bounded_mono _ _ _ _ (reduce_bounded (val_node (breg vs i))) (le_n _) _). intros P HP fuel a ms I0 D.
      eapply END; [exact I0|]. apply HP; auto.
    - refine (bounded_mono _ _ _ _ (restrict_bounded (val_node (breg vs i)) item sel) (le_n _) _). intros P HP fuel a ms I0 D.
      eapply END; [exact I0|]. apply HP; auto.
  Qed.
End BCalls.
