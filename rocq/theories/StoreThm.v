(** StoreThm: the shared node store grows only by what the work needs (C81). *)
From Coq Require Import List Arith NArith Lia Bool Permutation Sorted.
From Verif Require Import Base DD Spec Zdd2Model ZddModel ParserModel BddSpec BddModel BddRun ArenaModel ArenaProofs PoolModel ZddProg BddProg.
From Verif Require Import PoolProofs ZddProgProofs BddProgProofs Conc2Thm.
From Verif Require Import Zdd2Prog Zdd2ProgProofs Zdd2Thm ConcThm ArenaSim PoolStore Zdd2Sim ZddSim BddSim.
Import ListNotations.
Open Scope nat_scope.

(** the zdd2 pool of Zdd2Prog.v is a pool of PoolModel.v, and the other way round *)
Section AsPool.
  Context {T : Type} `{Ord T}.
  Definition g_thread (t : thread T) : gthread nat (mforest T) (call T) (obs T) :=
    mkGT (t_fuel t) (t_script t) (t_init t) (t_prog t).
  Definition g_pool (p : pool T) : gpool nat (mforest T) (call T) (obs T) :=
    mkGP (p_arena p) (map g_thread (p_threads p)) (p_done p).
  Definition u_thread (t : gthread nat (mforest T) (call T) (obs T)) : thread T :=
    mkT (gt_fuel t) (gt_script t) (gt_init t) (gt_prog t).
  Definition u_pool (p : gpool nat (mforest T) (call T) (obs T)) : pool T :=
    mkP (gp_arena p) (map u_thread (gp_threads p)) (gp_done p).
  Lemma g_script_same fuel cs (ms : list (mforest T)) : g_script Zdd2Prog.m_call fuel cs ms = m_script fuel cs ms.
  Proof. reflexivity. Qed.
  Lemma g_pool_step p q : pool_step p q -> gpool_step Zdd2Prog.m_call (g_pool p) (g_pool q).
  Proof.
    intros Hs. inversion Hs as [a ts d fuel cs ms Hi|a ts1 ts2 d fuel cs ms pr a' pr' Hp|a ts d fuel cs ms rs os Hin]; subst; unfold g_pool; cbn [p_arena p_threads p_done].
    - rewrite map_app. apply (GS_spawn Zdd2Prog.m_call a (map g_thread ts) d fuel cs ms Hi).
    - rewrite !map_app. apply (GS_thread Zdd2Prog.m_call a (map g_thread ts1) (map g_thread ts2) d fuel cs ms pr a' pr' Hp).
    - eapply GS_share. apply in_map_iff. exists (mkT fuel cs ms (Ret (rs, os))). split; [reflexivity|exact Hin].
  Qed.
  Lemma g_pool_reach p : pool_reach p -> gpool_reach Zdd2Prog.m_call (g_pool p).
  Proof. intros Hp. induction Hp as [|p q Hp IH Hs]; [constructor|]. econstructor; [exact IH|apply g_pool_step; exact Hs]. Qed.
  Lemma u_pool_step p q : gpool_step Zdd2Prog.m_call p q -> pool_step (u_pool p) (u_pool q).
  Proof.
    intros Hs. inversion Hs as [a ts d fuel cs ms Hi|a ts1 ts2 d fuel cs ms pr a' pr' Hp|a ts d fuel cs ms rs os Hin]; subst; unfold u_pool; cbn [gp_arena gp_threads gp_done].
    - rewrite map_app. apply (S_spawn a (map u_thread ts) d fuel cs ms Hi).
    - rewrite !map_app. apply (S_thread a (map u_thread ts1) (map u_thread ts2) d fuel cs ms pr a' pr' Hp).
    - eapply S_share. apply in_map_iff. exists (mkGT fuel cs ms (Ret (rs, os))). split; [reflexivity|exact Hin].
  Qed.
  Lemma u_pool_reach p : gpool_reach Zdd2Prog.m_call p -> pool_reach (u_pool p).
  Proof. intros Hp. induction Hp as [|p q Hp IH Hs]; [constructor|]. econstructor; [exact IH|apply u_pool_step; exact Hs]. Qed.

  Lemma fden_fun_ (a : arena nat) (m : mforest T) f g : fden a m f -> fden a m g -> f = g.
  Proof.
    intros [Da Qa] [Db Qb]. destruct f as [r1 u1], g as [r2 u2]; simpl in *. f_equal; [|congruence].
    exact (den_fun _ _ _ _ Da Db).
  Qed.
  Lemma z2_base (p : gpool nat (mforest T) (call T) (obs T)) : gpool_reach Zdd2Prog.m_call p ->
    AInv (gp_arena p) /\ Forall (fun m => exists f, Reach f /\ fden (gp_arena p) m f) (gp_done p).
  Proof. intros Hp. destruct (pool_reach_ok _ (u_pool_reach p Hp)) as (I0 & _ & Hd). split; auto. Qed.
  Lemma z2_total (cs : list (call T)) fs : Forall Reach fs ->
    exists fuel, forall a ms, AInv a -> hden fden a ms fs -> exists Q, wp true a (g_script Zdd2Prog.m_call fuel cs ms) Q.
  Proof.
    intros Hf. destruct (run_script_total cs fs Hf) as (y & Hy & _). destruct (m_script_spec cs fs y Hy) as (F & S1).
    exists F. intros a ms I0 D. eexists. rewrite g_script_same. apply S1; auto. intros _; auto.
  Qed.
  Lemma z_base (p : zpool T) : zreach p ->
    AInv (gp_arena p) /\ Forall (fun m => exists v, True /\ zden (gp_arena p) m v) (gp_done p).
  Proof.
    intros Hp. destruct (gpool_reach_ok m_zcall z_call zden zden_ext z_call_total m_zcall_refines p Hp) as (I0 & _ & Hd).
    split; auto. eapply Forall_impl; [|exact Hd]. intros m (v & D). eauto.
  Qed.
  Lemma z_total (cs : list (zcall T)) vs : Forall (fun _ : ztree T => True) vs ->
    exists fuel, forall a ms, AInv a -> hden zden a ms vs -> exists Q, wp true a (g_script m_zcall fuel cs ms) Q.
  Proof.
    intros _. destruct (v_script_total z_call z_call_total cs vs) as (y & Hy).
    destruct (g_script_refines m_zcall z_call zden zden_ext m_zcall_refines cs vs y Hy) as (F & S1).
    exists F. intros a ms I0 D. eexists. apply S1; auto. intros _; auto.
  Qed.
End AsPool.
Section AsPoolB.
  Context {I F : Type} `{OI : Ord I} `{OF : Ord F}.
  Lemma b_base (p : bpool I F) : breach p ->
    AInv (gp_arena p) /\ Forall (fun m => exists v, True /\ bden (gp_arena p) m v) (gp_done p).
  Proof.
    intros Hp. destruct (gpool_reach_ok m_bcall b_vcall bden bden_ext b_vcall_total m_bcall_refines p Hp) as (I0 & _ & Hd).
    split; auto. eapply Forall_impl; [|exact Hd]. intros m (v & D). eauto.
  Qed.
  Lemma b_total (cs : list (bdcall I F)) vs : Forall (fun _ : bval I F => True) vs ->
    exists fuel, forall a ms, AInv a -> hden bden a ms vs -> exists Q, wp true a (g_script m_bcall fuel cs ms) Q.
  Proof.
    intros _. destruct (v_script_total b_vcall b_vcall_total cs vs) as (y & Hy).
    destruct (g_script_refines m_bcall b_vcall bden bden_ext m_bcall_refines cs vs y Hy) as (G & S1).
    exists G. intros a ms I0 D. eexists. apply S1; auto. intros _; auto.
  Qed.
End AsPoolB.

(** C81, zdd2.  Let [p] and [q] be any states of any executions, however many
    threads each has, however they are interleaved.  If the work of every thread
    of [p] (its script, and the values it starts from) has been finished by some
    thread of [q], then every diagram the store of [p] holds is held by the store
    of [q], and [p]'s store has at most as many nodes as [q]'s. *)
Lemma C81_zdd2_store_contents_pf : forall (T : Type) (O : Ord T) (p q : pool T),
  pool_reach p -> pool_reach q ->
  (forall t, In t (p_threads p) -> exists u fs r, In u (p_threads q) /\ t_script u = t_script t /\
     Forall2 (holds p) (t_init t) fs /\ Forall2 (holds q) (t_init u) fs /\ t_prog u = Ret r) ->
  (forall d, (exists i, den (p_arena p) i d) -> (exists i, den (p_arena q) i d)) /\
  length (a_nodes (p_arena p)) <= length (a_nodes (p_arena q)).
Proof.
  intros T O p q Hp Hq Hm.
  refine (pool_store_incl Zdd2Prog.m_call fden Reach fden_ext fden_fun_ m_call_sim z2_total z2_base (g_pool p) (g_pool q) (g_pool_reach p Hp) (g_pool_reach q Hq) _).
  intros t Ht. apply in_map_iff in Ht. destruct Ht as (t0 & <- & Ht). destruct (Hm t0 Ht) as (u & fs & r & Hu & Es & D1 & D2 & Er).
  exists (g_thread u), fs, r. split; [apply in_map; exact Hu|]. repeat split; assumption.
Qed.
(** So two executions that finish the same work, in any order and interleaving,
    and however often each piece of it is repeated, leave stores that hold exactly
    the same diagrams and have the same number of nodes ... *)
Lemma C81_zdd2_store_canonical_pf : forall (T : Type) (O : Ord T) (p q : pool T),
  pool_reach p -> pool_reach q ->
  (forall t, In t (p_threads p) -> exists u fs r, In u (p_threads q) /\ t_script u = t_script t /\
     Forall2 (holds p) (t_init t) fs /\ Forall2 (holds q) (t_init u) fs /\ t_prog u = Ret r) ->
  (forall u, In u (p_threads q) -> exists t fs r, In t (p_threads p) /\ t_script t = t_script u /\
     Forall2 (holds q) (t_init u) fs /\ Forall2 (holds p) (t_init t) fs /\ t_prog t = Ret r) ->
  (forall d, (exists i, den (p_arena p) i d) <-> (exists i, den (p_arena q) i d)) /\
  length (a_nodes (p_arena p)) = length (a_nodes (p_arena q)).
Proof.
  intros T O p q Hp Hq H1 H2. destruct (C81_zdd2_store_contents_pf T O p q Hp Hq H1) as [A1 A2].
  destruct (C81_zdd2_store_contents_pf T O q p Hq Hp H2) as [B1 B2]. split; [|apply Nat.le_antisymm; assumption].
  intros d. split; auto.
Qed.
(** ... and once a piece of work has been finished, a thread that does it again
    (or is still doing it) never adds another node, whatever others do meanwhile. *)
Lemma C81_zdd2_rerun_adds_nothing_pf : forall (T : Type) (O : Ord T) (p : pool T) t u fs r a' k,
  pool_reach p -> In t (p_threads p) -> In u (p_threads p) ->
  t_script u = t_script t -> Forall2 (holds p) (t_init t) fs -> Forall2 (holds p) (t_init u) fs ->
  t_prog u = Ret r -> pstep (p_arena p) (t_prog t) a' k -> a' = p_arena p.
Proof.
  intros T O p t u fs r a' k Hp Ht Hu Es D1 D2 Er Hs.
  exact (pool_no_growth Zdd2Prog.m_call fden Reach fden_ext fden_fun_ m_call_sim z2_total z2_base (g_pool p) (g_thread t) (g_thread u) fs r a' k
    (g_pool_reach p Hp) (in_map g_thread _ _ Ht) (in_map g_thread _ _ Hu) Es D1 D2 Er Hs).
Qed.

(** C81, zdd: the same three statements. *)
Lemma C81_zdd_store_contents_pf : forall (T : Type) (O : Ord T) (p q : zpool T),
  zreach p -> zreach q ->
  (forall t, In t (gp_threads p) -> exists u vs r, In u (gp_threads q) /\ gt_script u = gt_script t /\
     Forall2 (zholds p) (gt_init t) vs /\ Forall2 (zholds q) (gt_init u) vs /\ gt_prog u = Ret r) ->
  (forall d, (exists i, den (gp_arena p) i d) -> (exists i, den (gp_arena q) i d)) /\
  length (a_nodes (gp_arena p)) <= length (a_nodes (gp_arena q)).
Proof.
  intros T O p q. exact (pool_store_incl m_zcall zden (fun _ => True) zden_ext zden_fun m_zcall_sim z_total z_base p q).
Qed.
Lemma C81_zdd_store_canonical_pf : forall (T : Type) (O : Ord T) (p q : zpool T),
  zreach p -> zreach q ->
  (forall t, In t (gp_threads p) -> exists u vs r, In u (gp_threads q) /\ gt_script u = gt_script t /\
     Forall2 (zholds p) (gt_init t) vs /\ Forall2 (zholds q) (gt_init u) vs /\ gt_prog u = Ret r) ->
  (forall u, In u (gp_threads q) -> exists t vs r, In t (gp_threads p) /\ gt_script t = gt_script u /\
     Forall2 (zholds q) (gt_init u) vs /\ Forall2 (zholds p) (gt_init t) vs /\ gt_prog t = Ret r) ->
  (forall d, (exists i, den (gp_arena p) i d) <-> (exists i, den (gp_arena q) i d)) /\
  length (a_nodes (gp_arena p)) = length (a_nodes (gp_arena q)).
Proof.
  intros T O p q Hp Hq H1 H2. destruct (C81_zdd_store_contents_pf T O p q Hp Hq H1) as [A1 A2].
  destruct (C81_zdd_store_contents_pf T O q p Hq Hp H2) as [B1 B2]. split; [|apply Nat.le_antisymm; assumption].
  intros d. split; auto.
Qed.
Lemma C81_zdd_rerun_adds_nothing_pf : forall (T : Type) (O : Ord T) (p : zpool T) t u vs r a' k,
  zreach p -> In t (gp_threads p) -> In u (gp_threads p) ->
  gt_script u = gt_script t -> Forall2 (zholds p) (gt_init t) vs -> Forall2 (zholds p) (gt_init u) vs ->
  gt_prog u = Ret r -> pstep (gp_arena p) (gt_prog t) a' k -> a' = gp_arena p.
Proof.
  intros T O p t u vs r a' k. exact (pool_no_growth m_zcall zden (fun _ => True) zden_ext zden_fun m_zcall_sim z_total z_base p t u vs r a' k).
Qed.

(** C81, bowtie: the same three statements. *)
Lemma C81_bowtie_store_contents_pf : forall (I F : Type) (OI : Ord I) (OF : Ord F) (p q : bpool I F),
  breach p -> breach q ->
  (forall t, In t (gp_threads p) -> exists u vs r, In u (gp_threads q) /\ gt_script u = gt_script t /\
     Forall2 (bholds p) (gt_init t) vs /\ Forall2 (bholds q) (gt_init u) vs /\ gt_prog u = Ret r) ->
  (forall d, (exists i, den (gp_arena p) i d) -> (exists i, den (gp_arena q) i d)) /\
  length (a_nodes (gp_arena p)) <= length (a_nodes (gp_arena q)).
Proof.
  intros I F OI OF p q. exact (pool_store_incl m_bcall bden (fun _ => True) bden_ext bden_fun m_bcall_sim b_total b_base p q).
Qed.
Lemma C81_bowtie_store_canonical_pf : forall (I F : Type) (OI : Ord I) (OF : Ord F) (p q : bpool I F),
  breach p -> breach q ->
  (forall t, In t (gp_threads p) -> exists u vs r, In u (gp_threads q) /\ gt_script u = gt_script t /\
     Forall2 (bholds p) (gt_init t) vs /\ Forall2 (bholds q) (gt_init u) vs /\ gt_prog u = Ret r) ->
  (forall u, In u (gp_threads q) -> exists t vs r, In t (gp_threads p) /\ gt_script t = gt_script u /\
     Forall2 (bholds q) (gt_init u) vs /\ Forall2 (bholds p) (gt_init t) vs /\ gt_prog t = Ret r) ->
  (forall d, (exists i, den (gp_arena p) i d) <-> (exists i, den (gp_arena q) i d)) /\
  length (a_nodes (gp_arena p)) = length (a_nodes (gp_arena q)).
Proof.
  intros I F OI OF p q Hp Hq H1 H2. destruct (C81_bowtie_store_contents_pf I F OI OF p q Hp Hq H1) as [A1 A2].
  destruct (C81_bowtie_store_contents_pf I F OI OF q p Hq Hp H2) as [B1 B2]. split; [|apply Nat.le_antisymm; assumption].
  intros d. split; auto.
Qed.
Lemma C81_bowtie_rerun_adds_nothing_pf : forall (I F : Type) (OI : Ord I) (OF : Ord F) (p : bpool I F) t u vs r a' k,
  breach p -> In t (gp_threads p) -> In u (gp_threads p) ->
  gt_script u = gt_script t -> Forall2 (bholds p) (gt_init t) vs -> Forall2 (bholds p) (gt_init u) vs ->
  gt_prog u = Ret r -> pstep (gp_arena p) (gt_prog t) a' k -> a' = gp_arena p.
Proof.
  intros I F OI OF p t u vs r a' k. exact (pool_no_growth m_bcall bden (fun _ => True) bden_ext bden_fun m_bcall_sim b_total b_base p t u vs r a' k).
Qed.

(** C81: the calls that only look at a forest, a tree, a closet or a node: *)
Definition zdd2_reading {T} (c : call T) : bool :=
  match c with CTrees _ | CLen _ | CIsEmpty _ | COccurrences _ _ | CEq _ _ => true | _ => false end.
Definition zdd_reading {T} (c : zcall T) : bool :=
  match c with
  | ZCEmpty _ | ZCUnit _ | ZCCombinations _ | ZCCombinationsRec _ | ZCCombinationsWith _ _ _ | ZCSummarize _ _ _ _ | ZCTraverse _ | ZCEq _ _
  | ZCSerialize _ => true
  | _ => false
  end.
Definition bowtie_reading {I F} (c : bdcall I F) : bool :=
  match c with
  | BDSummary _ | BDCounts _ | BDCategorize _ _ _ | BDEq _ _ | BDSerialize _ | BDLeaf _ | BDNot _ | BDNodeSummary _ _
  | BDNodeEq _ _ | BDNew _ _ _ => true
  | _ => false
  end.
Section Reads.
  Context {T : Type} `{Ord T}.
  Lemma trees_loop_reads fuel : forall q acc, no_add (m_trees_loop fuel q acc).
  Proof.
    induction fuel as [|k IH]; intros [|[n path] q] acc; try exact Logic.I; cbn [m_trees_loop].
    destruct n as [[|]|id lo hi]; try apply IH. apply no_add_bind; [apply no_add_get|]. intros l.
    apply no_add_bind; [apply no_add_get|]. intros h. apply IH.
  Qed.
  Lemma trees_reads fuel i : no_add (m_trees fuel i).
  Proof. apply no_add_bind; [apply no_add_get|]. intros n. apply trees_loop_reads. Qed.
  Lemma z2_reads (c : call T) fuel ms : zdd2_reading c = true -> no_add (Zdd2Prog.m_call fuel ms c).
  Proof.
    destruct c; intros E; try discriminate E; cbn [Zdd2Prog.m_call]; try exact Logic.I;
      (apply no_add_bind; [apply no_add_bind; [apply trees_reads|intros x; exact Logic.I]|intros x; exact Logic.I]).
  Qed.
  Lemma zcomb_loop_reads fuel : forall q acc, no_add (m_zcomb_loop fuel q acc).
  Proof.
    induction fuel as [|k IH]; intros [|[n path] q] acc; try exact Logic.I; cbn [m_zcomb_loop].
    destruct n as [[|]|id lo hi]; try apply IH. apply no_add_bind; [apply no_add_get|]. intros l.
    apply no_add_bind; [apply no_add_get|]. intros h. apply IH.
  Qed.
  Lemma zcomb_iter_reads fuel i : no_add (m_zcomb_iter fuel i).
  Proof. apply no_add_bind; [apply no_add_get|]. intros n. apply zcomb_loop_reads. Qed.
  Lemma zcomb_inner_reads fuel : forall i path, no_add (m_zcomb_inner fuel i path).
  Proof.
    induction fuel as [|k IH]; intros i path; [exact Logic.I|]. cbn [m_zcomb_inner]. apply no_add_bind; [apply no_add_get|].
    intros [[|]|id lo hi]; try exact Logic.I. apply no_add_bind; [apply IH|]. intros x. apply no_add_bind; [apply IH|]. intros y. exact Logic.I.
  Qed.
  Lemma zprint_reads fuel : forall n, no_add (m_zprint fuel n).
  Proof.
    induction fuel as [|k IH]; intros n; [exact Logic.I|]. cbn [m_zprint]. destruct n as [[|]|id lo hi]; try exact Logic.I.
    apply no_add_bind; [apply no_add_get|]. intros l. apply no_add_bind; [apply IH|]. intros x.
    apply no_add_bind; [apply no_add_get|]. intros h. apply no_add_bind; [apply IH|]. intros y. exact Logic.I.
  Qed.
  Lemma ztraverse_reads fuel (u : zuniverse T) : forall i, no_add (m_ztraverse fuel u i).
  Proof.
    induction fuel as [|k IH]; intros i; [exact Logic.I|]. cbn [m_ztraverse]. apply no_add_bind; [apply no_add_get|].
    intros [v|id lo hi]; try exact Logic.I. destruct (z_get_item u id); [|exact Logic.I]. apply no_add_bind; [apply IH|].
    intros [x|]; [|exact Logic.I]. apply no_add_bind; [apply IH|]. intros [y|]; exact Logic.I.
  Qed.
  Lemma zcw_reads fuel (t : mztree T) inc exc : no_add (m_zcombinations_with fuel t inc exc).
  Proof. apply no_add_bind; [apply zcomb_iter_reads|]. intros x. exact Logic.I. Qed.
  Lemma z_reads (c : zcall T) fuel ms : zdd_reading c = true -> no_add (m_zcall fuel ms c).
  Proof.
    destruct c; intros E; try discriminate E; cbn [m_zcall]; try exact Logic.I.
    - apply no_add_bind; [apply no_add_bind; [apply zcomb_iter_reads|intros x; exact Logic.I]|intros x; exact Logic.I].
    - apply no_add_bind; [apply no_add_bind; [apply no_add_bind; [apply zcomb_inner_reads|intros x; exact Logic.I]|intros x; exact Logic.I]|intros x; exact Logic.I].
    - apply no_add_bind; [apply zcw_reads|intros x; exact Logic.I].
    - apply no_add_bind; [apply no_add_bind; [apply zcw_reads|intros x; exact Logic.I]|intros x; exact Logic.I].
    - apply no_add_bind; [apply ztraverse_reads|intros x; exact Logic.I].
    - apply no_add_bind; [apply no_add_get|intros x]. apply no_add_bind; [apply zprint_reads|intros y; exact Logic.I].
  Qed.
End Reads.
Section ReadsB.
  Context {I F : Type} `{OI : Ord I} `{OF : Ord F}.
  Lemma bsum_loop_reads fuel : forall q (nodes : list (I * list (status I))), no_add (m_bsummarize_loop fuel q nodes).
  Proof.
    induction fuel as [|k IH]; intros [|n q] nodes; try exact Logic.I; cbn [m_bsummarize_loop].
    destruct n as [v|id lo hi]; try apply IH. apply no_add_bind; [apply no_add_get|]. intros l.
    apply no_add_bind; [apply no_add_get|]. intros h. apply IH.
  Qed.
  Lemma bsum_reads fuel h (n : gnode I) : no_add (m_bsummarize fuel h n).
  Proof. apply no_add_bind; [apply bsum_loop_reads|]. intros x. exact Logic.I. Qed.
  Lemma count_reads lf jn fuel : forall n : gnode I, no_add (m_count lf jn fuel n).
  Proof.
    induction fuel as [|k IH]; intros [v|id lo hi]; try exact Logic.I. cbn [m_count].
    apply no_add_bind; [apply no_add_get|]. intros l. apply no_add_bind; [apply no_add_get|]. intros h.
    apply no_add_bind; [apply IH|]. intros x. apply no_add_bind; [apply IH|]. intros y. exact Logic.I.
  Qed.
  Lemma structure_reads fuel : forall (n : gnode I) d, no_add (m_to_structure fuel n d).
  Proof.
    induction fuel as [|k IH]; intros [v|id lo hi] d; try exact Logic.I. cbn [m_to_structure].
    apply no_add_bind; [apply no_add_get|]. intros l. apply no_add_bind; [apply IH|]. intros x.
    apply no_add_bind; [apply no_add_get|]. intros h. apply no_add_bind; [apply IH|]. intros y.
    repeat match goal with |- no_add (match ?x with _ => _ end) => destruct x end; exact Logic.I.
  Qed.
  Lemma content_reads fuel : forall (n : gnode I) m d, no_add (m_to_content fuel n m d).
  Proof.
    induction fuel as [|k IH]; intros [v|id lo hi] m d; try exact Logic.I. cbn [m_to_content].
    repeat (apply no_add_bind; [first [apply no_add_get|apply IH]|intros ?]); first [apply IH|exact Logic.I].
  Qed.
  Lemma b_reads (c : bdcall I F) fuel ms : bowtie_reading c = true -> no_add (m_bcall fuel ms c).
  Proof.
    destruct c; intros E; try discriminate E; cbn [m_bcall]; try exact Logic.I.
    - do 4 (apply no_add_bind; [apply count_reads|intros ?]). exact Logic.I.
    - apply no_add_bind; [apply structure_reads|intros x]. apply no_add_bind; [apply content_reads|intros y; exact Logic.I].
    - apply no_add_bind; [apply bsum_reads|intros x; exact Logic.I].
    - apply no_add_bind; [apply no_add_bind; [apply bsum_reads|intros x; exact Logic.I]|intros x; exact Logic.I].
  Qed.
End ReadsB.
(** a thread that makes only such calls never changes the store *)
Lemma C81_zdd2_reading_adds_nothing_pf : forall (T : Type) (O : Ord T) (p : pool T) t a' k,
  pool_reach p -> In t (p_threads p) -> forallb zdd2_reading (t_script t) = true ->
  pstep (p_arena p) (t_prog t) a' k -> a' = p_arena p.
Proof.
  intros T O p t a' k Hp Ht Hr Hs.
  exact (pool_reads Zdd2Prog.m_call zdd2_reading z2_reads (g_pool p) (g_thread t) a' k (g_pool_reach p Hp) (in_map g_thread _ _ Ht) Hr Hs).
Qed.
Lemma C81_zdd_reading_adds_nothing_pf : forall (T : Type) (O : Ord T) (p : zpool T) t a' k,
  zreach p -> In t (gp_threads p) -> forallb zdd_reading (gt_script t) = true ->
  pstep (gp_arena p) (gt_prog t) a' k -> a' = gp_arena p.
Proof. intros T O p t a' k. exact (pool_reads m_zcall zdd_reading z_reads p t a' k). Qed.
Lemma C81_bowtie_reading_adds_nothing_pf : forall (I F : Type) (OI : Ord I) (OF : Ord F) (p : bpool I F) t a' k,
  breach p -> In t (gp_threads p) -> forallb bowtie_reading (gt_script t) = true ->
  pstep (gp_arena p) (gt_prog t) a' k -> a' = gp_arena p.
Proof. intros I F OI OF p t a' k. exact (pool_reads m_bcall bowtie_reading b_reads p t a' k). Qed.

(** Non-vacuity.  Two threads with different scripts: once in lock step, and once
    with the second thread first and repeated by a third.  Both executions finish
    the same work, so the hypotheses of the [_store_canonical] theorems hold; the
    ids the forests are given differ between the two, what is stored does not. *)
Section Examples.
  Context {L M C B V : Type} `{Ord L}.
  Variable mc : nat -> list M -> C -> prog L (list M * B).
  Definition lock_run (s1 s2 : list C) (n f : nat) : gpool L M C B :=
    gsched (lockstep n) (gspawn mc f s2 (gspawn mc f s1 (mkGP a_new [] []))).
  Definition rev_run (s1 s2 : list C) (n f : nat) : gpool L M C B :=
    gsched (repeat 1 n ++ repeat 2 n ++ repeat 0 n) (gspawn mc f s2 (gspawn mc f s2 (gspawn mc f s1 (mkGP a_new [] [])))).
  Lemma lock_run_reach s1 s2 n f : gpool_reach mc (lock_run s1 s2 n f).
  Proof. apply gsched_sound, gspawn_sound, gspawn_sound. constructor. Qed.
  Lemma rev_run_reach s1 s2 n f : gpool_reach mc (rev_run s1 s2 n f).
  Proof. apply gsched_sound, gspawn_sound, gspawn_sound, gspawn_sound. constructor. Qed.
  (** all threads have finished, and started from no handles *)
  Definition all_done (p : gpool L M C B) : bool :=
    forallb (fun t => match gt_init t, gt_prog t with [], Ret _ => true | _, _ => false end) (gp_threads p).
  Lemma same_work (h1 h2 : M -> V -> Prop) (p q : gpool L M C B) : all_done p = true -> all_done q = true ->
    forall l1 l2, map gt_script (gp_threads p) = l1 -> map gt_script (gp_threads q) = l2 -> incl l1 l2 ->
    forall t, In t (gp_threads p) -> exists u vs r, In u (gp_threads q) /\ gt_script u = gt_script t /\
       Forall2 h1 (gt_init t) vs /\ Forall2 h2 (gt_init u) vs /\ gt_prog u = Ret r.
  Proof.
    unfold all_done. intros A D l1 l2 <- <- Hi t Ht. rewrite forallb_forall in A, D.
    destruct (proj1 (in_map_iff _ _ _) (Hi _ (in_map gt_script _ _ Ht))) as (u & Eu & Hu).
    specialize (A t Ht). specialize (D u Hu). destruct (gt_init t); [|discriminate].
    destruct (gt_init u) eqn:E2; [|discriminate]. destruct (gt_prog u) as [r| | | | |] eqn:E3; try discriminate.
    exists u, [], r. rewrite E2, E3. split; [exact Hu|]. split; [exact Eu|]. split; [constructor|]. split; [constructor|reflexivity].
  Qed.
End Examples.
Definition ex81_one : list (call nat) := [CUnit ho_id [5; 7]; CUnique ho_id [5; 9]; CProduct ho_rev 0 1].
Definition ex81_two : list (call nat) := [CUnique ho_id [9; 5]; CLen 0].
Definition ex81_p : pool nat := u_pool (lock_run Zdd2Prog.m_call ex81_one ex81_two 700 30).
Definition ex81_q : pool nat := u_pool (rev_run Zdd2Prog.m_call ex81_one ex81_two 700 30).
Lemma u_same_work (p q : gpool nat (mforest nat) (call nat) (obs nat)) : all_done p = true -> all_done q = true ->
  forall l1 l2, map gt_script (gp_threads p) = l1 -> map gt_script (gp_threads q) = l2 -> incl l1 l2 ->
  forall t, In t (p_threads (u_pool p)) -> exists u fs r, In u (p_threads (u_pool q)) /\ t_script u = t_script t /\
    Forall2 (holds (u_pool p)) (t_init t) fs /\ Forall2 (holds (u_pool q)) (t_init u) fs /\ t_prog u = Ret r.
Proof.
  intros A D l1 l2 E1 E2 Hi t Ht. apply in_map_iff in Ht. destruct Ht as (t0 & <- & Ht).
  destruct (same_work (holds (u_pool p)) (holds (u_pool q)) p q A D l1 l2 E1 E2 Hi t0 Ht) as (u & fs & r & Hu & Es & D1 & D2 & Er).
  exists (u_thread u), fs, r. split; [apply in_map; exact Hu|]. repeat split; assumption.
Qed.
Example C81_zdd2_example : pool_reach ex81_p /\ pool_reach ex81_q /\
  map (fun t => match t_prog t with Ret (r, o) => Some (map mf_root r, o) | _ => None end) (p_threads ex81_p) =
    [Some ([5; 4; 9], [ONone; ONone; ONone]); Some ([4], [ONone; OLen 2])] /\
  map (fun t => match t_prog t with Ret (r, o) => Some (map mf_root r, o) | _ => None end) (p_threads ex81_q) =
    [Some ([5; 3; 9], [ONone; ONone; ONone]); Some ([3], [ONone; OLen 2]); Some ([3], [ONone; OLen 2])] /\
  length (a_nodes (p_arena ex81_p)) = 11 /\ length (a_nodes (p_arena ex81_q)) = 11 /\
  (forall d, (exists i, den (p_arena ex81_p) i d) <-> (exists i, den (p_arena ex81_q) i d)).
Proof.
  assert (Rp : pool_reach ex81_p) by apply u_pool_reach, lock_run_reach.
  assert (Rq : pool_reach ex81_q) by apply u_pool_reach, rev_run_reach.
  assert (X : (forall d, (exists i, den (p_arena ex81_p) i d) <-> (exists i, den (p_arena ex81_q) i d)) /\
    length (a_nodes (p_arena ex81_p)) = length (a_nodes (p_arena ex81_q))).
  { apply (C81_zdd2_store_canonical_pf nat _); [exact Rp|exact Rq| |].
    - apply (u_same_work (lock_run Zdd2Prog.m_call ex81_one ex81_two 700 30) (rev_run Zdd2Prog.m_call ex81_one ex81_two 700 30)) with (l1 := [ex81_one; ex81_two]) (l2 := [ex81_one; ex81_two; ex81_two]); try (vm_compute; reflexivity).
      intros s [<-|[<-|[]]]; simpl; auto.
    - apply (u_same_work (rev_run Zdd2Prog.m_call ex81_one ex81_two 700 30) (lock_run Zdd2Prog.m_call ex81_one ex81_two 700 30)) with (l1 := [ex81_one; ex81_two; ex81_two]) (l2 := [ex81_one; ex81_two]); try (vm_compute; reflexivity).
      intros s [<-|[<-|[<-|[]]]]; simpl; auto. }
  split; [exact Rp|]. split; [exact Rq|]. split; [vm_compute; reflexivity|]. split; [vm_compute; reflexivity|].
  split; [vm_compute; reflexivity|]. split; [vm_compute; reflexivity|]. exact (proj1 X).
Qed.
(** a state in which one thread has finished a script and another, having to do
    the same, is about to add a node *)
Example C81_zdd2_rerun_example : exists (p : pool nat) t u r n k,
  pool_reach p /\ In t (p_threads p) /\ In u (p_threads p) /\ t_script u = t_script t /\
  Forall2 (holds p) (t_init t) [] /\ Forall2 (holds p) (t_init u) [] /\ t_prog u = Ret r /\
  t_prog t = Add n k /\ length (a_nodes (p_arena p)) = 4.
Proof.
  set (p := gsched (repeat 0 7 ++ repeat 1 300) (gspawn Zdd2Prog.m_call 30 ex81_two (gspawn Zdd2Prog.m_call 30 ex81_two (mkGP a_new [] [])))).
  assert (R : pool_reach (u_pool p)).
  { apply u_pool_reach. unfold p. apply gsched_sound, gspawn_sound, gspawn_sound. constructor. }
  assert (S1 : map gt_script (gp_threads p) = [ex81_two; ex81_two]) by (vm_compute; reflexivity).
  assert (S2 : map gt_init (gp_threads p) = [[]; []]) by (vm_compute; reflexivity).
  assert (S3 : map (fun t => match gt_prog t with Ret _ => 1 | Add _ _ => 2 | _ => 0 end) (gp_threads p) = [2; 1]) by (vm_compute; reflexivity).
  assert (S4 : length (a_nodes (gp_arena p)) = 4) by (vm_compute; reflexivity).
  clearbody p. destruct p as [a ts d]. cbn [gp_threads gp_arena] in *. destruct ts as [|t [|u [|x ts]]]; try discriminate.
  destruct t as [f1 c1 i1 p1], u as [f2 c2 i2 p2]. cbn [map gt_script gt_init gt_prog] in *.
  inversion S1; subst c1 c2. inversion S2; subst i1 i2. destruct p1 as [|i k|n k|n k| |]; try discriminate. destruct p2 as [r| | | | |]; try discriminate.
  exists (u_pool (mkGP a [mkGT f1 ex81_two [] (Add n k); mkGT f2 ex81_two [] (Ret r)] d)),
    (mkT f1 ex81_two [] (Add n k)), (mkT f2 ex81_two [] (Ret r)), r, n, k.
  split; [exact R|]. split; [left; reflexivity|]. split; [right; left; reflexivity|].
  split; [reflexivity|]. split; [constructor|]. split; [constructor|]. split; [reflexivity|]. split; [reflexivity|exact S4].
Qed.
(** a thread that lists, counts and compares a forest another thread built *)
Example C81_zdd2_reading_example : exists (p : pool nat) t a' k,
  pool_reach p /\ In t (p_threads p) /\ t_script t = [CTrees 0; CLen 0; CEq 0 0] /\
  forallb zdd2_reading (t_script t) = true /\ pstep (p_arena p) (t_prog t) a' k /\ length (a_nodes (p_arena p)) = 4.
Proof.
  set (q := gsched (repeat 0 300) (gspawn Zdd2Prog.m_call 30 ex81_two (mkGP a_new [] []))).
  assert (R : gpool_reach Zdd2Prog.m_call q).
  { unfold q. apply gsched_sound, gspawn_sound. constructor. }
  assert (E : match gp_threads q with [t] => match gt_prog t with Ret (rs, _) => map mf_root rs = [3] | _ => False end | _ => False end /\
    length (a_nodes (gp_arena q)) = 4) by (vm_compute; split; reflexivity).
  clearbody q. destruct q as [a ts d]. cbn [gp_threads gp_arena] in E. destruct E as [E E4].
  destruct ts as [|t [|x ts]]; try contradiction. destruct t as [f1 c1 i1 p1]. cbn [gt_prog] in E.
  destruct p1 as [[rs os]|i k|n k|n k| |]; try contradiction. destruct rs as [|m [|m1 rs]]; try discriminate E.
  assert (R1 : gpool_reach Zdd2Prog.m_call (mkGP a [mkGT f1 c1 i1 (Ret ([m], os))] (d ++ [m]))).
  { eapply GR_step; [exact R|]. eapply GS_share. left. reflexivity. }
  set (cs := [CTrees 0; CLen 0; CEq 0 0] : list (call nat)).
  assert (R2 : gpool_reach Zdd2Prog.m_call (mkGP a ([mkGT f1 c1 i1 (Ret ([m], os))] ++ [mkGT 30 cs [m] (g_script Zdd2Prog.m_call 30 cs [m])]) (d ++ [m]))).
  { eapply GR_step; [exact R1|]. apply GS_spawn. intros x [<-|[]]. apply in_or_app. right. left. reflexivity. }
  destruct (C20_progress_pf nat _ _ (mkT 30 cs [m] (m_script 30 cs [m])) (u_pool_reach _ R2)) as [(r & X)|[X|(a' & k & X)]].
  - right. left. reflexivity.
  - discriminate X.
  - discriminate X.
  - eexists; eexists; exists a', k. split; [exact (u_pool_reach _ R2)|]. split; [right; left; reflexivity|].
    split; [reflexivity|]. split; [reflexivity|]. split; [exact X|exact E4].
Qed.
Definition z81_one : list (zcall nat) := [ZCTree [5; 7] [5]; ZCTree [5; 7] [7; 5]; ZCUnion 0 1; ZCHyper [5; 7] [[5; 7]; [5]]].
Definition z81_two : list (zcall nat) := [ZCUnique [5; 7] [5; 7]; ZCCombinations 0].
Definition z81_p : zpool nat := lock_run m_zcall z81_one z81_two 200 30.
Definition z81_q : zpool nat := rev_run m_zcall z81_one z81_two 200 30.
Example C81_zdd_example : zreach z81_p /\ zreach z81_q /\
  map (fun t => match gt_prog t with Ret (r, o) => Some (map mz_root r, o) | _ => None end) (gp_threads z81_p) =
    [Some ([2; 4; 7; 7], [ZONone; ZONone; ZONone; ZONone]); Some ([5], [ZONone; ZOSets [[5]; [7]]])] /\
  map (fun t => match gt_prog t with Ret (r, o) => Some (map mz_root r, o) | _ => None end) (gp_threads z81_q) =
    [Some ([2; 5; 7; 7], [ZONone; ZONone; ZONone; ZONone]); Some ([4], [ZONone; ZOSets [[5]; [7]]]);
     Some ([4], [ZONone; ZOSets [[5]; [7]]])] /\
  length (a_nodes (gp_arena z81_p)) = 8 /\ length (a_nodes (gp_arena z81_q)) = 8 /\
  (forall d, (exists i, den (gp_arena z81_p) i d) <-> (exists i, den (gp_arena z81_q) i d)).
Proof.
  assert (Rp : zreach z81_p) by apply lock_run_reach.
  assert (Rq : zreach z81_q) by apply rev_run_reach.
  assert (X : (forall d, (exists i, den (gp_arena z81_p) i d) <-> (exists i, den (gp_arena z81_q) i d)) /\
    length (a_nodes (gp_arena z81_p)) = length (a_nodes (gp_arena z81_q))).
  { apply (C81_zdd_store_canonical_pf nat _); [exact Rp|exact Rq| |].
    - apply (same_work _ _ z81_p z81_q) with (l1 := [z81_one; z81_two]) (l2 := [z81_one; z81_two; z81_two]); try (vm_compute; reflexivity).
      intros s [<-|[<-|[]]]; simpl; auto.
    - apply (same_work _ _ z81_q z81_p) with (l1 := [z81_one; z81_two; z81_two]) (l2 := [z81_one; z81_two]); try (vm_compute; reflexivity).
      intros s [<-|[<-|[<-|[]]]]; simpl; auto. }
  split; [exact Rp|]. split; [exact Rq|]. split; [vm_compute; reflexivity|]. split; [vm_compute; reflexivity|].
  split; [vm_compute; reflexivity|]. split; [vm_compute; reflexivity|]. exact (proj1 X).
Qed.
Definition b81_one : list (bdcall nat nat) :=
  [BDBuild ho_id [AddItem 1 10; AddItem 1 11; AddItem 2 20; AddExcl 10 20]; BDSelect ho_rev 0 11].
Definition b81_two : list (bdcall nat nat) := [BDBuild ho_rev [AddItem 2 20; AddItem 1 10]; BDOutfit 0 [10]].
Definition b81_p : bpool nat nat := lock_run m_bcall b81_one b81_two 400 60.
Definition b81_q : bpool nat nat := rev_run m_bcall b81_one b81_two 400 60.
Definition b81_root (m : mval nat nat) : option (gnode nat) := match m with MClo c => Some (mc_root c) | MNode _ => None end.
Example C81_bowtie_example : breach b81_p /\ breach b81_q /\
  map (fun t => match gt_prog t with Ret (r, o) => Some (map b81_root r, o) | _ => None end) (gp_threads b81_p) =
    [Some ([Some (GBranch 10 5 0); Some (GBranch 10 3 0)], [BONone; BONone]);
     Some ([Some (GBranch 10 0 3)], [BONone; BOOutfit (Some (Ok [10; 20]))])] /\
  map (fun t => match gt_prog t with Ret (r, o) => Some (map b81_root r, o) | _ => None end) (gp_threads b81_q) =
    [Some ([Some (GBranch 10 5 0); Some (GBranch 10 2 0)], [BONone; BONone]);
     Some ([Some (GBranch 10 0 2)], [BONone; BOOutfit (Some (Ok [10; 20]))]);
     Some ([Some (GBranch 10 0 2)], [BONone; BOOutfit (Some (Ok [10; 20]))])] /\
  length (a_nodes (gp_arena b81_p)) = 8 /\ length (a_nodes (gp_arena b81_q)) = 8 /\
  (forall d, (exists i, den (gp_arena b81_p) i d) <-> (exists i, den (gp_arena b81_q) i d)).
Proof.
  assert (Rp : breach b81_p) by apply lock_run_reach.
  assert (Rq : breach b81_q) by apply rev_run_reach.
  assert (X : (forall d, (exists i, den (gp_arena b81_p) i d) <-> (exists i, den (gp_arena b81_q) i d)) /\
    length (a_nodes (gp_arena b81_p)) = length (a_nodes (gp_arena b81_q))).
  { apply (C81_bowtie_store_canonical_pf nat nat _ _); [exact Rp|exact Rq| |].
    - apply (same_work _ _ b81_p b81_q) with (l1 := [b81_one; b81_two]) (l2 := [b81_one; b81_two; b81_two]); try (vm_compute; reflexivity).
      intros s [<-|[<-|[]]]; simpl; auto.
    - apply (same_work _ _ b81_q b81_p) with (l1 := [b81_one; b81_two; b81_two]) (l2 := [b81_one; b81_two]); try (vm_compute; reflexivity).
      intros s [<-|[<-|[<-|[]]]]; simpl; auto. }
  split; [exact Rp|]. split; [exact Rq|]. split; [vm_compute; reflexivity|]. split; [vm_compute; reflexivity|].
  split; [vm_compute; reflexivity|]. split; [vm_compute; reflexivity|]. exact (proj1 X).
Qed.
