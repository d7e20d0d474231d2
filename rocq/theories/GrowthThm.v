(** GrowthThm: the shared node store grows by at most the cost of the calls made (C82). *)
From Coq Require Import List Arith NArith Lia Bool Permutation Sorted.
From Verif Require Import Base DD Spec Zdd2Model ZddModel ParserModel BddSpec BddModel BddRun ArenaModel ArenaProofs PoolModel ZddProg BddProg.
From Verif Require Import PoolProofs ZddProgProofs BddNode BddCloset BddThm BddProgProofs Conc2Thm ArenaSim PoolStore StoreThm.
From Verif Require Import GrowthSpec GrowthProofs GrowthCalls.
Import ListNotations.
Open Scope nat_scope.

(** C82: [dag_size] counts the different nodes of a diagram *)
Lemma C82_dag_size_counts_pf : forall (L : Type) (O : Ord L) (t : dd L) l,
  NoDup l -> (forall x, In x l <-> sub x t) -> length l = dag_size t.
Proof. intros L O t l. apply dag_size_spec. Qed.

(** C82, zdd.  For every script and every list of values it starts from there
    is a list of diagrams, no longer than the cost of the script, such that in
    every state of every execution a step of a thread that runs the script from
    those values adds nothing to the store but diagrams of the list. *)
Lemma C82_zdd_growth_pf : forall (T : Type) (O : Ord T) (cs : list (zcall T)) (vs : list (ztree T)),
  exists l, length l <= script_cost z_call z_cost cs vs /\
  forall (p : zpool T) t a' k, zreach p -> In t (gp_threads p) -> gt_script t = cs -> Forall2 (zholds p) (gt_init t) vs ->
    pstep (gp_arena p) (gt_prog t) a' k ->
    forall d, (exists i, den a' i d) -> (exists i, den (gp_arena p) i d) \/ In d l.
Proof.
  intros T O cs vs. exact (pool_growth m_zcall z_call z_cost zden zden_ext zden_fun z_call_total m_zcall_refines zcall_bounded z_base cs vs).
Qed.
(** ... and the store never has more nodes than the two leaves and the cost of
    the scripts of all the threads there have been *)
Lemma C82_zdd_store_bound_pf : forall (T : Type) (O : Ord T) (p : zpool T) vs,
  zreach p -> (forall t, In t (gp_threads p) -> Forall2 (zholds p) (gt_init t) (vs t)) ->
  length (a_nodes (gp_arena p)) <= 2 + list_sum (map (fun t => script_cost z_call z_cost (gt_script t) (vs t)) (gp_threads p)).
Proof.
  intros T O p vs. exact (pool_bound m_zcall z_call z_cost zden zden_ext zden_fun z_call_total m_zcall_refines zcall_bounded z_base p vs).
Qed.

(** C82, bowtie: the same two statements *)
Lemma C82_bowtie_growth_pf : forall (I F : Type) (OI : Ord I) (OF : Ord F) (cs : list (bdcall I F)) (vs : list (bval I F)),
  exists l, length l <= script_cost b_vcall b_cost cs vs /\
  forall (p : bpool I F) t a' k, breach p -> In t (gp_threads p) -> gt_script t = cs -> Forall2 (bholds p) (gt_init t) vs ->
    pstep (gp_arena p) (gt_prog t) a' k ->
    forall d, (exists i, den a' i d) -> (exists i, den (gp_arena p) i d) \/ In d l.
Proof.
  intros I F OI OF cs vs. exact (pool_growth m_bcall b_vcall b_cost bden bden_ext bden_fun b_vcall_total m_bcall_refines bcall_bounded b_base cs vs).
Qed.
Lemma C82_bowtie_store_bound_pf : forall (I F : Type) (OI : Ord I) (OF : Ord F) (p : bpool I F) vs,
  breach p -> (forall t, In t (gp_threads p) -> Forall2 (bholds p) (gt_init t) (vs t)) ->
  length (a_nodes (gp_arena p)) <= 2 + list_sum (map (fun t => script_cost b_vcall b_cost (gt_script t) (vs t)) (gp_threads p)).
Proof.
  intros I F OI OF p vs. exact (pool_bound m_bcall b_vcall b_cost bden bden_ext bden_fun b_vcall_total m_bcall_refines bcall_bounded b_base p vs).
Qed.

(** C82: the root of a closet never gets more different nodes by [select_item],
    and completing an outfit costs at most the size of the root for each selection *)
Lemma restrict_size {I} `{Ord I} (t : dd I) i b : robdd t -> dag_size (restrict t i b) <= dag_size t.
Proof.
  intros [A B]. unfold dag_size at 2. rewrite <- (map_length (fun x => restrict x i b)). apply dag_size_le. intros y Hy.
  destruct (sub_restrict t i b y A B Hy) as (x & Hx & ->). apply in_map_iff. exists x. split; [reflexivity|]. apply all_subs_in; auto.
Qed.
Lemma restrict_robdd {I} `{Ord I} (t : dd I) i b : robdd t -> robdd (restrict t i b).
Proof. intros [A B]. split; [apply bordered_restrict|apply breduced_restrict]; auto. Qed.
Lemma outfit_size {I} `{Ord I} sels : forall t : dd I, robdd t -> outfit_cost t sels <= length sels * dag_size t.
Proof.
  unfold outfit_cost. induction sels as [|s sels IH]; intros t R; cbn [fold_cost length Nat.mul]; [lia|].
  pose proof (IH _ (restrict_robdd t s true R)) as X. pose proof (restrict_size t s true R) as Y.
  pose proof (Nat.mul_le_mono_l _ _ (length sels) Y). lia.
Qed.
Lemma reached_robdd {I F} `{Ord I} `{Ord F} (calls : list (bcall I F)) sels c : reached calls sels c -> robdd (c_root c).
Proof. intros A. apply reached_inv in A. rewrite (inv_root _ _ _ A). apply robdd_restrict_all, robdd_root. Qed.
Lemma C82_select_no_larger_pf : forall (I F : Type) (OI : Ord I) (OF : Ord F) (calls : list (bcall I F)) sels c h i c',
  reached calls sels c -> select_item h c i = Ok c' -> dag_size (c_root c') <= dag_size (c_root c).
Proof.
  intros I F OI OF calls sels c h i c' A E. pose proof (reached_robdd _ _ _ A) as R. unfold select_item in E.
  destruct (get_family _ _); [|discriminate]. destruct (find _ _); [discriminate|]. injection E as <-. apply restrict_size; exact R.
Qed.
Lemma C82_outfit_cost_pf : forall (I F : Type) (OI : Ord I) (OF : Ord F) (calls : list (bcall I F)) sels c selections,
  reached calls sels c -> outfit_cost (c_root c) selections <= length selections * dag_size (c_root c).
Proof. intros I F OI OF calls sels c selections A. apply outfit_size, (reached_robdd _ _ _ A). Qed.
(** C82: the result of [&] or [|] has at most one node for each pair of nodes of the operands *)
Lemma C82_and_or_size_pf : forall (I : Type) (O : Ord I) (a b : dd I),
  dag_size (bitand a b) <= dag_size a * dag_size b /\ dag_size (bitor a b) <= dag_size a * dag_size b.
Proof.
  intros I O a b. rewrite <- (pairs_length bitand), <- (pairs_length bitor) at 1. split; apply dag_size_le; intros y Hy.
  - destruct (sub_bitand a b y Hy) as (x1 & x2 & A & B & ->). apply pairs_in; auto.
  - destruct (sub_bitor a b y Hy) as (x1 & x2 & A & B & ->). apply (pairs_in bitor); auto.
Qed.

(** the two threads of C81's examples: what their scripts cost, and what the store holds *)
Example C82_zdd_example : zreach z81_p /\ map gt_script (gp_threads z81_p) = [z81_one; z81_two] /\
  (forall t, In t (gp_threads z81_p) -> Forall2 (zholds z81_p) (gt_init t) []) /\
  script_cost z_call z_cost z81_one [] = 34 /\ script_cost z_call z_cost z81_two [] = 14 /\
  length (a_nodes (gp_arena z81_p)) = 8.
Proof.
  split; [apply lock_run_reach|]. split; [vm_compute; reflexivity|]. split; [|split; [vm_compute; reflexivity|split; vm_compute; reflexivity]].
  assert (E : map gt_init (gp_threads z81_p) = [[]; []]) by (vm_compute; reflexivity). intros t Ht. apply (in_map gt_init) in Ht. rewrite E in Ht.
  destruct Ht as [<-|[<-|[]]]; constructor.
Qed.
Example C82_bowtie_example : breach b81_p /\ map gt_script (gp_threads b81_p) = [b81_one; b81_two] /\
  (forall t, In t (gp_threads b81_p) -> Forall2 (bholds b81_p) (gt_init t) []) /\
  script_cost b_vcall b_cost b81_one [] = 108 /\ script_cost b_vcall b_cost b81_two [] = 28 /\
  length (a_nodes (gp_arena b81_p)) = 8.
Proof.
  split; [apply lock_run_reach|]. split; [vm_compute; reflexivity|]. split; [|split; [vm_compute; reflexivity|split; vm_compute; reflexivity]].
  assert (E : map gt_init (gp_threads b81_p) = [[]; []]) by (vm_compute; reflexivity). intros t Ht. apply (in_map gt_init) in Ht. rewrite E in Ht.
  destruct Ht as [<-|[<-|[]]]; constructor.
Qed.
(** a thread that starts from a closet of another one: the cost depends on it *)
Example C82_values_example : let c := closet_new ho_id [(10, 1); (20, 2)] (Branch 10 (Leaf false) (Branch 20 (Leaf false) (Leaf true))) in
  script_cost b_vcall b_cost [BDSelect ho_id 0 10; BDOutfit 0 [10; 20]; BDSummary 0] [VClo c] = 11 /\
  dag_size (c_root c) = 4 /\ script_cost b_vcall b_cost [BDSelect ho_id 0 10; BDOutfit 0 [10; 20]; BDSummary 0] [VClo no_closet] = 3.
Proof. vm_compute. auto. Qed.
Example C82_closet_example : exists c c', reached (F := nat) [AddItem 1 10; AddItem 1 11; AddItem 2 20; AddExcl 10 20] [] c /\
  select_item ho_id c 11 = Ok c' /\ dag_size (c_root c) = 5 /\ dag_size (c_root c') = 4 /\ outfit_cost (c_root c) [11; 20] = 9.
Proof.
  set (calls := [AddItem 1 10; AddItem 1 11; AddItem 2 20; AddExcl 10 20]).
  destruct (build ho_id (run_calls calls)) as [c|e] eqn:E; [|exfalso; revert E; vm_compute; discriminate].
  exists c. destruct (select_item ho_id c 11) as [c'|e] eqn:E'; [|exfalso; revert E'; revert E; vm_compute; intros [= <-]; vm_compute; discriminate].
  exists c'. split; [econstructor; exact E|]. split; [exact eq_refl|]. revert E'. revert E. vm_compute. intros [= <-]. vm_compute. intros [= <-]. vm_compute. repeat split; reflexivity.
Qed.
