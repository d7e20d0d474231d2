(** Conc2Thm: threads sharing the weave/src/zdd node arena, and threads sharing
    the bowtie node arena (C59). *)
From Coq Require Import List Arith NArith Lia Bool Permutation Sorted.
From Verif Require Import Base DD Spec Zdd2Model ZddModel ParserModel BddSpec BddModel BddRun ArenaModel ArenaProofs PoolModel ZddProg BddProg.
From Verif Require Import PoolProofs ZddProgProofs BddProgProofs.
Import ListNotations.
Open Scope nat_scope.

(** all states of all executions of any number of threads over the zdd arena *)
Definition zpool (T : Type) : Type := gpool nat (mztree T) (zcall T) (zobs T).
Definition zreach {T} `{Ord T} : zpool T -> Prop := gpool_reach m_zcall.
Definition zlater {T} `{Ord T} : zpool T -> zpool T -> Prop := gpool_steps m_zcall.
(** the value a handle stands for in the arena of a state: the diagram its root
    id stands for, and its universe *)
Definition zholds {T} (p : zpool T) (m : mztree T) (t : ztree T) : Prop :=
  den (gp_arena p) (mz_root m) (zt_root t) /\ mz_univ m = zt_univ t.

(** ... and over the bowtie arena *)
Definition bpool (I F : Type) : Type := gpool I (mval I F) (bdcall I F) (bobs I F).
Definition breach {I F} `{Ord I} `{Ord F} : bpool I F -> Prop := gpool_reach m_bcall.
Definition blater {I F} `{Ord I} `{Ord F} : bpool I F -> bpool I F -> Prop := gpool_steps m_bcall.
Definition bholds {I F} (p : bpool I F) (m : mval I F) (v : bval I F) : Prop :=
  match m, v with
  | MClo m, VClo c => mc_index m = c_index c /\ mc_summary m = c_summary c /\ nden (gp_arena p) (mc_root m) (c_root c)
  | MNode n, VNode t => nden (gp_arena p) n t
  | _, _ => False
  end.

(** C59, zdd.  In every state of every execution of any number of threads: no
    node is stored under two ids ... *)
Lemma C59_zdd_one_id_per_node_pf : forall (T : Type) (O : Ord T) (p : zpool T) i j n,
  zreach p -> a_get (gp_arena p) i = Some n -> a_get (gp_arena p) j = Some n -> i = j.
Proof. intros T O p i j n Hp. eapply (pool_unique m_zcall z_call zden zden_ext z_call_total m_zcall_refines); exact Hp. Qed.
(** ... an id that yields a node yields the same node for ever, and ids 0 and 1
    are the two leaves ... *)
Lemma C59_zdd_ids_are_stable_pf : forall (T : Type) (O : Ord T) (p q : zpool T),
  zreach p -> zlater p q ->
  (forall i n, a_get (gp_arena p) i = Some n -> a_get (gp_arena q) i = Some n) /\
  a_get (gp_arena p) 0 = Some (GLeaf false) /\ a_get (gp_arena p) 1 = Some (GLeaf true).
Proof.
  intros T O p q Hp Hq. split.
  - intros i n. eapply (pool_stable m_zcall z_call zden zden_ext z_call_total m_zcall_refines); eassumption.
  - eapply (pool_leaves m_zcall z_call zden zden_ext z_call_total m_zcall_refines); exact Hp.
Qed.
(** ... every stored id stands for exactly one finite diagram, and ids stand for
    equal diagrams iff they are equal. *)
Lemma C59_zdd_ids_are_diagrams_pf : forall (T : Type) (O : Ord T) (p : zpool T) i j,
  zreach p -> i < length (a_nodes (gp_arena p)) -> j < length (a_nodes (gp_arena p)) ->
  exists t u, den (gp_arena p) i t /\ den (gp_arena p) j u /\ (t = u <-> i = j) /\
    (forall t', den (gp_arena p) i t' -> t' = t) /\
    (forall l lo hi, a_get (gp_arena p) i = Some (GBranch l lo hi) -> lo < i /\ hi < i).
Proof. intros T O p i j Hp. eapply (pool_ids m_zcall z_call zden zden_ext z_call_total m_zcall_refines); exact Hp. Qed.

(** No thread ever panics on the arena; and a thread that has finished returns
    exactly the observations, and trees holding exactly the values, that its
    script yields when run alone on values from the trees it started with. *)
Lemma C59_zdd_isolation_pf : forall (T : Type) (O : Ord T) (p : zpool T) t,
  zreach p -> In t (gp_threads p) ->
  gt_prog t <> Panic /\
  forall rs os, gt_prog t = Ret (rs, os) ->
    exists vs vs', Forall2 (zholds p) (gt_init t) vs /\
      v_script z_call (gt_script t) vs = Some (vs', os) /\ Forall2 (zholds p) rs vs'.
Proof. intros T O p t Hp Ht. exact (pool_isolation m_zcall z_call zden zden_ext z_call_total m_zcall_refines p t Hp Ht). Qed.
(** Whatever the schedules, two runs of the same script from the same trees show
    the same observations. *)
Lemma C59_zdd_schedule_independent_pf : forall (T : Type) (O : Ord T) (p q : zpool T) t u vs rs os rs' os',
  zreach p -> zreach q -> In t (gp_threads p) -> In u (gp_threads q) ->
  gt_script t = gt_script u ->
  Forall2 (zholds p) (gt_init t) vs -> Forall2 (zholds q) (gt_init u) vs ->
  gt_prog t = Ret (rs, os) -> gt_prog u = Ret (rs', os') ->
  os = os' /\ exists vs', Forall2 (zholds p) rs vs' /\ Forall2 (zholds q) rs' vs'.
Proof.
  intros T O p q t u vs rs os rs' os'.
  exact (pool_deterministic m_zcall z_call zden zden_ext zden_fun z_call_total m_zcall_refines p q t u vs rs os rs' os').
Qed.
(** A thread is never stuck, and the recursion depth it needs depends only on
    its script and the values it starts from, not on the schedule. *)
Lemma C59_zdd_progress_pf : forall (T : Type) (O : Ord T) (cs : list (zcall T)) (vs : list (ztree T)),
  exists F, forall (p : zpool T) t, zreach p -> In t (gp_threads p) ->
    gt_script t = cs -> Forall2 (zholds p) (gt_init t) vs -> F <= gt_fuel t ->
    (exists r, gt_prog t = Ret r) \/ (exists a' k, pstep (gp_arena p) (gt_prog t) a' k).
Proof.
  intros T O cs vs.
  destruct (pool_bounded m_zcall z_call zden zden_ext zden_fun z_call_total m_zcall_refines cs vs) as (G & HG).
  exists G. intros p t Hp Ht Hc Hv Hle.
  destruct (pool_progress m_zcall z_call zden zden_ext z_call_total m_zcall_refines p t Hp Ht) as [X|[X|X]]; auto.
  exfalso. exact (HG p t Hp Ht Hc Hv Hle X).
Qed.

(** C59, bowtie: the same six statements. *)
Lemma C59_bowtie_one_id_per_node_pf : forall (I F : Type) (OI : Ord I) (OF : Ord F) (p : bpool I F) i j n,
  breach p -> a_get (gp_arena p) i = Some n -> a_get (gp_arena p) j = Some n -> i = j.
Proof. intros I F OI OF p i j n Hp. eapply (pool_unique m_bcall b_vcall bden bden_ext b_vcall_total m_bcall_refines); exact Hp. Qed.
Lemma C59_bowtie_ids_are_stable_pf : forall (I F : Type) (OI : Ord I) (OF : Ord F) (p q : bpool I F),
  breach p -> blater p q ->
  (forall i n, a_get (gp_arena p) i = Some n -> a_get (gp_arena q) i = Some n) /\
  a_get (gp_arena p) 0 = Some (GLeaf false) /\ a_get (gp_arena p) 1 = Some (GLeaf true).
Proof.
  intros I F OI OF p q Hp Hq. split.
  - intros i n. eapply (pool_stable m_bcall b_vcall bden bden_ext b_vcall_total m_bcall_refines); eassumption.
  - eapply (pool_leaves m_bcall b_vcall bden bden_ext b_vcall_total m_bcall_refines); exact Hp.
Qed.
Lemma C59_bowtie_ids_are_diagrams_pf : forall (I F : Type) (OI : Ord I) (OF : Ord F) (p : bpool I F) i j,
  breach p -> i < length (a_nodes (gp_arena p)) -> j < length (a_nodes (gp_arena p)) ->
  exists t u, den (gp_arena p) i t /\ den (gp_arena p) j u /\ (t = u <-> i = j) /\
    (forall t', den (gp_arena p) i t' -> t' = t) /\
    (forall l lo hi, a_get (gp_arena p) i = Some (GBranch l lo hi) -> lo < i /\ hi < i).
Proof. intros I F OI OF p i j Hp. eapply (pool_ids m_bcall b_vcall bden bden_ext b_vcall_total m_bcall_refines); exact Hp. Qed.
Lemma C59_bowtie_isolation_pf : forall (I F : Type) (OI : Ord I) (OF : Ord F) (p : bpool I F) t,
  breach p -> In t (gp_threads p) ->
  gt_prog t <> Panic /\
  forall rs os, gt_prog t = Ret (rs, os) ->
    exists vs vs', Forall2 (bholds p) (gt_init t) vs /\
      v_script b_vcall (gt_script t) vs = Some (vs', os) /\ Forall2 (bholds p) rs vs'.
Proof. intros I F OI OF p t Hp Ht. exact (pool_isolation m_bcall b_vcall bden bden_ext b_vcall_total m_bcall_refines p t Hp Ht). Qed.
Lemma C59_bowtie_schedule_independent_pf : forall (I F : Type) (OI : Ord I) (OF : Ord F) (p q : bpool I F) t u vs rs os rs' os',
  breach p -> breach q -> In t (gp_threads p) -> In u (gp_threads q) ->
  gt_script t = gt_script u ->
  Forall2 (bholds p) (gt_init t) vs -> Forall2 (bholds q) (gt_init u) vs ->
  gt_prog t = Ret (rs, os) -> gt_prog u = Ret (rs', os') ->
  os = os' /\ exists vs', Forall2 (bholds p) rs vs' /\ Forall2 (bholds q) rs' vs'.
Proof.
  intros I F OI OF p q t u vs rs os rs' os'.
  exact (pool_deterministic m_bcall b_vcall bden bden_ext bden_fun b_vcall_total m_bcall_refines p q t u vs rs os rs' os').
Qed.
Lemma C59_bowtie_progress_pf : forall (I F : Type) (OI : Ord I) (OF : Ord F) (cs : list (bdcall I F)) (vs : list (bval I F)),
  exists G, forall (p : bpool I F) t, breach p -> In t (gp_threads p) ->
    gt_script t = cs -> Forall2 (bholds p) (gt_init t) vs -> G <= gt_fuel t ->
    (exists r, gt_prog t = Ret r) \/ (exists a' k, pstep (gp_arena p) (gt_prog t) a' k).
Proof.
  intros I F OI OF cs vs.
  destruct (pool_bounded m_bcall b_vcall bden bden_ext bden_fun b_vcall_total m_bcall_refines cs vs) as (G & HG).
  exists G. intros p t Hp Ht Hc Hv Hle.
  destruct (pool_progress m_bcall b_vcall bden bden_ext b_vcall_total m_bcall_refines p t Hp Ht) as [X|[X|X]]; auto.
  exfalso. exact (HG p t Hp Ht Hc Hv Hle X).
Qed.

(** Non-vacuity: two threads in lock step. *)
Fixpoint lockstep (n : nat) : list nat := match n with O => [] | S k => [0; 1] ++ lockstep k end.
Definition z_ex_script : list (zcall nat) :=
  [ZCTree [5; 7] [5]; ZCTree [5; 7] [7; 5]; ZCUnion 0 1; ZCCombinations 2; ZCHyper [5; 7] [[5; 7]; [5]]; ZCEq 2 3].
Definition z_ex_spawn : zpool nat := gspawn m_zcall 20 z_ex_script (gspawn m_zcall 20 z_ex_script (mkGP a_new [] [])).
Example C59_zdd_example : exists p : zpool nat, zreach p /\ length (gp_threads p) = 2 /\
  map (fun t => match gt_prog t with Ret (r, o) => Some (map mz_root r, o) | _ => None end) (gp_threads p) =
    [Some ([2; 4; 6; 6], [ZONone; ZONone; ZONone; ZOSets [[5]; [5; 7]]; ZONone; ZOBool true]);
     Some ([2; 4; 6; 6], [ZONone; ZONone; ZONone; ZOSets [[5]; [5; 7]]; ZONone; ZOBool true])].
Proof.
  exists (gsched (lockstep 60) z_ex_spawn). split.
  - apply gsched_sound. apply gspawn_sound. apply gspawn_sound. constructor.
  - vm_compute. auto.
Qed.
Definition b_ex_script : list (bdcall nat nat) :=
  [BDBuild ho_id [AddItem 1 10; AddItem 1 11; AddItem 2 20; AddExcl 10 20]; BDSelect ho_rev 0 11; BDOutfit 1 [];
   BDSelect ho_id 0 10; BDSerialize 1].
Definition b_ex_spawn : bpool nat nat := gspawn m_bcall 60 b_ex_script (gspawn m_bcall 60 b_ex_script (mkGP a_new [] [])).
Example C59_bowtie_example : exists p : bpool nat nat, breach p /\ length (gp_threads p) = 2 /\
  map (fun t => match gt_prog t with Ret (r, o) => Some (length r, o) | _ => None end) (gp_threads p) =
    [Some (2, [BONone; BONone; BOOutfit (Some (Ok [20])); BOSelectError (ExcludedItem 10);
       BOData ([(10, 1); (11, 1); (20, 2)], [Excluded 10; Available 20; Selected 11],
         (SExcluded 0 (SRequired 1 (SOutcome true)), [(0, 10); (1, 20)]))]);
     Some (2, [BONone; BONone; BOOutfit (Some (Ok [20])); BOSelectError (ExcludedItem 10);
       BOData ([(10, 1); (11, 1); (20, 2)], [Excluded 10; Available 20; Selected 11],
         (SExcluded 0 (SRequired 1 (SOutcome true)), [(0, 10); (1, 20)]))])].
Proof.
  exists (gsched (lockstep 400) b_ex_spawn). split.
  - apply gsched_sound. apply gspawn_sound. apply gspawn_sound. constructor.
  - vm_compute. auto.
Qed.
