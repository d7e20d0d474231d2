(** Properties_Conc2.v: threads on the zdd and bowtie arenas (C59)
    Generated by tools/gen_props.py from Conc2Thm.v: the property theorems, each followed by
    instances that meet its hypotheses (examples). *)
From Coq Require Import List Arith NArith Lia Bool Permutation Sorted.
From Verif Require Import Base DD Spec Zdd2Model ZddModel ParserModel BddSpec BddModel BddRun ArenaModel ArenaProofs PoolModel ZddProg BddProg.
From Verif Require Import PoolProofs ZddProgProofs BddProgProofs.
Import ListNotations.
From Verif Require Import Conc2Thm.
Open Scope nat_scope.

(** C59, zdd.  In every state of every execution of any number of threads: no
    node is stored under two ids ... *)
Theorem C59_zdd_one_id_per_node : forall (T : Type) (O : Ord T) (p : zpool T) i j n,
  zreach p -> a_get (gp_arena p) i = Some n -> a_get (gp_arena p) j = Some n -> i = j.
Proof. exact C59_zdd_one_id_per_node_pf. Qed.
Print Assumptions C59_zdd_one_id_per_node.

(** ... an id that yields a node yields the same node for ever, and ids 0 and 1
    are the two leaves ... *)
Theorem C59_zdd_ids_are_stable : forall (T : Type) (O : Ord T) (p q : zpool T),
  zreach p -> zlater p q ->
  (forall i n, a_get (gp_arena p) i = Some n -> a_get (gp_arena q) i = Some n) /\
  a_get (gp_arena p) 0 = Some (GLeaf false) /\ a_get (gp_arena p) 1 = Some (GLeaf true).
Proof. exact C59_zdd_ids_are_stable_pf. Qed.
Print Assumptions C59_zdd_ids_are_stable.

(** ... every stored id stands for exactly one finite diagram, and ids stand for
    equal diagrams iff they are equal. *)
Theorem C59_zdd_ids_are_diagrams : forall (T : Type) (O : Ord T) (p : zpool T) i j,
  zreach p -> i < length (a_nodes (gp_arena p)) -> j < length (a_nodes (gp_arena p)) ->
  exists t u, den (gp_arena p) i t /\ den (gp_arena p) j u /\ (t = u <-> i = j) /\
    (forall t', den (gp_arena p) i t' -> t' = t) /\
    (forall l lo hi, a_get (gp_arena p) i = Some (GBranch l lo hi) -> lo < i /\ hi < i).
Proof. exact C59_zdd_ids_are_diagrams_pf. Qed.
Print Assumptions C59_zdd_ids_are_diagrams.

(** No thread ever panics on the arena; and a thread that has finished returns
    exactly the observations, and trees holding exactly the values, that its
    script yields when run alone on values from the trees it started with. *)
Theorem C59_zdd_isolation : forall (T : Type) (O : Ord T) (p : zpool T) t,
  zreach p -> In t (gp_threads p) ->
  gt_prog t <> Panic /\
  forall rs os, gt_prog t = Ret (rs, os) ->
    exists vs vs', Forall2 (zholds p) (gt_init t) vs /\
      v_script z_call (gt_script t) vs = Some (vs', os) /\ Forall2 (zholds p) rs vs'.
Proof. exact C59_zdd_isolation_pf. Qed.
Print Assumptions C59_zdd_isolation.

(** Whatever the schedules, two runs of the same script from the same trees show
    the same observations. *)
Theorem C59_zdd_schedule_independent : forall (T : Type) (O : Ord T) (p q : zpool T) t u vs rs os rs' os',
  zreach p -> zreach q -> In t (gp_threads p) -> In u (gp_threads q) ->
  gt_script t = gt_script u ->
  Forall2 (zholds p) (gt_init t) vs -> Forall2 (zholds q) (gt_init u) vs ->
  gt_prog t = Ret (rs, os) -> gt_prog u = Ret (rs', os') ->
  os = os' /\ exists vs', Forall2 (zholds p) rs vs' /\ Forall2 (zholds q) rs' vs'.
Proof. exact C59_zdd_schedule_independent_pf. Qed.
Print Assumptions C59_zdd_schedule_independent.

(** A thread is never stuck, and the recursion depth it needs depends only on
    its script and the values it starts from, not on the schedule. *)
Theorem C59_zdd_progress : forall (T : Type) (O : Ord T) (cs : list (zcall T)) (vs : list (ztree T)),
  exists F, forall (p : zpool T) t, zreach p -> In t (gp_threads p) ->
    gt_script t = cs -> Forall2 (zholds p) (gt_init t) vs -> F <= gt_fuel t ->
    (exists r, gt_prog t = Ret r) \/ (exists a' k, pstep (gp_arena p) (gt_prog t) a' k).
Proof. exact C59_zdd_progress_pf. Qed.
Print Assumptions C59_zdd_progress.

(** C59, bowtie: the same six statements. *)
Theorem C59_bowtie_one_id_per_node : forall (I F : Type) (OI : Ord I) (OF : Ord F) (p : bpool I F) i j n,
  breach p -> a_get (gp_arena p) i = Some n -> a_get (gp_arena p) j = Some n -> i = j.
Proof. exact C59_bowtie_one_id_per_node_pf. Qed.
Print Assumptions C59_bowtie_one_id_per_node.

Theorem C59_bowtie_ids_are_stable : forall (I F : Type) (OI : Ord I) (OF : Ord F) (p q : bpool I F),
  breach p -> blater p q ->
  (forall i n, a_get (gp_arena p) i = Some n -> a_get (gp_arena q) i = Some n) /\
  a_get (gp_arena p) 0 = Some (GLeaf false) /\ a_get (gp_arena p) 1 = Some (GLeaf true).
Proof. exact C59_bowtie_ids_are_stable_pf. Qed.
Print Assumptions C59_bowtie_ids_are_stable.

Theorem C59_bowtie_ids_are_diagrams : forall (I F : Type) (OI : Ord I) (OF : Ord F) (p : bpool I F) i j,
  breach p -> i < length (a_nodes (gp_arena p)) -> j < length (a_nodes (gp_arena p)) ->
  exists t u, den (gp_arena p) i t /\ den (gp_arena p) j u /\ (t = u <-> i = j) /\
    (forall t', den (gp_arena p) i t' -> t' = t) /\
    (forall l lo hi, a_get (gp_arena p) i = Some (GBranch l lo hi) -> lo < i /\ hi < i).
Proof. exact C59_bowtie_ids_are_diagrams_pf. Qed.
Print Assumptions C59_bowtie_ids_are_diagrams.

Theorem C59_bowtie_isolation : forall (I F : Type) (OI : Ord I) (OF : Ord F) (p : bpool I F) t,
  breach p -> In t (gp_threads p) ->
  gt_prog t <> Panic /\
  forall rs os, gt_prog t = Ret (rs, os) ->
    exists vs vs', Forall2 (bholds p) (gt_init t) vs /\
      v_script b_vcall (gt_script t) vs = Some (vs', os) /\ Forall2 (bholds p) rs vs'.
Proof. exact C59_bowtie_isolation_pf. Qed.
Print Assumptions C59_bowtie_isolation.

Theorem C59_bowtie_schedule_independent : forall (I F : Type) (OI : Ord I) (OF : Ord F) (p q : bpool I F) t u vs rs os rs' os',
  breach p -> breach q -> In t (gp_threads p) -> In u (gp_threads q) ->
  gt_script t = gt_script u ->
  Forall2 (bholds p) (gt_init t) vs -> Forall2 (bholds q) (gt_init u) vs ->
  gt_prog t = Ret (rs, os) -> gt_prog u = Ret (rs', os') ->
  os = os' /\ exists vs', Forall2 (bholds p) rs vs' /\ Forall2 (bholds q) rs' vs'.
Proof. exact C59_bowtie_schedule_independent_pf. Qed.
Print Assumptions C59_bowtie_schedule_independent.

Theorem C59_bowtie_progress : forall (I F : Type) (OI : Ord I) (OF : Ord F) (cs : list (bdcall I F)) (vs : list (bval I F)),
  exists G, forall (p : bpool I F) t, breach p -> In t (gp_threads p) ->
    gt_script t = cs -> Forall2 (bholds p) (gt_init t) vs -> G <= gt_fuel t ->
    (exists r, gt_prog t = Ret r) \/ (exists a' k, pstep (gp_arena p) (gt_prog t) a' k).
Proof. exact C59_bowtie_progress_pf. Qed.
Print Assumptions C59_bowtie_progress.

Example C59_zdd_example : exists p : zpool nat, zreach p /\ length (gp_threads p) = 2 /\
  map (fun t => match gt_prog t with Ret (r, o) => Some (map mz_root r, o) | _ => None end) (gp_threads p) =
    [Some ([2; 4; 6; 6], [ZONone; ZONone; ZONone; ZOSets [[5]; [5; 7]]; ZONone; ZOBool true]);
     Some ([2; 4; 6; 6], [ZONone; ZONone; ZONone; ZOSets [[5]; [5; 7]]; ZONone; ZOBool true])].
Proof. exact Conc2Thm.C59_zdd_example. Qed.

Example C59_bowtie_example : exists p : bpool nat nat, breach p /\ length (gp_threads p) = 2 /\
  map (fun t => match gt_prog t with Ret (r, o) => Some (length r, o) | _ => None end) (gp_threads p) =
    [Some (2, [BONone; BONone; BOOutfit (Some (Ok [20])); BOSelectError (ExcludedItem 10);
       BOData ([(10, 1); (11, 1); (20, 2)], [Excluded 10; Available 20; Selected 11],
         (SExcluded 0 (SRequired 1 (SOutcome true)), [(0, 10); (1, 20)]))]);
     Some (2, [BONone; BONone; BOOutfit (Some (Ok [20])); BOSelectError (ExcludedItem 10);
       BOData ([(10, 1); (11, 1); (20, 2)], [Excluded 10; Available 20; Selected 11],
         (SExcluded 0 (SRequired 1 (SOutcome true)), [(0, 10); (1, 20)]))])].
Proof. exact Conc2Thm.C59_bowtie_example. Qed.
