(** Properties_Store.v: what the shared node store holds (C81)
    Generated by tools/gen_props.py from StoreThm.v: the property theorems, each followed by
    instances that meet its hypotheses (examples). *)
From Coq Require Import List Arith NArith Lia Bool Permutation Sorted.
From Verif Require Import Base DD Spec Zdd2Model ZddModel ParserModel BddSpec BddModel BddRun ArenaModel ArenaProofs PoolModel ZddProg BddProg.
From Verif Require Import PoolProofs ZddProgProofs BddProgProofs Conc2Thm.
From Verif Require Import Zdd2Prog Zdd2ProgProofs Zdd2Thm ConcThm ArenaSim PoolStore Zdd2Sim ZddSim BddSim.
Import ListNotations.
From Verif Require Import StoreThm.
Open Scope nat_scope.

(** C81, zdd2.  Let [p] and [q] be any states of any executions, however many
    threads each has, however they are interleaved.  If the work of every thread
    of [p] (its script, and the values it starts from) has been finished by some
    thread of [q], then every diagram the store of [p] holds is held by the store
    of [q], and [p]'s store has at most as many nodes as [q]'s. *)
Theorem C81_zdd2_store_contents : forall (T : Type) (O : Ord T) (p q : pool T),
  pool_reach p -> pool_reach q ->
  (forall t, In t (p_threads p) -> exists u fs r, In u (p_threads q) /\ t_script u = t_script t /\
     Forall2 (holds p) (t_init t) fs /\ Forall2 (holds q) (t_init u) fs /\ t_prog u = Ret r) ->
  (forall d, (exists i, den (p_arena p) i d) -> (exists i, den (p_arena q) i d)) /\
  length (a_nodes (p_arena p)) <= length (a_nodes (p_arena q)).
Proof. exact C81_zdd2_store_contents_pf. Qed.
Print Assumptions C81_zdd2_store_contents.

(** So two executions that finish the same work, in any order and interleaving,
    and however often each piece of it is repeated, leave stores that hold exactly
    the same diagrams and have the same number of nodes ... *)
Theorem C81_zdd2_store_canonical : forall (T : Type) (O : Ord T) (p q : pool T),
  pool_reach p -> pool_reach q ->
  (forall t, In t (p_threads p) -> exists u fs r, In u (p_threads q) /\ t_script u = t_script t /\
     Forall2 (holds p) (t_init t) fs /\ Forall2 (holds q) (t_init u) fs /\ t_prog u = Ret r) ->
  (forall u, In u (p_threads q) -> exists t fs r, In t (p_threads p) /\ t_script t = t_script u /\
     Forall2 (holds q) (t_init u) fs /\ Forall2 (holds p) (t_init t) fs /\ t_prog t = Ret r) ->
  (forall d, (exists i, den (p_arena p) i d) <-> (exists i, den (p_arena q) i d)) /\
  length (a_nodes (p_arena p)) = length (a_nodes (p_arena q)).
Proof. exact C81_zdd2_store_canonical_pf. Qed.
Print Assumptions C81_zdd2_store_canonical.

(** ... and once a piece of work has been finished, a thread that does it again
    (or is still doing it) never adds another node, whatever others do meanwhile. *)
Theorem C81_zdd2_rerun_adds_nothing : forall (T : Type) (O : Ord T) (p : pool T) t u fs r a' k,
  pool_reach p -> In t (p_threads p) -> In u (p_threads p) ->
  t_script u = t_script t -> Forall2 (holds p) (t_init t) fs -> Forall2 (holds p) (t_init u) fs ->
  t_prog u = Ret r -> pstep (p_arena p) (t_prog t) a' k -> a' = p_arena p.
Proof. exact C81_zdd2_rerun_adds_nothing_pf. Qed.
Print Assumptions C81_zdd2_rerun_adds_nothing.

(** C81, zdd: the same three statements. *)
Theorem C81_zdd_store_contents : forall (T : Type) (O : Ord T) (p q : zpool T),
  zreach p -> zreach q ->
  (forall t, In t (gp_threads p) -> exists u vs r, In u (gp_threads q) /\ gt_script u = gt_script t /\
     Forall2 (zholds p) (gt_init t) vs /\ Forall2 (zholds q) (gt_init u) vs /\ gt_prog u = Ret r) ->
  (forall d, (exists i, den (gp_arena p) i d) -> (exists i, den (gp_arena q) i d)) /\
  length (a_nodes (gp_arena p)) <= length (a_nodes (gp_arena q)).
Proof. exact C81_zdd_store_contents_pf. Qed.
Print Assumptions C81_zdd_store_contents.

Theorem C81_zdd_store_canonical : forall (T : Type) (O : Ord T) (p q : zpool T),
  zreach p -> zreach q ->
  (forall t, In t (gp_threads p) -> exists u vs r, In u (gp_threads q) /\ gt_script u = gt_script t /\
     Forall2 (zholds p) (gt_init t) vs /\ Forall2 (zholds q) (gt_init u) vs /\ gt_prog u = Ret r) ->
  (forall u, In u (gp_threads q) -> exists t vs r, In t (gp_threads p) /\ gt_script t = gt_script u /\
     Forall2 (zholds q) (gt_init u) vs /\ Forall2 (zholds p) (gt_init t) vs /\ gt_prog t = Ret r) ->
  (forall d, (exists i, den (gp_arena p) i d) <-> (exists i, den (gp_arena q) i d)) /\
  length (a_nodes (gp_arena p)) = length (a_nodes (gp_arena q)).
Proof. exact C81_zdd_store_canonical_pf. Qed.
Print Assumptions C81_zdd_store_canonical.

Theorem C81_zdd_rerun_adds_nothing : forall (T : Type) (O : Ord T) (p : zpool T) t u vs r a' k,
  zreach p -> In t (gp_threads p) -> In u (gp_threads p) ->
  gt_script u = gt_script t -> Forall2 (zholds p) (gt_init t) vs -> Forall2 (zholds p) (gt_init u) vs ->
  gt_prog u = Ret r -> pstep (gp_arena p) (gt_prog t) a' k -> a' = gp_arena p.
Proof. exact C81_zdd_rerun_adds_nothing_pf. Qed.
Print Assumptions C81_zdd_rerun_adds_nothing.

(** C81, bowtie: the same three statements. *)
Theorem C81_bowtie_store_contents : forall (I F : Type) (OI : Ord I) (OF : Ord F) (p q : bpool I F),
  breach p -> breach q ->
  (forall t, In t (gp_threads p) -> exists u vs r, In u (gp_threads q) /\ gt_script u = gt_script t /\
     Forall2 (bholds p) (gt_init t) vs /\ Forall2 (bholds q) (gt_init u) vs /\ gt_prog u = Ret r) ->
  (forall d, (exists i, den (gp_arena p) i d) -> (exists i, den (gp_arena q) i d)) /\
  length (a_nodes (gp_arena p)) <= length (a_nodes (gp_arena q)).
Proof. exact C81_bowtie_store_contents_pf. Qed.
Print Assumptions C81_bowtie_store_contents.

Theorem C81_bowtie_store_canonical : forall (I F : Type) (OI : Ord I) (OF : Ord F) (p q : bpool I F),
  breach p -> breach q ->
  (forall t, In t (gp_threads p) -> exists u vs r, In u (gp_threads q) /\ gt_script u = gt_script t /\
     Forall2 (bholds p) (gt_init t) vs /\ Forall2 (bholds q) (gt_init u) vs /\ gt_prog u = Ret r) ->
  (forall u, In u (gp_threads q) -> exists t vs r, In t (gp_threads p) /\ gt_script t = gt_script u /\
     Forall2 (bholds q) (gt_init u) vs /\ Forall2 (bholds p) (gt_init t) vs /\ gt_prog t = Ret r) ->
  (forall d, (exists i, den (gp_arena p) i d) <-> (exists i, den (gp_arena q) i d)) /\
  length (a_nodes (gp_arena p)) = length (a_nodes (gp_arena q)).
Proof. exact C81_bowtie_store_canonical_pf. Qed.
Print Assumptions C81_bowtie_store_canonical.

Theorem C81_bowtie_rerun_adds_nothing : forall (I F : Type) (OI : Ord I) (OF : Ord F) (p : bpool I F) t u vs r a' k,
  breach p -> In t (gp_threads p) -> In u (gp_threads p) ->
  gt_script u = gt_script t -> Forall2 (bholds p) (gt_init t) vs -> Forall2 (bholds p) (gt_init u) vs ->
  gt_prog u = Ret r -> pstep (gp_arena p) (gt_prog t) a' k -> a' = gp_arena p.
Proof. exact C81_bowtie_rerun_adds_nothing_pf. Qed.
Print Assumptions C81_bowtie_rerun_adds_nothing.

(** a thread that makes only such calls never changes the store *)
Theorem C81_zdd2_reading_adds_nothing : forall (T : Type) (O : Ord T) (p : pool T) t a' k,
  pool_reach p -> In t (p_threads p) -> forallb zdd2_reading (t_script t) = true ->
  pstep (p_arena p) (t_prog t) a' k -> a' = p_arena p.
Proof. exact C81_zdd2_reading_adds_nothing_pf. Qed.
Print Assumptions C81_zdd2_reading_adds_nothing.

Theorem C81_zdd_reading_adds_nothing : forall (T : Type) (O : Ord T) (p : zpool T) t a' k,
  zreach p -> In t (gp_threads p) -> forallb zdd_reading (gt_script t) = true ->
  pstep (gp_arena p) (gt_prog t) a' k -> a' = gp_arena p.
Proof. exact C81_zdd_reading_adds_nothing_pf. Qed.
Print Assumptions C81_zdd_reading_adds_nothing.

Theorem C81_bowtie_reading_adds_nothing : forall (I F : Type) (OI : Ord I) (OF : Ord F) (p : bpool I F) t a' k,
  breach p -> In t (gp_threads p) -> forallb bowtie_reading (gt_script t) = true ->
  pstep (gp_arena p) (gt_prog t) a' k -> a' = gp_arena p.
Proof. exact C81_bowtie_reading_adds_nothing_pf. Qed.
Print Assumptions C81_bowtie_reading_adds_nothing.

Example C81_zdd2_example : pool_reach ex81_p /\ pool_reach ex81_q /\
  map (fun t => match t_prog t with Ret (r, o) => Some (map mf_root r, o) | _ => None end) (p_threads ex81_p) =
    [Some ([5; 4; 9], [ONone; ONone; ONone]); Some ([4], [ONone; OLen 2])] /\
  map (fun t => match t_prog t with Ret (r, o) => Some (map mf_root r, o) | _ => None end) (p_threads ex81_q) =
    [Some ([5; 3; 9], [ONone; ONone; ONone]); Some ([3], [ONone; OLen 2]); Some ([3], [ONone; OLen 2])] /\
  length (a_nodes (p_arena ex81_p)) = 11 /\ length (a_nodes (p_arena ex81_q)) = 11 /\
  (forall d, (exists i, den (p_arena ex81_p) i d) <-> (exists i, den (p_arena ex81_q) i d)).
Proof. exact StoreThm.C81_zdd2_example. Qed.

(** a state in which one thread has finished a script and another, having to do
    the same, is about to add a node *)
Example C81_zdd2_rerun_example : exists (p : pool nat) t u r n k,
  pool_reach p /\ In t (p_threads p) /\ In u (p_threads p) /\ t_script u = t_script t /\
  Forall2 (holds p) (t_init t) [] /\ Forall2 (holds p) (t_init u) [] /\ t_prog u = Ret r /\
  t_prog t = Add n k /\ length (a_nodes (p_arena p)) = 4.
Proof. exact StoreThm.C81_zdd2_rerun_example. Qed.

(** a thread that lists, counts and compares a forest another thread built *)
Example C81_zdd2_reading_example : exists (p : pool nat) t a' k,
  pool_reach p /\ In t (p_threads p) /\ t_script t = [CTrees 0; CLen 0; CEq 0 0] /\
  forallb zdd2_reading (t_script t) = true /\ pstep (p_arena p) (t_prog t) a' k /\ length (a_nodes (p_arena p)) = 4.
Proof. exact StoreThm.C81_zdd2_reading_example. Qed.

Example C81_zdd_example : zreach z81_p /\ zreach z81_q /\
  map (fun t => match gt_prog t with Ret (r, o) => Some (map mz_root r, o) | _ => None end) (gp_threads z81_p) =
    [Some ([2; 4; 7; 7], [ZONone; ZONone; ZONone; ZONone]); Some ([5], [ZONone; ZOSets [[5]; [7]]])] /\
  map (fun t => match gt_prog t with Ret (r, o) => Some (map mz_root r, o) | _ => None end) (gp_threads z81_q) =
    [Some ([2; 5; 7; 7], [ZONone; ZONone; ZONone; ZONone]); Some ([4], [ZONone; ZOSets [[5]; [7]]]);
     Some ([4], [ZONone; ZOSets [[5]; [7]]])] /\
  length (a_nodes (gp_arena z81_p)) = 8 /\ length (a_nodes (gp_arena z81_q)) = 8 /\
  (forall d, (exists i, den (gp_arena z81_p) i d) <-> (exists i, den (gp_arena z81_q) i d)).
Proof. exact StoreThm.C81_zdd_example. Qed.

Example C81_bowtie_example : breach b81_p /\ breach b81_q /\
  map (fun t => match gt_prog t with Ret (r, o) => Some (map b81_root r, o) | _ => None end) (gp_threads b81_p) =
    [Some ([Some (GBranch 10 5 0); Some (GBranch 10 3 0)], [BONone; BONone]);
     Some ([Some (GBranch 10 0 3)], [BONone; BOOutfit (Some (Ok [10; 20]))])] /\
  map (fun t => match gt_prog t with Ret (r, o) => Some (map b81_root r, o) | _ => None end) (gp_threads b81_q) =
    [Some ([Some (GBranch 10 5 0); Some (GBranch 10 2 0)], [BONone; BONone]);
     Some ([Some (GBranch 10 0 2)], [BONone; BOOutfit (Some (Ok [10; 20]))]);
     Some ([Some (GBranch 10 0 2)], [BONone; BOOutfit (Some (Ok [10; 20]))])] /\
  length (a_nodes (gp_arena b81_p)) = 8 /\ length (a_nodes (gp_arena b81_q)) = 8 /\
  (forall d, (exists i, den (gp_arena b81_p) i d) <-> (exists i, den (gp_arena b81_q) i d)).
Proof. exact StoreThm.C81_bowtie_example. Qed.
