(** Properties_Conc.v: threads sharing the zdd2 arena
    Generated by tools/gen_props.py from ConcThm.v: the property theorems, each followed by
    instances that meet its hypotheses (examples). *)
From Coq Require Import List Arith Lia Bool Permutation Sorted.
From Verif Require Import Base DD Spec Zdd2Model Zdd2Node Zdd2Node2 Zdd2Univ Zdd2Forest Zdd2Forest2 Zdd2Forest3 Zdd2Laws.
From Verif Require Import ArenaModel ArenaProofs Zdd2Prog Zdd2ProgProofs.
From Verif Require Import Zdd2Thm.
Import ListNotations.
From Verif Require Import ConcThm.

(** C19.  In every state of every execution of any number of threads: no node
    is stored under two ids ... *)
Theorem C19_one_id_per_node : forall (T : Type) (O : Ord T) (p : pool T) i j n,
  pool_reach p -> a_get (p_arena p) i = Some n -> a_get (p_arena p) j = Some n -> i = j.
Proof. exact C19_one_id_per_node_pf. Qed.
Print Assumptions C19_one_id_per_node.

(** ... an id that yields a node yields the same node for ever ... *)
Theorem C19_ids_are_stable : forall (T : Type) (O : Ord T) (p q : pool T) i n,
  pool_reach p -> pool_steps p q -> a_get (p_arena p) i = Some n -> a_get (p_arena q) i = Some n.
Proof. exact C19_ids_are_stable_pf. Qed.
Print Assumptions C19_ids_are_stable.

(** ... ids 0 and 1 are the two leaves ... *)
Theorem C19_leaf_ids : forall (T : Type) (O : Ord T) (p : pool T), pool_reach p ->
  a_get (p_arena p) 0 = Some (GLeaf false) /\ a_get (p_arena p) 1 = Some (GLeaf true).
Proof. exact C19_leaf_ids_pf. Qed.
Print Assumptions C19_leaf_ids.

(** ... a stored branch points to stored nodes with smaller ids, so every stored
    id stands for exactly one finite diagram, and ids stand for equal diagrams
    iff they are equal. *)
Theorem C19_ids_are_diagrams : forall (T : Type) (O : Ord T) (p : pool T) i j,
  pool_reach p -> i < length (a_nodes (p_arena p)) -> j < length (a_nodes (p_arena p)) ->
  exists t u, den (p_arena p) i t /\ den (p_arena p) j u /\ (t = u <-> i = j) /\
    (forall t', den (p_arena p) i t' -> t' = t) /\
    (forall l lo hi, a_get (p_arena p) i = Some (GBranch l lo hi) -> lo < i /\ hi < i).
Proof. exact C19_ids_are_diagrams_pf. Qed.
Print Assumptions C19_ids_are_diagrams.

(** C20.  No thread ever panics; and a thread that has finished returns exactly
    the observations, and forests holding exactly the values, that its script
    yields when run alone (on values, [run_script]) from the forests it started with. *)
Theorem C20_isolation : forall (T : Type) (O : Ord T) (p : pool T) t,
  pool_reach p -> In t (p_threads p) ->
  t_prog t <> Panic /\
  forall rs os, t_prog t = Ret (rs, os) ->
    exists fs fs', Forall Reach fs /\ Forall2 (holds p) (t_init t) fs /\
      run_script (t_script t) fs = Some (fs', os) /\ Forall2 (holds p) rs fs'.
Proof. exact C20_isolation_pf. Qed.
Print Assumptions C20_isolation.

(** Whatever the schedules, two runs of the same script from the same forests
    show the same observations. *)
Theorem C20_schedule_independent : forall (T : Type) (O : Ord T) (p q : pool T) t u fs rs os rs' os',
  pool_reach p -> pool_reach q -> In t (p_threads p) -> In u (p_threads q) ->
  t_script t = t_script u ->
  Forall2 (holds p) (t_init t) fs -> Forall2 (holds q) (t_init u) fs ->
  t_prog t = Ret (rs, os) -> t_prog u = Ret (rs', os') ->
  os = os' /\ exists fs', Forall2 (holds p) rs fs' /\ Forall2 (holds q) rs' fs'.
Proof. exact C20_schedule_independent_pf. Qed.
Print Assumptions C20_schedule_independent.

(** A thread is never stuck: it has returned, or it can take its next step in
    whatever state the others have brought the arena to (the only other case,
    [OutOfFuel], is excluded below). *)
Theorem C20_progress : forall (T : Type) (O : Ord T) (p : pool T) t,
  pool_reach p -> In t (p_threads p) ->
  (exists r, t_prog t = Ret r) \/ t_prog t = OutOfFuel \/
  (exists a' k, pstep (p_arena p) (t_prog t) a' k).
Proof. exact C20_progress_pf. Qed.
Print Assumptions C20_progress.

(** The recursion depth a script needs depends only on the script and on the
    values it starts from, not on the schedule: no thread recurses for ever. *)
Theorem C20_bounded_recursion : forall (T : Type) (O : Ord T) (cs : list (call T)) (fs : list (forest T)),
  Forall Reach fs ->
  exists F, forall (p : pool T) t, pool_reach p -> In t (p_threads p) ->
    t_script t = cs -> Forall2 (holds p) (t_init t) fs -> F <= t_fuel t -> t_prog t <> OutOfFuel.
Proof. exact C20_bounded_recursion_pf. Qed.
Print Assumptions C20_bounded_recursion.

(** and no thread takes infinitely many steps, whatever the others do between them *)
Theorem C20_finite_steps : forall (L R : Type) (O : Ord L) (p : prog L R),
  Acc (fun q' q => exists a a', pstep a q a' q') p.
Proof. exact C20_finite_steps_pf. Qed.
Print Assumptions C20_finite_steps.

Example C20_race_example : exists p : pool nat, pool_reach p /\ length (p_threads p) = 2 /\
  map (fun t => match t_prog t with Ret (r, o) => Some (map mf_root r, o) | _ => None end) (p_threads p) =
    [Some ([4; 4], [ONone; OTrees [[5; 7]]; ONone; OBool true]); Some ([4; 4], [ONone; OTrees [[5; 7]]; ONone; OBool true])] /\
  length (a_nodes (p_arena p)) = 5.
Proof. exact ConcThm.C20_race_example. Qed.

(** C19: the store of that race, reached by a run that did store new nodes *)
Example C19_example : exists p : pool nat, pool_reach p /\ pool_steps ex_spawn p /\
  length (a_nodes (p_arena ex_spawn)) = 2 /\
  a_get (p_arena p) 0 = Some (GLeaf false) /\ a_get (p_arena p) 1 = Some (GLeaf true) /\
  a_get (p_arena p) 4 <> None /\ a_get (p_arena p) 5 = None.
Proof. exact ConcThm.C19_example. Qed.
