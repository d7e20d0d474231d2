(** Properties_Load.v: C83: threads that serialize, load and print zdd2 forests, panics included
    Generated by tools/gen_props.py from LoadThm.v: the property theorems, each followed by
    instances that meet its hypotheses (examples). *)
From Coq Require Import List Arith NArith Lia Bool Permutation Sorted.
From Verif Require Import Base DD Spec Zdd2Model Zdd2Node Zdd2Node2 Zdd2Univ Zdd2Forest Zdd2Forest2 Zdd2Forest3 Zdd2Laws Zdd2Thm.
From Verif Require Import ParserModel ParserSpec ParserProofs ParserThm.
From Verif Require Import ArenaModel ArenaProofs PoolModel PoolProofs PanicProofs Zdd2Prog Zdd2ProgProofs ConcThm LoadModel LoadProofs.
Import ListNotations.
From Verif Require Import LoadThm.
Open Scope nat_scope.

(** C83.  A panicking thread harms nobody: in every state of every execution of any
    number of threads that load any data, a thread that has finished shows exactly
    the observations, and holds exactly the values, that its script yields when run
    alone; one that has panicked would have panicked alone. *)
Theorem C83_isolation : forall (T : Type) (O : Ord T) (p : lpool T) t,
  lreach p -> In t (gp_threads p) ->
  exists fs, Forall2 (lholds p) (gt_init t) fs /\
    Forall (fun f => Reach f \/ exists h d, f_deserialize h d = Some f) fs /\
    (gt_prog t = Panic -> v_script l_call (gt_script t) fs = None) /\
    (forall rs os, gt_prog t = Ret (rs, os) ->
       exists fs', v_script l_call (gt_script t) fs = Some (fs', os) /\ Forall2 (lholds p) rs fs').
Proof. exact C83_isolation_pf. Qed.
Print Assumptions C83_isolation.

(** ([fs]: what the thread starts from; each was made by API calls or was loaded.)
    A thread panics exactly at the calls that must: what other threads do, load or
    break does not matter. *)
Theorem C83_when_panics : forall (T : Type) (O : Ord T) (p : lpool T) t fs,
  lreach p -> In t (gp_threads p) -> Forall2 (lholds p) (gt_init t) fs ->
  let bad := exists cs1 c cs2 gs os, gt_script t = cs1 ++ c :: cs2 /\
               v_script l_call cs1 fs = Some (gs, os) /\ must_panic gs c in
  (gt_prog t = Panic -> bad) /\ (forall r, gt_prog t = Ret r -> ~ bad).
Proof. exact C83_when_panics_pf. Qed.
Print Assumptions C83_when_panics.

(** Two runs of one script from equal forests: the same observations, or both panic. *)
Theorem C83_schedule_independent : forall (T : Type) (O : Ord T) (p q : lpool T) t u fs,
  lreach p -> lreach q -> In t (gp_threads p) -> In u (gp_threads q) -> gt_script t = gt_script u ->
  Forall2 (lholds p) (gt_init t) fs -> Forall2 (lholds q) (gt_init u) fs ->
  ~ (gt_prog t = Panic /\ exists r, gt_prog u = Ret r) /\
  forall rs os rs' os', gt_prog t = Ret (rs, os) -> gt_prog u = Ret (rs', os') ->
    os = os' /\ exists fs', Forall2 (lholds p) rs fs' /\ Forall2 (lholds q) rs' fs'.
Proof. exact C83_schedule_independent_pf. Qed.
Print Assumptions C83_schedule_independent.

(** A thread that has neither finished nor panicked can take a step; the recursion
    depth it needs depends on its script and starting values only. *)
Theorem C83_progress : forall (T : Type) (O : Ord T) (cs : list (lcall T)) (fs : list (forest T)),
  Forall (fun f => Reach f \/ exists h d, f_deserialize h d = Some f) fs ->
  exists F, forall (p : lpool T) t, lreach p -> In t (gp_threads p) ->
    gt_script t = cs -> Forall2 (lholds p) (gt_init t) fs -> F <= gt_fuel t ->
    (exists r, gt_prog t = Ret r) \/ gt_prog t = Panic \/ (exists a' k, pstep (gp_arena p) (gt_prog t) a' k).
Proof. exact C83_progress_pf. Qed.
Print Assumptions C83_progress.

(** Whatever is loaded: no node is stored under two ids, ids are stable, and every id
    a thread can have stands for one finite diagram. *)
Theorem C83_ids : forall (T : Type) (O : Ord T) (p q : lpool T), lreach p -> llater p q ->
  (forall i j n, a_get (gp_arena p) i = Some n -> a_get (gp_arena p) j = Some n -> i = j) /\
  (forall i n, a_get (gp_arena p) i = Some n -> a_get (gp_arena q) i = Some n) /\
  (forall i, i < length (a_nodes (gp_arena p)) -> exists t, den (gp_arena p) i t) /\
  (forall m f, lholds p m f -> lholds q m f).
Proof. exact C83_ids_pf. Qed.
Print Assumptions C83_ids.

(** Loading what [Serialize] wrote of a reachable forest gives, in every execution, the
    very handle by which anybody already holds it: the same root id, the same universe. *)
Theorem C83_reload_same_handle : forall (T : Type) (O : Ord T) (p : lpool T) t h text entries (f : forest T) m rs os,
  lreach p -> In t (gp_threads p) -> Reach f -> fits (f_root f) -> lholds p m f ->
  text = fst (f_serialize f) -> Permutation entries (snd (f_serialize f)) ->
  gt_script t = [LDeserialize h (text, entries)] -> gt_prog t = Ret (rs, os) ->
  rs = gt_init t ++ [m] /\ os = [LOLoaded true].
Proof. exact C83_reload_same_handle_pf. Qed.
Print Assumptions C83_reload_same_handle.

(** If all the data that threads load was written by [Serialize], no thread ever panics. *)
Theorem C83_written_data_is_safe : forall (T : Type) (O : Ord T) (p : lpool T), lreach p ->
  (forall t, In t (gp_threads p) -> Forall loads_written (gt_script t)) ->
  forall t, In t (gp_threads p) -> gt_prog t <> Panic.
Proof. exact C83_written_data_is_safe_pf. Qed.
Print Assumptions C83_written_data_is_safe.

Example C83_example : lreach l_ex_state /\
  map (fun t => match gt_prog t with Panic => true | _ => false end) (gp_threads l_ex_state) = [true; false; false] /\
  map (fun t => match gt_prog t with Ret (r, o) => Some (map mf_root r, nth 1 o (LOLoaded false)) | _ => None end) (gp_threads l_ex_state) =
    [None; Some ([7], LOData (l_ex_text, [(1, 1); (2, 2); (3, 1)])); Some ([7], LOLoaded false)] /\
  (exists gs os, v_script l_call (firstn 3 l_ex_bad) [] = Some (gs, os) /\
     os = [LOLoaded true; LOData ([40;53;32;40;78;41;32;40;65;41;41]%N, []); LOBase (OTrees [[]])] /\
     must_panic gs (LBase (CUnion ho_id 0 0))) /\
  Forall loads_written l_ex_load.
Proof. exact LoadThm.C83_example. Qed.
