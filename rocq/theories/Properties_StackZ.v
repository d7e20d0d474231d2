(** Properties_StackZ.v: C102, the depth of the recursion of zdd
    Generated by tools/gen_props.py from StackZThm.v: the property theorems, each followed by
    instances that meet its hypotheses (examples). *)
From Coq Require Import List Arith NArith Lia Bool.
From Verif Require Import Base DD Spec Zdd2Model ZddModel ZddProofs ZddSpec ParserModel ArenaModel ArenaProofs PoolModel PoolProofs ZddProg ZddProgProofs Conc2Thm.
From Verif Require Import Growth2Spec StackModel StackThm StackZModel StackZFits StackZdd.
Import ListNotations.
From Verif Require Import StackZThm.

(** C102.  The program of StackZModel.v is the one of ZddProg.v, with the nesting and the rounds of the loops
    counted apart. *)
Theorem C102_is_the_program : forall (T : Type) (O : Ord T) (fuel : nat) (ms : list (mztree T)) (c : zcall T),
  zs_call fuel fuel ms c = m_zcall fuel ms c.
Proof. exact C102_is_the_program_pf. Qed.
Print Assumptions C102_is_the_program.

(** C102.  In any state a run of any number of threads can reach, an API call on any trees (built, combined or
    loaded) needs no more nested calls of a recursive function than [zcall_depth]: for union, intersection and
    product one more than the levels of the two trees together; for the readers one more than the levels of the
    tree; for [hyper_tree], [unique_tree] and [restrict] one more than the items of the combinations, each counted as
    often as some combination lists it; for [deserialize] one more than the parentheses open at once: whatever the number of
    combinations and of nodes, and whatever the other threads store while it runs.  It does not panic, and when it
    returns it has the result of the call run alone. *)
Theorem C102_depth : forall (T : Type) (O : Ord T) (p : zpool T) (ms : list (mztree T)) (ts : list (ztree T)) (c : zcall T),
  zreach p -> Forall2 (zholds p) ms ts ->
  forall depth, zcall_depth ts c <= depth ->
  exists rounds, forall loops, rounds <= loops -> forall a q,
    runs (gp_arena p) (zs_call depth loops ms c) a q ->
    q <> OutOfFuel /\ q <> Panic /\
    (forall x, q = Ret x -> exists y, z_call ts c = Some y /\ snd x = snd y /\
       forall p', zreach p' -> gp_arena p' = a -> Forall2 (zholds p') (fst x) (fst y)).
Proof. exact C102_depth_pf. Qed.
Print Assumptions C102_depth.

(** C102.  If the trees of the call are over one universe and built from combinations without repeated items, one
    nested call for every different item of the universe, and one, are enough. *)
Theorem C102_items : forall (T : Type) (O : Ord T) (p : zpool T) (ms : list (mztree T)) (ts : list (ztree T)) (items : list T) (c : zcall T),
  zreach p -> Forall2 (zholds p) ms ts -> zplain items ts c ->
  forall depth, S (length (once items)) <= depth ->
  exists rounds, forall loops, rounds <= loops -> forall a q,
    runs (gp_arena p) (zs_call depth loops ms c) a q -> q <> OutOfFuel /\ q <> Panic.
Proof. exact C102_items_pf. Qed.
Print Assumptions C102_items.

(** C102.  Such a tree has at most one level for every different item, as [traverse] shows it. *)
Theorem C102_levels : forall (T : Type) (O : Ord T) (items : list T) (t : ztree T),
  ZReach (@NoDup T) (zu_from items) t ->
  height (zt_root t) <= length (once items) /\ forall d, z_traverse t = Some d -> height d = height (zt_root t).
Proof. exact C102_levels_pf. Qed.
Print Assumptions C102_levels.

(** C102.  What [zcall_depth] counts for combinations without repeated items: their different items. *)
Theorem C102_widest : forall (T : Type) (O : Ord T) (cs : list (list T)),
  (forall c, In c cs -> NoDup c) -> widest cs = length (once (concat cs)).
Proof. exact C102_widest_pf. Qed.
Print Assumptions C102_widest.

(** the union and the intersection of two trees over four items: allowed five nested calls (one for every item, and
    one) they return, allowed two they do not; a tree that lists its one item three times has three levels *)
Example C102_example : exists (p : zpool nat) ms ts, zreach p /\ Forall2 (zholds p) ms ts /\
  zplain [1; 2; 3; 4] ts (ZCUnion 0 1) /\ zplain [1; 2; 3; 4] ts (ZCIntersect 0 1) /\
  (exists a x, runs (gp_arena p) (zs_call 5 40 ms (ZCUnion 0 1)) a (Ret x)) /\
  (exists a x, runs (gp_arena p) (zs_call 5 40 ms (ZCIntersect 0 1)) a (Ret x)) /\
  (exists a, runs (gp_arena p) (zs_call 2 40 ms (ZCUnion 0 1)) a OutOfFuel) /\
  (exists a, runs (gp_arena p) (zs_call 2 40 ms (ZCIntersect 0 1)) a OutOfFuel) /\
  map (zcall_depth ts) [ZCUnion 0 1; ZCTraverse 0; ZCHyper [1; 2] [[1; 2]; [2]]; ZCTraverse 2; ZCRestrict 0 [2] []] = [7; 4; 3; 4; 5].
Proof. exact StackZThm.C102_example. Qed.
