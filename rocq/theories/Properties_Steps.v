(** Properties_Steps.v: C104, the accesses of a call
    Generated by tools/gen_props.py from StepsThm.v: the property theorems, each followed by
    instances that meet its hypotheses (examples). *)
From Coq Require Import List Arith Lia Bool.
From Verif Require Import Base DD Spec Zdd2Model ZddModel ZddProofs BddSpec BddModel BddRun ArenaModel ArenaProofs PoolModel PoolProofs.
From Verif Require Import Zdd2Prog Zdd2ProgProofs Zdd2Thm ConcThm ZddProg ZddProgProofs BddProg BddProgProofs Conc2Thm.
From Verif Require Import StackModel StackThm StackZThm StackBThm StepsModel Steps StepsF StepsZ StepsB.
Import ListNotations.
From Verif Require Import StepsThm.

(** C104.  The calls of a script on forests of weave/src/zdd2: from any state a run of any number of threads can reach,
    they make no more accesses to the shared store than a number that depends on the script and the values of the
    forests only, not on what is stored, where, or on what the other threads store between two of the accesses; and as
    long as they have not returned, their next access can be made. *)
Theorem C104_zdd2 : forall (T : Type) (O : Ord T) (fs : list (forest T)) (cs : list (call T)),
  Forall Reach fs ->
  exists fuel0 N, forall (p : pool T) (ms : list (mforest T)), pool_reach p -> Forall2 (holds p) ms fs ->
  forall fuel, fuel0 <= fuel -> forall n b q, runs_in n (p_arena p) (m_script fuel cs ms) b q ->
  n <= N /\ q <> OutOfFuel /\ q <> Panic /\ returned_or_can_step b q.
Proof. exact C104_zdd2_pf. Qed.
Print Assumptions C104_zdd2.

(** C104.  The calls of a script on trees of weave/src/zdd. *)
Theorem C104_zdd : forall (T : Type) (O : Ord T) (ts : list (ztree T)) (cs : list (zcall T)),
  exists fuel0 N, forall (p : zpool T) (ms : list (mztree T)), zreach p -> Forall2 (zholds p) ms ts ->
  forall fuel, fuel0 <= fuel -> forall n b q, runs_in n (gp_arena p) (g_script m_zcall fuel cs ms) b q ->
  n <= N /\ q <> OutOfFuel /\ q <> Panic /\ returned_or_can_step b q.
Proof. exact C104_zdd_pf. Qed.
Print Assumptions C104_zdd.

(** C104.  The calls of a script on closets and nodes of bowtie-core. *)
Theorem C104_bowtie : forall (I F : Type) (OI : Ord I) (OF : Ord F) (vs : list (bval I F)) (cs : list (bdcall I F)),
  exists fuel0 N, forall (p : bpool I F) (ms : list (mval I F)), breach p -> Forall2 (bholds p) ms vs ->
  forall fuel, fuel0 <= fuel -> forall n b q, runs_in n (gp_arena p) (g_script m_bcall fuel cs ms) b q ->
  n <= N /\ q <> OutOfFuel /\ q <> Panic /\ returned_or_can_step b q.
Proof. exact C104_bowtie_pf. Qed.
Print Assumptions C104_bowtie.

(** C104.  So whoever schedules the threads, a script that was given that many accesses has returned. *)
Theorem C104_returned : forall (L R : Type) (O : Ord L) (p : prog L R) (a : arena L) (N : nat),
  (forall n b q, runs_in n a p b q -> n <= N /\ q <> OutOfFuel /\ q <> Panic /\ returned_or_can_step b q) ->
  forall b q, runs_in N a p b q -> exists x, q = Ret x.
Proof. exact C104_returned_pf. Qed.
Print Assumptions C104_returned.

(** C104.  And as the accesses are the steps, [runs_in] counts those of [runs] of C101 to C103. *)
Theorem C104_counts : forall (L R : Type) (O : Ord L) (p q : prog L R) (a b : arena L), runs a p b q <-> exists n, runs_in n a p b q.
Proof. exact C104_counts_pf. Qed.
Print Assumptions C104_counts.

(** the union and the intersection of two trees over four items in a reachable state: fifty accesses; the conjunction of
    two diagrams and the counts of a closet: seventy-six; the union of two forests: three hundred and four *)
Example C104_example :
  (exists (p : zpool nat) ms ts, zreach p /\ Forall2 (zholds p) ms ts /\
     exists b x, runs_in 50 (gp_arena p) (g_script m_zcall 40 [ZCUnion 0 1; ZCIntersect 0 1] ms) b (Ret x)) /\
  (exists (p : bpool nat nat) ms vs, breach p /\ Forall2 (bholds p) ms vs /\
     exists b x, runs_in 76 (gp_arena p) (g_script m_bcall 40 [BDOp BAnd 4 7; BDCounts 0] ms) b (Ret x)) /\
  (exists (p : pool nat) ms fs, pool_reach p /\ Forall2 (holds p) ms fs /\ Forall Reach fs /\
     exists b x, runs_in 304 (p_arena p) (m_script 40 [CUnion ho_id 0 1] ms) b (Ret x)).
Proof. exact StepsThm.C104_example. Qed.
