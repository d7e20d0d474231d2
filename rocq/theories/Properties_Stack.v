(** Properties_Stack.v: C101, the depth of the recursion of zdd2
    Generated by tools/gen_props.py from StackThm.v: the property theorems, each followed by
    instances that meet its hypotheses (examples). *)
From Coq Require Import List Arith Lia Bool.
From Verif Require Import Base DD Spec Zdd2Model ArenaModel ArenaProofs Zdd2Prog Zdd2ProgProofs Zdd2Thm ConcThm.
From Verif Require Import Growth2Spec StackModel StackForest.
Import ListNotations.
From Verif Require Import StackThm.

(** C101.  The program of StackModel.v is the one of Zdd2Prog.v, with the nesting and the rounds of the loops
    counted apart. *)
Theorem C101_is_the_program : forall (T : Type) (O : Ord T) (fuel : nat) (ms : list (mforest T)) (c : call T),
  s_call fuel fuel ms c = m_call fuel ms c.
Proof. exact C101_is_the_program_pf. Qed.
Print Assumptions C101_is_the_program.

(** C101.  In any state a run of any number of threads can reach, an API call on forests needs no more nested
    calls of the recursive node functions than two for every different item of its operands, and three: whatever
    the number of trees and of nodes, and whatever the other threads store while it runs.  It does not panic, and
    when it returns it has the result of the call run alone. *)
Theorem C101_depth : forall (T : Type) (O : Ord T) (p : pool T) (ms : list (mforest T)) (fs : list (forest T)) (c : call T),
  pool_reach p -> Forall2 (holds p) ms fs -> Forall Reach fs ->
  forall depth, call_depth fs c <= depth ->
  exists rounds, forall loops, rounds <= loops -> forall a q,
    runs (p_arena p) (s_call depth loops ms c) a q ->
    q <> OutOfFuel /\ q <> Panic /\
    (forall x, q = Ret x -> exists y, run_call fs c = Some y /\ snd x = snd y /\
       forall p', pool_reach p' -> p_arena p' = a -> Forall2 (holds p') (fst x) (fst y)).
Proof. exact C101_depth_pf. Qed.
Print Assumptions C101_depth.

(** C101.  The bound does not depend on how many trees there are. *)
Theorem C101_items_only : forall (T : Type) (O : Ord T) (fs gs : list (forest T)) (c d : call T),
  (forall x, In x (call_items fs c) <-> In x (call_items gs d)) -> call_depth fs c = call_depth gs d.
Proof. exact C101_items_only_pf. Qed.
Print Assumptions C101_items_only.

(** the union and the product of two forests over four items: allowed eleven nested calls (call_depth) they
    return; allowed three they do not *)
Example C101_example : exists (p : pool nat) ms fs, pool_reach p /\ Forall2 (holds p) ms fs /\ Forall Reach fs /\
  call_depth fs (CUnion ho_id 0 1) = 11 /\ call_depth fs (CProduct ho_id 0 1) = 11 /\
  (exists a x, runs (p_arena p) (s_call 11 40 ms (CUnion ho_id 0 1)) a (Ret x)) /\
  (exists a x, runs (p_arena p) (s_call 11 40 ms (CProduct ho_id 0 1)) a (Ret x)) /\
  (exists a, runs (p_arena p) (s_call 3 40 ms (CUnion ho_id 0 1)) a OutOfFuel) /\
  (exists a, runs (p_arena p) (s_call 3 40 ms (CProduct ho_id 0 1)) a OutOfFuel).
Proof. exact StackThm.C101_example. Qed.
