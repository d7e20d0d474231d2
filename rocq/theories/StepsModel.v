(** StepsModel: the accesses to the shared node store that a call makes.  An access is one [ARENA.read()] or
    [ARENA.write()] section (weave/src/zdd2/forest/node/mod.rs L127-152, weave/src/zdd/node/mod.rs L62-81,
    bowtie-core/src/bdd/node/arena.rs L45-56), the [pstep] of ArenaModel.v.  [runs_in n] is [runs] of StackModel.v
    with the accesses of the call itself counted; what the other threads store between them is not.  No proofs here. *)
From Coq Require Import List Arith.
From Verif Require Import Base DD ArenaModel StackModel.

Inductive runs_in {L : Type} `{Ord L} {R : Type} : nat -> arena L -> prog L R -> arena L -> prog L R -> Prop :=
| runs_in_now a p : runs_in 0 a p a p
| runs_in_others n a p b q c : runs_in n a p b q -> others_add b c -> runs_in n a p c q
| runs_in_step n a p b q c r : runs_in n a p b q -> pstep b q c r -> runs_in (S n) a p c r.

(** it has returned, or its next access can be made now *)
Definition returned_or_can_step {L R : Type} `{Ord L} (a : arena L) (p : prog L R) : Prop :=
  (exists x, p = Ret x) \/ exists b q, pstep a p b q.
