(** PoolModel: threads that share one node arena, for any client language.

    [m_call fuel ms c] is the program of the call [c] on the handles [ms]; it
    returns the handles after the call and what the call shows.  The lock
    discipline (one critical section per [Get]/[Find]/[Add]) is that of
    ArenaModel.v.  Used for weave/src/zdd (ZddProg.v) and bowtie-core/src/bdd
    (BddProg.v); the zdd2 pool of Zdd2Prog.v is the same with its own calls.
    No proofs in this file. *)
From Coq Require Import List Arith Lia Bool Permutation Sorted.
From Verif Require Import Base DD ArenaModel.
Import ListNotations.

Section Pool.
  Context {L M C B : Type} `{Ord L}.
  Variable m_call : nat -> list M -> C -> prog L (list M * B).

  (** a thread: a straight-line script of calls *)
  Fixpoint g_script (fuel : nat) (cs : list C) (ms : list M) : prog L (list M * list B) :=
    match cs with
    | [] => Ret (ms, [])
    | c :: cs' =>
        do x <- m_call fuel ms c ;
        do y <- g_script fuel cs' (fst x) ;
        Ret (fst y, snd x :: snd y)
    end.

  Record gthread := mkGT {
    gt_fuel : nat;
    gt_script : list C;
    gt_init : list M;
    gt_prog : prog L (list M * list B)
  }.
  (** [gp_done]: handles some thread has finished computing; a new thread may
      start from any of them *)
  Record gpool := mkGP { gp_arena : arena L; gp_threads : list gthread; gp_done : list M }.

  Inductive gpool_step : gpool -> gpool -> Prop :=
  | GS_spawn a ts d fuel cs ms : incl ms d ->
      gpool_step (mkGP a ts d) (mkGP a (ts ++ [mkGT fuel cs ms (g_script fuel cs ms)]) d)
  | GS_thread a ts1 ts2 d fuel cs ms p a' p' : pstep a p a' p' ->
      gpool_step (mkGP a (ts1 ++ mkGT fuel cs ms p :: ts2) d)
                 (mkGP a' (ts1 ++ mkGT fuel cs ms p' :: ts2) d)
  | GS_share a ts d fuel cs ms rs os : In (mkGT fuel cs ms (Ret (rs, os))) ts ->
      gpool_step (mkGP a ts d) (mkGP a ts (d ++ rs)).

  Inductive gpool_reach : gpool -> Prop :=
  | GR_start : gpool_reach (mkGP a_new [] [])
  | GR_step p q : gpool_reach p -> gpool_step p q -> gpool_reach q.

  (** later states of an execution *)
  Inductive gpool_steps : gpool -> gpool -> Prop :=
  | GSS_refl p : gpool_steps p p
  | GSS_step p q r : gpool_steps p q -> gpool_step q r -> gpool_steps p r.
End Pool.
Arguments gthread L M C B : clear implicits.
Arguments gpool L M C B : clear implicits.

(** scripts on values: what the thread computes when it runs alone *)
Fixpoint v_script {V C B} (v_call : list V -> C -> option (list V * B)) (cs : list C) (vs : list V)
  : option (list V * list B) :=
  match cs with
  | [] => Some (vs, [])
  | c :: cs' =>
      let! x := v_call vs c in
      let! y := v_script v_call cs' (fst x) in
      Some (fst y, snd x :: snd y)
  end.
