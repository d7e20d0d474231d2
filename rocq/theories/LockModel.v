(** LockModel: the lock around the node store, step by step.

    ArenaModel.v takes one access of the store ([Get], [Find], [Add]) as one atomic
    step.  Here an access is what the code does: take a guard of the [RwLock], look up
    or insert in several steps, drop the guard; steps of other threads may come between
    any two of them.  Models the uses of the three [ARENA] statics:
    weave/src/zdd2/forest/node/mod.rs L127-152 and weave/src/zdd2/forest/node/arena.rs L27-45,
    weave/src/zdd/node/mod.rs L62-81 and weave/src/zdd/node/arena.rs L27-41,
    bowtie-core/src/bdd/node/arena.rs L27-41, L49-61.  No proofs in this file. *)
From Coq Require Import List Arith Lia Bool Permutation Sorted.
From Verif Require Import Base DD ArenaModel PoolModel.
Import ListNotations.

(** [std::sync::RwLock]: how many read guards are out, whether a write guard is, and
    whether a write guard was dropped by a panicking thread.  Which of several waiting
    threads is served is left open (every enabled step may happen). *)
Record rwlock := mkLk { lk_readers : nat; lk_writer : bool; lk_poisoned : bool }.
Definition lk_new : rwlock := mkLk 0 false false.
Definition take_read (l : rwlock) : rwlock := mkLk (S (lk_readers l)) (lk_writer l) (lk_poisoned l).
Definition drop_read (l : rwlock) : rwlock := mkLk (lk_readers l - 1) (lk_writer l) (lk_poisoned l).
Definition take_write (l : rwlock) : rwlock := mkLk (lk_readers l) true (lk_poisoned l).
Definition drop_write (l : rwlock) : rwlock := mkLk (lk_readers l) false (lk_poisoned l).

(** where in an access a thread is *)
Inductive phase (L : Type) :=
| Out                              (* holds no guard *)
| RIn                              (* holds a read guard, nothing looked up *)
| RGot (o : option (gnode L))      (* read guard; [nodes.get(id)] answered *)
| RFound (o : option nat)          (* read guard; [node_index.get(node)] answered *)
| WIn                              (* holds the write guard *)
| WVacant (i : nat)                (* write guard; entry vacant, [NodeId(nodes.len())] computed *)
| WPushed (i : nat)                (* write guard; node pushed, index not yet updated *)
| WDone (i : nat).                 (* write guard; the id to return is known *)
Arguments Out {L}.
Arguments RIn {L}.
Arguments RGot {L} o.
Arguments RFound {L} o.
Arguments WIn {L}.
Arguments WVacant {L} i.
Arguments WPushed {L} i.
Arguments WDone {L} i.

(** the next step of a thread; [None]: it has finished, or waits for the lock *)
Definition l_next {L R} `{Ord L} (a : arena L) (l : rwlock) (p : prog L R) (ph : phase L)
  : option (arena L * rwlock * prog L R * phase L) :=
  match p, ph with
  (* ARENA.read().unwrap(); .unwrap() of a poisoned lock panics *)
  | Get i k, Out =>
      if lk_writer l then None else if lk_poisoned l then Some (a, l, Panic, Out) else Some (a, take_read l, p, RIn)
  | Find n k, Out =>
      if lk_writer l then None else if lk_poisoned l then Some (a, l, Panic, Out) else Some (a, take_read l, p, RIn)
  (* get_by_id, the guard dropped at the end of the expression; a missing node panics
     with a read guard, which does not poison *)
  | Get i k, RIn => Some (a, l, p, RGot (a_get a i))
  | Get i k, RGot (Some n) => Some (a, drop_read l, k n, Out)
  | Get i k, RGot None => Some (a, drop_read l, Panic, Out)
  (* get_by_node, the guard dropped at the end of the block *)
  | Find n k, RIn => Some (a, l, p, RFound (a_find a n))
  | Find n k, RFound o => Some (a, drop_read l, k o, Out)
  (* ARENA.write().unwrap() *)
  | Add n k, Out =>
      if lk_writer l || negb (lk_readers l =? 0) then None
      else if lk_poisoned l then Some (a, l, Panic, Out) else Some (a, take_write l, p, WIn)
  (* add: the entry of the index; then nodes.push; then entry.insert *)
  | Add n k, WIn =>
      match idx_get (a_index a) n with
      | Some i => Some (a, l, p, WDone i)
      | None => Some (a, l, p, WVacant (length (a_nodes a)))
      end
  | Add n k, WVacant i => Some (mkA (a_nodes a ++ [n]) (a_index a), l, p, WPushed i)
  | Add n k, WPushed i => Some (mkA (a_nodes a) ((n, i) :: a_index a), l, p, WDone i)
  | Add n k, WDone i => Some (a, drop_write l, k i, Out)
  | _, _ => None
  end.

Section Pool.
  Context {L M C B : Type} `{Ord L}.
  Variable m_call : nat -> list M -> C -> prog L (list M * B).

  (** a pool of PoolModel.v, with the lock and the phase of every thread *)
  Record fpool := mkFP {
    fp_arena : arena L;
    fp_lock : rwlock;
    fp_threads : list (gthread L M C B * phase L);
    fp_done : list M
  }.
  (** thread number [j] makes one step *)
  Inductive fmove : nat -> fpool -> fpool -> Prop :=
  | FM a l ts1 ts2 d fuel cs ms p ph a' l' p' ph' : l_next a l p ph = Some (a', l', p', ph') ->
      fmove (length ts1) (mkFP a l (ts1 ++ (mkGT fuel cs ms p, ph) :: ts2) d)
                         (mkFP a' l' (ts1 ++ (mkGT fuel cs ms p', ph') :: ts2) d).
  Inductive fpool_step : fpool -> fpool -> Prop :=
  | FS_spawn a l ts d fuel cs ms : incl ms d ->
      fpool_step (mkFP a l ts d) (mkFP a l (ts ++ [(mkGT fuel cs ms (g_script m_call fuel cs ms), Out)]) d)
  | FS_thread j f g : fmove j f g -> fpool_step f g
  | FS_share a l ts d fuel cs ms rs os ph : In (mkGT fuel cs ms (Ret (rs, os)), ph) ts ->
      fpool_step (mkFP a l ts d) (mkFP a l ts (d ++ rs)).
  Inductive fpool_reach : fpool -> Prop :=
  | FR_start : fpool_reach (mkFP a_new lk_new [] [])
  | FR_step p q : fpool_reach p -> fpool_step p q -> fpool_reach q.
End Pool.
Arguments fpool L M C B : clear implicits.
