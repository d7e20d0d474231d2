(** Properties_Lock.v: the lock around the node store (C87)
    Generated by tools/gen_props.py from LockThm.v: the property theorems, each followed by
    instances that meet its hypotheses (examples). *)
From Coq Require Import List Arith NArith Lia Bool Permutation Sorted.
From Verif Require Import Base DD Spec Zdd2Model ZddModel ParserModel BddSpec BddModel BddRun ArenaModel ArenaProofs PoolModel ZddProg BddProg.
From Verif Require Import PoolProofs ZddProgProofs BddProgProofs Conc2Thm.
From Verif Require Import Zdd2Forest3 Zdd2Prog LoadModel LoadThm LockModel LockProofs.
Import ListNotations.
From Verif Require Import LockThm.
Open Scope nat_scope.

(** C87.  The lock taken apart: every access of a store takes a guard, looks up or inserts
    in several steps, and drops the guard, and other threads may step in between.  Still,
    every execution shows only what an execution with instantaneous accesses shows ... *)
Theorem C87_atomic : forall (L M C B : Type) (O : Ord L) (m_call : nat -> list M -> C -> prog L (list M * B)) f g,
  fpool_reach m_call f -> flater m_call f g ->
  exists f' g', gpool_reach m_call f' /\ shows f f' /\ gpool_steps m_call f' g' /\ shows g g'.
Proof. exact C87_atomic_pf. Qed.
Print Assumptions C87_atomic.

(** ... and every such execution can happen. *)
Theorem C87_complete : forall (L M C B : Type) (O : Ord L) (m_call : nat -> list M -> C -> prog L (list M * B)) g,
  gpool_reach m_call g ->
  fpool_reach m_call (mkFP (gp_arena g) lk_new (map (fun t => (t, Out)) (gp_threads g)) (gp_done g)).
Proof. exact C87_complete_pf. Qed.
Print Assumptions C87_complete.

(** Never poisoned; the lock's own counts are right; a writer is alone. *)
Theorem C87_exclusion : forall (L M C B : Type) (O : Ord L) (m_call : nat -> list M -> C -> prog L (list M * B)) f,
  fpool_reach m_call f ->
  lk_poisoned (fp_lock f) = false /\
  (lk_writer (fp_lock f) = true <-> exists t ph, In (t, ph) (fp_threads f) /\ has_write ph) /\
  (lk_readers (fp_lock f) > 0 <-> exists t ph, In (t, ph) (fp_threads f) /\ has_read ph) /\
  (forall j j' t t' ph ph', j <> j' -> nth_error (fp_threads f) j = Some (t, ph) -> nth_error (fp_threads f) j' = Some (t', ph') ->
     has_write ph -> ph' = Out).
Proof. exact C87_exclusion_pf. Qed.
Print Assumptions C87_exclusion.

(** No torn reads: while a read guard is out the id map and the node list agree, and what
    the reader looked up is still what the store holds when the guard is dropped. *)
Theorem C87_no_torn_reads : forall (L M C B : Type) (O : Ord L) (m_call : nat -> list M -> C -> prog L (list M * B)) f t ph,
  fpool_reach m_call f -> In (t, ph) (fp_threads f) -> has_read ph ->
  in_step (fp_arena f) /\
  (forall o, ph = RGot o -> exists i k, gt_prog t = Get i k /\ o = a_get (fp_arena f) i) /\
  (forall o, ph = RFound o -> exists n k, gt_prog t = Find n k /\ o = a_find (fp_arena f) n).
Proof. exact C87_no_torn_reads_pf. Qed.
Print Assumptions C87_no_torn_reads.

(** Ids are stable through every single step, half-done insertions included; and whenever
    no insertion is half done the id map and the node list agree. *)
Theorem C87_ids : forall (L M C B : Type) (O : Ord L) (m_call : nat -> list M -> C -> prog L (list M * B)) f g,
  fpool_reach m_call f -> flater m_call f g ->
  (forall i n, a_get (fp_arena f) i = Some n -> a_get (fp_arena g) i = Some n) /\
  (~ half_done f -> in_step (fp_arena f)).
Proof. exact C87_ids_pf. Qed.
Print Assumptions C87_ids.

(** No deadlock, whichever waiting thread the lock serves first: a thread with a guard can
    always go on; when no guard is out every unfinished thread can go on; where nobody can
    go on, everybody is done and no guard is out.  And no schedule runs forever. *)
Theorem C87_progress : forall (L M C B : Type) (O : Ord L) (m_call : nat -> list M -> C -> prog L (list M * B)) f,
  fpool_reach m_call f ->
  (forall j t ph, nth_error (fp_threads f) j = Some (t, ph) -> has_guard ph -> exists g, fmove j f g) /\
  ((forall t ph, In (t, ph) (fp_threads f) -> ph = Out) ->
   forall j t ph, nth_error (fp_threads f) j = Some (t, ph) -> ~ over (gt_prog t) -> exists g, fmove j f g) /\
  ((forall j g, ~ fmove j f g) -> forall t ph, In (t, ph) (fp_threads f) -> ph = Out /\ over (gt_prog t)) /\
  Acc (fun h g => exists j, fmove j g h) f.
Proof. exact C87_progress_pf. Qed.
Print Assumptions C87_progress.

(** A guard is short: each step of its holder brings the drop closer, at most four steps
    after it was taken, and the steps of others do not delay it. *)
Theorem C87_short_guards : forall (L M C B : Type) (O : Ord L) (f g : fpool L M C B) i j t ph,
  fmove i f g -> nth_error (fp_threads f) j = Some (t, ph) ->
  (i <> j -> nth_error (fp_threads g) j = Some (t, ph)) /\
  (i = j -> exists t' ph', nth_error (fp_threads g) j = Some (t', ph') /\
     (has_guard ph -> steps_left ph' < steps_left ph)).
Proof. exact C87_short_guards_pf. Qed.
Print Assumptions C87_short_guards.

(** What this means for the three libraries: a thread that has finished, in whatever
    interleaving of the single steps, shows exactly what its script yields run alone;
    zdd and bowtie threads never panic on their store, ... *)
Theorem C87_zdd_isolation : forall (T : Type) (O : Ord T) (f : fpool nat (mztree T) (zcall T) (zobs T)) t ph,
  fpool_reach m_zcall f -> In (t, ph) (fp_threads f) ->
  gt_prog t <> Panic /\
  forall rs os, gt_prog t = Ret (rs, os) ->
    exists vs vs', Forall2 (zholds (fview f)) (gt_init t) vs /\
      v_script z_call (gt_script t) vs = Some (vs', os) /\ Forall2 (zholds (fview f)) rs vs'.
Proof. exact C87_zdd_isolation_pf. Qed.
Print Assumptions C87_zdd_isolation.

Theorem C87_bowtie_isolation : forall (I F : Type) (OI : Ord I) (OF : Ord F) (f : fpool I (mval I F) (bdcall I F) (bobs I F)) t ph,
  fpool_reach m_bcall f -> In (t, ph) (fp_threads f) ->
  gt_prog t <> Panic /\
  forall rs os, gt_prog t = Ret (rs, os) ->
    exists vs vs', Forall2 (bholds (fview f)) (gt_init t) vs /\
      v_script b_vcall (gt_script t) vs = Some (vs', os) /\ Forall2 (bholds (fview f)) rs vs'.
Proof. exact C87_bowtie_isolation_pf. Qed.
Print Assumptions C87_bowtie_isolation.

(** ... and a zdd2 thread, loading any data, panics only where it would panic alone. *)
Theorem C87_zdd2_isolation : forall (T : Type) (O : Ord T) (f : fpool nat (mforest T) (lcall T) (lobs T)) t ph,
  fpool_reach m_lcall f -> In (t, ph) (fp_threads f) ->
  (gt_prog t = Panic -> exists fs, Forall2 (lholds (fview f)) (gt_init t) fs /\ v_script l_call (gt_script t) fs = None) /\
  (forall rs os, gt_prog t = Ret (rs, os) ->
     exists fs fs', Forall2 (lholds (fview f)) (gt_init t) fs /\
       v_script l_call (gt_script t) fs = Some (fs', os) /\ Forall2 (lholds (fview f)) rs fs').
Proof. exact C87_zdd2_isolation_pf. Qed.
Print Assumptions C87_zdd2_isolation.

(** two threads on one store: after three steps the first has pushed its node and not yet
    updated the id map, and the other cannot step; let to run on in turns, both finish *)
Example C87_example : exists f g : fpool nat (mztree nat) (zcall nat) (zobs nat),
  fpool_reach m_zcall f /\ half_done f /\ ~ in_step (fp_arena f) /\ map (fun t => match snd t with Out => 0 | WPushed i => i | _ => 1 end) (fp_threads f) = [2; 0] /\
  fpool_reach m_zcall g /\
  map (fun t => match gt_prog (fst t) with Ret (r, o) => Some (map mz_root r, o) | _ => None end) (fp_threads g) =
    [Some ([2; 4; 6; 6], [ZONone; ZONone; ZONone; ZOSets [[5]; [5; 7]]; ZONone; ZOBool true]);
     Some ([2; 4; 6; 6], [ZONone; ZONone; ZONone; ZOSets [[5]; [5; 7]]; ZONone; ZOBool true])].
Proof. exact LockThm.C87_example. Qed.
