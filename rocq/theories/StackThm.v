(** Properties_Stack.v: C101, how deep the calls of zdd2 nest, over StackModel.v *)
From Coq Require Import List Arith Lia Bool.
From Verif Require Import Base DD Spec Zdd2Model ArenaModel ArenaProofs Zdd2Prog Zdd2ProgProofs Zdd2Thm ConcThm.
From Verif Require Import Growth2Spec StackModel StackForest.
Import ListNotations.

Lemma others_add_ext {L} `{Ord L} (a b : arena L) : AInv a -> others_add a b -> AInv b /\ ext a b.
Proof.
  intros I0 (n & -> & Hn). destruct (a_add_spec a n I0) as (I1 & E & _); [|auto].
  destruct n as [c|i l h]; [exact Logic.I|]. destruct Hn as [Hl Hh]. unfold a_get in *. split; apply nth_error_Some; assumption.
Qed.
Lemma runs_wp {L} `{Ord L} {R} (p : prog L R) (tot : bool) Q a b q : AInv a -> wp tot a p Q -> runs a p b q -> AInv b /\ ext a b /\ wp tot b q Q.
Proof.
  intros I0 Hw Hr. induction Hr as [a p|a p b q c Hr IH Ho|a p b q c r Hr IH Hs].
  - split; [exact I0|]. split; [apply ext_refl|exact Hw].
  - destruct (IH I0 Hw) as (I1 & E1 & W1). destruct (others_add_ext _ _ I1 Ho) as (I2 & E2).
    split; [exact I2|]. split; [eapply ext_trans; eauto|]. eapply wp_ext; eauto.
  - destruct (IH I0 Hw) as (I1 & E1 & W1). destruct (wp_step tot q Q b b r c I1 (ext_refl b) W1 Hs) as (I2 & E2 & W2).
    split; [exact I2|]. split; [eapply ext_trans; eauto|exact W2].
Qed.

(** C101.  The program of StackModel.v is the one of Zdd2Prog.v, with the nesting and the rounds of the loops
    counted apart. *)
Lemma C101_is_the_program_pf : forall (T : Type) (O : Ord T) (fuel : nat) (ms : list (mforest T)) (c : call T),
  s_call fuel fuel ms c = m_call fuel ms c.
Proof. intros T O fuel ms c. destruct c; reflexivity. Qed.

(** C101.  In any state a run of any number of threads can reach, an API call on forests needs no more nested
    calls of the recursive node functions than two for every different item of its operands, and three: whatever
    the number of trees and of nodes, and whatever the other threads store while it runs.  It does not panic, and
    when it returns it has the result of the call run alone. *)
Lemma C101_depth_pf : forall (T : Type) (O : Ord T) (p : pool T) (ms : list (mforest T)) (fs : list (forest T)) (c : call T),
  pool_reach p -> Forall2 (holds p) ms fs -> Forall Reach fs ->
  forall depth, call_depth fs c <= depth ->
  exists rounds, forall loops, rounds <= loops -> forall a q,
    runs (p_arena p) (s_call depth loops ms c) a q ->
    q <> OutOfFuel /\ q <> Panic /\
    (forall x, q = Ret x -> exists y, run_call fs c = Some y /\ snd x = snd y /\
       forall p', pool_reach p' -> p_arena p' = a -> Forall2 (holds p') (fst x) (fst y)).
Proof.
  intros T O p ms fs c Hp Hh R depth Hd. destruct (run_call_total c fs R) as (y & Ey & _).
  destruct (depth_call c fs y depth true R Ey (fun _ => Hd)) as (L & SL).
  exists L. intros loops Hl a q Hr. destruct (pool_reach_ok p Hp) as (I0 & _).
  destruct (runs_wp _ true _ _ _ _ I0 (SL loops (fun _ => Hl) (p_arena p) ms I0 Hh) Hr) as (I1 & _ & W).
  split; [|split].
  - intros ->. discriminate W.
  - intros ->. exact W.
  - intros x ->. exists y. split; [exact Ey|]. destruct (W a (ext_refl a) I1) as [D Eq]. split; [exact Eq|].
    intros p' _ <-. exact D.
Qed.

(** C101.  The bound does not depend on how many trees there are. *)
Lemma C101_items_only_pf : forall (T : Type) (O : Ord T) (fs gs : list (forest T)) (c d : call T),
  (forall x, In x (call_items fs c) <-> In x (call_items gs d)) -> call_depth fs c = call_depth gs d.
Proof.
  intros T O fs gs c d E. unfold call_depth.
  pose proof (once_length_incl (call_items fs c) (call_items gs d) (fun x => proj1 (E x))).
  pose proof (once_length_incl (call_items gs d) (call_items fs c) (fun x => proj2 (E x))). lia.
Qed.

Fixpoint go {L} `{Ord L} {R} (n : nat) (a : arena L) (p : prog L R) : arena L * prog L R :=
  match n with O => (a, p) | S k => match exec1 a p with Some (a', p') => go k a' p' | None => (a, p) end end.
Lemma go_runs {L} `{Ord L} {R} n : forall a0 (p0 : prog L R) a p, runs a0 p0 a p -> runs a0 p0 (fst (go n a p)) (snd (go n a p)).
Proof.
  induction n as [|n IH]; intros a0 p0 a p Hr; [exact Hr|]. cbn [go]. destruct (exec1 a p) as [(a', p')|] eqn:E; [|exact Hr].
  apply IH. eapply runs_step; [exact Hr|]. apply exec1_sound, E.
Qed.

Definition st_cs : list (call nat) := [CMany ho_id [[1; 2; 3]; [2; 4]; [3]]; CMany ho_id [[1; 4]; [2; 3]]].
Definition st_spawn : pool nat := mkP a_new [mkT 40 st_cs [] (m_script 40 st_cs [])] [].
Lemma st_spawn_reach : pool_reach st_spawn.
Proof. eapply PR_step; [apply PR_start|]. apply (S_spawn a_new [] [] 40 st_cs []). intros x []. Qed.
Definition verdict {L R} (p : prog L R) : nat := match p with Ret _ => 0 | OutOfFuel => 1 | Panic => 2 | _ => 3 end.

Definition st_ms : list (mforest nat) := match snd (go 200 a_new (m_script 40 st_cs [])) with Ret (ms, _) => ms | _ => [] end.
Definition st_fs : list (forest nat) := match run_script st_cs [] with Some y => fst y | None => [] end.
Lemma st_reached : exists p : pool nat, pool_reach p /\ Forall2 (holds p) st_ms st_fs /\ Forall Reach st_fs /\
  p_arena p = fst (go 200 a_new (m_script 40 st_cs [])).
Proof.
  destruct (sched st_spawn (repeat 0 137)) as [p|] eqn:E; [|vm_compute in E; discriminate].
  assert (Hp : pool_reach p) by (eapply sched_sound; [apply st_spawn_reach|exact E]).
  assert (X : match sched st_spawn (repeat 0 137) with
    | None => False
    | Some p => match p_threads p with
                | [t] => t_init t = [] /\ t_script t = st_cs /\ match t_prog t with Ret (ms, _) => ms = st_ms | _ => False end
                | _ => False end /\ p_arena p = fst (go 200 a_new (m_script 40 st_cs [])) end) by (vm_compute; auto).
  rewrite E in X. destruct X as (X & Xa). destruct p as [a ts d]. cbn [p_threads p_arena] in *.
  destruct ts as [|t [|t2 ts]]; [destruct X| |destruct X]. destruct X as (X1 & X2 & X3).
  destruct (pool_reach_ok _ Hp) as (I0 & Ht & _). inversion Ht as [|t' l Ht0 _]; subst t' l.
  destruct Ht0 as (fs & y & D & _ & Hr & Ry & Hw & _). rewrite X1 in D. inversion D; subst fs. rewrite X2 in Hr.
  destruct (t_prog t) as [[ms os]| | | | |]; try destruct X3.
  destruct (Hw a (ext_refl a) I0) as (Dr & _). cbn [fst snd] in Dr.
  assert (Ey : fst y = st_fs) by (unfold st_fs; rewrite Hr; reflexivity).
  exists (mkP a [t] d). split; [exact Hp|]. rewrite <- Ey. split; [exact Dr|]. split; [exact Ry|exact Xa].
Qed.

(** the union and the product of two forests over four items: allowed eleven nested calls (call_depth) they
    return; allowed three they do not *)
Example C101_example : exists (p : pool nat) ms fs, pool_reach p /\ Forall2 (holds p) ms fs /\ Forall Reach fs /\
  call_depth fs (CUnion ho_id 0 1) = 11 /\ call_depth fs (CProduct ho_id 0 1) = 11 /\
  (exists a x, runs (p_arena p) (s_call 11 40 ms (CUnion ho_id 0 1)) a (Ret x)) /\
  (exists a x, runs (p_arena p) (s_call 11 40 ms (CProduct ho_id 0 1)) a (Ret x)) /\
  (exists a, runs (p_arena p) (s_call 3 40 ms (CUnion ho_id 0 1)) a OutOfFuel) /\
  (exists a, runs (p_arena p) (s_call 3 40 ms (CProduct ho_id 0 1)) a OutOfFuel).
Proof.
  destruct st_reached as (p & Hp & Hh & R & Ea). exists p, st_ms, st_fs. rewrite Ea.
  split; [exact Hp|]. split; [exact Hh|]. split; [exact R|]. clear.
  set (a0 := fst (go 200 a_new (m_script 40 st_cs []))).
  assert (X : forall d c, verdict (snd (go 3000 a0 (s_call d 40 st_ms c))) = 0 -> exists a x, runs a0 (s_call d 40 st_ms c) a (Ret x)).
  { intros d c V. pose proof (go_runs 3000 a0 (s_call d 40 st_ms c) a0 _ (runs_now _ _)) as Hr.
    destruct (go 3000 a0 (s_call d 40 st_ms c)) as [a q]. cbn [fst snd] in *. destruct q; try discriminate V. eauto. }
  assert (Y : forall d c, verdict (snd (go 3000 a0 (s_call d 40 st_ms c))) = 1 -> exists a, runs a0 (s_call d 40 st_ms c) a OutOfFuel).
  { intros d c V. pose proof (go_runs 3000 a0 (s_call d 40 st_ms c) a0 _ (runs_now _ _)) as Hr.
    destruct (go 3000 a0 (s_call d 40 st_ms c)) as [a q]. cbn [fst snd] in *. destruct q; try discriminate V. eauto. }
  split; [vm_compute; reflexivity|]. split; [vm_compute; reflexivity|].
  split; [apply X; vm_compute; reflexivity|]. split; [apply X; vm_compute; reflexivity|].
  split; apply Y; vm_compute; reflexivity.
Qed.
