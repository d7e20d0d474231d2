(** ConcThm: threads sharing the zdd2 node arena (C19, C20). *)
From Coq Require Import List Arith Lia Bool Permutation Sorted.
From Verif Require Import Base DD Spec Zdd2Model Zdd2Node Zdd2Node2 Zdd2Univ Zdd2Forest Zdd2Forest2 Zdd2Forest3 Zdd2Laws.
From Verif Require Import ArenaModel ArenaProofs Zdd2Prog Zdd2ProgProofs.
From Verif Require Import Zdd2Thm.
Import ListNotations.

Section Pool.
  Context {T : Type} `{Ord T}.

  Lemma reg_reach (fs : list (forest T)) i : Forall Reach fs -> Reach (reg fs i).
  Proof.
    intros Hf. unfold reg. destruct (nth_in_or_default i fs f_empty) as [I0| ->]; [|constructor].
    rewrite Forall_forall in Hf. auto.
  Qed.

  Lemma run_call_total c (fs : list (forest T)) : Forall Reach fs ->
    exists y, run_call fs c = Some y /\ Forall Reach (fst y).
  Proof.
    intros Hf.
    assert (N0 : forall o, o <> None -> (forall f, o = Some f -> Reach f) ->
              exists y, new o fs = Some y /\ Forall Reach (fst y)).
    { intros [f|] Hn Hr; [|congruence]. eexists. split; [reflexivity|]. simpl. apply Forall_app. split; auto. }
    pose proof (reg_reach fs) as Rg.
    destruct c as [|h items|h rows|h items|h i j|h i j|h i j|h i e|h i e|h i es|h i es|i|i|i|h i|i j]; cbn [run_call].
    - apply N0; [discriminate|]. intros f E. inversion E. constructor.
    - apply N0; [|apply R_unit]. rewrite unit_many. destruct (many_spec h [items]) as (r & o & -> & _). discriminate.
    - apply N0; [|apply R_many]. destruct (many_spec h rows) as (r & o & -> & _). discriminate.
    - apply N0; [|apply R_unique]. rewrite unique_many. destruct (many_spec h (map (fun x => [x]) items)) as (r & o & -> & _). discriminate.
    - apply N0; [|intros f E; eapply R_union; [| |exact E]; auto].
      destruct (f_union_spec h (reg fs i) (reg fs j) (Reach_Canon _ (Rg i Hf)) (Reach_Canon _ (Rg j Hf))) as (r & -> & _). discriminate.
    - apply N0; [|intros f E; eapply R_intersect; [| |exact E]; auto].
      destruct (f_intersect_spec h (reg fs i) (reg fs j) (Reach_Canon _ (Rg i Hf)) (Reach_Canon _ (Rg j Hf))) as (r & -> & _). discriminate.
    - apply N0; [|intros f E; eapply R_product; [| |exact E]; auto].
      destruct (f_product_spec h (reg fs i) (reg fs j) (Reach_Canon _ (Rg i Hf)) (Reach_Canon _ (Rg j Hf))) as (r & -> & _). discriminate.
    - apply N0; [|intros f E; eapply R_subset; [|exact E]; auto].
      destruct (subset_spec h (reg fs i) e (Reach_Canon _ (Rg i Hf))) as (r & -> & _). discriminate.
    - apply N0; [|intros f E; eapply R_subset_not; [|exact E]; auto].
      destruct (subset_not_spec h (reg fs i) e (Reach_Canon _ (Rg i Hf))) as (r & -> & _). discriminate.
    - apply N0; [|intros f E; eapply R_subset_all; [|exact E]; auto].
      destruct (subset_all_spec h (reg fs i) es (Reach_Canon _ (Rg i Hf))) as (r & -> & _). discriminate.
    - apply N0; [|intros f E; eapply R_subset_none; [|exact E]; auto].
      destruct (subset_none_spec h (reg fs i) es (Reach_Canon _ (Rg i Hf))) as (r & -> & _). discriminate.
    - rewrite f_trees_tl. eexists. split; [reflexivity|auto].
    - unfold f_len. rewrite node_trees_paths. eexists. split; [reflexivity|auto].
    - unfold f_is_empty. rewrite node_trees_paths. eexists. split; [reflexivity|auto].
    - eexists. split; [reflexivity|auto].
    - eexists. split; [reflexivity|auto].
  Qed.
  Lemma run_script_total cs : forall (fs : list (forest T)), Forall Reach fs ->
    exists y, run_script cs fs = Some y /\ Forall Reach (fst y).
  Proof.
    induction cs as [|c cs IH]; intros fs Hf; simpl.
    - eexists; split; [reflexivity|auto].
    - destruct (run_call_total c fs Hf) as (x & -> & Hx). cbn [bind].
      destruct (IH _ Hx) as (y & -> & Hy). cbn [bind]. eexists; split; [reflexivity|auto].
  Qed.

  (** the value a forest handle stands for in a given arena *)
  Definition holds (p : pool T) (m : mforest T) (f : forest T) : Prop := fden (p_arena p) m f.

  Definition good (F : nat) cs (fs : list (forest T)) y : Prop :=
    forall fuel tot, enough F fuel tot -> forall a ms, AInv a -> rden a ms fs ->
      wp tot a (m_script fuel cs ms) (fun a' x => sden a' x y).

  Definition thread_ok (a : arena nat) (t : thread T) : Prop :=
    exists fs y, rden a (t_init t) fs /\ Forall Reach fs /\ run_script (t_script t) fs = Some y /\ Forall Reach (fst y) /\
      wp false a (t_prog t) (fun a' x => sden a' x y) /\
      forall F, good F (t_script t) fs y -> F <= t_fuel t -> wp true a (t_prog t) (fun a' x => sden a' x y).

  Definition pool_ok (p : pool T) : Prop :=
    AInv (p_arena p) /\ Forall (thread_ok (p_arena p)) (p_threads p) /\
    Forall (fun m => exists f, Reach f /\ fden (p_arena p) m f) (p_done p).

  Lemma thread_ok_ext a a' t : ext a a' -> thread_ok a t -> thread_ok a' t.
  Proof.
    intros E (fs & y & D & R & Hr & Ry & Hw & Ht). exists fs, y.
    split; [eapply rden_ext; eauto|]. split; auto. split; auto. split; auto.
    split; [eapply (@wp_ext nat _); eauto|]. intros F HF Hle. eapply (@wp_ext nat _); eauto.
  Qed.

  Lemma pick_regs (a : arena nat) (d ms : list (mforest T)) : incl ms d ->
    Forall (fun m => exists f, Reach f /\ fden a m f) d ->
    exists fs, rden a ms fs /\ Forall Reach fs.
  Proof.
    intros I0 Hd. rewrite Forall_forall in Hd. induction ms as [|m ms IH].
    - exists []. split; constructor.
    - destruct IH as (fs & D & R); [intros x Hx; apply I0; right; auto|].
      destruct (Hd m) as (f & Rf & Df); [apply I0; left; auto|].
      exists (f :: fs). split; constructor; auto.
  Qed.

  Lemma pool_step_ok p q : pool_ok p -> pool_step p q -> pool_ok q /\ ext (p_arena p) (p_arena q).
  Proof.
    intros (I0 & Ht & Hd) Hs. inversion Hs as [a ts d fuel cs ms Hi|a ts1 ts2 d fuel cs ms pr a' pr' Hp|a ts d fuel cs ms rs os Hin];
      subst; simpl in *.
    - split; [|apply ext_refl]. split; [auto|]. split; [|auto]. apply Forall_app. split; auto. constructor; [|constructor].
      destruct (pick_regs a d ms Hi Hd) as (fs & D & R). destruct (run_script_total cs fs R) as (y & Hy & Ry).
      exists fs, y. simpl. split; auto. split; auto. split; auto. split; auto. split.
      + destruct (m_script_spec cs fs y Hy) as (F & S1). apply S1; auto. intros X; discriminate X.
      + intros F HF Hle. apply HF; auto. intros _; auto.
    - apply Forall_app in Ht. destruct Ht as [Ht1 Ht2]. inversion Ht2 as [|x l Hx Hl]; subst.
      destruct Hx as (fs & y & D & R & Hr & Ry & Hw & Htot). simpl in *.
      destruct (wp_step false pr _ a a pr' a' I0 (ext_refl a) Hw Hp) as (I1 & E1 & Hw').
      split; [|exact E1]. split; [auto|]. split.
      + apply Forall_app. split.
        * eapply Forall_impl; [|exact Ht1]. intros t. apply thread_ok_ext; auto.
        * constructor.
          { exists fs, y. simpl. split; [eapply rden_ext; eauto|]. split; auto. split; auto. split; auto. split; auto.
            intros F HF Hle. destruct (wp_step true pr _ a a pr' a' I0 (ext_refl a) (Htot F HF Hle) Hp) as (_ & _ & X). exact X. }
          { eapply Forall_impl; [|exact Hl]. intros t. apply thread_ok_ext; auto. }
      + eapply Forall_impl; [|exact Hd]. intros m (f & Rf & Df). exists f. split; auto. eapply fden_ext; eauto.
    - split; [|apply ext_refl]. split; [auto|]. split; [auto|]. apply Forall_app. split; auto.
      rewrite Forall_forall in Ht. destruct (Ht _ Hin) as (fs & y & D & R & Hr & Ry & Hw & Htot). simpl in *.
      destruct (Hw a (ext_refl a) I0) as [Dr _]. simpl in Dr. unfold rden in Dr. clear -Dr Ry.
      induction Dr as [|m f ms fs' D Dr IH]; inversion Ry; subst; constructor; eauto.
  Qed.

  Lemma pool_reach_ok p : pool_reach p -> pool_ok p.
  Proof.
    intros Hr. induction Hr as [|p q Hp IH Hs].
    - split; [apply a_new_inv|]. split; constructor.
    - eapply pool_step_ok; eauto.
  Qed.

  (** later states of an execution *)
  Inductive pool_steps : pool T -> pool T -> Prop :=
  | PS_refl p : pool_steps p p
  | PS_step p q r : pool_steps p q -> pool_step q r -> pool_steps p r.

  Lemma pool_steps_ext p q : pool_reach p -> pool_steps p q -> pool_reach q /\ ext (p_arena p) (p_arena q).
  Proof.
    intros Hp Hs. induction Hs as [p|p q r Hs IH Hq]; [split; [auto|apply ext_refl]|].
    destruct (IH Hp) as [Rq E]. destruct (pool_step_ok q r (pool_reach_ok _ Rq) Hq) as [_ E'].
    split; [econstructor; eauto|eapply ext_trans; eauto].
  Qed.
End Pool.

(** C19.  In every state of every execution of any number of threads: no node
    is stored under two ids ... *)
Lemma C19_one_id_per_node_pf : forall (T : Type) (O : Ord T) (p : pool T) i j n,
  pool_reach p -> a_get (p_arena p) i = Some n -> a_get (p_arena p) j = Some n -> i = j.
Proof. intros T O p i j n Hp. apply a_get_inj. apply pool_reach_ok; auto. Qed.

(** ... an id that yields a node yields the same node for ever ... *)
Lemma C19_ids_are_stable_pf : forall (T : Type) (O : Ord T) (p q : pool T) i n,
  pool_reach p -> pool_steps p q -> a_get (p_arena p) i = Some n -> a_get (p_arena q) i = Some n.
Proof. intros T O p q i n Hp Hs. apply ext_get. eapply pool_steps_ext; eauto. Qed.

(** ... ids 0 and 1 are the two leaves ... *)
Lemma C19_leaf_ids_pf : forall (T : Type) (O : Ord T) (p : pool T), pool_reach p ->
  a_get (p_arena p) 0 = Some (GLeaf false) /\ a_get (p_arena p) 1 = Some (GLeaf true).
Proof. intros T O p Hp. destruct (pool_reach_ok p Hp) as (I0 & _). exact (conj (inv_false _ I0) (inv_true _ I0)). Qed.

(** ... a stored branch points to stored nodes with smaller ids, so every stored
    id stands for exactly one finite diagram, and ids stand for equal diagrams
    iff they are equal. *)
Lemma C19_ids_are_diagrams_pf : forall (T : Type) (O : Ord T) (p : pool T) i j,
  pool_reach p -> i < length (a_nodes (p_arena p)) -> j < length (a_nodes (p_arena p)) ->
  exists t u, den (p_arena p) i t /\ den (p_arena p) j u /\ (t = u <-> i = j) /\
    (forall t', den (p_arena p) i t' -> t' = t) /\
    (forall l lo hi, a_get (p_arena p) i = Some (GBranch l lo hi) -> lo < i /\ hi < i).
Proof.
  intros T O p i j Hp Hi Hj. destruct (pool_reach_ok p Hp) as (I0 & _).
  destruct (den_total _ I0 i Hi) as [t Ht]. destruct (den_total _ I0 j Hj) as [u Hu]. exists t, u.
  split; auto. split; auto. split; [split|split].
  - intros ->. exact (den_inj _ _ _ _ I0 Ht Hu).
  - intros ->. exact (den_fun _ _ _ _ Ht Hu).
  - intros t' Ht'. exact (den_fun _ _ _ _ Ht' Ht).
  - intros l lo hi Hg. exact (inv_child _ I0 i _ Hg).
Qed.

(** C20.  No thread ever panics; and a thread that has finished returns exactly
    the observations, and forests holding exactly the values, that its script
    yields when run alone (on values, [run_script]) from the forests it started with. *)
Lemma C20_isolation_pf : forall (T : Type) (O : Ord T) (p : pool T) t,
  pool_reach p -> In t (p_threads p) ->
  t_prog t <> Panic /\
  forall rs os, t_prog t = Ret (rs, os) ->
    exists fs fs', Forall Reach fs /\ Forall2 (holds p) (t_init t) fs /\
      run_script (t_script t) fs = Some (fs', os) /\ Forall2 (holds p) rs fs'.
Proof.
  intros T O p t Hp Hin. destruct (pool_reach_ok p Hp) as (I0 & Ht & _).
  rewrite Forall_forall in Ht. destruct (Ht _ Hin) as (fs & y & D & R & Hr & Ry & Hw & _).
  split.
  - intros E. rewrite E in Hw. exact Hw.
  - intros rs os E. rewrite E in Hw. destruct (Hw _ (ext_refl _) I0) as [Dr Q]. simpl in Dr, Q.
    exists fs, (fst y). split; auto. split; auto. split; [|exact Dr].
    rewrite Hr. destruct y; simpl in *; congruence.
Qed.

(** Whatever the schedules, two runs of the same script from the same forests
    show the same observations. *)
Lemma C20_schedule_independent_pf : forall (T : Type) (O : Ord T) (p q : pool T) t u fs rs os rs' os',
  pool_reach p -> pool_reach q -> In t (p_threads p) -> In u (p_threads q) ->
  t_script t = t_script u ->
  Forall2 (holds p) (t_init t) fs -> Forall2 (holds q) (t_init u) fs ->
  t_prog t = Ret (rs, os) -> t_prog u = Ret (rs', os') ->
  os = os' /\ exists fs', Forall2 (holds p) rs fs' /\ Forall2 (holds q) rs' fs'.
Proof.
  intros T O p q t u fs rs os rs' os' Hp Hq Ht Hu Es Dt Du Et Eu.
  destruct (C20_isolation_pf T O p t Hp Ht) as [_ Xt]. destruct (Xt _ _ Et) as (ft & ft' & _ & D1 & R1 & D1').
  destruct (C20_isolation_pf T O q u Hq Hu) as [_ Xu]. destruct (Xu _ _ Eu) as (fu & fu' & _ & D2 & R2 & D2').
  assert (Fun : forall (p : pool T) ms fs gs, Forall2 (holds p) ms fs -> Forall2 (holds p) ms gs -> fs = gs).
  { intros p0 ms fs0 gs F1. revert gs. induction F1 as [|m f ms fs0 [Da Qa] F1 IH]; intros gs F2; inversion F2 as [|m1 y ms1 gs1 [Db Qb] F3]; subst; auto.
    f_equal; auto. destruct f as [r1 u1], y as [r2 u2]; simpl in *. f_equal; [|congruence].
    exact (den_fun _ _ _ _ Da Db). }
  rewrite <- (Fun _ _ _ _ Dt D1) in R1. rewrite <- (Fun _ _ _ _ Du D2) in R2. rewrite Es in R1. rewrite R2 in R1.
  inversion R1; subst. split; auto. exists ft'. split; auto.
Qed.

(** A thread is never stuck: it has returned, or it can take its next step in
    whatever state the others have brought the arena to (the only other case,
    [OutOfFuel], is excluded below). *)
Lemma C20_progress_pf : forall (T : Type) (O : Ord T) (p : pool T) t,
  pool_reach p -> In t (p_threads p) ->
  (exists r, t_prog t = Ret r) \/ t_prog t = OutOfFuel \/
  (exists a' k, pstep (p_arena p) (t_prog t) a' k).
Proof.
  intros T O p t Hp Hin. destruct (C20_isolation_pf T O p t Hp Hin) as [Hn _].
  destruct (t_prog t) as [r|i k|n k|n k| |] eqn:E; eauto; try congruence; right; right.
  - destruct (a_get (p_arena p) i) as [n|] eqn:Eg; eexists; eexists; [apply P_get; eauto|apply P_get_panic; eauto].
  - eexists; eexists; apply P_find.
  - eexists; eexists; apply P_add.
Qed.

(** The recursion depth a script needs depends only on the script and on the
    values it starts from, not on the schedule: no thread recurses for ever. *)
Lemma C20_bounded_recursion_pf : forall (T : Type) (O : Ord T) (cs : list (call T)) (fs : list (forest T)),
  Forall Reach fs ->
  exists F, forall (p : pool T) t, pool_reach p -> In t (p_threads p) ->
    t_script t = cs -> Forall2 (holds p) (t_init t) fs -> F <= t_fuel t -> t_prog t <> OutOfFuel.
Proof.
  intros T O cs fs Hfs. destruct (run_script_total cs fs Hfs) as (y & Hy & _).
  destruct (m_script_spec cs fs y Hy) as (F & HF). exists F.
  intros p t Hp Hin Ecs Dfs Hle. destruct (pool_reach_ok p Hp) as (I0 & Ht & _).
  rewrite Forall_forall in Ht. destruct (Ht _ Hin) as (fs2 & y2 & D & R & Hr & Ry & _ & Htot).
  assert (fs2 = fs).
  { clear -D Dfs. revert fs2 D. induction Dfs as [|m f ms fs0 [Da Qa] F1 IH]; intros gs F2; inversion F2 as [|m1 y ms1 gs1 [Db Qb] F3]; subst; auto.
    f_equal; auto. destruct f as [r1 u1], y as [r2 u2]; simpl in *. f_equal; [|congruence].
    exact (den_fun _ _ _ _ Db Da). }
  subst fs2 cs. assert (y2 = y) by congruence. subst y2.
  specialize (Htot F HF Hle). intros E. rewrite E in Htot. simpl in Htot. discriminate.
Qed.

(** and no thread takes infinitely many steps, whatever the others do between them *)
Lemma C20_finite_steps_pf : forall (L R : Type) (O : Ord L) (p : prog L R),
  Acc (fun q' q => exists a a', pstep a q a' q') p.
Proof.
  intros L R O p. induction p as [r|i k IH|n k IH|n k IH| |]; constructor; intros q (a & a' & Hs); inversion Hs; subst; auto.
  constructor. intros q' (b & b' & Hs'). inversion Hs'.
Qed.

(** An executable scheduler, for the examples. *)
Definition exec1 {L R} `{Ord L} (a : arena L) (p : prog L R) : option (arena L * prog L R) :=
  match p with
  | Get i k => match a_get a i with Some n => Some (a, k n) | None => Some (a, Panic) end
  | Find n k => Some (a, k (a_find a n))
  | Add n k => Some (fst (a_add a n), k (snd (a_add a n)))
  | _ => None
  end.
Lemma exec1_sound {L R} `{Ord L} (a : arena L) (p : prog L R) a' p' : exec1 a p = Some (a', p') -> pstep a p a' p'.
Proof.
  destruct p as [r|i k|n k|n k| |]; simpl; try discriminate.
  - destruct (a_get a i) eqn:E; intros X; inversion X; subst; constructor; auto.
  - intros X; inversion X; subst; constructor.
  - intros X; inversion X; subst; constructor.
Qed.
Definition sched1 {T} `{Ord T} (p : pool T) (i : nat) : option (pool T) :=
  match nth_error (p_threads p) i with
  | None => None
  | Some t => match exec1 (p_arena p) (t_prog t) with
              | None => None
              | Some (a', k) => Some (mkP a' (firstn i (p_threads p) ++ mkT (t_fuel t) (t_script t) (t_init t) k :: skipn (S i) (p_threads p)) (p_done p))
              end
  end.
Fixpoint sched {T} `{Ord T} (p : pool T) (l : list nat) : option (pool T) :=
  match l with [] => Some p | i :: l' => match sched1 p i with Some q => sched q l' | None => None end end.
Lemma nth_split_ {A} (l : list A) i x : nth_error l i = Some x -> l = firstn i l ++ x :: skipn (S i) l.
Proof.
  revert i; induction l as [|y l IH]; intros [|i] E; simpl in *; try discriminate.
  - inversion E. reflexivity.
  - f_equal. apply IH. auto.
Qed.
Lemma sched_sound {T} `{Ord T} l : forall (p q : pool T), pool_reach p -> sched p l = Some q -> pool_reach q.
Proof.
  induction l as [|i l IH]; intros p q Hp E; simpl in E; [congruence|].
  destruct (sched1 p i) as [p1|] eqn:E1; [|discriminate]. eapply IH; [|exact E].
  unfold sched1 in E1. destruct (nth_error (p_threads p) i) as [t|] eqn:Et; [|discriminate].
  destruct (exec1 (p_arena p) (t_prog t)) as [[a' k]|] eqn:Ex; [|discriminate]. inversion E1; subst.
  eapply PR_step; [exact Hp|]. destruct p as [a ts d]; simpl in *.
  rewrite (nth_split_ ts i t Et) at 1. destruct t as [fu cs fs pr]; simpl in *. constructor. apply exec1_sound; auto.
Qed.
Fixpoint rounds (n : nat) (l : list nat) : list nat := match n with O => [] | S k => l ++ rounds k l end.

(** Non-vacuity: two threads build the same diagram in lock step.  Both look the
    new branch up before either adds it (the race between the read and the write
    lock in [NodeId::from]); they end with the same id, and it is stored once. *)
Definition ex_script : list (call nat) := [CUnit ho_id [5; 7]; CTrees 0; CUnit ho_rev [7; 5]; CEq 0 1].
Definition ex_spawn : pool nat :=
  mkP a_new [mkT 20 ex_script [] (m_script 20 ex_script []); mkT 20 ex_script [] (m_script 20 ex_script [])] [].
Lemma ex_spawn_reach : pool_reach ex_spawn.
Proof.
  eapply PR_step; [eapply PR_step; [apply PR_start|]|].
  - apply (S_spawn a_new [] [] 20 ex_script []). intros x [].
  - apply (S_spawn a_new [mkT 20 ex_script [] (m_script 20 ex_script [])] [] 20 ex_script []). intros x [].
Qed.
Example C20_race_example : exists p : pool nat, pool_reach p /\ length (p_threads p) = 2 /\
  map (fun t => match t_prog t with Ret (r, o) => Some (map mf_root r, o) | _ => None end) (p_threads p) =
    [Some ([4; 4], [ONone; OTrees [[5; 7]]; ONone; OBool true]); Some ([4; 4], [ONone; OTrees [[5; 7]]; ONone; OBool true])] /\
  length (a_nodes (p_arena p)) = 5.
Proof.
  destruct (sched ex_spawn (rounds 42 [0; 1])) as [p|] eqn:E; [|vm_compute in E; discriminate].
  exists p. split; [eapply sched_sound; [apply ex_spawn_reach|exact E]|].
  assert (X : match sched ex_spawn (rounds 42 [0; 1]) with
    | None => False
    | Some p => length (p_threads p) = 2 /\
      map (fun t => match t_prog t with Ret (r, o) => Some (map mf_root r, o) | _ => None end) (p_threads p) =
      [Some ([4; 4], [ONone; OTrees [[5; 7]]; ONone; OBool true]); Some ([4; 4], [ONone; OTrees [[5; 7]]; ONone; OBool true])] /\
      length (a_nodes (p_arena p)) = 5 end) by (vm_compute; auto).
  rewrite E in X. exact X.
Qed.
Lemma sched_steps {T} `{Ord T} l : forall (p0 p q : pool T), pool_steps p0 p -> sched p l = Some q -> pool_steps p0 q.
Proof.
  induction l as [|i l IH]; intros p0 p q Hp E; simpl in E; [congruence|].
  destruct (sched1 p i) as [p1|] eqn:E1; [|discriminate]. eapply IH; [|exact E].
  unfold sched1 in E1. destruct (nth_error (p_threads p) i) as [t|] eqn:Et; [|discriminate].
  destruct (exec1 (p_arena p) (t_prog t)) as [[a' k]|] eqn:Ex; [|discriminate]. inversion E1; subst.
  eapply PS_step; [exact Hp|]. destruct p as [a ts d]; simpl in *.
  rewrite (nth_split_ ts i t Et) at 1. destruct t as [fu cs fs pr]; simpl in *. constructor. apply exec1_sound; auto.
Qed.
(** C19: the store of that race, reached by a run that did store new nodes *)
Example C19_example : exists p : pool nat, pool_reach p /\ pool_steps ex_spawn p /\
  length (a_nodes (p_arena ex_spawn)) = 2 /\
  a_get (p_arena p) 0 = Some (GLeaf false) /\ a_get (p_arena p) 1 = Some (GLeaf true) /\
  a_get (p_arena p) 4 <> None /\ a_get (p_arena p) 5 = None.
Proof.
  destruct (sched ex_spawn (rounds 42 [0; 1])) as [p|] eqn:E; [|vm_compute in E; discriminate].
  exists p. split; [eapply sched_sound; [apply ex_spawn_reach|exact E]|].
  split; [eapply sched_steps; [apply PS_refl|exact E]|]. split; [reflexivity|].
  assert (X : match sched ex_spawn (rounds 42 [0; 1]) with
    | None => False
    | Some p => a_get (p_arena p) 0 = Some (GLeaf false) /\ a_get (p_arena p) 1 = Some (GLeaf true) /\
        a_get (p_arena p) 4 <> None /\ a_get (p_arena p) 5 = None end)
    by (vm_compute; repeat split; discriminate).
  rewrite E in X. exact X.
Qed.
