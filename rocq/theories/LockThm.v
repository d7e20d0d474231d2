(** LockThm: the lock around the node store (C87). *)
From Coq Require Import List Arith NArith Lia Bool Permutation Sorted.
From Verif Require Import Base DD Spec Zdd2Model ZddModel ParserModel BddSpec BddModel BddRun ArenaModel ArenaProofs PoolModel ZddProg BddProg.
From Verif Require Import PoolProofs ZddProgProofs BddProgProofs Conc2Thm.
From Verif Require Import Zdd2Forest3 Zdd2Prog LoadModel LoadThm LockModel LockProofs.
Import ListNotations.
Open Scope nat_scope.

(** ** specification *)
(** later states of a fine-grained execution *)
Inductive flater {L M C B} `{Ord L} (m_call : nat -> list M -> C -> prog L (list M * B)) : fpool L M C B -> fpool L M C B -> Prop :=
| FL_refl f : flater m_call f f
| FL_step f g h : flater m_call f g -> fpool_step m_call g h -> flater m_call f h.
(** the phases in which a thread holds a read guard, the write guard, any guard *)
Definition has_read {L} (ph : phase L) : Prop :=
  match ph with RIn | RGot _ | RFound _ => True | _ => False end.
Definition has_write {L} (ph : phase L) : Prop :=
  match ph with WIn | WVacant _ | WPushed _ | WDone _ => True | _ => False end.
Definition has_guard {L} (ph : phase L) : Prop := ph <> Out.
(** how many more steps the thread makes before it drops its guard, at most *)
Definition steps_left {L} (ph : phase L) : nat :=
  match ph with
  | Out => 0
  | RIn => 2 | RGot _ => 1 | RFound _ => 1
  | WIn => 4 | WVacant _ => 3 | WPushed _ => 2 | WDone _ => 1
  end.
(** the store is between [nodes.push] and [entry.insert] *)
Definition half_done {L M C B} (f : fpool L M C B) : Prop :=
  exists t i, In (t, WPushed i) (fp_threads f).
(** [g], a state with instantaneous accesses, shows what [f] shows: the same threads,
    those outside an access at the same point of their program, the same shared handles,
    and the same store unless an insertion is half done *)
Definition shows {L M C B} (f : fpool L M C B) (g : gpool L M C B) : Prop :=
  Forall2 (fun t u => gt_fuel u = gt_fuel (fst t) /\ gt_script u = gt_script (fst t) /\ gt_init u = gt_init (fst t) /\
                      (snd t = Out -> gt_prog u = gt_prog (fst t))) (fp_threads f) (gp_threads g) /\
  gp_done g = fp_done f /\
  (~ half_done f -> gp_arena g = fp_arena f) /\
  ext (gp_arena g) (fp_arena f).
(** the id map and the node list say the same *)
Definition in_step {L} `{Ord L} (a : arena L) : Prop :=
  forall n i, idx_get (a_index a) n = Some i <-> nth_error (a_nodes a) i = Some n.
(** a thread with nothing left to do *)
Definition over {L R} (p : prog L R) : Prop := match p with Ret _ | Panic | OutOfFuel => True | _ => False end.
(** what is in the store now, as a state of PoolModel.v *)
Definition fview {L M C B} (f : fpool L M C B) : gpool L M C B :=
  mkGP (fp_arena f) (map fst (fp_threads f)) (fp_done f).

(** ** proofs *)
Section Generic.
  Context {L M C B : Type} `{Ord L}.
  Variable m_call : nat -> list M -> C -> prog L (list M * B).
  Notation fp := (fpool L M C B).

  Lemma removelast_app_ext (xs : list (gnode L)) : exists s, xs = removelast xs ++ s.
  Proof.
    destruct xs as [|x xs]; [exists []; reflexivity|].
    exists [last (x :: xs) x]. apply app_removelast_last. discriminate.
  Qed.
  Lemma abs_shows (f : fp) : shows f (abs f).
  Proof.
    unfold shows, abs. simpl. repeat split.
    - induction (fp_threads f) as [|t ts IH]; simpl; constructor; auto.
      repeat split. unfold abs_thread. simpl. intros ->. reflexivity.
    - intros Nh. unfold abs_arena.
      destruct (existsb (fun t : gthread L M C B * phase L => midway (snd t)) (fp_threads f)) eqn:X; auto.
      exfalso. apply Nh. apply existsb_exists in X. destruct X as ([t ph] & Ht & Hm). simpl in Hm.
      destruct ph; simpl in Hm; try discriminate. exists t, i. exact Ht.
    - unfold abs_arena. destruct (existsb _ _); [|apply ext_refl].
      destruct (removelast_app_ext (a_nodes (fp_arena f))) as [s E]. exists s. exact E.
  Qed.

  Lemma flater_reach f g : fpool_reach m_call f -> flater m_call f g -> fpool_reach m_call g.
  Proof. intros R X. induction X as [|f g h X IH S]; auto. exact (FR_step m_call _ _ (IH R) S). Qed.

  Lemma C87_gen_atomic f g : fpool_reach m_call f -> flater m_call f g ->
    exists f' g', gpool_reach m_call f' /\ shows f f' /\ gpool_steps m_call f' g' /\ shows g g'.
  Proof.
    intros R X. exists (abs f), (abs g). split; [apply fine_is_atomic; exact R|]. split; [apply abs_shows|]. split; [|apply abs_shows].
    revert R. induction X as [f|f g h X IH S]; intros R; [constructor|].
    specialize (IH R). pose proof (flater_reach _ _ R X) as Rg.
    destruct (fine_is_atomic m_call g Rg) as [Ig _].
    destruct (step_refines m_call g h Ig S) as [_ [E|S']].
    - rewrite E. exact IH.
    - econstructor; eauto.
  Qed.

  Lemma C87_gen_complete g : gpool_reach m_call g ->
    fpool_reach m_call (mkFP (gp_arena g) lk_new (map (fun t => (t, Out)) (gp_threads g)) (gp_done g)).
  Proof. apply atomic_is_fine. Qed.

  Lemma has_read_b (ph : phase L) : has_read ph <-> reading ph = true.
  Proof. destruct ph; simpl; split; intros; try discriminate; try contradiction; auto. Qed.
  Lemma has_write_b (ph : phase L) : has_write ph <-> writing ph = true.
  Proof. destruct ph; simpl; split; intros; try discriminate; try contradiction; auto. Qed.
  Lemma has_guard_b (ph : phase L) : has_guard ph <-> holding ph = true.
  Proof. unfold has_guard. destruct ph; simpl; split; intros; try reflexivity; try discriminate; exfalso; auto. Qed.

  Lemma cnt_two (ff : phase L -> bool) (ts : list (gthread L M C B * phase L)) j j' t t' : j <> j' ->
    nth_error ts j = Some t -> nth_error ts j' = Some t' -> ff (snd t) = true -> ff (snd t') = true -> 2 <= cnt ff ts.
  Proof.
    revert j j'. induction ts as [|x ts IH]; intros j j' N E E' F F'; [destruct j; discriminate|].
    rewrite cnt_cons. destruct j as [|j], j' as [|j']; simpl in E, E'; try congruence.
    - injection E as ->. rewrite F. assert (1 <= cnt ff ts); [|lia].
      destruct (cnt ff ts) eqn:Z; [|lia]. rewrite (cnt_zero _ _ Z t' (nth_error_In _ _ E')) in F'. discriminate.
    - injection E' as ->. rewrite F'. assert (1 <= cnt ff ts); [|lia].
      destruct (cnt ff ts) eqn:Z; [|lia]. rewrite (cnt_zero _ _ Z t (nth_error_In _ _ E)) in F. discriminate.
    - assert (j <> j') by congruence. pose proof (IH j j' H0 E E' F F'). lia.
  Qed.
  Lemma cnt_one (ff : phase L -> bool) (ts : list (gthread L M C B * phase L)) : 1 <= cnt ff ts <-> exists t, In t ts /\ ff (snd t) = true.
  Proof.
    split.
    - intros G. unfold cnt in G. destruct (filter (fun t => ff (snd t)) ts) as [|u us] eqn:E; [simpl in G; lia|].
      exists u. apply (proj1 (filter_In (fun t : gthread L M C B * phase L => ff (snd t)) u ts)). rewrite E. left. reflexivity.
    - intros (t & Ht & F). destruct (cnt ff ts) eqn:Z; [|lia]. rewrite (cnt_zero _ _ Z t Ht) in F. discriminate.
  Qed.

  Lemma C87_gen_exclusion (f : fp) : fpool_reach m_call f ->
    lk_poisoned (fp_lock f) = false /\
    (lk_writer (fp_lock f) = true <-> exists t ph, In (t, ph) (fp_threads f) /\ has_write ph) /\
    (lk_readers (fp_lock f) > 0 <-> exists t ph, In (t, ph) (fp_threads f) /\ has_read ph) /\
    (forall j j' t t' ph ph', j <> j' -> nth_error (fp_threads f) j = Some (t, ph) -> nth_error (fp_threads f) j' = Some (t', ph') ->
       has_write ph -> ph' = Out).
  Proof.
    intros R. destruct (fine_is_atomic m_call f R) as [[IR IW IE IP IT] _]. split; [exact IP|]. split; [|split].
    - transitivity (1 <= cnt writing (fp_threads f)); [destruct (lk_writer (fp_lock f)); split; intros; auto; try lia; discriminate|].
      rewrite cnt_one. split; [intros ([t ph] & Ht & F)|intros (t & ph & Ht & F)].
      + exists t, ph. split; auto. apply has_write_b. exact F.
      + exists (t, ph). split; auto. apply has_write_b. exact F.
    - transitivity (1 <= cnt reading (fp_threads f)); [lia|].
      rewrite cnt_one. split; [intros ([t ph] & Ht & F)|intros (t & ph & Ht & F)].
      + exists t, ph. split; auto. apply has_read_b. exact F.
      + exists (t, ph). split; auto. apply has_read_b. exact F.
    - intros j j' t t' ph ph' N E E' W. apply has_write_b in W.
      destruct (holding ph') eqn:Hh.
      + exfalso. unfold holding in Hh. apply orb_prop in Hh. destruct Hh as [Hh|Hh].
        * assert (A : 1 <= cnt reading (fp_threads f)) by (apply cnt_one; exists (t', ph'); split; [eapply nth_error_In; eauto|exact Hh]).
          assert (A' : 1 <= cnt writing (fp_threads f)) by (apply cnt_one; exists (t, ph); split; [eapply nth_error_In; eauto|exact W]).
          lia.
        * pose proof (cnt_two writing _ _ _ _ _ N E E' W Hh) as A. destruct (lk_writer (fp_lock f)); lia.
      + destruct ph'; simpl in Hh; try discriminate. reflexivity.
  Qed.

  Lemma add_in_step (a : arena L) n : in_step a -> in_step (fst (a_add a n)).
  Proof.
    intros I0. unfold a_add. destruct (idx_get (a_index a) n) as [i|] eqn:E; simpl; auto.
    intros m j. simpl. destruct (gnode_eqb_spec m n) as [Em|Nm].
    - split.
      + intros X. injection X as <-. rewrite nth_error_app2, Nat.sub_diag by lia. simpl. congruence.
      + intros X. destruct (Nat.lt_ge_cases j (length (a_nodes a))) as [G|G].
        * rewrite nth_error_app1 in X by lia. apply I0 in X. congruence.
        * rewrite nth_error_app2 in X by lia. destruct (j - length (a_nodes a)) as [|[|?]] eqn:Z; simpl in X; try discriminate. f_equal. lia.
    - rewrite (I0 m j). split.
      + intros X. rewrite nth_error_app1; auto. apply nth_error_Some. congruence.
      + intros X. destruct (Nat.lt_ge_cases j (length (a_nodes a))) as [G|G].
        * rewrite nth_error_app1 in X by lia. exact X.
        * rewrite nth_error_app2 in X by lia. destruct (j - length (a_nodes a)) as [|[|?]] eqn:Z; simpl in X; try discriminate. congruence.
  Qed.
  Lemma gpool_in_step g : gpool_reach m_call g -> in_step (gp_arena g).
  Proof.
    induction 1 as [|p q R IH S].
    - exact (inv_index _ a_new_inv).
    - inversion S; subst; simpl in *; auto.
      match goal with X : pstep _ _ _ _ |- _ => inversion X; subst; auto end. apply add_in_step. exact IH.
  Qed.

  Lemma C87_gen_reads (f : fp) t ph : fpool_reach m_call f -> In (t, ph) (fp_threads f) -> has_read ph ->
    in_step (fp_arena f) /\
    (forall o, ph = RGot o -> exists i k, gt_prog t = Get i k /\ o = a_get (fp_arena f) i) /\
    (forall o, ph = RFound o -> exists n k, gt_prog t = Find n k /\ o = a_find (fp_arena f) n).
  Proof.
    intros R Ht Hr. destruct (fine_is_atomic m_call f R) as [I0 G]. split; [|split].
    - pose proof (gpool_in_step _ G) as S. destruct (abs_shows f) as (_ & _ & E & _). rewrite <- E; auto.
      intros (t' & i & Ht'). apply has_read_b in Hr.
      assert (A : 1 <= cnt reading (fp_threads f)) by (apply cnt_one; exists (t, ph); auto).
      assert (A' : 1 <= cnt writing (fp_threads f)) by (apply cnt_one; exists (t', WPushed i); auto).
      pose proof (fi_excl _ I0). lia.
    - intros o ->. exact (fi_tok _ I0 _ Ht).
    - intros o ->. exact (fi_tok _ I0 _ Ht).
  Qed.
  Lemma C87_gen_quiet (f : fp) : fpool_reach m_call f -> ~ half_done f -> in_step (fp_arena f).
  Proof.
    intros R Nh. destruct (fine_is_atomic m_call f R) as [I0 G].
    pose proof (gpool_in_step _ G) as S. destruct (abs_shows f) as (_ & _ & E & _). rewrite <- E; auto.
  Qed.

  (** the store only ever grows, step by step *)
  Lemma lstep_ext {R} a l (p : prog L R) ph a' l' p' ph' : lstep a l p ph a' l' p' ph' -> ext a a'.
  Proof. intros X. inversion X; subst; try apply ext_refl. - exists [n]. reflexivity. - exists []. simpl. rewrite app_nil_r. reflexivity. Qed.
  Lemma C87_gen_ids f g : flater m_call f g -> forall i n, a_get (fp_arena f) i = Some n -> a_get (fp_arena g) i = Some n.
  Proof.
    intros X i n E. induction X as [|f g h X IH S]; auto. specialize (IH E).
    inversion S; subst; simpl in *; auto.
    match goal with Y : fmove _ _ _ |- _ => destruct Y end. simpl in *. eapply ext_get; [eapply lstep_ext; eapply lstep_next; eauto|exact IH].
  Qed.

  Lemma C87_gen_progress (f : fp) : fpool_reach m_call f ->
    (forall j t ph, nth_error (fp_threads f) j = Some (t, ph) -> has_guard ph -> exists g, fmove j f g) /\
    ((forall t ph, In (t, ph) (fp_threads f) -> ph = Out) ->
     forall j t ph, nth_error (fp_threads f) j = Some (t, ph) -> ~ over (gt_prog t) -> exists g, fmove j f g) /\
    ((forall j g, ~ fmove j f g) -> forall t ph, In (t, ph) (fp_threads f) -> ph = Out /\ over (gt_prog t)).
  Proof.
    intros R. destruct (fine_is_atomic m_call f R) as [I0 _]. split; [|split].
    - intros j t ph E Hg. eapply holder_moves; eauto. apply has_guard_b. exact Hg.
    - intros Fr j t ph E No. eapply free_moves; eauto.
      + intros [u ph'] Hu. simpl. rewrite (Fr u ph' Hu). reflexivity.
    - intros St t ph Ht. split.
      + destruct (holding ph) eqn:Hh; [|destruct ph; simpl in Hh; try discriminate; reflexivity].
        exfalso. apply In_nth_error in Ht. destruct Ht as (j & E).
        destruct (holder_moves f j _ I0 E Hh) as (g & Mv). exact (St j g Mv).
      + assert (D : over (gt_prog t) \/ ~ over (gt_prog t)) by (destruct (gt_prog t); simpl; auto).
        destruct D as [D|D]; auto. exfalso.
        destruct (some_moves f I0) as (j & g & Mv); [exists (t, ph); split; auto|]. exact (St j g Mv).
  Qed.
  Lemma C87_gen_finite (f : fp) : Acc (fun g f => exists j, fmove j f g) f.
  Proof. apply fmove_acc. Qed.
  Lemma C87_gen_holder (f g : fp) i j t ph : fmove i f g -> nth_error (fp_threads f) j = Some (t, ph) ->
    (i <> j -> nth_error (fp_threads g) j = Some (t, ph)) /\
    (i = j -> exists t' ph', nth_error (fp_threads g) j = Some (t', ph') /\
       (has_guard ph -> steps_left ph' < steps_left ph)).
  Proof.
    intros X E. destruct X as [a l ts1 ts2 d fuel cs ms p ph0 a' l' p' ph' X]. simpl in *. split.
    - intros N. destruct (Nat.lt_ge_cases j (length ts1)) as [G|G].
      + rewrite nth_error_app1 in * by lia. exact E.
      + rewrite nth_error_app2 in * by lia. destruct (j - length ts1) eqn:Z; [lia|]. exact E.
    - intros <-. rewrite nth_error_app2, Nat.sub_diag in * by lia. simpl in *. injection E as <- <-. apply lstep_next in X.
      eexists; eexists; split; [reflexivity|]. intros Hg.
      inversion X; subst; simpl; try lia; exfalso; apply Hg; reflexivity.
  Qed.

  (** what a thread shows, transferred *)
  Lemma shown f t ph : fpool_reach m_call f -> In (t, ph) (fp_threads f) -> over (gt_prog t) ->
    exists g, gpool_reach m_call g /\ In t (gp_threads g) /\ ext (gp_arena g) (fp_arena f) /\ gp_done g = fp_done f.
  Proof.
    intros R Ht Ov. destruct (fine_is_atomic m_call f R) as [I0 G]. exists (abs f). split; auto.
    destruct (abs_shows f) as (_ & D & _ & X). split; [|split]; auto.
    apply (in_map abs_thread) in Ht. unfold abs. simpl.
    assert (E : abs_thread (t, ph) = t); [|rewrite E in Ht; exact Ht].
    destruct t as [fuel cs ms p]. unfold abs_thread. simpl in *.
    destruct ph as [| |[?|]| | | | |]; destruct p; simpl in *; try contradiction; reflexivity.
  Qed.
End Generic.

(** ** C87 *)
(** C87.  The lock taken apart: every access of a store takes a guard, looks up or inserts
    in several steps, and drops the guard, and other threads may step in between.  Still,
    every execution shows only what an execution with instantaneous accesses shows ... *)
Lemma C87_atomic_pf : forall (L M C B : Type) (O : Ord L) (m_call : nat -> list M -> C -> prog L (list M * B)) f g,
  fpool_reach m_call f -> flater m_call f g ->
  exists f' g', gpool_reach m_call f' /\ shows f f' /\ gpool_steps m_call f' g' /\ shows g g'.
Proof. intros. apply C87_gen_atomic; assumption. Qed.

(** ... and every such execution can happen. *)
Lemma C87_complete_pf : forall (L M C B : Type) (O : Ord L) (m_call : nat -> list M -> C -> prog L (list M * B)) g,
  gpool_reach m_call g ->
  fpool_reach m_call (mkFP (gp_arena g) lk_new (map (fun t => (t, Out)) (gp_threads g)) (gp_done g)).
Proof. intros. apply C87_gen_complete; assumption. Qed.

(** Never poisoned; the lock's own counts are right; a writer is alone. *)
Lemma C87_exclusion_pf : forall (L M C B : Type) (O : Ord L) (m_call : nat -> list M -> C -> prog L (list M * B)) f,
  fpool_reach m_call f ->
  lk_poisoned (fp_lock f) = false /\
  (lk_writer (fp_lock f) = true <-> exists t ph, In (t, ph) (fp_threads f) /\ has_write ph) /\
  (lk_readers (fp_lock f) > 0 <-> exists t ph, In (t, ph) (fp_threads f) /\ has_read ph) /\
  (forall j j' t t' ph ph', j <> j' -> nth_error (fp_threads f) j = Some (t, ph) -> nth_error (fp_threads f) j' = Some (t', ph') ->
     has_write ph -> ph' = Out).
Proof. intros. eapply C87_gen_exclusion; eauto. Qed.

(** No torn reads: while a read guard is out the id map and the node list agree, and what
    the reader looked up is still what the store holds when the guard is dropped. *)
Lemma C87_no_torn_reads_pf : forall (L M C B : Type) (O : Ord L) (m_call : nat -> list M -> C -> prog L (list M * B)) f t ph,
  fpool_reach m_call f -> In (t, ph) (fp_threads f) -> has_read ph ->
  in_step (fp_arena f) /\
  (forall o, ph = RGot o -> exists i k, gt_prog t = Get i k /\ o = a_get (fp_arena f) i) /\
  (forall o, ph = RFound o -> exists n k, gt_prog t = Find n k /\ o = a_find (fp_arena f) n).
Proof. intros. eapply C87_gen_reads; eauto. Qed.

(** Ids are stable through every single step, half-done insertions included; and whenever
    no insertion is half done the id map and the node list agree. *)
Lemma C87_ids_pf : forall (L M C B : Type) (O : Ord L) (m_call : nat -> list M -> C -> prog L (list M * B)) f g,
  fpool_reach m_call f -> flater m_call f g ->
  (forall i n, a_get (fp_arena f) i = Some n -> a_get (fp_arena g) i = Some n) /\
  (~ half_done f -> in_step (fp_arena f)).
Proof. intros L M C B O m_call f g R X. split; [exact (C87_gen_ids m_call f g X)|exact (C87_gen_quiet m_call f R)]. Qed.

(** No deadlock, whichever waiting thread the lock serves first: a thread with a guard can
    always go on; when no guard is out every unfinished thread can go on; where nobody can
    go on, everybody is done and no guard is out.  And no schedule runs forever. *)
Lemma C87_progress_pf : forall (L M C B : Type) (O : Ord L) (m_call : nat -> list M -> C -> prog L (list M * B)) f,
  fpool_reach m_call f ->
  (forall j t ph, nth_error (fp_threads f) j = Some (t, ph) -> has_guard ph -> exists g, fmove j f g) /\
  ((forall t ph, In (t, ph) (fp_threads f) -> ph = Out) ->
   forall j t ph, nth_error (fp_threads f) j = Some (t, ph) -> ~ over (gt_prog t) -> exists g, fmove j f g) /\
  ((forall j g, ~ fmove j f g) -> forall t ph, In (t, ph) (fp_threads f) -> ph = Out /\ over (gt_prog t)) /\
  Acc (fun h g => exists j, fmove j g h) f.
Proof.
  intros L M C B O m_call f R. destruct (C87_gen_progress m_call f R) as (A & A2 & A3). split; [exact A|]. split; [exact A2|]. split; [exact A3|]. apply C87_gen_finite.
Qed.

(** A guard is short: each step of its holder brings the drop closer, at most four steps
    after it was taken, and the steps of others do not delay it. *)
Lemma C87_short_guards_pf : forall (L M C B : Type) (O : Ord L) (f g : fpool L M C B) i j t ph,
  fmove i f g -> nth_error (fp_threads f) j = Some (t, ph) ->
  (i <> j -> nth_error (fp_threads g) j = Some (t, ph)) /\
  (i = j -> exists t' ph', nth_error (fp_threads g) j = Some (t', ph') /\
     (has_guard ph -> steps_left ph' < steps_left ph)).
Proof. intros L M C B O f g i j t ph X E. exact (C87_gen_holder f g i j t ph X E). Qed.

(** What this means for the three libraries: a thread that has finished, in whatever
    interleaving of the single steps, shows exactly what its script yields run alone;
    zdd and bowtie threads never panic on their store, ... *)
Lemma C87_zdd_isolation_pf : forall (T : Type) (O : Ord T) (f : fpool nat (mztree T) (zcall T) (zobs T)) t ph,
  fpool_reach m_zcall f -> In (t, ph) (fp_threads f) ->
  gt_prog t <> Panic /\
  forall rs os, gt_prog t = Ret (rs, os) ->
    exists vs vs', Forall2 (zholds (fview f)) (gt_init t) vs /\
      v_script z_call (gt_script t) vs = Some (vs', os) /\ Forall2 (zholds (fview f)) rs vs'.
Proof.
  intros T O f t ph R Ht.
  assert (Up : forall g : zpool T, ext (gp_arena g) (fp_arena f) -> forall ms vs, Forall2 (zholds g) ms vs -> Forall2 (zholds (fview f)) ms vs).
  { intros g X ms vs D. induction D as [|m v ms vs [D1 D2] D IH]; constructor; auto. split; auto. simpl. eapply den_ext; eauto. }
  split.
  - intros E. destruct (shown m_zcall f t ph R Ht) as (g & Rg & Hg & _); [rewrite E; exact I|].
    exact (proj1 (C59_zdd_isolation_pf T O g t Rg Hg) E).
  - intros rs os E. destruct (shown m_zcall f t ph R Ht) as (g & Rg & Hg & X & _); [rewrite E; exact I|].
    destruct (proj2 (C59_zdd_isolation_pf T O g t Rg Hg) rs os E) as (vs & vs' & D & V & D').
    exists vs, vs'. split; [exact (Up g X _ _ D)|]. split; auto. exact (Up g X _ _ D').
Qed.

Lemma C87_bowtie_isolation_pf : forall (I F : Type) (OI : Ord I) (OF : Ord F) (f : fpool I (mval I F) (bdcall I F) (bobs I F)) t ph,
  fpool_reach m_bcall f -> In (t, ph) (fp_threads f) ->
  gt_prog t <> Panic /\
  forall rs os, gt_prog t = Ret (rs, os) ->
    exists vs vs', Forall2 (bholds (fview f)) (gt_init t) vs /\
      v_script b_vcall (gt_script t) vs = Some (vs', os) /\ Forall2 (bholds (fview f)) rs vs'.
Proof.
  intros I F OI OF f t ph R Ht.
  assert (Up : forall g : bpool I F, ext (gp_arena g) (fp_arena f) -> forall ms vs, Forall2 (bholds g) ms vs -> Forall2 (bholds (fview f)) ms vs).
  { intros g X ms vs D. induction D as [|m v ms vs D1 D IH]; constructor; auto.
    destruct m, v; simpl in *; auto; try (eapply nden_ext; eauto).
    destruct D1 as (D1 & D2 & D3). split; [|split]; auto. eapply nden_ext; eauto. }
  split.
  - intros E. destruct (shown m_bcall f t ph R Ht) as (g & Rg & Hg & _); [rewrite E; exact Logic.I|].
    exact (proj1 (C59_bowtie_isolation_pf I F OI OF g t Rg Hg) E).
  - intros rs os E. destruct (shown m_bcall f t ph R Ht) as (g & Rg & Hg & X & _); [rewrite E; exact Logic.I|].
    destruct (proj2 (C59_bowtie_isolation_pf I F OI OF g t Rg Hg) rs os E) as (vs & vs' & D & V & D').
    exists vs, vs'. split; [exact (Up g X _ _ D)|]. split; auto. exact (Up g X _ _ D').
Qed.

(** ... and a zdd2 thread, loading any data, panics only where it would panic alone. *)
Lemma C87_zdd2_isolation_pf : forall (T : Type) (O : Ord T) (f : fpool nat (mforest T) (lcall T) (lobs T)) t ph,
  fpool_reach m_lcall f -> In (t, ph) (fp_threads f) ->
  (gt_prog t = Panic -> exists fs, Forall2 (lholds (fview f)) (gt_init t) fs /\ v_script l_call (gt_script t) fs = None) /\
  (forall rs os, gt_prog t = Ret (rs, os) ->
     exists fs fs', Forall2 (lholds (fview f)) (gt_init t) fs /\
       v_script l_call (gt_script t) fs = Some (fs', os) /\ Forall2 (lholds (fview f)) rs fs').
Proof.
  intros T O f t ph R Ht.
  assert (Up : forall g : lpool T, ext (gp_arena g) (fp_arena f) -> forall ms vs, Forall2 (lholds g) ms vs -> Forall2 (lholds (fview f)) ms vs).
  { intros g X ms vs D. induction D as [|m v ms vs [D1 D2] D IH]; constructor; auto. split; auto. simpl. eapply den_ext; eauto. }
  split.
  - intros E. destruct (shown m_lcall f t ph R Ht) as (g & Rg & Hg & X & _); [rewrite E; exact I|].
    destruct (C83_isolation_pf T O g t Rg Hg) as (fs & D & _ & P & _). exists fs. split; [exact (Up g X _ _ D)|auto].
  - intros rs os E. destruct (shown m_lcall f t ph R Ht) as (g & Rg & Hg & X & _); [rewrite E; exact I|].
    destruct (C83_isolation_pf T O g t Rg Hg) as (fs & D & _ & _ & P). destruct (P rs os E) as (fs' & V & D').
    exists fs, fs'. split; [exact (Up g X _ _ D)|]. split; auto. exact (Up g X _ _ D').
Qed.

(** ** a schedule, run *)
Fixpoint f_at {L M C B} `{Ord L} (j : nat) (f : fpool L M C B) (pre post : list (gthread L M C B * phase L)) : fpool L M C B :=
  match post, j with
  | [], _ => f
  | (mkGT fuel cs ms p, ph) :: post', 0 =>
      match l_next (fp_arena f) (fp_lock f) p ph with
      | Some (a', l', p', ph') => mkFP a' l' (pre ++ (mkGT fuel cs ms p', ph') :: post') (fp_done f)
      | None => f
      end
  | t :: post', S j' => f_at j' f (pre ++ [t]) post'
  end.
Definition f_run {L M C B} `{Ord L} (js : list nat) (f : fpool L M C B) : fpool L M C B :=
  fold_left (fun f j => f_at j f [] (fp_threads f)) js f.
Lemma f_at_sound {L M C B} `{Ord L} (m_call : nat -> list M -> C -> prog L (list M * B)) j f : forall pre post,
  fp_threads f = pre ++ post -> fpool_reach m_call f -> fpool_reach m_call (f_at j f pre post).
Proof.
  induction j as [|j IH]; intros pre [|[[fuel cs ms p] ph] post] E R; simpl; auto.
  - destruct (l_next (fp_arena f) (fp_lock f) p ph) as [[[[a' l'] p'] ph']|] eqn:X; auto.
    eapply FR_step; [exact R|]. destruct f as [a l ts d]. simpl in *. subst ts.
    eapply FS_thread. apply FM. exact X.
  - apply IH; auto. rewrite E, <- app_assoc. reflexivity.
Qed.
Lemma f_run_sound {L M C B} `{Ord L} (m_call : nat -> list M -> C -> prog L (list M * B)) js : forall f,
  fpool_reach m_call f -> fpool_reach m_call (f_run js f).
Proof. induction js as [|j js IH]; intros f R; simpl; auto. apply IH. apply f_at_sound; auto. Qed.
Definition f_spawn {L M C B} `{Ord L} (m_call : nat -> list M -> C -> prog L (list M * B)) fuel cs (f : fpool L M C B) : fpool L M C B :=
  mkFP (fp_arena f) (fp_lock f) (fp_threads f ++ [(mkGT fuel cs [] (g_script m_call fuel cs []), Out)]) (fp_done f).
Lemma f_spawn_sound {L M C B} `{Ord L} (m_call : nat -> list M -> C -> prog L (list M * B)) fuel cs f :
  fpool_reach m_call f -> fpool_reach m_call (f_spawn m_call fuel cs f).
Proof. intros R. eapply FR_step; [exact R|]. destruct f. apply FS_spawn. intros x []. Qed.

Definition lk_ex : fpool nat (mztree nat) (zcall nat) (zobs nat) :=
  f_spawn m_zcall 60 z_ex_script (f_spawn m_zcall 60 z_ex_script (mkFP a_new lk_new [] [])).
Fixpoint turns (n : nat) : list nat := match n with 0 => [] | S n' => 0 :: 1 :: turns n' end.
(** two threads on one store: after three steps the first has pushed its node and not yet
    updated the id map, and the other cannot step; let to run on in turns, both finish *)
Example C87_example : exists f g : fpool nat (mztree nat) (zcall nat) (zobs nat),
  fpool_reach m_zcall f /\ half_done f /\ ~ in_step (fp_arena f) /\ map (fun t => match snd t with Out => 0 | WPushed i => i | _ => 1 end) (fp_threads f) = [2; 0] /\
  fpool_reach m_zcall g /\
  map (fun t => match gt_prog (fst t) with Ret (r, o) => Some (map mz_root r, o) | _ => None end) (fp_threads g) =
    [Some ([2; 4; 6; 6], [ZONone; ZONone; ZONone; ZOSets [[5]; [5; 7]]; ZONone; ZOBool true]);
     Some ([2; 4; 6; 6], [ZONone; ZONone; ZONone; ZOSets [[5]; [5; 7]]; ZONone; ZOBool true])].
Proof.
  assert (R : fpool_reach m_zcall lk_ex) by (apply f_spawn_sound; apply f_spawn_sound; constructor).
  exists (f_run [0; 0; 0; 1; 1] lk_ex), (f_run (turns 300) lk_ex).
  split; [apply f_run_sound; exact R|]. split; [|split; [|split; [vm_compute; reflexivity|split; [apply f_run_sound; exact R|vm_compute; reflexivity]]]].
  - assert (E : nth_error (map snd (fp_threads (f_run [0; 0; 0; 1; 1] lk_ex))) 0 = Some (WPushed 2)) by (vm_compute; reflexivity).
    apply nth_error_In in E. apply in_map_iff in E. destruct E as ([t ph] & E & Hin). simpl in E. rewrite E in Hin.
    exists t, 2. exact Hin.
  - intros S. destruct (nth_error (a_nodes (fp_arena (f_run [0; 0; 0; 1; 1] lk_ex))) 2) as [n|] eqn:E.
    + pose proof (proj2 (S n 2) E) as X.
      assert (E' : nth_error (a_nodes (fp_arena (f_run [0; 0; 0; 1; 1] lk_ex))) 2 = Some (GBranch 0 0 1)) by (vm_compute; reflexivity).
      assert (X' : idx_get (a_index (fp_arena (f_run [0; 0; 0; 1; 1] lk_ex))) (GBranch 0 0 1) = None) by (vm_compute; reflexivity).
      congruence.
    + assert (E' : nth_error (a_nodes (fp_arena (f_run [0; 0; 0; 1; 1] lk_ex))) 2 <> None) by (vm_compute; discriminate). congruence.
Qed.
