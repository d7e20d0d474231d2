(** PoolProofs: in any pool whose calls refine calls on values, threads do not
    disturb each other. *)
From Coq Require Import List Arith Lia Bool Permutation Sorted.
From Verif Require Import Base DD ArenaModel ArenaProofs PoolModel.
Import ListNotations.

(** with enough fuel total, with any fuel safe *)
Definition suffices (F fuel : nat) (tot : bool) : Prop := tot = true -> F <= fuel.
Lemma suffices_le F F' fuel tot : F' <= F -> suffices F fuel tot -> suffices F' fuel tot.
Proof. unfold suffices. intros A B C. specialize (B C). lia. Qed.
Lemma suffices_S F fuel tot : suffices (S F) fuel tot ->
  exists k, (fuel = S k /\ suffices F k tot) \/ (fuel = 0 /\ tot = false).
Proof.
  unfold suffices. intros A. destruct fuel as [|k].
  - exists 0. right. split; auto. destruct tot; auto. specialize (A eq_refl). lia.
  - exists k. left. split; auto. intros E. specialize (A E). lia.
Qed.

Section PoolProofs.
  Context {L M C B V : Type} `{Ord L}.
  Variable m_call : nat -> list M -> C -> prog L (list M * B).
  Variable v_call : list V -> C -> option (list V * B).
  Variable mden : arena L -> M -> V -> Prop.

  Definition gden (a : arena L) (ms : list M) (vs : list V) : Prop := Forall2 (mden a) ms vs.
  Definition gsden {O} (a : arena L) (x : list M * O) (y : list V * O) : Prop :=
    gden a (fst x) (fst y) /\ snd x = snd y.

  Hypothesis mden_ext : forall a b m v, ext a b -> mden a m v -> mden b m v.
  Hypothesis mden_fun : forall a m v w, mden a m v -> mden a m w -> v = w.
  Hypothesis v_total : forall vs c, exists y, v_call vs c = Some y.
  Hypothesis m_refines : forall c vs y, v_call vs c = Some y ->
    exists F, forall fuel tot, suffices F fuel tot -> forall a ms, AInv a -> gden a ms vs ->
    wp tot a (m_call fuel ms c) (fun a' x => gsden a' x y).

  Lemma gden_ext a b ms vs : ext a b -> gden a ms vs -> gden b ms vs.
  Proof. intros E D. induction D; constructor; eauto. Qed.
  Lemma gden_fun a ms vs ws : gden a ms vs -> gden a ms ws -> vs = ws.
  Proof.
    intros D. revert ws. induction D as [|m v ms vs D0 D IH]; intros ws D'; inversion D'; subst; auto.
    f_equal; eauto.
  Qed.

  Lemma v_script_total cs : forall vs, exists y, v_script v_call cs vs = Some y.
  Proof.
    induction cs as [|c cs IH]; intros vs; simpl; [eauto|].
    destruct (v_total vs c) as (x & ->). cbn [bind]. destruct (IH (fst x)) as (y & ->). cbn [bind]. eauto.
  Qed.

  Lemma g_script_refines cs : forall vs y, v_script v_call cs vs = Some y ->
    exists F, forall fuel tot, suffices F fuel tot -> forall a ms, AInv a -> gden a ms vs ->
    wp tot a (g_script m_call fuel cs ms) (fun a' x => gsden a' x y).
  Proof.
    induction cs as [|c cs IH]; intros vs y E; simpl in E.
    - inversion E; subst. exists 0. intros fuel tot _ a ms I0 D. apply (@wp_ret L _). intros a' Ex I1.
      split; simpl; auto. eapply gden_ext; eauto.
    - apply bind_some in E. destruct E as (x & E0 & E). apply bind_some in E. destruct E as (z & E1 & E).
      inversion E; subst. destruct (m_refines _ _ _ E0) as (F1 & S1). destruct (IH _ _ E1) as (F2 & S2).
      exists (F1 + F2). intros fuel tot Hf a ms I0 D. cbn [g_script].
      eapply (@wp_bind L _); [eapply S1; [eapply suffices_le; [|exact Hf]; lia| |]; eassumption| |exact I0].
      intros a1 r1 X1 I1 [D1 Q1].
      eapply (@wp_bind L _); [eapply S2; [eapply suffices_le; [|exact Hf]; lia| |]; eassumption| |exact I1].
      intros a2 r2 X2 I2 [D2 Q2]. apply (@wp_ret L _). intros a3 X3 I3. split; simpl.
      + eapply gden_ext; eauto.
      + congruence.
  Qed.

  Definition ggood (F : nat) cs vs y : Prop :=
    forall fuel tot, suffices F fuel tot -> forall a ms, AInv a -> gden a ms vs ->
      wp tot a (g_script m_call fuel cs ms) (fun a' x => gsden a' x y).

  Definition gthread_ok (a : arena L) (t : gthread L M C B) : Prop :=
    exists vs y, gden a (gt_init t) vs /\ v_script v_call (gt_script t) vs = Some y /\
      wp false a (gt_prog t) (fun a' x => gsden a' x y) /\
      forall F, ggood F (gt_script t) vs y -> F <= gt_fuel t -> wp true a (gt_prog t) (fun a' x => gsden a' x y).

  Definition gpool_ok (p : gpool L M C B) : Prop :=
    AInv (gp_arena p) /\ Forall (gthread_ok (gp_arena p)) (gp_threads p) /\
    Forall (fun m => exists v, mden (gp_arena p) m v) (gp_done p).

  Lemma gthread_ok_ext a a' t : ext a a' -> gthread_ok a t -> gthread_ok a' t.
  Proof.
    intros E (vs & y & D & Hr & Hw & Ht). exists vs, y.
    split; [eapply gden_ext; eauto|]. split; auto.
    split; [eapply (@wp_ext L _); eauto|]. intros F HF Hle. eapply (@wp_ext L _); eauto.
  Qed.

  Lemma gpick (a : arena L) (d ms : list M) : incl ms d ->
    Forall (fun m => exists v, mden a m v) d -> exists vs, gden a ms vs.
  Proof.
    intros I0 Hd. rewrite Forall_forall in Hd. induction ms as [|m ms IH].
    - exists []. constructor.
    - destruct IH as (vs & D); [intros x Hx; apply I0; right; auto|].
      destruct (Hd m) as (v & Dv); [apply I0; left; auto|]. exists (v :: vs). constructor; auto.
  Qed.

  Lemma gpool_step_ok p q : gpool_ok p -> gpool_step m_call p q -> gpool_ok q /\ ext (gp_arena p) (gp_arena q).
  Proof.
    intros (I0 & Ht & Hd) Hs.
    inversion Hs as [a ts d fuel cs ms Hi|a ts1 ts2 d fuel cs ms pr a' pr' Hp|a ts d fuel cs ms rs os Hin];
      subst; simpl in *.
    - split; [|apply ext_refl]. split; [auto|]. split; [|auto]. apply Forall_app. split; auto. constructor; [|constructor].
      destruct (gpick a d ms Hi Hd) as (vs & D). destruct (v_script_total cs vs) as (y & Hy).
      exists vs, y. simpl. split; auto. split; auto. split.
      + destruct (g_script_refines cs vs y Hy) as (F & S1). apply S1; auto. intros X; discriminate X.
      + intros F HF Hle. apply HF; auto. intros _; auto.
    - apply Forall_app in Ht. destruct Ht as [Ht1 Ht2]. inversion Ht2 as [|x l Hx Hl]; subst.
      destruct Hx as (vs & y & D & Hr & Hw & Htot). simpl in *.
      destruct (wp_step false pr _ a a pr' a' I0 (ext_refl a) Hw Hp) as (I1 & E1 & Hw').
      split; [|exact E1]. split; [auto|]. split.
      + apply Forall_app. split.
        * eapply Forall_impl; [|exact Ht1]. intros t. apply gthread_ok_ext; auto.
        * constructor.
          { exists vs, y. simpl. split; [eapply gden_ext; eauto|]. split; auto. split; auto.
            intros F HF Hle. destruct (wp_step true pr _ a a pr' a' I0 (ext_refl a) (Htot F HF Hle) Hp) as (_ & _ & X). exact X. }
          { eapply Forall_impl; [|exact Hl]. intros t. apply gthread_ok_ext; auto. }
      + eapply Forall_impl; [|exact Hd]. intros m (v & Dv). exists v. eapply mden_ext; eauto.
    - split; [|apply ext_refl]. split; [auto|]. split; [auto|]. apply Forall_app. split; auto.
      rewrite Forall_forall in Ht. destruct (Ht _ Hin) as (vs & y & D & Hr & Hw & Htot). simpl in *.
      destruct (Hw a (ext_refl a) I0) as [Dr _]. simpl in Dr. unfold gden in Dr. clear -Dr.
      induction Dr as [|m v ms vs D Dr IH]; constructor; eauto.
  Qed.

  Lemma gpool_reach_ok p : gpool_reach m_call p -> gpool_ok p.
  Proof.
    intros Hr. induction Hr as [|p q Hp IH Hs].
    - split; [apply a_new_inv|]. split; constructor.
    - eapply gpool_step_ok; eauto.
  Qed.

  Lemma gpool_steps_ext p q : gpool_reach m_call p -> gpool_steps m_call p q ->
    gpool_reach m_call q /\ ext (gp_arena p) (gp_arena q).
  Proof.
    intros Hp Hs. induction Hs as [p|p q r Hs IH Hq]; [split; [auto|apply ext_refl]|].
    destruct (IH Hp) as [Rq E]. destruct (gpool_step_ok q r (gpool_reach_ok _ Rq) Hq) as [_ E'].
    split; [econstructor; eauto|eapply ext_trans; eauto].
  Qed.

  (** ** the theorems, for any such pool *)
  Lemma pool_ids p i j : gpool_reach m_call p ->
    i < length (a_nodes (gp_arena p)) -> j < length (a_nodes (gp_arena p)) ->
    exists t u, den (gp_arena p) i t /\ den (gp_arena p) j u /\ (t = u <-> i = j) /\
      (forall t', den (gp_arena p) i t' -> t' = t) /\
      (forall l lo hi, a_get (gp_arena p) i = Some (GBranch l lo hi) -> lo < i /\ hi < i).
  Proof.
    intros Hp Hi Hj. destruct (gpool_reach_ok p Hp) as (I0 & _).
    destruct (den_total _ I0 i Hi) as [t Ht]. destruct (den_total _ I0 j Hj) as [u Hu]. exists t, u.
    split; auto. split; auto. split; [split|split].
    - intros ->. exact (den_inj _ _ _ _ I0 Ht Hu).
    - intros ->. exact (den_fun _ _ _ _ Ht Hu).
    - intros t' Ht'. exact (den_fun _ _ _ _ Ht' Ht).
    - intros l lo hi Hg. exact (inv_child _ I0 i _ Hg).
  Qed.
  Lemma pool_unique p i j n : gpool_reach m_call p ->
    a_get (gp_arena p) i = Some n -> a_get (gp_arena p) j = Some n -> i = j.
  Proof. intros Hp. apply a_get_inj. apply gpool_reach_ok; auto. Qed.
  Lemma pool_stable p q i n : gpool_reach m_call p -> gpool_steps m_call p q ->
    a_get (gp_arena p) i = Some n -> a_get (gp_arena q) i = Some n.
  Proof. intros Hp Hs. apply ext_get. eapply gpool_steps_ext; eauto. Qed.
  Lemma pool_leaves p : gpool_reach m_call p ->
    a_get (gp_arena p) 0 = Some (GLeaf false) /\ a_get (gp_arena p) 1 = Some (GLeaf true).
  Proof. intros Hp. destruct (gpool_reach_ok p Hp) as (I0 & _). exact (conj (inv_false _ I0) (inv_true _ I0)). Qed.

  Lemma pool_isolation p t : gpool_reach m_call p -> In t (gp_threads p) ->
    gt_prog t <> Panic /\
    forall rs os, gt_prog t = Ret (rs, os) ->
      exists vs vs', Forall2 (mden (gp_arena p)) (gt_init t) vs /\
        v_script v_call (gt_script t) vs = Some (vs', os) /\ Forall2 (mden (gp_arena p)) rs vs'.
  Proof.
    intros Hp Hin. destruct (gpool_reach_ok p Hp) as (I0 & Ht & _).
    rewrite Forall_forall in Ht. destruct (Ht _ Hin) as (vs & y & D & Hr & Hw & _).
    split.
    - intros E. rewrite E in Hw. exact Hw.
    - intros rs os E. rewrite E in Hw. destruct (Hw _ (ext_refl _) I0) as [Dr Q]. simpl in Dr, Q.
      exists vs, (fst y). split; auto. split; [|exact Dr].
      rewrite Hr. destruct y; simpl in *; congruence.
  Qed.

  Lemma pool_deterministic p q t u vs rs os rs' os' :
    gpool_reach m_call p -> gpool_reach m_call q -> In t (gp_threads p) -> In u (gp_threads q) ->
    gt_script t = gt_script u ->
    Forall2 (mden (gp_arena p)) (gt_init t) vs -> Forall2 (mden (gp_arena q)) (gt_init u) vs ->
    gt_prog t = Ret (rs, os) -> gt_prog u = Ret (rs', os') ->
    os = os' /\ exists vs', Forall2 (mden (gp_arena p)) rs vs' /\ Forall2 (mden (gp_arena q)) rs' vs'.
  Proof.
    intros Hp Hq Ht Hu Es Dt Du Et Eu.
    destruct (pool_isolation p t Hp Ht) as [_ Xt]. destruct (Xt _ _ Et) as (v1 & w1 & D1 & R1 & D1').
    destruct (pool_isolation q u Hq Hu) as [_ Xu]. destruct (Xu _ _ Eu) as (v2 & w2 & D2 & R2 & D2').
    rewrite <- (gden_fun _ _ _ _ Dt D1) in R1. rewrite <- (gden_fun _ _ _ _ Du D2) in R2. rewrite Es in R1. rewrite R2 in R1.
    inversion R1; subst. split; auto. exists w1. split; auto.
  Qed.

  Lemma pool_progress p t : gpool_reach m_call p -> In t (gp_threads p) ->
    (exists r, gt_prog t = Ret r) \/ gt_prog t = OutOfFuel \/
    (exists a' k, pstep (gp_arena p) (gt_prog t) a' k).
  Proof.
    intros Hp Hin. destruct (pool_isolation p t Hp Hin) as [Hn _].
    destruct (gt_prog t) as [r|i k|n k|n k| |] eqn:E; eauto; try congruence; right; right.
    - destruct (a_get (gp_arena p) i) as [n|] eqn:Eg; eexists; eexists; [apply P_get; eauto|apply P_get_panic; eauto].
    - eexists; eexists; apply P_find.
    - eexists; eexists; apply P_add.
  Qed.

  Lemma pool_bounded cs vs :
    exists F, forall p t, gpool_reach m_call p -> In t (gp_threads p) ->
      gt_script t = cs -> Forall2 (mden (gp_arena p)) (gt_init t) vs -> F <= gt_fuel t -> gt_prog t <> OutOfFuel.
  Proof.
    destruct (v_script_total cs vs) as (y & Hy).
    destruct (g_script_refines cs vs y Hy) as (F & HF). exists F.
    intros p t Hp Hin Ecs Dvs Hle. destruct (gpool_reach_ok p Hp) as (I0 & Ht & _).
    rewrite Forall_forall in Ht. destruct (Ht _ Hin) as (vs2 & y2 & D & Hr & _ & Htot).
    assert (vs2 = vs) by exact (gden_fun _ _ _ _ D Dvs). subst vs2 cs. assert (y2 = y) by congruence. subst y2.
    specialize (Htot F HF Hle). intros E. rewrite E in Htot. simpl in Htot. discriminate.
  Qed.
End PoolProofs.

(** ** an executable scheduler, for the examples *)
Section Sched.
  Context {L M C B : Type} `{Ord L}.
  Variable m_call : nat -> list M -> C -> prog L (list M * B).

  Definition gexec1 (a : arena L) {R} (p : prog L R) : option (arena L * prog L R) :=
    match p with
    | Get i k => match a_get a i with Some n => Some (a, k n) | None => Some (a, Panic) end
    | Find n k => Some (a, k (a_find a n))
    | Add n k => Some (fst (a_add a n), k (snd (a_add a n)))
    | _ => None
    end.
  Lemma gexec1_sound (a : arena L) {R} (p : prog L R) a' p' : gexec1 a p = Some (a', p') -> pstep a p a' p'.
  Proof.
    destruct p as [r|i k|n k|n k| |]; simpl; try discriminate.
    - destruct (a_get a i) eqn:E; intros X; inversion X; subst; constructor; auto.
    - intros X; inversion X; subst; constructor.
    - intros X; inversion X; subst; constructor.
  Qed.
  (** schedule thread [i] if it can move *)
  Definition gsched1 (p : gpool L M C B) (i : nat) : gpool L M C B :=
    match nth_error (gp_threads p) i with
    | None => p
    | Some t => match gexec1 (gp_arena p) (gt_prog t) with
                | None => p
                | Some (a', k) => mkGP a' (firstn i (gp_threads p) ++ mkGT (gt_fuel t) (gt_script t) (gt_init t) k :: skipn (S i) (gp_threads p)) (gp_done p)
                end
    end.
  Definition gsched (l : list nat) (p : gpool L M C B) : gpool L M C B := fold_left gsched1 l p.
  Lemma gnth_split {A} (l : list A) i x : nth_error l i = Some x -> l = firstn i l ++ x :: skipn (S i) l.
  Proof.
    revert i; induction l as [|y l IH]; intros [|i] E; simpl in *; try discriminate.
    - inversion E. reflexivity.
    - f_equal. apply IH. auto.
  Qed.
  Lemma gsched_sound l : forall p, gpool_reach m_call p -> gpool_reach m_call (gsched l p).
  Proof.
    induction l as [|i l IH]; intros p Hp; [exact Hp|]. cbn [gsched fold_left]. apply IH. unfold gsched1.
    destruct (nth_error (gp_threads p) i) as [t|] eqn:Et; [|exact Hp].
    destruct (gexec1 (gp_arena p) (gt_prog t)) as [[a' k]|] eqn:Ex; [|exact Hp].
    eapply GR_step; [exact Hp|]. destruct p as [a ts d]; simpl in *.
    rewrite (gnth_split ts i t Et) at 1. destruct t as [fu cs ms pr]; simpl in *. constructor. apply gexec1_sound; auto.
  Qed.
  Definition gspawn (fuel : nat) (cs : list C) (p : gpool L M C B) : gpool L M C B :=
    mkGP (gp_arena p) (gp_threads p ++ [mkGT fuel cs [] (g_script m_call fuel cs [])]) (gp_done p).
  Lemma gspawn_sound fuel cs p : gpool_reach m_call p -> gpool_reach m_call (gspawn fuel cs p).
  Proof. intros Hp. eapply GR_step; [exact Hp|]. destruct p as [a ts d]. constructor. intros x []. Qed.
End Sched.

(** ** proof steps shared by ZddProgProofs.v and BddProgProofs.v *)
Ltac plift E :=
  repeat match goal with
  | H : den _ _ _ |- _ => apply (den_ext _ _ _ _ E) in H
  | H : nden _ _ _ |- _ => apply (nden_ext _ _ _ _ E) in H
  end.
(** run the first program of a [do], with the given specification lemma *)
Ltac pstep_with lem :=
  let a' := fresh "a" in let r := fresh "r" in let E := fresh "E" in let I1 := fresh "I" in let D := fresh "D" in
  eapply wp_bind; [eapply lem|intros a' r E I1 D; cbv beta in D; plift E; clear E|eassumption].
Ltac pget := pstep_with @wp_get_node; [eassumption|].
Ltac pfuel Hf := (eapply suffices_le; [|exact Hf]; simpl; lia).
Ltac pstart Hf :=
  cbn [size] in Hf; apply suffices_S in Hf; let k := fresh "k" in destruct Hf as (k & [(-> & Hf)|(-> & ->)]); [|reflexivity].
Lemma wp_same {L} `{Ord L} tot (a : arena L) n t : nden a n t -> wp tot a (Ret n) (fun a' r => nden a' r t).
Proof. intros D a' E _. eapply nden_ext; eauto. Qed.
Lemma wp_val {L R} `{Ord L} tot (a : arena L) (r v : R) : r = v -> wp tot a (Ret r) (fun _ x => x = v).
Proof. intros E a' _ _. exact E. Qed.
