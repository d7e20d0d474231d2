(** PanicProofs: pools whose calls may panic.  [wpp] is [wp] with panics allowed
    under a condition; the pool theorems of PoolProofs.v with it. *)
From Coq Require Import List Arith Lia Bool Permutation Sorted.
From Verif Require Import Base DD ArenaModel ArenaProofs PoolModel PoolProofs.
Import ListNotations.

Section WPP.
  Context {L : Type} `{Ord L}.

  (** like [wp], but the program may panic if [pan] *)
  Fixpoint wpp {R} (tot : bool) (pan : Prop) (a : arena L) (p : prog L R) (Q : arena L -> R -> Prop) : Prop :=
    match p with
    | Ret r => forall a', ext a a' -> AInv a' -> Q a' r
    | Get i k => forall a', ext a a' -> AInv a' -> exists n, a_get a' i = Some n /\ wpp tot pan a' (k n) Q
    | Find n k => forall a', ext a a' -> AInv a' -> wpp tot pan a' (k (a_find a' n)) Q
    | Add n k => forall a', ext a a' -> AInv a' ->
        child_ok n (length (a_nodes a')) /\ wpp tot pan (fst (a_add a' n)) (k (snd (a_add a' n))) Q
    | Panic => pan
    | OutOfFuel => tot = false
    end.

  Lemma wp_wpp {R} tot (pan : Prop) (p : prog L R) Q : forall a, wp tot a p Q -> wpp tot pan a p Q.
  Proof.
    induction p as [r|i k IH|n k IH|n k IH| |]; simpl; intros a Hw; auto.
    - intros a' He Hi. destruct (Hw a' He Hi) as (n & E & Hn). exists n. split; auto.
    - intros a' He Hi. destruct (Hw a' He Hi) as [Hc Hk]. split; auto.
    - contradiction.
  Qed.

  Lemma wpp_ext {R} tot pan (p : prog L R) Q : forall a a', ext a a' -> wpp tot pan a p Q -> wpp tot pan a' p Q.
  Proof.
    destruct p as [r|i k|n k|n k| |]; simpl; intros a a' He Hw; auto; intros b Hb I0; apply Hw; auto;
      eapply ext_trans; eauto.
  Qed.

  Lemma wpp_bind {A B} tot (pan pan' : Prop) (p : prog L A) (f : A -> prog L B) : (pan -> pan') -> forall a Q Q',
    wpp tot pan a p Q ->
    (forall a' r, ext a a' -> AInv a' -> Q a' r -> wpp tot pan' a' (f r) Q') ->
    AInv a -> wpp tot pan' a (pbind p f) Q'.
  Proof.
    intros HP. induction p as [r|i k IH|n k IH|n k IH| |]; simpl; intros a Q Q' Hw HQ I0; auto.
    - apply HQ; auto using ext_refl.
    - intros a' He Hi. destruct (Hw a' He Hi) as (n & E & Hn). exists n. split; auto.
      eapply IH; [exact Hn| |exact Hi]. intros; apply HQ; auto. eapply ext_trans; eauto.
    - intros a' He Hi. eapply IH; [exact (Hw a' He Hi)| |exact Hi]. intros; apply HQ; auto. eapply ext_trans; eauto.
    - intros a' He Hi. destruct (Hw a' He Hi) as [Hc Hk]. split; auto.
      destruct (a_add_spec a' n Hi Hc) as (Hi' & He' & _).
      eapply IH; [exact Hk| |exact Hi']. intros; apply HQ; auto.
      eapply ext_trans; [exact He|]. eapply ext_trans; eauto.
  Qed.
  (** a first program that does not panic *)
  Lemma wpp_bind_wp {A B} tot (pan : Prop) (p : prog L A) (f : A -> prog L B) a Q Q' :
    wp tot a p Q ->
    (forall a' r, ext a a' -> AInv a' -> Q a' r -> wpp tot pan a' (f r) Q') ->
    AInv a -> wpp tot pan a (pbind p f) Q'.
  Proof. intros Hw. eapply wpp_bind; [|apply wp_wpp; exact Hw]. exact (fun x => x). Qed.

  Lemma wpp_ret {R} tot (pan : Prop) a (r : R) (Q : arena L -> R -> Prop) :
    (forall a', ext a a' -> AInv a' -> Q a' r) -> wpp tot pan a (Ret r) Q.
  Proof. auto. Qed.

  Lemma wpp_mono {R} tot (pan pan' : Prop) (p : prog L R) : (pan -> pan') -> forall a (Q Q' : arena L -> R -> Prop),
    (forall a' r, ext a a' -> AInv a' -> Q a' r -> Q' a' r) -> wpp tot pan a p Q -> wpp tot pan' a p Q'.
  Proof.
    intros HP. induction p as [r|i k IH|n k IH|n k IH| |]; simpl; intros a Q Q' HQ Hw; auto.
    - intros a' He Hi. destruct (Hw a' He Hi) as (n & E & Hn). exists n. split; auto.
      eapply IH; [|exact Hn]. intros; apply HQ; auto. eapply ext_trans; eauto.
    - intros a' He Hi. eapply IH; [|exact (Hw a' He Hi)]. intros; apply HQ; auto. eapply ext_trans; eauto.
    - intros a' He Hi. destruct (Hw a' He Hi) as [Hc Hk]. split; auto.
      eapply IH; [|exact Hk]. intros; apply HQ; auto.
      destruct (a_add_spec a' n Hi Hc) as (_ & He' & _).
      eapply ext_trans; [exact He|]. eapply ext_trans; eauto.
  Qed.

  Lemma wpp_step {R} tot pan (p : prog L R) Q a a0 p' a' : AInv a -> ext a0 a ->
    wpp tot pan a0 p Q -> pstep a p a' p' -> AInv a' /\ ext a a' /\ wpp tot pan a' p' Q.
  Proof.
    intros I0 He Hw Hs. inversion Hs; subst; simpl in Hw.
    - destruct (Hw _ He I0) as (n' & E & Hn). assert (n' = n) by congruence. subst. auto using ext_refl.
    - destruct (Hw _ He I0) as (n' & E & Hn). congruence.
    - split; auto. split; auto using ext_refl.
    - destruct (Hw _ He I0) as [Hc Hk]. destruct (a_add_spec a n I0 Hc) as (I1 & E1 & _). auto.
  Qed.
End WPP.

Section PanicPool.
  Context {L M C B V : Type} `{Ord L}.
  Variable m_call : nat -> list M -> C -> prog L (list M * B).
  Variable v_call : list V -> C -> option (list V * B).
  Variable mden : arena L -> M -> V -> Prop.
  Variable Vok : V -> Prop.

  Hypothesis mden_ext : forall a b m v, ext a b -> mden a m v -> mden b m v.
  Hypothesis mden_fun : forall a m v w, mden a m v -> mden a m w -> v = w.
  Hypothesis v_keeps : forall vs c y, Forall Vok vs -> v_call vs c = Some y -> Forall Vok (fst y).

  Notation gden := (gden mden).
  Definition outcome {X} (o : option (list V * X)) (a : arena L) (x : list M * X) : Prop :=
    exists y, o = Some y /\ gsden mden a x y.

  Hypothesis m_refines : forall c vs, Forall Vok vs ->
    exists F, forall fuel tot, suffices F fuel tot -> forall a ms, AInv a -> gden a ms vs ->
    wpp tot (v_call vs c = None) a (m_call fuel ms c) (outcome (v_call vs c)).

  Lemma v_script_keeps cs : forall vs y, Forall Vok vs -> v_script v_call cs vs = Some y -> Forall Vok (fst y).
  Proof.
    induction cs as [|c cs IH]; intros vs y K E; simpl in E; [inversion E; subst; exact K|].
    apply bind_some in E. destruct E as (x & E0 & E). apply bind_some in E. destruct E as (z & E1 & E).
    inversion E; subst. simpl. eapply IH; [|exact E1]. eapply v_keeps; eauto.
  Qed.

  Lemma p_script_refines cs : forall vs, Forall Vok vs ->
    exists F, forall fuel tot, suffices F fuel tot -> forall a ms, AInv a -> gden a ms vs ->
    wpp tot (v_script v_call cs vs = None) a (g_script m_call fuel cs ms) (outcome (v_script v_call cs vs)).
  Proof.
    induction cs as [|c cs IH]; intros vs K.
    - exists 0. intros fuel tot _ a ms I0 D. cbn [g_script v_script]. apply (@wpp_ret L _). intros a' Ex I1.
      eexists; split; [reflexivity|]. split; simpl; auto. eapply gden_ext; eauto.
    - destruct (m_refines c vs K) as (F1 & S1). destruct (v_call vs c) as [x|] eqn:Ec.
      + destruct (IH (fst x) (v_keeps _ _ _ K Ec)) as (F2 & S2).
        exists (F1 + F2). intros fuel tot Hf a ms I0 D. cbn [g_script v_script]. rewrite Ec. cbn [bind].
        eapply (@wpp_bind L _ _ _ _ (Some x = None)); [discriminate|eapply S1; [eapply suffices_le; [|exact Hf]; lia| |]; eassumption| |exact I0].
        intros a1 r1 X1 I1 (y & Ey & D1 & Q1). injection Ey as <-.
        eapply (@wpp_bind L _ _ _ _ (v_script v_call cs (fst x) = None)); [intros ->; reflexivity|eapply S2; [eapply suffices_le; [|exact Hf]; lia| |]; eassumption| |exact I1].
        intros a2 r2 X2 I2 (z & Ez & D2 & Q2). rewrite Ez. cbn [bind]. apply (@wpp_ret L _). intros a3 X3 I3.
        eexists; split; [reflexivity|]. split; simpl; [eapply gden_ext; eauto|congruence].
      + exists F1. intros fuel tot Hf a ms I0 D. cbn [g_script v_script]. rewrite Ec. cbn [bind].
        eapply (@wpp_bind L _ _ _ _ (@None (list V * B) = None)); [reflexivity|eapply S1; [exact Hf| |]; eassumption| |exact I0].
        intros a1 r1 X1 I1 (y & Ey & _). discriminate.
  Qed.

  Definition pgood (F : nat) cs vs : Prop :=
    forall fuel tot, suffices F fuel tot -> forall a ms, AInv a -> gden a ms vs ->
      wpp tot (v_script v_call cs vs = None) a (g_script m_call fuel cs ms) (outcome (v_script v_call cs vs)).

  Definition pthread_ok (a : arena L) (t : gthread L M C B) : Prop :=
    exists vs, gden a (gt_init t) vs /\ Forall Vok vs /\
      let v := v_script v_call (gt_script t) vs in
      wpp false (v = None) a (gt_prog t) (outcome v) /\
      forall F, pgood F (gt_script t) vs -> F <= gt_fuel t -> wpp true (v = None) a (gt_prog t) (outcome v).

  Definition ppool_ok (p : gpool L M C B) : Prop :=
    AInv (gp_arena p) /\ Forall (pthread_ok (gp_arena p)) (gp_threads p) /\
    Forall (fun m => exists v, Vok v /\ mden (gp_arena p) m v) (gp_done p).

  Lemma pthread_ok_ext a a' t : ext a a' -> pthread_ok a t -> pthread_ok a' t.
  Proof.
    intros E (vs & D & K & Hw & Ht). exists vs.
    split; [eapply gden_ext; eauto|]. split; auto.
    split; [eapply (@wpp_ext L _); eauto|]. intros F HF Hle. eapply (@wpp_ext L _); eauto.
  Qed.

  Lemma ppick (a : arena L) (d ms : list M) : incl ms d ->
    Forall (fun m => exists v, Vok v /\ mden a m v) d -> exists vs, gden a ms vs /\ Forall Vok vs.
  Proof.
    intros I0 Hd. rewrite Forall_forall in Hd. induction ms as [|m ms IH].
    - exists []. split; constructor.
    - destruct IH as (vs & D & K); [intros x Hx; apply I0; right; auto|].
      destruct (Hd m) as (v & Kv & Dv); [apply I0; left; auto|]. exists (v :: vs). split; constructor; auto.
  Qed.

  Lemma ppool_step_ok p q : ppool_ok p -> gpool_step m_call p q -> ppool_ok q /\ ext (gp_arena p) (gp_arena q).
  Proof.
    intros (I0 & Ht & Hd) Hs.
    inversion Hs as [a ts d fuel cs ms Hi|a ts1 ts2 d fuel cs ms pr a' pr' Hp|a ts d fuel cs ms rs os Hin];
      subst; simpl in *.
    - split; [|apply ext_refl]. split; [auto|]. split; [|auto]. apply Forall_app. split; auto. constructor; [|constructor].
      destruct (ppick a d ms Hi Hd) as (vs & D & K).
      exists vs. simpl. split; auto. split; auto. split.
      + destruct (p_script_refines cs vs K) as (F & S1). apply S1; auto. intros X; discriminate X.
      + intros F HF Hle. apply HF; auto. intros _; auto.
    - apply Forall_app in Ht. destruct Ht as [Ht1 Ht2]. inversion Ht2 as [|x l Hx Hl]; subst.
      destruct Hx as (vs & D & K & Hw & Htot). simpl in *.
      destruct (wpp_step false _ pr _ a a pr' a' I0 (ext_refl a) Hw Hp) as (I1 & E1 & Hw').
      split; [|exact E1]. split; [auto|]. split.
      + apply Forall_app. split.
        * eapply Forall_impl; [|exact Ht1]. intros t. apply pthread_ok_ext; auto.
        * constructor.
          { exists vs. simpl. split; [eapply gden_ext; eauto|]. split; auto. split; auto.
            intros F HF Hle. destruct (wpp_step true _ pr _ a a pr' a' I0 (ext_refl a) (Htot F HF Hle) Hp) as (_ & _ & X). exact X. }
          { eapply Forall_impl; [|exact Hl]. intros t. apply pthread_ok_ext; auto. }
      + eapply Forall_impl; [|exact Hd]. intros m (v & Kv & Dv). exists v. split; [exact Kv|]. eapply mden_ext; eauto.
    - split; [|apply ext_refl]. split; [auto|]. split; [auto|]. apply Forall_app. split; auto.
      rewrite Forall_forall in Ht. destruct (Ht _ Hin) as (vs & D & K & Hw & Htot). simpl in *.
      destruct (Hw a (ext_refl a) I0) as (y & Ey & Dr & _). simpl in Dr. pose proof (v_script_keeps _ _ _ K Ey) as Ky.
      unfold PoolProofs.gden in Dr. clear -Dr Ky.
      induction Dr as [|m v ms vs D Dr IH]; [constructor|]. inversion Ky; subst. constructor; eauto.
  Qed.

  Lemma ppool_reach_ok p : gpool_reach m_call p -> ppool_ok p.
  Proof.
    intros Hr. induction Hr as [|p q Hp IH Hs].
    - split; [apply a_new_inv|]. split; constructor.
    - eapply ppool_step_ok; eauto.
  Qed.
  Lemma ppool_steps_ext p q : gpool_reach m_call p -> gpool_steps m_call p q ->
    gpool_reach m_call q /\ ext (gp_arena p) (gp_arena q).
  Proof.
    intros Hp Hs. induction Hs as [p|p q r Hs IH Hq]; [split; [auto|apply ext_refl]|].
    destruct (IH Hp) as [Rq E]. destruct (ppool_step_ok q r (ppool_reach_ok _ Rq) Hq) as [_ E'].
    split; [econstructor; eauto|eapply ext_trans; eauto].
  Qed.

  Lemma ppool_isolation p t : gpool_reach m_call p -> In t (gp_threads p) ->
    exists vs, Forall2 (mden (gp_arena p)) (gt_init t) vs /\ Forall Vok vs /\
      (gt_prog t = Panic -> v_script v_call (gt_script t) vs = None) /\
      (forall rs os, gt_prog t = Ret (rs, os) ->
        exists vs', v_script v_call (gt_script t) vs = Some (vs', os) /\ Forall2 (mden (gp_arena p)) rs vs').
  Proof.
    intros Hp Hin. destruct (ppool_reach_ok p Hp) as (I0 & Ht & _).
    rewrite Forall_forall in Ht. destruct (Ht _ Hin) as (vs & D & K & Hw & _). exists vs.
    split; [exact D|]. split; [exact K|]. split.
    - intros E. rewrite E in Hw. exact Hw.
    - intros rs os E. rewrite E in Hw. destruct (Hw _ (ext_refl _) I0) as (y & Ey & Dr & Q). simpl in Dr, Q.
      exists (fst y). split; [|exact Dr]. rewrite Ey. destruct y; simpl in *; congruence.
  Qed.

  Lemma ppool_progress (p : gpool L M C B) t : In t (gp_threads p) ->
    (exists r, gt_prog t = Ret r) \/ gt_prog t = Panic \/ gt_prog t = OutOfFuel \/
    (exists a' k, pstep (gp_arena p) (gt_prog t) a' k).
  Proof.
    intros Hin. destruct (gt_prog t) as [r|i k|n k|n k| |] eqn:E; eauto; right; right; right.
    - destruct (a_get (gp_arena p) i) as [n|] eqn:Eg; eexists; eexists; [apply P_get; eauto|apply P_get_panic; eauto].
    - eexists; eexists; apply P_find.
    - eexists; eexists; apply P_add.
  Qed.

  Lemma ppool_bounded cs vs : Forall Vok vs ->
    exists F, forall p t, gpool_reach m_call p -> In t (gp_threads p) ->
      gt_script t = cs -> Forall2 (mden (gp_arena p)) (gt_init t) vs -> F <= gt_fuel t -> gt_prog t <> OutOfFuel.
  Proof.
    intros K. destruct (p_script_refines cs vs K) as (F & HF). exists F.
    intros p t Hp Hin Ecs Dvs Hle. destruct (ppool_reach_ok p Hp) as (I0 & Ht & _).
    rewrite Forall_forall in Ht. destruct (Ht _ Hin) as (vs2 & D & _ & _ & Htot).
    assert (vs2 = vs) by exact (gden_fun mden mden_fun _ _ _ _ D Dvs). subst vs2 cs.
    specialize (Htot F HF Hle). intros E. rewrite E in Htot. simpl in Htot. discriminate.
  Qed.
End PanicPool.
