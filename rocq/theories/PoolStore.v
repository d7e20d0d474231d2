(** PoolStore: what the shared store holds after any schedule of any threads
    depends only on the scripts they run and the values they start from. *)
From Coq Require Import List Arith Lia Bool Permutation Sorted.
From Verif Require Import Base DD ArenaModel ArenaProofs ArenaSim PoolModel.
Import ListNotations.

Section PoolStore.
  Context {L M C B V : Type} `{Ord L}.
  Variable m_call : nat -> list M -> C -> prog L (list M * B).
  Variable mden : arena L -> M -> V -> Prop.
  Variable ok : V -> Prop.
  Definition hden (a : arena L) (ms : list M) (vs : list V) : Prop := Forall2 (mden a) ms vs.
  (** two lists of handles hold the same values *)
  Definition hsim {O} (a b : arena L) (x y : list M * O) : Prop :=
    (exists vs, hden a (fst x) vs /\ hden b (fst y) vs) /\ snd x = snd y.

  Hypothesis mden_ext : forall a b m v, ext a b -> mden a m v -> mden b m v.
  Hypothesis mden_fun : forall a m v w, mden a m v -> mden a m w -> v = w.
  Hypothesis m_sim : forall c vs fuel fuel' a b ms ms', AInv a -> AInv b -> hden a ms vs -> hden b ms' vs ->
    sim hsim a b (m_call fuel ms c) (m_call fuel' ms' c).
  Hypothesis m_total : forall cs vs, Forall ok vs ->
    exists fuel, forall a ms, AInv a -> hden a ms vs -> exists Q, wp true a (g_script m_call fuel cs ms) Q.
  Hypothesis base : forall p : gpool L M C B, gpool_reach m_call p ->
    AInv (gp_arena p) /\ Forall (fun m => exists v, ok v /\ mden (gp_arena p) m v) (gp_done p).

  Lemma hden_ext a b ms vs : ext a b -> hden a ms vs -> hden b ms vs.
  Proof. intros E D. induction D; constructor; eauto. Qed.
  Lemma hden_fun a ms vs ws : hden a ms vs -> hden a ms ws -> vs = ws.
  Proof.
    intros D. revert ws. induction D as [|m v ms vs D0 D IH]; intros ws D'; inversion D'; subst; auto.
    f_equal; eauto.
  Qed.

  Lemma g_script_sim cs : forall vs fuel fuel' a b ms ms', AInv a -> AInv b -> hden a ms vs -> hden b ms' vs ->
    sim hsim a b (g_script m_call fuel cs ms) (g_script m_call fuel' cs ms').
  Proof.
    induction cs as [|c cs IH]; intros vs fuel fuel' a b ms ms' Ia Ib Da Db; cbn [g_script].
    - apply M_ret. intros a' b' [Ea Eb _ _]. split; [|reflexivity]. exists vs. split; eapply hden_ext; eauto.
    - eapply sim_bind; [eapply m_sim; eauto|auto|auto|]. intros a1 b1 r s [Ea Eb Ia1 Ib1] [(ws & D1 & D2) E1].
      eapply sim_bind; [eapply IH; eauto|auto|auto|]. intros a2 b2 r2 s2 [Ea2 Eb2 Ia2 Ib2] [(xs & D3 & D4) E2].
      apply M_ret. intros a3 b3 [Ea3 Eb3 _ _]. split; cbn [fst snd].
      + exists xs. split; eapply hden_ext; eauto.
      + congruence.
  Qed.

  (** [F] is what the script adds when started from these values *)
  Definition need (cs : list C) (vs : list V) (F : list (dd L)) : Prop :=
    forall fuel a ms, AInv a -> hden a ms vs -> foot a (g_script m_call fuel cs ms) F.

  Lemma need_ex cs vs b ms : AInv b -> hden b ms vs -> Forall ok vs -> exists F, need cs vs F.
  Proof.
    intros Ib Db Hok. destruct (m_total cs vs Hok) as (fuel & Ht). destruct (Ht b ms Ib Db) as (Q & Hw).
    destruct (runs_ex _ Q b Ib Hw) as (tr & Hr). exists tr. intros fuel' a ms' Ia Da.
    exact (sim_foot _ a b _ _ (g_script_sim cs vs fuel' fuel a b ms' ms Ia Ib Da Db) Ia Ib tr tr Hr (incl_refl _) (fun t X => or_intror X)).
  Qed.

  Definition tfoot (a : arena L) (t : gthread L M C B) : Prop :=
    exists vs, Forall ok vs /\ hden a (gt_init t) vs /\ forall F, need (gt_script t) vs F -> foot a (gt_prog t) F.
  Definition covered (p : gpool L M C B) (d : dd L) : Prop :=
    exists t vs, In t (gp_threads p) /\ hden (gp_arena p) (gt_init t) vs /\ forall F, need (gt_script t) vs F -> In d F.
  Definition store_ok (p : gpool L M C B) : Prop :=
    Forall (tfoot (gp_arena p)) (gp_threads p) /\
    forall d, stored (gp_arena p) d -> (exists c, d = Leaf c) \/ covered p d.

  Lemma tfoot_ext a a' t : ext a a' -> tfoot a t -> tfoot a' t.
  Proof.
    intros E (vs & Hok & D & Hf). exists vs. split; auto. split; [eapply hden_ext; eauto|].
    intros F HF. eapply foot_ext; eauto.
  Qed.
  Lemma new_stored (d : dd L) : stored a_new d -> exists c, d = Leaf c.
  Proof.
    intros (i & D). pose proof (den_bound _ _ _ D) as Hi. change (length (a_nodes (@a_new L _))) with 2 in Hi.
    inversion D as [j n t Hg Hn]; subst. destruct i as [|[|i]]; [| |lia]; cbn in Hg; inversion Hg; subst; inversion Hn; subst; eauto.
  Qed.
  Lemma hpick (a : arena L) (d ms : list M) : incl ms d ->
    Forall (fun m => exists v, ok v /\ mden a m v) d -> exists vs, Forall ok vs /\ hden a ms vs.
  Proof.
    intros I0 Hd. rewrite Forall_forall in Hd. induction ms as [|m ms IH].
    - exists []. split; constructor.
    - destruct IH as (vs & Ho & D); [intros x Hx; apply I0; right; auto|].
      destruct (Hd m) as (v & Ov & Dv); [apply I0; left; auto|]. exists (v :: vs). split; constructor; auto.
  Qed.

  Lemma store_step p q : gpool_reach m_call p -> store_ok p -> gpool_step m_call p q -> store_ok q.
  Proof.
    intros Hp [Ht Hc] Hs. destruct (base p Hp) as [I0 Hd].
    inversion Hs as [a ts d fuel cs ms Hi|a ts1 ts2 d fuel cs ms pr a' pr' Hpr|a ts d fuel cs ms rs os Hin]; subst; cbn [gp_arena gp_threads gp_done] in *.
    - split; cbn [gp_arena gp_threads].
      + apply Forall_app. split; auto. constructor; [|constructor]. destruct (hpick a d ms Hi Hd) as (vs & Ho & D).
        exists vs. split; auto. split; auto. intros F HF. apply HF; auto.
      + intros x Hx. destruct (Hc x Hx) as [X|(t & vs & Hin & D & Hn)]; auto. right. exists t, vs. split; auto.
        apply in_or_app; auto.
    - pose proof Ht as Ht0. apply Forall_app in Ht. destruct Ht as [Ht1 Ht2]. inversion Ht2 as [|x l Hx Hl]; subst.
      destruct Hx as (vs & Hok & D & Hf). cbn [gt_init gt_script gt_prog] in *.
      destruct (need_ex cs vs a ms I0 D Hok) as (F0 & HF0).
      destruct (foot_step pr F0 a pr' a' I0 (Hf F0 HF0) Hpr) as (I1 & E1 & _ & _ & _).
      split; cbn [gp_arena gp_threads].
      + apply Forall_app. split; [eapply Forall_impl; [|exact Ht1]; intros t; apply tfoot_ext; auto|].
        constructor; [|eapply Forall_impl; [|exact Hl]; intros t; apply tfoot_ext; auto].
        exists vs. split; auto. split; [eapply hden_ext; eauto|]. cbn [gt_init gt_script gt_prog]. intros F HF.
        destruct (foot_step pr F a pr' a' I0 (Hf F HF) Hpr) as (_ & _ & X & _). exact X.
      + intros x Hx. unfold covered; cbn [gp_arena gp_threads].
        destruct (foot_new pr F0 a pr' a' x I0 (Hf F0 HF0) Hpr Hx) as [X|X].
        * destruct (Hc x X) as [Y|(t & ws & Hin & Dt & Hn)]; auto. right. cbn [gp_arena gp_threads] in Hin, Dt.
          apply in_app_or in Hin. destruct Hin as [Hin|[<-|Hin]].
          { exists t, ws. split; [apply in_or_app; auto|]. split; auto. eapply hden_ext; eauto. }
          { exists (mkGT fuel cs ms pr'), ws. split; [apply in_or_app; right; left; auto|]. split; auto. eapply hden_ext; eauto. }
          { exists t, ws. split; [apply in_or_app; right; right; auto|]. split; auto. eapply hden_ext; eauto. }
        * right. exists (mkGT fuel cs ms pr'), vs. split; [apply in_or_app; right; left; auto|].
          split; [eapply hden_ext; eauto|]. cbn [gt_script]. intros F HF. apply X, Hf; auto.
    - split; auto.
  Qed.
  Lemma store_reach p : gpool_reach m_call p -> store_ok p.
  Proof.
    intros Hp. induction Hp as [|p q Hp IH Hs].
    - split; [constructor|]. intros d Hd. left. apply new_stored; auto.
    - eapply store_step; eauto.
  Qed.

  (** a thread that has finished has stored all its script needs *)
  Lemma finished_stored p t vs r : gpool_reach m_call p -> In t (gp_threads p) -> hden (gp_arena p) (gt_init t) vs ->
    gt_prog t = Ret r -> Forall ok vs /\ forall F, need (gt_script t) vs F -> forall d, In d F -> stored (gp_arena p) d.
  Proof.
    intros Hp Hin D E. destruct (store_reach p Hp) as [Ht _]. rewrite Forall_forall in Ht.
    destruct (Ht t Hin) as (ws & Hok & D' & Hf). rewrite (hden_fun _ _ _ _ D D'). split; auto.
    intros F HF. specialize (Hf F HF). rewrite E in Hf. exact Hf.
  Qed.

  Theorem pool_store_incl p q : gpool_reach m_call p -> gpool_reach m_call q ->
    (forall t, In t (gp_threads p) -> exists u vs r, In u (gp_threads q) /\ gt_script u = gt_script t /\
        Forall2 (mden (gp_arena p)) (gt_init t) vs /\ Forall2 (mden (gp_arena q)) (gt_init u) vs /\ gt_prog u = Ret r) ->
    (forall d, stored (gp_arena p) d -> stored (gp_arena q) d) /\
    length (a_nodes (gp_arena p)) <= length (a_nodes (gp_arena q)).
  Proof.
    intros Hp Hq Hm. destruct (base p Hp) as [Ip _]. destruct (base q Hq) as [Iq _].
    assert (X : forall d, stored (gp_arena p) d -> stored (gp_arena q) d).
    { intros d Hd. destruct (store_reach p Hp) as [_ Hc]. destruct (Hc d Hd) as [(c & ->)|(t & vs & Hin & D & Hn)].
      - eexists. apply den_leaf; auto.
      - destruct (Hm t Hin) as (u & ws & r & Hu & Es & D1 & D2 & Er).
        rewrite (hden_fun _ _ _ _ D D1) in Hn. destruct (finished_stored q u ws r Hq Hu D2 Er) as [Hok Hst].
        destruct (need_ex (gt_script u) ws (gp_arena q) (gt_init u) Iq D2 Hok) as (F & HF).
        apply (Hst F HF). apply Hn. rewrite <- Es. exact HF. }
    split; auto. apply store_le; auto.
  Qed.

  Theorem pool_no_growth p t u vs r a' k : gpool_reach m_call p -> In t (gp_threads p) -> In u (gp_threads p) ->
    gt_script u = gt_script t -> Forall2 (mden (gp_arena p)) (gt_init t) vs -> Forall2 (mden (gp_arena p)) (gt_init u) vs ->
    gt_prog u = Ret r -> pstep (gp_arena p) (gt_prog t) a' k -> a' = gp_arena p.
  Proof.
    intros Hp Ht Hu Es D1 D2 Er Hs. destruct (base p Hp) as [Ip _].
    destruct (finished_stored p u vs r Hp Hu D2 Er) as [Hok Hst].
    destruct (need_ex (gt_script u) vs (gp_arena p) (gt_init u) Ip D2 Hok) as (F & HF).
    destruct (store_reach p Hp) as [Hf _]. rewrite Forall_forall in Hf. destruct (Hf t Ht) as (ws & _ & D3 & Hf').
    rewrite (hden_fun _ _ _ _ D1 D3) in *. rewrite Es in HF, Hst.
    destruct (foot_step (gt_prog t) F (gp_arena p) k a' Ip (Hf' F HF) Hs) as (_ & _ & _ & _ & X).
    apply X. exact (Hst F HF).
  Qed.
End PoolStore.

(** Programs that never take the write lock. *)
Fixpoint no_add {L R} (p : prog L R) : Prop :=
  match p with
  | Get _ k => forall n, no_add (k n)
  | Find _ k => forall o, no_add (k o)
  | Add _ _ => False
  | _ => True
  end.
Lemma no_add_bind {L A B} (p : prog L A) (f : A -> prog L B) : no_add p -> (forall x, no_add (f x)) -> no_add (pbind p f).
Proof. intros Hp Hf. induction p as [r|i k IH|n k IH|n k IH| |]; simpl in *; auto; contradiction. Qed.
Lemma no_add_step {L R} `{Ord L} (a : arena L) (p : prog L R) a' p' : no_add p -> pstep a p a' p' -> no_add p' /\ a' = a.
Proof. intros Hp Hs. inversion Hs; subst; simpl in *; auto; contradiction. Qed.
Lemma no_add_get {L} (i : nat) : no_add (@get_node L i).
Proof. intros n. exact I. Qed.

Section ReadOnly.
  Context {L M C B : Type} `{Ord L}.
  Variable m_call : nat -> list M -> C -> prog L (list M * B).
  Variable reading : C -> bool.
  Hypothesis reads : forall c fuel ms, reading c = true -> no_add (m_call fuel ms c).
  Lemma reads_script cs : forallb reading cs = true -> forall fuel ms, no_add (g_script m_call fuel cs ms).
  Proof.
    induction cs as [|c cs IH]; simpl; [intros _ fuel ms; exact I|]. intros E fuel ms. apply andb_prop in E. destruct E as [E1 E2].
    apply no_add_bind; auto. intros x. apply no_add_bind; auto. intros y. exact I.
  Qed.
  Lemma reads_reach p : gpool_reach m_call p ->
    Forall (fun t => forallb reading (gt_script t) = true -> no_add (gt_prog t)) (gp_threads p).
  Proof.
    intros Hp. induction Hp as [|p q Hp IH Hs]; [constructor|].
    inversion Hs as [a ts d fuel cs ms Hi|a ts1 ts2 d fuel cs ms pr a' pr' Hpr|a ts d fuel cs ms rs os Hin]; subst; cbn [gp_threads] in *; auto.
    - apply Forall_app. split; auto. constructor; [|constructor]. cbn [gt_script gt_prog]. intros E. apply reads_script; auto.
    - apply Forall_app in IH. destruct IH as [I1 I2]. inversion I2 as [|x l Hx Hl]; subst. apply Forall_app. split; auto.
      constructor; auto. cbn [gt_script gt_prog] in *. intros E. exact (proj1 (no_add_step _ _ _ _ (Hx E) Hpr)).
  Qed.
  Theorem pool_reads p t a' k : gpool_reach m_call p -> In t (gp_threads p) -> forallb reading (gt_script t) = true ->
    pstep (gp_arena p) (gt_prog t) a' k -> a' = gp_arena p.
  Proof.
    intros Hp Ht Hr Hs. pose proof (reads_reach p Hp) as X. rewrite Forall_forall in X.
    exact (proj2 (no_add_step _ _ _ _ (X t Ht Hr) Hs)).
  Qed.
End ReadOnly.
