(** LockProofs: every fine-grained execution of LockModel.v is an execution of PoolModel.v,
    with each access at one instant. *)
From Coq Require Import List Arith Lia Bool Permutation Sorted.
From Verif Require Import Base DD ArenaModel ArenaProofs PoolModel LockModel.
Import ListNotations.

(** one step of a thread, as a relation *)
Inductive lstep {L R} `{Ord L} : arena L -> rwlock -> prog L R -> phase L ->
                                 arena L -> rwlock -> prog L R -> phase L -> Prop :=
(* ARENA.read().unwrap() *)
| L_read_get a l i k : lk_writer l = false -> lk_poisoned l = false ->
    lstep a l (Get i k) Out a (take_read l) (Get i k) RIn
| L_read_find a l n k : lk_writer l = false -> lk_poisoned l = false ->
    lstep a l (Find n k) Out a (take_read l) (Find n k) RIn
(* get_by_id, the guard dropped at the end of the expression; a missing node panics
   with a read guard, which does not poison *)
| L_get a l i k : lstep a l (Get i k) RIn a l (Get i k) (RGot (a_get a i))
| L_get_out a l i k n : lstep a l (Get i k) (RGot (Some n)) a (drop_read l) (k n) Out
| L_get_panic a l i k : lstep a l (Get i k) (RGot None) a (drop_read l) Panic Out
(* get_by_node, the guard dropped at the end of the block *)
| L_find a l n k : lstep a l (Find n k) RIn a l (Find n k) (RFound (a_find a n))
| L_find_out a l n k o : lstep a l (Find n k) (RFound o) a (drop_read l) (k o) Out
(* ARENA.write().unwrap() *)
| L_write a l n k : lk_writer l = false -> lk_readers l = 0 -> lk_poisoned l = false ->
    lstep a l (Add n k) Out a (take_write l) (Add n k) WIn
(* add: the entry of the index; then nodes.push; then entry.insert *)
| L_occupied a l n k i : idx_get (a_index a) n = Some i -> lstep a l (Add n k) WIn a l (Add n k) (WDone i)
| L_vacant a l n k : idx_get (a_index a) n = None ->
    lstep a l (Add n k) WIn a l (Add n k) (WVacant (length (a_nodes a)))
| L_push a l n k i : lstep a l (Add n k) (WVacant i) (mkA (a_nodes a ++ [n]) (a_index a)) l (Add n k) (WPushed i)
| L_insert a l n k i : lstep a l (Add n k) (WPushed i) (mkA (a_nodes a) ((n, i) :: a_index a)) l (Add n k) (WDone i)
| L_write_out a l n k i : lstep a l (Add n k) (WDone i) a (drop_write l) (k i) Out
(* .unwrap() of a poisoned lock *)
| L_poisoned a l p : lk_poisoned l = true -> lk_writer l = false -> (match p with Get _ _ | Find _ _ | Add _ _ => True | _ => False end) ->
    lstep a l p Out a l Panic Out.

Lemma lstep_next {L R} `{Ord L} a l (p : prog L R) ph a' l' p' ph' :
  l_next a l p ph = Some (a', l', p', ph') -> lstep a l p ph a' l' p' ph'.
Proof.
  intros E. destruct p; destruct ph as [| |[?|]|?| |?|?|?]; simpl in E; try discriminate.
  all: try (destruct (lk_writer l) eqn:W; [discriminate|]; simpl in E).
  all: try (destruct (lk_readers l =? 0) eqn:Z; [|discriminate]; simpl in E; apply Nat.eqb_eq in Z).
  all: try (destruct (lk_poisoned l) eqn:P).
  all: try (destruct (idx_get (a_index a) n) eqn:Ei).
  all: injection E as <- <- <- <-; constructor; auto.
Qed.
Lemma next_lstep {L R} `{Ord L} a l (p : prog L R) ph a' l' p' ph' : lk_poisoned l = false ->
  lstep a l p ph a' l' p' ph' -> l_next a l p ph = Some (a', l', p', ph').
Proof.
  intros P X. inversion X; subst; simpl; try reflexivity; try congruence.
  all: repeat match goal with E : lk_writer _ = false |- _ => rewrite E; clear E end; simpl.
  all: repeat match goal with E : lk_readers _ = 0 |- _ => rewrite E; clear E end; simpl.
  all: rewrite ?P; try reflexivity.
  all: match goal with E : idx_get _ _ = _ |- _ => rewrite E end; reflexivity.
Qed.

Section Lock.
  Context {L M C B : Type} `{Ord L}.
  Variable m_call : nat -> list M -> C -> prog L (list M * B).
  Notation thread := (gthread L M C B * phase L)%type.
  Notation fp := (fpool L M C B).

  Definition reading (ph : phase L) : bool :=
    match ph with RIn | RGot _ | RFound _ => true | _ => false end.
  Definition writing (ph : phase L) : bool :=
    match ph with WIn | WVacant _ | WPushed _ | WDone _ => true | _ => false end.
  Definition midway (ph : phase L) : bool := match ph with WPushed _ => true | _ => false end.
  Definition cnt (f : phase L -> bool) (ts : list thread) : nat := length (filter (fun t => f (snd t)) ts).

  Lemma cnt_app f xs ys : cnt f (xs ++ ys) = cnt f xs + cnt f ys.
  Proof. unfold cnt. rewrite filter_app, app_length. reflexivity. Qed.
  Lemma cnt_cons f t ts : cnt f (t :: ts) = (if f (snd t) then 1 else 0) + cnt f ts.
  Proof. unfold cnt. simpl. destruct (f (snd t)); reflexivity. Qed.
  Lemma cnt_nil f : cnt f [] = 0.
  Proof. reflexivity. Qed.
  Lemma cnt_zero f ts : cnt f ts = 0 -> forall t, In t ts -> f (snd t) = false.
  Proof.
    intros E t Ht. destruct (f (snd t)) eqn:F; auto. exfalso.
    unfold cnt in E. apply length_zero_iff_nil in E.
    assert (Hin : In t (filter (fun t => f (snd t)) ts)) by (apply filter_In; auto).
    rewrite E in Hin. exact Hin.
  Qed.

  (** the program as if the access had happened at its instant *)
  Definition as_if {R} (p : prog L R) (ph : phase L) : prog L R :=
    match ph, p with
    | RGot (Some n), Get _ k => k n
    | RGot None, Get _ _ => Panic
    | RFound o, Find _ k => k o
    | WDone i, Add _ k => k i
    | _, _ => p
    end.
  Definition abs_thread (t : thread) : gthread L M C B :=
    mkGT (gt_fuel (fst t)) (gt_script (fst t)) (gt_init (fst t)) (as_if (gt_prog (fst t)) (snd t)).
  Definition abs_arena (a : arena L) (ts : list thread) : arena L :=
    if existsb (fun t => midway (snd t)) ts then mkA (removelast (a_nodes a)) (a_index a) else a.
  Definition abs (f : fp) : gpool L M C B :=
    mkGP (abs_arena (fp_arena f) (fp_threads f)) (map abs_thread (fp_threads f)) (fp_done f).

  (** the phase fits the program and the store *)
  Definition tok {R} (a : arena L) (p : prog L R) (ph : phase L) : Prop :=
    match ph with
    | Out => True
    | RIn => (exists i k, p = Get i k) \/ (exists n k, p = Find n k)
    | RGot o => exists i k, p = Get i k /\ o = a_get a i
    | RFound o => exists n k, p = Find n k /\ o = a_find a n
    | WIn => exists n k, p = Add n k
    | WVacant i => exists n k, p = Add n k /\ idx_get (a_index a) n = None /\ i = length (a_nodes a)
    | WPushed i => exists n k ns, p = Add n k /\ idx_get (a_index a) n = None /\ a_nodes a = ns ++ [n] /\ i = length ns
    | WDone i => exists n k, p = Add n k
    end.
  Definition tokt (a : arena L) (t : thread) : Prop := tok a (gt_prog (fst t)) (snd t).

  Record FInv (f : fp) : Prop := {
    fi_readers : lk_readers (fp_lock f) = cnt reading (fp_threads f);
    fi_writer : (if lk_writer (fp_lock f) then 1 else 0) = cnt writing (fp_threads f);
    fi_excl : cnt reading (fp_threads f) = 0 \/ cnt writing (fp_threads f) = 0;
    fi_poison : lk_poisoned (fp_lock f) = false;
    fi_tok : forall t, In t (fp_threads f) -> tokt (fp_arena f) t
  }.

  Lemma mid_writing ph : midway ph = true -> writing ph = true.
  Proof. destruct ph; simpl; congruence. Qed.
  Lemma mid_none ts : cnt writing ts = 0 -> existsb (fun t : thread => midway (snd t)) ts = false.
  Proof.
    intros E. destruct (existsb (fun t : thread => midway (snd t)) ts) eqn:X; auto.
    apply existsb_exists in X. destruct X as (t & Ht & Hm). apply mid_writing in Hm.
    rewrite (cnt_zero _ _ E t Ht) in Hm. discriminate.
  Qed.
  Lemma mid_app xs ys : existsb (fun t : thread => midway (snd t)) (xs ++ ys) =
    existsb (fun t : thread => midway (snd t)) xs || existsb (fun t : thread => midway (snd t)) ys.
  Proof. apply existsb_app. Qed.

  Lemma quiet_tok (a a' : arena L) (t : thread) : reading (snd t) = false -> writing (snd t) = false -> tokt a t -> tokt a' t.
  Proof. destruct t as [g ph]. unfold tokt. destruct ph; simpl; intros; try discriminate; auto. Qed.

  (** a move, spelled out *)
  Lemma move_refines f g j : FInv f -> fmove j f g -> FInv g /\ (abs g = abs f \/ gpool_step m_call (abs f) (abs g)).
  Proof.
    intros [IR IW IE IP IT] X. destruct X as [a l ts1 ts2 d fuel cs ms p ph a' l' p' ph' X].
    apply lstep_next in X. simpl in IR, IW, IE, IP, IT.
    rewrite cnt_app, cnt_cons in IR, IW. rewrite !cnt_app, !cnt_cons in IE. cbn [snd] in IR, IW, IE.
    assert (T1 : forall t, In t ts1 -> tokt a t) by (intros; apply IT; apply in_or_app; auto).
    assert (T2 : forall t, In t ts2 -> tokt a t) by (intros; apply IT; apply in_or_app; right; right; auto).
    assert (T0 : tokt a (mkGT fuel cs ms p, ph)) by (apply IT; apply in_or_app; right; left; auto).
    unfold tokt in T0. cbn [fst snd gt_prog] in T0.
    (* the others when this one writes *)
    assert (Alone : writing ph = true -> cnt reading ts1 = 0 /\ cnt reading ts2 = 0 /\ cnt writing ts1 = 0 /\ cnt writing ts2 = 0).
    { intros W. rewrite W in *. assert (Rd : reading ph = false) by (destruct ph; simpl in *; congruence).
      destruct (lk_writer l); lia. }
    assert (NoMid : cnt writing ts1 = 0 -> cnt writing ts2 = 0 -> forall t, 
              existsb (fun t : thread => midway (snd t)) (ts1 ++ t :: ts2) = midway (snd t)).
    { intros W1 W2 t. rewrite mid_app. simpl. rewrite (mid_none _ W1), (mid_none _ W2), orb_false_r. reflexivity. }
    assert (Keep : forall q ph2 (l2 : rwlock), tok a q ph2 -> forall t, In t (ts1 ++ (mkGT fuel cs ms q, ph2) :: ts2) -> tokt a t).
    { intros q ph2 l2 K t Ht. apply in_app_or in Ht. destruct Ht as [Ht|[Ht|Ht]]; auto. subst t. exact K. }
    assert (Chg : cnt reading ts1 = 0 /\ cnt reading ts2 = 0 /\ cnt writing ts1 = 0 /\ cnt writing ts2 = 0 ->
              forall a2 q ph2, tok a2 q ph2 -> forall t, In t (ts1 ++ (mkGT fuel cs ms q, ph2) :: ts2) -> tokt a2 t).
    { intros (R1 & R2 & W1 & W2) a2 q ph2 K t Ht. apply in_app_or in Ht. destruct Ht as [Ht|[Ht|Ht]].
      - eapply quiet_tok; [exact (cnt_zero _ _ R1 t Ht)|exact (cnt_zero _ _ W1 t Ht)|auto].
      - subst t. exact K.
      - eapply quiet_tok; [exact (cnt_zero _ _ R2 t Ht)|exact (cnt_zero _ _ W2 t Ht)|auto]. }
    assert (Same : forall l2 q ph2, midway ph = midway ph2 -> as_if q ph2 = as_if p ph ->
              abs (mkFP a l2 (ts1 ++ (mkGT fuel cs ms q, ph2) :: ts2) d) = abs (mkFP a l (ts1 ++ (mkGT fuel cs ms p, ph) :: ts2) d)).
    { intros l2 q ph2 Em Eq. unfold abs, abs_arena. simpl. rewrite !mid_app. simpl. rewrite Em.
      rewrite !map_app. simpl. unfold abs_thread at 2 5. simpl. rewrite Eq. reflexivity. }
    inversion X; subst; clear X; cbn [reading writing midway] in *.
    - (* read_get *)
      split; [constructor; simpl; rewrite ?cnt_app, ?cnt_cons; cbn [snd reading writing]|left; apply Same; reflexivity].
      + lia.
      + lia.
      + match goal with E : lk_writer _ = false |- _ => rewrite E in IW end. lia.
      + assumption.
      + apply (Keep _ _ l). left. eauto.
    - (* read_find *)
      split; [constructor; simpl; rewrite ?cnt_app, ?cnt_cons; cbn [snd reading writing]|left; apply Same; reflexivity].
      + lia.
      + lia.
      + match goal with E : lk_writer _ = false |- _ => rewrite E in IW end. lia.
      + assumption.
      + apply (Keep _ _ l). right. eauto.
    - (* get *)
      split; [constructor; simpl; rewrite ?cnt_app, ?cnt_cons; cbn [snd reading writing]; try lia; auto|right].
      + apply (Keep _ _ l'). simpl. eauto.
      + assert (W : cnt writing ts1 = 0 /\ cnt writing ts2 = 0) by lia. destruct W as [W1 W2].
        unfold abs, abs_arena. simpl. rewrite !(NoMid W1 W2). cbn [snd midway]. rewrite !map_app. simpl.
        unfold abs_thread at 2 5. simpl. apply GS_thread.
        destruct (a_get a' i) as [n|] eqn:E; simpl.
        * apply P_get. exact E.
        * apply P_get_panic. exact E.
    - (* get_out *)
      split; [constructor; simpl; rewrite ?cnt_app, ?cnt_cons; cbn [snd reading writing]; try lia; auto|left; apply Same; reflexivity].
      apply (Keep _ _ l). exact I.
    - (* get_panic *)
      split; [constructor; simpl; rewrite ?cnt_app, ?cnt_cons; cbn [snd reading writing]; try lia; auto|left; apply Same; reflexivity].
      apply (Keep _ _ l). exact I.
    - (* find *)
      split; [constructor; simpl; rewrite ?cnt_app, ?cnt_cons; cbn [snd reading writing]; try lia; auto|right].
      + apply (Keep _ _ l'). simpl. eauto.
      + assert (W : cnt writing ts1 = 0 /\ cnt writing ts2 = 0) by lia. destruct W as [W1 W2].
        unfold abs, abs_arena. simpl. rewrite !(NoMid W1 W2). cbn [snd midway]. rewrite !map_app. simpl.
        unfold abs_thread at 2 5. simpl. apply GS_thread. apply P_find.
    - (* find_out *)
      split; [constructor; simpl; rewrite ?cnt_app, ?cnt_cons; cbn [snd reading writing]; try lia; auto|left; apply Same; reflexivity].
      apply (Keep _ _ l). exact I.
    - (* write *)
      split; [constructor; simpl; rewrite ?cnt_app, ?cnt_cons; cbn [snd reading writing]|left; apply Same; reflexivity].
      + lia.
      + match goal with E : lk_writer _ = false |- _ => rewrite E in IW end. lia.
      + lia.
      + assumption.
      + apply (Keep _ _ l). simpl. eauto.
    - (* occupied *)
      destruct (Alone eq_refl) as (R1 & R2 & W1 & W2).
      split; [constructor; simpl; rewrite ?cnt_app, ?cnt_cons; cbn [snd reading writing]; try lia; auto|right].
      + apply (Keep _ _ l'). simpl. eauto.
      + unfold abs, abs_arena. simpl. rewrite !(NoMid W1 W2). cbn [snd midway]. rewrite !map_app. simpl.
        unfold abs_thread at 2 5. simpl. apply GS_thread.
        match goal with E : idx_get _ _ = Some _ |- _ => rename E into Ei end.
        assert (Ea : a_add a' n = (a', i)) by (unfold a_add; rewrite Ei; reflexivity).
        pose proof (P_add a' n k) as PA. rewrite Ea in PA. exact PA.
    - (* vacant *)
      destruct (Alone eq_refl) as (R1 & R2 & W1 & W2).
      split; [constructor; simpl; rewrite ?cnt_app, ?cnt_cons; cbn [snd reading writing]; try lia; auto|left; apply Same; reflexivity].
      apply (Keep _ _ l'). simpl. eauto.
    - (* push *)
      destruct (Alone eq_refl) as (R1 & R2 & W1 & W2).
      destruct T0 as (n0 & k0 & En & Ei & El). injection En as <- <-.
      split; [constructor; simpl; rewrite ?cnt_app, ?cnt_cons; cbn [snd reading writing]; try lia; auto|left].
      + apply (Chg (conj R1 (conj R2 (conj W1 W2)))). simpl. exists n, k, (a_nodes a). auto.
      + unfold abs, abs_arena. simpl. rewrite !(NoMid W1 W2). cbn [snd midway]. rewrite !map_app. simpl.
        rewrite removelast_last. destruct a. reflexivity.
    - (* insert *)
      destruct (Alone eq_refl) as (R1 & R2 & W1 & W2).
      destruct T0 as (n0 & k0 & ns & En & Ei & El & Eln). injection En as <- <-.
      split; [constructor; simpl; rewrite ?cnt_app, ?cnt_cons; cbn [snd reading writing]; try lia; auto|right].
      + apply (Chg (conj R1 (conj R2 (conj W1 W2)))). simpl. eauto.
      + unfold abs, abs_arena. simpl. rewrite !(NoMid W1 W2). cbn [snd midway]. rewrite !map_app. simpl.
        unfold abs_thread at 2 5. simpl. apply GS_thread.
        rewrite El, removelast_last.
        assert (Ea : a_add (mkA ns (a_index a)) n = (mkA (ns ++ [n]) ((n, i) :: a_index a), i)).
        { unfold a_add. simpl. rewrite Ei, Eln. reflexivity. }
        pose proof (P_add (mkA ns (a_index a)) n k) as PA. rewrite Ea in PA. exact PA.
    - (* write_out *)
      destruct (Alone eq_refl) as (R1 & R2 & W1 & W2).
      split; [constructor; simpl; rewrite ?cnt_app, ?cnt_cons; cbn [snd reading writing]; try lia; auto|left; apply Same; reflexivity].
      apply (Keep _ _ l). exact I.
    - (* poisoned *) congruence.
  Qed.

  Lemma step_refines f g : FInv f -> fpool_step m_call f g -> FInv g /\ (abs g = abs f \/ gpool_step m_call (abs f) (abs g)).
  Proof.
    intros I0 X. inversion X; subst; clear X.
    - destruct I0 as [IR IW IE IP IT]. simpl in *. split.
      + constructor; simpl; rewrite ?cnt_app, ?cnt_cons, ?cnt_nil; cbn [snd reading writing]; try lia; auto.
        intros t Ht. apply in_app_or in Ht. destruct Ht as [Ht|[Ht|[]]]; auto. subst t. exact I.
      + right. unfold abs, abs_arena. simpl. rewrite mid_app. simpl. rewrite orb_false_r, map_app. simpl.
        apply GS_spawn. assumption.
    - eapply move_refines; eauto.
    - destruct I0 as [IR IW IE IP IT]. simpl in *. split.
      + constructor; simpl; auto.
      + right. unfold abs, abs_arena. simpl. eapply (GS_share m_call _ _ _ fuel cs ms rs os).
        match goal with E : In _ ts |- _ => rename E into Hin end.
        apply in_map with (f := abs_thread) in Hin.
        assert (E : abs_thread (mkGT fuel cs ms (Ret (rs, os)), ph) = mkGT fuel cs ms (Ret (rs, os))).
        { unfold abs_thread. simpl. destruct ph as [| |[?|]| | | | |]; reflexivity. }
        rewrite E in Hin. exact Hin.
  Qed.

  Lemma start_inv : FInv (mkFP a_new lk_new [] []).
  Proof. constructor; simpl; auto. intros t []. Qed.

  Theorem fine_is_atomic f : fpool_reach m_call f -> FInv f /\ gpool_reach m_call (abs f).
  Proof.
    induction 1 as [|f g R IH S].
    - split; [apply start_inv|]. apply GR_start.
    - destruct IH as [I0 G]. destruct (step_refines f g I0 S) as [I1 [E|S']]; split; auto.
      + rewrite E. exact G.
      + eapply GR_step; eauto.
  Qed.

  (** ** every atomic execution is a fine-grained one *)
  Definition lift (g : gpool L M C B) : fp :=
    mkFP (gp_arena g) lk_new (map (fun t => (t, Out)) (gp_threads g)) (gp_done g).
  Lemma no_mid_lift ts : existsb (fun t : thread => midway (snd t)) (map (fun t => (t, Out)) ts) = false.
  Proof. induction ts; simpl; auto. Qed.
  Lemma abs_lift g : abs (lift g) = g.
  Proof.
    destruct g as [a ts d]. unfold abs, lift, abs_arena. simpl. rewrite no_mid_lift. f_equal.
    rewrite map_map. rewrite <- (map_id ts) at 2. apply map_ext. intros [? ? ? ?]. reflexivity.
  Qed.
  Lemma atomic_is_fine g : gpool_reach m_call g -> fpool_reach m_call (lift g).
  Proof.
    induction 1 as [|p q R IH S].
    - apply FR_start.
    - inversion S; subst; clear S.
      + unfold lift in *. simpl in *. rewrite map_app. simpl. eapply FR_step; [exact IH|]. apply FS_spawn. assumption.
      + unfold lift in *. simpl in *. rewrite map_app in *. simpl in *.
        set (t1 := map (fun t => (t, Out)) ts1) in *. set (t2 := map (fun t => (t, Out)) ts2) in *.
        assert (St : forall a1 l1 p1 ph1 a2 l2 p2 ph2,
                  fpool_reach m_call (mkFP a1 l1 (t1 ++ (mkGT fuel cs ms p1, ph1) :: t2) d) ->
                  l_next a1 l1 p1 ph1 = Some (a2, l2, p2, ph2) ->
                  fpool_reach m_call (mkFP a2 l2 (t1 ++ (mkGT fuel cs ms p2, ph2) :: t2) d)).
        { intros a1 l1 p1 ph1 a2 l2 p2 ph2 R1 S1. eapply FR_step; [exact R1|]. eapply FS_thread. apply FM. exact S1. }
        match goal with E : pstep _ _ _ _ |- _ => inversion E; subst; clear E end.
        * match goal with E : a_get _ _ = Some _ |- _ => rename E into Eg end.
          eapply St in IH; [|reflexivity]. eapply St in IH; [|reflexivity].
          rewrite Eg in IH. eapply St in IH; [|reflexivity]. exact IH.
        * match goal with E : a_get _ _ = None |- _ => rename E into Eg end.
          eapply St in IH; [|reflexivity]. eapply St in IH; [|reflexivity].
          rewrite Eg in IH. eapply St in IH; [|reflexivity]. exact IH.
        * eapply St in IH; [|reflexivity]. eapply St in IH; [|reflexivity].
          eapply St in IH; [|reflexivity]. exact IH.
        * eapply St in IH; [|reflexivity]. unfold a_add.
          destruct (idx_get (a_index a) n) as [i|] eqn:Ei.
          -- eapply St in IH; [|simpl; rewrite Ei; reflexivity]. eapply St in IH; [|reflexivity]. exact IH.
          -- eapply St in IH; [|simpl; rewrite Ei; reflexivity]. eapply St in IH; [|reflexivity].
             eapply St in IH; [|reflexivity]. eapply St in IH; [|reflexivity]. exact IH.
      + unfold lift in *. simpl in *. eapply FR_step; [exact IH|].
        eapply (FS_share m_call _ _ _ _ fuel cs ms rs os Out).
        match goal with E : In _ ts |- _ => apply in_map with (f := fun t => (t, @Out L)) in E; exact E end.
  Qed.

  (** ** termination *)
  Definition rank (ph : phase L) : nat :=
    match ph with
    | Out => 5 | WIn => 4 | WVacant _ => 3 | WPushed _ => 2 | RIn => 2
    | WDone _ => 1 | RGot _ => 1 | RFound _ => 1
    end.
  Definition tmove {R} (y x : prog L R * phase L) : Prop :=
    exists a l a' l', lstep a l (fst x) (snd x) a' l' (fst y) (snd y).
  Lemma stuck_acc {R} (p : prog L R) ph :
    (match p with Ret _ | Panic | OutOfFuel => True | _ => False end) -> Acc tmove (p, ph).
  Proof.
    intros S. constructor. intros [q ph'] (a & l & a' & l' & X). simpl in X.
    inversion X; subst; simpl in S; try contradiction.
    match goal with E : match p with _ => _ end |- _ => destruct p; simpl in *; contradiction end.
  Qed.
  Lemma tmove_acc {R} (p : prog L R) : forall ph, Acc tmove (p, ph).
  Proof.
    induction p as [r|i k IH|n k IH|n k IH| |]; try (intros; apply stuck_acc; exact I).
    - assert (X : forall m ph, rank ph <= m -> Acc tmove (Get i k, ph)).
      { induction m as [|m IHm]; intros ph Hr; [destruct ph; simpl in Hr; lia|].
        constructor. intros [q ph'] (a & l & a' & l' & X). simpl in X.
        inversion X; subst; simpl in Hr; auto; try (apply IHm; simpl; lia); apply stuck_acc; exact I. }
      intros ph. exact (X _ ph (le_n _)).
    - assert (X : forall m ph, rank ph <= m -> Acc tmove (Find n k, ph)).
      { induction m as [|m IHm]; intros ph Hr; [destruct ph; simpl in Hr; lia|].
        constructor. intros [q ph'] (a & l & a' & l' & X). simpl in X.
        inversion X; subst; simpl in Hr; auto; try (apply IHm; simpl; lia); apply stuck_acc; exact I. }
      intros ph. exact (X _ ph (le_n _)).
    - assert (X : forall m ph, rank ph <= m -> Acc tmove (Add n k, ph)).
      { induction m as [|m IHm]; intros ph Hr; [destruct ph; simpl in Hr; lia|].
        constructor. intros [q ph'] (a & l & a' & l' & X). simpl in X.
        inversion X; subst; simpl in Hr; auto; try (apply IHm; simpl; lia); apply stuck_acc; exact I. }
      intros ph. exact (X _ ph (le_n _)).
  Qed.

  Definition tm2 (y x : thread) : Prop := tmove (gt_prog (fst y), snd y) (gt_prog (fst x), snd x).
  Lemma tm2_acc (t : thread) : Acc tm2 t.
  Proof.
    assert (X : forall q, Acc tmove q -> forall t : thread, (gt_prog (fst t), snd t) = q -> Acc tm2 t).
    { induction 1 as [q _ IH]. intros u E. constructor. intros v Hv. unfold tm2 in Hv. rewrite E in Hv. eapply IH; eauto. }
    eapply X; [apply tmove_acc|reflexivity].
  Qed.
  Inductive lmove : list thread -> list thread -> Prop :=
  | LM ts1 t t' ts2 : tm2 t' t -> lmove (ts1 ++ t' :: ts2) (ts1 ++ t :: ts2).
  Lemma lmove_acc ts : Acc lmove ts.
  Proof.
    induction ts as [|t ts IH].
    - constructor. intros ys X. inversion X as [ts1 t t' ts2 _ E1 E2]. destruct ts1; discriminate.
    - revert t. induction IH as [ts _ IH]. intros t. pose proof (tm2_acc t) as At. induction At as [t At IHt].
      constructor. intros ys X. inversion X as [ts1 u u' ts2 Hu E1 E2]. destruct ts1 as [|v ts1]; simpl in *.
      + injection E2 as -> ->. apply IHt. exact Hu.
      + injection E2 as -> E2. apply IH. rewrite <- E2. constructor. exact Hu.
  Qed.
  Lemma fmove_acc (f : fp) : Acc (fun g f => exists j, fmove j f g) f.
  Proof.
    assert (X : forall ts, Acc lmove ts -> forall f, fp_threads f = ts -> Acc (fun g f => exists j, fmove j f g) f).
    { induction 1 as [ts _ IH]. intros f0 E. constructor. intros g (j & X). destruct X as [a l ts1 ts2 d fuel cs ms p ph a' l' p' ph' X].
      simpl in E. eapply IH; [|reflexivity]. simpl. rewrite <- E. constructor. exists a, l, a', l'. apply lstep_next. exact X. }
    eapply X; [apply lmove_acc|reflexivity].
  Qed.

  (** ** progress *)
  Definition holding (ph : phase L) : bool := reading ph || writing ph.
  Definition finished {R} (p : prog L R) : Prop := match p with Ret _ | Panic | OutOfFuel => True | _ => False end.

  Lemma fmove_at a l (ts : list thread) (d : list M) j fuel (cs : list C) ms p ph a' l' p' ph' :
    lk_poisoned l = false -> nth_error ts j = Some (mkGT fuel cs ms p, ph) -> lstep a l p ph a' l' p' ph' ->
    exists ts', fmove j (mkFP a l ts d) (mkFP a' l' ts' d) /\ nth_error ts' j = Some (mkGT fuel cs ms p', ph') /\
      (forall j', j' <> j -> nth_error ts' j' = nth_error ts j').
  Proof.
    intros P E X. apply (next_lstep _ _ _ _ _ _ _ _ P) in X. apply nth_error_split in E. destruct E as (t1 & t2 & -> & El).
    exists (t1 ++ (mkGT fuel cs ms p', ph') :: t2). subst j. split; [apply FM; exact X|]. split.
    - rewrite nth_error_app2, Nat.sub_diag by lia. reflexivity.
    - intros j' N. destruct (Nat.lt_ge_cases j' (length t1)) as [G|G].
      + rewrite !nth_error_app1 by lia. reflexivity.
      + rewrite !nth_error_app2 by lia. destruct (j' - length t1) as [|m] eqn:Em; [lia|]. reflexivity.
  Qed.

  Lemma holder_moves f j t : FInv f -> nth_error (fp_threads f) j = Some t -> holding (snd t) = true ->
    exists g, fmove j f g.
  Proof.
    intros I0 E Hh. destruct f as [a l ts d]. simpl in *. destruct t as [[fuel cs ms p] ph]. simpl in Hh.
    pose proof (fi_poison _ I0) as IP. simpl in IP.
    pose proof (fi_tok _ I0 _ (nth_error_In _ _ E)) as T. unfold tokt in T. simpl in T.
    assert (K : exists a' l' p' ph', lstep a l p ph a' l' p' ph').
    { destruct ph as [| |o|o| |i|i|i]; simpl in *; try discriminate.
      - destruct T as [(i & k & ->)|(n & k & ->)]; do 4 eexists; [apply L_get|apply L_find].
      - destruct T as (i & k & -> & _). destruct o; do 4 eexists; [apply L_get_out|apply L_get_panic].
      - destruct T as (n & k & -> & _). do 4 eexists. apply L_find_out.
      - destruct T as (n & k & ->). destruct (idx_get (a_index a) n) eqn:Ei; do 4 eexists; [apply L_occupied|apply L_vacant]; eauto.
      - destruct T as (n & k & -> & _). do 4 eexists. apply L_push.
      - destruct T as (n & k & ns & -> & _). do 4 eexists. apply L_insert.
      - destruct T as (n & k & ->). do 4 eexists. apply L_write_out. }
    destruct K as (a' & l' & p' & ph' & X). destruct (fmove_at _ _ _ d _ _ _ _ _ _ _ _ _ _ IP E X) as (ts' & Mv & _). eauto.
  Qed.

  Lemma free_moves f j t : FInv f -> (forall u, In u (fp_threads f) -> holding (snd u) = false) ->
    nth_error (fp_threads f) j = Some t -> ~ finished (gt_prog (fst t)) -> exists g, fmove j f g.
  Proof.
    intros I0 Fr E Nf. destruct f as [a l ts d]. simpl in *. destruct t as [[fuel cs ms p] ph]. simpl in Nf.
    assert (C0 : forall f0 : phase L -> bool, (forall ph0, f0 ph0 = true -> holding ph0 = true) -> cnt f0 ts = 0).
    { intros f0 Hf. unfold cnt. apply length_zero_iff_nil. destruct (filter _ ts) as [|u us] eqn:Eq; auto.
      assert (Hu : In u (filter (fun t => f0 (snd t)) ts)) by (rewrite Eq; left; auto).
      apply filter_In in Hu. destruct Hu as [Hu Hu2]. apply Hf in Hu2. rewrite (Fr u Hu) in Hu2. discriminate. }
    destruct I0 as [IR IW IE IP IT]. simpl in *.
    rewrite C0 in IR by (unfold holding; intros ? ->; reflexivity).
    rewrite C0 in IW by (unfold holding; intros ? ->; apply orb_true_r).
    assert (W : lk_writer l = false) by (destruct (lk_writer l); [discriminate|reflexivity]).
    pose proof (Fr _ (nth_error_In _ _ E)) as Hp. simpl in Hp.
    assert (ph = Out) by (destruct ph; simpl in Hp; try discriminate; reflexivity). subst ph.
    assert (K : exists a' l' p' ph', lstep a l p Out a' l' p' ph').
    { destruct p; simpl in Nf; try (exfalso; apply Nf; exact I); do 4 eexists.
      - apply L_read_get; auto.
      - apply L_read_find; auto.
      - apply L_write; auto. }
    destruct K as (a' & l' & p' & ph' & X). destruct (fmove_at _ _ _ d _ _ _ _ _ _ _ _ _ _ IP E X) as (ts' & Mv & _). eauto.
  Qed.

  Lemma some_moves f : FInv f -> (exists t, In t (fp_threads f) /\ ~ finished (gt_prog (fst t))) -> exists j g, fmove j f g.
  Proof.
    intros I0 (t & Ht & Nf).
    destruct (existsb (fun u : thread => holding (snd u)) (fp_threads f)) eqn:X.
    - apply existsb_exists in X. destruct X as (u & Hu & Hh). apply In_nth_error in Hu. destruct Hu as (j & E).
      exists j. eapply holder_moves; eauto.
    - apply In_nth_error in Ht. destruct Ht as (j & E). exists j. eapply free_moves; eauto.
      intros u Hu. destruct (holding (snd u)) eqn:Y; auto. exfalso.
      assert (Z : existsb (fun u : thread => holding (snd u)) (fp_threads f) = true) by (apply existsb_exists; eauto).
      congruence.
  Qed.
End Lock.
