(** GrowthProofs: which diagrams a program may add to the shared store. *)
From Coq Require Import List Arith NArith Lia Bool Permutation Sorted.
From Verif Require Import Base DD Spec Zdd2Model ZddModel ParserModel BddSpec BddModel BddRun ArenaModel ArenaProofs PoolModel ZddProg BddProg.
From Verif Require Import PoolProofs ZddProofs ZddProgProofs BddNode BddProgProofs ArenaSim PoolStore GrowthSpec.
Import ListNotations.
Open Scope nat_scope.

Lemma sub_trans {L} (x y z : dd L) : sub x y -> sub y z -> sub x z.
Proof. intros A B. induction B; auto; [apply sub_low|apply sub_high]; auto. Qed.
Lemma sub_lo {L} l (lo hi t : dd L) : sub (Branch l lo hi) t -> sub lo t.
Proof. apply sub_trans. apply sub_low, sub_refl. Qed.
Lemma sub_hi {L} l (lo hi t : dd L) : sub (Branch l lo hi) t -> sub hi t.
Proof. apply sub_trans. apply sub_high, sub_refl. Qed.

Section Only.
  Context {L : Type} `{Ord L}.
  Implicit Types (a : arena L).
  (** [wpo F a p Q]: from any store extending [a], whatever others add meanwhile,
      [p] adds only diagrams that are in [F] or stored already, and returns [Q] *)
  Fixpoint wpo {R} (F : dd L -> Prop) a (p : prog L R) (Q : arena L -> R -> Prop) : Prop :=
    match p with
    | Ret r => forall a', ext a a' -> AInv a' -> Q a' r
    | Get i k => forall a', ext a a' -> AInv a' -> forall n, a_get a' i = Some n -> wpo F a' (k n) Q
    | Find n k => forall a', ext a a' -> AInv a' -> wpo F a' (k (a_find a' n)) Q
    | Add n k => forall a', ext a a' -> AInv a' ->
        exists t, nden a' n t /\ (stored a' t \/ F t) /\ wpo F (fst (a_add a' n)) (k (snd (a_add a' n))) Q
    | Panic => True
    | OutOfFuel => True
    end.
  Lemma wpo_ext {R} F (p : prog L R) Q a a' : ext a a' -> wpo F a p Q -> wpo F a' p Q.
  Proof. destruct p as [r|i k|n k|n k| |]; simpl; intros E Hw; auto; intros b Hb I0; apply Hw; auto; eapply ext_trans; eauto. Qed.
  Lemma wpo_bind {A B} F (p : prog L A) (f : A -> prog L B) : forall a Q Q', wpo F a p Q ->
    (forall a' r, ext a a' -> AInv a' -> Q a' r -> wpo F a' (f r) Q') -> AInv a -> wpo F a (pbind p f) Q'.
  Proof.
    induction p as [r|i k IH|n k IH|n k IH| |]; intros a Q Q' Hp Hf Ia; simpl in *; auto.
    - apply Hf; [apply ext_refl|auto|]. apply Hp; auto using ext_refl.
    - intros a' E I1 n G. eapply IH; [apply Hp; auto| |auto]. intros b r Eb Ib Hr. apply Hf; auto. eapply ext_trans; eauto.
    - intros a' E I1. eapply IH; [apply Hp; auto| |auto]. intros b r Eb Ib Hr. apply Hf; auto. eapply ext_trans; eauto.
    - intros a' E I1. destruct (Hp a' E I1) as (t & D & S & W). exists t. split; auto. split; auto.
      destruct (a_add_spec a' n I1 (nden_child _ _ _ D)) as (I2 & E2 & _).
      eapply IH; [exact W| |auto]. intros b r Eb Ib Hr. apply Hf; auto. eapply ext_trans; [exact E|]. eapply ext_trans; eauto.
  Qed.
  Lemma wpo_mono {R} (F G : dd L -> Prop) (p : prog L R) : (forall t, F t -> G t) -> forall a (Q Q' : arena L -> R -> Prop), AInv a -> wpo F a p Q ->
    (forall a' r, ext a a' -> AInv a' -> Q a' r -> Q' a' r) -> wpo G a p Q'.
  Proof.
    intros FG. induction p as [r|i k IH|n k IH|n k IH| |]; intros a Q Q' Ia Hp HQ; simpl in *; auto.
    - intros a' E I1 n G0. eapply IH; [auto|apply Hp; auto|]. intros b r Eb Ib. apply HQ; auto. eapply ext_trans; eauto.
    - intros a' E I1. eapply IH; [auto|apply Hp; auto|]. intros b r Eb Ib. apply HQ; auto. eapply ext_trans; eauto.
    - intros a' E I1. destruct (Hp a' E I1) as (t & D & S & W). exists t. split; auto. split; [destruct S; auto|].
      destruct (a_add_spec a' n I1 (nden_child _ _ _ D)) as (I2 & E2 & _).
      eapply IH; [exact I2|exact W|]. intros b r Eb Ib. apply HQ; auto. eapply ext_trans; [exact E|]. eapply ext_trans; eauto.
  Qed.
  Lemma wpo_ret {R} F a (r : R) (Q : arena L -> R -> Prop) : (forall a', ext a a' -> AInv a' -> Q a' r) -> wpo F a (Ret r) Q.
  Proof. auto. Qed.
  Lemma wpo_get F a i t : den a i t -> wpo F a (get_node i) (fun a' n => nden a' n t /\ stored a' t).
  Proof.
    intros D a' E I0 n G b Eb Ib. pose proof (den_ext _ _ _ _ (ext_trans _ _ _ E Eb) D) as Db. split; [|exists i; exact Db].
    inversion Db as [j m u Gb Nb]; subst. pose proof (ext_get _ _ _ _ Eb G) as G'. congruence.
  Qed.
  Lemma wpo_intern (F : dd L -> Prop) a n t : nden a n t -> stored a t \/ F t -> wpo F a (intern n) (fun a' i => den a' i t).
  Proof.
    intros D S a' E I0. exists t. pose proof (nden_ext _ _ _ _ E D) as D'. split; auto.
    split; [destruct S as [S|S]; auto; left; eapply stored_ext; eauto|].
    intros b Eb Ib. eapply den_ext; [exact Eb|]. apply add_stored; auto.
  Qed.
  Lemma wpo_reads {R} F (p : prog L R) : no_add p -> forall a, wpo F a p (fun _ _ => True).
  Proof. induction p as [r|i k IH|n k IH|n k IH| |]; intros Hn a; simpl in *; auto. contradiction. Qed.
  Lemma wpo_step {R} F (p : prog L R) Q a p' a' : AInv a -> wpo F a p Q -> pstep a p a' p' ->
    AInv a' /\ ext a a' /\ wpo F a' p' Q /\ forall t, stored a' t -> stored a t \/ F t.
  Proof.
    intros I0 Hf Hs. inversion Hs as [a1 i k n Hg|a1 i k Hg|a1 n k|a1 n k]; subst; simpl in Hf.
    - split; auto. split; [apply ext_refl|]. split; [apply Hf; auto using ext_refl|auto].
    - split; auto. split; [apply ext_refl|]. split; [exact Logic.I|auto].
    - split; auto. split; [apply ext_refl|]. split; [apply Hf; auto using ext_refl|auto].
    - destruct (Hf a (ext_refl a) I0) as (t & D & S & Hk).
      destruct (a_add_spec a n I0 (nden_child _ _ _ D)) as (I1 & E1 & _).
      split; auto. split; auto. split; [exact Hk|]. intros u (i & Du). destruct (add_only a n t i u I0 D Du) as [X| ->]; auto.
  Qed.
  (** counting *)
  Lemma store_grow a b (F : list (dd L)) : AInv a -> AInv b -> (forall d, stored b d -> stored a d \/ In d F) ->
    length (a_nodes b) <= length (a_nodes a) + length F.
  Proof.
    intros Ia Ib Hs. destruct (store_list a Ia) as (da & Ea & Na & Ha). destruct (store_list b Ib) as (db & Eb & Nb & Hb).
    rewrite <- Ea, <- Eb, <- app_length. apply NoDup_incl_length; auto. intros d Hd. apply in_or_app.
    apply Hb in Hd. destruct (Hs d Hd) as [X|X]; auto. left. apply Ha; auto.
  Qed.
End Only.

Ltac olift E :=
  repeat match goal with
  | H : den _ _ _ |- _ => apply (den_ext _ _ _ _ E) in H
  | H : nden _ _ _ |- _ => apply (nden_ext _ _ _ _ E) in H
  | H : stored _ _ |- _ => apply (stored_ext _ _ _ E) in H
  end.
Ltac ostep lem :=
  let a' := fresh "a" in let r := fresh "r" in let E := fresh "E" in let I1 := fresh "I" in let D := fresh "D" in
  eapply wpo_bind; [eapply lem|intros a' r E I1 D; cbv beta in D; olift E; clear E|eassumption].
Ltac oget := let x := fresh "D" in let s := fresh "S" in ostep @wpo_get; [eassumption|]; match goal with H : nden _ _ _ /\ stored _ _ |- _ => destruct H as [x s] end.
Ltac osame := apply wpo_ret; let a' := fresh in let E := fresh in intros a' E _; eapply nden_ext; [exact E|first [eassumption|constructor]].

(** ** weave/src/zdd *)
Section Z.
  Variable F : dd nat -> Prop.
  Implicit Types (a : arena nat).
  Lemma zfinish_only a id low high tl th : AInv a -> nden a low tl -> nden a high th -> stored a tl \/ F tl -> stored a th \/ F th ->
    wpo F a (m_zfinish id low high) (fun a' n => nden a' n (zfinish id tl th)).
  Proof.
    intros I0 D1 D2 S1 S2. unfold m_zfinish, zfinish.
    rewrite (gnode_eqb_den a high (GLeaf false) th (Leaf false) I0 D2 (D_leaf a false)).
    destruct (dd_eqb th (Leaf false)); [osame|]. unfold m_zbranch. destruct S1 as [S1|S1], S2 as [S2|S2]; (ostep @wpo_intern; [eassumption|auto|]);
      (ostep @wpo_intern; [eassumption|auto|]); apply wpo_ret; intros a' E _; olift E; constructor; auto.
  Qed.

  Definition on_subs (op : dd nat -> dd nat -> dd nat) (t1 t2 : dd nat) : Prop := forall x y, sub x t1 -> sub y t2 -> F (op x y).
  Definition zop_only (op : dd nat -> dd nat -> dd nat) (m : nat -> znd -> znd -> prog nat znd) : Prop :=
    forall fuel t1 t2 a n1 n2, on_subs op t1 t2 -> AInv a -> nden a n1 t1 -> nden a n2 t2 ->
    wpo F a (m fuel n1 n2) (fun a' n => nden a' n (op t1 t2)).
  Lemma on_subs_self op t1 t2 : on_subs op t1 t2 -> F (op t1 t2).
  Proof. intros Hs. apply Hs; apply sub_refl. Qed.
  Lemma on_subs_sub op t1 t2 u1 u2 : on_subs op t1 t2 -> sub u1 t1 -> sub u2 t2 -> on_subs op u1 u2.
  Proof. intros Hs A B x y Hx Hy. apply Hs; eapply sub_trans; eauto. Qed.

  Ltac zsub Hs := apply (on_subs_sub _ _ _ _ _ Hs); first [apply sub_refl|apply sub_low, sub_refl|apply sub_high, sub_refl].
  Ltac zstart IH Hs eqn :=
    let fuel := fresh "fuel" in
    unfold zop_only; intros fuel; induction fuel as [|fuel IH]; intros t1 t2 a n1 n2 Hs I0 D1 D2; [exact Logic.I|];
    cbn [m_zunion m_zintersect m_zproduct]; rewrite eqn, (gnode_eqb_den a n1 n2 _ _ I0 D1 D2);
    destruct (dd_eqb t1 t2); [osame|];
    destruct t1 as [[]|id1 lo1 hi1]; inversion D1; subst; destruct t2 as [[]|id2 lo2 hi2]; inversion D2; subst; try osame.
  Ltac zrec IH Hs := ostep IH; [|eassumption|eassumption|eassumption|]; [zsub Hs|].
  Ltac zsrc Hs := first [left; eassumption|right; apply on_subs_self; zsub Hs].
  Ltac zend Hs := apply zfinish_only; [assumption|assumption|assumption|zsrc Hs|zsrc Hs].
  Lemma zunion_only : zop_only zunion m_zunion.
  Proof.
    zstart IH Hs zunion_eq.
    - oget. zrec IH Hs. oget. zend Hs.
    - oget. zrec IH Hs. oget. zend Hs.
    - destruct (id1 <? id2); [|destruct (id2 <? id1)].
      + oget. zrec IH Hs. oget. zend Hs.
      + oget. zrec IH Hs. oget. zend Hs.
      + oget. oget. zrec IH Hs. oget. oget. zrec IH Hs. zend Hs.
  Qed.
  Lemma zintersect_only : zop_only zintersect m_zintersect.
  Proof.
    zstart IH Hs zintersect_eq.
    destruct (id1 <? id2); [|destruct (id2 <? id1)].
    - oget. oget. zrec IH Hs. zend Hs.
    - oget. oget. zrec IH Hs. zend Hs.
    - oget. oget. zrec IH Hs. oget. oget. zrec IH Hs. zend Hs.
  Qed.
  Lemma zproduct_only : zop_only zproduct m_zproduct.
  Proof.
    zstart IH Hs zproduct_eq.
    destruct (id1 <? id2); [|destruct (id2 <? id1)].
    - oget. zrec IH Hs. oget. zrec IH Hs. zend Hs.
    - oget. zrec IH Hs. oget. zrec IH Hs. zend Hs.
    - oget. oget. zrec IH Hs. oget. oget. zrec IH Hs. zend Hs.
  Qed.
  Lemma zop_call_only {T} `{Ord T} op m (t o : ztree T) fuel a mt mo : zop_only op m -> on_subs op (zt_root t) (zt_root o) ->
    AInv a -> zden a mt t -> zden a mo o -> wpo F a (m_zop m fuel mt mo) (fun a' x => zden a' x (mkZT (op (zt_root t) (zt_root o)) (zt_univ t))).
  Proof.
    intros Hm Hs I0 [D1 U1] [D2 _]. unfold m_zop. oget. oget. ostep Hm; [exact Hs|eassumption|eassumption|eassumption|].
    ostep @wpo_intern; [eassumption|right; apply on_subs_self; exact Hs|]. apply wpo_ret. intros a' E _. olift E. split; auto.
  Qed.
End Z.

(** ** bowtie-core/src/bdd *)
Section B.
  Context {I : Type} `{OI : Ord I}.
  Notation nd := (gnode I).
  Implicit Types (a : arena I) (t : dd I).

  Lemma sub_collapse (y : dd I) id lo hi : sub y (collapse id lo hi) -> y = collapse id lo hi \/ sub y lo \/ sub y hi.
  Proof. unfold collapse. destruct (dd_eqb lo hi); auto. intros Hy. inversion Hy; subst; auto. Qed.
  Lemma split_sub t id : sub (fst (v_split t id)) t /\ sub (snd (v_split t id)) t.
  Proof.
    destruct t as [b|i l h]; cbn [v_split]; [split; apply sub_refl|]. destruct (eqb_ id i); cbn [fst snd]; split;
      first [apply sub_refl|apply sub_low, sub_refl|apply sub_high, sub_refl].
  Qed.
  (** the sub-diagrams of a conjunction are conjunctions of sub-diagrams *)
  Lemma sub_bitand t1 t2 y : sub y (bitand t1 t2) -> exists x1 x2, sub x1 t1 /\ sub x2 t2 /\ y = bitand x1 x2.
  Proof.
    remember (size t1 + size t2) as k eqn:Hk. revert t1 t2 y Hk.
    induction k as [k IH] using lt_wf_ind. intros t1 t2 y Hk Hy.
    assert (C : forall id (l1 l2 h1 h2 : dd I), bitand t1 t2 = collapse id (bitand l1 l2) (bitand h1 h2) ->
      sub l1 t1 -> sub l2 t2 -> sub h1 t1 -> sub h2 t2 -> size l1 + size l2 < k -> size h1 + size h2 < k ->
      exists x1 x2, sub x1 t1 /\ sub x2 t2 /\ y = bitand x1 x2).
    { intros id l1 l2 h1 h2 E A1 A2 B1 B2 S1 S2. rewrite E in Hy. apply sub_collapse in Hy. destruct Hy as [->|[Hy|Hy]].
      - exists t1, t2. split; [apply sub_refl|]. split; [apply sub_refl|]. symmetry; exact E.
      - destruct (IH _ S1 l1 l2 y eq_refl Hy) as (x1 & x2 & X1 & X2 & ->). exists x1, x2. split; [eapply sub_trans; eauto|]. split; [eapply sub_trans; eauto|reflexivity].
      - destruct (IH _ S2 h1 h2 y eq_refl Hy) as (x1 & x2 & X1 & X2 & ->). exists x1, x2. split; [eapply sub_trans; eauto|]. split; [eapply sub_trans; eauto|reflexivity]. }
    assert (E1 : forall x, bitand x (Leaf true) = x) by (intros [[]|]; reflexivity).
    destruct t1 as [[]|i lo hi].
    - rewrite bitand_TB in Hy. exists (Leaf true), y. split; [apply sub_refl|]. split; auto. rewrite bitand_TB. reflexivity.
    - destruct t2 as [[]|j lo' hi'].
      + inversion Hy; subst. exists (Leaf false), (Leaf true). repeat split; apply sub_refl.
      + inversion Hy; subst. exists (Leaf false), (Leaf false). repeat split; apply sub_refl.
      + apply (C j (Leaf false) lo' (Leaf false) hi' (bitand_LB j lo' hi')); first [apply sub_refl|apply sub_low, sub_refl|apply sub_high, sub_refl|subst k; cbn [size]; lia].
    - destruct t2 as [[]|j lo' hi'].
      + rewrite E1 in Hy. exists y, (Leaf true). split; auto. split; [apply sub_refl|]. rewrite E1. reflexivity.
      + apply (C i lo (Leaf false) hi (Leaf false) eq_refl); first [apply sub_refl|apply sub_low, sub_refl|apply sub_high, sub_refl|subst k; cbn [size]; lia].
      + destruct (bitand_split i lo hi j lo' hi') as (E & S1 & S2). cbv zeta in E, S1, S2. subst k.
        apply (C _ _ _ _ _ E); first [exact S1|exact S2|apply split_sub].
  Qed.
  (** the sub-diagrams of a disjunction are disjunctions of sub-diagrams *)
  Lemma sub_bitor t1 t2 y : sub y (bitor t1 t2) -> exists x1 x2, sub x1 t1 /\ sub x2 t2 /\ y = bitor x1 x2.
  Proof.
    remember (size t1 + size t2) as k eqn:Hk. revert t1 t2 y Hk.
    induction k as [k IH] using lt_wf_ind. intros t1 t2 y Hk Hy.
    assert (C : forall id (l1 l2 h1 h2 : dd I), bitor t1 t2 = collapse id (bitor l1 l2) (bitor h1 h2) ->
      sub l1 t1 -> sub l2 t2 -> sub h1 t1 -> sub h2 t2 -> size l1 + size l2 < k -> size h1 + size h2 < k ->
      exists x1 x2, sub x1 t1 /\ sub x2 t2 /\ y = bitor x1 x2).
    { intros id l1 l2 h1 h2 E A1 A2 B1 B2 S1 S2. rewrite E in Hy. apply sub_collapse in Hy. destruct Hy as [->|[Hy|Hy]].
      - exists t1, t2. split; [apply sub_refl|]. split; [apply sub_refl|]. symmetry; exact E.
      - destruct (IH _ S1 l1 l2 y eq_refl Hy) as (x1 & x2 & X1 & X2 & ->). exists x1, x2. split; [eapply sub_trans; eauto|]. split; [eapply sub_trans; eauto|reflexivity].
      - destruct (IH _ S2 h1 h2 y eq_refl Hy) as (x1 & x2 & X1 & X2 & ->). exists x1, x2. split; [eapply sub_trans; eauto|]. split; [eapply sub_trans; eauto|reflexivity]. }
    assert (E1 : forall x, bitor x (Leaf false) = x) by (intros [[]|]; reflexivity).
    destruct t1 as [[]|i lo hi].
    - destruct t2 as [[]|j lo' hi'].
      + inversion Hy; subst. exists (Leaf true), (Leaf true). repeat split; apply sub_refl.
      + inversion Hy; subst. exists (Leaf true), (Leaf false). repeat split; apply sub_refl.
      + apply (C j (Leaf true) lo' (Leaf true) hi' (bitor_LB j lo' hi')); first [apply sub_refl|apply sub_low, sub_refl|apply sub_high, sub_refl|subst k; cbn [size]; lia].
    - assert (E2 : forall x : dd I, bitor (Leaf false) x = x) by (intros [[]|]; reflexivity).
      rewrite E2 in Hy. exists (Leaf false), y. split; [apply sub_refl|]. split; auto.
    - destruct t2 as [[]|j lo' hi'].
      + apply (C i lo (Leaf true) hi (Leaf true) eq_refl); first [apply sub_refl|apply sub_low, sub_refl|apply sub_high, sub_refl|subst k; cbn [size]; lia].
      + rewrite E1 in Hy. exists y, (Leaf false). split; auto. split; [apply sub_refl|]. rewrite E1. reflexivity.
      + destruct (bitor_split i lo hi j lo' hi') as (E & S1 & S2). cbv zeta in E, S1, S2. subst k.
        apply (C _ _ _ _ _ E); first [exact S1|exact S2|apply split_sub].
  Qed.
  Lemma sub_bitnot t y : sub y (bitnot t) -> y = bitnot t \/ sub y t.
  Proof. destruct t as [[]|i lo hi]; simpl; intros Hy; inversion Hy; subst; auto; right; [apply sub_high|apply sub_low]; auto. Qed.
  (** ... and those of a restriction, for an ordered and reduced diagram, restrictions *)
  Lemma sub_restrict t i b y : bordered t -> breduced t -> sub y (restrict t i b) -> exists x, sub x t /\ y = restrict x i b.
  Proof.
    induction t as [v|j lo IHl hi IHh]; intros O R Hy.
    - simpl in Hy. inversion Hy; subst. exists (Leaf v). split; [apply sub_refl|reflexivity].
    - pose proof (fresh_lo _ _ _ O) as Fl. pose proof (fresh_hi _ _ _ O) as Fh. cbn [restrict] in Hy.
      destruct O as (O1 & O2 & O3). destruct R as (R1 & R2 & R3).
      destruct (eqb_spec_ j i) as [->|N].
      + assert (X : forall u : dd I, breduced u -> ~ In i (labels u) -> forall z, sub z u -> restrict z i b = z).
        { intros u Ru Nu z Hz. apply restrict_fresh.
          - clear - Ru Hz. induction Hz; auto; destruct Ru as (A & B & C); auto.
          - intros Hin. apply Nu. clear - Hz Hin. induction Hz; auto; simpl; right; apply in_or_app; auto. }
        destruct b; simpl in Hy.
        * exists y. split; [apply sub_high; auto|]. symmetry. exact (X hi R3 Fh y Hy).
        * exists y. split; [apply sub_low; auto|]. symmetry. exact (X lo R2 Fl y Hy).
      + apply sub_collapse in Hy. destruct Hy as [->|[Hy|Hy]].
        * exists (Branch j lo hi). split; [apply sub_refl|]. cbn [restrict]. apply eqb_false_ in N. rewrite N. reflexivity.
        * destruct (IHl O2 R2 Hy) as (x & Hx & ->). exists x. split; [apply sub_low; auto|reflexivity].
        * destruct (IHh O3 R3 Hy) as (x & Hx & ->). exists x. split; [apply sub_high; auto|reflexivity].
  Qed.

  Variable F : dd I -> Prop.
  Definition known a t : Prop := stored a t \/ F t.
  Lemma known_ext a b t : ext a b -> known a t -> known b t.
  Proof. intros E [X|X]; [left; eapply stored_ext; eauto|right; auto]. Qed.
  Lemma bbranch_only a id low high tl th : AInv a -> nden a low tl -> nden a high th -> known a tl -> known a th ->
    wpo F a (m_bbranch id low high) (fun a' n => nden a' n (Branch id tl th)).
  Proof.
    intros I0 D1 D2 S1 S2. unfold m_bbranch. destruct S1 as [S1|S1], S2 as [S2|S2]; (ostep @wpo_intern; [eassumption|auto|]);
      (ostep @wpo_intern; [eassumption|auto|]); apply wpo_ret; intros a' E _; olift E; constructor; auto.
  Qed.
  Lemma collapse_only a id low high tl th : AInv a -> nden a low tl -> nden a high th -> known a tl -> known a th ->
    wpo F a (m_collapse id low high) (fun a' n => nden a' n (collapse id tl th)).
  Proof.
    intros I0 D1 D2 S1 S2. unfold m_collapse, collapse. rewrite (gnode_eqb_den a low high tl th I0 D1 D2).
    destruct (dd_eqb tl th); [osame|]. apply bbranch_only; auto.
  Qed.
  Lemma split_only a n t id : AInv a -> nden a n t -> wpo F a (m_split n id) (fun a' x => sden a' x (v_split t id)).
  Proof.
    intros I0 D. inversion D; subst; cbn [m_split v_split].
    - apply wpo_ret. intros a' E _. olift E. split; auto.
    - destruct (eqb_ id l).
      + oget. oget. apply wpo_ret. intros a' E _. olift E. split; auto.
      + apply wpo_ret. intros a' E _. olift E. split; auto.
  Qed.
  Definition on_subs2 (op : dd I -> dd I -> dd I) (t1 t2 : dd I) : Prop := forall x y, sub x t1 -> sub y t2 -> F (op x y).
  Lemma on_subs2_self op t1 t2 : on_subs2 op t1 t2 -> F (op t1 t2).
  Proof. intros Hs. apply Hs; apply sub_refl. Qed.
  Lemma on_subs2_sub op t1 t2 u1 u2 : on_subs2 op t1 t2 -> sub u1 t1 -> sub u2 t2 -> on_subs2 op u1 u2.
  Proof. intros Hs A B x y Hx Hy. apply Hs; eapply sub_trans; eauto. Qed.
  Definition bop_only (op : dd I -> dd I -> dd I) (m : nat -> nd -> nd -> prog I nd) : Prop :=
    forall fuel t1 t2 a n1 n2, on_subs2 op t1 t2 -> AInv a -> nden a n1 t1 -> nden a n2 t2 ->
    wpo F a (m fuel n1 n2) (fun a' n => nden a' n (op t1 t2)).
  Lemma both_only op (m : nd -> nd -> prog I nd) id t1 t2 a n1 n2 :
    (forall t1 t2 a n1 n2, on_subs2 op t1 t2 -> AInv a -> nden a n1 t1 -> nden a n2 t2 ->
       wpo F a (m n1 n2) (fun a' n => nden a' n (op t1 t2))) ->
    on_subs2 op t1 t2 -> AInv a -> nden a n1 t1 -> nden a n2 t2 ->
    wpo F a (m_both m id n1 n2)
      (fun a' n => nden a' n (collapse id (op (fst (v_split t1 id)) (fst (v_split t2 id)))
                                          (op (snd (v_split t1 id)) (snd (v_split t2 id))))).
  Proof.
    intros Hm Hs I0 D1 D2. unfold m_both. destruct (split_sub t1 id) as [A1 A2]. destruct (split_sub t2 id) as [B1 B2].
    pose proof (on_subs2_sub _ _ _ _ _ Hs A1 B1) as Hl. pose proof (on_subs2_sub _ _ _ _ _ Hs A2 B2) as Hh.
    ostep split_only; [eassumption|eassumption|]. destruct D as [Da Db].
    ostep split_only; [eassumption|eassumption|]. destruct D as [Dc Dd].
    ostep Hm; [exact Hl|eassumption|eassumption|eassumption|].
    ostep Hm; [exact Hh|eassumption|eassumption|eassumption|].
    apply collapse_only; auto; right; apply on_subs2_self; auto.
  Qed.
  Lemma bitor_only : bop_only bitor m_bitor.
  Proof.
    intros fuel. induction fuel as [|k IH]; intros t1 t2 a n1 n2 Hs I0 D1 D2; [exact Logic.I|].
    destruct t1 as [[]|id1 lo1 hi1]; inversion D1; subst; destruct t2 as [[]|id2 lo2 hi2]; inversion D2; subst;
      cbn [m_bitor]; try osame.
    - pose proof (both_only bitor (m_bitor k) id2 (Leaf true) (Branch id2 lo2 hi2) a _ _ IH Hs I0 D1 D2) as M.
      rewrite v_split_leaf, v_split_top in M. exact M.
    - pose proof (both_only bitor (m_bitor k) id1 (Branch id1 lo1 hi1) (Leaf true) a _ _ IH Hs I0 D1 D2) as M.
      rewrite v_split_leaf, v_split_top in M. exact M.
    - destruct (bitor_split id1 lo1 hi1 id2 lo2 hi2) as (E & _). rewrite E. apply both_only; auto.
  Qed.
  Lemma bitand_only : bop_only bitand m_bitand.
  Proof.
    intros fuel. induction fuel as [|k IH]; intros t1 t2 a n1 n2 Hs I0 D1 D2; [exact Logic.I|].
    destruct t1 as [[]|id1 lo1 hi1]; inversion D1; subst; destruct t2 as [[]|id2 lo2 hi2]; inversion D2; subst;
      cbn [m_bitand]; try osame.
    - pose proof (both_only bitand (m_bitand k) id2 (Leaf false) (Branch id2 lo2 hi2) a _ _ IH Hs I0 D1 D2) as M.
      rewrite v_split_leaf, v_split_top in M. exact M.
    - pose proof (both_only bitand (m_bitand k) id1 (Branch id1 lo1 hi1) (Leaf false) a _ _ IH Hs I0 D1 D2) as M.
      rewrite v_split_leaf, v_split_top in M. exact M.
    - destruct (bitand_split id1 lo1 hi1 id2 lo2 hi2) as (E & _). rewrite E. apply both_only; auto.
  Qed.
  Lemma bitxor_only fuel t1 t2 a n1 n2 : on_subs2 bitand t1 (bitnot t2) -> on_subs2 bitand (bitnot t1) t2 ->
    on_subs2 bitor (bitand t1 (bitnot t2)) (bitand (bitnot t1) t2) ->
    AInv a -> nden a n1 t1 -> nden a n2 t2 -> wpo F a (m_bitxor fuel n1 n2) (fun a' n => nden a' n (bitxor t1 t2)).
  Proof.
    intros H1 H2 H3 I0 D1 D2. unfold m_bitxor, bitxor. pose proof (m_bitnot_spec _ _ _ D1) as N1. pose proof (m_bitnot_spec _ _ _ D2) as N2.
    ostep bitand_only; [exact H1|eassumption|eassumption|eassumption|].
    ostep bitand_only; [exact H2|eassumption|eassumption|eassumption|].
    apply bitor_only; auto.
  Qed.
  Lemma reduce_only fuel : forall t a n, (forall x, sub x t -> F (reduce x)) -> AInv a -> nden a n t ->
    wpo F a (m_breduce fuel n) (fun a' r => nden a' r (reduce t)).
  Proof.
    induction fuel as [|k IH]; intros t a n Hs I0 D; [exact Logic.I|].
    destruct t as [b|id lo hi]; inversion D; subst; cbn [m_breduce reduce]; [osame|].
    assert (Hl : forall x, sub x lo -> F (reduce x)) by (intros; apply Hs, sub_low; auto).
    assert (Hh : forall x, sub x hi -> F (reduce x)) by (intros; apply Hs, sub_high; auto).
    oget. oget. ostep (IH lo); [exact Hl|eassumption|eassumption|]. ostep (IH hi); [exact Hh|eassumption|eassumption|].
    apply collapse_only; auto; right; [apply Hl|apply Hh]; apply sub_refl.
  Qed.
  Lemma restrict_only item sel fuel : forall t a n, (forall x, sub x t -> F (restrict x item sel)) -> AInv a -> nden a n t ->
    wpo F a (m_brestrict fuel n item sel) (fun a' r => nden a' r (restrict t item sel)).
  Proof.
    induction fuel as [|k IH]; intros t a n Hs I0 D; [exact Logic.I|].
    destruct t as [b|id lo hi]; inversion D; subst; cbn [m_brestrict restrict]; [osame|].
    assert (Hl : forall x, sub x lo -> F (restrict x item sel)) by (intros; apply Hs, sub_low; auto).
    assert (Hh : forall x, sub x hi -> F (restrict x item sel)) by (intros; apply Hs, sub_high; auto).
    oget. oget. destruct (eqb_ id item); [destruct (negb sel); osame|].
    ostep (IH lo); [exact Hl|eassumption|eassumption|]. ostep (IH hi); [exact Hh|eassumption|eassumption|].
    apply collapse_only; auto; right; [apply Hl|apply Hh]; apply sub_refl.
  Qed.
  (** restricting by one item after another *)
  Lemma restrict_all_only fuel sels : forall t a n,
    (forall k x, k < length sels -> sub x t -> F (restrict_all x (firstn (S k) sels))) ->
    bordered t -> breduced t -> AInv a -> nden a n t ->
    wpo F a (m_restrict_all fuel n sels) (fun a' r => nden a' r (restrict_all t sels)).
  Proof.
    unfold m_restrict_all. induction sels as [|s sels IH]; intros t a n Hs O R I0 D; cbn [pfoldM]; [osame|].
    ostep restrict_only; [|eassumption|eassumption|].
    - intros x Hx. exact (Hs 0 x ltac:(simpl; lia) Hx).
    - apply (IH (restrict t s true)); auto using bordered_restrict, breduced_restrict.
      intros k x Hk Hx. destruct (sub_restrict t s true x O R Hx) as (z & Hz & ->).
      exact (Hs (S k) z ltac:(simpl; lia) Hz).
  Qed.
End B.
