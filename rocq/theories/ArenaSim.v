(** ArenaSim: which diagrams a program adds to the store does not depend on what
    the store already holds, nor on what other threads do meanwhile.
    [sim] relates one program run against two stores; [foot] says which diagrams
    a program may add and will have added when it returns. *)
From Coq Require Import List Arith Lia Bool Permutation Sorted.
From Verif Require Import Base DD ArenaModel ArenaProofs.
Import ListNotations.

Section Sim.
  Context {L : Type} `{Ord L}.

  (** two nodes, two ids, of two stores that stand for the same diagram *)
  Definition nsim (a b : arena L) (n m : gnode L) : Prop := exists t, nden a n t /\ nden b m t.
  Definition isim (a b : arena L) (i j : nat) : Prop := exists t, den a i t /\ den b j t.

  Record later (a b a' b' : arena L) : Prop := {
    la_ext : ext a a'; lb_ext : ext b b'; la_inv : AInv a'; lb_inv : AInv b' }.
  Lemma later_trans a b a1 b1 a2 b2 : later a b a1 b1 -> later a1 b1 a2 b2 -> later a b a2 b2.
  Proof. intros [? ? ? ?] [? ? ? ?]. constructor; auto; eapply ext_trans; eauto. Qed.
  Lemma nsim_later a b a' b' n m : later a b a' b' -> nsim a b n m -> nsim a' b' n m.
  Proof. intros [E1 E2 _ _] (t & D1 & D2). exists t. split; eapply nden_ext; eauto. Qed.
  Lemma isim_later a b a' b' i j : later a b a' b' -> isim a b i j -> isim a' b' i j.
  Proof. intros [E1 E2 _ _] (t & D1 & D2). exists t. split; eapply den_ext; eauto. Qed.

  Inductive sim {R} (Q : arena L -> arena L -> R -> R -> Prop) : arena L -> arena L -> prog L R -> prog L R -> Prop :=
  | M_ret a b r s : (forall a' b', later a b a' b' -> Q a' b' r s) -> sim Q a b (Ret r) (Ret s)
  | M_get a b i j t k k' : den a i t -> den b j t ->
      (forall a' b' n m, later a b a' b' -> nden a' n t -> nden b' m t -> sim Q a' b' (k n) (k' m)) ->
      sim Q a b (Get i k) (Get j k')
  | M_add a b n m t k k' : nden a n t -> nden b m t ->
      (forall a' b' i j, later a b a' b' -> den a' i t -> den b' j t -> sim Q a' b' (k i) (k' j)) ->
      sim Q a b (Add n k) (Add m k')
  | M_find a b n m t g g' k k' : nden a n t -> nden b m t ->
      g None = Add n k -> (forall i, g (Some i) = k i) ->
      g' None = Add m k' -> (forall j, g' (Some j) = k' j) ->
      (forall a' b' i j, later a b a' b' -> den a' i t -> den b' j t -> sim Q a' b' (k i) (k' j)) ->
      sim Q a b (Find n g) (Find m g')
  | M_panic a b : sim Q a b Panic Panic
  | M_fuel_l a b q : sim Q a b OutOfFuel q
  | M_fuel_r a b p : sim Q a b p OutOfFuel.

  Lemma sim_mono {R} (Q Q' : arena L -> arena L -> R -> R -> Prop) a b p q :
    sim Q a b p q -> (forall a' b' r s, later a b a' b' -> Q a' b' r s -> Q' a' b' r s) -> sim Q' a b p q.
  Proof.
    intros S0. induction S0 as [a b r s HQ|a b i j t k k' D1 D2 Hk IH|a b n m t k k' D1 D2 Hk IH
      |a b n m t g g' k k' D1 D2 E1 E2 E3 E4 Hk IH|a b|a b q|a b p]; intros HI.
    - apply M_ret. auto.
    - eapply M_get; eauto. intros a' b' n m Lt D3 D4. eapply IH; eauto. intros. eapply HI; eauto. eapply later_trans; eauto.
    - eapply M_add; eauto. intros a' b' i j Lt D3 D4. eapply IH; eauto. intros. eapply HI; eauto. eapply later_trans; eauto.
    - eapply M_find; eauto. intros a' b' i j Lt D3 D4. eapply IH; eauto. intros. eapply HI; eauto. eapply later_trans; eauto.
    - constructor.
    - constructor.
    - constructor.
  Qed.

  Lemma sim_bind {A B} (Q1 : arena L -> arena L -> A -> A -> Prop) (Q2 : arena L -> arena L -> B -> B -> Prop)
    a b p q f f' : sim Q1 a b p q -> AInv a -> AInv b ->
    (forall a' b' r s, later a b a' b' -> Q1 a' b' r s -> sim Q2 a' b' (f r) (f' s)) ->
    sim Q2 a b (pbind p f) (pbind q f').
  Proof.
    intros S0. induction S0 as [a b r s HQ|a b i j t k k' D1 D2 Hk IH|a b n m t k k' D1 D2 Hk IH
      |a b n m t g g' k k' D1 D2 E1 E2 E3 E4 Hk IH|a b|a b q|a b p]; intros I1 I2 HI; cbn [pbind].
    - apply HI; [constructor; auto using ext_refl|]. apply HQ. constructor; auto using ext_refl.
    - eapply M_get; eauto. intros a' b' n m Lt D3 D4. destruct Lt as [X1 X2 X3 X4]. eapply IH; eauto; [constructor; auto|].
      intros. eapply HI; eauto. eapply later_trans; eauto. constructor; auto.
    - eapply M_add; eauto. intros a' b' i j Lt D3 D4. destruct Lt as [X1 X2 X3 X4]. eapply IH; eauto; [constructor; auto|].
      intros. eapply HI; eauto. eapply later_trans; eauto. constructor; auto.
    - eapply M_find with (k := fun i => pbind (k i) f) (k' := fun j => pbind (k' j) f'); eauto.
      + rewrite E1. reflexivity.
      + intros i. rewrite E2. reflexivity.
      + rewrite E3. reflexivity.
      + intros i. rewrite E4. reflexivity.
      + intros a' b' i j Lt D3 D4. destruct Lt as [X1 X2 X3 X4]. eapply IH; eauto; [constructor; auto|].
        intros. eapply HI; eauto. eapply later_trans; eauto. constructor; auto.
    - constructor.
    - constructor.
    - constructor.
  Qed.

  Lemma sim_get_node a b i j t : den a i t -> den b j t ->
    sim (fun a' b' n m => nden a' n t /\ nden b' m t) a b (get_node i) (get_node j).
  Proof.
    intros D1 D2. eapply M_get; eauto. intros a' b' n m Lt D3 D4. apply M_ret.
    intros a2 b2 [E1 E2 _ _]. split; eapply nden_ext; eauto.
  Qed.
  Lemma sim_intern a b n m t : nden a n t -> nden b m t ->
    sim (fun a' b' i j => den a' i t /\ den b' j t) a b (intern n) (intern m).
  Proof.
    intros D1 D2. eapply M_add; eauto. intros a' b' i j Lt D3 D4. apply M_ret.
    intros a2 b2 [E1 E2 _ _]. split; eapply den_ext; eauto.
  Qed.
  Lemma sim_intern2 a b n m t : nden a n t -> nden b m t ->
    sim (fun a' b' i j => den a' i t /\ den b' j t) a b (intern2 n) (intern2 m).
  Proof.
    intros D1 D2. eapply M_find with (k := fun i => Ret i) (k' := fun j => Ret j); eauto.
    intros a' b' i j Lt D3 D4. apply M_ret. intros a2 b2 [E1 E2 _ _]. split; eapply den_ext; eauto.
  Qed.
  Lemma sim_val {R} a b (r s : R) : r = s -> sim (fun _ _ x y => x = y) a b (Ret r) (Ret s).
  Proof. intros ->. apply M_ret. auto. Qed.
  Lemma sim_node a b n m t : nden a n t -> nden b m t -> sim nsim a b (Ret n) (Ret m).
  Proof. intros D1 D2. apply M_ret. intros a' b' [E1 E2 _ _]. exists t. split; eapply nden_ext; eauto. Qed.

  (** folding over equal lists *)
  Lemma sim_fold {A B} (Q : arena L -> arena L -> B -> B -> Prop) (f f' : B -> A -> prog L B) l :
    (forall a b a' b' x y, later a b a' b' -> Q a b x y -> Q a' b' x y) ->
    (forall a b c x y, In c l -> AInv a -> AInv b -> Q a b x y -> sim Q a b (f x c) (f' y c)) ->
    forall a b x y, AInv a -> AInv b -> Q a b x y -> sim Q a b (pfoldM f l x) (pfoldM f' l y).
  Proof.
    intros HL. induction l as [|c l IH]; intros Hf a b x y I1 I2 Hq; cbn [pfoldM].
    - apply M_ret. intros a' b' Lt. eapply HL; eauto.
    - eapply sim_bind; [apply Hf; auto; left; auto|auto|auto|].
      intros a' b' r s Lt Hr. apply IH; [|apply Lt|apply Lt|exact Hr]. intros. apply Hf; auto. right; auto.
  Qed.

  (** ** the footprint of a program *)
  Definition stored (a : arena L) (t : dd L) : Prop := exists i, den a i t.
  Lemma stored_ext a b t : ext a b -> stored a t -> stored b t.
  Proof. intros E (i & D). exists i. eapply den_ext; eauto. Qed.

  (** [foot a p F]: from any store extending [a], whatever other threads add
      meanwhile, [p] adds only diagrams of [F], and all of [F] is stored when it returns *)
  Fixpoint foot {R} (a : arena L) (p : prog L R) (F : list (dd L)) : Prop :=
    match p with
    | Ret _ => forall t, In t F -> stored a t
    | Get i k => forall a', ext a a' -> AInv a' -> forall n, a_get a' i = Some n -> foot a' (k n) F
    | Find n k => forall a', ext a a' -> AInv a' -> foot a' (k (a_find a' n)) F
    | Add n k => forall a', ext a a' -> AInv a' ->
        exists t, nden a' n t /\ In t F /\ foot (fst (a_add a' n)) (k (snd (a_add a' n))) F
    | Panic => True
    | OutOfFuel => True
    end.
  Lemma foot_ext {R} (p : prog L R) F a a' : ext a a' -> foot a p F -> foot a' p F.
  Proof.
    destruct p as [r|i k|n k|n k| |]; simpl; intros E Hf; auto.
    - intros t Ht. eapply stored_ext; eauto.
    - intros b Hb I0. apply Hf; auto. eapply ext_trans; eauto.
    - intros b Hb I0. apply Hf; auto. eapply ext_trans; eauto.
    - intros b Hb I0. apply Hf; auto. eapply ext_trans; eauto.
  Qed.

  (** what is stored after an [add] *)
  Lemma add_stored a n t : AInv a -> nden a n t -> den (fst (a_add a n)) (snd (a_add a n)) t.
  Proof.
    intros I0 D. destruct (a_add_spec a n I0 (nden_child _ _ _ D)) as (I1 & E1 & G).
    econstructor; [exact G|]. eapply nden_ext; eauto.
  Qed.
  Lemma add_only a n t i u : AInv a -> nden a n t -> den (fst (a_add a n)) i u -> stored a u \/ u = t.
  Proof.
    intros I0 D Hu. unfold a_add in Hu. destruct (idx_get (a_index a) n) as [j|] eqn:E; simpl in Hu; [left; exists i; exact Hu|].
    destruct (Nat.lt_ge_cases i (length (a_nodes a))) as [Hlt|Hge].
    - destruct (den_total a I0 i Hlt) as (v & Dv). left. exists i.
      assert (X : ext a (mkA (a_nodes a ++ [n]) ((n, length (a_nodes a)) :: a_index a))) by (exists [n]; reflexivity).
      rewrite (den_fun _ _ _ _ Hu (den_ext _ _ _ _ X Dv)). exact Dv.
    - right. assert (X : ext a (mkA (a_nodes a ++ [n]) ((n, length (a_nodes a)) :: a_index a))) by (exists [n]; reflexivity).
      inversion Hu as [i0 m v Hg Hn]; subst. unfold a_get in Hg. simpl in Hg. rewrite nth_error_app2 in Hg by auto.
      destruct (i - length (a_nodes a)) as [|[|k]]; simpl in Hg; try discriminate. inversion Hg; subst.
      exact (nden_fun _ _ _ _ Hn (nden_ext _ _ _ _ X D)).
  Qed.
  Lemma add_same a n t : AInv a -> nden a n t -> stored a t -> fst (a_add a n) = a.
  Proof.
    intros I0 D (i & Di). inversion Di as [i0 m u Hg Hm]; subst.
    rewrite <- (nden_inj _ _ _ _ I0 D Hm) in Hg. apply (inv_index a I0) in Hg. unfold a_add. rewrite Hg. reflexivity.
  Qed.

  Lemma foot_step {R} (p : prog L R) F a p' a' : AInv a -> foot a p F -> pstep a p a' p' ->
    AInv a' /\ ext a a' /\ foot a' p' F /\
    (forall t, stored a' t -> stored a t \/ In t F) /\
    ((forall t, In t F -> stored a t) -> a' = a).
  Proof.
    intros I0 Hf Hs. inversion Hs as [a1 i k n Hg|a1 i k Hg|a1 n k|a1 n k]; subst; simpl in Hf.
    - split; auto. split; [apply ext_refl|]. split; [apply Hf; auto using ext_refl|]. auto.
    - split; auto. split; [apply ext_refl|]. split; [exact I|]. auto.
    - split; auto. split; [apply ext_refl|]. split; [apply Hf; auto using ext_refl|]. auto.
    - destruct (Hf a (ext_refl a) I0) as (t & D & Ht & Hk).
      destruct (a_add_spec a n I0 (nden_child _ _ _ D)) as (I1 & E1 & _).
      split; auto. split; auto. split; [exact Hk|]. split.
      + intros u (i & Du). destruct (add_only a n t i u I0 D Du) as [X| ->]; auto.
      + intros HF. eapply add_same; eauto.
  Qed.

  Lemma foot_new {R} (p : prog L R) F a p' a' u : AInv a -> foot a p F -> pstep a p a' p' -> stored a' u ->
    stored a u \/ forall F', foot a p F' -> In u F'.
  Proof.
    intros I0 Hf Hs Hu. inversion Hs as [a1 i k n Hg|a1 i k Hg|a1 n k|a1 n k]; subst; auto.
    cbn [foot] in Hf. destruct (Hf a (ext_refl a) I0) as (t & D & _ & _). destruct Hu as (i & Du).
    destruct (add_only a n t i u I0 D Du) as [X| ->]; auto.
    right. intros F' Hf'. destruct (Hf' a (ext_refl a) I0) as (t' & D' & Hin & _).
    rewrite (nden_fun _ _ _ _ D D'). exact Hin.
  Qed.

  (** the diagrams of a store, each once *)
  Lemma store_list a : AInv a -> exists ds, length ds = length (a_nodes a) /\ NoDup ds /\ forall d, In d ds <-> stored a d.
  Proof.
    intros I0.
    assert (X : forall l, NoDup l -> (forall i, In i l -> i < length (a_nodes a)) ->
              exists ds, length ds = length l /\ NoDup ds /\ forall d, In d ds <-> exists i, In i l /\ den a i d).
    { induction l as [|i l IH]; intros Hn Hl.
      - exists []. split; auto. split; [constructor|]. intros d. split; [intros []|intros (i & [] & _)].
      - inversion Hn as [|i0 l0 Hi Hn']; subst. destruct IH as (ds & E & N & Hd); auto; [intros j Hj; apply Hl; right; auto|].
        destruct (den_total a I0 i) as (t & Dt); [apply Hl; left; auto|]. exists (t :: ds). split; [simpl; auto|]. split.
        + constructor; auto. intros Ht. apply Hd in Ht. destruct Ht as (j & Hj & Dj).
          apply Hi. rewrite (den_inj a i j t I0 Dt Dj). exact Hj.
        + intros d. simpl. rewrite Hd. split.
          * intros [<-|(j & Hj & Dj)]; eauto.
          * intros (j & [<-|Hj] & Dj); [left; exact (den_fun _ _ _ _ Dt Dj)|right; eauto]. }
    destruct (X (seq 0 (length (a_nodes a)))) as (ds & E & N & Hd).
    - apply seq_NoDup.
    - intros i Hi. apply in_seq in Hi. lia.
    - exists ds. rewrite seq_length in E. split; auto. split; auto. intros d. rewrite Hd. split.
      + intros (i & _ & D). exists i; auto.
      + intros (i & D). exists i. split; auto. apply in_seq. pose proof (den_bound _ _ _ D). lia.
  Qed.
  Lemma store_le a b : AInv a -> AInv b -> (forall d, stored a d -> stored b d) -> length (a_nodes a) <= length (a_nodes b).
  Proof.
    intros Ia Ib Hs. destruct (store_list a Ia) as (da & Ea & Na & Ha). destruct (store_list b Ib) as (db & Eb & Nb & Hb).
    rewrite <- Ea, <- Eb. apply NoDup_incl_length; auto. intros d Hd. apply Hb, Hs, Ha; auto.
  Qed.

  (** ** running alone from a given store; the trace lists the diagrams asked for *)
  Inductive runs {R} : arena L -> prog L R -> list (dd L) -> Prop :=
  | U_ret b r : runs b (Ret r) []
  | U_get b i n k tr : a_get b i = Some n -> runs b (k n) tr -> runs b (Get i k) tr
  | U_hit b n j t k tr : a_find b n = Some j -> den b j t -> runs b (k (Some j)) tr -> runs b (Find n k) (t :: tr)
  | U_miss b n k tr : a_find b n = None -> runs b (k None) tr -> runs b (Find n k) tr
  | U_add b n t k tr : nden b n t -> runs (fst (a_add b n)) (k (snd (a_add b n))) tr -> runs b (Add n k) (t :: tr).

  Lemma runs_ex {R} (q : prog L R) Q : forall b, AInv b -> wp true b q Q -> exists tr, runs b q tr.
  Proof.
    induction q as [r|i k IH|n k IH|n k IH| |]; intros b I0 Hw; cbn [wp] in Hw.
    - exists []. constructor.
    - destruct (Hw b (ext_refl b) I0) as (n & Hg & Hk). destruct (IH n b I0 Hk) as (tr & Ht). exists tr. econstructor; eauto.
    - specialize (Hw b (ext_refl b) I0). destruct (a_find b n) as [j|] eqn:Ef.
      + destruct (IH _ b I0 Hw) as (tr & Ht). pose proof (a_find_spec _ _ _ I0 Ef) as Hg.
        destruct (den_total b I0 j) as (t & Dt); [apply nth_error_Some; unfold a_get in Hg; congruence|].
        exists (t :: tr). econstructor; eauto.
      + destruct (IH _ b I0 Hw) as (tr & Ht). exists tr. apply U_miss; auto.
    - destruct (Hw b (ext_refl b) I0) as (Hc & Hk). destruct (a_add_spec b n I0 Hc) as (I1 & E1 & _).
      destruct (IH _ _ I1 Hk) as (tr & Ht).
      assert (D : exists t, nden b n t).
      { destruct n as [c|l lo hi]; [exists (Leaf c); constructor|]. simpl in Hc. destruct Hc as [Hl Hh].
        destruct (den_total b I0 lo Hl) as (t1 & D1). destruct (den_total b I0 hi Hh) as (t2 & D2).
        exists (Branch l t1 t2). constructor; auto. }
      destruct D as (t & D). exists (t :: tr). econstructor; eauto.
    - contradiction.
    - discriminate.
  Qed.

  (** the related program has the trace for footprint *)
  Lemma sim_foot {R} (Q : arena L -> arena L -> R -> R -> Prop) a b p q : sim Q a b p q ->
    AInv a -> AInv b -> forall tr F, runs b q tr -> incl tr F -> (forall t, In t F -> stored a t \/ In t tr) -> foot a p F.
  Proof.
    intros S0. induction S0 as [a b r s HQ|a b i j t k k' D1 D2 Hk IH|a b n m t k k' D1 D2 Hk IH
      |a b n m t g g' k k' D1 D2 E1 E2 E3 E4 Hk IH|a b|a b q|a b p]; intros Ia Ib tr F Hr HF Hs; cbn [foot]; auto.
    - inversion Hr; subst. intros t Ht. destruct (Hs t Ht) as [X|[]]; auto.
    - intros a' Ex Ia' n Hg. inversion Hr as [|b0 i0 m k0 tr0 Hgb Hr'| | |]; subst.
      assert (X1 : nden a' n t).
      { inversion D1 as [i1 n1 u1 G1 N1]; subst. assert (n1 = n) by (pose proof (ext_get _ _ _ _ Ex G1); congruence). subst.
        eapply nden_ext; eauto. }
      assert (X2 : nden b m t) by (inversion D2 as [i1 n1 u1 G1 N1]; subst; assert (n1 = m) by congruence; subst; auto).
      eapply (IH a' b n m); eauto.
      + constructor; auto using ext_refl.
      + intros u Hu. destruct (Hs u Hu); auto. left. eapply stored_ext; eauto.
    - intros a' Ex Ia'. inversion Hr as [| | | |b0 m0 t0 k0 tr0 Dt Hr']; subst.
      assert (t0 = t) by exact (nden_fun _ _ _ _ Dt D2). subst t0.
      pose proof (nden_ext _ _ _ _ Ex D1) as D1'. exists t. split; [exact D1'|]. split; [apply HF; left; auto|].
      destruct (a_add_spec a' n Ia' (nden_child _ _ _ D1')) as (Ia2 & Ea2 & _).
      destruct (a_add_spec b m Ib (nden_child _ _ _ D2)) as (Ib2 & Eb2 & _).
      pose proof (add_stored a' n t Ia' D1') as Sa. pose proof (add_stored b m t Ib D2) as Sb.
      eapply (IH _ _ _ _); [constructor; [eapply ext_trans; eauto|exact Eb2|exact Ia2|exact Ib2]|exact Sa|exact Sb|exact Ia2|exact Ib2|exact Hr'| |].
      + intros u Hu. apply HF. right; auto.
      + intros u Hu. destruct (Hs u Hu) as [X|[<-|X]]; auto.
        * left. eapply stored_ext; [|exact X]. eapply ext_trans; eauto.
        * left. eexists; exact Sa.
    - intros a' Ex Ia'. pose proof (nden_ext _ _ _ _ Ex D1) as D1'.
      (* the reference run, from the point where its id is known *)
      assert (Ref : exists b2 j tr2, later a b a' b2 /\ den b2 j t /\ runs b2 (k' j) tr2 /\
                      (forall u, In u tr <-> u = t \/ In u tr2)).
      { inversion Hr as [| |b0 m0 j t0 k0 tr0 Ef Dt Hr'|b0 m0 k0 tr0 Ef Hr'|]; subst.
        - rewrite E4 in Hr'. pose proof (a_find_spec _ _ _ Ib Ef) as Hg.
          assert (Dj : den b j t) by (econstructor; eauto).
          assert (t0 = t) by exact (den_fun _ _ _ _ Dt Dj). subst t0.
          exists b, j, tr0. split; [constructor; auto using ext_refl|]. split; auto. split; auto.
          intros u. simpl. split; intros [X|X]; auto.
        - rewrite E3 in Hr'. inversion Hr' as [| | | |b1 m1 t1 k1 tr1 Dt Hr2]; subst.
          assert (t1 = t) by exact (nden_fun _ _ _ _ Dt D2). subst t1.
          destruct (a_add_spec b m Ib (nden_child _ _ _ D2)) as (Ib2 & Eb2 & _).
          exists (fst (a_add b m)), (snd (a_add b m)), tr1. split; [constructor; auto|].
          split; [apply add_stored; auto|]. split; auto. intros u. simpl. split; intros [X|X]; auto. }
      destruct Ref as (b2 & j & tr2 & Lt & Dj & Hr2 & Htr).
      assert (Tin : In t F) by (apply HF, Htr; auto).
      destruct Lt as [La Lb Ja Jb].
      destruct (a_find a' n) as [i|] eqn:Ef.
      + rewrite E2. pose proof (a_find_spec _ _ _ Ia' Ef) as Hg.
        assert (Di : den a' i t) by (econstructor; eauto).
        eapply (IH a' b2 i j); [constructor; auto|exact Di|exact Dj|auto|auto|exact Hr2| |].
        * intros u Hu. apply HF, Htr; auto.
        * intros u Hu. destruct (Hs u Hu) as [X|X]; [left; eapply stored_ext; eauto|].
          apply Htr in X. destruct X as [->|X]; auto. left. eexists; eauto.
      + rewrite E1. cbn [foot]. intros a2 Ex2 Ia2. pose proof (nden_ext _ _ _ _ Ex2 D1') as D12.
        exists t. split; [exact D12|]. split; auto.
        destruct (a_add_spec a2 n Ia2 (nden_child _ _ _ D12)) as (Ia3 & Ea3 & _).
        pose proof (add_stored a2 n t Ia2 D12) as Sa.
        eapply (IH _ b2 _ j); [constructor; [eapply ext_trans; [exact La|eapply ext_trans; eauto]|exact Lb|exact Ia3|exact Jb]|exact Sa|exact Dj|exact Ia3|exact Jb|exact Hr2| |].
        * intros u Hu. apply HF, Htr; auto.
        * intros u Hu. destruct (Hs u Hu) as [X|X].
          { left. eapply stored_ext; [|exact X]. eapply ext_trans; [exact La|eapply ext_trans; eauto]. }
          apply Htr in X. destruct X as [->|X]; auto. left. eexists; exact Sa.
    - inversion Hr.
  Qed.
End Sim.

(** ** proof steps shared by ZddSim.v and BddSim.v *)
Ltac ncarry Lt :=
  let Ea := fresh "Ea" in let Eb := fresh "Eb" in let Ia := fresh "Ia" in let Ib := fresh "Ib" in
  destruct Lt as [Ea Eb Ia Ib];
  repeat match goal with
  | H : den _ _ _ |- _ => first [apply (den_ext _ _ _ _ Ea) in H|apply (den_ext _ _ _ _ Eb) in H]
  | H : nden _ _ _ |- _ => first [apply (nden_ext _ _ _ _ Ea) in H|apply (nden_ext _ _ _ _ Eb) in H]
  end; clear Ea Eb.
Ltac nstep lem :=
  let a := fresh "a" in let b := fresh "b" in let r := fresh "r" in let s := fresh "s" in
  let Lt := fresh "Lt" in let Hq := fresh "Hq" in
  eapply sim_bind; [eapply lem|eassumption|eassumption|intros a b r s Lt Hq; ncarry Lt; cbv beta in Hq].
Ltac nget := nstep @sim_get_node; [eassumption|eassumption|];
  match goal with Hq : nden _ _ _ /\ nden _ _ _ |- _ => destruct Hq end.
Ltac nput := nstep @sim_intern; [eassumption|eassumption|];
  match goal with Hq : den _ _ _ /\ den _ _ _ |- _ => destruct Hq end.
Ltac nopen :=
  repeat match goal with
  | H : nden _ ?n (Leaf _) |- _ => is_var n; inversion H; subst
  | H : nden _ ?n (Branch _ _ _) |- _ => is_var n; inversion H; subst
  end.
Ltac ncases := repeat match goal with |- context [if ?c then _ else _] => destruct c end.
Ltac nres := match goal with Hq : nsim _ _ _ _ |- _ => destruct Hq as (? & ? & ?) end.
Ltac neqtest Ia Ib D1 D2 D3 D4 :=
  rewrite (gnode_eqb_den _ _ _ _ _ Ia D1 D3), (gnode_eqb_den _ _ _ _ _ Ib D2 D4).
