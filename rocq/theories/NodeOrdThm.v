(** NodeOrdThm: the order of nodes and node ids within a process (C99) and across processes (C100). *)
From Coq Require Import List Arith NArith Lia Bool Permutation Sorted.
From Verif Require Import Base DD Spec BddSpec BddModel BddRun ArenaModel ArenaProofs PoolModel BddProg.
From Verif Require Import PoolProofs BddProgProofs Conc2Thm ArenaSim GrowthSpec NodeOrdModel NodeOrdSpec.
Import ListNotations.
Open Scope nat_scope.

Section Cmp.
  Context {I : Type} `{OI : Ord I}.
  Lemma id_cmp_eq i j : id_cmp i j = Eq <-> i = j.
  Proof. apply Nat.compare_eq_iff. Qed.
  Lemma id_cmp_lt i j : id_cmp i j = Lt <-> i < j.
  Proof. apply Nat.compare_lt_iff. Qed.
  Lemma id_cmp_anti i j : id_cmp j i = CompOpp (id_cmp i j).
  Proof. apply Nat.compare_antisym. Qed.
  Lemma node_cmp_eq (m n : gnode I) : node_cmp m n = Eq <-> m = n.
  Proof.
    destruct m as [b|i l h], n as [c|j l' h']; cbn [node_cmp]; try (split; discriminate).
    - destruct b, c; cbn; split; congruence.
    - split.
      + destruct (cmp i j) eqn:E; try discriminate. destruct (id_cmp l l') eqn:E1; try discriminate. intros E2.
        apply cmp_eq in E. apply id_cmp_eq in E1. apply id_cmp_eq in E2. congruence.
      + intros E. inversion E; subst. rewrite cmp_refl. unfold id_cmp. rewrite !Nat.compare_refl. reflexivity.
  Qed.
  Lemma node_cmp_anti (m n : gnode I) : node_cmp n m = CompOpp (node_cmp m n).
  Proof.
    destruct m as [b|i l h], n as [c|j l' h']; cbn [node_cmp]; auto.
    - destruct b, c; reflexivity.
    - rewrite (cmp_antisym i j). destruct (cmp i j); cbn; auto. rewrite (id_cmp_anti l l').
      destruct (id_cmp l l'); cbn; auto. apply id_cmp_anti.
  Qed.
  Lemma node_cmp_lt_branch i l h j l' h' :
    node_cmp (GBranch i l h) (GBranch j l' h') = Lt <-> lt_ i j \/ (i = j /\ (l < l' \/ (l = l' /\ h < h'))).
  Proof.
    cbn [node_cmp]. unfold lt_. destruct (cmp i j) eqn:E.
    - apply cmp_eq in E. subst j. destruct (id_cmp l l') eqn:E1.
      + apply id_cmp_eq in E1. subst l'. rewrite id_cmp_lt. split.
        * intros X. right. split; auto.
        * intros [X|(_ & [X|(_ & X)])]; [discriminate|lia|exact X].
      + apply id_cmp_lt in E1. split; auto.
      + split; [discriminate|]. intros [X|(_ & [X|(X & _)])]; [discriminate| |].
        * apply id_cmp_lt in X. congruence.
        * apply id_cmp_eq in X. congruence.
    - split; auto.
    - split; [discriminate|]. intros [X|(X & _)]; [discriminate|]. apply cmp_eq in X. congruence.
  Qed.
  Lemma node_cmp_trans (a b c : gnode I) : node_cmp a b = Lt -> node_cmp b c = Lt -> node_cmp a c = Lt.
  Proof.
    destruct a as [x|i l h], b as [y|j l' h'], c as [z|k l2 h2]; try (cbn; congruence).
    - destruct x, y, z; cbn; congruence.
    - rewrite !node_cmp_lt_branch. intros [A|(-> & A)] [B|(-> & B)]; auto.
      + left. eapply lt_trans_; eauto.
      + right. split; auto. lia.
  Qed.
End Cmp.

(** ** runs of client code *)
Section Runs.
  Context {I F : Type} `{OI : Ord I} `{OF : Ord F}.
  Notation pool := (bpool I F).

  Lemma reach_inv (p : pool) : breach p -> AInv (gp_arena p).
  Proof. intros Hp. destruct (gpool_reach_ok m_bcall b_vcall bden bden_ext b_vcall_total m_bcall_refines p Hp) as (I0 & _). exact I0. Qed.
  Lemma later_ext (p q : pool) : breach p -> blater p q -> breach q /\ ext (gp_arena p) (gp_arena q).
  Proof. exact (gpool_steps_ext m_bcall b_vcall bden bden_ext b_vcall_total m_bcall_refines p q). Qed.
  Lemma later_trans (p q r : pool) : blater p q -> blater q r -> blater p r.
  Proof. intros A B. induction B as [q|q q' r B IH S0]; [exact A|]. exact (GSS_step m_bcall p q' r (IH A) S0). Qed.
  Lemma done_step (p q : pool) : gpool_step m_bcall p q -> incl (gp_done p) (gp_done q).
  Proof. intros S0. inversion S0; subst; simpl; intros x Hx; auto. apply in_or_app; auto. Qed.
  Lemma done_later (p q : pool) : blater p q -> incl (gp_done p) (gp_done q).
  Proof. intros S0. induction S0 as [p|p q r S0 IH S1]; intros x Hx; auto. apply (done_step _ _ S1). auto. Qed.
  Lemma held_later (p q : pool) d n : breach p -> blater p q -> held p d n -> held q d n.
  Proof.
    intros Hp Hq (m & Hm & E & D). exists m. split; [exact (done_later p q Hq m Hm)|]. split; auto.
    destruct (later_ext p q Hp Hq) as [_ X]. eapply nden_ext; eauto.
  Qed.

  (** running one call that only adds the nodes [n1] and [n2] *)
  Lemma run_branch (p : pool) x d1 d2 n1 n2 : breach p -> held p d1 n1 -> held p d2 n2 ->
    exists q n, blater p q /\ held q (Branch x d1 d2) n /\ stored (gp_arena q) d1 /\ stored (gp_arena q) d2 /\
      (forall u, stored (gp_arena q) u -> stored (gp_arena p) u \/ u = d1 \/ u = d2) /\
      gp_arena q = fst (a_add (fst (a_add (gp_arena p) n1)) n2).
  Proof.
    intros Hp (m1 & M1 & E1 & D1) (m2 & M2 & E2 & D2). pose proof (reach_inv p Hp) as I0.
    destruct p as [a ts d]. cbn [gp_arena gp_done] in *.
    pose (cs := [BDBranch x 0 1] : list (bdcall I F)). pose (ms := [m1; m2]).
    set (a1 := fst (a_add a n1)). set (i1 := snd (a_add a n1)).
    set (a2 := fst (a_add a1 n2)). set (i2 := snd (a_add a1 n2)).
    pose (rs := ms ++ [MNode (GBranch x i1 i2)] : list (mval I F)).
    pose (q := mkGP a2 (ts ++ [mkGT 0 cs ms (Ret (rs, [BONone]))]) (d ++ rs) : pool).
    assert (X : blater (mkGP a ts d) q).
    { pose (k1 := fun i j => Ret (ms ++ [MNode (GBranch x i j)], [BONone]) : prog I (list (mval I F) * list (bobs I F))).
      pose (k0 := fun i => Add n2 (k1 i)).
      assert (E0 : g_script m_bcall 0 cs ms = Add n1 k0) by (subst n1 n2; reflexivity).
      eapply GSS_step; [eapply GSS_step; [eapply GSS_step; [eapply GSS_step; [apply GSS_refl|]|]|]|].
      - apply (GS_spawn m_bcall a ts d 0 cs ms). intros z [<-|[<-|[]]]; auto.
      - rewrite E0. apply (GS_thread m_bcall a ts [] d 0 cs ms (Add n1 k0) a1 (k0 i1)). apply P_add.
      - apply (GS_thread m_bcall a1 ts [] d 0 cs ms (Add n2 (k1 i1)) a2 (k1 i1 i2)). apply P_add.
      - unfold q. apply (GS_share m_bcall a2 _ d 0 cs ms rs [BONone]).
        apply in_or_app. right. left. reflexivity. }
    assert (J1 : den a1 i1 d1) by (apply add_stored; auto).
    destruct (a_add_spec a n1 I0 (nden_child _ _ _ D1)) as (I1 & X1 & _). fold a1 in I1, X1.
    assert (D2' : nden a1 n2 d2) by (eapply nden_ext; eauto).
    assert (J2 : den a2 i2 d2) by (apply add_stored; auto).
    destruct (a_add_spec a1 n2 I1 (nden_child _ _ _ D2')) as (I2 & X2 & _). fold a2 in I2, X2.
    exists q, (GBranch x i1 i2). split; [exact X|]. unfold q. cbn [gp_arena gp_done]. split.
    { exists (MNode (GBranch x i1 i2)). cbn [gp_done gp_arena mval_node]. split.
      - apply in_or_app. right. apply in_or_app. right. left. reflexivity.
      - split; auto. constructor; auto. eapply den_ext; eauto. }
    split; [exists i1; eapply den_ext; eauto|]. split; [exists i2; exact J2|]. split; [|reflexivity].
    intros u (i & Du). destruct (add_only a1 n2 d2 i u I1 D2' Du) as [(j & Dj)|Y]; auto.
    destruct (add_only a n1 d1 j u I0 D1 Dj) as [Y|Y]; auto.
  Qed.
  Lemma run_leaf (p : pool) b : exists q, blater p q /\ held q (Leaf b) (GLeaf b) /\ gp_arena q = gp_arena p.
  Proof.
    destruct p as [a ts d].
    pose (q := mkGP a (ts ++ [mkGT 0 [BDLeaf b] [] (Ret ([MNode (GLeaf b)], [BONone]))]) (d ++ [MNode (GLeaf b)]) : pool).
    exists q. split; [|split; [|reflexivity]].
    - eapply GSS_step; [eapply GSS_step; [apply GSS_refl|]|].
      + apply (GS_spawn m_bcall a ts d 0 [BDLeaf b] []). intros z [].
      + cbn. unfold q. apply (GS_share m_bcall a _ d 0 [BDLeaf b] [] [MNode (GLeaf b)] [BONone]).
        apply in_or_app. right. left. reflexivity.
    - exists (MNode (GLeaf b)). split; [apply in_or_app; right; left; reflexivity|]. split; auto. constructor.
  Qed.

  Lemma sub_trans (a b c : dd I) : sub a b -> sub b c -> sub a c.
  Proof. intros A B. induction B; auto; [apply sub_low|apply sub_high]; auto. Qed.
  Lemma sub_size (a b : dd I) : sub a b -> a = b \/ DD.size a < DD.size b.
  Proof.
    intros B. induction B as [t|x l lo hi B IH|x l lo hi B IH]; auto; right; cbn [DD.size]; destruct IH as [->|]; lia.
  Qed.

  (** any diagram can be built, and building it stores only what is below it *)
  Lemma grow (d : dd I) : forall p : pool, breach p -> exists q n, blater p q /\ held q d n /\
    (forall u, stored (gp_arena q) u -> stored (gp_arena p) u \/ (sub u d /\ u <> d)).
  Proof.
    induction d as [b|x lo IHlo hi IHhi]; intros p Hp.
    - destruct (run_leaf p b) as (q & A & B & E). exists q, (GLeaf b). split; auto. split; auto. rewrite E. auto.
    - destruct (IHlo p Hp) as (q1 & n1 & L1 & H1 & S1). destruct (later_ext _ _ Hp L1) as [R1 _].
      destruct (IHhi q1 R1) as (q2 & n2 & L2 & H2 & S2). destruct (later_ext _ _ R1 L2) as [R2 _].
      pose proof (held_later _ _ _ _ R1 L2 H1) as H1'.
      destruct (run_branch q2 x lo hi n1 n2 R2 H1' H2) as (q3 & n3 & L3 & H3 & _ & _ & S3 & _).
      exists q3, n3. split; [eapply later_trans; [exact L1|]; eapply later_trans; eauto|]. split; auto.
      assert (Z1 : forall u, sub u lo -> u <> Branch x lo hi).
      { intros u A ->. destruct (sub_size _ _ A) as [E|E]; [|cbn [DD.size] in E; lia].
        apply (f_equal (@DD.size I)) in E. cbn [DD.size] in E. lia. }
      assert (Z2 : forall u, sub u hi -> u <> Branch x lo hi).
      { intros u A ->. destruct (sub_size _ _ A) as [E|E]; [|cbn [DD.size] in E; lia].
        apply (f_equal (@DD.size I)) in E. cbn [DD.size] in E. lia. }
      intros u Hu. destruct (S3 u Hu) as [A|[ -> | -> ]].
      + destruct (S2 u A) as [B|(B & _)].
        * destruct (S1 u B) as [C|(C & _)]; auto. right. split; [apply sub_low; auto|auto].
        * right. split; [apply sub_high; auto|auto].
      + right. split; [apply sub_low, sub_refl|apply Z1, sub_refl].
      + right. split; [apply sub_high, sub_refl|apply Z2, sub_refl].
  Qed.
End Runs.

Section Order.
  Context {I F : Type} `{OI : Ord I} `{OF : Ord F}.
  Notation pool := (bpool I F).

  Lemma den_sub (ar : arena I) (a b : dd I) : AInv ar -> sub a b -> forall j, den ar j b -> exists i, den ar i a /\ i <= j.
  Proof.
    intros I0 S0. induction S0 as [t|x l lo hi S0 IH|x l lo hi S0 IH]; intros j D.
    - exists j. auto.
    - inversion D as [j0 n t Hg Hn]; subst. inversion Hn as [|l0 i1 i2 t1 t2 D1 D2]; subst.
      destruct (inv_child ar I0 _ _ Hg) as [C1 C2]. destruct (IH _ D1) as (i & Di & Hi). exists i. split; auto. lia.
    - inversion D as [j0 n t Hg Hn]; subst. inversion Hn as [|l0 i1 i2 t1 t2 D1 D2]; subst.
      destruct (inv_child ar I0 _ _ Hg) as [C1 C2]. destruct (IH _ D2) as (i & Di & Hi). exists i. split; auto. lia.
  Qed.
  Lemma older_ids (ar : arena I) (a b : dd I) i j : AInv ar -> older a b -> den ar i a -> den ar j b -> i < j.
  Proof.
    intros I0 (Hne & Ho) Da Db.
    assert (N : i <> j) by (intros ->; apply Hne; eapply den_fun; eauto).
    destruct Ho as [->|[(-> & Hb)|(x & l & h & _ & S0)]].
    - rewrite (den_inj _ _ _ _ I0 Da (den_leaf ar false I0)) in *. lia.
    - rewrite (den_inj _ _ _ _ I0 Da (den_leaf ar true I0)) in *.
      assert (j <> 0) by (intros ->; apply Hb; eapply den_fun; [exact Db|exact (den_leaf ar false I0)]). lia.
    - destruct (den_sub ar a b I0 S0 j Db) as (k & Dk & Hk). rewrite (den_inj _ _ _ _ I0 Da Dk) in *. lia.
  Qed.
  Lemma node_before_lt (ar : arena I) (a b : dd I) m n : AInv ar -> node_before a b -> nden ar m a -> nden ar n b -> node_cmp m n = Lt.
  Proof.
    intros I0 Hb Da Db. inversion Da as [c|x i1 i2 l h D1 D2]; subst; inversion Db as [c'|y j1 j2 l' h' D3 D4]; subst; cbn [node_before] in Hb.
    - destruct Hb as [-> ->]. reflexivity.
    - destruct Hb.
    - reflexivity.
    - apply node_cmp_lt_branch. destruct Hb as [X|(-> & [X|(-> & X)])]; auto; right; split; auto.
      + left. exact (older_ids ar l l' i1 j1 I0 X D1 D3).
      + right. split; [exact (den_inj _ _ _ _ I0 D1 D3)|exact (older_ids ar h h' i2 j2 I0 X D2 D4)].
  Qed.

  Lemma dd_dec (a b : dd I) : a = b \/ a <> b.
  Proof. destruct (dd_eqb_spec a b); auto. Qed.
  Lemma sub_dec (a b : dd I) : sub a b \/ ~ sub a b.
  Proof.
    induction b as [c|x lo IHlo hi IHhi].
    - destruct (dd_dec a (Leaf c)) as [->|N]; [left; constructor|]. right. intros S0. inversion S0; subst; auto.
    - destruct (dd_dec a (Branch x lo hi)) as [->|N]; [left; constructor|].
      destruct IHlo as [A|A]; [left; apply sub_low; auto|]. destruct IHhi as [B|B]; [left; apply sub_high; auto|].
      right. intros S0. inversion S0; subst; auto.
  Qed.
  (** two diagrams are equal, or one is the older, or neither is part of the other *)
  Lemma older_cases (a b : dd I) : a = b \/ older a b \/ older b a \/ ((exists x l h, a = Branch x l h) /\ ~ sub a b).
  Proof.
    destruct (dd_dec a b) as [E|N]; auto. right. assert (N' : b <> a) by congruence.
    destruct a as [[|]|x l h].
    - destruct b as [[|]|y l' h']; [congruence| |].
      + right. left. split; auto.
      + left. split; auto. right. left. split; auto; discriminate.
    - left. split; auto.
    - destruct b as [[|]|y l' h'].
      + right. left. split; auto. right. left. split; auto; discriminate.
      + right. left. split; auto.
      + destruct (sub_dec (Branch x l h) (Branch y l' h')) as [A|A]; [left; split; eauto 10|].
        destruct (sub_dec (Branch y l' h') (Branch x l h)) as [B|B]; [right; left; split; eauto 10|].
        right. right. split; eauto.
  Qed.
  Lemma older_not_refl (a b : dd I) : older a b -> a <> b.
  Proof. intros (N & _). exact N. Qed.

  Lemma start_reach : breach (mkGP a_new [] [] : pool).
  Proof. constructor. Qed.
  Lemma start_stored u : stored (gp_arena (mkGP a_new [] [] : pool)) u -> exists b, u = Leaf b.
  Proof.
    cbn [gp_arena]. intros (i & D). pose proof (den_bound _ _ _ D) as B. cbn in B.
    inversion D as [i0 n t Hg Hn]; subst. unfold a_get in Hg.
    destruct i as [|[|i]]; [| |lia]; cbn in Hg; inversion Hg; subst; inversion Hn; eauto.
  Qed.

  (** build a diagram and store it *)
  Lemma grow_stored (d : dd I) (p : pool) : breach p -> exists q, blater p q /\ stored (gp_arena q) d /\
    (forall u, stored (gp_arena q) u -> stored (gp_arena p) u \/ sub u d).
  Proof.
    intros Hp. destruct d as [b|x l h].
    - exists p. split; [apply GSS_refl|]. split; auto. eexists. apply den_leaf. apply reach_inv; auto.
    - destruct (grow (Branch x l h) p Hp) as (q & n & L1 & H1 & S1). destruct (later_ext _ _ Hp L1) as [R1 _].
      destruct (run_branch q x _ _ n n R1 H1 H1) as (q2 & n2 & L2 & _ & St & _ & S2 & _).
      exists q2. split; [exact (NodeOrdThm.later_trans _ _ _ L1 L2)|]. split; auto.
      intros u Hu. destruct (S2 u Hu) as [A|[-> | ->]]; [|right; apply sub_refl|right; apply sub_refl].
      destruct (S1 u A) as [B|(B & _)]; auto.
  Qed.
  (** ... [b] before [a], unless [a] is always first *)
  Lemma separate (a b : dd I) : ~ older a b -> exists (p : pool) i j, breach p /\ den (gp_arena p) i a /\ den (gp_arena p) j b /\ j <= i.
  Proof.
    intros N. destruct (grow_stored b _ start_reach) as (p & L1 & (j & Dj) & S1). destruct (later_ext _ _ start_reach L1) as [R1 _].
    destruct (grow_stored a p R1) as (q & L2 & (i & Di) & _). destruct (later_ext _ _ R1 L2) as [R2 X2].
    pose proof (den_ext _ _ _ _ X2 Dj) as Dj'. pose proof (reach_inv q R2) as I2.
    exists q, i, j. split; auto. split; auto. split; auto.
    destruct (older_cases a b) as [E|[E|[E|(E1 & E2)]]].
    - subst b. rewrite (den_inj _ _ _ _ I2 Di Dj'). lia.
    - contradiction.
    - apply Nat.lt_le_incl. exact (older_ids _ b a j i I2 E Dj' Di).
    - destruct (Nat.lt_ge_cases i (length (a_nodes (gp_arena p)))) as [C|C].
      + exfalso. destruct (den_total _ (reach_inv p R1) i C) as (t & Dt).
        assert (t = a) by (eapply den_fun; [eapply den_ext; [exact X2|exact Dt]|exact Di]). subst t.
        destruct (S1 a (ex_intro _ i Dt)) as [A|A]; auto. destruct (start_stored a A) as (c & Ea).
        destruct E1 as (x & l & h & Ea'). congruence.
      + pose proof (den_bound _ _ _ Dj). lia.
  Qed.
End Order.

(** C99, nodes.  In every state of every execution, the order of the nodes that
    client code holds is a total order on diagrams: [==] exactly on equal
    diagrams, antisymmetric and transitive ... *)
Lemma C99_total_order_pf : forall (I F : Type) (OI : Ord I) (OF : Ord F) (p : bpool I F) d1 d2 d3 n1 n2 n3,
  breach p -> held p d1 n1 -> held p d2 n2 -> held p d3 n3 ->
  (node_cmp n1 n2 = Eq <-> d1 = d2) /\
  (node_cmp n1 n2 = Lt <-> node_cmp n2 n1 = Gt) /\
  (node_cmp n1 n2 = Lt -> node_cmp n2 n3 = Lt -> node_cmp n1 n3 = Lt).
Proof.
  intros I F OI OF p d1 d2 d3 n1 n2 n3 Hp (m1 & _ & _ & D1) (m2 & _ & _ & D2) _. pose proof (reach_inv p Hp) as I0.
  split; [|split].
  - rewrite node_cmp_eq. split; [intros E; subst n2; exact (nden_fun _ _ _ _ D1 D2)|intros E; subst d2; exact (nden_inj _ _ _ _ I0 D1 D2)].
  - rewrite (node_cmp_anti n1 n2). destruct (node_cmp n1 n2); cbn; split; congruence.
  - apply node_cmp_trans.
Qed.
(** ... branches before leaves, and branches in the order of their items, in
    every process ... *)
Lemma C99_items_first_pf : forall (I F : Type) (OI : Ord I) (OF : Ord F) (p : bpool I F) x l h n1 d2 n2,
  breach p -> held p (Branch x l h) n1 -> held p d2 n2 ->
  match d2 with
  | Leaf _ => node_cmp n1 n2 = Lt
  | Branch y _ _ => (lt_ x y -> node_cmp n1 n2 = Lt) /\ (node_cmp n1 n2 = Lt -> lt_ x y \/ x = y)
  end.
Proof.
  intros I F OI OF p x l h n1 d2 n2 Hp (m1 & _ & _ & D1) (m2 & _ & _ & D2).
  inversion D1 as [|x0 i1 i2 t1 t2 A1 A2]; subst. destruct d2 as [c|y l' h']; inversion D2; subst; [reflexivity|].
  split; rewrite node_cmp_lt_branch; intuition.
Qed.
(** ... and it never changes while the process runs: nodes that are held later
    for the same diagrams are the same nodes, so compare the same. *)
Lemma C99_order_is_stable_pf : forall (I F : Type) (OI : Ord I) (OF : Ord F) (p q : bpool I F) d1 d2 n1 n2 n1' n2',
  breach p -> blater p q -> held p d1 n1 -> held p d2 n2 -> held q d1 n1' -> held q d2 n2' ->
  n1' = n1 /\ n2' = n2 /\ node_cmp n1' n2' = node_cmp n1 n2.
Proof.
  intros I F OI OF p q d1 d2 n1 n2 n1' n2' Hp Hq H1 H2 (m1 & _ & _ & D1) (m2 & _ & _ & D2).
  destruct (later_ext p q Hp Hq) as [Rq _]. pose proof (reach_inv q Rq) as I0.
  destruct (held_later p q _ _ Hp Hq H1) as (m3 & _ & _ & D3). destruct (held_later p q _ _ Hp Hq H2) as (m4 & _ & _ & D4).
  assert (n1' = n1) by exact (nden_inj _ _ _ _ I0 D1 D3). assert (n2' = n2) by exact (nden_inj _ _ _ _ I0 D2 D4). subst. auto.
Qed.

(** C99, ids.  [NodeId::from] of a node that is held gives an id from which
    [Node::from] gives the node back; asking again, at any later time and from
    any thread, gives the same id and stores nothing. *)
Lemma C99_id_round_trip_pf : forall (I F : Type) (OI : Ord I) (OF : Ord F) (p : bpool I F) d n,
  breach p -> held p d n ->
  a_get (fst (a_add (gp_arena p) n)) (snd (a_add (gp_arena p) n)) = Some n /\
  forall q, blater p q -> a_get (gp_arena q) (snd (a_add (gp_arena p) n)) = Some n ->
    a_add (gp_arena q) n = (gp_arena q, snd (a_add (gp_arena p) n)).
Proof.
  intros I F OI OF p d n Hp (m & _ & _ & D). pose proof (reach_inv p Hp) as I0. split.
  - apply (a_add_spec _ n I0 (nden_child _ _ _ D)).
  - intros q Hq G. destruct (later_ext p q Hp Hq) as [Rq _]. pose proof (reach_inv q Rq) as Iq.
    apply (inv_index _ Iq) in G. unfold a_add at 1. rewrite G. reflexivity.
Qed.
(** The order of ids is the order in which diagrams were first stored: it is
    total, [==] exactly on equal diagrams, and a diagram that is in the store has
    a smaller id than one that comes in later. *)
Lemma C99_ids_by_age_pf : forall (I F : Type) (OI : Ord I) (OF : Ord F) (p q : bpool I F) d1 d2 i1 i2,
  breach p -> blater p q -> den (gp_arena q) i1 d1 -> den (gp_arena q) i2 d2 ->
  (id_cmp i1 i2 = Eq <-> d1 = d2) /\
  ((exists i, den (gp_arena p) i d1) -> ~ (exists i, den (gp_arena p) i d2) -> id_cmp i1 i2 = Lt).
Proof.
  intros I F OI OF p q d1 d2 i1 i2 Hp Hq D1 D2. destruct (later_ext p q Hp Hq) as [Rq X]. pose proof (reach_inv q Rq) as Iq. split.
  - rewrite id_cmp_eq. split; [intros E; subst; exact (den_fun _ _ _ _ D1 D2)|intros E; subst; exact (den_inj _ _ _ _ Iq D1 D2)].
  - intros (i & Di) N. apply id_cmp_lt.
    rewrite (den_inj _ _ _ _ Iq D1 (den_ext _ _ _ _ X Di)). pose proof (den_bound _ _ _ Di) as B.
    destruct (Nat.lt_ge_cases i2 (length (a_nodes (gp_arena p)))) as [C|C]; [|lia].
    exfalso. apply N. destruct (den_total _ (reach_inv p Hp) i2 C) as (t & Dt). exists i2.
    rewrite <- (den_fun _ _ _ _ (den_ext _ _ _ _ X Dt) D2). exact Dt.
Qed.
(** A saved id read back later in the same process stands for the same node;
    [Node::from] of any other number panics, exactly when the number is not
    below the number of nodes stored. *)
Lemma C99_saved_ids_pf : forall (I F : Type) (OI : Ord I) (OF : Ord F) (p q : bpool I F) i n,
  breach p -> blater p q ->
  (a_get (gp_arena p) i = Some n -> a_get (gp_arena q) (id_de (id_ser i)) = Some n) /\
  (forall k, pstep (gp_arena q) (get_node (id_de k)) (gp_arena q) Panic <-> length (a_nodes (gp_arena q)) <= k).
Proof.
  intros I F OI OF p q i n Hp Hq. destruct (later_ext p q Hp Hq) as [Rq X]. split.
  - intros G. unfold id_de, id_ser. exact (ext_get _ _ _ _ X G).
  - intros k. unfold id_de, get_node. split.
    + intros S0. inversion S0; subst. apply nth_error_None. assumption.
    + intros Hk. apply P_get_panic. apply nth_error_None. exact Hk.
Qed.

(** C100.  One node is less than another in every process exactly if their
    diagrams say so ... *)
Lemma C100_node_order_exact_pf : forall (I F : Type) (OI : Ord I) (OF : Ord F) (d1 d2 : dd I),
  (forall (p : bpool I F) n1 n2, breach p -> held p d1 n1 -> held p d2 n2 -> node_cmp n1 n2 = Lt) <-> node_before d1 d2.
Proof.
  intros I F OI OF d1 d2. split.
  - intros Hall.
    assert (Both : forall p : bpool I F, breach p -> exists q n1 n2, blater p q /\ nden (gp_arena q) n1 d1 /\ nden (gp_arena q) n2 d2 /\ node_cmp n1 n2 = Lt).
    { intros p Hp. destruct (grow d1 p Hp) as (q1 & n1 & L1 & H1 & _). destruct (later_ext _ _ Hp L1) as [R1 _].
      destruct (grow d2 q1 R1) as (q2 & n2 & L2 & H2 & _). destruct (later_ext _ _ R1 L2) as [R2 _].
      pose proof (held_later _ _ _ _ R1 L2 H1) as H1'. exists q2, n1, n2. split; [exact (NodeOrdThm.later_trans _ _ _ L1 L2)|].
      pose proof (Hall q2 n1 n2 R2 H1' H2) as E. destruct H1' as (? & _ & _ & D1). destruct H2 as (? & _ & _ & D2). auto. }
    destruct (Both _ start_reach) as (q & n1 & n2 & L0 & D1 & D2 & E).
    destruct d1 as [b|x l h], d2 as [c|y l' h']; cbn [node_before]; auto.
    + inversion D1; subst. inversion D2; subst. cbn in E. destruct b, c; try discriminate. auto.
    + inversion D1; subst. inversion D2; subst. discriminate.
    + inversion D1 as [|x0 i1 i2 t1 t2 A1 A2]; subst. inversion D2 as [|y0 j1 j2 t3 t4 B1 B2]; subst.
      apply node_cmp_lt_branch in E. destruct E as [E|(E & _)]; auto. subst y. right. split; auto.
      assert (Sep : forall p : bpool I F, breach p -> forall i j k m, den (gp_arena p) i l -> den (gp_arena p) j l' ->
                den (gp_arena p) k h -> den (gp_arena p) m h' -> i < j \/ (i = j /\ k < m)).
      { intros p Hp i j k m Di Dj Dk Dm. destruct (Both p Hp) as (q1 & m1 & m2 & L1 & F1 & F2 & E1).
        destruct (later_ext _ _ Hp L1) as [R1 X1]. pose proof (reach_inv q1 R1) as I1.
        inversion F1 as [|x0 u1 u2 t1 t2 A3 A4]; subst. inversion F2 as [|y0 v1 v2 t3 t4 B3 B4]; subst.
        apply node_cmp_lt_branch in E1. destruct E1 as [E1|(_ & E1)]; [destruct (lt_irrefl_ _ E1)|].
        rewrite (den_inj _ _ _ _ I1 A3 (den_ext _ _ _ _ X1 Di)), (den_inj _ _ _ _ I1 A4 (den_ext _ _ _ _ X1 Dk)),
          (den_inj _ _ _ _ I1 B3 (den_ext _ _ _ _ X1 Dj)), (den_inj _ _ _ _ I1 B4 (den_ext _ _ _ _ X1 Dm)) in E1. exact E1. }
      assert (All : forall (p : bpool I F), breach p -> exists q, blater p q /\ stored (gp_arena q) l /\ stored (gp_arena q) l' /\ stored (gp_arena q) h /\ stored (gp_arena q) h').
      { intros p Hp. destruct (grow_stored l p Hp) as (q1 & K1 & S1 & _). destruct (later_ext _ _ Hp K1) as [R1 _].
        destruct (grow_stored l' q1 R1) as (q2 & K2 & S2 & _). destruct (later_ext _ _ R1 K2) as [R2 X2].
        destruct (grow_stored h q2 R2) as (q3 & K3 & S3 & _). destruct (later_ext _ _ R2 K3) as [R3 X3].
        destruct (grow_stored h' q3 R3) as (q4 & K4 & S4 & _). destruct (later_ext _ _ R3 K4) as [R4 X4].
        exists q4. split; [exact (NodeOrdThm.later_trans _ _ _ K1 (NodeOrdThm.later_trans _ _ _ K2 (NodeOrdThm.later_trans _ _ _ K3 K4)))|].
        split; [exact (stored_ext _ _ _ X4 (stored_ext _ _ _ X3 (stored_ext _ _ _ X2 S1)))|].
        split; [exact (stored_ext _ _ _ X4 (stored_ext _ _ _ X3 S2))|]. split; [exact (stored_ext _ _ _ X4 S3)|exact S4]. }
      assert (Old : older l l' \/ ~ older l l').
      { destruct (older_cases l l') as [Z|[Z|[Z|((x1 & l1 & h1 & Z) & N)]]]; auto; right; intros (N1 & O1).
        - auto.
        - destruct (grow_stored l _ start_reach) as (q1 & K1 & (u & U) & _). destruct (later_ext _ _ (@start_reach I F OI OF) K1) as [R1 _].
          destruct (grow_stored l' q1 R1) as (q2 & K2 & (v & V) & _). destruct (later_ext _ _ R1 K2) as [R2 X2].
          pose proof (older_ids _ l' l v u (reach_inv q2 R2) Z V (den_ext _ _ _ _ X2 U)).
          pose proof (older_ids _ l l' u v (reach_inv q2 R2) (conj N1 O1) (den_ext _ _ _ _ X2 U) V). lia.
        - subst l. destruct O1 as [O1|[(O1 & _)|(x2 & l2 & h2 & _ & O1)]]; congruence || contradiction. }
      destruct Old as [Old|Nold]; auto. right.
      destruct (separate l l' Nold : exists p : bpool I F, _) as (p & i & j & Hp & Di & Dj & Le).
      destruct (All p Hp) as (r & Lr & (i' & Si) & (j' & Sj) & (k & Sk) & (m & Sm)). destruct (later_ext _ _ Hp Lr) as [Rr Xr].
      pose proof (reach_inv r Rr) as Ir.
      assert (i' = i) by exact (den_inj _ _ _ _ Ir Si (den_ext _ _ _ _ Xr Di)).
      assert (j' = j) by exact (den_inj _ _ _ _ Ir Sj (den_ext _ _ _ _ Xr Dj)). subst i' j'.
      assert (Eij : i = j) by (destruct (Sep r Rr i j k m Si Sj Sk Sm) as [Z|(Z & _)]; lia). subst j.
      assert (El : l = l') by exact (den_fun _ _ _ _ Di Dj). split; auto. subst l'.
      destruct (older_cases h h') as [Z|[Z|Z]]; auto; exfalso.
      * subst h'. assert (m = k) by exact (den_inj _ _ _ _ Ir Sm Sk). subst m.
        destruct (Sep r Rr i i k k Si Sj Sk Sm) as [Y|(_ & Y)]; lia.
      * assert (N : ~ older h h').
        { intros (N1 & O1). destruct Z as [Z|((x1 & l1 & h1 & Z) & N)].
          - pose proof (older_ids _ h' h m k Ir Z Sm Sk). pose proof (older_ids _ h h' k m Ir (conj N1 O1) Sk Sm). lia.
          - subst h. destruct O1 as [O1|[(O1 & _)|(x2 & l2 & h2 & _ & O1)]]; congruence || contradiction. }
        destruct (separate h h' N : exists p : bpool I F, _) as (p2 & k2 & m2 & Hp2 & Dk & Dm & Le2).
        destruct (All p2 Hp2) as (r2 & Lr2 & (i3 & Si3) & (j3 & Sj3) & (k3 & Sk3) & (m3 & Sm3)). destruct (later_ext _ _ Hp2 Lr2) as [Rr2 Xr2].
        pose proof (reach_inv r2 Rr2) as Ir2.
        assert (k3 = k2) by exact (den_inj _ _ _ _ Ir2 Sk3 (den_ext _ _ _ _ Xr2 Dk)).
        assert (m3 = m2) by exact (den_inj _ _ _ _ Ir2 Sm3 (den_ext _ _ _ _ Xr2 Dm)). subst k3 m3.
        destruct (Sep r2 Rr2 i3 i3 k2 m2 Si3 Si3 Sk3 Sm3) as [Y|(_ & Y)]; lia.
  - intros Hb p n1 n2 Hp (m1 & _ & _ & D1) (m2 & _ & _ & D2). exact (node_before_lt _ d1 d2 n1 n2 (reach_inv p Hp) Hb D1 D2).
Qed.
(** ... and one id is less than another in every process exactly if one diagram
    is part of the other or is an earlier leaf ... *)
Lemma C100_id_order_exact_pf : forall (I F : Type) (OI : Ord I) (OF : Ord F) (d1 d2 : dd I),
  (forall (p : bpool I F) i1 i2, breach p -> den (gp_arena p) i1 d1 -> den (gp_arena p) i2 d2 -> id_cmp i1 i2 = Lt) <-> older d1 d2.
Proof.
  intros I F OI OF d1 d2. split.
  - intros Hall.
    assert (N : ~ ~ older d1 d2).
    { intros N. destruct (separate d1 d2 N : exists p : bpool I F, _) as (p & i & j & Hp & Di & Dj & Le).
      pose proof (Hall p i j Hp Di Dj) as E. apply id_cmp_lt in E. lia. }
    destruct (older_cases d1 d2) as [Z|[Z|Z]]; auto; exfalso; apply N; intros O1.
    + subst. destruct O1 as (N1 & _). auto.
    + destruct Z as [Z|((x & l & h & Z) & N2)].
      * destruct (grow_stored d1 _ (@start_reach I F OI OF)) as (q1 & K1 & (u & U) & _). destruct (later_ext _ _ (@start_reach I F OI OF) K1) as [R1 _].
        destruct (grow_stored d2 q1 R1) as (q2 & K2 & (v & V) & _). destruct (later_ext _ _ R1 K2) as [R2 X2].
        pose proof (older_ids _ d2 d1 v u (reach_inv q2 R2) Z V (den_ext _ _ _ _ X2 U)).
        pose proof (older_ids _ d1 d2 u v (reach_inv q2 R2) O1 (den_ext _ _ _ _ X2 U) V). lia.
      * subst d1. destruct O1 as (_ & [O1|[(O1 & _)|(x2 & l2 & h2 & _ & O1)]]); congruence || contradiction.
  - intros Ho p i1 i2 Hp D1 D2. apply id_cmp_lt. exact (older_ids _ d1 d2 i1 i2 (reach_inv p Hp) Ho D1 D2).
Qed.

(** A chain of [n] branches above a leaf, to fill the store one node at a time. *)
Fixpoint chain {I} (x : I) (b : bool) (n : nat) : dd I :=
  match n with 0 => Leaf b | Datatypes.S k => Branch x (chain x b k) (Leaf true) end.
Lemma chain_inj {I} (x : I) n : chain x false n <> chain x true n.
Proof. induction n as [|n IH]; cbn [chain]; intros E; [discriminate|]. apply IH. congruence. Qed.
Lemma chain_size {I} (x : I) b n : DD.size (chain x b n) = 1 + 2 * n.
Proof. induction n as [|n IH]; cbn [chain DD.size]; [reflexivity|]. rewrite IH. lia. Qed.
Lemma chain_run {I F} {OI : Ord I} {OF : Ord F} (x : I) b n : exists (p : bpool I F) m t,
  breach p /\ held p (chain x b (Datatypes.S n)) m /\ held p (Leaf true) t /\ length (a_nodes (gp_arena p)) = n + 2 /\
  (forall u, stored (gp_arena p) u -> DD.size u <= 1 + 2 * n).
Proof.
  induction n as [|n (p & m & t & Hp & Hm & Ht & Len & Sz)].
  - destruct (run_leaf (mkGP a_new [] [] : bpool I F) b) as (p & L1 & H1 & E1). destruct (later_ext _ _ start_reach L1) as [R1 _].
    destruct (run_leaf p true) as (q & L2 & H2 & E2). destruct (later_ext _ _ R1 L2) as [R2 _].
    pose proof (held_later _ _ _ _ R1 L2 H1) as H1'.
    destruct (run_branch q x _ _ _ _ R2 H1' H2) as (r & m & L3 & H3 & _ & _ & St & E3). destruct (later_ext _ _ R2 L3) as [R3 _].
    exists r, m, (GLeaf true). split; auto. split; auto. split; [exact (held_later _ _ _ _ R2 L3 H2)|].
    split; [rewrite E3, E2, E1; destruct b; reflexivity|].
    intros u Hu. destruct (St u Hu) as [A|[-> | ->]]; cbn [DD.size]; auto.
    rewrite E2, E1 in A. destruct (start_stored (F := F) u A) as (c & ->). cbn [DD.size]. auto.
  - destruct (run_branch p x _ _ _ _ Hp Hm Ht) as (r & m2 & L3 & H3 & _ & _ & St & E3). destruct (later_ext _ _ Hp L3) as [R3 _].
    exists r, m2, t. split; auto. split; auto. split; [exact (held_later _ _ _ _ Hp L3 Ht)|].
    pose proof (reach_inv p Hp) as I0. destruct Hm as (h1 & _ & _ & D1). destruct Ht as (h2 & _ & _ & D2).
    split.
    + assert (New : idx_get (a_index (gp_arena p)) m = None).
      { destruct (idx_get (a_index (gp_arena p)) m) as [i|] eqn:E; auto. exfalso. apply (inv_index _ I0) in E.
        assert (X : stored (gp_arena p) (chain x b (Datatypes.S n))) by (exists i; econstructor; eauto).
        apply Sz in X. rewrite chain_size in X. lia. }
      assert (E4 : fst (a_add (fst (a_add (gp_arena p) m)) t) = fst (a_add (gp_arena p) m)).
      { destruct (a_add_spec (gp_arena p) m I0 (nden_child _ _ _ D1)) as (I1 & X1 & _).
        apply (add_same _ t (Leaf true) I1); [eapply nden_ext; eauto|]. exists 1. exact (den_leaf _ true I1). }
      rewrite E3, E4. unfold a_add. rewrite New. cbn [fst a_nodes]. rewrite app_length, Len. cbn. lia.
    + intros u Hu. destruct (St u Hu) as [A|[-> | ->]].
      * apply Sz in A. lia.
      * rewrite chain_size. lia.
      * cbn [DD.size]. lia.
Qed.
(** the chain gets the next free id *)
Lemma chain_id {I F} {OI : Ord I} {OF : Ord F} (x : I) b n : exists p : bpool I F,
  breach p /\ den (gp_arena p) (n + 2) (chain x b (Datatypes.S n)).
Proof.
  destruct (chain_run (F := F) x b n) as (p & m & t & Hp & Hm & Ht & Len & Sz).
  destruct (run_branch p x _ _ _ _ Hp Hm Ht) as (r & m2 & L3 & H3 & (i & Di) & _ & St & E3).
  destruct (chain_run (F := F) x b (Datatypes.S n)) as (p' & _).
  destruct (later_ext _ _ Hp L3) as [R3 X3]. exists r. split; auto.
  pose proof (reach_inv p Hp) as I0. pose proof (reach_inv r R3) as I3.
  assert (Hge : n + 2 <= i).
  { destruct (Nat.lt_ge_cases i (n + 2)) as [C|C]; auto. exfalso. rewrite <- Len in C.
    destruct (den_total _ I0 i C) as (u & Du).
    assert (u = chain x b (Datatypes.S n)) by (eapply den_fun; [exact (den_ext _ _ _ _ X3 Du)|exact Di]). subst u.
    assert (Y : stored (gp_arena p) (chain x b (Datatypes.S n))) by (exists i; exact Du). apply Sz in Y. rewrite chain_size in Y. lia. }
  assert (Hlt : i < n + 3).
  { pose proof (den_bound _ _ _ Di) as B. rewrite E3 in B.
    destruct Hm as (h1 & _ & _ & D1). destruct Ht as (h2 & _ & _ & D2).
    destruct (a_add_spec (gp_arena p) m I0 (nden_child _ _ _ D1)) as (I1 & X1 & _).
    rewrite (add_same _ t (Leaf true) I1) in B; [|eapply nden_ext; eauto|exists 1; exact (den_leaf _ true I1)].
    unfold a_add in B. destruct (idx_get (a_index (gp_arena p)) m); cbn [fst a_nodes] in B; [lia|].
    rewrite app_length in B. cbn in B. lia. }
  assert (i = n + 2) by lia. subst i. exact Di.
Qed.
(** ... and the number of an id means the same diagram in every process exactly
    for the ids of the two leaves: a saved [NodeId] is of no use to another process. *)
Lemma C100_numbers_across_processes_pf : forall (I F : Type) (OI : Ord I) (OF : Ord F) (x : I) (k : nat),
  (forall (p q : bpool I F) d1 d2, breach p -> breach q ->
     den (gp_arena p) (id_de k) d1 -> den (gp_arena q) (id_de k) d2 -> d1 = d2) <-> k < 2.
Proof.
  intros I F OI OF x k. unfold id_de. split.
  - intros Hall. destruct (Nat.lt_ge_cases k 2) as [C|C]; auto. exfalso.
    replace k with ((k - 2) + 2) in Hall by lia.
    destruct (chain_id (F := F) x false (k - 2)) as (p & Hp & Dp). destruct (chain_id (F := F) x true (k - 2)) as (q & Hq & Dq).
    exact (chain_inj x _ (Hall p q _ _ Hp Hq Dp Dq)).
  - intros Hk p q d1 d2 Hp Hq D1 D2. pose proof (reach_inv p Hp) as Ip. pose proof (reach_inv q Hq) as Iq.
    destruct k as [|[|k]]; [| |lia].
    + rewrite (den_fun _ _ _ _ D1 (den_leaf _ false Ip)), (den_fun _ _ _ _ D2 (den_leaf _ false Iq)). reflexivity.
    + rewrite (den_fun _ _ _ _ D1 (den_leaf _ true Ip)), (den_fun _ _ _ _ D2 (den_leaf _ true Iq)). reflexivity.
Qed.

(** Non-vacuity: two processes that build the same two nodes, the parts of which
    they store in different orders, and so order them differently. *)
Definition no_run (x y : nat) : bpool nat nat :=
  gsched (repeat 0 20) (gspawn m_bcall 10 [BDPos x; BDPos y; BDPos 9; BDBranch 1 0 2; BDBranch 1 1 2] (mkGP a_new [] [])).
Definition no_share (p : bpool nat nat) : bpool nat nat :=
  match gp_threads p with
  | t :: _ => match gt_prog t with Ret (r, _) => mkGP (gp_arena p) (gp_threads p) (gp_done p ++ r) | _ => p end
  | [] => p
  end.
Lemma no_share_sound p : breach p -> breach (no_share p).
Proof.
  intros Hp. unfold no_share. destruct p as [a ts d]. cbn [gp_threads gp_arena gp_done]. destruct ts as [|[f cs ms pr] ts]; auto.
  cbn [gt_prog]. destruct pr as [[r o]| | | | |]; auto. eapply GR_step; [exact Hp|].
  apply (GS_share m_bcall a _ d f cs ms r o). left. reflexivity.
Qed.
Definition no_p : bpool nat nat := no_share (no_run 5 7).
Definition no_q : bpool nat nat := no_share (no_run 7 5).
Lemma no_run_reach x y : breach (no_run x y).
Proof.
  unfold no_run, breach. apply gsched_sound. apply gspawn_sound. exact (GR_start m_bcall).
Qed.
Lemma no_p_reach : breach no_p.
Proof. exact (no_share_sound _ (no_run_reach 5 7)). Qed.
Lemma no_q_reach : breach no_q.
Proof. exact (no_share_sound _ (no_run_reach 7 5)). Qed.
Example C100_example :
  let a := Branch 1 (positive_branch 5) (positive_branch 9) in
  let b := Branch 1 (positive_branch 7) (positive_branch 9) in
  ~ node_before a b /\ ~ node_before b a /\
  (exists (p : bpool nat nat) n1 n2, breach p /\ held p a n1 /\ held p b n2 /\ node_cmp n1 n2 = Lt) /\
  (exists (q : bpool nat nat) n1 n2, breach q /\ held q a n1 /\ held q b n2 /\ node_cmp n1 n2 = Gt).
Proof.
  cbn [node_before positive_branch]. split; [|split; [|split]].
  - intros [E|(_ & [(_ & E)|(E & _)])]; [discriminate| |discriminate].
    destruct E as [E|[(E & _)|(x & l & h & _ & E)]]; try discriminate.
    inversion E as [|z t lo hi E1|z t lo hi E1]; inversion E1.
  - intros [E|(_ & [(_ & E)|(E & _)])]; [discriminate| |discriminate].
    destruct E as [E|[(E & _)|(x & l & h & _ & E)]]; try discriminate.
    inversion E as [|z t lo hi E1|z t lo hi E1]; inversion E1.
  - exists no_p, (GBranch 1 2 3), (GBranch 1 4 3).
    pose proof no_p_reach as R.
    assert (A : gp_arena no_p = mkA [GLeaf false; GLeaf true; GBranch 5 0 1; GBranch 9 0 1; GBranch 7 0 1]
       (a_index (gp_arena no_p))) by (vm_compute; reflexivity).
    assert (D : gp_done no_p = [MNode (GBranch 5 0 1); MNode (GBranch 7 0 1); MNode (GBranch 9 0 1); MNode (GBranch 1 2 3); MNode (GBranch 1 4 3)])
      by (vm_compute; reflexivity).
    split; auto. unfold held. rewrite D, A. split; [|split; [|reflexivity]].
    + exists (MNode (GBranch 1 2 3)). split; [cbn; auto 10|]. split; auto. repeat econstructor.
    + exists (MNode (GBranch 1 4 3)). split; [cbn; auto 10|]. split; auto. repeat econstructor.
  - exists no_q, (GBranch 1 4 3), (GBranch 1 2 3).
    pose proof no_q_reach as R.
    assert (A : gp_arena no_q = mkA [GLeaf false; GLeaf true; GBranch 7 0 1; GBranch 9 0 1; GBranch 5 0 1]
       (a_index (gp_arena no_q))) by (vm_compute; reflexivity).
    assert (D : gp_done no_q = [MNode (GBranch 7 0 1); MNode (GBranch 5 0 1); MNode (GBranch 9 0 1); MNode (GBranch 1 2 3); MNode (GBranch 1 4 3)])
      by (vm_compute; reflexivity).
    split; auto. unfold held. rewrite D, A. split; [|split; [|reflexivity]].
    + exists (MNode (GBranch 1 4 3)). split; [cbn; auto 10|]. split; auto. repeat econstructor.
    + exists (MNode (GBranch 1 2 3)). split; [cbn; auto 10|]. split; auto. repeat econstructor.
Qed.
(** ... the leaves are not held but stored; ids 2, 3 and 4 are in the order the
    parts were stored in, a number read back means the same node, and 5 is not an id yet *)
Example C99_example :
  breach no_p /\ length (a_nodes (gp_arena no_p)) = 5 /\
  held no_p (positive_branch 9) (GBranch 9 0 1) /\ held no_p (positive_branch 7) (GBranch 7 0 1) /\
  node_cmp (GBranch 9 0 1) (GBranch 7 0 1) = Gt /\ id_cmp 3 4 = Lt /\
  a_get (gp_arena no_p) (id_de (id_ser 3)) = Some (GBranch 9 0 1) /\
  pstep (gp_arena no_p) (get_node (id_de 5)) (gp_arena no_p) Panic.
Proof.
  pose proof no_p_reach as R.
  assert (A : gp_arena no_p = mkA [GLeaf false; GLeaf true; GBranch 5 0 1; GBranch 9 0 1; GBranch 7 0 1]
     (a_index (gp_arena no_p))) by (vm_compute; reflexivity).
  assert (D : gp_done no_p = [MNode (GBranch 5 0 1); MNode (GBranch 7 0 1); MNode (GBranch 9 0 1); MNode (GBranch 1 2 3); MNode (GBranch 1 4 3)])
    by (vm_compute; reflexivity).
  split; auto. unfold held. rewrite D, A. split; [reflexivity|]. split; [|split; [|split; [reflexivity|split; [reflexivity|split; [reflexivity|]]]]].
  - exists (MNode (GBranch 9 0 1)). split; [cbn; auto 10|]. split; auto. repeat econstructor.
  - exists (MNode (GBranch 7 0 1)). split; [cbn; auto 10|]. split; auto. repeat econstructor.
  - apply P_get_panic. reflexivity.
Qed.
