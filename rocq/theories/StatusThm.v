(** StatusThm: reading a summary through the methods of a status (C97). *)
From Coq Require Import List Arith Lia Bool Permutation Sorted.
From Verif Require Import Base DD Spec BddSpec Zdd2Model ZddModel BddModel BddRun RenameSpec ZddSpec StatusModel.
From Verif Require Import ZddProofs ZddThm BddCloset BddThm RenameThm.
Import ListNotations.

(** ** lists sorted by a rank and then by an item *)
Section Ranked.
  Context {S T : Type} `{Ord T} (rank : S -> nat) (item : S -> T).
  Let before (s t : S) : Prop := rank s < rank t \/ (rank s = rank t /\ lt_ (item s) (item t)).
  Definition view (k : nat) (l : list S) : list S := filter (fun s => rank s =? k) l.
  Lemma view_sorted k l : StronglySorted before l -> ssorted (map item (view k l)).
  Proof.
    induction 1 as [|s l L IH F]; cbn; [constructor|].
    destruct (Nat.eqb_spec (rank s) k) as [E|E]; [|exact IH]. cbn. apply ssorted_cons; [exact IH|].
    rewrite Forall_forall in F |- *. intros x X. apply in_map_iff in X. destruct X as (t & <- & X).
    apply filter_In in X. destruct X as [X1 X2]. apply Nat.eqb_eq in X2.
    destruct (F t X1) as [Y|[_ Y]]; [lia|exact Y].
  Qed.
  Lemma view_none k l : Forall (fun s => k < rank s) l -> view k l = [].
  Proof.
    unfold view. induction 1 as [|s l A _ IH]; [reflexivity|]. cbn [filter].
    destruct (Nat.eqb_spec (rank s) k); [lia|exact IH].
  Qed.
  Lemma views_from l : StronglySorted before l -> forall k n, Forall (fun s => k <= rank s < k + n) l ->
    l = concat (map (fun j => view j l) (seq k n)).
  Proof.
    induction 1 as [|s l L IH F]; intros k n A.
    - revert k A. induction n as [|n IHn]; intros k A; [reflexivity|]. cbn. apply IHn. constructor.
    - apply Forall_cons_iff in A. destruct A as [A1 A2].
      assert (E : forall m j, rank s < j -> concat (map (fun i => view i (s :: l)) (seq j m)) = concat (map (fun i => view i l) (seq j m))).
      { induction m as [|m IHm]; intros j J; [reflexivity|]. cbn [seq map concat]. rewrite (IHm (Datatypes.S j)) by lia. f_equal.
        unfold view. cbn [filter]. destruct (Nat.eqb_spec (rank s) j); [lia|reflexivity]. }
      assert (F' : Forall (fun t => rank s <= rank t) l).
      { rewrite Forall_forall in F |- *. intros t X. destruct (F t X) as [Y|[Y _]]; lia. }
      revert k A1 A2. induction n as [|n IHn]; intros k A1 A2; [lia|].
      destruct (Nat.eq_dec (rank s) k) as [D|D].
      + cbn [seq map concat]. rewrite E by lia.
        rewrite (IH k (Datatypes.S n) A2) at 1. cbn [seq map concat]. unfold view. cbn [filter].
        rewrite D, Nat.eqb_refl. reflexivity.
      + cbn [seq map concat]. rewrite (view_none k).
        * cbn [app]. apply (IHn (Datatypes.S k)); [lia|].
          rewrite Forall_forall in A2, F' |- *. intros t X. specialize (A2 t X). specialize (F' t X). lia.
        * constructor; [lia|]. rewrite Forall_forall in F' |- *. intros t X. specialize (F' t X). lia.
  Qed.
  Lemma view_in k l s : In s (view k l) <-> In s l /\ rank s = k.
  Proof. unfold view. rewrite filter_In, Nat.eqb_eq. reflexivity. Qed.
  Lemma only_one (q : S -> bool) (l : list S) s : NoDup (map item l) -> In s l -> (forall t, q t = true <-> item t = item s) ->
    filter q l = [s].
  Proof.
    intros N X Q. induction l as [|a l IH]; [destruct X|].
    cbn in N. apply NoDup_cons_iff in N. destruct N as [N1 N2]. cbn [filter].
    destruct X as [->|X].
    - rewrite (proj2 (Q s) eq_refl). f_equal.
      destruct (filter q l) as [|b m] eqn:B; [reflexivity|exfalso].
      assert (Y : In b (filter q l)) by (rewrite B; left; reflexivity). apply filter_In in Y. destruct Y as [Y1 Y2].
      apply Q in Y2. apply N1. rewrite <- Y2. apply in_map. exact Y1.
    - destruct (q a) eqn:B; [exfalso|exact (IH N2 X)]. apply Q in B. apply N1. rewrite B. apply in_map. exact X.
  Qed.
  Lemma none_at_all (q : S -> bool) (l : list S) : (forall t, In t l -> q t = false) -> filter q l = [].
  Proof.
    induction l as [|a l IH]; intros Q; [reflexivity|]. cbn [filter]. rewrite (Q a (or_introl eq_refl)).
    apply IH. intros t X. apply Q. right. exact X.
  Qed.
End Ranked.

Lemma filter_same {A} (p q : A -> bool) : (forall a, p a = q a) -> forall l, filter p l = filter q l.
Proof. intros E. induction l as [|a l IH]; [reflexivity|]. cbn. rewrite E, IH. reflexivity. Qed.
Lemma find_filter {A} (p : A -> bool) l a m : filter p l = a :: m -> find p l = Some a.
Proof.
  induction l as [|b l IH]; [discriminate|]. cbn. destruct (p b); [intros [= -> _]; reflexivity|exact IH].
Qed.

Lemma zs_is_spec {T} `{Ord T} (s : zstatus T) x : zs_is s x = true <-> zs_item s = x.
Proof. destruct s; cbn; apply eqb_true_. Qed.

Lemma status_before_rank {T} `{Ord T} : forall s t : zstatus T, status_before s t <->
  (status_rank s < status_rank t \/ (status_rank s = status_rank t /\ lt_ (ZddSpec.status_item s) (ZddSpec.status_item t))).
Proof. reflexivity. Qed.
Lemma req_view {T} `{Ord T} (l : list (zstatus T)) : filter zs_is_required l = view status_rank 0 l.
Proof. apply filter_same. intros []; reflexivity. Qed.
Lemma exc_view {T} `{Ord T} (l : list (zstatus T)) : filter zs_is_excluded l = view status_rank 1 l.
Proof. apply filter_same. intros []; reflexivity. Qed.
Lemma ava_view {T} `{Ord T} (l : list (zstatus T)) : filter zs_is_available l = view status_rank 2 l.
Proof. apply filter_same. intros []; reflexivity. Qed.
Lemma sel_view {T} `{Ord T} (l : list (zstatus T)) : filter zs_is_selected l = view status_rank 3 l.
Proof. apply filter_same. intros []; reflexivity. Qed.

(** C97.  Cut by [is_required], [is_excluded], [is_available] and [is_selected], a
    summary of a zdd tree falls into four consecutive parts; each lists, ascending, the
    items of the universe with that status, read off the remaining combinations. *)
Lemma C97_parts_pf : forall (T : Type) (O : Ord T) (h : hash_order) (t : ztree T) (inc exc : list T),
  exists cs r, z_combinations_with t inc exc = Some cs /\ z_summarize h t inc exc = Some r /\
    r = filter zs_is_required r ++ filter zs_is_excluded r ++ filter zs_is_available r ++ filter zs_is_selected r /\
    ssorted (map zs_item (filter zs_is_required r)) /\ ssorted (map zs_item (filter zs_is_excluded r)) /\
    ssorted (map zs_item (filter zs_is_available r)) /\ ssorted (map zs_item (filter zs_is_selected r)) /\
    (forall x, In x (map zs_item (filter zs_is_required r)) <->
       In x (zu_items (zt_univ t)) /\ ~ In x inc /\ cs <> [] /\ forall c, In c cs -> In x c) /\
    (forall x, In x (map zs_item (filter zs_is_excluded r)) <->
       In x (zu_items (zt_univ t)) /\ forall c, In c cs -> ~ In x c) /\
    (forall x, In x (map zs_item (filter zs_is_available r)) <->
       In x (zu_items (zt_univ t)) /\ ~ In x inc /\ (exists c, In c cs /\ In x c) /\ exists c, In c cs /\ ~ In x c) /\
    (forall x, In x (map zs_item (filter zs_is_selected r)) <->
       In x (zu_items (zt_univ t)) /\ In x inc /\ exists c, In c cs /\ In x c).
Proof.
  intros T O h t inc exc.
  destruct (C41_summarize_exact_pf T O h t inc exc) as (cs & r & E1 & E2 & S & N & M).
  exists cs, r. split; [exact E1|]. split; [exact E2|].
  assert (It : forall l : list (zstatus T), map zs_item l = map ZddSpec.status_item l).
  { intros l. apply map_ext. intros []; reflexivity. }
  assert (V : forall k x, In x (map ZddSpec.status_item (view status_rank k r)) <->
    exists s, status_rank s = k /\ ZddSpec.status_item s = x /\ In x (zu_items (zt_univ t)) /\ status_rule inc cs s).
  { intros k x. rewrite in_map_iff. split.
    - intros (s & <- & X). apply view_in in X. destruct X as [X1 X2]. apply M in X1. exists s. tauto.
    - intros (s & K & E & X1 & X2). exists s. split; [exact E|]. apply view_in. split; [|exact K]. apply M. rewrite E. auto. }
  rewrite req_view, exc_view, ava_view, sel_view, !It.
  split; [|split; [|split; [|split; [|split; [|split; [|split; [|split]]]]]]];
    try (apply view_sorted; exact S).
  - pose proof (views_from status_rank ZddSpec.status_item r S 0 4) as P. cbn [seq map concat] in P. rewrite app_nil_r in P.
    apply P. apply Forall_forall. intros []; cbn; lia.
  - intros x. rewrite V. split.
    + intros ([y|y|y|y] & K & E & X1 & X2); try discriminate K. cbn in E. subst y. cbn in X2. destruct X2 as (A & (c & B & _) & C).
      repeat split; auto. intros ->. destruct B.
    + intros (X1 & A & B & C). exists (ZRequired x). repeat split; auto. destruct cs as [|c cs]; [congruence|].
      exists c. split; [left; reflexivity|apply C; left; reflexivity].
  - intros x. rewrite V. split.
    + intros ([y|y|y|y] & K & E & X1 & X2); try discriminate K. cbn in E. subst y. auto.
    + intros (X1 & A). exists (ZExcluded x). auto.
  - intros x. rewrite V. split.
    + intros ([y|y|y|y] & K & E & X1 & X2); try discriminate K. cbn in E. subst y. auto.
    + intros (X1 & A). exists (ZAvailable x). auto.
  - intros x. rewrite V. split.
    + intros ([y|y|y|y] & K & E & X1 & X2); try discriminate K. cbn in E. subst y. auto.
    + intros (X1 & A). exists (ZSelected x). auto.
Qed.

(** Looking an item up with [is] finds its one status if the universe has the item, and
    nothing otherwise. *)
Lemma C97_lookup_pf : forall (T : Type) (O : Ord T) (h : hash_order) (t : ztree T) (inc exc : list T),
  exists cs r, z_combinations_with t inc exc = Some cs /\ z_summarize h t inc exc = Some r /\
    (forall x, In x (zu_items (zt_univ t)) -> exists s,
       filter (fun s => zs_is s x) r = [s] /\ find (fun s => zs_is s x) r = Some s /\ zs_item s = x /\
       (zs_is_required s = true <-> ~ In x inc /\ cs <> [] /\ forall c, In c cs -> In x c) /\
       (zs_is_excluded s = true <-> forall c, In c cs -> ~ In x c) /\
       (zs_is_available s = true <-> ~ In x inc /\ (exists c, In c cs /\ In x c) /\ exists c, In c cs /\ ~ In x c) /\
       (zs_is_selected s = true <-> In x inc /\ exists c, In c cs /\ In x c)) /\
    (forall x, ~ In x (zu_items (zt_univ t)) ->
       filter (fun s => zs_is s x) r = [] /\ find (fun s => zs_is s x) r = None).
Proof.
  intros T O h t inc exc.
  destruct (C97_parts_pf T O h t inc exc) as (cs & r & E1 & E2 & _ & _ & _ & _ & _ & VR & VE & VA & VS).
  destruct (C41_summarize_exact_pf T O h t inc exc) as (cs' & r' & E1' & E2' & S & N & M).
  rewrite E1 in E1'. rewrite E2 in E2'. assert (cs' = cs) by congruence. assert (r' = r) by congruence. subst cs' r'. clear E1' E2'.
  exists cs, r. split; [exact E1|]. split; [exact E2|]. split.
  - intros x X.
    assert (A : exists s, In s r /\ ZddSpec.status_item s = x).
    { destruct (Exists_dec (fun c => In x c) cs (fun c => in_dec_ x c)) as [Y|Y].
      - apply Exists_exists in Y. destruct Y as (c & Y1 & Y2).
        destruct (in_dec_ x inc) as [I|I].
        + exists (ZSelected x). split; [|reflexivity]. apply M. split; [exact X|]. split; eauto.
        + destruct (Exists_dec (fun c => ~ In x c) cs (fun c => match in_dec_ x c with left a => right (fun b => b a) | right b => left b end)) as [Z|Z].
          * apply Exists_exists in Z. exists (ZAvailable x). split; [|reflexivity]. apply M. split; [exact X|]. split; eauto.
          * exists (ZRequired x). split; [|reflexivity]. apply M. split; [exact X|]. split; [exact I|]. split; [eauto|].
            intros d D. destruct (in_dec_ x d) as [W|W]; [exact W|]. exfalso. apply Z. apply Exists_exists. eauto.
      - exists (ZExcluded x). split; [|reflexivity]. apply M. split; [exact X|]. intros c C W. apply Y. apply Exists_exists. eauto. }
    destruct A as (s & A & B). exists s.
    assert (It : zs_item s = x) by (destruct s; exact B).
    assert (F : filter (fun s => zs_is s x) r = [s]).
    { apply (only_one ZddSpec.status_item); [exact N|exact A|]. intros u. rewrite B. destruct u; cbn; apply eqb_true_. }
    split; [exact F|]. split; [exact (find_filter _ _ _ _ F)|]. split; [exact It|].
    assert (Part : forall (q : zstatus T -> bool), (q s = true <-> In x (map zs_item (filter q r)))).
    { intros q. split.
      - intros Q. apply in_map_iff. exists s. split; [exact It|]. apply filter_In. auto.
      - intros Q. apply in_map_iff in Q. destruct Q as (u & U & Q). apply filter_In in Q. destruct Q as [Q1 Q2].
        assert (Iu : In u (filter (fun s => zs_is s x) r)) by (apply filter_In; split; [exact Q1|apply zs_is_spec; exact U]).
        rewrite F in Iu. destruct Iu as [->|[]]. exact Q2. }
    rewrite !Part, VR, VE, VA, VS. tauto.
  - intros x X.
    assert (F : forall s, In s r -> zs_is s x = false).
    { intros s A. destruct (zs_is s x) eqn:B; [|reflexivity]. exfalso. apply zs_is_spec in B. apply X.
      apply M in A. destruct A as [A _]. rewrite <- B. destruct s; exact A. }
    split; [apply none_at_all; exact F|].
    destruct (find (fun s => zs_is s x) r) as [s|] eqn:B; [|reflexivity]. apply find_some in B. destruct B as [B1 B2].
    rewrite (F s B1) in B2. discriminate B2.
Qed.

(** [map] over a summary with a renaming that keeps the order gives the summary of the
    renamed tree; [option_map], dropping the items without a new name, keeps the statuses,
    their order and one status per item. *)
Lemma C97_map_pf : forall (T U : Type) (OT : Ord T) (OU : Ord U) (f : T -> U) (items : list T) (p : zexpr T)
    (h h' : hash_order) (inc exc : list T) t t' r,
  order_preserving f -> zrun (zu_from items) p = Some t -> zrun (zu_from (map f items)) (zrenamed f p) = Some t' ->
  z_summarize h t inc exc = Some r ->
  z_summarize h' t' (map f inc) (map f exc) = Some (map (fun s => zs_map s f) r).
Proof.
  intros T U OT OU f items p h h' inc exc t t' r J R R' E.
  destruct (C89_zdd_pf T U OT OU f items p J) as [_ A]. destruct (A t t' R R') as (_ & _ & _ & _ & B).
  destruct (B inc exc h h') as (_ & C). rewrite C, E. reflexivity.
Qed.

Lemma C97_option_map_pf : forall (T U : Type) (OT : Ord T) (OU : Ord U) (f : T -> option U)
    (h : hash_order) (t : ztree T) (inc exc : list T) r,
  (forall x y a b, lt_ x y -> f x = Some a -> f y = Some b -> lt_ a b) ->
  z_summarize h t inc exc = Some r ->
  let r' := filter_map (fun s => zs_option_map s f) r in
  StronglySorted status_before r' /\ NoDup (map zs_item r') /\
  (forall y, In (ZRequired y) r' <-> exists x, In (ZRequired x) r /\ f x = Some y) /\
  (forall y, In (ZExcluded y) r' <-> exists x, In (ZExcluded x) r /\ f x = Some y) /\
  (forall y, In (ZAvailable y) r' <-> exists x, In (ZAvailable x) r /\ f x = Some y) /\
  (forall y, In (ZSelected y) r' <-> exists x, In (ZSelected x) r /\ f x = Some y).
Proof.
  intros T U OT OU f h t inc exc r J E r'.
  destruct (C41_summarize_exact_pf T OT h t inc exc) as (cs & r0 & _ & E' & S & N & _).
  assert (r0 = r) by congruence. subst r0. clear E E'.
  assert (O1 : forall s u, zs_option_map s f = Some u -> status_rank u = status_rank s /\ f (ZddSpec.status_item s) = Some (ZddSpec.status_item u)).
  { intros [x|x|x|x] u; cbn; destruct (f x); cbn; intros Q; try discriminate Q; assert (Q' := f_equal (fun o => match o with Some v => v | None => u end) Q); cbn in Q'; subst u; auto. }
  assert (In' : forall y, In y r' <-> exists s, In s r /\ zs_option_map s f = Some y).
  { intros y. unfold r'. apply filter_map_in. }
  assert (Inj : forall x y a, f x = Some a -> f y = Some a -> x = y).
  { intros x y a A B. destruct (lt_total_ x y) as [L|[L|L]]; [|exact L|];
      exfalso; [exact (lt_irrefl_ _ (J _ _ _ _ L A B))|exact (lt_irrefl_ _ (J _ _ _ _ L B A))]. }
  assert (Kind : forall (K : forall X, X -> zstatus X) (Kf : forall x, zs_option_map (K T x) f = option_map (K U) (f x))
      (Ki : forall x y, K U x = K U y -> x = y)
      (Ks : forall s x, status_rank s = status_rank (K T x) -> s = K T (ZddSpec.status_item s))
      (Kr : forall x y, status_rank (K T x) = status_rank (K U y)),
    forall y, In (K U y) r' <-> exists x, In (K T x) r /\ f x = Some y).
  { intros K Kf Ki Ks Kr y. rewrite In'. split.
    - intros (s & A & B). destruct (O1 _ _ B) as [C D]. rewrite <- (Kr (ZddSpec.status_item s)) in C. symmetry in C. apply Ks in C || (symmetry in C; apply Ks in C).
      exists (ZddSpec.status_item s). rewrite <- C. split; [exact A|]. rewrite C, Kf in B.
      destruct (f (ZddSpec.status_item s)) as [z|]; [|discriminate B]. cbn in B. f_equal. apply Ki.
      exact (f_equal (fun o => match o with Some v => v | None => K U y end) B).
    - intros (x & A & B). exists (K T x). split; [exact A|]. rewrite Kf, B. reflexivity. }
  split; [|split; [|split; [|split; [|split]]]].
  - unfold r'. clear -S J O1. induction S as [|s l L IH F]; [constructor|]. cbn [filter_map].
    destruct (zs_option_map s f) as [u|] eqn:E; [|exact IH]. constructor; [exact IH|].
    rewrite Forall_forall in F |- *. intros v V. apply filter_map_in in V. destruct V as (w & V & W).
    destruct (O1 _ _ E) as [R1 I1]. destruct (O1 _ _ W) as [R2 I2]. unfold status_before. rewrite R1, R2.
    destruct (F w V) as [B|[B C]]; [left; exact B|right]. split; [exact B|]. exact (J _ _ _ _ C I1 I2).
  - unfold r'. clear -N Inj O1. induction r as [|s l IH]; [constructor|]. cbn [map] in N. apply NoDup_cons_iff in N.
    destruct N as [N1 N2]. cbn [filter_map]. destruct (zs_option_map s f) as [u|] eqn:E; [|exact (IH N2)].
    cbn [map]. constructor; [|exact (IH N2)]. intros A. apply in_map_iff in A. destruct A as (v & A & V).
    apply filter_map_in in V. destruct V as (w & V & W). apply N1. destruct (O1 _ _ E) as [_ I1]. destruct (O1 _ _ W) as [_ I2].
    assert (Q : ZddSpec.status_item v = ZddSpec.status_item u) by (destruct u, v; exact A).
    rewrite Q in I2. rewrite (Inj _ _ _ I1 I2). apply in_map. exact V.
  - apply (Kind (@ZRequired)); try reflexivity; [intros x y Q; exact (f_equal zs_item Q)|intros [y|y|y|y] x; cbn; intros Q; try discriminate Q; reflexivity].
  - apply (Kind (@ZExcluded)); try reflexivity; [intros x y Q; exact (f_equal zs_item Q)|intros [y|y|y|y] x; cbn; intros Q; try discriminate Q; reflexivity].
  - apply (Kind (@ZAvailable)); try reflexivity; [intros x y Q; exact (f_equal zs_item Q)|intros [y|y|y|y] x; cbn; intros Q; try discriminate Q; reflexivity].
  - apply (Kind (@ZSelected)); try reflexivity; [intros x y Q; exact (f_equal zs_item Q)|intros [y|y|y|y] x; cbn; intros Q; try discriminate Q; reflexivity].
Qed.

Example C97_example :
  let t := z_hyper_tree (zu_from [1; 2; 3; 4; 5]) [[1; 2; 4]; [1; 3; 4]; [2]; [5]] in
  (exists r, z_summarize ho_rev t [1] [5] = Some r /\
    map zs_item (filter zs_is_required r) = [4] /\ map zs_item (filter zs_is_excluded r) = [5] /\
    map zs_item (filter zs_is_available r) = [2; 3] /\ map zs_item (filter zs_is_selected r) = [1] /\
    find (fun s => zs_is s 3) r = Some (ZAvailable 3) /\ find (fun s => zs_is s 6) r = None /\
    filter_map (fun s => zs_option_map s (fun n => if n <? 4 then Some (10 * n) else None)) r =
      [ZAvailable 20; ZAvailable 30; ZSelected 10]).
Proof. eexists. split; [reflexivity|]. repeat split; reflexivity. Qed.

(** The same for the summary of a bowtie closet: excluded, available, selected. *)
Definition brank {I} (s : status I) : nat := match s with Excluded _ => 0 | Available _ => 1 | Selected _ => 2 end.
Lemma brank_before {I} `{Ord I} (l : list (status I)) : ssorted l ->
  StronglySorted (fun s t => brank s < brank t \/ (brank s = brank t /\ lt_ (BddModel.status_item s) (BddModel.status_item t))) l.
Proof.
  induction 1 as [|s l L IH F]; [constructor|]. constructor; [exact IH|]. rewrite Forall_forall in F |- *. intros t X.
  specialize (F t X). unfold lt_ in F. destruct s, t; cbn in F |- *; try (left; lia); try discriminate F; right; auto.
Qed.
Lemma bexc_view {I} (l : list (status I)) : filter is_excluded l = view brank 0 l.
Proof. apply filter_same. intros []; reflexivity. Qed.
Lemma bava_view {I} (l : list (status I)) : filter is_available l = view brank 1 l.
Proof. apply filter_same. intros []; reflexivity. Qed.
Lemma bsel_view {I} (l : list (status I)) : filter is_selected l = view brank 2 l.
Proof. apply filter_same. intros []; reflexivity. Qed.

Lemma C97_closet_parts_pf : forall (I F : Type) (OI : Ord I) (OF : Ord F) (calls : list (bcall I F)) sels c,
  reached calls sels c -> satisfiable calls sels ->
  let r := c_summary c in
  r = filter is_excluded r ++ filter is_available r ++ filter is_selected r /\
  ssorted (map BddModel.status_item (filter is_excluded r)) /\ ssorted (map BddModel.status_item (filter is_available r)) /\
  ssorted (map BddModel.status_item (filter is_selected r)) /\
  (forall i, In i (map BddModel.status_item (filter is_excluded r)) <->
     known calls i /\ ~ In i sels /\ ~ exists o, valid_outfit calls o /\ incl sels o /\ In i o) /\
  (forall i, In i (map BddModel.status_item (filter is_available r)) <->
     ~ In i sels /\ exists o, valid_outfit calls o /\ incl sels o /\ In i o) /\
  (forall i, In i (map BddModel.status_item (filter is_selected r)) <-> In i sels).
Proof.
  intros I F OI OF calls sels c R St r.
  destruct (C51_summary_pf I F OI OF calls sels c R St) as (VS & VA & VE & S & _ & _). fold r in VS, VA, VE, S.
  assert (V : forall (q : status I -> bool) (K : I -> status I), (forall s, q s = true <-> s = K (BddModel.status_item s)) ->
    (forall i, BddModel.status_item (K i) = i) ->
    forall i, In i (map BddModel.status_item (filter q r)) <-> In (K i) r).
  { intros q K Q Ki i. rewrite in_map_iff. split.
    - intros (s & <- & X). apply filter_In in X. destruct X as [X1 X2]. apply Q in X2. rewrite <- X2. exact X1.
    - intros X. exists (K i). split; [apply Ki|]. apply filter_In. split; [exact X|]. apply Q. rewrite Ki. reflexivity. }
  apply brank_before in S.
  split; [|split; [|split; [|split; [|split; [|split]]]]].
  - pose proof (views_from brank BddModel.status_item r S 0 3) as P. cbn [seq map concat] in P. rewrite app_nil_r in P.
    rewrite bexc_view, bava_view, bsel_view. apply P. apply Forall_forall. intros []; cbn; lia.
  - rewrite bexc_view. apply view_sorted. exact S.
  - rewrite bava_view. apply view_sorted. exact S.
  - rewrite bsel_view. apply view_sorted. exact S.
  - intros i. rewrite (V _ Excluded); [apply VE|intros []; cbn; split; congruence|reflexivity].
  - intros i. rewrite (V _ Available); [apply VA|intros []; cbn; split; congruence|reflexivity].
  - intros i. rewrite (V _ Selected); [apply VS|intros []; cbn; split; congruence|reflexivity].
Qed.

(** Looking up an item of a closet with [is]; a closet that admits no outfit knows its selections only. *)
Lemma C97_closet_lookup_pf : forall (I F : Type) (OI : Ord I) (OF : Ord F) (calls : list (bcall I F)) sels c,
  reached calls sels c ->
  let find_status i := find (fun s => status_is s i) (c_summary c) in
  (satisfiable calls sels -> forall i,
     (find_status i = Some (Selected i) <-> In i sels) /\
     (find_status i = Some (Available i) <-> ~ In i sels /\ exists o, valid_outfit calls o /\ incl sels o /\ In i o) /\
     (find_status i = Some (Excluded i) <->
        known calls i /\ ~ In i sels /\ ~ exists o, valid_outfit calls o /\ incl sels o /\ In i o) /\
     (find_status i = None <-> ~ known calls i) /\
     (known calls i -> exists s, filter (fun s => status_is s i) (c_summary c) = [s])) /\
  (~ satisfiable calls sels ->
     filter is_excluded (c_summary c) = [] /\ filter is_available (c_summary c) = [] /\
     forall i, (find_status i = Some (Selected i) <-> In i sels) /\ (find_status i = None <-> ~ In i sels)).
Proof.
  intros I F OI OF calls sels c R fs. split.
  - intros St i.
    destruct (C51_summary_pf I F OI OF calls sels c R St) as (VS & VA & VE & S & N & K).
    assert (Fd : forall s, BddModel.status_item s = i -> (fs i = Some s <-> In s (c_summary c))).
    { intros s Q. split.
      - intros X. unfold fs in X. apply find_some in X. apply X.
      - intros X. unfold fs. eapply find_filter. apply (only_one BddModel.status_item); [exact N|exact X|].
        intros u. unfold status_is. rewrite eqb_true_, Q. reflexivity. }
    rewrite (Fd (Selected i)), (Fd (Available i)), (Fd (Excluded i)) by reflexivity.
    rewrite VS, VA, VE. split; [reflexivity|]. split; [reflexivity|]. split; [reflexivity|]. split.
    + rewrite <- K. unfold fs. split.
      * intros X Y. apply in_map_iff in Y. destruct Y as (s & Q & Y). apply (find_none _ _ X) in Y. unfold status_is in Y.
        apply eqb_false_ in Y. congruence.
      * intros X. destruct (find _ _) as [s|] eqn:D; [|reflexivity]. exfalso. apply find_some in D. destruct D as [D1 D2].
        apply eqb_true_ in D2. apply X. rewrite <- D2. apply in_map. exact D1.
    + intros X. apply K in X. apply in_map_iff in X. destruct X as (s & Q & X). exists s.
      apply (only_one BddModel.status_item); [exact N|exact X|]. intros u. unfold status_is. rewrite eqb_true_, Q. reflexivity.
  - intros St.
    assert (V : forall s, In s (c_summary c) <-> exists x, s = Selected x /\ In x sels).
    { intros s. exact (proj1 (C52_no_outfit_partial_pf I F OI OF calls sels c ho_id (BddModel.status_item s) R St) s). }
    split; [|split].
    + apply none_at_all. intros s X. apply V in X. destruct X as (x & -> & _). reflexivity.
    + apply none_at_all. intros s X. apply V in X. destruct X as (x & -> & _). reflexivity.
    + intros i.
      assert (D : fs i = None <-> ~ In i sels).
      { unfold fs. split.
        - intros X Y. assert (Z : In (Selected i) (c_summary c)) by (apply V; eauto). apply (find_none _ _ X) in Z.
          unfold status_is in Z. cbn in Z. rewrite eqb_refl_ in Z. discriminate Z.
        - intros X. destruct (find _ _) as [s|] eqn:D; [|reflexivity]. exfalso. apply find_some in D. destruct D as [D1 D2].
          apply eqb_true_ in D2. apply V in D1. destruct D1 as (x & -> & D1). cbn in D2. subst x. exact (X D1). }
      split; [|exact D]. split.
      * intros X. unfold fs in X. apply find_some in X. destruct X as [X _]. apply V in X. destruct X as (x & E & X).
        assert (i = x) by exact (f_equal BddModel.status_item E). subst x. exact X.
      * intros X. destruct (fs i) as [s|] eqn:E; [|exfalso; exact (proj1 D eq_refl X)].
        unfold fs in E. apply find_some in E. destruct E as [E1 E2]. apply eqb_true_ in E2. apply V in E1.
        destruct E1 as (x & -> & _). cbn in E2. subst x. reflexivity.
Qed.

Example C97_closet_example : exists c, reached ex_calls [12] c /\ satisfiable ex_calls [12] /\
  filter is_selected (c_summary c) = [Selected 12] /\ find (fun s => status_is s 11) (c_summary c) = Some (Excluded 11).
Proof.
  destruct C51_example as (c & R & E). exists c. split; [exact R|]. rewrite E. split; [|split; reflexivity].
  destruct (ex_build ho_id) as (c0 & E0). assert (R0 : reached ex_calls [] c0) by (econstructor; exact E0).
  exists [12; 22]. split; [|intros x [<-|[]]; left; reflexivity].
  eapply (proj1 (admits_iff _ _ _ _ R0)). vm_compute in E0. injection E0 as <-.
  split; [|split]; [|intros i Hi; simpl in Hi; intuition discriminate|reflexivity].
  intros i [<-|[<-|[]]]; discriminate.
Qed.
