(** ZddThm: proofs of the property theorems about the zdd trees. *)
From Coq Require Import List Arith Lia Bool Permutation Sorted.
From Verif Require Import Base DD Spec Zdd2Model ZddModel ZddSpec ZddProofs ZddExact.
Import ListNotations.
From Verif Require Zdd2Forest MatrixProofs.

Lemma known_unique {T : Type} `{Ord T} (items c s s' : list T) :
  known_part items c s -> known_part items c s' -> s = s'.
Proof. exact (restricted_unique items c s s'). Qed.

(** C35.  For every universe (repeated items allowed): [tree] has exactly the
    known part of the given combination; [hyper_tree] exactly the known parts of
    the given combinations; [unique_tree] one singleton per known item (and the
    empty combination if some given item is unknown); [empty_tree] nothing and
    [unit_tree] the empty combination. *)
Lemma C35_constructors_exact_pf : forall (T : Type) (O : Ord T) (items : list T),
  let u := zu_from items in
  z_combinations (z_empty_tree u) = Some [] /\
  z_combinations (z_unit_tree u) = Some [[]] /\
  (forall c, exists s, z_combinations (z_tree u c) = Some [s] /\ known_part items c s) /\
  (forall cs, exists ss, z_combinations (z_hyper_tree u cs) = Some ss /\ ssorted ss /\
     forall s, In s ss <-> exists c, In c cs /\ known_part items c s) /\
  (forall xs, exists ss, z_combinations (z_unique_tree u xs) = Some ss /\ ssorted ss /\
     forall s, In s ss <-> (exists x, In x xs /\ In x items /\ s = [x]) \/ (s = [] /\ exists x, In x xs /\ ~ In x items)).
Proof.
  intros T O items u.
  assert (Hyper : forall cs, exists ss, z_combinations (z_hyper_tree u cs) = Some ss /\ ssorted ss /\
     forall s, In s ss <-> exists c, In c cs /\ known_part items c s).
  { intros cs. exists (zcombs (z_hyper_tree u cs)). split; [apply z_combinations_eq|].
    split; [apply filter_repeats_ssorted|]. apply zcombs_hyper. }
  split; [reflexivity|]. split; [reflexivity|]. split; [|split; [exact Hyper|]].
  - intros c. destruct (zcombs_tree items c) as (s & E & S & X). exists s. rewrite z_combinations_eq. unfold u. rewrite E.
    split; [reflexivity|]. split; assumption.
  - intros xs. destruct (Hyper (map (fun x => [x]) xs)) as (ss & E & S & X). exists ss.
    rewrite z_unique_hyper. split; [exact E|]. split; [exact S|]. intros s. rewrite X. split.
    + intros (c & I & K). apply in_map_iff in I. destruct I as (x & <- & I).
      destruct (in_dec_ x items) as [Y|N].
      * left. exists x. split; [exact I|]. split; [exact Y|]. apply (known_unique items [x]); [exact K|].
        split; [repeat constructor|]. intros z. simpl. split; [|tauto]. intros [<-|[]]. auto.
      * right. split; [|eauto]. destruct s as [|y s]; [reflexivity|]. exfalso. destruct K as (_ & K).
        destruct (proj1 (K y) (or_introl eq_refl)) as ([<-|[]] & C). contradiction.
    + intros [(x & I & Y & ->)|(-> & x & I & N)]; exists [x]; (split; [apply in_map_iff; eauto|]); split.
      * repeat constructor.
      * intros z. simpl. split; [|tauto]. intros [<-|[]]. auto.
      * constructor.
      * intros z. simpl. split; [tauto|]. intros ([<-|[]] & C). contradiction.
Qed.
Example C35_example :
  let u := zu_from [7; 8; 9; 8] in
  z_combinations (z_tree u [9; 5; 8; 9]) = Some [[8; 9]] /\
  z_combinations (z_hyper_tree u [[9; 7]; [8]; []; [5; 8]]) = Some [[]; [7; 9]; [8]] /\
  z_combinations (z_unique_tree u [9; 7]) = Some [[7]; [9]].
Proof. repeat split. Qed.

(** C36.  Both enumerators terminate, agree, and list exactly the combinations
    named by the paths to the true leaf, each once and ascending: for every tree,
    whatever its root and universe. *)
Lemma C36_combinations_exact_pf : forall (T : Type) (O : Ord T) (t : ztree T),
  exists cs, z_combinations t = Some cs /\ z_combinations_recursive t = cs /\ ssorted cs /\
    (forall s, In s cs <-> exists p, In p (paths (zt_root t)) /\ named_by (zu_items (zt_univ t)) p s).
Proof.
  intros T O t. exists (zcombs t). split; [apply z_combinations_eq|]. split; [apply z_combinations_recursive_eq|].
  split; [apply filter_repeats_ssorted|]. intros s. rewrite zcombs_in. split; intros (p & P & E); exists p; (split; [exact P|]).
  - rewrite E. split; [apply z_get_items_ssorted|]. intros x. apply z_get_items_in.
  - destruct E as (S & E). apply ssorted_ext; [exact S|apply z_get_items_ssorted|].
    intros x. rewrite E, z_get_items_in. reflexivity.
Qed.
Example C36_example :
  z_combinations (mkZT (Branch 2 (Branch 0 (Leaf true) (Leaf true)) (Branch 1 (Leaf false) (Leaf true))) (zu_from [7; 8; 9]))
  = Some [[]; [7]; [8; 9]].
Proof. reflexivity. Qed.

(** C37.  Union is exact for every two trees over the same universe. *)
Lemma C37_union_exact_pf : forall (T : Type) (O : Ord T) (t o : ztree T), zt_univ t = zt_univ o ->
  exists a b r, z_combinations t = Some a /\ z_combinations o = Some b /\ z_combinations (z_union t o) = Some r /\
    zt_univ (z_union t o) = zt_univ t /\
    forall s, In s r <-> In s a \/ In s b.
Proof.
  intros T O t o E. exists (zcombs t), (zcombs o), (zcombs (z_union t o)). rewrite !z_combinations_eq.
  repeat split; auto; apply zcombs_union; exact E.
Qed.
Example C37_example :
  let u := zu_from [7; 8; 9] in
  z_combinations (z_union (z_hyper_tree u [[7]; [8; 9]]) (z_hyper_tree u [[8]; [7]; []])) = Some [[]; [7]; [8]; [8; 9]].
Proof. reflexivity. Qed.

(** C38.  Intersection is not set intersection: {{1}} with {{}} gives {{1}}, and
    {{1},{3}} with {{2}} gives {{1,2},{3}}. *)
Definition C38_claim : Prop := forall (T : Type) (O : Ord T) (items : list T) (t o : ztree T) a b r,
  ZReach (@NoDup T) (zu_from items) t -> ZReach (@NoDup T) (zu_from items) o ->
  z_combinations t = Some a -> z_combinations o = Some b -> z_combinations (z_intersect t o) = Some r ->
  forall s, In s r <-> In s a /\ In s b.
Lemma C38_intersect_refuted_pf :
  (exists t o : ztree nat, ZReach (@NoDup nat) (zu_from [1; 2; 3]) t /\ ZReach (@NoDup nat) (zu_from [1; 2; 3]) o /\
     z_combinations t = Some [[1]; [3]] /\ z_combinations o = Some [[2]] /\
     z_combinations (z_intersect t o) = Some [[1; 2]; [3]]) /\
  (exists t o : ztree nat, ZReach (@NoDup nat) (zu_from [1]) t /\ ZReach (@NoDup nat) (zu_from [1]) o /\
     z_combinations t = Some [[1]] /\ z_combinations o = Some [[]] /\
     z_combinations (z_intersect t o) = Some [[1]]) /\
  ~ C38_claim.
Proof.
  split; [|split].
  - exists (z_unique_tree (zu_from [1; 2; 3]) [1; 3]), (z_unique_tree (zu_from [1; 2; 3]) [2]).
    split; [apply ZR_unique|]. split; [apply ZR_unique|]. repeat split.
  - exists (z_unique_tree (zu_from [1]) [1]), (z_unit_tree (zu_from [1])).
    split; [apply ZR_unique|]. split; [apply ZR_unit|]. repeat split.
  - intros C.
    pose proof (C nat _ [1] (z_unique_tree (zu_from [1]) [1]) (z_unit_tree (zu_from [1])) [[1]] [[]] [[1]]
                 (ZR_unique _ _ _) (ZR_unit _ _) eq_refl eq_refl eq_refl [1]) as X.
    destruct (proj1 X (or_introl eq_refl)) as (_ & [E|[]]). discriminate.
Qed.

(** C38, what holds: every common combination is kept; every combination of the
    result is covered by one of each operand and contains one of the two whole;
    the result is exact when the operands are equal or one has no combination. *)
Lemma C38_intersect_partial_pf : forall (T : Type) (O : Ord T) (items : list T) (t o : ztree T) a b,
  ZReach (@NoDup T) (zu_from items) t -> ZReach (@NoDup T) (zu_from items) o ->
  z_combinations t = Some a -> z_combinations o = Some b ->
  exists r, z_combinations (z_intersect t o) = Some r /\
    (forall s, In s a -> In s b -> In s r) /\
    (forall s, In s r -> exists x y, In x a /\ In y b /\ (forall z, In z s -> In z x \/ In z y) /\ (incl x s \/ incl y s)) /\
    (a = b \/ a = [] \/ b = [] -> forall s, In s r <-> In s a /\ In s b).
Proof.
  intros T O items t o a b R R' A B. rewrite z_combinations_eq in A, B. injection A as <-. injection B as <-.
  pose proof (zreach_ordered items t R) as Ot. pose proof (zreach_ordered items o R') as Oo.
  pose proof (zreach_inv _ items t R) as It. pose proof (zreach_inv _ items o R') as Io.
  exists (zcombs (z_intersect t o)). split; [apply z_combinations_eq|].
  assert (Co : forall s, In s (zcombs t) -> In s (zcombs o) -> In s (zcombs (z_intersect t o)))
    by (apply (zcombs_intersect items); assumption).
  split; [exact Co|]. split.
  - intros s I. apply zcombs_in in I. destruct I as (p & P & ->). cbn [z_intersect zt_root zt_univ] in *.
    destruct It as (U & Z & L), Io as (U' & Z' & L').
    destruct (zintersect_sound _ _ Z Z' p P) as (x & y & X & Y & S & D).
    exists (z_get_items (zt_univ t) x), (z_get_items (zt_univ t) y).
    split; [apply zcombs_in; eauto|]. split; [apply zcombs_in; rewrite U'; rewrite U; eauto|]. split.
    + intros z Iz. apply z_get_items_in in Iz. destruct Iz as (i & Ii & E). rewrite !z_get_items_in.
      apply S in Ii. destruct Ii; [left|right]; eauto.
    + assert (M : forall q, incl q p -> incl (z_get_items (zt_univ t) q) (z_get_items (zt_univ t) p)).
      { intros q Q z Iz. rewrite z_get_items_in in *. destruct Iz as (i & Ii & E). eauto. }
      destruct D; auto.
  - intros E s. split; [|intros (Ia & Ib); auto].
    assert (Em : forall n : ztree T, zinv items n -> zcombs n = [] -> zt_root n = Leaf false).
    { intros n (_ & Z & _) C. destruct (dd_eqb_spec (zt_root n) (Leaf false)) as [F|N]; [exact F|]. exfalso.
      destruct (zs_path _ Z N) as (p & P).
      assert (X : In (z_get_items (zt_univ n) p) (zcombs n)) by (apply zcombs_in; eauto). rewrite C in X. destruct X. }
    destruct E as [E|[E|E]].
    + assert (t = o) as <-.
      { apply (zcombs_canonical items); auto. intros s'. rewrite E. tauto. }
      unfold z_intersect. rewrite zintersect_eq. destruct (dd_eqb_spec (zt_root t) (zt_root t)); [|congruence].
      destruct t as [r u]; cbn [zt_root zt_univ]. tauto.
    + pose proof (Em t It E) as F. unfold z_intersect. rewrite F.
      assert (G : zintersect (Leaf false) (zt_root o) = Leaf false).
      { rewrite zintersect_eq. destruct (dd_eqb _ _); [reflexivity|]. destruct (zt_root o) as [[]|]; reflexivity. }
      rewrite G. intros [].
    + pose proof (Em o Io E) as F. unfold z_intersect. rewrite F.
      assert (G : zintersect (zt_root t) (Leaf false) = Leaf false).
      { rewrite zintersect_eq. destruct (dd_eqb_spec (zt_root t) (Leaf false)) as [X|_]; [exact X|].
        destruct (zt_root t) as [[]|]; reflexivity. }
      rewrite G. intros [].
Qed.
Example C38_example :
  let u := zu_from [1; 2; 3] in
  let t := z_hyper_tree u [[1; 2]; [1; 3]; [2]] in let o := z_hyper_tree u [[1; 2]; [2]] in
  ZReach (@NoDup nat) u t /\ ZReach (@NoDup nat) u o /\
  z_combinations (z_intersect t o) = Some [[1; 2]; [2]].
Proof.
  cbv zeta. split; [|split; [|reflexivity]]; apply ZR_hyper; intros c I; repeat destruct I as [<-|I]; try destruct I;
    repeat constructor; simpl; intuition; discriminate.
Qed.

(** C38, exactly which combinations are returned, for all operands: one combination
    of each side joined ([joined] in ZddSpec), in the order of the universe. *)
Lemma C38_intersect_exact_partial_pf : forall (T : Type) (O : Ord T) (items : list T) (t o : ztree T) a b,
  ZReach (@NoDup T) (zu_from items) t -> ZReach (@NoDup T) (zu_from items) o ->
  z_combinations t = Some a -> z_combinations o = Some b ->
  exists r, z_combinations (z_intersect t o) = Some r /\
    forall s, In s r <-> ssorted s /\ joined (listed_before items) a b s.
Proof.
  intros T O items t o a b R R' A B. rewrite z_combinations_eq in A, B. injection A as <-. injection B as <-.
  exists (zcombs (z_intersect t o)). split; [apply z_combinations_eq|].
  apply (zcombs_intersect_exact items t o); eauto using zreach_inv, zreach_ordered.
Qed.
(** the refuting case {{1},{3}} with {{2}}: {1} and {2} are joined to the end; {3}
    leaves at 1, about which only the first side decides *)
Example C38_exact_example :
  let u := zu_from [1; 2; 3] in
  let t := z_unique_tree u [1; 3] in let o := z_unique_tree u [2] in
  ZReach (@NoDup nat) u t /\ ZReach (@NoDup nat) u o /\
  z_combinations t = Some [[1]; [3]] /\ z_combinations o = Some [[2]] /\
  z_combinations (z_intersect t o) = Some [[1; 2]; [3]] /\
  leaves_at (listed_before [1; 2; 3]) [[1]; [3]] [[2]] [3] [2] 1 [3].
Proof.
  cbv zeta. split; [apply ZR_unique|]. split; [apply ZR_unique|]. do 3 (split; [reflexivity|]).
  assert (N1 : forall z, ~ listed_before [1; 2; 3] z 1).
  { intros z (l1 & l2 & E & I & _). destruct l1 as [|a l1]; [destruct I|]. injection E as <- E.
    assert (J : In 1 [2; 3]) by (rewrite E; apply in_or_app; right; left; reflexivity).
    destruct J as [J|[J|[]]]; discriminate. }
  split; [|split; [|split; [|split]]].
  - exists [1]. split; [left; reflexivity|]. split; [|left; reflexivity]. intros z L. destruct (N1 z L).
  - intros (g & [<-|[]] & _ & [E|[]]). discriminate.
  - intros [E|[]]. discriminate.
  - intros i L. destruct (N1 i L).
  - intros z. split; [auto|]. intros [I|(_ & L)]; [exact I|]. destruct (N1 z L).
Qed.

(** C39.  Product misses combinations when the operands share items:
    {{1},{2}} x {{1}} lacks {1,2}. *)
Definition C39_claim : Prop := forall (T : Type) (O : Ord T) (items : list T) (t o : ztree T) a b r,
  ZReach (@NoDup T) (zu_from items) t -> ZReach (@NoDup T) (zu_from items) o ->
  z_combinations t = Some a -> z_combinations o = Some b -> z_combinations (z_product t o) = Some r ->
  forall s, In s r <-> ssorted s /\ exists x y, In x a /\ In y b /\ is_union s x y.
Lemma C39_product_refuted_pf :
  (exists t o : ztree nat, ZReach (@NoDup nat) (zu_from [1; 2]) t /\ ZReach (@NoDup nat) (zu_from [1; 2]) o /\
     z_combinations t = Some [[1]; [2]] /\ z_combinations o = Some [[1]] /\
     z_combinations (z_product t o) = Some [[1]]) /\
  ~ C39_claim.
Proof.
  split.
  - exists (z_unique_tree (zu_from [1; 2]) [1; 2]), (z_unique_tree (zu_from [1; 2]) [1]).
    split; [apply ZR_unique|]. split; [apply ZR_unique|]. repeat split.
  - intros C.
    pose proof (C nat _ [1; 2] (z_unique_tree (zu_from [1; 2]) [1; 2]) (z_unique_tree (zu_from [1; 2]) [1])
                 [[1]; [2]] [[1]] [[1]] (ZR_unique _ _ _) (ZR_unique _ _ _) eq_refl eq_refl eq_refl [1; 2]) as X.
    assert (Y : In [1; 2] [[1]]).
    { apply X. split; [repeat constructor|]. exists [2], [1]. split; [simpl; auto|]. split; [simpl; auto|].
      intros x. simpl. tauto. }
    destruct Y as [E|[]]. discriminate.
Qed.

(** C39, what holds: every combination of the product is the union of one from
    each operand; the product is exact when no item occurs in both. *)
Lemma C39_product_partial_pf : forall (T : Type) (O : Ord T) (ok : list T -> Prop) (items : list T) (t o : ztree T) a b,
  ZReach ok (zu_from items) t -> ZReach ok (zu_from items) o ->
  z_combinations t = Some a -> z_combinations o = Some b ->
  exists r, z_combinations (z_product t o) = Some r /\
    (forall s, In s r -> ssorted s /\ exists x y, In x a /\ In y b /\ is_union s x y) /\
    (item_disjoint a b -> forall s, In s r <-> ssorted s /\ exists x y, In x a /\ In y b /\ is_union s x y).
Proof.
  intros T O ok items t o a b R R' A B. rewrite z_combinations_eq in A, B. injection A as <-. injection B as <-.
  pose proof (zreach_inv _ items t R) as It. pose proof (zreach_inv _ items o R') as Io.
  exists (zcombs (z_product t o)). split; [apply z_combinations_eq|].
  assert (Sd : forall s, In s (zcombs (z_product t o)) ->
            ssorted s /\ exists x y, In x (zcombs t) /\ In y (zcombs o) /\ is_union s x y).
  { intros s I. split; [eapply zcombs_ssorted; exact I|].
    apply zcombs_product_sound; [|exact I]. destruct It as (-> & _), Io as (-> & _). reflexivity. }
  split; [exact Sd|]. intros D s. split; [apply Sd|]. intros (S & x & y & X & Y & U).
  destruct (zcombs_product_complete items t o It Io D x y X Y) as (s' & S' & U').
  assert (s = s') as ->; [|exact S'].
  apply ssorted_ext; [exact S|eapply zcombs_ssorted; exact S'|]. intros z. rewrite (U z), (U' z). tauto.
Qed.
Example C39_example :
  let u := zu_from [1; 2; 3; 4] in
  let t := z_hyper_tree u [[1; 3]; []] in let o := z_hyper_tree u [[2]; [4]] in
  ZReach (@NoDup nat) u t /\ ZReach (@NoDup nat) u o /\ item_disjoint [[]; [1; 3]] [[2]; [4]] /\
  z_combinations (z_product t o) = Some [[1; 2; 3]; [1; 3; 4]; [2]; [4]].
Proof.
  cbv zeta. split; [|split; [|split; [|reflexivity]]].
  - apply ZR_hyper; intros c I; repeat destruct I as [<-|I]; try destruct I; repeat constructor; simpl; intuition; discriminate.
  - apply ZR_hyper; intros c I; repeat destruct I as [<-|I]; try destruct I; repeat constructor; simpl; intuition; discriminate.
  - intros a b x. simpl. intuition; subst; simpl in *; intuition; subst; discriminate.
Qed.

(** C39, exactly which combinations are returned, for all operands: the unions of
    one combination of each side that decide alike about every item about which
    both sides can still decide. *)
Lemma C39_product_exact_partial_pf : forall (T : Type) (O : Ord T) (items : list T) (t o : ztree T) a b,
  ZReach (@NoDup T) (zu_from items) t -> ZReach (@NoDup T) (zu_from items) o ->
  z_combinations t = Some a -> z_combinations o = Some b ->
  exists r, z_combinations (z_product t o) = Some r /\
    forall s, In s r <-> ssorted s /\ exists x y, In x a /\ In y b /\ is_union s x y /\
      forall i, paired (listed_before items) a b x y i.
Proof.
  intros T O items t o a b R R' A B. rewrite z_combinations_eq in A, B. injection A as <-. injection B as <-.
  exists (zcombs (z_product t o)). split; [apply z_combinations_eq|].
  apply (zcombs_product_exact items t o); eauto using zreach_inv, zreach_ordered.
Qed.
(** the refuting case {{1},{2}} x {{1}}: {2} and {1} do not decide alike about 1 *)
Example C39_exact_example :
  let u := zu_from [1; 2] in
  let t := z_unique_tree u [1; 2] in let o := z_unique_tree u [1] in
  ZReach (@NoDup nat) u t /\ ZReach (@NoDup nat) u o /\
  z_combinations t = Some [[1]; [2]] /\ z_combinations o = Some [[1]] /\
  z_combinations (z_product t o) = Some [[1]] /\
  ~ paired (listed_before [1; 2]) [[1]; [2]] [[1]] [2] [1] 1.
Proof.
  cbv zeta. split; [apply ZR_unique|]. split; [apply ZR_unique|]. do 3 (split; [reflexivity|]).
  assert (N1 : forall z, ~ listed_before [1; 2] z 1).
  { intros z (l1 & l2 & E & I & _). destruct l1 as [|a l1]; [destruct I|]. injection E as <- E.
    assert (J : In 1 [2]) by (rewrite E; apply in_or_app; right; left; reflexivity).
    destruct J as [J|[]]; discriminate. }
  intros P. destruct P as [_ P].
  - exists [1]. split; [left; reflexivity|]. split; [|left; reflexivity]. intros z L. destruct (N1 z L).
  - exists [1]. split; [left; reflexivity|]. split; [|left; reflexivity]. intros z L. destruct (N1 z L).
  - destruct (P (or_introl eq_refl)) as [E|[]]. discriminate.
Qed.

(** C40.  [combinations_with] is exact for every tree; [restrict] is defined and
    exact, and stays in the universe. *)
Lemma C40_combinations_with_exact_pf : forall (T : Type) (O : Ord T) (t : ztree T) (inc exc : list T),
  exists cs rs, z_combinations t = Some cs /\ z_combinations_with t inc exc = Some rs /\ ssorted rs /\
    forall s, In s rs <-> In s cs /\ meets inc exc s.
Proof.
  intros T O t inc exc. destruct (z_combinations_with_eq t inc exc) as (rs & E & S & G).
  exists (zcombs t), rs. split; [apply z_combinations_eq|]. split; [exact E|]. split; [exact S|]. exact G.
Qed.
Lemma C40_restrict_exact_pf : forall (T : Type) (O : Ord T) (items : list T) (t : ztree T) (inc exc : list T),
  zt_univ t = zu_from items ->
  exists cs r rs, z_combinations t = Some cs /\ z_restrict t inc exc = Some r /\ zt_univ r = zt_univ t /\
    z_combinations r = Some rs /\ forall s, In s rs <-> In s cs /\ meets inc exc s.
Proof.
  intros T O items t inc exc U. destruct (z_restrict_spec items t inc exc U) as (r & E & V & G & _).
  exists (zcombs t), r, (zcombs r). split; [apply z_combinations_eq|]. split; [exact E|].
  split; [congruence|]. split; [apply z_combinations_eq|]. exact G.
Qed.
Example C40_example :
  let t := z_hyper_tree (zu_from [1; 2; 3]) [[1; 2]; [1; 3]; [2]; [1]] in
  z_combinations_with t [1] [3] = Some [[1]; [1; 2]] /\
  (let! r := z_restrict t [1] [3] in z_combinations r) = Some [[1]; [1; 2]].
Proof. split; reflexivity. Qed.

(** C41.  The summary gives every item of the universe exactly one status, the
    stated one, in order, whatever order the hash map is iterated in. *)
Lemma C41_summarize_exact_pf : forall (T : Type) (O : Ord T) (h : hash_order) (t : ztree T) (inc exc : list T),
  exists cs r, z_combinations_with t inc exc = Some cs /\ z_summarize h t inc exc = Some r /\
    StronglySorted status_before r /\
    NoDup (map status_item r) /\
    (forall s, In s r <-> In (status_item s) (zu_items (zt_univ t)) /\ status_rule inc cs s).
Proof.
  intros T O h t inc exc. destruct (z_combinations_with_eq t inc exc) as (cs & E & _ & G).
  unfold z_summarize. rewrite E. cbn [bind]. exists cs. eexists. split; [reflexivity|]. split; [reflexivity|].
  destruct (zsummary_counts (zu_items (zt_univ t)) cs) as (K & C).
  { intros c I. apply G in I. eapply zcombs_ssorted. apply I. }
  { intros c x I X. apply G in I. eapply zcombs_sub; [apply I|exact X]. }
  set (counts := fold_left _ _ _) in *. clearbody counts.
  set (f := fun p : T * nat => _). set (l := ho_iter h 20 counts).
  assert (Pl : Permutation l counts) by apply ho_perm.
  assert (Fi : forall p, status_item (f p) = fst p).
  { intros [x k]. unfold f. cbn [fst]. destruct (k =? 0); [reflexivity|]. destruct (memb x inc); [reflexivity|].
    destruct (k =? length cs); reflexivity. }
  assert (Nl : NoDup (map status_item (map f l))).
  { rewrite map_map. rewrite (map_ext _ fst Fi). rewrite Pl. apply ssorted_NoDup. exact K. }
  assert (Ps : Permutation (sort_by zstatus_leb (map f l)) (map f l)) by apply sort_by_perm.
  assert (Ns : NoDup (map status_item (sort_by zstatus_leb (map f l)))) by (rewrite Ps; exact Nl).
  split; [|split; [exact Ns|]].
  - assert (S : StronglySorted (fun a b => zstatus_leb a b = true) (sort_by zstatus_leb (map f l))).
    { apply sort_by_sorted; intros; unfold zstatus_leb in *; [apply leb_total_|eapply leb_trans_; eassumption]. }
    clear -S Ns. induction S as [|s r S IH F]; [constructor|]. cbn [map] in Ns. inversion Ns as [|? ? N1 N2]; subst.
    constructor; [auto|]. rewrite Forall_forall in *. intros s' I. specialize (F s' I).
    assert (D : status_item s <> status_item s') by (intros Q; apply N1; rewrite Q; apply in_map; exact I).
    unfold zstatus_leb in F. apply leb_iff_ in F. destruct F as [F|F].
    + unfold lt_ in F. destruct s, s'; cbn in F; unfold status_before; cbn; try (left; lia); try discriminate; right; auto.
    + exfalso. apply D. destruct s, s'; cbn in F; congruence.
  - intros s.
    assert (M : In s (sort_by zstatus_leb (map f l)) <-> exists x, In (x, count cs x) counts /\ s = f (x, count cs x)).
    { split.
      - intros I. apply (Permutation_in _ Ps) in I. apply in_map_iff in I. destruct I as ([x k] & <- & I).
        apply (Permutation_in _ Pl) in I. pose proof (proj1 (C x k) I) as (_ & ->). eauto.
      - intros (x & I & ->). apply (Permutation_in _ (Permutation_sym Ps)). apply in_map.
        apply (Permutation_in _ (Permutation_sym Pl)). exact I. }
    rewrite M. split.
    + intros (x & I & ->). apply C in I. destruct I as (I & _). rewrite Fi. split; [exact I|]. unfold f.
      destruct (Nat.eqb_spec (count cs x) 0) as [Z|Z]; [exact (proj1 (count_zero_iff _ _) Z)|].
      assert (Ex : exists c, In c cs /\ In x c) by (apply Zdd2Forest.count_pos; lia).
      destruct (memb x inc) eqn:Mi; [apply memb_spec in Mi; split; assumption|]. apply memb_false in Mi.
      destruct (Nat.eqb_spec (count cs x) (length cs)) as [Q|Q].
      * split; [exact Mi|]. split; [exact Ex|]. apply count_all_iff; exact Q.
      * split; [exact Mi|]. split; [exact Ex|].
        destruct (existsb (fun c => negb (memb x c)) cs) eqn:B.
        -- apply existsb_exists in B. destruct B as (c & Ic & B). apply negb_true_iff, memb_false in B. eauto.
        -- exfalso. apply Q. apply count_all_iff. intros c Ic. destruct (in_dec_ x c) as [Y|N]; [exact Y|]. exfalso.
           assert (B' : existsb (fun c => negb (memb x c)) cs = true).
           { apply existsb_exists. exists c. split; [exact Ic|]. apply negb_true_iff, memb_false. exact N. }
           congruence.
    + intros (I & Ru). exists (status_item s). split; [apply C; auto|].
      unfold f. destruct s as [x|x|x|x]; cbn [status_item status_rule] in *.
      * destruct Ru as (Ni & Ex & All). apply Zdd2Forest.count_pos in Ex. pose proof (proj2 (count_all_iff _ _) All).
        destruct (Nat.eqb_spec (count cs x) 0); [lia|]. apply memb_false in Ni. rewrite Ni.
        destruct (Nat.eqb_spec (count cs x) (length cs)); [reflexivity|congruence].
      * rewrite (proj2 (count_zero_iff _ _) Ru). reflexivity.
      * destruct Ru as (Ni & Ex & c & Ic & Nc). apply Zdd2Forest.count_pos in Ex.
        destruct (Nat.eqb_spec (count cs x) 0); [lia|]. apply memb_false in Ni. rewrite Ni.
        destruct (Nat.eqb_spec (count cs x) (length cs)) as [Q|]; [|reflexivity].
        exfalso. apply Nc. apply (proj1 (count_all_iff cs x) Q). exact Ic.
      * destruct Ru as (Ii & Ex). apply Zdd2Forest.count_pos in Ex.
        destruct (Nat.eqb_spec (count cs x) 0); [lia|]. apply memb_spec in Ii. rewrite Ii. reflexivity.
Qed.
Lemma C41_summarize_deterministic_pf : forall (T : Type) (O : Ord T) (h h' : hash_order) (t : ztree T) (inc exc : list T),
  z_summarize h t inc exc = z_summarize h' t inc exc.
Proof.
  intros T O h h' t inc exc.
  destruct (C41_summarize_exact_pf T O h t inc exc) as (cs & r & E & -> & S & N & X).
  destruct (C41_summarize_exact_pf T O h' t inc exc) as (cs' & r' & E' & -> & S' & N' & X').
  rewrite E in E'. injection E' as <-. f_equal. apply (SS_unique_perm status_before); [|exact S|exact S'|].
  - intros a b [A|(A & A')] [B|(B & B')]; try lia. exfalso. eapply lt_asym_; eassumption.
  - apply NoDup_Permutation; [eapply NoDup_map_inv; exact N|eapply NoDup_map_inv; exact N'|].
    intros s. rewrite X, X'. tauto.
Qed.
Example C41_example :
  z_summarize ho_rev (z_hyper_tree (zu_from [1; 2; 3; 4; 5]) [[1; 2; 4]; [1; 3; 4]; [2]; [5]]) [1] [5]
  = Some [ZRequired 4; ZExcluded 5; ZAvailable 2; ZAvailable 3; ZSelected 1].
Proof. reflexivity. Qed.

(** C61.  [traverse] never panics on a reachable tree, visits every branch once,
    and its paths name exactly the combinations of the tree. *)
Lemma C61_traverse_exact_pf : forall (T : Type) (O : Ord T) (ok : list T -> Prop) (items : list T) (t : ztree T),
  ZReach ok (zu_from items) t ->
  exists d cs, z_traverse t = Some d /\ z_combinations t = Some cs /\ size d = size (zt_root t) /\
    (forall s, In s cs <-> ssorted s /\ exists q, In q (paths d) /\ same_elems s q).
Proof.
  intros T O ok items t R. apply zreach_inv in R. destruct R as (U & Z & L).
  destruct (z_from_node_spec (zt_univ t) (zt_root t)) as (d & E & S & P).
  { intros p I. destruct (L p I) as (x & X & _). rewrite U. eauto. }
  exists d, (zcombs t). split; [exact E|]. split; [apply z_combinations_eq|]. split; [exact S|].
  intros s. rewrite zcombs_in. split.
  - intros (p & Ip & ->). split; [apply z_get_items_ssorted|].
    exists (filter_map (z_get_item (zt_univ t)) p). split; [apply P; eauto|]. intros x. apply filter_repeats_in.
  - intros (So & q & Iq & Q). apply P in Iq. destruct Iq as (p & Ip & ->). exists p. split; [exact Ip|].
    apply ssorted_ext; [exact So|apply z_get_items_ssorted|]. intros x. rewrite (Q x). unfold z_get_items.
    rewrite filter_repeats_in. reflexivity.
Qed.
(** branch for branch *)
Lemma C61_mirrors_pf : forall (T : Type) (O : Ord T) (ok : list T -> Prop) (items : list T) (t : ztree T),
  ZReach ok (zu_from items) t ->
  exists d, z_traverse t = Some d /\ mirrors items (zt_root t) d.
Proof.
  intros T O ok items t R. destruct (C61_traverse_exact_pf T O ok items t R) as (d & _ & E & _).
  exists d. split; [exact E|]. apply zreach_inv in R. destruct R as (U & _ & _).
  unfold z_traverse in E. rewrite U in E. clear U. revert d E.
  generalize (zt_root t). intros n. induction n as [b|i lo IHl hi IHh]; intros d E.
  - injection E as <-. reflexivity.
  - cbn [z_from_node] in E. apply bind_some in E. destruct E as (x & X & E).
    apply bind_some in E. destruct E as (l & El & E). apply bind_some in E. destruct E as (h & Eh & E).
    injection E as <-. cbn [mirrors]. split; [exact X|]. auto.
Qed.
Example C61_example :
  z_traverse (z_hyper_tree (zu_from [7; 8]) [[7]; [8; 7]])
  = Some (Branch 7 (Leaf false) (Branch 8 (Leaf true) (Leaf true))).
Proof. reflexivity. Qed.

(** C62.  Laws that do hold for all trees over one universe: the three
    operations commute; union is associative (as sets of combinations), idempotent
    and has [empty_tree] as unit; [product] has [unit_tree] as unit and
    [empty_tree] as zero. *)
Lemma C62_laws_pf : forall (T : Type) (O : Ord T) (t o w : ztree T), zt_univ t = zt_univ o -> zt_univ o = zt_univ w ->
  z_union t o = z_union o t /\ z_intersect t o = z_intersect o t /\ z_product t o = z_product o t /\
  z_union t t = t /\ z_intersect t t = t /\
  z_union t (z_empty_tree (zt_univ t)) = t /\
  z_product t (z_unit_tree (zt_univ t)) = t /\
  z_product t (z_empty_tree (zt_univ t)) = z_empty_tree (zt_univ t) /\
  z_combinations (z_union (z_union t o) w) = z_combinations (z_union t (z_union o w)).
Proof.
  intros T O t o w E E'. destruct (zops_comm (zt_root t) (zt_root o)) as (A & B & C).
  unfold z_union at 1 2, z_intersect at 1 2, z_product at 1 2. rewrite E, A, B, C.
  split; [reflexivity|]. split; [reflexivity|]. split; [reflexivity|].
  split. { destruct t as [r u]. unfold z_union. cbn [zt_root zt_univ]. rewrite zunion_eq. destruct (dd_eqb_spec r r); congruence. }
  split. { destruct t as [r u]. unfold z_intersect. cbn [zt_root zt_univ]. rewrite zintersect_eq. destruct (dd_eqb_spec r r); congruence. }
  split. { rewrite <- E. destruct t as [r u]. unfold z_union, z_empty_tree. cbn [zt_root zt_univ]. rewrite zunion_eq.
           destruct (dd_eqb _ _); [reflexivity|]. destruct r as [[]|]; reflexivity. }
  split. { rewrite <- E. destruct t as [r u]. unfold z_product, z_unit_tree. cbn [zt_root zt_univ]. rewrite zproduct_eq.
           destruct (dd_eqb _ _); [reflexivity|]. destruct r as [[]|]; reflexivity. }
  split. { rewrite <- E. destruct t as [r u]. unfold z_product, z_empty_tree. cbn [zt_root zt_univ]. rewrite zproduct_eq.
           destruct (dd_eqb_spec r (Leaf false)) as [->|N]; [reflexivity|]. destruct r as [[]|]; try reflexivity. }
  rewrite !z_combinations_eq. f_equal. apply ssorted_ext; [apply filter_repeats_ssorted|apply filter_repeats_ssorted|].
  intros s. fold (zcombs (z_union (z_union t o) w)). fold (zcombs (z_union t (z_union o w))).
  rewrite zcombs_union by (cbn; congruence). rewrite zcombs_union by exact E.
  rewrite zcombs_union by (cbn; congruence). rewrite zcombs_union by exact E'. tauto.
Qed.
(** trees over one universe, none of them trivial *)
Example C62_example :
  let u := zu_from [1; 2; 3; 4] in
  let t := z_hyper_tree u [[1; 3]; []] in let o := z_hyper_tree u [[2]; [4]] in let w := z_unique_tree u [1; 4] in
  zt_univ t = zt_univ o /\ zt_univ o = zt_univ w /\
  z_combinations (z_union (z_union t o) w) = Some [[]; [1]; [1; 3]; [2]; [4]].
Proof. cbv zeta. repeat split. Qed.

(** C63.  Trees over one universe, built from duplicate-free combinations, are
    equal exactly when they have the same combinations: the diagram does not
    depend on how it was built. *)
Lemma C63_canonical_pf : forall (T : Type) (O : Ord T) (items : list T) (t o : ztree T),
  ZReach (@NoDup T) (zu_from items) t -> ZReach (@NoDup T) (zu_from items) o ->
  (t = o <-> z_combinations t = z_combinations o).
Proof.
  intros T O items t o R R'. split; [intros ->; reflexivity|]. rewrite !z_combinations_eq. intros [= E].
  apply (zcombs_canonical items); try (eapply zreach_inv; eassumption); try (eapply zreach_ordered; eassumption).
  intros s. rewrite E. tauto.
Qed.
(** the restriction to duplicate-free combinations is needed: [tree(["a","a"])]
    differs from [tree(["a"])] *)
Lemma C63_duplicates_break_equality_pf : forall (T : Type) (O : Ord T) (x : T),
  let u := zu_from [x] in
  z_combinations (z_tree u [x; x]) = z_combinations (z_tree u [x]) /\ z_tree u [x; x] <> z_tree u [x].
Proof.
  intros T O x u.
  assert (E : map_get (zu_index u) x = Some 0).
  { unfold u, zu_from, enumerate_map. cbn. unfold map_insert, map_update. rewrite cmp_refl. reflexivity. }
  assert (R1 : zt_root (z_tree u [x; x]) = Branch 0 (Leaf false) (Branch 0 (Leaf false) (Leaf true))).
  { unfold z_tree. cbn [zt_root filter_map]. rewrite E. reflexivity. }
  assert (R2 : zt_root (z_tree u [x]) = Branch 0 (Leaf false) (Leaf true)).
  { unfold z_tree. cbn [zt_root filter_map]. rewrite E. reflexivity. }
  split.
  - rewrite !z_combinations_eq. f_equal. unfold zcombs. rewrite R1, R2. cbn [paths map app].
    assert (Q : z_get_items u [0; 0] = z_get_items u [0]).
    { unfold z_get_items. apply filter_repeats_ext. intros y. cbn. tauto. }
    change (zt_univ (z_tree u [x; x])) with u. change (zt_univ (z_tree u [x])) with u. rewrite Q. reflexivity.
  - intros C. apply (f_equal zt_root) in C. rewrite R1, R2 in C. discriminate.
Qed.
Example C63_example :
  let u := zu_from [1; 2; 3] in
  z_union (z_tree u [2; 1]) (z_union (z_tree u [3]) (z_tree u [1])) = z_hyper_tree u [[3]; [1; 2]; [1]].
Proof. reflexivity. Qed.
