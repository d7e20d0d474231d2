(** Properties_Zdd.v: property theorems about the zdd trees (C35-C41, C61-C63).
    Generated by tools/gen_props.py from ZddThm.v: the property theorems, each followed by
    instances that meet its hypotheses (examples). *)
From Coq Require Import List Arith Lia Bool Permutation Sorted.
From Verif Require Import Base DD Spec Zdd2Model ZddModel ZddSpec ZddProofs ZddExact.
Import ListNotations.
From Verif Require Import ZddThm.

(** C35.  For every universe (repeated items allowed): [tree] has exactly the
    known part of the given combination; [hyper_tree] exactly the known parts of
    the given combinations; [unique_tree] one singleton per known item (and the
    empty combination if some given item is unknown); [empty_tree] nothing and
    [unit_tree] the empty combination. *)
Theorem C35_constructors_exact : forall (T : Type) (O : Ord T) (items : list T),
  let u := zu_from items in
  z_combinations (z_empty_tree u) = Some [] /\
  z_combinations (z_unit_tree u) = Some [[]] /\
  (forall c, exists s, z_combinations (z_tree u c) = Some [s] /\ known_part items c s) /\
  (forall cs, exists ss, z_combinations (z_hyper_tree u cs) = Some ss /\ ssorted ss /\
     forall s, In s ss <-> exists c, In c cs /\ known_part items c s) /\
  (forall xs, exists ss, z_combinations (z_unique_tree u xs) = Some ss /\ ssorted ss /\
     forall s, In s ss <-> (exists x, In x xs /\ In x items /\ s = [x]) \/ (s = [] /\ exists x, In x xs /\ ~ In x items)).
Proof. exact C35_constructors_exact_pf. Qed.
Print Assumptions C35_constructors_exact.

Example C35_example :
  let u := zu_from [7; 8; 9; 8] in
  z_combinations (z_tree u [9; 5; 8; 9]) = Some [[8; 9]] /\
  z_combinations (z_hyper_tree u [[9; 7]; [8]; []; [5; 8]]) = Some [[]; [7; 9]; [8]] /\
  z_combinations (z_unique_tree u [9; 7]) = Some [[7]; [9]].
Proof. exact ZddThm.C35_example. Qed.

(** C36.  Both enumerators terminate, agree, and list exactly the combinations
    named by the paths to the true leaf, each once and ascending: for every tree,
    whatever its root and universe. *)
Theorem C36_combinations_exact : forall (T : Type) (O : Ord T) (t : ztree T),
  exists cs, z_combinations t = Some cs /\ z_combinations_recursive t = cs /\ ssorted cs /\
    (forall s, In s cs <-> exists p, In p (paths (zt_root t)) /\ named_by (zu_items (zt_univ t)) p s).
Proof. exact C36_combinations_exact_pf. Qed.
Print Assumptions C36_combinations_exact.

Example C36_example :
  z_combinations (mkZT (Branch 2 (Branch 0 (Leaf true) (Leaf true)) (Branch 1 (Leaf false) (Leaf true))) (zu_from [7; 8; 9]))
  = Some [[]; [7]; [8; 9]].
Proof. exact ZddThm.C36_example. Qed.

(** C37.  Union is exact for every two trees over the same universe. *)
Theorem C37_union_exact : forall (T : Type) (O : Ord T) (t o : ztree T), zt_univ t = zt_univ o ->
  exists a b r, z_combinations t = Some a /\ z_combinations o = Some b /\ z_combinations (z_union t o) = Some r /\
    zt_univ (z_union t o) = zt_univ t /\
    forall s, In s r <-> In s a \/ In s b.
Proof. exact C37_union_exact_pf. Qed.
Print Assumptions C37_union_exact.

Example C37_example :
  let u := zu_from [7; 8; 9] in
  z_combinations (z_union (z_hyper_tree u [[7]; [8; 9]]) (z_hyper_tree u [[8]; [7]; []])) = Some [[]; [7]; [8]; [8; 9]].
Proof. exact ZddThm.C37_example. Qed.

(** C38.  Intersection is not set intersection: {{1}} with {{}} gives {{1}}, and
    {{1},{3}} with {{2}} gives {{1,2},{3}}. *)
(* ZddThm.v defines
   C38_claim : Prop := forall (T : Type) (O : Ord T) (items : list T) (t o : ztree T) a b r,
  ZReach (@NoDup T) (zu_from items) t -> ZReach (@NoDup T) (zu_from items) o ->
  z_combinations t = Some a -> z_combinations o = Some b -> z_combinations (z_intersect t o) = Some r ->
  forall s, In s r <-> In s a /\ In s b. *)

Theorem C38_intersect_refuted :
  (exists t o : ztree nat, ZReach (@NoDup nat) (zu_from [1; 2; 3]) t /\ ZReach (@NoDup nat) (zu_from [1; 2; 3]) o /\
     z_combinations t = Some [[1]; [3]] /\ z_combinations o = Some [[2]] /\
     z_combinations (z_intersect t o) = Some [[1; 2]; [3]]) /\
  (exists t o : ztree nat, ZReach (@NoDup nat) (zu_from [1]) t /\ ZReach (@NoDup nat) (zu_from [1]) o /\
     z_combinations t = Some [[1]] /\ z_combinations o = Some [[]] /\
     z_combinations (z_intersect t o) = Some [[1]]) /\
  ~ C38_claim.
Proof. exact C38_intersect_refuted_pf. Qed.
Print Assumptions C38_intersect_refuted.

(** C38, what holds: every common combination is kept; every combination of the
    result is covered by one of each operand and contains one of the two whole;
    the result is exact when the operands are equal or one has no combination. *)
Theorem C38_intersect_partial : forall (T : Type) (O : Ord T) (items : list T) (t o : ztree T) a b,
  ZReach (@NoDup T) (zu_from items) t -> ZReach (@NoDup T) (zu_from items) o ->
  z_combinations t = Some a -> z_combinations o = Some b ->
  exists r, z_combinations (z_intersect t o) = Some r /\
    (forall s, In s a -> In s b -> In s r) /\
    (forall s, In s r -> exists x y, In x a /\ In y b /\ (forall z, In z s -> In z x \/ In z y) /\ (incl x s \/ incl y s)) /\
    (a = b \/ a = [] \/ b = [] -> forall s, In s r <-> In s a /\ In s b).
Proof. exact C38_intersect_partial_pf. Qed.
Print Assumptions C38_intersect_partial.

Example C38_example :
  let u := zu_from [1; 2; 3] in
  let t := z_hyper_tree u [[1; 2]; [1; 3]; [2]] in let o := z_hyper_tree u [[1; 2]; [2]] in
  ZReach (@NoDup nat) u t /\ ZReach (@NoDup nat) u o /\
  z_combinations (z_intersect t o) = Some [[1; 2]; [2]].
Proof. exact ZddThm.C38_example. Qed.

(** C38, exactly which combinations are returned, for all operands: one combination
    of each side joined ([joined] in ZddSpec), in the order of the universe. *)
Theorem C38_intersect_exact_partial : forall (T : Type) (O : Ord T) (items : list T) (t o : ztree T) a b,
  ZReach (@NoDup T) (zu_from items) t -> ZReach (@NoDup T) (zu_from items) o ->
  z_combinations t = Some a -> z_combinations o = Some b ->
  exists r, z_combinations (z_intersect t o) = Some r /\
    forall s, In s r <-> ssorted s /\ joined (listed_before items) a b s.
Proof. exact C38_intersect_exact_partial_pf. Qed.
Print Assumptions C38_intersect_exact_partial.

(** the refuting case {{1},{3}} with {{2}}: {1} and {2} are joined to the end; {3}
    leaves at 1, about which only the first side decides *)
Example C38_exact_example :
  let u := zu_from [1; 2; 3] in
  let t := z_unique_tree u [1; 3] in let o := z_unique_tree u [2] in
  ZReach (@NoDup nat) u t /\ ZReach (@NoDup nat) u o /\
  z_combinations t = Some [[1]; [3]] /\ z_combinations o = Some [[2]] /\
  z_combinations (z_intersect t o) = Some [[1; 2]; [3]] /\
  leaves_at (listed_before [1; 2; 3]) [[1]; [3]] [[2]] [3] [2] 1 [3].
Proof. exact ZddThm.C38_exact_example. Qed.

(** C39.  Product misses combinations when the operands share items:
    {{1},{2}} x {{1}} lacks {1,2}. *)
(* ZddThm.v defines
   C39_claim : Prop := forall (T : Type) (O : Ord T) (items : list T) (t o : ztree T) a b r,
  ZReach (@NoDup T) (zu_from items) t -> ZReach (@NoDup T) (zu_from items) o ->
  z_combinations t = Some a -> z_combinations o = Some b -> z_combinations (z_product t o) = Some r ->
  forall s, In s r <-> ssorted s /\ exists x y, In x a /\ In y b /\ is_union s x y. *)

Theorem C39_product_refuted :
  (exists t o : ztree nat, ZReach (@NoDup nat) (zu_from [1; 2]) t /\ ZReach (@NoDup nat) (zu_from [1; 2]) o /\
     z_combinations t = Some [[1]; [2]] /\ z_combinations o = Some [[1]] /\
     z_combinations (z_product t o) = Some [[1]]) /\
  ~ C39_claim.
Proof. exact C39_product_refuted_pf. Qed.
Print Assumptions C39_product_refuted.

(** C39, what holds: every combination of the product is the union of one from
    each operand; the product is exact when no item occurs in both. *)
Theorem C39_product_partial : forall (T : Type) (O : Ord T) (ok : list T -> Prop) (items : list T) (t o : ztree T) a b,
  ZReach ok (zu_from items) t -> ZReach ok (zu_from items) o ->
  z_combinations t = Some a -> z_combinations o = Some b ->
  exists r, z_combinations (z_product t o) = Some r /\
    (forall s, In s r -> ssorted s /\ exists x y, In x a /\ In y b /\ is_union s x y) /\
    (item_disjoint a b -> forall s, In s r <-> ssorted s /\ exists x y, In x a /\ In y b /\ is_union s x y).
Proof. exact C39_product_partial_pf. Qed.
Print Assumptions C39_product_partial.

Example C39_example :
  let u := zu_from [1; 2; 3; 4] in
  let t := z_hyper_tree u [[1; 3]; []] in let o := z_hyper_tree u [[2]; [4]] in
  ZReach (@NoDup nat) u t /\ ZReach (@NoDup nat) u o /\ item_disjoint [[]; [1; 3]] [[2]; [4]] /\
  z_combinations (z_product t o) = Some [[1; 2; 3]; [1; 3; 4]; [2]; [4]].
Proof. exact ZddThm.C39_example. Qed.

(** C39, exactly which combinations are returned, for all operands: the unions of
    one combination of each side that decide alike about every item about which
    both sides can still decide. *)
Theorem C39_product_exact_partial : forall (T : Type) (O : Ord T) (items : list T) (t o : ztree T) a b,
  ZReach (@NoDup T) (zu_from items) t -> ZReach (@NoDup T) (zu_from items) o ->
  z_combinations t = Some a -> z_combinations o = Some b ->
  exists r, z_combinations (z_product t o) = Some r /\
    forall s, In s r <-> ssorted s /\ exists x y, In x a /\ In y b /\ is_union s x y /\
      forall i, paired (listed_before items) a b x y i.
Proof. exact C39_product_exact_partial_pf. Qed.
Print Assumptions C39_product_exact_partial.

(** the refuting case {{1},{2}} x {{1}}: {2} and {1} do not decide alike about 1 *)
Example C39_exact_example :
  let u := zu_from [1; 2] in
  let t := z_unique_tree u [1; 2] in let o := z_unique_tree u [1] in
  ZReach (@NoDup nat) u t /\ ZReach (@NoDup nat) u o /\
  z_combinations t = Some [[1]; [2]] /\ z_combinations o = Some [[1]] /\
  z_combinations (z_product t o) = Some [[1]] /\
  ~ paired (listed_before [1; 2]) [[1]; [2]] [[1]] [2] [1] 1.
Proof. exact ZddThm.C39_exact_example. Qed.

(** C40.  [combinations_with] is exact for every tree; [restrict] is defined and
    exact, and stays in the universe. *)
Theorem C40_combinations_with_exact : forall (T : Type) (O : Ord T) (t : ztree T) (inc exc : list T),
  exists cs rs, z_combinations t = Some cs /\ z_combinations_with t inc exc = Some rs /\ ssorted rs /\
    forall s, In s rs <-> In s cs /\ meets inc exc s.
Proof. exact C40_combinations_with_exact_pf. Qed.
Print Assumptions C40_combinations_with_exact.

Theorem C40_restrict_exact : forall (T : Type) (O : Ord T) (items : list T) (t : ztree T) (inc exc : list T),
  zt_univ t = zu_from items ->
  exists cs r rs, z_combinations t = Some cs /\ z_restrict t inc exc = Some r /\ zt_univ r = zt_univ t /\
    z_combinations r = Some rs /\ forall s, In s rs <-> In s cs /\ meets inc exc s.
Proof. exact C40_restrict_exact_pf. Qed.
Print Assumptions C40_restrict_exact.

Example C40_example :
  let t := z_hyper_tree (zu_from [1; 2; 3]) [[1; 2]; [1; 3]; [2]; [1]] in
  z_combinations_with t [1] [3] = Some [[1]; [1; 2]] /\
  (let! r := z_restrict t [1] [3] in z_combinations r) = Some [[1]; [1; 2]].
Proof. exact ZddThm.C40_example. Qed.

(** C41.  The summary gives every item of the universe exactly one status, the
    stated one, in order, whatever order the hash map is iterated in. *)
Theorem C41_summarize_exact : forall (T : Type) (O : Ord T) (h : hash_order) (t : ztree T) (inc exc : list T),
  exists cs r, z_combinations_with t inc exc = Some cs /\ z_summarize h t inc exc = Some r /\
    StronglySorted status_before r /\
    NoDup (map status_item r) /\
    (forall s, In s r <-> In (status_item s) (zu_items (zt_univ t)) /\ status_rule inc cs s).
Proof. exact C41_summarize_exact_pf. Qed.
Print Assumptions C41_summarize_exact.

Theorem C41_summarize_deterministic : forall (T : Type) (O : Ord T) (h h' : hash_order) (t : ztree T) (inc exc : list T),
  z_summarize h t inc exc = z_summarize h' t inc exc.
Proof. exact C41_summarize_deterministic_pf. Qed.
Print Assumptions C41_summarize_deterministic.

Example C41_example :
  z_summarize ho_rev (z_hyper_tree (zu_from [1; 2; 3; 4; 5]) [[1; 2; 4]; [1; 3; 4]; [2]; [5]]) [1] [5]
  = Some [ZRequired 4; ZExcluded 5; ZAvailable 2; ZAvailable 3; ZSelected 1].
Proof. exact ZddThm.C41_example. Qed.

(** C61.  [traverse] never panics on a reachable tree, visits every branch once,
    and its paths name exactly the combinations of the tree. *)
Theorem C61_traverse_exact : forall (T : Type) (O : Ord T) (ok : list T -> Prop) (items : list T) (t : ztree T),
  ZReach ok (zu_from items) t ->
  exists d cs, z_traverse t = Some d /\ z_combinations t = Some cs /\ size d = size (zt_root t) /\
    (forall s, In s cs <-> ssorted s /\ exists q, In q (paths d) /\ same_elems s q).
Proof. exact C61_traverse_exact_pf. Qed.
Print Assumptions C61_traverse_exact.

(** branch for branch *)
Theorem C61_mirrors : forall (T : Type) (O : Ord T) (ok : list T -> Prop) (items : list T) (t : ztree T),
  ZReach ok (zu_from items) t ->
  exists d, z_traverse t = Some d /\ mirrors items (zt_root t) d.
Proof. exact C61_mirrors_pf. Qed.
Print Assumptions C61_mirrors.

Example C61_example :
  z_traverse (z_hyper_tree (zu_from [7; 8]) [[7]; [8; 7]])
  = Some (Branch 7 (Leaf false) (Branch 8 (Leaf true) (Leaf true))).
Proof. exact ZddThm.C61_example. Qed.

(** C62.  Laws that do hold for all trees over one universe: the three
    operations commute; union is associative (as sets of combinations), idempotent
    and has [empty_tree] as unit; [product] has [unit_tree] as unit and
    [empty_tree] as zero. *)
Theorem C62_laws : forall (T : Type) (O : Ord T) (t o w : ztree T), zt_univ t = zt_univ o -> zt_univ o = zt_univ w ->
  z_union t o = z_union o t /\ z_intersect t o = z_intersect o t /\ z_product t o = z_product o t /\
  z_union t t = t /\ z_intersect t t = t /\
  z_union t (z_empty_tree (zt_univ t)) = t /\
  z_product t (z_unit_tree (zt_univ t)) = t /\
  z_product t (z_empty_tree (zt_univ t)) = z_empty_tree (zt_univ t) /\
  z_combinations (z_union (z_union t o) w) = z_combinations (z_union t (z_union o w)).
Proof. exact C62_laws_pf. Qed.
Print Assumptions C62_laws.

(** trees over one universe, none of them trivial *)
Example C62_example :
  let u := zu_from [1; 2; 3; 4] in
  let t := z_hyper_tree u [[1; 3]; []] in let o := z_hyper_tree u [[2]; [4]] in let w := z_unique_tree u [1; 4] in
  zt_univ t = zt_univ o /\ zt_univ o = zt_univ w /\
  z_combinations (z_union (z_union t o) w) = Some [[]; [1]; [1; 3]; [2]; [4]].
Proof. exact ZddThm.C62_example. Qed.

(** C63.  Trees over one universe, built from duplicate-free combinations, are
    equal exactly when they have the same combinations: the diagram does not
    depend on how it was built. *)
Theorem C63_canonical : forall (T : Type) (O : Ord T) (items : list T) (t o : ztree T),
  ZReach (@NoDup T) (zu_from items) t -> ZReach (@NoDup T) (zu_from items) o ->
  (t = o <-> z_combinations t = z_combinations o).
Proof. exact C63_canonical_pf. Qed.
Print Assumptions C63_canonical.

(** the restriction to duplicate-free combinations is needed: [tree(["a","a"])]
    differs from [tree(["a"])] *)
Theorem C63_duplicates_break_equality : forall (T : Type) (O : Ord T) (x : T),
  let u := zu_from [x] in
  z_combinations (z_tree u [x; x]) = z_combinations (z_tree u [x]) /\ z_tree u [x; x] <> z_tree u [x].
Proof. exact C63_duplicates_break_equality_pf. Qed.
Print Assumptions C63_duplicates_break_equality.

Example C63_example :
  let u := zu_from [1; 2; 3] in
  z_union (z_tree u [2; 1]) (z_union (z_tree u [3]) (z_tree u [1])) = z_hyper_tree u [[3]; [1; 2]; [1]].
Proof. exact ZddThm.C63_example. Qed.
