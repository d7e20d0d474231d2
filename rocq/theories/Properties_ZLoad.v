(** Properties_ZLoad.v: C85: zdd data loaded from anywhere, operands of different universes
    Generated by tools/gen_props.py from ZLoadThm.v: the property theorems, each followed by
    instances that meet its hypotheses (examples). *)
From Coq Require Import List Arith NArith Lia Bool Permutation Sorted.
From Verif Require Import Base DD Spec Zdd2Model ZddModel ZddSpec ZddProofs ZddExact ZddThm ParserModel ParserSpec ParserThm.
Import ListNotations.
From Verif Require Import ZLoadThm.
Open Scope nat_scope.

(** C85.  Loading accepts exactly the texts that start with a spelled node, whatever
    the items and the index; the tree is what the data says, and writing it and
    reading it back gives the same tree. *)
Theorem C85_load : forall (T : Type) (O : Ord T) (text : list N) (items : list T) (entries : list (T * nat)),
  ((exists t, z_deserialize (text, (items, entries)) = Some t) <->
   exists d word rest, text = word ++ rest /\ spells 84 70 d word) /\
  forall t, z_deserialize (text, (items, entries)) = Some t ->
    zt_univ t = zu_load items entries /\
    (exists word rest, text = word ++ rest /\ spells 84 70 (zt_root t) word) /\
    (forall y i, map_get (zu_index (zt_univ t)) y = Some i <-> entry_of entries y i) /\
    (forall entries', Permutation entries' (snd (snd (z_serialize t))) ->
       z_deserialize (fst (z_serialize t), (fst (snd (z_serialize t)), entries')) = Some t).
Proof. exact C85_load_pf. Qed.
Print Assumptions C85_load.

(** [traverse] of any tree panics exactly if a label is no index of the items, and
    otherwise mirrors the tree; the three operations and [restrict] add no labels,
    so trees without such labels never get one. *)
Theorem C85_traverse : forall (T : Type) (O : Ord T) (t : ztree T),
  ((exists d, z_traverse t = Some d) <-> forall i, In i (labels (zt_root t)) -> i < length (zu_items (zt_univ t))) /\
  (forall d, z_traverse t = Some d -> mirrors (zu_items (zt_univ t)) (zt_root t) d).
Proof. exact C85_traverse_pf. Qed.
Print Assumptions C85_traverse.

Theorem C85_safe_results : forall (T : Type) (O : Ord T) (t o : ztree T) d e,
  z_traverse t = Some d -> z_traverse (read_in (zt_univ t) o) = Some e ->
  (exists r, z_traverse (z_union t o) = Some r) /\
  (exists r, z_traverse (z_intersect t o) = Some r) /\
  (exists r, z_traverse (z_product t o) = Some r).
Proof. exact C85_safe_results_pf. Qed.
Print Assumptions C85_safe_results.

(** Over a universe loaded from any items and any index, the constructors and
    [restrict] send every member through the index to an item. *)
Theorem C85_constructors : forall (T : Type) (O : Ord T) (items : list T) (entries : list (T * nat)),
  let u := zu_load items entries in
  (forall c, exists s, z_combinations (z_tree u c) = Some [s] /\ read_as items entries c s) /\
  (forall cs, exists ss, z_combinations (z_hyper_tree u cs) = Some ss /\
     forall s, In s ss <-> exists c, In c cs /\ read_as items entries c s) /\
  (forall xs, exists ss, z_combinations (z_unique_tree u xs) = Some ss /\
     forall s, In s ss <-> exists x, In x xs /\ read_as items entries [x] s) /\
  (forall t inc exc, zt_univ t = u -> exists cs r rs, z_combinations t = Some cs /\ z_restrict t inc exc = Some r /\
     zt_univ r = u /\ z_combinations r = Some rs /\
     forall s, In s rs <-> exists c, In c cs /\ meets inc exc c /\ read_as items entries c s).
Proof. exact C85_constructors_pf. Qed.
Print Assumptions C85_constructors.

(** Operands of any two universes, any roots: the result is what one gets after
    reading the other tree in the universe of the first; [union] has exactly the
    combinations of both; a combination of the [product] is the union of one of each,
    and all of these if no label occurs in both. *)
Theorem C85_mixed : forall (T : Type) (O : Ord T) (t o : ztree T),
  let o' := read_in (zt_univ t) o in
  z_union t o = z_union t o' /\ z_intersect t o = z_intersect t o' /\ z_product t o = z_product t o' /\
  exists a b r p, z_combinations t = Some a /\ z_combinations o' = Some b /\
    (forall s, In s b <-> exists p, In p (paths (zt_root o)) /\ named_by (zu_items (zt_univ t)) p s) /\
    z_combinations (z_union t o) = Some r /\ z_combinations (z_product t o) = Some p /\
    (forall s, In s r <-> In s a \/ In s b) /\
    (forall s, In s p -> exists x y, In x a /\ In y b /\ is_union s x y) /\
    ((forall i, In i (labels (zt_root t)) -> ~ In i (labels (zt_root o))) ->
     forall s, In s p <-> ssorted s /\ exists x y, In x a /\ In y b /\ is_union s x y).
Proof. exact C85_mixed_pf. Qed.
Print Assumptions C85_mixed.

(** For diagrams that are ordered and zero-suppressed, as texts of trees are, the
    paths of the results are known exactly, whatever the universes ([joined], [paired]
    as in C38 and C39, on positions). *)
Theorem C85_ordered : forall (T : Type) (O : Ord T) (t o : ztree T),
  ordered (zt_root t) -> ordered (zt_root o) -> zero_suppressed (zt_root t) -> zero_suppressed (zt_root o) ->
  exists i p, z_combinations (z_intersect t o) = Some i /\ z_combinations (z_product t o) = Some p /\
    (forall s, In s i <-> exists q, ssorted q /\ joined lt (paths (zt_root t)) (paths (zt_root o)) q /\
                                    named_by (zu_items (zt_univ t)) q s) /\
    (forall s, In s p <-> exists q, ssorted q /\ named_by (zu_items (zt_univ t)) q s /\
       exists x y, In x (paths (zt_root t)) /\ In y (paths (zt_root o)) /\ is_union q x y /\
                   forall k, paired lt (paths (zt_root t)) (paths (zt_root o)) x y k).
Proof. exact C85_ordered_pf. Qed.
Print Assumptions C85_ordered.

(** Non-vacuity: an index that contradicts the items, a root with repeated and
    unknown labels, two universes. *)
Example C85_example :
  let text := [40;53;32;40;84;41;32;40;49;32;40;84;41;32;40;84;41;41;41]%N in
  let items := [7; 8; 9] in let entries := [(7, 2); (8, 0); (7, 1); (4, 2); (9, 6)] in
  exists t, z_deserialize (text, (items, entries)) = Some t /\
    zt_root t = Branch 5 (Leaf true) (Branch 1 (Leaf true) (Leaf true)) /\
    z_combinations t = Some [[]; [8]] /\ z_traverse t = None /\
    entry_of entries 7 1 /\ ~ entry_of entries 7 2 /\
    z_combinations (z_tree (zu_load items entries) [7; 8; 4; 9]) = Some [[7; 8; 9]] /\
    (let! r := z_restrict t [8] [] in z_combinations r) = Some [[7]] /\
    z_combinations (z_union t (z_tree (zu_from [1; 2; 3]) [3])) = Some [[]; [8]; [9]].
Proof. exact ZLoadThm.C85_example. Qed.
