(** Properties_ForestLoad.v: Forests loaded from any data (C95)
    Generated by tools/gen_props.py from ForestLoadThm.v: the property theorems, each followed by
    instances that meet its hypotheses (examples). *)
From Coq Require Import List Arith NArith Lia Bool Permutation Sorted.
From Verif Require Import Base DD Spec Zdd2Model ZddModel ParserSpec ParserModel TextSpec.
From Verif Require Import Zdd2Node Zdd2Univ Zdd2Forest Zdd2Forest2 Zdd2Laws Zdd2Thm ParserProofs ParserPlaced ParserThm ZLoadThm TextThm ForestLoadSpec.
Import ListNotations.
From Verif Require Import ForestLoadThm.
Open Scope N_scope.

(** C95.  Loading a [Forest] accepts exactly the texts that are the text of a diagram after white
    space and before anything, whatever the entries. *)
Theorem C95_accepts : forall (T : Type) (O : Ord T) (h : hash_order) (text : list N) (entries : list (T * nat)),
  (exists f, f_deserialize h (text, entries) = Some f) <->
  exists raw w t rest, text = w ++ t ++ rest /\ white w /\ spells 65 78 raw t.
Proof. exact C95_accepts_pf. Qed.
Print Assumptions C95_accepts.

(** What is loaded is what the data says: the last entry for each item is its count, the entries ranked
    by descending count, then by item, number the labels, and each label list of the diagram is
    listed as the items at its ranks (a label beyond the ranks is listed as nothing). *)
Theorem C95_contents : forall (T : Type) (O : Ord T) (h h' : hash_order) text (entries l ranks : list (T * nat)) (es : family) f,
  f_deserialize h (text, entries) = Some f -> says text es -> kept entries l -> ranking l ranks ->
  f_deserialize h' (text, entries) = Some f /\ f_occurrences h' f = l /\ snd (f_serialize f) = l /\
  exists ps ts, NoDup ps /\ (forall p, In p ps <-> es p) /\
    f_trees f = Some ts /\ Forall2 (fun p t => ssorted t /\ reads ranks p t) ps ts /\
    f_len f = Some (length ps) /\ (f_is_empty f = Some true <-> ps = []).
Proof. exact C95_contents_pf. Qed.
Print Assumptions C95_contents.

(** Two loaded forests are equal exactly if the texts say the same family and the entries leave the same
    counts: the layout, the order of the entries and entries that are replaced do not matter. *)
Theorem C95_equal : forall (T : Type) (O : Ord T) (h h' : hash_order) text text' (entries entries' : list (T * nat)) (es es' : family) f f',
  f_deserialize h (text, entries) = Some f -> f_deserialize h' (text', entries') = Some f' -> says text es -> says text' es' ->
  (f_eqb f f' = true <-> (forall p, es p <-> es' p) /\ forall x k, entry_of entries x k <-> entry_of entries' x k).
Proof. exact C95_equal_pf. Qed.
Print Assumptions C95_equal.

(** Written and loaded again, under any hash order and with the entries in any order, it is the same forest. *)
Theorem C95_stable : forall (T : Type) (O : Ord T) (h h' : hash_order) data (entries' : list (T * nat)) f,
  f_deserialize h data = Some f -> Permutation entries' (snd (f_serialize f)) ->
  f_deserialize h' (fst (f_serialize f), entries') = Some f.
Proof. exact C95_stable_pf. Qed.
Print Assumptions C95_stable.

(** Combining loaded forests and printing them succeeds exactly if every label has a rank. *)
Theorem C95_usable : forall (T : Type) (O : Ord T) (h h1 h2 : hash_order) text1 text2 (entries1 entries2 l1 l2 : list (T * nat)) (es1 es2 : family) (show : T -> list N) f g,
  f_deserialize h1 (text1, entries1) = Some f -> f_deserialize h2 (text2, entries2) = Some g ->
  says text1 es1 -> says text2 es2 -> kept entries1 l1 -> kept entries2 l2 ->
  ((exists r, f_union h f g = Some r) <-> readable es1 l1 /\ readable es2 l2) /\
  ((exists r, f_intersect h f g = Some r) <-> readable es1 l1 /\ readable es2 l2) /\
  ((exists r, f_product h f g = Some r) <-> readable es1 l1 /\ readable es2 l2) /\
  ((exists s, f_debug show f = Some s) <-> readable es1 l1).
Proof. exact C95_usable_pf. Qed.
Print Assumptions C95_usable.

(** A loaded forest is one that calls of the API can make exactly if every label has a rank, the empty
    set is not among its trees, and the counts are those of its trees. *)
Theorem C95_genuine : forall (T : Type) (O : Ord T) (h : hash_order) text (entries l : list (T * nat)) (es : family) f ts,
  f_deserialize h (text, entries) = Some f -> says text es -> kept entries l -> f_trees f = Some ts ->
  (Reach f <-> readable es l /\ ~ es [] /\ forall x k, In (x, k) l <-> (0 < k)%nat /\ k = count ts x).
Proof. exact C95_genuine_pf. Qed.
Print Assumptions C95_genuine.

(** " (1 (A) (A))x" with the entries 7:3, 8:1, 7:1 -- the last entry for 7 counts, so 7 and 8 have rank 0 and 1:
    the trees are {8} and {}, and the counts are not those of the trees *)
Example C95_example :
  let text := [32;40;49;32;40;65;41;32;40;65;41;41;120] in
  let entries := [(7, 3); (8, 1); (7, 1)]%nat in
  exists f, f_deserialize ho_id (text, entries) = Some f /\
    says text (fun p => p = [] \/ p = [1%nat]) /\ kept entries [(7, 1); (8, 1)]%nat /\
    ranking [(7, 1); (8, 1)]%nat [(7, 1); (8, 1)]%nat /\ f_trees f = Some [[8]; []]%nat /\
    readable (fun p => p = [] \/ p = [1%nat]) [(7, 1); (8, 1)]%nat /\ ~ Reach f.
Proof. exact ForestLoadThm.C95_example. Qed.

(** "(0 (N) (A))" with the entry 7:1 is genuine; with 7:2 it is not; without entries it cannot be read *)
Example C95_genuine_example :
  let text := [40;48;32;40;78;41;32;40;65;41;41] in
  exists f f' f0, f_deserialize ho_rev (text, [(7, 1)]%nat) = Some f /\ f_deserialize ho_rev (text, [(7, 2)]%nat) = Some f' /\
    f_deserialize ho_rev (text, []) = Some f0 /\
    f_trees f = Some [[7%nat]] /\ f_trees f' = Some [[7%nat]] /\ f_trees f0 = Some [[]] /\
    f_unit ho_id [7%nat] = Some f /\ f_eqb f f' = false /\ f_occurrences ho_id f' = [(7, 2)]%nat /\
    f_union ho_id f f' = Some f /\ f_union ho_id f f0 = None.
Proof. exact ForestLoadThm.C95_genuine_example. Qed.
