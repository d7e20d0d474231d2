(** Properties_Parser.v: node texts, serialization, Debug
    Generated by tools/gen_props.py from ParserThm.v: the property theorems, each followed by
    instances that meet its hypotheses (examples). *)
From Coq Require Import List Arith NArith Lia Bool Permutation Sorted.
From Verif Require Import Base DD Spec Zdd2Model ZddModel ParserSpec ParserModel.
Import ListNotations.
From Verif Require Import ParserThm.
Open Scope N_scope.

(** C21.  The text of every ordered, zero-suppressed diagram parses back to it;
    so does the text of the root of every reachable forest. *)
Theorem C21_node_round_trip : forall n : dd nat, ordered n -> zero_suppressed n -> fits n ->
  parse_node_string (build_node_string n) = Parsed n.
Proof. exact C21_node_round_trip_pf. Qed.
Print Assumptions C21_node_round_trip.

Theorem C21_forest_root_round_trip : forall (T : Type) (O : Ord T) (f : forest T), Reach f -> fits (f_root f) ->
  parse_node_string (build_node_string (f_root f)) = Parsed (f_root f).
Proof. exact C21_forest_root_round_trip_pf. Qed.
Print Assumptions C21_forest_root_round_trip.

Example C21_example :
  let n := Branch 7%nat (Branch 10%nat (Leaf true) (Leaf true)) (Branch 205%nat (Leaf false) (Leaf true)) in
  ordered n /\ zero_suppressed n /\ fits n /\
  build_node_string n = [40;55;32; 40;49;48;32;40;65;41;32;40;65;41;41;32; 40;50;48;53;32;40;78;41;32;40;65;41;41; 41] /\
  parse_node_string (build_node_string n) = Parsed n.
Proof. exact ParserThm.C21_example. Qed.

Theorem C22_forest_round_trip : forall (T : Type) (O : Ord T) (h : hash_order) (f : forest T) text entries,
  Reach f -> fits (f_root f) ->
  text = fst (f_serialize f) -> Permutation entries (snd (f_serialize f)) ->
  f_deserialize h (text, entries) = Some f.
Proof. exact C22_forest_round_trip_pf. Qed.
Print Assumptions C22_forest_round_trip.

Example C22_example : exists f, f_many ho_id [[1;2];[2;3]]%nat = Some f /\ Reach f /\ fits (f_root f) /\
  snd (f_serialize f) = [(1, 1); (2, 2); (3, 1)]%nat /\
  f_deserialize ho_rev (fst (f_serialize f), [(3, 1); (1, 1); (2, 2)]%nat) = Some f.
Proof. exact ParserThm.C22_example. Qed.

(** C23.  On every string the parser answers; what it accepts is exactly the
    texts that start (after Unicode white space) with a spelled diagram, whose
    value is that diagram rebuilt bottom up by [Node::branch]; the value is
    ordered and zero-suppressed; and for a text that is already ordered it is the
    same family of sets. *)
Theorem C23_total : forall s : list N, parse_node_string s <> Stuck.
Proof. exact C23_total_pf. Qed.
Print Assumptions C23_total.

Theorem C23_exact : forall (s : list N) (d : dd nat), parse_node_string s = Parsed d <->
  exists raw w t rest, s = w ++ t ++ rest /\ white w /\ spells 65 78 raw t /\ build branch raw = Some d.
Proof. exact C23_exact_pf. Qed.
Print Assumptions C23_exact.

Theorem C23_normal : forall (s : list N) (d : dd nat), parse_node_string s = Parsed d -> ordered d /\ zero_suppressed d.
Proof. exact C23_normal_pf. Qed.
Print Assumptions C23_normal.

Example C23_example :
  (* " (1 (0 (N) (A))\t(A))x" is accepted, unordered as it is; "(1 (A)" is not *)
  parse_node_string [32;40;49;32;40;48;32;40;78;41;32;40;65;41;41;9;40;65;41;41;120]
    = Parsed (Branch 0%nat (Branch 1%nat (Leaf false) (Leaf true)) (Leaf true)) /\
  parse_node_string [40;49;32;40;65;41] = Rejected.
Proof. exact ParserThm.C23_example. Qed.

(** C64.  Parsing does not preserve the family of an unordered text: the text
    "(1 (N) (0 (A) (A)))" spells {{1},{0,1}}, the parsed diagram is {{0},{0,1}}. *)
(* ParserThm.v defines
   C64_claim : Prop := forall (raw d : dd nat) t, spells 65 78 raw t ->
  parse_node_string t = Parsed d ->
  forall s, In s (paths d) -> exists p, In p (paths raw) /\ same_elems s p. *)

Theorem C64_family_refuted :
  (exists raw t d, spells 65 78 raw t /\ parse_node_string t = Parsed d /\
     paths raw = [[1; 0]; [1]]%nat /\ paths d = [[0; 1]; [0]]%nat) /\ ~ C64_claim.
Proof. exact C64_family_refuted_pf. Qed.
Print Assumptions C64_family_refuted.

Theorem C64_family_partial : forall (raw : dd nat) (t blank_before rest : list N),
  spells 65 78 raw t -> ordered raw -> white blank_before ->
  exists d, parse_node_string (blank_before ++ t ++ rest) = Parsed d /\
    forall s, In s (paths d) <-> In s (paths raw).
Proof. exact C64_family_partial_pf. Qed.
Print Assumptions C64_family_partial.

Theorem C64_repeats_partial : forall (raw : dd nat) (t : list N),
  spells 65 78 raw t -> weakly_ordered raw -> zero_suppressed raw ->
  exists d, parse_node_string t = Parsed d /\
    (forall s, In s (paths d) -> spells_set raw s) /\
    (forall s, spells_set raw s -> exists s', In s' (paths d) /\ same_elems s s').
Proof. exact C64_repeats_partial_pf. Qed.
Print Assumptions C64_repeats_partial.

Example C64_repeats_example :
  (* "(1 (1 (A) (A)) (1 (A) (2 (N) (A))))" spells exactly {} and {1,2} *)
  let raw := Branch 1%nat (Branch 1%nat (Leaf true) (Leaf true)) (Branch 1%nat (Leaf true) (Branch 2%nat (Leaf false) (Leaf true))) in
  weakly_ordered raw /\ zero_suppressed raw /\ spells_set raw [] /\ spells_set raw [1;2]%nat /\ ~ spells_set raw [1]%nat /\
  parse_node_string (print_node [40; 65; 41] [40; 78; 41] raw)
    = Parsed (Branch 1%nat (Leaf true) (Branch 2%nat (Leaf false) (Leaf true))).
Proof. exact ParserThm.C64_repeats_example. Qed.

(** C64, what holds for every text: the parser answers, and the family it
    answers with is the one [parsed_as] describes, which the text determines. *)
Theorem C64_exact_partial : forall (raw : dd nat) (t : list N), spells 65 78 raw t ->
  exists d, parse_node_string t = Parsed d /\ parsed_as raw (fun s => In s (paths d)) /\
    forall es, parsed_as raw es -> forall s, es s <-> In s (paths d).
Proof. exact C64_exact_partial_pf. Qed.
Print Assumptions C64_exact_partial.

Example C64_exact_example :
  (* "(1 (N) (0 (A) (A)))" comes out as {{0},{0,1}}; "(1 (N) (1 (A) (A)))" as {{1}} *)
  parse_node_string (print_node [40; 65; 41] [40; 78; 41] (Branch 1%nat (Leaf false) (Branch 0%nat (Leaf true) (Leaf true))))
    = Parsed (Branch 0%nat (Leaf false) (Branch 1%nat (Leaf true) (Leaf true))) /\
  parsed_as (Branch 1%nat (Leaf false) (Branch 0%nat (Leaf true) (Leaf true))) (fun s => s = [0%nat] \/ s = [0; 1]%nat) /\
  parsed_as (Branch 1%nat (Leaf false) (Branch 1%nat (Leaf true) (Leaf true))) (fun s => s = [1%nat]).
Proof. exact ParserThm.C64_exact_example. Qed.

(** C42.  The zdd texts: every node parses back; the parser answers on every
    string and accepts exactly the strings that start with a spelled node. *)
Theorem C42_node_round_trip : forall n : dd nat, fits n -> zparse_node_string (zbuild_node_string n) = Parsed n.
Proof. exact C42_node_round_trip_pf. Qed.
Print Assumptions C42_node_round_trip.

Theorem C42_exact : forall (s : list N) (d : dd nat),
  zparse_node_string s <> Stuck /\
  (zparse_node_string s = Parsed d <-> exists t rest, s = t ++ rest /\ spells 84 70 d t).
Proof. exact C42_exact_pf. Qed.
Print Assumptions C42_exact.

Example C42_example :
  let n := Branch 3%nat (Branch 3%nat (Leaf true) (Leaf false)) (Branch 0%nat (Leaf false) (Leaf false)) in
  fits n /\ zparse_node_string (zbuild_node_string n) = Parsed n.
Proof. exact ParserThm.C42_example. Qed.

(** C65.  Serializing and deserializing a zdd tree gives back the tree. *)
Theorem C65_tree_round_trip : forall (T : Type) (O : Ord T) (ok : list T -> Prop) (items : list T) (t : ztree T) text its entries,
  ZReach ok (zu_from items) t -> fits (zt_root t) ->
  text = fst (z_serialize t) -> its = fst (snd (z_serialize t)) -> Permutation entries (snd (snd (z_serialize t))) ->
  z_deserialize (text, (its, entries)) = Some t.
Proof. exact C65_tree_round_trip_pf. Qed.
Print Assumptions C65_tree_round_trip.

Example C65_example :
  let t := z_hyper_tree (zu_from [7; 8; 9]%nat) [[7]; [8; 9]]%nat in
  fst (z_serialize t) = [40;48;32;40;49;32;40;70;41;32;40;50;32;40;70;41;32;40;84;41;41;41;32;40;84;41;41] /\
  z_deserialize (fst (z_serialize t), ([7; 8; 9], [(9, 2); (7, 0); (8, 1)])%nat) = Some t.
Proof. exact ParserThm.C65_example. Qed.

(** C66.  Deserialization checks nothing: the text "(5 (N) (A))" with an empty
    map is accepted, and the first union panics (priority 5 has no item). *)
(* ParserThm.v defines
   C66_claim : Prop := forall (T : Type) (O : Ord T) (h : hash_order) d (f g : forest T),
  f_deserialize h d = Some f -> Reach g -> exists r, f_union h f g = Some r. *)

Theorem C66_untrusted_refuted :
  (exists (text : list N) (f : forest nat), f_deserialize ho_id (text, []) = Some f /\
     get_item (f_univ f) 5 = None /\ In 5%nat (labels (f_root f)) /\
     forall h, f_union h f f_empty = None) /\ ~ C66_claim.
Proof. exact C66_untrusted_refuted_pf. Qed.
Print Assumptions C66_untrusted_refuted.

Theorem C66_untrusted_partial : forall (T : Type) (O : Ord T) (h h1 h2 : hash_order) d1 d2 (f g : forest T),
  f_deserialize h1 d1 = Some f -> f_deserialize h2 d2 = Some g -> indexed f -> indexed g ->
  (exists ts, f_trees f = Some ts) /\
  (exists r, f_union h f g = Some r /\ Reach r) /\
  (exists r, f_intersect h f g = Some r /\ Reach r) /\
  (exists r, f_product h f g = Some r /\ Reach r).
Proof. exact C66_untrusted_partial_pf. Qed.
Print Assumptions C66_untrusted_partial.

Theorem C66_exact_partial : forall (T : Type) (O : Ord T) (h h1 h2 : hash_order) d1 d2 (show : T -> list N) (f g : forest T),
  f_deserialize h1 d1 = Some f -> f_deserialize h2 d2 = Some g ->
  ((exists r, f_union h f g = Some r) <-> indexed f /\ indexed g) /\
  ((exists r, f_intersect h f g = Some r) <-> indexed f /\ indexed g) /\
  ((exists r, f_product h f g = Some r) <-> indexed f /\ indexed g) /\
  ((exists s, f_debug show f = Some s) <-> indexed f).
Proof. exact C66_exact_partial_pf. Qed.
Print Assumptions C66_exact_partial.

Theorem C66_filters_partial : forall (T : Type) (O : Ord T) (h h1 : hash_order) d (f : forest T) (e : T) (es : list T),
  f_deserialize h1 d = Some f ->
  exists ts, f_trees f = Some ts /\ f_len f = Some (length ts) /\
  (exists r rs, f_subset h f e = Some r /\ f_trees r = Some rs /\
     forall t, t <> [] -> (In t rs <-> In t ts /\ In e t)) /\
  (exists r rs, f_subset_not h f e = Some r /\ f_trees r = Some rs /\
     forall t, t <> [] -> (In t rs <-> In t ts /\ ~ In e t)) /\
  (exists r rs, f_subset_all h f es = Some r /\ f_trees r = Some rs /\
     forall t, t <> [] -> (In t rs <-> In t ts /\ forall x, In x es -> In x t)) /\
  (exists r rs, f_subset_none h f es = Some r /\ f_trees r = Some rs /\
     forall t, t <> [] -> In t rs -> In t ts).
Proof. exact C66_filters_partial_pf. Qed.
Print Assumptions C66_filters_partial.

Example C66_example : exists f, f_deserialize ho_id ([40;49;32;40;78;41;32;40;65;41;41], [(7, 3); (8, 9)]%nat) = Some f /\
  indexed f /\ f_trees f = Some [[7%nat]].
Proof. exact ParserThm.C66_example. Qed.

(** C67.  Formatting a reachable forest with [{:?}] never panics. *)
Theorem C67_debug_total : forall (T : Type) (O : Ord T) (show : T -> list N) (f : forest T), Reach f ->
  exists s, f_debug show f = Some s.
Proof. exact C67_debug_total_pf. Qed.
Print Assumptions C67_debug_total.

Example C67_example : exists f, f_many ho_id [[1;2];[2;3]]%nat = Some f /\ Reach f /\
  option_map (firstn 15) (f_debug (fun n => decimal (N.of_nat n)) f) = Some [10;80;114;105;111;114;105;116;121;40;48;41;58;32;50].
Proof. exact ParserThm.C67_example. Qed.
