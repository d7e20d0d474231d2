(** Properties_BddLaws.v: laws that relate several closets, and the 64-bit counters
    Generated by tools/gen_props.py from BddLawsThm.v: the property theorems, each followed by
    instances that meet its hypotheses (examples). *)
From Coq Require Import List Arith Lia Bool Permutation Sorted NArith.
From Verif Require Import Base DD Spec BddSpec BddModel BddRun BddNode BddCloset BddThm BddCount64.
Import ListNotations.
From Verif Require Import BddLawsThm.

(** C74.  Histories of builder calls that say the same - in any order, with any
    repetitions, rule by rule or in bulk, exclusions written either way round -
    are accepted alike and build equal closets, also after equal selections. *)
Theorem C74_history_irrelevant : forall (I F : Type) (OI : Ord I) (OF : Ord F) (calls1 calls2 : list (bcall I F)),
  same_wardrobe calls1 calls2 ->
  (forall h1 h2, (exists c, build h1 (run_calls calls1) = Ok c) <-> (exists c, build h2 (run_calls calls2) = Ok c)) /\
  (forall sels1 sels2 c1 c2, reached calls1 sels1 c1 -> reached calls2 sels2 c2 -> same_elems sels1 sels2 -> c1 = c2).
Proof. exact C74_history_irrelevant_pf. Qed.
Print Assumptions C74_history_irrelevant.

Example C74_example : same_wardrobe ex_calls ex_calls_shuffled /\ ex_calls <> ex_calls_shuffled /\
  exists c, build ho_id (run_calls ex_calls) = Ok c /\ build ho_rev (run_calls ex_calls_shuffled) = Ok c.
Proof. exact BddLawsThm.C74_example. Qed.

(** C75.  Every outfit picks exactly one item of each family: the counts after
    selecting each item of a family (0 for a refused one) add up to the count. *)
Theorem C75_family_sum : forall (I F : Type) (OI : Ord I) (OF : Ord F) (calls : list (bcall I F)) sels c h f i0 (items : list I),
  reached calls sels c -> In (f, i0) (adds calls) -> NoDup items -> (forall i, In i items <-> In (f, i) (adds calls)) ->
  outfit_count (c_root c) =
  list_sum (map (fun i => match select_item h c i with Ok c' => outfit_count (c_root c') | Err _ => 0 end) items).
Proof. exact C75_family_sum_pf. Qed.
Print Assumptions C75_family_sum.

Example C75_example : exists c, reached ex_calls [] c /\ outfit_count (c_root c) = 6 /\
  map (fun i => match select_item ho_rev c i with Ok c' => outfit_count (c_root c') | Err _ => 0 end) [11; 12; 13] = [2; 1; 3].
Proof. exact BddLawsThm.C75_example. Qed.

(** C76.  More rules, fewer outfits. *)
Theorem C76_rules_monotone : forall (I F : Type) (OI : Ord I) (OF : Ord F) (calls1 calls2 : list (bcall I F)) sels1 sels2 c1 c2,
  reached calls1 sels1 c1 -> reached calls2 sels2 c2 -> same_elems (adds calls1) (adds calls2) ->
  incl (excls calls1) (excls calls2) -> incl (incls calls1) (incls calls2) -> incl sels1 sels2 ->
  (forall o, admits c2 o -> admits c1 o) /\ outfit_count (c_root c2) <= outfit_count (c_root c1).
Proof. exact C76_rules_monotone_pf. Qed.
Print Assumptions C76_rules_monotone.

(** Wardrobes without a common family or item are independent: the outfits
    multiply, also after selections in each. *)
Theorem C76_independent : forall (I F : Type) (OI : Ord I) (OF : Ord F) (a b : list (bcall I F)) sa sb s ca cb c,
  (forall f g i j, In (f, i) (adds a) -> In (g, j) (adds b) -> f <> g /\ i <> j) ->
  reached a sa ca -> reached b sb cb -> reached (a ++ b) s c -> same_elems s (sa ++ sb) ->
  outfit_count (c_root c) = outfit_count (c_root ca) * outfit_count (c_root cb).
Proof. exact C76_independent_pf. Qed.
Print Assumptions C76_independent.

(** Without rules, the number of outfits is the product of the family sizes. *)
Theorem C76_rule_free : forall (I F : Type) (OI : Ord I) (OF : Ord F) (calls : list (bcall I F)) c (fams : list (F * list I)),
  reached calls [] c -> excls calls = [] -> incls calls = [] ->
  NoDup (map fst fams) -> (forall f l, In (f, l) fams -> NoDup l /\ l <> []) ->
  (forall f i, In (f, i) (adds calls) <-> exists l, In (f, l) fams /\ In i l) ->
  outfit_count (c_root c) = fold_right Nat.mul 1 (map (fun p => length (snd p)) fams).
Proof. exact C76_rule_free_pf. Qed.
Print Assumptions C76_rule_free.

(** two families of three: 9 outfits; two rules leave 6; a third family of two items doubles both *)
Example C76_example : exists c c2 cb c3,
  reached ([AddItems 1 [11; 12; 13]; AddItems 2 [21; 22; 23]] : list (bcall nat nat)) [] c /\ outfit_count (c_root c) = 9 /\
  reached ex_calls [] c2 /\ outfit_count (c_root c2) = 6 /\
  reached ([AddItems 3 [31; 32]] : list (bcall nat nat)) [] cb /\ outfit_count (c_root cb) = 2 /\
  reached (ex_calls ++ [AddItems 3 [31; 32]]) [] c3 /\ outfit_count (c_root c3) = 12.
Proof. exact BddLawsThm.C76_example. Qed.

Theorem C77_counters64 : forall (I : Type) (root : dd I),
  let exact_or_panic (counted : option N) (n : nat) :=
    (forall k, counted = Some k <-> k = N.of_nat n /\ (N.of_nat n < 2 ^ 64)%N) /\ (counted = None <-> (2 ^ 64 <= N.of_nat n)%N) in
  exact_or_panic (node_count64 checked root) (node_count root) /\
  exact_or_panic (leaf_count64 checked root) (leaf_count root) /\
  exact_or_panic (outfit_count64 checked root) (outfit_count root) /\
  exact_or_panic (depth64 checked root) (depth root) /\
  node_count64 wrapping root = Some (N.of_nat (node_count root) mod 2 ^ 64)%N /\
  leaf_count64 wrapping root = Some (N.of_nat (leaf_count root) mod 2 ^ 64)%N /\
  outfit_count64 wrapping root = Some (N.of_nat (outfit_count root) mod 2 ^ 64)%N /\
  ((N.of_nat (depth root) < 2 ^ 64)%N -> depth64 wrapping root = Some (N.of_nat (depth root))).
Proof. exact C77_counters64_pf. Qed.
Print Assumptions C77_counters64.

(** For a closet: the outfits counted in 64 bits. *)
Theorem C77_outfits64 : forall (I F : Type) (OI : Ord I) (OF : Ord F) (calls : list (bcall I F)) sels c,
  reached calls sels c ->
  exists outfits, NoDup outfits /\
    (forall o, In o outfits <-> ssorted o /\ valid_outfit calls o /\ incl sels o) /\
    (forall k, outfit_count64 checked (c_root c) = Some k -> k = N.of_nat (length outfits)) /\
    (outfit_count64 checked (c_root c) = None <-> (2 ^ 64 <= N.of_nat (length outfits))%N).
Proof. exact C77_outfits64_pf. Qed.
Print Assumptions C77_outfits64.

(** a closet whose counts fit, and the two additions where one does not *)
Example C77_example : (exists c, reached ex_calls [] c /\ outfit_count64 checked (c_root c) = Some 6%N /\
    node_count64 checked (c_root c) = Some 39%N /\ depth64 checked (c_root c) = Some 7%N) /\
  checked (2 ^ 63) (2 ^ 63) = None /\ wrapping (2 ^ 63) (2 ^ 63 + 5) = Some 5%N /\ checked (2 ^ 63) (2 ^ 63 - 1) = Some (2 ^ 64 - 1)%N.
Proof. exact BddLawsThm.C77_example. Qed.
