(** Properties_StackB.v: C103, the depth of the recursion of bowtie
    Generated by tools/gen_props.py from StackBThm.v: the property theorems, each followed by
    instances that meet its hypotheses (examples). *)
From Coq Require Import List Arith Lia Bool.
From Verif Require Import Base DD Spec BddSpec BddModel BddRun ArenaModel ArenaProofs PoolModel PoolProofs BddProg BddProgProofs BddNode Conc2Thm.
From Verif Require Import Growth2Spec StackModel StackThm StackZModel StackBModel StackB.
Import ListNotations.
From Verif Require Import StackBThm.

(** C103.  The program of StackBModel.v is the one of BddProg.v, with the nesting and the rounds of the loops
    counted apart (the fuel of [to_node], which BddProg.v runs on the structure itself, must cover its branches). *)
Theorem C103_is_the_program : forall (I F : Type) (OI : Ord I) (OF : Ord F) (fuel : nat) (ms : list (mval I F)) (c : bdcall I F),
  (forall d, c = BDDeserialize d -> S (nesting (fst (snd d))) <= fuel) -> bs_call fuel fuel ms c = m_bcall fuel ms c.
Proof. exact C103_is_the_program_pf. Qed.
Print Assumptions C103_is_the_program.

(** C103.  In any state a run of any number of threads can reach, an API call on any closets and diagrams (built,
    combined or received, in order or not) needs no more nested calls of a recursive function than [bcall_depth]: for
    building a closet one more than the different items added; for selecting, outfits, counts, serialize, reduce and
    restrict one more than the levels of the diagram; for and / or one more than the levels of both, for xor one more
    than twice that; for deserialize one more than the nested branches of the data: whatever the number of nodes, of
    families and of rules, and whatever the other threads store while it runs.  It does not panic, and when it returns
    it has the result of the call run alone. *)
Theorem C103_depth : forall (I F : Type) (OI : Ord I) (OF : Ord F) (p : bpool I F) (ms : list (mval I F)) (vs : list (bval I F)) (c : bdcall I F),
  breach p -> Forall2 (bholds p) ms vs ->
  forall depth, bcall_depth vs c <= depth ->
  exists rounds, forall loops, rounds <= loops -> forall a q,
    runs (gp_arena p) (bs_call depth loops ms c) a q ->
    q <> OutOfFuel /\ q <> Panic /\
    (forall x, q = Ret x -> exists y, b_vcall vs c = Some y /\ snd x = snd y /\
       forall p', breach p' -> gp_arena p' = a -> Forall2 (bholds p') (fst x) (fst y)).
Proof. exact C103_depth_pf. Qed.
Print Assumptions C103_depth.

(** C103.  If the diagrams of the call are in the order of the items and only have items of a list, one nested call
    for every different item of the list, and one, are enough. *)
Theorem C103_items : forall (I F : Type) (OI : Ord I) (OF : Ord F) (p : bpool I F) (ms : list (mval I F)) (vs : list (bval I F)) (items : list I) (c : bdcall I F),
  breach p -> Forall2 (bholds p) ms vs -> bplain items vs c ->
  forall depth, S (length (once items)) <= depth ->
  exists rounds, forall loops, rounds <= loops -> forall a q,
    runs (gp_arena p) (bs_call depth loops ms c) a q -> q <> OutOfFuel /\ q <> Panic.
Proof. exact C103_items_pf. Qed.
Print Assumptions C103_items.

(** C103.  A closet that a builder built, with any selections made on it after, has such a diagram; it has at most one
    level for every different item added, and [depth] shows one more than its levels. *)
Theorem C103_levels : forall (I F : Type) (OI : Ord I) (OF : Ord F) (calls : list (bcall I F)) (sels : list I) (c : closet I F),
  reached calls sels c ->
  over (map snd (adds calls)) (c_root c) /\ height (c_root c) <= length (once (map snd (adds calls))) /\
  depth (c_root c) = S (height (c_root c)).
Proof. exact C103_levels_pf. Qed.
Print Assumptions C103_levels.

(** the conjunction of two diagrams over four items and the counts of a closet of four items: allowed five nested calls
    (one for every item, and one) they return, allowed four they do not; building that closet, likewise *)
Example C103_example : exists (p : bpool nat nat) ms vs, breach p /\ Forall2 (bholds p) ms vs /\
  bplain [3; 4; 5; 7] vs (BDOp BAnd 4 7) /\ bplain [10; 11; 20; 21] vs (BDCounts 0) /\
  (forall c, In c [BDOp BAnd 4 7; BDOp BXor 4 7; BDCounts 0; BDBuild ho_id stb_calls] ->
     (exists a x, runs (gp_arena p) (bs_call 5 40 ms c) a (Ret x)) /\
     (exists a, runs (gp_arena p) (bs_call 4 40 ms c) a OutOfFuel)) /\
  map (bcall_depth vs) [BDOp BAnd 4 7; BDOp BXor 4 7; BDCounts 0; BDBuild ho_id stb_calls; BDSelect ho_id 0 11; BDReduce 7;
    BDDeserialize ([], [], (SAvailable 0 (SOutcome true) (SRequired 1 (SOutcome true)), []))] = [5; 9; 5; 5; 5; 3; 3].
Proof. exact StackBThm.C103_example. Qed.
