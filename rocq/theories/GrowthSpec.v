(** GrowthSpec: how much a call may add to the shared node store.
    [dag_size t] is the number of different nodes of a diagram (a leaf counts as
    one).  The cost of a call is stated on values only: a binary operation costs
    one node per pair of nodes of its operands, a one-place operation one node
    per node of its operand, and a call that folds an operation the sum of the
    operations it folds.  Calls that only read cost nothing.  No proofs here. *)
From Coq Require Import List Arith NArith Lia Bool.
From Verif Require Import Base DD Spec Zdd2Model ZddModel ParserModel BddSpec BddModel BddRun ArenaModel PoolModel ZddProg BddProg.
Import ListNotations.
Open Scope nat_scope.

(** [sub x t]: [x] is [t] or a diagram below it *)
Inductive sub {L} : dd L -> dd L -> Prop :=
| sub_refl t : sub t t
| sub_low x l lo hi : sub x lo -> sub x (Branch l lo hi)
| sub_high x l lo hi : sub x hi -> sub x (Branch l lo hi).

Section Size.
  Context {L : Type} `{Ord L}.
  (** the diagrams at and below [t], each once *)
  Definition add_new (x : dd L) (l : list (dd L)) : list (dd L) := if existsb (dd_eqb x) l then l else x :: l.
  Fixpoint all_subs (t : dd L) : list (dd L) :=
    match t with
    | Leaf _ => [t]
    | Branch _ lo hi => add_new t (fold_right add_new (all_subs hi) (all_subs lo))
    end.
  Definition dag_size (t : dd L) : nat := length (all_subs t).
End Size.

(** the cost of a left fold *)
Fixpoint fold_cost {A B} (step : B -> A -> B) (cost : B -> A -> nat) (l : list A) (b : B) : nat :=
  match l with
  | [] => 0
  | x :: l' => cost b x + fold_cost step cost l' (step b x)
  end.
(** the cost of a script: that of each call on the values it is made on *)
Fixpoint script_cost {V C B} (call : list V -> C -> option (list V * B)) (cost : list V -> C -> nat) (cs : list C) (vs : list V) : nat :=
  match cs with
  | [] => 0
  | c :: cs' => cost vs c + match call vs c with Some y => script_cost call cost cs' (fst y) | None => 0 end
  end.

(** ** weave/src/zdd *)
Section Zdd.
  Context {T : Type} `{Ord T}.
  (** [union], [intersect], [product] *)
  Definition z_op_cost (t o : ztree T) : nat := dag_size (zt_root t) * dag_size (zt_root o).
  (** [tree]: a node for each item of the combination *)
  Definition z_hyper_cost (u : zuniverse T) (cs : list (list T)) : nat :=
    fold_cost (fun root c => z_union root (z_tree u c)) (fun root c => length c + z_op_cost root (z_tree u c)) cs (z_empty_tree u).
  Definition z_cost (ts : list (ztree T)) (c : zcall T) : nat :=
    match c with
    | ZCTree _ c => length c
    | ZCUnique items xs => z_hyper_cost (zu_from items) (map (fun x => [x]) xs)
    | ZCHyper items cs => z_hyper_cost (zu_from items) cs
    | ZCUnion i j | ZCIntersect i j | ZCProduct i j => z_op_cost (zreg ts i) (zreg ts j)
    | ZCRestrict i inc exc =>
        match z_combinations_with (zreg ts i) inc exc with
        | Some cs => z_hyper_cost (zt_univ (zreg ts i)) cs
        | None => 0
        end
    | ZCDeserialize d => length (as_bytes (fst d))
    | _ => 0
    end.
End Zdd.

(** ** bowtie-core/src/bdd *)
Section Bowtie.
  Context {I F : Type} `{Ord I} `{Ord F}.
  Definition and_cost (r n : dd I) : nat := dag_size r * dag_size n.
  Definition or_cost := and_cost.
  Definition xor_cost (a b : dd I) : nat :=
    and_cost a (bitnot b) + and_cost (bitnot a) b + or_cost (bitand a (bitnot b)) (bitand (bitnot a) b).
  (** one item of a family worn, the others not *)
  Definition one_of (items : list I) (item : I) : list (I * dd I) :=
    map_insert (fold_left (fun m i => map_insert m i (negative_branch i)) items []) item (positive_branch item).
  Definition and_all (l : list (I * dd I)) : dd I := fold_left (fun r p => bitand r (snd p)) l (Leaf true).
  Definition and_all_cost (l : list (I * dd I)) : nat :=
    fold_cost (fun r p => bitand r (snd p)) (fun r p => and_cost r (snd p)) l (Leaf true).
  Definition sibling_cost (items : list I) : nat :=
    fold_cost (fun other item => bitor other (and_all (one_of items item)))
      (fun other item => and_all_cost (one_of items item) + or_cost other (and_all (one_of items item))) items (Leaf false).
  Definition exclusion_cost (s x : I) : nat := or_cost (negative_branch s) (negative_branch x).
  Definition inclusion_cost (s x : I) : nat := or_cost (negative_branch s) (positive_branch x).
  (** conjoin the rules one after another *)
  Definition rules_cost {A} (rule : A -> dd I) (cost : A -> nat) (l : list A) (r : dd I) : nat :=
    fold_cost (fun r x => bitand r (rule x)) (fun r x => cost x + and_cost r (rule x)) l r.
  Definition build_cost (b : builder I F) : nat :=
    let r1 := fold_left (fun r p => bitand r (sibling_relationship (snd p))) (b_contents b) (Leaf true) in
    let r2 := fold_left (fun r p => bitand r (exclusion_relationship (fst p) (snd p))) (rule_pairs (b_excl b)) r1 in
    rules_cost (fun p => sibling_relationship (snd p)) (fun p => sibling_cost (snd p)) (b_contents b) (Leaf true)
    + rules_cost (fun p => exclusion_relationship (fst p) (snd p)) (fun p => exclusion_cost (fst p) (snd p)) (rule_pairs (b_excl b)) r1
    + rules_cost (fun p => inclusion_relationship (fst p) (snd p)) (fun p => inclusion_cost (fst p) (snd p)) (rule_pairs (b_incl b)) r2.
  (** restricting by one item after another *)
  Definition outfit_cost (root : dd I) (selections : list I) : nat :=
    fold_cost (fun r s => restrict r s true) (fun r _ => dag_size r) selections root.
  Fixpoint structure_size (s : structure) : nat :=
    match s with
    | SOutcome _ => 1
    | SRequired _ x | SExcluded _ x => S (structure_size x)
    | SAvailable _ x y => S (structure_size x + structure_size y)
    end.
  Definition b_cost (vs : list (bval I F)) (c : bdcall I F) : nat :=
    let node i := val_node (breg vs i) in
    let clo i := val_clo (breg vs i) in
    match c with
    | BDBuild _ calls => match validate_closet (run_calls calls) with Ok _ => build_cost (run_calls calls) | Err _ => 0 end
    | BDSelect _ i _ => dag_size (c_root (clo i))
    | BDOutfit i selections => outfit_cost (c_root (clo i)) selections
    | BDDeserialize d => structure_size (fst (snd d))
    | BDBranch _ _ _ => 2
    | BDOp BAnd i j => and_cost (node i) (node j)
    | BDOp BOr i j => or_cost (node i) (node j)
    | BDOp BXor i j => xor_cost (node i) (node j)
    | BDReduce i => dag_size (node i)
    | BDRestrict i _ _ => dag_size (node i)
    | _ => 0
    end.
End Bowtie.
