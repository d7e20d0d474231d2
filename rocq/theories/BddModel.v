(** BddModel: bowtie-core/src, function by function.

    Nodes are diagrams as values ([dd I]); [I] is [Item], [F] is [Family] (both
    are strings with their derived order in the source; here any ordered types).
    [BTreeMap]s are ascending association lists.  Counts are unbounded naturals
    ([u64] in the source, which overflows from 2^64 on).  No proofs in this file. *)
From Coq Require Import List Arith Lia Bool Permutation Sorted.
From Verif Require Import Base DD.
Import ListNotations.

(** an order pulled back along an injection (derived [Ord] of an enum) *)
#[program] Definition Ord_by {A B} `{Ord B} (f : A -> B) (inj : forall x y, f x = f y -> x = y) : Ord A :=
  {| cmp := fun x y => cmp (f x) (f y) |}.
Next Obligation. rewrite cmp_eq. split; [apply inj|congruence]. Qed.
Next Obligation. apply cmp_antisym. Qed.
Next Obligation. eapply cmp_trans; eauto. Qed.

(** ** bdd/node *)
Section Node.
  Context {I : Type} `{Ord I}.
  Notation node := (dd I).

  (** positive_branch / negative_branch, bowtie-core/src/bdd/node/mod.rs L53-59 *)
  Definition positive_branch (id : I) : node := Branch id (Leaf false) (Leaf true).
  Definition negative_branch (id : I) : node := Branch id (Leaf true) (Leaf false).

  (** the last lines of [bitor]/[bitand]/[reduce]/[restrict]: equal children collapse
      (bowtie-core/src/bdd/node/reduce.rs L4-23 and the ends of the functions below) *)
  Definition collapse (id : I) (low high : node) : node :=
    if dd_eqb low high then low else Branch id low high.

  (** BitOr, bowtie-core/src/bdd/node/bit_operations.rs L22-59.  [split_branch] (L9-19) is inlined:
      the node holding [first_id] at its top is replaced by its children, the
      other one is kept on both sides. *)
  Fixpoint bitor (node1 : node) : node -> node :=
    fix bitor1 (node2 : node) : node :=
      match node1, node2 with
      | _, Leaf false => node1
      | Leaf false, _ => node2
      | Leaf v1, Leaf v2 => Leaf (v1 || v2)
      | Branch id low high, Leaf _ => collapse id (bitor low node2) (bitor high node2)
      | Leaf _, Branch id low high => collapse id (bitor1 low) (bitor1 high)
      | Branch id1 low1 high1, Branch id2 low2 high2 =>
          match cmp id1 id2 with
          | Lt => collapse id1 (bitor low1 node2) (bitor high1 node2)
          | Eq => collapse id1 (bitor low1 low2) (bitor high1 high2)
          | Gt => collapse id2 (bitor1 low2) (bitor1 high2)
          end
      end.

  (** BitAnd, bowtie-core/src/bdd/node/bit_operations.rs L61-94 *)
  Fixpoint bitand (node1 : node) : node -> node :=
    fix bitand1 (node2 : node) : node :=
      match node1, node2 with
      | _, Leaf true => node1
      | Leaf true, _ => node2
      | Leaf v1, Leaf v2 => Leaf (v1 && v2)
      | Branch id low high, Leaf _ => collapse id (bitand low node2) (bitand high node2)
      | Leaf _, Branch id low high => collapse id (bitand1 low) (bitand1 high)
      | Branch id1 low1 high1, Branch id2 low2 high2 =>
          match cmp id1 id2 with
          | Lt => collapse id1 (bitand low1 node2) (bitand high1 node2)
          | Eq => collapse id1 (bitand low1 low2) (bitand high1 high2)
          | Gt => collapse id2 (bitand1 low2) (bitand1 high2)
          end
      end.

  (** Not, bowtie-core/src/bdd/node/bit_operations.rs L104-114 *)
  Definition bitnot (n : node) : node :=
    match n with
    | Leaf true => Leaf false
    | Leaf false => Leaf true
    | Branch id low high => Branch id high low
    end.

  (** BitXor, bowtie-core/src/bdd/node/bit_operations.rs L96-102 *)
  Definition bitxor (a b : node) : node := bitor (bitand a (bitnot b)) (bitand (bitnot a) b).

  (** reduce, bowtie-core/src/bdd/node/reduce.rs L4-23 *)
  Fixpoint reduce (n : node) : node :=
    match n with
    | Leaf b => Leaf b
    | Branch id low high => collapse id (reduce low) (reduce high)
    end.

  (** restrict, bowtie-core/src/bdd/node/restrict.rs L5-27 *)
  Fixpoint restrict (n : node) (item : I) (selected : bool) : node :=
    match n with
    | Leaf b => Leaf b
    | Branch id low high =>
        if eqb_ id item then (if negb selected then low else high)
        else collapse id (restrict low item selected) (restrict high item selected)
    end.

  (** [ItemStatus], bowtie-core/src/core.rs L33-38; the derived order is that of the constructors *)
  Inductive status := Excluded (i : I) | Available (i : I) | Selected (i : I).
  Definition status_code (s : status) : nat * I :=
    match s with Excluded i => (0, i) | Available i => (1, i) | Selected i => (2, i) end.
  Lemma status_code_inj s t : status_code s = status_code t -> s = t.
  Proof. destruct s, t; simpl; congruence. Qed.
  #[global] Instance Ord_status : Ord status := Ord_by status_code status_code_inj.
  (** is_excluded L41-47, is_selected L57-63, is L65-71 *)
  Definition is_excluded (s : status) : bool := match s with Excluded _ => true | _ => false end.
  Definition is_selected (s : status) : bool := match s with Selected _ => true | _ => false end.
  Definition status_item (s : status) : I := match s with Excluded i | Available i | Selected i => i end.
  Definition status_is (s : status) (o : I) : bool := eqb_ (status_item s) o.

  (** [BinaryHeap::peek], bowtie-core/src/bdd/node/summarize.rs L33: the greatest element *)
  Fixpoint peek (l : list status) : option status :=
    match l with
    | [] => None
    | x :: l' => match peek l' with
                 | None => Some x
                 | Some y => if leb_ x y then Some y else Some x
                 end
    end.

  (** summarize, bowtie-core/src/bdd/node/summarize.rs L10-38: the loop ... *)
  Fixpoint summarize_loop (fuel : nat) (queue : list node) (nodes : list (I * list status))
    : list (I * list status) :=
    match fuel, queue with
    | S k, n :: queue' =>
        match n with
        | Branch item low high =>
            let st := match high with Leaf false => Excluded item | _ => Available item end in
            summarize_loop k (high :: low :: queue')
              (map_update nodes item (fun o => match o with Some l => st :: l | None => [st] end))
        | Leaf _ => summarize_loop k queue' nodes
        end
    | _, _ => nodes
    end.
  (** ... and the result, L32-36, iterating the HashMap in any order *)
  Definition summarize (h : hash_order) (n : node) : list status :=
    sort (filter_map peek (ho_iter h 0 (map snd (summarize_loop (size n) [n] [])))).

  (** bowtie-core/src/bdd/closet/node_count.rs L10-20, L26-36, L42-52, L58-74 *)
  Fixpoint node_count (n : node) : nat :=
    match n with Leaf _ => 1 | Branch _ lo hi => 1 + node_count lo + node_count hi end.
  Fixpoint leaf_count (n : node) : nat :=
    match n with Leaf _ => 1 | Branch _ lo hi => leaf_count lo + leaf_count hi end.
  Fixpoint outfit_count (n : node) : nat :=
    match n with Leaf b => if b then 1 else 0 | Branch _ lo hi => outfit_count lo + outfit_count hi end.
  Fixpoint depth (n : node) : nat :=
    match n with
    | Leaf _ => 1
    | Branch _ lo hi =>
        match Nat.compare (depth lo) (depth hi) with
        | Lt => 1 + depth hi
        | Eq => 1 + depth lo
        | Gt => 1 + depth lo
        end
    end.

  (** ** Serialization, bowtie-core/src/bdd/node/structure.rs *)
  Inductive structure :=
  | SAvailable (d : nat) (lo hi : structure)
  | SRequired (d : nat) (hi : structure)
  | SExcluded (d : nat) (lo : structure)
  | SOutcome (b : bool).
  Definition is_false (s : structure) : bool := match s with SOutcome false => true | _ => false end.

  (** to_structure, L46-66 *)
  Fixpoint to_structure (n : node) (d : nat) : structure :=
    match n with
    | Leaf b => SOutcome b
    | Branch _ lo hi =>
        let lo' := to_structure lo (S d) in
        let hi' := to_structure hi (S d) in
        if is_false lo' then SRequired d hi'
        else if is_false hi' then SExcluded d lo'
        else SAvailable d lo' hi'
    end.
  (** to_content, L84-94 *)
  Fixpoint to_content (n : node) (content : list (nat * I)) (d : nat) : list (nat * I) :=
    match n with
    | Leaf _ => content
    | Branch id lo hi => to_content hi (to_content lo (map_insert content d id) (S d)) (S d)
    end.
  (** to_node, L102-128; [None] is the panic of [expect] *)
  Fixpoint to_node (s : structure) (content : list (nat * I)) : option node :=
    match s with
    | SOutcome b => Some (Leaf b)
    | SRequired d hi =>
        let! item := map_get content d in
        let! hi' := to_node hi content in Some (Branch item (Leaf false) hi')
    | SExcluded d lo =>
        let! item := map_get content d in
        let! lo' := to_node lo content in Some (Branch item lo' (Leaf false))
    | SAvailable d lo hi =>
        let! item := map_get content d in
        let! lo' := to_node lo content in
        let! hi' := to_node hi content in Some (Branch item lo' hi')
    end.
  (** Serialize / Deserialize for Node, bowtie-core/src/bdd/node/serialize.rs L8-74: the pair of
      fields; the transport of [Structure] and [Content] is serde's (derived). *)
  Definition node_ser (n : node) : structure * list (nat * I) := (to_structure n 0, to_content n [] 0).
  Definition node_de (x : structure * list (nat * I)) : option node := to_node (fst x) (snd x).
End Node.
Arguments status I : clear implicits.

Inductive res (A E : Type) := Ok (a : A) | Err (e : E).
Arguments Ok {A E} a.
Arguments Err {A E} e.

Section Closet.
  Context {I F : Type} `{Ord I} `{Ord F}.

  (** ** Closet, bowtie-core/src/bdd/closet/mod.rs L13-17 *)
  Record closet := mkC { c_index : list (I * F); c_summary : list (status I); c_root : dd I }.
  (** new, L20-29 *)
  Definition closet_new (h : hash_order) (index : list (I * F)) (root : dd I) : closet :=
    mkC index (summarize h root) root.
  (** get_family, L41-43 *)
  Definition get_family (c : closet) (item : I) : option F := map_get (c_index c) item.

  (** ** select_item, bowtie-core/src/bdd/closet/select.rs L10-41 *)
  Inductive select_error := ExcludedItem (i : I) | UnknownItem (i : I).
  Definition select_item (h : hash_order) (c : closet) (item : I) : res closet select_error :=
    match get_family c item with
    | None => Err (UnknownItem item)
    | Some _ =>
        match find (fun s => status_is s item) (filter is_excluded (c_summary c)) with
        | Some _ => Err (ExcludedItem item)
        | None =>
            let root := restrict (c_root c) item true in
            let summary := sort (unique (filter is_selected (c_summary c) ++ [Selected item] ++ summarize h root)) in
            Ok (mkC (c_index c) summary root)
        end
    end.

  (** ** complete_outfit, bowtie-core/src/bdd/closet/complete_outfit.rs *)
  Inductive outfit_error :=
  | UnknownItems (l : list I)
  | IncompatibleSelections (l : list I)
  | MultipleItemsPerFamily (m : list (F * list I)).

  (** find_unknown_items, L59-70 *)
  Definition find_unknown_items (c : closet) (selections : list I) : option (list I) :=
    let unknown := filter (fun i => match get_family c i with None => true | Some _ => false end) selections in
    match unknown with [] => None | _ => Some unknown end.

  (** the [entry(f).or_insert_with(vec![]).push(i)] idiom, bowtie-core/src/bdd/closet/complete_outfit.rs L77 *)
  Definition map_push {K V} `{Ord K} (m : list (K * list V)) (k : K) (v : V) : list (K * list V) :=
    map_update m k (fun o => match o with Some l => l ++ [v] | None => [v] end).

  (** find_duplicate_items, L72-90; the outer [option] is the [unwrap] of L75 *)
  Definition find_duplicate_items (c : closet) (selections : list I) : option (option (list (F * list I))) :=
    let! fams := mapM (fun i => let! f := get_family c i in Some (f, i)) selections in
    let all := fold_left (fun m p => map_push m (fst p) (snd p)) fams [] in
    let duplicates := filter (fun p => 1 <? length (snd p)) all in
    Some (match duplicates with [] => None | _ => Some duplicates end).

  (** L16-19 and L93-94 *)
  Definition restrict_all (root : dd I) (selections : list I) : dd I :=
    fold_left (fun r s => restrict r s true) selections root.

  (** find_conflicting_items, L92-104 *)
  Definition find_conflicting_items (c : closet) (selections : list I) : option (list I) :=
    match restrict_all (c_root c) selections with
    | Leaf false => Some (sort selections)
    | _ => None
    end.

  (** the loop, L22-41 *)
  Fixpoint walk (root : dd I) (items : list I) : list I :=
    match root with
    | Branch id low high =>
        match high with
        | Leaf false => walk low items
        | _ => walk high (items ++ [id])
        end
    | Leaf _ => items
    end.

  (** complete_outfit, L13-42 with validate, L45-57 *)
  Definition complete_outfit (c : closet) (selections : list I) : option (res (list I) outfit_error) :=
    match find_unknown_items c selections with
    | Some items => Some (Err (UnknownItems items))
    | None =>
        let! dup := find_duplicate_items c selections in
        match dup with
        | Some m => Some (Err (MultipleItemsPerFamily m))
        | None =>
            match find_conflicting_items c selections with
            | Some items => Some (Err (IncompatibleSelections items))
            | None => Some (Ok (sort (walk (restrict_all (c_root c) selections) selections)))
            end
        end
    end.

  (** categorize, bowtie-core/src/bdd/closet/categorize.rs L7-17; [unknown] is [Family::new("UNKNOWN")] *)
  Definition categorize (unknown : F) (c : closet) (items : list I) : list (F * list I) :=
    fold_left (fun m i => map_push m (match get_family c i with Some f => f | None => unknown end) i) items [].

  (** derived [==] of closets, field by field (L12) *)
  Definition closet_eqb (c d : closet) : bool :=
    eqb_ (c_index c) (c_index d) && eqb_ (c_summary c) (c_summary d) && dd_eqb (c_root c) (c_root d).

  (** derived Serialize / Deserialize of Closet (L12): the two plain fields are
      transported as they are, the root through its own impls *)
  Definition closet_ser (c : closet) := (c_index c, c_summary c, node_ser (c_root c)).
  Definition closet_de (x : list (I * F) * list (status I) * (structure * list (nat * I))) : option closet :=
    let '(index, summary, s) := x in
    let! root := node_de s in Some (mkC index summary root).

  (** ** ClosetBuilder, bowtie-core/src/bdd/closet_builder/mod.rs L10-15 *)
  Record builder := mkB {
    b_contents : list (F * list I);
    b_index : list (I * F);
    b_excl : list (I * list I);
    b_incl : list (I * list I)
  }.
  (** new, L18-25 *)
  Definition b_new : builder := mkB [] [] [] [].
  (** add_item, L27-36 *)
  Definition add_item (b : builder) (family : F) (item : I) : builder :=
    mkB (map_push (b_contents b) family item)
        (map_update (b_index b) item (fun o => match o with Some f => f | None => family end))
        (b_excl b) (b_incl b).
  (** add_items, L38-41 *)
  Definition add_items (b : builder) (family : F) (items : list I) : builder :=
    fold_left (fun b i => add_item b family i) items b.
  (** add_exclusion_rule(s), L43-54 *)
  Definition add_exclusion_rule (b : builder) (selection exclusion : I) : builder :=
    mkB (b_contents b) (b_index b) (map_push (b_excl b) selection exclusion) (b_incl b).
  Definition add_exclusion_rules (b : builder) (selection : I) (exclusions : list I) : builder :=
    fold_left (fun b i => add_exclusion_rule b selection i) exclusions b.
  (** add_inclusion_rule(s), L56-67 *)
  Definition add_inclusion_rule (b : builder) (selection inclusion : I) : builder :=
    mkB (b_contents b) (b_index b) (b_excl b) (map_push (b_incl b) selection inclusion).
  Definition add_inclusion_rules (b : builder) (selection : I) (inclusions : list I) : builder :=
    fold_left (fun b i => add_inclusion_rule b selection i) inclusions b.

  (** ClosetBuilderError, bowtie-core/src/closet_builder.rs L8-14, without CompoundError, whose
      elements are never compound themselves ([build_error] below) *)
  Inductive violation :=
  | MissingFamily (i : I)
  | ConflictingFamilies (i : I) (fs : list F)
  | InclusionError (f : F) (l : list I)
  | ExclusionError (f : F) (l : list I).
  Definition violation_code (v : violation) : nat * (list I * list F) :=
    match v with
    | MissingFamily i => (0, ([i], []))
    | ConflictingFamilies i fs => (1, ([i], fs))
    | InclusionError f l => (2, (l, [f]))
    | ExclusionError f l => (3, (l, [f]))
    end.
  Lemma violation_code_inj v w : violation_code v = violation_code w -> v = w.
  Proof. destruct v, w; simpl; intros E; inversion E; reflexivity. Qed.
  (** used for [unique] only (bowtie-core/src/closet_builder.rs L30), which compares for equality *)
  #[global] Instance Ord_violation : Ord violation := Ord_by violation_code violation_code_inj.
  (** one violation, or [CompoundError] of several, bowtie-core/src/closet_builder.rs L13, L33-38 *)
  Inductive build_error := Single (v : violation) | CompoundError (l : list violation).

  (** find_conflicting_families, bowtie-core/src/closet_builder.rs L41-60 *)
  Definition find_conflicting_families (contents : list (F * list I)) (index : list (I * F)) : list violation :=
    flat_map (fun p => filter_map (fun item =>
      match map_get index item with
      | None => Some (MissingFamily item)
      | Some f => if negb (eqb_ f (fst p)) then Some (ConflictingFamilies item [f; fst p]) else None
      end) (snd p)) contents.

  (** find_illegal_rules, bowtie-core/src/closet_builder.rs L62-95 *)
  Definition find_illegal_rules (rules : list (I * list I)) (index : list (I * F))
      (rule_error : F -> list I -> violation) : list violation :=
    flat_map (fun p =>
      match map_get index (fst p) with
      | None => [MissingFamily (fst p)]
      | Some sf => filter_map (fun item =>
          match map_get index item with
          | None => Some (MissingFamily item)
          | Some f => if eqb_ sf f then Some (rule_error sf (sort [fst p; item])) else None
          end) (snd p)
      end) rules.

  (** validate_closet, bowtie-core/src/closet_builder.rs L16-39 *)
  Definition conflicts_of (b : builder) : list violation :=
    unique (find_conflicting_families (b_contents b) (b_index b)
            ++ find_illegal_rules (b_excl b) (b_index b) ExclusionError
            ++ find_illegal_rules (b_incl b) (b_index b) InclusionError).
  Definition validate_closet (b : builder) : res unit build_error :=
    match conflicts_of b with
    | [] => Ok tt
    | [v] => Err (Single v)
    | l => Err (CompoundError l)
    end.

  (** sibling_relationship, L94-108 *)
  Definition sibling_relationship (items : list I) : dd I :=
    let all_nodes := fold_left (fun m i => map_insert m i (negative_branch i)) items [] in
    fold_left bitor
      (map (fun item => fold_left (fun r p => bitand r (snd p))
                          (map_insert all_nodes item (positive_branch item)) (Leaf true)) items)
      (Leaf false).
  (** exclusion_relationship L110-112, inclusion_relationship L114-116 *)
  Definition exclusion_relationship (selection exclusion : I) : dd I :=
    bitor (negative_branch selection) (negative_branch exclusion).
  Definition inclusion_relationship (selection inclusion : I) : dd I :=
    bitor (negative_branch selection) (positive_branch inclusion).

  (** the [flat_map]s of L81 and L86 *)
  Definition rule_pairs (rules : list (I * list I)) : list (I * I) :=
    flat_map (fun p => map (fun x => (fst p, x)) (snd p)) rules.

  (** build, L73-92 *)
  Definition build_root (b : builder) : dd I :=
    let root := fold_left (fun r p => bitand r (sibling_relationship (snd p))) (b_contents b) (Leaf true) in
    let root := fold_left (fun r p => bitand r (exclusion_relationship (fst p) (snd p))) (rule_pairs (b_excl b)) root in
    fold_left (fun r p => bitand r (inclusion_relationship (fst p) (snd p))) (rule_pairs (b_incl b)) root.
  Definition build (h : hash_order) (b : builder) : res closet build_error :=
    match validate_closet b with
    | Err e => Err e
    | Ok _ => Ok (closet_new h (b_index b) (build_root b))
    end.
End Closet.
Arguments closet I F : clear implicits.
Arguments builder I F : clear implicits.
Arguments violation I F : clear implicits.
Arguments build_error I F : clear implicits.
Arguments outfit_error I F : clear implicits.
Arguments select_error I : clear implicits.
