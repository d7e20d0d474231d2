(** RepoPrelude_Bdd: the names of the bowtie-core tests, as functions of the model *)
From Coq Require Import String Ascii List Bool NArith.
From Verif Require Export RepoPrelude.
From Verif Require Import Base DD Zdd2Model ArenaModel BddModel HashModel.
Import ListNotations.
Open Scope string_scope.
Open Scope list_scope.

Definition Item_new (s : string) : string := s.
Definition Family_new (s : string) : string := s.
Notation node := (dd string).
#[global] Instance TEq_node : TEq node := dd_eqb.
Definition Node_TRUE_LEAF : node := Leaf true.
Definition Node_FALSE_LEAF : node := Leaf false.
Definition Node_branch (i : string) (l h : node) : node := Branch i l h.
Definition Node_positive_branch (i : string) : node := positive_branch i.
Definition Node_negative_branch (i : string) : node := negative_branch i.
Definition op_and (a b : node) : node := bitand a b.
Definition op_or (a b : node) : node := bitor a b.
Definition op_xor (a b : node) : node := bitxor a b.
Definition op_not (a : node) : node := bitnot a.
Definition Node_reduce (n : node) : node := reduce n.
Definition Node_restrict (n : node) (i : string) (b : bool) : node := restrict n i b.

(** statuses *)
Notation status_ := (status string).
#[global] Instance TEq_status : TEq status_ :=
  fun s t => teq (fst (status_code s)) (fst (status_code t)) && teq (snd (status_code s)) (snd (status_code t)).
Definition ItemStatus_Excluded (i : string) : status_ := Excluded i.
Definition ItemStatus_Available (i : string) : status_ := Available i.
Definition ItemStatus_Selected (i : string) : status_ := Selected i.
Definition Node_summarize (n : node) : list status_ := summarize ho_id n.

(** structures *)
Fixpoint structure_eqb (s t : structure) : bool :=
  match s, t with
  | SOutcome a, SOutcome b => Bool.eqb a b
  | SRequired d s1, SRequired e t1 | SExcluded d s1, SExcluded e t1 => Nat.eqb d e && structure_eqb s1 t1
  | SAvailable d s1 s2, SAvailable e t1 t2 => Nat.eqb d e && structure_eqb s1 t1 && structure_eqb s2 t2
  | _, _ => false
  end.
#[global] Instance TEq_structure : TEq structure := structure_eqb.
Definition Structure_from (n : node) : structure := to_structure n 0.
Definition Structure_Outcome (b : bool) : structure := SOutcome b.
Definition Structure_available (d : nat) (l h : structure) : structure := SAvailable d l h.
Definition Structure_required (d : nat) (h : structure) : structure := SRequired d h.
Definition Structure_excluded (d : nat) (l : structure) : structure := SExcluded d l.
Fixpoint structure_tokens (s : structure) : list token :=
  match s with
  | SOutcome b => [Token_NewtypeVariant "Structure" "Outcome"; Token_Bool b]
  | SRequired d h => [Token_TupleVariant "Structure" "Required" 2; Token_U64 d] ++ structure_tokens h ++ [Token_TupleVariantEnd]
  | SExcluded d l => [Token_TupleVariant "Structure" "Excluded" 2; Token_U64 d] ++ structure_tokens l ++ [Token_TupleVariantEnd]
  | SAvailable d l h =>
      [Token_TupleVariant "Structure" "Available" 3; Token_U64 d] ++ structure_tokens l ++ structure_tokens h ++ [Token_TupleVariantEnd]
  end.
#[global] Instance Tokens_node : Tokens node :=
  {| to_tokens n :=
       let '(s, c) := node_ser n in
       [Token_Struct "Node" 2; Token_Str "structure"] ++ structure_tokens s
       ++ [Token_Str "content"; Token_Map (Some (length c))]
       ++ flat_map (fun p => [Token_U64 (fst p); Token_NewtypeStruct "Item"; Token_Str (snd p)]) c
       ++ [Token_MapEnd; Token_StructEnd];
     round_trip n := match node_de (node_ser n) with Some m => dd_eqb n m | None => false end |}.

(** hash_structure, with an arbitrary hash function in place of SipHash; [hash] and [hash_two] are
    the helpers of the tests (bowtie-core/src/bdd/node/hash_structure.rs L112-126): the derived
    Hash of a leaf, and of two strings *)
Definition finish_ (l : list N) : N := fold_left (fun a b => (a * 1099511628211 + b + 1) mod 18446744073709551616)%N l 14695981039346656037%N.
Definition hash (n : node) : list N :=
  match n with Leaf v => hex (finish_ (leaf_bytes v)) | Branch _ _ _ => [] end.
Definition hash_two (a b : list N) : list N := hex (finish_ (string_bytes a ++ string_bytes b)).
Definition Node_hash_structure (n : node) : list N := hash_structure finish_ n.

(** builder and closet *)
Notation B := (@builder string string).
Notation C := (@closet string string).
Definition ClosetBuilder_new : B := b_new.
Definition m_add_item (b : B) (f i : string) : B := add_item b f i.
Definition m_add_items (b : B) (f : string) (l : list string) : B := add_items b f l.
Definition m_add_exclusion_rule (b : B) (i j : string) : B := add_exclusion_rule b i j.
Definition m_add_inclusion_rule (b : B) (i j : string) : B := add_inclusion_rule b i j.
Definition m_build (b : B) := build ho_id b.
Definition panic_closet : C := mkC [] [Selected "PANIC"] (Branch "PANIC" (Leaf true) (Leaf true)).
(** [must_build], bowtie-core/src/bdd/closet_builder/mod.rs: [build] unwrapped *)
Definition m_must_build (b : B) : C := match build ho_id b with Ok c => c | Err _ => panic_closet end.
Definition m_select_item (c : C) (i : string) : res C (select_error string) := select_item ho_id c i.
Definition m_unwrap (r : res C (select_error string)) : C := match r with Ok c => c | Err _ => panic_closet end.
Definition m_root (c : C) : node := c_root c.
Definition m_summary (c : C) : list status_ := c_summary c.
Definition m_node_count (c : C) : nat := node_count (c_root c).
Definition m_leaf_count (c : C) : nat := leaf_count (c_root c).
Definition m_outfit_count (c : C) : nat := outfit_count (c_root c).
Definition m_depth (c : C) : nat := depth (c_root c).
Definition m_categorize (c : C) (l : list string) : list (string * list string) := hashmap (categorize "UNKNOWN" c l).
Definition HashMap_new {V} : list (string * V) := [].
Definition BTreeMap_new {V} : list (string * V) := [].
Definition m_insert {V} (m : list (string * V)) (k : string) (v : V) := map_insert m k v.
Definition m_entry {V} (m : list (string * V)) (k : string) := (m, k).
Definition m_or_insert {V} (e : list (string * V) * string) (v : V) : list (string * V) :=
  let (m, k) := e in match map_get m k with Some _ => m | None => map_insert m k v end.

(** results *)
Notation Ok := BddModel.Ok.
Notation Err := BddModel.Err.
Notation UnknownItems := BddModel.UnknownItems.
Notation IncompatibleSelections := BddModel.IncompatibleSelections.
Notation MultipleItemsPerFamily := BddModel.MultipleItemsPerFamily.
#[global] Instance TEq_res A E `{TEq A} `{TEq E} : TEq (res A E) :=
  fun r s => match r, s with Ok a, Ok b => teq a b | Err a, Err b => teq a b | _, _ => false end.
#[global] Instance TEq_closet : TEq C := closet_eqb.
#[global] Instance TEq_select_error : TEq (select_error string) :=
  fun a b => match a, b with
             | ExcludedItem x, ExcludedItem y | UnknownItem x, UnknownItem y => teq (A := string) x y
             | _, _ => false
             end.
Definition SelectItemError_UnknownItem (i : string) : select_error string := UnknownItem i.
Definition SelectItemError_ExcludedItem (i : string) : select_error string := ExcludedItem i.
#[global] Instance TEq_outfit_error : TEq (outfit_error string string) :=
  fun a b => match a, b with
             | UnknownItems x, UnknownItems y | IncompatibleSelections x, IncompatibleSelections y => teq x y
             | MultipleItemsPerFamily x, MultipleItemsPerFamily y => teq x y
             | _, _ => false
             end.
(** [Outfit::new(items)], bowtie-core/src/core.rs L80-82 *)
Definition Outfit_new (l : list string) : list string := l.
Definition m_complete_outfit (c : C) (l : list string) : res (list string) (outfit_error string string) :=
  match complete_outfit c l with Some r => r | None => Ok ["PANIC"] end.
Definition expect_err_ (r : res C (build_error string string)) : build_error string string :=
  match r with Err e => e | Ok _ => CompoundError [MissingFamily "PANIC"] end.
#[global] Instance TEq_build_error : TEq (build_error string string) :=
  fun a b => match a, b with
             | Single x, Single y => eqb_ x y
             | CompoundError x, CompoundError y => eqb_ x y
             | _, _ => false
             end.
Definition ClosetBuilderError_MissingFamily (i : string) : build_error string string := Single (MissingFamily i).
Definition ClosetBuilderError_ConflictingFamilies (i : string) (l : list string) : build_error string string := Single (ConflictingFamilies i l).
Definition ClosetBuilderError_InclusionError (f : string) (l : list string) : build_error string string := Single (InclusionError f l).
Definition ClosetBuilderError_ExclusionError (f : string) (l : list string) : build_error string string := Single (ExclusionError f l).
Definition m_expect_err := expect_err_.

(** the arena; the tests store the two leaves *)
Definition Arena_new : arena string := a_new.
Definition m_add (a : arena string) (n : node) : nat * arena string :=
  let '(a', i) := a_add a (match n with Leaf b => GLeaf b | _ => GBranch "PANIC" 7 7 end) in (i, a').
Definition m_get (a : arena string) (i : nat) : option node :=
  let! g := a_get a i in match g with GLeaf b => Some (Leaf b) | GBranch _ _ _ => None end.
Class Expect (A B : Type) := m_expect : A -> B.
#[global] Instance Expect_closet : Expect (res C (select_error string)) C := m_unwrap.
#[global] Instance Expect_node : Expect (option node) node := PANIC (Branch "PANIC" (Leaf true) (Leaf true)).
