(** RepoPrelude_Zdd: the names of the zdd tests, as functions of the model *)
From Coq Require Import String Ascii List Bool NArith.
From Verif Require Export RepoPrelude.
From Verif Require Import Base DD Zdd2Model ZddModel ParserModel ArenaModel.
Import ListNotations.
Open Scope string_scope.
Open Scope list_scope.
Open Scope nat_scope.

Notation U := (zuniverse string).
Notation T := (ztree string).
Definition zu_eqb (u v : U) : bool := teq (zu_items u) (zu_items v) && teq (zu_index u) (zu_index v).
(** derived [==] of Tree *)
#[global] Instance TEq_tree : TEq T := fun t u => dd_eqb (zt_root t) (zt_root u) && zu_eqb (zt_univ t) (zt_univ u).
Definition Universe_from (l : list string) : U := zu_from l.
Definition Universe_default : U := zu_default.
Definition m_empty_tree (u : U) : T := z_empty_tree u.
Definition m_unit_tree (u : U) : T := z_unit_tree u.
Definition m_tree (u : U) (l : list string) : T := z_tree u l.
Definition m_hyper_tree (u : U) (l : list (list string)) : T := z_hyper_tree u l.
Definition m_unique_tree (u : U) (l : list string) : T := z_unique_tree u l.
Definition Tree_union (t u : T) : T := z_union t u.
Definition Tree_intersect (t u : T) : T := z_intersect t u.
Definition Tree_product (t u : T) : T := z_product t u.
(** sets of sets: compared after sorting *)
Definition as_set (l : list (list string)) : list (list string) := btreeset (map btreeset l).
Definition m_combinations (t : T) : list (list string) := as_set (PANIC [["PANIC"]] (z_combinations t)).
Definition m_combinations_recursive (t : T) : list (list string) := as_set (z_combinations_recursive t).
Definition m_combinations_with (t : T) (i e : list string) : list (list string) :=
  as_set (PANIC [["PANIC"]] (z_combinations_with t i e)).
Definition m_restrict (t : T) (i e : list string) : T :=
  PANIC (mkZT (Branch 999 (Leaf true) (Leaf true)) (zu_from ["PANIC"])) (z_restrict t i e).
#[global] Instance TEq_status : TEq (zstatus string) :=
  fun s t => teq (fst (zstatus_code s)) (fst (zstatus_code t)) && teq (snd (zstatus_code s)) (snd (zstatus_code t)).
Notation ItemStatus_Available := ZAvailable.
Notation ItemStatus_Excluded := ZExcluded.
Notation ItemStatus_Selected := ZSelected.
Notation ItemStatus_Required := ZRequired.
Definition m_summarize (t : T) (i e : list string) : list (zstatus string) :=
  PANIC [ZSelected "PANIC"] (z_summarize ho_id t i e).
#[global] Instance TEq_traverse : TEq (dd string) := dd_eqb.
Definition TreeNode_Leaf (b : bool) : dd string := Leaf b.
Definition TreeNode_Branch (x : string) (l h : dd string) : dd string := Branch x l h.
Definition Box_new (t : dd string) : dd string := t.
Definition TreeNode_from (t : T) : dd string := PANIC (Branch "PANIC" (Leaf true) (Leaf true)) (z_traverse t).

(** nodes and parser *)
#[global] Instance TEq_dd : TEq (dd nat) := dd_eqb.
Definition Node_Leaf (b : bool) : dd nat := Leaf b.
Definition Node_FALSE : dd nat := Leaf false.
Definition Node_TRUE : dd nat := Leaf true.
Definition Node_branch (p : nat) (l h : dd nat) : dd nat := zbranch p l h.
Definition Ok (n : dd nat) : option (dd nat) := Some n.
Definition parse_node_string (s : string) : option (dd nat) :=
  match zparse_node_string (text_of s) with Parsed n => Some n | _ => None end.
#[global] Instance Tokens_tree : Tokens T :=
  {| to_tokens t :=
       let '(text, (items, index)) := z_serialize t in
       [Token_Struct "Tree" 2; Token_Str "root"; Token_NewtypeStruct "Node"; Token_Str (of_text text);
        Token_Str "universe"; Token_Struct "Universe" 2; Token_Str "items"; Token_Seq (Some (length items))]
       ++ map Token_BorrowedStr items ++ [Token_SeqEnd; Token_Str "item_index"]
       ++ map_tokens Token_BorrowedStr index ++ [Token_StructEnd; Token_StructEnd];
     round_trip t := match z_deserialize (z_serialize t) with Some t' => teq t t' | None => false end |}.

(** the arena; the tests store leaves and branches on leaves *)
Definition leaf_id (b : bool) : nat := if b then 1 else 0.
Definition shallow (n : dd nat) : gnode nat :=
  match n with
  | Leaf b => GLeaf b
  | Branch p (Leaf a) (Leaf b) => GBranch p (leaf_id a) (leaf_id b)
  | _ => GBranch 999 999 999
  end.
Definition deep (g : gnode nat) : option (dd nat) :=
  match g with
  | GLeaf b => Some (Leaf b)
  | GBranch p l h => if (Nat.ltb l 2) && (Nat.ltb h 2) then Some (Branch p (Leaf (Nat.eqb l 1)) (Leaf (Nat.eqb h 1))) else None
  end.
Class AsId (A : Type) := as_id : A -> nat.
#[global] Instance AsId_nat : AsId nat := fun n => n.
#[global] Instance AsId_node : AsId (dd nat) := fun n => match n with Leaf b => leaf_id b | _ => 999 end.
Definition NodeArena_new : arena nat := a_new.
Definition m_add (a : arena nat) (n : dd nat) : nat * arena nat := let '(a', i) := a_add a (shallow n) in (i, a').
Definition m_get {A} `{AsId A} (a : arena nat) (i : A) : option (dd nat) := let! g := a_get a (as_id i) in deep g.
Definition m_expect (n : option (dd nat)) : dd nat := PANIC (Branch 999 (Leaf true) (Leaf true)) n.
