(** RepoPrelude_Zdd2: the names of the zdd2 tests, as functions of the model *)
From Coq Require Import String Ascii List Bool NArith.
From Verif Require Export RepoPrelude.
From Verif Require Import Base DD Zdd2Model ParserModel ArenaModel.
Import ListNotations.
Open Scope string_scope.
Open Scope list_scope.
Open Scope nat_scope.

Notation F := (option (forest string)).
#[global] Instance TEq_forest : TEq (forest string) := f_eqb.
Definition Forest_empty : F := Some f_empty.
Definition Forest_unit (l : list string) : F := f_unit ho_id l.
Definition Forest_many (m : list (list string)) : F := f_many ho_id m.
Definition Forest_unique (l : list string) : F := f_unique ho_id l.
Definition Forest_union (f g : F) : F := let! f := f in let! g := g in f_union ho_id f g.
Definition Forest_intersect (f g : F) : F := let! f := f in let! g := g in f_intersect ho_id f g.
Definition Forest_product (f g : F) : F := let! f := f in let! g := g in f_product ho_id f g.
Definition Forest_subset (f : F) (e : string) : F := let! f := f in f_subset ho_id f e.
Definition Forest_subset_not (f : F) (e : string) : F := let! f := f in f_subset_not ho_id f e.
Definition Forest_subset_all (f : F) (e : list string) : F := let! f := f in f_subset_all ho_id f e.
Definition Forest_subset_none (f : F) (e : list string) : F := let! f := f in f_subset_none ho_id f e.
Definition Forest_occurrences (f : F) : list (string * nat) :=
  PANIC [("PANIC", 0)] (let! f := f in Some (f_occurrences ho_id f)).
Definition m_product := Forest_product.
Definition m_len (f : F) : option nat := let! f := f in f_len f.
Definition m_is_empty (f : F) : option bool := let! f := f in f_is_empty f.
Definition m_trees (f : F) : list (list string) := PANIC [["PANIC"]] (let! f := f in f_trees f).
Notation F_empty := Forest_empty.
Notation F_unit := Forest_unit.
Notation F_many := Forest_many.
Notation F_unique := Forest_unique.

(** nodes *)
Notation N_ := (option (dd nat)).
#[global] Instance TEq_dd : TEq (dd nat) := dd_eqb.
Definition Priority (n : nat) : nat := n.
Definition Node_Never : N_ := Some (Leaf false).
Definition Node_Always : N_ := Some (Leaf true).
Definition Node_NEVER : N_ := Some (Leaf false).
Definition Node_ALWAYS : N_ := Some (Leaf true).
(** the constructor, and the function *)
Definition Node_Branch (p : nat) (l h : N_) : N_ := let! l := l in let! h := h in Some (Branch p l h).
Definition Node_branch (p : nat) (l h : N_) : N_ := let! l := l in let! h := h in branch p l h.
Definition m_into (n : N_) : N_ := n.
(** outcome of the parser; [unwrap] gives the node *)
Definition parse_node_string (s : string) : N_ :=
  match ParserModel.parse_node_string (text_of s) with Parsed n => Some n | _ => None end.
#[global] Instance Tokens_node : Tokens (dd nat) :=
  {| to_tokens n := [Token_NewtypeStruct "Node"; Token_Str (of_text (build_node_string n))];
     round_trip n := match ParserModel.parse_node_string (build_node_string n) with Parsed m => dd_eqb n m | _ => false end |}.

(** universes *)
Notation U := (universe string).
#[global] Instance TEq_universe : TEq U := u_eqb.
Definition Universe_default : U := u_default.
Definition Universe_from_items (l : list string) : U := from_items ho_id site_new l.
Definition Universe_from_matrix (m : list (list string)) : U := from_matrix ho_id site_new m.
Definition Universe_merge (u v : U) : U := u_merge ho_id site_merge u v.
Definition fld_occurrences (u : U) : list (string * nat) := hashmap (u_occ u).
Definition fld_priority (u : U) : list (string * nat) := hashmap (u_prio u).
Definition fld_index (u : U) : list string := u_index u.
Definition m_get_priority (u : U) (x : string) : option nat := get_priority u x.
Definition m_get_item (u : U) (p : nat) : option string := get_item u p.
Definition univ_tokens (u : U) : list token :=
  Token_NewtypeStruct "Universe" :: map_tokens Token_BorrowedStr (u_occ u).
#[global] Instance Tokens_universe : Tokens U :=
  {| to_tokens := univ_tokens; round_trip u := u_eqb u (from_occurrences ho_id site_new (map_collect (u_occ u))) |}.
#[global] Instance Tokens_forest : Tokens (forest string) :=
  {| to_tokens f :=
       [Token_Struct "Forest" 2; Token_Str "root"; Token_NewtypeStruct "Node"; Token_Str (of_text (fst (f_serialize f)));
        Token_Str "universe"; Token_NewtypeStruct "Universe"] ++ map_tokens Token_BorrowedStr (snd (f_serialize f)) ++ [Token_StructEnd];
     round_trip f := match f_deserialize ho_id (f_serialize f) with Some g => f_eqb f g | None => false end |}.

(** [unwrap] *)
Class Unwrap (A B : Type) := m_unwrap : A -> B.
#[global] Instance Unwrap_node : Unwrap N_ N_ := fun n => n.
#[global] Instance Unwrap_nat : Unwrap (option nat) nat := PANIC 999.
#[global] Instance Unwrap_string : Unwrap (option string) string := PANIC "PANIC".

(** the arena; the tests store leaves and branches on leaves *)
Definition leaf_id (b : bool) : nat := if b then 1 else 0.
Definition shallow (n : N_) : gnode nat :=
  match n with
  | Some (Leaf b) => GLeaf b
  | Some (Branch p (Leaf a) (Leaf b)) => GBranch p (leaf_id a) (leaf_id b)
  | _ => GBranch 999 999 999
  end.
Definition deep (g : gnode nat) : N_ :=
  match g with
  | GLeaf b => Some (Leaf b)
  | GBranch p l h => if (Nat.ltb l 2) && (Nat.ltb h 2) then Some (Branch p (Leaf (Nat.eqb l 1)) (Leaf (Nat.eqb h 1))) else None
  end.
Class AsId (A : Type) := as_id : A -> nat.
#[global] Instance AsId_nat : AsId nat := fun n => n.
#[global] Instance AsId_node : AsId N_ := fun n => match n with Some (Leaf b) => leaf_id b | _ => 999 end.
Definition NodeArena_new : arena nat := a_new.
Definition m_add (a : arena nat) (n : N_) : nat * arena nat := let '(a', i) := a_add a (shallow n) in (i, a').
Definition m_get_by_id {A} `{AsId A} (a : arena nat) (i : A) : N_ := let! g := a_get a (as_id i) in deep g.
Definition m_expect (n : N_) : N_ := n.
