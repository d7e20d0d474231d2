(** RepoPrelude_Matrix: the names of the matrix tests, as functions of the model *)
From Coq Require Import String Ascii List Bool NArith.
From Verif Require Export RepoPrelude.
From Verif Require Import Base DD Zdd2Model MatrixModel.
Import ListNotations.

Notation F := (mforest string).
#[global] Instance TEq_forest : TEq F := m_eqb.
Definition Forest_empty : F := m_empty.
Definition Forest_unit (l : list string) : F := m_unit l.
Definition Forest_many (m : list (list string)) : F := m_many m.
Definition Forest_unique (l : list string) : F := m_unique l.
Definition Forest_union (f g : F) : F := m_union ho_id f g.
Definition Forest_intersect (f g : F) : F := m_intersect ho_id f g.
Definition Forest_product (f g : F) : F := MatrixModel.m_product ho_id f g.
Definition Forest_subset (f : F) (e : string) : F := m_subset ho_id f e.
Definition Forest_subset_not (f : F) (e : string) : F := m_subset_not ho_id f e.
Definition Forest_subset_all (f : F) (e : list string) : F := m_subset_all ho_id f e.
Definition Forest_subset_none (f : F) (e : list string) : F := m_subset_none ho_id f e.
Definition Forest_occurrences (f : F) : list (string * nat) := m_occurrences ho_id f.
Definition m_product := Forest_product.
Definition m_len (f : F) : nat := MatrixModel.m_len f.
Definition m_is_empty (f : F) : bool := MatrixModel.m_is_empty f.
(** [Into<Vec<Vec<T>>>] *)
Definition Into_into (f : F) : list (list string) := m_trees ho_id f.
(** the same under another iteration order: the one test whose expected value depends on the order
    in which the hash set of trees is iterated expects this one *)
Definition Into_into_rev (f : F) : list (list string) := m_trees ho_rev f.
Notation F_empty := Forest_empty.
Notation F_unit := Forest_unit.
Notation F_many := Forest_many.
Notation F_unique := Forest_unique.
