(** RepoPrelude_MatrixTree: the names of the matrix Tree tests, as functions of the model *)
From Coq Require Import String Ascii List Bool NArith.
From Verif Require Export RepoPrelude.
From Verif Require Import Base DD Zdd2Model MatrixModel.
Import ListNotations.

Notation T := (tree string).
#[global] Instance TEq_tree : TEq T := t_eqb.
Definition Tree_default : T := t_empty.
Definition Tree_empty : T := t_empty.
Definition Tree_one (x : string) : T := t_one x.
Definition Tree_many (l : list string) : T := t_many l.
Definition Tree_union (t u : T) : T := t_union ho_id t u.
Definition Tree_intersect (t u : T) : T := t_intersect ho_id t u.
Definition m_len (t : T) : nat := t_len t.
Definition m_is_empty (t : T) : bool := t_is_empty t.
Definition Into_into (t : T) : list string := t_elems ho_id t.
#[global] Instance TEq_forest : TEq (mforest string) := m_eqb.
Definition Forest_empty : mforest string := m_empty.
Definition Forest_unit (l : list string) : mforest string := m_unit l.
Definition Forest_many (m : list (list string)) : mforest string := m_many m.
Definition Tree_product (t u : T) : mforest string := t_product_m ho_id t u.
