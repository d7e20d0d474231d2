(** RepoPrelude_Zdd2Tree: the names of the zdd2 Tree tests, as functions of the model *)
From Coq Require Import String Ascii List Bool NArith.
From Verif Require Export RepoPrelude.
From Verif Require Import Base DD Zdd2Model MatrixModel.
Import ListNotations.

Notation T := (tree string).
#[global] Instance TEq_tree : TEq T := t_eqb.
Definition Tree_default : T := t_empty.
Definition Tree_empty : T := t_empty.
Definition Tree_one (x : string) : T := t_one x.
Definition Tree_many (l : list string) : T := t_many l.
Definition Tree_union (t u : T) : T := t_union ho_id t u.
Definition Tree_intersect (t u : T) : T := t_intersect ho_id t u.
Definition m_len (t : T) : nat := t_len t.
Definition m_is_empty (t : T) : bool := t_is_empty t.
Definition Into_into (t : T) : list string := t_elems ho_id t.
#[global] Instance TEq_forest : TEq (forest string) := f_eqb.
Definition Forest_empty : option (forest string) := Some f_empty.
Definition Forest_unit (l : list string) : option (forest string) := f_unit ho_id l.
Definition Forest_many (m : list (list string)) : option (forest string) := f_many ho_id m.
Definition Tree_product (t u : T) : option (forest string) := t_product_z ho_id t u.
