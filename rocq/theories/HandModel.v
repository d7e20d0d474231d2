(** HandModel: values of the public enums that no constructor made, and the data
    a Tree is written as.  No proofs in this file. *)
From Coq Require Import List Arith Lia Bool Permutation Sorted.
From Verif Require Import Base Zdd2Model MatrixModel.
Import ListNotations.

Section Hand.
  Context {T : Type} `{Ord T}.

  (** Any value of [matrix::Forest] (weave/src/matrix/forest/mod.rs L13-18: the
      enum and its variants are public): [Unit] of any vector, [Many] of any
      [HashSet<Vec<T>>].  A hash set is an ascending list (as everywhere in the
      model); the vectors in it are arbitrary: unsorted, with repeats, none. *)
  Definition any_forest (f : mforest T) : Prop :=
    match f with MMany m => ssorted m | _ => True end.
  (** Any value of [Tree] (weave/src/matrix/tree/mod.rs L11-17 and
      weave/src/zdd2/tree/mod.rs L11-17): [Many] of any [HashSet<T>]. *)
  Definition any_tree (t : tree T) : Prop :=
    match t with TMany s => ssorted s | _ => True end.

  (** [derive(Serialize, Deserialize)] of [Tree], L11: in serde's data model a unit
      variant, a newtype variant with the element, a newtype variant with a
      sequence (the set in iteration order; on the way back the elements are inserted
      into a new set) *)
  Inductive tdata :=
  | DEmpty
  | DOne (element : T)
  | DMany (elements : list T).
  Definition t_serialize (h : hash_order) (t : tree T) : tdata :=
    match t with TEmpty => DEmpty | TOne e => DOne e | TMany s => DMany (ho_iter h site_m1 s) end.
  Definition t_deserialize (d : tdata) : tree T :=
    match d with DEmpty => TEmpty | DOne e => TOne e | DMany l => TMany (hset l) end.
End Hand.
Arguments tdata T : clear implicits.
