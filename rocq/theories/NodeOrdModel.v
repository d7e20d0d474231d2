(** NodeOrdModel: the derived orders of the public bowtie types [Node] and
    [NodeId], and the derived serde form of [NodeId].
    Models bowtie-core/src/bdd/node/mod.rs L13-20 and the conversions L62-84
    (which are [intern] and [get_node] of ArenaModel.v).  No proofs here. *)
From Coq Require Import List Arith Bool.
From Verif Require Import Base DD ArenaModel.
Import ListNotations.
Open Scope nat_scope.

(** derived [Ord] of [struct NodeId(usize)], bowtie-core/src/bdd/node/mod.rs L19-20: the number *)
Definition id_cmp (i j : nat) : comparison := Nat.compare i j.

(** derived [Ord] of [bool] (std): [false] before [true] *)
Definition bool_cmp (b c : bool) : comparison :=
  match b, c with
  | false, true => Lt
  | true, false => Gt
  | _, _ => Eq
  end.

(** derived [Ord] of [enum Node { Branch(Item, NodeId, NodeId), Leaf(bool) }],
    bowtie-core/src/bdd/node/mod.rs L13-17: the variants in the order they are
    declared, then the fields from left to right *)
Definition node_cmp {I} `{Ord I} (m n : gnode I) : comparison :=
  match m, n with
  | GBranch i l h, GBranch j l' h' =>
      match cmp i j with
      | Eq => match id_cmp l l' with
              | Eq => id_cmp h h'
              | c => c
              end
      | c => c
      end
  | GBranch _ _ _, GLeaf _ => Lt
  | GLeaf _, GBranch _ _ _ => Gt
  | GLeaf b, GLeaf c => bool_cmp b c
  end.

(** derived [Serialize]/[Deserialize] of [NodeId], bowtie-core/src/bdd/node/mod.rs L19: a newtype
    struct is written as the number it holds, and every number is read back as
    an id, without looking at the arena *)
Definition id_ser (i : nat) : nat := i.
Definition id_de (k : nat) : nat := k.
