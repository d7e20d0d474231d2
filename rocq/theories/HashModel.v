(** HashModel: bowtie-core/src/bdd/node/hash_structure.rs.

    The standard library's [DefaultHasher] (SipHash-1-3 with zero keys) is a
    parameter: any function [finish] from the bytes written to a number; the
    byte sequences written by the [Hash] instances of [Node] and [String] are
    modelled.  Nodes are diagrams as values, as in BddModel. *)
From Coq Require Import List Arith NArith Lia Bool.
From Verif Require Import Base DD.
Import ListNotations.
Open Scope N_scope.

(** ** std: [format!("{:x}", n)] *)
Definition hex_digit (d : N) : N := if d <? 10 then 48 + d else 87 + d.
Fixpoint hex_f (fuel : nat) (n : N) : list N :=
  match fuel with
  | O => []
  | S k => if n <? 16 then [hex_digit n] else hex_f k (n / 16) ++ [hex_digit (n mod 16)]
  end.
Definition hex (n : N) : list N := hex_f (S (N.size_nat n)) n.

Section Hash.
  Context {I : Type}.
  (** [Hasher::finish] after writing these bytes to [DefaultHasher::new()] *)
  Context (finish : list N -> N).

  (** the bytes [derive(Hash)] of [Node] (bowtie-core/src/bdd/node/mod.rs L13-17) writes for a
      leaf: the index of the variant as an [isize], then the [bool] *)
  Definition leaf_bytes (v : bool) : list N := [1; 0; 0; 0; 0; 0; 0; 0; if v then 1 else 0].
  (** the bytes [Hash] of [String] writes: the string, then 0xff *)
  Definition string_bytes (s : list N) : list N := s ++ [255].

  (** Node::hash_structure, bowtie-core/src/bdd/node/hash_structure.rs L6-26 *)
  Fixpoint hash_structure (node : dd I) : list N :=
    match node with
    | Leaf v => hex (finish (leaf_bytes v))
    | Branch _id low high =>
        hex (finish (string_bytes (hash_structure low) ++ string_bytes (hash_structure high)))
    end.
End Hash.
