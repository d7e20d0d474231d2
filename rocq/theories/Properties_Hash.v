(** Properties_Hash.v: the structural hash of bowtie nodes (C68)
    Generated by tools/gen_props.py from HashThm.v: the property theorems, each followed by
    instances that meet its hypotheses (examples). *)
From Coq Require Import List Arith NArith Lia Bool.
From Verif Require Import Base DD HashModel HashSpec.
Import ListNotations.
From Verif Require Import HashThm.
Open Scope N_scope.

(** C68.  Diagrams of the same shape have the same structural hash, whatever
    items they hold; and two diagrams with the same structural hash have the same
    shape unless the hasher sent two different byte strings to one value, one
    written for a node of the first and one for a node of the second. *)
Theorem C68_shape_decides_hash : forall (I : Type) (finish : list N -> N) (a b : dd I),
  same_shape a b -> hash_structure finish a = hash_structure finish b.
Proof. exact C68_shape_decides_hash_pf. Qed.
Print Assumptions C68_shape_decides_hash.

Theorem C68_hash_decides_shape : forall (I : Type) (finish : list N -> N) (a b : dd I),
  hash_structure finish a = hash_structure finish b ->
  same_shape a b \/
  exists x y, In x (messages finish a) /\ In y (messages finish b) /\ x <> y /\ finish x = finish y.
Proof. exact C68_hash_decides_shape_pf. Qed.
Print Assumptions C68_hash_decides_shape.

Example C68_example :
  let sum := fold_left N.add in
  let finish bytes := 1000 + sum bytes 0 in
  let a := Branch 1%nat (Leaf true) (Branch 2%nat (Leaf false) (Leaf true)) in
  let b := Branch 8%nat (Leaf true) (Branch 7%nat (Leaf false) (Leaf true)) in
  let c := Branch 1%nat (Branch 2%nat (Leaf false) (Leaf true)) (Leaf true) in
  same_shape a b /\ hash_structure finish a = hash_structure finish b /\
  ~ same_shape a c /\ hash_structure finish a = hash_structure finish c /\
  (let finish' bytes := fold_left (fun h x => 257 * h + x) bytes 7 in
   hash_structure finish' a = hash_structure finish' b /\ hash_structure finish' a <> hash_structure finish' c).
Proof. exact HashThm.C68_example. Qed.
