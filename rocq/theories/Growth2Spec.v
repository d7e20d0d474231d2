(** Growth2Spec: how much a call on forests may add to the shared node store,
    in terms of the trees of the forests involved: [n] trees over [k] different
    items.  Calls that only read cost nothing.  No proofs here. *)
From Coq Require Import List Arith Lia Bool.
From Verif Require Import Base DD Spec Zdd2Model Zdd2Prog.
Import ListNotations.
Open Scope nat_scope.

Section Cost.
  Context {T : Type} `{Ord T}.
  (** the trees of a forest *)
  Definition trees_of (f : forest T) : list (list T) := match f_trees f with Some ts => ts | None => [] end.
  (** how many different items there are in some lists *)
  Fixpoint once (l : list T) : list T :=
    match l with
    | [] => []
    | x :: l' => if existsb (eqb_ x) l' then once l' else x :: once l'
    end.
  Definition different (ts : list (list T)) : nat := length (once (concat ts)).

  (** [many]: for each row the square of its length and twice the number of
      different items; one node for the root *)
  Definition many_cost (rows : list (list T)) : nat :=
    1 + list_sum (map (fun row => length row * length row + 2 * different rows) rows).
  (** [union], [intersect] *)
  Definition join_cost (f g : forest T) : nat :=
    let k := different (trees_of f ++ trees_of g) in
    2 + (length (trees_of f) + length (trees_of g)) * (k * (3 * k + 6)).
  (** [product] *)
  Definition product_cost (f g : forest T) : nat :=
    let k := different (trees_of f ++ trees_of g) in
    2 + (length (trees_of f) + length (trees_of g)) * (k * (2 * k + 2))
      + length (trees_of f) * length (trees_of g) * (k * (5 * k + 4)).
  (** [subset], [subset_not] *)
  Definition filter_cost (f : forest T) : nat :=
    let k := different (trees_of f) in 2 + length (trees_of f) * (k * (k + 4)).
  (** [subset_all], [subset_none] by [m] elements *)
  Definition filters_cost (f : forest T) (m : nat) : nat :=
    let k := different (trees_of f) in 2 + length (trees_of f) * (k * (k + 2 + 6 * m)).

  Definition f_cost (fs : list (forest T)) (c : call T) : nat :=
    match c with
    | CUnit _ items | CUnique _ items => 1 + length items * length items
    | CMany _ rows => many_cost rows
    | CUnion _ i j | CIntersect _ i j => join_cost (reg fs i) (reg fs j)
    | CProduct _ i j => product_cost (reg fs i) (reg fs j)
    | CSubset _ i _ | CSubsetNot _ i _ => filter_cost (reg fs i)
    | CSubsetAll _ i es | CSubsetNone _ i es => filters_cost (reg fs i) (length es)
    | _ => 0
    end.
End Cost.
