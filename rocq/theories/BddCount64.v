(** BddCount64: the counters of a closet in 64-bit arithmetic.

    [node_count], [leaf_count], [outfit_count] and [depth] return [u64]
    (bowtie-core/src/bdd/closet/node_count.rs).  [BddModel] computes them in
    unbounded naturals; here they are computed with machine additions, given as
    a parameter: [checked] panics ([None]) on overflow, as debug builds do,
    [wrapping] drops the carry, as release builds do. *)
From Coq Require Import List NArith Lia Bool.
From Verif Require Import Base DD BddModel.
Import ListNotations.
Local Open Scope N_scope.

(** [u64::MAX + 1] *)
Definition two64 : N := 18446744073709551616.
(** [+] on [u64], overflow checks on / off *)
Definition checked (a b : N) : option N := if a + b <? two64 then Some (a + b) else None.
Definition wrapping (a b : N) : option N := Some ((a + b) mod two64).

Section Count.
  Context {I : Type} (plus : N -> N -> option N).

  (** node_count_internal, bowtie-core/src/bdd/closet/node_count.rs L10-20: [1 + low + high] *)
  Fixpoint node_count64 (n : dd I) : option N :=
    match n with
    | Leaf _ => Some 1
    | Branch _ lo hi =>
        let! l := node_count64 lo in let! a := plus 1 l in let! h := node_count64 hi in plus a h
    end.
  (** leaf_count_internal, L26-36 *)
  Fixpoint leaf_count64 (n : dd I) : option N :=
    match n with
    | Leaf _ => Some 1
    | Branch _ lo hi => let! l := leaf_count64 lo in let! h := leaf_count64 hi in plus l h
    end.
  (** outfit_count_internal, L42-52 *)
  Fixpoint outfit_count64 (n : dd I) : option N :=
    match n with
    | Leaf b => Some (if b then 1 else 0)
    | Branch _ lo hi => let! l := outfit_count64 lo in let! h := outfit_count64 hi in plus l h
    end.
  (** depth_internal, L58-74 *)
  Fixpoint depth64 (n : dd I) : option N :=
    match n with
    | Leaf _ => Some 1
    | Branch _ lo hi =>
        let! l := depth64 lo in let! h := depth64 hi in
        match N.compare l h with Lt => plus 1 h | Eq => plus 1 l | Gt => plus 1 l end
    end.
End Count.
