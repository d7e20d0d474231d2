(** ArenaModel: the global node arena, programs over it, and threads.

    Models weave/src/zdd2/forest/node/arena.rs L7-46, weave/src/zdd/node/arena.rs
    L7-42 and bowtie-core/src/bdd/node/arena.rs L7-60 (the three are the same
    data structure), and the conversions that lock it:
    weave/src/zdd2/forest/node/mod.rs L127-158, weave/src/zdd/node/mod.rs L62-87,
    bowtie-core/src/bdd/node/mod.rs L62-84.  No proofs in this file. *)
From Coq Require Import List Arith Lia Bool Permutation Sorted.
From Verif Require Import Base DD.
Import ListNotations.

(** [enum Node]: weave/src/zdd2/forest/node/mod.rs L31-36 ([Never]/[Always] = [GLeaf false]/[GLeaf true]),
    weave/src/zdd/node/mod.rs L20-24, bowtie-core/src/bdd/node/mod.rs L13-17; [NodeId(usize)] is a [nat]. *)
Inductive gnode (L : Type) :=
| GLeaf (b : bool)
| GBranch (l : L) (lo hi : nat).
Arguments GLeaf {L} b.
Arguments GBranch {L} l lo hi.

(** derived [PartialEq], weave/src/zdd2/forest/node/mod.rs L31 (zdd: weave/src/zdd/node/mod.rs L20,
    bowtie: bowtie-core/src/bdd/node/mod.rs L13) *)
Definition gnode_eqb {L} `{Ord L} (m n : gnode L) : bool :=
  match m, n with
  | GLeaf b, GLeaf c => Bool.eqb b c
  | GBranch i l h, GBranch j l' h' => eqb_ i j && (l =? l') && (h =? h')
  | _, _ => false
  end.

(** [struct NodeArena { nodes: Vec<Node>, node_index: HashMap<Node, NodeId> }],
    weave/src/zdd2/forest/node/arena.rs L7-11, weave/src/zdd/node/arena.rs L7-11, bowtie-core/src/bdd/node/arena.rs L16-20 *)
Record arena (L : Type) := mkA { a_nodes : list (gnode L); a_index : list (gnode L * nat) }.
Arguments mkA {L} a_nodes a_index.
Arguments a_nodes {L} a.
Arguments a_index {L} a.

Section Arena.
  Context {L : Type} `{Ord L}.

  (** [HashMap::get] on [node_index] (weave/src/zdd2/forest/node/arena.rs L43-45) *)
  Fixpoint idx_get (m : list (gnode L * nat)) (n : gnode L) : option nat :=
    match m with
    | [] => None
    | (n', i) :: m' => if gnode_eqb n n' then Some i else idx_get m' n
    end.

  (** get_by_id / get: weave/src/zdd2/forest/node/arena.rs L39-41, weave/src/zdd/node/arena.rs L39-41, bowtie-core/src/bdd/node/arena.rs L39-41 *)
  Definition a_get (a : arena L) (i : nat) : option (gnode L) := nth_error (a_nodes a) i.
  (** get_by_node: weave/src/zdd2/forest/node/arena.rs L43-45 *)
  Definition a_find (a : arena L) (n : gnode L) : option nat := idx_get (a_index a) n.
  (** add: weave/src/zdd2/forest/node/arena.rs L27-37 (zdd L27-37, bdd L27-37) *)
  Definition a_add (a : arena L) (n : gnode L) : arena L * nat :=
    match idx_get (a_index a) n with
    | Some i => (a, i)
    | None => (mkA (a_nodes a ++ [n]) ((n, length (a_nodes a)) :: a_index a), length (a_nodes a))
    end.
  (** Default::default, weave/src/zdd2/forest/node/arena.rs L13-20 (zdd L13-20; bdd: the lazy_static, L7-14) *)
  Definition a_new : arena L :=
    fst (a_add (fst (a_add (mkA [] []) (GLeaf false))) (GLeaf true)).
End Arena.

(** Programs: every constructor but [Ret], [Panic] and [OutOfFuel] is one
    critical section of the lock, hence atomic.
    [Panic] is the panic of [Node::from(NodeId)] / an [unwrap] on [None];
    [OutOfFuel] is not a behaviour of the code but of a fuelled approximation. *)
Inductive prog (L R : Type) : Type :=
| Ret (r : R)
| Get (i : nat) (k : gnode L -> prog L R)        (* ARENA.read().get_by_id(i), panicking if absent *)
| Find (n : gnode L) (k : option nat -> prog L R)(* ARENA.read().get_by_node(&n) *)
| Add (n : gnode L) (k : nat -> prog L R)        (* ARENA.write().add(n) *)
| Panic
| OutOfFuel.
Arguments Ret {L R} r.
Arguments Get {L R} i k.
Arguments Find {L R} n k.
Arguments Add {L R} n k.
Arguments Panic {L R}.
Arguments OutOfFuel {L R}.

Fixpoint pbind {L A B} (p : prog L A) (f : A -> prog L B) : prog L B :=
  match p with
  | Ret r => f r
  | Get i k => Get i (fun n => pbind (k n) f)
  | Find n k => Find n (fun o => pbind (k o) f)
  | Add n k => Add n (fun i => pbind (k i) f)
  | Panic => Panic
  | OutOfFuel => OutOfFuel
  end.
Notation "'do' x '<-' e ';' k" := (pbind e (fun x => k)) (at level 200, x pattern, e at level 100, right associativity).

(** [Node::from(NodeId)] : weave/src/zdd2/forest/node/mod.rs L146-152, weave/src/zdd/node/mod.rs L75-81, bowtie-core/src/bdd/node/arena.rs L50-56 *)
Definition get_node {L} (i : nat) : prog L (gnode L) := Get i Ret.
(** [NodeId::from(Node)], zdd and bowtie: the write lock only. weave/src/zdd/node/mod.rs L62-67, bowtie-core/src/bdd/node/arena.rs L45-48 *)
Definition intern {L} (n : gnode L) : prog L nat := Add n Ret.
(** [NodeId::from(Node)], weave/src/zdd2/forest/node/mod.rs L127-138: look up under the read lock,
    release it, and only then take the write lock. *)
Definition intern2 {L} (n : gnode L) : prog L nat :=
  Find n (fun o => match o with Some i => Ret i | None => Add n Ret end).

Fixpoint pfoldM {L A B} (f : B -> A -> prog L B) (l : list A) (b : B) : prog L B :=
  match l with
  | [] => Ret b
  | x :: l' => pbind (f b x) (fun b' => pfoldM f l' b')
  end.

(** one atomic step of a thread *)
Inductive pstep {L R} `{Ord L} : arena L -> prog L R -> arena L -> prog L R -> Prop :=
| P_get a i k n : a_get a i = Some n -> pstep a (Get i k) a (k n)
| P_get_panic a i k : a_get a i = None -> pstep a (Get i k) a Panic
| P_find a n k : pstep a (Find n k) a (k (a_find a n))
| P_add a n k : pstep a (Add n k) (fst (a_add a n)) (k (snd (a_add a n))).
