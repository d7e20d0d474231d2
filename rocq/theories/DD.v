(** DD: decision diagrams as values.

    A [NodeId] of the Rust code denotes a finite binary diagram; this file is
    the type of those denotations.  [Leaf false]/[Leaf true] are
    [Node::Never]/[Node::Always] (weave/src/zdd2/forest/node/mod.rs L31-36),
    [Node::Leaf(false)]/[Node::Leaf(true)] (weave/src/zdd/node/mod.rs,
    bowtie-core/src/bdd/node/mod.rs L13-17).  [Branch l lo hi] is
    [Node::Branch(l, low, high)] with the two ids replaced by what they denote.
    That ids and values correspond one to one, under every schedule of
    concurrent threads, is proved in Arena.v / Conc.v. *)
From Coq Require Import List Arith Lia Bool Permutation Sorted.
From Verif Require Import Base.
Import ListNotations.

(** weave/src/zdd2/forest/node/mod.rs L31-36, weave/src/zdd/node/mod.rs L20-24, bowtie-core/src/bdd/node/mod.rs L13-17, by value *)
Inductive dd (L : Type) : Type :=
| Leaf (b : bool)
| Branch (l : L) (lo hi : dd L).
Arguments Leaf {L} b.
Arguments Branch {L} l lo hi.

Fixpoint size {L} (t : dd L) : nat :=
  match t with Leaf _ => 1 | Branch _ lo hi => S (size lo + size hi) end.

(** [==] on nodes (derived [PartialEq], same lines; ids are equal iff the diagrams are, C20, C59). *)
Fixpoint dd_eqb {L} `{Ord L} (s t : dd L) : bool :=
  match s, t with
  | Leaf b, Leaf c => Bool.eqb b c
  | Branch i l h, Branch j l' h' => eqb_ i j && dd_eqb l l' && dd_eqb h h'
  | _, _ => false
  end.

Lemma dd_eqb_spec {L} `{Ord L} (s t : dd L) : reflect (s = t) (dd_eqb s t).
Proof.
  revert t; induction s as [b|i l IHl h IHh]; intros [c|j l' h']; simpl.
  - destruct (Bool.eqb_spec b c); constructor; congruence.
  - constructor; congruence.
  - constructor; congruence.
  - destruct (eqb_spec_ i j) as [->|N]; simpl; [|constructor; congruence].
    destruct (IHl l') as [->|N]; simpl; [|constructor; congruence].
    destruct (IHh h') as [->|N]; constructor; congruence.
Qed.

Lemma size_pos {L} (t : dd L) : 1 <= size t.
Proof. destruct t; simpl; lia. Qed.

(** The paths to the [true] leaf, as the lists of labels taken high; the
    [high] side first. *)
Fixpoint paths {L} (t : dd L) : list (list L) :=
  match t with
  | Leaf true => [[]]
  | Leaf false => []
  | Branch i lo hi => map (cons i) (paths hi) ++ paths lo
  end.

Fixpoint labels {L} (t : dd L) : list L :=
  match t with
  | Leaf _ => []
  | Branch i lo hi => i :: labels lo ++ labels hi
  end.

Lemma paths_branch {L} (i : L) lo hi s :
  In s (paths (Branch i lo hi)) <-> (exists s', s = i :: s' /\ In s' (paths hi)) \/ In s (paths lo).
Proof.
  simpl. rewrite in_app_iff, in_map_iff. split.
  - intros [(x & <- & I)|I]; eauto.
  - intros [(x & -> & I)|I]; eauto.
Qed.

Lemma paths_labels {L} (t : dd L) s x : In s (paths t) -> In x s -> In x (labels t).
Proof.
  revert s; induction t as [[]|i lo IHl hi IHh]; intros s.
  - simpl. intros [<-|[]] [].
  - simpl. intros [].
  - rewrite paths_branch. simpl. rewrite in_app_iff.
    intros [(s' & -> & I)|I] Hx; [|eauto].
    destruct Hx as [->|Hx]; eauto.
Qed.
