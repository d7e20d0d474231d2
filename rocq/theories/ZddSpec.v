(** ZddSpec: vocabulary for the properties of the zdd trees and their summaries. *)
From Coq Require Import List Arith Lia Bool Permutation Sorted.
From Verif Require Import Base DD Spec Zdd2Model ZddModel.
Import ListNotations.

Section ZddSpec.
  Context {T : Type} `{Ord T}.

  (** [s] is the ascending list of the elements of [c] that the universe knows *)
  Definition known_part (items c s : list T) : Prop :=
    ssorted s /\ forall x, In x s <-> In x c /\ In x items.

  (** the combination named by a path of positions in the item list *)
  Definition named_by (items : list T) (p : list nat) (s : list T) : Prop :=
    ssorted s /\ forall x, In x s <-> exists i, In i p /\ nth_error items i = Some x.

  (** [d] is the diagram [n] branch for branch, every position replaced by the
      item at that position *)
  Fixpoint mirrors (items : list T) (n : dd nat) (d : dd T) : Prop :=
    match n, d with
    | Leaf b, Leaf c => b = c
    | Branch i lo hi, Branch x lo' hi' =>
        nth_error items i = Some x /\ mirrors items lo lo' /\ mirrors items hi hi'
    | _, _ => False
    end.

  (** [s] contains all of [inc] and nothing of [exc] *)
  Definition meets (inc exc s : list T) : Prop :=
    (forall x, In x inc -> In x s) /\ (forall x, In x exc -> ~ In x s).

  Definition status_item (s : zstatus T) : T :=
    match s with ZRequired x | ZExcluded x | ZAvailable x | ZSelected x => x end.

  (** the rule of the summary, given the remaining combinations [cs] *)
  Definition status_rule (inc : list T) (cs : list (list T)) (s : zstatus T) : Prop :=
    match s with
    | ZExcluded x => forall c, In c cs -> ~ In x c
    | ZSelected x => In x inc /\ exists c, In c cs /\ In x c
    | ZRequired x => ~ In x inc /\ (exists c, In c cs /\ In x c) /\ (forall c, In c cs -> In x c)
    | ZAvailable x => ~ In x inc /\ (exists c, In c cs /\ In x c) /\ (exists c, In c cs /\ ~ In x c)
    end.

  (** Required < Excluded < Available < Selected, then by item *)
  Definition status_rank (s : zstatus T) : nat :=
    match s with ZRequired _ => 0 | ZExcluded _ => 1 | ZAvailable _ => 2 | ZSelected _ => 3 end.
  Definition status_before (s t : zstatus T) : Prop :=
    status_rank s < status_rank t \/
    (status_rank s = status_rank t /\ lt_ (status_item s) (status_item t)).

  (** ** which pairs of combinations the product and the intersection take.
      The order is any relation [pre]; [listed_before] is the one of the universe:
      the last occurrence of [x] in the item list is before that of [y]. *)
  Definition listed_before (items : list T) (x y : T) : Prop :=
    exists l1 l2, items = l1 ++ y :: l2 /\ In x l1 /\ ~ In x (y :: l2) /\ ~ In y l2.

  (** along [x], the family [fs] can still decide about [i]: a member that agrees
      with [x] about all earlier items contains [i] *)
  Definition branches (pre : T -> T -> Prop) (fs : list (list T)) (x : list T) (i : T) : Prop :=
    exists g, In g fs /\ (forall z, pre z i -> (In z g <-> In z x)) /\ In i g.
  (** where both families decide, [x] and [y] decide the same *)
  Definition paired (pre : T -> T -> Prop) (a b : list (list T)) (x y : list T) (i : T) : Prop :=
    branches pre a x i -> branches pre b y i -> (In i x <-> In i y).
  (** where only one family decides, its member has the item *)
  Definition taken (pre : T -> T -> Prop) (a b : list (list T)) (x y : list T) (i : T) : Prop :=
    (branches pre a x i -> ~ branches pre b y i -> In i x) /\
    (branches pre b y i -> ~ branches pre a x i -> In i y).
  (** [k] is the first item about which only [a] decides and [x] lacks; from there
      on [s] follows [x] alone *)
  Definition leaves_at (pre : T -> T -> Prop) (a b : list (list T)) (x y : list T) (k : T) (s : list T) : Prop :=
    branches pre a x k /\ ~ branches pre b y k /\ ~ In k x /\
    (forall i, pre i k -> paired pre a b x y i /\ taken pre a b x y i) /\
    (forall z, In z s <-> In z x \/ (In z y /\ pre z k)).
  (** [s] joins a member of [a] and a member of [b]: to the end, or until one of
      them leaves *)
  Definition joined (pre : T -> T -> Prop) (a b : list (list T)) (s : list T) : Prop :=
    exists x y, In x a /\ In y b /\
      (((forall i, paired pre a b x y i /\ taken pre a b x y i) /\ is_union s x y) \/
       (exists k, leaves_at pre a b x y k s) \/ (exists k, leaves_at pre b a y x k s)).
End ZddSpec.
