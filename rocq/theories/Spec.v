(** Spec: the vocabulary the property theorems are stated in.  Nothing here
    mentions the model of the code. *)
From Coq Require Import List Arith Lia Bool.
From Verif Require Import Base.
Import ListNotations.

Section Spec.
  Context {T : Type} `{Ord T}.

  (** [a] and [b] have the same elements *)
  Definition same_elems (a b : list T) : Prop := forall x, In x a <-> In x b.

  (** the set of elements [s] is the union of the sets [a] and [b] *)
  Definition is_union (s a b : list T) : Prop := forall x, In x s <-> In x a \/ In x b.

  (** the family [ts] of sets has a member with exactly the elements of [a] *)
  Definition has_set (ts : list (list T)) (a : list T) : Prop :=
    exists t, In t ts /\ same_elems t a.

  (** the family [ts] is listed properly: every member is strictly ascending
      (so has no duplicates), and no member is listed twice *)
  Definition well_listed (ts : list (list T)) : Prop :=
    (forall t, In t ts -> ssorted t) /\ NoDup ts.

  (** number of members of the family containing [x] *)
  Fixpoint count (ts : list (list T)) (x : T) : nat :=
    match ts with
    | [] => 0
    | t :: ts' => (if memb x t then 1 else 0) + count ts' x
    end.

  (** the item order derived from counts: more frequent first, then by name *)
  Definition before (c : T -> nat) (x y : T) : Prop :=
    c y < c x \/ (c x = c y /\ lt_ x y).

  (** adding the counts of another family does not reorder two items of any
      member of [ts] *)
  Definition order_stable (ts us : list (list T)) : Prop :=
    forall t x y, In t ts -> In x t -> In y t ->
      before (count ts) x y -> before (fun z => count ts z + count us z) x y.

  Definition at_most_one (ts : list (list T)) : Prop :=
    forall a b, In a ts -> In b ts -> a = b.

  (** no member of [ts] is a proper subset of a member of [us] *)
  Definition no_proper_subset (ts us : list (list T)) : Prop :=
    forall a b, In a ts -> In b us -> incl a b -> same_elems a b.

  (** no item occurs in both families *)
  Definition item_disjoint (ts us : list (list T)) : Prop :=
    forall a b x, In a ts -> In b us -> In x a -> In x b -> False.

  (** ** cuts of the item order [before c].  [k] cuts after the item it names, or
      before everything. *)
  Definition upto (c : T -> nat) (k : option T) (x : T) : Prop :=
    match k with None => False | Some b => x = b \/ before c x b end.
  (** [g] and [t] have the same items up to the cut / after the cut *)
  Definition agree_upto (c : T -> nat) (k : option T) (g t : list T) : Prop :=
    forall x, upto c k x -> (In x g <-> In x t).
  Definition agree_after (c : T -> nat) (k : option T) (g t : list T) : Prop :=
    forall x, ~ upto c k x -> (In x g <-> In x t).

  (** at some cut, the members of [us] that agree with [t] so far exist and have
      no further items *)
  Definition ends_along (c : T -> nat) (us : list (list T)) (t : list T) : Prop :=
    exists k, (exists g, In g us /\ agree_upto c k g t) /\
              (forall g x, In g us -> agree_upto c k g t -> In x g -> upto c k x).

  (** what the code keeps when it meets the families [fs] and [gs] *)
  Definition met (c : T -> nat) (fs gs : list (list T)) (t : list T) : Prop :=
    (In t fs /\ In t gs) \/ (In t fs /\ ends_along c gs t) \/ (In t gs /\ ends_along c fs t).
  (** the members of [ts] without the item [e] *)
  Definition without (e : T) (ts : list (list T)) : list (list T) :=
    filter (fun t => negb (memb e t)) ts.
  (** [tr] is [fs], met one after the other with [without e ts] for the items [e] of [es] *)
  Fixpoint met_all (c : T -> nat) (ts fs : list (list T)) (es : list T) (tr : list (list T)) : Prop :=
    match es with
    | [] => forall t, In t tr <-> In t fs
    | e :: es' => exists gs, (forall t, In t gs <-> met c fs (without e ts) t) /\ met_all c ts gs es' tr
    end.

  (** after the cut, the members of [ts] that agreed with [a] and the members of
      [us] that agreed with [b] are the same *)
  Definition same_rest (c : T -> nat) (k : option T) (ts : list (list T)) (a : list T)
      (us : list (list T)) (b : list T) : Prop :=
    (forall g, In g ts -> agree_upto c k g a ->
       exists g', In g' us /\ agree_upto c k g' b /\ agree_after c k g g') /\
    (forall g, In g us -> agree_upto c k g b ->
       exists g', In g' ts /\ agree_upto c k g' a /\ agree_after c k g g').

  (** ** which families survive a change of the item order.
      [y] is the first item, in the order [c], of the members of [fs] *)
  Definition leads (c : T -> nat) (y : T) (fs : list (list T)) : Prop :=
    (exists t, In t fs /\ In y t) /\ (forall t z, In t fs -> In z t -> z = y \/ before c y z).
  (** the members of [fs] with the item [y], [y] taken out *)
  Definition link (y : T) (fs : list (list T)) : list (list T) :=
    map (filter (fun z => negb (eqb_ z y))) (filter (memb y) fs).

  (** The item [x] was first of the members of [hs] (given without it) and of none
      of [ls].  It can take its place in the order [c]: either it still comes
      first; or [ls] and [hs] have the same first item [y], which moves ahead of
      [x], and the parts of [ls] and [hs] with and without [y] allow it; or [y]
      moves ahead of [x], is in every member of [hs] and first of none of [ls]. *)
  Inductive sinks (c : T -> nat) (x : T) : list (list T) -> list (list T) -> Prop :=
  | sinks_stay ls hs : (forall t z, In t hs -> In z t -> before c x z) -> sinks c x ls hs
  | sinks_both y ls hs : before c y x -> leads c y ls -> leads c y hs ->
      sinks c x (without y ls) (without y hs) -> sinks c x (link y ls) (link y hs) -> sinks c x ls hs
  | sinks_forced y ls hs : before c y x -> leads c y hs -> (forall t, In t hs -> In y t) ->
      (forall t, In t ls -> In y t -> exists z, In z t /\ before c z y) ->
      sinks c x [] (link y hs) -> sinks c x ls hs.
  (** every item of the family, from the last in the old order [c] to the first,
      can take its place in the new order [c'] *)
  Inductive settles (c c' : T -> nat) : list (list T) -> Prop :=
  | settles_done fs : (forall t x, In t fs -> ~ In x t) -> settles c c' fs
  | settles_split x fs : leads c x fs -> settles c c' (without x fs) -> settles c c' (link x fs) ->
      sinks c' x (without x fs) (link x fs) -> settles c c' fs.
  Definition settled (ts us : list (list T)) : Prop :=
    settles (count ts) (fun z => count ts z + count us z) ts.

  (** a simple sufficient condition: two items of one member keep their order, or
      occur in exactly the same members *)
  Definition order_kept (ts us : list (list T)) : Prop :=
    forall t x y, In t ts -> In x t -> In y t -> before (count ts) x y ->
      before (fun z => count ts z + count us z) x y \/ (forall t', In t' ts -> (In x t' <-> In y t')).

  (** ** what becomes of a family whose items are put in another order.
      [t] is [s] with the item [x] added *)
  Definition with_item (x : T) (s t : list T) : Prop := ssorted t /\ same_elems t (x :: s).
  (** [x] is the first item of [t] in the order [c] *)
  Definition begins (c : T -> nat) (x : T) (t : list T) : Prop :=
    In x t /\ forall z, In z t -> z = x \/ before c x z.
  (** [ls] are the members without the item [x], [hs] the members with it (given
      without it), all in the order [c].  What the code makes of them, [es]:
      - [x] comes before all items of [hs]: the members of [hs] get [x] back;
      - [ls] and [hs] have the same first item [y], which is before [x]: the parts
        with and without [y] are treated alike;
      - [y], before [x], is the first item of [hs] only: those members of [hs] that
        have [y] get [x] back, those that do not get [y] instead, and together they
        replace the members of [ls] that begin with [y]. *)
  Inductive pushed (c : T -> nat) (x : T) : list (list T) -> list (list T) -> list (list T) -> Prop :=
  | pushed_none ls hs es : (forall t, ~ In t hs) -> (forall t, In t es <-> In t ls) -> pushed c x ls hs es
  | pushed_top ls hs es : (exists t, In t hs) -> (forall t z, In t hs -> In z t -> before c x z) ->
      (forall t, In t es <-> In t ls \/ exists s, In s hs /\ with_item x s t) -> pushed c x ls hs es
  | pushed_both y ls hs es e0 e1 : before c y x -> leads c y ls -> leads c y hs ->
      pushed c x (without y ls) (without y hs) e0 -> pushed c x (link y ls) (link y hs) e1 ->
      (forall t, In t es <-> In t e0 \/ exists s, In s e1 /\ with_item y s t) -> pushed c x ls hs es
  | pushed_high y ls hs es e1 : before c y x -> ~ leads c y ls -> leads c y hs ->
      pushed c x (without y hs) (link y hs) e1 ->
      (forall t, In t es <-> (In t ls /\ ~ begins c y t) \/ exists s, In s e1 /\ with_item y s t) -> pushed c x ls hs es.
  (** every item of the family, from the last in the old order [c] to the first,
      is pushed to its place in the new order [c'] *)
  Inductive resorted (c c' : T -> nat) : list (list T) -> list (list T) -> Prop :=
  | resorted_done fs es : (forall t x, In t fs -> ~ In x t) -> (forall t, In t es <-> In t fs) -> resorted c c' fs es
  | resorted_split x fs l h es : leads c x fs -> resorted c c' (without x fs) l -> resorted c c' (link x fs) h ->
      pushed c' x l h es -> resorted c c' fs es.

  (** what is left of a family [ts] when its items are re-ordered by adding the
      counts of [us]: [resorted] says which members, all of them exactly if it is
      [settled]; in any case at most as many members, none only if it had none,
      and only items it had *)
  Definition reordered (ts us es : list (list T)) : Prop :=
    resorted (count ts) (fun z => count ts z + count us z) ts es /\
    (settled ts us <-> forall t, In t es <-> In t ts) /\
    well_listed es /\ ~ In [] es /\ length es <= length ts /\ (es = [] -> ts = []) /\
    (forall t x, In t es -> In x t -> exists t', In t' ts /\ In x t').
End Spec.

(** ** Decision diagrams, as printed: [ordered] = labels strictly increase
    towards the leaves; [zero_suppressed] = no branch has the [false] leaf as its
    high child. *)
From Verif Require Import DD.

Fixpoint ordered (t : dd nat) : Prop :=
  match t with
  | Leaf _ => True
  | Branch i lo hi =>
      (forall j, In j (labels lo) \/ In j (labels hi) -> i < j) /\ ordered lo /\ ordered hi
  end.

Fixpoint zero_suppressed {L} (t : dd L) : Prop :=
  match t with
  | Leaf _ => True
  | Branch _ lo hi => hi <> Leaf false /\ zero_suppressed lo /\ zero_suppressed hi
  end.
