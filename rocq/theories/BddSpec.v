(** BddSpec: the vocabulary of the bowtie properties.  Nothing here mentions the
    model of the code, except the type [dd] of decision diagrams. *)
From Coq Require Import List Arith Lia Bool Permutation Sorted.
From Verif Require Import Base DD Spec.
Import ListNotations.

Section BddSpec.
  Context {I F : Type} `{Ord I} `{Ord F}.

  (** the boolean function a diagram stands for *)
  Fixpoint eval (env : I -> bool) (t : dd I) : bool :=
    match t with
    | Leaf b => b
    | Branch i lo hi => if env i then eval env hi else eval env lo
    end.

  (** [env] with [i] set to [b] *)
  Definition upd (env : I -> bool) (i : I) (b : bool) : I -> bool :=
    fun x => if eqb_ x i then b else env x.

  (** labels strictly increase towards the leaves *)
  Fixpoint bordered (t : dd I) : Prop :=
    match t with
    | Leaf _ => True
    | Branch i lo hi =>
        (forall j, In j (labels lo) \/ In j (labels hi) -> lt_ i j) /\ bordered lo /\ bordered hi
    end.

  (** no branch has equal children *)
  Fixpoint breduced (t : dd I) : Prop :=
    match t with
    | Leaf _ => True
    | Branch i lo hi => lo <> hi /\ breduced lo /\ breduced hi
    end.

  (** ** Closets: what the calls on a [ClosetBuilder] say *)
  Inductive bcall :=
  | AddItem (f : F) (i : I)
  | AddItems (f : F) (l : list I)
  | AddExcl (s x : I)
  | AddExcls (s : I) (l : list I)
  | AddIncl (s x : I)
  | AddIncls (s : I) (l : list I).

  Definition adds (calls : list bcall) : list (F * I) :=
    flat_map (fun c => match c with AddItem f i => [(f, i)] | AddItems f l => map (pair f) l | _ => [] end) calls.
  Definition excls (calls : list bcall) : list (I * I) :=
    flat_map (fun c => match c with AddExcl s x => [(s, x)] | AddExcls s l => map (pair s) l | _ => [] end) calls.
  Definition incls (calls : list bcall) : list (I * I) :=
    flat_map (fun c => match c with AddIncl s x => [(s, x)] | AddIncls s l => map (pair s) l | _ => [] end) calls.

  Definition known (calls : list bcall) (i : I) : Prop := exists f, In (f, i) (adds calls).

  (** the family an item was first added to *)
  Definition first_family (calls : list bcall) (i : I) : option F :=
    option_map fst (find (fun p => eqb_ (snd p) i) (adds calls)).

  (** no item in two families; rules only between added items, never inside one family *)
  Definition legal (calls : list bcall) : Prop :=
    (forall f g i, In (f, i) (adds calls) -> In (g, i) (adds calls) -> f = g) /\
    (forall s x, In (s, x) (excls calls) \/ In (s, x) (incls calls) ->
       known calls s /\ known calls x /\
       forall f, In (f, s) (adds calls) -> In (f, x) (adds calls) -> False).

  (** a valid outfit: only added items, exactly one of every family, not both
      sides of an exclusion, and what an inclusion demands *)
  Definition valid_outfit (calls : list bcall) (o : list I) : Prop :=
    (forall i, In i o -> known calls i) /\
    (forall f i, In (f, i) (adds calls) ->
       exists j, In (f, j) (adds calls) /\ In j o /\
         forall k, In (f, k) (adds calls) -> In k o -> k = j) /\
    (forall s x, In (s, x) (excls calls) -> ~ (In s o /\ In x o)) /\
    (forall s x, In (s, x) (incls calls) -> In s o -> In x o).

  (** some valid outfit contains all of [sels] *)
  Definition satisfiable (calls : list bcall) (sels : list I) : Prop :=
    exists o, valid_outfit calls o /\ incl sels o.

  (** two histories that say the same: the same items in the same families, the
      same inclusions, the same exclusions up to the order of the two items *)
  Definition same_wardrobe (c1 c2 : list bcall) : Prop :=
    same_elems (adds c1) (adds c2) /\ same_elems (incls c1) (incls c2) /\
    (forall s x, In (s, x) (excls c1) \/ In (x, s) (excls c1) <-> In (s, x) (excls c2) \/ In (x, s) (excls c2)).

  (** the first item on which the two outfits differ is one that [o] has *)
  Definition preferred (o o' : list I) : Prop :=
    exists x, In x o /\ ~ In x o' /\ forall y, lt_ y x -> (In y o <-> In y o').

  (** the items of the branches at depth [d], the low side before the high side *)
  Fixpoint row (t : dd I) (d : nat) : list I :=
    match t, d with
    | Leaf _, _ => []
    | Branch i _ _, 0 => [i]
    | Branch _ lo hi, S d' => row lo d' ++ row hi d'
    end.
  (** the same shape with every item replaced, by depth *)
  Fixpoint relabelled (g : nat -> I -> I) (t : dd I) (d : nat) : dd I :=
    match t with
    | Leaf b => Leaf b
    | Branch i lo hi => Branch (g d i) (relabelled g lo (S d)) (relabelled g hi (S d))
    end.

  (** all branches at the same depth carry the same item *)
  Fixpoint levels (t : dd I) (d : nat) (at_depth : nat -> I -> Prop) : Prop :=
    match t with
    | Leaf _ => True
    | Branch i lo hi => at_depth d i /\ levels lo (S d) at_depth /\ levels hi (S d) at_depth
    end.
  Definition level_uniform (t : dd I) : Prop :=
    exists xs : list I, levels t 0 (fun d i => nth_error xs d = Some i).
End BddSpec.
Arguments bcall I F : clear implicits.
