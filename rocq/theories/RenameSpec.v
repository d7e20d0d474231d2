(** RenameSpec: what it means to give the items other names. *)
From Coq Require Import List Arith Lia Bool.
From Verif Require Import Base DD Spec BddSpec Zdd2Model MatrixModel ZddModel BddModel.
Import ListNotations.

(** a renaming that never confuses two items *)
Definition injective {T U} (r : T -> U) : Prop := forall x y, r x = r y -> x = y.
(** a renaming that keeps the order of the items *)
Definition order_preserving {T U} `{Ord T} `{Ord U} (r : T -> U) : Prop :=
  forall x y, lt_ x y -> lt_ (r x) (r y).

(** the same program of Forest-trait calls (weave/src/types.rs L2-23), every item renamed *)
Section RenameProgram.
  Context {T U : Type} (r : T -> U).
  Fixpoint renamed (p : fexpr T) : fexpr U :=
    match p with
    | EEmpty => EEmpty
    | EUnit s => EUnit (map r s)
    | EMany m => EMany (map (map r) m)
    | EUnique s => EUnique (map r s)
    | EUnion a b => EUnion (renamed a) (renamed b)
    | EIntersect a b => EIntersect (renamed a) (renamed b)
    | EProduct a b => EProduct (renamed a) (renamed b)
    | ESubset a e => ESubset (renamed a) (r e)
    | ESubsetNot a e => ESubsetNot (renamed a) (r e)
    | ESubsetAll a es => ESubsetAll (renamed a) (map r es)
    | ESubsetNone a es => ESubsetNone (renamed a) (map r es)
    end.
  (** an item with its count *)
  Definition renamed_count (p : T * nat) : U * nat := (r (fst p), snd p).
End RenameProgram.

(** programs over one zdd universe: weave/src/zdd/tree/universe.rs L34-82,
    weave/src/zdd/tree/mod.rs L15-80 *)
Inductive zexpr (T : Type) : Type :=
| ZEEmpty
| ZEUnit
| ZETree (c : list T)
| ZEUnique (items : list T)
| ZEHyper (cs : list (list T))
| ZEUnion (a b : zexpr T)
| ZEIntersect (a b : zexpr T)
| ZEProduct (a b : zexpr T)
| ZERestrict (a : zexpr T) (inc exc : list T).
Arguments ZEEmpty {T}.
Arguments ZEUnit {T}.
Arguments ZETree {T} c.
Arguments ZEUnique {T} items.
Arguments ZEHyper {T} cs.
Arguments ZEUnion {T} a b.
Arguments ZEIntersect {T} a b.
Arguments ZEProduct {T} a b.
Arguments ZERestrict {T} a inc exc.

Section ZddPrograms.
  Context {T : Type} `{Ord T}.
  Fixpoint zrun (u : zuniverse T) (p : zexpr T) : option (ztree T) :=
    match p with
    | ZEEmpty => Some (z_empty_tree u)
    | ZEUnit => Some (z_unit_tree u)
    | ZETree c => Some (z_tree u c)
    | ZEUnique items => Some (z_unique_tree u items)
    | ZEHyper cs => Some (z_hyper_tree u cs)
    | ZEUnion a b => let! t := zrun u a in let! o := zrun u b in Some (z_union t o)
    | ZEIntersect a b => let! t := zrun u a in let! o := zrun u b in Some (z_intersect t o)
    | ZEProduct a b => let! t := zrun u a in let! o := zrun u b in Some (z_product t o)
    | ZERestrict a inc exc => let! t := zrun u a in z_restrict t inc exc
    end.
End ZddPrograms.

Section RenameZdd.
  Context {T U : Type} (r : T -> U).
  Fixpoint zrenamed (p : zexpr T) : zexpr U :=
    match p with
    | ZEEmpty => ZEEmpty
    | ZEUnit => ZEUnit
    | ZETree c => ZETree (map r c)
    | ZEUnique items => ZEUnique (map r items)
    | ZEHyper cs => ZEHyper (map (map r) cs)
    | ZEUnion a b => ZEUnion (zrenamed a) (zrenamed b)
    | ZEIntersect a b => ZEIntersect (zrenamed a) (zrenamed b)
    | ZEProduct a b => ZEProduct (zrenamed a) (zrenamed b)
    | ZERestrict a inc exc => ZERestrict (zrenamed a) (map r inc) (map r exc)
    end.
  Definition zstatus_renamed (s : zstatus T) : zstatus U :=
    match s with
    | ZRequired x => ZRequired (r x) | ZExcluded x => ZExcluded (r x)
    | ZAvailable x => ZAvailable (r x) | ZSelected x => ZSelected (r x)
    end.
  (** a diagram with every label renamed *)
  Fixpoint dd_renamed (t : dd T) : dd U :=
    match t with Leaf b => Leaf b | Branch i lo hi => Branch (r i) (dd_renamed lo) (dd_renamed hi) end.
End RenameZdd.

(** bowtie: items renamed by [r], families by [s] *)
Section RenameBdd.
  Context {I I' F F' : Type} (r : I -> I') (s : F -> F').
  Definition call_renamed (c : bcall I F) : bcall I' F' :=
    match c with
    | AddItem f i => AddItem (s f) (r i)
    | AddItems f l => AddItems (s f) (map r l)
    | AddExcl a x => AddExcl (r a) (r x)
    | AddExcls a l => AddExcls (r a) (map r l)
    | AddIncl a x => AddIncl (r a) (r x)
    | AddIncls a l => AddIncls (r a) (map r l)
    end.
  Definition status_renamed (x : status I) : status I' :=
    match x with Excluded i => Excluded (r i) | Available i => Available (r i) | Selected i => Selected (r i) end.
  Definition violation_renamed (v : violation I F) : violation I' F' :=
    match v with
    | MissingFamily i => MissingFamily (r i)
    | ConflictingFamilies i fs => ConflictingFamilies (r i) (map s fs)
    | InclusionError f l => InclusionError (s f) (map r l)
    | ExclusionError f l => ExclusionError (s f) (map r l)
    end.
  Definition build_error_renamed (e : build_error I F) : build_error I' F' :=
    match e with
    | Single v => Single (violation_renamed v)
    | CompoundError l => CompoundError (map violation_renamed l)
    end.
  Definition select_error_renamed (e : select_error I) : select_error I' :=
    match e with ExcludedItem i => ExcludedItem (r i) | UnknownItem i => UnknownItem (r i) end.
  Definition by_family (m : list (F * list I)) : list (F' * list I') :=
    map (fun p => (s (fst p), map r (snd p))) m.
  Definition outfit_error_renamed (e : outfit_error I F) : outfit_error I' F' :=
    match e with
    | UnknownItems l => UnknownItems (map r l)
    | IncompatibleSelections l => IncompatibleSelections (map r l)
    | MultipleItemsPerFamily m => MultipleItemsPerFamily (by_family m)
    end.
  Definition res_renamed {A A' E E' : Type} (g : A -> A') (k : E -> E') (x : res A E) : res A' E' :=
    match x with Ok a => Ok (g a) | Err e => Err (k e) end.
  Definition closet_renamed (c : closet I F) : closet I' F' :=
    mkC (map (fun p => (r (fst p), s (snd p))) (c_index c)) (map status_renamed (c_summary c)) (dd_renamed r (c_root c)).
End RenameBdd.

(** ** renamings that do not keep the order *)
Section Carried.
  Context {T U : Type} `{Ord T} `{Ord U} (r : T -> U).
  (** [t'] is the set [t] renamed, in ascending order *)
  Definition carried (t : list T) (t' : list U) : Prop := ssorted t' /\ same_elems t' (map r t).
  (** [ts'] is the family [ts], every set renamed *)
  Definition carried_family (ts : list (list T)) (ts' : list (list U)) : Prop :=
    NoDup ts' /\ length ts' = length ts /\
    (forall t', In t' ts' <-> exists t, In t ts /\ carried t t').
  (** the same counts for the renamed items, and no others *)
  Definition carried_counts (o : list (T * nat)) (o' : list (U * nat)) : Prop :=
    ssorted (map fst o') /\
    (forall y k, In (y, k) o' <-> exists x, y = r x /\ In (x, k) o).
End Carried.
