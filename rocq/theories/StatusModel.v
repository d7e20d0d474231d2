(** StatusModel: the methods with which a caller reads an item's status. *)
From Coq Require Import List Bool.
From Verif Require Import Base ZddModel BddModel.
Import ListNotations.

(** impl ItemStatus<T>, weave/src/status.rs L12-84 *)
Section Zstatus.
  Context {T : Type} `{Ord T}.
  (** item, L13-20 *)
  Definition zs_item (s : zstatus T) : T :=
    match s with
    | ZRequired x => x | ZExcluded x => x | ZAvailable x => x | ZSelected x => x
    end.
  (** is_required, L22-29 *)
  Definition zs_is_required (s : zstatus T) : bool :=
    match s with ZRequired _ => true | ZExcluded _ => false | ZAvailable _ => false | ZSelected _ => false end.
  (** is_excluded, L31-38 *)
  Definition zs_is_excluded (s : zstatus T) : bool :=
    match s with ZRequired _ => false | ZExcluded _ => true | ZAvailable _ => false | ZSelected _ => false end.
  (** is_available, L40-47 *)
  Definition zs_is_available (s : zstatus T) : bool :=
    match s with ZRequired _ => false | ZExcluded _ => false | ZAvailable _ => true | ZSelected _ => false end.
  (** is_selected, L49-56 *)
  Definition zs_is_selected (s : zstatus T) : bool :=
    match s with ZRequired _ => false | ZExcluded _ => false | ZAvailable _ => false | ZSelected _ => true end.
  (** is, L58-65 *)
  Definition zs_is (s : zstatus T) (other : T) : bool :=
    match s with
    | ZRequired inner => eqb_ inner other | ZExcluded inner => eqb_ inner other
    | ZAvailable inner => eqb_ inner other | ZSelected inner => eqb_ inner other
    end.
End Zstatus.

Section ZstatusMap.
  Context {T U : Type}.
  (** option_map, L67-74 *)
  Definition zs_option_map (s : zstatus T) (f : T -> option U) : option (zstatus U) :=
    match s with
    | ZRequired x => option_map ZRequired (f x)
    | ZExcluded x => option_map ZExcluded (f x)
    | ZAvailable x => option_map ZAvailable (f x)
    | ZSelected x => option_map ZSelected (f x)
    end.
  (** map, L76-83 *)
  Definition zs_map (s : zstatus T) (f : T -> U) : zstatus U :=
    match s with
    | ZRequired x => ZRequired (f x) | ZExcluded x => ZExcluded (f x)
    | ZAvailable x => ZAvailable (f x) | ZSelected x => ZSelected (f x)
    end.
End ZstatusMap.

(** impl ItemStatus, bowtie-core/src/core.rs L41-72; [is_excluded] (L42-48), [is_selected]
    (L58-64) and [is] (L66-72) are [is_excluded], [is_selected] and [status_is] of BddModel,
    where bowtie-core/src/bdd/closet/select.rs uses them *)
Section Bstatus.
  Context {I : Type} `{Ord I}.
  (** is_available, L50-56 *)
  Definition is_available (s : status I) : bool :=
    match s with Excluded _ => false | Available _ => true | Selected _ => false end.
End Bstatus.
