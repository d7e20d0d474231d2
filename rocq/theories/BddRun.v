(** BddRun: histories of calls on a [ClosetBuilder] and on the closets it builds,
    and the observable notions the bowtie properties speak of. *)
From Coq Require Import List Arith Lia Bool Permutation Sorted.
From Verif Require Import Base DD Spec BddSpec BddModel.
Import ListNotations.

Section BddRun.
  Context {I F : Type} `{Ord I} `{Ord F}.

  (** one call on the builder, bowtie-core/src/bdd/closet_builder/mod.rs L27-67 *)
  Definition b_call (b : builder I F) (c : bcall I F) : builder I F :=
    match c with
    | AddItem f i => add_item b f i
    | AddItems f l => add_items b f l
    | AddExcl s x => add_exclusion_rule b s x
    | AddExcls s l => add_exclusion_rules b s l
    | AddIncl s x => add_inclusion_rule b s x
    | AddIncls s l => add_inclusion_rules b s l
    end.
  (** [ClosetBuilder::new()] followed by the calls *)
  Definition run_calls (calls : list (bcall I F)) : builder I F := fold_left b_call calls b_new.

  (** [reached calls sels c]: [c] is what the builder with these calls builds,
      after accepted selections of [sels], in this order.  The hash iteration
      order may be a different one in every call. *)
  Inductive reached (calls : list (bcall I F)) : list I -> closet I F -> Prop :=
  | reached_build h c : build h (run_calls calls) = Ok c -> reached calls [] c
  | reached_select sels c h i c' :
      reached calls sels c -> select_item h c i = Ok c' -> reached calls (sels ++ [i]) c'.

  (** the violations [build] is to report *)
  Definition in_order (s x : I) : list I := if leb_ s x then [s; x] else [x; s].
  Inductive real_violation (calls : list (bcall I F)) : violation I F -> Prop :=
  | rv_conflict f0 f i :
      first_family calls i = Some f0 -> In (f, i) (adds calls) -> f <> f0 ->
      real_violation calls (ConflictingFamilies i [f0; f])
  | rv_selection s x :
      In (s, x) (excls calls) \/ In (s, x) (incls calls) -> ~ known calls s ->
      real_violation calls (MissingFamily s)
  | rv_item s x :
      In (s, x) (excls calls) \/ In (s, x) (incls calls) -> known calls s -> ~ known calls x ->
      real_violation calls (MissingFamily x)
  | rv_exclusion s x f :
      In (s, x) (excls calls) -> first_family calls s = Some f -> first_family calls x = Some f ->
      real_violation calls (ExclusionError f (in_order s x))
  | rv_inclusion s x f :
      In (s, x) (incls calls) -> first_family calls s = Some f -> first_family calls x = Some f ->
      real_violation calls (InclusionError f (in_order s x)).

  (** the outfits a closet still admits: known items, all the selected ones, and
      the diagram says yes *)
  Definition admits (c : closet I F) (o : list I) : Prop :=
    (forall i, In i o -> get_family c i <> None) /\
    (forall i, In (Selected i) (c_summary c) -> In i o) /\
    eval (fun i => memb i o) (c_root c) = true.
End BddRun.

(** nodes made from leaves and single-item branches with [&], [|], [restrict] and [reduce] *)
Inductive made {I : Type} `{Ord I} : dd I -> Prop :=
| made_leaf v : made (Leaf v)
| made_pos i : made (positive_branch i)
| made_neg i : made (negative_branch i)
| made_and a b : made a -> made b -> made (bitand a b)
| made_or a b : made a -> made b -> made (bitor a b)
| made_restrict a i v : made a -> made (restrict a i v)
| made_reduce a : made a -> made (reduce a).
