(** AgreeSpec: the family of sets a program of Forest-trait calls stands for, as a
    matter of mathematics, and which programs the zdd2 forests compute exactly.
    Nothing here mentions how either implementation works. *)
From Coq Require Import List Arith Lia Bool.
From Verif Require Import Base Spec MatrixModel.
Import ListNotations.

Section AgreeSpec.
  Context {T : Type} `{Ord T}.
  (** sets as ascending lists, families as ascending lists of sets *)
  Definition sets (l : list (list T)) : list (list T) := filter_repeats (map filter_repeats l).

  Fixpoint family (p : fexpr T) : list (list T) :=
    match p with
    | EEmpty => []
    | EUnit s => sets [s]
    | EMany m => sets m
    | EUnique s => sets (map (fun x => [x]) s)
    | EUnion a b => sets (family a ++ family b)
    | EIntersect a b => filter (fun t => memb t (family b)) (family a)
    | EProduct a b => sets (map (fun uv => fst uv ++ snd uv) (list_prod (family a) (family b)))
    | ESubset a e => filter (memb e) (family a)
    | ESubsetNot a e => filter (fun t => negb (memb e t)) (family a)
    | ESubsetAll a es => filter (fun t => forallb (fun e => memb e t) es) (family a)
    | ESubsetNone a es => filter (fun t => forallb (fun e => negb (memb e t)) es) (family a)
    end.
  (** Programs that come to a single set from more than one given or computed set
      (a repeated set in [many], equal unions in a product, ...); an intersection
      does if both operands do, a union if either does, and filters with elements never do. *)
  Fixpoint roundabout (p : fexpr T) : Prop :=
    match p with
    | EEmpty | EUnit _ | ESubset _ _ | ESubsetNot _ _ => False
    | EMany m => length (family p) = 1 /\ 2 <= length m
    | EUnique s => length (family p) = 1 /\ 2 <= length s
    | EUnion a b => length (family p) = 1 /\ (roundabout a \/ roundabout b)
    | EIntersect a b => length (family p) = 1 /\ roundabout a /\ roundabout b
    | EProduct a b => length (family p) = 1 /\ 2 <= length (family a) * length (family b)
    | ESubsetAll a es | ESubsetNone a es => es = [] /\ roundabout a
    end.
  (** the non-empty members *)
  Definition proper (ts : list (list T)) : list (list T) :=
    filter (fun t => match t with [] => false | _ => true end) ts.

  (** At every binary operation both operands are settled; at an intersection no member of one operand
      is a proper subset of a member of the other; at a product no operand has the empty set, and they
      share no item or one has at most one member; at a [subset_none] either all elements occur and
      (no member is a proper subset of another, or the elements are all the same), or none occurs. *)
  Definition both_settled (ts us : list (list T)) : Prop := settled ts us /\ settled us ts.
  Fixpoint orderly (p : fexpr T) : Prop :=
    match p with
    | EEmpty | EUnit _ | EMany _ | EUnique _ => True
    | EUnion a b => orderly a /\ orderly b /\ both_settled (proper (family a)) (proper (family b))
    | EIntersect a b => orderly a /\ orderly b /\ both_settled (proper (family a)) (proper (family b)) /\
        no_proper_subset (proper (family a)) (proper (family b)) /\ no_proper_subset (proper (family b)) (proper (family a))
    | EProduct a b => orderly a /\ orderly b /\ both_settled (family a) (family b) /\
        ~ In [] (family a) /\ ~ In [] (family b) /\
        (item_disjoint (family a) (family b) \/ at_most_one (family a) \/ at_most_one (family b))
    | ESubset a _ | ESubsetNot a _ | ESubsetAll a _ => orderly a
    | ESubsetNone a es => orderly a /\
        (((forall e, In e es -> exists t, In t (family a) /\ In e t) /\
          (no_proper_subset (proper (family a)) (proper (family a)) \/ exists e, forall x, In x es -> x = e)) \/
         (forall e t, In e es -> In t (family a) -> ~ In e t))
    end.

  (** What the zdd2 forests hold after a program, right or wrong, in terms of
      families only.  Like [family] with the empty set left out, except that
      - the operands of a binary operation are first [resorted] (Spec) by the added counts;
      - an intersection keeps what [met] says, a product what [same_rest] leaves of it;
      - [subset_none] keeps everything if one of the elements occurs nowhere, and
        otherwise meets the parts without each of the elements. *)
  Definition lists (ts : list (list T)) (P : list T -> Prop) : Prop :=
    well_listed ts /\ forall t, In t ts <-> t <> [] /\ P t.
  Definition resort_by (ts us es : list (list T)) : Prop :=
    resorted (count ts) (fun z => count ts z + count us z) ts es.
  Inductive held : fexpr T -> list (list T) -> Prop :=
  | held_empty ts : lists ts (fun _ => False) -> held EEmpty ts
  | held_unit s ts : lists ts (fun t => t = filter_repeats s) -> held (EUnit s) ts
  | held_many m ts : lists ts (fun t => exists s, In s m /\ t = filter_repeats s) -> held (EMany m) ts
  | held_unique s ts : lists ts (fun t => exists x, In x s /\ t = [x]) -> held (EUnique s) ts
  | held_union a b ta tb ea eb ts : held a ta -> held b tb -> resort_by ta tb ea -> resort_by tb ta eb ->
      lists ts (fun t => In t ea \/ In t eb) -> held (EUnion a b) ts
  | held_intersect a b ta tb ea eb ts : held a ta -> held b tb -> resort_by ta tb ea -> resort_by tb ta eb ->
      lists ts (met (fun z => count ta z + count tb z) ea eb) -> held (EIntersect a b) ts
  | held_product a b ta tb ea eb ts : held a ta -> held b tb -> resort_by ta tb ea -> resort_by tb ta eb ->
      lists ts (fun t => ssorted t /\ exists u v, In u ea /\ In v eb /\ is_union t u v /\
        let o := fun z => count ta z + count tb z in
        forall c, same_rest o c ea u eb v -> agree_after o c u v) -> held (EProduct a b) ts
  | held_subset a e ta ts : held a ta -> lists ts (fun t => In t ta /\ In e t) -> held (ESubset a e) ts
  | held_subset_not a e ta ts : held a ta -> lists ts (fun t => In t ta /\ ~ In e t) -> held (ESubsetNot a e) ts
  | held_subset_all a es ta ts : held a ta -> lists ts (fun t => In t ta /\ forall e, In e es -> In e t) ->
      held (ESubsetAll a es) ts
  | held_subset_none_off a es ta ts : held a ta ->
      (es = [] \/ exists e, In e es /\ forall t, In t ta -> ~ In e t) ->
      lists ts (fun t => In t ta) -> held (ESubsetNone a es) ts
  | held_subset_none a e es ta fs ts : held a ta ->
      (forall e', In e' (e :: es) -> exists t, In t ta /\ In e' t) ->
      met_all (count ta) ta (without e ta) es fs ->
      lists ts (fun t => In t fs) -> held (ESubsetNone a (e :: es)) ts.
End AgreeSpec.
