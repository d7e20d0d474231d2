(** MatrixModel: the [matrix] implementation of [Forest], and [Tree] (which is
    the same code in matrix/tree and zdd2/tree).

    A [HashSet] is its content, as the strictly sorted list of its elements
    (so derived [==] on sets is equality of lists); what the program sees when
    it iterates a set is [ho_iter h site], an arbitrary permutation. *)
From Coq Require Import List Arith Lia Bool Permutation Sorted.
From Verif Require Import Base DD Spec Zdd2Model.
Import ListNotations.

(** the content of a set into which the elements of [l] were inserted *)
Definition hset {A} `{Ord A} (l : list A) : list A := filter_repeats l.
(** [HashSet::par_is_subset] *)
Definition set_subset {A} `{Ord A} (a b : list A) : bool := forallb (fun x => memb x b) a.
(** [HashSet::par_union], [HashSet::par_intersection]: the elements produced *)
Definition set_union {A} `{Ord A} (a b : list A) : list A := a ++ filter (fun x => negb (memb x a)) b.
Definition set_inter {A} `{Ord A} (a b : list A) : list A := filter (fun x => memb x b) a.

(** ** Forest, weave/src/matrix/forest/mod.rs L13-18 *)
Inductive mforest (T : Type) : Type :=
| MEmpty
| MUnit (set : list T)
| MMany (matrix : list (list T)).
Arguments MEmpty {T}.
Arguments MUnit {T} set.
Arguments MMany {T} matrix.

(** hash-order sites: iteration of the first set, of the second set, of the
    result of a parallel set operation, of the occurrence map *)
Definition site_m1 := 10.
Definition site_m2 := 11.
Definition site_par := 12.
Definition site_occ := 13.

Section MForest.
  Context {T : Type} `{Ord T}.

  (** [==]: derived, L13 *)
  Definition m_eqb (f g : mforest T) : bool :=
    match f, g with
    | MEmpty, MEmpty => true
    | MUnit a, MUnit b => eqb_ a b
    | MMany a, MMany b => eqb_ a b
    | _, _ => false
    end.

  (** Into<Vec<Vec<T>>>, L20-43; [trees], weave/src/matrix/mod.rs L37-39 *)
  Definition m_trees (h : hash_order) (f : mforest T) : list (list T) :=
    match f with
    | MEmpty => []
    | MUnit set => [set]
    | MMany matrix => ho_iter h site_m1 matrix
    end.

  (** empty, L46-48 *)
  Definition m_empty : mforest T := MEmpty.

  (** unit, L50-52 *)
  Definition m_unit (set : list T) : mforest T := MUnit (filter_repeats set).

  (** many, L54-68 *)
  Definition m_many (matrix : list (list T)) : mforest T :=
    match matrix with
    | [] => m_empty
    | [row] => m_unit row
    | _ => MMany (hset (unique (map filter_repeats matrix)))
    end.

  (** unique, L70-77 *)
  Definition m_unique (set : list T) : mforest T := m_many (map (fun e => [e]) set).

  (** len, L83-89 *)
  Definition m_len (f : mforest T) : nat :=
    match f with MEmpty => 0 | MUnit _ => 1 | MMany matrix => length matrix end.

  (** is_empty, L91-96 *)
  Definition m_is_empty (f : mforest T) : bool :=
    match f with MEmpty => true | _ => false end.

  (** occurrences, L98-116 *)
  Definition m_occurrences (h : hash_order) (f : mforest T) : list (T * nat) :=
    match f with
    | MEmpty => []
    | MUnit set => map (fun x => (x, 1)) set
    | MMany matrix =>
        sort_by (fun p q => leb_ (fst p) (fst q))
          (ho_iter h site_occ
             (fold_left (fun m x => map_update m x (incr 1)) (concat (ho_iter h site_m1 matrix)) []))
    end.

  (** union, weave/src/matrix/forest/union.rs L7-45 *)
  Definition m_union (h : hash_order) (f1 f2 : mforest T) : mforest T :=
    if m_eqb f1 f2 then f1
    else match f1, f2 with
         | _, MEmpty => f1
         | MEmpty, _ => f2
         | MUnit set1, MUnit set2 => m_many [set1; set2]
         | MMany matrix, MUnit set => m_many (ho_iter h site_m1 matrix ++ [set])
         | MUnit set, MMany matrix => m_many (ho_iter h site_m1 matrix ++ [set])
         | MMany matrix1, MMany matrix2 =>
             if set_subset matrix1 matrix2 then f2
             else if set_subset matrix2 matrix1 then f1
             else m_many (ho_iter h site_par (set_union matrix1 matrix2))
         end.

  (** intersect, weave/src/matrix/forest/intersect.rs L7-24 *)
  Definition m_intersect (h : hash_order) (f1 f2 : mforest T) : mforest T :=
    if m_eqb f1 f2 then f1
    else match f1, f2 with
         | _, MEmpty => m_empty
         | MEmpty, _ => m_empty
         | MMany matrix, MUnit set => if memb set matrix then f2 else m_empty
         | MUnit set, MMany matrix => if memb set matrix then f1 else m_empty
         | MMany matrix1, MMany matrix2 => m_many (ho_iter h site_par (set_inter matrix1 matrix2))
         | _, _ => m_empty
         end.

  (** many_to_matrix, weave/src/matrix/forest/product.rs L38-47 *)
  Definition many_to_matrix (h : hash_order) (matrix : list (list T)) (set2 : list T) : mforest T :=
    m_many (map (fun set1 => set1 ++ set2) (ho_iter h site_m1 matrix)).

  (** product, weave/src/matrix/forest/product.rs L7-36 *)
  Definition m_product (h : hash_order) (f1 f2 : mforest T) : mforest T :=
    match f1, f2 with
    | _, MEmpty => m_empty
    | MEmpty, _ => m_empty
    | MUnit set1, MUnit set2 => m_unit (set1 ++ set2)
    | MMany matrix, MUnit set => many_to_matrix h matrix set
    | MUnit set, MMany matrix => many_to_matrix h matrix set
    | MMany matrix1, MMany matrix2 =>
        m_many (flat_map (fun set1 => map (fun set2 => set1 ++ set2) (ho_iter h site_m2 matrix2))
                         (ho_iter h site_m1 matrix1))
    end.

  (** subset, weave/src/matrix/forest/subset.rs L5-18 *)
  Definition m_subset (h : hash_order) (f : mforest T) (element : T) : mforest T :=
    match f with
    | MUnit set => if memb element set then f else m_empty
    | MMany matrix => m_many (filter (fun set => memb element set) (ho_iter h site_m1 matrix))
    | MEmpty => m_empty
    end.

  (** subset_not, weave/src/matrix/forest/subset.rs L20-33 *)
  Definition m_subset_not (h : hash_order) (f : mforest T) (element : T) : mforest T :=
    match f with
    | MUnit set => if negb (memb element set) then f else m_empty
    | MMany matrix => m_many (filter (fun set => negb (memb element set)) (ho_iter h site_m1 matrix))
    | MEmpty => m_empty
    end.

  (** subset_all, weave/src/matrix/forest/subset.rs L35-57 *)
  Definition m_subset_all (h : hash_order) (f : mforest T) (elements : list T) : mforest T :=
    match elements with
    | [] => f
    | _ =>
        match f with
        | MUnit set => if forallb (fun e => memb e set) elements then f else m_empty
        | MMany matrix =>
            m_many (filter (fun set => forallb (fun e => memb e set) elements) (ho_iter h site_m1 matrix))
        | MEmpty => m_empty
        end
    end.

  (** subset_none, weave/src/matrix/forest/subset.rs L59-81 *)
  Definition m_subset_none (h : hash_order) (f : mforest T) (elements : list T) : mforest T :=
    match elements with
    | [] => f
    | _ =>
        match f with
        | MUnit set => if forallb (fun e => negb (memb e set)) elements then f else m_empty
        | MMany matrix =>
            m_many (filter (fun set => forallb (fun e => negb (memb e set)) elements) (ho_iter h site_m1 matrix))
        | MEmpty => m_empty
        end
    end.

  (** Everything a client obtains through the trait's functions, each call with
      its own hash iteration orders.  (The enum's variants are public in the
      code; forests assembled by hand from them are in HandModel.) *)
  Inductive MReach : mforest T -> Prop :=
  | MR_empty : MReach m_empty
  | MR_unit items : MReach (m_unit items)
  | MR_many rows : MReach (m_many rows)
  | MR_unique items : MReach (m_unique items)
  | MR_union h f g : MReach f -> MReach g -> MReach (m_union h f g)
  | MR_intersect h f g : MReach f -> MReach g -> MReach (m_intersect h f g)
  | MR_product h f g : MReach f -> MReach g -> MReach (m_product h f g)
  | MR_subset h f e : MReach f -> MReach (m_subset h f e)
  | MR_subset_not h f e : MReach f -> MReach (m_subset_not h f e)
  | MR_subset_all h f es : MReach f -> MReach (m_subset_all h f es)
  | MR_subset_none h f es : MReach f -> MReach (m_subset_none h f es).
End MForest.

(** ** Tree, weave/src/matrix/tree/mod.rs L11-17 (identical:
    weave/src/zdd2/tree/mod.rs L11-17) *)
Inductive tree (T : Type) : Type :=
| TEmpty
| TOne (element : T)
| TMany (set : list T).
Arguments TEmpty {T}.
Arguments TOne {T} element.
Arguments TMany {T} set.

Section Tree.
  Context {T : Type} `{Ord T}.

  (** derived [PartialEq], weave/src/matrix/tree/mod.rs L12, weave/src/zdd2/tree/mod.rs L12 *)
  Definition t_eqb (t u : tree T) : bool :=
    match t, u with
    | TEmpty, TEmpty => true
    | TOne a, TOne b => eqb_ a b
    | TMany a, TMany b => eqb_ a b
    | _, _ => false
    end.

  (** Into<Vec<T>>, L25-33 *)
  Definition t_elems (h : hash_order) (t : tree T) : list T :=
    match t with
    | TEmpty => []
    | TOne e => [e]
    | TMany set => ho_iter h site_m1 set
    end.

  (** empty, one, many: L36-58 (weave/src/zdd2/tree/mod.rs L36-59 builds the set with
      [fold] instead of [for_each]: the same insertions in the same order) *)
  Definition t_empty : tree T := TEmpty.
  Definition t_one (e : T) : tree T := TOne e.
  Definition t_many (elements : list T) : tree T :=
    match elements with
    | [] => TEmpty
    | [e] => TOne e
    | _ => TMany (hset elements)
    end.

  (** len, L60-66 *)
  Definition t_len (t : tree T) : nat :=
    match t with TEmpty => 0 | TOne _ => 1 | TMany set => length set end.
  (** is_empty, L68-73 *)
  Definition t_is_empty (t : tree T) : bool := match t with TEmpty => true | _ => false end.

  (** union, weave/src/matrix/tree/union.rs L7-30 (= weave/src/zdd2/tree/union.rs) *)
  Definition t_union (h : hash_order) (t1 t2 : tree T) : tree T :=
    if t_eqb t1 t2 then t1
    else match t1, t2 with
         | _, TEmpty => t1
         | TEmpty, _ => t2
         | TOne e1, TOne e2 => t_many [e1; e2]
         | TMany set, TOne e => if memb e set then t1 else TEmpty
         | TOne e, TMany set => if memb e set then t2 else TEmpty
         | TMany set1, TMany set2 =>
             if set_subset set1 set2 then t2
             else if set_subset set2 set1 then t1
             else t_many (ho_iter h site_par (set_union set1 set2))
         end.

  (** intersect, weave/src/matrix/tree/intersect.rs L7-33 (= weave/src/zdd2/tree/intersect.rs) *)
  Definition t_intersect (h : hash_order) (t1 t2 : tree T) : tree T :=
    if t_eqb t1 t2 then t1
    else match t1, t2 with
         | _, TEmpty => TEmpty
         | TEmpty, _ => TEmpty
         | TMany set, TOne e => if memb e set then t2 else TEmpty
         | TOne e, TMany set => if memb e set then t1 else TEmpty
         | TMany set1, TMany set2 =>
             if set_subset set1 set2 then t1
             else if set_subset set2 set1 then t2
             else t_many (ho_iter h site_par (set_inter set1 set2))
         | TOne _, TOne _ => TEmpty
         end.

  (** one_to_many and many_to_many, weave/src/matrix/tree/product.rs L22-40
      (= weave/src/zdd2/tree/product.rs): the rows handed to [Forest::many] *)
  Definition one_to_many_rows (h : hash_order) (a : T) (set : list T) : list (list T) :=
    map (fun b => [a; b]) (ho_iter h site_m1 set).
  Definition many_to_many_rows (h : hash_order) (set1 set2 : list T) : list (list T) :=
    flat_map (fun e1 => map (fun e2 => [e1; e2]) (ho_iter h site_m2 set2)) (ho_iter h site_m1 set1).

  (** product, L8-20; the two copies differ only in the [Forest] they build *)
  Definition t_product_with {F} (femp : F) (funit : list T -> F) (fmany : list (list T) -> F)
      (h : hash_order) (t1 t2 : tree T) : F :=
    match t1, t2 with
    | _, TEmpty => femp
    | TEmpty, _ => femp
    | TOne e1, TOne e2 => funit [e1; e2]
    | TOne e, TMany set => fmany (one_to_many_rows h e set)
    | TMany set, TOne e => fmany (one_to_many_rows h e set)
    | TMany set1, TMany set2 => fmany (many_to_many_rows h set1 set2)
    end.
  (** weave/src/matrix/tree/product.rs L8 *)
  Definition t_product_m (h : hash_order) : tree T -> tree T -> mforest T :=
    t_product_with m_empty m_unit m_many h.
  (** weave/src/zdd2/tree/product.rs L8 *)
  Definition t_product_z (h : hash_order) : tree T -> tree T -> option (forest T) :=
    t_product_with (Some f_empty) (f_unit h) (f_many h) h.

  (** Everything a client obtains through the trait's functions *)
  Inductive TReach : tree T -> Prop :=
  | TR_empty : TReach t_empty
  | TR_one e : TReach (t_one e)
  | TR_many es : TReach (t_many es)
  | TR_union h t u : TReach t -> TReach u -> TReach (t_union h t u)
  | TR_intersect h t u : TReach t -> TReach u -> TReach (t_intersect h t u).
End Tree.

(** ** Programs of Forest-trait calls (weave/src/types.rs L2-23), run by either
    implementation; every call may see its own hash iteration orders *)
Section Programs.
  Context {T : Type} `{Ord T}.

  Inductive fexpr : Type :=
  | EEmpty
  | EUnit (set : list T)
  | EMany (matrix : list (list T))
  | EUnique (set : list T)
  | EUnion (a b : fexpr)
  | EIntersect (a b : fexpr)
  | EProduct (a b : fexpr)
  | ESubset (a : fexpr) (e : T)
  | ESubsetNot (a : fexpr) (e : T)
  | ESubsetAll (a : fexpr) (es : list T)
  | ESubsetNone (a : fexpr) (es : list T).

  (** running with the zdd2 forests *)
  Inductive runz : fexpr -> forest T -> Prop :=
  | Z_empty : runz EEmpty f_empty
  | Z_unit h s f : f_unit h s = Some f -> runz (EUnit s) f
  | Z_many h m f : f_many h m = Some f -> runz (EMany m) f
  | Z_unique h s f : f_unique h s = Some f -> runz (EUnique s) f
  | Z_union h a b f g r : runz a f -> runz b g -> f_union h f g = Some r -> runz (EUnion a b) r
  | Z_intersect h a b f g r : runz a f -> runz b g -> f_intersect h f g = Some r -> runz (EIntersect a b) r
  | Z_product h a b f g r : runz a f -> runz b g -> f_product h f g = Some r -> runz (EProduct a b) r
  | Z_subset h a f e r : runz a f -> f_subset h f e = Some r -> runz (ESubset a e) r
  | Z_subset_not h a f e r : runz a f -> f_subset_not h f e = Some r -> runz (ESubsetNot a e) r
  | Z_subset_all h a f es r : runz a f -> f_subset_all h f es = Some r -> runz (ESubsetAll a es) r
  | Z_subset_none h a f es r : runz a f -> f_subset_none h f es = Some r -> runz (ESubsetNone a es) r.

  (** running with the matrix forests *)
  Inductive runm : fexpr -> mforest T -> Prop :=
  | X_empty : runm EEmpty m_empty
  | X_unit s : runm (EUnit s) (m_unit s)
  | X_many m : runm (EMany m) (m_many m)
  | X_unique s : runm (EUnique s) (m_unique s)
  | X_union h a b f g : runm a f -> runm b g -> runm (EUnion a b) (m_union h f g)
  | X_intersect h a b f g : runm a f -> runm b g -> runm (EIntersect a b) (m_intersect h f g)
  | X_product h a b f g : runm a f -> runm b g -> runm (EProduct a b) (m_product h f g)
  | X_subset h a f e : runm a f -> runm (ESubset a e) (m_subset h f e)
  | X_subset_not h a f e : runm a f -> runm (ESubsetNot a e) (m_subset_not h f e)
  | X_subset_all h a f es : runm a f -> runm (ESubsetAll a es) (m_subset_all h f es)
  | X_subset_none h a f es : runm a f -> runm (ESubsetNone a es) (m_subset_none h f es).

  (** the items the program mentions in its constructors *)
  Fixpoint mentions (p : fexpr) : list T :=
    match p with
    | EEmpty => []
    | EUnit s | EUnique s => s
    | EMany m => concat m
    | EUnion a b | EIntersect a b | EProduct a b => mentions a ++ mentions b
    | ESubset a _ | ESubsetNot a _ | ESubsetAll a _ | ESubsetNone a _ => mentions a
    end.

  (** no constructor call of the program is given the empty set as a member *)
  Fixpoint no_empty_row (p : fexpr) : Prop :=
    match p with
    | EEmpty | EUnique _ => True
    | EUnit s => s <> []
    | EMany m => ~ In [] m
    | EUnion a b | EIntersect a b | EProduct a b => no_empty_row a /\ no_empty_row b
    | ESubset a _ | ESubsetNot a _ | ESubsetAll a _ | ESubsetNone a _ => no_empty_row a
    end.

  (** the operands of every binary operation mention no common item; every
      [subset_none] is given at most one distinct element; the operands of every
      [product] are built without the empty set *)
  Fixpoint tame (p : fexpr) : Prop :=
    match p with
    | EEmpty | EUnit _ | EMany _ | EUnique _ => True
    | EUnion a b | EIntersect a b =>
        tame a /\ tame b /\ (forall x, In x (mentions a) -> ~ In x (mentions b))
    | EProduct a b =>
        tame a /\ tame b /\ (forall x, In x (mentions a) -> ~ In x (mentions b)) /\
        no_empty_row a /\ no_empty_row b
    | ESubset a _ | ESubsetNot a _ | ESubsetAll a _ => tame a
    | ESubsetNone a es => tame a /\ (forall x y, In x es -> In y es -> x = y)
    end.
End Programs.
Arguments fexpr T : clear implicits.
