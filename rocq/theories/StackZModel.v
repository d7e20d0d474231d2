(** StackZModel: how deep the calls of the zdd API nest (compare StackModel.v, the same for zdd2).  In ZddProg.v a
    recursive call is run with one unit of fuel less than its caller, so the fuel of a call is the number of nested
    calls it may make, itself included; the loop of combinations (weave/src/zdd/tree/combinations.rs L34-56), a
    [while] that nests nothing, also counts its rounds with fuel.  Here the two are told apart: [depth] for the
    nesting, [loops] for the rounds.  With [depth] = [loops] this is ZddProg's [m_zcall] (proved:
    C102_is_the_program).  No proofs here. *)
From Coq Require Import List Arith NArith Lia Bool.
From Verif Require Import Base DD Spec Zdd2Model ZddModel ParserModel ArenaModel PoolModel ZddProg Growth2Spec.
Import ListNotations.
Open Scope nat_scope.

(** the longest way down a diagram *)
Fixpoint height {A} (t : dd A) : nat :=
  match t with Leaf _ => 0 | Branch _ lo hi => S (Nat.max (height lo) (height hi)) end.

(** the most parentheses of a text that are open at once; [now] are open before it *)
Fixpoint open_at_once (now : nat) (text : list N) : nat :=
  match text with
  | [] => now
  | c :: rest => Nat.max now (open_at_once (if N.eqb c 40 then S now else if N.eqb c 41 then pred now else now) rest)
  end.

Section StackZ.
  Context {T : Type} `{Ord T}.

  (** restrict, weave/src/zdd/tree/mod.rs L131-138 *)
  Definition zs_restrict (depth loops : nat) (t : mztree T) (inc exc : list T) : prog nat (mztree T) :=
    do cs <- m_zcombinations_with loops t inc exc ; m_zhyper depth (mz_univ t) cs.

  (** one call of the API (see [m_zcall] in ZddProg.v) *)
  Definition zs_call (depth loops : nat) (ts : list (mztree T)) (c : zcall T) : prog nat (list (mztree T) * zobs T) :=
    match c with
    | ZCEmpty items => mznew (Ret (mkMZ 0 (zu_from items))) ts
    | ZCUnit items => mznew (Ret (mkMZ 1 (zu_from items))) ts
    | ZCTree items c => mznew (m_ztree (zu_from items) c) ts
    | ZCUnique items xs => mznew (m_zunique depth (zu_from items) xs) ts
    | ZCHyper items cs => mznew (m_zhyper depth (zu_from items) cs) ts
    | ZCUnion i j => mznew (m_zop m_zunion depth (mzreg ts i) (mzreg ts j)) ts
    | ZCIntersect i j => mznew (m_zop m_zintersect depth (mzreg ts i) (mzreg ts j)) ts
    | ZCProduct i j => mznew (m_zop m_zproduct depth (mzreg ts i) (mzreg ts j)) ts
    | ZCRestrict i inc exc => mznew (zs_restrict depth loops (mzreg ts i) inc exc) ts
    | ZCCombinations i => do l <- m_zcombinations loops (mzreg ts i) ; Ret (ts, ZOSets l)
    | ZCCombinationsRec i => do l <- m_zcombinations_recursive depth (mzreg ts i) ; Ret (ts, ZOSets l)
    | ZCCombinationsWith i inc exc => do l <- m_zcombinations_with loops (mzreg ts i) inc exc ; Ret (ts, ZOSets l)
    | ZCSummarize h i inc exc => do l <- m_zsummarize loops h (mzreg ts i) inc exc ; Ret (ts, ZOStatus l)
    | ZCTraverse i => do o <- m_ztraverse depth (mz_univ (mzreg ts i)) (mz_root (mzreg ts i)) ; Ret (ts, ZOTree o)
    | ZCEq i j => Ret (ts, ZOBool (m_zeqb (mzreg ts i) (mzreg ts j)))
    | ZCSerialize i =>
        do n <- get_node (mz_root (mzreg ts i)) ;
        do s <- m_zprint depth n ;
        Ret (ts, ZOData (s, (zu_items (mz_univ (mzreg ts i)), zu_index (mz_univ (mzreg ts i)))))
    | ZCDeserialize d =>
        do x <- m_zparse depth (as_bytes (fst d)) ;
        match x with
        | POk _ n =>
            do i <- intern n ;
            Ret (ts ++ [mkMZ i (mkZU (fst (snd d)) (map_collect (snd (snd d))))], ZOBool true)
        | _ => Ret (ts, ZOBool false)
        end
    end.

  (** ** The bounds *)
  (** how often [c] lists [x]; how often the combination that lists it most does; and that, summed over the
      different items.  If no combination lists an item twice, this is the number of different items (proved:
      C102_widest). *)
  Definition times (x : T) (c : list T) : nat := length (filter (eqb_ x) c).
  Definition widest (cs : list (list T)) : nat :=
    list_sum (map (fun x => list_max (map (times x) cs)) (once (concat cs))).

  Definition zcall_depth (ts : list (ztree T)) (c : zcall T) : nat :=
    let levels i := height (zt_root (zreg ts i)) in
    match c with
    | ZCUnique _ xs => S (widest (map (fun x => [x]) xs))
    | ZCHyper _ cs => S (widest cs)
    | ZCUnion i j | ZCIntersect i j | ZCProduct i j => S (levels i + levels j)
    | ZCRestrict i inc exc => match z_combinations_with (zreg ts i) inc exc with Some cs => S (widest cs) | None => 0 end
    | ZCCombinationsRec i | ZCTraverse i | ZCSerialize i => S (levels i)
    | ZCDeserialize d => S (open_at_once 0 (as_bytes (fst d)))
    | _ => 0
    end.

  (** what the call works on: trees over the universe of [items] made from combinations without repeated items *)
  Definition zplain (items : list T) (ts : list (ztree T)) (c : zcall T) : Prop :=
    let plain i := ZReach (@NoDup T) (zu_from items) (zreg ts i) in
    match c with
    | ZCUnique _ xs => forall x, In x xs -> In x items
    | ZCHyper _ cs => forall c, In c cs -> NoDup c /\ forall x, In x c -> In x items
    | ZCUnion i j | ZCIntersect i j | ZCProduct i j => plain i /\ plain j
    | ZCRestrict i _ _ | ZCCombinationsRec i | ZCTraverse i | ZCSerialize i => plain i
    | ZCDeserialize _ => False
    | _ => True
    end.
End StackZ.
