(** LoadModel: the zdd2 pool again, with the calls that turn forests into data and
    data into forests, and with threads that may panic.

    [LoadModel] adds to the calls of Zdd2Prog.v the ones that Zdd2Prog.v lacks:
    [Serialize], [Deserialize] and [{:?}] of a [Forest].  Data that was not
    written by [Serialize] can make a later call panic (an [unwrap] on [None] in
    [translate_root] or in [fmt_inner]); the panic ends the thread that makes the
    call.  It happens outside the critical sections of the arena, so no lock is
    poisoned.  No proofs in this file. *)
From Coq Require Import List Arith NArith Lia Bool Permutation Sorted.
From Verif Require Import Base DD Zdd2Model ParserModel ArenaModel PoolModel Zdd2Prog.
Import ListNotations.
Open Scope nat_scope.

(** build_node_string, weave/src/zdd2/forest/node/parser.rs L12-23: each child id is
    turned into its node ([node.into()]) when its text is built *)
Fixpoint m_print (fuel : nat) (n : znode) : zprog (list N) :=
  match fuel with
  | O => OutOfFuel
  | S k =>
      match n with
      | GLeaf true => Ret text_always
      | GLeaf false => Ret text_never
      | GBranch id low high =>
          do l <- get_node low ;
          do sl <- m_print k l ;
          do h <- get_node high ;
          do sh <- m_print k h ;
          Ret ([40%N] ++ decimal (N.of_nat id) ++ [32%N] ++ sl ++ [32%N] ++ sh ++ [41%N])
      end
  end.

(** [named!(node<Node>, ...)], weave/src/zdd2/forest/node/parser.rs L40-52 *)
Fixpoint m_parse (fuel : nat) (i : list N) : zprog (presult znode) :=
  match fuel with
  | O => OutOfFuel
  | S k =>
      match tag text_always i with
      | Some r => Ret (POk r (GLeaf true))
      | None =>
          match tag text_never i with
          | Some r => Ret (POk r (GLeaf false))
          | None =>
              match tag [40%N] i with
              | None => Ret PErr
              | Some i1 =>
                  match ws node_id i1 with
                  | POk i2 id =>
                      do x <- m_parse k (sp i2) ;
                      match x with
                      | POk i3 low =>
                          do y <- m_parse k (sp (sp i3)) ;
                          match y with
                          | POk i4 high =>
                              match tag [41%N] (sp i4) with
                              | None => Ret PErr
                              | Some r =>
                                  do n <- m_branch k (N.to_nat id) (ANode low) (ANode high) ;
                                  Ret (POk r n)
                              end
                          | z => Ret z
                          end
                      | z => Ret z
                      end
                  | _ => Ret PErr
                  end
              end
          end
      end
  end.

Section Load.
  Context {T : Type} `{Ord T}.

  (** fmt_inner, weave/src/zdd2/forest/mod.rs L38-54.  The arguments of [format!]
      are evaluated from left to right: the [unwrap] comes before the children. *)
  Fixpoint m_fmt_inner (show : T -> list N) (fuel : nat) (u : universe T) (root : znode) (indent : nat) : zprog (list N) :=
    match fuel with
    | O => OutOfFuel
    | S k =>
        match root with
        | GBranch id low high =>
            match get_item u id with
            | None => Panic
            | Some item =>
                do l <- get_node low ;
                do lo <- m_fmt_inner show k u l (S indent) ;
                do h <- get_node high ;
                do hi <- m_fmt_inner show k u h (S indent) ;
                let bars := concat (repeat [124; 32]%N indent) in
                Ret ([80; 114; 105; 111; 114; 105; 116; 121; 40]%N ++ decimal (N.of_nat id) ++ [41; 58; 32]%N ++ show item ++ [10]%N ++
                     bars ++ lo ++ [10]%N ++ bars ++ hi)
            end
        | GLeaf true => Ret [65; 108; 119; 97; 121; 115]%N
        | GLeaf false => Ret [78; 101; 118; 101; 114]%N
        end
    end.
  (** L31-35 *)
  Definition m_debug (show : T -> list N) (fuel : nat) (f : mforest T) : zprog (list N) :=
    do n <- get_node (mf_root f) ;
    do s <- m_fmt_inner show fuel (mf_univ f) n 1 ;
    Ret ([10%N] ++ s).

  (** ** Client code: a call of Zdd2Prog.v or one of the three new ones *)
  Inductive lcall :=
  | LBase (c : call T)
  | LSerialize (i : nat)
  | LDeserialize (h : hash_order) (d : list N * list (T * nat))
  | LDebug (show : T -> list N) (i : nat).
  Inductive lobs :=
  | LOBase (o : obs T)
  | LOData (d : list N * list (T * nat))
  | LOLoaded (accepted : bool)
  | LOText (s : list N).

  (** ... on values; [None] is a panic *)
  Definition l_call (fs : list (forest T)) (c : lcall) : option (list (forest T) * lobs) :=
    match c with
    | LBase c => let! x := run_call fs c in Some (fst x, LOBase (snd x))
    | LSerialize i => Some (fs, LOData (f_serialize (reg fs i)))
    | LDeserialize h d =>
        match f_deserialize h d with
        | Some f => Some (fs ++ [f], LOLoaded true)
        | None => Some (fs, LOLoaded false)
        end
    | LDebug show i => let! s := f_debug show (reg fs i) in Some (fs, LOText s)
    end.

  (** ... and on ids, against the shared arena.  Serialize for NodeId,
      weave/src/zdd2/forest/node/serialize.rs L10-15; Deserialize for NodeId, L52-57: the parsed node is
      interned; the universe touches no shared state (weave/src/zdd2/forest/universe/serialize.rs L12-17, L30-32) *)
  Definition m_lcall (fuel : nat) (ms : list (mforest T)) (c : lcall) : zprog (list (mforest T) * lobs) :=
    match c with
    | LBase c => do x <- m_call fuel ms c ; Ret (fst x, LOBase (snd x))
    | LSerialize i =>
        do n <- get_node (mf_root (mreg ms i)) ;
        do s <- m_print fuel n ;
        Ret (ms, LOData (s, u_occ (mf_univ (mreg ms i))))
    | LDeserialize h d =>
        do x <- m_parse fuel (as_bytes (trim (fst d))) ;
        match x with
        | POk _ n =>
            do i <- intern2 n ;
            Ret (ms ++ [mkMF i (from_occurrences h site_new (map_collect (snd d)))], LOLoaded true)
        | _ => Ret (ms, LOLoaded false)
        end
    | LDebug show i => do s <- m_debug show fuel (mreg ms i) ; Ret (ms, LOText s)
    end.
End Load.
Arguments lcall T : clear implicits.
Arguments lobs T : clear implicits.
Notation lpool T := (gpool nat (mforest T) (lcall T) (lobs T)).
Notation lreach := (gpool_reach m_lcall).
