(** ParserSpec: the text form of a diagram, with free layout. *)
From Coq Require Import List Arith NArith Lia Bool.
From Verif Require Import Base DD.
Import ListNotations.
Open Scope N_scope.

(** spaces, tabs, carriage returns, line feeds *)
Definition blank (w : list N) : Prop := forall c, In c w -> c = 32 \/ c = 9 \/ c = 13 \/ c = 10.

(** the characters with the Unicode property White_Space *)
Definition white_space (c : N) : Prop :=
  In c [9; 10; 11; 12; 13; 32; 0x85; 0xA0; 0x1680; 0x2000; 0x2001; 0x2002; 0x2003; 0x2004; 0x2005; 0x2006;
        0x2007; 0x2008; 0x2009; 0x200A; 0x2028; 0x2029; 0x202F; 0x205F; 0x3000].
Definition white (w : list N) : Prop := forall c, In c w -> white_space c.

(** [ds] is a non-empty decimal numeral (leading zeros allowed) of value [v] *)
Definition digits (ds : list N) : Prop := forall c, In c ds -> 48 <= c <= 57.
Fixpoint numeral_from (acc : N) (ds : list N) : N :=
  match ds with [] => acc | d :: ds' => numeral_from (10 * acc + (d - 48)) ds' end.
Definition numeral (ds : list N) (v : N) : Prop := ds <> [] /\ digits ds /\ numeral_from 0 ds = v.

(** [spells a b n s]: the bytes [s] are a text of the diagram [n]: a leaf is
    "(a)" or "(b)"; a branch is "(", its label, the low and the high child, ")",
    with any blanks in between.  Labels are below 2^64. *)
Inductive spells (a b : N) : dd nat -> list N -> Prop :=
| sp_true : spells a b (Leaf true) [40; a; 41]
| sp_false : spells a b (Leaf false) [40; b; 41]
| sp_branch v low high w1 ds w2 sl w3 sh w4 :
    numeral ds v -> v < 2 ^ 64 ->
    blank w1 -> blank w2 -> blank w3 -> blank w4 ->
    spells a b low sl -> spells a b high sh ->
    spells a b (Branch (N.to_nat v) low high) ([40] ++ w1 ++ ds ++ w2 ++ sl ++ w3 ++ sh ++ w4 ++ [41]).

(** the diagram built from a text bottom up, with the constructor [mk] *)
Fixpoint build (mk : nat -> dd nat -> dd nat -> option (dd nat)) (n : dd nat) : option (dd nat) :=
  match n with
  | Leaf v => Some (Leaf v)
  | Branch i low high =>
      let! low' := build mk low in
      let! high' := build mk high in
      mk i low' high'
  end.

(** every label fits 64 bits *)
Definition fits (n : dd nat) : Prop := forall i, In i (labels n) -> N.of_nat i < 2 ^ 64.

(** Reading a text that may ask for the same label more than once on a path:
    walk down taking the high child exactly at the labels in [s]; the answer is
    the list of labels taken, if the walk ends in the [true] leaf.  The text
    spells the set [s] if the walk along [s] takes all of [s]. *)
Fixpoint walk (s : list nat) (t : dd nat) : option (list nat) :=
  match t with
  | Leaf true => Some []
  | Leaf false => None
  | Branch i low high =>
      if existsb (Nat.eqb i) s then option_map (cons i) (walk s high) else walk s low
  end.
Definition spells_set (t : dd nat) (s : list nat) : Prop :=
  exists p, walk s t = Some p /\ (forall i, In i s <-> In i p).

(** labels never decrease downwards (they may repeat) *)
Fixpoint weakly_ordered (t : dd nat) : Prop :=
  match t with
  | Leaf _ => True
  | Branch i low high =>
      (forall j, In j (labels low) \/ In j (labels high) -> (i <= j)%nat) /\
      weakly_ordered low /\ weakly_ordered high
  end.

(** texts of one line *)
Definition one_line (s : list N) : Prop := ~ In 10 s.

(** What the zdd2 parser makes of a text whose labels are in any order.  A family
    is a predicate on label lists.  [leading y fs]: [y] is the first label of [fs];
    [off y] / [rest y]: the members without [y] / the members starting with [y],
    without it. *)
Definition family := list nat -> Prop.
Definition leading (y : nat) (fs : family) : Prop :=
  (exists s, fs (y :: s)) /\ forall t z, fs t -> In z t -> (y <= z)%nat.
Definition off (y : nat) (fs : family) : family := fun t => fs t /\ ~ In y t.
Definition rest (y : nat) (fs : family) : family := fun t => fs (y :: t).
(** [es] is [ls] with the members of [hs] put behind [y], replacing those of [ls]
    that start with [y] *)
Definition behind (y : nat) (ls hs es : family) : Prop :=
  forall t, es t <-> (ls t /\ hd_error t <> Some y) \/ exists s, hs s /\ t = y :: s.

(** [placed x ls hs es]: the text "(x low high)", where [low] came out as [ls] and
    [high] as [hs], comes out as [es].
    - no member in [hs]: as [ls];
    - all labels of [hs] above [x]: [hs] goes behind [x];
    - [x] is the first label of [hs]: its members that start with [x] stay, those
      without [x] are lost;
    - [y < x] is the first label of both: the parts with and without [y] are
      placed separately;
    - [y < x] is the first label of [hs] only: the members of [hs] are placed
      under [x] as if those without [y] were the low side, and all goes behind [y]. *)
Inductive placed (x : nat) : family -> family -> family -> Prop :=
| placed_none (ls hs es : family) : (forall t, ~ hs t) -> (forall t, es t <-> ls t) -> placed x ls hs es
| placed_top (ls hs es : family) : (exists t, hs t) -> (forall t z, hs t -> In z t -> (x < z)%nat) ->
    behind x ls hs es -> placed x ls hs es
| placed_same (ls hs es : family) : leading x hs -> behind x ls (rest x hs) es -> placed x ls hs es
| placed_both y (ls hs es e0 e1 : family) : (y < x)%nat -> leading y ls -> leading y hs ->
    placed x (off y ls) (off y hs) e0 -> placed x (rest y ls) (rest y hs) e1 ->
    (forall t, es t <-> e0 t \/ exists s, e1 s /\ t = y :: s) -> placed x ls hs es
| placed_high y (ls hs es e1 : family) : (y < x)%nat -> ~ leading y ls -> leading y hs ->
    placed x (off y hs) (rest y hs) e1 -> behind y ls e1 es -> placed x ls hs es.

(** the family a text of the diagram [raw] comes out as *)
Inductive parsed_as : dd nat -> family -> Prop :=
| parsed_leaf (v : bool) (es : family) : (forall t, es t <-> v = true /\ t = []) -> parsed_as (Leaf v) es
| parsed_branch i low high (ls hs es : family) : parsed_as low ls -> parsed_as high hs -> placed i ls hs es ->
    parsed_as (Branch i low high) es.
