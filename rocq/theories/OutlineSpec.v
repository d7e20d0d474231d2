(** OutlineSpec: a diagram written as an indented outline (no proofs here). *)
From Coq Require Import Ascii String.
From Coq Require Import List Arith NArith Lia Bool Permutation Sorted.
From Verif Require Import Base DD ParserSpec TextSpec.
Import ListNotations.
Open Scope N_scope.

(** the character codes of a literal *)
Definition str (s : string) : list N := map N_of_ascii (list_ascii_of_string s).

(** [written ls]: the lines one below the other, each on a new line *)
Definition written (ls : list (list N)) : list N := concat (map (fun l => str (String "010" "") ++ l) ls).

(** a line at depth [d]: one "| " for each level, then the word *)
Inductive line_at : nat -> list N -> list N -> Prop :=
| la_top w : line_at 0 w w
| la_down d w l : line_at d w l -> line_at (S d) w (str "| " ++ l).

(** [outline leaf name d n ls]: the lines of the diagram [n] at depth [d]: a leaf is one line,
    a branch is the line with its name, below it the low child and below that the high child,
    both one level deeper *)
Inductive outline {L : Type} (leaf : bool -> list N) (name : L -> list N -> Prop) : nat -> dd L -> list (list N) -> Prop :=
| ol_leaf d b l : line_at d (leaf b) l -> outline leaf name d (Leaf b) [l]
| ol_branch d i low high w l ll lh :
    name i w -> line_at d w l ->
    outline leaf name (S d) low ll -> outline leaf name (S d) high lh ->
    outline leaf name d (Branch i low high) (l :: ll ++ lh).

Definition true_false (b : bool) : list N := str (if b then "true" else "false").
Definition always_never (b : bool) : list N := str (if b then "Always" else "Never").
(** "7:" *)
Definition numbered (i : nat) (w : list N) : Prop :=
  exists ds, plain_numeral ds (N.of_nat i) /\ w = ds ++ str ":".
(** "Priority(7):" *)
Definition prioritized (i : nat) (w : list N) : Prop :=
  exists ds, plain_numeral ds (N.of_nat i) /\ w = str "Priority(" ++ ds ++ str "):".
(** the item's own text, then ":" *)
Definition itemized {I : Type} (show : I -> list N) (i : I) (w : list N) : Prop := w = show i ++ str ":".
(** "Priority(7): " and the text of the item ranked 7th *)
Definition ranked {T : Type} (show : T -> list N) (ranks : list (T * nat)) (i : nat) (w : list N) : Prop :=
  exists ds x k, plain_numeral ds (N.of_nat i) /\ nth_error ranks i = Some (x, k) /\
    w = str "Priority(" ++ ds ++ str "): " ++ show x.
