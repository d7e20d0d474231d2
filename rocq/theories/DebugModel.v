(** DebugModel: what [{:?}] prints for nodes, zdd trees and zdd2 forests.
    Texts are lists of character codes, as in [ParserModel]. *)
From Coq Require Import List Arith NArith Lia Bool.
From Verif Require Import Base DD Zdd2Model ZddModel ParserModel.
Import ListNotations.
Local Open Scope N_scope.

(** ["| ".repeat(indent)] *)
Definition bars (indent : nat) : list N := concat (repeat [124; 32] indent).

(** ** zdd nodes, weave/src/zdd/node/mod.rs L26-47 *)
(** [format!("{}", val)] of a [bool]: "true", "false" *)
Definition show_bool (b : bool) : list N := if b then [116; 114; 117; 101] else [102; 97; 108; 115; 101].
(** fmt_inner, L32-47; the priority is a plain [usize] *)
Fixpoint z_fmt_inner (n : dd nat) (indent : nat) : list N :=
  match n with
  | Leaf val => show_bool val
  | Branch id low high =>
      decimal (N.of_nat id) ++ [58; 10] ++ bars indent ++ z_fmt_inner low (S indent) ++ [10] ++
      bars indent ++ z_fmt_inner high (S indent)
  end.
(** Debug for Node, L26-30, for NodeId, L12-16, and for Tree, weave/src/zdd/tree/mod.rs L32-36 *)
Definition z_debug (n : dd nat) : list N := [10] ++ z_fmt_inner n 1.
Definition zt_debug {T : Type} (t : ztree T) : list N := z_debug (zt_root t).

(** ** zdd2 nodes, weave/src/zdd2/forest/node/mod.rs L38-60; the derived [Debug] of
    [Priority] (L19-20) prints "Priority(7)" *)
Fixpoint n_fmt_inner (n : dd nat) (indent : nat) : list N :=
  match n with
  | Branch id low high =>
      [80; 114; 105; 111; 114; 105; 116; 121; 40] ++ decimal (N.of_nat id) ++ [41; 58; 10] ++
      bars indent ++ n_fmt_inner low (S indent) ++ [10] ++
      bars indent ++ n_fmt_inner high (S indent)
  | Leaf true => [65; 108; 119; 97; 121; 115]
  | Leaf false => [78; 101; 118; 101; 114]
  end.
(** fmt, weave/src/zdd2/forest/node/mod.rs L38-42 *)
Definition n_debug (n : dd nat) : list N := [10] ++ n_fmt_inner n 1.

(** ** bowtie nodes, bowtie-core/src/bdd/node/mod.rs L22-44; [show] is the [Debug]
    of an item (derived: [Item("...")] with the string escaped) *)
Fixpoint b_fmt_inner {I : Type} (show : I -> list N) (n : dd I) (indent : nat) : list N :=
  match n with
  | Leaf val => [124; 32] ++ show_bool val
  | Branch id low high =>
      [124; 32] ++ show id ++ [58; 10] ++ bars indent ++ b_fmt_inner show low (S indent) ++ [10] ++
      bars indent ++ b_fmt_inner show high (S indent)
  end.
(** fmt, bowtie-core/src/bdd/node/mod.rs L22-26 *)
Definition b_debug {I : Type} (show : I -> list N) (n : dd I) : list N := [10] ++ b_fmt_inner show n 1.

(** Debug of a zdd2 Forest is [f_debug] in ParserModel.v. *)
