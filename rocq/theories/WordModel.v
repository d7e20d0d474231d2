(** WordModel: combining zdd2 forests with occurrence counts in machine words.

    [Universe] keeps a [usize] count per item (weave/src/zdd2/forest/universe/mod.rs
    L12-17).  The constructors count rows of a [Vec] in memory, so their counts fit
    a word; but [Deserialize] takes any counts ([f_deserialize] of ParserModel), and
    [merge] adds the counts of two forests (L62-66).  [Zdd2Model.u_merge] adds in
    unbounded naturals; here the addition is the machine's: [lim] is the number of
    values of [usize] (2^64), and [+=] beyond it panics in a build with overflow
    checks ([Checked]) and drops the carry in a build without ([Wrapping]). *)
From Coq Require Import List Arith Bool.
From Verif Require Import Base DD Zdd2Model.
Import ListNotations.

Inductive arith := Checked | Wrapping.

(** [+=] on [usize] *)
Definition add_w (a : arith) (lim x y : nat) : option nat :=
  if x + y <? lim then Some (x + y)
  else match a with Checked => None | Wrapping => Some ((x + y) mod lim) end.

Section Word.
  Context {T : Type} `{Ord T}.
  Variable a : arith.
  Variable lim : nat.

  (** [occurrences.entry(item.clone()).or_insert(0usize) += count],
      weave/src/zdd2/forest/universe/mod.rs L64 *)
  Definition entry_add (m : list (T * nat)) (p : T * nat) : option (list (T * nat)) :=
    let old := match map_get m (fst p) with Some c => c | None => 0 end in
    let! c := add_w a lim old (snd p) in
    Some (map_insert m (fst p) c).

  (** merge, weave/src/zdd2/forest/universe/mod.rs L57-69 *)
  Definition u_merge_w (h : hash_order) (site : nat) (u v : universe T) : option (universe T) :=
    if u_eqb u v then Some u
    else let! occ := foldM entry_add (ho_iter h site (u_occ v)) (u_occ u) in
         Some (from_occurrences h (S site) occ).

  (** translate_roots, weave/src/zdd2/forest/mod.rs L180-187 *)
  Definition translate_roots_w (h : hash_order) (f g : forest T) : option (universe T * node * node) :=
    let! u := u_merge_w h site_merge (f_univ f) (f_univ g) in
    let! r1 := translate_root (f_univ f) u (f_root f) in
    let! r2 := translate_root (f_univ g) u (f_root g) in
    Some (u, r1, r2).

  (** intersect, union and product, weave/src/zdd2/forest/mod.rs L123-151 *)
  Definition f_binop_w (op : node -> node -> option node) (h : hash_order) (f g : forest T)
    : option (forest T) :=
    let! x := translate_roots_w h f g in
    let '(u, r1, r2) := x in
    let! root := op r1 r2 in
    f_canonical h root u.
  Definition f_intersect_w := f_binop_w intersect.
  Definition f_union_w := f_binop_w union.
  Definition f_product_w := f_binop_w product.
End Word.
