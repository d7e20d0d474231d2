(** Properties_Word.v: combining any forests, occurrence counts in machine words
    Generated by tools/gen_props.py from WordThm.v: the property theorems, each followed by
    instances that meet its hypotheses (examples). *)
From Coq Require Import List Arith NArith Lia Bool Permutation Sorted.
From Verif Require Import Base DD Spec Zdd2Model Zdd2Node Zdd2Node2 Zdd2Univ Zdd2Forest Zdd2Forest2 Zdd2Forest3 Zdd2Exact Zdd2Exact2 Zdd2Settle Zdd2Resort Zdd2Laws Zdd2Thm.
From Verif Require Import ParserModel ParserSpec ParserProofs ParserThm LoadProofs WordModel WordProofs.
Import ListNotations.
From Verif Require Import WordThm.
Open Scope nat_scope.

(** when they panic *)
Theorem C88_panics : forall (T : Type) (O : Ord T) (lim : nat) (h : hash_order) (f g : forest T),
  0 < lim -> origin f -> origin g -> within lim f -> within lim g ->
  (f_union_w Checked lim h f g = None <-> ~ (indexed f /\ indexed g) \/ overflows lim f g) /\
  (f_intersect_w Checked lim h f g = None <-> ~ (indexed f /\ indexed g) \/ overflows lim f g) /\
  (f_product_w Checked lim h f g = None <-> ~ (indexed f /\ indexed g) \/ overflows lim f g) /\
  (f_union_w Wrapping lim h f g = None <-> ~ (indexed f /\ indexed g)) /\
  (f_intersect_w Wrapping lim h f g = None <-> ~ (indexed f /\ indexed g)) /\
  (f_product_w Wrapping lim h f g = None <-> ~ (indexed f /\ indexed g)).
Proof. exact C88_panics_pf. Qed.
Print Assumptions C88_panics.

(** while the counts add up within the word they do what they do with unbounded
    counts; two forests built by the API never get near *)
Theorem C88_fits : forall (T : Type) (O : Ord T) (a : arith) (lim : nat) (h : hash_order) (f g : forest T),
  0 < lim -> origin f -> origin g -> within lim f -> within lim g -> ~ overflows lim f g ->
  f_union_w a lim h f g = f_union h f g /\ f_intersect_w a lim h f g = f_intersect h f g /\
  f_product_w a lim h f g = f_product h f g.
Proof. exact C88_fits_pf. Qed.
Print Assumptions C88_fits.

Theorem C88_built : forall (T : Type) (O : Ord T) (a : arith) (lim : nat) (h : hash_order) (f g : forest T) tf tg,
  Reach f -> Reach g -> f_trees f = Some tf -> f_trees g = Some tg -> length tf + length tg < lim ->
  f_union_w a lim h f g = f_union h f g /\ f_intersect_w a lim h f g = f_intersect h f g /\
  f_product_w a lim h f g = f_product h f g /\ f_union_w a lim h f g <> None.
Proof. exact C88_built_pf. Qed.
Print Assumptions C88_built.

(** what they list: the trees of both forests, their items re-ordered by the merged
    counts, then joined, met or combined *)
Theorem C88_union_exact : forall (T : Type) (O : Ord T) (a : arith) (lim : nat) (h : hash_order) (f g r : forest T) tf tg,
  0 < lim -> origin f -> origin g -> within lim f -> within lim g ->
  f_trees f = Some tf -> f_trees g = Some tg -> f_union_w a lim h f g = Some r ->
  Reach r /\ exists c ef eg tr, merged lim f g c /\
    resorted (count_in f) c tf ef /\ resorted (count_in g) c tg eg /\ f_trees r = Some tr /\
    (forall t, In t tr <-> t <> [] /\ (In t ef \/ In t eg)) /\
    (keeps_order f c -> keeps_order g c -> forall t, In t tr <-> t <> [] /\ (In t tf \/ In t tg)).
Proof. exact C88_union_exact_pf. Qed.
Print Assumptions C88_union_exact.

Theorem C88_intersect_exact : forall (T : Type) (O : Ord T) (a : arith) (lim : nat) (h : hash_order) (f g r : forest T) tf tg,
  0 < lim -> origin f -> origin g -> within lim f -> within lim g ->
  f_trees f = Some tf -> f_trees g = Some tg -> f_intersect_w a lim h f g = Some r ->
  Reach r /\ exists c ef eg tr, merged lim f g c /\
    resorted (count_in f) c tf ef /\ resorted (count_in g) c tg eg /\ f_trees r = Some tr /\
    (forall t, In t tr <-> t <> [] /\ met c ef eg t) /\
    (keeps_order f c -> keeps_order g c -> forall t, In t tr <-> t <> [] /\ met c tf tg t).
Proof. exact C88_intersect_exact_pf. Qed.
Print Assumptions C88_intersect_exact.

Theorem C88_product_exact : forall (T : Type) (O : Ord T) (a : arith) (lim : nat) (h : hash_order) (f g r : forest T) tf tg,
  0 < lim -> origin f -> origin g -> within lim f -> within lim g ->
  f_trees f = Some tf -> f_trees g = Some tg -> f_product_w a lim h f g = Some r ->
  Reach r /\ exists c ef eg tr, merged lim f g c /\
    resorted (count_in f) c tf ef /\ resorted (count_in g) c tg eg /\ f_trees r = Some tr /\
    (forall t, t <> [] -> (has_set tr t <-> exists x y, In x ef /\ In y eg /\ is_union t x y /\
       (forall k, same_rest c k ef x eg y -> agree_after c k x y))).
Proof. exact C88_product_exact_pf. Qed.
Print Assumptions C88_product_exact.

(** the re-ordered trees are determined by the forest and the two orders *)
Theorem C88_determined : forall (T : Type) (O : Ord T) (c c' : T -> nat) (ts es es' : list (list T)),
  resorted c c' ts es -> resorted c c' ts es' -> forall t, In t es <-> In t es'.
Proof. exact C88_determined_pf. Qed.
Print Assumptions C88_determined.

(** argument order and hash order do not matter, whatever the counts *)
Theorem C88_commutes : forall (T : Type) (O : Ord T) (a : arith) (lim : nat) (h h' : hash_order) (f g : forest T),
  0 < lim -> origin f -> origin g -> within lim f -> within lim g ->
  f_union_w a lim h f g = f_union_w a lim h' g f /\
  f_intersect_w a lim h f g = f_intersect_w a lim h' g f /\
  f_product_w a lim h f g = f_product_w a lim h' g f.
Proof. exact C88_commutes_pf. Qed.
Print Assumptions C88_commutes.

(** a forest combined with itself, or with one of the same counts, is never re-ordered *)
Theorem C88_self : forall (T : Type) (O : Ord T) (a : arith) (lim : nat) (h : hash_order) (f : forest T) tf,
  0 < lim -> origin f -> within lim f -> indexed f -> f_trees f = Some tf ->
  exists r tr, f_union_w a lim h f f = Some r /\ f_intersect_w a lim h f f = Some r /\ f_product_w a lim h f f = Some r /\
    f_trees r = Some tr /\ forall t, In t tr <-> t <> [] /\ In t tf.
Proof. exact C88_self_pf. Qed.
Print Assumptions C88_self.

(** subset_none of a loaded forest *)
Theorem C88_subset_none : forall (T : Type) (O : Ord T) (h : hash_order) (f : forest T) (e : T) (es : list T) tf,
  origin f -> indexed f -> f_trees f = Some tf ->
  exists r tr, f_subset_none h f (e :: es) = Some r /\ f_trees r = Some tr /\
    ((exists x, In x (e :: es) /\ ~ In x (map fst (f_occurrences ho_id f))) -> r = f) /\
    ((forall x, In x (e :: es) -> In x (map fst (f_occurrences ho_id f))) ->
       exists gs, met_all (count_in f) tf [[]] (e :: es) gs /\ forall t, In t tr <-> t <> [] /\ In t gs).
Proof. exact C88_subset_none_pf. Qed.
Print Assumptions C88_subset_none.

Example C88_example :
  origin ex88_f /\ origin ex88_g /\ indexed ex88_f /\ indexed ex88_g /\ within 16 ex88_f /\ within 16 ex88_g /\
  overflows 16 ex88_f ex88_g /\ ~ overflows 17 ex88_f ex88_g /\
  f_trees ex88_f = Some [[1;2];[1]] /\ f_trees ex88_g = Some [[1]] /\
  f_union_w Checked 16 ho_id ex88_f ex88_g = None /\
  (let! r := f_union_w Wrapping 16 ho_id ex88_f ex88_g in f_trees r) = Some [[1;2];[1];[2]] /\
  (let! r := f_union_w Checked 17 ho_id ex88_f ex88_g in f_trees r) = Some [[1;2];[1]].
Proof. exact WordThm.C88_example. Qed.
