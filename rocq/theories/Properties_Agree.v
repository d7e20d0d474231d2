(** Properties_Agree.v: programs of Forest calls against the families they stand for
    Generated by tools/gen_props.py from AgreeThm.v: the property theorems, each followed by
    instances that meet its hypotheses (examples). *)
From Coq Require Import List Arith Lia Bool Permutation Sorted.
From Verif Require Import Base DD Spec Zdd2Model Zdd2Settle Zdd2Resort Zdd2Exact2 Zdd2Thm MatrixModel MatrixProofs MatrixThm AgreeSpec.
Import ListNotations.
From Verif Require Import AgreeThm.

(** C29, for every two programs: [==] tells two forests apart exactly if they hold different trees,
    or just one of them came to its single tree in a roundabout way. *)
Theorem C29_equality_exact_partial : forall (T : Type) (O : Ord T) (p q : fexpr T) f g, runm p f -> runm q g ->
  (m_eqb f g = true <->
   (forall t, In t (family p) <-> In t (family q)) /\ (roundabout p <-> roundabout q)).
Proof. exact C29_equality_exact_partial_pf. Qed.
Print Assumptions C29_equality_exact_partial.

(** a roundabout program, and one that straightens it out *)
Example C29_exact_example :
  let p := EUnion (EMany [[2];[2]]) (EUnit [2]) in
  roundabout p /\ ~ roundabout (EIntersect p (EUnit [2])) /\ ~ roundabout (ESubset p 2) /\
  family p = [[2]] /\ family (EIntersect p (EUnit [2])) = [[2]].
Proof. exact AgreeThm.C29_exact_example. Qed.

(** C30, the matrix half, for every program: [trees] lists exactly the family the program stands for. *)
Theorem C30_matrix_exact : forall (T : Type) (O : Ord T) (p : fexpr T),
  (exists g, runm p g) /\
  forall (h : hash_order) g, runm p g -> NoDup (m_trees h g) /\ forall t, In t (m_trees h g) <-> In t (family p).
Proof. exact C30_matrix_exact_pf. Qed.
Print Assumptions C30_matrix_exact.

(** C30, the zdd2 half: every program whose operands are settled (and the further conditions of [orderly])
    gives the family it stands for, without the empty set; so there the two agree. *)
Theorem C30_agreement_settled_partial : forall (T : Type) (O : Ord T) (p : fexpr T), orderly p ->
  exists f ts, runz p f /\ f_trees f = Some ts /\
  forall f' ts', runz p f' -> f_trees f' = Some ts' ->
    (forall t, In t ts' <-> t <> [] /\ In t (family p)) /\
    forall (h : hash_order) g, runm p g -> forall t, In t ts' <-> t <> [] /\ In t (m_trees h g).
Proof. exact C30_agreement_settled_partial_pf. Qed.
Print Assumptions C30_agreement_settled_partial.

(** C30, the zdd2 half, for every program, right or wrong: the trees held are what [held] says, which is
    one family. *)
Theorem C30_zdd2_exact_partial : forall (T : Type) (O : Ord T) (p : fexpr T),
  (exists f ts, runz p f /\ f_trees f = Some ts /\ held p ts) /\
  (forall f ts, runz p f -> f_trees f = Some ts -> held p ts) /\
  (forall f ts ts', runz p f -> f_trees f = Some ts -> held p ts' -> forall t, In t ts <-> In t ts').
Proof. exact C30_zdd2_exact_partial_pf. Qed.
Print Assumptions C30_zdd2_exact_partial.

(** a program the zdd2 forests get wrong: they hold {2} where it stands for {1} *)
Example C30_zdd2_example :
  let p := EUnion (EMany [[1];[1;2]]) (EMany [[2;3];[2;4];[2;5]]) in
  (exists f, runz p f /\ f_trees f = Some [[1;2];[2;3];[2;4];[2;5];[2]]) /\
  held p [[1;2];[2;3];[2;4];[2;5];[2]] /\ ~ In [2] (family p) /\ In [1] (family p).
Proof. exact AgreeThm.C30_zdd2_example. Qed.

Theorem C30_tame_orderly_partial : forall (T : Type) (O : Ord T) (p : fexpr T), tame p -> orderly p.
Proof. exact C30_tame_orderly_partial_pf. Qed.
Print Assumptions C30_tame_orderly_partial.

(** many([[1,2]]) ∪ many([[1,3]]), then ∩ many([[1,2],[1,4]]), then × unit([1,5]): shared items everywhere *)
Example C30_settled_example :
  let p := EProduct (EIntersect (EUnion (EMany [[1;2]]) (EMany [[1;3]])) (EMany [[1;2];[1;4]])) (EUnit [1;5]) in
  orderly p /\ ~ tame p /\ family p = [[1;2;5]].
Proof. exact AgreeThm.C30_settled_example. Qed.
