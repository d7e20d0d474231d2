(** Base: the data types of the Rust standard library, itertools and hashbrown
    that the modelled code uses, as plain Gallina.

    - [Ord]        : the contract of Rust's [Ord + Eq + Hash] bound on item types
                     (weave/src/zdd2/forest/mod.rs L26, bowtie-core/src/core.rs L3, L18).
    - [sort_by]    : std [sort] / itertools [sorted], [sorted_by] (stable).
    - [unique]     : itertools [unique] (keeps the first occurrence).
    - sorted association lists: content of [HashMap] / [BTreeMap].
    - [hash_order] : the iteration order of a [HashMap]/[HashSet], an arbitrary
                     permutation of its content. *)
From Coq Require Import NArith String Ascii.
From Coq Require Import List Arith Lia Bool Permutation Sorted.
Import ListNotations.

(** ** Item types *)

Class Ord (T : Type) := {
  cmp : T -> T -> comparison;
  cmp_eq : forall x y, cmp x y = Eq <-> x = y;
  cmp_antisym : forall x y, cmp y x = CompOpp (cmp x y);
  cmp_trans : forall x y z, cmp x y = Lt -> cmp y z = Lt -> cmp x z = Lt
}.

Definition lt_ {T} `{Ord T} (x y : T) : Prop := cmp x y = Lt.
Definition eqb_ {T} `{Ord T} (x y : T) : bool :=
  match cmp x y with Eq => true | _ => false end.
Definition leb_ {T} `{Ord T} (x y : T) : bool :=
  match cmp x y with Gt => false | _ => true end.
Definition ltb_ {T} `{Ord T} (x y : T) : bool :=
  match cmp x y with Lt => true | _ => false end.
(** Rust [slice.contains] / [HashSet.contains]. *)
Definition memb {T} `{Ord T} (x : T) (l : list T) : bool := existsb (eqb_ x) l.

Section OrdFacts.
  Context {T : Type} `{Ord T}.

  Lemma cmp_refl (x : T) : cmp x x = Eq.
  Proof. apply cmp_eq; reflexivity. Qed.

  Lemma eqb_spec_ (x y : T) : reflect (x = y) (eqb_ x y).
  Proof.
    unfold eqb_. destruct (cmp x y) eqn:E; constructor.
    - apply cmp_eq; exact E.
    - intros ->. rewrite cmp_refl in E; discriminate.
    - intros ->. rewrite cmp_refl in E; discriminate.
  Qed.

  Lemma eqb_refl_ (x : T) : eqb_ x x = true.
  Proof. destruct (eqb_spec_ x x); congruence. Qed.

  Lemma eqb_true_ (x y : T) : eqb_ x y = true <-> x = y.
  Proof. destruct (eqb_spec_ x y); split; congruence. Qed.

  Lemma eqb_false_ (x y : T) : eqb_ x y = false <-> x <> y.
  Proof. destruct (eqb_spec_ x y); split; congruence. Qed.

  Lemma eq_dec_ (x y : T) : {x = y} + {x <> y}.
  Proof. destruct (eqb_spec_ x y); [left|right]; assumption. Qed.

  Lemma lt_irrefl_ (x : T) : ~ lt_ x x.
  Proof. unfold lt_. rewrite cmp_refl. discriminate. Qed.

  Lemma lt_trans_ (x y z : T) : lt_ x y -> lt_ y z -> lt_ x z.
  Proof. apply cmp_trans. Qed.

  Lemma lt_asym_ (x y : T) : lt_ x y -> ~ lt_ y x.
  Proof. intros A B. apply (lt_irrefl_ x). eapply lt_trans_; eassumption. Qed.

  Lemma lt_neq_ (x y : T) : lt_ x y -> x <> y.
  Proof. intros A ->. exact (lt_irrefl_ y A). Qed.

  Lemma cmp_gt (x y : T) : cmp x y = Gt <-> lt_ y x.
  Proof.
    unfold lt_. rewrite (cmp_antisym x y).
    destruct (cmp x y); simpl; split; congruence.
  Qed.

  Lemma lt_total_ (x y : T) : lt_ x y \/ x = y \/ lt_ y x.
  Proof.
    destruct (cmp x y) eqn:E.
    - right; left; apply cmp_eq; exact E.
    - left; exact E.
    - right; right; apply cmp_gt; exact E.
  Qed.

  Lemma ltb_spec_ (x y : T) : reflect (lt_ x y) (ltb_ x y).
  Proof. unfold ltb_, lt_. destruct (cmp x y); constructor; congruence. Qed.

  Lemma leb_total_ (x y : T) : leb_ x y = true \/ leb_ y x = true.
  Proof.
    unfold leb_. rewrite (cmp_antisym x y). destruct (cmp x y); simpl; auto.
  Qed.

  Lemma leb_iff_ (x y : T) : leb_ x y = true <-> lt_ x y \/ x = y.
  Proof.
    unfold leb_, lt_. destruct (cmp x y) eqn:E; split; intros; auto.
    - right; apply cmp_eq; exact E.
    - discriminate.
    - destruct H0 as [C|C]; [congruence|]. apply cmp_eq in C. congruence.
  Qed.

  Lemma leb_trans_ (x y z : T) : leb_ x y = true -> leb_ y z = true -> leb_ x z = true.
  Proof.
    rewrite !leb_iff_. intros [A| ->] [B| ->]; auto.
    left; eapply lt_trans_; eassumption.
  Qed.

  Lemma leb_antisym_ (x y : T) : leb_ x y = true -> leb_ y x = true -> x = y.
  Proof.
    rewrite !leb_iff_. intros [A| ->] [B|B]; auto.
    exfalso; exact (lt_asym_ _ _ A B).
  Qed.

  Lemma memb_spec (x : T) (l : list T) : memb x l = true <-> In x l.
  Proof.
    unfold memb. rewrite existsb_exists. split.
    - intros (y & Hy & E). apply eqb_true_ in E. subst; exact Hy.
    - intros Hx. exists x; split; [exact Hx | apply eqb_refl_].
  Qed.

  Lemma memb_false (x : T) (l : list T) : memb x l = false <-> ~ In x l.
  Proof. rewrite <- memb_spec. destruct (memb x l); split; congruence. Qed.

  Lemma in_dec_ (x : T) (l : list T) : {In x l} + {~ In x l}.
  Proof. destruct (memb x l) eqn:E; [left; apply memb_spec | right; apply memb_false]; exact E. Qed.
End OrdFacts.

(** ** Instances *)

#[global] Instance Ord_nat : Ord nat.
Proof.
  refine {| cmp := Nat.compare |}.
  - intros; apply Nat.compare_eq_iff.
  - intros; apply Nat.compare_antisym.
  - intros x y z; rewrite !Nat.compare_lt_iff; lia.
Defined.

Lemma lt_nat (x y : nat) : lt_ x y <-> x < y.
Proof. unfold lt_; simpl. apply Nat.compare_lt_iff. Qed.

(** lexicographic order on pairs ([derive(Ord)] on tuples) *)
Section OrdPair.
  Context {A B : Type} `{Ord A} `{Ord B}.
  Definition cmp_pair (p q : A * B) : comparison :=
    match cmp (fst p) (fst q) with Eq => cmp (snd p) (snd q) | c => c end.
  #[global] Instance Ord_pair : Ord (A * B).
  Proof.
    refine {| cmp := cmp_pair |}.
    - intros [a b] [a' b']; unfold cmp_pair; simpl. split.
      + destruct (cmp a a') eqn:E; try discriminate. intros F.
        apply cmp_eq in E; apply cmp_eq in F; congruence.
      + injection 1 as -> ->. rewrite !cmp_refl. reflexivity.
    - intros [a b] [a' b']; unfold cmp_pair; simpl.
      rewrite (cmp_antisym a a'), (cmp_antisym b b').
      destruct (cmp a a'); reflexivity.
    - intros [a b] [a' b'] [a'' b'']; unfold cmp_pair; simpl.
      destruct (cmp a a') eqn:E1; destruct (cmp a' a'') eqn:E2; try discriminate.
      + apply cmp_eq in E1; apply cmp_eq in E2; subst. rewrite cmp_refl. apply cmp_trans.
      + apply cmp_eq in E1; subst. rewrite E2. auto.
      + apply cmp_eq in E2; subst. rewrite E1. auto.
      + rewrite (cmp_trans _ _ _ E1 E2). auto.
  Defined.
End OrdPair.

(** lexicographic order on vectors ([Ord for Vec<T>]) *)
Section OrdList.
  Context {A : Type} `{Ord A}.
  Fixpoint cmp_list (l m : list A) : comparison :=
    match l, m with
    | [], [] => Eq
    | [], _ :: _ => Lt
    | _ :: _, [] => Gt
    | x :: l', y :: m' => match cmp x y with Eq => cmp_list l' m' | c => c end
    end.
  Lemma cmp_list_eq l : forall m, cmp_list l m = Eq <-> l = m.
  Proof.
    induction l as [|x l IH]; intros [|y m]; simpl; split; try congruence.
    - destruct (cmp x y) eqn:E; try discriminate. intros F.
      apply cmp_eq in E; apply IH in F; congruence.
    - injection 1 as -> ->. rewrite cmp_refl. apply IH; reflexivity.
  Qed.
  Lemma cmp_list_antisym l : forall m, cmp_list m l = CompOpp (cmp_list l m).
  Proof.
    induction l as [|x l IH]; intros [|y m]; simpl; try reflexivity.
    rewrite (cmp_antisym x y), (IH m). destruct (cmp x y); reflexivity.
  Qed.
  Lemma cmp_list_trans l : forall m n, cmp_list l m = Lt -> cmp_list m n = Lt -> cmp_list l n = Lt.
  Proof.
    induction l as [|x l IH]; intros [|y m] [|z n]; simpl; try congruence.
    destruct (cmp x y) eqn:E1; destruct (cmp y z) eqn:E2; try discriminate.
    - apply cmp_eq in E1; apply cmp_eq in E2; subst. rewrite cmp_refl. apply IH.
    - apply cmp_eq in E1; subst. rewrite E2. auto.
    - apply cmp_eq in E2; subst. rewrite E1. auto.
    - rewrite (cmp_trans _ _ _ E1 E2). auto.
  Qed.
  #[global] Instance Ord_list : Ord (list A) :=
    {| cmp := cmp_list; cmp_eq := cmp_list_eq;
       cmp_antisym := cmp_list_antisym; cmp_trans := cmp_list_trans |}.
End OrdList.

(** byte strings ([Ord for String]) *)
Definition cmp_ascii (a b : ascii) : comparison := N.compare (N_of_ascii a) (N_of_ascii b).
#[global] Instance Ord_ascii : Ord ascii.
Proof.
  refine {| cmp := cmp_ascii |}; unfold cmp_ascii.
  - intros x y. rewrite N.compare_eq_iff. split; [|congruence].
    intros E. rewrite <- (ascii_N_embedding x), <- (ascii_N_embedding y), E. reflexivity.
  - intros. apply N.compare_antisym.
  - intros x y z. rewrite !N.compare_lt_iff. lia.
Defined.

Fixpoint cmp_string (l m : string) : comparison :=
  match l, m with
  | EmptyString, EmptyString => Eq
  | EmptyString, String _ _ => Lt
  | String _ _, EmptyString => Gt
  | String x l', String y m' => match cmp_ascii x y with Eq => cmp_string l' m' | c => c end
  end.
#[global] Instance Ord_string : Ord string.
Proof.
  refine {| cmp := cmp_string |}.
  - induction x as [|x l IH]; intros [|y m]; simpl; split; try congruence.
    + destruct (cmp_ascii x y) eqn:E; try discriminate. intros F.
      change (cmp_ascii x y) with (cmp x y) in E. apply cmp_eq in E; apply IH in F; congruence.
    + injection 1 as -> ->. change (cmp_ascii y y) with (cmp y y). rewrite cmp_refl. apply IH; reflexivity.
  - induction x as [|x l IH]; intros [|y m]; simpl; try reflexivity.
    change (cmp_ascii x y) with (cmp x y). change (cmp_ascii y x) with (cmp y x).
    rewrite (cmp_antisym x y), (IH m). destruct (cmp x y); reflexivity.
  - induction x as [|x l IH]; intros [|y m] [|z n]; simpl; try congruence.
    change (cmp_ascii x y) with (cmp x y). change (cmp_ascii x z) with (cmp x z).
    change (cmp_ascii y z) with (cmp y z).
    destruct (cmp x y) eqn:E1; destruct (cmp y z) eqn:E2; try discriminate.
    + apply cmp_eq in E1; apply cmp_eq in E2; subst. rewrite cmp_refl. apply IH.
    + apply cmp_eq in E1; subst. rewrite E2. auto.
    + apply cmp_eq in E2; subst. rewrite E1. auto.
    + rewrite (cmp_trans _ _ _ E1 E2). auto.
Defined.

(** ** Stable sort *)

Fixpoint insert_by {A} (leb : A -> A -> bool) (x : A) (l : list A) : list A :=
  match l with
  | [] => [x]
  | y :: l' => if leb x y then x :: l else y :: insert_by leb x l'
  end.

(** std [slice::sort_by] / itertools [sorted_by]: a stable sort. *)
Definition sort_by {A} (leb : A -> A -> bool) (l : list A) : list A :=
  fold_right (insert_by leb) [] l.

(** std [sort] / itertools [sorted] *)
Definition sort {T} `{Ord T} (l : list T) : list T := sort_by leb_ l.

Section SortBy.
  Context {A : Type} (leb : A -> A -> bool).
  Hypothesis leb_tot : forall x y, leb x y = true \/ leb y x = true.
  Hypothesis leb_tr : forall x y z, leb x y = true -> leb y z = true -> leb x z = true.

  Lemma insert_by_perm x l : Permutation (insert_by leb x l) (x :: l).
  Proof.
    induction l as [|y l IH]; simpl; [reflexivity|].
    destruct (leb x y); [reflexivity|].
    rewrite IH. apply perm_swap.
  Qed.

  Lemma sort_by_perm l : Permutation (sort_by leb l) l.
  Proof.
    induction l as [|x l IH]; simpl; [reflexivity|].
    rewrite insert_by_perm. constructor. exact IH.
  Qed.

  Lemma insert_by_sorted x l :
    StronglySorted (fun a b => leb a b = true) l ->
    StronglySorted (fun a b => leb a b = true) (insert_by leb x l).
  Proof.
    induction 1 as [|y l Hs IH Hf]; simpl.
    - repeat constructor.
    - destruct (leb x y) eqn:E.
      + constructor; [constructor; assumption|].
        constructor; [exact E|].
        eapply Forall_impl; [|exact Hf]. intros a Ha. eapply leb_tr; eassumption.
      + constructor; [exact IH|].
        rewrite Forall_forall. intros z Hz.
        apply (Permutation_in _ (insert_by_perm x l)) in Hz. destruct Hz as [<-|Hz].
        * destruct (leb_tot x y) as [C|C]; congruence.
        * rewrite Forall_forall in Hf. apply Hf; exact Hz.
  Qed.

  Lemma sort_by_sorted l : StronglySorted (fun a b => leb a b = true) (sort_by leb l).
  Proof.
    induction l as [|x l IH]; simpl; [constructor|].
    apply insert_by_sorted; exact IH.
  Qed.
End SortBy.

Lemma SS_unique_perm {A} (R : A -> A -> Prop) :
  (forall x y, R x y -> R y x -> x = y) ->
  forall l m, StronglySorted R l -> StronglySorted R m -> Permutation l m -> l = m.
Proof.
  intros anti l. induction l as [|x l IH]; intros m Sl Sm P.
  - apply Permutation_nil in P. congruence.
  - destruct m as [|y m]; [apply Permutation_sym, Permutation_nil in P; congruence|].
    inversion Sl as [|? ? Sl' Fl]; subst. inversion Sm as [|? ? Sm' Fm]; subst.
    rewrite Forall_forall in Fl, Fm.
    assert (x = y) as ->.
    { assert (Hx : In x (y :: m)) by (eapply Permutation_in; [exact P|left; reflexivity]).
      assert (Hy : In y (x :: l)) by (eapply Permutation_in; [symmetry; exact P|left; reflexivity]).
      destruct Hx as [E|Hx]; [congruence|]. destruct Hy as [E|Hy]; [congruence|].
      apply anti; auto. }
    f_equal. apply IH; auto. eapply Permutation_cons_inv; exact P.
Qed.

(** ** Strictly sorted lists: the canonical form of a finite set *)

Definition ssorted {T} `{Ord T} (l : list T) : Prop := StronglySorted lt_ l.

Section SSorted.
  Context {T : Type} `{Ord T}.

  Lemma ssorted_inv x (l : list T) : ssorted (x :: l) -> ssorted l /\ Forall (lt_ x) l.
  Proof. intros S; inversion S; auto. Qed.

  Lemma ssorted_cons x (l : list T) : ssorted l -> Forall (lt_ x) l -> ssorted (x :: l).
  Proof. constructor; assumption. Qed.

  Lemma ssorted_NoDup (l : list T) : ssorted l -> NoDup l.
  Proof.
    induction 1 as [|x l S IH F]; constructor; [|exact IH].
    intros C. rewrite Forall_forall in F. exact (lt_irrefl_ x (F _ C)).
  Qed.

  Lemma ssorted_ext (l m : list T) :
    ssorted l -> ssorted m -> (forall x, In x l <-> In x m) -> l = m.
  Proof.
    intros Sl Sm E. apply (SS_unique_perm lt_).
    - intros x y A B. exfalso; exact (lt_asym_ _ _ A B).
    - exact Sl.
    - exact Sm.
    - apply NoDup_Permutation; auto using ssorted_NoDup.
  Qed.

  Lemma sort_perm (l : list T) : Permutation (sort l) l.
  Proof. apply sort_by_perm. Qed.

  Lemma sort_in (l : list T) x : In x (sort l) <-> In x l.
  Proof.
    split; apply Permutation_in; [|symmetry]; apply sort_perm.
  Qed.

  Lemma sort_sorted (l : list T) : StronglySorted (fun a b => leb_ a b = true) (sort l).
  Proof. apply sort_by_sorted; [apply leb_total_ | apply leb_trans_]. Qed.

  Lemma SS_leb_NoDup (l : list T) :
    StronglySorted (fun a b => leb_ a b = true) l -> NoDup l -> ssorted l.
  Proof.
    induction 1 as [|x l S IH F]; intros N; [constructor|].
    inversion N as [|? ? Nx N']; subst. constructor; [exact (IH N')|].
    rewrite Forall_forall in F. apply Forall_forall. intros y Hy.
    specialize (F y Hy). apply leb_iff_ in F. destruct F as [F|F]; [exact F|subst; contradiction].
  Qed.

  Lemma sort_ssorted (l : list T) : NoDup l -> ssorted (sort l).
  Proof.
    intros N. apply SS_leb_NoDup; [apply sort_sorted|].
    eapply Permutation_NoDup; [symmetry; apply sort_perm|exact N].
  Qed.

  Lemma ssorted_SS_leb (l : list T) :
    ssorted l -> StronglySorted (fun a b => leb_ a b = true) l.
  Proof.
    induction 1 as [|x l S IH F]; constructor; auto.
    eapply Forall_impl; [|exact F]. intros a Ha. apply leb_iff_; auto.
  Qed.

  Lemma sort_id (l : list T) : ssorted l -> sort l = l.
  Proof.
    intros S. apply (SS_unique_perm (fun a b => leb_ a b = true)).
    - apply leb_antisym_.
    - apply sort_sorted.
    - apply ssorted_SS_leb; exact S.
    - apply sort_perm.
  Qed.
End SSorted.

(** ** itertools [unique]: keeps the first occurrence of every element *)

Fixpoint unique_from {T} `{Ord T} (seen : list T) (l : list T) : list T :=
  match l with
  | [] => []
  | x :: l' => if memb x seen then unique_from seen l' else x :: unique_from (x :: seen) l'
  end.
Definition unique {T} `{Ord T} (l : list T) : list T := unique_from [] l.

Section Unique.
  Context {T : Type} `{Ord T}.

  Lemma unique_from_in (l : list T) : forall seen x,
    In x (unique_from seen l) <-> In x l /\ ~ In x seen.
  Proof.
    induction l as [|y l IH]; intros seen x; simpl; [tauto|].
    destruct (memb y seen) eqn:E.
    - apply memb_spec in E. rewrite IH. split; [tauto|].
      intros [[<-|A] B]; [contradiction|tauto].
    - apply memb_false in E. simpl. rewrite IH. simpl.
      destruct (eq_dec_ y x) as [->|N]; [tauto|]. split; [tauto|].
      intros [[A|A] B]; [congruence|]. right. split; [exact A|]. intros [C|C]; [congruence|contradiction].
  Qed.

  Lemma unique_in (l : list T) x : In x (unique l) <-> In x l.
  Proof. unfold unique. rewrite unique_from_in. simpl. tauto. Qed.

  Lemma unique_from_NoDup (l : list T) : forall seen, NoDup (unique_from seen l).
  Proof.
    induction l as [|y l IH]; intros seen; simpl; [constructor|].
    destruct (memb y seen); [apply IH|]. constructor; [|apply IH].
    rewrite unique_from_in. simpl. tauto.
  Qed.

  Lemma unique_NoDup (l : list T) : NoDup (unique l).
  Proof. apply unique_from_NoDup. Qed.

  Lemma unique_from_id (l : list T) : forall seen,
    NoDup l -> (forall x, In x l -> ~ In x seen) -> unique_from seen l = l.
  Proof.
    induction l as [|y l IH]; intros seen N D; simpl; [reflexivity|].
    inversion N as [|? ? Ny N']; subst.
    destruct (memb y seen) eqn:E.
    - apply memb_spec in E. exfalso. apply (D y); [left; reflexivity|exact E].
    - f_equal. apply IH; [exact N'|]. intros x Hx [<-|C]; [contradiction|].
      apply (D x); [right; exact Hx|exact C].
  Qed.

  Lemma unique_id (l : list T) : NoDup l -> unique l = l.
  Proof. intros N. apply unique_from_id; [exact N|]. intros x _ []. Qed.
End Unique.

(** [set.iter().cloned().sorted().unique().collect()]: the sorted,
    duplicate-free vector of a slice.
    weave/src/zdd2/forest/universe/mod.rs L53-55 and
    weave/src/matrix/forest/mod.rs L79-81 ([filter_repeats]). *)
Definition filter_repeats {T} `{Ord T} (l : list T) : list T := unique (sort l).

Section FilterRepeats.
  Context {T : Type} `{Ord T}.

  Lemma filter_repeats_in (l : list T) x : In x (filter_repeats l) <-> In x l.
  Proof. unfold filter_repeats. rewrite unique_in, sort_in. tauto. Qed.

  Lemma unique_from_SS (l : list T) : forall seen,
    StronglySorted (fun a b => leb_ a b = true) l -> ssorted (unique_from seen l).
  Proof.
    induction l as [|y l IH]; intros seen S; simpl; [constructor|].
    inversion S as [|? ? S' F]; subst.
    destruct (memb y seen); [apply IH; exact S'|].
    constructor; [apply IH; exact S'|].
    rewrite Forall_forall in F. apply Forall_forall. intros x Hx. apply unique_from_in in Hx. destruct Hx as [Hx Nx].
    specialize (F x Hx). apply leb_iff_ in F. destruct F as [F|F]; [exact F|].
    exfalso. apply Nx. left; exact F.
  Qed.

  Lemma filter_repeats_ssorted (l : list T) : ssorted (filter_repeats l).
  Proof. apply unique_from_SS, sort_sorted. Qed.

  Lemma filter_repeats_id (l : list T) : ssorted l -> filter_repeats l = l.
  Proof.
    intros S. unfold filter_repeats. rewrite (sort_id l S).
    apply unique_id, ssorted_NoDup; exact S.
  Qed.

  Lemma filter_repeats_ext (l m : list T) :
    (forall x, In x l <-> In x m) -> filter_repeats l = filter_repeats m.
  Proof.
    intros E. apply ssorted_ext; try apply filter_repeats_ssorted.
    intros x. rewrite !filter_repeats_in. apply E.
  Qed.

  Lemma filter_repeats_nil (l : list T) : filter_repeats l = [] <-> l = [].
  Proof.
    split; [|intros ->; reflexivity]. intros E. destruct l as [|x l]; [reflexivity|].
    exfalso. assert (Hx : In x (filter_repeats (x :: l))) by (apply filter_repeats_in; left; reflexivity).
    rewrite E in Hx. destruct Hx.
  Qed.
End FilterRepeats.

(** ** Maps: content of [HashMap<K,V>] and [BTreeMap<K,V>] as an association
    list strictly sorted by key (so two maps are [==] iff the lists are equal). *)

Section Maps.
  Context {K V : Type} `{Ord K}.

  Fixpoint map_get (m : list (K * V)) (k : K) : option V :=
    match m with
    | [] => None
    | (k', v) :: m' => match cmp k k' with Eq => Some v | Lt => None | Gt => map_get m' k end
    end.

  (** [entry(k)] updated by [f] applied to the previous value, if any:
      [insert], [or_insert], [or_insert_with(..).push], [+= 1] are instances. *)
  Fixpoint map_update (m : list (K * V)) (k : K) (f : option V -> V) : list (K * V) :=
    match m with
    | [] => [(k, f None)]
    | (k', v) :: m' =>
        match cmp k k' with
        | Lt => (k, f None) :: m
        | Eq => (k', f (Some v)) :: m'
        | Gt => (k', v) :: map_update m' k f
        end
    end.
  Definition map_insert (m : list (K * V)) (k : K) (v : V) : list (K * V) :=
    map_update m k (fun _ => v).

  Definition map_ok (m : list (K * V)) : Prop := ssorted (map fst m).

  Lemma map_get_none_lt m k : map_ok m -> Forall (fun p => lt_ k (fst p)) m -> map_get m k = None.
  Proof.
    intros _ F. destruct m as [|[k' v] m]; simpl; [reflexivity|].
    inversion F as [|? ? Hk ?]; subst. simpl in Hk. unfold lt_ in Hk. rewrite Hk. reflexivity.
  Qed.

  Lemma map_get_in m k v : map_ok m -> (map_get m k = Some v <-> In (k, v) m).
  Proof.
    unfold map_ok. induction m as [|[k' v'] m IH]; simpl; intros S.
    - split; [discriminate|tauto].
    - apply ssorted_inv in S. destruct S as [S F]. specialize (IH S).
      rewrite Forall_forall in F.
      assert (G : forall v0, In (k', v0) m -> False).
      { intros v0 I. apply (lt_irrefl_ k'). apply F. apply in_map_iff. exists (k', v0). auto. }
      destruct (cmp k k') eqn:E.
      + apply cmp_eq in E; subst k'. split.
        * injection 1 as ->. left; reflexivity.
        * intros [X|X]; [congruence|]. exfalso; eapply G; eassumption.
      + split; [discriminate|]. intros [X|X].
        * injection X as -> ->. rewrite cmp_refl in E. discriminate.
        * exfalso. assert (Hk : lt_ k' k) by (apply F; apply in_map_iff; exists (k, v); auto).
          apply (lt_asym_ _ _ Hk). exact E.
      + rewrite IH. split; [auto|]. intros [X|X]; [|exact X].
        injection X as -> ->. rewrite cmp_refl in E. discriminate.
  Qed.

  Lemma map_get_none m k : map_ok m -> (map_get m k = None <-> ~ In k (map fst m)).
  Proof.
    intros S. split.
    - intros E I. apply in_map_iff in I. destruct I as ([k' v] & <- & I). simpl in *.
      apply map_get_in in I; [|exact S]. congruence.
    - intros N. destruct (map_get m k) as [v|] eqn:E; [|reflexivity].
      apply map_get_in in E; [|exact S]. exfalso. apply N. apply in_map_iff. exists (k, v); auto.
  Qed.

  Lemma map_update_keys_sub m k f x : In x (map fst (map_update m k f)) <-> x = k \/ In x (map fst m).
  Proof.
    induction m as [|[k' v] m IH]; simpl.
    - intuition.
    - destruct (cmp k k') eqn:E; simpl.
      + apply cmp_eq in E; subst. intuition.
      + intuition.
      + rewrite IH. intuition.
  Qed.

  Lemma map_update_ok m k f : map_ok m -> map_ok (map_update m k f).
  Proof.
    unfold map_ok. induction m as [|[k' v] m IH]; simpl; intros S.
    - repeat constructor.
    - pose proof S as S0. apply ssorted_inv in S. destruct S as [S F].
      destruct (cmp k k') eqn:E; simpl.
      + exact S0.
      + constructor; [exact S0|]. constructor; [exact E|].
        eapply Forall_impl; [|exact F]. intros a. apply cmp_trans; exact E.
      + constructor; [apply IH; exact S|].
        rewrite Forall_forall in F. apply Forall_forall. intros x Hx. apply map_update_keys_sub in Hx.
        destruct Hx as [->|Hx]; [apply cmp_gt; exact E | apply F; exact Hx].
  Qed.

  Lemma map_update_get m k f x : map_ok m ->
    map_get (map_update m k f) x = if eqb_ x k then Some (f (map_get m k)) else map_get m x.
  Proof.
    unfold map_ok. induction m as [|[k' v] m IH]; simpl; intros S.
    - unfold eqb_. destruct (cmp x k); reflexivity.
    - pose proof (ssorted_inv _ _ S) as [S' F]. specialize (IH S').
      destruct (cmp k k') eqn:E; simpl.
      + apply cmp_eq in E; subst k'. unfold eqb_. destruct (cmp x k) eqn:Ex; try reflexivity.
      + unfold eqb_. destruct (cmp x k) eqn:Ex; try reflexivity.
        assert (lt_ x k') as L by (eapply lt_trans_; [exact Ex|exact E]).
        unfold lt_ in L. rewrite L. reflexivity.
      + rewrite IH. unfold eqb_. destruct (cmp x k) eqn:Ex.
        * apply cmp_eq in Ex; subst. rewrite E. reflexivity.
        * reflexivity.
        * reflexivity.
  Qed.

  Lemma amap_ext (m1 m2 : list (K * V)) :
    map_ok m1 -> map_ok m2 -> (forall k, map_get m1 k = map_get m2 k) -> m1 = m2.
  Proof.
    intros S1 S2 E.
    assert (NoDup m1) as N1 by (eapply NoDup_map_inv, ssorted_NoDup; exact S1).
    assert (NoDup m2) as N2 by (eapply NoDup_map_inv, ssorted_NoDup; exact S2).
    assert (P : Permutation m1 m2).
    { apply NoDup_Permutation; auto. intros [k v].
      rewrite <- (map_get_in m1 k v S1), <- (map_get_in m2 k v S2), E. tauto. }
    clear N1 N2 E. revert m2 S2 P. induction m1 as [|[k v] m1 IH]; intros m2 S2 P.
    - apply Permutation_nil in P; congruence.
    - destruct m2 as [|[k2 v2] m2]; [apply Permutation_sym, Permutation_nil in P; congruence|].
      pose proof (ssorted_inv _ _ S1) as [S1' F1]. pose proof (ssorted_inv _ _ S2) as [S2' F2].
      fold (map fst m1) in *. fold (map fst m2) in *. simpl in F1, F2.
      rewrite Forall_forall in F1, F2.
      assert ((k, v) = (k2, v2)) as X.
      { assert (Hx : In (k, v) ((k2, v2) :: m2)) by (eapply Permutation_in; [exact P|left; reflexivity]).
        assert (Hy : In (k2, v2) ((k, v) :: m1)) by (eapply Permutation_in; [symmetry; exact P|left; reflexivity]).
        destruct Hx as [E|Hx]; [congruence|]. destruct Hy as [E|Hy]; [congruence|].
        exfalso. apply (lt_asym_ k k2).
        - apply F1. apply in_map_iff. exists (k2, v2); auto.
        - apply F2. apply in_map_iff. exists (k, v); auto. }
      injection X as -> ->. f_equal. apply IH; auto. eapply Permutation_cons_inv; exact P.
  Qed.
End Maps.

(** ** Hash iteration order *)

(** [ho_iter h site l] is the order in which a hash map/set of content [l] is
    iterated at program point [site]: any permutation of [l], possibly a
    different one at every site. *)
Record hash_order := {
  ho_iter : forall A : Type, nat -> list A -> list A;
  ho_perm : forall A site (l : list A), Permutation (ho_iter A site l) l
}.
Arguments ho_iter h {A} site l.

Definition ho_id : hash_order :=
  {| ho_iter := fun A _ l => l; ho_perm := fun A _ l => Permutation_refl l |}.
Definition ho_rev : hash_order :=
  {| ho_iter := fun A _ l => rev l; ho_perm := fun A _ l => Permutation_sym (Permutation_rev l) |}.

Lemma ho_in h site {A} (l : list A) x : In x (ho_iter h site l) <-> In x l.
Proof. split; apply Permutation_in; [|symmetry]; apply ho_perm. Qed.

Lemma ho_length h site {A} (l : list A) : length (ho_iter h site l) = length l.
Proof. apply Permutation_length, ho_perm. Qed.

(** ** The option monad: [None] is a Rust panic or non-termination. *)
Definition bind {A B} (x : option A) (f : A -> option B) : option B :=
  match x with Some a => f a | None => None end.
Notation "'let!' x ':=' e 'in' k" := (bind e (fun x => k)) (at level 61, x pattern, e at next level, right associativity).

Lemma bind_some {A B} (x : option A) (f : A -> option B) b :
  bind x f = Some b <-> exists a, x = Some a /\ f a = Some b.
Proof.
  destruct x; simpl; split.
  - intros; eauto.
  - intros (? & [= <-] & ?); assumption.
  - discriminate.
  - intros (? & ? & ?); discriminate.
Qed.

(** [filter_map] and [fold] over options *)
Fixpoint filter_map {A B} (f : A -> option B) (l : list A) : list B :=
  match l with
  | [] => []
  | x :: l' => match f x with Some y => y :: filter_map f l' | None => filter_map f l' end
  end.

Lemma filter_map_in {A B} (f : A -> option B) l y :
  In y (filter_map f l) <-> exists x, In x l /\ f x = Some y.
Proof.
  induction l as [|x l IH]; simpl; [firstorder|].
  destruct (f x) eqn:E; simpl; rewrite IH; split.
  - intros [<-|(x' & A1 & A2)]; eauto.
  - intros (x' & [<-|A1] & A2); [left; congruence|right; eauto].
  - intros (x' & A1 & A2); eauto.
  - intros (x' & [<-|A1] & A2); [congruence|eauto].
Qed.

(** monadic left fold (Rust [Iterator::fold] with a body that may panic) *)
Fixpoint foldM {A B} (f : B -> A -> option B) (l : list A) (b : B) : option B :=
  match l with
  | [] => Some b
  | x :: l' => let! b' := f b x in foldM f l' b'
  end.
Fixpoint mapM {A B} (f : A -> option B) (l : list A) : option (list B) :=
  match l with
  | [] => Some []
  | x :: l' => let! y := f x in let! ys := mapM f l' in Some (y :: ys)
  end.
