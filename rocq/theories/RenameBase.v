(** RenameBase: the standard-library operations of Base commute with renamings
    that keep the order. *)
From Coq Require Import List Arith Lia Bool Permutation Sorted.
From Verif Require Import Base DD Spec Zdd2Model MatrixModel RenameSpec.
Import ListNotations.

Definition mono {T U} `{Ord T} `{Ord U} (r : T -> U) : Prop := forall x y, cmp (r x) (r y) = cmp x y.

Lemma order_preserving_mono {T U} `{Ord T} `{Ord U} (r : T -> U) : order_preserving r <-> mono r.
Proof.
  split.
  - intros P x y. destruct (lt_total_ x y) as [L|[E|G]].
    + pose proof (P x y L) as L'. unfold lt_ in *. congruence.
    + subst. rewrite !cmp_refl. reflexivity.
    + pose proof (P y x G) as G'. apply cmp_gt in G. apply cmp_gt in G'. congruence.
  - intros M x y. unfold lt_. rewrite M. auto.
Qed.
Lemma mono_inj {T U} `{Ord T} `{Ord U} (r : T -> U) : mono r -> injective r.
Proof. intros M x y E. apply cmp_eq. rewrite <- M, E. apply cmp_refl. Qed.
Lemma mono_id {T} `{Ord T} : mono (fun x : T => x).
Proof. intros x y. reflexivity. Qed.

Definition pmap {A B C D} (f : A -> C) (g : B -> D) (p : A * B) : C * D := (f (fst p), g (snd p)).
Definition idn {A} (x : A) : A := x.

Section Mono.
  Context {T U : Type} `{Ord T} `{Ord U} (r : T -> U) (M : mono r).

  Lemma mono_list : mono (map r).
  Proof.
    intros l. induction l as [|x l IH]; intros [|y m]; cbn; try reflexivity.
    rewrite M. destruct (cmp x y); auto. apply IH.
  Qed.
  Lemma mono_pair {A B} `{Ord A} `{Ord B} (g : A -> B) : mono g -> mono (pmap r g).
  Proof. intros G [a b] [a' b']. cbn. unfold cmp_pair. cbn. rewrite M, G. reflexivity. Qed.

  Lemma eqb_r x y : eqb_ (r x) (r y) = eqb_ x y.
  Proof. unfold eqb_. rewrite M. reflexivity. Qed.
  Lemma leb_r x y : leb_ (r x) (r y) = leb_ x y.
  Proof. unfold leb_. rewrite M. reflexivity. Qed.
  Lemma memb_r x l : memb (r x) (map r l) = memb x l.
  Proof.
    unfold memb. induction l as [|y l IH]; cbn; [reflexivity|]. rewrite eqb_r, IH. reflexivity.
  Qed.
  Lemma unique_from_r l : forall seen, unique_from (map r seen) (map r l) = map r (unique_from seen l).
  Proof.
    induction l as [|x l IH]; intros seen; cbn; [reflexivity|].
    rewrite memb_r. destruct (memb x seen); [apply IH|]. cbn. f_equal. apply (IH (x :: seen)).
  Qed.
  Lemma unique_r l : unique (map r l) = map r (unique l).
  Proof. apply (unique_from_r l []). Qed.
End Mono.

Lemma insert_by_map {A B} (f : A -> B) (la : A -> A -> bool) (lb : B -> B -> bool) :
  (forall x y, lb (f x) (f y) = la x y) ->
  forall x l, insert_by lb (f x) (map f l) = map f (insert_by la x l).
Proof.
  intros E x l. induction l as [|y l IH]; cbn; [reflexivity|].
  rewrite E. destruct (la x y); cbn; [reflexivity|]. f_equal. exact IH.
Qed.
Lemma sort_by_map {A B} (f : A -> B) (la : A -> A -> bool) (lb : B -> B -> bool) :
  (forall x y, lb (f x) (f y) = la x y) ->
  forall l, sort_by lb (map f l) = map f (sort_by la l).
Proof.
  intros E l. unfold sort_by. induction l as [|x l IH]; cbn; [reflexivity|].
  rewrite IH. apply insert_by_map. exact E.
Qed.
Lemma sort_r {T U} `{Ord T} `{Ord U} (r : T -> U) (M : mono r) l : sort (map r l) = map r (sort l).
Proof. unfold sort. apply sort_by_map. intros; apply leb_r; exact M. Qed.
Lemma filter_repeats_r {T U} `{Ord T} `{Ord U} (r : T -> U) (M : mono r) l :
  filter_repeats (map r l) = map r (filter_repeats l).
Proof. unfold filter_repeats. rewrite (sort_r r M), (unique_r r M). reflexivity. Qed.

Section Maps.
  Context {K L V W : Type} `{Ord K} `{Ord L} (r : K -> L) (M : mono r) (g : V -> W).
  Lemma map_get_r m k : map_get (map (pmap r g) m) (r k) = option_map g (map_get m k).
  Proof.
    induction m as [|[k' v] m IH]; cbn; [reflexivity|].
    rewrite M. destruct (cmp k k'); cbn; auto.
  Qed.
  Lemma map_update_r m k f f' : (forall o, f' (option_map g o) = g (f o)) ->
    map_update (map (pmap r g) m) (r k) f' = map (pmap r g) (map_update m k f).
  Proof.
    intros E. induction m as [|[k' v] m IH]; cbn.
    - rewrite (E None : f' None = _). reflexivity.
    - rewrite M. destruct (cmp k k'); cbn.
      + rewrite (E (Some v) : f' (Some (g v)) = _). reflexivity.
      + rewrite (E None : f' None = _). reflexivity.
      + f_equal. exact IH.
  Qed.
  Lemma map_insert_r m k v : map_insert (map (pmap r g) m) (r k) (g v) = map (pmap r g) (map_insert m k v).
  Proof. apply map_update_r. reflexivity. Qed.
End Maps.

Lemma fold_left_map_r {A B A' B'} (a : A -> A') (b : B -> B') (f : B -> A -> B) (f' : B' -> A' -> B') :
  (forall m x, f' (b m) (a x) = b (f m x)) ->
  forall l m, fold_left f' (map a l) (b m) = b (fold_left f l m).
Proof. intros E l. induction l as [|x l IH]; intros m; cbn; [reflexivity|]. rewrite E. apply IH. Qed.
Lemma filter_map_r {A B A' B'} (a : A -> A') (b : B -> B') (f : A -> option B) (f' : A' -> option B') :
  (forall x, f' (a x) = option_map b (f x)) ->
  forall l, filter_map f' (map a l) = map b (filter_map f l).
Proof.
  intros E l. induction l as [|x l IH]; cbn; [reflexivity|]. rewrite E.
  destruct (f x); cbn; [f_equal|]; exact IH.
Qed.
Lemma foldM_r {A B A' B'} (a : A -> A') (b : B -> B') (f : B -> A -> option B) (f' : B' -> A' -> option B') :
  (forall m x, f' (b m) (a x) = option_map b (f m x)) ->
  forall l m, foldM f' (map a l) (b m) = option_map b (foldM f l m).
Proof.
  intros E l. induction l as [|x l IH]; intros m; cbn; [reflexivity|]. rewrite E.
  destruct (f m x); cbn; [apply IH|reflexivity].
Qed.
Lemma mapM_r {A B A' B'} (a : A -> A') (b : B -> B') (f : A -> option B) (f' : A' -> option B') :
  (forall x, f' (a x) = option_map b (f x)) ->
  forall l, mapM f' (map a l) = option_map (map b) (mapM f l).
Proof.
  intros E l. induction l as [|x l IH]; cbn; [reflexivity|]. rewrite E.
  destruct (f x); cbn; [|reflexivity]. rewrite IH. destruct (mapM f l); reflexivity.
Qed.
Lemma filter_r {A A'} (a : A -> A') (f : A -> bool) (f' : A' -> bool) :
  (forall x, f' (a x) = f x) -> forall l, filter f' (map a l) = map a (filter f l).
Proof.
  intros E l. induction l as [|x l IH]; cbn; [reflexivity|]. rewrite E.
  destruct (f x); cbn; [f_equal|]; exact IH.
Qed.
Lemma forallb_r {A A'} (a : A -> A') (f : A -> bool) (f' : A' -> bool) :
  (forall x, f' (a x) = f x) -> forall l, forallb f' (map a l) = forallb f l.
Proof. intros E l. induction l as [|x l IH]; cbn; [reflexivity|]. rewrite E, IH. reflexivity. Qed.
Lemma flat_map_r {A B A' B'} (a : A -> A') (b : B -> B') (f : A -> list B) (f' : A' -> list B') :
  (forall x, f' (a x) = map b (f x)) -> forall l, flat_map f' (map a l) = map b (flat_map f l).
Proof. intros E l. induction l as [|x l IH]; cbn; [reflexivity|]. rewrite E, map_app, IH. reflexivity. Qed.
Lemma concat_map_map {A B} (f : A -> B) l : concat (map (map f) l) = map f (concat l).
Proof. symmetry. apply concat_map. Qed.
Lemma combine_map_l {A B C} (f : A -> C) (l : list A) : forall (m : list B),
  combine (map f l) m = map (pmap f idn) (combine l m).
Proof. induction l as [|x l IH]; intros [|y m]; cbn; try reflexivity. f_equal. apply IH. Qed.
Lemma nth_error_map_ {A B} (f : A -> B) l n : nth_error (map f l) n = option_map f (nth_error l n).
Proof. revert n. induction l as [|x l IH]; intros [|n]; cbn; try reflexivity. apply IH. Qed.
Lemma option_map_id {A} (o : option A) : option_map idn o = o.
Proof. destruct o; reflexivity. Qed.
