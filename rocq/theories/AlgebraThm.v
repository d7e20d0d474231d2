(** AlgebraThm: laws that relate several calls: splitting and recombining,
    composition of filters, associativity, counting, matrix algebra. *)
From Coq Require Import List Arith Lia Bool Permutation Sorted.
From Verif Require Import Base DD Spec Zdd2Model Zdd2Node Zdd2Node2 Zdd2Univ Zdd2Forest Zdd2Forest2 Zdd2Forest3 Zdd2Exact2 Zdd2Laws Zdd2Thm MatrixModel MatrixProofs MatrixThm.
Import ListNotations.

(** ** C69: splitting by an item and recombining *)
Definition C69_claim (T : Type) (O : Ord T) : Prop := forall (h : hash_order) (f : forest T) e, Reach f ->
  exists a b, f_subset h f e = Some a /\ f_subset_not h f e = Some b /\ f_union h a b = Some f.

(** many([[1,3],[1],[3]]) split by 3: the union of the two parts is not the forest. *)
Lemma C69_split_refuted_pf : ~ C69_claim nat _.
Proof.
  intros C. destruct (f_many ho_id [[1;3];[1];[3]]) as [f|] eqn:E; [|vm_compute in E; discriminate].
  destruct (C ho_id f 3 (R_many _ _ _ E)) as (a & b & A & B & U).
  vm_compute in E. injection E as <-. vm_compute in A. injection A as <-. vm_compute in B. injection B as <-.
  vm_compute in U. discriminate.
Qed.

(** The two parts always exist and partition the trees; their union has at most
    as many trees as the forest and only items of it, and it is the forest ([==])
    exactly if the two parts are [settled]. *)
Lemma C69_split_partial_pf : forall (T : Type) (O : Ord T) (h : hash_order) (f : forest T) e ts,
  Reach f -> f_trees f = Some ts ->
  exists a b ta tb r tr, f_subset h f e = Some a /\ f_subset_not h f e = Some b /\
    f_trees a = Some ta /\ f_trees b = Some tb /\ f_union h a b = Some r /\ f_trees r = Some tr /\
    (forall t, In t ts <-> In t ta \/ In t tb) /\ (forall t, In t ta -> In t tb -> False) /\
    length tr <= length ts /\ (tr = [] -> ts = []) /\
    (forall t x, In t tr -> In x t -> exists t', In t' ts /\ In x t') /\
    (r = f <-> settled ta tb /\ settled tb ta).
Proof.
  intros T O h f e ts Hf E. trees. rename H into Cf.
  destruct (subset_spec h f e Cf) as (a & Ea & Ca & Sa).
  destruct (subset_not_spec h f e Cf) as (b & Eb & Cb & Sb).
  assert (Ra : Reach a) by exact (R_subset _ _ _ _ Hf Ea). assert (Rb : Reach b) by exact (R_subset_not _ _ _ _ Hf Eb).
  destruct (f_union_spec h a b Ca Cb) as (r & Er & Cr & Sr).
  destruct (C11_union_bounds_partial_pf T O h a b (tl_ a) (tl_ b) Ra Rb (f_trees_tl a) (f_trees_tl b)) as (r' & tr & Er' & Etr & L & N & I).
  rewrite Er in Er'. injection Er' as <-. rewrite f_trees_tl in Etr. injection Etr as <-.
  destruct (subset_split f a b e Cf Ca Cb Sa Sb) as (_ & Len).
  exists a, b, (tl_ a), (tl_ b), r, (tl_ r).
  split; [exact Ea|]. split; [exact Eb|]. split; [apply f_trees_tl|]. split; [apply f_trees_tl|]. split; [exact Er|]. split; [apply f_trees_tl|].
  split; [intros t; split|split; [|split; [|split; [|split; [|split]]]]].
  - intros J. destruct (memb e t) eqn:M; [left; apply Sa; split; [exact J|apply memb_spec, M]|right; apply Sb; split; [exact J|apply memb_false, M]].
  - intros [J|J]; [apply Sa in J|apply Sb in J]; apply J.
  - intros t J K. apply Sa in J. apply Sb in K. tauto.
  - lia.
  - intros Z. destruct (N Z) as (Za & Zb). rewrite Za, Zb in Len. cbn in Len. destruct (tl_ f); [auto|cbn in Len; lia].
  - intros t x J K. destruct (I t x J K) as (t' & J' & K'). exists t'. split; [|exact K'].
    destruct J' as [J'|J']; [apply Sa in J'|apply Sb in J']; apply J'.
  - intros ->.
    destruct (union_exact h a b Ca Cb) as (r' & ea & eb & Er' & _ & (_ & Fa & _ & _ & La & _ & Ia) & (_ & Fb & _ & _ & Lb & _ & Ib) & U).
    assert (r' = f) by congruence. subst r'.
    assert (NoE : forall t, In t eb -> ~ In e t).
    { intros t J K. destruct (Ib t e J K) as (t' & J' & K'). apply Sb in J'. tauto. }
    assert (A1 : incl (tl_ a) ea).
    { intros t J. apply Sa in J. destruct J as (J & K). apply U in J. destruct J as [J|J]; [exact J|]. exfalso. exact (NoE t J K). }
    assert (A2 : incl ea (tl_ a)).
    { apply NoDup_length_incl; [|exact La|exact A1]. destruct Ca as [oa Ca']; apply (canon_tl _ _ Ca'). }
    split; [apply Fa; intros t; split; [apply A2|apply A1]|]. apply Fb. intros t. split.
    + intros J. apply Sb. split; [apply U; auto|apply NoE, J].
    + intros J. apply Sb in J. destruct J as (J & K). apply U in J. destruct J as [J|J]; [|exact J].
      exfalso. apply A2, Sa in J. tauto.
  - intros (S1 & S2). apply Canon_ext; auto. intros s. rewrite (Sr S1 S2 s), Sa, Sb.
    split; [tauto|]. intros J. destruct (memb e s) eqn:M; [left|right]; (split; [exact J|]); [apply memb_spec, M|apply memb_false, M].
Qed.

Example C69_example : exists f a b : forest nat, Reach f /\ f_trees f = Some [[1;2];[1;3];[1]] /\
  f_subset ho_id f 2 = Some a /\ f_trees a = Some [[1;2]] /\ f_subset_not ho_id f 2 = Some b /\ f_trees b = Some [[1;3];[1]] /\
  settled [[1;2]] [[1;3];[1]] /\ settled [[1;3];[1]] [[1;2]] /\ f_union ho_id a b = Some f.
Proof.
  destruct (f_many ho_id [[1;2];[1;3];[1]]) as [f|] eqn:E; [|vm_compute in E; discriminate].
  pose proof (R_many _ _ _ E) as Rf.
  destruct (subset_spec ho_id f 2 (Reach_Canon _ Rf)) as (a & Ea & Ca & _).
  destruct (subset_not_spec ho_id f 2 (Reach_Canon _ Rf)) as (b & Eb & Cb & _).
  assert (Ra : Reach a) by exact (R_subset _ _ _ _ Rf Ea). assert (Rb : Reach b) by exact (R_subset_not _ _ _ _ Rf Eb).
  exists f, a, b. split; [exact Rf|].
  assert (Ef := E). vm_compute in Ef. injection Ef as Ef.
  assert (Ea' := Ea). rewrite <- Ef in Ea'. vm_compute in Ea'. injection Ea' as Ea'.
  assert (Eb' := Eb). rewrite <- Ef in Eb'. vm_compute in Eb'. injection Eb' as Eb'.
  assert (Ta : f_trees a = Some [[1;2]]) by (rewrite <- Ea'; vm_compute; reflexivity).
  assert (Tb : f_trees b = Some [[1;3];[1]]) by (rewrite <- Eb'; vm_compute; reflexivity).
  split; [rewrite <- Ef; vm_compute; reflexivity|]. split; [exact Ea|]. split; [exact Ta|]. split; [exact Eb|]. split; [exact Tb|].
  split; [|split].
  - apply (C11_order_kept_partial_pf nat _ a b); auto. intros t x y [<-|[]] X Y B. right. intros t' [<-|[]]. tauto.
  - apply (C11_order_kept_partial_pf nat _ b a); auto. intros t x y J X Y B. left.
    destruct J as [<-|[<-|[]]]; cbn in X, Y;
      repeat match goal with H : _ \/ _ |- _ => destruct H | H : False |- _ => destruct H end; subst;
      unfold before in *; cbn in *; rewrite ?lt_nat in *; lia.
  - rewrite <- Ef, <- Ea', <- Eb'. vm_compute. reflexivity.
Qed.

(** ** C70: associativity of union and product *)
Definition C70_claim (T : Type) (O : Ord T) : Prop := forall (h : hash_order) (f g k : forest T), Reach f -> Reach g -> Reach k ->
  (exists fg gk r, f_union h f g = Some fg /\ f_union h g k = Some gk /\ f_union h fg k = Some r /\ f_union h f gk = Some r) /\
  (exists fg gk r, f_product h f g = Some fg /\ f_product h g k = Some gk /\ f_product h fg k = Some r /\ f_product h f gk = Some r).

(** ({{1,2,3}} ∪ {{1,3},{3}}) ∪ {{2,3},{2}} is not {{1,2,3}} ∪ ({{1,3},{3}} ∪ {{2,3},{2}}). *)
Lemma C70_assoc_refuted_pf : ~ C70_claim nat _.
Proof.
  intros C.
  destruct (f_many ho_id [[1;2;3]]) as [f|] eqn:Ef; [|vm_compute in Ef; discriminate].
  destruct (f_many ho_id [[1;3];[3]]) as [g|] eqn:Eg; [|vm_compute in Eg; discriminate].
  destruct (f_many ho_id [[2;3];[2]]) as [k|] eqn:Ek; [|vm_compute in Ek; discriminate].
  destruct (C ho_id f g k (R_many _ _ _ Ef) (R_many _ _ _ Eg) (R_many _ _ _ Ek)) as ((fg & gk & r & A & B & U & V) & _).
  vm_compute in Ef. injection Ef as <-. vm_compute in Eg. injection Eg as <-. vm_compute in Ek. injection Ek as <-.
  vm_compute in A. injection A as <-. vm_compute in B. injection B as <-. vm_compute in U. injection U as <-.
  vm_compute in V. discriminate.
Qed.

(** also for the product: ({{1,3},{3}} × {{1,3},{3}}) × {{2,3}} *)
Lemma C70_product_assoc_refuted_pf : exists f g fg gk r r' : forest nat, Reach f /\ Reach g /\
  f_product ho_id f f = Some fg /\ f_product ho_id f g = Some gk /\
  f_product ho_id fg g = Some r /\ f_product ho_id f gk = Some r' /\ f_eqb r r' = false.
Proof.
  destruct (f_many ho_id [[1;3];[3]]) as [f|] eqn:Ef; [|vm_compute in Ef; discriminate].
  destruct (f_many ho_id [[2;3]]) as [g|] eqn:Eg; [|vm_compute in Eg; discriminate].
  pose proof (R_many _ _ _ Ef) as Rf. pose proof (R_many _ _ _ Eg) as Rg.
  vm_compute in Ef. injection Ef as Ef. vm_compute in Eg. injection Eg as Eg.
  exists f, g. rewrite <- Ef, <- Eg in *. do 4 eexists. split; [exact Rf|]. split; [exact Rg|].
  repeat split; vm_compute; reflexivity.
Qed.

Lemma reach_tree_ok (T : Type) (O : Ord T) (f : forest T) t : Canon f -> In t (tl_ f) -> ssorted t /\ t <> [].
Proof.
  intros [o C] J. destruct (canon_tl _ _ C) as ((S_ & _) & N). split; [auto|]. intros ->. contradiction.
Qed.
Lemma disjoint_settled (T : Type) (O : Ord T) (f g : forest T) : Canon f -> Canon g ->
  item_disjoint (tl_ f) (tl_ g) -> fsafe f g /\ fsafe g f.
Proof.
  intros A B D. split; apply kept_settled; auto; apply stable_order_kept, item_disjoint_stable; [|apply item_disjoint_sym]; auto.
Qed.
Lemma union_disjoint (T : Type) (O : Ord T) h (f g : forest T) : Canon f -> Canon g -> item_disjoint (tl_ f) (tl_ g) ->
  exists r, f_union h f g = Some r /\ Canon r /\ forall s, In s (tl_ r) <-> In s (tl_ f) \/ In s (tl_ g).
Proof.
  intros A B D. destruct (disjoint_settled T O f g A B D) as (S1 & S2).
  destruct (f_union_spec h f g A B) as (r & E & C & S_). exists r. auto.
Qed.
Lemma product_disjoint (T : Type) (O : Ord T) h (f g : forest T) : Canon f -> Canon g -> item_disjoint (tl_ f) (tl_ g) ->
  exists r, f_product h f g = Some r /\ Canon r /\ forall s, In s (tl_ r) <-> exists a b, In a (tl_ f) /\ In b (tl_ g) /\ s = filter_repeats (a ++ b).
Proof.
  intros A B D. destruct (disjoint_settled T O f g A B D) as (S1 & S2).
  destruct (f_product_spec h f g A B) as (r & E & C & S_). destruct (S_ S1 S2) as (P & Q). exists r. split; [auto|]. split; [auto|].
  assert (U : forall s a b, ssorted s -> is_union s a b -> s = filter_repeats (a ++ b)).
  { intros s a b Ss V. apply ssorted_ext; [exact Ss|apply filter_repeats_ssorted|]. intros x. rewrite filter_repeats_in, in_app_iff. apply V. }
  intros s. split.
  - intros J. destruct (P s J) as (a & b & Ja & Jb & V). exists a, b. split; [auto|]. split; [auto|]. apply U; [|exact V].
    apply (reach_tree_ok T O r); auto.
  - intros (a & b & Ja & Jb & ->). destruct (Q (or_introl D) a b Ja Jb) as (s & J & V).
    rewrite <- (U s a b); auto. apply (reach_tree_ok T O r); auto.
Qed.

(** Forests with no item in common: union and product are associative,
    as [==]. *)
Lemma C70_disjoint_partial_pf : forall (T : Type) (O : Ord T) (h : hash_order) (f g k : forest T) tf tg tk,
  Reach f -> Reach g -> Reach k -> f_trees f = Some tf -> f_trees g = Some tg -> f_trees k = Some tk ->
  item_disjoint tf tg -> item_disjoint tf tk -> item_disjoint tg tk ->
  (exists fg gk r, f_union h f g = Some fg /\ f_union h g k = Some gk /\ f_union h fg k = Some r /\ f_union h f gk = Some r) /\
  (exists fg gk r, f_product h f g = Some fg /\ f_product h g k = Some gk /\ f_product h fg k = Some r /\ f_product h f gk = Some r).
Proof.
  intros T O h f g k tf tg tk Hf Hg Hk Ef Eg Ek D1 D2 D3.
  rewrite f_trees_tl in Ef, Eg, Ek. injection Ef as <-. injection Eg as <-. injection Ek as <-.
  apply Reach_Canon in Hf. apply Reach_Canon in Hg. apply Reach_Canon in Hk. split.
  - destruct (union_disjoint T O h f g Hf Hg D1) as (fg & E1 & C1 & S1).
    destruct (union_disjoint T O h g k Hg Hk D3) as (gk & E2 & C2 & S2).
    destruct (union_disjoint T O h fg k C1 Hk) as (r & E3 & C3 & S3).
    { intros a b x A. apply S1 in A. destruct A as [A|A]; [apply (D2 a b x A)|apply (D3 a b x A)]. }
    destruct (union_disjoint T O h f gk Hf C2) as (r' & E4 & C4 & S4).
    { intros a b x A B. apply S2 in B. destruct B as [B|B]; [apply (D1 a b x A B)|apply (D2 a b x A B)]. }
    exists fg, gk, r. repeat split; auto. rewrite E4. f_equal. apply Canon_ext; auto.
    intros s. rewrite S3, S4, S1, S2. tauto.
  - destruct (product_disjoint T O h f g Hf Hg D1) as (fg & E1 & C1 & S1).
    destruct (product_disjoint T O h g k Hg Hk D3) as (gk & E2 & C2 & S2).
    destruct (product_disjoint T O h fg k C1 Hk) as (r & E3 & C3 & S3).
    { intros a b x A B X Y. apply S1 in A. destruct A as (u & v & U & V & ->). apply filter_repeats_in, in_app_iff in X.
      destruct X as [X|X]; [apply (D2 u b x U B X Y)|apply (D3 v b x V B X Y)]. }
    destruct (product_disjoint T O h f gk Hf C2) as (r' & E4 & C4 & S4).
    { intros a b x A B X Y. apply S2 in B. destruct B as (u & v & U & V & ->). apply filter_repeats_in, in_app_iff in Y.
      destruct Y as [Y|Y]; [apply (D1 a u x A U X Y)|apply (D2 a v x A V X Y)]. }
    exists fg, gk, r. repeat split; auto. rewrite E4. f_equal. apply Canon_ext; auto.
    intros s. rewrite S3, S4. split.
    + intros (a & b & A & B & ->). apply S2 in B. destruct B as (u & v & U & V & ->).
      exists (filter_repeats (a ++ u)), v. split; [apply S1; eauto 6|]. split; [exact V|].
      apply filter_repeats_ext. intros x. rewrite !in_app_iff, !filter_repeats_in, !in_app_iff. tauto.
    + intros (a & b & A & B & ->). apply S1 in A. destruct A as (u & v & U & V & ->).
      exists u, (filter_repeats (v ++ b)). split; [exact U|]. split; [apply S2; eauto 6|].
      apply filter_repeats_ext. intros x. rewrite !in_app_iff, !filter_repeats_in, !in_app_iff. tauto.
Qed.

(** In general union is associative whenever every union made is [settled] on both sides. *)
Lemma C70_settled_partial_pf : forall (T : Type) (O : Ord T) (h : hash_order) (f g k : forest T) tf tg tk,
  Reach f -> Reach g -> Reach k -> f_trees f = Some tf -> f_trees g = Some tg -> f_trees k = Some tk ->
  exists fg gk tfg tgk r r', f_union h f g = Some fg /\ f_union h g k = Some gk /\
    f_trees fg = Some tfg /\ f_trees gk = Some tgk /\ f_union h fg k = Some r /\ f_union h f gk = Some r' /\
    (settled tf tg -> settled tg tf -> settled tg tk -> settled tk tg ->
     settled tfg tk -> settled tk tfg -> settled tf tgk -> settled tgk tf -> r = r').
Proof.
  intros T O h f g k tf tg tk Hf Hg Hk Ef Eg Ek.
  rewrite f_trees_tl in Ef, Eg, Ek. injection Ef as <-. injection Eg as <-. injection Ek as <-.
  apply Reach_Canon in Hf. apply Reach_Canon in Hg. apply Reach_Canon in Hk.
  destruct (f_union_spec h f g Hf Hg) as (fg & E1 & C1 & S1). destruct (f_union_spec h g k Hg Hk) as (gk & E2 & C2 & S2).
  destruct (f_union_spec h fg k C1 Hk) as (r & E3 & C3 & S3). destruct (f_union_spec h f gk Hf C2) as (r' & E4 & C4 & S4).
  exists fg, gk, (tl_ fg), (tl_ gk), r, r'. repeat split; auto using f_trees_tl.
  intros A1 A2 A3 A4 A5 A6 A7 A8. apply Canon_ext; auto. intros s.
  rewrite (S3 A5 A6), (S4 A7 A8), (S1 A1 A2), (S2 A3 A4). tauto.
Qed.

(** In general the two bracketings agree exactly if the last unions make the same family of their sides
    ([resorted], as in C11: one result for each side, which always exists). *)
Lemma C70_union_exact_partial_pf : forall (T : Type) (O : Ord T) (h : hash_order) (f g k : forest T) tf tg tk,
  Reach f -> Reach g -> Reach k -> f_trees f = Some tf -> f_trees g = Some tg -> f_trees k = Some tk ->
  exists fg gk tfg tgk r r' p q p' q', f_union h f g = Some fg /\ f_union h g k = Some gk /\
    f_trees fg = Some tfg /\ f_trees gk = Some tgk /\ f_union h fg k = Some r /\ f_union h f gk = Some r' /\
    resorted (count tfg) (fun z => count tfg z + count tk z) tfg p /\
    resorted (count tk) (fun z => count tk z + count tfg z) tk q /\
    resorted (count tf) (fun z => count tf z + count tgk z) tf p' /\
    resorted (count tgk) (fun z => count tgk z + count tf z) tgk q' /\
    (r = r' <-> forall t, (In t p \/ In t q) <-> (In t p' \/ In t q')).
Proof.
  intros T O h f g k tf tg tk Hf Hg Hk Ef Eg Ek.
  destruct (C11_union_partial_pf T O h f g tf tg Hf Hg Ef Eg) as (fg & tfg & E1 & T1 & _).
  destruct (C11_union_partial_pf T O h g k tg tk Hg Hk Eg Ek) as (gk & tgk & E2 & T2 & _).
  assert (R1 : Reach fg) by exact (R_union h f g fg Hf Hg E1).
  assert (R2 : Reach gk) by exact (R_union h g k gk Hg Hk E2).
  destruct (C11_resorted_total_partial_pf T O fg k tfg tk R1 Hk T1 Ek) as (p & P & _).
  destruct (C11_resorted_total_partial_pf T O k fg tk tfg Hk R1 Ek T1) as (q & Q & _).
  destruct (C11_resorted_total_partial_pf T O f gk tf tgk Hf R2 Ef T2) as (p' & P' & _).
  destruct (C11_resorted_total_partial_pf T O gk f tgk tf R2 Hf T2 Ef) as (q' & Q' & _).
  destruct (C11_union_determined_partial_pf T O h fg k tfg tk p q R1 Hk T1 Ek P Q) as (r & tr & E3 & T3 & I3).
  destruct (C11_union_determined_partial_pf T O h f gk tf tgk p' q' Hf R2 Ef T2 P' Q') as (r' & tr' & E4 & T4 & I4).
  assert (R3 : Reach r) by exact (R_union h fg k r R1 Hk E3).
  assert (R4 : Reach r') by exact (R_union h f gk r' Hf R2 E4).
  exists fg, gk, tfg, tgk, r, r', p, q, p', q'.
  do 10 (split; [assumption|]).
  split.
  - intros <-. assert (tr = tr') as <- by congruence. intros t. rewrite <- I3, <- I4. tauto.
  - intros X. apply Canon_ext; [exact (Reach_Canon r R3)|exact (Reach_Canon r' R4)|].
    rewrite f_trees_tl in T3, T4. injection T3 as <-. injection T4 as <-. intros s. rewrite I3, I4. apply X.
Qed.

(** Likewise for the product, with what C13 says the last products make of their sides. *)
Lemma C70_product_exact_partial_pf : forall (T : Type) (O : Ord T) (h : hash_order) (f g k : forest T) tf tg tk,
  Reach f -> Reach g -> Reach k -> f_trees f = Some tf -> f_trees g = Some tg -> f_trees k = Some tk ->
  exists fg gk tfg tgk r r' p q p' q', f_product h f g = Some fg /\ f_product h g k = Some gk /\
    f_trees fg = Some tfg /\ f_trees gk = Some tgk /\ f_product h fg k = Some r /\ f_product h f gk = Some r' /\
    resorted (count tfg) (fun z => count tfg z + count tk z) tfg p /\
    resorted (count tk) (fun z => count tk z + count tfg z) tk q /\
    resorted (count tf) (fun z => count tf z + count tgk z) tf p' /\
    resorted (count tgk) (fun z => count tgk z + count tf z) tgk q' /\
    let paired o (es gs : list (list T)) s := exists a b, In a es /\ In b gs /\ is_union s a b /\
      forall c, same_rest o c es a gs b -> agree_after o c a b in
    (r = r' <-> forall s, paired (fun z => count tfg z + count tk z) p q s <->
                          paired (fun z => count tf z + count tgk z) p' q' s).
Proof.
  intros T O h f g k tf tg tk Hf Hg Hk Ef Eg Ek.
  destruct (C13_product_partial_pf T O h f g tf tg Hf Hg Ef Eg) as (fg & tfg & E1 & T1 & _).
  destruct (C13_product_partial_pf T O h g k tg tk Hg Hk Eg Ek) as (gk & tgk & E2 & T2 & _).
  assert (R1 : Reach fg) by exact (R_product h f g fg Hf Hg E1).
  assert (R2 : Reach gk) by exact (R_product h g k gk Hg Hk E2).
  destruct (C11_resorted_total_partial_pf T O fg k tfg tk R1 Hk T1 Ek) as (p & P & _).
  destruct (C11_resorted_total_partial_pf T O k fg tk tfg Hk R1 Ek T1) as (q & Q & _).
  destruct (C11_resorted_total_partial_pf T O f gk tf tgk Hf R2 Ef T2) as (p' & P' & _).
  destruct (C11_resorted_total_partial_pf T O gk f tgk tf R2 Hf T2 Ef) as (q' & Q' & _).
  destruct (C13_product_determined_partial_pf T O h fg k tfg tk p q R1 Hk T1 Ek P Q) as (r & tr & E3 & T3 & I3).
  destruct (C13_product_determined_partial_pf T O h f gk tf tgk p' q' Hf R2 Ef T2 P' Q') as (r' & tr' & E4 & T4 & I4).
  assert (R3 : Reach r) by exact (R_product h fg k r R1 Hk E3).
  assert (R4 : Reach r') by exact (R_product h f gk r' Hf R2 E4).
  exists fg, gk, tfg, tgk, r, r', p, q, p', q'.
  do 10 (split; [assumption|]). intros paired.
  split.
  - intros <-. assert (tr = tr') as <- by congruence. intros s. unfold paired. rewrite <- (I3 s), <- (I4 s). tauto.
  - intros X. pose proof (proj2 (C06_equality_extensional_pf T O r r' tr tr' R3 R4 T3 T4)) as Q6.
    pose proof (fun s => iff_trans (I3 s) (iff_trans (X s) (iff_sym (I4 s)))) as Y.
    exact (proj1 (f_eqb_spec r r') (Q6 Y)).
Qed.

Example C70_example : exists f g k fg r p : forest nat, Reach f /\ Reach g /\ Reach k /\
  f_trees f = Some [[1;2];[1]] /\ f_trees g = Some [[3]] /\ f_trees k = Some [[4;5];[5]] /\
  item_disjoint [[1;2];[1]] [[3]] /\ item_disjoint [[1;2];[1]] [[4;5];[5]] /\ item_disjoint [[3]] [[4;5];[5]] /\
  f_union ho_id f g = Some fg /\ f_union ho_id fg k = Some r /\ f_trees r = Some [[1;2];[1];[4;5];[5];[3]] /\
  f_product ho_id fg k = Some p /\ f_len p = Some 6.
Proof.
  destruct (f_many ho_id [[1;2];[1]]) as [f|] eqn:Ef; [|vm_compute in Ef; discriminate].
  destruct (f_many ho_id [[3]]) as [g|] eqn:Eg; [|vm_compute in Eg; discriminate].
  destruct (f_many ho_id [[4;5];[5]]) as [k|] eqn:Ek; [|vm_compute in Ek; discriminate].
  pose proof (R_many _ _ _ Ef) as Rf. pose proof (R_many _ _ _ Eg) as Rg. pose proof (R_many _ _ _ Ek) as Rk.
  vm_compute in Ef. injection Ef as Ef. vm_compute in Eg. injection Eg as Eg. vm_compute in Ek. injection Ek as Ek.
  exists f, g, k. rewrite <- Ef, <- Eg, <- Ek in *. do 3 eexists.
  split; [exact Rf|]. split; [exact Rg|]. split; [exact Rk|].
  assert (D : forall a b : list (list nat), forallb (fun s => forallb (fun t => forallb (fun x => negb (memb x t)) s) b) a = true -> item_disjoint a b).
  { intros a b Q s t x A B X Y. rewrite forallb_forall in Q. specialize (Q s A). rewrite forallb_forall in Q. specialize (Q t B).
    rewrite forallb_forall in Q. specialize (Q x X). apply negb_true_iff, memb_false in Q. contradiction. }
  split; [vm_compute; reflexivity|]. split; [vm_compute; reflexivity|]. split; [vm_compute; reflexivity|].
  split; [apply D; vm_compute; reflexivity|]. split; [apply D; vm_compute; reflexivity|]. split; [apply D; vm_compute; reflexivity|].
  repeat split; vm_compute; reflexivity.
Qed.

(** ** C71: filters compose *)
(** f.subset(e1).subset(e2)... *)
Definition subset_each {T} `{Ord T} (h : hash_order) (f : forest T) (es : list T) : option (forest T) :=
  fold_left (fun o e => bind o (fun r => f_subset h r e)) es (Some f).
(** f.subset_not(e1).subset_not(e2)... *)
Definition subset_not_each {T} `{Ord T} (h : hash_order) (f : forest T) (es : list T) : option (forest T) :=
  fold_left (fun o e => bind o (fun r => f_subset_not h r e)) es (Some f).

Lemma subset_each_spec (T : Type) (O : Ord T) h es : forall f : forest T, Canon f ->
  exists r, subset_each h f es = Some r /\ Canon r /\ forall s, In s (tl_ r) <-> In s (tl_ f) /\ forall e, In e es -> In e s.
Proof.
  induction es as [|e es IH]; intros f C.
  - exists f. split; [reflexivity|]. split; [exact C|]. intros s. split; [intros J; split; [exact J|intros e []]|tauto].
  - destruct (subset_spec h f e C) as (a & Ea & Ca & Sa). destruct (IH a Ca) as (r & Er & Cr & Sr).
    exists r. split; [|split; [exact Cr|]].
    + unfold subset_each in *. cbn [fold_left bind]. rewrite Ea. exact Er.
    + intros s. rewrite Sr, Sa. split.
      * intros ((A & B) & D). split; [exact A|]. intros x [<-|X]; auto.
      * intros (A & B). split; [split; [exact A|apply B; left; reflexivity]|]. intros x X. apply B. right. exact X.
Qed.
Lemma subset_not_each_spec (T : Type) (O : Ord T) h es : forall f : forest T, Canon f ->
  exists r, subset_not_each h f es = Some r /\ Canon r /\ forall s, In s (tl_ r) <-> In s (tl_ f) /\ forall e, In e es -> ~ In e s.
Proof.
  induction es as [|e es IH]; intros f C.
  - exists f. split; [reflexivity|]. split; [exact C|]. intros s. split; [intros J; split; [exact J|intros e []]|tauto].
  - destruct (subset_not_spec h f e C) as (a & Ea & Ca & Sa). destruct (IH a Ca) as (r & Er & Cr & Sr).
    exists r. split; [|split; [exact Cr|]].
    + unfold subset_not_each in *. cbn [fold_left bind]. rewrite Ea. exact Er.
    + intros s. rewrite Sr, Sa. split.
      * intros ((A & B) & D). split; [exact A|]. intros x [<-|X]; auto.
      * intros (A & B). split; [split; [exact A|apply B; left; reflexivity]|]. intros x X. apply B. right. exact X.
Qed.

(** Filtering by several items one after the other, in any order and with
    repetitions, is [subset_all]; excluding items one after the other does not
    depend on order or repetitions, and keeps exactly the trees without them;
    requiring and excluding commute; requiring an item and then excluding it
    leaves the empty forest.  All as [==]. *)
Lemma C71_filters_compose_pf : forall (T : Type) (O : Ord T) (h : hash_order) (f : forest T) ts es es' e e',
  Reach f -> f_trees f = Some ts -> same_elems es es' ->
  (exists r, subset_each h f es = Some r /\ subset_each h f es' = Some r /\ f_subset_all h f es = Some r /\ f_subset_all h f es' = Some r) /\
  (exists r tr, subset_not_each h f es = Some r /\ subset_not_each h f es' = Some r /\ f_trees r = Some tr /\
     forall t, In t tr <-> In t ts /\ forall x, In x es -> ~ In x t) /\
  (exists a b r, f_subset h f e = Some a /\ f_subset_not h f e' = Some b /\ f_subset_not h a e' = Some r /\ f_subset h b e = Some r) /\
  (exists a b, f_subset h f e = Some a /\ f_subset h a e = Some a /\ f_subset_not h a e = Some f_empty /\
     f_subset_not h f e = Some b /\ f_subset_not h b e = Some b /\ f_subset h b e = Some f_empty).
Proof.
  intros T O h f ts es es' e e' Hf E Q. trees. rename H into C.
  split; [|split; [|split]].
  - destruct (subset_each_spec T O h es f C) as (r & Er & Cr & Sr).
    destruct (subset_each_spec T O h es' f C) as (r1 & Er1 & Cr1 & Sr1).
    destruct (subset_all_spec h f es C) as (r2 & Er2 & Cr2 & Sr2).
    destruct (subset_all_spec h f es' C) as (r3 & Er3 & Cr3 & Sr3).
    exists r. split; [exact Er|]. split; [|split]; [rewrite Er1|rewrite Er2|rewrite Er3]; f_equal; apply Canon_ext; auto; intros s.
    + rewrite Sr, Sr1. split; intros (A & B); (split; [exact A|]); intros x X; apply B, Q, X.
    + rewrite Sr, Sr2. reflexivity.
    + rewrite Sr, Sr3. split; intros (A & B); (split; [exact A|]); intros x X; apply B, Q, X.
  - destruct (subset_not_each_spec T O h es f C) as (r & Er & Cr & Sr).
    destruct (subset_not_each_spec T O h es' f C) as (r1 & Er1 & Cr1 & Sr1).
    exists r, (tl_ r). split; [exact Er|]. split; [|split; [apply f_trees_tl|exact Sr]].
    rewrite Er1. f_equal. apply Canon_ext; auto. intros s. rewrite Sr, Sr1.
    split; intros (A & B); (split; [exact A|]); intros x X; apply B, Q, X.
  - destruct (subset_spec h f e C) as (a & Ea & Ca & Sa). destruct (subset_not_spec h f e' C) as (b & Eb & Cb & Sb).
    destruct (subset_not_spec h a e' Ca) as (r & Er & Cr & Sr). destruct (subset_spec h b e Cb) as (r' & Er' & Cr' & Sr').
    exists a, b, r. repeat split; auto. rewrite Er'. f_equal. apply Canon_ext; auto. intros s. rewrite Sr, Sr', Sa, Sb. tauto.
  - destruct (subset_spec h f e C) as (a & Ea & Ca & Sa). destruct (subset_not_spec h f e C) as (b & Eb & Cb & Sb).
    destruct (subset_spec h a e Ca) as (a1 & Ea1 & Ca1 & Sa1). destruct (subset_not_spec h a e Ca) as (a2 & Ea2 & Ca2 & Sa2).
    destruct (subset_spec h b e Cb) as (b1 & Eb1 & Cb1 & Sb1). destruct (subset_not_spec h b e Cb) as (b2 & Eb2 & Cb2 & Sb2).
    exists a, b. split; [exact Ea|]. split; [rewrite Ea1|split; [rewrite Ea2|split; [exact Eb|split; [rewrite Eb2|rewrite Eb1]]]];
      f_equal; apply Canon_ext; auto using empty_Canon; intros s.
    + rewrite Sa1, Sa. tauto.
    + rewrite Sa2, Sa. split; [tauto|intros []].
    + rewrite Sb2, Sb. tauto.
    + rewrite Sb1, Sb. split; [tauto|intros []].
Qed.

Example C71_example : exists f r q : forest nat, Reach f /\ f_trees f = Some [[1;2;3];[1;2];[1];[2;3]] /\
  same_elems [3;2;3] [2;3] /\ subset_each ho_id f [3;2;3] = Some r /\ f_subset_all ho_rev f [2;3] = Some r /\
  f_trees r = Some [[1;2;3];[2;3]] /\ subset_not_each ho_id f [3;2] = Some q /\ f_trees q = Some [[1]].
Proof.
  destruct (f_many ho_id [[1;2;3];[1;2];[2;3];[1]]) as [f|] eqn:Ef; [|vm_compute in Ef; discriminate].
  pose proof (R_many _ _ _ Ef) as Rf. vm_compute in Ef. injection Ef as Ef. exists f. rewrite <- Ef in *. do 2 eexists.
  split; [exact Rf|]. split; [vm_compute; reflexivity|]. split; [intros x; cbn; tauto|].
  repeat split; vm_compute; reflexivity.
Qed.

(** ** C72: counting *)
(** the number of (item, tree) pairs *)
Definition total_size {T : Type} (ts : list (list T)) : nat := list_sum (map (@length T) ts).
Definition total_count {T : Type} (occ : list (T * nat)) : nat := list_sum (map snd occ).

Lemma sum_app l m : list_sum (l ++ m) = list_sum l + list_sum m.
Proof. apply list_sum_app. Qed.
Lemma sum_perm l m : Permutation l m -> list_sum l = list_sum m.
Proof. unfold list_sum. induction 1; cbn [fold_right]; lia. Qed.
(** counting the items of duplicate-free rows item by item *)
Lemma total_by_item (T : Type) (O : Ord T) (ts : list (list T)) (xs : list T) : NoDup xs ->
  (forall t, In t ts -> NoDup t) -> (forall t x, In t ts -> In x t -> In x xs) ->
  total_size ts = list_sum (map (count ts) xs).
Proof.
  intros Nx. induction ts as [|t ts IH]; intros N I_.
  - cbn. induction xs; [reflexivity|]. cbn [map]. unfold list_sum. cbn [fold_right count]. inversion Nx; subst. apply IHxs; [auto|]. intros ? ? [].
  - unfold total_size in *. cbn [map]. unfold list_sum in *. cbn [fold_right].
    rewrite IH; [|intros; apply N; right; auto|intros; eapply I_; [right; eauto|auto]].
    assert (L : length t = fold_right plus 0 (map (fun x => if memb x t then 1 else 0) xs)).
    { assert (P : Permutation t (filter (fun x => memb x t) xs)).
      { apply NoDup_Permutation; [apply N; left; reflexivity|apply NoDup_filter, Nx|]. intros x. rewrite filter_In, memb_spec.
        split; [|tauto]. intros X. split; [|exact X]. apply (I_ t x (or_introl eq_refl) X). }
      rewrite (Permutation_length P) at 1. clear. induction xs as [|x xs IH]; [reflexivity|]. cbn [filter map fold_right].
      destruct (memb x t); cbn [length]; rewrite IH; reflexivity. }
    rewrite L. clear. induction xs as [|x xs IH]; [reflexivity|]. cbn [map fold_right].
    change (count (t :: ts) x) with ((if memb x t then 1 else 0) + count ts x). lia.
Qed.

Lemma filter_length_le {A} (p : A -> bool) l : length (filter p l) <= length l.
Proof. induction l as [|x l IH]; cbn [filter length]; [lia|]. destruct (p x); cbn [length]; lia. Qed.
Lemma NoDup_app_intro {A} (l m : list A) : NoDup l -> NoDup m -> (forall x, In x l -> In x m -> False) -> NoDup (l ++ m).
Proof.
  induction 1 as [|x l N L IH]; intros M D; [exact M|]. cbn. constructor.
  - rewrite in_app_iff. intros [J|J]; [contradiction|apply (D x); [left; reflexivity|exact J]].
  - apply IH; [exact M|]. intros y Y. apply D. right. exact Y.
Qed.
Lemma NoDup_map_inj_in {A B} (f : A -> B) l : (forall x y, In x l -> In y l -> f x = f y -> x = y) -> NoDup l -> NoDup (map f l).
Proof.
  intros I_ N. induction N as [|x l N L IH]; [constructor|]. cbn. constructor.
  - intros J. apply in_map_iff in J. destruct J as (y & E & J). apply I_ in E; [|right; exact J|left; reflexivity]. subst. contradiction.
  - apply IH. intros; apply I_; auto; right; auto.
Qed.
Lemma NoDup_list_prod {A B} (l : list A) (m : list B) : NoDup l -> NoDup m -> NoDup (list_prod l m).
Proof.
  intros N M. induction N as [|x l N L IH]; [constructor|]. cbn. apply NoDup_app_intro; [|exact IH|].
  - apply NoDup_map_inj_in; [congruence|exact M].
  - intros (a & b) J K. apply in_map_iff in J. destruct J as (y & E & _). injection E as -> ->. apply in_prod_iff in K. tauto.
Qed.

(** The occurrence counts of a forest add up to the sizes of its trees added up;
    an item is listed exactly if it is in some tree, and never more often than
    there are trees; forests with no common item: a union has as many trees as
    both together, a product has as many as there are pairs. *)
Lemma C72_counting_pf : forall (T : Type) (O : Ord T) (h : hash_order) (f g : forest T) tf tg,
  Reach f -> Reach g -> f_trees f = Some tf -> f_trees g = Some tg ->
  total_count (f_occurrences h f) = total_size tf /\
  (forall x, In x (map fst (f_occurrences h f)) <-> exists t, In t tf /\ In x t) /\
  (forall x k, In (x, k) (f_occurrences h f) -> k <= length tf) /\
  (item_disjoint tf tg -> exists u p, f_union h f g = Some u /\ f_product h f g = Some p /\
     f_len u = Some (length tf + length tg) /\ f_len p = Some (length tf * length tg)).
Proof.
  intros T O h f g tf tg Hf Hg Ef Eg. rewrite f_trees_tl in Ef, Eg. injection Ef as <-. injection Eg as <-.
  pose proof (Reach_Canon f Hf) as Cf. pose proof (Reach_Canon g Hg) as Cg.
  assert (Inx : forall x, In x (map fst (f_occurrences h f)) <-> exists t, In t (tl_ f) /\ In x t).
  { intros x. destruct Cf as [occ C]. rewrite (occurrences_eq h f occ C). rewrite in_map_iff. split.
    - intros ((y & k) & E & J). cbn in E. subst y. apply (occ_in f occ x k C) in J. destruct J as (P & ->).
      apply count_pos in P. exact P.
    - intros J. exists (x, count (tl_ f) x). split; [reflexivity|]. apply (occ_in f occ _ _ C). split; [|reflexivity].
      apply count_pos. exact J. }
  destruct Cf as [occ C]. pose proof (canon_tl _ _ C) as ((Ss & Nd) & _).
  split; [|split; [exact Inx|split]].
  - rewrite (occurrences_eq h f occ C) in *.
    rewrite (total_by_item T O (tl_ f) (map fst occ)).
    + unfold total_count. f_equal. rewrite map_map. apply map_ext_in. intros (x & k) J. apply (occ_in f occ x k C) in J. cbn. lia.
    + apply ssorted_NoDup. apply (c_ok _ _ C).
    + intros t J. apply ssorted_NoDup, Ss, J.
    + intros t x J X. apply Inx. eauto.
  - intros x k J. rewrite (occurrences_eq h f occ C) in J. apply (occ_in f occ x k C) in J. destruct J as (_ & ->).
    rewrite count_filter. apply filter_length_le.
  - intros D. assert (Cf : Canon f) by (exists occ; exact C).
    destruct (union_disjoint T O h f g Cf Cg D) as (u & Eu & Cu & Su).
    destruct (product_disjoint T O h f g Cf Cg D) as (p & Ep & Cp & Sp).
    exists u, p. split; [exact Eu|]. split; [exact Ep|].
    assert (Len : forall r : forest T, f_len r = Some (length (tl_ r))).
    { intros r. unfold f_len. rewrite node_trees_paths. cbn [bind]. unfold tl_. rewrite map_length. reflexivity. }
    pose proof (proj2 (proj1 (canon_tl _ _ C))) as Nf.
    assert (Okg : forall t, In t (tl_ g) -> ssorted t /\ t <> []) by (intros t; apply reach_tree_ok, Cg).
    assert (Okf : forall t, In t (tl_ f) -> ssorted t /\ t <> []) by (intros t; apply reach_tree_ok, Cf).
    assert (Ng : NoDup (tl_ g)) by (destruct Cg as [og Cg']; apply (canon_tl _ _ Cg')).
    assert (Nu : NoDup (tl_ u)) by (destruct Cu as [ou Cu']; apply (canon_tl _ _ Cu')).
    assert (Np : NoDup (tl_ p)) by (destruct Cp as [op Cp']; apply (canon_tl _ _ Cp')).
    rewrite !Len. split; f_equal.
    + rewrite <- app_length. apply Permutation_length, NoDup_Permutation; [exact Nu| |intros t; rewrite in_app_iff; apply Su].
      apply NoDup_app_intro; [exact Nf|exact Ng|]. intros t A B. destruct (Okf t A) as (_ & N). destruct t as [|x t]; [congruence|].
      apply (D _ _ x A B); left; reflexivity.
    + rewrite <- prod_length, <- (map_length (fun q => filter_repeats (fst q ++ snd q))).
      apply Permutation_length, NoDup_Permutation; [exact Np| |].
      * apply NoDup_map_inj_in; [|apply NoDup_list_prod; auto]. intros (a & b) (a' & b') J J' E. cbn [fst snd] in E.
        apply in_prod_iff in J, J'. destruct J as (A & B), J' as (A' & B').
        assert (Q : forall x, In x a \/ In x b <-> In x a' \/ In x b').
        { intros x. rewrite <- !in_app_iff, <- (filter_repeats_in (a ++ b)), <- (filter_repeats_in (a' ++ b')), E. reflexivity. }
        f_equal; (apply ssorted_ext; [solve [apply Okf; auto|apply Okg; auto]|solve [apply Okf; auto|apply Okg; auto]|]); intros x;
          specialize (Q x); pose proof (D a b' x A B'); pose proof (D a' b x A' B);
          pose proof (D a b x A B); pose proof (D a' b' x A' B'); tauto.
      * intros t. rewrite Sp, in_map_iff. split.
        -- intros (a & b & A & B & ->). exists (a, b). split; [reflexivity|]. apply in_prod_iff; auto.
        -- intros ((a & b) & <- & J). apply in_prod_iff in J. destruct J as (A & B). eauto.
Qed.

Example C72_example : exists f g p : forest nat, Reach f /\ Reach g /\ f_trees f = Some [[1;2];[1;3];[1]] /\ f_trees g = Some [[4];[5]] /\
  item_disjoint [[1;2];[1;3];[1]] [[4];[5]] /\ f_occurrences ho_rev f = [(1,3);(2,1);(3,1)] /\
  total_size [[1;2];[1;3];[1]] = 5 /\ f_product ho_id f g = Some p /\ f_len p = Some 6.
Proof.
  destruct (f_many ho_id [[1;2];[1;3];[1]]) as [f|] eqn:Ef; [|vm_compute in Ef; discriminate].
  destruct (f_many ho_id [[4];[5]]) as [g|] eqn:Eg; [|vm_compute in Eg; discriminate].
  pose proof (R_many _ _ _ Ef) as Rf. pose proof (R_many _ _ _ Eg) as Rg.
  vm_compute in Ef. injection Ef as Ef. vm_compute in Eg. injection Eg as Eg.
  exists f, g. rewrite <- Ef, <- Eg in *. eexists. split; [exact Rf|]. split; [exact Rg|].
  split; [vm_compute; reflexivity|]. split; [vm_compute; reflexivity|]. split.
  - intros a b x A B X Y. cbn in A, B. repeat match goal with H : _ \/ _ |- _ => destruct H | H : False |- _ => destruct H end; subst;
      cbn in X, Y; lia.
  - repeat split; vm_compute; reflexivity.
Qed.

(** ** C73: matrix forests form the algebra of families of sets *)
(** two forests hold the same trees, whatever order they are listed in *)
Definition same_trees {T} `{Ord T} (f g : mforest T) : Prop :=
  forall h1 h2 t, In t (m_trees h1 f) <-> In t (m_trees h2 g).

Lemma same_trees_mts (T : Type) (O : Ord T) (f g : mforest T) : (forall t, In t (mts f) <-> In t (mts g)) -> same_trees f g.
Proof. intros Q h1 h2 t. rewrite !m_trees_in. apply Q. Qed.
Lemma mlen_filter (T : Type) (l m : list T) : NoDup l -> NoDup m -> (forall x, In x l <-> In x m) -> length l = length m.
Proof. intros. apply Permutation_length, NoDup_Permutation; auto. Qed.

Lemma C73_union_intersect_laws_pf : forall (T : Type) (O : Ord T) (h : hash_order) (f g k : mforest T),
  MReach f -> MReach g -> MReach k ->
  let U := m_union h in let N := m_intersect h in
  same_trees (U f g) (U g f) /\ same_trees (N f g) (N g f) /\
  same_trees (U (U f g) k) (U f (U g k)) /\ same_trees (N (N f g) k) (N f (N g k)) /\
  same_trees (U f (N f g)) f /\ same_trees (N f (U f g)) f /\
  same_trees (N f (U g k)) (U (N f g) (N f k)) /\ same_trees (U f (N g k)) (N (U f g) (U f k)) /\
  same_trees (U f f) f /\ same_trees (N f f) f /\
  same_trees (U f m_empty) f /\ same_trees (N f m_empty) m_empty /\
  m_len (U f g) + m_len (N f g) = m_len f + m_len g.
Proof.
  intros T O h f g k Hf Hg Hk. cbv zeta. apply reach_minv in Hf, Hg, Hk.
  pose proof (m_empty_inv (T:=T)) as He.
  assert (Eu : forall a b, minv a -> minv b -> minv (m_union h a b)) by (intros; apply m_union_spec; auto).
  assert (Ei : forall a b, minv a -> minv b -> minv (m_intersect h a b)) by (intros; apply m_intersect_spec; auto).
  assert (Su : forall a b, minv a -> minv b -> forall t, In t (mts (m_union h a b)) <-> In t (mts a) \/ In t (mts b)) by (intros; apply m_union_spec; auto).
  assert (Si : forall a b, minv a -> minv b -> forall t, In t (mts (m_intersect h a b)) <-> In t (mts a) /\ In t (mts b)) by (intros; apply m_intersect_spec; auto).
  assert (Z : forall t, In t (mts (T:=T) m_empty) <-> False) by (intros; reflexivity).
  repeat match goal with |- _ /\ _ => split end;
    try (apply same_trees_mts; intros t; repeat (rewrite ?Su, ?Si by auto); rewrite ?Z; tauto).
  rewrite !(m_len_trees ho_id), !(Permutation_length (m_trees_perm ho_id _)).
  assert (Nd : forall a, minv a -> NoDup (mts a)) by (intros a (_ & S_ & _); apply ssorted_NoDup; exact S_).
  assert (Q : length (mts (m_union h f g)) = length (mts f ++ filter (fun t => negb (memb t (mts f))) (mts g))).
  { apply mlen_filter; auto.
    - apply NoDup_app_intro; auto using NoDup_filter. intros x A B. apply filter_In in B. destruct B as (_ & B).
      apply negb_true_iff, memb_false in B. contradiction.
    - intros x. rewrite (Su f g Hf Hg), in_app_iff, filter_In, negb_true_iff, memb_false.
      destruct (memb x (mts f)) eqn:M; [apply memb_spec in M|apply memb_false in M]; tauto. }
  assert (R : length (mts (m_intersect h f g)) = length (filter (fun t => memb t (mts f)) (mts g))).
  { apply mlen_filter; auto using NoDup_filter. intros x. rewrite (Si f g Hf Hg), filter_In, memb_spec. tauto. }
  rewrite Q, R, app_length.
  assert (P : forall (p : list T -> bool) l, length (filter p l) + length (filter (fun t => negb (p t)) l) = length l).
  { intros p l. induction l as [|x l IH]; [reflexivity|]. cbn [filter]. destruct (p x); cbn [negb length]; lia. }
  specialize (P (fun t => memb t (mts f)) (mts g)). cbn beta in P. lia.
Qed.

(** product: commutative, associative, [{∅}] neutral, empty absorbing,
    distributes over union; size at most the number of pairs *)
Lemma C73_product_laws_pf : forall (T : Type) (O : Ord T) (h : hash_order) (f g k : mforest T),
  MReach f -> MReach g -> MReach k ->
  let U := m_union h in let P := m_product h in
  same_trees (P f g) (P g f) /\ same_trees (P (P f g) k) (P f (P g k)) /\
  same_trees (P f (m_unit [])) f /\ same_trees (P f m_empty) m_empty /\
  same_trees (P f (U g k)) (U (P f g) (P f k)) /\
  m_len (P f g) <= m_len f * m_len g.
Proof.
  intros T O h f g k Hf Hg Hk. cbv zeta. apply reach_minv in Hf, Hg, Hk.
  assert (Ep : forall a b : mforest T, minv (m_product h a b)) by (intros; apply m_product_spec; auto).
  assert (Sp : forall (a b : mforest T) t, In t (mts (m_product h a b)) <-> exists x y, In x (mts a) /\ In y (mts b) /\ t = filter_repeats (x ++ y)) by (intros; apply m_product_spec).
  assert (Su : forall a b, minv a -> minv b -> forall t, In t (mts (m_union h a b)) <-> In t (mts a) \/ In t (mts b)) by (intros; apply m_union_spec; auto).
  assert (Fr : forall a b : list T, (forall x, In x a <-> In x b) -> filter_repeats a = filter_repeats b) by (intros; apply filter_repeats_ext; auto).
  split; [|split; [|split; [|split; [|split]]]]; try apply same_trees_mts; intros; rewrite ?Sp.
  - split; intros (x & y & A & B & ->); exists y, x; (split; [exact B|]); (split; [exact A|]); apply Fr; intros z; rewrite !in_app_iff; tauto.
  - split.
    + intros (x & y & A & B & ->). apply Sp in A. destruct A as (u & v & A & D & ->). exists u, (filter_repeats (v ++ y)).
      split; [exact A|]. split; [apply Sp; eauto 6|]. apply Fr. intros z. rewrite !in_app_iff, !filter_repeats_in, !in_app_iff. tauto.
    + intros (x & y & A & B & ->). apply Sp in B. destruct B as (u & v & B & D & ->). exists (filter_repeats (x ++ u)), v.
      split; [apply Sp; eauto 6|]. split; [exact D|]. apply Fr. intros z. rewrite !in_app_iff, !filter_repeats_in, !in_app_iff. tauto.
  - assert (Q : forall x, In x (mts f) -> filter_repeats (x ++ []) = x).
    { intros x X. rewrite app_nil_r. apply ssorted_ext; [apply filter_repeats_ssorted|apply Hf, X|]. apply filter_repeats_in. }
    split.
    + intros (x & y & A & [<-|[]] & ->). change (filter_repeats (@nil T)) with (@nil T). rewrite Q; auto.
    + intros A. exists t, []. split; [exact A|]. split; [left; reflexivity|]. symmetry. apply Q, A.
  - split; [intros (x & y & A & [] & _)|intros []].
  - rewrite Su by auto. rewrite !Sp. setoid_rewrite Su; [|auto|auto]. split.
    + intros (x & y & A & [B|B] & ->); [left|right]; eauto 6.
    + intros [(x & y & A & B & ->)|(x & y & A & B & ->)]; eauto 8.
  - rewrite !(m_len_trees ho_id), !(Permutation_length (m_trees_perm ho_id _)).
    rewrite <- prod_length, <- (map_length (fun q => filter_repeats (fst q ++ snd q))).
    apply NoDup_incl_length; [apply ssorted_NoDup; apply Ep|]. intros t J. apply Sp in J. destruct J as (x & y & A & B & ->).
    apply in_map_iff. exists (x, y). split; [reflexivity|]. apply in_prod_iff; auto.
Qed.

(** filters: they split a forest, commute with union and intersection, and
    reach into a product *)
Lemma C73_filter_laws_pf : forall (T : Type) (O : Ord T) (h : hash_order) (f g : mforest T) e e' es es',
  MReach f -> MReach g ->
  let U := m_union h in let N := m_intersect h in let P := m_product h in
  let S := m_subset h in let S' := m_subset_not h in
  same_trees (U (S f e) (S' f e)) f /\ same_trees (N (S f e) (S' f e)) m_empty /\
  m_len (S f e) + m_len (S' f e) = m_len f /\
  same_trees (S (U f g) e) (U (S f e) (S g e)) /\ same_trees (S' (U f g) e) (U (S' f e) (S' g e)) /\
  same_trees (S (N f g) e) (N (S f e) g) /\ same_trees (S' (N f g) e) (N (S' f e) g) /\
  same_trees (S (P f g) e) (U (P (S f e) g) (P f (S g e))) /\ same_trees (S' (P f g) e) (P (S' f e) (S' g e)) /\
  same_trees (S (S f e) e') (m_subset_all h f [e; e']) /\ same_trees (S' (S' f e) e') (m_subset_none h f [e; e']) /\
  same_trees (S (S' f e) e') (S' (S f e') e) /\
  (same_elems es es' -> same_trees (m_subset_all h f es) (m_subset_all h f es') /\ same_trees (m_subset_none h f es) (m_subset_none h f es')).
Proof.
  intros T O h f g e e' es es' Hf Hg. cbv zeta. apply reach_minv in Hf, Hg.
  pose proof (m_empty_inv (T:=T)) as He.
  assert (Eu : forall a b, minv a -> minv b -> minv (m_union h a b)) by (intros; apply m_union_spec; auto).
  assert (Ei : forall a b, minv a -> minv b -> minv (m_intersect h a b)) by (intros; apply m_intersect_spec; auto).
  assert (Ep : forall a b : mforest T, minv (m_product h a b)) by (intros; apply m_product_spec; auto).
  assert (Es : forall a x, minv a -> minv (m_subset h a x)) by (intros; apply m_subset_spec; auto).
  assert (En : forall a x, minv a -> minv (m_subset_not h a x)) by (intros; apply m_subset_not_spec; auto).
  assert (Su : forall a b, minv a -> minv b -> forall t, In t (mts (m_union h a b)) <-> In t (mts a) \/ In t (mts b)) by (intros; apply m_union_spec; auto).
  assert (Si : forall a b, minv a -> minv b -> forall t, In t (mts (m_intersect h a b)) <-> In t (mts a) /\ In t (mts b)) by (intros; apply m_intersect_spec; auto).
  assert (Sp : forall (a b : mforest T) t, In t (mts (m_product h a b)) <-> exists x y, In x (mts a) /\ In y (mts b) /\ t = filter_repeats (x ++ y)) by (intros; apply m_product_spec).
  assert (Ss : forall a x, minv a -> forall t, In t (mts (m_subset h a x)) <-> In t (mts a) /\ In x t) by (intros; apply m_subset_spec; auto).
  assert (Sn : forall a x, minv a -> forall t, In t (mts (m_subset_not h a x)) <-> In t (mts a) /\ ~ In x t) by (intros; apply m_subset_not_spec; auto).
  assert (Sa : forall a xs, minv a -> forall t, In t (mts (m_subset_all h a xs)) <-> In t (mts a) /\ forall x, In x xs -> In x t) by (intros; apply m_subset_all_spec; auto).
  assert (So : forall a xs, minv a -> forall t, In t (mts (m_subset_none h a xs)) <-> In t (mts a) /\ forall x, In x xs -> ~ In x t) by (intros; apply m_subset_none_spec; auto).
  assert (Z : forall t, In t (mts (T:=T) m_empty) <-> False) by (intros; reflexivity).
  assert (Dec : forall (t : list T), In e t \/ ~ In e t).
  { intros t. destruct (memb e t) eqn:M; [left; apply memb_spec, M|right; apply memb_false, M]. }
  assert (Nd : forall a, minv a -> NoDup (mts a)) by (intros a (_ & S_ & _); apply ssorted_NoDup; exact S_).
  split; [|split; [|split; [|split; [|split; [|split; [|split; [|split; [|split; [|split; [|split; [|split]]]]]]]]]]];
    try (apply same_trees_mts; intros t; repeat (rewrite ?Su, ?Si, ?Ss, ?Sn by auto); rewrite ?Z; specialize (Dec t); tauto).
  - rewrite !(m_len_trees ho_id), !(Permutation_length (m_trees_perm ho_id _)), <- app_length.
    apply mlen_filter; auto.
    + apply NoDup_app_intro; auto. intros x A B. apply Ss in A; [|auto]. apply Sn in B; [|auto]. tauto.
    + intros t. rewrite in_app_iff, Ss, Sn by auto. specialize (Dec t). tauto.
  - apply same_trees_mts. intros t. rewrite Ss, Su, !Sp by auto. setoid_rewrite Ss; [|auto|auto]. split.
    + intros ((x & y & A & B & ->) & J). apply filter_repeats_in, in_app_iff in J. destruct J; [left|right]; exists x, y; auto.
    + intros [(x & y & (A & J) & B & ->)|(x & y & A & (B & J) & ->)]; (split; [eauto|]); apply filter_repeats_in, in_app_iff; auto.
  - apply same_trees_mts. intros t. rewrite Sn, !Sp by auto. setoid_rewrite Sn; [|auto|auto]. split.
    + intros ((x & y & A & B & ->) & J). rewrite filter_repeats_in, in_app_iff in J. exists x, y. tauto.
    + intros (x & y & (A & J) & (B & K) & ->). split; [eauto|]. rewrite filter_repeats_in, in_app_iff. tauto.
  - apply same_trees_mts. intros t. rewrite !Ss, Sa by auto. split.
    + intros ((A & B) & D). split; [exact A|]. intros x [<-|[<-|[]]]; auto.
    + intros (A & B). repeat split; auto; apply B; cbn; auto.
  - apply same_trees_mts. intros t. rewrite !Sn, So by auto. split.
    + intros ((A & B) & D). split; [exact A|]. intros x [<-|[<-|[]]]; auto.
    + intros (A & B). repeat split; auto; apply B; cbn; auto.
  - intros Q. split; apply same_trees_mts; intros t; rewrite ?Sa, ?So by auto; split; intros (A & B); (split; [exact A|]); intros x X; apply B, Q, X.
Qed.

Lemma C73_counting_pf : forall (T : Type) (O : Ord T) (h h1 : hash_order) (f : mforest T), MReach f ->
  total_count (m_occurrences h f) = total_size (m_trees h1 f) /\
  (forall x, In x (map fst (m_occurrences h f)) <-> exists t, In t (m_trees h1 f) /\ In x t) /\
  (forall x k, In (x, k) (m_occurrences h f) -> k <= m_len f).
Proof.
  intros T O h h1 f Hf. destruct (C28_observers_exact_pf T O h1 h f Hf) as ((Sl & _) & L & _ & So & Oc). fold (m_trees h1 f) in *.
  set (ts := m_trees h1 f) in *. clearbody ts. rewrite L.
  assert (Inx : forall x, In x (map fst (m_occurrences h f)) <-> exists t, In t ts /\ In x t).
  { intros x. rewrite in_map_iff. split.
    - intros ((y & k) & E & J). cbn in E. subst y. apply Oc in J. destruct J as (P & ->). apply Zdd2Forest.count_pos in P. exact P.
    - intros J. exists (x, count ts x). split; [reflexivity|]. apply Oc. split; [apply Zdd2Forest.count_pos, J|reflexivity]. }
  split; [|split; [exact Inx|]].
  - rewrite (total_by_item T O ts (map fst (m_occurrences h f))).
    + unfold total_count. f_equal. rewrite map_map. apply map_ext_in. intros (x & k) J. apply Oc in J. cbn. lia.
    + apply ssorted_NoDup, So.
    + intros t J. apply ssorted_NoDup, Sl, J.
    + intros t x J X. apply Inx. eauto.
  - intros x k J. apply Oc in J. destruct J as (_ & ->). rewrite Zdd2Forest.count_filter. apply filter_length_le.
Qed.

Example C73_example :
  let f := m_many [[1;2];[3]] in let g := m_many [[3];[4;1]] in let k := m_unique [2] in
  MReach f /\ MReach g /\ MReach k /\
  m_trees ho_id (m_intersect ho_rev f (m_union ho_rev g k)) = [[3]] /\
  m_trees ho_id (m_product ho_rev f (m_union ho_rev g k)) = [[1;2];[1;2;3];[1;2;4];[1;3;4];[2;3];[3]] /\
  m_len (m_union ho_rev f g) = 3 /\ m_len (m_intersect ho_rev f g) = 1.
Proof. repeat split; try constructor; vm_compute; reflexivity. Qed.
