(** Zdd2Exact2: the exact results of union, intersect, product and subset_none on
    forests, in terms of their trees. *)
From Coq Require Import List Arith Lia Bool Permutation Sorted.
From Verif Require Import Base DD Spec Zdd2Model Zdd2Node Zdd2Node2 Zdd2Univ Zdd2Forest Zdd2Forest2 Zdd2Forest3 Zdd2Exact Zdd2Settle.
Import ListNotations.

Section TranslateKept.
  Context {T : Type} `{Ord T}.
  Variables old new : list (T * nat).
  Hypothesis Hold : map_ok old.
  Hypothesis Hnew : map_ok new.
  Hypothesis Hkeys : forall x, In x (map fst old) -> In x (map fst new).

  Lemma translate_kept t : forall n r, zwf n t -> known_labels old t ->
    translate_root (univ_of old) (univ_of new) t = Some r ->
    length (paths r) <= length (paths t) /\ (r = Never -> t = Never) /\ (In [] (paths r) -> In [] (paths t)).
  Proof.
    induction t as [b|i lo IHlo hi IHhi]; intros n r W Hk E.
    - destruct b; injection E as <-; auto.
    - destruct W as (_ & Hh & Wl & Wh).
      assert (Kl : known_labels old lo) by (intros x Hx; apply Hk; simpl; right; apply in_or_app; auto).
      assert (Kh : known_labels old hi) by (intros x Hx; apply Hk; simpl; right; apply in_or_app; auto).
      destruct (translate_total old new Hnew Hkeys lo _ Wl Kl) as (l' & El & W1 & _).
      destruct (translate_total old new Hnew Hkeys hi _ Wh Kh) as (h' & Eh & W2 & _).
      destruct (IHlo _ _ Wl Kl El) as (A1 & A2 & A3). destruct (IHhi _ _ Wh Kh Eh) as (B1 & B2 & B3).
      destruct (tr_item old new Hnew Hkeys i) as (x & Ex & Px); [apply Hk; simpl; auto|].
      simpl translate_root in E. rewrite El, Eh in E. cbn [bind] in E. rewrite Ex in E. cbn [bind] in E.
      rewrite Px in E. cbn [bind] in E.
      destruct (branch_kept 0 _ l' h' r (Nat.le_0_l _) W1 W2 E) as (C1 & C2 & C3).
      rewrite len_branch. split; [lia|]. split.
      + intros ->. destruct (C2 eq_refl) as (_ & ->). exfalso. apply Hh. auto.
      + intros J. apply paths_branch. right. auto.
  Qed.
End TranslateKept.

Section Cuts.
  Context {T : Type} `{Ord T}.
  Variable m : list (T * nat).
  Variable o : T -> nat.
  Hypothesis Hm : map_ok m.
  Hypothesis Hord : forall p q x y, get_item (univ_of m) p = Some x -> get_item (univ_of m) q = Some y ->
    (p < q <-> before o x y).
  Notation items := (get_items (univ_of m)).

  Definition cuts (k : nat) (c : option T) : Prop :=
    forall p x, get_item (univ_of m) p = Some x -> (p < k <-> upto o c x).

  Lemma item_lt p x : get_item (univ_of m) p = Some x -> p < length m.
  Proof. intros E. apply get_priority_item in E; auto. eapply get_priority_in; eauto. Qed.
  Lemma item_in p x : get_item (univ_of m) p = Some x -> In x (map fst m).
  Proof. intros E. apply get_priority_item in E; auto. eapply get_priority_in; eauto. Qed.

  Lemma cuts_at p b : get_item (univ_of m) p = Some b -> cuts (S p) (Some b).
  Proof.
    intros E q x Ex. unfold upto. rewrite <- (Hord q p x b Ex E). split.
    - intros L. destruct (Nat.eq_dec q p) as [->|]; [left; congruence|right; lia].
    - intros [->|L]; [|lia]. assert (q = p) by (eapply get_item_inj; eauto). lia.
  Qed.
  Lemma cut_of_nat k : exists c, cuts k c.
  Proof.
    destruct (Nat.eq_dec (length m) 0) as [Z|Z].
    { exists None. intros p x E. apply item_lt in E. lia. }
    destruct k as [|k].
    { exists None. intros p x E. cbn. lia. }
    destruct (Nat.lt_ge_cases k (length m)) as [L|L].
    - destruct (get_item_known m k L) as (b & E). exists (Some b). apply cuts_at; exact E.
    - destruct (get_item_known m (length m - 1)) as (b & E); [lia|]. exists (Some b).
      intros p x Ex. rewrite <- (cuts_at _ _ E p x Ex). pose proof (item_lt _ _ Ex). lia.
  Qed.
  Lemma upto_dec c x : upto o c x \/ ~ upto o c x.
  Proof.
    destruct c as [b|]; [|right; intros []]. cbn. unfold before.
    destruct (eq_dec_ x b) as [E|E]; [auto|].
    destruct (lt_eq_lt_dec (o b) (o x)) as [[L|L]|L]; [auto| |].
    - destruct (cmp x b) eqn:C.
      + exfalso. apply E. apply cmp_eq. exact C.
      + left. right. right. split; [auto|exact C].
      + right. intros [X|[X|(_ & X)]]; [auto|lia|]. unfold lt_ in X. congruence.
    - right. intros [X|[X|(X & _)]]; [auto|lia|lia].
  Qed.
  Lemma upto_down c x y : before o x y -> upto o c y -> upto o c x.
  Proof.
    destruct c as [b|]; [|intros _ []]. cbn. intros B [->|C]; [auto|]. right. eapply before_trans; eauto.
  Qed.
  Lemma nat_of_cut c : exists k, cuts k c.
  Proof.
    assert (X : forall n, n <= length m ->
      (forall p x, p < n -> get_item (univ_of m) p = Some x -> upto o c x) \/
      (exists k z, k < n /\ get_item (univ_of m) k = Some z /\ ~ upto o c z /\
         forall p x, p < k -> get_item (univ_of m) p = Some x -> upto o c x)).
    { induction n as [|n IH]; intros L; [left; intros; lia|].
      destruct IH as [A|(k & z & Lk & Z & N & A)]; [lia| |right; exists k, z; repeat split; auto].
      destruct (get_item_known m n) as (z & Z); [lia|].
      destruct (upto_dec c z) as [U|U].
      - left. intros p x Lp Ex. destruct (Nat.eq_dec p n) as [->|]; [congruence|]. apply (A p); auto. lia.
      - right. exists n, z. repeat split; auto. }
    destruct (X (length m) (le_n _)) as [A|(k & z & Lk & Z & N & A)].
    - exists (length m). intros p x E. split; [intros L; exact (A p x L E)|intros _; eapply item_lt; eauto].
    - exists k. intros p x E. split; [intros L; exact (A p x L E)|]. intros U.
      destruct (Nat.lt_ge_cases p k) as [L|L]; [exact L|exfalso]. apply N.
      destruct (Nat.eq_dec p k) as [->|]; [congruence|]. eapply upto_down; [|exact U].
      apply (Hord k p z x Z E). lia.
  Qed.

  Lemma agr_items k c a b : cuts k c -> known m a -> known m b ->
    (agr k a b <-> agree_upto o c (items a) (items b)).
  Proof.
    intros C Ka Kb. unfold agr, agree_upto. split.
    - intros A x U. rewrite !items_in. split; intros (q & Q & E); exists q; (split; [|exact E]);
        apply (A q); auto; apply (C q x E); exact U.
    - intros A q L. split; intros Q.
      + destruct (get_item_known m q (Ka q Q)) as (x & E).
        assert (X : In x (items b)) by (apply (A x); [apply (C q x E); exact L|apply items_in; eauto]).
        apply items_in in X. destruct X as (q' & Q' & E'). assert (q = q') as -> by (eapply get_item_inj; eauto). exact Q'.
      + destruct (get_item_known m q (Kb q Q)) as (x & E).
        assert (X : In x (items a)) by (apply (A x); [apply (C q x E); exact L|apply items_in; eauto]).
        apply items_in in X. destruct X as (q' & Q' & E'). assert (q = q') as -> by (eapply get_item_inj; eauto). exact Q'.
  Qed.
  Lemma aft_items k c a b : cuts k c -> known m a -> known m b ->
    (aft k a b <-> agree_after o c (items a) (items b)).
  Proof.
    intros C Ka Kb. unfold aft, agree_after. split.
    - intros A x U. rewrite !items_in. split; intros (q & Q & E); exists q; (split; [|exact E]);
        apply (A q); auto; apply Nat.nlt_ge; intros L; apply U, (C q x E); exact L.
    - intros A q L. split; intros Q.
      + destruct (get_item_known m q (Ka q Q)) as (x & E).
        assert (X : In x (items b)).
        { apply (A x); [|apply items_in; eauto]. intros U. apply (C q x E) in U. lia. }
        apply items_in in X. destruct X as (q' & Q' & E'). assert (q = q') as -> by (eapply get_item_inj; eauto). exact Q'.
      + destruct (get_item_known m q (Kb q Q)) as (x & E).
        assert (X : In x (items a)).
        { apply (A x); [|apply items_in; eauto]. intros U. apply (C q x E) in U. lia. }
        apply items_in in X. destruct X as (q' & Q' & E'). assert (q = q') as -> by (eapply get_item_inj; eauto). exact Q'.
  Qed.

  Definition fam (r : node) : list (list T) := map items (paths r).
  Definition knownt (r : node) : Prop := forall p, In p (paths r) -> known m p.

  Lemma fam_in r z : In z (fam r) <-> exists p, In p (paths r) /\ z = items p.
  Proof. unfold fam. rewrite in_map_iff. split; intros (p & A & B); exists p; auto. Qed.
  Lemma fam_in_items r p : zwf 0 r -> knownt r -> asc 0 p -> known m p -> (In (items p) (fam r) <-> In p (paths r)).
  Proof.
    intros W K A Kp. rewrite fam_in. split; [|eauto].
    intros (q & Q & E). assert (p = q) as ->; [|exact Q]. apply (items_inj m Hm); auto. eapply zwf_paths; eauto.
  Qed.

  Lemma ends_items r s : knownt r -> known m s ->
    ((exists k, ends k r s) <-> ends_along o (fam r) (items s)).
  Proof.
    intros K Ks. unfold ends_along. split.
    - intros (k & (g & G & A) & B). destruct (cut_of_nat k) as (c & C). exists c. split.
      + exists (items g). split; [apply fam_in; eauto|]. apply (agr_items k c); auto.
      + intros z x Z A' X. apply fam_in in Z. destruct Z as (p & P & ->).
        apply (agr_items k c) in A'; auto. apply items_in in X. destruct X as (q & Q & E).
        apply (C q x E). eapply B; eauto.
    - intros (c & (z & Z & A) & B). destruct (nat_of_cut c) as (k & C). exists k.
      apply fam_in in Z. destruct Z as (g & G & ->). split.
      + exists g. split; [exact G|]. apply (agr_items k c) in A; auto.
      + intros p q P A' Q. apply (agr_items k c) in A'; auto.
        destruct (get_item_known m q (K p P q Q)) as (x & E). apply (C q x E).
        apply (B (items p)); [apply fam_in; eauto|exact A'|apply items_in; eauto].
  Qed.

  Lemma req_items k c r1 r2 a b : cuts k c -> knownt r1 -> knownt r2 -> known m a -> known m b ->
    (req k r1 a r2 b <-> same_rest o c (fam r1) (items a) (fam r2) (items b)).
  Proof.
    intros C K1 K2 Ka Kb.
    assert (X : forall t t' (a' b' : list nat), knownt t -> knownt t' -> known m a' -> known m b' ->
       ((forall g, In g (paths t) -> agr k g a' -> exists g', In g' (paths t') /\ agr k g' b' /\ aft k g g') <->
        (forall g, In g (fam t) -> agree_upto o c g (items a') ->
           exists g', In g' (fam t') /\ agree_upto o c g' (items b') /\ agree_after o c g g'))).
    { intros t t' a' b' Kt Kt' Ka' Kb'. split.
      - intros R z Z A. apply fam_in in Z. destruct Z as (g & G & ->). apply (agr_items k c) in A; auto.
        destruct (R g G A) as (g' & G' & A' & F). exists (items g'). split; [apply fam_in; eauto|].
        split; [apply (agr_items k c); auto|apply (aft_items k c); auto].
      - intros R g G A. destruct (R (items g)) as (z & Z & A' & F).
        + apply fam_in; eauto.
        + apply (agr_items k c); auto.
        + apply fam_in in Z. destruct Z as (g' & G' & ->). exists g'. split; [exact G'|].
          split; [apply (agr_items k c) in A'; auto|apply (aft_items k c) in F; auto]. }
    unfold req, same_rest. rewrite (X r1 r2 a b), (X r2 r1 b a) by assumption. tauto.
  Qed.
  Lemma pair_ok_items r1 r2 a b : knownt r1 -> knownt r2 -> known m a -> known m b ->
    (pair_ok r1 r2 a b <->
     forall c, same_rest o c (fam r1) (items a) (fam r2) (items b) -> agree_after o c (items a) (items b)).
  Proof.
    intros K1 K2 Ka Kb. unfold pair_ok. split.
    - intros P c R. destruct (nat_of_cut c) as (k & C). apply (aft_items k c); auto. apply P.
      apply (req_items k c); auto.
    - intros P k R. destruct (cut_of_nat k) as (c & C). apply (aft_items k c); auto. apply P.
      apply (req_items k c); auto.
  Qed.

  (** ** node operations as operations on families *)
  Lemma int_exact_items r1 r2 r : zwf 0 r1 -> zwf 0 r2 -> zwf 0 r -> knownt r1 -> knownt r2 ->
    (forall s, In s (paths r) <-> int_exact r1 r2 s) ->
    forall t, (exists p, In p (paths r) /\ t = items p) <->
      met o (fam r1) (fam r2) t.
  Proof.
    intros W1 W2 W K1 K2 P t. unfold met. setoid_rewrite P. unfold int_exact. split.
    - intros (p & [(A & B)|[(A & B)|(A & B)]] & ->).
      + left. split; apply fam_in; eauto.
      + right; left. split; [apply fam_in; eauto|]. apply ends_items; auto.
      + right; right. split; [apply fam_in; eauto|]. apply ends_items; auto.
    - intros [(A & B)|[(A & B)|(A & B)]].
      + apply fam_in in A. destruct A as (p & A & ->). 
        pose proof (zwf_paths 0 r1 p W1 A) as As.
        pose proof (proj1 (fam_in_items r2 p W2 K2 As (K1 p A)) B). eauto.
      + apply fam_in in A. destruct A as (p & A & ->). apply ends_items in B; auto. exists p. auto.
      + apply fam_in in A. destruct A as (p & A & ->). apply ends_items in B; auto. exists p. auto.
  Qed.
  Lemma join_items a b s : is_join a b s -> is_union (items s) (items a) (items b).
  Proof.
    intros Hj x. rewrite !items_in. split.
    - intros (p & Hp & Ex). apply Hj in Hp. destruct Hp; [left|right]; eauto.
    - intros [(p & Hp & Ex)|(p & Hp & Ex)]; exists p; split; auto; apply Hj; auto.
  Qed.
  Lemma prod_exact_items r1 r2 r : zwf 0 r1 -> zwf 0 r2 -> zwf 0 r -> knownt r1 -> knownt r2 -> knownt r ->
    (forall s, asc 0 s -> (In s (paths r) <-> prod_exact r1 r2 s)) ->
    forall t, (exists p, In p (paths r) /\ same_elems (items p) t) <->
      exists a b, In a (fam r1) /\ In b (fam r2) /\ is_union t a b /\
        (forall c, same_rest o c (fam r1) a (fam r2) b -> agree_after o c a b).
  Proof.
    intros W1 W2 W K1 K2 K P t. split.
    - intros (p & J & S). apply P in J; [|eapply zwf_paths; eauto]. destruct J as (a & b & A & B & J & O).
      exists (items a), (items b). split; [apply fam_in; eauto|]. split; [apply fam_in; eauto|]. split.
      + intros x. rewrite <- (S x). apply join_items; exact J.
      + apply pair_ok_items; auto.
    - intros (za & zb & A & B & U & O). apply fam_in in A. destruct A as (a & A & ->).
      apply fam_in in B. destruct B as (b & B & ->).
      set (s := fold_right ins_s a b).
      assert (Ss : forall l, asc 0 l -> asc 0 (fold_right ins_s l b)).
      { clear. intros l L. induction b as [|x b IH]; [exact L|]. cbn. apply ins_s_asc; [lia|exact IH]. }
      pose proof (Ss a (zwf_paths 0 r1 a W1 A)) as As. fold s in As.
      assert (J : is_join a b s).
      { unfold s. clear. intros x. induction b as [|y b IH]; cbn [fold_right In]; [tauto|].
        rewrite ins_s_in. rewrite IH. intuition congruence. }
      exists s. split.
      + apply P; [exact As|]. exists a, b. split; [exact A|]. split; [exact B|]. split; [exact J|].
        apply pair_ok_items; auto.
      + intros x. rewrite (U x). apply join_items; exact J.
  Qed.
End Cuts.

Section BinaryExact.
  Context {T : Type} `{Ord T}.

  (** translate_roots, with everything that is known about the translated roots *)
  Lemma roots_exact h f g of_ og : canon f of_ -> canon g og ->
    let o := fun z => count (tl_ f) z + count (tl_ g) z in
    exists m r1 r2, map_ok m /\ translate_roots h f g = Some (univ_of m, r1, r2) /\
      (forall p q x y, get_item (univ_of m) p = Some x -> get_item (univ_of m) q = Some y -> (p < q <-> before o x y)) /\
      (forall x, In x (map fst m) -> 0 < o x) /\ (forall x, ~ In x (map fst m) -> o x = 0) /\
      zwf 0 r1 /\ zwf 0 r2 /\ knownt m r1 /\ knownt m r2 /\
      reordered (tl_ f) (tl_ g) (fam m r1) /\ reordered (tl_ g) (tl_ f) (fam m r2).
  Proof.
    intros Hf Hg o. destruct (merge_spec h f g _ _ Hf Hg) as (m & Hm & Em & C & Hk).
    destruct (roots_spec h f g _ _ Hf Hg) as (m' & r1 & r2 & Hm' & E & W1 & W2 & N1 & N2 & L1 & L2 & S1 & S2).
    assert (univ_of m' = univ_of m) as Eu.
    { unfold translate_roots in E. rewrite Em in E.
      apply bind_some in E. destruct E as (x1 & _ & E). apply bind_some in E. destruct E as (x2 & _ & E).
      congruence. }
    assert (m' = m) by (apply (f_equal (@u_occ T)) in Eu; exact Eu). subst m'. clear Eu.
    destruct (merged_order f g of_ og m Hf Hg Hm) as (O1 & O2 & O3); [destruct C as [?|[_ ?]]; auto|].
    exists m, r1, r2. split; [exact Hm|]. split; [exact E|]. split; [exact O1|]. split; [exact O2|]. split; [exact O3|].
    split; [exact W1|]. split; [exact W2|]. split; [exact N1|]. split; [exact N2|].
    assert (T1 : translate_root (f_univ f) (univ_of m) (f_root f) = Some r1 /\ translate_root (f_univ g) (univ_of m) (f_root g) = Some r2).
    { unfold translate_roots in E. rewrite Em in E.
      apply bind_some in E. destruct E as (x1 & E1 & E). apply bind_some in E. destruct E as (x2 & E2 & E).
      injection E as X1 X2. subst; auto. }
    destruct T1 as (T1 & T2). rewrite (c_univ _ _ Hf) in T1. rewrite (c_univ _ _ Hg) in T2.
    assert (Kf : forall x, In x (map fst of_) -> In x (map fst m)) by (intros; apply Hk; auto).
    assert (Kg : forall x, In x (map fst og) -> In x (map fst m)) by (intros; apply Hk; auto).
    destruct (translate_kept of_ m Hm Kf _ 0 _ (c_wf _ _ Hf) (canon_known_labels _ _ Hf) T1) as (A1 & A2 & A3).
    destruct (translate_kept og m Hm Kg _ 0 _ (c_wf _ _ Hg) (canon_known_labels _ _ Hg) T2) as (B1 & B2 & B3).
    assert (R : forall (f0 g0 : forest T) of0 r0, canon f0 of0 -> zwf 0 r0 -> knownt m r0 ->
      (forall q x, In q (labels r0) -> get_item (univ_of m) q = Some x -> exists t, In t (tl_ f0) /\ In x t) ->
      (fsafe f0 g0 <-> forall z, (exists s, In s (paths r0) /\ z = get_items (univ_of m) s) <-> In z (tl_ f0)) ->
      length (paths r0) <= length (paths (f_root f0)) -> (r0 = Never -> f_root f0 = Never) ->
      (In [] (paths r0) -> In [] (paths (f_root f0))) ->
      resorted (count (tl_ f0)) (fun z => count (tl_ f0) z + count (tl_ g0) z) (tl_ f0) (fam m r0) ->
      reordered (tl_ f0) (tl_ g0) (fam m r0)).
    { intros f0 g0 of0 r0 Hf0 Wr0 Kr0 Ll Ss C1 C2 C3 Rs. unfold reordered. split; [exact Rs|].
      split; [unfold fsafe in Ss; rewrite Ss; split; intros Q z; specialize (Q z); rewrite fam_in in *; exact Q|].
      repeat apply conj.
      - intros t J. apply fam_in in J. destruct J as (p & P & ->). apply items_ssorted; auto. eapply zwf_paths; eauto.
      - apply NoDup_map_inj; [|eapply paths_NoDup; eauto].
        intros p q Hp Hq. apply (items_inj m Hm); auto; eapply zwf_paths; eauto.
      - intros J. apply fam_in in J. destruct J as (p & P & J). symmetry in J. apply (items_nil m) in J; auto.
        subst p. apply (c_ne _ _ Hf0). auto.
      - unfold fam, tl_. rewrite !map_length. exact C1.
      - intros J. unfold fam in J. apply map_eq_nil in J.
        destruct (dd_eqb_spec r0 Never) as [->|N].
        + unfold tl_. rewrite (C2 eq_refl). reflexivity.
        + exfalso. destruct (zwf_nonempty _ _ Wr0 N) as (s & J'). rewrite J in J'. destruct J'.
      - intros t x J X. apply fam_in in J. destruct J as (p & P & ->). apply items_in in X. destruct X as (q & Q & X).
        apply (Ll q x); auto. eapply paths_labels; eauto. }
    assert (Cf : (of_ = og /\ m = of_) \/ (forall x, map_get m x = opt_of (count (tl_ f) x + count (tl_ g) x))) by (destruct C as [?|[_ ?]]; auto).
    assert (Cg : (og = of_ /\ m = og) \/ (forall x, map_get m x = opt_of (count (tl_ g) x + count (tl_ f) x))).
    { destruct C as [[-> ->]|[_ C]]; auto. right. intros x. rewrite C. f_equal. lia. }
    pose proof (translate_resorts f g of_ og m r1 Hf Hg Hm Kf Cf T1) as Rf.
    pose proof (translate_resorts g f og of_ m r2 Hg Hf Hm Kg Cg T2) as Rg.
    split; [eapply (R f g); eauto|eapply (R g f); eauto].
  Qed.

  Lemma union_exact h f g : Canon f -> Canon g ->
    exists r ef eg, f_union h f g = Some r /\ Canon r /\
      reordered (tl_ f) (tl_ g) ef /\ reordered (tl_ g) (tl_ f) eg /\
      forall t, In t (tl_ r) <-> In t ef \/ In t eg.
  Proof.
    intros [of_ Hf] [og Hg].
    destruct (roots_exact h f g _ _ Hf Hg) as (m & r1 & r2 & Hm & E & O1 & O2 & O3 & W1 & W2 & K1 & K2 & D1 & D2).
    unfold f_union, f_binop. rewrite E. cbn [bind].
    destruct (union_spec r1 r2 0 W1 W2) as (r & Er & Wr & Pr). rewrite Er. cbn [bind].
    destruct (canonical_spec h r m Hm Wr) as (q & Eq & Cq & Tq).
    { intros p Hp. apply Pr in Hp. destruct Hp; auto. }
    exists q, (fam m r1), (fam m r2). split; [exact Eq|]. split; [exact Cq|]. split; [exact D1|]. split; [exact D2|].
    intros t. rewrite Tq, !fam_in. split.
    - intros (_ & p & P & ->). apply Pr in P. destruct P; [left|right]; eauto.
    - intros X. split.
      + intros ->. destruct D1 as (_ & _ & _ & N1 & _). destruct D2 as (_ & _ & _ & N2 & _).
        destruct X as [X|X]; [apply N1|apply N2]; apply fam_in; exact X.
      + destruct X as [(p & P & ->)|(p & P & ->)]; exists p; (split; [apply Pr; auto|reflexivity]).
  Qed.

  Lemma intersect_exact_f h f g : Canon f -> Canon g ->
    exists r ef eg, f_intersect h f g = Some r /\ Canon r /\
      reordered (tl_ f) (tl_ g) ef /\ reordered (tl_ g) (tl_ f) eg /\
      let o := fun z => count (tl_ f) z + count (tl_ g) z in
      forall t, In t (tl_ r) <-> met o ef eg t.
  Proof.
    intros [of_ Hf] [og Hg].
    destruct (roots_exact h f g _ _ Hf Hg) as (m & r1 & r2 & Hm & E & O1 & O2 & O3 & W1 & W2 & K1 & K2 & D1 & D2).
    unfold f_intersect, f_binop. rewrite E. cbn [bind].
    destruct (intersect_exact r1 r2 0 W1 W2) as (r & Er & Wr & Pr). rewrite Er. cbn [bind].
    destruct (canonical_spec h r m Hm Wr) as (q & Eq & Cq & Tq).
    { intros p Hp. apply Pr in Hp. destruct Hp as [(A & _)|[(A & _)|(A & _)]]; [apply K1|apply K1|apply K2]; exact A. }
    exists q, (fam m r1), (fam m r2). split; [exact Eq|]. split; [exact Cq|]. split; [exact D1|]. split; [exact D2|].
    set (o := fun z => count (tl_ f) z + count (tl_ g) z) in *. cbv zeta. intros t. rewrite Tq, (int_exact_items m o Hm O1 r1 r2 r W1 W2 Wr K1 K2 Pr).
    destruct D1 as (_ & _ & _ & N1 & _). destruct D2 as (_ & _ & _ & N2 & _). split; [tauto|].
    intros X. split; [|exact X]. intros ->. destruct X as [(A & _)|[(A & _)|(A & _)]]; contradiction.
  Qed.

  Lemma product_exact_f h f g : Canon f -> Canon g ->
    exists r ef eg, f_product h f g = Some r /\ Canon r /\
      reordered (tl_ f) (tl_ g) ef /\ reordered (tl_ g) (tl_ f) eg /\
      let o := fun z => count (tl_ f) z + count (tl_ g) z in
      forall t, has_set (tl_ r) t <-> exists a b, In a ef /\ In b eg /\ is_union t a b /\
        (forall c, same_rest o c ef a eg b -> agree_after o c a b).
  Proof.
    intros [of_ Hf] [og Hg].
    destruct (roots_exact h f g _ _ Hf Hg) as (m & r1 & r2 & Hm & E & O1 & O2 & O3 & W1 & W2 & K1 & K2 & D1 & D2).
    unfold f_product, f_binop. rewrite E. cbn [bind].
    destruct (product_exact r1 r2 0 W1 W2) as (r & Er & Wr & Pr). rewrite Er. cbn [bind].
    assert (Kr : knownt m r).
    { intros p Hp. pose proof (zwf_paths _ _ _ Wr Hp) as As. apply (Pr p As) in Hp.
      destruct Hp as (a & b & A & B & J & _). intros x X. apply J in X. destruct X as [X|X]; [apply (K1 a A)|apply (K2 b B)]; exact X. }
    destruct (canonical_spec h r m Hm Wr) as (q & Eq & Cq & Tq); [exact Kr|].
    exists q, (fam m r1), (fam m r2). split; [exact Eq|]. split; [exact Cq|]. split; [exact D1|]. split; [exact D2|].
    set (o := fun z => count (tl_ f) z + count (tl_ g) z) in *. cbv zeta. intros t. rewrite <- (prod_exact_items m o Hm O1 r1 r2 r W1 W2 Wr K1 K2 Kr Pr).
    unfold has_set. setoid_rewrite Tq. split.
    - intros (t' & (_ & p & P & ->) & S). eauto.
    - intros (p & P & S). exists (get_items (univ_of m) p). split; [|exact S]. split; [|eauto].
      intros Z. apply (items_nil m) in Z; auto. subst p.
      apply (Pr [] I) in P. destruct P as (a & b & A & B & J & _).
      assert (a = []).
      { destruct a as [|x a]; [reflexivity|]. exfalso. apply (J x). left; left; reflexivity. }
      subst a. destruct D1 as (_ & _ & _ & N1 & _). apply N1. apply fam_in. exists []. split; [exact A|reflexivity].
  Qed.

  (** ** subset_none *)
  Lemma ends_along_ext c (us vs : list (list T)) t : (forall z, In z us <-> In z vs) ->
    ends_along c us t -> ends_along c vs t.
  Proof.
    intros Q (k & (g & G & A) & B). exists k. split.
    - exists g. split; [apply Q; exact G|exact A].
    - intros g' x G'. apply B, Q, G'.
  Qed.
  Lemma met_ext c (fs fs' gs gs' : list (list T)) t : (forall z, In z fs <-> In z fs') -> (forall z, In z gs <-> In z gs') ->
    (met c fs gs t <-> met c fs' gs' t).
  Proof.
    intros Q1 Q2. unfold met. rewrite (Q1 t), (Q2 t).
    assert (A : ends_along c gs t <-> ends_along c gs' t)
      by (split; apply ends_along_ext; intros z; [apply Q2|symmetry; apply Q2]).
    assert (B : ends_along c fs t <-> ends_along c fs' t)
      by (split; apply ends_along_ext; intros z; [apply Q1|symmetry; apply Q1]).
    rewrite A, B. reflexivity.
  Qed.
  Lemma met_all_ext c ts es : forall (fs fs' tr tr' : list (list T)), (forall z, In z fs <-> In z fs') ->
    (forall z, In z tr <-> In z tr') -> met_all c ts fs es tr -> met_all c ts fs' es tr'.
  Proof.
    induction es as [|e es IH]; intros fs fs' tr tr' Q R; cbn [met_all].
    - intros M t. rewrite <- (R t), <- (Q t). apply M.
    - intros (gs & G & M). exists gs. split; [|eapply IH; eauto; reflexivity].
      intros t. rewrite (G t). apply met_ext; [exact Q|reflexivity].
  Qed.

  Lemma none_fold_exact f occ : canon f occ -> forall es acc, zwf 0 acc -> knownt occ acc ->
    (forall e, In e es -> get_priority (f_univ f) e <> None) ->
    exists r, foldM (fun a e => let! s := node_subset_not (f_root f) e in intersect a s) (get_priorities (f_univ f) es) acc = Some r /\
      zwf 0 r /\ knownt occ r /\
      met_all (count (tl_ f)) (tl_ f) (fam occ acc) es (fam occ r).
  Proof.
    intros Hc. pose proof (c_ok _ _ Hc) as Hm. destruct (canon_order f occ Hc) as (O1 & O2 & O3).
    induction es as [|e es IH]; intros acc Wa Ka Hk.
    - exists acc. cbn. repeat split; auto.
    - destruct (get_priority (f_univ f) e) as [p|] eqn:E; [|exfalso; apply (Hk e); [left; reflexivity|exact E]].
      unfold get_priorities. cbn [filter_map]. rewrite E. cbn [foldM].
      destruct (node_subset_not_spec (f_root f) p 0 (c_wf _ _ Hc)) as (s & Es & Ws & Ps).
      rewrite Es. cbn [bind]. destruct (intersect_exact acc s 0 Wa Ws) as (a' & Ea & Wa' & Pa). rewrite Ea. cbn [bind].
      assert (Ks : knownt occ s) by (intros q Q; apply Ps in Q; apply (c_known _ _ Hc); apply Q).
      assert (Ka' : knownt occ a').
      { intros q Q. apply Pa in Q. destruct Q as [(X & _)|[(X & _)|(X & _)]]; [apply Ka|apply Ka|apply Ks]; exact X. }
      destruct (IH a' Wa' Ka') as (r & Er & Wr & Kr & M); [intros; apply Hk; right; assumption|].
      exists r. split; [exact Er|]. split; [exact Wr|]. split; [exact Kr|].
      cbn [met_all]. exists (fam occ a'). split; [|exact M].
      intros t. rewrite fam_in, (int_exact_items occ _ Hm O1 acc s a' Wa Ws Wa' Ka Ks Pa t).
      apply met_ext; [reflexivity|]. intros z. rewrite without_in, fam_in. unfold tl_. rewrite (c_univ _ _ Hc) in *.
      rewrite in_map_iff. setoid_rewrite Ps. split.
      + intros (q & (Q & N) & ->). split; [eauto|]. rewrite (item_path occ e p q); auto.
      + intros ((q & <- & Q) & N). exists q. split; [|reflexivity]. split; [exact Q|]. rewrite <- (item_path occ e p q); auto.
  Qed.

  Lemma subset_none_exact h f es : Canon f ->
    exists r, f_subset_none h f es = Some r /\ Canon r /\
      match es with
      | [] => r = f
      | e :: es' =>
          (forall x, In x es -> exists t, In t (tl_ f) /\ In x t) ->
          met_all (count (tl_ f)) (tl_ f) (without e (tl_ f)) es' (tl_ r)
      end /\
      ((exists x, In x es /\ forall t, In t (tl_ f) -> ~ In x t) -> r = f).
  Proof.
    intros [occ Hc]. unfold f_subset_none, f_subset_many. destruct es as [|e0 es0].
    { exists f. split; [reflexivity|]. split; [exists occ; auto|]. auto. }
    set (es := e0 :: es0).
    destruct (Nat.eqb_spec (length es) (length (get_priorities (f_univ f) es))) as [El|El]; cbn [negb]; cbv iota.
    - rewrite (priorities_length f occ) in El by auto.
      unfold node_subset_none.
      destruct (get_priority (f_univ f) e0) as [p|] eqn:E; [|exfalso; apply (El e0); [left; reflexivity|exact E]].
      unfold es, get_priorities. cbn [filter_map]. rewrite E. cbn [foldM].
      destruct (node_subset_not_spec (f_root f) p 0 (c_wf _ _ Hc)) as (s & Es & Ws & Ps).
      rewrite Es. cbn [bind].
      assert (Ks : knownt occ s) by (intros q Q; apply Ps in Q; apply (c_known _ _ Hc); apply Q).
      assert (Ea : intersect Always s = Some s).
      { destruct (intersect_exact Always s 0 I Ws) as (a & Ea & Wa & Pa). rewrite Ea. f_equal.
        apply (canonicity 0); auto. intros z. rewrite (Pa z). unfold int_exact. split.
        - intros [(_ & X)|[(X & k & Y)|(X & _)]]; auto.
          exfalso. cbn in X. destruct X as [<-|[]].
          destruct Y as ((g & G & A) & B).
          assert (g = []).
          { destruct g as [|y g]; [reflexivity|exfalso]. assert (Y : y < k) by (apply (B (y :: g)); auto; left; reflexivity).
            apply (A y Y). left; reflexivity. }
          subst g. apply Ps in G. destruct G as (G & _). apply (c_ne _ _ Hc). exact G.
        - intros X. right. right. split; [exact X|]. exists 0. apply ends_always. intros; lia. }
      rewrite Ea. cbn [bind].
      destruct (none_fold_exact f occ Hc es0 s Ws Ks) as (r & Er & Wr & Kr & M); [intros; apply El; right; assumption|].
      unfold get_priorities in Er. rewrite Er. cbn [bind].
      destruct (canonical_spec h r occ (c_ok _ _ Hc) Wr) as (g & Eg & Cg & Tg); [exact Kr|].
      rewrite <- (c_univ _ _ Hc) in Eg. exists g. split; [exact Eg|]. split; [exact Cg|]. split.
      + intros _. eapply met_all_ext; [| |exact M].
        * intros z. rewrite without_in, fam_in. unfold tl_. rewrite (c_univ _ _ Hc) in *.
          rewrite in_map_iff. setoid_rewrite Ps. pose proof (c_ok _ _ Hc). split.
          -- intros (q & (Q & N) & ->). split; [eauto|]. rewrite (item_path occ e0 p q); auto.
          -- intros ((q & <- & Q) & N). exists q. split; [|reflexivity]. split; [exact Q|]. rewrite <- (item_path occ e0 p q); auto.
        * intros z. rewrite (Tg z), fam_in. split; [|tauto]. intros (q & Q & ->). split; [|eauto].
          intros Z. apply (items_nil occ) in Z; auto. subst q.
          destruct (subset_none_spec h f es) as (r' & _ & _ & _); [exists occ; exact Hc|].
          assert (Sub : In [] (paths (f_root f))); [|apply (c_ne _ _ Hc); exact Sub].
          destruct (node_subset_none_sub (f_root f) 0 (get_priorities (f_univ f) es) (c_wf _ _ Hc)) as (r2 & Er2 & _ & Hin & _).
          { unfold es, get_priorities. cbn [filter_map]. rewrite E. discriminate. }
          apply Hin. unfold node_subset_none, es, get_priorities in Er2. cbn [filter_map] in Er2. rewrite E in Er2.
          cbn [foldM] in Er2. rewrite Es in Er2. cbn [bind] in Er2. rewrite Ea in Er2. cbn [bind] in Er2.
          unfold get_priorities in Er2. rewrite Er in Er2. injection Er2 as <-. exact Q.
      + intros (x & X & N). exfalso. apply (El x X). destruct (get_priority (f_univ f) x) eqn:Ex; [|reflexivity].
        exfalso. assert (Y : get_priority (f_univ f) x <> None) by congruence.
        apply (known_iff f occ) in Y; auto. destruct Y as (t & A & B). exact (N t A B).
    - exists f. split; [reflexivity|]. split; [exists occ; auto|]. split; [|auto].
      intros Hk. exfalso. apply El. apply (priorities_length f occ); auto. intros e He. apply (known_iff f occ); auto.
  Qed.
End BinaryExact.
