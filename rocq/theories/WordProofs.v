(** WordProofs: the merge of two universes in machine words, and what union,
    intersect, product and subset_none make of any two forests of well-formed data. *)
From Coq Require Import List Arith Lia Bool Permutation Sorted.
From Verif Require Import Base DD Spec Zdd2Model Zdd2Node Zdd2Node2 Zdd2Univ Zdd2Forest Zdd2Forest2 Zdd2Forest3 Zdd2Exact Zdd2Exact2 Zdd2Settle Zdd2Resort Zdd2Laws WordModel.
Import ListNotations.

Definition get0 (o : option nat) : nat := match o with Some c => c | None => 0 end.

Section Merge.
  Context {T : Type} `{OT : Ord T}.
  Variable a : arith.
  Variable lim : nat.
  Hypothesis Lim : 0 < lim.

  Lemma add_w_some x y c : add_w a lim x y = Some c -> c = (x + y) mod lim.
  Proof.
    unfold add_w. destruct (Nat.ltb_spec (x + y) lim) as [L|L].
    - intros [= <-]. symmetry. apply Nat.mod_small. exact L.
    - destruct a; [discriminate|]. intros [= <-]. reflexivity.
  Qed.
  Lemma add_w_none x y : add_w a lim x y = None <-> a = Checked /\ lim <= x + y.
  Proof.
    unfold add_w. destruct (Nat.ltb_spec (x + y) lim) as [L|L]; [split; [discriminate|lia]|].
    destruct a; split; auto; try discriminate. intros (X & _). discriminate.
  Qed.

  Definition wmerged (o1 o2 : option nat) : option nat :=
    match o2 with None => o1 | Some d => Some ((get0 o1 + d) mod lim) end.

  Lemma merge_fold_w l : forall m, map_ok m -> NoDup (map fst l) ->
    match foldM (entry_add a lim) l m with
    | Some m' => map_ok m' /\
        (forall x, map_get m' x = wmerged (map_get m x) (option_map snd (find (fun p => eqb_ x (fst p)) l))) /\
        (a = Checked -> forall x d, In (x, d) l -> get0 (map_get m x) + d < lim)
    | None => a = Checked /\ exists x d, In (x, d) l /\ lim <= get0 (map_get m x) + d
    end.
  Proof.
    induction l as [|[y d] l IH]; intros m M N; cbn [foldM].
    - split; [exact M|]. split; [intros x; destruct (map_get m x); reflexivity|intros _ x d []].
    - inversion N as [|? ? Ny N']; subst. unfold entry_add at 1. cbn [fst snd].
      fold (get0 (map_get m y)).
      destruct (add_w a lim (get0 (map_get m y)) d) as [c|] eqn:E; cbn [bind].
      2:{ apply add_w_none in E. destruct E as (E & L). split; [exact E|]. exists y, d. split; [left; reflexivity|exact L]. }
      pose proof (add_w_some _ _ _ E) as Ec.
      assert (G1 : forall x, x <> y -> map_get (map_insert m y c) x = map_get m x).
      { intros x Nx. unfold map_insert. rewrite map_update_get by exact M.
        destruct (eqb_spec_ x y); [contradiction|reflexivity]. }
      assert (G2 : map_get (map_insert m y c) y = Some c).
      { unfold map_insert. rewrite map_update_get by exact M. rewrite eqb_refl_. reflexivity. }
      assert (Nf : forall x e, In (x, e) l -> x <> y).
      { intros x e J ->. apply Ny. apply in_map_iff. exists (y, e); auto. }
      specialize (IH (map_insert m y c)).
      destruct (foldM (entry_add a lim) l (map_insert m y c)) as [m'|].
      + destruct IH as (M' & G & C); [apply map_update_ok; exact M|exact N'|].
        split; [exact M'|]. split.
        * intros x. rewrite G. cbn [find fst]. destruct (eqb_spec_ x y) as [->|Nx].
          -- assert (find (fun p => eqb_ y (fst p)) l = None) as ->.
             { destruct (find (fun p => eqb_ y (fst p)) l) as [[z e]|] eqn:F; [|reflexivity].
               apply find_some in F. destruct F as [J F]. apply eqb_true_ in F. cbn in F. subst z.
               exfalso. exact (Nf y e J eq_refl). }
             cbn. rewrite G2. f_equal. exact Ec.
          -- rewrite (G1 x Nx). reflexivity.
        * intros Ck x e [J|J].
          -- injection J as <- <-.
             assert (X : ~ (a = Checked /\ lim <= get0 (map_get m y) + d)) by (rewrite <- add_w_none; congruence).
             destruct (Nat.lt_ge_cases (get0 (map_get m y) + d) lim); [assumption|exfalso; apply X; auto].
          -- rewrite <- (G1 x (Nf x e J)). eapply C; eauto.
      + destruct IH as (Ck & x & e & J & L); [apply map_update_ok; exact M|exact N'|].
        split; [exact Ck|]. exists x, e. split; [right; exact J|]. rewrite <- (G1 x (Nf x e J)). exact L.
  Qed.

  (** merge of two canonical universes in machine words *)
  Lemma u_merge_w_spec h site occ1 occ2 : map_ok occ1 -> map_ok occ2 ->
    (occ1 = occ2 /\ u_merge_w a lim h site (univ_of occ1) (univ_of occ2) = Some (univ_of occ1)) \/
    (occ1 <> occ2 /\
     match u_merge_w a lim h site (univ_of occ1) (univ_of occ2) with
     | Some u => exists m, map_ok m /\ u = univ_of m /\
         (forall x, map_get m x = wmerged (map_get occ1 x) (map_get occ2 x)) /\
         (a = Checked -> forall x d, map_get occ2 x = Some d -> get0 (map_get occ1 x) + d < lim)
     | None => a = Checked /\ exists x d, map_get occ2 x = Some d /\ lim <= get0 (map_get occ1 x) + d
     end).
  Proof.
    intros M1 M2. unfold u_merge_w. destruct (u_eqb_spec (univ_of occ1) (univ_of occ2)) as [E|N].
    - left. split; [|reflexivity]. injection E; auto.
    - right. split; [congruence|].
      pose proof (merge_fold_w (ho_iter h site occ2) occ1 M1) as X. simpl u_occ.
      assert (Nd : NoDup (map fst (ho_iter h site occ2))).
      { eapply Permutation_NoDup; [|apply ssorted_NoDup; exact M2].
        apply Permutation_map. symmetry. apply ho_perm. }
      specialize (X Nd).
      assert (Ix : forall x d, In (x, d) (ho_iter h site occ2) <-> map_get occ2 x = Some d).
      { intros x d. rewrite (map_get_in occ2 x d M2). split; apply Permutation_in; [|symmetry]; apply ho_perm. }
      destruct (foldM (entry_add a lim) (ho_iter h site occ2) occ1) as [m|]; cbn [bind].
      + destruct X as (M & G & C). exists m. split; [exact M|]. split; [apply from_occurrences_univ|]. split.
        * intros x. rewrite G. f_equal. apply find_map_get; [exact M2|apply ho_perm].
        * intros Ck x d E. apply (C Ck). apply Ix, E.
      + destruct X as (Ck & x & d & J & L). split; [exact Ck|]. exists x, d. split; [apply Ix, J|exact L].
  Qed.
End Merge.

Section Any.
  Context {T : Type} `{OT : Ord T}.
  Implicit Types f g : forest T.

  (** counts of a map as a function, 0 for the items it does not list *)
  Definition cof (m : list (T * nat)) (x : T) : nat := get0 (map_get m x).

  Lemma univ_order m : map_ok m -> forall p q x y, get_item (univ_of m) p = Some x -> get_item (univ_of m) q = Some y ->
    (p < q <-> before (cof m) x y).
  Proof.
    intros K p q x y Ex Ey. apply get_priority_item in Ex; auto. apply get_priority_item in Ey; auto.
    destruct (get_priority_in m x p K Ex) as (Ix & _). destruct (get_priority_in m y q K Ey) as (Iy & _).
    destruct (map_get m x) as [c|] eqn:Ec; [|exfalso; apply (map_get_none m x K) in Ec; contradiction].
    destruct (map_get m y) as [d|] eqn:Ed; [|exfalso; apply (map_get_none m y K) in Ed; contradiction].
    rewrite (priority_order m x y p q c d K Ex Ey Ec Ed). unfold occ_before, before, cof. rewrite Ec, Ed. cbn.
    split; intros [X|X]; auto; right; destruct X; auto.
  Qed.
  (** an extensionally equal count function orders the same way *)
  Lemma before_same (c d : T -> nat) x y : (forall z, c z = d z) -> (before c x y <-> before d x y).
  Proof. intros E. unfold before. rewrite !E. reflexivity. Qed.
  Lemma univ_order_c m (c : T -> nat) : map_ok m -> (forall x, c x = cof m x) ->
    forall p q x y, get_item (univ_of m) p = Some x -> get_item (univ_of m) q = Some y -> (p < q <-> before c x y).
  Proof. intros K E p q x y Ex Ey. rewrite (before_same c (cof m) x y E). apply univ_order; auto. Qed.

  (** a forest of well-formed data all of whose labels index the map *)
  Definition sound (occ : list (T * nat)) (f : forest T) : Prop :=
    map_ok occ /\ f_univ f = univ_of occ /\ zwf 0 (f_root f) /\ known_labels occ (f_root f).

  Lemma sound_fam occ f : sound occ f -> fam occ (f_root f) = tl_ f.
  Proof. intros (_ & U & _). unfold fam, tl_. rewrite U. reflexivity. Qed.
  Lemma known_knownt (occ : list (T * nat)) t : known_labels occ t -> knownt occ t.
  Proof. intros K p P q Q. apply K. eapply paths_labels; eauto. Qed.

  (** translating a root into a universe that has all its items *)
  Lemma translate_any occ m f (c : T -> nat) : sound occ f -> map_ok m ->
    (forall x, In x (map fst occ) -> In x (map fst m)) -> (forall x, c x = cof m x) ->
    exists r, translate_root (f_univ f) (univ_of m) (f_root f) = Some r /\ zwf 0 r /\ knownt m r /\
      resorted (cof occ) c (tl_ f) (fam m r).
  Proof.
    intros S_ Km Hk Ec. pose proof S_ as (K & U & W & L).
    destruct (translate_total occ m Km Hk (f_root f) 0 W L) as (r & E & Wr & Lr).
    rewrite U. exists r. split; [exact E|]. split; [exact Wr|].
    pose proof (translate_resorted occ m K Km Hk (cof occ) c (univ_order occ K) (univ_order_c m c Km Ec) (f_root f) 0 r W L E) as R.
    split.
    - rewrite (translate_retag occ m Km Hk) in E by exact L.
      apply known_knownt. exact (retag_knownl occ m Km Hk (f_root f) r L E).
    - rewrite <- (sound_fam occ f S_). exact R.
  Qed.
  (** ... it keeps every tree if the order of the items within each is kept *)
  Lemma translate_kept_any occ m f (c : T -> nat) r : sound occ f -> map_ok m ->
    (forall x, In x (map fst occ) -> In x (map fst m)) -> (forall x, c x = cof m x) ->
    (forall t x y, In t (tl_ f) -> In x t -> In y t -> before (cof occ) x y -> before c x y) ->
    translate_root (f_univ f) (univ_of m) (f_root f) = Some r ->
    forall t, In t (fam m r) <-> In t (tl_ f).
  Proof.
    intros S_ Km Hk Ec O E. pose proof S_ as (K & U & W & L). rewrite U in E.
    rewrite <- (sound_fam occ f S_) in *.
    pose proof (univ_order occ K) as Oo. pose proof (univ_order_c m c Km Ec) as On.
    apply (translate_settles occ m K Km Hk (cof occ) c Oo On (f_root f) 0 r W L E).
    apply (dsettled_settles occ m K Km Hk (cof occ) c Oo On (f_root f) 0); [exact W|exact L|reflexivity|].
    apply (dkept_settled occ m K Km Hk (f_root f) 0 W L).
    intros s p q S1 P Q Lt.
    destruct (get_item_known occ p) as (x & Ex); [apply L; eapply paths_labels; eauto|].
    destruct (get_item_known occ q) as (y & Ey); [apply L; eapply paths_labels; eauto|].
    left. apply (On (tr occ m p) (tr occ m q) x y).
    - apply tr_get_item; auto. apply L; eapply paths_labels; eauto.
    - apply tr_get_item; auto. apply L; eapply paths_labels; eauto.
    - apply (O (get_items (univ_of occ) s)).
      + apply fam_in. eauto.
      + apply (item_in_iff occ K p x); auto.
      + apply (item_in_iff occ K q y); auto.
      + apply (Oo p q x y Ex Ey). exact Lt.
  Qed.

  Definition nonempty_of (r : forest T) (P : list T -> Prop) : Prop := forall t, In t (tl_ r) <-> t <> [] /\ P t.

  Section Ops.
    Variables (m : list (T * nat)) (o : T -> nat).
    Hypothesis Km : map_ok m.
    Hypothesis Eo : forall x, o x = cof m x.
    Variables r1 r2 : node.
    Hypothesis W1 : zwf 0 r1.
    Hypothesis W2 : zwf 0 r2.
    Hypothesis K1 : knownt m r1.
    Hypothesis K2 : knownt m r2.

    Lemma union_any h : exists r q, union r1 r2 = Some r /\ f_canonical h r (univ_of m) = Some q /\
      nonempty_of q (fun t => In t (fam m r1) \/ In t (fam m r2)).
    Proof.
      destruct (union_spec r1 r2 0 W1 W2) as (r & Er & Wr & Pr).
      destruct (canonical_spec h r m Km Wr) as (q & Eq & _ & Tq).
      { intros p Hp. apply Pr in Hp. destruct Hp; auto. }
      exists r, q. split; [exact Er|]. split; [exact Eq|]. intros t. rewrite Tq, !fam_in.
      split; intros (N & X); (split; [exact N|]).
      - destruct X as (p & P & ->). apply Pr in P. destruct P; [left|right]; eauto.
      - destruct X as [(p & P & ->)|(p & P & ->)]; exists p; (split; [apply Pr; auto|reflexivity]).
    Qed.
    Lemma intersect_any h : exists r q, intersect r1 r2 = Some r /\ f_canonical h r (univ_of m) = Some q /\
      nonempty_of q (met o (fam m r1) (fam m r2)).
    Proof.
      destruct (intersect_exact r1 r2 0 W1 W2) as (r & Er & Wr & Pr).
      destruct (canonical_spec h r m Km Wr) as (q & Eq & _ & Tq).
      { intros p Hp. apply Pr in Hp. destruct Hp as [(A & _)|[(A & _)|(A & _)]]; [apply K1|apply K1|apply K2]; exact A. }
      exists r, q. split; [exact Er|]. split; [exact Eq|]. intros t. rewrite Tq.
      rewrite (int_exact_items m o Km (univ_order_c m o Km Eo) r1 r2 r W1 W2 Wr K1 K2 Pr). reflexivity.
    Qed.
    Lemma product_any h : exists r q, product r1 r2 = Some r /\ f_canonical h r (univ_of m) = Some q /\
      forall t, t <> [] -> (has_set (tl_ q) t <-> exists a b, In a (fam m r1) /\ In b (fam m r2) /\ is_union t a b /\
        (forall c, same_rest o c (fam m r1) a (fam m r2) b -> agree_after o c a b)).
    Proof.
      destruct (product_exact r1 r2 0 W1 W2) as (r & Er & Wr & Pr).
      assert (Kr : knownt m r).
      { intros p Hp. pose proof (zwf_paths _ _ _ Wr Hp) as As. apply (Pr p As) in Hp.
        destruct Hp as (a & b & A & B & J & _). intros x X. apply J in X. destruct X as [X|X]; [apply (K1 a A)|apply (K2 b B)]; exact X. }
      destruct (canonical_spec h r m Km Wr) as (q & Eq & _ & Tq); [exact Kr|].
      exists r, q. split; [exact Er|]. split; [exact Eq|]. intros t N.
      rewrite <- (prod_exact_items m o Km (univ_order_c m o Km Eo) r1 r2 r W1 W2 Wr K1 K2 Kr Pr).
      unfold has_set. setoid_rewrite Tq. split.
      - intros (t' & (_ & p & P & ->) & S1). eauto.
      - intros (p & P & S1). exists (get_items (univ_of m) p). split; [|exact S1]. split; [|eauto].
        intros Z. apply N. destruct t as [|x t]; [reflexivity|exfalso].
        assert (J : In x (get_items (univ_of m) p)) by (apply S1; left; reflexivity). rewrite Z in J. destruct J.
    Qed.
  End Ops.

  (** ** subset_none *)
  Lemma none_fold_any f occ : sound occ f -> forall es acc, zwf 0 acc -> knownt occ acc ->
    (forall e, In e es -> get_priority (f_univ f) e <> None) ->
    exists r, foldM (fun a e => let! s := node_subset_not (f_root f) e in intersect a s) (get_priorities (f_univ f) es) acc = Some r /\
      zwf 0 r /\ knownt occ r /\
      met_all (cof occ) (tl_ f) (fam occ acc) es (fam occ r).
  Proof.
    intros S_. pose proof S_ as (Km & U & W & L). pose proof (univ_order occ Km) as O1.
    induction es as [|e es IH]; intros acc Wa Ka Hk.
    - exists acc. cbn. split; [reflexivity|]. split; [exact Wa|]. split; [exact Ka|]. reflexivity.
    - destruct (get_priority (f_univ f) e) as [p|] eqn:E; [|exfalso; apply (Hk e); [left; reflexivity|exact E]].
      unfold get_priorities. cbn [filter_map]. rewrite E. cbn [foldM].
      destruct (node_subset_not_spec (f_root f) p 0 W) as (s & Es & Ws & Ps).
      rewrite Es. cbn [bind]. destruct (intersect_exact acc s 0 Wa Ws) as (a' & Ea & Wa' & Pa). rewrite Ea. cbn [bind].
      assert (Ks : knownt occ s) by (intros q Q; apply Ps in Q; apply (known_knownt occ _ L); apply Q).
      assert (Ka' : knownt occ a').
      { intros q Q. apply Pa in Q. destruct Q as [(X & _)|[(X & _)|(X & _)]]; [apply Ka|apply Ka|apply Ks]; exact X. }
      destruct (IH a' Wa' Ka') as (r & Er & Wr & Kr & M); [intros; apply Hk; right; assumption|].
      exists r. split; [exact Er|]. split; [exact Wr|]. split; [exact Kr|].
      cbn [met_all]. exists (fam occ a'). split; [|exact M].
      intros t. rewrite fam_in, (int_exact_items occ _ Km O1 acc s a' Wa Ws Wa' Ka Ks Pa t).
      apply met_ext; [reflexivity|]. intros z. rewrite without_in, fam_in. unfold tl_. rewrite U in *.
      rewrite in_map_iff. setoid_rewrite Ps. split.
      + intros (q & (Q & N) & ->). split; [eauto|]. rewrite (item_path occ e p q); auto.
      + intros ((q & <- & Q) & N). exists q. split; [|reflexivity]. split; [exact Q|]. rewrite <- (item_path occ e p q); auto.
  Qed.
End Any.
