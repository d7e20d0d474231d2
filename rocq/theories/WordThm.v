(** WordThm: union, intersect, product and subset_none of any two forests, built or
    loaded, with occurrence counts in machine words (C88). *)
From Coq Require Import List Arith NArith Lia Bool Permutation Sorted.
From Verif Require Import Base DD Spec Zdd2Model Zdd2Node Zdd2Node2 Zdd2Univ Zdd2Forest Zdd2Forest2 Zdd2Forest3 Zdd2Exact Zdd2Exact2 Zdd2Settle Zdd2Resort Zdd2Laws Zdd2Thm.
From Verif Require Import ParserModel ParserSpec ParserProofs ParserThm LoadProofs WordModel WordProofs.
Import ListNotations.
Open Scope nat_scope.

(** the count [occurrences()] shows for an item, 0 if it shows none *)
Definition count_in {T} `{Ord T} (f : forest T) (x : T) : nat :=
  match find (fun p => eqb_ x (fst p)) (f_occurrences ho_id f) with Some (_, k) => k | None => 0 end.
(** every count of the forest is a value of the word type *)
Definition within {T} `{Ord T} (lim : nat) (f : forest T) : Prop := forall x, count_in f x < lim.
Definition same_counts {T} `{Ord T} (f g : forest T) : Prop := f_occurrences ho_id f = f_occurrences ho_id g.
(** the counts of two forests do not add up within the word type *)
Definition overflows {T} `{Ord T} (lim : nat) (f g : forest T) : Prop :=
  ~ same_counts f g /\ exists x, lim <= count_in f x + count_in g x.
(** the counts the items are ordered by when two forests are combined *)
Definition merged {T} `{Ord T} (lim : nat) (f g : forest T) (c : T -> nat) : Prop :=
  (same_counts f g /\ forall x, c x = count_in f x) \/
  (~ same_counts f g /\ forall x, c x = (count_in f x + count_in g x) mod lim).
(** the order [c] keeps the order of the items within each tree of [f] *)
Definition keeps_order {T} `{Ord T} (f : forest T) (c : T -> nat) : Prop :=
  forall ts t x y, f_trees f = Some ts -> In t ts -> In x t -> In y t -> before (count_in f) x y -> before c x y.

Section C88.
  Context {T : Type} `{OT : Ord T}.
  Implicit Types f g : forest T.

  Lemma origin_sound f : origin f -> exists occ, map_ok occ /\ f_univ f = univ_of occ /\ zwf 0 (f_root f) /\
    f_occurrences ho_id f = occ /\ (forall x, count_in f x = cof occ x) /\ (indexed f <-> sound occ f).
  Proof.
    intros O. destruct (origin_loadable f O) as (occ & K & U & W). exists occ.
    pose proof (occurrences_any ho_id f occ K U) as E.
    split; [exact K|]. split; [exact U|]. split; [exact W|]. split; [exact E|]. split.
    - intros x. unfold count_in, cof. rewrite E.
      rewrite <- (find_map_get occ occ x K (Permutation_refl _)).
      destruct (find (fun p => eqb_ x (fst p)) occ) as [[y k]|]; reflexivity.
    - unfold indexed, sound, known_labels. rewrite U. change (u_occ (univ_of occ)) with occ. tauto.
  Qed.

  Lemma wmerged_cof lim occ1 occ2 m : 0 < lim -> (forall x, cof occ1 x < lim) ->
    (forall x, map_get m x = wmerged lim (map_get occ1 x) (map_get occ2 x)) ->
    forall x, cof m x = (cof occ1 x + cof occ2 x) mod lim.
  Proof.
    intros L Wi G x. unfold cof in *. rewrite G. specialize (Wi x). unfold wmerged.
    destruct (map_get occ2 x) as [d|]; cbn [get0]; [reflexivity|].
    rewrite Nat.add_0_r. symmetry. apply Nat.mod_small. exact Wi.
  Qed.

  (** everything about the merged universe *)
  Lemma merge_any a lim h f g occ1 occ2 : origin f -> origin g -> 0 < lim ->
    map_ok occ1 -> f_univ f = univ_of occ1 -> f_occurrences ho_id f = occ1 -> (forall x, count_in f x = cof occ1 x) ->
    map_ok occ2 -> f_univ g = univ_of occ2 -> f_occurrences ho_id g = occ2 -> (forall x, count_in g x = cof occ2 x) ->
    within lim f -> within lim g ->
    (a = Checked /\ overflows lim f g /\ u_merge_w a lim h site_merge (f_univ f) (f_univ g) = None) \/
    (~ (a = Checked /\ overflows lim f g) /\
     exists m c, map_ok m /\ u_merge_w a lim h site_merge (f_univ f) (f_univ g) = Some (univ_of m) /\
       merged lim f g c /\ (forall x, c x = cof m x) /\
       (forall x, In x (map fst m) <-> In x (map fst occ1) \/ In x (map fst occ2))).
  Proof.
    intros Of Og L K1 U1 E1 C1 K2 U2 E2 C2 Wf Wg. rewrite U1, U2.
    destruct (u_merge_w_spec a lim L h site_merge occ1 occ2 K1 K2) as [(<- & E)|(N & X)].
    - right. split.
      + intros (_ & (N & _)). apply N. unfold same_counts. congruence.
      + exists occ1, (count_in f). split; [exact K1|]. split; [exact E|]. split.
        * left. split; [unfold same_counts; congruence|reflexivity].
        * split; [exact C1|tauto].
    - assert (Nq : ~ same_counts f g) by (unfold same_counts; congruence).
      assert (Wi : forall x, cof occ1 x < lim) by (intros x; rewrite <- C1; apply Wf).
      destruct (u_merge_w a lim h site_merge (univ_of occ1) (univ_of occ2)) as [u|].
      + right. destruct X as (m & Km & -> & G & Ck). split.
        * intros (A & (_ & x & Lx)). rewrite C1, C2 in Lx.
          destruct (map_get occ2 x) as [d|] eqn:Ed.
          -- specialize (Ck A x d Ed). unfold cof in Lx. rewrite Ed in Lx. cbn in Lx. lia.
          -- unfold cof at 2 in Lx. rewrite Ed in Lx. cbn in Lx. specialize (Wi x). lia.
        * exists m, (cof m). split; [exact Km|]. split; [reflexivity|]. split; [|split; [reflexivity|]].
          -- right. split; [exact Nq|]. intros x. rewrite C1, C2. apply wmerged_cof; auto.
          -- intros x. rewrite (keys_get m x Km), (keys_get occ1 x K1), (keys_get occ2 x K2), G. unfold wmerged.
             destruct (map_get occ2 x) as [d|]; [split; [right|]; discriminate|]. tauto.
      + left. destruct X as (A & x & d & Ed & Lx). split; [exact A|]. split; [|reflexivity].
        split; [exact Nq|]. exists x. rewrite C1, C2. unfold cof. rewrite Ed. exact Lx.
  Qed.

  (** what a binary operation does once the universes are merged *)
  Lemma binop_w_any a lim h f g (op : node -> node -> option node) : origin f -> origin g -> 0 < lim ->
    within lim f -> within lim g ->
    (forall r1 r2, zwf 0 r1 -> zwf 0 r2 -> exists r, op r1 r2 = Some r) ->
    (f_binop_w a lim op h f g = None <-> ~ (indexed f /\ indexed g) \/ (a = Checked /\ overflows lim f g)) /\
    (f_binop_w a lim op h f g <> None -> exists m c r1 r2, map_ok m /\ merged lim f g c /\ (forall x, c x = cof m x) /\
       zwf 0 r1 /\ zwf 0 r2 /\ knownt m r1 /\ knownt m r2 /\
       resorted (count_in f) c (tl_ f) (fam m r1) /\ resorted (count_in g) c (tl_ g) (fam m r2) /\
       (keeps_order f c -> forall t, In t (fam m r1) <-> In t (tl_ f)) /\
       (keeps_order g c -> forall t, In t (fam m r2) <-> In t (tl_ g)) /\
       (same_counts f g -> f_root f = r1 /\ f_root g = r2) /\
       f_binop_w a lim op h f g = let! root := op r1 r2 in f_canonical h root (univ_of m)).
  Proof.
    intros Of Og L Wf Wg Op.
    destruct (origin_sound f Of) as (occ1 & K1 & U1 & W1 & E1 & C1 & I1).
    destruct (origin_sound g Og) as (occ2 & K2 & U2 & W2 & E2 & C2 & I2).
    destruct (merge_any a lim h f g occ1 occ2 Of Og L K1 U1 E1 C1 K2 U2 E2 C2 Wf Wg)
      as [(A & Ov & E)|(No & m & c & Km & E & Mc & Ec & Kk)].
    - assert (X : f_binop_w a lim op h f g = None) by (unfold f_binop_w, translate_roots_w; rewrite E; reflexivity).
      split; [split; auto|]. intros N. contradiction.
    - assert (S1 : forall x, In x (map fst occ1) -> In x (map fst m)) by (intros x J; apply (Kk x); auto).
      assert (S2 : forall x, In x (map fst occ2) -> In x (map fst m)) by (intros x J; apply (Kk x); auto).
      assert (Eb : f_binop_w a lim op h f g =
        (let! r1 := translate_root (f_univ f) (univ_of m) (f_root f) in
         let! r2 := translate_root (f_univ g) (univ_of m) (f_root g) in
         let! root := op r1 r2 in f_canonical h root (univ_of m))).
      { unfold f_binop_w, translate_roots_w. rewrite E. cbn [bind].
        destruct (translate_root (f_univ f) (univ_of m) (f_root f)) as [r1|]; [|reflexivity]. cbn [bind].
        destruct (translate_root (f_univ g) (univ_of m) (f_root g)) as [r2|]; reflexivity. }
      assert (Ix : f_binop_w a lim op h f g <> None -> indexed f /\ indexed g).
      { rewrite Eb. intros N. rewrite I1, I2. unfold sound.
        destruct (translate_root (f_univ f) (univ_of m) (f_root f)) as [r1|] eqn:R1; [|contradiction]. cbn [bind] in N.
        destruct (translate_root (f_univ g) (univ_of m) (f_root g)) as [r2|] eqn:R2; [|contradiction].
        rewrite U1 in R1. rewrite U2 in R2.
        pose proof (translate_indexed occ1 (univ_of m) (f_root f) r1 K1 R1).
        pose proof (translate_indexed occ2 (univ_of m) (f_root g) r2 K2 R2). auto. }
      assert (Ok : indexed f /\ indexed g -> exists r1 r2, zwf 0 r1 /\ zwf 0 r2 /\ knownt m r1 /\ knownt m r2 /\
         resorted (count_in f) c (tl_ f) (fam m r1) /\ resorted (count_in g) c (tl_ g) (fam m r2) /\
       (keeps_order f c -> forall t, In t (fam m r1) <-> In t (tl_ f)) /\
       (keeps_order g c -> forall t, In t (fam m r2) <-> In t (tl_ g)) /\
       (same_counts f g -> f_root f = r1 /\ f_root g = r2) /\
       f_binop_w a lim op h f g = let! root := op r1 r2 in f_canonical h root (univ_of m)).
      { intros (J1 & J2). apply I1 in J1. apply I2 in J2.
        destruct (translate_any occ1 m f c J1 Km S1 Ec) as (r1 & R1 & X1 & Y1 & Z1).
        destruct (translate_any occ2 m g c J2 Km S2 Ec) as (r2 & R2 & X2 & Y2 & Z2).
        assert (RE : forall (c1 c1' c2 : T -> nat) ts es, (forall x, c1 x = c1' x) -> resorted c1 c2 ts es -> resorted c1' c2 ts es).
        { intros c1 c1' c2 ts es Q R. induction R as [fs es N Q'|x fs l h0 es Ld Ra IHa Rb IHb P].
          - apply resorted_done; auto.
          - eapply resorted_split; eauto. destruct Ld as (D1 & D2). split; [exact D1|].
            intros t z J Z. destruct (D2 t z J Z) as [D|D]; [auto|right]. apply (before_same c1 c1' x z Q). exact D. }
        exists r1, r2. split; [exact X1|]. split; [exact X2|]. split; [exact Y1|]. split; [exact Y2|].
        split; [apply (RE (cof occ1)); auto|]. split; [apply (RE (cof occ2)); auto|]. split; [|split; [|split]].
        - intros Ko. eapply (translate_kept_any occ1 m f c r1 J1 Km S1 Ec); [|exact R1].
          intros t x y J Jx Jy B. apply (Ko (tl_ f) t x y); auto; [apply f_trees_tl|].
          apply (before_same (count_in f) (cof occ1) x y C1). exact B.
        - intros Ko. eapply (translate_kept_any occ2 m g c r2 J2 Km S2 Ec); [|exact R2].
          intros t x y J Jx Jy B. apply (Ko (tl_ g) t x y); auto; [apply f_trees_tl|].
          apply (before_same (count_in g) (cof occ2) x y C2). exact B.
        - intros Sc. unfold same_counts in Sc. assert (Eo : occ2 = occ1) by congruence. clear E1 E2. subst occ2.
          rewrite U1 in R1, E. rewrite U2 in R2, E.
          destruct (u_merge_w_spec a lim L h site_merge occ1 occ1 K1 K1) as [(_ & E')|(N & _)]; [|contradiction].
          assert (Em : univ_of occ1 = univ_of m) by congruence.
          assert (Eo : m = occ1) by (apply (f_equal (@u_occ T)) in Em; symmetry; exact Em). clear Em. subst m.
          rewrite (translate_id occ1 occ1 K1 K1 S1 (f_root f) 0 eq_refl W1) in R1 by apply J1.
          rewrite (translate_id occ1 occ1 K1 K1 S1 (f_root g) 0 eq_refl W2) in R2 by apply J2.
          injection R1 as <-. injection R2 as <-. auto.
        - rewrite Eb, R1, R2. reflexivity. }
      assert (Nn : indexed f /\ indexed g -> f_binop_w a lim op h f g <> None).
      { intros J. destruct (Ok J) as (r1 & r2 & X1 & X2 & Y1 & Y2 & _ & _ & _ & _ & _ & Q). rewrite Q.
        destruct (Op r1 r2 X1 X2) as (r & Er). rewrite Er. cbn [bind].
        unfold f_canonical. rewrite node_trees_paths. cbn [bind].
        destruct (many_spec h (map (get_items (univ_of m)) (paths r))) as (q & o & Eq & _). rewrite Eq. discriminate. }
      split.
      + split; [|intros [Ni|Ov]; [|contradiction]].
        * intros N. left. intros J. exact (Nn J N).
        * destruct (f_binop_w a lim op h f g) eqn:Q; [|reflexivity]. exfalso. apply Ni, Ix. discriminate.
      + intros N. destruct (Ok (Ix N)) as (r1 & r2 & X). exists m, c, r1, r2. tauto.
  Qed.
  Lemma canonical_Reach h root (u : universe T) r : f_canonical h root u = Some r -> Reach r.
  Proof. unfold f_canonical. rewrite node_trees_paths. cbn [bind]. intros E. exact (R_many h _ r E). Qed.
  Lemma op_union r1 r2 : zwf 0 r1 -> zwf 0 r2 -> exists r, union r1 r2 = Some r.
  Proof. intros A B. destruct (union_spec r1 r2 0 A B) as (r & E & _). eauto. Qed.
  Lemma op_intersect r1 r2 : zwf 0 r1 -> zwf 0 r2 -> exists r, intersect r1 r2 = Some r.
  Proof. intros A B. destruct (intersect_spec r1 r2 0 A B) as (r & E & _). eauto. Qed.
  Lemma op_product r1 r2 : zwf 0 r1 -> zwf 0 r2 -> exists r, product r1 r2 = Some r.
  Proof. intros A B. destruct (product_spec r1 r2 0 A B) as (r & E & _). eauto. Qed.
  Lemma canonical_hash h h' root m : map_ok m -> zwf 0 root -> knownt m root ->
    f_canonical h root (univ_of m) = f_canonical h' root (univ_of m).
  Proof.
    intros K W L. destruct (canonical_spec h root m K W L) as (q & E & C & Q).
    destruct (canonical_spec h' root m K W L) as (q' & E' & C' & Q'). rewrite E, E'. f_equal.
    apply Canon_ext; auto. intros t. rewrite (Q t), (Q' t). reflexivity.
  Qed.
  Lemma map_same (m m' : list (T * nat)) : map_ok m -> map_ok m' ->
    (forall x, In x (map fst m) <-> In x (map fst m')) -> (forall x, cof m x = cof m' x) -> m = m'.
  Proof.
    intros K K' Q C. apply amap_ext; auto. intros x. specialize (Q x). specialize (C x).
    rewrite (keys_get m x K), (keys_get m' x K') in Q. unfold cof in C.
    destruct (map_get m x) as [c|], (map_get m' x) as [d|]; cbn in C; try congruence.
    - exfalso. apply (proj1 Q); congruence.
    - exfalso. apply (proj2 Q); congruence.
  Qed.
  Lemma overflows_sym lim f g : overflows lim f g <-> overflows lim g f.
  Proof.
    unfold overflows, same_counts. split; intros (N & x & L); (split; [congruence|]); exists x; lia.
  Qed.
  Lemma merged_sym lim f g c c' : merged lim f g c -> merged lim g f c' ->
    (forall x, same_counts f g -> count_in f x = count_in g x) -> forall x, c x = c' x.
  Proof.
    intros [(S1 & E1)|(S1 & E1)] [(S2 & E2)|(S2 & E2)] Q x; unfold same_counts in *; try congruence.
    - rewrite E1, E2. auto.
    - rewrite E1, E2. f_equal. lia.
  Qed.
  Lemma same_counts_count f g x : same_counts f g -> count_in f x = count_in g x.
  Proof. unfold same_counts, count_in. intros ->. reflexivity. Qed.

  Lemma merge_w_comm a lim h h' f g : origin f -> origin g -> 0 < lim -> within lim f -> within lim g ->
    u_merge_w a lim h site_merge (f_univ f) (f_univ g) = u_merge_w a lim h' site_merge (f_univ g) (f_univ f).
  Proof.
    intros Of Og L Wf Wg.
    destruct (origin_sound f Of) as (occ1 & K1 & U1 & W1 & E1 & C1 & I1).
    destruct (origin_sound g Og) as (occ2 & K2 & U2 & W2 & E2 & C2 & I2).
    destruct (merge_any a lim h f g occ1 occ2 Of Og L K1 U1 E1 C1 K2 U2 E2 C2 Wf Wg)
      as [(A & Ov & E)|(No & m & c & Km & E & Mc & Ec & Kk)];
    destruct (merge_any a lim h' g f occ2 occ1 Og Of L K2 U2 E2 C2 K1 U1 E1 C1 Wg Wf)
      as [(A' & Ov' & E')|(No' & m' & c' & Km' & E' & Mc' & Ec' & Kk')]; rewrite E, E'.
    - reflexivity.
    - exfalso. apply No'. split; [exact A|]. apply overflows_sym, Ov.
    - exfalso. apply No. split; [exact A'|]. apply overflows_sym, Ov'.
    - do 2 f_equal. apply map_same; auto.
      + intros x. rewrite (Kk x), (Kk' x). tauto.
      + intros x. rewrite <- Ec, <- Ec'. apply (merged_sym lim f g c c' Mc Mc').
        intros z. apply same_counts_count.
  Qed.

  (** without overflow the words do not matter *)
  Lemma merge_w_fits a lim h f g : origin f -> origin g -> 0 < lim -> within lim f -> within lim g ->
    ~ overflows lim f g ->
    u_merge_w a lim h site_merge (f_univ f) (f_univ g) = Some (u_merge h site_merge (f_univ f) (f_univ g)).
  Proof.
    intros Of Og L Wf Wg Nov.
    destruct (origin_sound f Of) as (occ1 & K1 & U1 & W1 & E1 & C1 & I1).
    destruct (origin_sound g Og) as (occ2 & K2 & U2 & W2 & E2 & C2 & I2).
    destruct (merge_any a lim h f g occ1 occ2 Of Og L K1 U1 E1 C1 K2 U2 E2 C2 Wf Wg)
      as [(A & Ov & E)|(No & m & c & Km & E & Mc & Ec & Kk)]; [contradiction|]. rewrite E. f_equal.
    rewrite U1, U2. destruct (u_merge_spec h site_merge occ1 occ2 K1 K2) as [(Eo & E')|(N & m' & Km' & E' & G)]; rewrite E'.
    - f_equal. apply map_same; auto.
      + intros x. rewrite (Kk x), <- Eo. tauto.
      + intros x. rewrite <- Ec. destruct Mc as [(_ & X)|(X & _)]; [rewrite X; apply C1|].
        exfalso. apply X. unfold same_counts. congruence.
    - assert (Ns : ~ same_counts f g) by (unfold same_counts; congruence).
      f_equal. apply map_same; auto.
      + intros x. rewrite (Kk x), (keys_get m' x Km'), (keys_get occ1 x K1), (keys_get occ2 x K2), G.
        destruct (map_get occ1 x), (map_get occ2 x); cbn; split; try tauto; try discriminate; intros; left; discriminate.
      + intros x. rewrite <- Ec. destruct Mc as [(X & _)|(_ & X)]; [contradiction|]. rewrite X, C1, C2.
        rewrite Nat.mod_small.
        * unfold cof. rewrite G. destruct (map_get occ1 x), (map_get occ2 x); cbn; lia.
        * destruct (Nat.lt_ge_cases (cof occ1 x + cof occ2 x) lim) as [Y|Y]; [exact Y|].
          exfalso. apply Nov. split; [exact Ns|]. exists x. rewrite C1, C2. exact Y.
  Qed.
  Lemma binop_w_fits a lim h f g op : origin f -> origin g -> 0 < lim -> within lim f -> within lim g ->
    ~ overflows lim f g -> f_binop_w a lim op h f g = f_binop op h f g.
  Proof.
    intros Of Og L Wf Wg Nov. unfold f_binop_w, f_binop, translate_roots_w, translate_roots.
    rewrite (merge_w_fits a lim h f g Of Og L Wf Wg Nov). reflexivity.
  Qed.
  Lemma count_in_built f ts x : Reach f -> f_trees f = Some ts -> count_in f x = count ts x /\ count ts x <= length ts.
  Proof.
    intros R E. rewrite f_trees_tl in E. injection E as <-.
    destruct (Reach_Canon f R) as (occ & Hc). pose proof (c_ok _ _ Hc) as K. split.
    - unfold count_in. rewrite (occurrences_eq ho_id f occ Hc).
      pose proof (find_map_get occ occ x K (Permutation_refl _)) as F. pose proof (c_cnt _ _ Hc x) as C.
      destruct (find (fun p => eqb_ x (fst p)) occ) as [[y k]|]; cbn in F.
      + rewrite <- F in C. destruct (count (tl_ f) x); cbn in C; congruence.
      + rewrite <- F in C. destruct (count (tl_ f) x); cbn in C; congruence.
    - generalize (tl_ f). induction l as [|t l IH]; cbn; [lia|]. destruct (memb x t); lia.
  Qed.

  Lemma binop_w_comm a lim h h' f g op : (forall r1 r2, zwf 0 r1 -> zwf 0 r2 -> exists r, op r1 r2 = Some r /\ zwf 0 r /\
      forall (m : list (T * nat)), knownt m r1 -> knownt m r2 -> knownt m r) ->
    (forall r1 r2, zwf 0 r1 -> zwf 0 r2 -> op r1 r2 = op r2 r1) ->
    origin f -> origin g -> 0 < lim -> within lim f -> within lim g ->
    f_binop_w a lim op h f g = f_binop_w a lim op h' g f.
  Proof.
    intros Op Cm Of Og L Wf Wg. unfold f_binop_w, translate_roots_w.
    rewrite (merge_w_comm a lim h h' f g Of Og L Wf Wg).
    destruct (origin_sound f Of) as (occ1 & K1 & U1 & W1 & E1 & C1 & I1).
    destruct (origin_sound g Og) as (occ2 & K2 & U2 & W2 & E2 & C2 & I2).
    destruct (merge_any a lim h' g f occ2 occ1 Og Of L K2 U2 E2 C2 K1 U1 E1 C1 Wg Wf)
      as [(A & Ov & E)|(No & m & c & Km & E & Mc & Ec & Kk)]; rewrite E; [reflexivity|]. cbn [bind].
    assert (S1 : forall x, In x (map fst occ1) -> In x (map fst m)) by (intros x J; apply (Kk x); auto).
    assert (S2 : forall x, In x (map fst occ2) -> In x (map fst m)) by (intros x J; apply (Kk x); auto).
    destruct (translate_root (f_univ f) (univ_of m) (f_root f)) as [r1|] eqn:R1;
    destruct (translate_root (f_univ g) (univ_of m) (f_root g)) as [r2|] eqn:R2; try reflexivity. cbn [bind].
    assert (J1 : sound occ1 f).
    { split; [exact K1|]. split; [exact U1|]. split; [exact W1|]. rewrite U1 in R1.
      exact (translate_indexed occ1 (univ_of m) (f_root f) r1 K1 R1). }
    assert (J2 : sound occ2 g).
    { split; [exact K2|]. split; [exact U2|]. split; [exact W2|]. rewrite U2 in R2.
      exact (translate_indexed occ2 (univ_of m) (f_root g) r2 K2 R2). }
    destruct (translate_any occ1 m f c J1 Km S1 Ec) as (r1' & R1' & X1 & Y1 & _). assert (r1' = r1) by congruence. subst r1'.
    destruct (translate_any occ2 m g c J2 Km S2 Ec) as (r2' & R2' & X2 & Y2 & _). assert (r2' = r2) by congruence. subst r2'.
    rewrite (Cm r1 r2 X1 X2). destruct (Op r2 r1 X2 X1) as (r & Er & Wr & Kr). rewrite Er. cbn [bind].
    apply canonical_hash; auto.
  Qed.
End C88.

(** C88.  The three binary operations on any two forests, built or loaded. *)
(** when they panic *)
Lemma C88_panics_pf : forall (T : Type) (O : Ord T) (lim : nat) (h : hash_order) (f g : forest T),
  0 < lim -> origin f -> origin g -> within lim f -> within lim g ->
  (f_union_w Checked lim h f g = None <-> ~ (indexed f /\ indexed g) \/ overflows lim f g) /\
  (f_intersect_w Checked lim h f g = None <-> ~ (indexed f /\ indexed g) \/ overflows lim f g) /\
  (f_product_w Checked lim h f g = None <-> ~ (indexed f /\ indexed g) \/ overflows lim f g) /\
  (f_union_w Wrapping lim h f g = None <-> ~ (indexed f /\ indexed g)) /\
  (f_intersect_w Wrapping lim h f g = None <-> ~ (indexed f /\ indexed g)) /\
  (f_product_w Wrapping lim h f g = None <-> ~ (indexed f /\ indexed g)).
Proof.
  intros T O lim h f g L Of Og Wf Wg.
  assert (A : forall op, (forall r1 r2, zwf 0 r1 -> zwf 0 r2 -> exists r, op r1 r2 = Some r) ->
    (f_binop_w Checked lim op h f g = None <-> ~ (indexed f /\ indexed g) \/ overflows lim f g) /\
    (f_binop_w Wrapping lim op h f g = None <-> ~ (indexed f /\ indexed g))).
  { intros op Op. destruct (binop_w_any Checked lim h f g op Of Og L Wf Wg Op) as (X & _).
    destruct (binop_w_any Wrapping lim h f g op Of Og L Wf Wg Op) as (Y & _).
    rewrite X, Y. intuition congruence. }
  destruct (A union op_union) as (A1 & A2). destruct (A intersect op_intersect) as (B1 & B2).
  destruct (A product op_product) as (C1 & C2). unfold f_union_w, f_intersect_w, f_product_w.
  split; [exact A1|]. split; [exact B1|]. split; [exact C1|]. split; [exact A2|]. split; [exact B2|exact C2].
Qed.

(** while the counts add up within the word they do what they do with unbounded
    counts; two forests built by the API never get near *)
Lemma C88_fits_pf : forall (T : Type) (O : Ord T) (a : arith) (lim : nat) (h : hash_order) (f g : forest T),
  0 < lim -> origin f -> origin g -> within lim f -> within lim g -> ~ overflows lim f g ->
  f_union_w a lim h f g = f_union h f g /\ f_intersect_w a lim h f g = f_intersect h f g /\
  f_product_w a lim h f g = f_product h f g.
Proof.
  intros T O a lim h f g L Of Og Wf Wg N. split; [|split]; apply binop_w_fits; auto.
Qed.
Lemma C88_built_pf : forall (T : Type) (O : Ord T) (a : arith) (lim : nat) (h : hash_order) (f g : forest T) tf tg,
  Reach f -> Reach g -> f_trees f = Some tf -> f_trees g = Some tg -> length tf + length tg < lim ->
  f_union_w a lim h f g = f_union h f g /\ f_intersect_w a lim h f g = f_intersect h f g /\
  f_product_w a lim h f g = f_product h f g /\ f_union_w a lim h f g <> None.
Proof.
  intros T O a lim h f g tf tg Rf Rg Ef Eg L.
  destruct (C88_fits_pf T O a lim h f g) as (A & B & C).
  - lia.
  - left; exact Rf.
  - left; exact Rg.
  - intros x. destruct (count_in_built f tf x Rf Ef). lia.
  - intros x. destruct (count_in_built g tg x Rg Eg). lia.
  - intros (_ & x & Lx). destruct (count_in_built f tf x Rf Ef). destruct (count_in_built g tg x Rg Eg). lia.
  - rewrite A, B, C. split; [reflexivity|]. split; [reflexivity|]. split; [reflexivity|].
    destruct (f_union_spec h f g (Reach_Canon f Rf) (Reach_Canon g Rg)) as (r & E & _). congruence.
Qed.

(** what they list: the trees of both forests, their items re-ordered by the merged
    counts, then joined, met or combined *)
Lemma C88_union_exact_pf : forall (T : Type) (O : Ord T) (a : arith) (lim : nat) (h : hash_order) (f g r : forest T) tf tg,
  0 < lim -> origin f -> origin g -> within lim f -> within lim g ->
  f_trees f = Some tf -> f_trees g = Some tg -> f_union_w a lim h f g = Some r ->
  Reach r /\ exists c ef eg tr, merged lim f g c /\
    resorted (count_in f) c tf ef /\ resorted (count_in g) c tg eg /\ f_trees r = Some tr /\
    (forall t, In t tr <-> t <> [] /\ (In t ef \/ In t eg)) /\
    (keeps_order f c -> keeps_order g c -> forall t, In t tr <-> t <> [] /\ (In t tf \/ In t tg)).
Proof.
  intros T O a lim h f g r tf tg L Of Og Wf Wg Ef Eg E. rewrite f_trees_tl in Ef, Eg.
  injection Ef as <-. injection Eg as <-. unfold f_union_w in E.
  destruct (binop_w_any a lim h f g union Of Og L Wf Wg op_union) as (_ & X).
  destruct X as (m & c & r1 & r2 & Km & Mc & Ec & W1 & W2 & K1 & K2 & R1 & R2 & P1 & P2 & _ & Q); [congruence|].
  destruct (union_any m Km r1 r2 W1 W2 K1 K2 h) as (n & q & En & Eq & S_).
  rewrite Q, En in E. cbn [bind] in E. split; [eapply canonical_Reach; exact E|].
  assert (q = r) by congruence. subst q.
  exists c, (fam m r1), (fam m r2), (tl_ r). split; [exact Mc|]. split; [exact R1|]. split; [exact R2|].
  split; [apply f_trees_tl|]. split; [exact S_|]. intros O1 O2 t. rewrite (S_ t), (P1 O1 t), (P2 O2 t). reflexivity.
Qed.
Lemma C88_intersect_exact_pf : forall (T : Type) (O : Ord T) (a : arith) (lim : nat) (h : hash_order) (f g r : forest T) tf tg,
  0 < lim -> origin f -> origin g -> within lim f -> within lim g ->
  f_trees f = Some tf -> f_trees g = Some tg -> f_intersect_w a lim h f g = Some r ->
  Reach r /\ exists c ef eg tr, merged lim f g c /\
    resorted (count_in f) c tf ef /\ resorted (count_in g) c tg eg /\ f_trees r = Some tr /\
    (forall t, In t tr <-> t <> [] /\ met c ef eg t) /\
    (keeps_order f c -> keeps_order g c -> forall t, In t tr <-> t <> [] /\ met c tf tg t).
Proof.
  intros T O a lim h f g r tf tg L Of Og Wf Wg Ef Eg E. rewrite f_trees_tl in Ef, Eg.
  injection Ef as <-. injection Eg as <-. unfold f_intersect_w in E.
  destruct (binop_w_any a lim h f g intersect Of Og L Wf Wg op_intersect) as (_ & X).
  destruct X as (m & c & r1 & r2 & Km & Mc & Ec & W1 & W2 & K1 & K2 & R1 & R2 & P1 & P2 & _ & Q); [congruence|].
  destruct (intersect_any m c Km Ec r1 r2 W1 W2 K1 K2 h) as (n & q & En & Eq & S_).
  rewrite Q, En in E. cbn [bind] in E. split; [eapply canonical_Reach; exact E|].
  assert (q = r) by congruence. subst q.
  exists c, (fam m r1), (fam m r2), (tl_ r). split; [exact Mc|]. split; [exact R1|]. split; [exact R2|].
  split; [apply f_trees_tl|]. split; [exact S_|]. intros O1 O2 t. rewrite (S_ t).
  rewrite (met_ext c (fam m r1) (tl_ f) (fam m r2) (tl_ g) t (P1 O1) (P2 O2)). reflexivity.
Qed.
Lemma C88_product_exact_pf : forall (T : Type) (O : Ord T) (a : arith) (lim : nat) (h : hash_order) (f g r : forest T) tf tg,
  0 < lim -> origin f -> origin g -> within lim f -> within lim g ->
  f_trees f = Some tf -> f_trees g = Some tg -> f_product_w a lim h f g = Some r ->
  Reach r /\ exists c ef eg tr, merged lim f g c /\
    resorted (count_in f) c tf ef /\ resorted (count_in g) c tg eg /\ f_trees r = Some tr /\
    (forall t, t <> [] -> (has_set tr t <-> exists x y, In x ef /\ In y eg /\ is_union t x y /\
       (forall k, same_rest c k ef x eg y -> agree_after c k x y))).
Proof.
  intros T O a lim h f g r tf tg L Of Og Wf Wg Ef Eg E. rewrite f_trees_tl in Ef, Eg.
  injection Ef as <-. injection Eg as <-. unfold f_product_w in E.
  destruct (binop_w_any a lim h f g product Of Og L Wf Wg op_product) as (_ & X).
  destruct X as (m & c & r1 & r2 & Km & Mc & Ec & W1 & W2 & K1 & K2 & R1 & R2 & P1 & P2 & _ & Q); [congruence|].
  destruct (product_any m c Km Ec r1 r2 W1 W2 K1 K2 h) as (n & q & En & Eq & S_).
  rewrite Q, En in E. cbn [bind] in E. split; [eapply canonical_Reach; exact E|].
  assert (q = r) by congruence. subst q.
  exists c, (fam m r1), (fam m r2), (tl_ r). split; [exact Mc|]. split; [exact R1|]. split; [exact R2|].
  split; [apply f_trees_tl|exact S_].
Qed.
(** the re-ordered trees are determined by the forest and the two orders *)
Lemma C88_determined_pf : forall (T : Type) (O : Ord T) (c c' : T -> nat) (ts es es' : list (list T)),
  resorted c c' ts es -> resorted c c' ts es' -> forall t, In t es <-> In t es'.
Proof. intros T O c c' ts es es' A B. eapply resorted_fun; [exact A| |exact B]. reflexivity. Qed.

(** argument order and hash order do not matter, whatever the counts *)
Lemma C88_commutes_pf : forall (T : Type) (O : Ord T) (a : arith) (lim : nat) (h h' : hash_order) (f g : forest T),
  0 < lim -> origin f -> origin g -> within lim f -> within lim g ->
  f_union_w a lim h f g = f_union_w a lim h' g f /\
  f_intersect_w a lim h f g = f_intersect_w a lim h' g f /\
  f_product_w a lim h f g = f_product_w a lim h' g f.
Proof.
  intros T O a lim h h' f g L Of Og Wf Wg. split; [|split]; apply binop_w_comm; auto.
  - intros r1 r2 A B. destruct (union_spec r1 r2 0 A B) as (r & E & W & P). exists r. split; [exact E|]. split; [exact W|].
    intros m X Y p J. apply P in J. destruct J; auto.
  - intros r1 r2 A B. apply union_comm_node; auto.
  - intros r1 r2 A B. destruct (intersect_exact r1 r2 0 A B) as (r & E & W & P). exists r. split; [exact E|]. split; [exact W|].
    intros m X Y p J. apply P in J. destruct J as [(J & _)|[(J & _)|(J & _)]]; auto.
  - intros r1 r2 A B. apply intersect_comm_node.
  - intros r1 r2 A B. destruct (product_exact r1 r2 0 A B) as (r & E & W & P). exists r. split; [exact E|]. split; [exact W|].
    intros m X Y p J. pose proof (zwf_paths _ _ _ W J) as As. apply (P p As) in J.
    destruct J as (u & v & U & V & Jn & _). intros x Z. apply Jn in Z. destruct Z as [Z|Z]; [apply (X u U)|apply (Y v V)]; exact Z.
  - intros r1 r2 A B. eapply product_comm_node; eauto.
Qed.

(** a forest combined with itself, or with one of the same counts, is never re-ordered *)
Lemma C88_self_pf : forall (T : Type) (O : Ord T) (a : arith) (lim : nat) (h : hash_order) (f : forest T) tf,
  0 < lim -> origin f -> within lim f -> indexed f -> f_trees f = Some tf ->
  exists r tr, f_union_w a lim h f f = Some r /\ f_intersect_w a lim h f f = Some r /\ f_product_w a lim h f f = Some r /\
    f_trees r = Some tr /\ forall t, In t tr <-> t <> [] /\ In t tf.
Proof.
  intros T O a lim h f tf L Of Wf If Ef. rewrite f_trees_tl in Ef. injection Ef as <-.
  destruct (origin_sound f Of) as (occ & K & U & W & E & C & I1). apply I1 in If. pose proof If as (_ & _ & _ & Kl).
  assert (Q : forall op, op (f_root f) (f_root f) = Some (f_root f) -> f_binop_w a lim op h f f = f_canonical h (f_root f) (univ_of occ)).
  { intros op Eo. unfold f_binop_w, translate_roots_w. rewrite U.
    destruct (u_merge_w_spec a lim L h site_merge occ occ K K) as [(_ & Em)|(N & _)]; [|contradiction].
    rewrite Em. cbn [bind]. rewrite (translate_id occ occ K K (fun x J => J) (f_root f) 0 eq_refl W Kl). cbn [bind].
    rewrite Eo. reflexivity. }
  destruct (canonical_spec h (f_root f) occ K W (known_knownt occ _ Kl)) as (r & Er & _ & Tr).
  exists r, (tl_ r). unfold f_union_w, f_intersect_w, f_product_w. rewrite !Q.
  - split; [exact Er|]. split; [exact Er|]. split; [exact Er|]. split; [apply f_trees_tl|].
    intros t. rewrite (Tr t), <- (sound_fam occ f If), fam_in. reflexivity.
  - destruct (product_exact (f_root f) (f_root f) 0 W W) as (q & Eq & Wq & Pq). rewrite Eq. f_equal.
    apply (canonicity 0); auto. intros s. split; intros J.
    + pose proof (zwf_paths _ _ _ Wq J) as As. apply (Pq s As) in J. exact (proj1 (prod_exact_diag 0 (f_root f) s W As) J).
    + pose proof (zwf_paths _ _ _ W J) as As. apply (Pq s As). exact (proj2 (prod_exact_diag 0 (f_root f) s W As) J).
  - destruct (intersect_exact (f_root f) (f_root f) 0 W W) as (q & Eq & Wq & Pq). rewrite Eq. f_equal.
    apply (canonicity 0); auto. intros s. rewrite (Pq s). apply int_exact_diag.
  - destruct (union_spec (f_root f) (f_root f) 0 W W) as (q & Eq & Wq & Pq). rewrite Eq. f_equal.
    apply (canonicity 0); auto. intros s. rewrite (Pq s). tauto.
Qed.

(** subset_none of a loaded forest *)
Lemma C88_subset_none_pf : forall (T : Type) (O : Ord T) (h : hash_order) (f : forest T) (e : T) (es : list T) tf,
  origin f -> indexed f -> f_trees f = Some tf ->
  exists r tr, f_subset_none h f (e :: es) = Some r /\ f_trees r = Some tr /\
    ((exists x, In x (e :: es) /\ ~ In x (map fst (f_occurrences ho_id f))) -> r = f) /\
    ((forall x, In x (e :: es) -> In x (map fst (f_occurrences ho_id f))) ->
       exists gs, met_all (count_in f) tf [[]] (e :: es) gs /\ forall t, In t tr <-> t <> [] /\ In t gs).
Proof.
  intros T O h f e es tf Of If Ef. rewrite f_trees_tl in Ef. injection Ef as <-.
  destruct (origin_sound f Of) as (occ & K & U & W & E & C & I1). apply I1 in If. pose proof If as (_ & _ & _ & Kl).
  rewrite E. unfold f_subset_none, f_subset_many. set (l := e :: es).
  assert (Pn : forall x, get_priority (f_univ f) x <> None <-> In x (map fst occ)).
  { intros x. rewrite U. pose proof (get_priority_none occ x K) as X. destruct (in_dec_ x (map fst occ)); tauto. }
  destruct (Nat.eqb_spec (length l) (length (get_priorities (f_univ f) l))) as [El|El]; cbn [negb].
  - rewrite priorities_length_any in El.
    destruct (none_fold_any f occ If l (Leaf true) I) as (r & Er & Wr & Kr & M); [intros p [<-|[]] q []|exact El|].
    unfold node_subset_none. rewrite Er. cbn [bind]. rewrite U.
    destruct (canonical_spec h r occ K Wr Kr) as (q & Eq & _ & Tq). exists q, (tl_ q).
    split; [exact Eq|]. split; [apply f_trees_tl|]. split.
    + intros (x & J & N). exfalso. apply N, Pn, El, J.
    + intros _. exists (fam occ r). split.
      * assert (X : forall es0 fs tr, met_all (cof occ) (tl_ f) fs es0 tr -> met_all (count_in f) (tl_ f) fs es0 tr).
        { assert (Me : forall c c' fs gs t, (forall x, c x = c' x) -> met c fs gs t -> met c' fs gs t).
          { clear. intros c c' fs gs t Q. assert (Bs : forall k x, upto c k x <-> upto c' k x).
            { intros [b|] x; cbn; [|tauto]. rewrite (before_same c c' x b Q). tauto. }
            assert (Ea : forall us, ends_along c us t -> ends_along c' us t).
            { intros us (k & (g & G & A) & B). exists k. split.
              - exists g. split; [exact G|]. intros x X. apply A, Bs, X.
              - intros g' x G' A' J. apply Bs. eapply B; eauto. intros z Z. apply A', Bs, Z. }
            unfold met. intuition. }
          induction es0 as [|e0 es0 IH]; intros fs tr; cbn [met_all]; [auto|].
          intros (gs & G & M'). exists gs. split; [|apply IH; exact M'].
          intros t. rewrite (G t). split; apply Me; intros x; [symmetry|]; apply C. }
        apply X in M. exact M.
      * intros t. rewrite (Tq t), fam_in. reflexivity.
  - exists f, (tl_ f). split; [reflexivity|]. split; [apply f_trees_tl|]. split; [reflexivity|].
    intros A. exfalso. apply El, priorities_length_any. intros x J. apply Pn, A, J.
Qed.

(** Two loaded forests that list [1;2], [1] and [1], the counts of item 1 being 2 and
    14.  With words of 16 values and overflow checks their union panics; without
    checks item 1 counts 0, is moved behind item 2, and the union also lists [2],
    which neither forest does.  With words of 17 values the sum fits. *)
Definition ex88 (text : list N) (occ : list (nat * nat)) : forest nat :=
  match f_deserialize ho_id (text, occ) with Some f => f | None => f_empty end.
Definition ex88_f := ex88 [40;48;32;40;78;41;32;40;49;32;40;65;41;32;40;65;41;41;41]%N [(1, 2); (2, 1)].
Definition ex88_g := ex88 [40;48;32;40;78;41;32;40;65;41;41]%N [(1, 14); (3, 1)].
Example C88_example :
  origin ex88_f /\ origin ex88_g /\ indexed ex88_f /\ indexed ex88_g /\ within 16 ex88_f /\ within 16 ex88_g /\
  overflows 16 ex88_f ex88_g /\ ~ overflows 17 ex88_f ex88_g /\
  f_trees ex88_f = Some [[1;2];[1]] /\ f_trees ex88_g = Some [[1]] /\
  f_union_w Checked 16 ho_id ex88_f ex88_g = None /\
  (let! r := f_union_w Wrapping 16 ho_id ex88_f ex88_g in f_trees r) = Some [[1;2];[1];[2]] /\
  (let! r := f_union_w Checked 17 ho_id ex88_f ex88_g in f_trees r) = Some [[1;2];[1]].
Proof.
  assert (Of : f_occurrences ho_id ex88_f = [(1, 2); (2, 1)]) by reflexivity.
  assert (Og : f_occurrences ho_id ex88_g = [(1, 14); (3, 1)]) by reflexivity.
  assert (Cf : forall x, count_in ex88_f x = match x with 1 => 2 | 2 => 1 | _ => 0 end).
  { intros x. unfold count_in. rewrite Of. do 3 (destruct x as [|x]; [reflexivity|]). reflexivity. }
  assert (Cg : forall x, count_in ex88_g x = match x with 1 => 14 | 3 => 1 | _ => 0 end).
  { intros x. unfold count_in. rewrite Og. do 4 (destruct x as [|x]; [reflexivity|]). reflexivity. }
  split; [right; exists ho_id, ([40;48;32;40;78;41;32;40;49;32;40;65;41;32;40;65;41;41;41]%N, [(1, 2); (2, 1)]); reflexivity|].
  split; [right; exists ho_id, ([40;48;32;40;78;41;32;40;65;41;41]%N, [(1, 14); (3, 1)]); reflexivity|].
  split. { intros p J. vm_compute in J. destruct J as [<-|[<-|[]]]; vm_compute; lia. }
  split. { intros p J. vm_compute in J. destruct J as [<-|[]]; vm_compute; lia. }
  split. { intros x. rewrite Cf. do 3 (destruct x as [|x]; [lia|]). lia. }
  split. { intros x. rewrite Cg. do 4 (destruct x as [|x]; [lia|]). lia. }
  split. { split; [unfold same_counts; congruence|]. exists 1. rewrite Cf, Cg. lia. }
  split. { intros (_ & x & Lx). rewrite Cf, Cg in Lx. revert Lx. do 4 (destruct x as [|x]; [lia|]). lia. }
  split; [reflexivity|]. split; [reflexivity|]. split; [reflexivity|]. split; reflexivity.
Qed.
