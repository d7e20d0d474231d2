(** Zdd2Settle: root translation (translate_root), and exactly when it keeps the
    family of trees: [settles] of Spec. *)
From Coq Require Import List Arith Lia Bool Permutation Sorted.
From Verif Require Import Base DD Spec Zdd2Model Zdd2Node Zdd2Node2 Zdd2Exact Zdd2Sink Zdd2Univ Zdd2Forest Zdd2Forest2.
Import ListNotations.

Section FamilyOps.
  Context {T : Type} `{Ord T}.
  Lemma before_irrefl c (x : T) : ~ before c x x.
  Proof. intros [A|(_ & A)]; [lia|]. exact (lt_irrefl_ x A). Qed.
  Lemma before_trans c (x y z : T) : before c x y -> before c y z -> before c x z.
  Proof.
    unfold before. intros [A|(A & B)] [C|(C & D)]; [left; lia|left; lia|left; lia|right].
    split; [lia|]. eapply lt_trans_; eauto.
  Qed.
  Lemma without_in e (ts : list (list T)) t : In t (without e ts) <-> In t ts /\ ~ In e t.
  Proof.
    unfold without. rewrite filter_In. destruct (memb e t) eqn:E; cbn.
    - apply memb_spec in E. split; [intros []; discriminate|tauto].
    - split; [|tauto]. intros (A & _). split; [exact A|]. intros J. apply memb_spec in J. congruence.
  Qed.
  Lemma link_in y (ts : list (list T)) t : In t (link y ts) <->
    exists u, In u ts /\ In y u /\ t = filter (fun z => negb (eqb_ z y)) u.
  Proof.
    unfold link. rewrite in_map_iff. split.
    - intros (u & <- & J). apply filter_In in J. destruct J as (J & M). apply memb_spec in M. eauto.
    - intros (u & A & B & ->). exists u. split; [reflexivity|]. apply filter_In. split; [exact A|]. apply memb_spec, B.
  Qed.
  Lemma out_in (y z : T) u : In z (filter (fun z => negb (eqb_ z y)) u) <-> In z u /\ z <> y.
  Proof.
    rewrite filter_In. destruct (eqb_spec_ z y) as [->|N]; cbn; split; intros (A & B); split; auto; congruence.
  Qed.
  Lemma without_ext e (fs gs : list (list T)) : (forall t, In t fs <-> In t gs) -> forall t, In t (without e fs) <-> In t (without e gs).
  Proof. intros Q t. rewrite !without_in, Q. reflexivity. Qed.
  Lemma link_ext e (fs gs : list (list T)) : (forall t, In t fs <-> In t gs) -> forall t, In t (link e fs) <-> In t (link e gs).
  Proof. intros Q t. rewrite !link_in. setoid_rewrite Q. reflexivity. Qed.
  Lemma leads_ext c y (fs gs : list (list T)) : (forall t, In t fs <-> In t gs) -> leads c y fs -> leads c y gs.
  Proof.
    intros Q ((t & A & B) & C). split; [exists t; split; [apply Q|]; auto|]. intros u z U. apply C, Q, U.
  Qed.
  Lemma leads_fun c y z (fs : list (list T)) : leads c y fs -> leads c z fs -> y = z.
  Proof.
    intros ((t & A & B) & C) ((u & D & E) & F). destruct (C u z D E) as [->|G]; [reflexivity|].
    destruct (F t y A B) as [->|K]; [reflexivity|]. exfalso. eapply before_irrefl, before_trans; eauto.
  Qed.
  Lemma ssorted_filter (f : T -> bool) l : ssorted l -> ssorted (filter f l).
  Proof.
    induction l as [|a l IH]; intros S_; cbn [filter]; [constructor|].
    apply ssorted_inv in S_. destruct S_ as (A & B). destruct (f a); [|auto].
    apply ssorted_cons; [auto|]. rewrite Forall_forall in *. intros x X. apply filter_In in X. apply B, X.
  Qed.
End FamilyOps.

(** ** diagrams over a universe and the families they denote *)
Section Fam.
  Context {T : Type} `{Ord T}.
  Variable m : list (T * nat).
  Hypothesis Hm : map_ok m.
  Variable c : T -> nat.
  Hypothesis Hc : forall p q x y, get_item (univ_of m) p = Some x -> get_item (univ_of m) q = Some y ->
    (p < q <-> before c x y).
  Local Notation items := (get_items (univ_of m)).
  Definition dfam (t : node) : list (list T) := map items (paths t).
  Definition knownl (t : node) : Prop := forall q, In q (labels t) -> q < length m.

  Lemma dfam_in t z : In z (dfam t) <-> exists s, In s (paths t) /\ z = items s.
  Proof. unfold dfam. rewrite in_map_iff. split; intros (s & A & B); exists s; auto. Qed.
  Lemma knownl_lo i l h : knownl (Branch i l h) -> knownl l.
  Proof. intros K q Q. apply K. cbn. right. apply in_or_app; auto. Qed.
  Lemma knownl_hi i l h : knownl (Branch i l h) -> knownl h.
  Proof. intros K q Q. apply K. cbn. right. apply in_or_app; auto. Qed.
  Lemma knownl_item i l h : knownl (Branch i l h) -> exists x, get_item (univ_of m) i = Some x.
  Proof. intros K. apply get_item_known, K. left; reflexivity. Qed.
  Lemma item_in_iff p x s : get_item (univ_of m) p = Some x -> (In x (items s) <-> In p s).
  Proof. intros E. apply (item_path m); auto. apply get_priority_item; auto. Qed.

  Lemma dfam_leads n i l h x : zwf n (Branch i l h) -> get_item (univ_of m) i = Some x -> leads c x (dfam (Branch i l h)).
  Proof.
    intros (A & B & C & D) E. split.
    - destruct (zwf_nonempty _ _ D B) as (s & S_). exists (items (i :: s)). split.
      + apply dfam_in. exists (i :: s). split; [apply paths_branch; eauto|reflexivity].
      + apply (item_in_iff i); auto. left; reflexivity.
    - intros t z J Z. apply dfam_in in J. destruct J as (s & S_ & ->). apply items_in in Z. destruct Z as (q & Q & Z).
      assert (L : q = i \/ i < q).
      { apply paths_branch in S_. destruct S_ as [(s' & -> & S_)|S_].
        - destruct Q as [<-|Q]; [auto|]. right. pose proof (asc_ge _ _ _ (zwf_paths _ _ _ D S_) Q). lia.
        - right. pose proof (asc_ge _ _ _ (zwf_paths _ _ _ C S_) Q). lia. }
      destruct L as [->|L]; [left; congruence|right]. apply (Hc i q); auto.
  Qed.
  Lemma dfam_without n i l h x : zwf n (Branch i l h) -> get_item (univ_of m) i = Some x ->
    forall t, In t (without x (dfam (Branch i l h))) <-> In t (dfam l).
  Proof.
    intros (A & B & C & D) E t. rewrite without_in, !dfam_in. setoid_rewrite paths_branch. split.
    - intros ((s & [(s' & -> & S_)|S_] & ->) & N); [|eauto].
      exfalso. apply N, (item_in_iff i); [exact E|left; reflexivity].
    - intros (s & S_ & ->). split; [eauto|]. rewrite (item_in_iff i x s E).
      intros J. pose proof (asc_ge _ _ _ (zwf_paths _ _ _ C S_) J). lia.
  Qed.
  Lemma dfam_link n i l h x : zwf n (Branch i l h) -> get_item (univ_of m) i = Some x ->
    forall t, In t (link x (dfam (Branch i l h))) <-> In t (dfam h).
  Proof.
    intros (A & B & C & D) E t. rewrite link_in.
    assert (Q : forall s, asc (S i) s -> filter (fun z => negb (eqb_ z x)) (items (i :: s)) = items s).
    { intros s As. apply ssorted_ext.
      - apply ssorted_filter, items_ssorted; auto. cbn. split; [lia|exact As].
      - apply items_ssorted; auto. apply (asc_mono (S i)); [lia|exact As].
      - intros z. rewrite out_in, !items_in. split.
        + intros ((q & [<-|Q] & Z) & N); [congruence|eauto].
        + intros (q & Q & Z). split; [exists q; split; [right|]; auto|]. intros ->.
          assert (q = i) by (eapply (get_item_inj m); eauto). pose proof (asc_ge _ _ _ As Q). lia. }
    setoid_rewrite dfam_in. split.
    - intros (u & (s & S_ & ->) & J & ->). apply paths_branch in S_. destruct S_ as [(s' & -> & S_)|S_].
      + exists s'. split; [exact S_|]. apply Q. eapply zwf_paths; eauto.
      + exfalso. apply (item_in_iff i x s E) in J. pose proof (asc_ge _ _ _ (zwf_paths _ _ _ C S_) J). lia.
    - intros (s & S_ & ->). exists (items (i :: s)). split; [exists (i :: s); split; [apply paths_branch; eauto|reflexivity]|].
      split; [apply (item_in_iff i); [exact E|left; reflexivity]|]. symmetry. apply Q. eapply zwf_paths; eauto.
  Qed.
  Lemma dfam_labels n t p x : zwf n t -> In p (labels t) -> get_item (univ_of m) p = Some x -> exists z, In z (dfam t) /\ In x z.
  Proof.
    intros W P E. assert (X : exists s, In s (paths t) /\ In p s).
    { clear E. revert n W. induction t as [b|i l IHl h IHh]; intros n W; [destruct P|].
      destruct W as (A & B & C & D). cbn [labels In] in P. rewrite in_app_iff in P. destruct P as [->|[P|P]].
      - destruct (zwf_nonempty _ _ D B) as (s & S_). exists (p :: s). split; [apply paths_branch; eauto|left; reflexivity].
      - destruct (IHl P _ C) as (s & S_ & J). exists s. split; [apply paths_branch; auto|exact J].
      - destruct (IHh P _ D) as (s & S_ & J). exists (i :: s). split; [apply paths_branch; eauto|right; exact J]. }
    destruct X as (s & S_ & J). exists (items s). split; [apply dfam_in; eauto|]. apply (item_in_iff p); auto.
  Qed.
  Lemma lo_chain_first n t p : zwf n t -> (In p (lo_chain t) <-> exists s, In (p :: s) (paths t)).
  Proof.
    revert n. induction t as [b|i l IHl h _]; intros n W; cbn [lo_chain In].
    - split; [intros []|]. intros (s & J). destruct b; cbn in J; [destruct J as [J|[]]; discriminate|exact J].
    - destruct W as (A & B & C & D). rewrite (IHl _ C). setoid_rewrite paths_branch. split.
      + intros [<-|(s & S_)]; [|eauto]. destruct (zwf_nonempty _ _ D B) as (s & S_). exists s. left. eauto.
      + intros (s & [(s' & X & S_)|S_]); [injection X as -> ->; auto|eauto].
  Qed.
  (** [p] is not the first label of a path of [t] *)
  Lemma lo_chain_items n t p x : zwf n t -> knownl t -> get_item (univ_of m) p = Some x ->
    (~ In p (lo_chain t) <-> forall z, In z (dfam t) -> In x z -> exists y, In y z /\ before c y x).
  Proof.
    intros W K E. rewrite (lo_chain_first n t p W). split.
    - intros N z Z X. apply dfam_in in Z. destruct Z as (s & S_ & ->). apply (item_in_iff p x s E) in X.
      pose proof (zwf_paths _ _ _ W S_) as As. destruct s as [|q s]; [destruct X|].
      destruct X as [->|X]; [exfalso; eauto|]. cbn in As. destruct As as (_ & As).
      pose proof (asc_ge _ _ _ As X) as L.
      destruct (get_item_known m q) as (y & Y); [apply K; eapply paths_labels; [exact S_|left; reflexivity]|].
      exists y. split; [apply (item_in_iff q); [exact Y|left; reflexivity]|]. apply (Hc q p); auto.
    - intros F (s & S_). destruct (F (items (p :: s))) as (y & Y & B); [apply dfam_in; eauto|apply (item_in_iff p); [exact E|left; reflexivity]|].
      apply items_in in Y. destruct Y as (q & Q & Y). apply (Hc q p) in B; auto.
      pose proof (zwf_paths _ _ _ W S_) as As. cbn in As. destruct As as (_ & As).
      destruct Q as [->|Q]; [lia|]. pose proof (asc_ge _ _ _ As Q). lia.
  Qed.

  Lemma dsinks_sinks id x L R : get_item (univ_of m) id = Some x -> dsinks id L R -> forall n ls hs,
    zwf n L -> zwf n R -> knownl L -> knownl R ->
    (forall t, In t ls <-> In t (dfam L)) -> (forall t, In t hs <-> In t (dfam R)) -> sinks c x ls hs.
  Proof.
    intros E. induction 1 as [L R St|h ll lh hl hh Lh D1 IH1 D2 IH2|h L hh Lh Nc D IH]; intros n ls hs WL WR KL KR QL QR.
    - apply sinks_stay. intros t z J Z. apply QR, dfam_in in J. destruct J as (s & S_ & ->).
      apply items_in in Z. destruct Z as (q & Q & Z). apply (Hc id q); auto. apply St. eapply paths_labels; eauto.
    - destruct (knownl_item _ _ _ KL) as (y & Y). pose proof WL as (_ & _ & A3 & A4). pose proof WR as (_ & _ & B3 & B4).
      apply (sinks_both c x y).
      + apply (Hc h id); auto.
      + eapply leads_ext; [intros t; symmetry; apply QL|]. eapply dfam_leads; eauto.
      + eapply leads_ext; [intros t; symmetry; apply QR|]. eapply dfam_leads; eauto.
      + apply (IH1 (S h)); auto; [eapply knownl_lo; eauto|eapply knownl_lo; eauto| |]; intros t;
          (rewrite (without_ext y _ _ QL) || rewrite (without_ext y _ _ QR)); eapply dfam_without; eauto.
      + apply (IH2 (S h)); auto; [eapply knownl_hi; eauto|eapply knownl_hi; eauto| |]; intros t;
          (rewrite (link_ext y _ _ QL) || rewrite (link_ext y _ _ QR)); eapply dfam_link; eauto.
    - destruct (knownl_item _ _ _ KR) as (y & Y). pose proof WR as (_ & _ & B3 & B4).
      apply (sinks_forced c x y).
      + apply (Hc h id); auto.
      + eapply leads_ext; [intros t; symmetry; apply QR|]. eapply dfam_leads; eauto.
      + intros t J. apply QR, dfam_in in J. destruct J as (s & S_ & ->). apply paths_branch in S_.
        destruct S_ as [(s' & -> & S_)|[]]. apply (item_in_iff h); auto. left; reflexivity.
      + intros t J Yt. apply QL in J. revert t J Yt. apply (lo_chain_items n L h y); auto.
      + apply (IH (S h)); auto; [intros q []|eapply knownl_hi; eauto|reflexivity|].
        intros t. rewrite (link_ext y _ _ QR). eapply dfam_link; eauto.
  Qed.
  Lemma sinks_dsinks id x ls hs : get_item (univ_of m) id = Some x -> sinks c x ls hs -> forall n L R,
    zwf n L -> zwf n R -> knownl L -> knownl R ->
    (forall t, In t ls <-> In t (dfam L)) -> (forall t, In t hs <-> In t (dfam R)) -> dsinks id L R.
  Proof.
    intros E.
    assert (Br : forall y fs t n, zwf n t -> knownl t -> leads c y fs -> (forall z, In z fs <-> In z (dfam t)) ->
      exists i l h, t = Branch i l h /\ get_item (univ_of m) i = Some y).
    { intros y fs t n W K Ld Q. apply (leads_ext _ _ _ _ Q) in Ld. destruct t as [b|i l h].
      - exfalso. destruct Ld as ((z & Z & Y) & _). apply dfam_in in Z. destruct Z as (s & S_ & ->).
        apply items_in in Y. destruct Y as (q & Q' & _). apply (paths_labels _ _ _ S_) in Q'. destruct Q'.
      - destruct (knownl_item _ _ _ K) as (y' & Y). exists i, l, h. split; [reflexivity|].
        rewrite Y. f_equal. eapply leads_fun; [eapply dfam_leads; eauto|exact Ld]. }
    induction 1 as [ls hs St|y ls hs By L1 L2 D1 IH1 D2 IH2|y ls hs By L2 All Nf D IH]; intros n L R WL WR KL KR QL QR.
    - apply dk_stay. intros q Q. destruct (get_item_known m q (KR q Q)) as (y & Y).
      destruct (dfam_labels n R q y WR Q Y) as (z & Z & X). apply (Hc id q x y); auto. apply (St z); auto. apply QR, Z.
    - destruct (Br y ls L n WL KL L1 QL) as (i & ll & lh & -> & Ei).
      destruct (Br y hs R n WR KR L2 QR) as (j & hl & hh & -> & Ej).
      assert (j = i) by (eapply (get_item_inj m); eauto). subst j.
      pose proof WL as (_ & _ & A3 & A4). pose proof WR as (_ & _ & B3 & B4).
      apply dk_both.
      + apply (Hc i id y x); auto.
      + apply (IH1 (S i)); auto; [eapply knownl_lo; eauto|eapply knownl_lo; eauto| |]; intros t;
          (rewrite (without_ext y _ _ QL) || rewrite (without_ext y _ _ QR)); eapply dfam_without; eauto.
      + apply (IH2 (S i)); auto; [eapply knownl_hi; eauto|eapply knownl_hi; eauto| |]; intros t;
          (rewrite (link_ext y _ _ QL) || rewrite (link_ext y _ _ QR)); eapply dfam_link; eauto.
    - destruct (Br y hs R n WR KR L2 QR) as (i & hl & hh & -> & Ei).
      pose proof WR as (_ & _ & B3 & B4).
      assert (hl = Never) as ->.
      { destruct (dd_eqb_spec hl Never) as [|N]; [assumption|exfalso].
        destruct (zwf_nonempty _ _ B3 N) as (s & S_).
        assert (J : In y (items s)) by (apply All, QR, dfam_in; exists s; split; [apply paths_branch; auto|reflexivity]).
        apply (item_in_iff i y s Ei) in J. pose proof (asc_ge _ _ _ (zwf_paths _ _ _ B3 S_) J). lia. }
      apply dk_forced.
      + apply (Hc i id y x); auto.
      + apply (lo_chain_items n L i y); auto. intros z Z. apply Nf, QL, Z.
      + apply (IH (S i)); auto; [intros q []|eapply knownl_hi; eauto|reflexivity|].
        intros t. rewrite (link_ext y _ _ QR). eapply dfam_link; eauto.
  Qed.
End Fam.

Lemma label_in_path t : forall n x, zwf n t -> In x (labels t) -> exists s, In s (paths t) /\ In x s.
Proof.
  induction t as [b|i lo IHlo hi IHhi]; intros n x W Hx; simpl in *; [tauto|].
  destruct W as (_ & Hh & Wl & Wh). destruct Hx as [<-|Hx].
  - destruct (zwf_nonempty _ _ Wh Hh) as (s & Hs). exists (i :: s). split; [|left; auto].
    apply in_or_app. left. apply in_map; auto.
  - apply in_app_or in Hx. destruct Hx as [Hx|Hx].
    + destruct (IHlo _ _ Wl Hx) as (s & Hs & Hin). exists s. split; auto. apply in_or_app; auto.
    + destruct (IHhi _ _ Wh Hx) as (s & Hs & Hin). exists (i :: s). split; [|right; auto].
      apply in_or_app. left. apply in_map; auto.
Qed.

Lemma zwf_raise t : forall n m, zwf n t -> (forall x, In x (labels t) -> m <= x) -> zwf m t.
Proof.
  destruct t as [b|i lo hi]; intros n m W Hm; simpl in *; auto.
  destruct W as (_ & Hh & Wl & Wh). split; [apply Hm; auto|]. auto.
Qed.

Section Translate.
  Context {T : Type} `{Ord T}.
  Variables old new : list (T * nat).
  Hypothesis Hold : map_ok old.
  Hypothesis Hnew : map_ok new.
  Hypothesis Hkeys : forall x, In x (map fst old) -> In x (map fst new).

  Definition tr (p : nat) : nat :=
    match get_item (univ_of old) p with
    | Some x => match get_priority (univ_of new) x with Some q => q | None => 0 end
    | None => 0
    end.

  Lemma tr_item p : p < length old -> exists x,
    get_item (univ_of old) p = Some x /\ get_priority (univ_of new) x = Some (tr p).
  Proof.
    intros Hp. destruct (get_item_known old p Hp) as (x & Hx). exists x. split; auto.
    unfold tr. rewrite Hx.
    assert (Hi : In x (map fst old)) by (apply univ_index_in; eapply nth_error_In; exact Hx).
    destruct (get_priority_known new x Hnew (Hkeys x Hi)) as (q & Hq). rewrite Hq. reflexivity.
  Qed.

  Lemma tr_inj p q : p < length old -> q < length old -> tr p = tr q -> p = q.
  Proof.
    intros Hp Hq E. destruct (tr_item p Hp) as (x & Hx & Px). destruct (tr_item q Hq) as (y & Hy & Py).
    rewrite E in Px. apply get_priority_item in Px, Py; auto.
    assert (x = y) by congruence. subst y. exact (get_item_inj old p q x Hold Hx Hy).
  Qed.

  Lemma tr_known p : p < length old -> tr p < length new.
  Proof. intros Hp. destruct (tr_item p Hp) as (x & _ & Px). eapply get_priority_in; eauto. Qed.

  Definition known_labels (t : node) := forall x, In x (labels t) -> x < length old.

  Lemma translate_total t : forall n, zwf n t -> known_labels t ->
    exists r, translate_root (univ_of old) (univ_of new) t = Some r /\ zwf 0 r /\
      forall q, In q (labels r) -> exists p, In p (labels t) /\ q = tr p.
  Proof.
    induction t as [b|i lo IHlo hi IHhi]; intros n W Hk.
    - exists (Leaf b). split; [destruct b; reflexivity|]. split; [exact I|]. simpl; tauto.
    - simpl in W. destruct W as (_ & Hh & Wl & Wh).
      destruct (IHlo _ Wl) as (l' & El & W1 & L1).
      { intros x Hx. apply Hk. simpl. right. apply in_or_app; auto. }
      destruct (IHhi _ Wh) as (h' & Eh & W2 & L2).
      { intros x Hx. apply Hk. simpl. right. apply in_or_app; auto. }
      destruct (tr_item i) as (x & Ex & Px); [apply Hk; simpl; auto|].
      simpl translate_root. rewrite El, Eh. cbn [bind]. rewrite Ex. cbn [bind]. rewrite Px. cbn [bind].
      destruct (branch_total 0 (tr i) l' h' (Nat.le_0_l _) W1 W2) as (r & Er & Wr & Lr).
      exists r. split; [exact Er|]. split; [exact Wr|].
      intros q Hq. destruct (Lr q Hq) as [->|[Hq'|Hq']].
      + exists i. simpl; auto.
      + destruct (L1 q Hq') as (p & Hp & ->). exists p. split; auto. simpl. right. apply in_or_app; auto.
      + destruct (L2 q Hq') as (p & Hp & ->). exists p. split; auto. simpl. right. apply in_or_app; auto.
  Qed.

  (** order preserved along every path *)
  (** sets of items denoted by a diagram *)
  Lemma items_tr s s' : known old s ->
    asc 0 s -> asc 0 s' -> (forall q, In q s' <-> exists p, In p s /\ q = tr p) ->
    get_items (univ_of new) s' = get_items (univ_of old) s.
  Proof.
    intros Hk Ha Ha' Hs. apply ssorted_ext.
    - apply items_ssorted; auto.
    - apply items_ssorted; auto.
    - intros x. rewrite !items_in. split.
      + intros (q & Hq & Ex). apply Hs in Hq. destruct Hq as (p & Hp & ->).
        exists p. split; auto. destruct (tr_item p (Hk p Hp)) as (y & Ey & Py).
        apply get_priority_item in Py; auto. congruence.
      + intros (p & Hp & Ex). exists (tr p). split; [apply Hs; eauto|].
        destruct (tr_item p (Hk p Hp)) as (y & Ey & Py). apply get_priority_item in Py; auto. congruence.
  Qed.

  Lemma translate_retag t : known_labels t -> translate_root (univ_of old) (univ_of new) t = retag tr t.
  Proof.
    induction t as [b|i lo IHl hi IHh]; intros K; [reflexivity|].
    cbn [translate_root retag]. rewrite IHl, IHh by (intros x X; apply K; cbn; right; apply in_or_app; auto).
    destruct (retag tr lo); [|reflexivity]. destruct (retag tr hi); [|reflexivity]. cbn [bind].
    destruct (tr_item i) as (x & Ex & Px); [apply K; left; reflexivity|].
    rewrite Ex. cbn [bind]. rewrite Px. reflexivity.
  Qed.
  Lemma tr_inj_on t : known_labels t -> inj_on tr t.
  Proof. intros K p q P Q. apply tr_inj; apply K; assumption. Qed.
  Lemma tr_get_item p x : p < length old -> get_item (univ_of old) p = Some x -> get_item (univ_of new) (tr p) = Some x.
  Proof.
    intros L E. destruct (tr_item p L) as (y & Ey & Py). apply get_priority_item in Py; auto. congruence.
  Qed.
  Lemma is_tr_known t s s' : known_labels t -> In s (paths t) -> is_tr tr s s' -> known new s'.
  Proof.
    intros K S_ (_ & B) q Q. apply B in Q. destruct Q as (p & P & ->). apply tr_known, K. eapply paths_labels; eauto.
  Qed.
  Lemma path_known t s : known_labels t -> In s (paths t) -> known old s.
  Proof. intros K S_ q Q. apply K. eapply paths_labels; eauto. Qed.

  Lemma dexact_fam t n r : zwf n t -> known_labels t -> retag tr t = Some r ->
    (dexact tr t r <-> forall z, In z (dfam new r) <-> In z (dfam old t)).
  Proof.
    intros W K E. destruct (retag_total tr t) as (r' & Er & Wr & Lr). assert (r' = r) by congruence. subst r'.
    assert (At : forall s, In s (paths t) -> asc 0 s).
    { intros s S_. apply (asc_mono n); [lia|]. eapply zwf_paths; eauto. }
    assert (It : forall s s', In s (paths t) -> is_tr tr s s' -> get_items (univ_of new) s' = get_items (univ_of old) s).
    { intros s s' S_ (A & B). apply items_tr; auto. eapply path_known; eauto. }
    split; intros X.
    - intros z. rewrite !dfam_in. split.
      + intros (s' & S_ & ->). apply X in S_. destruct S_ as (s & S_ & R). exists s. split; [exact S_|]. apply It; assumption.
      + intros (s & S_ & ->). destruct (is_tr_exists tr s) as (s' & R). exists s'. split; [apply X; eauto|]. symmetry. apply It; assumption.
    - intros s'. split.
      + intros S_. assert (Z : In (get_items (univ_of new) s') (dfam old t)) by (apply X, dfam_in; eauto).
        apply dfam_in in Z. destruct Z as (s & Ss & Eq). exists s. split; [exact Ss|].
        split; [eapply zwf_paths; eauto|]. intros q. split.
        * intros Q. assert (Kq : q < length new).
          { destruct (Lr q (paths_labels _ _ _ S_ Q)) as (p & P & ->). apply tr_known, K, P. }
          destruct (get_item_known new q Kq) as (x & Ex).
          assert (Xi : In x (get_items (univ_of old) s)) by (rewrite <- Eq; apply items_in; eauto).
          apply items_in in Xi. destruct Xi as (p & P & Ep). exists p. split; [exact P|].
          apply (get_item_inj new q (tr p) x Hnew Ex). apply tr_get_item; [|exact Ep]. apply K. eapply paths_labels; eauto.
        * intros (p & P & ->). assert (Kp : p < length old) by (apply K; eapply paths_labels; eauto).
          destruct (get_item_known old p Kp) as (x & Ex).
          assert (Xi : In x (get_items (univ_of new) s')) by (rewrite Eq; apply items_in; eauto).
          apply items_in in Xi. destruct Xi as (q & Q & Eq').
          assert (q = tr p) as <-; [|exact Q]. apply (get_item_inj new q (tr p) x Hnew Eq'). apply tr_get_item; auto.
      + intros (s & Ss & R). assert (Z : In (get_items (univ_of old) s) (dfam new r)) by (apply X, dfam_in; eauto).
        apply dfam_in in Z. destruct Z as (s2 & S2 & Eq). rewrite <- (It s s' Ss R) in Eq.
        apply (items_inj new Hnew) in Eq; [subst; exact S2|apply R|eapply zwf_paths; eauto|eapply is_tr_known; eauto|].
        intros q Q. destruct (Lr q (paths_labels _ _ _ S2 Q)) as (p & P & ->). apply tr_known, K, P.
  Qed.

  Section Orders.
    Variables c c' : T -> nat.
    Hypothesis Hc : forall p q x y, get_item (univ_of old) p = Some x -> get_item (univ_of old) q = Some y ->
      (p < q <-> before c x y).
    Hypothesis Hc' : forall p q x y, get_item (univ_of new) p = Some x -> get_item (univ_of new) q = Some y ->
      (p < q <-> before c' x y).

    Lemma retag_knownl t r : known_labels t -> retag tr t = Some r -> knownl new r.
    Proof.
      intros K E q Q. destruct (retag_total tr t) as (r' & Er & _ & Lr). assert (r' = r) by congruence. subst r'.
      destruct (Lr q Q) as (p & P & ->). apply tr_known, K, P.
    Qed.
    Lemma dsettled_settles t : forall n fs, zwf n t -> known_labels t ->
      (forall z, In z fs <-> In z (dfam old t)) -> dsettled tr t -> settles c c' fs.
    Proof.
      induction t as [b|i lo IHl hi IHh]; intros n fs W K Q D.
      - apply settles_done. intros z x Z X. apply Q, dfam_in in Z. destruct Z as (s & S_ & ->).
        apply items_in in X. destruct X as (q & P & _). apply (paths_labels _ _ _ S_) in P. destruct P.
      - destruct D as (Dl & Dh & lo' & hi' & El & Eh & Ds). pose proof W as (_ & _ & Wl & Wh).
        assert (Kl : known_labels lo) by (apply (knownl_lo old i lo hi K)).
        assert (Kh : known_labels hi) by (apply (knownl_hi old i lo hi K)).
        destruct (knownl_item old i lo hi K) as (x & Ex).
        assert (Q1 : forall z, In z (without x fs) <-> In z (dfam old lo)).
        { intros z. rewrite (without_ext x _ _ Q). eapply dfam_without; eauto. }
        assert (Q2 : forall z, In z (link x fs) <-> In z (dfam old hi)).
        { intros z. rewrite (link_ext x _ _ Q). eapply dfam_link; eauto. }
        apply (settles_split c c' x).
        + eapply leads_ext; [intros z; symmetry; apply Q|]. eapply dfam_leads; eauto.
        + eapply IHl; eauto.
        + eapply IHh; eauto.
        + destruct (retag_total tr lo) as (l1 & El1 & Wl1 & _). assert (l1 = lo') by congruence. subst l1.
          destruct (retag_total tr hi) as (h1 & Eh1 & Wh1 & _). assert (h1 = hi') by congruence. subst h1.
          apply (dsinks_sinks new Hnew c' Hc' (tr i) x lo' hi') with (n := 0); auto.
          * apply tr_get_item; [apply K; left; reflexivity|exact Ex].
          * apply (retag_knownl lo); assumption.
          * apply (retag_knownl hi); assumption.
          * intros z. rewrite Q1. symmetry. revert z. apply (dexact_fam lo (S i) lo' Wl Kl El).
            exact (dsettled_exact tr lo (S i) lo' Wl (tr_inj_on lo Kl) El Dl).
          * intros z. rewrite Q2. symmetry. revert z. apply (dexact_fam hi (S i) hi' Wh Kh Eh).
            exact (dsettled_exact tr hi (S i) hi' Wh (tr_inj_on hi Kh) Eh Dh).
    Qed.
    Lemma settles_dsettled fs : settles c c' fs -> forall t n, zwf n t -> known_labels t ->
      (forall z, In z fs <-> In z (dfam old t)) -> dsettled tr t.
    Proof.
      induction 1 as [fs N|x fs Ld S1 IH1 S2 IH2 Sk]; intros t n W K Q.
      - destruct t as [b|i lo hi]; [exact I|exfalso]. destruct (knownl_item old i lo hi K) as (x & Ex).
        destruct (dfam_leads old Hold c Hc n i lo hi x W Ex) as ((z & Z & X) & _). apply (N z x); [apply Q, Z|exact X].
      - destruct t as [b|i lo hi]; [exact I|]. destruct (knownl_item old i lo hi K) as (y & Ey).
        pose proof W as (_ & _ & Wl & Wh).
        assert (Kl : known_labels lo) by (apply (knownl_lo old i lo hi K)).
        assert (Kh : known_labels hi) by (apply (knownl_hi old i lo hi K)).
        assert (y = x).
        { apply (leads_fun c y x (dfam old (Branch i lo hi))); [eapply dfam_leads; eauto|eapply leads_ext; eauto]. } subst y.
        assert (Q1 : forall z, In z (without x fs) <-> In z (dfam old lo)).
        { intros z. rewrite (without_ext x _ _ Q). eapply dfam_without; eauto. }
        assert (Q2 : forall z, In z (link x fs) <-> In z (dfam old hi)).
        { intros z. rewrite (link_ext x _ _ Q). eapply dfam_link; eauto. }
        pose proof (IH1 lo _ Wl Kl Q1) as Dl. pose proof (IH2 hi _ Wh Kh Q2) as Dh.
        cbn [dsettled]. split; [exact Dl|]. split; [exact Dh|].
        destruct (retag_total tr lo) as (lo' & El & Wl1 & _). destruct (retag_total tr hi) as (hi' & Eh & Wh1 & _).
        exists lo', hi'. split; [exact El|]. split; [exact Eh|].
        apply (sinks_dsinks new Hnew c' Hc' (tr i) x (without x fs) (link x fs)) with (n := 0); auto.
        + apply tr_get_item; [apply K; left; reflexivity|exact Ey].
        + apply (retag_knownl lo); assumption.
        + apply (retag_knownl hi); assumption.
        + intros z. rewrite Q1. symmetry. revert z. apply (dexact_fam lo (S i) lo' Wl Kl El).
          exact (dsettled_exact tr lo (S i) lo' Wl (tr_inj_on lo Kl) El Dl).
        + intros z. rewrite Q2. symmetry. revert z. apply (dexact_fam hi (S i) hi' Wh Kh Eh).
          exact (dsettled_exact tr hi (S i) hi' Wh (tr_inj_on hi Kh) Eh Dh).
    Qed.

    (** root translation keeps the family exactly when it settles *)
    Lemma translate_settles t n r : zwf n t -> known_labels t ->
      translate_root (univ_of old) (univ_of new) t = Some r ->
      (settles c c' (dfam old t) <-> forall z, In z (dfam new r) <-> In z (dfam old t)).
    Proof.
      intros W K E. rewrite translate_retag in E by exact K.
      rewrite <- (dexact_fam t n r W K E), <- (dexact_iff tr t n r W (tr_inj_on t K) E). split.
      - intros S_. apply (settles_dsettled _ S_ t n W K). reflexivity.
      - intros D. eapply dsettled_settles; eauto. reflexivity.
    Qed.
  End Orders.

  (** two labels of a path keep their order or are on the same paths *)
  Definition dkept (t : node) : Prop := forall s p q, In s (paths t) -> In p s -> In q s -> p < q ->
    tr p < tr q \/ (forall s', In s' (paths t) -> (In p s' <-> In q s')).
  Lemma forced_sinks id : forall R L n, zwf n R ->
    (forall q, In q (labels R) -> q <= id -> q < id /\ (forall s, In s (paths R) -> In q s) /\ ~ In q (labels L)) -> dsinks id L R.
  Proof.
    induction R as [b|h hl _ hh IHh]; intros L n W F.
    - apply dk_stay. intros q [].
    - pose proof W as (_ & B2 & B3 & B4). destruct (Nat.lt_ge_cases id h) as [G|G].
      { apply dk_stay. intros q [<-|Q]; [exact G|]. apply in_app_iff in Q.
        destruct Q as [Q|Q]; [apply (zwf_label _ _ _ B3) in Q|apply (zwf_label _ _ _ B4) in Q]; lia. }
      destruct (F h (or_introl eq_refl) G) as (L1 & All & Nl).
      assert (hl = Never) as ->.
      { destruct (dd_eqb_spec hl Never) as [|N]; [assumption|exfalso].
        destruct (zwf_nonempty _ _ B3 N) as (s & S_).
        assert (J : In h s) by (apply All, paths_branch; auto).
        pose proof (asc_ge _ _ _ (zwf_paths _ _ _ B3 S_) J). lia. }
      apply dk_forced; [exact L1|intros J; apply Nl, lo_chain_labels, J|].
      apply (IHh Never (S h) B4). intros q Q Lq. destruct (F q) as (X1 & X2 & _); [right; apply in_or_app; auto|exact Lq|].
      split; [exact X1|]. split; [|intros []]. intros s S_.
      destruct (X2 (h :: s)) as [<-|J]; [apply paths_branch; eauto| |exact J].
      apply (zwf_label _ _ _ B4) in Q. lia.
  Qed.
  Lemma dkept_settled t : forall n, zwf n t -> known_labels t -> dkept t -> dsettled tr t.
  Proof.
    induction t as [b|i lo IHl hi IHh]; intros n W K D; [exact I|].
    pose proof W as (_ & B2 & Wl & Wh).
    assert (Kl : known_labels lo) by (intros x X; apply K; cbn; right; apply in_or_app; auto).
    assert (Kh : known_labels hi) by (intros x X; apply K; cbn; right; apply in_or_app; auto).
    assert (Dl : dkept lo).
    { intros s p q S_ P Q L. destruct (D s p q) as [X|X]; auto; [apply paths_branch; auto|].
      right. intros s' S'. apply X, paths_branch. auto. }
    assert (Dh : dkept hi).
    { intros s p q S_ P Q L. destruct (D (i :: s) p q) as [X|X]; auto; [apply paths_branch; eauto|right; exact P|right; exact Q|].
      right. intros s' S'. specialize (X (i :: s')). cbn [In] in X.
      assert (p <> i /\ q <> i) as (N1 & N2).
      { pose proof (asc_ge _ _ _ (zwf_paths _ _ _ Wh S_) P). lia. }
      assert (Y : In (i :: s') (paths (Branch i lo hi))) by (apply paths_branch; eauto). specialize (X Y).
      split; intros J; [destruct X as (X & _)|destruct X as (_ & X)]; destruct (X (or_intror J)); auto; congruence. }
    destruct (retag_total tr lo) as (lo' & El & Wl' & Ll). destruct (retag_total tr hi) as (hi' & Eh & Wh' & Lh).
    pose proof (IHl _ Wl Kl Dl) as Sl. pose proof (IHh _ Wh Kh Dh) as Sh.
    cbn [dsettled]. split; [exact Sl|]. split; [exact Sh|]. exists lo', hi'. split; [exact El|]. split; [exact Eh|].
    pose proof (dsettled_exact tr hi _ hi' Wh (tr_inj_on hi Kh) Eh Sh) as Xh.
    apply (forced_sinks (tr i) hi' lo' 0 Wh'). intros q Q Lq. destruct (Lh q Q) as (p & P & ->).
    destruct (label_in_path _ _ _ Wh P) as (s & S_ & Ps).
    assert (Lip : i < p) by (pose proof (zwf_label _ _ _ Wh P); lia).
    assert (Ne : tr p <> tr i).
    { intros Eq. apply tr_inj in Eq; [lia|apply Kh, P|apply K; left; reflexivity]. }
    assert (Y : In (i :: s) (paths (Branch i lo hi))) by (apply paths_branch; eauto).
    destruct (D (i :: s) i p Y (or_introl eq_refl) (or_intror Ps) Lip) as [X|X]; [lia|].
    split; [lia|]. split.
    - intros s' S'. apply Xh in S'. destruct S' as (s2 & S2 & (_ & B)). apply B. exists p. split; [|reflexivity].
      assert (Y2 : In (i :: s2) (paths (Branch i lo hi))) by (apply paths_branch; eauto).
      destruct (proj1 (X _ Y2) (or_introl eq_refl)) as [->|J]; [lia|exact J].
    - intros J. destruct (Ll _ J) as (p' & P' & Eq). apply tr_inj in Eq; [subst p'|apply Kh, P|apply Kl, P'].
      destruct (label_in_path _ _ _ Wl P') as (s2 & S2 & J2).
      assert (Y2 : In s2 (paths (Branch i lo hi))) by (apply paths_branch; auto).
      pose proof (asc_ge _ _ _ (zwf_paths _ _ _ Wl S2) (proj2 (X _ Y2) J2)). lia.
  Qed.

  Lemma translate_id t n : old = new -> zwf n t -> known_labels t ->
    translate_root (univ_of old) (univ_of new) t = Some t.
  Proof.
    intros E. revert n. induction t as [b|i lo IHlo hi IHhi]; intros n W Hk.
    - destruct b; reflexivity.
    - simpl in W. destruct W as (Hn & Hh & Wl & Wh). simpl.
      rewrite (IHlo _ Wl) by (intros x Hx; apply Hk; simpl; right; apply in_or_app; auto).
      rewrite (IHhi _ Wh) by (intros x Hx; apply Hk; simpl; right; apply in_or_app; auto). cbn [bind].
      destruct (tr_item i) as (x & Ex & Px); [apply Hk; simpl; auto|].
      rewrite Ex. cbn [bind]. rewrite Px. cbn [bind].
      rewrite <- E in Px. apply get_priority_item in Px; auto.
      assert (Et : tr i = i) by (eapply (get_item_inj old); eauto).
      rewrite Et. rewrite branch_direct by auto. f_equal. unfold zmk.
      destruct hi as [[|]|]; auto. congruence.
  Qed.
End Translate.

