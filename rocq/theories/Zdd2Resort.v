(** Zdd2Resort: what root translation makes of any family, settled or not:
    [resorted] of Spec; and [resorted] determines its result. *)
From Coq Require Import List Arith Lia Bool Permutation Sorted.
From Verif Require Import Base DD Spec Zdd2Model Zdd2Node Zdd2Node2 Zdd2Exact Zdd2Sink Zdd2Univ Zdd2Forest Zdd2Forest2 Zdd2Settle.
Import ListNotations.

Section Fun.
  Context {T : Type} `{Ord T}.
  Local Notation same fs gs := (forall t, In t fs <-> In t gs).

  Lemma with_item_fun x (s t u : list T) : with_item x s t -> with_item x s u -> t = u.
  Proof.
    intros (A & B) (C & D). apply ssorted_ext; auto. intros z. rewrite (B z), (D z). reflexivity.
  Qed.
  Lemma leads_before c x y (hs : list (list T)) : leads c y hs -> before c y x ->
    (forall t z, In t hs -> In z t -> before c x z) -> False.
  Proof.
    intros ((t & A & B) & _) Y F. apply (before_irrefl c y). eapply before_trans; eauto.
  Qed.
  Lemma pushed_fun c x ls hs es : pushed c x ls hs es -> forall ls' hs' es', same ls ls' -> same hs hs' ->
    pushed c x ls' hs' es' -> same es es'.
  Proof.
    induction 1 as [ls hs es N E|ls hs es (t0 & T0) F E|y ls hs es e0 e1 By L1 L2 P0 IH0 P1 IH1 E|y ls hs es e1 By L1 L2 P1 IH1 E];
      intros ls' hs' es' Ql Qh P; inversion P as [? ? ? N' E'|? ? ? (t1 & T1) F' E'|y' ? ? ? e0' e1' By' L1' L2' P0' P1' E'|y' ? ? ? e1' By' L1' L2' P1' E']; subst; intros t.
    - rewrite E, E'. apply Ql.
    - exfalso. apply (N t1), Qh, T1.
    - exfalso. destruct L2' as ((t1 & T1 & _) & _). apply (N t1), Qh, T1.
    - exfalso. destruct L2' as ((t1 & T1 & _) & _). apply (N t1), Qh, T1.
    - exfalso. apply (N' t0), Qh, T0.
    - rewrite E, E', Ql. setoid_rewrite Qh. reflexivity.
    - exfalso. eapply leads_before; [exact L2'|exact By'|]. intros u z U. apply F, Qh, U.
    - exfalso. eapply leads_before; [exact L2'|exact By'|]. intros u z U. apply F, Qh, U.
    - exfalso. destruct L2 as ((t1 & T1 & _) & _). apply (N' t1), Qh, T1.
    - exfalso. eapply leads_before; [exact L2|exact By|]. intros u z U. apply F', Qh, U.
    - assert (y' = y) by (eapply leads_fun; [exact L2'|eapply leads_ext; [exact Qh|exact L2]]). subst y'.
      pose proof (IH0 _ _ _ (without_ext y _ _ Ql) (without_ext y _ _ Qh) P0') as Q0.
      pose proof (IH1 _ _ _ (link_ext y _ _ Ql) (link_ext y _ _ Qh) P1') as Q1.
      rewrite E, E', Q0. setoid_rewrite Q1. reflexivity.
    - exfalso. assert (y' = y) by (eapply leads_fun; [exact L2'|eapply leads_ext; [exact Qh|exact L2]]). subst y'.
      apply L1'. eapply leads_ext; [exact Ql|exact L1].
    - exfalso. destruct L2 as ((t1 & T1 & _) & _). apply (N' t1), Qh, T1.
    - exfalso. eapply leads_before; [exact L2|exact By|]. intros u z U. apply F', Qh, U.
    - exfalso. assert (y' = y) by (eapply leads_fun; [exact L2'|eapply leads_ext; [exact Qh|exact L2]]). subst y'.
      apply L1. eapply leads_ext; [intros u; symmetry; apply Ql|exact L1'].
    - assert (y' = y) by (eapply leads_fun; [exact L2'|eapply leads_ext; [exact Qh|exact L2]]). subst y'.
      pose proof (IH1 _ _ _ (without_ext y _ _ Qh) (link_ext y _ _ Qh) P1') as Q1.
      rewrite E, E', Ql. setoid_rewrite Q1. reflexivity.
  Qed.
  Lemma resorted_fun c c' fs es : resorted c c' fs es -> forall fs' es', same fs fs' ->
    resorted c c' fs' es' -> same es es'.
  Proof.
    induction 1 as [fs es N E|x fs l h es L R1 IH1 R2 IH2 P]; intros fs' es' Q R';
      inversion R' as [? ? N' E'|x' ? l' h' ? L' R1' R2' P']; subst; intros t.
    - rewrite E, E'. apply Q.
    - exfalso. destruct L' as ((u & A & B) & _). apply (N u x'); [apply Q, A|exact B].
    - exfalso. destruct L as ((u & A & B) & _). apply (N' u x); [apply Q, A|exact B].
    - assert (x' = x) by (eapply leads_fun; [exact L'|eapply leads_ext; [exact Q|exact L]]). subst x'.
      eapply pushed_fun; [exact P| | |exact P'].
      + eapply IH1; [|exact R1']. apply without_ext, Q.
      + eapply IH2; [|exact R2']. apply link_ext, Q.
  Qed.
End Fun.

(** the paths of [ins_lo]: a branch [id] already on the low side is replaced *)
Lemma ins_lo_all n id lo hi s : zwf n lo ->
  (In s (paths (ins_lo id lo hi)) <->
   (exists s', s = id :: s' /\ In s' (paths hi)) \/ (In s (paths lo) /\ hd_error s <> Some id)).
Proof.
  revert n. induction lo as [b|l ll IHl lh _]; intros n W.
  - cbn [ins_lo]. rewrite paths_branch. split; [|intros [X|(X & _)]; auto].
    intros [X|X]; [auto|]. right. split; [exact X|]. destruct b; cbn in X; [destruct X as [<-|[]]; discriminate|destruct X].
  - pose proof W as (A1 & A2 & A3 & A4). cbn [ins_lo].
    assert (Lo : forall i, i <= l -> forall s, In s (paths ll) -> hd_error s <> Some i).
    { intros i Li s' S_ X. destruct s' as [|a s']; [discriminate|]. injection X as ->.
      pose proof (zwf_paths _ _ _ A3 S_) as As. cbn in As. lia. }
    destruct (Nat.ltb_spec l id); [|destruct (Nat.eqb_spec l id)].
    + rewrite !paths_branch, (IHl _ A3). split.
      * intros [(s' & -> & X)|[X|(X & Y)]]; [|auto|].
        -- right. split; [left; eauto|]. cbn. intros Z. injection Z as ->. lia.
        -- right. split; auto.
      * intros [X|([X|X] & Y)]; auto.
    + subst l. rewrite !paths_branch. split.
      * intros [X|X]; [auto|]. right. split; [auto|]. apply (Lo id); auto.
      * intros [X|([(s' & -> & X)|X] & Y)]; [auto|exfalso; apply Y; reflexivity|auto].
    + rewrite !paths_branch. split.
      * intros [X|[(s' & -> & X)|X]]; [auto| |].
        -- right. split; [left; eauto|]. cbn. intros Z. injection Z as ->. lia.
        -- right. split; [auto|]. apply Lo; [lia|exact X].
      * intros [X|(X & Y)]; auto.
Qed.

Section Push.
  Context {T : Type} `{Ord T}.
  Variable m : list (T * nat).
  Hypothesis Hm : map_ok m.
  Variable c : T -> nat.
  Hypothesis Hc : forall p q x y, get_item (univ_of m) p = Some x -> get_item (univ_of m) q = Some y ->
    (p < q <-> before c x y).
  Local Notation items := (get_items (univ_of m)).
  Local Notation dfam := (dfam m).
  Local Notation knownl := (knownl m).
  Local Notation same fs gs := (forall t, In t fs <-> In t gs).

  Lemma items_with h y s t : get_item (univ_of m) h = Some y -> asc (S h) s ->
    (with_item y (items s) t <-> t = items (h :: s)).
  Proof.
    intros E A. assert (W : with_item y (items s) (items (h :: s))).
    { split; [apply items_ssorted; auto; cbn; split; [lia|exact A]|]. intros z. cbn [In]. rewrite !items_in. split.
      - intros (q & [<-|Q] & Z); [left; congruence|right; eauto].
      - intros [<-|(q & Q & Z)]; [exists h; split; [left; reflexivity|exact E]|exists q; split; [right|]; auto]. }
    split; [|intros ->; exact W]. intros X. eapply with_item_fun; eauto.
  Qed.
  (** the members of a diagram below [h], each with the item of [h] *)
  Lemma dfam_with h y r t : get_item (univ_of m) h = Some y -> zwf (S h) r ->
    ((exists s, In s (dfam r) /\ with_item y s t) <-> exists s, In s (paths r) /\ t = items (h :: s)).
  Proof.
    intros E W. split.
    - intros (z & Z & X). apply dfam_in in Z. destruct Z as (s & S_ & ->). exists s. split; [exact S_|].
      apply (items_with h y s t E); [eapply zwf_paths; eauto|exact X].
    - intros (s & S_ & ->). exists (items s). split; [apply dfam_in; eauto|].
      apply (items_with h y s); [exact E|eapply zwf_paths; eauto|reflexivity].
  Qed.
  Lemma begins_hd n t s h y : zwf n t -> knownl t -> In s (paths t) -> get_item (univ_of m) h = Some y ->
    (begins c y (items s) <-> hd_error s = Some h).
  Proof.
    intros W K S_ E. pose proof (zwf_paths _ _ _ W S_) as A. split.
    - intros (I1 & F). apply (item_in_iff m Hm h y s E) in I1. destruct s as [|a s]; [destruct I1|].
      cbn. destruct (Nat.eq_dec a h) as [->|Na]; [reflexivity|exfalso].
      destruct I1 as [->|I1]; [congruence|]. cbn in A. pose proof (asc_ge _ _ _ (proj2 A) I1).
      destruct (get_item_known m a) as (z & Z); [apply K; eapply paths_labels; [exact S_|left; reflexivity]|].
      destruct (F z) as [->|B].
      + apply (item_in_iff m Hm a); [exact Z|left; reflexivity].
      + apply Na. eapply (get_item_inj m); eauto.
      + apply (Hc h a) in B; auto. lia.
    - destruct s as [|a s]; [discriminate|]. intros X. injection X as ->. cbn in A. split.
      + apply (item_in_iff m Hm h); [exact E|left; reflexivity].
      + intros z Z. apply items_in in Z. destruct Z as (q & [<-|Q] & Z); [left; congruence|right].
        apply (Hc h q); auto. pose proof (asc_ge _ _ _ (proj2 A) Q). lia.
  Qed.
  Lemma dfam_ins_lo n h y lo r t : get_item (univ_of m) h = Some y -> zwf n lo -> knownl lo -> zwf (S h) r ->
    (In t (dfam (ins_lo h lo r)) <->
      (In t (dfam lo) /\ ~ begins c y t) \/ exists s, In s (dfam r) /\ with_item y s t).
  Proof.
    intros E W K Wr. rewrite (dfam_with h y r t E Wr), !dfam_in.
    assert (P : forall s, In s (paths (ins_lo h lo r)) <->
      (exists s', s = h :: s' /\ In s' (paths r)) \/ (In s (paths lo) /\ hd_error s <> Some h)).
    { intros s. eapply ins_lo_all; eauto. }
    split.
    - intros (s & S_ & ->). apply P in S_. destruct S_ as [(s' & -> & S_)|(S_ & N)]; [right; eauto|].
      left. split; [eauto|]. intros B. apply N. apply (begins_hd n lo s h y); auto.
    - intros [((s & S_ & ->) & N)|(s & S_ & ->)].
      + exists s. split; [|reflexivity]. apply P. right. split; [exact S_|]. intros B. apply N. apply (begins_hd n lo s h y); auto.
      + exists (h :: s). split; [|reflexivity]. apply P. left. eauto.
  Qed.

  Lemma branch_pushed k : forall n id x lo hi r ls hs es, size lo + size hi <= k -> n <= id -> zwf n lo -> zwf n hi ->
    ~ In id (labels lo) -> ~ In id (labels hi) -> knownl lo -> knownl hi ->
    get_item (univ_of m) id = Some x -> branch id lo hi = Some r ->
    same ls (dfam lo) -> same hs (dfam hi) -> same es (dfam r) -> pushed c x ls hs es.
  Proof.
    induction k as [|k IH]; intros n id x lo hi r ls hs es F L Wl Wh Nl Nh Kl Kh Ex E Ql Qh Qe.
    { pose proof (size_pos lo). lia. }
    assert (Above : zwf (S id) hi -> pushed c x ls hs es).
    { intros A. destruct (dd_eqb_spec hi Never) as [->|N].
      - apply pushed_none.
        + intros t J. apply Qh in J. destruct J.
        + unfold branch in E. rewrite Nat.add_comm in E. cbn in E. assert (r = lo) by (destruct lo; congruence). subst r.
          intros t. rewrite Qe, Ql. reflexivity.
      - apply pushed_top.
        + destruct (zwf_nonempty _ _ A N) as (s & S_). exists (items s). apply Qh, dfam_in. eauto.
        + intros t z J Z. apply Qh, dfam_in in J. destruct J as (s & S_ & ->).
          apply items_in in Z. destruct Z as (q & Q & Z). apply (Hc id q); auto.
          apply (paths_labels _ _ _ S_) in Q. apply (zwf_label _ _ _ A) in Q. lia.
        + rewrite (branch_ins_lo n id lo hi) in E by assumption. injection E as <-.
          intros t. rewrite Qe, (dfam_ins_lo n id x lo hi t Ex Wl Kl A), Ql. setoid_rewrite Qh.
          split; [intros [(J & _)|J]; auto|]. intros [J|J]; [left|auto]. split; [exact J|].
          intros (I1 & _). apply dfam_in in J. destruct J as (s & S_ & ->). apply (item_in_iff m Hm id x s Ex) in I1.
          apply Nl. eapply paths_labels; eauto. }
    destruct hi as [b|h hl hh]; [apply Above; exact I|].
    pose proof Wh as (B1 & B2 & B3 & B4).
    destruct (Nat.lt_ge_cases id h) as [G|G]; [apply Above; repeat split; auto; lia|].
    assert (Lh : h < id). { destruct (Nat.eq_dec h id) as [->|]; [exfalso; apply Nh; left; reflexivity|lia]. }
    clear Above G.
    assert (Nhl : ~ In id (labels hl)) by (intros J; apply Nh; cbn; right; apply in_or_app; auto).
    assert (Nhh : ~ In id (labels hh)) by (intros J; apply Nh; cbn; right; apply in_or_app; auto).
    assert (Khl : knownl hl) by (eapply knownl_lo; eauto). assert (Khh : knownl hh) by (eapply knownl_hi; eauto).
    destruct (knownl_item _ _ _ _ Kh) as (y & Y).
    assert (By : before c y x) by (apply (Hc h id); auto).
    assert (Ldh : leads c y hs).
    { eapply leads_ext; [intros t; symmetry; apply Qh|]. eapply dfam_leads; eauto. }
    assert (Q1 : same (without y hs) (dfam hl)).
    { intros t. rewrite (without_ext y _ _ Qh). eapply dfam_without; eauto. }
    assert (Q2 : same (link y hs) (dfam hh)).
    { intros t. rewrite (link_ext y _ _ Qh). eapply dfam_link; eauto. }
    assert (Hs : branch_f (S (size lo + size (Branch h hl hh) + 2)) id lo (Branch h hl hh) = Some r).
    { rewrite <- E. unfold branch. f_equal. lia. }
    assert (Hi : ~ leads c y ls -> (let! high' := branch_f (size lo + size (Branch h hl hh) + 2) id hl hh in
                branch_f (size lo + size (Branch h hl hh) + 2) h lo high') = Some r -> pushed c x ls hs es).
    { intros NL E'. apply bind_some in E'. destruct E' as (e & E1 & E2).
      destruct (branch_total (S h) id hl hh) as (e' & Ee & We & _); auto.
      assert (e = e').
      { unfold branch in Ee. apply (branch_f_mono _ (size lo + size (Branch h hl hh) + 2)) in Ee; [congruence|].
        cbn [size]. pose proof (size_pos lo). lia. } subst e'.
      destruct (branch_kept (S h) id hl hh e) as (K1 & K2 & _); auto.
      assert (Ne : e <> Never) by (intros ->; destruct (K2 eq_refl); contradiction).
      rewrite (branch_f_ins_lo _ n h lo e) in E2; auto; [|cbn [size]; lia].
      injection E2 as <-. apply (pushed_high c x y ls hs es (dfam e)); auto.
      - apply (IH (S h) id x hl hh e); auto; [cbn [size] in F; pose proof (size_pos lo); lia|reflexivity].
      - intros t. rewrite Qe, (dfam_ins_lo n h y lo e t Y Wl Kl We), Ql. reflexivity. }
    destruct lo as [b|l ll lh]; cbn [branch_f] in Hs.
    - destruct (Nat.ltb_spec h id); [|lia]. apply Hi; [|exact Hs].
      intros ((t & J & Yt) & _). apply Ql, dfam_in in J. destruct J as (s & S_ & ->).
      apply (item_in_iff m Hm h y s Y) in Yt. apply (paths_labels _ _ _ S_) in Yt. destruct Yt.
    - pose proof Wl as (A1 & A2 & A3 & A4). destruct (Nat.ltb_spec h id) as [_|]; [|lia]. cbn [andb] in Hs.
      destruct (Nat.eqb_spec l h) as [->|Nlh].
      2:{ apply Hi; [|exact Hs]. intros X. destruct (knownl_item _ _ _ _ Kl) as (z & Z).
          assert (z = y).
          { apply (leads_fun c z y (dfam (Branch l ll lh))); [eapply dfam_leads; eauto|eapply leads_ext; eauto]. }
          subst z. apply Nlh. eapply (get_item_inj m); eauto. }
      clear Hi E.
      assert (Kll : knownl ll) by (eapply knownl_lo; eauto). assert (Klh : knownl lh) by (eapply knownl_hi; eauto).
      assert (Nll : ~ In id (labels ll)) by (intros J; apply Nl; cbn; right; apply in_or_app; auto).
      assert (Nlh' : ~ In id (labels lh)) by (intros J; apply Nl; cbn; right; apply in_or_app; auto).
      set (kk := size (Branch h ll lh) + size (Branch h hl hh) + 2) in *.
      apply bind_some in Hs. destruct Hs as (u & E1 & E). apply bind_some in E. destruct E as (v & E2 & E3).
      destruct (branch_total (S h) id ll hl) as (u' & Eu & Wu & _); auto.
      destruct (branch_total (S h) id lh hh) as (v' & Ev & Wv & _); auto.
      assert (u = u').
      { unfold branch in Eu. apply (branch_f_mono _ kk) in Eu; [congruence|]. unfold kk. cbn [size]. lia. } subst u'.
      assert (v = v').
      { unfold branch in Ev. apply (branch_f_mono _ kk) in Ev; [congruence|]. unfold kk. cbn [size]. lia. } subst v'.
      assert (F1 : size ll + size hl <= k) by (cbn [size] in F; lia).
      assert (F2 : size lh + size hh <= k) by (cbn [size] in F; lia).
      replace kk with (S (size (Branch h ll lh) + size (Branch h hl hh) + 1)) in E3 by (unfold kk; lia).
      rewrite branch_f_direct in E3 by assumption. injection E3 as <-.
      apply (pushed_both c x y ls hs es (dfam u) (dfam v)); auto.
      + eapply leads_ext; [intros t; symmetry; apply Ql|]. eapply dfam_leads; eauto.
      + apply (IH (S h) id x ll hl u); auto; [|reflexivity].
        intros t. rewrite (without_ext y _ _ Ql). eapply dfam_without; eauto.
      + apply (IH (S h) id x lh hh v); auto; [|reflexivity].
        intros t. rewrite (link_ext y _ _ Ql). eapply dfam_link; eauto.
      + intros t. rewrite Qe, (dfam_with h y v t Y Wv), !dfam_in. setoid_rewrite zmk_paths. split.
        * intros (s & [(s' & -> & S_)|S_] & ->); [right|left]; eauto.
        * intros [(s & S_ & ->)|(s & S_ & ->)]; [eauto|]. exists (h :: s). split; [left; eauto|reflexivity].
  Qed.
End Push.

Section Resort.
  Context {T : Type} `{Ord T}.
  Variables old new : list (T * nat).
  Hypothesis Hold : map_ok old.
  Hypothesis Hnew : map_ok new.
  Hypothesis Hkeys : forall x, In x (map fst old) -> In x (map fst new).
  Variables c c' : T -> nat.
  Hypothesis Hc : forall p q x y, get_item (univ_of old) p = Some x -> get_item (univ_of old) q = Some y ->
    (p < q <-> before c x y).
  Hypothesis Hc' : forall p q x y, get_item (univ_of new) p = Some x -> get_item (univ_of new) q = Some y ->
    (p < q <-> before c' x y).
  Local Notation tr := (tr old new).

  Lemma retag_resorted t : forall n r fs, zwf n t -> known_labels old t -> retag tr t = Some r ->
    (forall z, In z fs <-> In z (dfam old t)) -> resorted c c' fs (dfam new r).
  Proof.
    induction t as [b|i lo IHl hi IHh]; intros n r fs W K E Q.
    - cbn in E. assert (r = Leaf b) by (destruct b; congruence). subst r. apply resorted_done.
      + intros z x Z X. apply Q, dfam_in in Z. destruct Z as (s & S_ & ->).
        apply items_in in X. destruct X as (q & P & _). apply (paths_labels _ _ _ S_) in P. destruct P.
      + intros z. rewrite Q. destruct b; reflexivity.
    - pose proof W as (_ & _ & Wl & Wh).
      assert (Kl : known_labels old lo) by (apply (knownl_lo old i lo hi K)).
      assert (Kh : known_labels old hi) by (apply (knownl_hi old i lo hi K)).
      destruct (knownl_item old i lo hi K) as (x & Ex).
      cbn [retag] in E. apply bind_some in E. destruct E as (lo' & El & E). apply bind_some in E. destruct E as (hi' & Eh & E).
      destruct (retag_total tr lo) as (l1 & El1 & Wl1 & Ll). assert (l1 = lo') by congruence. subst l1.
      destruct (retag_total tr hi) as (h1 & Eh1 & Wh1 & Lh). assert (h1 = hi') by congruence. subst h1.
      assert (Fresh : forall t' t1, (forall q, In q (labels t') -> exists p, In p (labels t1) /\ q = tr p) ->
        known_labels old t1 -> zwf (S i) t1 -> ~ In (tr i) (labels t')).
      { intros t' t1 Lt Kt Wt J. destruct (Lt _ J) as (p & P & X).
        apply (tr_inj old new Hold Hnew Hkeys) in X; [subst p|apply K; left; reflexivity|apply Kt, P].
        apply (zwf_label _ _ _ Wt) in P. lia. }
      apply (resorted_split c c' x fs (dfam new lo') (dfam new hi')).
      + eapply leads_ext; [intros z; symmetry; apply Q|]. eapply dfam_leads; eauto.
      + eapply IHl; eauto. intros z. rewrite (without_ext x _ _ Q). eapply dfam_without; eauto.
      + eapply IHh; eauto. intros z. rewrite (link_ext x _ _ Q). eapply dfam_link; eauto.
      + apply (branch_pushed new Hnew c' Hc' (size lo' + size hi') 0 (tr i) x lo' hi' r); auto; try reflexivity; try lia.
        * apply (Fresh lo' lo); auto.
        * apply (Fresh hi' hi); auto.
        * apply (retag_knownl old new Hnew Hkeys lo); assumption.
        * apply (retag_knownl old new Hnew Hkeys hi); assumption.
        * apply tr_get_item; auto. apply K; left; reflexivity.
  Qed.
  Lemma translate_resorted t n r : zwf n t -> known_labels old t ->
    translate_root (univ_of old) (univ_of new) t = Some r -> resorted c c' (dfam old t) (dfam new r).
  Proof.
    intros W K E. rewrite (translate_retag old new Hnew Hkeys) in E by exact K. eapply retag_resorted; eauto. reflexivity.
  Qed.
End Resort.
