(** Zdd2Sink: exactly when Node::branch, and re-ordering a whole diagram with it,
    keep the family of paths.  Label level; no items. *)
From Coq Require Import List Arith Lia Bool Permutation.
From Verif Require Import Base DD Zdd2Model Zdd2Node Zdd2Node2 Zdd2Exact.
Import ListNotations.

(** [dsinks id lo hi]: the branch [id] can be pushed down below the labels of [hi]
    that come before [id] without loss *)
Inductive dsinks (id : nat) : node -> node -> Prop :=
| dk_stay lo hi : (forall q, In q (labels hi) -> id < q) -> dsinks id lo hi
| dk_both h ll lh hl hh : h < id -> dsinks id ll hl -> dsinks id lh hh ->
    dsinks id (Branch h ll lh) (Branch h hl hh)
| dk_forced h lo hh : h < id -> ~ In h (lo_chain lo) -> dsinks id Never hh ->
    dsinks id lo (Branch h Never hh).

(** number of paths; weight of the paths, a path [s] counting 1 + the sum of [g q + 1] *)
Definition np (t : node) : nat := length (paths t).
Fixpoint wt (g : nat -> nat) (t : node) : nat :=
  match t with
  | Leaf true => 1
  | Leaf false => 0
  | Branch i lo hi => wt g lo + wt g hi + S (g i) * np hi
  end.
Definition ww (g : nat -> nat) (s : list nat) : nat := S (list_sum (map (fun q => S (g q)) s)).

Lemma np_branch i lo hi : np (Branch i lo hi) = np lo + np hi.
Proof. apply len_branch. Qed.
Lemma wt_sum g t : wt g t = list_sum (map (ww g) (paths t)).
Proof.
  induction t as [[]|i lo IHl hi IHh]; try reflexivity.
  cbn [wt paths]. rewrite map_app, list_sum_app, <- IHl, map_map.
  assert (Y : forall a, ww g (i :: a) = ww g a + S (g i)).
  { intros a. unfold ww. change (list_sum (map (fun q => S (g q)) (i :: a))) with (S (g i) + list_sum (map (fun q => S (g q)) a)). lia. }
  assert (X : forall l, list_sum (map (fun s => ww g (i :: s)) l) = list_sum (map (ww g) l) + S (g i) * length l).
  { intros l. induction l as [|a l IH]; [cbn; lia|].
    change (list_sum (map (fun s => ww g (i :: s)) (a :: l))) with (ww g (i :: a) + list_sum (map (fun s => ww g (i :: s)) l)).
    change (list_sum (map (ww g) (a :: l))) with (ww g a + list_sum (map (ww g) l)).
    rewrite IH, Y. cbn [length]. lia. }
  rewrite X, <- IHh. unfold np. lia.
Qed.
Lemma wt_zmk g id lo hi : wt g (zmk id lo hi) = wt g lo + wt g hi + S (g id) * np hi.
Proof. destruct hi as [[]|]; unfold zmk; cbn; lia. Qed.
Lemma np_zero n t : zwf n t -> np t = 0 -> t = Never.
Proof.
  intros W Z. destruct (dd_eqb_spec t Never) as [|N]; [assumption|exfalso].
  destruct (zwf_nonempty _ _ W N) as (s & S_). unfold np in Z. destruct (paths t); [destruct S_|discriminate].
Qed.
Lemma wt_pos g n t : zwf n t -> t <> Never -> 0 < wt g t.
Proof.
  intros W N. rewrite wt_sum. destruct (zwf_nonempty _ _ W N) as (s & S_).
  destruct (paths t) as [|a l]; [destruct S_|]. cbn. lia.
Qed.
Lemma wt_ins_lo n id lo hi : zwf n lo ->
  wt (fun q => q) (ins_lo id lo hi) <= wt (fun q => q) lo + wt (fun q => q) hi + S id * np hi /\
  (In id (lo_chain lo) -> wt (fun q => q) (ins_lo id lo hi) < wt (fun q => q) lo + wt (fun q => q) hi + S id * np hi).
Proof.
  revert n. induction lo as [b|l ll IHl lh _]; intros n W.
  - cbn [ins_lo]. cbn [wt lo_chain]. split; [|intros []]. lia.
  - destruct W as (A1 & A2 & A3 & A4). destruct (IHl _ A3) as (I1 & I2).
    pose proof (wt_pos (fun q => q) _ _ A4 A2) as P. cbn [ins_lo lo_chain].
    destruct (Nat.ltb_spec l id); [|destruct (Nat.eqb_spec l id)].
    + cbn [wt]. split; [lia|]. intros [->|J]; [lia|]. specialize (I2 J). lia.
    + cbn [wt]. split; lia.
    + cbn [wt]. split; [lia|]. intros [->|J]; [lia|]. apply lo_chain_labels in J.
      pose proof (zwf_label _ _ _ A3 J). lia.
Qed.

(** only if *)
Lemma branch_weight k : forall n id lo hi r, size lo + size hi <= k -> n <= id -> zwf n lo -> zwf n hi -> ~ In id (labels hi) ->
  branch id lo hi = Some r ->
  wt (fun q => q) r <= wt (fun q => q) lo + wt (fun q => q) hi + S id * np hi /\
  (wt (fun q => q) r = wt (fun q => q) lo + wt (fun q => q) hi + S id * np hi -> dsinks id lo hi).
Proof.
  induction k as [|k IH]; intros n id lo hi r F L Wl Wh Nh E.
  { pose proof (size_pos lo). lia. }
  assert (Above : zwf (S id) hi ->
    wt (fun q => q) r <= wt (fun q => q) lo + wt (fun q => q) hi + S id * np hi /\
    (wt (fun q => q) r = wt (fun q => q) lo + wt (fun q => q) hi + S id * np hi -> dsinks id lo hi)).
  { intros A. assert (S_ : dsinks id lo hi) by (apply dk_stay; intros q Q; apply (zwf_label _ _ _ A) in Q; lia).
    split; [|intros _; exact S_]. destruct (dd_eqb_spec hi Never) as [->|N].
    - unfold branch in E. rewrite Nat.add_comm in E. cbn in E. assert (r = lo) by (destruct lo; congruence). subst. lia.
    - rewrite (branch_ins_lo n id lo hi) in E by assumption. injection E as <-. eapply wt_ins_lo; eauto. }
  destruct hi as [b|h hl hh]; [apply Above; exact I|].
  pose proof Wh as (B1 & B2 & B3 & B4).
  destruct (Nat.lt_ge_cases id h) as [G|G]; [apply Above; repeat split; auto; lia|].
  assert (Lh : h < id). { destruct (Nat.eq_dec h id) as [->|]; [exfalso; apply Nh; left; reflexivity|lia]. }
  clear Above G.
  assert (Nl : ~ In id (labels hl)) by (intros J; apply Nh; cbn; right; apply in_or_app; auto).
  assert (Nhh : ~ In id (labels hh)) by (intros J; apply Nh; cbn; right; apply in_or_app; auto).
  assert (Hs : branch_f (S (size lo + size (Branch h hl hh) + 2)) id lo (Branch h hl hh) = Some r).
  { rewrite <- E. unfold branch. f_equal. lia. }
  (* the arm with a label of [hi] before [id] that is not the top of [lo] *)
  assert (Hi : (let! high' := branch_f (size lo + size (Branch h hl hh) + 2) id hl hh in
                branch_f (size lo + size (Branch h hl hh) + 2) h lo high') = Some r ->
    wt (fun q => q) r <= wt (fun q => q) lo + wt (fun q => q) (Branch h hl hh) + S id * np (Branch h hl hh) /\
    (wt (fun q => q) r = wt (fun q => q) lo + wt (fun q => q) (Branch h hl hh) + S id * np (Branch h hl hh) ->
     dsinks id lo (Branch h hl hh))).
  { intros E'. apply bind_some in E'. destruct E' as (x & E1 & E2).
    destruct (branch_total (S h) id hl hh) as (x' & Ex & Wx & _); auto.
    assert (x = x').
    { unfold branch in Ex. apply (branch_f_mono _ (size lo + size (Branch h hl hh) + 2)) in Ex; [congruence|].
      cbn [size]. pose proof (size_pos lo). lia. } subst x'.
    assert (Fx : size hl + size hh <= k) by (cbn [size] in F; pose proof (size_pos lo); lia).
    destruct (IH (S h) id hl hh x Fx Lh B3 B4 Nhh Ex) as (I1 & I2).
    destruct (branch_kept (S h) id hl hh x) as (K1 & K2 & _); auto.
    assert (Nx : x <> Never) by (intros ->; destruct (K2 eq_refl); contradiction).
    rewrite (branch_f_ins_lo _ n h lo x) in E2; auto.
    2:{ cbn [size]. lia. }
    injection E2 as <-. destruct (wt_ins_lo n h lo x Wl) as (J1 & J2).
    fold (np x) in K1. fold (np hl) in K1. fold (np hh) in K1.
    rewrite np_branch. cbn [wt].
    assert (X1 : S h * np x <= S h * np hl + S h * np hh) by nia.
    assert (X2 : S h * np hl <= S id * np hl) by nia.
    split; [lia|]. intros Eq.
    assert (np hl = 0) by nia.
    assert (hl = Never) as -> by (apply (np_zero (S h)); assumption).
    apply dk_forced; [exact Lh| |].
    - intros J. specialize (J2 J). lia.
    - apply I2. lia. }
  destruct lo as [b|l ll lh]; cbn [branch_f] in Hs.
  - destruct (Nat.ltb_spec h id); [auto|lia].
  - pose proof Wl as (A1 & A2 & A3 & A4). destruct (Nat.ltb_spec h id) as [_|]; [|lia]. cbn [andb] in Hs.
    destruct (Nat.eqb_spec l h) as [->|Nlh]; [|auto]. clear Hi E.
    set (kk := size (Branch h ll lh) + size (Branch h hl hh) + 2) in *.
    apply bind_some in Hs. destruct Hs as (x & E1 & E). apply bind_some in E. destruct E as (y & E2 & E3).
    destruct (branch_total (S h) id ll hl) as (x' & Ex & Wx & _); auto.
    destruct (branch_total (S h) id lh hh) as (y' & Ey & Wy & _); auto.
    assert (x = x').
    { unfold branch in Ex. apply (branch_f_mono _ kk) in Ex; [congruence|]. unfold kk. cbn [size]. lia. } subst x'.
    assert (y = y').
    { unfold branch in Ey. apply (branch_f_mono _ kk) in Ey; [congruence|]. unfold kk. cbn [size]. lia. } subst y'.
    assert (F1 : size ll + size hl <= k) by (cbn [size] in F; lia).
    assert (F2 : size lh + size hh <= k) by (cbn [size] in F; lia).
    destruct (IH (S h) id ll hl x F1 Lh A3 B3 Nl Ex) as (I1 & I2).
    destruct (IH (S h) id lh hh y F2 Lh A4 B4 Nhh Ey) as (J1 & J2).
    destruct (branch_kept (S h) id lh hh y) as (K1 & _); auto. fold (np y) in K1. fold (np lh) in K1. fold (np hh) in K1.
    replace kk with (S (size (Branch h ll lh) + size (Branch h hl hh) + 1)) in E3 by (unfold kk; lia).
    rewrite branch_f_direct in E3 by assumption. injection E3 as <-. rewrite wt_zmk.
    rewrite !np_branch. cbn [wt].
    assert (X : S h * np y <= S h * np lh + S h * np hh) by nia.
    split; [lia|]. intros Eq. apply dk_both; [exact Lh| |].
    + apply I2. lia.
    + apply J2. lia.
Qed.

(** if *)
Lemma dsinks_exact id lo hi : dsinks id lo hi -> forall n, n <= id -> zwf n lo -> zwf n hi ->
  ~ In id (labels lo) -> ~ In id (labels hi) ->
  exists r, branch id lo hi = Some r /\
    forall s, In s (paths r) <-> In s (paths lo) \/ exists s', In s' (paths hi) /\ s = ins_s id s'.
Proof.
  assert (Ins : forall t s, zwf (S id) t -> In s (paths t) -> ins_s id s = id :: s).
  { intros t s W J. pose proof (zwf_paths _ _ _ W J) as A. destruct s as [|a s]; [reflexivity|].
    cbn [asc] in A. cbn [ins_s]. destruct (Nat.ltb_spec a id); [lia|]. destruct (Nat.eqb_spec a id); [lia|reflexivity]. }
  induction 1 as [lo hi Hs|h ll lh hl hh Lh D1 IH1 D2 IH2|h lo hh Lh Nc D IH]; intros n L Wl Wh Nl Nh.
  - assert (A : zwf (S id) hi).
    { clear - Wh Hs. revert n Wh Hs. induction hi as [b|h hl IHl hh IHh]; intros n Wh Hs; [exact I|].
      destruct Wh as (B1 & B2 & B3 & B4). repeat split; auto. specialize (Hs h (or_introl eq_refl)). lia. }
    destruct (dd_eqb_spec hi Never) as [->|N].
    + exists lo. split; [unfold branch; rewrite Nat.add_comm; cbn; destruct lo; reflexivity|].
      intros s. split; [auto|]. intros [J|(s' & [] & _)]; exact J.
    + rewrite (branch_ins_lo n) by assumption. eexists. split; [reflexivity|]. intros s.
      rewrite ins_lo_paths by (intros J; apply Nl, lo_chain_labels, J). split.
      * intros [(s' & -> & J)|J]; [|auto]. right. exists s'. rewrite (Ins hi s' A J). auto.
      * intros [J|(s' & J & ->)]; [auto|]. left. exists s'. rewrite (Ins hi s' A J). auto.
  - destruct Wl as (A1 & A2 & A3 & A4). destruct Wh as (B1 & B2 & B3 & B4).
    cbn [labels In] in Nl, Nh. rewrite in_app_iff in Nl, Nh.
    destruct (IH1 (S h)) as (x & Ex & Px); auto; try tauto.
    destruct (IH2 (S h)) as (y & Ey & Py); auto; try tauto.
    destruct (branch_total (S h) id ll hl) as (x' & Ex' & Wx & _); auto. assert (x' = x) by congruence. subst x'.
    destruct (branch_total (S h) id lh hh) as (y' & Ey' & Wy & _); auto. assert (y' = y) by congruence. subst y'.
    exists (zmk h x y). split.
    + unfold branch. replace (size (Branch h ll lh) + size (Branch h hl hh) + 3) with (S (size (Branch h ll lh) + size (Branch h hl hh) + 2)) by lia.
      cbn [branch_f]. destruct (Nat.ltb_spec h id); [|lia]. rewrite Nat.eqb_refl. cbn [andb].
      set (kk := size (Branch h ll lh) + size (Branch h hl hh) + 2).
      unfold branch in Ex, Ey. apply (branch_f_mono _ kk) in Ex; [|unfold kk; cbn [size]; lia].
      apply (branch_f_mono _ kk) in Ey; [|unfold kk; cbn [size]; lia]. rewrite Ex. cbn [bind]. rewrite Ey. cbn [bind].
      unfold kk. rewrite Nat.add_comm. cbn [Nat.add]. apply branch_f_direct; assumption.
    + intros s. rewrite zmk_paths, Px. setoid_rewrite Py. rewrite !paths_branch. setoid_rewrite paths_branch.
      assert (Q : forall s', ins_s id (h :: s') = h :: ins_s id s').
      { intros s'. cbn [ins_s]. destruct (Nat.ltb_spec h id); [reflexivity|lia]. }
      split.
      * intros [(s' & -> & [J|(s2 & J & ->)])|[J|(s' & J & ->)]].
        -- left. left. eauto.
        -- right. exists (h :: s2). split; [left; eauto|]. rewrite Q. reflexivity.
        -- auto.
        -- right. exists s'. auto.
      * intros [[(s' & -> & J)|J]|(s' & [(s2 & -> & J)|J] & ->)].
        -- left. exists s'. auto.
        -- auto.
        -- left. exists (ins_s id s2). rewrite Q. split; [reflexivity|]. right. eauto.
        -- right. right. eauto.
  - destruct Wh as (B1 & B2 & B3 & B4).
    cbn [labels In app] in Nh.
    destruct (IH (S h)) as (x & Ex & Px); auto; try tauto.
    destruct (branch_total (S h) id Never hh) as (x' & Ex' & Wx & _); auto. assert (x' = x) by congruence. subst x'.
    assert (Nx : x <> Never).
    { intros ->. destruct (zwf_nonempty _ _ B4 B2) as (s & J). apply (Px (ins_s id s)). right. eauto. }
    exists (ins_lo h lo x). split.
    + unfold branch. replace (size lo + size (Branch h Never hh) + 3) with (S (size lo + size (Branch h Never hh) + 2)) by lia.
      set (kk := size lo + size (Branch h Never hh) + 2).
      assert (X : branch_f (S kk) id lo (Branch h Never hh) = (let! high' := branch_f kk id Never hh in branch_f kk h lo high')).
      { cbn [branch_f]. destruct lo as [b|l ll lh]; destruct (Nat.ltb_spec h id); try lia; [reflexivity|].
        cbn [andb]. destruct (Nat.eqb_spec l h) as [->|]; [exfalso; apply Nc; left; reflexivity|reflexivity]. }
      rewrite X. unfold branch in Ex. apply (branch_f_mono _ kk) in Ex; [|unfold kk; cbn [size]; pose proof (size_pos lo); lia].
      rewrite Ex. cbn [bind]. apply (branch_f_ins_lo _ n); auto. unfold kk. cbn [size]. lia.
    + intros s. rewrite ins_lo_paths by exact Nc. setoid_rewrite Px. setoid_rewrite paths_branch.
      assert (Q : forall s', ins_s id (h :: s') = h :: ins_s id s').
      { intros s'. cbn [ins_s]. destruct (Nat.ltb_spec h id); [reflexivity|lia]. }
      split.
      * intros [(s' & -> & [[]|(s2 & J & ->)])|J]; [|auto]. right. exists (h :: s2). rewrite Q. split; [left; eauto|reflexivity].
      * intros [J|(s' & [(s2 & -> & J)|[]] & ->)]; [auto|]. left. exists (ins_s id s2). rewrite Q. split; [reflexivity|]. right. eauto.
Qed.

Lemma NoDup_map_in {A B} (f : A -> B) l : (forall x y, In x l -> In y l -> f x = f y -> x = y) -> NoDup l -> NoDup (map f l).
Proof.
  induction l as [|a l IH]; intros J N; simpl; constructor; inversion N; subst.
  - rewrite in_map_iff. intros (y & E & Hy). apply J in E; [congruence|right; auto|left; auto].
  - apply IH; auto. intros x y X Y. apply J; right; auto.
Qed.

(** ** re-ordering a whole diagram: every label [i] becomes [tr i] *)
Section Retag.
  Variable tr : nat -> nat.
  Fixpoint retag (t : node) : option node :=
    match t with
    | Branch i lo hi => let! lo' := retag lo in let! hi' := retag hi in branch (tr i) lo' hi'
    | _ => Some t
    end.
  Fixpoint dsettled (t : node) : Prop :=
    match t with
    | Leaf _ => True
    | Branch i lo hi => dsettled lo /\ dsettled hi /\
        exists lo' hi', retag lo = Some lo' /\ retag hi = Some hi' /\ dsinks (tr i) lo' hi'
    end.

  Definition inj_on (t : node) : Prop := forall p q, In p (labels t) -> In q (labels t) -> tr p = tr q -> p = q.
  Lemma inj_lo i lo hi : inj_on (Branch i lo hi) -> inj_on lo.
  Proof. intros J p q P Q. apply J; cbn; right; apply in_or_app; auto. Qed.
  Lemma inj_hi i lo hi : inj_on (Branch i lo hi) -> inj_on hi.
  Proof. intros J p q P Q. apply J; cbn; right; apply in_or_app; auto. Qed.

  Lemma retag_total t : exists r, retag t = Some r /\ zwf 0 r /\
    forall q, In q (labels r) -> exists p, In p (labels t) /\ q = tr p.
  Proof.
    induction t as [b|i lo (l & El & Wl & Ll) hi (h & Eh & Wh & Lh)].
    - exists (Leaf b). split; [destruct b; reflexivity|]. split; [exact I|]. intros q [].
    - cbn [retag]. rewrite El. cbn [bind]. rewrite Eh. cbn [bind].
      destruct (branch_total 0 (tr i) l h) as (r & Er & Wr & Lr); auto; [lia|].
      exists r. split; [exact Er|]. split; [exact Wr|]. intros q Q. cbn [labels In]. setoid_rewrite in_app_iff.
      destruct (Lr q Q) as [->|[J|J]]; [eauto| |].
      + destruct (Ll q J) as (p & P & ->). eauto.
      + destruct (Lh q J) as (p & P & ->). eauto.
  Qed.
  Lemma retag_fresh n i lo hi lo' hi' : zwf n (Branch i lo hi) -> inj_on (Branch i lo hi) ->
    retag lo = Some lo' -> retag hi = Some hi' -> ~ In (tr i) (labels lo') /\ ~ In (tr i) (labels hi').
  Proof.
    intros (_ & _ & Wl & Wh) J El Eh. split; intros Q.
    - destruct (retag_total lo) as (x & Ex & _ & Lx). assert (x = lo') by congruence. subst x.
      destruct (Lx _ Q) as (p & P & E). apply J in E; [|left; reflexivity|right; apply in_or_app; auto].
      apply (zwf_label _ _ _ Wl) in P. lia.
    - destruct (retag_total hi) as (x & Ex & _ & Lx). assert (x = hi') by congruence. subst x.
      destruct (Lx _ Q) as (p & P & E). apply J in E; [|left; reflexivity|right; apply in_or_app; auto].
      apply (zwf_label _ _ _ Wh) in P. lia.
  Qed.

  (** [s'] is [s] re-ordered *)
  Definition is_tr (s s' : list nat) : Prop := asc 0 s' /\ forall q, In q s' <-> exists p, In p s /\ q = tr p.
  Definition dexact (t r : node) : Prop := forall s', In s' (paths r) <-> exists s, In s (paths t) /\ is_tr s s'.

  Lemma ins_s_tr i s s' : is_tr s s' -> is_tr (i :: s) (ins_s (tr i) s').
  Proof.
    intros (A & B). split; [apply ins_s_asc; [lia|exact A]|]. intros q. rewrite ins_s_in, B. cbn [In]. split.
    - intros [->|(p & P & ->)]; eauto.
    - intros (p & [<-|P] & ->); eauto.
  Qed.
  Lemma is_tr_exists s : exists s', is_tr s s'.
  Proof.
    induction s as [|i s (s' & IH)].
    - exists []. split; [exact I|]. intros q. split; [intros []|intros (p & [] & _)].
    - exists (ins_s (tr i) s'). apply ins_s_tr, IH.
  Qed.
  Lemma is_tr_fun s s1 s2 : is_tr s s1 -> is_tr s s2 -> s1 = s2.
  Proof. intros (A1 & B1) (A2 & B2). apply (asc_ext 0 0); auto. intros q. rewrite B1, B2. reflexivity. Qed.

  Lemma dsettled_exact t : forall n r, zwf n t -> inj_on t -> retag t = Some r -> dsettled t -> dexact t r.
  Proof.
    induction t as [b|i lo IHl hi IHh]; intros n r W J E D.
    - assert (r = Leaf b) as -> by (destruct b; cbn in E; congruence). intros s'. destruct b; cbn [paths].
      + split.
        * intros [<-|[]]. exists []. split; [left; reflexivity|]. split; [exact I|]. intros q. split; [intros []|intros (p & [] & _)].
        * intros (s & [<-|[]] & (_ & B)). left. destruct s' as [|q s']; [reflexivity|].
          destruct (proj1 (B q) (or_introl eq_refl)) as (p & [] & _).
      + split; [intros []|intros (s & [] & _)].
    - destruct D as (Dl & Dh & l & h & El & Eh & Ds). cbn [retag] in E. rewrite El in E. cbn [bind] in E. rewrite Eh in E. cbn [bind] in E.
      pose proof W as (_ & _ & Wl & Wh).
      pose proof (IHl _ _ Wl (inj_lo _ _ _ J) El Dl) as Xl. pose proof (IHh _ _ Wh (inj_hi _ _ _ J) Eh Dh) as Xh.
      destruct (retag_total lo) as (l1 & El1 & Wl1 & _). assert (l1 = l) by congruence. subst l1.
      destruct (retag_total hi) as (h1 & Eh1 & Wh1 & _). assert (h1 = h) by congruence. subst h1.
      destruct (retag_fresh _ _ _ _ _ _ W J El Eh) as (N1 & N2).
      destruct (dsinks_exact _ _ _ Ds 0 (Nat.le_0_l _) Wl1 Wh1 N1 N2) as (r' & Er & Pr). assert (r' = r) by congruence. subst r'.
      intros s'. rewrite Pr. setoid_rewrite paths_branch. split.
      + intros [K|(s2 & K & ->)].
        * apply Xl in K. destruct K as (s & S_ & T). eauto.
        * apply Xh in K. destruct K as (s & S_ & T). exists (i :: s). split; [left; eauto|]. apply ins_s_tr, T.
      + intros (s & [(s2 & -> & K)|K] & T).
        * right. destruct (is_tr_exists s2) as (s3 & T3). exists s3. split; [apply Xh; eauto|].
          apply (is_tr_fun (i :: s2)); [exact T|apply ins_s_tr, T3].
        * left. apply Xl. eauto.
  Qed.

  Lemma retag_weight t : forall n r, zwf n t -> inj_on t -> retag t = Some r ->
    np r <= np t /\ wt (fun q => q) r <= wt tr t /\ (wt (fun q => q) r = wt tr t -> dsettled t).
  Proof.
    induction t as [b|i lo IHl hi IHh]; intros n r W J E.
    - assert (r = Leaf b) as -> by (destruct b; cbn in E; congruence). cbn [dsettled]. destruct b; cbn; auto.
    - pose proof W as (_ & _ & Wl & Wh).
      destruct (retag_total lo) as (l & El & Wl1 & _). destruct (retag_total hi) as (h & Eh & Wh1 & _).
      cbn [retag] in E. rewrite El in E. cbn [bind] in E. rewrite Eh in E. cbn [bind] in E.
      destruct (IHl _ _ Wl (inj_lo _ _ _ J) El) as (P1 & P2 & P3). destruct (IHh _ _ Wh (inj_hi _ _ _ J) Eh) as (Q1 & Q2 & Q3).
      destruct (retag_fresh _ _ _ _ _ _ W J El Eh) as (N1 & N2).
      destruct (branch_weight _ 0 (tr i) l h r (Nat.le_refl _) (Nat.le_0_l _) Wl1 Wh1 N2 E) as (B1 & B2).
      destruct (branch_kept 0 (tr i) l h r) as (K & _); auto; [lia|]. fold (np r) in K. fold (np l) in K. fold (np h) in K.
      rewrite np_branch. cbn [wt dsettled]. assert (X : S (tr i) * np h <= S (tr i) * np hi) by nia.
      split; [lia|]. split; [lia|]. intros Eq. split; [apply P3; lia|]. split; [apply Q3; lia|].
      exists l, h. split; [exact El|]. split; [exact Eh|]. apply B2. lia.
  Qed.

  Lemma sum_perm (l m : list nat) : Permutation l m -> list_sum l = list_sum m.
  Proof. unfold list_sum. induction 1; cbn [fold_right] in *; lia. Qed.
  Lemma asc_NoDup n s : asc n s -> NoDup s.
  Proof. intros A. apply ssorted_NoDup. eapply asc_ssorted; eauto. Qed.
  Lemma is_tr_weight n s s' : asc n s -> (forall p q, In p s -> In q s -> tr p = tr q -> p = q) -> is_tr s s' ->
    ww (fun q => q) s' = ww tr s.
  Proof.
    intros A J (A' & B). unfold ww. f_equal. rewrite <- (map_map tr S s). apply sum_perm, Permutation_map.
    apply NoDup_Permutation; [eapply asc_NoDup; eauto| |].
    - apply NoDup_map_in; [exact J|eapply asc_NoDup; eauto].
    - intros q. rewrite B, in_map_iff. split; intros (p & P & Q); exists p; auto.
  Qed.

  (** exact iff settled *)
  Lemma dexact_iff t n r : zwf n t -> inj_on t -> retag t = Some r -> (dsettled t <-> dexact t r).
  Proof.
    intros W J E. split; [eapply dsettled_exact; eauto|]. intros X.
    destruct (retag_weight t n r W J E) as (_ & _ & Q). apply Q. clear Q.
    rewrite !wt_sum.
    destruct (retag_total t) as (r' & Er & Wr & _). assert (r' = r) by congruence. subst r'.
    (* a function picking the re-ordered path *)
    assert (F : forall l, (forall s, In s l -> In s (paths t)) -> exists f, (forall s, In s l -> is_tr s (f s))).
    { intros l _. exists (fun s => fold_right (fun i a => ins_s (tr i) a) [] s). intros s _.
      induction s as [|i s IH]; cbn [fold_right].
      - split; [exact I|]. intros q. split; [intros []|intros (p & [] & _)].
      - apply ins_s_tr, IH. }
    destruct (F (paths t)) as (f & Hf); [auto|].
    assert (Inj : forall s, In s (paths t) -> forall p q, In p s -> In q s -> tr p = tr q -> p = q).
    { intros s S_ p q P Q. apply J; eapply paths_labels; eauto. }
    rewrite (sum_perm (map (ww (fun q => q)) (paths r)) (map (ww (fun q => q)) (map f (paths t)))).
    - rewrite map_map. apply (f_equal list_sum). apply map_ext_in. intros s S_. apply (is_tr_weight n); [eapply zwf_paths; eauto|apply Inj; exact S_|apply Hf; exact S_].
    - apply Permutation_map, NoDup_Permutation; [eapply paths_NoDup; eauto| |].
      + apply NoDup_map_in; [|eapply paths_NoDup; eauto]. intros a b A B Eq.
        pose proof (Hf a A) as (_ & Xa). pose proof (Hf b B) as (_ & Xb).
        apply (asc_ext n n); [eapply zwf_paths; eauto|eapply zwf_paths; eauto|]. intros p. split; intros P.
        * destruct (proj1 (Xb (tr p))) as (q & Q & Et); [rewrite <- Eq; apply Xa; eauto|].
          apply J in Et; [subst; exact Q|apply (paths_labels t a); auto|apply (paths_labels t b); auto].
        * destruct (proj1 (Xa (tr p))) as (q & Q & Et); [rewrite Eq; apply Xb; eauto|].
          apply J in Et; [subst; exact Q|apply (paths_labels t b); auto|apply (paths_labels t a); auto].
      + intros s'. rewrite (X s'), in_map_iff. split.
        * intros (s & S_ & T). exists s. split; [|exact S_]. apply (is_tr_fun s); [apply Hf; exact S_|exact T].
        * intros (s & <- & S_). exists s. split; [exact S_|apply Hf; exact S_].
  Qed.
End Retag.
