(** Zdd2Node2: product and the subset operations on nodes. *)
From Coq Require Import List Arith Lia Bool Permutation Sorted.
From Verif Require Import Base DD Zdd2Model Zdd2Node.
Import ListNotations.

(** ** product *)
Lemma product_unfold t1 t2 : product t1 t2 =
    if dd_eqb t1 t2 then Some t1 else
    match t1, t2 with
    | _, Leaf true => Some t1
    | Leaf true, _ => Some t2
    | _, Leaf false => Some Never
    | Leaf false, _ => Some Never
    | Branch id1 low1 high1, Branch id2 low2 high2 =>
        if id1 <? id2 then
          let! low' := product low1 t2 in
          let! high' := product high1 t2 in
          branch id1 low' high'
        else if id2 <? id1 then
          let! low' := product t1 low2 in
          let! high' := product t1 high2 in
          branch id2 low' high'
        else
          let! low1_low2 := product low1 low2 in
          let! low1_high2 := product low1 high2 in
          let! high1_low2 := product high1 low2 in
          let! high1_high2 := product high1 high2 in
          let! new_high := union high1_low2 high1_high2 in
          let! high' := union low1_high2 new_high in
          branch id1 low1_low2 high'
    end.
Proof. destruct t1, t2; reflexivity. Qed.

(** [s] is the union of the sets [a] and [b] *)
Definition is_join (a b s : list nat) : Prop := forall x, In x s <-> In x a \/ In x b.

Lemma is_join_sym a b s : is_join a b s -> is_join b a s.
Proof. unfold is_join. intros J x. rewrite J. tauto. Qed.
Lemma is_join_consl i a b s : is_join a b s -> is_join (i :: a) b (i :: s).
Proof. unfold is_join. intros J x. simpl. rewrite J. tauto. Qed.
Lemma is_join_consr i a b s : is_join a b s -> is_join a (i :: b) (i :: s).
Proof. unfold is_join. intros J x. simpl. rewrite J. tauto. Qed.
Lemma is_join_cons2 i a b s : is_join a b s -> is_join (i :: a) (i :: b) (i :: s).
Proof. unfold is_join. intros J x. simpl. rewrite J. tauto. Qed.

Section Product.
  (** A hereditary condition under which the equality shortcut is harmless. *)
  Variable Q : node -> node -> Prop.
  Hypothesis Q_l1 : forall i l h t, Q (Branch i l h) t -> Q l t.
  Hypothesis Q_h1 : forall i l h t, Q (Branch i l h) t -> Q h t.
  Hypothesis Q_l2 : forall i l h t, Q t (Branch i l h) -> Q t l.
  Hypothesis Q_h2 : forall i l h t, Q t (Branch i l h) -> Q t h.
  Hypothesis Q_diag : forall t, Q t t ->
    forall a b, In a (paths t) -> In b (paths t) -> exists s, In s (paths t) /\ is_join a b s.

  Definition prod_sound t1 t2 r := forall s, In s (paths r) ->
    exists a b, In a (paths t1) /\ In b (paths t2) /\ is_join a b s.
  Definition prod_complete t1 t2 r := forall a b, In a (paths t1) -> In b (paths t2) ->
    exists s, In s (paths r) /\ is_join a b s.

  Lemma product_spec_Q t1 : forall t2 n, zwf n t1 -> zwf n t2 ->
    exists r, product t1 t2 = Some r /\ zwf n r /\
      prod_sound t1 t2 r /\ (Q t1 t2 -> prod_complete t1 t2 r).
  Proof.
    induction t1 as [b|i lo IHl hi IHh]; intros t2 n W1; revert n W1.
    - destruct t2 as [c|j lo2 hi2]; intros n W1 W2; rewrite product_unfold.
      + destruct b, c; simpl; eexists; (split; [reflexivity|]); simpl; (split; [exact I|]); split.
        * intros s [<-|[]]. exists [], []. simpl; unfold is_join; simpl; tauto.
        * intros _ a b [<-|[]] [<-|[]]. exists []. simpl; unfold is_join; simpl; tauto.
        * intros s [].
        * intros _ a b _ [].
        * intros s [].
        * intros _ a b [].
        * intros s [].
        * intros _ a b [].
      + cbn [dd_eqb]. destruct b; eexists; (split; [reflexivity|]); (split; [first [exact W2|exact I]|split]).
        * intros s J. exists [], s. split; [left; reflexivity|]. split; [exact J|]. unfold is_join; simpl; tauto.
        * intros _ a b [<-|[]] B. exists b. split; [exact B|]. unfold is_join; simpl; tauto.
        * intros s [].
        * intros _ a b [].
    - induction t2 as [c|j lo2 IHl2 hi2 IHh2]; intros n W1 W2; rewrite product_unfold.
      + cbn [dd_eqb]. destruct c; eexists; (split; [reflexivity|]); (split; [first [exact W1|exact I]|split]).
        * intros s J. exists s, []. split; [exact J|]. split; [left; reflexivity|]. unfold is_join; simpl; tauto.
        * intros _ a b B [<-|[]]. exists a. split; [exact B|]. unfold is_join; simpl; tauto.
        * intros s [].
        * intros _ a b _ [].
      + destruct (dd_eqb_spec (Branch i lo hi) (Branch j lo2 hi2)) as [<-|NE].
        { eexists; split; [reflexivity|]. split; [exact W1|]. split.
          - intros s J. exists s, s. split; [exact J|]. split; [exact J|]. unfold is_join; tauto.
          - intros q a b. apply Q_diag; exact q. }
        pose proof W1 as W10. pose proof W2 as W20.
        destruct W1 as (A1 & A2 & A3 & A4). destruct W2 as (B1 & B2 & B3 & B4).
        destruct (Nat.ltb_spec i j) as [L|L]; [|destruct (Nat.ltb_spec j i) as [L'|L']].
        * destruct (IHl (Branch j lo2 hi2) (S i) A3) as (r & E & Wr & S1 & C1); [simpl; auto|].
          destruct (IHh (Branch j lo2 hi2) (S i) A4) as (r' & E' & Wr' & S2 & C2); [simpl; auto|].
          rewrite E. cbn [bind]. rewrite E'. cbn [bind]. rewrite branch_direct by assumption.
          eexists; split; [reflexivity|]. split; [apply zmk_wf; auto|]. split.
          -- intros s J. rewrite zmk_paths in J. destruct J as [(s' & -> & J)|J].
             ++ apply S2 in J. destruct J as (a & b & Ja & Jb & Jn). exists (i :: a), b.
                rewrite (paths_branch i). split; [left; eauto|]. split; [exact Jb|]. apply is_join_consl; exact Jn.
             ++ apply S1 in J. destruct J as (a & b & Ja & Jb & Jn). exists a, b.
                rewrite (paths_branch i). auto.
          -- intros q a b Ja Jb. specialize (C1 (Q_l1 _ _ _ _ q)). specialize (C2 (Q_h1 _ _ _ _ q)).
             apply paths_branch in Ja. destruct Ja as [(a' & -> & Ja)|Ja].
             ++ destruct (C2 _ _ Ja Jb) as (s & Js & Jn). exists (i :: s). rewrite zmk_paths.
                split; [left; eauto|apply is_join_consl; exact Jn].
             ++ destruct (C1 _ _ Ja Jb) as (s & Js & Jn). exists s. rewrite zmk_paths. auto.
        * destruct (IHl2 (S j)) as (r & E & Wr & S1 & C1); [simpl; auto|exact B3|].
          destruct (IHh2 (S j)) as (r' & E' & Wr' & S2 & C2); [simpl; auto|exact B4|].
          rewrite E. cbn [bind]. rewrite E'. cbn [bind]. rewrite branch_direct by assumption.
          eexists; split; [reflexivity|]. split; [apply zmk_wf; auto|]. split.
          -- intros s J. rewrite zmk_paths in J. destruct J as [(s' & -> & J)|J].
             ++ apply S2 in J. destruct J as (a & b & Ja & Jb & Jn). exists a, (j :: b).
                rewrite (paths_branch j). split; [exact Ja|]. split; [left; eauto|]. apply is_join_consr; exact Jn.
             ++ apply S1 in J. destruct J as (a & b & Ja & Jb & Jn). exists a, b.
                rewrite (paths_branch j). auto.
          -- intros q a b Ja Jb. specialize (C1 (Q_l2 _ _ _ _ q)). specialize (C2 (Q_h2 _ _ _ _ q)).
             apply paths_branch in Jb. destruct Jb as [(b' & -> & Jb)|Jb].
             ++ destruct (C2 _ _ Ja Jb) as (s & Js & Jn). exists (j :: s). rewrite zmk_paths.
                split; [left; eauto|apply is_join_consr; exact Jn].
             ++ destruct (C1 _ _ Ja Jb) as (s & Js & Jn). exists s. rewrite zmk_paths. auto.
        * assert (i = j) as -> by lia.
          destruct (IHl lo2 (S j) A3 B3) as (ll & Ell & Wll & Sll & Cll).
          destruct (IHl hi2 (S j) A3 B4) as (lh & Elh & Wlh & Slh & Clh).
          destruct (IHh lo2 (S j) A4 B3) as (hl & Ehl & Whl & Shl & Chl).
          destruct (IHh hi2 (S j) A4 B4) as (hh & Ehh & Whh & Shh & Chh).
          rewrite Ell. cbn [bind]. rewrite Elh. cbn [bind]. rewrite Ehl. cbn [bind]. rewrite Ehh. cbn [bind].
          destruct (union_spec hl hh (S j) Whl Whh) as (nh & Enh & Wnh & Pnh). rewrite Enh. cbn [bind].
          destruct (union_spec lh nh (S j) Wlh Wnh) as (hi' & Ehi & Whi & Phi). rewrite Ehi. cbn [bind].
          rewrite branch_direct by assumption.
          eexists; split; [reflexivity|]. split; [apply zmk_wf; auto|]. split.
          -- intros s J. rewrite zmk_paths in J. destruct J as [(s' & -> & J)|J].
             ++ rewrite Phi, Pnh in J. destruct J as [J|[J|J]].
                ** apply Slh in J. destruct J as (a & b & Ja & Jb & Jn). exists a, (j :: b).
                   rewrite !paths_branch. split; [auto|]. split; [left; eauto|]. apply is_join_consr; exact Jn.
                ** apply Shl in J. destruct J as (a & b & Ja & Jb & Jn). exists (j :: a), b.
                   rewrite !paths_branch. split; [left; eauto|]. split; [auto|]. apply is_join_consl; exact Jn.
                ** apply Shh in J. destruct J as (a & b & Ja & Jb & Jn). exists (j :: a), (j :: b).
                   rewrite !paths_branch. split; [left; eauto|]. split; [left; eauto|]. apply is_join_cons2; exact Jn.
             ++ apply Sll in J. destruct J as (a & b & Ja & Jb & Jn). exists a, b. rewrite !paths_branch. auto.
          -- intros q a b Ja Jb. apply paths_branch in Ja. apply paths_branch in Jb.
             assert (q1 := Q_l1 _ _ _ _ q). assert (q2 := Q_h1 _ _ _ _ q).
             destruct Ja as [(a' & -> & Ja)|Ja]; destruct Jb as [(b' & -> & Jb)|Jb].
             ++ destruct (Chh (Q_h2 _ _ _ _ q2) _ _ Ja Jb) as (s & Js & Jn). exists (j :: s). rewrite zmk_paths.
                split; [left; exists s; split; [reflexivity|]; rewrite Phi, Pnh; auto|apply is_join_cons2; exact Jn].
             ++ destruct (Chl (Q_l2 _ _ _ _ q2) _ _ Ja Jb) as (s & Js & Jn). exists (j :: s). rewrite zmk_paths.
                split; [left; exists s; split; [reflexivity|]; rewrite Phi, Pnh; auto|apply is_join_consl; exact Jn].
             ++ destruct (Clh (Q_h2 _ _ _ _ q1) _ _ Ja Jb) as (s & Js & Jn). exists (j :: s). rewrite zmk_paths.
                split; [left; exists s; split; [reflexivity|]; rewrite Phi, Pnh; auto|apply is_join_consr; exact Jn].
             ++ destruct (Cll (Q_l2 _ _ _ _ q1) _ _ Ja Jb) as (s & Js & Jn). exists s. rewrite zmk_paths. auto.
  Qed.
End Product.

(** The product is exact when no item is shared, or when one side is a single set. *)
Definition disjoint_or_single (t1 t2 : node) : Prop :=
  (forall x, In x (labels t1) -> In x (labels t2) -> False) \/
  (forall a b, In a (paths t1) -> In b (paths t1) -> a = b) \/
  (forall a b, In a (paths t2) -> In b (paths t2) -> a = b).

Lemma product_spec t1 t2 n : zwf n t1 -> zwf n t2 ->
  exists r, product t1 t2 = Some r /\ zwf n r /\
    (forall s, In s (paths r) -> exists a b, In a (paths t1) /\ In b (paths t2) /\ is_join a b s) /\
    (disjoint_or_single t1 t2 -> forall a b, In a (paths t1) -> In b (paths t2) ->
       exists s, In s (paths r) /\ is_join a b s).
Proof.
  intros W1 W2. apply (product_spec_Q disjoint_or_single); auto; unfold disjoint_or_single.
  - intros i l h t [D|[D|D]]; [left|right; left|right; right; exact D].
    + intros x A. apply D. simpl. rewrite in_app_iff. auto.
    + intros a b A B. apply D; apply paths_branch; auto.
  - intros i l h t [D|[D|D]]; [left|right; left|right; right; exact D].
    + intros x A. apply D. simpl. rewrite in_app_iff. auto.
    + intros a b A B. assert (E : i :: a = i :: b) by (apply D; apply paths_branch; eauto). congruence.
  - intros i l h t [D|[D|D]]; [left|right; left; exact D|right; right].
    + intros x A B. apply (D x A). simpl. rewrite in_app_iff. auto.
    + intros a b A B. apply D; apply paths_branch; auto.
  - intros i l h t [D|[D|D]]; [left|right; left; exact D|right; right].
    + intros x A B. apply (D x A). simpl. rewrite in_app_iff. auto.
    + intros a b A B. assert (E : i :: a = i :: b) by (apply D; apply paths_branch; eauto). congruence.
  - intros t [D|[D|D]] a b A B.
    + destruct t as [[]|i l h].
      * exists []. simpl in *. destruct A as [<-|[]], B as [<-|[]]. unfold is_join; simpl; tauto.
      * destruct A.
      * exfalso. apply (D i); simpl; auto.
    + exists a. split; [exact A|]. rewrite <- (D _ _ A B). unfold is_join; tauto.
    + exists a. split; [exact A|]. rewrite <- (D _ _ A B). unfold is_join; tauto.
Qed.

(** ** subset *)
Lemma subset_inner_spec t e : forall n, zwf n t ->
  exists r keep, subset_inner t e = Some (r, keep) /\ zwf n r /\
    (keep = true <-> exists s, In s (paths t) /\ In e s) /\
    (keep = true -> forall s, In s (paths r) <-> In s (paths t) /\ In e s) /\
    (keep = false -> t <> Always -> r = Never).
Proof.
  induction t as [b|i lo IHl hi IHh]; intros n W.
  - exists (Leaf b), false. split; [reflexivity|]. split; [exact I|]. split; [|split].
    + split; [discriminate|]. intros (s & A & B). destruct b; simpl in A; [|tauto].
      destruct A as [<-|[]]. destruct B.
    + discriminate.
    + destruct b; congruence.
  - pose proof W as (A1 & A2 & A3 & A4). cbn [subset_inner].
    destruct (Nat.eqb_spec e i) as [->|Ne].
    + rewrite branch_direct by (exact I || assumption). cbn [bind].
      exists (zmk i Never hi), true. split; [reflexivity|]. split; [apply zmk_wf; auto; exact I|].
      split; [|split].
      * split; [|reflexivity]. intros _. destruct (zwf_nonempty _ _ A4 A2) as [s Hs].
        exists (i :: s). rewrite paths_branch. split; [left; eauto|left; reflexivity].
      * intros _ s. rewrite zmk_paths, paths_branch. split.
        -- intros [(s' & -> & J)|[]]. split; [left; eauto|left; reflexivity].
        -- intros [[(s' & -> & J)|J] K]; [left; eauto|].
           apply (zwf_paths _ _ _ A3) in J. apply (asc_ge _ _ _ J) in K. lia.
      * discriminate.
    + destruct (IHl _ A3) as (rl & kl & El & Wl & K1 & K2 & K3).
      destruct (IHh _ A4) as (rh & kh & Eh & Wh & H1 & H2 & H3).
      rewrite El. cbn [bind]. rewrite Eh. cbn [bind]. unfold reduce_branch. cbn [snd].
      assert (In' : forall s', In e (i :: s') <-> In e s') by (intros s'; simpl; intuition congruence).
      assert (KE : (kl || kh = true) <-> exists s, In s (paths (Branch i lo hi)) /\ In e s).
      { rewrite orb_true_iff, K1, H1. setoid_rewrite paths_branch. split.
        - intros [(s & A & B)|(s & A & B)]; [exists s; auto|exists (i :: s)].
          split; [left; eauto|right; exact B].
        - intros (s & [(s' & -> & A)|A] & B); [right|left]; [|eauto].
          exists s'. split; [exact A|apply In'; exact B]. }
      destruct kl, kh.
      * rewrite branch_direct by assumption. cbn [bind]. eexists _, _. split; [reflexivity|].
        split; [apply zmk_wf; auto|]. split; [exact KE|]. split; [|discriminate].
        intros _ s. rewrite zmk_paths, paths_branch, (K2 eq_refl). split.
        -- intros [(s' & -> & J)|[J K]]; [|auto]. apply (H2 eq_refl) in J. rewrite In'. destruct J; split; [left; eauto|auto].
        -- intros [[(s' & -> & J)|J] K]; [|auto]. left. exists s'. split; [reflexivity|].
           apply (H2 eq_refl). rewrite In' in K. auto.
      * rewrite branch_direct by (assumption || exact I). cbn [bind]. eexists _, _. split; [reflexivity|].
        split; [apply zmk_wf; auto; exact I|]. split; [exact KE|]. split; [|discriminate].
        intros _ s. rewrite zmk_paths, paths_branch, (K2 eq_refl). simpl paths. split.
        -- intros [(s' & -> & [])|[J K]]; auto.
        -- intros [[(s' & -> & J)|J] K]; [|auto]. rewrite In' in K. exfalso.
           assert (false = true) by (apply H1; eauto). discriminate.
      * rewrite branch_direct by (assumption || exact I). cbn [bind]. eexists _, _. split; [reflexivity|].
        split; [apply zmk_wf; auto; exact I|]. split; [exact KE|]. split; [|discriminate].
        intros _ s. rewrite zmk_paths, paths_branch. split.
        -- intros [(s' & -> & J)|[]]. apply (H2 eq_refl) in J. rewrite In'. destruct J; split; [left; eauto|auto].
        -- intros [[(s' & -> & J)|J] K].
           ++ left. exists s'. split; [reflexivity|]. apply (H2 eq_refl). rewrite In' in K. auto.
           ++ exfalso. assert (false = true) by (apply K1; eauto). discriminate.
      * rewrite branch_direct by exact I. cbn [bind]. eexists _, _. split; [reflexivity|].
        split; [exact I|]. split; [exact KE|]. split; [discriminate|]. reflexivity.
Qed.

Lemma node_subset_spec t e n : zwf n t -> t <> Always ->
  exists r, node_subset t e = Some r /\ zwf n r /\
    forall s, In s (paths r) <-> In s (paths t) /\ In e s.
Proof.
  intros W N. destruct (subset_inner_spec t e n W) as (r & keep & E & Wr & K1 & K2 & K3).
  unfold node_subset. rewrite E. cbn [bind fst]. exists r. split; [reflexivity|]. split; [exact Wr|].
  destruct keep; [apply K2; reflexivity|].
  rewrite (K3 eq_refl N). intros s. simpl. split; [tauto|]. intros J.
  assert (false = true) by (apply K1; eauto). discriminate.
Qed.

Lemma node_subset_not_spec t e : forall n, zwf n t ->
  exists r, node_subset_not t e = Some r /\ zwf n r /\
    forall s, In s (paths r) <-> In s (paths t) /\ ~ In e s.
Proof.
  induction t as [b|i lo IHl hi IHh]; intros n W.
  - exists (Leaf b). split; [reflexivity|]. split; [exact I|]. intros s.
    destruct b; simpl; [|tauto]. split; [|tauto]. intros [<-|[]]. simpl; tauto.
  - destruct W as (A1 & A2 & A3 & A4). cbn [node_subset_not].
    destruct (Nat.eqb_spec e i) as [->|Ne].
    + exists lo. split; [reflexivity|]. split; [apply (zwf_mono (S i)); auto; lia|].
      intros s. rewrite paths_branch. split.
      * intros J. split; [auto|]. intros K. apply (zwf_paths _ _ _ A3) in J. apply (asc_ge _ _ _ J) in K. lia.
      * intros [[(s' & -> & J)|J] K]; [|exact J]. exfalso. apply K. left; reflexivity.
    + destruct (IHl _ A3) as (rl & El & Wl & Pl). destruct (IHh _ A4) as (rh & Eh & Wh & Ph).
      rewrite El. cbn [bind]. rewrite Eh. cbn [bind]. rewrite branch_direct by assumption.
      eexists. split; [reflexivity|]. split; [apply zmk_wf; auto|].
      intros s. rewrite zmk_paths, paths_branch, Pl. split.
      * intros [(s' & -> & J)|J]; [|tauto]. apply Ph in J. split; [left; exists s'; tauto|].
        simpl. intros [K|K]; [congruence|tauto].
      * intros [[(s' & -> & J)|J] K]; [|tauto]. left. exists s'. split; [reflexivity|].
        apply Ph. simpl in K. tauto.
Qed.

(** ** subset_all / subset_none *)

(** [intersect] of two families that are closed upwards inside a common family
    of the same trees is exact. *)
Lemma intersect_upclosed t1 t2 n (R : list nat -> Prop) :
  zwf n t1 -> zwf n t2 ->
  (forall s, In s (paths t1) -> R s) -> (forall s, In s (paths t2) -> R s) ->
  (forall s p, In p (paths t1) -> R s -> incl p s -> In s (paths t1)) ->
  (forall s p, In p (paths t2) -> R s -> incl p s -> In s (paths t2)) ->
  exists r, intersect t1 t2 = Some r /\ zwf n r /\
    forall s, In s (paths r) <-> In s (paths t1) /\ In s (paths t2).
Proof.
  intros W1 W2 R1 R2 U1 U2.
  destruct (intersect_spec t1 t2 n W1 W2) as (r & E & Wr & P1 & P2).
  exists r. split; [exact E|]. split; [exact Wr|]. intros s. split; [|intros []; auto].
  intros J. apply P2 in J. destruct J as [(J & p & K & Q)|(J & p & K & Q)]; split; eauto.
Qed.

Lemma node_subset_all_spec t n es : zwf n t -> t <> Always -> es <> [] ->
  exists r, node_subset_all t es = Some r /\ zwf n r /\
    forall s, In s (paths r) <-> In s (paths t) /\ (forall e, In e es -> In e s).
Proof.
  intros W N NE. unfold node_subset_all.
  assert (G : forall es acc, zwf n acc -> forall done,
     (forall s, In s (paths acc) <-> In s (paths t) /\ (forall e, In e done -> In e s)) ->
     exists r, foldM (fun acc e => let! s := node_subset t e in intersect acc s) es acc = Some r /\ zwf n r /\
       forall s, In s (paths r) <-> In s (paths t) /\ (forall e, In e (done ++ es) -> In e s)).
  { clear es NE. induction es as [|e es IH]; intros acc Wa done Pa.
    - exists acc. rewrite app_nil_r. split; [reflexivity|]. auto.
    - cbn [foldM]. destruct (node_subset_spec t e n W N) as (r & E & Wr & Pr). rewrite E. cbn [bind].
      destruct (intersect_upclosed acc r n (fun s => In s (paths t))) as (r2 & E2 & Wr2 & P2); auto.
      + intros s J; apply Pa in J; tauto.
      + intros s J; apply Pr in J; tauto.
      + intros s p J K L. apply Pa. apply Pa in J. split; [exact K|]. intros x Hx. apply L. apply J; exact Hx.
      + intros s p J K L. apply Pr. apply Pr in J. split; [exact K|]. apply L. tauto.
      + rewrite E2. cbn [bind]. destruct (IH r2 Wr2 (done ++ [e])) as (r3 & E3 & W3 & P3).
        { intros s. rewrite P2, Pa, Pr. setoid_rewrite in_app_iff. simpl.
          split; [|intuition]. intros [[A B] [_ C]]. split; [exact A|].
          intros x [D|[<-|[]]]; auto. }
        exists r3. rewrite <- app_assoc in P3. auto. }
  destruct es as [|e es]; [congruence|]. cbn [foldM].
  destruct (node_subset_spec t e n W N) as (r & E & Wr & Pr). rewrite E. cbn [bind].
  rewrite intersect_unfold.
  assert (Pr' : forall s, In s (paths r) <-> In s (paths t) /\ (forall e0, In e0 [e] -> In e0 s)).
  { intros s. rewrite Pr. simpl. split; [intros [A B]; split; [exact A|]; intros x [<-|[]]; exact B|].
    intros [A B]. split; [exact A|apply B; auto]. }
  destruct r as [[]|j rl rh].
  - cbn [dd_eqb Bool.eqb bind]. apply (G es Always I [e]); exact Pr'.
  - cbn [dd_eqb Bool.eqb bind]. apply (G es Never I [e]); exact Pr'.
  - cbn [dd_eqb bind]. apply (G es _ Wr [e]); exact Pr'.
Qed.

(** [subset_none] is exact when no tree is a proper subset of another. *)
Lemma node_subset_none_spec t n es : zwf n t -> t <> Always -> es <> [] ->
  (forall a b, In a (paths t) -> In b (paths t) -> incl a b -> a = b) \/ (exists e, forall x, In x es -> x = e) ->
  exists r, node_subset_none t es = Some r /\ zwf n r /\
    forall s, In s (paths r) <-> In s (paths t) /\ (forall e, In e es -> ~ In e s).
Proof.
  intros W N NE Anti. unfold node_subset_none.
  assert (G : forall es acc, zwf n acc -> forall done,
     (forall a b, In a (paths t) -> In b (paths t) -> incl a b -> a = b) \/
       (exists e, forall x, In x (done ++ es) -> x = e) -> done <> [] ->
     (forall s, In s (paths acc) <-> In s (paths t) /\ (forall e, In e done -> ~ In e s)) ->
     exists r, foldM (fun acc e => let! s := node_subset_not t e in intersect acc s) es acc = Some r /\ zwf n r /\
       forall s, In s (paths r) <-> In s (paths t) /\ (forall e, In e (done ++ es) -> ~ In e s)).
  { clear es NE Anti. induction es as [|e es IH]; intros acc Wa done Anti ND Pa.
    - exists acc. rewrite app_nil_r. split; [reflexivity|]. auto.
    - cbn [foldM]. destruct (node_subset_not_spec t e n W) as (r & E & Wr & Pr). rewrite E. cbn [bind].
      destruct (intersect_spec acc r n Wa Wr) as (r2 & E2 & Wr2 & P1 & P2).
      assert (PP : forall s, In s (paths r2) <-> In s (paths acc) /\ In s (paths r)).
      { intros s. split; [|intros []; auto]. intros J. apply P2 in J.
        destruct Anti as [Anti|(e0 & Anti)].
        - destruct J as [(J & p & K & Q)|(J & p & K & Q)].
          + assert (p = s) as <-; [|auto]. apply Anti; [apply Pr in K|apply Pa in J|]; tauto.
          + assert (p = s) as <-; [|auto]. apply Anti; [apply Pa in K|apply Pr in J|]; tauto.
        - assert (EE : forall s, In s (paths acc) <-> In s (paths r)).
          { intros s0. rewrite Pa, Pr. split; intros [A B]; (split; [exact A|]).
            - destruct done as [|d done]; [congruence|].
              rewrite (Anti e) by (rewrite in_app_iff; simpl; auto).
              rewrite <- (Anti d) by (rewrite in_app_iff; simpl; auto). apply B. left; reflexivity.
            - intros x Hx. rewrite (Anti x) by (rewrite in_app_iff; auto).
              rewrite <- (Anti e) by (rewrite in_app_iff; simpl; auto). exact B. }
          pose proof (EE s) as EEs. destruct J as [(J & _)|(J & _)]; tauto. }
      rewrite E2. cbn [bind]. destruct (IH r2 Wr2 (done ++ [e])) as (r3 & E3 & W3 & P3).
      { rewrite <- app_assoc. exact Anti. }
      { destruct done; discriminate. }
      { intros s. rewrite PP, Pa, Pr. setoid_rewrite in_app_iff. simpl.
        split; [|intros [A B]; repeat split; auto]. intros [[A B] [_ C]]. split; [exact A|].
        intros x [D|[<-|[]]]; auto. }
      exists r3. rewrite <- app_assoc in P3. auto. }
  destruct es as [|e es]; [congruence|]. cbn [foldM].
  destruct (node_subset_not_spec t e n W) as (r & E & Wr & Pr). rewrite E. cbn [bind].
  rewrite intersect_unfold.
  assert (Pr' : forall s, In s (paths r) <-> In s (paths t) /\ (forall e0, In e0 [e] -> ~ In e0 s)).
  { intros s. rewrite Pr. simpl. split; [intros [A B]; split; [exact A|]; intros x [<-|[]]; exact B|].
    intros [A B]. split; [exact A|apply B; auto]. }
  destruct r as [[]|j rl rh].
  - cbn [dd_eqb Bool.eqb bind]. apply (G es Always I [e]); [exact Anti|discriminate|exact Pr'].
  - cbn [dd_eqb Bool.eqb bind]. apply (G es Never I [e]); [exact Anti|discriminate|exact Pr'].
  - cbn [dd_eqb bind]. apply (G es _ Wr [e]); [exact Anti|discriminate|exact Pr'].
Qed.

(** In general [subset_none] terminates and keeps diagrams well formed. *)
Lemma node_subset_none_total t n es : zwf n t ->
  exists r, node_subset_none t es = Some r /\ zwf n r.
Proof.
  intros W. unfold node_subset_none.
  assert (G : forall es acc, zwf n acc ->
     exists r, foldM (fun acc e => let! s := node_subset_not t e in intersect acc s) es acc = Some r /\ zwf n r).
  { clear es. induction es as [|e es IH]; intros acc Wa; [eexists; split; [reflexivity|exact Wa]|].
    cbn [foldM]. destruct (node_subset_not_spec t e n W) as (r & E & Wr & _). rewrite E. cbn [bind].
    destruct (intersect_spec acc r n Wa Wr) as (r2 & E2 & Wr2 & _). rewrite E2. cbn [bind]. apply IH; exact Wr2. }
  apply G. exact I.
Qed.


(** In general [subset_none] only keeps sets of the diagram, and keeps at least
    those it should. *)
Lemma node_subset_none_sub t n es : zwf n t -> es <> [] ->
  exists r, node_subset_none t es = Some r /\ zwf n r /\
    (forall s, In s (paths r) -> In s (paths t)) /\
    (forall s, In s (paths t) -> (forall e, In e es -> ~ In e s) -> In s (paths r)).
Proof.
  intros W Hne. unfold node_subset_none.
  assert (G : forall es acc, zwf n acc -> (forall s, In s (paths acc) -> In s (paths t)) ->
     exists r, foldM (fun acc e => let! s := node_subset_not t e in intersect acc s) es acc = Some r /\ zwf n r /\
       (forall s, In s (paths r) -> In s (paths t)) /\
       (forall s, In s (paths t) -> In s (paths acc) -> (forall e, In e es -> ~ In e s) -> In s (paths r))).
  { clear es Hne. induction es as [|e es IH]; intros acc Wa Sa.
    { eexists; split; [reflexivity|]. auto. }
    cbn [foldM]. destruct (node_subset_not_spec t e n W) as (r & E & Wr & Pr). rewrite E. cbn [bind].
    destruct (intersect_spec acc r n Wa Wr) as (r2 & E2 & Wr2 & C2 & S2). rewrite E2. cbn [bind].
    destruct (IH r2 Wr2) as (r3 & E3 & W3 & S3 & C3).
    { intros s Hs. apply S2 in Hs. destruct Hs as [[Hs _]|[Hs _]]; auto. apply Pr in Hs. tauto. }
    exists r3. split; [exact E3|]. split; [exact W3|]. split; [exact S3|].
    intros s Hs Ha He. apply C3; auto.
    - apply C2; auto. apply Pr. split; auto. apply He. left; auto.
    - intros e' He'. apply He. right; auto. }
  destruct es as [|e es]; [congruence|]. cbn [foldM].
  destruct (node_subset_not_spec t e n W) as (r & E & Wr & Pr). rewrite E. cbn [bind].
  assert (E2 : intersect Always r = Some r).
  { rewrite intersect_unfold. destruct (dd_eqb_spec Always r) as [<-|]; [reflexivity|].
    destruct r as [[|]|]; reflexivity. }
  rewrite E2. cbn [bind].
  destruct (G es r Wr) as (r3 & E3 & W3 & S3 & C3).
  { intros s Hs. apply Pr in Hs. tauto. }
  exists r3. split; [exact E3|]. split; [exact W3|]. split; [exact S3|].
  intros s Hs He. apply C3; auto.
  - apply Pr. split; auto. apply He. left; auto.
  - intros e' He'. apply He. right; auto.
Qed.
