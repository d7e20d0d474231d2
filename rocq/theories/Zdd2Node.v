(** Zdd2Node: facts about the node-level operations of Zdd2Model. *)
From Coq Require Import List Arith Lia Bool Permutation Sorted.
From Verif Require Import Base DD Zdd2Model.
Import ListNotations.

(** ** Well-formed diagrams: labels strictly increase along every path and are
    at least [n]; no [high] edge goes to [Never]. *)
Fixpoint zwf (n : nat) (t : node) : Prop :=
  match t with
  | Leaf _ => True
  | Branch i lo hi => n <= i /\ hi <> Never /\ zwf (S i) lo /\ zwf (S i) hi
  end.

(** strictly ascending lists with all elements at least [n] *)
Fixpoint asc (n : nat) (s : list nat) : Prop :=
  match s with
  | [] => True
  | x :: s' => n <= x /\ asc (S x) s'
  end.

Lemma zwf_mono n m t : m <= n -> zwf n t -> zwf m t.
Proof. destruct t; simpl; intuition lia. Qed.

Lemma asc_mono n m s : m <= n -> asc n s -> asc m s.
Proof. destruct s; simpl; intuition lia. Qed.

Lemma asc_ge n s x : asc n s -> In x s -> n <= x.
Proof.
  revert n; induction s as [|y s IH]; simpl; intros n A; [tauto|].
  intros [<-|I]; [tauto|]. destruct A as [A1 A2]. specialize (IH _ A2 I). lia.
Qed.

Lemma asc_ssorted n s : asc n s -> ssorted s.
Proof.
  revert n; induction s as [|y s IH]; simpl; intros n A; [constructor|].
  constructor; [apply (IH (S y)); tauto|].
  apply Forall_forall. intros x Hx. apply lt_nat. destruct A as [_ A].
  apply (asc_ge _ _ _ A) in Hx. lia.
Qed.

Lemma ssorted_asc s n : ssorted s -> (forall x, In x s -> n <= x) -> asc n s.
Proof.
  revert n; induction s as [|y s IH]; simpl; intros n S G; [exact I|].
  apply ssorted_inv in S. destruct S as [S F]. split; [apply G; auto|].
  apply IH; [exact S|]. rewrite Forall_forall in F. intros x Hx. apply F in Hx.
  apply lt_nat in Hx. lia.
Qed.

Lemma asc_ext n m s t : asc n s -> asc m t -> (forall x, In x s <-> In x t) -> s = t.
Proof. intros A B. apply ssorted_ext; eauto using asc_ssorted. Qed.

Lemma zwf_label n t x : zwf n t -> In x (labels t) -> n <= x.
Proof.
  revert n; induction t as [b|i lo IHl hi IHh]; simpl; intros n W; [tauto|].
  rewrite in_app_iff. destruct W as (W1 & W2 & W3 & W4).
  intros [<-|[I|I]]; [lia| |]; [apply (IHl _ W3) in I|apply (IHh _ W4) in I]; lia.
Qed.

Lemma zwf_paths n t s : zwf n t -> In s (paths t) -> asc n s.
Proof.
  revert n s; induction t as [[]|i lo IHl hi IHh]; intros n s W.
  - simpl. intros [<-|[]]. exact I.
  - intros [].
  - rewrite paths_branch. destruct W as (W1 & W2 & W3 & W4).
    intros [(s' & -> & J)|J].
    + simpl. eauto.
    + apply (asc_mono (S i)); [lia|eauto].
Qed.

Lemma zwf_nonempty n t : zwf n t -> t <> Never -> exists s, In s (paths t).
Proof.
  revert n; induction t as [[]|i lo IHl hi IHh]; intros n W N.
  - exists []; left; reflexivity.
  - congruence.
  - destruct W as (W1 & W2 & W3 & W4). destruct (IHh _ W4 W2) as [s Hs].
    exists (i :: s). apply paths_branch. eauto.
Qed.

Lemma asc_head_neq n s i s' : asc n s -> i < n -> s = i :: s' -> False.
Proof. intros A L ->. simpl in A. lia. Qed.

Lemma paths_NoDup n t : zwf n t -> NoDup (paths t).
Proof.
  revert n; induction t as [[]|i lo IHl hi IHh]; simpl; intros n W.
  - constructor; [intros []|constructor].
  - constructor.
  - destruct W as (W1 & W2 & W3 & W4).
    assert (ND : forall l1 l2 : list (list nat), NoDup l1 -> NoDup l2 ->
              (forall s, In s l1 -> In s l2 -> False) -> NoDup (l1 ++ l2)).
    { induction l1 as [|a l1 IH]; simpl; intros l2 N1 N2 D; [exact N2|].
      inversion N1; subst. constructor.
      - rewrite in_app_iff. intros [C|C]; [contradiction|]. eapply D; [left; reflexivity|exact C].
      - apply IH; auto. intros s A B. eapply D; [right; exact A|exact B]. }
    apply ND.
    + apply FinFun.Injective_map_NoDup; [intros a b E; congruence|eauto].
    + eauto.
    + intros s A B. apply in_map_iff in A. destruct A as (s' & <- & A).
      pose proof (zwf_paths _ _ _ W3 B) as P. simpl in P. lia.
Qed.

(** Canonicity: a well-formed diagram is determined by its set of paths. *)
Lemma canonicity n t1 : forall t2, zwf n t1 -> zwf n t2 ->
  (forall s, In s (paths t1) <-> In s (paths t2)) -> t1 = t2.
Proof.
  revert n; induction t1 as [b|i lo IHl hi IHh]; intros n [b2|i2 lo2 hi2] W1 W2 E.
  - destruct b, b2; try reflexivity.
    + exfalso. apply (E []). left; reflexivity.
    + exfalso. apply (E []). left; reflexivity.
  - exfalso. destruct W2 as (A1 & A2 & A3 & A4).
    destruct (zwf_nonempty _ _ A4 A2) as [s Hs].
    assert (X : In (i2 :: s) (paths (@Leaf nat b))) by (apply E, paths_branch; eauto).
    destruct b; simpl in X; [destruct X as [X|[]]; discriminate|destruct X].
  - exfalso. destruct W1 as (A1 & A2 & A3 & A4).
    destruct (zwf_nonempty _ _ A4 A2) as [s Hs].
    assert (X : In (i :: s) (paths (@Leaf nat b2))) by (apply E, paths_branch; eauto).
    destruct b2; simpl in X; [destruct X as [X|[]]; discriminate|destruct X].
  - destruct W1 as (A1 & A2 & A3 & A4). destruct W2 as (B1 & B2 & B3 & B4).
    assert (i = i2) as ->.
    { destruct (zwf_nonempty _ _ A4 A2) as [s Hs].
      destruct (zwf_nonempty _ _ B4 B2) as [s2 Hs2].
      assert (X : In (i :: s) (paths (Branch i2 lo2 hi2))) by (apply E, paths_branch; eauto).
      assert (Y : In (i2 :: s2) (paths (Branch i lo hi))) by (apply E, paths_branch; eauto).
      apply paths_branch in X. apply paths_branch in Y.
      destruct X as [(? & X & _)|X]; [congruence|].
      destruct Y as [(? & Y & _)|Y]; [congruence|].
      apply (zwf_paths _ _ _ B3) in X. apply (zwf_paths _ _ _ A3) in Y. simpl in X, Y. lia. }
    f_equal.
    + apply (IHl (S i2)); auto. intros s. specialize (E s). rewrite !paths_branch in E.
      split; intros J.
      * destruct (proj1 E (or_intror J)) as [(s' & -> & _)|K]; [|exact K].
        apply (zwf_paths _ _ _ A3) in J. simpl in J; lia.
      * destruct (proj2 E (or_intror J)) as [(s' & -> & _)|K]; [|exact K].
        apply (zwf_paths _ _ _ B3) in J. simpl in J; lia.
    + apply (IHh (S i2)); auto. intros s. specialize (E (i2 :: s)). rewrite !paths_branch in E.
      split; intros J.
      * destruct (proj1 E) as [(s' & X & K)|K]; [left; eauto| |].
        -- injection X as ->. exact K.
        -- apply (zwf_paths _ _ _ B3) in K. simpl in K; lia.
      * destruct (proj2 E) as [(s' & X & K)|K]; [left; eauto| |].
        -- injection X as ->. exact K.
        -- apply (zwf_paths _ _ _ A3) in K. simpl in K; lia.
Qed.

(** ** Node::branch *)

Lemma branch_f_mono k : forall k' id lo hi r,
  branch_f k id lo hi = Some r -> k <= k' -> branch_f k' id lo hi = Some r.
Proof.
  induction k as [|k IH]; intros k' id lo hi r E L; [discriminate|].
  destruct k' as [|k']; [lia|]. assert (L' : k <= k') by lia.
  assert (M : forall i a b x, branch_f k i a b = Some x -> branch_f k' i a b = Some x) by eauto.
  cbn [branch_f] in *.
  destruct hi as [[]|h hl hh]; destruct lo as [b|l ll lh]; try exact E.
  - destruct (l <? id); [|destruct (l =? id); auto].
    apply bind_some in E. destruct E as (x & E1 & E2).
    apply bind_some. exists x; eauto.
  - destruct (h <? id); [|destruct (h =? id); auto].
    apply bind_some in E. destruct E as (x & E1 & E2).
    apply bind_some. exists x; eauto.
  - destruct (h <? id) eqn:Eh; simpl in *.
    + destruct (l =? h).
      * apply bind_some in E. destruct E as (x & E1 & E).
        apply bind_some in E. destruct E as (y & E2 & E3).
        apply bind_some. exists x; split; [eauto|]. apply bind_some. exists y; eauto.
      * apply bind_some in E. destruct E as (x & E1 & E2). apply bind_some. exists x; eauto.
    + destruct (l <? id).
      * apply bind_some in E. destruct E as (x & E1 & E2). apply bind_some. exists x; eauto.
      * destruct (h =? id); [eauto|]. destruct (l =? id); eauto.
Qed.

(** the result of [Node::branch] when both children are strictly below [id] *)
Definition zmk (id : nat) (lo hi : node) : node :=
  match hi with Leaf false => lo | _ => Branch id lo hi end.

Lemma branch_f_direct k id lo hi : zwf (S id) lo -> zwf (S id) hi ->
  branch_f (S k) id lo hi = Some (zmk id lo hi).
Proof.
  intros Wl Wh. cbn [branch_f].
  destruct hi as [[]|h hl hh]; destruct lo as [b|l ll lh]; simpl zmk; try reflexivity.
  - simpl in Wl. destruct (Nat.ltb_spec l id); [lia|]. destruct (Nat.eqb_spec l id); [lia|]. reflexivity.
  - simpl in Wh. destruct (Nat.ltb_spec h id); [lia|]. destruct (Nat.eqb_spec h id); [lia|]. reflexivity.
  - simpl in Wl, Wh. destruct (Nat.ltb_spec h id); [lia|]. simpl.
    destruct (Nat.ltb_spec l id); [lia|].
    destruct (Nat.eqb_spec h id); [lia|]. destruct (Nat.eqb_spec l id); [lia|]. reflexivity.
Qed.

Lemma branch_direct id lo hi : zwf (S id) lo -> zwf (S id) hi ->
  branch id lo hi = Some (zmk id lo hi).
Proof.
  intros. unfold branch. replace (size lo + size hi + 3) with (S (size lo + size hi + 2)) by lia.
  apply branch_f_direct; assumption.
Qed.

Lemma zmk_wf n id lo hi : n <= id -> zwf (S id) lo -> zwf (S id) hi -> zwf n (zmk id lo hi).
Proof.
  intros L Wl Wh. unfold zmk.
  assert (zwf n lo) by (apply (zwf_mono (S id)); [lia|exact Wl]).
  destruct hi as [[]|h hl hh]; try assumption; simpl; repeat split; auto; try discriminate; apply Wh.
Qed.

Lemma zmk_paths id lo hi s : In s (paths (zmk id lo hi)) <->
  (exists s', s = id :: s' /\ In s' (paths hi)) \/ In s (paths lo).
Proof.
  destruct hi as [[]|h hl hh]; unfold zmk; try apply paths_branch.
  simpl. firstorder.
Qed.

Lemma zmk_labels id lo hi x : In x (labels (zmk id lo hi)) -> x = id \/ In x (labels lo) \/ In x (labels hi).
Proof.
  destruct hi as [[]|h hl hh]; simpl; rewrite ?in_app_iff; simpl; rewrite ?in_app_iff; intuition.
Qed.

(** [Node::branch] when [high] is strictly below [id] but [low] is arbitrary:
    the branch is inserted into the chain of [low] edges. *)
Fixpoint ins_lo (id : nat) (lo hi : node) : node :=
  match lo with
  | Branch l ll lh =>
      if l <? id then Branch l (ins_lo id ll hi) lh
      else if l =? id then Branch id ll hi
      else Branch id lo hi
  | Leaf _ => Branch id lo hi
  end.

Lemma ins_lo_wf n id lo hi : n <= id -> hi <> Never -> zwf n lo -> zwf (S id) hi ->
  zwf n (ins_lo id lo hi).
Proof.
  revert n; induction lo as [b|l ll IHl lh _]; intros n L N Wl Wh; simpl.
  - auto.
  - destruct Wl as (A1 & A2 & A3 & A4).
    destruct (Nat.ltb_spec l id).
    + simpl. repeat split; auto.
    + destruct (Nat.eqb_spec l id).
      * subst. simpl; auto.
      * simpl. repeat split; auto; try lia. 
Qed.

Lemma branch_f_ins_lo k : forall n id lo hi, n <= id -> hi <> Never -> zwf n lo -> zwf (S id) hi ->
  size lo + 1 <= k -> branch_f k id lo hi = Some (ins_lo id lo hi).
Proof.
  induction k as [|k IH]; intros n id lo hi L N Wl Wh F; [lia|].
  destruct lo as [b|l ll lh].
  - cbn [ins_lo]. rewrite branch_f_direct; [|exact I|exact Wh].
    destruct hi as [[]|]; try reflexivity; congruence.
  - assert (X : branch_f (S k) id (Branch l ll lh) hi =
                if l <? id then (let! low' := branch_f k id ll hi in branch_f k l low' lh)
                else if l =? id then branch_f k id ll hi else Some (Branch id (Branch l ll lh) hi)).
    { cbn [branch_f]. destruct hi as [[]|h hl hh]; [reflexivity|congruence|].
      simpl in Wh. destruct (Nat.ltb_spec h id); [lia|]. simpl.
      destruct (Nat.eqb_spec h id); [lia|]. reflexivity. }
    rewrite X. clear X. destruct Wl as (A1 & A2 & A3 & A4). cbn [size] in F.
    cbn [ins_lo]. destruct (Nat.ltb_spec l id).
    + rewrite (IH (S l)); try assumption; try lia. cbn [bind].
      destruct k as [|k]; [pose proof (size_pos ll); lia|].
      rewrite branch_f_direct.
      * destruct lh as [[]|]; try reflexivity; congruence.
      * apply ins_lo_wf; auto.
      * exact A4.
    + destruct (Nat.eqb_spec l id).
      * subst. destruct k as [|k]; [pose proof (size_pos ll); lia|].
        rewrite branch_f_direct; auto. destruct hi as [[]|]; try reflexivity; congruence.
      * reflexivity.
Qed.

Lemma branch_ins_lo n id lo hi : n <= id -> hi <> Never -> zwf n lo -> zwf (S id) hi ->
  branch id lo hi = Some (ins_lo id lo hi).
Proof.
  intros. unfold branch. pose proof (size_pos hi). eapply branch_f_ins_lo; eauto. lia.
Qed.

Lemma ins_lo_labels id lo hi x : In x (labels (ins_lo id lo hi)) ->
  x = id \/ In x (labels lo) \/ In x (labels hi).
Proof.
  induction lo as [b|l ll IHl lh _]; simpl.
  - intuition.
  - destruct (l <? id); simpl.
    + rewrite !in_app_iff. intuition.
    + destruct (l =? id); simpl; rewrite ?in_app_iff; simpl; rewrite ?in_app_iff; intuition.
Qed.

(** labels on the chain of [low] edges *)
Fixpoint lo_chain (t : node) : list nat :=
  match t with Leaf _ => [] | Branch l ll _ => l :: lo_chain ll end.

Lemma lo_chain_labels t x : In x (lo_chain t) -> In x (labels t).
Proof.
  induction t as [b|l ll IHl lh _]; simpl; [tauto|]. rewrite in_app_iff. intuition.
Qed.

Lemma ins_lo_paths id lo hi s : ~ In id (lo_chain lo) ->
  (In s (paths (ins_lo id lo hi)) <->
   (exists s', s = id :: s' /\ In s' (paths hi)) \/ In s (paths lo)).
Proof.
  revert s; induction lo as [b|l ll IHl lh _]; intros s D.
  - apply paths_branch.
  - simpl in D. cbn [ins_lo]. destruct (Nat.ltb_spec l id).
    + rewrite !paths_branch, IHl by tauto. tauto.
    + destruct (Nat.eqb_spec l id); [exfalso; apply D; left; lia|]. apply paths_branch.
Qed.

(** [Node::branch] terminates and keeps diagrams well formed, in all cases. *)
Lemma branch_f_total k : forall n id lo hi, n <= id -> zwf n lo -> zwf n hi ->
  size lo + size hi + 3 <= k ->
  exists r, branch_f k id lo hi = Some r /\ zwf n r /\
            (forall x, In x (labels r) -> x = id \/ In x (labels lo) \/ In x (labels hi)).
Proof.
  induction k as [|k IH]; intros n id lo hi L Wl Wh F; [lia|].
  assert (Above : zwf (S id) hi -> exists r, branch_f (S k) id lo hi = Some r /\ zwf n r /\
            (forall x, In x (labels r) -> x = id \/ In x (labels lo) \/ In x (labels hi))).
  { intros A. destruct (dd_eqb_spec hi Never) as [->|N].
    - exists lo. split; [|auto]. cbn [branch_f]. destruct lo; reflexivity.
    - exists (ins_lo id lo hi). split; [|split].
      + pose proof (size_pos hi). eapply branch_f_ins_lo; eauto. lia.
      + apply ins_lo_wf; auto.
      + apply ins_lo_labels. }
  destruct hi as [b|h hl hh].
  { apply Above; exact I. }
  destruct (Nat.lt_ge_cases id h) as [G|G].
  { apply Above. simpl in Wh |- *. intuition. }
  clear Above. destruct Wh as (B1 & B2 & B3 & B4). cbn [size] in F.
  destruct lo as [b|l ll lh].
  - cbn [branch_f]. destruct (Nat.ltb_spec h id).
    + destruct (IH (S h) id hl hh) as (X & EX & WX & LX); auto; [pose proof (size_pos hl); simpl in F; lia|].
      rewrite EX. cbn [bind].
      destruct (dd_eqb_spec X Never) as [->|NX].
      * exists (Leaf b). split; [|split; [exact I|]].
        -- destruct k; [lia|]. cbn [branch_f]. reflexivity.
        -- simpl; tauto.
      * exists (ins_lo h (Leaf b) X). split; [|split].
        -- eapply branch_f_ins_lo with (n := n); eauto. simpl in F |- *; pose proof (size_pos hl); lia.
        -- apply ins_lo_wf; auto.
        -- intros x Hx. apply ins_lo_labels in Hx. simpl. rewrite in_app_iff.
           destruct Hx as [->|[Hx|Hx]]; [auto|destruct Hx|]. apply LX in Hx. tauto.
    + assert (h = id) as -> by lia. rewrite Nat.eqb_refl.
      destruct k; [lia|]. rewrite branch_f_direct; [|exact I|exact B4].
      exists (zmk id (Leaf b) hh). split; [reflexivity|split].
      * apply zmk_wf; auto.
      * intros x Hx. apply zmk_labels in Hx. simpl in Hx |- *. rewrite in_app_iff. tauto.
  - pose proof Wl as Wl0. destruct Wl as (A1 & A2 & A3 & A4). cbn [size] in F.
    cbn [branch_f]. destruct (Nat.ltb_spec h id) as [Hh|Hh]; simpl andb.
    + destruct (Nat.eqb_spec l h) as [->|Nlh].
      * destruct (IH (S h) id ll hl) as (X & EX & WX & LX); auto; [pose proof (size_pos hh); lia|].
        destruct (IH (S h) id lh hh) as (Y & EY & WY & LY); auto; [pose proof (size_pos ll); lia|].
        rewrite EX. cbn [bind]. rewrite EY. cbn [bind]. destruct k; [lia|].
        rewrite branch_f_direct by assumption.
        exists (zmk h X Y). split; [reflexivity|split].
        -- apply zmk_wf; auto.
        -- intros x Hx. apply zmk_labels in Hx. simpl. rewrite !in_app_iff.
           destruct Hx as [->|[Hx|Hx]]; [tauto| |]; [apply LX in Hx|apply LY in Hx]; tauto.
      * destruct (IH (S h) id hl hh) as (X & EX & WX & LX); auto; [pose proof (size_pos ll); lia|].
        rewrite EX. cbn [bind].
        destruct (dd_eqb_spec X Never) as [->|NX].
        -- exists (Branch l ll lh). split; [|split; [exact Wl0|]].
           ++ destruct k; [lia|]. cbn [branch_f]. reflexivity.
           ++ intros x; simpl; rewrite !in_app_iff; tauto.
        -- exists (ins_lo h (Branch l ll lh) X). split; [|split].
           ++ eapply branch_f_ins_lo with (n := n); eauto. cbn [size]. pose proof (size_pos hl); lia.
           ++ apply ins_lo_wf; auto.
           ++ intros x Hx. apply ins_lo_labels in Hx. simpl in Hx |- *. rewrite !in_app_iff in *.
              destruct Hx as [->|[Hx|Hx]]; [tauto|tauto|]. apply LX in Hx. tauto.
    + assert (h = id) as -> by lia.
      destruct (Nat.ltb_spec l id).
      * destruct (IH (S l) id ll (Branch id hl hh)) as (X & EX & WX & LX); auto;
          [simpl; repeat split; auto; lia | cbn [size]; pose proof (size_pos lh); lia|].
        rewrite EX. cbn [bind]. destruct k; [lia|]. rewrite branch_f_direct by assumption.
        exists (zmk l X lh). split; [reflexivity|split].
        -- apply zmk_wf; auto.
        -- intros x Hx. apply zmk_labels in Hx. simpl in LX |- *. rewrite !in_app_iff in *.
           destruct Hx as [->|[Hx|Hx]]; [tauto| |tauto]. apply LX in Hx.
           simpl in Hx. rewrite !in_app_iff in Hx. tauto.
      * rewrite Nat.eqb_refl.
        destruct (dd_eqb_spec hh Never) as [->|NX]; [congruence|].
        exists (ins_lo id (Branch l ll lh) hh). split; [|split].
        -- eapply branch_f_ins_lo with (n := n); eauto. cbn [size]. pose proof (size_pos hl); lia.
        -- apply ins_lo_wf; auto.
        -- intros x Hx. apply ins_lo_labels in Hx. simpl in Hx |- *. rewrite !in_app_iff in *. tauto.
Qed.

Lemma branch_total n id lo hi : n <= id -> zwf n lo -> zwf n hi ->
  exists r, branch id lo hi = Some r /\ zwf n r /\
            (forall x, In x (labels r) -> x = id \/ In x (labels lo) \/ In x (labels hi)).
Proof. intros. apply branch_f_total; auto. Qed.

(** ** single sets *)

(** strictly ascending insertion *)
Fixpoint ins_s (x : nat) (s : list nat) : list nat :=
  match s with
  | [] => [x]
  | y :: s' => if y <? x then y :: ins_s x s' else if y =? x then s else x :: s
  end.

Lemma ins_s_in x s y : In y (ins_s x s) <-> y = x \/ In y s.
Proof.
  induction s as [|z s IH]; simpl; [intuition|].
  destruct (z <? x); simpl; [rewrite IH; intuition|].
  destruct (Nat.eqb_spec z x); simpl; [subst|]; intuition.
Qed.

Lemma ins_s_asc n x s : n <= x -> asc n s -> asc n (ins_s x s).
Proof.
  revert n; induction s as [|z s IH]; simpl; intros n L A; [auto|].
  destruct (Nat.ltb_spec z x); simpl.
  - split; [tauto|]. apply IH; [lia|tauto].
  - destruct (Nat.eqb_spec z x); simpl; [auto|]. repeat split; auto; try lia; tauto.
Qed.

Definition chain (s : list nat) : node := fold_right (fun p t => Branch p Never t) Always s.

Lemma chain_not_never s : chain s <> Never.
Proof. destruct s; discriminate. Qed.

Lemma chain_wf n s : asc n s -> zwf n (chain s).
Proof.
  revert n; induction s as [|x s IH]; simpl; intros n A; [exact I|].
  repeat split; try tauto; [apply chain_not_never|apply IH; tauto].
Qed.

Lemma chain_paths s : paths (chain s) = [s].
Proof. induction s as [|x s IH]; simpl; [reflexivity|]. fold (chain s). rewrite IH. reflexivity. Qed.

Lemma chain_size s : size (chain s) = 2 * length s + 1.
Proof. induction s as [|x s IH]; simpl; [reflexivity|]. fold (chain s). rewrite IH. lia. Qed.

Lemma branch_f_chain k : forall n id s, asc n s -> 2 * length s + 2 <= k ->
  branch_f k id Never (chain s) = Some (chain (ins_s id s)).
Proof.
  induction k as [|k IH]; intros n id s A F; [lia|].
  destruct s as [|x s].
  - reflexivity.
  - cbn [chain fold_right] in *. fold (chain s). cbn [branch_f ins_s].
    destruct A as [A1 A2]. cbn [length] in F.
    destruct (Nat.ltb_spec x id).
    + rewrite (IH (S x)) by (auto; lia). cbn [bind].
      destruct k as [|k]; [lia|]. rewrite branch_f_direct.
      * unfold zmk. pose proof (chain_not_never (ins_s id s)) as N.
        change (chain (x :: ins_s id s)) with (Branch x Never (chain (ins_s id s))).
        destruct (chain (ins_s id s)) as [[]|]; try reflexivity. congruence.
      * exact I.
      * apply chain_wf. apply ins_s_asc; auto.
    + destruct (Nat.eqb_spec x id).
      * subst. destruct k as [|k]; [lia|]. rewrite branch_f_direct.
        -- unfold zmk. pose proof (chain_not_never s) as N.
           change (chain (id :: s)) with (Branch id Never (chain s)).
           destruct (chain s) as [[]|]; try reflexivity. congruence.
        -- exact I.
        -- apply chain_wf; auto.
      * reflexivity.
Qed.

Lemma branch_chain n id s : asc n s -> branch id Never (chain s) = Some (chain (ins_s id s)).
Proof. intros A. unfold branch. eapply branch_f_chain; [exact A|]. rewrite chain_size. simpl. lia. Qed.

Lemma fold_ins_s_in ps : forall s x, In x (fold_left (fun s p => ins_s p s) ps s) <-> In x ps \/ In x s.
Proof.
  induction ps as [|p ps IH]; intros s x; simpl; [tauto|].
  rewrite IH, ins_s_in. intuition.
Qed.

Lemma fold_ins_s_asc ps : forall s, asc 0 s -> asc 0 (fold_left (fun s p => ins_s p s) ps s).
Proof.
  induction ps as [|p ps IH]; intros s A; simpl; [exact A|].
  apply IH. apply ins_s_asc; [lia|exact A].
Qed.

Lemma fold_branch_chain ps : forall s, asc 0 s ->
  foldM (fun root item => branch item Never root) ps (chain s) =
  Some (chain (fold_left (fun s p => ins_s p s) ps s)).
Proof.
  induction ps as [|p ps IH]; intros s A; cbn [foldM fold_left]; [reflexivity|].
  rewrite (branch_chain 0) by exact A. cbn [bind].
  apply IH. apply ins_s_asc; [lia|exact A].
Qed.

(** singletons *)
Definition uchain (s : list nat) : node := fold_right (fun p t => Branch p t Always) Never s.

Lemma uchain_wf n s : asc n s -> zwf n (uchain s).
Proof.
  revert n; induction s as [|x s IH]; simpl; intros n A; [exact I|].
  repeat split; try tauto; [discriminate|]. apply IH; tauto.
Qed.

Lemma uchain_paths s : paths (uchain s) = map (fun x => [x]) s.
Proof. induction s as [|x s IH]; simpl; [reflexivity|]. fold (uchain s). rewrite IH. reflexivity. Qed.

Lemma ins_lo_uchain id s : ins_lo id (uchain s) Always = uchain (ins_s id s).
Proof.
  induction s as [|x s IH]; simpl; [reflexivity|].
  fold (uchain s). destruct (x <? id); simpl; [fold (uchain (ins_s id s)); rewrite IH; reflexivity|].
  destruct (Nat.eqb_spec x id); simpl; [subst|]; reflexivity.
Qed.

Lemma fold_branch_uchain ps : forall s, asc 0 s ->
  foldM (fun root item => branch item root Always) ps (uchain s) =
  Some (uchain (fold_left (fun s p => ins_s p s) ps s)).
Proof.
  induction ps as [|p ps IH]; intros s A; cbn [foldM fold_left]; [reflexivity|].
  rewrite (branch_ins_lo 0); [|lia|discriminate|apply uchain_wf; exact A|exact I].
  rewrite ins_lo_uchain. cbn [bind].
  apply IH. apply ins_s_asc; [lia|exact A].
Qed.

(** ** trees *)
Fixpoint qsize (q : list (node * list nat)) : nat :=
  match q with [] => 0 | (n, _) :: q' => size n + qsize q' end.

Lemma trees_loop_spec fuel : forall q acc, qsize q <= fuel ->
  trees_loop fuel q acc =
  Some (rev acc ++ concat (map (fun np => map (app (snd np)) (paths (fst np))) q)).
Proof.
  induction fuel as [|k IH]; intros q acc F.
  - destruct q as [|[n p] q]; [simpl; rewrite app_nil_r; reflexivity|].
    simpl in F. pose proof (size_pos n). lia.
  - destruct q as [|[n p] q]; [simpl; rewrite app_nil_r; reflexivity|].
    cbn [trees_loop]. cbn [qsize] in F. destruct n as [[]|i lo hi].
    + rewrite IH by (simpl in F; lia). simpl. rewrite <- app_assoc. simpl. rewrite app_nil_r. reflexivity.
    + rewrite IH by (simpl in F; lia). reflexivity.
    + rewrite IH by (cbn [qsize] in *; simpl in F; lia). f_equal. f_equal. simpl.
      rewrite map_app, map_map, <- app_assoc. f_equal.
      apply map_ext. intros a. rewrite <- app_assoc. reflexivity.
Qed.

Lemma node_trees_paths t : node_trees t = Some (paths t).
Proof.
  unfold node_trees. rewrite trees_loop_spec by (simpl; lia). simpl. rewrite app_nil_r.
  f_equal. rewrite <- (map_id (paths t)) at 2. apply map_ext. reflexivity.
Qed.

(** ** union *)
Lemma union_unfold t1 t2 : union t1 t2 =
    if dd_eqb t1 t2 then Some t1 else
    match t1, t2 with
    | _, Leaf false => Some t1
    | Leaf false, _ => Some t2
    | Leaf true, Leaf true => Some Always
    | Branch id low high, Leaf true =>
        let! low' := union low t2 in branch id low' high
    | Leaf true, Branch id low high =>
        let! low' := union t1 low in branch id low' high
    | Branch id1 low1 high1, Branch id2 low2 high2 =>
        if id1 <? id2 then
          let! low' := union low1 t2 in branch id1 low' high1
        else if id2 <? id1 then
          let! low' := union t1 low2 in branch id2 low' high2
        else
          let! low' := union low1 low2 in
          let! high' := union high1 high2 in
          branch id1 low' high'
    end.
Proof. destruct t1, t2; reflexivity. Qed.

Lemma union_spec t1 : forall t2 n, zwf n t1 -> zwf n t2 ->
  exists r, union t1 t2 = Some r /\ zwf n r /\
    forall s, In s (paths r) <-> In s (paths t1) \/ In s (paths t2).
Proof.
  induction t1 as [b|i lo IHl hi IHh]; intros t2 n W1; revert n W1.
  - induction t2 as [c|j lo2 IHl2 hi2 _]; intros n W1 W2; rewrite union_unfold.
    + destruct b, c; simpl; eexists; (split; [reflexivity|]); simpl; split; auto; tauto.
    + cbn [dd_eqb]. destruct b; [|eexists; split; [reflexivity|]; split; [exact W2|]; intros s; simpl; tauto].
      destruct W2 as (A1 & A2 & A3 & A4).
      destruct (IHl2 (S j) I A3) as (r & E & Wr & P). rewrite E. cbn [bind].
      rewrite branch_direct by assumption. eexists; split; [reflexivity|]. split; [apply zmk_wf; auto|].
      intros s. rewrite zmk_paths, P, paths_branch. tauto.
  - induction t2 as [c|j lo2 IHl2 hi2 _]; intros n W1 W2; rewrite union_unfold.
    + cbn [dd_eqb]. destruct c; [|eexists; split; [reflexivity|]; split; [exact W1|]; intros s; simpl; tauto].
      destruct W1 as (A1 & A2 & A3 & A4).
      destruct (IHl Always (S i) A3 I) as (r & E & Wr & P). rewrite E. cbn [bind].
      rewrite branch_direct by assumption. eexists; split; [reflexivity|]. split; [apply zmk_wf; auto|].
      intros s. rewrite zmk_paths, P, paths_branch. tauto.
    + destruct (dd_eqb_spec (Branch i lo hi) (Branch j lo2 hi2)) as [<-|NE].
      { eexists; split; [reflexivity|]. split; [exact W1|]. intros s; tauto. }
      pose proof W1 as W10. pose proof W2 as W20.
      destruct W1 as (A1 & A2 & A3 & A4). destruct W2 as (B1 & B2 & B3 & B4).
      destruct (Nat.ltb_spec i j) as [L|L]; [|destruct (Nat.ltb_spec j i) as [L'|L']].
      * destruct (IHl (Branch j lo2 hi2) (S i) A3) as (r & E & Wr & P); [simpl; auto|].
        rewrite E. cbn [bind]. rewrite branch_direct by assumption.
        eexists; split; [reflexivity|]. split; [apply zmk_wf; auto|].
        intros s. rewrite zmk_paths, P, (paths_branch i). tauto.
      * destruct (IHl2 (S j)) as (r & E & Wr & P); [simpl; auto|exact B3|].
        rewrite E. cbn [bind]. rewrite branch_direct by assumption.
        eexists; split; [reflexivity|]. split; [apply zmk_wf; auto|].
        intros s. rewrite zmk_paths, P, (paths_branch j). tauto.
      * assert (i = j) as -> by lia.
        destruct (IHl lo2 (S j) A3 B3) as (r & E & Wr & P).
        destruct (IHh hi2 (S j) A4 B4) as (r' & E' & Wr' & P').
        rewrite E. cbn [bind]. rewrite E'. cbn [bind]. rewrite branch_direct by assumption.
        eexists; split; [reflexivity|]. split; [apply zmk_wf; auto|].
        intros s. rewrite zmk_paths, P, !paths_branch.
        split.
        -- intros [(s' & -> & J)|J]; [apply P' in J; destruct J; [left|right]; left; eauto|tauto].
        -- intros [[(s' & -> & J)|J]|[(s' & -> & J)|J]]; auto; left; exists s'; (split; [reflexivity|]); apply P'; auto.
Qed.

(** ** intersect *)
Lemma intersect_unfold t1 t2 : intersect t1 t2 =
    if dd_eqb t1 t2 then Some t1 else
    match t1, t2 with
    | _, Leaf true => Some t1
    | Leaf true, _ => Some t2
    | _, Leaf false => Some Never
    | Leaf false, _ => Some Never
    | Branch id1 low1 high1, Branch id2 low2 high2 =>
        if id1 <? id2 then intersect low1 t2
        else if id2 <? id1 then intersect t1 low2
        else
          let! low' := intersect low1 low2 in
          let! high' := intersect high1 high2 in
          branch id1 low' high'
    end.
Proof. destruct t1, t2; reflexivity. Qed.

(** What [Node::intersect] computes in general: at least the intersection, and
    any extra set is a set of one side that includes a set of the other. *)
Definition int_sound (t1 t2 : node) (s : list nat) : Prop :=
  (In s (paths t1) /\ exists p, In p (paths t2) /\ incl p s) \/
  (In s (paths t2) /\ exists p, In p (paths t1) /\ incl p s).

Lemma int_sound_refl t1 t2 s : In s (paths t1) -> In s (paths t2) -> int_sound t1 t2 s.
Proof. intros A B. left. split; [exact A|]. exists s. split; [exact B|apply incl_refl]. Qed.

Lemma intersect_spec t1 : forall t2 n, zwf n t1 -> zwf n t2 ->
  exists r, intersect t1 t2 = Some r /\ zwf n r /\
    (forall s, In s (paths t1) -> In s (paths t2) -> In s (paths r)) /\
    (forall s, In s (paths r) -> int_sound t1 t2 s).
Proof.
  induction t1 as [b|i lo IHl hi IHh]; intros t2 n W1; revert n W1.
  - destruct t2 as [c|j lo2 hi2]; intros n W1 W2; rewrite intersect_unfold.
    + destruct b, c; simpl; eexists; (split; [reflexivity|]); simpl; split; auto; split; try tauto.
      * intros s [<-|[]]. apply int_sound_refl; left; reflexivity.
    + cbn [dd_eqb]. destruct b; eexists; (split; [reflexivity|]); (split; [|split]).
      * exact W2.
      * auto.
      * intros s J. right. split; [exact J|]. exists []. split; [left; reflexivity|]. intros x [].
      * exact I.
      * intros s [].
      * intros s [].
  - induction t2 as [c|j lo2 IHl2 hi2 _]; intros n W1 W2; rewrite intersect_unfold.
    + cbn [dd_eqb]. destruct c; eexists; (split; [reflexivity|]); (split; [|split]).
      * exact W1.
      * auto.
      * intros s J. left. split; [exact J|]. exists []. split; [left; reflexivity|]. intros x [].
      * exact I.
      * intros s _ [].
      * intros s [].
    + destruct (dd_eqb_spec (Branch i lo hi) (Branch j lo2 hi2)) as [<-|NE].
      { eexists; split; [reflexivity|]. split; [exact W1|]. split; [auto|].
        intros s J; apply int_sound_refl; exact J. }
      pose proof W1 as W10. pose proof W2 as W20.
      destruct W1 as (A1 & A2 & A3 & A4). destruct W2 as (B1 & B2 & B3 & B4).
      destruct (Nat.ltb_spec i j) as [L|L]; [|destruct (Nat.ltb_spec j i) as [L'|L']].
      * destruct (IHl (Branch j lo2 hi2) (S i) A3) as (r & E & Wr & P1 & P2); [simpl; auto|].
        exists r. split; [exact E|]. split; [apply (zwf_mono (S i)); auto; lia|]. split.
        -- intros s J K. apply P1; [|exact K]. apply paths_branch in J.
           destruct J as [(s' & -> & _)|J]; [|exact J].
           apply (zwf_paths j) in K; [simpl in K; lia|]. simpl; auto.
        -- intros s J. apply P2 in J. unfold int_sound in *. rewrite (paths_branch i).
           destruct J as [(J & K)|(J & p & K & Q)]; [left; tauto|].
           right. split; [exact J|]. exists p. rewrite paths_branch. auto.
      * destruct (IHl2 (S j)) as (r & E & Wr & P1 & P2); [simpl; auto|exact B3|].
        exists r. split; [exact E|]. split; [apply (zwf_mono (S j)); auto; lia|]. split.
        -- intros s J K. apply P1; [exact J|]. apply paths_branch in K.
           destruct K as [(s' & -> & _)|K]; [|exact K].
           apply (zwf_paths i) in J; [simpl in J; lia|]. simpl; auto.
        -- intros s J. apply P2 in J. unfold int_sound in *. rewrite (paths_branch j).
           destruct J as [(J & p & K & Q)|(J & K)]; [|right; tauto].
           left. split; [exact J|]. exists p. rewrite paths_branch. auto.
      * assert (i = j) as -> by lia.
        destruct (IHl lo2 (S j) A3 B3) as (r & E & Wr & P1 & P2).
        destruct (IHh hi2 (S j) A4 B4) as (r' & E' & Wr' & P1' & P2').
        rewrite E. cbn [bind]. rewrite E'. cbn [bind]. rewrite branch_direct by assumption.
        eexists; split; [reflexivity|]. split; [apply zmk_wf; auto|]. split.
        -- intros s J K. rewrite zmk_paths. apply paths_branch in J. apply paths_branch in K.
           destruct J as [(s' & -> & J)|J].
           ++ destruct K as [(s2 & X & K)|K].
              ** injection X as <-. left; eauto.
              ** apply (zwf_paths _ _ _ B3) in K. simpl in K; lia.
           ++ destruct K as [(s2 & -> & K)|K]; [|right; auto].
              apply (zwf_paths _ _ _ A3) in J. simpl in J; lia.
        -- intros s J. rewrite zmk_paths in J. unfold int_sound in *. rewrite !paths_branch.
           destruct J as [(s' & -> & J)|J].
           ++ apply P2' in J. destruct J as [(J & p & K & Q)|(J & p & K & Q)].
              ** left. split; [left; eauto|]. exists (j :: p). rewrite paths_branch.
                 split; [left; eauto|]. intros x [<-|Hx]; [left; reflexivity|right; auto].
              ** right. split; [left; eauto|]. exists (j :: p). rewrite paths_branch.
                 split; [left; eauto|]. intros x [<-|Hx]; [left; reflexivity|right; auto].
           ++ apply P2 in J. destruct J as [(J & p & K & Q)|(J & p & K & Q)].
              ** left. split; [right; exact J|]. exists p. rewrite paths_branch. auto.
              ** right. split; [right; exact J|]. exists p. rewrite paths_branch. auto.
Qed.
