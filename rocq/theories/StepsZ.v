(** StepsZ: the accesses of the calls of weave/src/zdd. *)
From Coq Require Import List Arith NArith Lia Bool Permutation.
From Verif Require Import Base DD Spec Zdd2Model ZddModel ZddProofs ParserModel ArenaModel ArenaProofs PoolModel ZddProg StackModel StackThm StepsModel Steps.
Import ListNotations.
Open Scope nat_scope.

(** ** more fuel *)
Lemma lez_union  fuel : forall fuel' n1 n2, fuel <= fuel' -> lep (m_zunion fuel n1 n2) (m_zunion fuel' n1 n2).
Proof. induction fuel as [|k IH]; intros fuel' n1 n2 Le; [exact Logic.I|]. destruct fuel' as [|k']; [lia|]. apply le_S_n in Le. cbn [m_zunion]. leps. Qed.
Lemma lez_intersect  fuel : forall fuel' n1 n2, fuel <= fuel' -> lep (m_zintersect fuel n1 n2) (m_zintersect fuel' n1 n2).
Proof. induction fuel as [|k IH]; intros fuel' n1 n2 Le; [exact Logic.I|]. destruct fuel' as [|k']; [lia|]. apply le_S_n in Le. cbn [m_zintersect]. leps. Qed.
Lemma lez_product  fuel : forall fuel' n1 n2, fuel <= fuel' -> lep (m_zproduct fuel n1 n2) (m_zproduct fuel' n1 n2).
Proof. induction fuel as [|k IH]; intros fuel' n1 n2 Le; [exact Logic.I|]. destruct fuel' as [|k']; [lia|]. apply le_S_n in Le. cbn [m_zproduct]. leps. Qed.
Lemma lez_inner  fuel : forall fuel' r path, fuel <= fuel' -> lep (m_zcomb_inner fuel r path) (m_zcomb_inner fuel' r path).
Proof. induction fuel as [|k IH]; intros fuel' r path Le; [exact Logic.I|]. destruct fuel' as [|k']; [lia|]. apply le_S_n in Le. cbn [m_zcomb_inner]. leps. Qed.
Lemma lez_loop fuel : forall fuel' q acc, fuel <= fuel' -> lep (m_zcomb_loop fuel q acc) (m_zcomb_loop fuel' q acc).
Proof.
  induction fuel as [|k IH]; intros fuel' q acc Le; destruct q as [|[n path] q].
  - destruct fuel'; reflexivity.
  - exact Logic.I.
  - destruct fuel'; reflexivity.
  - destruct fuel' as [|k']; [lia|]. apply le_S_n in Le. cbn [m_zcomb_loop]. leps.
Qed.
Lemma lez_print  fuel : forall fuel' n, fuel <= fuel' -> lep (m_zprint fuel n) (m_zprint fuel' n).
Proof. induction fuel as [|k IH]; intros fuel' n Le; [exact Logic.I|]. destruct fuel' as [|k']; [lia|]. apply le_S_n in Le. cbn [m_zprint]. leps. Qed.
Lemma lez_parse  fuel : forall fuel' i, fuel <= fuel' -> lep (m_zparse fuel i) (m_zparse fuel' i).
Proof. induction fuel as [|k IH]; intros fuel' i Le; [exact Logic.I|]. destruct fuel' as [|k']; [lia|]. apply le_S_n in Le. cbn [m_zparse]. leps. Qed.
#[export] Hint Resolve lez_union lez_intersect lez_product lez_inner lez_loop lez_print lez_parse : lep.
Section Zdd.
  Context {T : Type} `{OT : Ord T}.
  Lemma lez_traverse fuel : forall fuel' (u : zuniverse T) r, fuel <= fuel' -> lep (m_ztraverse fuel u r) (m_ztraverse fuel' u r).
  Proof. induction fuel as [|k IH]; intros fuel' u r Le; [exact Logic.I|]. destruct fuel' as [|k']; [lia|]. apply le_S_n in Le. cbn [m_ztraverse]. leps. Qed.
  Hint Resolve lez_traverse : lep.
  Lemma lez_call (ms : list (mztree T)) c fuel fuel' : fuel <= fuel' -> lep (m_zcall fuel ms c) (m_zcall fuel' ms c).
  Proof.
    intros Le. destruct c; cbn [m_zcall]; unfold mznew, m_zrestrict, m_zsummarize, m_zunique, m_zhyper, m_zcombinations, m_zcombinations_recursive, m_zcombinations_with,
      m_zop, m_zcomb_iter, m_zcomb_recursive; leps.
  Qed.

  (** ** the accesses *)
  Lemma amz_branch id (l h : znd) : am 2 (m_zbranch id l h) any.
  Proof. unfold m_zbranch. ams. Qed.
  Lemma amz_finish id (l h : znd) : am 2 (m_zfinish id l h) any.
  Proof. unfold m_zfinish. destruct (gnode_eqb _ _); [exact Logic.I|apply amz_branch]. Qed.
  Lemma amz_union fuel : exists N, forall n1 n2, am N (m_zunion fuel n1 n2) any.
  Proof.
    pose proof amz_finish as F. induction fuel as [|k (N & IH)]; [exists 0; intros; exact Logic.I|]. exists (8 + 2 * N). intros n1 n2. cbn [m_zunion]. ams.
  Qed.
  Lemma amz_intersect fuel : exists N, forall n1 n2, am N (m_zintersect fuel n1 n2) any.
  Proof.
    pose proof amz_finish as F. induction fuel as [|k (N & IH)]; [exists 0; intros; exact Logic.I|]. exists (8 + 2 * N). intros n1 n2. cbn [m_zintersect]. ams.
  Qed.
  Lemma amz_product fuel : exists N, forall n1 n2, am N (m_zproduct fuel n1 n2) any.
  Proof.
    pose proof amz_finish as F. induction fuel as [|k (N & IH)]; [exists 0; intros; exact Logic.I|]. exists (8 + 2 * N). intros n1 n2. cbn [m_zproduct]. ams.
  Qed.
  Lemma amz_inner fuel : exists N, forall r path, am N (m_zcomb_inner fuel r path) any.
  Proof. induction fuel as [|k (N & IH)]; [exists 0; intros; exact Logic.I|]. exists (8 + 2 * N). intros n1 n2. cbn [m_zcomb_inner]. ams. Qed.
  Lemma amz_print fuel : exists N, forall n, am N (m_zprint fuel n) any.
  Proof. induction fuel as [|k (N & IH)]; [exists 0; intros; exact Logic.I|]. exists (8 + 2 * N). intros n1. cbn [m_zprint]. ams. Qed.
  Lemma amz_parse fuel : exists N, forall i, am N (m_zparse fuel i) any.
  Proof. pose proof amz_branch as F. induction fuel as [|k (N & IH)]; [exists 0; intros; exact Logic.I|]. exists (8 + 2 * N). intros n1. cbn [m_zparse]. ams. Qed.
  Lemma amz_traverse fuel : exists N, forall (u : zuniverse T) r, am N (m_ztraverse fuel u r) any.
  Proof. induction fuel as [|k (N & IH)]; [exists 0; intros; exact Logic.I|]. exists (8 + 2 * N). intros n1 n2. cbn [m_ztraverse]. ams. Qed.
  (** the combinations a loop of [n] rounds lists: at most [n], of at most [n] items *)
  Definition few (n : nat) (l : list (list nat)) : Prop := length l <= n /\ forall c, In c l -> length c <= n.
  Lemma few_le n m l : n <= m -> few n l -> few m l.
  Proof. intros Le (A & B). split; [lia|]. intros c J. specialize (B c J). lia. Qed.
  Lemma amz_loop fuel : forall q acc m, (forall n p, In (n, p) q -> length p <= m) -> few m acc ->
    am (2 * fuel) (m_zcomb_loop fuel q acc) (few (fuel + m)).
  Proof.
    induction fuel as [|k IH]; intros q acc m Hq Ha; (destruct q as [|[n path] q]; [cbn; eapply few_le; [|exact Ha]; lia|]); [exact Logic.I|]. cbn [m_zcomb_loop].
    assert (Hp : length path <= m) by (eapply Hq; left; reflexivity).
    assert (Hr : forall n' p, In (n', p) q -> length p <= S m) by (intros n' p J; specialize (Hq n' p (or_intror J)); lia).
    destruct n as [[|]|id l h].
    - eapply am_le; [| |apply (IH _ _ (S m) Hr)]; [lia|intros c; replace (S k + m) with (k + S m) by lia; auto|].
      destruct Ha as (A & B). split; [rewrite app_length; cbn; lia|]. intros c J. apply in_app_iff in J. destruct J as [J|[<-|[]]]; [specialize (B c J)|]; lia.
    - eapply am_le; [| |apply (IH _ _ (S m) Hr)]; [lia|intros c; replace (S k + m) with (k + S m) by lia; auto|]. eapply few_le; [|exact Ha]. lia.
    - eapply am_bind; [apply am_get|lia|intros l' _]. eapply am_bind; [apply am_get|lia|intros h' _].
      eapply am_le; [| |apply (IH _ _ (S m))]; [lia|intros c; replace (S k + m) with (k + S m) by lia; auto| |eapply few_le; [|exact Ha]; lia].
      intros n' p [J|[J|J]]; [injection J as <- <-; rewrite app_length; cbn; lia|injection J as <- <-; lia|eauto].
  Qed.
  Lemma amz_iter fuel r : am (1 + 2 * fuel) (m_zcomb_iter fuel r) (few fuel).
  Proof.
    unfold m_zcomb_iter. eapply am_bind; [apply am_get|lia|intros n _]. eapply am_le; [| |apply (amz_loop fuel _ _ 0)]; [lia|intros c; rewrite Nat.add_0_r; auto| |].
    - intros n' p [J|[]]. injection J as <- <-. cbn. lia.
    - split; [cbn; lia|intros c []].
  Qed.
  Lemma filter_map_length {A B} (f : A -> option B) l : length (filter_map f l) <= length l.
  Proof. induction l as [|x l IH]; cbn; [lia|]. destruct (f x); cbn; lia. Qed.
  Lemma filter_le {A} (f : A -> bool) l : length (filter f l) <= length l.
  Proof. induction l as [|x l IH]; cbn; [lia|]. destruct (f x); cbn; lia. Qed.
  Lemma amz_tree (u : zuniverse T) c K : length c <= K -> am K (m_ztree u c) any.
  Proof.
    intros Le. unfold m_ztree. eapply am_bind; [apply (am_folds _ 1 K)|lia|intros; exact Logic.I].
    - intros x b _. apply am_intern.
    - rewrite rev_length, (Permutation_length (sort_perm _)). etransitivity; [apply filter_map_length|exact Le].
  Qed.
  Lemma amz_op (op : nat -> znd -> znd -> prog nat znd) fuel : (exists N, forall n1 n2, am N (op fuel n1 n2) any) ->
    exists N, forall t o : mztree T, am N (m_zop op fuel t o) any.
  Proof. intros (N & J). exists (3 + N). intros t o. unfold m_zop. ams. Qed.
  Lemma amz_hyper fuel K : exists N, forall (u : zuniverse T) cs, length cs <= K -> (forall c, In c cs -> length c <= K) -> am N (m_zhyper fuel u cs) any.
  Proof.
    destruct (amz_op m_zunion fuel (amz_union fuel)) as (N & J). exists ((K + N) * K). intros u cs L1 L2. unfold m_zhyper.
    apply am_folds; [|exact L1]. intros c b Hc. eapply am_bind; [apply (amz_tree u c K), L2, Hc|lia|intros t _]. eapply am_le; [| |apply J]; [lia|auto].
  Qed.
  Lemma filter_repeats_length {A} `{Ord A} (l : list A) : length (filter_repeats l) <= length l.
  Proof. apply NoDup_incl_length; [apply ssorted_NoDup, filter_repeats_ssorted|]. intros x J. apply filter_repeats_in, J. Qed.
  Lemma amz_with fuel (t : mztree T) inc exc : am (1 + 2 * fuel) (m_zcombinations_with fuel t inc exc)
    (fun cs => length cs <= fuel /\ forall c, In c cs -> length c <= fuel).
  Proof.
    unfold m_zcombinations_with. cbv zeta. eapply am_bind; [apply amz_iter|lia|intros ps (A & B)]. cbn. split.
    - etransitivity; [apply filter_repeats_length|]. etransitivity; [apply filter_le|]. etransitivity; [apply filter_le|]. rewrite map_length. exact A.
    - intros c J. rewrite filter_repeats_in in J. apply filter_In in J. destruct J as (J & _). apply filter_In in J. destruct J as (J & _).
      apply in_map_iff in J. destruct J as (p & <- & J). unfold z_get_items. etransitivity; [apply filter_repeats_length|].
      etransitivity; [apply filter_map_length|]. apply B, J.
  Qed.
  Lemma amz_call c fuel : exists N, forall ms : list (mztree T), am N (m_zcall fuel ms c) any.
  Proof.
    destruct (amz_union fuel) as (NU & U). destruct (amz_intersect fuel) as (NI & I1). destruct (amz_product fuel) as (NP & P).
    destruct (amz_inner fuel) as (NC & C). destruct (amz_print fuel) as (NT & R). destruct (amz_parse fuel) as (NA & A). destruct (amz_traverse fuel) as (NV & V).
    assert (W : forall (t : mztree T) inc exc, am (1 + 2 * fuel) (m_zcombinations_with fuel t inc exc) any).
    { intros t inc exc. eapply am_le; [| |apply amz_with]; [lia|intros; exact Logic.I]. }
    assert (It : forall r, am (1 + 2 * fuel) (m_zcomb_iter fuel r) any).
    { intros r. eapply am_le; [| |apply amz_iter]; [lia|intros; exact Logic.I]. }
    destruct c as [items|items|items c|items xs|items cs|i j|i j|i j|i inc exc|i|i|i inc exc|h i inc exc|i|i j|i|d]; cbn [m_zcall]; unfold mznew.
    - exists 0. intros ms. exact Logic.I.
    - exists 0. intros ms. exact Logic.I.
    - exists (length c). intros ms. eapply am_bind; [apply amz_tree, Nat.le_refl|lia|intros; exact Logic.I].
    - destruct (amz_hyper fuel (S (length xs))) as (N & J). exists N. intros ms. eapply am_bind; [apply J|lia|intros; exact Logic.I].
      + rewrite map_length. lia.
      + intros c Hc. apply in_map_iff in Hc. destruct Hc as (x & <- & _). cbn. lia.
    - destruct (amz_hyper fuel (length cs + length (concat cs))) as (N & J). exists N. intros ms. eapply am_bind; [apply J|lia|intros; exact Logic.I].
      + lia.
      + intros c Hc. clear -Hc. induction cs as [|d cs IH]; [destruct Hc|]. cbn [concat length]. rewrite app_length. destruct Hc as [->|Hc]; [lia|]. specialize (IH Hc). lia.
    - destruct (amz_op m_zunion fuel (amz_union fuel)) as (N & J). exists N. intros ms. ams.
    - destruct (amz_op m_zintersect fuel (amz_intersect fuel)) as (N & J). exists N. intros ms. ams.
    - destruct (amz_op m_zproduct fuel (amz_product fuel)) as (N & J). exists N. intros ms. ams.
    - destruct (amz_hyper fuel fuel) as (N & J). exists (1 + 2 * fuel + N). intros ms. unfold m_zrestrict.
      eapply (am_bind _ _ (1 + 2 * fuel + N) _ any); [|lia|intros; exact Logic.I].
      eapply am_bind; [apply amz_with|lia|intros cs (A1 & B1)]. eapply am_le; [| |apply J; auto]; [lia|auto].
    - exists (1 + 2 * fuel). intros ms. unfold m_zcombinations. eapply (am_bind _ _ (1 + 2 * fuel) _ any); [ams|lia|intros; exact Logic.I].
    - exists NC. intros ms. unfold m_zcombinations_recursive, m_zcomb_recursive. eapply (am_bind _ _ NC _ any); [|lia|intros; exact Logic.I].
      eapply (am_bind _ _ NC _ any); [|lia|intros; exact Logic.I]. ams.
    - exists (1 + 2 * fuel). intros ms. ams.
    - exists (1 + 2 * fuel). intros ms. unfold m_zsummarize. eapply (am_bind _ _ (1 + 2 * fuel) _ any); [ams|lia|intros; exact Logic.I].
    - exists NV. intros ms. ams.
    - exists 0. intros ms. exact Logic.I.
    - exists (1 + NT). intros ms. ams.
    - exists (1 + NA). intros ms. ams.
  Qed.
End Zdd.
