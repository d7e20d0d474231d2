(** StepsF: the accesses of the calls of weave/src/zdd2. *)
From Coq Require Import List Arith Lia Bool Permutation.
From Verif Require Import Base DD Spec Zdd2Model ArenaModel ArenaProofs Zdd2Prog StackModel StackThm StepsModel Steps.
Import ListNotations.

(** ** more fuel *)
Lemma lef_branch fuel : forall fuel' id l h, fuel <= fuel' -> lep (m_branch fuel id l h) (m_branch fuel' id l h).
Proof. induction fuel as [|k IH]; intros fuel' id l h Le; [exact Logic.I|]. destruct fuel' as [|k']; [lia|]. apply le_S_n in Le. cbn [m_branch]. leps. Qed.
#[export] Hint Resolve lef_branch : lep.
Lemma lef_union fuel : forall fuel' n1 n2, fuel <= fuel' -> lep (m_union fuel n1 n2) (m_union fuel' n1 n2).
Proof. induction fuel as [|k IH]; intros fuel' n1 n2 Le; [exact Logic.I|]. destruct fuel' as [|k']; [lia|]. apply le_S_n in Le. cbn [m_union]. leps. Qed.
#[export] Hint Resolve lef_union : lep.
Lemma lef_intersect fuel : forall fuel' n1 n2, fuel <= fuel' -> lep (m_intersect fuel n1 n2) (m_intersect fuel' n1 n2).
Proof. induction fuel as [|k IH]; intros fuel' n1 n2 Le; [exact Logic.I|]. destruct fuel' as [|k']; [lia|]. apply le_S_n in Le. cbn [m_intersect]. leps. Qed.
#[export] Hint Resolve lef_intersect : lep.
Lemma lef_product fuel : forall fuel' n1 n2, fuel <= fuel' -> lep (m_product fuel n1 n2) (m_product fuel' n1 n2).
Proof. induction fuel as [|k IH]; intros fuel' n1 n2 Le; [exact Logic.I|]. destruct fuel' as [|k']; [lia|]. apply le_S_n in Le. cbn [m_product]. leps. Qed.
#[export] Hint Resolve lef_product : lep.
Lemma lef_inner fuel : forall fuel' n e, fuel <= fuel' -> lep (m_subset_inner fuel n e) (m_subset_inner fuel' n e).
Proof. induction fuel as [|k IH]; intros fuel' n e Le; [exact Logic.I|]. destruct fuel' as [|k']; [lia|]. apply le_S_n in Le. cbn [m_subset_inner]. leps. Qed.
#[export] Hint Resolve lef_inner : lep.
Lemma lef_subset fuel fuel' n e : fuel <= fuel' -> lep (m_node_subset fuel n e) (m_node_subset fuel' n e).
Proof. intros Le. unfold m_node_subset. leps. Qed.
#[export] Hint Resolve lef_subset : lep.
Lemma lef_subset_not fuel : forall fuel' n e, fuel <= fuel' -> lep (m_node_subset_not fuel n e) (m_node_subset_not fuel' n e).
Proof. induction fuel as [|k IH]; intros fuel' n e Le; [exact Logic.I|]. destruct fuel' as [|k']; [lia|]. apply le_S_n in Le. cbn [m_node_subset_not]. leps. Qed.
#[export] Hint Resolve lef_subset_not : lep.
Lemma lef_loop fuel : forall fuel' q acc, fuel <= fuel' -> lep (m_trees_loop fuel q acc) (m_trees_loop fuel' q acc).
Proof.
  induction fuel as [|k IH]; intros fuel' q acc Le; destruct q as [|[n path] q].
  - destruct fuel'; reflexivity.
  - exact Logic.I.
  - destruct fuel'; reflexivity.
  - destruct fuel' as [|k']; [lia|]. apply le_S_n in Le. cbn [m_trees_loop]. leps.
Qed.
#[export] Hint Resolve lef_loop : lep.
(** ** the accesses *)
Lemma amf_into x : am 2 (m_into x) any.
Proof. destruct x as [i|n]; [exact Logic.I|apply am_intern2]. Qed.
Lemma amf_branch fuel : exists N, forall id l h, am N (m_branch fuel id l h) any.
Proof. pose proof amf_into as J. induction fuel as [|k (N & IH)]; [exists 0; intros; exact Logic.I|]. exists (12 + 3 * N). intros id l h. cbn [m_branch]. ams. Qed.
Lemma amf_union fuel : exists N, forall n1 n2, am N (m_union fuel n1 n2) any.
Proof. pose proof amf_branch as B. induction fuel as [|k (N & IH)]; [exists 0; intros; exact Logic.I|]. destruct (B k) as (M & J). clear B. exists (12 + 4 * N + M). intros n1 n2. cbn [m_union]. ams. Qed.
Lemma amf_intersect fuel : exists N, forall n1 n2, am N (m_intersect fuel n1 n2) any.
Proof. pose proof amf_branch as B. induction fuel as [|k (N & IH)]; [exists 0; intros; exact Logic.I|]. destruct (B k) as (M & J). clear B. exists (12 + 4 * N + M). intros n1 n2. cbn [m_intersect]. ams. Qed.
Lemma amf_product fuel : exists N, forall n1 n2, am N (m_product fuel n1 n2) any.
Proof. pose proof amf_branch as B. pose proof amf_union as U. induction fuel as [|k (N & IH)]; [exists 0; intros; exact Logic.I|]. destruct (B k) as (M & J). destruct (U k) as (V & JU). clear B U. exists (12 + 4 * N + M + 2 * V). intros n1 n2. cbn [m_product]. ams. Qed.
Lemma amf_inner fuel : exists N, forall n e, am N (m_subset_inner fuel n e) any.
Proof. pose proof amf_branch as B. induction fuel as [|k (N & IH)]; [exists 0; intros; exact Logic.I|]. destruct (B k) as (M & J). clear B. exists (12 + 4 * N + M). intros n e. cbn [m_subset_inner]. ams. Qed.
Lemma amf_subset fuel : exists N, forall n e, am N (m_node_subset fuel n e) any.
Proof. destruct (amf_inner fuel) as (N & J). exists N. intros n e. unfold m_node_subset. ams. Qed.
Lemma amf_subset_not fuel : exists N, forall n e, am N (m_node_subset_not fuel n e) any.
Proof. pose proof amf_branch as B. induction fuel as [|k (N & IH)]; [exists 0; intros; exact Logic.I|]. destruct (B k) as (M & J). clear B. exists (12 + 4 * N + M). intros n e. cbn [m_node_subset_not]. ams. Qed.
(** the trees a loop of [n] rounds lists: at most [n], of at most [n] items *)
Definition few (n : nat) (l : list (list nat)) : Prop := length l <= n /\ forall c, In c l -> length c <= n.
Lemma few_le n m l : n <= m -> few n l -> few m l.
Proof. intros Le (A & B). split; [lia|]. intros c J. specialize (B c J). lia. Qed.
Lemma amf_loop fuel : forall q acc m, (forall n p, In (n, p) q -> length p <= m) -> few m acc ->
  am (2 * fuel) (m_trees_loop fuel q acc) (few (fuel + m)).
Proof.
  induction fuel as [|k IH]; intros q acc m Hq Ha; (destruct q as [|[n path] q];
    [cbn; destruct Ha as (A & B); split; [rewrite rev_length; lia|intros c J; apply in_rev in J; specialize (B c J); lia]|]); [exact Logic.I|]. cbn [m_trees_loop].
  assert (Hp : length path <= m) by (eapply Hq; left; reflexivity).
  assert (Hr : forall n' p, In (n', p) q -> length p <= S m) by (intros n' p J; specialize (Hq n' p (or_intror J)); lia).
  destruct n as [[|]|id l h].
  - eapply am_le; [| |apply (IH _ _ (S m) Hr)]; [lia|intros c; replace (S k + m) with (k + S m) by lia; auto|].
    destruct Ha as (A & B). split; [cbn; lia|]. intros c [<-|J]; [|specialize (B c J)]; lia.
  - eapply am_le; [| |apply (IH _ _ (S m) Hr)]; [lia|intros c; replace (S k + m) with (k + S m) by lia; auto|]. eapply few_le; [|exact Ha]. lia.
  - eapply am_bind; [apply am_get|lia|intros l' _]. eapply am_bind; [apply am_get|lia|intros h' _].
    eapply am_le; [| |apply (IH _ _ (S m))]; [lia|intros c; replace (S k + m) with (k + S m) by lia; auto| |eapply few_le; [|exact Ha]; lia].
    intros n' p [J|[J|J]]; [injection J as <- <-; rewrite app_length; cbn; lia|injection J as <- <-; lia|eauto].
Qed.
Lemma amf_trees fuel r : am (1 + 2 * fuel) (m_trees fuel r) (few fuel).
Proof.
  unfold m_trees. eapply am_bind; [apply am_get|lia|intros n _]. eapply am_le; [| |apply (amf_loop fuel _ _ 0)]; [lia|intros c; rewrite Nat.add_0_r; auto| |].
  - intros n' p [J|[]]. injection J as <- <-. cbn. lia.
  - split; [cbn; lia|intros c []].
Qed.
Section Forest.
  Context {T : Type} `{OT : Ord T}.
  Lemma lef_translate fuel : forall fuel' (u v : universe T) n, fuel <= fuel' -> lep (m_translate_root fuel u v n) (m_translate_root fuel' u v n).
  Proof. induction fuel as [|k IH]; intros fuel' u v n Le; [exact Logic.I|]. destruct fuel' as [|k']; [lia|]. apply le_S_n in Le. cbn [m_translate_root]. leps. Qed.
  Hint Resolve lef_translate : lep.
  Lemma lef_many fuel fuel' h (rows : list (list T)) : fuel <= fuel' -> lep (m_many fuel h rows) (m_many fuel' h rows).
  Proof. intros Le. unfold m_many, m_priorities_node. leps. Qed.
  Hint Resolve lef_many : lep.
  Lemma lef_call (ms : list (mforest T)) c fuel fuel' : fuel <= fuel' -> lep (m_call fuel ms c) (m_call fuel' ms c).
  Proof.
    intros Le. destruct c; cbn [m_call]; unfold mnew, m_unit, m_unique, m_binop, m_subset, m_subset_not, m_subset_many, m_node_subset_all, m_node_subset_none, m_canonical,
      m_priorities_node, m_ftrees, m_len, m_is_empty, m_trees; leps.
  Qed.

  Lemma filter_map_length {A B} (f : A -> option B) l : length (filter_map f l) <= length l.
  Proof. induction l as [|x l IH]; cbn; [lia|]. destruct (f x); cbn; lia. Qed.
  Lemma priorities_length (u : universe T) xs : length (get_priorities u xs) <= length xs.
  Proof. unfold get_priorities. etransitivity; [|apply (filter_map_length (get_priority u))]; try (rewrite (Permutation_length (sort_perm _))); try (rewrite rev_length); lia. Qed.
  Lemma amf_priorities fuel K : exists N, forall (u : universe T) xs, length xs <= K -> am N (m_priorities_node fuel u xs) any.
  Proof.
    destruct (amf_branch fuel) as (N & J). exists (N * K). intros u xs Hk. unfold m_priorities_node. destruct (length xs) eqn:E; [exact Logic.I|].
    apply am_folds; [|pose proof (priorities_length u xs); lia]. intros x b _. apply J.
  Qed.
  Lemma amf_many fuel K : exists N, forall h (rows : list (list T)), length rows <= K -> (forall r, In r rows -> length r <= K) -> am N (m_many fuel h rows) any.
  Proof.
    destruct (amf_priorities fuel K) as (N & J). destruct (amf_union fuel) as (M & U). exists ((N + M) * K + 2). intros h rows L1 L2. unfold m_many. cbv zeta.
    eapply am_bind; [apply (am_folds _ (N + M) K); [|exact L1]|lia|intros r _].
    - intros x b Hx. eapply am_bind; [apply J, L2, Hx|lia|intros n _]. eapply am_le; [| |apply U]; [lia|auto].
    - eapply am_bind; [apply am_intern2|lia|intros; exact Logic.I].
  Qed.
  Lemma amf_canonical fuel : exists N, forall h r (u : universe T), am N (m_canonical fuel h r u) any.
  Proof.
    destruct (amf_many fuel fuel) as (N & J). exists (3 + 2 * fuel + N). intros h r u. unfold m_canonical.
    eapply am_bind; [apply am_intern2|lia|intros i _]. eapply am_bind; [apply amf_trees|lia|intros ts (A & B)].
    eapply am_le; [| |apply J]; [lia|auto|rewrite map_length; exact A|]. intros c Hc. apply in_map_iff in Hc. destruct Hc as (p & <- & Hp).
    unfold get_items. rewrite (Permutation_length (sort_perm _)). etransitivity; [apply filter_map_length|apply B, Hp].
  Qed.
  Lemma amf_translate fuel : exists N, forall (u v : universe T) n, am N (m_translate_root fuel u v n) any.
  Proof.
    pose proof amf_branch as B. induction fuel as [|k (N & IH)]; [exists 0; intros; exact Logic.I|]. destruct (B k) as (M & J). clear B. exists (12 + 4 * N + M).
    intros u v n. cbn [m_translate_root]. ams.
  Qed.
  Lemma amf_binop (op : nat -> znode -> znode -> zprog znode) fuel : (exists N, forall n1 n2, am N (op fuel n1 n2) any) ->
    exists N, forall h (f g : mforest T), am N (m_binop op fuel h f g) any.
  Proof.
    intros (N & J). destruct (amf_translate fuel) as (M & TR). destruct (amf_canonical fuel) as (K & C). exists (2 + 2 * M + N + K). intros h f g. unfold m_binop. ams.
  Qed.
  Lemma amf_many_filter fuel (func : nat -> znode -> nat -> zprog znode) K : (exists N, forall n e, am N (func fuel n e) any) ->
    exists N, forall n es, length es <= K -> am N (pfoldM (fun acc e => do s <- func fuel n e ; m_intersect fuel acc s) es (GLeaf true)) any.
  Proof.
    intros (N & J). destruct (amf_intersect fuel) as (M & X). exists ((N + M) * K). intros n es Hk. apply am_folds; [|exact Hk]. intros e b _. ams.
  Qed.
  Lemma amf_filter fuel default (func : nat -> znode -> nat -> zprog znode) (es : list T) : (exists N, forall n e, am N (func fuel n e) any) ->
    exists N, forall h (f : mforest T), am N (m_subset_many fuel h f es default (fun fuel n l => pfoldM (fun acc e => do s <- func fuel n e ; m_intersect fuel acc s) l (GLeaf true))) any.
  Proof.
    intros HF. destruct (amf_many_filter fuel func (length es) HF) as (N & J). destruct (amf_canonical fuel) as (K & C). exists (1 + N + K). intros h f. unfold m_subset_many.
    destruct es as [|e es]; [exact Logic.I|]. cbv zeta. destruct (negb _); [exact Logic.I|]. eapply am_bind; [apply am_get|lia|intros n _].
    eapply am_bind; [apply J, priorities_length|lia|intros r _]. eapply am_le; [| |apply C]; [lia|auto].
  Qed.
  Lemma amf_call c fuel : exists N, forall ms : list (mforest T), am N (m_call fuel ms c) any.
  Proof.
    assert (TS : forall r, am (1 + 2 * fuel) (m_trees fuel r) any).
    { intros r. eapply am_le; [| |apply amf_trees]; [lia|intros; exact Logic.I]. }
    destruct (amf_branch fuel) as (NB & B). destruct (amf_canonical fuel) as (NC & C).
    destruct c as [|h items|h rows|h items|h i j|h i j|h i j|h i e|h i e|h i es|h i es|i|i|i|h i|i j]; cbn [m_call]; unfold mnew; try (exists 0; intros; exact Logic.I).
    - destruct (amf_priorities fuel (length items)) as (N & J). exists (2 + N). intros ms. unfold m_unit. cbv zeta.
      eapply (am_bind _ _ (2 + N) _ any); [|lia|intros; exact Logic.I]. eapply am_bind; [apply J; lia|lia|intros r _]. eapply am_bind; [apply am_intern2|lia|intros; exact Logic.I].
    - destruct (amf_many fuel (length rows + length (concat rows))) as (N & J). exists N. intros ms. eapply am_bind; [apply J|lia|intros; exact Logic.I].
      + lia.
      + intros c Hc. clear -Hc. induction rows as [|d cs IH]; [destruct Hc|]. cbn [concat length]. rewrite app_length. destruct Hc as [->|Hc]; [lia|]. specialize (IH Hc). lia.
    - exists (2 + NB * length items). intros ms. unfold m_unique. cbv zeta. eapply (am_bind _ _ (2 + NB * length items) _ any); [|lia|intros; exact Logic.I].
      eapply am_bind; [apply (am_folds _ NB (length items)); [intros; apply B|apply priorities_length]|lia|intros r _]. eapply am_bind; [apply am_intern2|lia|intros; exact Logic.I].
    - destruct (amf_binop m_union fuel (amf_union fuel)) as (N & J). exists N. intros ms. ams.
    - destruct (amf_binop m_intersect fuel (amf_intersect fuel)) as (N & J). exists N. intros ms. ams.
    - destruct (amf_binop m_product fuel (amf_product fuel)) as (N & J). exists N. intros ms. ams.
    - destruct (amf_subset fuel) as (N & J). exists (1 + N + NC). intros ms. unfold m_subset. eapply (am_bind _ _ (1 + N + NC) _ any); [ams|lia|intros; exact Logic.I].
    - destruct (amf_subset_not fuel) as (N & J). exists (1 + N + NC). intros ms. unfold m_subset_not. eapply (am_bind _ _ (1 + N + NC) _ any); [ams|lia|intros; exact Logic.I].
    - destruct (amf_filter fuel (fun _ => m_empty) m_node_subset es (amf_subset fuel)) as (N & J). exists N. intros ms.
      eapply am_bind; [apply J|lia|intros; exact Logic.I].
    - destruct (amf_filter fuel (fun f => f) m_node_subset_not es (amf_subset_not fuel)) as (N & J). exists N. intros ms.
      eapply am_bind; [apply J|lia|intros; exact Logic.I].
    - exists (1 + 2 * fuel). intros ms. unfold m_ftrees. eapply (am_bind _ _ (1 + 2 * fuel) _ any); [ams|lia|intros; exact Logic.I].
    - exists (1 + 2 * fuel). intros ms. unfold m_len. eapply (am_bind _ _ (1 + 2 * fuel) _ any); [ams|lia|intros; exact Logic.I].
    - exists (1 + 2 * fuel). intros ms. unfold m_is_empty. eapply (am_bind _ _ (1 + 2 * fuel) _ any); [ams|lia|intros; exact Logic.I].
  Qed.
End Forest.
