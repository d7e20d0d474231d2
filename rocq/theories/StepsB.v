(** StepsB: the accesses of the calls of bowtie-core. *)
From Coq Require Import List Arith Lia Bool Permutation.
From Verif Require Import Base DD Spec BddSpec BddModel BddRun ArenaModel ArenaProofs PoolModel BddProg BddProgProofs StackModel StackThm StepsModel Steps.
Import ListNotations.

Section Node.
  Context {I : Type} `{OI : Ord I}.
  Notation nd := (gnode I).
  (** ** more fuel *)
  Lemma leb_or fuel : forall fuel' (n1 n2 : nd), fuel <= fuel' -> lep (m_bitor fuel n1 n2) (m_bitor fuel' n1 n2).
  Proof. induction fuel as [|k IH]; intros fuel' n1 n2 Le; [exact Logic.I|]. destruct fuel' as [|k']; [lia|]. apply le_S_n in Le. cbn [m_bitor]. unfold m_both. leps. Qed.
  Lemma leb_and fuel : forall fuel' (n1 n2 : nd), fuel <= fuel' -> lep (m_bitand fuel n1 n2) (m_bitand fuel' n1 n2).
  Proof. induction fuel as [|k IH]; intros fuel' n1 n2 Le; [exact Logic.I|]. destruct fuel' as [|k']; [lia|]. apply le_S_n in Le. cbn [m_bitand]. unfold m_both. leps. Qed.
  Hint Resolve leb_or leb_and : lep.
  Lemma leb_xor fuel fuel' (n1 n2 : nd) : fuel <= fuel' -> lep (m_bitxor fuel n1 n2) (m_bitxor fuel' n1 n2).
  Proof. intros Le. unfold m_bitxor. leps. Qed.
  Lemma leb_reduce fuel : forall fuel' (n : nd), fuel <= fuel' -> lep (m_breduce fuel n) (m_breduce fuel' n).
  Proof. induction fuel as [|k IH]; intros fuel' n Le; [exact Logic.I|]. destruct fuel' as [|k']; [lia|]. apply le_S_n in Le. cbn [m_breduce]. leps. Qed.
  Lemma leb_restrict fuel : forall fuel' (n : nd) x b, fuel <= fuel' -> lep (m_brestrict fuel n x b) (m_brestrict fuel' n x b).
  Proof. induction fuel as [|k IH]; intros fuel' n x b Le; [exact Logic.I|]. destruct fuel' as [|k']; [lia|]. apply le_S_n in Le. cbn [m_brestrict]. leps. Qed.
  Lemma leb_loop fuel : forall fuel' (q : list nd) m, fuel <= fuel' -> lep (m_bsummarize_loop fuel q m) (m_bsummarize_loop fuel' q m).
  Proof.
    induction fuel as [|k IH]; intros fuel' q m Le; destruct q as [|n q].
    - destruct fuel'; reflexivity.
    - exact Logic.I.
    - destruct fuel'; reflexivity.
    - destruct fuel' as [|k']; [lia|]. apply le_S_n in Le. cbn [m_bsummarize_loop]. leps.
  Qed.
  Hint Resolve leb_loop : lep.
  Lemma leb_summarize fuel fuel' h (n : nd) : fuel <= fuel' -> lep (m_bsummarize fuel h n) (m_bsummarize fuel' h n).
  Proof. intros Le. unfold m_bsummarize. leps. Qed.
  Lemma leb_count leaf join fuel : forall fuel' (n : nd), fuel <= fuel' -> lep (m_count leaf join fuel n) (m_count leaf join fuel' n).
  Proof. induction fuel as [|k IH]; intros fuel' n Le; [exact Logic.I|]. destruct fuel' as [|k']; [lia|]. apply le_S_n in Le. cbn [m_count]. leps. Qed.
  Lemma leb_structure fuel : forall fuel' (n : nd) d, fuel <= fuel' -> lep (m_to_structure fuel n d) (m_to_structure fuel' n d).
  Proof. induction fuel as [|k IH]; intros fuel' n d Le; [exact Logic.I|]. destruct fuel' as [|k']; [lia|]. apply le_S_n in Le. cbn [m_to_structure]. leps. Qed.
  Lemma leb_content fuel : forall fuel' (n : nd) c d, fuel <= fuel' -> lep (m_to_content fuel n c d) (m_to_content fuel' n c d).
  Proof. induction fuel as [|k IH]; intros fuel' n c d Le; [exact Logic.I|]. destruct fuel' as [|k']; [lia|]. apply le_S_n in Le. cbn [m_to_content]. leps. Qed.
  Lemma leb_walk fuel : forall fuel' (n : nd) l, fuel <= fuel' -> lep (m_walk fuel n l) (m_walk fuel' n l).
  Proof. induction fuel as [|k IH]; intros fuel' n l Le; [exact Logic.I|]. destruct fuel' as [|k']; [lia|]. apply le_S_n in Le. cbn [m_walk]. leps. Qed.

  (** ** the accesses *)
  Lemma amb_branch x (l h : nd) : am 2 (m_bbranch x l h) any.
  Proof. unfold m_bbranch. ams. Qed.
  Lemma amb_collapse x (l h : nd) : am 2 (m_collapse x l h) any.
  Proof. unfold m_collapse. destruct (gnode_eqb _ _); [exact Logic.I|apply amb_branch]. Qed.
  Lemma amb_split (n : nd) x : am 2 (m_split n x) any.
  Proof. unfold m_split. ams. Qed.
  Lemma amb_or fuel : exists N, forall n1 n2 : nd, am N (m_bitor fuel n1 n2) any.
  Proof.
    pose proof amb_collapse as C. pose proof amb_split as S. induction fuel as [|k (N & IH)]; [exists 0; intros; exact Logic.I|]. exists (8 + 2 * N).
    intros n1 n2. cbn [m_bitor]. unfold m_both. ams.
  Qed.
  Lemma amb_and fuel : exists N, forall n1 n2 : nd, am N (m_bitand fuel n1 n2) any.
  Proof.
    pose proof amb_collapse as C. pose proof amb_split as S. induction fuel as [|k (N & IH)]; [exists 0; intros; exact Logic.I|]. exists (8 + 2 * N).
    intros n1 n2. cbn [m_bitand]. unfold m_both. ams.
  Qed.
  Lemma amb_xor fuel : exists N, forall n1 n2 : nd, am N (m_bitxor fuel n1 n2) any.
  Proof. destruct (amb_or fuel) as (N & J). destruct (amb_and fuel) as (M & K). exists (N + 2 * M). intros n1 n2. unfold m_bitxor. ams. Qed.
  Lemma amb_reduce fuel : exists N, forall n : nd, am N (m_breduce fuel n) any.
  Proof.
    pose proof amb_collapse as C. induction fuel as [|k (N & IH)]; [exists 0; intros; exact Logic.I|]. exists (8 + 2 * N). intros n. cbn [m_breduce]. ams.
  Qed.
  Lemma amb_restrict fuel : exists N, forall (n : nd) x b, am N (m_brestrict fuel n x b) any.
  Proof.
    pose proof amb_collapse as C. induction fuel as [|k (N & IH)]; [exists 0; intros; exact Logic.I|]. exists (8 + 2 * N). intros n x b. cbn [m_brestrict]. ams.
  Qed.
  Lemma amb_loop fuel : forall (q : list nd) m, am (2 * fuel) (m_bsummarize_loop fuel q m) any.
  Proof.
    induction fuel as [|k IH]; intros q m; (destruct q as [|n q]; [exact Logic.I|]); [exact Logic.I|]. cbn [m_bsummarize_loop]. ams.
  Qed.
  Lemma amb_summarize fuel h (n : nd) : am (2 * fuel) (m_bsummarize fuel h n) any.
  Proof. pose proof amb_loop as L. unfold m_bsummarize. ams. Qed.
  Lemma amb_count leaf join fuel : exists N, forall n : nd, am N (m_count leaf join fuel n) any.
  Proof. induction fuel as [|k (N & IH)]; [exists 0; intros; exact Logic.I|]. exists (8 + 2 * N). intros n. cbn [m_count]. ams. Qed.
  Lemma amb_structure fuel : exists N, forall (n : nd) d, am N (m_to_structure fuel n d) any.
  Proof. induction fuel as [|k (N & IH)]; [exists 0; intros; exact Logic.I|]. exists (8 + 2 * N). intros n d. cbn [m_to_structure]. ams. Qed.
  Lemma amb_content fuel : exists N, forall (n : nd) c d, am N (m_to_content fuel n c d) any.
  Proof. induction fuel as [|k (N & IH)]; [exists 0; intros; exact Logic.I|]. exists (8 + 2 * N). intros n c d. cbn [m_to_content]. ams. Qed.
  Lemma amb_walk fuel : forall (n : nd) l, am (2 * fuel) (m_walk fuel n l) any.
  Proof. induction fuel as [|k IH]; intros n l; [exact Logic.I|]. cbn [m_walk]. ams. Qed.
  Lemma amb_to_node s : exists N, forall c : list (nat * I), am N (m_to_node s c) any.
  Proof.
    pose proof amb_branch as B.
    induction s as [d l (N & IHl) h (M & IHh)|d s (N & IH)|d s (N & IH)|b].
    - exists (2 + N + M). intros c. cbn [m_to_node]. ams.
    - exists (2 + N). intros c. cbn [m_to_node]. ams.
    - exists (2 + N). intros c. cbn [m_to_node]. ams.
    - exists 0. intros c. exact Logic.I.
  Qed.
End Node.
#[export] Hint Resolve leb_or leb_and leb_xor leb_reduce leb_restrict leb_summarize leb_count leb_structure leb_content leb_walk : lep.

Section Closet.
  Context {I F : Type} `{OI : Ord I} `{OF : Ord F}.
  Notation nd := (gnode I).
  Lemma leb_call (ms : list (mval I F)) c fuel fuel' : fuel <= fuel' -> lep (m_bcall fuel ms c) (m_bcall fuel' ms c).
  Proof.
    intros Le. destruct c as [h calls|h i item|i sels|i|i|un i items|i j|i|x|b|item|item|item i j|o i j|i|i|i item sel|h i|i j|h index i]; cbn [m_bcall]; try destruct o;
      unfold m_build, m_build_root, m_select_item, m_complete_outfit, m_restrict_all, m_closet_new, m_sibling, m_exclusion, m_inclusion,
      m_node_count, m_leaf_count, m_outfit_count, m_depth, m_op; leps.
  Qed.

  Lemma insert_length {A B} `{Ord A} (m : list (A * B)) x y : length (map_insert m x y) <= S (length m).
  Proof. unfold map_insert. induction m as [|[k v] m IH]; cbn; [lia|]. destruct (cmp x k); cbn; lia. Qed.
  Lemma amb_sibling fuel K : exists N, forall items : list I, length items <= K -> am N (m_sibling fuel items) any.
  Proof.
    destruct (amb_or (I := I) fuel) as (NO & O). destruct (amb_and (I := I) fuel) as (NA & A). exists (2 * K + (2 + NA * S K + NO) * K). intros items Hk. unfold m_sibling.
    eapply am_bind; [|apply Nat.le_add_r|].
    - eapply am_le; [apply (Nat.mul_le_mono_l _ _ 2 Hk)|intros x J; exact J|].
      apply (am_fold (fun m i => do n <- m_neg i ; Ret (map_insert m i n)) (fun n m => length m <= n) 2 items) with (b := []) (n := 0); [|cbn; lia].
      intros x b n _ Hb. eapply am_bind; [apply amb_branch|lia|intros y _]. cbn. etransitivity; [apply insert_length|lia].
    - cbn [Nat.add]. intros m Hm. eapply am_le; [| |apply (am_folds _ (2 + NA * S K + NO) K _ _)]; [lia|auto| |exact Hk].
      intros x b _. eapply am_bind; [apply amb_branch|lia|intros p _]. eapply am_bind; [apply (am_folds _ NA (S K))|lia|intros y _].
      + intros q r _. apply A.
      + etransitivity; [apply insert_length|lia].
      + eapply am_le; [| |apply O]; [lia|auto].
  Qed.
  Lemma amb_rule fuel : exists N, forall s x : I, am N (m_exclusion fuel s x) any /\ am N (m_inclusion fuel s x) any.
  Proof.
    destruct (amb_or (I := I) fuel) as (NO & O). pose proof (amb_branch (I := I)) as B. exists (4 + NO). intros s x. unfold m_exclusion, m_inclusion, m_pos, m_neg. split; ams.
  Qed.
  Lemma amb_build_root fuel (b : builder I F) : exists N, am N (m_build_root fuel b) any.
  Proof.
    destruct (amb_sibling fuel (length (concat (map snd (b_contents b))))) as (NS & S1). destruct (amb_rule fuel) as (NR & R). destruct (amb_and (I := I) fuel) as (NA & A).
    exists ((NS + NA) * length (b_contents b) + (NR + NA) * length (rule_pairs (b_excl b)) + (NR + NA) * length (rule_pairs (b_incl b))). unfold m_build_root.
    eapply am_bind; [apply (am_folds _ (NS + NA) (length (b_contents b))); [|lia]|lia|intros r1 _].
    - intros p r J. eapply am_bind; [apply S1|lia|intros n _; eapply am_le; [| |apply A]; [lia|auto]].
      clear -J. induction (b_contents b) as [|q l IH]; [destruct J|]. cbn [map concat]. rewrite app_length. destruct J as [->|J]; [lia|]. specialize (IH J). lia.
    - eapply am_bind; [apply (am_folds _ (NR + NA) (length (rule_pairs (b_excl b)))); [|lia]|lia|intros r2 _].
      + intros p r J. eapply am_bind; [apply R|lia|intros n _; eapply am_le; [| |apply A]; [lia|auto]].
      + eapply am_le; [| |apply (am_folds _ (NR + NA) (length (rule_pairs (b_incl b)))); [|lia]]; [lia|auto|].
        intros p r J. eapply am_bind; [apply R|lia|intros n _; eapply am_le; [| |apply A]; [lia|auto]].
  Qed.
  Lemma amb_restrict_all fuel (sels : list I) : exists N, forall r : nd, am N (m_restrict_all fuel r sels) any.
  Proof. destruct (amb_restrict (I := I) fuel) as (N & J). exists (N * length sels). intros r. unfold m_restrict_all. apply am_folds; [|lia]. intros x b _. apply J. Qed.
  Lemma amb_call c fuel : exists N, forall ms : list (mval I F), am N (m_bcall fuel ms c) any.
  Proof.
    pose proof (fun h => amb_summarize (I := I) fuel h) as SU. pose proof (amb_branch (I := I)) as B. pose proof (amb_walk (I := I) fuel) as WK.
    destruct c as [h calls|h i item|i sels|i|i|un i items|i j|i|x|b|item|item|item i j|o i j|i|i|i item sel|h i|i j|h index i]; cbn [m_bcall]; cbv zeta; try (exists 0; intros; exact Logic.I).
    - destruct (amb_build_root fuel (run_calls calls)) as (N & J). exists (N + 2 * fuel). intros ms. unfold m_build, m_closet_new.
      eapply (am_bind _ _ (N + 2 * fuel) _ any); [|lia|intros; exact Logic.I]. destruct (validate_closet _); [|exact Logic.I].
      eapply am_bind; [exact J|lia|intros r _]. eapply (am_bind _ _ (2 * fuel) _ any); [ams|lia|intros; exact Logic.I].
    - destruct (amb_restrict (I := I) fuel) as (N & J). exists (N + 2 * fuel). intros ms. unfold m_select_item.
      eapply (am_bind _ _ (N + 2 * fuel) _ any); [ams|lia|intros; exact Logic.I].
    - destruct (amb_restrict_all fuel sels) as (N & J). exists (2 * N + 2 * fuel). intros ms. unfold m_complete_outfit.
      eapply (am_bind _ _ (2 * N + 2 * fuel) _ any); [cbv zeta; ams|lia|intros; exact Logic.I].
    - unfold m_node_count, m_leaf_count, m_outfit_count, m_depth.
      destruct (amb_count (I := I) (fun _ => 1) (fun l h => 1 + l + h) fuel) as (N1 & J1). destruct (amb_count (I := I) (fun _ => 1) (fun l h => l + h) fuel) as (N2 & J2).
      destruct (amb_count (I := I) (fun b => if b then 1 else 0) (fun l h => l + h) fuel) as (N3 & J3).
      destruct (amb_count (I := I) (fun _ => 1) (fun l h => match Nat.compare l h with Lt => 1 + h | Eq => 1 + l | Gt => 1 + l end) fuel) as (N4 & J4).
      exists (N1 + N2 + N3 + N4). intros ms.
      eapply am_bind; [apply J1|lia|intros ? _]. eapply am_bind; [apply J2|lia|intros ? _]. eapply am_bind; [apply J3|lia|intros ? _].
      eapply am_bind; [apply J4|lia|intros ? _]. exact Logic.I.
    - destruct (amb_structure (I := I) fuel) as (N & J). destruct (amb_content (I := I) fuel) as (M & K). exists (N + M). intros ms. ams.
    - destruct (amb_to_node (I := I) (fst (snd x))) as (N & J). exists N. intros ms. ams.
    - exists 2. intros ms. ams.
    - exists 2. intros ms. ams.
    - exists 2. intros ms. ams.
    - destruct (amb_or (I := I) fuel) as (N1 & J1). destruct (amb_and (I := I) fuel) as (N2 & J2). destruct (amb_xor (I := I) fuel) as (N3 & J3).
      exists (N1 + N2 + N3). intros ms. destruct o; unfold m_op; ams.
    - destruct (amb_reduce (I := I) fuel) as (N & J). exists N. intros ms. ams.
    - destruct (amb_restrict (I := I) fuel) as (N & J). exists N. intros ms. ams.
    - exists (2 * fuel). intros ms. ams.
    - exists (2 * fuel). intros ms. unfold m_closet_new. eapply (am_bind _ _ (2 * fuel) _ any); [ams|lia|intros; exact Logic.I].
  Qed.
End Closet.
