(** CostF: explicit bounds on the accesses of the constructors of zdd2 forests. *)
From Coq Require Import List Arith Lia Bool.
From Verif Require Import Base DD Spec Zdd2Model Zdd2Prog ArenaModel ArenaProofs StackModel StepsModel Steps StepsF CostModel.
Import ListNotations.

Fixpoint cost3 (d : nat) : nat := match d with O => 0 | S k => 10 + 3 * cost3 k end.
Lemma cost3_pow d : cost3 d + 5 = 5 * 3 ^ d.
Proof. induction d as [|k IH]; [reflexivity|]. cbn [cost3]. rewrite Nat.pow_succ_r'. lia. Qed.
Lemma am_sum {L A B} (f : B -> A -> prog L B) (g : A -> nat) (l : list A) :
  (forall x b, In x l -> am (g x) (f b x) any) -> forall b, am (list_sum (map g l)) (pfoldM f l b) any.
Proof.
  induction l as [|x l IH]; intros Hf b; [exact Logic.I|]. cbn [pfoldM map]. change (list_sum (g x :: map g l)) with (g x + list_sum (map g l)).
  eapply am_bind; [apply Hf; left; reflexivity|lia|intros y _]. eapply am_le; [| |apply IH; intros z b' J; apply Hf; right; exact J]; [lia|auto].
Qed.
Lemma cf_branch fuel : forall id l h, am (cost3 fuel) (m_branch fuel id l h) any.
Proof. pose proof amf_into as J. induction fuel as [|k IH]; intros id l h; [exact Logic.I|]. cbn [m_branch cost3]. ams. Qed.
Lemma cf_union fuel : forall n1 n2, am (cost3 fuel) (m_union fuel n1 n2) any.
Proof. pose proof cf_branch as B. induction fuel as [|k IH]; intros n1 n2; [exact Logic.I|]. specialize (B k). cbn [m_union cost3]. ams. Qed.
Section Forest.
  Context {T : Type} `{Ord T}.
  Lemma cf_priorities fuel (u : universe T) xs : am (cost3 fuel * length xs) (m_priorities_node fuel u xs) any.
  Proof.
    unfold m_priorities_node. destruct (length xs) eqn:E; [exact Logic.I|]. rewrite <- E.
    apply am_folds; [|apply priorities_length]. intros x b _. apply cf_branch.
  Qed.
  Lemma cf_call (c : call T) w fuel ms : fmade c = Some w -> 1 <= fuel -> am (w * (5 * 3 ^ fuel)) (m_call fuel ms c) any.
  Proof.
    pose proof (cost3_pow fuel) as P. pose proof (cf_priorities fuel) as Y. pose proof (cf_branch fuel) as B. pose proof (cf_union fuel) as U.
    destruct c; cbn [fmade]; intros E Le; try discriminate E; injection E as <-; rewrite <- P; cbn [m_call]; unfold mnew, m_unit, m_many, m_unique; cbv zeta.
    - eapply (am_bind _ _ (cost3 fuel * length items + 2) _ any); [|nia|intros; exact Logic.I].
      eapply am_bind; [apply Y|lia|intros r _]. eapply am_bind; [apply amf_into with (x := ANode r)|lia|intros; exact Logic.I].
    - eapply (am_bind _ _ (list_sum (map (fun r => cost3 fuel * length r + cost3 fuel) rows) + 2) _ any).
      + eapply am_bind; [apply (am_sum _ (fun r => cost3 fuel * length r + cost3 fuel))|lia|intros r _; eapply am_bind; [apply amf_into with (x := ANode r)|lia|intros; exact Logic.I]].
        intros r b _. eapply am_bind; [apply Y|cbv beta; lia|intros n _]. cbv beta. eapply am_le; [| |apply U]; [lia|auto].
      + assert (X : list_sum (map (fun r => cost3 fuel * length r + cost3 fuel) rows) = cost3 fuel * (length rows + length (concat rows))).
        { clear. unfold list_sum. induction rows as [|r l IH]; [cbn; lia|]. cbn [map fold_right concat length]. rewrite IH, app_length. lia. }
        lia.
      + intros; exact Logic.I.
    - eapply (am_bind _ _ (cost3 fuel * length items + 2) _ any); [|nia|intros; exact Logic.I].
      eapply am_bind; [apply (am_folds _ (cost3 fuel) (length items)); [intros x b _; apply B|apply priorities_length]|lia|intros r _].
      eapply am_bind; [apply amf_into with (x := ANode r)|lia|intros; exact Logic.I].
  Qed.
End Forest.
