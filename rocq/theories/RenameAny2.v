(** RenameAny2: closets under renamings that confuse no two items and no two families. *)
From Coq Require Import List Arith Lia Bool Permutation Sorted.
From Verif Require Import Base DD Spec BddSpec BddModel BddRun BddCloset BddThm Zdd2Model RenameSpec RenameAny.
Import ListNotations.

Section BddAny.
  Context {I J F G : Type} `{OI : Ord I} `{OJ : Ord J} `{OF : Ord F} `{OG : Ord G}
    (r : I -> J) (s : F -> G) (Jr : injective r) (Js : injective s).
  Implicit Types calls : list (bcall I F).
  Notation RC := (map (call_renamed r s)).
  Definition rp (p : I * I) : J * J := (r (fst p), r (snd p)).
  Definition rf (p : F * I) : G * J := (s (fst p), r (snd p)).

  Lemma adds_any calls : adds (RC calls) = map rf (adds calls).
  Proof.
    unfold adds. induction calls as [|c calls IH]; [reflexivity|]. cbn [map flat_map]. rewrite IH, map_app.
    destruct c; cbn [call_renamed]; try reflexivity. rewrite !map_map. reflexivity.
  Qed.
  Lemma excls_any calls : excls (RC calls) = map rp (excls calls).
  Proof.
    unfold excls. induction calls as [|c calls IH]; [reflexivity|]. cbn [map flat_map]. rewrite IH, map_app.
    destruct c; cbn [call_renamed]; try reflexivity. rewrite !map_map. reflexivity.
  Qed.
  Lemma incls_any calls : incls (RC calls) = map rp (incls calls).
  Proof.
    unfold incls. induction calls as [|c calls IH]; [reflexivity|]. cbn [map flat_map]. rewrite IH, map_app.
    destruct c; cbn [call_renamed]; try reflexivity. rewrite !map_map. reflexivity.
  Qed.
  Lemma in_adds_any calls g y : In (g, y) (adds (RC calls)) <-> exists f i, g = s f /\ y = r i /\ In (f, i) (adds calls).
  Proof.
    rewrite adds_any, in_map_iff. split.
    - intros ((f & i) & E & A). injection E as <- <-. eauto.
    - intros (f & i & -> & -> & A). exists (f, i). auto.
  Qed.
  Lemma in_adds_r calls f i : In (s f, r i) (adds (RC calls)) <-> In (f, i) (adds calls).
  Proof.
    rewrite in_adds_any. split; [|eauto]. intros (f' & i' & E & E' & A). apply Js in E. apply Jr in E'. congruence.
  Qed.
  Lemma in_rules_any (l : list (I * I)) y z : In (y, z) (map rp l) <-> exists a b, y = r a /\ z = r b /\ In (a, b) l.
  Proof.
    rewrite in_map_iff. split.
    - intros ((a & b) & E & A). injection E as <- <-. eauto.
    - intros (a & b & -> & -> & A). exists (a, b). auto.
  Qed.
  Lemma in_rules_r (l : list (I * I)) a b : In (r a, r b) (map rp l) <-> In (a, b) l.
  Proof.
    rewrite in_rules_any. split; [|eauto]. intros (a' & b' & E & E' & A). apply Jr in E, E'. congruence.
  Qed.
  Lemma known_any calls y : known (RC calls) y <-> exists i, y = r i /\ known calls i.
  Proof.
    unfold known. split.
    - intros (g & A). apply in_adds_any in A. destruct A as (f & i & -> & -> & A). eauto.
    - intros (i & -> & f & A). exists (s f). apply in_adds_r. exact A.
  Qed.
  Lemma known_r calls i : known (RC calls) (r i) <-> known calls i.
  Proof. rewrite known_any. split; [|eauto]. intros (j & E & K). apply Jr in E. congruence. Qed.

  Lemma legal_any calls : legal (RC calls) <-> legal calls.
  Proof.
    unfold legal. rewrite excls_any, incls_any. split; intros (A & B); split.
    - intros f g i X Y. apply Js. apply (A (s f) (s g) (r i)); apply in_adds_r; assumption.
    - intros a b R. destruct (B (r a) (r b)) as (Ka & Kb & D).
      { destruct R; [left|right]; apply in_rules_r; assumption. }
      rewrite known_r in Ka, Kb. split; [exact Ka|]. split; [exact Kb|].
      intros f X Y. apply (D (s f)); apply in_adds_r; assumption.
    - intros g g' y X Y. apply in_adds_any in X, Y. destruct X as (f & i & -> & -> & X), Y as (f' & i' & -> & E & Y).
      apply Jr in E. subst i'. f_equal. eapply A; eassumption.
    - intros y z R.
      assert (X : exists a b, y = r a /\ z = r b /\ (In (a, b) (excls calls) \/ In (a, b) (incls calls))).
      { destruct R as [R|R]; apply in_rules_any in R; destruct R as (a & b & -> & -> & R); eauto 6. }
      destruct X as (a & b & -> & -> & X). destruct (B a b X) as (Ka & Kb & D). rewrite !known_r.
      split; [exact Ka|]. split; [exact Kb|]. intros g Y Z. apply in_adds_any in Y. destruct Y as (f & i & -> & E & Y).
      apply Jr in E. subst i. apply (D f Y). apply in_adds_r. exact Z.
  Qed.

  Lemma valid_any calls o : valid_outfit (RC calls) (map r o) <-> valid_outfit calls o.
  Proof.
    unfold valid_outfit. rewrite excls_any, incls_any. split; intros (A & B & C & D).
    - split; [|split; [|split]].
      + intros i X. apply known_r, A, in_map, X.
      + intros f i X. destruct (B (s f) (r i)) as (y & Y & Z & W); [apply in_adds_r; exact X|].
        apply in_map_iff in Z. destruct Z as (j & <- & Z). exists j. split; [apply in_adds_r; exact Y|]. split; [exact Z|].
        intros k K O. apply Jr. apply W; [apply in_adds_r; exact K|apply in_map; exact O].
      + intros a b X (Y & Z). apply (C (r a) (r b)); [apply in_rules_r; exact X|]. split; apply in_map; assumption.
      + intros a b X Y. apply (in_map_inj r Jr). apply (D (r a) (r b)); [apply in_rules_r; exact X|apply in_map; exact Y].
    - split; [|split; [|split]].
      + intros y X. apply in_map_iff in X. destruct X as (i & <- & X). apply known_r. auto.
      + intros g y X. apply in_adds_any in X. destruct X as (f & i & -> & -> & X). destruct (B f i X) as (j & Y & Z & W).
        exists (r j). split; [apply in_adds_r; exact Y|]. split; [apply in_map; exact Z|].
        intros y K O. apply in_map_iff in O. destruct O as (k & <- & O). f_equal. apply W; [apply in_adds_r; exact K|exact O].
      + intros y z X (Y & Z). apply in_rules_any in X. destruct X as (a & b & -> & -> & X).
        apply (in_map_inj r Jr) in Y, Z. apply (C a b X). auto.
      + intros y z X Y. apply in_rules_any in X. destruct X as (a & b & -> & -> & X). apply (in_map_inj r Jr) in Y.
        apply in_map. eauto.
  Qed.
  Lemma valid_image calls o' : valid_outfit (RC calls) o' -> exists o, o' = map r o.
  Proof.
    intros (A & _). induction o' as [|y o' IH]; [exists []; reflexivity|].
    destruct IH as (o & ->). { intros z X. apply A. right; exact X. }
    assert (K : known (RC calls) y) by (apply A; left; reflexivity).
    apply known_any in K. destruct K as (i & -> & _). exists (i :: o). reflexivity.
  Qed.
  Lemma incl_any a b : incl (map r a) (map r b) <-> incl a b.
  Proof.
    split; intros X y Y.
    - apply (in_map_inj r Jr), X, in_map, Y.
    - apply in_map_iff in Y. destruct Y as (i & <- & Y). apply in_map, X, Y.
  Qed.
  Lemma sat_any calls sels : satisfiable (RC calls) (map r sels) <-> satisfiable calls sels.
  Proof.
    unfold satisfiable. split.
    - intros (o' & V & C). destruct (valid_image calls o' V) as (o & ->). exists o. rewrite valid_any in V. rewrite incl_any in C. auto.
    - intros (o & V & C). exists (map r o). rewrite valid_any, incl_any. auto.
  Qed.
  Lemma possible_any calls sels i :
    (exists o', valid_outfit (RC calls) o' /\ incl (map r sels) o' /\ In (r i) o') <->
    exists o, valid_outfit calls o /\ incl sels o /\ In i o.
  Proof.
    split.
    - intros (o' & V & C & X). destruct (valid_image calls o' V) as (o & ->). exists o.
      rewrite valid_any in V. rewrite incl_any in C. apply (in_map_inj r Jr) in X. auto.
    - intros (o & V & C & X). exists (map r o). rewrite valid_any, incl_any, (in_map_inj r Jr). auto.
  Qed.
  Lemma first_family_any calls i : first_family (RC calls) (r i) = option_map s (first_family calls i).
  Proof.
    unfold first_family. rewrite adds_any. induction (adds calls) as [|[f j] l IH]; [reflexivity|].
    cbn [map find rf fst snd].
    replace (eqb_ (r j) (r i)) with (eqb_ j i).
    - destruct (eqb_ j i); [reflexivity|exact IH].
    - destruct (eqb_spec_ j i) as [E|N]; destruct (eqb_spec_ (r j) (r i)) as [E'|N']; try reflexivity; exfalso.
      + apply N'. congruence.
      + apply N, Jr, E'.
  Qed.
  Lemma first_families_any calls sel : map (first_family (RC calls)) (map r sel) = map (option_map s) (map (first_family calls) sel).
  Proof. rewrite !map_map. apply map_ext. apply first_family_any. Qed.
  Lemma NoDup_families_any calls sel : NoDup (map (first_family (RC calls)) (map r sel)) <-> NoDup (map (first_family calls) sel).
  Proof.
    rewrite first_families_any. split; [apply NoDup_map_inv|]. apply FinFun.Injective_map_NoDup.
    intros [a|] [b|] E; cbn in E; try discriminate; [|reflexivity]. injection E as E. apply Js in E. congruence.
  Qed.
  Lemma all_known_any calls sel : (forall y, In y (map r sel) -> known (RC calls) y) <-> (forall i, In i sel -> known calls i).
  Proof.
    split.
    - intros A i X. apply known_r, A, in_map, X.
    - intros A y X. apply in_map_iff in X. destruct X as (i & <- & X). apply known_r. auto.
  Qed.
  Lemma reached_dec calls sels c : reached calls sels c -> satisfiable calls sels \/ ~ satisfiable calls sels.
  Proof. intros R. exact (sat_dec calls sels (inv_legal _ _ _ (reached_inv _ _ _ R)) (inv_known _ _ _ (reached_inv _ _ _ R))). Qed.

  Lemma select_ok_any calls sels c c' h h' i : reached calls sels c -> reached (RC calls) (map r sels) c' ->
    ((exists d, select_item h c i = Ok d) <-> exists d', select_item h' c' (r i) = Ok d').
  Proof.
    intros R R'. destruct (reached_dec _ _ _ R) as [S|S].
    - rewrite (proj2 (C52_select_partial_pf _ _ _ _ _ _ _ h i R S)).
      rewrite (proj2 (C52_select_partial_pf _ _ _ _ _ _ _ h' (r i) R' (proj2 (sat_any _ _) S))).
      symmetry. apply possible_any.
    - assert (S' : ~ satisfiable (RC calls) (map r sels)) by (rewrite sat_any; exact S).
      rewrite (proj2 (proj2 (C52_no_outfit_partial_pf _ _ _ _ _ _ _ h i R S))).
      rewrite (proj2 (proj2 (C52_no_outfit_partial_pf _ _ _ _ _ _ _ h' (r i) R' S'))).
      symmetry. apply known_r.
  Qed.
  Lemma reached_any calls sels : (exists c, reached calls sels c) <-> exists c', reached (RC calls) (map r sels) c'.
  Proof.
    induction sels as [|i sels IH] using rev_ind.
    - split.
      + intros (c & R). pose proof (inv_legal _ _ _ (reached_inv _ _ _ R)) as L. apply legal_any in L.
        destruct (proj2 (C47_build_ok_iff_legal_pf _ _ _ _ ho_id _) L) as (c' & B). exists c'. eapply reached_build; exact B.
      + intros (c' & R). pose proof (inv_legal _ _ _ (reached_inv _ _ _ R)) as L. apply legal_any in L.
        destruct (proj2 (C47_build_ok_iff_legal_pf _ _ _ _ ho_id _) L) as (c & B). exists c. eapply reached_build; exact B.
    - rewrite map_app. cbn [map]. split.
      + intros (c & R). inversion R as [h ? E Q|sl c0 h x ? R0 E Q]; [destruct sels; discriminate|].
        apply app_inj_tail in Q. destruct Q as [-> ->].
        destruct (proj1 IH (ex_intro _ c0 R0)) as (k' & R').
        destruct (proj1 (select_ok_any _ _ _ _ h h i R0 R')) as (d' & D'); [eauto|]. exists d'. eapply reached_select; eassumption.
      + intros (c' & R'). inversion R' as [h ? E Q|sl c0 h x ? R0 E Q]; [destruct sels; discriminate|].
        apply app_inj_tail in Q. destruct Q as [-> ->].
        destruct (proj2 IH (ex_intro _ c0 R0)) as (k & R).
        destruct (proj2 (select_ok_any _ _ _ _ h h i R R0)) as (d & D); [eauto|]. exists d. eapply reached_select; eassumption.
  Qed.
End BddAny.
