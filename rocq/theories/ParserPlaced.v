(** ParserPlaced: what [Node::branch] (weave/src/zdd2/forest/node/mod.rs L67-96)
    makes of a label in any order, as families: [placed] of ParserSpec; and
    [placed] determines its result. *)
From Coq Require Import List Arith NArith Lia Bool.
From Verif Require Import Base DD Spec Zdd2Model Zdd2Node Zdd2Node2 Zdd2Exact Zdd2Resort ParserSpec.
Import ListNotations.
Local Open Scope nat_scope.

Local Notation same fs gs := (forall t, fs t <-> gs t).
Definition fam (t : dd nat) : family := fun s => In s (paths t).

Lemma leading_fun y z (fs : family) : leading y fs -> leading z fs -> y = z.
Proof.
  intros ((s & A) & B) ((s' & C) & D). apply Nat.le_antisymm; [eapply B; [exact C|left; reflexivity]|].
  eapply D; [exact A|left; reflexivity].
Qed.
Lemma leading_ext y (fs gs : family) : same fs gs -> leading y fs -> leading y gs.
Proof. intros Q ((s & A) & B). split; [exists s; apply Q, A|]. intros t z G. apply B, Q, G. Qed.
Lemma off_ext y (fs gs : family) : same fs gs -> same (off y fs) (off y gs).
Proof. intros Q t. unfold off. rewrite (Q t). reflexivity. Qed.
Lemma rest_ext y (fs gs : family) : same fs gs -> same (rest y fs) (rest y gs).
Proof. intros Q t. apply Q. Qed.
Lemma behind_fun y ls hs es ls' hs' es' : same ls ls' -> same hs hs' -> behind y ls hs es -> behind y ls' hs' es' -> same es es'.
Proof. intros Ql Qh E E' t. rewrite (E t), (E' t), (Ql t). setoid_rewrite Qh. reflexivity. Qed.

Lemma placed_fun x ls hs es : placed x ls hs es -> forall ls' hs' es', same ls ls' -> same hs hs' ->
  placed x ls' hs' es' -> same es es'.
Proof.
  assert (Top : forall y (hs hs' : family), y <= x -> leading y hs -> same hs hs' -> (forall t z, hs' t -> In z t -> x < z) -> False).
  { intros y hs0 hs1 L ((s & A) & _) Q F. assert (x < y) by (apply (F (y :: s)); [apply Q, A|left; reflexivity]). lia. }
  assert (Non : forall y (hs hs' : family), leading y hs -> same hs hs' -> (forall t, ~ hs' t) -> False).
  { intros y hs0 hs1 ((s & A) & _) Q F. apply (F (y :: s)), Q, A. }
  assert (Fun : forall y z (hs hs' : family), leading y hs -> same hs hs' -> leading z hs' -> y = z).
  { intros y z hs0 hs1 A Q B. eapply leading_fun; [eapply leading_ext; eauto|exact B]. }
  induction 1 as [ls hs es N E|ls hs es (t0 & T0) F E|ls hs es L E|y ls hs es e0 e1 By L1 L2 P0 IH0 P1 IH1 E|y ls hs es e1 By L1 L2 P1 IH1 E];
    intros ls' hs' es' Ql Qh P;
    assert (Qh' : same hs' hs) by (intros u; symmetry; apply Qh);
    inversion P as [? ? ? N' E'|? ? ? (t1 & T1) F' E'|? ? ? L' E'|y' ? ? ? e0' e1' By' L1' L2' P0' P1' E'|y' ? ? ? e1' By' L1' L2' P1' E']; subst.
  - intros t. rewrite (E t), (E' t). apply Ql.
  - exfalso. apply (N t1), Qh, T1.
  - exfalso. eauto.
  - exfalso. eauto.
  - exfalso. eauto.
  - exfalso. apply (N' t0), Qh, T0.
  - exact (behind_fun _ _ _ _ _ _ _ Ql Qh E E').
  - exfalso. exact (Top x hs' hs (le_n _) L' Qh' F).
  - exfalso. exact (Top y' hs' hs (Nat.lt_le_incl _ _ By') L2' Qh' F).
  - exfalso. exact (Top y' hs' hs (Nat.lt_le_incl _ _ By') L2' Qh' F).
  - exfalso. eauto.
  - exfalso. exact (Top x hs hs' (le_n _) L Qh F').
  - eapply behind_fun; [exact Ql|apply rest_ext, Qh|exact E|exact E'].
  - exfalso. pose proof (Fun _ _ _ _ L Qh L2'). lia.
  - exfalso. pose proof (Fun _ _ _ _ L Qh L2'). lia.
  - exfalso. eauto.
  - exfalso. exact (Top y hs hs' (Nat.lt_le_incl _ _ By) L2 Qh F').
  - exfalso. pose proof (Fun _ _ _ _ L2 Qh L'). lia.
  - pose proof (Fun _ _ _ _ L2 Qh L2'). subst y'. intros t.
    pose proof (IH0 _ _ _ (off_ext y _ _ Ql) (off_ext y _ _ Qh) P0') as Q0.
    pose proof (IH1 _ _ _ (rest_ext y _ _ Ql) (rest_ext y _ _ Qh) P1') as Q1.
    rewrite (E t), (E' t), (Q0 t). setoid_rewrite Q1. reflexivity.
  - exfalso. pose proof (Fun _ _ _ _ L2 Qh L2'). subst y'. apply L1'. eapply leading_ext; eauto.
  - exfalso. eauto.
  - exfalso. exact (Top y hs hs' (Nat.lt_le_incl _ _ By) L2 Qh F').
  - exfalso. pose proof (Fun _ _ _ _ L2 Qh L'). lia.
  - exfalso. pose proof (Fun _ _ _ _ L2 Qh L2'). subst y'. apply L1. eapply leading_ext; [|exact L1']. intros u. symmetry. apply Ql.
  - pose proof (Fun _ _ _ _ L2 Qh L2'). subst y'.
    eapply behind_fun; [exact Ql| |exact E|exact E'].
    exact (IH1 _ _ _ (off_ext y _ _ Qh) (rest_ext y _ _ Qh) P1').
Qed.
Lemma parsed_as_fun raw : forall es es', parsed_as raw es -> parsed_as raw es' -> same es es'.
Proof.
  induction raw as [v|i lo IHl hi IHh]; intros es es' P P'; inversion P as [? ? E|? ? ? ls hs ? Pl Ph Pe]; inversion P' as [? ? E'|? ? ? ls' hs' ? Pl' Ph' Pe']; subst.
  - intros t. rewrite (E t), (E' t). reflexivity.
  - exact (placed_fun _ _ _ _ Pe _ _ _ (IHl _ _ Pl Pl') (IHh _ _ Ph Ph') Pe').
Qed.

(** families of well-formed diagrams *)
Lemma fam_leading n y lo hi : zwf n (Branch y lo hi) -> leading y (fam (Branch y lo hi)).
Proof.
  intros W. pose proof W as (A & B & C & D). split.
  - destruct (zwf_nonempty _ _ D B) as (s & S_). exists s. apply paths_branch. left. eauto.
  - intros t z J Z. apply (paths_labels _ _ _ J) in Z. apply (zwf_label y (Branch y lo hi)); [|exact Z].
    repeat split; auto.
Qed.
Lemma fam_off n y lo hi : zwf n (Branch y lo hi) -> same (off y (fam (Branch y lo hi))) (fam lo).
Proof.
  intros (A & B & C & D) t. unfold off, fam. rewrite paths_branch. split.
  - intros ([(s & -> & _)|J] & N); [exfalso; apply N; left; reflexivity|exact J].
  - intros J. split; [auto|]. intros Y. apply (paths_labels _ _ _ J) in Y. apply (zwf_label _ _ _ C) in Y. lia.
Qed.
Lemma fam_rest n y lo hi : zwf n (Branch y lo hi) -> same (rest y (fam (Branch y lo hi))) (fam hi).
Proof.
  intros (A & B & C & D) t. unfold rest, fam. rewrite paths_branch. split.
  - intros [(s & X & J)|J]; [injection X as <-; exact J|].
    exfalso. assert (Y : In y (labels lo)) by (eapply paths_labels; [exact J|left; reflexivity]).
    apply (zwf_label _ _ _ C) in Y. lia.
  - intros J. left. eauto.
Qed.
Lemma fam_behind n id lo hi ls hs es : zwf n lo -> same ls (fam lo) -> same hs (fam hi) -> same es (fam (ins_lo id lo hi)) ->
  behind id ls hs es.
Proof.
  intros W Ql Qh Qe t. rewrite (Qe t). unfold fam. rewrite (ins_lo_all n id lo hi t W). rewrite (Ql t). setoid_rewrite Qh.
  unfold fam. split; [intros [(s & -> & J)|J]; [right; eauto|left; exact J]|].
  intros [J|(s & J & ->)]; [right; exact J|left; eauto].
Qed.

(** when [id] is the first label of the high side, its low child is dropped *)
Lemma branch_f_same k : forall n id lo hl hh, n <= id -> zwf n lo -> zwf (S id) hh -> hh <> Never ->
  size lo + 2 <= k -> branch_f k id lo (Branch id hl hh) = Some (ins_lo id lo hh).
Proof.
  induction k as [|k IH]; intros n id lo hl hh L Wl Wh N F; [lia|].
  destruct lo as [b|l ll lh]; cbn [branch_f].
  - rewrite Nat.ltb_irrefl, Nat.eqb_refl. apply (branch_f_ins_lo k n); auto. cbn [size] in *. lia.
  - rewrite Nat.ltb_irrefl. cbn [andb]. destruct (Nat.ltb_spec l id) as [Ll|Ll].
    + cbn [ins_lo]. destruct (Nat.ltb_spec l id); [|lia]. pose proof Wl as (A1 & A2 & A3 & A4).
      rewrite (IH (S l) id ll hl hh); auto; [|cbn [size] in F; pose proof (size_pos lh); lia]. cbn [bind].
      destruct k as [|k]; [cbn [size] in F; lia|]. rewrite branch_f_direct; auto.
      * unfold zmk. destruct lh as [[]|]; try reflexivity. contradiction.
      * destruct (branch_total (S l) id ll hh) as (r & E & W & _); auto.
        { eapply zwf_mono; [|exact Wh]. lia. }
        rewrite (branch_ins_lo (S l) id ll hh) in E by assumption. injection E as <-. exact W.
    + rewrite Nat.eqb_refl. apply (branch_f_ins_lo k n); auto. lia.
Qed.

Lemma branch_placed k : forall n id lo hi r ls hs es, size lo + size hi <= k -> n <= id -> zwf n lo -> zwf n hi ->
  branch id lo hi = Some r -> same ls (fam lo) -> same hs (fam hi) -> same es (fam r) -> placed id ls hs es.
Proof.
  induction k as [|k IH]; intros n id lo hi r ls hs es F L Wl Wh E Ql Qh Qe.
  { pose proof (size_pos lo). lia. }
  assert (Above : zwf (S id) hi -> placed id ls hs es).
  { intros A. destruct (dd_eqb_spec hi Never) as [->|N].
    - apply placed_none.
      + intros t J. apply Qh in J. destruct J.
      + unfold branch in E. rewrite Nat.add_comm in E. cbn in E. assert (r = lo) by (destruct lo; congruence). subst r.
        intros t. rewrite (Qe t), (Ql t). reflexivity.
    - apply placed_top.
      + destruct (zwf_nonempty _ _ A N) as (s & S_). exists s. apply Qh, S_.
      + intros t z J Z. apply Qh in J. apply (paths_labels _ _ _ J) in Z. apply (zwf_label _ _ _ A) in Z. lia.
      + rewrite (branch_ins_lo n id lo hi) in E by assumption. injection E as <-.
        exact (fam_behind n id lo hi ls hs es Wl Ql Qh Qe). }
  destruct hi as [b|h hl hh]; [apply Above; exact I|].
  pose proof Wh as (B1 & B2 & B3 & B4).
  destruct (Nat.lt_ge_cases id h) as [G|G]; [apply Above; repeat split; auto; lia|]. clear Above.
  assert (Ldh : leading h hs) by (eapply leading_ext; [|eapply fam_leading; exact Wh]; intros t; symmetry; apply Qh).
  assert (Q1 : same (off h hs) (fam hl)).
  { intros t. rewrite (off_ext h _ _ Qh t). eapply fam_off; eauto. }
  assert (Q2 : same (rest h hs) (fam hh)).
  { intros t. rewrite (rest_ext h _ _ Qh t). eapply fam_rest; eauto. }
  destruct (Nat.eq_dec h id) as [->|Nid].
  { apply placed_same; [exact Ldh|]. unfold branch in E.
    rewrite (branch_f_same _ n id lo hl hh) in E; auto; [|cbn [size]; lia]. injection E as <-.
    exact (fam_behind n id lo hh ls _ es Wl Ql Q2 Qe). }
  assert (Lh : h < id) by lia. clear G Nid.
  assert (Hs : branch_f (S (size lo + size (Branch h hl hh) + 2)) id lo (Branch h hl hh) = Some r).
  { rewrite <- E. unfold branch. f_equal. lia. }
  assert (Hi : ~ leading h ls -> (let! high' := branch_f (size lo + size (Branch h hl hh) + 2) id hl hh in
              branch_f (size lo + size (Branch h hl hh) + 2) h lo high') = Some r -> placed id ls hs es).
  { intros NL E'. apply bind_some in E'. destruct E' as (e & E1 & E2).
    destruct (branch_total (S h) id hl hh) as (e' & Ee & We & _); auto.
    assert (e = e').
    { unfold branch in Ee. apply (branch_f_mono _ (size lo + size (Branch h hl hh) + 2)) in Ee; [congruence|].
      cbn [size]. pose proof (size_pos lo). lia. } subst e'.
    destruct (branch_kept (S h) id hl hh e) as (K1 & K2 & _); auto.
    assert (Ne : e <> Never) by (intros ->; destruct (K2 eq_refl); contradiction).
    rewrite (branch_f_ins_lo _ n h lo e) in E2; [|lia|assumption|assumption|assumption|cbn [size]; lia].
    injection E2 as <-. apply (placed_high id h ls hs es (fam e)); auto.
    - apply (IH (S h) id hl hh e); auto; [cbn [size] in F; pose proof (size_pos lo); lia|reflexivity].
    - apply (fam_behind n h lo e ls _ es Wl Ql); [reflexivity|exact Qe]. }
  destruct lo as [b|l ll lh]; cbn [branch_f] in Hs.
  - destruct (Nat.ltb_spec h id); [|lia]. apply Hi; [|exact Hs].
    intros ((t & J) & _). apply Ql in J. destruct b; [destruct J as [J|[]]; discriminate|destruct J].
  - pose proof Wl as (A1 & A2 & A3 & A4). destruct (Nat.ltb_spec h id) as [_|]; [|lia]. cbn [andb] in Hs.
    destruct (Nat.eqb_spec l h) as [->|Nlh].
    2:{ apply Hi; [|exact Hs]. intros X. apply Nlh.
        apply (leading_fun l h (fam (Branch l ll lh))); [eapply fam_leading; eauto|eapply leading_ext; eauto]. }
    clear Hi E.
    set (kk := size (Branch h ll lh) + size (Branch h hl hh) + 2) in *.
    apply bind_some in Hs. destruct Hs as (u & E1 & E). apply bind_some in E. destruct E as (v & E2 & E3).
    destruct (branch_total (S h) id ll hl) as (u' & Eu & Wu & _); auto.
    destruct (branch_total (S h) id lh hh) as (v' & Ev & Wv & _); auto.
    assert (u = u').
    { unfold branch in Eu. apply (branch_f_mono _ kk) in Eu; [congruence|]. unfold kk. cbn [size]. lia. } subst u'.
    assert (v = v').
    { unfold branch in Ev. apply (branch_f_mono _ kk) in Ev; [congruence|]. unfold kk. cbn [size]. lia. } subst v'.
    assert (F1 : size ll + size hl <= k) by (cbn [size] in F; lia).
    assert (F2 : size lh + size hh <= k) by (cbn [size] in F; lia).
    replace kk with (S (size (Branch h ll lh) + size (Branch h hl hh) + 1)) in E3 by (unfold kk; lia).
    rewrite branch_f_direct in E3 by assumption. injection E3 as <-.
    apply (placed_both id h ls hs es (fam u) (fam v)); auto.
    + eapply leading_ext; [|eapply fam_leading; exact Wl]. intros t; symmetry; apply Ql.
    + apply (IH (S h) id ll hl u); auto; [|reflexivity].
      intros t. rewrite (off_ext h _ _ Ql t). eapply fam_off; eauto.
    + apply (IH (S h) id lh hh v); auto; [|reflexivity].
      intros t. rewrite (rest_ext h _ _ Ql t). eapply fam_rest; eauto.
    + intros t. rewrite (Qe t). unfold fam. rewrite zmk_paths. split.
      * intros [(s' & -> & S_)|S_]; [right|left]; eauto.
      * intros [S_|(s & S_ & ->)]; [right|left]; eauto.
Qed.

Lemma build_parsed_as raw : exists d, build branch raw = Some d /\ zwf 0 d /\ parsed_as raw (fam d).
Proof.
  induction raw as [v|i lo (l & El & Wl & Pl) hi (h & Eh & Wh & Ph)].
  - exists (Leaf v). split; [reflexivity|]. split; [exact I|]. constructor. intros t. unfold fam. destruct v; cbn; split.
    + intros [<-|[]]. auto.
    + intros (_ & ->). auto.
    + intros [].
    + intros (X & _). discriminate.
  - destruct (branch_total 0 i l h) as (d & E & W & _); [lia|auto|auto|].
    exists d. split; [cbn [build]; rewrite El, Eh; exact E|]. split; [exact W|].
    econstructor; [exact Pl|exact Ph|]. apply (branch_placed (size l + size h) 0 i l h d); auto; try lia; reflexivity.
Qed.
