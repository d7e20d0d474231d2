(** OutlineThm: what exactly the Debug texts look like (C96). *)
From Coq Require Import Ascii String.
From Coq Require Import List Arith NArith Lia Bool Permutation Sorted.
From Verif Require Import Base DD Spec Zdd2Model ZddModel ParserSpec ParserModel ZddSpec TextSpec DebugModel OutlineSpec.
From Verif Require Import Zdd2Node Zdd2Univ Zdd2Forest Zdd2Forest2 Zdd2Laws Zdd2Thm ZddProofs ParserProofs ParserThm ZddThm TextThm DebugThm.
Import ListNotations.
Open Scope N_scope.

Lemma bars_S d : bars (S d) = [124; 32] ++ bars d.
Proof. reflexivity. Qed.
Lemma line_bars d : forall w l, line_at d w l <-> l = bars d ++ w.
Proof.
  induction d as [|d IH]; intros w l; split.
  - intros X. inversion X; subst. reflexivity.
  - cbn. intros ->. constructor.
  - intros X. inversion X as [|d' w' l' Y]; subst. apply IH in Y. subst l'. rewrite bars_S, <- app_assoc. reflexivity.
  - intros ->. rewrite bars_S, <- app_assoc. change [124; 32] with (str "| "). constructor. apply IH. reflexivity.
Qed.
Lemma written_cons l ls : written (l :: ls) = 10 :: l ++ written ls.
Proof. reflexivity. Qed.
Lemma written_app a b : written (a ++ b) = written a ++ written b.
Proof. unfold written. rewrite map_app, concat_app. reflexivity. Qed.

(** the common printer writes an outline *)
Section Gen.
  Context {L : Type} (leaf : bool -> list N) (name : L -> list N -> Prop) (show : L -> list N).
  Lemma gfmt_outline (n : dd L) : (forall i, In i (labels n) -> name i (show i)) -> forall d,
    exists ls, outline leaf name d n ls /\ 10 :: bars d ++ gfmt leaf show n (S d) = written ls.
  Proof.
    induction n as [b|i lo IHl hi IHh]; intros A d.
    - exists [bars d ++ leaf b]. split; [constructor; apply line_bars; reflexivity|].
      rewrite written_cons. cbn [gfmt]. rewrite app_nil_r. reflexivity.
    - destruct (IHl ltac:(intros j J; apply A; right; apply in_or_app; auto) (S d)) as (ll & Ll & El).
      destruct (IHh ltac:(intros j J; apply A; right; apply in_or_app; auto) (S d)) as (lh & Lh & Eh).
      exists ((bars d ++ show i) :: ll ++ lh). split.
      + apply (ol_branch _ _ d i lo hi (show i)); auto; [apply A; left; reflexivity|apply line_bars; reflexivity].
      + rewrite written_cons, written_app, <- El, <- Eh. cbn [gfmt]. rewrite <- !app_assoc. cbn [app]. rewrite <- ?app_assoc. reflexivity.
  Qed.
  Hypothesis name_det : forall i v w, name i v -> name i w -> v = w.
  Lemma outline_det : forall d n ls, outline leaf name d n ls -> forall ls', outline leaf name d n ls' -> ls = ls'.
  Proof.
    induction 1 as [d b l La|d i lo hi w l ll lh Nw La _ IHl _ IHh]; intros ls' X; inversion X; subst.
    - apply line_bars in La. match goal with H : line_at _ _ _ |- _ => apply line_bars in H; subst end. reflexivity.
    - match goal with H : name i ?v |- _ => match v with w => fail 1 | _ => assert (v = w) by (eapply name_det; eassumption); subst v end end.
      apply line_bars in La. match goal with H : line_at _ _ _ |- _ => apply line_bars in H; subst end.
      f_equal. f_equal; [apply IHl|apply IHh]; assumption.
  Qed.
End Gen.

Lemma numbered_is i w : numbered i w <-> w = zshow i.
Proof.
  split; [intros (ds & P & ->); rewrite (plain_decimal _ _ P); reflexivity|intros ->; exists (decimal (N.of_nat i)); split; [apply decimal_plain|reflexivity]].
Qed.
Lemma prioritized_is i w : prioritized i w <-> w = prio i.
Proof.
  split; [intros (ds & P & ->); rewrite (plain_decimal _ _ P); reflexivity|intros ->; exists (decimal (N.of_nat i)); split; [apply decimal_plain|reflexivity]].
Qed.
Lemma true_false_is b : true_false b = show_bool b.
Proof. destruct b; reflexivity. Qed.
Lemma always_never_is b : always_never b = leaf2 b.
Proof. destruct b; reflexivity. Qed.
Lemma gfmt_ext {L} lf lf' (sh sh' : L -> list N) : (forall b, lf b = lf' b) -> forall n, (forall i, In i (labels n) -> sh i = sh' i) ->
  forall k, gfmt lf sh n k = gfmt lf' sh' n k.
Proof.
  intros E. induction n as [b|i lo IHl hi IHh]; intros F k; cbn [gfmt]; [apply E|].
  rewrite (F i) by (left; reflexivity).
  rewrite IHl by (intros j J; apply F; right; apply in_or_app; auto). rewrite IHh by (intros j J; apply F; right; apply in_or_app; auto).
  reflexivity.
Qed.
Lemma gfmt_bar {L} (lf : bool -> list N) (sh : L -> list N) n : forall k,
  gfmt (fun b => [124; 32] ++ lf b) (fun i => [124; 32] ++ sh i) n k = [124; 32] ++ gfmt lf sh n (S k).
Proof.
  induction n as [b|i lo IHl hi IHh]; intros k; cbn [gfmt]; [reflexivity|]. rewrite IHl, IHh.
  assert (X : forall r, bars k ++ [124; 32] ++ r = bars (S k) ++ r).
  { intros r. rewrite bars_S, <- app_assoc. clear. unfold bars. induction k as [|k IH]; [reflexivity|]. cbn [repeat concat].
    rewrite <- !app_assoc. rewrite IH. reflexivity. }
  rewrite <- !app_assoc. rewrite !X. reflexivity.
Qed.

(** C96.  The Debug text of a diagram is its outline, one node a line: zdd and zdd2 nodes with
    their labels, ... *)
Lemma C96_nodes_pf : forall (n : dd nat) (s : list N),
  (s = z_debug n <-> exists ls, outline true_false numbered 0 n ls /\ s = written ls) /\
  (s = n_debug n <-> exists ls, outline always_never prioritized 0 n ls /\ s = written ls).
Proof.
  intros n s. split.
  - destruct (gfmt_outline true_false numbered zshow n ltac:(intros i _; apply numbered_is; reflexivity) 0) as (ls & Ol & E).
    assert (Z : z_debug n = written ls).
    { rewrite <- E. unfold z_debug. rewrite z_gfmt. cbn [app bars repeat concat]. f_equal. apply gfmt_ext; auto. intros b; symmetry; apply true_false_is. }
    split; [intros ->; eauto|]. intros (ls' & O' & ->). rewrite Z.
    rewrite (outline_det true_false numbered ltac:(intros i v w A B; apply numbered_is in A, B; congruence) _ _ _ Ol _ O'). reflexivity.
  - destruct (gfmt_outline always_never prioritized prio n ltac:(intros i _; apply prioritized_is; reflexivity) 0) as (ls & Ol & E).
    assert (Z : n_debug n = written ls).
    { rewrite <- E. unfold n_debug. rewrite n_gfmt. cbn [app bars repeat concat]. f_equal. apply gfmt_ext; auto. intros b; symmetry; apply always_never_is. }
    split; [intros ->; eauto|]. intros (ls' & O' & ->). rewrite Z.
    rewrite (outline_det always_never prioritized ltac:(intros i v w A B; apply prioritized_is in A, B; congruence) _ _ _ Ol _ O'). reflexivity.
Qed.
(** ... bowtie nodes with the texts of their items, every line one level deeper, ... *)
Lemma C96_bowtie_nodes_pf : forall (I : Type) (show : I -> list N) (n : dd I) (s : list N),
  s = b_debug show n <-> exists ls, outline true_false (itemized show) 1 n ls /\ s = written ls.
Proof.
  intros I show n s.
  destruct (gfmt_outline true_false (itemized show) (fun i => show i ++ [58]) n ltac:(intros i _; reflexivity) 1) as (ls & Ol & E).
  assert (Z : b_debug show n = written ls).
  { rewrite <- E. unfold b_debug. rewrite b_gfmt. change (10 :: bars 1 ++ gfmt true_false (fun i => show i ++ [58]) n 2) with ([10] ++ [124; 32] ++ gfmt true_false (fun i => show i ++ [58]) n 2). f_equal.
    rewrite <- (gfmt_bar true_false (fun i => show i ++ [58]) n 1). apply gfmt_ext; auto. intros b. unfold bleaf. rewrite true_false_is. reflexivity. }
  split; [intros ->; eauto|]. intros (ls' & O' & ->). rewrite Z.
  rewrite (outline_det true_false (itemized show) ltac:(unfold itemized; intros i v w A B; congruence) _ _ _ Ol _ O'). reflexivity.
Qed.
(** ... zdd trees: the paths of the diagram drawn are the combinations, through the listed items, ... *)
Lemma C96_zdd_trees_pf : forall (T : Type) (O : Ord T) (ok : list T -> Prop) (items : list T) (t : ztree T) cs,
  ZReach ok (zu_from items) t -> z_combinations t = Some cs ->
  exists d ls, outline true_false numbered 0 d ls /\ zt_debug t = written ls /\
    forall s, In s cs <-> exists p, In p (paths d) /\ named_by items p s.
Proof.
  intros T O ok items t cs R Hc. destruct (proj1 (proj1 (C96_nodes_pf (zt_root t) _)) eq_refl) as (ls & Ol & E).
  exists (zt_root t), ls. split; [exact Ol|]. split; [exact E|].
  destruct (zreach_inv _ _ _ R) as (U & _).
  destruct (ZddThm.C36_combinations_exact_pf T O t) as (cs' & E' & _ & _ & X). rewrite U in X. rewrite Hc in E'. injection E' as <-. exact X.
Qed.
(** ... and zdd2 forests: every line names the item next to its rank, and the paths of the diagram
    drawn, read through the ranking, are the trees. *)
Lemma C96_forests_pf : forall (T : Type) (O : Ord T) (show : T -> list N) (f : forest T) ts,
  Reach f -> f_trees f = Some ts ->
  exists d ranks entries ls, f_debug show f = Some (written ls) /\ outline always_never (ranked show ranks) 0 d ls /\
    ordered d /\ zero_suppressed d /\
    (ssorted (map fst entries) /\ forall x k, In (x, k) entries <-> (0 < k)%nat /\ k = count ts x) /\ ranking entries ranks /\
    forall t, In t ts <-> ssorted t /\ exists p, In p (paths d) /\ reads ranks p t.
Proof.
  intros T O show f ts R Ht. destruct (forest_data f ts R Ht) as (A & (B1 & B2 & B3 & B4 & B5) & Gi).
  exists (f_root f), (ordered_occ (u_occ (f_univ f))), (u_occ (f_univ f)).
  destruct (C67_debug_total_pf T O show f R) as (s & Es). unfold f_debug in *.
  destruct (f_fmt_inner show (f_univ f) (f_root f) 1) as [v|] eqn:F; [|discriminate]. cbn [bind] in *.
  destruct (f_gfmt _ _ _ _ _ F) as (-> & K).
  destruct (gfmt_outline always_never (ranked show (ordered_occ (u_occ (f_univ f)))) (fshow show (f_univ f)) (f_root f)) with (d := 0%nat) as (ls & Ol & E).
  { intros i Hi. destruct (K i Hi) as (x & Gx). destruct (proj1 (Gi i x) Gx) as (k & Nk).
    exists (decimal (N.of_nat i)), x, k. split; [apply decimal_plain|]. split; [exact Nk|].
    unfold fshow, prio. rewrite Gx. rewrite <- !app_assoc. reflexivity. }
  exists ls. split.
  - rewrite <- E. cbn [app bars repeat concat]. do 2 f_equal. apply gfmt_ext; auto. intros b; symmetry; apply always_never_is.
  - repeat (split; [assumption|]). exact B5.
Qed.
(** so a forest's text says which trees it holds and nothing else, however it was made *)
Lemma C96_same_text_pf : forall (T : Type) (O : Ord T) (show : T -> list N),
  (forall x, one_line (show x)) -> (forall x y, show x = show y -> x = y) ->
  forall (f g : forest T) tf tg, Reach f -> Reach g -> f_trees f = Some tf -> f_trees g = Some tg ->
  (f_debug show f = f_debug show g <-> forall s, has_set tf s <-> has_set tg s).
Proof.
  intros T O show Sl Si f g tf tg Rf Rg Tf Tg. rewrite <- (C06_equality_extensional_pf T O f g tf tg Rf Rg Tf Tg). split.
  - intros E. apply (C78_forests_pf T O show Sl Si f g Rf Rg) in E. subst g. apply (proj2 (f_eqb_spec f f)). reflexivity.
  - intros E. apply (proj1 (f_eqb_spec f g)) in E. subst g. reflexivity.
Qed.

Example C96_example : exists f, f_many ho_id [[1;2];[2;3]]%nat = Some f /\ Reach f /\ f_trees f = Some [[1;2];[2;3]]%nat /\
  f_debug (fun n => decimal (N.of_nat n)) f = Some (written (map str
    ["Priority(0): 2"; "| Never"; "| Priority(1): 1"; "| | Priority(2): 3"; "| | | Never"; "| | | Always"; "| | Always"]))%string.
Proof.
  eexists. split; [vm_compute; reflexivity|]. split; [eapply (R_many ho_id [[1;2];[2;3]]%nat); vm_compute; reflexivity|].
  split; vm_compute; reflexivity.
Qed.
Example C96_zdd_example : let t := z_hyper_tree (zu_from [7; 8; 9]%nat) [[7]; [8; 9]]%nat in
  ZReach (fun _ => True) (zu_from [7; 8; 9]%nat) t /\ z_combinations t = Some [[7]; [8; 9]]%nat /\
  zt_debug t = written (map str ["0:"; "| 1:"; "| | false"; "| | 2:"; "| | | false"; "| | | true"; "| true"])%string.
Proof. split; [constructor; intros ? ?; exact I|]. split; vm_compute; reflexivity. Qed.
Example C96_bowtie_example : b_debug (fun n => decimal (N.of_nat n)) (Branch 4 (Leaf true) (Branch 12 (Leaf false) (Leaf true)))%nat =
  written (map str ["| 4:"; "| | true"; "| | 12:"; "| | | false"; "| | | true"])%string.
Proof. vm_compute. reflexivity. Qed.
