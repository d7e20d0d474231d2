(** DebugThm: the Debug texts identify the values. *)
From Coq Require Import List Arith NArith Lia Bool Permutation Sorted.
From Verif Require Import Base DD Spec Zdd2Model ZddModel ParserSpec ParserModel DebugModel.
Import ListNotations.
From Verif Require Import Zdd2Node Zdd2Node2 Zdd2Univ Zdd2Forest Zdd2Forest3 Zdd2Laws Zdd2Thm ParserProofs ParserThm.
Open Scope N_scope.

Definition line_end (s : list N) : Prop := s = [] \/ exists r, s = 10 :: r.

Lemma first_line x y r s : one_line x -> one_line y -> line_end r -> line_end s -> x ++ r = y ++ s -> x = y /\ r = s.
Proof.
  unfold one_line. revert y. induction x as [|a x IH]; intros [|b y] X Y R S E; cbn in E.
  - auto.
  - destruct R as [->|(r' & ->)]; [discriminate|]. injection E as <- _. exfalso. apply Y. left; reflexivity.
  - destruct S as [->|(r' & ->)]; [discriminate|]. injection E as -> _. exfalso. apply X. left; reflexivity.
  - injection E as <- E. destruct (IH y) as (-> & ->); auto; intros C; [apply X|apply Y]; right; exact C.
Qed.
Lemma app_inj_pre (x r s : list N) : x ++ r = x ++ s -> r = s.
Proof. apply app_inv_head. Qed.

(** the common shape of the four printers *)
Section Gen.
  Context {L : Type} (lf : bool -> list N).
  Fixpoint gfmt (show : L -> list N) (n : dd L) (k : nat) : list N :=
    match n with
    | Leaf b => lf b
    | Branch i lo hi => show i ++ [10] ++ bars k ++ gfmt show lo (S k) ++ [10] ++ bars k ++ gfmt show hi (S k)
    end.
  Hypothesis lf_line : forall b, one_line (lf b).
  Hypothesis lf_inj : forall b c, lf b = lf c -> b = c.

  Lemma gfmt_inj (sa sb : L -> list N) :
    forall (a b : dd L) k r s,
    (forall i, In i (labels a) -> one_line (sa i) /\ (forall b, lf b <> sa i)) ->
    (forall i, In i (labels b) -> one_line (sb i) /\ (forall b, lf b <> sb i)) ->
    (forall i j, In i (labels a) -> In j (labels b) -> sa i = sb j -> i = j) ->
    line_end r -> line_end s ->
    gfmt sa a k ++ r = gfmt sb b k ++ s -> a = b /\ r = s /\ forall i, In i (labels a) -> sa i = sb i.
  Proof.
    induction a as [x|i lo IHl hi IHh]; intros [y|j lo' hi'] k r s A B J R S E; cbn [gfmt] in E.
    - apply first_line in E; auto. destruct E as (E & ->). apply lf_inj in E. subst. repeat split. intros i [].
    - exfalso. destruct (B j (or_introl eq_refl)) as (B1 & B2). rewrite <- !app_assoc in E.
      apply first_line in E; auto; [|right; eexists; reflexivity]. destruct E as (E & _). exact (B2 _ E).
    - exfalso. destruct (A i (or_introl eq_refl)) as (A1 & A2). rewrite <- !app_assoc in E.
      apply first_line in E; auto; [|right; eexists; reflexivity]. destruct E as (E & _). exact (A2 _ (eq_sym E)).
    - destruct (A i (or_introl eq_refl)) as (A1 & A2). destruct (B j (or_introl eq_refl)) as (B1 & B2).
      rewrite <- !app_assoc in E. apply first_line in E; auto; [|right; eexists; reflexivity|right; eexists; reflexivity].
      destruct E as (E1 & E). pose proof (J i j (or_introl eq_refl) (or_introl eq_refl) E1) as <-.
      apply app_inj_pre in E. apply app_inj_pre in E.
      apply IHl in E.
      + destruct E as (<- & E & El). apply app_inj_pre in E. apply app_inj_pre in E. apply IHh in E; auto.
        * destruct E as (<- & -> & Eh). repeat split. intros p [<-|P]; auto. apply in_app_iff in P. destruct P; auto.
        * intros p P. apply A. right. apply in_or_app; auto.
        * intros p P. apply B. right. apply in_or_app; auto.
        * intros p q P Q. apply J; right; apply in_or_app; auto.
      + intros p P. apply A. right. apply in_or_app; auto.
      + intros p P. apply B. right. apply in_or_app; auto.
      + intros p q P Q. apply J; right; apply in_or_app; auto.
      + right. eexists. reflexivity.
      + right. eexists. reflexivity.
  Qed.
End Gen.


Lemma decimal_digit n d : In d (decimal n) -> 48 <= d <= 57.
Proof. intros I. destruct (decimal_spec n) as (_ & D & _). exact (D d I). Qed.
Lemma decimal_line n : one_line (decimal n).
Proof. intros C. apply decimal_digit in C. lia. Qed.
Lemma decimal_inj m n : decimal m = decimal n -> m = n.
Proof.
  intros E. destruct (decimal_spec m) as (_ & _ & A). destruct (decimal_spec n) as (_ & _ & B). rewrite E in A. congruence.
Qed.
Lemma one_line_app x y : one_line x -> one_line y -> one_line (x ++ y).
Proof. intros X Y C. apply in_app_iff in C. destruct C; auto. Qed.
Ltac lit := let C := fresh in intros C; cbn in C; repeat (destruct C as [C|C]; [discriminate|]); destruct C.
Lemma show_bool_line b : one_line (show_bool b).
Proof. destruct b; lit. Qed.
Lemma show_bool_inj b c : show_bool b = show_bool c -> b = c.
Proof. destruct b, c; auto; discriminate. Qed.
Lemma snoc_inj (x y : list N) a : x ++ [a] = y ++ [a] -> x = y.
Proof. apply app_inv_tail. Qed.

Definition zshow (i : nat) : list N := decimal (N.of_nat i) ++ [58].
Lemma z_gfmt n : forall k, z_fmt_inner n k = gfmt show_bool zshow n k.
Proof.
  induction n as [b|i lo IHl hi IHh]; intros k; cbn [z_fmt_inner gfmt]; [reflexivity|].
  rewrite IHl, IHh. unfold zshow. rewrite <- !app_assoc. reflexivity.
Qed.
Definition leaf2 (b : bool) : list N := if b then [65; 108; 119; 97; 121; 115] else [78; 101; 118; 101; 114].
Definition prio (i : nat) : list N := [80; 114; 105; 111; 114; 105; 116; 121; 40] ++ decimal (N.of_nat i) ++ [41; 58].
Lemma n_gfmt n : forall k, n_fmt_inner n k = gfmt leaf2 prio n k.
Proof.
  induction n as [b|i lo IHl hi IHh]; intros k; cbn [n_fmt_inner gfmt]; [destruct b; reflexivity|].
  rewrite IHl, IHh. unfold prio. rewrite <- !app_assoc. reflexivity.
Qed.
Definition bleaf (b : bool) : list N := [124; 32] ++ show_bool b.
Lemma b_gfmt {I} (show : I -> list N) n : forall k, b_fmt_inner show n k = gfmt bleaf (fun i => [124; 32] ++ show i ++ [58]) n k.
Proof.
  induction n as [b|i lo IHl hi IHh]; intros k; cbn [b_fmt_inner gfmt]; [reflexivity|].
  rewrite IHl, IHh. rewrite <- !app_assoc. reflexivity.
Qed.
Lemma leaf2_line b : one_line (leaf2 b).
Proof. destruct b; lit. Qed.
Lemma leaf2_inj b c : leaf2 b = leaf2 c -> b = c.
Proof. destruct b, c; auto; discriminate. Qed.
Lemma prio_line i : one_line (prio i).
Proof. apply one_line_app; [lit|]. apply one_line_app; [apply decimal_line|lit]. Qed.
Lemma last_eq (x y : list N) a b : x ++ [a] = y ++ [b] -> x = y /\ a = b.
Proof. apply app_inj_tail. Qed.
Lemma ends_e b : exists x, show_bool b = x ++ [101].
Proof. destruct b; [exists [116; 114; 117]|exists [102; 97; 108; 115]]; reflexivity. Qed.

(** C78.  Equal Debug texts of zdd nodes, of zdd2 nodes: equal nodes. *)
Lemma C78_nodes_pf : forall a b : dd nat,
  (z_debug a = z_debug b -> a = b) /\ (n_debug a = n_debug b -> a = b).
Proof.
  intros a b. split; intros E.
  - unfold z_debug in E. apply app_inj_pre in E. rewrite !z_gfmt in E.
    assert (E' : gfmt show_bool zshow a 1 ++ [] = gfmt show_bool zshow b 1 ++ []) by (rewrite !app_nil_r; exact E).
    assert (Q : forall i, one_line (zshow i) /\ forall c, show_bool c <> zshow i).
    { intros i. split; [apply one_line_app; [apply decimal_line|lit]|]. intros c X. destruct (ends_e c) as (x & Ex).
      rewrite Ex in X. apply last_eq in X. destruct X; discriminate. }
    apply (gfmt_inj show_bool show_bool_line show_bool_inj) in E'; try apply E'; auto; try (left; reflexivity).
    intros i j _ _ X. apply snoc_inj, decimal_inj in X. lia.
  - unfold n_debug in E. apply app_inj_pre in E. rewrite !n_gfmt in E.
    assert (E' : gfmt leaf2 prio a 1 ++ [] = gfmt leaf2 prio b 1 ++ []) by (rewrite !app_nil_r; exact E).
    assert (Q : forall i, one_line (prio i) /\ forall c, leaf2 c <> prio i).
    { intros i. split; [apply prio_line|]. intros c X. destruct c; discriminate. }
    apply (gfmt_inj leaf2 leaf2_line leaf2_inj) in E'; try apply E'; auto; try (left; reflexivity).
    intros i j _ _ X. apply app_inj_pre, app_inv_tail, decimal_inj in X. lia.
Qed.
(** Trees of one universe with equal Debug texts are equal. *)
Lemma C78_zdd_trees_pf : forall (T : Type) (t o : ztree T), zt_univ t = zt_univ o -> zt_debug t = zt_debug o -> t = o.
Proof.
  intros T [r u] [r' u'] U E. cbn in U. subst u'. apply C78_nodes_pf in E. cbn in E. subst. reflexivity.
Qed.
(** bowtie nodes, for one-line item texts that tell items apart (the derived [Debug] of a string escapes newlines). *)
Lemma C78_bowtie_nodes_pf : forall (I : Type) (show : I -> list N),
  (forall i, one_line (show i)) -> (forall i j, show i = show j -> i = j) ->
  forall a b : dd I, b_debug show a = b_debug show b -> a = b.
Proof.
  intros I show Sl Si a b E. unfold b_debug in E. apply app_inj_pre in E. rewrite !b_gfmt in E.
  set (sh := fun i : I => [124; 32] ++ show i ++ [58]) in *.
  assert (E' : gfmt bleaf sh a 1 ++ [] = gfmt bleaf sh b 1 ++ []) by (rewrite !app_nil_r; exact E).
  assert (Q : forall i, one_line (sh i) /\ forall c, bleaf c <> sh i).
  { intros i. split.
    - apply one_line_app; [lit|]. apply one_line_app; [apply Sl|lit].
    - intros c X. unfold bleaf, sh in X. apply app_inj_pre in X. destruct (ends_e c) as (x & Ex).
      rewrite Ex in X. apply last_eq in X. destruct X; discriminate. }
  apply (gfmt_inj bleaf) in E'; try apply E'; auto; try (left; reflexivity).
  - intros c. apply one_line_app; [lit|apply show_bool_line].
  - intros c d X. apply app_inj_pre in X. apply show_bool_inj; exact X.
  - intros i j _ _ X. apply app_inj_pre, snoc_inj in X. auto.
Qed.

(** what [f_debug] prints, in the common shape *)
Definition fshow {T : Type} `{Ord T} (show : T -> list N) (u : universe T) (i : nat) : list N :=
  prio i ++ [32] ++ match get_item u i with Some x => show x | None => [] end.
Lemma f_gfmt {T : Type} `{Ord T} (show : T -> list N) (u : universe T) n : forall k s,
  f_fmt_inner show u n k = Some s -> s = gfmt leaf2 (fshow show u) n k /\ forall i, In i (labels n) -> exists x, get_item u i = Some x.
Proof.
  induction n as [b|i lo IHl hi IHh]; intros k s E; cbn [f_fmt_inner gfmt] in *.
  - split; [destruct b; injection E as <-; reflexivity|intros i []].
  - destruct (get_item u i) as [x|] eqn:G; [|discriminate]. cbn [bind] in E.
    destruct (f_fmt_inner show u lo (S k)) as [l|] eqn:El; [|discriminate]. cbn [bind] in E.
    destruct (f_fmt_inner show u hi (S k)) as [r|] eqn:Er; [|discriminate]. cbn [bind] in E. injection E as <-.
    destruct (IHl _ _ El) as (-> & Kl). destruct (IHh _ _ Er) as (-> & Kh). split.
    + unfold fshow at 3. rewrite G. unfold prio, bars. rewrite <- !app_assoc. reflexivity.
    + intros p [<-|P]; [eauto|]. apply in_app_iff in P. destruct P; auto.
Qed.
Lemma prio_pre i j x y : prio i ++ x = prio j ++ y -> i = j /\ x = y.
Proof.
  unfold prio. intros E. rewrite <- !app_assoc in E. apply app_inj_pre in E.
  assert (X : forall (a b : list N), (forall d, In d a -> 48 <= d <= 57) -> (forall d, In d b -> 48 <= d <= 57) ->
            a ++ [41; 58] ++ x = b ++ [41; 58] ++ y -> a = b /\ x = y).
  { induction a as [|d a IH]; intros [|e b] A B Z; cbn in Z.
    - injection Z as <-. auto.
    - injection Z as <- _. specialize (B 41 (or_introl eq_refl)). lia.
    - injection Z as -> _. specialize (A 41 (or_introl eq_refl)). lia.
    - injection Z as <- Z. destruct (IH b) as (-> & ->); auto; intros f Hf; [apply A|apply B]; right; exact Hf. }
  apply X in E; try (intros d; apply decimal_digit). destruct E as (E & ->). apply decimal_inj in E. split; auto. lia.
Qed.

(** Reachable forests with equal Debug texts are equal, for one-line item texts
    that tell items apart. *)
Lemma C78_forests_pf : forall (T : Type) (O : Ord T) (show : T -> list N),
  (forall x, one_line (show x)) -> (forall x y, show x = show y -> x = y) ->
  forall f g : forest T, Reach f -> Reach g -> f_debug show f = f_debug show g -> f = g.
Proof.
  intros T O show Sl Si f g Rf Rg E.
  destruct (C67_debug_total_pf T O show f Rf) as (s & Ef). rewrite Ef in E. symmetry in E.
  unfold f_debug in Ef, E.
  destruct (f_fmt_inner show (f_univ f) (f_root f) 1) as [sf|] eqn:F; [|discriminate].
  destruct (f_fmt_inner show (f_univ g) (f_root g) 1) as [sg|] eqn:G; [|discriminate].
  cbn [bind] in *. injection Ef as <-. injection E as E.
  destruct (f_gfmt _ _ _ _ _ F) as (-> & Kf). destruct (f_gfmt _ _ _ _ _ G) as (-> & Kg).
  assert (E' : gfmt leaf2 (fshow show (f_univ g)) (f_root g) 1 ++ [] = gfmt leaf2 (fshow show (f_univ f)) (f_root f) 1 ++ [])
    by (rewrite !app_nil_r; exact E).
  assert (Q : forall (u : universe T) i, one_line (fshow show u i) /\ forall c, leaf2 c <> fshow show u i).
  { intros u i. split.
    - apply one_line_app; [apply prio_line|]. apply one_line_app; [lit|]. destruct (get_item u i); [apply Sl|lit].
    - intros c X. destruct c; discriminate. }
  apply (gfmt_inj leaf2 leaf2_line leaf2_inj) in E'; auto; try (left; reflexivity).
  - destruct E' as (R & _ & L). apply Canon_ext; try (apply Reach_Canon; assumption).
    assert (I : forall i, In i (labels (f_root g)) -> get_item (f_univ f) i = get_item (f_univ g) i).
    { intros i Hi. specialize (L i Hi). unfold fshow in L. apply prio_pre in L. destruct L as (_ & L). apply app_inj_pre in L.
      destruct (Kg i Hi) as (x & Ex). rewrite R in Hi. destruct (Kf i Hi) as (y & Ey). rewrite Ex, Ey in *. f_equal. auto. }
    assert (TL : tl_ f = tl_ g); [|intros t; rewrite TL; tauto].
    unfold tl_. rewrite <- R. apply map_ext_in. intros p Hp. unfold get_items. f_equal.
    assert (P : forall i, In i p -> In i (labels (f_root g))) by (intros i Hi; eapply paths_labels; eauto).
    clear Hp. induction p as [|i p IH]; [reflexivity|]. cbn [filter_map].
    rewrite (I i) by (apply P; left; reflexivity). rewrite IH; [reflexivity|]. intros j Hj. apply P. right; exact Hj.
  - intros i j _ _ X. apply prio_pre in X. tauto.
Qed.
Example C78_example : exists f g : forest nat, Reach f /\ Reach g /\ f_many ho_id [[1;2];[2;3]]%nat = Some f /\ f_many ho_id [[1;2];[1;3]]%nat = Some g /\
  f_root f = f_root g /\ f_debug (fun n => decimal (N.of_nat n)) f <> f_debug (fun n => decimal (N.of_nat n)) g /\
  (forall x, one_line (decimal (N.of_nat x))) /\ (forall x y, decimal (N.of_nat x) = decimal (N.of_nat y) -> x = y).
Proof.
  eexists _, _. split; [eapply (R_many ho_id [[1;2];[2;3]]%nat); vm_compute; reflexivity|].
  split; [eapply (R_many ho_id [[1;2];[1;3]]%nat); vm_compute; reflexivity|].
  split; [vm_compute; reflexivity|]. split; [vm_compute; reflexivity|]. split; [reflexivity|]. split; [vm_compute; discriminate|].
  split; [intros x; apply decimal_line|]. intros x y E. apply decimal_inj in E. lia.
Qed.
(** "\n1:\n| false\n| 0:\n| | true\n| | false" *)
Example C78_example_node : z_debug (Branch 1 (Leaf false) (Branch 0 (Leaf true) (Leaf false)))%nat =
  [10; 49; 58; 10; 124; 32; 102; 97; 108; 115; 101; 10; 124; 32; 48; 58; 10; 124; 32; 124; 32; 116; 114; 117; 101; 10; 124; 32; 124; 32; 102; 97; 108; 115; 101].
Proof. vm_compute. reflexivity. Qed.
