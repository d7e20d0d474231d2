(** ZddExact: exactly which combinations the zdd product and intersection return. *)
From Coq Require Import List Arith Lia Bool Permutation Sorted.
From Verif Require Import Base DD Spec Zdd2Model Zdd2Node Zdd2Forest MatrixModel MatrixProofs ZddModel ZddSpec ZddProofs.
Import ListNotations.

Notation br n := (branches lt (paths n)).
Notation prd n1 n2 := (paired lt (paths n1) (paths n2)).
Notation tkn n1 n2 := (taken lt (paths n1) (paths n2)).
Notation lvs n1 n2 := (leaves_at lt (paths n1) (paths n2)).

(** ** when a family branches along a path *)
Lemma br_self n x i : In x (paths n) -> In i x -> br n x i.
Proof. intros X I. exists x. split; [exact X|]. split; [tauto|exact I]. Qed.
Lemma br_ext n x x' i : (forall z, z < i -> (In z x <-> In z x')) -> br n x i -> br n x' i.
Proof. intros E (g & G & A & I). exists g. split; [exact G|]. split; [|exact I]. intros z L. rewrite (A z L). auto. Qed.
Lemma br_label n x i : br n x i -> In i (labels n).
Proof. intros (g & G & _ & I). eapply paths_labels; eauto. Qed.
Lemma br_leaf b x i : ~ br (Leaf b) x i.
Proof. intros B. apply br_label in B. exact B. Qed.
Lemma path_above n x i z : (forall j, In j (labels n) -> i < j) -> In x (paths n) -> In z x -> i < z.
Proof. intros L X Z. apply L. eapply paths_labels; eauto. Qed.

Section AtBranch.
  Variables (i : nat) (lo hi : znode).
  Hypothesis O : ordered (Branch i lo hi).
  Hypothesis Z : zero_suppressed (Branch i lo hi).
  Let n := Branch i lo hi.

  Lemma at_lo : forall j, In j (labels lo) -> i < j.
  Proof. intros j J. apply (proj1 O); auto. Qed.
  Lemma at_hi : forall j, In j (labels hi) -> i < j.
  Proof. intros j J. apply (proj1 O); auto. Qed.
  Lemma not_lo x : In x (paths lo) -> ~ In i x.
  Proof. intros X I. pose proof (path_above lo x i i at_lo X I). lia. Qed.
  Lemma not_hi x : In x (paths hi) -> ~ In i x.
  Proof. intros X I. pose proof (path_above hi x i i at_hi X I). lia. Qed.

  Lemma br_ge x j : br n x j -> i <= j.
  Proof.
    intros B. apply br_label in B. destruct B as [<-|B]; [lia|]. apply in_app_iff in B.
    pose proof (proj1 O j B). lia.
  Qed.
  Lemma path_ge x z : In x (paths n) -> In z x -> i <= z.
  Proof. intros X I. apply (br_ge x). apply br_self; auto. Qed.
  Lemma br_top x : In x (paths n) -> br n x i.
  Proof.
    intros X. destruct (zs_path hi) as (g & G); [apply Z|apply Z|].
    exists (i :: g). split; [apply paths_branch; eauto|]. split; [|left; reflexivity].
    intros z L. split; intros I.
    - destruct I as [I|I]; [lia|]. pose proof (path_above hi g i z at_hi G I). lia.
    - pose proof (path_ge x z X I). lia.
  Qed.
  Lemma br_lo x j : i < j -> In x (paths lo) -> (br n x j <-> br lo x j).
  Proof.
    intros L X. split; intros (g & G & A & I).
    - apply paths_branch in G. destruct G as [(g' & -> & G)|G].
      + exfalso. apply (not_lo x X). apply (A i L). left; reflexivity.
      + exists g. auto.
    - exists g. split; [apply paths_branch; auto|auto].
  Qed.
  Lemma br_hi x j : i < j -> In x (paths hi) -> (br n (i :: x) j <-> br hi x j).
  Proof.
    intros L X. split; intros (g & G & A & I).
    - apply paths_branch in G. destruct G as [(g' & -> & G)|G].
      + exists g'. split; [exact G|]. split; [|destruct I; [lia|assumption]].
        intros z Lz. specialize (A z Lz). simpl in A. destruct (Nat.eq_dec i z) as [<-|N]; [|intuition].
        split; intros Q; exfalso; [apply (not_hi g' G Q)|apply (not_hi x X Q)].
      + exfalso. apply (not_lo g G). apply (A i L). left; reflexivity.
    - exists (i :: g). split; [apply paths_branch; eauto|]. split; [|right; exact I].
      intros z Lz. simpl. rewrite (A z Lz). tauto.
  Qed.
End AtBranch.

(** below a label the other side does not know *)
Lemma br_cons n i x j : (forall q, In q (labels n) -> i < q) -> In x (paths n) -> i < j -> br n x j -> br n x j.
Proof. auto. Qed.

(** two paths of one diagram that agree wherever it branches along both are equal *)
Lemma paired_same n x y : In x (paths n) -> In y (paths n) -> forall k,
  (forall i, i < k -> prd n n x y i) -> forall i, i < k -> (In i x <-> In i y).
Proof.
  intros X Y k P. induction i as [i IH] using lt_wf_ind. intros L.
  assert (E : forall z, z < i -> (In z x <-> In z y)) by (intros z Lz; apply IH; lia).
  split; intros I.
  - apply (P i L); [apply br_self; auto| |exact I]. apply (br_ext n x); [exact E|]. apply br_self; auto.
  - apply (P i L); [|apply br_self; auto|exact I]. apply (br_ext n y); [intros z Lz; symmetry; auto|]. apply br_self; auto.
Qed.
Lemma paired_sym a b (x y : list nat) i : paired lt a b x y i -> paired lt b a y x i.
Proof. unfold paired. intros P A B. symmetry. auto. Qed.
Lemma taken_sym a b (x y : list nat) i : taken lt a b x y i -> taken lt b a y x i.
Proof. unfold taken. tauto. Qed.

(** ** product *)
Lemma zproduct_exact n1 n2 : ordered n1 -> ordered n2 -> zero_suppressed n1 -> zero_suppressed n2 ->
  forall s, ssorted s ->
   (In s (paths (zproduct n1 n2)) <-> exists x y, In x (paths n1) /\ In y (paths n2) /\ is_union s x y /\
      forall i, prd n1 n2 x y i).
Proof.
  revert n1 n2. apply (pair_ind (fun n1 n2 => ordered n1 -> ordered n2 -> zero_suppressed n1 -> zero_suppressed n2 ->
    forall s, ssorted s -> (In s (paths (zproduct n1 n2)) <-> exists x y, In x (paths n1) /\ In y (paths n2) /\ is_union s x y /\
      forall i, prd n1 n2 x y i))).
  intros n1 n2 IH O1 O2 Z1 Z2 s Ss. rewrite zproduct_eq. destruct (dd_eqb_spec n1 n2) as [<-|N].
  { split.
    - intros I. exists s, s. split; [exact I|]. split; [exact I|]. split; [intros z; tauto|]. intros i _ _. tauto.
    - intros (x & y & X & Y & U & P). assert (s = x) as ->; [|exact X].
      apply ssorted_ext; [exact Ss|eapply ordered_path; [exact O1|exact X]|].
      assert (E : forall i, In i x <-> In i y).
      { intros i. apply (paired_same n1 x y X Y (S i)); [intros; apply P|lia]. }
      intros z. rewrite (U z). rewrite (E z). tauto. }
  assert (Le : forall n, ordered n -> (In s (paths n) <-> exists x, In x (paths n) /\ forall z, In z s <-> In z x)).
  { intros n On. split; [intros I; exists s; split; [exact I|tauto]|]. intros (x & X & E).
    assert (s = x) as ->; [|exact X]. apply ssorted_ext; auto. eapply ordered_path; eauto. }
  assert (T1 : forall n, ordered n -> (In s (paths n) <-> exists x y, In x (paths n) /\ In y [@nil nat] /\ is_union s x y /\ forall i, paired lt (paths n) [@nil nat] x y i)).
  { intros n On. rewrite (Le n On). split.
    - intros (x & X & E). exists x, []. split; [exact X|]. split; [left; reflexivity|]. split; [intros z; simpl; rewrite (E z); tauto|].
      intros i _ B. exfalso. exact (br_leaf true [] i B).
    - intros (x & y & X & [<-|[]] & U & _). exists x. split; [exact X|]. intros z. rewrite (U z). simpl. tauto. }
  assert (T2 : forall n, ordered n -> (In s (paths n) <-> exists x y, In x [@nil nat] /\ In y (paths n) /\ is_union s x y /\ forall i, paired lt [@nil nat] (paths n) x y i)).
  { intros n On. rewrite (Le n On). split.
    - intros (x & X & E). exists [], x. split; [left; reflexivity|]. split; [exact X|]. split; [intros z; simpl; rewrite (E z); tauto|].
      intros i B _. exfalso. exact (br_leaf true [] i B).
    - intros (x & y & [<-|[]] & Y & U & _). exists y. split; [exact Y|]. intros z. rewrite (U z). simpl. tauto. }
  assert (F1 : forall m : znode, In s [] <-> exists x y : list nat, In x (paths m) /\ In y [] /\ is_union s x y /\ forall i, paired lt (paths m) [] x y i).
  { intros m. split; [intros []|]. intros (x & y & _ & [] & _). }
  assert (F2 : forall m : znode, In s [] <-> exists x y : list nat, In x [] /\ In y (paths m) /\ is_union s x y /\ forall i, paired lt [] (paths m) x y i).
  { intros m. split; [intros []|]. intros (x & y & [] & _). }
  destruct n1 as [[]|i1 l1 h1]; destruct n2 as [[]|i2 l2 h2]; try congruence.
  1: apply (F1 (Leaf true)). 1: apply (T2 _ O2). 1: apply (F2 (Leaf true)). 1: apply (F2 (Branch i2 l2 h2)).
  1: apply (T1 _ O1). 1: apply (F1 (Branch i1 l1 h1)).
  pose proof (size_pos h1). pose proof (size_pos l1). pose proof (size_pos h2). pose proof (size_pos l2).
  pose proof O1 as (D1 & Ol1 & Oh1). pose proof O2 as (D2 & Ol2 & Oh2).
  pose proof Z1 as (N1 & Zl1 & Zh1). pose proof Z2 as (N2 & Zl2 & Zh2).
  assert (One : forall i1 l1 h1 n2 (q : nat), ordered (Branch i1 l1 h1) -> zero_suppressed (Branch i1 l1 h1) ->
     (forall j, In j (labels n2) -> i1 < j) ->
     (forall s, ssorted s -> (In s (paths (zproduct l1 n2)) <-> exists x y, In x (paths l1) /\ In y (paths n2) /\ is_union s x y /\ forall i, prd l1 n2 x y i)) ->
     (forall s, ssorted s -> (In s (paths (zproduct h1 n2)) <-> exists x y, In x (paths h1) /\ In y (paths n2) /\ is_union s x y /\ forall i, prd h1 n2 x y i)) ->
     forall s, ssorted s ->
     (In s (paths (zfinish i1 (zproduct l1 n2) (zproduct h1 n2))) <->
      exists x y, In x (paths (Branch i1 l1 h1)) /\ In y (paths n2) /\ is_union s x y /\ forall i, prd (Branch i1 l1 h1) n2 x y i)).
  { clear. intros i1 l1 h1 n2 _ O1 Z1 L2 IHl IHh s Ss. rewrite paths_zfinish. split.
    - intros [(s' & -> & I)|I].
      + apply ssorted_inv in Ss. destruct Ss as (Ss & F). apply (IHh s' Ss) in I. destruct I as (x & y & X & Y & U & P).
        exists (i1 :: x), y. split; [apply paths_branch; eauto|]. split; [exact Y|]. split.
        * intros z. simpl. rewrite (U z). tauto.
        * intros j B1 B2. pose proof (L2 j (br_label _ _ _ B2)) as L.
          apply (br_hi i1 l1 h1 O1 x j L X) in B1. simpl. rewrite (P j B1 B2). intuition lia.
      + apply (IHl s Ss) in I. destruct I as (x & y & X & Y & U & P).
        exists x, y. split; [apply paths_branch; auto|]. split; [exact Y|]. split; [exact U|].
        intros j B1 B2. pose proof (L2 j (br_label _ _ _ B2)) as L. apply (br_lo i1 l1 h1 O1 x j L X) in B1. exact (P j B1 B2).
    - intros (x & y & X & Y & U & P). apply paths_branch in X. destruct X as [(x' & -> & X)|X].
      + left.
        assert (NY : ~ In i1 y) by (intros I; pose proof (path_above n2 y i1 i1 L2 Y I); lia).
        assert (Hs : exists s', s = i1 :: s').
        { destruct s as [|a s']; [exfalso; apply (U i1); left; left; reflexivity|]. exists s'. f_equal.
          apply ssorted_inv in Ss. destruct Ss as (Ss & F). rewrite Forall_forall in F.
          assert (A : In i1 (a :: s')) by (apply U; left; left; reflexivity).
          destruct A as [A|A]; [exact A|]. exfalso. apply F in A. apply lt_nat in A.
          assert (B : In a (i1 :: x') \/ In a y) by (apply U; left; reflexivity).
          destruct B as [[B|B]|B]; [lia| |]; [pose proof (path_above h1 x' i1 a (at_hi _ _ _ O1) X B)|pose proof (path_above n2 y i1 a L2 Y B)]; lia. }
        destruct Hs as (s' & ->). exists s'. split; [reflexivity|]. apply ssorted_inv in Ss. destruct Ss as (Ss & F).
        apply (IHh s' Ss). exists x', y. split; [exact X|]. split; [exact Y|]. split.
        * rewrite Forall_forall in F. intros z. specialize (U z). simpl in U. destruct (Nat.eq_dec i1 z) as [<-|Nz].
          -- split; intros Q; exfalso; [apply F, lt_nat in Q; lia|]. destruct Q as [Q|Q]; [apply (not_hi _ _ _ O1 x' X Q)|auto].
          -- intuition.
        * intros j B1 B2. pose proof (L2 j (br_label _ _ _ B2)) as L.
          assert (B : br (Branch i1 l1 h1) (i1 :: x') j) by (apply (br_hi i1 l1 h1 O1 x' j L X); exact B1).
          specialize (P j B B2). simpl in P. intuition lia.
      + right. apply (IHl s Ss). exists x, y. split; [exact X|]. split; [exact Y|]. split; [exact U|].
        intros j B1 B2. pose proof (L2 j (br_label _ _ _ B2)) as L. apply P; [|exact B2].
        apply (br_lo i1 l1 h1 O1 x j L X); exact B1. }
  assert (Ab : forall i i' l h, i < i' -> ordered (Branch i' l h) -> forall j, In j (labels (Branch i' l h)) -> i < j).
  { clear. intros i i' l h L (D & _) j [<-|J]; [lia|]. apply in_app_iff in J. specialize (D j J). lia. }
  destruct (Nat.ltb_spec i1 i2); [|destruct (Nat.ltb_spec i2 i1)].
  - apply (One i1 l1 h1 (Branch i2 l2 h2) 0); auto.
    + apply Ab; auto.
    + intros s' S'. apply IH; auto. simpl in *; lia.
    + intros s' S'. apply IH; auto. simpl in *; lia.
  - pose proof (zops_comm (Branch i1 l1 h1) l2) as (_ & _ & E1). pose proof (zops_comm (Branch i1 l1 h1) h2) as (_ & _ & E2).
    rewrite E1, E2.
    rewrite (One i2 l2 h2 (Branch i1 l1 h1) 0 O2 Z2 (Ab i2 i1 l1 h1 ltac:(lia) O1)); auto.
    + split; intros (x & y & X & Y & U & P); exists y, x; (split; [exact Y|]); (split; [exact X|]);
        (split; [intros z; rewrite (U z); tauto|]); intros j; apply paired_sym; auto.
    + intros s' S'. rewrite <- E1. rewrite (IH (Branch i1 l1 h1) l2); auto; [|simpl in *; lia].
      split; intros (x & y & X & Y & U & P); exists y, x; (split; [exact Y|]); (split; [exact X|]);
        (split; [intros z; rewrite (U z); tauto|]); intros j; apply paired_sym; auto.
    + intros s' S'. rewrite <- E2. rewrite (IH (Branch i1 l1 h1) h2); auto; [|simpl in *; lia].
      split; intros (x & y & X & Y & U & P); exists y, x; (split; [exact Y|]); (split; [exact X|]);
        (split; [intros z; rewrite (U z); tauto|]); intros j; apply paired_sym; auto.
  - assert (i1 = i2) by lia. subst i2. clear One Ab T1 T2 F1 F2 Le. rename i1 into i.
    pose proof (IH l1 l2 ltac:(simpl in *; lia) Ol1 Ol2 Zl1 Zl2) as IHl.
    pose proof (IH h1 h2 ltac:(simpl in *; lia) Oh1 Oh2 Zh1 Zh2) as IHh. clear IH.
    rewrite paths_zfinish. split.
    + intros [(s' & -> & I)|I].
      * apply ssorted_inv in Ss. destruct Ss as (Ss & F). apply (IHh s' Ss) in I. destruct I as (x & y & X & Y & U & P).
        exists (i :: x), (i :: y). split; [apply paths_branch; eauto|]. split; [apply paths_branch; eauto|]. split.
        -- intros z. simpl. rewrite (U z). tauto.
        -- intros j B1 B2. pose proof (br_ge _ _ _ O1 _ _ B1) as L. destruct (Nat.eq_dec i j) as [<-|Nj]; [simpl; tauto|].
           assert (L' : i < j) by lia.
           apply (br_hi i l1 h1 O1 x j L' X) in B1. apply (br_hi i l2 h2 O2 y j L' Y) in B2. simpl. rewrite (P j B1 B2). tauto.
      * apply (IHl s Ss) in I. destruct I as (x & y & X & Y & U & P).
        exists x, y. split; [apply paths_branch; auto|]. split; [apply paths_branch; auto|]. split; [exact U|].
        intros j B1 B2. pose proof (br_ge _ _ _ O1 _ _ B1) as L. destruct (Nat.eq_dec i j) as [<-|Nj].
        -- split; intros Q; exfalso; [apply (not_lo _ _ _ O1 x X Q)|apply (not_lo _ _ _ O2 y Y Q)].
        -- assert (L' : i < j) by lia. apply (br_lo i l1 h1 O1 x j L' X) in B1. apply (br_lo i l2 h2 O2 y j L' Y) in B2. exact (P j B1 B2).
    + intros (x & y & X & Y & U & P).
      pose proof (P i (br_top _ _ _ O1 Z1 x X) (br_top _ _ _ O2 Z2 y Y)) as Pi.
      pose proof X as X0. pose proof Y as Y0.
      apply paths_branch in X. apply paths_branch in Y.
      destruct X as [(x' & -> & X)|X]; destruct Y as [(y' & -> & Y)|Y].
      * left.
        assert (Hs : exists s', s = i :: s').
        { destruct s as [|a s']; [exfalso; apply (U i); left; left; reflexivity|]. exists s'. f_equal.
          apply ssorted_inv in Ss. destruct Ss as (Ss & F). rewrite Forall_forall in F.
          assert (A : In i (a :: s')) by (apply U; left; left; reflexivity).
          destruct A as [A|A]; [exact A|]. exfalso. apply F in A. apply lt_nat in A.
          assert (B : In a (i :: x') \/ In a (i :: y')) by (apply U; left; reflexivity).
          destruct B as [B|B]; [pose proof (path_ge _ _ _ O1 _ _ X0 B)|pose proof (path_ge _ _ _ O2 _ _ Y0 B)]; lia. }
        destruct Hs as (s' & ->). exists s'. split; [reflexivity|]. apply ssorted_inv in Ss. destruct Ss as (Ss & F).
        apply (IHh s' Ss). exists x', y'. split; [exact X|]. split; [exact Y|]. split.
        -- rewrite Forall_forall in F. intros z. specialize (U z). simpl in U. destruct (Nat.eq_dec i z) as [<-|Nz].
           ++ split; intros Q; exfalso; [apply F, lt_nat in Q; lia|].
              destruct Q as [Q|Q]; [apply (not_hi _ _ _ O1 x' X Q)|apply (not_hi _ _ _ O2 y' Y Q)].
           ++ intuition.
        -- intros j B1 B2.
           assert (L : i < j) by (apply (at_hi _ _ _ O1), (br_label _ _ _ B1)).
           pose proof (P j (proj2 (br_hi i l1 h1 O1 x' j L X) B1) (proj2 (br_hi i l2 h2 O2 y' j L Y) B2)) as Q.
           simpl in Q. intuition lia.
      * exfalso. apply (not_lo _ _ _ O2 y Y). apply Pi. left; reflexivity.
      * exfalso. apply (not_lo _ _ _ O1 x X). apply Pi. left; reflexivity.
      * right. apply (IHl s Ss). exists x, y. split; [exact X|]. split; [exact Y|]. split; [exact U|].
        intros j B1 B2.
        assert (L : i < j) by (apply (at_lo _ _ _ O1), (br_label _ _ _ B1)).
        apply P; [apply (br_lo i l1 h1 O1 x j L X)|apply (br_lo i l2 h2 O2 y j L Y)]; assumption.
Qed.

(** ** intersection *)
Notation PT n1 n2 x y j := (paired lt (paths n1) (paths n2) x y j /\ taken lt (paths n1) (paths n2) x y j).
Lemma PT_iff a b c d (x y x' y' : list nat) j :
  (branches lt a x j <-> branches lt c x' j) -> (branches lt b y j <-> branches lt d y' j) ->
  (In j x <-> In j x') -> (In j y <-> In j y') ->
  paired lt a b x y j /\ taken lt a b x y j -> paired lt c d x' y' j /\ taken lt c d x' y' j.
Proof. unfold paired, taken. tauto. Qed.
Lemma PT_none a b (x y : list nat) j : ~ branches lt a x j -> ~ branches lt b y j -> paired lt a b x y j /\ taken lt a b x y j.
Proof. unfold paired, taken. tauto. Qed.
Lemma PT_sym a b (x y : list nat) j : paired lt a b x y j /\ taken lt a b x y j -> paired lt b a y x j /\ taken lt b a y x j.
Proof. unfold paired, taken. tauto. Qed.
Lemma joined_sym a b (s : list nat) : joined lt a b s -> joined lt b a s.
Proof.
  intros (x & y & X & Y & C). exists y, x. split; [exact Y|]. split; [exact X|].
  destruct C as [(P & U)|[L|L]]; [left|right; right; exact L|right; left; exact L].
  split; [intros i; apply PT_sym; auto|]. intros z. rewrite (U z). tauto.
Qed.

Lemma head_is (s : list nat) i : ssorted s -> In i s -> (forall z, In z s -> i <= z) ->
  exists s', s = i :: s' /\ ssorted s' /\ forall z, In z s' -> i < z.
Proof.
  intros Ss I G. destruct s as [|a s']; [destruct I|]. apply ssorted_inv in Ss. destruct Ss as (Ss & F).
  rewrite Forall_forall in F.
  assert (a = i).
  { destruct I as [E|I]; [exact E|]. apply F, lt_nat in I. specialize (G a (or_introl eq_refl)). lia. }
  subst a. exists s'. split; [reflexivity|]. split; [exact Ss|]. intros z Z. apply lt_nat. auto.
Qed.

(** the first item along a path that the path lacks *)
Lemma first_lack n : ordered n -> zero_suppressed n -> forall x, In x (paths n) ->
  (forall j, br n x j -> In j x) \/
  (exists k, br n x k /\ ~ In k x /\ forall j, j < k -> br n x j -> In j x).
Proof.
  induction n as [b|i lo IHl hi IHh]; intros O Z x X.
  - left. intros j B. exfalso. exact (br_leaf b x j B).
  - pose proof X as X0. apply paths_branch in X. destruct X as [(x' & -> & X)|X].
    + destruct (IHh ltac:(apply O) ltac:(apply Z) x' X) as [A|(k & B & N & A)].
      * left. intros j B. pose proof (br_ge _ _ _ O _ _ B) as L. destruct (Nat.eq_dec i j) as [<-|Nj]; [left; reflexivity|].
        right. apply A. apply (br_hi i lo hi O x' j ltac:(lia) X). exact B.
      * right. assert (L : i < k) by (apply (at_hi _ _ _ O), (br_label _ _ _ B)).
        exists k. split; [apply (br_hi i lo hi O x' k L X); exact B|]. split; [simpl; intuition lia|].
        intros j Lj Bj. pose proof (br_ge _ _ _ O _ _ Bj) as Lij. destruct (Nat.eq_dec i j) as [<-|Nj]; [left; reflexivity|].
        right. apply A; [exact Lj|]. apply (br_hi i lo hi O x' j ltac:(lia) X). exact Bj.
    + right. exists i. split; [apply br_top; auto|]. split; [apply (not_lo _ _ _ O x X)|].
      intros j L B. apply (br_ge _ _ _ O) in B. lia.
Qed.

Lemma zintersect_exact n1 n2 : ordered n1 -> ordered n2 -> zero_suppressed n1 -> zero_suppressed n2 ->
  forall s, ssorted s -> (In s (paths (zintersect n1 n2)) <-> joined lt (paths n1) (paths n2) s).
Proof.
  revert n1 n2. apply (pair_ind (fun n1 n2 => ordered n1 -> ordered n2 -> zero_suppressed n1 -> zero_suppressed n2 ->
    forall s, ssorted s -> (In s (paths (zintersect n1 n2)) <-> joined lt (paths n1) (paths n2) s))).
  intros n1 n2 IH O1 O2 Z1 Z2 s Ss. rewrite zintersect_eq. destruct (dd_eqb_spec n1 n2) as [<-|N].
  { split.
    - intros I. exists s, s. split; [exact I|]. split; [exact I|]. left. split; [|intros z; tauto].
      intros i. unfold paired, taken. tauto.
    - intros (x & y & X & Y & C).
      assert (No : forall x y k, In x (paths n1) -> In y (paths n1) -> ~ leaves_at lt (paths n1) (paths n1) x y k s).
      { clear - O1. intros x y k X Y (B & B' & _ & P & _). apply B'. apply (br_ext n1 x); [|exact B].
        apply (paired_same n1 x y X Y). intros i L. apply P; exact L. }
      destruct C as [(P & U)|[(k & L)|(k & L)]]; [|exfalso; exact (No _ _ _ X Y L)|exfalso; exact (No _ _ _ Y X L)].
      assert (s = x) as ->; [|exact X].
      apply ssorted_ext; [exact Ss|eapply ordered_path; [exact O1|exact X]|].
      intros z. rewrite (U z). rewrite (paired_same n1 x y X Y (S z)); [tauto|intros; apply P|lia]. }
  assert (T1 : forall n, ordered n -> zero_suppressed n -> (In s (paths n) <-> joined lt (paths n) [[]] s)).
  { clear - Ss. intros n On Zn. split.
    - intros I. exists s, []. split; [exact I|]. split; [left; reflexivity|].
      assert (E : forall j, ~ branches lt [[]] [] j) by (intros j; apply (br_leaf true)).
      destruct (first_lack n On Zn s I) as [A|(k & B & Nk & A)].
      + left. split; [|intros z; simpl; tauto]. intros i. specialize (A i). specialize (E i). unfold paired, taken. tauto.
      + right; left. exists k. split; [exact B|]. split; [apply E|]. split; [exact Nk|]. split; [|intros z; simpl; tauto].
        intros i L. specialize (A i L). specialize (E i). unfold paired, taken. tauto.
    - intros (x & y & X & [<-|[]] & C).
      assert (E : forall z, In z s <-> In z x).
      { destruct C as [(_ & U)|[(k & _ & _ & _ & _ & U)|(k & B & _)]].
        - intros z. rewrite (U z). simpl. tauto.
        - intros z. rewrite (U z). simpl. tauto.
        - exfalso. exact (br_leaf true _ _ B). }
      assert (s = x) as ->; [|exact X]. apply ssorted_ext; auto. eapply ordered_path; eauto. }
  assert (F2 : forall (m : list (list nat)), ~ joined lt [] m s) by (intros m (x & y & [] & _)).
  assert (F1 : forall (m : list (list nat)), ~ joined lt m [] s) by (intros m (x & y & _ & [] & _)).
  destruct n1 as [[]|i1 l1 h1]; destruct n2 as [[]|i2 l2 h2]; try congruence.
  1: split; [intros []|intros J; destruct (F1 _ J)].
  1: rewrite (T1 _ O2 Z2); split; intros J; apply joined_sym, J.
  1: split; [intros []|intros J; destruct (F2 _ J)].
  1: split; [intros []|intros J; destruct (F2 _ J)].
  1: apply T1; auto.
  1: split; [intros []|intros J; destruct (F1 _ J)].
  clear F1 F2 T1.
  pose proof (size_pos h1). pose proof (size_pos l1). pose proof (size_pos h2). pose proof (size_pos l2).
  pose proof O1 as (D1 & Ol1 & Oh1). pose proof O2 as (D2 & Ol2 & Oh2).
  pose proof Z1 as (N1 & Zl1 & Zh1). pose proof Z2 as (N2 & Zl2 & Zh2).
  assert (One : forall i l h n2, ordered (Branch i l h) -> zero_suppressed (Branch i l h) ->
     zero_suppressed n2 -> n2 <> Leaf false -> (forall j, In j (labels n2) -> i < j) ->
     (forall s, ssorted s -> (In s (paths (zintersect h n2)) <-> joined lt (paths h) (paths n2) s)) ->
     forall s, ssorted s ->
     (In s (paths (zfinish i l (zintersect h n2))) <-> joined lt (paths (Branch i l h)) (paths n2) s)).
  { clear. intros i l h n2 O Z Z2 N2 L2 IHh s Ss. rewrite paths_zfinish.
    assert (B2 : forall y j, br n2 y j -> i < j) by (intros y j B; apply L2, (br_label _ _ _ B)).
    assert (Low : forall x y j, j < i -> PT (Branch i l h) n2 x y j).
    { intros x y j L. apply PT_none; intros B; [apply (br_ge _ _ _ O) in B|apply B2 in B]; lia. }
    assert (At : forall x y, PT (Branch i l h) n2 (i :: x) y i).
    { intros x y. split; [intros _ B; apply B2 in B; lia|]. split; [left; reflexivity|]. intros B; apply B2 in B; lia. }
    assert (Hi : forall x y j, i < j -> In x (paths h) -> (PT (Branch i l h) n2 (i :: x) y j <-> PT h n2 x y j)).
    { intros x y j L X. pose proof (br_hi i l h O x j L X) as E.
      split; apply PT_iff; try tauto; try (split; exact (fun q => q)); simpl; intuition lia. }
    split.
    - intros [(s' & -> & I)|I].
      + apply ssorted_inv in Ss. destruct Ss as (Ss & F). apply (IHh s' Ss) in I. destruct I as (x & y & X & Y & C).
        exists (i :: x), y. split; [apply paths_branch; eauto|]. split; [exact Y|].
        assert (All : forall j, (i < j -> PT h n2 x y j) -> PT (Branch i l h) n2 (i :: x) y j).
        { intros j P. destruct (lt_eq_lt_dec j i) as [[L| ->]|L]; [apply Low; exact L|apply At|apply Hi; auto]. }
        destruct C as [(P & U)|[(k & Bk & Bk' & Nk & P & U)|(k & Bk & Bk' & Nk & P & U)]].
        * left. split; [intros j; apply All; auto|]. intros z. simpl. rewrite (U z). tauto.
        * right; left. exists k. assert (L : i < k) by (apply (at_hi _ _ _ O), (br_label _ _ _ Bk)).
          split; [apply (br_hi i l h O x k L X); exact Bk|]. split; [exact Bk'|]. split; [simpl; intuition lia|].
          split; [intros j Lj; apply All; auto|]. intros z. simpl. rewrite (U z). tauto.
        * right; right. exists k. assert (L : i < k) by (apply (B2 _ _ Bk)).
          split; [exact Bk|]. split; [intros B; apply Bk'; apply (br_hi i l h O x k L X); exact B|]. split; [exact Nk|].
          split; [intros j Lj; apply PT_sym, All; intros _; apply PT_sym; auto|].
          intros z. simpl. rewrite (U z). destruct (Nat.eq_dec i z) as [<-|]; [tauto|]. intuition.
      + destruct (zs_path n2 Z2 N2) as (y & Y). exists s, y. split; [apply paths_branch; auto|]. split; [exact Y|].
        right; left. exists i. split; [apply br_top; [exact O|exact Z|apply paths_branch; auto]|].
        split; [intros B; apply B2 in B; lia|]. split; [apply (not_lo _ _ _ O s I)|]. split; [intros j L; apply Low, L|].
        intros z. split; [auto|]. intros [Q|(Q & L)]; [exact Q|]. pose proof (path_above n2 y i z L2 Y Q). lia.
    - intros (x & y & X & Y & C). pose proof X as X0. apply paths_branch in X. destruct X as [(x' & -> & X)|X].
      + left.
        assert (Hs : In i s /\ forall z, In z s -> In z (i :: x') \/ In z y).
        { destruct C as [(_ & U)|[(k & _ & _ & _ & _ & U)|(k & Bk & _ & _ & _ & U)]].
          - split; [apply U; left; left; reflexivity|]. intros z Q; apply U, Q.
          - split; [apply U; left; left; reflexivity|]. intros z Q; apply U in Q. tauto.
          - split; [apply U; right; split; [left; reflexivity|]; apply (B2 _ _ Bk)|]. intros z Q; apply U in Q. tauto. }
        destruct Hs as (Is & Us). destruct (head_is s i Ss Is) as (s' & -> & Ss' & G).
        { intros z Q. apply Us in Q. destruct Q as [Q|Q]; [apply (path_ge _ _ _ O _ _ X0 Q)|].
          pose proof (path_above n2 y i z L2 Y Q). lia. }
        exists s'. split; [reflexivity|]. apply (IHh s' Ss'). exists x', y. split; [exact X|]. split; [exact Y|].
        assert (Nx : ~ In i x') by (apply (not_hi _ _ _ O x' X)).
        assert (Ny : ~ In i y) by (intros Q; pose proof (path_above n2 y i i L2 Y Q); lia).
        assert (Ns : ~ In i s') by (intros Q; apply G in Q; lia).
        assert (All : forall j, PT (Branch i l h) n2 (i :: x') y j -> PT h n2 x' y j).
        { intros j P. destruct (le_lt_dec j i) as [L|L]; [|apply Hi; auto].
          apply PT_none; intros B; [apply br_label, (at_hi _ _ _ O) in B|apply B2 in B]; lia. }
        destruct C as [(P & U)|[(k & Bk & Bk' & Nk & P & U)|(k & Bk & Bk' & Nk & P & U)]].
        * left. split; [intros j; apply All; auto|]. intros z. specialize (U z). simpl in U.
          destruct (Nat.eq_dec i z) as [<-|]; intuition.
        * right; left. exists k.
          assert (L : i < k).
          { pose proof (br_ge _ _ _ O _ _ Bk). destruct (Nat.eq_dec i k) as [<-|]; [exfalso; apply Nk; left; reflexivity|lia]. }
          split; [apply (br_hi i l h O x' k L X); exact Bk|]. split; [exact Bk'|]. split; [intros Q; apply Nk; right; exact Q|].
          split; [intros j Lj; apply All; auto|]. intros z. specialize (U z). simpl in U.
          destruct (Nat.eq_dec i z) as [<-|]; intuition.
        * right; right. exists k. pose proof (B2 _ _ Bk) as L.
          split; [exact Bk|]. split; [intros B; apply Bk'; apply (br_hi i l h O x' k L X); exact B|]. split; [exact Nk|].
          split; [intros j Lj; apply PT_sym, All, PT_sym; auto|]. intros z. specialize (U z). simpl in U.
          destruct (Nat.eq_dec i z) as [<-|]; intuition.
      + right. assert (Ti : PT (Branch i l h) n2 x y i -> False).
        { intros (_ & Tk & _). apply (not_lo _ _ _ O x X). apply Tk; [apply br_top; auto|]. intros B; apply B2 in B; lia. }
        destruct C as [(P & U)|[(k & Bk & Bk' & Nk & P & U)|(k & Bk & Bk' & Nk & P & U)]].
        * destruct (Ti (P i)).
        * assert (k = i).
          { pose proof (br_ge _ _ _ O _ _ Bk). destruct (Nat.eq_dec k i) as [|Nki]; [assumption|].
            destruct (Ti (P i ltac:(lia))). }
          subst k. assert (s = x) as ->; [|exact X].
          apply ssorted_ext; [exact Ss|eapply ordered_path; [exact (proj1 (proj2 O))|exact X]|].
          intros z. rewrite (U z). split; [|auto]. intros [Q|(Q & L)]; [exact Q|]. pose proof (path_above n2 y i z L2 Y Q). lia.
        * destruct (Ti (PT_sym _ _ _ _ _ (P i (B2 _ _ Bk)))). }
  assert (Ab : forall i i' l h, i < i' -> ordered (Branch i' l h) -> forall j, In j (labels (Branch i' l h)) -> i < j).
  { clear. intros i i' l h L (D & _) j [<-|J]; [lia|]. apply in_app_iff in J. specialize (D j J). lia. }
  destruct (Nat.ltb_spec i1 i2); [|destruct (Nat.ltb_spec i2 i1)].
  - apply One; auto; [discriminate|apply Ab; auto|].
    intros s' S'. apply IH; auto. simpl in *; lia.
  - pose proof (zops_comm (Branch i1 l1 h1) h2) as (_ & E2 & _). rewrite E2.
    rewrite (One i2 l2 h2 (Branch i1 l1 h1)); auto; [split; apply joined_sym|discriminate|apply Ab; auto|].
    intros s' S'. rewrite <- E2. assert (Lt : size (Branch i1 l1 h1) + size h2 < size (Branch i1 l1 h1) + size (Branch i2 l2 h2)) by (simpl in *; lia).
    rewrite (IH _ _ Lt O1 Oh2 Z1 Zh2 s' S'). split; apply joined_sym.
  - assert (i1 = i2) by lia. subst i2. clear One Ab. rename i1 into i.
    pose proof (IH l1 l2 ltac:(simpl in *; lia) Ol1 Ol2 Zl1 Zl2) as IHl.
    pose proof (IH h1 h2 ltac:(simpl in *; lia) Oh1 Oh2 Zh1 Zh2) as IHh. clear IH.
    assert (Low : forall x y j, j < i -> PT (Branch i l1 h1) (Branch i l2 h2) x y j).
    { intros x y j L. apply PT_none; intros B; [apply (br_ge _ _ _ O1) in B|apply (br_ge _ _ _ O2) in B]; lia. }
    assert (Hi : forall x y j, i < j -> In x (paths h1) -> In y (paths h2) ->
       (PT (Branch i l1 h1) (Branch i l2 h2) (i :: x) (i :: y) j <-> PT h1 h2 x y j)).
    { intros x y j L X Y. pose proof (br_hi i l1 h1 O1 x j L X) as E. pose proof (br_hi i l2 h2 O2 y j L Y) as E'.
      split; apply PT_iff; try tauto; simpl; intuition lia. }
    assert (Lo : forall x y j, i < j -> In x (paths l1) -> In y (paths l2) ->
       (PT (Branch i l1 h1) (Branch i l2 h2) x y j <-> PT l1 l2 x y j)).
    { intros x y j L X Y. pose proof (br_lo i l1 h1 O1 x j L X) as E. pose proof (br_lo i l2 h2 O2 y j L Y) as E'.
      split; apply PT_iff; try tauto; simpl; intuition lia. }
    assert (Lv : forall i l1 h1 l2 h2 x y k s, ordered (Branch i l1 h1) -> ordered (Branch i l2 h2) ->
       In x (paths h1) -> In y (paths h2) -> i < k -> ~ In i s ->
       (forall j, i < j -> (PT (Branch i l1 h1) (Branch i l2 h2) (i :: x) (i :: y) j <-> PT h1 h2 x y j)) ->
       (forall j, j <= i -> PT (Branch i l1 h1) (Branch i l2 h2) (i :: x) (i :: y) j /\ PT h1 h2 x y j) ->
       (leaves_at lt (paths (Branch i l1 h1)) (paths (Branch i l2 h2)) (i :: x) (i :: y) k (i :: s) <->
        leaves_at lt (paths h1) (paths h2) x y k s)).
    { clear. intros i l1 h1 l2 h2 x y k s O1 O2 X Y L Ns Hi Lw. unfold leaves_at.
      pose proof (br_hi i l1 h1 O1 x k L X) as E. pose proof (br_hi i l2 h2 O2 y k L Y) as E'.
      pose proof (not_hi _ _ _ O1 x X). pose proof (not_hi _ _ _ O2 y Y).
      split; intros (A & B & C & P & U).
      - split; [tauto|]. split; [tauto|]. split; [intros Q; apply C; right; exact Q|]. split.
        + intros j Lj. destruct (le_lt_dec j i); [apply Lw; assumption|apply Hi; auto].
        + intros z. specialize (U z). simpl in U. destruct (Nat.eq_dec i z) as [<-|]; intuition.
      - split; [tauto|]. split; [tauto|]. split; [simpl; intuition lia|]. split.
        + intros j Lj. destruct (le_lt_dec j i); [apply Lw; assumption|apply Hi; auto].
        + intros z. specialize (U z). simpl. destruct (Nat.eq_dec i z) as [<-|]; intuition. }
    assert (Lw : forall x y, In x (paths h1) -> In y (paths h2) -> forall j, j <= i ->
       PT (Branch i l1 h1) (Branch i l2 h2) (i :: x) (i :: y) j /\ PT h1 h2 x y j).
    { intros x y X Y j L. split.
      - destruct (Nat.eq_dec j i) as [->|]; [|apply Low; lia]. unfold paired, taken. simpl. tauto.
      - apply PT_none; intros B; apply br_label in B; [apply (at_hi _ _ _ O1) in B|apply (at_hi _ _ _ O2) in B]; lia. }
    assert (LwL : forall x y, In x (paths l1) -> In y (paths l2) -> forall j, j <= i ->
       PT (Branch i l1 h1) (Branch i l2 h2) x y j /\ PT l1 l2 x y j).
    { intros x y X Y j L. split.
      - destruct (Nat.eq_dec j i) as [->|]; [|apply Low; lia].
        assert (br (Branch i l1 h1) x i) by (apply br_top; auto; apply paths_branch; auto).
        assert (br (Branch i l2 h2) y i) by (apply br_top; auto; apply paths_branch; auto).
        pose proof (not_lo _ _ _ O1 x X). pose proof (not_lo _ _ _ O2 y Y). unfold paired, taken. tauto.
      - apply PT_none; intros B; apply br_label in B; [apply (at_lo _ _ _ O1) in B|apply (at_lo _ _ _ O2) in B]; lia. }
    assert (Sym : forall n1 n2 n3 n4 x y x' y' j, (PT n1 n2 x y j <-> PT n3 n4 x' y' j) -> (PT n2 n1 y x j <-> PT n4 n3 y' x' j)).
    { clear. intros n1 n2 n3 n4 x y x' y' j E. split; intros P; apply PT_sym, E, PT_sym, P. }
    rewrite paths_zfinish. split.
    + intros [(s' & -> & I)|I].
      * apply ssorted_inv in Ss. destruct Ss as (Ss & F).
        assert (Ns : ~ In i s').
        { rewrite Forall_forall in F. intros Q. apply F, lt_nat in Q. lia. }
        apply (IHh s' Ss) in I. destruct I as (x & y & X & Y & C).
        exists (i :: x), (i :: y). split; [apply paths_branch; eauto|]. split; [apply paths_branch; eauto|].
        destruct C as [(P & U)|[(k & Q)|(k & Q)]].
        -- left. split; [|intros z; simpl; rewrite (U z); tauto].
           intros j. destruct (le_lt_dec j i); [apply Lw; assumption|apply Hi; auto].
        -- right; left. exists k. apply Lv; auto. apply (at_hi _ _ _ O1). destruct Q as (B & _). exact (br_label _ _ _ B).
        -- right; right. exists k. apply Lv; auto; [apply (at_hi _ _ _ O2); destruct Q as (B & _); exact (br_label _ _ _ B)|].
           intros j Lj. destruct (Lw x y X Y j Lj). split; apply PT_sym; assumption.
      * apply (IHl s Ss) in I. destruct I as (x & y & X & Y & C).
        exists x, y. split; [apply paths_branch; auto|]. split; [apply paths_branch; auto|].
        assert (All : forall j, PT l1 l2 x y j -> PT (Branch i l1 h1) (Branch i l2 h2) x y j).
        { intros j P. destruct (le_lt_dec j i); [apply LwL; assumption|apply Lo; auto]. }
        destruct C as [(P & U)|[(k & B & B' & Nk & P & U)|(k & B & B' & Nk & P & U)]].
        -- left. split; [intros j; apply All; auto|exact U].
        -- right; left. exists k. assert (L : i < k) by (apply (at_lo _ _ _ O1), (br_label _ _ _ B)).
           split; [apply (br_lo i l1 h1 O1 x k L X); exact B|].
           split; [intros Q; apply B'; apply (br_lo i l2 h2 O2 y k L Y); exact Q|]. split; [exact Nk|]. split; [|exact U].
           intros j Lj. apply All. auto.
        -- right; right. exists k. assert (L : i < k) by (apply (at_lo _ _ _ O2), (br_label _ _ _ B)).
           split; [apply (br_lo i l2 h2 O2 y k L Y); exact B|].
           split; [intros Q; apply B'; apply (br_lo i l1 h1 O1 x k L X); exact Q|]. split; [exact Nk|]. split; [|exact U].
           intros j Lj. apply PT_sym, All, PT_sym. auto.
    + intros (x & y & X & Y & C). pose proof X as X0. pose proof Y as Y0.
      pose proof (br_top _ _ _ O1 Z1 x X) as B1. pose proof (br_top _ _ _ O2 Z2 y Y) as B2.
      assert (Ci : PT (Branch i l1 h1) (Branch i l2 h2) x y i).
      { destruct C as [(P & _)|[(k & B & B' & Nk & P & _)|(k & B & B' & Nk & P & _)]]; [apply P| |].
        - apply P. pose proof (br_ge _ _ _ O1 _ _ B). destruct (Nat.eq_dec i k) as [<-|]; [contradiction|lia].
        - apply PT_sym, P. pose proof (br_ge _ _ _ O2 _ _ B). destruct (Nat.eq_dec i k) as [<-|]; [contradiction|lia]. }
      destruct Ci as (Pi & _). specialize (Pi B1 B2).
      apply paths_branch in X. apply paths_branch in Y.
      destruct X as [(x' & -> & X)|X]; destruct Y as [(y' & -> & Y)|Y].
      * left.
        assert (Hs : In i s /\ forall z, In z s -> In z (i :: x') \/ In z (i :: y')).
        { destruct C as [(_ & U)|[(k & _ & _ & _ & _ & U)|(k & _ & _ & _ & _ & U)]].
          - split; [apply U; left; left; reflexivity|]. intros z Q; apply U, Q.
          - split; [apply U; left; left; reflexivity|]. intros z Q; apply U in Q. tauto.
          - split; [apply U; left; left; reflexivity|]. intros z Q; apply U in Q. tauto. }
        destruct Hs as (Is & Us). destruct (head_is s i Ss Is) as (s' & -> & Ss' & G).
        { intros z Q. apply Us in Q. destruct Q as [Q|Q]; [apply (path_ge _ _ _ O1 _ _ X0 Q)|apply (path_ge _ _ _ O2 _ _ Y0 Q)]. }
        exists s'. split; [reflexivity|]. apply (IHh s' Ss'). exists x', y'. split; [exact X|]. split; [exact Y|].
        assert (Ns : ~ In i s') by (intros Q; apply G in Q; lia).
        pose proof (not_hi _ _ _ O1 x' X). pose proof (not_hi _ _ _ O2 y' Y).
        destruct C as [(P & U)|[(k & Q)|(k & Q)]].
        -- left. split.
           ++ intros j. destruct (le_lt_dec j i); [apply Lw; assumption|apply Hi; auto].
           ++ intros z. specialize (U z). simpl in U. destruct (Nat.eq_dec i z) as [<-|]; intuition.
        -- right; left. exists k.
           assert (L : i < k).
           { destruct Q as (B & _ & Nk & _). pose proof (br_ge _ _ _ O1 _ _ B).
             destruct (Nat.eq_dec i k) as [<-|]; [exfalso; apply Nk; left; reflexivity|lia]. }
           apply Lv in Q; auto.
        -- right; right. exists k.
           assert (L : i < k).
           { destruct Q as (B & _ & Nk & _). pose proof (br_ge _ _ _ O2 _ _ B).
             destruct (Nat.eq_dec i k) as [<-|]; [exfalso; apply Nk; left; reflexivity|lia]. }
           apply Lv in Q; auto.
           intros j Lj. destruct (Lw x' y' X Y j Lj). split; apply PT_sym; assumption.
      * exfalso. apply (not_lo _ _ _ O2 y Y). apply Pi. left; reflexivity.
      * exfalso. apply (not_lo _ _ _ O1 x X). apply Pi. left; reflexivity.
      * right. apply (IHl s Ss). exists x, y. split; [exact X|]. split; [exact Y|].
        assert (All : forall j, PT (Branch i l1 h1) (Branch i l2 h2) x y j -> PT l1 l2 x y j).
        { intros j P. destruct (le_lt_dec j i); [apply LwL; assumption|apply Lo; auto]. }
        destruct C as [(P & U)|[(k & B & B' & Nk & P & U)|(k & B & B' & Nk & P & U)]].
        -- left. split; [intros j; apply All; auto|exact U].
        -- right; left. exists k.
           assert (L : i < k).
           { pose proof (br_ge _ _ _ O1 _ _ B). destruct (Nat.eq_dec i k) as [<-|]; [contradiction|lia]. }
           split; [apply (br_lo i l1 h1 O1 x k L X); exact B|].
           split; [intros Q; apply B'; apply (br_lo i l2 h2 O2 y k L Y); exact Q|]. split; [exact Nk|]. split; [|exact U].
           intros j Lj. apply All. auto.
        -- right; right. exists k.
           assert (L : i < k).
           { pose proof (br_ge _ _ _ O2 _ _ B). destruct (Nat.eq_dec i k) as [<-|]; [contradiction|lia]. }
           split; [apply (br_lo i l2 h2 O2 y k L Y); exact B|].
           split; [intros Q; apply B'; apply (br_lo i l1 h1 O1 x k L X); exact Q|]. split; [exact Nk|]. split; [|exact U].
           intros j Lj. apply PT_sym, All, PT_sym. auto.
Qed.

(** ** from positions to items *)
Section ToItems.
  Context {T : Type} `{OT : Ord T}.
  Implicit Types (items s : list T) (t o : ztree T).

  Lemma enum_last (l : list T) : forall k m, map_ok m ->
    map_ok (fold_left (fun m p => map_insert m (fst p) (snd p)) (combine l (seq k (length l))) m) /\
    forall x i, map_get (fold_left (fun m p => map_insert m (fst p) (snd p)) (combine l (seq k (length l))) m) x = Some i ->
      (k <= i /\ nth_error l (i - k) = Some x /\ forall q, i < q -> nth_error l (q - k) <> Some x) \/
      (~ In x l /\ map_get m x = Some i).
  Proof.
    induction l as [|y l IH]; intros k m K; cbn [length seq combine fold_left].
    - split; [exact K|]. intros x i E. right. split; [intros []|exact E].
    - destruct (IH (S k) (map_insert m y k)) as (K' & G).
      + apply map_update_ok; exact K.
      + split; [exact K'|]. intros x i E. apply G in E. destruct E as [(L & E & F)|(N & E)].
        * left. split; [lia|]. replace (i - k) with (S (i - S k)) by lia. split; [exact E|].
          intros q Lq. replace (q - k) with (S (q - S k)) by lia. apply F. exact Lq.
        * unfold map_insert in E. cbn [fst snd] in E. rewrite map_update_get in E by exact K.
          destruct (eqb_spec_ x y) as [->|Nx].
          -- injection E as <-. left. split; [lia|]. rewrite Nat.sub_diag. split; [reflexivity|].
             intros q Lq E. replace (q - k) with (S (q - S k)) in E by lia. cbn [nth_error] in E.
             apply nth_error_In in E. contradiction.
          -- right. split; [|exact E]. intros [->|C]; [congruence|contradiction].
  Qed.
  Lemma zindex_last items x i : map_get (zu_index (zu_from items)) x = Some i ->
    nth_error items i = Some x /\ forall q, i < q -> nth_error items q <> Some x.
  Proof.
    intros E. unfold zu_from, enumerate_map in E. cbn [zu_index] in E.
    destruct (enum_last items 0 [] ltac:(constructor)) as (_ & G). apply G in E.
    destruct E as [(_ & E & F)|(_ & E)]; [|discriminate]. rewrite Nat.sub_0_r in E. split; [exact E|].
    intros q L. specialize (F q L). rewrite Nat.sub_0_r in F. exact F.
  Qed.
  Notation idx items x := (map_get (zu_index (zu_from items)) x).

  Lemma listed_index items x y p q : idx items x = Some p -> idx items y = Some q -> (listed_before items x y <-> p < q).
  Proof.
    intros Ex Ey. apply zindex_last in Ex, Ey. destruct Ex as (Ex & Fx), Ey as (Ey & Fy). split.
    - intros (l1 & l2 & -> & I & N & N').
      assert (q = length l1).
      { destruct (lt_eq_lt_dec q (length l1)) as [[L|E]|L]; [|exact E|].
        - exfalso. apply (Fy _ L). rewrite nth_error_app2 by lia. rewrite Nat.sub_diag. reflexivity.
        - exfalso. rewrite nth_error_app2 in Ey by lia. destruct (q - length l1) as [|d] eqn:D; [lia|]. cbn in Ey.
          apply N'. eapply nth_error_In; exact Ey. }
      subst q. destruct (le_lt_dec (length l1) p) as [L|L]; [|exact L]. exfalso.
      rewrite nth_error_app2 in Ex by lia. apply N. eapply nth_error_In; exact Ex.
    - intros L. destruct (nth_error_split _ _ Ey) as (l1 & l2 & -> & Lq). exists l1, l2. split; [reflexivity|].
      assert (Nx : ~ In x (y :: l2)).
      { intros I. apply In_nth_error in I. destruct I as (d & D). apply (Fx (length l1 + d)); [lia|].
        rewrite nth_error_app2 by lia. replace (length l1 + d - length l1) with d by lia. exact D. }
      split; [|split; [exact Nx|]].
      + rewrite nth_error_app1 in Ex by lia. eapply nth_error_In; exact Ex.
      + intros I. apply In_nth_error in I. destruct I as (d & D). apply (Fy (S (length l1 + d))); [lia|].
        rewrite nth_error_app2 by lia. replace (S (length l1 + d) - length l1) with (S d) by lia. exact D.
  Qed.
  Lemma listed_in items x y : listed_before items x y -> In x items /\ In y items.
  Proof. intros (l1 & l2 & -> & I & _). split; apply in_or_app; [left; exact I|right; left; reflexivity]. Qed.

  Variable items : list T.
  Notation canonp p := (forall i, In i p -> canon_label (zu_from items) i).
  Notation canonn n := (forall i, In i (labels n) -> canon_label (zu_from items) i).
  Notation it p := (z_get_items (zu_from items) p).
  Notation pre := (listed_before items).

  Lemma it_in p x i : canonp p -> idx items x = Some i -> (In x (it p) <-> In i p).
  Proof.
    intros C E. rewrite z_get_items_in. split.
    - intros (j & J & X). destruct (C j J) as (y & Y & D). assert (y = x) by congruence. subst y.
      assert (i = j) by congruence. subst; exact J.
    - intros I. exists i. split; [exact I|]. apply zindex_sound; exact E.
  Qed.
  Lemma it_known p x : In x (it p) -> In x items.
  Proof. rewrite z_get_items_in. intros (j & _ & E). eapply nth_error_In; exact E. Qed.
  Lemma canon_path n p : canonn n -> In p (paths n) -> canonp p.
  Proof. intros C P i I. apply C. eapply paths_labels; eauto. Qed.

  (** the paths and the families named by them *)
  Definition names (n : znode) (fs : list (list T)) : Prop :=
    canonn n /\ forall s, In s fs <-> exists p, In p (paths n) /\ s = it p.

  Lemma branches_idx n fs p x i : names n fs -> canonp p -> idx items x = Some i ->
    (branches pre fs (it p) x <-> br n p i).
  Proof.
    intros (C & F) Cp E. split.
    - intros (g & G & A & I). apply F in G. destruct G as (g' & G & ->).
      pose proof (canon_path n g' C G) as Cg. exists g'. split; [exact G|]. split; [|apply (it_in g' x i Cg E); exact I].
      intros j L. split; intros J.
      + destruct (Cg j J) as (z & Z & D). apply (it_in p z j Cp D). apply A; [apply (listed_index items z x j i D E); exact L|].
        apply (it_in g' z j Cg D); exact J.
      + destruct (Cp j J) as (z & Z & D). apply (it_in g' z j Cg D). apply A; [apply (listed_index items z x j i D E); exact L|].
        apply (it_in p z j Cp D); exact J.
    - intros (g & G & A & I). pose proof (canon_path n g C G) as Cg. exists (it g). split; [apply F; eauto|].
      split; [|apply (it_in g x i Cg E); exact I].
      intros z Lz. destruct (zindex_complete items z (proj1 (listed_in items z x Lz))) as (j & D).
      rewrite (it_in g z j Cg D), (it_in p z j Cp D). apply A. apply (listed_index items z x j i D E); exact Lz.
  Qed.
  Lemma branches_known n fs p x : names n fs -> branches pre fs p x -> exists i, idx items x = Some i.
  Proof.
    intros (C & F) (g & G & _ & I). apply F in G. destruct G as (g' & _ & ->). apply zindex_complete. eapply it_known; exact I.
  Qed.
  Lemma br_canon n p i : canonn n -> br n p i -> exists x, idx items x = Some i.
  Proof. intros C B. destruct (C i (br_label _ _ _ B)) as (x & _ & E). eauto. Qed.

  Section Two.
    Variables (n1 n2 : znode) (a b : list (list T)).
    Hypothesis (M1 : names n1 a) (M2 : names n2 b).

    Lemma paired_idx p q x i : canonp p -> canonp q -> idx items x = Some i ->
      (paired pre a b (it p) (it q) x <-> prd n1 n2 p q i).
    Proof.
      intros Cp Cq E. unfold paired. rewrite (branches_idx n1 a p x i M1 Cp E), (branches_idx n2 b q x i M2 Cq E).
      rewrite (it_in p x i Cp E), (it_in q x i Cq E). tauto.
    Qed.
    Lemma taken_idx p q x i : canonp p -> canonp q -> idx items x = Some i ->
      (taken pre a b (it p) (it q) x <-> tkn n1 n2 p q i).
    Proof.
      intros Cp Cq E. unfold taken. rewrite (branches_idx n1 a p x i M1 Cp E), (branches_idx n2 b q x i M2 Cq E).
      rewrite (it_in p x i Cp E), (it_in q x i Cq E). tauto.
    Qed.
    Lemma paired_all p q : canonp p -> canonp q ->
      ((forall x, paired pre a b (it p) (it q) x) <-> forall i, prd n1 n2 p q i).
    Proof.
      intros Cp Cq. split; intros A.
      - intros i B1 B2. destruct (br_canon _ _ _ (proj1 M1) B1) as (x & E).
        apply (paired_idx p q x i Cp Cq E); auto.
      - intros x B1 B2. destruct (branches_known _ _ _ _ M1 B1) as (i & E).
        apply (paired_idx p q x i Cp Cq E); auto.
    Qed.
    (** a condition on positions where something branches, and the same on items *)
    Lemma taken_all p q : canonp p -> canonp q ->
      ((forall x, taken pre a b (it p) (it q) x) <-> forall i, tkn n1 n2 p q i).
    Proof.
      intros Cp Cq. split; intros A.
      - intros i. split; intros B1 B2.
        + destruct (br_canon _ _ _ (proj1 M1) B1) as (x & E). apply (taken_idx p q x i Cp Cq E); auto.
        + destruct (br_canon _ _ _ (proj1 M2) B1) as (x & E). apply (taken_idx p q x i Cp Cq E); auto.
      - intros x. split; intros B1 B2.
        + destruct (branches_known _ _ _ _ M1 B1) as (i & E). apply (taken_idx p q x i Cp Cq E); auto.
        + destruct (branches_known _ _ _ _ M2 B1) as (i & E). apply (taken_idx p q x i Cp Cq E); auto.
    Qed.
    (** union of the items, union of the positions *)
    Lemma union_idx r p q : canonp r -> canonp p -> canonp q ->
      ((forall x, In x (it r) <-> In x (it p) \/ In x (it q)) <-> forall i, In i r <-> In i p \/ In i q).
    Proof.
      intros Cr Cp Cq. split; intros A.
      - assert (Q : forall i, canon_label (zu_from items) i -> (In i r <-> In i p \/ In i q)).
        { intros i (x & X & E). rewrite <- (it_in r x i Cr E), <- (it_in p x i Cp E), <- (it_in q x i Cq E). apply A. }
        intros i. split; [intros I; apply Q; auto|intros [I|I]; apply Q; auto].
      - apply z_items_union. exact A.
    Qed.
    Lemma leaves_idx p q r x k : canonp p -> canonp q -> canonp r -> idx items x = Some k ->
      (leaves_at pre a b (it p) (it q) x (it r) <-> lvs n1 n2 p q k r).
    Proof.
      intros Cp Cq Cr E. unfold leaves_at.
      rewrite (branches_idx n1 a p x k M1 Cp E), (branches_idx n2 b q x k M2 Cq E), (it_in p x k Cp E).
      assert (PP : (forall i, pre i x -> paired pre a b (it p) (it q) i /\ taken pre a b (it p) (it q) i) <->
                   (forall i, i < k -> prd n1 n2 p q i /\ tkn n1 n2 p q i)).
      { split; intros A.
        - intros i L.
          assert (Q : canon_label (zu_from items) i -> prd n1 n2 p q i /\ tkn n1 n2 p q i).
          { intros (z & Z & D). rewrite <- (paired_idx p q z i Cp Cq D), <- (taken_idx p q z i Cp Cq D).
            apply A. apply (listed_index items z x i k D E); exact L. }
          split; [intros B1 B2|split; intros B1 B2].
          + apply Q; auto. apply (proj1 M1), (br_label _ _ _ B1).
          + apply Q; auto. apply (proj1 M1), (br_label _ _ _ B1).
          + apply Q; auto. apply (proj1 M2), (br_label _ _ _ B1).
        - intros z Lz. destruct (zindex_complete items z (proj1 (listed_in items z x Lz))) as (j & D).
          rewrite (paired_idx p q z j Cp Cq D), (taken_idx p q z j Cp Cq D). apply A.
          apply (listed_index items z x j k D E); exact Lz. }
      assert (UU : (forall z, In z (it r) <-> In z (it p) \/ In z (it q) /\ pre z x) <->
                   (forall i, In i r <-> In i p \/ In i q /\ i < k)).
      { split; intros A.
        - assert (Q : forall i, canon_label (zu_from items) i -> (In i r <-> In i p \/ In i q /\ i < k)).
          { intros i (z & Z & D). rewrite <- (it_in r z i Cr D), <- (it_in p z i Cp D), <- (it_in q z i Cq D).
            rewrite <- (listed_index items z x i k D E). apply A. }
          intros i. split; [intros I; apply Q; auto|]. intros [I|(I & L)]; apply Q; auto.
        - intros z. destruct (in_dec (fun u v => match eqb_spec_ u v with ReflectT _ e => left e | ReflectF _ e => right e end) z items) as [I|N].
          + destruct (zindex_complete items z I) as (i & D).
            rewrite (it_in r z i Cr D), (it_in p z i Cp D), (it_in q z i Cq D), (listed_index items z x i k D E). apply A.
          + split; [intros Q; apply it_known in Q; contradiction|].
            intros [Q|(Q & _)]; apply it_known in Q; contradiction. }
      rewrite PP, UU. tauto.
    Qed.
  End Two.

  Lemma to_positions s : ssorted s -> (forall x, In x s -> In x items) ->
    exists p, ssorted p /\ canonp p /\ s = it p.
  Proof.
    intros Ss K. set (p := filter_repeats (filter_map (fun x => idx items x) s)). exists p.
    assert (P : forall i, In i p <-> exists x, In x s /\ idx items x = Some i).
    { intros i. unfold p. rewrite filter_repeats_in, filter_map_in. reflexivity. }
    assert (C : canonp p).
    { intros i I. apply P in I. destruct I as (x & _ & E). exists x. split; [apply zindex_sound; exact E|exact E]. }
    split; [apply filter_repeats_ssorted|]. split; [exact C|].
    apply ssorted_ext; [exact Ss|apply z_get_items_ssorted|]. intros x. split; intros I.
    - destruct (zindex_complete items x (K x I)) as (i & E). apply (it_in p x i C E). apply P. eauto.
    - apply z_get_items_in in I. destruct I as (i & I & E). apply P in I. destruct I as (y & Y & D).
      apply zindex_sound in D. cbn in E. congruence.
  Qed.

  Lemma zinv_names t : zinv items t -> names (zt_root t) (zcombs t).
  Proof. intros (U & _ & C). split; [exact C|]. intros s. rewrite zcombs_in, U. reflexivity. Qed.

  Lemma zcombs_product_exact t o : zinv items t -> zinv items o -> ordered (zt_root t) -> ordered (zt_root o) ->
    forall s, In s (zcombs (z_product t o)) <-> ssorted s /\
      exists x y, In x (zcombs t) /\ In y (zcombs o) /\ is_union s x y /\ forall i, paired pre (zcombs t) (zcombs o) x y i.
  Proof.
    intros It Io Ot Oo s. pose proof (zinv_names t It) as M1. pose proof (zinv_names o Io) as M2.
    destruct It as (U & Z & C), Io as (U' & Z' & C'). rewrite zcombs_in. cbn [z_product zt_root zt_univ]. rewrite U.
    assert (Cr : canonn (zproduct (zt_root t) (zt_root o))) by (apply (zops_labels (canon_label (zu_from items))); assumption).
    split.
    - intros (p & P & ->). split; [apply z_get_items_ssorted|].
      pose proof (canon_path _ _ Cr P) as Cp.
      assert (Sp : ssorted p) by (eapply ordered_path; [apply (zops_ordered _ _ Ot Oo)|exact P]).
      apply (zproduct_exact _ _ Ot Oo Z Z' p Sp) in P. destruct P as (x & y & X & Y & Un & Pr).
      pose proof (canon_path _ _ C X) as Cx. pose proof (canon_path _ _ C' Y) as Cy.
      exists (it x), (it y). split; [apply M1; eauto|]. split; [apply M2; eauto|]. split.
      + exact (proj2 (union_idx p x y Cp Cx Cy) Un).
      + apply (paired_all _ _ _ _ M1 M2 x y Cx Cy). exact Pr.
    - intros (Ss & x & y & X & Y & Un & Pr). apply M1 in X. apply M2 in Y.
      destruct X as (x' & X & ->). destruct Y as (y' & Y & ->).
      pose proof (canon_path _ _ C X) as Cx. pose proof (canon_path _ _ C' Y) as Cy.
      destruct (to_positions s Ss) as (p & Sp & Cp & ->).
      { intros z I. apply Un in I. destruct I as [I|I]; eapply it_known; exact I. }
      exists p. split; [|reflexivity]. apply (zproduct_exact _ _ Ot Oo Z Z' p Sp). exists x', y'.
      split; [exact X|]. split; [exact Y|]. split.
      + exact (proj1 (union_idx p x' y' Cp Cx Cy) Un).
      + apply (paired_all _ _ _ _ M1 M2 x' y' Cx Cy). exact Pr.
  Qed.

  Lemma zcombs_intersect_exact t o : zinv items t -> zinv items o -> ordered (zt_root t) -> ordered (zt_root o) ->
    forall s, In s (zcombs (z_intersect t o)) <-> ssorted s /\ joined pre (zcombs t) (zcombs o) s.
  Proof.
    intros It Io Ot Oo s. pose proof (zinv_names t It) as M1. pose proof (zinv_names o Io) as M2.
    destruct It as (U & Z & C), Io as (U' & Z' & C'). rewrite zcombs_in. cbn [z_intersect zt_root zt_univ]. rewrite U.
    assert (Cr : canonn (zintersect (zt_root t) (zt_root o))) by (apply (zops_labels (canon_label (zu_from items))); assumption).
    split.
    - intros (p & P & ->). split; [apply z_get_items_ssorted|].
      pose proof (canon_path _ _ Cr P) as Cp.
      assert (Sp : ssorted p) by (eapply ordered_path; [exact (proj1 (proj2 (zops_ordered _ _ Ot Oo)))|exact P]).
      apply (zintersect_exact _ _ Ot Oo Z Z' p Sp) in P. destruct P as (x & y & X & Y & D).
      pose proof (canon_path _ _ C X) as Cx. pose proof (canon_path _ _ C' Y) as Cy.
      exists (it x), (it y). split; [apply M1; eauto|]. split; [apply M2; eauto|].
      destruct D as [(Pr & Un)|[(k & L)|(k & L)]].
      + left. split; [|exact (proj2 (union_idx p x y Cp Cx Cy) Un)].
        intros i. split; [apply (paired_all _ _ _ _ M1 M2 x y Cx Cy)|apply (taken_all _ _ _ _ M1 M2 x y Cx Cy)]; intros j; apply Pr.
      + right; left. destruct (br_canon _ _ _ C (proj1 L)) as (z & E). exists z.
        apply (leaves_idx _ _ _ _ M1 M2 x y p z k); auto.
      + right; right. destruct (br_canon _ _ _ C' (proj1 L)) as (z & E). exists z.
        apply (leaves_idx _ _ _ _ M2 M1 y x p z k); auto.
    - intros (Ss & x & y & X & Y & D). apply M1 in X. apply M2 in Y.
      destruct X as (x' & X & ->). destruct Y as (y' & Y & ->).
      pose proof (canon_path _ _ C X) as Cx. pose proof (canon_path _ _ C' Y) as Cy.
      destruct (to_positions s Ss) as (p & Sp & Cp & ->).
      { intros z I.
        assert (Q : In z (it x') \/ In z (it y')).
        { destruct D as [(_ & Un)|[(k & _ & _ & _ & _ & Un)|(k & _ & _ & _ & _ & Un)]]; apply Un in I; tauto. }
        destruct Q as [Q|Q]; eapply it_known; exact Q. }
      exists p. split; [|reflexivity]. apply (zintersect_exact _ _ Ot Oo Z Z' p Sp). exists x', y'.
      split; [exact X|]. split; [exact Y|].
      destruct D as [(Pr & Un)|[(k & L)|(k & L)]].
      + left. split; [|exact (proj1 (union_idx p x' y' Cp Cx Cy) Un)].
        intros i. split; [apply (paired_all _ _ _ _ M1 M2 x' y' Cx Cy)|apply (taken_all _ _ _ _ M1 M2 x' y' Cx Cy)]; intros j; apply Pr.
      + right; left. destruct (branches_known _ _ _ _ M1 (proj1 L)) as (i & E). exists i.
        apply (leaves_idx _ _ _ _ M1 M2 x' y' p k i); auto.
      + right; right. destruct (branches_known _ _ _ _ M2 (proj1 L)) as (i & E). exists i.
        apply (leaves_idx _ _ _ _ M2 M1 y' x' p k i); auto.
  Qed.
End ToItems.
