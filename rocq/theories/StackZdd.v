(** StackZdd: how deep the calls of the zdd API recurse (see StackZModel.v). *)
From Coq Require Import List Arith NArith Lia Bool Permutation Sorted.
From Verif Require Import Base DD Spec Zdd2Model ZddModel ZddProofs ZddSpec ParserModel ParserProofs ParserThm ArenaModel ArenaProofs PoolModel PoolProofs ZddProg ZddProgProofs.
From Verif Require Import Growth2Spec Growth2F StackZModel StackZFits.
Import ListNotations.
Open Scope nat_scope.

(** ** the parser *)
Lemma oao_ge i : forall n, n <= open_at_once n i.
Proof. destruct i as [|c i]; intros n; cbn [open_at_once]; lia. Qed.
Lemma oao_mono i : forall n m, n <= m -> open_at_once n i <= open_at_once m i.
Proof.
  induction i as [|c i IH]; intros n m L; cbn [open_at_once]; [exact L|].
  specialize (IH (if N.eqb c 40 then S n else if N.eqb c 41 then pred n else n) (if N.eqb c 40 then S m else if N.eqb c 41 then pred m else m)).
  destruct (N.eqb c 40); [|destruct (N.eqb c 41)]; lia.
Qed.
Lemma oao_sp i : forall n, open_at_once n (sp i) = open_at_once n i.
Proof.
  induction i as [|c i IH]; intros n; [reflexivity|]. cbn [sp]. destruct (is_blank c) eqn:B; [|reflexivity].
  rewrite IH. cbn [open_at_once]. unfold is_blank in B.
  assert (N.eqb c 40 = false /\ N.eqb c 41 = false) as (-> & ->).
  { repeat rewrite orb_true_iff in B. split; apply N.eqb_neq; intros ->; destruct B as [[[B|B]|B]|B]; discriminate B. }
  pose proof (oao_ge i n). lia.
Qed.
Lemma oao_digits i : forall n, open_at_once n (snd (span_digits i)) = open_at_once n i.
Proof.
  induction i as [|c i IH]; intros n; [reflexivity|]. cbn [span_digits]. destruct (is_digit c) eqn:B; [|reflexivity].
  destruct (span_digits i) as [ds r] eqn:E. cbn [snd] in *. rewrite IH. cbn [open_at_once]. unfold is_digit in B.
  assert (N.eqb c 40 = false /\ N.eqb c 41 = false) as (-> & ->).
  { rewrite andb_true_iff in B. destruct B as (B & _). split; apply N.eqb_neq; intros ->; discriminate B. }
  pose proof (oao_ge i n). lia.
Qed.
Lemma oao_id i r v n : ws node_id i = POk r v -> open_at_once n r = open_at_once n i.
Proof.
  unfold ws, node_id. destruct (span_digits (sp i)) as [ds r'] eqn:E. destruct ds as [|d ds]; [discriminate|].
  destruct (parse_usize _); [|discriminate]. intros Er. injection Er as <- <-.
  rewrite oao_sp. pose proof (oao_digits (sp i) n) as X. rewrite E in X. cbn [snd] in X. rewrite X. apply oao_sp.
Qed.
Lemma tag_cons t i r : tag t i = Some r -> i = t ++ r.
Proof.
  revert i. induction t as [|c t IH]; intros i E; [cbn in E; injection E as ->; reflexivity|].
  destruct i as [|d i]; [discriminate|]. cbn [tag] in E. destruct (N.eqb_spec c d) as [->|]; [|discriminate].
  cbn. f_equal. apply IH, E.
Qed.

Lemma oao_open n i : open_at_once n ([40%N] ++ i) = open_at_once (S n) i.
Proof. cbn -[Nat.max]. pose proof (oao_ge i (S n)). lia. Qed.
Lemma oao_close n i : open_at_once (S n) ([41%N] ++ i) = S (Nat.max n (pred (open_at_once n i))).
Proof. cbn -[Nat.max]. pose proof (oao_ge i n). lia. Qed.
Lemma oao_tag t n i : t = text_T \/ t = text_F -> open_at_once n (t ++ i) = Nat.max (S n) (open_at_once n i).
Proof. intros [-> | ->]; cbn -[Nat.max]; pose proof (oao_ge i n); lia. Qed.

Notation zpar := (node_parser text_T text_F (fun id lo hi => Some (zbranch id lo hi))).
Lemma oao_parser k : forall i r t n, zpar k i = POk r t -> open_at_once n r <= open_at_once n i.
Proof.
  induction k as [|k IH]; intros i r t n E; [discriminate|]. cbn [node_parser] in E.
  destruct (tag text_T i) as [r1|] eqn:E1.
  { injection E as <- <-. apply tag_cons in E1. subst i. rewrite oao_tag by auto. lia. }
  destruct (tag text_F i) as [r1|] eqn:E2.
  { injection E as <- <-. apply tag_cons in E2. subst i. rewrite oao_tag by auto. lia. }
  destruct (tag [40%N] i) as [i1|] eqn:E3; [|discriminate]. apply tag_cons in E3. subst i.
  destruct (ws node_id i1) as [i2 id| |] eqn:E4; cbn [ParserModel.pbind] in E; try discriminate.
  unfold ws in E at 1. destruct (zpar k (sp i2)) as [i3 lo| |] eqn:E5; cbn [ParserModel.pbind] in E; try discriminate.
  unfold ws in E. destruct (zpar k (sp (sp i3))) as [i4 hi| |] eqn:E6; cbn [ParserModel.pbind] in E; try discriminate.
  destruct (tag [41%N] (sp i4)) as [r7|] eqn:E7; [|discriminate]. injection E as <- <-. apply tag_cons in E7.
  pose proof (oao_id _ _ _ (S n) E4) as X1. pose proof (IH _ _ _ (S n) E5) as X2. pose proof (IH _ _ _ (S n) E6) as X3.
  rewrite !oao_sp in *. rewrite <- (oao_sp i4), E7, oao_close in X3. rewrite oao_open.
  pose proof (oao_ge r7 n). lia.
Qed.
Lemma m_zparse_depth k : forall i, zpar k i <> PStuck ->
  forall d n, open_at_once n i <= n + d -> forall fuel tot, suffices (S d) fuel tot -> forall a, AInv a ->
  wp tot a (m_zparse fuel i) (fun a' r => pden a' r (zpar k i)).
Proof.
  induction k as [|k IH]; intros i NS d n Hd fuel tot Hf a I0; [exfalso; apply NS; reflexivity|].
  pstart Hf. cbn [m_zparse]. cbn [node_parser] in *.
  destruct (tag text_T i) as [r|]; [apply wp_pden; split; [reflexivity|constructor]|].
  destruct (tag text_F i) as [r|]; [apply wp_pden; split; [reflexivity|constructor]|].
  destruct (tag [40%N] i) as [i1|] eqn:E1; [|apply wp_pden; exact I].
  apply tag_cons in E1. subst i. rewrite oao_open in Hd. pose proof (oao_ge i1 (S n)).
  destruct d as [|d]; [lia|].
  destruct (ws node_id i1) as [i2 id| |] eqn:E2; cbn [ParserModel.pbind] in *; [|apply wp_pden; exact I|congruence].
  pose proof (oao_id _ _ _ (S n) E2) as X1.
  unfold ws in NS.
  assert (N1 : zpar k (sp i2) <> PStuck) by (intros X; rewrite X in NS; apply NS; reflexivity).
  assert (B1 : open_at_once (S n) (sp i2) <= S n + d) by (rewrite oao_sp; lia).
  eapply wp_bind; [eapply (IH _ N1 d (S n) B1); [exact Hf|exact I0]|intros a1 x E3 I1 D1; cbv beta in D1|exact I0].
  unfold ws at 1. destruct (zpar k (sp i2)) as [i3 tl| |] eqn:P1; destruct x as [i3' low| |]; simpl in D1; try contradiction;
    cbn [ParserModel.pbind] in *; [|apply wp_pden; exact I]. destruct D1 as [-> D1].
  pose proof (oao_parser _ _ _ _ (S n) P1) as X2.
  assert (N2 : zpar k (sp (sp i3)) <> PStuck) by (intros X; rewrite X in NS; apply NS; reflexivity).
  assert (B2 : open_at_once (S n) (sp (sp i3)) <= S n + d) by (rewrite !oao_sp in *; lia).
  eapply wp_bind; [eapply (IH _ N2 d (S n) B2); [exact Hf|exact I1]|intros a2 y E2' I2 D2; cbv beta in D2|exact I1].
  unfold ws. destruct (zpar k (sp (sp i3))) as [i4 th| |]; destruct y as [i4' high| |]; simpl in D2; try contradiction;
    cbn [ParserModel.pbind] in *; [|apply wp_pden; exact I]. destruct D2 as [-> D2]. plift E2'.
  destruct (tag [41%N] (sp i4)) as [r|]; [|apply wp_pden; exact I].
  pstep_with m_zbranch_spec; [eassumption|eassumption|eassumption|]. apply wp_pden. split; [reflexivity|exact D].
Qed.

Section Zdd.
  Context {T : Type} `{Ord T}.

  (** ** the list of the widest combinations *)
  Lemma times_app x (l m : list T) : times x (l ++ m) = times x l + times x m.
  Proof. unfold times. rewrite filter_app, app_length. reflexivity. Qed.
  Lemma times_in x (l : list T) : 0 < times x l -> In x l.
  Proof.
    unfold times. destruct (filter (eqb_ x) l) as [|y r] eqn:E; [cbn; lia|]. intros _.
    assert (J : In y (filter (eqb_ x) l)) by (rewrite E; left; reflexivity). apply filter_In in J. destruct J as (J & Q).
    apply eqb_true_ in Q. subst y. exact J.
  Qed.
  Lemma multi_sub (c : list T) : forall U, (forall x, times x c <= times x U) -> exists d, Permutation (d ++ c) U.
  Proof.
    induction c as [|x c IH]; intros U L; [exists U; rewrite app_nil_r; reflexivity|].
    assert (J : In x U).
    { apply times_in. specialize (L x). unfold times in *. cbn [filter] in L. rewrite (proj2 (eqb_true_ x x) eq_refl) in L. cbn in L. lia. }
    apply in_split in J. destruct J as (U1 & U2 & ->).
    destruct (IH (U1 ++ U2)) as (d & P).
    { intros y. specialize (L y). change (x :: c) with ([x] ++ c) in L. change (x :: U2) with ([x] ++ U2) in L.
      rewrite !times_app in *. lia. }
    exists d. rewrite <- !Permutation_middle. apply perm_skip, P.
  Qed.
  Definition most (cs : list (list T)) (x : T) : nat := list_max (map (times x) cs).
  Definition merged (cs : list (list T)) : list T := flat_map (fun x => repeat x (most cs x)) (once (concat cs)).
  Lemma merged_length cs : length (merged cs) = widest cs.
  Proof.
    unfold merged, widest. induction (once (concat cs)) as [|x l IH]; [reflexivity|]. cbn [flat_map map list_sum fold_right].
    rewrite app_length, repeat_length. unfold most at 1. unfold list_sum in IH. lia.
  Qed.
  Lemma times_repeat x y n : times x (repeat y n) = if eqb_ x y then n else 0.
  Proof. unfold times. induction n as [|n IH]; cbn; destruct (eqb_ x y) eqn:E; auto. cbn. rewrite IH. reflexivity. Qed.
  Lemma times_most cs c x : In c cs -> times x c <= most cs x.
  Proof.
    intros J. unfold most. pose proof (proj1 (list_max_le (map (times x) cs) _) (Nat.le_refl _)) as F.
    rewrite Forall_forall in F. apply F. apply in_map. exact J.
  Qed.
  Lemma times_merged cs c x : In c cs -> times x c <= times x (merged cs).
  Proof.
    intros J. pose proof (times_most cs c x J) as L. destruct (times x c) as [|k] eqn:E; [lia|].
    assert (Jx : In x (once (concat cs))).
    { apply once_in. apply in_concat. exists c. split; [exact J|]. apply times_in. lia. }
    unfold merged. apply in_split in Jx. destruct Jx as (l1 & l2 & ->). rewrite flat_map_app. cbn [flat_map].
    rewrite !times_app, times_repeat, (proj2 (eqb_true_ x x) eq_refl). lia.
  Qed.
  Lemma filter_map_app {A B} (f : A -> option B) l m : filter_map f (l ++ m) = filter_map f l ++ filter_map f m.
  Proof. induction l as [|x l IH]; [reflexivity|]. cbn. destruct (f x); cbn; rewrite IH; reflexivity. Qed.
  Lemma filter_map_perm {A B} (f : A -> option B) l m : Permutation l m -> Permutation (filter_map f l) (filter_map f m).
  Proof.
    induction 1 as [|x l m P IH|x y l|l m k P1 IH1 P2 IH2]; cbn; auto.
    - destruct (f x); auto.
    - destruct (f x), (f y); auto. constructor.
    - etransitivity; eauto.
  Qed.
  Lemma filter_map_length {A B} (f : A -> option B) l : length (filter_map f l) <= length l.
  Proof. induction l as [|x l IH]; [reflexivity|]. cbn. destruct (f x); cbn; lia. Qed.

  Section Hyper.
    Variables (u : zuniverse T) (cs : list (list T)).
    Definition levels : list nat := sort (filter_map (map_get (zu_index u)) (merged cs)).
    Lemma levels_length : length levels <= widest cs.
    Proof.
      unfold levels. rewrite (Permutation_length (sort_perm _)). rewrite <- merged_length. apply filter_map_length.
    Qed.
    Lemma tree_fits c : In c cs -> fits (zt_root (z_tree u c)) levels.
    Proof.
      intros J. rewrite z_tree_root. destruct (multi_sub c (merged cs) (fun x => times_merged cs c x J)) as (d & P).
      unfold levels. rewrite <- (sort_nat_perm _ _ (filter_map_perm (map_get (zu_index u)) _ _ P)), filter_map_app.
      apply fits_sort, fits_chain.
    Qed.
    Lemma hyper_depth fuel tot : suffices (S (widest cs)) fuel tot -> forall l, (forall c, In c l -> In c cs) ->
      forall root, zt_univ root = u -> fits (zt_root root) levels -> forall a m, AInv a -> zden a m root ->
      wp tot a (pfoldM (fun root c => do next <- m_ztree u c ; m_zop m_zunion fuel root next) l m)
        (fun a' x => zden a' x (fold_left (fun root next => z_union root next) (map (z_tree u) l) root)).
    Proof.
      intros Hf. induction l as [|c l IH]; intros Hl root Hu Fr a m I0 D; [apply wp_zden; exact D|].
      cbn [map fold_left pfoldM]. pose proof (tree_fits c (Hl c (or_introl eq_refl))) as Fc.
      eapply wp_bind; [|intros a2 m2 E2 I2 D2; cbv beta in D2; eapply IH; [|exact Hu| |exact I2|exact D2]|exact I0].
      - eapply wp_bind; [eapply m_ztree_spec; exact I0|intros a1 m1 E1 I1 D1; cbv beta in D1|exact I0].
        destruct (zden_ext _ _ _ _ E1 D) as [Dm Um]. destruct D1 as [Dt Ut]. unfold m_zop. pget. pget.
        pstep_with (m_zunion_depth by_list by_list_leveled (widest cs) (zt_root root) (zt_root (z_tree u c))); [|exact Hf|eassumption|eassumption|eassumption|].
        { exists levels. split; [apply climbs_sort|]. split; [apply levels_length|]. split; [exact Fr|exact Fc]. }
        pstep_with @wp_intern; [eassumption|]. apply wp_zden. split; [assumption|exact Um].
      - intros c' J. apply Hl. right. exact J.
      - cbn. apply fits_zunion; [apply climbs_sort|exact Fr|exact Fc].
    Qed.
    Lemma m_zhyper_depth fuel tot : suffices (S (widest cs)) fuel tot -> forall a, AInv a ->
      wp tot a (m_zhyper fuel u cs) (fun a' x => zden a' x (z_hyper_tree u cs)).
    Proof.
      intros Hf a I0. unfold m_zhyper, z_hyper_tree. eapply (hyper_depth fuel tot Hf cs (fun c J => J) (z_empty_tree u)); auto.
      - apply fits_leaf.
      - split; [exact (den_leaf a false I0)|reflexivity].
    Qed.
  End Hyper.

  (** no combination with a repeated item *)
  Lemma times_NoDup x (c : list T) : NoDup c -> times x c <= 1.
  Proof.
    intros N. unfold times. induction N as [|y c Hy N IH]; [cbn; lia|]. cbn [filter]. destruct (eqb_ x y) eqn:E; [|exact IH].
    apply eqb_true_ in E. subst y. cbn [length]. destruct (filter (eqb_ x) c) as [|z r] eqn:F; [cbn; lia|].
    exfalso. apply Hy. assert (J : In z (filter (eqb_ x) c)) by (rewrite F; left; reflexivity).
    apply filter_In in J. destruct J as (J & Q). apply eqb_true_ in Q. subst z. exact J.
  Qed.
  Lemma widest_once (cs : list (list T)) : (forall c, In c cs -> NoDup c) -> widest cs = length (once (concat cs)).
  Proof.
    intros N. unfold widest.
    assert (X : forall x, In x (once (concat cs)) -> list_max (map (times x) cs) = 1).
    { intros x J. apply once_in, in_concat in J. destruct J as (c & Jc & Jx). apply Nat.le_antisymm.
      - apply list_max_le. apply Forall_forall. intros k Jk. apply in_map_iff in Jk. destruct Jk as (c' & <- & J').
        apply times_NoDup. apply N, J'.
      - etransitivity; [|apply (times_most cs c x Jc)]. unfold times. apply in_split in Jx. destruct Jx as (l1 & l2 & ->).
        rewrite filter_app. cbn [filter]. rewrite (proj2 (eqb_true_ x x) eq_refl), app_length. cbn. lia. }
    revert X. generalize (once (concat cs)). intros l. induction l as [|x l IH]; intros X; [reflexivity|].
    cbn [map list_sum fold_right length]. rewrite (X x (or_introl eq_refl)). unfold list_sum in IH. rewrite IH; [reflexivity|].
    intros y J. apply X. right. exact J.
  Qed.

  (** ** one call *)
  Notation zgden := (gden zden).
  Notation zgsden := (gsden zden).
  Definition need (d : nat) (ts : list (ztree T)) (c : zcall T) : Prop :=
    let level i := height (zt_root (zreg ts i)) in
    match c with
    | ZCUnique _ xs => S (widest (map (fun x => [x]) xs)) <= d
    | ZCHyper _ cs => S (widest cs) <= d
    | ZCUnion i j | ZCIntersect i j | ZCProduct i j =>
        exists Q k, leveled Q /\ Q k (zt_root (zreg ts i)) (zt_root (zreg ts j)) /\ S k <= d
    | ZCRestrict i inc exc => forall cs, z_combinations_with (zreg ts i) inc exc = Some cs -> S (widest cs) <= d
    | ZCCombinationsRec i | ZCTraverse i | ZCSerialize i => S (level i) <= d
    | ZCDeserialize x => S (open_at_once 0 (as_bytes (fst x))) <= d
    | _ => True
    end.
  Lemma need_call ts c : need (zcall_depth ts c) ts c.
  Proof.
    destruct c; cbn [need zcall_depth]; auto;
      try (exists by_height; eexists; split; [exact by_height_leveled|]; split; [unfold by_height; apply Nat.le_refl|apply Nat.le_refl]).
    intros cs ->. apply Nat.le_refl.
  Qed.

  Lemma depth_op op m : depth_spec op m -> forall (t o : ztree T) d depth tot a mt mo,
    (exists Q k, leveled Q /\ Q k (zt_root t) (zt_root o) /\ S k <= d) -> suffices d depth tot -> AInv a -> zden a mt t -> zden a mo o ->
    wp tot a (m_zop m depth mt mo) (fun a' x => zden a' x (mkZT (op (zt_root t) (zt_root o)) (zt_univ t))).
  Proof.
    intros Sp t o d depth tot a mt mo (Q & k & HQ & q & Lk) Hf I0 [D1 U1] [D2 U2]. unfold m_zop. pget. pget.
    pstep_with (Sp Q HQ k _ _ q); [eapply suffices_le; [exact Lk|exact Hf]|eassumption|eassumption|eassumption|].
    pstep_with @wp_intern; [eassumption|]. apply wp_zden. split; [assumption|exact U1].
  Qed.

  Lemma depth_zcall c (ts : list (ztree T)) y d depth tot : z_call ts c = Some y -> need d ts c -> suffices d depth tot ->
    exists L, forall loops, suffices L loops tot -> forall a ms, AInv a -> zgden a ms ts ->
    wp tot a (zs_call depth loops ms c) (fun a' x => zgsden a' x y).
  Proof.
    intros E N Hd.
    assert (OP : forall op m i j, depth_spec op m ->
      (exists Q k, leveled Q /\ Q k (zt_root (zreg ts i)) (zt_root (zreg ts j)) /\ S k <= d) ->
      exists L, forall loops, suffices L loops tot -> forall a ms, AInv a -> zgden a ms ts ->
      wp tot a (mznew (m_zop m depth (mzreg ms i) (mzreg ms j)) ms)
        (fun a' x => zgsden a' x (ts ++ [mkZT (op (zt_root (zreg ts i)) (zt_root (zreg ts j))) (zt_univ (zreg ts i))], ZONone (T:=T)))).
    { intros op m i j Sp Nij. exists 0. intros loops _ a ms I0 D. apply mznew_spec; auto.
      eapply (depth_op op m Sp (zreg ts i) (zreg ts j) d); [exact Nij|exact Hd|exact I0| |]; apply zgden_reg; auto. }
    assert (OLD : need 0 ts c -> (forall depth loops ms, zs_call depth loops ms c = m_zcall loops ms c) -> exists L, forall loops, suffices L loops tot -> forall a ms, AInv a -> zgden a ms ts ->
      wp tot a (zs_call depth loops ms c) (fun a' x => zgsden a' x y)).
    { intros _ Eq. destruct (m_zcall_refines c ts y E) as (F & S1). exists F. intros loops Hl a ms I0 D. rewrite Eq. apply S1; auto. }
    destruct c as [items|items|items c|items xs|items cs|i j|i j|i j|i inc exc|i|i|i inc exc|h i inc exc|i|i j|i|dt];
      cbn [need] in N; try (apply OLD; [exact Logic.I|reflexivity]); clear OLD; cbn [z_call] in E.
    - injection E as <-. exists 0. intros loops _ a ms I0 D. apply mznew_spec; auto.
      replace (z_unique_tree (zu_from items) xs) with (z_hyper_tree (zu_from items) (map (fun x => [x]) xs)).
      { apply m_zhyper_depth; [eapply suffices_le; [exact N|exact Hd]|exact I0]. }
      unfold z_hyper_tree, z_unique_tree. rewrite map_map. reflexivity.
    - injection E as <-. exists 0. intros loops _ a ms I0 D. apply mznew_spec; auto.
      apply m_zhyper_depth; [eapply suffices_le; [exact N|exact Hd]|exact I0].
    - injection E as <-. apply (OP zunion m_zunion i j m_zunion_depth N).
    - injection E as <-. apply (OP zintersect m_zintersect i j m_zintersect_depth N).
    - injection E as <-. apply (OP zproduct m_zproduct i j m_zproduct_depth N).
    - apply bind_some in E. destruct E as (t & E1 & E). injection E as <-. unfold z_restrict in E1.
      apply bind_some in E1. destruct E1 as (cs & E1 & E2). injection E2 as <-. specialize (N cs E1).
      exists (size (zt_root (zreg ts i))). intros loops Hl a ms I0 D. apply mznew_spec; auto. unfold zs_restrict.
      pose proof (zgden_reg a ms ts i I0 D) as Di.
      eapply wp_bind; [eapply m_zcombinations_with_spec; [exact E1|exact Hl|exact I0|exact Di]|intros a' r Ex I1 ->|exact I0].
      destruct Di as [_ Ui]. rewrite Ui. apply m_zhyper_depth; [eapply suffices_le; [exact N|exact Hd]|exact I1].
    - injection E as <-. exists 0. intros loops _ a ms I0 D. apply mzobs_spec; auto.
      pose proof (zgden_reg a ms ts i I0 D) as [Di Ui]. unfold m_zcombinations_recursive.
      assert (W : wp tot a (m_zcomb_recursive depth (mz_root (mzreg ms i))) (fun _ r => r = zcombinations_recursive (zt_root (zreg ts i)))).
      { unfold m_zcomb_recursive. eapply wp_bind; [eapply m_zcomb_inner_depth; [eapply suffices_le; [exact N|exact Hd]|exact I0|exact Di]| |exact I0].
        intros a' r Ex I1 Er. cbv beta in Er. subst r. apply wp_val. reflexivity. }
      eapply wp_bind; [exact W| |exact I0]. intros a' r Ex I1 Er. cbv beta in Er. subst r. apply wp_val. rewrite Ui. reflexivity.
    - injection E as <-. exists 0. intros loops _ a ms I0 D. apply (mzobs_spec _ _ _ _ (@ZOTree T)); auto.
      pose proof (zgden_reg a ms ts i I0 D) as [Di Ui]. rewrite Ui. eapply m_ztraverse_depth; [eapply suffices_le; [exact N|exact Hd]|exact I0|exact Di].
    - injection E as <-. exists 0. intros loops _ a ms I0 D. cbn [zs_call].
      pose proof (zgden_reg a ms ts i I0 D) as [Di Ui]. rewrite Ui.
      eapply wp_bind; [eapply wp_get_node; exact Di|intros a1 n1 E1 I1 D1; cbv beta in D1|exact I0].
      apply (mzobs_spec _ _ (m_zprint depth n1) _ (fun s => ZOData (s, (zu_items (zt_univ (zreg ts i)), zu_index (zt_univ (zreg ts i)))))).
      + exact I1.
      + eapply zgden_ext; eauto.
      + eapply m_zprint_depth; [eapply suffices_le; [exact N|exact Hd]|exact I1|exact D1].
    - unfold z_deserialize in E. pose proof (zparse_node_not_stuck (fst dt)) as NS. unfold zparse_node_string in *. cbv zeta in *.
      set (i := as_bytes (fst dt)) in *.
      assert (NS' : zpar (S (length i)) i <> PStuck) by (intros X; rewrite X in NS; apply NS; reflexivity).
      exists 0. intros loops _ a ms I0 D. cbn [zs_call]. fold i.
      eapply wp_bind; [eapply (m_zparse_depth _ i NS' (open_at_once 0 i) 0 (Nat.le_refl _)); [eapply suffices_le; [exact N|exact Hd]|exact I0]|intros a1 x E1 I1 D1; cbv beta in D1|exact I0].
      destruct (zpar (S (length i)) i) as [rest t| |]; destruct x as [rest' n| |]; simpl in D1; try contradiction;
        cbn [finish] in E; injection E as <-.
      + destruct D1 as [_ D1].
        eapply wp_bind; [eapply wp_intern; exact D1|intros a2 j E2 I2 D2; cbv beta in D2|exact I1].
        apply wp_ret. intros a3 E3 I3. split; simpl; auto. apply Forall2_app.
        * eapply zgden_ext; [|exact D]. eapply ext_trans; [eassumption|]. eapply ext_trans; eassumption.
        * constructor; [|constructor]. split; [|reflexivity]. eapply den_ext; eauto.
      + apply wp_ret. intros a3 E3 I3. split; simpl; auto. eapply zgden_ext; [|exact D]. eapply ext_trans; eauto.
  Qed.

  (** ** trees over one universe, from combinations without repeated items *)
  Lemma canon_labels_le items (l : list nat) : NoDup l -> (forall p, In p l -> canon_label (zu_from items) p) ->
    length l <= length (once items).
  Proof.
    intros N C.
    assert (X : exists xs, NoDup xs /\ length xs = length l /\ (forall x, In x xs -> In x items /\ exists p, In p l /\ map_get (zu_index (zu_from items)) x = Some p)).
    { induction N as [|p l Hp N IH]; [exists []; split; [constructor|]; split; [reflexivity|intros x []]|].
      destruct IH as (xs & Nx & Lx & Gx); [intros q Hq; apply C; right; exact Hq|].
      destruct (C p (or_introl eq_refl)) as (x & E1 & E2). exists (x :: xs). split; [|split].
      - constructor; [|exact Nx]. intros J. destruct (Gx x J) as (_ & q & Hq & E3). rewrite E2 in E3. injection E3 as ->. contradiction.
      - cbn. rewrite Lx. reflexivity.
      - intros z [<-|J].
        + split; [eapply nth_error_In; exact E1|]. exists p. split; [left; reflexivity|exact E2].
        + destruct (Gx z J) as (J1 & q & Hq & E3). split; [exact J1|]. exists q. split; [right; exact Hq|exact E3]. }
    destruct X as (xs & Nx & Lx & Gx). rewrite <- Lx. apply NoDup_incl_length; [exact Nx|].
    intros x J. apply once_in. apply Gx, J.
  Qed.
  Lemma plain_list items (t o : ztree T) : ZReach (@NoDup T) (zu_from items) t -> ZReach (@NoDup T) (zu_from items) o ->
    exists L, climbs L /\ length L <= length (once items) /\ fits (zt_root t) L /\ fits (zt_root o) L.
  Proof.
    intros R R'. pose proof (zreach_ordered items t R) as Ot. pose proof (zreach_ordered items o R') as Oo.
    destruct (zreach_inv _ items t R) as (_ & _ & Lt). destruct (zreach_inv _ items o R') as (_ & _ & Lo).
    set (l := nodup Nat.eq_dec (labels (zt_root t) ++ labels (zt_root o))). exists (sort l).
    assert (Jl : forall p, In p (sort l) <-> In p (labels (zt_root t)) \/ In p (labels (zt_root o))).
    { intros p. rewrite sort_in. unfold l. rewrite nodup_In, in_app_iff. reflexivity. }
    split; [apply climbs_sort|]. split; [|split].
    - rewrite (Permutation_length (sort_perm l)). apply canon_labels_le; [apply NoDup_nodup|].
      intros p J. unfold l in J. rewrite nodup_In, in_app_iff in J. destruct J; auto.
    - apply ordered_fits; [apply climbs_sort|exact Ot|]. intros p J. apply Jl. auto.
    - apply ordered_fits; [apply climbs_sort|exact Oo|]. intros p J. apply Jl. auto.
  Qed.
  Lemma plain_height items (t : ztree T) : ZReach (@NoDup T) (zu_from items) t -> height (zt_root t) <= length (once items).
  Proof.
    intros R. destruct (plain_list items t t R R) as (L & _ & N & F & _). etransitivity; [apply fits_height; exact F|exact N].
  Qed.
  Lemma once_le (l m : list T) : (forall x, In x l -> In x m) -> length (once l) <= length (once m).
  Proof. intros J. apply NoDup_incl_length; [apply once_NoDup|]. intros x Hx. apply once_in. apply J. apply once_in, Hx. Qed.
  Lemma need_plain items ts c : zplain items ts c -> need (S (length (once items))) ts c.
  Proof.
    destruct c as [its|its|its c|its xs|its cs|i j|i j|i j|i inc exc|i|i|i inc exc|h i inc exc|i|i j|i|dt]; cbn [zplain need]; auto.
    - intros J. apply le_n_S. rewrite widest_once.
      + apply once_le. intros x Jx. apply in_concat in Jx. destruct Jx as (c & Jc & Jx). apply in_map_iff in Jc.
        destruct Jc as (z & <- & Jz). destruct Jx as [<-|[]]. auto.
      + intros c Jc. apply in_map_iff in Jc. destruct Jc as (z & <- & _). repeat constructor. intros [].
    - intros J. apply le_n_S. rewrite widest_once; [|intros c Jc; apply J, Jc]. apply once_le.
      intros x Jx. apply in_concat in Jx. destruct Jx as (c & Jc & Jx). apply (J c Jc), Jx.
    - intros (R & R'). exists by_list, (length (once items)). split; [exact by_list_leveled|]. split; [|apply Nat.le_refl]. apply plain_list; assumption.
    - intros (R & R'). exists by_list, (length (once items)). split; [exact by_list_leveled|]. split; [|apply Nat.le_refl]. apply plain_list; assumption.
    - intros (R & R'). exists by_list, (length (once items)). split; [exact by_list_leveled|]. split; [|apply Nat.le_refl]. apply plain_list; assumption.
    - intros R cs E. apply le_n_S. destruct (z_combinations_with_eq (zreg ts i) inc exc) as (cs' & E' & _ & G).
      rewrite E in E'. injection E' as <-. rewrite widest_once.
      + apply once_le. intros x Jx. apply in_concat in Jx. destruct Jx as (c & Jc & Jx). apply G in Jc. destruct Jc as (Jc & _).
        pose proof (zcombs_sub _ _ _ Jc Jx) as X. destruct (zreach_inv _ items _ R) as (U & _ & _). rewrite U in X. exact X.
      + intros c Jc. apply G in Jc. destruct Jc as (Jc & _). apply ssorted_NoDup. eapply zcombs_ssorted; exact Jc.
    - intros R. apply le_n_S, plain_height, R.
    - intros R. apply le_n_S, plain_height, R.
    - intros R. apply le_n_S, plain_height, R.
    - intros [].
  Qed.
End Zdd.
