(** LoadProofs: the programs of LoadModel.v, run against the shared arena with any
    interference, compute what the calls on values compute, and panic only when
    they do. *)
From Coq Require Import List Arith NArith Lia Bool Permutation Sorted.
From Verif Require Import Base DD Spec Zdd2Model Zdd2Node Zdd2Node2 Zdd2Univ Zdd2Forest Zdd2Forest2 Zdd2Forest3 Zdd2Laws Zdd2Thm.
From Verif Require Import ParserModel ParserSpec ParserProofs ParserThm.
From Verif Require Import ArenaModel ArenaProofs PoolModel PoolProofs PanicProofs Zdd2Prog Zdd2ProgProofs LoadModel.
Import ListNotations.
Open Scope nat_scope.

Lemma m_print_spec t : exists F, forall fuel tot, enough F fuel tot -> forall a n, AInv a -> nden a n t ->
  wp tot a (m_print fuel n) (fun _ r => r = build_node_string t).
Proof.
  induction t as [b|id lo (F1 & S1) hi (F2 & S2)].
  - exists 1. intros fuel tot Hf a n I0 D. start Hf. inversion D; subst. cbn [m_print]. destruct b; apply wp_val; reflexivity.
  - exists (S (F1 + F2)). intros fuel tot Hf a n I0 D. start Hf. inversion D; subst. cbn [m_print].
    getn. step S1; [enf Hf|eassumption|eassumption|]. getn. step S2; [enf Hf|eassumption|eassumption|].
    subst. apply wp_val. reflexivity.
Qed.

Definition lpden (a : arena nat) (x : presult znode) (y : presult (dd nat)) : Prop :=
  match x, y with
  | POk r n, POk r' t => r = r' /\ nden a n t
  | PErr, PErr => True
  | _, _ => False
  end.
Lemma lpden_ext a b x y : ext a b -> lpden a x y -> lpden b x y.
Proof. destruct x, y; simpl; auto. intros E [A B]. split; auto. eapply nden_ext; eauto. Qed.
Lemma wp_lpden tot (a : arena nat) x y : lpden a x y -> wp tot a (Ret x) (fun a' r => lpden a' r y).
Proof. intros D a' E _. eapply lpden_ext; eauto. Qed.

Lemma m_parse_spec dep : forall i, node_parser text_always text_never branch dep i <> PStuck ->
  exists F, forall fuel tot, enough F fuel tot -> forall a, AInv a ->
  wp tot a (m_parse fuel i) (fun a' r => lpden a' r (node_parser text_always text_never branch dep i)).
Proof.
  induction dep as [|dep IH]; intros i NS; [exfalso; apply NS; reflexivity|].
  cbn [node_parser] in *.
  destruct (tag text_always i) as [r|] eqn:T1.
  { exists 1. intros fuel tot Hf a I0. start Hf. cbn [m_parse]. rewrite T1. apply wp_lpden. split; [reflexivity|constructor]. }
  destruct (tag text_never i) as [r|] eqn:T2.
  { exists 1. intros fuel tot Hf a I0. start Hf. cbn [m_parse]. rewrite T1, T2. apply wp_lpden. split; [reflexivity|constructor]. }
  destruct (tag [40%N] i) as [i1|] eqn:T3.
  2:{ exists 1. intros fuel tot Hf a I0. start Hf. cbn [m_parse]. rewrite T1, T2, T3. apply wp_lpden. exact I. }
  destruct (ws node_id i1) as [i2 id| |] eqn:E2; cbn [ParserModel.pbind] in *; [| |congruence].
  2:{ exists 1. intros fuel tot Hf a I0. start Hf. cbn [m_parse]. rewrite T1, T2, T3, E2. apply wp_lpden. exact I. }
  unfold ws in NS |- *. set (pa := node_parser text_always text_never branch dep) in *.
  assert (N1 : pa (sp i2) <> PStuck) by (intros X; rewrite X in NS; apply NS; reflexivity).
  destruct (IH _ N1) as (F1 & S1). fold pa in S1.
  destruct (pa (sp i2)) as [i3 tl| |] eqn:P1; cbn [ParserModel.pbind] in *; [| |congruence].
  2:{ exists (S F1). intros fuel tot Hf a I0. start Hf. cbn [m_parse]. rewrite T1, T2, T3, E2.
      eapply (@wp_bind nat _); [eapply S1; [exact Hf|exact I0]|intros a1 x E1 I1 D1; cbv beta in D1|exact I0].
      destruct x; simpl in D1; try contradiction. apply wp_lpden. exact I. }
  assert (N2 : pa (sp (sp i3)) <> PStuck) by (intros X; rewrite X in NS; apply NS; reflexivity).
  destruct (IH _ N2) as (F2 & S2). fold pa in S2.
  destruct (pa (sp (sp i3))) as [i4 th| |] eqn:P2; cbn [ParserModel.pbind] in *; [| |congruence].
  2:{ exists (S (F1 + F2)). intros fuel tot Hf a I0. start Hf. cbn [m_parse]. rewrite T1, T2, T3, E2.
      eapply (@wp_bind nat _); [eapply S1; [enf Hf|exact I0]|intros a1 x E1 I1 D1; cbv beta in D1|exact I0].
      destruct x; simpl in D1; try contradiction. destruct D1 as [-> D1].
      eapply (@wp_bind nat _); [eapply S2; [enf Hf|exact I1]|intros a2 y E3 I2 D2; cbv beta in D2|exact I1].
      destruct y; simpl in D2; try contradiction. apply wp_lpden. exact I. }
  destruct (tag [41%N] (sp i4)) as [r|] eqn:T4.
  2:{ exists (S (F1 + F2)). intros fuel tot Hf a I0. start Hf. cbn [m_parse]. rewrite T1, T2, T3, E2.
      eapply (@wp_bind nat _); [eapply S1; [enf Hf|exact I0]|intros a1 x E1 I1 D1; cbv beta in D1|exact I0].
      destruct x; simpl in D1; try contradiction. destruct D1 as [-> D1].
      eapply (@wp_bind nat _); [eapply S2; [enf Hf|exact I1]|intros a2 y E3 I2 D2; cbv beta in D2|exact I1].
      destruct y; simpl in D2; try contradiction. destruct D2 as [-> D2]. rewrite T4. apply wp_lpden. exact I. }
  destruct (branch (N.to_nat id) tl th) as [t|] eqn:B; [|congruence].
  destruct (m_branch_spec' _ _ _ _ B) as (F3 & S3).
  exists (S (F1 + F2 + F3)). intros fuel tot Hf a I0. start Hf. cbn [m_parse]. rewrite T1, T2, T3, E2.
  eapply (@wp_bind nat _); [eapply S1; [enf Hf|exact I0]|intros a1 x E1 I1 D1; cbv beta in D1|exact I0].
  destruct x; simpl in D1; try contradiction. destruct D1 as [-> D1].
  eapply (@wp_bind nat _); [eapply S2; [enf Hf|exact I1]|intros a2 y E3 I2 D2; cbv beta in D2|exact I1].
  destruct y; simpl in D2; try contradiction. destruct D2 as [-> D2]. rewrite T4. lift E3.
  step S3; [enf Hf|eassumption|simpl; eassumption|simpl; eassumption|].
  apply wp_lpden. split; [reflexivity|assumption].
Qed.

(** what every forest a thread can hold looks like *)
Definition loadable {T} `{Ord T} (f : forest T) : Prop :=
  exists occ, map_ok occ /\ f_univ f = univ_of occ /\ zwf 0 (f_root f).

Section Load.
  Context {T : Type} `{OT : Ord T}.
  Implicit Types f g : forest T.

  Lemma Canon_loadable f : Canon f -> loadable f.
  Proof. intros (occ & X). exists occ. repeat split; apply X. Qed.
  Lemma Reach_loadable f : Reach f -> loadable f.
  Proof. intros R. apply Canon_loadable, Reach_Canon, R. Qed.
  Lemma deserialized_loadable h d f : f_deserialize h d = Some f -> loadable f.
  Proof. exact (deserialized_canon h d f). Qed.

  (** a forest a thread can hold: the result of API calls, or one that was loaded *)
  Definition origin f : Prop := Reach f \/ exists h d, f_deserialize h d = Some f.
  Lemma origin_loadable f : origin f -> loadable f.
  Proof. intros [R|(h & d & E)]; [apply Reach_loadable; exact R|exact (deserialized_loadable h d f E)]. Qed.

  Lemma m_fmt_inner_spec show (u : universe T) t : forall indent,
    exists F, forall fuel tot, enough F fuel tot -> forall a n, AInv a -> nden a n t ->
    wpp tot (f_fmt_inner show u t indent = None) a (m_fmt_inner show fuel u n indent)
      (fun _ r => f_fmt_inner show u t indent = Some r).
  Proof.
    induction t as [b|id lo IHl hi IHh]; intros indent.
    - exists 1. intros fuel tot Hf a n I0 D. start Hf. inversion D; subst. cbn [m_fmt_inner f_fmt_inner].
      destruct b; apply (@wpp_ret nat _); reflexivity.
    - destruct (IHl (S indent)) as (F1 & S1). destruct (IHh (S indent)) as (F2 & S2).
      exists (S (F1 + F2)). intros fuel tot Hf a n I0 D. start Hf. inversion D; subst. cbn [m_fmt_inner f_fmt_inner].
      destruct (get_item u id) as [item|]; cbn [bind]; [|reflexivity].
      eapply (@wpp_bind_wp nat _); [eapply (@wp_get_node nat _); eassumption|intros a1 l E1 I1 D1; cbv beta in D1; lift E1|exact I0].
      eapply (@wpp_bind nat _); [|eapply S1; [enf Hf|exact I1|exact D1]|intros a2 sl E2 I2 D2; cbv beta in D2; lift E2|exact I1].
      { intros ->. reflexivity. }
      rewrite D2. cbn [bind].
      eapply (@wpp_bind_wp nat _); [eapply (@wp_get_node nat _); eassumption|intros a3 hh E3 I3 D3; cbv beta in D3; lift E3|exact I2].
      eapply (@wpp_bind nat _); [|eapply S2; [enf Hf|exact I3|exact D3]|intros a4 sh E4 I4 D4; cbv beta in D4; lift E4|exact I3].
      { intros ->. reflexivity. }
      rewrite D4. cbn [bind]. apply (@wpp_ret nat _). reflexivity.
  Qed.

  Lemma translate_zwf (old new : universe T) t : forall t', translate_root old new t = Some t' -> zwf 0 t'.
  Proof.
    induction t as [b|id lo IHl hi IHh]; intros t' E; cbn [translate_root] in E; [injection E as <-; constructor|].
    inv_bind E. inv_bind E. inv_bind E. inv_bind E.
    destruct (branch_total 0 x2 x x0) as (r & Er & W & _); [lia|auto|auto|]. congruence.
  Qed.
  Lemma m_translate_spec (old new : universe T) t :
    exists F, forall fuel tot, enough F fuel tot -> forall a n, AInv a -> nden a n t ->
    wpp tot (translate_root old new t = None) a (m_translate_root fuel old new n)
      (fun a' m => exists t', translate_root old new t = Some t' /\ nden a' m t').
  Proof.
    induction t as [b|id lo IHl hi IHh].
    - exists 1. intros fuel tot Hf a n I0 D. start Hf. inversion D; subst. cbn [m_translate_root translate_root].
      apply (@wpp_ret nat _). intros a' E _. exists (Leaf b). split; [reflexivity|constructor].
    - destruct IHl as (F1 & S1). destruct IHh as (F2 & S2).
      assert (X : exists F3, forall item id' l h r, get_item old id = Some item -> get_priority new item = Some id' ->
        translate_root old new lo = Some l -> translate_root old new hi = Some h -> branch id' l h = Some r ->
        forall fuel tot, enough F3 fuel tot -> forall a x y, AInv a -> aden a x l -> aden a y h ->
          wp tot a (m_branch fuel id' x y) (fun a' n => nden a' n r)).
      { destruct (get_item old id) as [item|]; [|exists 0; discriminate].
        destruct (get_priority new item) as [id'|] eqn:Ep; [|exists 0; intros it id' l h r [= <-]; congruence].
        destruct (translate_root old new lo) as [l|]; [|exists 0; discriminate].
        destruct (translate_root old new hi) as [h|]; [|exists 0; discriminate].
        destruct (branch id' l h) as [r|] eqn:Eb.
        - destruct (m_branch_spec' _ _ _ _ Eb) as (F & SF). exists F. intros it i2 l2 h2 r2 [= <-] Ep2 [= <-] [= <-] Eb2.
          assert (i2 = id') by congruence. subst i2. assert (r2 = r) by congruence. subst r2. exact SF.
        - exists 0. intros it i2 l2 h2 r2 [= <-] Ep2 [= <-] [= <-] Eb2. congruence. }
      destruct X as (F3 & S3). exists (S (F1 + F2 + F3)). intros fuel tot Hf a n I0 D. start Hf. inversion D; subst. cbn [m_translate_root].
      eapply (@wpp_bind_wp nat _); [eapply (@wp_get_node nat _); eassumption|intros a1 l E1 I1 D1; cbv beta in D1; lift E1|exact I0].
      cbn [translate_root].
      eapply (@wpp_bind nat _); [|eapply S1; [enf Hf|exact I1|exact D1]|intros a2 sl E2 I2 (tl & Etl & D2); lift E2|exact I1].
      { intros ->. reflexivity. }
      rewrite Etl. cbn [bind].
      eapply (@wpp_bind_wp nat _); [eapply (@wp_get_node nat _); eassumption|intros a3 hh E3 I3 D3; cbv beta in D3; lift E3|exact I2].
      eapply (@wpp_bind nat _); [|eapply S2; [enf Hf|exact I3|exact D3]|intros a4 sh E4 I4 (th & Eth & D4); lift E4|exact I3].
      { intros ->. reflexivity. }
      rewrite Eth. cbn [bind].
      destruct (get_item old id) as [item|] eqn:Ei; cbn [bind]; [|reflexivity].
      destruct (get_priority new item) as [id'|] eqn:Ep; cbn [bind]; [|reflexivity].
      destruct (branch_total 0 id' tl th) as (r & Eb & _ & _); [lia|eapply translate_zwf; eauto|eapply translate_zwf; eauto|].
      rewrite Eb.
      eapply (@wpp_mono nat _ _ _ False); [intros []| |apply wp_wpp; eapply (S3 item id' tl th r); eauto; enf Hf].
      cbv beta. intros a' x _ _ Dx. exists r. split; [reflexivity|exact Dx].
  Qed.

  Lemma m_binop_panics op m : (forall t1 t2, op2_spec op m t1 t2) ->
    (forall a b, zwf 0 a -> zwf 0 b -> exists r, op a b = Some r) ->
    forall h f g,
    exists F, forall fuel tot, enough F fuel tot -> forall a mf mg, AInv a -> fden a mf f -> fden a mg g ->
    wpp tot (f_binop op h f g = None) a (m_binop m fuel h mf mg) (fun a' m => exists r, f_binop op h f g = Some r /\ fden a' m r).
  Proof.
    intros Hop Htot h f g. destruct (f_binop op h f g) as [r|] eqn:E.
    - destruct (m_binop_spec op m Hop h f g r E) as (F & S1). exists F. intros fuel tot Hf a mf mg I0 D1 D2.
      eapply (@wpp_mono nat _ _ _ False); [intros []| |apply wp_wpp; apply S1; auto]. cbv beta. eauto.
    - unfold f_binop, translate_roots in E. set (u := u_merge h site_merge (f_univ f) (f_univ g)) in E.
      destruct (m_translate_spec (f_univ f) u (f_root f)) as (F1 & S1).
      destruct (m_translate_spec (f_univ g) u (f_root g)) as (F2 & S2).
      exists (F1 + F2). intros fuel tot Hf a mf mg I0 [D1 Q1] [D2 Q2]. unfold m_binop. rewrite Q1, Q2. fold u.
      eapply (@wpp_bind_wp nat _); [eapply (@wp_get_node nat _); eassumption|intros a1 n1 E1 I1 X1; cbv beta in X1; lift E1|exact I0].
      eapply (@wpp_bind_wp nat _); [eapply (@wp_get_node nat _); eassumption|intros a2 n2 E2 I2 X2; cbv beta in X2; lift E2|exact I1].
      cbv zeta.
      eapply (@wpp_bind nat _); [reflexivity|eapply S1; [enf Hf|exact I2|eassumption]|intros a3 r1 E3 I3 (t1 & Et1 & D3); lift E3|exact I2].
      eapply (@wpp_bind nat _); [reflexivity|eapply S2; [enf Hf|exact I3|eassumption]|intros a4 r2 E4 I4 (t2 & Et2 & D4); lift E4|exact I3].
      exfalso. rewrite Et1, Et2 in E. cbn [bind] in E.
      destruct (Htot t1 t2) as (r & Er); [eapply translate_zwf; eauto|eapply translate_zwf; eauto|].
      rewrite Er in E. cbn [bind] in E. unfold f_canonical in E. rewrite node_trees_paths in E. cbn [bind] in E.
      destruct (many_spec h (map (get_items u) (paths r))) as (q & o & Eq & _). congruence.
  Qed.

  Lemma zunion_total a b : zwf 0 a -> zwf 0 b -> exists r, union a b = Some r.
  Proof. intros A B. destruct (union_spec a b 0 A B) as (r & E & _). eauto. Qed.
  Lemma zintersect_total a b : zwf 0 a -> zwf 0 b -> exists r, intersect a b = Some r.
  Proof. intros A B. destruct (intersect_spec a b 0 A B) as (r & E & _). eauto. Qed.
  Lemma zproduct_total a b : zwf 0 a -> zwf 0 b -> exists r, product a b = Some r.
  Proof. intros A B. destruct (product_spec a b 0 A B) as (r & E & _). eauto. Qed.

  (** the calls that may panic *)
  Definition is_binary (c : call T) : bool :=
    match c with CUnion _ _ _ | CIntersect _ _ _ | CProduct _ _ _ => true | _ => false end.

  Lemma reg_origin fs i : Forall origin fs -> origin (reg fs i).
  Proof.
    intros Hf. unfold reg. destruct (nth_in_or_default i fs f_empty) as [I0| ->].
    - rewrite Forall_forall in Hf. auto.
    - left. constructor.
  Qed.
  Lemma canonical_origin h root u f : f_canonical h root u = Some f -> origin f.
  Proof.
    unfold f_canonical. intros E. inv_bind E. left. eapply R_many; eauto.
  Qed.
  Lemma canonical_total h root (u : universe T) : exists f, f_canonical h root u = Some f /\ origin f.
  Proof.
    unfold f_canonical. rewrite node_trees_paths. cbn [bind].
    destruct (many_spec h (map (get_items u) (paths root))) as (q & o & Eq & _). exists q. split; [exact Eq|].
    left. eapply R_many; eauto.
  Qed.

  (** a binary call gives a origin forest if it gives one, any other call gives one *)
  Lemma run_call_origin c fs : Forall origin fs ->
    (forall y, run_call fs c = Some y -> Forall origin (fst y)) /\
    (is_binary c = false -> exists y, run_call fs c = Some y).
  Proof.
    intros Hf.
    assert (N0 : forall o, (forall f, o = Some f -> origin f) -> forall y, new o fs = Some y -> Forall origin (fst y)).
    { intros [f|] Hr y E; [|discriminate]. inversion E; subst. simpl. apply Forall_app. split; auto. }
    assert (N1 : forall o, (exists f, o = Some f /\ origin f) ->
              (forall y, new o fs = Some y -> Forall origin (fst y)) /\ (false = false -> exists y, new o fs = Some y)).
    { intros o (f & -> & K). split; [apply N0; intros g [= <-]; exact K|]. intros _. eexists; reflexivity. }
    assert (O1 : forall o : obs T, (forall y, Some (fs, o) = Some y -> Forall origin (fst y)) /\ (false = false -> exists y, Some (fs, o) = Some y)).
    { intros o. split; [intros y [= <-]; exact Hf|]. intros _. eauto. }
    pose proof (fun i => reg_origin fs i Hf) as Rg.
    destruct c as [|h items|h rows|h items|h i j|h i j|h i j|h i e|h i e|h i es|h i es|i|i|i|h i|i j]; cbn [run_call is_binary].
    - apply N1. exists f_empty. split; [reflexivity|]. left. constructor.
    - apply N1. rewrite unit_many. destruct (many_spec h [items]) as (r & o & E & _). exists r. split; [exact E|]. left. eapply R_many; eauto.
    - apply N1. destruct (many_spec h rows) as (r & o & E & _). exists r. split; [exact E|]. left. eapply R_many; eauto.
    - apply N1. rewrite unique_many. destruct (many_spec h (map (fun x => [x]) items)) as (r & o & E & _). exists r. split; [exact E|].
      left. eapply R_many; eauto.
    - split; [|discriminate]. apply N0. intros f E. unfold f_union, f_binop in E. inv_bind E. destruct x as [[u r1] r2]. inv_bind E. eapply canonical_origin; eauto.
    - split; [|discriminate]. apply N0. intros f E. unfold f_intersect, f_binop in E. inv_bind E. destruct x as [[u r1] r2]. inv_bind E. eapply canonical_origin; eauto.
    - split; [|discriminate]. apply N0. intros f E. unfold f_product, f_binop in E. inv_bind E. destruct x as [[u r1] r2]. inv_bind E. eapply canonical_origin; eauto.
    - apply N1. destruct (origin_loadable _ (Rg i)) as (occ & K & U & W). unfold f_subset. destruct (get_priority _ e) as [p|].
      + destruct (node_subset_any (f_root (reg fs i)) p 0 W) as (r & Er & _). rewrite Er. cbn [bind]. apply canonical_total.
      + eexists; split; [reflexivity|]. left. constructor.
    - apply N1. destruct (origin_loadable _ (Rg i)) as (occ & K & U & W). unfold f_subset_not. destruct (get_priority _ e) as [p|].
      + destruct (node_subset_not_spec (f_root (reg fs i)) p 0 W) as (r & Er & _). rewrite Er. cbn [bind]. apply canonical_total.
      + eexists; split; [reflexivity|]. apply Rg.
    - apply N1. destruct (origin_loadable _ (Rg i)) as (occ & K & U & W). unfold f_subset_all, f_subset_many. destruct es as [|e0 es0]; [eexists; split; [reflexivity|apply Rg]|].
      set (l := e0 :: es0). destruct (Nat.eqb_spec (length l) (length (get_priorities (f_univ (reg fs i)) l))) as [El|El]; cbn [negb].
      + assert (Hne : get_priorities (f_univ (reg fs i)) l <> []) by (intros E; rewrite E in El; discriminate El).
        destruct (node_subset_all_any (f_root (reg fs i)) 0 _ W Hne) as (r & Er & _). rewrite Er. cbn [bind]. apply canonical_total.
      + eexists; split; [reflexivity|]. left. constructor.
    - apply N1. destruct (origin_loadable _ (Rg i)) as (occ & K & U & W). unfold f_subset_none, f_subset_many. destruct es as [|e0 es0]; [eexists; split; [reflexivity|apply Rg]|].
      set (l := e0 :: es0). destruct (Nat.eqb_spec (length l) (length (get_priorities (f_univ (reg fs i)) l))) as [El|El]; cbn [negb].
      + assert (Hne : get_priorities (f_univ (reg fs i)) l <> []) by (intros E; rewrite E in El; discriminate El).
        destruct (node_subset_none_sub (f_root (reg fs i)) 0 _ W Hne) as (r & Er & _). rewrite Er. cbn [bind]. apply canonical_total.
      + eexists; split; [reflexivity|]. apply Rg.
    - rewrite f_trees_tl. apply O1.
    - unfold f_len. rewrite node_trees_paths. apply O1.
    - unfold f_is_empty. rewrite node_trees_paths. apply O1.
    - apply O1.
    - apply O1.
  Qed.

  Lemma binary_call op m h i j fs :
    (forall t1 t2, op2_spec op m t1 t2) -> (forall a b, zwf 0 a -> zwf 0 b -> exists r, op a b = Some r) ->
    let v := new (f_binop op h (reg fs i) (reg fs j)) fs in
    exists F, forall fuel tot, enough F fuel tot -> forall a ms, AInv a -> rden a ms fs ->
    wpp tot (v = None) a (mnew (m_binop m fuel h (mreg ms i) (mreg ms j)) ms) (fun a' x => exists y, v = Some y /\ sden a' x y).
  Proof.
    intros Hop Htot v. destruct (m_binop_panics op m Hop Htot h (reg fs i) (reg fs j)) as (F & S1).
    exists F. intros fuel tot Hf a ms I0 D. unfold mnew.
    eapply (@wpp_bind nat _); [|eapply S1; [exact Hf|exact I0|apply rden_reg; auto|apply rden_reg; auto]|intros a1 r E1 I1 (f & Ef & D1)|exact I0].
    { unfold v. intros ->. reflexivity. }
    unfold v. rewrite Ef. apply (@wpp_ret nat _). intros a2 E2 I2. eexists. split; [reflexivity|]. split; simpl; [|reflexivity].
    apply Forall2_app; [eapply rden_ext; [|exact D]; eapply ext_trans; eauto|]. constructor; [|constructor]. eapply fden_ext; eauto.
  Qed.

  Lemma m_call_panics c fs : Forall origin fs ->
    exists F, forall fuel tot, enough F fuel tot -> forall a ms, AInv a -> rden a ms fs ->
    wpp tot (run_call fs c = None) a (m_call fuel ms c) (fun a' x => exists y, run_call fs c = Some y /\ sden a' x y).
  Proof.
    intros Hf. destruct (is_binary c) eqn:B.
    - destruct c as [|h items|h rows|h items|h i j|h i j|h i j|h i e|h i e|h i es|h i es|i|i|i|h i|i j]; try discriminate; cbn [run_call m_call].
      + exact (binary_call union m_union h i j fs m_union_spec zunion_total).
      + exact (binary_call intersect m_intersect h i j fs m_intersect_spec zintersect_total).
      + exact (binary_call product m_product h i j fs m_product_spec zproduct_total).
    - destruct (proj2 (run_call_origin c fs Hf) B) as (y & E). rewrite E.
      destruct (m_call_spec c fs y E) as (F & S1). exists F. intros fuel tot Hff a ms I0 D.
      eapply (@wpp_mono nat _ _ _ False); [intros []| |apply wp_wpp; apply S1; auto]. cbv beta. eauto.
  Qed.

  Lemma l_call_keeps fs c y : Forall origin fs -> l_call fs c = Some y -> Forall origin (fst y).
  Proof.
    intros Hf. destruct c as [c|i|h d|show i]; cbn [l_call]; intros E.
    - inv_bind E. injection E as <-. simpl. eapply run_call_origin; eauto.
    - injection E as <-. exact Hf.
    - destruct (f_deserialize h d) as [f|] eqn:Ed; injection E as <-; simpl; auto.
      apply Forall_app. split; auto. constructor; [|constructor]. right; eauto.
    - inv_bind E. injection E as <-. exact Hf.
  Qed.

  Lemma m_lcall_refines c fs : Forall origin fs ->
    exists F, forall fuel tot, enough F fuel tot -> forall a ms, AInv a -> rden a ms fs ->
    wpp tot (l_call fs c = None) a (m_lcall fuel ms c) (fun a' x => exists y, l_call fs c = Some y /\ sden a' x y).
  Proof.
    intros Hf. destruct c as [c|i|h d|show i]; cbn [l_call m_lcall].
    - destruct (m_call_panics c fs Hf) as (F & S1). exists F. intros fuel tot Hff a ms I0 D.
      eapply (@wpp_bind nat _); [|eapply S1; [exact Hff|exact I0|exact D]|intros a1 r E1 I1 (y & Ey & D1 & Q1)|exact I0].
      { intros ->. reflexivity. }
      rewrite Ey. cbn [bind]. apply (@wpp_ret nat _). intros a2 E2 I2. eexists; split; [reflexivity|]. split; simpl; [eapply rden_ext; eauto|congruence].
    - destruct (m_print_spec (f_root (reg fs i))) as (F & S1). exists F. intros fuel tot Hff a ms I0 D. apply wp_wpp.
      pose proof (rden_reg a ms fs i I0 D) as [Dr Qr].
      eapply (@wp_bind nat _); [eapply (@wp_get_node nat _); eassumption|intros a1 n1 E1 I1 X1; cbv beta in X1|exact I0].
      eapply (@wp_bind nat _); [eapply S1; [exact Hff|exact I1|exact X1]|intros a2 s E2 I2 X2; cbv beta in X2|exact I1]. subst s.
      apply (@wp_ret nat _). intros a3 E3 I3. eexists; split; [reflexivity|]. split; simpl.
      + eapply rden_ext; [|exact D]. eapply ext_trans; [exact E1|]. eapply ext_trans; eauto.
      + rewrite Qr. reflexivity.
    - pose proof (C23_total_pf (fst d)) as NS. unfold f_deserialize. unfold parse_node_string in *. cbv zeta in *.
      set (i := as_bytes (trim (fst d))) in *.
      assert (NS' : node_parser text_always text_never branch (S (length i)) i <> PStuck)
        by (intros X; rewrite X in NS; apply NS; reflexivity).
      destruct (m_parse_spec _ _ NS') as (F & S1). exists F. intros fuel tot Hff a ms I0 D. apply wp_wpp.
      eapply (@wp_bind nat _); [eapply S1; [exact Hff|exact I0]|intros a1 x E1 I1 D1; cbv beta in D1|exact I0].
      destruct (node_parser text_always text_never branch (S (length i)) i) as [rest t| |]; destruct x as [rest' n| |]; simpl in D1; try contradiction;
        cbn [finish].
      + destruct D1 as [_ D1].
        eapply (@wp_bind nat _); [eapply (@wp_intern2 nat _); exact D1|intros a2 j E2 I2 D2; cbv beta in D2|exact I1].
        apply (@wp_ret nat _). intros a3 E3 I3. eexists; split; [reflexivity|]. split; simpl; auto. apply Forall2_app.
        * eapply rden_ext; [|exact D]. eapply ext_trans; [eassumption|]. eapply ext_trans; eassumption.
        * constructor; [|constructor]. split; [|reflexivity]. eapply den_ext; eauto.
      + apply (@wp_ret nat _). intros a3 E3 I3. eexists; split; [reflexivity|]. split; simpl; auto. eapply rden_ext; [|exact D]. eapply ext_trans; eauto.
    - destruct (m_fmt_inner_spec show (f_univ (reg fs i)) (f_root (reg fs i)) 1) as (F & S1). exists F.
      intros fuel tot Hff a ms I0 D. pose proof (rden_reg a ms fs i I0 D) as [Dr Qr].
      set (v := f_fmt_inner show (f_univ (reg fs i)) (f_root (reg fs i)) 1) in *. unfold m_debug, f_debug. fold v. rewrite Qr.
      eapply (@wpp_bind nat _ _ _ _ (v = None)); [intros ->; reflexivity| |intros a4 s E4 I4 X4|exact I0].
      { eapply (@wpp_bind_wp nat _); [eapply (@wp_get_node nat _); eassumption|intros a1 n1 E1 I1 X1; cbv beta in X1|exact I0].
        eapply (@wpp_bind nat _ _ _ _ (v = None)); [exact (fun x => x)|eapply S1; [exact Hff|exact I1|exact X1]|intros a2 s E2 I2 X2; cbv beta in X2|exact I1].
        apply (@wpp_ret nat _). intros a3 E3 I3. instantiate (1 := fun _ r => v = Some (skipn 1 r) /\ r = [10%N] ++ skipn 1 r).
        split; [exact X2|reflexivity]. }
      destruct X4 as [X4 X5]. rewrite X4. cbn [bind]. rewrite <- X5.
      apply (@wpp_ret nat _). intros a5 E5 I5. eexists; split; [reflexivity|]. split; simpl; auto.
      eapply rden_ext; [|exact D]. eapply ext_trans; eauto.
  Qed.
End Load.
