(** Zdd2Forest: forests.  Everything reachable is [f_many] of its own trees;
    semantics of every operation. *)
From Coq Require Import List Arith Lia Bool Permutation Sorted.
From Verif Require Import Base DD Spec Zdd2Model Zdd2Node Zdd2Node2 Zdd2Univ.
Import ListNotations.

Lemma NoDup_map_inj {A B} (f : A -> B) l :
  (forall x y, In x l -> In y l -> f x = f y -> x = y) -> NoDup l -> NoDup (map f l).
Proof.
  induction l as [|a l IH]; intros Hi Hn; simpl; constructor.
  - inversion Hn; subst. intros Hx. apply in_map_iff in Hx. destruct Hx as (b & Hb & Hin).
    assert (b = a) by (apply Hi; simpl; auto). subst. contradiction.
  - inversion Hn; subst. apply IH; auto. intros; apply Hi; simpl; auto.
Qed.

Section Forest.
  Context {T : Type} `{Ord T}.

  Lemma count_filter (ts : list (list T)) x : count ts x = length (filter (memb x) ts).
  Proof. induction ts as [|t ts IH]; simpl; auto. destruct (memb x t); simpl; lia. Qed.

  Lemma count_pos (ts : list (list T)) x : 0 < count ts x <-> exists t, In t ts /\ In x t.
  Proof.
    induction ts as [|t ts IH]; simpl.
    - split; [lia|]. intros (? & [] & _).
    - destruct (memb x t) eqn:E.
      + apply memb_spec in E. split; [|lia]. intros _. exists t; auto.
      + apply memb_false in E. simpl. rewrite IH. split.
        * intros (u & Hu & Hx). exists u; auto.
        * intros (u & [->|Hu] & Hx); [contradiction|]. exists u; auto.
  Qed.

  Lemma count_perm (ts us : list (list T)) x : Permutation ts us -> count ts x = count us x.
  Proof.
    induction 1; simpl; try lia.
  Qed.

  Lemma memb_iff (x : T) l l' : (In x l <-> In x l') -> memb x l = memb x l'.
  Proof.
    intros Hl. destruct (memb x l) eqn:E1; destruct (memb x l') eqn:E2; auto.
    - apply memb_spec in E1. apply memb_false in E2. tauto.
    - apply memb_spec in E2. apply memb_false in E1. tauto.
  Qed.

  (** ** encoding a row *)
  Definition enc (u : universe T) (row : list T) : list nat :=
    fold_left (fun s p => ins_s p s) (get_priorities u row) [].

  Lemma enc_asc u row : asc 0 (enc u row).
  Proof. unfold enc. apply fold_ins_s_asc. exact I. Qed.

  Lemma enc_in u row p : In p (enc u row) <-> exists x, In x row /\ get_priority u x = Some p.
  Proof.
    unfold enc. rewrite fold_ins_s_in. unfold get_priorities. rewrite filter_map_in.
    split; [intros [?|[]]; auto|auto].
  Qed.

  Lemma get_priorities_node_spec u row : row <> [] ->
    get_priorities_node u row = Some (chain (enc u row)).
  Proof.
    intros Hr. unfold get_priorities_node. destruct row; [congruence|]. simpl length.
    cbv iota beta. change Always with (chain []). rewrite fold_branch_chain; [reflexivity|exact I].
  Qed.

  Section Known.
    Variable occ : list (T * nat).
    Hypothesis Hok : map_ok occ.
    Let u := univ_of occ.

    Lemma items_in p x : In x (get_items u p) <-> exists q, In q p /\ get_item u q = Some x.
    Proof. unfold get_items. rewrite sort_in, filter_map_in. reflexivity. Qed.

    Lemma items_ssorted p : asc 0 p -> ssorted (get_items u p).
    Proof.
      intros Hp. apply sort_ssorted. apply asc_ssorted in Hp. apply ssorted_NoDup in Hp.
      induction p as [|q p IH]; simpl; [constructor|].
      inversion Hp; subst. destruct (get_item u q) eqn:E; auto.
      constructor; auto. rewrite filter_map_in. intros (q' & Hq' & E').
      assert (q' = q) by (eapply get_item_inj; eauto). subst. contradiction.
    Qed.

    Lemma items_enc row : (forall x, In x row -> In x (map fst occ)) ->
      get_items u (enc u row) = filter_repeats row.
    Proof.
      intros Hk. apply ssorted_ext.
      - apply items_ssorted, enc_asc.
      - apply filter_repeats_ssorted.
      - intros x. rewrite items_in, filter_repeats_in. split.
        + intros (q & Hq & Hx). apply enc_in in Hq. destruct Hq as (y & Hy & Hp).
          apply (get_priority_item occ y q Hok) in Hp. unfold u in *. congruence.
        + intros Hx. destruct (get_priority_known occ x Hok (Hk x Hx)) as (p & Hp).
          exists p. split; [apply enc_in; eauto|]. apply get_priority_item; auto.
    Qed.

    Definition known (p : list nat) := forall q, In q p -> q < length occ.

    Lemma enc_items p : asc 0 p -> known p -> enc u (get_items u p) = p.
    Proof.
      intros Ha Hk. eapply asc_ext; [apply enc_asc|exact Ha|].
      intros q. rewrite enc_in. split.
      - intros (x & Hx & Hp). apply items_in in Hx. destruct Hx as (q' & Hq' & E).
        apply (get_priority_item occ x q Hok) in Hp. 
        assert (q = q') by (eapply get_item_inj; eauto). congruence.
      - intros Hq. destruct (get_item_known occ q (Hk q Hq)) as (x & Hx).
        exists x. split; [apply items_in; eauto|]. apply get_priority_item; auto.
    Qed.

    Lemma items_inj p p' : asc 0 p -> asc 0 p' -> known p -> known p' ->
      get_items u p = get_items u p' -> p = p'.
    Proof.
      intros. rewrite <- (enc_items p), <- (enc_items p'); auto. congruence.
    Qed.

    Lemma items_nil p : known p -> get_items u p = [] -> p = [].
    Proof.
      intros Hk Hn. destruct p as [|q p]; auto.
      destruct (get_item_known occ q (Hk q (or_introl eq_refl))) as (x & Hx).
      assert (In x (get_items u (q :: p))) by (apply items_in; exists q; simpl; auto).
      rewrite Hn in H0. destruct H0.
    Qed.

    Lemma enc_known row : known (enc u row).
    Proof.
      intros q Hq. apply enc_in in Hq. destruct Hq as (x & _ & Hp).
      eapply get_priority_in; eauto.
    Qed.

    Lemma enc_ext row row' : (forall x, In x row <-> In x row') -> enc u row = enc u row'.
    Proof.
      intros He. eapply asc_ext; [apply enc_asc|apply enc_asc|].
      intros q. rewrite !enc_in. split; intros (x & Hx & Hp); exists x; split; auto; apply He; auto.
    Qed.
  End Known.

  (** ** f_many *)
  Lemma many_fold (u : universe T) rows : forall acc, zwf 0 acc ->
    exists r, foldM (fun acc items => let! n := get_priorities_node u items in union acc n) rows acc = Some r
      /\ zwf 0 r /\ forall s, In s (paths r) <->
           In s (paths acc) \/ exists row, In row rows /\ row <> [] /\ s = enc u row.
  Proof.
    induction rows as [|row rows IH]; intros acc Hacc.
    - exists acc. split; [reflexivity|]. split; [exact Hacc|]. intros s. split; auto.
      intros [?|(? & [] & _)]; auto.
    - simpl foldM.
      assert (exists n, get_priorities_node u row = Some n /\ zwf 0 n /\
                forall s, In s (paths n) <-> row <> [] /\ s = enc u row) as (n & En & Wn & Pn).
      { destruct row as [|x row].
        - exists Never. split; [reflexivity|]. split; [exact I|]. simpl. intuition congruence.
        - eexists. split; [apply get_priorities_node_spec; congruence|].
          split; [apply chain_wf, enc_asc|]. intros s. rewrite chain_paths. simpl.
          intuition congruence. }
      rewrite En. simpl. destruct (union_spec acc n 0 Hacc Wn) as (a' & Ea & Wa & Pa).
      rewrite Ea. simpl. destruct (IH a' Wa) as (r & Er & Wr & Pr).
      exists r. split; [exact Er|]. split; [exact Wr|]. intros s. rewrite Pr, Pa, Pn.
      split.
      + intros [[?|[? ?]]|(row' & ? & ?)]; auto.
        * right. exists row; auto.
        * right. exists row'; auto.
      + intros [?|(row' & [<-|?] & ? & ?)]; auto. right. exists row'; auto.
  Qed.

  Definition rows_of (rows : list (list T)) := unique (map filter_repeats rows).
  Definition tl_ (f : forest T) : list (list T) := map (get_items (f_univ f)) (paths (f_root f)).

  Lemma f_trees_tl f : f_trees f = Some (tl_ f).
  Proof. unfold f_trees. rewrite node_trees_paths. reflexivity. Qed.

  (** what is known of a forest in canonical form *)
  Record canon (f : forest T) (occ : list (T * nat)) : Prop := {
    c_ok : map_ok occ;
    c_univ : f_univ f = univ_of occ;
    c_wf : zwf 0 (f_root f);
    c_known : forall p, In p (paths (f_root f)) -> known occ p;
    c_ne : ~ In [] (paths (f_root f));
    c_cnt : forall x, map_get occ x = opt_of (count (tl_ f) x)
  }.

  Lemma canon_tl f occ : canon f occ ->
    well_listed (tl_ f) /\ ~ In [] (tl_ f).
  Proof.
    intros [Hok Hu Hw Hk Hne Hc]. unfold tl_. rewrite Hu. repeat split.
    - intros t Ht. apply in_map_iff in Ht. destruct Ht as (p & <- & Hp).
      apply items_ssorted; auto. eapply zwf_paths; eauto.
    - apply NoDup_map_inj; [|eapply paths_NoDup; eauto].
      intros p q Hp Hq E. eapply items_inj; eauto; eapply zwf_paths; eauto.
    - intros Hin. apply in_map_iff in Hin. destruct Hin as (p & E & Hp).
      apply items_nil in E; auto. subst. contradiction.
  Qed.

  Lemma many_spec h rows : exists f occ, f_many h rows = Some f /\ canon f occ /\
    (forall s, In s (tl_ f) <-> s <> [] /\ In s (map filter_repeats rows)).
  Proof.
    unfold f_many. rewrite from_matrix_univ. fold (rows_of rows).
    set (occ := occ_of_rows (rows_of rows)). set (u := univ_of occ).
    assert (Hok : map_ok occ) by apply occ_of_rows_ok.
    assert (Hkey : forall row x, In row rows -> In x row -> In x (map fst occ)).
    { intros row x Hr Hx. apply occ_keys. apply in_concat. exists (filter_repeats row).
      split; [|apply filter_repeats_in; auto]. apply unique_in. apply in_map. auto. }
    destruct (many_fold u rows Never I) as (r & Er & Wr & Pr).
    rewrite Er. simpl. exists (mkF r u), occ. split; [reflexivity|].
    assert (Htl : forall s, In s (tl_ (mkF r u)) <-> s <> [] /\ In s (map filter_repeats rows)).
    { intros s. unfold tl_. simpl. rewrite !in_map_iff. split.
      - intros (p & <- & Hp). apply Pr in Hp. destruct Hp as [[]|(row & Hr & Hne & ->)].
        unfold u. rewrite items_enc by eauto. split.
        + intros E. apply (proj1 (filter_repeats_nil _)) in E. contradiction.
        + exists row; auto.
      - intros (Hs & row & <- & Hr). exists (enc u row). split.
        + apply items_enc; [exact Hok|]. eauto.
        + apply Pr. right. exists row. repeat split; auto. intros ->. auto. }
    split; [|exact Htl].
    assert (Hk : forall p, In p (paths r) -> known occ p).
    { intros p Hp. apply Pr in Hp. destruct Hp as [[]|(row & Hr & Hne & ->)].
      apply enc_known; auto. }
    assert (Hne : ~ In [] (paths r)).
    { intros Hp. pose proof Hp as Hp'. apply Pr in Hp. destruct Hp as [[]|(row & Hr & Hne & E)].
      destruct row as [|x row]; [congruence|].
      destruct (get_priority_known occ x Hok (Hkey _ x Hr (or_introl eq_refl))) as (p & Hp).
      assert (In p (enc u (x :: row))) by (apply enc_in; exists x; simpl; auto).
      rewrite <- E in H0. destruct H0. }
    constructor; simpl; auto.
    intros x. unfold occ. rewrite occ_of_rows_get. f_equal.
    rewrite cnt_concat.
    2:{ apply Forall_forall. intros s Hs. apply unique_in, in_map_iff in Hs.
        destruct Hs as (row & <- & _). apply filter_repeats_ssorted. }
    rewrite <- count_filter, !count_filter.
    apply Permutation_length. apply NoDup_Permutation.
    - apply NoDup_filter. apply unique_NoDup.
    - apply NoDup_filter. unfold tl_. simpl.
      apply NoDup_map_inj; [|eapply paths_NoDup; eauto].
      intros p q Hp Hq E. unfold u in E. apply items_inj in E; auto; eapply zwf_paths; eauto.
    - intros s. rewrite !filter_In, Htl. unfold rows_of. rewrite unique_in.
      split; [|tauto]. intros (? & E). repeat split; auto. intros ->. discriminate.
  Qed.

  Lemma canon_occ_ext f g occ occ' : canon f occ -> canon g occ' ->
    (forall s, In s (tl_ f) <-> In s (tl_ g)) -> occ = occ'.
  Proof.
    intros Hf Hg He. apply amap_ext; [apply Hf|apply Hg|].
    intros x. rewrite (c_cnt _ _ Hf), (c_cnt _ _ Hg). f_equal.
    apply count_perm. apply NoDup_Permutation; auto; [apply (canon_tl f occ Hf)|apply (canon_tl g occ' Hg)].
  Qed.

  (** a canonical forest is determined by its trees *)
  Lemma canon_ext f g occ occ' : canon f occ -> canon g occ' ->
    (forall s, In s (tl_ f) <-> In s (tl_ g)) -> f = g.
  Proof.
    intros Hf Hg He. assert (occ = occ') by (eapply canon_occ_ext; eauto). subst occ'.
    destruct f as [rf uf], g as [rg ug].
    pose proof (c_univ _ _ Hf) as Uf. pose proof (c_univ _ _ Hg) as Ug. simpl in *. subst uf ug.
    f_equal. eapply canonicity; [apply Hf|apply Hg|].
    pose proof (c_ok _ _ Hf) as Hok.
    assert (X : forall a b, canon (mkF a (univ_of occ)) occ -> canon (mkF b (univ_of occ)) occ ->
      (forall s, In s (tl_ (mkF a (univ_of occ))) -> In s (tl_ (mkF b (univ_of occ)))) ->
      forall s, In s (paths a) -> In s (paths b)).
    { intros a b Ha Hb Hab s Hs.
      assert (In (get_items (univ_of occ) s) (tl_ (mkF b (univ_of occ)))).
      { apply Hab. unfold tl_. simpl. apply in_map. auto. }
      unfold tl_ in H0. simpl in H0. apply in_map_iff in H0. destruct H0 as (p & E & Hp).
      apply items_inj in E; auto; [congruence| | | |].
      - exact (zwf_paths _ _ _ (c_wf _ _ Hb) Hp).
      - exact (zwf_paths _ _ _ (c_wf _ _ Ha) Hs).
      - exact (c_known _ _ Hb _ Hp).
      - exact (c_known _ _ Ha _ Hs). }
    intros s. split; intros Hs; [apply (X rf rg)|apply (X rg rf)]; auto; intros; apply He; auto.
  Qed.

  Definition Canon f := exists occ, canon f occ.

  Lemma many_Canon h rows f : f_many h rows = Some f -> Canon f.
  Proof.
    intros E. destruct (many_spec h rows) as (f' & occ & E' & Hc & _).
    assert (f = f') by congruence. subst. exists occ; auto.
  Qed.

  Lemma many_tl h rows f : f_many h rows = Some f ->
    forall s, In s (tl_ f) <-> s <> [] /\ In s (map filter_repeats rows).
  Proof.
    intros E. destruct (many_spec h rows) as (f' & occ & E' & Hc & Ht).
    assert (f = f') by congruence. subst. exact Ht.
  Qed.

  Lemma many_is f h rows : Canon f ->
    (forall s, In s (tl_ f) <-> s <> [] /\ In s (map filter_repeats rows)) ->
    f_many h rows = Some f.
  Proof.
    intros [occ Hf] Hs. destruct (many_spec h rows) as (f' & occ' & E & Hc & Ht).
    rewrite E. f_equal. eapply canon_ext; eauto. intros s. rewrite Hs. apply Ht.
  Qed.

  Lemma many_self f h : Canon f -> f_many h (tl_ f) = Some f.
  Proof.
    intros Hf. apply many_is; auto. destruct Hf as (occ & Hf).
    destruct (canon_tl _ _ Hf) as [[Hs _] Hne]. intros s. rewrite in_map_iff. split.
    - intros Hin. split; [intros ->; auto|]. exists s. split; auto. apply filter_repeats_id; auto.
    - intros (_ & t & <- & Ht). rewrite filter_repeats_id; auto.
  Qed.

  (** canonical form of any well-formed diagram over a canonical universe *)
  Lemma canonical_spec h root occ : map_ok occ -> zwf 0 root ->
    (forall p, In p (paths root) -> known occ p) ->
    exists f, f_canonical h root (univ_of occ) = Some f /\ Canon f /\
      forall s, In s (tl_ f) <-> s <> [] /\ exists p, In p (paths root) /\ s = get_items (univ_of occ) p.
  Proof.
    intros Hok Hw Hk. unfold f_canonical. rewrite node_trees_paths. simpl.
    destruct (many_spec h (map (get_items (univ_of occ)) (paths root))) as (f & o & E & Hc & Ht).
    exists f. split; [exact E|]. split; [exists o; auto|].
    intros s. rewrite Ht. rewrite map_map, in_map_iff. split.
    - intros (Hn & p & <- & Hp). split; auto. exists p. split; auto.
      apply filter_repeats_id. apply items_ssorted; auto. eapply zwf_paths; eauto.
    - intros (Hn & p & Hp & ->). split; auto. exists p. split; auto.
      apply filter_repeats_id. apply items_ssorted; auto. eapply zwf_paths; eauto.
  Qed.

  (** ** the other constructors *)
  Lemma empty_Canon : Canon (f_empty (T:=T)).
  Proof.
    exists []. constructor; simpl; auto; try tauto.
    constructor.
  Qed.

  Lemma from_items_univ h site (items : list T) : exists occ, map_ok occ /\
    from_items h site items = univ_of occ /\
    forall x, map_get occ x = if memb x items then Some 1 else None.
  Proof.
    unfold from_items. eexists. split; [|split; [apply from_occurrences_univ|]].
    - assert (X : forall m, map_ok m -> map_ok (fold_left (fun m x => map_insert m x 1) items m)).
      { induction items; simpl; auto. intros m Hm. apply IHitems. apply map_update_ok; auto. }
      apply X. constructor.
    - assert (X : forall m, map_ok m -> forall x, map_get (fold_left (fun m x => map_insert m x 1) items m) x
         = if memb x items then Some 1 else map_get m x).
      { induction items as [|a items IH]; simpl; auto. intros m Hm x.
        rewrite IH by (apply map_update_ok; auto).
        unfold map_insert. rewrite map_update_get by auto.
        unfold memb. simpl. destruct (eqb_ x a); simpl; auto. destruct (existsb _ _); auto. }
      intros x. rewrite X by constructor. reflexivity.
  Qed.

  Lemma unit_many h items : f_unit h items = f_many h [items].
  Proof.
    destruct items as [|x0 items0].
    { symmetry. unfold f_unit, get_priorities_node. simpl.
      assert (E : from_items h site_new [] = u_default) by
        (unfold from_items; rewrite from_occurrences_univ; reflexivity).
      rewrite E. apply (many_is (f_empty) h [[]]); [apply empty_Canon|].
      simpl. intuition. }
    set (items := x0 :: items0). assert (Hi : items <> []) by (unfold items; congruence).
    unfold f_unit. destruct (from_items_univ h site_new items) as (occ & Hok & -> & Hget).
    rewrite get_priorities_node_spec by auto. simpl. symmetry.
    assert (Hkey : forall x, In x items -> In x (map fst occ)).
    { intros x Hx. destruct (in_dec_ x (map fst occ)) as [|Hn]; auto.
      apply map_get_none in Hn; auto. rewrite Hget in Hn. apply memb_spec in Hx. rewrite Hx in Hn. discriminate. }
    assert (Et : tl_ (mkF (chain (enc (univ_of occ) items)) (univ_of occ)) = [filter_repeats items]).
    { unfold tl_. simpl f_root. simpl f_univ. rewrite chain_paths. simpl. rewrite items_enc; auto. }
    apply many_is.
    - exists occ. constructor; auto.
      + apply chain_wf, enc_asc.
      + simpl. rewrite chain_paths. intros p [<-|[]]. apply enc_known; auto.
      + simpl. rewrite chain_paths. intros [E|[]].
        assert (X : get_items (univ_of occ) (enc (univ_of occ) items) = []) by (rewrite E; reflexivity).
        rewrite items_enc in X; auto. apply (proj1 (filter_repeats_nil _)) in X. contradiction.
      + intros x. rewrite Et, Hget. unfold count.
        rewrite (memb_iff x (filter_repeats items) items) by apply filter_repeats_in.
        destruct (memb x items); reflexivity.
    - intros s. rewrite Et. simpl. split; [|tauto]. intros [<-|[]]. split; auto.
      intros E. apply (proj1 (filter_repeats_nil _)) in E. contradiction.
  Qed.

  Lemma count_singletons (l : list T) x : NoDup l -> count (map (fun y => [y]) l) x = if memb x l then 1 else 0.
  Proof.
    induction l as [|a l IH]; intros Hn; simpl; auto. inversion Hn; subst.
    rewrite IH by auto. unfold memb. simpl.
    destruct (eqb_spec_ x a) as [->|]; simpl.
    - fold (memb a l). destruct (memb a l) eqn:E; auto. apply memb_spec in E. contradiction.
    - reflexivity.
  Qed.

  Lemma unique_many h items : f_unique h items = f_many h (map (fun x => [x]) items).
  Proof.
    unfold f_unique. destruct (from_items_univ h site_new items) as (occ & Hok & -> & Hget).
    change Never with (uchain []). rewrite fold_branch_uchain by exact I. fold (enc (univ_of occ) items).
    simpl. symmetry.
    assert (Hkey : forall x, In x items -> In x (map fst occ)).
    { intros x Hx. destruct (in_dec_ x (map fst occ)) as [|Hn]; auto.
      apply map_get_none in Hn; auto. rewrite Hget in Hn. apply memb_spec in Hx. rewrite Hx in Hn. discriminate. }
    set (u := univ_of occ) in *.
    assert (Htl : forall s, In s (tl_ (mkF (uchain (enc u items)) u)) <-> exists x, In x items /\ s = [x]).
    { intros s. unfold tl_. simpl. rewrite uchain_paths, in_map_iff. split.
      - intros (p & <- & Hp). apply in_map_iff in Hp. destruct Hp as (q & <- & Hq).
        apply enc_in in Hq. destruct Hq as (x & Hx & Hp).
        exists x. split; auto. apply get_priority_item in Hp; auto.
        unfold get_items. simpl. fold u in Hp. rewrite Hp. reflexivity.
      - intros (x & Hx & ->). destruct (get_priority_known occ x Hok (Hkey x Hx)) as (p & Hp).
        exists [p]. split.
        + apply get_priority_item in Hp; auto. unfold get_items. simpl. fold u in Hp. rewrite Hp. reflexivity.
        + apply (in_map (fun x => [x])). apply enc_in. eauto. }
    assert (Hk : forall p, In p (paths (uchain (enc u items))) -> known occ p).
    { intros p. rewrite uchain_paths, in_map_iff. intros (q & <- & Hq) q' [<-|[]].
      eapply enc_known; eauto. }
    assert (Hw : zwf 0 (uchain (enc u items))) by (apply uchain_wf, enc_asc).
    assert (Hnd : NoDup (tl_ (mkF (uchain (enc u items)) u))).
    { apply NoDup_map_inj; [|eapply paths_NoDup; eauto]. simpl.
      intros p q Hp Hq E. unfold u in E. apply items_inj in E; auto; eapply zwf_paths; eauto. }
    apply many_is.
    - exists occ. constructor; auto.
      + simpl. rewrite uchain_paths. intros Hin. apply in_map_iff in Hin. destruct Hin as (? & ? & _). discriminate.
      + intros x. rewrite Hget.
        rewrite (count_perm _ (map (fun y => [y]) (unique items))).
        2:{ apply NoDup_Permutation; auto.
            - apply NoDup_map_inj; [congruence|apply unique_NoDup].
            - intros s. rewrite Htl, in_map_iff. split; intros (y & ? & ?); exists y; rewrite unique_in in *; auto. }
        rewrite count_singletons by apply unique_NoDup.
        rewrite (memb_iff x (unique items) items) by apply unique_in. destruct (memb x items); auto.
    - intros s. rewrite Htl. rewrite map_map, in_map_iff. split.
      + intros (x & Hx & ->). split; [congruence|]. exists x. split; auto.
      + intros (_ & x & <- & Hx). exists x. split; auto.
  Qed.

  Lemma empty_many h : f_many h [] = Some (f_empty (T:=T)).
  Proof. apply many_is; [apply empty_Canon|]. simpl. tauto. Qed.
End Forest.
