(** Zdd2Forest2: the subset family, translation and the binary operations. *)
From Coq Require Import List Arith Lia Bool Permutation Sorted.
From Verif Require Import Base DD Spec Zdd2Model Zdd2Node Zdd2Node2 Zdd2Univ Zdd2Forest.
Import ListNotations.

Section Forest2.
  Context {T : Type} `{Ord T}.

  Lemma canon_root f occ : canon f occ -> f_root f <> Always.
  Proof. intros Hc E. apply (c_ne _ _ Hc). rewrite E. simpl. auto. Qed.

  Lemma canon_key f occ x : canon f occ -> (In x (map fst occ) <-> exists t, In t (tl_ f) /\ In x t).
  Proof.
    intros Hc. rewrite <- count_pos.
    destruct (in_dec_ x (map fst occ)) as [Hi|Hi].
    - destruct (map_get occ x) as [c|] eqn:E.
      + rewrite (c_cnt _ _ Hc) in E. apply opt_of_some in E. split; auto. lia.
      + apply map_get_none in E; [contradiction|apply Hc].
    - split; [contradiction|]. intros Hp. exfalso.
      apply map_get_none in Hi; [|apply Hc]. rewrite (c_cnt _ _ Hc) in Hi.
      destruct (count (tl_ f) x); [lia|discriminate].
  Qed.

  (** an item is in a tree iff its priority is on the path *)
  Lemma item_path occ x p q : map_ok occ -> get_priority (univ_of occ) x = Some p ->
    (In x (get_items (univ_of occ) q) <-> In p q).
  Proof.
    intros Hok Hp. rewrite items_in. apply get_priority_item in Hp; auto. split.
    - intros (p' & Hp' & E). assert (p = p') by (eapply get_item_inj; eauto). congruence.
    - intros Hin. exists p; auto.
  Qed.

  (** a filter on the diagram is a filter on the trees *)
  Lemma canonical_filter h f occ root (P : list nat -> Prop) (Q : list T -> Prop) :
    canon f occ -> zwf 0 root ->
    (forall s, In s (paths root) <-> In s (paths (f_root f)) /\ P s) ->
    (forall s, In s (paths (f_root f)) -> (P s <-> Q (get_items (univ_of occ) s))) ->
    exists r, f_canonical h root (f_univ f) = Some r /\ Canon r /\
      forall s, In s (tl_ r) <-> In s (tl_ f) /\ Q s.
  Proof.
    intros Hc Hw Hp Hq. rewrite (c_univ _ _ Hc).
    destruct (canonical_spec h root occ (c_ok _ _ Hc) Hw) as (r & Er & Cr & Tr).
    { intros p Hin. apply Hp in Hin. apply (c_known _ _ Hc). tauto. }
    exists r. split; [exact Er|]. split; [exact Cr|].
    intros s. rewrite Tr. split.
    - intros (Hn & p & Hin & ->). apply Hp in Hin. destruct Hin as [Hin HP]. split.
      + unfold tl_. rewrite (c_univ _ _ Hc). apply in_map; auto.
      + apply Hq; auto.
    - intros (Hin & HQ). split.
      + intros ->. destruct (canon_tl _ _ Hc). contradiction.
      + unfold tl_ in Hin. rewrite (c_univ _ _ Hc) in Hin. apply in_map_iff in Hin.
        destruct Hin as (p & <- & Hin). exists p. split; auto. apply Hp. split; auto. apply Hq; auto.
  Qed.

  Lemma unknown_item f occ x : canon f occ -> get_priority (f_univ f) x = None ->
    forall t, In t (tl_ f) -> ~ In x t.
  Proof.
    intros Hc E t Ht Hx. rewrite (c_univ _ _ Hc) in E. apply get_priority_none in E; [|apply Hc].
    apply E. apply (canon_key f occ x Hc). eauto.
  Qed.

  Lemma subset_spec h f e : Canon f -> exists r, f_subset h f e = Some r /\ Canon r /\
    forall s, In s (tl_ r) <-> In s (tl_ f) /\ In e s.
  Proof.
    intros [occ Hc]. unfold f_subset. destruct (get_priority (f_univ f) e) as [p|] eqn:E.
    - destruct (node_subset_spec (f_root f) p 0 (c_wf _ _ Hc) (canon_root _ _ Hc)) as (r & Er & Wr & Pr).
      rewrite Er. simpl. eapply canonical_filter with (P := fun s => In p s); eauto.
      intros s Hs. rewrite (c_univ _ _ Hc) in E. symmetry. apply item_path; auto. apply Hc.
    - exists f_empty. split; [reflexivity|]. split; [apply empty_Canon|].
      intros s. split; [intros []|]. intros (Hs & He). exfalso. eapply unknown_item; eauto.
  Qed.

  Lemma subset_not_spec h f e : Canon f -> exists r, f_subset_not h f e = Some r /\ Canon r /\
    forall s, In s (tl_ r) <-> In s (tl_ f) /\ ~ In e s.
  Proof.
    intros [occ Hc]. unfold f_subset_not. destruct (get_priority (f_univ f) e) as [p|] eqn:E.
    - destruct (node_subset_not_spec (f_root f) p 0 (c_wf _ _ Hc)) as (r & Er & Wr & Pr).
      rewrite Er. simpl. eapply canonical_filter with (P := fun s => ~ In p s); eauto.
      intros s Hs. rewrite (c_univ _ _ Hc) in E. rewrite (item_path occ e p s); auto; [reflexivity|apply Hc].
    - exists f. split; [reflexivity|]. split; [exists occ; auto|].
      intros s. split; [|tauto]. intros Hs. split; auto. eapply unknown_item; eauto.
  Qed.

  (** all elements known, or one of them unknown *)
  Lemma priorities_length f occ es : canon f occ ->
    length es = length (get_priorities (f_univ f) es) <->
    (forall e, In e es -> get_priority (f_univ f) e <> None).
  Proof.
    intros Hc. assert (X : forall l, length (filter_map (get_priority (f_univ f)) l) <= length l).
    { induction l; simpl; auto. destruct (get_priority (f_univ f) a); simpl; lia. }
    unfold get_priorities. induction es as [|e es IH]; simpl.
    - split; intros; tauto.
    - destruct (get_priority (f_univ f) e) eqn:E; simpl.
      + split.
        * intros Hl e' [<-|Hin]; [congruence|]. apply IH; [lia|auto].
        * intros Ha. f_equal. apply IH. intros; apply Ha; auto.
      + specialize (X es). split; [simpl in X; lia|]. intros Ha. exfalso. apply (Ha e); auto.
  Qed.

  Lemma priorities_iff f occ es s (P : bool) : canon f occ ->
    (forall e, In e es -> get_priority (f_univ f) e <> None) ->
    ((forall p, In p (get_priorities (f_univ f) es) -> (if P then In p s else ~ In p s)) <->
     (forall e, In e es -> (if P then In e (get_items (univ_of occ) s) else ~ In e (get_items (univ_of occ) s)))).
  Proof.
    intros Hc Hk. rewrite (c_univ _ _ Hc) in *. split.
    - intros Hp e He. destruct (get_priority (univ_of occ) e) as [p|] eqn:E; [|exfalso; eapply Hk; eauto].
      assert (Hin : In p (get_priorities (univ_of occ) es)) by (apply filter_map_in; eauto).
      specialize (Hp p Hin). destruct P; rewrite (item_path occ e p s); auto; apply Hc.
    - intros He p Hp. apply filter_map_in in Hp. destruct Hp as (e & Hin & E). specialize (He e Hin).
      destruct P; rewrite (item_path occ e p s) in He; auto; apply Hc.
  Qed.

  Lemma subset_all_spec h f es : Canon f -> exists r, f_subset_all h f es = Some r /\ Canon r /\
    forall s, In s (tl_ r) <-> In s (tl_ f) /\ forall e, In e es -> In e s.
  Proof.
    intros [occ Hc]. unfold f_subset_all, f_subset_many. destruct es as [|e0 es0].
    { exists f. split; [reflexivity|]. split; [exists occ; auto|]. simpl. intuition. }
    set (es := e0 :: es0). assert (Hes : es <> []) by (unfold es; congruence).
    destruct (Nat.eqb_spec (length es) (length (get_priorities (f_univ f) es))) as [El|El]; simpl negb; cbv iota.
    - rewrite (priorities_length f occ) in El by auto.
      assert (Hne : get_priorities (f_univ f) es <> []).
      { intros E. unfold es in E. unfold get_priorities in E. simpl in E.
        destruct (get_priority (f_univ f) e0) eqn:E0; [discriminate|]. apply (El e0); auto. left; auto. }
      destruct (node_subset_all_spec (f_root f) 0 _ (c_wf _ _ Hc) (canon_root _ _ Hc) Hne) as (r & Er & Wr & Pr).
      rewrite Er. simpl. eapply (canonical_filter h f occ r _ (fun s => forall e, In e es -> In e s) Hc Wr Pr).
      intros s Hs. apply (priorities_iff f occ es s true); auto.
    - exists f_empty. split; [reflexivity|]. split; [apply empty_Canon|].
      intros s. split; [intros []|]. intros (Hs & He). exfalso. apply El.
      apply (priorities_length f occ); auto. intros e Hin E. eapply unknown_item; eauto.
  Qed.

  (** subset_none: total; exact if all elements are known and either no tree is
      a proper subset of another or there is only one element; also exact when
      no element is known *)
  Definition none_ok f (es : list T) : Prop :=
    ((forall e, In e es -> exists t, In t (tl_ f) /\ In e t) /\
     (no_proper_subset (tl_ f) (tl_ f) \/ exists e, forall x, In x es -> x = e)) \/
    (forall e t, In e es -> In t (tl_ f) -> ~ In e t).

  Lemma items_incl occ a b : map_ok occ -> known occ a -> known occ b ->
    (incl a b <-> incl (get_items (univ_of occ) a) (get_items (univ_of occ) b)).
  Proof.
    intros Hok Ha Hb. split; intros Hi x Hx.
    - apply items_in in Hx. destruct Hx as (q & Hq & E). apply items_in. exists q. split; auto.
    - destruct (get_item_known occ x (Ha x Hx)) as (y & Ey).
      assert (Hy : In y (get_items (univ_of occ) a)) by (apply items_in; eauto).
      apply Hi in Hy. apply items_in in Hy. destruct Hy as (q & Hq & Eq).
      assert (x = q) by (eapply get_item_inj; eauto). congruence.
  Qed.

  Lemma known_iff f occ e : canon f occ ->
    (get_priority (f_univ f) e <> None <-> exists t, In t (tl_ f) /\ In e t).
  Proof.
    intros Hc. rewrite <- (canon_key f occ e Hc), (c_univ _ _ Hc). rewrite get_priority_none by apply Hc.
    split; [|tauto]. destruct (in_dec_ e (map fst occ)); tauto.
  Qed.

  Lemma subset_none_spec h f es : Canon f -> exists r, f_subset_none h f es = Some r /\ Canon r /\
    (forall s, In s (tl_ r) -> In s (tl_ f)) /\
    (forall s, In s (tl_ f) -> (forall e, In e es -> ~ In e s) -> In s (tl_ r)) /\
    (none_ok f es -> forall s, In s (tl_ r) <-> In s (tl_ f) /\ forall e, In e es -> ~ In e s).
  Proof.
    intros [occ Hc]. unfold f_subset_none, f_subset_many. destruct es as [|e0 es0].
    { exists f. split; [reflexivity|]. split; [exists occ; auto|]. simpl. intuition. }
    set (es := e0 :: es0). assert (Hes : es <> []) by (unfold es; congruence).
    destruct (Nat.eqb_spec (length es) (length (get_priorities (f_univ f) es))) as [El|El]; simpl negb; cbv iota.
    - rewrite (priorities_length f occ) in El by auto.
      assert (Hne : get_priorities (f_univ f) es <> []).
      { intros E. unfold es in E. unfold get_priorities in E. simpl in E.
        destruct (get_priority (f_univ f) e0) eqn:E0; [discriminate|]. apply (El e0); auto. left; auto. }
      destruct (node_subset_none_sub (f_root f) 0 (get_priorities (f_univ f) es) (c_wf _ _ Hc) Hne) as (r & Er & Wr & Hin & Hsup).
      rewrite Er. simpl.
      destruct (canonical_spec h r occ (c_ok _ _ Hc) Wr) as (g & Eg & Cg & Tg).
      { intros p Hp. apply (c_known _ _ Hc). auto. }
      rewrite <- (c_univ _ _ Hc) in Eg.
      exists g. split; [exact Eg|]. split; [exact Cg|].
      split.
      { intros s Hs. apply Tg in Hs. destruct Hs as (_ & p & Hp & ->).
        unfold tl_. rewrite (c_univ _ _ Hc). apply in_map. auto. }
      split.
      { intros s Hs He. apply Tg. split; [intros ->; apply (canon_tl _ _ Hc); exact Hs|].
        unfold tl_ in Hs. rewrite (c_univ _ _ Hc) in Hs. apply in_map_iff in Hs. destruct Hs as (p & <- & Hp).
        exists p. split; auto. apply Hsup; auto. apply (priorities_iff f occ es p false); auto. }
      intros Hn0. destruct Hn0 as [[_ Hn]|Hn].
      2:{ exfalso. assert (Hk0 : get_priority (f_univ f) e0 <> None) by (apply El; left; auto).
          apply (known_iff f occ) in Hk0; auto. destruct Hk0 as (t & Ht & He). apply (Hn e0 t); auto. left; auto. }
      assert (Hcond : (forall a b, In a (paths (f_root f)) -> In b (paths (f_root f)) -> incl a b -> a = b) \/
                      (exists e, forall x, In x (get_priorities (f_univ f) es) -> x = e)).
      { destruct Hn as [Hn|(e & Hn)].
        - left. intros a b Ha Hb Hab.
          pose proof (c_known _ _ Hc _ Ha). pose proof (c_known _ _ Hc _ Hb).
          apply (items_incl occ a b) in Hab; auto; [|apply Hc].
          apply (items_inj occ (c_ok _ _ Hc)); auto; try (eapply zwf_paths; [apply Hc|auto]; fail).
          assert (Wt : forall p, In p (paths (f_root f)) -> In (get_items (univ_of occ) p) (tl_ f)).
          { intros p Hp. unfold tl_. rewrite (c_univ _ _ Hc). apply in_map; auto. }
          apply ssorted_ext; [| |apply Hn; auto].
          + apply (canon_tl _ _ Hc); auto.
          + apply (canon_tl _ _ Hc); auto.
        - right. destruct (get_priority (f_univ f) e) as [p|] eqn:E.
          + exists p. intros x Hx. apply filter_map_in in Hx. destruct Hx as (y & Hy & Ey).
            rewrite (Hn y Hy) in Ey. congruence.
          + exists 0. intros x Hx. apply filter_map_in in Hx. destruct Hx as (y & Hy & Ey).
            rewrite (Hn y Hy) in Ey. congruence. }
      destruct (node_subset_none_spec (f_root f) 0 _ (c_wf _ _ Hc) (canon_root _ _ Hc) Hne Hcond) as (r2 & Er2 & Wr2 & Pr2).
      assert (r2 = r) by congruence. subst r2.
      destruct (canonical_filter h f occ r _ (fun s => forall e, In e es -> ~ In e s) Hc Wr Pr2) as (g' & Eg' & _ & Tg').
      { intros s Hs. apply (priorities_iff f occ es s false); auto. }
      assert (g' = g) by congruence. subst. exact Tg'.
    - exists f. split; [reflexivity|]. split; [exists occ; auto|].
      split; [auto|]. split; [auto|].
      intros Hn s. split; [|tauto]. intros Hs. split; auto.
      destruct Hn as [[Hk _]|Hn]; [|intros; apply Hn; auto].
      exfalso. apply El. apply (priorities_length f occ); auto. intros e He.
      apply (known_iff f occ); auto.
  Qed.
End Forest2.
