(** BddCloset: proofs about builders and closets. *)
From Coq Require Import List Arith Lia Bool Permutation Sorted.
From Verif Require Import Base DD Spec BddSpec BddModel BddRun BddNode.
Import ListNotations.

(** ** multimaps built by pushing *)
Section Push.
  Context {K V : Type} `{Ord K}.

  Definition push_on (m : list (K * list V)) (l : list (K * V)) : list (K * list V) :=
    fold_left (fun m p => map_push m (fst p) (snd p)) l m.
  Definition vals (k : K) (l : list (K * V)) : list V := map snd (filter (fun p => eqb_ (fst p) k) l).

  Lemma vals_in k l v : In v (vals k l) <-> In (k, v) l.
  Proof.
    unfold vals. rewrite in_map_iff. split.
    - intros ([k' v'] & <- & X). apply filter_In in X. destruct X as [X E]. simpl in E. apply eqb_true_ in E. subst. exact X.
    - intros X. exists (k, v). split; auto. apply filter_In. split; auto. apply eqb_refl_.
  Qed.

  Lemma push_on_ok l : forall m, map_ok m -> map_ok (push_on m l).
  Proof. induction l as [|p l IH]; intros m M; simpl; auto. apply IH, map_update_ok, M. Qed.

  Definition get_list (m : list (K * list V)) (k : K) : list V :=
    match map_get m k with Some l => l | None => [] end.

  Lemma push_on_get l : forall m k, map_ok m -> (forall k' v, map_get m k' = Some v -> v <> []) ->
    (get_list (push_on m l) k = get_list m k ++ vals k l) /\
    (forall k' v, map_get (push_on m l) k' = Some v -> v <> []).
  Proof.
    induction l as [|[k0 v0] l IH]; intros m k M Ne; simpl.
    - unfold vals. simpl. rewrite app_nil_r. auto.
    - assert (M' : map_ok (map_push m k0 v0)) by (apply map_update_ok; auto).
      assert (Ne' : forall k' v, map_get (map_push m k0 v0) k' = Some v -> v <> []).
      { intros k' v. unfold map_push. rewrite map_update_get by auto.
        destruct (eqb_ k' k0); [|apply Ne]. injection 1 as <-.
        destruct (map_get m k0) as [[|a q]|]; discriminate. }
      destruct (IH (map_push m k0 v0) k M' Ne') as (A & B). split; [|exact B].
      rewrite A. unfold get_list, map_push. rewrite map_update_get by auto.
      unfold vals. simpl. destruct (eqb_spec_ k k0) as [->|N].
      + rewrite eqb_refl_. destruct (map_get m k0) as [q|]; simpl; [rewrite <- app_assoc|]; reflexivity.
      + assert (eqb_ k0 k = false) as -> by (apply eqb_false_; congruence). reflexivity.
  Qed.

  Definition push_all (l : list (K * V)) : list (K * list V) := push_on [] l.
  Lemma push_all_ok l : map_ok (push_all l).
  Proof. apply push_on_ok. constructor. Qed.
  Lemma push_all_get l k : map_get (push_all l) k = match vals k l with [] => None | v => Some v end.
  Proof.
    destruct (push_on_get l [] k) as (A & B); [constructor|discriminate|].
    unfold get_list in A. fold (push_all l) in *. simpl in A. specialize (B k).
    destruct (map_get (push_all l) k) as [v|]; rewrite <- A; [|reflexivity].
    specialize (B v eq_refl). destruct v; congruence.
  Qed.
  Lemma push_all_in l k v : In (k, v) (push_all l) <-> v = vals k l /\ v <> [].
  Proof.
    rewrite <- (map_get_in _ _ _ (push_all_ok l)), push_all_get. destruct (vals k l) as [|a q]; split.
    - discriminate.
    - intros (-> & C). congruence.
    - injection 1 as <-. split; congruence.
    - intros (-> & _). reflexivity.
  Qed.
  Lemma push_all_pairs l k v : In (k, v) (flat_map (fun p => map (fun x => (fst p, x)) (snd p)) (push_all l)) <-> In (k, v) l.
  Proof.
    rewrite in_flat_map. split.
    - intros ([k' vs] & Hp & X). simpl in X. apply in_map_iff in X. destruct X as (x & E & X). injection E as -> ->.
      apply push_all_in in Hp. destruct Hp as (-> & _). apply vals_in; exact X.
    - intros X. exists (k, vals k l). apply vals_in in X. split.
      + apply push_all_in. split; auto. intros E. rewrite E in X. destruct X.
      + simpl. apply in_map_iff. eauto.
  Qed.
End Push.

Section Builder.
  Context {I F : Type} `{Ord I} `{Ord F}.
  Notation call := (bcall I F).
  Implicit Types (calls : list call) (env : I -> bool) (items sels : list I).

  Definition index_on (m : list (I * F)) (l : list (F * I)) : list (I * F) :=
    fold_left (fun m p => map_update m (snd p) (fun o => match o with Some f => f | None => fst p end)) l m.

  Lemma index_on_ok l : forall m, map_ok m -> map_ok (index_on m l).
  Proof. induction l as [|p l IH]; intros m M; simpl; auto. apply IH, map_update_ok, M. Qed.
  Lemma index_on_get l : forall m i, map_ok m ->
    map_get (index_on m l) i = match map_get m i with Some f => Some f | None => option_map fst (find (fun p => eqb_ (snd p) i) l) end.
  Proof.
    induction l as [|[f0 i0] l IH]; intros m i M; simpl.
    - destruct (map_get m i); reflexivity.
    - rewrite IH by (apply map_update_ok; auto). rewrite map_update_get by auto.
      destruct (eqb_spec_ i i0) as [->|N].
      + rewrite eqb_refl_. destruct (map_get m i0); reflexivity.
      + assert (eqb_ i0 i = false) as -> by (apply eqb_false_; congruence). reflexivity.
  Qed.

  (** what the calls leave in the builder *)
  Lemma b_call_spec (b : builder I F) (c : call) : b_call b c =
    mkB (push_on (b_contents b) (adds [c])) (index_on (b_index b) (adds [c]))
        (push_on (b_excl b) (excls [c])) (push_on (b_incl b) (incls [c])).
  Proof.
    destruct c as [f i|f l|s x|s l|s x|s l]; cbn [b_call].
    - reflexivity.
    - unfold adds, excls, incls. cbn [flat_map]. rewrite app_nil_r. unfold add_items. revert b.
      induction l as [|i l IH]; intros b; [destruct b; reflexivity|].
      cbn [fold_left]. rewrite IH. reflexivity.
    - reflexivity.
    - unfold adds, excls, incls. cbn [flat_map]. rewrite app_nil_r. unfold add_exclusion_rules. revert b.
      induction l as [|i l IH]; intros b; [destruct b; reflexivity|].
      cbn [fold_left]. rewrite IH. reflexivity.
    - reflexivity.
    - unfold adds, excls, incls. cbn [flat_map]. rewrite app_nil_r. unfold add_inclusion_rules. revert b.
      induction l as [|i l IH]; intros b; [destruct b; reflexivity|].
      cbn [fold_left]. rewrite IH. reflexivity.
  Qed.
  Lemma run_calls_on (calls : list call) : forall b, fold_left b_call calls b =
    mkB (push_on (b_contents b) (adds calls)) (index_on (b_index b) (adds calls))
        (push_on (b_excl b) (excls calls)) (push_on (b_incl b) (incls calls)).
  Proof.
    induction calls as [|c calls IH]; intros b; [destruct b; reflexivity|].
    cbn [fold_left]. rewrite IH, b_call_spec. cbn [b_contents b_index b_excl b_incl].
    assert (Ea : adds (c :: calls) = adds [c] ++ adds calls) by (unfold adds; cbn [flat_map]; rewrite app_nil_r; reflexivity).
    assert (Ee : excls (c :: calls) = excls [c] ++ excls calls) by (unfold excls; cbn [flat_map]; rewrite app_nil_r; reflexivity).
    assert (Ei : incls (c :: calls) = incls [c] ++ incls calls) by (unfold incls; cbn [flat_map]; rewrite app_nil_r; reflexivity).
    rewrite Ea, Ee, Ei. unfold push_on, index_on. rewrite !fold_left_app. reflexivity.
  Qed.
  Lemma run_calls_spec (calls : list call) : run_calls calls =
    mkB (push_all (adds calls)) (index_on [] (adds calls)) (push_all (excls calls)) (push_all (incls calls)).
  Proof. unfold run_calls. rewrite run_calls_on. reflexivity. Qed.

  Definition index_of (calls : list call) : list (I * F) := index_on [] (adds calls).
  Lemma index_of_ok calls : map_ok (index_of calls).
  Proof. apply index_on_ok. constructor. Qed.
  Lemma index_of_get calls i : map_get (index_of calls) i = first_family calls i.
  Proof. unfold index_of. rewrite index_on_get by constructor. reflexivity. Qed.

  Lemma first_family_in calls i f : first_family calls i = Some f -> In (f, i) (adds calls).
  Proof.
    unfold first_family. destruct (find _ _) as [[g j]|] eqn:E; [|discriminate]. simpl. injection 1 as ->.
    apply find_some in E. destruct E as (E1 & E2). simpl in E2. apply eqb_true_ in E2. subst. exact E1.
  Qed.
  Lemma first_family_none calls i : first_family calls i = None <-> ~ known calls i.
  Proof.
    unfold first_family. destruct (find (fun p : F * I => eqb_ (snd p) i) (adds calls)) as [[g j]|] eqn:E; simpl.
    - split; [discriminate|]. intros N. exfalso. apply N. apply find_some in E. simpl in E. destruct E as (E1 & E2).
      apply eqb_true_ in E2. subst. exists g. exact E1.
    - split; auto. intros _ (f & X). apply (find_none _ _ E) in X. simpl in X. rewrite eqb_refl_ in X. discriminate.
  Qed.
  Lemma first_family_known calls i : known calls i <-> exists f, first_family calls i = Some f.
  Proof.
    split.
    - intros K. destruct (first_family calls i) eqn:E; [eauto|]. apply first_family_none in E. contradiction.
    - intros (f & E). exists f. apply first_family_in. exact E.
  Qed.
  Lemma known_dec (calls : list call) i : known calls i \/ ~ known calls i.
  Proof. rewrite <- first_family_none, first_family_known. destruct (first_family calls i); [left; eauto|right; reflexivity]. Qed.
  Lemma legal_first calls f i : legal calls -> In (f, i) (adds calls) -> first_family calls i = Some f.
  Proof.
    intros (L & _) X. destruct (first_family calls i) as [g|] eqn:E.
    - apply first_family_in in E. f_equal. eapply L; eauto.
    - apply first_family_none in E. exfalso. apply E. exists f; exact X.
  Qed.

  (** ** validation *)
  Lemma sort_two (s x : I) : sort [s; x] = in_order s x.
  Proof. unfold in_order. unfold sort, sort_by. simpl. destruct (leb_ s x); reflexivity. Qed.

  Lemma conflicts_spec calls v : In v (conflicts_of (run_calls calls)) <-> real_violation calls v.
  Proof.
    unfold conflicts_of. rewrite unique_in, !in_app_iff, run_calls_spec. cbn [b_contents b_index b_excl b_incl].
    fold (index_of calls).
    assert (RULE : forall (rules : list (I * I)) mk,
      In v (find_illegal_rules (push_all rules) (index_of calls) mk) <->
      exists s x, In (s, x) rules /\
        ((~ known calls s /\ v = MissingFamily s) \/ (known calls s /\ ~ known calls x /\ v = MissingFamily x) \/
         exists f, first_family calls s = Some f /\ first_family calls x = Some f /\ v = mk f (in_order s x))).
    { intros rules mk. unfold find_illegal_rules. rewrite in_flat_map. split.
      - intros ([s xs] & Hp & X). apply push_all_in in Hp. destruct Hp as (-> & Ne). cbn [fst snd] in X.
        rewrite index_of_get in X. destruct (first_family calls s) as [sf|] eqn:Es.
        + apply filter_map_in in X. destruct X as (x & Hx & X). apply vals_in in Hx. exists s, x. split; auto.
          assert (Ks : known calls s) by (apply first_family_known; eauto).
          rewrite index_of_get in X. destruct (first_family calls x) as [xf|] eqn:Ex.
          * destruct (eqb_spec_ sf xf) as [->|]; [|discriminate]. injection X as <-. right. right. exists xf.
            auto.
          * injection X as <-. right. left. apply first_family_none in Ex. auto.
        + destruct X as [<-|[]]. apply first_family_none in Es.
          destruct (vals s rules) as [|x q] eqn:Ev; [congruence|].
          exists s, x. split; [apply vals_in; rewrite Ev; left; reflexivity|]. auto.
      - intros (s & x & Hx & X). exists (s, vals s rules). assert (Hv : In x (vals s rules)) by (apply vals_in; exact Hx). split.
        + apply push_all_in. split; auto. intros E; rewrite E in Hv; destruct Hv.
        + cbn [fst snd]. rewrite index_of_get. destruct X as [(N & ->)|[(K & N & ->)|(f & Es & Ex & ->)]].
          * apply first_family_none in N. rewrite N. left; reflexivity.
          * apply first_family_known in K. destruct K as (sf & ->). apply filter_map_in. exists x. split; auto.
            rewrite index_of_get. apply first_family_none in N. rewrite N. reflexivity.
          * rewrite Es. apply filter_map_in. exists x. split; auto. rewrite index_of_get, Ex, eqb_refl_, sort_two. reflexivity. }
    rewrite !RULE. clear RULE.
    assert (CF : In v (find_conflicting_families (push_all (adds calls)) (index_of calls)) <->
      exists f0 f i, first_family calls i = Some f0 /\ In (f, i) (adds calls) /\ f <> f0 /\ v = ConflictingFamilies i [f0; f]).
    { unfold find_conflicting_families. rewrite in_flat_map. split.
      - intros ([f is] & Hp & X). apply push_all_in in Hp. destruct Hp as (-> & Ne). cbn [fst snd] in X.
        apply filter_map_in in X. destruct X as (i & Hi & X). apply vals_in in Hi. rewrite index_of_get in X.
        destruct (first_family calls i) as [f0|] eqn:E.
        + destruct (eqb_spec_ f0 f) as [->|N]; [discriminate|]. injection X as <-. exists f0, f, i. repeat split; auto.
        + exfalso. apply first_family_none in E. apply E. exists f; exact Hi.
      - intros (f0 & f & i & E & X & N & ->). exists (f, vals f (adds calls)). assert (Hv : In i (vals f (adds calls))) by (apply vals_in; exact X). split.
        + apply push_all_in. split; auto. intros C; rewrite C in Hv; destruct Hv.
        + cbn [fst snd]. apply filter_map_in. exists i. split; auto. rewrite index_of_get, E.
          assert (eqb_ f0 f = false) as -> by (apply eqb_false_; congruence). reflexivity. }
    rewrite CF. clear CF. split.
    - intros [(f0 & f & i & A & B & C & ->)|[(s & x & Hx & X)|(s & x & Hx & X)]].
      + apply rv_conflict; auto.
      + destruct X as [(N & ->)|[(K & N & ->)|(f & A & B & ->)]]; [eapply rv_selection|eapply rv_item|apply rv_exclusion]; eauto.
      + destruct X as [(N & ->)|[(K & N & ->)|(f & A & B & ->)]]; [eapply rv_selection|eapply rv_item|apply rv_inclusion]; eauto.
    - intros [f0 f i A B C|s x [A|A] B|s x [A|A] B C|s x f A B C|s x f A B C].
      + left. exists f0, f, i. auto.
      + right; left. exists s, x. auto 8.
      + right; right. exists s, x. auto 8.
      + right; left. exists s, x. auto 8.
      + right; right. exists s, x. auto 8.
      + right; left. exists s, x. split; auto. right. right. exists f. auto.
      + right; right. exists s, x. split; auto. right. right. exists f. auto.
  Qed.

  Lemma legal_iff calls : legal calls <-> forall v, ~ real_violation calls v.
  Proof.
    split.
    - intros L v V. pose proof L as (L1 & L2).
      destruct V as [f0 f i A B C|s x A B|s x A B C|s x f A B C|s x f A B C].
      + apply C. apply (L1 f f0 i B). apply first_family_in; exact A.
      + apply B. apply (L2 s x A).
      + apply C. apply (L2 s x A).
      + apply first_family_in in B. apply first_family_in in C. destruct (L2 s x (or_introl A)) as (_ & _ & D). eapply D; eauto.
      + apply first_family_in in B. apply first_family_in in C. destruct (L2 s x (or_intror A)) as (_ & _ & D). eapply D; eauto.
    - intros N.
      assert (L1 : forall f i, In (f, i) (adds calls) -> first_family calls i = Some f).
      { intros f i X. destruct (first_family calls i) as [f0|] eqn:E.
        - destruct (eq_dec_ f f0) as [->|D]; [reflexivity|]. exfalso. eapply N. eapply rv_conflict; eauto.
        - apply first_family_none in E. exfalso. apply E. exists f; exact X. }
      split.
      + intros f g i A B. apply L1 in A. apply L1 in B. congruence.
      + intros s x A.
        destruct (known_dec calls s) as [Ks|Ks]; [|exfalso; eapply N, rv_selection; eauto].
        destruct (known_dec calls x) as [Kx|Kx]; [|exfalso; eapply N, rv_item; eauto].
        split; auto. split; auto. intros f B C. apply L1 in B. apply L1 in C.
        destruct A as [A|A]; eapply N; [eapply rv_exclusion|eapply rv_inclusion]; eauto.
  Qed.

  Lemma validate_ok calls : validate_closet (run_calls calls) = Ok tt <-> legal calls.
  Proof.
    rewrite legal_iff. unfold validate_closet.
    pose proof (conflicts_spec calls) as C. destruct (conflicts_of (run_calls calls)) as [|v l].
    - split; auto. intros _ v V. apply C in V. destruct V.
    - split; [destruct l; discriminate|]. intros N. exfalso. apply (N v). apply C. left; reflexivity.
  Qed.

  (** ** the root of a built closet *)
  Lemma eval_fold_and env (l : list (dd I)) : forall t, eval env (fold_left bitand l t) = true <->
    eval env t = true /\ forall u, In u l -> eval env u = true.
  Proof.
    induction l as [|u l IH]; intros t; simpl; [intuition|].
    rewrite IH, eval_bitand, andb_true_iff. split.
    - intros ((A & B) & C). split; auto. intros w [<-|Hw]; auto.
    - intros (A & B). repeat split; auto.
  Qed.
  Lemma eval_fold_or env (l : list (dd I)) : forall t, eval env (fold_left bitor l t) = true <->
    eval env t = true \/ exists u, In u l /\ eval env u = true.
  Proof.
    induction l as [|u l IH]; intros t; simpl.
    - split; auto. intros [A|(u & [] & _)]; auto.
    - rewrite IH, eval_bitor, orb_true_iff. split.
      + intros [[A|A]|(w & B & C)]; eauto.
      + intros [A|(w & [<-|B] & C)]; eauto.
  Qed.
  Lemma fold_left_map {A B C} (f : C -> B -> C) (g : A -> B) l : forall c, fold_left (fun c a => f c (g a)) l c = fold_left f (map g l) c.
  Proof. induction l; simpl; auto. Qed.

  Definition negs (items : list I) (m : list (I * dd I)) := fold_left (fun m i => map_insert m i (negative_branch i)) items m.
  Lemma negs_ok items : forall m, map_ok m -> map_ok (negs items m).
  Proof. induction items; simpl; auto. intros m M. apply IHitems, map_update_ok, M. Qed.
  Lemma negs_get items : forall m i, map_ok m -> map_get (negs items m) i = if memb i items then Some (negative_branch i) else map_get m i.
  Proof.
    induction items as [|j items IH]; intros m i M; simpl; auto.
    rewrite IH by (apply map_update_ok; auto). unfold map_insert. rewrite map_update_get by auto.
    fold (memb i items). destruct (eqb_spec_ i j) as [->|N]; simpl; [destruct (memb j items); reflexivity|reflexivity].
  Qed.

  Lemma eval_sibling env items : eval env (sibling_relationship items) = true <->
    exists i, In i items /\ env i = true /\ forall j, In j items -> env j = true -> j = i.
  Proof.
    unfold sibling_relationship. cbn zeta. fold (negs items []). rewrite eval_fold_or. simpl.
    assert (INNER : forall i, In i items -> (eval env (fold_left (fun r p => bitand r (snd p))
       (map_insert (negs items []) i (positive_branch i)) (Leaf true)) = true <->
       env i = true /\ forall j, In j items -> env j = true -> j = i)).
    { intros i Hi. rewrite (fold_left_map bitand snd), eval_fold_and. simpl.
      assert (M : map_ok (negs items [])) by (apply negs_ok; constructor).
      assert (M' : map_ok (map_insert (negs items []) i (positive_branch i))) by (apply map_update_ok; exact M).
      assert (G : forall j, map_get (map_insert (negs items []) i (positive_branch i)) j =
                  if eqb_ j i then Some (positive_branch i) else if memb j items then Some (negative_branch j) else None).
      { intros j. unfold map_insert. rewrite map_update_get by auto. destruct (eqb_ j i); auto. rewrite negs_get by constructor. reflexivity. }
      split.
      - intros (_ & A).
        assert (A' : forall j u, map_get (map_insert (negs items []) i (positive_branch i)) j = Some u -> eval env u = true).
        { intros j u E. apply A. apply in_map_iff. exists (j, u). split; auto. apply map_get_in; auto. }
        split.
        + rewrite <- eval_pos. apply (A' i). rewrite G, eqb_refl_. reflexivity.
        + intros j Hj Ej. destruct (eq_dec_ j i) as [|N]; auto. exfalso.
          specialize (A' j (negative_branch j)). rewrite G in A'. apply eqb_false_ in N. rewrite N in A'.
          apply memb_spec in Hj. rewrite Hj in A'. specialize (A' eq_refl). rewrite eval_neg, Ej in A'. discriminate.
      - intros (A & B). split; auto. intros u Hu. apply in_map_iff in Hu. destruct Hu as ([j u'] & E & Hu). simpl in E. subst u'.
        apply (proj2 (map_get_in _ j u M')) in Hu. rewrite G in Hu. destruct (eqb_spec_ j i) as [Eji|N].
        + subst j. injection Hu as <-. rewrite eval_pos. exact A.
        + destruct (memb j items) eqn:Mj; [|discriminate]. injection Hu as <-. rewrite eval_neg.
          apply memb_spec in Mj. destruct (env j) eqn:Ej; auto. }
    split.
    - intros [C|(u & Hu & E)]; [discriminate|]. apply in_map_iff in Hu. destruct Hu as (i & <- & Hi).
      apply INNER in E; auto. exists i. tauto.
    - intros (i & Hi & E). right. eexists. split; [apply in_map_iff; exists i; split; [reflexivity|exact Hi]|]. apply INNER; auto.
  Qed.

  (** the outfit rules, over assignments *)
  Definition valid_env (calls : list call) (env : I -> bool) : Prop :=
    (forall f i, In (f, i) (adds calls) ->
       exists j, In (f, j) (adds calls) /\ env j = true /\
         forall k, In (f, k) (adds calls) -> env k = true -> k = j) /\
    (forall s x, In (s, x) (excls calls) -> ~ (env s = true /\ env x = true)) /\
    (forall s x, In (s, x) (incls calls) -> env s = true -> env x = true).

  Definition root_of (calls : list call) : dd I := build_root (run_calls calls).

  Lemma eval_root calls env : eval env (root_of calls) = true <-> valid_env calls env.
  Proof.
    unfold root_of, build_root. rewrite run_calls_spec. cbn [b_contents b_index b_excl b_incl]. cbn zeta.
    rewrite (fold_left_map bitand (fun p : F * list I => sibling_relationship (snd p))).
    rewrite (fold_left_map bitand (fun p : I * I => exclusion_relationship (fst p) (snd p))).
    rewrite (fold_left_map bitand (fun p : I * I => inclusion_relationship (fst p) (snd p))).
    rewrite !eval_fold_and. unfold valid_env. unfold rule_pairs. split.
    - intros (((_ & A) & B) & C). split; [|split].
      + intros f i Hi. assert (Hv : In i (vals f (adds calls))) by (apply vals_in; exact Hi).
        assert (eval env (sibling_relationship (vals f (adds calls))) = true) as E.
        { apply A. apply in_map_iff. exists (f, vals f (adds calls)). split; auto. apply push_all_in. split; auto.
          intros Z; rewrite Z in Hv; destruct Hv. }
        apply eval_sibling in E. destruct E as (j & Hj & Ej & U). exists j. apply vals_in in Hj. split; auto. split; auto.
        intros k Hk. apply U. apply vals_in; exact Hk.
      + intros s x Hx (Es & Ex).
        assert (eval env (exclusion_relationship s x) = true) as E.
        { apply B. apply in_map_iff. exists (s, x). split; auto. apply push_all_pairs; exact Hx. }
        unfold exclusion_relationship in E. rewrite eval_bitor, !eval_neg, Es, Ex in E. discriminate.
      + intros s x Hx Es.
        assert (eval env (inclusion_relationship s x) = true) as E.
        { apply C. apply in_map_iff. exists (s, x). split; auto. apply push_all_pairs; exact Hx. }
        unfold inclusion_relationship in E. rewrite eval_bitor, eval_neg, eval_pos, Es in E. exact E.
    - intros (A & B & C). split; [split; [split; [reflexivity|]|]|]; intros u Hu; apply in_map_iff in Hu.
      + destruct Hu as ([f is] & <- & Hp). apply push_all_in in Hp. destruct Hp as (-> & Ne). cbn [snd].
        apply eval_sibling. destruct (vals f (adds calls)) as [|i q] eqn:Ev; [congruence|]. rewrite <- Ev.
        assert (Hi : In (f, i) (adds calls)) by (apply vals_in; rewrite Ev; left; reflexivity).
        destruct (A f i Hi) as (j & Hj & Ej & U). exists j. split; [apply vals_in; exact Hj|]. split; auto.
        intros k Hk. apply U. apply vals_in; exact Hk.
      + destruct Hu as ([s x] & <- & Hx). apply (proj1 (push_all_pairs _ _ _)) in Hx. cbn [fst snd]. specialize (B s x Hx).
        unfold exclusion_relationship. rewrite eval_bitor, !eval_neg. destruct (env s), (env x); simpl; auto; tauto.
      + destruct Hu as ([s x] & <- & Hx). apply (proj1 (push_all_pairs _ _ _)) in Hx. cbn [fst snd]. specialize (C s x Hx).
        unfold inclusion_relationship. rewrite eval_bitor, eval_neg, eval_pos. destruct (env s), (env x); simpl; auto.
  Qed.

  Lemma robdd_fold_and (l : list (dd I)) : forall t, robdd t -> (forall u, In u l -> robdd u) -> robdd (fold_left bitand l t).
  Proof.
    induction l as [|u l IH]; intros t R A; simpl; auto. apply IH.
    - apply robdd_and; auto. apply A; left; reflexivity.
    - intros w Hw. apply A; right; exact Hw.
  Qed.
  Lemma robdd_fold_or (l : list (dd I)) : forall t, robdd t -> (forall u, In u l -> robdd u) -> robdd (fold_left bitor l t).
  Proof.
    induction l as [|u l IH]; intros t R A; simpl; auto. apply IH.
    - apply robdd_or; auto. apply A; left; reflexivity.
    - intros w Hw. apply A; right; exact Hw.
  Qed.
  Lemma labels_fold_and (P : I -> Prop) (l : list (dd I)) : forall t, (forall x, In x (labels t) -> P x) ->
    (forall u x, In u l -> In x (labels u) -> P x) -> forall x, In x (labels (fold_left bitand l t)) -> P x.
  Proof.
    induction l as [|u l IH]; intros t A B; simpl; auto. apply IH.
    - intros x Hx. apply labels_bitand in Hx. destruct Hx; auto. apply (B u); auto. left; reflexivity.
    - intros w x Hw. apply B. right; exact Hw.
  Qed.
  Lemma labels_fold_or (P : I -> Prop) (l : list (dd I)) : forall t, (forall x, In x (labels t) -> P x) ->
    (forall u x, In u l -> In x (labels u) -> P x) -> forall x, In x (labels (fold_left bitor l t)) -> P x.
  Proof.
    induction l as [|u l IH]; intros t A B; simpl; auto. apply IH.
    - intros x Hx. apply labels_bitor in Hx. destruct Hx; auto. apply (B u); auto. left; reflexivity.
    - intros w x Hw. apply B. right; exact Hw.
  Qed.

  Lemma sibling_inner items i u : In u (map snd (map_insert (negs items []) i (positive_branch i))) ->
    u = positive_branch i \/ exists j, In j items /\ u = negative_branch j.
  Proof.
    intros Hu. apply in_map_iff in Hu. destruct Hu as ([j u'] & E & Hu). simpl in E. subst u'.
    assert (M : map_ok (negs items [])) by (apply negs_ok; constructor).
    apply map_get_in in Hu; [|apply map_update_ok; exact M].
    unfold map_insert in Hu. rewrite map_update_get in Hu by exact M. destruct (eqb_ j i); [left; congruence|].
    rewrite negs_get in Hu by constructor. destruct (memb j items) eqn:Mj; [|discriminate].
    apply memb_spec in Mj. right. exists j. split; auto. congruence.
  Qed.
  Lemma robdd_sibling items : robdd (sibling_relationship items).
  Proof.
    unfold sibling_relationship. cbn zeta. fold (negs items []). apply robdd_fold_or; [apply robdd_leaf|].
    intros u Hu. apply in_map_iff in Hu. destruct Hu as (i & <- & Hi).
    rewrite (fold_left_map bitand snd). apply robdd_fold_and; [apply robdd_leaf|].
    intros w Hw. apply sibling_inner in Hw. destruct Hw as [->|(j & _ & ->)]; [apply robdd_pos|apply robdd_neg].
  Qed.
  Lemma labels_sibling items x : In x (labels (sibling_relationship items)) -> In x items.
  Proof.
    unfold sibling_relationship. cbn zeta. fold (negs items []). revert x. apply labels_fold_or; [simpl; tauto|].
    intros u x Hu. apply in_map_iff in Hu. destruct Hu as (i & <- & Hi).
    rewrite (fold_left_map bitand snd). revert x. apply labels_fold_and; [simpl; tauto|].
    intros w x Hw. apply sibling_inner in Hw. destruct Hw as [->|(j & Hj & ->)]; simpl; intros [<-|[]]; auto.
  Qed.

  Lemma robdd_root calls : robdd (root_of calls).
  Proof.
    unfold root_of, build_root. cbn zeta.
    rewrite (fold_left_map bitand (fun p : F * list I => sibling_relationship (snd p))).
    rewrite (fold_left_map bitand (fun p : I * I => exclusion_relationship (fst p) (snd p))).
    rewrite (fold_left_map bitand (fun p : I * I => inclusion_relationship (fst p) (snd p))).
    repeat apply robdd_fold_and; [apply robdd_leaf| | |]; intros u Hu; apply in_map_iff in Hu; destruct Hu as (p & <- & _).
    - apply robdd_sibling.
    - apply robdd_or; apply robdd_neg.
    - apply robdd_or; [apply robdd_neg|apply robdd_pos].
  Qed.
  Lemma labels_root calls x : legal calls -> In x (labels (root_of calls)) -> known calls x.
  Proof.
    intros (_ & L). unfold root_of, build_root. rewrite run_calls_spec. cbn [b_contents b_index b_excl b_incl]. cbn zeta.
    rewrite (fold_left_map bitand (fun p : F * list I => sibling_relationship (snd p))).
    rewrite (fold_left_map bitand (fun p : I * I => exclusion_relationship (fst p) (snd p))).
    rewrite (fold_left_map bitand (fun p : I * I => inclusion_relationship (fst p) (snd p))).
    unfold rule_pairs. revert x. repeat (apply labels_fold_and); [simpl; tauto| | |]; intros u x Hu; apply in_map_iff in Hu.
    - destruct Hu as ([f is] & <- & Hp). apply push_all_in in Hp. destruct Hp as (-> & _). cbn [snd].
      intros Hx. apply labels_sibling in Hx. apply vals_in in Hx. exists f; exact Hx.
    - destruct Hu as ([s y] & <- & Hy). apply (proj1 (push_all_pairs _ _ _)) in Hy. destruct (L s y (or_introl Hy)) as (A & B & _).
      cbn [fst snd]. intros Hx. apply labels_bitor in Hx. simpl in Hx. destruct Hx as [[<-|[]]|[<-|[]]]; auto.
    - destruct Hu as ([s y] & <- & Hy). apply (proj1 (push_all_pairs _ _ _)) in Hy. destruct (L s y (or_intror Hy)) as (A & B & _).
      cbn [fst snd]. intros Hx. apply labels_bitor in Hx. simpl in Hx. destruct Hx as [[<-|[]]|[<-|[]]]; auto.
  Qed.

  Definition items_of (calls : list call) : list I := map fst (index_of calls).
  Lemma items_of_sorted calls : ssorted (items_of calls).
  Proof. apply index_of_ok. Qed.
  Lemma items_of_in calls x : In x (items_of calls) <-> known calls x.
  Proof.
    unfold items_of. destruct (first_family calls x) as [f|] eqn:E.
    - split; intros _; [apply first_family_known; eauto|].
      rewrite <- index_of_get in E. apply map_get_in in E; [|apply index_of_ok]. apply in_map_iff. exists (x, f); auto.
    - pose proof E as E0. rewrite <- index_of_get in E. apply map_get_none in E; [|apply index_of_ok].
      apply first_family_none in E0. tauto.
  Qed.

  Lemma isolated_root calls : legal calls -> isolated (items_of calls) (root_of calls).
  Proof.
    intros L env x Hx E. apply items_of_in in Hx. destruct Hx as (f & Hf).
    destruct (eval (upd env x (negb (env x))) (root_of calls)) eqn:E2; auto. exfalso.
    apply eval_root in E. apply eval_root in E2. destruct E as (A & _). destruct E2 as (B & _).
    destruct (A f x Hf) as (j & Hj & Ej & Uj). destruct (B f x Hf) as (k & Hk & Ek & Uk).
    destruct (env x) eqn:Ex; simpl in *.
    - assert (x = j) by (apply Uj; auto). subst j.
      destruct (eq_dec_ k x) as [->|N]; [rewrite upd_same in Ek; discriminate|].
      rewrite upd_other in Ek by auto. apply N. apply Uj; auto.
    - assert (j <> x) as N by congruence.
      assert (j = k) by (apply Uk; auto; rewrite upd_other; auto).
      assert (x = k) by (apply Uk; auto; apply upd_same). congruence.
  Qed.

  (** ** after selections *)
  Definition wenv (sels : list I) (env : I -> bool) : I -> bool := fun x => memb x sels || env x.
  Lemma restrict_all_app (t : dd I) s1 s2 : restrict_all t (s1 ++ s2) = restrict_all (restrict_all t s1) s2.
  Proof. apply fold_left_app. Qed.
  Lemma robdd_restrict_all sels : forall t : dd I, robdd t -> robdd (restrict_all t sels).
  Proof. induction sels; simpl; auto. intros t R. apply IHsels, robdd_restrict, R. Qed.
  Lemma eval_restrict_all env sels : forall t : dd I, robdd t -> eval env (restrict_all t sels) = eval (wenv sels env) t.
  Proof.
    induction sels as [|i sels IH]; intros t R; simpl; [reflexivity|].
    rewrite IH by (apply robdd_restrict; auto). rewrite eval_restrict by apply R. apply eval_ext.
    intros x _. unfold upd, wenv. rewrite memb_cons. destruct (eqb_ x i); reflexivity.
  Qed.
  Lemma labels_restrict_all sels : forall (t : dd I) x, robdd t -> In x (labels (restrict_all t sels)) -> In x (labels t) /\ ~ In x sels.
  Proof.
    induction sels as [|i sels IH]; intros t x R Hx; simpl in Hx; [auto|].
    apply IH in Hx; [|apply robdd_restrict; auto]. destruct Hx as (A & B). split; [eapply labels_restrict; eauto|].
    intros [->|C]; [|contradiction]. exact (restrict_gone t x true (proj1 R) A).
  Qed.
  Lemma restrict_all_ext s1 s2 (t : dd I) : robdd t -> same_elems s1 s2 -> restrict_all t s1 = restrict_all t s2.
  Proof.
    intros R E. apply robdd_ext; auto using robdd_restrict_all. intros env. rewrite !eval_restrict_all by auto.
    apply eval_ext. intros x _. unfold wenv.
    assert (memb x s1 = memb x s2) as -> by (apply eq_true_iff_eq; rewrite !memb_spec; apply E). reflexivity.
  Qed.

  Definition rest (calls : list call) (sels : list I) : list I := filter (fun x => negb (memb x sels)) (items_of calls).
  Lemma rest_in calls sels x : In x (rest calls sels) <-> known calls x /\ ~ In x sels.
  Proof. unfold rest. rewrite filter_In, items_of_in, negb_true_iff, memb_false. tauto. Qed.
  Lemma ssorted_filter {T} `{Ord T} (g : T -> bool) l : ssorted l -> ssorted (filter g l).
  Proof.
    induction 1 as [|x l S IH Fx]; simpl; [constructor|]. destruct (g x); auto.
    constructor; auto. rewrite Forall_forall in *. intros y Hy. apply filter_In in Hy. apply Fx. tauto.
  Qed.
  Lemma rest_sorted calls sels : ssorted (rest calls sels).
  Proof. apply ssorted_filter, items_of_sorted. Qed.

  Lemma full_root calls sels : legal calls -> full (rest calls sels) (restrict_all (root_of calls) sels).
  Proof.
    intros L. pose proof (robdd_root calls) as R. apply full_of_isolated.
    - apply rest_sorted.
    - apply robdd_restrict_all; auto.
    - intros x Hx. apply labels_restrict_all in Hx; auto. apply rest_in. split; [|tauto]. apply labels_root; tauto.
    - intros env x Hx E. apply rest_in in Hx. destruct Hx as (K & N).
      rewrite eval_restrict_all in E |- * by auto.
      rewrite <- (isolated_root calls L (wenv sels env) x); [|apply items_of_in; exact K|exact E].
      apply eval_ext. intros y _. unfold wenv, upd. apply memb_false in N.
      destruct (eqb_spec_ y x) as [->|]; [|reflexivity]. rewrite N. reflexivity.
  Qed.

  Lemma valid_env_outfit calls o : (forall i, In i o -> known calls i) ->
    (valid_env calls (fun x => memb x o) <-> valid_outfit calls o).
  Proof.
    intros K. unfold valid_env, valid_outfit. split.
    - intros (A & B & C). split; auto. split; [|split].
      + intros f i Hi. destruct (A f i Hi) as (j & Hj & Ej & U). exists j. rewrite memb_spec in Ej. repeat split; auto.
        intros k Hk Ek. apply U; auto. apply memb_spec; exact Ek.
      + intros s x Hx. specialize (B s x Hx). rewrite !memb_spec in B. exact B.
      + intros s x Hx. specialize (C s x Hx). rewrite !memb_spec in C. exact C.
    - intros (_ & A & B & C). split; [|split].
      + intros f i Hi. destruct (A f i Hi) as (j & Hj & Ej & U). exists j. rewrite memb_spec. repeat split; auto.
        intros k Hk Ek. apply U; auto. apply memb_spec; exact Ek.
      + intros s x Hx. rewrite !memb_spec. auto.
      + intros s x Hx. rewrite !memb_spec. eauto.
  Qed.
  Lemma valid_outfit_ext calls o o' : same_elems o o' -> valid_outfit calls o -> valid_outfit calls o'.
  Proof.
    intros E (K & A & B & C). unfold valid_outfit. split; [intros i Hi; apply K, E, Hi|]. split; [|split].
    - intros f i Hi. destruct (A f i Hi) as (j & Hj & Ej & U). exists j. split; auto. split; [apply E; auto|].
      intros k Hk Ek. apply U; auto. apply E; auto.
    - intros s x Hx (P & Q). apply (B s x Hx). split; apply E; auto.
    - intros s x Hx P. apply E, (C s x Hx), E, P.
  Qed.

  Lemma eval_outfit calls sels p : legal calls -> incl sels (items_of calls) -> incl p (items_of calls) ->
    (eval (fun x => memb x p) (restrict_all (root_of calls) sels) = true <-> valid_outfit calls (sels ++ p)).
  Proof.
    intros L S P. rewrite eval_restrict_all by apply robdd_root.
    rewrite <- valid_env_outfit, <- eval_root.
    - assert (forall x, wenv sels (fun y => memb y p) x = memb x (sels ++ p)) as E.
      { intros x. unfold wenv, memb. rewrite existsb_app. reflexivity. }
      rewrite (eval_ext _ (wenv sels (fun y => memb y p)) (fun x => memb x (sels ++ p))) by (intros; apply E). tauto.
    - intros i Hi. apply items_of_in. apply in_app_iff in Hi. destruct Hi; auto.
  Qed.

  Lemma paths_root calls sels p : legal calls -> incl sels (items_of calls) ->
    (In p (paths (restrict_all (root_of calls) sels)) <->
     ssorted p /\ incl p (rest calls sels) /\ valid_outfit calls (sels ++ p)).
  Proof.
    intros L S. rewrite (full_paths _ _ (rest_sorted calls sels) (full_root calls sels L)). split.
    - intros (A & B & C). split; auto. split; auto. apply eval_outfit; auto.
      intros x Hx. apply items_of_in. apply B in Hx. apply rest_in in Hx. tauto.
    - intros (A & B & C). split; auto. split; auto. apply eval_outfit; auto.
      intros x Hx. apply items_of_in. apply B in Hx. apply rest_in in Hx. tauto.
  Qed.

  (** an outfit containing the selections gives a path *)
  Definition outside (sels o : list I) : list I := filter (fun x => negb (memb x sels)) (sort (unique o)).
  Lemma outside_in sels o x : In x (outside sels o) <-> In x o /\ ~ In x sels.
  Proof. unfold outside. rewrite filter_In, sort_in, unique_in, negb_true_iff, memb_false. tauto. Qed.
  Lemma outside_sorted sels o : ssorted (outside sels o).
  Proof. apply ssorted_filter, sort_ssorted, unique_NoDup. Qed.
  Lemma outside_path calls sels o : legal calls -> incl sels (items_of calls) -> incl sels o -> valid_outfit calls o ->
    In (outside sels o) (paths (restrict_all (root_of calls) sels)).
  Proof.
    intros L S A V. apply paths_root; auto. split; [apply outside_sorted|]. split.
    - intros x Hx. apply outside_in in Hx. apply rest_in. split; [|tauto]. apply V. tauto.
    - eapply valid_outfit_ext; [|exact V]. intros x. rewrite in_app_iff, outside_in.
      destruct (in_dec_ x sels); split; intros; auto; try tauto.
  Qed.

  Lemma root_false calls sels : legal calls -> incl sels (items_of calls) ->
    (restrict_all (root_of calls) sels = Leaf false <-> ~ satisfiable calls sels).
  Proof.
    intros L S. split.
    - intros E (o & V & A). pose proof (outside_path calls sels o L S A V) as X. rewrite E in X. destruct X.
    - intros N. destruct (dd_eqb_spec (restrict_all (root_of calls) sels) (Leaf false)) as [E|E]; auto. exfalso.
      destruct (full_sat _ _ (full_root calls sels L) E) as (p & Hp). apply paths_root in Hp; auto.
      apply N. exists (sels ++ p). split; [tauto|]. intros x Hx. apply in_or_app; auto.
  Qed.
  Lemma sat_dec calls sels : legal calls -> incl sels (items_of calls) -> satisfiable calls sels \/ ~ satisfiable calls sels.
  Proof.
    intros L S. rewrite <- root_false by auto. destruct (dd_eqb_spec (restrict_all (root_of calls) sels) (Leaf false)) as [E|E]; auto.
    left. destruct (full_sat _ _ (full_root calls sels L) E) as (p & Hp). apply paths_root in Hp; auto.
    exists (sels ++ p). split; [tauto|]. intros x Hx. apply in_or_app; auto.
  Qed.

  (** ** the closet after building and selecting *)
  Record Inv (calls : list call) (sels : list I) (c : closet I F) : Prop := {
    inv_legal : legal calls;
    inv_index : c_index c = index_of calls;
    inv_known : incl sels (items_of calls);
    inv_root : c_root c = restrict_all (root_of calls) sels;
    inv_sel : forall x, In (Selected x) (c_summary c) <-> In x sels;
    inv_oth : forall s, is_selected s = false -> (In s (c_summary c) <-> In s (summarize ho_id (c_root c)));
    inv_sorted : ssorted (c_summary c)
  }.

  Lemma summarize_h h (t : dd I) : summarize h t = summarize ho_id t.
  Proof.
    apply ssorted_ext; try apply summarize_ssorted. intros s. rewrite !summarize_spec. tauto.
  Qed.
  Lemma summarize_not_selected h (t : dd I) x : ~ In (Selected x) (summarize h t).
  Proof. rewrite summarize_spec. intros [(y & E & _)|(y & E & _)]; discriminate. Qed.

  Lemma reached_inv calls sels c : reached calls sels c -> Inv calls sels c.
  Proof.
    induction 1 as [h c E|sels c h i c' R IH E].
    - unfold build in E. destruct (validate_closet (run_calls calls)) as [[]|] eqn:V; [|discriminate].
      injection E as <-. apply validate_ok in V. split; simpl.
      + exact V.
      + rewrite run_calls_spec. reflexivity.
      + intros x [].
      + reflexivity.
      + intros x. split; [|tauto]. intros X. apply summarize_not_selected in X. exact X.
      + intros s _. rewrite (summarize_h h). tauto.
      + apply summarize_ssorted.
    - destruct IH as [A B C D S O Z]. unfold select_item in E.
      destruct (get_family c i) as [f|] eqn:G; [|discriminate]. unfold get_family in G. rewrite B, index_of_get in G.
      destruct (find _ _) as [s|]; [discriminate|]. injection E as <-. split; simpl.
      + exact A.
      + exact B.
      + intros x Hx. apply in_app_iff in Hx. destruct Hx as [Hx|[<-|[]]]; auto.
        apply items_of_in, first_family_known. eauto.
      + rewrite D, restrict_all_app. reflexivity.
      + intros x. rewrite sort_in, unique_in, !in_app_iff, filter_In, S. simpl. split.
        * intros [(X & _)|[X|X]]; [auto|injection X as <-; auto|]. apply summarize_not_selected in X. destruct X.
        * intros [X|[<-|[]]]; [left; auto|right; left; reflexivity].
      + intros s Ns. rewrite sort_in, unique_in, !in_app_iff, filter_In. simpl. rewrite (summarize_h h). split.
        * intros [(_ & X)|[X|X]]; [congruence|subst s; discriminate|exact X].
        * auto.
      + apply sort_ssorted, unique_NoDup.
  Qed.

  Lemma inv_eq calls s1 s2 c1 c2 : same_elems s1 s2 -> Inv calls s1 c1 -> Inv calls s2 c2 -> c1 = c2.
  Proof.
    intros E A B. destruct c1 as [i1 m1 r1], c2 as [i2 m2 r2].
    pose proof (inv_index _ _ _ A) as A1. pose proof (inv_index _ _ _ B) as B1.
    pose proof (inv_root _ _ _ A) as A2. pose proof (inv_root _ _ _ B) as B2. simpl in *.
    assert (r1 = r2) as ->. { rewrite A2, B2. apply restrict_all_ext; auto. apply robdd_root. }
    f_equal; [congruence|]. apply ssorted_ext; [apply (inv_sorted _ _ _ A)|apply (inv_sorted _ _ _ B)|].
    intros s. destruct (is_selected s) eqn:Es.
    - destruct s as [x|x|x]; try discriminate.
      rewrite (inv_sel _ _ _ A x), (inv_sel _ _ _ B x). apply E.
    - rewrite (inv_oth _ _ _ A s Es), (inv_oth _ _ _ B s Es). simpl. tauto.
  Qed.

  Lemma inv_full calls sels c : Inv calls sels c -> full (rest calls sels) (c_root c).
  Proof. intros A. rewrite (inv_root _ _ _ A). apply full_root, (inv_legal _ _ _ A). Qed.
  Lemma inv_false calls sels c : Inv calls sels c -> (c_root c = Leaf false <-> ~ satisfiable calls sels).
  Proof. intros A. rewrite (inv_root _ _ _ A). apply root_false; [apply (inv_legal _ _ _ A)|apply (inv_known _ _ _ A)]. Qed.
  Lemma inv_family calls sels c x : Inv calls sels c -> get_family c x = first_family calls x.
  Proof. intros A. unfold get_family. rewrite (inv_index _ _ _ A). apply index_of_get. Qed.

  Lemma inv_available calls sels c x : Inv calls sels c ->
    (In (Available x) (c_summary c) <-> ~ In x sels /\ exists o, valid_outfit calls o /\ incl sels o /\ In x o).
  Proof.
    intros A. pose proof (inv_legal _ _ _ A) as L. pose proof (inv_known _ _ _ A) as K.
    rewrite (inv_oth _ _ _ A) by reflexivity. rewrite summarize_spec.
    rewrite (inv_root _ _ _ A). pose proof (full_available _ _ x (rest_sorted calls sels) (full_root calls sels L)) as FA.
    split.
    - intros [(y & E & X)|(y & E & _)]; [|discriminate]. injection E as <-. apply FA in X. destruct X as (p & Hp & Hx).
      apply paths_root in Hp; auto. destruct Hp as (P1 & P2 & P3). split.
      + apply P2 in Hx. apply rest_in in Hx. tauto.
      + exists (sels ++ p). split; auto. split; [intros z Hz; apply in_or_app; auto|apply in_or_app; auto].
    - intros (N & o & V & S & Hx). left. exists x. split; auto. apply FA. exists (outside sels o).
      split; [apply outside_path; auto|]. apply outside_in; auto.
  Qed.
  Lemma inv_excluded calls sels c x : Inv calls sels c -> satisfiable calls sels ->
    (In (Excluded x) (c_summary c) <-> known calls x /\ ~ In x sels /\ ~ exists o, valid_outfit calls o /\ incl sels o /\ In x o).
  Proof.
    intros A Sat. pose proof (inv_legal _ _ _ A) as L. pose proof (inv_known _ _ _ A) as K.
    assert (NF : c_root c <> Leaf false). { intros E. apply (inv_false _ _ _ A) in E. contradiction. }
    pose proof (inv_available calls sels c x A) as AV. rewrite (inv_oth _ _ _ A) in AV by reflexivity.
    rewrite (inv_oth _ _ _ A) by reflexivity. rewrite summarize_spec in AV |- *.
    assert (LB : In x (labels (c_root c)) <-> known calls x /\ ~ In x sels).
    { rewrite <- rest_in. split; [apply full_labels, (inv_full _ _ _ A)|]. apply full_label_path; [apply (inv_full _ _ _ A)|exact NF]. }
    split.
    - intros [(y & E & X)|(y & E & X & N)]; [discriminate|]. injection E as <-. apply LB in X. split; [tauto|]. split; [tauto|].
      intros V. apply N. assert (exists y, Available x = Available y /\ available_in (c_root c) y) as (y & E & Y).
      { destruct AV as [_ AV]. destruct AV as [Y|(y & E & _)]; [tauto|exact Y|discriminate]. }
      injection E as <-. exact Y.
    - intros (P & Q & N). right. exists x. split; auto. split; [apply LB; auto|]. intros Y.
      apply N. destruct AV as [AV _]. destruct AV as (_ & V); [left; eauto|exact V].
  Qed.

  Lemma admits_iff calls sels c o : reached calls sels c -> (admits c o <-> valid_outfit calls o /\ incl sels o).
  Proof.
    intros R. pose proof (reached_inv _ _ _ R) as A. pose proof (inv_legal _ _ _ A) as L. pose proof (inv_known _ _ _ A) as K.
    unfold admits. split.
    - intros (P & Q & E).
      assert (So : incl sels o) by (intros x Hx; apply Q, (inv_sel _ _ _ A), Hx).
      assert (Ko : incl o (items_of calls)).
      { intros x Hx. specialize (P x Hx). rewrite (inv_family _ _ _ _ A) in P. apply items_of_in, first_family_known.
        destruct (first_family calls x); [eauto|congruence]. }
      rewrite (inv_root _ _ _ A) in E. apply eval_outfit in E; auto. split; auto.
      eapply valid_outfit_ext; [|exact E]. intros x. rewrite in_app_iff. split; [intros [X|X]; auto|auto].
    - intros (V & S). split; [|split].
      + intros x Hx. rewrite (inv_family _ _ _ _ A). assert (known calls x) as KX by (apply V; auto).
        apply first_family_known in KX. destruct KX as (f & ->). discriminate.
      + intros x Hx. apply S, (inv_sel _ _ _ A), Hx.
      + rewrite (inv_root _ _ _ A). apply eval_outfit; auto.
        * intros x Hx. apply items_of_in. apply V; auto.
        * eapply valid_outfit_ext; [|exact V]. intros x. rewrite in_app_iff. split; [auto|intros [X|X]; auto].
  Qed.
End Builder.
