(** BddThm: proofs of the property theorems about bowtie, in the form in which
    Properties_Bdd.v states them, with non-vacuity examples. *)
From Coq Require Import List Arith Lia Bool Permutation Sorted.
From Verif Require Import Base DD Spec BddSpec BddModel BddRun BddNode BddCloset.
Import ListNotations.

(** C43.  [&] and [|] on any two nodes, ordered or not. *)
Lemma C43_and_or_eval_pf : forall (I : Type) (O : Ord I) (env : I -> bool) (a b : dd I),
  eval env (bitand a b) = eval env a && eval env b /\
  eval env (bitor a b) = eval env a || eval env b.
Proof. intros. split; [apply eval_bitand|apply eval_bitor]. Qed.
Example C43_example : bitand (bitor (positive_branch 1) (positive_branch 2)) (negative_branch 1)
  = Branch 1 (Branch 2 (Leaf false) (Leaf true)) (Leaf false).
Proof. reflexivity. Qed.

(** C44 is false: [!] and [^] go wrong on [x & y]. *)
Lemma C44_not_xor_refuted_pf :
  ~ (forall (env : nat -> bool) (a b : dd nat), eval env (bitnot a) = negb (eval env a)) /\
  ~ (forall (env : nat -> bool) (a b : dd nat), eval env (bitxor a b) = xorb (eval env a) (eval env b)).
Proof.
  split; intros C.
  - specialize (C (fun _ => false) (bitand (positive_branch 1) (positive_branch 2)) (Leaf false)). discriminate.
  - specialize (C (fun _ => false) (Leaf true) (bitand (positive_branch 1) (positive_branch 2))). discriminate.
Qed.

(** C44, what holds: on an ordered node [!] is right exactly for leaves and for
    branches whose children are complementary (such as single-item branches) ... *)
Lemma C44_not_partial_pf : forall (I : Type) (O : Ord I) (a : dd I), bordered a ->
  ((forall env, eval env (bitnot a) = negb (eval env a)) <->
   match a with
   | Leaf _ => True
   | Branch _ lo hi => forall env, eval env lo = negb (eval env hi)
   end).
Proof.
  intros I O a B. destruct a as [v|i lo hi].
  - split; auto. intros _ env. destruct v; reflexivity.
  - split.
    + intros E env. specialize (E (upd env i true)). simpl in E. rewrite upd_same in E.
      rewrite !eval_upd_fresh in E; [exact E|eapply fresh_hi; eauto|eapply fresh_lo; eauto].
    + intros E env. simpl. destruct (env i); rewrite E; [reflexivity|]. rewrite negb_involutive. reflexivity.
Qed.
(** ... and [^] is right whenever [!] is right on both operands. *)
Lemma C44_xor_partial_pf : forall (I : Type) (O : Ord I) (a b : dd I) (env : I -> bool),
  eval env (bitnot a) = negb (eval env a) -> eval env (bitnot b) = negb (eval env b) ->
  eval env (bitxor a b) = xorb (eval env a) (eval env b).
Proof.
  intros I O a b env A B. unfold bitxor. rewrite eval_bitor, !eval_bitand, A, B.
  destruct (eval env a), (eval env b); reflexivity.
Qed.
(** ... and what they compute on any node, ordered or not where said: [!] reads its
    top item the wrong way round and leaves everything below as it was, and [^] is
    the usual formula over that. *)
Lemma C44_exact_partial_pf : forall (I : Type) (O : Ord I) (a b : dd I) (env : I -> bool),
  (bordered a -> eval env (bitnot a) =
     match a with
     | Leaf v => negb v
     | Branch i _ _ => eval (upd env i (negb (env i))) a
     end) /\
  bitnot (bitnot a) = a /\
  eval env (bitxor a b) =
    (eval env a && eval env (bitnot b)) || (eval env (bitnot a) && eval env b).
Proof.
  intros I O a b env. split; [|split].
  - intros B. destruct a as [v|i lo hi]; [destruct v; reflexivity|].
    simpl. rewrite upd_same.
    rewrite !eval_upd_fresh; [|eapply fresh_lo; eauto|eapply fresh_hi; eauto].
    destruct (env i); reflexivity.
  - destruct a as [v|i lo hi]; [destruct v|]; reflexivity.
  - unfold bitxor. rewrite eval_bitor, !eval_bitand. 
    destruct (eval env a), (eval env b), (eval env (bitnot a)), (eval env (bitnot b)); reflexivity.
Qed.
Example C44_example : bitxor (positive_branch 1) (positive_branch 2)
  = Branch 1 (Branch 2 (Leaf false) (Leaf true)) (Branch 2 (Leaf true) (Leaf false)).
Proof. reflexivity. Qed.

(** C45.  [reduce]. *)
Lemma C45_reduce_pf : forall (I : Type) (O : Ord I) (a : dd I) (env : I -> bool),
  eval env (reduce a) = eval env a /\ breduced (reduce a).
Proof. intros. split; [apply eval_reduce|apply breduced_reduce]. Qed.
(** [restrict] *)
Lemma C45_restrict_pf : forall (I : Type) (O : Ord I) (a : dd I) (i : I) (v : bool), bordered a ->
  (forall env, eval env (restrict a i v) = eval (upd env i v) a) /\
  ~ In i (labels (restrict a i v)) /\ bordered (restrict a i v).
Proof.
  intros I O a i v B. split; [|split].
  - intros env. apply eval_restrict; auto.
  - apply restrict_gone; auto.
  - apply bordered_restrict; auto.
Qed.
Example C45_example : restrict (Branch 1 (Branch 2 (Leaf false) (Leaf true)) (Branch 2 (Leaf true) (Leaf false))) 2 true
  = Branch 1 (Leaf true) (Leaf false).
Proof. reflexivity. Qed.

Lemma made_robdd {I} `{Ord I} (a : dd I) : made a -> robdd a.
Proof.
  induction 1; auto using robdd_leaf, robdd_pos, robdd_neg, robdd_and, robdd_or, robdd_restrict, robdd_reduce.
Qed.
(** C46.  Nodes made from single-item branches are equal iff they denote the same boolean function. *)
Lemma C46_canonical_pf : forall (I : Type) (O : Ord I) (a b : dd I), made a -> made b ->
  ((forall env, eval env a = eval env b) <-> a = b).
Proof.
  intros I O a b A B. split; [|intros ->; reflexivity]. apply robdd_ext; apply made_robdd; auto.
Qed.
(** In particular they are ordered, without redundant branches. *)
Lemma C46_ordered_reduced_pf : forall (I : Type) (O : Ord I) (a : dd I), made a -> bordered a /\ breduced a.
Proof. intros I O a A. apply made_robdd; exact A. Qed.
Example C46_example :
  bitor (bitand (positive_branch 2) (positive_branch 1)) (positive_branch 2) = positive_branch 2.
Proof. reflexivity. Qed.

(** C47.  [build] succeeds exactly on legal histories ... *)
Lemma C47_build_ok_iff_legal_pf : forall (I F : Type) (OI : Ord I) (OF : Ord F) (h : hash_order) (calls : list (bcall I F)),
  (exists c, build h (run_calls calls) = Ok c) <-> legal calls.
Proof.
  intros. rewrite <- validate_ok. unfold build. destruct (validate_closet (run_calls calls)) as [[]|e].
  - split; eauto.
  - split; [intros (c & E)|]; discriminate.
Qed.
(** ... and otherwise reports exactly the real violations, a single one bare,
    several in a [CompoundError] without repeats. *)
Lemma C47_errors_exact_pf : forall (I F : Type) (OI : Ord I) (OF : Ord F) (h : hash_order) (calls : list (bcall I F)) e,
  build h (run_calls calls) = Err e ->
  exists l, NoDup l /\ (forall v, In v l <-> real_violation calls v) /\
    ((exists v, l = [v] /\ e = Single v) \/ (2 <= length l /\ e = CompoundError l)).
Proof.
  intros I F OI OF h calls e E. unfold build in E.
  destruct (validate_closet (run_calls calls)) as [u|e'] eqn:V; [discriminate|]. injection E as ->.
  exists (conflicts_of (run_calls calls)). split; [apply unique_NoDup|]. split; [intros v; apply conflicts_spec|].
  unfold validate_closet in V. destruct (conflicts_of (run_calls calls)) as [|v [|w l]]; [discriminate| |].
  - left. injection V as <-. eauto.
  - right. injection V as <-. simpl. split; [lia|reflexivity].
Qed.
Definition ex_calls : list (bcall nat nat) :=
  [AddItem 1 11; AddItems 1 [12; 13]; AddItems 2 [21; 22; 23]; AddExcl 11 21; AddIncl 12 22].
Lemma ex_build h : exists c, build h (run_calls ex_calls) = Ok c.
Proof. eexists. unfold build. vm_compute. reflexivity. Qed.
Example C47_example_ok : legal ex_calls.
Proof. apply (C47_build_ok_iff_legal_pf _ _ _ _ ho_id), ex_build. Qed.
Example C47_example_err : build ho_id (run_calls ([AddItem 1 11; AddItem 2 11; AddExcl 11 30; AddIncl 11 11] : list (bcall nat nat)))
  = Err (CompoundError [ConflictingFamilies 11 [1; 2]; MissingFamily 30; InclusionError 1 [11; 11]]).
Proof. vm_compute. reflexivity. Qed.

(** C48.  A built closet admits exactly the valid outfits; after selections,
    exactly those that contain them. *)
Lemma C48_admits_valid_outfits_pf : forall (I F : Type) (OI : Ord I) (OF : Ord F) (calls : list (bcall I F)) sels c (o : list I),
  reached calls sels c -> (admits c o <-> valid_outfit calls o /\ incl sels o).
Proof. intros. eapply admits_iff; eauto. Qed.
(** every item of the history, and no other, is known to the closet, under the
    family it was added to *)
Lemma C48_families_pf : forall (I F : Type) (OI : Ord I) (OF : Ord F) (calls : list (bcall I F)) sels c i f,
  reached calls sels c -> (get_family c i = Some f <-> In (f, i) (adds calls)).
Proof.
  intros I F OI OF calls sels c i f R. pose proof (reached_inv _ _ _ R) as A. rewrite (inv_family _ _ _ _ A). split.
  - apply first_family_in.
  - apply legal_first, (inv_legal _ _ _ A).
Qed.
Example C48_example : exists c, reached ex_calls [] c /\ admits c [12; 22] /\ ~ admits c [11; 21].
Proof.
  destruct (ex_build ho_id) as (c & E). exists c. split; [econstructor; exact E|].
  assert (R : reached ex_calls [] c) by (econstructor; exact E).
  vm_compute in E. injection E as <-. split.
  - split; [|split]; [|intros i Hi; simpl in Hi; intuition discriminate|reflexivity].
    intros i [<-|[<-|[]]]; discriminate.
  - intros (_ & _ & X). discriminate.
Qed.

(** C49.  [outfit_count] is the length of the list of all the valid outfits
    containing the selections. *)
Lemma C49_outfit_count_pf : forall (I F : Type) (OI : Ord I) (OF : Ord F) (calls : list (bcall I F)) sels c,
  reached calls sels c ->
  exists outfits, NoDup outfits /\
    (forall o, In o outfits <-> ssorted o /\ valid_outfit calls o /\ incl sels o) /\
    outfit_count (c_root c) = length outfits.
Proof.
  intros I F OI OF calls sels c R. pose proof (reached_inv _ _ _ R) as A.
  pose proof (inv_legal _ _ _ A) as L. pose proof (inv_known _ _ _ A) as K.
  rewrite outfit_count_paths, (inv_root _ _ _ A).
  set (g := fun p => sort (unique (sels ++ p))). exists (map g (paths (restrict_all (root_of calls) sels))).
  assert (Gin : forall p x, In x (g p) <-> In x sels \/ In x p).
  { intros p x. unfold g. rewrite sort_in, unique_in, in_app_iff. tauto. }
  split; [|split].
  - apply NoDup_map_inj; [|apply (full_paths_NoDup _ _ (rest_sorted calls sels) (full_root calls sels L))].
    intros p q Hp Hq E. apply paths_root in Hp; auto. apply paths_root in Hq; auto.
    destruct Hp as (P1 & P2 & _), Hq as (Q1 & Q2 & _).
    apply ssorted_ext; auto. intros x. pose proof (Gin p x) as G1. pose proof (Gin q x) as G2. rewrite E in G1.
    split; intros X; [pose proof (P2 _ X) as Y|pose proof (Q2 _ X) as Y]; apply rest_in in Y; tauto.
  - intros o. rewrite in_map_iff. split.
    + intros (p & <- & Hp). apply paths_root in Hp; auto. destruct Hp as (P1 & P2 & P3).
      split; [apply sort_ssorted, unique_NoDup|]. split.
      * eapply valid_outfit_ext; [|exact P3]. intros x. rewrite in_app_iff, Gin. tauto.
      * intros x Hx. apply Gin; auto.
    + intros (S & V & Sl). exists (outside sels o). split.
      * apply ssorted_ext; auto; [apply sort_ssorted, unique_NoDup|]. intros x. rewrite Gin, outside_in.
        split; [intros [X|[X _]]; auto|]. intros X. destruct (in_dec_ x sels); auto.
      * apply outside_path; auto.
  - rewrite map_length. reflexivity.
Qed.
Example C49_example : exists c, reached ex_calls [] c /\ outfit_count (c_root c) = 6.
Proof.
  destruct (ex_build ho_id) as (c & E). exists c. split; [econstructor; exact E|].
  vm_compute in E. injection E as <-. reflexivity.
Qed.

(** C50.  The counts of any closet, reachable or not ... *)
Lemma C50_counts_pf : forall (I : Type) (root : dd I),
  node_count root = 2 * leaf_count root - 1 /\ 1 <= leaf_count root /\ outfit_count root <= leaf_count root.
Proof.
  intros I root. pose proof (node_leaf_count root) as (A & B). split; auto. split; auto. apply outfit_le_leaf.
Qed.
(** ... and the depth of a reachable one: 1 + the number of undecided items if
    some valid outfit remains, 1 if none does. *)
Lemma C50_depth_pf : forall (I F : Type) (OI : Ord I) (OF : Ord F) (calls : list (bcall I F)) sels c undecided,
  reached calls sels c -> NoDup undecided -> (forall i, In i undecided <-> known calls i /\ ~ In i sels) ->
  (satisfiable calls sels -> depth (c_root c) = length undecided + 1) /\
  (~ satisfiable calls sels -> depth (c_root c) = 1).
Proof.
  intros I F OI OF calls sels c us R N U. pose proof (reached_inv _ _ _ R) as A.
  pose proof (inv_legal _ _ _ A) as L. pose proof (inv_known _ _ _ A) as K. split; intros S.
  - rewrite (full_depth (rest calls sels)).
    + rewrite Nat.add_1_r. f_equal. apply Permutation_length, NoDup_Permutation; auto.
      * apply ssorted_NoDup, rest_sorted.
      * intros x. rewrite rest_in, U. tauto.
    + apply inv_full; exact A.
    + intros E. apply (inv_false _ _ _ A) in E. contradiction.
  - apply (inv_false _ _ _ A) in S. rewrite S. reflexivity.
Qed.
Example C50_example : exists c, reached ex_calls [] c /\ node_count (c_root c) = 39 /\ leaf_count (c_root c) = 20 /\ depth (c_root c) = 7.
Proof.
  destruct (ex_build ho_id) as (c & E). exists c. split; [econstructor; exact E|].
  vm_compute in E. injection E as <-. repeat split.
Qed.

(** C51.  The summary of a closet that still admits an outfit. *)
Lemma C51_summary_pf : forall (I F : Type) (OI : Ord I) (OF : Ord F) (calls : list (bcall I F)) sels c,
  reached calls sels c -> satisfiable calls sels ->
  (forall i, In (Selected i) (c_summary c) <-> In i sels) /\
  (forall i, In (Available i) (c_summary c) <->
     ~ In i sels /\ exists o, valid_outfit calls o /\ incl sels o /\ In i o) /\
  (forall i, In (Excluded i) (c_summary c) <->
     known calls i /\ ~ In i sels /\ ~ exists o, valid_outfit calls o /\ incl sels o /\ In i o) /\
  ssorted (c_summary c) /\
  NoDup (map status_item (c_summary c)) /\
  (forall i, In i (map status_item (c_summary c)) <-> known calls i).
Proof.
  intros I F OI OF calls sels c R S. pose proof (reached_inv _ _ _ R) as A.
  pose proof (inv_legal _ _ _ A) as L. pose proof (inv_known _ _ _ A) as K.
  pose proof (inv_sel _ _ _ A) as P1. pose proof (fun x => inv_available calls sels c x A) as P2.
  pose proof (fun x => inv_excluded calls sels c x A S) as P3.
  split; [exact P1|]. split; [exact P2|]. split; [exact P3|]. split; [apply (inv_sorted _ _ _ A)|]. split.
  - apply NoDup_map_inj; [|apply ssorted_NoDup, (inv_sorted _ _ _ A)].
    intros s t Hs Ht E. destruct s as [x|x|x], t as [y|y|y]; simpl in E; subst y; auto; exfalso;
      repeat match goal with
      | X : In (Selected _) _ |- _ => apply P1 in X
      | X : In (Available _) _ |- _ => apply P2 in X
      | X : In (Excluded _) _ |- _ => apply P3 in X
      end; tauto.
  - intros i. rewrite in_map_iff. split.
    + intros (s & E & Hs). destruct s as [x|x|x]; simpl in E; subst x.
      * apply P3 in Hs. tauto.
      * apply P2 in Hs. destruct Hs as (_ & o & V & _ & Hi). apply V; exact Hi.
      * apply P1 in Hs. apply items_of_in, K, Hs.
    + intros Kn. destruct (in_dec_ i sels) as [Hi|Hi].
      * exists (Selected i). split; auto. apply P1; exact Hi.
      * destruct (sat_dec calls (i :: sels) L) as [(o & V & Io)|N].
        { intros x [<-|Hx]; [apply items_of_in; exact Kn|apply K; exact Hx]. }
        -- exists (Available i). split; auto. apply P2. split; auto. exists o. split; auto.
           split; [intros x Hx; apply Io; right; exact Hx|apply Io; left; reflexivity].
        -- exists (Excluded i). split; auto. apply P3. split; auto. split; auto. intros (o & V & Io & Ii).
           apply N. exists o. split; auto. intros x [<-|Hx]; auto.
Qed.
Example C51_example : exists c, reached ex_calls [12] c /\
  c_summary c = [Excluded 11; Excluded 13; Excluded 21; Excluded 23; Available 22; Selected 12].
Proof.
  destruct (ex_build ho_id) as (c0 & E0).
  destruct (select_item ho_rev c0 12) as [c|] eqn:E.
  - exists c. split; [apply (reached_select ex_calls [] c0 ho_rev 12); [econstructor; exact E0|exact E]|].
    vm_compute in E0. injection E0 as <-. vm_compute in E. injection E as <-. reflexivity.
  - vm_compute in E0. injection E0 as <-. discriminate.
Qed.

(** C52 is false for closets without any valid outfit: families {1}, {2} with an
    exclusion between the two items; selecting one of them is accepted. *)
Lemma C52_select_refuted_pf :
  ~ (forall (calls : list (bcall nat nat)) sels c h i, reached calls sels c ->
       (select_item h c i = Err (ExcludedItem i) <->
        known calls i /\ ~ exists o, valid_outfit calls o /\ incl sels o /\ In i o)).
Proof.
  intros C. set (calls := [AddItem 1 1; AddItem 2 2; AddExcl 1 2] : list (bcall nat nat)).
  destruct (build ho_id (run_calls calls)) as [c|] eqn:E; [|vm_compute in E; discriminate].
  specialize (C calls [] c ho_id 1 (reached_build _ _ _ E)). destruct C as [_ C].
  assert (X : select_item ho_id c 1 = Err (ExcludedItem 1)).
  { apply C. split; [exists 1; left; reflexivity|]. intros (o & (_ & V & X & _) & _ & Ho).
    destruct (V 2 2) as (j & Hj & Ho2 & _); [right; left; reflexivity|]. simpl in Hj. destruct Hj as [Hj|[Hj|[]]]; [discriminate|].
    injection Hj as <-. apply (X 1 2); [left; reflexivity|auto]. }
  vm_compute in E. injection E as <-. discriminate.
Qed.
(** C52, what holds on every reachable closet ... *)
Lemma C52_unknown_pf : forall (I F : Type) (OI : Ord I) (OF : Ord F) (calls : list (bcall I F)) sels c h i,
  reached calls sels c ->
  (select_item h c i = Err (UnknownItem i) <-> ~ known calls i) /\
  (forall c', select_item h c i = Ok c' -> forall o, admits c' o <-> admits c o /\ In i o).
Proof.
  intros I F OI OF calls sels c h i R. pose proof (reached_inv _ _ _ R) as A. split.
  - unfold select_item. rewrite (inv_family _ _ _ _ A), <- first_family_none.
    destruct (first_family calls i); [|tauto]. destruct (find _ _); split; discriminate.
  - intros c' E o. rewrite (admits_iff calls (sels ++ [i]) c' o) by (eapply reached_select; eauto).
    rewrite (admits_iff calls sels c o R). split.
    + intros (V & S). split; [split; auto; intros x Hx; apply S, in_or_app; auto|]. apply S, in_or_app. right. left. reflexivity.
    + intros ((V & S) & Hi). split; auto. intros x Hx. apply in_app_iff in Hx. destruct Hx as [Hx|[<-|[]]]; auto.
Qed.
(** ... and the full claim on every reachable closet that still admits an outfit. *)
Lemma C52_select_partial_pf : forall (I F : Type) (OI : Ord I) (OF : Ord F) (calls : list (bcall I F)) sels c h i,
  reached calls sels c -> satisfiable calls sels ->
  (select_item h c i = Err (ExcludedItem i) <->
     known calls i /\ ~ exists o, valid_outfit calls o /\ incl sels o /\ In i o) /\
  ((exists c', select_item h c i = Ok c') <-> exists o, valid_outfit calls o /\ incl sels o /\ In i o).
Proof.
  intros I F OI OF calls sels c h i R S. pose proof (reached_inv _ _ _ R) as A.
  pose proof (inv_legal _ _ _ A) as L. pose proof (inv_known _ _ _ A) as K.
  pose proof (inv_excluded calls sels c i A S) as EX.
  assert (FD : (exists s, find (fun s => status_is s i) (filter is_excluded (c_summary c)) = Some s) <-> In (Excluded i) (c_summary c)).
  { split.
    - intros (s & E). apply find_some in E. destruct E as (E1 & E2). apply filter_In in E1. destruct E1 as (E1 & E3).
      destruct s as [x|x|x]; try discriminate. unfold status_is in E2. simpl in E2. apply eqb_true_ in E2. subst; auto.
    - intros X. destruct (find _ _) as [s|] eqn:E; [eauto|]. exfalso.
      assert (X' : In (Excluded i) (filter is_excluded (c_summary c))) by (apply filter_In; auto).
      apply (find_none _ _ E) in X'. unfold status_is in X'. simpl in X'. rewrite eqb_refl_ in X'. discriminate. }
  assert (SEL : In i sels -> exists o, valid_outfit calls o /\ incl sels o /\ In i o).
  { intros Hi. destruct S as (o & V & Io). exists o. auto. }
  assert (DEC : known calls i -> (exists o, valid_outfit calls o /\ incl sels o /\ In i o) \/ ~ (exists o, valid_outfit calls o /\ incl sels o /\ In i o)).
  { intros Kn. destruct (sat_dec calls (i :: sels) L) as [(o & V & Io)|N].
    - intros x [<-|Hx]; [apply items_of_in; exact Kn|apply K; exact Hx].
    - left. exists o. split; auto. split; [intros x Hx; apply Io; right; exact Hx|apply Io; left; reflexivity].
    - right. intros (o & V & Io & Ii). apply N. exists o. split; auto. intros x [<-|Hx]; auto. }
  unfold select_item. rewrite (inv_family _ _ _ _ A). destruct (first_family calls i) as [f|] eqn:Ef.
  - assert (Kn : known calls i) by (apply first_family_known; eauto).
    destruct (find _ _) as [s|] eqn:E.
    + assert (X : In (Excluded i) (c_summary c)) by (apply FD; eauto). apply EX in X. split; [tauto|].
      split; [intros (c' & X'); discriminate|]. intros Y. tauto.
    + split.
      * split; [discriminate|]. intros (_ & N). exfalso.
        assert (X : In (Excluded i) (c_summary c)). { apply EX. split; auto. }
        apply FD in X. destruct X as (s & X). congruence.
      * split; [|eauto]. intros _. destruct (DEC Kn) as [Y|N]; auto. exfalso.
        assert (X : In (Excluded i) (c_summary c)) by (apply EX; split; auto).
        apply FD in X. destruct X as (s & X). congruence.
  - apply first_family_none in Ef. split; [split; [discriminate|tauto]|].
    split; [intros (c' & X); discriminate|]. intros (o & V & _ & Hi). exfalso. apply Ef. apply V; exact Hi.
Qed.
(** ... and on a reachable closet that admits none, nothing is ever refused as
    excluded: the summary shows the selections only, and every known item is accepted. *)
Lemma C52_no_outfit_partial_pf : forall (I F : Type) (OI : Ord I) (OF : Ord F) (calls : list (bcall I F)) sels c h i,
  reached calls sels c -> ~ satisfiable calls sels ->
  (forall s, In s (c_summary c) <-> exists x, s = Selected x /\ In x sels) /\
  (forall j, select_item h c i <> Err (ExcludedItem j)) /\
  ((exists c', select_item h c i = Ok c') <-> known calls i).
Proof.
  intros I F OI OF calls sels c h i R S. pose proof (reached_inv _ _ _ R) as A.
  pose proof (proj2 (inv_false _ _ _ A) S) as RF.
  assert (SU : forall s, In s (c_summary c) <-> exists x, s = Selected x /\ In x sels).
  { intros s. destruct (is_selected s) eqn:Es.
    - destruct s as [x|x|x]; try discriminate. rewrite (inv_sel _ _ _ A x). split; [eauto|].
      intros (y & E & Hy). injection E as ->. exact Hy.
    - rewrite (inv_oth _ _ _ A s Es), RF, summarize_spec. simpl. split.
      + intros [(x & E & [])|(x & E & [] & _)].
      + intros (x & -> & _). discriminate. }
  split; [exact SU|].
  assert (FN : find (fun s => status_is s i) (filter is_excluded (c_summary c)) = None).
  { destruct (find _ _) as [s|] eqn:E; auto. exfalso. apply find_some in E. destruct E as (E & _).
    apply filter_In in E. destruct E as (E & X). apply SU in E. destruct E as (x & -> & _). discriminate. }
  unfold select_item. rewrite (inv_family _ _ _ _ A), FN. pose proof (first_family_known calls i) as FK.
  destruct (first_family calls i) as [f|] eqn:Ef.
  - split; [discriminate|]. split; [intros _; apply FK; eauto|eauto].
  - split; [discriminate|]. apply first_family_none in Ef. split; [intros (c' & X); discriminate|tauto].
Qed.
Example C52_example : exists c, reached ex_calls [] c /\ satisfiable ex_calls [].
Proof.
  destruct (ex_build ho_id) as (c & E). exists c. assert (R : reached ex_calls [] c) by (econstructor; exact E). split; auto.
  exists [12; 22]. eapply (proj1 (admits_iff _ _ _ _ R)). vm_compute in E. injection E as <-.
  split; [|split]; [|intros i Hi; simpl in Hi; intuition discriminate|reflexivity].
  intros i [<-|[<-|[]]]; discriminate.
Qed.

(** C53.  Selections with the same set of items - in whatever order, with
    whatever repetitions - give equal closets. *)
Lemma C53_order_irrelevant_pf : forall (I F : Type) (OI : Ord I) (OF : Ord F) (calls : list (bcall I F)) sels1 sels2 c1 c2,
  reached calls sels1 c1 -> reached calls sels2 c2 -> same_elems sels1 sels2 -> c1 = c2.
Proof.
  intros I F OI OF calls s1 s2 c1 c2 R1 R2 E. eapply inv_eq; [exact E|apply reached_inv; exact R1|apply reached_inv; exact R2].
Qed.
(** Selecting an already selected item is accepted and changes nothing. *)
Lemma C53_idempotent_pf : forall (I F : Type) (OI : Ord I) (OF : Ord F) (calls : list (bcall I F)) sels c h i,
  reached calls sels c -> In i sels -> select_item h c i = Ok c.
Proof.
  intros I F OI OF calls sels c h i R Hi. pose proof (reached_inv _ _ _ R) as A.
  assert (exists c', select_item h c i = Ok c') as (c' & E).
  { unfold select_item. rewrite (inv_family _ _ _ _ A).
    assert (known calls i) as Kn by (apply items_of_in, (inv_known _ _ _ A), Hi).
    apply first_family_known in Kn. destruct Kn as (f & ->).
    destruct (find _ _) as [s|] eqn:Ef; [|eauto]. exfalso.
    apply find_some in Ef. destruct Ef as (E1 & E2). apply filter_In in E1. destruct E1 as (E1 & E3).
    destruct s as [x|x|x]; try discriminate. unfold status_is in E2. simpl in E2. apply eqb_true_ in E2. subst x.
    rewrite (inv_oth _ _ _ A) in E1 by reflexivity. apply summarize_spec in E1.
    destruct E1 as [(y & E & _)|(y & E & X & _)]; [discriminate|]. injection E as <-.
    rewrite (inv_root _ _ _ A) in X. apply labels_restrict_all in X; [tauto|apply robdd_root]. }
  rewrite E. f_equal. eapply C53_order_irrelevant_pf; [eapply reached_select; eauto|exact R|].
  intros x. rewrite in_app_iff. simpl. intuition (subst; auto).
Qed.
(** From a built closet that admits an outfit, a list of selections is accepted
    step by step iff some valid outfit contains them all: so acceptance does not
    depend on the order either. *)
Lemma C53_acceptance_pf : forall (I F : Type) (OI : Ord I) (OF : Ord F) (calls : list (bcall I F)) c0 sels,
  reached calls [] c0 -> satisfiable calls [] ->
  ((exists c, reached calls sels c) <-> satisfiable calls sels).
Proof.
  intros I F OI OF calls c0 sels R0 S0. induction sels as [|i sels IH] using rev_ind.
  - split; eauto.
  - split.
    + intros (c' & R'). inversion R' as [|sels' c h i' c'' R E Eq]; subst; [destruct sels; discriminate|].
      apply app_inj_tail in Eq. destruct Eq as [-> ->].
      assert (S : satisfiable calls sels) by (apply IH; eauto).
      destruct (C52_select_partial_pf I F OI OF calls sels c h i R S) as (_ & B).
      destruct (proj1 B) as (o & V & Io & Hi); [eauto|]. exists o. split; auto.
      intros x Hx. apply in_app_iff in Hx. destruct Hx as [Hx|[<-|[]]]; auto.
    + intros (o & V & Io).
      assert (S : satisfiable calls sels) by (exists o; split; auto; intros x Hx; apply Io, in_or_app; auto).
      destruct (proj2 IH S) as (c & R).
      destruct (C52_select_partial_pf I F OI OF calls sels c ho_id i R S) as (_ & B).
      destruct (proj2 B) as (c' & E).
      { exists o. split; auto. split; [intros x Hx; apply Io, in_or_app; auto|apply Io, in_or_app; right; left; reflexivity]. }
      exists c'. eapply reached_select; eauto.
Qed.
(** the same two items selected in both orders, one of them twice *)
Example C53_example : exists c0 c1 c2 c3, reached ex_calls [] c0 /\ satisfiable ex_calls [] /\
  reached ex_calls [12; 22] c1 /\ reached ex_calls [22; 12; 22] c2 /\ same_elems [12; 22] [22; 12; 22] /\ c1 = c2 /\
  select_item ho_rev c1 12 = Ok c3 /\ c3 = c1 /\ ~ satisfiable ex_calls [12; 21].
Proof.
  destruct C52_example as (c0 & R0 & S0).
  assert (S : forall l, incl l [12; 22] -> exists c, reached ex_calls l c).
  { intros l L. apply (C53_acceptance_pf nat nat _ _ ex_calls c0 l R0 S0). exists [12; 22]. split; [|exact L].
    eapply (proj1 (admits_iff _ _ _ _ R0)). destruct (ex_build ho_id) as (c & E).
    assert (c0 = c) as -> by (eapply C53_order_irrelevant_pf; [exact R0|econstructor; exact E|intros x; tauto]).
    vm_compute in E. injection E as <-. 
    split; [|split]; [|intros i Hi; simpl in Hi; intuition discriminate|reflexivity].
    intros i [<-|[<-|[]]]; discriminate. }
  destruct (S [12; 22]) as (c1 & R1); [intros x Hx; simpl in *; tauto|].
  destruct (S [22; 12; 22]) as (c2 & R2); [intros x Hx; simpl in *; tauto|].
  assert (Se : same_elems [12; 22] [22; 12; 22]) by (intros x; simpl; tauto).
  exists c0, c1, c2, c1. split; [exact R0|]. split; [exact S0|]. split; [exact R1|]. split; [exact R2|].
  split; [exact Se|]. split; [eapply C53_order_irrelevant_pf; eassumption|].
  split; [eapply C53_idempotent_pf; [exact R1|simpl; auto]|]. split; [reflexivity|].
  intros X. apply (C53_acceptance_pf nat nat _ _ ex_calls c0 _ R0 S0) in X. destruct X as (c & R).
  inversion R as [|sels c' h i c'' R' E' Eq]; subst.
  apply (app_inj_tail sels [12]) in Eq. destruct Eq as [-> ->].
  destruct C51_example as (cx & Rx & Sx).
  assert (c' = cx) as -> by (eapply C53_order_irrelevant_pf; [exact R'|exact Rx|intros x; tauto]).
  pose proof (C52_select_partial_pf nat nat _ _ ex_calls [12] cx h 21 Rx) as P.
  destruct P as (_ & P). { destruct S0 as (o0 & _). exists [12; 22]. split; [|intros x [<-|[]]; simpl; auto].
    eapply (proj1 (admits_iff _ _ _ _ R0)). destruct (ex_build ho_id) as (c1' & E).
    assert (c0 = c1') as -> by (eapply C53_order_irrelevant_pf; [exact R0|econstructor; exact E|intros x; tauto]).
    vm_compute in E. injection E as <-. 
    split; [|split]; [|intros i Hi; simpl in Hi; intuition discriminate|reflexivity].
    intros i [<-|[<-|[]]]; discriminate. }
  assert (Q : exists o, valid_outfit ex_calls o /\ incl [12] o /\ In 21 o) by (apply P; eauto).
  pose proof (C51_summary_pf nat nat _ _ ex_calls [12] cx Rx) as Y.
  destruct Y as (_ & _ & Y & _). { destruct Q as (o & V & Io & _). exists o. auto. }
  assert (Z : In (Excluded 21) (c_summary cx)) by (rewrite Sx; simpl; auto).
  apply Y in Z. destruct Z as (_ & _ & Z). contradiction.
Qed.

(** ** complete_outfit *)
Section Complete.
  Context {I F : Type} `{Ord I} `{Ord F}.
  Implicit Types (calls : list (bcall I F)) (sels : list I).

  Definition in_family calls (f : F) (i : I) : bool :=
    match first_family calls i with Some g => eqb_ g f | None => false end.
  Definition is_unknown calls (i : I) : bool := match first_family calls i with None => true | Some _ => false end.
  Lemma is_unknown_iff calls i : is_unknown calls i = true <-> ~ known calls i.
  Proof. unfold is_unknown. rewrite <- first_family_none. destruct (first_family calls i); split; congruence. Qed.

  Lemma mapM_families calls sels c S : Inv calls sels c -> (forall i, In i S -> known calls i) ->
    exists L, mapM (fun i => let! f := get_family c i in Some (f, i)) S = Some L /\
      map snd L = S /\ (forall p, In p L -> first_family calls (snd p) = Some (fst p)).
  Proof.
    intros A. induction S as [|i S IH]; intros K; simpl.
    - exists []. repeat split. intros p [].
    - destruct IH as (L & E1 & E2 & E3); [intros j Hj; apply K; right; exact Hj|].
      assert (known calls i) as Ki by (apply K; left; reflexivity). apply first_family_known in Ki. destruct Ki as (f & Ef).
      rewrite (inv_family _ _ _ _ A), Ef. cbn [bind]. rewrite E1. cbn [bind]. exists ((f, i) :: L). simpl.
      rewrite E2. repeat split. intros p [<-|Hp]; auto.
  Qed.
  Lemma vals_filter calls (L : list (F * I)) f : (forall p, In p L -> first_family calls (snd p) = Some (fst p)) ->
    vals f L = filter (in_family calls f) (map snd L).
  Proof.
    unfold vals. induction L as [|[g i] L IH]; intros A; simpl; auto.
    assert (E : first_family calls i = Some g) by (apply (A (g, i)); left; reflexivity).
    unfold in_family at 1. rewrite E. rewrite <- IH by (intros p Hp; apply A; right; exact Hp). destruct (eqb_ g f); reflexivity.
  Qed.

  Lemma dup_free_iff calls (L : list (F * I)) : (forall p, In p L -> first_family calls (snd p) = Some (fst p)) ->
    (filter (fun p : F * list I => 1 <? length (snd p)) (push_all L) = [] <-> NoDup (map (first_family calls) (map snd L))).
  Proof.
    intros A.
    assert (E : map (first_family calls) (map snd L) = map Some (map fst L)).
    { rewrite !map_map. apply map_ext_in. exact A. }
    rewrite E. clear E.
    assert (N : NoDup (map Some (map fst L)) <-> NoDup (map fst L)).
    { split; [apply NoDup_map_inv|]. apply NoDup_map_inj. congruence. }
    rewrite N. clear N A.
    assert (V : filter (fun p : F * list I => 1 <? length (snd p)) (push_all L) = [] <-> forall f, length (vals f L) <= 1).
    { split.
      - intros E f. destruct (le_lt_dec (length (vals f L)) 1) as [|Lt]; auto. exfalso.
        assert (In (f, vals f L) (filter (fun p : F * list I => 1 <? length (snd p)) (push_all L))) as X.
        { apply filter_In. split; [apply push_all_in; split; auto; intros Z; rewrite Z in Lt; simpl in Lt; lia|]. apply Nat.ltb_lt; exact Lt. }
        rewrite E in X. destruct X.
      - intros Le. destruct (filter _ _) as [|[f l] q] eqn:E; auto. exfalso.
        assert (In (f, l) ((f, l) :: q)) as X by (left; reflexivity). rewrite <- E in X. apply filter_In in X.
        destruct X as (X & Y). apply push_all_in in X. destruct X as (-> & _). apply Nat.ltb_lt in Y. simpl in Y. specialize (Le f). lia. }
    rewrite V. clear V. induction L as [|[g i] L IH]; simpl.
    - split; [constructor|]. intros _ f. unfold vals. simpl. lia.
    - unfold vals. simpl. split.
      + intros Le. constructor.
        * intros X. apply in_map_iff in X. destruct X as ([g' j] & <- & X). specialize (Le g'). simpl in Le. rewrite eqb_refl_ in Le.
          simpl in Le. fold (vals g' L) in Le. assert (In j (vals g' L)) as Y by (apply vals_in; exact X). destruct (vals g' L); [destruct Y|simpl in Le; lia].
        * apply IH. intros f. specialize (Le f). fold (vals f L) in Le. destruct (eqb_ g f); simpl in Le; fold (vals f L) in Le; lia.
      + intros N f. inversion N as [|? ? Ng N']; subst. pose proof (proj2 IH N' f) as Le.
        destruct (eqb_spec_ g f) as [->|D]; simpl; fold (vals f L); [|exact Le].
        destruct (vals f L) as [|j q] eqn:Ev; simpl; [lia|]. exfalso. apply Ng. apply in_map_iff. exists (f, j). split; auto.
        apply vals_in. rewrite Ev. left; reflexivity.
  Qed.

  (** the three errors and the result, in order *)
  Lemma complete_cases calls sels c S : reached calls sels c ->
    (exists u, u = filter (is_unknown calls) S /\ u <> [] /\ complete_outfit c S = Some (Err (UnknownItems u))) \/
    ((forall i, In i S -> known calls i) /\
     ((exists m, m <> [] /\ ssorted (map fst m) /\
        (forall f l, In (f, l) m <-> l = filter (in_family calls f) S /\ 2 <= length l) /\
        ~ NoDup (map (first_family calls) S) /\
        complete_outfit c S = Some (Err (MultipleItemsPerFamily m))) \/
      (NoDup (map (first_family calls) S) /\
       ((~ satisfiable calls (sels ++ S) /\ complete_outfit c S = Some (Err (IncompatibleSelections (sort S)))) \/
        (satisfiable calls (sels ++ S) /\ exists p, In p (paths (restrict_all (root_of calls) (sels ++ S))) /\
          complete_outfit c S = Some (Ok (sort (S ++ p)))))))).
  Proof.
    intros R. pose proof (reached_inv _ _ _ R) as A.
    pose proof (inv_legal _ _ _ A) as Lg. pose proof (inv_known _ _ _ A) as K.
    unfold complete_outfit, find_unknown_items.
    assert (EU : filter (fun i => match get_family c i with None => true | Some _ => false end) S = filter (is_unknown calls) S).
    { apply filter_ext. intros i. rewrite (inv_family _ _ _ _ A). reflexivity. }
    rewrite EU. clear EU. destruct (filter (is_unknown calls) S) as [|u us] eqn:EU.
    2:{ left. exists (u :: us). split; [reflexivity|]. split; [discriminate|reflexivity]. }
    right. assert (KS : forall i, In i S -> known calls i).
    { intros i Hi. destruct (known_dec calls i) as [|N]; auto. exfalso. apply is_unknown_iff in N.
      assert (X : In i (filter (is_unknown calls) S)) by (apply filter_In; auto). rewrite EU in X. destruct X. }
    split; auto. clear EU. unfold find_duplicate_items.
    destruct (mapM_families calls sels c S A KS) as (L & E1 & E2 & E3). rewrite E1. cbn [bind].
    change (fold_left (fun (m : list (F * list I)) (p : F * I) => map_push m (fst p) (snd p)) L []) with (push_all L).
    pose proof (dup_free_iff calls L E3) as DF. rewrite E2 in DF.
    destruct (filter (fun p : F * list I => 1 <? length (snd p)) (push_all L)) as [|d ds] eqn:ED.
    - right. split; [apply DF; reflexivity|]. cbn [bind]. unfold find_conflicting_items.
      rewrite (inv_root _ _ _ A), <- restrict_all_app.
      assert (KK : incl (sels ++ S) (items_of calls)).
      { intros x Hx. apply in_app_iff in Hx. destruct Hx as [Hx|Hx]; auto. apply items_of_in; auto. }
      pose proof (root_false calls (sels ++ S) Lg KK) as RF.
      destruct (sat_dec calls (sels ++ S) Lg KK) as [Sat|Uns].
      + right. split; auto.
        assert (NF : restrict_all (root_of calls) (sels ++ S) <> Leaf false) by (intros E; apply RF in E; contradiction).
        destruct (walk_full _ _ S (full_root calls (sels ++ S) Lg) NF) as (p & Hp & W).
        exists p. split; auto. rewrite W.
        destruct (restrict_all (root_of calls) (sels ++ S)) as [[]|]; try reflexivity. congruence.
      + left. split; auto. rewrite (proj2 RF Uns). reflexivity.
    - left. rewrite <- ED. exists (filter (fun p : F * list I => 1 <? length (snd p)) (push_all L)).
      split; [rewrite ED; discriminate|]. split; [|split; [|split]].
      + pose proof (push_all_ok L) as M. unfold map_ok in M. clear - M. induction (push_all L) as [|[k v] m IH]; simpl; [constructor|].
        simpl in M. apply ssorted_inv in M. destruct M as (M & Fk). rewrite Forall_forall in Fk.
        destruct (1 <? length v); auto. simpl. apply ssorted_cons; [auto|]. apply Forall_forall. intros x Hx.
        apply in_map_iff in Hx. destruct Hx as (p & <- & Hp). apply filter_In in Hp. apply Fk, in_map. tauto.
      + intros f l. rewrite filter_In, push_all_in, (vals_filter calls L f E3), E2, Nat.ltb_lt. cbn [snd]. split; [tauto|].
        intros (-> & Le). repeat split; auto. intros Z. rewrite Z in Le. simpl in Le. lia.
      + intros N. apply DF in N. discriminate.
      + rewrite ED. reflexivity.
  Qed.

  Lemma complete_ok calls sels c S p : reached calls sels c -> (forall i, In i S -> known calls i) ->
    In p (paths (restrict_all (root_of calls) (sels ++ S))) -> NoDup (map (first_family calls) S) ->
    ssorted (sort (S ++ p)) /\ incl S (sort (S ++ p)) /\ valid_outfit calls (sels ++ sort (S ++ p)).
  Proof.
    intros R KS Hp N. pose proof (reached_inv _ _ _ R) as A.
    pose proof (inv_legal _ _ _ A) as Lg. pose proof (inv_known _ _ _ A) as K.
    assert (KK : incl (sels ++ S) (items_of calls)).
    { intros x Hx. apply in_app_iff in Hx. destruct Hx as [Hx|Hx]; auto. apply items_of_in; auto. }
    apply paths_root in Hp; auto. destruct Hp as (P1 & P2 & P3). split; [|split].
    - apply sort_ssorted, NoDup_app_; [eapply NoDup_map_inv; exact N|apply ssorted_NoDup; exact P1|].
      intros x Hx Hy. apply P2 in Hy. apply rest_in in Hy. apply Hy, in_or_app; auto.
    - intros x Hx. apply sort_in, in_or_app; auto.
    - eapply valid_outfit_ext; [|exact P3]. intros x. rewrite !in_app_iff, sort_in, in_app_iff. tauto.
  Qed.
End Complete.

(** C54.  On a built closet: an outfit returned is sorted without repetition,
    contains the selections and is valid ... *)
Lemma C54_result_valid_pf : forall (I F : Type) (OI : Ord I) (OF : Ord F) (calls : list (bcall I F)) c (sel o : list I),
  reached calls [] c -> complete_outfit c sel = Some (Ok o) ->
  ssorted o /\ incl sel o /\ valid_outfit calls o.
Proof.
  intros I F OI OF calls c S o R E.
  destruct (complete_cases calls [] c S R) as [(u & _ & _ & X)|(KS & [(m & _ & _ & _ & _ & X)|(N & [(_ & X)|(_ & p & Hp & X)])])];
    rewrite E in X; try discriminate. injection X as ->.
  exact (complete_ok calls [] c S p R KS Hp N).
Qed.
(** ... and one is returned whenever the selections are known items of different
    families that some valid outfit contains. *)
Lemma C54_returns_pf : forall (I F : Type) (OI : Ord I) (OF : Ord F) (calls : list (bcall I F)) c (sel : list I),
  reached calls [] c -> (forall i, In i sel -> known calls i) -> NoDup (map (first_family calls) sel) ->
  satisfiable calls sel -> exists o, complete_outfit c sel = Some (Ok o).
Proof.
  intros I F OI OF calls c S R KS N Sat.
  destruct (complete_cases calls [] c S R) as [(u & Eu & Nu & X)|(_ & [(m & _ & _ & _ & N' & X)|(_ & [(NS & X)|(_ & p & Hp & X)])])]; eauto.
  - exfalso. destruct u as [|i u]; [congruence|]. assert (X' : In i (filter (is_unknown calls) S)) by (rewrite <- Eu; left; reflexivity).
    apply filter_In in X'. destruct X' as (Hi & X'). apply is_unknown_iff in X'. apply X', KS, Hi.
  - contradiction.
  - contradiction.
Qed.
Example C54_example : exists c, reached ex_calls [] c /\ complete_outfit c [12] = Some (Ok [12; 22]) /\
  complete_outfit c [] = Some (Ok [11; 22]).
Proof.
  destruct (ex_build ho_id) as (c & E). exists c. split; [econstructor; exact E|].
  vm_compute in E. injection E as <-. split; reflexivity.
Qed.

(** C55.  [complete_outfit] never panics, and its errors are exact - also after
    selections.  Unknown selections come first, listed in order; ... *)
Lemma C55_unknown_pf : forall (I F : Type) (OI : Ord I) (OF : Ord F) (calls : list (bcall I F)) sels c (sel : list I),
  reached calls sels c ->
  complete_outfit c sel <> None /\
  forall u, complete_outfit c sel = Some (Err (UnknownItems u)) <->
    u = filter (fun i => match first_family calls i with None => true | Some _ => false end) sel /\ u <> [].
Proof.
  intros I F OI OF calls sels c S R.
  destruct (complete_cases calls sels c S R) as [(u0 & Eu & Nu & X)|(KS & Y)].
  - rewrite X. split; [discriminate|]. intros u. fold (is_unknown calls). rewrite <- Eu. split.
    + injection 1 as <-. auto.
    + intros (-> & _). reflexivity.
  - assert (Z : filter (is_unknown calls) S = []).
    { destruct (filter (is_unknown calls) S) as [|i q] eqn:E; auto. exfalso.
      assert (X' : In i (filter (is_unknown calls) S)) by (rewrite E; left; reflexivity).
      apply filter_In in X'. destruct X' as (Hi & X'). apply is_unknown_iff in X'. apply X', KS, Hi. }
    assert (W : complete_outfit c S <> None /\ forall u, complete_outfit c S <> Some (Err (UnknownItems u))).
    { destruct Y as [(m & _ & _ & _ & _ & X)|(_ & [(_ & X)|(_ & p & _ & X)])]; rewrite X; split; congruence. }
    split; [apply W|]. intros u. split; [intros X; exfalso; eapply W; exact X|].
    fold (is_unknown calls). rewrite Z. intros (-> & X). congruence.
Qed.
(** ... then families with two or more selections, exactly these, each with its
    selections in order; ... *)
Lemma C55_multiple_pf : forall (I F : Type) (OI : Ord I) (OF : Ord F) (calls : list (bcall I F)) sels c (sel : list I) m,
  reached calls sels c ->
  (complete_outfit c sel = Some (Err (MultipleItemsPerFamily m)) <->
   (forall i, In i sel -> known calls i) /\ ~ NoDup (map (first_family calls) sel) /\ ssorted (map fst m) /\
   forall f l, In (f, l) m <->
     l = filter (fun i => match first_family calls i with Some g => eqb_ g f | None => false end) sel /\ 2 <= length l).
Proof.
  intros I F OI OF calls sels c S m R.
  destruct (complete_cases calls sels c S R) as [(u & Eu & Nu & X)|(KS & [(m0 & M1 & M2 & M3 & M4 & X)|(N & Y)])].
  - rewrite X. split; [discriminate|]. intros (KS & _). exfalso.
    destruct u as [|i u]; [congruence|]. assert (X' : In i (filter (is_unknown calls) S)) by (rewrite <- Eu; left; reflexivity).
    apply filter_In in X'. destruct X' as (Hi & X'). apply is_unknown_iff in X'. apply X', KS, Hi.
  - rewrite X. split.
    + injection 1 as <-. auto.
    + intros (_ & _ & S' & M'). do 3 f_equal. apply amap_ext; auto. intros k.
      destruct (map_get m0 k) as [l|] eqn:E0; destruct (map_get m k) as [l'|] eqn:E1; auto.
      * apply map_get_in in E0; auto. apply map_get_in in E1; auto. apply M3 in E0. apply M' in E1. f_equal.
        destruct E0 as (-> & _), E1 as (-> & _). reflexivity.
      * apply map_get_in in E0; auto. apply M3 in E0. apply M' in E0. apply (map_get_in m k l S') in E0. congruence.
      * apply map_get_in in E1; auto. apply M' in E1. apply M3 in E1. apply (map_get_in m0 k l' M2) in E1. congruence.
  - split; [|tauto]. intros E. exfalso. destruct Y as [(_ & X)|(_ & p & _ & X)]; congruence.
Qed.
(** ... then selections that no remaining valid outfit contains together. *)
Lemma C55_incompatible_pf : forall (I F : Type) (OI : Ord I) (OF : Ord F) (calls : list (bcall I F)) sels c (sel l : list I),
  reached calls sels c ->
  (complete_outfit c sel = Some (Err (IncompatibleSelections l)) <->
   (forall i, In i sel -> known calls i) /\ NoDup (map (first_family calls) sel) /\
   ~ satisfiable calls (sels ++ sel) /\ ssorted l /\ same_elems l sel).
Proof.
  intros I F OI OF calls sels c S l R.
  destruct (complete_cases calls sels c S R) as [(u & Eu & Nu & X)|(KS & [(m0 & M1 & M2 & M3 & M4 & X)|(N & Y)])].
  - rewrite X. split; [discriminate|]. intros (KS & _). exfalso.
    destruct u as [|i u]; [congruence|]. assert (X' : In i (filter (is_unknown calls) S)) by (rewrite <- Eu; left; reflexivity).
    apply filter_In in X'. destruct X' as (Hi & X'). apply is_unknown_iff in X'. apply X', KS, Hi.
  - rewrite X. split; [discriminate|]. tauto.
  - assert (ND : NoDup S) by (eapply NoDup_map_inv; exact N).
    destruct Y as [(Ns & X)|(Sat & p & _ & X)]; rewrite X.
    + split.
      * injection 1 as <-. split; auto. split; auto. split; auto. split; [apply sort_ssorted; exact ND|]. intros x. apply sort_in.
      * intros (_ & _ & _ & Sl & E). do 3 f_equal. apply ssorted_ext; auto; [apply sort_ssorted; exact ND|].
        intros x. rewrite sort_in. symmetry. apply E.
    + split; [discriminate|]. tauto.
Qed.
Example C55_example : exists c, reached ex_calls [] c /\
  complete_outfit c [12; 99; 98] = Some (Err (UnknownItems [99; 98])) /\
  complete_outfit c [12; 21; 11] = Some (Err (MultipleItemsPerFamily [(1, [12; 11])])) /\
  complete_outfit c [21; 11] = Some (Err (IncompatibleSelections [11; 21])).
Proof.
  destruct (ex_build ho_id) as (c & E). exists c. split; [econstructor; exact E|].
  vm_compute in E. injection E as <-. repeat split.
Qed.

(** C56 is false: an outfit completed after a selection lacks the selected item. *)
Lemma C56_earlier_selections_refuted_pf :
  ~ (forall (calls : list (bcall nat nat)) sels c sel o,
       reached calls sels c -> complete_outfit c sel = Some (Ok o) -> valid_outfit calls o).
Proof.
  intros C. set (calls := [AddItem 1 1; AddItem 2 2] : list (bcall nat nat)).
  destruct (build ho_id (run_calls calls)) as [c0|] eqn:E0; [|vm_compute in E0; discriminate].
  destruct (select_item ho_id c0 1) as [c|] eqn:E1; [|vm_compute in E0; injection E0 as <-; vm_compute in E1; discriminate].
  specialize (C calls [1] c [] [2] (reached_select _ _ _ _ _ _ (reached_build _ _ _ E0) E1)).
  vm_compute in E0. injection E0 as <-. vm_compute in E1. injection E1 as <-. specialize (C eq_refl).
  destruct C as (_ & C & _). destruct (C 1 1) as (j & Hj & Ho & _); [left; reflexivity|].
  destruct Ho as [<-|[]]. simpl in Hj. intuition discriminate.
Qed.
(** C56, what holds: the items returned, together with the selected ones, are a
    valid outfit, and an earlier selection is among them only if it was given again;
    and something is returned iff the selections are known, of different families, and some valid outfit contains old and new selections. *)
Lemma C56_earlier_selections_partial_pf : forall (I F : Type) (OI : Ord I) (OF : Ord F) (calls : list (bcall I F)) sels c (sel : list I),
  reached calls sels c ->
  (forall o, complete_outfit c sel = Some (Ok o) ->
     ssorted o /\ incl sel o /\ valid_outfit calls (sels ++ o) /\ (forall i, In i o -> In i sels -> In i sel)) /\
  ((exists o, complete_outfit c sel = Some (Ok o)) <->
   (forall i, In i sel -> known calls i) /\ NoDup (map (first_family calls) sel) /\ satisfiable calls (sels ++ sel)).
Proof.
  intros I F OI OF calls sels c S R. split.
  - intros o E.
    destruct (complete_cases calls sels c S R) as [(u & _ & _ & X)|(KS & [(m & _ & _ & _ & _ & X)|(N & [(_ & X)|(_ & p & Hp & X)])])];
      rewrite E in X; try discriminate. injection X as ->.
    destruct (complete_ok calls sels c S p R KS Hp N) as (A & B & C). split; [exact A|]. split; [exact B|]. split; [exact C|].
    pose proof (reached_inv _ _ _ R) as V.
    apply paths_root in Hp; [|apply (inv_legal _ _ _ V)|].
    + destruct Hp as (_ & P2 & _). intros i Hi Hs. apply sort_in, in_app_iff in Hi. destruct Hi as [Hi|Hi]; auto.
      apply P2, rest_in in Hi. exfalso. apply Hi, in_or_app. auto.
    + intros x Hx. apply in_app_iff in Hx. destruct Hx as [Hx|Hx]; [apply (inv_known _ _ _ V); auto|apply items_of_in; auto].
  - destruct (complete_cases calls sels c S R) as [(u & Eu & Nu & X)|(KS & [(m & _ & _ & _ & N' & X)|(N & [(NS & X)|(Sat & p & Hp & X)])])];
      rewrite X; split; try (intros (o & Eo); discriminate); try tauto; eauto.
    + intros (KS & _). exfalso.
      destruct u as [|i u]; [congruence|]. assert (X' : In i (filter (is_unknown calls) S)) by (rewrite <- Eu; left; reflexivity).
      apply filter_In in X'. destruct X' as (Hi & X'). apply is_unknown_iff in X'. apply X', KS, Hi.
Qed.
Example C56_example : exists c, reached ex_calls [12] c /\ complete_outfit c [] = Some (Ok [22]) /\
  complete_outfit c [22] = Some (Ok [22]) /\ complete_outfit c [21] = Some (Err (IncompatibleSelections [21])).
Proof.
  destruct (ex_build ho_id) as (c0 & E0).
  destruct (select_item ho_rev c0 12) as [c|] eqn:E.
  - exists c. split; [apply (reached_select ex_calls [] c0 ho_rev 12); [econstructor; exact E0|exact E]|].
    vm_compute in E0. injection E0 as <-. vm_compute in E. injection E as <-. repeat split.
  - vm_compute in E0. injection E0 as <-. discriminate.
Qed.

(** C80.  The outfit returned is the first: any other valid outfit with the same
    selections lacks the first item on which the two differ ... *)
Lemma C80_first_outfit_pf : forall (I F : Type) (OI : Ord I) (OF : Ord F) (calls : list (bcall I F)) sels c (sel o : list I),
  reached calls sels c -> complete_outfit c sel = Some (Ok o) ->
  forall o', valid_outfit calls o' -> incl sels o' -> incl sel o' ->
  same_elems o' (sels ++ o) \/ preferred (sels ++ o) o'.
Proof.
  intros I F OI OF calls sels c S o R E o' V I1 I2. pose proof (reached_inv _ _ _ R) as A.
  pose proof (inv_legal _ _ _ A) as Lg. pose proof (inv_known _ _ _ A) as K.
  destruct (complete_cases calls sels c S R) as [(u & _ & _ & X)|(KS & [(m & _ & _ & _ & _ & X)|(N & [(_ & X)|(Sat & _)])])];
    try (rewrite E in X; discriminate).
  assert (KK : incl (sels ++ S) (items_of calls)).
  { intros x Hx. apply in_app_iff in Hx. destruct Hx as [Hx|Hx]; auto. apply items_of_in; auto. }
  assert (NF : restrict_all (root_of calls) (sels ++ S) <> Leaf false).
  { intros Z. apply (root_false calls (sels ++ S) Lg KK) in Z. contradiction. }
  destruct (walk_first _ _ S (rest_sorted calls (sels ++ S)) (full_root calls (sels ++ S) Lg) NF) as (p & Hp & W & Pr).
  assert (Eo : o = sort (S ++ p)).
  { unfold complete_outfit in E. destruct (find_unknown_items c S); [discriminate|].
    destruct (find_duplicate_items c S) as [[m|]|]; try discriminate. cbn [bind] in E.
    destruct (find_conflicting_items c S); [discriminate|]. injection E as <-.
    rewrite (inv_root _ _ _ A), <- restrict_all_app, W. reflexivity. }
  assert (I3 : incl (sels ++ S) o') by (intros x Hx; apply in_app_iff in Hx; destruct Hx; auto).
  assert (Ip : forall x, In x (sels ++ o) <-> In x (sels ++ S) \/ In x p).
  { intros x. rewrite Eo, !in_app_iff, sort_in, in_app_iff. tauto. }
  assert (Io : forall x, In x o' <-> In x (sels ++ S) \/ In x (outside (sels ++ S) o')).
  { intros x. rewrite outside_in. destruct (in_dec_ x (sels ++ S)) as [Y|Y]; [|tauto]. split; auto. }
  assert (Np : forall x, In x p -> ~ In x (sels ++ S)).
  { intros x Hx. apply (paths_root calls (sels ++ S) p Lg KK) in Hp. apply Hp in Hx. apply rest_in in Hx. tauto. }
  destruct (Pr _ (outside_path calls (sels ++ S) o' Lg KK I3 V)) as [Eq|(x & X1 & X2 & X3)].
  - left. intros x. rewrite Io, Ip, Eq. tauto.
  - right. exists x. rewrite Ip, Io. split; [auto|]. split; [intros [Y|Y]; [apply (Np x); auto|auto]|].
    intros y Hy. rewrite Ip, Io. specialize (X3 y Hy). tauto.
Qed.
(** ... so the outfit depends on what was selected, not on the order of the
    selections, nor on which were made on the closet and which in the call. *)
Lemma C80_selections_only_pf : forall (I F : Type) (OI : Ord I) (OF : Ord F) (calls : list (bcall I F)) sels1 sels2 c1 c2 (sel1 sel2 o1 o2 : list I),
  reached calls sels1 c1 -> reached calls sels2 c2 -> same_elems (sels1 ++ sel1) (sels2 ++ sel2) ->
  complete_outfit c1 sel1 = Some (Ok o1) -> complete_outfit c2 sel2 = Some (Ok o2) ->
  same_elems (sels1 ++ o1) (sels2 ++ o2) /\ (same_elems sel1 sel2 -> same_elems sels1 sels2 -> o1 = o2).
Proof.
  intros I F OI OF calls s1 s2 c1 c2 S1 S2 o1 o2 R1 R2 Q E1 E2.
  destruct (C56_earlier_selections_partial_pf I F OI OF calls s1 c1 S1 R1) as (P1 & _).
  destruct (C56_earlier_selections_partial_pf I F OI OF calls s2 c2 S2 R2) as (P2 & _).
  destruct (P1 o1 E1) as (A1 & B1 & V1 & D1). destruct (P2 o2 E2) as (A2 & B2 & V2 & D2).
  assert (G1 : forall x, In x (s1 ++ S1) -> In x (s1 ++ o1)).
  { intros x. rewrite !in_app_iff. intros [X|X]; auto. }
  assert (G2 : forall x, In x (s2 ++ S2) -> In x (s2 ++ o2)).
  { intros x. rewrite !in_app_iff. intros [X|X]; auto. }
  assert (SE : same_elems (s1 ++ o1) (s2 ++ o2)).
  { destruct (C80_first_outfit_pf I F OI OF calls s1 c1 S1 o1 R1 E1 (s2 ++ o2) V2) as [X|(x & X1 & X2 & X3)].
    - intros x Hx. apply G2, Q, in_or_app. auto.
    - intros x Hx. apply G2, Q, in_or_app. auto.
    - intros x. symmetry. apply X.
    - destruct (C80_first_outfit_pf I F OI OF calls s2 c2 S2 o2 R2 E2 (s1 ++ o1) V1) as [Y|(y & Y1 & Y2 & Y3)].
      + intros y Hy. apply G1, Q, in_or_app. auto.
      + intros y Hy. apply G1, Q, in_or_app. auto.
      + exact Y.
      + exfalso. destruct (lt_total_ x y) as [L|[<-|L]]; [|tauto|].
        * apply X2, Y3; auto.
        * apply Y2, X3; auto. }
  split; [exact SE|]. intros Q1 Q2. apply ssorted_ext; auto. intros x.
  split; intros Hx.
  - assert (X : In x (s2 ++ o2)) by (apply SE, in_or_app; auto). apply in_app_iff in X. destruct X as [X|X]; auto.
    apply B2, Q1, D1; auto. apply Q2; auto.
  - assert (X : In x (s1 ++ o1)) by (apply SE, in_or_app; auto). apply in_app_iff in X. destruct X as [X|X]; auto.
    apply B1, Q1, D2; auto. apply Q2; auto.
Qed.
Example C80_example : exists c, reached ex_calls [] c /\ complete_outfit c [] = Some (Ok [11; 22]) /\
  valid_outfit ex_calls [12; 22] /\ preferred [11; 22] [12; 22].
Proof.
  destruct (ex_build ho_id) as (c & E). exists c. assert (R : reached ex_calls [] c) by (econstructor; exact E). split; auto.
  split; [|split].
  - vm_compute in E. injection E as <-. reflexivity.
  - eapply (proj1 (admits_iff _ _ _ _ R)). vm_compute in E. injection E as <-.
    split; [|split]; [|intros i Hi; simpl in Hi; intuition discriminate|reflexivity].
    intros i [<-|[<-|[]]]; discriminate.
  - exists 11. split; [left; reflexivity|]. split; [simpl; intuition discriminate|].
    intros y Hy. rewrite lt_nat in Hy. simpl. intuition lia.
Qed.

(** C57.  Closets survive serialization. *)
Lemma C57_round_trip_pf : forall (I F : Type) (OI : Ord I) (OF : Ord F) (calls : list (bcall I F)) sels c,
  reached calls sels c -> closet_de (closet_ser c) = Some c.
Proof.
  intros I F OI OF calls sels c R. pose proof (reached_inv _ _ _ R) as A. unfold closet_de, closet_ser.
  rewrite (node_round_trip (c_root c)); [destruct c; reflexivity|].
  eapply full_uniform, inv_full, A.
Qed.
Example C57_example : exists c, reached ex_calls [] c /\ fst (node_ser (c_root c)) <> SOutcome true /\ closet_de (closet_ser c) = Some c.
Proof.
  destruct (ex_build ho_id) as (c & E). exists c. split; [econstructor; exact E|].
  vm_compute in E. injection E as <-. split; [discriminate|reflexivity].
Qed.

(** C58.  [categorize], on any closet: each family has its items, in order;
    nothing is lost or invented. *)
Lemma C58_categorize_pf : forall (I F : Type) (OI : Ord I) (OF : Ord F) (unknown : F) (c : closet I F) (items : list I),
  (forall f, map_get (categorize unknown c items) f =
     let mine := filter (fun i => eqb_ (match get_family c i with Some g => g | None => unknown end) f) items in
     match mine with [] => None | _ => Some mine end) /\
  ssorted (map fst (categorize unknown c items)) /\
  Permutation (flat_map snd (categorize unknown c items)) items.
Proof.
  intros I F OI OF unknown c items.
  set (fam := fun i => match get_family c i with Some g => g | None => unknown end).
  assert (E : categorize unknown c items = push_all (map (fun i => (fam i, i)) items)).
  { unfold categorize, push_all, push_on. generalize (@nil (F * list I)).
    induction items as [|i items IH]; intros m; simpl; auto. }
  rewrite E. split; [|split].
  - intros f. rewrite push_all_get.
    assert (V : vals f (map (fun i => (fam i, i)) items) = filter (fun i => eqb_ (fam i) f) items).
    { unfold vals. clear E. induction items as [|i items IH]; simpl; auto. destruct (eqb_ (fam i) f); simpl; rewrite IH; reflexivity. }
    rewrite V. unfold fam. cbn zeta. destruct (filter _ items); reflexivity.
  - apply push_all_ok.
  - clear E. unfold push_all, push_on.
    assert (P : forall m, Permutation (flat_map snd (fold_left (fun m p => map_push m (fst p) (snd p)) (map (fun i => (fam i, i)) items) m))
                                      (flat_map snd m ++ items)).
    { induction items as [|i items IH]; intros m; simpl; [rewrite app_nil_r; reflexivity|].
      rewrite IH.
      assert (Q : Permutation (flat_map snd (map_push m (fam i) i)) (flat_map snd m ++ [i])).
      { unfold map_push. clear IH. induction m as [|[k v] m IHm]; simpl; auto.
        destruct (cmp (fam i) k); simpl.
        - rewrite <- !app_assoc. apply Permutation_app_head. apply Permutation_app_comm.
        - change (i :: v ++ flat_map snd m) with ([i] ++ (v ++ flat_map snd m)). apply Permutation_app_comm.
        - rewrite IHm, app_assoc. reflexivity. }
      rewrite Q, <- app_assoc. reflexivity. }
    rewrite P. reflexivity.
Qed.
Example C58_example : exists c, reached ex_calls [] c /\
  categorize 0 c [22; 11; 99; 12] = [(0, [99]); (1, [11; 12]); (2, [22])].
Proof.
  destruct (ex_build ho_id) as (c & E). exists c. split; [econstructor; exact E|].
  vm_compute in E. injection E as <-. reflexivity.
Qed.

(** C60 is false: a node with two items at one depth does not survive. *)
Lemma C60_node_round_trip_refuted_pf :
  ~ (forall a : dd nat, made a -> node_de (node_ser a) = Some a).
Proof.
  intros C. specialize (C (bitor (bitand (negative_branch 0) (positive_branch 1)) (bitand (positive_branch 0) (positive_branch 2)))).
  assert (X : Some (Branch 0 (Branch 2 (Leaf false) (Leaf true)) (Branch 2 (Leaf false) (Leaf true)))
            = Some (Branch 0 (Branch 1 (Leaf false) (Leaf true)) (Branch 2 (Leaf false) (Leaf true)))).
  { apply C. apply made_or; apply made_and; constructor. }
  discriminate.
Qed.
(** C60, what holds: nodes with one item per depth do. *)
Lemma C60_node_round_trip_partial_pf : forall (I : Type) (O : Ord I) (a : dd I),
  level_uniform a -> node_de (node_ser a) = Some a.
Proof. intros. apply node_round_trip; auto. Qed.
(** ... and only those do: whatever the node, what comes back has its shape, with
    every branch carrying the item of the last branch of its depth. *)
Lemma C60_exact_partial_pf : forall (I : Type) (O : Ord I) (a : dd I),
  node_de (node_ser a) = Some (relabelled (fun d i => last (row a d) i) a 0) /\
  (node_de (node_ser a) = Some a <-> level_uniform a).
Proof.
  intros I O a. pose proof (node_round_trip_exact a) as E. split; [exact E|]. split; [|apply node_round_trip].
  intros X. rewrite E in X. injection X as X. apply (proj1 (relabelled_same _ a 0)) in X. apply levels_last_uniform; auto.
Qed.
Example C60_example : let a := bitand (positive_branch 0) (bitor (negative_branch 1) (positive_branch 2)) in
  made a /\ level_uniform a /\ node_de (node_ser a) = Some a.
Proof.
  cbv zeta. assert (L : level_uniform (bitand (positive_branch 0) (bitor (negative_branch 1) (positive_branch 2)))).
  { exists [0; 1; 2]. vm_compute. repeat split; auto. }
  split; [|split; [exact L|reflexivity]].
  apply made_and; [constructor|]. apply made_or; constructor.
Qed.
