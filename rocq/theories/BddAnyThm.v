(** BddAnyThm: every closet a program can hold, not only those a builder made: any
    index, any node under [Closet::new], any deserialized summary, index and node (C86). *)
From Coq Require Import List Arith Lia Bool Permutation Sorted.
From Verif Require Import Base DD Spec BddSpec BddModel BddRun BddNode BddCloset BddThm.
Import ListNotations.

(** ** Specification *)
Section S.
  Context {I F : Type}.
  (** the depths a structure mentions *)
  Inductive mentions : structure -> nat -> Prop :=
  | me_a d lo hi : mentions (SAvailable d lo hi) d
  | me_al d lo hi e : mentions lo e -> mentions (SAvailable d lo hi) e
  | me_ah d lo hi e : mentions hi e -> mentions (SAvailable d lo hi) e
  | me_r d hi : mentions (SRequired d hi) d
  | me_rh d hi e : mentions hi e -> mentions (SRequired d hi) e
  | me_e d lo : mentions (SExcluded d lo) d
  | me_el d lo e : mentions lo e -> mentions (SExcluded d lo) e.
  (** the diagram that a structure spells when [item_at d] is the item of depth [d] *)
  Inductive spelled (item_at : nat -> option I) : structure -> dd I -> Prop :=
  | sp_o b : spelled item_at (SOutcome b) (Leaf b)
  | sp_a d lo hi i l h : item_at d = Some i -> spelled item_at lo l -> spelled item_at hi h ->
      spelled item_at (SAvailable d lo hi) (Branch i l h)
  | sp_r d hi i h : item_at d = Some i -> spelled item_at hi h -> spelled item_at (SRequired d hi) (Branch i (Leaf false) h)
  | sp_e d lo i l : item_at d = Some i -> spelled item_at lo l -> spelled item_at (SExcluded d lo) (Branch i l (Leaf false)).
  (** [t] has a branch on [x] whose high child is [hi] *)
  Inductive tests (x : I) (hi : dd I) : dd I -> Prop :=
  | te_here lo : tests x hi (Branch x lo hi)
  | te_lo i lo h : tests x hi lo -> tests x hi (Branch i lo h)
  | te_hi i lo h : tests x hi h -> tests x hi (Branch i lo h).
  (** no item twice on a path *)
  Fixpoint read_once (t : dd I) : Prop :=
    match t with
    | Leaf _ => True
    | Branch i lo hi => ~ In i (labels lo) /\ ~ In i (labels hi) /\ read_once lo /\ read_once hi
    end.
  (** the path that takes every item it meets unless that is [false] at once; [p] are
      the items taken, [v] the leaf where it ends *)
  Inductive first_path : dd I -> list I -> bool -> Prop :=
  | fp_leaf v : first_path (Leaf v) [] v
  | fp_skip i lo p v : first_path lo p v -> first_path (Branch i lo (Leaf false)) p v
  | fp_take i lo hi p v : hi <> Leaf false -> first_path hi p v -> first_path (Branch i lo hi) (i :: p) v.
End S.

Lemma sorted_unique {T} `{Ord T} (a b : list T) : StronglySorted (fun a b => leb_ a b = true) a ->
  StronglySorted (fun a b => leb_ a b = true) b -> Permutation a b -> a = b.
Proof. intros A B P. apply (SS_unique_perm (fun a b => leb_ a b = true)); auto. apply leb_antisym_. Qed.

Section P.
  Context {I F : Type} `{OI : Ord I} `{OF : Ord F}.

  Lemma to_node_spelled (c : list (nat * I)) s n : to_node s c = Some n <-> spelled (map_get c) s n.
  Proof.
    split.
    - revert n. induction s as [d lo IHl hi IHh|d hi IHh|d lo IHl|b]; intros n E; cbn [to_node] in E.
      + apply bind_some in E. destruct E as (i & Ei & E). apply bind_some in E. destruct E as (l & El & E).
        apply bind_some in E. destruct E as (h & Eh & E). injection E as <-. constructor; auto.
      + apply bind_some in E. destruct E as (i & Ei & E). apply bind_some in E. destruct E as (h & Eh & E).
        injection E as <-. constructor; auto.
      + apply bind_some in E. destruct E as (i & Ei & E). apply bind_some in E. destruct E as (h & Eh & E).
        injection E as <-. constructor; auto.
      + injection E as <-. constructor.
    - induction 1 as [b|d lo hi i l h Ei _ IHl _ IHh|d hi i h Ei _ IHh|d lo i l Ei _ IHl]; cbn [to_node];
        rewrite ?Ei; cbn [bind]; rewrite ?IHl; cbn [bind]; rewrite ?IHh; reflexivity.
  Qed.
  Lemma spelled_iff (g : nat -> option I) s : (exists n, spelled g s n) <-> forall d, mentions s d -> g d <> None.
  Proof.
    split.
    - intros (n & X). induction X as [b|d lo hi i l h Ei _ IHl _ IHh|d hi i h Ei _ IHh|d lo i l Ei _ IHl]; intros e M; inversion M; subst; auto; congruence.
    - induction s as [d lo IHl hi IHh|d hi IHh|d lo IHl|b]; intros M.
      + destruct IHl as (l & L). { intros e X. apply M. apply me_al; exact X. }
        destruct IHh as (h & Hh). { intros e X. apply M. apply me_ah; exact X. }
        assert (X := M d (me_a d lo hi)). destruct (g d) as [i|] eqn:E; [|congruence]. exists (Branch i l h). constructor; auto.
      + destruct IHh as (h & Hh). { intros e X. apply M. apply me_rh; exact X. }
        assert (X := M d (me_r d hi)). destruct (g d) as [i|] eqn:E; [|congruence]. exists (Branch i (Leaf false) h). constructor; auto.
      + destruct IHl as (l & L). { intros e X. apply M. apply me_el; exact X. }
        assert (X := M d (me_e d lo)). destruct (g d) as [i|] eqn:E; [|congruence]. exists (Branch i l (Leaf false)). constructor; auto.
      + exists (Leaf b). constructor.
  Qed.

  Lemma tests_brs (t : dd I) x b : In (x, b) (brs t) <-> exists hi, tests x hi t /\ (b = true <-> hi = Leaf false).
  Proof.
    induction t as [v|i lo IHl hi IHh]; simpl.
    - split; [intros []|]. intros (h & T & _). inversion T.
    - rewrite in_app_iff, IHl, IHh. split.
      + intros [E|[(h & T & X)|(h & T & X)]].
        * injection E as -> E. exists hi. split; [constructor|]. subst b. destruct hi as [[|]|]; split; congruence.
        * exists h. split; [apply te_lo; exact T|exact X].
        * exists h. split; [apply te_hi; exact T|exact X].
      + intros (h & T & X). inversion T; subst.
        * left. f_equal. destruct hi as [[|]|]; destruct b; try reflexivity; try (exfalso; destruct X as (X1 & X2); try discriminate (X1 eq_refl); discriminate (X2 eq_refl)).
        * right; left; eauto.
        * right; right; eauto.
  Qed.
  Lemma available_tests (t : dd I) x : available_in t x <-> exists hi, tests x hi t /\ hi <> Leaf false.
  Proof.
    unfold available_in. rewrite tests_brs. split; intros (h & T & X); exists h; (split; [exact T|]).
    - intros E. apply X in E. discriminate.
    - split; [discriminate|]. intros E. contradiction.
  Qed.
  Lemma labels_tests (t : dd I) x : In x (labels t) <-> exists hi, tests x hi t.
  Proof.
    rewrite brs_labels. split.
    - intros (b & X). apply tests_brs in X. destruct X as (h & T & _). eauto.
    - intros (h & T). destruct (dd_eqb_spec h (Leaf false)) as [E|E].
      + exists true. apply tests_brs. exists h. split; [exact T|]. tauto.
      + exists false. apply tests_brs. exists h. split; [exact T|]. split; [discriminate|]. intros X; contradiction.
  Qed.

  (** *** restrict on any diagram *)
  Lemma eval_restrict_any (t : dd I) i b env : env i = b -> eval env (restrict t i b) = eval env t.
  Proof.
    intros E. induction t as [v|j lo IHl hi IHh]; simpl; [reflexivity|].
    destruct (eqb_spec_ j i) as [->|N].
    - rewrite E. destruct b; reflexivity.
    - rewrite eval_collapse, IHl, IHh. reflexivity.
  Qed.
  Lemma restrict_once_gone (t : dd I) i b : read_once t -> ~ In i (labels (restrict t i b)).
  Proof.
    induction t as [v|j lo IHl hi IHh]; simpl; [auto|]. intros (A & B & C & D).
    destruct (eqb_spec_ j i) as [->|N]; [destruct b; assumption|].
    intros Hx. apply labels_collapse in Hx. destruct Hx as [Hx|[Hx|Hx]]; [congruence|exact (IHl C Hx)|exact (IHh D Hx)].
  Qed.
  Lemma read_once_collapse i (lo hi : dd I) : ~ In i (labels lo) -> ~ In i (labels hi) -> read_once lo -> read_once hi -> read_once (collapse i lo hi).
  Proof. unfold collapse. destruct (dd_eqb lo hi); simpl; auto. Qed.
  Lemma read_once_restrict (t : dd I) i b : read_once t -> read_once (restrict t i b).
  Proof.
    induction t as [v|j lo IHl hi IHh]; simpl; [auto|]. intros (A & B & C & D).
    destruct (eqb_ j i); [destruct b; assumption|]. apply read_once_collapse; auto; intros X; apply labels_restrict in X; contradiction.
  Qed.
  Lemma read_once_reduce (t : dd I) : read_once t -> read_once (reduce t).
  Proof.
    induction t as [v|j lo IHl hi IHh]; simpl; [auto|]. intros (A & B & C & D).
    apply read_once_collapse; auto; intros X; apply labels_reduce in X; contradiction.
  Qed.
  Lemma bordered_once (t : dd I) : bordered t -> read_once t.
  Proof.
    induction t as [v|j lo IHl hi IHh]; simpl; [auto|]. intros (A & B & C).
    split; [|split; [|split; auto]]; intros X; apply (lt_irrefl_ j); apply A; auto.
  Qed.
  Lemma eval_restrict_once (t : dd I) i b env : read_once t -> eval env (restrict t i b) = eval (upd env i b) t.
  Proof.
    intros R. rewrite <- (eval_restrict_any t i b (upd env i b)) by apply upd_same.
    symmetry. apply eval_upd_fresh. apply restrict_once_gone; exact R.
  Qed.
  Lemma restrict_all_once sels : forall t : dd I, read_once t -> read_once (restrict_all t sels).
  Proof. induction sels as [|s sels IH]; intros t R; [exact R|]. apply IH, read_once_restrict, R. Qed.
  Lemma restrict_all_reduced sels : forall t : dd I, breduced t -> breduced (restrict_all t sels).
  Proof. induction sels as [|s sels IH]; intros t R; [exact R|]. apply IH, breduced_restrict, R. Qed.
  Lemma restrict_all_any sels env : forall t : dd I, (forall i, In i sels -> env i = true) -> eval env (restrict_all t sels) = eval env t.
  Proof.
    induction sels as [|s sels IH]; intros t E; [reflexivity|].
    change (restrict_all t (s :: sels)) with (restrict_all (restrict t s true) sels).
    rewrite IH by (intros i Hi; apply E; right; exact Hi). apply eval_restrict_any. apply E. left; reflexivity.
  Qed.
  Lemma restrict_all_labels sels : forall (t : dd I) x, In x (labels (restrict_all t sels)) -> In x (labels t).
  Proof. induction sels as [|s sels IH]; intros t x X; [exact X|]. apply IH in X. eapply labels_restrict; exact X. Qed.
  Lemma restrict_all_gone sels : forall (t : dd I) x, read_once t -> In x (labels (restrict_all t sels)) -> ~ In x sels.
  Proof.
    induction sels as [|s sels IH]; intros t x R X; [intros []|].
    change (restrict_all t (s :: sels)) with (restrict_all (restrict t s true) sels) in X.
    intros [E|E]; [|exact (IH _ _ (read_once_restrict t s true R) X E)]. subst s.
    apply restrict_all_labels in X. exact (restrict_once_gone t x true R X).
  Qed.

  (** *** the walk *)
  Lemma walk_first_path (t : dd I) : forall items p v, first_path t p v -> walk t items = items ++ p.
  Proof.
    intros items p v X. revert items. induction X as [v|i lo p v X IH|i lo hi p v N X IH]; intros items.
    - rewrite app_nil_r. reflexivity.
    - cbn [walk]. apply IH.
    - cbn [walk]. rewrite (app_assoc items [i] p : items ++ i :: p = _). rewrite <- IH. destruct hi as [[|]|]; try reflexivity. congruence.
  Qed.
  Lemma first_path_ex (t : dd I) : exists p v, first_path t p v.
  Proof.
    induction t as [v|i lo (p & v & P) hi (q & w & Q)]; [exists [], v; constructor|].
    destruct (dd_eqb_spec hi (Leaf false)) as [->|N]; [exists p, v|exists (i :: q), w]; constructor; auto.
  Qed.
  Lemma first_path_labels (t : dd I) p v x : first_path t p v -> In x p -> In x (labels t).
  Proof.
    induction 1 as [v|i lo p v X IH|i lo hi p v N X IH]; simpl; [auto| |]; rewrite in_app_iff; [auto|].
    intros [E|E]; auto.
  Qed.
  Lemma first_path_once (t : dd I) p v : first_path t p v -> read_once t ->
    NoDup p /\ eval (fun x => memb x p) t = v.
  Proof.
    induction 1 as [v|i lo p v X IH|i lo hi p v N X IH]; cbn [read_once]; [split; [constructor|reflexivity]| |].
    - intros (A & B & C & D). destruct (IH C) as (U & W). split; [exact U|]. cbn [eval].
      destruct (memb i p) eqn:M; [|exact W]. apply memb_spec in M. exfalso. apply A. exact (first_path_labels _ _ _ _ X M).
    - intros (A & B & C & D). destruct (IH D) as (U & W). split.
      + constructor; [|exact U]. intros M. apply B. exact (first_path_labels _ _ _ _ X M).
      + cbn [eval]. assert (memb i (i :: p) = true) as -> by (apply memb_spec; left; reflexivity).
        rewrite <- W. apply eval_ext. intros x Hx. rewrite memb_cons. destruct (eqb_spec_ x i) as [->|]; [contradiction|reflexivity].
  Qed.
  Lemma first_path_true (t : dd I) p v : first_path t p v -> breduced t -> t <> Leaf false -> v = true.
  Proof.
    induction 1 as [v|i lo p v X IH|i lo hi p v N X IH]; cbn [breduced].
    - destruct v; congruence.
    - intros (A & B & C) _. apply IH; [exact B|exact A].
    - intros (A & B & C) _. apply IH; [exact C|exact N].
  Qed.

  (** *** complete_outfit *)
  Variable c : closet I F.
  Definition fam_known (i : I) : bool := match get_family c i with None => false | Some _ => true end.
  Definition fam_is (f : F) (i : I) : bool := match get_family c i with Some g => eqb_ g f | None => false end.

  Lemma mapM_fam S : (forall i, In i S -> get_family c i <> None) ->
    exists L, mapM (fun i => let! f := get_family c i in Some (f, i)) S = Some L /\
      map snd L = S /\ (forall p, In p L -> get_family c (snd p) = Some (fst p)).
  Proof.
    induction S as [|i S IH]; intros K; simpl.
    - exists []. repeat split. intros p [].
    - destruct IH as (L & E1 & E2 & E3); [intros j Hj; apply K; right; exact Hj|].
      assert (Ki := K i (or_introl eq_refl)). destruct (get_family c i) as [f|] eqn:Ef; [|congruence].
      cbn [bind]. rewrite E1. cbn [bind]. exists ((f, i) :: L). simpl. rewrite E2. repeat split. intros p [<-|Hp]; auto.
  Qed.
  Lemma vals_fam (L : list (F * I)) f : (forall p, In p L -> get_family c (snd p) = Some (fst p)) ->
    vals f L = filter (fam_is f) (map snd L).
  Proof.
    unfold vals. induction L as [|[g i] L IH]; intros A; simpl; auto.
    assert (E : get_family c i = Some g) by (apply (A (g, i)); left; reflexivity).
    unfold fam_is at 1. rewrite E. rewrite <- IH by (intros p Hp; apply A; right; exact Hp). destruct (eqb_ g f); reflexivity.
  Qed.
  Lemma multi_iff (L : list (F * I)) : (forall p, In p L -> get_family c (snd p) = Some (fst p)) ->
    (filter (fun p : F * list I => 1 <? length (snd p)) (push_all L) = [] <-> forall f, length (filter (fam_is f) (map snd L)) <= 1).
  Proof.
    intros A. split.
    - intros E f. rewrite <- (vals_fam L f A). destruct (le_lt_dec (length (vals f L)) 1) as [|Lt]; auto. exfalso.
      assert (In (f, vals f L) (filter (fun p : F * list I => 1 <? length (snd p)) (push_all L))) as X.
      { apply filter_In. split; [apply push_all_in; split; auto; intros Z; rewrite Z in Lt; simpl in Lt; lia|]. apply Nat.ltb_lt; exact Lt. }
      rewrite E in X. destruct X.
    - intros Le. destruct (filter _ (push_all L)) as [|[f l] q] eqn:E; auto. exfalso.
      assert (In (f, l) ((f, l) :: q)) as X by (left; reflexivity). rewrite <- E in X. apply filter_In in X.
      destruct X as (X & Y). apply push_all_in in X. destruct X as (-> & _). apply Nat.ltb_lt in Y. simpl in Y.
      rewrite (vals_fam L f A) in Y. specialize (Le f). lia.
  Qed.

  Lemma complete_any S :
    (exists u, u = filter (fun i => negb (fam_known i)) S /\ u <> [] /\ complete_outfit c S = Some (Err (UnknownItems u))) \/
    ((forall i, In i S -> get_family c i <> None) /\
     ((exists m, ssorted (map fst m) /\
        (forall f l, In (f, l) m <-> l = filter (fam_is f) S /\ 2 <= length l) /\
        (exists f, 2 <= length (filter (fam_is f) S)) /\
        complete_outfit c S = Some (Err (MultipleItemsPerFamily m))) \/
      ((forall f, length (filter (fam_is f) S) <= 1) /\
       ((restrict_all (c_root c) S = Leaf false /\ complete_outfit c S = Some (Err (IncompatibleSelections (sort S)))) \/
        (restrict_all (c_root c) S <> Leaf false /\ exists p v, first_path (restrict_all (c_root c) S) p v /\
          complete_outfit c S = Some (Ok (sort (S ++ p)))))))).
  Proof.
    unfold complete_outfit, find_unknown_items.
    assert (EU : filter (fun i => match get_family c i with None => true | Some _ => false end) S = filter (fun i => negb (fam_known i)) S).
    { apply filter_ext. intros i. unfold fam_known. destruct (get_family c i); reflexivity. }
    rewrite EU. clear EU. destruct (filter (fun i => negb (fam_known i)) S) as [|u us] eqn:EU.
    2:{ left. exists (u :: us). split; [reflexivity|]. split; [discriminate|reflexivity]. }
    right. assert (KS : forall i, In i S -> get_family c i <> None).
    { intros i Hi E. assert (X : In i (filter (fun i => negb (fam_known i)) S)).
      { apply filter_In. split; [exact Hi|]. unfold fam_known. rewrite E. reflexivity. }
      rewrite EU in X. destruct X. }
    split; [exact KS|]. clear EU. unfold find_duplicate_items.
    destruct (mapM_fam S KS) as (L & E1 & E2 & E3). rewrite E1. cbn [bind].
    change (fold_left (fun (m : list (F * list I)) (p : F * I) => map_push m (fst p) (snd p)) L []) with (push_all L).
    pose proof (multi_iff L E3) as DF. rewrite E2 in DF.
    destruct (filter (fun p : F * list I => 1 <? length (snd p)) (push_all L)) as [|d ds] eqn:ED.
    - right. split; [apply DF; reflexivity|]. cbn [bind]. unfold find_conflicting_items.
      destruct (dd_eqb_spec (restrict_all (c_root c) S) (Leaf false)) as [E|E].
      + left. split; [exact E|]. rewrite E. reflexivity.
      + right. split; [exact E|]. destruct (first_path_ex (restrict_all (c_root c) S)) as (p & v & P).
        exists p, v. split; [exact P|]. rewrite (walk_first_path _ S p v P).
        destruct (restrict_all (c_root c) S) as [[|]|]; try reflexivity. congruence.
    - left. rewrite <- ED. exists (filter (fun p : F * list I => 1 <? length (snd p)) (push_all L)).
      assert (IN : forall f l, In (f, l) (filter (fun p : F * list I => 1 <? length (snd p)) (push_all L)) <-> l = filter (fam_is f) S /\ 2 <= length l).
      { intros f l. rewrite filter_In, push_all_in, (vals_fam L f E3), E2, Nat.ltb_lt. cbn [snd]. split; [tauto|].
        intros (-> & Le). repeat split; auto. intros Z. rewrite Z in Le. simpl in Le. lia. }
      split; [|split; [exact IN|split]].
      + pose proof (push_all_ok L) as M. unfold map_ok in M. clear - M. induction (push_all L) as [|[k v] m IH]; simpl; [constructor|].
        simpl in M. apply ssorted_inv in M. destruct M as (M & Fk). rewrite Forall_forall in Fk.
        destruct (1 <? length v); auto. simpl. apply ssorted_cons; [auto|]. apply Forall_forall. intros x Hx.
        apply in_map_iff in Hx. destruct Hx as (p & <- & Hp). apply filter_In in Hp. apply Fk, in_map. tauto.
      + destruct d as [f l]. exists f. assert (X : In (f, l) ((f, l) :: ds)) by (left; reflexivity). rewrite <- ED in X.
        apply IN in X. destruct X as (-> & X). exact X.
      + rewrite ED. reflexivity.
  Qed.
End P.

(** C86.  A closet loads unless the structure mentions a depth without an item, when
    the [expect] panics; index and summary are taken as they are, and the root is
    what the structure spells. *)
Lemma C86_load_pf : forall (I F : Type) (OI : Ord I) (index : list (I * F)) (summary : list (status I)) (s : structure) (content : list (nat * I)),
  ((exists c, closet_de (index, summary, (s, content)) = Some c) <-> forall d, mentions s d -> map_get content d <> None) /\
  forall c, closet_de (index, summary, (s, content)) = Some c <->
    c_index c = index /\ c_summary c = summary /\ spelled (map_get content) s (c_root c).
Proof.
  intros I F OI index summary s content. unfold closet_de, node_de. cbn [fst snd].
  assert (G : forall c, (let! root := to_node s content in Some (mkC index summary root)) = Some c <->
    c_index c = index /\ c_summary c = summary /\ spelled (map_get content) s (c_root c)).
  { intros c. split.
    - intros E. apply bind_some in E. destruct E as (n & En & E). injection E as <-. cbn.
      split; [reflexivity|]. split; [reflexivity|]. apply to_node_spelled; exact En.
    - intros (E1 & E2 & E3). apply to_node_spelled in E3. rewrite E3. destruct c as [ci cs cr]; cbn in *. subst. reflexivity. }
  split; [|exact G]. rewrite <- spelled_iff. split.
  - intros (c & E). apply G in E. destruct E as (_ & _ & E). eauto.
  - intros (n & E). exists (mkC index summary n). apply G. cbn. auto.
Qed.

(** [Closet::new] with any index and any node: nothing is selected; an item of the
    diagram is Available iff some branch on it has a high child other than [false],
    else Excluded; each once, in order, whatever the iteration order. *)
Lemma C86_new_pf : forall (I F : Type) (OI : Ord I) (h : hash_order) (index : list (I * F)) (root : dd I),
  let c := closet_new h index root in
  c_index c = index /\ c_root c = root /\ ssorted (c_summary c) /\ NoDup (map status_item (c_summary c)) /\
  (forall x, In (Available x) (c_summary c) <-> exists hi, tests x hi root /\ hi <> Leaf false) /\
  (forall x, In (Excluded x) (c_summary c) <-> In x (labels root) /\ forall hi, tests x hi root -> hi = Leaf false) /\
  (forall x, ~ In (Selected x) (c_summary c)) /\
  forall h', closet_new h' index root = c.
Proof.
  intros I F OI h index root c. unfold c, closet_new. cbn [c_index c_root c_summary].
  assert (Av : forall x, In (Available x) (summarize h root) <-> available_in root x).
  { intros x. rewrite summarize_spec. split.
    - intros [(y & E & X)|(y & E & _)]; [injection E as ->; exact X|discriminate].
    - intros X. left. eauto. }
  assert (Ex : forall x, In (Excluded x) (summarize h root) <-> In x (labels root) /\ ~ available_in root x).
  { intros x. rewrite summarize_spec. split.
    - intros [(y & E & X)|(y & E & X)]; [discriminate|injection E as ->; exact X].
    - intros X. right. eauto. }
  assert (Se : forall x, ~ In (Selected x) (summarize h root)).
  { intros x X. apply summarize_spec in X. destruct X as [(y & E & _)|(y & E & _)]; discriminate. }
  split; [reflexivity|]. split; [reflexivity|]. split; [apply summarize_ssorted|]. split; [|split; [|split; [|split; [exact Se|]]]].
  - apply NoDup_map_inj; [|eapply ssorted_NoDup, summarize_ssorted].
    intros s s' S S' E. destruct s as [x|x|x], s' as [y|y|y]; cbn in E; subst; try reflexivity;
      try (exfalso; eapply Se; eassumption); exfalso.
    + apply Ex in S. apply Av in S'. tauto.
    + apply Av in S. apply Ex in S'. tauto.
  - intros x. rewrite Av. apply available_tests.
  - intros x. rewrite Ex, available_tests. split; intros (L & X); (split; [exact L|]).
    + intros hi T. destruct (dd_eqb_spec hi (Leaf false)) as [E|E]; [exact E|]. exfalso. apply X. eauto.
    + intros (hi & T & N). apply N, X, T.
  - intros h'. f_equal. rewrite (summarize_h h'), (summarize_h h). reflexivity.
Qed.

(** [select_item] on any closet: which error, and what the result is. *)
Lemma C86_select_pf : forall (I F : Type) (OI : Ord I) (h : hash_order) (c : closet I F) (i : I),
  (forall j, select_item h c i = Err (UnknownItem j) <-> j = i /\ get_family c i = None) /\
  (forall j, select_item h c i = Err (ExcludedItem j) <-> j = i /\ get_family c i <> None /\ In (Excluded i) (c_summary c)) /\
  ((exists c', select_item h c i = Ok c') <-> get_family c i <> None /\ ~ In (Excluded i) (c_summary c)) /\
  (forall h', select_item h' c i = select_item h c i) /\
  (forall c', select_item h c i = Ok c' ->
     c_index c' = c_index c /\ ssorted (c_summary c') /\
     (forall s, In s (c_summary c') <->
        s = Selected i \/ (exists j, s = Selected j /\ In s (c_summary c)) \/
        In s (c_summary (closet_new h (c_index c') (c_root c')))) /\
     (forall o, admits c' o <-> admits c o /\ In i o)).
Proof.
  intros I F OI h c i.
  assert (FX : match find (fun s => status_is s i) (filter is_excluded (c_summary c)) with Some _ => True | None => False end <-> In (Excluded i) (c_summary c)).
  { destruct (find _ _) as [s|] eqn:E.
    - apply find_some in E. destruct E as (X & Y). apply filter_In in X. destruct X as (X & Z).
      destruct s as [x|x|x]; try discriminate. unfold status_is in Y. cbn in Y. apply eqb_true_ in Y. subst x. tauto.
    - split; [intros []|]. intros X. assert (Y := find_none _ _ E (Excluded i)).
      rewrite filter_In in Y. specialize (Y (conj X eq_refl)). unfold status_is in Y. cbn in Y. rewrite eqb_refl_ in Y. discriminate. }
  unfold select_item. destruct (get_family c i) as [f|] eqn:G.
  2:{ split; [intros j; split; [injection 1 as <-; auto|intros (-> & _); reflexivity]|].
      split; [intros j; split; [discriminate|intros (_ & X & _); congruence]|].
      split; [split; [intros (c' & X); discriminate|intros (X & _); congruence]|].
      split; [reflexivity|discriminate]. }
  destruct (find _ _) as [s|].
  { split; [intros j; split; [discriminate|intros (_ & X); congruence]|].
    split; [intros j; split; [injection 1 as <-; split; [reflexivity|split; [discriminate|tauto]]|intros (-> & _); reflexivity]|].
    split; [split; [intros (c' & X); discriminate|tauto]|]. split; [reflexivity|discriminate]. }
  split; [intros j; split; [discriminate|intros (_ & X); congruence]|].
  split; [intros j; split; [discriminate|tauto]|].
  split; [split; [intros _; split; [discriminate|tauto]|intros _; eauto]|].
  split; [intros h'; rewrite (summarize_h h'), (summarize_h h); reflexivity|].
  intros c' E. injection E as <-. cbn [c_index c_summary c_root closet_new].
  assert (SI : forall s, In s (sort (unique (filter is_selected (c_summary c) ++ [Selected i] ++ summarize h (restrict (c_root c) i true)))) <->
     s = Selected i \/ (exists j, s = Selected j /\ In s (c_summary c)) \/ In s (summarize h (restrict (c_root c) i true))).
  { intros s. rewrite sort_in, unique_in, !in_app_iff, filter_In. cbn [In]. split.
    - intros [(X & Y)|[[X|[]]|X]]; [|auto|auto]. right; left. destruct s as [x|x|x]; try discriminate. eauto.
    - intros [X|[(j & X & Y)|X]]; [auto| |auto]. left. subst s. auto. }
  split; [reflexivity|]. split; [apply sort_ssorted, unique_NoDup|]. split; [exact SI|].
  intros o. unfold admits, get_family. cbn [c_index c_summary c_root]. split.
  - intros (K & S & V). assert (Io : In i o) by (apply S, SI; left; reflexivity). split; [|exact Io].
    split; [exact K|]. split; [intros j X; apply S, SI; right; left; eauto|].
    rewrite (eval_restrict_any (c_root c) i true (fun j => memb j o)) in V; [exact V|]. apply memb_spec; exact Io.
  - intros ((K & S & V) & Io). split; [exact K|]. split.
    + intros j X. apply SI in X. destruct X as [X|[(k & X & Y)|X]].
      * injection X as ->. exact Io.
      * apply S; exact Y.
      * exfalso. eapply summarize_not_selected; exact X.
    + rewrite (eval_restrict_any (c_root c) i true (fun j => memb j o)); [exact V|]. apply memb_spec; exact Io.
Qed.

(** Two selections in either order leave the same outfits; the closets are even equal
    if the root is ordered and reduced. *)
Lemma C86_select_order_pf : forall (I F : Type) (OI : Ord I) (h : hash_order) (c : closet I F) (i j : I) ci cij cj cji,
  select_item h c i = Ok ci -> select_item h ci j = Ok cij -> select_item h c j = Ok cj -> select_item h cj i = Ok cji ->
  (forall o, admits cij o <-> admits cji o) /\
  (bordered (c_root c) -> breduced (c_root c) -> cij = cji).
Proof.
  intros I F OI h c i j ci cij cj cji A B C D.
  destruct (proj2 (proj2 (proj2 (proj2 (C86_select_pf I F OI h c i)))) ci A) as (A1 & A2 & A3 & A4).
  destruct (proj2 (proj2 (proj2 (proj2 (C86_select_pf I F OI h ci j)))) cij B) as (B1 & B2 & B3 & B4).
  destruct (proj2 (proj2 (proj2 (proj2 (C86_select_pf I F OI h c j)))) cj C) as (C1 & C2 & C3 & C4).
  destruct (proj2 (proj2 (proj2 (proj2 (C86_select_pf I F OI h cj i)))) cji D) as (D1 & D2 & D3 & D4).
  split; [intros o; rewrite B4, A4, D4, C4; tauto|]. intros Bo Br.
  assert (R : forall (c : closet I F) i (c' : closet I F), select_item h c i = Ok c' -> c_root c' = restrict (c_root c) i true).
  { intros k x k'. unfold select_item. destruct (get_family k x); [|discriminate]. destruct (find _ _); [discriminate|].
    injection 1 as <-. reflexivity. }
  assert (E : c_root cij = c_root cji).
  { rewrite (R _ _ _ B), (R _ _ _ A), (R _ _ _ D), (R _ _ _ C). apply restrict_comm. split; assumption. }
  destruct cij as [xi xs xr], cji as [yi ys yr]. cbn in *. subst yr. f_equal; [congruence|].
  apply ssorted_ext; [exact B2|exact D2|]. intros s. rewrite (B3 s), (D3 s). split.
  - intros [X|[(k & X & Y)|X]]; [| |auto].
    + right; left. exists j. split; [exact X|]. apply C3. left; exact X.
    + subst s. apply A3 in Y. destruct Y as [Y|[(k' & Y & Z)|Y]].
      * left; exact Y.
      * right; left. exists k. split; [reflexivity|]. apply C3. right; left. eauto.
      * exfalso. eapply summarize_not_selected; exact Y.
  - intros [X|[(k & X & Y)|X]]; [| |auto].
    + right; left. exists i. split; [exact X|]. apply A3. left; exact X.
    + subst s. apply C3 in Y. destruct Y as [Y|[(k' & Y & Z)|Y]].
      * left; exact Y.
      * right; left. exists k. split; [reflexivity|]. apply A3. right; left. eauto.
      * exfalso. eapply summarize_not_selected; exact Y.
Qed.

(** [complete_outfit] on any closet never panics; the errors come in this order ... *)
Lemma C86_complete_errors_pf : forall (I F : Type) (OI : Ord I) (OF : Ord F) (c : closet I F) (sel : list I),
  let all_known := forall i, In i sel -> get_family c i <> None in
  let of_family f := filter (fun i => match get_family c i with Some g => eqb_ g f | None => false end) sel in
  let one_each := forall f, length (of_family f) <= 1 in
  complete_outfit c sel <> None /\
  (forall u, complete_outfit c sel = Some (Err (UnknownItems u)) <->
     ~ all_known /\ u = filter (fun i => match get_family c i with None => true | Some _ => false end) sel) /\
  (forall m, complete_outfit c sel = Some (Err (MultipleItemsPerFamily m)) <->
     all_known /\ ~ one_each /\ ssorted (map fst m) /\
     forall f l, In (f, l) m <-> l = of_family f /\ 2 <= length l) /\
  (forall l, complete_outfit c sel = Some (Err (IncompatibleSelections l)) <->
     all_known /\ one_each /\ restrict_all (c_root c) sel = Leaf false /\ ssorted l /\ Permutation l sel) /\
  (forall o, complete_outfit c sel = Some (Ok o) <->
     all_known /\ one_each /\ restrict_all (c_root c) sel <> Leaf false /\
     StronglySorted (fun a b => leb_ a b = true) o /\
     exists p v, first_path (restrict_all (c_root c) sel) p v /\ Permutation o (sel ++ p)).
Proof.
  intros I F OI OF c sel all_known of_family one_each.
  assert (FF : forall f, of_family f = filter (fam_is c f) sel) by reflexivity.
  assert (EU : filter (fun i => match get_family c i with None => true | Some _ => false end) sel = filter (fun i => negb (fam_known c i)) sel).
  { apply filter_ext. intros i. unfold fam_known. destruct (get_family c i); reflexivity. }
  assert (ND : one_each -> NoDup sel \/ ~ all_known).
  { intros Oe. clear EU. revert Oe. unfold one_each, of_family, all_known. clear. induction sel as [|i s IH]; intros Oe; [left; constructor|].
    destruct IH as [N|N].
    - intros f. specialize (Oe f). cbn [filter] in Oe. destruct (match get_family c i with Some g => eqb_ g f | None => false end); cbn [length] in Oe; lia.
    - destruct (get_family c i) as [f|] eqn:G; [|right; intros K; apply (K i); [left; reflexivity|exact G]].
      left. constructor; [|exact N]. intros X. specialize (Oe f). cbn [filter] in Oe. rewrite G, eqb_refl_ in Oe. cbn [length] in Oe.
      assert (Y : In i (filter (fun i => match get_family c i with Some g => eqb_ g f | None => false end) s)).
      { apply filter_In. split; [exact X|]. rewrite G. apply eqb_refl_. }
      destruct (filter _ s); [destruct Y|cbn in Oe; lia].
    - right. intros K. apply N. intros j J. apply K. right; exact J. }
  assert (Uniq : forall l, ssorted l -> Permutation l sel -> l = sort sel).
  { intros l S P. apply sorted_unique; [apply ssorted_SS_leb; exact S|apply sort_sorted|]. rewrite P. symmetry. apply sort_perm. }
  destruct (complete_any c sel) as [(u & Eu & Nu & X)|(KS & [(m & M1 & M2 & M3 & X)|(Oe & [(Ef & X)|(Ef & p & v & P & X)])])]; rewrite X.
  - assert (NK : ~ all_known).
    { intros K. destruct u as [|i u]; [congruence|]. assert (Y : In i (filter (fun i => negb (fam_known c i)) sel)) by (rewrite <- Eu; left; reflexivity).
      apply filter_In in Y. destruct Y as (Y & Z). apply (K i Y). unfold fam_known in Z. destruct (get_family c i); [discriminate|reflexivity]. }
    split; [discriminate|]. split; [|split; [|split]].
    + intros w. rewrite EU. split; [injection 1 as <-; auto|]. intros (_ & ->). rewrite Eu. reflexivity.
    + intros w. split; [discriminate|]. intros (K & _). contradiction.
    + intros w. split; [discriminate|]. intros (K & _). contradiction.
    + intros w. split; [discriminate|]. intros (K & _). contradiction.
  - assert (NO : ~ one_each) by (intros O1; destruct M3 as (f & M3); specialize (O1 f); rewrite FF in O1; lia).
    split; [discriminate|]. split; [|split; [|split]].
    + intros w. split; [discriminate|]. intros (K & _). contradiction.
    + intros w. split; [injection 1 as <-; auto|]. intros (_ & _ & S' & M'). do 3 f_equal. apply amap_ext; auto. intros k.
      destruct (map_get m k) as [l|] eqn:E0; destruct (map_get w k) as [l'|] eqn:E1; auto.
      * apply map_get_in in E0; auto. apply map_get_in in E1; auto. apply M2 in E0. apply M' in E1. f_equal.
        destruct E0 as (-> & _), E1 as (-> & _). reflexivity.
      * apply map_get_in in E0; auto. apply M2 in E0. apply M' in E0. apply (map_get_in w k l S') in E0. congruence.
      * apply map_get_in in E1; auto. apply M' in E1. apply M2 in E1. apply (map_get_in m k l' M1) in E1. congruence.
    + intros w. split; [discriminate|]. intros (_ & K & _). contradiction.
    + intros w. split; [discriminate|]. intros (_ & K & _). contradiction.
  - destruct (ND Oe) as [ND'|N]; [|contradiction].
    split; [discriminate|]. split; [|split; [|split]].
    + intros w. split; [discriminate|]. intros (K & _). contradiction.
    + intros w. split; [discriminate|]. intros (_ & K & _). contradiction.
    + intros w. split.
      * injection 1 as <-. split; [exact KS|]. split; [exact Oe|]. split; [exact Ef|]. split; [apply sort_ssorted; exact ND'|apply sort_perm].
      * intros (_ & _ & _ & S & P). rewrite (Uniq w S P). reflexivity.
    + intros w. split; [discriminate|]. intros (_ & _ & K & _). contradiction.
  - split; [discriminate|]. split; [|split; [|split]].
    + intros w. split; [discriminate|]. intros (K & _). contradiction.
    + intros w. split; [discriminate|]. intros (_ & K & _). contradiction.
    + intros w. split; [discriminate|]. intros (_ & _ & K & _). contradiction.
    + intros w. split.
      * injection 1 as <-. split; [exact KS|]. split; [exact Oe|]. split; [exact Ef|]. split; [apply sort_sorted|].
        exists p, v. split; [exact P|apply sort_perm].
      * intros (_ & _ & _ & S & p' & v' & P' & Pe). do 2 f_equal.
        assert (p' = p) as ->.
        { assert (Y := walk_first_path _ [] _ _ P). rewrite (walk_first_path _ [] _ _ P') in Y. exact Y. }
        apply sorted_unique; [apply sort_sorted|exact S|]. rewrite Pe. apply sort_perm.
Qed.

(** ... and on a reduced diagram without repeated items they mean what they say:
    incompatible means that no wearing of the selections satisfies the diagram; an
    outfit returned contains the selections, each item once, otherwise only items of
    the diagram, and satisfies it.  [reduce] makes any diagram so, short of repeats. *)
Lemma C86_complete_meaning_pf : forall (I F : Type) (OI : Ord I) (OF : Ord F) (c : closet I F) (sel : list I),
  read_once (c_root c) -> breduced (c_root c) ->
  (restrict_all (c_root c) sel = Leaf false <->
     ~ exists worn : I -> bool, (forall i, In i sel -> worn i = true) /\ eval worn (c_root c) = true) /\
  (forall o, complete_outfit c sel = Some (Ok o) ->
     ssorted o /\ incl sel o /\ (forall x, In x o -> In x sel \/ In x (labels (c_root c))) /\
     eval (fun x => memb x o) (c_root c) = true).
Proof.
  intros I F OI OF c sel Ro Br.
  assert (Ro' := restrict_all_once sel _ Ro). assert (Br' := restrict_all_reduced sel _ Br).
  assert (Wear : forall p v, first_path (restrict_all (c_root c) sel) p v -> restrict_all (c_root c) sel <> Leaf false ->
    forall o, (forall x, In x o <-> In x (sel ++ p)) -> eval (fun x => memb x o) (c_root c) = true).
  { intros p v P N o Eo. destruct (first_path_once _ _ _ P Ro') as (_ & V).
    rewrite <- (restrict_all_any sel (fun x => memb x o) (c_root c)).
    2:{ intros i Hi. apply memb_spec, Eo, in_app_iff. auto. }
    rewrite (eval_ext (restrict_all (c_root c) sel) (fun x => memb x o) (fun x => memb x p)).
    - rewrite V. exact (first_path_true _ _ _ P Br' N).
    - intros x Hx. assert (Ns := restrict_all_gone sel _ x Ro Hx).
      destruct (memb x p) eqn:M.
      + apply memb_spec in M. apply memb_spec, Eo, in_app_iff. auto.
      + apply memb_false in M. apply memb_false. rewrite Eo, in_app_iff. tauto. }
  split.
  - split.
    + intros E (w & S & V). rewrite <- (restrict_all_any sel w _ S), E in V. discriminate.
    + intros X. destruct (dd_eqb_spec (restrict_all (c_root c) sel) (Leaf false)) as [E|N]; [exact E|]. exfalso. apply X.
      destruct (first_path_ex (restrict_all (c_root c) sel)) as (p & v & P).
      exists (fun x => memb x (sel ++ p)). split; [intros i Hi; apply memb_spec, in_app_iff; auto|].
      apply (Wear p v P N). tauto.
  - intros o E. assert (Y := proj1 (proj2 (proj2 (proj2 (proj2 (C86_complete_errors_pf I F OI OF c sel)))) o) E).
    destruct Y as (K & Oe & N & S & p & v & P & Pe).
    assert (Eo : forall x, In x o <-> In x (sel ++ p)).
    { intros x. split; apply Permutation_in; [exact Pe|symmetry; exact Pe]. }
    assert (ND : NoDup sel).
    { clear - K Oe. induction sel as [|i s IH]; [constructor|]. constructor.
      - intros X. assert (Ki := K i (or_introl eq_refl)). destruct (get_family c i) as [f|] eqn:G; [|congruence].
        specialize (Oe f). cbn [filter] in Oe. rewrite G, eqb_refl_ in Oe. cbn [length] in Oe.
        assert (Y : In i (filter (fun i => match get_family c i with Some g => eqb_ g f | None => false end) s)).
        { apply filter_In. split; [exact X|]. rewrite G. apply eqb_refl_. }
        destruct (filter _ s); [destruct Y|cbn in Oe; lia].
      - apply IH; [intros j J; apply K; right; exact J|]. intros f. specialize (Oe f). cbn [filter] in Oe.
        destruct (match get_family c i with Some g => eqb_ g f | None => false end); cbn [length] in Oe; lia. }
    split.
    { apply SS_leb_NoDup; [exact S|]. eapply Permutation_NoDup; [symmetry; exact Pe|].
      apply NoDup_app_; [exact ND|exact (proj1 (first_path_once _ _ _ P Ro'))|].
      intros x Sx Px. exact (restrict_all_gone sel _ x Ro (first_path_labels _ _ _ _ P Px) Sx). }
    split; [intros x X; apply Eo, in_app_iff; auto|]. split.
    { intros x X. apply Eo, in_app_iff in X. destruct X as [X|X]; [auto|]. right.
      eapply restrict_all_labels, first_path_labels; [exact P|exact X]. }
    exact (Wear p v P N o Eo).
Qed.
(** The conditions survive [select_item] and can be had from any diagram without
    repeats; ordered diagrams have none. *)
Lemma C86_conditions_pf : forall (I F : Type) (OI : Ord I) (h : hash_order) (c : closet I F) (i : I) c',
  (read_once (c_root c) -> read_once (reduce (c_root c)) /\ breduced (reduce (c_root c)) /\
     forall worn, eval worn (reduce (c_root c)) = eval worn (c_root c)) /\
  (bordered (c_root c) -> read_once (c_root c)) /\
  (select_item h c i = Ok c' ->
     (breduced (c_root c) -> breduced (c_root c')) /\
     (read_once (c_root c) -> read_once (c_root c') /\ ~ In i (labels (c_root c')) /\
        forall worn, eval worn (c_root c') = eval (upd worn i true) (c_root c))).
Proof.
  intros I F OI h c i c'. split; [|split].
  - intros R. split; [apply read_once_reduce; exact R|]. split; [apply breduced_reduce|]. intros w. apply eval_reduce.
  - apply bordered_once.
  - intros E. unfold select_item in E. destruct (get_family c i); [|discriminate]. destruct (find _ _); [discriminate|].
    injection E as <-. cbn [c_root]. split; [apply breduced_restrict|]. intros R.
    split; [apply read_once_restrict; exact R|]. split; [apply restrict_once_gone; exact R|].
    intros w. apply eval_restrict_once; exact R.
Qed.
(** Without these conditions an outfit may be returned that the diagram rejects, or
    that lists an item twice; and a loaded summary can contradict the diagram. *)
Lemma C86_unreduced_pf :
  (exists c : closet nat nat, read_once (c_root c) /\ complete_outfit c [] = Some (Ok [1]) /\
     forall worn, eval worn (c_root c) = false) /\
  (exists c : closet nat nat, breduced (c_root c) /\ complete_outfit c [] = Some (Ok [1; 1]) /\
     forall o, memb 1 o = true -> eval (fun x => memb x o) (c_root c) = false) /\
  (exists (c : closet nat nat) o, c_root c = positive_branch 1 /\ admits c o /\ In 1 o /\
     select_item ho_id c 1 = Err (ExcludedItem 1)).
Proof.
  split; [|split].
  - exists (mkC [(1, 1); (2, 2)] [] (Branch 1 (Leaf false) (Branch 2 (Leaf false) (Leaf false)))).
    split; [simpl; intuition discriminate|]. split; [reflexivity|]. intros w. simpl. destruct (w 1), (w 2); reflexivity.
  - exists (mkC [(1, 1)] [] (Branch 1 (Leaf true) (Branch 1 (Branch 2 (Leaf false) (Leaf true)) (Branch 1 (Leaf true) (Leaf false))))).
    split; [repeat split; discriminate|]. split; [reflexivity|]. intros o M. simpl. rewrite M. reflexivity.
  - exists (mkC [(1, 1)] [Excluded 1] (positive_branch 1)), [1]. split; [reflexivity|]. split.
    { split; [|split; [|reflexivity]].
      - intros i [<-|[]]. discriminate.
      - intros i [X|[]]. discriminate. }
    split; [left; reflexivity|reflexivity].
Qed.

(** Non-vacuity: a closet loaded from a structure with odd depths. *)
Example C86_example :
  let s := SAvailable 7 (SExcluded 3 (SOutcome true)) (SRequired 3 (SOutcome true)) in
  exists c : closet nat nat,
    closet_de ([(10, 1); (20, 2); (30, 3)], [Selected 30; Excluded 20], (s, [(3, 20); (7, 10)])) = Some c /\
    c_root c = Branch 10 (negative_branch 20) (positive_branch 20) /\ read_once (c_root c) /\ breduced (c_root c) /\
    closet_de ([(10, 1)], [], (s, [(3, 20)])) = @None (closet nat nat) /\
    complete_outfit c [] = Some (Ok [10; 20]) /\ complete_outfit c [30; 20] = Some (Ok [10; 20; 30]) /\
    complete_outfit c [10; 10] = Some (Err (MultipleItemsPerFamily [(1, [10; 10])])) /\
    select_item ho_id c 20 = Err (ExcludedItem 20) /\
    (exists c', select_item ho_id c 10 = Ok c' /\ c_root c' = positive_branch 20 /\ admits c' [10; 20; 30]).
Proof.
  cbv zeta. eexists. split; [reflexivity|]. split; [reflexivity|]. split; [simpl; intuition discriminate|].
  split; [repeat split; discriminate|]. do 5 (split; [reflexivity|]). eexists. split; [reflexivity|]. split; [reflexivity|].
  split; [|split; [|reflexivity]].
  - intros i [<-|[<-|[<-|[]]]]; discriminate.
  - intros i X. vm_compute in X. destruct X as [X|[X|[X|[]]]]; try discriminate; injection X as <-; simpl; auto.
Qed.
