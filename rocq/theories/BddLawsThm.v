(** BddLawsThm: laws that relate several closets: histories of builder calls that
    say the same, counting over a family, independent wardrobes, more rules;
    and the counters in 64-bit arithmetic. *)
From Coq Require Import List Arith Lia Bool Permutation Sorted NArith.
From Verif Require Import Base DD Spec BddSpec BddModel BddRun BddNode BddCloset BddThm BddCount64.
Import ListNotations.

Lemma nodup_prod {A B} (l : list A) (m : list B) : NoDup l -> NoDup m -> NoDup (list_prod l m).
Proof.
  intros L M. induction L as [|a l N L IH]; simpl; [constructor|].
  apply NoDup_app_.
  - apply NoDup_map_inj; auto. intros x y _ _ E. congruence.
  - exact IH.
  - intros [x y] X Y. apply in_map_iff in X. destruct X as (z & E & _). injection E as -> ->. apply in_prod_iff in Y. tauto.
Qed.

Section Laws.
  Context {I F : Type} `{OI : Ord I} `{OF : Ord F}.
  Notation call := (bcall I F).
  Implicit Types (calls a b : list call).


  Lemma same_wardrobe_sym (c1 c2 : list call) : same_wardrobe c1 c2 -> same_wardrobe c2 c1.
  Proof.
    intros (A & B & C). split; [intros x; symmetry; apply A|]. split; [intros x; symmetry; apply B|].
    intros s x. symmetry. apply C.
  Qed.
  Lemma same_known (c1 c2 : list call) i : same_wardrobe c1 c2 -> known c1 i -> known c2 i.
  Proof. intros (A & _) (f & X). exists f. apply A; exact X. Qed.
  Lemma same_legal (c1 c2 : list call) : same_wardrobe c1 c2 -> legal c1 -> legal c2.
  Proof.
    intros S (L1 & L2). pose proof S as (A & B & C). split.
    - intros f g i X Y. apply (L1 f g i); apply A; auto.
    - assert (K : forall s x, known c1 s /\ known c1 x /\ (forall f, In (f, s) (adds c1) -> In (f, x) (adds c1) -> False) ->
                 known c2 s /\ known c2 x /\ (forall f, In (f, s) (adds c2) -> In (f, x) (adds c2) -> False)).
      { intros s x (P & Q & R). split; [eapply same_known; eauto|]. split; [eapply same_known; eauto|].
        intros f X Y. apply (R f); apply A; auto. }
      intros s x [X|X]; apply K.
      + assert (In (s, x) (excls c1) \/ In (x, s) (excls c1)) as [Y|Y] by (apply C; auto).
        * apply L2; auto.
        * destruct (L2 x s (or_introl Y)) as (P & Q & R). split; auto. split; auto. intros f U V. apply (R f); auto.
      + apply L2. right. apply B; exact X.
  Qed.
  Lemma same_valid_env (c1 c2 : list call) env : same_wardrobe c1 c2 -> valid_env c1 env -> valid_env c2 env.
  Proof.
    intros (A & B & C) (P & Q & R). split; [|split].
    - intros f i X. apply A in X. destruct (P f i X) as (j & Y & Ej & U). exists j. split; [apply A; exact Y|]. split; auto.
      intros k Z. apply U. apply A; exact Z.
    - intros s x X (Es & Ex). assert (In (s, x) (excls c1) \/ In (x, s) (excls c1)) as [Y|Y] by (apply C; auto).
      + apply (Q s x Y); auto.
      + apply (Q x s Y); auto.
    - intros s x X. apply R. apply B; exact X.
  Qed.
  Lemma same_root (c1 c2 : list call) : same_wardrobe c1 c2 -> root_of c1 = root_of c2.
  Proof.
    intros S. apply robdd_ext; try apply robdd_root. intros env. apply eq_true_iff_eq. rewrite !eval_root.
    split; apply same_valid_env; auto. apply same_wardrobe_sym; exact S.
  Qed.
  Lemma same_first (c1 c2 : list call) i : same_wardrobe c1 c2 -> legal c1 -> first_family c1 i = first_family c2 i.
  Proof.
    intros S L. pose proof S as (A & _). destruct (first_family c1 i) as [f|] eqn:E.
    - symmetry. apply legal_first; [eapply same_legal; eauto|]. apply A, first_family_in, E.
    - symmetry. apply first_family_none in E. apply first_family_none. intros K. apply E.
      eapply same_known; [apply same_wardrobe_sym; exact S|exact K].
  Qed.
  Lemma same_index (c1 c2 : list call) : same_wardrobe c1 c2 -> legal c1 -> index_of c1 = index_of c2.
  Proof.
    intros S L. apply amap_ext; try apply index_of_ok. intros i. rewrite !index_of_get. apply same_first; auto.
  Qed.
  Lemma same_inv (c1 c2 : list call) sels c : same_wardrobe c1 c2 -> Inv c1 sels c -> Inv c2 sels c.
  Proof.
    intros S [A B C D E G Z]. split; auto.
    - eapply same_legal; eauto.
    - rewrite B. apply same_index; auto.
    - intros x X. apply items_of_in. eapply same_known; [exact S|]. apply items_of_in; auto.
    - rewrite D, (same_root c1 c2) by auto. reflexivity.
  Qed.

  (** ** valid outfits, counted *)
  Definition outfits_of (calls : list call) (sels : list I) (os : list (list I)) : Prop :=
    NoDup os /\ forall o, In o os <-> ssorted o /\ valid_outfit calls o /\ incl sels o.
  Lemma outfits_exist calls sels c : reached calls sels c ->
    exists os, outfits_of calls sels os /\ outfit_count (c_root c) = length os.
  Proof.
    intros R. destruct (C49_outfit_count_pf I F OI OF calls sels c R) as (os & N & A & B). exists os. split; [split|]; auto.
  Qed.
  Lemma outfits_count calls sels c os : reached calls sels c -> outfits_of calls sels os -> outfit_count (c_root c) = length os.
  Proof.
    intros R (N & A). destruct (outfits_exist _ _ _ R) as (os' & (N' & A') & ->).
    apply Permutation_length, NoDup_Permutation; auto. intros o. rewrite A, A'. tauto.
  Qed.
  (** the unique item of a family in an outfit *)
  Lemma one_of_family calls f i items (o : list I) : valid_outfit calls o -> In (f, i) (adds calls) -> NoDup items ->
    (forall j, In j items <-> In (f, j) (adds calls)) -> length (filter (fun j => memb j o) items) = 1.
  Proof.
    intros (_ & V & _) Hi N Q. destruct (V f i Hi) as (j & Hj & Oj & U). apply Q in Hj.
    assert (Permutation (filter (fun k => memb k o) items) [j]) as P.
    { apply NoDup_Permutation; [apply NoDup_filter; exact N|repeat constructor; auto|]. intros k. rewrite filter_In, memb_spec. simpl. split.
      - intros (A & B). left. symmetry. apply U; auto. apply Q; exact A.
      - intros [<-|[]]. auto. }
    rewrite (Permutation_length P). reflexivity.
  Qed.
  Lemma sum_rows (items : list I) (os : list (list I)) : (forall o, In o os -> length (filter (fun j => memb j o) items) = 1) ->
    list_sum (map (fun j => length (filter (memb j) os)) items) = length os.
  Proof.
    revert items. induction os as [|o os IH]; intros items A.
    - clear A. induction items as [|j items IH]; [reflexivity|]. unfold list_sum in *. cbn [map fold_right filter length] in *. lia.
    - change (length (o :: os)) with (1 + length os). rewrite <- (IH items) by (intros; apply A; right; auto).
      specialize (A o (or_introl eq_refl)). clear IH. revert A.
      enough (forall n, length (filter (fun j => memb j o) items) = n ->
        list_sum (map (fun j => length (filter (memb j) (o :: os))) items) =
        n + list_sum (map (fun j => length (filter (memb j) os)) items)) as E by (intros A; exact (E 1 A)).
      induction items as [|j items IH]; intros n; unfold list_sum in *; cbn [map fold_right filter].
      + intros <-. reflexivity.
      + intros E. specialize (IH _ eq_refl). cbn [map fold_right filter] in IH. destruct (memb j o); cbn [length] in *; lia.
  Qed.
  Lemma select_outfits calls sels os i : outfits_of calls sels os -> outfits_of calls (sels ++ [i]) (filter (memb i) os).
  Proof.
    intros (N & A). split; [apply NoDup_filter; exact N|]. intros o. rewrite filter_In, A, memb_spec. split.
    - intros ((S & V & J) & Hi). repeat split; auto; try apply V. intros x Hx. apply in_app_iff in Hx. destruct Hx as [Hx|[<-|[]]]; auto.
    - intros (S & V & J). split; [|apply J, in_or_app; right; left; reflexivity]. split; auto. split; auto. intros x Hx. apply J, in_or_app; auto.
  Qed.

  (** ** independent wardrobes *)
  Lemma adds_app (a b : list call) : adds (a ++ b) = adds a ++ adds b.
  Proof. apply flat_map_app. Qed.
  Lemma excls_app (a b : list call) : excls (a ++ b) = excls a ++ excls b.
  Proof. apply flat_map_app. Qed.
  Lemma incls_app (a b : list call) : incls (a ++ b) = incls a ++ incls b.
  Proof. apply flat_map_app. Qed.
  Definition independent (a b : list call) : Prop :=
    forall f g i j, In (f, i) (adds a) -> In (g, j) (adds b) -> f <> g /\ i <> j.

  Lemma valid_app a b o : legal a -> legal b -> independent a b ->
    (valid_outfit (a ++ b) o <->
     (forall i, In i o -> known a i \/ known b i) /\
     valid_outfit a (filter (fun i => if first_family a i then true else false) o) /\
     valid_outfit b (filter (fun i => if first_family b i then true else false) o)).
  Proof.
    intros La Lb D.
    assert (KA : forall i, In i (filter (fun i => if first_family a i then true else false) o) <-> In i o /\ known a i).
    { intros i. rewrite filter_In, first_family_known. destruct (first_family a i); split; intros (X & Y); split; auto; eauto; try discriminate.
      destruct Y; discriminate. }
    assert (KB : forall i, In i (filter (fun i => if first_family b i then true else false) o) <-> In i o /\ known b i).
    { intros i. rewrite filter_In, first_family_known. destruct (first_family b i); split; intros (X & Y); split; auto; eauto; try discriminate.
      destruct Y; discriminate. }
    revert KA KB. generalize (filter (fun i => if first_family a i then true else false) o) as oa.
    generalize (filter (fun i => if first_family b i then true else false) o) as ob. intros ob oa KA KB.
    unfold valid_outfit. unfold known at 1. rewrite adds_app, excls_app, incls_app.
    split.
    - intros (K & V & X & N). split; [|split].
      + intros i Hi. destruct (K i Hi) as (f & Hf). apply in_app_iff in Hf. destruct Hf; [left|right]; exists f; auto.
      + split; [intros i Hi; apply KA in Hi; tauto|]. split; [|split].
        * intros f i Hi. destruct (V f i) as (j & Hj & Oj & U); [apply in_or_app; auto|].
          apply in_app_iff in Hj. destruct Hj as [Hj|Hj]; [|exfalso; apply (proj1 (D f f i j Hi Hj)); reflexivity].
          exists j. split; auto. split; [apply KA; split; [auto|exists f; auto]|].
          intros k Hk Ok. apply U; [apply in_or_app; auto|]. apply KA in Ok. tauto.
        * intros s x Hx (P & Q). apply KA in P. apply KA in Q. apply (X s x); [apply in_or_app; auto|tauto].
        * intros s x Hx P. apply KA in P. apply KA. split; [apply (N s x); [apply in_or_app; auto|tauto]|].
          destruct La as (_ & La); destruct (La s x (or_intror Hx)); tauto.
      + split; [intros i Hi; apply KB in Hi; tauto|]. split; [|split].
        * intros f i Hi. destruct (V f i) as (j & Hj & Oj & U); [apply in_or_app; auto|].
          apply in_app_iff in Hj. destruct Hj as [Hj|Hj]; [exfalso; apply (proj1 (D f f j i Hj Hi)); reflexivity|].
          exists j. split; auto. split; [apply KB; split; [auto|exists f; auto]|].
          intros k Hk Ok. apply U; [apply in_or_app; auto|]. apply KB in Ok. tauto.
        * intros s x Hx (P & Q). apply KB in P. apply KB in Q. apply (X s x); [apply in_or_app; auto|tauto].
        * intros s x Hx P. apply KB in P. apply KB. split; [apply (N s x); [apply in_or_app; auto|tauto]|].
          destruct Lb as (_ & Lb); destruct (Lb s x (or_intror Hx)); tauto.
    - intros (K & (_ & VA & XA & NA) & (_ & VB & XB & NB)). split; [|split; [|split]].
      + intros i Hi. destruct (K i Hi) as [(f & Hf)|(f & Hf)]; exists f; apply in_or_app; auto.
      + intros f i Hi. apply in_app_iff in Hi. destruct Hi as [Hi|Hi].
        * destruct (VA f i Hi) as (j & Hj & Oj & U). exists j. split; [apply in_or_app; auto|]. split; [apply KA in Oj; tauto|].
          intros k Hk Ok. apply in_app_iff in Hk. destruct Hk as [Hk|Hk]; [|exfalso; apply (proj1 (D f f i k Hi Hk)); reflexivity].
          apply U; auto. apply KA. split; [auto|exists f; auto].
        * destruct (VB f i Hi) as (j & Hj & Oj & U). exists j. split; [apply in_or_app; auto|]. split; [apply KB in Oj; tauto|].
          intros k Hk Ok. apply in_app_iff in Hk. destruct Hk as [Hk|Hk]; [exfalso; apply (proj1 (D f f k i Hk Hi)); reflexivity|].
          apply U; auto. apply KB. split; [auto|exists f; auto].
      + intros s x Hx (P & Q). apply in_app_iff in Hx. destruct Hx as [Hx|Hx].
        * destruct La as (_ & La). destruct (La s x (or_introl Hx)) as (K1 & K2 & _). apply (XA s x Hx). split; apply KA; auto.
        * destruct Lb as (_ & Lb). destruct (Lb s x (or_introl Hx)) as (K1 & K2 & _). apply (XB s x Hx). split; apply KB; auto.
      + intros s x Hx P. apply in_app_iff in Hx. destruct Hx as [Hx|Hx].
        * destruct La as (_ & La). destruct (La s x (or_intror Hx)) as (K1 & _). eapply KA, (NA s x Hx), KA. auto.
        * destruct Lb as (_ & Lb). destruct (Lb s x (or_intror Hx)) as (K1 & _). eapply KB, (NB s x Hx), KB. auto.
  Qed.
End Laws.

(** C74.  Histories of builder calls that say the same - in any order, with any
    repetitions, rule by rule or in bulk, exclusions written either way round -
    are accepted alike and build equal closets, also after equal selections. *)
Lemma C74_history_irrelevant_pf : forall (I F : Type) (OI : Ord I) (OF : Ord F) (calls1 calls2 : list (bcall I F)),
  same_wardrobe calls1 calls2 ->
  (forall h1 h2, (exists c, build h1 (run_calls calls1) = Ok c) <-> (exists c, build h2 (run_calls calls2) = Ok c)) /\
  (forall sels1 sels2 c1 c2, reached calls1 sels1 c1 -> reached calls2 sels2 c2 -> same_elems sels1 sels2 -> c1 = c2).
Proof.
  intros I F OI OF a b S. split.
  - intros h1 h2. rewrite !C47_build_ok_iff_legal_pf. split; apply same_legal; auto using same_wardrobe_sym.
  - intros s1 s2 c1 c2 R1 R2 E. apply (inv_eq b s1 s2 c1 c2 E); [|apply reached_inv; exact R2].
    apply (same_inv a b s1 c1 S), reached_inv, R1.
Qed.
(** the rules first, items one by one and one of them twice, the exclusion the other way round *)
Definition ex_calls_shuffled : list (bcall nat nat) :=
  [AddIncls 12 [22; 22]; AddExcl 21 11; AddItem 2 23; AddItems 1 [13; 12]; AddItem 2 21; AddItem 2 22; AddItem 1 11; AddItem 2 23].
Example C74_example : same_wardrobe ex_calls ex_calls_shuffled /\ ex_calls <> ex_calls_shuffled /\
  exists c, build ho_id (run_calls ex_calls) = Ok c /\ build ho_rev (run_calls ex_calls_shuffled) = Ok c.
Proof.
  split; [|split; [discriminate|eexists; split; vm_compute; reflexivity]].
  split; [|split].
  - intros x. cbn. tauto.
  - intros x. cbn. tauto.
  - intros s x. cbn. split; intros [[E|[]]|[E|[]]]; injection E as <- <-; auto.
Qed.

(** C75.  Every outfit picks exactly one item of each family: the counts after
    selecting each item of a family (0 for a refused one) add up to the count. *)
Lemma C75_family_sum_pf : forall (I F : Type) (OI : Ord I) (OF : Ord F) (calls : list (bcall I F)) sels c h f i0 (items : list I),
  reached calls sels c -> In (f, i0) (adds calls) -> NoDup items -> (forall i, In i items <-> In (f, i) (adds calls)) ->
  outfit_count (c_root c) =
  list_sum (map (fun i => match select_item h c i with Ok c' => outfit_count (c_root c') | Err _ => 0 end) items).
Proof.
  intros I F OI OF calls sels c h f i0 items R Hf N Q.
  destruct (outfits_exist _ _ _ R) as (os & O & ->). pose proof O as (No & A).
  rewrite <- (sum_rows items os).
  2: { intros o Ho. apply A in Ho. apply (one_of_family calls f i0 items o); tauto. }
  f_equal. apply map_ext_in. intros i Hi. apply Q in Hi.
  destruct (select_item h c i) as [c'|e] eqn:E.
  - symmetry. apply (outfits_count calls (sels ++ [i]) c'); [eapply reached_select; eauto|]. apply select_outfits; exact O.
  - destruct (sat_dec calls sels (inv_legal _ _ _ (reached_inv _ _ _ R)) (inv_known _ _ _ (reached_inv _ _ _ R))) as [S|S].
    + destruct (C52_select_partial_pf I F OI OF calls sels c h i R S) as (_ & B).
      destruct (filter (memb i) os) as [|o l] eqn:Fo; [reflexivity|]. exfalso.
      assert (X : In o (filter (memb i) os)) by (rewrite Fo; left; reflexivity).
      apply filter_In in X. destruct X as (X & Y). apply A in X. apply memb_spec in Y.
      destruct (proj2 B) as (c' & E'); [exists o; tauto|]. rewrite E in E'. discriminate.
    + destruct os as [|o os']; [reflexivity|]. exfalso. apply S. exists o. destruct (proj1 (A o) (or_introl eq_refl)) as (_ & V & J). auto.
Qed.
Example C75_example : exists c, reached ex_calls [] c /\ outfit_count (c_root c) = 6 /\
  map (fun i => match select_item ho_rev c i with Ok c' => outfit_count (c_root c') | Err _ => 0 end) [11; 12; 13] = [2; 1; 3].
Proof.
  destruct (ex_build ho_id) as (c & E). exists c. split; [econstructor; exact E|].
  vm_compute in E. injection E as <-. split; vm_compute; reflexivity.
Qed.

(** C76.  More rules, fewer outfits. *)
Lemma C76_rules_monotone_pf : forall (I F : Type) (OI : Ord I) (OF : Ord F) (calls1 calls2 : list (bcall I F)) sels1 sels2 c1 c2,
  reached calls1 sels1 c1 -> reached calls2 sels2 c2 -> same_elems (adds calls1) (adds calls2) ->
  incl (excls calls1) (excls calls2) -> incl (incls calls1) (incls calls2) -> incl sels1 sels2 ->
  (forall o, admits c2 o -> admits c1 o) /\ outfit_count (c_root c2) <= outfit_count (c_root c1).
Proof.
  intros I F OI OF a b s1 s2 c1 c2 R1 R2 A X N S.
  assert (V : forall o, valid_outfit b o -> valid_outfit a o).
  { intros o (K & P & Q & R). split; [|split; [|split]].
    - intros i Hi. destruct (K i Hi) as (f & Hf). exists f. apply A; exact Hf.
    - intros f i Hi. destruct (P f i) as (j & Hj & Oj & U); [apply A; exact Hi|]. exists j. split; [apply A; exact Hj|]. split; auto.
      intros k Hk. apply U. apply A; exact Hk.
    - intros s x Hx. apply Q, X, Hx.
    - intros s x Hx. apply R, N, Hx. }
  split.
  - intros o. rewrite (admits_iff a s1 c1 o R1), (admits_iff b s2 c2 o R2). intros (Vo & J). split; auto. intros x Hx. auto.
  - destruct (outfits_exist _ _ _ R1) as (os1 & (N1 & O1) & ->). destruct (outfits_exist _ _ _ R2) as (os2 & (N2 & O2) & ->).
    apply NoDup_incl_length; auto. intros o Ho. apply O2 in Ho. destruct Ho as (P & Vo & J). apply O1. split; auto. split; auto. intros x Hx; auto.
Qed.

(** Wardrobes without a common family or item are independent: the outfits
    multiply, also after selections in each. *)
Lemma C76_independent_pf : forall (I F : Type) (OI : Ord I) (OF : Ord F) (a b : list (bcall I F)) sa sb s ca cb c,
  (forall f g i j, In (f, i) (adds a) -> In (g, j) (adds b) -> f <> g /\ i <> j) ->
  reached a sa ca -> reached b sb cb -> reached (a ++ b) s c -> same_elems s (sa ++ sb) ->
  outfit_count (c_root c) = outfit_count (c_root ca) * outfit_count (c_root cb).
Proof.
  intros I F OI OF a b sa sb s ca cb c D Ra Rb R S.
  pose proof (inv_legal _ _ _ (reached_inv _ _ _ Ra)) as La. pose proof (inv_legal _ _ _ (reached_inv _ _ _ Rb)) as Lb.
  destruct (outfits_exist _ _ _ Ra) as (oa & (Na & A) & ->). destruct (outfits_exist _ _ _ Rb) as (ob & (Nb & B) & ->).
  assert (Dk : forall i, known a i -> known b i -> False).
  { intros i (f & X) (g & Y). apply (proj2 (D f g i i X Y)); reflexivity. }
  set (g := fun p : list I * list I => sort (unique (fst p ++ snd p))).
  assert (Gin : forall p x, In x (g p) <-> In x (fst p) \/ In x (snd p)) by (intros p x; unfold g; rewrite sort_in, unique_in, in_app_iff; tauto).
  set (pa := fun i => if first_family a i then true else false). set (pb := fun i => if first_family b i then true else false).
  assert (Pa : forall i, pa i = true <-> known a i).
  { intros i. unfold pa. rewrite first_family_known. destruct (first_family a i); split; eauto; try discriminate. intros (f & E); discriminate. }
  assert (Pb : forall i, pb i = true <-> known b i).
  { intros i. unfold pb. rewrite first_family_known. destruct (first_family b i); split; eauto; try discriminate. intros (f & E); discriminate. }
  rewrite <- prod_length, <- (map_length g). apply (outfits_count (a ++ b) s c _ R). split.
  - apply NoDup_map_inj; [|apply nodup_prod; auto].
    assert (X : forall p q, In p (list_prod oa ob) -> In q (list_prod oa ob) -> g p = g q -> forall x, (In x (fst p) -> In x (fst q)) /\ (In x (snd p) -> In x (snd q))).
    { intros [p1 p2] [q1 q2] Hp Hq E x. apply in_prod_iff in Hp. apply in_prod_iff in Hq. destruct Hp as (Hp1 & Hp2), Hq as (Hq1 & Hq2).
      apply A in Hp1. apply B in Hp2. apply A in Hq1. apply B in Hq2. cbn [fst snd].
      pose proof (Gin (p1, p2) x) as G1. pose proof (Gin (q1, q2) x) as G2. rewrite E in G1. cbn [fst snd] in *.
      destruct Hp1 as (_ & (K1 & _) & _), Hp2 as (_ & (K2 & _) & _), Hq1 as (_ & (K3 & _) & _), Hq2 as (_ & (K4 & _) & _).
      split; intros Hx.
      - assert (In x q1 \/ In x q2) as [Y|Y] by tauto; auto. exfalso. eapply Dk; eauto.
      - assert (In x q1 \/ In x q2) as [Y|Y] by tauto; auto. exfalso. eapply Dk; eauto. }
    intros p q Hp Hq E. pose proof (X p q Hp Hq E) as X1. pose proof (X q p Hq Hp (eq_sym E)) as X2.
    destruct p as [p1 p2], q as [q1 q2]. apply in_prod_iff in Hp. apply in_prod_iff in Hq. destruct Hp as (Hp1 & Hp2), Hq as (Hq1 & Hq2).
    apply A in Hp1. apply B in Hp2. apply A in Hq1. apply B in Hq2. cbn [fst snd] in *.
    f_equal; apply ssorted_ext; try tauto; intros x; specialize (X1 x); specialize (X2 x); tauto.
  - intros o. rewrite in_map_iff. split.
    + intros ([p1 p2] & <- & Hp). apply in_prod_iff in Hp. destruct Hp as (Hp1 & Hp2). apply A in Hp1. apply B in Hp2.
      destruct Hp1 as (P1 & V1 & J1), Hp2 as (P2 & V2 & J2).
      split; [apply sort_ssorted, unique_NoDup|]. split.
      * apply (valid_app a b); auto. split; [|split].
        -- intros i Hi. apply Gin in Hi. destruct Hi as [Hi|Hi]; [left; apply V1; exact Hi|right; apply V2; exact Hi].
        -- eapply valid_outfit_ext; [|exact V1]. intros x. fold pa. rewrite filter_In, Gin, Pa. cbn [fst snd]. split.
           ++ intros Hx. split; auto. apply V1; exact Hx.
           ++ intros ([Hx|Hx] & Kx); auto. exfalso. eapply Dk; [exact Kx|]. apply V2; exact Hx.
        -- eapply valid_outfit_ext; [|exact V2]. intros x. fold pb. rewrite filter_In, Gin, Pb. cbn [fst snd]. split.
           ++ intros Hx. split; auto. apply V2; exact Hx.
           ++ intros ([Hx|Hx] & Kx); auto. exfalso. eapply Dk; [|exact Kx]. apply V1; exact Hx.
      * intros x Hx. apply S, in_app_iff in Hx. apply Gin. cbn [fst snd]. destruct Hx; auto.
    + intros (P & V & J). apply (valid_app a b) in V; auto. fold pa pb in V. destruct V as (K & V1 & V2).
      exists (filter pa o, filter pb o). split.
      * apply ssorted_ext; [apply sort_ssorted, unique_NoDup|exact P|]. intros x. rewrite Gin. cbn [fst snd]. rewrite !filter_In, Pa, Pb.
        split; [tauto|]. intros Hx. destruct (K x Hx); auto.
      * apply in_prod_iff. split; [apply A|apply B]; (split; [apply ssorted_filter; exact P|split; [assumption|]]); intros x Hx; apply filter_In.
        -- split; [apply J, S, in_or_app; auto|]. apply Pa. apply items_of_in. exact (inv_known _ _ _ (reached_inv _ _ _ Ra) x Hx).
        -- split; [apply J, S, in_or_app; auto|]. apply Pb. apply items_of_in. exact (inv_known _ _ _ (reached_inv _ _ _ Rb) x Hx).
Qed.

Lemma mk_adds {I F : Type} (fams : list (F * list I)) f i :
  In (f, i) (adds (map (fun p => AddItems (fst p) (snd p)) fams : list (bcall I F))) <-> exists l, In (f, l) fams /\ In i l.
Proof.
  unfold adds. rewrite in_flat_map. split.
  - intros (c & X & Y). apply in_map_iff in X. destruct X as ([g l] & <- & X). cbn [fst snd] in Y. apply in_map_iff in Y.
    destruct Y as (j & E & Y). injection E as -> ->. eauto.
  - intros (l & X & Y). exists (AddItems f l). split; [apply in_map_iff; exists (f, l); auto|]. apply in_map; exact Y.
Qed.
Lemma mk_rules {I F : Type} (fams : list (F * list I)) :
  excls (map (fun p => AddItems (fst p) (snd p)) fams : list (bcall I F)) = [] /\
  incls (map (fun p => AddItems (fst p) (snd p)) fams : list (bcall I F)) = [].
Proof. induction fams as [|p l IH]; cbn; auto. Qed.
Lemma legal_reached {I F : Type} {OI : Ord I} {OF : Ord F} (calls : list (bcall I F)) : legal calls -> exists c, reached calls [] c.
Proof. intros L. apply (C47_build_ok_iff_legal_pf I F OI OF ho_id) in L. destruct L as (c & E). exists c. econstructor; exact E. Qed.

Lemma mk_count {I F : Type} {OI : Ord I} {OF : Ord F} (fams : list (F * list I)) : forall c : closet I F,
  NoDup (map fst fams) -> (forall f l, In (f, l) fams -> NoDup l /\ l <> []) ->
  reached (map (fun p => AddItems (fst p) (snd p)) fams) [] c ->
  outfit_count (c_root c) = fold_right Nat.mul 1 (map (fun p => length (snd p)) fams).
Proof.
  induction fams as [|[f l] fams IH]; intros c N Q R.
  - cbn [map fold_right]. apply (outfits_count _ _ _ [[]] R). split; [repeat constructor; auto|]. intros o. simpl. split.
    + intros [<-|[]]. split; [constructor|]. split; [|intros x []]. split; [intros i []|]. split; [intros g i []|]. split; intros s x [].
    + intros (_ & (K & _) & _). left. destruct o as [|x o]; auto. destruct (K x (or_introl eq_refl)) as (g & []).
  - cbn [map fst snd fold_right]. inversion N as [|x y Nf N']; subst.
    set (b := map (fun p : F * list I => AddItems (fst p) (snd p)) fams : list (bcall I F)).
    pose proof (inv_legal _ _ _ (reached_inv _ _ _ R)) as (L & _).
    assert (La : legal ([AddItems f l] : list (bcall I F))).
    { split; [|intros s x [[]|[]]]. intros g g' i X Y. apply in_flat_map in X. apply in_flat_map in Y.
      destruct X as (? & [<-|[]] & X), Y as (? & [<-|[]] & Y). apply in_map_iff in X. apply in_map_iff in Y.
      destruct X as (? & X & _), Y as (? & Y & _). congruence. }
    assert (Lb : legal b).
    { split.
      - intros g g' i X Y. apply (L g g' i); unfold adds; cbn [map flat_map]; apply in_or_app; right; assumption.
      - intros s x. unfold b. destruct (mk_rules fams) as (-> & ->). intros [[]|[]]. }
    destruct (legal_reached _ La) as (ca & Ra). destruct (legal_reached _ Lb) as (cb & Rb).
    rewrite (C76_independent_pf I F OI OF [AddItems f l] b [] [] [] ca cb c); auto; [|..].
    + f_equal.
      * destruct (Q f l (or_introl eq_refl)) as (Nl & Ne). rewrite <- (map_length (fun i => [i]) l).
        assert (AD : forall g i, In (g, i) (adds ([AddItems f l] : list (bcall I F))) <-> g = f /\ In i l).
        { intros g i. unfold adds. cbn [flat_map]. rewrite app_nil_r, in_map_iff. split.
          - intros (j & E & X). injection E as -> ->. auto.
          - intros (-> & X). eauto. }
        apply (outfits_count _ _ _ _ Ra). split.
        -- apply NoDup_map_inj; auto. intros x y _ _ E. congruence.
        -- intros o. rewrite in_map_iff. split.
           ++ intros (i & <- & Hi). split; [repeat constructor|]. split; [|intros x []]. split; [|split; [|split; intros s x []]].
              ** intros j [<-|[]]. exists f. apply AD; auto.
              ** intros g j X. apply AD in X. exists i. split; [apply AD; split; tauto|]. split; [left; reflexivity|]. intros k _ [<-|[]]; reflexivity.
           ++ intros (S & (K & V & _) & _). destruct l as [|i0 l']; [congruence|].
              destruct (V f i0) as (j & Hj & Oj & U); [apply AD; split; auto; left; reflexivity|]. exists j. apply AD in Hj. split; [|tauto].
              apply ssorted_ext; auto; [repeat constructor|]. intros x. simpl. split; [intros [<-|[]]; exact Oj|].
              intros Hx. left. symmetry. apply U; auto. destruct (K x Hx) as (g & X). apply AD in X. apply AD. tauto.
      * apply IH; auto. intros g m X. exact (Q g m (or_intror X)).
    + intros g g' i j X Y.
      assert (X' : In (g, i) (adds (AddItems f l :: b : list (bcall I F)))) by (unfold adds in *; cbn [flat_map] in *; rewrite app_nil_r in X; apply in_or_app; left; exact X).
      assert (Y' : In (g', j) (adds (AddItems f l :: b : list (bcall I F)))) by (unfold adds; cbn [flat_map]; apply in_or_app; right; exact Y).
      assert (g = f) as -> by (unfold adds in X; cbn [flat_map] in X; rewrite app_nil_r in X; apply in_map_iff in X; destruct X as (k & E & _); congruence).
      assert (Nfg : f <> g'). { intros <-. apply Nf. apply mk_adds in Y. destruct Y as (m & Y & _). apply in_map_iff. exists (f, m); auto. }
      split; auto. intros <-. exact (Nfg (L _ _ _ X' Y')).
    + intros x; reflexivity.
Qed.
(** Without rules, the number of outfits is the product of the family sizes. *)
Lemma C76_rule_free_pf : forall (I F : Type) (OI : Ord I) (OF : Ord F) (calls : list (bcall I F)) c (fams : list (F * list I)),
  reached calls [] c -> excls calls = [] -> incls calls = [] ->
  NoDup (map fst fams) -> (forall f l, In (f, l) fams -> NoDup l /\ l <> []) ->
  (forall f i, In (f, i) (adds calls) <-> exists l, In (f, l) fams /\ In i l) ->
  outfit_count (c_root c) = fold_right Nat.mul 1 (map (fun p => length (snd p)) fams).
Proof.
  intros I F OI OF calls c fams R E1 E2 N Q A.
  set (b := map (fun p : F * list I => AddItems (fst p) (snd p)) fams : list (bcall I F)).
  assert (S : same_wardrobe calls b).
  { unfold b. destruct (mk_rules fams) as (B1 & B2). split; [|split].
    - intros [f i]. rewrite A. symmetry. apply mk_adds.
    - rewrite E2, B2. intros x; tauto.
    - rewrite E1, B1. intros s x; tauto. }
  destruct (legal_reached b) as (c' & R').
  { eapply same_legal; [exact S|]. apply (inv_legal _ _ _ (reached_inv _ _ _ R)). }
  rewrite (proj2 (C74_history_irrelevant_pf I F OI OF calls b S) [] [] c c' R R' (fun x => iff_refl _)).
  apply mk_count; auto.
Qed.
(** two families of three: 9 outfits; two rules leave 6; a third family of two items doubles both *)
Example C76_example : exists c c2 cb c3,
  reached ([AddItems 1 [11; 12; 13]; AddItems 2 [21; 22; 23]] : list (bcall nat nat)) [] c /\ outfit_count (c_root c) = 9 /\
  reached ex_calls [] c2 /\ outfit_count (c_root c2) = 6 /\
  reached ([AddItems 3 [31; 32]] : list (bcall nat nat)) [] cb /\ outfit_count (c_root cb) = 2 /\
  reached (ex_calls ++ [AddItems 3 [31; 32]]) [] c3 /\ outfit_count (c_root c3) = 12.
Proof.
  eexists _, _, _, _.
  split; [apply (reached_build _ ho_id); vm_compute; reflexivity|]. split; [vm_compute; reflexivity|].
  split; [apply (reached_build _ ho_id); vm_compute; reflexivity|]. split; [vm_compute; reflexivity|].
  split; [apply (reached_build _ ho_id); vm_compute; reflexivity|]. split; [vm_compute; reflexivity|].
  split; [apply (reached_build _ ho_id); vm_compute; reflexivity|]. vm_compute; reflexivity.
Qed.

(** C77.  The 64-bit counters: with overflow checks, the exact number or a panic,
    and a panic exactly if the number does not fit; without them, the number
    modulo 2^64. *)
Section Count64.
  Local Open Scope N_scope.
  Context {I : Type}.
  Definition fits (n : nat) : option N := if N.of_nat n <? two64 then Some (N.of_nat n) else None.
  Lemma two64_pos : 0 < two64.
  Proof. reflexivity. Qed.
  Lemma fits_add a b : (let! x := fits a in let! y := fits b in checked x y) = fits (a + b)%nat.
  Proof.
    unfold fits, checked. rewrite Nnat.Nat2N.inj_add.
    destruct (N.ltb_spec (N.of_nat a) two64); destruct (N.ltb_spec (N.of_nat b) two64); destruct (N.ltb_spec (N.of_nat a + N.of_nat b) two64); cbn; auto; try lia.
    - destruct (N.ltb_spec (N.of_nat a + N.of_nat b) two64); auto; lia.
    - destruct (N.ltb_spec (N.of_nat a + N.of_nat b) two64); auto; lia.
  Qed.
  Lemma wrap_add a b : ((N.of_nat a mod two64 + N.of_nat b mod two64) mod two64) = N.of_nat (a + b) mod two64.
  Proof. rewrite Nnat.Nat2N.inj_add, <- N.add_mod by discriminate. reflexivity. Qed.

  Lemma leaf64 (t : dd I) : leaf_count64 checked t = fits (leaf_count t) /\ leaf_count64 wrapping t = Some (N.of_nat (leaf_count t) mod two64).
  Proof.
    induction t as [b|i lo (A1 & A2) hi (B1 & B2)]; cbn [leaf_count64 leaf_count].
    - split; reflexivity.
    - rewrite A1, A2, B1, B2. split; [apply fits_add|]. cbn. unfold wrapping. rewrite wrap_add. reflexivity.
  Qed.
  Lemma outfit64 (t : dd I) : outfit_count64 checked t = fits (outfit_count t) /\ outfit_count64 wrapping t = Some (N.of_nat (outfit_count t) mod two64).
  Proof.
    induction t as [[]|i lo (A1 & A2) hi (B1 & B2)]; cbn [outfit_count64 outfit_count].
    - split; reflexivity.
    - split; reflexivity.
    - rewrite A1, A2, B1, B2. split; [apply fits_add|]. cbn. unfold wrapping. rewrite wrap_add. reflexivity.
  Qed.
  Lemma node64 (t : dd I) : node_count64 checked t = fits (node_count t) /\ node_count64 wrapping t = Some (N.of_nat (node_count t) mod two64).
  Proof.
    induction t as [b|i lo (A1 & A2) hi (B1 & B2)]; cbn [node_count64 node_count].
    - split; reflexivity.
    - rewrite A1, A2, B1, B2. split.
      + rewrite <- (fits_add (1 + node_count lo) (node_count hi)), <- (fits_add 1 (node_count lo)).
        change (fits 1) with (Some 1). cbn [bind]. unfold bind. destruct (fits (node_count lo)); reflexivity.
      + unfold bind, wrapping. f_equal. rewrite <- wrap_add, <- (wrap_add 1 (node_count lo)). reflexivity.
  Qed.
  Lemma depth64_spec (t : dd I) : depth64 checked t = fits (depth t) /\
    (N.of_nat (depth t) < two64 -> depth64 wrapping t = Some (N.of_nat (depth t))).
  Proof.
    induction t as [b|i lo (A1 & A2) hi (B1 & B2)].
    - split; reflexivity.
    - assert (D : depth (Branch i lo hi) = S (Nat.max (depth lo) (depth hi))).
      { cbn [depth]. destruct (Nat.compare_spec (depth lo) (depth hi)); cbn; f_equal; lia. }
      rewrite D. cbn [depth64]. split.
      + rewrite A1, B1. unfold fits, checked.
        destruct (N.ltb_spec (N.of_nat (depth lo)) two64); destruct (N.ltb_spec (N.of_nat (depth hi)) two64);
          destruct (N.ltb_spec (N.of_nat (S (Nat.max (depth lo) (depth hi)))) two64); cbn [bind]; unfold bind; auto; try lia;
          destruct (N.compare_spec (N.of_nat (depth lo)) (N.of_nat (depth hi)));
          match goal with |- context [?a <? two64] => destruct (N.ltb_spec a two64) end; auto; try lia; f_equal; lia.
      + intros L. rewrite A2, B2 by lia. unfold bind, wrapping.
        destruct (N.compare_spec (N.of_nat (depth lo)) (N.of_nat (depth hi))); rewrite N.mod_small by lia; f_equal; lia.
  Qed.
End Count64.

Lemma C77_counters64_pf : forall (I : Type) (root : dd I),
  let exact_or_panic (counted : option N) (n : nat) :=
    (forall k, counted = Some k <-> k = N.of_nat n /\ (N.of_nat n < 2 ^ 64)%N) /\ (counted = None <-> (2 ^ 64 <= N.of_nat n)%N) in
  exact_or_panic (node_count64 checked root) (node_count root) /\
  exact_or_panic (leaf_count64 checked root) (leaf_count root) /\
  exact_or_panic (outfit_count64 checked root) (outfit_count root) /\
  exact_or_panic (depth64 checked root) (depth root) /\
  node_count64 wrapping root = Some (N.of_nat (node_count root) mod 2 ^ 64)%N /\
  leaf_count64 wrapping root = Some (N.of_nat (leaf_count root) mod 2 ^ 64)%N /\
  outfit_count64 wrapping root = Some (N.of_nat (outfit_count root) mod 2 ^ 64)%N /\
  ((N.of_nat (depth root) < 2 ^ 64)%N -> depth64 wrapping root = Some (N.of_nat (depth root))).
Proof.
  intros I root E. change (2 ^ 64)%N with two64 in *.
  assert (X : forall n, E (fits n) n).
  { intros n. unfold E, fits. change (2 ^ 64)%N with two64. destruct (N.ltb_spec (N.of_nat n) two64) as [L|L]; split.
    - intros k. split; [intros [= <-]; auto|intros (-> & _); reflexivity].
    - split; [discriminate|lia].
    - intros k. split; [discriminate|lia].
    - split; auto. }
  destruct (leaf64 root) as (-> & ->). destruct (outfit64 root) as (-> & ->). destruct (node64 root) as (-> & ->).
  destruct (depth64_spec root) as (-> & D). repeat apply conj; auto; apply X.
Qed.
(** For a closet: the outfits counted in 64 bits. *)
Lemma C77_outfits64_pf : forall (I F : Type) (OI : Ord I) (OF : Ord F) (calls : list (bcall I F)) sels c,
  reached calls sels c ->
  exists outfits, NoDup outfits /\
    (forall o, In o outfits <-> ssorted o /\ valid_outfit calls o /\ incl sels o) /\
    (forall k, outfit_count64 checked (c_root c) = Some k -> k = N.of_nat (length outfits)) /\
    (outfit_count64 checked (c_root c) = None <-> (2 ^ 64 <= N.of_nat (length outfits))%N).
Proof.
  intros I F OI OF calls sels c R. destruct (C49_outfit_count_pf I F OI OF calls sels c R) as (os & N & A & E).
  exists os. split; auto. split; auto. destruct (C77_counters64_pf I (c_root c)) as (_ & _ & (X & Y) & _). rewrite <- E. split.
  - intros k K. apply X in K. tauto.
  - exact Y.
Qed.
(** a closet whose counts fit, and the two additions where one does not *)
Example C77_example : (exists c, reached ex_calls [] c /\ outfit_count64 checked (c_root c) = Some 6%N /\
    node_count64 checked (c_root c) = Some 39%N /\ depth64 checked (c_root c) = Some 7%N) /\
  checked (2 ^ 63) (2 ^ 63) = None /\ wrapping (2 ^ 63) (2 ^ 63 + 5) = Some 5%N /\ checked (2 ^ 63) (2 ^ 63 - 1) = Some (2 ^ 64 - 1)%N.
Proof.
  split; [|repeat split; vm_compute; reflexivity].
  destruct (ex_build ho_id) as (c & E). exists c. split; [econstructor; exact E|].
  vm_compute in E. injection E as <-. repeat split; vm_compute; reflexivity.
Qed.
