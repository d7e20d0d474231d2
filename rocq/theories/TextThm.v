(** TextThm: what exactly is written when a value is serialized (C93). *)
From Coq Require Import List Arith NArith Lia Bool Permutation Sorted.
From Verif Require Import Base DD Spec Zdd2Model ZddModel ParserSpec ParserModel ZddSpec BddSpec BddModel BddRun TextSpec.
From Verif Require Import Zdd2Node Zdd2Univ Zdd2Forest Zdd2Forest2 Zdd2Laws Zdd2Thm ZddProofs ParserProofs ParserThm ZddThm BddThm EqThm.
Import ListNotations.
Open Scope N_scope.

(** ** numerals *)
Lemma decimal_f_more k : forall j n, n < 10 ^ N.of_nat k -> k <> O -> (k <= j)%nat -> decimal_f j n = decimal_f k n.
Proof.
  induction k as [|k IH]; intros j n L Z J; [congruence|]. destruct j as [|j]; [lia|]. cbn [decimal_f].
  destruct (N.ltb_spec n 10) as [Sm|Sm]; [reflexivity|]. destruct k as [|k].
  { change (10 ^ N.of_nat 1) with 10 in L. lia. }
  f_equal. apply IH; [|discriminate|lia]. apply N.div_lt_upper_bound; [lia|]. rewrite <- N.pow_succ_r', <- Nat2N.inj_succ. exact L.
Qed.
Lemma size_pow n : n < 10 ^ N.of_nat (S (N.size_nat n)).
Proof.
  eapply N.lt_le_trans; [|apply N.pow_le_mono_l; instantiate (1 := 2); lia]. rewrite Nat2N.inj_succ, N.pow_succ_r'.
  assert (X : n < 2 ^ N.of_nat (N.size_nat n)).
  { destruct n as [|p]; [reflexivity|]. pose proof (N.size_gt (N.pos p)) as G.
    replace (N.of_nat (N.size_nat (N.pos p))) with (N.size (N.pos p)); [exact G|].
    clear. induction p as [p IH|p IH|]; [| |reflexivity].
    - change (N.size (N.pos p~1)) with (N.succ (N.size (N.pos p))). rewrite IH.
      change (N.size_nat (N.pos p~1)) with (Datatypes.S (N.size_nat (N.pos p))). rewrite Nat2N.inj_succ. reflexivity.
    - change (N.size (N.pos p~0)) with (N.succ (N.size (N.pos p))). rewrite IH.
      change (N.size_nat (N.pos p~0)) with (Datatypes.S (N.size_nat (N.pos p))). rewrite Nat2N.inj_succ. reflexivity. }
  lia.
Qed.
Lemma decimal_small n : n < 10 -> decimal n = [48 + n].
Proof. intros L. unfold decimal. cbn [decimal_f]. apply N.ltb_lt in L. rewrite L. reflexivity. Qed.
Lemma decimal_step q d : 0 < q -> d < 10 -> decimal (10 * q + d) = decimal q ++ [48 + d].
Proof.
  intros P D. unfold decimal. set (n := 10 * q + d).
  assert (Q : n / 10 = q) by (symmetry; apply (N.div_unique n 10 q d); [exact D|reflexivity]).
  assert (M : n mod 10 = d) by (symmetry; apply (N.mod_unique n 10 q d); [exact D|reflexivity]).
  set (k := (S (N.size_nat q) + S (N.size_nat n))%nat).
  rewrite <- (decimal_f_more (S (N.size_nat n)) (S k) n (size_pow n) ltac:(discriminate) ltac:(unfold k; lia)).
  cbn [decimal_f]. replace (n <? 10) with false by (symmetry; apply N.ltb_ge; unfold n; lia). rewrite Q, M. f_equal.
  apply (decimal_f_more (S (N.size_nat q)) k q (size_pow q)); [discriminate|unfold k; lia].
Qed.
Lemma numeral_from_pos ds : forall acc, 0 < acc -> 0 < numeral_from acc ds.
Proof. induction ds as [|d ds IH]; intros acc P; cbn [numeral_from]; [exact P|]. apply IH. lia. Qed.
Lemma plain_decimal ds : forall v, plain_numeral ds v -> ds = decimal v.
Proof.
  induction ds as [|d ds IH] using rev_ind; intros v ((Ne & Di & V) & Pl); [congruence|].
  rewrite numeral_from_app in V. cbn [numeral_from] in V.
  assert (Dd : 48 <= d <= 57) by (apply Di, in_or_app; right; left; reflexivity).
  destruct ds as [|c ds].
  - cbn [numeral_from] in V. subst v. rewrite decimal_small by lia. cbn [app]. f_equal. lia.
  - assert (Cn : c <> 48). { intros ->. specialize (Pl (ds ++ [d]) eq_refl). destruct ds; discriminate. }
    assert (Dc : 48 <= c <= 57) by (apply Di; left; reflexivity).
    assert (Q : 0 < numeral_from 0 (c :: ds)). { cbn [numeral_from]. apply numeral_from_pos. lia. }
    rewrite <- V. rewrite decimal_step by (try exact Q; lia). replace (48 + (d - 48)) with d by lia. f_equal. apply IH.
    split; [|intros ds' [= -> ->]; congruence]. split; [discriminate|]. split; [|reflexivity].
    intros x Hx. apply Di, in_or_app. left. exact Hx.
Qed.
Lemma decimal_f_zero k : forall n, n < 10 ^ N.of_nat k -> k <> O -> forall ds', decimal_f k n = 48 :: ds' -> ds' = [].
Proof.
  induction k as [|k IH]; intros n L Z ds' E; [congruence|]. cbn [decimal_f] in E.
  destruct (N.ltb_spec n 10) as [Sm|Sm]; [congruence|]. destruct k as [|k].
  { change (10 ^ N.of_nat 1) with 10 in L. lia. }
  assert (Q : n / 10 < 10 ^ N.of_nat (S k)).
  { apply N.div_lt_upper_bound; [lia|]. rewrite <- N.pow_succ_r', <- Nat2N.inj_succ. exact L. }
  assert (P : 1 <= n / 10) by (apply N.div_le_lower_bound; lia).
  destruct (decimal_f_spec (S k) (n / 10) Q ltac:(discriminate)) as (A & B & C).
  destruct (decimal_f (S k) (n / 10)) as [|x l] eqn:W; [congruence|]. cbn [app] in E. injection E as -> E.
  pose proof (IH (n / 10) Q ltac:(discriminate) l W) as ->. cbn [numeral_from] in B. exfalso. clear - B P. set (q := n / 10) in *. clearbody q. lia.
Qed.
Lemma decimal_plain n : plain_numeral (decimal n) n.
Proof. split; [apply decimal_spec|]. apply (decimal_f_zero _ n (size_pow n)). discriminate. Qed.

Lemma plain_print a b n : forall s, plain a b n s <-> s = print_node [40; a; 41] [40; b; 41] n.
Proof.
  induction n as [[]|i lo IHl hi IHh]; intros s; cbn [print_node].
  - split; [intros P; inversion P; reflexivity|intros ->; constructor].
  - split; [intros P; inversion P; reflexivity|intros ->; constructor].
  - split.
    + intros P. inversion P as [| |j l h ds sl sh D1 P1 P2]; subst. apply IHl in P1. apply IHh in P2. apply plain_decimal in D1. subst. reflexivity.
    + intros ->. apply pl_branch; [apply decimal_plain|apply IHl; reflexivity|apply IHh; reflexivity].
Qed.

Lemma digits_split ds : forall ds' r r', digits ds -> digits ds' -> ds ++ 32 :: r = ds' ++ 32 :: r' -> ds = ds' /\ r = r'.
Proof.
  induction ds as [|c ds IH]; intros [|c' ds'] r r' D D' E; cbn [app] in E.
  - injection E as ->. auto.
  - injection E as <- _. specialize (D' 32 (or_introl eq_refl)). lia.
  - injection E as -> _. specialize (D 32 (or_introl eq_refl)). lia.
  - injection E as <- E. destruct (IH ds' r r') as (-> & ->); [intros x X; apply D; right; exact X|intros x X; apply D'; right; exact X|exact E|]. auto.
Qed.
Lemma numeral_inj ds v w : numeral ds v -> numeral ds w -> v = w.
Proof. intros (_ & _ & A) (_ & _ & B). congruence. Qed.
Lemma print_inj a b : a <> b -> ~ (48 <= a <= 57) -> ~ (48 <= b <= 57) -> forall n m r r',
  print_node [40; a; 41] [40; b; 41] n ++ r = print_node [40; a; 41] [40; b; 41] m ++ r' -> n = m /\ r = r'.
Proof.
  intros ab Na Nb. assert (Hd : forall i, exists c ds, decimal (N.of_nat i) = c :: ds /\ 48 <= c <= 57).
  { intros i. destruct (decimal_spec (N.of_nat i)) as (Ne & Di & _). destruct (decimal (N.of_nat i)) as [|c ds]; [congruence|].
    exists c, ds. split; [reflexivity|]. apply Di. left; reflexivity. }
  assert (Dg : forall i, digits (decimal (N.of_nat i))) by (intros i; apply (decimal_spec (N.of_nat i))).
  induction n as [[]|i lo IHl hi IHh]; intros [[]|j lo' hi'] r r' E; cbn [print_node] in E; rewrite <- ?app_assoc in E; cbn [app] in E.
  - injection E as ->. auto.
  - injection E as E _. congruence.
  - destruct (Hd j) as (c & ds & Ej & Dc). rewrite Ej in E. cbn [app] in E. injection E as -> _. contradiction.
  - injection E as E _. congruence.
  - injection E as ->. auto.
  - destruct (Hd j) as (c & ds & Ej & Dc). rewrite Ej in E. cbn [app] in E. injection E as -> _. contradiction.
  - destruct (Hd i) as (c & ds & Ej & Dc). rewrite Ej in E. cbn [app] in E. injection E as -> _. contradiction.
  - destruct (Hd i) as (c & ds & Ej & Dc). rewrite Ej in E. cbn [app] in E. injection E as -> _. contradiction.
  - injection E as E. destruct (digits_split _ _ _ _ (Dg i) (Dg j) E) as (Ed & E1).
    assert (i = j).
    { pose proof (decimal_spec (N.of_nat i)) as X. rewrite Ed in X. pose proof (numeral_inj _ _ _ X (decimal_spec (N.of_nat j))). lia. }
    subst j. destruct (IHl _ _ _ E1) as (<- & E2). injection E2 as E2. destruct (IHh _ _ _ E2) as (<- & E3). injection E3 as ->. auto.
Qed.

(** C93.  The text of a diagram: the library writes the one plain text, with the leaves "(A)" and "(N)"
    (zdd2) or "(T)" and "(F)" (zdd), and different diagrams have different texts. *)
Lemma C93_text_pf : forall (n : dd nat) (s : list N),
  (plain 65 78 n s <-> s = build_node_string n) /\ (plain 84 70 n s <-> s = zbuild_node_string n).
Proof. intros n s. split; apply plain_print. Qed.
Lemma C93_text_identifies_pf : forall m n : dd nat,
  (build_node_string m = build_node_string n -> m = n) /\ (zbuild_node_string m = zbuild_node_string n -> m = n).
Proof.
  intros m n. split; intros E.
  - apply (print_inj 65 78 ltac:(lia) ltac:(lia) ltac:(lia) m n [] []). rewrite !app_nil_r. exact E.
  - apply (print_inj 84 70 ltac:(lia) ltac:(lia) ltac:(lia) m n [] []). rewrite !app_nil_r. exact E.
Qed.

Lemma sorted_strict {T} `{Ord T} (l : list (T * nat)) : StronglySorted (fun p q => occ_leb p q = true) l -> NoDup l ->
  StronglySorted ranks_before l.
Proof.
  induction 1 as [|x l S IH F]; intros N; [constructor|]. inversion N as [|? ? Nx N']; subst. constructor; [auto|].
  rewrite Forall_forall in *. intros y Hy. specialize (F y Hy). apply occ_leb_iff in F. destruct F as [F| ->]; [exact F|contradiction].
Qed.

Lemma forest_data {T : Type} {O : Ord T} (f : forest T) ts : Reach f -> f_trees f = Some ts ->
  let entries := u_occ (f_univ f) in let d := f_root f in let ranks := ordered_occ entries in
  (ssorted (map fst entries) /\ forall x k, In (x, k) entries <-> (0 < k)%nat /\ k = count ts x) /\
  (ordered d /\ zero_suppressed d /\
    (forall i, In i (labels d) -> (i < length ranks)%nat) /\ ranking entries ranks /\
    forall t, In t ts <-> ssorted t /\ exists p, In p (paths d) /\ reads ranks p t) /\
  forall i x, get_item (f_univ f) i = Some x <-> exists k, nth_error ranks i = Some (x, k).
Proof.
  intros R Ht.
  destruct (C18_root_shape_pf T O f R) as (Od & Zs & Lab).
  destruct (Reach_Canon f R) as (occ & C). rewrite f_trees_tl in Ht. injection Ht as <-.
  assert (Eo : u_occ (f_univ f) = occ) by (rewrite (c_univ _ _ C); reflexivity). rewrite Eo. cbv zeta.
  assert (Gi : forall i x, get_item (f_univ f) i = Some x <-> exists k, nth_error (ordered_occ occ) i = Some (x, k)).
  { intros i x. rewrite (c_univ _ _ C). unfold get_item, univ_of. cbn [u_index]. rewrite nth_error_map.
    destruct (nth_error (ordered_occ occ) i) as [[y k]|]; cbn [option_map fst]; split.
    - intros [= ->]. eauto.
    - intros (k' & [= -> ->]). reflexivity.
    - discriminate.
    - intros (k' & X). discriminate. }
  split; [split; [exact (c_ok _ _ C)|intros x k; apply occ_in; exact C]|]. split; [|exact Gi].
  split; [exact Od|]. split; [exact Zs|]. split; [|split].
  - intros i Hi. destruct (Lab i Hi) as (x & E & _). apply Gi in E. destruct E as (k & E). apply nth_error_Some. congruence.
  - split; [apply ordered_occ_perm|]. apply sorted_strict; [apply sort_by_sorted; [apply occ_leb_total|apply occ_leb_trans]|].
    eapply Permutation_NoDup; [symmetry; apply ordered_occ_perm|]. eapply NoDup_map_inv, ssorted_NoDup. exact (c_ok _ _ C).
  - assert (Rd : forall p t, reads (ordered_occ occ) p t <-> forall x, In x t <-> In x (filter_map (get_item (f_univ f)) p)).
    { intros p t. split; intros A x; rewrite (A x).
      - rewrite filter_map_in. split; [intros (i & k & I1 & I2); exists i; split; [auto|apply Gi; eauto]|].
        intros (i & I1 & I2). apply Gi in I2. destruct I2 as (k & I2). eauto.
      - rewrite filter_map_in. split; [intros (i & I1 & I2); apply Gi in I2; destruct I2 as (k & I2); eauto|].
        intros (i & k & I1 & I2). exists i. split; [auto|apply Gi; eauto]. }
    destruct (canon_tl f occ C) as (Wl & _).
    intros t. unfold tl_. split.
    + intros Hi. split; [apply Wl; exact Hi|]. apply in_map_iff in Hi. destruct Hi as (p & <- & Hp). exists p. split; [exact Hp|].
      apply Rd. intros x. unfold get_items. split; apply Permutation_in; [apply sort_perm|symmetry; apply sort_perm].
    + intros (St & p & Hp & A). pose proof (proj1 (Rd p t) A) as A'. apply in_map_iff. exists p. split; [|exact Hp].
      assert (Sp : ssorted (get_items (f_univ f) p)) by (apply Wl; unfold tl_; apply in_map; exact Hp).
      apply ssorted_ext; [exact Sp|exact St|]. intros x. rewrite A'. unfold get_items.
      split; apply Permutation_in; [apply sort_perm|symmetry; apply sort_perm].
Qed.

(** zdd2: the serialized data of a forest explains itself: the entries are the items with the
    number of trees that hold them, the labels number the entries by rank, and the paths of the
    diagram that the text spells, read through the ranking, are the trees. *)
Lemma C93_forest_pf : forall (T : Type) (O : Ord T) (f : forest T) ts text entries,
  Reach f -> f_trees f = Some ts -> f_serialize f = (text, entries) ->
  (ssorted (map fst entries) /\ forall x k, In (x, k) entries <-> (0 < k)%nat /\ k = count ts x) /\
  exists d ranks, plain 65 78 d text /\ ordered d /\ zero_suppressed d /\
    (forall i, In i (labels d) -> (i < length ranks)%nat) /\ ranking entries ranks /\
    forall t, In t ts <-> ssorted t /\ exists p, In p (paths d) /\ reads ranks p t.
Proof.
  intros T O f ts text entries R Ht [= <- <-]. destruct (forest_data f ts R Ht) as (A & B & _).
  split; [exact A|]. exists (f_root f), (ordered_occ (u_occ (f_univ f))). split; [apply plain_print; reflexivity|exact B].
Qed.

(** ... so the data says which trees are held and nothing else: two forests, whatever calls made
    them, are written alike exactly if they hold the same trees *)
Lemma C93_same_data_pf : forall (T : Type) (O : Ord T) (f g : forest T) tf tg,
  Reach f -> Reach g -> fits (f_root f) -> fits (f_root g) -> f_trees f = Some tf -> f_trees g = Some tg ->
  (f_serialize f = f_serialize g <-> forall s, has_set tf s <-> has_set tg s).
Proof.
  intros T O f g tf tg Rf Rg Ff Fg Tf Tg. rewrite <- (C06_equality_extensional_pf T O f g tf tg Rf Rg Tf Tg).
  split.
  - intros E. assert (X : Some f = Some g).
    { rewrite <- (C22_forest_round_trip_pf T O ho_id f (fst (f_serialize f)) (snd (f_serialize f)) Rf Ff eq_refl (Permutation_refl _)).
      rewrite <- (C22_forest_round_trip_pf T O ho_id g (fst (f_serialize g)) (snd (f_serialize g)) Rg Fg eq_refl (Permutation_refl _)).
      rewrite E. reflexivity. }
    injection X as <-. apply (C06_equality_extensional_pf T O f f tf tf Rf Rf Tf Tf). reflexivity.
  - intros E. apply f_eqb_spec in E. rewrite E. reflexivity.
Qed.

(** ** zdd *)
Lemma enum_last {T} `{Ord T} (l : list T) : forall k m, map_ok m -> forall x i,
  map_get (fold_left (fun m p => map_insert m (fst p) (snd p)) (combine l (seq k (length l))) m) x = Some i <->
  (exists j, i = (k + j)%nat /\ last_position l x j) \/ (~ In x l /\ map_get m x = Some i).
Proof.
  induction l as [|y l IH]; intros k m K x i; cbn [length seq combine fold_left fst snd].
  - split; [intros E; right; auto|]. intros [(j & _ & (E & _))|(_ & E)]; [destruct j; discriminate|exact E].
  - rewrite (IH (S k) (map_insert m y k)) by (apply map_update_ok; exact K).
    unfold map_insert. rewrite map_update_get by exact K. split.
    + intros [(j & -> & (E & Ls))|(N & E)].
      * left. exists (S j). split; [lia|]. split; [exact E|]. intros [|j'] L; [lia|]. apply Ls. lia.
      * destruct (eqb_spec_ x y) as [->|Nx].
        -- injection E as <-. left. exists O. split; [lia|]. split; [reflexivity|]. intros [|j'] L; [lia|].
           cbn [nth_error]. intros X. apply N. eapply nth_error_In; exact X.
        -- right. split; [|exact E]. intros [->|I0]; [congruence|contradiction].
    + intros [([|j] & -> & (E & Ls))|(N & E)].
      * cbn [nth_error] in E. injection E as ->. right. split.
        -- intros I0. apply In_nth_error in I0. destruct I0 as (j & Ej). apply (Ls (S j)); [lia|exact Ej].
        -- destruct (eqb_spec_ x x); [f_equal; lia|congruence].
      * left. exists j. split; [lia|]. split; [exact E|]. intros j' L. apply (Ls (S j')). lia.
      * right. split; [intros I0; apply N; right; exact I0|]. destruct (eqb_spec_ x y) as [->|Nx]; [|exact E].
        exfalso. apply N. left. reflexivity.
Qed.
Lemma C93_zdd_pf : forall (T : Type) (O : Ord T) (ok : list T -> Prop) (items : list T) (t : ztree T) cs text its entries,
  ZReach ok (zu_from items) t -> z_combinations t = Some cs -> z_serialize t = (text, (its, entries)) ->
  its = items /\
  (ssorted (map fst entries) /\ forall x k, In (x, k) entries <-> last_position items x k) /\
  exists d, plain 84 70 d text /\ forall s, In s cs <-> exists p, In p (paths d) /\ named_by items p s.
Proof.
  intros T O ok items t cs text its entries R Hc [= <- <- <-].
  destruct (zreach_inv _ _ _ R) as (U & _). rewrite U.
  destruct (enum_fold items 0 [] ltac:(constructor)) as (K & _).
  split; [reflexivity|]. split; [split; [exact K|]|].
  - intros x k. change (zu_index (zu_from items)) with (fold_left (fun m p => map_insert m (fst p) (snd p)) (combine items (seq 0 (length items))) (@nil (T * nat))).
    rewrite <- (map_get_in _ _ _ K), (enum_last items 0 [] ltac:(constructor) x k). split.
    + intros [(j & -> & L)|(_ & X)]; [exact L|discriminate].
    + intros L. left. exists k. split; [reflexivity|exact L].
  - exists (zt_root t). split; [apply plain_print; reflexivity|].
    destruct (ZddThm.C36_combinations_exact_pf T O t) as (cs' & E & _ & _ & X). rewrite U in X. rewrite Hc in E. injection E as <-. exact X.
Qed.

(** ** bowtie: closets are written alike exactly if they are equal *)
Lemma C93_closet_pf : forall (I F : Type) (OI : Ord I) (OF : Ord F) (calls calls' : list (bcall I F)) sels sels' c c',
  reached calls sels c -> reached calls' sels' c' -> (closet_ser c = closet_ser c' <-> closet_eqb c c' = true).
Proof.
  intros I F OI OF calls calls' sels sels' c c' R R'. rewrite (C91_equality_pf I F OI OF c c'). split; [|intros ->; reflexivity].
  intros E. pose proof (C57_round_trip_pf I F OI OF calls sels c R) as A. pose proof (C57_round_trip_pf I F OI OF calls' sels' c' R') as B.
  rewrite E in A. congruence.
Qed.

Example C93_example : exists f, f_many ho_id [[1;2];[2;3]]%nat = Some f /\ Reach f /\ f_trees f = Some [[1;2];[2;3]]%nat /\
  (* "(0 (N) (1 (2 (N) (A)) (A)))" *)
  f_serialize f = ([40;48;32;40;78;41;32;40;49;32;40;50;32;40;78;41;32;40;65;41;41;32;40;65;41;41;41], [(1, 1); (2, 2); (3, 1)]%nat) /\
  ranking [(1, 1); (2, 2); (3, 1)]%nat [(2, 2); (1, 1); (3, 1)]%nat /\ fits (f_root f).
Proof.
  eexists. split; [vm_compute; reflexivity|]. split; [eapply (R_many ho_id [[1;2];[2;3]]%nat); vm_compute; reflexivity|].
  split; [vm_compute; reflexivity|]. split; [vm_compute; reflexivity|]. split; [split; [apply perm_swap|]|].
  - repeat constructor; unfold ranks_before; cbn [fst snd]; try lia; right; split; try reflexivity; vm_compute; reflexivity.
  - intros i H. vm_compute in H. repeat destruct H as [<-|H]; try destruct H; reflexivity.
Qed.
Example C93_zdd_example : let t := z_hyper_tree (zu_from [7; 8; 7]%nat) [[7]; [8]]%nat in
  ZReach (fun _ => True) (zu_from [7; 8; 7]%nat) t /\ z_combinations t = Some [[7]; [8]]%nat /\
  z_serialize t = ([40;49;32;40;50;32;40;70;41;32;40;84;41;41;32;40;84;41;41], ([7; 8; 7], [(7, 2); (8, 1)])%nat) /\
  last_position [7; 8; 7]%nat 7%nat 2.
Proof.
  cbv zeta. split; [|split; [vm_compute; reflexivity|split; [vm_compute; reflexivity|]]].
  - apply ZR_hyper. intros; exact Logic.I.
  - split; [reflexivity|]. intros j L. destruct j as [|[|[|j]]]; try lia. cbn. destruct j; discriminate.
Qed.
Example C93_numeral_example : decimal 1234567890 = [49;50;51;52;53;54;55;56;57;48] /\
  plain_numeral (decimal 0) 0 /\ ~ plain_numeral [48; 55] 7.
Proof. split; [reflexivity|]. split; [apply decimal_plain|]. intros (_ & P). specialize (P [55] eq_refl). discriminate. Qed.
Example C93_closet_example :
  let calls := [AddItems 0 [1;2]; AddItems 7 [3;4]; AddExcl 1 3]%nat in
  let calls' := [AddItems 7 [4;3]; AddItem 0 2; AddItem 0 1; AddIncl 1 4]%nat in
  exists c c' d : closet nat nat, reached calls [] c /\ reached calls' [] c' /\ reached calls' [1%nat] d /\
    closet_ser c = closet_ser c' /\ closet_ser c <> closet_ser d.
Proof.
  destruct EqThm.C91_example as (c & c' & d & A & B & C & E & N). exists c, c', d.
  split; [exact A|]. split; [exact B|]. split; [exact C|]. split.
  - apply (C93_closet_pf _ _ _ _ _ _ _ _ c c' A B). exact E.
  - intros X. apply (C93_closet_pf _ _ _ _ _ _ _ _ c d A C) in X. congruence.
Qed.
