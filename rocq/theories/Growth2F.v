(** Growth2F: [translate_root] and the constructors (see Growth2Proofs.v). *)
From Coq Require Import List Arith Lia Bool Permutation Sorted.
From Verif Require Import Base DD Spec Zdd2Model Zdd2Node Zdd2Node2 Zdd2Univ Zdd2Forest Zdd2Forest2 Zdd2Forest3 Zdd2Laws Zdd2Settle Zdd2Exact2.
From Verif Require Import ArenaModel ArenaProofs Zdd2Prog Zdd2ProgProofs Growth2Proofs Growth2B Growth2C Growth2D Growth2E GrowthSpec Growth2Spec.
Import ListNotations.

Lemma wp_fold {L} `{Ord L} {A B} (f : B -> A -> prog L B) (Inv : arena L -> B -> list A -> Prop) l : forall a b,
  (forall a b x l', AInv a -> Inv a b (x :: l') -> wp false a (f b x) (fun a' b' => Inv a' b' l')) ->
  (forall a a' b, ext a a' -> Inv a b [] -> Inv a' b []) ->
  AInv a -> Inv a b l -> wp false a (pfoldM f l b) (fun a' b' => Inv a' b' []).
Proof.
  induction l as [|x l IH]; intros a b Hs He I0 Hi; [intros a' E _; cbn; eapply He; eauto|]. cbn [pfoldM].
  eapply wp_bind; [apply Hs; eauto| |exact I0]. intros a' r E I1 Hr. apply IH; auto.
Qed.

Lemma asc_nodup_ n s : asc n s -> NoDup s.
Proof.
  assert (X : forall s n, asc n s -> forall x, In x s -> n <= x).
  { induction s0 as [|y l IH]; intros m As x []; cbn in As; destruct As as [A1 A2]; [lia|]. specialize (IH _ A2 x H). lia. }
  revert n. induction s as [|y l IH]; intros n As; constructor; cbn in As; destruct As as [A1 A2]; [|eauto]. intros Hi. specialize (X _ _ A2 y Hi). lia.
Qed.

Section Calls.
  Context {T : Type} `{Ord T}.

  Lemma res_translate (old new : universe T) t v : translate_root old new t = Some v -> forall fuel a n, AInv a -> nden a n t ->
    wp false a (m_translate_root fuel old new n) (fun a' m => nden a' m v).
  Proof. intros E. destruct (m_translate_root_spec _ _ _ _ E) as (F & S1). intros. apply S1; auto using no_tot. Qed.

  (** ** translate_root *)
  Section Translate.
    Variables old new : list (T * nat).
    Hypothesis Hold : map_ok old.
    Hypothesis Hnew : map_ok new.
    Hypothesis Hkeys : forall x, In x (map fst old) -> In x (map fst new).
    Notation K := (length old).
    Notation L := (length new).

    Lemma translate_bound t n r : zwf n t -> known_labels old t -> translate_root (univ_of old) (univ_of new) t = Some r -> zwf 0 r /\ pbound L r.
    Proof.
      intros Z Hk E. destruct (translate_total old new Hnew Hkeys t n Z Hk) as (r' & E' & Zr & Lr). assert (r' = r) by congruence. subst r'.
      split; [exact Zr|]. intros s x Hs Hx. destruct (Lr x (paths_labels _ _ _ Hs Hx)) as (p & Hp & ->). apply (tr_known old new Hnew Hkeys), Hk, Hp.
    Qed.
    Lemma cost_translate fuel : forall t n a m, zwf n t -> known_labels old t -> AInv a -> nden a m t ->
      wpn ((2 + 2 * L) * ((K - n) * P t)) a (m_translate_root fuel (univ_of old) (univ_of new) m).
    Proof.
      induction fuel as [|k IH]; intros t n a m Z Hk I0 D; [exact I|]. cbn [m_translate_root].
      destruct t as [b|i lo hi]; inversion D; subst; [exact I|]. pose proof Z as (Z1 & Z2 & Z3 & Z4).
      assert (Kl : known_labels old lo) by (intros x Hx; apply Hk; simpl; right; apply in_or_app; auto).
      assert (Kh : known_labels old hi) by (intros x Hx; apply Hk; simpl; right; apply in_or_app; auto).
      assert (Ki : i < K) by (apply Hk; simpl; auto).
      destruct (translate_total old new Hnew Hkeys lo _ Z3 Kl) as (l' & El & _). destruct (translate_total old new Hnew Hkeys hi _ Z4 Kh) as (h' & Eh & _).
      destruct (translate_bound lo _ l' Z3 Kl El) as [Zl Bl]. destruct (translate_bound hi _ h' Z4 Kh Eh) as [Zh Bh].
      destruct (translate_kept old new Hnew Hkeys lo _ _ Z3 Kl El) as (Pl & _). destruct (translate_kept old new Hnew Hkeys hi _ _ Z4 Kh Eh) as (Ph & _).
      fold (P l') (P lo) in Pl. fold (P h') (P hi) in Ph.
      cget; [|apply Nat.le_refl].
      cbind (res_translate _ _ _ _ El) (fun a m => IH lo (S i) a m Z3 Kl); [eassumption|exact D0|eassumption|exact D0| |].
      - cget; [|apply Nat.le_refl].
        cbind (res_translate _ _ _ _ Eh) (fun a m => IH hi (S i) a m Z4 Kh); [eassumption|exact D2|eassumption|exact D2| |apply Nat.le_refl].
        destruct (tr_item old new Hnew Hkeys i Ki) as (x & Ex & Px). rewrite Ex, Px.
        eapply wpn_le; [|eapply (cost_branch k 0 _ l' h' _ (ANode r0) (ANode r2)); [apply Nat.le_0_l|exact Zl|exact Zh|eassumption|exact D1|exact D3]].
        assert (X : argc (ANode r0) + argc (ANode r2) + 2 * (W l' + W h') <= 2 + 2 * (L * (P lo + P hi))); [|exact X].
        pose proof (argc_le (ANode r0)). pose proof (argc_le (ANode r2)). pose proof (W_bound0 _ _ Zl Bl). pose proof (W_bound0 _ _ Zh Bh).
        pose proof (Nat.mul_le_mono_l _ _ L Pl). pose proof (Nat.mul_le_mono_l _ _ L Ph). lia.
      - pose proof (P_pos _ _ Z4 Z2) as Hp. rewrite P_branch.
        pose proof (step_bound' (2 + 2 * L) K n i (P hi + P lo) Z1 Ki) as Q.
        set (N := P hi + P lo) in *. assert (EN : N = P hi + P lo) by reflexivity. clearbody N.
        assert (Q1 : (2 + 2 * L) * ((K - S i) * N) = (2 + 2 * L) * ((K - S i) * P hi) + (2 + 2 * L) * ((K - S i) * P lo)) by (rewrite EN; lia).
        assert (Q2 : (2 + 2 * L) * N = 2 * N + 2 * (L * (P lo + P hi))) by (rewrite EN; lia). lia.
    Qed.
  End Translate.

  (** ** constructors *)
  Lemma filter_map_le {A B} (g : A -> option B) l : length (filter_map g l) <= length l.
  Proof. induction l as [|x l IH]; simpl; [lia|]. destruct (g x); simpl; lia. Qed.
  Lemma sq_mono a b : a <= b -> a * a <= b * b.
  Proof. intros. apply Nat.mul_le_mono; auto. Qed.
  Lemma cost_priorities fuel (u : universe T) row a : AInv a -> wpn (length row * length row) a (m_priorities_node fuel u row).
  Proof.
    intros I0. unfold m_priorities_node. destruct (length row) as [|k] eqn:E; [exact I|].
    eapply wpn_le; [|apply cost_chain_fold; exact I0]. rewrite <- E. apply sq_mono. apply filter_map_le.
  Qed.
  Lemma cost_finish (a : arena nat) (root : znode) (t : node) (u : universe T) : AInv a -> nden a root t -> wpn 1 a (do i <- intern2 root ; Ret (mkMF i u)).
  Proof.
    intros I0 D. cbind (@wp_intern2 nat _) (@wpn_intern2 nat _); [exact D|apply (wpn_ret 0)|]. lia.
  Qed.
  Lemma res_priorities u (xs : list T) v : get_priorities_node u xs = Some v -> forall fuel a, AInv a ->
    wp false a (m_priorities_node fuel u xs) (fun a' n => nden a' n v).
  Proof. intros E. destruct (m_priorities_node_spec _ _ _ E) as (F & S1). intros. apply S1; auto using no_tot. Qed.
  Lemma priorities_total u (row : list T) : exists v, get_priorities_node u row = Some v /\ ((row = [] /\ v = Never) \/ v = chain (enc u row)).
  Proof.
    destruct row as [|x row]; [exists Never; split; [reflexivity|left; auto]|]. eexists. split; [apply get_priorities_node_spec; discriminate|right; reflexivity].
  Qed.
  Lemma cost_unit fuel h (items : list T) a : AInv a -> wpn (1 + length items * length items) a (m_unit fuel h items).
  Proof.
    intros I0. unfold m_unit. destruct (priorities_total (from_items h site_new items) items) as (v & E & _).
    cbind (res_priorities _ _ _ E) cost_priorities; [eassumption|eassumption|eapply cost_finish; [eassumption|exact D]|]. lia.
  Qed.
  Lemma cost_unique fuel h (items : list T) a : AInv a -> wpn (1 + length items * length items) a (m_unique fuel h items).
  Proof.
    intros I0. unfold m_unique. set (ps := get_priorities (from_items h site_new items) items).
    set (Inv := fun (a : arena nat) (b : znode) (l : list nat) => exists s, asc 0 s /\ nden a b (uchain s)).
    eapply wpn_bind' with (Q := fun a' b => Inv a' b []); [apply (wp_fold _ Inv ps)|apply (cost_uchain_fold fuel ps); exact I0| |exact I0|].
    - intros a1 b x l' I1 (s & As & D).
      eapply (@wp_mono nat _); [|eapply (res_branch x (uchain s) Always); [|exact I1|simpl; exact D|simpl; constructor]].
      2: { rewrite (branch_ins_lo 0 x (uchain s) Always); [rewrite ins_lo_uchain; reflexivity|lia|discriminate|apply uchain_wf; exact As|exact I]. }
      intros a' r _ _ Dr. exists (ins_s x s). split; [apply ins_s_asc; [lia|exact As]|exact Dr].
    - intros a1 a2 b E (s & As & D). exists s. split; [exact As|]. eapply nden_ext; eauto.
    - exact I0.
    - exists []. split; [exact I|constructor].
    - intros a' r E I1 (s & As & D). cbn. eapply cost_finish; [exact I1|exact D].
    - pose proof (sq_mono _ _ (filter_map_le (get_priority (from_items h site_new items)) items)) as X. fold (get_priorities (from_items h site_new items) items) in X. fold ps in X. lia.
  Qed.

  Lemma once_in (l : list T) x : In x (once l) <-> In x l.
  Proof.
    induction l as [|y l IH]; [tauto|]. cbn [once]. destruct (existsb (eqb_ y) l) eqn:E; cbn [In]; rewrite IH; [|tauto].
    apply existsb_exists in E. destruct E as (z & Hz & E). apply eqb_true_ in E. subst z. split; [auto|]. intros [<-|]; auto.
  Qed.
  Lemma once_NoDup (l : list T) : NoDup (once l).
  Proof.
    induction l as [|y l IH]; [constructor|]. cbn [once]. destruct (existsb (eqb_ y) l) eqn:E; [exact IH|]. constructor; [|exact IH].
    intros Hy. apply (proj1 (once_in l y)) in Hy. rewrite (proj2 (existsb_exists _ _)) in E; [discriminate|]. exists y. split; [exact Hy|apply eqb_refl_].
  Qed.
  Lemma different_keys (occ : list (T * nat)) (ts : list (list T)) : map_ok occ -> (forall x, In x (map fst occ) -> exists t, In t ts /\ In x t) ->
    length occ <= different ts.
  Proof.
    intros M Hk. rewrite <- (map_length fst). apply NoDup_incl_length; [apply ssorted_NoDup; exact M|].
    intros x Hx. apply (proj2 (once_in _ _)). apply in_concat. exact (Hk x Hx).
  Qed.
  Lemma cost_many fuel h (rows : list (list T)) a : AInv a -> wpn (many_cost rows) a (m_many fuel h rows).
  Proof.
    intros I0. unfold m_many, many_cost. rewrite from_matrix_univ. fold (rows_of rows). set (occ := occ_of_rows (rows_of rows)). set (u := univ_of occ).
    assert (Hok : map_ok occ) by apply occ_of_rows_ok.
    set (D := different rows).
    assert (HD : length occ <= D).
    { apply different_keys; [exact Hok|]. intros x Hx. apply occ_keys in Hx. apply in_concat in Hx. destruct Hx as (r & Hr & Hx).
      apply unique_in, in_map_iff in Hr. destruct Hr as (row & <- & Hr). exists row. split; [exact Hr|]. exact (proj1 (filter_repeats_in _ _) Hx). }
    set (Inv := fun (a : arena nat) (b : znode) (l : list (list T)) => exists acc, zwf 0 acc /\ pbound D acc /\ nden a b acc).
    assert (St : forall a b x l', AInv a -> Inv a b (x :: l') ->
      wpn (length x * length x + 2 * D) a (do n <- m_priorities_node fuel u x ; m_union fuel b n) /\
      wp false a (do n <- m_priorities_node fuel u x ; m_union fuel b n) (fun a' b' => Inv a' b' l')).
    { intros a1 b row l' I1 (acc & Z & B & Db). destruct (priorities_total u row) as (v & Ev & Hv).
      assert (Zv : zwf 0 v) by (destruct Hv as [[_ ->]| ->]; [exact I|apply chain_wf, enc_asc]).
      assert (Bv : pbound D v).
      { destruct Hv as [[_ ->]| ->]; [intros s x []|]. intros s x Hs Hx. rewrite chain_paths in Hs. destruct Hs as [<-|[]]. pose proof (enc_known occ Hok row x Hx). lia. }
      destruct (union_spec acc v 0 Z Zv) as (r & Er & Zr & Pr). split.
      - cbind (res_priorities _ _ _ Ev) cost_priorities; [eassumption|eassumption| |apply Nat.le_refl].
        destruct Hv as [[_ ->]| ->].
        + inversion D0; subst. eapply wpn_le; [|apply cost_union_never]. lia.
        + eapply wpn_le; [|eapply (cost_union_chain fuel D 0 acc (enc u row)); [exact Z|apply enc_asc|exact B| |eassumption|exact Db|exact D0]]; [lia|].
          intros x Hx. pose proof (enc_known occ Hok row x Hx). lia.
      - eapply (@wp_bind nat _); [apply (res_priorities _ _ _ Ev); exact I1| |exact I1]. intros a2 n E2 I2 Dn. cbv beta in Dn. lift E2.
        eapply (@wp_mono nat _); [|eapply (op2_res _ _ _ _ _ (m_union_spec acc v) Er); [exact I2|exact Db|exact Dn]].
        intros a3 x E3 I3 D3. exists r. split; [exact Zr|]. split; [|exact D3]. exact (pbound_union D acc v r B Bv Pr). }
    assert (In0 : forall a, Inv a (GLeaf false) rows) by (intros a0; exists Never; split; [exact I|]; split; [intros s x []|constructor]).
    rewrite Nat.add_comm. eapply wpn_bind' with (Q := fun a' b => Inv a' b []).
    - apply (wp_fold _ Inv rows); [intros a1 b x l' I1 Hi; apply St; auto| |exact I0|apply In0].
      intros a1 a2 b E (acc & Z & B & Db). exists acc. split; [exact Z|]. split; [exact B|]. eapply nden_ext; eauto.
    - apply (wpn_fold _ Inv (fun row => length row * length row + 2 * D) rows a (GLeaf false) St I0 (In0 a)).
    - intros a' r E I1 (acc & _ & _ & Db). eapply cost_finish; [exact I1|exact Db].
    - exact I0.
    - apply Nat.le_refl.
  Qed.

  Lemma cost_canonical fuel h (occ : list (T * nat)) root a n : map_ok occ -> zwf 0 root -> pbound (length occ) root -> AInv a -> nden a n root ->
    wpn (2 + P root * (length occ * (length occ + 2))) a (m_canonical fuel h n (univ_of occ)).
  Proof.
    intros Hok Z B I0 D. unfold m_canonical. set (K := length occ) in *.
    pose proof (node_trees_paths root) as Et. destruct (m_trees_spec _ _ Et) as (F & S1).
    cbind (@wp_intern2 nat _) (@wpn_intern2 nat _); [exact D| |].
    - eapply wpn_bind'; [eapply S1; [apply no_tot|eassumption|eassumption]|apply cost_trees| |eassumption|apply Nat.le_refl].
      intros a1 ts E1 I1 ->. apply cost_many; exact I1.
    - cbn [Nat.add]. apply le_n_S. unfold many_cost. apply le_n_S. rewrite map_map.
      set (rows := map (get_items (univ_of occ)) (paths root)).
      assert (HD : different rows <= K).
      { unfold different, K. rewrite <- (univ_index_length occ). apply NoDup_incl_length; [apply once_NoDup|].
        intros x Hx. apply (proj1 (once_in _ _)) in Hx. apply in_concat in Hx. destruct Hx as (r & Hr & Hx). apply in_map_iff in Hr. destruct Hr as (p & <- & Hp).
        apply items_in in Hx. destruct Hx as (q & _ & Eq). eapply nth_error_In. exact Eq. }
      assert (Hl : forall p, In p (paths root) -> length (get_items (univ_of occ) p) * length (get_items (univ_of occ) p) + 2 * different rows <= K * (K + 2)).
      { intros p Hp. assert (X : length (get_items (univ_of occ) p) <= K).
        { unfold get_items. rewrite (Permutation_length (sort_perm _)). eapply Nat.le_trans; [apply filter_map_le|].
          pose proof (zwf_paths _ _ p Z Hp) as As.
          rewrite <- (seq_length K 0). apply NoDup_incl_length; [eapply asc_nodup_; exact As|]. intros x Hx. apply in_seq. pose proof (B p x Hp Hx). lia. }
        pose proof (sq_mono _ _ X). lia. }
      unfold P. clearbody rows. clear -Hl. induction (paths root) as [|p l IH]; cbn [map list_sum fold_right length]; [lia|].
      pose proof (Hl p (or_introl eq_refl)). specialize (IH (fun q h => Hl q (or_intror h))). unfold list_sum in IH. lia.
  Qed.
End Calls.
