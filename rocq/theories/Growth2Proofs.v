(** Growth2Proofs: how many nodes the programs of Zdd2Prog.v may add to the store.
    [wpn n a p]: in every run of [p] that starts from [a] or a later store, with
    any interference, the writes of [p] itself add at most [n] nodes. *)
From Coq Require Import List Arith Lia Bool Permutation Sorted.
From Verif Require Import Base DD Spec Zdd2Model Zdd2Node Zdd2Node2 Zdd2Univ Zdd2Forest Zdd2Forest2 Zdd2Forest3 Zdd2Laws.
From Verif Require Import ArenaModel ArenaProofs Zdd2Prog Zdd2ProgProofs.
Import ListNotations.

Section Count.
  Context {L : Type} `{Ord L}.
  Fixpoint wpn {R} (n : nat) (a : arena L) (p : prog L R) : Prop :=
    match p with
    | Get i k => forall a', ext a a' -> AInv a' -> forall x, a_get a' i = Some x -> wpn n a' (k x)
    | Find x k => forall a', ext a a' -> AInv a' -> wpn n a' (k (a_find a' x))
    | Add x k => forall a', ext a a' -> AInv a' -> exists m, wpn m (fst (a_add a' x)) (k (snd (a_add a' x))) /\
        length (a_nodes (fst (a_add a' x))) + m <= length (a_nodes a') + n
    | _ => True
    end.
  Lemma wpn_ext {R} (p : prog L R) n a a' : ext a a' -> wpn n a p -> wpn n a' p.
  Proof.
    destruct p as [r|i k|x k|x k| |]; simpl; intros E Hw; auto; intros b Eb Ib; [intros y Ey| |]; apply Hw; auto; eapply ext_trans; eauto.
  Qed.
  Lemma wpn_le {R} (p : prog L R) : forall n m a, n <= m -> wpn n a p -> wpn m a p.
  Proof.
    induction p as [r|i k IH|x k IH|x k IH| |]; simpl; intros n m a Hl Hw; auto; intros a' E I0.
    - intros y Ey. eapply IH; eauto.
    - eapply IH; eauto.
    - destruct (Hw a' E I0) as (c & Hc & Hl'). exists c. split; auto. lia.
  Qed.
  Lemma wpn_bind {A B} (p : prog L A) (f : A -> prog L B) : forall n1 n2 a Q,
    wp false a p Q -> wpn n1 a p -> (forall a' r, ext a a' -> AInv a' -> Q a' r -> wpn n2 a' (f r)) -> AInv a ->
    wpn (n1 + n2) a (pbind p f).
  Proof.
    induction p as [r|i k IH|x k IH|x k IH| |]; simpl; intros n1 n2 a Q Hw Hn Hf I0; auto.
    - eapply wpn_le; [|apply (Hf a r (ext_refl a) I0)]; [lia|]. apply Hw; auto. apply ext_refl.
    - intros a' E I1 y Ey. destruct (Hw a' E I1) as (y' & Ey' & Hy). assert (y' = y) by congruence. subst y'.
      eapply IH; [exact Hy|eapply Hn; eauto| |exact I1]. intros. apply Hf; auto. eapply ext_trans; eauto.
    - intros a' E I1. eapply IH; [exact (Hw a' E I1)|eapply Hn; eauto| |exact I1]. intros. apply Hf; auto. eapply ext_trans; eauto.
    - intros a' E I1. destruct (Hw a' E I1) as [Hc Hy]. destruct (Hn a' E I1) as (m & Hm & Hl).
      destruct (a_add_spec a' x I1 Hc) as (I2 & E2 & _). exists (m + n2). split; [|lia].
      eapply IH; [exact Hy|exact Hm| |exact I2]. intros a2 r Ea Ia Hq. apply Hf; auto. eapply ext_trans; [exact E|]. eapply ext_trans; eauto.
  Qed.
  Lemma wpn_bind' {A B} (p : prog L A) (f : A -> prog L B) n n1 n2 a Q :
    wp false a p Q -> wpn n1 a p -> (forall a' r, ext a a' -> AInv a' -> Q a' r -> wpn n2 a' (f r)) -> AInv a ->
    n1 + n2 <= n -> wpn n a (pbind p f).
  Proof. intros Hw Hn Hf I0 Hl. eapply wpn_le; [exact Hl|]. eapply wpn_bind; eauto. Qed.
  Lemma wpn_step {R} (p p' : prog L R) n a a' : AInv a -> wpn n a p -> pstep a p a' p' ->
    exists m, wpn m a' p' /\ length (a_nodes a') + m <= length (a_nodes a) + n.
  Proof.
    intros I0 Hw Hs. inversion Hs as [b i k x E|b i k E|b x k|b x k]; subst; simpl in Hw.
    - exists n. split; [|lia]. apply (Hw a'); auto. apply ext_refl.
    - exists n. split; [exact I|lia].
    - exists n. split; [|lia]. apply (Hw a'); auto. apply ext_refl.
    - exact (Hw a (ext_refl a) I0).
  Qed.
  Lemma wpn_ret {R} n a (r : R) : wpn n a (Ret r).
  Proof. exact I. Qed.
  Lemma wpn_get n a i : wpn n a (get_node i).
  Proof. intros a' E I0 x Ex. exact I. Qed.
  Lemma wpn_intern2 a x : wpn 1 a (intern2 x).
  Proof.
    intros a' E I0. destruct (a_find a' x) as [i|]; [exact I|]. intros b Eb Ib. exists 0. split; [exact I|].
    unfold a_add. destruct (idx_get (a_index b) x); simpl; [|rewrite app_length; simpl]; lia.
  Qed.
  (** nothing is added for a node that is stored already *)
  Lemma wpn_intern2_stored a i x t : den a i t -> nden a x t -> wpn 0 a (intern2 x).
  Proof.
    intros D N a' E I0. destruct (a_find a' x) as [j|] eqn:F; [exact I|]. exfalso.
    apply (den_ext _ _ _ _ E) in D. apply (nden_ext _ _ _ _ E) in N. inversion D as [i' y t' G M]; subst.
    pose proof (nden_inj a' y x t I0 M N). subst y. unfold a_find in F. apply (proj2 (inv_index a' I0 x i)) in G. congruence.
  Qed.
  Lemma wpn_fold {A B} (f : B -> A -> prog L B) (Inv : arena L -> B -> list A -> Prop) (c : A -> nat) l : forall a b,
    (forall a b x l', AInv a -> Inv a b (x :: l') -> wpn (c x) a (f b x) /\ wp false a (f b x) (fun a' b' => Inv a' b' l')) ->
    AInv a -> Inv a b l -> wpn (list_sum (map c l)) a (pfoldM f l b).
  Proof.
    induction l as [|x l IH]; intros a b Hs I0 Hi; [exact I|]. cbn [pfoldM map list_sum fold_right].
    destruct (Hs a b x l I0 Hi) as [Hn Hw]. eapply wpn_bind'; [exact Hw|exact Hn| |exact I0|apply Nat.le_refl].
    intros a' r E I1 Hr. apply IH; auto.
  Qed.
End Count.

(** an argument still to be interned costs a node, unless it is a leaf *)
Definition argc (x : arg) : nat := match x with ANode (GBranch _ _ _) => 1 | _ => 0 end.
Lemma argc_le x : argc x <= 1.
Proof. destruct x as [i|[b|l lo hi]]; simpl; lia. Qed.
Definition tc (t : node) : nat := match t with Leaf _ => 0 | Branch _ _ _ => 1 end.
Lemma wpn_into a x t : AInv a -> aden a x t -> wpn (argc x) a (m_into x).
Proof.
  intros I0 D. destruct x as [i|n]; simpl; [exact I|]. destruct n as [b|l lo hi]; [|apply wpn_intern2].
  eapply (@wpn_intern2_stored nat _); [|exact D]. inversion D; subst. apply (@den_leaf nat _); auto.
Qed.
Lemma argc_node a n t : nden a n t -> argc (ANode n) = tc t.
Proof. intros D. inversion D; reflexivity. Qed.

(** the number of branches *)
Fixpoint W (t : node) : nat := match t with Leaf _ => 0 | Branch _ lo hi => S (W lo + W hi) end.
Definition P (t : node) : nat := length (paths t).
Lemma P_branch i lo hi : P (Branch i lo hi) = P hi + P lo.
Proof. unfold P. simpl. rewrite app_length, map_length. lia. Qed.
Lemma P_pos n t : zwf n t -> t <> Never -> 1 <= P t.
Proof. intros Z N. destruct (zwf_nonempty n t Z N) as (s & Hs). unfold P. destruct (paths t); [destruct Hs|simpl; lia]. Qed.
Lemma tc_W t : tc t <= W t.
Proof. destruct t; simpl; lia. Qed.
Definition pbound (L : nat) (t : node) : Prop := forall s x, In s (paths t) -> In x s -> x < L.
Lemma pbound_lo L i lo hi : pbound L (Branch i lo hi) -> pbound L lo.
Proof. intros B s x Hs Hx. apply (B s x); auto. apply paths_branch. auto. Qed.
Lemma pbound_hi L i lo hi : pbound L (Branch i lo hi) -> pbound L hi.
Proof. intros B s x Hs Hx. apply (B (i :: s) x); [apply paths_branch; left; eauto|right; auto]. Qed.
Lemma pbound_top L n i lo hi : zwf n (Branch i lo hi) -> pbound L (Branch i lo hi) -> i < L.
Proof.
  intros (_ & N & _ & Z) B. destruct (zwf_nonempty _ _ Z N) as (s & Hs). apply (B (i :: s) i); [|left; auto]. apply paths_branch. left; eauto.
Qed.
Lemma W_bound L t : forall n, zwf n t -> pbound L t -> W t <= (L - n) * P t.
Proof.
  induction t as [b|i lo IHl hi IHh]; intros n Z B; [apply Nat.le_0_l|].
  pose proof (pbound_top _ _ _ _ _ Z B) as Hi. destruct Z as (Z1 & Z2 & Z3 & Z4).
  pose proof (IHl _ Z3 (pbound_lo _ _ _ _ B)) as A1. pose proof (IHh _ Z4 (pbound_hi _ _ _ _ B)) as A2.
  pose proof (P_pos _ _ Z4 Z2) as A3. rewrite P_branch. cbn [W].
  assert (X : (L - n) * (P hi + P lo) = (L - S i) * (P hi + P lo) + (S i - n) * (P hi + P lo)).
  { rewrite <- Nat.mul_add_distr_r. f_equal. lia. }
  rewrite X. pose proof (Nat.mul_le_mono_r 1 (S i - n) (P hi + P lo) ltac:(lia)). lia.
Qed.
Lemma W_bound0 L t : zwf 0 t -> pbound L t -> W t <= L * P t.
Proof. intros Z B. pose proof (W_bound L t 0 Z B) as X. rewrite Nat.sub_0_r in X. exact X. Qed.

Ltac cbind w c := eapply wpn_bind'; [eapply w|eapply c|let a' := fresh "a" in let r := fresh "r" in let E := fresh "E" in let I1 := fresh "I" in let D := fresh "D" in intros a' r E I1 D; cbv beta in D; lift E; clear E|eassumption|].
Ltac cget := eapply wpn_bind'; [eapply (@wp_get_node nat _); eassumption|apply (wpn_get 0)|let a' := fresh "a" in let r := fresh "r" in let E := fresh "E" in let I1 := fresh "I" in let D := fresh "D" in intros a' r E I1 D; cbv beta in D; lift E; clear E|eassumption|].

Lemma res_branch id lo hi t : branch id lo hi = Some t -> forall fuel a x y, AInv a -> aden a x lo -> aden a y hi ->
  wp false a (m_branch fuel id x y) (fun a' n => nden a' n t).
Proof. intros E. destruct (m_branch_spec' _ _ _ _ E) as (F & S1). intros. apply S1; auto. intros X; discriminate X. Qed.

(** the last arm adds nothing: both nodes have just been read *)
Lemma cost_last (a : arena nat) (id i j : nat) (low high : znode) t u : AInv a -> nden a low t -> den a i t -> nden a high u -> den a j u ->
  wpn 0 a (do l <- intern2 low ; do h <- intern2 high ; Ret (GBranch id l h) : zprog znode).
Proof.
  intros I0 N1 D1 N2 D2.
  cbind (@wp_intern2 nat _) (fun a D N => @wpn_intern2_stored nat _ a i low t D N); [exact N1|exact D1|exact N1| |].
  - cbind (@wp_intern2 nat _) (fun a D N => @wpn_intern2_stored nat _ a j high u D N); [exact N2|exact D2|exact N2|apply (wpn_ret 0)|apply Nat.le_refl].
  - simpl; lia.
Qed.

(** both children below [id]: the node is made directly *)
Lemma cost_branch_direct fuel id lo hi a x y : zwf (S id) lo -> zwf (S id) hi -> AInv a -> aden a x lo -> aden a y hi ->
  wpn (argc x + argc y) a (m_branch fuel id x y).
Proof.
  intros Zl Zh I0 Dx Dy. destruct fuel as [|k]; [exact I|]. cbn [m_branch].
  cbind m_into_spec wpn_into; [eassumption|eassumption|eassumption| |].
  - cget.
    + cbind m_into_spec wpn_into; [eassumption|eassumption|eassumption| |apply Nat.le_refl].
      cget; [|apply Nat.le_refl].
      destruct hi as [[|]|h hl hh]; inversion D2; subst; rename D2 into DH; [| apply (wpn_ret 0) |].
      * destruct lo as [b|l ll lh]; inversion D0; subst; rename D0 into DL.
        { eapply cost_last; eassumption. }
        { destruct Zl as (Zl & _). replace (l <? id) with false by (symmetry; apply Nat.ltb_ge; lia).
          replace (l =? id) with false by (symmetry; apply Nat.eqb_neq; lia). eapply cost_last; eassumption. }
      * destruct Zh as (Zh & _). replace (h <? id) with false by (symmetry; apply Nat.ltb_ge; lia).
        replace (h =? id) with false by (symmetry; apply Nat.eqb_neq; lia).
        destruct lo as [b|l ll lh]; inversion D0; subst; rename D0 into DL.
        { eapply cost_last; eassumption. }
        { destruct Zl as (Zl & _). replace (l <? id) with false by (symmetry; apply Nat.ltb_ge; lia).
          replace (l =? id) with false by (symmetry; apply Nat.eqb_neq; lia). eapply cost_last; eassumption. }
    + apply Nat.le_refl.
  - simpl; lia.
Qed.
