(** StackZFits: diagrams whose ways down are sublists of a list, and how deep the operations of ZddProg.v nest. *)
From Coq Require Import List Arith NArith Lia Bool Permutation Sorted.
From Verif Require Import Base DD Spec Zdd2Model ZddModel ZddProofs ParserModel ArenaModel ArenaProofs PoolModel PoolProofs ZddProg ZddProgProofs.
From Verif Require Import Growth2Spec StackZModel.
Import ListNotations.
Open Scope nat_scope.

(** every way down lists a sublist of [L] *)
Fixpoint fits (t : dd nat) (L : list nat) {struct L} : Prop :=
  match t with
  | Leaf _ => True
  | Branch i lo hi =>
      match L with
      | [] => False
      | x :: L' => (i = x /\ fits lo L' /\ fits hi L') \/ fits t L'
      end
  end.
Lemma fits_leaf b L : fits (Leaf b) L.
Proof. destruct L; exact I. Qed.
Lemma fits_cons t x L : fits t L -> fits t (x :: L).
Proof. destruct t; [intros; apply fits_leaf|]. intros F. right. exact F. Qed.
Lemma fits_sub i lo hi L : fits (Branch i lo hi) L -> fits lo L /\ fits hi L.
Proof.
  induction L as [|x L IH]; [intros []|]. intros [(_ & A & B)|F]; [split; apply fits_cons; assumption|].
  destruct (IH F). split; apply fits_cons; assumption.
Qed.
Lemma fits_in i lo hi L : fits (Branch i lo hi) L -> In i L.
Proof. induction L as [|x L IH]; [intros []|]. intros [(-> & _)|F]; [left; reflexivity|right; auto]. Qed.
Lemma fits_cases i lo hi x L : fits (Branch i lo hi) (x :: L) ->
  (i = x /\ fits lo L /\ fits hi L) \/ (i <> x /\ fits (Branch i lo hi) L).
Proof.
  intros [A|F]; [left; exact A|]. destruct (Nat.eq_dec i x) as [->|N]; [left|right; auto].
  split; [reflexivity|]. eapply fits_sub; exact F.
Qed.
Lemma fits_height t L : fits t L -> height t <= length L.
Proof.
  revert t. induction L as [|x L IH]; intros [b|i lo hi] F; cbn [height length]; try lia; [destruct F|].
  destruct F as [(_ & A & B)|F].
  - specialize (IH _ A) as A'. specialize (IH _ B) as B'. lia.
  - specialize (IH _ F). cbn [height] in IH. lia.
Qed.
Lemma fits_insert x L : forall t, fits t L -> fits t (insert_by leb_ x L).
Proof.
  induction L as [|y L IH]; intros [b|i lo hi] F; try apply fits_leaf; [destruct F|].
  cbn [insert_by]. destruct (leb_ x y); [apply fits_cons; exact F|].
  destruct F as [(-> & A & B)|F]; [left; auto|right; auto].
Qed.
Lemma fits_sort t d l : fits t (sort l) -> fits t (sort (d ++ l)).
Proof. intros F. induction d as [|x d IH]; [exact F|]. apply fits_insert. exact IH. Qed.
Lemma sort_nat_perm (l m : list nat) : Permutation l m -> sort l = sort m.
Proof.
  intros P. apply (SS_unique_perm (fun a b => leb_ a b = true)).
  - apply leb_antisym_.
  - apply sort_sorted.
  - apply sort_sorted.
  - rewrite !sort_perm. exact P.
Qed.

Definition climbs (L : list nat) : Prop := StronglySorted (fun a b => leb_ a b = true) L.
Lemma climbs_inv x L : climbs (x :: L) -> climbs L /\ forall y, In y L -> x <= y.
Proof.
  intros S. inversion S as [|x' L' S' F]; subst. split; [exact S'|]. intros y Hy. rewrite Forall_forall in F.
  specialize (F y Hy). apply leb_iff_ in F. rewrite lt_nat in F. lia.
Qed.
Lemma fits_zfinish x lo hi L : fits lo L -> fits hi L -> fits (zfinish x lo hi) (x :: L).
Proof. intros A B. unfold zfinish. destruct (dd_eqb hi (Leaf false)); [apply fits_cons; exact A|left; auto]. Qed.
Lemma fits_zunion L : climbs L -> forall t1 t2, fits t1 L -> fits t2 L -> fits (zunion t1 t2) L.
Proof.
  induction L as [|x L IH]; intros S t1 t2 F1 F2.
  - destruct t1 as [[]|]; [| |destruct F1]; (destruct t2 as [[]|]; [| |destruct F2]); exact Logic.I.
  - apply climbs_inv in S. destruct S as (S & Lx). specialize (IH S).
    destruct t1 as [b1|i1 lo1 hi1], t2 as [b2|i2 lo2 hi2].
    + destruct b1, b2; apply fits_leaf.
    + destruct (fits_cases _ _ _ _ _ F2) as [(-> & A & B)|(N & F2')].
      * rewrite zunion_eq. cbn [dd_eqb]. destruct b1; [|exact F2].
        apply fits_zfinish; [apply IH; [apply fits_leaf|exact A]|exact B].
      * apply fits_cons, IH; [apply fits_leaf|exact F2'].
    + destruct (fits_cases _ _ _ _ _ F1) as [(-> & A & B)|(N & F1')].
      * rewrite zunion_eq. cbn [dd_eqb]. destruct b2; [|exact F1].
        apply fits_zfinish; [apply IH; [exact A|apply fits_leaf]|exact B].
      * apply fits_cons, IH; [exact F1'|apply fits_leaf].
    + destruct (fits_cases _ _ _ _ _ F1) as [(E1 & A1 & B1)|(N1 & F1')], (fits_cases _ _ _ _ _ F2) as [(E2 & A2 & B2)|(N2 & F2')].
      * subst i1 i2. rewrite zunion_eq. destruct (dd_eqb _ _); [exact F1|]. rewrite Nat.ltb_irrefl. apply fits_zfinish; apply IH; assumption.
      * subst i1. rewrite zunion_eq. destruct (dd_eqb _ _); [exact F1|].
        pose proof (Lx _ (fits_in _ _ _ _ F2')). destruct (Nat.ltb_spec x i2); [|lia].
        apply fits_zfinish; [apply IH; assumption|exact B1].
      * subst i2. rewrite zunion_eq. destruct (dd_eqb _ _); [exact F1|].
        pose proof (Lx _ (fits_in _ _ _ _ F1')). destruct (Nat.ltb_spec i1 x); [lia|]. destruct (Nat.ltb_spec x i1); [|lia].
        apply fits_zfinish; [apply IH; assumption|exact B2].
      * apply fits_cons, IH; assumption.
Qed.
Lemma fits_chain L : fits (chain L) L.
Proof. induction L as [|x L IH]; [exact Logic.I|]. cbn. left. repeat split; [apply fits_leaf|exact IH]. Qed.
Lemma climbs_sort (l : list nat) : climbs (sort l).
Proof. apply sort_sorted. Qed.
Lemma ordered_fits L : climbs L -> forall t, ordered t -> (forall i, In i (labels t) -> In i L) -> fits t L.
Proof.
  induction L as [|x L IH]; intros S [b|i lo hi] O J; try apply fits_leaf; [destruct (J i (or_introl eq_refl))|].
  apply climbs_inv in S. destruct S as (S & Lx). destruct O as (Oi & Ol & Oh).
  assert (Jl : forall j, In j (labels lo) -> In j (labels (Branch i lo hi))) by (intros; cbn; rewrite in_app_iff; auto).
  assert (Jh : forall j, In j (labels hi) -> In j (labels (Branch i lo hi))) by (intros; cbn; rewrite in_app_iff; auto).
  destruct (J i (or_introl eq_refl)) as [->|Ji].
  - left. split; [reflexivity|]. split; (apply IH; [exact S|assumption|]); intros j Hj.
    + destruct (J j (Jl j Hj)) as [Ej|]; [|assumption]. specialize (Oi j (or_introl Hj)). lia.
    + destruct (J j (Jh j Hj)) as [Ej|]; [|assumption]. specialize (Oi j (or_intror Hj)). lia.
  - destruct (Nat.eq_dec i x) as [->|N].
    + left. split; [reflexivity|]. split; (apply IH; [exact S|assumption|]); intros j Hj.
      * destruct (J j (Jl j Hj)) as [<-|]; assumption.
      * destruct (J j (Jh j Hj)) as [<-|]; assumption.
    + right. specialize (Lx i Ji). apply IH; [exact S|split; auto|]. intros j Hj.
      destruct (J j Hj) as [Ej|]; [|assumption]. exfalso. destruct Hj as [Hj|Hj]; [congruence|].
      apply in_app_iff in Hj. specialize (Oi j Hj). lia.
Qed.

(** ** the operations: [Q k t1 t2] says that k levels are left *)
Record leveled (Q : nat -> dd nat -> dd nat -> Prop) : Prop := {
  lv_both : forall k i1 l1 h1 i2 l2 h2, Q k (Branch i1 l1 h1) (Branch i2 l2 h2) -> exists k', k = S k' /\
    (i1 < i2 -> Q k' l1 (Branch i2 l2 h2) /\ Q k' h1 (Branch i2 l2 h2)) /\
    (i2 < i1 -> Q k' (Branch i1 l1 h1) l2 /\ Q k' (Branch i1 l1 h1) h2) /\
    (i1 = i2 -> Q k' l1 l2 /\ Q k' h1 h2);
  lv_left : forall k i l h b, Q k (Branch i l h) (Leaf b) -> exists k', k = S k' /\ Q k' l (Leaf b);
  lv_right : forall k i l h b, Q k (Leaf b) (Branch i l h) -> exists k', k = S k' /\ Q k' (Leaf b) l }.

Definition depth_spec (op : dd nat -> dd nat -> dd nat) (m : nat -> znd -> znd -> prog nat znd) : Prop :=
  forall Q, leveled Q -> forall k t1 t2, Q k t1 t2 -> forall fuel tot, suffices (S k) fuel tot ->
  forall a n1 n2, AInv a -> nden a n1 t1 -> nden a n2 t2 ->
  wp tot a (m fuel n1 n2) (fun a' n => nden a' n (op t1 t2)).

Ltac dstart eqn :=
  intros Q HQ k; induction k as [k IH0] using lt_wf_ind; intros t1 t2 Hk fuel tot Hf a n1 n2 I0 D1 D2;
  pose proof (fun k' (h : k' < k) u1 u2 (q : Q k' u1 u2) fu to (hs : suffices k fu to) =>
    IH0 k' h u1 u2 q fu to (suffices_le _ _ _ _ h hs)) as IH; clear IH0;
  pstart Hf; cbn [m_zunion m_zintersect m_zproduct];
  rewrite eqn, (gnode_eqb_den a n1 n2 _ _ I0 D1 D2);
  destruct (dd_eqb t1 t2); [apply wp_same; exact D1|].
Ltac drec IH Hf q := pstep_with (IH _ (Nat.lt_succ_diag_r _) _ _ q); [exact Hf|eassumption|eassumption|eassumption|].
Lemma m_zunion_depth : depth_spec zunion m_zunion.
Proof.
  unfold depth_spec. dstart zunion_eq.
  destruct t1 as [[]|id1 lo1 hi1]; inversion D1; subst; destruct t2 as [[]|id2 lo2 hi2]; inversion D2; subst;
    try (apply wp_same; first [exact D1|exact D2|constructor]).
  - destruct (lv_right Q HQ _ _ _ _ _ Hk) as (k' & -> & q). pget. drec IH Hf q. pget. apply m_zfinish_spec; auto.
  - destruct (lv_left Q HQ _ _ _ _ _ Hk) as (k' & -> & q). pget. drec IH Hf q. pget. apply m_zfinish_spec; auto.
  - destruct (lv_both Q HQ _ _ _ _ _ _ _ Hk) as (k' & -> & q1 & q2 & q3).
    destruct (Nat.ltb_spec id1 id2); [|destruct (Nat.ltb_spec id2 id1)].
    + destruct (q1 ltac:(lia)) as (p & p'). pget. drec IH Hf p. pget. apply m_zfinish_spec; auto.
    + destruct (q2 ltac:(lia)) as (p & p'). pget. drec IH Hf p. pget. apply m_zfinish_spec; auto.
    + destruct (q3 ltac:(lia)) as (p & p'). pget. pget. drec IH Hf p. pget. pget. drec IH Hf p'. apply m_zfinish_spec; auto.
Qed.
Lemma m_zintersect_depth : depth_spec zintersect m_zintersect.
Proof.
  unfold depth_spec. dstart zintersect_eq.
  destruct t1 as [[]|id1 lo1 hi1]; inversion D1; subst; destruct t2 as [[]|id2 lo2 hi2]; inversion D2; subst;
    try (apply wp_same; first [exact D1|exact D2|constructor]).
  destruct (lv_both Q HQ _ _ _ _ _ _ _ Hk) as (k' & -> & q1 & q2 & q3).
  destruct (Nat.ltb_spec id1 id2); [|destruct (Nat.ltb_spec id2 id1)].
  - destruct (q1 ltac:(lia)) as (p & p'). pget. pget. drec IH Hf p'. apply m_zfinish_spec; auto.
  - destruct (q2 ltac:(lia)) as (p & p'). pget. pget. drec IH Hf p'. apply m_zfinish_spec; auto.
  - destruct (q3 ltac:(lia)) as (p & p'). pget. pget. drec IH Hf p. pget. pget. drec IH Hf p'. apply m_zfinish_spec; auto.
Qed.
Lemma m_zproduct_depth : depth_spec zproduct m_zproduct.
Proof.
  unfold depth_spec. dstart zproduct_eq.
  destruct t1 as [[]|id1 lo1 hi1]; inversion D1; subst; destruct t2 as [[]|id2 lo2 hi2]; inversion D2; subst;
    try (apply wp_same; first [exact D1|exact D2|constructor]).
  destruct (lv_both Q HQ _ _ _ _ _ _ _ Hk) as (k' & -> & q1 & q2 & q3).
  destruct (Nat.ltb_spec id1 id2); [|destruct (Nat.ltb_spec id2 id1)].
  - destruct (q1 ltac:(lia)) as (p & p'). pget. drec IH Hf p. pget. drec IH Hf p'. apply m_zfinish_spec; auto.
  - destruct (q2 ltac:(lia)) as (p & p'). pget. drec IH Hf p. pget. drec IH Hf p'. apply m_zfinish_spec; auto.
  - destruct (q3 ltac:(lia)) as (p & p'). pget. pget. drec IH Hf p. pget. pget. drec IH Hf p'. apply m_zfinish_spec; auto.
Qed.

(** the two measures *)
Definition by_height (k : nat) (t1 t2 : dd nat) : Prop := height t1 + height t2 <= k.
Definition by_list (k : nat) (t1 t2 : dd nat) : Prop := exists L, climbs L /\ length L <= k /\ fits t1 L /\ fits t2 L.
Lemma by_height_leveled : leveled by_height.
Proof.
  unfold by_height. split.
  - intros k i1 l1 h1 i2 l2 h2 Hk. cbn [height] in Hk. destruct k as [|k]; [lia|]. exists k. split; [reflexivity|]. cbn [height]. repeat split; lia.
  - intros k i l h b Hk. cbn [height] in *. destruct k as [|k]; [lia|]. exists k. split; [reflexivity|]. lia.
  - intros k i l h b Hk. cbn [height] in *. destruct k as [|k]; [lia|]. exists k. split; [reflexivity|]. lia.
Qed.
Lemma by_list_leveled : leveled by_list.
Proof.
  assert (Leaf_ : forall i l h L, climbs L -> fits (Branch i l h) L -> exists L', climbs L' /\ S (length L') <= length L /\ fits l L').
  { intros i l h L. induction L as [|x L IH]; intros S F; [destruct F|]. apply climbs_inv in S. destruct S as (S & _).
    destruct (fits_cases _ _ _ _ _ F) as [(_ & A & _)|(_ & F')]; [exists L; cbn; auto|].
    destruct (IH S F') as (L' & C & N & G). exists L'. cbn [length]. split; [exact C|]. split; [lia|exact G]. }
  split.
  - intros k i1 l1 h1 i2 l2 h2 (L & S & Hk & F1 & F2).
    assert (X : exists L', climbs L' /\ Datatypes.S (length L') <= length L /\
      (i1 < i2 -> fits l1 L' /\ fits h1 L' /\ fits (Branch i2 l2 h2) L') /\
      (i2 < i1 -> fits l2 L' /\ fits h2 L' /\ fits (Branch i1 l1 h1) L') /\
      (i1 = i2 -> fits l1 L' /\ fits h1 L' /\ fits l2 L' /\ fits h2 L')).
    { clear Hk. induction L as [|x L IH]; [destruct F1|]. apply climbs_inv in S. destruct S as (S & Lx).
      destruct (fits_cases _ _ _ _ _ F1) as [(E1 & A1 & B1)|(N1 & F1')], (fits_cases _ _ _ _ _ F2) as [(E2 & A2 & B2)|(N2 & F2')].
      - exists L. split; [exact S|]. split; [reflexivity|]. repeat split; try assumption; lia.
      - pose proof (Lx _ (fits_in _ _ _ _ F2')). exists L. split; [exact S|]. split; [reflexivity|]. repeat split; try assumption; lia.
      - pose proof (Lx _ (fits_in _ _ _ _ F1')). exists L. split; [exact S|]. split; [reflexivity|]. repeat split; try assumption; lia.
      - destruct (IH S F1' F2') as (L' & C & N & G). exists L'. split; [exact C|]. split; [cbn; lia|exact G]. }
    destruct X as (L' & C & N & P1 & P2 & P3). destruct k as [|k]; [lia|]. exists k. split; [reflexivity|].
    split; [|split]; intros X; [destruct (P1 X) as (? & ? & ?)|destruct (P2 X) as (? & ? & ?)|destruct (P3 X) as (? & ? & ? & ?)];
      (split; exists L'; (split; [exact C|]; split; [lia|]; split; assumption)).
  - intros k i l h b (L & S & Hk & F1 & F2). destruct (Leaf_ _ _ _ _ S F1) as (L' & C & N & G).
    destruct k as [|k]; [lia|]. exists k. split; [reflexivity|]. exists L'. split; [exact C|]. split; [lia|]. split; [exact G|apply fits_leaf].
  - intros k i l h b (L & S & Hk & F1 & F2). destruct (Leaf_ _ _ _ _ S F2) as (L' & C & N & G).
    destruct k as [|k]; [lia|]. exists k. split; [reflexivity|]. exists L'. split; [exact C|]. split; [lia|]. split; [apply fits_leaf|exact G].
Qed.

(** ** the readers of one tree *)
Lemma m_zcomb_inner_depth t : forall fuel tot, suffices (S (height t)) fuel tot -> forall a i path, AInv a -> den a i t ->
  wp tot a (m_zcomb_inner fuel i path) (fun _ r => r = combinations_inner t path).
Proof.
  induction t as [b|id lo IHl hi IHh]; intros fuel tot Hf a i path I0 D; pstart Hf; cbn [m_zcomb_inner]; pget.
  - inversion D0; subst. destruct b; apply wp_val; reflexivity.
  - inversion D0; subst. pstep_with IHl; [pfuel Hf|eassumption|eassumption|].
    pstep_with IHh; [pfuel Hf|eassumption|eassumption|]. subst. apply wp_val. reflexivity.
Qed.
Lemma m_zprint_depth t : forall fuel tot, suffices (S (height t)) fuel tot -> forall a n, AInv a -> nden a n t ->
  wp tot a (m_zprint fuel n) (fun _ r => r = zbuild_node_string t).
Proof.
  induction t as [b|id lo IHl hi IHh]; intros fuel tot Hf a n I0 D; pstart Hf; inversion D; subst; cbn [m_zprint].
  - destruct b; apply wp_val; reflexivity.
  - pget. pstep_with IHl; [pfuel Hf|eassumption|eassumption|]. pget.
    pstep_with IHh; [pfuel Hf|eassumption|eassumption|]. subst. apply wp_val. reflexivity.
Qed.
Lemma m_ztraverse_depth {T} `{Ord T} (u : zuniverse T) t : forall fuel tot, suffices (S (height t)) fuel tot -> forall a i, AInv a -> den a i t ->
  wp tot a (m_ztraverse fuel u i) (fun _ r => r = z_from_node u t).
Proof.
  induction t as [b|id lo IHl hi IHh]; intros fuel tot Hf a i I0 D; pstart Hf; cbn [m_ztraverse]; pget; inversion D0; subst.
  - apply wp_val. reflexivity.
  - cbn [z_from_node]. destruct (z_get_item u id) as [v|]; [|apply wp_val; reflexivity]. cbn [bind].
    pstep_with IHl; [pfuel Hf|eassumption|eassumption|]. subst. destruct (z_from_node u lo) as [lo'|]; [|apply wp_val; reflexivity]. cbn [bind].
    pstep_with IHh; [pfuel Hf|eassumption|eassumption|]. subst. destruct (z_from_node u hi) as [hi'|]; apply wp_val; reflexivity.
Qed.
