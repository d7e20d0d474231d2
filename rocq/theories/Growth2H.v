(** Growth2H: operations on two forests, scripts, and the pool invariant (see Growth2Proofs.v). *)
From Coq Require Import List Arith Lia Bool Permutation Sorted.
From Verif Require Import Base DD Spec Zdd2Model Zdd2Node Zdd2Node2 Zdd2Univ Zdd2Forest Zdd2Forest2 Zdd2Forest3 Zdd2Laws Zdd2Settle Zdd2Exact2.
From Verif Require Import ArenaModel ArenaProofs Zdd2Prog Zdd2ProgProofs Growth2Proofs Growth2B Growth2C Growth2D Growth2E Growth2F Growth2G GrowthSpec Growth2Spec.
From Verif Require Import Zdd2Thm ConcThm.
Import ListNotations.

Section Calls.
  Context {T : Type} `{Ord T}.

  Lemma concat_in_app (ts us : list (list T)) x : (exists t, In t (ts ++ us) /\ In x t) <-> (exists t, In t ts /\ In x t) \/ (exists t, In t us /\ In x t).
  Proof.
    split.
    - intros (t & Ht & Hx). apply in_app_or in Ht. destruct Ht; [left|right]; eauto.
    - intros [(t & Ht & Hx)|(t & Ht & Hx)]; exists t; split; auto; apply in_or_app; auto.
  Qed.
  (** an operation of two diagrams, between translation and [canonical] *)
  Lemma cost_binop op mop fuel h (f g : forest T) (cop pop : nat -> nat -> nat -> nat) a mf mg : Canon f -> Canon g -> AInv a -> fden a mf f -> fden a mg g ->
    (forall t1 t2, op2_spec op mop t1 t2) ->
    (forall L t1 t2, zwf 0 t1 -> zwf 0 t2 -> pbound L t1 -> pbound L t2 -> exists r, op t1 t2 = Some r /\ zwf 0 r /\ pbound L r /\ P r <= pop L (P t1) (P t2)) ->
    (forall L t1 t2 a n1 n2, zwf 0 t1 -> zwf 0 t2 -> pbound L t1 -> pbound L t2 -> AInv a -> nden a n1 t1 -> nden a n2 t2 -> wpn (cop L (P t1) (P t2)) a (mop fuel n1 n2)) ->
    (forall L L' a a' b b', L <= L' -> a <= a' -> b <= b' -> cop L a b <= cop L' a' b') ->
    (forall L L' a a' b b', L <= L' -> a <= a' -> b <= b' -> pop L a b <= pop L' a' b') ->
    let k := different (trees_of f ++ trees_of g) in let n1 := length (trees_of f) in let n2 := length (trees_of g) in
    wpn (2 + (n1 + n2) * (k * (2 * k + 2)) + cop k n1 n2 + pop k n1 n2 * (k * (k + 2))) a (m_binop mop fuel h mf mg).
  Proof.
    intros (of_ & Cf) (og & Cg) I0 [Df Qf] [Dg Qg] Hop Hv Hc Mc Mp k n1 n2. unfold m_binop. rewrite Qf, Qg.
    destruct (merge_spec h f g _ _ Cf Cg) as (m & Hm & -> & _ & Hk). rewrite (c_univ _ _ Cf), (c_univ _ _ Cg).
    assert (Kf : forall x, In x (map fst of_) -> In x (map fst m)) by (intros; apply Hk; auto).
    assert (Kg : forall x, In x (map fst og) -> In x (map fst m)) by (intros; apply Hk; auto).
    assert (Lm : length m <= k).
    { apply different_keys; [exact Hm|]. intros x Hx. apply concat_in_app. rewrite !trees_of_tl. apply Hk in Hx.
      destruct Hx as [Hx|Hx]; [left; exact (proj1 (canon_key f of_ x Cf) Hx)|right; exact (proj1 (canon_key g og x Cg) Hx)]. }
    assert (Lf : length of_ <= length m).
    { rewrite <- !(map_length fst). apply NoDup_incl_length; [apply ssorted_NoDup, (c_ok _ _ Cf)|exact Kf]. }
    assert (Lg : length og <= length m).
    { rewrite <- !(map_length fst). apply NoDup_incl_length; [apply ssorted_NoDup, (c_ok _ _ Cg)|exact Kg]. }
    pose proof (c_wf _ _ Cf) as Zf. pose proof (c_wf _ _ Cg) as Zg. pose proof (canon_known_labels _ _ Cf) as Nf. pose proof (canon_known_labels _ _ Cg) as Ng.
    destruct (translate_total of_ m Hm Kf _ 0 Zf Nf) as (r1 & E1 & _). destruct (translate_total og m Hm Kg _ 0 Zg Ng) as (r2 & E2 & _).
    destruct (translate_bound of_ m Hm Kf _ 0 r1 Zf Nf E1) as [Z1 B1]. destruct (translate_bound og m Hm Kg _ 0 r2 Zg Ng E2) as [Z2 B2].
    destruct (translate_kept of_ m Hm Kf _ _ _ Zf Nf E1) as (P1 & _). destruct (translate_kept og m Hm Kg _ _ _ Zg Ng E2) as (P2 & _).
    fold (P r1) (P (f_root f)) in P1. fold (P r2) (P (f_root g)) in P2.
    destruct (Hv (length m) r1 r2 Z1 Z2 B1 B2) as (r & Er & Zr & Br & Pr).
    cget; [|apply Nat.le_refl]. cget; [|apply Nat.le_refl].
    cbind (res_translate _ _ _ _ E1) (fun a n => cost_translate of_ m Hm Kf fuel (f_root f) 0 a n Zf Nf); [eassumption|exact D|eassumption|exact D| |].
    - cbind (res_translate _ _ _ _ E2) (fun a n => cost_translate og m Hm Kg fuel (f_root g) 0 a n Zg Ng); [eassumption|exact D0|eassumption|exact D0| |apply Nat.le_refl].
      cbind (op2_res _ _ _ _ _ (Hop r1 r2) Er) (fun a n1 n2 => Hc (length m) r1 r2 a n1 n2 Z1 Z2 B1 B2); [eassumption|exact D1|exact D2|eassumption|exact D1|exact D2| |apply Nat.le_refl].
      eapply cost_canonical; [exact Hm|exact Zr|exact Br|eassumption|exact D3].
    - rewrite !Nat.sub_0_r. pose proof (Mc _ _ _ _ _ _ Lm P1 P2) as X1. pose proof (Mp _ _ _ _ _ _ Lm P1 P2) as X2.
      rewrite <- (trees_of_P f) in *. rewrite <- (trees_of_P g) in *. fold n1 in P1, X1, X2 |- *. fold n2 in P2, X1, X2 |- *.
      assert (Y1 : (2 + 2 * length m) * (length of_ * n1) <= n1 * (k * (2 * k + 2))).
      { replace (n1 * (k * (2 * k + 2))) with ((2 + 2 * k) * (k * n1)) by lia. apply Nat.mul_le_mono; [lia|]. apply Nat.mul_le_mono; lia. }
      assert (Y2 : (2 + 2 * length m) * (length og * n2) <= n2 * (k * (2 * k + 2))).
      { replace (n2 * (k * (2 * k + 2))) with ((2 + 2 * k) * (k * n2)) by lia. apply Nat.mul_le_mono; [lia|]. apply Nat.mul_le_mono; lia. }
      assert (Y3 : P r * (length m * (length m + 2)) <= pop k n1 n2 * (k * (k + 2))) by (apply mul_le4; lia). lia.
  Qed.
  Lemma pbound_intersect L t1 t2 r : zwf 0 t1 -> zwf 0 t2 -> pbound L t1 -> pbound L t2 -> intersect t1 t2 = Some r -> pbound L r.
  Proof.
    intros Z1 Z2 B1 B2 E s x Hs Hx. destruct (intersect_spec t1 t2 0 Z1 Z2) as (r' & E' & _ & _ & Sr). assert (r' = r) by congruence. subst r'.
    destruct (Sr s Hs) as [[A _]|[A _]]; [exact (B1 s x A Hx)|exact (B2 s x A Hx)].
  Qed.

  Definition join_c (L a b : nat) := 2 * (L * a + L * b).
  Lemma join_c_mono L L' a a' b b' : L <= L' -> a <= a' -> b <= b' -> join_c L a b <= join_c L' a' b'.
  Proof. intros. unfold join_c. pose proof (Nat.mul_le_mono L L' a a' ltac:(lia) ltac:(lia)). pose proof (Nat.mul_le_mono L L' b b' ltac:(lia) ltac:(lia)). lia. Qed.
  Lemma join_c_sum k n1 n2 : 2 + (n1 + n2) * (k * (2 * k + 2)) + join_c k n1 n2 + (n1 + n2) * (k * (k + 2)) = 2 + (n1 + n2) * (k * (3 * k + 6)).
  Proof. unfold join_c. lia. Qed.
  Lemma cost_funion fuel h (f g : forest T) a mf mg : Canon f -> Canon g -> AInv a -> fden a mf f -> fden a mg g ->
    wpn (join_cost f g) a (m_binop m_union fuel h mf mg).
  Proof.
    intros Cf Cg I0 Df Dg. unfold join_cost. rewrite <- join_c_sum.
    apply (cost_binop union m_union fuel h f g join_c (fun _ a b => a + b)); auto.
    - intros t1 t2. apply m_union_spec.
    - intros L t1 t2 Z1 Z2 B1 B2. destruct (union_spec t1 t2 0 Z1 Z2) as (r & Er & Zr & Sr). exists r. split; [exact Er|]. split; [exact Zr|]. split; [exact (pbound_union L t1 t2 r B1 B2 Sr)|exact (P_union _ _ _ Er)].
    - intros L t1 t2 a' m n Z1 Z2 B1 B2 I1 D1 D2. eapply wpn_le; [|apply (cost_union fuel 0 t1 t2); eauto]. unfold join_c. pose proof (W_bound0 _ _ Z1 B1). pose proof (W_bound0 _ _ Z2 B2). lia.
    - intros. apply join_c_mono; auto.
    - intros. lia.
  Qed.
  Lemma cost_fintersect fuel h (f g : forest T) a mf mg : Canon f -> Canon g -> AInv a -> fden a mf f -> fden a mg g ->
    wpn (join_cost f g) a (m_binop m_intersect fuel h mf mg).
  Proof.
    intros Cf Cg I0 Df Dg. unfold join_cost. rewrite <- join_c_sum.
    apply (cost_binop intersect m_intersect fuel h f g join_c (fun _ a b => a + b)); auto.
    - intros t1 t2. apply m_intersect_spec.
    - intros L t1 t2 Z1 Z2 B1 B2. destruct (intersect_spec t1 t2 0 Z1 Z2) as (r & Er & Zr & _). exists r. split; [exact Er|]. split; [exact Zr|]. split; [exact (pbound_intersect L t1 t2 r Z1 Z2 B1 B2 Er)|exact (P_intersect _ _ _ Er)].
    - intros L t1 t2 a' m n Z1 Z2 B1 B2 I1 D1 D2. eapply wpn_le; [|apply (cost_intersect fuel 0 t1 t2); eauto]. unfold join_c. pose proof (W_bound0 _ _ Z1 B1). pose proof (W_bound0 _ _ Z2 B2). lia.
    - intros. apply join_c_mono; auto.
    - intros. lia.
  Qed.
  Lemma cost_fproduct fuel h (f g : forest T) a mf mg : Canon f -> Canon g -> AInv a -> fden a mf f -> fden a mg g ->
    wpn (product_cost f g) a (m_binop m_product fuel h mf mg).
  Proof.
    intros Cf Cg I0 Df Dg. unfold product_cost.
    eapply wpn_le; [|apply (cost_binop product m_product fuel h f g (fun L a b => (4 * L + 2) * (L * (a * b))) (fun _ a b => a * b)); auto].
    - cbv zeta. set (k := different _). set (n1 := length (trees_of f)). set (n2 := length (trees_of g)). clearbody k n1 n2.
      set (N := n1 * n2). clearbody N. assert (X : N * (k * (5 * k + 4)) = (4 * k + 2) * (k * N) + N * (k * (k + 2))) by lia. lia.
    - intros t1 t2. apply m_product_spec.
    - intros L t1 t2 Z1 Z2 B1 B2. destruct (product_spec t1 t2 0 Z1 Z2) as (r & Er & Zr & Sr & _). exists r. split; [exact Er|]. split; [exact Zr|]. split; [exact (pbound_join L t1 t2 r B1 B2 Sr)|exact (P_product _ _ _ Er)].
    - intros L t1 t2 a' m n Z1 Z2 B1 B2 I1 D1 D2. pose proof (cost_product L fuel 0 t1 t2 a' m n Z1 Z2 B1 B2 I1 D1 D2) as X. rewrite Nat.sub_0_r in X. exact X.
    - intros L L' x x' b b' HL Ha Hb. apply Nat.mul_le_mono; [lia|]. apply Nat.mul_le_mono; [lia|]. apply Nat.mul_le_mono; lia.
    - intros L L' x x' b b' HL Ha Hb. apply Nat.mul_le_mono; lia.
  Qed.

  (** ** calls and scripts *)
  Lemma wpn_map {A B} (g : A -> B) (p : zprog A) : forall n a, wpn n a p -> wpn n a (pbind p (fun r => Ret (g r))).
  Proof.
    induction p as [r|i k IH|x k IH|x k IH| |]; intros n a Hw; try exact I; cbn in *.
    - intros a' E I1 y Ey. apply IH; auto.
    - intros a' E I1. apply IH; auto.
    - intros a' E I1. destruct (Hw a' E I1) as (m & Hm & Hl). exists m. split; [apply IH; exact Hm|exact Hl].
  Qed.
  Lemma cost_call fuel c (fs : list (forest T)) a ms : Forall Reach fs -> AInv a -> rden a ms fs -> wpn (f_cost fs c) a (m_call fuel ms c).
  Proof.
    intros R I0 D. pose proof (fun i => rden_reg a ms fs i I0 D) as Dr. assert (Cr : forall i, Canon (reg fs i)) by (intros; apply Reach_Canon, reg_reach; auto).
    destruct c as [|h items|h rows|h items|h i j|h i j|h i j|h i e|h i e|h i es|h i es|i|i|i|h i|i j]; cbn [m_call f_cost]; unfold mnew.
    - exact I.
    - apply wpn_map, cost_unit; auto.
    - apply wpn_map, cost_many; auto.
    - apply wpn_map, cost_unique; auto.
    - apply wpn_map, cost_funion; auto.
    - apply wpn_map, cost_fintersect; auto.
    - apply wpn_map, cost_fproduct; auto.
    - apply wpn_map, cost_fsubset; auto.
    - apply wpn_map, cost_fsubset_not; auto.
    - apply wpn_map, cost_fsubset_all; auto.
    - apply wpn_map, cost_fsubset_none; auto.
    - apply wpn_map. apply (wpn_map (map (get_items (mf_univ (mreg ms i))))), cost_trees.
    - apply wpn_map. apply (wpn_map (@length _)), cost_trees.
    - apply wpn_map. apply (wpn_map (fun ts : list (list nat) => match ts with [] => true | _ => false end)), cost_trees.
    - exact I.
    - exact I.
  Qed.
  Lemma cost_script fuel cs : forall (fs : list (forest T)) a ms, Forall Reach fs -> AInv a -> rden a ms fs ->
    wpn (script_cost run_call f_cost cs fs) a (m_script fuel cs ms).
  Proof.
    induction cs as [|c cs IH]; intros fs a ms R I0 D; [exact I|]. cbn [script_cost m_script].
    destruct (run_call_total c fs R) as (y & Ey & Ry). rewrite Ey. destruct (m_call_spec c fs y Ey) as (F & S1).
    eapply wpn_bind'; [eapply S1; [apply no_tot|exact I0|exact D]|exact (cost_call fuel c fs a ms R I0 D)| |exact I0|apply Nat.le_refl].
    intros a1 x E1 I1 [Dx _]. apply (wpn_map (fun y => (fst y, snd x :: snd y))). apply (IH (fst y)); auto.
  Qed.

  (** ** the pool *)
  Lemma rden_fun a ms (fs gs : list (forest T)) : rden a ms fs -> rden a ms gs -> fs = gs.
  Proof.
    intros D. revert gs. induction D as [|m f ms fs [D1 Q1] D IH]; intros gs E; inversion E as [|m' g ms' gs' [E1 R1] E2]; subst; [reflexivity|].
    f_equal; [|auto]. destruct f as [fr fu], g as [gr gu]. cbn in *. f_equal; [exact (den_fun a _ _ _ D1 E1)|congruence].
  Qed.
  Definition credit (p : pool T) : Prop := exists xs : list (nat * list (forest T)),
    Forall2 (fun x t => wpn (fst x) (p_arena p) (t_prog t) /\ rden (p_arena p) (t_init t) (snd x)) xs (p_threads p) /\
    length (a_nodes (p_arena p)) + list_sum (map fst xs) <= 2 + list_sum (map (fun z => script_cost run_call f_cost (t_script (snd z)) (snd (fst z))) (combine xs (p_threads p))).
  Lemma F2_length {A B} (R : A -> B -> Prop) l m : Forall2 R l m -> length l = length m.
  Proof. induction 1; cbn; auto. Qed.
  Lemma list_sum_app_ l m : list_sum (l ++ m) = list_sum l + list_sum m.
  Proof. unfold list_sum. induction l as [|x l IH]; simpl; lia. Qed.
  Lemma combine_app_ {A B} (l1 l2 : list A) (m1 m2 : list B) : length l1 = length m1 -> combine (l1 ++ l2) (m1 ++ m2) = combine l1 m1 ++ combine l2 m2.
  Proof. revert m1. induction l1 as [|x l IH]; intros [|y m] E; cbn in *; try discriminate; auto. f_equal. apply IH. lia. Qed.
  Lemma credit_ext a a' xs (ts : list (thread T)) : ext a a' ->
    Forall2 (fun (x : nat * list (forest T)) t => wpn (fst x) a (t_prog t) /\ rden a (t_init t) (snd x)) xs ts ->
    Forall2 (fun x t => wpn (fst x) a' (t_prog t) /\ rden a' (t_init t) (snd x)) xs ts.
  Proof. intros E. apply Forall2_impl_. intros x t [A B]. split; [eapply wpn_ext; eauto|eapply rden_ext; eauto]. Qed.
  Lemma credit_reach p : pool_reach p -> credit p.
  Proof.
    induction 1 as [|p q Hp IH Hs].
    - exists []. split; [constructor|]. cbn. lia.
    - pose proof (pool_reach_ok _ Hp) as (I0 & Ht & Hd). destruct IH as (xs & Hx & Hl).
      inversion Hs as [a ts d fuel cs ms Hi|a ts1 ts2 d fuel cs ms pr a' pr' Hpr|a ts d fuel cs ms rs os Hin]; subst; cbn [p_arena p_threads p_done] in *.
      + destruct (pick_regs a d ms Hi Hd) as (fs & D & R).
        exists (xs ++ [(script_cost run_call f_cost cs fs, fs)]). cbn [p_arena p_threads]. split.
        * apply Forall2_app; [exact Hx|]. constructor; [|constructor]. cbn [fst snd t_prog t_init]. split; [apply cost_script; auto|exact D].
        * rewrite combine_app_ by (eapply F2_length; exact Hx). rewrite !map_app, !list_sum_app_. cbn [map combine fst snd t_script list_sum fold_right]. lia.
      + destruct (pool_step_ok _ _ (pool_reach_ok _ Hp) Hs) as (_ & E1). cbn in E1.
        apply Forall2_app_inv_r in Hx. destruct Hx as (xs1 & xs2 & H1 & H2 & ->). inversion H2 as [|x t xs2' ts2' [Hw Dx] H3]; subst. cbn in Hw, Dx.
        destruct (wpn_step pr pr' (fst x) a a' I0 Hw Hpr) as (m & Hm & Hn).
        exists (xs1 ++ (m, snd x) :: xs2'). cbn [p_arena p_threads]. split.
        * apply Forall2_app; [eapply credit_ext; eauto|]. constructor; [|eapply credit_ext; eauto]. cbn [fst snd t_prog t_init]. split; [exact Hm|eapply rden_ext; eauto].
        * rewrite combine_app_ in * by (eapply F2_length; exact H1). rewrite !map_app, !list_sum_app_ in *. cbn [map combine fst snd t_script list_sum fold_right] in *. lia.
      + exists xs. split; [exact Hx|exact Hl].
  Qed.
  Lemma store_bound p (vs : thread T -> list (forest T)) : pool_reach p ->
    (forall t, In t (p_threads p) -> Forall2 (holds p) (t_init t) (vs t)) ->
    length (a_nodes (p_arena p)) <= 2 + list_sum (map (fun t => script_cost run_call f_cost (t_script t) (vs t)) (p_threads p)).
  Proof.
    intros Hp Hv. destruct (credit_reach p Hp) as (xs & Hx & Hl).
    assert (E : map (fun z : (nat * list (forest T)) * thread T => script_cost run_call f_cost (t_script (snd z)) (snd (fst z))) (combine xs (p_threads p))
              = map (fun t => script_cost run_call f_cost (t_script t) (vs t)) (p_threads p)).
    { clear Hl. induction Hx as [|x t xs ts [_ D] Hx IH]; [reflexivity|]. cbn [combine map fst snd]. f_equal.
      - f_equal. eapply rden_fun; [exact D|]. apply Hv. left; reflexivity.
      - apply IH. intros u Hu. apply Hv. right; exact Hu. }
    rewrite E in Hl. lia.
  Qed.

  (** ... and from a moment when every thread has finished *)
  Lemma growth_from p q : pool_reach p -> (forall t, In t (p_threads p) -> exists r, t_prog t = Ret r) -> pool_steps p q ->
    exists ts xs, p_threads q = p_threads p ++ ts /\
      Forall2 (fun (x : nat * list (forest T)) t => wpn (fst x) (p_arena q) (t_prog t) /\ rden (p_arena q) (t_init t) (snd x)) xs ts /\
      length (a_nodes (p_arena q)) + list_sum (map fst xs) <= length (a_nodes (p_arena p)) + list_sum (map (fun z => script_cost run_call f_cost (t_script (snd z)) (snd (fst z))) (combine xs ts)).
  Proof.
    intros Hp Hq Hs. induction Hs as [p|p q r Hpq IH Hs].
    - exists [], []. rewrite app_nil_r. split; [reflexivity|]. split; [constructor|]. cbn. lia.
    - destruct (IH Hp Hq) as (ts & xs & Et & Hx & Hl). clear IH. destruct (pool_steps_ext p q Hp Hpq) as [Rq _]. pose proof (pool_reach_ok _ Rq) as (I0 & Ht & Hd).
      pose proof (pool_step_ok _ _ (pool_reach_ok _ Rq) Hs) as (_ & E1).
      inversion Hs as [a us d fuel cs ms Hi|a us1 us2 d fuel cs ms pr a' pr' Hpr|a us d fuel cs ms rs os Hin]; subst; cbn [p_arena p_threads p_done] in *.
      + destruct (pick_regs a d ms Hi Hd) as (fs & D & R).
        exists (ts ++ [mkT fuel cs ms (m_script fuel cs ms)]), (xs ++ [(script_cost run_call f_cost cs fs, fs)]). split; [rewrite Et, app_assoc; reflexivity|]. split.
        * apply Forall2_app; [exact Hx|]. constructor; [|constructor]. cbn [fst snd t_prog t_init]. split; [apply cost_script; auto|exact D].
        * rewrite combine_app_ by (eapply F2_length; exact Hx). rewrite !map_app, !list_sum_app_. cbn [map combine fst snd t_script list_sum fold_right]. lia.
      + assert (Hc : exists l, us1 = p_threads p ++ l /\ ts = l ++ mkT fuel cs ms pr :: us2).
        { assert (X : forall (l1 l2 m1 m2 : list (thread T)) x, l1 ++ x :: l2 = m1 ++ m2 -> ~ In x m1 -> exists l, l1 = m1 ++ l /\ m2 = l ++ x :: l2).
          { induction l1 as [|y l1 IH]; intros l2 [|z m1] m2 x E N; cbn in E.
            - exists []. auto.
            - injection E as <- E. destruct N; left; reflexivity.
            - exists (y :: l1). split; [reflexivity|]. symmetry. exact E.
            - injection E as <- E. destruct (IH _ _ _ _ E) as (l & -> & ->); [intros Hi; apply N; right; exact Hi|]. exists l. auto. }
          apply (X us1 us2 (p_threads p) ts _ Et). intros Hi. destruct (Hq _ Hi) as (r' & Er). cbn in Er. subst pr. inversion Hpr. }
        destruct Hc as (l & -> & ->). clear Et.
        apply Forall2_app_inv_r in Hx. destruct Hx as (xs1 & xs2 & H1 & H2 & ->). inversion H2 as [|x t xs2' ts2' [Hw Dx] H3]; subst. cbn in Hw, Dx.
        destruct (wpn_step pr pr' (fst x) a a' I0 Hw Hpr) as (m & Hm & Hn).
        exists (l ++ mkT fuel cs ms pr' :: us2), (xs1 ++ (m, snd x) :: xs2'). split; [rewrite <- app_assoc; reflexivity|]. split.
        * apply Forall2_app; [eapply credit_ext; eauto|]. constructor; [|eapply credit_ext; eauto]. cbn [fst snd t_prog t_init]. split; [exact Hm|eapply rden_ext; eauto].
        * rewrite combine_app_ in * by (eapply F2_length; exact H1). rewrite !map_app, !list_sum_app_ in *. cbn [map combine fst snd t_script list_sum fold_right] in *. lia.
      + exists ts, xs. auto.
  Qed.
  Lemma growth_bound p q (vs : thread T -> list (forest T)) : pool_reach p -> (forall t, In t (p_threads p) -> exists r, t_prog t = Ret r) -> pool_steps p q ->
    exists ts, p_threads q = p_threads p ++ ts /\
    ((forall t, In t ts -> Forall2 (holds q) (t_init t) (vs t)) ->
    length (a_nodes (p_arena q)) <= length (a_nodes (p_arena p)) + list_sum (map (fun t => script_cost run_call f_cost (t_script t) (vs t)) ts)).
  Proof.
    intros Hp Hq Hs. destruct (growth_from p q Hp Hq Hs) as (ts & xs & Et & Hx & Hl). exists ts. split; [exact Et|]. intros Hv.
    assert (E : map (fun z : (nat * list (forest T)) * thread T => script_cost run_call f_cost (t_script (snd z)) (snd (fst z))) (combine xs ts)
              = map (fun t => script_cost run_call f_cost (t_script t) (vs t)) ts).
    { clear Hl Et. induction Hx as [|x t xs ts [_ D] Hx IH]; [reflexivity|]. cbn [combine map fst snd]. f_equal.
      - f_equal. eapply rden_fun; [exact D|]. apply Hv. left; reflexivity.
      - apply IH. intros u Hu. apply Hv. right; exact Hu. }
    rewrite E in Hl. lia.
  Qed.
End Calls.
