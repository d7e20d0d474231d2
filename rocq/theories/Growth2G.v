(** Growth2G: the filters of forests (see Growth2Proofs.v). *)
From Coq Require Import List Arith Lia Bool Permutation Sorted.
From Verif Require Import Base DD Spec Zdd2Model Zdd2Node Zdd2Node2 Zdd2Univ Zdd2Forest Zdd2Forest2 Zdd2Forest3 Zdd2Laws Zdd2Settle Zdd2Exact2.
From Verif Require Import ArenaModel ArenaProofs Zdd2Prog Zdd2ProgProofs Growth2Proofs Growth2B Growth2C Growth2D Growth2E Growth2F GrowthSpec Growth2Spec.
From Verif Require Import Zdd2Thm ConcThm.
Import ListNotations.

Section Calls.
  Context {T : Type} `{Ord T}.

  Lemma trees_of_tl (f : forest T) : trees_of f = tl_ f.
  Proof. unfold trees_of. rewrite f_trees_tl. reflexivity. Qed.
  Lemma trees_of_P (f : forest T) : length (trees_of f) = P (f_root f).
  Proof. rewrite trees_of_tl. unfold tl_. apply map_length. Qed.
  Lemma canon_pbound (f : forest T) occ : canon f occ -> pbound (length occ) (f_root f).
  Proof. intros C s x Hs Hx. exact (c_known _ _ C s Hs x Hx). Qed.
  Lemma canon_different (f : forest T) occ : canon f occ -> length occ <= different (trees_of f).
  Proof.
    intros C. apply different_keys; [apply (c_ok _ _ C)|]. intros x Hx. rewrite trees_of_tl. exact (proj1 (canon_key f occ x C) Hx).
  Qed.

  Lemma mul_le4 a b c d : a <= b -> c <= d -> a * (c * (c + 2)) <= b * (d * (d + 2)).
  Proof. intros. apply Nat.mul_le_mono; [lia|]. apply Nat.mul_le_mono; lia. Qed.

  (** ** filters *)
  Lemma filter_mono n k k' (c : nat) : k <= k' -> n * (k * (k + c)) <= n * (k' * (k' + c)).
  Proof. intros. apply Nat.mul_le_mono; [lia|]. apply Nat.mul_le_mono; lia. Qed.
  Lemma cost_fsubset fuel h (f : forest T) e a mf : Canon f -> AInv a -> fden a mf f -> wpn (filter_cost f) a (m_subset fuel h mf e).
  Proof.
    intros (occ & C) I0 [D Q]. unfold m_subset. rewrite Q. destruct (get_priority (f_univ f) e) as [p|]; [|exact I].
    pose proof (c_wf _ _ C) as Z. destruct (node_subset_sub (f_root f) 0 p Z) as (r & Er & Zr & Sr).
    cget; [|apply Nat.le_refl].
    cbind (res_subset _ _ _ Er) (fun a m => cost_subset p fuel (f_root f) 0 a m Z); [eassumption|exact D0|eassumption|exact D0| |].
    - rewrite (c_univ _ _ C). eapply (cost_canonical fuel h occ r); [apply (c_ok _ _ C)|exact Zr| |eassumption|exact D1].
      intros s x Hs Hx. exact (canon_pbound _ _ C s x (Sr s Hs) Hx).
    - unfold filter_cost. rewrite trees_of_P. pose proof (W_bound0 _ _ Z (canon_pbound _ _ C)) as Wb. pose proof (P_incl 0 _ _ Zr Sr) as Pb.
      pose proof (filter_mono (P (f_root f)) _ _ 4 (canon_different _ _ C)) as M. pose proof (mul_le4 _ _ (length occ) (length occ) Pb (Nat.le_refl _)).
      set (n := P (f_root f)) in *. set (k := length occ) in *. clearbody n k. assert (X : n * (k * (k + 4)) = n * (k * (k + 2)) + 2 * (k * n)) by lia. lia.
  Qed.
  Lemma cost_fsubset_not fuel h (f : forest T) e a mf : Canon f -> AInv a -> fden a mf f -> wpn (filter_cost f) a (m_subset_not fuel h mf e).
  Proof.
    intros (occ & C) I0 [D Q]. unfold m_subset_not. rewrite Q. destruct (get_priority (f_univ f) e) as [p|]; [|exact I].
    pose proof (c_wf _ _ C) as Z. destruct (node_subset_not_spec (f_root f) p 0 Z) as (r & Er & Zr & Sr').
    assert (Sr : forall s, In s (paths r) -> In s (paths (f_root f))) by (intros s Hs; apply Sr' in Hs; tauto).
    cget; [|apply Nat.le_refl].
    cbind (res_subset_not _ _ _ Er) (fun a m => cost_subset_not p fuel (f_root f) 0 a m Z); [eassumption|exact D0|eassumption|exact D0| |].
    - rewrite (c_univ _ _ C). eapply (cost_canonical fuel h occ r); [apply (c_ok _ _ C)|exact Zr| |eassumption|exact D1].
      intros s x Hs Hx. exact (canon_pbound _ _ C s x (Sr s Hs) Hx).
    - unfold filter_cost. rewrite trees_of_P. pose proof (W_bound0 _ _ Z (canon_pbound _ _ C)) as Wb. pose proof (P_incl 0 _ _ Zr Sr) as Pb.
      pose proof (filter_mono (P (f_root f)) _ _ 4 (canon_different _ _ C)) as M. pose proof (mul_le4 _ _ (length occ) (length occ) Pb (Nat.le_refl _)).
      set (n := P (f_root f)) in *. set (k := length occ) in *. clearbody n k. assert (X : n * (k * (k + 4)) = n * (k * (k + 2)) + 2 * (k * n)) by lia. lia.
  Qed.

  (** folding at least one element leaves only trees there were *)
  Lemma fold_inside (vsub : node -> nat -> option node) t n : zwf n t ->
    (forall e, exists r, vsub t e = Some r /\ zwf n r /\ forall s, In s (paths r) -> In s (paths t)) ->
    forall es, es <> [] -> exists r, foldM (fun acc e => let! s := vsub t e in intersect acc s) es Always = Some r /\ zwf n r /\ forall s, In s (paths r) -> In s (paths t).
  Proof.
    intros Z Hv es He.
    assert (X : forall es acc, zwf n acc -> (forall s, In s (paths acc) -> In s (paths t)) ->
      exists r, foldM (fun acc e => let! s := vsub t e in intersect acc s) es acc = Some r /\ zwf n r /\ forall s, In s (paths r) -> In s (paths t)).
    { induction es0 as [|e es0 IH]; intros acc Za Sa; [exists acc; auto|]. cbn [foldM]. destruct (Hv e) as (s & Es & Zs & Ss). rewrite Es. cbn [bind].
      destruct (intersect_spec acc s n Za Zs) as (r & Er & Zr & _ & Sr). rewrite Er. cbn [bind]. apply IH; [exact Zr|].
      intros x Hx. destruct (Sr x Hx) as [[A _]|[A _]]; auto. }
    destruct es as [|e es]; [congruence|]. cbn [foldM]. destruct (Hv e) as (s & Es & Zs & Ss). rewrite Es. cbn [bind].
    destruct (intersect_spec Always s n I Zs) as (r & Er & Zr & _). rewrite Er. cbn [bind]. apply X; [exact Zr|].
    destruct (within_step n t Always s r I Zs (or_introl eq_refl) Ss Er) as (_ & Hw).
    rewrite intersect_unfold in Er. destruct s as [[|]|j sl sh]; cbn in Er; injection Er as <-; auto.
  Qed.
  Lemma cost_fmany fuel h (f : forest T) es md mfn (fn : node -> list nat -> option node) a mf : Canon f -> AInv a -> fden a mf f ->
    (forall ps, ps <> [] -> exists r, fn (f_root f) ps = Some r /\ zwf 0 r /\ forall s, In s (paths r) -> In s (paths (f_root f))) ->
    (forall ps r, fn (f_root f) ps = Some r -> forall a n, AInv a -> nden a n (f_root f) -> wp false a (mfn fuel n ps) (fun a' m => nden a' m r)) ->
    (forall L ps a n, pbound L (f_root f) -> AInv a -> nden a n (f_root f) -> wpn (length ps * (6 * (L * P (f_root f)))) a (mfn fuel n ps)) ->
    wpn (filters_cost f (length es)) a (m_subset_many fuel h mf es md mfn).
  Proof.
    intros (occ & C) I0 [D Q] Hv Hr Hc. unfold m_subset_many. rewrite Q. destruct es as [|e es]; [exact I|].
    set (ps := get_priorities (f_univ f) (e :: es)). destruct (Nat.eqb_spec (length (e :: es)) (length ps)) as [El|]; [|exact I]. cbn [negb].
    destruct (Hv ps) as (r & Er & Zr & Sr); [intros X; rewrite X in El; discriminate|]. pose proof (c_wf _ _ C) as Z.
    cget; [|apply Nat.le_refl].
    cbind (Hr ps r Er) (fun a n => Hc (length occ) ps a n (canon_pbound _ _ C)); [eassumption|exact D0|eassumption|exact D0| |].
    - rewrite (c_univ _ _ C). eapply (cost_canonical fuel h occ r); [apply (c_ok _ _ C)|exact Zr| |eassumption|exact D1].
      intros s x Hs Hx. exact (canon_pbound _ _ C s x (Sr s Hs) Hx).
    - unfold filters_cost. rewrite trees_of_P, El. pose proof (P_incl 0 _ _ Zr Sr) as Pb.
      rewrite <- Nat.add_assoc. pose proof (filter_mono (P (f_root f)) _ _ (2 + 6 * length ps) (canon_different _ _ C)) as M. pose proof (mul_le4 _ _ (length occ) (length occ) Pb (Nat.le_refl _)).
      set (n := P (f_root f)) in *. set (k := length occ) in *. set (m := length ps) in *. clearbody n k m.
      assert (X : n * (k * (k + (2 + 6 * m))) = n * (k * (k + 2)) + m * (6 * (k * n))) by lia. lia.
  Qed.
  Lemma res_all t es r : node_subset_all t es = Some r -> forall fuel a n, AInv a -> nden a n t -> wp false a (m_node_subset_all fuel n es) (fun a' m => nden a' m r).
  Proof. intros E. destruct (m_node_subset_all_spec _ _ _ E) as (F & S1). intros. apply S1; auto using no_tot. Qed.
  Lemma res_none t es r : node_subset_none t es = Some r -> forall fuel a n, AInv a -> nden a n t -> wp false a (m_node_subset_none fuel n es) (fun a' m => nden a' m r).
  Proof. intros E. destruct (m_node_subset_none_spec _ _ _ E) as (F & S1). intros. apply S1; auto using no_tot. Qed.
  Lemma cost_fsubset_all fuel h (f : forest T) es md a mf : Canon f -> AInv a -> fden a mf f ->
    wpn (filters_cost f (length es)) a (m_subset_many fuel h mf es md m_node_subset_all).
  Proof.
    intros C I0 D. pose proof C as (occ & C'). pose proof (c_wf _ _ C') as Z. apply (cost_fmany fuel h f es md m_node_subset_all node_subset_all); auto.
    - intros ps Hp. apply (fold_inside node_subset (f_root f) 0 Z); [|exact Hp]. intros e. apply node_subset_sub; auto.
    - intros ps r Er a' n. apply res_all; auto.
    - intros L ps a' n B I1 D1. eapply cost_subset_all; eauto.
  Qed.
  Lemma cost_fsubset_none fuel h (f : forest T) es md a mf : Canon f -> AInv a -> fden a mf f ->
    wpn (filters_cost f (length es)) a (m_subset_many fuel h mf es md m_node_subset_none).
  Proof.
    intros C I0 D. pose proof C as (occ & C'). pose proof (c_wf _ _ C') as Z. apply (cost_fmany fuel h f es md m_node_subset_none node_subset_none); auto.
    - intros ps Hp. apply (fold_inside node_subset_not (f_root f) 0 Z); [|exact Hp]. intros e.
      destruct (node_subset_not_spec (f_root f) e 0 Z) as (r & Er & Zr & Sr). exists r. split; [exact Er|]. split; [exact Zr|]. intros s Hs. apply Sr in Hs. tauto.
    - intros ps r Er a' n. apply res_none; auto.
    - intros L ps a' n B I1 D1. eapply cost_subset_none; eauto.
  Qed.
End Calls.
