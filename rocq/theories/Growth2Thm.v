(** Growth2Thm: the store of zdd2 grows by at most the cost of the calls made (C94). *)
From Coq Require Import List Arith Lia Bool Permutation Sorted.
From Verif Require Import Base DD Spec Zdd2Model Zdd2Laws ArenaModel ArenaProofs Zdd2Prog Zdd2ProgProofs GrowthSpec Growth2Spec Growth2F Growth2H.
From Verif Require Import Zdd2Thm ConcThm.
Import ListNotations.

(** C94: in every state of every execution the store has at most the two leaves
    and the cost of the scripts of all the threads there have been *)
Lemma C94_store_bound_pf : forall (T : Type) (O : Ord T) (p : pool T) vs, pool_reach p ->
  (forall t, In t (p_threads p) -> Forall2 (holds p) (t_init t) (vs t)) ->
  length (a_nodes (p_arena p)) <= 2 + list_sum (map (fun t => script_cost run_call f_cost (t_script t) (vs t)) (p_threads p)).
Proof. intros T O p vs. apply store_bound. Qed.
(** ... and after any moment [p] when no call is under way, the threads [ts]
    started since then have added at most the cost of their scripts *)
Lemma C94_growth_pf : forall (T : Type) (O : Ord T) (p q : pool T) vs, pool_reach p ->
  (forall t, In t (p_threads p) -> exists r, t_prog t = Ret r) -> pool_steps p q ->
  exists ts, p_threads q = p_threads p ++ ts /\
  ((forall t, In t ts -> Forall2 (holds q) (t_init t) (vs t)) ->
   length (a_nodes (p_arena q)) <= length (a_nodes (p_arena p)) + list_sum (map (fun t => script_cost run_call f_cost (t_script t) (vs t)) ts)).
Proof. intros T O p q vs. apply growth_bound. Qed.
(** C94: the cost of a call that makes a forest, from the number of trees and of
    different items: a union of two forests with [n] trees over [k] items, ... *)
Lemma C94_costs_pf : forall (T : Type) (O : Ord T) (f g : forest T) n1 n2 k,
  f_len f = Some n1 -> f_len g = Some n2 ->
  (forall l : list T, NoDup l -> (forall x, In x l -> exists t, (In t (trees_of f) \/ In t (trees_of g)) /\ In x t) -> length l <= k) ->
  join_cost f g <= 2 + (n1 + n2) * (k * (3 * k + 6)) /\
  product_cost f g <= 2 + (n1 + n2) * (k * (2 * k + 2)) + n1 * n2 * (k * (5 * k + 4)) /\
  filter_cost f <= 2 + n1 * (k * (k + 4)) /\ (forall m, filters_cost f m <= 2 + n1 * (k * (k + 2 + 6 * m))).
Proof.
  intros T O f g n1 n2 k Ef Eg Hk.
  assert (L : forall (h : forest T) n, f_len h = Some n -> length (trees_of h) = n).
  { intros h n E. unfold f_len in E. unfold trees_of, f_trees. destruct (node_trees (f_root h)); cbn in *; [|discriminate]. injection E as <-. apply map_length. }
  apply L in Ef. apply L in Eg.
  assert (D1 : different (trees_of f ++ trees_of g) <= k).
  { apply Hk; [apply once_NoDup|]. intros x Hx. apply (proj1 (once_in _ _)) in Hx. apply in_concat in Hx. destruct Hx as (t & Ht & Hx). exists t. split; [apply in_app_or; exact Ht|exact Hx]. }
  assert (D2 : different (trees_of f) <= k).
  { apply Hk; [apply once_NoDup|]. intros x Hx. apply (proj1 (once_in _ _)) in Hx. apply in_concat in Hx. destruct Hx as (t & Ht & Hx). exists t. auto. }
  unfold join_cost, product_cost, filter_cost, filters_cost. rewrite Ef, Eg.
  split; [|split; [|split]].
  - apply Nat.add_le_mono_l. apply Nat.mul_le_mono_l. apply Nat.mul_le_mono; lia.
  - apply Nat.add_le_mono; [apply Nat.add_le_mono_l|]; apply Nat.mul_le_mono_l; apply Nat.mul_le_mono; lia.
  - apply Nat.add_le_mono_l. apply Nat.mul_le_mono_l. apply Nat.mul_le_mono; lia.
  - intros m. apply Nat.add_le_mono_l. apply Nat.mul_le_mono_l. apply Nat.mul_le_mono; lia.
Qed.

(** Non-vacuity: a thread that makes two forests and their union, and, after it
    has finished, a second one that filters the result *)
Definition g_one : list (call nat) := [CMany ho_id [[1; 2]; [2; 3]]; CUnit ho_id [3]; CUnion ho_id 0 1; CTrees 2].
Definition g_two : list (call nat) := [CUnit ho_id [9]; CProduct ho_id 0 1; CTrees 2].
Definition g_p0 : pool nat := mkP a_new [mkT 30 g_one [] (m_script 30 g_one [])] [].
Lemma g_p0_reach : pool_reach g_p0.
Proof. eapply PR_step; [apply PR_start|]. apply (S_spawn a_new [] [] 30 g_one []). intros x []. Qed.
Example C94_store_bound_example : exists p : pool nat, pool_reach p /\ map t_script (p_threads p) = [g_one] /\
  (forall t, In t (p_threads p) -> Forall2 (holds p) (t_init t) []) /\
  map (fun t => match t_prog t with Ret (r, o) => Some (map mf_root r, o) | _ => None end) (p_threads p) =
    [Some ([6; 3; 7], [ONone; ONone; ONone; OTrees [[2; 3]; [1; 2]; [3]]])] /\
  length (a_nodes (p_arena p)) = 8 /\ script_cost run_call f_cost g_one [] = 160.
Proof.
  destruct (sched g_p0 (repeat 0 198)) as [p|] eqn:E; [|vm_compute in E; discriminate].
  exists p. split; [eapply sched_sound; [apply g_p0_reach|exact E]|].
  assert (X : match sched g_p0 (repeat 0 198) with
    | None => False
    | Some p => map t_script (p_threads p) = [g_one] /\ map t_init (p_threads p) = [[]] /\
      map (fun t => match t_prog t with Ret (r, o) => Some (map mf_root r, o) | _ => None end) (p_threads p) =
        [Some ([6; 3; 7], [ONone; ONone; ONone; OTrees [[2; 3]; [1; 2]; [3]]])] /\
      length (a_nodes (p_arena p)) = 8 end) by (vm_compute; auto).
  rewrite E in X. destruct X as (X1 & X2 & X3 & X4). split; [exact X1|]. split; [|split; [exact X3|split; [exact X4|vm_compute; reflexivity]]].
  intros t Ht. apply (in_map t_init) in Ht. rewrite X2 in Ht. destruct Ht as [<-|[]]. constructor.
Qed.
Example C94_costs_example : exists f g : forest nat, f_many ho_id [[1; 2]; [2; 3]] = Some f /\ f_unit ho_id [3] = Some g /\
  f_len f = Some 2 /\ f_len g = Some 1 /\ trees_of f ++ trees_of g = [[1; 2]; [2; 3]; [3]] /\ different (trees_of f ++ trees_of g) = 3 /\
  join_cost f g = 137 /\ product_cost f g = 188 /\ filter_cost f = 44 /\ filters_cost f 2 = 104.
Proof.
  destruct (f_many ho_id [[1; 2]; [2; 3]]) as [f|] eqn:Ef; [|vm_compute in Ef; discriminate].
  destruct (f_unit ho_id [3]) as [g|] eqn:Eg; [|vm_compute in Eg; discriminate].
  exists f, g. split; [reflexivity|]. split; [reflexivity|]. vm_compute in Ef. injection Ef as <-. vm_compute in Eg. injection Eg as <-. vm_compute. repeat split; reflexivity.
Qed.
Definition g_next (p : pool nat) : pool nat :=
  match p_threads p with
  | mkT _ _ _ (Ret (rs, _)) :: _ => mkP (p_arena p) (p_threads p ++ [mkT 30 g_two [last rs m_empty] (m_script 30 g_two [last rs m_empty])]) (p_done p ++ rs)
  | _ => p
  end.
Definition g_f : forest nat := match f_many ho_id [[2; 3]; [1; 2]; [3]] with Some f => f | None => f_empty end.
Example C94_growth_example : exists (p q : pool nat) t, pool_reach p /\ (forall t, In t (p_threads p) -> exists r, t_prog t = Ret r) /\ pool_steps p q /\
  p_threads q = p_threads p ++ [t] /\ t_script t = g_two /\ Forall2 (holds q) (t_init t) [g_f] /\
  length (a_nodes (p_arena p)) = 8 /\ length (a_nodes (p_arena q)) = 18 /\ script_cost run_call f_cost g_two [g_f] = 452.
Proof.
  destruct (sched g_p0 (repeat 0 198)) as [p|] eqn:E; [|vm_compute in E; discriminate].
  assert (Rp : pool_reach p) by (eapply sched_sound; [apply g_p0_reach|exact E]).
  assert (X : match sched g_p0 (repeat 0 198) with
    | None => False
    | Some p => map (fun t => match t_prog t with Ret (r, o) => Some (map mf_root r, t_script t, t_init t) | _ => None end) (p_threads p) = [Some ([6; 3; 7], g_one, [])] /\
      length (a_nodes (p_arena p)) = 8 /\
      match sched (g_next p) (repeat 1 221) with
      | None => False
      | Some q => length (a_nodes (p_arena q)) = 18
      end end) by (vm_compute; auto).
  rewrite E in X. clear E. destruct X as (X1 & X2 & X3). destruct p as [a ts d]. cbn [p_threads p_arena] in *.
  destruct ts as [|[fu cs fs pr] [|t2 ts]]; [discriminate| |discriminate].
  cbn [map t_prog t_script t_init] in X1. destruct pr as [[rs os]|i k|n k|n k| |]; try discriminate X1. injection X1 as Er -> ->.
  set (p := mkP a [mkT fu g_one [] (Ret (rs, os))] d) in *.
  set (t2 := mkT 30 g_two [last rs m_empty] (m_script 30 g_two [last rs m_empty])).
  assert (En : g_next p = mkP a [mkT fu g_one [] (Ret (rs, os)); t2] (d ++ rs)) by reflexivity.
  assert (Lr : In (last rs m_empty) rs).
  { destruct rs as [|x [|y [|z [|]]]]; try discriminate Er. right. right. left. reflexivity. }
  assert (S1 : pool_steps p (g_next p)).
  { rewrite En. eapply PS_step; [eapply PS_step; [apply PS_refl|]|].
    - apply (S_share a [mkT fu g_one [] (Ret (rs, os))] d fu g_one [] rs os). left. reflexivity.
    - apply (S_spawn a [mkT fu g_one [] (Ret (rs, os))] (d ++ rs) 30 g_two [last rs m_empty]). intros x [<-|[]]. apply in_or_app. right. exact Lr. }
  destruct (sched (g_next p) (repeat 1 221)) as [q|] eqn:Eq; [|destruct X3].
  assert (S2 : pool_steps p q) by (eapply sched_steps; [exact S1|exact Eq]).
  assert (Hq : map t_script (p_threads q) = [g_one; g_two] /\ map t_init (p_threads q) = [[]; [last rs m_empty]]).
  { assert (Y : forall l (p q : pool nat), sched p l = Some q -> map t_script (p_threads q) = map t_script (p_threads p) /\ map t_init (p_threads q) = map t_init (p_threads p)).
    { induction l as [|i l IH]; intros p' q' E'; cbn in E'; [injection E' as <-; auto|]. destruct (sched1 p' i) as [p1|] eqn:E1; [|discriminate].
      destruct (IH _ _ E') as [-> ->]. unfold sched1 in E1. destruct (nth_error (p_threads p') i) as [t|] eqn:Et; [|discriminate].
      destruct (exec1 (p_arena p') (t_prog t)) as [[a' k]|]; [|discriminate]. injection E1 as <-. cbn [p_threads].
      rewrite (nth_split_ _ _ _ Et) at 3 6. rewrite !map_app. cbn [map t_script t_init]. auto. }
    destruct (Y _ _ _ Eq) as [-> ->]. rewrite En. split; reflexivity. }
  destruct (C94_growth_pf nat _ p q (fun _ => []) Rp) as (ts & Et & _); [|exact S2|].
  { intros t [<-|[]]. cbn. eauto. }
  rewrite Et in Hq. cbn [p p_threads app map t_script t_init] in Hq. destruct Hq as [Q1 Q2]. injection Q1 as Q1. injection Q2 as Q2.
  destruct ts as [|t [|]]; try discriminate Q1. cbn [map] in Q1, Q2. injection Q1 as Q1. injection Q2 as Q2.
  exists p, q, t. split; [exact Rp|]. split; [intros u [<-|[]]; cbn; eauto|]. split; [exact S2|]. split; [exact Et|]. split; [exact Q1|].
  split; [|split; [exact X2|split; [exact X3|vm_compute; reflexivity]]].
  rewrite Q2. constructor; [|constructor]. destruct (pool_steps_ext p q Rp S2) as [_ Ex]. apply (fden_ext a); [exact Ex|].
  destruct (C20_isolation_pf nat _ p _ Rp (or_introl eq_refl)) as [_ Is]. cbn [t_prog] in Is. destruct (Is rs os eq_refl) as (fs0 & fs' & _ & D0 & Hr & D).
  cbn [t_init t_script] in D0, Hr. inversion D0; subst fs0.
  assert (Hv : match run_script g_one [] with Some (l, _) => last l f_empty = g_f | None => False end) by (vm_compute; reflexivity).
  rewrite Hr in Hv. rewrite <- Hv. clear -D Lr. unfold holds in D. cbn [p p_arena] in D. revert Lr. induction D as [|m f ms gs D1 D IH]; intros Lr; [destruct Lr|].
  destruct D as [|x f' l gs' D2 D]; [exact D1|]. apply IH. clear. revert x. induction l as [|z l IH]; intros x; [left; reflexivity|]. right. apply IH.
Qed.
