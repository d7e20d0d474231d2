(** CostL: every pass through a diagram visits every path of it separately. *)
From Coq Require Import List Arith Lia Bool.
From Verif Require Import Base DD Spec BddSpec BddModel BddRun ArenaModel ArenaProofs PoolModel PoolProofs BddProg BddProgProofs BddNode.
From Verif Require Import GrowthSpec GrowthCalls StackModel StackThm StepsModel Steps CostModel Cost.
Import ListNotations.

Section Low.
  Context {I : Type} `{OI : Ord I}.
  Notation nd := (gnode I).
  Definition W {R} (m : nd -> prog I R) (t : dd I) (N : nat) : Prop := forall a n0 n b x, AInv a -> nden a n0 t ->
    runs_in n a (m n0) b (Ret x) -> N <= n /\ AInv b /\ ext a b.
  Lemma W_of {R} (m : nd -> prog I R) t N (Q : arena I -> R -> Prop) :
    (forall a n0, AInv a -> nden a n0 t -> wp false a (m n0) Q) ->
    (forall a n0 n b x, AInv a -> nden a n0 t -> runs_in n a (m n0) b (Ret x) -> N <= n) -> W m t N.
  Proof.
    intros S L a n0 n b x I0 D Hr. split; [eapply L; eassumption|].
    destruct (runs_wp _ false _ _ _ _ I0 (S a n0 I0 D) (runs_in_runs _ _ _ _ _ Hr)) as (I1 & E1 & _). auto.
  Qed.
  Lemma run_get a i t n b x : AInv a -> den a i t -> runs_in n a (get_node i) b (Ret x) -> 1 <= n /\ AInv b /\ ext a b /\ nden b x t.
  Proof.
    intros I0 D Hr. split; [exact (get_one _ _ _ _ _ Hr)|].
    destruct (runs_wp _ false _ _ _ _ I0 (wp_get_node false a _ _ D) (runs_in_runs _ _ _ _ _ Hr)) as (I1 & E1 & W1).
    specialize (W1 b (ext_refl b) I1). auto.
  Qed.
  Lemma walk4 {R S} (m : nd -> prog I R) (f : nd -> nd -> R -> R -> prog I S) l h tl th Nl Nh a n b r :
    W m tl Nl -> W m th Nh -> AInv a -> den a l tl -> den a h th ->
    runs_in n a (pbind (get_node l) (fun x => pbind (get_node h) (fun y => pbind (m x) (fun u => pbind (m y) (fun v => f x y u v))))) b (Ret r) -> 2 + Nl + Nh <= n.
  Proof.
    intros Wl Wh I0 Dl Dh Hr.
    destruct (runs_in_bind_ret _ _ _ _ _ _ Hr) as (k1 & r1 & x & c1 & -> & R1 & Hr1). destruct (run_get _ _ _ _ _ _ I0 Dl R1) as (P1 & I1 & E1 & D1).
    assert (Dh1 : den c1 h th) by (eapply den_ext; eassumption).
    destruct (runs_in_bind_ret _ _ _ _ _ _ Hr1) as (k2 & r2 & y & c2 & -> & R2 & Hr2). destruct (run_get _ _ _ _ _ _ I1 Dh1 R2) as (P2 & I2 & E2 & D2).
    assert (D1' : nden c2 x tl) by (eapply nden_ext; eassumption).
    destruct (runs_in_bind_ret _ _ _ _ _ _ Hr2) as (k3 & r3 & u & c3 & -> & R3 & Hr3). destruct (Wl _ _ _ _ _ I2 D1' R3) as (P3 & I3 & E3).
    assert (D2' : nden c3 y th) by (eapply nden_ext; eassumption).
    destruct (runs_in_bind_ret _ _ _ _ _ _ Hr3) as (k4 & r4 & v & c4 & -> & R4 & _). destruct (Wh _ _ _ _ _ I3 D2' R4) as (P4 & _). lia.
  Qed.
  Lemma walk2 {R S R'} (m : nd -> prog I R) (g : R -> nd -> prog I R') (f : R -> R' -> prog I S) l h tl th Nl Nh a n b r :
    W m tl Nl -> (forall u, W (g u) th Nh) -> AInv a -> den a l tl -> den a h th ->
    runs_in n a (pbind (get_node l) (fun x => pbind (m x) (fun u => pbind (get_node h) (fun y => pbind (g u y) (fun v => f u v))))) b (Ret r) -> 2 + Nl + Nh <= n.
  Proof.
    intros Wl Wh I0 Dl Dh Hr.
    destruct (runs_in_bind_ret _ _ _ _ _ _ Hr) as (k1 & r1 & x & c1 & -> & R1 & Hr1). destruct (run_get _ _ _ _ _ _ I0 Dl R1) as (P1 & I1 & E1 & D1).
    destruct (runs_in_bind_ret _ _ _ _ _ _ Hr1) as (k3 & r3 & u & c3 & -> & R3 & Hr3). destruct (Wl _ _ _ _ _ I1 D1 R3) as (P3 & I3 & E3).
    assert (Dh3 : den c3 h th) by (eapply den_ext; [eassumption|]; eapply den_ext; eassumption).
    destruct (runs_in_bind_ret _ _ _ _ _ _ Hr3) as (k2 & r2 & y & c2 & -> & R2 & Hr2). destruct (run_get _ _ _ _ _ _ I3 Dh3 R2) as (P2 & I2 & E2 & D2).
    destruct (runs_in_bind_ret _ _ _ _ _ _ Hr2) as (k4 & r4 & v & c4 & -> & R4 & _). destruct (Wh u _ _ _ _ _ I2 D2 R4) as (P4 & _). lia.
  Qed.

  Lemma w_reduce t : forall fuel, W (m_breduce fuel) t (2 * inner t).
  Proof.
    induction t as [c|i l IHl h IHh]; intros fuel; (eapply W_of; [intros a n0 I0 D; apply (m_breduce_spec _ fuel false (fun e => ltac:(discriminate e)) a n0 I0 D)|]); intros a n0 n b x I0 D Hr; [cbn; lia|].
    destruct fuel as [|k]; [discriminate (runs_in_stuck _ _ _ _ Hr)|]. inversion D as [|j il ih tl th Dl Dh]; subst. cbn [m_breduce] in Hr.
    pose proof (walk4 (m_breduce k) (fun _ _ u v => m_collapse i u v) il ih l h _ _ _ _ _ _ (IHl k) (IHh k) I0 Dl Dh Hr). cbn [inner]. lia.
  Qed.
  Lemma w_restrict t x0 s : ~ In x0 (labels t) -> forall fuel, W (fun n => m_brestrict fuel n x0 s) t (2 * inner t).
  Proof.
    induction t as [c|i l IHl h IHh]; intros Nx fuel; (eapply W_of; [intros a n0 I0 D; apply (m_brestrict_spec _ x0 s fuel false (fun e => ltac:(discriminate e)) a n0 I0 D)|]); intros a n0 n b x I0 D Hr; [cbn; lia|].
    destruct fuel as [|k]; [discriminate (runs_in_stuck _ _ _ _ Hr)|]. inversion D as [|j il ih tl th Dl Dh]; subst. cbn [m_brestrict] in Hr.
    assert (Ne : eqb_ i x0 = false). { destruct (eqb_ i x0) eqn:E; [|reflexivity]. apply eqb_true_ in E. subst. destruct Nx. left. reflexivity. } rewrite Ne in Hr.
    assert (Nl : ~ In x0 (labels l)) by (intros J; apply Nx; right; apply in_or_app; left; exact J).
    assert (Nh : ~ In x0 (labels h)) by (intros J; apply Nx; right; apply in_or_app; right; exact J).
    pose proof (walk4 (fun n => m_brestrict k n x0 s) (fun _ _ u v => m_collapse i u v) il ih l h _ _ _ _ _ _ (IHl Nl k) (IHh Nh k) I0 Dl Dh Hr). cbn [inner]. lia.
  Qed.
  Lemma w_count leaf join (f : dd I -> nat) t : (forall b, f (Leaf b) = leaf b) -> (forall i lo hi, f (Branch i lo hi) = join (f lo) (f hi)) ->
    forall fuel, W (m_count leaf join fuel) t (2 * inner t).
  Proof.
    intros F1 F2. induction t as [c|i l IHl h IHh]; intros fuel; (eapply W_of; [intros a n0 I0 D; apply (m_count_spec leaf join f F1 F2 _ fuel false (fun e => ltac:(discriminate e)) a n0 I0 D)|]); intros a n0 n b x I0 D Hr; [cbn; lia|].
    destruct fuel as [|k]; [discriminate (runs_in_stuck _ _ _ _ Hr)|]. inversion D as [|j il ih tl th Dl Dh]; subst. cbn [m_count] in Hr.
    pose proof (walk4 (m_count leaf join k) (fun _ _ u v => Ret (join u v)) il ih l h _ _ _ _ _ _ (IHl k) (IHh k) I0 Dl Dh Hr). cbn [inner]. lia.
  Qed.
  Lemma w_structure t : forall fuel d, W (fun n => m_to_structure fuel n d) t (2 * inner t).
  Proof.
    induction t as [c|i l IHl h IHh]; intros fuel d; (eapply W_of; [intros a n0 I0 D; apply (m_to_structure_spec _ d fuel false (fun e => ltac:(discriminate e)) a n0 I0 D)|]); intros a n0 n b x I0 D Hr; [cbn; lia|].
    destruct fuel as [|k]; [discriminate (runs_in_stuck _ _ _ _ Hr)|]. inversion D as [|j il ih tl th Dl Dh]; subst. cbn [m_to_structure] in Hr.
    pose proof (walk2 (fun n => m_to_structure k n (S d)) (fun _ n => m_to_structure k n (S d)) _ il ih l h _ _ _ _ _ _ (IHl k (S d)) (fun _ => IHh k (S d)) I0 Dl Dh Hr). cbn [inner]. lia.
  Qed.
  Lemma walk2' {R S} (m : nd -> prog I R) (g : R -> nd -> prog I S) l h tl th Nl Nh a n b r :
    W m tl Nl -> (forall u, W (g u) th Nh) -> AInv a -> den a l tl -> den a h th ->
    runs_in n a (pbind (get_node l) (fun x => pbind (m x) (fun u => pbind (get_node h) (fun y => g u y)))) b (Ret r) -> 2 + Nl + Nh <= n.
  Proof.
    intros Wl Wh I0 Dl Dh Hr.
    destruct (runs_in_bind_ret _ _ _ _ _ _ Hr) as (k1 & r1 & x & c1 & -> & R1 & Hr1). destruct (run_get _ _ _ _ _ _ I0 Dl R1) as (P1 & I1 & E1 & D1).
    destruct (runs_in_bind_ret _ _ _ _ _ _ Hr1) as (k3 & r3 & u & c3 & -> & R3 & Hr3). destruct (Wl _ _ _ _ _ I1 D1 R3) as (P3 & I3 & E3).
    assert (Dh3 : den c3 h th) by (eapply den_ext; [eassumption|]; eapply den_ext; eassumption).
    destruct (runs_in_bind_ret _ _ _ _ _ _ Hr3) as (k2 & r2 & y & c2 & -> & R2 & R4). destruct (run_get _ _ _ _ _ _ I3 Dh3 R2) as (P2 & I2 & E2 & D2).
    destruct (Wh u _ _ _ _ _ I2 D2 R4) as (P4 & _). lia.
  Qed.
  Lemma w_content t : forall fuel c d, W (fun n => m_to_content fuel n c d) t (2 * inner t).
  Proof.
    induction t as [e|i l IHl h IHh]; intros fuel c d; (eapply W_of; [intros a n0 I0 D; apply (m_to_content_spec _ c d fuel false (fun e => ltac:(discriminate e)) a n0 I0 D)|]); intros a n0 n b x I0 D Hr; [cbn; lia|].
    destruct fuel as [|k]; [discriminate (runs_in_stuck _ _ _ _ Hr)|]. inversion D as [|j il ih tl th Dl Dh]; subst. cbn [m_to_content] in Hr.
    pose proof (walk2' (fun n => m_to_content k n (map_insert c d i) (S d)) (fun c n => m_to_content k n c (S d)) il ih l h _ _ _ _ _ _ (IHl k _ _) (fun u => IHh k _ _) I0 Dl Dh Hr). cbn [inner]. lia.
  Qed.
  Lemma inner_parity (items : list I) e : inner (parity items e) + 1 = 2 ^ length items.
  Proof. revert e. induction items as [|i l IH]; intros e; [reflexivity|]. cbn [parity inner length]. rewrite Nat.pow_succ_r'. pose proof (IH e). pose proof (IH (negb e)). lia. Qed.
End Low.

From Verif Require Import ZddModel ZddProg ZddProgProofs.
Lemma w_print t : forall fuel, W (m_zprint fuel) t (2 * inner t).
Proof.
  induction t as [c|i l IHl h IHh]; intros fuel; (eapply W_of; [intros a n0 I0 D; apply (m_zprint_spec _ fuel false (fun e => ltac:(discriminate e)) a n0 I0 D)|]); intros a n0 n b x I0 D Hr; [cbn; lia|].
  destruct fuel as [|k]; [discriminate (runs_in_stuck _ _ _ _ Hr)|]. inversion D as [|j il ih tl th Dl Dh]; subst. cbn [m_zprint] in Hr.
  pose proof (walk2 (m_zprint k) (fun _ n => m_zprint k n) _ il ih l h _ _ _ _ _ _ (IHl k) (fun _ => IHh k) I0 Dl Dh Hr). cbn [inner]. lia.
Qed.
Lemma w_inner t : forall fuel a i path n b x, AInv a -> den a i t -> runs_in n a (m_zcomb_inner fuel i path) b (Ret x) -> 1 + 2 * inner t <= n.
Proof.
  induction t as [c|j l IHl h IHh]; intros fuel a i path n b x I0 D Hr; (destruct fuel as [|k]; [discriminate (runs_in_stuck _ _ _ _ Hr)|]); cbn [m_zcomb_inner] in Hr;
    destruct (runs_in_bind_ret _ _ _ _ _ _ Hr) as (k1 & r1 & y & c1 & -> & R1 & Hr1); destruct (run_get _ _ _ _ _ _ I0 D R1) as (P1 & I1 & E1 & D1).
  - cbn. lia.
  - inversion D1 as [|j' il ih tl th Dl Dh]; subst. destruct (runs_in_bind_ret _ _ _ _ _ _ Hr1) as (k2 & r2 & u & c2 & -> & R2 & Hr2).
    pose proof (IHl _ _ _ _ _ _ _ I1 Dl R2) as P2.
    destruct (runs_wp _ false _ _ _ _ I1 (m_zcomb_inner_spec l k false (fun e => ltac:(discriminate e)) c1 il path I1 Dl) (runs_in_runs _ _ _ _ _ R2)) as (I2 & E2 & _).
    destruct (runs_in_bind_ret _ _ _ _ _ _ Hr2) as (k3 & r3 & v & c3 & -> & R3 & _).
    pose proof (IHh _ _ _ _ _ _ _ I2 (den_ext _ _ _ _ E2 Dh) R3) as P3. cbn [inner]. lia.
Qed.
Lemma inner_zparity items last e : 2 ^ length items <= inner (zparity items last e) + 1.
Proof. revert e. induction items as [|i l IH]; intros e; [cbn; lia|]. cbn [zparity inner length]. rewrite Nat.pow_succ_r'. pose proof (IH e). pose proof (IH (negb e)). lia. Qed.
Lemma w_traverse {T} `{Ord T} (u : zuniverse T) t : forall fuel a i n b x, AInv a -> den a i t -> runs_in n a (m_ztraverse fuel u i) b (Ret (Some x)) -> 1 + 2 * inner t <= n.
Proof.
  induction t as [c|j l IHl h IHh]; intros fuel a i n b x I0 D Hr; (destruct fuel as [|k]; [discriminate (runs_in_stuck _ _ _ _ Hr)|]); cbn [m_ztraverse] in Hr;
    destruct (runs_in_bind_ret _ _ _ _ _ _ Hr) as (k1 & r1 & y & c1 & -> & R1 & Hr1); destruct (run_get _ _ _ _ _ _ I0 D R1) as (P1 & I1 & E1 & D1).
  - cbn. lia.
  - inversion D1 as [|j' il ih tl th Dl Dh]; subst.
    destruct (z_get_item u j) as [v|]; [|destruct (runs_in_ret _ _ _ _ _ Hr1) as (_ & E); discriminate E].
    destruct (runs_in_bind_ret _ _ _ _ _ _ Hr1) as (k2 & r2 & lo & c2 & -> & R2 & Hr2).
    destruct lo as [lo|]; [|destruct (runs_in_ret _ _ _ _ _ Hr2) as (_ & E); discriminate E]. pose proof (IHl _ _ _ _ _ _ I1 Dl R2) as P2.
    destruct (runs_wp _ false _ _ _ _ I1 (m_ztraverse_spec u l k false (fun e => ltac:(discriminate e)) c1 il I1 Dl) (runs_in_runs _ _ _ _ _ R2)) as (I2 & E2 & _).
    destruct (runs_in_bind_ret _ _ _ _ _ _ Hr2) as (k3 & r3 & hi & c3 & -> & R3 & Hr3).
    destruct hi as [hi|]; [|destruct (runs_in_ret _ _ _ _ _ Hr3) as (_ & E); discriminate E].
    pose proof (IHh _ _ _ _ _ _ I2 (den_ext _ _ _ _ E2 Dh) R3) as P3. cbn [inner]. lia.
Qed.
