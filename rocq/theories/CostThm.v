(** Properties_Cost.v: C105, how many accesses to the store the walks of diagrams make, over StepsModel.v and CostModel.v *)
From Coq Require Import List Arith Lia Bool.
From Verif Require Import Base DD Spec Zdd2Model ZddModel ZddProofs ZddSpec BddSpec BddModel BddRun ArenaModel ArenaProofs PoolModel PoolProofs.
From Verif Require Import ZddProg ZddProgProofs BddProg BddProgProofs Conc2Thm GrowthSpec Growth2Spec StackModel StackThm StackZModel StackZdd StackZThm StackBModel StackB StackBThm.
From Verif Require Import Zdd2Prog Zdd2Thm ConcThm Growth2Spec StackForest StepsModel Steps StepsF StepsZ StepsB StepsThm CostModel Cost CostF CostL.
Import ListNotations.

Lemma zcost_runs {T : Type} {O : Ord T} (p : zpool T) (ms : list (mztree T)) (ts : list (ztree T)) (c : zcall T) w d :
  zreach p -> Forall2 (zholds p) ms ts -> zwalks c = Some w -> need d ts c ->
  forall fuel, d <= fuel -> forall n b q, runs_in n (gp_arena p) (m_zcall fuel ms c) b q ->
  n <= w * (6 * 2 ^ d) /\ q <> OutOfFuel /\ q <> Panic /\ returned_or_can_step b q.
Proof.
  intros Hp Hh W N fuel Hf. destruct (z_call_total ts c) as (y & Ey).
  destruct (depth_zcall c ts y d d true Ey N (fun _ => Nat.le_refl d)) as (L & SL).
  destruct (gpool_reach_ok m_zcall z_call zden zden_ext z_call_total m_zcall_refines p Hp) as (I0 & _).
  specialize (SL L (fun _ => Nat.le_refl L) (gp_arena p) ms I0 Hh).
  assert (E : zs_call d L ms c = m_zcall d ms c) by (destruct c; try discriminate W; reflexivity). rewrite E in SL.
  exact (bounded (fun f => m_zcall f ms c) d (w * (6 * 2 ^ d)) _ (lez_call ms c) (cz_call c ts w d ms W N) (gp_arena p) I0 SL fuel Hf).
Qed.
Lemma bcost_runs {I F : Type} {OI : Ord I} {OF : Ord F} (p : bpool I F) (ms : list (mval I F)) (vs : list (bval I F)) (c : bdcall I F) w d :
  breach p -> Forall2 (bholds p) ms vs -> bwalks c = Some w -> bneed d vs c ->
  forall fuel, d <= fuel -> forall n b q, runs_in n (gp_arena p) (m_bcall fuel ms c) b q ->
  n <= w * (6 * 2 ^ d) /\ q <> OutOfFuel /\ q <> Panic /\ returned_or_can_step b q.
Proof.
  intros Hp Hh W N fuel Hf. destruct (b_vcall_total vs c) as (y & Ey).
  destruct (depth_bcall c vs y d d true Ey N (fun _ => Nat.le_refl d)) as (L & SL).
  destruct (gpool_reach_ok m_bcall b_vcall bden bden_ext b_vcall_total m_bcall_refines p Hp) as (I0 & _).
  specialize (SL L (fun _ => Nat.le_refl L) (gp_arena p) ms I0 Hh).
  assert (E : bs_call d L ms c = m_bcall d ms c) by (destruct c; try discriminate W; reflexivity). rewrite E in SL.
  exact (bounded (fun f => m_bcall f ms c) d (w * (6 * 2 ^ d)) _ (leb_call ms c) (cb_call c w d ms W) (gp_arena p) I0 SL fuel Hf).
Qed.

(** C105.  Whatever is stored and whatever other threads store meanwhile, union, intersection and product of zdd trees
    make at most 6 * 2^(1 + levels of both together) accesses, recursive combinations, [traverse] and serialize at
    most 6 * 2^(1 + levels of the tree), and [unique_tree] and [hyper_tree] at most twice 6 * 2^(1 + levels) for every
    item or combination. *)
Lemma C105_zdd_pf : forall (T : Type) (O : Ord T) (p : zpool T) (ms : list (mztree T)) (ts : list (ztree T)) (c : zcall T) w,
  zreach p -> Forall2 (zholds p) ms ts -> zwalks c = Some w ->
  forall fuel, zcall_depth ts c <= fuel -> forall n b q, runs_in n (gp_arena p) (m_zcall fuel ms c) b q ->
  n <= w * (6 * 2 ^ zcall_depth ts c) /\ q <> OutOfFuel /\ q <> Panic /\ returned_or_can_step b q.
Proof. intros T O p ms ts c w Hp Hh W. exact (zcost_runs p ms ts c w _ Hp Hh W (need_call ts c)). Qed.

(** C105.  For trees over one universe built from combinations without repeated items: at most 6 * 2^(1 + items). *)
Lemma C105_zdd_items_pf : forall (T : Type) (O : Ord T) (p : zpool T) (ms : list (mztree T)) (ts : list (ztree T)) (items : list T) (c : zcall T) w,
  zreach p -> Forall2 (zholds p) ms ts -> zwalks c = Some w -> zplain items ts c ->
  forall fuel, S (length (once items)) <= fuel -> forall n b q, runs_in n (gp_arena p) (m_zcall fuel ms c) b q ->
  n <= w * (6 * 2 ^ S (length (once items))) /\ q <> OutOfFuel /\ q <> Panic /\ returned_or_can_step b q.
Proof. intros T O p ms ts items c w Hp Hh W Z. exact (zcost_runs p ms ts c w _ Hp Hh W (need_plain items ts c Z)). Qed.

(** C105.  [unit], [unique] and [many] of zdd2 forests make at most 5 * 3^(3 + 2 * different items) accesses for every
    item given, every row and once more. *)
Lemma C105_forest_pf : forall (T : Type) (O : Ord T) (p : pool T) (ms : list (mforest T)) (fs : list (forest T)) (c : call T) w,
  pool_reach p -> Forall2 (holds p) ms fs -> Forall Reach fs -> fmade c = Some w ->
  forall fuel, call_depth fs c <= fuel -> forall n b q, runs_in n (p_arena p) (m_call fuel ms c) b q ->
  n <= w * (5 * 3 ^ call_depth fs c) /\ q <> OutOfFuel /\ q <> Panic /\ returned_or_can_step b q.
Proof.
  intros T O p ms fs c w Hp Hh R W fuel Hf. destruct (run_call_total c fs R) as (y & Ey & _). set (d := call_depth fs c) in *.
  destruct (depth_call c fs y d true R Ey (fun _ => Nat.le_refl d)) as (L & SL). destruct (pool_reach_ok p Hp) as (I0 & _).
  specialize (SL L (fun _ => Nat.le_refl L) (p_arena p) ms I0 Hh).
  assert (E : s_call d L ms c = m_call d ms c) by (destruct c; try discriminate W; reflexivity). rewrite E in SL.
  refine (bounded (fun f => m_call f ms c) d (w * (5 * 3 ^ d)) _ (lef_call ms c) (cf_call c w d ms W _) (p_arena p) I0 SL fuel Hf).
  unfold d, call_depth. lia.
Qed.

(** C105.  The same for bowtie: [&] and [|] make at most 6 * 2^(1 + levels of both together) accesses, [reduce] and
    [restrict] at most 6 * 2^(1 + levels), [^] three times, serialize twice and the counts four times as many. *)
Lemma C105_bowtie_pf : forall (I F : Type) (OI : Ord I) (OF : Ord F) (p : bpool I F) (ms : list (mval I F)) (vs : list (bval I F)) (c : bdcall I F) w,
  breach p -> Forall2 (bholds p) ms vs -> bwalks c = Some w ->
  forall fuel, bcall_depth vs c <= fuel -> forall n b q, runs_in n (gp_arena p) (m_bcall fuel ms c) b q ->
  n <= w * (6 * 2 ^ bcall_depth vs c) /\ q <> OutOfFuel /\ q <> Panic /\ returned_or_can_step b q.
Proof. intros I F OI OF p ms vs c w Hp Hh W. exact (bcost_runs p ms vs c w _ Hp Hh W (bneed_call vs c)). Qed.

(** C105.  For diagrams in the order of the items, with only these items: at most 6 * 2^(1 + items). *)
Lemma C105_bowtie_items_pf : forall (I F : Type) (OI : Ord I) (OF : Ord F) (p : bpool I F) (ms : list (mval I F)) (vs : list (bval I F)) (items : list I) (c : bdcall I F) w,
  breach p -> Forall2 (bholds p) ms vs -> bwalks c = Some w -> bplain items vs c ->
  forall fuel, S (length (once items)) <= fuel -> forall n b q, runs_in n (gp_arena p) (m_bcall fuel ms c) b q ->
  n <= w * (6 * 2 ^ S (length (once items))) /\ q <> OutOfFuel /\ q <> Panic /\ returned_or_can_step b q.
Proof. intros I F OI OF p ms vs items c w Hp Hh W Z. exact (bcost_runs p ms vs c w _ Hp Hh W (bneed_plain items vs c Z)). Qed.

(** C105.  That it is exponential is not the fault of the proof: the parity of [n] items has a diagram of at most
    2 * n + 2 nodes and [n] levels, and in every reachable state every run of [&] or [|] of two such diagrams that
    returns has made at least 4 * (2^n - 1) accesses: what was computed for a pair of nodes once is computed again each time
    the pair is met. *)
Lemma C105_worst_pf : forall (I F : Type) (OI : Ord I) (OF : Ord F) (items : list I) (e1 e2 : bool)
    (p : bpool I F) (ms : list (mval I F)) (vs : list (bval I F)) (o : bop) i j,
  breach p -> Forall2 (bholds p) ms vs -> o <> BXor ->
  breg vs i = VNode (parity items e1) -> breg vs j = VNode (parity items e2) ->
  dag_size (parity items e1) <= 2 * length items + 2 /\ dag_size (parity items e2) <= 2 * length items + 2 /\
  height (parity items e1) = length items /\ height (parity items e2) = length items /\
  forall fuel n b x, runs_in n (gp_arena p) (m_bcall fuel ms (BDOp o i j)) b (Ret x) -> 4 * 2 ^ length items <= n + 4.
Proof.
  intros I F OI OF items e1 e2 p ms vs o i j Hp Hh No Ei Ej.
  split; [apply parity_small|]. split; [apply parity_small|]. split; [apply parity_height|]. split; [apply parity_height|].
  intros fuel n b x Hr. destruct (gpool_reach_ok m_bcall b_vcall bden bden_ext b_vcall_total m_bcall_refines p Hp) as (I0 & _).
  assert (Di : nden (gp_arena p) (mval_node (mbreg ms i)) (parity items e1)).
  { pose proof (bden_node _ _ _ (bgden_reg _ _ _ i Hh)) as D. rewrite Ei in D. exact D. }
  assert (Dj : nden (gp_arena p) (mval_node (mbreg ms j)) (parity items e2)).
  { pose proof (bden_node _ _ _ (bgden_reg _ _ _ j Hh)) as D. rewrite Ej in D. exact D. }
  cbn [m_bcall] in Hr. destruct (runs_in_bind_ret _ _ _ _ _ _ Hr) as (n1 & n2 & y & c & -> & R1 & _).
  assert (L : 4 * 2 ^ length items <= n1 + 4).
  { destruct o; [| |destruct (No eq_refl)]; unfold m_op in R1.
    - first [exact (lower_and items e1 e2 _ _ _ _ _ _ _ I0 Di Dj R1)|exact (lower_or items e1 e2 _ _ _ _ _ _ _ I0 Di Dj R1)].
    - first [exact (lower_and items e1 e2 _ _ _ _ _ _ _ I0 Di Dj R1)|exact (lower_or items e1 e2 _ _ _ _ _ _ _ I0 Di Dj R1)]. }
  lia.
Qed.

(** C105.  Every pass through a diagram visits each of its paths separately, shared nodes once for every path to them:
    whatever the diagram, [reduce], and [restrict] to an item it does not have, make at least two accesses for every
    branch of the diagram unfolded into a tree, serialize twice and the counts four times as many.  Unfolded, the parity
    of [n] items has 2^n - 1 branches. *)
Lemma C105_every_path_pf : forall (I F : Type) (OI : Ord I) (OF : Ord F) (p : bpool I F) (ms : list (mval I F)) (vs : list (bval I F)) (c : bdcall I F),
  breach p -> Forall2 (bholds p) ms vs ->
  (forall i x s, c = BDRestrict i x s -> ~ In x (labels (val_node (breg vs i)))) ->
  forall fuel n b x, runs_in n (gp_arena p) (m_bcall fuel ms c) b (Ret x) -> bpasses c * (2 * inner (bwalked vs c)) <= n.
Proof.
  intros I F OI OF p ms vs c Hp Hh Nr fuel n b x Hr. destruct (gpool_reach_ok m_bcall b_vcall bden bden_ext b_vcall_total m_bcall_refines p Hp) as (I0 & _).
  assert (DN : forall i, nden (gp_arena p) (mval_node (mbreg ms i)) (val_node (breg vs i))).
  { intros i. exact (bden_node _ _ _ (bgden_reg _ _ _ i Hh)). }
  assert (DC : forall i, nden (gp_arena p) (mc_root (mval_clo (mbreg ms i))) (c_root (val_clo (breg vs i)))).
  { intros i. destruct (bden_clo _ _ _ (bgden_reg _ _ _ i Hh)) as (_ & _ & D). exact D. }
  destruct c; cbn [bpasses bwalked]; try lia; cbn [m_bcall] in Hr; cbv zeta in Hr.
  - specialize (DC i). destruct (runs_in_bind_ret _ _ _ _ _ _ Hr) as (k1 & r1 & y1 & c1 & -> & R1 & Hr1).
    destruct (w_count _ _ node_count _ (fun _ => eq_refl) (fun _ _ _ => eq_refl) fuel _ _ _ _ _ I0 DC R1) as (L1 & I1 & E1).
    assert (D1 := nden_ext _ _ _ _ E1 DC). destruct (runs_in_bind_ret _ _ _ _ _ _ Hr1) as (k2 & r2 & y2 & c2 & -> & R2 & Hr2).
    destruct (w_count _ _ leaf_count _ (fun _ => eq_refl) (fun _ _ _ => eq_refl) fuel _ _ _ _ _ I1 D1 R2) as (L2 & I2 & E2).
    assert (D2 := nden_ext _ _ _ _ E2 D1). destruct (runs_in_bind_ret _ _ _ _ _ _ Hr2) as (k3 & r3 & y3 & c3 & -> & R3 & Hr3).
    destruct (w_count _ _ outfit_count _ (fun _ => eq_refl) (fun _ _ _ => eq_refl) fuel _ _ _ _ _ I2 D2 R3) as (L3 & I3 & E3).
    assert (D3 := nden_ext _ _ _ _ E3 D2). destruct (runs_in_bind_ret _ _ _ _ _ _ Hr3) as (k4 & r4 & y4 & c4 & -> & R4 & _).
    destruct (w_count _ _ depth _ (fun _ => eq_refl) (fun _ _ _ => eq_refl) fuel _ _ _ _ _ I3 D3 R4) as (L4 & _). lia.
  - specialize (DC i). destruct (runs_in_bind_ret _ _ _ _ _ _ Hr) as (k1 & r1 & y1 & c1 & -> & R1 & Hr1).
    destruct (w_structure _ fuel 0 _ _ _ _ _ I0 DC R1) as (L1 & I1 & E1).
    assert (D1 := nden_ext _ _ _ _ E1 DC). destruct (runs_in_bind_ret _ _ _ _ _ _ Hr1) as (k2 & r2 & y2 & c2 & -> & R2 & _).
    destruct (w_content _ fuel [] 0 _ _ _ _ _ I1 D1 R2) as (L2 & _). lia.
  - destruct (runs_in_bind_ret _ _ _ _ _ _ Hr) as (k1 & r1 & y1 & c1 & -> & R1 & _).
    destruct (w_reduce _ fuel _ _ _ _ _ I0 (DN i) R1) as (L1 & _). lia.
  - destruct (runs_in_bind_ret _ _ _ _ _ _ Hr) as (k1 & r1 & y1 & c1 & -> & R1 & _).
    destruct (w_restrict _ item selected (Nr i item selected eq_refl) fuel _ _ _ _ _ I0 (DN i) R1) as (L1 & _). lia.
Qed.
Lemma C105_paths_of_parity_pf : forall (I : Type) (items : list I) (even : bool), inner (parity items even) + 1 = 2 ^ length items.
Proof. intros I items even. apply inner_parity. Qed.

(** C105.  The same in zdd: the recursive combinations and serialize of a tree make at least one access and two for
    every branch of the tree with nothing shared, at least 2^n - 1 for the combinations of an even or odd number of
    [n + 1] items. *)
Lemma C105_every_path_zdd_pf : forall (T : Type) (O : Ord T) (p : zpool T) (ms : list (mztree T)) (ts : list (ztree T)) (c : zcall T) i,
  zreach p -> Forall2 (zholds p) ms ts -> In c [ZCCombinationsRec i; ZCSerialize i] ->
  forall fuel n b x, runs_in n (gp_arena p) (m_zcall fuel ms c) b (Ret x) -> 1 + 2 * inner (zt_root (zreg ts i)) <= n.
Proof.
  intros T O p ms ts c i Hp Hh Hc fuel n b x Hr. destruct (gpool_reach_ok m_zcall z_call zden zden_ext z_call_total m_zcall_refines p Hp) as (I0 & _).
  destruct (zgden_reg _ _ _ i I0 Hh) as (Di & _). destruct Hc as [<-|[<-|[]]]; cbn [m_zcall] in Hr.
  - unfold m_zcombinations_recursive, m_zcomb_recursive in Hr. destruct (runs_in_bind_ret _ _ _ _ _ _ Hr) as (k1 & r1 & y1 & c1 & -> & R1 & _).
    destruct (runs_in_bind_ret _ _ _ _ _ _ R1) as (k2 & r2 & y2 & c2 & -> & R2 & _). destruct (runs_in_bind_ret _ _ _ _ _ _ R2) as (k3 & r3 & y3 & c3 & -> & R3 & _).
    pose proof (w_inner _ _ _ _ _ _ _ _ I0 Di R3). lia.
  - destruct (runs_in_bind_ret _ _ _ _ _ _ Hr) as (k1 & r1 & y1 & c1 & -> & R1 & Hr1). destruct (run_get _ _ _ _ _ _ I0 Di R1) as (P1 & I1 & E1 & D1).
    destruct (runs_in_bind_ret _ _ _ _ _ _ Hr1) as (k2 & r2 & y2 & c2 & -> & R2 & _).
    destruct (w_print _ fuel _ _ _ _ _ I1 D1 R2) as (P2 & _). lia.
Qed.
(** C105.  ... and so does a [traverse] that finds the item of every branch. *)
Lemma C105_every_path_traverse_pf : forall (T : Type) (O : Ord T) (p : zpool T) (ms : list (mztree T)) (ts : list (ztree T)) i,
  zreach p -> Forall2 (zholds p) ms ts ->
  forall fuel n b ms' d, runs_in n (gp_arena p) (m_zcall fuel ms (ZCTraverse i)) b (Ret (ms', ZOTree (Some d))) -> 1 + 2 * inner (zt_root (zreg ts i)) <= n.
Proof.
  intros T O p ms ts i Hp Hh fuel n b ms' d Hr. destruct (gpool_reach_ok m_zcall z_call zden zden_ext z_call_total m_zcall_refines p Hp) as (I0 & _).
  destruct (zgden_reg _ _ _ i I0 Hh) as (Di & _). cbn [m_zcall] in Hr. destruct (runs_in_bind_ret _ _ _ _ _ _ Hr) as (k1 & r1 & y1 & c1 & -> & R1 & Hr1).
  destruct (runs_in_ret _ _ _ _ _ Hr1) as (-> & E). injection E as _ <-. pose proof (w_traverse _ _ _ _ _ _ _ _ I0 Di R1). lia.
Qed.
Lemma C105_paths_of_zparity_pf : forall (items : list nat) (last : nat) (even : bool), 2 ^ length items <= inner (zparity items last even) + 1.
Proof. apply inner_zparity. Qed.

(** C105.  Nor is it in zdd: the combinations of an even number, or of an odd number, of [n + 1] items have a tree of at
    most 2 * n + 3 nodes, and in every reachable state every run of the union, the intersection or the product of the two
    trees that returns has made at least 4 * (2^n - 1) accesses. *)
Lemma C105_worst_zdd_pf : forall (T : Type) (O : Ord T) (items : list nat) (last : nat) (even : bool) (u v : zuniverse T)
    (p : zpool T) (ms : list (mztree T)) (ts : list (ztree T)) (c : zcall T) i j,
  zreach p -> Forall2 (zholds p) ms ts -> In c [ZCUnion i j; ZCIntersect i j; ZCProduct i j] ->
  zreg ts i = mkZT (zparity items last even) u -> zreg ts j = mkZT (zparity items last (negb even)) v ->
  dag_size (zt_root (zreg ts i)) <= 2 * length items + 3 /\ dag_size (zt_root (zreg ts j)) <= 2 * length items + 3 /\
  forall fuel n b x, runs_in n (gp_arena p) (m_zcall fuel ms c) b (Ret x) -> 4 * 2 ^ length items <= n + 4.
Proof.
  intros T O items last even u v p ms ts c i j Hp Hh Hc Ei Ej. rewrite Ei, Ej. cbn [zt_root].
  split; [apply zparity_small|]. split; [apply zparity_small|].
  intros fuel n b x Hr. destruct (gpool_reach_ok m_zcall z_call zden zden_ext z_call_total m_zcall_refines p Hp) as (I0 & _).
  destruct (zgden_reg _ _ _ i I0 Hh) as (Di & _). destruct (zgden_reg _ _ _ j I0 Hh) as (Dj & _). rewrite Ei in Di. rewrite Ej in Dj. cbn [zt_root] in Di, Dj.
  assert (X : exists op m, In (op, m) [(zunion, m_zunion); (zintersect, m_zintersect); (zproduct, m_zproduct)] /\
    m_zcall fuel ms c = mznew (m_zop m fuel (mzreg ms i) (mzreg ms j)) ms).
  { destruct Hc as [<-|[<-|[<-|[]]]]; do 2 eexists; (split; [|reflexivity]); cbn; auto. }
  destruct X as (op & m & J & E). rewrite E in Hr. unfold mznew, m_zop in Hr.
  destruct (runs_in_bind_ret _ _ _ _ _ _ Hr) as (n1 & r1 & y & c1 & -> & Hr1 & _). clear Hr.
  destruct (runs_in_bind_ret _ _ _ _ _ _ Hr1) as (k1 & r2 & a1 & c2 & -> & R1 & Hr2). clear Hr1.
  destruct (runs_wp _ false _ _ _ _ I0 (wp_get_node false _ _ _ Di) (runs_in_runs _ _ _ _ _ R1)) as (I1 & E1 & W1). specialize (W1 c2 (ext_refl c2) I1). cbv beta in W1.
  destruct (runs_in_bind_ret _ _ _ _ _ _ Hr2) as (k2 & r3 & a2 & c3 & -> & R2 & Hr3). clear Hr2.
  assert (Dj' : den c2 (mz_root (mzreg ms j)) (zparity items last (negb even))) by (eapply den_ext; eassumption).
  destruct (runs_wp _ false _ _ _ _ I1 (wp_get_node false _ _ _ Dj') (runs_in_runs _ _ _ _ _ R2)) as (I2 & E2 & W2). specialize (W2 c3 (ext_refl c3) I2). cbv beta in W2.
  assert (W1' : nden c3 a1 (zparity items last even)) by (eapply nden_ext; eassumption).
  destruct (runs_in_bind_ret _ _ _ _ _ _ Hr3) as (k3 & r4 & a3 & c4 & -> & R3 & _). clear Hr3.
  pose proof (zlower_of op m J items last even fuel c3 a1 a2 k3 c4 a3 I2 W1' W2 R3). lia.
Qed.

Definition ct_script : list (bdcall nat nat) :=
  [BDLeaf true; BDLeaf false; BDBranch 5 0 1; BDBranch 5 1 0; BDBranch 4 2 3; BDBranch 4 3 2; BDBranch 3 4 5; BDBranch 3 5 4;
   BDBranch 2 6 7; BDBranch 2 7 6; BDBranch 1 8 9; BDBranch 1 9 8].
Definition ct_state : bpool nat nat := gsched (repeat 0 100) (gspawn m_bcall 40 ct_script (mkGP a_new [] [])).
Definition ct_ms : list (mval nat nat) := match gp_threads ct_state with [t] => match gt_prog t with Ret (ms, _) => ms | _ => [] end | _ => [] end.
Definition ct_vs : list (bval nat nat) := match v_script b_vcall ct_script [] with Some y => fst y | None => [] end.
Lemma ct_reached : breach ct_state /\ Forall2 (bholds ct_state) ct_ms ct_vs.
Proof.
  assert (Hp : breach ct_state) by (apply gsched_sound, gspawn_sound; constructor). split; [exact Hp|].
  unfold ct_ms. destruct (gp_threads ct_state) as [|t l] eqn:E; [vm_compute in E; discriminate|].
  assert (X : match gp_threads ct_state with
    | [t] => gt_init t = [] /\ gt_script t = ct_script /\ match gt_prog t with Ret _ => True | _ => False end
    | _ => False end) by (vm_compute; auto).
  rewrite E in X. destruct l as [|t2 l]; [|destruct X]. destruct X as (X1 & X2 & X3).
  assert (It : In t (gp_threads ct_state)) by (rewrite E; left; reflexivity).
  destruct (C59_bowtie_isolation_pf nat nat _ _ ct_state t Hp It) as (_ & W).
  destruct (gt_prog t) as [[ms os]| | | | |]; try destruct X3.
  destruct (W ms os eq_refl) as (vs & vs' & V1 & V2 & V3). rewrite X1 in V1. inversion V1; subst vs.
  rewrite X2 in V2. unfold ct_vs. rewrite V2. exact V3.
Qed.

Definition cz_script : list (zcall nat) :=
  [ZCHyper [1; 2; 3; 4] [[]; [1; 2]; [1; 3]; [1; 4]; [2; 3]; [2; 4]; [3; 4]; [1; 2; 3; 4]];
   ZCHyper [1; 2; 3; 4] [[1]; [2]; [3]; [4]; [1; 2; 3]; [1; 2; 4]; [1; 3; 4]; [2; 3; 4]]].
Definition cz_state : zpool nat := gsched (repeat 0 600) (gspawn m_zcall 40 cz_script (mkGP a_new [] [])).
Definition cz_ms : list (mztree nat) := match gp_threads cz_state with [t] => match gt_prog t with Ret (ms, _) => ms | _ => [] end | _ => [] end.
Definition cz_ts : list (ztree nat) := match v_script z_call cz_script [] with Some y => fst y | None => [] end.
Lemma cz_reached : zreach cz_state /\ Forall2 (zholds cz_state) cz_ms cz_ts.
Proof.
  assert (Hp : zreach cz_state) by (apply gsched_sound, gspawn_sound; constructor). split; [exact Hp|].
  unfold cz_ms. destruct (gp_threads cz_state) as [|t l] eqn:E; [vm_compute in E; discriminate|].
  assert (X : match gp_threads cz_state with
    | [t] => gt_init t = [] /\ gt_script t = cz_script /\ match gt_prog t with Ret _ => True | _ => False end
    | _ => False end) by (vm_compute; auto).
  rewrite E in X. destruct l as [|t2 l]; [|destruct X]. destruct X as (X1 & X2 & X3).
  assert (It : In t (gp_threads cz_state)) by (rewrite E; left; reflexivity).
  destruct (C59_zdd_isolation_pf nat _ cz_state t Hp It) as (_ & W).
  destruct (gt_prog t) as [[ms os]| | | | |]; try destruct X3.
  destruct (W ms os eq_refl) as (vs & vs' & V1 & V2 & V3). rewrite X1 in V1. inversion V1; subst vs.
  rewrite X2 in V2. unfold cz_ts. rewrite V2. exact V3.
Qed.

Lemma counted_with {L} `{Ord L} {R} n (a : arena L) (p : prog L R) (f : R -> bool) k : steps_of n a p = k ->
  match snd (go n a p) with Ret x => f x | _ => false end = true -> exists b x, runs_in k a p b (Ret x) /\ f x = true.
Proof.
  intros E V. pose proof (steps_runs_in n 0 a p a p (runs_in_now _ _)) as Hr. rewrite E in Hr. cbn [plus] in Hr.
  destruct (go n a p) as [b q]. cbn [fst snd] in *. destruct q; try discriminate V. eauto.
Qed.

(** the parity of five items, ten nodes: [even & odd] makes exactly 4 * (2^5 - 1) accesses (of 6 * 2^6 allowed) in a
    reachable state, as do [reduce] and [restrict] of one (at least 2 * 31); the union of two trees over four items twenty-three (of 6 * 2^5), of the even and the odd
    combinations of four items seventy-seven (at least 4 * (2^3 - 1)) *)
Example C105_example :
  (exists (p : bpool nat nat) ms vs, breach p /\ Forall2 (bholds p) ms vs /\
     breg vs 10 = VNode (parity [1; 2; 3; 4; 5] true) /\ breg vs 11 = VNode (parity [1; 2; 3; 4; 5] false) /\
     bwalks (BDOp (I := nat) (F := nat) BAnd 10 11) = Some 1 /\ bcall_depth vs (BDOp BAnd 10 11) = 11 /\
     bplain [1; 2; 3; 4; 5] vs (BDOp BAnd 10 11) /\
     (exists b x, runs_in 124 (gp_arena p) (m_bcall 40 ms (BDOp BAnd 10 11)) b (Ret x)) /\
     inner (bwalked vs (BDReduce 10)) = 31 /\ ~ In 9 (labels (val_node (breg vs 10))) /\
     (exists b x, runs_in 124 (gp_arena p) (m_bcall 40 ms (BDReduce 10)) b (Ret x)) /\
     exists b x, runs_in 124 (gp_arena p) (m_bcall 40 ms (BDRestrict 10 9 true)) b (Ret x)) /\
  (exists (p : zpool nat) ms ts, zreach p /\ Forall2 (zholds p) ms ts /\ zplain [1; 2; 3; 4] ts (ZCUnion 0 1) /\
     (exists b x, runs_in 23 (gp_arena p) (m_zcall 40 ms (ZCUnion 0 1)) b (Ret x)) /\
     zplain [5; 6; 7] ts (ZCHyper [5; 6; 7] [[5; 6]; [7]; [6; 7; 5]]) /\
     exists b x, runs_in 35 (gp_arena p) (m_zcall 40 ms (ZCHyper [5; 6; 7] [[5; 6]; [7]; [6; 7; 5]])) b (Ret x)) /\
  (exists (p : zpool nat) ms ts, zreach p /\ Forall2 (zholds p) ms ts /\
     zreg ts 0 = mkZT (zparity [0; 1; 2] 3 true) (zu_from [1; 2; 3; 4]) /\ zreg ts 1 = mkZT (zparity [0; 1; 2] 3 false) (zu_from [1; 2; 3; 4]) /\
     (exists b x, runs_in 77 (gp_arena p) (m_zcall 40 ms (ZCUnion 0 1)) b (Ret x)) /\
     inner (zt_root (zreg ts 0)) = 11 /\ (exists b x, runs_in 23 (gp_arena p) (m_zcall 40 ms (ZCSerialize 0)) b (Ret x)) /\
     (exists b x, runs_in 23 (gp_arena p) (m_zcall 40 ms (ZCCombinationsRec 0)) b (Ret x)) /\
     exists b ms' d, runs_in 23 (gp_arena p) (m_zcall 40 ms (ZCTraverse 0)) b (Ret (ms', ZOTree (Some d)))) /\
  (exists (p : pool nat) ms fs, pool_reach p /\ Forall2 (holds p) ms fs /\ Forall Reach fs /\
     fmade (CMany ho_id [[5; 6]; [7]; [6; 7; 5]]) = Some 10 /\ call_depth fs (CMany ho_id [[5; 6]; [7]; [6; 7; 5]]) = 9 /\
     exists b x, runs_in 92 (p_arena p) (m_call 40 ms (CMany ho_id [[5; 6]; [7]; [6; 7; 5]])) b (Ret x)).
Proof.
  split; [|split; [|split]].
  - destruct ct_reached as (Hp & Hh). exists ct_state, ct_ms, ct_vs. split; [exact Hp|]. split; [exact Hh|]. clear.
    split; [vm_compute; reflexivity|]. split; [vm_compute; reflexivity|]. split; [reflexivity|]. split; [vm_compute; reflexivity|].
    split; [|split; [apply (counted 3000); vm_compute; reflexivity|split; [vm_compute; reflexivity|split]]].
    2:{ assert (E : existsb (Nat.eqb 9) (labels (val_node (breg ct_vs 10))) = false) by (vm_compute; reflexivity). intros J.
        assert (X : existsb (Nat.eqb 9) (labels (val_node (breg ct_vs 10))) = true) by (apply existsb_exists; exists 9; split; [exact J|apply Nat.eqb_refl]).
        rewrite X in E. discriminate E. }
    2:{ split; apply (counted 3000); vm_compute; reflexivity. }
    assert (O : forall items t, forallb (fun x => existsb (Nat.eqb x) items) (labels t) = true -> bordered t -> over items t).
    { intros items t J B. split; [exact B|]. intros x Hx. rewrite forallb_forall in J. specialize (J x Hx).
      apply existsb_exists in J. destruct J as (y & Hy & E). apply Nat.eqb_eq in E. subst y. exact Hy. }
    assert (B : forall t, bord t = true -> bordered t).
    { induction t as [b|i l IHl h IHh]; intros E; [constructor|]. cbn [bord] in E. apply andb_prop in E. destruct E as (E & Eh).
      apply andb_prop in E. destruct E as (E & El). cbn. split; [|auto]. intros j J. rewrite forallb_forall in E.
      apply Nat.compare_lt_iff, Nat.ltb_lt, E, in_or_app. exact J. }
    split; (apply O; [vm_compute; reflexivity|apply B; vm_compute; reflexivity]).
  - destruct stz_reached as (Hp' & Hh').
    exists stz_state, stz_ms, stz_ts. split; [exact Hp'|]. split; [exact Hh'|]. clear.
    split; [|split; [apply (counted 3000); vm_compute; reflexivity|split; [|apply (counted 3000); vm_compute; reflexivity]]].
    2:{ intros c J. cbn in J. destruct J as [<-|[<-|[<-|[]]]]; (split; [repeat constructor; cbn; intuition discriminate|intros x; cbn; tauto]). }
    assert (Q : forall i, i <= 1 -> ZReach (@NoDup nat) (zu_from [1; 2; 3; 4]) (zreg stz_ts i)).
    { intros [|[|i]] L; [| |lia].
      - replace (zreg stz_ts 0) with (z_hyper_tree (zu_from [1; 2; 3; 4]) [[1; 2; 3]; [2; 4]; [3]]) by (vm_compute; reflexivity).
        apply ZR_hyper. intros c J. cbn in J. destruct J as [<-|[<-|[<-|[]]]]; repeat constructor; cbn; intuition discriminate.
      - replace (zreg stz_ts 1) with (z_hyper_tree (zu_from [1; 2; 3; 4]) [[1; 4]; [2; 3]]) by (vm_compute; reflexivity).
        apply ZR_hyper. intros c J. cbn in J. destruct J as [<-|[<-|[]]]; repeat constructor; cbn; intuition discriminate. }
    split; apply Q; lia.
  - destruct cz_reached as (Hp & Hh). exists cz_state, cz_ms, cz_ts. split; [exact Hp|]. split; [exact Hh|]. clear.
    split; [vm_compute; reflexivity|]. split; [vm_compute; reflexivity|]. split; [apply (counted 3000); vm_compute; reflexivity|].
    split; [vm_compute; reflexivity|]. split; [apply (counted 3000); vm_compute; reflexivity|]. split; [apply (counted 3000); vm_compute; reflexivity|].
    destruct (counted_with 3000 (gp_arena cz_state) (m_zcall 40 cz_ms (ZCTraverse 0)) (fun x => match snd x with ZOTree (Some _) => true | _ => false end) 23) as (b & (ms' & o) & Hr & Eo); [vm_compute; reflexivity|vm_compute; reflexivity|].
    destruct o as [|l|l|[d|]|e|e]; try discriminate Eo. exists b, ms', d. exact Hr.
  - destruct st_reached as (p & Hp & Hh & R & Ea). exists p, st_ms, st_fs. rewrite Ea. split; [exact Hp|]. split; [exact Hh|]. split; [exact R|]. clear.
    split; [reflexivity|]. split; [reflexivity|]. apply (counted 3000); vm_compute; reflexivity.
Qed.
