(** LoadThm: threads that serialize, load and print zdd2 forests over the shared
    node arena, data that [Serialize] did not write included (C83). *)
From Coq Require Import List Arith NArith Lia Bool Permutation Sorted.
From Verif Require Import Base DD Spec Zdd2Model Zdd2Node Zdd2Node2 Zdd2Univ Zdd2Forest Zdd2Forest2 Zdd2Forest3 Zdd2Laws Zdd2Thm.
From Verif Require Import ParserModel ParserSpec ParserProofs ParserThm.
From Verif Require Import ArenaModel ArenaProofs PoolModel PoolProofs PanicProofs Zdd2Prog Zdd2ProgProofs ConcThm LoadModel LoadProofs.
Import ListNotations.
Open Scope nat_scope.

(** the value a handle stands for in the arena of a state: the diagram its root
    id stands for, and its universe *)
Definition lholds {T} (p : lpool T) (m : mforest T) (f : forest T) : Prop :=
  den (gp_arena p) (mf_root m) (f_root f) /\ mf_univ m = f_univ f.
Definition llater {T} `{Ord T} : lpool T -> lpool T -> Prop := gpool_steps m_lcall.
(** a call that must panic on the forests [fs]: a binary operation on a forest with
    a label that is no index of its occurrence map, or [{:?}] of such a forest *)
Definition must_panic {T} (fs : list (forest T)) (c : lcall T) : Prop :=
  match c with
  | LBase (CUnion _ i j) | LBase (CIntersect _ i j) | LBase (CProduct _ i j) =>
      ~ (indexed (reg fs i) /\ indexed (reg fs j))
  | LDebug _ i => ~ indexed (reg fs i)
  | _ => False
  end.
(** data that [Serialize] wrote, the entries of the map in any order *)
Definition written {T} `{Ord T} (d : list N * list (T * nat)) : Prop :=
  exists g, Reach g /\ fits (f_root g) /\ fst d = fst (f_serialize g) /\ Permutation (snd d) (snd (f_serialize g)).
Definition loads_written {T} `{Ord T} (c : lcall T) : Prop :=
  match c with LDeserialize _ d => written d | _ => True end.

Section LoadPool.
  Context {T : Type} `{OT : Ord T}.
  Implicit Types f g : forest T.

  Lemma fden_fun a (m : mforest T) f g : fden a m f -> fden a m g -> f = g.
  Proof.
    intros [A B] [C D]. pose proof (den_fun a _ _ _ A C) as X. destruct f as [r u], g as [r' u']. simpl in *. congruence.
  Qed.
  Lemma fden_inj a (m n : mforest T) f : AInv a -> fden a m f -> fden a n f -> m = n.
  Proof.
    intros I0 [A B] [C D]. pose proof (den_inj a _ _ _ I0 A C) as X. destruct m as [r u], n as [r' u']. simpl in *. congruence.
  Qed.
  Lemma l_refines : forall c (vs : list (forest T)), Forall origin vs ->
    exists F, forall fuel tot, suffices F fuel tot -> forall a ms, AInv a -> gden fden a ms vs ->
    wpp tot (l_call vs c = None) a (m_lcall fuel ms c) (outcome fden (l_call vs c)).
  Proof. exact m_lcall_refines. Qed.
  Definition l_ok (p : lpool T) : lreach p -> ppool_ok m_lcall l_call fden origin p :=
    ppool_reach_ok m_lcall l_call fden origin fden_ext l_call_keeps l_refines p.

  Lemma indexed_dec f : indexed f \/ ~ indexed f.
  Proof.
    unfold indexed. assert (X : forall l n, (forall p, In p l -> p < n) \/ ~ (forall p : nat, In p l -> p < n)).
    { induction l as [|x l IH]; intros n; [left; intros p []|].
      destruct (IH n) as [A|A]; [|right; intros B; apply A; intros; apply B; right; auto].
      destruct (lt_dec x n) as [L|L]; [left; intros p [<-|I0]; auto|right; intros B; apply L, B; left; auto]. }
    apply X.
  Qed.
  Lemma binop_iff op h f g : loadable f -> loadable g ->
    (forall a b, zwf 0 a -> zwf 0 b -> exists r, op a b = Some r) ->
    (f_binop op h f g = None <-> ~ (indexed f /\ indexed g)).
  Proof.
    intros (o1 & K1 & U1 & W1) (o2 & K2 & U2 & W2) Htot. split.
    - intros E (I1 & I2). destruct (binop_safe op h f g o1 o2 Htot K1 U1 W1 I1 K2 U2 W2 I2) as (r & Er & _). congruence.
    - intros X. destruct (f_binop op h f g) as [r|] eqn:E; [|reflexivity]. destruct X. exact (binop_indexed op h f g o1 o2 r K1 U1 K2 U2 E).
  Qed.
  Lemma call_panics_iff fs c : Forall origin fs -> (l_call fs c = None <-> must_panic fs c).
  Proof.
    intros Hf. pose proof (fun i => reg_origin fs i Hf) as Rg.
    assert (N0 : forall (o : option (forest T)) (P : Prop), (o = None <-> P) ->
       ((let! x := new o fs in Some (fst x, LOBase (snd x))) = None <-> P)).
    { intros [f|] P X; rewrite <- X; split; intros Y; try discriminate; reflexivity. }
    assert (NB : forall c0 : call T, is_binary c0 = false ->
       ((let! x := run_call fs c0 in Some (fst x, LOBase (snd x))) = None <-> False)).
    { intros c0 B. destruct (proj2 (run_call_origin c0 fs Hf) B) as (y & ->). split; [discriminate|intros []]. }
    destruct c as [c|i|h d|show i]; cbn [l_call must_panic].
    - destruct c; try (apply NB; reflexivity); cbn [run_call]; apply N0; apply binop_iff; try (apply origin_loadable; auto).
      + apply zunion_total. + apply zintersect_total. + apply zproduct_total.
    - split; [discriminate|intros []].
    - destruct (f_deserialize h d); split; try discriminate; intros [].
    - destruct (origin_loadable _ (Rg i)) as (o & K & U & W). pose proof (debug_indexed show (reg fs i) o K U) as X.
      destruct (f_debug show (reg fs i)) as [s|]; cbn [bind]; split; intros Y; try discriminate; try reflexivity.
      + destruct Y. apply X. eauto.
      + intros Z. apply X in Z. destruct Z as (s & Z). discriminate.
  Qed.
  Lemma script_panics_iff cs : forall fs, Forall origin fs ->
    (v_script l_call cs fs = None <->
     exists cs1 c cs2 gs os, cs = cs1 ++ c :: cs2 /\ v_script l_call cs1 fs = Some (gs, os) /\ must_panic gs c).
  Proof.
    induction cs as [|c cs IH]; intros fs Hf.
    - split; [discriminate|]. intros ([|? ?] & c & cs2 & gs & os & E & _); discriminate E.
    - cbn [v_script]. destruct (l_call fs c) as [x|] eqn:E; cbn [bind].
      + specialize (IH (fst x) (l_call_keeps fs c x Hf E)). split.
        * intros Y. destruct (v_script l_call cs (fst x)) as [z|]; [discriminate|]. destruct (proj1 IH eq_refl) as (cs1 & c' & cs2 & gs & os & -> & E1 & M).
          exists (c :: cs1), c', cs2, gs, (snd x :: os). split; [reflexivity|]. cbn [v_script]. rewrite E. cbn [bind]. rewrite E1. auto.
        * intros ([|c0 cs1] & c' & cs2 & gs & os & E0 & E1 & M).
          { injection E0 as -> ->. cbn [v_script] in E1. injection E1 as <- <-. apply (call_panics_iff fs c' Hf) in M. congruence. }
          { injection E0 as -> ->. cbn [v_script] in E1. rewrite E in E1. cbn [bind] in E1.
            destruct (v_script l_call cs1 (fst x)) as [z|] eqn:E2; [|discriminate]. cbn [bind] in E1. injection E1 as <- <-.
            rewrite (proj2 IH); [reflexivity|]. exists cs1, c', cs2, (fst z), (snd z). destruct z; auto. }
      + split; [|reflexivity]. intros _. exists [], c, cs, fs, []. split; [reflexivity|]. split; [reflexivity|]. apply (call_panics_iff fs c Hf); auto.
  Qed.

  (** written data gives a reachable forest *)
  Lemma written_loads h d : written d -> exists g, f_deserialize h d = Some g /\ Reach g.
  Proof.
    intros (g & R & Fi & E & P). exists g. split; [|exact R]. destruct d as [text entries]. exact (C22_forest_round_trip_pf T OT h g text entries R Fi E P).
  Qed.
  Lemma l_call_written fs c : Forall Reach fs -> loads_written c -> exists y, l_call fs c = Some y /\ Forall Reach (fst y).
  Proof.
    intros Hf Hc. destruct c as [c|i|h d|show i]; cbn [l_call loads_written] in *.
    - destruct (run_call_total c fs Hf) as (y & -> & R). eexists; split; [reflexivity|exact R].
    - eexists; split; [reflexivity|exact Hf].
    - destruct (written_loads h d Hc) as (g & -> & R). eexists; split; [reflexivity|]. simpl. apply Forall_app. auto.
    - destruct (C67_debug_total_pf T OT show (reg fs i) (reg_reach fs i Hf)) as (s & ->). eexists; split; [reflexivity|exact Hf].
  Qed.
  Lemma script_written cs : forall fs, Forall Reach fs -> Forall loads_written cs ->
    exists y, v_script l_call cs fs = Some y /\ Forall Reach (fst y).
  Proof.
    induction cs as [|c cs IH]; intros fs Hf Hc; cbn [v_script]; [eexists; split; [reflexivity|exact Hf]|].
    inversion Hc; subst. destruct (l_call_written fs c Hf) as (x & -> & R); auto. cbn [bind].
    destruct (IH (fst x) R) as (y & -> & R2); auto. cbn [bind]. eexists; split; [reflexivity|exact R2].
  Qed.

  Definition reach_handle (a : arena nat) (m : mforest T) : Prop := exists f, Reach f /\ fden a m f.
  Lemma reach_handle_ext a b m : ext a b -> reach_handle a m -> reach_handle b m.
  Proof. intros E (f & R & D). exists f. split; auto. eapply fden_ext; eauto. Qed.
  Lemma reach_handles a ms : Forall (reach_handle a) ms -> exists fs, Forall2 (fden a) ms fs /\ Forall Reach fs.
  Proof.
    intros X. induction X as [|m ms (f & R & D) X (fs & A & B)]; [exists []; split; constructor|]. exists (f :: fs). split; constructor; auto.
  Qed.
  Lemma written_pool_ok (p : lpool T) : lreach p -> (forall t, In t (gp_threads p) -> Forall loads_written (gt_script t)) ->
    Forall (fun t => Forall (reach_handle (gp_arena p)) (gt_init t)) (gp_threads p) /\ Forall (reach_handle (gp_arena p)) (gp_done p).
  Proof.
    intros Hp. induction Hp as [|p q Hp IH Hs]; intros Hw; [split; constructor|].
    pose proof (ppool_step_ok m_lcall l_call fden origin fden_ext l_call_keeps l_refines p q (l_ok p Hp) Hs) as [_ He].
    inversion Hs as [a ts d fuel cs ms Hi|a ts1 ts2 d fuel cs ms pr a' pr' Hq|a ts d fuel cs ms rs os Hin]; subst; simpl in *.
    - destruct IH as [A B]; [intros t I0; apply Hw; apply in_or_app; auto|]. split; [|exact B].
      apply Forall_app. split; [exact A|]. constructor; [|constructor]. simpl. rewrite Forall_forall in B |- *. auto.
    - destruct IH as [A B].
      { intros t I0. apply in_app_or in I0. destruct I0 as [I0|[<-|I0]].
        - apply Hw. apply in_or_app; auto.
        - apply (Hw (mkGT fuel cs ms pr')). apply in_or_app. right. left. reflexivity.
        - apply Hw. apply in_or_app. right. right. auto. }
      assert (X : forall ms0, Forall (reach_handle a) ms0 -> Forall (reach_handle a') ms0)
        by (intros ms0; apply Forall_impl; intros m; apply reach_handle_ext; exact He).
      split; [|auto]. apply Forall_app in A. destruct A as [A1 A2]. inversion A2; subst. apply Forall_app.
      split; [|constructor]; simpl; auto; (eapply Forall_impl; [|eassumption]); simpl; auto.
    - destruct IH as [A B]; [exact Hw|]. split; [exact A|]. apply Forall_app. split; [exact B|].
      destruct (ppool_isolation m_lcall l_call fden origin fden_ext l_call_keeps l_refines _ _ Hp Hin) as (vs & D & K & _ & R). simpl in *.
      destruct (R rs os eq_refl) as (vs' & E & D').
      rewrite Forall_forall in A. destruct (reach_handles a ms (A _ Hin)) as (fs & D2 & R2).
      assert (vs = fs) by exact (gden_fun fden fden_fun _ _ _ _ D D2). subst fs.
      destruct (script_written cs vs R2 (Hw _ Hin)) as (y & Ey & Ry). rewrite E in Ey. injection Ey as <-. simpl in Ry.
      clear -D' Ry. induction D' as [|m f ms fs D D' IH]; [constructor|]. inversion Ry; subst. constructor; [exists f; auto|auto].
  Qed.
End LoadPool.

(** C83.  A panicking thread harms nobody: in every state of every execution of any
    number of threads that load any data, a thread that has finished shows exactly
    the observations, and holds exactly the values, that its script yields when run
    alone; one that has panicked would have panicked alone. *)
Lemma C83_isolation_pf : forall (T : Type) (O : Ord T) (p : lpool T) t,
  lreach p -> In t (gp_threads p) ->
  exists fs, Forall2 (lholds p) (gt_init t) fs /\
    Forall (fun f => Reach f \/ exists h d, f_deserialize h d = Some f) fs /\
    (gt_prog t = Panic -> v_script l_call (gt_script t) fs = None) /\
    (forall rs os, gt_prog t = Ret (rs, os) ->
       exists fs', v_script l_call (gt_script t) fs = Some (fs', os) /\ Forall2 (lholds p) rs fs').
Proof.
  intros T O p t Hp Ht.
  destruct (ppool_isolation m_lcall l_call fden origin fden_ext l_call_keeps l_refines p t Hp Ht) as (vs & D & K & A & B).
  exists vs. exact (conj D (conj K (conj A B))).
Qed.
(** ([fs]: what the thread starts from; each was made by API calls or was loaded.)
    A thread panics exactly at the calls that must: what other threads do, load or
    break does not matter. *)
Lemma C83_when_panics_pf : forall (T : Type) (O : Ord T) (p : lpool T) t fs,
  lreach p -> In t (gp_threads p) -> Forall2 (lholds p) (gt_init t) fs ->
  let bad := exists cs1 c cs2 gs os, gt_script t = cs1 ++ c :: cs2 /\
               v_script l_call cs1 fs = Some (gs, os) /\ must_panic gs c in
  (gt_prog t = Panic -> bad) /\ (forall r, gt_prog t = Ret r -> ~ bad).
Proof.
  intros T O p t fs Hp Ht Df bad.
  destruct (ppool_isolation m_lcall l_call fden origin fden_ext l_call_keeps l_refines p t Hp Ht) as (vs & D & K & A & B).
  assert (vs = fs) by exact (gden_fun fden fden_fun _ _ _ _ D Df). subst vs.
  split.
  - intros E. apply (script_panics_iff (gt_script t) fs K). exact (A E).
  - intros [rs os] E X. apply (script_panics_iff (gt_script t) fs K) in X. destruct (B rs os E) as (fs' & Y & _). congruence.
Qed.
(** Two runs of one script from equal forests: the same observations, or both panic. *)
Lemma C83_schedule_independent_pf : forall (T : Type) (O : Ord T) (p q : lpool T) t u fs,
  lreach p -> lreach q -> In t (gp_threads p) -> In u (gp_threads q) -> gt_script t = gt_script u ->
  Forall2 (lholds p) (gt_init t) fs -> Forall2 (lholds q) (gt_init u) fs ->
  ~ (gt_prog t = Panic /\ exists r, gt_prog u = Ret r) /\
  forall rs os rs' os', gt_prog t = Ret (rs, os) -> gt_prog u = Ret (rs', os') ->
    os = os' /\ exists fs', Forall2 (lholds p) rs fs' /\ Forall2 (lholds q) rs' fs'.
Proof.
  intros T O p q t u fs Hp Hq Ht Hu Es Dt Du.
  destruct (ppool_isolation m_lcall l_call fden origin fden_ext l_call_keeps l_refines p t Hp Ht) as (v1 & D1 & _ & A1 & B1).
  destruct (ppool_isolation m_lcall l_call fden origin fden_ext l_call_keeps l_refines q u Hq Hu) as (v2 & D2 & _ & A2 & B2).
  assert (v1 = fs) by exact (gden_fun fden fden_fun _ _ _ _ D1 Dt). assert (v2 = fs) by exact (gden_fun fden fden_fun _ _ _ _ D2 Du).
  subst v1 v2. rewrite <- Es in *. split.
  - intros [E ([rs os] & E')]. specialize (A1 E). destruct (B2 rs os E') as (fs' & X & _). congruence.
  - intros rs os rs' os' E E'. destruct (B1 _ _ E) as (f1 & X1 & Y1). destruct (B2 _ _ E') as (f2 & X2 & Y2).
    rewrite X1 in X2. injection X2 as <- <-. split; [reflexivity|]. exists f1. auto.
Qed.
(** A thread that has neither finished nor panicked can take a step; the recursion
    depth it needs depends on its script and starting values only. *)
Lemma C83_progress_pf : forall (T : Type) (O : Ord T) (cs : list (lcall T)) (fs : list (forest T)),
  Forall (fun f => Reach f \/ exists h d, f_deserialize h d = Some f) fs ->
  exists F, forall (p : lpool T) t, lreach p -> In t (gp_threads p) ->
    gt_script t = cs -> Forall2 (lholds p) (gt_init t) fs -> F <= gt_fuel t ->
    (exists r, gt_prog t = Ret r) \/ gt_prog t = Panic \/ (exists a' k, pstep (gp_arena p) (gt_prog t) a' k).
Proof.
  intros T O cs fs K.
  destruct (ppool_bounded m_lcall l_call fden origin fden_ext fden_fun l_call_keeps l_refines cs fs K) as (F & HF).
  exists F. intros p t Hp Ht Es Df Hle.
  destruct (ppool_progress p t Ht) as [X|[X|[X|X]]]; auto. exfalso. exact (HF p t Hp Ht Es Df Hle X).
Qed.
(** Whatever is loaded: no node is stored under two ids, ids are stable, and every id
    a thread can have stands for one finite diagram. *)
Lemma C83_ids_pf : forall (T : Type) (O : Ord T) (p q : lpool T), lreach p -> llater p q ->
  (forall i j n, a_get (gp_arena p) i = Some n -> a_get (gp_arena p) j = Some n -> i = j) /\
  (forall i n, a_get (gp_arena p) i = Some n -> a_get (gp_arena q) i = Some n) /\
  (forall i, i < length (a_nodes (gp_arena p)) -> exists t, den (gp_arena p) i t) /\
  (forall m f, lholds p m f -> lholds q m f).
Proof.
  intros T O p q Hp Hq. destruct (l_ok p Hp) as (I0 & _).
  destruct (ppool_steps_ext m_lcall l_call fden origin fden_ext l_call_keeps l_refines p q Hp Hq) as [_ E].
  split; [intros i j n; apply a_get_inj; exact I0|]. split; [intros i n; apply ext_get; exact E|].
  split; [intros i; apply den_total; exact I0|]. intros m f. apply fden_ext. exact E.
Qed.
(** Loading what [Serialize] wrote of a reachable forest gives, in every execution, the
    very handle by which anybody already holds it: the same root id, the same universe. *)
Lemma C83_reload_same_handle_pf : forall (T : Type) (O : Ord T) (p : lpool T) t h text entries (f : forest T) m rs os,
  lreach p -> In t (gp_threads p) -> Reach f -> fits (f_root f) -> lholds p m f ->
  text = fst (f_serialize f) -> Permutation entries (snd (f_serialize f)) ->
  gt_script t = [LDeserialize h (text, entries)] -> gt_prog t = Ret (rs, os) ->
  rs = gt_init t ++ [m] /\ os = [LOLoaded true].
Proof.
  intros T O p t h text entries f m rs os Hp Ht R Fi Hm Et Ep Es E.
  destruct (l_ok p Hp) as (I0 & _).
  destruct (ppool_isolation m_lcall l_call fden origin fden_ext l_call_keeps l_refines p t Hp Ht) as (vs & D & _ & _ & B).
  destruct (B rs os E) as (fs' & X & Y). rewrite Es in X. cbn [v_script l_call] in X.
  rewrite (C22_forest_round_trip_pf T O h f text entries R Fi Et Ep) in X. cbn [bind fst snd] in X. injection X as <- <-.
  split; [|reflexivity]. clear -D Y Hm I0. revert rs Y.
  induction D as [|m0 v0 ms vs D0 D IH]; intros rs Y; simpl in Y.
  - inversion Y as [|x ? r ? Hx Hr]; subst. inversion Hr; subst. simpl. f_equal. eapply fden_inj; eauto.
  - inversion Y as [|x ? r ? Hx Hr]; subst. simpl. f_equal; [eapply fden_inj; eauto|]. auto.
Qed.
(** If all the data that threads load was written by [Serialize], no thread ever panics. *)
Lemma C83_written_data_is_safe_pf : forall (T : Type) (O : Ord T) (p : lpool T), lreach p ->
  (forall t, In t (gp_threads p) -> Forall loads_written (gt_script t)) ->
  forall t, In t (gp_threads p) -> gt_prog t <> Panic.
Proof.
  intros T O p Hp Hw t Ht E. destruct (written_pool_ok p Hp Hw) as [A _]. rewrite Forall_forall in A.
  destruct (reach_handles _ _ (A t Ht)) as (fs & D & R). destruct (script_written (gt_script t) fs R (Hw t Ht)) as (y & Ey & _).
  destruct (ppool_isolation m_lcall l_call fden origin fden_ext l_call_keeps l_refines p t Hp Ht) as (vs & D' & _ & B & _).
  assert (vs = fs) by exact (gden_fun fden fden_fun _ _ _ _ D' D). subst vs. rewrite (B E) in Ey. discriminate.
Qed.

(** Non-vacuity: one thread loads "(5 (N) (A))" with an empty map and panics in
    [union]; the other, interleaved with it, serializes and finishes; a third, started
    later, loads what the second wrote and gets the id the second holds. *)
Definition l_ex_bad : list (lcall nat) :=
  [LDeserialize ho_id ([40;53;32;40;78;41;32;40;65;41;41]%N, []); LSerialize 0; LBase (CTrees 0); LBase (CUnion ho_id 0 0)].
Definition l_ex_good : list (lcall nat) :=
  [LBase (CMany ho_id [[1; 2]; [2; 3]]); LSerialize 0; LDebug (fun _ => [63%N]) 0].
Definition l_ex_text : list N := [40;48;32;40;78;41;32;40;49;32;40;50;32;40;78;41;32;40;65;41;41;32;40;65;41;41;41]%N.
Definition l_ex_load : list (lcall nat) := [LDeserialize ho_rev (l_ex_text, [(3, 1); (1, 1); (2, 2)])].
Fixpoint l_lockstep (n : nat) : list nat := match n with O => [] | S k => [0; 1] ++ l_lockstep k end.
Definition l_ex_state : lpool nat :=
  gsched (repeat 2 60) (gspawn m_lcall 60 l_ex_load
    (gsched (l_lockstep 300) (gspawn m_lcall 60 l_ex_good (gspawn m_lcall 60 l_ex_bad (mkGP a_new [] []))))).
Example C83_example : lreach l_ex_state /\
  map (fun t => match gt_prog t with Panic => true | _ => false end) (gp_threads l_ex_state) = [true; false; false] /\
  map (fun t => match gt_prog t with Ret (r, o) => Some (map mf_root r, nth 1 o (LOLoaded false)) | _ => None end) (gp_threads l_ex_state) =
    [None; Some ([7], LOData (l_ex_text, [(1, 1); (2, 2); (3, 1)])); Some ([7], LOLoaded false)] /\
  (exists gs os, v_script l_call (firstn 3 l_ex_bad) [] = Some (gs, os) /\
     os = [LOLoaded true; LOData ([40;53;32;40;78;41;32;40;65;41;41]%N, []); LOBase (OTrees [[]])] /\
     must_panic gs (LBase (CUnion ho_id 0 0))) /\
  Forall loads_written l_ex_load.
Proof.
  split; [|split; [|split; [|split]]].
  - unfold l_ex_state. apply gsched_sound, gspawn_sound, gsched_sound, gspawn_sound, gspawn_sound. constructor.
  - vm_compute. reflexivity.
  - vm_compute. reflexivity.
  - eexists. eexists. split; [reflexivity|]. split; [reflexivity|]. intros [X _]. specialize (X 5). vm_compute in X.
    assert (6 <= 0) by (apply X; left; reflexivity). lia.
  - constructor; [|constructor]. destruct (f_many ho_id [[1; 2]; [2; 3]]) as [g|] eqn:E; [|vm_compute in E; discriminate].
    exists g. split; [eapply R_many; exact E|]. assert (X : f_serialize g = (l_ex_text, [(1, 1); (2, 2); (3, 1)]) /\ labels (f_root g) = [0; 1; 2])
      by (vm_compute in E; injection E as <-; vm_compute; auto).
    destruct X as [X Y]. split.
    + intros i I0. rewrite Y in I0. destruct I0 as [<-|[<-|[<-|[]]]]; reflexivity.
    + rewrite X. split; [reflexivity|]. simpl. change [(1, 1); (2, 2); (3, 1)] with ([(1, 1); (2, 2)] ++ [(3, 1)]).
      apply (Permutation_cons_app [(1, 1); (2, 2)] [] (3, 1)). reflexivity.
Qed.
