(** Properties_StackZ.v: C102, how deep the calls of zdd nest, over StackZModel.v *)
From Coq Require Import List Arith NArith Lia Bool.
From Verif Require Import Base DD Spec Zdd2Model ZddModel ZddProofs ZddSpec ParserModel ArenaModel ArenaProofs PoolModel PoolProofs ZddProg ZddProgProofs Conc2Thm.
From Verif Require Import Growth2Spec StackModel StackThm StackZModel StackZFits StackZdd.
Import ListNotations.

(** C102.  The program of StackZModel.v is the one of ZddProg.v, with the nesting and the rounds of the loops
    counted apart. *)
Lemma C102_is_the_program_pf : forall (T : Type) (O : Ord T) (fuel : nat) (ms : list (mztree T)) (c : zcall T),
  zs_call fuel fuel ms c = m_zcall fuel ms c.
Proof. intros T O fuel ms c. destruct c; reflexivity. Qed.

Lemma zdepth_runs {T : Type} {O : Ord T} (p : zpool T) (ms : list (mztree T)) (ts : list (ztree T)) (c : zcall T) d :
  zreach p -> Forall2 (zholds p) ms ts -> need d ts c ->
  forall depth, d <= depth ->
  exists rounds, forall loops, rounds <= loops -> forall a q,
    runs (gp_arena p) (zs_call depth loops ms c) a q ->
    q <> OutOfFuel /\ q <> Panic /\
    (forall x, q = Ret x -> exists y, z_call ts c = Some y /\ snd x = snd y /\
       forall p', zreach p' -> gp_arena p' = a -> Forall2 (zholds p') (fst x) (fst y)).
Proof.
  intros Hp Hh N depth Hd. destruct (z_call_total ts c) as (y & Ey).
  destruct (depth_zcall c ts y d depth true Ey N (fun _ => Hd)) as (L & SL).
  exists L. intros loops Hl a q Hr. destruct (gpool_reach_ok m_zcall z_call zden zden_ext z_call_total m_zcall_refines p Hp) as (I0 & _).
  destruct (runs_wp _ true _ _ _ _ I0 (SL loops (fun _ => Hl) (gp_arena p) ms I0 Hh) Hr) as (I1 & _ & W).
  split; [|split].
  - intros ->. discriminate W.
  - intros ->. exact W.
  - intros x ->. exists y. split; [exact Ey|]. destruct (W a (ext_refl a) I1) as [D Eq]. split; [exact Eq|].
    intros p' _ <-. exact D.
Qed.

(** C102.  In any state a run of any number of threads can reach, an API call on any trees (built, combined or
    loaded) needs no more nested calls of a recursive function than [zcall_depth]: for union, intersection and
    product one more than the levels of the two trees together; for the readers one more than the levels of the
    tree; for [hyper_tree], [unique_tree] and [restrict] one more than the items of the combinations, each counted as
    often as some combination lists it; for [deserialize] one more than the parentheses open at once: whatever the number of
    combinations and of nodes, and whatever the other threads store while it runs.  It does not panic, and when it
    returns it has the result of the call run alone. *)
Lemma C102_depth_pf : forall (T : Type) (O : Ord T) (p : zpool T) (ms : list (mztree T)) (ts : list (ztree T)) (c : zcall T),
  zreach p -> Forall2 (zholds p) ms ts ->
  forall depth, zcall_depth ts c <= depth ->
  exists rounds, forall loops, rounds <= loops -> forall a q,
    runs (gp_arena p) (zs_call depth loops ms c) a q ->
    q <> OutOfFuel /\ q <> Panic /\
    (forall x, q = Ret x -> exists y, z_call ts c = Some y /\ snd x = snd y /\
       forall p', zreach p' -> gp_arena p' = a -> Forall2 (zholds p') (fst x) (fst y)).
Proof. intros T O p ms ts c Hp Hh. exact (zdepth_runs p ms ts c _ Hp Hh (need_call ts c)). Qed.

(** C102.  If the trees of the call are over one universe and built from combinations without repeated items, one
    nested call for every different item of the universe, and one, are enough. *)
Lemma C102_items_pf : forall (T : Type) (O : Ord T) (p : zpool T) (ms : list (mztree T)) (ts : list (ztree T)) (items : list T) (c : zcall T),
  zreach p -> Forall2 (zholds p) ms ts -> zplain items ts c ->
  forall depth, S (length (once items)) <= depth ->
  exists rounds, forall loops, rounds <= loops -> forall a q,
    runs (gp_arena p) (zs_call depth loops ms c) a q -> q <> OutOfFuel /\ q <> Panic.
Proof.
  intros T O p ms ts items c Hp Hh Z depth Hd. destruct (zdepth_runs p ms ts c _ Hp Hh (need_plain items ts c Z) depth Hd) as (L & HL).
  exists L. intros loops Hl a q Hr. destruct (HL loops Hl a q Hr) as (A & B & _). split; assumption.
Qed.

(** C102.  Such a tree has at most one level for every different item, as [traverse] shows it. *)
Lemma C102_levels_pf : forall (T : Type) (O : Ord T) (items : list T) (t : ztree T),
  ZReach (@NoDup T) (zu_from items) t ->
  height (zt_root t) <= length (once items) /\ forall d, z_traverse t = Some d -> height d = height (zt_root t).
Proof.
  intros T O items t R. split; [apply plain_height; exact R|]. unfold z_traverse. generalize (zt_univ t). intros u.
  induction (zt_root t) as [b|i lo IHl hi IHh]; intros d E; cbn [z_from_node] in E; [injection E as <-; reflexivity|].
  apply bind_some in E. destruct E as (v & _ & E). apply bind_some in E. destruct E as (l & El & E).
  apply bind_some in E. destruct E as (h & Eh & E). injection E as <-. cbn [height]. rewrite (IHl l El), (IHh h Eh). reflexivity.
Qed.

(** C102.  What [zcall_depth] counts for combinations without repeated items: their different items. *)
Lemma C102_widest_pf : forall (T : Type) (O : Ord T) (cs : list (list T)),
  (forall c, In c cs -> NoDup c) -> widest cs = length (once (concat cs)).
Proof. intros T O cs. apply widest_once. Qed.

Definition stz_script : list (zcall nat) :=
  [ZCHyper [1; 2; 3; 4] [[1; 2; 3]; [2; 4]; [3]]; ZCHyper [1; 2; 3; 4] [[1; 4]; [2; 3]]; ZCTree [7] [7; 7; 7]].
Definition stz_state : zpool nat := gsched (repeat 0 200) (gspawn m_zcall 40 stz_script (mkGP a_new [] [])).
Definition stz_ms : list (mztree nat) := match gp_threads stz_state with [t] => match gt_prog t with Ret (ms, _) => ms | _ => [] end | _ => [] end.
Definition stz_ts : list (ztree nat) := match v_script z_call stz_script [] with Some y => fst y | None => [] end.
Lemma stz_reached : zreach stz_state /\ Forall2 (zholds stz_state) stz_ms stz_ts.
Proof.
  assert (Hp : zreach stz_state) by (apply gsched_sound, gspawn_sound; constructor). split; [exact Hp|].
  unfold stz_ms. destruct (gp_threads stz_state) as [|t l] eqn:E; [vm_compute in E; discriminate|].
  assert (X : match gp_threads stz_state with
    | [t] => gt_init t = [] /\ gt_script t = stz_script /\ match gt_prog t with Ret _ => True | _ => False end
    | _ => False end) by (vm_compute; auto).
  rewrite E in X. destruct l as [|t2 l]; [|destruct X]. destruct X as (X1 & X2 & X3).
  assert (It : In t (gp_threads stz_state)) by (rewrite E; left; reflexivity).
  destruct (C59_zdd_isolation_pf nat _ stz_state t Hp It) as (_ & W).
  destruct (gt_prog t) as [[ms os]| | | | |]; try destruct X3.
  destruct (W ms os eq_refl) as (vs & vs' & V1 & V2 & V3). rewrite X1 in V1. inversion V1; subst vs.
  rewrite X2 in V2. unfold stz_ts. rewrite V2. exact V3.
Qed.

(** the union and the intersection of two trees over four items: allowed five nested calls (one for every item, and
    one) they return, allowed two they do not; a tree that lists its one item three times has three levels *)
Example C102_example : exists (p : zpool nat) ms ts, zreach p /\ Forall2 (zholds p) ms ts /\
  zplain [1; 2; 3; 4] ts (ZCUnion 0 1) /\ zplain [1; 2; 3; 4] ts (ZCIntersect 0 1) /\
  (exists a x, runs (gp_arena p) (zs_call 5 40 ms (ZCUnion 0 1)) a (Ret x)) /\
  (exists a x, runs (gp_arena p) (zs_call 5 40 ms (ZCIntersect 0 1)) a (Ret x)) /\
  (exists a, runs (gp_arena p) (zs_call 2 40 ms (ZCUnion 0 1)) a OutOfFuel) /\
  (exists a, runs (gp_arena p) (zs_call 2 40 ms (ZCIntersect 0 1)) a OutOfFuel) /\
  map (zcall_depth ts) [ZCUnion 0 1; ZCTraverse 0; ZCHyper [1; 2] [[1; 2]; [2]]; ZCTraverse 2; ZCRestrict 0 [2] []] = [7; 4; 3; 4; 5].
Proof.
  destruct stz_reached as (Hp & Hh). exists stz_state, stz_ms, stz_ts.
  split; [exact Hp|]. split; [exact Hh|]. clear.
  assert (P : forall i j, i <= 1 -> j <= 1 -> ZReach (@NoDup nat) (zu_from [1; 2; 3; 4]) (zreg stz_ts i) /\ ZReach (@NoDup nat) (zu_from [1; 2; 3; 4]) (zreg stz_ts j)).
  { assert (Q : forall i, i <= 1 -> ZReach (@NoDup nat) (zu_from [1; 2; 3; 4]) (zreg stz_ts i)).
    { intros [|[|i]] L; [| |lia].
      - replace (zreg stz_ts 0) with (z_hyper_tree (zu_from [1; 2; 3; 4]) [[1; 2; 3]; [2; 4]; [3]]) by (vm_compute; reflexivity).
        apply ZR_hyper. intros c J. cbn in J. destruct J as [<-|[<-|[<-|[]]]]; repeat constructor; cbn; intuition discriminate.
      - replace (zreg stz_ts 1) with (z_hyper_tree (zu_from [1; 2; 3; 4]) [[1; 4]; [2; 3]]) by (vm_compute; reflexivity).
        apply ZR_hyper. intros c J. cbn in J. destruct J as [<-|[<-|[]]]; repeat constructor; cbn; intuition discriminate. }
    auto. }
  split; [apply P; lia|]. split; [apply P; lia|].
  set (a0 := gp_arena stz_state).
  assert (X : forall d c, verdict (snd (go 3000 a0 (zs_call d 40 stz_ms c))) = 0 -> exists a x, runs a0 (zs_call d 40 stz_ms c) a (Ret x)).
  { intros d c V. pose proof (go_runs 3000 a0 (zs_call d 40 stz_ms c) a0 _ (runs_now _ _)) as Hr.
    destruct (go 3000 a0 (zs_call d 40 stz_ms c)) as [a q]. cbn [fst snd] in *. destruct q; try discriminate V. eauto. }
  assert (Y : forall d c, verdict (snd (go 3000 a0 (zs_call d 40 stz_ms c))) = 1 -> exists a, runs a0 (zs_call d 40 stz_ms c) a OutOfFuel).
  { intros d c V. pose proof (go_runs 3000 a0 (zs_call d 40 stz_ms c) a0 _ (runs_now _ _)) as Hr.
    destruct (go 3000 a0 (zs_call d 40 stz_ms c)) as [a q]. cbn [fst snd] in *. destruct q; try discriminate V. eauto. }
  split; [apply X; vm_compute; reflexivity|]. split; [apply X; vm_compute; reflexivity|].
  split; [apply Y; vm_compute; reflexivity|]. split; [apply Y; vm_compute; reflexivity|]. vm_compute; reflexivity.
Qed.
