(** Properties_StackB.v: C103, how deep the calls of bowtie nest, over StackBModel.v *)
From Coq Require Import List Arith Lia Bool.
From Verif Require Import Base DD Spec BddSpec BddModel BddRun ArenaModel ArenaProofs PoolModel PoolProofs BddProg BddProgProofs BddNode Conc2Thm.
From Verif Require Import Growth2Spec StackModel StackThm StackZModel StackBModel StackB.
Import ListNotations.

(** C103.  The program of StackBModel.v is the one of BddProg.v, with the nesting and the rounds of the loops
    counted apart (the fuel of [to_node], which BddProg.v runs on the structure itself, must cover its branches). *)
Lemma C103_is_the_program_pf : forall (I F : Type) (OI : Ord I) (OF : Ord F) (fuel : nat) (ms : list (mval I F)) (c : bdcall I F),
  (forall d, c = BDDeserialize d -> S (nesting (fst (snd d))) <= fuel) -> bs_call fuel fuel ms c = m_bcall fuel ms c.
Proof.
  intros I F OI OF fuel ms c J. destruct c; try reflexivity. cbn [bs_call m_bcall].
  rewrite bs_to_node_enough; [reflexivity|]. apply J. reflexivity.
Qed.

Lemma bdepth_runs {I F : Type} {OI : Ord I} {OF : Ord F} (p : bpool I F) (ms : list (mval I F)) (vs : list (bval I F)) (c : bdcall I F) d :
  breach p -> Forall2 (bholds p) ms vs -> bneed d vs c ->
  forall depth, d <= depth ->
  exists rounds, forall loops, rounds <= loops -> forall a q,
    runs (gp_arena p) (bs_call depth loops ms c) a q ->
    q <> OutOfFuel /\ q <> Panic /\
    (forall x, q = Ret x -> exists y, b_vcall vs c = Some y /\ snd x = snd y /\
       forall p', breach p' -> gp_arena p' = a -> Forall2 (bholds p') (fst x) (fst y)).
Proof.
  intros Hp Hh N depth Hd. destruct (b_vcall_total vs c) as (y & Ey).
  destruct (depth_bcall c vs y d depth true Ey N (fun _ => Hd)) as (L & SL).
  exists L. intros loops Hl a q Hr. destruct (gpool_reach_ok m_bcall b_vcall bden bden_ext b_vcall_total m_bcall_refines p Hp) as (I0 & _).
  destruct (runs_wp _ true _ _ _ _ I0 (SL loops (fun _ => Hl) (gp_arena p) ms I0 Hh) Hr) as (I1 & _ & W).
  split; [|split].
  - intros ->. discriminate W.
  - intros ->. exact W.
  - intros x ->. exists y. split; [exact Ey|]. destruct (W a (ext_refl a) I1) as [D Eq]. split; [exact Eq|].
    intros p' _ <-. exact D.
Qed.

(** C103.  In any state a run of any number of threads can reach, an API call on any closets and diagrams (built,
    combined or received, in order or not) needs no more nested calls of a recursive function than [bcall_depth]: for
    building a closet one more than the different items added; for selecting, outfits, counts, serialize, reduce and
    restrict one more than the levels of the diagram; for and / or one more than the levels of both, for xor one more
    than twice that; for deserialize one more than the nested branches of the data: whatever the number of nodes, of
    families and of rules, and whatever the other threads store while it runs.  It does not panic, and when it returns
    it has the result of the call run alone. *)
Lemma C103_depth_pf : forall (I F : Type) (OI : Ord I) (OF : Ord F) (p : bpool I F) (ms : list (mval I F)) (vs : list (bval I F)) (c : bdcall I F),
  breach p -> Forall2 (bholds p) ms vs ->
  forall depth, bcall_depth vs c <= depth ->
  exists rounds, forall loops, rounds <= loops -> forall a q,
    runs (gp_arena p) (bs_call depth loops ms c) a q ->
    q <> OutOfFuel /\ q <> Panic /\
    (forall x, q = Ret x -> exists y, b_vcall vs c = Some y /\ snd x = snd y /\
       forall p', breach p' -> gp_arena p' = a -> Forall2 (bholds p') (fst x) (fst y)).
Proof. intros I F OI OF p ms vs c Hp Hh. exact (bdepth_runs p ms vs c _ Hp Hh (bneed_call vs c)). Qed.

(** C103.  If the diagrams of the call are in the order of the items and only have items of a list, one nested call
    for every different item of the list, and one, are enough. *)
Lemma C103_items_pf : forall (I F : Type) (OI : Ord I) (OF : Ord F) (p : bpool I F) (ms : list (mval I F)) (vs : list (bval I F)) (items : list I) (c : bdcall I F),
  breach p -> Forall2 (bholds p) ms vs -> bplain items vs c ->
  forall depth, S (length (once items)) <= depth ->
  exists rounds, forall loops, rounds <= loops -> forall a q,
    runs (gp_arena p) (bs_call depth loops ms c) a q -> q <> OutOfFuel /\ q <> Panic.
Proof.
  intros I F OI OF p ms vs items c Hp Hh Z depth Hd. destruct (bdepth_runs p ms vs c _ Hp Hh (bneed_plain items vs c Z) depth Hd) as (L & HL).
  exists L. intros loops Hl a q Hr. destruct (HL loops Hl a q Hr) as (A & B & _). split; assumption.
Qed.

(** C103.  A closet that a builder built, with any selections made on it after, has such a diagram; it has at most one
    level for every different item added, and [depth] shows one more than its levels. *)
Lemma C103_levels_pf : forall (I F : Type) (OI : Ord I) (OF : Ord F) (calls : list (bcall I F)) (sels : list I) (c : closet I F),
  reached calls sels c ->
  over (map snd (adds calls)) (c_root c) /\ height (c_root c) <= length (once (map snd (adds calls))) /\
  depth (c_root c) = S (height (c_root c)).
Proof.
  intros I F OI OF calls sels c R. pose proof (reached_over calls sels c R) as W. split; [exact W|].
  split; [apply within_height, over_within, W|apply height_depth].
Qed.

Fixpoint bord (t : dd nat) : bool :=
  match t with Leaf _ => true | Branch i l h => forallb (fun j => Nat.ltb i j) (labels l ++ labels h) && bord l && bord h end.
Definition stb_calls : list (bcall nat nat) := [AddItem 1 10; AddItem 1 11; AddItem 2 20; AddItem 2 21; AddExcl 10 20].
Definition stb_script : list (bdcall nat nat) :=
  [BDBuild ho_id stb_calls; BDSelect ho_rev 0 11; BDPos 5; BDNeg 7; BDOp BAnd 2 3; BDPos 3; BDNeg 4; BDOp BOr 5 6].
Definition stb_state : bpool nat nat := gsched (repeat 0 400) (gspawn m_bcall 40 stb_script (mkGP a_new [] [])).
Definition stb_ms : list (mval nat nat) := match gp_threads stb_state with [t] => match gt_prog t with Ret (ms, _) => ms | _ => [] end | _ => [] end.
Definition stb_vs : list (bval nat nat) := match v_script b_vcall stb_script [] with Some y => fst y | None => [] end.
Lemma stb_reached : breach stb_state /\ Forall2 (bholds stb_state) stb_ms stb_vs.
Proof.
  assert (Hp : breach stb_state) by (apply gsched_sound, gspawn_sound; constructor). split; [exact Hp|].
  unfold stb_ms. destruct (gp_threads stb_state) as [|t l] eqn:E; [vm_compute in E; discriminate|].
  assert (X : match gp_threads stb_state with
    | [t] => gt_init t = [] /\ gt_script t = stb_script /\ match gt_prog t with Ret _ => True | _ => False end
    | _ => False end) by (vm_compute; auto).
  rewrite E in X. destruct l as [|t2 l]; [|destruct X]. destruct X as (X1 & X2 & X3).
  assert (It : In t (gp_threads stb_state)) by (rewrite E; left; reflexivity).
  destruct (C59_bowtie_isolation_pf nat nat _ _ stb_state t Hp It) as (_ & W).
  destruct (gt_prog t) as [[ms os]| | | | |]; try destruct X3.
  destruct (W ms os eq_refl) as (vs & vs' & V1 & V2 & V3). rewrite X1 in V1. inversion V1; subst vs.
  rewrite X2 in V2. unfold stb_vs. rewrite V2. exact V3.
Qed.

(** the conjunction of two diagrams over four items and the counts of a closet of four items: allowed five nested calls
    (one for every item, and one) they return, allowed four they do not; building that closet, likewise *)
Example C103_example : exists (p : bpool nat nat) ms vs, breach p /\ Forall2 (bholds p) ms vs /\
  bplain [3; 4; 5; 7] vs (BDOp BAnd 4 7) /\ bplain [10; 11; 20; 21] vs (BDCounts 0) /\
  (forall c, In c [BDOp BAnd 4 7; BDOp BXor 4 7; BDCounts 0; BDBuild ho_id stb_calls] ->
     (exists a x, runs (gp_arena p) (bs_call 5 40 ms c) a (Ret x)) /\
     (exists a, runs (gp_arena p) (bs_call 4 40 ms c) a OutOfFuel)) /\
  map (bcall_depth vs) [BDOp BAnd 4 7; BDOp BXor 4 7; BDCounts 0; BDBuild ho_id stb_calls; BDSelect ho_id 0 11; BDReduce 7;
    BDDeserialize ([], [], (SAvailable 0 (SOutcome true) (SRequired 1 (SOutcome true)), []))] = [5; 9; 5; 5; 5; 3; 3].
Proof.
  destruct stb_reached as (Hp & Hh). exists stb_state, stb_ms, stb_vs.
  split; [exact Hp|]. split; [exact Hh|]. clear.
  assert (O : forall items t, forallb (fun x => existsb (Nat.eqb x) items) (labels t) = true -> bordered t -> over items t).
  { intros items t J B. split; [exact B|]. intros x Hx. rewrite forallb_forall in J. specialize (J x Hx).
    apply existsb_exists in J. destruct J as (y & Hy & E). apply Nat.eqb_eq in E. subst y. exact Hy. }
  assert (B : forall t, bord t = true -> bordered t).
  { induction t as [b|i l IHl h IHh]; intros E; [constructor|]. cbn [bord] in E. apply andb_prop in E. destruct E as (E & Eh).
    apply andb_prop in E. destruct E as (E & El). cbn. split; [|auto]. intros j J. rewrite forallb_forall in E.
    apply Nat.compare_lt_iff, Nat.ltb_lt, E, in_or_app. exact J. }
  split; [split; (apply O; [vm_compute; reflexivity|apply B; vm_compute; reflexivity])|].
  split; [apply O; [vm_compute; reflexivity|apply B; vm_compute; reflexivity]|].
  split; [|vm_compute; reflexivity].
  set (a0 := gp_arena stb_state).
  assert (X : forall d c, verdict (snd (go 3000 a0 (bs_call d 40 stb_ms c))) = 0 -> exists a x, runs a0 (bs_call d 40 stb_ms c) a (Ret x)).
  { intros d c V. pose proof (go_runs 3000 a0 (bs_call d 40 stb_ms c) a0 _ (runs_now _ _)) as Hr.
    destruct (go 3000 a0 (bs_call d 40 stb_ms c)) as [a q]. cbn [fst snd] in *. destruct q; try discriminate V. eauto. }
  assert (Y : forall d c, verdict (snd (go 3000 a0 (bs_call d 40 stb_ms c))) = 1 -> exists a, runs a0 (bs_call d 40 stb_ms c) a OutOfFuel).
  { intros d c V. pose proof (go_runs 3000 a0 (bs_call d 40 stb_ms c) a0 _ (runs_now _ _)) as Hr.
    destruct (go 3000 a0 (bs_call d 40 stb_ms c)) as [a q]. cbn [fst snd] in *. destruct q; try discriminate V. eauto. }
  intros c [ <- |[ <- |[ <- |[ <- |[]]]]]; (split; [apply X|apply Y]); vm_compute; reflexivity.
Qed.
