(** Properties_Steps.v: C104, how many accesses to the store a call makes, over StepsModel.v *)
From Coq Require Import List Arith Lia Bool.
From Verif Require Import Base DD Spec Zdd2Model ZddModel ZddProofs BddSpec BddModel BddRun ArenaModel ArenaProofs PoolModel PoolProofs.
From Verif Require Import Zdd2Prog Zdd2ProgProofs Zdd2Thm ConcThm ZddProg ZddProgProofs BddProg BddProgProofs Conc2Thm.
From Verif Require Import StackModel StackThm StackZThm StackBThm StepsModel Steps StepsF StepsZ StepsB.
Import ListNotations.

(** a straight line of calls *)
Lemma le_script {L M C B} (m_call : nat -> list M -> C -> prog L (list M * B)) :
  (forall ms c f f', f <= f' -> lep (m_call f ms c) (m_call f' ms c)) ->
  forall cs ms f f', f <= f' -> lep (g_script m_call f cs ms) (g_script m_call f' cs ms).
Proof.
  intros J cs. induction cs as [|c cs IH]; intros ms f f' Le; cbn [g_script]; [apply lep_refl|].
  apply lep_bind; [apply J, Le|intros x]. apply lep_bind; [apply IH, Le|intros y]. apply lep_refl.
Qed.
Lemma am_script {L M C B} (m_call : nat -> list M -> C -> prog L (list M * B)) fuel :
  (forall c, exists N, forall ms, am N (m_call fuel ms c) any) -> forall cs, exists N, forall ms, am N (g_script m_call fuel cs ms) any.
Proof.
  intros J cs. induction cs as [|c cs (M0 & IH)]; [exists 0; intros ms; exact Logic.I|]. destruct (J c) as (N & Hc).
  exists (N + M0). intros ms. cbn [g_script]. eapply (am_bind _ _ N _ any); [apply Hc|lia|intros x _].
  eapply (am_bind _ _ M0 _ any); [apply IH|lia|intros y _]. exact Logic.I.
Qed.
Lemma lef_script {T} `{Ord T} cs : forall (ms : list (mforest T)) f f', f <= f' -> lep (m_script f cs ms) (m_script f' cs ms).
Proof.
  induction cs as [|c cs IH]; intros ms f f' Le; cbn [m_script]; [apply lep_refl|].
  apply lep_bind; [apply lef_call, Le|intros x]. apply lep_bind; [apply IH, Le|intros y]. apply lep_refl.
Qed.
Lemma amf_script {T} `{Ord T} fuel cs : exists N, forall ms : list (mforest T), am N (m_script fuel cs ms) any.
Proof.
  induction cs as [|c cs (M0 & IH)]; [exists 0; intros ms; exact Logic.I|]. destruct (amf_call c fuel) as (N & Hc).
  exists (N + M0). intros ms. cbn [m_script]. eapply (am_bind _ _ N _ any); [apply Hc|lia|intros x _].
  eapply (am_bind _ _ M0 _ any); [apply IH|lia|intros y _]. exact Logic.I.
Qed.

(** C104.  The calls of a script on forests of weave/src/zdd2: from any state a run of any number of threads can reach,
    they make no more accesses to the shared store than a number that depends on the script and the values of the
    forests only, not on what is stored, where, or on what the other threads store between two of the accesses; and as
    long as they have not returned, their next access can be made. *)
Lemma C104_zdd2_pf : forall (T : Type) (O : Ord T) (fs : list (forest T)) (cs : list (call T)),
  Forall Reach fs ->
  exists fuel0 N, forall (p : pool T) (ms : list (mforest T)), pool_reach p -> Forall2 (holds p) ms fs ->
  forall fuel, fuel0 <= fuel -> forall n b q, runs_in n (p_arena p) (m_script fuel cs ms) b q ->
  n <= N /\ q <> OutOfFuel /\ q <> Panic /\ returned_or_can_step b q.
Proof.
  intros T O fs cs R. destruct (run_script_total cs fs R) as (y & E & _). destruct (m_script_spec cs fs y E) as (G & HG).
  destruct (amf_script G cs) as (N & A). exists G, N. intros p ms Hp Hh fuel Hf. destruct (pool_reach_ok p Hp) as (I0 & _).
  apply (bounded (fun f => m_script f cs ms) G N (fun a' x => Zdd2ProgProofs.sden a' x y)); [intros; apply lef_script; assumption|apply A|exact I0| |exact Hf].
  apply HG; [intros _; apply Nat.le_refl|exact I0|exact Hh].
Qed.

(** C104.  The calls of a script on trees of weave/src/zdd. *)
Lemma C104_zdd_pf : forall (T : Type) (O : Ord T) (ts : list (ztree T)) (cs : list (zcall T)),
  exists fuel0 N, forall (p : zpool T) (ms : list (mztree T)), zreach p -> Forall2 (zholds p) ms ts ->
  forall fuel, fuel0 <= fuel -> forall n b q, runs_in n (gp_arena p) (g_script m_zcall fuel cs ms) b q ->
  n <= N /\ q <> OutOfFuel /\ q <> Panic /\ returned_or_can_step b q.
Proof.
  intros T O ts cs. destruct (v_script_total z_call z_call_total cs ts) as (y & E).
  destruct (g_script_refines m_zcall z_call zden zden_ext m_zcall_refines cs ts y E) as (G & HG).
  destruct (am_script m_zcall G (fun c => amz_call c G) cs) as (N & A). exists G, N. intros p ms Hp Hh fuel Hf.
  destruct (gpool_reach_ok m_zcall z_call zden zden_ext z_call_total m_zcall_refines p Hp) as (I0 & _).
  apply (bounded (fun f => g_script m_zcall f cs ms) G N (fun a' x => gsden zden a' x y)); [intros; apply le_script; [intros; apply lez_call|]; assumption|apply A|exact I0| |exact Hf].
  apply HG; [intros _; apply Nat.le_refl|exact I0|exact Hh].
Qed.

(** C104.  The calls of a script on closets and nodes of bowtie-core. *)
Lemma C104_bowtie_pf : forall (I F : Type) (OI : Ord I) (OF : Ord F) (vs : list (bval I F)) (cs : list (bdcall I F)),
  exists fuel0 N, forall (p : bpool I F) (ms : list (mval I F)), breach p -> Forall2 (bholds p) ms vs ->
  forall fuel, fuel0 <= fuel -> forall n b q, runs_in n (gp_arena p) (g_script m_bcall fuel cs ms) b q ->
  n <= N /\ q <> OutOfFuel /\ q <> Panic /\ returned_or_can_step b q.
Proof.
  intros I F OI OF vs cs. destruct (v_script_total b_vcall b_vcall_total cs vs) as (y & E).
  destruct (g_script_refines m_bcall b_vcall bden bden_ext m_bcall_refines cs vs y E) as (G & HG).
  destruct (am_script (m_bcall (I := I) (F := F)) G (fun c => amb_call c G) cs) as (N & A). exists G, N. intros p ms Hp Hh fuel Hf.
  destruct (gpool_reach_ok m_bcall b_vcall bden bden_ext b_vcall_total m_bcall_refines p Hp) as (I0 & _).
  apply (bounded (fun f => g_script m_bcall f cs ms) G N (fun a' x => gsden bden a' x y)); [intros; apply le_script; [intros; apply leb_call|]; assumption|apply A|exact I0| |exact Hf].
  apply HG; [intros _; apply Nat.le_refl|exact I0|exact Hh].
Qed.

(** C104.  So whoever schedules the threads, a script that was given that many accesses has returned. *)
Lemma C104_returned_pf : forall (L R : Type) (O : Ord L) (p : prog L R) (a : arena L) (N : nat),
  (forall n b q, runs_in n a p b q -> n <= N /\ q <> OutOfFuel /\ q <> Panic /\ returned_or_can_step b q) ->
  forall b q, runs_in N a p b q -> exists x, q = Ret x.
Proof.
  intros L R O p a N J b q Hr. destruct (J N b q Hr) as (_ & _ & _ & [X|(c & r & Hs)]); [exact X|].
  destruct (J (S N) c r (runs_in_step _ _ _ _ _ _ _ Hr Hs)) as (Le & _). lia.
Qed.

(** C104.  And as the accesses are the steps, [runs_in] counts those of [runs] of C101 to C103. *)
Lemma C104_counts_pf : forall (L R : Type) (O : Ord L) (p q : prog L R) (a b : arena L), runs a p b q <-> exists n, runs_in n a p b q.
Proof.
  intros L R O p q a b. split.
  - intros Hr. induction Hr as [a p|a p b q c Hr (n & IH) Ho|a p b q c r Hr (n & IH) Hs].
    + exists 0. constructor.
    + exists n. econstructor; eassumption.
    + exists (S n). econstructor; eassumption.
  - intros (n & Hr). exact (runs_in_runs _ _ _ _ _ Hr).
Qed.

Lemma go_runs_in {L} `{Ord L} {R} n : forall k a0 (p0 : prog L R) a p, runs_in k a0 p0 a p ->
  exists m, m <= k + n /\ runs_in m a0 p0 (fst (go n a p)) (snd (go n a p)).
Proof.
  induction n as [|n IH]; intros k a0 p0 a p Hr; [exists k; split; [lia|exact Hr]|]. cbn [go].
  destruct (exec1 a p) as [(a', p')|] eqn:E; [|exists k; split; [lia|exact Hr]].
  destruct (IH (S k) a0 p0 a' p') as (m & Le & Hm); [eapply runs_in_step; [exact Hr|apply exec1_sound, E]|]. exists m. split; [lia|exact Hm].
Qed.
Fixpoint steps_of {L} `{Ord L} {R} (n : nat) (a : arena L) (p : prog L R) : nat :=
  match n with O => 0 | S k => match exec1 a p with Some (a', p') => S (steps_of k a' p') | None => 0 end end.
Lemma steps_runs_in {L} `{Ord L} {R} n : forall k a0 (p0 : prog L R) a p, runs_in k a0 p0 a p ->
  runs_in (k + steps_of n a p) a0 p0 (fst (go n a p)) (snd (go n a p)).
Proof.
  induction n as [|n IH]; intros k a0 p0 a p Hr; [cbn; rewrite Nat.add_0_r; exact Hr|]. cbn [go steps_of].
  destruct (exec1 a p) as [(a', p')|] eqn:E; [|cbn; rewrite Nat.add_0_r; exact Hr].
  replace (k + S (steps_of n a' p')) with (S k + steps_of n a' p') by lia. apply IH. eapply runs_in_step; [exact Hr|apply exec1_sound, E].
Qed.
Lemma counted {L} `{Ord L} {R} n (a : arena L) (p : prog L R) k : steps_of n a p = k -> verdict (snd (go n a p)) = 0 -> exists b x, runs_in k a p b (Ret x).
Proof.
  intros E V. pose proof (steps_runs_in n 0 a p a p (runs_in_now _ _)) as Hr. rewrite E in Hr. cbn [plus] in Hr.
  destruct (go n a p) as [b q]. cbn [fst snd] in *. destruct q; try discriminate V. eauto.
Qed.

(** the union and the intersection of two trees over four items in a reachable state: fifty accesses; the conjunction of
    two diagrams and the counts of a closet: seventy-six; the union of two forests: three hundred and four *)
Example C104_example :
  (exists (p : zpool nat) ms ts, zreach p /\ Forall2 (zholds p) ms ts /\
     exists b x, runs_in 50 (gp_arena p) (g_script m_zcall 40 [ZCUnion 0 1; ZCIntersect 0 1] ms) b (Ret x)) /\
  (exists (p : bpool nat nat) ms vs, breach p /\ Forall2 (bholds p) ms vs /\
     exists b x, runs_in 76 (gp_arena p) (g_script m_bcall 40 [BDOp BAnd 4 7; BDCounts 0] ms) b (Ret x)) /\
  (exists (p : pool nat) ms fs, pool_reach p /\ Forall2 (holds p) ms fs /\ Forall Reach fs /\
     exists b x, runs_in 304 (p_arena p) (m_script 40 [CUnion ho_id 0 1] ms) b (Ret x)).
Proof.
  split; [|split].
  - destruct stz_reached as (Hp & Hh). exists stz_state, stz_ms, stz_ts. split; [exact Hp|]. split; [exact Hh|]. clear.
    apply (counted 3000); vm_compute; reflexivity.
  - destruct stb_reached as (Hp & Hh). exists stb_state, stb_ms, stb_vs. split; [exact Hp|]. split; [exact Hh|]. clear.
    apply (counted 3000); vm_compute; reflexivity.
  - destruct st_reached as (p & Hp & Hh & R & Ea). exists p, st_ms, st_fs. rewrite Ea. split; [exact Hp|]. split; [exact Hh|]. split; [exact R|]. clear.
    apply (counted 3000); vm_compute; reflexivity.
Qed.
