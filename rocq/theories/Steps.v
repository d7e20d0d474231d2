(** Steps: bounds on the accesses of a call that do not depend on what the store answers. *)
From Coq Require Import List Arith NArith Lia Bool Permutation.
From Verif Require Import Base DD ArenaModel ArenaProofs StackModel StackThm StepsModel.
Import ListNotations.

Fixpoint am {L R} (N : nat) (p : prog L R) (Q : R -> Prop) {struct p} : Prop :=
  match p with
  | Ret x => Q x
  | Get _ k => match N with O => False | S M => forall x, am M (k x) Q end
  | Find _ k => match N with O => False | S M => forall x, am M (k x) Q end
  | Add _ k => match N with O => False | S M => forall x, am M (k x) Q end
  | Panic | OutOfFuel => True
  end.
Definition any {A : Type} (_ : A) : Prop := True.

Lemma am_le {L R} (p : prog L R) : forall N M (P Q : R -> Prop), N <= M -> (forall x, P x -> Q x) -> am N p P -> am M p Q.
Proof.
  induction p as [x|i k IH|i k IH|i k IH| |]; intros N M P Q Le J A; cbn in *; auto; (destruct N as [|N]; [contradiction|]); (destruct M as [|M]; [lia|]);
    intros x; (eapply IH; [|exact J|apply A]; lia).
Qed.
Lemma am_bind {L A B} (p : prog L A) (f : A -> prog L B) : forall N K P Q, am N p P -> N <= K ->
  (forall x, P x -> am (K - N) (f x) Q) -> am K (pbind p f) Q.
Proof.
  induction p as [x|i k IH|i k IH|i k IH| |]; intros N K P Q Ha Le J; cbn in *; auto.
  - eapply am_le; [| |apply J, Ha]; [lia|auto].
  - destruct N as [|N]; [contradiction|]. destruct K as [|K]; [lia|]. intros x. eapply IH; [apply Ha|lia|exact J].
  - destruct N as [|N]; [contradiction|]. destruct K as [|K]; [lia|]. intros x. eapply IH; [apply Ha|lia|exact J].
  - destruct N as [|N]; [contradiction|]. destruct K as [|K]; [lia|]. intros x. eapply IH; [apply Ha|lia|exact J].
Qed.
Lemma am_fold {L A B} (f : B -> A -> prog L B) (P : nat -> B -> Prop) N (l : list A) :
  (forall x b n, In x l -> P n b -> am N (f b x) (P (S n))) -> forall b n, P n b -> am (N * length l) (pfoldM f l b) (P (n + length l)).
Proof.
  induction l as [|x l IH]; intros Hf b n Hb; cbn [pfoldM length].
  - cbn. rewrite Nat.add_0_r. exact Hb.
  - eapply (am_bind _ _ N); [apply Hf; [left; reflexivity|exact Hb]|lia|]. intros b' Hb'.
    replace (n + S (length l)) with (S n + length l) by lia. eapply am_le; [| |apply IH; [|exact Hb']]; [lia|auto|].
    intros y c m J. apply Hf. right. exact J.
Qed.
Lemma am_folds {L A B} (f : B -> A -> prog L B) N K (l : list A) b :
  (forall x b, In x l -> am N (f b x) any) -> length l <= K -> am (N * K) (pfoldM f l b) any.
Proof.
  intros Hf Hk. eapply am_le; [apply Nat.mul_le_mono_l, Hk|intros x J; exact J|].
  apply (am_fold f (fun _ => any) N l (fun x c n J _ => Hf x c J) b 0). exact Logic.I.
Qed.
Lemma am_get {L} i : am 1 (get_node (L := L) i) any.
Proof. intros x. exact Logic.I. Qed.
Lemma am_intern {L} (n : gnode L) : am 1 (intern n) any.
Proof. intros x. exact Logic.I. Qed.
Lemma am_intern2 {L} (n : gnode L) : am 2 (intern2 n) any.
Proof. intros [x|]; cbn; exact (fun _ => Logic.I) || exact Logic.I. Qed.

Ltac am_call := first [apply am_get | apply am_intern | apply am_intern2 | match goal with H : _ |- _ => solve [eapply H; auto] end].
Ltac am1 := lazymatch goal with
  | |- am _ (Ret _) _ => exact Logic.I
  | |- am _ Panic _ => exact Logic.I
  | |- am _ OutOfFuel _ => exact Logic.I
  | |- am _ (pbind _ _) _ => eapply am_bind; [am_call|lia|intros ? _]
  | |- am _ (match ?x with _ => _ end) _ => destruct x
  | |- am _ _ _ => eapply am_le; [| |am_call]; [lia|exact (fun _ _ => Logic.I)]
  end.
Ltac ams := repeat (cbv beta zeta; am1).

(** ** the accesses made *)
Lemma am_pstep {L R} `{Ord L} (p : prog L R) N Q a b q : pstep a p b q -> am N p Q -> 1 <= N /\ am (N - 1) q Q.
Proof.
  intros S. destruct S; cbn; intros A; destruct N as [|N]; try contradiction; (split; [lia|]); replace (S N - 1) with N by lia; auto.
Qed.
Lemma am_runs {L R} `{Ord L} n (p : prog L R) N Q a b q : runs_in n a p b q -> am N p Q -> n <= N /\ am (N - n) q Q.
Proof.
  intros Hr A. induction Hr as [a p|n a p b q c Hr IH Ho|n a p b q c r Hr IH Hs].
  - split; [lia|]. rewrite Nat.sub_0_r. exact A.
  - auto.
  - destruct (IH A) as (Le & A'). destruct (am_pstep _ _ _ _ _ _ Hs A') as (Le' & A2). split; [lia|].
    replace (N - S n) with (N - n - 1) by lia. exact A2.
Qed.
Lemma runs_in_runs {L R} `{Ord L} n (p : prog L R) a b q : runs_in n a p b q -> runs a p b q.
Proof.
  intros Hr. induction Hr as [a p|n a p b q c Hr IH Ho|n a p b q c r Hr IH Hs]; [constructor|eapply runs_others; eauto|eapply runs_step; eauto].
Qed.
Lemma goes_on {L R} `{Ord L} (a : arena L) (p : prog L R) : p <> Panic -> p <> OutOfFuel -> returned_or_can_step a p.
Proof.
  intros A B. destruct p as [x|i k|n k|n k| |]; try congruence; [left; eauto| | |]; right.
  - destruct (a_get a i) as [n|] eqn:E; eauto using P_get, P_get_panic.
  - eauto using P_find.
  - eauto using P_add.
Qed.

(** ** more fuel changes nothing but [OutOfFuel] *)
Fixpoint lep {L R} (p q : prog L R) {struct p} : Prop :=
  match p, q with
  | OutOfFuel, _ => True
  | Ret x, Ret y => x = y
  | Get i k, Get j k' => i = j /\ forall x, lep (k x) (k' x)
  | Find i k, Find j k' => i = j /\ forall x, lep (k x) (k' x)
  | Add i k, Add j k' => i = j /\ forall x, lep (k x) (k' x)
  | Panic, Panic => True
  | _, _ => False
  end.
Lemma lep_refl {L R} (p : prog L R) : lep p p.
Proof. induction p; cbn; auto. Qed.
Lemma lep_bind {L A B} (p q : prog L A) (f g : A -> prog L B) : lep p q -> (forall x, lep (f x) (g x)) -> lep (pbind p f) (pbind q g).
Proof.
  revert q. induction p as [x|i k IH|i k IH|i k IH| |]; intros q Hp Hf; destruct q; cbn in *; try contradiction; auto.
  - subst. apply Hf.
  - destruct Hp as (-> & Hk). split; auto.
  - destruct Hp as (-> & Hk). split; auto.
  - destruct Hp as (-> & Hk). split; auto.
Qed.
Lemma lep_fold {L A B} (f g : B -> A -> prog L B) (l : list A) : (forall b x, lep (f b x) (g b x)) -> forall b, lep (pfoldM f l b) (pfoldM g l b).
Proof. intros J. induction l as [|x l IH]; intros b; cbn [pfoldM]; [apply lep_refl|]. apply lep_bind; auto. Qed.
Lemma lep_trans {L R} (p : prog L R) : forall q r, lep p q -> lep q r -> lep p r.
Proof.
  induction p as [x|i k IH|i k IH|i k IH| |]; intros q r A B; destruct q; cbn in A; try contradiction; destruct r; cbn in B; try contradiction; cbn; auto;
    try congruence; (destruct A as (-> & A); destruct B as (-> & B); split; [reflexivity|eauto]).
Qed.
Ltac lep1 := lazymatch goal with
  | |- lep OutOfFuel _ => exact Logic.I
  | |- lep (Ret _) (Ret _) => reflexivity
  | |- lep Panic Panic => exact Logic.I
  | |- lep (pbind _ _) (pbind _ _) => apply lep_bind; [|intros ?]
  | |- lep (pfoldM _ _ _) (pfoldM _ _ _) => apply lep_fold; intros ? ?
  | |- lep (match ?x with _ => _ end) _ => destruct x
  | |- lep _ _ => first [apply lep_refl | solve [auto with lep] | match goal with H : _ |- _ => solve [apply H; auto] end]
  end.
Create HintDb lep.
Ltac leps := repeat (cbv beta zeta; lep1).

Lemma lep_pstep {L R} `{Ord L} (p q q' : prog L R) a b : pstep a q b q' -> lep p q -> p = OutOfFuel \/ exists p', pstep a p b p' /\ lep p' q'.
Proof.
  intros S. destruct S as [a i k n E|a i k E|a n k|a n k]; destruct p; cbn; intros A; try contradiction; auto; destruct A as (-> & A); right.
  - exists (k0 n). split; [constructor; exact E|apply A].
  - exists Panic. split; [constructor; exact E|exact Logic.I].
  - eexists. split; [constructor|apply A].
  - eexists. split; [constructor|apply A].
Qed.
Lemma lep_runs {L R} `{Ord L} n (p q q' : prog L R) a b : runs_in n a q b q' -> lep p q ->
  exists m c p', runs_in m a p c p' /\ (p' = OutOfFuel \/ (m = n /\ c = b /\ lep p' q')).
Proof.
  intros Hr J. induction Hr as [a q|n a q b q1 c Hr IH Ho|n a q b q1 c q2 Hr IH Hs].
  - exists 0, a, p. split; [constructor|]. auto.
  - destruct (IH J) as (m & d & p' & Hp & [E|(-> & -> & Hl)]); [exists m, d, p'; auto|].
    exists n, c, p'. split; [eapply runs_in_others; eauto|auto].
  - destruct (IH J) as (m & d & p' & Hp & [E|(-> & -> & Hl)]); [exists m, d, p'; auto|].
    destruct (lep_pstep _ _ _ _ _ Hs Hl) as [->|(p2 & S2 & L2)]; [exists n, b, OutOfFuel; auto|].
    exists (S n), c, p2. split; [eapply runs_in_step; eauto|auto].
Qed.

(** what a store gives: a program that keeps its promises in every arena makes a bounded number of accesses *)
Lemma bounded {L R} `{Ord L} (m : nat -> prog L R) F N Q : (forall f f', f <= f' -> lep (m f) (m f')) -> am N (m F) any ->
  forall a, AInv a -> wp true a (m F) Q -> forall fuel, F <= fuel -> forall n b q, runs_in n a (m fuel) b q ->
  n <= N /\ q <> OutOfFuel /\ q <> Panic /\ returned_or_can_step b q.
Proof.
  intros Hm A a I0 W fuel Hf n b q Hr.
  assert (J : lep (m F) (m fuel)).
  { apply Hm, Hf. }
  destruct (lep_runs _ _ _ _ _ _ Hr J) as (k & c & p' & Hp & X).
  destruct (runs_wp _ true _ _ _ _ I0 W (runs_in_runs _ _ _ _ _ Hp)) as (I1 & _ & W1).
  destruct (am_runs _ _ _ _ _ _ _ Hp A) as (Le & _).
  destruct X as [->|(-> & -> & Hl)]; [discriminate W1|].
  assert (X : q <> OutOfFuel /\ q <> Panic).
  { destruct p', q; cbn in Hl; try contradiction; try (split; discriminate); discriminate W1. }
  split; [exact Le|]. split; [apply X|]. split; [apply X|]. apply goes_on; apply X.
Qed.
