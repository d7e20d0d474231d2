(** ParserProofs: facts about the node texts. *)
From Coq Require Import List Arith NArith Lia Bool Permutation Sorted.
From Verif Require Import Base DD Spec Zdd2Model Zdd2Node ZddModel ParserModel ParserSpec.
Import ListNotations.
Open Scope N_scope.

Lemma is_blank_true c : is_blank c = true <-> c = 32 \/ c = 9 \/ c = 13 \/ c = 10.
Proof. unfold is_blank. rewrite !orb_true_iff, !N.eqb_eq. tauto. Qed.
Lemma is_digit_true c : is_digit c = true <-> 48 <= c <= 57.
Proof. unfold is_digit. rewrite andb_true_iff, !N.leb_le. tauto. Qed.

Lemma sp_split i : exists w, i = w ++ sp i /\ blank w.
Proof.
  induction i as [|c i IH]; [exists []; split; [reflexivity|intros c []]|]. cbn [sp].
  destruct (is_blank c) eqn:E.
  - destruct IH as (w & A & B). exists (c :: w). split; [cbn; congruence|].
    intros d [<-|I]; [apply is_blank_true; exact E|auto].
  - exists []. split; [reflexivity|intros d []].
Qed.
Lemma sp_app w x : blank w -> match x with c :: _ => is_blank c = false | [] => True end -> sp (w ++ x) = x.
Proof.
  intros B X. induction w as [|c w IH].
  - destruct x as [|c x]; [reflexivity|]. cbn. rewrite X. reflexivity.
  - cbn. rewrite (proj2 (is_blank_true c) (B c (or_introl eq_refl))). apply IH. intros d I. apply B. right; exact I.
Qed.
Lemma sp_idem i : sp (sp i) = sp i.
Proof. induction i as [|c i IH]; [reflexivity|]. cbn. destruct (is_blank c) eqn:E; [exact IH|]. cbn. rewrite E. reflexivity. Qed.

Lemma span_split i : forall ds r, span_digits i = (ds, r) ->
  i = ds ++ r /\ digits ds /\ match r with c :: _ => is_digit c = false | [] => True end.
Proof.
  induction i as [|c i IH]; cbn [span_digits]; intros ds r E.
  - injection E as <- <-. split; [reflexivity|]. split; [intros c []|exact I].
  - destruct (is_digit c) eqn:D.
    + destruct (span_digits i) as [ds' r'] eqn:E'. injection E as <- <-.
      destruct (IH ds' r' eq_refl) as (A & B & C). split; [cbn; congruence|]. split; [|exact C].
      intros d [<-|I]; [apply is_digit_true; exact D|auto].
    + injection E as <- <-. split; [reflexivity|]. split; [intros d []|exact D].
Qed.
Lemma span_app ds r : digits ds -> match r with c :: _ => is_digit c = false | [] => True end ->
  span_digits (ds ++ r) = (ds, r).
Proof.
  intros D R. induction ds as [|c ds IH].
  - destruct r as [|c r]; [reflexivity|]. cbn. rewrite R. reflexivity.
  - cbn. rewrite (proj2 (is_digit_true c) (D c (or_introl eq_refl))). rewrite IH; [reflexivity|].
    intros d I. apply D. right; exact I.
Qed.

Lemma digits_value_numeral ds : digits_value ds = numeral_from 0 ds.
Proof.
  unfold digits_value. generalize 0 as acc. induction ds as [|d ds IH]; intros acc; [reflexivity|]. cbn [fold_left numeral_from]. apply IH.
Qed.

(** ** decimal *)
Lemma numeral_from_app a : forall b acc, numeral_from acc (a ++ b) = numeral_from (numeral_from acc a) b.
Proof. induction a as [|d a IH]; intros b acc; [reflexivity|]. apply IH. Qed.
Lemma decimal_f_spec fuel : forall n, n < 10 ^ N.of_nat fuel -> fuel <> O ->
  digits (decimal_f fuel n) /\ numeral_from 0 (decimal_f fuel n) = n /\ decimal_f fuel n <> [].
Proof.
  induction fuel as [|k IH]; intros n L F; [congruence|]. cbn [decimal_f].
  destruct (N.ltb_spec n 10) as [Sm|Sm].
  - split; [|split; [|discriminate]].
    + intros c [<-|[]]. lia.
    + cbn [numeral_from]. lia.
  - destruct k as [|k].
    { change (10 ^ N.of_nat 1) with 10 in L. lia. }
    assert (Q : n / 10 < 10 ^ N.of_nat (S k)).
    { apply N.div_lt_upper_bound; [lia|]. rewrite <- N.pow_succ_r'. rewrite <- Nat2N.inj_succ. exact L. }
    destruct (IH (n / 10) Q ltac:(discriminate)) as (A & B & C).
    pose proof (N.mod_lt n 10 ltac:(lia)) as M. pose proof (N.div_mod n 10 ltac:(lia)) as E.
    split; [|split].
    + intros c I. apply in_app_iff in I. destruct I as [I|[<-|[]]]; [auto|]. clear - M. set (m := n mod 10) in *. clearbody m. lia.
    + rewrite numeral_from_app, B. cbn [numeral_from]. clear - E. set (q := n / 10) in *. set (m := n mod 10) in *. clearbody q m. lia.
    + intros X. apply app_eq_nil in X. destruct X as (_ & X). discriminate.
Qed.
Lemma decimal_spec n : numeral (decimal n) n.
Proof.
  unfold decimal. destruct (decimal_f_spec (S (N.size_nat n)) n) as (A & B & C); [|discriminate|split; [exact C|split; assumption]].
  eapply N.lt_le_trans; [|apply N.pow_le_mono_l; instantiate (1 := 2); lia].
  rewrite Nat2N.inj_succ, N.pow_succ_r'.
  assert (X : n < 2 ^ N.of_nat (N.size_nat n)).
  { destruct n as [|p]; [reflexivity|]. pose proof (N.size_gt (N.pos p)) as G.
    replace (N.of_nat (N.size_nat (N.pos p))) with (N.size (N.pos p)); [exact G|].
    clear. induction p as [p IH|p IH|]; [| |reflexivity].
    - change (N.size (N.pos p~1)) with (N.succ (N.size (N.pos p))). rewrite IH.
      change (N.size_nat (N.pos p~1)) with (Datatypes.S (N.size_nat (N.pos p))). rewrite Nat2N.inj_succ. reflexivity.
    - change (N.size (N.pos p~0)) with (N.succ (N.size (N.pos p))). rewrite IH.
      change (N.size_nat (N.pos p~0)) with (Datatypes.S (N.size_nat (N.pos p))). rewrite Nat2N.inj_succ. reflexivity. }
  lia.
Qed.

(** ** the parser *)
Section Parser.
  Variables a b : N.
  Hypothesis ab : a <> b.
  Hypothesis a_letter : is_blank a = false /\ is_digit a = false.
  Hypothesis b_letter : is_blank b = false /\ is_digit b = false.
  Variable mk : nat -> dd nat -> dd nat -> option (dd nat).
  Notation P := (node_parser [40; a; 41] [40; b; 41] mk).
  Notation spells := (spells a b).

  Lemma tag_some t : forall i r, tag t i = Some r <-> i = t ++ r.
  Proof.
    induction t as [|c t IH]; intros i r; cbn [tag app].
    - split; [intros [= ->]; reflexivity|intros ->; reflexivity].
    - destruct i as [|d i]; [split; discriminate|]. destruct (N.eqb_spec c d) as [->|N].
      + rewrite IH. split; [intros ->; reflexivity|intros [= ->]; reflexivity].
      + split; [discriminate|intros [= -> _]; congruence].
  Qed.

  Lemma spells_head n s : spells n s -> exists s', s = 40 :: s'.
  Proof. destruct 1; eexists; reflexivity. Qed.

  Lemma node_id_ok ds v r : numeral ds v -> v < 2 ^ 64 ->
    match r with c :: _ => is_digit c = false | [] => True end -> node_id (ds ++ r) = POk r v.
  Proof.
    intros (N & D & V) L R. unfold node_id. rewrite (span_app ds r D R). destruct ds as [|d ds]; [congruence|].
    unfold parse_usize. cbv zeta. rewrite digits_value_numeral, V. unfold usize_limit.
    destruct (N.ltb_spec v (2 ^ 64)); [reflexivity|lia].
  Qed.
  Lemma node_id_inv i r v : node_id i = POk r v -> exists ds, i = ds ++ r /\ numeral ds v /\ v < 2 ^ 64.
  Proof.
    unfold node_id. destruct (span_digits i) as [ds r'] eqn:E. apply span_split in E. destruct E as (A & B & _).
    destruct ds as [|d ds]; [discriminate|]. unfold parse_usize. cbv zeta. unfold usize_limit.
    destruct (N.ltb_spec (digits_value (d :: ds)) (2 ^ 64)) as [L|L]; [|discriminate].
    intros [= <- <-]. exists (d :: ds). split; [exact A|]. split; [|exact L]. split; [discriminate|]. split; [exact B|].
    symmetry; apply digits_value_numeral.
  Qed.
  Lemma node_id_not_stuck i : node_id i <> PStuck.
  Proof.
    unfold node_id. destruct (span_digits i) as [[|d ds] r]; [discriminate|]. destruct (parse_usize _); discriminate.
  Qed.

  Lemma blank_head_not_digit w x : blank w -> match x with c :: _ => is_digit c = false | [] => True end ->
    match w ++ x with c :: _ => is_digit c = false | [] => True end.
  Proof.
    destruct w as [|c w]; [auto|]. intros B _. cbn. destruct (B c (or_introl eq_refl)) as [->|[->|[->| ->]]]; reflexivity.
  Qed.

  Lemma P_complete raw s : spells raw s -> forall d fuel rest, build mk raw = Some d -> (length s < fuel)%nat ->
    P fuel (s ++ rest) = POk rest d.
  Proof.
    induction 1 as [| |v low high w1 ds w2 sl w3 sh w4 Nu L B1 B2 B3 B4 Sl IHl Sh IHh]; intros d fuel rest E F.
    - injection E as <-. destruct fuel as [|k]; [cbn in F; lia|]. cbn. rewrite N.eqb_refl. reflexivity.
    - injection E as <-. destruct fuel as [|k]; [cbn in F; lia|]. cbn. rewrite N.eqb_refl.
      destruct (N.eqb_spec a b); [congruence|]. reflexivity.
    - destruct fuel as [|k]; [cbn in F; lia|].
      assert (F' : (length sl < k)%nat /\ (length sh < k)%nat).
      { rewrite !app_length in F. cbn in F. lia. }
      destruct F' as (Fl & Fh).
      cbn [build bind] in E. destruct (build mk low) as [lo'|] eqn:El; [|discriminate]. cbn [bind] in E.
      destruct (build mk high) as [hi'|] eqn:Eh; [|discriminate]. cbn [bind] in E.
      destruct (spells_head _ _ Sl) as (sl' & Hl). destruct (spells_head _ _ Sh) as (sh' & Hh).
      assert (R : ([40] ++ w1 ++ ds ++ w2 ++ sl ++ w3 ++ sh ++ w4 ++ [41]) ++ rest
                  = 40 :: w1 ++ ds ++ w2 ++ sl ++ w3 ++ sh ++ w4 ++ 41 :: rest).
      { cbn [app]. repeat (rewrite <- app_assoc; cbn [app]). reflexivity. }
      rewrite R. cbn [node_parser].
      assert (Nt : forall c, is_blank c = false /\ is_digit c = false ->
                tag [40; c; 41] (40 :: w1 ++ ds ++ w2 ++ sl ++ w3 ++ sh ++ w4 ++ 41 :: rest) = None).
      { intros c (Nb & Nd). destruct (tag _ _) as [r|] eqn:X; [|reflexivity]. exfalso. apply tag_some in X.
        cbn [app] in X. injection X as X. destruct w1 as [|c1 w1].
        - destruct ds as [|d1 ds]; [destruct Nu as (Z & _); congruence|]. cbn [app] in X. injection X as -> _.
          destruct Nu as (_ & D & _). pose proof (proj2 (is_digit_true c) (D c (or_introl eq_refl))). congruence.
        - cbn [app] in X. injection X as -> _. pose proof (proj2 (is_blank_true c) (B1 c (or_introl eq_refl))). congruence. }
      rewrite (Nt a a_letter), (Nt b b_letter). cbn [tag]. rewrite N.eqb_refl.
      unfold ws at 1. rewrite (sp_app w1); [|exact B1|].
      2:{ destruct ds as [|d1 ds]; [destruct Nu as (Z & _); congruence|]. cbn. destruct Nu as (_ & D & _).
          specialize (D d1 (or_introl eq_refl)). destruct (is_blank d1) eqn:X; [|reflexivity]. apply is_blank_true in X. lia. }
      rewrite (node_id_ok ds v); [|exact Nu|exact L|apply blank_head_not_digit; [exact B2|rewrite Hl; reflexivity]].
      cbn [pbind]. unfold ws at 1. rewrite sp_idem.
      rewrite (sp_app w2); [|exact B2|rewrite Hl; reflexivity].
      rewrite (IHl lo' k _ eq_refl Fl). cbn [pbind]. unfold ws. rewrite sp_idem.
      rewrite (sp_app w3); [|exact B3|rewrite Hh; reflexivity].
      rewrite (IHh hi' k _ eq_refl Fh). cbn [pbind].
      rewrite (sp_app w4); [|exact B4|reflexivity]. rewrite N.eqb_refl. rewrite E. reflexivity.
  Qed.

  Lemma ws_inv {A} (p : list N -> presult A) i r x : ws p i = POk r x ->
    exists w1 w2 r0, i = w1 ++ sp i /\ blank w1 /\ p (sp i) = POk r0 x /\ r0 = w2 ++ r /\ blank w2.
  Proof.
    unfold ws. destruct (p (sp i)) as [r0 x0| |] eqn:E; try discriminate. intros [= <- <-].
    destruct (sp_split i) as (w1 & X1 & X2). destruct (sp_split r0) as (w2 & X3 & X4). exists w1, w2, r0. auto.
  Qed.

  Lemma P_sound fuel : forall i rest d, P fuel i = POk rest d ->
    exists raw s, i = s ++ rest /\ spells raw s /\ build mk raw = Some d.
  Proof.
    induction fuel as [|k IH]; intros i rest d; cbn [node_parser]; [discriminate|].
    destruct (tag [40; a; 41] i) as [r|] eqn:E1.
    { intros [= <- <-]. apply tag_some in E1. exists (Leaf true), [40; a; 41]. split; [exact E1|]. split; [constructor|reflexivity]. }
    destruct (tag [40; b; 41] i) as [r|] eqn:E2.
    { intros [= <- <-]. apply tag_some in E2. exists (Leaf false), [40; b; 41]. split; [exact E2|]. split; [constructor|reflexivity]. }
    destruct (tag [40] i) as [i1|] eqn:E3; [|discriminate]. apply tag_some in E3.
    destruct (ws node_id i1) as [i2 v| |] eqn:E4; cbn [pbind]; try discriminate.
    destruct (ws (P k) i2) as [i3 lo| |] eqn:E5; cbn [pbind]; try discriminate.
    destruct (ws (P k) i3) as [i4 hi| |] eqn:E6; cbn [pbind]; try discriminate.
    destruct (tag [41] i4) as [r|] eqn:E7; [|discriminate]. apply tag_some in E7.
    destruct (mk (N.to_nat v) lo hi) as [n|] eqn:E8; [|discriminate]. intros [= <- <-].
    apply ws_inv in E4. destruct E4 as (w1 & w2 & r4 & A1 & B1 & C1 & D1 & F1).
    apply ws_inv in E5. destruct E5 as (w2' & w3 & r5 & A2 & B2 & C2 & D2 & F2).
    apply ws_inv in E6. destruct E6 as (w3' & w4 & r6 & A3 & B3 & C3 & D3 & F3).
    apply node_id_inv in C1. destruct C1 as (ds & X1 & Nu & L).
    apply IH in C2. destruct C2 as (rl & sl & X2 & Sl & Bl).
    apply IH in C3. destruct C3 as (rh & sh & X3 & Sh & Bh).
    exists (Branch (N.to_nat v) rl rh), ([40] ++ w1 ++ ds ++ (w2 ++ w2') ++ sl ++ (w3 ++ w3') ++ sh ++ w4 ++ [41]).
    split; [|split].
    - rewrite E3, A1, X1, D1, A2, X2, D2, A3, X3, D3, E7. cbn [app]. rewrite <- !app_assoc. cbn [app].
      rewrite <- ?app_assoc. reflexivity.
    - constructor; auto; intros c I; apply in_app_iff in I; destruct I; auto.
    - cbn [build]. rewrite Bl, Bh. cbn [bind]. exact E8.
  Qed.

  Lemma sp_length i : (length (sp i) <= length i)%nat.
  Proof. destruct (sp_split i) as (w & A & _). rewrite A at 2. rewrite app_length. lia. Qed.
  Lemma P_length fuel i rest d : P fuel i = POk rest d -> (length rest < length i)%nat.
  Proof.
    intros E. apply P_sound in E. destruct E as (raw & s & -> & S & _). apply spells_head in S.
    destruct S as (s' & ->). cbn. rewrite app_length. lia.
  Qed.

  (** the parser answers, if the constructor does on what the parser builds *)
  Variable Q : dd nat -> Prop.
  Hypothesis Q_leaf : forall v, Q (Leaf v).
  Hypothesis Q_mk : forall i lo hi, Q lo -> Q hi -> exists r, mk i lo hi = Some r /\ Q r.

  Lemma P_Q fuel : forall i rest d, P fuel i = POk rest d -> Q d.
  Proof.
    induction fuel as [|k IH]; intros i rest d; cbn [node_parser]; [discriminate|].
    destruct (tag [40; a; 41] i); [intros [= <- <-]; apply Q_leaf|].
    destruct (tag [40; b; 41] i); [intros [= <- <-]; apply Q_leaf|].
    destruct (tag [40] i) as [i1|]; [|discriminate].
    destruct (ws node_id i1) as [i2 v| |]; cbn [pbind]; try discriminate.
    destruct (ws (P k) i2) as [i3 lo| |] eqn:E5; cbn [pbind]; try discriminate.
    destruct (ws (P k) i3) as [i4 hi| |] eqn:E6; cbn [pbind]; try discriminate.
    destruct (tag [41] i4); [|discriminate].
    apply ws_inv in E5. destruct E5 as (? & ? & ? & _ & _ & C5 & _).
    apply ws_inv in E6. destruct E6 as (? & ? & ? & _ & _ & C6 & _).
    destruct (Q_mk (N.to_nat v) lo hi) as (r & -> & Qr); [eauto|eauto|]. intros [= <- <-]. exact Qr.
  Qed.

  Lemma P_total fuel : forall i, (length i < fuel)%nat -> P fuel i <> PStuck.
  Proof.
    induction fuel as [|k IH]; intros i L; [lia|]. cbn [node_parser].
    destruct (tag [40; a; 41] i); [discriminate|]. destruct (tag [40; b; 41] i); [discriminate|].
    destruct (tag [40] i) as [i1|] eqn:E3; [|discriminate]. apply tag_some in E3. subst i. cbn [app length] in L.
    destruct (ws node_id i1) as [i2 v| |] eqn:E4; cbn [pbind]; [|discriminate|].
    2:{ exfalso. unfold ws in E4. destruct (node_id (sp i1)) eqn:X; try discriminate. eapply node_id_not_stuck; exact X. }
    apply ws_inv in E4. destruct E4 as (w1 & w2 & r4 & A1 & _ & C1 & D1 & _).
    apply node_id_inv in C1. destruct C1 as (ds & X1 & Nu & _).
    assert (L2 : (length i2 <= length i1)%nat).
    { rewrite A1, X1, D1, !app_length. lia. }
    destruct (ws (P k) i2) as [i3 lo| |] eqn:E5; cbn [pbind]; [|discriminate|].
    2:{ exfalso. unfold ws in E5. destruct (P k (sp i2)) eqn:X; try discriminate. pose proof (sp_length i2). eapply IH; [|exact X]. lia. }
    pose proof E5 as E5'. apply ws_inv in E5'. destruct E5' as (? & w3 & r5 & A2 & _ & C2 & D2 & _).
    pose proof (P_length _ _ _ _ C2) as L3. pose proof (sp_length i2).
    assert (L4 : (length i3 <= length r5)%nat) by (rewrite D2, app_length; lia).
    destruct (ws (P k) i3) as [i4 hi| |] eqn:E6; cbn [pbind]; [|discriminate|].
    2:{ exfalso. unfold ws in E6. destruct (P k (sp i3)) eqn:X; try discriminate. pose proof (sp_length i3). eapply IH; [|exact X]. lia. }
    apply ws_inv in E6. destruct E6 as (? & w4 & r6 & A3 & _ & C3 & D3 & _).
    destruct (tag [41] i4); [|discriminate].
    destruct (Q_mk (N.to_nat v) lo hi) as (r & -> & _); [eapply P_Q; exact C2|eapply P_Q; exact C3|]. discriminate.
  Qed.

  (** printing *)
  Lemma print_spells n : fits n -> spells n (print_node [40; a; 41] [40; b; 41] n).
  Proof.
    induction n as [[]|i lo IHl hi IHh]; intros F; [constructor|constructor|]. cbn [print_node].
    rewrite <- (Nat2N.id i) at 1.
    assert (X : forall d, [40] ++ decimal d ++ [32] ++ print_node [40; a; 41] [40; b; 41] lo ++ [32] ++
        print_node [40; a; 41] [40; b; 41] hi ++ [41] =
      [40] ++ [] ++ decimal d ++ [32] ++ print_node [40; a; 41] [40; b; 41] lo ++ [32] ++
        print_node [40; a; 41] [40; b; 41] hi ++ [] ++ [41]) by reflexivity.
    rewrite X. apply sp_branch.
    - apply decimal_spec.
    - apply F. left; reflexivity.
    - intros c [].
    - intros c [<-|[]]. auto.
    - intros c [<-|[]]. auto.
    - intros c [].
    - apply IHl. intros j J. apply F. simpl. rewrite in_app_iff. auto.
    - apply IHh. intros j J. apply F. simpl. rewrite in_app_iff. auto.
  Qed.
End Parser.

(** ** ASCII texts are their own bytes, and [trim] leaves them alone *)
Lemma as_bytes_ascii s : (forall c, In c s -> c < 0x80) -> as_bytes s = s.
Proof.
  induction s as [|c s IH]; intros A; [reflexivity|]. unfold as_bytes. cbn [flat_map]. unfold encode_utf8 at 1.
  rewrite (proj2 (N.ltb_lt c 0x80) (A c (or_introl eq_refl))). cbn [app]. f_equal.
  apply IH. intros d I. apply A. right; exact I.
Qed.
Lemma print_ascii a b n : a < 0x80 -> b < 0x80 ->
  forall c, In c (print_node [40; a; 41] [40; b; 41] n) -> c < 0x80.
Proof.
  intros A B. induction n as [[]|i lo IHl hi IHh]; cbn [print_node]; intros c I.
  - repeat destruct I as [<-|I]; try destruct I; lia.
  - repeat destruct I as [<-|I]; try destruct I; lia.
  - rewrite !in_app_iff in I. destruct (decimal_spec (N.of_nat i)) as (_ & D & _).
    destruct I as [[<-|[]]|[I|[[<-|[]]|[I|[[<-|[]]|[I|[<-|[]]]]]]]]; auto; try lia.
    specialize (D c I). lia.
Qed.
Lemma trim_fix s x y t : s = x :: t -> (exists u, s = u ++ [y]) -> is_whitespace x = false -> is_whitespace y = false -> trim s = s.
Proof.
  intros E (u & E') X Y. unfold trim.
  assert (A : trim_start s = s) by (rewrite E; cbn; rewrite X; reflexivity). rewrite A.
  rewrite E', rev_app_distr. cbn [rev app trim_start]. rewrite Y. cbn [rev]. rewrite rev_involutive. reflexivity.
Qed.
Lemma print_trim a b n : trim (print_node [40; a; 41] [40; b; 41] n) = print_node [40; a; 41] [40; b; 41] n.
Proof.
  destruct n as [[]|i lo hi]; cbn [print_node].
  - apply (trim_fix _ 40 41 [a; 41]); auto. exists [40; a]. reflexivity.
  - apply (trim_fix _ 40 41 [b; 41]); auto. exists [40; b]. reflexivity.
  - eapply (trim_fix _ 40 41); [reflexivity| |reflexivity|reflexivity].
    eexists. rewrite !app_assoc. reflexivity.
Qed.

(** [Node::branch] keeps an ordered, zero-suppressed diagram as it is *)
Lemma build_zwf n : forall k, zwf k n -> build branch n = Some n.
Proof.
  induction n as [v|i lo IHl hi IHh]; intros k W; [reflexivity|]. cbn [build].
  destruct W as (W1 & W2 & W3 & W4). rewrite (IHl _ W3), (IHh _ W4). cbn [bind].
  rewrite (branch_direct i lo hi W3 W4). unfold zmk. destruct hi as [[]|]; [reflexivity|congruence|reflexivity].
Qed.
Lemma build_id n : build (fun i lo hi => Some (zbranch i lo hi)) n = Some n.
Proof. induction n as [v|i lo IHl hi IHh]; [reflexivity|]. cbn [build]. rewrite IHl, IHh. reflexivity. Qed.
