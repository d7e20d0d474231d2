(** ParserThm: proofs of the property theorems about node texts, serialization
    and Debug output. *)
From Coq Require Import List Arith NArith Lia Bool Permutation Sorted.
From Verif Require Import Base DD Spec Zdd2Model ZddModel ParserSpec ParserModel.
Import ListNotations.
From Verif Require Import Zdd2Node Zdd2Node2 Zdd2Univ Zdd2Forest Zdd2Forest2 Zdd2Forest3 Zdd2Laws Zdd2Thm ZddProofs ParserProofs ParserPlaced.
Open Scope N_scope.

Lemma AN_neq : 65 <> 78. Proof. discriminate. Qed.
Lemma TF_neq : 84 <> 70. Proof. discriminate. Qed.
Lemma letter_A : is_blank 65 = false /\ is_digit 65 = false. Proof. split; reflexivity. Qed.
Lemma letter_N : is_blank 78 = false /\ is_digit 78 = false. Proof. split; reflexivity. Qed.
Lemma letter_T : is_blank 84 = false /\ is_digit 84 = false. Proof. split; reflexivity. Qed.
Lemma letter_F : is_blank 70 = false /\ is_digit 70 = false. Proof. split; reflexivity. Qed.

Lemma branch_zwf0 i lo hi : zwf 0 lo -> zwf 0 hi -> exists r, branch i lo hi = Some r /\ zwf 0 r.
Proof.
  intros A B. destruct (branch_total 0 i lo hi (Nat.le_0_l _) A B) as (r & E & W & _). eauto.
Qed.

(** ** the two parsers, exactly *)
Lemma parse_node_exact s d : parse_node_string s = Parsed d <->
  exists raw t rest, as_bytes (trim s) = t ++ rest /\ spells 65 78 raw t /\ build branch raw = Some d.
Proof.
  unfold parse_node_string. cbv zeta. set (i := as_bytes (trim s)). unfold finish. split.
  - destruct (node_parser _ _ _ _ i) as [rest n| |] eqn:E; try discriminate. intros [= <-].
    apply P_sound in E. destruct E as (raw & t & A & B & C). exists raw, t, rest. auto.
  - intros (raw & t & rest & -> & S & B).
    unfold text_always, text_never.
    rewrite (P_complete 65 78 AN_neq letter_A letter_N branch raw t S d _ rest B); [reflexivity|].
    rewrite app_length. lia.
Qed.
Lemma parse_node_not_stuck s : parse_node_string s <> Stuck.
Proof.
  unfold parse_node_string. cbv zeta. set (i := as_bytes (trim s)). unfold finish.
  pose proof (P_total 65 78 AN_neq branch (zwf 0) (fun _ => I) branch_zwf0 (S (length i)) i (Nat.lt_succ_diag_r _)) as T.
  unfold text_always, text_never. destruct (node_parser _ _ _ _ i); congruence.
Qed.
Lemma parse_node_zwf s d : parse_node_string s = Parsed d -> zwf 0 d.
Proof.
  unfold parse_node_string. cbv zeta. set (i := as_bytes (trim s)). unfold finish.
  destruct (node_parser _ _ _ _ i) as [rest n| |] eqn:E; try discriminate. intros [= <-].
  revert E. apply (P_Q 65 78 branch (zwf 0) (fun _ => I) branch_zwf0).
Qed.
Lemma zparse_node_exact s d : zparse_node_string s = Parsed d <->
  exists t rest, as_bytes s = t ++ rest /\ spells 84 70 d t.
Proof.
  unfold zparse_node_string. cbv zeta. set (i := as_bytes s). unfold finish. split.
  - destruct (node_parser _ _ _ _ i) as [rest n| |] eqn:E; try discriminate. intros [= <-].
    apply P_sound in E. destruct E as (raw & t & A & B & C). rewrite build_id in C. injection C as ->. exists t, rest. auto.
  - intros (t & rest & -> & S). unfold text_T, text_F.
    rewrite (P_complete 84 70 TF_neq letter_T letter_F _ d t S d _ rest (build_id d)); [reflexivity|].
    rewrite app_length. lia.
Qed.
Lemma zparse_node_not_stuck s : zparse_node_string s <> Stuck.
Proof.
  unfold zparse_node_string. cbv zeta. set (i := as_bytes s). unfold finish.
  pose proof (P_total 84 70 TF_neq (fun id lo hi => Some (zbranch id lo hi)) (fun _ => True) (fun _ => I)
    (fun i lo hi _ _ => ex_intro _ (zbranch i lo hi) (conj eq_refl I)) (S (length i)) i (Nat.lt_succ_diag_r _)) as T.
  unfold text_T, text_F. destruct (node_parser _ _ _ _ i); congruence.
Qed.

Lemma spells_nonblank a b raw t : spells a b raw t ->
  (exists t', t = 40 :: t') /\ (exists t', t = t' ++ [41]).
Proof.
  intros S. destruct S; (split; [eexists; reflexivity|]).
  - exists [40; a]; reflexivity.
  - exists [40; b]; reflexivity.
  - eexists. rewrite !app_assoc. reflexivity.
Qed.
Lemma spells_ascii a b raw t : a < 128 -> b < 128 -> spells a b raw t -> forall c, In c t -> c < 128.
Proof.
  intros A B. induction 1 as [| |v low high w1 ds w2 sl w3 sh w4 (_ & D & _) L B1 B2 B3 B4 Sl IHl Sh IHh]; intros c I.
  - repeat destruct I as [<-|I]; try destruct I; lia.
  - repeat destruct I as [<-|I]; try destruct I; lia.
  - rewrite !in_app_iff in I.
    destruct I as [[<-|[]]|[I|[I|[I|[I|[I|[I|[I|[<-|[]]]]]]]]]]; try lia; auto;
      try (apply B1 in I || apply B2 in I || apply B3 in I || apply B4 in I; lia).
    specialize (D c I). lia.
Qed.

(** strings and their bytes *)
Lemma encode_head c : (c < 0x80 /\ encode_utf8 c = [c]) \/ (0x80 <= c /\ exists x r, encode_utf8 c = x :: r /\ 0x80 <= x).
Proof.
  unfold encode_utf8. destruct (N.ltb_spec c 0x80); [auto|]. right. split; [assumption|].
  destruct (c <? 0x800); [|destruct (c <? 0x10000)]; eexists; eexists; (split; [reflexivity|]).
  - set (q := c / 0x40). clearbody q. lia.
  - set (q := c / 0x1000). clearbody q. lia.
  - set (q := c / 0x40000). clearbody q. lia.
Qed.
Lemma as_bytes_app a b : as_bytes (a ++ b) = as_bytes a ++ as_bytes b.
Proof. unfold as_bytes. apply flat_map_app. Qed.
Lemma as_bytes_prefix t : (forall c, In c t -> c < 0x80) -> forall s r, as_bytes s = t ++ r ->
  exists rest, s = t ++ rest.
Proof.
  induction t as [|x t IH]; intros A s r E; [eexists; reflexivity|].
  destruct s as [|c s]; [discriminate|]. unfold as_bytes in E. cbn [flat_map] in E. fold (as_bytes s) in E.
  assert (X : x < 0x80) by (apply A; left; reflexivity).
  destruct (encode_head c) as [(C & Y)|(C & y & q & Y & Z)]; rewrite Y in E; cbn [app] in E; injection E as -> E; [|lia].
  destruct (IH (fun c I => A c (or_intror I)) s r E) as (rest & ->). exists rest. reflexivity.
Qed.
Lemma white_space_iff c : is_whitespace c = true <-> white_space c.
Proof.
  unfold is_whitespace, white_space. rewrite !orb_true_iff, !andb_true_iff, !N.leb_le, !N.eqb_eq. cbn [In]. lia.
Qed.
Lemma trim_start_split s : exists w, s = w ++ trim_start s /\ white w.
Proof.
  induction s as [|c s (w & E & W)]; [exists []; split; [reflexivity|intros ? []]|]. cbn [trim_start].
  destruct (is_whitespace c) eqn:X; [|exists []; split; [reflexivity|intros ? []]].
  exists (c :: w). split; [cbn [app]; f_equal; exact E|]. intros d [<-|I]; [apply white_space_iff; exact X|apply W; exact I].
Qed.
Lemma trim_start_skip w x : white w -> trim_start (w ++ x) = trim_start x.
Proof.
  induction w as [|c w IH]; intros F; [reflexivity|]. cbn.
  rewrite (proj2 (white_space_iff c) (F c (or_introl eq_refl))). apply IH. intros d I. apply F. right; exact I.
Qed.
(** trimming at the end does not reach into a text that ends with ")" *)
Lemma trim_end_keeps t r : (exists t', t = t' ++ [41]) -> exists r', rev (trim_start (rev (t ++ r))) = t ++ r'.
Proof.
  intros (t' & ->). rewrite rev_app_distr.
  destruct (trim_start_split (rev r)) as (w & E & W).
  destruct (trim_start (rev r)) as [|c q] eqn:Q.
  - rewrite app_nil_r in E. rewrite E, trim_start_skip by exact W. rewrite rev_app_distr. cbn [rev app trim_start].
    change (is_whitespace 41) with false. cbn [rev]. rewrite rev_involutive. exists []. rewrite app_nil_r. reflexivity.
  - rewrite E, <- app_assoc, trim_start_skip by exact W. cbn [app trim_start].
    assert (N : is_whitespace c = false).
    { clear - Q. induction (rev r) as [|d l IH]; [discriminate|]. cbn in Q. destruct (is_whitespace d) eqn:D; [auto|congruence]. }
    rewrite N. cbn [rev]. rewrite rev_app_distr, rev_involutive, <- app_assoc. eexists. reflexivity.
Qed.
Lemma trim_text s raw t rest w : spells 65 78 raw t -> white w -> s = w ++ t ++ rest ->
  exists r', trim s = t ++ r'.
Proof.
  intros S W ->. pose proof (spells_nonblank _ _ _ _ S) as ((t1 & H1) & H2). unfold trim.
  rewrite trim_start_skip by exact W.
  assert (A : trim_start (t ++ rest) = t ++ rest) by (rewrite H1; reflexivity). rewrite A. apply trim_end_keeps. exact H2.
Qed.
Lemma parse_node_exact' s d : parse_node_string s = Parsed d <->
  exists raw w t rest, s = w ++ t ++ rest /\ white w /\ spells 65 78 raw t /\ build branch raw = Some d.
Proof.
  rewrite parse_node_exact. split.
  - intros (raw & t & rest & E & S & B).
    destruct (as_bytes_prefix t (spells_ascii 65 78 raw t ltac:(lia) ltac:(lia) S) _ _ E) as (rest' & X).
    destruct (trim_start_split s) as (w & E1 & W1). destruct (trim_start_split (rev (trim_start s))) as (w2 & E2 & W2).
    exists raw, w, t, (rest' ++ rev w2). split; [|auto]. rewrite E1 at 1. f_equal.
    apply (f_equal (@rev N)) in E2. rewrite rev_involutive, rev_app_distr in E2. unfold trim in X. rewrite X in E2.
    rewrite E2, app_assoc. reflexivity.
  - intros (raw & w & t & rest & E & W & S & B). destruct (trim_text s raw t rest w S W E) as (r' & X).
    exists raw, t, (as_bytes r'). split; [|auto]. rewrite X, as_bytes_app, as_bytes_ascii; [reflexivity|].
    apply (spells_ascii 65 78 raw); [lia|lia|exact S].
Qed.
Lemma zparse_node_exact' s d : zparse_node_string s = Parsed d <->
  exists t rest, s = t ++ rest /\ spells 84 70 d t.
Proof.
  rewrite zparse_node_exact. split.
  - intros (t & rest & E & S).
    destruct (as_bytes_prefix t (spells_ascii 84 70 d t ltac:(lia) ltac:(lia) S) _ _ E) as (rest' & X). eauto.
  - intros (t & rest & -> & S). exists t, (as_bytes rest). split; [|exact S].
    rewrite as_bytes_app, as_bytes_ascii; [reflexivity|]. apply (spells_ascii 84 70 d); [lia|lia|exact S].
Qed.

Lemma zwf_shape t : forall n, zwf n t -> ordered t /\ zero_suppressed t.
Proof.
  induction t as [b|i lo IHlo hi IHhi]; intros n W; simpl; auto. simpl in W.
  destruct W as (_ & Hh & Wl & Wh). destruct (IHlo _ Wl), (IHhi _ Wh). repeat split; auto.
  intros j [Hj|Hj]; [apply (zwf_label _ _ _ Wl) in Hj|apply (zwf_label _ _ _ Wh) in Hj]; lia.
Qed.

(** C21.  The text of every ordered, zero-suppressed diagram parses back to it;
    so does the text of the root of every reachable forest. *)
Lemma C21_node_round_trip_pf : forall n : dd nat, ordered n -> zero_suppressed n -> fits n ->
  parse_node_string (build_node_string n) = Parsed n.
Proof.
  intros n O Z F. apply parse_node_exact. exists n, (build_node_string n), [].
  unfold build_node_string, text_always, text_never.
  split; [|split; [apply print_spells; exact F|]].
  - rewrite print_trim, app_nil_r. apply as_bytes_ascii. apply print_ascii; lia.
  - apply (build_zwf n 0). apply ordered_zwf; auto. intros; lia.
Qed.
Lemma C21_forest_root_round_trip_pf : forall (T : Type) (O : Ord T) (f : forest T), Reach f -> fits (f_root f) ->
  parse_node_string (build_node_string (f_root f)) = Parsed (f_root f).
Proof.
  intros T O f R F. destruct (C18_root_shape_pf T O f R) as (A & B & _). apply C21_node_round_trip_pf; assumption.
Qed.
Example C21_example :
  let n := Branch 7%nat (Branch 10%nat (Leaf true) (Leaf true)) (Branch 205%nat (Leaf false) (Leaf true)) in
  ordered n /\ zero_suppressed n /\ fits n /\
  build_node_string n = [40;55;32; 40;49;48;32;40;65;41;32;40;65;41;41;32; 40;50;48;53;32;40;78;41;32;40;65;41;41; 41] /\
  parse_node_string (build_node_string n) = Parsed n.
Proof.
  cbv zeta. split; [|split; [|split; [|split]]].
  - simpl. repeat split; try tauto; intros j [H|H]; repeat destruct H as [<-|H]; try destruct H; lia.
  - simpl. repeat split; discriminate.
  - intros i H. simpl in H. repeat destruct H as [<-|H]; try destruct H; reflexivity.
  - reflexivity.
  - reflexivity.
Qed.

(** C22.  Serializing a reachable forest and deserializing the data, the map
    entries in any order and under any hash order, gives back the forest. *)
Lemma map_collect_perm {T : Type} `{Ord T} (l m : list (T * nat)) : map_ok m -> Permutation l m -> map_collect l = m.
Proof.
  intros K P. unfold map_collect.
  assert (N : NoDup (map fst l)) by (rewrite P; apply ssorted_NoDup; exact K).
  destruct (zfold_pairs l [] ltac:(constructor) N) as (K' & G & G').
  apply amap_ext; [exact K'|exact K|]. intros x.
  destruct (map_get m x) as [v|] eqn:E.
  - apply map_get_in in E; [|exact K]. apply G. eapply Permutation_in; [symmetry; exact P|exact E].
  - rewrite G'; [reflexivity|]. rewrite P. apply map_get_none in E; assumption.
Qed.
Lemma C22_forest_round_trip_pf : forall (T : Type) (O : Ord T) (h : hash_order) (f : forest T) text entries,
  Reach f -> fits (f_root f) ->
  text = fst (f_serialize f) -> Permutation entries (snd (f_serialize f)) ->
  f_deserialize h (text, entries) = Some f.
Proof.
  intros T O h f text entries R F -> P. unfold f_deserialize, f_serialize in *. cbn [fst snd] in *.
  rewrite (C21_forest_root_round_trip_pf T O f R F). apply Reach_Canon in R. destruct R as (o & C).
  rewrite (c_univ _ _ C) in *. change (u_occ (univ_of o)) with o in P.
  rewrite (map_collect_perm entries o (c_ok _ _ C) P), from_occurrences_univ.
  rewrite <- (c_univ _ _ C). destruct f as [r u]. reflexivity.
Qed.
Example C22_example : exists f, f_many ho_id [[1;2];[2;3]]%nat = Some f /\ Reach f /\ fits (f_root f) /\
  snd (f_serialize f) = [(1, 1); (2, 2); (3, 1)]%nat /\
  f_deserialize ho_rev (fst (f_serialize f), [(3, 1); (1, 1); (2, 2)]%nat) = Some f.
Proof.
  eexists. split; [vm_compute; reflexivity|]. split; [eapply (R_many ho_id [[1;2];[2;3]]%nat); vm_compute; reflexivity|].
  split; [|split; vm_compute; reflexivity].
  intros i H. vm_compute in H. repeat destruct H as [<-|H]; try destruct H; reflexivity.
Qed.

(** C23.  On every string the parser answers; what it accepts is exactly the
    texts that start (after Unicode white space) with a spelled diagram, whose
    value is that diagram rebuilt bottom up by [Node::branch]; the value is
    ordered and zero-suppressed; and for a text that is already ordered it is the
    same family of sets. *)
Lemma C23_total_pf : forall s : list N, parse_node_string s <> Stuck.
Proof. exact parse_node_not_stuck. Qed.
Lemma C23_exact_pf : forall (s : list N) (d : dd nat), parse_node_string s = Parsed d <->
  exists raw w t rest, s = w ++ t ++ rest /\ white w /\ spells 65 78 raw t /\ build branch raw = Some d.
Proof. exact parse_node_exact'. Qed.
Lemma C23_normal_pf : forall (s : list N) (d : dd nat), parse_node_string s = Parsed d -> ordered d /\ zero_suppressed d.
Proof. intros s d E. apply (zwf_shape d 0). eapply parse_node_zwf; exact E. Qed.
Example C23_example :
  (* " (1 (0 (N) (A))\t(A))x" is accepted, unordered as it is; "(1 (A)" is not *)
  parse_node_string [32;40;49;32;40;48;32;40;78;41;32;40;65;41;41;9;40;65;41;41;120]
    = Parsed (Branch 0%nat (Branch 1%nat (Leaf false) (Leaf true)) (Leaf true)) /\
  parse_node_string [40;49;32;40;65;41] = Rejected.
Proof. split; reflexivity. Qed.

(** C64.  Parsing does not preserve the family of an unordered text: the text
    "(1 (N) (0 (A) (A)))" spells {{1},{0,1}}, the parsed diagram is {{0},{0,1}}. *)
Definition C64_claim : Prop := forall (raw d : dd nat) t, spells 65 78 raw t ->
  parse_node_string t = Parsed d ->
  forall s, In s (paths d) -> exists p, In p (paths raw) /\ same_elems s p.
Lemma C64_family_refuted_pf :
  (exists raw t d, spells 65 78 raw t /\ parse_node_string t = Parsed d /\
     paths raw = [[1; 0]; [1]]%nat /\ paths d = [[0; 1]; [0]]%nat) /\ ~ C64_claim.
Proof.
  set (raw := Branch 1%nat (Leaf false) (Branch 0%nat (Leaf true) (Leaf true)) : dd nat).
  assert (F : fits raw).
  { intros i H. cbn in H. repeat destruct H as [<-|H]; try destruct H; reflexivity. }
  pose proof (print_spells 65 78 raw F) as S.
  assert (E : parse_node_string (print_node [40; 65; 41] [40; 78; 41] raw)
              = Parsed (Branch 0%nat (Leaf false) (Branch 1%nat (Leaf true) (Leaf true)))) by reflexivity.
  split.
  - exists raw. eexists. eexists. split; [exact S|]. split; [exact E|]. split; reflexivity.
  - intros C. destruct (C raw _ _ S E [0%nat]) as (p & I & X); [cbn; auto|].
    cbn in I. destruct I as [<-|[<-|[]]].
    + pose proof (proj2 (X 1%nat)) as Y. cbn in Y. destruct Y as [Y|Y]; [auto|discriminate|exact Y].
    + pose proof (proj2 (X 1%nat)) as Y. cbn in Y. destruct Y as [Y|Y]; [auto|discriminate|exact Y].
Qed.
(** C64, what holds: for a text whose diagram is ordered (reduced or not) the
    family is preserved exactly. *)
Lemma build_ordered raw : forall n, ordered raw -> (forall j, In j (labels raw) -> (n <= j)%nat) ->
  exists d, build branch raw = Some d /\ zwf n d /\ forall s, In s (paths d) <-> In s (paths raw).
Proof.
  induction raw as [v|i lo IHl hi IHh]; intros n O L.
  - exists (Leaf v). split; [reflexivity|]. split; [exact I|]. tauto.
  - destruct O as (D & Ol & Oh). cbn [build].
    destruct (IHl (S i) Ol) as (l' & El & Wl & Pl); [intros j J; apply D; auto|].
    destruct (IHh (S i) Oh) as (h' & Eh & Wh & Ph); [intros j J; apply D; auto|].
    rewrite El, Eh. cbn [bind]. rewrite (branch_direct i l' h' Wl Wh). exists (zmk i l' h'). split; [reflexivity|].
    assert (n <= i)%nat by (apply L; left; reflexivity). split.
    + unfold zmk. assert (W : zwf n l') by (eapply zwf_mono; [|exact Wl]; lia).
      destruct h' as [[]|j hl hh]; [|exact W|].
      * simpl. repeat split; auto. discriminate.
      * change (zwf n (Branch i l' (Branch j hl hh))). split; [assumption|]. split; [discriminate|]. split; assumption.
    + intros s. rewrite (paths_branch i). setoid_rewrite <- Ph. rewrite <- Pl.
      assert (X : forall h'' : dd nat, h'' <> Leaf false -> zmk i l' h'' = Branch i l' h'').
      { intros [[]|] N; [reflexivity|congruence|reflexivity]. }
      destruct (dd_eqb_spec h' (Leaf false)) as [->|N].
      * cbn [zmk paths In]. split; [auto|]. intros [(? & _ & [])|Y]; exact Y.
      * rewrite (X h' N). apply paths_branch.
Qed.
Lemma C64_family_partial_pf : forall (raw : dd nat) (t blank_before rest : list N),
  spells 65 78 raw t -> ordered raw -> white blank_before ->
  exists d, parse_node_string (blank_before ++ t ++ rest) = Parsed d /\
    forall s, In s (paths d) <-> In s (paths raw).
Proof.
  intros raw t wb r S O W. destruct (build_ordered raw 0 O) as (d & E & _ & P); [intros; lia|].
  exists d. split; [|exact P]. apply parse_node_exact'. exists raw, wb, t, r. auto.
Qed.
Lemma parse_text raw t d : spells 65 78 raw t -> build branch raw = Some d -> parse_node_string t = Parsed d.
Proof.
  intros S E. apply parse_node_exact. exists raw, t, []. split; [|auto]. rewrite app_nil_r.
  pose proof (spells_nonblank _ _ _ _ S) as ((t1 & H1) & (t2 & H2)).
  assert (Tr : trim t = t).
  { unfold trim. assert (A : trim_start t = t) by (rewrite H1; reflexivity). rewrite A.
    rewrite H2, rev_app_distr. cbn [rev app trim_start]. change (is_whitespace 41) with false. cbn [rev].
    rewrite rev_involutive. reflexivity. }
  rewrite Tr. apply as_bytes_ascii. apply (spells_ascii 65 78 raw); [lia|lia|exact S].
Qed.
(** C64, what holds for labels that repeat on a path: a text whose labels never
    decrease downwards and that has no "N" as a high child parses to the diagram
    holding exactly the sets the text spells. *)
Definition skip_lo (i : nat) (t : dd nat) : dd nat :=
  match t with Branch j lo hi => if Nat.eqb j i then lo else t | _ => t end.
Definition skip_hi (i : nat) (t : dd nat) : dd nat :=
  match t with Branch j lo hi => if Nat.eqb j i then hi else t | _ => t end.
Lemma skip_lo_zwf i t : zwf i t -> zwf (S i) (skip_lo i t).
Proof.
  destruct t as [|j lo hi]; [auto|]. intros (A & B & C & D). cbn [skip_lo].
  destruct (Nat.eqb_spec j i) as [->|N]; [exact C|]. repeat split; auto. lia.
Qed.
Lemma skip_hi_zwf i t : zwf i t -> zwf (S i) (skip_hi i t).
Proof.
  destruct t as [|j lo hi]; [auto|]. intros (A & B & C & D). cbn [skip_hi].
  destruct (Nat.eqb_spec j i) as [->|N]; [exact D|]. repeat split; auto. lia.
Qed.
Lemma branch_f_weak k i lo hi : zwf i lo -> zwf i hi -> hi <> Leaf false ->
  branch_f (S (S (S k))) i lo hi = Some (Branch i (skip_lo i lo) (skip_hi i hi)).
Proof.
  intros Wl Wh N.
  assert (St : forall k' hi', zwf (S i) hi' -> hi' <> Leaf false ->
            branch_f (S (S k')) i lo hi' = Some (Branch i (skip_lo i lo) hi')).
  { intros k' hi' W' N'.
    assert (M : zmk i (skip_lo i lo) hi' = Branch i (skip_lo i lo) hi')
      by (destruct hi' as [[]|]; [reflexivity|congruence|reflexivity]).
    destruct lo as [b|j ll lh].
    - rewrite branch_f_direct by (exact I || assumption). exact (f_equal Some M).
    - destruct Wl as (A & B & C & D). unfold skip_lo in *. destruct (Nat.eqb_spec j i) as [->|Ne].
      + rewrite <- M, <- (branch_f_direct k' i ll hi') by assumption. cbn [branch_f].
        destruct hi' as [[]|h hl hh]; [|congruence|].
        * rewrite Nat.ltb_irrefl, Nat.eqb_refl. reflexivity.
        * destruct W' as (A' & _). destruct (Nat.ltb_spec h i); [lia|]. cbn [andb].
          rewrite Nat.ltb_irrefl. destruct (Nat.eqb_spec h i); [lia|]. rewrite Nat.eqb_refl. reflexivity.
      + rewrite branch_f_direct; [exact (f_equal Some M)| |assumption]. repeat split; auto. lia. }
  destruct hi as [b|j hl hh]; [apply St; auto; exact I|].
  destruct Wh as (A & B & C & D). cbn [skip_hi]. destruct (Nat.eqb_spec j i) as [->|Ne].
  - rewrite <- (St k hh D B).
    change (branch_f (S (S (S k))) i lo (Branch i hl hh)) with
      (match lo with
       | Branch l ll lh =>
          if ((i <? i) && (l =? i))%nat%bool then
            let! low' := branch_f (S (S k)) i ll hl in
            let! high' := branch_f (S (S k)) i lh hh in
            branch_f (S (S k)) i low' high'
          else if (i <? i)%nat then
            let! high' := branch_f (S (S k)) i hl hh in
            branch_f (S (S k)) i lo high'
          else if (l <? i)%nat then
            let! low' := branch_f (S (S k)) i ll (Branch i hl hh) in
            branch_f (S (S k)) l low' lh
          else if (i =? i)%nat then branch_f (S (S k)) i lo hh
          else if (l =? i)%nat then branch_f (S (S k)) i ll (Branch i hl hh)
          else Some (Branch i lo (Branch i hl hh))
       | Leaf _ =>
          if (i <? i)%nat then
            let! high' := branch_f (S (S k)) i hl hh in
            branch_f (S (S k)) i lo high'
          else if (i =? i)%nat then branch_f (S (S k)) i lo hh
          else Some (Branch i lo (Branch i hl hh))
       end).
    rewrite Nat.ltb_irrefl, Nat.eqb_refl. cbn [andb]. destruct lo as [|l ll lh]; [reflexivity|].
    destruct Wl as (A' & _). destruct (Nat.ltb_spec l i); [lia|]. reflexivity.
  - apply St; [|discriminate]. repeat split; auto. lia.
Qed.
Definition set_opt_eq (a b : option (list nat)) : Prop :=
  match a, b with
  | Some p, Some q => forall i, In i p <-> In i q
  | None, None => True
  | _, _ => False
  end.
Lemma build_weak raw : forall n, weakly_ordered raw -> zero_suppressed raw ->
  (forall j, In j (labels raw) -> (n <= j)%nat) ->
  exists d, build branch raw = Some d /\ zwf n d /\ (d = Leaf false -> raw = Leaf false) /\
    forall s, set_opt_eq (walk s d) (walk s raw).
Proof.
  induction raw as [v|i lo IHl hi IHh]; intros n O Z L.
  - exists (Leaf v). split; [reflexivity|]. split; [exact I|]. split; [auto|]. intros s. destruct v; cbn; tauto.
  - destruct O as (D & Ol & Oh). destruct Z as (Zn & Zl & Zh). cbn [build].
    destruct (IHl i Ol Zl) as (l' & El & Wl & _ & Pl); [intros j J; apply D; auto|].
    destruct (IHh i Oh Zh) as (h' & Eh & Wh & Nh & Ph); [intros j J; apply D; auto|].
    assert (N : h' <> Leaf false) by auto.
    rewrite El, Eh. cbn [bind]. exists (Branch i (skip_lo i l') (skip_hi i h')). split.
    + unfold branch. replace (size l' + size h' + 3)%nat with (S (S (S (size l' + size h'))))%nat by lia.
      apply branch_f_weak; assumption.
    + assert (n <= i)%nat by (apply L; left; reflexivity). split; [|split; [discriminate|]].
      * split; [assumption|]. split; [|split; [apply skip_lo_zwf; assumption|apply skip_hi_zwf; assumption]].
        destruct h' as [|j a b]; [exact N|]. cbn [skip_hi]. destruct Wh as (_ & B & _).
        destruct (j =? i)%nat; [exact B|discriminate].
      * intros s. specialize (Pl s). specialize (Ph s). cbn [walk]. destruct (existsb (Nat.eqb i) s) eqn:X.
        -- unfold skip_hi. destruct h' as [v|j a b].
           ++ unfold set_opt_eq in *. destruct (walk s (Leaf v)), (walk s hi); cbn [option_map] in *; try tauto.
              intros k. cbn [In]. rewrite (Ph k). tauto.
           ++ destruct (Nat.eqb_spec j i) as [->|Ne].
              ** cbn [walk] in Ph. rewrite X in Ph. unfold set_opt_eq in *.
                 destruct (walk s b), (walk s hi); cbn [option_map] in *; try tauto.
                 intros k. cbn [In]. rewrite <- (Ph k). cbn [In]. tauto.
              ** unfold set_opt_eq in *. destruct (walk s (Branch j a b)), (walk s hi); cbn [option_map] in *; try tauto.
                 intros k. cbn [In]. rewrite (Ph k). tauto.
        -- unfold skip_lo. destruct l' as [v|j a b]; [exact Pl|].
           destruct (Nat.eqb_spec j i) as [->|Ne]; [|exact Pl]. cbn [walk] in Pl. rewrite X in Pl. exact Pl.
Qed.
Lemma walk_asc t : forall n s p, zwf n t -> walk s t = Some p -> asc n p /\ In p (paths t).
Proof.
  induction t as [[]|i lo IHl hi IHh]; intros n s p W E; cbn [walk] in E; try discriminate.
  - injection E as <-. split; [exact I|left; reflexivity].
  - destruct W as (A & B & C & D). destruct (existsb _ s).
    + destruct (walk s hi) as [q|] eqn:Q; [|discriminate]. injection E as <-.
      destruct (IHh _ _ _ D Q). split; [cbn; split; assumption|]. apply paths_branch. left. eauto.
    + destruct (IHl _ _ _ C E) as (X & Y). split; [apply (asc_mono (S i)); [lia|exact X]|].
      apply paths_branch. right; exact Y.
Qed.
Lemma paths_walk t : forall n s s', zwf n t -> In s (paths t) -> (forall i, (n <= i)%nat -> In i s <-> In i s') ->
  walk s' t = Some s.
Proof.
  induction t as [[]|i lo IHl hi IHh]; intros n s s' W J H; cbn [walk].
  - destruct J as [<-|[]]. reflexivity.
  - destruct J.
  - pose proof W as W0. destruct W as (A & B & C & D). apply paths_branch in J. destruct J as [(q & -> & J)|J].
    + assert (X : existsb (Nat.eqb i) s' = true).
      { apply existsb_exists. exists i. split; [apply (H i A); left; reflexivity|apply Nat.eqb_refl]. }
      rewrite X, (IHh (S i) q s' D J); [reflexivity|]. intros k K. rewrite <- (H k) by lia. cbn [In].
      split; [auto|]. intros [->|Y]; [lia|exact Y].
    + assert (X : existsb (Nat.eqb i) s' = false).
      { destruct (existsb _ s') eqn:Y; [|reflexivity]. apply existsb_exists in Y. destruct Y as (k & Y & Z).
        apply Nat.eqb_eq in Z. subst k. apply (H i A) in Y. pose proof (zwf_paths _ _ _ C J) as P.
        exfalso. clear - P Y. revert P Y. generalize (Nat.lt_succ_diag_r i). generalize (S i). induction s as [|a s IH]; intros m M P Y; [exact Y|].
        cbn in P. destruct Y as [->|Y]; [lia|]. apply (IH (S a)); [lia|tauto|exact Y]. }
      rewrite X. apply (IHl (S i) s s' C J). intros k K. apply H. lia.
Qed.
Lemma C64_repeats_partial_pf : forall (raw : dd nat) (t : list N),
  spells 65 78 raw t -> weakly_ordered raw -> zero_suppressed raw ->
  exists d, parse_node_string t = Parsed d /\
    (forall s, In s (paths d) -> spells_set raw s) /\
    (forall s, spells_set raw s -> exists s', In s' (paths d) /\ same_elems s s').
Proof.
  intros raw t S O Z. destruct (build_weak raw 0 O Z) as (d & E & W & _ & P); [intros; lia|].
  exists d. split; [exact (parse_text raw t d S E)|]. split.
  - intros s J. specialize (P s). rewrite (paths_walk d 0 s s W J) in P by tauto.
    unfold spells_set. unfold set_opt_eq in P. destruct (walk s raw) as [p|]; [|destruct P]. eauto.
  - intros s (p & Ep & H). specialize (P s). rewrite Ep in P. unfold set_opt_eq in P.
    destruct (walk s d) as [q|] eqn:Q; [|destruct P]. exists q. split; [apply (walk_asc d 0 s q W Q)|].
    intros i. rewrite (H i). symmetry. apply P.
Qed.
Example C64_repeats_example :
  (* "(1 (1 (A) (A)) (1 (A) (2 (N) (A))))" spells exactly {} and {1,2} *)
  let raw := Branch 1%nat (Branch 1%nat (Leaf true) (Leaf true)) (Branch 1%nat (Leaf true) (Branch 2%nat (Leaf false) (Leaf true))) in
  weakly_ordered raw /\ zero_suppressed raw /\ spells_set raw [] /\ spells_set raw [1;2]%nat /\ ~ spells_set raw [1]%nat /\
  parse_node_string (print_node [40; 65; 41] [40; 78; 41] raw)
    = Parsed (Branch 1%nat (Leaf true) (Branch 2%nat (Leaf false) (Leaf true))).
Proof.
  cbv zeta. split; [|split; [|split; [|split; [|split]]]].
  - cbn. repeat split; intros j H; repeat destruct H as [H|H]; try (destruct H; fail); lia.
  - cbn. repeat split; discriminate.
  - exists []. split; [reflexivity|tauto].
  - exists [1;1;2]%nat. split; [reflexivity|]. intros i. cbn. tauto.
  - intros (p & E & _). discriminate E.
  - reflexivity.
Qed.

(** C64, what holds for every text: the parser answers, and the family it
    answers with is the one [parsed_as] describes, which the text determines. *)
Lemma C64_exact_partial_pf : forall (raw : dd nat) (t : list N), spells 65 78 raw t ->
  exists d, parse_node_string t = Parsed d /\ parsed_as raw (fun s => In s (paths d)) /\
    forall es, parsed_as raw es -> forall s, es s <-> In s (paths d).
Proof.
  intros raw t S. destruct (build_parsed_as raw) as (d & E & _ & P). exists d.
  split; [exact (parse_text raw t d S E)|]. split; [exact P|].
  intros es P'. exact (parsed_as_fun raw _ _ P' P).
Qed.
Example C64_exact_example :
  (* "(1 (N) (0 (A) (A)))" comes out as {{0},{0,1}}; "(1 (N) (1 (A) (A)))" as {{1}} *)
  parse_node_string (print_node [40; 65; 41] [40; 78; 41] (Branch 1%nat (Leaf false) (Branch 0%nat (Leaf true) (Leaf true))))
    = Parsed (Branch 0%nat (Leaf false) (Branch 1%nat (Leaf true) (Leaf true))) /\
  parsed_as (Branch 1%nat (Leaf false) (Branch 0%nat (Leaf true) (Leaf true))) (fun s => s = [0%nat] \/ s = [0; 1]%nat) /\
  parsed_as (Branch 1%nat (Leaf false) (Branch 1%nat (Leaf true) (Leaf true))) (fun s => s = [1%nat]).
Proof.
  assert (T : parsed_as (Leaf true) (fun s => s = [])) by (constructor; intros t; tauto).
  assert (F : parsed_as (Leaf false) (fun _ => False)) by (constructor; intros t; split; [tauto|intros (X & _); discriminate]).
  assert (B : forall i, parsed_as (Branch i (Leaf true) (Leaf true)) (fun s => s = [] \/ s = [i])).
  { intros i. eapply parsed_branch; [exact T|exact T|]. apply placed_top; [eauto|intros t z -> []|].
    intros t. split.
    - intros [->| ->]; [left; split; [reflexivity|discriminate]|right; eauto].
    - intros [(-> & _)|(s & -> & ->)]; auto. }
  split; [reflexivity|]. split.
  - eapply parsed_branch; [exact F|apply B|].
    apply (placed_high 1 0 _ _ _ (fun s => s = [] \/ s = [1%nat])); [lia|intros ((s & []) & _)| | |].
    + split; [exists []; auto|]. intros t z _ _. lia.
    + apply placed_top; [exists []; right; reflexivity|intros t z [X|X] Z; [discriminate|injection X as ->; destruct Z]|].
      intros t. unfold off, rest. split.
      * intros [->| ->]; [left; split; [split; [auto|intros []]|discriminate]|right; exists []; auto].
      * intros [(([->| ->] & N) & _)|(s & [X|X] & ->)]; [auto|exfalso; apply N; left; reflexivity|discriminate|injection X as ->; auto].
    + intros t. split.
      * intros [->| ->]; right; eauto.
      * intros [([] & _)|(s & [->| ->] & ->)]; auto.
  - eapply parsed_branch; [exact F|apply B|]. apply placed_same.
    + split; [exists []; auto|]. intros t z [->| ->] Z; [destruct Z|destruct Z as [<-|[]]; lia].
    + intros t. unfold rest. split.
      * intros ->. right. exists []. auto.
      * intros [([] & _)|(s & [X|X] & ->)]; [discriminate|exact X].
Qed.

(** C42.  The zdd texts: every node parses back; the parser answers on every
    string and accepts exactly the strings that start with a spelled node. *)
Lemma C42_node_round_trip_pf : forall n : dd nat, fits n -> zparse_node_string (zbuild_node_string n) = Parsed n.
Proof.
  intros n F. apply zparse_node_exact. exists (zbuild_node_string n), [].
  unfold zbuild_node_string, text_T, text_F. split; [|apply print_spells; exact F].
  rewrite app_nil_r. apply as_bytes_ascii. apply print_ascii; lia.
Qed.
Lemma C42_exact_pf : forall (s : list N) (d : dd nat),
  zparse_node_string s <> Stuck /\
  (zparse_node_string s = Parsed d <-> exists t rest, s = t ++ rest /\ spells 84 70 d t).
Proof. intros s d. split; [apply zparse_node_not_stuck|apply zparse_node_exact']. Qed.
Example C42_example :
  let n := Branch 3%nat (Branch 3%nat (Leaf true) (Leaf false)) (Branch 0%nat (Leaf false) (Leaf false)) in
  fits n /\ zparse_node_string (zbuild_node_string n) = Parsed n.
Proof.
  cbv zeta. split; [|reflexivity]. intros i H. cbn in H. repeat destruct H as [<-|H]; try destruct H; reflexivity.
Qed.

(** C65.  Serializing and deserializing a zdd tree gives back the tree. *)
Lemma C65_tree_round_trip_pf : forall (T : Type) (O : Ord T) (ok : list T -> Prop) (items : list T) (t : ztree T) text its entries,
  ZReach ok (zu_from items) t -> fits (zt_root t) ->
  text = fst (z_serialize t) -> its = fst (snd (z_serialize t)) -> Permutation entries (snd (snd (z_serialize t))) ->
  z_deserialize (text, (its, entries)) = Some t.
Proof.
  intros T O ok items t text its entries R F -> -> P. unfold z_deserialize, z_serialize in *. cbn [fst snd] in *.
  rewrite (C42_node_round_trip_pf _ F). apply zreach_inv in R. destruct R as (U & _). rewrite U in *.
  rewrite (map_collect_perm entries (zu_index (zu_from items))); [|apply enum_fold; constructor|exact P].
  destruct t as [r u]. cbn [zt_root zt_univ] in *. subst u. reflexivity.
Qed.
Example C65_example :
  let t := z_hyper_tree (zu_from [7; 8; 9]%nat) [[7]; [8; 9]]%nat in
  fst (z_serialize t) = [40;48;32;40;49;32;40;70;41;32;40;50;32;40;70;41;32;40;84;41;41;41;32;40;84;41;41] /\
  z_deserialize (fst (z_serialize t), ([7; 8; 9], [(9, 2); (7, 0); (8, 1)])%nat) = Some t.
Proof. split; reflexivity. Qed.

(** C66.  Deserialization checks nothing: the text "(5 (N) (A))" with an empty
    map is accepted, and the first union panics (priority 5 has no item). *)
Definition C66_claim : Prop := forall (T : Type) (O : Ord T) (h : hash_order) d (f g : forest T),
  f_deserialize h d = Some f -> Reach g -> exists r, f_union h f g = Some r.
Lemma C66_untrusted_refuted_pf :
  (exists (text : list N) (f : forest nat), f_deserialize ho_id (text, []) = Some f /\
     get_item (f_univ f) 5 = None /\ In 5%nat (labels (f_root f)) /\
     forall h, f_union h f f_empty = None) /\ ~ C66_claim.
Proof.
  assert (E : f_deserialize ho_id ([40;53;32;40;78;41;32;40;65;41;41], @nil (nat * nat))
              = Some (mkF (Branch 5%nat (Leaf false) (Leaf true)) u_default)) by reflexivity.
  assert (U : forall h, f_union h (mkF (Branch 5%nat (Leaf false) (Leaf true)) (u_default (T:=nat))) f_empty = None)
    by reflexivity.
  split.
  - eexists. eexists. split; [exact E|]. split; [reflexivity|]. split; [left; reflexivity|exact U].
  - intros C. destruct (C nat _ ho_id _ _ _ E R_empty) as (r & X). rewrite U in X. discriminate.
Qed.
(** C66, what holds: data whose labels all index an entry of the map is safe:
    listing it and combining it with any other such forest (in particular any
    reachable one) succeeds, and combining gives a reachable forest. *)
Definition indexed {T} (f : forest T) : Prop :=
  forall p, In p (labels (f_root f)) -> (p < length (u_occ (f_univ f)))%nat.
Lemma deserialized_canon {T : Type} `{Ord T} h d (f : forest T) : f_deserialize h d = Some f ->
  exists occ, map_ok occ /\ f_univ f = univ_of occ /\ zwf 0 (f_root f).
Proof.
  unfold f_deserialize. destruct (parse_node_string (fst d)) as [n| |] eqn:E; try discriminate. intros [= <-].
  exists (map_collect (snd d)). split; [|split; [apply from_occurrences_univ|eapply parse_node_zwf; exact E]].
  unfold map_collect. clear. generalize (@nil (T * nat)) (ltac:(constructor) : map_ok (@nil (T * nat))).
  induction (snd d) as [|p l IH]; intros m K; [exact K|]. cbn [fold_left]. apply IH. apply map_update_ok; exact K.
Qed.
Lemma keys_get {T : Type} `{Ord T} (m : list (T * nat)) x : map_ok m -> (In x (map fst m) <-> map_get m x <> None).
Proof.
  intros K. pose proof (map_get_none m x K) as A. destruct (in_dec_ x (map fst m)); split; try tauto.
Qed.
Lemma binop_safe {T : Type} `{Ord T} (op : dd nat -> dd nat -> option (dd nat)) h (f g : forest T) occ1 occ2 :
  (forall a b, zwf 0 a -> zwf 0 b -> exists r, op a b = Some r) ->
  map_ok occ1 -> f_univ f = univ_of occ1 -> zwf 0 (f_root f) -> indexed f ->
  map_ok occ2 -> f_univ g = univ_of occ2 -> zwf 0 (f_root g) -> indexed g ->
  exists r, f_binop op h f g = Some r /\ Reach r.
Proof.
  intros Op K1 U1 W1 I1 K2 U2 W2 I2. unfold f_binop, translate_roots. rewrite U1, U2. unfold indexed in I1, I2.
  rewrite U1 in I1. rewrite U2 in I2. change (u_occ (univ_of occ1)) with occ1 in I1. change (u_occ (univ_of occ2)) with occ2 in I2.
  assert (M : exists m, map_ok m /\ u_merge h site_merge (univ_of occ1) (univ_of occ2) = univ_of m /\
     (forall x, In x (map fst occ1) -> In x (map fst m)) /\ (forall x, In x (map fst occ2) -> In x (map fst m))).
  { destruct (u_merge_spec h site_merge occ1 occ2 K1 K2) as [(<- & E)|(_ & m & K & E & G)]; [exists occ1; auto|].
    exists m. split; [exact K|]. split; [exact E|].
    split; intros x I; apply (keys_get m x K); rewrite G.
    - apply (keys_get occ1 x K1) in I. destruct (map_get occ1 x); [|congruence]. destruct (map_get occ2 x); discriminate.
    - apply (keys_get occ2 x K2) in I. destruct (map_get occ2 x); [|congruence]. destruct (map_get occ1 x); discriminate. }
  destruct M as (m & K & E & S1 & S2). rewrite E.
  destruct (translate_total occ1 m K S1 (f_root f) 0 W1 I1) as (r1 & E1 & X1 & _).
  destruct (translate_total occ2 m K S2 (f_root g) 0 W2 I2) as (r2 & E2 & X2 & _).
  rewrite E1, E2. cbn [bind]. destruct (Op r1 r2 X1 X2) as (r & Er). rewrite Er. cbn [bind].
  unfold f_canonical. rewrite node_trees_paths. cbn [bind].
  destruct (many_spec h (map (get_items (univ_of m)) (paths r))) as (q & o & Eq & _).
  exists q. split; [exact Eq|]. exact (R_many h _ q Eq).
Qed.
Lemma C66_untrusted_partial_pf : forall (T : Type) (O : Ord T) (h h1 h2 : hash_order) d1 d2 (f g : forest T),
  f_deserialize h1 d1 = Some f -> f_deserialize h2 d2 = Some g -> indexed f -> indexed g ->
  (exists ts, f_trees f = Some ts) /\
  (exists r, f_union h f g = Some r /\ Reach r) /\
  (exists r, f_intersect h f g = Some r /\ Reach r) /\
  (exists r, f_product h f g = Some r /\ Reach r).
Proof.
  intros T O h h1 h2 d1 d2 f g D1 D2 I1 I2.
  destruct (deserialized_canon _ _ _ D1) as (o1 & K1 & U1 & W1).
  destruct (deserialized_canon _ _ _ D2) as (o2 & K2 & U2 & W2).
  split; [rewrite f_trees_tl; eauto|].
  split; [|split]; (eapply (binop_safe _ h f g o1 o2); [intros a b A B| | | | | | | |]; try assumption).
  - destruct (union_spec a b 0 A B) as (r & E & _). eauto.
  - destruct (intersect_spec a b 0 A B) as (r & E & _). eauto.
  - destruct (product_spec a b 0 A B) as (r & E & _). eauto.
Qed.
(** ... and that is exactly the safe data: with a label that indexes no entry every
    binary operation and [{:?}] panic, while listing, counting and filtering never
    do and the filters stay exact on what is listed (an unindexed label is listed as
    nothing).  A reachable forest is the deserialization of its serialization (C22),
    so this covers mixed operands. *)
Section C66.
  Context {T : Type} `{OT : Ord T}.
  Implicit Types f g : forest T.
  Lemma translate_indexed (occ : list (T * nat)) new root r : map_ok occ ->
    translate_root (univ_of occ) new root = Some r -> forall p, In p (labels root) -> (p < length occ)%nat.
  Proof.
    intros K. revert r. induction root as [b|i lo IHl hi IHh]; intros r E p I; [destruct I|].
    cbn [translate_root] in E.
    destruct (translate_root (univ_of occ) new lo) as [l'|] eqn:El; [|discriminate].
    destruct (translate_root (univ_of occ) new hi) as [h'|] eqn:Eh; [|discriminate]. cbn [bind] in E.
    destruct (get_item (univ_of occ) i) as [x|] eqn:Ei; [|discriminate].
    cbn [labels In] in I. rewrite in_app_iff in I. destruct I as [<-|[I|I]]; eauto.
    apply get_priority_item in Ei; auto. eapply get_priority_in; eauto.
  Qed.
  Lemma binop_indexed op h f g occ1 occ2 r : map_ok occ1 -> f_univ f = univ_of occ1 -> map_ok occ2 -> f_univ g = univ_of occ2 ->
    f_binop op h f g = Some r -> indexed f /\ indexed g.
  Proof.
    intros K1 U1 K2 U2 E. unfold f_binop, translate_roots in E. unfold indexed. rewrite U1, U2 in *.
    change (u_occ (univ_of occ1)) with occ1. change (u_occ (univ_of occ2)) with occ2.
    destruct (translate_root (univ_of occ1) _ (f_root f)) as [r1|] eqn:E1; [|discriminate]. cbn [bind] in E.
    destruct (translate_root (univ_of occ2) _ (f_root g)) as [r2|] eqn:E2; [|discriminate].
    split; eapply translate_indexed; eauto.
  Qed.
  Lemma debug_indexed (show : T -> list N) f occ : map_ok occ -> f_univ f = univ_of occ ->
    ((exists s, f_debug show f = Some s) <-> indexed f).
  Proof.
    intros K U. unfold indexed, f_debug. rewrite U. change (u_occ (univ_of occ)) with occ.
    assert (G : forall n k, (exists s, f_fmt_inner show (univ_of occ) n k = Some s) <->
                            forall p, In p (labels n) -> (p < length occ)%nat).
    { induction n as [[]|i lo IHl hi IHh]; intros k; cbn [f_fmt_inner labels].
      - split; [intros _ p []|eauto].
      - split; [intros _ p []|eauto].
      - split.
        + intros (s & E). destruct (get_item (univ_of occ) i) as [x|] eqn:Ei; [|discriminate]. cbn [bind] in E.
          destruct (f_fmt_inner show (univ_of occ) lo (S k)) as [a|] eqn:El; [|discriminate]. cbn [bind] in E.
          destruct (f_fmt_inner show (univ_of occ) hi (S k)) as [b|] eqn:Eh; [|discriminate].
          intros p. cbn [In]. rewrite in_app_iff. intros [<-|[J|J]].
          * apply get_priority_item in Ei; auto. eapply get_priority_in; eauto.
          * apply (proj1 (IHl (S k))); eauto.
          * apply (proj1 (IHh (S k))); eauto.
        + intros L. destruct (get_item_known occ i) as (x & X); [apply L; left; reflexivity|].
          destruct (proj2 (IHl (S k))) as (a & A); [intros p J; apply L; right; apply in_or_app; auto|].
          destruct (proj2 (IHh (S k))) as (b & B); [intros p J; apply L; right; apply in_or_app; auto|].
          rewrite X, A, B. cbn [bind]. eauto. }
    rewrite <- (G (f_root f) 1%nat). split; intros (s & E).
    - destruct (f_fmt_inner show (univ_of occ) (f_root f) 1); [eauto|discriminate].
    - rewrite E. cbn [bind]. eauto.
  Qed.
  Lemma canonical_any h root occ : map_ok occ -> zwf 0 root ->
    exists r, f_canonical h root (univ_of occ) = Some r /\ Reach r /\
      forall s, In s (tl_ r) <-> s <> [] /\ exists p, In p (paths root) /\ s = get_items (univ_of occ) p.
  Proof.
    intros Hok Hw. unfold f_canonical. rewrite node_trees_paths. cbn [bind].
    destruct (many_spec h (map (get_items (univ_of occ)) (paths root))) as (f & o & E & Hc & Ht).
    exists f. split; [exact E|]. split; [eapply R_many; exact E|].
    intros s. rewrite Ht, map_map, in_map_iff. split; intros (Hn & p & A & B); (split; [exact Hn|]); exists p.
    - subst s. split; [exact B|]. apply filter_repeats_id, items_ssorted; auto. eapply zwf_paths; eauto.
    - subst s. split; [|exact A]. apply filter_repeats_id, items_ssorted; auto. eapply zwf_paths; eauto.
  Qed.
  (** a diagram filter gives a filter of what is listed, the empty tree aside *)
  Lemma filter_any h f occ root (P : list nat -> Prop) (Q : list T -> Prop) :
    map_ok occ -> f_univ f = univ_of occ -> zwf 0 root ->
    (forall s, s <> [] -> (In s (paths root) <-> In s (paths (f_root f)) /\ P s)) ->
    (forall s, In s (paths (f_root f)) -> (P s <-> Q (get_items (univ_of occ) s))) ->
    exists r, f_canonical h root (f_univ f) = Some r /\ Reach r /\
      forall t, t <> [] -> (In t (tl_ r) <-> In t (tl_ f) /\ Q t).
  Proof.
    intros K U W Hp Hq. rewrite U. destruct (canonical_any h root occ K W) as (r & E & R & Tr).
    exists r. split; [exact E|]. split; [exact R|]. intros t N. rewrite Tr. unfold tl_. rewrite U, in_map_iff.
    assert (NE : forall p, get_items (univ_of occ) p <> [] -> p <> []) by (intros p X ->; apply X; reflexivity).
    split.
    - intros (_ & p & Ip & ->). apply Hp in Ip; [|auto]. destruct Ip as (Ip & Pp). split; [eauto|]. apply Hq; auto.
    - intros ((p & <- & Ip) & Qp). split; [exact N|]. exists p. split; [|reflexivity]. apply Hp; [auto|]. split; [exact Ip|]. apply Hq; auto.
  Qed.
  Lemma node_subset_any t e n : zwf n t -> exists r, node_subset t e = Some r /\ zwf n r /\
    forall s, s <> [] -> (In s (paths r) <-> In s (paths t) /\ In e s).
  Proof.
    intros W. destruct (dd_eqb_spec t (Leaf true)) as [->|N].
    - exists (Leaf true). split; [reflexivity|]. split; [exact W|]. intros s Ns. cbn. split; [intros [<-|[]]; congruence|].
      intros ([<-|[]] & _). congruence.
    - destruct (node_subset_spec t e n W N) as (r & E & Wr & P). exists r. split; [exact E|]. split; [exact Wr|]. intros s _. apply P.
  Qed.
  Lemma node_subset_all_any t n es : zwf n t -> es <> [] -> exists r, node_subset_all t es = Some r /\ zwf n r /\
    forall s, s <> [] -> (In s (paths r) <-> In s (paths t) /\ forall e, In e es -> In e s).
  Proof.
    intros W Ne. destruct (dd_eqb_spec t (Leaf true)) as [->|N].
    - assert (E : forall l, node_subset_all (Leaf true) l = Some (Leaf true)).
      { unfold node_subset_all. induction l as [|e l IH]; [reflexivity|]. cbn. exact IH. }
      exists (Leaf true). split; [apply E|]. split; [exact W|]. intros s Ns. cbn. split; [intros [<-|[]]; congruence|].
      intros ([<-|[]] & _). congruence.
    - destruct (node_subset_all_spec t n es W N Ne) as (r & E & Wr & P). exists r. split; [exact E|]. split; [exact Wr|]. intros s _. apply P.
  Qed.
  Lemma priorities_length_any f (es : list T) :
    length es = length (get_priorities (f_univ f) es) <->
    (forall e, In e es -> get_priority (f_univ f) e <> None).
  Proof.
    assert (X : forall l, (length (filter_map (get_priority (f_univ f)) l) <= length l)%nat).
    { induction l; simpl; auto. destruct (get_priority (f_univ f) a); simpl; lia. }
    unfold get_priorities. induction es as [|e es IH]; simpl.
    - split; intros; tauto.
    - destruct (get_priority (f_univ f) e) eqn:E; simpl.
      + split.
        * intros Hl e' [<-|Hin]; [congruence|]. apply IH; [lia|auto].
        * intros Ha. f_equal. apply IH. intros; apply Ha; auto.
      + specialize (X es). split; [simpl in X; lia|]. intros Ha. exfalso. apply (Ha e); auto.
  Qed.
  Lemma unlisted f occ x : map_ok occ -> f_univ f = univ_of occ -> get_priority (f_univ f) x = None ->
    forall t, In t (tl_ f) -> ~ In x t.
  Proof.
    intros K U E t It Ix. unfold tl_ in It. rewrite U in *. apply in_map_iff in It. destruct It as (p & <- & _).
    apply items_in in Ix. destruct Ix as (q & _ & Eq). apply get_priority_item in Eq; auto. congruence.
  Qed.
End C66.
Lemma C66_exact_partial_pf : forall (T : Type) (O : Ord T) (h h1 h2 : hash_order) d1 d2 (show : T -> list N) (f g : forest T),
  f_deserialize h1 d1 = Some f -> f_deserialize h2 d2 = Some g ->
  ((exists r, f_union h f g = Some r) <-> indexed f /\ indexed g) /\
  ((exists r, f_intersect h f g = Some r) <-> indexed f /\ indexed g) /\
  ((exists r, f_product h f g = Some r) <-> indexed f /\ indexed g) /\
  ((exists s, f_debug show f = Some s) <-> indexed f).
Proof.
  intros T O h h1 h2 d1 d2 show f g D1 D2.
  destruct (deserialized_canon _ _ _ D1) as (o1 & K1 & U1 & W1).
  destruct (deserialized_canon _ _ _ D2) as (o2 & K2 & U2 & W2).
  split; [|split; [|split]].
  - split; [intros (r & E); exact (binop_indexed _ h f g o1 o2 r K1 U1 K2 U2 E)|]. intros (I1 & I2).
    destruct (C66_untrusted_partial_pf T O h h1 h2 d1 d2 f g D1 D2 I1 I2) as (_ & (r & E & _) & _). eauto.
  - split; [intros (r & E); exact (binop_indexed _ h f g o1 o2 r K1 U1 K2 U2 E)|]. intros (I1 & I2).
    destruct (C66_untrusted_partial_pf T O h h1 h2 d1 d2 f g D1 D2 I1 I2) as (_ & _ & (r & E & _) & _). eauto.
  - split; [intros (r & E); exact (binop_indexed _ h f g o1 o2 r K1 U1 K2 U2 E)|]. intros (I1 & I2).
    destruct (C66_untrusted_partial_pf T O h h1 h2 d1 d2 f g D1 D2 I1 I2) as (_ & _ & _ & (r & E & _)). eauto.
  - exact (debug_indexed show f o1 K1 U1).
Qed.
Lemma C66_filters_partial_pf : forall (T : Type) (O : Ord T) (h h1 : hash_order) d (f : forest T) (e : T) (es : list T),
  f_deserialize h1 d = Some f ->
  exists ts, f_trees f = Some ts /\ f_len f = Some (length ts) /\
  (exists r rs, f_subset h f e = Some r /\ f_trees r = Some rs /\
     forall t, t <> [] -> (In t rs <-> In t ts /\ In e t)) /\
  (exists r rs, f_subset_not h f e = Some r /\ f_trees r = Some rs /\
     forall t, t <> [] -> (In t rs <-> In t ts /\ ~ In e t)) /\
  (exists r rs, f_subset_all h f es = Some r /\ f_trees r = Some rs /\
     forall t, t <> [] -> (In t rs <-> In t ts /\ forall x, In x es -> In x t)) /\
  (exists r rs, f_subset_none h f es = Some r /\ f_trees r = Some rs /\
     forall t, t <> [] -> In t rs -> In t ts).
Proof.
  intros T O h h1 d f e es D. destruct (deserialized_canon _ _ _ D) as (occ & K & U & W).
  exists (tl_ f). split; [apply f_trees_tl|]. split.
  { unfold f_len. rewrite node_trees_paths. cbn [bind]. unfold tl_. rewrite map_length. reflexivity. }
  split; [|split; [|split]].
  - unfold f_subset. destruct (get_priority (f_univ f) e) as [p|] eqn:E.
    + destruct (node_subset_any (f_root f) p 0 W) as (r & Er & Wr & Pr). rewrite Er. cbn [bind].
      destruct (filter_any h f occ r (fun s => In p s) (fun t => In e t) K U Wr Pr) as (q & Eq & _ & Q).
      { intros s _. rewrite U in E. symmetry. apply item_path; auto. }
      exists q, (tl_ q). rewrite f_trees_tl. auto.
    + exists f_empty, []. split; [reflexivity|]. split; [reflexivity|]. intros t _. split; [intros []|].
      intros (I1 & I2). exact (unlisted f occ e K U E t I1 I2).
  - unfold f_subset_not. destruct (get_priority (f_univ f) e) as [p|] eqn:E.
    + destruct (node_subset_not_spec (f_root f) p 0 W) as (r & Er & Wr & Pr). rewrite Er. cbn [bind].
      destruct (filter_any h f occ r (fun s => ~ In p s) (fun t => ~ In e t) K U Wr (fun s _ => Pr s)) as (q & Eq & _ & Q).
      { intros s _. rewrite U in E. rewrite (item_path occ e p s); auto. reflexivity. }
      exists q, (tl_ q). rewrite f_trees_tl. auto.
    + exists f, (tl_ f). split; [reflexivity|]. split; [apply f_trees_tl|]. intros t _. split; [|tauto].
      intros J. split; [exact J|]. apply (unlisted f occ e K U E t J).
  - unfold f_subset_all, f_subset_many. destruct es as [|e0 es0].
    { exists f, (tl_ f). split; [reflexivity|]. split; [apply f_trees_tl|]. intros t _. split; [|tauto]. intros J. split; [exact J|]. intros x []. }
    set (l := e0 :: es0). assert (Hl : l <> []) by (unfold l; congruence).
    destruct (Nat.eqb_spec (length l) (length (get_priorities (f_univ f) l))) as [El|El]; cbn [negb].
    + rewrite priorities_length_any in El.
      assert (Hne : get_priorities (f_univ f) l <> []).
      { intros E. unfold l, get_priorities in E. cbn in E.
        destruct (get_priority (f_univ f) e0) eqn:E0; [discriminate|]. apply (El e0); auto. left; auto. }
      destruct (node_subset_all_any (f_root f) 0 _ W Hne) as (r & Er & Wr & Pr). rewrite Er. cbn [bind].
      destruct (filter_any h f occ r _ (fun t => forall x, In x l -> In x t) K U Wr Pr) as (q & Eq & _ & Q).
      { intros s _. rewrite U in *. split.
        - intros Hp x Hx. destruct (get_priority (univ_of occ) x) as [p|] eqn:E; [|exfalso; eapply El; eauto].
          apply (item_path occ x p s); auto. apply Hp. apply filter_map_in; eauto.
        - intros He p Hp. apply filter_map_in in Hp. destruct Hp as (x & Hin & E). apply (item_path occ x p s); auto. }
      exists q, (tl_ q). rewrite f_trees_tl. auto.
    + exists f_empty, []. split; [reflexivity|]. split; [reflexivity|]. intros t _. split; [intros []|].
      intros (I1 & I2). apply El. apply priorities_length_any. intros x Hx E. exact (unlisted f occ x K U E t I1 (I2 x Hx)).
  - unfold f_subset_none, f_subset_many. destruct es as [|e0 es0].
    { exists f, (tl_ f). split; [reflexivity|]. split; [apply f_trees_tl|]. auto. }
    set (l := e0 :: es0).
    destruct (Nat.eqb_spec (length l) (length (get_priorities (f_univ f) l))) as [El|El]; cbn [negb].
    + assert (Hne : get_priorities (f_univ f) l <> []) by (intros E; rewrite E in El; discriminate El).
      destruct (node_subset_none_sub (f_root f) 0 _ W Hne) as (r & Er & Wr & Pr & _). rewrite Er. cbn [bind].
      rewrite U. destruct (canonical_any h r occ K Wr) as (q & Eq & _ & Q). exists q, (tl_ q). split; [exact Eq|].
      split; [apply f_trees_tl|]. intros t _ J. apply Q in J. destruct J as (_ & p & Ip & ->).
      unfold tl_. rewrite U. apply in_map, Pr, Ip.
    + exists f, (tl_ f). split; [reflexivity|]. split; [apply f_trees_tl|]. auto.
Qed.
Example C66_example : exists f, f_deserialize ho_id ([40;49;32;40;78;41;32;40;65;41;41], [(7, 3); (8, 9)]%nat) = Some f /\
  indexed f /\ f_trees f = Some [[7%nat]].
Proof.
  eexists. split; [reflexivity|]. split; [|reflexivity]. intros p I. vm_compute in I. destruct I as [<-|[]]. vm_compute. lia.
Qed.

(** C67.  Formatting a reachable forest with [{:?}] never panics. *)
Lemma C67_debug_total_pf : forall (T : Type) (O : Ord T) (show : T -> list N) (f : forest T), Reach f ->
  exists s, f_debug show f = Some s.
Proof.
  intros T O show f R. destruct (C18_root_shape_pf T O f R) as (_ & _ & L).
  assert (G : forall n k, (forall p, In p (labels n) -> exists x, get_item (f_univ f) p = Some x) ->
            exists s, f_fmt_inner show (f_univ f) n k = Some s).
  { induction n as [[]|i lo IHl hi IHh]; intros k K; [eexists; reflexivity|eexists; reflexivity|].
    destruct (K i (or_introl eq_refl)) as (x & X).
    destruct (IHl (S k)) as (sl & El); [intros p I; apply K; simpl; rewrite in_app_iff; auto|].
    destruct (IHh (S k)) as (sh & Eh); [intros p I; apply K; simpl; rewrite in_app_iff; auto|].
    cbn [f_fmt_inner]. rewrite X, El, Eh. cbn [bind]. eexists; reflexivity. }
  destruct (G (f_root f) 1%nat) as (s & E).
  { intros p I. destruct (L p I) as (x & X & _). eauto. }
  unfold f_debug. rewrite E. eexists; reflexivity.
Qed.
Example C67_example : exists f, f_many ho_id [[1;2];[2;3]]%nat = Some f /\ Reach f /\
  option_map (firstn 15) (f_debug (fun n => decimal (N.of_nat n)) f) = Some [10;80;114;105;111;114;105;116;121;40;48;41;58;32;50].
Proof.
  eexists. split; [vm_compute; reflexivity|]. split; [eapply (R_many ho_id [[1;2];[2;3]]%nat); vm_compute; reflexivity|].
  vm_compute. reflexivity.
Qed.
