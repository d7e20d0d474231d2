(** HashThm: the structural hash of bowtie nodes. *)
From Coq Require Import List Arith NArith Lia Bool.
From Verif Require Import Base DD HashModel HashSpec.
Import ListNotations.
Open Scope N_scope.

(** ** hexadecimal numerals *)
Lemma hex_digit_char d : d < 16 -> hex_digit d < 255 /\ (forall e, e < 16 -> hex_digit d = hex_digit e -> d = e).
Proof.
  intros D. unfold hex_digit. split; [destruct (d <? 10); lia|]. intros e E.
  destruct (N.ltb_spec d 10), (N.ltb_spec e 10); lia.
Qed.
Lemma hex_f_chars k : forall n c, In c (hex_f k n) -> c < 255.
Proof.
  induction k as [|k IH]; intros n c X; [destruct X|]. cbn [hex_f] in X.
  destruct (N.ltb_spec n 16) as [L|L].
  - destruct X as [<-|[]]. apply hex_digit_char; exact L.
  - apply in_app_iff in X. destruct X as [X|[<-|[]]]; [eapply IH; exact X|].
    apply hex_digit_char. apply N.mod_lt; discriminate.
Qed.
Lemma size_div n : 16 <= n -> (N.size_nat (n / 16) < N.size_nat n)%nat.
Proof.
  intros L. change 16 with (2 ^ 4). rewrite <- N.shiftr_div_pow2.
  destruct n as [|p]; [lia|]. cbn. do 4 (destruct p as [p|p|]; [| |lia]); cbn; lia.
Qed.
Lemma hex_f_fuel k : forall k' n, (N.size_nat n < k)%nat -> (N.size_nat n < k')%nat -> hex_f k n = hex_f k' n.
Proof.
  induction k as [|k IH]; intros k' n A B; [lia|]. destruct k' as [|k']; [lia|]. cbn [hex_f].
  destruct (N.ltb_spec n 16) as [L|L]; [reflexivity|]. pose proof (size_div n L).
  rewrite (IH k' (n / 16)) by lia. reflexivity.
Qed.
Lemma hex_ne k n : hex_f (S k) n <> [].
Proof. cbn [hex_f]. destruct (n <? 16); [discriminate|]. destruct (hex_f k (n / 16)); discriminate. Qed.
Lemma hex_f_inj k : forall n m, (N.size_nat n < k)%nat -> (N.size_nat m < k)%nat -> hex_f k n = hex_f k m -> n = m.
Proof.
  induction k as [|k IH]; intros n m A B E; [lia|]. cbn [hex_f] in E.
  assert (D : forall x, x mod 16 < 16) by (intros; apply N.mod_lt; discriminate).
  destruct (N.ltb_spec n 16) as [L|L], (N.ltb_spec m 16) as [L'|L'].
  - injection E as E. apply hex_digit_char in E; assumption.
  - exfalso. pose proof (size_div m L'). destruct k as [|k]; [lia|].
    pose proof (hex_ne k (m / 16)) as X. destruct (hex_f (S k) (m / 16)) as [|c [|d l]]; [congruence|discriminate|discriminate].
  - exfalso. pose proof (size_div n L). destruct k as [|k]; [lia|].
    pose proof (hex_ne k (n / 16)) as X. destruct (hex_f (S k) (n / 16)) as [|c [|d l]]; [congruence|discriminate|discriminate].
  - pose proof (size_div n L). pose proof (size_div m L').
    apply app_inj_tail in E. destruct E as (E1 & E2). apply IH in E1; [|lia|lia].
    apply hex_digit_char in E2; [|apply D|apply D].
    rewrite (N.div_mod' n 16), (N.div_mod' m 16), E1, E2. reflexivity.
Qed.
Lemma hex_inj n m : hex n = hex m -> n = m.
Proof.
  unfold hex. intros E. set (k := S (N.size_nat n + N.size_nat m)).
  apply (hex_f_inj k); [lia|lia|].
  rewrite (hex_f_fuel k (S (N.size_nat n)) n) by lia. rewrite (hex_f_fuel k (S (N.size_nat m)) m) by lia. exact E.
Qed.
Lemma hash_chars {I} finish (n : dd I) c : In c (hash_structure finish n) -> c < 255.
Proof. destruct n; cbn [hash_structure]; apply hex_f_chars. Qed.
Lemma split_255 : forall a b x y : list N, (forall c, In c a -> c < 255) -> (forall c, In c b -> c < 255) ->
  a ++ [255] ++ x = b ++ [255] ++ y -> a = b /\ x = y.
Proof.
  induction a as [|c a IH]; intros b x y A B E; destruct b as [|d b].
  - cbn in E. injection E as ->. auto.
  - cbn in E. injection E as <- _. specialize (B 255 (or_introl eq_refl)). lia.
  - cbn in E. injection E as -> _. specialize (A 255 (or_introl eq_refl)). lia.
  - cbn [app] in E. injection E as -> E. destruct (IH b x y) as (-> & ->); auto.
    + intros e X. apply A. right; exact X.
    + intros e X. apply B. right; exact X.
Qed.
Lemma messages_inj {I} finish (l h l' h' : dd I) :
  string_bytes (hash_structure finish l) ++ string_bytes (hash_structure finish h) =
  string_bytes (hash_structure finish l') ++ string_bytes (hash_structure finish h') ->
  hash_structure finish l = hash_structure finish l' /\ hash_structure finish h = hash_structure finish h'.
Proof.
  unfold string_bytes. rewrite <- !app_assoc. intros E. apply split_255 in E; [|apply hash_chars|apply hash_chars].
  destruct E as (A & E). split; [exact A|]. apply app_inj_tail in E. tauto.
Qed.

(** C68.  Diagrams of the same shape have the same structural hash, whatever
    items they hold; and two diagrams with the same structural hash have the same
    shape unless the hasher sent two different byte strings to one value, one
    written for a node of the first and one for a node of the second. *)
Lemma C68_shape_decides_hash_pf : forall (I : Type) (finish : list N -> N) (a b : dd I),
  same_shape a b -> hash_structure finish a = hash_structure finish b.
Proof.
  intros I finish. induction a as [v|i l IHl h IHh]; intros [w|j l' h'] S; cbn in S; try contradiction.
  - subst w. reflexivity.
  - destruct S as (A & B). cbn [hash_structure]. rewrite (IHl l' A), (IHh h' B). reflexivity.
Qed.
Lemma C68_hash_decides_shape_pf : forall (I : Type) (finish : list N -> N) (a b : dd I),
  hash_structure finish a = hash_structure finish b ->
  same_shape a b \/
  exists x y, In x (messages finish a) /\ In y (messages finish b) /\ x <> y /\ finish x = finish y.
Proof.
  intros I finish. induction a as [v|i l IHl h IHh]; intros b E.
  - destruct b as [w|j l' h']; cbn [hash_structure] in E; apply hex_inj in E.
    + destruct (Bool.bool_dec v w) as [->|N]; [left; reflexivity|right].
      exists (leaf_bytes v), (leaf_bytes w). cbn [messages In]. repeat split; auto. destruct v, w; try congruence; discriminate.
    + right. eexists. eexists. cbn [messages]. split; [left; reflexivity|]. split; [left; reflexivity|]. split; [|exact E].
      unfold string_bytes, leaf_bytes. intros X. pose proof (f_equal (@last N) X) as Y. apply (f_equal (fun f => f 0)) in Y.
      rewrite !app_assoc, last_last in Y. cbn in Y. destruct v; discriminate.
  - destruct b as [w|j l' h']; cbn [hash_structure] in E; apply hex_inj in E.
    + right. eexists. eexists. cbn [messages]. split; [left; reflexivity|]. split; [left; reflexivity|]. split; [|exact E].
      unfold string_bytes, leaf_bytes. intros X. pose proof (f_equal (@last N) X) as Y. apply (f_equal (fun f => f 0)) in Y.
      rewrite !app_assoc, last_last in Y. cbn in Y. destruct w; discriminate.
    + destruct (list_eq_dec N.eq_dec (string_bytes (hash_structure finish l) ++ string_bytes (hash_structure finish h))
                  (string_bytes (hash_structure finish l') ++ string_bytes (hash_structure finish h'))) as [M|M].
      * destruct (messages_inj _ _ _ _ _ M) as (L & R).
        destruct (IHl l' L) as [A|(x & y & P & Q & Z)].
        -- destruct (IHh h' R) as [B|(x & y & P & Q & Z)]; [left; split; assumption|right].
           exists x, y. cbn [messages In]. rewrite !in_app_iff. tauto.
        -- right. exists x, y. cbn [messages In]. rewrite !in_app_iff. tauto.
      * right. eexists. eexists. cbn [messages]. split; [left; reflexivity|]. split; [left; reflexivity|]. split; [exact M|exact E].
Qed.
(* with a hasher that adds the bytes up: same shape, same hash; children swapped, same hash (a collision) *)
Example C68_example :
  let sum := fold_left N.add in
  let finish bytes := 1000 + sum bytes 0 in
  let a := Branch 1%nat (Leaf true) (Branch 2%nat (Leaf false) (Leaf true)) in
  let b := Branch 8%nat (Leaf true) (Branch 7%nat (Leaf false) (Leaf true)) in
  let c := Branch 1%nat (Branch 2%nat (Leaf false) (Leaf true)) (Leaf true) in
  same_shape a b /\ hash_structure finish a = hash_structure finish b /\
  ~ same_shape a c /\ hash_structure finish a = hash_structure finish c /\
  (let finish' bytes := fold_left (fun h x => 257 * h + x) bytes 7 in
   hash_structure finish' a = hash_structure finish' b /\ hash_structure finish' a <> hash_structure finish' c).
Proof. cbv zeta. split; [cbn; auto|]. split; [reflexivity|]. split; [cbn; tauto|]. split; [reflexivity|]. split; [reflexivity|vm_compute; discriminate]. Qed.
