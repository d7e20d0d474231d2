(** Properties_Text.v: What serialization writes (C93)
    Generated by tools/gen_props.py from TextThm.v: the property theorems, each followed by
    instances that meet its hypotheses (examples). *)
From Coq Require Import List Arith NArith Lia Bool Permutation Sorted.
From Verif Require Import Base DD Spec Zdd2Model ZddModel ParserSpec ParserModel ZddSpec BddSpec BddModel BddRun TextSpec.
From Verif Require Import Zdd2Node Zdd2Univ Zdd2Forest Zdd2Forest2 Zdd2Laws Zdd2Thm ZddProofs ParserProofs ParserThm ZddThm BddThm EqThm.
Import ListNotations.
From Verif Require Import TextThm.
Open Scope N_scope.

(** C93.  The text of a diagram: the library writes the one plain text, with the leaves "(A)" and "(N)"
    (zdd2) or "(T)" and "(F)" (zdd), and different diagrams have different texts. *)
Theorem C93_text : forall (n : dd nat) (s : list N),
  (plain 65 78 n s <-> s = build_node_string n) /\ (plain 84 70 n s <-> s = zbuild_node_string n).
Proof. exact C93_text_pf. Qed.
Print Assumptions C93_text.

Theorem C93_text_identifies : forall m n : dd nat,
  (build_node_string m = build_node_string n -> m = n) /\ (zbuild_node_string m = zbuild_node_string n -> m = n).
Proof. exact C93_text_identifies_pf. Qed.
Print Assumptions C93_text_identifies.

(** zdd2: the serialized data of a forest explains itself: the entries are the items with the
    number of trees that hold them, the labels number the entries by rank, and the paths of the
    diagram that the text spells, read through the ranking, are the trees. *)
Theorem C93_forest : forall (T : Type) (O : Ord T) (f : forest T) ts text entries,
  Reach f -> f_trees f = Some ts -> f_serialize f = (text, entries) ->
  (ssorted (map fst entries) /\ forall x k, In (x, k) entries <-> (0 < k)%nat /\ k = count ts x) /\
  exists d ranks, plain 65 78 d text /\ ordered d /\ zero_suppressed d /\
    (forall i, In i (labels d) -> (i < length ranks)%nat) /\ ranking entries ranks /\
    forall t, In t ts <-> ssorted t /\ exists p, In p (paths d) /\ reads ranks p t.
Proof. exact C93_forest_pf. Qed.
Print Assumptions C93_forest.

(** ... so the data says which trees are held and nothing else: two forests, whatever calls made
    them, are written alike exactly if they hold the same trees *)
Theorem C93_same_data : forall (T : Type) (O : Ord T) (f g : forest T) tf tg,
  Reach f -> Reach g -> fits (f_root f) -> fits (f_root g) -> f_trees f = Some tf -> f_trees g = Some tg ->
  (f_serialize f = f_serialize g <-> forall s, has_set tf s <-> has_set tg s).
Proof. exact C93_same_data_pf. Qed.
Print Assumptions C93_same_data.

Theorem C93_zdd : forall (T : Type) (O : Ord T) (ok : list T -> Prop) (items : list T) (t : ztree T) cs text its entries,
  ZReach ok (zu_from items) t -> z_combinations t = Some cs -> z_serialize t = (text, (its, entries)) ->
  its = items /\
  (ssorted (map fst entries) /\ forall x k, In (x, k) entries <-> last_position items x k) /\
  exists d, plain 84 70 d text /\ forall s, In s cs <-> exists p, In p (paths d) /\ named_by items p s.
Proof. exact C93_zdd_pf. Qed.
Print Assumptions C93_zdd.

(** ** bowtie: closets are written alike exactly if they are equal *)
Theorem C93_closet : forall (I F : Type) (OI : Ord I) (OF : Ord F) (calls calls' : list (bcall I F)) sels sels' c c',
  reached calls sels c -> reached calls' sels' c' -> (closet_ser c = closet_ser c' <-> closet_eqb c c' = true).
Proof. exact C93_closet_pf. Qed.
Print Assumptions C93_closet.

Example C93_example : exists f, f_many ho_id [[1;2];[2;3]]%nat = Some f /\ Reach f /\ f_trees f = Some [[1;2];[2;3]]%nat /\
  (* "(0 (N) (1 (2 (N) (A)) (A)))" *)
  f_serialize f = ([40;48;32;40;78;41;32;40;49;32;40;50;32;40;78;41;32;40;65;41;41;32;40;65;41;41;41], [(1, 1); (2, 2); (3, 1)]%nat) /\
  ranking [(1, 1); (2, 2); (3, 1)]%nat [(2, 2); (1, 1); (3, 1)]%nat /\ fits (f_root f).
Proof. exact TextThm.C93_example. Qed.

Example C93_zdd_example : let t := z_hyper_tree (zu_from [7; 8; 7]%nat) [[7]; [8]]%nat in
  ZReach (fun _ => True) (zu_from [7; 8; 7]%nat) t /\ z_combinations t = Some [[7]; [8]]%nat /\
  z_serialize t = ([40;49;32;40;50;32;40;70;41;32;40;84;41;41;32;40;84;41;41], ([7; 8; 7], [(7, 2); (8, 1)])%nat) /\
  last_position [7; 8; 7]%nat 7%nat 2.
Proof. exact TextThm.C93_zdd_example. Qed.

Example C93_numeral_example : decimal 1234567890 = [49;50;51;52;53;54;55;56;57;48] /\
  plain_numeral (decimal 0) 0 /\ ~ plain_numeral [48; 55] 7.
Proof. exact TextThm.C93_numeral_example. Qed.

Example C93_closet_example :
  let calls := [AddItems 0 [1;2]; AddItems 7 [3;4]; AddExcl 1 3]%nat in
  let calls' := [AddItems 7 [4;3]; AddItem 0 2; AddItem 0 1; AddIncl 1 4]%nat in
  exists c c' d : closet nat nat, reached calls [] c /\ reached calls' [] c' /\ reached calls' [1%nat] d /\
    closet_ser c = closet_ser c' /\ closet_ser c <> closet_ser d.
Proof. exact TextThm.C93_closet_example. Qed.
