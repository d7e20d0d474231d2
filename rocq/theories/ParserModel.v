(** ParserModel: the text form of nodes and the serialized form of forests and
    trees (weave/src/zdd2/forest/node/{parser,serialize}.rs,
    weave/src/zdd2/forest/universe/serialize.rs, weave/src/zdd/node/{parser,serialize}.rs,
    weave/src/zdd/tree/{mod,universe}.rs).

    A [&str] is the list of its Unicode scalar values, a [&[u8]] a list of bytes,
    both as [N].  Not modelled: which error a failing parser reports, the serde
    formats themselves (a serialized value is the tuple of the data the
    serializer is handed, and the deserializer is handed the same data back); for the
    stack depth of the recursive parser see StackZModel.v.  [usize] is 64 bits. *)
From Coq Require Import List Arith NArith Lia Bool Permutation Sorted.
From Verif Require Import Base DD Spec Zdd2Model ZddModel.
Import ListNotations.
Open Scope N_scope.

Definition usize_limit : N := 2 ^ 64.

(** ** std: [char::is_whitespace] (the White_Space property), [str::trim],
    [str::as_bytes] *)
Definition is_whitespace (c : N) : bool :=
  ((9 <=? c) && (c <=? 13)) || (c =? 32) || (c =? 0x85) || (c =? 0xA0) || (c =? 0x1680) ||
  ((0x2000 <=? c) && (c <=? 0x200A)) || (c =? 0x2028) || (c =? 0x2029) || (c =? 0x202F) ||
  (c =? 0x205F) || (c =? 0x3000).
Fixpoint trim_start (s : list N) : list N :=
  match s with
  | c :: s' => if is_whitespace c then trim_start s' else s
  | [] => []
  end.
Definition trim (s : list N) : list N := rev (trim_start (rev (trim_start s))).
Definition encode_utf8 (c : N) : list N :=
  if c <? 0x80 then [c]
  else if c <? 0x800 then [0xC0 + c / 0x40; 0x80 + c mod 0x40]
  else if c <? 0x10000 then [0xE0 + c / 0x1000; 0x80 + (c / 0x40) mod 0x40; 0x80 + c mod 0x40]
  else [0xF0 + c / 0x40000; 0x80 + (c / 0x1000) mod 0x40; 0x80 + (c / 0x40) mod 0x40; 0x80 + c mod 0x40].
Definition as_bytes (s : list N) : list N := flat_map encode_utf8 s.

(** ** std: [{:?}] of a [usize] *)
Fixpoint decimal_f (fuel : nat) (n : N) : list N :=
  match fuel with
  | O => []
  | S k => if n <? 10 then [48 + n] else decimal_f k (n / 10) ++ [48 + n mod 10]
  end.
Definition decimal (n : N) : list N := decimal_f (S (N.size_nat n)) n.

(** [str::parse::<usize>] on a non-empty string of ASCII digits: [None] on overflow *)
Definition digits_value (ds : list N) : N := fold_left (fun a d => 10 * a + (d - 48)) ds 0.
Definition parse_usize (ds : list N) : option N :=
  let v := digits_value ds in if v <? usize_limit then Some v else None.

(** ** nom 4.  Every failure ([Error], [Incomplete]) is [PErr]: the only
    combinator that recovers from a failure is [alt!], whose first two
    alternatives report [Incomplete] only on inputs that the third rejects too.
    [PStuck]: [Node::branch] did not return, or the fuel of the model ran out. *)
Inductive presult (A : Type) := POk (rest : list N) (a : A) | PErr | PStuck.
Arguments POk {A} rest a.
Arguments PErr {A}.
Arguments PStuck {A}.

(** [tag!] *)
Fixpoint tag (t i : list N) : option (list N) :=
  match t, i with
  | [], _ => Some i
  | c :: t', d :: i' => if c =? d then tag t' i' else None
  | _ :: _, [] => None
  end.
(** [sp], the separator of [ws!] *)
Definition is_blank (c : N) : bool := (c =? 32) || (c =? 9) || (c =? 13) || (c =? 10).
Fixpoint sp (i : list N) : list N :=
  match i with c :: i' => if is_blank c then sp i' else i | [] => [] end.
(** [digit]: the longest prefix of digits *)
Definition is_digit (c : N) : bool := (48 <=? c) && (c <=? 57).
Fixpoint span_digits (i : list N) : list N * list N :=
  match i with
  | c :: i' => if is_digit c then let (ds, r) := span_digits i' in (c :: ds, r) else ([], i)
  | [] => ([], [])
  end.

(** node_id, weave/src/zdd2/forest/node/parser.rs L31-38 = weave/src/zdd/node/parser.rs L27-34 *)
Definition node_id (i : list N) : presult N :=
  match span_digits i with
  | ([], _) => PErr
  | (ds, r) => match parse_usize ds with Some v => POk r v | None => PErr end
  end.

(** [ws!(p)] *)
Definition ws {A} (p : list N -> presult A) (i : list N) : presult A :=
  match p (sp i) with POk r a => POk (sp r) a | PErr => PErr | PStuck => PStuck end.
(** one step of [do_parse!] *)
Definition pbind {A B} (x : presult A) (k : list N -> A -> presult B) : presult B :=
  match x with POk r a => k r a | PErr => PErr | PStuck => PStuck end.

(** [named!(node<Node>, ...)], weave/src/zdd2/forest/node/parser.rs L40-52 and
    weave/src/zdd/node/parser.rs L36-48: the same text, up to the two leaf tags
    and the [Node::branch] in scope. *)
Fixpoint node_parser (tag_true tag_false : list N) (mk : nat -> dd nat -> dd nat -> option (dd nat))
    (fuel : nat) (i : list N) : presult (dd nat) :=
  match fuel with
  | O => PStuck
  | S k =>
      match tag tag_true i with
      | Some r => POk r (Leaf true)
      | None =>
          match tag tag_false i with
          | Some r => POk r (Leaf false)
          | None =>
              match tag [40] i with
              | None => PErr
              | Some i1 =>
                  pbind (ws node_id i1) (fun i2 id =>
                  pbind (ws (node_parser tag_true tag_false mk k) i2) (fun i3 low =>
                  pbind (ws (node_parser tag_true tag_false mk k) i3) (fun i4 high =>
                  match tag [41] i4 with
                  | None => PErr
                  | Some r => match mk (N.to_nat id) low high with
                              | Some n => POk r n
                              | None => PStuck
                              end
                  end)))
              end
          end
      end
  end.

Inductive parsed := Parsed (n : dd nat) | Rejected | Stuck.
Definition finish (r : presult (dd nat)) : parsed :=
  match r with POk _ n => Parsed n | PErr => Rejected | PStuck => Stuck end.

(** [build_node_string]: the characters of a node (weave/src/zdd2/forest/node/parser.rs L12-23,
    weave/src/zdd/node/parser.rs L9-20) *)
Fixpoint print_node (text_true text_false : list N) (n : dd nat) : list N :=
  match n with
  | Leaf true => text_true
  | Leaf false => text_false
  | Branch id low high =>
      [40] ++ decimal (N.of_nat id) ++ [32] ++ print_node text_true text_false low ++ [32] ++
      print_node text_true text_false high ++ [41]
  end.

(** ** zdd2: weave/src/zdd2/forest/node/parser.rs *)
(** L9-10: "(A)", "(N)" *)
Definition text_always : list N := [40; 65; 41].
Definition text_never : list N := [40; 78; 41].
(** build_node_string, L12-23 *)
Definition build_node_string (n : dd nat) : list N := print_node text_always text_never n.
(** parse_node_string, L25-28 *)
Definition parse_node_string (s : list N) : parsed :=
  let i := as_bytes (trim s) in
  finish (node_parser text_always text_never branch (S (length i)) i).

(** ** zdd: weave/src/zdd/node/parser.rs *)
(** L6-7: "(T)", "(F)" *)
Definition text_T : list N := [40; 84; 41].
Definition text_F : list N := [40; 70; 41].
(** build_node_string, L9-20 *)
Definition zbuild_node_string (n : dd nat) : list N := print_node text_T text_F n.
(** parse_node_string, L22-25 (no [trim]); [Node::branch] does not reduce *)
Definition zparse_node_string (s : list N) : parsed :=
  let i := as_bytes s in
  finish (node_parser text_T text_F (fun id lo hi => Some (zbranch id lo hi)) (S (length i)) i).

Section Serde.
  Context {T : Type} `{Ord T}.

  (** ** zdd2 Forest: [derive(Serialize, Deserialize)],
      weave/src/zdd2/forest/mod.rs L25-29; [NodeId] as its node's text
      (weave/src/zdd2/forest/node/serialize.rs L10-22, L38-62); [Universe] as its occurrence map in key
      order (weave/src/zdd2/forest/universe/serialize.rs L12-17), rebuilt by [from_occurrences] (L30-32).
      A deserialized map is a sequence of entries inserted one after the other. *)
  Definition f_serialize (f : forest T) : list N * list (T * nat) :=
    (build_node_string (f_root f), u_occ (f_univ f)).
  Definition map_collect (l : list (T * nat)) : list (T * nat) :=
    fold_left (fun m p => map_insert m (fst p) (snd p)) l [].
  (** Deserialize: weave/src/zdd2/forest/node/serialize.rs L38-62, weave/src/zdd2/forest/universe/serialize.rs L19-39 *)
  Definition f_deserialize (h : hash_order) (d : list N * list (T * nat)) : option (forest T) :=
    match parse_node_string (fst d) with
    | Parsed n => Some (mkF n (from_occurrences h site_new (map_collect (snd d))))
    | _ => None
    end.

  (** ** zdd Tree: [derive(Serialize, Deserialize)], weave/src/zdd/tree/mod.rs
      L26-30; Universe, weave/src/zdd/tree/universe.rs L11-21: the items and the
      item index in key order *)
  Definition z_serialize (t : ztree T) : list N * (list T * list (T * nat)) :=
    (zbuild_node_string (zt_root t), (zu_items (zt_univ t), zu_index (zt_univ t))).
  Definition z_deserialize (d : list N * (list T * list (T * nat))) : option (ztree T) :=
    match zparse_node_string (fst d) with
    | Parsed n => Some (mkZT n (mkZU (fst (snd d)) (map_collect (snd (snd d)))))
    | _ => None
    end.

  (** ** Debug for Forest, weave/src/zdd2/forest/mod.rs L31-54.  [show] is the
      item type's [Debug]; a priority shows as "Priority(7)"; [None] is the [unwrap] on an unknown priority. *)
  Fixpoint f_fmt_inner (show : T -> list N) (u : universe T) (root : dd nat) (indent : nat) : option (list N) :=
    match root with
    | Branch id low high =>
        let! item := get_item u id in
        let! lo := f_fmt_inner show u low (S indent) in
        let! hi := f_fmt_inner show u high (S indent) in
        let bars := concat (repeat [124; 32] indent) in
        Some ([80; 114; 105; 111; 114; 105; 116; 121; 40] ++ decimal (N.of_nat id) ++ [41; 58; 32] ++ show item ++ [10] ++ bars ++ lo ++ [10] ++ bars ++ hi)
    | Leaf true => Some [65; 108; 119; 97; 121; 115]
    | Leaf false => Some [78; 101; 118; 101; 114]
    end.
  (** fmt, weave/src/zdd2/forest/mod.rs L31-35 *)
  Definition f_debug (show : T -> list N) (f : forest T) : option (list N) :=
    let! s := f_fmt_inner show (f_univ f) (f_root f) 1 in Some ([10] ++ s).
End Serde.
