(** RepoPrelude: vocabulary shared by the transcriptions of the repository's own tests
    (RepoTests_*.v, generated by tools/rust_tests.py).

    [teq] is [assert_eq!]; [token] is [serde_test::Token].  A panic of the code is [None] where the
    test keeps the value, and the value "PANIC" below, which no test expects, where it is unwrapped. *)
From Coq Require Import String Ascii List Bool NArith.
From Verif Require Import Base DD Zdd2Model.
Import ListNotations.

(** [==], as used by [assert_eq!] *)
Class TEq (A : Type) := teq : A -> A -> bool.
#[global] Instance TEq_nat : TEq nat := Nat.eqb.
#[global] Instance TEq_bool : TEq bool := Bool.eqb.
#[global] Instance TEq_string : TEq string := String.eqb.
#[global] Instance TEq_list A `{TEq A} : TEq (list A) :=
  fix go l m := match l, m with [], [] => true | x :: l', y :: m' => teq x y && go l' m' | _, _ => false end.
#[global] Instance TEq_pair A B `{TEq A} `{TEq B} : TEq (A * B) :=
  fun p q => teq (fst p) (fst q) && teq (snd p) (snd q).
(** on options, [None] is a panic: it equals nothing *)
#[global] Instance TEq_option A `{TEq A} : TEq (option A) :=
  fun p q => match p, q with Some x, Some y => teq x y | _, _ => false end.
#[global] Instance TEq_N : TEq N := N.eqb.

(** text as the code points the parsers read, and back *)
Definition text_of (s : string) : list N := map N_of_ascii (list_ascii_of_string s).
Definition of_text (s : list N) : string := string_of_list_ascii (map ascii_of_N s).

(** [serde_test::Token] *)
Inductive token :=
| Token_Struct (name : string) (len : nat) | Token_StructEnd
| Token_NewtypeStruct (name : string)
| Token_TupleVariant (name variant : string) (len : nat) | Token_TupleVariantEnd
| Token_NewtypeVariant (name variant : string)
| Token_Str (s : string) | Token_BorrowedStr (s : string) | Token_U64 (n : nat) | Token_Bool (b : bool)
| Token_Map (len : option nat) | Token_MapEnd | Token_Seq (len : option nat) | Token_SeqEnd.
Definition token_eqb (a b : token) : bool :=
  match a, b with
  | Token_Struct n l, Token_Struct n' l' => String.eqb n n' && Nat.eqb l l'
  | Token_StructEnd, Token_StructEnd | Token_TupleVariantEnd, Token_TupleVariantEnd
  | Token_MapEnd, Token_MapEnd | Token_SeqEnd, Token_SeqEnd => true
  | Token_NewtypeStruct n, Token_NewtypeStruct n' | Token_Str n, Token_Str n' | Token_BorrowedStr n, Token_BorrowedStr n' => String.eqb n n'
  | Token_TupleVariant n v l, Token_TupleVariant n' v' l' => String.eqb n n' && String.eqb v v' && Nat.eqb l l'
  | Token_NewtypeVariant n v, Token_NewtypeVariant n' v' => String.eqb n n' && String.eqb v v'
  | Token_U64 n, Token_U64 n' => Nat.eqb n n'
  | Token_Bool n, Token_Bool n' => Bool.eqb n n'
  | Token_Map (Some n), Token_Map (Some n') | Token_Seq (Some n), Token_Seq (Some n') => Nat.eqb n n'
  | _, _ => false
  end.
#[global] Instance TEq_token : TEq token := token_eqb.

(** [assert_tokens(&x, tokens)]: serializing [x] gives the tokens and deserializing gives [x] back.
    [to_tokens] spells the model's serialized form as tokens, [round_trip] is the model's
    deserialization of its own serialized form compared with [==]. *)
Class Tokens (A : Type) := { to_tokens : A -> list token; round_trip : A -> bool }.
Definition assert_tokens {A} `{Tokens A} (x : A) (ts : list token) : bool := teq (to_tokens x) ts && round_trip x.
#[global] Instance Tokens_option A `{Tokens A} : Tokens (option A) :=
  {| to_tokens o := match o with Some x => to_tokens x | None => [Token_Str "PANIC"] end;
     round_trip o := match o with Some x => round_trip x | None => false end |}.
Definition map_tokens (f : string -> token) (l : list (string * nat)) : list token :=
  Token_Map (Some (length l)) :: flat_map (fun p => [f (fst p); Token_U64 (snd p)]) l ++ [Token_MapEnd].

(** [btreeset!], [hashmap!] (compared after sorting by key), [Vec::new()] *)
Definition btreeset {A} `{Ord A} (l : list A) : list A := sort (unique l).
Definition hashmap {A B} `{Ord A} (l : list (A * B)) : list (A * B) :=
  fold_left (fun m p => map_insert m (fst p) (snd p)) l [].
Definition Vec_new {A} : list A := [].
Definition PANIC {A} (d : A) (o : option A) : A := match o with Some x => x | None => d end.
