(** LoadOpsSpec: vocabulary for operations on forests that may have been loaded (no proofs here). *)
From Coq Require Import List Arith NArith Bool.
From Verif Require Import Base Spec Zdd2Model ParserModel.
Import ListNotations.

Section LoadOpsSpec.
  Context {T : Type} `{Ord T}.
  (** the count that a list of counts reports for an item, 0 if it has no entry *)
  Definition reported (l : list (T * nat)) (x : T) : nat :=
    match find (fun p => eqb_ (fst p) x) l with Some p => snd p | None => 0 end.
  (** a forest a client can hold: made by calls of the API, or loaded from any data at all *)
  Definition obtainable (f : forest T) : Prop :=
    Reach f \/ exists h d, f_deserialize h d = Some f.
End LoadOpsSpec.
