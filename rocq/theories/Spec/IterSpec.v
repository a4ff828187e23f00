(** Byte strings in order. *)
From Verif Require Import Model.Bytes.
Open Scope Z_scope.

(** Lexicographic order, as of Go's [bytes.Compare]. *)
Fixpoint before (a b : list Z) : Prop :=
  match a, b with
  | _, [] => False
  | [], _ :: _ => True
  | x :: a', y :: b' => x < y \/ (x = y /\ before a' b')
  end.
Definition starts_with (p k : list Z) : Prop := exists r, k = p ++ r.
