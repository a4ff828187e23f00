(** Names of archive entries as lists of components. *)
From Verif Require Import Model.Unpack.
From Coq Require Import String List ZArith.
Import ListNotations.
Open Scope Z_scope.
Open Scope list_scope.

(** The components joined by slashes. *)
Fixpoint slashed (l : list gostr) : gostr :=
  match l with
  | [] => []
  | [x] => x
  | x :: r => x ++ 47 :: slashed r
  end.
(** [named s l]: [s] consists of the components [l]. *)
Definition named (s : gostr) (l : list gostr) : Prop := l <> [] /\ Forall (fun x => ~ In 47 x) l /\ s = slashed l.
(** A component that stands for itself in a path. *)
Definition plain (x : gostr) : Prop := x <> [] /\ x <> golit "." /\ x <> golit "..".
(** The bytes of all files written. *)
Definition volume (w : written) : Z := fold_right (fun f n => snd f + n) 0 w.
