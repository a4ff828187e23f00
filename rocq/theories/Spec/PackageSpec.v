(** What the code of a SCORE module imports when it runs, and what it may import. *)
From Verif Require Import Model.Bytes Model.Utf8 Model.PackageValidator.
From Coq Require Import String List.
Import ListNotations.
Open Scope list_scope.
Open Scope nat_scope.

(** The code of CPython 3.6 to 3.10 as a listing: operation and full argument.  EXTENDED_ARG (144) supplies the high
    bytes of the argument that follows. *)
Fixpoint listing (bs : list Z) (ext : Z) : list (Z * Z) :=
  match bs with
  | op :: arg :: r =>
      let a := (ext * 256 + arg)%Z in
      (op, a) :: listing r (if (op =? 144)%Z then a else 0%Z)
  | _ => []
  end.
Definition instrs (c : code) : list (Z * Z) := listing (co_code c) 0.

(** Control enters an import (two LOAD_CONST, then IMPORT_NAME) only at its beginning, or by falling into it:
    [inside l] says that [l], the rest of a listing, starts after the first of the two loads or at the IMPORT_NAME. *)
Fixpoint inside1 (l : list (Z * Z)) : bool :=
  match l with
  | (op, _) :: r => if (op =? 108)%Z then true else if (op =? 144)%Z then inside1 r else false
  | [] => false
  end.
Fixpoint inside (l : list (Z * Z)) : bool :=
  match l with
  | (op, _) :: r =>
      if (op =? 108)%Z then true
      else if (op =? 144)%Z then inside r
      else if (op =? 100)%Z then inside1 r
      else false
  | [] => false
  end.

(** [runs c i st]: an execution of [c] reaches instruction [i] with [st] on the stack (top first).  LOAD_CONST (100) pushes
    its constant; any other instruction may leave any stack and go on at the next instruction or at any other one that
    is not inside an import. *)
Inductive runs (c : code) : nat -> list const -> Prop :=
| runs_start : runs c 0 []
| runs_const i st a v :
    runs c i st -> nth_error (instrs c) i = Some (100%Z, a) -> nth_error (co_consts c) (Z.to_nat a) = Some v ->
    runs c (S i) (v :: st)
| runs_extended i st a :
    runs c i st -> nth_error (instrs c) i = Some (144%Z, a) -> runs c (S i) st
| runs_other i st op a j st' :
    runs c i st -> nth_error (instrs c) i = Some (op, a) -> op <> 100%Z -> op <> 144%Z ->
    j = S i \/ inside (skipn j (instrs c)) = false ->
    runs c j st'.

(** [imports c name from_list level]: an execution of [c] carries out this import.  IMPORT_NAME (108) takes the list of names and
    the level off the stack, so it is not among the first two instructions. *)
Definition imports (c : code) (name : pystr) (from_list level : const) : Prop :=
  exists i st a, 2 <= i /\ runs c i (from_list :: level :: st) /\ nth_error (instrs c) i = Some (108%Z, a)
                 /\ nth_error (co_names c) (Z.to_nat a) = Some name.

(** [within c d]: [d] is [c] or the code of a function, class or comprehension in it, at any depth. *)
Inductive within (c : code) : code -> Prop :=
| within_self : within c c
| within_const d e : within c d -> In (KCode e) (co_consts d) -> within c e.

(** An import relative to the package. *)
Definition relative (level : const) : Prop :=
  match level with KInt z => (0 < z)%Z | KOther (Some b) => b = true | _ => False end.
(** The list of names of [import m] or [from m import *], or an empty one. *)
Definition whole (from_list : const) : Prop :=
  match from_list with
  | KNone => True
  | KTuple l => l = [] \/ hd [] l = lit "*"
  | KStr s => s = [] \/ firstn 1 s = lit "*"
  | _ => False
  end.
Definition permitted (name : pystr) (from_list level : const) : Prop :=
  relative level \/ (name = lit "iconservice" /\ whole from_list).

