(** Python statements as state transformers: result or exception or blocked, and the new state. Nothing here
    models project code. *)
From Verif Require Import Model.Bytes Model.Exn.

Definition SM (S A : Type) := S -> pyres A * S.
Definition mret {S A} (a : A) : SM S A := fun w => (Ok a, w).
Definition mraise {S A} (e : exn) : SM S A := fun w => (Exc e, w).
Definition mbind {S A B} (m : SM S A) (f : A -> SM S B) : SM S B :=
  fun w => match m w with
           | (Ok a, w') => f a w'
           | (Exc e, w') => (Exc e, w')
           | (Stuck, w') => (Stuck, w')
           end.
(** [try: m except BaseException as e: h(e)]. *)
Definition mtry {S A} (m : SM S A) (h : exn -> SM S A) : SM S A :=
  fun w => match m w with (Exc e, w') => h e w' | x => x end.
Definition mlift {S A} (r : pyres A) : SM S A := fun w => (r, w).
Declare Scope mon_scope.
Notation "x <- m ;; k" := (mbind m (fun x => k)) (at level 61, m at next level, right associativity) : mon_scope.
Notation "m ;;; k" := (mbind m (fun _ => k)) (at level 61, right associativity) : mon_scope.
Open Scope mon_scope.

(** The result of a call handed to the code that made it: an exception it may catch, or a value. *)
Definition outcome (A : Type) : Type := exn + A.
Definition step_to {S A B} (m : SM S A) (k : outcome A -> SM S B) : SM S B :=
  fun w => match m w with
           | (Ok a, w') => k (inr a) w'
           | (Exc e, w') => k (inl e) w'
           | (Stuck, w') => (Stuck, w')
           end.
