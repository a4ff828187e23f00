(** What a transaction is, seen from outside: a tree of calls.

    This file does not use the program's frames, snapshots and logs.  A
    [node] is something that happened; a transaction is a list of nodes. *)
Require Import ZArith List Bool.
From Verif.Model Require Import CallFrames.
Import ListNotations.
Open Scope Z_scope.

Section Spec.
  Variables W E M A : Type.

  Inductive node :=
  | Wrote (g : W -> W)
  | Emitted (e : E)
  | Sent (m : M)
  | Spent (n : Z)
  | Agreed (a : A) (portion : Z)
  | Became_readonly
  | Called (sync : bool) (limit : Z) (body : list node) (used : Z) (status : option Z)
      (** a call which ran [body] and ended with [status]; None is success *)
  | Cut (limit : Z) (body : list node)
      (** a call which was cut by a timeout or a critical failure, at a time
          when the calls [Unfinished] inside were running *)
  | Unfinished (limit : Z) (body : list node).

  (** The actions of the environment a tree stands for. *)
  Fixpoint actions (n : node) : list (action W E M A) :=
    match n with
    | Wrote g => [AWrite g]
    | Emitted e => [AEvent e]
    | Sent m => [AMessage m]
    | Spent n => [ASpend n]
    | Agreed a p => [APortion a p]
    | Became_readonly => [AReadOnly]
    | Called sync limit body used status =>
        ACall sync limit :: flat_map actions body ++ [AReturn used status]
    | Cut limit body => ACall true limit :: flat_map actions body ++ [AAbort]
    | Unfinished limit body => ACall false limit :: flat_map actions body
    end.

  (** [tree false l]: [l] is a list of things which happened one after the
      other, in which every call ended or was cut.  [tree true l]: the last
      one may be a call which was running when the cut came. *)
  Inductive tree : bool -> list node -> Prop :=
  | tree_nil : forall b, tree b []
  | tree_wrote : forall b g l, tree b l -> tree b (Wrote g :: l)
  | tree_emitted : forall b e l, tree b l -> tree b (Emitted e :: l)
  | tree_sent : forall b m l, tree b l -> tree b (Sent m :: l)
  | tree_spent : forall b n l, tree b l -> tree b (Spent n :: l)
  | tree_agreed : forall b a n l, tree b l -> tree b (Agreed a n :: l)
  | tree_readonly : forall b l, tree b l -> tree b (Became_readonly :: l)
  | tree_called : forall b s lim body u st l,
      tree false body -> tree b l -> tree b (Called s lim body u st :: l)
  | tree_cut : forall b lim body l, tree true body -> tree b l -> tree b (Cut lim body :: l)
  | tree_open : forall lim body, tree true body -> tree true [Unfinished lim body].

  Definition is_readonly (n : node) : bool :=
    match n with Became_readonly => true | _ => false end.

  (** The changes of the world which survive: those of a call which failed,
      was cut, or became read-only are lost, and so are those of all the
      calls it made. *)
  Fixpoint writes (n : node) : list (W -> W) :=
    match n with
    | Wrote g => [g]
    | Called _ _ body _ None =>
        if existsb is_readonly body then [] else flat_map writes body
    | _ => []
    end.

  (** The same for event logs. *)
  Fixpoint events (n : node) : list E :=
    match n with
    | Emitted e => [e]
    | Called _ _ body _ None =>
        if existsb is_readonly body then [] else flat_map events body
    | _ => []
    end.

  (** The same for BTP messages. *)
  Fixpoint messages (n : node) : list M :=
    match n with
    | Sent m => [m]
    | Called _ _ body _ None =>
        if existsb is_readonly body then [] else flat_map messages body
    | _ => []
    end.

  (** Changes are applied in the order in which they were made. *)
  Definition apply_all (gs : list (W -> W)) (w : W) : W :=
    fold_left (fun w g => g w) gs w.
End Spec.

Arguments Wrote {W E M A}. Arguments Emitted {W E M A}. Arguments Sent {W E M A}.
Arguments Spent {W E M A}. Arguments Agreed {W E M A}. Arguments Became_readonly {W E M A}.
Arguments Called {W E M A}. Arguments Cut {W E M A}. Arguments Unfinished {W E M A}.
Arguments actions {W E M A}. Arguments tree {W E M A}. Arguments is_readonly {W E M A}.
Arguments writes {W E M A}. Arguments events {W E M A}. Arguments messages {W E M A}.
Arguments apply_all {W}.

(** ** A single call *)
Section Within.
  Variables W E M A : Type.

  (** The actions [l], done from [c], stay inside the call which is current
      in [c]: the stack never gets as low as [n] frames. *)
  Fixpoint stays (pol : policy) (n : nat) (c : cfg W E M A) (l : list (action W E M A)) : Prop :=
    (n < List.length (c_stack c))%nat /\
    match l with
    | [] => True
    | a :: r => match step pol c a with Some c' => stays pol n c' r | None => False end
    end.

  (** Everything a caller's frame holds but the agreed fee payers. *)
  Definition without_payers (f : frame W E M A) : frame W E M A := set_payers f [].
End Within.
Arguments stays {W E M A}. Arguments without_payers {W E M A}.
