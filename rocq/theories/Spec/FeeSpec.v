(** Who pays for a transaction: the rules, over the tree of its calls.

    This file does not use the program's lists of payers, their pointers to
    each other and the order in which they are filled in. *)
Require Import ZArith List Bool.
From Verif.Model Require Import CallFrames.
From Verif.Spec Require Import CallSpec.
Import ListNotations.
Open Scope Z_scope.

Section Spec.
  Variable A : Type.

  (** A call which succeeded: the calls it made which succeeded, the steps it
      used (with those of the calls it made), and what its contract has
      agreed to pay: who pays and which percentage. *)
  Inductive call := Call (inner : list call) (used : Z) (agreed : option (A * Z)).

  (** A line of the bill: [b_used] is the steps of the call. *)
  Record bill := mkBill {
    b_payer : A; b_percent : Z; b_used : Z; b_paid : Z; b_fee : option Z
  }.

  Variable P : Type.
  (** [pay s a n]: payer [a] is asked to pay [n] steps.  The result: what it
      has then, the steps it paid, and how many of those with coins. *)
  Variable pay : P -> A -> Z -> P * Z * option Z.

  (** The rules.  Inner calls settle first, in their order.  A contract which
      has agreed to pay [q] percent is due [q] percent of the steps of its
      call which are not due from the calls it made, and of what the payers
      inside could not pay.  What it cannot pay it leaves to the payer
      outside.  The result: what the payers have then, the bill, the steps due
      (when nobody fails to pay), and the steps left to the payer outside. *)
  Fixpoint settle (c : call) (s : P) : P * list bill * Z * Z :=
    match c with
    | Call inner used agreed =>
        let '(s1, bills, due, unpaid) :=
          (fix all (cs : list call) (s : P) : P * list bill * Z * Z :=
             match cs with
             | [] => (s, [], 0, 0)
             | c :: r =>
                 let '(s1, b1, d1, u1) := settle c s in
                 let '(s2, b2, d2, u2) := all r s1 in
                 (s2, b1 ++ b2, d1 + d2, u1 + u2)
             end) inner s in
        match agreed with
        | None => (s1, bills, due, unpaid)
        | Some (a, q) =>
            let asked := (used - due + unpaid) * q / 100 in
            let '(s2, paid, fee) := pay s1 a asked in
            (s2, bills ++ [mkBill a q used paid fee],
             due + (used - due) * q / 100, Z.max 0 (asked - paid))
        end
    end.

  Fixpoint settle_all (cs : list call) (s : P) : P * list bill * Z * Z :=
    match cs with
    | [] => (s, [], 0, 0)
    | c :: r =>
        let '(s1, b1, d1, u1) := settle c s in
        let '(s2, b2, d2, u2) := settle_all r s1 in
        (s2, b1 ++ b2, d1 + d2, u1 + u2)
    end.

  Definition total (l : list bill) : Z := fold_right (fun b n => b_paid b + n) 0 l.

  (** A whole transaction, which used [steps]: the contract which was called
      first pays its percentage of what the others have not paid. *)
  Definition settle_tx (cs : list call) (first : option (A * Z)) (steps : Z) (s : P)
    : P * list bill :=
    let '(s1, bills, _, _) := settle_all cs s in
    match first with
    | None => (s1, bills)
    | Some (a, q) =>
        let '(s2, paid, fee) := pay s1 a ((steps - total bills) * q / 100) in
        (s2, bills ++ [mkBill a q steps paid fee])
    end.

  (** A call used at least the steps of the calls it made. *)
  Fixpoint sane (c : call) : Prop :=
    match c with
    | Call inner used agreed =>
        fold_right (fun c n => (match c with Call _ u _ => u end) + n) 0 inner <= used /\
        0 <= used /\
        match agreed with Some (_, q) => 0 < q <= 100 | None => True end /\
        (fix all (l : list call) : Prop :=
           match l with [] => True | c :: r => sane c /\ all r end) inner
    end.
End Spec.
Arguments Call {A}. Arguments mkBill {A}. Arguments b_payer {A}. Arguments b_percent {A}.
Arguments b_used {A}. Arguments b_paid {A}. Arguments b_fee {A}.
Arguments settle {A P}. Arguments settle_all {A P}. Arguments settle_tx {A P}.
Arguments total {A}. Arguments sane {A}.

(** ** The calls of a transaction *)
Section Calls.
  Variables W E M A : Type.
  Notation node := (node W E M A).

  (** The last agreement which is a percentage counts; 0 takes it back. *)
  Definition agreement (o : option (A * Z)) (n : node) : option (A * Z) :=
    match n with
    | Agreed a q => if (q <? 0) || (100 <? q) then o
                    else if q =? 0 then None else Some (a, q)
    | _ => o
    end.

  (** The steps used, never above the limit of the call. *)
  Definition spending (limit : Z) (u : Z) (n : node) : Z :=
    match n with Spent k => Z.min limit (u + k) | _ => u end.

  Definition used_by (limit : Z) (body : list node) (reported : Z) : Z :=
    Z.min limit (fold_left (spending limit) body 0 + reported).

  (** The calls inside the first one which succeeded; [many]: contracts which
      are called by others may agree to pay. *)
  Fixpoint sharing (many : bool) (n : node) : list (call A) :=
    match n with
    | Called _ limit body reported None =>
        if existsb is_readonly body then []
        else [Call (flat_map (sharing many) body) (used_by limit body reported)
                   (if many then fold_left agreement body None else None)]
    | _ => []
    end.

  (** The first call's agreement is not its own but the transaction's. *)
  Definition first_sharing (many : bool) (n : node) : list (call A) :=
    match n with
    | Called _ limit body reported None =>
        if existsb is_readonly body then []
        else [Call (flat_map (sharing many) body) (used_by limit body reported) None]
    | _ => []
    end.

  Definition body_of (n : node) : list node :=
    match n with
    | Called _ _ body _ _ => body
    | Cut _ body => body
    | Unfinished _ body => body
    | _ => []
    end.

  Definition is_call (n : node) : bool :=
    match n with
    | Called _ _ _ _ _ => true
    | Cut _ _ => true
    | Unfinished _ _ => true
    | _ => false
    end.
End Calls.
Arguments agreement {W E M A}. Arguments spending {W E M A}. Arguments used_by {W E M A}.
Arguments sharing {W E M A}. Arguments first_sharing {W E M A}. Arguments body_of {W E M A}.
Arguments is_call {W E M A}.
