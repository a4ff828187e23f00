(** What a transaction does, seen from outside.

    This file uses the inputs of the program (the block, the transaction, how
    its call ended) and the tree of calls; it does not use its frames and its
    lists of payers. *)
Require Import ZArith List Bool.
From Verif.Model Require Import CallFrames Deposits FeePayers TxExecute.
From Verif.Spec Require Import CallSpec FeeSpec.
Import ListNotations.
Open Scope Z_scope.

Section Spec.
  Variables A R E M : Type.
  Notation world := (world A R).
  Notation env := (env A R).
  Notation node := (node world E M A).

  (** The steps the transaction may use. *)
  Definition step_limit (e : env) (t : tx A) : Z :=
    if t_patch t then e_invoke e else Z.min (e_invoke e) (t_limit t).

  (** The price of a step: a patch is free. *)
  Definition step_price (e : env) (t : tx A) : Z := if t_patch t then 0 else e_price e.

  (** Why a transaction is refused before its call is made. *)
  Definition refusal (e : env) (t : tx A) (w : world) : option status :=
    if negb (t_patch t) && (bal w (t_from t) <? e_price e * t_limit t + t_value t) then Some OutOfBalance
    else if negb (t_patch t) && e_refuses e (t_to t) w then Some EmptyDeposit
    else if (step_limit e t <? e_default e) || (step_limit e t <? e_default e + e_input e)
    then Some OutOfStep
    else if negb (t_patch t) && e_blocked e (t_from t) w then Some Denied
    else None.

  (** The steps its call may use. *)
  Definition room (e : env) (t : tx A) : Z := step_limit e t - e_default e - e_input e.

  (** Its call, which did [body]. *)
  Definition first_call (e : env) (t : tx A) (body : list node) (en : ending) : node :=
    match en with
    | Returned used code => Called true (room e t) body used code
    | _ => Cut (room e t) body
    end.

  Definition happened (e : env) (t : tx A) (w : world) (body : list node) (en : ending) : list node :=
    match refusal e t w with Some _ => [] | None => [first_call e t body en] end.

  (** What is wrong with the transaction, the fee apart. *)
  Definition verdict (e : env) (t : tx A) (w : world) (en : ending) : option status :=
    match refusal e t w with
    | Some s => Some s
    | None => match en with
              | Returned _ None => None
              | Returned _ (Some k) => Some (Failed k)
              | _ => Some TimedOut
              end
    end.

  (** The steps it has used.  A timeout uses all of them. *)
  Definition steps_used (e : env) (t : tx A) (w : world) (body : list node) (en : ending) : Z :=
    match refusal e t w with
    | Some OutOfStep => step_limit e t
    | Some Denied => e_default e + e_input e
    | Some _ => 0
    | None => match en with
              | Returned used _ => e_default e + e_input e + used_by (room e t) body used
              | _ => step_limit e t
              end
    end.

  (** It pays the default steps at least. *)
  Definition steps_charged (e : env) (t : tx A) (w : world) (body : list node) (en : ending) : Z :=
    Z.max (e_default e) (steps_used e t w body en).

  (** The world after its call. *)
  Definition after_call (e : env) (t : tx A) (w : world) (body : list node) (en : ending) : world :=
    apply_all (flat_map writes (happened e t w body en)) w.

  (** Who shares its fee: the calls, and the contract which was called first
      (it shares the fee even if the call failed). *)
  Definition sharers (e : env) (t : tx A) (w : world) (body : list node) (en : ending) : list (call A) :=
    flat_map (first_sharing (fee_sharing (e_pol e) && multiple_payers (e_pol e))) (happened e t w body en).

  Definition first_payer (e : env) (t : tx A) (w : world) (body : list node) : option (A * Z) :=
    match refusal e t w with
    | Some _ => None
    | None => if fee_sharing (e_pol e) then fold_left agreement body None else None
    end.

  Definition is_timeout (en : ending) : bool := match en with Timeout => true | _ => false end.

  (** [l] is what the call of the transaction did. *)
  Definition did (en : ending) (l : list (action world E M A)) (body : list node) : Prop :=
    flat_map actions body = l /\ tree (is_timeout en) body.
End Spec.
Arguments step_limit {A R}. Arguments step_price {A R}. Arguments refusal {A R}. Arguments room {A R}.
Arguments first_call {A R E M}. Arguments happened {A R E M}. Arguments verdict {A R}.
Arguments steps_used {A R E M}. Arguments steps_charged {A R E M}. Arguments after_call {A R E M}.
Arguments sharers {A R E M}. Arguments first_payer {A R E M}. Arguments did {A R E M}.
