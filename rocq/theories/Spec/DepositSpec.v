(** What the owner of a contract and its callers expect of deposits. *)
Require Import ZArith List Bool.
From Verif.Model Require Import Deposits.
Import ListNotations.
Open Scope Z_scope.

(** The coins, and the virtual steps, which a deposit holds. *)
Definition coins (d : deposit) : Z :=
  match d with V1 _ _ rm _ _ _ _ => rm | V2 rm => rm end.

Definition vsteps (d : deposit) : Z :=
  match d with V1 _ _ _ _ _ sr _ => sr | V2 _ => 0 end.

Definition sum (f : deposit -> Z) (dl : list deposit) : Z :=
  fold_right (fun d n => f d + n) 0 dl.

(** A deposit in a state it can be in: nothing is negative, no more is left
    than there was, a deposit with a term has a positive amount, and it is
    marked exhausted when a tenth of it or less is left. *)
Definition sound (d : deposit) : Prop :=
  match d with
  | V1 _ am rm _ iss sr xh =>
      0 < am /\ 0 <= rm <= am /\ 0 <= sr <= iss /\
      (xh = true <-> rm <= am / 10)
  | V2 rm => 0 <= rm
  end.

(** A deposit can pay at this height. *)
Definition active (height : Z) (d : deposit) : bool :=
  match d with V1 _ _ _ ex _ _ _ => height <? ex | V2 _ => true end.

(** ** Histories *)

(** What is done with the deposits of one contract, each at its own height and
    step price. *)
Inductive dop :=
| Add (dc : dctx) (value : Z)
| Withdraw (dc : dctx) (id : list Z) (value : option Z)
| Pay (dc : dctx) (steps : Z)
| Reload.                         (* stored and read again *)

(** What came in, went out to the owner, was taken as a penalty, was taken as
    a fee. *)
Record ledger := mkLedger { l_in : Z; l_out : Z; l_penalty : Z; l_fee : Z }.

(** A refused operation changes nothing. *)
Definition do_op (x : list deposit * ledger) (o : dop) : list deposit * ledger :=
  let (dl, l) := x in
  match o with
  | Add dc v =>
      match add_deposit dc dl v with
      | Some dl' => (dl', mkLedger (l_in l + v) (l_out l) (l_penalty l) (l_fee l))
      | None => x
      end
  | Withdraw dc id v =>
      match withdraw_deposit dc dl id v with
      | Some (dl', a, p) => (dl', mkLedger (l_in l) (l_out l + a) (l_penalty l + p) (l_fee l))
      | None => x
      end
  | Pay dc n =>
      match pay_steps (d_height dc) (d_price dc) dl n with
      | Some (dl', paid, by_deposit) =>
          (dl', mkLedger (l_in l) (l_out l) (l_penalty l)
                         (l_fee l + match by_deposit with Some k => k * d_price dc | None => 0 end))
      | None => x
      end
  | Reload => (map reload dl, l)
  end.

(** Values which the callers of these functions let through
    (deposithandler.go:134-150: the value of a deposit is not negative, and
    within bounds if there is a term; governance sets rates and prices). *)
Definition op_ok (o : dop) : Prop :=
  match o with
  | Add dc v => 0 <= v /\ (d_term dc <> 0 -> 0 < v) /\ 0 <= d_rate dc
  | Withdraw dc _ _ => 0 <= d_price dc
  | Pay _ n => 0 <= n
  | Reload => True
  end.
