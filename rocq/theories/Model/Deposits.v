(** Deposits of a contract, for paying the fees of its callers.

    Models [service/state/deposit.go] and [service/state/depositlist.go], and
    the three functions of [service/state/account.go] which use them.  Amounts
    are unbounded integers (big.Int).  Simplifications: a transaction ID is a
    list of numbers; big.Int pointers are values (every function of these
    files allocates its results); errors are [None]. *)
Require Import ZArith List Bool.
Import ListNotations.
Open Scope Z_scope.

(** deposit.go:99-107, [depositV1], and 326-328, [depositV2]. *)
Inductive deposit :=
| V1 (id : list Z) (amount remain : Z) (expire : Z) (issued steps : Z) (exhausted : bool)
| V2 (remain : Z).

(** depositlist.go:27-40, [DepositContext] and [PayContext]. *)
Record dctx := mkDctx {
  d_price : Z;
  d_height : Z;
  d_term : Z;
  d_rate : Z;
  d_tid : list Z
}.

Fixpoint eqb_id (a b : list Z) : bool :=
  match a, b with
  | [], [] => true
  | x :: a', y :: b' => (x =? y) && eqb_id a' b'
  | _, _ => false
  end.

(** deposit.go:143-145, [minDeposit]. *)
Definition min_deposit (amount : Z) : Z := amount / 10.

(** deposit.go:147-155, [calcVirtualSteps]. *)
Definition virtual_steps (amount rate price : Z) : Z :=
  if price <=? 0 then 0 else amount * rate / 100 / price.

(** deposit.go:157-159, [expireAt]. *)
Definition expired (expire height : Z) : bool := expire <=? height.

(** deposit.go:168-186, 387-389, [ConsumeSteps]: the deposit after it, and the
    steps which are still to pay. *)
Definition consume_steps (height : Z) (d : deposit) (steps : Z) : deposit * Z :=
  match d with
  | V2 _ => (d, steps)
  | V1 id am rm ex iss sr xh =>
      if expired ex height then (d, steps)
      else if sr =? 0 then (d, steps)
      else if sr <? steps then (V1 id am rm ex iss 0 xh, steps - sr)
      else (V1 id am rm ex iss (sr - steps) xh, 0)
  end.

(** deposit.go:188-193, 344-346, [GetAvailableDeposit]. *)
Definition available_deposit (height : Z) (d : deposit) : Z :=
  match d with
  | V1 _ _ rm ex _ _ _ => if expired ex height then 0 else rm
  | V2 rm => rm
  end.

(** deposit.go:195-205, 348-350, [GetUsableDeposit]. *)
Definition usable_deposit (height : Z) (d : deposit) : Z :=
  match d with
  | V1 _ am rm ex _ _ _ =>
      if expired ex height then 0
      else if rm <=? min_deposit am then 0 else rm - min_deposit am
  | V2 rm => rm
  end.

(** deposit.go:207-227, 391-400, [ConsumeDepositLv1]. *)
Definition consume_lv1 (height : Z) (d : deposit) (fee : Z) : deposit * Z :=
  match d with
  | V1 id am rm ex iss sr xh =>
      if expired ex height || xh then (d, fee)
      else if rm <=? min_deposit am then (d, fee)
      else
        let payable := rm - min_deposit am in
        if payable <=? fee then (V1 id am (rm - payable) ex iss sr true, fee - payable)
        else (V1 id am (rm - fee) ex iss sr xh, 0)
  | V2 rm => if rm <=? fee then (V2 0, fee - rm) else (V2 (rm - fee), 0)
  end.

(** deposit.go:229-242, 402-404, [ConsumeDepositLv2]. *)
Definition consume_lv2 (height : Z) (d : deposit) (fee : Z) : deposit * Z :=
  match d with
  | V1 id am rm ex iss sr xh =>
      if expired ex height then (d, fee)
      else if rm <? fee then (V1 id am 0 ex iss sr xh, fee - rm)
      else (V1 id am (rm - fee) ex iss sr xh, 0)
  | V2 _ => (d, fee)
  end.

(** deposit.go:244-249, 336-338, [CanPay]. *)
Definition can_pay (height limit : Z) (d : deposit) : bool :=
  match d with
  | V1 _ _ _ ex _ _ xh => negb (expired ex height || xh)
  | V2 rm => limit <=? rm
  end.

(** deposit.go:264-266, 360-362, [IsIdentifiedBy]. *)
Definition identified (d : deposit) (id : list Z) : bool :=
  match d with
  | V1 i _ _ _ _ _ _ => eqb_id i id
  | V2 _ => match id with [] => true | _ => false end
  end.

(** deposit.go:268-270, 364-367, [Add]. *)
Definition add (d : deposit) (value : Z) : option deposit :=
  match d with
  | V1 _ _ _ _ _ _ _ => None
  | V2 rm => Some (V2 (rm + value))
  end.

(** deposit.go:272-290, 369-385, [Withdraw]: the amount, the penalty, and the
    deposit which is left if it is not removed.  [value] is nil for all of
    it. *)
Definition withdraw (height price : Z) (d : deposit) (value : option Z)
  : option (Z * Z * option deposit) :=
  match d with
  | V1 _ _ rm ex iss sr _ =>
      match value with
      | Some _ => None
      | None =>
          if expired ex height then Some (rm, 0, None)
          else
            let penalty := (iss - sr) * price in
            if penalty <=? rm then Some (rm - penalty, penalty, None)
            else Some (0, rm, None)
      end
  | V2 rm =>
      let amount := match value with None => rm | Some v => v end in
      if amount <? rm then Some (amount, 0, Some (V2 (rm - amount)))
      else if amount =? rm then
        Some (amount, 0, match value with None => None | Some _ => Some (V2 0) end)
      else None
  end.

(** deposit.go:314-324, [newDepositV1], and 424-428, [newDepositV2]. *)
Definition new_deposit (dc : dctx) (value : Z) : deposit :=
  if d_term dc =? 0 then V2 value
  else
    let issue := virtual_steps value (d_rate dc) (d_price dc) in
    V1 (d_tid dc) value value (d_height dc + d_term dc) issue issue false.

(** deposit.go:113-138, 352-358, the fields as they are written and read again:
    [isExhausted] is not stored but computed. *)
Definition reload (d : deposit) : deposit :=
  match d with
  | V1 id am rm ex iss sr _ => V1 id am rm ex iss sr (rm <=? min_deposit am)
  | V2 _ => d
  end.

(** depositlist.go:71-96, [AddDeposit]. *)
Fixpoint add_to (dl : list deposit) (id : list Z) (value : Z) (fresh : deposit)
  : option (list deposit) :=
  match dl with
  | [] => Some [fresh]
  | d :: rest =>
      if identified d id then
        match add d value with Some d' => Some (d' :: rest) | None => None end
      else match add_to rest id value fresh with
           | Some r => Some (d :: r)
           | None => None
           end
  end.

Definition add_deposit (dc : dctx) (dl : list deposit) (value : Z) : option (list deposit) :=
  let tid := if d_term dc =? 0 then [] else d_tid dc in
  add_to dl tid value (new_deposit dc value).

(** depositlist.go:98-125, [WithdrawDeposit]: the deposits which are left, the
    amount and the penalty. *)
Fixpoint withdraw_from (dc : dctx) (dl : list deposit) (id : list Z) (value : option Z)
  : option (list deposit * Z * Z) :=
  match dl with
  | [] => None
  | d :: rest =>
      if identified d id then
        match withdraw (d_height dc) (d_price dc) d value with
        | None => None
        | Some (amount, penalty, lft) =>
            Some (match lft with Some d' => d' :: rest | None => rest end, amount, penalty)
        end
      else match withdraw_from dc rest id value with
           | Some (r, amount, penalty) => Some (d :: r, amount, penalty)
           | None => None
           end
  end.

Definition withdraw_deposit (dc : dctx) (dl : list deposit) (id : list Z) (value : option Z)
  : option (list deposit * Z * Z) :=
  match value with
  | Some v => if v <? 0 then None else withdraw_from dc dl id value
  | None => withdraw_from dc dl id value
  end.

(** depositlist.go:127-133, [getAvailableDeposit]. *)
Definition sum_available (height : Z) (dl : list deposit) : Z :=
  fold_right (fun d n => available_deposit height d + n) 0 dl.

(** depositlist.go:148-154, 173-179, 180-187: a loop which consumes from one
    deposit after the other until nothing is left. *)
Fixpoint consume (f : deposit -> Z -> deposit * Z) (dl : list deposit) (n : Z)
  : list deposit * Z :=
  match dl with
  | [] => ([], n)
  | d :: rest =>
      let (d', n') := f d n in
      if n' =? 0 then (d' :: rest, 0)
      else let (r, m) := consume f rest n' in (d' :: r, m)
  end.

(** depositlist.go:135-190, [PaySteps]: the deposits after it, the steps paid
    and, among them, those paid with deposits (nil if virtual steps were
    enough).  [None]: it returns nil, nil and changes nothing. *)
Definition pay_steps (height price : Z) (dl : list deposit) (steps : Z)
  : option (list deposit * Z * option Z) :=
  if price <=? 0 then None
  else match dl with
  | [] => None
  | _ =>
      let (dl1, remains) := consume (consume_steps height) dl steps in
      if remains =? 0 then Some (dl1, steps, None)
      else
        let payable := sum_available height dl1 / price in
        let by_deposit := if payable <? remains then payable else remains in
        let paid := if payable <? remains then steps - remains + by_deposit else steps in
        let fee := by_deposit * price in
        let (dl2, fee2) := consume (consume_lv1 height) dl1 fee in
        let dl3 := if fee2 =? 0 then dl2 else fst (consume (consume_lv2 height) dl2 fee2) in
        Some (dl3, paid, Some by_deposit)
  end.

(** depositlist.go:216-225, [CanPay], in account.go:198-205, [CheckDeposit]:
    whether the contract accepts a transaction. *)
Definition check_deposit (fee_sharing : bool) (height limit : Z) (dl : list deposit) : bool :=
  if fee_sharing then
    match dl with
    | [] => true
    | _ => existsb (can_pay height limit) dl
    end
  else true.
