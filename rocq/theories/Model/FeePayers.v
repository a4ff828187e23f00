(** Paying for the steps of a transaction with the deposits of contracts.

    Models the part of [service/contract/feepayerinfo.go] which runs after the
    calls of a transaction have ended ([PaySteps] and [GetLogs]); the part
    which runs while they do is in Model/CallFrames.v.

    Simplifications: an address and the account ID made of it are the same
    (payers are contracts or the system account: callhandler.go:605-614); the
    map of [GetLogs] is a list of its entries in the order of their first
    appearance (the receipt sorts them again); a database error while the
    usage of the system deposit is written is not modelled. *)
Require Import ZArith List Bool.
From Verif.Model Require Import CallFrames Deposits.
Import ListNotations.
Open Scope Z_scope.

Section Pay.
  (** [A] an address. *)
  Variable A : Type.
  Variable eqb : A -> A -> bool.
  Variable is_system : A -> bool.

  (** The part of the world payments change: the deposits of every account
      and the variable [VarSystemDepositUsage] of the system account. *)
  Record purse := mkPurse { deposits_of : A -> list deposit; usage : Z }.

  Definition set_deposits (s : purse) (a : A) (dl : list deposit) : purse :=
    mkPurse (fun b => if eqb a b then dl else deposits_of s b) (usage s).

  (** One payment: feepayerinfo.go:48-58, [payWithSystemDeposit], and 60-78,
      [payWithAccountDeposit], for [n] steps ([p.steps], never nil here), with
      service/state/account.go:855-862, [PaySteps] (it is called only if fees
      may be shared).  The result: the steps paid, and those of them paid with
      coins of the deposits (nil: none). *)
  Definition pay_for (height price : Z) (s : purse) (a : A) (n : Z) : purse * Z * option Z :=
    if is_system a then (mkPurse (deposits_of s) (usage s + n * price), n, None)
    else match pay_steps height price (deposits_of s a) n with
         | Some (dl, paid, by_deposit) => (set_deposits s a dl, paid, by_deposit)
         | None => (s, 0, None)
         end.

  (** feepayerinfo.go:100-105, [DelegateSteps], of the payer [parent] points
      to.  It is found by its identity; no other payer is changed. *)
  Definition delegated (p : payer A) (s : Z) : payer A :=
    match p_base p with
    | None => p
    | Some b => mkPayer (p_id p) (p_addr p) (p_portion p)
                        (Some (calc_steps p (b + s))) (Some (b + s)) (p_parent p)
    end.

  Fixpoint delegate (id : nat) (s : Z) (ps : list (option (payer A))) : list (option (payer A)) :=
    match ps with
    | [] => []
    | Some p :: r => if Nat.eqb (p_id p) id then Some (delegated p s) :: r
                     else Some p :: delegate id s r
    | None :: r => None :: delegate id s r
    end.

  (** A payer after it has paid: [paidSteps] and [feeSteps]. *)
  Record paid_by := mkPaid { pd_payer : payer A; pd_paid : Z; pd_fee : option Z }.

  (** feepayerinfo.go:161-177, the loop of [FeePayerInfo.PaySteps]; [n] is
      the length of the list ([delegate] keeps it).  The result: the deposits,
      the payers with what they paid, and what is still to pay. *)
  Fixpoint pay_all (height price : Z) (n : nat) (ps : list (option (payer A))) (to_pay : Z)
      (s : purse) : purse * list paid_by * Z :=
    match n, ps with
    | S n', None :: r => pay_all height price n' r to_pay s
    | S n', Some p :: r =>
        let p := ensure_steps p to_pay in
        let '(s', paid, fee) := pay_for height price s (p_addr p) (steps_of p) in
        let r' :=
          if is_system (p_addr p) then r
          else if paid <? steps_of p then
            match p_parent p with
            | Some id => delegate id (steps_of p - paid) r
            | None => r
            end
          else r in
        let '(s2, l, rest) := pay_all height price n' r' (to_pay - paid) s' in
        (s2, mkPaid p paid fee :: l, rest)
    | _, _ => (s, [], to_pay)
    end.

  (** feepayerinfo.go:161-177, [FeePayerInfo.PaySteps], called by
      callcontext.go:611-613, [RedeemSteps]: the steps which were paid. *)
  Definition redeem (height price : Z) (ps : list (option (payer A))) (steps : Z) (s : purse)
    : purse * list paid_by * Z :=
    let '(s', l, rest) := pay_all height price (List.length ps) ps steps s in
    (s', l, steps - rest).

  (** feepayerinfo.go:179-187, [addBigInt]. *)
  Definition add_opt (a b : option Z) : option Z :=
    match a, b with
    | None, _ => b
    | _, None => a
    | Some x, Some y => Some (x + y)
    end.

  (** feepayerinfo.go:189-205, [GetLogs]: payments of the same payer are added up. *)
  Fixpoint merge_one (a : A) (paid : Z) (fee : option Z) (l : list (A * Z * option Z))
    : list (A * Z * option Z) :=
    match l with
    | [] => [(a, paid, fee)]
    | (b, p, f) :: r =>
        if eqb a b then (b, paid + p, add_opt fee f) :: r
        else (b, p, f) :: merge_one a paid fee r
    end.

  Definition merged (l : list paid_by) : list (A * Z * option Z) :=
    fold_left (fun m d => merge_one (p_addr (pd_payer d)) (pd_paid d) (pd_fee d) m) l [].

  (** feepayerinfo.go:206-218: the payments [GetLogs] adds to the receipt. *)
  Definition payments (l : list paid_by) : list (A * Z * option Z) :=
    filter (fun e => negb (snd (fst e) =? 0)) (merged l).
End Pay.

Arguments mkPurse {A}. Arguments deposits_of {A}. Arguments usage {A}.
Arguments set_deposits {A}. Arguments pay_for {A}. Arguments delegated {A}. Arguments delegate {A}.
Arguments mkPaid {A}. Arguments pd_payer {A}. Arguments pd_paid {A}. Arguments pd_fee {A}.
Arguments pay_all {A}. Arguments redeem {A}. Arguments merge_one {A}. Arguments merged {A}.
Arguments payments {A}.
