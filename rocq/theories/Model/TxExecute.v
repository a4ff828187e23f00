(** Executing a transaction and charging its fee.

    Models [service/transaction/transactionhandler.go] ([DoExecute], [Execute],
    [checkBalance]) over the call frames (Model/CallFrames.v), the deposits
    (Model/Deposits.v) and the payers (Model/FeePayers.v), and the fee fields
    of [service/txresult/receipt.go] and [feedetail.go].

    The flags of the revisions are those of HAVAH (havah/hvhmodule/revision.go:
    no [LegacyFeeCharge], no [LegacyBalanceCheck], [FixLostFeeByDeposit]).
    Simplifications: what the data of the transaction cost is a number;
    estimation, tracing and the rerun flag are not modelled; a wrong JSON of
    the data (an error of the block, not of the transaction) is not
    modelled; the details of a receipt are not sorted by address. *)
Require Import ZArith List Bool.
From Verif.Model Require Import CallFrames Deposits FeePayers.
Import ListNotations.
Open Scope Z_scope.

Section Execute.
  (** [A] an address, [R] the world without balances and deposits, [E] an
      event, [M] a message. *)
  Variables A R E M : Type.
  Variable eqb : A -> A -> bool.
  Variable is_system : A -> bool.

  Record world := mkWorld { bal : A -> Z; purse_of : purse A; other : R }.

  Definition set_balance (w : world) (a : A) (n : Z) : world :=
    mkWorld (fun b => if eqb a b then n else bal w b) (purse_of w) (other w).

  (** What a contract context knows of the block and the revision.
      [e_input]: the steps for the data of the transaction. *)
  Record env := mkEnv {
    e_pol : policy;
    e_height : Z;
    e_price : Z;
    e_invoke : Z;
    e_default : Z;
    e_input : Z;
    e_blocked : A -> world -> bool;   (* IsBlocked *)
    e_refuses : A -> world -> bool    (* the deposits of the called contract: CheckDeposit *)
  }.

  (** transactionhandler.go:26-38; a missing value is 0. *)
  Record tx := mkTx { t_from : A; t_to : A; t_value : Z; t_limit : Z; t_patch : bool }.

  Inductive status := OutOfBalance | OutOfStep | EmptyDeposit | Denied | TimedOut | Failed (code : Z).

  (** How the call of the transaction ended. *)
  Inductive ending :=
  | Returned (used : Z) (code : option Z)
  | Timeout
  | Critical.   (* ExecutionFailError or a critical code *)

  (** txresult/receipt.go: the fields which matter here. *)
  Record receipt := mkReceipt {
    r_status : option status;     (* None: success *)
    r_used : Z;
    r_price : Z;
    r_events : list E;
    r_messages : list M;
    r_details : list (A * Z);
    r_fee_steps : option Z
  }.

  Inductive outcome :=
  | Stuck            (* the actions given are not possible *)
  | Fatal            (* an error of the block: no receipt *)
  | Endless          (* the loop which charges the fee does not end *)
  | Done (r : receipt) (w : world).

  Notation cfg := (cfg world E M A).
  Notation action := (action world E M A).

  (** callcontext.go:316-349: the messages [waitResult] handles until the
      result of the target: the frame of the call is there all the time. *)
  Fixpoint run_call (pol : policy) (c : cfg) (l : list action) : option cfg :=
    if Nat.leb 2 (List.length (c_stack c)) then
      match l with
      | [] => Some c
      | a :: r => match step pol c a with Some c' => run_call pol c' r | None => None end
      end
    else None.

  (** callcontext.go:538-544, [DeductSteps], of the base frame. *)
  Definition deduct_base (c : cfg) (n : Z) : cfg :=
    match c_stack c with
    | [f] => mkCfg (c_world c) [deduct f n] (c_nextfid c) (c_nextpid c)
    | _ => c
    end.

  (** callcontext.go:510-521, [ApplySteps]: whether the steps were enough. *)
  Definition enough (c : cfg) (n : Z) : bool :=
    match c_stack c with f :: _ => deduct_ok f n | [] => false end.

  Definition base_available (c : cfg) : Z :=
    match c_stack c with f :: _ => available f | [] => 0 end.
  Definition base_used (c : cfg) : Z :=
    match c_stack c with f :: _ => f_used f | [] => 0 end.

  Inductive executed := XStuck | XFatal | XDone (s : option status) (c : cfg).

  (** transactionhandler.go:148-160: the call of the transaction. *)
  Definition call_part (pol : policy) (c : cfg) (body : list action) (e : ending) : executed :=
    match step pol c (ACall true (base_available c)) with
    | None => XStuck
    | Some c1 =>
        match run_call pol c1 body with
        | None => XStuck
        | Some c2 =>
            match e with
            | Critical => XFatal
            | Returned used code =>
                match c_stack c2 with
                | [g; _] =>
                    match step pol c2 (AReturn used code) with
                    | Some c3 =>
                        XDone (match code with None => None | Some k => Some (Failed k) end)
                              (deduct_base c3 (f_used (deduct g used)))
                    | None => XStuck
                    end
                | _ => XStuck
                end
            | Timeout =>
                match nth_error (rev (c_stack c2)) 1, step pol c2 AAbort with
                | Some g, Some c3 =>
                    match c_stack c3 with
                    | [_] => let c4 := deduct_base c3 (f_used g) in
                             XDone (Some TimedOut) (deduct_base c4 (base_available c4))
                    | _ => XStuck
                    end
                | _, _ => XStuck
                end
            end
        end
    end.

  (** transactionhandler.go:122-161, [DoExecute], with 83-112, [checkBalance],
      and 114-120, [checkBlocked]. *)
  Definition do_execute (e : env) (t : tx) (w : world) (limit : Z) (body : list action) (en : ending)
    : executed :=
    let c0 := new_context w limit false in
    if negb (t_patch t) && (bal w (t_from t) <? e_price e * t_limit t + t_value t)
    then XDone (Some OutOfBalance) c0
    else if negb (t_patch t) && e_refuses e (t_to t) w then XDone (Some EmptyDeposit) c0
    else
      let c1 := deduct_base c0 (e_default e) in
      if negb (enough c0 (e_default e)) then XDone (Some OutOfStep) c1
      else
        let c2 := deduct_base c1 (e_input e) in
        if negb (enough c1 (e_input e)) then XDone (Some OutOfStep) c2
        else if negb (t_patch t) && e_blocked e (t_from t) w then XDone (Some Denied) c2
        else call_part (e_pol e) c2 body en.

  (** The variables of [Execute] which the loop changes. *)
  Record charge := mkCharge {
    ch_world : world;
    ch_status : option status;
    ch_to_pay : Z;
    ch_price : Z;
    ch_fee : Z;
    ch_logs : list (paid_by A)
  }.

  (** transactionhandler.go:226-263: the loop.  [wcs] is the world before the
      transaction, [redeemed] whether payers were asked. *)
  Fixpoint charge_loop (fuel : nat) (wcs : world) (from : A) (used : Z) (redeemed : bool)
      (x : charge) : option charge :=
    match fuel with
    | O => None
    | S k =>
        if bal (ch_world x) from <? ch_fee x then
          match ch_status x with
          | None =>
              let to_pay := if redeemed then used else ch_to_pay x in
              charge_loop k wcs from used redeemed
                (mkCharge wcs (Some OutOfBalance) to_pay (ch_price x) (to_pay * ch_price x)
                          (if redeemed then [] else ch_logs x))
          | Some _ =>
              charge_loop k wcs from used redeemed
                (mkCharge (if redeemed then wcs else ch_world x) (Some OutOfBalance)
                          (if redeemed then used else ch_to_pay x) 0 0
                          (if redeemed then [] else ch_logs x))
          end
        else Some x
    end.

  (** feedetail.go:38-52, [AddPayment]. *)
  Fixpoint add_detail (l : list (A * Z)) (a : A) (n : Z) : list (A * Z) :=
    match l with
    | [] => [(a, n)]
    | (b, m) :: r => if eqb b a then (b, m + n) :: r else (b, m) :: add_detail r a n
    end.

  (** receipt.go:419-432, [AddPayment]. *)
  Definition add_payment (x : list (A * Z) * option Z) (p : A * Z * option Z)
    : list (A * Z) * option Z :=
    let '(a, n, fee) := p in
    (if n =? 0 then fst x else add_detail (fst x) a n, add_opt (snd x) fee).

  (** transactionhandler.go:163-282, [Execute]. *)
  Definition execute (e : env) (t : tx) (w : world) (body : list action) (en : ending) : outcome :=
    let limit := if t_patch t || (e_invoke e <? t_limit t) then e_invoke e else t_limit t in
    match do_execute e t w limit body en with
    | XStuck => Stuck
    | XFatal => Fatal
    | XDone st c =>
        let price := if t_patch t then 0 else e_price e in
        let used := if base_used c <? e_default e then e_default e else base_used c in
        let payers := match c_stack c with f :: _ => f_payers f | [] => [] end in
        let shared := fee_sharing (e_pol e) && (0 <? price) in
        let '(w1, logs, redeemed) :=
          if shared then
            let '(s, l, n) := redeem eqb is_system (e_height e) (e_price e) payers used (purse_of (c_world c)) in
            (mkWorld (bal (c_world c)) s (other (c_world c)), l, n)
          else (c_world c, [], 0) in
        let to_pay := used - redeemed in
        match charge_loop 3 w (t_from t) used shared
                (mkCharge w1 st to_pay price (to_pay * price) logs) with
        | None => Endless
        | Some x =>
            let w2 := set_balance (ch_world x) (t_from t) (bal (ch_world x) (t_from t) - ch_fee x) in
            let pays := payments eqb (ch_logs x) in
            let d := fold_left add_payment pays ([], None) in
            let d := if negb (Nat.eqb (List.length pays) 0) && negb (ch_to_pay x =? 0)
                     then add_payment d (t_from t, ch_to_pay x, Some (ch_to_pay x)) else d in
            let '(ev, ms) :=
              match ch_status x, c_stack c with
              | None, f :: _ => (f_logs f, f_msgs f)
              | _, _ => ([], [])
              end in
            Done (mkReceipt (ch_status x) used (ch_price x) ev ms (fst d) (snd d)) w2
        end
    end.

  (** receipt.go:717-729, [Fee], of a receipt which was just made. *)
  Definition fee_of (r : receipt) : Z :=
    match r_details r with
    | [] => r_used r * r_price r
    | _ => match r_fee_steps r with Some n => n * r_price r | None => 0 end
    end.
End Execute.

Arguments mkWorld {A R}. Arguments bal {A R}. Arguments purse_of {A R}. Arguments other {A R}.
Arguments set_balance {A R}.
Arguments mkEnv {A R}. Arguments e_pol {A R}. Arguments e_height {A R}. Arguments e_price {A R}.
Arguments e_invoke {A R}. Arguments e_default {A R}. Arguments e_input {A R}.
Arguments e_blocked {A R}. Arguments e_refuses {A R}.
Arguments mkTx {A}. Arguments t_from {A}. Arguments t_to {A}. Arguments t_value {A}.
Arguments t_limit {A}. Arguments t_patch {A}.
Arguments mkReceipt {A E M}. Arguments r_status {A E M}. Arguments r_used {A E M}.
Arguments r_price {A E M}. Arguments r_events {A E M}. Arguments r_messages {A E M}.
Arguments r_details {A E M}. Arguments r_fee_steps {A E M}.
Arguments Stuck {A R E M}. Arguments Fatal {A R E M}. Arguments Endless {A R E M}.
Arguments Done {A R E M}.
Arguments run_call {A R E M}. Arguments deduct_base {A R E M}. Arguments enough {A R E M}.
Arguments base_available {A R E M}. Arguments base_used {A R E M}.
Arguments XStuck {A R E M}. Arguments XFatal {A R E M}. Arguments XDone {A R E M}.
Arguments call_part {A R E M}. Arguments do_execute {A R E M}.
Arguments mkCharge {A R}. Arguments ch_world {A R}. Arguments ch_status {A R}.
Arguments ch_to_pay {A R}. Arguments ch_price {A R}. Arguments ch_fee {A R}. Arguments ch_logs {A R}.
Arguments charge_loop {A R}. Arguments add_detail {A}. Arguments add_payment {A}.
Arguments execute {A R E M}. Arguments fee_of {A E M}.
