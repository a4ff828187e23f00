(** What the claims about the HAVAH platform say, without reference to how the code computes it.

    [sum_over]     the total of a quantity over a list of accounts or planets
    [genesis]      a freshly configured chain: nothing registered, issued, owed or logged
    [ordinary]     a transaction that is not sent by the keyless reward treasury
    [history]      the worlds a chain can be in: any number of blocks and transactions from a genesis
    [year_amount]  the issue amount after a number of yearly reductions by 30 percent, rounded as integers *)
From Verif Require Import Model.HvhState Model.HvhExt.
From Coq Require Import ZArith List Bool.
Import ListNotations.
Open Scope Z_scope.

Fixpoint sum_over (f : Z -> Z) (l : list Z) : Z := match l with [] => 0 | x :: r => f x + sum_over f r end.

(** Every coin is on some account: a finite set of accounts holds all of the recorded supply. *)
Definition supply_backed (w : world) : Prop :=
  exists l, NoDup l /\ (forall a, ~ In a l -> bal w a = 0) /\ sum_over (bal w) l = supply w.

Definition genesis (w : world) : Prop :=
  0 <= height w /\ issue_start w = 0 /\ log w = [] /\ managers w = [] /\
  (forall id, planets w id = None) /\ (forall id, rewards w id = None) /\
  all_planet w = 0 /\ active_planet w = 0 /\ working_planet w = 0 /\
  reward_total w = 0 /\ reward_remain w = 0 /\ eco_reward w = 0 /\ lost w = 0 /\ claim_rate w = 0 /\
  0 <= usdt_price w /\ 0 <= big_or (issue_amount w) InitIssueAmount /\
  (forall a, 0 <= bal w a) /\ supply_backed w /\
  a_id (treasury w) <> a_id PublicTreasury.

Definition ordinary (t : tx) : Prop :=
  match t with
  | Call from _ => a_id from <> a_id PublicTreasury
  | Coins from _ _ => a_id from <> a_id PublicTreasury
  end.

Inductive history (w0 : world) : world -> Prop :=
| h_genesis : history w0 w0
| h_block : forall w w' rev claimed vote_check,
    history w0 w -> begin_block rev claimed vote_check w = Some w' -> history w0 w'
| h_tx : forall w t, history w0 w -> ordinary t -> history w0 (apply_tx t w).

(** The term the block at a world's height belongs to; -1 before the first. *)
Definition current_term (w : world) : Z :=
  if (0 <? issue_start w) && (issue_start w <=? height w)
  then (height w - issue_start w) / get_term_period w else -1.

(** One yearly reduction takes away three tenths, rounded down. *)
Definition reduced (a : Z) : Z := a - a * 3 / 10.
Fixpoint year_amount (first : Z) (years : nat) : Z :=
  match years with O => first | S n => reduced (year_amount first n) end.

(** The amount issued at the start of term [ts] when [first] was configured and a reduction happens every [cycle]
    terms. *)
Definition scheduled (first cycle ts : Z) : Z := year_amount first (Z.to_nat (ts / cycle)).

(** The first [n] terms with their amounts, newest first. *)
Fixpoint schedule (first cycle : Z) (n : nat) : list (Z * Z) :=
  match n with O => [] | S k => (Z.of_nat k, scheduled first cycle (Z.of_nat k)) :: schedule first cycle k end.

(** The terms a log records as issued, newest first, with their amounts. *)
Definition issued (l : list hevent) : list (Z * Z) :=
  flat_map (fun e => match e with EvIssued ts a _ => [(ts, a)] | _ => [] end) l.
Definition burned (l : list hevent) : list Z :=
  flat_map (fun e => match e with EvBurned a _ => [a] | _ => [] end) l.
Fixpoint sum_list (l : list Z) : Z := match l with [] => 0 | x :: r => x + sum_list r end.

(** How often the log records a reward for planet [id] in term [ts]. *)
Definition offers (l : list hevent) (ts id : Z) : list Z :=
  flat_map (fun e => match e with EvOffered t i r _ => if (t =? ts) && (i =? id) then [r] else [] | _ => [] end) l.

(** What the reward treasury owes: the undistributed rest, the EcoSystem's share, lost rewards, and the unclaimed
    rewards of the given planets. *)
Definition owed (w : world) (ids : list Z) : Z :=
  reward_remain w + eco_reward w + lost w + sum_over (fun id => pr_current (reward_of w id)) ids.

(** What a planet's owner can not take yet: of a private planet, the part of all rewards so far that the rate
    [num / denom] has not released, rounded down. *)
Definition locked_share (private : bool) (num denom total : Z) : Z :=
  if private then (denom - num) * total / denom else 0.
(** Of what a company planet earns, the EcoSystem gets three fifths rounded down and the owner the rest. *)
Definition eco_part (company : bool) (full : Z) : Z := if company then full * 3 / 5 else 0.
(** The share of one planet in a term: the term's reward divided evenly over the planets counted at its start. *)
Definition share (w : world) : Z := if 0 <? active_planet w then reward_total w / active_planet w else 0.
(** The subsidy: up to a tenth of the planet's USDT price at the term's rate, spread over 360 days, as far as the
    fund has it and the planet has not earned its price back. *)
Definition guided (p : planet) (rate : Z) : Z := p_usdt p * rate / 1000000 / 10 / 360.
Definition hoover_pays (p : planet) (total reward rate fund : Z) : Z :=
  Z.max 0 (Z.min (Z.min (p_price p - total - reward) (guided p rate - reward)) fund).
(** The block a world's term began at. *)
Definition term_start (w : world) : Z := issue_start w + current_term w * get_term_period w.
