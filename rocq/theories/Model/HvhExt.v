(** HAVAH platform operations: havah/hvh/extension.go, havah/hvh/base.go (the reward economy; validators are in
    HvhValidator.v), the access checks of havah/chainscore_havah.go and the block rules of havah/platform.go.
    Logging is not modelled; steps charged by the chain SCORE are not modelled. *)
From Verif Require Import Model.HvhState.
From Coq Require Import ZArith List Bool.
Import ListNotations.
Open Scope Z_scope.

(** base.go:607-620 [increaseScoreVarDB] on one variable of the SustainableFund SCORE *)
Definition increase_var (g : world -> Z) (s : Z -> world -> world) (amount : Z) : M unit :=
  if amount <=? 0 then ret tt else put (fun w => s (g w + amount) w).

(** ** Term end *)
(** base.go:398-411 *)
Definition transfer_eco_reward : M unit :=
  r <- claim_eco_reward ;; transfer PublicTreasury EcoSystem r.
(** base.go:576-601; the result is the part given to the SustainableFund *)
Definition distribute_fee (from : addr) : M Z :=
  b <- get (fun w => balance w from) ;;
  if 0 <? b then
    let eco := b * EcoFeeNum / EcoFeeDenom in
    let sus := b - eco in
    transfer from SustainableFund sus ;; transfer from EcoSystem eco ;; ret sus
  else ret 0.
(** base.go:560-574 *)
Definition distribute_tx_fee : M unit :=
  t <- get treasury ;; s <- distribute_fee t ;; increase_var sf_tx_fee set_sf_tx_fee s.
(** base.go:544-558 *)
Definition distribute_service_fee : M unit :=
  s <- distribute_fee ServiceTreasury ;; increase_var sf_service_fee set_sf_service_fee s.
(** base.go:413-440 *)
Definition transfer_missed_reward : M unit :=
  missed <- claim_missed_reward ;;
  b <- get (fun w => balance w PublicTreasury) ;;
  if b <? missed then fail EInvalidState
  else transfer PublicTreasury SustainableFund missed ;; increase_var sf_missing set_sf_missing missed.
(** base.go:457-490 *)
Definition refill_hoover_fund : M unit :=
  budget <- get get_hoover_budget ;;
  hf <- get (fun w => balance w HooverFund) ;;
  if 0 <? budget - hf then
    sf <- get (fun w => balance w SustainableFund) ;;
    let amount := if sf <? budget - hf then sf else budget - hf in
    transfer SustainableFund HooverFund amount ;;
    increase_var sf_refill set_sf_refill amount ;;
    hf' <- get (fun w => balance w HooverFund) ;;
    sf' <- get (fun w => balance w SustainableFund) ;;
    emit (EvHooverRefilled amount hf' sf')
  else ret tt.
(** base.go:370-396; 442-455 [distributeFees] is the two fee steps *)
Definition on_term_end : M unit :=
  transfer_eco_reward ;;
  distribute_tx_fee ;; distribute_service_fee ;;
  transfer_missed_reward ;;
  refill_hoover_fund ;;
  state_on_term_end.

(** ** Term start *)
(** base.go:531-542 *)
Definition issue_coin (ts amount : Z) : M unit :=
  supply' <- issue PublicTreasury amount ;; emit (EvIssued ts amount supply').
(** base.go:492-529; [claimed] is the amount written in the base transaction *)
Definition on_term_start (ts claimed : Z) : M unit :=
  ab <- get (fun w => issue_amount_by_ts w ts) ;;
  when (snd ab) (put (set_issue_amount (Some (fst ab)))) ;;
  if negb (claimed =? fst ab) then fail EInvalidTx
  else issue_coin ts (fst ab) ;;
       state_on_term_start (fst ab) ;;
       w <- get (fun w => w) ;;
       when (RevisionTermStartedEvent <=? revision w)
            (emit (EvTermStarted ts (active_planet w) (reward_per_planet w))).

(** base.go:291-368, the part about terms and rewards *)
Definition on_base_tx (claimed : Z) : M unit :=
  w <- get (fun w => w) ;;
  if negb (is_issue_started (height w) (issue_start w)) then fail EInvalidState
  else let '(ts, index) := term_seq_and_index (height w) (issue_start w) (get_term_period w) in
       when (index =? 0)
         (let limit := get_issue_limit w in
          when ((0 <? ts) && ((limit =? 0) || (ts <=? limit))) on_term_end ;;
          when ((limit =? 0) || (ts <? limit)) (on_term_start ts claimed)).

(** extension.go:179-204 [NewBaseTransactionData]: the amount a proposer writes in its base transaction.
    [vote_check] is [IsItTimeToCheckBlockVote(blockIndex)]. *)
Definition new_base_data (w : world) (vote_check : bool) : option Z :=
  let amount := get_issue_amount w (height w) (issue_start w) in
  if amount <=? 0 then if vote_check then Some amount else None else Some amount.
(** platform.go:96-121 [OnValidateTransactions]: whether the first transaction of the block must be (and may only
    then be) a base transaction *)
Definition need_base_tx (w : world) (vote_check : bool) : bool :=
  let '(ts, index) := term_seq_and_index (height w) (issue_start w) (get_term_period w) in
  ((0 <=? ts) && (index =? 0)) || vote_check.

(** ** Operations of the extension *)
(** extension.go:409-413, 419-425, 427-440 *)
Definition hoover_limit (total reward price : Z) : Z := price - total - reward.
Definition hoover_guide (usdt active_price : Z) : Z := usdt * active_price / USDTDecimal / 10 / DayPerYear.
Definition hoover_subsidy (limit guide balance reward : Z) : Z :=
  let request := guide - reward in
  let request := if limit <? request then limit else request in
  if balance <? request then balance else request.

(** extension.go:305-407 *)
Definition report_planet_work (id : Z) : M unit :=
  h <- get height ;; start <- get issue_start ;;
  if negb (is_issue_started h start) then fail EInvalidState
  else
  p <- state_get_planet id ;;
  period <- get get_term_period ;;
  let ts := Z.quot (h - start) period in
  let term_start := ts * period + start in
  let tn := ts + 1 in
  if term_start <=? p_height p then fail ERewardError
  else
  pr <- get (fun w => reward_of w id) ;;
  if tn <=? pr_last_tn pr then fail ERewardError
  else
  reward <- get reward_per_planet ;;
  decrease_reward_remain reward ;;
  w <- get (fun w => w) ;;
  let limit := hoover_limit (pr_total pr) reward (p_price p) in
  let guide := hoover_guide (p_usdt p) (active_usdt_price w) in
  let hoover := balance w HooverFund in
  let request :=
    if 0 <? limit then
      if reward <? guide then if 0 <? hoover then hoover_subsidy limit guide hoover reward else 0 else 0
    else 0 in
  let full := reward + request in
  transfer HooverFund PublicTreasury request ;;
  (if p_company p then
     let eco := full * EcoCompanyNum / EcoCompanyDenom in
     offer_reward tn id pr (full - eco) full ;; increase_eco_reward eco
   else offer_reward tn id pr full full) ;;
  increment_working_planet ;;
  emit (EvOffered ts id full request).

(** extension.go:462-475, the loop body: a failed claim is logged and skipped; a failed transfer ends the call
    with success *)
Fixpoint claim_loop (ts : Z) (owner : addr) (ids : list Z) : M unit :=
  match ids with
  | [] => ret tt
  | id :: rest => fun w =>
      match state_claim_planet_reward id owner w with
      | (Er _, w') => claim_loop ts owner rest w'
      | (Ok reward, w') =>
          if 0 <? reward then
            match transfer PublicTreasury owner reward w' with
            | (Er _, w'') => (Ok tt, w'')
            | (Ok _, w'') => (emit (EvClaimed owner ts id reward) ;; claim_loop ts owner rest) w''
            end
          else claim_loop ts owner rest w'
      end
  end.
(** extension.go:444-479 *)
Definition claim_planet_reward (from : addr) (ids : list Z) : M unit :=
  if MaxCountToClaim <? Z.of_nat (length ids) then fail EIllegalArgument
  else w <- get (fun w => w) ;;
       if negb (is_issue_started (height w) (issue_start w)) then fail EInvalidState
       else claim_loop (Z.quot (height w - issue_start w) (get_term_period w)) from ids.

(** extension.go:270-287 *)
Definition unregister_planet (id : Z) : M unit :=
  rev <- get revision ;;
  delta <- state_unregister_planet rev id ;;
  when ((RevisionLostCoin <=? rev) && (0 <? delta))
       (total <- get lost ;; emit (EvLostDeposited delta total)).

(** extension.go:565-589 *)
Definition withdraw_lost_to (to : addr) : M unit :=
  if a_contract to then fail EIllegalArgument
  else l <- delete_lost ;;
       when (0 <? l) (transfer PublicTreasury to l ;; emit (EvLostWithdrawn to l)).

(** extension.go:536-547 *)
Definition burn_coin (amount : Z) : M unit :=
  supply' <- burn amount ;; emit (EvBurned amount supply').

(** ** Transactions: chain SCORE methods with their access checks (chainscore_havah.go), and movements of coins
    that do not involve the chain SCORE *)
Inductive call : Type :=
| SetUSDTPrice (price : Z)
| StartRewardIssue (height : Z)
| AddPlanetManager (a : addr)
| RemovePlanetManager (a : addr)
| RegisterPlanet (id : Z) (private company : bool) (owner : addr) (usdt price : Z)
| UnregisterPlanet (id : Z)
| SetPlanetOwner (id : Z) (owner : addr)
| ReportPlanetWork (id : Z)
| ClaimPlanetReward (ids : list Z)
| SetPrivateClaimableRate (num denom : Z)
| WithdrawLostTo (to : addr)
| Fallback (value : Z).

(** chainscore.go:850-860 *)
Definition check_governance (from : addr) : M unit :=
  g <- get gov ;; if addr_eqb from g then ret tt else fail EAccessDenied.
(** chainscore_havah.go:31-41 *)
Definition check_nft (from : addr) : M unit :=
  if addr_eqb PlanetNFT from then ret tt else fail EAccessDenied.

(** chainscore_havah.go:109-120 (with state.go:106-111), 135-148, 150-170, 185-220, 233-266, 320-330, 343-352,
    309-318.  [Ex_fallback] runs after the transferred value has reached the system address, in the same
    transaction. *)
Definition exec (from : addr) (c : call) : M unit :=
  match c with
  | SetUSDTPrice price =>
      rev <- get revision ;;
      when (RevisionFixAccessControl <=? rev) (check_governance from) ;;
      if price <? 0 then fail EReverted else put (set_usdt_price price)
  | StartRewardIssue h =>
      check_governance from ;;
      cur <- get height ;;
      if int64 h <=? cur then fail EReverted else state_set_issue_start cur (int64 h)
  | AddPlanetManager a => check_governance from ;; state_add_manager a
  | RemovePlanetManager a => check_governance from ;; state_remove_manager a
  | RegisterPlanet id private company owner usdt price =>
      check_nft from ;; h <- get height ;;
      state_register_planet (int64 id) private company owner usdt price h
  | UnregisterPlanet id => check_nft from ;; unregister_planet (int64 id)
  | SetPlanetOwner id owner => check_nft from ;; state_set_planet_owner (int64 id) owner
  | ReportPlanetWork id =>
      ok <- get (fun w => state_is_manager w from) ;;
      if negb ok then fail EAccessDenied else report_planet_work (int64 id)
  | ClaimPlanetReward ids => claim_planet_reward from (map int64 ids)
  | SetPrivateClaimableRate num denom => check_governance from ;; state_set_claim_rate (int64 num) (int64 denom)
  | WithdrawLostTo to => check_governance from ;; withdraw_lost_to to
  | Fallback value => transfer from SystemAddress value ;; burn_coin value
  end.

Inductive tx : Type :=
| Call (from : addr) (c : call)
| Coins (from to : addr) (amount : Z).   (* plain transfers, fees, transfers made by contracts *)

(** A transaction that fails is rolled back (service/contract/callcontext.go frames). *)
Definition apply_tx (t : tx) (w : world) : world :=
  match (match t with Call from c => exec from c | Coins from to amount => transfer from to amount end) w with
  | (Ok _, w') => w'
  | (Er _, _) => w
  end.

(** The start of the next block: the height advances (the revision may have been raised), and if a base
    transaction is due it runs first; when it fails the block is not executable (base.go:123-153). *)
Definition begin_block (rev claimed : Z) (vote_check : bool) (w : world) : option world :=
  let w1 := set_revision rev (set_height (height w + 1) w) in
  if need_base_tx w1 vote_check then
    match on_base_tx claimed w1 with (Ok _, w2) => Some w2 | (Er _, _) => None end
  else Some w1.
