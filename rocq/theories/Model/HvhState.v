(** HAVAH platform state: havah/hvh/hvhstate/{state,planet,planetreward,utils}.go, havah/hvhmodule/constant.go
    and the coin operations of havah/hvh/context.go.

    Integers: [*big.Int] is [Z] ([big.Int.Div] is Euclidean, which is [Z.div] for the positive divisors used
    here).  [int64] is [Z]: heights, sequence numbers and counters stay far inside the range; the one place where
    a caller chooses the value, [HexInt.Int64()] of an API argument, is [int64] below, with its wrap-around.
    Storage: each VarDB/DictDB/ArrayDB of the extension state is a field of [world] (unset integers read as 0, as
    [getBigInt]/[getInt64] do; variables whose "unset" is observable are [option]); RLP coding of the stored
    records and the container caching are not modelled here. *)
From Coq Require Import ZArith List Bool.
Import ListNotations.
Open Scope Z_scope.

(** ** Addresses.  common/address.go:226-235 [Equal], 101-103 [ID]: an account is found by the 20-byte identifier
    alone, equality of addresses also compares the kind. *)
Record addr : Type := mkAddr { a_contract : bool; a_id : Z }.
Definition addr_eqb (a b : addr) : bool := Bool.eqb (a_contract a) (a_contract b) && (a_id a =? a_id b).

(** ** havah/hvhmodule/constant.go:27-40, 67-75, 146-166; revision.go:23-41 *)
Definition DayBlock : Z := 24 * 60 * 60 / 2.
Definition DayPerYear : Z := 30 * 12.
Definition MaxPlanetCount : Z := 50000.
Definition MaxCountToClaim : Z := 50.
Definition TermPeriod : Z := DayBlock.
Definition IssueReductionCycle : Z := DayPerYear.
Definition IssueLimit : Z := 50 * IssueReductionCycle.
Definition PrivateClaimableRate : Z := 12 * 2.
Definition CoinDecimal : Z := 1000000000000000000.
Definition USDTDecimal : Z := 1000000.
Definition InitIssueAmount : Z := 4300000 * CoinDecimal.
Definition InitHooverBudget : Z := 4300000 * CoinDecimal.
Definition ReductionNum : Z := 3.   Definition ReductionDenom : Z := 10.
Definition EcoFeeNum : Z := 1.      Definition EcoFeeDenom : Z := 5.
Definition EcoCompanyNum : Z := 3.  Definition EcoCompanyDenom : Z := 5.
Definition RevisionPlanetIDReuse : Z := 2.
Definition RevisionLostCoin : Z := 2.
Definition RevisionTermStartedEvent : Z := 2.
Definition RevisionFixAccessControl : Z := 3.

Definition PublicTreasury  := mkAddr false 0x3000000000000000000000000000000000000000.
Definition SustainableFund := mkAddr true  0x4000000000000000000000000000000000000000.
Definition HooverFund      := mkAddr false 0x6000000000000000000000000000000000000000.
Definition EcoSystem       := mkAddr true  0x7000000000000000000000000000000000000000.
Definition PlanetNFT       := mkAddr true  0x8000000000000000000000000000000000000000.
Definition ServiceTreasury := mkAddr false 0x9000000000000000000000000000000000000000.
(** service/state: [SystemAddress] is cx00..00. *)
Definition SystemAddress   := mkAddr true 0.

(** ** planet.go:16-46 (the two flag bits as booleans) *)
Record planet : Type := mkPlanet {
  p_private : bool; p_company : bool; p_owner : addr; p_usdt : Z; p_price : Z; p_height : Z }.

(** ** planetreward.go:11-22 *)
Record planet_reward : Type := mkReward { pr_total : Z; pr_last_tn : Z; pr_current : Z }.
Definition empty_reward : planet_reward := mkReward 0 0 0.

(** ** Error classes (hvhmodule/constant.go:119-127 and scoreresult); messages are not modelled *)
Inductive herr : Type :=
| EIllegalArgument | ENotFound | EInvalidState | ERewardError | ENotReady | EDuplicate
| EReverted | EAccessDenied | EInvalidParameter | EInvalidTx | EGeneric.

(** ** Events (havah/hvh/eventlog.go), the ones the claims speak about *)
Inductive hevent : Type :=
| EvTransfer (from to : addr) (amount : Z)
| EvIssued (term amount supply : Z)
| EvBurned (amount supply : Z)
| EvTermStarted (term planets reward : Z)
| EvOffered (term id reward hoover : Z)
| EvClaimed (owner : addr) (term id amount : Z)
| EvLostDeposited (amount total : Z)
| EvLostWithdrawn (to : addr) (amount : Z)
| EvHooverRefilled (amount hoover sustainable : Z).

(** ** The state a block executes against *)
Record world : Type := mkWorld {
  height : Z (* block height (WorldContext.BlockHeight) *);
  revision : Z (* WorldContext.Revision().Value() *);
  gov : addr (* WorldContext.Governance() *);
  treasury : addr (* WorldContext.Treasury(): where transaction fees go *);
  bal : Z -> Z (* balance of every account, by address identifier (AccountState.GetBalance) *);
  supply : Z (* VarTotalSupply of the system account *);
  issue_amount : option Z (* VarIssueAmount *);
  issue_start : Z (* VarIssueStart (0: unset) *);
  issue_limit : Z (* VarIssueLimit (0: unset) *);
  term_period : Z (* VarTermPeriod (0: unset) *);
  reduction_cycle : Z (* VarIssueReductionCycle (0: unset) *);
  hoover_budget : option Z (* VarHooverBudget *);
  usdt_price : Z (* VarUSDTPrice *);
  active_usdt_price : Z (* VarActiveUSDTPrice *);
  planets : Z -> option planet (* DictPlanet *);
  managers : list addr (* ArrayPlanetManager *);
  rewards : Z -> option planet_reward (* DictPlanetReward *);
  all_planet : Z (* VarAllPlanet *);
  active_planet : Z (* VarActivePlanet *);
  working_planet : Z (* VarWorkingPlanet *);
  reward_total : Z (* VarRewardTotal *);
  reward_remain : Z (* VarRewardRemain *);
  eco_reward : Z (* VarEcoReward *);
  claim_rate : Z (* VarPrivateClaimableRate (0: unset) *);
  lost : Z (* VarLost *);
  sf_service_fee : Z (* VarServiceFee of the SustainableFund SCORE *);
  sf_tx_fee : Z (* VarTxFee of the SustainableFund SCORE *);
  sf_missing : Z (* VarMissingReward of the SustainableFund SCORE *);
  sf_refill : Z (* VarHooverRefill of the SustainableFund SCORE *);
  log : list hevent (* events emitted so far, newest first *)
}.

Definition set_height (v : Z) (w : world) : world :=
  mkWorld v (revision w) (gov w) (treasury w) (bal w) (supply w) (issue_amount w) (issue_start w) (issue_limit w) (term_period w) (reduction_cycle w) (hoover_budget w) (usdt_price w) (active_usdt_price w) (planets w) (managers w) (rewards w) (all_planet w) (active_planet w) (working_planet w) (reward_total w) (reward_remain w) (eco_reward w) (claim_rate w) (lost w) (sf_service_fee w) (sf_tx_fee w) (sf_missing w) (sf_refill w) (log w).
Definition set_revision (v : Z) (w : world) : world :=
  mkWorld (height w) v (gov w) (treasury w) (bal w) (supply w) (issue_amount w) (issue_start w) (issue_limit w) (term_period w) (reduction_cycle w) (hoover_budget w) (usdt_price w) (active_usdt_price w) (planets w) (managers w) (rewards w) (all_planet w) (active_planet w) (working_planet w) (reward_total w) (reward_remain w) (eco_reward w) (claim_rate w) (lost w) (sf_service_fee w) (sf_tx_fee w) (sf_missing w) (sf_refill w) (log w).
Definition set_gov (v : addr) (w : world) : world :=
  mkWorld (height w) (revision w) v (treasury w) (bal w) (supply w) (issue_amount w) (issue_start w) (issue_limit w) (term_period w) (reduction_cycle w) (hoover_budget w) (usdt_price w) (active_usdt_price w) (planets w) (managers w) (rewards w) (all_planet w) (active_planet w) (working_planet w) (reward_total w) (reward_remain w) (eco_reward w) (claim_rate w) (lost w) (sf_service_fee w) (sf_tx_fee w) (sf_missing w) (sf_refill w) (log w).
Definition set_treasury (v : addr) (w : world) : world :=
  mkWorld (height w) (revision w) (gov w) v (bal w) (supply w) (issue_amount w) (issue_start w) (issue_limit w) (term_period w) (reduction_cycle w) (hoover_budget w) (usdt_price w) (active_usdt_price w) (planets w) (managers w) (rewards w) (all_planet w) (active_planet w) (working_planet w) (reward_total w) (reward_remain w) (eco_reward w) (claim_rate w) (lost w) (sf_service_fee w) (sf_tx_fee w) (sf_missing w) (sf_refill w) (log w).
Definition set_bal (v : Z -> Z) (w : world) : world :=
  mkWorld (height w) (revision w) (gov w) (treasury w) v (supply w) (issue_amount w) (issue_start w) (issue_limit w) (term_period w) (reduction_cycle w) (hoover_budget w) (usdt_price w) (active_usdt_price w) (planets w) (managers w) (rewards w) (all_planet w) (active_planet w) (working_planet w) (reward_total w) (reward_remain w) (eco_reward w) (claim_rate w) (lost w) (sf_service_fee w) (sf_tx_fee w) (sf_missing w) (sf_refill w) (log w).
Definition set_supply (v : Z) (w : world) : world :=
  mkWorld (height w) (revision w) (gov w) (treasury w) (bal w) v (issue_amount w) (issue_start w) (issue_limit w) (term_period w) (reduction_cycle w) (hoover_budget w) (usdt_price w) (active_usdt_price w) (planets w) (managers w) (rewards w) (all_planet w) (active_planet w) (working_planet w) (reward_total w) (reward_remain w) (eco_reward w) (claim_rate w) (lost w) (sf_service_fee w) (sf_tx_fee w) (sf_missing w) (sf_refill w) (log w).
Definition set_issue_amount (v : option Z) (w : world) : world :=
  mkWorld (height w) (revision w) (gov w) (treasury w) (bal w) (supply w) v (issue_start w) (issue_limit w) (term_period w) (reduction_cycle w) (hoover_budget w) (usdt_price w) (active_usdt_price w) (planets w) (managers w) (rewards w) (all_planet w) (active_planet w) (working_planet w) (reward_total w) (reward_remain w) (eco_reward w) (claim_rate w) (lost w) (sf_service_fee w) (sf_tx_fee w) (sf_missing w) (sf_refill w) (log w).
Definition set_issue_start (v : Z) (w : world) : world :=
  mkWorld (height w) (revision w) (gov w) (treasury w) (bal w) (supply w) (issue_amount w) v (issue_limit w) (term_period w) (reduction_cycle w) (hoover_budget w) (usdt_price w) (active_usdt_price w) (planets w) (managers w) (rewards w) (all_planet w) (active_planet w) (working_planet w) (reward_total w) (reward_remain w) (eco_reward w) (claim_rate w) (lost w) (sf_service_fee w) (sf_tx_fee w) (sf_missing w) (sf_refill w) (log w).
Definition set_issue_limit (v : Z) (w : world) : world :=
  mkWorld (height w) (revision w) (gov w) (treasury w) (bal w) (supply w) (issue_amount w) (issue_start w) v (term_period w) (reduction_cycle w) (hoover_budget w) (usdt_price w) (active_usdt_price w) (planets w) (managers w) (rewards w) (all_planet w) (active_planet w) (working_planet w) (reward_total w) (reward_remain w) (eco_reward w) (claim_rate w) (lost w) (sf_service_fee w) (sf_tx_fee w) (sf_missing w) (sf_refill w) (log w).
Definition set_term_period (v : Z) (w : world) : world :=
  mkWorld (height w) (revision w) (gov w) (treasury w) (bal w) (supply w) (issue_amount w) (issue_start w) (issue_limit w) v (reduction_cycle w) (hoover_budget w) (usdt_price w) (active_usdt_price w) (planets w) (managers w) (rewards w) (all_planet w) (active_planet w) (working_planet w) (reward_total w) (reward_remain w) (eco_reward w) (claim_rate w) (lost w) (sf_service_fee w) (sf_tx_fee w) (sf_missing w) (sf_refill w) (log w).
Definition set_reduction_cycle (v : Z) (w : world) : world :=
  mkWorld (height w) (revision w) (gov w) (treasury w) (bal w) (supply w) (issue_amount w) (issue_start w) (issue_limit w) (term_period w) v (hoover_budget w) (usdt_price w) (active_usdt_price w) (planets w) (managers w) (rewards w) (all_planet w) (active_planet w) (working_planet w) (reward_total w) (reward_remain w) (eco_reward w) (claim_rate w) (lost w) (sf_service_fee w) (sf_tx_fee w) (sf_missing w) (sf_refill w) (log w).
Definition set_hoover_budget (v : option Z) (w : world) : world :=
  mkWorld (height w) (revision w) (gov w) (treasury w) (bal w) (supply w) (issue_amount w) (issue_start w) (issue_limit w) (term_period w) (reduction_cycle w) v (usdt_price w) (active_usdt_price w) (planets w) (managers w) (rewards w) (all_planet w) (active_planet w) (working_planet w) (reward_total w) (reward_remain w) (eco_reward w) (claim_rate w) (lost w) (sf_service_fee w) (sf_tx_fee w) (sf_missing w) (sf_refill w) (log w).
Definition set_usdt_price (v : Z) (w : world) : world :=
  mkWorld (height w) (revision w) (gov w) (treasury w) (bal w) (supply w) (issue_amount w) (issue_start w) (issue_limit w) (term_period w) (reduction_cycle w) (hoover_budget w) v (active_usdt_price w) (planets w) (managers w) (rewards w) (all_planet w) (active_planet w) (working_planet w) (reward_total w) (reward_remain w) (eco_reward w) (claim_rate w) (lost w) (sf_service_fee w) (sf_tx_fee w) (sf_missing w) (sf_refill w) (log w).
Definition set_active_usdt_price (v : Z) (w : world) : world :=
  mkWorld (height w) (revision w) (gov w) (treasury w) (bal w) (supply w) (issue_amount w) (issue_start w) (issue_limit w) (term_period w) (reduction_cycle w) (hoover_budget w) (usdt_price w) v (planets w) (managers w) (rewards w) (all_planet w) (active_planet w) (working_planet w) (reward_total w) (reward_remain w) (eco_reward w) (claim_rate w) (lost w) (sf_service_fee w) (sf_tx_fee w) (sf_missing w) (sf_refill w) (log w).
Definition set_planets (v : Z -> option planet) (w : world) : world :=
  mkWorld (height w) (revision w) (gov w) (treasury w) (bal w) (supply w) (issue_amount w) (issue_start w) (issue_limit w) (term_period w) (reduction_cycle w) (hoover_budget w) (usdt_price w) (active_usdt_price w) v (managers w) (rewards w) (all_planet w) (active_planet w) (working_planet w) (reward_total w) (reward_remain w) (eco_reward w) (claim_rate w) (lost w) (sf_service_fee w) (sf_tx_fee w) (sf_missing w) (sf_refill w) (log w).
Definition set_managers (v : list addr) (w : world) : world :=
  mkWorld (height w) (revision w) (gov w) (treasury w) (bal w) (supply w) (issue_amount w) (issue_start w) (issue_limit w) (term_period w) (reduction_cycle w) (hoover_budget w) (usdt_price w) (active_usdt_price w) (planets w) v (rewards w) (all_planet w) (active_planet w) (working_planet w) (reward_total w) (reward_remain w) (eco_reward w) (claim_rate w) (lost w) (sf_service_fee w) (sf_tx_fee w) (sf_missing w) (sf_refill w) (log w).
Definition set_rewards (v : Z -> option planet_reward) (w : world) : world :=
  mkWorld (height w) (revision w) (gov w) (treasury w) (bal w) (supply w) (issue_amount w) (issue_start w) (issue_limit w) (term_period w) (reduction_cycle w) (hoover_budget w) (usdt_price w) (active_usdt_price w) (planets w) (managers w) v (all_planet w) (active_planet w) (working_planet w) (reward_total w) (reward_remain w) (eco_reward w) (claim_rate w) (lost w) (sf_service_fee w) (sf_tx_fee w) (sf_missing w) (sf_refill w) (log w).
Definition set_all_planet (v : Z) (w : world) : world :=
  mkWorld (height w) (revision w) (gov w) (treasury w) (bal w) (supply w) (issue_amount w) (issue_start w) (issue_limit w) (term_period w) (reduction_cycle w) (hoover_budget w) (usdt_price w) (active_usdt_price w) (planets w) (managers w) (rewards w) v (active_planet w) (working_planet w) (reward_total w) (reward_remain w) (eco_reward w) (claim_rate w) (lost w) (sf_service_fee w) (sf_tx_fee w) (sf_missing w) (sf_refill w) (log w).
Definition set_active_planet (v : Z) (w : world) : world :=
  mkWorld (height w) (revision w) (gov w) (treasury w) (bal w) (supply w) (issue_amount w) (issue_start w) (issue_limit w) (term_period w) (reduction_cycle w) (hoover_budget w) (usdt_price w) (active_usdt_price w) (planets w) (managers w) (rewards w) (all_planet w) v (working_planet w) (reward_total w) (reward_remain w) (eco_reward w) (claim_rate w) (lost w) (sf_service_fee w) (sf_tx_fee w) (sf_missing w) (sf_refill w) (log w).
Definition set_working_planet (v : Z) (w : world) : world :=
  mkWorld (height w) (revision w) (gov w) (treasury w) (bal w) (supply w) (issue_amount w) (issue_start w) (issue_limit w) (term_period w) (reduction_cycle w) (hoover_budget w) (usdt_price w) (active_usdt_price w) (planets w) (managers w) (rewards w) (all_planet w) (active_planet w) v (reward_total w) (reward_remain w) (eco_reward w) (claim_rate w) (lost w) (sf_service_fee w) (sf_tx_fee w) (sf_missing w) (sf_refill w) (log w).
Definition set_reward_total (v : Z) (w : world) : world :=
  mkWorld (height w) (revision w) (gov w) (treasury w) (bal w) (supply w) (issue_amount w) (issue_start w) (issue_limit w) (term_period w) (reduction_cycle w) (hoover_budget w) (usdt_price w) (active_usdt_price w) (planets w) (managers w) (rewards w) (all_planet w) (active_planet w) (working_planet w) v (reward_remain w) (eco_reward w) (claim_rate w) (lost w) (sf_service_fee w) (sf_tx_fee w) (sf_missing w) (sf_refill w) (log w).
Definition set_reward_remain (v : Z) (w : world) : world :=
  mkWorld (height w) (revision w) (gov w) (treasury w) (bal w) (supply w) (issue_amount w) (issue_start w) (issue_limit w) (term_period w) (reduction_cycle w) (hoover_budget w) (usdt_price w) (active_usdt_price w) (planets w) (managers w) (rewards w) (all_planet w) (active_planet w) (working_planet w) (reward_total w) v (eco_reward w) (claim_rate w) (lost w) (sf_service_fee w) (sf_tx_fee w) (sf_missing w) (sf_refill w) (log w).
Definition set_eco_reward (v : Z) (w : world) : world :=
  mkWorld (height w) (revision w) (gov w) (treasury w) (bal w) (supply w) (issue_amount w) (issue_start w) (issue_limit w) (term_period w) (reduction_cycle w) (hoover_budget w) (usdt_price w) (active_usdt_price w) (planets w) (managers w) (rewards w) (all_planet w) (active_planet w) (working_planet w) (reward_total w) (reward_remain w) v (claim_rate w) (lost w) (sf_service_fee w) (sf_tx_fee w) (sf_missing w) (sf_refill w) (log w).
Definition set_claim_rate (v : Z) (w : world) : world :=
  mkWorld (height w) (revision w) (gov w) (treasury w) (bal w) (supply w) (issue_amount w) (issue_start w) (issue_limit w) (term_period w) (reduction_cycle w) (hoover_budget w) (usdt_price w) (active_usdt_price w) (planets w) (managers w) (rewards w) (all_planet w) (active_planet w) (working_planet w) (reward_total w) (reward_remain w) (eco_reward w) v (lost w) (sf_service_fee w) (sf_tx_fee w) (sf_missing w) (sf_refill w) (log w).
Definition set_lost (v : Z) (w : world) : world :=
  mkWorld (height w) (revision w) (gov w) (treasury w) (bal w) (supply w) (issue_amount w) (issue_start w) (issue_limit w) (term_period w) (reduction_cycle w) (hoover_budget w) (usdt_price w) (active_usdt_price w) (planets w) (managers w) (rewards w) (all_planet w) (active_planet w) (working_planet w) (reward_total w) (reward_remain w) (eco_reward w) (claim_rate w) v (sf_service_fee w) (sf_tx_fee w) (sf_missing w) (sf_refill w) (log w).
Definition set_sf_service_fee (v : Z) (w : world) : world :=
  mkWorld (height w) (revision w) (gov w) (treasury w) (bal w) (supply w) (issue_amount w) (issue_start w) (issue_limit w) (term_period w) (reduction_cycle w) (hoover_budget w) (usdt_price w) (active_usdt_price w) (planets w) (managers w) (rewards w) (all_planet w) (active_planet w) (working_planet w) (reward_total w) (reward_remain w) (eco_reward w) (claim_rate w) (lost w) v (sf_tx_fee w) (sf_missing w) (sf_refill w) (log w).
Definition set_sf_tx_fee (v : Z) (w : world) : world :=
  mkWorld (height w) (revision w) (gov w) (treasury w) (bal w) (supply w) (issue_amount w) (issue_start w) (issue_limit w) (term_period w) (reduction_cycle w) (hoover_budget w) (usdt_price w) (active_usdt_price w) (planets w) (managers w) (rewards w) (all_planet w) (active_planet w) (working_planet w) (reward_total w) (reward_remain w) (eco_reward w) (claim_rate w) (lost w) (sf_service_fee w) v (sf_missing w) (sf_refill w) (log w).
Definition set_sf_missing (v : Z) (w : world) : world :=
  mkWorld (height w) (revision w) (gov w) (treasury w) (bal w) (supply w) (issue_amount w) (issue_start w) (issue_limit w) (term_period w) (reduction_cycle w) (hoover_budget w) (usdt_price w) (active_usdt_price w) (planets w) (managers w) (rewards w) (all_planet w) (active_planet w) (working_planet w) (reward_total w) (reward_remain w) (eco_reward w) (claim_rate w) (lost w) (sf_service_fee w) (sf_tx_fee w) v (sf_refill w) (log w).
Definition set_sf_refill (v : Z) (w : world) : world :=
  mkWorld (height w) (revision w) (gov w) (treasury w) (bal w) (supply w) (issue_amount w) (issue_start w) (issue_limit w) (term_period w) (reduction_cycle w) (hoover_budget w) (usdt_price w) (active_usdt_price w) (planets w) (managers w) (rewards w) (all_planet w) (active_planet w) (working_planet w) (reward_total w) (reward_remain w) (eco_reward w) (claim_rate w) (lost w) (sf_service_fee w) (sf_tx_fee w) (sf_missing w) v (log w).
Definition set_log (v : list hevent) (w : world) : world :=
  mkWorld (height w) (revision w) (gov w) (treasury w) (bal w) (supply w) (issue_amount w) (issue_start w) (issue_limit w) (term_period w) (reduction_cycle w) (hoover_budget w) (usdt_price w) (active_usdt_price w) (planets w) (managers w) (rewards w) (all_planet w) (active_planet w) (working_planet w) (reward_total w) (reward_remain w) (eco_reward w) (claim_rate w) (lost w) (sf_service_fee w) (sf_tx_fee w) (sf_missing w) (sf_refill w) v.

Definition upd {A : Type} (f : Z -> A) (k : Z) (v : A) : Z -> A := fun x => if x =? k then v else f x.

(** ** Go functions returning an error: on [Er] the state keeps whatever was written before the failure *)
Inductive out (A : Type) : Type := Ok (a : A) | Er (e : herr).
Arguments Ok {A} a. Arguments Er {A} e.
Definition M (A : Type) : Type := world -> out A * world.
Definition ret {A} (a : A) : M A := fun w => (Ok a, w).
Definition fail {A} (e : herr) : M A := fun w => (Er e, w).
Definition bind {A B} (m : M A) (k : A -> M B) : M B :=
  fun w => match m w with (Ok a, w') => k a w' | (Er e, w') => (Er e, w') end.
Definition get {A} (f : world -> A) : M A := fun w => (Ok (f w), w).
Definition put (f : world -> world) : M unit := fun w => (Ok tt, f w).
Notation "x <- m ;; k" := (bind m (fun x => k)) (at level 61, m at next level, right associativity).
Notation "m ;; k" := (bind m (fun _ => k)) (at level 61, right associativity).
Definition when (b : bool) (m : M unit) : M unit := if b then m else ret tt.
Definition emit (e : hevent) : M unit := put (fun w => set_log (e :: log w) w).

(** ** common/hexint.go (embedded [big.Int].[Int64]): the low 64 bits, as a signed number *)
Definition int64 (z : Z) : Z := (z + 2 ^ 63) mod 2 ^ 64 - 2 ^ 63.

(** state.go:398-404 [getInt64OrDefault] *)
Definition int_or (v d : Z) : Z := if v <=? 0 then d else v.
(** state.go:379-385 [getBigIntOrDefault] *)
Definition big_or (v : option Z) (d : Z) : Z := match v with Some x => x | None => d end.

(** ** Terms *)
(** state.go:117-119 *)
Definition is_issue_started (height start : Z) : bool := (0 <? start) && (start <=? height).
(** state.go:121-130.  Go's [/] and [%] truncate. *)
Definition term_seq_and_index (height start period : Z) : Z * Z :=
  let blocks := height - start in
  if (start =? 0) || (blocks <? 0) then (-1, -1) else (Z.quot blocks period, Z.rem blocks period).
(** utils.go:61-70 *)
Definition term_start_and_index (height start period : Z) : out (Z * Z) :=
  if height <? start then Er ENotReady
  else let index := Z.rem (height - start) period in Ok (height - index, index).
(** utils.go:37-39 *)
Definition is_vote_check_time (index period : Z) : bool := (0 <? period) && (Z.rem index period =? 0).

(** state.go:154-160, 642-644, 199-202 *)
Definition get_term_period (w : world) : Z := int_or (term_period w) TermPeriod.
Definition get_reduction_cycle (w : world) : Z := int_or (reduction_cycle w) IssueReductionCycle.
Definition get_issue_limit (w : world) : Z := int_or (issue_limit w) IssueLimit.
Definition get_hoover_budget (w : world) : Z := big_or (hoover_budget w) InitHooverBudget.

(** state.go:137-152 *)
Definition state_set_issue_start (height new_start : Z) : M unit :=
  if (new_start <? 1) || (new_start <=? height) then fail EIllegalArgument
  else start <- get issue_start ;;
       if is_issue_started height start then fail EIllegalArgument
       else put (set_issue_start new_start).

(** state.go:180-193: the amount for a term, and whether the stored amount is to be replaced by it *)
Definition issue_amount_by_ts (w : world) (ts : Z) : Z * bool :=
  let issue := big_or (issue_amount w) InitIssueAmount in
  if (0 <? ts) && (Z.rem ts (get_reduction_cycle w) =? 0) then
    let reduction := issue * ReductionNum / ReductionDenom in
    if 0 <? reduction then (issue - reduction, true) else (issue, false)
  else (issue, false).
(** state.go:166-178 *)
Definition get_issue_amount (w : world) (height start : Z) : Z :=
  if negb (is_issue_started height start) then 0
  else if negb (Z.rem (height - start) (get_term_period w) =? 0) then 0
  else fst (issue_amount_by_ts w (Z.quot (height - start) (get_term_period w))).

(** ** Planet managers: state.go:204-246.  Addresses are not nil. *)
Definition state_is_manager (w : world) (a : addr) : bool := existsb (addr_eqb a) (managers w).
Definition state_add_manager (a : addr) : M unit :=
  ok <- get (fun w => state_is_manager w a) ;;
  if (ok : bool) then fail EReverted else put (fun w => set_managers (managers w ++ [a]) w).
(** The loop of [RemovePlanetManager]: index of the first occurrence. *)
Fixpoint index_of (a : addr) (l : list addr) : option nat :=
  match l with [] => None | x :: r => if addr_eqb a x then Some O else option_map S (index_of a r) end.
Fixpoint set_nth {A} (i : nat) (v : A) (l : list A) : list A :=
  match l, i with [], _ => [] | _ :: r, O => v :: r | x :: r, S j => x :: set_nth j v r end.
(** [Pop] the last, and write it over the removed one unless that was the last. *)
Definition swap_remove (i : nat) (l : list addr) : list addr :=
  match rev l with
  | [] => l
  | last :: before => if Nat.ltb i (length l - 1) then set_nth i last (rev before) else rev before
  end.
Definition state_remove_manager (a : addr) : M unit :=
  l <- get managers ;;
  match index_of a l with
  | None => fail EReverted
  | Some i => put (set_managers (swap_remove i l))
  end.

(** ** Planets *)
(** state.go:347-365 [GetPlanet] (stored planets decode) *)
Definition state_get_planet (id : Z) : M planet :=
  if id <? 0 then fail EIllegalArgument
  else p <- get (fun w => planets w id) ;;
       match p with None => fail EIllegalArgument | Some p => ret p end.
(** state.go:477-485 [GetPlanetReward] (stored rewards decode) *)
Definition reward_of (w : world) (id : Z) : planet_reward :=
  match rewards w id with Some pr => pr | None => empty_reward end.

(** state.go:248-285 *)
Definition state_register_planet (id : Z) (private company : bool) (owner : addr) (usdt price height : Z) : M unit :=
  if id <? 0 then fail EIllegalArgument
  else p <- get (fun w => planets w id) ;;
       match p with
       | Some _ => fail EIllegalArgument
       | None =>
           n <- get all_planet ;;
           if MaxPlanetCount <=? n then fail EIllegalArgument
           else put (fun w => set_planets (upd (planets w) id (Some (mkPlanet private company owner usdt price height))) w) ;;
                put (set_all_planet (n + 1))
       end.

(** state.go:783-798 *)
Definition add_lost (amount : Z) : M unit :=
  if amount <? 0 then fail EIllegalArgument
  else if amount =? 0 then ret tt
  else put (fun w => set_lost (lost w + amount) w).

(** state.go:287-332 *)
Definition state_unregister_planet (rev id : Z) : M Z :=
  if id <? 0 then fail EIllegalArgument
  else p <- get (fun w => planets w id) ;;
       match p with
       | None => fail EIllegalArgument
       | Some _ =>
           n <- get all_planet ;;
           if n <? 1 then fail EInvalidState
           else put (fun w => set_planets (upd (planets w) id None) w) ;;
                put (set_all_planet (n - 1)) ;;
                if RevisionPlanetIDReuse <=? rev then
                  pr <- get (fun w => reward_of w id) ;;
                  add_lost (pr_current pr) ;;
                  put (fun w => set_rewards (upd (rewards w) id None) w) ;;
                  ret (pr_current pr)
                else ret 0
       end.

(** state.go:334-345, planet.go:107-119 *)
Definition state_set_planet_owner (id : Z) (owner : addr) : M unit :=
  p <- state_get_planet id ;;
  let p' := if addr_eqb (p_owner p) owner then p
            else mkPlanet (p_private p) (p_company p) owner (p_usdt p) (p_price p) (p_height p) in
  put (fun w => set_planets (upd (planets w) id (Some p')) w).

(** ** Rewards *)
(** state.go:410-432 *)
Definition decrease_reward_remain (amount : Z) : M unit :=
  if amount <? 0 then fail EIllegalArgument
  else if amount =? 0 then ret tt
  else r <- get reward_remain ;;
       if r - amount <? 0 then fail ERewardError else put (set_reward_remain (r - amount)).
(** planetreward.go:72-87 *)
Definition reward_increment (pr : planet_reward) (tn amount total : Z) : out planet_reward :=
  if (amount <? 0) || (total <? 0) then Er EIllegalArgument
  else if tn <=? pr_last_tn pr then Er EIllegalArgument
  else Ok (mkReward (pr_total pr + total) tn (pr_current pr + amount)).
(** planetreward.go:89-101 *)
Definition reward_claim (pr : planet_reward) (amount : Z) : out planet_reward :=
  if amount <? 0 then Er EIllegalArgument
  else if pr_current pr <? amount then Er EIllegalArgument
  else Ok (mkReward (pr_total pr) (pr_last_tn pr) (pr_current pr - amount)).
Definition lift {A} (o : out A) : M A := match o with Ok a => ret a | Er e => fail e end.
(** state.go:487-490 *)
Definition set_planet_reward (id : Z) (pr : planet_reward) : M unit :=
  put (fun w => set_rewards (upd (rewards w) id (Some pr)) w).
(** state.go:434-450 *)
Definition offer_reward (tn id : Z) (pr : planet_reward) (amount total : Z) : M unit :=
  pr' <- lift (reward_increment pr tn amount total) ;; set_planet_reward id pr'.
(** state.go:452-459 *)
Definition increment_working_planet : M unit := put (fun w => set_working_planet (working_planet w + 1) w).
(** state.go:461-475 *)
Definition increase_eco_reward (amount : Z) : M unit := put (fun w => set_eco_reward (eco_reward w + amount) w).
(** state.go:492-509 *)
Definition claim_eco_reward : M Z :=
  r <- get eco_reward ;;
  if r <? 0 then fail EInvalidState
  else when (0 <? r) (put (set_eco_reward 0)) ;; ret r.

(** utils.go:41-52 *)
Definition valid_claim_rate (num denom : Z) : bool :=
  if (denom <=? 0) || (10000 <? denom) then false
  else if num <? 0 then false else if denom <? num then false else true.
(** state.go:749-755: [num<<16|denom] *)
Definition state_set_claim_rate (num denom : Z) : M unit :=
  if valid_claim_rate num denom then put (set_claim_rate (Z.lor (Z.shiftl num 16) denom))
  else fail EInvalidParameter.
(** state.go:757-763 *)
Definition get_claim_rate (w : world) : Z * Z :=
  let v := int_or (claim_rate w) PrivateClaimableRate in (Z.shiftr v 16, Z.land v 0xffff).
(** state.go:547-571 *)
Definition claimable (w : world) (p : planet) (pr : planet_reward) : out Z :=
  let current := pr_current pr in
  if negb (p_private p) || (current =? 0) then Ok current
  else let '(num, denom) := get_claim_rate w in
       if negb (valid_claim_rate num denom) then Er EInvalidParameter
       else if num <? denom then
              let locked := (denom - num) * pr_total pr / denom in
              let c := current - locked in
              Ok (if c <? 0 then 0 else c)
            else Ok current.
(** state.go:511-545 *)
Definition state_claim_planet_reward (id : Z) (owner : addr) : M Z :=
  p <- state_get_planet id ;;
  if negb (addr_eqb owner (p_owner p)) then fail EAccessDenied
  else pr <- get (fun w => reward_of w id) ;;
       c <- (fun w => lift (claimable w p pr) w) ;;
       when (0 <? c) (pr' <- lift (reward_claim pr c) ;; set_planet_reward id pr') ;;
       ret c.

(** state.go:669-679 *)
Definition reward_per_planet (w : world) : Z :=
  if 0 <? active_planet w then reward_total w / active_planet w else 0.
(** state.go:573-598 *)
Definition claim_missed_reward : M Z :=
  w <- get (fun w => w) ;;
  let missed_planet := active_planet w - working_planet w in
  let missed := if 0 <? active_planet w then reward_total w / active_planet w * missed_planet else reward_total w in
  let remain := reward_remain w - missed in
  if remain <? 0 then fail EInvalidState
  else put (set_reward_remain remain) ;; ret missed.
(** state.go:600-613 *)
Definition state_on_term_end : M unit :=
  put (set_working_planet 0) ;; put (set_active_planet 0) ;; put (set_active_usdt_price 0).
(** state.go:615-640 *)
Definition state_on_term_start (issue : Z) : M unit :=
  w <- get (fun w => w) ;;
  put (set_active_planet (all_planet w)) ;;
  put (set_active_usdt_price (usdt_price w)) ;;
  let total := reward_remain w + issue in
  put (set_reward_remain total) ;; put (set_reward_total total).

(** state.go:769-781 *)
Definition delete_lost : M Z := l <- get lost ;; put (set_lost 0) ;; ret l.

(** ** Coins: havah/hvh/context.go *)
(** context.go:45-48 *)
Definition balance (w : world) (a : addr) : Z := bal w (a_id a).
(** context.go:25-34, 146-150 *)
Definition add_balance (a : addr) (amount : Z) : M unit :=
  ob <- get (fun w => balance w a) ;;
  if ob + amount <? 0 then fail EGeneric
  else put (fun w => set_bal (upd (bal w) (a_id a) (ob + amount)) w).
(** context.go:161-174 *)
Definition add_total_supply (amount : Z) : M Z :=
  ts <- get supply ;;
  if ts + amount <? 0 then fail EGeneric else put (set_supply (ts + amount)) ;; ret (ts + amount).
(** context.go:50-68 *)
Definition deposit (a : addr) (amount : Z) : M unit :=
  if amount <? 0 then fail EGeneric else if amount =? 0 then ret tt else add_balance a amount.
Definition withdraw (a : addr) (amount : Z) : M unit :=
  if amount <? 0 then fail EGeneric else if amount =? 0 then ret tt else add_balance a (- amount).
(** context.go:117-144 *)
Definition transfer (from to : addr) (amount : Z) : M unit :=
  if amount <? 0 then fail EGeneric
  else if (amount =? 0) || addr_eqb from to then ret tt
  else add_balance from (- amount) ;; add_balance to amount ;; emit (EvTransfer from to amount).
(** context.go:70-93 *)
Definition issue (a : addr) (amount : Z) : M Z :=
  if amount <? 0 then fail EIllegalArgument
  else if 0 <? amount then ts <- add_total_supply amount ;; deposit a amount ;; ret ts
  else get supply.
(** context.go:95-115 *)
Definition burn (amount : Z) : M Z :=
  if amount <? 0 then fail EIllegalArgument
  else if 0 <? amount then ts <- add_total_supply (- amount) ;; withdraw SystemAddress amount ;; ret ts
  else get supply.
