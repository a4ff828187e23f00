(** A small concrete chain, for showing that the theorems' hypotheses are met: terms of 5 blocks, 3 issuing terms, a
    reduction every 2 terms, 1000 coins issued in the first term. *)
From Verif Require Import Model.HvhState Model.HvhExt Spec.HvhSpec.
From Coq Require Import ZArith List Bool.
Import ListNotations.
Open Scope Z_scope.

Definition governor := mkAddr true 1.
Definition fees := mkAddr false 0x1000000000000000000000000000000000000000.
Definition alice := mkAddr false 100.
Definition bob := mkAddr false 101.
Definition reporter := mkAddr false 200.
Definition sample : world :=
  mkWorld 10 3 governor fees
    (fun a => if a =? 100 then 1000 else if a =? a_id HooverFund then 500 else 0) 1500
    (Some 1000) 0 3 5 2 (Some 600) 0 0 (fun _ => None) [] (fun _ => None) 0 0 0 0 0 0 0 0 0 0 0 0 [].

Inductive step : Type := Block (claimed : Z) | Tx (t : tx).
Fixpoint run (steps : list step) (w : world) : option world :=
  match steps with
  | [] => Some w
  | Block x :: r => match begin_block 3 x false w with Some w' => run r w' | None => None end
  | Tx t :: r => run r (apply_tx t w)
  end.
Fixpoint all_ordinary (steps : list step) : Prop :=
  match steps with [] => True | Block _ :: r => all_ordinary r | Tx t :: r => ordinary t /\ all_ordinary r end.

(** Price, start at 12, a manager, three planets (public, private, company), two terms, reports, claims. *)
Definition script : list step :=
  [ Tx (Call governor (SetUSDTPrice 3000000)); Tx (Call governor (StartRewardIssue 12));
    Tx (Call governor (AddPlanetManager reporter));
    Tx (Call PlanetNFT (RegisterPlanet 7 false false alice 100 5000));
    Tx (Call PlanetNFT (RegisterPlanet 8 true false bob 100 5000));
    Tx (Call PlanetNFT (RegisterPlanet 9 false true bob 1500000 5000));
    Block 0; Block 1000;
    Tx (Call reporter (ReportPlanetWork 7)); Tx (Call reporter (ReportPlanetWork 8));
    Tx (Call reporter (ReportPlanetWork 9)); Tx (Call reporter (ReportPlanetWork 7));
    Tx (Call alice (ClaimPlanetReward [7; 8]));
    Block 0; Block 0; Block 0; Block 0; Block 1000;
    Tx (Coins alice bob 400); Tx (Call alice (Fallback 100)); Tx (Call reporter (ReportPlanetWork 9)) ].
