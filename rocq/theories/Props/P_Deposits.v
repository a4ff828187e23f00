(** C64: deposits for sharing fees. *)
Require Import ZArith List Bool Lia.
From Verif.Model Require Import Deposits.
From Verif.Spec Require Import DepositSpec.
From Verif.Proof Require Import DepositFacts.
Import ListNotations.
Open Scope Z_scope.

(** Over any history of additions, withdrawals, payments and reloads, with any
    prices and heights, every coin that came in went out to the owner, was
    taken as a penalty or a fee, or is still there; no deposit is negative. *)
Theorem C64_history : forall ops,
  Forall op_ok ops ->
  let (dl, l) := fold_left do_op ops ([], mkLedger 0 0 0 0) in
  l_in l = l_out l + l_penalty l + l_fee l + sum coins dl /\
  0 <= l_out l /\ 0 <= l_penalty l /\ 0 <= l_fee l /\
  Forall (fun d => sound d /\ 0 <= coins d) dl.
Proof.
  intros ops H.
  assert (B : balanced (fold_left do_op ops ([], mkLedger 0 0 0 0))).
  { apply history_balanced; [|exact H]. unfold balanced. cbn. split; [constructor|]. lia. }
  destruct (fold_left do_op ops ([], mkLedger 0 0 0 0)) as [dl l].
  destruct B as (B1 & B2 & B3). cbn [fst snd] in *. split; [exact B2|].
  split; [tauto|]. split; [tauto|]. split; [tauto|].
  clear - B1. induction B1 as [|d dl Hd B1 IH]; constructor; auto. split; [exact Hd|].
  destruct d; cbn in *; lia.
Qed.
Print Assumptions C64_history.

(** Storing the deposits and reading them again, at any points of a history,
    changes nothing of it: the mark which is not stored is always what it
    would be computed to be. *)
Theorem C64_reload : forall ops,
  Forall op_ok ops ->
  fold_left do_op ops ([], mkLedger 0 0 0 0) =
  fold_left do_op (filter (fun o => match o with Reload => false | _ => true end) ops)
            ([], mkLedger 0 0 0 0).
Proof.
  intros ops H. apply history_reload; [|exact H].
  unfold balanced. cbn. split; [constructor|]. lia.
Qed.
Print Assumptions C64_reload.

(** A payment takes exactly the price of the steps it says it paid with coins,
    and exactly the virtual steps it says it paid otherwise; it never pays
    more than was asked, and if it pays less then all virtual steps are used
    up and the coins do not suffice for one more step.  Deposits which have
    expired are not touched. *)
Theorem C64_pay : forall height price dl steps dl' paid by_deposit,
  Forall sound dl -> 0 <= steps ->
  pay_steps height price dl steps = Some (dl', paid, by_deposit) ->
  let k := match by_deposit with Some n => n | None => 0 end in
  Forall sound dl' /\ 0 <= k <= paid /\ paid <= steps /\
  sum coins dl' = sum coins dl - k * price /\
  sum vsteps dl' = sum vsteps dl - (paid - k) /\
  (paid < steps ->
     sum (fun d => if active height d then coins d else 0) dl' < price /\
     Forall (fun d => active height d = true -> vsteps d = 0) dl') /\
  Forall2 (fun d d' => active height d = false -> d' = d) dl dl'.
Proof.
  intros height price dl steps dl' paid k Hs Hn Hp.
  destruct (pay_spec _ _ _ _ _ _ _ Hs Hn Hp) as (P0 & P1 & P2 & P3 & P4 & P5 & P6 & P7 & P8).
  unfold by_dep in *. cbv zeta.
  split; [exact P1|]. split; [exact P4|]. split; [exact P5|]. split; [exact P6|].
  split; [exact P7|]. split; [|exact P3].
  intro Hlt. destruct (P8 Hlt) as [Q1 Q2]. split; [|exact Q2].
  assert (E : sum (fun d => if active height d then coins d else 0) dl' = sum (available_deposit height) dl').
  { clear. induction dl' as [|d dl' IH]; [reflexivity|]. rewrite !sum_cons, IH, avail_active. reflexivity. }
  rewrite E. exact Q1.
Qed.
Print Assumptions C64_pay.

(** It pays unless the price is not positive or there is no deposit. *)
Theorem C64_pays : forall height price dl steps,
  pay_steps height price dl steps = None <-> (price <= 0 \/ dl = []).
Proof.
  intros height price dl steps. unfold pay_steps.
  destruct (Z.leb_spec price 0) as [H|H]; [split; auto|].
  destruct dl as [|d dl]; [split; auto|].
  split; [|intros [X|X]; [lia|discriminate X]].
  destruct (consume (consume_steps height) (d :: dl) steps) as [a b].
  destruct (b =? 0); [discriminate|].
  destruct (consume (consume_lv1 height) a _) as [x y]. discriminate.
Qed.
Print Assumptions C64_pays.

(** The last tenth of a deposit with a term is not touched while any other
    deposit can pay. *)
Theorem C64_tenth : forall height price dl steps dl' paid by_deposit,
  Forall sound dl -> 0 <= steps ->
  pay_steps height price dl steps = Some (dl', paid, by_deposit) ->
  0 < sum (usable_deposit height) dl' ->
  Forall2 (fun d d' => coins d' = coins d \/
                       match d with
                       | V1 _ amount _ _ _ _ _ => amount / 10 <= coins d'
                       | V2 _ => True
                       end) dl dl'.
Proof. intros height price dl steps dl' paid k. apply tenth_spec. Qed.
Print Assumptions C64_tenth.

(** Withdrawing: the owner gets what is left but for the penalty, which is the
    price of the virtual steps used, at most what is left, and nothing after
    the term; what is taken out is what the deposits lose. *)
Theorem C64_withdraw : forall dc dl id value dl' amount penalty,
  Forall sound dl -> 0 <= d_price dc ->
  withdraw_deposit dc dl id value = Some (dl', amount, penalty) ->
  0 <= amount /\ 0 <= penalty /\ Forall sound dl' /\
  sum coins dl = sum coins dl' + amount + penalty /\
  exists before d after,
    dl = before ++ d :: after /\ identified d id = true /\
    Forall (fun x => identified x id = false) before /\
    match d with
    | V1 _ _ rm expire issued lft _ =>
        value = None /\ dl' = before ++ after /\
        penalty = (if d_height dc <? expire then Z.min rm ((issued - lft) * d_price dc) else 0) /\
        amount = rm - penalty
    | V2 rm =>
        penalty = 0 /\
        match value with
        | None => amount = rm /\ dl' = before ++ after
        | Some v => amount = v /\ v <= rm /\ dl' = before ++ V2 (rm - v) :: after
        end
    end.
Proof.
  intros dc dl id value dl' amount penalty Hs Hp Hw.
  assert (Hv : forall x, value = Some x -> 0 <= x).
  { intros x ->. cbn in Hw. destruct (Z.ltb_spec x 0); [discriminate|assumption]. }
  assert (Hw' : withdraw_from dc dl id value = Some (dl', amount, penalty)).
  { unfold withdraw_deposit in Hw. destruct value as [x|]; [|exact Hw].
    destruct (x <? 0); [discriminate|exact Hw]. }
  clear Hw. destruct (withdraw_from_spec dc dl id value dl' amount penalty Hs Hp Hv Hw') as (W1 & W2 & W3 & W4).
  split; [exact W2|]. split; [exact W3|]. split; [exact W1|]. split; [exact W4|].
  clear W1 W2 W3 W4. revert dl' Hs Hw'. induction dl as [|d dl IH]; intros dl' Hs Hw; cbn [withdraw_from] in Hw; [discriminate|].
  inversion Hs as [|? ? S1 S2]; subst.
  destruct (identified d id) eqn:Hid.
  - exists [], d, dl. split; [reflexivity|]. split; [exact Hid|]. split; [constructor|].
    destruct (withdraw (d_height dc) (d_price dc) d value) as [[[a1 p1] lft]|] eqn:Hd; [|discriminate].
    injection Hw as <- <- <-. cbn [app].
    destruct d as [i am rm ex iss sr xh|rm]; unfold withdraw, expired in Hd.
    + unfold sound in S1. destruct value; [discriminate|]. split; [reflexivity|].
      destruct (Z.leb_spec ex (d_height dc)) as [He|He].
      * injection Hd as <- <- <-. rewrite (ltb_false _ _ He). split; [reflexivity|]. lia.
      * rewrite (ltb_true _ _ He).
        destruct (Z.leb_spec ((iss - sr) * d_price dc) rm); injection Hd as <- <- <-;
          (split; [reflexivity|]); lia.
    + destruct value as [v|].
      * specialize (Hv v eq_refl).
        destruct (Z.ltb_spec v rm); [injection Hd as <- <- <-; repeat split; auto; lia|].
        destruct (Z.eqb_spec v rm) as [E|E]; [|discriminate]. subst v.
        injection Hd as <- <- <-. rewrite Z.sub_diag. repeat split; auto; lia.
      * rewrite Z.ltb_irrefl, Z.eqb_refl in Hd. injection Hd as <- <- <-. auto.
  - destruct (withdraw_from dc dl id value) as [[[r a1] p1]|] eqn:Hr; [|discriminate].
    injection Hw as <- <- <-. destruct (IH r S2 eq_refl) as (b & x & a & E1 & E2 & E3 & E4).
    exists (d :: b), x, a. split; [rewrite E1; reflexivity|]. split; [exact E2|].
    split; [constructor; assumption|].
    destruct x as [i am rm ex iss sr xh|rm].
    + destruct E4 as (-> & -> & E5 & E6). auto.
    + destruct E4 as (E5 & E6). split; [exact E5|]. destruct value as [v|].
      * destruct E6 as (-> & E6 & ->). auto.
      * destruct E6 as (-> & ->). auto.
Qed.
Print Assumptions C64_withdraw.

(** Finding: taking out the exact amount of a deposit without a term leaves an
    empty deposit, and then every call of the contract is refused although it
    asks for no sharing; taking out "all of it" leaves none and the contract
    is callable. *)
Theorem C64_violated_blocked : forall dc (rm limit : Z),
  0 <= rm -> 0 < limit ->
  exists after_amount after_all,
    withdraw_deposit dc [V2 rm] [] (Some rm) = Some (after_amount, rm, 0) /\
    withdraw_deposit dc [V2 rm] [] None = Some (after_all, rm, 0) /\
    check_deposit true (d_height dc) limit after_amount = false /\
    check_deposit true (d_height dc) limit after_all = true /\
    (forall price steps, 0 < price -> 0 <= steps ->
       exists dl', pay_steps (d_height dc) price after_amount steps
                   = Some (dl', 0, if steps =? 0 then None else Some 0)).
Proof.
  intros dc rm limit Hr Hl. exists [V2 0], []. unfold withdraw_deposit. cbn.
  rewrite Z.ltb_irrefl, Z.eqb_refl.
  destruct (Z.ltb_spec rm 0); [lia|].
  split; [reflexivity|]. split; [reflexivity|].
  split; [destruct (Z.leb_spec limit 0); [lia|reflexivity]|]. split; [reflexivity|].
  intros price steps Hp Hs. unfold pay_steps.
  destruct (Z.leb_spec price 0); [lia|]. cbn.
  destruct (Z.eqb_spec steps 0) as [->|E]; cbn.
  - eexists. reflexivity.
  - destruct (Z.eqb_spec steps 0) as [E0|_]; [contradiction|].
    destruct (Z.ltb_spec 0 steps); [|lia]. cbn.
    eexists. f_equal. f_equal. f_equal. lia.
Qed.
Print Assumptions C64_violated_blocked.

(** ** Cases which meet the hypotheses *)
Definition C64_ops : list dop :=
  [Add (mkDctx 10 100 1000 8 [1; 2]) 5000; Add (mkDctx 10 120 0 8 [3]) 700;
   Pay (mkDctx 10 130 0 0 []) 100; Reload; Pay (mkDctx 10 140 0 0 []) 400;
   Withdraw (mkDctx 10 150 0 8 [4]) [1; 2] None; Add (mkDctx 12 150 0 8 [5]) 30;
   Withdraw (mkDctx 10 160 0 8 [6]) [] (Some 10)].

Example C64_ops_meet : Forall op_ok C64_ops.
Proof. repeat constructor; cbn; lia. Qed.

Example C64_ops_run :
  fold_left do_op C64_ops ([], mkLedger 0 0 0 0) = ([V2 620], mkLedger 5730 110 400 4600).
Proof. vm_compute. reflexivity. Qed.
