(** [Execute] as a whole. *)
Require Import ZArith List Bool Lia.
From Verif.Model Require Import CallFrames Deposits FeePayers TxExecute.
From Verif.Spec Require Import CallSpec DepositSpec FeeSpec TxSpec.
From Verif.Proof Require Import DepositFacts CallFacts FeeFacts FeeBounds FeeFrames FeeTx TxPays TxFacts TxCharge.
Import ListNotations.
Open Scope Z_scope.

Section Master.
  Variables A R E M : Type.
  Variable eqb : A -> A -> bool.
  Variable is_system : A -> bool.
  Notation world := (world A R).
  Notation env := (env A R).
  Notation cfg := (cfg world E M A).
  Notation action := (action world E M A).
  Notation node := (node world E M A).

  (** Whether payers are asked, and what they pay. *)
  Definition shares (e : env) (t : tx A) : bool := fee_sharing (e_pol e) && (0 <? step_price e t).

  Definition settled (e : env) (t : tx A) (w : world) (b : list node) (en : ending) : purse A * list (bill A) :=
    if shares e t
    then settle_tx (pay_for eqb is_system (e_height e) (e_price e)) (sharers e t w b en) (first_payer e t w b)
           (steps_charged e t w b en) (purse_of (after_call e t w b en))
    else (purse_of (after_call e t w b en), []).

  Definition details (from : A) (pd : list (paid_by A)) (to_pay : Z) : list (A * Z) * option Z :=
    let pays := payments eqb pd in
    let d := fold_left (add_payment eqb) pays ([], None) in
    if negb (Nat.eqb (List.length pays) 0) && negb (to_pay =? 0)
    then add_payment eqb d (from, to_pay, Some to_pay) else d.

  Definition finished (e : env) (t : tx A) (w : world) (b : list node) (en : ending)
      (r : receipt A E M) (w' : world) : Prop :=
    let used := steps_charged e t w b en in
    let price := step_price e t in
    let wc := after_call e t w b en in
    let from := t_from t in
    let (s, bills) := settled e t w b en in
    let to_pay := used - total bills in
    r_used r = used /\
    ((r_status r = verdict e t w en /\ r_price r = price /\ to_pay * price <= bal wc from /\
      w' = set_balance eqb (mkWorld (bal wc) s (other wc)) from (bal wc from - to_pay * price) /\
      (r_status r = None -> r_events r = flat_map events (happened e t w b en) /\
                            r_messages r = flat_map messages (happened e t w b en)) /\
      (r_status r <> None -> r_events r = [] /\ r_messages r = []) /\
      exists pd, Forall2 (same_line A) pd bills /\ (r_details r, r_fee_steps r) = details from pd to_pay)
     \/
     (verdict e t w en = None /\ bal wc from < to_pay * price /\ used * price <= bal w from /\
      r_status r = Some OutOfBalance /\ r_price r = price /\
      w' = set_balance eqb w from (bal w from - used * price) /\
      r_events r = [] /\ r_messages r = [] /\ r_details r = [])
     \/
     (0 <= bal w from /\ bal wc from < to_pay * price /\
      (verdict e t w en = None -> bal w from < used * price) /\
      r_status r = Some OutOfBalance /\ r_price r = 0 /\
      w' = set_balance eqb w from (bal w from - 0) /\
      r_events r = [] /\ r_messages r = [] /\ r_details r = [])).

  (** What the loop starts with. *)
  Lemma execute_cases : forall (e : env) (t : tx A) (w : world) body en,
    match execute eqb is_system e t w body en with
    | Done r w' => exists b : list node,
        (refusal e t w = None -> did en body b /\ en <> Critical) /\ finished e t w b en r w'
    | Endless => bal w (t_from t) < 0
    | _ => True
    end.
  Proof.
    intros e t w body en. unfold execute. rewrite limit_eq.
    destruct (do_execute e t w (step_limit e t) body en) as [| |st c] eqn:Hd; [exact Logic.I|exact Logic.I|].
    destruct (exec_done A R E M e t w body en st c Hd) as (-> & b & base & K1 & K2 & K3 & K4 & K5 & K6 & K7).
    change (if t_patch t then 0 else e_price e) with (step_price e t).
    set (price := step_price e t). unfold base_used. rewrite K2, K7.
    assert (U : (if steps_used e t w b en <? e_default e then e_default e else steps_used e t w b en)
                = steps_charged e t w b en).
    { unfold steps_charged. destruct (Z.ltb_spec (steps_used e t w b en) (e_default e)); lia. }
    rewrite U. set (used := steps_charged e t w b en). cbv zeta.
    change (fee_sharing (e_pol e) && (0 <? price)) with (shares e t).
    set (wc := after_call e t w b en) in *.
    assert (S0 : exists s bills pd redeemed,
       (if shares e t
        then let '(s, l, n) := redeem eqb is_system (e_height e) (e_price e) (f_payers base) used (purse_of (c_world c)) in
             (mkWorld (bal (c_world c)) s (other (c_world c)), l, n)
        else (c_world c, [], 0)) = (mkWorld (bal wc) s (other wc), pd, redeemed) /\
       settled e t w b en = (s, bills) /\ Forall2 (same_line A) pd bills /\ redeemed = total bills /\
       (shares e t = false -> pd = [] /\ redeemed = 0 /\ mkWorld (bal wc) s (other wc) = wc)).
    { rewrite K3. unfold settled. fold wc used. destruct (shares e t) eqn:Hs.
      - destruct (redeem eqb is_system (e_height e) (e_price e) (f_payers base) used (purse_of wc)) as [[s pd] n] eqn:Hr.
        pose proof (redeem_settles A eqb is_system (e_height e) (e_price e) _ _ _ _ _ _ _ _ K6 Hr) as Q.
        destruct (settle_tx (pay_for eqb is_system (e_height e) (e_price e)) (sharers e t w b en) (first_payer e t w b) used (purse_of wc))
          as [s2 bills]. destruct Q as (-> & Q2 & Q3).
        exists s2, bills, pd, n. split; [reflexivity|]. split; [reflexivity|]. split; [exact Q2|]. split; [exact Q3|]. discriminate.
      - exists (purse_of wc), [], [], 0. split; [destruct wc; reflexivity|]. split; [reflexivity|]. split; [constructor|].
        split; [reflexivity|]. intros _. split; [reflexivity|]. split; [reflexivity|]. destruct wc; reflexivity. }
    destruct S0 as (s & bills & pd & redeemed & S1 & S2 & S3 & S4 & S5). rewrite S1.
    set (w1 := mkWorld (bal wc) s (other wc)) in *.
    pose proof (loop_ends A R w w1 (t_from t) used (shares e t) (verdict e t w en) (used - redeemed) price pd) as L.
    match type of L with ?P -> _ => assert (HP : P) end.
    { intro Hs. destruct (S5 Hs) as (P1 & P2 & P3). split; [exact P1|]. split; [lia|].
      intro Hv. rewrite P3. apply after_failed. exact Hv. }
    specialize (L HP). clear HP.
    destruct (charge_loop 3 w (t_from t) used (shares e t)
       (mkCharge w1 (verdict e t w en) (used - redeemed) price ((used - redeemed) * price) pd)) as [x|] eqn:Hl; [|exact L].
    assert (Hev : exists ev ms, match ch_status x with None => (f_logs base, f_msgs base) | Some _ => ([], []) end = (ev, ms) /\
       (ch_status x = None -> ev = flat_map events (happened e t w b en) /\ ms = flat_map messages (happened e t w b en)) /\
       (ch_status x <> None -> ev = [] /\ ms = [])).
    { destruct (ch_status x).
      - exists [], []. split; [reflexivity|]. split; [discriminate|]. auto.
      - exists (f_logs base), (f_msgs base). split; [reflexivity|]. split; [auto|congruence]. }
    destruct Hev as (ev & ms & V1 & V2 & V3). rewrite V1.
    exists b. split; [exact K1|].
    unfold finished. fold used price wc. rewrite S2. rewrite <- S4.
    cbn [r_used r_status r_price r_events r_messages r_details r_fee_steps].
    split; [reflexivity|].
    destruct L as [(L1 & L2)|[(L1 & L2 & L3 & L4)|(L1 & L2 & L3 & L4)]]; subst x;
      cbn [ch_world ch_status ch_to_pay ch_price ch_fee ch_logs] in *.
    - left. split; [reflexivity|]. split; [reflexivity|]. split; [exact L2|]. split; [reflexivity|].
      split; [exact V2|]. split; [exact V3|]. exists pd. split; [exact S3|].
      unfold details. cbv zeta. symmetry. apply surjective_pairing.
    - right. left. destruct (V3 ltac:(discriminate)) as [-> ->]. auto 12.
    - right. right. destruct (V3 ltac:(discriminate)) as [-> ->]. auto 12.
  Qed.
End Master.
