(** C65, C66: who pays for a transaction, and how it is charged. *)
Require Import ZArith List Bool Lia.
From Verif.Model Require Import CallFrames Deposits FeePayers TxExecute.
From Verif.Spec Require Import CallSpec DepositSpec FeeSpec TxSpec.
From Verif.Proof Require Import DepositFacts CallFacts FeeFacts FeeBounds FeeFrames FeeTx TxPays TxFacts TxCharge
  TxMaster TxAccount TxDetails.
Import ListNotations.
Open Scope Z_scope.

(** *** C65 *)

(** Any transaction: [n] is its call.  The program asks the payers the frames
    have collected; this is what the rules say over the tree of calls. *)
Theorem C65_rules : forall W E M A (eqb : A -> A -> bool) (is_system : A -> bool) (height price : Z)
    (pol : policy) (w : W) (limit : Z) (pre : list (node W E M A)) (n : node W E M A)
    (post : list (node W E M A)) (c : cfg W E M A),
  tree false (pre ++ n :: post) ->
  forallb (fun n => negb (is_call n)) pre = true -> is_call n = true ->
  forallb (fun n => negb (is_call n)) post = true ->
  run pol (new_context w limit false) (flat_map actions (pre ++ n :: post)) = Some c ->
  exists base, c_stack c = [base] /\
    forall steps s,
      let '(s', pd, redeemed) := redeem eqb is_system height price (f_payers base) steps s in
      let (s2, bills) :=
        settle_tx (pay_for eqb is_system height price)
          (first_sharing (fee_sharing pol && multiple_payers pol) n)
          (if fee_sharing pol then fold_left agreement (body_of n) None else None) steps s in
      s' = s2 /\ redeemed = total bills /\
      map (fun d => (p_addr (pd_payer d), p_portion (pd_payer d), pd_paid d, pd_fee d)) pd =
      map (fun b => (b_payer b, b_percent b, b_paid b, b_fee b)) bills.
Proof.
  intros W E M A eqb is_system height price pol w limit pre n post c T H1 H2 H3 H.
  destruct (base_payers W E M A pol w limit pre n post c T H1 H2 H3 H) as (base & B1 & B2).
  exists base. split; [exact B1|]. intros steps s.
  destruct (redeem eqb is_system height price (f_payers base) steps s) as [[s' pd] redeemed] eqn:Hr.
  pose proof (redeem_settles A eqb is_system height price _ _ _ _ _ _ _ _ B2 Hr) as Q.
  match goal with |- let (_, _) := ?x in _ => destruct x as [s2 bills] end.
  destruct Q as (Q1 & Q2 & Q3). split; [exact Q1|]. split; [exact Q3|].
  clear - Q2. induction Q2 as [|d b pd bills (D1 & D2 & D3 & D4) Q2 IH]; [reflexivity|].
  cbn [map]. rewrite IH, D1, D2, D3, D4. reflexivity.
Qed.
Print Assumptions C65_rules.

(** Nobody pays more than agreed, together they do not pay more than what was
    used, the deposits lose exactly the coins of the bill, and those of nobody
    else are touched. *)
Theorem C65_bounds : forall A (eqb : A -> A -> bool) (is_system : A -> bool) (height price : Z)
    (cs : list (call A)) (first : option (A * Z)) (steps : Z) (s : purse A),
  (forall a b, eqb a b = true <-> a = b) ->
  Forall sane cs ->
  match first with Some (_, q) => 0 < q <= 100 | None => True end ->
  fold_right (fun c n => match c with Call _ u _ => u end + n) 0 cs <= steps -> 0 <= steps ->
  (forall a, Forall sound (deposits_of s a)) ->
  let (s', bills) := settle_tx (pay_for eqb is_system height price) cs first steps s in
  (forall a, Forall sound (deposits_of s' a)) /\
  0 <= total bills <= steps /\
  Forall (fun b => 0 <= b_paid b <= b_used b * b_percent b / 100) bills /\
  (forall a, sum coins (deposits_of s' a) =
     sum coins (deposits_of s a) -
     fold_right (fun b n => (if negb (is_system a) && eqb a (b_payer b)
                             then match b_fee b with Some k => k | None => 0 end * price else 0) + n) 0 bills) /\
  usage s' = usage s + fold_right (fun b n => (if is_system (b_payer b) then b_paid b * price else 0) + n) 0 bills /\
  (forall a, (forall b, In b bills -> b_payer b <> a) -> deposits_of s' a = deposits_of s a).
Proof.
  intros A eqb is_system height price cs first steps s He Hs Hf Hu Hn Hg.
  pose proof (bounded_tx A eqb is_system height price He cs first steps s
    (all_sane_forall A cs Hs) Hf Hu Hn Hg) as B.
  destruct (settle_tx (pay_for eqb is_system height price) cs first steps s) as [s' bills].
  destruct B as (B1 & B2 & B3 & B4 & B5 & B6).
  split; [exact B1|]. split; [exact B2|]. split.
  - eapply Forall_impl; [|exact B3]. intros b [X Y]. lia.
  - split; [exact B4|]. split; [exact B5|exact B6].
Qed.
Print Assumptions C65_bounds.

(** A contract without deposits pays nothing; nobody but the system does when
    a step has no price. *)
Theorem C65_no_deposit : forall A (eqb : A -> A -> bool) (is_system : A -> bool) (height price : Z)
    (cs : list (call A)) (first : option (A * Z)) (steps : Z) (s s' : purse A) (bills : list (bill A)) (b : bill A),
  (forall a b, eqb a b = true <-> a = b) ->
  settle_tx (pay_for eqb is_system height price) cs first steps s = (s', bills) ->
  In b bills -> is_system (b_payer b) = false ->
  deposits_of s (b_payer b) = [] \/ price <= 0 ->
  b_paid b = 0 /\ b_fee b = None.
Proof.
  intros A eqb is_system height price cs first steps s s' bills b He Hs Hin Hsys Hp.
  pose proof (poor_tx A eqb is_system height price He (b_payer b) cs first steps s Hsys Hp) as P.
  rewrite Hs in P. rewrite Forall_forall in P. exact (P b Hin eq_refl).
Qed.
Print Assumptions C65_no_deposit.

(** When the call fails nobody pays but the contract which was called first:
    its percentage of all the steps. *)
Theorem C65_failed : forall A R E M (eqb : A -> A -> bool) (is_system : A -> bool)
    (e : env A R) (t : tx A) (w : world A R) (b : list (node (world A R) E M A)) (en : ending),
  verdict e t w en <> None ->
  sharers e t w b en = [] /\
  settle_tx (pay_for eqb is_system (e_height e) (e_price e)) (sharers e t w b en) (first_payer e t w b)
    (steps_charged e t w b en) (purse_of w) =
  match first_payer e t w b with
  | None => (purse_of w, [])
  | Some (a, q) =>
      let '(s, paid, fee) := pay_for eqb is_system (e_height e) (e_price e) (purse_of w) a
                               (steps_charged e t w b en * q / 100) in
      (s, [mkBill a q (steps_charged e t w b en) paid fee])
  end.
Proof.
  intros A R E M eqb is_system e t w b en H.
  assert (X : sharers e t w b en = []).
  { unfold sharers, happened, verdict in *. destruct (refusal e t w); [reflexivity|].
    destruct en as [u [k|]| |]; try reflexivity. congruence. }
  split; [exact X|]. rewrite X. unfold settle_tx. cbn [settle_all].
  destruct (first_payer e t w b) as [[a q]|]; [|reflexivity].
  change (total (@nil (bill A))) with 0. rewrite Z.sub_0_r. reflexivity.
Qed.
Print Assumptions C65_failed.

(** *** C66 *)

(** Whatever the contracts do, the fee never takes more than the sender has. *)
Theorem C66_never_overdrawn : forall A R E M (eqb : A -> A -> bool) (is_system : A -> bool)
    (e : env A R) (t : tx A) (w : world A R) (body : list (action (world A R) E M A)) (en : ending)
    (r : receipt A E M) (w' : world A R),
  (forall a b, eqb a b = true <-> a = b) ->
  execute eqb is_system e t w body en = Done r w' ->
  0 <= bal w' (t_from t).
Proof.
  intros A R E M eqb is_system e t w body en r w' He H.
  pose proof (execute_cases A R E M eqb is_system e t w body en) as X. rewrite H in X.
  destruct X as (b & _ & F). unfold finished in F.
  destruct (settled A R E M eqb is_system e t w b en) as [s bills].
  assert (Er : eqb (t_from t) (t_from t) = true) by (apply He; reflexivity).
  destruct F as (_ & [(_ & _ & F1 & -> & _)|[(_ & _ & F1 & _ & _ & -> & _)|(F1 & _ & _ & _ & _ & -> & _)]]);
    cbn [set_balance bal]; rewrite Er; lia.
Qed.
Print Assumptions C66_never_overdrawn.

(** The loop which charges the fee ends. *)
Theorem C66_ends : forall A R E M (eqb : A -> A -> bool) (is_system : A -> bool)
    (e : env A R) (t : tx A) (w : world A R) (body : list (action (world A R) E M A)) (en : ending),
  0 <= bal w (t_from t) ->
  execute eqb is_system e t w body en <> Endless.
Proof.
  intros A R E M eqb is_system e t w body en H X.
  pose proof (execute_cases A R E M eqb is_system e t w body en) as Y. rewrite X in Y. lia.
Qed.
Print Assumptions C66_ends.

Lemma pay_only : forall A (eqb : A -> A -> bool) is_system h p s a n s' paid fee,
  (forall a b, eqb a b = true <-> a = b) ->
  pay_for eqb is_system h p s a n = (s', paid, fee) ->
  forall x, x <> a -> deposits_of s' x = deposits_of s x.
Proof.
  intros A eqb is_system h p s a n s' paid fee He H x Hx. unfold pay_for in H. destruct (is_system a).
  - injection H as <- _ _. reflexivity.
  - destruct (pay_steps h p (deposits_of s a) n) as [[[dl q] f]|]; injection H as <- _ _; [|reflexivity].
    cbn. destruct (eqb a x) eqn:X; [|reflexivity]. apply He in X. congruence.
Qed.

(** A transaction which failed (in its checks, in its call, by a timeout, or
    because its sender could not pay) has no event, no message, and changes
    nothing but the balance of its sender and the deposits of the contract
    which was called first, if it had agreed to pay. *)
Theorem C66_failed : forall A R E M (eqb : A -> A -> bool) (is_system : A -> bool)
    (e : env A R) (t : tx A) (w : world A R) (body : list (action (world A R) E M A)) (en : ending)
    (r : receipt A E M) (w' : world A R),
  (forall a b, eqb a b = true <-> a = b) ->
  execute eqb is_system e t w body en = Done r w' ->
  r_status r <> None ->
  r_events r = [] /\ r_messages r = [] /\ other w' = other w /\
  (forall a, a <> t_from t -> bal w' a = bal w a) /\
  exists b, (refusal e t w = None -> did en body b) /\
    (forall a, (forall q, first_payer e t w b <> Some (a, q)) ->
       deposits_of (purse_of w') a = deposits_of (purse_of w) a) /\
    (0 <= e_default e -> 0 <= e_input e -> 0 <= e_price e ->
     (forall a, Forall sound (deposits_of (purse_of w) a)) ->
     0 <= bal w (t_from t) - bal w' (t_from t) <= r_used r * r_price r).
Proof.
  intros A R E M eqb is_system e t w body en r w' He H Hst.
  pose proof (execute_cases A R E M eqb is_system e t w body en) as X. rewrite H in X.
  destruct X as (b & Hd & F). unfold finished in F.
  assert (Er : eqb (t_from t) (t_from t) = true) by (apply He; reflexivity).
  assert (Eo : forall a, a <> t_from t -> eqb (t_from t) a = false).
  { intros a Ha. destruct (eqb (t_from t) a) eqn:X; [|reflexivity]. apply He in X. congruence. }
  pose proof (settled_bounds A R E M eqb is_system He e t w b en) as SB.
  destruct (settled A R E M eqb is_system e t w b en) as [s bills] eqn:Hs.
  destruct F as (Hu & [(F1 & F2 & F3 & F4 & F5 & F6 & _)|[(F1 & F2 & F3 & F4 & F5 & F6 & F7 & F8 & F9)|(F1 & F2 & F3 & F4 & F5 & F6 & F7 & F8 & F9)]]).
  - rewrite F1 in Hst. pose proof (after_failed A R E M e t w b en Hst) as Ew.
    destruct (C65_failed A R E M eqb is_system e t w b en Hst) as [C1 C2].
    rewrite F1 in F6. destruct (F6 Hst) as [-> ->].
    rewrite Ew in F4, SB, F3. subst w'. cbn [set_balance bal other purse_of].
    split; [reflexivity|]. split; [reflexivity|]. split; [reflexivity|]. split.
    { intros a Ha. rewrite (Eo a Ha). reflexivity. }
    exists b. split; [intro; apply Hd; assumption|]. split.
    + intros a Ha. unfold settled in Hs. rewrite Ew, C2 in Hs. destruct (shares A R e t); [|injection Hs as <- _; reflexivity].
      destruct (first_payer e t w b) as [[a0 q]|] eqn:Hfp; [|injection Hs as <- _; reflexivity].
      destruct (pay_for eqb is_system (e_height e) (e_price e) (purse_of w) a0 (steps_charged e t w b en * q / 100))
        as [[s1 paid] fee] eqn:Hp. injection Hs as <- _.
      apply (pay_only A eqb is_system _ _ _ _ _ _ _ _ He Hp). intro Y. subst a0. exact (Ha q eq_refl).
    + intros G1 G2 G3 G4. rewrite C1 in SB. destruct (SB G1 G2 (Forall_nil _) G4) as (_ & B2 & _).
      rewrite Er, F2, Hu. unfold step_price. destruct (t_patch t); nia.
  - subst w'. cbn [set_balance bal other purse_of]. split; [exact F7|]. split; [exact F8|]. split; [reflexivity|]. split.
    { intros a Ha. rewrite (Eo a Ha). reflexivity. }
    exists b. split; [intro; apply Hd; assumption|]. split; [reflexivity|].
    intros G1 G2 G3 G4. rewrite Er, F5, Hu. unfold step_price, steps_charged. destruct (t_patch t); nia.
  - subst w'. cbn [set_balance bal other purse_of]. split; [exact F7|]. split; [exact F8|]. split; [reflexivity|]. split.
    { intros a Ha. rewrite (Eo a Ha). reflexivity. }
    exists b. split; [intro; apply Hd; assumption|]. split; [reflexivity|].
    intros G1 G2 G3 G4. rewrite Er, F5. lia.
Qed.
Print Assumptions C66_failed.

(** A transaction which succeeded: its call returned without an error, all
    that survives of its call is in the world and in the receipt, and the fee
    is shared by the rules of C65. *)
Theorem C66_success : forall A R E M (eqb : A -> A -> bool) (is_system : A -> bool)
    (e : env A R) (t : tx A) (w : world A R) (body : list (action (world A R) E M A)) (en : ending)
    (r : receipt A E M) (w' : world A R),
  (forall a b, eqb a b = true <-> a = b) ->
  execute eqb is_system e t w body en = Done r w' ->
  r_status r = None ->
  exists (b : list (node (world A R) E M A)) (u : Z),
    en = Returned u None /\ refusal e t w = None /\ flat_map actions b = body /\ tree false b /\
    let n := Called true (room e t) b u None in
    let wc := apply_all (writes n) w in
    r_events r = events n /\ r_messages r = messages n /\ other w' = other wc /\
    (forall a, a <> t_from t -> bal w' a = bal wc a) /\
    r_used r = Z.max (e_default e) (e_default e + e_input e + used_by (room e t) b u) /\
    r_price r = step_price e t /\
    let (s, bills) :=
      if fee_sharing (e_pol e) && (0 <? step_price e t)
      then settle_tx (pay_for eqb is_system (e_height e) (e_price e))
             (first_sharing (multiple_payers (e_pol e)) n) (fold_left agreement b None) (r_used r) (purse_of wc)
      else (purse_of wc, []) in
    purse_of w' = s /\
    bal w' (t_from t) = bal wc (t_from t) - (r_used r - total bills) * r_price r.
Proof.
  intros A R E M eqb is_system e t w body en r w' He H Hst.
  pose proof (execute_cases A R E M eqb is_system e t w body en) as X. rewrite H in X.
  destruct X as (b & Hd & F). unfold finished in F.
  assert (Er : eqb (t_from t) (t_from t) = true) by (apply He; reflexivity).
  destruct (settled A R E M eqb is_system e t w b en) as [s bills] eqn:Hs.
  destruct F as (Hu & [(F1 & F2 & F3 & F4 & F5 & F6 & _)|[(F1 & F2 & F3 & F4 & _)|(F1 & F2 & F3 & F4 & _)]]);
    try congruence.
  rewrite Hst in F1. symmetry in F1.
  assert (V : refusal e t w = None /\ exists u, en = Returned u None).
  { unfold verdict in F1. destruct (refusal e t w); [discriminate|]. split; [reflexivity|].
    destruct en as [u [k|]| |]; try discriminate. exists u. reflexivity. }
  destruct V as (Rf & u & ->). destruct (Hd Rf) as [[D1 D2] _].
  exists b, u. split; [reflexivity|]. split; [exact Rf|]. split; [exact D1|]. split; [exact D2|].
  cbv zeta. destruct (F5 Hst) as [G1 G2].
  unfold happened in G1, G2. rewrite Rf in G1, G2. cbn [flat_map first_call] in G1, G2. rewrite app_nil_r in G1, G2.
  assert (Ew : after_call e t w b (Returned u None) = apply_all (writes (Called true (room e t) b u None)) w).
  { unfold after_call, happened. rewrite Rf. cbn [flat_map first_call]. rewrite app_nil_r. reflexivity. }
  rewrite Ew in *. set (wc := apply_all (writes (Called true (room e t) b u None)) w) in *.
  split; [exact G1|]. split; [exact G2|]. subst w'. cbn [set_balance bal other purse_of].
  split; [reflexivity|]. split.
  { intros a Ha. destruct (eqb (t_from t) a) eqn:Y; [|reflexivity]. apply He in Y. congruence. }
  split; [rewrite Hu; unfold steps_charged, steps_used; rewrite Rf; reflexivity|]. split; [exact F2|].
  unfold settled, shares in Hs. rewrite Ew in Hs. rewrite Hu.
  replace (sharers e t w b (Returned u None)) with
    (first_sharing (fee_sharing (e_pol e) && multiple_payers (e_pol e)) (Called true (room e t) b u None)) in Hs
    by (unfold sharers, happened; rewrite Rf; cbn [flat_map first_call]; rewrite app_nil_r; reflexivity).
  unfold first_payer in Hs. rewrite Rf in Hs.
  destruct (fee_sharing (e_pol e)); cbn [andb] in Hs |- *.
  - rewrite Hs. split; [reflexivity|]. rewrite Er, F2. reflexivity.
  - injection Hs as <- <-. split; [reflexivity|]. rewrite Er, F2. reflexivity.
Qed.
Print Assumptions C66_success.

(** The fee of the receipt is what was taken: from the sender and from the
    deposits, to the coin.  [L] is any set of accounts which has those whose
    deposits have changed.  The details of the receipt add up to the steps. *)
Theorem C66_accounting : forall A R E M (eqb : A -> A -> bool) (is_system : A -> bool)
    (e : env A R) (t : tx A) (w : world A R) (body : list (action (world A R) E M A)) (en : ending)
    (r : receipt A E M) (w' : world A R),
  (forall a b, eqb a b = true <-> a = b) ->
  execute eqb is_system e t w body en = Done r w' ->
  0 <= e_default e -> 0 <= e_input e -> 0 <= e_price e ->
  exists b, (refusal e t w = None -> did en body b) /\
  let before := match r_status r with None => after_call e t w b en | Some _ => w end in
  (r_status r = None -> Forall sane (sharers e t w b en)) ->
  (forall a, Forall sound (deposits_of (purse_of w) a)) ->
  (forall a, Forall sound (deposits_of (purse_of (after_call e t w b en)) a)) ->
  (forall L, NoDup L ->
     (forall a, deposits_of (purse_of w') a <> deposits_of (purse_of before) a -> In a L) ->
     fee_of r = (bal before (t_from t) - bal w' (t_from t)) +
       fold_right (fun a n => sum coins (deposits_of (purse_of before) a)
                              - sum coins (deposits_of (purse_of w') a) + n) 0 L) /\
  (forall a, Forall sound (deposits_of (purse_of w') a)) /\
  (r_details r <> [] -> fold_right (fun x n => snd x + n) 0 (r_details r) = r_used r) /\
  0 <= fee_of r <= r_used r * r_price r.
Proof.
  intros A R E M eqb is_system e t w body en r w' He H Hde Hin Hpr.
  pose proof (execute_cases A R E M eqb is_system e t w body en) as X. rewrite H in X.
  destruct X as (b & Hd & F). exists b. split; [intro Y; apply Hd; exact Y|]. cbv zeta. intros Hsane Hgw Hg.
  unfold finished in F.
  assert (Er : eqb (t_from t) (t_from t) = true) by (apply He; reflexivity).
  pose proof (settled_bounds A R E M eqb is_system He e t w b en Hde Hin) as SB.
  destruct (settled A R E M eqb is_system e t w b en) as [s bills] eqn:Hs.
  assert (U0 : 0 <= steps_charged e t w b en) by (unfold steps_charged; lia).
  assert (P0 : 0 <= step_price e t) by (unfold step_price; destruct (t_patch t); lia).
  assert (Same : forall (p : world A R) k L, fold_right (fun a n => sum coins (deposits_of (purse_of p) a)
       - sum coins (deposits_of (purse_of (set_balance eqb p (t_from t) k)) a) + n) 0 L = 0).
  { intros p k L. cbn [set_balance purse_of]. induction L as [|a L IH]; [reflexivity|]. cbn [fold_right]. rewrite IH. lia. }
  destruct F as (Hu & [(F1 & F2 & F3 & F4 & F5 & F6 & pd & F7 & F8)|[(F1 & F2 & F3 & F4 & F5 & F6 & F7 & F8 & F9)|(F1 & F2 & F3 & F4 & F5 & F6 & F7 & F8 & F9)]]).
  - assert (Hb : match r_status r with None => after_call e t w b en | Some _ => w end = after_call e t w b en).
    { destruct (r_status r) eqn:Y; [|reflexivity]. symmetry. apply after_failed. congruence. }
    rewrite Hb. set (wc := after_call e t w b en) in *.
    assert (Hsn : Forall sane (sharers e t w b en)).
    { destruct (r_status r) eqn:Y; [|apply Hsane; reflexivity].
      destruct (C65_failed A R E M eqb is_system e t w b en) as [C1 _]; [congruence|]. rewrite C1. constructor. }
    destruct (SB Hsn Hg) as (B1 & B2 & B3 & B4 & B5).
    destruct (details_sum A eqb (t_from t) pd bills (steps_charged e t w b en) (step_price e t) F7 B3) as (D1 & D2 & D3).
    rewrite <- F8 in D1, D2, D3. cbn [fst] in D2, D3.
    assert (Hf : fee_of r = (steps_charged e t w b en - total bills + fees A bills) * step_price e t).
    { rewrite <- D1. unfold fee_of, ev. cbn [fst snd]. rewrite Hu, F2. reflexivity. }
    assert (Hfees : 0 <= fees A bills <= total bills).
    { clear - B3. induction B3 as [|x l [X _] _ IH]; [cbn; lia|].
      change (fees A (x :: l)) with (by_dep (b_fee x) + fees A l). change (total (x :: l)) with (b_paid x + total l). lia. }
    split; [|split; [|split]].
    + intros L HN HL. rewrite Hf. subst w'. cbn [set_balance bal purse_of] in *. rewrite Er.
      assert (Hlost : lost A (purse_of wc) s L = fees A bills * step_price e t).
      { destruct (shares A R e t) eqn:Hsh.
        - assert (Ep : step_price e t = e_price e).
          { unfold shares in Hsh. apply andb_true_iff in Hsh. destruct Hsh as [_ Hsh]. apply Z.ltb_lt in Hsh.
            unfold step_price in *. destruct (t_patch t); [lia|reflexivity]. }
          rewrite Ep. apply (lost_eq A eqb is_system He (e_price e) (purse_of wc) s bills L Hpr HN B3).
          + unfold settled in Hs. rewrite Hsh in Hs.
            pose proof (system_lines A eqb is_system (e_height e) (e_price e) (sharers e t w b en) (first_payer e t w b)
              (steps_charged e t w b en) (purse_of (after_call e t w b en))) as SL.
            rewrite Hs in SL. exact SL.
          + exact B4.
          + exact HL.
        - rewrite (B5 eq_refl) in *. unfold settled in Hs. rewrite Hsh in Hs. injection Hs as <-.
          fold wc. clear. unfold lost. cbn [fees fold_right].
          induction L as [|a L IH]; [reflexivity|]. cbn [fold_right]. rewrite IH. lia. }
      unfold lost in Hlost. rewrite Hlost. lia.
    + intro a. subst w'. exact (B1 a).
    + intro Y. rewrite Hu. exact (D2 Y).
    + rewrite Hf, Hu, F2. nia.
  - rewrite F4. assert (Hf : fee_of r = steps_charged e t w b en * step_price e t) by (unfold fee_of; rewrite F9, Hu, F5; reflexivity).
    split; [|split; [|split]].
    + intros L HN HL. rewrite Hf. subst w'. rewrite Same. cbn [set_balance bal]. rewrite Er. lia.
    + intro a. subst w'. exact (Hgw a).
    + intro Y. congruence.
    + rewrite Hf, Hu, F5. nia.
  - rewrite F4. assert (Hf : fee_of r = 0) by (unfold fee_of; rewrite F9, F5; lia).
    split; [|split; [|split]].
    + intros L HN HL. rewrite Hf. subst w'. rewrite Same. cbn [set_balance bal]. rewrite Er. lia.
    + intro a. subst w'. exact (Hgw a).
    + intro Y. congruence.
    + rewrite Hf, F5. lia.
Qed.
Print Assumptions C66_accounting.

(** The details of a receipt name every payer once, with the steps it paid in
    all; the sender pays the rest. *)
Theorem C66_details : forall A R E M (eqb : A -> A -> bool) (is_system : A -> bool)
    (e : env A R) (t : tx A) (w : world A R) (body : list (action (world A R) E M A)) (en : ending)
    (r : receipt A E M) (w' : world A R),
  (forall a b, eqb a b = true <-> a = b) ->
  execute eqb is_system e t w body en = Done r w' ->
  r_details r <> [] ->
  exists b, (refusal e t w = None -> did en body b) /\
    let bills := snd (settle_tx (pay_for eqb is_system (e_height e) (e_price e)) (sharers e t w b en)
                        (first_payer e t w b) (r_used r) (purse_of (after_call e t w b en))) in
    NoDup (map fst (r_details r)) /\
    forall a, fold_right (fun x n => (if eqb (fst x) a then snd x else 0) + n) 0 (r_details r) =
      fold_right (fun b n => (if eqb (b_payer b) a then b_paid b else 0) + n) 0 bills +
      (if eqb (t_from t) a then r_used r - total bills else 0).
Proof.
  intros A R E M eqb is_system e t w body en r w' He H Hn.
  pose proof (execute_cases A R E M eqb is_system e t w body en) as X. rewrite H in X.
  destruct X as (b & Hd & F). exists b. split; [intro Y; apply Hd; exact Y|]. cbv zeta. unfold finished in F.
  destruct (settled A R E M eqb is_system e t w b en) as [s bills] eqn:Hs.
  destruct F as (Hu & [(F1 & F2 & F3 & F4 & F5 & F6 & pd & F7 & F8)|[(_ & _ & _ & _ & _ & _ & _ & _ & F9)|(_ & _ & _ & _ & _ & _ & _ & _ & F9)]]);
    [|congruence|congruence].
  assert (Hb : snd (settle_tx (pay_for eqb is_system (e_height e) (e_price e)) (sharers e t w b en)
                      (first_payer e t w b) (r_used r) (purse_of (after_call e t w b en))) = bills).
  { rewrite Hu. unfold settled in Hs. destruct (shares A R e t); [rewrite Hs; reflexivity|].
    exfalso. injection Hs as _ <-. inversion F7; subst. cbn in F8. injection F8 as F8 _. congruence. }
  rewrite Hb, Hu.
  split.
  - destruct (details_amount A eqb He (t_from t) pd bills (steps_charged e t w b en) (t_from t) F7) as [N _].
    rewrite <- F8 in N. exact N.
  - intro a. destruct (details_amount A eqb He (t_from t) pd bills (steps_charged e t w b en) a F7) as [_ D].
    rewrite <- F8 in D. exact (D Hn).
Qed.
Print Assumptions C66_details.

(** A sender who can pay for the step limit and the value pays the price for
    every step, whatever happens to the transaction. *)
Theorem C66_full_price : forall A R E M (eqb : A -> A -> bool) (is_system : A -> bool)
    (e : env A R) (t : tx A) (w : world A R) (body : list (action (world A R) E M A)) (en : ending)
    (r : receipt A E M) (w' : world A R),
  (forall a b, eqb a b = true <-> a = b) ->
  execute eqb is_system e t w body en = Done r w' ->
  0 <= e_default e <= t_limit t -> 0 <= e_input e -> 0 <= e_price e -> 0 <= t_value t ->
  (forall a, Forall sound (deposits_of (purse_of w) a)) ->
  e_price e * t_limit t + t_value t <= bal w (t_from t) ->
  r_price r = if t_patch t then 0 else e_price e.
Proof.
  intros A R E M eqb is_system e t w body en r w' He H Hd Hi Hp Hv Hg Hb.
  pose proof (execute_cases A R E M eqb is_system e t w body en) as X. rewrite H in X.
  destruct X as (b & _ & F). unfold finished in F.
  pose proof (settled_bounds A R E M eqb is_system He e t w b en (proj1 Hd) Hi) as SB.
  destruct (settled A R E M eqb is_system e t w b en) as [s bills] eqn:Hs.
  destruct F as (Hu & [(_ & F2 & _)|[(_ & _ & _ & _ & F2 & _)|(F1 & F2 & F3 & F4 & F5 & _)]]);
    [exact F2|exact F2|].
  rewrite F5. unfold step_price in *. destruct (t_patch t) eqn:Hpt; [reflexivity|]. exfalso.
  assert (U : steps_charged e t w b en <= t_limit t).
  { unfold steps_charged, steps_used.
    assert (L : step_limit e t <= t_limit t) by (unfold step_limit; rewrite Hpt; lia).
    destruct (refusal e t w) as [st|] eqn:Rf.
    - destruct st; try lia. unfold refusal in Rf.
      destruct (negb (t_patch t) && (bal w (t_from t) <? e_price e * t_limit t + t_value t)); [discriminate|].
      destruct (negb (t_patch t) && e_refuses e (t_to t) w); [discriminate|].
      destruct (Z.ltb_spec (step_limit e t) (e_default e)); [discriminate|].
      destruct (Z.ltb_spec (step_limit e t) (e_default e + e_input e)); [discriminate|]. lia.
    - destruct en as [u k| |]; try lia. unfold used_by, room. lia. }
  assert (B : bal w (t_from t) < steps_charged e t w b en * e_price e).
  { destruct (verdict e t w en) as [st|] eqn:Hver; [|apply F3; reflexivity].
    assert (V : verdict e t w en <> None) by congruence.
    pose proof (after_failed A R E M e t w b en V) as Ew. rewrite Ew in *.
    destruct (C65_failed A R E M eqb is_system e t w b en V) as [C1 _]. rewrite C1 in SB.
    destruct (SB (Forall_nil _) Hg) as (_ & B2 & _). nia. }
  nia.
Qed.
Print Assumptions C66_full_price.

(** The steps of a receipt: never fewer than the default, never more than the
    limit of the transaction and of the block. *)
Theorem C66_steps : forall A R E M (eqb : A -> A -> bool) (is_system : A -> bool)
    (e : env A R) (t : tx A) (w : world A R) (body : list (action (world A R) E M A)) (en : ending)
    (r : receipt A E M) (w' : world A R),
  execute eqb is_system e t w body en = Done r w' ->
  0 <= e_default e ->
  e_default e <= r_used r <= Z.max (e_default e) (if t_patch t then e_invoke e else Z.min (e_invoke e) (t_limit t)).
Proof.
  intros A R E M eqb is_system e t w body en r w' H Hd.
  pose proof (execute_cases A R E M eqb is_system e t w body en) as X. rewrite H in X.
  destruct X as (b & _ & F). unfold finished in F.
  destruct (settled A R E M eqb is_system e t w b en) as [s bills] eqn:Hs. destruct F as (-> & _).
  change (if t_patch t then e_invoke e else Z.min (e_invoke e) (t_limit t)) with (step_limit e t).
  unfold steps_charged, steps_used. split; [lia|].
  destruct (refusal e t w) as [st|] eqn:Rf.
  - destruct st; try lia. unfold refusal in Rf.
    destruct (negb (t_patch t) && (bal w (t_from t) <? e_price e * t_limit t + t_value t)); [discriminate|].
    destruct (negb (t_patch t) && e_refuses e (t_to t) w); [discriminate|].
    destruct (Z.ltb_spec (step_limit e t) (e_default e)); [discriminate|].
    destruct (Z.ltb_spec (step_limit e t) (e_default e + e_input e)); [discriminate|]. lia.
  - destruct en as [u k| |]; try lia. unfold used_by, room. lia.
Qed.
Print Assumptions C66_steps.

(** *** Examples *)
Definition sys (a : nat) : bool := Nat.eqb a 0.
Definition pay := pay_for Nat.eqb sys 100 10.

Lemma eqb_ok : forall a b, Nat.eqb a b = true <-> a = b.
Proof. exact Nat.eqb_eq. Qed.

(** Contract 1 has 500 coins (50 steps), contract 2 has 10000, contract 3
    pays with the system's deposit. *)
Definition purse0 : purse nat :=
  mkPurse (fun a => if Nat.eqb a 1 then [V2 500] else if Nat.eqb a 2 then [V2 10000] else []) 7.

(** Contract 2 (called first, used 1000 steps, pays 50 percent of all) calls
    contract 3 (used 600, the system pays 10 percent), which calls contract
    1 (used 200, agreed to pay everything, can pay 50): 150 steps are left
    to the payer of 3, who pays a tenth of 400 + 150. *)
Definition tree0 : list (call nat) :=
  [Call [Call [Call [] 200 (Some (1%nat, 100))] 600 (Some (0%nat, 10))] 1000 None].

Example settles :
  let (s, bills) := settle_tx pay tree0 (Some (2%nat, 50)) 1100 purse0 in
  map (fun b => (b_payer b, b_paid b, b_fee b)) bills =
    [(1%nat, 50, Some 50); (0%nat, 55, None); (2%nat, 497, Some 497)] /\
  deposits_of s 1%nat = [V2 0] /\ deposits_of s 2%nat = [V2 5030] /\ usage s = 557.
Proof. vm_compute. auto. Qed.

Example meets_bounds :
  Forall sane tree0 /\ (forall a, Forall sound (deposits_of purse0 a)) /\
  fold_right (fun c n => match c with Call _ u _ => u end + n) 0 tree0 <= 1100.
Proof.
  split; [|split].
  - constructor; [|constructor]. cbn. repeat split; lia.
  - intro a. unfold purse0. cbn. destruct (Nat.eqb a 1); [repeat constructor; cbn; lia|].
    destruct (Nat.eqb a 2); [repeat constructor; cbn; lia|constructor].
  - vm_compute. discriminate.
Qed.

(** An engine which reports fewer steps than the calls it made have used
    makes the payers pay more than the transaction has used: [sane] is
    needed. *)
Example dishonest :
  let (s, bills) := settle_tx pay [Call [Call [] 900 (Some (2%nat, 100))] 100 None] None 100 purse0 in
  total bills = 900.
Proof. vm_compute. reflexivity. Qed.

(** Contract 4 agrees to pay everything and has no deposit. *)
Example no_deposit :
  settle_tx pay [Call [] 900 (Some (4%nat, 100))] None 1000 purse0 = (purse0, [mkBill 4%nat 100 900 0 None]).
Proof. reflexivity. Qed.

(** Executing. *)
Definition W := world nat nat.
Definition w0 : W := mkWorld (fun a => if Nat.eqb a 9 then 20000 else 0) purse0 5%nat.
Definition e0 : env nat nat :=
  mkEnv (mkPolicy true true) 100 10 2000 100 20 (fun _ _ => false) (fun _ _ => false).
Definition t0 : tx nat := mkTx 9%nat 2%nat 300 1500 false.

(** The call moves the value, agrees to pay 40 percent, emits an event, and
    calls contract 1, which agrees to pay for 200 steps. *)
Definition move : W -> W := fun w =>
  mkWorld (fun a => if Nat.eqb a 9 then bal w 9%nat - 300
                    else if Nat.eqb a 2 then bal w 2%nat + 300 else bal w a) (purse_of w) (other w).
Definition body0 : list (node W nat nat nat) :=
  [Wrote move; Agreed 2%nat 40; Emitted 77%nat;
   Called false 500 [Agreed 1%nat 100; Wrote (fun w => mkWorld (bal w) (purse_of w) 6%nat)] 200 None].

Definition exec (en : ending) (t : tx nat) := execute Nat.eqb sys e0 t w0 (flat_map actions body0) en.

(** 1120 steps: contract 1 pays 50, contract 2 pays 40 percent of the other
    1070, the sender pays 642. *)
Example succeeds :
  match exec (Returned 1000 None) t0 with
  | Done r w =>
      r_status r = None /\ r_used r = 1120 /\ r_events r = [77%nat] /\ other w = 6%nat /\
      r_details r = [(1%nat, 50); (2%nat, 428); (9%nat, 642)] /\ fee_of r = 11200 /\
      bal w 9%nat = 20000 - 300 - 6420 /\ bal w 2%nat = 300 /\
      deposits_of (purse_of w) 1%nat = [V2 0] /\ deposits_of (purse_of w) 2%nat = [V2 5720]
  | _ => False
  end.
Proof. vm_compute. repeat split. Qed.

Example honest : Forall sane (sharers e0 t0 w0 body0 (Returned 1000 None)) /\
  did (Returned 1000 None) (flat_map actions body0) body0.
Proof.
  split; [|split; [reflexivity|]].
  - vm_compute. constructor; [|constructor]. repeat split; discriminate.
  - cbn. repeat constructor.
Qed.

(** The same call fails: the contract called first pays its 40 percent still. *)
Example fails :
  match exec (Returned 1000 (Some 32)) t0 with
  | Done r w =>
      r_status r = Some (Failed 32) /\ r_used r = 1120 /\ r_events r = [] /\ other w = 5%nat /\
      r_details r = [(2%nat, 448); (9%nat, 672)] /\ fee_of r = 11200 /\
      bal w 9%nat = 20000 - 6720 /\ bal w 2%nat = 0 /\ deposits_of (purse_of w) 1%nat = [V2 500]
  | _ => False
  end.
Proof. vm_compute. repeat split. Qed.

(** A timeout costs all the steps. *)
Example times_out :
  match exec Timeout t0 with
  | Done r w => r_status r = Some TimedOut /\ r_used r = 1500 /\ other w = 5%nat /\ fee_of r = 15000
  | _ => False
  end.
Proof. vm_compute. repeat split. Qed.

(** A call which spends the sender's coins so that the fee cannot be paid is
    undone, and the sender pays the whole fee. *)
Definition greedy : list (node W nat nat nat) :=
  [Wrote (fun w => mkWorld (fun a => if Nat.eqb a 9 then 100 else bal w a) (purse_of w) 8%nat); Agreed 2%nat 40].
Example undone :
  match execute Nat.eqb sys e0 t0 w0 (flat_map actions greedy) (Returned 1000 None) with
  | Done r w => r_status r = Some OutOfBalance /\ fee_of r = 11200 /\ bal w 9%nat = 8800 /\ other w = 5%nat /\
                deposits_of (purse_of w) 2%nat = [V2 10000]
  | _ => False
  end.
Proof. vm_compute. repeat split. Qed.

(** A sender who cannot pay the default steps: the price is 0. *)
Example free :
  match execute Nat.eqb sys e0 (mkTx 4%nat 2%nat 300 1500 false) w0 (flat_map actions body0) (Returned 1000 None) with
  | Done r w => r_status r = Some OutOfBalance /\ r_used r = 100 /\ r_price r = 0 /\ bal w 4%nat = 0
  | _ => False
  end.
Proof. vm_compute. repeat split. Qed.

(** The frames of a run collect the payers of the tree. *)
Example collects :
  match run (mkPolicy true true) (new_context w0 1500 false)
          (flat_map actions ([Spent 100; Spent 20] ++ Called true 1380 body0 1000 None :: [Spent 1000])) with
  | Some c => match c_stack c with
              | [base] => snd (redeem Nat.eqb sys 100 10 (f_payers base) 1120 purse0) = 478
              | _ => False
              end
  | None => False
  end.
Proof. vm_compute. reflexivity. Qed.
