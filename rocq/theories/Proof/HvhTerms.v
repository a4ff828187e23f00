(** Terms in a history: how the current term advances, what each block and each transaction leaves alone. *)
From Verif Require Import Model.HvhState Model.HvhExt Spec.HvhSpec Proof.HvhFacts Proof.HvhSupply Proof.HvhTreasury.
From Coq Require Import ZArith List Bool Lia ZifyBool.
Import ListNotations.
Open Scope Z_scope.

Lemma int_or_pos v d : 0 < d -> 0 < int_or v d.
Proof. unfold int_or. intros. destruct (v <=? 0) eqn:E; lia. Qed.
Lemma period_pos w : 0 < get_term_period w.
Proof. apply int_or_pos. reflexivity. Qed.
Lemma cycle_pos w : 0 < get_reduction_cycle w.
Proof. apply int_or_pos. reflexivity. Qed.
Lemma limit_pos w : 0 < get_issue_limit w.
Proof. apply int_or_pos. reflexivity. Qed.

(** ** The current term *)
Lemma started_iff h s : is_issue_started h s = (0 <? s) && (s <=? h).
Proof. reflexivity. Qed.
Lemma current_started w : is_issue_started (height w) (issue_start w) = true ->
  current_term w = (height w - issue_start w) / get_term_period w /\ 0 <= current_term w.
Proof.
  intros E. unfold current_term. rewrite <- started_iff, E. split; [auto|].
  rewrite started_iff in E. pose proof (period_pos w). apply Z.div_pos; lia.
Qed.
Lemma current_not_started w : is_issue_started (height w) (issue_start w) = false -> current_term w = -1.
Proof. intros E. unfold current_term. rewrite <- started_iff, E. auto. Qed.
Lemma current_started_iff w : is_issue_started (height w) (issue_start w) = (0 <=? current_term w).
Proof.
  destruct (is_issue_started _ _) eqn:E.
  - apply current_started in E as [_ E]. symmetry. lia.
  - apply current_not_started in E. rewrite E. reflexivity.
Qed.
Lemma seq_current w : is_issue_started (height w) (issue_start w) = true ->
  term_seq_and_index (height w) (issue_start w) (get_term_period w) =
  (current_term w, (height w - issue_start w) mod get_term_period w).
Proof.
  intros E. rewrite started_iff in E. unfold term_seq_and_index. cbv zeta.
  destruct (issue_start w =? 0) eqn:Z0; [lia|]. destruct (_ <? 0) eqn:N; [lia|]. cbn [orb].
  pose proof (period_pos w). unfold current_term. rewrite E. rewrite Z.quot_div_nonneg, Z.rem_mod_nonneg by lia. reflexivity.
Qed.
Lemma quot_current w : is_issue_started (height w) (issue_start w) = true ->
  Z.quot (height w - issue_start w) (get_term_period w) = current_term w.
Proof.
  intros E. pose proof (current_started w E) as [-> _]. rewrite started_iff in E. pose proof (period_pos w).
  apply Z.quot_div_nonneg; lia.
Qed.
(** The first height of the current term. *)
Definition term_begin (w : world) : Z := issue_start w + current_term w * get_term_period w.
Lemma term_begin_le w : 0 <= current_term w -> term_begin w <= height w < term_begin w + get_term_period w.
Proof.
  intros n. unfold term_begin. assert (E : is_issue_started (height w) (issue_start w) = true) by (rewrite current_started_iff; lia).
  pose proof (current_started w E) as [-> _]. pose proof (period_pos w).
  pose proof (Z.div_mod (height w - issue_start w) (get_term_period w)).
  pose proof (Z.mod_pos_bound (height w - issue_start w) (get_term_period w)). nia.
Qed.

Definition boundary (w : world) : bool :=
  is_issue_started (height w) (issue_start w) && ((height w - issue_start w) mod get_term_period w =? 0).

Lemma next_term rev w :
  current_term (next_block rev w) = current_term w + (if boundary (next_block rev w) then 1 else 0).
Proof.
  unfold boundary, next_block. cbn [height issue_start set_revision set_height].
  change (get_term_period (set_revision rev (set_height (height w + 1) w))) with (get_term_period w).
  pose proof (period_pos w) as pp.
  unfold current_term. cbn [height issue_start set_revision set_height].
  change (get_term_period (set_revision rev (set_height (height w + 1) w))) with (get_term_period w).
  rewrite started_iff. set (p := get_term_period w) in *. set (s := issue_start w). set (h := height w).
  destruct (0 <? s) eqn:S0; [|reflexivity]. destruct (s <=? h) eqn:S1.
  - assert (s <=? h + 1 = true) as -> by lia. cbn [andb].
    replace (h + 1 - s) with (h - s + 1) by lia. set (d := h - s).
    assert (0 <= d) by (subst d; lia). clearbody d p.
    pose proof (Z.div_mod d p ltac:(lia)). pose proof (Z.mod_pos_bound d p ltac:(lia)).
    destruct (Z.eq_dec (d mod p) (p - 1)) as [E|E].
    + assert (d + 1 = p * (d / p + 1) + 0) as E1 by nia.
      rewrite <- (Z.mod_unique_pos (d + 1) p (d / p + 1) 0) by lia.
      rewrite <- (Z.div_unique_pos (d + 1) p (d / p + 1) 0) by lia. reflexivity.
    + assert (d + 1 = p * (d / p) + (d mod p + 1)) as E1 by nia.
      rewrite <- (Z.mod_unique_pos (d + 1) p (d / p) (d mod p + 1)) by lia.
      rewrite <- (Z.div_unique_pos (d + 1) p (d / p) (d mod p + 1)) by lia.
      destruct (d mod p + 1 =? 0) eqn:K; lia.
  - cbn [andb]. destruct (s <=? h + 1) eqn:S2; [|reflexivity]. cbn [andb].
    assert (h + 1 - s = 0) as -> by lia. rewrite Z.mod_0_l, Z.div_0_l by lia. reflexivity.
Qed.

(** ** A block *)
Definition base_of_term (ts x : Z) : M unit :=
  fun w => (when ((0 <? ts) && (ts <=? get_issue_limit w)) on_term_end ;;
            when (ts <? get_issue_limit w) (on_term_start ts x)) w.

Lemma block_cases rev x vc w w' : begin_block rev x vc w = Some w' ->
  let w1 := next_block rev w in
  (boundary w1 = false /\ w' = w1) \/
  (boundary w1 = true /\ exists u, base_of_term (current_term w1) x w1 = (Ok u, w')).
Proof.
  intros B w1. apply begin_block_cases in B. fold w1 in B.
  destruct (boundary w1) eqn:Bd.
  - right. split; [auto|]. unfold boundary in Bd. apply andb_true_iff in Bd as [S0 I0].
    destruct B as [[N _] | [_ [u B]]].
    { unfold need_base_tx in N. rewrite seq_current in N by auto. rewrite I0 in N.
      pose proof (current_started _ S0) as [_ K]. destruct (0 <=? _) eqn:L; [discriminate | lia]. }
    exists u. unfold on_base_tx in B. erewrite bind_eq in B by reflexivity. rewrite S0 in B. cbn [negb] in B.
    rewrite seq_current in B by auto. rewrite I0 in B. unfold when at 1 in B. unfold base_of_term.
    pose proof (limit_pos w1). assert (L : get_issue_limit w1 =? 0 = false) by lia. rewrite L in B. exact B.
  - left. split; [auto|]. destruct B as [[_ E] | [_ [u B]]]; [auto|].
    unfold on_base_tx in B. erewrite bind_eq in B by reflexivity.
    destruct (is_issue_started _ _) eqn:S0; cbn [negb] in B; [|hstep B].
    rewrite seq_current in B by auto. unfold boundary in Bd. rewrite S0 in Bd. cbn [andb] in Bd. rewrite Bd in B.
    unfold when in B at 1. hstep B. auto.
Qed.

(** ** Term end and term start *)
Definition fixed (w : world) :=
  (height w, issue_start w, revision w, gov w, treasury w,
   (term_period w, reduction_cycle w, issue_limit w, hoover_budget w), planets w, rewards w, managers w, all_planet w,
   usdt_price w, claim_rate w, lost w).
Definition logs (w : world) := (issued (log w), offers (log w), burned (log w)).

Ltac ks_leaf :=
  first [ apply keeps_get | apply keeps_ret | apply keeps_fail | apply keeps_lift
        | apply keeps_put; intros ? HH; exact HH ].
Ltac ks :=
  repeat (intros;
    first [ ks_leaf | apply keeps_when | apply keeps_if | apply keeps_bind
          | match goal with |- keeps _ (match ?x with _ => _ end) => destruct x end ]).

Definition end_view (w : world) := (fixed w, logs w, issue_amount w, supply w, reward_total w).
Lemma on_term_end_view v : keeps (fun w => end_view w = v) on_term_end.
Proof.
  unfold on_term_end, transfer_eco_reward, claim_eco_reward, distribute_tx_fee, distribute_service_fee, distribute_fee,
    transfer_missed_reward, claim_missed_reward, refill_hoover_fund, state_on_term_end, increase_var, emit, transfer,
    add_balance. ks.
Qed.

Definition missed_of (w : world) : Z :=
  if 0 <? active_planet w then reward_total w / active_planet w * (active_planet w - working_planet w) else reward_total w.
Definition reward_view (w : world) := (active_planet w, working_planet w, reward_total w, reward_remain w).

Lemma on_term_end_rewards w u w' : on_term_end w = (Ok u, w') ->
  active_planet w' = 0 /\ working_planet w' = 0 /\ active_usdt_price w' = 0 /\
  0 <= reward_remain w - missed_of w /\ reward_remain w' = reward_remain w - missed_of w.
Proof.
  intros H. unfold on_term_end in H.
  hbind H v w1 H1. hbind H v2 w2 H2. hbind H v3 w3 H3. hbind H v4 w4 H4. hbind H v5 w5 H5.
  assert (R1 : reward_view w1 = reward_view w).
  { assert (K : keeps (fun z => reward_view z = reward_view w) transfer_eco_reward).
    { unfold transfer_eco_reward, claim_eco_reward, transfer, add_balance, emit. ks. }
    eapply K; eauto. }
  assert (R2 : reward_view w2 = reward_view w).
  { assert (K : keeps (fun z => reward_view z = reward_view w) distribute_tx_fee).
    { unfold distribute_tx_fee, distribute_fee, increase_var, transfer, add_balance, emit. ks. }
    eapply K; eauto. }
  assert (R3 : reward_view w3 = reward_view w).
  { assert (K : keeps (fun z => reward_view z = reward_view w) distribute_service_fee).
    { unfold distribute_service_fee, distribute_fee, increase_var, transfer, add_balance, emit. ks. }
    eapply K; eauto. }
  unfold transfer_missed_reward in H4. hbind H4 m w6 H6.
  assert (M6 : m = missed_of w /\ 0 <= reward_remain w - m /\ reward_remain w6 = reward_remain w - m).
  { unfold claim_missed_reward in H6. hbind H6 x w7 H7. hstep H7. unfold reward_view in R3. injection R3 as Ra Rw Rt Rr.
    rewrite Ra, Rw, Rt, Rr in H6.
    change (if 0 <? active_planet w then reward_total w / active_planet w * (active_planet w - working_planet w)
            else reward_total w) with (missed_of w) in H6.
    destruct (reward_remain w - missed_of w <? 0) eqn:N; [hstep H6|].
    hbind H6 q w7 H7. hstep H7. hstep H6. split; [auto|]. split; [lia | reflexivity]. }
  destruct M6 as (-> & n & R6).
  assert (R4 : reward_remain w4 = reward_remain w - missed_of w).
  { match type of H4 with ?mm w6 = _ => assert (K : keeps (fun z => reward_remain z = reward_remain w - missed_of w) mm) end.
    { unfold increase_var, transfer, add_balance, emit. ks. }
    eapply K; eauto. }
  assert (R5 : reward_remain w5 = reward_remain w - missed_of w).
  { assert (K : keeps (fun z => reward_remain z = reward_remain w - missed_of w) refill_hoover_fund).
    { unfold refill_hoover_fund, increase_var, transfer, add_balance, emit. ks. }
    eapply K; eauto. }
  unfold state_on_term_end in H. hbind H q w7 H7. hstep H7. hbind H q1 w8 H8. hstep H8. hstep H.
  repeat split; auto.
Qed.

Lemma amount_kept w ts : snd (issue_amount_by_ts w ts) = false ->
  fst (issue_amount_by_ts w ts) = big_or (issue_amount w) InitIssueAmount.
Proof.
  unfold issue_amount_by_ts. destruct (_ && _); [|auto]. cbv zeta. destruct (0 <? _); [discriminate | auto].
Qed.

Lemma on_term_start_inv ts x w u w' : on_term_start ts x w = (Ok u, w') ->
  let a := fst (issue_amount_by_ts w ts) in
  x = a /\ 0 <= a /\ fixed w' = fixed w /\
  issued (log w') = (ts, a) :: issued (log w) /\ offers (log w') = offers (log w) /\ burned (log w') = burned (log w) /\
  big_or (issue_amount w') InitIssueAmount = a /\
  active_planet w' = all_planet w /\ working_planet w' = working_planet w /\
  reward_remain w' = reward_remain w + a /\ reward_total w' = reward_remain w + a /\
  active_usdt_price w' = usdt_price w /\ supply w' = supply w + a.
Proof.
  intros H a. unfold on_term_start in H. hbind H ab w1 H1. hstep H1. hbind H q w2 H2.
  fold a in H, H2. 
  assert (E2 : w2 = (if snd (issue_amount_by_ts w ts) then set_issue_amount (Some a) w else w)).
  { apply when_ok in H2 as [[-> H2] | [-> ->]]; [hstep H2|]; reflexivity. }
  clear H2.
  assert (A2 : big_or (issue_amount w2) InitIssueAmount = a).
  { rewrite E2. destruct (snd _) eqn:K; [reflexivity|]. symmetry. apply amount_kept. auto. }
  assert (V2 : (fixed w2, log w2, supply w2, reward_view w2, usdt_price w2) = (fixed w, log w, supply w, reward_view w, usdt_price w)).
  { rewrite E2. destruct (snd _); reflexivity. }
  clear E2. destruct (x =? a) eqn:X; cbn [negb] in H; [|hstep H]. split; [lia|].
  hbind H q1 w3 H3. hbind H q2 w4 H4. hbind H q3 w5 H5. hstep H5.
  assert (N : 0 <= a /\ exists s b, w3 = set_log (EvIssued ts a s :: log w2) (set_bal b (set_supply (supply w2 + a) w2))).
  { unfold issue_coin in H3. hbind H3 s w5 H5. hstep H3. unfold issue in H5.
    destruct (a <? 0) eqn:N; [hstep H5|]. split; [lia|]. destruct (0 <? a) eqn:P.
    - hbind H5 s1 w6 H6. hbind H5 q4 w7 H7. hstep H5. unfold add_total_supply in H6.
      hbind H6 s2 w8 H8. hstep H8. destruct (_ <? 0) in H6; [hstep H6|]. hbind H6 q5 w9 H9. hstep H9. hstep H6.
      unfold deposit in H7. rewrite N in H7. destruct (a =? 0) eqn:Z0; [lia|].
      apply add_balance_inv in H7 as [n7 ->]. eexists _, _. reflexivity.
    - hstep H5. assert (E : a = 0) by lia. clear - E. eexists _, (bal w2). rewrite E, Z.add_0_r. destruct w2. reflexivity. }
  destruct N as (n & s & b & ->). split; [auto|].
  unfold state_on_term_start in H4. hbind H4 y w6 H6. hstep H6. hbind H4 q6 w7 H7. hstep H7.
  hbind H4 q7 w8 H8. hstep H8. hbind H4 q8 w9 H9. hstep H9. hstep H4.
  injection V2 as F1 F2 F3 F4 F5 F6 F7 F8 F9 F10 F11 F12 F13 F14 F15 F16 F17 F18 F19 F20 F21 F22 F23.
  match type of H with when _ _ ?z = _ => set (w4 := z) in * end.
  assert (W : exists e, (e = [] \/ exists t p r, e = [EvTermStarted t p r]) /\ w' = set_log (e ++ log w4) w4).
  { apply when_ok in H as [[_ H] | [_ ->]].
    - hstep H. eexists [_]. split; [eauto | reflexivity].
    - exists []. split; [auto|]. destruct w4; reflexivity. }
  destruct W as (e & He & ->).
  assert (Iss : issued (e ++ log w4) = issued (log w4)) by (destruct He as [-> | (? & ? & ? & ->)]; reflexivity).
  assert (Off : offers (e ++ log w4) = offers (log w4)) by (destruct He as [-> | (? & ? & ? & ->)]; reflexivity).
  assert (Bur : burned (e ++ log w4) = burned (log w4)) by (destruct He as [-> | (? & ? & ? & ->)]; reflexivity).
  split. { unfold fixed. subst w4. cbn. congruence. }
  cbn [log set_log]. rewrite Iss, Off, Bur. subst w4.
  split. { change ((ts, a) :: issued (log w2) = (ts, a) :: issued (log w)). congruence. }
  split. { change (offers (log w2) = offers (log w)). congruence. }
  split. { change (burned (log w2) = burned (log w)). congruence. }
  split. { exact A2. }
  cbn. repeat split; congruence.
Qed.

(** ** Transactions *)
Definition cfg (w : world) := (term_period w, reduction_cycle w, issue_limit w, hoover_budget w).
Definition xview (w : world) := (height w, revision w, gov w, treasury w, cfg w, issue_amount w, issued (log w)).
Definition oview (w : world) := (offers (log w), reward_view w, active_usdt_price w).
Definition pview (w : world) := (planets w, all_planet w).

Lemma transfer_any from to x w r w' : transfer from to x w = (r, w') ->
  exists b e, (e = [] \/ e = [EvTransfer from to x]) /\ w' = set_log (e ++ log w) (set_bal b w).
Proof.
  assert (W : w = set_log ([] ++ log w) (set_bal (bal w) w)) by (destruct w; reflexivity).
  unfold transfer. destruct (x <? 0); [intros [= <- <-]; exists (bal w), []; auto|].
  destruct (_ || _); [intros [= <- <-]; exists (bal w), []; auto|].
  unfold add_balance, bind, get, put, emit, fail.
  destruct (_ <? 0); [intros [= <- <-]; exists (bal w), []; auto|].
  match goal with |- context [if ?c then _ else _] => destruct c end.
  - intros [= <- <-]. match goal with |- context [set_bal ?b w] => exists b, [] end. split; [auto|].
    destruct w. reflexivity.
  - intros [= <- <-]. eexists _, [_]. split; [auto|]. reflexivity.
Qed.

Lemma claim_loop_keeps (P : world -> Prop) ts owner ids :
  (forall w b e, P w -> (e = [] \/ exists x, e = [EvTransfer PublicTreasury owner x]) -> P (set_log (e ++ log w) (set_bal b w))) ->
  (forall w id x, P w -> P (set_log (EvClaimed owner ts id x :: log w) w)) ->
  (forall w id pr, P w -> pr_total pr = pr_total (reward_of w id) -> pr_last_tn pr = pr_last_tn (reward_of w id) ->
     P (set_rewards (upd (rewards w) id (Some pr)) w)) ->
  keeps P (claim_loop ts owner ids).
Proof.
  intros Ht He Hr. induction ids as [|id r IH]; intros w u w' p H; cbn in H; [hstep H; auto|].
  destruct (state_claim_planet_reward id owner w) as [[c|e] w1] eqn:C.
  - assert (p1 : P w1).
    { apply claim_inv in C as (pl & _ & _ & _ & _ & [[_ ->] | [_ ->]]); auto. }
    destruct (0 <? c); [|eapply IH; [exact p1 | exact H]].
    destruct (transfer _ _ _ _) as [[v|e] w2] eqn:T; apply transfer_any in T as (b & e' & E' & ->);
      (assert (p2 : P (set_log (e' ++ log w1) (set_bal b w1))) by (apply Ht; [exact p1 | destruct E'; eauto])).
    + eapply IH; [|exact H]. apply He. exact p2.
    + injection H as _ <-. exact p2.
  - apply claim_er in C as ->. eapply IH; eauto.
Qed.

Lemma claim_keeps (P : world -> Prop) from ids :
  (forall ts l, keeps P (claim_loop ts from l)) -> keeps P (claim_planet_reward from ids).
Proof. intros K. unfold claim_planet_reward. ks. apply K. Qed.

Ltac kl :=
  apply claim_keeps; intros; apply claim_loop_keeps;
  [ let E := fresh in intros ? ? ? ? E; destruct E as [-> | [? ->]]; assumption
  | intros; assumption
  | try (intros; assumption) ].
Ltac kx :=
  repeat (intros;
    first [ match goal with |- keeps _ (claim_planet_reward _ _) => kl end
          | ks_leaf | apply keeps_when | apply keeps_if | apply keeps_bind
          | match goal with |- keeps _ (match ?x with _ => _ end) => destruct x end ]).
Ltac kunf :=
  unfold exec, check_governance, check_nft, state_set_issue_start, state_add_manager, state_remove_manager,
    state_register_planet, unregister_planet, state_unregister_planet, add_lost, state_set_planet_owner, state_get_planet,
    state_set_claim_rate, withdraw_lost_to, delete_lost, burn_coin, burn, withdraw, add_total_supply,
    report_planet_work, state_get_planet, decrease_reward_remain, offer_reward, set_planet_reward,
    increase_eco_reward, increment_working_planet, transfer, add_balance, emit.

Lemma exec_xview v from c : keeps (fun w => xview w = v) (exec from c).
Proof. destruct c; kunf; kx. Qed.
Lemma exec_start from c w u w' : exec from c w = (Ok u, w') ->
  issue_start w' = issue_start w \/ (is_issue_started (height w) (issue_start w) = false /\ height w < issue_start w').
Proof.
  intros H. destruct c.
  2:{ cbn [exec] in H. hbind H q w1 H1. unfold check_governance in H1. hbind H1 g w2 H2. hstep H2.
      destruct (addr_eqb _ _); hstep H1. hbind H cur w1 H1. hstep H1.
      destruct (_ <=? _); [hstep H|]. unfold state_set_issue_start in H. destruct (_ || _) eqn:O; [hstep H|].
      hbind H st w1 H1. hstep H1. destruct (is_issue_started _ _) eqn:S0; [hstep H|]. hstep H. right.
      split; [auto|]. cbn. lia. }
  all: left; revert H; match goal with |- exec _ ?c _ = _ -> _ =>
         assert (K : keeps (fun z => issue_start z = issue_start w) (exec from c)) by (kunf; kx) end;
       intros H; eapply K; [reflexivity | exact H].
Qed.
Lemma exec_term from c w u w' : exec from c w = (Ok u, w') -> current_term w' = current_term w.
Proof.
  intros H. pose proof (exec_xview _ _ _ _ _ _ eq_refl H) as V. injection V as V1 V2 V3 V4 V5 V6 V7 V8 V9 V10.
  apply exec_start in H as [H | [H1 H2]]; unfold current_term, get_term_period; rewrite V1, V5.
  - rewrite H. reflexivity.
  - rewrite started_iff in H1. rewrite H1. assert (E : issue_start w' <=? height w = false) by lia.
    rewrite E, andb_false_r. reflexivity.
Qed.

Definition quiet (c : call) : Prop :=
  match c with
  | RegisterPlanet _ _ _ _ _ _ | UnregisterPlanet _ | SetPlanetOwner _ _ | ReportPlanetWork _ | ClaimPlanetReward _ => False
  | _ => True
  end.
Lemma exec_quiet v from c : quiet c -> keeps (fun w => (pview w, rewards w, oview w) = v) (exec from c).
Proof. intros q. destruct c; try contradiction q; kunf; kx. Qed.
Lemma claim_quiet v from ids : keeps (fun w => (pview w, oview w) = v) (claim_planet_reward from ids).
Proof. kx. Qed.
Lemma claim_last w from ids : keeps (fun z => forall id,
    pr_last_tn (reward_of z id) = pr_last_tn (reward_of w id) /\ pr_total (reward_of z id) = pr_total (reward_of w id))
  (claim_planet_reward from ids).
Proof.
  apply claim_keeps. intros ts l. apply claim_loop_keeps.
  - intros z b e K [-> | [? ->]]; exact K.
  - intros z id x K. exact K.
  - intros z id pr K T L i. unfold reward_of at 1 3. cbn [rewards set_rewards]. destruct (Z.eq_dec i id) as [-> | ne].
    + rewrite upd_same. specialize (K id). rewrite L, T. auto.
    + rewrite upd_other by auto. apply K.
Qed.
Lemma transfer_quiet v from to x : keeps (fun w => (xview w, issue_start w, pview w, rewards w, oview w) = v) (transfer from to x).
Proof. unfold transfer, add_balance, emit. ks. Qed.
