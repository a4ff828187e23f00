(** Nothing gets stuck: the first block of a term is executable with the scheduled amount, and an entitled planet
    can always report. *)
From Verif Require Import Model.HvhState Model.HvhExt Spec.HvhSpec Proof.HvhFacts Proof.HvhSupply Proof.HvhTreasury
  Proof.HvhTerms Proof.HvhIssue Proof.HvhRewards.
From Coq Require Import ZArith List Bool Lia ZifyBool.
Import ListNotations.
Open Scope Z_scope.

Lemma transfer_ok from to x w : (forall a, 0 <= bal w a) -> 0 <= x <= bal w (a_id from) ->
  exists w', transfer from to x w = (Ok tt, w').
Proof.
  intros nn b. destruct (transfer from to x w) as [[[]|e] w'] eqn:T; [eauto|].
  apply transfer_er in T as [_ T]; [lia | auto].
Qed.
Lemma increase_ok g s x w : exists w', increase_var g s x w = (Ok tt, w') /\ (w' = w \/ w' = s (g w + x) w).
Proof. unfold increase_var, ret, put. destruct (x <=? 0); eauto. Qed.

Definition good (w : world) : Prop := cov 0 w.
(** The quantities a term change looks at. *)
Definition tv (w : world) := (reward_view w, fixed w, issue_amount w, supply w).

Lemma transfer_tv v from to x : keeps (fun w => tv w = v) (transfer from to x).
Proof. unfold transfer, add_balance, emit. ks. Qed.

Lemma eco_ok w : good w -> exists w', transfer_eco_reward w = (Ok tt, w') /\ good w' /\ tv w' = tv w.
Proof.
  intros c. assert (cc := c). destruct cc as (nn & r & e & l & pc & t & o).
  unfold transfer_eco_reward, claim_eco_reward. erewrite bind_eq.
  2:{ erewrite bind_eq by reflexivity. destruct (eco_reward w <? 0) eqn:N; [lia|].
      assert (exists w1, when (0 <? eco_reward w) (put (set_eco_reward 0)) w = (Ok tt, w1) /\ w1 = set_eco_reward 0 w) as (w1 & E & ->).
      { unfold when, put, ret. destruct (0 <? eco_reward w) eqn:P; [eauto|]. exists w. split; [auto|].
        replace 0 with (eco_reward w) by lia. symmetry. apply eta_eco. }
      erewrite bind_eq by exact E. reflexivity. }
  assert (ce : cov (0 + eco_reward w) (set_eco_reward 0 w)).
  { unfold cov. do 2 (split; [assumption|]). split; [cbn; lia|]. do 3 (split; [assumption|]). intros ids nd. specialize (o ids nd).
    unfold owed in *. cbn [reward_remain eco_reward lost bal set_eco_reward].
    change (fun id => pr_current (reward_of (set_eco_reward 0 w) id)) with (fun id => pr_current (reward_of w id)). lia. }
  destruct (transfer_ok PublicTreasury EcoSystem (eco_reward w) (set_eco_reward 0 w)) as [w' T].
  - apply (cov_nn _ _ ce).
  - apply cov_pt in ce. unfold PT in ce. lia.
  - exists w'. split; [exact T|]. split.
    + eapply transfer_pt_cov in T; [|exact ce]. eapply cov_weaken; [exact T | lia].
    + apply (transfer_tv (tv w)) in T; [exact T | reflexivity].
Qed.

Lemma fee_ok from w : a_id from <> PT -> good w ->
  exists s w', distribute_fee from w = (Ok s, w') /\ good w' /\ tv w' = tv w.
Proof.
  intros ne c. unfold distribute_fee. erewrite bind_eq by reflexivity. unfold balance.
  destruct (0 <? bal w (a_id from)) eqn:P; [|exists 0, w; auto].
  unfold EcoFeeNum, EcoFeeDenom. set (b := bal w (a_id from)) in *. set (eco := b * 1 / 5).
  assert (0 <= eco <= b) by (subst eco; pose proof (Z.div_mod (b * 1) 5); pose proof (Z.mod_pos_bound (b * 1) 5); lia).
  destruct (transfer_ok from SustainableFund (b - eco) w (cov_nn _ _ c)) as [w1 T1]; [lia|].
  erewrite bind_eq by exact T1.
  assert (c1 : good w1) by (eapply transfer_cov; eauto).
  assert (B1 : eco <= bal w1 (a_id from)).
  { apply transfer_inv in T1 as [_ [[-> _] | (le & ne' & ->)]]; [lia|]. unfold moved. cbn [bal set_log set_bal].
    unfold upd. destruct (Z.eqb_spec (a_id from) (a_id SustainableFund)) as [E|E].
    - rewrite <- E. rewrite Z.eqb_refl. lia.
    - rewrite Z.eqb_refl. fold b. lia. }
  destruct (transfer_ok from EcoSystem eco w1 (cov_nn _ _ c1)) as [w2 T2]; [lia|].
  erewrite bind_eq by exact T2. exists (b - eco), w2. split; [reflexivity|]. split; [eapply transfer_cov; eauto|].
  apply (transfer_tv (tv w)) in T1; [|auto]. apply (transfer_tv (tv w)) in T2; [exact T2 | exact T1].
Qed.

Lemma tx_fee_ok w : good w -> exists w', distribute_tx_fee w = (Ok tt, w') /\ good w' /\ tv w' = tv w.
Proof.
  intros c. unfold distribute_tx_fee. erewrite bind_eq by reflexivity.
  destruct (fee_ok (treasury w) w) as (s & w1 & F & c1 & E1); [apply c | auto|]. erewrite bind_eq by exact F.
  destruct (increase_ok sf_tx_fee set_sf_tx_fee s w1) as (w2 & I2 & [-> | ->]); eexists; (split; [exact I2|]); split; [exact c1 | exact E1 | exact c1 | exact E1].
Qed.
Lemma service_fee_ok w : good w -> exists w', distribute_service_fee w = (Ok tt, w') /\ good w' /\ tv w' = tv w.
Proof.
  intros c. unfold distribute_service_fee.
  destruct (fee_ok ServiceTreasury w) as (s & w1 & F & c1 & E1); [discriminate | auto|]. erewrite bind_eq by exact F.
  destruct (increase_ok sf_service_fee set_sf_service_fee s w1) as (w2 & I2 & [-> | ->]); eexists; (split; [exact I2|]); split; [exact c1 | exact E1 | exact c1 | exact E1].
Qed.

Lemma missed_ok w : good w -> 0 <= missed_of w <= reward_remain w ->
  exists w', transfer_missed_reward w = (Ok tt, w') /\ good w' /\ fixed w' = fixed w /\ issue_amount w' = issue_amount w /\ supply w' = supply w.
Proof.
  intros c m. unfold transfer_missed_reward.
  assert (C : claim_missed_reward w = (Ok (missed_of w), set_reward_remain (reward_remain w - missed_of w) w)).
  { unfold claim_missed_reward. erewrite bind_eq by reflexivity. fold (missed_of w). cbv zeta.
    destruct (reward_remain w - missed_of w <? 0) eqn:N; [lia | reflexivity]. }
  erewrite bind_eq by exact C. erewrite bind_eq by reflexivity.
  set (w1 := set_reward_remain _ w).
  assert (cm : cov (0 + missed_of w) w1).
  { destruct c as (nn & r & e & l & c3 & t & o). unfold cov. split; [assumption|]. split; [cbn; lia|].
    do 4 (split; [assumption|]). intros ids nd. specialize (o ids nd).
    unfold owed in *. subst w1. cbn [reward_remain eco_reward lost bal set_reward_remain].
    change (fun id => pr_current (reward_of (set_reward_remain (reward_remain w - missed_of w) w) id))
      with (fun id => pr_current (reward_of w id)). lia. }
  pose proof (cov_pt _ _ cm) as PB. unfold balance. fold PT.
  destruct (bal w1 PT <? missed_of w) eqn:B; [lia|].
  destruct (transfer_ok PublicTreasury SustainableFund (missed_of w) w1 (cov_nn _ _ cm)) as [w2 T]; [unfold PT in *; lia|].
  erewrite bind_eq by exact T.
  assert (c2 : good w2) by (eapply transfer_pt_cov in T; [|exact cm]; eapply cov_weaken; [exact T | lia]).
  apply (transfer_tv (tv w1)) in T; [|auto]. unfold tv in T.
  assert (F2 : fixed w2 = fixed w1 /\ issue_amount w2 = issue_amount w1 /\ supply w2 = supply w1) by (repeat split; congruence).
  destruct F2 as (F2 & F3 & F4).
  destruct (increase_ok sf_missing set_sf_missing (missed_of w) w2) as (w3 & I3 & [-> | ->]); eexists; (split; [exact I3|]);
    (split; [exact c2|]); (split; [exact F2|]); split; [exact F3 | exact F4 | exact F3 | exact F4].
Qed.

Lemma refill_ok w : good w ->
  exists w', refill_hoover_fund w = (Ok tt, w') /\ good w' /\ fixed w' = fixed w /\ issue_amount w' = issue_amount w /\ supply w' = supply w.
Proof.
  intros c. unfold refill_hoover_fund. erewrite bind_eq by reflexivity. erewrite bind_eq by reflexivity. unfold balance.
  destruct (0 <? get_hoover_budget w - bal w (a_id HooverFund)) eqn:P; [|exists w; auto].
  erewrite bind_eq by reflexivity. set (need := get_hoover_budget w - _) in *. set (am := if _ <? need then _ else _).
  assert (0 <= am <= bal w (a_id SustainableFund)).
  { pose proof (cov_nn _ _ c (a_id SustainableFund)). subst am. destruct (bal w (a_id SustainableFund) <? need) eqn:E; lia. }
  destruct (transfer_ok SustainableFund HooverFund am w (cov_nn _ _ c)) as [w1 T]; [lia|].
  erewrite bind_eq by exact T.
  assert (c1 : good w1) by (eapply transfer_cov in T; [exact T | discriminate | exact c]).
  apply (transfer_tv (tv w)) in T; [|auto]. unfold tv in T.
  assert (F2 : fixed w1 = fixed w /\ issue_amount w1 = issue_amount w /\ supply w1 = supply w) by (repeat split; congruence).
  destruct F2 as (F2 & F3 & F4).
  destruct (increase_ok sf_refill set_sf_refill am w1) as (w2 & I2 & K). erewrite bind_eq by exact I2.
  erewrite bind_eq by reflexivity. erewrite bind_eq by reflexivity. eexists. split; [reflexivity|].
  destruct K as [-> | ->]; (split; [exact c1|]); (split; [exact F2|]); split; [exact F3 | exact F4 | exact F3 | exact F4].
Qed.

Lemma on_term_end_ok w : good w -> 0 <= missed_of w <= reward_remain w ->
  exists w', on_term_end w = (Ok tt, w') /\ good w' /\ fixed w' = fixed w /\ issue_amount w' = issue_amount w /\ supply w' = supply w.
Proof.
  intros c m. unfold on_term_end.
  destruct (eco_ok w c) as (w1 & E1 & c1 & V1). erewrite bind_eq by exact E1.
  destruct (tx_fee_ok w1 c1) as (w2 & E2 & c2 & V2). erewrite bind_eq by exact E2.
  destruct (service_fee_ok w2 c2) as (w3 & E3 & c3 & V3). erewrite bind_eq by exact E3.
  assert (V : tv w3 = tv w) by congruence. unfold tv in V.
  assert (M3 : missed_of w3 = missed_of w /\ reward_remain w3 = reward_remain w).
  { assert (R : reward_view w3 = reward_view w) by congruence. unfold reward_view in R. injection R as R1 R2 R3 R4.
    unfold missed_of. rewrite R1, R2, R3. auto. }
  destruct M3 as [M3 M4].
  destruct (missed_ok w3 c3) as (w4 & E4 & c4 & F4 & A4 & S4); [lia|]. erewrite bind_eq by exact E4.
  destruct (refill_ok w4 c4) as (w5 & E5 & c5 & F5 & A5 & S5). erewrite bind_eq by exact E5.
  unfold state_on_term_end. erewrite bind_eq by reflexivity. erewrite bind_eq by reflexivity.
  eexists. split; [reflexivity|]. split; [exact c5|].
  assert (X : fixed w5 = fixed w /\ issue_amount w5 = issue_amount w /\ supply w5 = supply w) by (repeat split; congruence).
  exact X.
Qed.

Lemma on_term_start_ok ts w : good w -> 0 <= supply w -> 0 <= fst (issue_amount_by_ts w ts) ->
  exists w', on_term_start ts (fst (issue_amount_by_ts w ts)) w = (Ok tt, w').
Proof.
  intros c s a. unfold on_term_start. erewrite bind_eq by reflexivity.
  set (x := fst _) in *.
  assert (exists w1, when (snd (issue_amount_by_ts w ts)) (put (set_issue_amount (Some x))) w = (Ok tt, w1) /\
            supply w1 = supply w /\ bal w1 = bal w) as (w1 & E1 & S1 & B1).
  { unfold when, put, ret. destruct (snd _); eexists; (split; [reflexivity|]); auto. }
  erewrite bind_eq by exact E1. rewrite Z.eqb_refl. cbn [negb].
  assert (exists s2 w2, issue PublicTreasury x w1 = (Ok s2, w2)) as (s2 & w2 & E2).
  { unfold issue. destruct (x <? 0) eqn:N; [lia|]. destruct (0 <? x) eqn:P; [|eexists _, _; reflexivity].
    unfold add_total_supply, bind, get, put, ret. destruct (supply w1 + x <? 0) eqn:Q; [lia|].
    unfold deposit. rewrite N. destruct (x =? 0) eqn:Z0; [lia|].
    rewrite add_balance_total; [eexists _, _; reflexivity|]. cbn [bal set_supply]. rewrite B1. pose proof (cov_nn _ _ c (a_id PublicTreasury)). lia. }
  assert (E3 : exists w3, issue_coin ts x w1 = (Ok tt, w3)).
  { unfold issue_coin. erewrite bind_eq by exact E2. eexists. reflexivity. }
  destruct E3 as [w3 E3]. erewrite bind_eq by exact E3.
  assert (E4 : exists w4, state_on_term_start x w3 = (Ok tt, w4)).
  { unfold state_on_term_start. repeat (erewrite bind_eq by reflexivity). eexists. reflexivity. }
  destruct E4 as [w4 E4]. erewrite bind_eq by exact E4. erewrite bind_eq by reflexivity.
  unfold when. destruct (_ <=? _); eexists; reflexivity.
Qed.

(** The amount an honest proposer writes. *)
Definition honest (w : world) : Z := fst (issue_amount_by_ts w (current_term w)).

Lemma rpp_bounds w : 0 <= reward_total w -> 0 <= active_planet w ->
  0 <= reward_per_planet w /\ reward_per_planet w * active_planet w <= reward_total w.
Proof.
  intros t a. unfold reward_per_planet. destruct (0 <? active_planet w) eqn:P; [|lia].
  pose proof (Z.div_pos (reward_total w) (active_planet w)). pose proof (Z.mul_div_le (reward_total w) (active_planet w)). nia.
Qed.
Lemma missed_bounds w : budget w -> room w -> 0 <= current_term w < get_issue_limit w ->
  0 <= missed_of w <= reward_remain w.
Proof.
  intros (b1 & b2 & b3 & _ & b5 & _) (_ & _ & l & _ & rm) c. specialize (b5 c). specialize (rm c).
  pose proof (count_le (eligible w) l). pose proof (rpp_bounds w b3 b1) as [r1 r2].
  unfold missed_of, reward_per_planet in *. destruct (0 <? active_planet w) eqn:P; [|nia].
  set (q := reward_total w / active_planet w) in *. nia.
Qed.

Lemma history_supply w0 w : genesis w0 -> history w0 w -> 0 <= supply w.
Proof.
  intros g h. destruct (history_money w0 w g h) as (nn & (l & nd & out & sm) & _).
  assert (0 <= sum_over (bal w) l); [|lia]. clear - nn. induction l as [|x r IH]; cbn [sum_over]; [lia|]. pose proof (nn x). lia.
Qed.

Lemma history_amount w0 w : genesis w0 -> history w0 w -> 0 <= big_or (issue_amount w) InitIssueAmount.
Proof.
  intros g h. destruct (history_issue w0 w g h) as (_ & _ & A). rewrite A. apply scheduled_nonneg.
  destruct g as (_ & _ & _ & _ & _ & _ & _ & _ & _ & _ & _ & _ & _ & _ & _ & q & _). exact q.
Qed.
Lemma amount_nonneg w ts : 0 <= big_or (issue_amount w) InitIssueAmount -> 0 <= fst (issue_amount_by_ts w ts).
Proof.
  intros a. unfold issue_amount_by_ts. cbv zeta. destruct (_ && _); [|exact a]. destruct (0 <? _); [|exact a]. cbn [fst].
  pose proof (reduced_nonneg _ a). unfold reduced, ReductionNum, ReductionDenom in *. lia.
Qed.

(** No reachable block is stuck: with the honest amount its first transaction succeeds. *)
Lemma base_ok w0 w rev : genesis w0 -> history w0 w -> boundary (next_block rev w) = true ->
  exists w', base_of_term (current_term (next_block rev w)) (honest (next_block rev w)) (next_block rev w) = (Ok tt, w').
Proof.
  intros g h Bd. pose proof (history_cov w0 w g h) as cv. pose proof (history_rewards w0 w g h) as (b & r & _).
  pose proof (history_supply w0 w g h) as sp. pose proof (history_amount w0 w g h) as am.
  pose proof (next_term rev w) as NT. rewrite Bd in NT. pose proof (current_ge w).
  set (w1 := next_block rev w) in *. assert (c1 : good w1) by exact cv.
  assert (s1 : supply w1 = supply w) by reflexivity. assert (a1 : issue_amount w1 = issue_amount w) by reflexivity.
  assert (L1 : get_issue_limit w1 = get_issue_limit w) by reflexivity.
  assert (M : missed_of w1 = missed_of w /\ reward_remain w1 = reward_remain w) by (split; reflexivity). destruct M as [M1 M2].
  clearbody w1. unfold base_of_term.
  assert (E : exists w2, when ((0 <? current_term w1) && (current_term w1 <=? get_issue_limit w1)) on_term_end w1 = (Ok tt, w2) /\
                good w2 /\ issue_amount w2 = issue_amount w1 /\ supply w2 = supply w1 /\ fixed w2 = fixed w1).
  { unfold when. destruct (_ && _) eqn:K; [|exists w1; auto].
    destruct (on_term_end_ok w1 c1) as (w2 & E & c2 & F & A & S2).
    - rewrite M1, M2. apply missed_bounds; [auto | auto | lia].
    - exists w2. auto. }
  destruct E as (w2 & E & c2 & A2 & S2 & F2). erewrite bind_eq by exact E.
  unfold when. destruct (current_term w1 <? get_issue_limit w1); [|eexists; reflexivity].
  assert (HH : honest w1 = fst (issue_amount_by_ts w2 (current_term w1))).
  { unfold honest, issue_amount_by_ts. rewrite A2. unfold get_reduction_cycle, fixed in *. 
    assert (R : reduction_cycle w2 = reduction_cycle w1) by congruence. rewrite R. reflexivity. }
  rewrite HH. apply on_term_start_ok; [auto | lia | apply amount_nonneg; rewrite A2, a1; exact am].
Qed.

(** ** An entitled planet can report *)
Lemma report_ok w id p :
  cov 0 w -> budget w -> room w ->
  0 <= current_term w -> 0 <= id -> planets w id = Some p -> p_height p < term_begin w ->
  pr_last_tn (reward_of w id) < current_term w + 1 ->
  exists w', report_planet_work id w = (Ok tt, w').
Proof.
  intros cv b r ct i0 P PH LT. unfold report_planet_work.
  erewrite bind_eq by reflexivity. erewrite bind_eq by reflexivity.
  assert (St : is_issue_started (height w) (issue_start w) = true) by (rewrite current_started_iff; lia).
  rewrite St. cbn [negb].
  assert (GP : state_get_planet id w = (Ok p, w)).
  { unfold state_get_planet. destruct (id <? 0) eqn:N; [lia|]. erewrite bind_eq by reflexivity. rewrite P. reflexivity. }
  erewrite bind_eq by exact GP. erewrite bind_eq by reflexivity. rewrite quot_current by auto.
  unfold term_begin in PH. destruct (_ <=? p_height p) eqn:PH'; [lia|]. erewrite bind_eq by reflexivity.
  destruct (_ <=? pr_last_tn _) eqn:LT'; [lia|]. erewrite bind_eq by reflexivity.
  destruct b as (b1 & b2 & b3 & b4 & b5 & b6). pose proof (rpp_bounds w b3 b1) as [r1 r2].
  assert (RR : reward_per_planet w = 0 \/ reward_per_planet w <= reward_remain w).
  { destruct (Z_lt_le_dec (current_term w) (get_issue_limit w)) as [K|K].
    - right. specialize (b5 ltac:(lia)). destruct r as (_ & _ & l & (nd & rg & len) & rm). specialize (rm ltac:(lia)).
      assert (E : eligible w id = true) by (unfold eligible, term_begin; rewrite P; lia).
      assert (1 <= count (eligible w) l).
      { assert (il : In id (filter (eligible w) l)) by (apply filter_In; split; [apply rg; congruence | auto]).
        unfold count. destruct (filter (eligible w) l); [destruct il | cbn [length]; lia]. }
      nia.
    - left. unfold reward_per_planet. rewrite (b6 K). reflexivity. }
  assert (D : decrease_reward_remain (reward_per_planet w) w = (Ok tt, set_reward_remain (reward_remain w - reward_per_planet w) w)).
  { unfold decrease_reward_remain. destruct (reward_per_planet w <? 0) eqn:N; [lia|]. destruct (reward_per_planet w =? 0) eqn:Z0.
    - replace (reward_remain w - reward_per_planet w) with (reward_remain w) by lia. rewrite eta_remain. reflexivity.
    - erewrite bind_eq by reflexivity. destruct (_ - _ <? 0) eqn:Q; [lia | reflexivity]. }
  erewrite bind_eq by exact D. erewrite bind_eq by reflexivity.
  set (w1 := set_reward_remain _ w).
  set (q := if 0 <? hoover_limit _ _ _ then _ else _).
  change (subsidy w1 p (reward_of w id) (reward_per_planet w)) with q in *.
  assert (Q0 : 0 <= q <= bal w1 (a_id HooverFund)).
  { apply (subsidy_bounds w1 p (reward_of w id) (reward_per_planet w)). apply (cov_nn _ _ cv). }
  destruct (transfer_ok HooverFund PublicTreasury q w1) as [w2 T]; [apply (cov_nn _ _ cv) | exact Q0|].
  cbv zeta. erewrite bind_eq by exact T.
  assert (OF : forall a t, 0 <= a -> 0 <= t -> exists w3, offer_reward (current_term w + 1) id (reward_of w id) a t w2 = (Ok tt, w3)).
  { intros a t na nt. unfold offer_reward, reward_increment. destruct ((a <? 0) || (t <? 0)) eqn:N; [lia|].
    destruct (current_term w + 1 <=? pr_last_tn (reward_of w id)) eqn:N2; [lia|]. cbn [lift]. erewrite bind_eq by reflexivity. eexists. reflexivity. }
  match goal with |- context [bind ?m _] => assert (E3 : exists w3, m w2 = (Ok tt, w3)) end.
  { unfold EcoCompanyNum, EcoCompanyDenom. set (f := reward_per_planet w + q). destruct (p_company p).
    - assert (0 <= f) by (subst f; lia). pose proof (Z.div_mod (f * 3) 5). pose proof (Z.mod_pos_bound (f * 3) 5).
      destruct (OF (f - f * 3 / 5) f) as [w3 E]; [lia | lia|]. erewrite bind_eq by exact E. eexists. reflexivity.
    - destruct (OF f f) as [w3 E]; [subst f; lia | subst f; lia|]. eauto. }
  destruct E3 as [w3 E3]. erewrite bind_eq by exact E3. erewrite bind_eq by reflexivity. eexists. reflexivity.
Qed.
