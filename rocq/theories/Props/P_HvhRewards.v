(** C34, C35, C37: planet rewards. *)
From Verif Require Import Model.HvhState Model.HvhExt Spec.HvhSpec Spec.HvhSample Proof.HvhFacts Proof.HvhSupply Proof.HvhTreasury
  Proof.HvhTerms Proof.HvhIssue Proof.HvhRewards Proof.HvhLive Proof.HvhClaims Proof.HvhClaims2 Proof.HvhRun.
From Coq Require Import ZArith List Bool Lia ZifyBool.
Import ListNotations.
Open Scope Z_scope.

(** * C34 *)
(** In every history: the reward treasury holds at least the undistributed rest, the EcoSystem's share, the lost
    rewards and the unclaimed rewards of any planets, and none of these is negative. *)
Theorem C34_backed w0 w ids : genesis w0 -> history w0 w -> NoDup ids ->
  reward_remain w + eco_reward w + lost w + sum_over (fun id => pr_current (reward_of w id)) ids <= balance w PublicTreasury /\
  0 <= reward_remain w /\ 0 <= eco_reward w /\ 0 <= lost w /\
  forall id, 0 <= pr_current (reward_of w id) <= pr_total (reward_of w id).
Proof.
  intros g h nd. destruct (history_cov w0 w g h) as (_ & r & e & l & c & _ & o). specialize (o ids nd). unfold owed, balance, PT in *.
  repeat (split; [first [assumption | lia]|]). assumption.
Qed.
Print Assumptions C34_backed.

(** A claim pays out exactly what it takes from the records: over any planets that include the named ones, the
    claimer's balance grows by what their unclaimed rewards lose, the treasury pays it, and the record of a planet
    that the claimer does not own, or that is not named, is untouched. *)
Theorem C34_claim_paid w0 w from ids l u w' :
  genesis w0 -> history w0 w -> a_id from <> a_id PublicTreasury -> NoDup l -> (forall id, In id ids -> In (int64 id) l) ->
  exec from (ClaimPlanetReward ids) w = (Ok u, w') ->
  let unclaimed w := sum_over (fun id => pr_current (reward_of w id)) l in
  balance w' from - balance w from = unclaimed w - unclaimed w' /\
  balance w PublicTreasury - balance w' PublicTreasury = unclaimed w - unclaimed w' /\
  (forall id, ~ In id (map int64 ids) -> rewards w' id = rewards w id) /\
  (forall id p, planets w id = Some p -> p_owner p <> from -> rewards w' id = rewards w id).
Proof.
  intros g h ne nd sub H. cbn [exec] in H. pose proof (history_cov w0 w g h) as cv.
  assert (IN : forall i, In i (map int64 ids) -> In i l).
  { intros i Hi. apply in_map_iff in Hi as (x & <- & Hx). auto. }
  destruct (claims_paid w from l _ u w' cv nd ne IN H) as (_ & _ & B1 & B2 & R1 & R2).
  unfold unclaimed, PT in *. cbv zeta. unfold balance. repeat split; try lia.
  - intros id n. 
    destruct (claims_paid w from (nodup Z.eq_dec (map int64 ids)) _ u w' cv (NoDup_nodup _ _) ne ltac:(intros i Hi; apply nodup_In; exact Hi) H)
      as (_ & _ & _ & _ & R & _). apply R. intros Hi. apply nodup_In in Hi. auto.
  - intros id p P O. apply R2. intros q Q. assert (p = q) by congruence. subst q.
    destruct (addr_eqb from (p_owner p)) eqn:E; [|reflexivity]. apply addr_eqb_true in E. congruence.
Qed.
Print Assumptions C34_claim_paid.

(** A claim of at most 50 planets is accepted whenever issuing has begun; one naming more is refused. *)
Theorem C34_claim_accepted w0 w from ids : genesis w0 -> history w0 w ->
  (exists w', exec from (ClaimPlanetReward ids) w = (Ok tt, w')) <-> Z.of_nat (length ids) <= 50 /\ 0 <= current_term w.
Proof.
  intros g h. cbn [exec]. unfold claim_planet_reward. rewrite map_length. unfold MaxCountToClaim.
  destruct (50 <? _) eqn:L. { split; [intros [w' E]; hstep E | lia]. }
  erewrite bind_eq by reflexivity. rewrite current_started_iff. destruct (0 <=? current_term w) eqn:C; cbn [negb].
  - split; [lia|]. intros _.
    assert (G : forall ts l v, exists v', claim_loop ts from l v = (Ok tt, v')).
    { intros ts l. induction l as [|i r IH]; intros v; cbn [claim_loop]; [eexists; reflexivity|].
      destruct (state_claim_planet_reward i from v) as [[c|e] v1]; [|apply IH]. destruct (0 <? c); [|apply IH].
      destruct (transfer _ _ _ v1) as [[x|e] v2]; [|eauto]. erewrite bind_eq by reflexivity. apply IH. }
    apply G.
  - split; [intros [w' E]; hstep E | lia].
Qed.
Print Assumptions C34_claim_accepted.

(** * C35 *)
(** In every history no planet identifier is rewarded twice in one term. *)
Theorem C35_once w0 w term id : genesis w0 -> history w0 w -> (length (offers (log w) term id) <= 1)%nat.
Proof. intros g h. destruct (history_rewards w0 w g h) as (_ & _ & o). apply o. Qed.
Print Assumptions C35_once.

(** What one accepted report does, in full. *)
Theorem C35_credit w0 w from id u w' : genesis w0 -> history w0 w ->
  exec from (ReportPlanetWork id) w = (Ok u, w') ->
  exists p, planets w (int64 id) = Some p /\
    let pr := reward_of w (int64 id) in
    let q := hoover_pays p (pr_total pr) (share w) (active_usdt_price w) (balance w HooverFund) in
    let full := share w + q in
    reward_of w' (int64 id) =
      mkReward (pr_total pr + full) (current_term w + 1) (pr_current pr + full - eco_part (p_company p) full) /\
    (forall i, i <> int64 id -> rewards w' i = rewards w i) /\
    eco_reward w' = eco_reward w + eco_part (p_company p) full /\
    reward_remain w' = reward_remain w - share w /\
    working_planet w' = working_planet w + 1 /\
    balance w' HooverFund = balance w HooverFund - q /\
    balance w' PublicTreasury = balance w PublicTreasury + q /\
    (forall a, a <> a_id HooverFund -> a <> a_id PublicTreasury -> bal w' a = bal w a) /\
    supply w' = supply w /\ planets w' = planets w /\ reward_total w' = reward_total w /\ lost w' = lost w /\
    log w' = EvOffered (current_term w) (int64 id) full q :: (if 0 <? q then [EvTransfer HooverFund PublicTreasury q] else []) ++ log w.
Proof.
  intros g h H. apply report_exec in H as [_ H]. apply report_inv in H as (p & w2 & H). cbv zeta in H.
  destruct H as (st & i0 & P & ph & lt & r0 & rr & T & n1 & n2 & ->).
  rewrite quot_current in * by auto. exists p. split; [exact P|]. cbv zeta.
  pose proof (history_cov w0 w g h) as cv. assert (nn := cov_nn _ _ cv).
  change (share w) with (reward_per_planet w).
  set (r := reward_per_planet w) in *. set (pr := reward_of w (int64 id)) in *.
  set (w1 := set_reward_remain (reward_remain w - r) w) in *.
  assert (Q : subsidy w1 p pr r = hoover_pays p (pr_total pr) r (active_usdt_price w) (balance w HooverFund)).
  { unfold subsidy, hoover_subsidy, hoover_pays, hoover_limit, guided. change (balance w1 HooverFund) with (balance w HooverFund).
    unfold hoover_guide. change USDTDecimal with 1000000. change DayPerYear with 360. change (active_usdt_price w1) with (active_usdt_price w).
    pose proof (nn (a_id HooverFund)) as n0. change (bal w (a_id HooverFund)) with (balance w HooverFund) in n0. cbv zeta.
    set (li := p_price p - pr_total pr - r). set (gu := p_usdt p * active_usdt_price w / 1000000 / 10 / 360). set (b := balance w HooverFund) in *.
    clearbody li gu b r.
    destruct (0 <? li) eqn:E1; [|lia]. destruct (r <? gu) eqn:E2; [|lia]. destruct (0 <? b) eqn:E3; [|lia].
    destruct (li <? gu - r) eqn:E4; [destruct (b <? li) eqn:E5 | destruct (b <? gu - r) eqn:E5]; lia. }
  rewrite Q in *. set (q := hoover_pays _ _ _ _ _) in *. set (full := r + q) in *. clearbody q.
  assert (OW : full - own_part p full = eco_part (p_company p) full).
  { unfold own_part, eco_part, EcoCompanyNum, EcoCompanyDenom. destruct (p_company p); lia. }
  unfold reported.
  cbn [reward_of rewards log working_planet eco_reward reward_remain bal balance supply planets reward_total lost set_log set_working_planet set_eco_reward set_rewards].
  replace (own_part p full) with (full - eco_part (p_company p) full) in * by lia.
  rewrite OW. apply transfer_inv in T as [q0 T]. 
  assert (F : rewards w2 = rewards w /\ eco_reward w2 = eco_reward w /\ reward_remain w2 = reward_remain w - r /\
    working_planet w2 = working_planet w /\ supply w2 = supply w /\ planets w2 = planets w /\ reward_total w2 = reward_total w /\ lost w2 = lost w /\
    (forall a, bal w2 a = if a =? a_id HooverFund then bal w a - q else if a =? a_id PublicTreasury then bal w a + q else bal w a) /\
    log w2 = (if 0 <? q then [EvTransfer HooverFund PublicTreasury q] else []) ++ log w).
  { destruct T as [[-> [Z0 | Z0]] | (le & _ & ->)]; [| discriminate Z0 |].
    - repeat (split; [reflexivity|]). split; [|assert (0 <? q = false) as -> by lia; reflexivity].
      intros a. cbn [bal set_reward_remain w1]. rewrite Z0. rewrite Z.sub_0_r, Z.add_0_r. destruct (a =? _); [auto|]. destruct (a =? _); auto.
    - unfold moved. repeat (split; [reflexivity|]). split; [|assert (0 <? q = true) as -> by lia; reflexivity].
      intros a. cbn [bal set_log set_bal]. change (bal w1) with (bal w). unfold upd at 1.
      destruct (Z.eqb_spec a (a_id PublicTreasury)) as [-> | n].
      + change (a_id PublicTreasury =? a_id HooverFund) with false. cbv iota. rewrite upd_other by discriminate. reflexivity.
      + unfold upd. destruct (Z.eqb_spec a (a_id HooverFund)) as [-> |]; lia. }
  destruct F as (F1 & F2 & F3 & F4 & F5 & F6 & F7 & F8 & F9 & F10). rewrite F1, F2, F3, F4, F5, F6, F7, F8, F10.
  split. { unfold reward_of. cbn [rewards set_log set_working_planet set_eco_reward set_rewards]. rewrite upd_same. f_equal. lia. }
  split. { intros i ni. rewrite upd_other by auto. reflexivity. }
  do 3 (split; [reflexivity|]). unfold balance. cbn [bal set_log set_working_planet set_eco_reward set_rewards].
  split. { rewrite F9. rewrite Z.eqb_refl. reflexivity. }
  split. { rewrite F9. change (a_id PublicTreasury =? a_id HooverFund) with false. rewrite Z.eqb_refl. reflexivity. }
  split. { intros a na nb. rewrite F9. destruct (Z.eqb_spec a (a_id HooverFund)); [contradiction|]. destruct (Z.eqb_spec a (a_id PublicTreasury)); [contradiction | reflexivity]. }
  repeat split; reflexivity.
Qed.
Print Assumptions C35_credit.

(** A report is accepted exactly when its sender is a manager, issuing has begun, the planet is registered, was so
    before the term began, and was not yet rewarded in the term: there is always enough left to share. *)
Theorem C35_accepted w0 w from id : genesis w0 -> history w0 w ->
  ((exists w', exec from (ReportPlanetWork id) w = (Ok tt, w')) <->
   In from (managers w) /\ 0 <= current_term w /\ 0 <= int64 id /\
   exists p, planets w (int64 id) = Some p /\ p_height p < term_start w /\
     pr_last_tn (reward_of w (int64 id)) <= current_term w).
Proof.
  intros g h. 
  assert (M : state_is_manager w from = true <-> In from (managers w)).
  { unfold state_is_manager. rewrite existsb_exists. split.
    - intros (x & i & e). apply addr_eqb_true in e. subst x. exact i.
    - intros i. exists from. split; [exact i|]. unfold addr_eqb. rewrite Bool.eqb_reflx, Z.eqb_refl. reflexivity. }
  split.
  - intros [w' H]. apply report_exec in H as [H1 H]. apply report_fields in H as (p & f & H). cbv zeta in H.
    destruct H as (ct & i0 & P & ph & lt & _). split; [apply M; auto|]. split; [auto|]. split; [auto|]. exists p.
    unfold term_start. unfold term_begin in ph. repeat split; [auto | lia | lia].
  - intros (m & ct & i0 & p & P & ph & lt). destruct (history_rewards w0 w g h) as (b & r & o).
    destruct (report_ok w (int64 id) p (history_cov w0 w g h) b r ct i0 P ph ltac:(lia)) as [w' R].
    exists w'. cbn [exec]. erewrite bind_eq by reflexivity. apply M in m. rewrite m. cbn [negb]. exact R.
Qed.
Print Assumptions C35_accepted.

(** * C37 *)
(** After a claim, what is left of each named planet that the claimer owns is exactly what is locked (or all, if
    less): nothing for a planet that is not private.  It does not matter how often the planet is named. *)
Theorem C37_claim_leaves w0 w from ids u w' : genesis w0 -> history w0 w ->
  exec from (ClaimPlanetReward ids) w = (Ok u, w') ->
  forall id p, In id ids -> 0 <= int64 id -> planets w (int64 id) = Some p -> p_owner p = from ->
    let pr := reward_of w (int64 id) in
    let '(num, denom) := get_claim_rate w in
    reward_of w' (int64 id) =
      mkReward (pr_total pr) (pr_last_tn pr) (Z.min (pr_current pr) (locked_share (p_private p) num denom (pr_total pr))).
Proof.
  intros g h H id p Hi i0 Hp Ho. destruct (claims_exact w0 w from ids u w' g h H id p Hi i0 Hp Ho) as (A & B & C). cbv zeta.
  unfold locked_of in C. destruct (get_claim_rate w) as [n d]. cbn [fst snd] in C.
  destruct (reward_of w' (int64 id)) as [x y z]. cbn [pr_total pr_last_tn pr_current] in *. congruence.
Qed.
Print Assumptions C37_claim_leaves.

(** The rate is always a valid fraction, 0/24 until the governance sets one, and then what was set last. *)
Theorem C37_rate w0 w : genesis w0 -> history w0 w ->
  let '(num, denom) := get_claim_rate w in 1 <= denom <= 10000 /\ 0 <= num <= denom.
Proof.
  intros g h. pose proof (rate_valid w (history_rate w0 w g h)) as V. destruct (get_claim_rate w) as [n d].
  cbn [fst snd] in V. apply valid_rate in V. exact V.
Qed.
Print Assumptions C37_rate.
Theorem C37_rate_default w0 : genesis w0 -> get_claim_rate w0 = (0, 24).
Proof. intros g. destruct g as (_ & _ & _ & _ & _ & _ & _ & _ & _ & _ & _ & _ & _ & E & _). unfold get_claim_rate. rewrite E. reflexivity. Qed.
Print Assumptions C37_rate_default.
Theorem C37_rate_set from num denom w : 
  (forall u w', exec from (SetPrivateClaimableRate num denom) w = (Ok u, w') ->
     from = gov w /\ 1 <= int64 denom <= 10000 /\ 0 <= int64 num <= int64 denom /\ get_claim_rate w' = (int64 num, int64 denom)) /\
  (from = gov w -> 1 <= int64 denom <= 10000 -> 0 <= int64 num <= int64 denom ->
     exists w', exec from (SetPrivateClaimableRate num denom) w = (Ok tt, w')) /\
  (forall c u w', match c with SetPrivateClaimableRate _ _ => False | _ => True end ->
     exec from c w = (Ok u, w') -> get_claim_rate w' = get_claim_rate w).
Proof.
  split; [|split].
  - intros u w' H. cbn [exec] in H. hbind H q w1 H1. apply check_gov_inv in H1 as [G ->]. apply addr_eqb_true in G.
    apply set_rate_get in H as (V & E & _). apply valid_rate in V. tauto.
  - intros -> D N. cbn [exec]. unfold check_governance. erewrite bind_eq. 2:{ erewrite bind_eq by reflexivity.
      unfold addr_eqb. rewrite Bool.eqb_reflx, Z.eqb_refl. cbn [andb]. reflexivity. }
    unfold state_set_claim_rate. assert (V : valid_claim_rate (int64 num) (int64 denom) = true) by (apply valid_rate; lia).
    rewrite V. eexists. reflexivity.
  - intros c u w' nc H. destruct c; try contradiction.
    all: match type of H with exec _ ?cc _ = _ =>
      assert (K : keeps (fun z => claim_rate z = claim_rate w) (exec from cc)) by (kunf; kx) end.
    all: apply K in H; [|reflexivity]; unfold get_claim_rate; rewrite H; reflexivity.
Qed.
Print Assumptions C37_rate_set.

(** A planet that is private and a company's keeps only two fifths of its rewards, while the lock is taken from all of
    them: at a rate of three fifths or less, a claim leaves it everything, so its owner can take nothing. *)
Theorem C37_company_locked total current num denom :
  0 <= current -> 5 * current <= 2 * total -> 1 <= denom -> 0 <= num -> 5 * num <= 3 * denom ->
  Z.min current (locked_share true num denom total) = current.
Proof.
  intros c0 c d n nd. unfold locked_share. apply Z.min_l. apply Z.div_le_lower_bound; [lia|]. nia.
Qed.
Print Assumptions C37_company_locked.

(** ** The hypotheses are met by the sample chain: three planets of which each reports once in the first term (one
    twice, refused), alice claims her public planet 7 and, in vain, bob's 8. *)
Example C34_C35_C37_example : exists w, after 13 = Some w /\ genesis sample /\ history sample w /\
  map (fun id => pr_current (reward_of w id)) [7; 8; 9] = [0; 333; 334] /\
  map (fun id => pr_total (reward_of w id)) [7; 8; 9] = [333; 333; 833] /\
  eco_reward w = 499 /\ reward_remain w = 1 /\ balance w HooverFund = 500 - 500 /\ balance w PublicTreasury = 1000 + 500 - 333 /\
  balance w alice = 1000 + 333 /\ offers (log w) 0 7 = [333] /\ get_claim_rate w = (0, 24).
Proof.
  destruct (after 13) as [w|] eqn:E; [|vm_compute in E; discriminate E]. exists w. split; [reflexivity|].
  split; [apply sample_genesis|]. split; [eapply after_history; eauto|].
  vm_compute in E. injection E as <-. vm_compute. repeat split.
Qed.
