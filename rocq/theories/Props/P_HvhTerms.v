(** C32 and C33: terms and the issue schedule. *)
From Verif Require Import Model.HvhState Model.HvhExt Spec.HvhSpec Spec.HvhSample Proof.HvhFacts Proof.HvhSupply
  Proof.HvhTreasury Proof.HvhTerms Proof.HvhIssue Proof.HvhRewards Proof.HvhLive Proof.HvhClaims Proof.HvhRun.
From Coq Require Import ZArith List Bool Lia ZifyBool.
Import ListNotations.
Open Scope Z_scope.

(** * C32 *)

(** Every block from the start on has exactly one position (term, index). *)
Theorem C32_position : forall h start period, 0 < start <= h -> 0 < period ->
  exists ts i, term_seq_and_index h start period = (ts, i) /\
    h = start + ts * period + i /\ 0 <= i < period /\ 0 <= ts /\
    forall ts' i', h = start + ts' * period + i' -> 0 <= i' < period -> ts' = ts /\ i' = i.
Proof.
  intros h s p hs pp. exists ((h - s) / p), ((h - s) mod p).
  pose proof (Z.div_mod (h - s) p ltac:(lia)). pose proof (Z.mod_pos_bound (h - s) p pp).
  pose proof (Z.div_pos (h - s) p ltac:(lia) pp).
  split. { unfold term_seq_and_index. cbv zeta. destruct (s =? 0) eqn:E; [lia|]. destruct (h - s <? 0) eqn:F; [lia|]. cbn [orb].
           rewrite Z.quot_div_nonneg, Z.rem_mod_nonneg by lia. reflexivity. }
  split; [nia|]. split; [auto|]. split; [auto|]. intros t i E B. split.
  - apply (Z.div_unique_pos (h - s) p t i); lia.
  - apply (Z.mod_unique_pos (h - s) p t i); lia.
Qed.
Print Assumptions C32_position.

(** Before the start, and when no start is set, there is no position. *)
Theorem C32_before : forall h start period, h < start \/ start = 0 -> term_seq_and_index h start period = (-1, -1).
Proof.
  intros h s p H. unfold term_seq_and_index. cbv zeta. destruct (s =? 0) eqn:E; [reflexivity|].
  destruct (h - s <? 0) eqn:F; [reflexivity | lia].
Qed.
Print Assumptions C32_before.

(** The next block is the next index of the same term, or index 0 of the next term after the last index. *)
Theorem C32_next : forall h start period ts i, 0 < start <= h -> 0 < period ->
  term_seq_and_index h start period = (ts, i) ->
  term_seq_and_index (h + 1) start period = (if i + 1 =? period then (ts + 1, 0) else (ts, i + 1)).
Proof.
  intros h s p ts i hs pp E. destruct (C32_position h s p hs pp) as (t1 & i1 & E1 & P1 & B1 & N1 & _).
  rewrite E in E1. injection E1 as <- <-.
  destruct (C32_position (h + 1) s p ltac:(lia) pp) as (t2 & i2 & E2 & P2 & B2 & N2 & U2). rewrite E2.
  destruct (i + 1 =? p) eqn:K.
  - destruct (U2 (ts + 1) 0) as [<- <-]; [nia | lia | reflexivity].
  - destruct (U2 ts (i + 1)) as [<- <-]; [lia | lia | reflexivity].
Qed.
Print Assumptions C32_next.

(** The other function agrees: same index, and the term's first height; before the start it refuses. *)
Theorem C32_term_start : forall h start period, 0 < period ->
  (h < start -> term_start_and_index h start period = Er ENotReady) /\
  (0 < start <= h -> forall ts i, term_seq_and_index h start period = (ts, i) ->
     term_start_and_index h start period = Ok (start + ts * period, i)).
Proof.
  intros h s p pp. split.
  - intros L. unfold term_start_and_index. destruct (h <? s) eqn:E; [reflexivity | lia].
  - intros hs ts i E. destruct (C32_position h s p hs pp) as (t1 & i1 & E1 & P1 & B1 & N1 & _).
    rewrite E in E1. injection E1 as <- <-. unfold term_start_and_index. destruct (h <? s) eqn:F; [lia|]. cbv zeta.
    rewrite Z.rem_mod_nonneg by lia. rewrite <- (Z.mod_unique_pos (h - s) p ts i) by lia. f_equal. f_equal. lia.
Qed.
Print Assumptions C32_term_start.

(** Votes are checked at the multiples of a positive period, and never with a period that is not positive. *)
Theorem C32_vote_check : forall i p, 0 <= i -> (is_vote_check_time i p = true <-> 0 < p /\ (p | i)).
Proof.
  intros i p n. unfold is_vote_check_time. destruct (0 <? p) eqn:P; cbn [andb].
  - rewrite Z.rem_mod_nonneg by lia. split.
    + intros E. split; [lia|]. apply Z.mod_divide; lia.
    + intros [_ D]. apply Z.mod_divide in D; lia.
  - split; [discriminate | lia].
Qed.
Print Assumptions C32_vote_check.

(** In any history: a base transaction is due at the first block of each term and at vote checks, nowhere else. *)
Theorem C32_base_due : forall w0 w vc, genesis w0 -> history w0 w ->
  (need_base_tx w vc = true <->
   vc = true \/ (0 <= current_term w /\ height w = issue_start w + current_term w * get_term_period w)).
Proof.
  intros w0 w vc g h. pose proof (history_start_nonneg w0 w g h) as [_ s0].
  unfold need_base_tx. destruct (is_issue_started (height w) (issue_start w)) eqn:S0.
  - rewrite seq_current by auto. pose proof (current_started w S0) as [C N]. pose proof (period_pos w) as pp.
    pose proof (Z.div_mod (height w - issue_start w) (get_term_period w) ltac:(lia)) as D. rewrite <- C in D.
    pose proof (Z.mod_pos_bound (height w - issue_start w) (get_term_period w) pp).
    destruct vc; [rewrite orb_true_r; tauto|]. rewrite orb_false_r. split; [right; split; [lia | nia]|].
    intros [E | [_ E]]; [discriminate|]. rewrite Z.mul_comm in D.
    assert (((height w - issue_start w) mod get_term_period w = 0)) by lia. lia.
  - rewrite (current_not_started w S0). rewrite started_iff in S0.
    rewrite C32_before by lia. destruct vc; cbn; [tauto|]. split; [discriminate | intros [?|[? _]]; [discriminate | lia]].
Qed.
Print Assumptions C32_base_due.

(** Only governance sets the start, only to a future height, and only while no start has been reached. *)
Theorem C32_start_future : forall from h w u w', exec from (StartRewardIssue h) w = (Ok u, w') ->
  from = gov w /\ ~ (0 < issue_start w <= height w) /\ height w < issue_start w' /\ issue_start w' = int64 h.
Proof.
  intros from h w u w' H. pose proof (exec_start _ _ _ _ _ H) as E. cbn [exec] in H. hbind H q w1 H1.
  apply check_gov_inv in H1 as [G ->]. apply addr_eqb_true in G. hbind H cur w1 H1. hstep H1.
  destruct (_ <=? _) eqn:L; [hstep H|]. unfold state_set_issue_start in H. destruct (_ || _) eqn:O; [hstep H|].
  hbind H st w1 H1. hstep H1. destruct (is_issue_started _ _) eqn:S0; [hstep H|]. hstep H. rewrite started_iff in S0.
  split; [auto|]. split; [lia|]. cbn [issue_start set_issue_start]. split; [lia | reflexivity].
Qed.
Print Assumptions C32_start_future.

(** Once reached, the start never moves again, whatever blocks and transactions follow; terms never go backwards. *)
Theorem C32_start_fixed : forall w w', history w w' -> 0 < issue_start w <= height w -> issue_start w' = issue_start w.
Proof. intros w w' h s. apply (later_start w w' h). rewrite started_iff. lia. Qed.
Print Assumptions C32_start_fixed.
Theorem C32_term_monotone : forall w w', history w w' -> current_term w <= current_term w'.
Proof. exact later_term. Qed.
Print Assumptions C32_term_monotone.

Example C32_example :
  term_seq_and_index 27 12 5 = (3, 0) /\ term_seq_and_index 26 12 5 = (2, 4) /\ term_start_and_index 26 12 5 = Ok (22, 4) /\
  (exists w, after 18 = Some w /\ history sample w /\ 0 < issue_start w <= height w /\ current_term w = 1).
Proof.
  split; [reflexivity|]. split; [reflexivity|]. split; [reflexivity|].
  destruct (after 18) as [w|] eqn:E; [|vm_compute in E; discriminate E]. exists w. split; [reflexivity|].
  split; [eapply after_history; eauto|].
  assert (F : option_map (fun w => (issue_start w, height w, current_term w)) (after 18) = Some (12, 17, 1)) by (vm_compute; reflexivity).
  rewrite E in F. cbn [option_map] in F. injection F as -> -> ->. lia.
Qed.

(** * C33 *)

(** In any history the terms issued so far are exactly the first ones, each once and in order, each with its scheduled
    amount: all terms begun, as far as the limit. *)
Theorem C33_issued : forall w0 w, genesis w0 -> history w0 w ->
  issued (log w) = schedule (big_or (issue_amount w0) InitIssueAmount) (get_reduction_cycle w0)
                            (Z.to_nat (Z.min (current_term w + 1) (get_issue_limit w0))).
Proof. intros w0 w g h. apply (history_issue w0 w g h). Qed.
Print Assumptions C33_issued.

(** The schedule: the configured amount, never negative, never growing, down by three tenths (rounded down) every
    cycle; a positive amount never reaches zero. *)
Theorem C33_schedule : forall a c, 0 <= a -> 0 < c ->
  scheduled a c 0 = a /\
  (forall ts, 0 <= ts -> scheduled a c (ts + 1) =
     if (ts + 1) mod c =? 0 then scheduled a c ts - scheduled a c ts * 3 / 10 else scheduled a c ts) /\
  (forall ts, 0 <= scheduled a c ts <= a) /\
  (forall t1 t2, 0 <= t1 <= t2 -> scheduled a c t2 <= scheduled a c t1) /\
  (1 <= a -> forall ts, 1 <= scheduled a c ts).
Proof.
  intros a c A C. split; [apply scheduled_0; auto|]. split; [intros ts n; apply (scheduled_step a c ts C n)|].
  split; [intros ts; apply scheduled_nonneg; auto|]. split.
  - intros t1 t2 T. apply year_amount_mono; [auto|]. apply Z2Nat.inj_le; [apply Z.div_pos; lia | apply Z.div_pos; lia | apply Z.div_le_mono; lia].
  - intros P ts. apply year_amount_pos. auto.
Qed.
Print Assumptions C33_schedule.

(** Total issuance is bounded, and with what was burned it accounts for the whole supply. *)
Theorem C33_bounded : forall w0 w, genesis w0 -> history w0 w ->
  0 <= sum_list (map snd (issued (log w))) <= get_issue_limit w0 * big_or (issue_amount w0) InitIssueAmount /\
  supply w = supply w0 + sum_list (map snd (issued (log w))) - sum_list (burned (log w)).
Proof.
  intros w0 w g h. split.
  - rewrite (C33_issued w0 w g h). assert (a0 : 0 <= first_amount w0) by (destruct g as (_ & _ & _ & _ & _ & _ & _ & _ & _ & _ & _ & _ & _ & _ & _ & q & _); exact q).
    fold (first_amount w0). set (a := first_amount w0) in *. set (c := get_reduction_cycle w0).
    assert (B : forall n, 0 <= sum_list (map snd (schedule a c n)) <= Z.of_nat n * a).
    { induction n as [|n IH]; cbn [schedule map sum_list snd]; [lia|]. pose proof (scheduled_nonneg a c (Z.of_nat n) a0). lia. }
    specialize (B (Z.to_nat (Z.min (current_term w + 1) (get_issue_limit w0)))). pose proof (limit_pos w0). pose proof (current_ge w). nia.
  - destruct (history_money w0 w g h) as (_ & _ & E). lia.
Qed.
Print Assumptions C33_bounded.

(** Nothing is issued before the start. *)
Theorem C33_nothing_before : forall w0 w, genesis w0 -> history w0 w -> current_term w = -1 -> issued (log w) = [].
Proof. intros w0 w g h E. rewrite (C33_issued w0 w g h), E. pose proof (limit_pos w0). replace (Z.min (-1 + 1) _) with 0 by lia. reflexivity. Qed.
Print Assumptions C33_nothing_before.

(** Proposer and validators agree, and the chain does not stop: with a positive configured amount, at every reachable
    state the proposer of the next block includes a base transaction exactly when one is required, the block with the
    amount it writes is executable, and at the start of an issuing term no other amount is.  ([vc]: the block is a
    vote check, which implies that issuing has started.) *)
Theorem C33_proposal : forall w0 w rev vc, genesis w0 -> history w0 w ->
  1 <= big_or (issue_amount w0) InitIssueAmount ->
  let n := set_revision rev (set_height (height w + 1) w) in
  (vc = true -> 0 <= current_term n) ->
  (need_base_tx n vc = true <-> new_base_data n vc <> None) /\
  (forall x, new_base_data n vc = Some x -> exists w', begin_block rev x vc w = Some w') /\
  (new_base_data n vc = None -> forall x, exists w', begin_block rev x vc w = Some w') /\
  (current_term n <> current_term w -> current_term n < get_issue_limit w -> forall x y w',
     new_base_data n vc = Some x -> begin_block rev y vc w = Some w' -> y = x).
Proof.
  intros w0 w rev vc g h A n V. change n with (next_block rev w) in *. clear n. set (n := next_block rev w) in *.
  assert (ND : new_base_data n vc = if boundary n then Some (honest n) else if vc then Some 0 else None).
  { unfold new_base_data. rewrite get_issue_amount_eq. destruct (boundary n) eqn:Bd.
    - pose proof (honest_pos w0 w rev g h Bd A) as P. fold n in P. destruct (honest n <=? 0) eqn:L; [lia | reflexivity].
    - destruct vc; reflexivity. }
  assert (NB : need_base_tx n vc = boundary n || vc).
  { unfold need_base_tx, boundary. destruct (is_issue_started (height n) (issue_start n)) eqn:S0; cbn [andb].
    - rewrite seq_current by auto. pose proof (current_started _ S0) as [_ K]. destruct (0 <=? current_term n) eqn:L; [reflexivity | lia].
    - pose proof (history_start_nonneg w0 w g h) as [_ s0]. change (issue_start w) with (issue_start n) in s0.
      rewrite started_iff in S0. rewrite C32_before by lia. destruct vc; reflexivity. }
  assert (OK : forall x, (boundary n = true -> x = honest n) -> exists w', begin_block rev x vc w = Some w').
  { intros x X. unfold begin_block. fold (next_block rev w). fold n. rewrite NB. destruct (boundary n) eqn:Bd.
    - cbn [orb]. rewrite (X eq_refl). destruct (base_ok w0 w rev g h Bd) as [w' B]. fold n in B.
      assert (S0 : is_issue_started (height n) (issue_start n) = true) by (unfold boundary in Bd; apply andb_true_iff in Bd; tauto).
      assert (I0 : (height n - issue_start n) mod get_term_period n =? 0 = true) by (unfold boundary in Bd; apply andb_true_iff in Bd; tauto).
      unfold on_base_tx. erewrite bind_eq by reflexivity. rewrite S0. cbn [negb]. rewrite seq_current by auto. rewrite I0.
      unfold when at 1. pose proof (limit_pos n). assert (L : get_issue_limit n =? 0 = false) by lia. rewrite L.
      unfold base_of_term in B. cbn [orb]. rewrite B. eauto.
    - cbn [orb]. destruct vc; [|eauto]. specialize (V eq_refl).
      assert (S0 : is_issue_started (height n) (issue_start n) = true) by (rewrite current_started_iff; lia).
      unfold on_base_tx. erewrite bind_eq by reflexivity. rewrite S0. cbn [negb]. rewrite seq_current by auto.
      unfold boundary in Bd. rewrite S0 in Bd. cbn [andb] in Bd. rewrite Bd. unfold when, ret. eauto. }
  split. { rewrite NB, ND. destruct (boundary n); cbn; [split; congruence|]. destruct vc; split; congruence. }
  split. { intros x X. apply OK. intros Bd. rewrite ND, Bd in X. congruence. }
  split. { intros X x. apply OK. intros Bd. rewrite ND, Bd in X. discriminate. }
  intros C L x y w' X B. pose proof (next_term rev w) as NT. fold n in NT.
  destruct (boundary n) eqn:Bd; [|lia]. rewrite ND in X. injection X as <-.
  apply block_cases in B. cbv zeta in B. fold n in B. destruct B as [[B _] | [_ [u B]]]; [congruence|].
  apply base_inv in B as (w2 & F & IA & _ & _ & _ & B). change (get_issue_limit n) with (get_issue_limit w) in B.
  destruct B as [[_ B] | [? _]]; [|lia]. apply on_term_start_inv in B. cbv zeta in B. destruct B as (-> & _).
  unfold honest, issue_amount_by_ts, get_reduction_cycle. rewrite IA.
  assert (R : reduction_cycle w2 = reduction_cycle n) by (unfold fixed in F; congruence). rewrite R. reflexivity.
Qed.
Print Assumptions C33_proposal.

(** The condition on the configured amount is needed: with the amount zero, which a chain may be configured with, the
    first term's first block must carry a base transaction that no proposer makes. *)
Theorem C33_violated_zero_amount : exists w0 w, genesis w0 /\ history w0 w /\ big_or (issue_amount w0) InitIssueAmount = 0 /\
  let n := set_revision 3 (set_height (height w + 1) w) in
  need_base_tx n false = true /\ new_base_data n false = None.
Proof.
  exists (set_issue_amount (Some 0) sample). 
  exists (match run [Tx (Call governor (StartRewardIssue 12)); Block 0] (set_issue_amount (Some 0) sample) with Some w => w | None => sample end).
  split. { pose proof sample_genesis as g. unfold genesis in *. 
           destruct g as (g1 & g2 & g3 & g4 & g5 & g6 & g7 & g8 & g9 & g10 & g11 & g12 & g13 & g14 & g15 & g16 & g17 & g18 & g19).
           repeat (split; [first [assumption | cbn; lia]|]). assumption. }
  split.
  - destruct (run _ _) as [w|] eqn:E; [|vm_compute in E; discriminate E].
    eapply run_history; [apply h_genesis | | exact E]. cbn. repeat split; discriminate.
  - split; [reflexivity|]. vm_compute. auto.
Qed.
Print Assumptions C33_violated_zero_amount.

Example C33_example : genesis sample /\ 1 <= big_or (issue_amount sample) InitIssueAmount /\
  (exists w, after 18 = Some w /\ history sample w /\ issued (log w) = [(1, 1000); (0, 1000)]) /\
  map (scheduled 1000 2) [0; 1; 2; 3; 4; 5] = [1000; 1000; 700; 700; 490; 490].
Proof.
  split; [apply sample_genesis|]. split; [cbn; lia|]. split; [|reflexivity].
  destruct (after 18) as [w|] eqn:E; [|vm_compute in E; discriminate E]. exists w. split; [reflexivity|].
  split; [eapply after_history; eauto|].
  assert (F : option_map (fun w => issued (log w)) (after 18) = Some [(1, 1000); (0, 1000)]) by (vm_compute; reflexivity).
  rewrite E in F. cbn [option_map] in F. congruence.
Qed.
