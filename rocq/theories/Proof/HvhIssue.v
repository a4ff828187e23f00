(** What a history issues: one scheduled amount per term up to the limit. *)
From Verif Require Import Model.HvhState Model.HvhExt Spec.HvhSpec Proof.HvhFacts Proof.HvhSupply Proof.HvhTreasury
  Proof.HvhTerms.
From Coq Require Import ZArith List Bool Lia ZifyBool.
Import ListNotations.
Open Scope Z_scope.

Lemma history_ind2 w0 (P : world -> Prop) :
  P w0 ->
  (forall w rev, history w0 w -> P w -> boundary (next_block rev w) = false -> P (next_block rev w)) ->
  (forall w rev x u w', history w0 w -> P w -> boundary (next_block rev w) = true ->
     base_of_term (current_term (next_block rev w)) x (next_block rev w) = (Ok u, w') -> P w') ->
  (forall w from c u w', history w0 w -> P w -> exec from c w = (Ok u, w') -> P w') ->
  (forall w from to amount u w', history w0 w -> P w -> transfer from to amount w = (Ok u, w') -> P w') ->
  forall w, history w0 w -> P w.
Proof.
  intros P0 Pb Pbase Pc Pt w h. induction h as [| w w' rev claimed vc h IH B | w t h IH o].
  - exact P0.
  - apply block_cases in B as [[Bd ->] | [Bd [u B]]]; [apply Pb; auto | eapply Pbase; eauto].
  - destruct (apply_tx_cases t w) as [-> | [u E]]; [auto|]. destruct t; [eapply Pc; eauto | eapply Pt; eauto].
Qed.

(** ** The schedule *)
Lemma reduced_nonneg a : 0 <= a -> 0 <= reduced a <= a.
Proof. unfold reduced. intros. pose proof (Z.div_mod (a * 3) 10). pose proof (Z.mod_pos_bound (a * 3) 10). lia. Qed.
Lemma reduced_pos a : 1 <= a -> 1 <= reduced a.
Proof. unfold reduced. intros. pose proof (Z.div_mod (a * 3) 10). pose proof (Z.mod_pos_bound (a * 3) 10). lia. Qed.
Lemma year_amount_bounds a n : 0 <= a -> 0 <= year_amount a n <= a.
Proof. intros A. induction n as [|n IH]; cbn [year_amount]; [lia|]. pose proof (reduced_nonneg (year_amount a n)). lia. Qed.
Lemma year_amount_pos a n : 1 <= a -> 1 <= year_amount a n.
Proof. intros A. induction n as [|n IH]; cbn [year_amount]; [lia|]. apply reduced_pos. auto. Qed.
Lemma year_amount_mono a n m : 0 <= a -> (n <= m)%nat -> year_amount a m <= year_amount a n.
Proof.
  intros A le. induction le as [|m le IH]; [lia|]. cbn [year_amount].
  pose proof (reduced_nonneg (year_amount a m)). pose proof (year_amount_bounds a m A). lia.
Qed.

Lemma scheduled_step a c ts : 0 < c -> 0 <= ts ->
  scheduled a c (ts + 1) = (if (ts + 1) mod c =? 0 then reduced (scheduled a c ts) else scheduled a c ts).
Proof.
  intros cp n. unfold scheduled.
  pose proof (Z.div_mod ts c ltac:(lia)). pose proof (Z.mod_pos_bound ts c ltac:(lia)).
  pose proof (Z.div_pos ts c n cp).
  destruct (Z.eq_dec (ts mod c) (c - 1)) as [E|E].
  - rewrite <- (Z.mod_unique_pos (ts + 1) c (ts / c + 1) 0) by nia.
    rewrite <- (Z.div_unique_pos (ts + 1) c (ts / c + 1) 0) by nia.
    replace (Z.to_nat (ts / c + 1)) with (S (Z.to_nat (ts / c))) by lia. reflexivity.
  - rewrite <- (Z.mod_unique_pos (ts + 1) c (ts / c) (ts mod c + 1)) by nia.
    rewrite <- (Z.div_unique_pos (ts + 1) c (ts / c) (ts mod c + 1)) by nia.
    destruct (ts mod c + 1 =? 0) eqn:K; [lia | reflexivity].
Qed.
Lemma scheduled_0 a c : 0 < c -> scheduled a c 0 = a.
Proof. intros. unfold scheduled. rewrite Z.div_0_l by lia. reflexivity. Qed.
Lemma scheduled_nonneg a c ts : 0 <= a -> 0 <= scheduled a c ts <= a.
Proof. intros. apply year_amount_bounds. auto. Qed.

(** What the code computes from the amount of the term before. *)
Lemma code_amount_step a c w ts :
  0 <= a -> get_reduction_cycle w = c -> 0 <= ts ->
  big_or (issue_amount w) InitIssueAmount = scheduled a c ts ->
  fst (issue_amount_by_ts w (ts + 1)) = scheduled a c (ts + 1).
Proof.
  intros A C n E. pose proof (cycle_pos w) as cp. rewrite C in cp. rewrite scheduled_step by auto.
  unfold issue_amount_by_ts. cbv zeta. rewrite E, C. rewrite Z.rem_mod_nonneg by lia.
  assert (0 <? ts + 1 = true) as -> by lia. cbn [andb].
  destruct (_ mod c =? 0); [|reflexivity]. pose proof (scheduled_nonneg a c ts A). unfold reduced, ReductionNum, ReductionDenom.
  destruct (0 <? scheduled a c ts * 3 / 10) eqn:R; [reflexivity|]. cbn [fst].
  pose proof (Z.div_pos (scheduled a c ts * 3) 10). lia.
Qed.
Lemma code_amount_first w : fst (issue_amount_by_ts w 0) = big_or (issue_amount w) InitIssueAmount.
Proof. reflexivity. Qed.

(** ** The invariant *)
Definition first_amount (w : world) : Z := big_or (issue_amount w) InitIssueAmount.
Definition issue_inv (w0 w : world) : Prop :=
  let a := first_amount w0 in let c := get_reduction_cycle w0 in
  let n := Z.min (current_term w + 1) (get_issue_limit w0) in
  cfg w = cfg w0 /\
  issued (log w) = schedule a c (Z.to_nat n) /\
  big_or (issue_amount w) InitIssueAmount = scheduled a c (Z.max 0 (n - 1)).

Lemma current_ge w : -1 <= current_term w.
Proof.
  destruct (is_issue_started (height w) (issue_start w)) eqn:E.
  - apply current_started in E. lia.
  - rewrite current_not_started by auto. lia.
Qed.

Lemma fixed_term w w' : fixed w' = fixed w -> current_term w' = current_term w.
Proof. intros F. unfold fixed in F. injection F as E1 E2 E3 E4 E5 E6 E7 E8 E9 E10 E11 E12 E13 E14 E15 E16.
  unfold current_term, get_term_period. assert (T : term_period w' = term_period w) by congruence.
  rewrite E1, E2, T. reflexivity. Qed.
Lemma fixed_cfg w w' : fixed w' = fixed w -> cfg w' = cfg w.
Proof. intros F. unfold fixed in F. unfold cfg. congruence. Qed.

(** What the first block of a term does, in terms of fields. *)
Lemma base_inv ts x w u w' : base_of_term ts x w = (Ok u, w') ->
  exists w1,
    fixed w1 = fixed w /\ issue_amount w1 = issue_amount w /\ logs w1 = logs w /\ reward_total w1 = reward_total w /\
    ((0 < ts <= get_issue_limit w /\
      active_planet w1 = 0 /\ working_planet w1 = 0 /\ active_usdt_price w1 = 0 /\ 0 <= reward_remain w1 /\
      reward_remain w1 = reward_remain w - missed_of w) \/
     (~ (0 < ts <= get_issue_limit w) /\ w1 = w)) /\
    ((ts < get_issue_limit w /\ on_term_start ts x w1 = (Ok u, w')) \/ (get_issue_limit w <= ts /\ w' = w1)).
Proof.
  intros H. unfold base_of_term in H. hbind H q w1 H1. exists w1.
  apply when_ok in H1 as [[L H1] | [L ->]].
  - pose proof (on_term_end_view _ _ _ _ eq_refl H1) as V. unfold end_view in V. injection V as V1.
    assert (F : fixed w1 = fixed w) by (unfold fixed; congruence).
    split; [exact F|]. split; [congruence|]. split; [unfold logs; congruence|]. split; [congruence|].
    apply on_term_end_rewards in H1 as (a & b & c & d & e). split.
    + left. split; [lia|]. repeat split; auto. lia.
    + apply when_ok in H as [[K H] | [K ->]]; [left; split; [lia | exact H] | right; split; [lia | reflexivity]].
  - do 4 (split; [reflexivity|]). split; [right; split; [lia | reflexivity]|].
    apply when_ok in H as [[K H] | [K ->]]; [left; split; [lia | exact H] | right; split; [lia | reflexivity]].
Qed.

Lemma history_issue w0 w : genesis w0 -> history w0 w -> issue_inv w0 w.
Proof.
  intros g. apply (history_ind2 w0 (issue_inv w0)).
  - destruct g as (_ & st & lg & _). unfold issue_inv. cbv zeta.
    assert (current_term w0 = -1) as -> by (unfold current_term; rewrite st; reflexivity).
    pose proof (limit_pos w0). rewrite lg.
    assert (Z.min (-1 + 1) (get_issue_limit w0) = 0) as -> by lia. split; [auto|]. split; [reflexivity|].
    change (Z.max 0 (0 - 1)) with 0. rewrite scheduled_0 by apply cycle_pos. reflexivity.
  - intros v rev _ (C & I & A) Bd. unfold issue_inv. cbv zeta. rewrite next_term, Bd, Z.add_0_r.
    split; [exact C|]. split; [exact I | exact A].
  - intros v rev x u w' _ (C & I & A) Bd B.
    assert (a0 : 0 <= first_amount w0) by (destruct g as (_ & _ & _ & _ & _ & _ & _ & _ & _ & _ & _ & _ & _ & _ & _ & q & _); exact q).
    pose proof (next_term rev v) as NT. rewrite Bd in NT.
    pose proof (current_ge v) as G. set (w1 := next_block rev v) in *.
    assert (C1 : cfg w1 = cfg w0) by exact C.
    assert (L1 : get_issue_limit w1 = get_issue_limit w0) by (unfold get_issue_limit, cfg in *; congruence).
    apply base_inv in B as (w2 & F & IA & LG & _ & _ & B). rewrite L1 in B.
    unfold issue_inv in *. cbv zeta in *. pose proof (limit_pos w0) as lp.
    destruct B as [[K B] | [K ->]].
    + apply on_term_start_inv in B. cbv zeta in B. destruct B as (_ & _ & F' & I' & _ & _ & A' & _).
      assert (CT : current_term w' = current_term v + 1) by (rewrite (fixed_term w2), (fixed_term w1) by auto; exact NT).
      rewrite CT, NT in *.
      assert (R2 : get_reduction_cycle w2 = get_reduction_cycle w0).
      { apply fixed_cfg in F. unfold get_reduction_cycle, cfg in *. congruence. }
      assert (E : fst (issue_amount_by_ts w2 (current_term v + 1)) =
                  scheduled (first_amount w0) (get_reduction_cycle w0) (current_term v + 1)).
      { replace (Z.min (current_term v + 1) (get_issue_limit w0)) with (current_term v + 1) in * by lia.
        destruct (Z.eq_dec (current_term v) (-1)) as [E|E].
        - rewrite E in *. change (-1 + 1) with 0 in *. rewrite scheduled_0 by apply cycle_pos. rewrite code_amount_first, IA.
          change (issue_amount w1) with (issue_amount v). change (Z.max 0 (0 - 1)) with 0 in A.
          rewrite scheduled_0 in A by apply cycle_pos. exact A.
        - apply code_amount_step; [exact a0 | exact R2 | lia |]. rewrite IA. change (issue_amount w1) with (issue_amount v).
          rewrite A. f_equal. lia. }
      split; [apply fixed_cfg in F, F'; congruence|]. split.
      * rewrite I', E. assert (I2 : issued (log w2) = issued (log v)) by (unfold logs in LG; injection LG as LG _ _; exact LG).
        rewrite I2, I. replace (Z.to_nat (Z.min (current_term v + 1 + 1) (get_issue_limit w0)))
          with (S (Z.to_nat (Z.min (current_term v + 1) (get_issue_limit w0)))) by lia.
        cbn [schedule]. rewrite Z2Nat.id by lia. replace (Z.min (current_term v + 1) (get_issue_limit w0)) with (current_term v + 1) by lia.
        reflexivity.
      * rewrite A', E. f_equal. lia.
    + assert (CT : current_term w2 = current_term v + 1) by (rewrite (fixed_term w1) by auto; exact NT).
      rewrite CT, NT in *. rewrite IA. change (issue_amount w1) with (issue_amount v). rewrite A.
      assert (I2 : issued (log w2) = issued (log v)) by (unfold logs in LG; injection LG as LG _ _; exact LG).
      rewrite I2, I. split; [apply fixed_cfg in F; congruence|].
      split; [f_equal | f_equal]; lia.
  - intros v from c u w' _ (C & I & A) H. pose proof (exec_term _ _ _ _ _ H) as CT.
    apply (exec_xview _ _ _ _ _ _ eq_refl) in H. unfold xview in H.
    unfold issue_inv. cbv zeta. rewrite CT.
    assert (cfg w' = cfg v /\ issue_amount w' = issue_amount v /\ issued (log w') = issued (log v)) as (-> & -> & ->)
      by (repeat split; congruence). repeat split; assumption.
  - intros v from to x u w' _ (C & I & A) H.
    apply (transfer_quiet _ _ _ _ _ _ _ eq_refl) in H.
    assert (height w' = height v /\ issue_start w' = issue_start v /\ cfg w' = cfg v /\ issue_amount w' = issue_amount v /\ issued (log w') = issued (log v)) as (E1 & E2 & E3 & E4 & E5)
      by (unfold xview in H; repeat split; congruence).
    assert (CT : current_term w' = current_term v).
    { unfold current_term, get_term_period. unfold cfg in E3. assert (T : term_period w' = term_period v) by congruence.
      rewrite E1, E2, T. reflexivity. }
    unfold issue_inv. cbv zeta. rewrite CT, E3, E4, E5. repeat split; assumption.
Qed.
