(** The reward treasury covers what it owes. *)
From Verif Require Import Model.HvhState Model.HvhExt Spec.HvhSpec Proof.HvhFacts Proof.HvhSupply.
From Coq Require Import ZArith List Bool Lia ZifyBool.
Import ListNotations.
Open Scope Z_scope.

Definition PT := a_id PublicTreasury.

(** [d] coins of the treasury are owed to nobody. *)
Definition cov (d : Z) (w : world) : Prop :=
  (forall a, 0 <= bal w a) /\
  0 <= reward_remain w /\ 0 <= eco_reward w /\ 0 <= lost w /\
  (forall id, 0 <= pr_current (reward_of w id) <= pr_total (reward_of w id)) /\
  a_id (treasury w) <> PT /\
  (forall ids, NoDup ids -> owed w ids + d <= bal w PT).

Lemma cov_weaken d d' w : cov d w -> d' <= d -> cov d' w.
Proof.
  intros (nn & r & e & l & c & t & o) le. repeat (split; [assumption|]).
  intros ids nd. specialize (o ids nd). lia.
Qed.

(** Properties that depend on balances only through what the treasury holds. *)
Lemma bal_step (f : Z -> Z) a x : 0 <= f a + x -> (forall b, 0 <= f b) -> forall b, 0 <= upd f a (f a + x) b.
Proof. intros n nn b. unfold upd. destruct (b =? a); auto. Qed.

Lemma add_balance_inv a x w u w' : add_balance a x w = (Ok u, w') ->
  0 <= bal w (a_id a) + x /\ w' = set_bal (upd (bal w) (a_id a) (bal w (a_id a) + x)) w.
Proof.
  intros H. unfold add_balance in H. hbind H ob w1 H1. hstep H1.
  destruct (_ <? 0) eqn:N; [hstep H|]. hstep H. unfold balance in *. split; [lia | reflexivity].
Qed.
Lemma transfer_inv from to x w u w' : transfer from to x w = (Ok u, w') ->
  0 <= x /\ ((w' = w /\ (x = 0 \/ addr_eqb from to = true)) \/
             (0 < x <= bal w (a_id from) /\ addr_eqb from to = false /\ w' = moved from to x w)).
Proof.
  intros H. unfold transfer in H. destruct (x <? 0) eqn:X; [hstep H|]. split; [lia|].
  destruct (_ || _) eqn:O.
  - hstep H. left. split; [auto|]. apply orb_true_iff in O as [O|O]; [left; lia | auto].
  - right. apply orb_false_iff in O as [O1 O2]. hbind H v w1 H1. hbind H v' w2 H2. hstep H.
    apply add_balance_inv in H1 as [n1 ->]. apply add_balance_inv in H2 as [n2 ->].
    split; [lia|]. split; [auto|]. reflexivity.
Qed.

Lemma moved_nonneg from to x w : (forall a, 0 <= bal w a) -> 0 < x <= bal w (a_id from) ->
  forall a, 0 <= bal (moved from to x w) a.
Proof.
  intros nn le a. unfold moved. cbn [bal set_log set_bal]. unfold upd.
  pose proof (nn a). pose proof (nn (a_id to)).
  destruct (a =? a_id to) eqn:E1; destruct (a_id to =? a_id from) eqn:E2; destruct (a =? a_id from) eqn:E3; lia.
Qed.
Lemma moved_pt from to x w : (forall a, 0 <= bal w a) -> 0 < x <= bal w (a_id from) ->
  bal w PT - (if a_id from =? PT then x else 0) <= bal (moved from to x w) PT.
Proof.
  intros nn le. unfold moved. cbn [bal set_log set_bal]. unfold upd.
  destruct (Z.eqb_spec PT (a_id to)) as [<- | n1].
  - rewrite (Z.eqb_sym (a_id from) PT). destruct (Z.eqb_spec PT (a_id from)) as [<- | n2]; lia.
  - rewrite (Z.eqb_sym (a_id from) PT). destruct (Z.eqb_spec PT (a_id from)) as [<- | n2]; lia.
Qed.

Lemma cov_moved d from to x w : cov d w -> 0 < x <= bal w (a_id from) ->
  cov (d - (if a_id from =? PT then x else 0)) (moved from to x w).
Proof.
  intros (nn & r & e & l & c & t & o) le. unfold cov.
  split; [apply moved_nonneg; auto|]. repeat (split; [assumption|]).
  intros ids nd. specialize (o ids nd). pose proof (moved_pt from to x w nn le).
  change (owed (moved from to x w) ids) with (owed w ids). lia.
Qed.
(** From any account but the treasury. *)
Lemma transfer_cov d from to x w u w' : a_id from <> PT -> cov d w -> transfer from to x w = (Ok u, w') -> cov d w'.
Proof.
  intros ne c H. apply transfer_inv in H as [_ [[-> _] | (le & _ & ->)]]; [auto|].
  apply (cov_moved d _ to) in le; [|auto]. destruct (a_id from =? PT) eqn:E; [lia|].
  eapply cov_weaken; [exact le | lia].
Qed.
(** From the treasury. *)
Lemma transfer_pt_cov d to x w u w' : cov d w -> transfer PublicTreasury to x w = (Ok u, w') -> cov (d - x) w'.
Proof.
  intros c H. apply transfer_inv in H as [n [[-> _] | (le & _ & ->)]]; [eapply cov_weaken; [exact c | lia]|].
  apply (cov_moved d _ to) in le; [|auto]. eapply cov_weaken; [exact le|].
  destruct (_ =? PT); lia.
Qed.
(** From the hoover fund to the treasury. *)
Lemma transfer_hoover_cov d x w u w' :
  cov d w -> transfer HooverFund PublicTreasury x w = (Ok u, w') -> cov (d + x) w'.
Proof.
  intros c H. apply transfer_inv in H as [n [[-> E] | (le & _ & ->)]].
  { destruct E as [-> | E]; [eapply cov_weaken; [exact c | lia] | discriminate]. }
  destruct c as (nn & r & e & l & c & t & o). unfold cov.
  split; [apply moved_nonneg; auto|]. repeat (split; [assumption|]).
  intros ids nd. specialize (o ids nd).
  change (owed (moved HooverFund PublicTreasury x w) ids) with (owed w ids).
  unfold moved. cbn [bal set_log set_bal]. fold PT. rewrite upd_same. rewrite upd_other by discriminate. lia.
Qed.

(** ** Reward bookkeeping *)
Lemma sum_reward_upd w id v ids : NoDup ids ->
  sum_over (fun i => pr_current (reward_of (set_rewards (upd (rewards w) id v) w) i)) ids =
  sum_over (fun i => pr_current (reward_of w i)) ids +
  (if in_dec Z.eq_dec id ids
   then pr_current (match v with Some pr => pr | None => empty_reward end) - pr_current (reward_of w id) else 0).
Proof.
  intros nd. induction nd as [|x r n nd IH].
  - cbn. lia.
  - cbn [sum_over]. rewrite IH. unfold reward_of at 1. cbn [rewards set_rewards].
    destruct (Z.eq_dec x id) as [-> | ne].
    + rewrite upd_same. destruct (in_dec Z.eq_dec id r) as [i|_]; [tauto|].
      destruct (in_dec Z.eq_dec id (id :: r)) as [_|q]; [lia | exfalso; apply q; left; auto].
    + rewrite upd_other by auto. fold (reward_of w x).
      destruct (in_dec Z.eq_dec id r) as [i|i]; destruct (in_dec Z.eq_dec id (x :: r)) as [j|j]; try lia.
      * exfalso. apply j. right. auto.
      * exfalso. destruct j as [-> | j]; auto.
Qed.

(** Writing a reward record whose claimable part is [x] away from the stored one. *)
Lemma set_reward_cov d id pr x w :
  cov d w -> pr_current pr = pr_current (reward_of w id) + x -> 0 <= pr_current pr <= pr_total pr -> 
  cov (d - x) (set_rewards (upd (rewards w) id (Some pr)) w).
Proof.
  intros (nn & r & e & l & c & t & o) E p. unfold cov. do 4 (split; [assumption|]). split; [|split; [assumption|]].
  - intros i. unfold reward_of. cbn [rewards set_rewards]. destruct (Z.eq_dec i id) as [-> | ne].
    + rewrite upd_same. auto.
    + rewrite upd_other by auto. apply c.
  - intros ids nd. unfold owed. rewrite sum_reward_upd by auto. cbn [reward_remain eco_reward lost bal set_rewards].
    assert (o1 := o ids nd). unfold owed in o1.
    destruct (in_dec Z.eq_dec id ids) as [i|i]; [lia|].
    assert (o2 := o (id :: ids)). unfold owed in o2. cbn [sum_over] in o2.
    specialize (o2 ltac:(constructor; auto)). pose proof (c id). lia.
Qed.

Lemma on_term_end_cov w u w' : cov 0 w -> on_term_end w = (Ok u, w') -> cov 0 w'.
Proof.
  intros c H. unfold on_term_end in H.
  hbind H v w1 H1. hbind H v2 w2 H2. hbind H v3 w3 H3. hbind H v4 w4 H4. hbind H v5 w5 H5.
  (* EcoSystem *)
  assert (c1 : cov 0 w1).
  { unfold transfer_eco_reward in H1. hbind H1 r w6 H6. unfold claim_eco_reward in H6.
    hbind H6 r' w7 H7. hstep H7. destruct (_ <? 0) eqn:N; [hstep H6|]. hbind H6 q w8 H8. hstep H6.
    apply when_ok in H8 as [[E H8] | [E ->]].
    - hstep H8. assert (ce : cov (0 + eco_reward w) (set_eco_reward 0 w)).
      { destruct c as (nn & r & e & l & c & t & o). unfold cov. do 2 (split; [assumption|]).
        split; [cbn; lia|]. do 3 (split; [assumption|]). intros ids nd. specialize (o ids nd).
        unfold owed in *. cbn [reward_remain eco_reward lost bal set_eco_reward].
        change (fun id => pr_current (reward_of (set_eco_reward 0 w) id)) with (fun id => pr_current (reward_of w id)).
        lia. }
      eapply transfer_pt_cov in H1; [|exact ce]. eapply cov_weaken; [exact H1 | lia].
    - eapply transfer_pt_cov in H1; [|exact c]. eapply cov_weaken; [exact H1 | lia]. }
  (* fees *)
  assert (fee : forall from x y z, a_id from <> PT -> cov 0 x -> distribute_fee from x = (Ok y, z) -> cov 0 z).
  { intros from x y z ne cx D. unfold distribute_fee in D. hbind D b w6 H6. hstep H6.
    destruct (0 <? _); [|hstep D; auto]. hbind D q w7 H7. hbind D q' w8 H8. hstep D.
    eapply transfer_cov in H7; [|exact ne|exact cx]. eapply transfer_cov in H8; [exact H8 | exact ne | exact H7]. }
  assert (inc : forall g s x y q z, (forall v a, cov 0 a -> cov 0 (s v a)) -> cov 0 y ->
                increase_var g s x y = (Ok q, z) -> cov 0 z).
  { intros g s x y q z hs cy D. unfold increase_var in D. destruct (x <=? 0); hstep D; auto. }
  assert (c2 : cov 0 w2).
  { unfold distribute_tx_fee in H2. hbind H2 t w6 H6. hstep H6. hbind H2 s w7 H7.
    apply fee in H7; [|apply c1|exact c1]. eapply inc; [|exact H7|exact H2]. intros; assumption. }
  assert (c3 : cov 0 w3).
  { unfold distribute_service_fee in H3. hbind H3 s w7 H7.
    apply fee in H7; [|discriminate|exact c2]. eapply inc; [|exact H7|exact H3]. intros; assumption. }
  (* missed rewards *)
  assert (c4 : cov 0 w4).
  { unfold transfer_missed_reward in H4. hbind H4 m w6 H6. hbind H4 b w7 H7. hstep H7.
    destruct (_ <? m); [hstep H4|]. hbind H4 q w8 H8.
    unfold claim_missed_reward in H6. hbind H6 x w9 H9. hstep H9.
    set (missed := if 0 <? active_planet w3 then _ else _) in H6.
    destruct (_ <? 0) eqn:N in H6; [hstep H6|]. hbind H6 q' w10 H10. hstep H10. hstep H6.
    assert (cm : cov (0 + missed) (set_reward_remain (reward_remain w3 - missed) w3)).
    { destruct c3 as (nn & r & e & l & c3 & t & o). unfold cov. split; [assumption|]. split; [cbn; lia|].
      do 4 (split; [assumption|]). intros ids nd. specialize (o ids nd).
      unfold owed in *. cbn [reward_remain eco_reward lost bal set_reward_remain].
      change (fun id => pr_current (reward_of (set_reward_remain (reward_remain w3 - missed) w3) id))
        with (fun id => pr_current (reward_of w3 id)). lia. }
    eapply transfer_pt_cov in H8; [|exact cm]. replace (0 + missed - missed) with 0 in H8 by lia.
    eapply inc; [|exact H8|exact H4]. intros; assumption. }
  (* hoover fund *)
  assert (c5 : cov 0 w5).
  { unfold refill_hoover_fund in H5. hbind H5 b w6 H6. hstep H6. hbind H5 b w6 H6. hstep H6.
    destruct (0 <? _); [|hstep H5; auto]. hbind H5 b w6 H6. hstep H6. hbind H5 q w6 H6. hbind H5 q1 w7 H7.
    hbind H5 q2 w8 H8. hstep H8. hbind H5 q3 w9 H9. hstep H9. hstep H5.
    eapply transfer_cov in H6; [|discriminate|exact c4]. eapply inc in H7; [exact H7|intros; assumption|exact H6]. }
  unfold state_on_term_end in H. hbind H q w6 H6. hstep H6. hbind H q1 w7 H7. hstep H7. hstep H. exact c5.
Qed.

Lemma on_term_start_cov ts x w u w' : cov 0 w -> on_term_start ts x w = (Ok u, w') -> cov 0 w'.
Proof.
  intros c H. unfold on_term_start in H. hbind H ab w1 H1. hstep H1. hbind H q w2 H2.
  set (a := fst _) in *. assert (c2 : cov 0 w2).
  { apply when_ok in H2 as [[_ H2] | [_ ->]]; [hstep H2; exact c | exact c]. }
  clear H2. destruct (negb _); [hstep H|]. hbind H q1 w3 H3. hbind H q2 w4 H4. hbind H q3 w5 H5. hstep H5.
  assert (c4 : cov 0 w4).
  { unfold issue_coin in H3. hbind H3 s w5 H5. hstep H3. unfold issue in H5.
    destruct (a <? 0) eqn:N; [hstep H5|].
    assert (c5 : cov a w5).
    { destruct (0 <? a) eqn:P.
      - hbind H5 s1 w6 H6. hbind H5 q4 w7 H7. hstep H5. unfold add_total_supply in H6.
        hbind H6 s2 w8 H8. hstep H8. destruct (_ <? 0) in H6; [hstep H6|]. hbind H6 q5 w9 H9. hstep H9. hstep H6.
        unfold deposit in H7. rewrite N in H7. destruct (a =? 0) eqn:Z0; [lia|].
        apply add_balance_inv in H7 as [n7 ->]. cbn [bal set_supply] in *.
        destruct c2 as (nn & r & e & l & c2 & t & o). unfold cov. split.
        { cbn [bal set_bal]. apply bal_step; auto. }
        do 5 (split; [assumption|]). intros ids nd. specialize (o ids nd).
        cbn [bal set_bal]. fold PT. rewrite upd_same.
        match goal with |- owed ?x ids + _ <= _ => change (owed x ids) with (owed w2 ids) end. lia.
      - hstep H5. eapply cov_weaken; [exact c2 | lia]. }
    unfold state_on_term_start in H4. hbind H4 y w6 H6. hstep H6. hbind H4 q6 w7 H7. hstep H7.
    hbind H4 q7 w8 H8. hstep H8. hbind H4 q8 w9 H9. hstep H9. hstep H4.
    destruct c5 as (nn & r & e & l & c5 & t & o). unfold cov. split; [assumption|].
    split; [cbn; lia|]. do 4 (split; [assumption|]). intros ids nd. specialize (o ids nd).
    unfold owed in *.
    cbn [reward_remain eco_reward lost bal set_reward_remain set_reward_total set_active_usdt_price set_active_planet
         set_log].
    match goal with |- _ + sum_over ?f ids + 0 <= _ => change f with (fun id => pr_current (reward_of w5 id)) end. lia. }
  apply when_ok in H as [[_ H] | [_ ->]]; [hstep H; exact c4 | exact c4].
Qed.

Lemma on_base_tx_cov x w u w' : cov 0 w -> on_base_tx x w = (Ok u, w') -> cov 0 w'.
Proof.
  intros c H. unfold on_base_tx in H. hbind H y w1 H1. hstep H1. destruct (negb _); [hstep H|].
  destruct (term_seq_and_index _ _ _) as [ts i]. apply when_ok in H as [[_ H] | [_ ->]]; [|auto].
  hbind H q w2 H2. assert (c2 : cov 0 w2).
  { apply when_ok in H2 as [[_ H2] | [_ ->]]; [eapply on_term_end_cov; eauto | auto]. }
  apply when_ok in H as [[_ H] | [_ ->]]; [eapply on_term_start_cov; eauto | auto].
Qed.

(** ** Reading a successful report backwards *)
Lemma eta_remain w : set_reward_remain (reward_remain w) w = w.
Proof. destruct w; reflexivity. Qed.
Lemma eta_eco w : set_eco_reward (eco_reward w) w = w.
Proof. destruct w; reflexivity. Qed.
Lemma eta_lost w : set_lost (lost w) w = w.
Proof. destruct w; reflexivity. Qed.

(** The subsidy a report asks from the hoover fund. *)
Definition subsidy (w : world) (p : planet) (pr : planet_reward) (reward : Z) : Z :=
  let limit := hoover_limit (pr_total pr) reward (p_price p) in
  let guide := hoover_guide (p_usdt p) (active_usdt_price w) in
  let hoover := balance w HooverFund in
  if 0 <? limit then
    if reward <? guide then if 0 <? hoover then hoover_subsidy limit guide hoover reward else 0 else 0
  else 0.
Lemma subsidy_bounds w p pr r :
  0 <= bal w (a_id HooverFund) -> 0 <= subsidy w p pr r <= bal w (a_id HooverFund).
Proof.
  intros n. unfold subsidy, hoover_subsidy, balance. cbv zeta. 
  set (li := hoover_limit _ _ _). set (gu := hoover_guide _ _). set (b := bal w (a_id HooverFund)) in *.
  destruct (0 <? li) eqn:A; [|lia]. destruct (r <? gu) eqn:B; [|lia]. destruct (0 <? b) eqn:C; [|lia].
  destruct (li <? gu - r) eqn:D.
  - destruct (b <? li) eqn:E; lia.
  - destruct (b <? gu - r) eqn:E; lia.
Qed.

Definition own_part (p : planet) (full : Z) : Z :=
  if p_company p then full - full * EcoCompanyNum / EcoCompanyDenom else full.

Lemma own_part_le p f : 0 <= f -> own_part p f <= f.
Proof.
  intros n. unfold own_part, EcoCompanyNum, EcoCompanyDenom. destruct (p_company p); [|lia].
  pose proof (Z.div_pos (f * 3) 5). lia.
Qed.

Definition reported (ts id : Z) (p : planet) (pr : planet_reward) (full q : Z) (w : world) : world :=
  set_log (EvOffered ts id full q :: log w)
   (set_working_planet (working_planet w + 1)
     (set_eco_reward (eco_reward w + (full - own_part p full))
       (set_rewards (upd (rewards w) id (Some (mkReward (pr_total pr + full) (ts + 1) (pr_current pr + own_part p full)))) w))).

Lemma decrease_inv x w u w' : decrease_reward_remain x w = (Ok u, w') ->
  0 <= x /\ (x = 0 \/ x <= reward_remain w) /\ w' = set_reward_remain (reward_remain w - x) w.
Proof.
  intros H. unfold decrease_reward_remain in H. destruct (x <? 0) eqn:N; [hstep H|].
  destruct (x =? 0) eqn:Z0.
  { hstep H. split; [lia|]. split; [lia|]. replace (reward_remain w - x) with (reward_remain w) by lia.
    symmetry. apply eta_remain. }
  hbind H r w1 H1. hstep H1. destruct (reward_remain w - x <? 0) eqn:R; [hstep H|]. hstep H. split; [lia|]. split; [right; lia | reflexivity].
Qed.

Lemma report_inv id w u w' : report_planet_work id w = (Ok u, w') ->
  exists p w2,
    let ts := Z.quot (height w - issue_start w) (get_term_period w) in
    let r := reward_per_planet w in
    let w1 := set_reward_remain (reward_remain w - r) w in
    let q := subsidy w1 p (reward_of w id) r in
    is_issue_started (height w) (issue_start w) = true /\ 0 <= id /\ planets w id = Some p /\
    p_height p < ts * get_term_period w + issue_start w /\
    pr_last_tn (reward_of w id) < ts + 1 /\
    0 <= r /\ (r = 0 \/ r <= reward_remain w) /\
    transfer HooverFund PublicTreasury q w1 = (Ok tt, w2) /\
    0 <= own_part p (r + q) /\ 0 <= r + q /\
    w' = reported ts id p (reward_of w id) (r + q) q w2.
Proof.
  intros H. unfold report_planet_work in H. hbind H h w1 H1. hstep H1. hbind H s w1 H1. hstep H1.
  destruct (is_issue_started _ _) eqn:S0; cbn [negb] in H; [|hstep H].
  hbind H p w1 H1. unfold state_get_planet in H1. destruct (id <? 0) eqn:I0; [hstep H1|].
  hbind H1 p0 w2 H2. hstep H2. destruct (planets w id) as [p1|] eqn:P; [|hstep H1]. hstep H1.
  hbind H per w1 H1. hstep H1. destruct (_ <=? p_height p1) eqn:PH; [hstep H|].
  hbind H pr w1 H1. hstep H1. destruct (_ <=? pr_last_tn _) eqn:LT; [hstep H|].
  hbind H r w1 H1. hstep H1. hbind H v w1 H1. apply decrease_inv in H1 as (r0 & rr & ->).
  hbind H w2 w1 H1. hstep H1.
  set (ts := Z.quot _ _) in *. set (r := reward_per_planet w) in *.
  set (w1 := set_reward_remain _ w) in *.
  hbind H q0 w2 H2.
  change (transfer HooverFund PublicTreasury (subsidy w1 p1 (reward_of w id) r) w1 = (Ok q0, w2)) in H2.
  destruct q0.
  hbind H q1 w3 H3.
  change ((if p_company p1
            then let eco := (r + subsidy w1 p1 (reward_of w id) r) * EcoCompanyNum / EcoCompanyDenom in
                 offer_reward (ts + 1) id (reward_of w id) (r + subsidy w1 p1 (reward_of w id) r - eco)
                   (r + subsidy w1 p1 (reward_of w id) r) ;; increase_eco_reward eco
            else offer_reward (ts + 1) id (reward_of w id) (r + subsidy w1 p1 (reward_of w id) r)
                   (r + subsidy w1 p1 (reward_of w id) r)) w2 = (Ok q1, w3)) in H3.
  hbind H q2 w4 H4. unfold increment_working_planet in H4. hstep H4. 
  change (emit (EvOffered ts id (r + subsidy w1 p1 (reward_of w id) r) (subsidy w1 p1 (reward_of w id) r))
            (set_working_planet (working_planet w3 + 1) w3) = (Ok u, w')) in H.
  hstep H. exists p1, w2. cbv zeta. fold ts r w1. set (q := subsidy w1 p1 _ r) in *.
  split; [reflexivity|]. split; [lia|]. split; [reflexivity|]. split; [lia|]. split; [lia|]. split; [auto|]. split; [auto|].
  split; [exact H2|].
  assert (OR : forall a b x y, offer_reward (ts + 1) id (reward_of w id) a b w2 = (Ok x, y) ->
           0 <= a /\ 0 <= b /\
           y = set_rewards (upd (rewards w2) id (Some (mkReward (pr_total (reward_of w id) + b) (ts + 1) (pr_current (reward_of w id) + a)))) w2).
  { intros a b x y HO. unfold offer_reward in HO. hbind HO pr' w5 H5. hstep H5. hstep HO. unfold reward_increment in E.
    destruct (_ || _) eqn:AB in E; [discriminate|]. destruct (ts + 1 <=? _); [discriminate|]. injection E as <-.
    apply orb_false_iff in AB as [A B]. repeat split; lia. }
  unfold own_part, reported. unfold own_part. destruct (p_company p1).
  - hbind H3 q3 w5 H5. apply OR in H5 as (n1 & n2 & ->). unfold increase_eco_reward in H3. hstep H3.
    split; [lia|]. split; [lia|].
    match goal with |- context [set_eco_reward (eco_reward ?a + ?b)] => change (eco_reward a) with (eco_reward w2) end.
    match goal with |- context [eco_reward w2 + (?f - (?f - ?g))] => replace (f - (f - g)) with g by lia end.
    reflexivity.
  - apply OR in H3 as (n1 & n2 & ->). split; [lia|]. split; [lia|].
    rewrite Z.sub_diag, Z.add_0_r.
    match goal with |- _ = set_log _ (set_working_planet _ (set_eco_reward ?e ?x)) =>
      change (set_eco_reward e x) with (set_eco_reward (eco_reward x) x) end.
    rewrite eta_eco. reflexivity.
Qed.

Lemma report_cov id w u w' : cov 0 w -> report_planet_work id w = (Ok u, w') -> cov 0 w'.
Proof.
  intros c H. apply report_inv in H as (p & w2 & H). cbv zeta in H.
  destruct H as (_ & _ & _ & _ & _ & r0 & rr & T & n1 & n2 & ->).
  set (ts := Z.quot _ _) in *. set (r := reward_per_planet w) in *. set (w1 := set_reward_remain _ w) in *.
  set (q := subsidy _ _ _ _) in *. set (f := r + q) in *.
  assert (c1 : cov r w1).
  { destruct c as (nn & rm & e & l & c & t & o). unfold cov. split; [assumption|]. split; [cbn; lia|].
    do 4 (split; [assumption|]). intros ids nd. specialize (o ids nd). unfold owed in *. subst w1.
    cbn [reward_remain eco_reward lost bal set_reward_remain].
    change (fun id => pr_current (reward_of (set_reward_remain (reward_remain w - r) w) id))
      with (fun id => pr_current (reward_of w id)). lia. }
  assert (T' := T). apply transfer_inv in T' as [_ T'].
  eapply transfer_hoover_cov in T; [|exact c1]. fold f in T.
  assert (E : reward_of w2 id = reward_of w id) by (destruct T' as [[-> _] | (_ & _ & ->)]; reflexivity).
  rewrite <- E. unfold reported.
  set (m := own_part p f) in *. set (pr := mkReward _ _ _).
  assert (mf : m <= f) by (apply own_part_le; assumption).
  assert (c3 : cov (f - m) (set_rewards (upd (rewards w2) id (Some pr)) w2)).
  { apply set_reward_cov; [exact T | reflexivity | cbn]. destruct T as (_ & _ & _ & _ & T & _). specialize (T id). lia. }
  destruct c3 as (nn & rm & e & l & c3 & t & o). unfold cov. split; [assumption|].
  split; [assumption|]. split; [cbn in *; lia|]. split; [assumption|]. split; [assumption|]. split; [assumption|].
  intros ids nd. specialize (o ids nd). unfold owed in *.
  cbn [reward_remain eco_reward lost bal set_log set_working_planet set_eco_reward set_rewards] in *.
  match goal with |- _ + sum_over ?g ids + 0 <= _ => change g with
    (fun i => pr_current (reward_of (set_rewards (upd (rewards w2) id (Some pr)) w2) i)) end. lia.
Qed.

Lemma claimable_bounds w p pr c : 0 <= pr_current pr <= pr_total pr -> claimable w p pr = Ok c -> 0 <= c <= pr_current pr.
Proof.
  intros b H. unfold claimable in H. destruct (_ || _); [injection H as <-; lia|].
  destruct (get_claim_rate w) as [n d]. unfold valid_claim_rate in H.
  destruct ((d <=? 0) || (10000 <? d)) eqn:V1; [discriminate|]. destruct (n <? 0) eqn:V2; [discriminate|].
  destruct (d <? n) eqn:V3; [discriminate|]. cbn [negb] in H. apply orb_false_iff in V1 as [V1 V1'].
  destruct (n <? d) eqn:ND; [|injection H as <-; lia]. injection H as <-.
  assert (0 <= (d - n) * pr_total pr / d) by (apply Z.div_pos; [apply Z.mul_nonneg_nonneg; lia | lia]).
  match goal with |- context [?x <? 0] => destruct (x <? 0) eqn:K end; lia.
Qed.

Lemma claim_inv id owner w c w' : state_claim_planet_reward id owner w = (Ok c, w') ->
  exists p, 0 <= id /\ planets w id = Some p /\ addr_eqb owner (p_owner p) = true /\
    claimable w p (reward_of w id) = Ok c /\
    ((c <= 0 /\ w' = w) \/
     (0 < c <= pr_current (reward_of w id) /\
      w' = set_rewards (upd (rewards w) id (Some (mkReward (pr_total (reward_of w id)) (pr_last_tn (reward_of w id))
                                                   (pr_current (reward_of w id) - c)))) w)).
Proof.
  intros H. unfold state_claim_planet_reward in H. hbind H p w1 H1.
  unfold state_get_planet in H1. destruct (id <? 0) eqn:I0; [hstep H1|].
  hbind H1 p0 w2 H2. hstep H2. destruct (planets w id) as [p1|] eqn:P; [|hstep H1]. hstep H1.
  destruct (addr_eqb _ _) eqn:O; cbn [negb] in H; [|hstep H].
  hbind H pr w1 H1. hstep H1. hbind H x w1 H1. hstep H1. hbind H v w1 H1. hstep H.
  exists p1. split; [lia|]. split; [reflexivity|]. split; [exact O|]. split; [exact E|].
  apply when_ok in H1 as [[K H1] | [K ->]]; [|left; split; [lia | reflexivity]].
  hbind H1 pr2 w2 H2. apply lift_ok in H2 as [E0 ->]. unfold reward_claim in E0. destruct (x <? 0); [discriminate|].
  destruct (pr_current (reward_of w id) <? x) eqn:L; [discriminate|]. injection E0 as <-. right. split; [lia|].
  unfold set_planet_reward in H1. hstep H1. reflexivity.
Qed.

Lemma claim_cov id owner w c w' : cov 0 w -> state_claim_planet_reward id owner w = (Ok c, w') -> 0 <= c /\ cov c w'.
Proof.
  intros cv H. apply claim_inv in H as (p & _ & _ & _ & C & H).
  assert (cc := cv). destruct cc as (_ & _ & _ & _ & cc & _). specialize (cc id).
  apply claimable_bounds in C; [|auto]. split; [lia|]. destruct H as [[K ->] | [K ->]].
  - eapply cov_weaken; [exact cv | lia].
  - eapply cov_weaken; [eapply (set_reward_cov 0 id _ (- c)); [exact cv | cbn; lia | cbn; lia] | lia].
Qed.

Lemma cov_nn d w : cov d w -> forall a, 0 <= bal w a.
Proof. intros c. apply c. Qed.
Lemma cov_pt d w : cov d w -> d <= bal w PT.
Proof.
  intros (nn & r & e & l & c & t & o). specialize (o [] ltac:(constructor)). unfold owed in o. cbn [sum_over] in o. lia.
Qed.

(** A claimed reward is always paid. *)
Lemma claim_paid id owner w c w1 :
  cov 0 w -> state_claim_planet_reward id owner w = (Ok c, w1) -> exists w2, transfer PublicTreasury owner c w1 = (Ok tt, w2).
Proof.
  intros cv H. apply claim_cov in H as [n c1]; [|auto].
  destruct (transfer PublicTreasury owner c w1) as [[[]|e] w2] eqn:T; [eauto|].
  apply transfer_er in T as [_ T]; [|eapply cov_nn; eauto]. apply cov_pt in c1. unfold PT in c1. lia.
Qed.

Lemma claim_loop_cov ts owner ids : keeps (cov 0) (claim_loop ts owner ids).
Proof.
  induction ids as [|id r IH]; intros w u w' m H; cbn in H; [hstep H; auto|].
  destruct (state_claim_planet_reward id owner w) as [[c|e] w1] eqn:C.
  - pose proof (claim_cov _ _ _ _ _ m C) as [n m1]. destruct (0 <? c) eqn:K.
    + pose proof (claim_paid _ _ _ _ _ m C) as [w2 T]. rewrite T in H.
      eapply transfer_pt_cov in T; [|exact m1]. rewrite Z.sub_diag in T.
      eapply IH; [|exact H]. exact T.
    + eapply IH; [|exact H]. eapply cov_weaken; [exact m1 | auto].
  - apply claim_er in C as ->. eapply IH; eauto.
Qed.

Lemma unregister_cov id : keeps (cov 0) (unregister_planet id).
Proof.
  intros w u w' c H. unfold unregister_planet in H. hbind H rv w1 H1. hstep H1. hbind H dl w1 H1.
  assert (c1 : cov 0 w1).
  { clear H. unfold state_unregister_planet in H1. destruct (id <? 0); [hstep H1|]. hbind H1 p w2 H2. hstep H2.
    destruct (planets w id); [|hstep H1]. hbind H1 n w2 H2. hstep H2. destruct (_ <? 1); [hstep H1|].
    hbind H1 q w2 H2. hstep H2. hbind H1 q2 w2 H2. hstep H2. destruct (_ <=? _); [|hstep H1; exact c].
    hbind H1 pr w2 H2. hstep H2. hbind H1 q3 w2 H2. hbind H1 q4 w3 H3. hstep H3. hstep H1.
    match type of H2 with context [reward_of ?a id] => set (w0 := a) in *; change (cov 0 w0) in c end.
    assert (E : 0 <= pr_current (reward_of w0 id) /\ w2 = set_lost (lost w0 + pr_current (reward_of w0 id)) w0).
    { unfold add_lost in H2. destruct (_ <? 0) eqn:N; [hstep H2|]. destruct (_ =? 0) eqn:Z0.
      - hstep H2. split; [lia|]. replace (lost w0 + _) with (lost w0) by lia. symmetry. apply eta_lost.
      - hstep H2. split; [lia | reflexivity]. }
    destruct E as [x0 ->]. destruct c as (nn & r & e & l & c & t & o). unfold cov.
    split; [assumption|]. split; [assumption|]. split; [assumption|]. split; [cbn in *; lia|]. split; [|split; [assumption|]].
    - intros i. unfold reward_of. cbn [rewards set_rewards set_lost]. destruct (Z.eq_dec i id) as [-> | ne].
      + rewrite upd_same. cbn. lia.
      + rewrite upd_other by auto. apply c.
    - intros ids nd. unfold owed.
      match goal with |- context [set_rewards (upd ?a id None) ?b] =>
        rewrite (sum_reward_upd b id None ids nd) end.
      cbn [reward_remain eco_reward lost bal set_rewards set_lost].
      change (fun i => pr_current (reward_of (set_lost (lost w0 + pr_current (reward_of w0 id)) w0) i))
        with (fun i => pr_current (reward_of w0 i)).
      change (pr_current (reward_of (set_lost (lost w0 + pr_current (reward_of w0 id)) w0) id))
        with (pr_current (reward_of w0 id)).
      assert (o1 := o ids nd). unfold owed in o1.
      destruct (in_dec Z.eq_dec id ids) as [i|i]; [cbn [pr_current empty_reward]; lia|].
      assert (o2 := o (id :: ids)). unfold owed in o2. cbn [sum_over] in o2.
      specialize (o2 ltac:(constructor; auto)). lia. }
  apply when_ok in H as [[_ H] | [_ ->]]; [|exact c1]. hbind H tt0 w2 H2. hstep H2. hstep H. exact c1.
Qed.

Lemma withdraw_cov to : keeps (cov 0) (withdraw_lost_to to).
Proof.
  intros w u w' c H. unfold withdraw_lost_to in H. destruct (a_contract to); [hstep H|].
  hbind H l w1 H1. unfold delete_lost in H1. hbind H1 l0 w2 H2. hstep H2. hbind H1 v w2 H2. hstep H2. hstep H1.
  assert (cl : cov (0 + lost w) (set_lost 0 w)).
  { destruct c as (nn & r & e & l & c & t & o). unfold cov. do 3 (split; [assumption|]). split; [cbn; lia|].
    do 2 (split; [assumption|]). intros ids nd. specialize (o ids nd). unfold owed in *.
    cbn [reward_remain eco_reward lost bal set_lost].
    change (fun id => pr_current (reward_of (set_lost 0 w) id)) with (fun id => pr_current (reward_of w id)). lia. }
  apply when_ok in H as [[_ H] | [K ->]].
  - hbind H q w2 H2. hstep H. eapply transfer_pt_cov in H2; [|exact cl]. 
    replace (0 + lost w - lost w) with 0 in H2 by lia. exact H2.
  - eapply cov_weaken; [exact cl|]. destruct c as (_ & _ & _ & l & _). lia.
Qed.

Lemma burn_cov x : keeps (cov 0) (burn_coin x).
Proof.
  intros w u w' c H. unfold burn_coin in H. hbind H s w1 H1. hstep H. unfold burn in H1.
  destruct (x <? 0) eqn:N; [hstep H1|]. destruct (0 <? x) eqn:P; [|hstep H1; exact c].
  hbind H1 s1 w2 H2. hbind H1 v w3 H3. hstep H1. unfold add_total_supply in H2. hbind H2 s2 w4 H4. hstep H4.
  destruct (_ <? 0) in H2; [hstep H2|]. hbind H2 q w5 H5. hstep H5. hstep H2.
  unfold withdraw in H3. rewrite N in H3. destruct (x =? 0) eqn:Z0; [lia|].
  apply add_balance_inv in H3 as [n3 ->]. cbn [bal set_supply] in *.
  destruct c as (nn & r & e & l & c & t & o). unfold cov. split.
  { cbn [bal set_bal set_log]. apply bal_step; auto. }
  do 5 (split; [assumption|]). intros ids nd. specialize (o ids nd).
  cbn [bal set_bal set_log]. rewrite upd_other by discriminate. exact o.
Qed.

Ltac kc_leaf :=
  first [ apply keeps_get | apply keeps_ret | apply keeps_fail | apply keeps_lift
        | apply keeps_put; intros ? HH; exact HH
        | apply burn_cov | apply withdraw_cov | apply unregister_cov | apply claim_loop_cov
        | (intros ? ? ? ?; apply report_cov; assumption) ].
Ltac kc :=
  repeat (intros;
    first [ kc_leaf | apply keeps_bind | apply keeps_when | apply keeps_if
          | match goal with |- keeps _ (match ?x with _ => _ end) => destruct x end ]).

Lemma exec_cov from c : a_id from <> PT -> keeps (cov 0) (exec from c).
Proof.
  intros ne. unfold exec, check_governance, check_nft, state_set_issue_start, state_add_manager, state_remove_manager,
    state_register_planet, state_set_planet_owner, state_get_planet,
    claim_planet_reward, state_set_claim_rate.
  destruct c; try (intros w u w' cw H; hbind H q w1 H1; eapply transfer_cov in H1; [|exact ne|exact cw];
                   eapply burn_cov; eassumption); kc.
Qed.

Lemma genesis_cov w : genesis w -> cov 0 w.
Proof.
  intros (_ & _ & _ & _ & _ & rw & _ & _ & _ & _ & rm & ec & ls & _ & _ & _ & nn & _ & tr).
  unfold cov. split; [auto|]. split; [lia|]. split; [lia|]. split; [lia|]. split.
  { intros id. unfold reward_of. rewrite rw. cbn. lia. }
  split; [exact tr|]. intros ids nd. unfold owed.
  assert (sum_over (fun id => pr_current (reward_of w id)) ids = 0) as ->.
  { clear nd. induction ids as [|i r IH]; [reflexivity|]. cbn [sum_over]. rewrite IH. unfold reward_of. rewrite rw. reflexivity. }
  pose proof (nn PT). lia.
Qed.

Lemma history_cov w0 w : genesis w0 -> history w0 w -> cov 0 w.
Proof.
  intros g. apply (history_ind' w0 (cov 0)).
  - apply genesis_cov. auto.
  - intros v rev _ m. exact m.
  - intros v x u v' m H. eapply on_base_tx_cov; eauto.
  - intros v from c u v' _ m ne H. eapply exec_cov; eauto.
  - intros v from to x u v' m ne H. eapply transfer_cov; eauto.
Qed.
