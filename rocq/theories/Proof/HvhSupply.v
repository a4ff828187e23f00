(** Coins: transfers conserve them, issue and burn change the recorded supply with the balances. *)
From Verif Require Import Model.HvhState Model.HvhExt Spec.HvhSpec Proof.HvhFacts.
From Coq Require Import ZArith List Bool Lia ZifyBool.
Import ListNotations.
Open Scope Z_scope.

(** ** Sums *)
Lemma sum_upd_out f k v l : ~ In k l -> sum_over (upd f k v) l = sum_over f l.
Proof.
  induction l as [|x r IH]; cbn; [auto|]. intros n. rewrite IH by tauto. unfold upd at 1.
  destruct (x =? k) eqn:E; [|lia]. exfalso. apply n. left. lia.
Qed.
Lemma sum_upd_in f k v l : NoDup l -> In k l -> sum_over (upd f k v) l = sum_over f l - f k + v.
Proof.
  induction 1 as [|x r n nd IH]; cbn; [tauto|]. intros [-> | i].
  - rewrite sum_upd_out by auto. unfold upd. rewrite Z.eqb_refl. lia.
  - rewrite IH by auto. unfold upd. destruct (x =? k) eqn:E; [|lia].
    exfalso. apply n. assert (x = k) by lia. subst. auto.
Qed.
Lemma sum_ext f g l : (forall x, In x l -> f x = g x) -> sum_over f l = sum_over g l.
Proof. induction l as [|x r IH]; cbn; auto. intros H. rewrite H, IH; auto. Qed.
Lemma upd_same {A} (f : Z -> A) k v : upd f k v k = v.
Proof. unfold upd. rewrite Z.eqb_refl. auto. Qed.
Lemma upd_other {A} (f : Z -> A) k v x : x <> k -> upd f k v x = f x.
Proof. intros n. unfold upd. destruct (x =? k) eqn:E; [lia | auto]. Qed.

(** ** The money invariant, with [d] coins on accounts beyond the recorded supply and the supply [k] away from
    what the log of issues and burns explains *)
Definition money (s0 d k : Z) (w : world) : Prop :=
  (forall a, 0 <= bal w a) /\
  (exists l, NoDup l /\ (forall a, ~ In a l -> bal w a = 0) /\ sum_over (bal w) l = supply w + d) /\
  supply w = s0 + sum_list (map snd (issued (log w))) - sum_list (burned (log w)) + k.

Lemma add_balance_money s0 d k a x w u w' :
  money s0 d k w -> add_balance a x w = (Ok u, w') -> money s0 (d + x) k w'.
Proof.
  intros (nn & (l & nd & out & sm) & sup) H. unfold add_balance in H.
  hbind H ob w1 H1. hstep H1. destruct (_ <? 0) eqn:N; [hstep H|]. hstep H.
  unfold balance in *. unfold money. cbn [bal supply log set_bal].
  split; [|split]; [..|exact sup].
  - intros b. unfold upd. destruct (b =? a_id a) eqn:E; [lia | auto].
  - destruct (in_dec Z.eq_dec (a_id a) l) as [i|n].
    + exists l. split; [auto|]. split.
      * intros b nb. rewrite upd_other; [auto|]. intros ->. auto.
      * rewrite sum_upd_in by auto. lia.
    + exists (a_id a :: l). split; [constructor; auto|]. split.
      * cbn. intros b nb. rewrite upd_other by (intros ->; apply nb; auto). apply out. tauto.
      * cbn [sum_over]. rewrite sum_upd_out by auto. rewrite upd_same. rewrite (out _ n) in *. lia.
Qed.

Lemma add_total_supply_money s0 d k x w u w' :
  money s0 d k w -> add_total_supply x w = (Ok u, w') -> money s0 (d - x) (k + x) w' /\ u = supply w'.
Proof.
  intros (nn & (l & nd & out & sm) & sup) H. unfold add_total_supply in H.
  hbind H ob w1 H1. hstep H1. destruct (_ <? 0) eqn:N; [hstep H|].
  hbind H v w1 H1. hstep H1. hstep H. split; [|reflexivity].
  split; [exact nn|]. split; [|cbn [supply log set_supply]; lia].
  exists l. cbn [bal supply set_supply]. repeat split; auto. lia.
Qed.

Lemma transfer_money s0 d k from to x : keeps (money s0 d k) (transfer from to x).
Proof.
  intros w u w' m H. unfold transfer in H.
  destruct (x <? 0) eqn:X; [hstep H|]. destruct (_ || _) eqn:O; [hstep H; auto|].
  hbind H v w1 H1. hbind H v' w2 H2. hstep H.
  apply (add_balance_money s0 d k) in H1; [|auto]. apply (add_balance_money s0 (d + - x) k) in H2; [|exact H1].
  replace (d + - x + x) with d in H2 by lia. exact H2.
Qed.

Lemma deposit_money s0 d k a x w u w' :
  money s0 d k w -> deposit a x w = (Ok u, w') -> money s0 (d + x) k w'.
Proof.
  intros m H. unfold deposit in H. destruct (x <? 0) eqn:X; [hstep H|]. destruct (x =? 0) eqn:O.
  - hstep H. replace (d + x) with d by lia. auto.
  - eapply add_balance_money; eauto.
Qed.
Lemma withdraw_money s0 d k a x w u w' :
  money s0 d k w -> withdraw a x w = (Ok u, w') -> money s0 (d - x) k w'.
Proof.
  intros m H. unfold withdraw in H. destruct (x <? 0) eqn:X; [hstep H|]. destruct (x =? 0) eqn:O.
  - hstep H. replace (d - x) with d by lia. auto.
  - eapply add_balance_money in H; [|eauto]. exact H.
Qed.

Lemma money_issued s0 ts x s w : money s0 0 x w -> money s0 0 0 (set_log (EvIssued ts x s :: log w) w).
Proof.
  intros (nn & bk & sup). split; [exact nn|]. split; [exact bk|].
  change (supply w = s0 + (x + sum_list (map snd (issued (log w)))) - sum_list (burned (log w)) + 0). lia.
Qed.
Lemma money_burned s0 x s w : money s0 0 (- x) w -> money s0 0 0 (set_log (EvBurned x s :: log w) w).
Proof.
  intros (nn & bk & sup). split; [exact nn|]. split; [exact bk|].
  change (supply w = s0 + sum_list (map snd (issued (log w))) - (x + sum_list (burned (log w))) + 0). lia.
Qed.
Lemma money_eq s0 d k d' k' w : money s0 d k w -> d = d' -> k = k' -> money s0 d' k' w.
Proof. intros m -> ->. exact m. Qed.

Lemma issue_coin_money s0 ts x : keeps (money s0 0 0) (issue_coin ts x).
Proof.
  intros w u w' m H. unfold issue_coin in H. hbind H s w1 H1. hstep H. apply money_issued.
  unfold issue in H1. destruct (x <? 0) eqn:X; [hstep H1|]. destruct (0 <? x) eqn:O.
  - hbind H1 s1 w2 H2. hbind H1 v w3 H3. hstep H1.
    apply (add_total_supply_money s0 0 0) in H2 as [H2 _]; [|auto].
    apply (deposit_money s0 (0 - x) (0 + x)) in H3; [|exact H2].
    eapply money_eq; [exact H3 | lia | lia].
  - hstep H1. eapply money_eq; [exact m | lia | lia].
Qed.

Lemma burn_coin_money s0 x : keeps (money s0 0 0) (burn_coin x).
Proof.
  intros w u w' m H. unfold burn_coin in H. hbind H s w1 H1. hstep H. apply money_burned.
  unfold burn in H1. destruct (x <? 0) eqn:X; [hstep H1|]. destruct (0 <? x) eqn:O.
  - hbind H1 s1 w2 H2. hbind H1 v w3 H3. hstep H1.
    apply (add_total_supply_money s0 0 0) in H2 as [H2 _]; [|auto].
    apply (withdraw_money s0 (0 - - x) (0 + - x)) in H3; [|exact H2].
    eapply money_eq; [exact H3 | lia | lia].
  - hstep H1. eapply money_eq; [exact m | lia | lia].
Qed.

(** ** All other steps leave balances, supply and the issue log alone *)
Ltac kp_leaf :=
  first [ apply keeps_get | apply keeps_ret | apply keeps_fail | apply keeps_lift
        | apply keeps_put; intros ? HH; exact HH
        | apply transfer_money | apply issue_coin_money | apply burn_coin_money ].
Ltac kp :=
  repeat (intros;
    first [ kp_leaf | apply keeps_bind | apply keeps_when | apply keeps_if
          | match goal with |- keeps _ (match ?x with _ => _ end) => destruct x end ]).

Lemma on_term_end_money s0 : keeps (money s0 0 0) on_term_end.
Proof.
  unfold on_term_end, transfer_eco_reward, claim_eco_reward, distribute_tx_fee, distribute_service_fee, distribute_fee,
    transfer_missed_reward, claim_missed_reward, refill_hoover_fund, state_on_term_end, increase_var, emit. kp.
Qed.
Lemma on_base_tx_money s0 x : keeps (money s0 0 0) (on_base_tx x).
Proof.
  unfold on_base_tx, on_term_start, state_on_term_start, emit. kp.
Qed.
Lemma report_money s0 id : keeps (money s0 0 0) (report_planet_work id).
Proof.
  unfold report_planet_work, state_get_planet, decrease_reward_remain, offer_reward, set_planet_reward,
    increase_eco_reward, increment_working_planet, emit. kp.
Qed.

(** A failing claim or transfer writes nothing. *)
Lemma claim_er id owner w e w' : state_claim_planet_reward id owner w = (Er e, w') -> w' = w.
Proof.
  unfold state_claim_planet_reward, state_get_planet, bind, get, fail, ret, when.
  destruct (id <? 0); [intros [= _ <-]; auto|]. destruct (planets w id) as [p|]; [|intros [= _ <-]; auto].
  destruct (negb _); [intros [= _ <-]; auto|].
  destruct (claimable w p (reward_of w id)) as [c|e1]; cbn [lift ret fail]; [|intros [= _ <-]; auto].
  destruct (0 <? c); [|discriminate]. cbn. destruct (reward_claim _ c); cbn; [discriminate | intros [= _ <-]; auto].
Qed.
Lemma add_balance_total a x w : 0 <= bal w (a_id a) + x ->
  add_balance a x w = (Ok tt, set_bal (upd (bal w) (a_id a) (bal w (a_id a) + x)) w).
Proof.
  intros n. unfold add_balance, bind, get, balance. destruct (_ <? 0) eqn:N; [exfalso; lia | reflexivity].
Qed.
(** What a transfer within the sender's balance does. *)
Definition moved (from to : addr) (x : Z) (w : world) : world :=
  let b := upd (bal w) (a_id from) (bal w (a_id from) - x) in
  set_log (EvTransfer from to x :: log w) (set_bal (upd b (a_id to) (b (a_id to) + x)) w).
Lemma transfer_total from to x w :
  (forall a, 0 <= bal w a) -> 0 < x <= bal w (a_id from) -> addr_eqb from to = false ->
  transfer from to x w = (Ok tt, moved from to x w).
Proof.
  intros nn b ne. unfold transfer. destruct (x <? 0) eqn:X; [lia|]. destruct (x =? 0) eqn:Z0; [lia|].
  rewrite ne. cbn [orb]. erewrite bind_eq by (apply add_balance_total; lia).
  erewrite bind_eq.
  2:{ apply add_balance_total. cbn [bal set_bal]. unfold upd. pose proof (nn (a_id to)). clear - b H. cbn [bal]. destruct (a_id to =? a_id from); lia. }
  reflexivity.
Qed.
Lemma transfer_er from to x w e w' :
  (forall a, 0 <= bal w a) -> transfer from to x w = (Er e, w') ->
  w' = w /\ (x < 0 \/ bal w (a_id from) < x).
Proof.
  intros nn T. destruct (x <? 0) eqn:X.
  { unfold transfer in T. rewrite X in T. injection T as _ <-. split; [auto | lia]. }
  destruct ((x =? 0) || addr_eqb from to) eqn:O.
  { unfold transfer in T. rewrite X, O in T. discriminate. }
  apply orb_false_iff in O as [O1 O2].
  destruct (bal w (a_id from) <? x) eqn:B.
  - assert (AB : add_balance from (- x) w = (Er EGeneric, w)).
    { unfold add_balance, bind, get, balance. destruct (bal w (a_id from) + - x <? 0) eqn:N; [reflexivity | exfalso; lia]. }
    unfold transfer in T. rewrite X, O1, O2 in T. cbn [orb] in T. unfold bind at 1 in T. rewrite AB in T.
    injection T as _ <-. split; [auto | lia].
  - rewrite transfer_total in T; [discriminate | auto | lia | auto].
Qed.
Lemma state_claim_money s0 id owner : keeps (money s0 0 0) (state_claim_planet_reward id owner).
Proof.
  unfold state_claim_planet_reward, state_get_planet, set_planet_reward. kp.
  intros w c w' m H. hstep H. auto.
Qed.

Lemma claim_loop_total ts owner ids : forall w, (forall a, 0 <= bal w a) ->
  exists w', claim_loop ts owner ids w = (Ok tt, w').
Proof.
  induction ids as [|id r IH]; intros w nn; cbn; [exists w; reflexivity|].
  destruct (state_claim_planet_reward id owner w) as [[c|e] w1] eqn:C.
  - assert (nn1 : forall a, 0 <= bal w1 a).
    { assert (K : keeps (fun w => forall a, 0 <= bal w a) (state_claim_planet_reward id owner)).
      { unfold state_claim_planet_reward, state_get_planet, set_planet_reward. kp. intros ? ? ? ? ?. hstep H0. auto. }
      eapply K; eauto. }
    destruct (0 <? c); [|auto].
    destruct (transfer _ _ _ _) as [[u|e] w2] eqn:T; [|eauto].
    unfold bind, emit, put. apply IH. cbn.
    intros a. assert (K : keeps (fun w => forall a, 0 <= bal w a) (transfer PublicTreasury owner c)).
    { intros x u' y p H. unfold transfer in H. destruct (c <? 0); [hstep H|]. destruct (_ || _); [hstep H; auto|].
      assert (AB : forall a z, keeps (fun w => forall a, 0 <= bal w a) (add_balance a z)).
      { intros b z w3 v w4 p3 H3. unfold add_balance in H3. hbind H3 ob w5 H5. hstep H5.
        destruct (_ <? 0) eqn:N; [hstep H3|]. hstep H3. unfold balance in *. cbn. intros q. unfold upd.
        destruct (q =? a_id b); [lia | auto]. }
      hbind H v w3 H3. hbind H v' w4 H4. hstep H. cbn. eapply AB; [|exact H4]. eapply AB; eauto. }
    eapply K; eauto.
  - apply claim_er in C as ->. auto.
Qed.

Lemma claim_loop_money s0 ts owner ids : keeps (money s0 0 0) (claim_loop ts owner ids).
Proof.
  induction ids as [|id r IH]; intros w u w' m H; cbn in H; [hstep H; auto|].
  destruct (state_claim_planet_reward id owner w) as [[c|e] w1] eqn:C.
  - assert (m1 := state_claim_money s0 _ _ _ _ _ m C). destruct (0 <? c); [|eapply IH; eauto].
    destruct (transfer _ _ _ _) as [[v|e] w2] eqn:T.
    + assert (m2 := transfer_money _ _ _ _ _ _ _ _ _ m1 T). eapply IH; [|exact H]. exact m2.
    + injection H as _ <-. apply transfer_er in T as [-> _]; [auto | apply m1].
  - apply claim_er in C as ->. eapply IH; eauto.
Qed.

Lemma exec_money s0 from c : keeps (money s0 0 0) (exec from c).
Proof.
  unfold exec, check_governance, check_nft, state_set_issue_start, state_add_manager, state_remove_manager,
    state_register_planet, unregister_planet, state_unregister_planet, add_lost, state_set_planet_owner, state_get_planet,
    claim_planet_reward, state_set_claim_rate, withdraw_lost_to, delete_lost, emit.
  destruct c; kp; first [apply claim_loop_money | apply report_money].
Qed.

Lemma history_money w0 w : genesis w0 -> history w0 w -> money (supply w0) 0 0 w.
Proof.
  intros g. apply (history_ind' w0 (money (supply w0) 0 0)).
  - destruct g as (_ & _ & lg & _ & _ & _ & _ & _ & _ & _ & _ & _ & _ & _ & _ & _ & nn & (l & nd & out & sm) & _).
    split; [auto|]. split; [exists l; repeat split; auto; lia|]. rewrite lg. cbn. lia.
  - intros v rev _ m. exact m.
  - intros v x u v' m. apply on_base_tx_money. auto.
  - intros v from c u v' _ m _. apply exec_money. auto.
  - intros v from to x u v' m _. apply transfer_money. auto.
Qed.
